{"id": "C01", "title": "phase-1 initialisation writes the documented file", "statement": "phase1.Initialize(p, out) leaves in `out` exactly the byte sequence: header (p, 0 contributions), 2N-1 copies of the compressed G1 generator, N copies for alpha, N for beta, N copies of the G2 generator and one more for [beta]_2, N = 2^p; its length is 3 + 192*N + 32 bytes, the size documented in docs/Format.md.", "quantifier": "every power p that fits the int arithmetic (0..62), every point codec", "why_tests_cant": "a test fixes one power; the layout must hold for every p and is what every later seek offset relies on", "anchors": ["phase1/phase1.go:Initialize", "phase1/header.go:writeTo", "docs/Format.md"]}
{"id": "C02", "title": "a phase-1 contribution multiplies every parameter by the right power", "statement": "If the input of phase1.Contribute is a well-formed phase-1 file with sections tauG1, alphaTauG1, betaTauG1, tauG2, betaG2, then the output is the well-formed phase-1 file whose i-th entries are the old ones times tau^i, alpha*tau^i, beta*tau^i, tau^i and beta; this is independent of the batch size and of the number of CPUs.", "quantifier": "every well-formed input file, every sampled (tau, alpha, beta) including 0, every batch size >= 2, every CPU count >= 1, any trailing bytes", "why_tests_cant": "batch boundaries only occur at 2^20 points and the chunking depends on the machine", "anchors": ["phase1/phase1.go:Contribute", "phase1/utils.go:scaleG1", "phase1/utils.go:scaleG2", "phase1/utils.go:powers", "phase1/utils.go:batchMul"]}
{"id": "C03", "title": "phase-1 Contribute preserves history and appends exactly one record", "statement": "On the same inputs the output header counts one more contribution, every earlier contribution record is preserved byte for byte and in order, and the single appended record holds the new tauG1[1], alphaTauG1[0], betaTauG1[0], tauG2[1], betaG2, three public keys made with the previous record's hash as challenge (empty for the first one) and domain tags 1,2,3, and the SHA-256 of all its points.", "quantifier": "every well-formed input file with fewer than 65535 contributions and every randomness; the four copied entries must not be the identity in a section longer than one batch unless the rest of the section is (otherwise a later entry is copied, proved separately)", "why_tests_cant": "histories are unbounded and record positions depend on power and contribution count", "anchors": ["phase1/phase1.go:Contribute", "phase1/contribution.go:writeTo", "phase1/contribution.go:ReadFrom", "phase1/contribution.go:computeHash", "common/keypair.go:GenPublicKey"]}
{"id": "C04", "title": "the phase-1 SRS is always the powers of the product of all secrets", "statement": "After Initialize(p) and any sequence of Contribute calls with secrets (tau_j, alpha_j, beta_j), the file's parameters are exactly [T^i]_1 (i<2N-1), [A T^i]_1, [B T^i]_1 (i<N), [T^i]_2 (i<N), [B]_2 with T, A, B the products of the secrets; hence independent of the order of the contributors.", "quantifier": "every power, every number of contributions up to 65535, every list of secrets", "why_tests_cant": "induction over an unbounded ceremony", "anchors": ["phase1/phase1.go:Initialize", "phase1/phase1.go:Contribute"]}
{"id": "C05", "title": "an honest phase-1 ceremony verifies", "statement": "After p1n and k >= 1 runs of p1c, p1v on the last file succeeds and reports the hashes of exactly the k contributions in order.", "quantifier": "every power 1..62, every k in 1..65535, all secrets, all verifier randomness, all hash functions (given gnark's MultiExp rejects slices of different lengths)", "why_tests_cant": "the test runs one power with four contributions", "anchors": ["phase1/phase1.go:Verify", "phase1/utils.go:verifyContribution", "phase1/utils.go:linearCombinationG1"]}
{"id": "C06", "title": "the contribution counter survives any number of contributions (DOES NOT HOLD)", "statement": "Users expect a ceremony to accept any number of contributions. The header counter is a uint16 that wraps: Contribute on a file with 65535 contributions succeeds, reports success, and writes a file whose header says 0 contributions; p1v then rejects that file whenever [beta]_2 is not the identity.", "quantifier": "every well-formed file with 65535 contributions, every randomness", "why_tests_cant": "needs 65536 contributions to observe", "anchors": ["phase1/header.go:Header", "phase1/phase1.go:Contribute", "phase1/phase1.go:Verify"]}
{"id": "C07", "title": "p1v rejects a file whose powers-of-tau are inconsistent (DOES NOT HOLD)", "statement": "Users rely on p1v accepting only structured reference strings. In the code the random linear combinations call MultiExp with slices of different lengths and drop its error, so both sides are the identity and every pairing check on parameters is vacuous: p1v's verdict on a file whose sections decode depends only on the header, on [beta]_2 and on the contribution records; replacing tauG1, alphaTauG1, betaTauG1, tauG2 by arbitrary points never changes the verdict.", "quantifier": "every phase-1 file, every replacement of the four parameter sections by arbitrary points, every verifier randomness", "why_tests_cant": "no finite test suite enumerates replaced sections; the shipped test passes because the checks cannot fail", "anchors": ["phase1/utils.go:linearCombinationG1", "phase1/utils.go:linearCombinationG2", "phase1/phase1.go:Verify"]}
{"id": "C08", "title": "the tauG2 check of p1v is the right equation (DOES NOT HOLD)", "statement": "If MultiExp did combine the common prefix of its arguments, p1v's tauG2 check e(G1, L1) = e([tau]_1, L2) would compare L1 with tau*L2 instead of L2 with tau*L1: on an honest file it would pass only if tau^2 = 1 or the random combination is the identity, so honest ceremonies would be rejected.", "quantifier": "every honest file, every batch size, all randomness, under the truncating reading of MultiExp", "why_tests_cant": "hidden by C07: the check is never exercised", "anchors": ["phase1/phase1.go:Verify", "common/utils.go:SameRatio"]}
{"id": "C09", "title": "accepted contribution chains are multiplicative updates", "statement": "If p1v accepts and no public key in the chain has its base point S at infinity and no hash-to-curve result is the identity, then there are x_tau, x_alpha, x_beta per contribution such that every record's [tau]_1, [alpha]_1, [beta]_1, [tau]_2, [beta]_2 is the previous one times them, starting from the generators (or from the transformed file); hence the last record's tau and beta agree in G1 and G2, and the file's [beta]_2 equals the last record's.", "quantifier": "every byte string accepted by p1v, any number of contributions", "why_tests_cant": "adversarial inputs of any length", "anchors": ["phase1/phase1.go:Verify", "phase1/utils.go:verifyContribution", "common/utils.go:SameRatio"]}
{"id": "C10", "title": "identity public keys cannot be used to forge a contribution (DOES NOT HOLD)", "statement": "Users expect each accepted record to be bound to the previous one in both groups. verifyContribution accepts a record whose public keys have S = SX = identity together with an arbitrary [tau]_2 and [beta]_2, and accepts the all-identity record (tau=alpha=beta=0) after any history.", "quantifier": "every previous record, every choice of [tau]_2, [beta]_2", "why_tests_cant": "unit tests only feed honest records", "anchors": ["phase1/utils.go:verifyContribution", "common/utils.go:SameRatio"]}
{"id": "C11", "title": "the last phase-1 contribution hash commits to the whole history", "statement": "If two accepted chains of the same length start from the same origin, have non-zero public keys, and end with the same hash, then either all their records are equal or an explicit collision of SHA-256 or of hash-to-G2 is exhibited.", "quantifier": "all pairs of accepted chains of any length", "why_tests_cant": "quantifies over pairs of adversarial histories", "anchors": ["phase1/contribution.go:computeHash", "common/keypair.go:GenSP", "phase1/utils.go:verifyContribution"]}
{"id": "C12", "title": "p1v on a file without contributions", "statement": "On a file with header count 0 and decodable sections p1v fails unless [beta]_2 is the identity; in particular it rejects every freshly initialised file, but it accepts a forged file with no contributions at all when [beta]_2 is the identity, whatever the other points are.", "quantifier": "every file with zero contributions", "why_tests_cant": "adversarial inputs", "anchors": ["phase1/phase1.go:Verify"]}
{"id": "C13", "title": "truncated headers are rejected (DOES NOT HOLD)", "statement": "The 3-byte header round-trips for every power and count, and reading it consumes exactly 3 bytes; but a file cut after 2 bytes is parsed successfully with a wrong count (second byte times 256) instead of failing.", "quantifier": "all headers; all 2-byte files", "why_tests_cant": "short reads depend on file length", "anchors": ["phase1/header.go:ReadFrom", "phase1/header.go:writeTo"]}
{"id": "C14", "title": "phase-1 hash reads never hit a buffer boundary", "statement": "In phase 1 the 32-byte hash of a contribution is read with a single Read that may be short at a buffer boundary; for every power, every number of contributions and both buffer sizes (4096 and 2^20) it always returns all 32 bytes on well-formed files.", "quantifier": "every power, count, position and buffer size that is a multiple of 32", "why_tests_cant": "boundary positions depend on power and count", "anchors": ["phase1/contribution.go:ReadFrom", "phase1/phase1.go:Contribute", "phase1/phase1.go:Verify"]}
{"id": "C15", "title": "Transform re-encodes and truncates a PPoT file", "statement": "For a powers-of-tau challenge file of power a (64-byte hash, raw points) and b <= a, phase1.Transform writes the phase-1 file of power b with no contributions whose sections are the prefixes of the input's sections; on a file that holds powers of tau the result holds powers of the same tau.", "quantifier": "all powers 0 <= b <= a <= 54 (larger files exceed 2^63 bytes), all point values", "why_tests_cant": "offset arithmetic over all pairs of powers", "anchors": ["phase1/phase1.go:Transform", "phase1/utils.go:transformG1", "phase1/utils.go:transformG2"]}
{"id": "C16", "title": "p1vt accepts an honest ceremony that starts from a transformed file", "statement": "defaultContribution reads [tau]_1,[alpha]_1,[beta]_1,[tau]_2,[beta]_2 of the transformed file at the right offsets for every power >= 1, and after Transform and k >= 1 runs of Contribute, Verify(last, transformed) succeeds.", "quantifier": "all powers >= 1, all k in 1..65535, all secrets", "why_tests_cant": "offsets depend on the power", "anchors": ["phase1/contribution.go:defaultContribution", "phase1/phase1.go:Verify"]}
{"id": "C17", "title": "one honest contributor suffices (bijectivity)", "statement": "For fixed non-zero secrets of all other contributors, the map from the honest contributor's non-zero secret to the final secret is a bijection of the non-zero scalars, in every position of the ceremony: a uniform secret gives a uniform result.", "quantifier": "every ceremony length, every position, all other secrets", "why_tests_cant": "a statement about all secrets", "anchors": ["phase1/phase1.go:Contribute", "phase2/phase2.go:Contribute"]}
{"id": "C18", "title": "contributing never changes the input file or any other file", "statement": "phase1.Contribute, phase2.Contribute and Transform with different input and output paths modify only the output path, whatever happens (success, error, panic). With equal paths the input is destroyed: the call fails and the file is left empty (3-byte header for Transform).", "quantifier": "every file system, every pair of paths, every file content", "why_tests_cant": "all contents and all failure points", "anchors": ["phase1/phase1.go:Contribute", "phase2/phase2.go:Contribute", "phase1/phase1.go:Transform"]}
{"id": "C19", "title": "p1n accepts only powers 0..26 (DOES NOT HOLD)", "statement": "Users expect p1n to reject unusable powers. The check is `power > 26` on a signed int followed by a conversion to byte: every negative argument is accepted; e.g. p1n -1 (written `p1n -- -1 out`, since a leading -1 is taken for a flag) succeeds and writes a 67-byte file with power 255, which no later command can use. For arguments 0..26 the power written is the argument, and arguments above 26 are rejected.", "quantifier": "every integer argument", "why_tests_cant": "negative arguments are not exercised", "anchors": ["actions.go:p1n", "phase1/phase1.go:Initialize"]}
{"id": "C20", "title": "power 0 is rejected everywhere (DOES NOT HOLD)", "statement": "p1n 0 succeeds, but Contribute on any power-0 file panics with an index error, after creating the output file.", "quantifier": "every power-0 file and randomness", "why_tests_cant": "edge of the domain", "anchors": ["phase1/utils.go:scaleG1", "actions.go:p1n"]}
{"id": "C21", "title": "Parallelize covers every index exactly once", "statement": "For every number of iterations and every positive number of tasks, the [start,end) ranges handed to the workers are consecutive, non-empty, and partition [0,n).", "quantifier": "all n >= 0, all task counts >= 1", "why_tests_cant": "chunk arithmetic depends on the machine's CPU count", "anchors": ["common/parallelize.go:Parallelize"]}
{"id": "C22", "title": "parallel loops are deterministic under every schedule", "statement": "A loop run through Parallelize whose body at index i touches only cell i ends, under every interleaving of the goroutines, with every cell updated exactly once from its initial value; every schedule terminates.", "quantifier": "all interleavings, all n, all CPU counts, all element functions", "why_tests_cant": "schedules cannot be enumerated by tests", "anchors": ["common/parallelize.go:Parallelize", "phase1/utils.go:scaleG1", "phase2/utils.go:scale", "phase1/utils.go:batchMul"]}
{"id": "C23", "title": "bit reversal is the bit-reversal permutation", "statement": "BitReverseG1/G2 on 2^k points (k <= 63) moves entry i to the index whose k-bit expansion is reversed; applying it twice is the identity; index 2^k-1 is fixed; the multi-goroutine variant used by the FFT gives the same result under every schedule and CPU count.", "quantifier": "all k, all point arrays, all interleavings, all CPU counts", "why_tests_cant": "sizes and schedules", "anchors": ["common/utils.go:BitReverseG1", "lagrange/g1.go:bitReversePointsG1"]}
{"id": "C24", "title": "ConvertG1/G2 computes the Lagrange basis", "statement": "For every array a of 2^k points and the domain with generator w of order 2^k, the output b satisfies, for every polynomial with coefficients c of length 2^k: sum_j b_j * c(w^j) = sum_i c_i a_i. In particular from [tau^i] it produces [L_j(tau)]. This holds under every interleaving of the goroutines and every CPU count.", "quantifier": "all k >= 1, all arrays, all schedules, all CPU counts", "why_tests_cant": "the recursion, the size-8 kernel, the thresholds and the parallel splits are only sampled by tests", "anchors": ["lagrange/g1.go:difFFTG1", "lagrange/g1.go:kerDIF8G1", "lagrange/g1.go:ConvertG1", "lagrange/g2.go:ConvertG2"]}
{"id": "C25", "title": "the FFT never divides by zero or indexes out of range", "statement": "For every CPU count, in every recursive call that splits, NumCPU >> stage is at least 1; all array and twiddle accesses are inside the slices.", "quantifier": "all CPU counts, all sizes 2^k, all stages", "why_tests_cant": "depends on the machine", "anchors": ["lagrange/g1.go:difFFTG1", "common/parallelize.go:Parallelize"]}
{"id": "C26", "title": "the phase-2 domain is the least power of two >= max(2, #constraints)", "statement": "nextPowerofTwo(n) returns the least power of two that is >= 2 and >= n for every n <= 2^27 and panics for larger n.", "quantifier": "every integer n", "why_tests_cant": "all n", "anchors": ["phase2/utils.go:nextPowerofTwo"]}
{"id": "C27", "title": "the accepted circuit fits the phase-1 file", "statement": "If p2n accepts a circuit against a phase-1 file of power p >= 1 then domain <= 2^p, so every section it reads (domain points of each vector, 2*domain-1 of tauG1) lies inside the corresponding phase-1 section; for p = 0 this fails: one constraint is accepted with domain 2.", "quantifier": "all powers and constraint counts", "why_tests_cant": "boundary between constraints and domain", "anchors": ["phase2/utils.go:processHeader", "phase2/utils.go:processLagrange", "phase2/utils.go:processDeltaAndZ"]}
{"id": "C28", "title": "wire counts of the phase-2 header partition the wires", "statement": "Wires = Public + Witness + PrivateCommitted for every circuit, with or without commitment.", "quantifier": "every circuit", "why_tests_cant": "all circuits", "anchors": ["phase2/utils.go:processHeader", "phase2/parted.go:processHeaderParted"]}
{"id": "C29", "title": "p2n reads the sections it means to read", "statement": "On a well-formed phase-1 file of any power p >= 1, the seek offsets used by phase-2 initialisation yield exactly the first `domain` points of tauG1, alphaTauG1, betaTauG1, tauG2, the points [alpha]_1 = alphaTauG1[0], [beta]_1 = betaTauG1[0], [beta]_2, and srs.lag/evals are re-read at the right offsets.", "quantifier": "all powers, domains, wire counts, contents", "why_tests_cant": "offset arithmetic over all sizes", "anchors": ["phase2/utils.go:readPhase1", "phase2/utils.go:processLagrange", "phase2/lagrange.go:lagrangeG1", "phase2/utils.go:processEvaluations"]}
{"id": "C30", "title": "[A]_1, [B]_1, [B]_2 are the circuit polynomials at tau", "statement": "For every circuit, the evals written by p2n hold for each wire w the points [sum_i L_{i,w} L_i(tau)]_1, [sum_i R_{i,w} L_i(tau)]_1 and the same in G2, whatever mix of special and general coefficient ids is used.", "quantifier": "all circuits, all tau", "why_tests_cant": "all circuits", "anchors": ["phase2/utils.go:processEvaluations", "phase2/utils.go:accumulateG1", "phase2/utils.go:accumulateG2"]}
{"id": "C31", "title": "PKK and VKK hold beta*A + alpha*B + C, split at the public wires", "statement": "For every circuit without commitment, p2n puts [beta A_w + alpha B_w + C_w]_1 for the public wires, in order, in VKK and for all other wires, in order, in PKK; every wire appears exactly once; CKK is empty; lengths match the header.", "quantifier": "all circuits without commitment, all tau, alpha, beta", "why_tests_cant": "all circuits", "anchors": ["phase2/utils.go:processPVCKK", "phase2/utils.go:filterL"]}
{"id": "C32", "title": "circuits with commitments are supported (DOES NOT HOLD)", "statement": "filterL indexes the committed-wire list with the wire number: for every circuit with at least one private committed wire p2n panics. With only public committed wires it panics too unless the commitment wire directly follows the public wires.", "quantifier": "every circuit with a commitment", "why_tests_cant": "no test circuit uses commitments", "anchors": ["phase2/utils.go:filterL"]}
{"id": "C33", "title": "Z holds tau^i (tau^n - 1) in bit-reversed order", "statement": "p2n writes n-1 points Z with Z[rev(i)] = [tau^{i+n} - tau^i]_1 for i < n-1; the truncated last entry is always the unused identity.", "quantifier": "all domains, all tau", "why_tests_cant": "all sizes", "anchors": ["phase2/utils.go:processDeltaAndZ", "common/utils.go:BitReverseG1"]}
{"id": "C34", "title": "parted initialisation agrees with regular initialisation", "statement": "With nbCons equal to the number of constraints, p2np writes the same phase-2 file, srs.lag and evals as p2n. With a smaller nbCons it silently ignores the remaining constraints: the keys of a weaker circuit are produced without any error (DOES NOT reject).", "quantifier": "all circuits, all nbCons", "why_tests_cant": "all circuits and arguments", "anchors": ["phase2/parted.go:InitializeFromPartedR1CS", "phase2/parted.go:processEvaluationsParted", "phase2/parted.go:processPVCKKParted"]}
{"id": "C35", "title": "a phase-2 contribution scales delta and divides Z and PKK", "statement": "On a well-formed phase-2 file whose contribution hashes do not straddle a 4096-byte boundary, phase2.Contribute writes the file with [delta]_1,[delta]_2 times d, Z and PKK times 1/d, one more contribution, all previous records unchanged; batch size and CPU count do not matter.", "quantifier": "all such files, all d", "why_tests_cant": "all sizes and histories", "anchors": ["phase2/phase2.go:Contribute", "phase2/utils.go:scale"]}
{"id": "C36", "title": "phase-2 records are always copied intact (DOES NOT HOLD)", "statement": "The hash of a phase-2 record is read with one bufio Read, which is short when the 32 bytes straddle a multiple of 4096; phase-2 records are not 32-aligned because of the gob header. For every file in which the last record's hash straddles a boundary and its missing tail is not all zeros, Contribute returns success and writes a file in which that record's hash is corrupted; and p2v rejects an honest file whose record straddles. A concrete honest ceremony exhibits it.", "quantifier": "all phase-2 files, all positions", "why_tests_cant": "needs a particular residue of the file length; roughly half of the circuits are hit within 64 contributions, none of the tests are", "anchors": ["phase2/contribution.go:readFrom", "phase2/phase2.go:Contribute", "phase2/phase2.go:Verify"]}
{"id": "C37", "title": "an honest phase-2 ceremony verifies", "statement": "Starting from an initial phase-2 file, after k >= 1 contributions with non-zero secrets and provided no record hash straddles a 4096-byte boundary, p2v(last, initial) succeeds and reports the k hashes in order.", "quantifier": "all initial files, all k, all secrets, all verifier randomness", "why_tests_cant": "unbounded ceremony", "anchors": ["phase2/phase2.go:Verify", "phase2/phase2.go:Contribute"]}
{"id": "C38", "title": "p2v catches every inconsistent Z or PKK except with probability 1/|F|", "statement": "If the parameter sections of both files decode and some entry of Z or PKK is not the origin's entry divided by delta, then for every choice of the other random scalars at most one value of that entry's random scalar makes p2v's check pass; hence at most a 1/|F| fraction of the randomness accepts.", "quantifier": "all files, all positions, all randomness", "why_tests_cant": "a probability over a 254-bit field", "anchors": ["phase2/utils.go:verifyParameter", "phase2/utils.go:aggregate"]}
{"id": "C39", "title": "p2v rejects files whose parameters do not decode (DOES NOT HOLD)", "statement": "verifyParameter returns nil when aggregation fails: a file whose Z and PKK sections do not decode passes these checks. There is a file accepted by p2v on which the next p2c and key extraction fail.", "quantifier": "existential witness plus: every decoding failure makes the check pass", "why_tests_cant": "error paths", "anchors": ["phase2/utils.go:verifyParameter"]}
{"id": "C40", "title": "accepted phase-2 chains end at the file's delta", "statement": "If p2v accepts then the records form a chain of multiplicative updates from the origin's [delta]_1 to the file's [delta]_1, every record's hash is the SHA-256 of its points, [delta]_1 and [delta]_2 of the file are the same multiple of the origin's, and all header fields other than the count equal the origin's; a file with zero contributions or a different header is rejected.", "quantifier": "all byte strings accepted by p2v", "why_tests_cant": "adversarial inputs", "anchors": ["phase2/phase2.go:Verify", "phase2/utils.go:verifyContribution", "phase2/header.go:Equal"]}
{"id": "C41", "title": "the last phase-2 contribution hash commits to the whole history", "statement": "Two accepted phase-2 chains of equal length from the same origin with non-zero public keys and the same last hash are equal, or an explicit SHA-256 or hash-to-G2 collision is exhibited.", "quantifier": "all pairs of accepted chains", "why_tests_cant": "pairs of adversarial histories", "anchors": ["phase2/contribution.go:computeHash", "common/keypair.go:GenSP", "phase2/utils.go:verifyContribution"]}
{"id": "C42", "title": "proofs of knowledge are domain-separated between phases (DOES NOT HOLD)", "statement": "Phase 1 uses tags 1,2,3 for tau, alpha, beta and phase 2 uses tag 1 for delta: the tau proof of knowledge of any accepted first phase-1 record is accepted, unchanged, as the delta proof of knowledge of a first phase-2 record.", "quantifier": "every accepted first phase-1 record", "why_tests_cant": "cross-protocol", "anchors": ["common/keypair.go:GenSP", "phase1/phase1.go:Contribute", "phase2/phase2.go:Contribute"]}
{"id": "C43", "title": "the phase-2 header round-trips", "statement": "For every header with fields in the int64 range, gob-encoding then decoding returns the same header and consumes exactly the encoded bytes. The bytes are those the documentation of encoding/gob prescribes for a struct Header of seven ints with these names, and no others are.", "quantifier": "all headers", "why_tests_cant": "variable-length encoding", "anchors": ["phase2/header.go:Read", "phase2/header.go:write"]}
{"id": "C44", "title": "VK extraction finds VKK in evals", "statement": "The offset 128*(Wires+1)+12 is exactly where the VKK section starts for every wire count as long as the product fits the platform int; on 32-bit builds (linux_386, linux_arm in build.sh) it overflows for circuits with 2^24 wires.", "quantifier": "all wire counts, 32- and 64-bit int", "why_tests_cant": "all sizes; 32-bit targets", "anchors": ["keys/keys.go:extractVK", "keys/keys.go:extractSplitVK", "build.sh"]}
{"id": "C45", "title": "infinity filtering loses nothing", "statement": "filterInfinityG1/G2 return the non-identity points in order, the flags and the count; the original array is recoverable; B1 and B2 have the same flags whenever they come from the same circuit and SRS, as the single infinityB vector of the proving key requires.", "quantifier": "all arrays, all circuits", "why_tests_cant": "all arrays", "anchors": ["keys/keys.go:filterInfinityG1", "keys/keys.go:filterInfinityG2", "keys/keys.go:extractPK"]}
{"id": "C46", "title": "extracted keys are a Groth16 key pair for the ceremony's trapdoor", "statement": "After phase 1 with product secrets (T,A,B), p2n on a circuit without commitment, and phase-2 contributions with product D, the extracted pk and vk hold exactly the Groth16 elements for trapdoor (alpha=A, beta=B, gamma=1, delta=D, tau=T).", "quantifier": "all ceremonies, all circuits without commitment", "why_tests_cant": "end to end over all ceremonies and circuits", "anchors": ["keys/keys.go:extractPK", "keys/keys.go:extractVK", "phase2/phase2.go:Initialize"]}
{"id": "C47", "title": "Groth16 completeness for the extracted keys", "statement": "With the extracted keys, for every assignment that satisfies all constraints and every prover randomness, the Groth16 proof computed from pk satisfies the Groth16 verification equation with vk.", "quantifier": "all circuits, all satisfying assignments, all trapdoors with delta != 0, all prover randomness", "why_tests_cant": "one circuit and witness in the test", "anchors": ["keys/keys.go:ExtractKeys", "phase2/phase2.go:Initialize"]}
{"id": "C48", "title": "split extraction writes the same key", "statement": "keys writes to the *.save files the same elements as key writes to pk/vk (raw instead of compressed), and the commitment key file contains the commitment key twice.", "quantifier": "all phase-2/evals files", "why_tests_cant": "all files", "anchors": ["keys/keys.go:extractSplitPK", "keys/keys.go:extractSplitVK"]}
{"id": "C49", "title": "the verifying key carries the circuit's commitment info (DOES NOT HOLD)", "statement": "extractVK never reads the commitment info stored in evals: the vk always contains the empty commitment info, whatever the circuit.", "quantifier": "all evals files", "why_tests_cant": "no test circuit uses commitments", "anchors": ["keys/keys.go:extractVK", "phase2/utils.go:processPVCKK"]}
{"id": "C50", "title": "key extraction uses the evaluations of its own ceremony (DOES NOT HOLD)", "statement": "evals and srs.lag have fixed names: after initialising two circuits in one directory, extracting keys from the first circuit's phase-2 file uses the second circuit's evaluations and, if sizes permit, succeeds with inconsistent keys.", "quantifier": "all pairs of initialisations", "why_tests_cant": "cross-run state", "anchors": ["phase2/utils.go:processEvaluations", "keys/keys.go:extractPK"]}
{"id": "C51", "title": "a full disk is reported (DOES NOT HOLD)", "statement": "Contribute ignores the errors of its last record write and of the deferred Flush: when the disk fills up during the last buffered block, it returns success and the output is truncated. If no write fails, the file is complete. The same holds for Initialize of both phases and for key extraction: whenever such a command succeeds on a large disk, it also reports success on a disk one byte too small, with the last byte of one file missing. On a disk with room for all bytes written every command does what it does without limits.", "quantifier": "all disk capacities", "why_tests_cant": "failure injection at every byte", "anchors": ["phase1/phase1.go:Contribute", "phase2/phase2.go:Contribute", "phase1/phase1.go:Initialize", "phase2/phase2.go:Initialize", "keys/keys.go:extractPK"]}
{"id": "C52", "title": "a crash leaves a prefix", "statement": "At every crash point during Contribute the output file is a prefix of the final output and the input is unchanged. At every crash point of the other commands every file is as before or a prefix of what the completed command would have left there.", "quantifier": "all crash points, inputs and devices", "why_tests_cant": "all crash points", "anchors": ["phase1/phase1.go:Contribute", "phase2/phase2.go:Contribute", "phase1/phase1.go:Transform", "phase2/phase2.go:Initialize", "keys/keys.go:ExtractKeys", "keys/keys.go:ExtractSplitKeys"]}
{"id": "C53", "title": "p2n uses the parameters p1v parsed (DOES NOT HOLD)", "statement": "p1v parses sequentially and accepts points in raw encoding, while p2n seeks to fixed offsets computed for compressed points: re-encoding the first point of the tau2 section of an accepted file in raw form leaves its contents and the verdict of p1v unchanged, but p2n succeeds and writes the last element of that section, [tau^(N-1)]_2, where [beta]_2 belongs.", "quantifier": "all files with compressed points, all circuits without commitment that fit; on files with only compressed points both agree (C29)", "why_tests_cant": "parser differential", "anchors": ["phase1/phase1.go:Verify", "phase2/utils.go:readPhase1"]}
{"id": "C54", "title": "a zero phase-2 secret is detected (partially)", "statement": "If the sampled delta is 0, Contribute succeeds and writes delta = identity, Z = PKK = identities; p2v rejects it except when the origin's aggregated parameters vanish.", "quantifier": "all files", "why_tests_cant": "negligible probability event", "anchors": ["phase2/phase2.go:Contribute", "phase2/phase2.go:Verify"]}
{"id": "C55", "title": "nothing stays in a buffer", "statement": "On a working file system, when a command returns (with success, an error or a panic), every byte it wrote through a bufio.Writer is in the file: the files are those of the model without buffers.", "quantifier": "all inputs and file systems, inputs and outputs having different names", "why_tests_cant": "a missing Flush only shows for some sizes", "anchors": ["phase1/phase1.go:Contribute", "phase1/phase1.go:Transform", "phase1/phase1.go:Initialize", "phase2/phase2.go:Contribute", "phase2/utils.go:processLagrange", "keys/keys.go:extractPK"]}
{"id": "C56", "title": "commands change nothing but their outputs", "statement": "Initialisation of both phases and key extraction modify only their output files (phase-2 file, srs.lag, evals; pk, vk; the *.save files), whatever happens and at every point where the process is killed.", "quantifier": "all inputs, devices and crash points", "why_tests_cant": "all failure points", "anchors": ["phase1/phase1.go:Initialize", "phase2/phase2.go:Initialize", "phase2/parted.go:InitializeFromPartedR1CS", "keys/keys.go:ExtractKeys", "keys/keys.go:ExtractSplitKeys"]}
{"id": "C57", "title": "useless command lines are refused before anything is touched", "statement": "An unknown command, a wrong number of arguments, an argument that is not a decimal int64 where one is expected, a power above 26 for p1n and an output power above the input power for p1t all end in an error, with no file created, truncated or written. The numbers accepted are exactly an optional sign and one or more decimal digits within int64.", "quantifier": "all command lines, file systems and devices", "why_tests_cant": "unbounded set of strings", "anchors": ["actions.go:p1t", "actions.go:p1n", "actions.go:p2np", "main.go:main"]}
{"id": "C58", "title": "every command line touches only its outputs; checking writes nothing", "statement": "Whatever the command line, whatever happens and whenever the process is killed, only the files of a fixed table change (p1n, p1c, p1t, p2c: the output; p2n, p2np: the output, srs.lag, evals; key: pk, vk; keys: the eight *.save files; sol: session.sol). p1v, p1vt and p2v perform no file operation at all and return the verdict of Verify; p1vt with an empty second name is p1v; sol writes gnark's export of session.vk.save.", "quantifier": "all command lines, inputs, devices and crash points", "why_tests_cant": "all failure points", "anchors": ["main.go:main", "actions.go:p1v", "actions.go:p1vt", "actions.go:p2v", "actions.go:exportSol", "keys/keys.go:ExportSol"]}
{"id": "C59", "title": "a phase-1 ceremony at the command line", "statement": "Running p1n with a power 1..26, p1c once per contributor (the output of one being the input of the next) and p1v on the last file, in any working directory: every command succeeds, p1v prints exactly the hashes the contributors saw, in order, and no other file changes.", "quantifier": "all working directories, powers, file names, numbers of contributors up to 65535 and all secrets", "why_tests_cant": "unbounded ceremonies", "anchors": ["main.go:main", "actions.go:p1n", "actions.go:p1c", "actions.go:p1v"]}
{"id": "C60", "title": "a whole ceremony at the command line gives the key pair", "statement": "p1n, p1c..., p1v, p2n, p2c..., p2v, key one after the other all succeed, both verifications print the contributors' hashes, and the files pk and vk hold the Groth16 key pair of the circuit for the trapdoor made of the products of the contributors' secrets.", "quantifier": "all working directories, file names, circuits without commitment that fit, secrets (phase-2 secrets not 0) and numbers of contributors; phase-2 files in which no hash straddles a multiple of 4096 (C36)", "why_tests_cant": "end-to-end correctness for all circuits", "anchors": ["main.go:main", "actions.go:p2n", "actions.go:p2c", "actions.go:p2v", "actions.go:extract"]}
{"id": "C61", "title": "p1v notices missing records (DOES NOT HOLD)", "statement": "If an accepted phase-1 file is cut short and still accepted, then only bytes that are 0 were missing, at the end of the last hash, or a record answers its own hash as a challenge, or two neighbouring records mix to a SHA-256 collision. Because read errors in Verify's chain loop are dropped and the last record is verified again, a file with n declared contributions that holds one identity record after the others is accepted for every n up to 65535, with that record's hash printed for each missing one; p1c refuses it.", "quantifier": "all accepted files, cut positions and declared counts", "why_tests_cant": "every cut position of unbounded files", "anchors": ["phase1/phase1.go:Verify", "phase1/utils.go:verifyContribution"]}
{"id": "C62", "title": "which files p1c accepts", "statement": "p1c succeeds exactly on files that are readable after appending fewer than 32 zero bytes (none if there are no contributions), and treats both alike. So it accepts every file cut within the last hash without a word; if a byte other than 0 was missing, the file it writes is rejected by p1v.", "quantifier": "all byte strings as input", "why_tests_cant": "all inputs", "anchors": ["phase1/phase1.go:Contribute", "phase1/contribution.go:ReadFrom"]}
{"id": "C63", "title": "phase-2 files that end early", "statement": "If an accepted phase-2 file is cut short and still accepted, only zero bytes at the end of the last hash were missing and the same hashes are printed. p2c succeeds on a cut file exactly if it has a contribution and fewer than 32 bytes are missing; if a byte other than 0 was missing, the file it writes is rejected by p2v.", "quantifier": "all accepted files and cut positions", "why_tests_cant": "every cut position of unbounded files", "anchors": ["phase2/phase2.go:Verify", "phase2/phase2.go:Contribute", "phase2/contribution.go:readFrom"]}
{"id": "C64", "title": "keys come only from ceremonies with contributions to both phases (DOES NOT HOLD)", "statement": "key extracts a key pair from the output of p2n, to which nobody contributed: its delta is 1, and proofs for every assignment of the public inputs are made from the verifying key alone. p2n accepts the output of p1n, to which nobody contributed: alpha, beta and tau are 1, p2v accepts the file after any phase-2 contributions, and again proofs for every public input can be made.", "quantifier": "all circuits without commitment that fit, file names, secrets and numbers of contributors to the other phase", "why_tests_cant": "forgeability for every public input is a statement about all inputs", "anchors": ["keys/keys.go:ExtractKeys", "phase2/phase2.go:Initialize", "actions.go:p2n", "actions.go:extract"]}
{"id": "C65", "title": "each secret of the trapdoor suffices to forge proofs", "statement": "For a key pair of the circuit with trapdoor (alpha, beta, delta, tau): whoever knows delta (not 0), or alpha, or beta, or tau (with tau^n not 1, and the proving key) can make an accepted proof for every assignment, satisfying or not, as explicit combinations of points of the keys.", "quantifier": "all circuits, key pairs and assignments; alpha and beta also with any prover randomness", "why_tests_cant": "all assignments", "anchors": ["keys/keys.go:extractPK", "keys/keys.go:extractVK"]}
{"id": "C66", "title": "phase 2: the order of contributors does not matter and one honest contributor suffices", "statement": "Header and parameters after a phase-2 ceremony do not depend on the order of the contributors. For given non-zero secrets of all others, every non-zero delta is reached by exactly one non-zero secret of the remaining contributor, wherever they stand.", "quantifier": "all initial files, numbers of contributors, secrets and orders; files in which no hash straddles a multiple of 4096 (C36)", "why_tests_cant": "uniqueness over the whole field", "anchors": ["phase2/phase2.go:Contribute"]}
{"id": "C67", "title": "keys extracted from a file that p2v accepts belong to the circuit", "statement": "Let F be any bytes that p2v accepts against the output of p2n and from which key extracts keys with the evals of that run. Then pk and vk are the Groth16 key pair of the circuit for the phase-1 trapdoor and some delta that is not 0, or p2v accepted by chance: it drew for one entry the only scalar with which it accepts.", "quantifier": "all byte strings F (any encoding of header and points, any records), scalars, circuits without commitment that fit, and phase-1 parameters made from a trapdoor with tau^n not 1", "why_tests_cant": "adversarial files", "anchors": ["phase2/phase2.go:Verify", "phase2/utils.go:verifyParameter", "keys/keys.go:ExtractKeys", "keys/keys.go:extractPK", "keys/keys.go:extractVK"]}
{"id": "C68", "title": "a ceremony that starts from a powers-of-tau file gives the split key pair and the Solidity verifier", "statement": "p1t, any number of p1c, p1vt, p2n, any number of p2c, p2v, keys and sol, run one after the other from the command line on a powers-of-tau challenge file, all succeed; p1vt and p2v print the hashes the contributors were shown; the *.save files hold the Groth16 key pair of the circuit whose trapdoor is the product of the file's and all contributors' secrets, and session.sol is gnark's export of session.vk.save.", "quantifier": "all powers of the file and target powers not above it, secrets, junk after the file, numbers of contributors, circuits without commitment that fit, file names that do not collide; phase-2 hashes that do not straddle a multiple of 4096 (C36)", "why_tests_cant": "end-to-end correctness for all circuits and numbers of contributors", "anchors": ["actions.go:p1t", "actions.go:p1vt", "actions.go:extracts", "actions.go:sol", "phase1/phase1.go:Transform", "keys/keys.go:ExtractSplitKeys"]}
{"id": "C69", "title": "an accepted phase-1 file holds the contributors' secrets (DOES NOT HOLD)", "statement": "After a ceremony, someone who took no part and knows no secret replaces the parameters in the published file by ones with any tau and alpha they choose, computed from points of that file. p1v accepts it and prints the hashes the contributors were shown; p2n, p2c, p2v and key succeed on it; the key pair has their tau and alpha, and with alpha they make accepted proofs for every assignment.", "quantifier": "all ceremonies, circuits without commitment that fit, values of tau and alpha, and assignments", "why_tests_cant": "forgeability for every public input is a statement about all inputs", "anchors": ["phase1/phase1.go:Verify", "phase2/phase2.go:Initialize", "keys/keys.go:ExtractKeys"]}
{"id": "C70", "title": "keys extracted after p2v has accepted are those p2v vouches for (DOES NOT HOLD)", "statement": "p2v does not read evals. Whoever can write that file after p2n puts any alpha, beta, A, B and VKK with the right number of wires into it; p2v still accepts and key writes a key pair with exactly these elements, for which proofs for every assignment can be made.", "quantifier": "all ceremonies, circuits without commitment that fit, replaced evaluations and assignments", "why_tests_cant": "all contents of the file", "anchors": ["phase2/phase2.go:Verify", "keys/keys.go:extractPK", "keys/keys.go:extractVK"]}
{"id": "C71", "title": "a command depends on nothing but its input files", "statement": "In two directories that hold the same input files a command line gives the same result; every file ends up the same in both or is left alone in both, and after success all output files are the same. Old files with the names of the outputs, srs.lag and evals included, make no difference.", "quantifier": "all command lines, directories, devices (also full disks) and random choices, also when an input is named as an output", "why_tests_cant": "a statement about pairs of arbitrary directories", "anchors": ["actions.go:p1n", "actions.go:p1c", "actions.go:p2n", "actions.go:p2np", "actions.go:extract", "actions.go:extracts", "phase2/phase2.go:Initialize", "keys/keys.go:ExtractKeys"]}
{"id": "C72", "title": "a command that was killed can be run again", "statement": "However often a command line was started and killed, with whatever random choices and on whatever device, running it again has the result it has in the directory before the first attempt, and if it succeeds every file is the same as without the attempts. Its inputs must not be named as outputs.", "quantifier": "all command lines whose inputs and outputs have different names, directories, numbers of attempts and moments of death", "why_tests_cant": "all moments of death", "anchors": ["actions.go:p1c", "actions.go:p2n", "actions.go:p2c", "actions.go:extract", "phase1/phase1.go:Contribute", "phase2/phase2.go:Initialize", "phase2/phase2.go:Contribute"]}
{"id": "C73", "title": "ceremonies with different files do not disturb each other", "statement": "Two sequences of command lines are run in one directory, mixed in any way. If no line of one writes a file that a line of the other reads or writes, every line has the result it has when the other sequence is not run, and every file ends as the sequence that writes it leaves it.", "quantifier": "all pairs of sessions and all ways to mix them, directories, devices, random choices; two phase-2 initialisations never qualify since both write srs.lag and evals (C50)", "why_tests_cant": "all mixtures", "anchors": ["main.go:main", "phase2/phase2.go:Initialize", "keys/keys.go:ExtractKeys"]}
{"id": "C74", "title": "a file that cannot be created is reported", "statement": "When os.Create fails, for whatever file and whenever, the command line ends with that error (sol: with a panic); otherwise the run is exactly the one in which every file can be created. A command line with an output that cannot be created never reports success and leaves that file as it was.", "quantifier": "all command lines, directories, random choices, and all devices: any set of files that cannot be created at any time, together with any full disk", "why_tests_cant": "all sets of files and moments", "anchors": ["phase1/phase1.go:Initialize", "phase1/phase1.go:Contribute", "phase2/phase2.go:Initialize", "phase2/utils.go:processLagrange", "phase2/utils.go:processEvaluations", "keys/keys.go:extractSplitPK", "keys/keys.go:ExportSol"]}
{"id": "C75", "title": "command lines run at the same time do not disturb each other", "statement": "Any number of command lines are started in one directory and run at the same time. If none writes a file that another reads or writes, each of them finishes once it has had enough turns, with the result and the output files it has when it runs alone. At every moment its outputs are as if it ran alone and had been killed, and the files nobody writes are as they were.", "quantifier": "all sets of command lines, all schedules of their reads, writes, opens and creations, all directories, random choices, and a device (full disk, files that cannot be created) for each", "why_tests_cant": "all interleavings of file operations", "anchors": ["main.go:main", "phase1/phase1.go:Contribute", "phase1/phase1.go:Verify", "phase2/phase2.go:Initialize", "phase2/phase2.go:Contribute", "keys/keys.go:ExtractKeys"]}
{"id": "C76", "title": "two phase-2 initialisations with different output files can run at the same time", "statement": "Two runs of p2n with different phase-1 files and different output files, started at the same time in one directory, each leave the output file they leave alone. (False: both use srs.lag and evals. When the second runs after the first has written srs.lag and before it reads it, both succeed, the contribution to the first output and its verification succeed, and the output, the proving key and the verifying key are wrong.)", "quantifier": "a schedule, a directory and a circuit", "why_tests_cant": "depends on the schedule", "anchors": ["phase2/utils.go:processLagrange", "phase2/utils.go:processEvaluations", "phase2/utils.go:processPVCKK"]}
{"id": "C77", "title": "p1v's parameter checks would establish powers of tau if MultiExp were called as intended (DOES NOT HOLD)", "statement": "Suppose MultiExp combined the common prefix of its arguments. Then p1v, on a file with the records of a ceremony and any parameters, accepts with every randomness exactly if, inside every batch of 2^20 points, each entry of tauG1, alphaTauG1 and betaTauG1 is tau times the one before, each entry of tauG2 is tau times the one after it, and [beta]_2 is the product of the secrets; if two neighbours of one batch are off, at most one value of their random scalar is accepted. Users would expect accepted parameters to be [tau^i], [alpha tau^i], [beta tau^i]. (False: entries of different batches and the first entries are never compared, so every batch of every section may have its own factor.)", "quantifier": "all powers, ceremonies, batch sizes, parameters and random scalars", "why_tests_cant": "probabilistic check; the gap shows only with more than 2^20 points", "anchors": ["phase1/phase1.go:Verify", "phase1/utils.go:linearCombinationG1", "phase1/utils.go:linearCombinationG2"]}
{"id": "C78", "title": "A file from somebody else cannot crash the tool (DOES NOT HOLD)", "statement": "Every command that reads a damaged or hostile file reports an error and does not panic. (True of p1t and p1n always; of p2n for every phase-1 file whatever, if the circuit has no commitment, or one to public wires only whose own wire comes first; of p2c, p2v, key, keys for every file whose header has a positive domain, at most the largest for key, no negative number of witnesses and both at most 2^42. False otherwise: p1v panics exactly on files of two bytes or more with a power of 63 or more; p1c on these, and on files with power 0 followed by a decodable point; p2c exactly if the deltas are decodable and the domain is not positive, or the witness count is negative and Z is decodable; p2v if the domain is not positive, the header and deltas agree with the original file and the contribution count is not 0; key if the domain is negative or too large.)", "quantifier": "all file contents, batch sizes, secrets and random scalars; for p1c, p1t, p1n also every amount of free disk space", "why_tests_cant": "all byte strings; the files that crash must be made for it", "anchors": ["phase1/phase1.go:Contribute", "phase1/phase1.go:Verify", "phase1/phase1.go:Transform", "phase1/utils.go:scale", "phase2/phase2.go:Initialize", "phase2/phase2.go:Contribute", "phase2/phase2.go:Verify", "phase2/utils.go:scale", "keys/keys.go:extractPK", "keys/keys.go:extractVK", "keys/keys.go:extractSplitPK"]}
{"id": "C79", "title": "whoever knows nothing of the trapdoor can only prove true statements with the keys", "statement": "A prover who does not know the secrets forms the points of a proof as linear combinations of the points the ceremony has published. If one such proof (one list of coefficients) is accepted by the keys of more than a few trapdoors, then its coefficients of the proving key's K, with the public inputs, are a satisfying assignment. In a field with F elements: otherwise it is accepted for at most (2 2^k + 4) F^3 of the F^3 (F - 1) trapdoors, 2^k the domain size. The secrets of one contributor are enough for this, whatever the others chose. With a satisfying assignment there are coefficients that are accepted for every trapdoor.", "quantifier": "all circuits that fit into the domain, public inputs, coefficient lists and trapdoors", "why_tests_cant": "a statement about all strategies of a prover and about nearly all trapdoors", "anchors": ["phase2/phase2.go:Initialize", "phase2/utils.go:processEvaluations", "phase2/utils.go:processPVCKK", "keys/keys.go:ExtractKeys"]}
{"id": "C80", "title": "p2np refuses a number of constraints that is not the circuit's (DOES NOT HOLD)", "statement": "The number of constraints on p2np's command line must be the circuit's. (False: with every smaller number, 0 included, p2np, the contributions, p2v and key succeed and give the key pair of the circuit without the last constraints; every assignment to the wires that satisfies the first ones has accepted proofs, with 0 every assignment.)", "quantifier": "all phase-1 files of a trapdoor, circuits without commitment, numbers up to the circuit's, contributions", "why_tests_cant": "the keys look right; the missing constraints show only when somebody proves a false statement", "anchors": ["phase2/parted.go:InitializeFromPartedR1CS", "phase2/parted.go:processHeaderParted", "phase2/parted.go:processEvaluationsParted", "actions.go:p2np"]}
{"id": "C81", "title": "one honest contributor in each phase is enough, even when all files and all other secrets are known", "statement": "A prover may use every point that any file or record of the ceremony held - the parameters after each contribution, the keys and challenge points in the records, the phase-2 files before the honest contribution, the keys - and the secrets of all contributors but one in each phase. If one list of coefficients gives an accepted proof for more than a few secrets of these two, there is a satisfying assignment with the same public inputs. In a field with F elements, a false statement is accepted for at most (2 2^k + 5) F^3 of the secrets.", "quantifier": "all circuits that fit into the domain, public inputs, coefficient lists, ceremonies (any numbers of contributors before and after the honest ones)", "why_tests_cant": "a statement about all strategies of a prover and nearly all secrets", "anchors": ["phase1/phase1.go:Contribute", "phase1/contribution.go:Contribution", "common/keypair.go:PublicKey", "phase2/phase2.go:Contribute", "phase2/contribution.go:Contribution", "keys/keys.go:ExtractKeys"]}
{"id": "C82", "title": "proofs made with the keys tell nothing about the witness", "statement": "With keys of a non-zero delta, each pair (Ar, Bs) is completed to an accepted proof by one Krs, and each accepted proof is made by exactly one choice of the prover's randomness: proofs over uniform randomness are uniform among the accepted ones, whatever the witness, and two witnesses with the same public inputs have the same proofs. Every file that p2v accepts gives such keys, whoever contributed, unless it passed by a chance value of one batching scalar. key alone does not ensure it: it extracts keys from a file whose delta is 0.", "quantifier": "all circuits that fit into the domain, witnesses, proofs, phase-2 files that p2v accepts, batching scalars", "why_tests_cant": "equality of distributions over the prover's randomness, for all witnesses and all accepted files", "anchors": ["keys/keys.go:ExtractKeys", "phase2/phase2.go:Verify", "phase2/phase2.go:Initialize"]}
{"id": "C83", "title": "honest proofs with the keys of a ceremony that passed every check are accepted and hide the witness (DOES NOT HOLD)", "statement": "Whoever adds multiples of the generator that they know to the alpha section of the published phase-1 file, knowing no secret, gets a ceremony in which p1v, p2n, p2c, p2v and key succeed with the hashes the contributors were shown, and keys with which every honest proof misses the verification equation by a linear combination of their choice of the right sides of the constraints. For two constraints of their choice, honest proofs are accepted if and only if the right sides have the same value: acceptance tells about the witness, and proofs of true statements are rejected. More generally any parameters of the right size with the same beta in G2 pass and end in the keys that belong to them.", "quantifier": "all ceremonies, circuits without commitment that fit, changes of the alpha section with coefficients of sum 0, witnesses and prover's randomness", "why_tests_cant": "which witnesses are rejected is a statement about all witnesses of a circuit", "anchors": ["phase1/phase1.go:Verify", "phase2/phase2.go:Initialize", "phase2/phase2.go:Verify", "keys/keys.go:ExtractKeys"]}
{"id": "C84", "title": "a phase-2 contribution whose hash p2v shows is part of the keys", "statement": "The delta of keys extracted from a file that p2v accepts is the product of one factor per hash that p2v shows; the record of each factor proves knowledge of it in both groups. Whoever ran p2c honestly, on any bytes whatever, and finds the hash p2c showed them at some place of that list has their secret as the factor of that place. Exceptions are named: a chance value of one batching scalar, a challenge point that is the identity, two byte strings with the same SHA-256 hash, one of them the record that p2c wrote.", "quantifier": "all circuits without commitment that fit, files that p2v accepts, files given to contributors, secrets, positions", "why_tests_cant": "all files that dishonest contributors could send, before and after the honest contribution", "anchors": ["phase2/phase2.go:Contribute", "phase2/phase2.go:Verify", "phase2/utils.go:verifyContribution", "phase2/contribution.go:computeHash", "keys/keys.go:ExtractKeys"]}
{"id": "C85", "title": "the ceremony of README.md works as described", "statement": "p1n, then for each contributor p1c and p1v on its output, p2n, then for each contributor p2c and p2v on its output and the file of p2n, then key: every line succeeds, each check shows the hashes that the contributors so far were shown, in order, and the keys are the key pair of the product of the secrets. The last line of README.md, keys with one argument, is refused (DOES NOT HOLD as written; the command is key).", "quantifier": "all powers up to 26, circuits without commitment that fit, numbers of contributors to each phase (also 0), secrets, file names", "why_tests_cant": "whole sessions of any length", "anchors": ["README.md", "main.go:main", "actions.go:p1v", "actions.go:p2v", "actions.go:extracts", "phase1/phase1.go:Verify", "phase2/phase2.go:Verify"]}
{"id": "C86", "title": "sizes of the files", "statement": "The sizes docs/Format.md gives. A phase-1 file of power p with n contributions has 3 + (192*2^p + 32) + 640n bytes; its sections as listed there do not add up to that for p > 1 (the tau section is listed with 2^(2p) - 1 points, DOES NOT HOLD). The phase-2 header takes 124 bytes and those of its non-zero fields in gob form, not 4 bytes for each; the parameters take 96 + 32(Domain-1) + 32*Witness and the records 192 each; evals is as documented; srs.lag has the size of the circuit's domain 2^k, not of the phase-1 power (DOES NOT HOLD as documented when k < p). A contribution of phase 2 adds 192 bytes and the growth of the counter in the header: the first adds 194 and the 64th 193 (so a fixed growth DOES NOT HOLD).", "quantifier": "all powers up to 62 (phase 1), numbers of contributions, headers with 64-bit fields, phase-1 parameters, circuits without commitment that fit", "why_tests_cant": "sizes for all powers, circuits and numbers of contributions", "anchors": ["docs/Format.md", "phase1/header.go:writeTo", "phase1/contribution.go:writeTo", "phase1/phase1.go:Initialize", "phase1/phase1.go:Contribute", "phase2/header.go:write", "phase2/contribution.go:writeTo", "phase2/phase2.go:Initialize", "phase2/phase2.go:Contribute"]}
{"id": "C87", "title": "p1t on arbitrary input and with arbitrary powers", "statement": "Reading with power a (at most 54) and writing power b (at most 62), p1t succeeds on a file exactly if the file holds, at the offsets of a file of power a (64, 128 2^a, 256 2^a, 320 2^a, 384 2^a), encodings of as many points as a file of power b has, and then the output is the phase-1 file of power b with these points and no contributions. A file shorter than 384 2^a + 64 bytes is refused; so is a file of power a with a larger power, and with a smaller power unless two neighbouring powers of tau are together the bytes of a G2 point. At the command line i < o is refused with nothing changed. Refuted for other numbers: the powers are cut to bytes only after that comparison, so 256 + a and b from 63 on are accepted, and the file written is a header of power b and one point. Input powers 55 to 57 are always refused (an offset is negative); from 58 on all offsets but the first are 0 modulo 2^64, so a short file is accepted if its beginning reads as points of both groups, and of the parameters of some trapdoor only alpha = beta = 1 can come out.", "quantifier": "all input bytes, all input and output powers (bytes), all numerals, all other files", "why_tests_cant": "the one test transforms one file with the right powers; wrong powers, short files and large numerals are many", "anchors": ["actions.go:p1t", "phase1/phase1.go:Transform", "phase1/utils.go:transformG1", "phase1/utils.go:transformG2"]}
{"id": "C88", "title": "p1vt checks a ceremony against the transformed file it started from (DOES NOT HOLD)", "statement": "p1vt refuses a file if the second argument is not the file the ceremony started from. (False: of that file only the first byte q (at most 55) and five points at the places of a file of power q are read, [tau]_1, [alpha]_1, [beta]_1, [tau]_2 and [beta]_2; they are needed, but with the same five points every file gives the same answer, whatever its power, its other points and its number of contributions. In particular a ceremony of power b is accepted with the transformation of the same powers-of-tau file to any other power b'. If the keys of the first record are not the identity, no other five points are accepted, and p1v accepts the file too only if they are the generators.)", "quantifier": "all bytes of both files, all powers, all transformed files, all contributors, all random choices of the check", "why_tests_cant": "a test can only try some other files; that nothing else is looked at needs all of them", "anchors": ["phase1/contribution.go:defaultContribution", "phase1/phase1.go:Verify", "actions.go:p1vt"]}
{"id": "C89", "title": "Bytes are written where they belong when several outputs are open", "statement": "Every open file writes at an offset of its own. If no file is an output of two of the command lines that run at the same time, and none of them is p2n or p2np with the output srs.lag or evals, then under every schedule, on every device and at every moment all files are as if every write went to the end of its file. (Otherwise not: two p1c with the same output both succeed and p1v accepts what they leave, which is no file of parameters; p2n with the output evals succeeds and leaves a file no command takes.)", "quantifier": "all command lines, any number of processes, all schedules, all devices, all directories", "why_tests_cant": "the interleavings of processes cannot be enumerated by a test, and a test would have to know the operating system's offsets", "anchors": ["phase1/phase1.go:Contribute", "phase2/phase2.go:Initialize", "phase2/parted.go:InitializeFromPartedR1CS", "phase2/utils.go:processPVCKK", "keys/keys.go:ExtractSplitKeys", "main.go:main"]}
{"id": "C90", "title": "a phase-1 contribution whose hash p1v shows is part of the records, not of the parameters", "statement": "In a file that p1v accepts, whatever its bytes, the records multiply the origin by one triple of factors (tau, alpha, beta) per hash that p1v shows, always in G1, and in G2 wherever a record's key is not at infinity; each record proves knowledge of its factors. Whoever ran p1c honestly, on any bytes whatever, and finds the hash p1c showed them in that list has their secrets as the factors of that place; [beta]_2 of the parameters is the product of the beta factors. Exceptions are named: a challenge point that is the identity, two byte strings with the same SHA-256 hash, one of them the record that p1c wrote. The rest of the parameters is not reached: with any other tau and alpha put in, p1v shows the same hashes (the expectation that an attested contribution is part of the parameters DOES NOT HOLD).", "quantifier": "all bytes that p1v accepts with or without a transformed file, all bytes given to contributors, secrets, positions, batching scalars", "why_tests_cant": "all files that dishonest contributors could send, before and after the honest contribution", "anchors": ["phase1/phase1.go:Contribute", "phase1/phase1.go:Verify", "phase1/utils.go:verifyContribution", "phase1/contribution.go:computeHash", "phase1/contribution.go:defaultContribution"]}
{"id": "C91", "title": "p2v insists on the file of p2n as origin (DOES NOT HOLD)", "statement": "Of the origin p2v looks at nothing but the header without its counter and the parameters; a file with contributions is as good as one without. Contributions made to the parameters of an earlier file of the ceremony, its records taken away, are accepted with that file as origin, and the contributors before it are not shown; with the file of p2n as origin they are refused. An honest file with an earlier file of its ceremony as origin is refused (delta of the first record), unless the secrets before it multiply to 1.", "quantifier": "all readable phase-2 files as input and as origin, all numbers of contributors before and after, all secrets but 0, all batch sizes and scalars", "why_tests_cant": "the origin is an argument that anybody may choose; the secrets and files range over infinite families", "anchors": ["phase2/phase2.go:Verify", "phase2/header.go:Equal", "phase2/utils.go:verifyContribution", "phase2/utils.go:verifyParameter"]}
{"id": "C92", "title": "every hash that p1v or p2v shows commits to the hashes before it", "statement": "If the last hash of an accepted file without identity keys (for tau; for delta) is shown at some place for any other accepted file, then the records up to there are those of that file, unless two different record encodings have the same SHA-256 hash, or the same challenge point comes from two different hash inputs; the two records are named. No equal lengths, origins, batch sizes or scalars are assumed. A contributor who finds their hash finds before it the last hash of the file they contributed to, with the same exception. Without the condition on the keys it does not hold: one fixed record of points at infinity may follow every accepted phase-1 chain, so a shared last hash says nothing.", "quantifier": "all byte strings accepted by p1v or p1vt, all readable files accepted by p2v, all places, all origins, batch sizes and scalars", "why_tests_cant": "two chains of unbounded length over all contents are compared", "anchors": ["phase2/phase2.go:Verify", "phase2/phase2.go:Contribute", "phase2/utils.go:verifyContribution", "phase2/contribution.go:computeHash", "phase1/phase1.go:Verify", "phase1/phase1.go:Contribute", "phase1/utils.go:verifyContribution", "phase1/contribution.go:computeHash"]}
{"id": "C93", "title": "nobody is shown twice, and of two contributions to the same file at most one is shown", "statement": "The hashes that p1v or p2v shows for a file without identity keys (for tau; for delta) are pairwise different, and if two people contribute to the same file, no accepted file shows both of their hashes, unless the two hashes are the same or a collision of SHA-256 or of the challenge points is found, in records that are named. With keys at infinity it does not hold: a fixed record may follow every accepted phase-1 chain any number of times.", "quantifier": "all byte strings accepted by p1v or p1vt, all readable files accepted by p2v, all places, all pairs of contributions to all readable files", "why_tests_cant": "replayed and forked contributions range over all chains of unbounded length", "anchors": ["phase2/phase2.go:Verify", "phase2/phase2.go:Contribute", "phase2/utils.go:verifyContribution", "phase1/phase1.go:Verify", "phase1/phase1.go:Contribute", "phase1/utils.go:verifyContribution"]}
{"id": "C94", "title": "the last hash that p2v shows determines the keys", "statement": "If two readable files are accepted against the file of p2n, the second without identity keys, and the last hashes shown are equal, then key with p2n's evals writes the same pk for both and verifying keys that differ at most in the sampled commitment key, unless one of the two acceptances depended on one particular batch scalar, or two different record encodings have the same SHA-256 hash, or the same challenge point comes from two different hash inputs (the records are named). The circuit uses no commitment and T is no point of the domain.", "quantifier": "all phase-1 results with secrets, circuits without commitment, pairs of readable files accepted by p2v, batch sizes, scalars, names and sampled values", "why_tests_cant": "pairs of adversarial files with chains of unbounded length and arbitrary parameters are compared", "anchors": ["phase2/phase2.go:Verify", "phase2/phase2.go:Initialize", "phase2/utils.go:verifyContribution", "phase2/utils.go:verifyParameter", "phase2/contribution.go:computeHash", "keys/keys.go:ExtractKeys"]}
{"id": "C95", "title": "which files p2c accepts, and what it writes for them", "statement": "A file that starts with a header (domain not -2^63, contributions below 2^63-1) is accepted by p2c exactly if decodable parameters of the header's sizes follow and then as many records as the header says, where a hash ends early if its 4096-byte block or the file does; the output is the updated parameters, these records with hashes filled up with zeros, and the new record. That p2c refuses a negative number of contributions does not hold: then no record is read.", "quantifier": "all bytes behind all headers, all secrets and batch sizes", "why_tests_cant": "all byte strings are classified; where hashes are cut depends on the offset of every record", "anchors": ["phase2/phase2.go:Contribute", "phase2/utils.go:scale", "phase2/contribution.go:readFrom", "phase2/contribution.go:writeTo", "phase2/header.go:Read"]}
{"id": "C96", "title": "which files key accepts, and what it writes for them", "statement": "A phase-2 file that starts with a header (domain not -2^63, 0 <= wires < 2^56-1) and an evals file are accepted by key exactly if decodable parameters of the header's sizes follow the header, the least power of two not below the domain has a root of unity (2^28 is the largest for bn254), evals starts with three points and the slices A, B, B2, and the slices VKK and CKK are found at byte 128(wires+1)+12; pk and vk are then exactly the encodings of these values. The same for the split keys, which need no domain. That key refuses evals whose A, B or B2 do not have one point per wire does not hold: any bytes may stand in place of the missing points.", "quantifier": "all bytes behind all headers, all evals files, all sampled values", "why_tests_cant": "all pairs of byte strings are classified", "anchors": ["keys/keys.go:ExtractKeys", "keys/keys.go:extractPK", "keys/keys.go:extractVK", "keys/keys.go:ExtractSplitKeys", "keys/keys.go:extractSplitPK", "keys/keys.go:extractSplitVK", "keys/keys.go:filterInfinityG1"]}
{"id": "C97", "title": "what the hashes shown by p2v stand for, whatever bytes are accepted", "statement": "For any bytes that p2v accepts, the hashes shown are those of records that stand in the file in this order. If the last hash of one accepted file is shown at place i of another, the records up to there are those of the first file; no hash is shown twice; in front of the hash of a contribution stands the last hash of the bytes it was made from; of two contributions to the same bytes only one is shown; equal last hashes give the same keys; the keys come from the product of the contributed numbers. All this unless two different record encodings have the same SHA-256 hash or the same challenge point comes from two different hash inputs, in records that are named, or (keys) the acceptance depended on one particular batch scalar; the records compared have no identity keys. Parameters need not decode, hashes may be cut, bytes may follow.", "quantifier": "all pairs of byte strings accepted by p2v against any origins, all bytes behind the header of a file contributed to, all scalars, batch sizes and secrets", "why_tests_cant": "the accepted files include malformed ones that no ceremony produces (C39); chains have any length", "anchors": ["phase2/phase2.go:Verify", "phase2/phase2.go:Contribute", "phase2/utils.go:verifyContribution", "phase2/utils.go:verifyParameter", "phase2/contribution.go:readFrom", "phase2/contribution.go:computeHash", "keys/keys.go:ExtractKeys"]}
{"id": "C98", "title": "the files p1v and p1vt accept, exactly", "statement": "p1v accepts a file and shows the hashes hs exactly when the file is a power, a number n of records, points that decode for all sections and n records read as the code reads them (a point that is cut off or does not decode ends the record and leaves the other fields of the previous record in place), such that each record satisfies the eight pairing equations and the hash equation of a link with its predecessor, starting from the generators, and the last record's beta in G2 is that of the file; p1vt accepts exactly when the same holds from the five points at their fixed places in the transformed file. No equation on the powers of tau themselves takes part.", "quantifier": "every sequence of bytes as phase-1 file and as transformed file, every batch size and every choice of random coefficients", "why_tests_cant": "The set of accepted files is infinite and includes truncated and undecodable records that no honest run writes; tests see single files.", "anchors": ["phase1/phase1.go:Verify", "phase1/contribution.go:ReadFrom", "phase1/utils.go:verifyContribution", "phase1/contribution.go:defaultContribution"]}
{"id": "C99", "title": "the pairs of files p2v accepts, exactly", "statement": "Behind two headers as the tool writes them, p2v accepts a file and an origin and shows the hashes hs exactly when the counter is not 0, the headers agree in everything else, domain and witness counts are not negative, both deltas decode and have the same ratio, for Z and then PKK the random combinations have that ratio or some point of a batch is cut off or does not decode (reading then goes on behind that point in the file where it happened), and as many records as the counter says stand at the place then reached, each linked to the one before by the two pairing equations and its hash, from the delta of the origin to that of the file.", "quantifier": "every sequence of bytes behind the headers of the file and of the origin, every batch size and every choice of random coefficients", "why_tests_cant": "The accepted pairs form an infinite set with sections that end early or do not decode at any place of any batch; tests see single files.", "anchors": ["phase2/phase2.go:Verify", "phase2/utils.go:verifyParameter", "phase2/utils.go:aggregate", "phase2/utils.go:verifyContribution"]}
{"id": "C100", "title": "p2v notices an origin that ends early (DOES NOT HOLD)", "statement": "Users expect p2v to compare all parameters with those of the origin. An error while reading the origin makes verifyParameter return nil: if the origin is cut off inside the last batch of Z (and PKK is one batch of at most 2^20 points), a file with any Z and any PKK is accepted, with every randomness; if it is cut off inside the last batch of PKK, a file with any PKK, whatever the sizes. The last byte of the origin is enough: without it PKK is not checked at all. The file itself is readable, so the ceremony goes on with it and key writes these parameters into the proving key.", "quantifier": "every file with linked records from the origin's delta to its own, every parameters in it, every place in the last batch of Z or PKK where the origin ends, every choice of random coefficients, every batch size (for a cut in Z: of at least the length of PKK)", "why_tests_cant": "All cut positions and all false parameters; the verdict must be shown independent of the random coefficients.", "anchors": ["phase2/phase2.go:Verify", "phase2/utils.go:verifyParameter", "phase2/utils.go:aggregate"]}
{"id": "C101", "title": "the phase-1 files p2n accepts, exactly, and what it writes", "statement": "For a circuit that parses and has no commitment and a phase-1 file whose first byte is a power p of at most 54, p2n returns without error exactly when the circuit has at most 2^p constraints, its domain 2^k is one the field has, and the file holds, at the offsets computed from p, decodable encodings of the 2 2^k - 1 first powers of tau in G1, the 2^k first powers times alpha and times beta, the 2^k first powers in G2 and beta in G2. srs.lag, evals and the phase-2 file are made from these points alone; everything else in the file, records included, may be any bytes. With a larger power no file of less than 2^60 bytes is accepted.", "quantifier": "every sequence of bytes as phase-1 file, every circuit without commitment, every power", "why_tests_cant": "The accepted files form an infinite set in which most bytes are free; tests see single files written by the tool.", "anchors": ["phase2/phase2.go:Initialize", "phase2/utils.go:processHeader", "phase2/utils.go:processLagrange", "phase2/utils.go:processEvaluations", "phase2/utils.go:processDeltaAndZ", "phase2/lagrange.go:lagrangeG1", "phase2/lagrange.go:lagrangeG2"]}
{"id": "C102", "title": "the circuits p2n accepts, exactly (with commitments)", "statement": "For any phase-1 bytes behind a power p of at most 54 and any circuit whose commitment information is as gnark writes it (committed wires public ones first, private ones in increasing order, the commitment a wire that is not public), p2n returns without error exactly when no term names a wire or coefficient that is not there, there is no commitment or it is to public wires only and is itself the wire directly behind the public ones, the circuit has at most 2^p constraints with a domain the field has, and the file holds the points used (C101). Whatever the commitment information, a circuit with a term out of range is not accepted.", "quantifier": "every circuit that parses with commitment information of that form, every sequence of bytes as phase-1 file", "why_tests_cant": "Circuits and files of any size; tests compile single circuits and never one with a commitment.", "anchors": ["phase2/phase2.go:Initialize", "phase2/utils.go:processHeader", "phase2/utils.go:processEvaluations", "phase2/utils.go:processPVCKK", "phase2/utils.go:filterL", "phase2/utils.go:accumulateG1"]}
{"id": "C103", "title": "what p2np accepts, with any number of constraints in the command line, and what it writes", "statement": "p2np with the number nb succeeds exactly if nb is at most the number of constraints of the circuit and at most 2^power, the first nb constraints name wires and coefficients that exist, the commitments are ones p2n can deal with, and the phase-1 file holds, decodable and at their places, the points that a domain for nb constraints takes. Neither constraints behind the nb-th nor points outside these are looked at; negative numbers count as 0. The files written are those of the circuit cut off behind nb constraints.", "quantifier": "every circuit as gnark writes its commitments, every number (negative ones too), every bytes behind the power of the phase-1 file, every power up to 54", "why_tests_cant": "Both directions over all circuits, numbers and files; with any size of domain.", "anchors": ["phase2/parted.go:InitializeFromPartedR1CS", "phase2/parted.go:processHeaderParted", "phase2/parted.go:processEvaluationsParted", "phase2/parted.go:processPVCKKParted", "phase2/utils.go:processLagrange"]}
{"id": "C104", "title": "keys that p2v vouches for are those of the ceremony if the origin was cut in transit (DOES NOT HOLD)", "statement": "After p2v has listed the hashes of the contributors, key writes keys under which every honest proof verifies. (False if the origin lacks its last byte: with p2n and all contributions honest, anyone may add known multiples of the generator to the points of PKK in the final file. p2v accepts with every batch size and every random choice and lists the same hashes, key succeeds, and an honest proof verifies exactly if the private wires, weighted with those multiples, add up to 0. So whoever chose them learns from whether a proof verifies whether their linear combination of the secret witness is 0, for example whether two private values are equal.)", "quantifier": "all circuits without commitments and with a private wire, all phase-1 parameters, any number of contributors, all secrets but 0, all multiples, all witnesses and proofs, all batch sizes and scalars", "why_tests_cant": "the circuits, ceremonies, multiples and witnesses range over infinite families; a test has the origin whole", "anchors": ["phase2/phase2.go:Verify", "phase2/utils.go:verifyParameter", "phase2/utils.go:aggregate", "keys/keys.go:ExtractKeys"]}
{"id": "C105", "title": "the verifying key is the ceremony's even if the origin is not", "statement": "If p2v accepts any bytes F with an origin that agrees with the file of p2n in the header and the deltas, whatever follows them, and key succeeds on F with the evaluations of p2n, then both keys are those of the circuit and of the trapdoor alpha, beta, tau of the phase-1 file and delta of the last record of F, except that K and Z of the proving key may be wrong. If that delta is not 0, it is the product of one number for each hash shown, and an honest contributor who finds their hash has their number at its place, unless a challenge point is the identity or two records have the same SHA-256 hash. So an origin that was cut or replaced (C100, C104) touches only provers, never what is accepted.", "quantifier": "all circuits without commitments, all phase-1 parameters, all bytes of the final file, all bytes behind the deltas of the origin, all batch sizes and scalars", "why_tests_cant": "both files are arbitrary bytes", "anchors": ["phase2/phase2.go:Verify", "phase2/utils.go:verifyParameter", "phase2/utils.go:verifyContribution", "keys/keys.go:ExtractKeys", "keys/keys.go:extractVK"]}
{"id": "C106", "title": "returning the error of aggregate closes the gap of p2v", "statement": "If verifyParameter returned the error of aggregate instead of nil, p2v would accept exactly the pairs of files it accepts today in which every point of Z and PKK can be read in both files. In particular it would refuse, whatever the final file, every origin that ends before the end of its parameters, so the attacks of C100 and C104 end, and no pair of readable files is lost.", "quantifier": "all bytes behind two canonical headers, all batch sizes and scalars, all places where an origin may end and then all bytes of the final file", "why_tests_cant": "compares two programs on all pairs of files; the intended one does not exist", "anchors": ["phase2/utils.go:verifyParameter", "phase2/utils.go:aggregate", "phase2/phase2.go:Verify"]}
{"id": "C107", "title": "filterL divides the wires, whatever the commitment data", "statement": "For any header and any data about a commitment, also data gnark never writes, filterL ends without a panic exactly if the sizes are not negative, every lookup in the list of private committed wires is within the list, and the wires of each kind fit their slice. Then PKK, VKK and CKK hold the points of their wires in order, each wire in exactly one of them, and points at infinity fill the rest.", "quantifier": "all lists of points, all headers, all commitment data", "why_tests_cant": "the branch for private committed wires cannot be reached with circuits of gnark (C32), so no test of the tool runs it", "anchors": ["phase2/utils.go:filterL"]}
{"id": "C108", "title": "two changes make filterL right for commitments", "statement": "If filterL read the list of private committed wires at cI instead of i, and compared i with the number of public wires of the circuit instead of header2.Public, then for every circuit whose commitment data is as gnark writes it, it would end without a panic (today it panics on every private commitment, C32) and fill the three slices exactly: CKK with the private committed wires, VKK with the public wires and the commitment, PKK with all others, each in order.", "quantifier": "all circuits with committed wires in increasing order and a commitment that is neither public nor committed, all points", "why_tests_cant": "the intended program does not exist; the statement covers circuits of any size", "anchors": ["phase2/utils.go:filterL", "phase2/utils.go:processHeader"]}
