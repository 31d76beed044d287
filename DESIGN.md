# Formal model of bnb-chain/zkbnb-setup in Rocq (Coq 8.16.1)

## What is modelled and how

| Layer | File(s) | Code modelled |
|---|---|---|
| bytes, outcomes (`Ok`/`Err`/`Panic`) | `Base.v` | – |
| scalar field | `Fld.v` | `fr.Element` as an arbitrary field with decidable equality |
| external world | `Ext.v` | point codecs, SHA-256, hash-to-G2, MultiExp, CPU count (gnark-crypto / Go stdlib) |
| input/output | `IO.v` | `bufio.Reader.Read`, `io.ReadFull`, unbuffered `os.File` reads and seeks, output streams; gnark `Decoder.Decode` in `Ext.v` |
| fork/join concurrency | `Conc.v` | goroutines with disjoint footprints, all interleavings |
| parallel loops | `Parallel.v` | `common/parallelize.go` |
| bit reversal | `BitRev.v` | `common/utils.go`, `lagrange/*.go: bitReversePoints` |
| FFT | `FFT.v` | `lagrange/g1.go`, `lagrange/g2.go` |
| phase 1 | `Phase1.v` | all of `phase1/`; file format in `Spec1.v`; lemmas in `Phase1*.v`; theorems in `Prop1.v` |
| gob header | `Gob.v` | `phase2/header.go` with the part of `encoding/gob` it uses |
| circuits | `Circuit.v` | gnark's R1CS as the tool sees it; further external functions |
| phase 2 | `Phase2.v` | `phase2.Contribute`, `phase2.Verify`, `phase2/contribution.go`, the verification part of `phase2/utils.go`; file format in `Spec2.v`; lemmas in `Phase2*.v`; theorems in `Prop2.v` |
| files | `Fs.v` | `os.Open`, `os.Create`, a command as a function on the file system |
| phase 2 initialisation | `Init2.v` | `phase2.Initialize`, `phase2/parted.go`, `phase2/lagrange.go`, the initialisation part of `phase2/utils.go`; definitions for the statements in `Spec3.v`; lemmas in `Init2Pure.v`, `Init2Io.v`, `Interp.v` (interpolation), `Init2Claims.v`, `Init2More.v`, `Init2Differ.v`; theorems in `Prop3.v`, `Prop6.v` |
| key extraction | `Keys.v` | all of `keys/keys.go` except the Solidity export (see command line); keys, key files, proofs and the verification equation in `Spec4.v`; lemmas in `KeysLemmas.v`, `KeysClaims.v`, `KeysProps.v`; completeness of Groth16 in `Groth.v`; theorems in `Prop4.v` |
| failing writes, crashes, aliased files | `Live.v` | `bufio.Writer`, `os.File.Write`, reads of files that change; the programs above run on it unchanged, the commands in `LiveCmd.v`; `Spec5.v`: what is left behind; lemmas in `LiveLemmas.v`, `Sok.v`, `SokPrograms.v`, `LiveFail.v`, `LiveClaims.v`, `LiveMore.v`, `LiveAgree.v` (buffers are flushed), `LiveTwin.v`, `LiveProps.v`, `LiveGrow.v` (no file is truncated after it was written to); theorems in `Prop5.v` |
| command line | `Cli.v` | `main.go`, `actions.go`, `strconv.Atoi`, `keys.ExportSol` (the text it writes is an arbitrary function); `Session.v`: several runs in one directory; numerals, refused lines and output files in `Spec6.v`; lemmas in `CliClaims.v`, `CliPowers.v`, `OnlyA.v`, `SessionClaims.v`; theorems in `Prop7.v`, `Prop13.v` |
| files that end early | – | no new code; notions in `Spec7.v`; lemmas in `Cut1.v` to `Cut5.v`; theorems in `Prop8.v` |
| forged proofs, sessions that skip a phase, soundness of p2v | – | no new code; notions in `Spec8.v`; lemmas in `Forge.v`, `Sessions2.v`, `Mix2.v`, `Sound2.v`; theorems in `Prop9.v` |
| sessions from a powers-of-tau file, replaced files | – | no new code; notion in `Spec9.v`; lemmas in `Sessions3.v`; theorems in `Prop10.v` |
| full disks, continued (Transform, key) | – | no new code; lemmas in `LiveDisk.v`, `LiveDisk2.v`, `LiveDisk3.v`; theorems in `Prop11.v` |
| what commands depend on | – | no new code; `Spec10.v` (inputs, interrupted runs, mixed sessions, files that cannot be created), lemmas in `Locality.v`, `LocalityClaims.v`, `Create.v`; theorems in `Prop12.v`, `Prop13.v` |
| parameter checks of p1v, truncating MultiExp | (`Phase1.v`) | `Spec12.v`, `Phase1Lenient.v`; theorems in `Prop15.v` and C08 in `Prop1.v` |
| panics | (all) | `Safe.v`, `Safe2.v`, `Safe3.v`; theorems in `Prop16.v` |
| provers without the trapdoor | (`Spec4.v`) | `Spec13.v`, `Generic.v`; theorems in `Prop17.v` |
| p2np with another number of constraints | (`Init2.v`) | `Spec14.v`, `Parted.v`, `Negative.v`; theorems in `Prop18.v` |
| disks that are just large enough, or not quite | (`Live.v`, `LiveCmd.v`) | `Spec15.v`, `Quota.v`, `Short.v`; theorems in `Prop19.v` |
| provers who kept every file of the ceremony | (`Spec1.v`, `Spec2.v`) | `Spec16.v`, `Transcript.v`; theorems in `Prop20.v` |
| what proofs tell about the witness | (`Spec4.v`) | `Hiding.v`; theorems in `Prop21.v` |
| keys from phase-1 parameters of any kind | (`Session.v`) | `Spec17.v`, `Any.v`, `Leak.v`; theorems in `Prop22.v` |
| contributors who find their hash | (`Phase2.v`) | `Spec18.v`, `Attest.v`; theorem in `Prop23.v`. Phase 1: `Spec25.v`, `Attest1.v`; theorems in `Prop30.v` |
| the origin of p2v | (`Phase2.v`) | `Origin2.v`; theorems in `Prop31.v` |
| hashes stand for the hashes before them | (`Phase1.v`, `Phase2.v`) | `Spec26.v`, `Binds.v`; theorems in `Prop32.v`, `Prop33.v` |
| the ceremony of README.md | (`Session.v`) | `Spec19.v`, `Readme.v`; theorems in `Prop24.v` |
| sizes of the files | (`Gob.v`) | `Spec20.v`, `Sizes.v`; theorems in `Prop25.v` |
| p1t with any powers on any bytes | (`Phase1.v`, `Cli.v`) | `Spec21.v`, `Trans2.v`, `Trans3.v`; theorems in `Prop26.v` |
| the transformed file of p1vt | (`Phase1.v`) | `Spec22.v`, `Vt.v`; theorems in `Prop27.v` |
| processes at the same time | `Proc.v` | the same commands as processes whose file operations interleave; `Spec11.v`; `ProcLemmas.v`: a process alone is a command of `Cli.v`; `ProcUses.v`, `ProcLogs.v`, `ProcClaims.v`; theorems in `Prop14.v` |
| offsets of open files | `Off.v` | the processes of `Proc.v` once more, each open output with its own offset, `O_APPEND` where the code has it; `Spec24.v`, `OffLemmas.v`, `OffCmd.v`, `OffClaims.v`; theorems in `Prop29.v` |
| examples | `Toy2.v`, `Toy.v`, `Toy1.v`, `Toy3.v`, `Toy4.v`, `Toy5.v`, `Toy6.v`, `Toy7.v`, `Toy8.v`, `Toy9.v`, `Toy12.v`, `Toy13.v`, `Toy14.v`, `Toy15.v`, `Toy16.v`, `Toy17.v`, `Toy18.v`, `Toy19.v`, `Toy20.v` | an instance of the external world over the field with 17 elements |

Group elements are modelled by their discrete logarithms: G1 and G2 of BN254 are
cyclic of the same prime order r, so `P = a*G` identifies a point with `a` in Fr, point
addition with `+`, scalar multiplication with `*`, the identity with 0, the generators with
1, and the pairing equation e(A,B)=e(C,D) with `a*b = c*d`. (The program never computes
logarithms; the isomorphism is used only to state what it computes.) Decoders check the
subgroup, so every decoded point is in the image. No BN254 curve point (G1 or G2) has x = 0
(3 is a non-residue mod p and 9/82 is a non-residue), so the code's `firstPoint.X.IsZero()` is
exactly "is the identity".

## Properties and proof plan

For every property Cxx of `properties.jsonl`: the model part, and the proof method.

* C01, C02, C03 – byte-level model of Initialize/Contribute over a stream reader with the real
  batching loops; refinement to a structured file (`Spec1.v`) by induction over batches/records.
* C04 – induction over the list of contributions on the structured level, lifted by C01–C03.
* C05, C12, C16 – byte-level Verify; invariant of honest files.
* C06, C20 – evaluation of the refinement theorem at the boundary.
* C07, C08 – Verify with MultiExp left abstract outside equal lengths; two readings (strict,
  truncating) treated separately.
* C09, C10, C11, C40, C41, C42 – algebra in the exponent, induction over chains; collision
  extraction instead of assuming injective hashes.
* C13, C43 – codec round trips; the bytes of the header are characterised after the documentation of encoding/gob, whose
  example is checked against the same description (`Spec23.v`, `GobDoc.v`, `Prop28.v`).
* C14, C36 – operational `bufio` model, position arithmetic modulo the buffer size.
* C15, C16, C29, C44 – byte offsets in concatenated sections.
* C17 – bijectivity of multiplication by a non-zero product.
* C50 – file-system model.
* C18, C52, C55, C56 – operational file-system model: each program is shown to be a sequence of appends to
  its outputs; the model with buffers refines the one without.
* C19 – integer conversions written out (mod 256, int64 wrap); at the command line with C57 and C55.
* C21, C22, C23, C24, C25 – fork/join programs, all interleavings; determinism theorem for
  disjoint footprints; DIF recursion = DFT by induction on log2 of the size.
* C26, C27, C28 – arithmetic.
* C30, C31, C33, C34, C46, C47 – sums over constraints; DFT orthogonality; completeness of Groth16.
* C32 – induction over wires shows the out-of-range access.
* C35, C37 – as C02/C05 with the gob header and straddling condition.
* C38 – linear algebra: at most one random scalar per fixing of the others; counting corollary.
* C39 – concrete witness files evaluated in the model.
* C53 – p2n is proved for every file in which the fixed offsets show some parameters (`seen`, `Init2Io.v`), and a
  file with one raw point is one where they show others than p1v reads (`Init2Differ.v`, `Prop6.v`).
* C45, C48, C49 – list functions.
* C51 – `bufio.Writer` over a disk with bounded free space; the number of bytes that must fit is a function of the
  sizes of the writes (`pass`, `LiveDisk.v`). A disk with enough room is as good as one without limits (`Quota.v`,
  every command line); with one byte less the last flush, whose error is dropped, loses it (`Short.v`, `Prop19.v`).
* C57 – decimal numerals as an inductive relation; the parser accepts exactly these.
* C58 – as C56, for every line of the command table.
* C59, C60 – induction over the lines of a session; C05, C37, C46 for what the files contain, C55 to carry them to
  the model with buffers, C56 for the files that are not touched.
* C61 – inversion of accepting runs on any bytes; a record read past the end repeats the one before it. The file with
  missing records is constructed.
* C62 – what p1c copies, as a function of the bytes; inversion of succeeding runs.
* C63 – as C61; p2v and p2c return the read errors of records, only p2v drops those of the points.
* C64 – C60's lemmas with an empty list of contributors to one phase, then C65.
* C65 – the pairing equation in the exponent; for tau, the sums over the wires are values of polynomials (as in C47).
* C66 – the parameters after a ceremony are those of one contribution with the product of the secrets (C37); delta's
  encoding is injective.
* C67 – a succeeding key extraction determines header, points and lengths of F, however encoded; an accepting p2v on
  such a file gives two equations between random sums; two accepted values of one scalar make the entry right. The
  p1-file must hold parameters of some trapdoor: p1v does not check that (C07).
* C68 – C15 and C16 as steps of a session, then C60's lemmas; keys and sol as steps.
* C69 – p1v's verdict depends on the records and beta in G2 only (C07); then C60's lemmas and C65.
* C70 – C60's lemmas; p2v's result does not depend on evals; C44 for the replaced file; the pairing equation.
* C71 – two runs side by side: as long as they agree on the inputs and on all files created so far they do the same.
* C72, C73 – from C71 and C58.
* C74 – step by step: a command on the device with failing creations is the one without, or has ended with the error.
* C75 – every step of a process looks at and changes files it uses only; induction over the schedule.
* C76 – two processes and a schedule evaluated in the model.
* C77 – as C08, over all batches: the combinations as sums over the pairs of one batch; linear algebra in the random scalars.
* C78 – a predicate on programs (`safe`, `Safe.v`): no panic whatever the reads return and whichever writes fail, by
  recursion over the program; `post` (`Safe3.v`) tracks in addition what goes to one output. The panicking runs are computed.
* C79 – the verification equation as a polynomial in alpha, beta, delta, then in tau; a polynomial with more roots than its
  degree is zero (`Generic.v`). `Spec13.v` lists the points of the final
  files. The count over all trapdoors by the pigeonhole principle.
* C80 – p2np does not read a circuit file, so it is p2n in a world in which every file holds the shortened circuit (C34);
  then C46, C37, C47. A negative number gives the run for 0 but for the number in the header, which nothing reads (`Negative.v`).
* C81 – every point any file or record held is a combination, with coefficients that do not depend on the honest secrets,
  of the points of the keys, K and Z before phase 2, and alpha in G2 (`Transcript.v`); then as C79, with one more term.
  The challenge points in the records are arbitrary but fixed beforehand (hash values).
* C82 – given Ar and Bs, solve for the randomness and for Krs (delta is not 0); C47 and C67.
* C83 – does not hold: C69's session with arbitrary parameters (`Any.v`); the Lagrange form of the changed alpha section is
  that of the original plus the coefficients added, which shifts the verification equation by their combination of the
  right sides (`Leak.v`).
* C84 – p2c on any bytes ends by writing its record (`Attest.v`); the record at that place of the accepted chain has the same
  bytes or a colliding hash, and its key fixes the factor; then C40 and C67.
* C85 – checks change no file (C58), so the directory after i contributions is that of the session without checks, where C05
  and C37 apply to the first i contributors.
* C86 – the bytes of the files are known from C04, C29, C35 and C37; the length of the gob header by induction on the digits
  of its integers (`Sizes.v`).
* C87 – the sections of `transform` are inverted one by one (`Trans2.v`); the command line by `atoi_iff` and C55 (`Trans3.v`); from
  power 55 on the wrapped offsets are computed.
* C88 – refuted: `default_contrib` is inverted, powers from 56 on end in a negative offset (`Vt.v`).
* C89 – the two levels side by side (`sim`, `OffLemmas.v`): every open output is at the end of its file as long as nobody else writes
  it; the two exceptions are computed.
* C90 – as C84 for phase 1 (`Attest1.v`): acceptance inverted for arbitrary bytes (C09), the factor of a link is kSPX divided by the
  challenge point; the parameters by C07.
* C91 – the verdict on readable files (C40) does not contain the records of the origin; for an honest chain checked against a
  multiple of its origin only the first record is refused (`Origin2.v`).
* C92 – acceptance inverted for arbitrary bytes gives chains of records; two chains that meet in a hash are followed backwards
  (`binds`, `Binds.v`): equal hash, equal record, equal challenge, equal previous hash, or a clash.
* C93 – the same chain compared with itself: a chain is longer than its beginnings (`once`, `next`, `Binds.v`).
* C94 – equal last hashes give equal records (C92), the last record holds delta, and C84 makes both pairs of keys the one key pair of
  that delta (`keypair_unique`, `Generic.v`; `Final.v`).
* C95 – one buffered Read of 32 bytes at any offset (`rd_hash`, `Torn.v`), then induction on the records in both directions.
* C96 – the reads of `extract_pk` and `extract_vk` (`read_pk`, `read_vk`) forwards and backwards on any bytes (`KeyIff.v`); the two read the same points because decoding is deterministic (`is1_same`).
* C97 – programs that only read keep both readers inside their files (`reads_within`, `Shown.v`), so the records of an accepted file stand in it (`verify2_shown`),
  also where parameters do not decode; then as C92, C93, C94 and C84.
* C98 – `verify_ok_inv` one way, `verify_ev` the other; the reads of a record against an inductive description of cut and undecodable points (`points_take`, `take_points`, `rec1_iff`, `V1Iff.v`), the link equations by `follows_iff`, the five points of p1vt by `origin_iff`.
* C99 – every run of decodes has one outcome that the description allows (`run1_total`, `run1_ev`), so has every comparison of two sections (`compared_total`,
  `compared_ev`, `V2Iff.v`); acceptance then in both directions through `param_ev` and the records of C95.
* C100 – does not hold: a cut origin ends the last batch of its section and the sums of the earlier batches are dropped (`cmp_cut_last`, induction on the batches, `CutOrigin.v`), then C99.
* C101 – forward: the stages of C29 need only the points in front of each section (`enough`, `seen`); backward: each stage is inverted
  (`lagrange_only`, `head_only`, `delta_only`, `p2n_found`, `NewIff.v`). The circuit is parsed by the uninterpreted `parse_r1cs` as in C29.
* C102 – the loops over the terms are inverted (`acc_cons_only`), the split by `filterL_priv`, `filterL_far` one way and `filterL_nocmt`, `filterL_pubcmt`
  the other (`CircIff.v`).
* C103 – p2np with m constraints is p2n in a world where every file parses to the shortened circuit (`always`, `Parted.v`), then C101 and C102; negative
  numbers by comparing the run with that for 0 (`low_same`, `ParIff.v`).
* C104 – does not hold: C100 for the file of p2n (`cut_last`), the keys of the file by C47's key pair, and the proof under the changed PKK is an honest proof
  with the weighted sum added to its last point (`tilted_proofs`, `CutKeys.v`).
* C105 – p2v's records and deltas by `verify2_shown`, key's reading of any bytes by `opens_pk`, the rest of the keys comes from evals (`VkRight.v`);
  the factors as in C97.
* C106 – `Strict2.v` is p2v with `return err` for `return nil` in utils.go:477, not the code that exists; what it accepts is characterised as in C99
  with "an unreadable batch passes" removed (`StrictIff.v`), and compared with C99.
* C107 – the relation `parted` (`Spec36.v`) says where each wire goes; equivalence by induction over the wires with the filled part of
  each slice as invariant (`PartIff.v`). Found by an edit that survived: the counter of private committed wires.
* C108 – `Fixed3.v` is filterL with the lookup at cI and the number of public wires of the circuit, not the code that exists; induction over the
  wires with the committed wires still to come as invariant, the sizes by counting (`FixedPf.v`).

## Reading seeded/LOG.jsonl

`failed` lists the theorems whose proof no longer goes through after the edit, or that rest on a lemma whose proof no longer
does. It does not say that each of their claims is false for the edited program: a proof script can also break over an edit
that leaves its claim true. Lines with a `note` say more. Not every planned edit was run.

## Trusted base

* Coq's kernel (8.16.1). No axioms of our own. `Print Assumptions` is printed for every theorem
  in `theories/Prop*.v`; expected: "Closed under the global context".
* The reading of the Go code into the model (each definition cites file and lines).
* The external contracts collected in `Ext.v`: encoders have fixed lengths, set the compression flag
  as gnark does and are inverted by the decoders; SHA-256 gives 32 bytes; MultiExp is the inner product
  on slices of equal length. Theorems that need it assume in addition `mexp_strict` (MultiExp returns an
  error on slices of different lengths), which is what gnark-crypto does.
* Crashes: the process is killed, the bytes handed to the kernel stay. Power failure (reordered or lost
  writes) is not modelled. Other processes are runs of the tool (`Proc.v`); where a file is an output twice,
  `Off.v` describes what happens and the models above it do not (C89). A failing os.Create
  leaves the file as it was; a file that cannot be opened is a file that is not there.
* A read from a regular file returns all requested bytes that are left (short only at end of file).
* int(math.Pow(2, p)) for p >= 63 is the amd64 conversion result MinInt64.
* encoding/gob: the encoder is modelled exactly for the header type; the decoder exactly on streams that
  start with the type definition that encoder writes, and as an arbitrary reading program otherwise. The first
  type of a process has id 65, as in the documentation and in the Go 1.19 of go.mod; a toolchain that counts from another number
  writes another constant there, and files of such a build are read by the arbitrary program.
* Phase-2 Contribute/Verify read with `bufio` buffers of 4096 bytes.
* Memory is unlimited: `make` panics on negative sizes and on no others (the theorems of C78 on slices whose size comes
  from a file have the bound of Go's `make` as a hypothesis).
* A point whose decoding failed keeps some value (`g1bad`, `g2bad`), left unspecified.
* gnark's R1CS reader is an arbitrary function (`parse_r1cs`) from the file's bytes to a circuit; gob of the
  commitment (`cmt_bytes`) and domain bytes (`dom_bytes`) are arbitrary byte strings. The parted circuit files of
  `p2np` are represented by the circuit they hold.
* `pedersen.Setup` is an arbitrary function (`ped`) of the two values it samples and the basis; encoding/binary for
  uint64 and []bool is written out. urfave/cli (flags, help) and `LoadFromSplitBinaryConcurrent` are not modelled: a
  command line is the name and the arguments that reach the action. Two names are two files (no links, no `./x`). Key extraction reads the phase-2 header twice; the model reads it once per pass.
