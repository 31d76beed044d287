#!/usr/bin/env python3
# Writes MANIFEST.json from the table below.
import json, os
T = [
 ("C01","proved",["C01_initialize"],"powers 0..62"),
 ("C02","proved",["C02_contribute_parameters"],""),
 ("C03","proved",["C03_contribute_record","C03_degenerate_file_refuted"],"for sections whose copied entry is not overtaken by a later batch (all powers-of-tau sections); the degenerate case is exhibited"),
 ("C04","proved",["C04_srs_is_product","C04_order_independent"],""),
 ("C05","proved",["C05_honest_ceremony_verifies"],"MultiExp rejects unequal lengths (gnark-crypto)"),
 ("C06","proved",["C06_counter_wraps_refuted","C06_contribution_65536_refuted"],"shows the defect"),
 ("C07","proved",["C07_parameters_unchecked_refuted","C07_garbage_accepted_refuted"],"shows the defect"),
 ("C08","proved",["C08_tauG2_check_refuted"],"shows the defect; every batch size"),
 ("C09","proved",["C09_accepted_chain","C09_accepted_bytes","C09_origins"],""),
 ("C10","proved",["C10_identity_keys_refuted","C10_idle_record_refuted"],"shows the defect"),
 ("C11","proved",["C11_hash_commits"],""),
 ("C12","proved",["C12_no_contributions"],""),
 ("C13","proved",["C13_header_round_trip","C13_short_header_refuted"],""),
 ("C14","proved",["C14_hash_read_is_full"],""),
 ("C15","proved",["C15_transform","C15_transform_powers"],"powers up to 54"),
 ("C16","proved",["C16_ceremony_after_transform","C16_powers_qualify"],"powers up to 54"),
 ("C17","proved",["C17_one_honest_contributor"],""),
 ("C18","proved",["C18_contribute","C18_contribute2","C18_transform","C18_same_file","C18_same_file2","C18_same_file_transform"],""),
 ("C19","proved",["C19_good_powers","C19_negative_powers_refuted","C19_command_line_refuted"],"shows the defect"),
 ("C20","proved",["C20_power_zero_refuted"],"shows the defect"),
 ("C21","proved",["C21_parallelize_partition"],""),
 ("C22","proved",["C22_parallel_loop_deterministic"],"Goroutines are modelled as interleaved atomic array updates with declared footprints."),
 ("C23","proved",["C23_bit_reversal","C23_mirror_exists_unique"],""),
 ("C24","proved",["C24_lagrange","C24_powers_to_lagrange"],""),
 ("C25","proved",["C25_split_cpus","C25_no_fault"],""),
 ("C26","proved",["C26_domain"],""),
 ("C27","proved",["C27_circuit_fits","C27_power0_refuted"],"power 0 is the exception"),
 ("C28","proved",["C28_header_partition"],""),
 ("C29","proved",["C29_sections"],"circuits without commitment, powers with root of unity"),
 ("C30","proved",["C30_evaluations"],""),
 ("C31","proved",["C31_split"],""),
 ("C32","proved",["C32_private_commitment_panics","C32_public_commitment"],"shows the defect"),
 ("C33","proved",["C33_Z"],""),
 ("C34","proved",["C34_parted_agrees","C34_parted_truncates_refuted","C34_parted_too_many"],"accepts fewer constraints silently"),
 ("C35","proved",["C35_contribute"],""),
 ("C36","proved",["C36_contribute_corrupts_refuted","C36_verify_rejects_refuted","C36_honest_ceremony_refuted","C36_within_64_records_refuted"],"shows the defect"),
 ("C37","proved",["C37_honest_ceremony_verifies"],""),
 ("C38","proved",["C38_wrong_parameters_caught","C38_at_most_one_scalar"],""),
 ("C39","proved",["C39_undecodable_accepted_refuted","C39_ceremony_stuck_refuted","C39_negative_count_refuted"],"shows the defect"),
 ("C40","proved",["C40_accepted_chain","C40_accepted_bytes","C40_rejections"],"update factors are extracted for records whose key and challenge are not the identity"),
 ("C41","proved",["C41_hash_commits"],""),
 ("C42","proved",["C42_tau_proof_reused_refuted"],"shows the defect"),
 ("C43","proved",["C43_header_round_trip","C43_documented"],"a reader without buffer or with more than 136 bytes of it (the program uses 0 and 4096)"),
 ("C44","proved",["C44_vk_offset","C44_offset_is_vkk","C44_vk_offset_32bit_refuted"],"shows the defect on 32-bit platforms"),
 ("C45","proved",["C45_filter","C45_same_flags"],""),
 ("C46","proved",["C46_keypair","C46_keypair_both_phases"],"files in which no record hash straddles a 4096-byte boundary (the defect C36)"),
 ("C47","proved",["C47_completeness","C47_keypair_complete"],"same files as C46"),
 ("C48","proved",["C48_split_same","C48_split_keypair","C48_names"],""),
 ("C49","proved",["C49_commitment_info_refuted"],"shows the defect"),
 ("C50","proved",["C50_own_evals_refuted"],"shows the defect"),
 ("C51","proved",["C51_full_disk","C51_full_disk2","C51_reported_refuted","C51_reported2_refuted","C51_hash","C51_hash2","C51_p2n_reported_refuted","C51_keys_reported_refuted","C51_initialize_full_disk","C51_initialize_reported_refuted","C51_transform_full_disk","C51_transform_reported_refuted","C51_keys_full_disk","C51_keys_cut_refuted","C51_enough","C51_p2n_short_refuted","C51_p2np_short_refuted","C51_keys_short_refuted","C51_split_keys_short_refuted"],"shows the defect, for p2n, p2np, key and keys for every successful run; key exactly"),
 ("C52","proved",["C52_contribute","C52_contribute2","C52_transform","C52_initialize","C52_p2n","C52_p2np","C52_keys","C52_split_keys"],"the process is killed; not power failure"),
 ("C53","proved",["C53_same_parameters_refuted"],"shows the defect"),
 ("C54","proved",["C54_zero_secret"],""),
 ("C55","proved",["C55_contribute","C55_contribute2","C55_transform","C55_initialize","C55_p2n","C55_p2np","C55_keys","C55_split_keys"],""),
 ("C56","proved",["C56_initialize","C56_p2n","C56_p2np","C56_keys","C56_split_keys"],"the process is killed; not power failure"),
 ("C57","proved",["C57_refused","C57_numbers"],"command lines after urfave/cli has removed flags"),
 ("C58","proved",["C58_outputs","C58_checks_write_nothing","C58_p1v","C58_p1vt","C58_p1vt_empty","C58_p2v","C58_sol","C58_sol_no_key"],"the Solidity text itself is not modelled"),
 ("C59","proved",["C59_phase1_session"],"MultiExp refusing slices of different lengths, as gnark-crypto does"),
 ("C60","proved",["C60_whole_session","C60_proofs"],"files in which no record hash straddles a 4096-byte boundary (the defect C36)"),
 ("C61","proved",["C61_truncated","C61_truncated_live","C61_missing_records_refuted"],"shows the defect; otherwise up to equal challenges and SHA-256 collisions, stated as such"),
 ("C62","proved",["C62_accepts","C62_padded","C62_cut","C62_cut_noticed_refuted"],"shows the defect; batch size 2 or more (the program uses 1048576)"),
 ("C63","proved",["C63_truncated","C63_contribute","C63_cut_noticed_refuted"],"shows the defect; files in which no record hash straddles a 4096-byte boundary (the defect C36)"),
 ("C64","proved",["C64_no_phase2_refuted","C64_no_phase1_refuted"],"shows the defect; files in which no record hash straddles a 4096-byte boundary (the defect C36)"),
 ("C65","proved",["C65_one_secret","C65_tau"],"the verifier is the pairing equation of the key pair, with gamma = 1 as the program writes it"),
 ("C66","proved",["C66_order_independent","C66_one_honest_contributor"],"files in which no record hash straddles a 4096-byte boundary (the defect C36)"),
 ("C67","proved",["C67_accepted_keys"],"phase-1 parameters are assumed to come from a trapdoor, because p1v does not check them (C07)"),
 ("C68","proved",["C68_transformed_session"],"sol: gnark's ExportSolidity is an uninterpreted function of the bytes of session.vk.save"),
 ("C69","proved",["C69_replaced_parameters_refuted"],"the property is false; proved: it fails in every ceremony, for every choice of tau and alpha"),
 ("C70","proved",["C70_replaced_evals_refuted"],"the property is false; proved: it fails in every ceremony, for all replaced evaluations"),
 ("C71","proved",["C71_inputs"],"the part files of p2np are represented by the circuit they hold"),
 ("C72","proved",["C72_run_again"],"the process is killed; not power failure"),
 ("C73","proved",["C73_sessions"],"the lines are run one after the other; at the same time: C75"),
 ("C74","proved",["C74_refusal_noticed","C74_not_created"],"a failing os.Create leaves the file as it was"),
 ("C75","proved",["C75_at_the_same_time"],"a step is one open, create, read, write or flush; an R1CS file is read in one step"),
 ("C76","proved",["C76_two_p2n_refuted"],"the property is false; proved: a schedule in which no file is open for writing in both processes"),
 ("C77","proved",["C77_equations","C77_every_randomness","C77_one_scalar","C77_powers_refuted"],"the expectation is false; proved: exactly what the checks compare, and accepted files that are not powers of tau"),
 ("C78","proved",["C78_p1v_refuted","C78_p1c_refuted","C78_p1c_any_device","C78_p1t","C78_p1n","C78_p2c_refuted","C78_p2v","C78_p2v_refuted","C78_pk","C78_pk_refuted","C78_split_pk","C78_vk","C78_p2n"],"the expectation is false; proved: the files that make a command panic, exactly for p1v, p1c and p2c"),
 ("C79","proved",["C79_witness","C79_one_honest","C79_few_trapdoors","C79_honest","C79_keypair_unique"],"the prover combines the points of the final files (C81: of all files). C46, C60: the commands write these keys"),
 ("C80","proved",["C80_fewer_constraints_refuted","C80_negative_refuted"],"the property is false; proved: it fails for every smaller number, and every negative one gives keys for which any assignment has accepted proofs"),
 ("C81","proved",["C81_ceremony","C81_few_ceremonies","C81_witness","C81_honest","C81_records"],"challenge points are arbitrary values fixed beforehand; the other contributors choose their secrets without looking at the honest ones'"),
 ("C82","proved",["C82_uniform","C82_same_proofs","C82_accepted","C82_unchecked_refuted"],"the prover is gnark's Groth16 prover as in Spec4.v (circuits without commitment); keys extracted from a file with delta 0 do not hide, which only p2v notices"),
 ("C83","proved",["C83_any_parameters","C83_leak_refuted","C83_selective_refuted"],"the property does not hold; the theorems give the keys for arbitrary parameters and the discrepancy of every honest proof; the prover is gnark's Groth16 prover as in Spec4.v (circuits without commitment)"),
 ("C84","proved",["C84_attested","C84_attested_file"],"phase-1 parameters are assumed to come from a trapdoor, as in C67; for phase 1 the property does not hold (C69)"),
 ("C85","proved",["C85_ceremony","C85_last_line_refuted"],"files in which no record hash straddles a 4096-byte boundary (the defect C36)"),
 ("C86","proved",["C86_phase1","C86_phase1_sections_refuted","C86_header","C86_initialization","C86_lagrange_refuted","C86_phase2","C86_contribution","C86_growth_refuted"],"the commitment information at the end of evals is a gob stream of the external cmt_bytes, whose length is left as it is; phase-2 files in which no record hash straddles a 4096-byte boundary"),
 ("C87","proved",["C87_exactly","C87_short","C87_larger","C87_smaller","C87_big_refuted","C87_negative","C87_wrapped_refuted","C87_wrapped_big_refuted","C87_wrapped_one","C87_command_line","C87_guard_refuted"],"all 256 input and output powers; refuted parts: numbers that are cut to bytes, offsets that wrap around"),
 ("C88","proved",["C88_needs","C88_same","C88_power_refuted","C88_origin","C88_p1v"],"the property is false; proved: which bytes of the transformed file count, and that any power is accepted"),
 ("C89","proved",["C89_offsets","C89_alone","C89_folded","C89_same_output_refuted","C89_folded_refuted"],"writing at offsets equals appending whenever no file is an output twice; witnesses for the two exceptions"),
 ("C90","proved",["C90_attested","C90_parameters_refuted"],"the second expectation is false; proved: it fails in every ceremony, for all tau and alpha"),
 ("C91","proved",["C91_origin_records_refuted","C91_earlier_file","C91_restart_refuted"],"the property is false; proved: what counts of the origin, and a restart that is accepted in every ceremony; ceremonies in which no record hash straddles a 4096-byte boundary (the defect C36)"),
 ("C92","proved",["C92_phase2","C92_phase2_own","C92_phase1","C92_phase1_own","C92_dead_refuted"],"up to a named collision of SHA-256 or of the challenge point; keys at infinity are excluded and C92_dead_refuted shows why"),
 ("C93","proved",["C93_once_phase2","C93_fork_phase2","C93_once_phase1","C93_fork_phase1","C93_dead_twice_refuted"],"up to a named collision of SHA-256 or of the challenge point; keys at infinity are excluded and C93_dead_twice_refuted shows why"),
 ("C94","proved",["C94_final_keys"],"up to a batch scalar or a named collision of SHA-256 or of the challenge point; keys at infinity, commitments and T in the domain are excluded"),
 ("C95","proved",["C95_accepts","C95_readable","C95_negative_refuted"],"headers as the tool writes them; C95_negative_refuted shows that negative numbers of contributions are accepted"),
 ("C96","proved",["C96_key","C96_split","C96_lengths_refuted"],"headers as the tool writes them, 64-bit int; C96_lengths_refuted shows that the lengths of A, B and B2 are not checked"),
 ("C97","proved",["C97_history","C97_once","C97_own","C97_fork","C97_final_keys","C97_attested"],"F is any byte string; the bytes contributed to start with a header as the tool writes it; the keys as in C84"),
 ("C98","proved",["C98_p1v","C98_only","C98_p1vt"],"Equivalences on arbitrary bytes; the converse uses that MultiExp rejects slices of different lengths (mexp_strict), C98_only does without."),
 ("C99","proved",["C99_p2v"],"Equivalence for any bytes behind headers in the tool's own encoding."),
 ("C100","proved",["C100_cut_in_Z_refuted","C100_cut_in_PKK_refuted","C100_last_byte_refuted"],"The expectation is refuted; the theorems show which files are accepted."),
 ("C101","proved",["C101_p2n","C101_writes","C101_power"],"Equivalence for any bytes behind the power byte; circuits without commitment, as in C29."),
 ("C102","proved",["C102_circuits","C102_terms"],"Equivalence over circuits and phase-1 bytes; joins C101 with C32."),
 ("C103","proved",["C103_p2np","C103_writes"],"The circuit is the one the loader of the parted files gives."),
 ("C104","proved",["C104_cut_origin_refuted"],"Refuted: adding known multiples of the generator to PKK passes p2v if the origin lacks its last byte; honest proofs then verify exactly if a linear combination of the witness is 0."),
 ("C105","proved",["C105_verifying_key"],"final file and points of the origin are any bytes; the header and the deltas of the origin are those of p2n."),
 ("C106","proved",["C106_return_err","C106_cut_origin"],"verify2_strict (Strict2.v) is not the code that exists: it is verify2 with return err in verifyParameter; headers are canonical, but for the final file of C106_cut_origin, which is any bytes."),
 ("C107","proved",["C107_filterL"],"an equivalence; covers the branch for private committed wires, which no other theorem pins down."),
 ("C108","proved",["C108_fixed"],"filterL_fixed (Fixed3.v) is not the code that exists: it is filterL with the two changes named in the statement; only filterL, not what key does with CKK."),
]
out = os.path.join(os.path.dirname(os.path.dirname(os.path.abspath(__file__))), "MANIFEST.json")
json.dump({"claims":[{"property":a,"status":b,"theorems":c,"note":d} for a,b,c,d in T]}, open(out,"w"), indent=1)
