{
 "claims": [
  {
   "property": "C01",
   "status": "proved",
   "theorems": [
    "C01_initialize"
   ],
   "note": "powers 0..62"
  },
  {
   "property": "C02",
   "status": "proved",
   "theorems": [
    "C02_contribute_parameters"
   ],
   "note": ""
  },
  {
   "property": "C03",
   "status": "proved",
   "theorems": [
    "C03_contribute_record",
    "C03_degenerate_file_refuted"
   ],
   "note": "for sections whose copied entry is not overtaken by a later batch (all powers-of-tau sections); the degenerate case is exhibited"
  },
  {
   "property": "C04",
   "status": "proved",
   "theorems": [
    "C04_srs_is_product",
    "C04_order_independent"
   ],
   "note": ""
  },
  {
   "property": "C05",
   "status": "proved",
   "theorems": [
    "C05_honest_ceremony_verifies"
   ],
   "note": "MultiExp rejects unequal lengths (gnark-crypto)"
  },
  {
   "property": "C06",
   "status": "proved",
   "theorems": [
    "C06_counter_wraps_refuted",
    "C06_contribution_65536_refuted"
   ],
   "note": "shows the defect"
  },
  {
   "property": "C07",
   "status": "proved",
   "theorems": [
    "C07_parameters_unchecked_refuted",
    "C07_garbage_accepted_refuted"
   ],
   "note": "shows the defect"
  },
  {
   "property": "C08",
   "status": "proved",
   "theorems": [
    "C08_tauG2_check_refuted"
   ],
   "note": "shows the defect; every batch size"
  },
  {
   "property": "C09",
   "status": "proved",
   "theorems": [
    "C09_accepted_chain",
    "C09_accepted_bytes",
    "C09_origins"
   ],
   "note": ""
  },
  {
   "property": "C10",
   "status": "proved",
   "theorems": [
    "C10_identity_keys_refuted",
    "C10_idle_record_refuted"
   ],
   "note": "shows the defect"
  },
  {
   "property": "C11",
   "status": "proved",
   "theorems": [
    "C11_hash_commits"
   ],
   "note": ""
  },
  {
   "property": "C12",
   "status": "proved",
   "theorems": [
    "C12_no_contributions"
   ],
   "note": ""
  },
  {
   "property": "C13",
   "status": "proved",
   "theorems": [
    "C13_header_round_trip",
    "C13_short_header_refuted"
   ],
   "note": ""
  },
  {
   "property": "C14",
   "status": "proved",
   "theorems": [
    "C14_hash_read_is_full"
   ],
   "note": ""
  },
  {
   "property": "C15",
   "status": "proved",
   "theorems": [
    "C15_transform",
    "C15_transform_powers"
   ],
   "note": "powers up to 54"
  },
  {
   "property": "C16",
   "status": "proved",
   "theorems": [
    "C16_ceremony_after_transform",
    "C16_powers_qualify"
   ],
   "note": "powers up to 54"
  },
  {
   "property": "C17",
   "status": "proved",
   "theorems": [
    "C17_one_honest_contributor"
   ],
   "note": ""
  },
  {
   "property": "C18",
   "status": "proved",
   "theorems": [
    "C18_contribute",
    "C18_contribute2",
    "C18_transform",
    "C18_same_file",
    "C18_same_file2",
    "C18_same_file_transform"
   ],
   "note": ""
  },
  {
   "property": "C19",
   "status": "proved",
   "theorems": [
    "C19_good_powers",
    "C19_negative_powers_refuted",
    "C19_command_line_refuted"
   ],
   "note": "shows the defect"
  },
  {
   "property": "C20",
   "status": "proved",
   "theorems": [
    "C20_power_zero_refuted"
   ],
   "note": "shows the defect"
  },
  {
   "property": "C21",
   "status": "proved",
   "theorems": [
    "C21_parallelize_partition"
   ],
   "note": ""
  },
  {
   "property": "C22",
   "status": "proved",
   "theorems": [
    "C22_parallel_loop_deterministic"
   ],
   "note": "Goroutines are modelled as interleaved atomic array updates with declared footprints."
  },
  {
   "property": "C23",
   "status": "proved",
   "theorems": [
    "C23_bit_reversal",
    "C23_mirror_exists_unique"
   ],
   "note": ""
  },
  {
   "property": "C24",
   "status": "proved",
   "theorems": [
    "C24_lagrange",
    "C24_powers_to_lagrange"
   ],
   "note": ""
  },
  {
   "property": "C25",
   "status": "proved",
   "theorems": [
    "C25_split_cpus",
    "C25_no_fault"
   ],
   "note": ""
  },
  {
   "property": "C26",
   "status": "proved",
   "theorems": [
    "C26_domain"
   ],
   "note": ""
  },
  {
   "property": "C27",
   "status": "proved",
   "theorems": [
    "C27_circuit_fits",
    "C27_power0_refuted"
   ],
   "note": "power 0 is the exception"
  },
  {
   "property": "C28",
   "status": "proved",
   "theorems": [
    "C28_header_partition"
   ],
   "note": ""
  },
  {
   "property": "C29",
   "status": "proved",
   "theorems": [
    "C29_sections"
   ],
   "note": "circuits without commitment, powers with root of unity"
  },
  {
   "property": "C30",
   "status": "proved",
   "theorems": [
    "C30_evaluations"
   ],
   "note": ""
  },
  {
   "property": "C31",
   "status": "proved",
   "theorems": [
    "C31_split"
   ],
   "note": ""
  },
  {
   "property": "C32",
   "status": "proved",
   "theorems": [
    "C32_private_commitment_panics",
    "C32_public_commitment"
   ],
   "note": "shows the defect"
  },
  {
   "property": "C33",
   "status": "proved",
   "theorems": [
    "C33_Z"
   ],
   "note": ""
  },
  {
   "property": "C34",
   "status": "proved",
   "theorems": [
    "C34_parted_agrees",
    "C34_parted_truncates_refuted",
    "C34_parted_too_many"
   ],
   "note": "accepts fewer constraints silently"
  },
  {
   "property": "C35",
   "status": "proved",
   "theorems": [
    "C35_contribute"
   ],
   "note": ""
  },
  {
   "property": "C36",
   "status": "proved",
   "theorems": [
    "C36_contribute_corrupts_refuted",
    "C36_verify_rejects_refuted",
    "C36_honest_ceremony_refuted",
    "C36_within_64_records_refuted"
   ],
   "note": "shows the defect"
  },
  {
   "property": "C37",
   "status": "proved",
   "theorems": [
    "C37_honest_ceremony_verifies"
   ],
   "note": ""
  },
  {
   "property": "C38",
   "status": "proved",
   "theorems": [
    "C38_wrong_parameters_caught",
    "C38_at_most_one_scalar"
   ],
   "note": ""
  },
  {
   "property": "C39",
   "status": "proved",
   "theorems": [
    "C39_undecodable_accepted_refuted",
    "C39_ceremony_stuck_refuted",
    "C39_negative_count_refuted"
   ],
   "note": "shows the defect"
  },
  {
   "property": "C40",
   "status": "proved",
   "theorems": [
    "C40_accepted_chain",
    "C40_accepted_bytes",
    "C40_rejections"
   ],
   "note": "update factors are extracted for records whose key and challenge are not the identity"
  },
  {
   "property": "C41",
   "status": "proved",
   "theorems": [
    "C41_hash_commits"
   ],
   "note": ""
  },
  {
   "property": "C42",
   "status": "proved",
   "theorems": [
    "C42_tau_proof_reused_refuted"
   ],
   "note": "shows the defect"
  },
  {
   "property": "C43",
   "status": "proved",
   "theorems": [
    "C43_header_round_trip",
    "C43_documented"
   ],
   "note": "a reader without buffer or with more than 136 bytes of it (the program uses 0 and 4096)"
  },
  {
   "property": "C44",
   "status": "proved",
   "theorems": [
    "C44_vk_offset",
    "C44_offset_is_vkk",
    "C44_vk_offset_32bit_refuted"
   ],
   "note": "shows the defect on 32-bit platforms"
  },
  {
   "property": "C45",
   "status": "proved",
   "theorems": [
    "C45_filter",
    "C45_same_flags"
   ],
   "note": ""
  },
  {
   "property": "C46",
   "status": "proved",
   "theorems": [
    "C46_keypair",
    "C46_keypair_both_phases"
   ],
   "note": "files in which no record hash straddles a 4096-byte boundary (the defect C36)"
  },
  {
   "property": "C47",
   "status": "proved",
   "theorems": [
    "C47_completeness",
    "C47_keypair_complete"
   ],
   "note": "same files as C46"
  },
  {
   "property": "C48",
   "status": "proved",
   "theorems": [
    "C48_split_same",
    "C48_split_keypair",
    "C48_names"
   ],
   "note": ""
  },
  {
   "property": "C49",
   "status": "proved",
   "theorems": [
    "C49_commitment_info_refuted"
   ],
   "note": "shows the defect"
  },
  {
   "property": "C50",
   "status": "proved",
   "theorems": [
    "C50_own_evals_refuted"
   ],
   "note": "shows the defect"
  },
  {
   "property": "C51",
   "status": "proved",
   "theorems": [
    "C51_full_disk",
    "C51_full_disk2",
    "C51_reported_refuted",
    "C51_reported2_refuted",
    "C51_hash",
    "C51_hash2",
    "C51_p2n_reported_refuted",
    "C51_keys_reported_refuted",
    "C51_initialize_full_disk",
    "C51_initialize_reported_refuted",
    "C51_transform_full_disk",
    "C51_transform_reported_refuted",
    "C51_keys_full_disk",
    "C51_keys_cut_refuted",
    "C51_enough",
    "C51_p2n_short_refuted",
    "C51_p2np_short_refuted",
    "C51_keys_short_refuted",
    "C51_split_keys_short_refuted"
   ],
   "note": "shows the defect, for p2n, p2np, key and keys for every successful run; key exactly"
  },
  {
   "property": "C52",
   "status": "proved",
   "theorems": [
    "C52_contribute",
    "C52_contribute2",
    "C52_transform",
    "C52_initialize",
    "C52_p2n",
    "C52_p2np",
    "C52_keys",
    "C52_split_keys"
   ],
   "note": "the process is killed; not power failure"
  },
  {
   "property": "C53",
   "status": "proved",
   "theorems": [
    "C53_same_parameters_refuted"
   ],
   "note": "shows the defect"
  },
  {
   "property": "C54",
   "status": "proved",
   "theorems": [
    "C54_zero_secret"
   ],
   "note": ""
  },
  {
   "property": "C55",
   "status": "proved",
   "theorems": [
    "C55_contribute",
    "C55_contribute2",
    "C55_transform",
    "C55_initialize",
    "C55_p2n",
    "C55_p2np",
    "C55_keys",
    "C55_split_keys"
   ],
   "note": ""
  },
  {
   "property": "C56",
   "status": "proved",
   "theorems": [
    "C56_initialize",
    "C56_p2n",
    "C56_p2np",
    "C56_keys",
    "C56_split_keys"
   ],
   "note": "the process is killed; not power failure"
  },
  {
   "property": "C57",
   "status": "proved",
   "theorems": [
    "C57_refused",
    "C57_numbers"
   ],
   "note": "command lines after urfave/cli has removed flags"
  },
  {
   "property": "C58",
   "status": "proved",
   "theorems": [
    "C58_outputs",
    "C58_checks_write_nothing",
    "C58_p1v",
    "C58_p1vt",
    "C58_p1vt_empty",
    "C58_p2v",
    "C58_sol",
    "C58_sol_no_key"
   ],
   "note": "the Solidity text itself is not modelled"
  },
  {
   "property": "C59",
   "status": "proved",
   "theorems": [
    "C59_phase1_session"
   ],
   "note": "MultiExp refusing slices of different lengths, as gnark-crypto does"
  },
  {
   "property": "C60",
   "status": "proved",
   "theorems": [
    "C60_whole_session",
    "C60_proofs"
   ],
   "note": "files in which no record hash straddles a 4096-byte boundary (the defect C36)"
  },
  {
   "property": "C61",
   "status": "proved",
   "theorems": [
    "C61_truncated",
    "C61_truncated_live",
    "C61_missing_records_refuted"
   ],
   "note": "shows the defect; otherwise up to equal challenges and SHA-256 collisions, stated as such"
  },
  {
   "property": "C62",
   "status": "proved",
   "theorems": [
    "C62_accepts",
    "C62_padded",
    "C62_cut",
    "C62_cut_noticed_refuted"
   ],
   "note": "shows the defect; batch size 2 or more (the program uses 1048576)"
  },
  {
   "property": "C63",
   "status": "proved",
   "theorems": [
    "C63_truncated",
    "C63_contribute",
    "C63_cut_noticed_refuted"
   ],
   "note": "shows the defect; files in which no record hash straddles a 4096-byte boundary (the defect C36)"
  },
  {
   "property": "C64",
   "status": "proved",
   "theorems": [
    "C64_no_phase2_refuted",
    "C64_no_phase1_refuted"
   ],
   "note": "shows the defect; files in which no record hash straddles a 4096-byte boundary (the defect C36)"
  },
  {
   "property": "C65",
   "status": "proved",
   "theorems": [
    "C65_one_secret",
    "C65_tau"
   ],
   "note": "the verifier is the pairing equation of the key pair, with gamma = 1 as the program writes it"
  },
  {
   "property": "C66",
   "status": "proved",
   "theorems": [
    "C66_order_independent",
    "C66_one_honest_contributor"
   ],
   "note": "files in which no record hash straddles a 4096-byte boundary (the defect C36)"
  },
  {
   "property": "C67",
   "status": "proved",
   "theorems": [
    "C67_accepted_keys"
   ],
   "note": "phase-1 parameters are assumed to come from a trapdoor, because p1v does not check them (C07)"
  },
  {
   "property": "C68",
   "status": "proved",
   "theorems": [
    "C68_transformed_session"
   ],
   "note": "sol: gnark's ExportSolidity is an uninterpreted function of the bytes of session.vk.save"
  },
  {
   "property": "C69",
   "status": "proved",
   "theorems": [
    "C69_replaced_parameters_refuted"
   ],
   "note": "the property is false; proved: it fails in every ceremony, for every choice of tau and alpha"
  },
  {
   "property": "C70",
   "status": "proved",
   "theorems": [
    "C70_replaced_evals_refuted"
   ],
   "note": "the property is false; proved: it fails in every ceremony, for all replaced evaluations"
  },
  {
   "property": "C71",
   "status": "proved",
   "theorems": [
    "C71_inputs"
   ],
   "note": "the part files of p2np are represented by the circuit they hold"
  },
  {
   "property": "C72",
   "status": "proved",
   "theorems": [
    "C72_run_again"
   ],
   "note": "the process is killed; not power failure"
  },
  {
   "property": "C73",
   "status": "proved",
   "theorems": [
    "C73_sessions"
   ],
   "note": "the lines are run one after the other; at the same time: C75"
  },
  {
   "property": "C74",
   "status": "proved",
   "theorems": [
    "C74_refusal_noticed",
    "C74_not_created"
   ],
   "note": "a failing os.Create leaves the file as it was"
  },
  {
   "property": "C75",
   "status": "proved",
   "theorems": [
    "C75_at_the_same_time"
   ],
   "note": "a step is one open, create, read, write or flush; an R1CS file is read in one step"
  },
  {
   "property": "C76",
   "status": "proved",
   "theorems": [
    "C76_two_p2n_refuted"
   ],
   "note": "the property is false; proved: a schedule in which no file is open for writing in both processes"
  },
  {
   "property": "C77",
   "status": "proved",
   "theorems": [
    "C77_equations",
    "C77_every_randomness",
    "C77_one_scalar",
    "C77_powers_refuted"
   ],
   "note": "the expectation is false; proved: exactly what the checks compare, and accepted files that are not powers of tau"
  },
  {
   "property": "C78",
   "status": "proved",
   "theorems": [
    "C78_p1v_refuted",
    "C78_p1c_refuted",
    "C78_p1c_any_device",
    "C78_p1t",
    "C78_p1n",
    "C78_p2c_refuted",
    "C78_p2v",
    "C78_p2v_refuted",
    "C78_pk",
    "C78_pk_refuted",
    "C78_split_pk",
    "C78_vk",
    "C78_p2n"
   ],
   "note": "the expectation is false; proved: the files that make a command panic, exactly for p1v, p1c and p2c"
  },
  {
   "property": "C79",
   "status": "proved",
   "theorems": [
    "C79_witness",
    "C79_one_honest",
    "C79_few_trapdoors",
    "C79_honest",
    "C79_keypair_unique"
   ],
   "note": "the prover combines the points of the final files (C81: of all files). C46, C60: the commands write these keys"
  },
  {
   "property": "C80",
   "status": "proved",
   "theorems": [
    "C80_fewer_constraints_refuted",
    "C80_negative_refuted"
   ],
   "note": "the property is false; proved: it fails for every smaller number, and every negative one gives keys for which any assignment has accepted proofs"
  },
  {
   "property": "C81",
   "status": "proved",
   "theorems": [
    "C81_ceremony",
    "C81_few_ceremonies",
    "C81_witness",
    "C81_honest",
    "C81_records"
   ],
   "note": "challenge points are arbitrary values fixed beforehand; the other contributors choose their secrets without looking at the honest ones'"
  },
  {
   "property": "C82",
   "status": "proved",
   "theorems": [
    "C82_uniform",
    "C82_same_proofs",
    "C82_accepted",
    "C82_unchecked_refuted"
   ],
   "note": "the prover is gnark's Groth16 prover as in Spec4.v (circuits without commitment); keys extracted from a file with delta 0 do not hide, which only p2v notices"
  },
  {
   "property": "C83",
   "status": "proved",
   "theorems": [
    "C83_any_parameters",
    "C83_leak_refuted",
    "C83_selective_refuted"
   ],
   "note": "the property does not hold; the theorems give the keys for arbitrary parameters and the discrepancy of every honest proof; the prover is gnark's Groth16 prover as in Spec4.v (circuits without commitment)"
  },
  {
   "property": "C84",
   "status": "proved",
   "theorems": [
    "C84_attested",
    "C84_attested_file"
   ],
   "note": "phase-1 parameters are assumed to come from a trapdoor, as in C67; for phase 1 the property does not hold (C69)"
  },
  {
   "property": "C85",
   "status": "proved",
   "theorems": [
    "C85_ceremony",
    "C85_last_line_refuted"
   ],
   "note": "files in which no record hash straddles a 4096-byte boundary (the defect C36)"
  },
  {
   "property": "C86",
   "status": "proved",
   "theorems": [
    "C86_phase1",
    "C86_phase1_sections_refuted",
    "C86_header",
    "C86_initialization",
    "C86_lagrange_refuted",
    "C86_phase2",
    "C86_contribution",
    "C86_growth_refuted"
   ],
   "note": "the commitment information at the end of evals is a gob stream of the external cmt_bytes, whose length is left as it is; phase-2 files in which no record hash straddles a 4096-byte boundary"
  },
  {
   "property": "C87",
   "status": "proved",
   "theorems": [
    "C87_exactly",
    "C87_short",
    "C87_larger",
    "C87_smaller",
    "C87_big_refuted",
    "C87_negative",
    "C87_wrapped_refuted",
    "C87_wrapped_big_refuted",
    "C87_wrapped_one",
    "C87_command_line",
    "C87_guard_refuted"
   ],
   "note": "all 256 input and output powers; refuted parts: numbers that are cut to bytes, offsets that wrap around"
  },
  {
   "property": "C88",
   "status": "proved",
   "theorems": [
    "C88_needs",
    "C88_same",
    "C88_power_refuted",
    "C88_origin",
    "C88_p1v"
   ],
   "note": "the property is false; proved: which bytes of the transformed file count, and that any power is accepted"
  },
  {
   "property": "C89",
   "status": "proved",
   "theorems": [
    "C89_offsets",
    "C89_alone",
    "C89_folded",
    "C89_same_output_refuted",
    "C89_folded_refuted"
   ],
   "note": "writing at offsets equals appending whenever no file is an output twice; witnesses for the two exceptions"
  },
  {
   "property": "C90",
   "status": "proved",
   "theorems": [
    "C90_attested",
    "C90_parameters_refuted"
   ],
   "note": "the second expectation is false; proved: it fails in every ceremony, for all tau and alpha"
  },
  {
   "property": "C91",
   "status": "proved",
   "theorems": [
    "C91_origin_records_refuted",
    "C91_earlier_file",
    "C91_restart_refuted"
   ],
   "note": "the property is false; proved: what counts of the origin, and a restart that is accepted in every ceremony; ceremonies in which no record hash straddles a 4096-byte boundary (the defect C36)"
  },
  {
   "property": "C92",
   "status": "proved",
   "theorems": [
    "C92_phase2",
    "C92_phase2_own",
    "C92_phase1",
    "C92_phase1_own",
    "C92_dead_refuted"
   ],
   "note": "up to a named collision of SHA-256 or of the challenge point; keys at infinity are excluded and C92_dead_refuted shows why"
  },
  {
   "property": "C93",
   "status": "proved",
   "theorems": [
    "C93_once_phase2",
    "C93_fork_phase2",
    "C93_once_phase1",
    "C93_fork_phase1",
    "C93_dead_twice_refuted"
   ],
   "note": "up to a named collision of SHA-256 or of the challenge point; keys at infinity are excluded and C93_dead_twice_refuted shows why"
  },
  {
   "property": "C94",
   "status": "proved",
   "theorems": [
    "C94_final_keys"
   ],
   "note": "up to a batch scalar or a named collision of SHA-256 or of the challenge point; keys at infinity, commitments and T in the domain are excluded"
  },
  {
   "property": "C95",
   "status": "proved",
   "theorems": [
    "C95_accepts",
    "C95_readable",
    "C95_negative_refuted"
   ],
   "note": "headers as the tool writes them; C95_negative_refuted shows that negative numbers of contributions are accepted"
  },
  {
   "property": "C96",
   "status": "proved",
   "theorems": [
    "C96_key",
    "C96_split",
    "C96_lengths_refuted"
   ],
   "note": "headers as the tool writes them, 64-bit int; C96_lengths_refuted shows that the lengths of A, B and B2 are not checked"
  },
  {
   "property": "C97",
   "status": "proved",
   "theorems": [
    "C97_history",
    "C97_once",
    "C97_own",
    "C97_fork",
    "C97_final_keys",
    "C97_attested"
   ],
   "note": "F is any byte string; the bytes contributed to start with a header as the tool writes it; the keys as in C84"
  },
  {
   "property": "C98",
   "status": "proved",
   "theorems": [
    "C98_p1v",
    "C98_only",
    "C98_p1vt"
   ],
   "note": "Equivalences on arbitrary bytes; the converse uses that MultiExp rejects slices of different lengths (mexp_strict), C98_only does without."
  },
  {
   "property": "C99",
   "status": "proved",
   "theorems": [
    "C99_p2v"
   ],
   "note": "Equivalence for any bytes behind headers in the tool's own encoding."
  },
  {
   "property": "C100",
   "status": "proved",
   "theorems": [
    "C100_cut_in_Z_refuted",
    "C100_cut_in_PKK_refuted",
    "C100_last_byte_refuted"
   ],
   "note": "The expectation is refuted; the theorems show which files are accepted."
  },
  {
   "property": "C101",
   "status": "proved",
   "theorems": [
    "C101_p2n",
    "C101_writes",
    "C101_power"
   ],
   "note": "Equivalence for any bytes behind the power byte; circuits without commitment, as in C29."
  },
  {
   "property": "C102",
   "status": "proved",
   "theorems": [
    "C102_circuits",
    "C102_terms"
   ],
   "note": "Equivalence over circuits and phase-1 bytes; joins C101 with C32."
  },
  {
   "property": "C103",
   "status": "proved",
   "theorems": [
    "C103_p2np",
    "C103_writes"
   ],
   "note": "The circuit is the one the loader of the parted files gives."
  },
  {
   "property": "C104",
   "status": "proved",
   "theorems": [
    "C104_cut_origin_refuted"
   ],
   "note": "Refuted: adding known multiples of the generator to PKK passes p2v if the origin lacks its last byte; honest proofs then verify exactly if a linear combination of the witness is 0."
  },
  {
   "property": "C105",
   "status": "proved",
   "theorems": [
    "C105_verifying_key"
   ],
   "note": "final file and points of the origin are any bytes; the header and the deltas of the origin are those of p2n."
  },
  {
   "property": "C106",
   "status": "proved",
   "theorems": [
    "C106_return_err",
    "C106_cut_origin"
   ],
   "note": "verify2_strict (Strict2.v) is not the code that exists: it is verify2 with return err in verifyParameter; headers are canonical, but for the final file of C106_cut_origin, which is any bytes."
  },
  {
   "property": "C107",
   "status": "proved",
   "theorems": [
    "C107_filterL"
   ],
   "note": "an equivalence; covers the branch for private committed wires, which no other theorem pins down."
  },
  {
   "property": "C108",
   "status": "proved",
   "theorems": [
    "C108_fixed"
   ],
   "note": "filterL_fixed (Fixed3.v) is not the code that exists: it is filterL with the two changes named in the statement; only filterL, not what key does with CKK."
  }
 ]
}