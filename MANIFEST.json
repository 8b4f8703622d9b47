{
 "claims": [
  {
   "property": "C01",
   "status": "proved",
   "theorems": [
    "C01_closed_graph"
   ],
   "note": "for every history of Hop calls, saves and reloads from a fresh diagram, any engine, any arithmetic, all configurations within cfg_ok"
  },
  {
   "property": "C02",
   "status": "proved",
   "theorems": [
    "C02_momentum_conserved"
   ],
   "note": "for every history of Hop calls, saves and reloads from a fresh diagram, any engine, any arithmetic, all configurations within cfg_ok"
  },
  {
   "property": "C03",
   "status": "proved",
   "theorems": [
    "C03_momentum_tables",
    "C04_hop_never_fails"
   ],
   "note": "for every history of Hop calls, saves and reloads from a fresh diagram, any engine, any arithmetic, all configurations within cfg_ok"
  },
  {
   "property": "C04",
   "status": "proved",
   "theorems": [
    "C04_hop_never_fails"
   ],
   "note": "for every history of Hop calls, saves and reloads from a fresh diagram, any engine, any arithmetic, all configurations within cfg_ok; Ok excludes aborts, exceptions and undefined accesses the model represents"
  },
  {
   "property": "C05",
   "status": "proved",
   "theorems": [
    "C05_counts"
   ],
   "note": "for every history of Hop calls, saves and reloads from a fresh diagram, any engine, any arithmetic, all configurations within cfg_ok"
  },
  {
   "property": "C06",
   "status": "proved",
   "theorems": [
    "C06_spin_continuous"
   ],
   "note": "for every history of Hop calls, saves and reloads from a fresh diagram, any engine, any arithmetic, all configurations within cfg_ok"
  },
  {
   "property": "C07",
   "status": "proved",
   "theorems": [
    "C07_one_measuring_line"
   ],
   "note": "for every history of Hop calls, saves and reloads from a fresh diagram, any engine, any arithmetic, all configurations within cfg_ok"
  },
  {
   "property": "C08",
   "status": "proved",
   "theorems": [
    "C08_worm"
   ],
   "note": "for every history of Hop calls, saves and reloads from a fresh diagram, any engine, any arithmetic, all configurations within cfg_ok"
  },
  {
   "property": "C09",
   "status": "proved",
   "theorems": [
    "C09_vertex_correction"
   ],
   "note": "for every history of Hop calls, saves and reloads from a fresh diagram, any engine, any arithmetic, all configurations within cfg_ok"
  },
  {
   "property": "C10",
   "status": "proved",
   "theorems": [
    "C10_delta_equal_times_refuted"
   ],
   "note": "The claim is false of the code: an eight-step run in IEEE arithmetic reaches an order-1 delta line and the jump to order 0 and back gives its ends different times; CheckDiagram then fails."
  },
  {
   "property": "C100",
   "status": "proved",
   "theorems": [
    "C100_slot_numbers_irrelevant",
    "C100_equivalence"
   ],
   "note": "over NumR"
  },
  {
   "property": "C101",
   "status": "proved",
   "theorems": [
    "C101_restart_transparent",
    "C101_reload_same"
   ],
   "note": "over NumR; the losses of order 0 and of vertex corrections on saving are the refuted parts of C24-C26"
  },
  {
   "property": "C102",
   "status": "proved",
   "theorems": [
    "C102_line_weights_are_table_entries",
    "C102_tables_are_the_files"
   ],
   "note": "for every number type"
  },
  {
   "property": "C103",
   "status": "proved",
   "theorems": [
    "C103_job_samples_its_parameters",
    "C103_job_is_a_history"
   ],
   "note": "ratio over NumR; jobs that take no message"
  },
  {
   "property": "C104",
   "status": "proved",
   "theorems": [
    "C104_load_without_parameter_file"
   ],
   "note": "for every number type"
  },
  {
   "property": "C105",
   "status": "proved",
   "theorems": [
    "C105_restart_before_first_save"
   ],
   "note": "for every number type"
  },
  {
   "property": "C106",
   "status": "proved",
   "theorems": [
    "C106_parameters_are_the_files"
   ],
   "note": "for every number type"
  },
  {
   "property": "C107",
   "status": "proved",
   "theorems": [
    "C107_frames"
   ],
   "note": "for every number type"
  },
  {
   "property": "C108",
   "status": "proved",
   "theorems": [
    "C108_work_done",
    "C108_runs_are_traces",
    "C108_thermalisation"
   ],
   "note": "for every number type; Counter below 2^63; messages that lower Beta or meet stale worm ends excluded (C25)"
  },
  {
   "property": "C109",
   "status": "proved",
   "theorems": [
    "C109_restart_gives_last_save"
   ],
   "note": "for every number type"
  },
  {
   "property": "C11",
   "status": "proved",
   "theorems": [
    "C11_stored_weights"
   ],
   "note": "for every history of Hop calls, saves and reloads from a fresh diagram, any engine, any arithmetic, all configurations within cfg_ok"
  },
  {
   "property": "C110",
   "status": "proved",
   "theorems": [
    "C110_not_too_often",
    "C110_not_too_late",
    "C110_disk_timer_tells_last_save",
    "C110_clocked_runs"
   ],
   "note": "time(0) is an input"
  },
  {
   "property": "C111",
   "status": "proved",
   "theorems": [
    "C111_factors"
   ],
   "note": "for every number type"
  },
  {
   "property": "C112",
   "status": "proved",
   "theorems": [
    "C112_every_iteration_measures",
    "C112_counts"
   ],
   "note": "counts over NumR"
  },
  {
   "property": "C113",
   "status": "proved",
   "theorems": [
    "C113_job_with_messages_samples_its_parameters",
    "C113_no_line_weight_vanishes",
    "C113_covers_C103"
   ],
   "note": "exact arithmetic; runGamma3 off; messages that do not lower Beta and meet no stale worm ends"
  },
  {
   "property": "C114",
   "status": "proved",
   "theorems": [
    "C114_job_with_messages_measures_without_bias"
   ],
   "note": "exact arithmetic; runGamma3 off; same jobs as C113"
  },
  {
   "property": "C115",
   "status": "proved",
   "theorems": [
    "C115_counts",
    "C115_no_leak",
    "C115_all_freed",
    "C115_cycle_refuted"
   ],
   "note": "Counts and absence of leaks proved for all programs of Object operations; objects that hold each other in a circle are never freed (refuted part, as in CPython without its collector)."
  },
  {
   "property": "C116",
   "status": "proved",
   "theorems": [
    "C116_cast",
    "C116_cast_freed",
    "C116_convert",
    "C116_round_trip"
   ],
   "note": ""
  },
  {
   "property": "C117",
   "status": "proved",
   "theorems": [
    "C117_tuple_law",
    "C117_tuple_refuted"
   ],
   "note": "The claim is false of the code: AddToTuple passes obj.Get() to a by-value Object parameter, which takes over a reference it was not given."
  },
  {
   "property": "C118",
   "status": "proved",
   "theorems": [
    "C118_average",
    "C118_order",
    "C118_enough",
    "C118_keys"
   ],
   "note": "Exact arithmetic; every smoothing function; files are unreadable or share Norm and number of orders; C118_keys also covers files lacking a histogram."
  },
  {
   "property": "C119",
   "status": "proved",
   "theorems": [
    "C119_failed_file_refuted",
    "C119_listing_refuted",
    "C119_short_file_refuted"
   ],
   "note": "The claim is false of the code; witnesses given for each part."
  },
  {
   "property": "C12",
   "status": "proved",
   "theorems": [
    "C12_weight_product"
   ],
   "note": "Exact arithmetic; every regular history (fresh diagram with non-zero line weights, saves only without vertex correction, any steps/reloads/retunings). Also shows that no existing line weight ever becomes zero."
  },
  {
   "property": "C120",
   "status": "proved",
   "theorems": [
    "C120_range",
    "C120_accepted",
    "C120_rising",
    "C120_stale_refuted",
    "C120_crash_refuted"
   ],
   "note": "The range, the criterion that is really used and monotony are proved; the claims about an order's own noise and about missing statistics are false of the code."
  },
  {
   "property": "C121",
   "status": "proved",
   "theorems": [
    "C121_sum",
    "C121_one",
    "C121_kept",
    "C121_return"
   ],
   "note": "Exact arithmetic; numpy's fft family as sums."
  },
  {
   "property": "C122",
   "status": "proved",
   "theorems": [
    "C122_average",
    "C122_signed",
    "C122_accu_refuted"
   ],
   "note": "The account holds for calls that keep Merge and RollBack in one time domain; that AccuData/Norm is Data in every domain is false of the code."
  },
  {
   "property": "C123",
   "status": "proved",
   "theorems": [
    "C123_delta",
    "C123_polar",
    "C123_signed"
   ],
   "note": "Collecting branch without EnforceSumRule."
  },
  {
   "property": "C124",
   "status": "proved",
   "theorems": [
    "C124_negative_refuted",
    "C124_domain_refuted",
    "C124_first",
    "C124_first_refuted"
   ],
   "note": "The claim is false of the code."
  },
  {
   "property": "C125",
   "status": "proved",
   "theorems": [
    "C125_g",
    "C125_w"
   ],
   "note": "The solver is a parameter that solves systems with invertible matrices."
  },
  {
   "property": "C126",
   "status": "proved",
   "theorems": [
    "C126_chi",
    "C126_chain_refuted"
   ],
   "note": "The claim is false of the code; what ChiTensor solves is proved."
  },
  {
   "property": "C127",
   "status": "proved",
   "theorems": [
    "C127_check",
    "C127_real",
    "C127_zero_refuted"
   ],
   "note": "What the check does is proved; the claim about zero and negative determinants is false of the code."
  },
  {
   "property": "C128",
   "status": "proved",
   "theorems": [
    "C128_element",
    "C128_sites",
    "C128_coordinates",
    "C128_times"
   ],
   "note": "Times over the reals. Index arithmetic of C++ in 32 bits under the hypothesis that the table fits (imap_ok)."
  },
  {
   "property": "C129",
   "status": "proved",
   "theorems": [
    "C129_fock",
    "C129_spin"
   ],
   "note": ""
  },
  {
   "property": "C13",
   "status": "proved",
   "theorems": [
    "C13_phase"
   ],
   "note": "Exact arithmetic; same histories as C12; the weight is non-zero, the phase is Weight/|Weight| and has modulus 1."
  },
  {
   "property": "C130",
   "status": "proved",
   "theorems": [
    "C130_even",
    "C130_reversible_refuted"
   ],
   "note": "true for G even in the displacement; false for a G that is only reversible (witness: dimer chain)"
  },
  {
   "property": "C131",
   "status": "proved",
   "theorems": [
    "C131_hartree_fock"
   ],
   "note": ""
  },
  {
   "property": "C132",
   "status": "proved",
   "theorems": [
    "C132_equal_times",
    "C132_limit_refuted"
   ],
   "note": "the claim of the title is false of the code; C132_equal_times says what the code does"
  },
  {
   "property": "C133",
   "status": "proved",
   "theorems": [
    "C133_szsz",
    "C133_disconnected"
   ],
   "note": ""
  },
  {
   "property": "C134",
   "status": "proved",
   "theorems": [
    "C134_shells",
    "C134_third"
   ],
   "note": ""
  },
  {
   "property": "C135",
   "status": "proved",
   "theorems": [
    "C135_interaction",
    "C135_symmetric",
    "C135_kitaev_symmetric",
    "C135_thin_refuted"
   ],
   "note": "false on a torus of width one, true on all wider ones"
  },
  {
   "property": "C136",
   "status": "proved",
   "theorems": [
    "C136_exchange",
    "C136_conserved",
    "C136_kitaev_refuted"
   ],
   "note": "true for S.S, false for the Kitaev model"
  },
  {
   "property": "C137",
   "status": "proved",
   "theorems": [
    "C137_waves",
    "C137_waves_refuted"
   ],
   "note": "false for Checkerboard, Kagome and Pyrochlore with unequal sides"
  },
  {
   "property": "C138",
   "status": "proved",
   "theorems": [
    "C138_jump",
    "C138_evolution",
    "C138_projection",
    "C138_magnetisation",
    "C138_imW_refuted"
   ],
   "note": "Proved for the usual imaginary chemical potential; the cancellation is false of the code for descriptions with ImW."
  },
  {
   "property": "C139",
   "status": "proved",
   "theorems": [
    "C139_kernel",
    "C139_sign_refuted"
   ],
   "note": "The kernel is proved; agreement of the sign of the field between the families of models is false of the code."
  },
  {
   "property": "C14",
   "status": "proved",
   "theorems": [
    "C14_loop_sign"
   ],
   "note": "For every history and every number type whose signs multiply exactly (exact reals and IEEE doubles both do; Examples): the existing vertices split into closed loops along outgoing G lines and SignFermiLoop = (-1)^(loops-1)."
  },
  {
   "property": "C140",
   "status": "proved",
   "theorems": [
    "C140_hopping",
    "C140_hermitian",
    "C140_hermitian_refuted",
    "C140_pauli_refuted"
   ],
   "note": "Hermitian for vanishing phase; false of the code with a phase."
  },
  {
   "property": "C141",
   "status": "proved",
   "theorems": [
    "C141_onsite_refuted",
    "C141_build_refuted"
   ],
   "note": "The claims are false of the code."
  },
  {
   "property": "C142",
   "status": "proved",
   "theorems": [
    "C142_anneal",
    "C142_retreat",
    "C142_endless_refuted",
    "C142_first_refuted"
   ],
   "note": "Proved for whole numbers of steps; false of the code otherwise, and if the first sublattice has no field."
  },
  {
   "property": "C143",
   "status": "proved",
   "theorems": [
    "C143_fresh",
    "C143_resume",
    "C143_fewer_refuted",
    "C143_copy_refuted",
    "C143_name_refuted",
    "C143_dyson"
   ],
   "note": "Proved for directories with files named as the program names them; the stronger claims are false of the code."
  },
  {
   "property": "C144",
   "status": "proved",
   "theorems": [
    "C144_queue",
    "C144_distinct",
    "C144_clash_refuted",
    "C144_timer",
    "C144_timer_refuted",
    "C144_timer_toward_zero"
   ],
   "note": "Proved for one job of each type; false of the code for two Monte Carlo jobs and for a timer of 1."
  },
  {
   "property": "C145",
   "status": "proved",
   "theorems": [
    "C145_cpu",
    "C145_order",
    "C145_ends",
    "C145_check",
    "C145_check_refuted"
   ],
   "note": "Proved; only that one call of check_status finds all ended processes is false of the code."
  },
  {
   "property": "C146",
   "status": "proved",
   "theorems": [
    "C146_killed",
    "C146_ends",
    "C146_stop_refuted",
    "C146_failure_refuted"
   ],
   "note": "Proved with an empty queue; false of the code with jobs queued, and for failing submissions."
  },
  {
   "property": "C147",
   "status": "proved",
   "theorems": [
    "C147_versions_increase",
    "C147_parameters_not_written_refuted"
   ],
   "note": "The claim without the proviso that parameters get written is false of the code."
  },
  {
   "property": "C148",
   "status": "proved",
   "theorems": [
    "C148_fresh_job_collects_refuted",
    "C148_restarted_job_collects",
    "C148_dyson_only"
   ],
   "note": "The claim is false of the code for a job started without a weight file; proved for one started with it."
  },
  {
   "property": "C149",
   "status": "proved",
   "theorems": [
    "C149_restart_resumes",
    "C149_field_follows",
    "C149_history_overwritten",
    "C149_history_survives_refuted",
    "C149_symmetry_grows",
    "C149_restart_is_idempotent_refuted"
   ],
   "note": "Version, weights and field are resumed; the history of measurements and idempotence are refuted."
  },
  {
   "property": "C15",
   "status": "proved",
   "theorems": [
    "C15_rejected_unchanged",
    "C15_unchanged_unless_counted"
   ],
   "note": ""
  },
  {
   "property": "C150",
   "status": "proved",
   "theorems": [
    "C150_nothing_acts_inside",
    "C150_handlers_restored",
    "C150_no_signal_no_effect",
    "C150_last_signal_once",
    "C150_integer_called",
    "C150_acts_as_before_refuted"
   ],
   "note": "That a delayed signal acts as it would have before is false of the code."
  },
  {
   "property": "C151",
   "status": "proved",
   "theorems": [
    "C151_right",
    "C151_left",
    "C151_center",
    "C151_longer_text_undefined",
    "C151_any_text_refuted"
   ],
   "note": "False of the code for a text longer than the width."
  },
  {
   "property": "C152",
   "status": "proved",
   "theorems": [
    "C152_kernel",
    "C152_positive",
    "C152_reflection",
    "C152_no_division_by_zero",
    "C152_grid"
   ],
   "note": "over the reals"
  },
  {
   "property": "C153",
   "status": "proved",
   "theorems": [
    "C153_centres_only_at_one",
    "C153_bin_centres_refuted",
    "C153_last_time_outside",
    "C153_times_within_beta_refuted"
   ],
   "note": "The claim is false of the code."
  },
  {
   "property": "C154",
   "status": "proved",
   "theorems": [
    "C154_linear",
    "C154_free_spin"
   ],
   "note": "over the reals"
  },
  {
   "property": "C155",
   "status": "proved",
   "theorems": [
    "C155_linear",
    "C155_plane_wave",
    "C155_uniform",
    "C155_triangular",
    "C155_first_bin",
    "C155_too_small",
    "C155_density",
    "C155_staggered_is_static_refuted"
   ],
   "note": "The claim is false of the code for StagChi except on the triangular lattice."
  },
  {
   "property": "C156",
   "status": "proved",
   "theorems": [
    "C156_restore",
    "C156_unordered",
    "C156_size",
    "C156_factors",
    "C156_identity",
    "C156_factors_refuted"
   ],
   "note": "The claim is false of the code for the factors and flags beyond 257 bins (object identity in CPython 2)."
  },
  {
   "property": "C157",
   "status": "proved",
   "theorems": [
    "C157_alike",
    "C157_count",
    "C157_restore",
    "C157_every_number",
    "C157_alike_refuted",
    "C157_count_refuted"
   ],
   "note": "The claim is false of the code for triangular lattices with Lx different from Ly."
  },
  {
   "property": "C158",
   "status": "proved",
   "theorems": [
    "C158_round_trip",
    "C158_nothing_else",
    "C158_symmetric",
    "C158_exchanged",
    "C158_exchanged_refuted"
   ],
   "note": "The last part is false of the code at equal times."
  },
  {
   "property": "C159",
   "status": "proved",
   "theorems": [
    "C159_reads",
    "C159_reads_refuted"
   ],
   "note": "The claim is false of the code below the diagonal."
  },
  {
   "property": "C16",
   "status": "proved",
   "theorems": [
    "C16_metropolis"
   ],
   "note": "exact arithmetic; the proposal densities are a specification table (Target.v) read off the draws of each update"
  },
  {
   "property": "C160",
   "status": "proved",
   "theorems": [
    "C160_diagonal",
    "C160_mean",
    "C160_collects_refuted"
   ],
   "note": "The claim is false of the code off the diagonal."
  },
  {
   "property": "C161",
   "status": "proved",
   "theorems": [
    "C161_simple",
    "C161_addW",
    "C161_addTwoG",
    "C161_addG",
    "C161_addGW",
    "C161_passes",
    "C161_bare",
    "C161_simple_value",
    "C161_twoG_value",
    "C161_addG_value",
    "C161_addGW_value",
    "C161_addW_value",
    "C161_real",
    "C161_always_refuted"
   ],
   "note": "The claim is false of the code for a G without the symmetry, such as a real one."
  },
  {
   "property": "C162",
   "status": "proved",
   "theorems": [
    "C162_lines",
    "C162_keeps",
    "C162_kept",
    "C162_times",
    "C162_line",
    "C162_real",
    "C162_kept_refuted",
    "C162_none"
   ],
   "note": "The claim is false of the code when MaxTauBinTiny does not divide MaxTauBin."
  },
  {
   "property": "C163",
   "status": "proved",
   "theorems": [
    "C163_sz",
    "C163_polar",
    "C163_first",
    "C163_field_refuted",
    "C163_hopping_refuted"
   ],
   "note": "closed formula and agreement with the Dyson route proved; agreement in a field and with hopping is false of the code and refuted"
  },
  {
   "property": "C164",
   "status": "proved",
   "theorems": [
    "C164_exit",
    "C164_free",
    "C164_stops_refuted",
    "C164_target",
    "C164_target_refuted"
   ],
   "note": "what holds at the end and termination for free spins proved; termination in general and the target for the Sz correlation are false of the code and refuted"
  },
  {
   "property": "C165",
   "status": "proved",
   "theorems": [
    "C165_once",
    "C165_twice",
    "C165_same_refuted"
   ],
   "note": "false of the code with EnforceSumRule: the disconnected part is counted twice"
  },
  {
   "property": "C166",
   "status": "proved",
   "theorems": [
    "C166_average",
    "C166_half_merged",
    "C166_failed_refuted"
   ],
   "note": "average proved for complete files; that a failed file does not enter is false of the code and refuted"
  },
  {
   "property": "C167",
   "status": "proved",
   "theorems": [
    "C167_never",
    "C167_saves_refuted"
   ],
   "note": "false of the code: collecting only always raises ValueError"
  },
  {
   "property": "C168",
   "status": "proved",
   "theorems": [
    "C168_atomic",
    "C168_last",
    "C168_unseen",
    "C168_directory",
    "C168_saves_refuted"
   ],
   "note": "proved for names in the working directory; false of the code for names with a directory (refuted)"
  },
  {
   "property": "C169",
   "status": "proved",
   "theorems": [
    "C169_not_older",
    "C169_same_version_refuted",
    "C169_failed_weights_refuted",
    "C169_failed_para_refuted"
   ],
   "note": "Weights at least as new as the version are proved when no saving fails. Equality of the two, and the bound when a saving fails, are false of the code (refuted)."
  },
  {
   "property": "C17",
   "status": "proved",
   "theorems": [
    "C17_loop_on_one_site"
   ],
   "note": "for every history of Hop calls, saves and reloads from a fresh diagram, any engine, any arithmetic, all configurations within cfg_ok"
  },
  {
   "property": "C170",
   "status": "proved",
   "theorems": [
    "C170_versions_grow",
    "C170_taken",
    "C170_weights_present",
    "C170_survives",
    "C170_always_survives_refuted",
    "C170_left_torn"
   ],
   "note": "That reading the message never ends a job is false of the code (refuted); growth of versions, presence of weights and survival when opening and writing the message are adjacent are proved."
  },
  {
   "property": "C171",
   "status": "proved",
   "theorems": [
    "C171_aligned",
    "C171_kept",
    "C171_staggered",
    "C171_twice",
    "C171_aligned_refuted",
    "C171_known_lattice"
   ],
   "note": "Proved for every lattice but Pyrochlore, where the claim is false of the code (refuted): UnifChi is appended twice per call."
  },
  {
   "property": "C172",
   "status": "proved",
   "theorems": [
    "C172_local",
    "C172_linear",
    "C172_free_spin",
    "C172_never_one",
    "C172_one_refuted"
   ],
   "note": "The local form, the linear law and the limit of the real part are proved; that the entry tends to 1 is false of the code (refuted): the imaginary part tends to 1/cosh(Beta h/2)."
  },
  {
   "property": "C18",
   "status": "proved",
   "theorems": [
    "C18_no_tadpole"
   ],
   "note": "for every history of Hop calls, saves and reloads from a fresh diagram, any engine, any arithmetic, all configurations within cfg_ok"
  },
  {
   "property": "C19",
   "status": "proved",
   "theorems": [
    "C19_step_count",
    "C19_step_choice",
    "C19_step_uniform"
   ],
   "note": ""
  },
  {
   "property": "C20",
   "status": "proved",
   "theorems": [
    "C20_order0"
   ],
   "note": ""
  },
  {
   "property": "C21",
   "status": "proved",
   "theorems": [
    "C21_fresh_diagram"
   ],
   "note": "for every lattice BuildNew supports (2 or 3 dimensions, first extent at least 2)"
  },
  {
   "property": "C22",
   "status": "proved",
   "theorems": [
    "C22_structure_accepted",
    "C22_check_accepts"
   ],
   "note": "Topology/momentum/spin parts for any arithmetic and any history; flags part given equal end times of delta lines (not guaranteed, see C10); the whole check as an equivalence in exact arithmetic."
  },
  {
   "property": "C23",
   "status": "proved",
   "theorems": [
    "C23_check_sound"
   ],
   "note": "No invariant assumed; any memory contents."
  },
  {
   "property": "C24",
   "status": "proved",
   "theorems": [
    "C24_save_load"
   ],
   "note": "explicit slot renaming; line weights bit for bit when no vertex correction is present; order 0 comes back as order 1"
  },
  {
   "property": "C25",
   "status": "proved",
   "theorems": [
    "C25_reset_worm_free_refuted",
    "C25_reset_when_ends_are_gone"
   ],
   "note": "The claim is false of the code (stale worm pointers after DeleteWorm); the second theorem gives the exact condition under which Reset is harmless."
  },
  {
   "property": "C26",
   "status": "proved",
   "theorems": [
    "C26_reset_keeps_order_refuted"
   ],
   "note": "The claim is false of the code at order 0; away from order 0 the order is kept (C25_reset_when_ends_are_gone)."
  },
  {
   "property": "C27",
   "status": "proved",
   "theorems": [
    "C27_bundle_is_a_set"
   ],
   "note": "all event histories, refinement to a finite set"
  },
  {
   "property": "C28",
   "status": "proved",
   "theorems": [
    "C28_full_bundle_add_refuted"
   ],
   "note": "The claim is false of the code: the guard uses > instead of >=; witness history of 20 additions then an out-of-array read."
  },
  {
   "property": "C29",
   "status": "proved",
   "theorems": [
    "C29_momentum_group",
    "C29_index_bijective"
   ],
   "note": ""
  },
  {
   "property": "C30",
   "status": "proved",
   "theorems": [
    "C30_scaling_refuted",
    "C30_small_factor_scaling_partial"
   ],
   "note": "The claim is false of the code for |k| >= 4; the positive theorem covers -3 <= k <= 3."
  },
  {
   "property": "C31",
   "status": "proved",
   "theorems": [
    "C31_urn_unit_interval",
    "C31_urn_double"
   ],
   "note": "exact and IEEE double arithmetic"
  },
  {
   "property": "C32",
   "status": "proved",
   "theorems": [
    "C32_irn_range"
   ],
   "note": ""
  },
  {
   "property": "C33",
   "status": "proved",
   "theorems": [
    "C33_lattice_bijection"
   ],
   "note": "any dimension >= 1, positive sizes; int overflow of the volume not modelled"
  },
  {
   "property": "C34",
   "status": "proved",
   "theorems": [
    "C34_coordi_index"
   ],
   "note": ""
  },
  {
   "property": "C35",
   "status": "proved",
   "theorems": [
    "C35_index_injective"
   ],
   "note": "any arithmetic; table size below 2^32"
  },
  {
   "property": "C36",
   "status": "proved",
   "theorems": [
    "C36_time_bin"
   ],
   "note": "exact arithmetic"
  },
  {
   "property": "C37",
   "status": "proved",
   "theorems": [
    "C37_same_spin_refuted"
   ],
   "note": "The claim is false of the code: IsSameSpin tests indices 0 and 2 instead of 0 and 3."
  },
  {
   "property": "C38",
   "status": "proved",
   "theorems": [
    "C38_directed_weight"
   ],
   "note": "includes a witness for the excluded measuring delta line"
  },
  {
   "property": "C39",
   "status": "proved",
   "theorems": [
    "C39_one_cell",
    "C39_arguments_to_cell"
   ],
   "note": "after any sequence of operations; cells are entries of the array ToDict writes; joint injectivity in order, spins, sublattices, displacement and time bin"
  },
  {
   "property": "C40",
   "status": "proved",
   "theorems": [
    "C40_squeeze",
    "C40_guard"
   ],
   "note": "ratio statement in exact arithmetic"
  },
  {
   "property": "C41",
   "status": "proved",
   "theorems": [
    "C41_anneal_keeps_factor_refuted",
    "C41_anneal_round_trip_refuted"
   ],
   "note": "the claim is false of the code: only NormAccu is scaled, Norm and the stored beta are not updated"
  },
  {
   "property": "C42",
   "status": "proved",
   "theorems": [
    "C42_load_in_bounds_refuted"
   ],
   "note": "the claim is false of the code: the order dimension is not compared, a file with a larger maximum order overruns the array"
  },
  {
   "property": "C43",
   "status": "proved",
   "theorems": [
    "C43_accumulates",
    "C43_mean_is_average_refuted"
   ],
   "note": "the claim is false of the code: the norm starts at 1, the reported mean is sum/(n+1); the exact value is proved"
  },
  {
   "property": "C44",
   "status": "proved",
   "theorems": [
    "C44_complex_field"
   ],
   "note": "exact arithmetic, isomorphism to Coquelicot's C"
  },
  {
   "property": "C45",
   "status": "proved",
   "theorems": [
    "C45_mixed_add_refuted"
   ],
   "note": "The claim is false of the code."
  },
  {
   "property": "C46",
   "status": "proved",
   "theorems": [
    "C46_pow_refuted"
   ],
   "note": "The claim is false of the code: pow(z,u) is 0 for all u <> 0."
  },
  {
   "property": "C47",
   "status": "proved",
   "theorems": [
    "C47_phase_sqrt"
   ],
   "note": "exact arithmetic"
  },
  {
   "property": "C48",
   "status": "proved",
   "theorems": [
    "C48_section_atomic",
    "C48_delivered_by_resume"
   ],
   "note": "handlers are taken to run atomically between statements"
  },
  {
   "property": "C49",
   "status": "proved",
   "theorems": [
    "C49_guard_off_refuted"
   ],
   "note": "the claim is false of the code: the flag is reset only after exit()"
  },
  {
   "property": "C50",
   "status": "proved",
   "theorems": [
    "C50_spin_current"
   ],
   "note": "for every history of Hop calls, saves and reloads from a fresh diagram, any engine, any arithmetic, all configurations within cfg_ok"
  },
  {
   "property": "C51",
   "status": "proved",
   "theorems": [
    "C51_time_bin_double"
   ],
   "note": ""
  },
  {
   "property": "C52",
   "status": "proved",
   "theorems": [
    "C52_fresh_passes_check_refuted"
   ],
   "note": "The claim is false of the code: weights below 1e-9 are taken for zero."
  },
  {
   "property": "C53",
   "status": "proved",
   "theorems": [
    "C53_history_bounded",
    "C53_squeeze_guard"
   ],
   "note": ""
  },
  {
   "property": "C54",
   "status": "proved",
   "theorems": [
    "C54_save_load",
    "C54_continues_identically_refuted",
    "C54_long_history_refuted"
   ],
   "note": "values are restored; continuing identically and staying in bounds are false of the code"
  },
  {
   "property": "C55",
   "status": "proved",
   "theorems": [
    "C55_saved_mean_refuted",
    "C55_after_estimate"
   ],
   "note": "the claim is false of the code (stale value); it holds right after Estimate"
  },
  {
   "property": "C56",
   "status": "proved",
   "theorems": [
    "C56_error_bar"
   ],
   "note": "exact arithmetic"
  },
  {
   "property": "C57",
   "status": "proved",
   "theorems": [
    "C57_clear_resets_refuted",
    "C57_clear_accumulators"
   ],
   "note": "the claim is false of the code: the error bar survives; accumulators and mean are reset"
  },
  {
   "property": "C58",
   "status": "proved",
   "theorems": [
    "C58_named_lookup",
    "C58_duplicate_rejected",
    "C58_missing_name_refuted"
   ],
   "note": "the last part of the claim is false of the code: a missing name yields the first estimator"
  },
  {
   "property": "C59",
   "status": "proved",
   "theorems": [
    "C59_cell_is_sum"
   ],
   "note": ""
  },
  {
   "property": "C60",
   "status": "proved",
   "theorems": [
    "C60_reload"
   ],
   "note": ""
  },
  {
   "property": "C61",
   "status": "proved",
   "theorems": [
    "C61_one_cell",
    "C61_bins_exact"
   ],
   "note": ""
  },
  {
   "property": "C62",
   "status": "proved",
   "theorems": [
    "C62_readback"
   ],
   "note": "exact arithmetic"
  },
  {
   "property": "C63",
   "status": "proved",
   "theorems": [
    "C63_sublattice_ignored",
    "C63_sublattices_apart_refuted"
   ],
   "note": "the claim is false of the code"
  },
  {
   "property": "C64",
   "status": "proved",
   "theorems": [
    "C64_new_beta_refuted"
   ],
   "note": "the claim is false of the code"
  },
  {
   "property": "C65",
   "status": "proved",
   "theorems": [
    "C65_one_cell",
    "C65_load"
   ],
   "note": ""
  },
  {
   "property": "C66",
   "status": "proved",
   "theorems": [
    "C66_readback"
   ],
   "note": "exact arithmetic"
  },
  {
   "property": "C67",
   "status": "proved",
   "theorems": [
    "C67_entries_in_range_refuted",
    "C67_second_file_refuted"
   ],
   "note": "the claim is false of the code"
  },
  {
   "property": "C68",
   "status": "proved",
   "theorems": [
    "C68_start_defined_refuted",
    "C68_cleared_on_load"
   ],
   "note": "the claim is false of the code for new runs; the second theorem is the case of continued runs without statistics"
  },
  {
   "property": "C69",
   "status": "proved",
   "theorems": [
    "C69_measure",
    "C69_setup_exact"
   ],
   "note": "any arithmetic; the second theorem discharges the bin hypotheses in exact arithmetic"
  },
  {
   "property": "C70",
   "status": "proved",
   "theorems": [
    "C70_unbiased"
   ],
   "note": "exact arithmetic"
  },
  {
   "property": "C71",
   "status": "proved",
   "theorems": [
    "C71_adjust_positive"
   ],
   "note": "exact arithmetic"
  },
  {
   "property": "C72",
   "status": "proved",
   "theorems": [
    "C72_failed_adjust_changes_nothing_refuted"
   ],
   "note": "the claim is false of the code"
  },
  {
   "property": "C73",
   "status": "proved",
   "theorems": [
    "C73_print_changes_nothing_refuted",
    "C73_print_effect",
    "C73_counting"
   ],
   "note": "the claim is false of the code; the second theorem says what is assigned"
  },
  {
   "property": "C74",
   "status": "proved",
   "theorems": [
    "C74_time_ratios",
    "C74_order0_ratio_refuted"
   ],
   "note": "exact arithmetic; false of the code for OrderTimeRatio[0]"
  },
  {
   "property": "C75",
   "status": "proved",
   "theorems": [
    "C75_short_time_ratio_refuted"
   ],
   "note": "the claim is false of the code"
  },
  {
   "property": "C76",
   "status": "proved",
   "theorems": [
    "C76_print_refuted",
    "C76_trapped"
   ],
   "note": "the claim is false of the code; the second theorem is the general fact about such factors"
  },
  {
   "property": "C77",
   "status": "proved",
   "theorems": [
    "C77_save_load"
   ],
   "note": "any arithmetic"
  },
  {
   "property": "C78",
   "status": "proved",
   "theorems": [
    "C78_repeat_refuted",
    "C78_fixed_point"
   ],
   "note": "the claim is false of the code; the second theorem is the case in which it holds"
  },
  {
   "property": "C79",
   "status": "proved",
   "theorems": [
    "C79_step_can_be_undone",
    "C79_words_occur",
    "C79_without_equal_times_refuted"
   ],
   "note": "proved for diagrams whose delta lines have equal end times; the unrestricted claim is false of the code (witness)"
  },
  {
   "property": "C80",
   "status": "proved",
   "theorems": [
    "C80_squeeze",
    "C80_ratio"
   ],
   "note": ""
  },
  {
   "property": "C81",
   "status": "proved",
   "theorems": [
    "C81_parameters_round_trip",
    "C81_message_round_trip"
   ],
   "note": "Seed is not saved (the engine state is)"
  },
  {
   "property": "C82",
   "status": "proved",
   "theorems": [
    "C82_diagram_through_dictionaries"
   ],
   "note": ""
  },
  {
   "property": "C83",
   "status": "proved",
   "theorems": [
    "C83_load_keeps_old_entries",
    "C83_load_replaces_contents_refuted"
   ],
   "note": "the claim is false of the code: existing keys keep their old values"
  },
  {
   "property": "C84",
   "status": "proved",
   "theorems": [
    "C84_bose_basis_is_fermi_basis",
    "C84_bose_basis_is_loaded_refuted"
   ],
   "note": "the claim is false of the code: the bosonic basis is always the fermionic one"
  },
  {
   "property": "C85",
   "status": "proved",
   "theorems": [
    "C85_in_range_integers_exact",
    "C85_out_of_range_rejected_refuted"
   ],
   "note": "exactness in range holds; refusal out of range is false of the code"
  },
  {
   "property": "C86",
   "status": "proved",
   "theorems": [
    "C86_accepted_parameters",
    "C86_accepted_parameters_sensible_refuted"
   ],
   "note": "the range part holds; that accepted values are usable is false of the code"
  },
  {
   "property": "C87",
   "status": "proved",
   "theorems": [
    "C87_annealing_keeps_structure",
    "C87_annealing_goes_on",
    "C87_annealing_keeps_times"
   ],
   "note": "Annealing is taken where the worm exists or its remembered ends have gone (C25 refutes the other case) and Beta is not lowered (C88 refutes the other case)."
  },
  {
   "property": "C88",
   "status": "proved",
   "theorems": [
    "C88_annealing_times_refuted"
   ],
   "note": "The claim is false of the code."
  },
  {
   "property": "C89",
   "status": "proved",
   "theorems": [
    "C89_job_goes_on",
    "C89_usable_exact",
    "C89_usable_double"
   ],
   "note": "Messages that lower Beta or meet stale worm ends are excluded (C88, C96)."
  },
  {
   "property": "C90",
   "status": "proved",
   "theorems": [
    "C90_restart_restores_saved_state"
   ],
   "note": ""
  },
  {
   "property": "C91",
   "status": "proved",
   "theorems": [
    "C91_outcome_of_a_message",
    "C91_wellformed_message_never_ends_job_refuted"
   ],
   "note": "The outcome is characterised in exact arithmetic. The claim that a well formed message never ends a job is false of the code."
  },
  {
   "property": "C92",
   "status": "proved",
   "theorems": [
    "C92_message_not_taken_changes_nothing",
    "C92_message_taken_once",
    "C92_message_not_taken_after_restart"
   ],
   "note": ""
  },
  {
   "property": "C93",
   "status": "proved",
   "theorems": [
    "C93_basis_must_match_message",
    "C93_annealing_message_taken_refuted"
   ],
   "note": "The claim that annealing messages are taken with the basis files of the set-up is false of the code."
  },
  {
   "property": "C94",
   "status": "proved",
   "theorems": [
    "C94_load_needs_files",
    "C94_start_keeps_statistics_file",
    "C94_started_job_can_be_restarted_refuted"
   ],
   "note": "The claim that a started job can be restarted is false of the code."
  },
  {
   "property": "C95",
   "status": "proved",
   "theorems": [
    "C95_crash_during_save_is_atomic_refuted",
    "C95_broken_parameter_file_ends_restart"
   ],
   "note": "The claim is false of the code."
  },
  {
   "property": "C96",
   "status": "proved",
   "theorems": [
    "C96_check_keeps_passing_refuted"
   ],
   "note": "The claim is false of the code."
  },
  {
   "property": "C97",
   "status": "proved",
   "theorems": [
    "C97_restart_after_message_is_transparent_refuted"
   ],
   "note": "The claim is false of the code."
  },
  {
   "property": "C98",
   "status": "proved",
   "theorems": [
    "C98_iteration_succeeds",
    "C98_start_succeeds",
    "C98_runs_as_long_as_one_likes_refuted"
   ],
   "note": "The claim without a bound on the number of iterations is false of the code."
  },
  {
   "property": "C99",
   "status": "proved",
   "theorems": [
    "C99_irreducible",
    "C99_reach_occurs"
   ],
   "note": "over NumR; needs equal times on the delta lines of the diagrams left on the way to the first diagram, which C10 shows is not always so"
  }
 ]
}