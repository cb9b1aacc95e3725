{
 "claims": [
  {
   "property": "C01",
   "status": "proved",
   "theorems": [
    "C01_search_exact",
    "C01_step_lists"
   ],
   "note": ""
  },
  {
   "property": "C02",
   "status": "proved",
   "theorems": [
    "C02_iteration"
   ],
   "note": ""
  },
  {
   "property": "C03",
   "status": "proved",
   "theorems": [
    "C03_store"
   ],
   "note": ""
  },
  {
   "property": "C04",
   "status": "proved",
   "theorems": [
    "C04_history_independent"
   ],
   "note": ""
  },
  {
   "property": "C05",
   "status": "proved",
   "theorems": [
    "C05_clear_square",
    "C05_refuted_out_of_bounds",
    "C05_refuted_not_cleared"
   ],
   "note": "The property as first expected is false of the code; C05_* prove both ways in which it fails, and the square case in which it holds."
  },
  {
   "property": "C06",
   "status": "proved",
   "theorems": [
    "C06_symmetric_real",
    "C06_symmetric_binary64"
   ],
   "note": ""
  },
  {
   "property": "C07",
   "status": "proved",
   "theorems": [
    "C07_disabled_iff_outside",
    "C07_step",
    "C07_upper_margin"
   ],
   "note": "Proved with the exact margins; the reading \"iff outside [MinX,MaxX]\" is refuted."
  },
  {
   "property": "C08",
   "status": "proved",
   "theorems": [
    "C08_types_permanent"
   ],
   "note": ""
  },
  {
   "property": "C09",
   "status": "proved",
   "theorems": [
    "C09_no_out_of_bounds"
   ],
   "note": ""
  },
  {
   "property": "C10",
   "status": "proved",
   "theorems": [
    "C10_no_particles"
   ],
   "note": ""
  },
  {
   "property": "C11",
   "status": "proved",
   "theorems": [
    "C11_lists_suffice",
    "C11_midstep",
    "C11_before_solver",
    "C11_margin",
    "C11_sums",
    "C11_vector_sums"
   ],
   "note": ""
  },
  {
   "property": "C12",
   "status": "proved",
   "theorems": [
    "C12_weight_inside",
    "C12_weight_outside",
    "C12_weight_not_negative",
    "C12_weight_positive_iff",
    "C12_weight_decreasing",
    "C12_weight_vanishes_at_radius"
   ],
   "note": ""
  },
  {
   "property": "C13",
   "status": "proved",
   "theorems": [
    "C13_reference_density",
    "C13_lambda",
    "C13_independent_of_spacing",
    "C13_positive_iff",
    "C13_constructor_defined"
   ],
   "note": ""
  },
  {
   "property": "C14",
   "status": "proved",
   "theorems": [
    "C14_lattice_density",
    "C14_step"
   ],
   "note": ""
  },
  {
   "property": "C15",
   "status": "proved",
   "theorems": [
    "C15_limits",
    "C15_constants",
    "C15_gravity"
   ],
   "note": ""
  },
  {
   "property": "C16",
   "status": "proved",
   "theorems": [
    "C16_cfl",
    "C16_at_rest",
    "C16_step_taken"
   ],
   "note": ""
  },
  {
   "property": "C17",
   "status": "proved",
   "theorems": [
    "C17_throttle",
    "C17_refuted"
   ],
   "note": "The expected property is false: the theorem exhibits the influence."
  },
  {
   "property": "C18",
   "status": "proved",
   "theorems": [
    "C18_density_phase",
    "C18_step"
   ],
   "note": ""
  },
  {
   "property": "C19",
   "status": "proved",
   "theorems": [
    "C19_virtual_particle",
    "C19_no_virtual_particle",
    "C19_fills_deficit"
   ],
   "note": ""
  },
  {
   "property": "C20",
   "status": "proved",
   "theorems": [
    "C20_density_now",
    "C20_speed_is_derivative",
    "C20_free_surface",
    "C20_source",
    "C20_standard_source"
   ],
   "note": ""
  },
  {
   "property": "C21",
   "status": "proved",
   "theorems": [
    "C21_rigid_motion",
    "C21_common_velocity"
   ],
   "note": ""
  },
  {
   "property": "C22",
   "status": "proved",
   "theorems": [
    "C22_error_correction",
    "C22_step"
   ],
   "note": ""
  },
  {
   "property": "C23",
   "status": "proved",
   "theorems": [
    "C23_free_fall"
   ],
   "note": ""
  },
  {
   "property": "C24",
   "status": "proved",
   "theorems": [
    "C24_explicit_phase",
    "C24_uniform_motion",
    "C24_momentum"
   ],
   "note": ""
  },
  {
   "property": "C25",
   "status": "proved",
   "theorems": [
    "C25_prescribed_motion"
   ],
   "note": ""
  },
  {
   "property": "C26",
   "status": "proved",
   "theorems": [
    "C26_position",
    "C26_walls_never_move",
    "C26_walls_at_rest",
    "C26_files"
   ],
   "note": ""
  },
  {
   "property": "C27",
   "status": "proved",
   "theorems": [
    "C27_explicit",
    "C27_matrix",
    "C27_gradient",
    "C27_stabilisation"
   ],
   "note": ""
  },
  {
   "property": "C28",
   "status": "proved",
   "theorems": [
    "C28_inactive_keep_pressure",
    "C28_pressure_not_negative_real",
    "C28_pressure_not_negative_binary64"
   ],
   "note": ""
  },
  {
   "property": "C29",
   "status": "proved",
   "theorems": [
    "C29_symmetric_real",
    "C29_symmetric_binary64"
   ],
   "note": ""
  },
  {
   "property": "C30",
   "status": "proved",
   "theorems": [
    "C30_excluded_rows",
    "C30_rows",
    "C30_right_hand_side",
    "C30_sign",
    "C30_diagonal"
   ],
   "note": ""
  },
  {
   "property": "C31",
   "status": "proved",
   "theorems": [
    "C31_semidefinite",
    "C31_definite"
   ],
   "note": ""
  },
  {
   "property": "C32",
   "status": "proved",
   "theorems": [
    "C32_tolerance",
    "C32_step",
    "C32_solver",
    "C32_pressure",
    "C32_failure"
   ],
   "note": "C32_tolerance (any arithmetic): the tolerance is the one passed to the constructor, whatever is called in between. C32_step: a whole step of a computer with any history, residual below the constructor's tolerance times the initial one."
  },
  {
   "property": "C33",
   "status": "proved",
   "theorems": [
    "C33_step",
    "C33_solver_converges",
    "C33_pressure"
   ],
   "note": ""
  },
  {
   "property": "C34",
   "status": "proved",
   "theorems": [
    "C34_excluded_stay_zero"
   ],
   "note": ""
  },
  {
   "property": "C35",
   "status": "proved",
   "theorems": [
    "C35_gradient_phase",
    "C35_pair",
    "C35_momentum_balance",
    "C35_momentum",
    "C35_refuted_not_conserved",
    "C35_no_torque"
   ],
   "note": "Momentum and angular momentum (C35_no_torque). Holds without virtual particles; with one it is refuted."
  },
  {
   "property": "C36",
   "status": "proved",
   "theorems": [
    "C36_pair",
    "C36_opposite",
    "C36_stabilisation_phase",
    "C36_no_overlap",
    "C36_momentum",
    "C36_step",
    "C36_step_momentum"
   ],
   "note": ""
  },
  {
   "property": "C37",
   "status": "proved",
   "theorems": [
    "C37_implicit_moves_fluid_only",
    "C37_stabilisation_moves_fluid_only"
   ],
   "note": ""
  },
  {
   "property": "C38",
   "status": "proved",
   "theorems": [
    "C38_time",
    "C38_timeline_exists",
    "C38_monotone"
   ],
   "note": ""
  },
  {
   "property": "C39",
   "status": "proved",
   "theorems": [
    "C39_loops_deterministic",
    "C39_step_deterministic",
    "C39_auto_step_deterministic"
   ],
   "note": ""
  },
  {
   "property": "C40",
   "status": "proved",
   "theorems": [
    "C40_nothing_lost",
    "C40_exception_iff",
    "C40_no_deadlock",
    "C40_terminates"
   ],
   "note": ""
  },
  {
   "property": "C41",
   "status": "proved",
   "theorems": [
    "C41_rounding",
    "C41_rounding_text",
    "C41_schedule",
    "C41_complete"
   ],
   "note": ""
  },
  {
   "property": "C42",
   "status": "proved",
   "theorems": [
    "C42_ending",
    "C42_failure"
   ],
   "note": ""
  },
  {
   "property": "C43",
   "status": "proved",
   "theorems": [
    "C43_shows",
    "C43_file",
    "C43_count",
    "C43_every_particle"
   ],
   "note": ""
  },
  {
   "property": "C44",
   "status": "proved",
   "theorems": [
    "C44_read",
    "C44_layout",
    "C44_unknown_column",
    "C44_missing_column",
    "C44_column_order",
    "C44_refuted_blank_first_line",
    "C44_refuted_carriage_return"
   ],
   "note": "For every order of columns, blanks, empty lines; a blank first line and CRLF are covered as the exceptions they are."
  },
  {
   "property": "C45",
   "status": "proved",
   "theorems": [
    "C45_round_trip",
    "C45_faithful"
   ],
   "note": "Up to parsing being inverse to printing, a parameter of the theorem; six printed digits do not satisfy it in general."
  },
  {
   "property": "C46",
   "status": "proved",
   "theorems": [
    "C46_no_line",
    "C46_short_row",
    "C46_long_row"
   ],
   "note": ""
  },
  {
   "property": "C47",
   "status": "proved",
   "theorems": [
    "C47_add_particles"
   ],
   "note": ""
  },
  {
   "property": "C48",
   "status": "proved",
   "theorems": [
    "C48_scene",
    "C48_cells",
    "C48_apart",
    "C48_binary64",
    "C48_lattice_never_overflows"
   ],
   "note": "C48_cells and C48_apart in exact arithmetic for every reachable state; C48_binary64 in binary64 with an explicit condition on the rounding; C48_scene for the first step of a laid-out scene (S_Script) in binary64."
  },
  {
   "property": "C49",
   "status": "proved",
   "theorems": [
    "C49_invert2",
    "C49_invert3",
    "C49_invert3_symmetric",
    "C49_refuted_invert3"
   ],
   "note": "2-D and symmetric 3-D proved; general 3-D refuted (transposed inverse)."
  },
  {
   "property": "C50",
   "status": "proved",
   "theorems": [
    "C50_linear_pressure"
   ],
   "note": ""
  },
  {
   "property": "C51",
   "status": "proved",
   "theorems": [
    "C51_explicit_phase",
    "C51_state_pressure"
   ],
   "note": ""
  },
  {
   "property": "C52",
   "status": "proved",
   "theorems": [
    "C52_step",
    "C52_environment",
    "C52_history"
   ],
   "note": "Builds without central gravity (a centre is not translation invariant)."
  },
  {
   "property": "C53",
   "status": "proved",
   "theorems": [
    "C53_what_is_found",
    "C53_refuted"
   ],
   "note": "Refutation in binary64 with a witness, and what is found nevertheless."
  },
  {
   "property": "C54",
   "status": "proved",
   "theorems": [
    "C54_binary64",
    "C54_displacement_bound",
    "C54_refuted"
   ],
   "note": "Refutation, and the bound that is true."
  },
  {
   "property": "C55",
   "status": "proved",
   "theorems": [
    "C55_galilean"
   ],
   "note": "Builds without central gravity."
  },
  {
   "property": "C56",
   "status": "proved",
   "theorems": [
    "C56_overflow_iff",
    "C56_otherwise",
    "C56_completes"
   ],
   "note": ""
  },
  {
   "property": "C57",
   "status": "proved",
   "theorems": [
    "C57_disabled_no_influence",
    "C57_history"
   ],
   "note": ""
  },
  {
   "property": "C58",
   "status": "proved",
   "theorems": [
    "C58_history_independent",
    "C58_call"
   ],
   "note": ""
  },
  {
   "property": "C59",
   "status": "proved",
   "theorems": [
    "C59_restart",
    "C59_restart_without_disabled"
   ],
   "note": ""
  },
  {
   "property": "C60",
   "status": "proved",
   "theorems": [
    "C60_step",
    "C60_files",
    "C60_forever"
   ],
   "note": ""
  },
  {
   "property": "C61",
   "status": "proved",
   "theorems": [
    "C61_step"
   ],
   "note": ""
  },
  {
   "property": "C62",
   "status": "proved",
   "theorems": [
    "C62_alone",
    "C62_trajectory"
   ],
   "note": ""
  },
  {
   "property": "C63",
   "status": "proved",
   "theorems": [
    "C63_step",
    "C63_series",
    "C63_dt",
    "C63_automatic",
    "C63_symmetry_kept",
    "C63_numbering",
    "C63_numbering_outcome"
   ],
   "note": ""
  },
  {
   "property": "C64",
   "status": "proved",
   "theorems": [
    "C64_settings",
    "C64_complete"
   ],
   "note": "From the parsed tree on; printing and parsing of doubles are parameters. E_App.v: a whole run in binary64, by computation."
  },
  {
   "property": "C65",
   "status": "proved",
   "theorems": [
    "C65_missing_entry",
    "C65_table",
    "C65_other_entries"
   ],
   "note": "E_App.v has a settings tree for each case."
  },
  {
   "property": "C66",
   "status": "proved",
   "theorems": [
    "C66_files"
   ],
   "note": "E_App.v: the files of a whole run."
  },
  {
   "property": "C67",
   "status": "proved",
   "theorems": [
    "C67_average",
    "C67_dissipative",
    "C67_energy",
    "C67_refuted_automatic_step"
   ],
   "note": "Maximum principle, work and energy in exact arithmetic; refutation of the automatic step's stability in binary64. Example: E_Phys.example_shear."
  },
  {
   "property": "C68",
   "status": "proved",
   "theorems": [
    "C68_momentum",
    "C68_advance"
   ],
   "note": "Through the scheme of C61. Example: E_Phys.example_momentum (a completed step)."
  },
  {
   "property": "C69",
   "status": "proved",
   "theorems": [
    "C69_refuted_same_files",
    "C69_files",
    "C69_only_positions_matter",
    "C69_restart",
    "C69_restart_faithful"
   ],
   "note": "Any arithmetic. Example: E_Restart.example_restart (binary64, numbers written exactly); C69_refuted_same_files: the files differ because the overshoot is lost."
  },
  {
   "property": "C70",
   "status": "proved",
   "theorems": [
    "C70_refuted_progress",
    "C70_refuted_nan",
    "C70_weight",
    "C70_constants",
    "C70_density",
    "C70_step",
    "C70_cfl",
    "C70_time"
   ],
   "note": "Over binary64 as Flocq's binary_float 53 1024 (M_NumB); b64_f64 shows it is the arithmetic of M_NumF. C70_refuted_progress, C70_refuted_nan: what does not hold. Example: E_Float.example_float."
  },
  {
   "property": "C71",
   "status": "proved",
   "theorems": [
    "C71_search",
    "C71_mutual"
   ],
   "note": "Over binary64 (M_NumB). C53 shows that neighbours inside NeighborLength can be lost; this bounds where. Example: E_Float.example_float_search."
  },
  {
   "property": "C72",
   "status": "proved",
   "theorems": [
    "C72_refuted_lossless",
    "C72_refuted_tiny",
    "C72_hex",
    "C72_words",
    "C72_stod",
    "C72_setting",
    "C72_print",
    "C72_reread",
    "C72_file"
   ],
   "note": "std::stod, operator<<(double) with default precision and the property tree's stream translator as functions on text (M_Text), over Flocq's binary64. C72_refuted_lossless, C72_refuted_tiny: limits. Examples: E_Text.example_numeral, example_file, example_text_run (the whole program from the text of the settings to the text of the files); C41_rounding_text restates C41_rounding with the real texts. C72_hex, C72_words: the other forms std::stod accepts."
  },
  {
   "property": "C73",
   "status": "proved",
   "theorems": [
    "C73_first_step",
    "C73_density",
    "C73_static",
    "C73_koshizuka",
    "C73_zhou",
    "C73_central",
    "C73_static_domain",
    "C73_static_runs",
    "C73_koshizuka_runs",
    "C73_zhou_runs",
    "C73_central_runs"
   ],
   "note": "The generators at the level of numbers (M_Bench); C73_static, C73_koshizuka, C73_zhou, C73_central: shapes, any arithmetic; C73_static_domain, C73_*_runs, C73_first_step, C73_density: exact arithmetic. C73_central_runs: the first step under central gravity. Examples: E_Bench, E_Central (all scripts with their own constants)."
  },
  {
   "property": "C74",
   "status": "proved",
   "theorems": [
    "C74_central_run",
    "C74_loads",
    "C74_rejected",
    "C74_python",
    "C74_coordinates",
    "C74_static_python",
    "C74_static_run",
    "C74_koshizuka_run",
    "C74_zhou_run"
   ],
   "note": "The property tree of the scripts' files (M_Script; Python's XML writer and read_xml are not modelled). C74_loads: any number format; C74_python, C74_coordinates, C74_static_python: binary64 with stod / the property tree's reader; C74_rejected: explicit and 3D builds; C74_*_run: the first step, exact arithmetic. Examples: E_Central (the central script), E_Script (a str of that kind exists; the static script with its own constants, in binary64 and in exact arithmetic)."
  },
  {
   "property": "C75",
   "status": "proved",
   "theorems": [
    "C75_left_right",
    "C75_central",
    "C75_balance",
    "C75_static",
    "C75_central_scene"
   ],
   "note": "Exact arithmetic. From C63 (a run is carried along by any rotation, reflection, shift and renumbering) with the scene as its own image. C75_left_right, C75_central: any lattice scene; C75_static, C75_central_scene: the benchmarks; C75_balance: what it means for the fluid as a whole. Particles out of use are excluded: they are parked at the same place whatever the symmetry. Examples: E_Mirror, E_Central (the static and the central script after their first steps)."
  },
  {
   "property": "C76",
   "status": "proved",
   "theorems": [
    "C76_refuted_reproducible",
    "C76_sequential",
    "C76_same_elsewhere",
    "C76_every_outcome",
    "C76_outcome",
    "C76_no_out_of_bounds",
    "C76_exact",
    "C76_exact_histories"
   ],
   "note": "C76_exact, C76_exact_histories (R); C76_sequential, C76_same_elsewhere, C76_every_outcome, C76_outcome, C76_no_out_of_bounds (any arithmetic, hence binary64); C76_refuted_reproducible (binary64): the reproducibility one would like is false. The model lets every inner product take the value of any arrangement and bracketing of its products (M_Red); all loops run in parallel as in C39. Row products and vector expressions are sequential per element, as in ViennaCL's host code, which is not part of /repo."
  },
  {
   "property": "C77",
   "status": "proved",
   "theorems": [
    "C77_step",
    "C77_automatic",
    "C77_environment",
    "C77_history",
    "C77_time_and_mass",
    "C77_refuted_length"
   ],
   "note": "Exact arithmetic: C77_environment, C77_automatic, C77_step, C77_history (with the condition clear_run when there are virtual surface particles, none otherwise), C77_time_and_mass (no condition). C77_refuted_length (binary64, by running): the length unit does matter with virtual particles. Example: E_Scale.example_scale (metres to millimetres, with virtual particles)."
  },
  {
   "property": "C78",
   "status": "proved",
   "theorems": [
    "C78_refuted_rounding"
   ],
   "note": "The property as first expected is false of the code: C78_refuted_rounding runs one scene (S_Tight, written for any kind of numbers) in exact arithmetic (through C33_step) and in binary64 (by computation)."
  },
  {
   "property": "C79",
   "status": "proved",
   "theorems": [
    "C79_refuted_run",
    "C79_taken",
    "C79_refuted_taken",
    "C79_sorted",
    "C79_refuted_sorted"
   ],
   "note": "C79_sorted, C79_taken up to 99999; beyond it the property is false (C79_refuted_sorted, C79_refuted_taken for all numbers up to 999999, C79_refuted_run a run of the program by computation)."
  },
  {
   "property": "C80",
   "status": "proved",
   "theorems": [
    "C80_reads",
    "C80_edge"
   ],
   "note": "The reader is modelled without quotes and escapes; float() is a parameter."
  },
  {
   "property": "C81",
   "status": "proved",
   "theorems": [
    "C81_reference_density",
    "C81_no_deficit",
    "C81_refuted_surface",
    "C81_refuted_central"
   ],
   "note": "The density agrees; the surface search is refuted in general (C81_refuted_surface) and on the scene of the generator (C81_refuted_central). C81_no_deficit is the reason."
  },
  {
   "property": "C82",
   "status": "proved",
   "theorems": [
    "C82_gauges",
    "C82_levels",
    "C82_zhou"
   ],
   "note": "Plane builds; exact arithmetic apart from the printed numbers, which may be off by 10^-5 of their value. C82_gauges any table, C82_levels any run with MPS_SPP, C82_zhou the scene of the generator."
  },
  {
   "property": "C83",
   "status": "proved",
   "theorems": [
    "C83_time_axis",
    "C83_series",
    "C83_pictures"
   ],
   "note": "Exact arithmetic; the directory holds the files of the run and nothing else (the program does not clear it). C83_time_axis the k-th file, C83_series the curves, C83_pictures the pictures."
  },
  {
   "property": "C84",
   "status": "proved",
   "theorems": [
    "C84_comparison",
    "C84_unique",
    "C84_exists",
    "C84_sign",
    "C84_maximum",
    "C84_unit_response",
    "C84_bound",
    "C84_accuracy"
   ],
   "note": "Exact arithmetic. The equation is the one of S_Scheme (C61: the program's steps are steps of that scheme). C84_comparison, C84_unique, C84_exists, C84_sign, C84_maximum, C84_bound on frames; C84_accuracy for a step of the program with implicit pressures."
  },
  {
   "property": "C85",
   "status": "proved",
   "theorems": [
    "C85_reads",
    "C85_runs",
    "C85_comments",
    "C85_cut",
    "C85_script",
    "C85_script_cut",
    "C85_python",
    "C85_static"
   ],
   "note": "RapidXML/Boost and Python's minidom are modelled as documented (M_Xml). C85_reads against the grammar of S_Xml; C85_runs; C85_cut for every cut; C85_script, C85_script_cut, C85_python, C85_static for the scripts' files."
  },
  {
   "property": "C86",
   "status": "proved",
   "theorems": [
    "C86_screen",
    "C86_count",
    "C86_time"
   ],
   "note": "C86_screen for every run; C86_count; C86_time for the format in binary64. The clock is a parameter. boost::format as documented (M_Console)."
  },
  {
   "property": "C87",
   "status": "proved",
   "theorems": [
    "C87_cut_inside",
    "C87_killed",
    "C87_complete",
    "C87_cut",
    "C87_cut_read",
    "C87_reported"
   ],
   "note": "C87_killed and C87_complete for every run; C87_reported: a file whose line has been printed is complete; C87_cut, C87_cut_read for files cut at the end of a line; C87_cut_inside for files cut inside a row (the part of the cut item must itself be a number, otherwise an exception of std::stoi or std::stod ends the program). Opening is assumed to succeed."
  },
  {
   "property": "C88",
   "status": "proved",
   "theorems": [
    "C88_call",
    "C88_cut",
    "C88_program",
    "C88_files"
   ],
   "note": "C88_call for one call on any two reachable computers; C88_program and C88_files for the whole program; C88_cut for a restart from an output file that lost the end of its last number. The start value of the pressure does matter (it is where the solver starts)."
  },
  {
   "property": "C89",
   "status": "proved",
   "theorems": [
    "C89_unnoticed",
    "C89_nothing_written",
    "C89_no_settings"
   ],
   "note": "C89_unnoticed for every assignment of failures to files; C89_nothing_written and C89_no_settings for the extremes. A behaviour the user must know about, not one to be wished for (DESIGN.md, findings)."
  },
  {
   "property": "C90",
   "status": "proved",
   "theorems": [
    "C90_arguments",
    "C90_contents",
    "C90_again",
    "C90_killed"
   ],
   "note": "C90_arguments, C90_contents and C90_again, for every disk and every assignment of failures (the same in both runs); C90_killed for an interruption after any number of operations, on a disk that works."
  }
 ]
}