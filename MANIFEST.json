{
 "claims": [
  {
   "property": "C01",
   "status": "proved",
   "theorems": [
    "C01_output_name",
    "C01_total",
    "C01_injective",
    "C01_not_input"
   ],
   "note": ""
  },
  {
   "property": "C02",
   "status": "proved",
   "theorems": [
    "C02_stage_names_distinct",
    "C02_stage_name_form",
    "C02_across_jobs_refuted"
   ],
   "note": "Within one job as stated. Finding: stage names of one job can equal the single-job name of another input (C02_across_jobs_refuted)."
  },
  {
   "property": "C03",
   "status": "proved",
   "theorems": [
    "C03_order_r_option"
   ],
   "note": ""
  },
  {
   "property": "C04",
   "status": "partial",
   "theorems": [
    "C04_usage",
    "C04_dispatch",
    "C04_not_a_string",
    "C04_readme_refuted"
   ],
   "note": "Dispatch proved against the code's option table; the README's option name for random scans is refuted."
  },
  {
   "property": "C05",
   "status": "proved",
   "theorems": [
    "C05_scan_section",
    "C05_multiopt_scan_section",
    "C05_multiopt_section",
    "C05_qsc_section",
    "C05_opt_section",
    "C05_top_level_refuted"
   ],
   "note": "Within each section as stated. Finding: unknown top-level tables and keys are not rejected (C05_top_level_refuted)."
  },
  {
   "property": "C06",
   "status": "proved",
   "theorems": [
    "padding_harmless"
   ],
   "note": ""
  },
  {
   "property": "C07",
   "status": "proved",
   "theorems": [
    "C07_grid_and_arrays",
    "C07_idempotent"
   ],
   "note": ""
  },
  {
   "property": "C08",
   "status": "proved",
   "theorems": [
    "C08_matrix_history",
    "C08_tensor3_history",
    "C08_tensor4_history",
    "C08_matrix_cells",
    "C08_tensor3_cells",
    "C08_tensor4_cells"
   ],
   "note": ""
  },
  {
   "property": "C09",
   "status": "partial",
   "theorems": [
    "C09_assign_same_shape",
    "C09_assign_refuted"
   ],
   "note": "The general statement is false of the code: Matrix::operator= copies the data but not the shape (C09_assign_refuted). Proved for equal shapes, the only way /repo uses it."
  },
  {
   "property": "C10",
   "status": "proved",
   "theorems": [
    "differentiation_exact",
    "differentiation_exact_at_half_refuted"
   ],
   "note": "In exact arithmetic. The bound on the degree is sharp: differentiation_exact_at_half_refuted."
  },
  {
   "property": "C100",
   "status": "proved",
   "theorems": [
    "stages_write_runs",
    "stages_fixed_inputs",
    "stages_defined",
    "stages_complete"
   ],
   "note": "The minimizer, the solvers and LAPACK are parameters; what is assumed of them is in the statements. stages_complete is in real arithmetic."
  },
  {
   "property": "C101",
   "status": "proved",
   "theorems": [
    "scan_defined",
    "scan_records_runs",
    "scan_exceptions",
    "scan_completes"
   ],
   "note": "The model of the random scan (C23-C26) with the routines of Run.v in place of its parameters. scan_completes (reals): if the solvers and LAPACK succeed the scan does not throw. The random draws and the clock are arbitrary; the collection over several processes is that of C27 and C28."
  },
  {
   "property": "C102",
   "status": "proved",
   "theorems": [
    "scan_file_holds_runs"
   ],
   "note": "ScanFile.v models which members of the scan object collect_results sets (names of the arrays, rows of the merged matrices, counters). The linear solvers and LAPACK are parameters that return or throw; fewer than 2^31 configurations. That processes may reach collect_results differently often, in which case the scan hangs, is C29."
  },
  {
   "property": "C103",
   "status": "proved",
   "theorems": [
    "parameter_scan_lists_runs",
    "point_defined"
   ],
   "note": "Real optimizer (Opt.v) and calculation (Run.v) inside the message exchange of Farm.v; the solvers, LAPACK and GSL are parameters. The value of nphi of each run is that of the last stage and is not part of the output of the scan."
  },
  {
   "property": "C104",
   "status": "proved",
   "theorems": [
    "scan_file_described",
    "parameter_scan_file_holds_runs"
   ],
   "note": "The first theorem is for any optimization, the second for the optimization of Opt.v that calls the calculation of Run.v. What the file does not hold: nphi of the kept configurations and order_r_option; its variable p2 is that of the input file, not of the kept configurations (scan_p2 is)."
  },
  {
   "property": "C105",
   "status": "proved",
   "theorems": [
    "scan_in_ranges",
    "whole_scan_records_runs",
    "whole_scan_defined"
   ],
   "note": "Over the real numbers. whole_scan is the whole of Scan::random in one process: generators of ScanDet.v, loop of Scan.v, calculation of Run.v. whole_scan_defined supposes that the positions of the generators fit in int; generator_position_overflow_refuted (C27) shows a case in which they do not."
  },
  {
   "property": "C106",
   "status": "proved",
   "theorems": [
    "scan_table_read",
    "scan_program_defined",
    "scan_stops_as_told",
    "scan_from_input_to_output"
   ],
   "note": "whole of Scan::run from the tables of the TOML file (the parser itself is external) to the contents of the output file; real arithmetic; needs (nmax)*nfp <= 1290, nphi < 2^30, max_keep_per_proc >= 1, rank*max_attempts_per_proc within int, fewer than 2^31 configurations in the file; example scan_input_example"
  },
  {
   "property": "C107",
   "status": "proved",
   "theorems": [
    "opt_tables_read",
    "opt_program_defined",
    "opt_from_input_to_output",
    "opt_without_modes_refuted"
   ],
   "note": "For input whose axis has at least one mode; opt_without_modes_refuted shows that with four empty arrays the program writes out of bounds. The GSL minimizer is any that calls back as documented (gsl_ok)."
  },
  {
   "property": "C108",
   "status": "proved",
   "theorems": [
    "multi_program_defined",
    "multi_from_input_to_output",
    "multi_flag_sizes",
    "multi_flags_required"
   ],
   "note": "From the tables to the files, for any number of stages. multi_flags_required records that the default lists of varied modes cannot be used after a stage with refinement."
  },
  {
   "property": "C109",
   "status": "proved",
   "theorems": [
    "qsc_omitted",
    "opt_omitted",
    "term_omitted",
    "scan_omitted"
   ],
   "note": "The defaults are listed in a separate specification."
  },
  {
   "property": "C11",
   "status": "proved",
   "theorems": [
    "differentiation_structure",
    "differentiation_circulant",
    "differentiation_empty"
   ],
   "note": "Bounds, shift and mirror structure for any arithmetic; circulant and antisymmetric with zero row sums in exact arithmetic; N = 0 is undefined behaviour."
  },
  {
   "property": "C12",
   "status": "proved",
   "theorems": [
    "C12_newton_status_truthful",
    "C12_newton_total"
   ],
   "note": ""
  },
  {
   "property": "C13",
   "status": "proved",
   "theorems": [
    "C13_newton_never_worse",
    "C13_newton_never_worse_binary64",
    "C13_newton_nan_refuted"
   ],
   "note": "Exact arithmetic, and binary64 when no residual norm is NaN. Finding: NaN residuals pass the line search (C13_newton_nan_refuted)."
  },
  {
   "property": "C14",
   "status": "partial",
   "theorems": [
    "C14_residual_belongs_to_state_partial",
    "C14_linesearch_failure_refuted"
   ],
   "note": "False on NEWTON_LINESEARCH_FAILED: the residual array is that of the rejected state."
  },
  {
   "property": "C15",
   "status": "proved",
   "theorems": [
    "C15_newton_calls"
   ],
   "note": ""
  },
  {
   "property": "C16",
   "status": "proved",
   "theorems": [
    "sigma_jacobian_is_derivative",
    "sigma_jacobian_fresh"
   ],
   "note": "Exact arithmetic; that the matrix is always evaluated at the current state holds in any arithmetic."
  },
  {
   "property": "C17",
   "status": "partial",
   "theorems": [
    "sigma_solution",
    "sigma_object_matches_state_refuted"
   ],
   "note": "Proved for every exit but the failure of the line search. Finding: after a failed line search the object's iota and sigma are those of the last rejected trial step, not of the state Newton returned."
  },
  {
   "property": "C18",
   "status": "proved",
   "theorems": [
    "C18_helicity_winding",
    "C18_helicity_turns"
   ],
   "note": ""
  },
  {
   "property": "C19",
   "status": "proved",
   "theorems": [
    "C19_helicity_symmetries"
   ],
   "note": ""
  },
  {
   "property": "C20",
   "status": "proved",
   "theorems": [
    "C20_random_range",
    "C20_equal_limits"
   ],
   "note": "In exact arithmetic."
  },
  {
   "property": "C21",
   "status": "proved",
   "theorems": [
    "C21_set_to_nth",
    "C21_position",
    "C21_not_deterministic_refuted"
   ],
   "note": "Finding: set_to_nth does have an effect on generators that are not deterministic, contrary to its comment."
  },
  {
   "property": "C22",
   "status": "partial",
   "theorems": [
    "C22_constructor",
    "C22_underflow_refuted",
    "C22_swap_refuted",
    "C22_swap_partial"
   ],
   "note": "Constructor policy proved in exact arithmetic, refuted in binary64 (underflow). Swapping the limits changes the samples (refuted); what is preserved is proved."
  },
  {
   "property": "C23",
   "status": "proved",
   "theorems": [
    "scan_reports_are_true",
    "scan_counters_balance",
    "parallel_scan_complete"
   ],
   "note": "Per process for every report, and for the merged counters on process 0."
  },
  {
   "property": "C24",
   "status": "proved",
   "theorems": [
    "scan_column",
    "scan_kept_meets_limits",
    "scan_kept_meets_limits_real",
    "scan_keeps_nan_refuted"
   ],
   "note": "In the form: no comparison of a kept configuration with a limit came out as a violation; in exact arithmetic this means the limits hold. Finding: NaN values pass all filters (scan_keeps_nan_refuted)."
  },
  {
   "property": "C25",
   "status": "proved",
   "theorems": [
    "scan_storage_safe",
    "scan_storage_zero_refuted"
   ],
   "note": "For max_keep_per_proc >= 1. Finding: with max_keep_per_proc = 0 the first keeper is written out of bounds."
  },
  {
   "property": "C26",
   "status": "proved",
   "theorems": [
    "scan_solve_counters"
   ],
   "note": ""
  },
  {
   "property": "C27",
   "status": "proved",
   "theorems": [
    "deterministic_samples",
    "deterministic_scan_any_processes",
    "generator_position_overflow_refuted",
    "deterministic_scan_duplicates"
   ],
   "note": "For routines of Qsc that do not depend on earlier configurations (stated as hypothesis). Findings: the generator position overflows int; without an attempt limit all processes examine the same configurations."
  },
  {
   "property": "C28",
   "status": "proved",
   "theorems": [
    "collect_complete",
    "parallel_scan_complete"
   ],
   "note": "When all processes reach collect_results equally often (see C29)."
  },
  {
   "property": "C29",
   "status": "partial",
   "theorems": [
    "parallel_scan_complete",
    "collect_mismatch_hangs",
    "parallel_scan_hangs",
    "checkpoint_hang_refuted"
   ],
   "note": "False of the code: processes that take a different number of checkpoints hang. True when the numbers agree (any buffering, any order)."
  },
  {
   "property": "C30",
   "status": "proved",
   "theorems": [
    "curvature_filter_sound"
   ],
   "note": "Exact arithmetic."
  },
  {
   "property": "C31",
   "status": "proved",
   "theorems": [
    "crude_filter",
    "crude_rejected_sound"
   ],
   "note": "The filter is exactly R <= 0 at the angles 0 and pi/nfp."
  },
  {
   "property": "C32",
   "status": "proved",
   "theorems": [
    "scan_size_accepted",
    "scan_index_bijection",
    "scan_index_order",
    "scan_size_overflow_refuted"
   ],
   "note": "For grids the program accepts. Finding: the number of points is computed in an int and can overflow."
  },
  {
   "property": "C33",
   "status": "proved",
   "theorems": [
    "linear_grid",
    "log_grid",
    "linear_grid_rounded",
    "linear_grid_last_double_refuted"
   ],
   "note": "In exact arithmetic; with rounding, linear grids still start at min and never decrease. Finding: in double precision the last value can differ from max, even exceed it (0.3 to 0.9)."
  },
  {
   "property": "C34",
   "status": "proved",
   "theorems": [
    "scan_no_index_twice",
    "scan_every_index_once"
   ],
   "note": ""
  },
  {
   "property": "C35",
   "status": "partial",
   "theorems": [
    "scan_bounded",
    "scan_never_blocks",
    "scan_can_finish",
    "scan_terminates_unbuffered_refuted"
   ],
   "note": "Every execution is finite, and it cannot block if MPI buffers the final orders to stop (one int each). Finding: if it does not buffer them (which the MPI standard allows), the exchange can deadlock."
  },
  {
   "property": "C36",
   "status": "proved",
   "theorems": [
    "scan_output_schedule_independent",
    "scan_finishes"
   ],
   "note": "The optimization is a parameter of the model, assumed to leave arrays of the expected sizes (shapes). Times and per-process statistics are not compared."
  },
  {
   "property": "C37",
   "status": "proved",
   "theorems": [
    "scan_intermediate_files",
    "scan_fails_only_by_optimization"
   ],
   "note": ""
  },
  {
   "property": "C38",
   "status": "proved",
   "theorems": [
    "scan_columns_aligned"
   ],
   "note": ""
  },
  {
   "property": "C39",
   "status": "proved",
   "theorems": [
    "scan_counters_consistent"
   ],
   "note": ""
  },
  {
   "property": "C40",
   "status": "proved",
   "theorems": [
    "scan_sets_parameters",
    "scan_wanted_unique",
    "scan_accepts_parameters",
    "scan_unknown_parameter",
    "scan_axis_mode_checked_refuted",
    "scan_stage_checked_refuted",
    "scan_weight_recorded_refuted"
   ],
   "note": "Findings: an axis mode beyond the initial axis and a stage that does not exist are written out of bounds instead of being refused; a weight scanned in an earlier stage is not recorded in the file."
  },
  {
   "property": "C41",
   "status": "proved",
   "theorems": [
    "state_vector_meaning",
    "state_vector_round_trip",
    "no_parameters_rejected"
   ],
   "note": ""
  },
  {
   "property": "C42",
   "status": "proved",
   "theorems": [
    "residuals_filled",
    "residual_names_meaning"
   ],
   "note": "For the arrays of a configuration of order r2.1 (arrays_ok)."
  },
  {
   "property": "C43",
   "status": "proved",
   "theorems": [
    "objective_is_half_norm"
   ],
   "note": "In exact arithmetic."
  },
  {
   "property": "C44",
   "status": "proved",
   "theorems": [
    "optimization_history",
    "optimization_log"
   ],
   "note": "The GSL minimizer and the routines of Qsc are parameters; what is assumed of them is called_ok."
  },
  {
   "property": "C45",
   "status": "proved",
   "theorems": [
    "refinement_step",
    "refinement_order",
    "optimization_evaluates",
    "evaluations_order"
   ],
   "note": ""
  },
  {
   "property": "C46",
   "status": "partial",
   "theorems": [
    "wrong_flags_rejected",
    "optimization_exceptions",
    "wrong_flags_rejected_early",
    "opt_input_nphi_size",
    "C05_opt_section",
    "multistage_stops",
    "multistage_exceptions",
    "later_stage_flags_rejected_early_refuted"
   ],
   "note": "Proved for a single stage (and the first stage of several). Finding: in later stages wrong flags are rejected only when the stage is reached; the default flags are wrong after a refinement."
  },
  {
   "property": "C47",
   "status": "proved",
   "theorems": [
    "multiopt_chain",
    "multiopt_continues",
    "multiopt_sizes"
   ],
   "note": ""
  },
  {
   "property": "C48",
   "status": "partial",
   "theorems": [
    "C48_nopts_given",
    "C48_nopts_missing_refuted"
   ],
   "note": "False of the code when nopts is absent: the uninitialised member is used."
  },
  {
   "property": "C49",
   "status": "proved",
   "theorems": [
    "first_order_shape"
   ],
   "note": "Exact arithmetic."
  },
  {
   "property": "C50",
   "status": "proved",
   "theorems": [
    "frenet_frame"
   ],
   "note": "Exact arithmetic; includes the equations of Frenet and Serret, with torsion."
  },
  {
   "property": "C51",
   "status": "proved",
   "theorems": [
    "arclength"
   ],
   "note": "Exact arithmetic."
  },
  {
   "property": "C52",
   "status": "proved",
   "theorems": [
    "B20_statistics"
   ],
   "note": "exact arithmetic, B0 > 0 and dl/dphi > 0 on the grid; whatever the linear solver returned; also the grid maxima of second order; also that the residual times B0 is at most the variation"
  },
  {
   "property": "C53",
   "status": "proved",
   "theorems": [
    "second_order_equations",
    "second_order_defined"
   ],
   "note": "for every linear solver that returns only solutions (LAPACK's gesv is a parameter); the equations are written out in R2Spec; second_order_defined holds in every arithmetic"
  },
  {
   "property": "C54",
   "status": "proved",
   "theorems": [
    "mercier_criterion"
   ],
   "note": "exact arithmetic; the axis has dl/dphi > 0 and no point of zero curvature on the grid; also the formulas in terms of the physical quantities and the bounds of the integral"
  },
  {
   "property": "C55",
   "status": "proved",
   "theorems": [
    "singularity_sound",
    "singularity_defined"
   ],
   "note": "exact arithmetic; for every result of the eigenvalue routine"
  },
  {
   "property": "C56",
   "status": "partial",
   "theorems": [
    "no_singularity_missed",
    "no_singularity_missed_refuted"
   ],
   "note": "proved for grid points that are not degenerate and an eigenvalue routine that misses no real eigenvalue; the statement without the nondegeneracy hypotheses is refuted"
  },
  {
   "property": "C57",
   "status": "proved",
   "theorems": [
    "quartic_roots_exact",
    "quartic_roots_returns"
   ],
   "note": "LAPACK's geev is a parameter: the theorem says that the matrix it is given has the roots as eigenvalues"
  },
  {
   "property": "C58",
   "status": "proved",
   "theorems": [
    "grad_B_structure",
    "grad_B_symmetric_traceless",
    "L_grad_B_le_radius_of_curvature"
   ],
   "note": "Exact arithmetic. On the grid the trace is the defect of the product rule for the differentiation matrix; it vanishes when that defect does."
  },
  {
   "property": "C59",
   "status": "proved",
   "theorems": [
    "put_array_layout",
    "matrix_layout",
    "qsc_layout"
   ],
   "note": "arrays of any rank; the four arrays of rank 2 to 4 of a configuration by the index functions of the program"
  },
  {
   "property": "C60",
   "status": "proved",
   "theorems": [
    "qsc_round_trip"
   ],
   "note": "every scalar and vector in the list of read_netcdf, with the C branch; the axis shape, order_r_option, matrices and tensors are not read by the code"
  },
  {
   "property": "C61",
   "status": "partial",
   "theorems": [
    "optimization_file_partial",
    "curvature_label_refuted",
    "opt_labels_partial"
   ],
   "note": "iter_curvature_term is written from the history of the elongation term (finding); all other variables are proved, for every run of the optimizer"
  },
  {
   "property": "C62",
   "status": "proved",
   "theorems": [
    "scan_stops"
   ],
   "note": ""
  },
  {
   "property": "C63",
   "status": "proved",
   "theorems": [
    "newton_evaluates_newton_points",
    "trial_exact"
   ],
   "note": "Stated on the log of callback calls."
  },
  {
   "property": "C64",
   "status": "partial",
   "theorems": [
    "final_configuration",
    "final_configuration_refuted"
   ],
   "note": "True if each run of the minimizer ends with a report. Finding: false if its first iteration fails."
  },
  {
   "property": "C65",
   "status": "proved",
   "theorems": [
    "first_record_is_start",
    "multiopt_continues"
   ],
   "note": ""
  },
  {
   "property": "C66",
   "status": "proved",
   "theorems": [
    "optimization_in_bounds",
    "multiopt_in_bounds"
   ],
   "note": ""
  },
  {
   "property": "C67",
   "status": "proved",
   "theorems": [
    "max_iter_one_evaluates_nothing",
    "optimization_history"
   ],
   "note": ""
  },
  {
   "property": "C68",
   "status": "proved",
   "theorems": [
    "optimization_shapes"
   ],
   "note": ""
  },
  {
   "property": "C69",
   "status": "proved",
   "theorems": [
    "init_axis_defined",
    "init_axis_overflow"
   ],
   "note": "Any arithmetic."
  },
  {
   "property": "C70",
   "status": "proved",
   "theorems": [
    "axis_statistics"
   ],
   "note": "Exact arithmetic."
  },
  {
   "property": "C71",
   "status": "proved",
   "theorems": [
    "boozer_derivative"
   ],
   "note": "Exact arithmetic."
  },
  {
   "property": "C72",
   "status": "proved",
   "theorems": [
    "field_strength_second_order"
   ],
   "note": "Over the reals.  The regularity hypotheses are met by the circular axis (lemma circle)."
  },
  {
   "property": "C73",
   "status": "proved",
   "theorems": [
    "flux_second_order"
   ],
   "note": "Over the reals."
  },
  {
   "property": "C74",
   "status": "proved",
   "theorems": [
    "equilibrium_second_order"
   ],
   "note": "Over the reals, at the grid points where the differentiation matrix obeys the product rule on the first-order quantities; the third-order term of Z, which the code does not compute at this order, is shown to exist.  Hypotheses met in equilibrium_example."
  },
  {
   "property": "C75",
   "status": "proved",
   "theorems": [
    "jacobian_expansion"
   ],
   "note": "sqrt(g) is the triple product of the derivatives of the position vector in R2Spec.v"
  },
  {
   "property": "C76",
   "status": "proved",
   "theorems": [
    "qsc_file",
    "scan_file",
    "multiopt_scan_file",
    "large_scan_not_written"
   ],
   "note": "a scan with 2^31 or more configurations cannot be written (finding); fraction_rejected_due_to_helicity and _beta are not written"
  },
  {
   "property": "C77",
   "status": "partial",
   "theorems": [
    "string_read_undefined"
   ],
   "note": "the property is false: reading any string without a NUL character is undefined behaviour (finding)"
  },
  {
   "property": "C78",
   "status": "proved",
   "theorems": [
    "field_is_taylor_polynomial"
   ],
   "note": "Exact arithmetic; derivatives along the axis are those of the differentiation matrix, as in the code."
  },
  {
   "property": "C79",
   "status": "proved",
   "theorems": [
    "grad_grad_B_along_axis"
   ],
   "note": "Exact arithmetic, under the product rule for the differentiation matrix (nine products), which the English property states."
  },
  {
   "property": "C80",
   "status": "proved",
   "theorems": [
    "two_calculations_agree"
   ],
   "note": "Exact arithmetic."
  },
  {
   "property": "C81",
   "status": "proved",
   "theorems": [
    "L_grad_grad_B_meaning"
   ],
   "note": "Exact arithmetic."
  },
  {
   "property": "C82",
   "status": "proved",
   "theorems": [
    "third_order_terms"
   ],
   "note": "Exact arithmetic; hypotheses met in third_order_example, with a multiple that is not zero in general."
  },
  {
   "property": "C83",
   "status": "proved",
   "theorems": [
    "jacobian_third_order"
   ],
   "note": "Exact arithmetic, at grid points where the product rule holds for the differentiation matrix, as in C74."
  },
  {
   "property": "C84",
   "status": "proved",
   "theorems": [
    "third_order_maxima"
   ],
   "note": "Exact arithmetic."
  },
  {
   "property": "C85",
   "status": "proved",
   "theorems": [
    "results_forget_history"
   ],
   "note": "The model has the members of the object as a map from names; LAPACK's overwriting of the work arrays is covered by the rule that members may change."
  },
  {
   "property": "C86",
   "status": "proved",
   "theorems": [
    "run_deterministic"
   ],
   "note": "The members before construction are arbitrary."
  },
  {
   "property": "C87",
   "status": "proved",
   "theorems": [
    "run_safe",
    "run_defined"
   ],
   "note": "The external solvers are parameters, assumed not to access memory out of bounds and (Newton) to return as many numbers as unknowns."
  },
  {
   "property": "C88",
   "status": "proved",
   "theorems": [
    "inputs_recorded"
   ],
   "note": ""
  },
  {
   "property": "C89",
   "status": "proved",
   "theorems": [
    "derivatives_consistent"
   ],
   "note": ""
  },
  {
   "property": "C90",
   "status": "proved",
   "theorems": [
    "preset_is_input_file"
   ],
   "note": "Decimal literals are modelled as quotients of integers."
  },
  {
   "property": "C91",
   "status": "proved",
   "theorems": [
    "first_order_in_file"
   ],
   "note": "Real arithmetic.  Rests on the model of the run (Run.v) and of the file (NetCDFOut.v)."
  },
  {
   "property": "C92",
   "status": "proved",
   "theorems": [
    "axis_in_file"
   ],
   "note": "Real arithmetic."
  },
  {
   "property": "C93",
   "status": "proved",
   "theorems": [
    "field_in_file"
   ],
   "note": "Real arithmetic.  The derivatives with respect to varphi are those that the file holds (C89), not analytic ones."
  },
  {
   "property": "C94",
   "status": "proved",
   "theorems": [
    "second_order_in_file",
    "third_order_in_file"
   ],
   "note": "Real arithmetic.  For the two equations the linear solver is assumed to solve the systems it is given, if it returns."
  },
  {
   "property": "C95",
   "status": "proved",
   "theorems": [
    "singularity_in_file"
   ],
   "note": "Real arithmetic, in which every number is finite."
  },
  {
   "property": "C96",
   "status": "proved",
   "theorems": [
    "grad_B_in_file",
    "gradients_in_file"
   ],
   "note": "Exact arithmetic (R). About the file of Run.run: any solver functions; regular_file is a condition on the file itself. The tangential part assumes the product rule of the recorded matrix for nine products; gradients_case shows a run for which all hypotheses hold."
  },
  {
   "property": "C97",
   "status": "proved",
   "theorems": [
    "derivatives_in_file",
    "not_calculated_in_file"
   ],
   "note": "Exact arithmetic (R). The coefficients are those of the input table or the defaults (section_effect)."
  },
  {
   "property": "C98",
   "status": "proved",
   "theorems": [
    "convergence_in_file"
   ],
   "note": "Exact arithmetic (R)."
  },
  {
   "property": "C99",
   "status": "proved",
   "theorems": [
    "optimization_writes_runs",
    "evaluation_is_run",
    "fixed_inputs_kept",
    "optimization_defined",
    "calculation_called_ok",
    "optimization_completes"
   ],
   "note": "The minimizer, the solvers and LAPACK are parameters; what is assumed of them is in the statements. optimization_completes is in real arithmetic."
  }
 ]
}