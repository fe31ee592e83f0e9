"""Regenerate MANIFEST.json; checks that every listed theorem exists."""
import json, re, glob
C = {}
def c(pid, status, theorems, note=""):
    C[pid] = dict(property=pid, status=status, theorems=theorems.split(), note=note)

c("C01", "proved", "C01_output_name C01_total C01_injective C01_not_input")
c("C02", "proved", "C02_stage_names_distinct C02_stage_name_form C02_across_jobs_refuted",
  "Within one job as stated. Finding: stage names of one job can equal the single-job name of another input (C02_across_jobs_refuted).")
c("C08", "proved", "C08_matrix_history C08_tensor3_history C08_tensor4_history C08_matrix_cells C08_tensor3_cells C08_tensor4_cells")
c("C09", "partial", "C09_assign_same_shape C09_assign_refuted",
  "The general statement is false of the code: Matrix::operator= copies the data but not the shape (C09_assign_refuted). Proved for equal shapes, the only way /repo uses it.")
c("C03", "proved", "C03_order_r_option")
c("C04", "partial", "C04_usage C04_dispatch C04_not_a_string C04_readme_refuted",
  "Dispatch proved against the code's option table; the README's option name for random scans is refuted.")
c("C05", "proved", "C05_scan_section C05_multiopt_scan_section C05_multiopt_section C05_qsc_section C05_opt_section C05_top_level_refuted",
  "Within each section as stated. Finding: unknown top-level tables and keys are not rejected (C05_top_level_refuted).")
c("C12", "proved", "C12_newton_status_truthful C12_newton_total")
c("C13", "proved", "C13_newton_never_worse C13_newton_never_worse_binary64 C13_newton_nan_refuted",
  "Exact arithmetic, and binary64 when no residual norm is NaN. Finding: NaN residuals pass the line search (C13_newton_nan_refuted).")
c("C14", "partial", "C14_residual_belongs_to_state_partial C14_linesearch_failure_refuted",
  "False on NEWTON_LINESEARCH_FAILED: the residual array is that of the rejected state.")
c("C15", "proved", "C15_newton_calls")
c("C48", "partial", "C48_nopts_given C48_nopts_missing_refuted",
  "False of the code when nopts is absent: the uninitialised member is used.")
c("C07", "proved", "C07_grid_and_arrays C07_idempotent")
c("C18", "proved", "C18_helicity_winding C18_helicity_turns")
c("C19", "proved", "C19_helicity_symmetries")
c("C20", "proved", "C20_random_range C20_equal_limits", "In exact arithmetic.")
c("C21", "proved", "C21_set_to_nth C21_position C21_not_deterministic_refuted",
  "Finding: set_to_nth does have an effect on generators that are not deterministic, contrary to its comment.")
c("C22", "partial", "C22_constructor C22_underflow_refuted C22_swap_refuted C22_swap_partial",
  "Constructor policy proved in exact arithmetic, refuted in binary64 (underflow). Swapping the limits changes the samples (refuted); what is preserved is proved.")
c("C23", "proved", "scan_reports_are_true scan_counters_balance parallel_scan_complete",
  "Per process for every report, and for the merged counters on process 0.")
c("C24", "proved", "scan_column scan_kept_meets_limits scan_kept_meets_limits_real scan_keeps_nan_refuted",
  "In the form: no comparison of a kept configuration with a limit came out as a violation; in exact arithmetic this means the limits hold. Finding: NaN values pass all filters (scan_keeps_nan_refuted).")
c("C25", "proved", "scan_storage_safe scan_storage_zero_refuted",
  "For max_keep_per_proc >= 1. Finding: with max_keep_per_proc = 0 the first keeper is written out of bounds.")
c("C26", "proved", "scan_solve_counters")
c("C28", "proved", "collect_complete parallel_scan_complete", "When all processes reach collect_results equally often (see C29).")
c("C29", "partial", "parallel_scan_complete collect_mismatch_hangs parallel_scan_hangs checkpoint_hang_refuted",
  "False of the code: processes that take a different number of checkpoints hang. True when the numbers agree (any buffering, any order).")
c("C62", "proved", "scan_stops")
c("C27", "proved", "deterministic_samples deterministic_scan_any_processes generator_position_overflow_refuted deterministic_scan_duplicates",
  "For routines of Qsc that do not depend on earlier configurations (stated as hypothesis). Findings: the generator position overflows int; without an attempt limit all processes examine the same configurations.")
c("C63", "proved", "newton_evaluates_newton_points trial_exact", "Stated on the log of callback calls.")
c("C32", "proved", "scan_size_accepted scan_index_bijection scan_index_order scan_size_overflow_refuted",
  "For grids the program accepts. Finding: the number of points is computed in an int and can overflow.")
c("C33", "proved", "linear_grid log_grid linear_grid_rounded linear_grid_last_double_refuted",
  "In exact arithmetic; with rounding, linear grids still start at min and never decrease. Finding: in double precision the last value can differ from max, even exceed it (0.3 to 0.9).")
c("C34", "proved", "scan_no_index_twice scan_every_index_once")
c("C35", "partial", "scan_bounded scan_never_blocks scan_can_finish scan_terminates_unbuffered_refuted",
  "Every execution is finite, and it cannot block if MPI buffers the final orders to stop (one int each). Finding: if it does not buffer them (which the MPI standard allows), the exchange can deadlock.")
c("C36", "proved", "scan_output_schedule_independent scan_finishes", "The optimization is a parameter of the model, assumed to leave arrays of the expected sizes (shapes). Times and per-process statistics are not compared.")
c("C37", "proved", "scan_intermediate_files scan_fails_only_by_optimization")
c("C38", "proved", "scan_columns_aligned")
c("C39", "proved", "scan_counters_consistent")
c("C40", "proved", "scan_sets_parameters scan_wanted_unique scan_accepts_parameters scan_unknown_parameter scan_axis_mode_checked_refuted scan_stage_checked_refuted scan_weight_recorded_refuted",
  "Findings: an axis mode beyond the initial axis and a stage that does not exist are written out of bounds instead of being refused; a weight scanned in an earlier stage is not recorded in the file.")
c("C41", "proved", "state_vector_meaning state_vector_round_trip no_parameters_rejected")
c("C42", "proved", "residuals_filled residual_names_meaning", "For the arrays of a configuration of order r2.1 (arrays_ok).")
c("C43", "proved", "objective_is_half_norm", "In exact arithmetic.")
c("C44", "proved", "optimization_history optimization_log", "The GSL minimizer and the routines of Qsc are parameters; what is assumed of them is called_ok.")
c("C45", "proved", "refinement_step refinement_order optimization_evaluates evaluations_order")
c("C46", "partial", "wrong_flags_rejected optimization_exceptions wrong_flags_rejected_early opt_input_nphi_size C05_opt_section multistage_stops multistage_exceptions later_stage_flags_rejected_early_refuted",
  "Proved for a single stage (and the first stage of several). Finding: in later stages wrong flags are rejected only when the stage is reached; the default flags are wrong after a refinement.")
c("C47", "proved", "multiopt_chain multiopt_continues multiopt_sizes")
c("C64", "partial", "final_configuration final_configuration_refuted", "True if each run of the minimizer ends with a report. Finding: false if its first iteration fails.")
c("C65", "proved", "first_record_is_start multiopt_continues")
c("C66", "proved", "optimization_in_bounds multiopt_in_bounds")
c("C67", "proved", "max_iter_one_evaluates_nothing optimization_history")
c("C68", "proved", "optimization_shapes")
c("C10","proved","differentiation_exact differentiation_exact_at_half_refuted","In exact arithmetic. The bound on the degree is sharp: differentiation_exact_at_half_refuted.")
c("C11","proved","differentiation_structure differentiation_circulant differentiation_empty","Bounds, shift and mirror structure for any arithmetic; circulant and antisymmetric with zero row sums in exact arithmetic; N = 0 is undefined behaviour.")
c("C06","proved","padding_harmless","")
c("C31","proved","crude_filter crude_rejected_sound","The filter is exactly R <= 0 at the angles 0 and pi/nfp.")
c("C50","proved","frenet_frame","Exact arithmetic; includes the equations of Frenet and Serret, with torsion.")
c("C51","proved","arclength","Exact arithmetic.")
c("C69","proved","init_axis_defined init_axis_overflow","Any arithmetic.")
c("C70","proved","axis_statistics","Exact arithmetic.")
c("C71","proved","boozer_derivative","Exact arithmetic.")
c("C16","proved","sigma_jacobian_is_derivative sigma_jacobian_fresh","Exact arithmetic; that the matrix is always evaluated at the current state holds in any arithmetic.")
c("C17","partial","sigma_solution sigma_object_matches_state_refuted","Proved for every exit but the failure of the line search. Finding: after a failed line search the object's iota and sigma are those of the last rejected trial step, not of the state Newton returned.")
c("C30","proved","curvature_filter_sound","Exact arithmetic.")
c("C49","proved","first_order_shape","Exact arithmetic.")
c("C58","proved","grad_B_structure grad_B_symmetric_traceless L_grad_B_le_radius_of_curvature","Exact arithmetic. On the grid the trace is the defect of the product rule for the differentiation matrix; it vanishes when that defect does.")
c("C52","proved","B20_statistics","exact arithmetic, B0 > 0 and dl/dphi > 0 on the grid; whatever the linear solver returned; also the grid maxima of second order; also that the residual times B0 is at most the variation")
c("C53","proved","second_order_equations second_order_defined","for every linear solver that returns only solutions (LAPACK's gesv is a parameter); the equations are written out in R2Spec; second_order_defined holds in every arithmetic")
c("C54","proved","mercier_criterion","exact arithmetic; the axis has dl/dphi > 0 and no point of zero curvature on the grid; also the formulas in terms of the physical quantities and the bounds of the integral")
c("C72","proved","field_strength_second_order","Over the reals.  The regularity hypotheses are met by the circular axis (lemma circle).")
c("C73","proved","flux_second_order","Over the reals.")
c("C74","proved","equilibrium_second_order","Over the reals, at the grid points where the differentiation matrix obeys the product rule on the first-order quantities; the third-order term of Z, which the code does not compute at this order, is shown to exist.  Hypotheses met in equilibrium_example.")
c("C75","proved","jacobian_expansion","sqrt(g) is the triple product of the derivatives of the position vector in R2Spec.v")
c("C57","proved","quartic_roots_exact quartic_roots_returns","LAPACK's geev is a parameter: the theorem says that the matrix it is given has the roots as eigenvalues")
c("C55","proved","singularity_sound singularity_defined","exact arithmetic; for every result of the eigenvalue routine")
c("C56","partial","no_singularity_missed no_singularity_missed_refuted","proved for grid points that are not degenerate and an eigenvalue routine that misses no real eigenvalue; the statement without the nondegeneracy hypotheses is refuted")
c("C59","proved","put_array_layout matrix_layout qsc_layout","arrays of any rank; the four arrays of rank 2 to 4 of a configuration by the index functions of the program")
c("C60","proved","qsc_round_trip","every scalar and vector in the list of read_netcdf, with the C branch; the axis shape, order_r_option, matrices and tensors are not read by the code")
c("C61","partial","optimization_file_partial curvature_label_refuted opt_labels_partial","iter_curvature_term is written from the history of the elongation term (finding); all other variables are proved, for every run of the optimizer")
c("C76","proved","qsc_file scan_file multiopt_scan_file large_scan_not_written","a scan with 2^31 or more configurations cannot be written (finding); fraction_rejected_due_to_helicity and _beta are not written")
c("C77","partial","string_read_undefined","the property is false: reading any string without a NUL character is undefined behaviour (finding)")
c("C78","proved","field_is_taylor_polynomial","Exact arithmetic; derivatives along the axis are those of the differentiation matrix, as in the code.")
c("C79","proved","grad_grad_B_along_axis","Exact arithmetic, under the product rule for the differentiation matrix (nine products), which the English property states.")
c("C80","proved","two_calculations_agree","Exact arithmetic.")
c("C81","proved","L_grad_grad_B_meaning","Exact arithmetic.")
c("C82","proved","third_order_terms","Exact arithmetic; hypotheses met in third_order_example, with a multiple that is not zero in general.")
c("C83","proved","jacobian_third_order","Exact arithmetic, at grid points where the product rule holds for the differentiation matrix, as in C74.")
c("C84","proved","third_order_maxima","Exact arithmetic.")
c("C85","proved","results_forget_history","The model has the members of the object as a map from names; LAPACK's overwriting of the work arrays is covered by the rule that members may change.")
c("C86","proved","run_deterministic","The members before construction are arbitrary.")
c("C87","proved","run_safe run_defined","The external solvers are parameters, assumed not to access memory out of bounds and (Newton) to return as many numbers as unknowns.")
c("C88","proved","inputs_recorded","")
c("C89","proved","derivatives_consistent","")
c("C90","proved","preset_is_input_file","Decimal literals are modelled as quotients of integers.")
c("C91","proved","first_order_in_file","Real arithmetic.  Rests on the model of the run (Run.v) and of the file (NetCDFOut.v).")
c("C92","proved","axis_in_file","Real arithmetic.")
c("C93","proved","field_in_file","Real arithmetic.  The derivatives with respect to varphi are those that the file holds (C89), not analytic ones.")
c("C94","proved","second_order_in_file third_order_in_file","Real arithmetic.  For the two equations the linear solver is assumed to solve the systems it is given, if it returns.")
c("C95","proved","singularity_in_file","Real arithmetic, in which every number is finite.")
c("C96","proved","grad_B_in_file gradients_in_file","Exact arithmetic (R). About the file of Run.run: any solver functions; regular_file is a condition on the file itself. The tangential part assumes the product rule of the recorded matrix for nine products; gradients_case shows a run for which all hypotheses hold.")
c("C97","proved","derivatives_in_file not_calculated_in_file","Exact arithmetic (R). The coefficients are those of the input table or the defaults (section_effect).")
c("C98","proved","convergence_in_file","Exact arithmetic (R).")
c("C99","proved","optimization_writes_runs evaluation_is_run fixed_inputs_kept optimization_defined calculation_called_ok optimization_completes","The minimizer, the solvers and LAPACK are parameters; what is assumed of them is in the statements. optimization_completes is in real arithmetic.")
c("C100","proved","stages_write_runs stages_fixed_inputs stages_defined stages_complete","The minimizer, the solvers and LAPACK are parameters; what is assumed of them is in the statements. stages_complete is in real arithmetic.")
c("C101","proved","scan_defined scan_records_runs scan_exceptions scan_completes","The model of the random scan (C23-C26) with the routines of Run.v in place of its parameters. scan_completes (reals): if the solvers and LAPACK succeed the scan does not throw. The random draws and the clock are arbitrary; the collection over several processes is that of C27 and C28.")
c("C102","proved","scan_file_holds_runs","ScanFile.v models which members of the scan object collect_results sets (names of the arrays, rows of the merged matrices, counters). The linear solvers and LAPACK are parameters that return or throw; fewer than 2^31 configurations. That processes may reach collect_results differently often, in which case the scan hangs, is C29.")
c("C103","proved","parameter_scan_lists_runs point_defined","Real optimizer (Opt.v) and calculation (Run.v) inside the message exchange of Farm.v; the solvers, LAPACK and GSL are parameters. The value of nphi of each run is that of the last stage and is not part of the output of the scan.")
c("C104","proved","scan_file_described parameter_scan_file_holds_runs","The first theorem is for any optimization, the second for the optimization of Opt.v that calls the calculation of Run.v. What the file does not hold: nphi of the kept configurations and order_r_option; its variable p2 is that of the input file, not of the kept configurations (scan_p2 is).")
c("C105","proved","scan_in_ranges whole_scan_records_runs whole_scan_defined","Over the real numbers. whole_scan is the whole of Scan::random in one process: generators of ScanDet.v, loop of Scan.v, calculation of Run.v. whole_scan_defined supposes that the positions of the generators fit in int; generator_position_overflow_refuted (C27) shows a case in which they do not.")
c("C106","proved","scan_table_read scan_program_defined scan_stops_as_told scan_from_input_to_output","whole of Scan::run from the tables of the TOML file (the parser itself is external) to the contents of the output file; real arithmetic; needs (nmax)*nfp <= 1290, nphi < 2^30, max_keep_per_proc >= 1, rank*max_attempts_per_proc within int, fewer than 2^31 configurations in the file; example scan_input_example")
c("C107","proved","opt_tables_read opt_program_defined opt_from_input_to_output opt_without_modes_refuted","For input whose axis has at least one mode; opt_without_modes_refuted shows that with four empty arrays the program writes out of bounds. The GSL minimizer is any that calls back as documented (gsl_ok).")
c("C108","proved","multi_program_defined multi_from_input_to_output multi_flag_sizes multi_flags_required","From the tables to the files, for any number of stages. multi_flags_required records that the default lists of varied modes cannot be used after a stage with refinement.")
c("C109","proved","qsc_omitted opt_omitted term_omitted scan_omitted","The defaults are listed in a separate specification.")

props = [json.loads(l)["id"] for l in open("/verif/properties.jsonl")]
src = "".join(open(f).read() for f in glob.glob("/verif/rocq/theories/Properties_*.v"))
have = set(re.findall(r"^(?:Theorem|Lemma|Corollary)\s+(\w+)", src, re.M))
for p in C.values():
    for t in p["theorems"]:
        assert t in have, t
listed = {t for p in C.values() for t in p["theorems"]}
for t in sorted(have - listed): print("not in manifest:", t)
for p in props:
    if p not in C: print("no claim:", p)
json.dump({"claims": [C[p] for p in sorted(C)]}, open("/verif/MANIFEST.json", "w"), indent=1)
