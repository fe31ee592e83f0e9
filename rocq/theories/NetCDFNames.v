(** The variables of the output files, by the condition under which they are present and by their dimensions: a specification that does not refer to
    the tables of NetCDFOut.v. *)
From Coq Require Import String List.
Import ListNotations.
Local Open Scope string_scope.
Inductive kind := KScalar | KText | KArray (dims : list string).
Definition group := (list (string * bool) * kind * list string)%type.
(** The output file of a configuration. *)
Definition configuration_variables : list group := [
  ([], KText, [
    "general_option"; "order_r_option"]);
  ([], KScalar, [
    "at_least_order_r2"; "order_r2.1"; "order_r3"; "nfp"; "nphi"; "eta_bar"; "sigma0"; "I2"; "d_phi"; "B0"; "G0"; "sG"; "spsi"; "axis_length";
    "d_l_d_varphi"; "B0_over_abs_G0"; "abs_G0_over_B0"; "helicity"; "rms_curvature"; "grid_max_curvature"; "grid_max_elongation"; "grid_min_R0";
    "grid_min_L_grad_B"; "mean_elongation"; "mean_R"; "mean_Z"; "standard_deviation_of_R"; "standard_deviation_of_Z"; "max_newton_iterations";
    "max_linesearch_iterations"; "newton_tolerance"; "iota"; "iota_N"]);
  ([("at_least_order_r2", true)], KScalar, [
    "B2c"; "B2s"; "p2"; "G2"; "beta_1s"; "B20_mean"; "B20_residual"; "B20_grid_variation"; "d2_volume_d_psi2"; "DGeod_times_r2"; "DWell_times_r2";
    "DMerc_times_r2"; "grid_min_L_grad_grad_B"; "r_singularity_robust"; "beta"; "grid_max_XY2"; "grid_max_Z2"; "grid_max_d_XY2_d_varphi";
    "grid_max_d_Z2_d_varphi"; "grid_max_d2_XY2_d_varphi2"]);
  ([("order_r2p1", true)], KScalar, [
    "grid_max_XY3"; "grid_max_d_XY3_d_varphi"; "grid_max_d2_XY3_d_varphi2"]);
  ([], KArray ["nphi_dim"], [
    "phi"; "curvature"; "torsion"; "sigma"; "X1c"; "Y1s"; "Y1c"; "R0"; "Z0"; "R0p"; "Z0p"; "R0pp"; "Z0pp"; "R0ppp"; "Z0ppp"; "d_l_d_phi";
    "d2_l_d_phi2"; "elongation"; "Boozer_toroidal_angle"; "L_grad_B"; "L_grad_B_inverse"; "d_X1c_d_varphi"; "d_Y1c_d_varphi"; "d_Y1s_d_varphi"]);
  ([], KArray ["axis_nmax_plus_1_dim"], [
    "R0c"; "R0s"; "Z0c"; "Z0s"]);
  ([("at_least_order_r2", true)], KArray ["nphi_dim"], [
    "X20"; "X2s"; "X2c"; "Y20"; "Y2s"; "Y2c"; "Z20"; "Z2s"; "Z2c"; "B20"; "B20_anomaly"; "d_X20_d_varphi"; "d_X2s_d_varphi"; "d_X2c_d_varphi";
    "d_Y20_d_varphi"; "d_Y2s_d_varphi"; "d_Y2c_d_varphi"; "d_Z20_d_varphi"; "d_Z2s_d_varphi"; "d_Z2c_d_varphi"; "d2_X20_d_varphi2";
    "d2_X2s_d_varphi2"; "d2_X2c_d_varphi2"; "d2_Y20_d_varphi2"; "d2_Y2s_d_varphi2"; "d2_Y2c_d_varphi2"; "d2_Z20_d_varphi2"; "d2_Z2s_d_varphi2";
    "d2_Z2c_d_varphi2"; "L_grad_grad_B"; "L_grad_grad_B_inverse"; "r_hat_singularity_robust"]);
  ([("order_r2p1", true)], KArray ["nphi_dim"], [
    "lambda_for_XY3"]);
  ([("order_r3", true)], KArray ["nphi_dim"], [
    "X3s1"; "X3s3"; "X3c1"; "X3c3"; "Y3s1"; "Y3s3"; "Y3c1"; "Y3c3"; "Z3s1"; "Z3s3"; "Z3c1"; "Z3c3"; "d_X3s1_d_varphi"; "d_X3s3_d_varphi";
    "d_X3c1_d_varphi"; "d_X3c3_d_varphi"; "d_Y3s1_d_varphi"; "d_Y3s3_d_varphi"; "d_Y3c1_d_varphi"; "d_Y3c3_d_varphi"; "d2_X3s1_d_varphi2";
    "d2_X3s3_d_varphi2"; "d2_X3c1_d_varphi2"; "d2_X3c3_d_varphi2"; "d2_Y3s1_d_varphi2"; "d2_Y3s3_d_varphi2"; "d2_Y3c1_d_varphi2"; "d2_Y3c3_d_varphi2"]);
  ([], KArray ["nphi_dim"; "nphi_dim"], [
    "d_d_phi"; "d_d_varphi"]);
  ([], KArray ["nphi_dim"; "nbt_dim"; "nbt_dim"], [
    "grad_B_tensor"]);
  ([("at_least_order_r2", true)], KArray ["nphi_dim"; "nbt_dim"; "nbt_dim"; "nbt_dim"], [
    "grad_grad_B_tensor"])].
(** What an optimization adds to the file of its configuration. *)
Definition history_variables : list group := [
  ([], KScalar, [
    "n_iter"; "n_evals"; "weight_B20"; "weight_iota"; "weight_elongation"; "weight_curvature"; "weight_R0"; "weight_d2_volume_d_psi2";
    "max_d2_volume_d_psi2"; "weight_DMerc_times_r2"; "min_DMerc_times_r2"; "weight_XY2"; "weight_XY2Prime"; "weight_XY2PrimePrime"; "weight_Z2";
    "weight_Z2Prime"; "weight_XY3"; "weight_XY3Prime"; "weight_XY3PrimePrime"; "weight_grad_B"; "weight_grad_grad_B"; "weight_r_singularity";
    "weight_axis_length"; "weight_standard_deviation_of_R"; "weight_B20_mean"; "target_iota"; "min_R0"; "target_axis_length"]);
  ([], KArray ["n_iter_dim"], [
    "iter_fourier_refine_step"; "iter_objective_function"; "iter_B20_term"; "iter_iota_term"; "iter_elongation_term"; "iter_curvature_term";
    "iter_R0_term"; "iter_d2_volume_d_psi2_term"; "iter_DMerc_times_r2_term"; "iter_XY2_term"; "iter_XY2Prime_term"; "iter_XY2PrimePrime_term";
    "iter_Z2_term"; "iter_Z2Prime_term"; "iter_XY3_term"; "iter_XY3Prime_term"; "iter_XY3PrimePrime_term"; "iter_grad_B_term";
    "iter_grad_grad_B_term"; "iter_r_singularity_term"; "iter_axis_length_term"; "iter_standard_deviation_of_R_term"; "iter_B20_mean_term";
    "iter_eta_bar"; "iter_sigma0"; "iter_B2c"; "iter_B2s"; "iter_min_R0"; "iter_max_curvature"; "iter_iota"; "iter_max_elongation";
    "iter_min_L_grad_B"; "iter_min_L_grad_grad_B"; "iter_r_singularity"; "iter_B20_variation"; "iter_B20_residual"; "iter_d2_volume_d_psi2";
    "iter_DMerc_times_r2"; "iter_standard_deviation_of_R"; "iter_standard_deviation_of_Z"; "iter_axis_length"]);
  ([], KArray ["axis_nmax_plus_1_dim"; "n_iter_dim"], [
    "iter_R0c"; "iter_R0s"; "iter_Z0c"; "iter_Z0s"])].
(** The output file of a scan. *)
Definition scan_variables : list group := [
  ([], KText, [
    "general_option"; "order_r_option"; "eta_bar_scan_option"; "sigma0_scan_option"; "fourier_scan_option"]);
  ([], KScalar, [
    "at_least_order_r2"; "nfp"; "nphi"; "eta_bar_min"; "eta_bar_max"; "sigma0_min"; "sigma0_max"; "n_scan"; "attempts"; "n_sigma_eq_solves";
    "n_r2_solves"; "rejected_due_to_R0_crude"; "rejected_due_to_R0"; "rejected_due_to_helicity"; "rejected_due_to_curvature"; "rejected_due_to_iota";
    "rejected_due_to_elongation"; "rejected_due_to_L_grad_B"; "rejected_due_to_B20_variation"; "rejected_due_to_L_grad_grad_B";
    "rejected_due_to_d2_volume_d_psi2"; "rejected_due_to_DMerc"; "rejected_due_to_r_singularity"; "rejected_due_to_beta"; "fraction_kept";
    "fraction_sigma_eq_solves"; "fraction_r2_solves"; "fraction_rejected_due_to_R0_crude"; "fraction_rejected_due_to_R0";
    "fraction_rejected_due_to_curvature"; "fraction_rejected_due_to_iota"; "fraction_rejected_due_to_elongation"; "fraction_rejected_due_to_L_grad_B";
    "fraction_rejected_due_to_B20_variation"; "fraction_rejected_due_to_L_grad_grad_B"; "fraction_rejected_due_to_d2_volume_d_psi2";
    "fraction_rejected_due_to_DMerc"; "fraction_rejected_due_to_r_singularity"; "keep_all"; "deterministic"; "max_newton_iterations";
    "max_linesearch_iterations"; "newton_tolerance"; "I2"; "d_phi"; "B0"; "sG"; "spsi"]);
  ([("q.at_least_order_r2", true)], KText, [
    "B2c_scan_option"; "B2s_scan_option"; "p2_scan_option"]);
  ([("q.at_least_order_r2", true)], KScalar, [
    "B2c_min"; "B2c_max"; "B2s_min"; "B2s_max"; "p2_min"; "p2_max"; "p2"]);
  ([("keep_all", false)], KScalar, [
    "min_R0_to_keep"; "helicity_to_keep"; "min_iota_to_keep"; "max_elongation_to_keep"; "min_L_grad_B_to_keep"]);
  ([("keep_all", false); ("q.at_least_order_r2", true)], KScalar, [
    "min_L_grad_grad_B_to_keep"; "max_B20_variation_to_keep"; "min_r_singularity_to_keep"; "max_d2_volume_d_psi2_to_keep";
    "min_DMerc_times_r2_to_keep"]);
  ([], KArray ["axis_nmax_plus_1_dim"], [
    "R0c_min"; "R0c_max"; "R0s_min"; "R0s_max"; "Z0c_min"; "Z0c_max"; "Z0s_min"; "Z0s_max"]);
  ([], KArray ["nphi_dim"], [
    "phi"]);
  ([], KArray ["n_scan_dim"], [
    "scan_eta_bar"; "scan_sigma0"; "scan_axis_length"; "scan_iota"; "scan_min_R0"; "scan_max_curvature"; "scan_max_elongation"; "scan_min_L_grad_B";
    "scan_helicity"; "scan_standard_deviation_of_R"; "scan_standard_deviation_of_Z"]);
  ([("q.at_least_order_r2", true)], KArray ["n_scan_dim"], [
    "scan_B2c"; "scan_B2s"; "scan_p2"; "scan_min_L_grad_grad_B"; "scan_B20_variation"; "scan_B20_residual"; "scan_r_singularity";
    "scan_d2_volume_d_psi2"; "scan_DMerc_times_r2"; "scan_beta"]);
  ([], KArray ["axis_nmax_plus_1_dim"; "n_scan_dim"], [
    "scan_R0c"; "scan_R0s"; "scan_Z0c"; "scan_Z0s"])].
(** The output file of a scan of optimizations. *)
Definition multiopt_scan_variables : list group := [
  ([], KText, [
    "general_option"]);
  ([], KScalar, [
    "nfp"; "n_scan"; "n_evals"; "attempts"; "rejected_due_to_R0"; "rejected_due_to_iota"; "rejected_due_to_elongation"; "rejected_due_to_L_grad_B";
    "rejected_due_to_B20_variation"; "rejected_due_to_L_grad_grad_B"; "rejected_due_to_d2_volume_d_psi2"; "rejected_due_to_DMerc";
    "rejected_due_to_r_singularity"; "rejected_due_to_max_XY2"; "rejected_due_to_max_Z2"; "rejected_due_to_max_XY3";
    "rejected_due_to_max_d_XY2_d_varphi"; "rejected_due_to_max_d_Z2_d_varphi"; "rejected_due_to_max_d_XY3_d_varphi"; "fraction_kept";
    "fraction_rejected_due_to_R0"; "fraction_rejected_due_to_iota"; "fraction_rejected_due_to_elongation"; "fraction_rejected_due_to_L_grad_B";
    "fraction_rejected_due_to_B20_variation"; "fraction_rejected_due_to_L_grad_grad_B"; "fraction_rejected_due_to_d2_volume_d_psi2";
    "fraction_rejected_due_to_DMerc"; "fraction_rejected_due_to_r_singularity"; "fraction_rejected_due_to_max_XY2"; "fraction_rejected_due_to_max_Z2";
    "fraction_rejected_due_to_max_XY3"; "fraction_rejected_due_to_max_d_XY2_d_varphi"; "fraction_rejected_due_to_max_d_Z2_d_varphi";
    "fraction_rejected_due_to_max_d_XY3_d_varphi"; "keep_all"; "max_newton_iterations"; "max_linesearch_iterations"; "newton_tolerance"; "I2"; "B0";
    "sG"; "spsi"; "p2"]);
  ([("keep_all", false)], KScalar, [
    "min_R0_to_keep"; "min_iota_to_keep"; "max_elongation_to_keep"; "min_L_grad_B_to_keep"; "min_L_grad_grad_B_to_keep"; "max_B20_variation_to_keep";
    "min_r_singularity_to_keep"; "max_d2_volume_d_psi2_to_keep"; "min_DMerc_times_r2_to_keep"; "max_XY2_to_keep"; "max_Z2_to_keep"; "max_XY3_to_keep";
    "max_d_XY2_d_varphi_to_keep"; "max_d_Z2_d_varphi_to_keep"; "max_d_XY3_d_varphi_to_keep"]);
  ([], KArray ["n_scan_dim"], [
    "scan_eta_bar"; "scan_sigma0"; "scan_B2c"; "scan_B2s"; "scan_iota"; "scan_min_R0"; "scan_max_curvature"; "scan_max_elongation";
    "scan_min_L_grad_B"; "scan_helicity"; "scan_n_evals"; "scan_standard_deviation_of_R"; "scan_standard_deviation_of_Z"; "scan_min_L_grad_grad_B";
    "scan_B20_variation"; "scan_B20_residual"; "scan_B20_mean"; "scan_r_singularity"; "scan_d2_volume_d_psi2"; "scan_DMerc_times_r2"; "scan_max_XY2";
    "scan_max_Z2"; "scan_max_d_XY2_d_varphi"; "scan_max_d2_XY2_d_varphi2"; "scan_max_d_Z2_d_varphi"; "scan_max_XY3"; "scan_max_d_XY3_d_varphi";
    "scan_max_d2_XY3_d_varphi2"; "scan_axis_length"; "scan_p2"; "scan_initial_eta_bar"; "scan_initial_B2c"; "scan_initial_B2s"; "scan_weight_B20";
    "scan_weight_iota"; "scan_target_iota"; "scan_weight_elongation"; "scan_weight_curvature"; "scan_weight_R0"; "scan_target_min_R0";
    "scan_weight_d2_volume_d_psi2"; "scan_max_d2_volume_d_psi2"; "scan_weight_DMerc_times_r2"; "scan_min_DMerc_times_r2"; "scan_weight_XY2";
    "scan_weight_XY2Prime"; "scan_weight_XY2PrimePrime"; "scan_weight_Z2"; "scan_weight_Z2Prime"; "scan_weight_XY3"; "scan_weight_XY3Prime";
    "scan_weight_XY3PrimePrime"; "scan_weight_grad_B"; "scan_weight_grad_grad_B"; "scan_weight_r_singularity"; "scan_weight_axis_length";
    "scan_target_axis_length"; "scan_weight_standard_deviation_of_R"; "scan_weight_B20_mean"]);
  ([], KArray ["axis_nmax_plus_1_dim"; "n_scan_dim"], [
    "scan_R0c"; "scan_R0s"; "scan_Z0c"; "scan_Z0s"; "scan_initial_R0c"; "scan_initial_R0s"; "scan_initial_Z0c"; "scan_initial_Z0s"])].
