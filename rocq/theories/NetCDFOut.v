(** Model of the functions that write the output files: src/qsc_write_netcdf.cpp, src/opt_write_netcdf.cpp, src/scan_write_netcdf.cpp,
    src/multiopt_scan_write_netcdf.cpp; and of the branch of src/read_netcdf.cpp that reads the first. *)
From Coq Require Import String Ascii ZArith List Arith Bool.
From Verif Require Import Base Outfile Alloc NetCDF.
Import ListNotations.
Local Open Scope string_scope.
Local Open Scope nat_scope.

(** What the statements nc.put(...) pass, as an expression of the C++ code: an int, a bool converted to int, a qscfloat, a big (converted to
    qscfloat by put), a big converted to int, a string, a string literal, a one-dimensional array, the data of an array of several dimensions. *)
Inductive source := SInt (x : string) | SFlag (x : string) | SFloat (x : string) | SBig (x : string) | SBigInt (x : string) | SText (x : string)
  | SLit (s : string) | SInts (dim x : string) | SVector (dim x : string) | SArray (dims : list string) (x : string).
(** A statement nc.put, with the conditions of the enclosing if statements. *)
Inductive put := Put (when : list (string * bool)) (name : string) (what : source).
Inductive target := TInt (x : string) | TFloat (x : string) | TVector (x : string).
Inductive get := Get (when : list (string * bool)) (name : string) (what : target).
(** The statements that define dimensions: nc.dim with the size given by an int, a big (converted to int), the size of an array or a number; nc.get_dim. *)
Inductive size := ZInt (x : string) | ZBig (x : string) | ZArray (x : string) | ZLit (n : Z).
Inductive dim_stmt := Dim (var name : string) (s : size) | GetDim (var name : string).

(** qsc_write_netcdf.cpp lines 23-221. *)
Definition qsc_puts : list put := [
  Put [] "general_option" (SLit "single");
  Put [] "at_least_order_r2" (SFlag "at_least_order_r2");
  Put [] "order_r2.1" (SFlag "order_r2p1");
  Put [] "order_r3" (SFlag "order_r3");
  Put [] "order_r_option" (SText "order_r_option");
  Put [] "nfp" (SInt "nfp");
  Put [] "nphi" (SInt "nphi");
  Put [] "eta_bar" (SFloat "eta_bar");
  Put [] "sigma0" (SFloat "sigma0");
  Put [] "I2" (SFloat "I2");
  Put [] "d_phi" (SFloat "d_phi");
  Put [] "B0" (SFloat "B0");
  Put [] "G0" (SFloat "G0");
  Put [] "sG" (SInt "sG");
  Put [] "spsi" (SInt "spsi");
  Put [] "axis_length" (SFloat "axis_length");
  Put [] "d_l_d_varphi" (SFloat "d_l_d_varphi");
  Put [] "B0_over_abs_G0" (SFloat "B0_over_abs_G0");
  Put [] "abs_G0_over_B0" (SFloat "abs_G0_over_B0");
  Put [] "helicity" (SInt "helicity");
  Put [] "rms_curvature" (SFloat "rms_curvature");
  Put [] "grid_max_curvature" (SFloat "grid_max_curvature");
  Put [] "grid_max_elongation" (SFloat "grid_max_elongation");
  Put [] "grid_min_R0" (SFloat "grid_min_R0");
  Put [] "grid_min_L_grad_B" (SFloat "grid_min_L_grad_B");
  Put [] "mean_elongation" (SFloat "mean_elongation");
  Put [] "mean_R" (SFloat "mean_R");
  Put [] "mean_Z" (SFloat "mean_Z");
  Put [] "standard_deviation_of_R" (SFloat "standard_deviation_of_R");
  Put [] "standard_deviation_of_Z" (SFloat "standard_deviation_of_Z");
  Put [] "max_newton_iterations" (SInt "max_newton_iterations");
  Put [] "max_linesearch_iterations" (SInt "max_linesearch_iterations");
  Put [] "newton_tolerance" (SFloat "newton_tolerance");
  Put [] "iota" (SFloat "iota");
  Put [] "iota_N" (SFloat "iota_N");
  Put [("at_least_order_r2", true)] "B2c" (SFloat "B2c");
  Put [("at_least_order_r2", true)] "B2s" (SFloat "B2s");
  Put [("at_least_order_r2", true)] "p2" (SFloat "p2");
  Put [("at_least_order_r2", true)] "G2" (SFloat "G2");
  Put [("at_least_order_r2", true)] "beta_1s" (SFloat "beta_1s");
  Put [("at_least_order_r2", true)] "B20_mean" (SFloat "B20_mean");
  Put [("at_least_order_r2", true)] "B20_residual" (SFloat "B20_residual");
  Put [("at_least_order_r2", true)] "B20_grid_variation" (SFloat "B20_grid_variation");
  Put [("at_least_order_r2", true)] "d2_volume_d_psi2" (SFloat "d2_volume_d_psi2");
  Put [("at_least_order_r2", true)] "DGeod_times_r2" (SFloat "DGeod_times_r2");
  Put [("at_least_order_r2", true)] "DWell_times_r2" (SFloat "DWell_times_r2");
  Put [("at_least_order_r2", true)] "DMerc_times_r2" (SFloat "DMerc_times_r2");
  Put [("at_least_order_r2", true)] "grid_min_L_grad_grad_B" (SFloat "grid_min_L_grad_grad_B");
  Put [("at_least_order_r2", true)] "r_singularity_robust" (SFloat "r_singularity_robust");
  Put [("at_least_order_r2", true)] "beta" (SFloat "beta");
  Put [("at_least_order_r2", true)] "grid_max_XY2" (SFloat "grid_max_XY2");
  Put [("at_least_order_r2", true)] "grid_max_Z2" (SFloat "grid_max_Z2");
  Put [("at_least_order_r2", true)] "grid_max_d_XY2_d_varphi" (SFloat "grid_max_d_XY2_d_varphi");
  Put [("at_least_order_r2", true)] "grid_max_d_Z2_d_varphi" (SFloat "grid_max_d_Z2_d_varphi");
  Put [("at_least_order_r2", true)] "grid_max_d2_XY2_d_varphi2" (SFloat "grid_max_d2_XY2_d_varphi2");
  Put [("order_r2p1", true)] "grid_max_XY3" (SFloat "grid_max_XY3");
  Put [("order_r2p1", true)] "grid_max_d_XY3_d_varphi" (SFloat "grid_max_d_XY3_d_varphi");
  Put [("order_r2p1", true)] "grid_max_d2_XY3_d_varphi2" (SFloat "grid_max_d2_XY3_d_varphi2");
  Put [] "phi" (SVector "nphi_dim" "phi");
  Put [] "curvature" (SVector "nphi_dim" "curvature");
  Put [] "torsion" (SVector "nphi_dim" "torsion");
  Put [] "sigma" (SVector "nphi_dim" "sigma");
  Put [] "X1c" (SVector "nphi_dim" "X1c");
  Put [] "Y1s" (SVector "nphi_dim" "Y1s");
  Put [] "Y1c" (SVector "nphi_dim" "Y1c");
  Put [] "R0c" (SVector "axis_nmax_plus_1_dim" "R0c");
  Put [] "R0s" (SVector "axis_nmax_plus_1_dim" "R0s");
  Put [] "Z0c" (SVector "axis_nmax_plus_1_dim" "Z0c");
  Put [] "Z0s" (SVector "axis_nmax_plus_1_dim" "Z0s");
  Put [] "R0" (SVector "nphi_dim" "R0");
  Put [] "Z0" (SVector "nphi_dim" "Z0");
  Put [] "R0p" (SVector "nphi_dim" "R0p");
  Put [] "Z0p" (SVector "nphi_dim" "Z0p");
  Put [] "R0pp" (SVector "nphi_dim" "R0pp");
  Put [] "Z0pp" (SVector "nphi_dim" "Z0pp");
  Put [] "R0ppp" (SVector "nphi_dim" "R0ppp");
  Put [] "Z0ppp" (SVector "nphi_dim" "Z0ppp");
  Put [] "d_l_d_phi" (SVector "nphi_dim" "d_l_d_phi");
  Put [] "d2_l_d_phi2" (SVector "nphi_dim" "d2_l_d_phi2");
  Put [] "elongation" (SVector "nphi_dim" "elongation");
  Put [] "Boozer_toroidal_angle" (SVector "nphi_dim" "Boozer_toroidal_angle");
  Put [] "L_grad_B" (SVector "nphi_dim" "L_grad_B");
  Put [] "L_grad_B_inverse" (SVector "nphi_dim" "L_grad_B_inverse");
  Put [] "d_X1c_d_varphi" (SVector "nphi_dim" "d_X1c_d_varphi");
  Put [] "d_Y1c_d_varphi" (SVector "nphi_dim" "d_Y1c_d_varphi");
  Put [] "d_Y1s_d_varphi" (SVector "nphi_dim" "d_Y1s_d_varphi");
  Put [("at_least_order_r2", true)] "X20" (SVector "nphi_dim" "X20");
  Put [("at_least_order_r2", true)] "X2s" (SVector "nphi_dim" "X2s");
  Put [("at_least_order_r2", true)] "X2c" (SVector "nphi_dim" "X2c");
  Put [("at_least_order_r2", true)] "Y20" (SVector "nphi_dim" "Y20");
  Put [("at_least_order_r2", true)] "Y2s" (SVector "nphi_dim" "Y2s");
  Put [("at_least_order_r2", true)] "Y2c" (SVector "nphi_dim" "Y2c");
  Put [("at_least_order_r2", true)] "Z20" (SVector "nphi_dim" "Z20");
  Put [("at_least_order_r2", true)] "Z2s" (SVector "nphi_dim" "Z2s");
  Put [("at_least_order_r2", true)] "Z2c" (SVector "nphi_dim" "Z2c");
  Put [("at_least_order_r2", true)] "B20" (SVector "nphi_dim" "B20");
  Put [("at_least_order_r2", true)] "B20_anomaly" (SVector "nphi_dim" "B20_anomaly");
  Put [("at_least_order_r2", true)] "d_X20_d_varphi" (SVector "nphi_dim" "d_X20_d_varphi");
  Put [("at_least_order_r2", true)] "d_X2s_d_varphi" (SVector "nphi_dim" "d_X2s_d_varphi");
  Put [("at_least_order_r2", true)] "d_X2c_d_varphi" (SVector "nphi_dim" "d_X2c_d_varphi");
  Put [("at_least_order_r2", true)] "d_Y20_d_varphi" (SVector "nphi_dim" "d_Y20_d_varphi");
  Put [("at_least_order_r2", true)] "d_Y2s_d_varphi" (SVector "nphi_dim" "d_Y2s_d_varphi");
  Put [("at_least_order_r2", true)] "d_Y2c_d_varphi" (SVector "nphi_dim" "d_Y2c_d_varphi");
  Put [("at_least_order_r2", true)] "d_Z20_d_varphi" (SVector "nphi_dim" "d_Z20_d_varphi");
  Put [("at_least_order_r2", true)] "d_Z2s_d_varphi" (SVector "nphi_dim" "d_Z2s_d_varphi");
  Put [("at_least_order_r2", true)] "d_Z2c_d_varphi" (SVector "nphi_dim" "d_Z2c_d_varphi");
  Put [("at_least_order_r2", true)] "d2_X20_d_varphi2" (SVector "nphi_dim" "d2_X20_d_varphi2");
  Put [("at_least_order_r2", true)] "d2_X2s_d_varphi2" (SVector "nphi_dim" "d2_X2s_d_varphi2");
  Put [("at_least_order_r2", true)] "d2_X2c_d_varphi2" (SVector "nphi_dim" "d2_X2c_d_varphi2");
  Put [("at_least_order_r2", true)] "d2_Y20_d_varphi2" (SVector "nphi_dim" "d2_Y20_d_varphi2");
  Put [("at_least_order_r2", true)] "d2_Y2s_d_varphi2" (SVector "nphi_dim" "d2_Y2s_d_varphi2");
  Put [("at_least_order_r2", true)] "d2_Y2c_d_varphi2" (SVector "nphi_dim" "d2_Y2c_d_varphi2");
  Put [("at_least_order_r2", true)] "d2_Z20_d_varphi2" (SVector "nphi_dim" "d2_Z20_d_varphi2");
  Put [("at_least_order_r2", true)] "d2_Z2s_d_varphi2" (SVector "nphi_dim" "d2_Z2s_d_varphi2");
  Put [("at_least_order_r2", true)] "d2_Z2c_d_varphi2" (SVector "nphi_dim" "d2_Z2c_d_varphi2");
  Put [("at_least_order_r2", true)] "L_grad_grad_B" (SVector "nphi_dim" "L_grad_grad_B");
  Put [("at_least_order_r2", true)] "L_grad_grad_B_inverse" (SVector "nphi_dim" "L_grad_grad_B_inverse");
  Put [("at_least_order_r2", true)] "r_hat_singularity_robust" (SVector "nphi_dim" "r_hat_singularity_robust");
  Put [("order_r2p1", true)] "lambda_for_XY3" (SVector "nphi_dim" "lambda_for_XY3");
  Put [("order_r3", true)] "X3s1" (SVector "nphi_dim" "X3s1");
  Put [("order_r3", true)] "X3s3" (SVector "nphi_dim" "X3s3");
  Put [("order_r3", true)] "X3c1" (SVector "nphi_dim" "X3c1");
  Put [("order_r3", true)] "X3c3" (SVector "nphi_dim" "X3c3");
  Put [("order_r3", true)] "Y3s1" (SVector "nphi_dim" "Y3s1");
  Put [("order_r3", true)] "Y3s3" (SVector "nphi_dim" "Y3s3");
  Put [("order_r3", true)] "Y3c1" (SVector "nphi_dim" "Y3c1");
  Put [("order_r3", true)] "Y3c3" (SVector "nphi_dim" "Y3c3");
  Put [("order_r3", true)] "Z3s1" (SVector "nphi_dim" "Z3s1");
  Put [("order_r3", true)] "Z3s3" (SVector "nphi_dim" "Z3s3");
  Put [("order_r3", true)] "Z3c1" (SVector "nphi_dim" "Z3c1");
  Put [("order_r3", true)] "Z3c3" (SVector "nphi_dim" "Z3c3");
  Put [("order_r3", true)] "d_X3s1_d_varphi" (SVector "nphi_dim" "d_X3s1_d_varphi");
  Put [("order_r3", true)] "d_X3s3_d_varphi" (SVector "nphi_dim" "d_X3s3_d_varphi");
  Put [("order_r3", true)] "d_X3c1_d_varphi" (SVector "nphi_dim" "d_X3c1_d_varphi");
  Put [("order_r3", true)] "d_X3c3_d_varphi" (SVector "nphi_dim" "d_X3c3_d_varphi");
  Put [("order_r3", true)] "d_Y3s1_d_varphi" (SVector "nphi_dim" "d_Y3s1_d_varphi");
  Put [("order_r3", true)] "d_Y3s3_d_varphi" (SVector "nphi_dim" "d_Y3s3_d_varphi");
  Put [("order_r3", true)] "d_Y3c1_d_varphi" (SVector "nphi_dim" "d_Y3c1_d_varphi");
  Put [("order_r3", true)] "d_Y3c3_d_varphi" (SVector "nphi_dim" "d_Y3c3_d_varphi");
  Put [("order_r3", true)] "d2_X3s1_d_varphi2" (SVector "nphi_dim" "d2_X3s1_d_varphi2");
  Put [("order_r3", true)] "d2_X3s3_d_varphi2" (SVector "nphi_dim" "d2_X3s3_d_varphi2");
  Put [("order_r3", true)] "d2_X3c1_d_varphi2" (SVector "nphi_dim" "d2_X3c1_d_varphi2");
  Put [("order_r3", true)] "d2_X3c3_d_varphi2" (SVector "nphi_dim" "d2_X3c3_d_varphi2");
  Put [("order_r3", true)] "d2_Y3s1_d_varphi2" (SVector "nphi_dim" "d2_Y3s1_d_varphi2");
  Put [("order_r3", true)] "d2_Y3s3_d_varphi2" (SVector "nphi_dim" "d2_Y3s3_d_varphi2");
  Put [("order_r3", true)] "d2_Y3c1_d_varphi2" (SVector "nphi_dim" "d2_Y3c1_d_varphi2");
  Put [("order_r3", true)] "d2_Y3c3_d_varphi2" (SVector "nphi_dim" "d2_Y3c3_d_varphi2");
  Put [] "d_d_phi" (SArray ["nphi_dim"; "nphi_dim"] "d_d_phi");
  Put [] "d_d_varphi" (SArray ["nphi_dim"; "nphi_dim"] "d_d_varphi");
  Put [] "grad_B_tensor" (SArray ["nphi_dim"; "nbt_dim"; "nbt_dim"] "grad_B_tensor");
  Put [("at_least_order_r2", true)] "grad_grad_B_tensor" (SArray ["nphi_dim"; "nbt_dim"; "nbt_dim"; "nbt_dim"] "grad_grad_B_tensor")].

(** opt_write_netcdf.cpp lines 19-232. *)
Definition opt_puts : list put := [
  Put [] "n_iter" (SInt "n_iter");
  Put [] "n_evals" (SInt "n_evals");
  Put [] "weight_B20" (SFloat "weight_B20");
  Put [] "weight_iota" (SFloat "weight_iota");
  Put [] "weight_elongation" (SFloat "weight_elongation");
  Put [] "weight_curvature" (SFloat "weight_curvature");
  Put [] "weight_R0" (SFloat "weight_R0");
  Put [] "weight_d2_volume_d_psi2" (SFloat "weight_d2_volume_d_psi2");
  Put [] "max_d2_volume_d_psi2" (SFloat "max_d2_volume_d_psi2");
  Put [] "weight_DMerc_times_r2" (SFloat "weight_DMerc_times_r2");
  Put [] "min_DMerc_times_r2" (SFloat "min_DMerc_times_r2");
  Put [] "weight_XY2" (SFloat "weight_XY2");
  Put [] "weight_XY2Prime" (SFloat "weight_XY2Prime");
  Put [] "weight_XY2PrimePrime" (SFloat "weight_XY2PrimePrime");
  Put [] "weight_Z2" (SFloat "weight_Z2");
  Put [] "weight_Z2Prime" (SFloat "weight_Z2Prime");
  Put [] "weight_XY3" (SFloat "weight_XY3");
  Put [] "weight_XY3Prime" (SFloat "weight_XY3Prime");
  Put [] "weight_XY3PrimePrime" (SFloat "weight_XY3PrimePrime");
  Put [] "weight_grad_B" (SFloat "weight_grad_B");
  Put [] "weight_grad_grad_B" (SFloat "weight_grad_grad_B");
  Put [] "weight_r_singularity" (SFloat "weight_r_singularity");
  Put [] "weight_axis_length" (SFloat "weight_axis_length");
  Put [] "weight_standard_deviation_of_R" (SFloat "weight_standard_deviation_of_R");
  Put [] "weight_B20_mean" (SFloat "weight_B20_mean");
  Put [] "target_iota" (SFloat "target_iota");
  Put [] "min_R0" (SFloat "min_R0");
  Put [] "target_axis_length" (SFloat "target_axis_length");
  Put [] "iter_fourier_refine_step" (SInts "n_iter_dim" "iter_fourier_refine_step");
  Put [] "iter_objective_function" (SVector "n_iter_dim" "iter_objective_function");
  Put [] "iter_B20_term" (SVector "n_iter_dim" "iter_B20_term");
  Put [] "iter_iota_term" (SVector "n_iter_dim" "iter_iota_term");
  Put [] "iter_elongation_term" (SVector "n_iter_dim" "iter_elongation_term");
  Put [] "iter_curvature_term" (SVector "n_iter_dim" "iter_elongation_term");
  Put [] "iter_R0_term" (SVector "n_iter_dim" "iter_R0_term");
  Put [] "iter_d2_volume_d_psi2_term" (SVector "n_iter_dim" "iter_d2_volume_d_psi2_term");
  Put [] "iter_DMerc_times_r2_term" (SVector "n_iter_dim" "iter_DMerc_times_r2_term");
  Put [] "iter_XY2_term" (SVector "n_iter_dim" "iter_XY2_term");
  Put [] "iter_XY2Prime_term" (SVector "n_iter_dim" "iter_XY2Prime_term");
  Put [] "iter_XY2PrimePrime_term" (SVector "n_iter_dim" "iter_XY2PrimePrime_term");
  Put [] "iter_Z2_term" (SVector "n_iter_dim" "iter_Z2_term");
  Put [] "iter_Z2Prime_term" (SVector "n_iter_dim" "iter_Z2Prime_term");
  Put [] "iter_XY3_term" (SVector "n_iter_dim" "iter_XY3_term");
  Put [] "iter_XY3Prime_term" (SVector "n_iter_dim" "iter_XY3Prime_term");
  Put [] "iter_XY3PrimePrime_term" (SVector "n_iter_dim" "iter_XY3PrimePrime_term");
  Put [] "iter_grad_B_term" (SVector "n_iter_dim" "iter_grad_B_term");
  Put [] "iter_grad_grad_B_term" (SVector "n_iter_dim" "iter_grad_grad_B_term");
  Put [] "iter_r_singularity_term" (SVector "n_iter_dim" "iter_r_singularity_term");
  Put [] "iter_axis_length_term" (SVector "n_iter_dim" "iter_axis_length_term");
  Put [] "iter_standard_deviation_of_R_term" (SVector "n_iter_dim" "iter_standard_deviation_of_R_term");
  Put [] "iter_B20_mean_term" (SVector "n_iter_dim" "iter_B20_mean_term");
  Put [] "iter_eta_bar" (SVector "n_iter_dim" "iter_eta_bar");
  Put [] "iter_sigma0" (SVector "n_iter_dim" "iter_sigma0");
  Put [] "iter_B2c" (SVector "n_iter_dim" "iter_B2c");
  Put [] "iter_B2s" (SVector "n_iter_dim" "iter_B2s");
  Put [] "iter_min_R0" (SVector "n_iter_dim" "iter_min_R0");
  Put [] "iter_max_curvature" (SVector "n_iter_dim" "iter_max_curvature");
  Put [] "iter_iota" (SVector "n_iter_dim" "iter_iota");
  Put [] "iter_max_elongation" (SVector "n_iter_dim" "iter_max_elongation");
  Put [] "iter_min_L_grad_B" (SVector "n_iter_dim" "iter_min_L_grad_B");
  Put [] "iter_min_L_grad_grad_B" (SVector "n_iter_dim" "iter_min_L_grad_grad_B");
  Put [] "iter_r_singularity" (SVector "n_iter_dim" "iter_r_singularity");
  Put [] "iter_B20_variation" (SVector "n_iter_dim" "iter_B20_variation");
  Put [] "iter_B20_residual" (SVector "n_iter_dim" "iter_B20_residual");
  Put [] "iter_d2_volume_d_psi2" (SVector "n_iter_dim" "iter_d2_volume_d_psi2");
  Put [] "iter_DMerc_times_r2" (SVector "n_iter_dim" "iter_DMerc_times_r2");
  Put [] "iter_standard_deviation_of_R" (SVector "n_iter_dim" "iter_standard_deviation_of_R");
  Put [] "iter_standard_deviation_of_Z" (SVector "n_iter_dim" "iter_standard_deviation_of_Z");
  Put [] "iter_axis_length" (SVector "n_iter_dim" "iter_axis_length");
  Put [] "iter_R0c" (SArray ["axis_nmax_plus_1_dim"; "n_iter_dim"] "iter_R0c");
  Put [] "iter_R0s" (SArray ["axis_nmax_plus_1_dim"; "n_iter_dim"] "iter_R0s");
  Put [] "iter_Z0c" (SArray ["axis_nmax_plus_1_dim"; "n_iter_dim"] "iter_Z0c");
  Put [] "iter_Z0s" (SArray ["axis_nmax_plus_1_dim"; "n_iter_dim"] "iter_Z0s")].

(** scan_write_netcdf.cpp lines 30-168. *)
Definition scan_puts : list put := [
  Put [] "general_option" (SLit "random");
  Put [] "at_least_order_r2" (SFlag "q.at_least_order_r2");
  Put [] "order_r_option" (SText "q.order_r_option");
  Put [] "nfp" (SInt "q.nfp");
  Put [] "nphi" (SInt "q.nphi");
  Put [] "eta_bar_scan_option" (SText "eta_bar_scan_option");
  Put [] "sigma0_scan_option" (SText "sigma0_scan_option");
  Put [] "fourier_scan_option" (SText "fourier_scan_option");
  Put [("q.at_least_order_r2", true)] "B2c_scan_option" (SText "B2c_scan_option");
  Put [("q.at_least_order_r2", true)] "B2s_scan_option" (SText "B2s_scan_option");
  Put [("q.at_least_order_r2", true)] "p2_scan_option" (SText "p2_scan_option");
  Put [] "eta_bar_min" (SFloat "eta_bar_min");
  Put [] "eta_bar_max" (SFloat "eta_bar_max");
  Put [] "sigma0_min" (SFloat "sigma0_min");
  Put [] "sigma0_max" (SFloat "sigma0_max");
  Put [("q.at_least_order_r2", true)] "B2c_min" (SFloat "B2c_min");
  Put [("q.at_least_order_r2", true)] "B2c_max" (SFloat "B2c_max");
  Put [("q.at_least_order_r2", true)] "B2s_min" (SFloat "B2s_min");
  Put [("q.at_least_order_r2", true)] "B2s_max" (SFloat "B2s_max");
  Put [("q.at_least_order_r2", true)] "p2_min" (SFloat "p2_min");
  Put [("q.at_least_order_r2", true)] "p2_max" (SFloat "p2_max");
  Put [] "n_scan" (SBigInt "n_scan");
  Put [] "attempts" (SBig "filters[ATTEMPTS]");
  Put [] "n_sigma_eq_solves" (SBig "filters[N_SIGMA_EQ_SOLVES]");
  Put [] "n_r2_solves" (SBig "filters[N_R2_SOLVES]");
  Put [] "rejected_due_to_R0_crude" (SBig "filters[REJECTED_DUE_TO_R0_CRUDE]");
  Put [] "rejected_due_to_R0" (SBig "filters[REJECTED_DUE_TO_R0]");
  Put [] "rejected_due_to_helicity" (SBig "filters[REJECTED_DUE_TO_HELICITY]");
  Put [] "rejected_due_to_curvature" (SBig "filters[REJECTED_DUE_TO_CURVATURE]");
  Put [] "rejected_due_to_iota" (SBig "filters[REJECTED_DUE_TO_IOTA]");
  Put [] "rejected_due_to_elongation" (SBig "filters[REJECTED_DUE_TO_ELONGATION]");
  Put [] "rejected_due_to_L_grad_B" (SBig "filters[REJECTED_DUE_TO_L_GRAD_B]");
  Put [] "rejected_due_to_B20_variation" (SBig "filters[REJECTED_DUE_TO_B20_VARIATION]");
  Put [] "rejected_due_to_L_grad_grad_B" (SBig "filters[REJECTED_DUE_TO_L_GRAD_GRAD_B]");
  Put [] "rejected_due_to_d2_volume_d_psi2" (SBig "filters[REJECTED_DUE_TO_D2_VOLUME_D_PSI2]");
  Put [] "rejected_due_to_DMerc" (SBig "filters[REJECTED_DUE_TO_DMERC]");
  Put [] "rejected_due_to_r_singularity" (SBig "filters[REJECTED_DUE_TO_R_SINGULARITY]");
  Put [] "rejected_due_to_beta" (SBig "filters[REJECTED_DUE_TO_BETA]");
  Put [] "fraction_kept" (SFloat "filter_fractions[KEPT]");
  Put [] "fraction_sigma_eq_solves" (SFloat "filter_fractions[N_SIGMA_EQ_SOLVES]");
  Put [] "fraction_r2_solves" (SFloat "filter_fractions[N_R2_SOLVES]");
  Put [] "fraction_rejected_due_to_R0_crude" (SFloat "filter_fractions[REJECTED_DUE_TO_R0_CRUDE]");
  Put [] "fraction_rejected_due_to_R0" (SFloat "filter_fractions[REJECTED_DUE_TO_R0]");
  Put [] "fraction_rejected_due_to_curvature" (SFloat "filter_fractions[REJECTED_DUE_TO_CURVATURE]");
  Put [] "fraction_rejected_due_to_iota" (SFloat "filter_fractions[REJECTED_DUE_TO_IOTA]");
  Put [] "fraction_rejected_due_to_elongation" (SFloat "filter_fractions[REJECTED_DUE_TO_ELONGATION]");
  Put [] "fraction_rejected_due_to_L_grad_B" (SFloat "filter_fractions[REJECTED_DUE_TO_L_GRAD_B]");
  Put [] "fraction_rejected_due_to_B20_variation" (SFloat "filter_fractions[REJECTED_DUE_TO_B20_VARIATION]");
  Put [] "fraction_rejected_due_to_L_grad_grad_B" (SFloat "filter_fractions[REJECTED_DUE_TO_L_GRAD_GRAD_B]");
  Put [] "fraction_rejected_due_to_d2_volume_d_psi2" (SFloat "filter_fractions[REJECTED_DUE_TO_D2_VOLUME_D_PSI2]");
  Put [] "fraction_rejected_due_to_DMerc" (SFloat "filter_fractions[REJECTED_DUE_TO_DMERC]");
  Put [] "fraction_rejected_due_to_r_singularity" (SFloat "filter_fractions[REJECTED_DUE_TO_R_SINGULARITY]");
  Put [] "keep_all" (SFlag "keep_all");
  Put [] "deterministic" (SFlag "deterministic");
  Put [("keep_all", false)] "min_R0_to_keep" (SFloat "min_R0_to_keep");
  Put [("keep_all", false)] "helicity_to_keep" (SInt "helicity_to_keep");
  Put [("keep_all", false)] "min_iota_to_keep" (SFloat "min_iota_to_keep");
  Put [("keep_all", false)] "max_elongation_to_keep" (SFloat "max_elongation_to_keep");
  Put [("keep_all", false)] "min_L_grad_B_to_keep" (SFloat "min_L_grad_B_to_keep");
  Put [("keep_all", false); ("q.at_least_order_r2", true)] "min_L_grad_grad_B_to_keep" (SFloat "min_L_grad_grad_B_to_keep");
  Put [("keep_all", false); ("q.at_least_order_r2", true)] "max_B20_variation_to_keep" (SFloat "max_B20_variation_to_keep");
  Put [("keep_all", false); ("q.at_least_order_r2", true)] "min_r_singularity_to_keep" (SFloat "min_r_singularity_to_keep");
  Put [("keep_all", false); ("q.at_least_order_r2", true)] "max_d2_volume_d_psi2_to_keep" (SFloat "max_d2_volume_d_psi2_to_keep");
  Put [("keep_all", false); ("q.at_least_order_r2", true)] "min_DMerc_times_r2_to_keep" (SFloat "min_DMerc_times_r2_to_keep");
  Put [] "max_newton_iterations" (SInt "q.max_newton_iterations");
  Put [] "max_linesearch_iterations" (SInt "q.max_linesearch_iterations");
  Put [] "newton_tolerance" (SFloat "q.newton_tolerance");
  Put [] "I2" (SFloat "q.I2");
  Put [] "d_phi" (SFloat "q.d_phi");
  Put [] "B0" (SFloat "q.B0");
  Put [] "sG" (SInt "q.sG");
  Put [] "spsi" (SInt "q.spsi");
  Put [("q.at_least_order_r2", true)] "p2" (SFloat "q.p2");
  Put [] "R0c_min" (SVector "axis_nmax_plus_1_dim" "R0c_min");
  Put [] "R0c_max" (SVector "axis_nmax_plus_1_dim" "R0c_max");
  Put [] "R0s_min" (SVector "axis_nmax_plus_1_dim" "R0s_min");
  Put [] "R0s_max" (SVector "axis_nmax_plus_1_dim" "R0s_max");
  Put [] "Z0c_min" (SVector "axis_nmax_plus_1_dim" "Z0c_min");
  Put [] "Z0c_max" (SVector "axis_nmax_plus_1_dim" "Z0c_max");
  Put [] "Z0s_min" (SVector "axis_nmax_plus_1_dim" "Z0s_min");
  Put [] "Z0s_max" (SVector "axis_nmax_plus_1_dim" "Z0s_max");
  Put [] "phi" (SVector "nphi_dim" "q.phi");
  Put [] "scan_eta_bar" (SVector "n_scan_dim" "scan_eta_bar");
  Put [] "scan_sigma0" (SVector "n_scan_dim" "scan_sigma0");
  Put [("q.at_least_order_r2", true)] "scan_B2c" (SVector "n_scan_dim" "scan_B2c");
  Put [("q.at_least_order_r2", true)] "scan_B2s" (SVector "n_scan_dim" "scan_B2s");
  Put [("q.at_least_order_r2", true)] "scan_p2" (SVector "n_scan_dim" "scan_p2");
  Put [] "scan_axis_length" (SVector "n_scan_dim" "scan_axis_length");
  Put [] "scan_iota" (SVector "n_scan_dim" "scan_iota");
  Put [] "scan_min_R0" (SVector "n_scan_dim" "scan_min_R0");
  Put [] "scan_max_curvature" (SVector "n_scan_dim" "scan_max_curvature");
  Put [] "scan_max_elongation" (SVector "n_scan_dim" "scan_max_elongation");
  Put [] "scan_min_L_grad_B" (SVector "n_scan_dim" "scan_min_L_grad_B");
  Put [] "scan_helicity" (SInts "n_scan_dim" "scan_helicity");
  Put [] "scan_standard_deviation_of_R" (SVector "n_scan_dim" "scan_standard_deviation_of_R");
  Put [] "scan_standard_deviation_of_Z" (SVector "n_scan_dim" "scan_standard_deviation_of_Z");
  Put [("q.at_least_order_r2", true)] "scan_min_L_grad_grad_B" (SVector "n_scan_dim" "scan_min_L_grad_grad_B");
  Put [("q.at_least_order_r2", true)] "scan_B20_variation" (SVector "n_scan_dim" "scan_B20_variation");
  Put [("q.at_least_order_r2", true)] "scan_B20_residual" (SVector "n_scan_dim" "scan_B20_residual");
  Put [("q.at_least_order_r2", true)] "scan_r_singularity" (SVector "n_scan_dim" "scan_r_singularity");
  Put [("q.at_least_order_r2", true)] "scan_d2_volume_d_psi2" (SVector "n_scan_dim" "scan_d2_volume_d_psi2");
  Put [("q.at_least_order_r2", true)] "scan_DMerc_times_r2" (SVector "n_scan_dim" "scan_DMerc_times_r2");
  Put [("q.at_least_order_r2", true)] "scan_beta" (SVector "n_scan_dim" "scan_beta");
  Put [] "scan_R0c" (SArray ["axis_nmax_plus_1_dim"; "n_scan_dim"] "scan_R0c");
  Put [] "scan_R0s" (SArray ["axis_nmax_plus_1_dim"; "n_scan_dim"] "scan_R0s");
  Put [] "scan_Z0c" (SArray ["axis_nmax_plus_1_dim"; "n_scan_dim"] "scan_Z0c");
  Put [] "scan_Z0s" (SArray ["axis_nmax_plus_1_dim"; "n_scan_dim"] "scan_Z0s")].

(** multiopt_scan_write_netcdf.cpp lines 30-177. *)
Definition multiopt_scan_puts : list put := [
  Put [] "general_option" (SLit "multiopt_scan");
  Put [] "nfp" (SInt "mo_ref.opts[0].q.nfp");
  Put [] "n_scan" (SInt "n_scan");
  Put [] "n_evals" (SBig "n_evals");
  Put [] "attempts" (SInt "filters[ATTEMPTS]");
  Put [] "rejected_due_to_R0" (SInt "filters[REJECTED_DUE_TO_R0]");
  Put [] "rejected_due_to_iota" (SInt "filters[REJECTED_DUE_TO_IOTA]");
  Put [] "rejected_due_to_elongation" (SInt "filters[REJECTED_DUE_TO_ELONGATION]");
  Put [] "rejected_due_to_L_grad_B" (SInt "filters[REJECTED_DUE_TO_L_GRAD_B]");
  Put [] "rejected_due_to_B20_variation" (SInt "filters[REJECTED_DUE_TO_B20_VARIATION]");
  Put [] "rejected_due_to_L_grad_grad_B" (SInt "filters[REJECTED_DUE_TO_L_GRAD_GRAD_B]");
  Put [] "rejected_due_to_d2_volume_d_psi2" (SInt "filters[REJECTED_DUE_TO_D2_VOLUME_D_PSI2]");
  Put [] "rejected_due_to_DMerc" (SInt "filters[REJECTED_DUE_TO_DMERC]");
  Put [] "rejected_due_to_r_singularity" (SInt "filters[REJECTED_DUE_TO_R_SINGULARITY]");
  Put [] "rejected_due_to_max_XY2" (SInt "filters[REJECTED_DUE_TO_MAX_XY2]");
  Put [] "rejected_due_to_max_Z2" (SInt "filters[REJECTED_DUE_TO_MAX_Z2]");
  Put [] "rejected_due_to_max_XY3" (SInt "filters[REJECTED_DUE_TO_MAX_XY3]");
  Put [] "rejected_due_to_max_d_XY2_d_varphi" (SInt "filters[REJECTED_DUE_TO_MAX_D_XY2_D_VARPHI]");
  Put [] "rejected_due_to_max_d_Z2_d_varphi" (SInt "filters[REJECTED_DUE_TO_MAX_D_Z2_D_VARPHI]");
  Put [] "rejected_due_to_max_d_XY3_d_varphi" (SInt "filters[REJECTED_DUE_TO_MAX_D_XY3_D_VARPHI]");
  Put [] "fraction_kept" (SFloat "filter_fractions[KEPT]");
  Put [] "fraction_rejected_due_to_R0" (SFloat "filter_fractions[REJECTED_DUE_TO_R0]");
  Put [] "fraction_rejected_due_to_iota" (SFloat "filter_fractions[REJECTED_DUE_TO_IOTA]");
  Put [] "fraction_rejected_due_to_elongation" (SFloat "filter_fractions[REJECTED_DUE_TO_ELONGATION]");
  Put [] "fraction_rejected_due_to_L_grad_B" (SFloat "filter_fractions[REJECTED_DUE_TO_L_GRAD_B]");
  Put [] "fraction_rejected_due_to_B20_variation" (SFloat "filter_fractions[REJECTED_DUE_TO_B20_VARIATION]");
  Put [] "fraction_rejected_due_to_L_grad_grad_B" (SFloat "filter_fractions[REJECTED_DUE_TO_L_GRAD_GRAD_B]");
  Put [] "fraction_rejected_due_to_d2_volume_d_psi2" (SFloat "filter_fractions[REJECTED_DUE_TO_D2_VOLUME_D_PSI2]");
  Put [] "fraction_rejected_due_to_DMerc" (SFloat "filter_fractions[REJECTED_DUE_TO_DMERC]");
  Put [] "fraction_rejected_due_to_r_singularity" (SFloat "filter_fractions[REJECTED_DUE_TO_R_SINGULARITY]");
  Put [] "fraction_rejected_due_to_max_XY2" (SFloat "filter_fractions[REJECTED_DUE_TO_MAX_XY2]");
  Put [] "fraction_rejected_due_to_max_Z2" (SFloat "filter_fractions[REJECTED_DUE_TO_MAX_Z2]");
  Put [] "fraction_rejected_due_to_max_XY3" (SFloat "filter_fractions[REJECTED_DUE_TO_MAX_XY3]");
  Put [] "fraction_rejected_due_to_max_d_XY2_d_varphi" (SFloat "filter_fractions[REJECTED_DUE_TO_MAX_D_XY2_D_VARPHI]");
  Put [] "fraction_rejected_due_to_max_d_Z2_d_varphi" (SFloat "filter_fractions[REJECTED_DUE_TO_MAX_D_Z2_D_VARPHI]");
  Put [] "fraction_rejected_due_to_max_d_XY3_d_varphi" (SFloat "filter_fractions[REJECTED_DUE_TO_MAX_D_XY3_D_VARPHI]");
  Put [] "keep_all" (SFlag "keep_all");
  Put [("keep_all", false)] "min_R0_to_keep" (SFloat "min_R0_to_keep");
  Put [("keep_all", false)] "min_iota_to_keep" (SFloat "min_iota_to_keep");
  Put [("keep_all", false)] "max_elongation_to_keep" (SFloat "max_elongation_to_keep");
  Put [("keep_all", false)] "min_L_grad_B_to_keep" (SFloat "min_L_grad_B_to_keep");
  Put [("keep_all", false)] "min_L_grad_grad_B_to_keep" (SFloat "min_L_grad_grad_B_to_keep");
  Put [("keep_all", false)] "max_B20_variation_to_keep" (SFloat "max_B20_variation_to_keep");
  Put [("keep_all", false)] "min_r_singularity_to_keep" (SFloat "min_r_singularity_to_keep");
  Put [("keep_all", false)] "max_d2_volume_d_psi2_to_keep" (SFloat "max_d2_volume_d_psi2_to_keep");
  Put [("keep_all", false)] "min_DMerc_times_r2_to_keep" (SFloat "min_DMerc_times_r2_to_keep");
  Put [("keep_all", false)] "max_XY2_to_keep" (SFloat "max_XY2_to_keep");
  Put [("keep_all", false)] "max_Z2_to_keep" (SFloat "max_Z2_to_keep");
  Put [("keep_all", false)] "max_XY3_to_keep" (SFloat "max_XY3_to_keep");
  Put [("keep_all", false)] "max_d_XY2_d_varphi_to_keep" (SFloat "max_d_XY2_d_varphi_to_keep");
  Put [("keep_all", false)] "max_d_Z2_d_varphi_to_keep" (SFloat "max_d_Z2_d_varphi_to_keep");
  Put [("keep_all", false)] "max_d_XY3_d_varphi_to_keep" (SFloat "max_d_XY3_d_varphi_to_keep");
  Put [] "max_newton_iterations" (SInt "mo_ref.opts[0].q.max_newton_iterations");
  Put [] "max_linesearch_iterations" (SInt "mo_ref.opts[0].q.max_linesearch_iterations");
  Put [] "newton_tolerance" (SFloat "mo_ref.opts[0].q.newton_tolerance");
  Put [] "I2" (SFloat "mo_ref.opts[0].q.I2");
  Put [] "B0" (SFloat "mo_ref.opts[0].q.B0");
  Put [] "sG" (SInt "mo_ref.opts[0].q.sG");
  Put [] "spsi" (SInt "mo_ref.opts[0].q.spsi");
  Put [] "p2" (SFloat "mo_ref.opts[0].q.p2");
  Put [] "scan_eta_bar" (SVector "n_scan_dim" "scan_eta_bar");
  Put [] "scan_sigma0" (SVector "n_scan_dim" "scan_sigma0");
  Put [] "scan_B2c" (SVector "n_scan_dim" "scan_B2c");
  Put [] "scan_B2s" (SVector "n_scan_dim" "scan_B2s");
  Put [] "scan_iota" (SVector "n_scan_dim" "scan_iota");
  Put [] "scan_min_R0" (SVector "n_scan_dim" "scan_min_R0");
  Put [] "scan_max_curvature" (SVector "n_scan_dim" "scan_max_curvature");
  Put [] "scan_max_elongation" (SVector "n_scan_dim" "scan_max_elongation");
  Put [] "scan_min_L_grad_B" (SVector "n_scan_dim" "scan_min_L_grad_B");
  Put [] "scan_helicity" (SInts "n_scan_dim" "scan_helicity");
  Put [] "scan_n_evals" (SInts "n_scan_dim" "scan_n_evals");
  Put [] "scan_standard_deviation_of_R" (SVector "n_scan_dim" "scan_standard_deviation_of_R");
  Put [] "scan_standard_deviation_of_Z" (SVector "n_scan_dim" "scan_standard_deviation_of_Z");
  Put [] "scan_min_L_grad_grad_B" (SVector "n_scan_dim" "scan_min_L_grad_grad_B");
  Put [] "scan_B20_variation" (SVector "n_scan_dim" "scan_B20_variation");
  Put [] "scan_B20_residual" (SVector "n_scan_dim" "scan_B20_residual");
  Put [] "scan_B20_mean" (SVector "n_scan_dim" "scan_B20_mean");
  Put [] "scan_r_singularity" (SVector "n_scan_dim" "scan_r_singularity");
  Put [] "scan_d2_volume_d_psi2" (SVector "n_scan_dim" "scan_d2_volume_d_psi2");
  Put [] "scan_DMerc_times_r2" (SVector "n_scan_dim" "scan_DMerc_times_r2");
  Put [] "scan_max_XY2" (SVector "n_scan_dim" "scan_max_XY2");
  Put [] "scan_max_Z2" (SVector "n_scan_dim" "scan_max_Z2");
  Put [] "scan_max_d_XY2_d_varphi" (SVector "n_scan_dim" "scan_max_d_XY2_d_varphi");
  Put [] "scan_max_d2_XY2_d_varphi2" (SVector "n_scan_dim" "scan_max_d2_XY2_d_varphi2");
  Put [] "scan_max_d_Z2_d_varphi" (SVector "n_scan_dim" "scan_max_d_Z2_d_varphi");
  Put [] "scan_max_XY3" (SVector "n_scan_dim" "scan_max_XY3");
  Put [] "scan_max_d_XY3_d_varphi" (SVector "n_scan_dim" "scan_max_d_XY3_d_varphi");
  Put [] "scan_max_d2_XY3_d_varphi2" (SVector "n_scan_dim" "scan_max_d2_XY3_d_varphi2");
  Put [] "scan_axis_length" (SVector "n_scan_dim" "scan_axis_length");
  Put [] "scan_p2" (SVector "n_scan_dim" "scan_p2");
  Put [] "scan_initial_eta_bar" (SVector "n_scan_dim" "scan_initial_eta_bar");
  Put [] "scan_initial_B2c" (SVector "n_scan_dim" "scan_initial_B2c");
  Put [] "scan_initial_B2s" (SVector "n_scan_dim" "scan_initial_B2s");
  Put [] "scan_weight_B20" (SVector "n_scan_dim" "scan_weight_B20");
  Put [] "scan_weight_iota" (SVector "n_scan_dim" "scan_weight_iota");
  Put [] "scan_target_iota" (SVector "n_scan_dim" "scan_target_iota");
  Put [] "scan_weight_elongation" (SVector "n_scan_dim" "scan_weight_elongation");
  Put [] "scan_weight_curvature" (SVector "n_scan_dim" "scan_weight_curvature");
  Put [] "scan_weight_R0" (SVector "n_scan_dim" "scan_weight_R0");
  Put [] "scan_target_min_R0" (SVector "n_scan_dim" "scan_target_min_R0");
  Put [] "scan_weight_d2_volume_d_psi2" (SVector "n_scan_dim" "scan_weight_d2_volume_d_psi2");
  Put [] "scan_max_d2_volume_d_psi2" (SVector "n_scan_dim" "scan_max_d2_volume_d_psi2");
  Put [] "scan_weight_DMerc_times_r2" (SVector "n_scan_dim" "scan_weight_DMerc_times_r2");
  Put [] "scan_min_DMerc_times_r2" (SVector "n_scan_dim" "scan_min_DMerc_times_r2");
  Put [] "scan_weight_XY2" (SVector "n_scan_dim" "scan_weight_XY2");
  Put [] "scan_weight_XY2Prime" (SVector "n_scan_dim" "scan_weight_XY2Prime");
  Put [] "scan_weight_XY2PrimePrime" (SVector "n_scan_dim" "scan_weight_XY2PrimePrime");
  Put [] "scan_weight_Z2" (SVector "n_scan_dim" "scan_weight_Z2");
  Put [] "scan_weight_Z2Prime" (SVector "n_scan_dim" "scan_weight_Z2Prime");
  Put [] "scan_weight_XY3" (SVector "n_scan_dim" "scan_weight_XY3");
  Put [] "scan_weight_XY3Prime" (SVector "n_scan_dim" "scan_weight_XY3Prime");
  Put [] "scan_weight_XY3PrimePrime" (SVector "n_scan_dim" "scan_weight_XY3PrimePrime");
  Put [] "scan_weight_grad_B" (SVector "n_scan_dim" "scan_weight_grad_B");
  Put [] "scan_weight_grad_grad_B" (SVector "n_scan_dim" "scan_weight_grad_grad_B");
  Put [] "scan_weight_r_singularity" (SVector "n_scan_dim" "scan_weight_r_singularity");
  Put [] "scan_weight_axis_length" (SVector "n_scan_dim" "scan_weight_axis_length");
  Put [] "scan_target_axis_length" (SVector "n_scan_dim" "scan_target_axis_length");
  Put [] "scan_weight_standard_deviation_of_R" (SVector "n_scan_dim" "scan_weight_standard_deviation_of_R");
  Put [] "scan_weight_B20_mean" (SVector "n_scan_dim" "scan_weight_B20_mean");
  Put [] "scan_R0c" (SArray ["axis_nmax_plus_1_dim"; "n_scan_dim"] "scan_R0c");
  Put [] "scan_R0s" (SArray ["axis_nmax_plus_1_dim"; "n_scan_dim"] "scan_R0s");
  Put [] "scan_Z0c" (SArray ["axis_nmax_plus_1_dim"; "n_scan_dim"] "scan_Z0c");
  Put [] "scan_Z0s" (SArray ["axis_nmax_plus_1_dim"; "n_scan_dim"] "scan_Z0s");
  Put [] "scan_initial_R0c" (SArray ["axis_nmax_plus_1_dim"; "n_scan_dim"] "scan_initial_R0c");
  Put [] "scan_initial_R0s" (SArray ["axis_nmax_plus_1_dim"; "n_scan_dim"] "scan_initial_R0s");
  Put [] "scan_initial_Z0c" (SArray ["axis_nmax_plus_1_dim"; "n_scan_dim"] "scan_initial_Z0c");
  Put [] "scan_initial_Z0s" (SArray ["axis_nmax_plus_1_dim"; "n_scan_dim"] "scan_initial_Z0s")].

(** read_netcdf.cpp lines 204-317, without the flags and nphi. *)
Definition qsc_gets : list get := [
  Get [] "nfp" (TInt "nfp");
  Get [] "eta_bar" (TFloat "eta_bar");
  Get [] "sigma0" (TFloat "sigma0");
  Get [] "I2" (TFloat "I2");
  Get [] "d_phi" (TFloat "d_phi");
  Get [] "B0" (TFloat "B0");
  Get [] "G0" (TFloat "G0");
  Get [] "sG" (TInt "sG");
  Get [] "spsi" (TInt "spsi");
  Get [] "axis_length" (TFloat "axis_length");
  Get [] "d_l_d_varphi" (TFloat "d_l_d_varphi");
  Get [] "B0_over_abs_G0" (TFloat "B0_over_abs_G0");
  Get [] "abs_G0_over_B0" (TFloat "abs_G0_over_B0");
  Get [] "helicity" (TInt "helicity");
  Get [] "rms_curvature" (TFloat "rms_curvature");
  Get [] "grid_max_curvature" (TFloat "grid_max_curvature");
  Get [] "grid_max_elongation" (TFloat "grid_max_elongation");
  Get [] "grid_min_R0" (TFloat "grid_min_R0");
  Get [] "grid_min_L_grad_B" (TFloat "grid_min_L_grad_B");
  Get [] "mean_elongation" (TFloat "mean_elongation");
  Get [] "mean_R" (TFloat "mean_R");
  Get [] "mean_Z" (TFloat "mean_Z");
  Get [] "standard_deviation_of_R" (TFloat "standard_deviation_of_R");
  Get [] "standard_deviation_of_Z" (TFloat "standard_deviation_of_Z");
  Get [] "max_newton_iterations" (TInt "max_newton_iterations");
  Get [] "max_linesearch_iterations" (TInt "max_linesearch_iterations");
  Get [] "newton_tolerance" (TFloat "newton_tolerance");
  Get [] "iota" (TFloat "iota");
  Get [] "iota_N" (TFloat "iota_N");
  Get [("at_least_order_r2", true)] "B2c" (TFloat "B2c");
  Get [("at_least_order_r2", true)] "B2s" (TFloat "B2s");
  Get [("at_least_order_r2", true)] "p2" (TFloat "p2");
  Get [("at_least_order_r2", true)] "G2" (TFloat "G2");
  Get [("at_least_order_r2", true)] "beta_1s" (TFloat "beta_1s");
  Get [("at_least_order_r2", true)] "B20_mean" (TFloat "B20_mean");
  Get [("at_least_order_r2", true)] "B20_residual" (TFloat "B20_residual");
  Get [("at_least_order_r2", true)] "B20_grid_variation" (TFloat "B20_grid_variation");
  Get [("at_least_order_r2", true)] "d2_volume_d_psi2" (TFloat "d2_volume_d_psi2");
  Get [("at_least_order_r2", true)] "DWell_times_r2" (TFloat "DWell_times_r2");
  Get [("at_least_order_r2", true)] "DGeod_times_r2" (TFloat "DGeod_times_r2");
  Get [("at_least_order_r2", true)] "DMerc_times_r2" (TFloat "DMerc_times_r2");
  Get [("at_least_order_r2", true)] "grid_min_L_grad_grad_B" (TFloat "grid_min_L_grad_grad_B");
  Get [("at_least_order_r2", true)] "r_singularity_robust" (TFloat "r_singularity_robust");
  Get [] "phi" (TVector "phi");
  Get [] "curvature" (TVector "curvature");
  Get [] "torsion" (TVector "torsion");
  Get [] "sigma" (TVector "sigma");
  Get [] "X1c" (TVector "X1c");
  Get [] "Y1c" (TVector "Y1c");
  Get [] "Y1s" (TVector "Y1s");
  Get [] "R0" (TVector "R0");
  Get [] "Z0" (TVector "Z0");
  Get [] "d_l_d_phi" (TVector "d_l_d_phi");
  Get [] "d2_l_d_phi2" (TVector "d2_l_d_phi2");
  Get [] "elongation" (TVector "elongation");
  Get [] "Boozer_toroidal_angle" (TVector "Boozer_toroidal_angle");
  Get [] "L_grad_B" (TVector "L_grad_B");
  Get [] "L_grad_B_inverse" (TVector "L_grad_B_inverse");
  Get [] "d_X1c_d_varphi" (TVector "d_X1c_d_varphi");
  Get [] "d_Y1c_d_varphi" (TVector "d_Y1c_d_varphi");
  Get [] "d_Y1s_d_varphi" (TVector "d_Y1s_d_varphi");
  Get [("at_least_order_r2", true)] "X20" (TVector "X20");
  Get [("at_least_order_r2", true)] "X2s" (TVector "X2s");
  Get [("at_least_order_r2", true)] "X2c" (TVector "X2c");
  Get [("at_least_order_r2", true)] "Y20" (TVector "Y20");
  Get [("at_least_order_r2", true)] "Y2s" (TVector "Y2s");
  Get [("at_least_order_r2", true)] "Y2c" (TVector "Y2c");
  Get [("at_least_order_r2", true)] "Z20" (TVector "Z20");
  Get [("at_least_order_r2", true)] "Z2s" (TVector "Z2s");
  Get [("at_least_order_r2", true)] "Z2c" (TVector "Z2c");
  Get [("at_least_order_r2", true)] "B20" (TVector "B20");
  Get [("at_least_order_r2", true)] "B20_anomaly" (TVector "B20_anomaly");
  Get [("at_least_order_r2", true)] "d_X20_d_varphi" (TVector "d_X20_d_varphi");
  Get [("at_least_order_r2", true)] "d_X2s_d_varphi" (TVector "d_X2s_d_varphi");
  Get [("at_least_order_r2", true)] "d_X2c_d_varphi" (TVector "d_X2c_d_varphi");
  Get [("at_least_order_r2", true)] "d_Y20_d_varphi" (TVector "d_Y20_d_varphi");
  Get [("at_least_order_r2", true)] "d_Y2s_d_varphi" (TVector "d_Y2s_d_varphi");
  Get [("at_least_order_r2", true)] "d_Y2c_d_varphi" (TVector "d_Y2c_d_varphi");
  Get [("at_least_order_r2", true)] "d_Z20_d_varphi" (TVector "d_Z20_d_varphi");
  Get [("at_least_order_r2", true)] "d_Z2s_d_varphi" (TVector "d_Z2s_d_varphi");
  Get [("at_least_order_r2", true)] "d_Z2c_d_varphi" (TVector "d_Z2c_d_varphi");
  Get [("at_least_order_r2", true)] "L_grad_grad_B" (TVector "L_grad_grad_B");
  Get [("at_least_order_r2", true)] "L_grad_grad_B_inverse" (TVector "L_grad_grad_B_inverse");
  Get [("at_least_order_r2", true)] "r_hat_singularity_robust" (TVector "r_hat_singularity_robust");
  Get [("order_r3", true)] "X3s1" (TVector "X3s1");
  Get [("order_r3", true)] "X3s3" (TVector "X3s3");
  Get [("order_r3", true)] "X3c1" (TVector "X3c1");
  Get [("order_r3", true)] "X3c3" (TVector "X3c3");
  Get [("order_r3", true)] "Y3s1" (TVector "Y3s1");
  Get [("order_r3", true)] "Y3s3" (TVector "Y3s3");
  Get [("order_r3", true)] "Y3c1" (TVector "Y3c1");
  Get [("order_r3", true)] "Y3c3" (TVector "Y3c3")].

(** The dimensions: qsc_write_netcdf.cpp lines 17-19, opt_write_netcdf.cpp lines 15-16, scan_write_netcdf.cpp lines 24-26,
    multiopt_scan_write_netcdf.cpp lines 25-26. *)
Definition qsc_dims : list dim_stmt :=
  [Dim "nphi_dim" "nphi" (ZInt "nphi"); Dim "axis_nmax_plus_1_dim" "axis_nmax_plus_1" (ZArray "R0c"); Dim "nbt_dim" "normal_binormal_tangent" (ZLit 3)].
Definition opt_dims : list dim_stmt := [GetDim "axis_nmax_plus_1_dim" "axis_nmax_plus_1"; Dim "n_iter_dim" "n_iter" (ZInt "n_iter")].
Definition scan_dims : list dim_stmt :=
  [Dim "nphi_dim" "nphi" (ZInt "q.nphi"); Dim "axis_nmax_plus_1_dim" "axis_nmax_plus_1" (ZArray "R0c_max"); Dim "n_scan_dim" "n_scan" (ZBig "n_scan")].
Definition multiopt_scan_dims : list dim_stmt :=
  [Dim "axis_nmax_plus_1_dim" "axis_nmax_plus_1" (ZInt "axis_nmax_plus_1"); Dim "n_scan_dim" "n_scan" (ZInt "n_scan")].

Section Out.
Variable F : Type.
Variable zero : F.
Variable to_int : F -> Z.
Variable of_int : Z -> F.

(** The members of an object, by name: numbers, flags, strings, arrays (of one or more dimensions, as stored). *)
Record members := mkMembers { m_int : string -> Z; m_flag : string -> bool; m_float : string -> F; m_big : string -> Z; m_text : string -> string;
  m_ints : string -> list Z; m_array : string -> list F }.

(** Conversion of an unsigned long long to int (modulo 2^32). *)
Definition int_of_big (z : Z) : Z := ((z + 2147483648) mod 4294967296 - 2147483648)%Z.
Definition dim_size (e : members) (s : size) : Z :=
  match s with ZInt x => m_int e x | ZBig x => int_of_big (m_big e x) | ZArray x => Z.of_nat (length (m_array e x)) | ZLit n => n end.
Definition active (e : members) (when : list (string * bool)) : bool := forallb (fun c => Bool.eqb (m_flag e (fst c)) (snd c)) when.

Definition dim_vars := list (string * nat).
Definition run_dim (e : members) (st : dim_vars * writer F) (d : dim_stmt) : outcome (dim_vars * writer F) :=
  match d with
  | Dim x name s => do p <- dim F (snd st) name (dim_size e s); Ok ((x, fst p) :: fst st, snd p)
  | GetDim x name => do i <- get_dim F (snd st) name; Ok ((x, i) :: fst st, snd st)
  end.
Fixpoint run_dims (e : members) (st : dim_vars * writer F) (l : list dim_stmt) : outcome (dim_vars * writer F) :=
  match l with [] => Ok st | d :: l' => do st <- run_dim e st d; run_dims e st l' end.
Fixpoint dim_id (ds : dim_vars) (x : string) : outcome nat :=
  match ds with [] => UB "uninitialised variable" | (y, i) :: ds' => if String.eqb x y then Ok i else dim_id ds' x end.
Fixpoint dim_ids (ds : dim_vars) (l : list string) : outcome (list nat) :=
  match l with [] => Ok [] | x :: l' => do i <- dim_id ds x; do r <- dim_ids ds l'; Ok (i :: r) end.
Definition run_put (e : members) (ds : dim_vars) (w : writer F) (p : put) : outcome (writer F) :=
  let '(Put when name what) := p in
  if active e when then
    match what with
    | SInt x => put_int F w name (m_int e x)
    | SFlag x => put_int F w name (if m_flag e x then 1 else 0)%Z
    | SFloat x => put_float F w name (m_float e x)
    | SBig x => put_float F w name (of_int (m_big e x))
    | SBigInt x => put_int F w name (int_of_big (m_big e x))
    | SText x => put_string F w name (m_text e x)
    | SLit s => put_string F w name s
    | SInts d x => do i <- dim_id ds d; put_ints F w i name (m_ints e x)
    | SVector d x => do i <- dim_id ds d; put_vector F w i name (m_array e x)
    | SArray l x => do ids <- dim_ids ds l; put_array F w ids name (m_array e x)
    end
  else Ok w.
Fixpoint run_puts (e : members) (ds : dim_vars) (w : writer F) (l : list put) : outcome (writer F) :=
  match l with [] => Ok w | p :: l' => do w <- run_put e ds w p; run_puts e ds w l' end.
Definition write_file (e : members) (w : writer F) (dims : list dim_stmt) (puts : list put) : outcome (file F) :=
  do st <- run_dims e ([], w) dims;
  do w <- run_puts e (fst st) (snd st) puts;
  write_and_close F w.

(** Qsc::write_netcdf, qsc_write_netcdf.cpp. *)
Definition qsc_write_netcdf (q : members) : outcome (file F) := write_file q (new_writer F) qsc_dims qsc_puts.
(** Opt::write_netcdf, opt_write_netcdf.cpp: the file of the configuration, to which variables are added.  [e] are the members of the Opt object. *)
Definition opt_write_netcdf (q e : members) : outcome (file F) :=
  do f <- qsc_write_netcdf q; write_file e (append_writer F f) opt_dims opt_puts.
(** Scan::write_netcdf and MultiOptScan::write_netcdf, on process 0. *)
Definition scan_write_netcdf (e : members) : outcome (file F) := write_file e (new_writer F) scan_dims scan_puts.
Definition multiopt_scan_write_netcdf (e : members) : outcome (file F) := write_file e (new_writer F) multiopt_scan_dims multiopt_scan_puts.

(** ** Qsc::read_netcdf with C_or_F = 'C', read_netcdf.cpp lines 195-323 *)
Definition set {A} (f : string -> A) (x : string) (v : A) : string -> A := fun y => if String.eqb y x then v else f y.
(** Qsc::allocate: every array that it resizes is filled with zeros. *)
Definition resized (r2 r2p1 r3 : bool) : list string :=
  map fst (resizes_first ++ (if r2 then resizes_r2 else []) ++ (if r2p1 then resizes_r2p1 else []) ++ (if r3 then resizes_r3 else []))%list.
Definition allocate_members (e : members) : outcome members :=
  let r2 := m_flag e "at_least_order_r2" in let r2p1 := m_flag e "order_r2p1" in let r3 := m_flag e "order_r3" in
  do p <- allocate r2 r2p1 r3 (m_int e "nphi") (fun x => [Z.of_nat (length (m_array e x))]);
  Ok (mkMembers (set (m_int e) "nphi" (fst p)) (m_flag e) (m_float e) (m_big e) (m_text e) (m_ints e)
    (fun x => if existsb (String.eqb x) (resized r2 r2p1 r3) then repeat zero (Z.to_nat (fold_right Z.mul 1%Z (snd p x))) else m_array e x)).
Definition run_get (f : file F) (e : members) (g : get) : outcome members :=
  let '(Get when name what) := g in
  if active e when then
    match what with
    | TInt x => do v <- get_int F to_int f name; Ok (mkMembers (set (m_int e) x v) (m_flag e) (m_float e) (m_big e) (m_text e) (m_ints e) (m_array e))
    | TFloat x => do v <- get_float F of_int f name; Ok (mkMembers (m_int e) (m_flag e) (set (m_float e) x v) (m_big e) (m_text e) (m_ints e) (m_array e))
    | TVector x => do v <- get_vector F of_int f name (m_array e x); Ok (mkMembers (m_int e) (m_flag e) (m_float e) (m_big e) (m_text e) (m_ints e) (set (m_array e) x v))
    end
  else Ok e.
Fixpoint run_gets (f : file F) (e : members) (l : list get) : outcome members :=
  match l with [] => Ok e | g :: l' => do e <- run_get f e g; run_gets f e l' end.
Definition read_netcdf_C (f : file F) (e : members) : outcome members :=
  do nphi <- get_int F to_int f "nphi";
  do r2 <- get_int F to_int f "at_least_order_r2";
  do r2p1 <- get_int F to_int f "order_r2.1";
  do r3 <- get_int F to_int f "order_r3";
  let flags := set (set (set (m_flag e) "at_least_order_r2" (negb (r2 =? 0)%Z)) "order_r2p1" (negb (r2p1 =? 0)%Z)) "order_r3" (negb (r3 =? 0)%Z) in
  do e <- allocate_members (mkMembers (set (m_int e) "nphi" nphi) flags (m_float e) (m_big e) (m_text e) (m_ints e) (m_array e));
  run_gets f e qsc_gets.
End Out.
