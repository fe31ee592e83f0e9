(** Specification of the array sizes: the array members declared in src/qsc.hpp (class
    Qsc), and the shape each must have when there are [n] grid points. *)
From Coq Require Import String ZArith List.
Import ListNotations.
Local Open Scope string_scope.
Local Open Scope Z_scope.

(** Vectors with one entry per grid point, needed at every order ... *)
Definition vectors_first : list string := [
    "sinangle"; "cosangle"; "tempvec"; "tempvec1"; "tempvec2"; "tempvec3";
    "tangent_cylindrical1"; "tangent_cylindrical2"; "tangent_cylindrical3";
    "normal_cylindrical1"; "normal_cylindrical2"; "normal_cylindrical3";
    "binormal_cylindrical1"; "binormal_cylindrical2"; "binormal_cylindrical3";
    "d_tangent_d_l_cylindrical1"; "d_tangent_d_l_cylindrical2"; "d_tangent_d_l_cylindrical3";
    "torsion_numerator"; "torsion_denominator"; "etabar_squared_over_curvature_squared";
    "state"; "residual"; "work1"; "work2"; "phi"; "R0"; "Z0"; "R0p"; "Z0p"; "R0pp"; "Z0pp";
    "R0ppp"; "Z0ppp"; "d_l_d_phi"; "d2_l_d_phi2"; "curvature"; "torsion"; "X1s"; "X1c"; "sigma";
    "Y1s"; "Y1c"; "elongation"; "Boozer_toroidal_angle"; "L_grad_B"; "L_grad_B_inverse";
    "d_X1c_d_varphi"; "d_Y1s_d_varphi"; "d_Y1c_d_varphi" ].
(** ... from second order on ... *)
Definition vectors_r2 : list string := [
    "V1"; "V2"; "V3"; "rc"; "rs"; "qc"; "qs"; "Y2s_from_X20"; "Y2s_inhomogeneous";
    "Y2c_from_X20"; "Y2c_inhomogeneous"; "fX0_from_X20"; "fX0_from_Y20"; "fX0_inhomogeneous";
    "fXs_from_X20"; "fXs_from_Y20"; "fXs_inhomogeneous"; "fXc_from_X20"; "fXc_from_Y20";
    "fXc_inhomogeneous"; "fY0_from_X20"; "fY0_from_Y20"; "fY0_inhomogeneous"; "fYs_from_X20";
    "fYs_from_Y20"; "fYs_inhomogeneous"; "fYc_from_X20"; "fYc_from_Y20"; "fYc_inhomogeneous";
    "L_grad_grad_B"; "L_grad_grad_B_inverse"; "X20"; "X2s"; "X2c"; "Y20"; "Y2s"; "Y2c"; "Z20";
    "Z2s"; "Z2c"; "B20"; "B20_anomaly"; "d_curvature_d_varphi"; "d_torsion_d_varphi";
    "d_X20_d_varphi"; "d_X2s_d_varphi"; "d_X2c_d_varphi"; "d_Y20_d_varphi"; "d_Y2s_d_varphi";
    "d_Y2c_d_varphi"; "d_Z20_d_varphi"; "d_Z2s_d_varphi"; "d_Z2c_d_varphi"; "d2_X1c_d_varphi2";
    "d2_Y1c_d_varphi2"; "d2_Y1s_d_varphi2"; "d2_X20_d_varphi2"; "d2_X2s_d_varphi2";
    "d2_X2c_d_varphi2"; "d2_Y20_d_varphi2"; "d2_Y2s_d_varphi2"; "d2_Y2c_d_varphi2";
    "d2_Z20_d_varphi2"; "d2_Z2s_d_varphi2"; "d2_Z2c_d_varphi2"; "r_hat_singularity_robust" ].
(** ... and at third order. *)
Definition vectors_r3 : list string := [
    "X3c1"; "X3c3"; "X3s1"; "X3s3"; "Y3c1"; "Y3c3"; "Y3s1"; "Y3s3"; "Z3c1"; "Z3c3"; "Z3s1";
    "Z3s3"; "d_X3c1_d_varphi"; "d_X3c3_d_varphi"; "d_X3s1_d_varphi"; "d_X3s3_d_varphi";
    "d_Y3c1_d_varphi"; "d_Y3c3_d_varphi"; "d_Y3s1_d_varphi"; "d_Y3s3_d_varphi";
    "d2_X3c1_d_varphi2"; "d2_X3c3_d_varphi2"; "d2_X3s1_d_varphi2"; "d2_X3s3_d_varphi2";
    "d2_Y3c1_d_varphi2"; "d2_Y3c3_d_varphi2"; "d2_Y3s1_d_varphi2"; "d2_Y3s3_d_varphi2" ].

(** [required r2 r2p1 r3 n x s]: with these orders enabled and [n] grid points, member [x]
    must have shape [s]. *)
Inductive required (r2 r2p1 r3 : bool) (n : Z) : string -> list Z -> Prop :=
| req_first x : In x vectors_first -> required r2 r2p1 r3 n x [n]
| req_r2 x : r2 = true -> In x vectors_r2 -> required r2 r2p1 r3 n x [n]
| req_r2p1 : r2p1 = true -> required r2 r2p1 r3 n "lambda_for_XY3" [n]
| req_r3 x : r3 = true -> In x vectors_r3 -> required r2 r2p1 r3 n x [n]
(** pivots of the sigma equation's linear solve; quadrants with one extra, periodic point *)
| req_ipiv : required r2 r2p1 r3 n "ipiv" [n]
| req_quadrant : required r2 r2p1 r3 n "quadrant" [n + 1]
(** differentiation matrices and the sigma equation's Jacobian *)
| req_ddphi : required r2 r2p1 r3 n "d_d_phi" [n; n]
| req_ddvarphi : required r2 r2p1 r3 n "d_d_varphi" [n; n]
| req_work : required r2 r2p1 r3 n "work_matrix" [n; n]
| req_gradB : required r2 r2p1 r3 n "grad_B_tensor" [n; 3; 3]
(** second order: the linear system for X20 and Y20 *)
| req_r2_matrix : r2 = true -> required r2 r2p1 r3 n "r2_matrix" [2 * n; 2 * n]
| req_r2_rhs : r2 = true -> required r2 r2p1 r3 n "r2_rhs" [2 * n]
| req_r2_ipiv : r2 = true -> required r2 r2p1 r3 n "r2_ipiv" [2 * n]
| req_ggB : r2 = true -> required r2 r2p1 r3 n "grad_grad_B_tensor" [n; 3; 3; 3].

(** Members that are not per-grid-point arrays: the axis shape. *)
Definition axis_members : list string := ["R0c"; "R0s"; "Z0c"; "Z0s"].
