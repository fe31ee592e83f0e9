(** Specification vocabulary: equations for the values in an output file, in exact arithmetic. *)
From Coq Require Import String ZArith Reals List Arith.
From Verif Require Import Base FloatOps MathOps Curve AxisSpec R1Spec R2Spec NetCDF NetCDFOut NetCDFSpec RunSpec.
Import ListNotations.
Local Open Scope string_scope.

(** ** The equations of the first order, for the values in an output file *)
Section Shown.
Variable f : file R.
Local Open Scope R_scope.
Definition at_grid (x : string) (j : nat) : R := num R 0 f x [j].
Definition number (x : string) : R := num R 0 f x [].
Definition integer (x : string) : R := IZR (whole R f x).
Definition grid_points : nat := Z.to_nat (whole R f "nphi").
(** d/d varphi of an array of the file, with the differentiation matrix of the file. *)
Definition d_d_varphi (x : string) (j : nat) : R := rsum grid_points (fun k => num R 0 f "d_d_varphi" [k; j] * at_grid x k).
(** The left side minus the right side of the equation for sigma (cf. R1Spec.sigma_equation). *)
Definition sigma_residual (j : nat) : R :=
  let ratio := number "eta_bar" / at_grid "curvature" j in
  d_d_varphi "sigma" j + number "iota_N" * (ratio ^ 4 + 1 + at_grid "sigma" j ^ 2)
  - 2 * ratio ^ 2 * (number "I2" / number "B0" - integer "spsi" * at_grid "torsion" j) * (number "G0" / number "B0").
(** The boundary at first order in the plane perpendicular to the axis, at the poloidal angle [theta]: its distance from the axis, per unit of the minor radius. *)
Definition distance (j : nat) (theta : R) : R :=
  let x := at_grid "X1c" j * cos theta in let y := at_grid "Y1c" j * cos theta + at_grid "Y1s" j * sin theta in sqrt (x * x + y * y).

(** ** The surfaces of the second order, for the values in an output file (cf. R2Spec: a point near the axis is position + X normal + Y binormal + Z tangent) *)
Section Surfaces.
Variable j : nat.
Let v x := at_grid x j.
Definition shown_X : modes := M (v "X1c") 0 (v "X20") (v "X2s") (v "X2c").
Definition shown_Y : modes := M (v "Y1c") (v "Y1s") (v "Y20") (v "Y2s") (v "Y2c").
Definition shown_Z : modes := M 0 0 (v "Z20") (v "Z2s") (v "Z2c").
Definition shown_dX : modes := M (v "d_X1c_d_varphi") 0 (v "d_X20_d_varphi") (v "d_X2s_d_varphi") (v "d_X2c_d_varphi").
Definition shown_dY : modes := M (v "d_Y1c_d_varphi") (v "d_Y1s_d_varphi") (v "d_Y20_d_varphi") (v "d_Y2s_d_varphi") (v "d_Y2c_d_varphi").
Definition shown_dZ : modes := M 0 0 (v "d_Z20_d_varphi") (v "d_Z2s_d_varphi") (v "d_Z2c_d_varphi").
(** The derivatives of the point with respect to r, theta and varphi, by components along the normal, the binormal and the tangent. *)
Definition shown_e_r (r t : R) : Curve.vec := V (at_r shown_X r t) (at_r shown_Y r t) (at_r shown_Z r t).
Definition shown_e_theta (r t : R) : Curve.vec := V (at_t shown_X r t) (at_t shown_Y r t) (at_t shown_Z r t).
Definition shown_e_varphi (r t : R) : Curve.vec :=
  let l := number "d_l_d_varphi" in let x := at_rt shown_X r t in let y := at_rt shown_Y r t in let z := at_rt shown_Z r t in
  V (at_rt shown_dX r t + l * (v "curvature" * z - v "torsion" * y)) (at_rt shown_dY r t + l * v "torsion" * x) (at_rt shown_dZ r t + l * (1 - v "curvature" * x)).
(** Along the field line; and the Jacobian. *)
Definition shown_along (r t : R) : Curve.vec := vadd (shown_e_varphi r t) (scal (number "iota_N") (shown_e_theta r t)).
Definition shown_sqrt_g (r t : R) : R := dot (shown_e_r r t) (cross (shown_e_theta r t) (shown_e_varphi r t)).
(** The strength of the field, the derivative of the toroidal flux (per 2 pi) and G + iota I. *)
Definition shown_B (r t : R) : R := field_strength (number "B0") (number "eta_bar") (v "B20") (number "B2s") (number "B2c") r t.
Definition shown_dpsi (r : R) : R := integer "spsi" * number "B0" * r.
Definition shown_G_iota_I (r : R) : R := number "G0" + r ^ 2 * (number "G2" + number "iota" * number "I2").

(** The two equations for X20 and Y20 (cf. R2Spec.equation1, equation2). *)
Let l := number "d_l_d_varphi".
Let ss := integer "sG" * integer "spsi".
Let cur := integer "spsi" * number "I2" / number "B0".
Let kap := v "curvature". Let tau := v "torsion". Let c := number "iota_N". Let b := number "beta_1s".
Definition shown_fX0 := v "d_X20_d_varphi" - tau * l * v "Y20" + kap * l * v "Z20" - 4 * ss * l * (v "Y2c" * v "Z2s" - v "Y2s" * v "Z2c")
  - cur * (/ 2 * ss * kap - 2 * v "Y20") * l + b * l / 2 * v "Y1c".
Definition shown_fXs := v "d_X2s_d_varphi" - 2 * c * v "X2c" - tau * l * v "Y2s" + kap * l * v "Z2s" - 4 * ss * l * (- v "Y20" * v "Z2c" + v "Y2c" * v "Z20")
  - cur * (/ 2 * ss * kap - 2 * v "Y2s") * l - / 2 * l * b * v "Y1s".
Definition shown_fXc := v "d_X2c_d_varphi" + 2 * c * v "X2s" - tau * l * v "Y2c" + kap * l * v "Z2c" - 4 * ss * l * (v "Y20" * v "Z2s" - v "Y2s" * v "Z20")
  - cur * (/ 2 * ss * kap - 2 * v "Y2c") * l - / 2 * l * b * v "Y1c".
Definition shown_fY0 := v "d_Y20_d_varphi" + tau * l * v "X20" - 4 * ss * l * (v "X2s" * v "Z2c" - v "X2c" * v "Z2s")
  - cur * (- / 2 * kap * v "X1c" ^ 2 + 2 * v "X20") * l - / 2 * l * b * v "X1c".
Definition shown_fYs := v "d_Y2s_d_varphi" - 2 * c * v "Y2c" + tau * l * v "X2s" - 4 * ss * l * (v "X20" * v "Z2c" - v "X2c" * v "Z20") - 2 * cur * v "X2s" * l.
Definition shown_fYc := v "d_Y2c_d_varphi" + 2 * c * v "Y2s" + tau * l * v "X2c" - 4 * ss * l * (v "X2s" * v "Z20" - v "X20" * v "Z2s")
  - cur * (- / 2 * kap * v "X1c" ^ 2 + 2 * v "X2c") * l + / 2 * l * b * v "X1c".
Definition shown_equation1 : Prop := v "X1c" * shown_fXs - v "Y1s" * shown_fY0 + v "Y1c" * shown_fYs - v "Y1s" * shown_fYc = 0.
Definition shown_equation2 : Prop := - v "X1c" * shown_fX0 + v "X1c" * shown_fXc - v "Y1c" * shown_fY0 + v "Y1s" * shown_fYs + v "Y1c" * shown_fYc = 0.
End Surfaces.
(** The gradient of the field and its gradient, in the frame of normal, binormal and tangent (cf. GradGradBSpec): [shown_grad_B j i k] is the derivative of the component k in the direction i. *)
Definition shown_grad_B (j i k : nat) : R := num R 0 f "grad_B_tensor" [k; i; j].
Definition shown_grad_grad_B (j i i' k : nat) : R := num R 0 f "grad_grad_B_tensor" [k; i'; i; j].
(** The displacement from the point of the axis to the point with coordinates r and theta. *)
Definition shown_displacement (j : nat) (r t : R) : Curve.vec := V (at_rt (shown_X j) r t) (at_rt (shown_Y j) r t) (at_rt (shown_Z j) r t).
(** d/d varphi of any values on the grid; and how far it is from the product rule. *)
Definition derivative_of (g : nat -> R) (j : nat) : R := rsum grid_points (fun k => num R 0 f "d_d_varphi" [k; j] * g k).
Definition product_error (g h : nat -> R) (j : nat) : R := derivative_of (fun k => g k * h k) j - (derivative_of g j * h j + g j * derivative_of h j).
(** A grid without points of zero curvature or zero speed, and admissible parameters. *)
Record regular_file : Prop := mkRegularFile {
  rf_nfp : (1 <= whole R f "nfp")%Z; rf_sG : is_sign (whole R f "sG"); rf_spsi : is_sign (whole R f "spsi"); rf_B0 : number "B0" <> 0; rf_eta : number "eta_bar" <> 0;
  rf_dl : forall j, (j < grid_points)%nat -> 0 < at_grid "d_l_d_phi" j; rf_curvature : forall j, (j < grid_points)%nat -> at_grid "curvature" j <> 0 }.
End Shown.
