(** Specification vocabulary for the second-order solution, in exact arithmetic. *)
From Coq Require Import ZArith Reals List.
From Verif Require Import Base FloatOps MathOps Curve Axis AxisSpec HelicityFacts R1 R1Spec R2.
Import ListNotations.
Local Open Scope R_scope.

(** The parameters of a second-order calculation for the axis [a] with helicity [h] that init_axis found
    for the input [ai]. *)
Definition r2_config (ai : axis_input R) (a : axis R) (h : Z) (I2 eta_bar sigma0 : R) (sigma : nat -> R)
    (iota p2 B2s B2c mu0 : R) : r2_input R :=
  mkR2 (r1_config ai a h I2 eta_bar sigma0) sigma iota p2 B2s B2c mu0.
(** An axis that the calculation can handle. *)
Record regular (ai : axis_input R) (a : axis R) (h : Z) (eta_bar : R) : Prop := mkRegular {
  reg_ok : axis_ok ai; reg_axis : init_axis R_ops R_math Rge0 ai = Ok (a, h);
  reg_sG : is_sign (ai_sG ai); reg_spsi : is_sign (ai_spsi ai); reg_B0 : ai_B0 ai <> 0; reg_eta : eta_bar <> 0;
  reg_dl : forall j, (j < ai_nphi ai)%nat -> 0 < a_d_l_d_phi a j;
  reg_curvature : forall j, (j < ai_nphi ai)%nat -> a_curvature a j <> 0 }.

(** ** Expansions in the distance r from the axis *)
(** A polynomial, from the coefficients; and a function of r that is a polynomial without the terms below r^n. *)
Fixpoint poly (l : list R) (r : R) : R := match l with [] => 0 | c :: l' => c + r * poly l' r end.
Definition order (n : nat) (f : R -> R) : Prop := exists l, forall r, f r = r ^ n * poly l r.

(** A function of r and the angle theta with the given coefficients, and its derivatives. *)
Record modes := M { k1c : R; k1s : R; k20 : R; k2s : R; k2c : R }.
Definition at_rt (m : modes) (r t : R) : R :=
  r * (k1c m * cos t + k1s m * sin t) + r ^ 2 * (k20 m + k2s m * sin (2 * t) + k2c m * cos (2 * t)).
Definition at_r (m : modes) (r t : R) : R :=
  (k1c m * cos t + k1s m * sin t) + 2 * r * (k20 m + k2s m * sin (2 * t) + k2c m * cos (2 * t)).
Definition at_t (m : modes) (r t : R) : R :=
  r * (k1s m * cos t - k1c m * sin t) + r ^ 2 * (2 * k2s m * cos (2 * t) - 2 * k2c m * sin (2 * t)).

(** ** The surfaces *)
(** A point near the axis is position + X normal + Y binormal + Z tangent, with X, Y and Z functions of
    r, theta and the Boozer angle varphi.  Vectors are given by their components along the normal, the binormal
    and the tangent.  At the grid point [j], the derivative with respect to varphi is that of the differentiation
    matrix. *)
Definition grid_derivative (a : axis R) (f : nat -> R) (j : nat) : R :=
  rsum (a_nphi a) (fun k => a_d_d_varphi a j k * f k).
Section Surfaces.
Variables (a : axis R) (q : r1 R) (s : r2 R) (j : nat).
Let D := fun f => grid_derivative a f j.
Definition X_modes : modes := M (r_X1c q j) 0 (s_X20 s j) (s_X2s s j) (s_X2c s j).
Definition Y_modes : modes := M (r_Y1c q j) (r_Y1s q j) (s_Y20 s j) (s_Y2s s j) (s_Y2c s j).
Definition Z_modes : modes := M 0 0 (s_Z20 s j) (s_Z2s s j) (s_Z2c s j).
Definition dX_modes : modes := M (D (r_X1c q)) 0 (D (s_X20 s)) (D (s_X2s s)) (D (s_X2c s)).
Definition dY_modes : modes := M (D (r_Y1c q)) (D (r_Y1s q)) (D (s_Y20 s)) (D (s_Y2s s)) (D (s_Y2c s)).
Definition dZ_modes : modes := M 0 0 (D (s_Z20 s)) (D (s_Z2s s)) (D (s_Z2c s)).
(** The derivatives of the point with respect to r, theta and varphi.  The last uses the equations of Frenet and Serret: with
    l' = |G0|/B0 the derivative of the arclength, the derivative of the tangent is l' curvature normal, that of the normal is
    l' (- curvature tangent + torsion binormal), that of the binormal is - l' torsion normal. *)
Definition e_r (r t : R) : vec := V (at_r X_modes r t) (at_r Y_modes r t) (at_r Z_modes r t).
Definition e_theta (r t : R) : vec := V (at_t X_modes r t) (at_t Y_modes r t) (at_t Z_modes r t).
Definition e_varphi (r t : R) : vec :=
  let l := a_abs_G0_over_B0 a in let x := at_rt X_modes r t in let y := at_rt Y_modes r t in let z := at_rt Z_modes r t in
  V (at_rt dX_modes r t + l * (a_curvature a j * z - a_torsion a j * y))
    (at_rt dY_modes r t + l * a_torsion a j * x)
    (at_rt dZ_modes r t + l * (1 - a_curvature a j * x)).
(** A vector along the field line, the derivative at fixed r and fixed theta - iota_N varphi. *)
Definition along (r t : R) : vec :=
  let u := e_varphi r t in let v := e_theta r t in let c := r_iota_N q in
  V (vx u + c * vx v) (vy u + c * vy v) (vz u + c * vz v).
(** The Jacobian of the coordinates. *)
Definition sqrt_g (r t : R) : R := dot (e_r r t) (cross (e_theta r t) (e_varphi r t)).
End Surfaces.

(** The strength of the field that the solution is to have. *)
Definition field_strength (B0 eta_bar B20 B2s B2c r t : R) : R :=
  B0 * (1 + r * eta_bar * cos t) + r ^ 2 * (B20 + B2s * sin (2 * t) + B2c * cos (2 * t)).

(** ** The equations of second order, that the code comments refer to (Landreman and Sengupta 2019), written out without the
    splitting into parts that the code uses to set up its linear system *)
Section Equations.
Variables (i : r2_input R) (s : r2 R) (j : nat).
Let a := i_axis (j_r1 i).
Let q := r1_diagnostics R_ops R_math (j_r1 i) (j_sigma i) (j_iota i).
Let D := fun f => grid_derivative a f j.
Let l := a_abs_G0_over_B0 a.
Let ss := IZR (i_sG (j_r1 i)) * IZR (i_spsi (j_r1 i)).
Let cur := IZR (i_spsi (j_r1 i)) * i_I2 (j_r1 i) / i_B0 (j_r1 i).
Let kap := a_curvature a j. Let tau := a_torsion a j. Let c := r_iota_N q.
Let X1c := r_X1c q j. Let Y1s := r_Y1s q j. Let Y1c := r_Y1c q j.
Let X20 := s_X20 s j. Let X2s := s_X2s s j. Let X2c := s_X2c s j.
Let Y20 := s_Y20 s j. Let Y2s := s_Y2s s j. Let Y2c := s_Y2c s j.
Let Z20 := s_Z20 s j. Let Z2s := s_Z2s s j. Let Z2c := s_Z2c s j.
Let b := s_beta_1s s.
Definition fX0 := D (s_X20 s) - tau * l * Y20 + kap * l * Z20 - 4 * ss * l * (Y2c * Z2s - Y2s * Z2c)
  - cur * (/ 2 * ss * kap - 2 * Y20) * l + b * l / 2 * Y1c.
Definition fXs := D (s_X2s s) - 2 * c * X2c - tau * l * Y2s + kap * l * Z2s - 4 * ss * l * (- Y20 * Z2c + Y2c * Z20)
  - cur * (/ 2 * ss * kap - 2 * Y2s) * l - / 2 * l * b * Y1s.
Definition fXc := D (s_X2c s) + 2 * c * X2s - tau * l * Y2c + kap * l * Z2c - 4 * ss * l * (Y20 * Z2s - Y2s * Z20)
  - cur * (/ 2 * ss * kap - 2 * Y2c) * l - / 2 * l * b * Y1c.
Definition fY0 := D (s_Y20 s) + tau * l * X20 - 4 * ss * l * (X2s * Z2c - X2c * Z2s)
  - cur * (- / 2 * kap * X1c ^ 2 + 2 * X20) * l - / 2 * l * b * X1c.
Definition fYs := D (s_Y2s s) - 2 * c * Y2c + tau * l * X2s - 4 * ss * l * (X20 * Z2c - X2c * Z20) - 2 * cur * X2s * l.
Definition fYc := D (s_Y2c s) + 2 * c * Y2s + tau * l * X2c - 4 * ss * l * (X2s * Z20 - X20 * Z2s)
  - cur * (- / 2 * kap * X1c ^ 2 + 2 * X2c) * l + / 2 * l * b * X1c.
Definition equation1 : Prop := X1c * fXs - Y1s * fY0 + Y1c * fYs - Y1s * fYc = 0.
Definition equation2 : Prop := - X1c * fX0 + X1c * fXc - Y1c * fY0 + Y1s * fYs + Y1c * fYc = 0.
End Equations.

(** ** Equilibrium *)
(** The coefficient of r^3 in Z, which the solution does not report, as a function of theta; and its derivative. *)
Record modes3 := M3 { z1c : R; z1s : R; z3c : R; z3s : R }.
Definition at3 (m : modes3) (t : R) : R := z1c m * cos t + z1s m * sin t + z3c m * cos (3 * t) + z3s m * sin (3 * t).
Definition at3_t (m : modes3) (t : R) : R := z1s m * cos t - z1c m * sin t + 3 * z3s m * cos (3 * t) - 3 * z3c m * sin (3 * t).
Section Equilibrium.
Variables (i : r2_input R) (s : r2 R) (j : nat) (z : modes3) (dz : R -> R).
Let a := i_axis (j_r1 i).
Let q := r1_diagnostics R_ops R_math (j_r1 i) (j_sigma i) (j_iota i).
(** The derivatives of the point with this third-order term; [dz] is the derivative of the term with respect to varphi. *)
Definition e_r3 (r t : R) : vec := vadd (e_r q s j r t) (V 0 0 (3 * r ^ 2 * at3 z t)).
Definition e_theta3 (r t : R) : vec := vadd (e_theta q s j r t) (V 0 0 (r ^ 3 * at3_t z t)).
Definition e_varphi3 (r t : R) : vec :=
  vadd (e_varphi a q s j r t) (V (a_abs_G0_over_B0 a * a_curvature a j * (r ^ 3 * at3 z t)) 0 (r ^ 3 * dz t)).
(** The field in its two forms, times the Jacobian of the coordinates: psi' (e_varphi + iota_N e_theta), with psi the
    toroidal flux per 2 pi; and beta grad psi + I grad theta + G grad varphi, with the gradients written as cross products. *)
Definition B_contravariant (r t : R) : vec :=
  scal (IZR (i_spsi (j_r1 i)) * i_B0 (j_r1 i) * r) (vadd (e_varphi3 r t) (scal (r_iota_N q) (e_theta3 r t))).
Definition B_covariant (r t : R) : vec :=
  let beta := r * s_beta_1s s * sin t in
  let I := r ^ 2 * i_I2 (j_r1 i) in
  (* theta is the angle relative to the axis, theta_Boozer - N varphi with N = - helicity nfp *)
  let G := a_G0 a + r ^ 2 * (s_G2 s - IZR (i_helicity (j_r1 i)) * IZR (i_nfp (j_r1 i)) * i_I2 (j_r1 i)) in
  vadd (scal (beta * (IZR (i_spsi (j_r1 i)) * i_B0 (j_r1 i) * r)) (cross (e_theta3 r t) (e_varphi3 r t)))
    (vadd (scal I (cross (e_varphi3 r t) (e_r3 r t))) (scal G (cross (e_r3 r t) (e_theta3 r t)))).
End Equilibrium.
