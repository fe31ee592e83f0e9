(** Model of src/allocate.cpp (Qsc::allocate): the number of grid points and the shapes
    of all arrays. *)
From Coq Require Import String ZArith List Bool.
From Verif Require Import Base.
Import ListNotations.
Local Open Scope string_scope.
Local Open Scope Z_scope.

(** A size argument as written in allocate.cpp: nphi, nphi + 1, 2 * nphi, 3. *)
Inductive dim := DN | DN1 | D2N | D3.

(** The value of a size argument: an [int] expression, whose overflow is undefined
    behaviour; a negative value converts to a huge std::size_t and the allocation throws. *)
Definition dim_value (nphi : Z) (d : dim) : outcome Z :=
  let v := match d with DN => nphi | DN1 => nphi + 1 | D2N => 2 * nphi | D3 => 3 end in
  if (2147483647 <? v) || (v <? -2147483648) then UB "int overflow"
  else if v <? 0 then Throw "std::bad_alloc"
  else Ok v.

(** Shapes of the array members of a Qsc object. *)
Definition shapes := string -> list Z.
Definition set_shape (sh : shapes) (x : string) (d : list Z) : shapes :=
  fun y => if String.eqb y x then d else sh y.

Fixpoint dims_value (nphi : Z) (ds : list dim) : outcome (list Z) :=
  match ds with
  | [] => Ok []
  | d :: ds' => do v <- dim_value nphi d; do vs <- dims_value nphi ds'; Ok (v :: vs)
  end.

(** A sequence of statements x.resize(d1, ..., 0.0).  The fill value is not modelled here;
    see Tensor.v for resize itself.  Running out of memory is not modelled. *)
Fixpoint resize_all (nphi : Z) (l : list (string * list dim)) (sh : shapes) : outcome shapes :=
  match l with
  | [] => Ok sh
  | (x, ds) :: l' => do v <- dims_value nphi ds; resize_all nphi l' (set_shape sh x v)
  end.

(** allocate.cpp lines 15-82. *)
Definition resizes_first : list (string * list dim) := [
    ("phi", [DN]); ("R0", [DN]); ("Z0", [DN]); ("R0p", [DN]); ("Z0p", [DN]); ("R0pp", [DN]);
    ("Z0pp", [DN]); ("R0ppp", [DN]); ("Z0ppp", [DN]); ("curvature", [DN]); ("torsion", [DN]);
    ("sinangle", [DN]); ("cosangle", [DN]); ("d_l_d_phi", [DN]); ("d2_l_d_phi2", [DN]);
    ("tangent_cylindrical1", [DN]); ("tangent_cylindrical2", [DN]);
    ("tangent_cylindrical3", [DN]); ("normal_cylindrical1", [DN]); ("normal_cylindrical2", [DN]);
    ("normal_cylindrical3", [DN]); ("binormal_cylindrical1", [DN]);
    ("binormal_cylindrical2", [DN]); ("binormal_cylindrical3", [DN]);
    ("d_tangent_d_l_cylindrical1", [DN]); ("d_tangent_d_l_cylindrical2", [DN]);
    ("d_tangent_d_l_cylindrical3", [DN]); ("tempvec", [DN]); ("tempvec1", [DN]);
    ("tempvec2", [DN]); ("tempvec3", [DN]); ("torsion_numerator", [DN]);
    ("torsion_denominator", [DN]); ("Boozer_toroidal_angle", [DN]);
    ("etabar_squared_over_curvature_squared", [DN]); ("d_d_phi", [DN; DN]);
    ("d_d_varphi", [DN; DN]); ("work_matrix", [DN; DN]); ("X1s", [DN]); ("X1c", [DN]);
    ("Y1s", [DN]); ("Y1c", [DN]); ("sigma", [DN]); ("elongation", [DN]); ("quadrant", [DN1]);
    ("state", [DN]); ("residual", [DN]); ("work1", [DN]); ("work2", [DN]); ("ipiv", [DN]);
    ("d_X1c_d_varphi", [DN]); ("d_Y1s_d_varphi", [DN]); ("d_Y1c_d_varphi", [DN]);
    ("grad_B_tensor", [DN; D3; D3]); ("L_grad_B", [DN]); ("L_grad_B_inverse", [DN]) ].

(** allocate.cpp lines 85-177. *)
Definition resizes_r2 : list (string * list dim) := [
    ("B20", [DN]); ("B20_anomaly", [DN]); ("X20", [DN]); ("X2s", [DN]); ("X2c", [DN]);
    ("Y20", [DN]); ("Y2s", [DN]); ("Y2c", [DN]); ("Z20", [DN]); ("Z2s", [DN]); ("Z2c", [DN]);
    ("V1", [DN]); ("V2", [DN]); ("V3", [DN]); ("rs", [DN]); ("rc", [DN]); ("qs", [DN]);
    ("qc", [DN]); ("r2_matrix", [D2N; D2N]); ("r2_rhs", [D2N]); ("r2_ipiv", [D2N]);
    ("Y2s_from_X20", [DN]); ("Y2s_inhomogeneous", [DN]); ("Y2c_from_X20", [DN]);
    ("Y2c_inhomogeneous", [DN]); ("fX0_from_X20", [DN]); ("fX0_from_Y20", [DN]);
    ("fX0_inhomogeneous", [DN]); ("fXs_from_X20", [DN]); ("fXs_from_Y20", [DN]);
    ("fXs_inhomogeneous", [DN]); ("fXc_from_X20", [DN]); ("fXc_from_Y20", [DN]);
    ("fXc_inhomogeneous", [DN]); ("fY0_from_X20", [DN]); ("fY0_from_Y20", [DN]);
    ("fY0_inhomogeneous", [DN]); ("fYs_from_X20", [DN]); ("fYs_from_Y20", [DN]);
    ("fYs_inhomogeneous", [DN]); ("fYc_from_X20", [DN]); ("fYc_from_Y20", [DN]);
    ("fYc_inhomogeneous", [DN]); ("d_curvature_d_varphi", [DN]); ("d_torsion_d_varphi", [DN]);
    ("d_X20_d_varphi", [DN]); ("d_X2s_d_varphi", [DN]); ("d_X2c_d_varphi", [DN]);
    ("d_Y20_d_varphi", [DN]); ("d_Y2s_d_varphi", [DN]); ("d_Y2c_d_varphi", [DN]);
    ("d_Z20_d_varphi", [DN]); ("d_Z2s_d_varphi", [DN]); ("d_Z2c_d_varphi", [DN]);
    ("d2_X1c_d_varphi2", [DN]); ("d2_Y1c_d_varphi2", [DN]); ("d2_Y1s_d_varphi2", [DN]);
    ("d2_X20_d_varphi2", [DN]); ("d2_X2s_d_varphi2", [DN]); ("d2_X2c_d_varphi2", [DN]);
    ("d2_Y20_d_varphi2", [DN]); ("d2_Y2s_d_varphi2", [DN]); ("d2_Y2c_d_varphi2", [DN]);
    ("d2_Z20_d_varphi2", [DN]); ("d2_Z2s_d_varphi2", [DN]); ("d2_Z2c_d_varphi2", [DN]);
    ("grad_grad_B_tensor", [DN; D3; D3; D3]); ("L_grad_grad_B", [DN]);
    ("L_grad_grad_B_inverse", [DN]); ("r_hat_singularity_robust", [DN]) ].

(** allocate.cpp lines 181-181. *)
Definition resizes_r2p1 : list (string * list dim) := [
    ("lambda_for_XY3", [DN]) ].

(** allocate.cpp lines 185-218. *)
Definition resizes_r3 : list (string * list dim) := [
    ("X3c1", [DN]); ("X3c3", [DN]); ("X3s1", [DN]); ("X3s3", [DN]); ("Y3c1", [DN]);
    ("Y3c3", [DN]); ("Y3s1", [DN]); ("Y3s3", [DN]); ("Z3c1", [DN]); ("Z3c3", [DN]);
    ("Z3s1", [DN]); ("Z3s3", [DN]); ("d_X3c1_d_varphi", [DN]); ("d_X3c3_d_varphi", [DN]);
    ("d_X3s1_d_varphi", [DN]); ("d_X3s3_d_varphi", [DN]); ("d_Y3c1_d_varphi", [DN]);
    ("d_Y3c3_d_varphi", [DN]); ("d_Y3s1_d_varphi", [DN]); ("d_Y3s3_d_varphi", [DN]);
    ("d2_X3c1_d_varphi2", [DN]); ("d2_X3c3_d_varphi2", [DN]); ("d2_X3s1_d_varphi2", [DN]);
    ("d2_X3s3_d_varphi2", [DN]); ("d2_Y3c1_d_varphi2", [DN]); ("d2_Y3c3_d_varphi2", [DN]);
    ("d2_Y3s1_d_varphi2", [DN]); ("d2_Y3s3_d_varphi2", [DN]) ].

(** allocate.cpp line 13: if (nphi % 2 == 0) nphi++ ([Z.rem] is C++'s %; the increment
    cannot overflow because the largest int is odd). *)
Definition odd_nphi (nphi : Z) : Z := if Z.rem nphi 2 =? 0 then nphi + 1 else nphi.

(** Qsc::allocate, allocate.cpp lines 8-227 (timing output omitted). *)
Definition allocate (at_least_order_r2 order_r2p1 order_r3 : bool) (nphi : Z) (sh : shapes)
  : outcome (Z * shapes) :=
  let n := odd_nphi nphi in
  do sh <- resize_all n resizes_first sh;
  do sh <- (if at_least_order_r2 then resize_all n resizes_r2 sh else Ok sh);
  do sh <- (if order_r2p1 then resize_all n resizes_r2p1 sh else Ok sh);
  do sh <- (if order_r3 then resize_all n resizes_r3 sh else Ok sh);
  Ok (n, sh).
