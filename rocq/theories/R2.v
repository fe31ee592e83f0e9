(** Model of src/calculate_r2.cpp (calculate_r2 and calculate_r2p1) and of src/mercier.cpp: the
    second-order solution, its statistics, and the terms of Mercier's criterion.  Arrays over the
    grid are functions of the index, as in Axis; expressions on whole arrays are written for one
    element.  The messages printed and the timing are left out. *)
From Coq Require Import String ZArith List Arith.
From Verif Require Import Base FloatOps MathOps Tensor Newton Diff Axis R1.
Import ListNotations.
Local Open Scope list_scope. Local Open Scope nat_scope.

Section R2.
Context {F : Type} (o : fops F) (mo : mops F).
Notation arr := (nat -> F).
Local Infix "+!" := (fadd o) (at level 50, left associativity).
Local Infix "-!" := (fsub o) (at level 50, left associativity).
Local Infix "*!" := (fmul o) (at level 40, left associativity).
Local Infix "/!" := (fdiv o) (at level 40, left associativity).
Local Notation "-! x" := (fopp o x) (at level 35, right associativity).
Local Notation int := (m_of_Z mo).
Local Notation two := (ftwo o).
Local Notation one := (fone o).
Local Notation half := (fdiv o (fone o) (ftwo o)).
Local Notation four := (m_of_Z mo 4).
Local Notation quarter := (fdiv o (fone o) (m_of_Z mo 4)).

(** What calculate_r2 reads: the first-order input and solution, and the input parameters of second order.
    mu0 is a constant of qsc.hpp (line 10); here it may have any value. *)
Record r2_input := mkR2 {
  j_r1 : r1_input F; j_sigma : arr; j_iota : F; j_p2 : F; j_B2s : F; j_B2c : F; j_mu0 : F }.
Variable i : r2_input.
Let a := i_axis (j_r1 i).
Let nphi := a_nphi a.
Let q := r1_diagnostics o mo (j_r1 i) (j_sigma i) (j_iota i).
Let D := ddv o (j_r1 i).
Let curvature := a_curvature a.
Let torsion := a_torsion a.
Let dl := a_d_l_d_phi a.
Let lp := a_abs_G0_over_B0 a.       (* abs_G0_over_B0 *)
Let ilp := a_B0_over_abs_G0 a.      (* B0_over_abs_G0 *)
Let B0 := i_B0 (j_r1 i).
Let eta_bar := i_eta_bar (j_r1 i).
Let iota_N := r_iota_N q.
Let I2_over_B0 := r_I2_over_B0 q.
Let X1c := r_X1c q.
Let Y1s := r_Y1s q.
Let Y1c := r_Y1c q.
Let sigma := j_sigma i.
Let sG := i_sG (j_r1 i).
Let spsi := i_spsi (j_r1 i).

(** Line 24. *)
Definition G2_of : F := (-! j_mu0 i) *! j_p2 i *! a_G0 a /! (B0 *! B0) -! j_iota i *! i_I2 (j_r1 i).

(** Lines 26-36. *)
Definition V1 : arr := fun j => X1c j *! X1c j +! Y1c j *! Y1c j +! Y1s j *! Y1s j.
Definition V2 : arr := fun j => two *! Y1s j *! Y1c j.
Definition V3 : arr := fun j => X1c j *! X1c j +! Y1c j *! Y1c j -! Y1s j *! Y1s j.
Definition z_factor : F := (-! ilp) /! int 8.
Definition Z20 : arr := fun j => D V1 j *! z_factor.
Definition Z2s : arr := fun j => z_factor *! (D V2 j -! two *! iota_N *! V3 j).
Definition Z2c : arr := fun j => z_factor *! (D V3 j +! two *! iota_N *! V2 j).

(** Lines 46-55. *)
Definition qs : arr := fun j => (-! iota_N) *! X1c j -! lp *! Y1s j *! torsion j.
Definition qc : arr := fun j => D X1c j -! lp *! Y1c j *! torsion j.
Definition rs : arr := fun j => D Y1s j -! iota_N *! Y1c j.
Definition rc : arr := fun j => D Y1c j +! (iota_N *! Y1s j +! X1c j *! torsion j *! lp).

(** Lines 57-61. *)
Definition X2s : arr := fun j =>
  ilp *! (D Z2s j -! (two *! iota_N) *! Z2c j
          +! ilp *! (lp *! lp *! j_B2s i /! B0 +! (qc j *! qs j +! rc j *! rs j) *! half)) /! curvature j.
Definition X2c : arr := fun j =>
  ilp *! (D Z2c j +! (two *! iota_N) *! Z2s j
          -! ilp *! ((-! lp) *! lp *! j_B2c i /! B0 +! lp *! lp *! eta_bar *! eta_bar /! two
                     -! (qc j *! qc j -! qs j *! qs j +! rc j *! rc j -! rs j *! rs j) *! quarter)) /! curvature j.

(** Line 68. *)
Definition beta_1s : F := int (-4 * spsi * sG) *! j_mu0 i *! j_p2 i *! eta_bar *! lp /! (iota_N *! B0 *! B0).

(** Lines 70-74. *)
Definition Y2s_from_X20 : arr := fun j => int (- sG * spsi) *! curvature j *! curvature j /! (eta_bar *! eta_bar).
Definition Y2s_inhomogeneous : arr := fun j =>
  int (sG * spsi) *! ((-! curvature j) /! two
    +! curvature j *! curvature j /! (eta_bar *! eta_bar) *! ((-! X2c j) +! X2s j *! sigma j)).
Definition Y2c_from_X20 : arr := fun j => int (- sG * spsi) *! curvature j *! curvature j *! sigma j /! (eta_bar *! eta_bar).
Definition Y2c_inhomogeneous : arr := fun j =>
  int (sG * spsi) *! curvature j *! curvature j /! (eta_bar *! eta_bar) *! (X2s j +! X2c j *! sigma j).

(** Lines 81-120. *)
Definition fX0_from_X20 : arr := fun j =>
  int (-4 * sG * spsi) *! lp *! (Y2c_from_X20 j *! Z2s j -! Y2s_from_X20 j *! Z2c j).
Definition fX0_from_Y20 : arr := fun j =>
  (-! torsion j) *! lp -! int (4 * sG * spsi) *! lp *! (Z2s j) -! int spsi *! I2_over_B0 *! int (-2) *! lp.
Definition fX0_inhomogeneous : arr := fun j =>
  curvature j *! lp *! Z20 j -! int (4 * sG * spsi) *! lp *! (Y2c_inhomogeneous j *! Z2s j -! Y2s_inhomogeneous j *! Z2c j)
  -! (int spsi *! I2_over_B0 *! half *! int sG *! int spsi *! lp) *! curvature j +! beta_1s *! lp /! two *! Y1c j.

Definition fXs_from_X20 : arr := fun j =>
  (-! torsion j) *! lp *! Y2s_from_X20 j -! int (4 * spsi * sG) *! lp *! (Y2c_from_X20 j *! Z20 j)
  -! int spsi *! I2_over_B0 *! (int (-2) *! Y2s_from_X20 j) *! lp.
Definition fXs_from_Y20 : arr := fun j => int (-4 * spsi * sG) *! lp *! ((-! Z2c j) +! Z20 j).
Definition fXs_inhomogeneous : arr := fun j =>
  D X2s j -! two *! iota_N *! X2c j -! torsion j *! lp *! Y2s_inhomogeneous j +! curvature j *! lp *! Z2s j
  -! int (4 * spsi * sG) *! lp *! (Y2c_inhomogeneous j *! Z20 j)
  -! int spsi *! I2_over_B0 *! ((half *! int spsi *! int sG) *! curvature j -! two *! Y2s_inhomogeneous j) *! lp
  -! half *! lp *! beta_1s *! Y1s j.

Definition fXc_from_X20 : arr := fun j =>
  (-! torsion j) *! lp *! Y2c_from_X20 j -! int (4 * spsi * sG) *! lp *! ((-! Y2s_from_X20 j) *! Z20 j)
  -! int spsi *! I2_over_B0 *! (int (-2) *! Y2c_from_X20 j) *! lp.
Definition fXc_from_Y20 : arr := fun j =>
  (-! torsion j) *! lp -! int (4 * spsi * sG) *! lp *! (Z2s j) -! int spsi *! I2_over_B0 *! int (-2) *! lp.
Definition fXc_inhomogeneous : arr := fun j =>
  D X2c j +! two *! iota_N *! X2s j -! torsion j *! lp *! Y2c_inhomogeneous j +! curvature j *! lp *! Z2c j
  -! int (4 * spsi * sG) *! lp *! ((-! Y2s_inhomogeneous j) *! Z20 j)
  -! int spsi *! I2_over_B0 *! ((half *! int sG *! int spsi) *! curvature j -! two *! Y2c_inhomogeneous j) *! lp
  -! half *! lp *! beta_1s *! Y1c j.

Definition fY0_from_X20 : arr := fun j => torsion j *! lp -! int spsi *! I2_over_B0 *! two *! lp.
Definition fY0_from_Y20 : arr := fun _ => fzero o.
Definition fY0_inhomogeneous : arr := fun j =>
  int (-4 * spsi * sG) *! lp *! (X2s j *! Z2c j -! X2c j *! Z2s j)
  -! int spsi *! I2_over_B0 *! ((-! half) *! curvature j *! X1c j *! X1c j) *! lp -! half *! lp *! beta_1s *! X1c j.

Definition fYs_from_X20 : arr := fun j =>
  int (-2) *! iota_N *! Y2c_from_X20 j -! int (4 * spsi * sG) *! lp *! (Z2c j).
Definition fYs_from_Y20 : arr := fun _ => int (-2) *! iota_N.
Definition fYs_inhomogeneous : arr := fun j =>
  D Y2s_inhomogeneous j -! two *! iota_N *! Y2c_inhomogeneous j +! torsion j *! lp *! X2s j
  -! int (4 * spsi * sG) *! lp *! ((-! X2c j) *! Z20 j) -! int (2 * spsi) *! I2_over_B0 *! X2s j *! lp.

Definition fYc_from_X20 : arr := fun j =>
  two *! iota_N *! Y2s_from_X20 j -! int (4 * spsi * sG) *! lp *! (-! Z2s j).
Definition fYc_from_Y20 : arr := fun _ => fzero o.
Definition fYc_inhomogeneous : arr := fun j =>
  D Y2c_inhomogeneous j +! two *! iota_N *! Y2s_inhomogeneous j +! torsion j *! lp *! X2c j
  -! int (4 * spsi * sG) *! lp *! (X2s j *! Z20 j)
  -! int spsi *! I2_over_B0 *! ((-! half) *! curvature j *! X1c j *! X1c j +! two *! X2c j) *! lp +! half *! lp *! beta_1s *! X1c j.

(** Lines 122-165: the loops that fill r2_matrix.  [m] is the member before the call. *)
Definition d_dv (j k : nat) : F := a_d_d_varphi a j k.
Definition fill_entry (j k : nat) (m : matrix F) : outcome (matrix F) :=
  do m <- matrix_set m j k (Y1c j *! d_dv j k *! Y2s_from_X20 k -! Y1s j *! d_dv j k *! Y2c_from_X20 k);
  do m <- matrix_set m j (k + nphi) (int (-2) *! Y1s j *! d_dv j k);
  do m <- matrix_set m (j + nphi) k
    ((-! X1c j) *! d_dv j k +! Y1s j *! d_dv j k *! Y2s_from_X20 k +! Y1c j *! d_dv j k *! Y2c_from_X20 k);
  matrix_set m (j + nphi) (k + nphi) (fzero o).
Definition fill_row (j : nat) (m : matrix F) : outcome (matrix F) :=
  do m <- for_loop nphi (fill_entry j) m;
  do x <- matrix_get m j j;
  do m <- matrix_set m j j (x +! X1c j *! fXs_from_X20 j -! Y1s j *! fY0_from_X20 j
                              +! Y1c j *! fYs_from_X20 j -! Y1s j *! fYc_from_X20 j);
  do x <- matrix_get m j (j + nphi);
  do m <- matrix_set m j (j + nphi) (x +! X1c j *! fXs_from_Y20 j -! Y1s j *! fY0_from_Y20 j
                                       +! Y1c j *! fYs_from_Y20 j -! Y1s j *! fYc_from_Y20 j);
  do x <- matrix_get m (j + nphi) j;
  do m <- matrix_set m (j + nphi) j (x -! X1c j *! fX0_from_X20 j +! X1c j *! fXc_from_X20 j -! Y1c j *! fY0_from_X20 j
                                       +! Y1s j *! fYs_from_X20 j +! Y1c j *! fYc_from_X20 j);
  do x <- matrix_get m (j + nphi) (j + nphi);
  matrix_set m (j + nphi) (j + nphi) (x -! X1c j *! fX0_from_Y20 j +! X1c j *! fXc_from_Y20 j -! Y1c j *! fY0_from_Y20 j
                                        +! Y1s j *! fYs_from_Y20 j +! Y1c j *! fYc_from_Y20 j).
Definition fill_matrix (m : matrix F) : outcome (matrix F) := for_loop nphi fill_row m.

(** Lines 168-173. *)
Definition rhs1 : arr := fun j =>
  -! (X1c j *! fXs_inhomogeneous j -! Y1s j *! fY0_inhomogeneous j +! Y1c j *! fYs_inhomogeneous j -! Y1s j *! fYc_inhomogeneous j).
Definition rhs2 : arr := fun j =>
  -! ((-! X1c j) *! fX0_inhomogeneous j +! X1c j *! fXc_inhomogeneous j -! Y1c j *! fY0_inhomogeneous j
      +! Y1s j *! fYs_inhomogeneous j +! Y1c j *! fYc_inhomogeneous j).
Definition fill_rhs (r : list F) : outcome (list F) :=
  for_loop nphi (fun j r => do r <- aset r j (rhs1 j); aset r (j + nphi) (rhs2 j)) r.

(** std::max(x, y) returns y if x < y and else x. *)
Definition std_max (x y : F) : F := if flt o x y then y else x.
(** The largest absolute value in several arrays: lines 219-270. *)
Definition max_abs (f : arr) : F := fmax o (nphi - 1) (fun j => m_abs mo (f j)).
Definition max_abs_all (f : arr) (l : list arr) : F := fold_left (fun m g => std_max m (max_abs g)) l (max_abs f).

(** What calculate_r2 computes. *)
Record r2 := mkR2out {
  s_G2 : F; s_beta_1s : F; s_X20 : arr; s_X2s : arr; s_X2c : arr; s_Y20 : arr; s_Y2s : arr; s_Y2c : arr;
  s_Z20 : arr; s_Z2s : arr; s_Z2c : arr;
  s_B20 : arr; s_B20_grid_variation : F; s_B20_mean : F; s_B20_anomaly : arr; s_B20_residual : F;
  s_grid_max_XY2 : F; s_grid_max_Z2 : F; s_grid_max_d_XY2 : F; s_grid_max_d2_XY2 : F; s_grid_max_d_Z2 : F }.

(** Lines 182-270, given the solution of the linear system. *)
Definition r2_from_solution (X20 Y20 : arr) : r2 :=
  let Y2s := fun j => Y2s_inhomogeneous j +! Y2s_from_X20 j *! X20 j in
  let Y2c := fun j => Y2c_inhomogeneous j +! Y2c_from_X20 j *! X20 j +! Y20 j in
  let B20 := fun j => B0 *! (curvature j *! X20 j -! ilp *! D Z20 j +! half *! eta_bar *! eta_bar -! j_mu0 i *! j_p2 i /! (B0 *! B0)
    -! quarter *! ilp *! ilp *! (qc j *! qc j +! qs j *! qs j +! rc j *! rc j +! rs j *! rs j)) in
  let normalizer := one /! fsum o nphi dl in
  let B20_mean := fsum o nphi (fun j => B20 j *! dl j) *! normalizer in
  let B20_anomaly := fun j => B20 j -! B20_mean in
  let B20_residual := m_sqrt mo (fsum o nphi (fun j => B20_anomaly j *! B20_anomaly j *! dl j) *! normalizer) /! B0 in
  mkR2out G2_of beta_1s X20 X2s X2c Y20 Y2s Y2c Z20 Z2s Z2c
    B20 (fmax o (nphi - 1) B20 -! fmin o (nphi - 1) B20) B20_mean B20_anomaly B20_residual
    (max_abs_all X20 [X2s; X2c; Y20; Y2s; Y2c])
    (max_abs_all Z20 [Z2s; Z2c])
    (max_abs_all (D X20) [D X2s; D X2c; D Y20; D Y2s; D Y2c])
    (max_abs_all (D (D X20)) [D (D X2s); D (D X2c); D (D Y20); D (D Y2s); D (D Y2c)])
    (max_abs_all (D Z20) [D Z2s; D Z2c]).

(** calculate_r2, lines 10-270.  [linear_solve] is that of vector_matrix.cpp (LAPACK's gesv): it
    overwrites the right-hand side by the solution.  [m] and [r] are the members r2_matrix and r2_rhs
    before the call. *)
Definition calculate_r2 (linear_solve : matrix F -> list F -> outcome (list F)) (m : matrix F) (r : list F) : outcome r2 :=
  do m <- fill_matrix m;
  do r <- fill_rhs r;
  do x <- linear_solve m r;
  let X20 := at_ o x in
  let Y20 := fun j => at_ o x (j + nphi) in
  Ok (r2_from_solution X20 Y20).

(** calculate_r2p1, lines 313-342. *)
Record r2p1 := mkR2p1 { t_lambda : arr; t_X3c1 : arr; t_Y3c1 : arr; t_Y3s1 : arr; t_grid_max_XY3 : F;
  t_grid_max_d_XY3 : F; t_grid_max_d2_XY3 : F }.
Definition calculate_r2p1 (s : r2) : r2p1 :=
  let I2 := i_I2 (j_r1 i) in
  let G0 := a_G0 a in
  let lambda := fun j =>
    (-! half) /! int (sG * spsi) *!
      (int (- spsi) *! B0 *! lp /! (two *! G0 *! G0) *! (iota_N *! I2 +! j_mu0 i *! j_p2 i *! G0 /! (B0 *! B0))
       +! two *! (s_X2c s j *! s_Y2s s j -! s_X2s s j *! s_Y2c s j)
       +! int spsi *! B0 /! (two *! G0) *! (lp *! s_X20 s j *! curvature j -! D (s_Z20 s) j)
       +! I2 /! (four *! G0) *! ((-! lp) *! torsion j *! (X1c j *! X1c j +! Y1s j *! Y1s j +! Y1c j *! Y1c j)
                                 +! Y1c j *! D X1c j -! X1c j *! D Y1c j)) in
  let X3c1 := fun j => X1c j *! lambda j in
  let Y3c1 := fun j => Y1c j *! lambda j in
  let Y3s1 := fun j => Y1s j *! lambda j in
  mkR2p1 lambda X3c1 Y3c1 Y3s1 (max_abs_all X3c1 [Y3c1; Y3s1])
    (max_abs_all (D X3c1) [D Y3c1; D Y3s1]) (max_abs_all (D (D X3c1)) [D (D Y3c1); D (D Y3s1)]).

(** mercier.cpp lines 6-34. *)
Record mercier_terms := mkMercier { w_d2_volume_d_psi2 : F; w_DWell : F; w_DGeod : F; w_DMerc : F }.
Definition mercier (s : r2) : mercier_terms :=
  let pi := m_pi mo in
  let G0 := a_G0 a in
  let p2 := j_p2 i in
  let mu0 := j_mu0 i in
  let abs_G0 := m_abs mo G0 in
  let e := eta_bar in
  let k := curvature in
  let work1 := fun j =>
    dl j *! (e *! e *! e *! e +! k j *! k j *! k j *! k j *! sigma j *! sigma j +! e *! e *! k j *! k j)
    /! (e *! e *! e *! e +! k j *! k j *! k j *! k j *! (one +! sigma j *! sigma j) +! two *! e *! e *! k j *! k j) in
  let integral := fsum o nphi work1 *! a_d_phi a *! int (i_nfp (j_r1 i)) *! two *! pi /! a_axis_length a in
  let DGeod := -! (two *! mu0 *! mu0 *! p2 *! p2 *! G0 *! G0 *! G0 *! G0 *! e *! e
     /! (pi *! pi *! pi *! B0 *! B0 *! B0 *! B0 *! B0 *! B0 *! B0 *! B0 *! B0 *! B0 *! iota_N *! iota_N)) *! integral in
  let d2V := four *! pi *! pi *! abs_G0 /! (B0 *! B0 *! B0) *!
     (int 3 *! e *! e -! four *! s_B20_mean s /! B0 +! two *! (s_G2 s +! j_iota i *! i_I2 (j_r1 i)) /! G0) in
  let DWell := (mu0 *! p2 *! abs_G0 /! (int 8 *! pi *! pi *! pi *! pi *! B0 *! B0 *! B0)) *!
     (d2V -! int 8 *! pi *! pi *! mu0 *! p2 *! abs_G0 /! (B0 *! B0 *! B0 *! B0 *! B0)) in
  mkMercier d2V DWell DGeod (DWell +! DGeod).
End R2.
Arguments r2_input : clear implicits. Arguments r2 : clear implicits.
Arguments r2p1 : clear implicits. Arguments mercier_terms : clear implicits.
