(** Model of src/quartic_roots.cpp and src/r_singularity.cpp: the minor radius at which the surfaces become singular.
    The messages printed, the timing, the block under "if (false)" (lines 82-216) and the unused variables
    sintheta_at_rc and costheta_at_rc are left out.  Decimal literals are quotients of integers. *)
From Coq Require Import String ZArith List Arith Bool.
From Verif Require Import Base FloatOps MathOps Tensor Newton Diff Axis R1 R2.
Import ListNotations.
Local Open Scope list_scope. Local Open Scope nat_scope.

Section RSing.
Context {F : Type} (o : fops F) (mo : mops F).
Notation arr := (nat -> F).
Local Infix "+!" := (fadd o) (at level 50, left associativity).
Local Infix "-!" := (fsub o) (at level 50, left associativity).
Local Infix "*!" := (fmul o) (at level 40, left associativity).
Local Infix "/!" := (fdiv o) (at level 40, left associativity).
Local Notation "-! x" := (fopp o x) (at level 35, right associativity).
Local Notation int := (m_of_Z mo).
Local Notation zero := (fzero o).
Local Notation one := (fone o).
Local Notation half := (fdiv o (fone o) (ftwo o)).
Local Notation abs := (m_abs mo).

(** quartic_roots.cpp lines 40-58: the matrix given to LAPACK, stored by columns. *)
Definition companion (c : list F) : list F :=
  let c_ := fun k => nth k c zero in
  [ (-! c_ 1) /! c_ 0; one; zero; zero;
    (-! c_ 2) /! c_ 0; zero; one; zero;
    (-! c_ 3) /! c_ 0; zero; zero; one;
    (-! c_ 4) /! c_ 0; zero; zero; zero ].
(** quartic_roots.cpp lines 32-69.  [geev] is LAPACK's dgeev: INFO, and the real and imaginary parts of the eigenvalues. *)
Variable geev : list F -> Z * (list F * list F).
Definition quartic_roots (c : list F) : outcome (list (F * F)) :=
  let '(info, (re, im)) := geev (companion c) in
  if Z.eqb info 0 then Ok (combine re im) else Throw "LAPACK error in *geev".

(** Lines 28-37: the tolerances. *)
Record tolerances := mkTol { sin2_cos2_1_tol : F; acceptable_residual : F; imag_tol : F }.
Definition tolerances_of (single : bool) : tolerances :=
  if single then mkTol (one /! int (10 ^ 6)) (int 3 /! int (10 ^ 3)) (int 3 /! int (10 ^ 4))
  else mkTol (one /! int (10 ^ 13)) (one /! int (10 ^ 5)) (one /! int (10 ^ 7)).
Variable tol : tolerances.

(** Lines 42-80: the coefficients of sqrt(g) = r (g0 + r g1c cos(theta) + r^2 (g20 + g2s sin(2 theta) + g2c cos(2 theta)) + ...). *)
Record jac := mkJac { g0 : F; g1c : F; g20 : F; g2s : F; g2c : F }.
Definition jacobian (i : r2_input F) (s : r2 F) (j : nat) : jac :=
  let a := i_axis (j_r1 i) in
  let q := r1_diagnostics o mo (j_r1 i) (j_sigma i) (j_iota i) in
  let D := ddv o (j_r1 i) in
  let lp := a_abs_G0_over_B0 a in
  let curvature := a_curvature a in let torsion := a_torsion a in
  let X1c := r_X1c q in let Y1s := r_Y1s q in let Y1c := r_Y1c q in
  let d_X1c := r_d_X1c q in let d_Y1s := r_d_Y1s q in let d_Y1c := r_d_Y1c q in
  let X20 := s_X20 s in let X2s := s_X2s s in let X2c := s_X2c s in
  let Y20 := s_Y20 s in let Y2s := s_Y2s s in let Y2c := s_Y2c s in
  let Z20 := s_Z20 s in let Z2s := s_Z2s s in let Z2c := s_Z2c s in
  let d_Z20 := D Z20 in let d_Z2s := D Z2s in let d_Z2c := D Z2c in
  let g0 := lp *! X1c j *! Y1s j in
  let g1c := lp *! (int (-2) *! X2s j *! Y1c j +! int 2 *! X20 j *! Y1s j +! int 2 *! X2c j *! Y1s j +! int 2 *! X1c j *! Y2s j -! X1c j *! X1c
    j *! Y1s j *! curvature j) in
  let g20 := int (-4) *! lp *! X2s j *! Y2c j +! int 4 *! lp *! X2c j *! Y2s j +! lp *! X1c j *! X2s j *! Y1c j *! curvature j -! int 2 *! lp
    *! X1c j *! X20 j *! Y1s j *! curvature j -! lp *! X1c j *! X2c j *! Y1s j *! curvature j -! lp *! X1c j *! X1c j *! Y2s j *!
    curvature j +! int 2 *! lp *! Y1c j *! Y1s j *! Z2c j *! torsion j -! lp *! X1c j *! X1c j *! Z2s j *! torsion j -! lp *! Y1c
    j *! Y1c j *! Z2s j *! torsion j +! lp *! Y1s j *! Y1s j *! Z2s j *! torsion j -! Y1s j *! Z20 j *! d_X1c j -! Y1s j *! Z2c j
    *! d_X1c j +! Y1c j *! Z2s j *! d_X1c j -! X1c j *! Z2s j *! d_Y1c j -! X1c j *! Z20 j *! d_Y1s j +! X1c j *! Z2c j *! d_Y1s j
    +! X1c j *! Y1s j *! d_Z20 j in
  let g2c := int (-4) *! lp *! X2s j *! Y20 j +! int 4 *! lp *! X20 j *! Y2s j +! lp *! X1c j *! X2s j *! Y1c j *! curvature j -! lp *! X1c j
    *! X20 j *! Y1s j *! curvature j -! int 2 *! lp *! X1c j *! X2c j *! Y1s j *! curvature j -! lp *! X1c j *! X1c j *! Y2s j *!
    curvature j +! int 2 *! lp *! Y1c j *! Y1s j *! Z20 j *! torsion j -! lp *! X1c j *! X1c j *! Z2s j *! torsion j -! lp *! Y1c
    j *! Y1c j *! Z2s j *! torsion j -! lp *! Y1s j *! Y1s j *! Z2s j *! torsion j -! Y1s j *! Z20 j *! d_X1c j -! Y1s j *! Z2c j
    *! d_X1c j +! Y1c j *! Z2s j *! d_X1c j -! X1c j *! Z2s j *! d_Y1c j +! X1c j *! Z20 j *! d_Y1s j -! X1c j *! Z2c j *! d_Y1s j
    +! X1c j *! Y1s j *! d_Z2c j in
  let g2s := int 4 *! lp *! X2c j *! Y20 j -! int 4 *! lp *! X20 j *! Y2c j +! lp *! X1c j *! X20 j *! Y1c j *! curvature j -! lp *! X1c j *!
    X2c j *! Y1c j *! curvature j -! int 2 *! lp *! X1c j *! X2s j *! Y1s j *! curvature j -! lp *! X1c j *! X1c j *! Y20 j *!
    curvature j +! lp *! X1c j *! X1c j *! Y2c j *! curvature j -! lp *! X1c j *! X1c j *! Z20 j *! torsion j -! lp *! Y1c j *!
    Y1c j *! Z20 j *! torsion j +! lp *! Y1s j *! Y1s j *! Z20 j *! torsion j +! lp *! X1c j *! X1c j *! Z2c j *! torsion j +! lp
    *! Y1c j *! Y1c j *! Z2c j *! torsion j +! lp *! Y1s j *! Y1s j *! Z2c j *! torsion j +! Y1c j *! Z20 j *! d_X1c j -! Y1c j *!
    Z2c j *! d_X1c j -! Y1s j *! Z2s j *! d_X1c j -! X1c j *! Z20 j *! d_Y1c j +! X1c j *! Z2c j *! d_Y1c j -! X1c j *! Z2s j *!
    d_Y1s j +! X1c j *! Y1s j *! d_Z2s j in
  mkJac g0 g1c g20 g2s g2c.

(** Lines 218-242: the equation K0 + K2s sin(2 theta) + K2c cos(2 theta) + K4s sin(4 theta) + K4c cos(4 theta) = 0, and its scaling by 1 / K4c. *)
Record kays := mkK { K0 : F; K2s : F; K2c : F; K4s : F; K4c : F }.
Definition kays_of (g : jac) : kays :=
  let '(mkJac g0 g1c g20 g2s g2c) := g in
  mkK (int 2 *! g1c *! g1c *! g20 -! int 3 *! g1c *! g1c *! g2c +! int 8 *! g0 *! g2c *! g2c +! int 8 *! g0 *! g2s *! g2s)
    (int 2 *! g1c *! g1c *! g2s)
    (int (-2) *! g1c *! g1c *! g20 +! int 2 *! g1c *! g1c *! g2c)
    (g1c *! g1c *! g2s -! int 16 *! g0 *! g2c *! g2s)
    (g1c *! g1c *! g2c -! int 8 *! g0 *! g2c *! g2c +! int 8 *! g0 *! g2s *! g2s).
Definition scale (k : kays) : kays :=
  let factor := one /! K4c k in
  mkK (K0 k *! factor) (K2s k *! factor) (K2c k *! factor) (K4s k *! factor) (K4c k *! factor).

(** Lines 244-252. *)
Definition coefficients (k : kays) : list F :=
  let '(mkK K0 K2s K2c K4s K4c) := k in
  [ int 4 *! (K4c *! K4c +! K4s *! K4s);
    int 4 *! (K4s *! K2c -! K2s *! K4c);
    K2s *! K2s +! K2c *! K2c -! int 4 *! K0 *! K4c -! int 4 *! K4c *! K4c -! int 4 *! K4s *! K4s;
    int 2 *! K0 *! K2s +! int 2 *! K4c *! K2s -! int 4 *! K4s *! K2c;
    (K0 +! K4c) *! (K0 +! K4c) -! K2c *! K2c ].

Definition is_zero (x : F) : bool := fle o x zero && fle o zero x.
Definition huge : F := int (10 ^ 30).

(** Lines 378-396: one sign of the quadratic formula.  With quadratic_A = 0 the quotient rr is infinite or NaN, the residual is
    infinite or NaN, and the comparisons are false; with a negative radicand rr is NaN.  Those cases are explicit here. *)
Definition try_sign (g : jac) (sin2theta cos2theta sintheta costheta : F) (sign_quadratic : Z) (rc : F) : F :=
  let A := g20 g +! g2s g *! sin2theta +! g2c g *! cos2theta in
  let B := costheta *! g1c g in
  let C := g0 g in
  let radicand := B *! B -! int 4 *! A *! C in
  if is_zero A || flt o radicand zero then rc else
  let radical := m_sqrt mo radicand in
  let rr := ((-! B) +! int sign_quadratic *! radical) /! (int 2 *! A) in
  let residual := (-! g1c g) *! sintheta +! int 2 *! rr *! (g2s g *! cos2theta -! g2c g *! sin2theta) in
  if flt o zero rr && flt o (abs residual) (acceptable_residual tol) && flt o rr rc then rr else rc.

(** Lines 346-397: one sign of cos(theta), or of sin(theta). *)
Definition try_varsigma (g : jac) (sin2theta cos2theta : F) (varsigma : Z) (rc : F) : outcome F :=
  let '(sintheta, costheta) :=
    if flt o zero cos2theta then
      let costheta := int varsigma *! m_sqrt mo (half *! (one +! cos2theta)) in (sin2theta /! (int 2 *! costheta), costheta)
    else
      let sintheta := int varsigma *! m_sqrt mo (half *! (one -! cos2theta)) in (sintheta, sin2theta /! (int 2 *! sintheta)) in
  if flt o (sin2_cos2_1_tol tol) (abs (costheta *! costheta +! sintheta *! sintheta -! one)) then Throw "sin^2 + cos^2 is far from 1."
  else Ok (try_sign g sin2theta cos2theta sintheta costheta 1 (try_sign g sin2theta cos2theta sintheta costheta (-1) rc)).

(** Lines 299-398: one root of the quartic. *)
Definition try_root (g : jac) (k : kays) (root : F * F) (rc : F) : outcome F :=
  let '(re, im) := root in
  if flt o (imag_tol tol) (abs im) then Ok rc else
  let sin2theta := re in
  if flt o one (abs sin2theta) then Ok rc else
  let abs_cos2theta := m_sqrt mo (one -! sin2theta *! sin2theta) in
  let residual := fun c => abs (K0 k +! K2s k *! sin2theta +! K2c k *! c +! K4s k *! int 2 *! sin2theta *! c
    +! K4c k *! (one -! int 2 *! sin2theta *! sin2theta)) in
  let varpi := if flt o (residual (-! abs_cos2theta)) (residual abs_cos2theta) then (-1)%Z else 1%Z in
  let cos2theta := int varpi *! abs_cos2theta in
  do rc <- try_varsigma g sin2theta cos2theta (-1) rc;
  try_varsigma g sin2theta cos2theta 1 rc.
Fixpoint try_roots (g : jac) (k : kays) (l : list (F * F)) (rc : F) : outcome F :=
  match l with
  | [] => Ok rc
  | x :: l' => do rc <- try_root g k x rc; try_roots g k l' rc
  end.

(** Lines 39-400: one point of the grid.  [finite] is std::isfinite.  With K4c = 0 the factor 1 / K4c is infinite and the first
    coefficient is NaN, so the test of lines 258-262 fails; that case is explicit here. *)
Variable finite : F -> bool.
Definition r_hat (g : jac) : outcome F :=
  if is_zero (K4c (kays_of g)) then Ok huge else
  let k := scale (kays_of g) in
  let c := coefficients k in
  if negb (forallb finite c) then Ok huge else
  do roots <- quartic_roots c;
  try_roots g k roots huge.
Fixpoint r_hats (i : r2_input F) (s : r2 F) (l : list nat) : outcome (list F) :=
  match l with
  | [] => Ok []
  | j :: l' => do r <- r_hat (jacobian i s j); do rest <- r_hats i s l'; Ok (r :: rest)
  end.

(** calculate_r_singularity, lines 10-404. *)
Record singularity := mkSing { r_hat_singularity_robust : list F; r_singularity_robust : F; beta_max : F }.
Definition calculate_r_singularity (i : r2_input F) (s : r2 F) : outcome singularity :=
  let nphi := a_nphi (i_axis (j_r1 i)) in
  let B0 := i_B0 (j_r1 i) in
  do l <- r_hats i s (seq 0 nphi);
  let r := fmin o (nphi - 1) (fun j => nth j l zero) in
  let beta := (-! j_mu0 i) *! j_p2 i *! r *! r /! (B0 *! B0) in
  let beta := if flt o huge beta then huge else beta in
  Ok (mkSing l r beta).
End RSing.
Arguments jac : clear implicits. Arguments kays : clear implicits. Arguments tolerances : clear implicits. Arguments singularity : clear implicits.
