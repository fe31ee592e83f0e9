(** Model of src/init_axis.cpp (Qsc::init_axis): the shape of the magnetic axis, its Frenet
    frame, curvature and torsion, the Boozer angle and the derivative along it.

    An array over the grid is a function of the index; every such array has nphi elements
    (Properties_Alloc), all the loops run from 0 or 1 to nphi - 1, and what a function
    is outside that range is not used.  The arrays of Fourier coefficients are lists, of any
    lengths.  Expressions on whole arrays (std::valarray) are written for one element. *)
From Coq Require Import String ZArith List Arith.
From Verif Require Import Base FloatOps MathOps Tensor Diff Helicity.
Import ListNotations.

(** Arithmetic on int; overflow is undefined behaviour. *)
Definition int_max : Z := 2147483647.
Definition int_ok (x : Z) : bool := ((- int_max - 1 <=? x) && (x <=? int_max))%Z%bool.
Definition imul (a b : Z) : outcome Z := if int_ok (a * b) then Ok (a * b)%Z else UB "signed integer overflow".

Section Axis.
Context {F : Type} (o : fops F) (mo : mops F).
Notation arr := (nat -> F).
Local Infix "+!" := (fadd o) (at level 50, left associativity).
Local Infix "-!" := (fsub o) (at level 50, left associativity).
Local Infix "*!" := (fmul o) (at level 40, left associativity).
Local Infix "/!" := (fdiv o) (at level 40, left associativity).
Local Notation int := (m_of_Z mo).

(** What init_axis reads (members of Qsc, qsc.hpp). *)
Record axis_input := mkAxisInput {
  ai_nphi : nat; ai_nfp : Z; ai_R0c : list F; ai_R0s : list F; ai_Z0c : list F; ai_Z0s : list F;
  ai_sG : Z; ai_spsi : Z; ai_B0 : F }.

(** R0, Z0 and their derivatives with respect to phi. *)
Record shape := mkShape { s_R : arr; s_Z : arr; s_Rp : arr; s_Zp : arr; s_Rpp : arr; s_Zpp : arr; s_Rppp : arr; s_Zppp : arr }.

(** Lines 16-18: the phi grid. *)
Definition d_phi_of (i : axis_input) : F := ftwo o *! m_pi mo /! int (ai_nfp i * Z.of_nat (ai_nphi i)).
Fixpoint phi_grid (d : F) (j : nat) : F := match j with O => fzero o | S j' => phi_grid d j' +! d end.

(** Lines 30-49: the contribution of the mode [n] (n >= 1).  The products of ints, in the
    order of the C++ expressions: n*nfp, then n*nfp*n*nfp, then n*nfp*n*nfp*n*nfp (those that
    begin with -n have the opposite values). *)
Definition add_mode (i : axis_input) (phi : arr) (n : nat) (s : shape) : outcome shape :=
  let nz := Z.of_nat n in
  do a1 <- imul nz (ai_nfp i);
  do a2' <- imul a1 nz; do a2 <- imul a2' (ai_nfp i);
  do a3' <- imul a2 nz; do a3 <- imul a3' (ai_nfp i);
  do rc <- aget (ai_R0c i) n; do rs <- aget (ai_R0s i) n;
  do zc <- aget (ai_Z0c i) n; do zs <- aget (ai_Z0s i) n;
  let sinangle := fun j => m_sin mo (int a1 *! phi j) in
  let cosangle := fun j => m_cos mo (int a1 *! phi j) in
  Ok (mkShape
    (fun j => s_R s j +! (rc *! cosangle j +! rs *! sinangle j))
    (fun j => s_Z s j +! (zc *! cosangle j +! zs *! sinangle j))
    (fun j => s_Rp s j +! (rc *! int (- a1) *! sinangle j +! rs *! int a1 *! cosangle j))
    (fun j => s_Zp s j +! (zc *! int (- a1) *! sinangle j +! zs *! int a1 *! cosangle j))
    (fun j => s_Rpp s j +! (rc *! int (- a2) *! cosangle j +! rs *! int (- a2) *! sinangle j))
    (fun j => s_Zpp s j +! (zc *! int (- a2) *! cosangle j +! zs *! int (- a2) *! sinangle j))
    (fun j => s_Rppp s j +! (rc *! int a3 *! sinangle j +! rs *! int (- a3) *! cosangle j))
    (fun j => s_Zppp s j +! (zc *! int a3 *! sinangle j +! zs *! int (- a3) *! cosangle j))).

(** Lines 21-49. *)
Definition axis_shape (i : axis_input) (phi : arr) : outcome shape :=
  do r0 <- aget (ai_R0c i) 0; do z0 <- aget (ai_Z0c i) 0;
  let z := fun _ : nat => fzero o in
  for_from 1 (length (ai_R0c i) - 1) (add_mode i phi) (mkShape (fun _ => r0) (fun _ => z0) z z z z z z).

(** What init_axis computes. *)
Record axis := mkAxis {
  a_nphi : nat; a_d_phi : F; a_phi : arr; a_R0 : arr; a_Z0 : arr; a_R0p : arr; a_Z0p : arr;
  a_d_l_d_phi : arr; a_B0_over_abs_G0 : F; a_abs_G0_over_B0 : F; a_G0 : F; a_grid_min_R0 : F;
  a_tangent1 : arr; a_tangent2 : arr; a_tangent3 : arr;
  a_curvature : arr; a_axis_length : F; a_grid_max_curvature : F; a_rms_curvature : F;
  a_mean_R : F; a_mean_Z : F; a_standard_deviation_of_R : F; a_standard_deviation_of_Z : F;
  a_normal1 : arr; a_normal2 : arr; a_normal3 : arr;
  a_binormal1 : arr; a_binormal2 : arr; a_binormal3 : arr;
  a_torsion : arr; a_d_d_varphi : nat -> nat -> F; a_Boozer : arr }.

(** Line 50-58 and 72-157, given the shape on the grid.  min and max are those of an array of
    nphi elements. *)
Definition frenet (i : axis_input) (d_d_phi : matrix F) (phi : arr) (s : shape) : axis :=
  let nphi := ai_nphi i in
  let d_phi := d_phi_of i in
  let nfp := int (ai_nfp i) in
  let two := ftwo o in
  let three := int 3 in
  let sum := fsum o nphi in
  let R0 := s_R s in let Z0 := s_Z s in let R0p := s_Rp s in let Z0p := s_Zp s in
  let R0pp := s_Rpp s in let Z0pp := s_Zpp s in let R0ppp := s_Rppp s in let Z0ppp := s_Zppp s in
  let d_l_d_phi := fun j => m_sqrt mo (R0 j *! R0 j +! R0p j *! R0p j +! Z0p j *! Z0p j) in
  let d2_l_d_phi2 := fun j => (R0 j *! R0p j +! R0p j *! R0pp j +! Z0p j *! Z0pp j) /! d_l_d_phi j in
  let B0_over_abs_G0 := of_nat mo nphi /! sum d_l_d_phi in
  let abs_G0_over_B0 := fone o /! B0_over_abs_G0 in
  let G0 := int (ai_sG i) *! abs_G0_over_B0 *! ai_B0 i in
  let grid_min_R0 := fmin o (nphi - 1) R0 in
  (* lines 60-70 *)
  let d1 := R0p in let d2 := R0 in let d3 := Z0p in
  let dd1 := fun j => R0pp j -! R0 j in let dd2 := fun j => two *! R0p j in let dd3 := Z0pp in
  let ddd1 := fun j => R0ppp j -! three *! R0p j in let ddd2 := fun j => three *! R0pp j -! R0 j in let ddd3 := Z0ppp in
  let tangent1 := fun j => d1 j /! d_l_d_phi j in
  let tangent2 := fun j => d2 j /! d_l_d_phi j in
  let tangent3 := fun j => d3 j /! d_l_d_phi j in
  (* lines 76-83 *)
  let dt := fun (d dd : arr) j => (fopp o (d j) *! d2_l_d_phi2 j /! d_l_d_phi j +! dd j) /! (d_l_d_phi j *! d_l_d_phi j) in
  let dt1 := dt d1 dd1 in let dt2 := dt d2 dd2 in let dt3 := dt d3 dd3 in
  let curvature := fun j => m_sqrt mo (dt1 j *! dt1 j +! dt2 j *! dt2 j +! dt3 j *! dt3 j) in
  let axis_length := sum d_l_d_phi *! d_phi *! nfp in
  let grid_max_curvature := fmax o (nphi - 1) curvature in
  let rms_curvature := m_sqrt mo ((sum (fun j => curvature j *! curvature j *! d_l_d_phi j) *! d_phi *! nfp) /! axis_length) in
  let mean_R := sum (fun j => R0 j *! d_l_d_phi j) *! d_phi *! nfp /! axis_length in
  let mean_Z := sum (fun j => Z0 j *! d_l_d_phi j) *! d_phi *! nfp /! axis_length in
  let sd_R := m_sqrt mo (sum (fun j => (R0 j -! mean_R) *! (R0 j -! mean_R) *! d_l_d_phi j) *! d_phi *! nfp /! axis_length) in
  let sd_Z := m_sqrt mo (sum (fun j => (Z0 j -! mean_Z) *! (Z0 j -! mean_Z) *! d_l_d_phi j) *! d_phi *! nfp /! axis_length) in
  let normal1 := fun j => dt1 j /! curvature j in
  let normal2 := fun j => dt2 j /! curvature j in
  let normal3 := fun j => dt3 j /! curvature j in
  let binormal1 := fun j => tangent2 j *! normal3 j -! tangent3 j *! normal2 j in
  let binormal2 := fun j => tangent3 j *! normal1 j -! tangent1 j *! normal3 j in
  let binormal3 := fun j => tangent1 j *! normal2 j -! tangent2 j *! normal1 j in
  (* lines 130-140 *)
  let torsion_numerator := fun j =>
    fzero o +! d1 j *! (dd2 j *! ddd3 j -! dd3 j *! ddd2 j)
            +! d2 j *! (dd3 j *! ddd1 j -! dd1 j *! ddd3 j)
            +! d3 j *! (dd1 j *! ddd2 j -! dd2 j *! ddd1 j) in
  let t1 := fun j => d2 j *! dd3 j -! d3 j *! dd2 j in
  let t2 := fun j => d3 j *! dd1 j -! d1 j *! dd3 j in
  let t3 := fun j => d1 j *! dd2 j -! d2 j *! dd1 j in
  let torsion := fun j => torsion_numerator j /! (t1 j *! t1 j +! t2 j *! t2 j +! t3 j *! t3 j) in
  (* lines 142-146 *)
  let d_d_varphi := fun j k => nth (j + m_nrows d_d_phi * k) (m_data d_d_phi) (fzero o) /! (B0_over_abs_G0 *! d_l_d_phi j) in
  (* lines 150-157 *)
  let fix half_mesh (j : nat) : F := match j with O => fzero o | S j' => half_mesh j' +! (d_l_d_phi j' +! d_l_d_phi (S j')) end in
  let Boozer := fun j => half_mesh j *! (fhalf o *! d_phi *! two *! m_pi mo /! axis_length) in
  mkAxis nphi d_phi phi R0 Z0 R0p Z0p d_l_d_phi B0_over_abs_G0 abs_G0_over_B0 G0 grid_min_R0
    tangent1 tangent2 tangent3 curvature axis_length grid_max_curvature rms_curvature mean_R mean_Z sd_R sd_Z
    normal1 normal2 normal3 binormal1 binormal2 binormal3 torsion d_d_varphi Boozer.

(** Lines 16-159.  The result: the axis and the helicity. *)
Definition init_axis (ge0 : F -> bool) (i : axis_input) : outcome (axis * Z) :=
  let phi := phi_grid (d_phi_of i) in
  do d_d_phi <- differentiation_matrix o mo (ai_nphi i) (fzero o) (ftwo o *! m_pi mo /! int (ai_nfp i));
  do s <- axis_shape i phi;
  let a := frenet i d_d_phi phi s in
  let g := seq 0 (ai_nphi i) in
  do h <- calculate_helicity ge0 (ai_nphi i) (map (a_normal1 a) g) (map (a_normal3 a) g)
            (repeat 0%Z (S (ai_nphi i))) (ai_spsi i) (ai_sG i);
  Ok (a, h).
End Axis.
Arguments axis_input : clear implicits. Arguments axis : clear implicits. Arguments shape : clear implicits.
