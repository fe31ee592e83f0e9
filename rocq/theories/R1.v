(** Model of src/calculate_r1.cpp and of the first part of src/grad_B_tensor.cpp: the sigma
    equation, the first-order shape and the grad B tensor.  Arrays over the grid are functions
    of the index, as in Axis; those that are handed to Newton's method are lists of nphi elements. *)
From Coq Require Import String ZArith List Arith.
From Verif Require Import Base FloatOps MathOps Newton Axis.
Import ListNotations.
Local Open Scope list_scope. Local Open Scope nat_scope.

Section R1.
Context {F : Type} (o : fops F) (mo : mops F).
Notation arr := (nat -> F).
Local Infix "+!" := (fadd o) (at level 50, left associativity).
Local Infix "-!" := (fsub o) (at level 50, left associativity).
Local Infix "*!" := (fmul o) (at level 40, left associativity).
Local Infix "/!" := (fdiv o) (at level 40, left associativity).
Local Notation int := (m_of_Z mo).
Local Notation two := (ftwo o).
Local Notation one := (fone o).

(** What the first-order calculation reads: the axis and the members of Qsc that are input
    parameters. *)
Record r1_input := mkR1 {
  i_axis : axis F; i_nfp : Z; i_helicity : Z; i_sG : Z; i_spsi : Z;
  i_B0 : F; i_I2 : F; i_eta_bar : F; i_sigma0 : F }.
Variable i : r1_input.
Let a := i_axis i.
Let nphi := a_nphi a.

(** calculate_r1.cpp line 58. *)
Definition etabar2 : arr := fun j => (i_eta_bar i *! i_eta_bar i) /! (a_curvature a j *! a_curvature a j).
(** The derivative with respect to the Boozer angle: matrix_vector_product(d_d_varphi, ...). *)
Definition ddv (f : arr) : arr := fun j => fsum o nphi (fun k => a_d_d_varphi a j k *! f k).
(** The elements of a list. *)
Definition at_ (l : list F) : arr := fun j => nth j l (fzero o).

(** The members of Qsc that the callbacks of Newton's method set. *)
Record sigma_user := mkSigmaUser { u_sigma : list F; u_iota : F }.

(** sigma_eq_residual, lines 11-25.  The array [residual] of the caller is the member
    q->residual (line 66).  helicity * nfp is a product of ints; that it overflows is not modelled. *)
Definition iota_N_of (iota : F) : F := iota +! int (i_helicity i * i_nfp i).
Definition sigma_eq_residual (state : list F) (u : sigma_user) : outcome (list F * sigma_user) :=
  do sigma <- aset state 0 (i_sigma0 i);
  do iota <- aget state 0;
  let s := at_ sigma in
  let r := fun j =>
    ddv s j +! (iota_N_of iota *! (etabar2 j *! etabar2 j +! one +! s j *! s j)
      -! two *! etabar2 j *! (int (- i_spsi i) *! a_torsion a j +! i_I2 i /! i_B0 i) *! a_G0 a /! i_B0 i) in
  Ok (map r (seq 0 nphi), mkSigmaUser sigma iota).

(** sigma_eq_jacobian, lines 29-52: it uses sigma and iota of the object, not the state. *)
Definition sigma_eq_jacobian (state : list F) (u : sigma_user) : outcome ((nat -> nat -> F) * sigma_user) :=
  let s := at_ (u_sigma u) in
  let jac := fun j k =>
    if k =? 0 then etabar2 j *! etabar2 j +! one +! s j *! s j
    else if k =? j then a_d_d_varphi a j k +! iota_N_of (u_iota u) *! two *! s j
    else a_d_d_varphi a j k in
  Ok (jac, u).

(** solve_sigma_equation, lines 54-68; [u] holds the members before the call. *)
Definition solve_sigma_equation (linear_solve : (nat -> nat -> F) -> list F -> outcome (list F))
    (max_newton_iterations max_linesearch_iterations : Z) (newton_tolerance : F) (u : sigma_user)
  : outcome (newton_status * list F * list F * sigma_user) :=
  do state <- aset (repeat (i_sigma0 i) nphi) 0 (fzero o);
  newton_solve o sigma_eq_residual sigma_eq_jacobian linear_solve state u
    max_newton_iterations max_linesearch_iterations newton_tolerance.

(** r1_diagnostics, lines 97-119, and calculate_grad_B_tensor, grad_B_tensor.cpp lines 10-55. *)
Record r1 := mkR1out {
  r_iota_N : F; r_I2_over_B0 : F; r_X1s : arr; r_X1c : arr; r_Y1s : arr; r_Y1c : arr;
  r_elongation : arr; r_grid_max_elongation : F; r_mean_elongation : F;
  r_d_X1c : arr; r_d_Y1s : arr; r_d_Y1c : arr;
  r_grad_B : nat -> nat -> nat -> F; (* grad_B_tensor(j, row, column); 0 = normal, 1 = binormal, 2 = tangent *)
  r_L_grad_B : arr; r_L_grad_B_inverse : arr; r_grid_min_L_grad_B : F }.
Definition r1_diagnostics (sigma : arr) (iota : F) : r1 :=
  let curvature := a_curvature a in
  let torsion := a_torsion a in
  let dl := a_d_l_d_phi a in
  let X1s := fun _ : nat => fzero o in
  let X1c := fun j => i_eta_bar i /! curvature j in
  let iota_N := iota_N_of iota in
  let Y1s := fun j => (int (i_sG i * i_spsi i) /! i_eta_bar i) *! curvature j in
  let Y1c := fun j => Y1s j *! sigma j in
  let p := fun j => X1s j *! X1s j +! X1c j *! X1c j +! Y1s j *! Y1s j +! Y1c j *! Y1c j in
  let q := fun j => X1s j *! Y1c j -! X1c j *! Y1s j in
  let elongation := fun j =>
    (p j +! m_sqrt mo (p j *! p j -! int 4 *! q j *! q j)) /! (two *! m_abs mo (q j)) in
  let d_X1c := ddv X1c in let d_Y1s := ddv Y1s in let d_Y1c := ddv Y1c in
  (* grad_B_tensor.cpp *)
  let d_l_d_varphi := a_abs_G0_over_B0 a in
  let factor := int (i_spsi i) *! i_B0 i /! d_l_d_varphi in
  let tn := fun j => (int (i_sG i) *! i_B0 i) *! curvature j in
  let bb := fun j => factor *! (X1c j *! d_Y1s j -! iota_N *! X1c j *! Y1c j) in
  let nn := fun j => factor *! (d_X1c j *! Y1s j +! iota_N *! X1c j *! Y1c j) in
  let bn := fun j => factor *! ((int (- i_sG i * i_spsi i) *! d_l_d_varphi) *! torsion j -! iota_N *! X1c j *! X1c j) in
  let nb := fun j => factor *! (d_Y1c j *! Y1s j -! d_Y1s j *! Y1c j
    +! (int (i_sG i * i_spsi i) *! d_l_d_varphi) *! torsion j +! iota_N *! (Y1s j *! Y1s j +! Y1c j *! Y1c j)) in
  (* the elements that are not set stay zero: grad_B_tensor(j,1,2), (j,2,1), (j,2,2) *)
  let t := fun j r c =>
    match r, c with
    | 0, 0 => nn j | 0, 1 => nb j | 0, 2 => tn j
    | 1, 0 => bn j | 1, 1 => bb j
    | 2, 0 => tn j
    | _, _ => fzero o end in
  let L_grad_B := fun j => i_B0 i *! m_sqrt mo (two /!
    (t j 2 0 *! t j 2 0 +! t j 0 2 *! t j 0 2 +! t j 1 1 *! t j 1 1 +! t j 0 0 *! t j 0 0 +! t j 1 0 *! t j 1 0 +! t j 0 1 *! t j 0 1)) in
  mkR1out iota_N (i_I2 i /! i_B0 i) X1s X1c Y1s Y1c elongation (fmax o (nphi - 1) elongation)
    (fsum o nphi (fun j => elongation j *! dl j) /! fsum o nphi dl)
    d_X1c d_Y1s d_Y1c t L_grad_B (fun j => one /! L_grad_B j) (fmin o (nphi - 1) L_grad_B).
End R1.
Arguments r1_input : clear implicits. Arguments r1 : clear implicits. Arguments sigma_user : clear implicits.
