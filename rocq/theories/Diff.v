(** Model of src/differentiation_matrix.cpp: the spectral differentiation matrix. *)
From Coq Require Import String ZArith List Arith.
From Verif Require Import Base FloatOps MathOps Tensor.
Import ListNotations.

Section Diff.
Context {F : Type} (o : fops F) (mo : mops F).
Definition fhalf : F := fdiv o (fone o) (ftwo o).
Definition of_nat (n : nat) : F := m_of_Z mo (Z.of_nat n).

(** Lines 17-53, the first column, before signs and scaling.  [N] is not negative; floor((N -
    1.0) / 2) is (N - 1) / 2 (for N = 0, where it is -1, the write to col1[0] comes first here)
    and ceil((N - 1.0) / 2) is N / 2. *)
Definition top (N : nat) (j : nat) : F :=
  let h := fdiv o (fmul o (ftwo o) (m_pi mo)) (of_nat N) in
  let x := fdiv o (fmul o (of_nat (j + 1)) h) (ftwo o) in
  if Nat.even N then fdiv o fhalf (m_tan mo x) else fdiv o fhalf (m_sin mo x).
Definition column (N : nat) : outcome (list F) :=
  let n1 := (N - 1) / 2 in
  let n2 := N / 2 in
  do col1 <- aset (repeat (fzero o) N) 0 (fzero o);
  do topc <- for_loop n2 (fun j t => aset t j (top N j)) (repeat (fzero o) n2);
  do col1 <- for_from 1 n2 (fun j c => do t <- aget topc (j - 1); aset c j t) col1;
  do col1 <- for_loop n1 (fun j c =>
    do t <- aget topc (n1 - 1 - j);
    aset c (n2 + 1 + j) (if Nat.even N then fopp o t else t)) col1;
  (* lines 55-57: j = 1, 3, 5, ... < N *)
  for_loop (N / 2) (fun i c => do t <- aget c (2 * i + 1); aset c (2 * i + 1) (fopp o t)) col1.

(** Lines 15-71. *)
Definition differentiation_matrix (N : nat) (xmin xmax : F) : outcome (matrix F) :=
  do col1 <- column N;
  let col1 := map (fmul o (fdiv o (fmul o (ftwo o) (m_pi mo)) (fsub o xmax xmin))) col1 in
  for_loop N (fun j d =>
    do d <- for_from j (N - j) (fun k d => do t <- aget col1 (k - j); matrix_set d j k (fopp o t)) d;
    for_loop j (fun k d => do t <- aget col1 (j - k); matrix_set d j k t) d)
    (matrix_new (fzero o) N N).

(** matrix_vector_product (vector_matrix.cpp lines 129-152): BLAS gemv; see [fsum]. *)
Definition matrix_vector_product (m : matrix F) (v : list F) : outcome (list F) :=
  if negb (m_ncols m =? length v) then Throw "assertion m.ncols() == v.size() failed" else
  for_loop (m_nrows m) (fun j r =>
    do s <- for_loop (m_ncols m) (fun k s => do a <- matrix_get m j k; do x <- aget v k; Ok (fadd o s (fmul o a x))) (fzero o);
    Ok (r ++ [s])) [].
End Diff.
