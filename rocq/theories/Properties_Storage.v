(** C08, C09: matrix and tensor storage. *)
From Coq Require Import List Arith Lia.
From Verif Require Import Base Tensor TensorSpec TensorFacts.
Import ListNotations.

(** C08.  Any history of in-range element writes on a matrix just sized to r x c
    succeeds, and afterwards reading any in-range element returns the last value
    written to it (or the fill value). *)
Theorem C08_matrix_history (A : Type) (m0 : matrix A) (z : A) r c (os : list (@mop A)) :
  Forall (mop_ok r c) os ->
  exists m, run_hist mop_run os (matrix_resize m0 r c z) = Ok m
    /\ m_nrows m = r /\ m_ncols m = c
    /\ forall i j, i < r -> j < c ->
         matrix_get m i j = Ok (spec_hist mop_spec os (fun _ _ => z) i j).
Proof. exact (matrix_history z r c os). Qed.
Print Assumptions C08_matrix_history.

Example C08_matrix_history_case :
  Forall (mop_ok 2 3) [MSet 1 2 7; MSet 0 1 5; MSet 1 2 9]
  /\ (do m <- run_hist mop_run [MSet 1 2 7; MSet 0 1 5; MSet 1 2 9] (matrix_resize (matrix_default 0) 2 3 4);
      do a <- matrix_get m 1 2; do b <- matrix_get m 0 1; do c <- matrix_get m 1 1; Ok (a, b, c))
     = Ok (9, 5, 4).
Proof. split; [repeat constructor; simpl; lia|reflexivity]. Qed.

Theorem C08_tensor3_history (A : Type) (z : A) a b c (os : list (@t3op A)) :
  Forall (t3op_ok a b c) os ->
  exists t, run_hist t3op_run os (t3_new z a b c) = Ok t
    /\ forall i j k, i < a -> j < b -> k < c ->
         t3_get t i j k = Ok (spec_hist t3op_spec os (fun _ _ _ => z) i j k).
Proof. exact (tensor3_history z a b c os). Qed.
Print Assumptions C08_tensor3_history.

Example C08_tensor3_history_case :
  Forall (t3op_ok 2 3 2) [T3Row [8; 9] 2 1; T3Set 0 2 1 5]
  /\ (do t <- run_hist t3op_run [T3Row [8; 9] 2 1; T3Set 0 2 1 5] (t3_new 0 2 3 2);
      do x <- t3_get t 0 2 1; do y <- t3_get t 1 2 1; do w <- t3_get t 1 1 1; Ok (x, y, w))
     = Ok (5, 9, 0).
Proof. split; [repeat constructor; simpl; lia|reflexivity]. Qed.

Theorem C08_tensor4_history (A : Type) (z : A) a b c e (os : list (@t4op A)) :
  Forall (t4op_ok a b c e) os ->
  exists t, run_hist t4op_run os (t4_new z a b c e) = Ok t
    /\ forall i j k l, i < a -> j < b -> k < c -> l < e ->
         t4_get t i j k l = Ok (spec_hist t4op_spec os (fun _ _ _ _ => z) i j k l).
Proof. exact (tensor4_history z a b c e os). Qed.
Print Assumptions C08_tensor4_history.

Example C08_tensor4_history_case :
  Forall (t4op_ok 2 2 2 2) [T4Row [8; 9] 1 0 1; T4Set 0 1 0 1 5]
  /\ (do t <- run_hist t4op_run [T4Row [8; 9] 1 0 1; T4Set 0 1 0 1 5] (t4_new 0 2 2 2 2);
      do x <- t4_get t 0 1 0 1; do y <- t4_get t 1 1 0 1; do w <- t4_get t 1 1 1 1; Ok (x, y, w))
     = Ok (5, 9, 0).
Proof. split; [repeat constructor; simpl; lia|reflexivity]. Qed.

(** C08.  Elements occupy distinct, in-range cells that cover the whole buffer. *)
Theorem C08_matrix_cells (A : Type) (z : A) (m0 : matrix A) r c :
  let m := matrix_resize m0 r c z in
  (forall i j, i < r -> j < c -> matrix_index m i j < length (m_data m)) /\
  (forall i j i' j', i < r -> j < c -> i' < r -> j' < c ->
     matrix_index m i j = matrix_index m i' j' -> i = i' /\ j = j') /\
  (forall k, k < length (m_data m) -> exists i j, i < r /\ j < c /\ matrix_index m i j = k).
Proof. exact (matrix_cells A z m0 r c). Qed.
Print Assumptions C08_matrix_cells.

Theorem C08_tensor3_cells (A : Type) (z : A) a b c :
  let m := t3_new z a b c in
  (forall i j k, i < a -> j < b -> k < c -> t3_index m i j k < length (t3_data m)) /\
  (forall i j k i' j' k', i < a -> j < b -> k < c -> i' < a -> j' < b -> k' < c ->
     t3_index m i j k = t3_index m i' j' k' -> i = i' /\ j = j' /\ k = k') /\
  (forall n, n < length (t3_data m) ->
     exists i j k, i < a /\ j < b /\ k < c /\ t3_index m i j k = n).
Proof. exact (t3_cells A z a b c). Qed.
Print Assumptions C08_tensor3_cells.

Theorem C08_tensor4_cells (A : Type) (z : A) a b c d :
  let m := t4_new z a b c d in
  (forall i j k l, i < a -> j < b -> k < c -> l < d -> t4_index m i j k l < length (t4_data m)) /\
  (forall i j k l i' j' k' l', i < a -> j < b -> k < c -> l < d ->
     i' < a -> j' < b -> k' < c -> l' < d ->
     t4_index m i j k l = t4_index m i' j' k' l' -> i = i' /\ j = j' /\ k = k' /\ l = l') /\
  (forall n, n < length (t4_data m) ->
     exists i j k l, i < a /\ j < b /\ k < c /\ l < d /\ t4_index m i j k l = n).
Proof. exact (t4_cells A z a b c d). Qed.
Print Assumptions C08_tensor4_cells.

(** C09 (strongest true form).  Between matrices of one shape, assignment makes the
    destination equal to the source at every in-range index. *)
Theorem C09_assign_same_shape (A : Type) (dst src : matrix A) :
  m_nrows dst = m_nrows src -> m_ncols dst = m_ncols src ->
  length (m_data src) = m_nrows src * m_ncols src ->
  let m := matrix_assign dst src in
  m_nrows m = m_nrows src /\ m_ncols m = m_ncols src /\
  forall i j, i < m_nrows src -> j < m_ncols src ->
    matrix_get m i j = matrix_get src i j /\ exists v, matrix_get m i j = Ok v.
Proof. exact (matrix_assign_same dst src). Qed.
Print Assumptions C09_assign_same_shape.

Example C09_assign_same_shape_case :
  let src := mkMatrix 2 2 4 [1; 2; 3; 4] in
  m_nrows (matrix_new 0 2 2) = m_nrows src /\ m_ncols (matrix_new 0 2 2) = m_ncols src
  /\ length (m_data src) = m_nrows src * m_ncols src
  /\ matrix_get (matrix_assign (matrix_new 0 2 2) src) 1 1 = Ok 4.
Proof. repeat split. Qed.

(** C09 is false in general: assigning to a matrix of another shape (for instance a
    default-constructed one) leaves the old row and column counts, so elements are
    then read from the wrong place. *)
Theorem C09_assign_refuted :
  exists (dst src : matrix nat) i j,
    length (m_data dst) = m_nrows dst * m_ncols dst
    /\ length (m_data src) = m_nrows src * m_ncols src
    /\ i < m_nrows src /\ j < m_ncols src
    /\ m_nrows (matrix_assign dst src) <> m_nrows src
    /\ matrix_get (matrix_assign dst src) i j <> matrix_get src i j.
Proof.
  exists (matrix_default 0), (mkMatrix 2 2 4 [1; 2; 3; 4]), 0, 1. simpl.
  repeat split; try lia; discriminate.
Qed.
Print Assumptions C09_assign_refuted.
