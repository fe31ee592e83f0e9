(** Proofs about [Tensor]. *)
From Coq Require Import String List Arith Bool Lia.
From Verif Require Import Base BaseFacts Tensor TensorSpec.
Import ListNotations.

Lemma idx2_bound r c i j : i < r -> j < c -> i + r * j < r * c.
Proof. intros. assert (r * j + r <= r * c) by nia. lia. Qed.

Lemma idx2_inj r i j i' j' : i < r -> i' < r -> i + r * j = i' + r * j' -> i = i' /\ j = j'.
Proof.
  intros Hi Hi' E.
  assert (j = j').
  { assert (H1 : (i + j * r) / r = j) by (rewrite Nat.div_add by lia; rewrite Nat.div_small; lia).
    assert (H2 : (i' + j' * r) / r = j') by (rewrite Nat.div_add by lia; rewrite Nat.div_small; lia).
    rewrite <- H1, <- H2. f_equal. nia. }
  subst. split; lia.
Qed.

Lemma idx2_surj r c k : k < r * c -> exists i j, i < r /\ j < c /\ i + r * j = k.
Proof.
  intros H. assert (r <> 0) by nia.
  exists (k mod r), (k / r). split; [|split].
  - apply Nat.mod_upper_bound; auto.
  - apply Nat.div_lt_upper_bound; auto.
  - rewrite Nat.add_comm. symmetry. apply Nat.div_mod; auto.
Qed.

Lemma idx3_bound a b c i j k : i < a -> j < b -> k < c -> i + a * (j + b * k) < a * b * c.
Proof. intros. rewrite <- Nat.mul_assoc. apply idx2_bound; auto. apply idx2_bound; auto. Qed.
Lemma idx3_inj a b i j k i' j' k' : i < a -> i' < a -> j < b -> j' < b ->
  i + a * (j + b * k) = i' + a * (j' + b * k') -> i = i' /\ j = j' /\ k = k'.
Proof.
  intros. destruct (idx2_inj a i (j + b*k) i' (j' + b*k')); auto.
  destruct (idx2_inj b j k j' k'); auto.
Qed.
Lemma idx3_surj a b c n : n < a * b * c ->
  exists i j k, i < a /\ j < b /\ k < c /\ i + a * (j + b * k) = n.
Proof.
  rewrite <- Nat.mul_assoc. intros H.
  destruct (idx2_surj _ _ _ H) as (i & m & Hi & Hm & E).
  destruct (idx2_surj _ _ _ Hm) as (j & k & Hj & Hk & E').
  exists i, j, k. rewrite E'. auto.
Qed.
Lemma idx4_bound a b c d i j k l : i < a -> j < b -> k < c -> l < d ->
  i + a * (j + b * (k + c * l)) < a * b * c * d.
Proof.
  intros. replace (a*b*c*d) with (a*(b*c*d)) by ring.
  apply idx2_bound; auto. apply idx3_bound; auto.
Qed.
Lemma idx4_inj a b c i j k l i' j' k' l' : i < a -> i' < a -> j < b -> j' < b -> k < c -> k' < c ->
  i + a * (j + b * (k + c * l)) = i' + a * (j' + b * (k' + c * l')) ->
  i = i' /\ j = j' /\ k = k' /\ l = l'.
Proof.
  intros. destruct (idx2_inj a i (j + b*(k+c*l)) i' (j' + b*(k'+c*l'))); auto.
  destruct (idx3_inj b c j k l j' k' l'); auto.
Qed.
Lemma idx4_surj a b c d n : n < a * b * c * d ->
  exists i j k l, i < a /\ j < b /\ k < c /\ l < d /\ i + a * (j + b * (k + c * l)) = n.
Proof.
  replace (a*b*c*d) with (a*(b*c*d)) by ring. intros H.
  destruct (idx2_surj _ _ _ H) as (i & m & Hi & Hm & E).
  destruct (idx3_surj _ _ _ _ Hm) as (j & k & l & Hj & Hk & Hl & E').
  exists i, j, k, l. rewrite E'. auto 10.
Qed.

(** A write loop over consecutive cells base, base+1, ... *)
Lemma row_loop {A} (v : list A) (n base : nat) (S : Type)
  (getd : S -> list A) (setd : S -> list A -> S) (s0 : S) :
  (forall s d, getd (setd s d) = d) ->
  (forall s d d', setd (setd s d) d' = setd s d') ->
  (forall s, setd s (getd s) = s) ->
  length v = n -> base + n <= length (getd s0) ->
  exists d, for_loop n (fun j s => do x <- aget v j;
                          do d <- aset (getd s) (j + base) x; Ok (setd s d)) s0
            = Ok (setd s0 d)
         /\ length d = length (getd s0)
         /\ forall q, nth_error d q =
              if (base <=? q) && (q <? base + n) then nth_error v (q - base)
              else nth_error (getd s0) q.
Proof.
  intros Hgs Hss Hsg Hv Hlen.
  destruct (for_loop_inv (fun k s => exists d, s = setd s0 d /\ length d = length (getd s0) /\
     forall q, nth_error d q =
              if (base <=? q) && (q <? base + k) then nth_error v (q - base)
              else nth_error (getd s0) q)
     (fun j s => do x <- aget v j; do d <- aset (getd s) (j + base) x; Ok (setd s d)) n s0)
     as [s' [E [d [-> [Hd Hq]]]]].
  - exists (getd s0). rewrite Hsg. repeat split. intros q.
    destruct (base <=? q) eqn:E1, (q <? base + 0) eqn:E2; simpl; auto.
    apply Nat.leb_le in E1. apply Nat.ltb_lt in E2. lia.
  - intros k s Hk [d [-> [Hd Hq]]].
    destruct (nth_error v k) as [x|] eqn:Ex.
    2:{ apply nth_error_None in Ex. lia. }
    rewrite (aget_nth_error _ _ _ Ex). simpl.
    rewrite Hgs, aset_ok by lia. simpl.
    eexists. split; [reflexivity|].
    exists (upd d (k + base) x). rewrite Hss. repeat split.
    + rewrite upd_length. auto.
    + intros q. destruct (Nat.eq_dec (k + base) q) as [<-|Hne].
      * rewrite nth_error_upd_same by lia.
        replace (base <=? k + base) with true by (symmetry; apply Nat.leb_le; lia).
        replace (k + base <? base + Datatypes.S k) with true by (symmetry; apply Nat.ltb_lt; lia).
        cbn [andb]. replace (k + base - base) with k by lia. symmetry. exact Ex.
      * rewrite nth_error_upd_other by auto. rewrite Hq.
        destruct (base <=? q) eqn:E1; cbn [andb]; auto.
        destruct (q <? base + k) eqn:E2, (q <? base + Datatypes.S k) eqn:E3; auto; bprop; exfalso; lia.
  - exists d. split; auto.
Qed.

Section H.
Context {A : Type}.

Lemma run_hist_inv {O S F} (step : O -> S -> outcome S) (sp : O -> F -> F)
  (okop : O -> Prop) (Inv : S -> F -> Prop) :
  (forall o s f, okop o -> Inv s f -> exists s', step o s = Ok s' /\ Inv s' (sp o f)) ->
  forall os s f, Forall okop os -> Inv s f ->
  exists s', run_hist step os s = Ok s' /\ Inv s' (spec_hist sp os f).
Proof.
  intros Hs os. induction os as [|o os IH]; intros s f Hok HI; simpl.
  - eauto.
  - inversion Hok; subst. destruct (Hs o s f) as [s' [E I]]; auto. rewrite E. simpl. auto.
Qed.

Lemma aget_repeat (z : A) n k : k < n -> aget (repeat z n) k = Ok z.
Proof. intros. unfold aget. rewrite nth_error_repeat; auto. Qed.

Theorem matrix_history (z : A) r c (os : list (@mop A)) :
  Forall (mop_ok r c) os ->
  exists m, run_hist mop_run os (matrix_new z r c) = Ok m
    /\ m_nrows m = r /\ m_ncols m = c
    /\ forall i j, i < r -> j < c ->
         matrix_get m i j = Ok (spec_hist mop_spec os (fun _ _ => z) i j).
Proof.
  intros Hok.
  destruct (run_hist_inv mop_run mop_spec (mop_ok r c)
    (fun (m : matrix A) f => m_nrows m = r /\ m_ncols m = c /\ length (m_data m) = r * c /\
       forall i j, i < r -> j < c -> matrix_get m i j = Ok (f i j)))
    with (os := os) (s := matrix_new z r c) (f := fun _ _ : nat => z)
    as [m [E (H1 & H2 & H3 & H4)]]; eauto 10.
  - intros [i j v] m f [Hi Hj] (H1 & H2 & H3 & H4).
    unfold mop_run, matrix_set, matrix_index. rewrite H1.
    rewrite aset_ok by (rewrite H3; apply idx2_bound; auto). simpl.
    eexists. split; [reflexivity|]. simpl. repeat split; auto.
    + rewrite upd_length; auto.
    + intros i' j' Hi' Hj'. unfold matrix_get, matrix_index; simpl.
      destruct ((i' =? i) && (j' =? j)) eqn:E.
      * apply andb_true_iff in E as [E1 E2]. apply Nat.eqb_eq in E1, E2. subst.
        apply aget_upd_same. rewrite H3. apply idx2_bound; auto.
      * rewrite aget_upd_other. { specialize (H4 i' j' Hi' Hj').
          unfold matrix_get, matrix_index in H4. rewrite H1 in H4. auto. }
        intros X. apply idx2_inj in X as [-> ->]; auto.
        rewrite !Nat.eqb_refl in E. discriminate.
  - simpl. repeat split; auto. { apply repeat_length. }
    intros. unfold matrix_get, matrix_index. simpl. apply aget_repeat.
    apply idx2_bound; auto.
Qed.

Theorem tensor3_history (z : A) a b c (os : list (@t3op A)) :
  Forall (t3op_ok a b c) os ->
  exists t, run_hist t3op_run os (t3_new z a b c) = Ok t
    /\ forall i j k, i < a -> j < b -> k < c ->
         t3_get t i j k = Ok (spec_hist t3op_spec os (fun _ _ _ => z) i j k).
Proof.
  intros Hok.
  destruct (run_hist_inv t3op_run t3op_spec (t3op_ok a b c)
    (fun (t : tensor3 A) f => t3_d1 t = a /\ t3_d2 t = b /\ t3_d3 t = c /\ length (t3_data t) = a * b * c /\
       forall i j k, i < a -> j < b -> k < c -> t3_get t i j k = Ok (f i j k)))
    with (os := os) (s := t3_new z a b c) (f := fun _ _ _ : nat => z)
    as [t [E (H1 & H2 & H3 & H4 & H5)]]; eauto 10.
  - intros [i j k v|v j k] t f Ho (H1 & H2 & H3 & H4 & H5).
    + destruct Ho as (Hi & Hj & Hk).
      unfold t3op_run, t3_set, t3_index. rewrite H1, H2.
      rewrite aset_ok by (rewrite H4; apply idx3_bound; auto). simpl.
      eexists. split; [reflexivity|]. simpl. repeat split; auto.
      * rewrite upd_length; auto.
      * intros i' j' k' Hi' Hj' Hk'. unfold t3_get, t3_index; simpl.
        destruct ((i' =? i) && (j' =? j) && (k' =? k)) eqn:E.
        -- apply andb_true_iff in E as [E E3]. apply andb_true_iff in E as [E1 E2].
           apply Nat.eqb_eq in E1, E2, E3. subst.
           apply aget_upd_same. rewrite H4. apply idx3_bound; auto.
        -- rewrite aget_upd_other. { specialize (H5 i' j' k' Hi' Hj' Hk').
             unfold t3_get, t3_index in H5. rewrite H1, H2 in H5. auto. }
           intros X. apply idx3_inj in X as (-> & -> & ->); auto.
           rewrite !Nat.eqb_refl in E. discriminate.
    + destruct Ho as (Hv & Hj & Hk).
      unfold t3op_run, t3_set_row. rewrite H1, Hv, Nat.eqb_refl.
      destruct (row_loop v a (a * (j + t3_d2 t * k)) (tensor3 A) (@t3_data A)
         (fun t' d => mkT3 (t3_d1 t') (t3_d2 t') (t3_d3 t') d) t) as [d [E [Hd Hq]]]; auto.
      { intros []; reflexivity. }
      { rewrite H4, H2.
        assert (j + b * k < b * c) by (apply idx2_bound; auto). nia. }
      rewrite E. eexists. split; [reflexivity|]. simpl. repeat split; auto; try congruence.
      intros i' j' k' Hi' Hj' Hk'. unfold t3_get, t3_index; simpl. rewrite H1, H2.
      unfold aget. rewrite Hq, H2.
      destruct ((j' =? j) && (k' =? k)) eqn:E2.
      * apply andb_true_iff in E2 as [E1 E2]. apply Nat.eqb_eq in E1, E2. subst j' k'.
        replace (a * (j + b * k) <=? i' + a * (j + b * k)) with true by (symmetry; apply Nat.leb_le; lia).
        replace (i' + a * (j + b * k) <? a * (j + b * k) + a) with true by (symmetry; apply Nat.ltb_lt; lia).
        simpl. replace (i' + a * (j + b * k) - a * (j + b * k)) with i' by lia.
        rewrite (nth_error_nth' v (f i' j k)) by lia. reflexivity.
      * destruct ((a * (j + b * k) <=? i' + a * (j' + b * k')) &&
                  (i' + a * (j' + b * k') <? a * (j + b * k) + a)) eqn:E3.
        -- apply andb_true_iff in E3 as [X Y]. apply Nat.leb_le in X. apply Nat.ltb_lt in Y.
           assert (j' + b * k' = j + b * k) by nia.
           destruct (idx2_inj b j' k' j k); auto. subst.
           rewrite !Nat.eqb_refl in E2. discriminate.
        -- specialize (H5 i' j' k' Hi' Hj' Hk'). unfold t3_get, t3_index, aget in H5.
           rewrite H1, H2 in H5. exact H5.
  - simpl. repeat split; auto. { apply repeat_length. }
    intros. unfold t3_get, t3_index. simpl. apply aget_repeat.
    apply idx3_bound; auto.
Qed.

Theorem tensor4_history (z : A) a b c e (os : list (@t4op A)) :
  Forall (t4op_ok a b c e) os ->
  exists t, run_hist t4op_run os (t4_new z a b c e) = Ok t
    /\ forall i j k l, i < a -> j < b -> k < c -> l < e ->
         t4_get t i j k l = Ok (spec_hist t4op_spec os (fun _ _ _ _ => z) i j k l).
Proof.
  intros Hok.
  destruct (run_hist_inv t4op_run t4op_spec (t4op_ok a b c e)
    (fun (t : tensor4 A) f => t4_d1 t = a /\ t4_d2 t = b /\ t4_d3 t = c /\ t4_d4 t = e /\
       length (t4_data t) = a * b * c * e /\
       forall i j k l, i < a -> j < b -> k < c -> l < e -> t4_get t i j k l = Ok (f i j k l)))
    with (os := os) (s := t4_new z a b c e) (f := fun _ _ _ _ : nat => z)
    as [t [E (H1 & H2 & H3 & H3' & H4 & H5)]]; eauto 10.
  - intros [i j k l v|v j k l] t f Ho (H1 & H2 & H3 & H3' & H4 & H5).
    + destruct Ho as (Hi & Hj & Hk & Hl).
      unfold t4op_run, t4_set, t4_index. rewrite H1, H2, H3.
      rewrite aset_ok by (rewrite H4; apply idx4_bound; auto). simpl.
      eexists. split; [reflexivity|]. simpl. repeat split; auto.
      * rewrite upd_length; auto.
      * intros i' j' k' l' Hi' Hj' Hk' Hl'. unfold t4_get, t4_index; simpl.
        destruct ((i' =? i) && (j' =? j) && (k' =? k) && (l' =? l)) eqn:E.
        -- apply andb_true_iff in E as [E E4]. apply andb_true_iff in E as [E E3].
           apply andb_true_iff in E as [E1 E2].
           apply Nat.eqb_eq in E1, E2, E3, E4. subst.
           apply aget_upd_same. rewrite H4. apply idx4_bound; auto.
        -- rewrite aget_upd_other. { specialize (H5 i' j' k' l' Hi' Hj' Hk' Hl').
             unfold t4_get, t4_index in H5. rewrite H1, H2, H3 in H5. auto. }
           intros X. apply idx4_inj in X as (-> & -> & -> & ->); auto.
           rewrite !Nat.eqb_refl in E. discriminate.
    + destruct Ho as (Hv & Hj & Hk & Hl).
      unfold t4op_run, t4_set_row. rewrite H1, Hv, Nat.eqb_refl.
      destruct (row_loop v a (a * (j + t4_d2 t * (k + t4_d3 t * l))) (tensor4 A) (@t4_data A)
         (fun t' d => mkT4 (t4_d1 t') (t4_d2 t') (t4_d3 t') (t4_d4 t') d) t) as [d [E [Hd Hq]]]; auto.
      { intros []; reflexivity. }
      { rewrite H4, H2, H3.
        assert (j + b * (k + c * l) < b * c * e) by (apply idx3_bound; auto). nia. }
      rewrite E. eexists. split; [reflexivity|]. simpl. repeat split; auto; try congruence.
      intros i' j' k' l' Hi' Hj' Hk' Hl'. unfold t4_get, t4_index; simpl. rewrite H1, H2, H3.
      unfold aget. rewrite Hq, H2, H3.
      set (base := a * (j + b * (k + c * l))).
      destruct ((j' =? j) && (k' =? k) && (l' =? l)) eqn:E2.
      * apply andb_true_iff in E2 as [E2 E4]. apply andb_true_iff in E2 as [E1 E2].
        apply Nat.eqb_eq in E1, E2, E4. subst j' k' l'. fold base.
        replace (base <=? i' + base) with true by (symmetry; apply Nat.leb_le; lia).
        replace (i' + base <? base + a) with true by (symmetry; apply Nat.ltb_lt; lia).
        simpl. replace (i' + base - base) with i' by lia.
        rewrite (nth_error_nth' v (f i' j k l)) by lia. reflexivity.
      * destruct ((base <=? i' + a * (j' + b * (k' + c * l'))) &&
                  (i' + a * (j' + b * (k' + c * l')) <? base + a)) eqn:E3.
        -- apply andb_true_iff in E3 as [X Y]. apply Nat.leb_le in X. apply Nat.ltb_lt in Y.
           unfold base in *.
           assert (j' + b * (k' + c * l') = j + b * (k + c * l)) by nia.
           destruct (idx3_inj b c j' k' l' j k l) as (-> & -> & ->); auto.
           rewrite !Nat.eqb_refl in E2. discriminate.
        -- specialize (H5 i' j' k' l' Hi' Hj' Hk' Hl'). unfold t4_get, t4_index, aget in H5.
           rewrite H1, H2, H3 in H5. exact H5.
  - simpl. repeat split; auto. { apply repeat_length. }
    intros. unfold t4_get, t4_index. simpl. apply aget_repeat.
    apply idx4_bound; auto.
Qed.

Lemma matrix_assign_same (dst src : matrix A) :
  m_nrows dst = m_nrows src -> m_ncols dst = m_ncols src ->
  length (m_data src) = m_nrows src * m_ncols src ->
  let m := matrix_assign dst src in
  m_nrows m = m_nrows src /\ m_ncols m = m_ncols src /\
  forall i j, i < m_nrows src -> j < m_ncols src ->
    matrix_get m i j = matrix_get src i j /\ exists v, matrix_get m i j = Ok v.
Proof.
  intros H1 H2 H3 m. subst m. unfold matrix_assign, matrix_get, matrix_index. simpl.
  split; [exact H1|]. split; [exact H2|]. intros i j Hi Hj. rewrite H1. split.
  - reflexivity.
  - destruct (nth_error (m_data src) (i + m_nrows src * j)) eqn:E.
    + unfold aget. rewrite E. eauto.
    + apply nth_error_None in E. pose proof (idx2_bound _ _ _ _ Hi Hj). lia.
Qed.
End H.

(** The cells of a matrix/tensor are distinct, in range and cover the buffer. *)
Lemma matrix_cells (A : Type) (z : A) (m0 : matrix A) r c :
  let m := matrix_resize m0 r c z in
  (forall i j, i < r -> j < c -> matrix_index m i j < length (m_data m)) /\
  (forall i j i' j', i < r -> j < c -> i' < r -> j' < c ->
     matrix_index m i j = matrix_index m i' j' -> i = i' /\ j = j') /\
  (forall k, k < length (m_data m) -> exists i j, i < r /\ j < c /\ matrix_index m i j = k).
Proof.
  intros m. unfold m, matrix_index. simpl. rewrite repeat_length. repeat split.
  - intros. now apply idx2_bound.
  - now destruct (idx2_inj r i j i' j').
  - now destruct (idx2_inj r i j i' j').
  - intros. now apply idx2_surj.
Qed.

Lemma t3_cells (A : Type) (z : A) a b c :
  let m := t3_new z a b c in
  (forall i j k, i < a -> j < b -> k < c -> t3_index m i j k < length (t3_data m)) /\
  (forall i j k i' j' k', i < a -> j < b -> k < c -> i' < a -> j' < b -> k' < c ->
     t3_index m i j k = t3_index m i' j' k' -> i = i' /\ j = j' /\ k = k') /\
  (forall n, n < length (t3_data m) ->
     exists i j k, i < a /\ j < b /\ k < c /\ t3_index m i j k = n).
Proof.
  intros m. unfold m, t3_index. simpl. rewrite repeat_length. split; [|split].
  - intros. now apply idx3_bound.
  - intros i j k i' j' k' H1 H2 H3 H4 H5 H6 E. now apply (idx3_inj a b).
  - intros. now apply idx3_surj.
Qed.

Lemma t4_cells (A : Type) (z : A) a b c d :
  let m := t4_new z a b c d in
  (forall i j k l, i < a -> j < b -> k < c -> l < d -> t4_index m i j k l < length (t4_data m)) /\
  (forall i j k l i' j' k' l', i < a -> j < b -> k < c -> l < d ->
     i' < a -> j' < b -> k' < c -> l' < d ->
     t4_index m i j k l = t4_index m i' j' k' l' -> i = i' /\ j = j' /\ k = k' /\ l = l') /\
  (forall n, n < length (t4_data m) ->
     exists i j k l, i < a /\ j < b /\ k < c /\ l < d /\ t4_index m i j k l = n).
Proof.
  intros m. unfold m, t4_index. simpl. rewrite repeat_length. split; [|split].
  - intros. now apply idx4_bound.
  - intros i j k l i' j' k' l' H1 H2 H3 H4 H5 H6 H7 H8 E. now apply (idx4_inj a b c).
  - intros. now apply idx4_surj.
Qed.
