(** Proofs about the random-scan model. *)
From Coq Require String.
From Coq Require Import ZArith List Bool Arith Lia.
From Verif Require Import Base BaseFacts FloatOps Tensor TensorFacts Scan ScanSpec.
Import ListNotations.

Lemma no_ub_ok {A} (a : A) : no_ub (Ok a). Proof. intros w; congruence. Qed.
Lemma no_ub_throw {A} m : @no_ub A (Throw m). Proof. intros w; congruence. Qed.
Lemma no_ub_bind {A B} (x : outcome A) (f : A -> outcome B) :
  no_ub x -> (forall a, x = Ok a -> no_ub (f a)) -> no_ub (bind x f).
Proof. intros Hx Hf. destruct x; cbn [bind]; auto using no_ub_throw. exfalso; eapply Hx; eauto. Qed.

(** ** Flat storage by columns. *)
Lemma nth_error_firstn {A} (l : list A) n k : k < n -> nth_error (firstn n l) k = nth_error l k.
Proof. revert n k; induction l; intros [|n] [|k] H; simpl; auto; try lia. apply IHl; lia. Qed.
Lemma nth_error_ext {A} (l l' : list A) :
  (forall k, nth_error l k = nth_error l' k) -> l = l'.
Proof.
  revert l'; induction l; intros [|b l'] H; auto.
  - specialize (H 0); discriminate.
  - specialize (H 0); discriminate.
  - f_equal; [specialize (H 0); simpl in H; congruence|]. apply IHl. intros k. apply (H (S k)).
Qed.

Lemma firstn_column {A} (d d' c : list A) n j :
  (forall k, k < n * j -> nth_error d' k = nth_error d k) ->
  (forall i, i < n -> nth_error d' (i + n * j) = nth_error c i) ->
  length c = n -> length d' = length d -> n * S j <= length d ->
  firstn (n * S j) d' = firstn (n * j) d ++ c.
Proof.
  intros H1 H2 Hc Hl Hb. apply nth_error_ext. intros k.
  assert (Hf : length (firstn (n * j) d) = n * j) by (apply firstn_length_le; lia).
  destruct (lt_dec k (n * S j)) as [Hk|Hk].
  - rewrite nth_error_firstn by lia. destruct (lt_dec k (n * j)) as [Hk'|Hk'].
    + rewrite nth_error_app1 by lia. rewrite nth_error_firstn by lia. auto.
    + rewrite nth_error_app2 by lia. rewrite Hf. rewrite <- (H2 (k - n * j)) by lia.
      f_equal; lia.
  - transitivity (@None A); [|symmetry]; apply nth_error_None.
    + rewrite firstn_length_le; lia.
    + rewrite app_length; lia.
Qed.

Section M.
Context {A : Type}.
Implicit Types m : matrix A.

Definition mat_ok r c m := m_nrows m = r /\ m_ncols m = c /\ length (m_data m) = r * c.

Lemma matrix_set_spec r c m i j v :
  mat_ok r c m -> i < r -> j < c ->
  exists m', matrix_set m i j v = Ok m' /\ mat_ok r c m'
    /\ m_data m' = upd (m_data m) (i + r * j) v.
Proof.
  intros (Hr & Hc & Hl) Hi Hj. unfold matrix_set, matrix_index. rewrite Hr.
  rewrite aset_ok by (rewrite Hl; apply idx2_bound; auto). cbn [bind].
  eexists; split; [reflexivity|]. unfold mat_ok; simpl. rewrite upd_length. auto.
Qed.

Lemma set_column_spec r c m i j (l : list A) :
  mat_ok r c m -> i + length l <= r -> j < c ->
  exists m', set_column m i j l = Ok m' /\ mat_ok r c m'
    /\ forall k, nth_error (m_data m') k =
         if (i + r * j <=? k) && (k <? i + r * j + length l) then nth_error l (k - (i + r * j))
         else nth_error (m_data m) k.
Proof.
  revert m i; induction l as [|v l IH]; intros m i Hm Hi Hj; cbn [set_column length] in *.
  - exists m. split; [reflexivity|split; auto]. intros k.
    destruct (i + r * j <=? k) eqn:E1, (k <? i + r * j + 0) eqn:E2; simpl; auto; bprop; lia.
  - destruct (matrix_set_spec r c m i j v) as (m1 & E1 & Hm1 & Ed); auto; try lia.
    rewrite E1; cbn [bind].
    destruct (IH m1 (S i)) as (m2 & E2 & Hm2 & Hd); auto; try lia.
    exists m2. split; [auto|split; auto]. intros k. rewrite Hd, Ed.
    assert (Hb : i + r * j < length (m_data m)).
    { destruct Hm as (_ & _ & ->). apply idx2_bound; lia. }
    destruct (Nat.eq_dec k (i + r * j)) as [->|Hk].
    + replace (S i + r * j <=? i + r * j) with false by (symmetry; apply Nat.leb_gt; lia).
      simpl. rewrite nth_error_upd_same by auto.
      rewrite Nat.leb_refl. replace (i + r * j <? _) with true by (symmetry; apply Nat.ltb_lt; lia).
      rewrite Nat.sub_diag. reflexivity.
    + rewrite nth_error_upd_other by auto.
      destruct (S i + r * j <=? k) eqn:E3, (k <? S i + r * j + length l) eqn:E4,
        (i + r * j <=? k) eqn:E5, (k <? i + r * j + S (length l)) eqn:E6; simpl; bprop; try lia; auto.
      replace (k - (i + r * j)) with (S (k - S (i + r * j))) by lia. reflexivity.
Qed.
End M.

Section Facts.
Context {F : Type} (o : fops F) (fabs : F -> F) {G X : Type}.
Variable pick : G -> sample F -> sample F * G.
Variable ph : @physics F X.
Variable cfg : @settings F.
Notation qsc := (@qsc F X).
Notation log := (list (qsc * option nat)).

(** ** One attempt. *)
Definition ph_safe : Prop :=
  (forall q, no_ub (ph_init_axis ph q)) /\ (forall q, no_ub (ph_solve_sigma ph q)) /\
  (forall q, no_ub (ph_r1_diagnostics ph q)) /\ (forall q, no_ub (ph_calculate_r2 ph q)) /\
  (forall q, no_ub (ph_mercier ph q)) /\ (forall q, no_ub (ph_grad_grad_B ph q)) /\
  (forall q, no_ub (ph_r_singularity ph q)).

Definition delta (v : option nat) (k : nat) : nat :=
  match k with
  | 15 => match v with Some k' => if 6 <=? k' then 1 else 0 | None => 1 end
  | 16 => if at_least_order_r2 cfg then
            match v with Some k' => if 9 <=? k' then 1 else 0 | None => 1 end else 0
  | _ => match v with Some k' => if k' =? k then 1 else 0 | None => 0 end
  end.

Lemma list17 (f : list nat) : length f = 17 ->
  exists a0 a1 a2 a3 a4 a5 a6 a7 a8 a9 a10 a11 a12 a13 a14 a15 a16,
    f = [a0;a1;a2;a3;a4;a5;a6;a7;a8;a9;a10;a11;a12;a13;a14;a15;a16].
Proof.
  intros H. do 17 (destruct f as [|? f]; [discriminate|]). destruct f; [|discriminate].
  repeat eexists.
Qed.

Lemma incr_spec (f : list nat) k : k < length f -> incr f k = Ok (upd f k (S (nth k f 0))).
Proof. intros H. unfold incr. rewrite (aget_ok f k 0 H). cbn [bind]. apply aset_ok; auto. Qed.

Definition after (f : list nat) (f' : list nat) (v : option nat) : Prop :=
  length f' = 17 /\ forall k, k < 17 -> nth k f' 0 = nth k f 0 + delta v k.

Lemma nth_incr f k j : k < length f -> nth j (upd f k (S (nth k f 0))) 0 = nth j f 0 + (if j =? k then 1 else 0).
Proof.
  intros H. rewrite nth_upd. apply Nat.ltb_lt in H. rewrite H, andb_true_r.
  destruct (j =? k) eqn:E; bprop; subst; lia.
Qed.

Ltac inv_bind H x Hx :=
  match type of H with
  | bind ?e _ = Ok _ => destruct e as [x|?|?] eqn:Hx; cbn [bind] in H; try discriminate H
  end.

Lemma after_reject0 f k f' q q' v : length f = 17 -> 2 <= k <= 5 ->
  @reject F X f k q = Ok (f', q', v) -> v = Some k /\ q' = q /\ after f f' v.
Proof.
  intros Hl Hk H. unfold reject in H. rewrite incr_spec in H by lia. cbn [bind] in H.
  injection H as <- <- <-. split; [auto|split; [auto|]]. split; [rewrite upd_length; auto|].
  intros j Hj. rewrite nth_incr by lia. unfold delta.
  do 17 (destruct j as [|j]; [do 6 (destruct k as [|k]; [try lia; destruct (at_least_order_r2 cfg); reflexivity|]); lia|]); lia.
Qed.
Lemma after_reject1 f k f' q q' v : length f = 17 -> 6 <= k <= 8 ->
  @reject F X (upd f 15 (S (nth 15 f 0))) k q = Ok (f', q', v) -> v = Some k /\ q' = q /\ after f f' v.
Proof.
  intros Hl Hk H. unfold reject in H. rewrite incr_spec in H by (rewrite upd_length; lia). cbn [bind] in H.
  injection H as <- <- <-. split; [auto|split; [auto|]]. split; [rewrite !upd_length; auto|].
  intros j Hj. rewrite nth_incr by (rewrite upd_length; lia). rewrite nth_incr by lia. unfold delta.
  do 17 (destruct j as [|j]; [do 9 (destruct k as [|k]; [try lia; destruct (at_least_order_r2 cfg); simpl; lia|]); lia|]); lia.
Qed.
Lemma after_reject2 f k f' q q' v : length f = 17 -> 9 <= k <= 14 -> at_least_order_r2 cfg = true ->
  @reject F X (upd (upd f 15 (S (nth 15 f 0))) 16 (S (nth 16 (upd f 15 (S (nth 15 f 0))) 0))) k q = Ok (f', q', v) ->
  v = Some k /\ q' = q /\ after f f' v.
Proof.
  intros Hl Hk Hr H. unfold reject in H. rewrite incr_spec in H by (rewrite !upd_length; lia). cbn [bind] in H.
  injection H as <- <- <-. split; [auto|split; [auto|]]. split; [rewrite !upd_length; auto|].
  intros j Hj. rewrite nth_incr by (rewrite !upd_length; lia). rewrite nth_incr by (rewrite !upd_length; lia).
  rewrite nth_incr by lia. unfold delta. rewrite Hr.
  do 17 (destruct j as [|j]; [do 15 (destruct k as [|k]; [try lia; simpl; lia|]); lia|]); lia.
Qed.

Lemma violates_range k (q : qsc) : violates o fabs cfg k q -> 2 <= k <= 14.
Proof. intros H. do 15 (destruct k as [|k]; [simpl in H; try lia; contradiction|]). destruct H. Qed.

Ltac fields :=
  repeat match goal with
  | H : init_axis ph ?q = Ok ?q' |- _ =>
      unfold init_axis in H; let x := fresh "x" in let Hx := fresh "Hx" in inv_bind H x Hx; destruct x as [[[[[[? ?] ?] ?] ?] ?] ?]; injection H as <-
  | H : solve_sigma_equation ph ?q = Ok ?q' |- _ =>
      unfold solve_sigma_equation in H; let x := fresh "x" in let Hx := fresh "Hx" in inv_bind H x Hx; destruct x as [? ?]; injection H as <-
  | H : r1_diagnostics ph ?q = Ok ?q' |- _ =>
      unfold r1_diagnostics in H; let x := fresh "x" in let Hx := fresh "Hx" in inv_bind H x Hx; destruct x as [[? ?] ?]; injection H as <-
  | H : calculate_r2 ph ?q = Ok ?q' |- _ =>
      unfold calculate_r2 in H; let x := fresh "x" in let Hx := fresh "Hx" in inv_bind H x Hx; destruct x as [[? ?] ?]; injection H as <-
  | H : mercier ph ?q = Ok ?q' |- _ =>
      unfold mercier in H; let x := fresh "x" in let Hx := fresh "Hx" in inv_bind H x Hx; destruct x as [[? ?] ?]; injection H as <-
  | H : calculate_grad_grad_B_tensor ph ?q = Ok ?q' |- _ =>
      unfold calculate_grad_grad_B_tensor in H; let x := fresh "x" in let Hx := fresh "Hx" in inv_bind H x Hx; destruct x as [? ?]; injection H as <-
  | H : calculate_r_singularity ph ?q = Ok ?q' |- _ =>
      unfold calculate_r_singularity in H; let x := fresh "x" in let Hx := fresh "Hx" in inv_bind H x Hx; destruct x as [[? ?] ?]; injection H as <-
  end; cbn [q_in q_axis_length q_grid_min_R0 q_grid_max_curvature q_standard_deviation_of_R
    q_standard_deviation_of_Z q_helicity q_iota q_grid_max_elongation q_grid_min_L_grad_B
    q_B20_grid_variation q_B20_residual q_d2_volume_d_psi2 q_DMerc_times_r2
    q_grid_min_L_grad_grad_B q_r_singularity_robust q_beta q_rest] in *.

Lemma hel_violates (q : qsc) :
  negb (keep_all cfg) &&
     (((helicity_to_keep cfg =? 0)%Z && negb (q_helicity q =? 0)%Z)
      || ((helicity_to_keep cfg =? 1)%Z && negb (Z.abs (q_helicity q) =? 1)%Z)) = true
  <-> violates o fabs cfg 4 q.
Proof.
  unfold violates. rewrite andb_true_iff, orb_true_iff, !andb_true_iff, !negb_true_iff, !Z.eqb_eq, !Z.eqb_neq.
  intuition lia.
Qed.

Lemma nb a b : negb a && b = false -> ~ (a = false /\ b = true).
Proof. destruct a, b; simpl; intros H [H1 H2]; congruence. Qed.

Theorem attempt_ok f q f' q' v :
  length f = 17 -> attempt o fabs ph cfg f q = Ok (f', q', v) ->
  after f f' v /\ justified o fabs cfg (q', v) /\ q_in q' = q_in q.
Proof.
  intros Hl H. unfold attempt in H.
  destruct (R0_crude_bad o (q_in q)) eqn:E2.
  { apply after_reject0 in H; [|lia|unfold REJECTED_DUE_TO_R0_CRUDE; lia]. destruct H as (-> & -> & Ha).
    split; [auto|split; [|auto]]. unfold justified; simpl. unfold R0_crude_bad in E2. apply orb_true_iff in E2. exact E2. }
  inv_bind H q1 Hq1.
  destruct (negb (keep_all cfg) && flt o (q_grid_min_R0 q1) (min_R0_to_keep cfg)) eqn:E3.
  { apply after_reject0 in H; [|lia|unfold REJECTED_DUE_TO_R0; lia]. destruct H as (-> & -> & Ha).
    split; [auto|split; [|fields; auto]]. unfold justified; simpl. apply andb_true_iff in E3. rewrite negb_true_iff in E3. exact E3. }
  match type of H with (if ?c then _ else _) = _ => destruct c eqn:E4 end.
  { apply after_reject0 in H; [|lia|unfold REJECTED_DUE_TO_HELICITY; lia]. destruct H as (-> & -> & Ha).
    split; [auto|split; [|fields; auto]]. apply hel_violates in E4. exact E4. }
  assert (N4 : ~ violates o fabs cfg 4 q1) by (rewrite <- hel_violates, E4; congruence).
  clear E4.
  match type of H with (if ?c then _ else _) = _ => destruct c eqn:E5 end.
  { apply after_reject0 in H; [|lia|unfold REJECTED_DUE_TO_CURVATURE; lia]. destruct H as (-> & -> & Ha).
    split; [auto|split; [|fields; auto]]. unfold justified; simpl. apply andb_true_iff in E5. rewrite negb_true_iff in E5. exact E5. }
  inv_bind H q2 Hq2.
  rewrite incr_spec in H by (unfold N_SIGMA_EQ_SOLVES; lia). cbn [bind] in H. unfold N_SIGMA_EQ_SOLVES in H.
  inv_bind H q3 Hq3.
  match type of H with (if ?c then _ else _) = _ => destruct c eqn:E6 end.
  { apply after_reject1 in H; [|lia|unfold REJECTED_DUE_TO_IOTA; lia]. destruct H as (-> & -> & Ha).
    split; [auto|split; [|fields; auto]]. unfold justified; simpl. apply andb_true_iff in E6. rewrite negb_true_iff in E6. exact E6. }
  match type of H with (if ?c then _ else _) = _ => destruct c eqn:E7 end.
  { apply after_reject1 in H; [|lia|unfold REJECTED_DUE_TO_ELONGATION; lia]. destruct H as (-> & -> & Ha).
    split; [auto|split; [|fields; auto]]. unfold justified; simpl. apply andb_true_iff in E7. rewrite negb_true_iff in E7. exact E7. }
  match type of H with (if ?c then _ else _) = _ => destruct c eqn:E8 end.
  { apply after_reject1 in H; [|lia|unfold REJECTED_DUE_TO_L_GRAD_B; lia]. destruct H as (-> & -> & Ha).
    split; [auto|split; [|fields; auto]]. unfold justified; simpl. apply andb_true_iff in E8. rewrite negb_true_iff in E8. exact E8. }
  unfold R0_crude_bad in E2. apply orb_false_iff in E2.
  destruct (at_least_order_r2 cfg) eqn:Er.
  2:{ injection H as <- <- <-. split; [|split; [|fields; auto]].
      - split; [rewrite upd_length; auto|]. intros j Hj. rewrite nth_incr by lia. unfold delta. rewrite Er.
        do 17 (destruct j as [|j]; [simpl; lia|]). lia.
      - unfold justified; simpl. fields. simpl in N4.
        intros k Hk; pose proof (violates_range _ _ Hk).
        destruct E2 as [E2a E2b].
        apply nb in E3, E5, E6, E7, E8.
        do 15 (destruct k as [|k]; [try lia; try (apply E3; exact Hk); try (apply N4; exact Hk); try (apply E5; exact Hk);
          try (apply E6; exact Hk); try (apply E7; exact Hk); try (apply E8; exact Hk);
          try (destruct Hk as [Hk|Hk]; unfold R_at_half_period in Hk; simpl in Hk; congruence);
          try (destruct Hk as (_ & Hk & _); congruence) |]); lia. }
  unfold attempt_r2 in H.
  inv_bind H q4 Hq4.
  rewrite incr_spec in H by (rewrite upd_length; unfold N_R2_SOLVES; lia). cbn [bind] in H. unfold N_R2_SOLVES in H.
  match type of H with (if ?c then _ else _) = _ => destruct c eqn:E9 end.
  { apply after_reject2 in H; [|lia|unfold REJECTED_DUE_TO_B20_VARIATION; lia|auto]. destruct H as (-> & -> & Ha).
    split; [auto|split; [|fields; auto]]. unfold justified; simpl. apply andb_true_iff in E9. rewrite negb_true_iff in E9. tauto. }
  inv_bind H q5 Hq5.
  match type of H with (if ?c then _ else _) = _ => destruct c eqn:E11 end.
  { apply after_reject2 in H; [|lia|unfold REJECTED_DUE_TO_D2_VOLUME_D_PSI2; lia|auto]. destruct H as (-> & -> & Ha).
    split; [auto|split; [|fields; auto]]. unfold justified; simpl. apply andb_true_iff in E11. rewrite negb_true_iff in E11. tauto. }
  match type of H with (if ?c then _ else _) = _ => destruct c eqn:E12 end.
  { apply after_reject2 in H; [|lia|unfold REJECTED_DUE_TO_DMERC; lia|auto]. destruct H as (-> & -> & Ha).
    split; [auto|split; [|fields; auto]]. unfold justified; simpl. apply andb_true_iff in E12. rewrite negb_true_iff in E12. tauto. }
  inv_bind H q6 Hq6.
  match type of H with (if ?c then _ else _) = _ => destruct c eqn:E10 end.
  { apply after_reject2 in H; [|lia|unfold REJECTED_DUE_TO_L_GRAD_GRAD_B; lia|auto]. destruct H as (-> & -> & Ha).
    split; [auto|split; [|fields; auto]]. unfold justified; simpl. apply andb_true_iff in E10. rewrite negb_true_iff in E10. tauto. }
  inv_bind H q7 Hq7.
  match type of H with (if ?c then _ else _) = _ => destruct c eqn:E13 end.
  { apply after_reject2 in H; [|lia|unfold REJECTED_DUE_TO_R_SINGULARITY; lia|auto]. destruct H as (-> & -> & Ha).
    split; [auto|split; [|fields; auto]]. unfold justified; simpl. apply andb_true_iff in E13. rewrite negb_true_iff in E13. tauto. }
  match type of H with (if ?c then _ else _) = _ => destruct c eqn:E14 end.
  { apply after_reject2 in H; [|lia|unfold REJECTED_DUE_TO_BETA; lia|auto]. destruct H as (-> & -> & Ha).
    split; [auto|split; [|fields; auto]]. unfold justified; simpl. apply andb_true_iff in E14. rewrite negb_true_iff in E14. tauto. }
  injection H as <- <- <-. split; [|split; [|fields; auto]].
  - split; [rewrite !upd_length; auto|]. intros j Hj. rewrite nth_incr by (rewrite upd_length; lia).
    rewrite nth_incr by lia. unfold delta. rewrite Er. do 17 (destruct j as [|j]; [simpl; lia|]). lia.
  - unfold justified; simpl. fields. simpl in N4.
    intros k Hk; pose proof (violates_range _ _ Hk).
    destruct E2 as [E2a E2b].
    apply nb in E3, E5, E6, E7, E8, E9, E10, E11, E12, E13, E14.
    do 15 (destruct k as [|k]; [try lia; try (apply E3; exact Hk); try (apply N4; exact Hk); try (apply E5; exact Hk);
      try (apply E6; exact Hk); try (apply E7; exact Hk); try (apply E8; exact Hk);
      try (destruct Hk as [Hk|Hk]; unfold R_at_half_period in Hk; simpl in Hk; congruence);
      destruct Hk as (Hk1 & _ & Hk2);
      try (apply E9; split; assumption); try (apply E10; split; assumption); try (apply E11; split; assumption);
      try (apply E12; split; assumption); try (apply E13; split; assumption); try (apply E14; split; assumption) |]); lia.
Qed.

(** ** Storing a keeper. *)
Definition block (b : nat) (s : sample F) : list F :=
  match b with 0 => s_R0c s | 1 => s_R0s s | 2 => s_Z0c s | _ => s_Z0s s end.

Lemma fourier_of_nth na (s : sample F) i b : sized na s -> i < na -> b < 4 ->
  nth_error (fourier_of s) (i + b * na) = nth_error (block b s) i.
Proof.
  intros (H1 & H2 & H3 & H4) Hi Hb. unfold fourier_of.
  destruct b as [|[|[|[|b]]]]; [| | | |lia]; simpl block.
  - rewrite nth_error_app1 by lia. f_equal; lia.
  - rewrite nth_error_app2 by lia. rewrite nth_error_app1 by lia. f_equal; lia.
  - rewrite nth_error_app2 by lia. rewrite nth_error_app2 by lia. rewrite nth_error_app1 by lia. f_equal; lia.
  - rewrite nth_error_app2 by lia. rewrite nth_error_app2 by lia. rewrite nth_error_app2 by lia. f_equal; lia.
Qed.
Lemma fourier_of_length na (s : sample F) : sized na s -> length (fourier_of s) = na * 4.
Proof. intros (H1 & H2 & H3 & H4). unfold fourier_of. rewrite !app_length. lia. Qed.

Lemma set_fourier_spec na c (m : matrix F) j (s : sample F) :
  mat_ok (na * 4) c m -> j < c -> sized na s ->
  exists m', set_fourier na m j s = Ok m' /\ mat_ok (na * 4) c m'
    /\ (forall k, k < (na * 4) * j -> nth_error (m_data m') k = nth_error (m_data m) k)
    /\ (forall i, i < na * 4 -> nth_error (m_data m') (i + (na * 4) * j) = nth_error (fourier_of s) i).
Proof.
  intros Hm Hj Hs. unfold set_fourier.
  destruct (for_loop_inv (fun k m' => mat_ok (na * 4) c m'
     /\ (forall x, x < (na * 4) * j -> nth_error (m_data m') x = nth_error (m_data m) x)
     /\ (forall i b, i < k -> b < 4 -> nth_error (m_data m') (i + b * na + (na * 4) * j) = nth_error (block b s) i))
    (fun j0 m => do v <- aget (s_R0c s) j0; do m <- matrix_set m (j0 + 0 * na) j v;
    do v <- aget (s_R0s s) j0; do m <- matrix_set m (j0 + 1 * na) j v;
    do v <- aget (s_Z0c s) j0; do m <- matrix_set m (j0 + 2 * na) j v;
    do v <- aget (s_Z0s s) j0; matrix_set m (j0 + 3 * na) j v) na m) as (m' & E & H1 & H2 & H3).
  - split; [auto|split; [auto|]]. intros; lia.
  - intros k x Hk (Hx & Hlow & Hblk). destruct Hs as (S1 & S2 & S3 & S4).
    assert (Hg : forall b, b < 4 -> exists v, nth_error (block b s) k = Some v).
    { intros b Hb. destruct (nth_error (block b s) k) eqn:En; eauto. apply nth_error_None in En.
      destruct b as [|[|[|[|b]]]]; simpl in En; lia. }
    destruct (Hg 0) as [v0 G0]; [lia|]. destruct (Hg 1) as [v1 G1]; [lia|].
    destruct (Hg 2) as [v2 G2]; [lia|]. destruct (Hg 3) as [v3 G3]; [lia|]. simpl in G0, G1, G2, G3.
    rewrite (aget_nth_error _ _ _ G0). cbn [bind].
    destruct (matrix_set_spec (na*4) c x (k + 0 * na) j v0) as (x0 & E0 & M0 & D0); auto; try lia. rewrite E0; cbn [bind].
    rewrite (aget_nth_error _ _ _ G1). cbn [bind].
    destruct (matrix_set_spec (na*4) c x0 (k + 1 * na) j v1) as (x1 & E1 & M1 & D1); auto; try lia. rewrite E1; cbn [bind].
    rewrite (aget_nth_error _ _ _ G2). cbn [bind].
    destruct (matrix_set_spec (na*4) c x1 (k + 2 * na) j v2) as (x2 & E2 & M2 & D2); auto; try lia. rewrite E2; cbn [bind].
    rewrite (aget_nth_error _ _ _ G3). cbn [bind].
    destruct (matrix_set_spec (na*4) c x2 (k + 3 * na) j v3) as (x3 & E3 & M3 & D3); auto; try lia. rewrite E3.
    exists x3. split; [auto|split; [auto|]].
    assert (Hlen : forall b, b < 4 -> k + b * na + na * 4 * j < length (m_data x)).
    { intros b Hb. destruct Hx as (_ & _ & ->). apply idx2_bound; nia. }
    rewrite D3, D2, D1, D0. split.
    + intros y Hy. rewrite !nth_error_upd_other by lia. auto.
    + intros i b Hi Hb. destruct (Nat.eq_dec i k) as [->|Hik].
      * destruct b as [|[|[|[|b]]]]; [| | | |lia]; simpl block.
        -- rewrite !nth_error_upd_other by lia. rewrite nth_error_upd_same; [auto|apply (Hlen 0); lia].
        -- rewrite !nth_error_upd_other by lia. rewrite nth_error_upd_same; [auto|rewrite !upd_length; apply Hlen; lia].
        -- rewrite !nth_error_upd_other by lia. rewrite nth_error_upd_same; [auto|rewrite !upd_length; apply Hlen; lia].
        -- rewrite nth_error_upd_same; [auto|rewrite !upd_length; apply Hlen; lia].
      * assert (i < k) by lia. rewrite <- Hblk by lia. destruct b as [|[|[|[|b]]]]; [| | | |lia]; rewrite !nth_error_upd_other by lia; reflexivity.
  - exists m'. split; [exact E|split; [auto|split; [auto|]]].
    intros i Hi. assert (na <> 0) by lia.
    rewrite (Nat.div_mod i na) by auto.
    replace (na * (i / na) + i mod na) with (i mod na + (i / na) * na) by lia.
    assert (i / na < 4) by (apply Nat.div_lt_upper_bound; lia).
    assert (i mod na < na) by (apply Nat.mod_upper_bound; lia).
    rewrite H3 by auto. rewrite fourier_of_nth with (na := na); auto.
Qed.

Definition buf_dims na (b : @buffers F) : Prop :=
  mat_ok 20 (max_keep_per_proc cfg) (b_params b) /\ mat_ok (na * 4) (max_keep_per_proc cfg) (b_fourier b)
  /\ length (b_int b) = max_keep_per_proc cfg.

Lemma kept_cons_none (q : qsc) (l : log) : kept ((q, None) :: l) = kept l ++ [q].
Proof. reflexivity. Qed.
Lemma kept_cons_some (q : qsc) k (l : log) : kept ((q, Some k) :: l) = kept l.
Proof. reflexivity. Qed.

Lemma store_ok na (l : log) b (q : qsc) :
  buf_dims na b -> buffer_ok na l b -> length (kept l) < max_keep_per_proc cfg -> sized na (q_in q) ->
  exists b', store na b (length (kept l)) q = Ok b' /\ buf_dims na b' /\ buffer_ok na ((q, None) :: l) b'.
Proof.
  intros (Dp & Df & Di) (Bp & Bf & Bi & Bs) Hj Hs. set (j := length (kept l)) in *.
  unfold store.
  destruct (set_column_spec 20 _ (b_params b) 0 j (params_of q) Dp) as (p' & Ep & Dp' & Hp); [simpl; lia|auto|].
  rewrite Ep. cbn [bind]. rewrite aset_ok by (unfold n_int_parameters; lia). cbn [bind].
  destruct (set_fourier_spec na _ (b_fourier b) j (q_in q) Df Hj Hs) as (f' & Ef & Df' & Hf1 & Hf2).
  rewrite Ef. cbn [bind]. eexists; split; [reflexivity|].
  split; [split; [auto|split; [auto|simpl; rewrite upd_length; auto]]|].
  unfold buffer_ok. rewrite kept_cons_none, app_length; cbn [b_params b_fourier b_int length].
  fold j. replace (j + 1) with (S j) by lia.
  assert (Hl20 : length (params_of q) = 20) by reflexivity.
  destruct Dp as (_ & _ & Lp), Dp' as (_ & _ & Lp'), Df as (_ & _ & Lf), Df' as (_ & _ & Lf').
  split; [|split; [|split]].
  - rewrite flat_map_app. cbn [flat_map]. rewrite app_nil_r. rewrite <- Bp.
    apply firstn_column.
    + intros k Hk. rewrite Hp. replace (0 + 20 * j <=? k) with false by (symmetry; apply Nat.leb_gt; lia). reflexivity.
    + intros i Hi. rewrite Hp. rewrite Hl20.
      replace (0 + 20 * j <=? i + 20 * j) with true by (symmetry; apply Nat.leb_le; lia).
      replace (i + 20 * j <? 0 + 20 * j + 20) with true by (symmetry; apply Nat.ltb_lt; lia).
      simpl andb. cbv iota. f_equal; lia.
    + auto.
    + congruence.
    + rewrite Lp. apply Nat.mul_le_mono_l. lia.
  - rewrite flat_map_app. cbn [flat_map]. rewrite app_nil_r. rewrite <- Bf.
    apply firstn_column; auto.
    + apply fourier_of_length; auto.
    + congruence.
    + rewrite Lf. apply Nat.mul_le_mono_l. lia.
  - rewrite map_app. cbn [map]. rewrite <- Bi.
    replace (S j) with (1 * S j) by lia. replace (firstn j (b_int b)) with (firstn (1 * j) (b_int b)) by (f_equal; lia).
    unfold n_int_parameters. replace (0 + 1 * j) with j by lia.
    apply firstn_column; auto.
    + intros k Hk. rewrite nth_error_upd_other; auto. lia.
    + intros i Hi. replace i with 0 by lia. replace (0 + 1 * j) with j by lia.
      rewrite nth_error_upd_same by lia. reflexivity.
    + rewrite upd_length; auto.
    + lia.
  - intros q' Hq'. apply in_app_or in Hq'. destruct Hq' as [Hq'|[->|[]]]; auto.
Qed.

(** ** Counters. *)
Lemma counts_step (l : log) f f' (q : qsc) v :
  counts_ok cfg l f -> after (upd f 0 (S (nth 0 f 0))) f' v ->
  (forall k, v = Some k -> 2 <= k <= 14) ->
  counts_ok cfg ((q, v) :: l) f'.
Proof.
  intros (Hl & H0 & Hk & H15 & H16) (Hl' & Ha) Hv.
  assert (Hn : forall k, k < 17 -> nth k f' 0 = nth k f 0 + (if k =? 0 then 1 else 0) + delta v k).
  { intros k Hk'. rewrite Ha by auto. rewrite nth_incr by lia. reflexivity. }
  split; [auto|split; [|split; [|split]]].
  - rewrite Hn by lia. simpl. destruct v as [k|]; [|lia].
    specialize (Hv k eq_refl). destruct k; simpl; lia.
  - intros k Hr. rewrite Hn by lia. rewrite Hk by lia. unfold rejected. cbn [filter snd].
    do 15 (destruct k as [|k]; [first [lia | destruct v as [v|]; simpl; [destruct (v =? _); simpl; lia|lia]]|]). lia.
  - rewrite Hn by lia. rewrite H15. unfold reached_sigma. cbn [filter snd delta Nat.eqb].
    destruct v as [v|]; [destruct (6 <=? v)|]; simpl; lia.
  - rewrite Hn by lia. rewrite H16. unfold reached_r2. cbn [filter snd delta Nat.eqb].
    destruct (at_least_order_r2 cfg); [destruct v as [v|]; [destruct (9 <=? v)|]|]; simpl; lia.
Qed.

Lemma counts_kept (l : log) f v : counts_ok cfg l f -> counts_ok cfg l (upd f 1 v).
Proof.
  intros (Hl & H0 & Hk & H15 & H16).
  assert (Hn : forall k, k <> 1 -> nth k (upd f 1 v) 0 = nth k f 0).
  { intros k Hne. rewrite nth_upd. apply Nat.eqb_neq in Hne. rewrite Hne. reflexivity. }
  split; [rewrite upd_length; auto|]. rewrite !Hn by lia.
  split; [auto|split; [|auto]]. intros k Hr. rewrite Hn by lia. auto.
Qed.

(** ** Invariant of the loop. *)
Section Run.
Variable na : nat.
Hypothesis pick_sized : forall g s, sized na (fst (pick g s)).
Notation proc := (@proc F G X).

Record inv (p : proc) : Prop := mkInv {
  inv_counts : counts_ok cfg (p_log p) (p_filters p);
  inv_j : p_j_scan p = length (kept (p_log p));
  inv_dims : buf_dims na (p_buf p);
  inv_buf : buffer_ok na (p_log p) (p_buf p);
  inv_just : Forall (justified o fabs cfg) (p_log p);
  inv_saves : forall sn, In sn (p_saves p) ->
     exists newer older, p_log p = newer ++ older /\ true_account cfg na older sn;
  inv_kept : length (kept (p_log p)) <= max_keep_per_proc cfg;
  inv_att : (0 < max_attempts_per_proc cfg)%Z -> (Z.of_nat (length (p_log p)) <= max_attempts_per_proc cfg)%Z }.

Lemma collect_inv (p : proc) : inv p -> exists p', collect p = Ok p' /\ inv p' /\ p_log p' = p_log p
  /\ p_keep_going p' = p_keep_going p /\ p_buf p' = p_buf p /\ p_gen p' = p_gen p /\ p_q p' = p_q p
  /\ p_j_scan p' = p_j_scan p
  /\ (exists sn, p_saves p' = sn :: p_saves p /\ true_account cfg na (p_log p) sn).
Proof.
  intros [Hc Hj Hd Hb Hju Hs Hk Ha]. unfold collect.
  assert (Hl : length (p_filters p) = 17) by apply Hc.
  rewrite aset_ok by (unfold KEPT; lia). cbn [bind].
  assert (Ht : true_account cfg na (p_log p)
     {| sn_filters := upd (p_filters p) KEPT (p_j_scan p); sn_buf := p_buf p; sn_j_scan := p_j_scan p |}).
  { split; [apply counts_kept; auto|split; [|split; auto]]. simpl. rewrite nth_upd. unfold KEPT. simpl.
    replace (1 <? length (p_filters p)) with true by (symmetry; apply Nat.ltb_lt; lia). auto. }
  eexists; split; [reflexivity|]. split; [|do 6 (split; [reflexivity|]); eexists; split; [reflexivity|exact Ht]].
  constructor; simpl; auto.
  - apply counts_kept; auto.
  - intros sn [<-|Hin]; [exists [], (p_log p); auto|auto].
Qed.

Lemma iteration_inv start now1 now2 (p : proc) p' go :
  inv p -> p_j_scan p < max_keep_per_proc cfg ->
  iteration o fabs pick ph cfg na start now1 now2 p = Ok (p', go) ->
  inv p' /\ (go = true -> p_j_scan p' < max_keep_per_proc cfg)
  /\ (exists newer, p_log p' = newer ++ p_log p).
Proof.
  intros Hi Hj H. unfold iteration in H.
  set (kg := if flt o (max_seconds cfg) (fsub o now1 start) then false else p_keep_going p) in *.
  assert (Hex : exists p1, inv p1 /\ p_log p1 = p_log p /\ p_j_scan p1 = p_j_scan p /\
     (do attempts <- aget (p_filters p1) ATTEMPTS;
  if (0 <? max_attempts_per_proc cfg)%Z && (max_attempts_per_proc cfg <=? Z.of_nat attempts)%Z then Ok (p1, false)
  else
    do filters <- incr (p_filters p1) ATTEMPTS;
    let '(s, g) := pick (p_gen p1) (q_in (p_q p1)) in
    let q := set_sample s (p_q p1) in
    do r <- attempt o fabs ph cfg filters q;
    let '(filters, q, verdict) := r in
    match verdict with
    | None =>
      do b <- store na (p_buf p1) (p_j_scan p1) q;
      let j := S (p_j_scan p1) in
      let kg := if max_keep_per_proc cfg <=? j then false else p_keep_going p1 in
      Ok (mkProc g q filters b j (p_checkpoint p1) kg (p_saves p1) ((q, verdict) :: p_log p1), kg)
    | Some _ =>
      Ok (mkProc g q filters (p_buf p1) (p_j_scan p1) (p_checkpoint p1) (p_keep_going p1) (p_saves p1) ((q, verdict) :: p_log p1),
          p_keep_going p1)
    end) = Ok (p', go)).
  { destruct (flt o (save_period cfg) (fsub o now2 (p_checkpoint p))).
    - destruct (collect_inv {| p_gen := p_gen p; p_q := p_q p; p_filters := p_filters p; p_buf := p_buf p;
         p_j_scan := p_j_scan p; p_checkpoint := now2; p_keep_going := kg; p_saves := p_saves p; p_log := p_log p |})
        as (p1 & E & I1 & L1 & _ & _ & _ & _ & J1 & _).
      { destruct Hi; constructor; auto. }
      rewrite E in H. cbn [bind] in H. exists p1. simpl in L1, J1. auto.
    - cbn [bind] in H. eexists. split; [|split; [|split; [|exact H]]]; auto. destruct Hi; constructor; auto. }
  clear H. destruct Hex as (p1 & I1 & L1 & J1 & H). rewrite <- J1 in Hj. rewrite <- L1.
  destruct I1 as [Hc Hjk Hd Hb Hju Hs Hk Ha].
  assert (Hl : length (p_filters p1) = 17) by apply Hc.
  rewrite (aget_ok _ ATTEMPTS 0) in H by (unfold ATTEMPTS; lia). cbn [bind] in H.
  destruct ((0 <? max_attempts_per_proc cfg)%Z && (max_attempts_per_proc cfg <=? Z.of_nat (nth ATTEMPTS (p_filters p1) 0%nat))%Z) eqn:Em.
  { injection H as <- <-. split; [constructor; auto|split; [congruence|exists []; auto]]. }
  rewrite incr_spec in H by (unfold ATTEMPTS; lia). cbn [bind] in H.
  destruct (pick (p_gen p1) (q_in (p_q p1))) as [s g] eqn:Ep.
  inv_bind H r Hr. destruct r as [[f' q'] v].
  destruct (attempt_ok _ _ _ _ _ ltac:(rewrite upd_length; exact Hl) Hr) as (Haf & Hjs & Hin).
  assert (Hsz : sized na (q_in q')).
  { rewrite Hin. simpl. specialize (pick_sized (p_gen p1) (q_in (p_q p1))). rewrite Ep in pick_sized. exact pick_sized. }
  assert (Hvr : forall k, v = Some k -> 2 <= k <= 14).
  { intros k ->. apply (violates_range k q'). exact Hjs. }
  assert (Hcnt : counts_ok cfg ((q', v) :: p_log p1) f') by (eapply counts_step; eauto).
  assert (Hatt : (0 < max_attempts_per_proc cfg)%Z -> (Z.of_nat (length ((q', v) :: p_log p1)) <= max_attempts_per_proc cfg)%Z).
  { intros Hm. apply andb_false_iff in Em. destruct Em as [Em|Em]; [apply Z.ltb_ge in Em; lia|].
    apply Z.leb_gt in Em. destruct Hc as (_ & H0 & _). unfold ATTEMPTS in Em. rewrite H0 in Em. cbn [length]. lia. }
  assert (Hsaves : forall sn, In sn (p_saves p1) ->
     exists newer older, (q', v) :: p_log p1 = newer ++ older /\ true_account cfg na older sn).
  { intros sn Hsn. destruct (Hs sn Hsn) as (nw & od & E & T). exists ((q', v) :: nw), od. rewrite E. auto. }
  destruct v as [k|].
  - injection H as <- <-. split; [|split; [intros _; exact Hj|exists [(q', Some k)]; reflexivity]].
    constructor; simpl; auto; rewrite ?kept_cons_some; auto.
  - rewrite Hjk in Hj. rewrite Hjk in H.
    destruct (store_ok na (p_log p1) (p_buf p1) q' Hd Hb Hj Hsz) as (b' & Eb & Hd' & Hb').
    rewrite Eb in H. cbn [bind] in H. injection H as <- <-.
    split; [|split; [|exists [(q', None)]; reflexivity]].
    + constructor; simpl; auto; rewrite kept_cons_none, app_length; cbn [length]; lia.
    + simpl. destruct (max_keep_per_proc cfg <=? S (length (kept (p_log p1)))) eqn:E; [congruence|].
      bprop. lia.
Qed.

Lemma loop_inv start clock : forall (p p' : proc) ended,
  inv p -> p_j_scan p < max_keep_per_proc cfg ->
  loop o fabs pick ph cfg na start clock p = Ok (p', ended) -> inv p'.
Proof.
  induction clock as [|[n1 n2] clock IH]; intros p p' ended Hi Hj H; cbn [loop] in H.
  - injection H as <- <-. auto.
  - inv_bind H r Hr. destruct r as [p1 go].
    destruct (iteration_inv _ _ _ _ _ _ Hi Hj Hr) as (Hi1 & Hg & _).
    destruct go; [eapply IH; eauto|]. injection H as <- <-. auto.
Qed.

Lemma init_inv g q start : inv (init_proc o cfg na g q start).
Proof.
  constructor; simpl; auto; try lia.
  - split; [reflexivity|split; [reflexivity|split; [|split; [reflexivity|]]]].
    + intros k Hk. unfold rejected; simpl. do 15 (destruct k as [|k]; [first [lia | reflexivity]|]). lia.
    + unfold reached_r2; simpl. destruct (at_least_order_r2 cfg); auto.
  - split; [|split]; [split; [auto|split; [auto|simpl; rewrite repeat_length; auto]]..|].
    simpl. rewrite repeat_length. lia.
  - unfold buffer_ok; simpl. rewrite !Nat.mul_0_r. simpl. repeat (split; [reflexivity|]). intros ? [].
Qed.

Lemma run_inv g q start clock p ended :
  1 <= max_keep_per_proc cfg ->
  run o fabs pick ph cfg na g q start clock = Ok (p, ended) -> 
  inv p /\ (ended = true -> exists sn rest, p_saves p = sn :: rest /\ true_account cfg na (p_log p) sn).
Proof.
  intros Hk H. unfold run in H. inv_bind H r Hr. destruct r as [p1 e].
  assert (I1 : inv p1) by (eapply loop_inv; [apply init_inv|simpl; lia|eauto]).
  destruct e.
  - destruct (collect_inv p1 I1) as (p2 & E & I2 & L & _ & _ & _ & _ & _ & sn & S1 & S2).
    rewrite E in H. cbn [bind] in H. injection H as <- <-. split; [auto|]. intros _. rewrite L. eauto.
  - injection H as <- <-. split; [auto|discriminate].
Qed.

(** ** When the loop ends. *)
Lemma iteration_progress start now1 now2 (p : proc) p' go :
  inv p -> p_j_scan p < max_keep_per_proc cfg -> p_keep_going p = true ->
  iteration o fabs pick ph cfg na start now1 now2 p = Ok (p', go) ->
  length (p_log p') <= S (length (p_log p)) /\
  (go = true -> p_keep_going p' = true /\ length (p_log p') = S (length (p_log p))
                /\ flt o (max_seconds cfg) (fsub o now1 start) = false) /\
  (go = false ->
     (0 < max_attempts_per_proc cfg /\ Z.of_nat (length (p_log p')) = max_attempts_per_proc cfg)%Z
     \/ length (kept (p_log p')) = max_keep_per_proc cfg
     \/ flt o (max_seconds cfg) (fsub o now1 start) = true).
Proof.
  intros Hi Hj Hkg H. unfold iteration in H. rewrite Hkg in H.
  set (kg := if flt o (max_seconds cfg) (fsub o now1 start) then false else true) in *.
  assert (Hex : exists p1, inv p1 /\ p_log p1 = p_log p /\ p_j_scan p1 = p_j_scan p /\ p_keep_going p1 = kg /\
     (do attempts <- aget (p_filters p1) ATTEMPTS;
  if (0 <? max_attempts_per_proc cfg)%Z && (max_attempts_per_proc cfg <=? Z.of_nat attempts)%Z then Ok (p1, false)
  else
    do filters <- incr (p_filters p1) ATTEMPTS;
    let '(s, g) := pick (p_gen p1) (q_in (p_q p1)) in
    let q := set_sample s (p_q p1) in
    do r <- attempt o fabs ph cfg filters q;
    let '(filters, q, verdict) := r in
    match verdict with
    | None =>
      do b <- store na (p_buf p1) (p_j_scan p1) q;
      let j := S (p_j_scan p1) in
      let kg := if max_keep_per_proc cfg <=? j then false else p_keep_going p1 in
      Ok (mkProc g q filters b j (p_checkpoint p1) kg (p_saves p1) ((q, verdict) :: p_log p1), kg)
    | Some _ =>
      Ok (mkProc g q filters (p_buf p1) (p_j_scan p1) (p_checkpoint p1) (p_keep_going p1) (p_saves p1) ((q, verdict) :: p_log p1),
          p_keep_going p1)
    end) = Ok (p', go)).
  { destruct (flt o (save_period cfg) (fsub o now2 (p_checkpoint p))).
    - destruct (collect_inv {| p_gen := p_gen p; p_q := p_q p; p_filters := p_filters p; p_buf := p_buf p;
         p_j_scan := p_j_scan p; p_checkpoint := now2; p_keep_going := kg; p_saves := p_saves p; p_log := p_log p |})
        as (p1 & E & I1 & L1 & K1 & _ & _ & _ & J1 & _).
      { destruct Hi; constructor; auto. }
      rewrite E in H. cbn [bind] in H. exists p1. simpl in L1, J1, K1. auto.
    - cbn [bind] in H. eexists. split; [|split; [|split; [|split; [|exact H]]]]; auto. destruct Hi; constructor; auto. }
  clear H. destruct Hex as (p1 & I1 & L1 & J1 & K1 & H). rewrite <- J1 in Hj. rewrite <- L1.
  destruct I1 as [Hc Hjk Hd Hb Hju Hs Hk Ha].
  assert (Hl : length (p_filters p1) = 17) by apply Hc.
  rewrite (aget_ok _ ATTEMPTS 0) in H by (unfold ATTEMPTS; lia). cbn [bind] in H.
  assert (Hatt : nth ATTEMPTS (p_filters p1) 0 = length (p_log p1)) by apply Hc.
  rewrite Hatt in H.
  destruct ((0 <? max_attempts_per_proc cfg)%Z && (max_attempts_per_proc cfg <=? Z.of_nat (length (p_log p1)))%Z) eqn:Em.
  { injection H as <- <-. split; [auto|split; [congruence|]]. intros _. left.
    apply andb_true_iff in Em. destruct Em as [E1 E2]. apply Z.ltb_lt in E1. apply Z.leb_le in E2.
    specialize (Ha E1). lia. }
  rewrite incr_spec in H by (unfold ATTEMPTS; lia). cbn [bind] in H.
  destruct (pick (p_gen p1) (q_in (p_q p1))) as [s g] eqn:Ep.
  inv_bind H r Hr. destruct r as [[f' q'] v].
  assert (Hkgt : kg = true -> flt o (max_seconds cfg) (fsub o now1 start) = false).
  { subst kg. destruct (flt o _ _); congruence. }
  assert (Hkgf : kg = false -> flt o (max_seconds cfg) (fsub o now1 start) = true).
  { subst kg. destruct (flt o _ _); congruence. }
  rewrite K1 in H.
  destruct v as [k|].
  - injection H as <- <-. simpl. split; [auto|split]; [intros E; auto|].
    intros E. right; right; auto.
  - inv_bind H b' Eb. injection H as <- <-. cbn [p_log p_keep_going length]. split; [auto|split].
    + intros E. destruct (max_keep_per_proc cfg <=? S (p_j_scan p1)); [discriminate|auto].
    + rewrite kept_cons_none, app_length. cbn [length].
      destruct (max_keep_per_proc cfg <=? S (p_j_scan p1)) eqn:E; [|auto].
      bprop. intros _. right; left. lia.
Qed.

Lemma loop_progress start clock : forall (p p' : proc) ended,
  inv p -> p_j_scan p < max_keep_per_proc cfg -> p_keep_going p = true ->
  loop o fabs pick ph cfg na start clock p = Ok (p', ended) ->
  length (p_log p') <= length (p_log p) + length clock /\
  (ended = false -> length (p_log p') = length (p_log p) + length clock /\
     Forall (fun c => flt o (max_seconds cfg) (fsub o (fst c) start) = false) clock) /\
  (ended = true ->
     (0 < max_attempts_per_proc cfg /\ Z.of_nat (length (p_log p')) = max_attempts_per_proc cfg)%Z
     \/ length (kept (p_log p')) = max_keep_per_proc cfg
     \/ exists c, In c clock /\ flt o (max_seconds cfg) (fsub o (fst c) start) = true) /\
  (forall pre c post, clock = pre ++ c :: post -> flt o (max_seconds cfg) (fsub o (fst c) start) = true ->
     length (p_log p') <= length (p_log p) + S (length pre)).
Proof.
  induction clock as [|[n1 n2] clock IH]; intros p p' ended Hi Hj Hk H; cbn [loop] in H.
  - injection H as <- <-. simpl. split; [lia|split; [intros; split; [lia|constructor]|split; [discriminate|]]].
    intros pre c post E. destruct pre; discriminate.
  - inv_bind H r Hr. destruct r as [p1 go].
    destruct (iteration_inv _ _ _ _ _ _ Hi Hj Hr) as (Hi1 & Hg & _).
    destruct (iteration_progress _ _ _ _ _ _ Hi Hj Hk Hr) as (Hb & Ht & Hf).
    destruct go.
    + destruct Ht as (K1 & L1 & T1); [auto|].
      destruct (IH _ _ _ Hi1 (Hg eq_refl) K1 H) as (B & E1 & E2 & E3). simpl.
      split; [lia|split; [|split]].
      * intros E. destruct (E1 E). split; [lia|constructor; auto].
      * intros E. destruct (E2 E) as [|[|(c & ? & ?)]]; eauto 6.
      * intros [|c0 pre] c post E Hc.
        -- simpl in E. injection E as <- <-. simpl in Hc. congruence.
        -- simpl in E. injection E as <- E. specialize (E3 pre c post E Hc). simpl. lia.
    + injection H as <- <-. simpl. split; [lia|split; [discriminate|split]].
      * intros _. destruct (Hf eq_refl) as [|[|]]; eauto 6.
      * intros pre c post E Hc. lia.
Qed.

(** ** Safety: no out-of-bounds access. *)
Lemma incr_safe f k : k < length f -> no_ub (incr f k).
Proof. intros. rewrite incr_spec by auto. apply no_ub_ok. Qed.
Lemma reject_safe f k (q : qsc) : k < length f -> no_ub (reject f k q).
Proof. intros. unfold reject. rewrite incr_spec by auto. apply no_ub_ok. Qed.

(** [J]: what is true of the object between two attempts, if it is enough for the next one. *)
Definition holds_between (J : qsc -> Prop) : Prop := forall f q g, length f = 17 -> J q ->
  no_ub (attempt o fabs ph cfg f (set_sample (fst (pick g (q_in q))) q)) /\
  forall f' q' v, attempt o fabs ph cfg f (set_sample (fst (pick g (q_in q))) q) = Ok (f', q', v) -> J q'.
(** [c] is the object at the end of an attempt that ended with [v]. *)
Definition attempted (J : qsc -> Prop) (cv : qsc * option nat) : Prop := exists f q g f', length f = 17 /\ J q /\
  attempt o fabs ph cfg f (set_sample (fst (pick g (q_in q))) q) = Ok (f', fst cv, snd cv).
(** Some attempt ended with the exception [w]. *)
Definition attempt_throws (J : qsc -> Prop) (w : String.string) : Prop := exists f q g, length f = 17 /\ J q /\
  attempt o fabs ph cfg f (set_sample (fst (pick g (q_in q))) q) = Throw w.
Section Between.
Variable J : qsc -> Prop.
Hypothesis HJ : holds_between J.
Lemma iteration_safe start now1 now2 (p : proc) :
  inv p -> p_j_scan p < max_keep_per_proc cfg -> J (p_q p) ->
  no_ub (iteration o fabs pick ph cfg na start now1 now2 p) /\
  (forall p' go, iteration o fabs pick ph cfg na start now1 now2 p = Ok (p', go) ->
    J (p_q p') /\ (Forall (attempted J) (p_log p) -> Forall (attempted J) (p_log p'))) /\
  forall w, iteration o fabs pick ph cfg na start now1 now2 p = Throw w -> attempt_throws J w.
Proof.
  intros Hi Hj HJq. unfold iteration.
  match goal with |- no_ub (bind ?x ?k) /\ _ => assert (C : exists p1, x = Ok p1 /\ inv p1 /\ p_j_scan p1 = p_j_scan p /\ p_q p1 = p_q p /\ p_log p1 = p_log p) end.
  { destruct (flt o (save_period cfg) _).
    - match goal with |- context [collect ?x] => destruct (collect_inv x) as (p2 & E & I2 & L1 & _ & _ & _ & L2 & L3 & _) end.
      { destruct Hi; constructor; auto. }
      exists p2. simpl in *. auto.
    - eexists. split; [reflexivity|]. simpl. split; auto. destruct Hi; constructor; auto. }
  destruct C as (p1 & -> & I1 & J1 & Q1 & G1). cbn [bind].
  destruct I1 as [Hc Hjk Hd Hb Hju Hs Hk Ha]. rewrite <- J1 in Hj. rewrite <- Q1 in HJq. rewrite <- G1.
  assert (Hl : length (p_filters p1) = 17) by apply Hc.
  rewrite (aget_ok _ ATTEMPTS 0) by (unfold ATTEMPTS; lia). cbn [bind].
  destruct (_ && _).
  { split; [apply no_ub_ok|]. split; [|discriminate]. intros p' go E. injection E as <- <-. auto. }
  rewrite incr_spec by (unfold ATTEMPTS; lia). cbn [bind].
  set (f1 := upd (p_filters p1) _ _). assert (Hl1 : length f1 = 17) by (unfold f1; rewrite upd_length; exact Hl).
  pose proof (HJ f1 (p_q p1) (p_gen p1) Hl1 HJq) as HA. pose proof (pick_sized (p_gen p1) (q_in (p_q p1))) as Psz.
  assert (Mk : forall f' q' v, attempt o fabs ph cfg f1 (set_sample (fst (pick (p_gen p1) (q_in (p_q p1)))) (p_q p1)) = Ok (f', q', v) -> attempted J (q', v)).
  { intros f' q' v E. exists f1, (p_q p1), (p_gen p1), f'. auto. }
  destruct (pick (p_gen p1) (q_in (p_q p1))) as [s g] eqn:Ep. cbn [fst] in *. destruct HA as (A1 & A2).
  destruct (attempt o fabs ph cfg f1 (set_sample s (p_q p1))) as [[[f' q'] v]|w|w] eqn:Er; cbn [bind].
  - specialize (A2 f' q' v eq_refl). specialize (Mk f' q' v eq_refl).
    destruct (attempt_ok _ _ _ _ _ Hl1 Er) as (Haf & Hjs & Hin).
    destruct v as [k|].
    { split; [apply no_ub_ok|]. split; [|discriminate]. intros p' go E. injection E as <- <-. simpl. auto. }
    rewrite Hjk in Hj |- *.
    assert (Hsz : sized na (q_in q')) by (rewrite Hin; exact Psz).
    destruct (store_ok na (p_log p1) (p_buf p1) q' Hd Hb Hj Hsz) as (b' & Eb & _).
    rewrite Eb. cbn [bind]. split; [apply no_ub_ok|]. split; [|discriminate]. intros p' go E. injection E as <- <-. simpl. auto.
  - split; [apply no_ub_throw|]. split; [discriminate|]. intros w' E. injection E as <-. exists f1, (p_q p1), (p_gen p1). rewrite Ep. auto.
  - exfalso. apply (A1 w). reflexivity.
Qed.

Lemma loop_safe start clock : forall (p : proc),
  inv p -> p_j_scan p < max_keep_per_proc cfg -> J (p_q p) -> Forall (attempted J) (p_log p) ->
  no_ub (loop o fabs pick ph cfg na start clock p) /\
  (forall p' go, loop o fabs pick ph cfg na start clock p = Ok (p', go) -> J (p_q p') /\ Forall (attempted J) (p_log p')) /\
  forall w, loop o fabs pick ph cfg na start clock p = Throw w -> attempt_throws J w.
Proof.
  induction clock as [|[n1 n2] clock IH]; intros p Hi Hj HJq Hg; cbn [loop].
  - split; [apply no_ub_ok|]. split; [|discriminate]. intros p' go E. injection E as <- <-. auto.
  - destruct (iteration_safe start n1 n2 p Hi Hj HJq) as (S1 & S2 & S3).
    destruct (iteration o fabs pick ph cfg na start n1 n2 p) as [[p1 go]|w|w] eqn:Hr; cbn [bind].
    + destruct (S2 p1 go eq_refl) as (J1 & G1). destruct (iteration_inv _ _ _ _ _ _ Hi Hj Hr) as (Hi1 & Hgo & _).
      destruct go; [apply IH; auto|]. split; [apply no_ub_ok|]. split; [|discriminate]. intros p' go E. injection E as <- <-. auto.
    + split; [apply no_ub_throw|]. split; [discriminate|]. intros w' E. injection E as <-. apply S3. reflexivity.
    + exfalso. apply (S1 w). reflexivity.
Qed.

Lemma run_between g q start clock : 1 <= max_keep_per_proc cfg -> J q ->
  no_ub (run o fabs pick ph cfg na g q start clock) /\
  (forall p e, run o fabs pick ph cfg na g q start clock = Ok (p, e) -> Forall (attempted J) (p_log p)) /\
  forall w, run o fabs pick ph cfg na g q start clock = Throw w -> attempt_throws J w.
Proof.
  intros Hk HJq. unfold run.
  destruct (loop_safe start clock (init_proc o cfg na g q start)) as (S1 & S2 & S3); [apply init_inv|simpl; lia|exact HJq|constructor|].
  destruct (loop o fabs pick ph cfg na start clock (init_proc o cfg na g q start)) as [[p e]|w|w] eqn:H; cbn [bind].
  - destruct (S2 p e eq_refl) as (_ & G1). assert (I1 : inv p) by (eapply loop_inv; [apply init_inv|simpl; lia|eauto]).
    destruct e; [|split; [apply no_ub_ok|split; [intros p' e' E; injection E as <- <-; exact G1|discriminate]]].
    destruct (collect_inv p I1) as (p2 & E & _ & L & _). rewrite E. cbn [bind]. split; [apply no_ub_ok|]. split; [|discriminate]. intros p' e' E'. injection E' as <- <-. rewrite L. exact G1.
  - split; [apply no_ub_throw|]. split; [discriminate|]. intros w' E. injection E as <-. apply S3. reflexivity.
  - exfalso. apply (S1 w). reflexivity.
Qed.
End Between.

Hypothesis Hph : ph_safe.
Ltac safe_step :=
  match goal with
  | |- no_ub (Ok _) => apply no_ub_ok
  | |- no_ub (reject _ _ _) => apply reject_safe; rewrite ?upd_length; unfold REJECTED_DUE_TO_R0_CRUDE, REJECTED_DUE_TO_R0,
       REJECTED_DUE_TO_HELICITY, REJECTED_DUE_TO_CURVATURE, REJECTED_DUE_TO_IOTA, REJECTED_DUE_TO_ELONGATION,
       REJECTED_DUE_TO_L_GRAD_B, REJECTED_DUE_TO_B20_VARIATION, REJECTED_DUE_TO_L_GRAD_GRAD_B,
       REJECTED_DUE_TO_D2_VOLUME_D_PSI2, REJECTED_DUE_TO_DMERC, REJECTED_DUE_TO_R_SINGULARITY, REJECTED_DUE_TO_BETA; lia
  | |- no_ub (bind (incr ?f ?k) _) => rewrite (incr_spec f k) by (rewrite ?upd_length; unfold N_SIGMA_EQ_SOLVES, N_R2_SOLVES; lia); cbn [bind]
  | |- no_ub (if ?c then _ else _) => destruct c
  | |- no_ub (bind _ _) => apply no_ub_bind; [|intros ? ?]
  | |- no_ub (let '(_, _) := ?x in _) => destruct x
  | |- no_ub (ph_init_axis _ _) => apply Hph
  | |- no_ub (ph_solve_sigma _ _) => apply Hph
  | |- no_ub (ph_r1_diagnostics _ _) => apply Hph
  | |- no_ub (ph_calculate_r2 _ _) => apply Hph
  | |- no_ub (ph_mercier _ _) => apply Hph
  | |- no_ub (ph_grad_grad_B _ _) => apply Hph
  | |- no_ub (ph_r_singularity _ _) => apply Hph
  end.

Lemma attempt_safe f q : length f = 17 -> no_ub (attempt o fabs ph cfg f q).
Proof.
  intros Hl. unfold attempt, attempt_r2, init_axis, solve_sigma_equation, r1_diagnostics, calculate_r2, mercier,
    calculate_grad_grad_B_tensor, calculate_r_singularity.
  repeat safe_step.
Qed.

Lemma run_safe g q start clock :
  1 <= max_keep_per_proc cfg -> no_ub (run o fabs pick ph cfg na g q start clock).
Proof.
  intros Hk. apply (run_between (fun _ => True)); auto. intros f q0 g0 Hl _. split; [|auto]. apply attempt_safe. exact Hl.
Qed.
End Run.
End Facts.
