(** Proofs about the message-passing model: order of steps does not matter, every run is
    finite, and a barrier count that does not match cannot be completed. *)
From Coq Require Import List Arith ZArith Lia.
From Verif Require Import Base BaseFacts Star.
Import ListNotations.
Local Open Scope nat_scope.

Section Facts.
Context {M A : Type}.
Notation state := (state M A).
Notation rprog := (rprog M A).

Lemma upd_comm {B} (l : list B) i j x y : i <> j -> upd (upd l i x) j y = upd (upd l j y) i x.
Proof.
  revert i j; induction l as [|b l IH]; intros [|i] [|j] H; simpl; auto; try lia. f_equal. apply IH. lia.
Qed.
Lemma upd_upd {B} (l : list B) i x y : upd (upd l i x) i y = upd l i y.
Proof. revert i; induction l as [|b l IH]; intros [|i]; simpl; auto. f_equal. apply IH. Qed.
Lemma nth_error_lt {B} (l : list B) i x : nth_error l i = Some x -> i < length l.
Proof. intros H. apply nth_error_Some. congruence. Qed.

Lemma neo {B} (l : list B) i j x y : nth_error l j = Some y -> i <> j -> nth_error (upd l i x) j = Some y.
Proof. intros. rewrite nth_error_upd_other; auto. Qed.

Lemma diamond (s t u : state) : step s t -> step s u -> t = u \/ exists v, step t v /\ step u v.
Proof.
  intros H1 H2. destruct H1 as [r ls i m a q H1|k ls i m a q H1|k ls i m a H1|r ls H1].
  - inversion H2 as [r' ls' i0 m0 a0 q0 N2|k' ls' i0 m0 a0 q0 N2|k' ls' i0 m0 a0 N2|r' ls' N2]; subst.
    + destruct (Nat.eq_dec i i0) as [->|Hne]; [left; congruence|right].
      eexists; split; [eapply StepBuffer, neo; eauto|].
      rewrite upd_comm by auto. apply StepBuffer, neo; auto.
    + right. destruct (Nat.eq_dec i i0) as [->|Hne].
      * rewrite H1 in N2. injection N2 as <- ->. eexists; split.
        -- simpl. eapply StepRecv. rewrite nth_error_upd_same by (eapply nth_error_lt; eauto). reflexivity.
        -- rewrite upd_upd. rewrite <- (upd_upd ls i0 (LSend true m :: a, q0) (a, q0 ++ [m])).
           apply StepBuffer. rewrite nth_error_upd_same by (eapply nth_error_lt; eauto). reflexivity.
      * eexists; split; [eapply StepRecv, neo; eauto|].
        rewrite upd_comm by auto. apply StepBuffer, neo; auto.
    + right. destruct (Nat.eq_dec i i0) as [->|Hne]; [congruence|].
      eexists; split; [eapply StepSync, neo; eauto|].
      rewrite upd_comm by auto. apply StepBuffer, neo; auto.
    + exfalso. rewrite Forall_forall in N2. destruct (N2 _ (nth_error_In _ _ H1)) as (? & ? & ?). discriminate.
  - inversion H2 as [r' ls' i0 m0 a0 q0 N2|k' ls' i0 m0 a0 q0 N2|k' ls' i0 m0 a0 N2|r' ls' N2]; subst.
    + right. destruct (Nat.eq_dec i i0) as [->|Hne].
      * rewrite H1 in N2. injection N2 as -> <-. eexists; split.
        -- apply StepBuffer. rewrite nth_error_upd_same by (eapply nth_error_lt; eauto). reflexivity.
        -- rewrite upd_upd. rewrite <- (upd_upd ls i0 (a0, (m :: q) ++ [m0]) (a0, q ++ [m0])).
           eapply StepRecv. simpl. rewrite nth_error_upd_same by (eapply nth_error_lt; eauto). reflexivity.
      * eexists; split; [eapply StepBuffer, neo; eauto|].
        rewrite upd_comm by auto. eapply StepRecv, neo; eauto.
    + left. congruence.
    + congruence.
  - inversion H2 as [r' ls' i0 m0 a0 q0 N2|k' ls' i0 m0 a0 q0 N2|k' ls' i0 m0 a0 N2|r' ls' N2]; subst.
    + right. destruct (Nat.eq_dec i i0) as [->|Hne]; [congruence|].
      eexists; split; [eapply StepBuffer, neo; eauto|].
      rewrite upd_comm by auto. eapply StepSync, neo; eauto.
    + congruence.
    + left. congruence.
  - inversion H2 as [r' ls' i0 m0 a0 q0 N2|k' ls' i0 m0 a0 q0 N2|k' ls' i0 m0 a0 N2|r' ls' N2]; subst.
    + exfalso. rewrite Forall_forall in H1. destruct (H1 _ (nth_error_In _ _ N2)) as (? & ? & ?). discriminate.
    + left. reflexivity.
Qed.

Lemma step_commits n : forall (s f s' : state), steps n s f -> stuck f -> step s s' ->
  exists n', n = S n' /\ steps n' s' f.
Proof.
  induction n as [|n IH]; intros s f s' Hs Hf H; inversion Hs; subst.
  - exfalso. eapply Hf; eauto.
  - destruct (diamond _ _ _ H1 H) as [->|(v & Hv1 & Hv2)]; [eauto|].
    destruct (IH _ _ _ H2 Hf Hv1) as (n' & -> & Hn'). exists (S n'). split; [auto|]. econstructor; eauto.
Qed.

(** If one run reaches a final state, every run does, in the same number of steps. *)
Theorem runs_agree n (s f : state) : steps n s f -> stuck f ->
  forall m s', steps m s s' -> m <= n /\ steps (n - m) s' f.
Proof.
  intros Hs Hf m. revert n s Hs. induction m as [|m IH]; intros n s Hs s' H; inversion H; subst.
  - split; [lia|]. rewrite Nat.sub_0_r. auto.
  - destruct (step_commits _ _ _ _ Hs Hf H1) as (n' & -> & Hn').
    destruct (IH _ _ Hn' _ H2). split; [lia|]. simpl. auto.
Qed.

Lemma completed_stuck a (s : state) : completed a s -> stuck s.
Proof.
  intros [H1 H2] t Ht. rewrite Forall_forall in H2. destruct Ht; simpl in *; try discriminate.
  specialize (H2 _ (nth_error_In _ _ H)). discriminate.
Qed.

Lemma steps_app n m (s t u : state) : steps n s t -> steps m t u -> steps (n + m) s u.
Proof. induction 1; simpl; auto. intros. econstructor; eauto. Qed.

(** ** Every run is finite. *)
Fixpoint acts (ls : list (leaf M)) : nat := match ls with [] => 0 | l :: ls => length (fst l) + acts ls end.
Lemma acts_upd (ls : list (leaf M)) i l l' : nth_error ls i = Some l -> length (fst l) = S (length (fst l')) ->
  acts ls = S (acts (upd ls i l')).
Proof.
  revert i; induction ls as [|x ls IH]; intros [|i] H E; try discriminate; simpl in *.
  - injection H as ->. lia.
  - rewrite (IH _ H E). lia.
Qed.
Theorem runs_finite (s : state) : Acc (fun t s => step s t) s.
Proof.
  destruct s as [r ls]. revert ls.
  induction r as [a| |src k IH|r IH]; intros ls; remember (acts ls) as n eqn:En; revert ls En;
    induction n as [|n IHn]; intros ls En; constructor; intros t Ht; inversion Ht; subst;
    try (match goal with H : nth_error ?L ?i = Some (LSend true ?m :: ?a, ?q) |- _ =>
           first [apply IHn; apply eq_add_S; rewrite En; exact (acts_upd L i _ (a, q ++ [m]) H eq_refl) | exfalso; rewrite (acts_upd L i _ (a, q ++ [m]) H eq_refl) in En; discriminate En] end);
    try apply IH; auto.
Qed.

(** ** Barriers. *)
Inductive Bars : nat -> rprog -> Prop :=
| BDone a : Bars 0 (RDone a)
| BFail b : Bars b RFail
| BRecv b i k : (forall m, Bars b (k m)) -> Bars b (RRecv i k)
| BBar b r : Bars b r -> Bars (S b) (RBarrier r).
Definition bars (l : list (lact M)) : nat :=
  length (filter (fun a => match a with LBarrier => true | _ => false end) l).

Definition zbars (l : leaf M) : Z := Z.of_nat (bars (fst l)).

Lemma bars_invariant (s t : state) b (d : list Z) : step s t ->
  Bars b (st_root s) -> map zbars (st_leaves s) = map (fun x => (x + Z.of_nat b)%Z) d ->
  exists b', Bars b' (st_root t) /\ map zbars (st_leaves t) = map (fun x => (x + Z.of_nat b')%Z) d.
Proof.
  intros Ht Hb Hd.
  assert (Hu : forall ls i (l l' : leaf M), nth_error ls i = Some l -> zbars l = zbars l' ->
     map zbars (upd ls i l') = map zbars ls).
  { intros ls. induction ls as [|x ls IH]; intros [|i] l l' H1 H2; try discriminate; simpl in *; auto.
    - injection H1 as ->. congruence.
    - f_equal. eauto. }
  destruct Ht; simpl in *.
  - exists b. split; auto. rewrite <- Hd. eapply Hu; eauto.
  - inversion Hb; subst. exists b. split; auto. rewrite <- Hd. eapply Hu; eauto.
  - inversion Hb; subst. exists b. split; auto. rewrite <- Hd. eapply Hu; eauto.
  - inversion Hb; subst. exists b0. split; auto. clear Hb H2. revert d Hd.
    induction H as [|l ls (a & q & ->) Hf IH]; intros [|x d] Hd; simpl in *; try discriminate; auto.
    injection Hd as E1 E2. f_equal; [|auto]. unfold zbars, bars in *. simpl in *. lia.
Qed.

(** If some sender has a different number of barriers to go through than process 0, no run
    completes. *)
Theorem barrier_mismatch_never_completes (s : state) b i l :
  Bars b (st_root s) -> nth_error (st_leaves s) i = Some l -> bars (fst l) <> b ->
  forall n a t, steps n s t -> ~ completed a t.
Proof.
  intros Hb Hi Hne n a t Hs.
  assert (exists d, map zbars (st_leaves s) = map (fun x => (x + Z.of_nat b)%Z) d
                    /\ exists x, nth_error d i = Some x /\ x <> 0%Z) as (d & Hd & x & Hx & Hx0).
  { exists (map (fun l => zbars l - Z.of_nat b)%Z (st_leaves s)). split.
    - rewrite map_map. apply map_ext. intros l'. lia.
    - exists (zbars l - Z.of_nat b)%Z. split; [apply (map_nth_error (fun l => (zbars l - Z.of_nat b)%Z)); exact Hi|].
      unfold zbars. lia. }
  clear Hi Hne. revert b Hb Hd. induction Hs as [s|n s t u H1 H2 IH]; intros b Hb Hd [C1 C2].
  - rewrite C1 in Hb. inversion Hb; subst b.
    assert (E : nth_error (map zbars (st_leaves s)) i = nth_error (map (fun x => (x + Z.of_nat 0)%Z) d) i) by congruence.
    rewrite (map_nth_error (fun x => (x + Z.of_nat 0)%Z) i d Hx) in E.
    destruct (nth_error (st_leaves s) i) as [l'|] eqn:El.
    + rewrite (map_nth_error zbars i _ El) in E.
      rewrite Forall_forall in C2. unfold zbars in E. rewrite (C2 _ (nth_error_In _ _ El)) in E.
      injection E. unfold bars; simpl. lia.
    + apply nth_error_None in El. assert (nth_error (map zbars (st_leaves s)) i = None)
        by (apply nth_error_None; rewrite map_length; exact El). congruence.
  - destruct (bars_invariant _ _ _ d H1 Hb Hd) as (b' & Hb' & Hd'). apply (IH _ Hb' Hd'). split; auto.
Qed.

(** ** Delivering a message. *)
Lemma deliver i (k : M -> rprog) ls e m a :
  nth_error ls i = Some (LSend e m :: a, []) ->
  exists n, steps n (mkState (RRecv i k) ls) (mkState (k m) (upd ls i (a, []))).
Proof.
  intros H. destruct e.
  - exists 2. econstructor; [apply StepBuffer; eauto|]. simpl.
    econstructor; [|constructor].
    replace (upd ls i (a, [])) with (upd (upd ls i (a, [m])) i (a, [])) by apply upd_upd.
    apply StepRecv. rewrite nth_error_upd_same by (eapply nth_error_lt; eauto). reflexivity.
  - exists 1. econstructor; [apply StepSync; eauto|constructor].
Qed.

(** ** Every run can be continued to a state where nobody can move. *)
Definition at_barrier (l : leaf M) : bool := match fst l with LBarrier :: _ => true | _ => false end.
Definition can_buffer (l : leaf M) : bool := match fst l with LSend true _ :: _ => true | _ => false end.

Lemma step_dec (s : state) : (exists t, step s t) \/ stuck s.
Proof.
  destruct s as [r ls].
  destruct (existsb can_buffer ls) eqn:Eb.
  { left. apply existsb_exists in Eb. destruct Eb as (l & Hin & Hc).
    apply In_nth_error in Hin. destruct Hin as (i & Hi). destruct l as [[|[[] m|] a] q]; try discriminate.
    eexists. eapply StepBuffer. exact Hi. }
  assert (Hnb : forall i m a q, nth_error ls i = Some (LSend true m :: a, q) -> False).
  { intros i m a q Hi. assert (existsb can_buffer ls = true); [|congruence].
    apply existsb_exists. exists (LSend true m :: a, q). split; [eapply nth_error_In; eauto|reflexivity]. }
  destruct r as [a| |i k|r].
  - right. intros t Ht. inversion Ht; subst; eapply Hnb; eassumption.
  - right. intros t Ht. inversion Ht; subst; eapply Hnb; eassumption.
  - destruct (nth_error ls i) as [[a q]|] eqn:Ei.
    + destruct q as [|m q]; [|left; eexists; eapply StepRecv; exact Ei].
      destruct a as [|[[] m|] a].
      * right. intros t Ht. inversion Ht; subst; first [eapply Hnb; eassumption | match goal with H1 : nth_error ls ?j = Some _, H2 : nth_error ls ?j = _ |- _ => pose proof (eq_trans (eq_sym H1) H2); discriminate end].
      * exfalso; eapply Hnb; eauto.
      * left. eexists. eapply StepSync. exact Ei.
      * right. intros t Ht. inversion Ht; subst; first [eapply Hnb; eassumption | match goal with H1 : nth_error ls ?j = Some _, H2 : nth_error ls ?j = _ |- _ => pose proof (eq_trans (eq_sym H1) H2); discriminate end].
    + right. intros t Ht. inversion Ht; subst; first [eapply Hnb; eassumption | match goal with H1 : nth_error ls ?j = Some _, H2 : nth_error ls ?j = _ |- _ => pose proof (eq_trans (eq_sym H1) H2); discriminate end].
  - destruct (forallb at_barrier ls) eqn:Ef.
    + left. eexists. eapply StepBarrier. rewrite forallb_forall in Ef. apply Forall_forall.
      intros [[|[]] q] Hin; specialize (Ef _ Hin); try discriminate. eauto.
    + right. intros t Ht. inversion Ht; subst; [eapply Hnb; eauto|].
      assert (forallb at_barrier ls = true); [|congruence]. apply forallb_forall.
      match goal with H : Forall _ ls |- _ => rewrite Forall_forall in H; intros l Hin; destruct (H _ Hin) as (? & ? & ->) end.
      reflexivity.
Qed.

Theorem every_run_ends (s : state) : exists n t, steps n s t /\ stuck t.
Proof.
  induction (runs_finite s) as [s _ IH].
  destruct (step_dec s) as [[t Ht]|Hs].
  - destruct (IH t Ht) as (n & u & Hn & Hu). exists (S n), u. split; [econstructor; eauto|auto].
  - exists 0, s. split; [constructor|auto].
Qed.
End Facts.
