(** What an optimization does not change: the members of the configuration that it does not vary and that the routines of class Qsc do not change. *)
From Coq Require Import String ZArith List Arith Bool Lia.
From Verif Require Import Base BaseFacts FloatOps Tensor MScan Opt OptSpec.
Import ListNotations.
Local Open Scope list_scope.
Local Open Scope nat_scope.

Section Fixed.
Context {F : Type} (o : fops F) (fsqrt : F -> F) (of_Z : Z -> F) {Y : Type}.
Notation opt := (@stage F (@rest F Y)).
Notation qobj := (@MScan.qobj F).
Notation qextra := (@Opt.qextra F Y).
Variable rt : @routines F Y.
Variable gsl : nat -> opt -> Z -> list F -> list (@event F).
Variable junk : nat -> list F.
Variable base : qobj -> qextra -> Prop.
Hypothesis base_allocate : forall q x q' x', base q x -> q_allocate rt q x = Ok (q', x') -> base q' x'.
Hypothesis base_init : forall q x q' x', base q x -> q_init rt q x = Ok (q', x') -> base q' x'.
Hypothesis base_calculate : forall q x q' x', base q x -> q_calculate rt q x = Ok (q', x') -> base q' x'.
Definition others (q q' : qobj) : Prop := forall m, ~ In m varied_numbers -> qo_num q' m = qo_num q m.
Hypothesis base_change : forall q x q' x', base q x -> others q q' -> qx_nfp x' = qx_nfp x -> qx_order_r_option x' = qx_order_r_option x -> qx_rest x' = qx_rest x -> base q' x'.

Definition gives {A} (P : A -> Prop) (x : outcome A) : Prop := forall a, x = Ok a -> P a.
Lemma gives_bind {A B} (P : A -> Prop) (Q : B -> Prop) x f : gives P x -> (forall a, P a -> gives Q (f a)) -> gives Q (bind x f).
Proof. unfold gives. destruct x; cbn [bind]; intros H K b E; try discriminate. eapply K; eauto. Qed.
Lemma gives_any {A B} (Q : B -> Prop) (x : outcome A) f : (forall a, gives Q (f a)) -> gives Q (bind x f).
Proof. intros H. apply (gives_bind (fun _ => True)); [intros ? _; exact I|auto]. Qed.
Lemma gives_ok {A} (P : A -> Prop) a : P a -> gives P (Ok a). Proof. intros H b [= <-]. exact H. Qed.
Lemma gives_throw {A} (P : A -> Prop) w : gives P (Throw w). Proof. intros b E; discriminate. Qed.
Lemma gives_for {S} (P : S -> Prop) body : (forall k s, P s -> gives P (body k s)) -> forall n s, P s -> gives P (for_loop n body s).
Proof.
  intros H n. unfold for_loop. generalize 0. induction n as [|n IH]; intros k s Hs; cbn [for_from]; [apply gives_ok; exact Hs|].
  eapply gives_bind; [apply H; exact Hs|]. intros a Ha. apply IH. exact Ha.
Qed.
Definition B (s : opt) : Prop := base (st_q s) (r_q (st_rest s)).

Lemma others_refl q : others q q. Proof. intros m _. reflexivity. Qed.
Lemma others_trans q1 q2 q3 : others q1 q2 -> others q2 q3 -> others q1 q3.
Proof. intros H K m Hm. rewrite K, H by exact Hm. reflexivity. Qed.
Lemma set_axis_others a l q : others q (set_axis a l q). Proof. destruct a; intros m _; reflexivity. Qed.
Lemma set_num_others m v q : In m varied_numbers -> others q (set_q_num m v q).
Proof. intros H m' Hm. cbn. unfold set_num. destruct (String.eqb_spec m' m); [subst; contradiction|reflexivity]. Qed.
Lemma with_q_base q s : B s -> others (st_q s) q -> B (with_q q (r_q (st_rest s)) s).
Proof. intros H O. unfold B. cbn. eapply base_change; [exact H|exact O|reflexivity..]. Qed.
Lemma unpack_num_others r x m q0 st : In m varied_numbers -> others q0 (snd st) -> gives (fun st => others q0 (snd st)) (unpack_num (Y := Y) r x m st).
Proof.
  intros Hm H. unfold unpack_num. destruct (r_vary_num r m); [|apply gives_ok; exact H].
  apply gives_any. intros v. apply gives_ok. cbn [snd]. eapply others_trans; [exact H|apply set_num_others; exact Hm].
Qed.
Lemma unpack_axis_others r x a q0 st : others q0 (snd st) -> gives (fun st => others q0 (snd st)) (unpack_axis (Y := Y) r x a st).
Proof.
  intros H. unfold unpack_axis. apply (gives_for (fun st => others q0 (snd st))); [|exact H]. intros k st' H'. apply gives_any. intros v.
  destruct v; [|apply gives_ok; exact H']. apply gives_any. intros y. apply gives_any. intros l. apply gives_ok. cbn [snd]. eapply others_trans; [exact H'|apply set_axis_others].
Qed.
Lemma unpack_base x s : B s -> gives B (unpack_state_vector x s).
Proof.
  intros H. unfold unpack_state_vector.
  eapply gives_bind; [apply (unpack_num_others _ _ _ (st_q s)); [cbn; tauto|apply others_refl]|]. intros s1 H1.
  eapply gives_bind; [apply (unpack_num_others _ _ _ (st_q s)); [cbn; tauto|exact H1]|]. intros s2 H2.
  eapply gives_bind; [apply (unpack_num_others _ _ _ (st_q s)); [cbn; tauto|exact H2]|]. intros s3 H3.
  eapply gives_bind; [apply (unpack_num_others _ _ _ (st_q s)); [cbn; tauto|exact H3]|]. intros s4 H4.
  eapply gives_bind; [apply (unpack_axis_others _ _ _ (st_q s)); exact H4|]. intros s5 H5.
  eapply gives_bind; [apply (unpack_axis_others _ _ _ (st_q s)); exact H5|]. intros s6 H6.
  eapply gives_bind; [apply (unpack_axis_others _ _ _ (st_q s)); exact H6|]. intros s7 H7.
  eapply gives_bind; [apply (unpack_axis_others _ _ _ (st_q s)); exact H7|]. intros s8 H8.
  destruct (_ =? _); [|apply gives_throw]. apply gives_ok. apply with_q_base; assumption.
Qed.
Lemma on_q_base f s : (forall q x q' x', base q x -> f q x = Ok (q', x') -> base q' x') -> B s -> gives B (on_q f s).
Proof. intros H Hs. unfold on_q. destruct (f (st_q s) (r_q (st_rest s))) as [[q x]| |] eqn:E; cbn [bind]; try (intros ? K; discriminate K). apply gives_ok. unfold B. cbn. eapply H; [exact Hs|exact E]. Qed.
Lemma evaluate_base x s : B s -> gives B (evaluate o fsqrt of_Z rt x s).
Proof.
  intros H. unfold evaluate. eapply gives_bind; [apply unpack_base; exact H|]. intros s1 H1. eapply gives_bind; [apply on_q_base; [exact base_calculate|exact H1]|].
  intros s2 H2. unfold set_residuals. apply (gives_bind (fun y => B (fst y))); [|intros y Hy; apply gives_ok; exact Hy].
  apply gives_any. intros st. destruct (_ =? _); [|apply gives_throw]. apply gives_any. intros f. apply gives_ok. exact H2.
Qed.
Definition BL (st : opt * log) : Prop := B (fst st) /\ Forall (fun e => B (snd e)) (snd st).
Lemma run_event_base e st : BL st -> gives BL (run_event o fsqrt of_Z rt e st).
Proof.
  intros [H L]. destruct e as [x|x]; cbn [run_event].
  - eapply gives_bind; [apply evaluate_base; exact H|]. intros s Hs. apply gives_ok. split; [exact Hs|]. apply Forall_app. split; [exact L|]. repeat constructor. exact Hs.
  - eapply gives_bind; [apply evaluate_base; exact H|]. intros s Hs. unfold record.
    apply (gives_bind B); [|intros s2 Hs2; apply gives_ok; split; [exact Hs2|]; apply Forall_app; split; [exact L|]; repeat constructor; exact Hs2].
    apply gives_any. intros it. apply gives_any. intros ax. apply gives_any. intros l. apply gives_ok. exact Hs.
Qed.
Lemma run_events_base es : forall st, BL st -> gives BL (run_events o fsqrt of_Z rt es st).
Proof.
  induction es as [|e es IH]; intros st H; cbn [run_events]; [apply gives_ok; exact H|]. eapply gives_bind; [apply run_event_base; exact H|exact IH].
Qed.
Lemma init_residuals_base s : B s -> gives B (init_residuals o s).
Proof. intros H. unfold init_residuals. cbv zeta. destruct (_ <? _); [apply gives_throw|apply gives_ok; exact H]. Qed.
Lemma init_parameters_base s : B s -> gives B (init_parameters (Y := Y) (F := F) s).
Proof.
  intros H. unfold init_parameters. cbv zeta. do 4 (apply gives_any; intros ?). destruct (_ <? _); [apply gives_throw|apply gives_ok; exact H].
Qed.
Lemma prepare_base old j s : B s -> gives B (prepare o rt old j s).
Proof.
  intros H. unfold prepare. cbv zeta. set (s0 := set_rest _ s). assert (H0 : B s0) by exact H. clearbody s0. clear H.
  apply (gives_bind B).
  { destruct (0 <? j); [|apply gives_ok; exact H0]. apply (gives_bind B); [|intros s1 H1]; unfold free_mode; apply gives_any; intros l; apply gives_ok; assumption. }
  intros s1 H1. apply (gives_bind B).
  { destruct (0 <? length _).
    - apply gives_any. intros n. eapply gives_bind; [apply on_q_base; [exact base_allocate|]|intros s2 H2; apply init_residuals_base; exact H2].
      unfold B. cbn. eapply base_change; [exact H1|apply others_refl|reflexivity..].
    - destruct (j =? 0); [apply init_residuals_base; exact H1|apply gives_ok; exact H1]. }
  intros s2 H2. eapply gives_bind; [apply init_parameters_base; exact H2|]. intros s3 H3. apply on_q_base; [exact base_init|exact H3].
Qed.
Lemma refine_base old count : forall j st, BL st -> gives BL (refine o fsqrt of_Z rt gsl junk old j count st).
Proof.
  induction count as [|count IH]; intros j st H; cbn [refine]; [apply gives_ok; exact H|]. destruct (_ <=? _)%Z; [apply gives_ok; exact H|].
  eapply gives_bind; [apply prepare_base; apply H|]. intros s Hs. destruct (qx_order_r2p1 _); [|apply gives_ok; split; [exact Hs|apply H]].
  apply (gives_bind BL); [|intros st' H'; apply IH; exact H'].
  unfold minimize. apply gives_any. intros x0. cbv zeta. eapply gives_bind; [apply run_events_base; split; [exact Hs|apply H]|]. intros st' [H1 H2]. apply gives_ok. split; assumption.
Qed.
Lemma extend_axis_base old new a s : B s -> gives B (extend_axis o old new a s).
Proof. intros H. unfold extend_axis. apply gives_any. intros l. apply gives_ok. apply with_q_base; [exact H|apply set_axis_others]. Qed.
Lemma extend_vary_base old new a s : B s -> gives B (extend_vary (Y := Y) old new a s).
Proof. intros H. unfold extend_vary. apply gives_any. intros l. apply gives_ok. exact H. Qed.
Lemma add_modes_base s : B s -> gives B (add_modes o s).
Proof.
  intros H. unfold add_modes. cbv zeta.
  do 4 (eapply gives_bind; [apply extend_axis_base; eassumption|]; clear H; intros ? H). do 3 (eapply gives_bind; [apply extend_vary_base; eassumption|]; clear H; intros ? H).
  apply extend_vary_base. exact H.
Qed.
Lemma run_opt_base s : B s -> gives BL (run_opt o fsqrt of_Z rt gsl junk s).
Proof.
  intros H. unfold run_opt. apply (gives_bind B).
  { unfold Opt.allocate. eapply gives_bind; [apply on_q_base; [exact base_allocate|exact H]|]. intros s1 H1. cbv zeta. destruct (_ <? _)%Z; [apply gives_throw|]. apply gives_ok. exact H1. }
  intros s1 H1. unfold optimize_log. apply gives_any. intros _. cbv zeta. eapply gives_bind; [apply add_modes_base; exact H1|]. intros s2 H2. apply refine_base. split; [exact H2|constructor].
Qed.
End Fixed.
