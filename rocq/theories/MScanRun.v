(** Facts about complete parameter scans: the exchange of Farm.v with the evaluations, the
    storing and the saving of MScan.v. *)
From Coq Require Import String ZArith List Bool Arith Lia Permutation Sorted.
From Verif Require Import Base BaseFacts FloatOps Tensor TensorFacts Grid Farm FarmFacts MScan MScanSpec MScanFacts.
Import ListNotations.
Local Open Scope list_scope.
Local Open Scope nat_scope.

Section Run.
Context {F : Type} (o : fops F) (fabs : F -> F) (of_Z : Z -> F) {X : Type}.
Notation multiopt := (@multiopt F X).
Variable optimize : multiopt -> outcome multiopt.
Variable keep_all : bool.
Variable limits : string -> F.
Variable mo_ref : multiopt.
Variable dims : list (@dim F).
Variable n0 : nat.
Notation na := (scan_na mo_ref).
Notation n_all := (n_scan_all dims).
Notation point := (MScanSpec.point optimize mo_ref na dims).
Hypothesis shapes : forall idx mo mo', set_dims na dims idx mo_ref = Ok mo -> optimize mo = Ok mo' -> shaped na n0 mo'.
Notation mem_ok := (mem_ok o na n0).
Notation good := (good o fabs optimize keep_all limits mo_ref na dims).
Notation evaluates := (MScan.evaluates o fabs optimize keep_all limits mo_ref dims na).
Notation store := (store_result o na).
Notation save := (save_results o of_Z na n_all).
Notation start := (scan_start o mo_ref dims).
Notation steps nw e := (scan_steps o fabs of_Z optimize keep_all limits mo_ref dims nw e).
Notation output := (scan_output o of_Z mo_ref dims).
Notation expected := (expected o fabs of_Z keep_all limits na).
Notation d0 nw := (data0 o na n_all (S nw)).

Lemma memory0_ok : mem_ok (memory0 o na).
Proof.
  unfold MScanFacts.mem_ok, memory0. cbn [me_ints me_floats]. rewrite !repeat_length. repeat split; auto.
  intros. apply nth_repeat.
Qed.
Lemma good_step me j me' : mem_ok me -> j < n_all -> evaluates me j (Ok me') -> mem_ok me' /\ good j (me_ints me') (me_floats me').
Proof. intros Hm _ He. eapply evaluates_good; eauto. Qed.
Lemma evaluates_some me j : mem_ok me -> j < n_all -> exists r, evaluates me j r.
Proof. intros _ _. eexists. exists (fzero o). reflexivity. Qed.

Section One.
Variable nw : nat.
Variable e : env.
Hypothesis procs : 1 <= nw /\ nw <= n_all.
Notation Reach := (Reach me_ints me_floats store nw n_all mem_ok good (d0 nw)).

Lemma start_inv : Inv me_ints me_floats store nw n_all mem_ok good (d0 nw) (start nw) 0 0 (repeat Free nw) [].
Proof.
  apply inv_initial; [exact procs|apply repeat_length|]. apply Forall_forall. intros x Hx. apply repeat_spec in Hx. subst. apply memory0_ok.
Qed.
Lemma run_reach n s : steps nw e n (start nw) s -> Reach s.
Proof.
  intros H. eapply reach_steps with (evaluates := evaluates); [exact procs|apply good_step|exact H|]. exists 0, 0, (repeat Free nw), []. apply start_inv.
Qed.

(** The results that go with stored entries. *)
Lemma results_of stored :
  Forall (fun x => good (en_index x) (en_ip x) (en_fp x)) stored -> Forall (fun j => j < n_all) (map en_index stored) ->
  Forall2 (fun j mo => point j = Ok mo) (MScanFacts.received stored n_all) (results optimize mo_ref na dims stored n_all)
  /\ Forall (shaped na n0) (results optimize mo_ref na dims stored n_all).
Proof.
  intros Hg Hb.
  assert (Pt : forall j, In j (MScanFacts.received stored n_all) -> exists mo, point j = Ok mo /\ res optimize mo_ref na dims j = mo /\ shaped na n0 mo).
  { intros j Hj. unfold MScanFacts.received in Hj. apply filter_In in Hj. destruct Hj as (_ & Hj). apply inb_spec in Hj.
    apply in_map_iff in Hj. destruct Hj as (x & <- & Hx). rewrite Forall_forall in Hg. destruct (Hg _ Hx) as (mo & Hp & _).
    exists mo. split; auto. unfold res. rewrite Hp. split; auto. unfold MScanSpec.point in Hp.
    destruct (set_dims _ _ _ _) as [m1| |] eqn:E; cbn [bind] in Hp; try discriminate. eapply shapes; eauto. }
  unfold results. split.
  - clear -Pt. induction (MScanFacts.received stored n_all) as [|j l IH]; cbn [map]; constructor.
    + destruct (Pt j (or_introl eq_refl)) as (mo & Hp & -> & _). auto.
    + apply IH. intros j' Hj'. apply Pt. right; auto.
  - apply Forall_forall. intros mo Hm. apply in_map_iff in Hm. destruct Hm as (j & <- & Hj). destruct (Pt j Hj) as (mo & _ & -> & H). auto.
Qed.
Lemma workers_lt (stored : list (@entry (list Z) (list F))) : Forall (fun x => en_worker x < nw) stored -> Forall (fun x => S (en_worker x) < S nw) stored.
Proof. intros H. eapply Forall_impl; [|exact H]. cbn beta. intros. lia. Qed.

Lemma save_stored stored d : store_all store stored (d0 nw) = Ok d ->
  Forall (fun x => good (en_index x) (en_ip x) (en_fp x)) stored -> Forall (fun x => en_worker x < nw) stored ->
  NoDup (map en_index stored) -> Forall (fun x => x < n_all) (map en_index stored) ->
  save d = Ok (expected (results optimize mo_ref na dims stored n_all)).
Proof.
  intros Hd Hg Hw Hn Hb.
  destruct (store_all_holds o fabs optimize keep_all limits mo_ref na dims n_all (S nw) stored [] (d0 nw)) as (d' & E & H); auto.
  - apply holds_data0.
  - apply workers_lt; auto.
  - rewrite Hd in E. injection E as <-. eapply save_spec; eauto.
Qed.

Lemma received_all stored : Permutation (map en_index stored) (seq 0 n_all) -> @MScanFacts.received F stored n_all = seq 0 n_all.
Proof.
  intros P. unfold MScanFacts.received.
  assert (H : forall j, In j (seq 0 n_all) -> inb j (map en_index stored) = true).
  { intros j Hj. apply inb_spec. apply (Permutation_in j (Permutation_sym P)). auto. }
  revert H. generalize (seq 0 n_all). intros l. induction l as [|a l IH]; intros H; cbn [filter]; auto.
  rewrite H by (left; auto). f_equal. apply IH. intros; apply H; right; auto.
Qed.

Lemma end_output n s : steps nw e n (start nw) s -> s_master s = MEnd ->
  exists mos, Forall2 (fun j mo => point j = Ok mo) (seq 0 n_all) mos /\ Forall (shaped na n0) mos /\
    output s = Ok (expected mos).
Proof.
  intros H Hm. apply run_reach in H. destruct (end_stored _ _ _ _ _ procs _ _ _ _ H Hm) as (stored & Hd & Hg & Hw & Hp & _).
  assert (Hb : Forall (fun x => x < n_all) (map en_index stored)).
  { apply Forall_forall. intros x Hx. apply (Permutation_in x Hp) in Hx. apply in_seq in Hx. lia. }
  assert (Hn : NoDup (map en_index stored)) by (eapply Permutation_NoDup; [apply Permutation_sym; eauto|apply seq_NoDup]).
  destruct (results_of stored Hg Hb) as (A & B). rewrite received_all in A by auto.
  exists (results optimize mo_ref na dims stored n_all). split; [auto|]. split; [auto|]. unfold scan_output. eapply save_stored; eauto.
Qed.

Lemma run_saved n s : steps nw e n (start nw) s ->
  exists jss, Forall2 (fun js x => exists mos, Forall2 (fun j mo => point j = Ok mo) js mos /\ Forall (shaped na n0) mos /\ x = expected mos) jss (s_saved s)
    /\ StronglySorted (@incl nat) jss /\ Forall (fun js => StronglySorted lt js /\ incl js (map snd (s_log s))) jss.
Proof.
  intros H.
  destruct (saved_history evaluates me_ints me_floats store save nw n_all e procs mem_ok good good_step (d0 nw) n (start nw) s H
     0 0 (repeat Free nw) [] []) as (g & stops & stats & stored & sss & HI & A & B & C).
  { apply start_inv. }
  { split; [constructor|]. split; constructor. }
  destruct (stored_facts _ _ _ _ _ procs _ _ _ _ _ _ _ _ HI) as (Hd & Hg & Hw & Hn & Hb & Hl & _).
  exists (map (fun st => MScanFacts.received st n_all) sss).
  assert (Pre : forall st, In st sss -> Forall (fun x => good (en_index x) (en_ip x) (en_fp x)) st /\ Forall (fun x => en_worker x < nw) st /\
     NoDup (map en_index st) /\ Forall (fun x => x < n_all) (map en_index st) /\ incl (map en_index st) (map en_index stored)).
  { intros st Hst. rewrite Forall_forall in C. destruct (C _ Hst) as (more & E). subst stored.
    apply Forall_app in Hg. apply Forall_app in Hw. rewrite map_app in Hn, Hb. apply Forall_app in Hb.
    split; [tauto|]. split; [tauto|]. split; [|split; [tauto|]].
    - clear -Hn. induction (map en_index st) as [|a l IH]; constructor; inversion Hn; subst; [intros Hc; match goal with Q : ~ In _ _ |- _ => apply Q end; apply in_or_app; auto|auto].
    - rewrite map_app. apply incl_appl, incl_refl. }
  assert (Rin : forall st j, In j (@MScanFacts.received F st n_all) <-> j < n_all /\ In j (map en_index st)).
  { intros st j. unfold MScanFacts.received. rewrite filter_In, inb_spec, in_seq. split; intros (P1 & P2); split; auto; lia. }
  split; [|split].
  - clear B C. revert Pre. induction A as [|st x sss saved (d & E & Hs) A IH]; intros Pre; cbn [map]; constructor.
    + destruct (Pre st (or_introl eq_refl)) as (G & W & N & Bd & _). exists (results optimize mo_ref na dims st n_all).
      destruct (results_of st G Bd) as (R1 & R2). split; [auto|]. split; [auto|].
      rewrite (save_stored st d E G W N Bd) in Hs. injection Hs as <-. reflexivity.
    + apply IH. intros; apply Pre; right; auto.
  - clear -B Rin. induction B as [|st sss S IH Hf]; cbn [map]; constructor; auto.
    apply Forall_forall. intros js Hj. apply in_map_iff in Hj. destruct Hj as (st' & <- & Hst'). rewrite Forall_forall in Hf.
    destruct (Hf _ Hst') as (more & ->). intros j Hj. apply Rin in Hj. apply Rin. rewrite map_app. split; [tauto|]. apply in_or_app. tauto.
  - apply Forall_forall. intros js Hj. apply in_map_iff in Hj. destruct Hj as (st & <- & Hst). split.
    + unfold MScanFacts.received. clear. generalize 0 at 1. induction n_all as [|n IH]; intros b; cbn [seq filter]; [constructor|].
      assert (Hf : Forall (lt b) (filter (fun j => inb j (map en_index st)) (seq (S b) n))).
      { apply Forall_forall. intros x Hx. apply filter_In in Hx. destruct Hx as (Hx & _). apply in_seq in Hx. lia. }
      destruct (inb b (map en_index st)); [constructor; auto|auto].
    + intros j Hj. apply Rin in Hj. destruct (Pre _ Hst) as (_ & _ & _ & _ & Inc). destruct Hj as (_ & Hj). apply Inc in Hj.
      apply in_map_iff in Hj. destruct Hj as (x & <- & Hx).
      apply in_map_iff. exists (en_worker x, en_index x). split; auto. apply Hl. apply in_map_iff. exists x. auto.
Qed.

Lemma run_fail n s : steps nw e n (start nw) s -> scan_step o fabs of_Z optimize keep_all limits mo_ref dims nw e s Fail ->
  exists j, j < n_all /\ forall mo, point j <> Ok mo.
Proof.
  intros H Hf. apply run_reach in H.
  destruct (inv_fail evaluates me_ints me_floats store save nw n_all e procs mem_ok good (d0 nw) s H Hf)
    as [(me & j & r & Hm & Hj & (el & ->) & Hr)|[(stored & i & j & ip & fp & Hd & Hg & Hw & Hgj & Hi & Hn & Hb & Hs)|Hs]].
  - exists j. split; auto. intros mo Hp. destruct (eval_spec o fabs optimize keep_all limits mo_ref na n0 dims shapes el j me mo Hm Hp) as (me' & E & _).
    eapply Hr; eauto.
  - exfalso. inversion Hn; subst. inversion Hb; subst.
    destruct (store_all_holds o fabs optimize keep_all limits mo_ref na dims n_all (S nw) stored [] (d0 nw)) as (d' & E & Hh); auto.
    + apply holds_data0.
    + apply workers_lt; auto.
    + rewrite Hd in E. injection E as <-. cbn [app] in Hh.
      edestruct (store_step o fabs optimize keep_all limits mo_ref na dims n_all (S nw) stored (s_data s) i j ip fp) as (d2 & E2 & _); eauto; [lia|].
      eapply Hs; eauto.
  - exfalso. destruct (stored_so_far _ _ _ _ _ procs _ _ _ _ H) as (stored & Hd & Hg & Hw & Hn & Hb & _).
    eapply Hs. eapply save_stored; eauto.
Qed.
End One.
End Run.
