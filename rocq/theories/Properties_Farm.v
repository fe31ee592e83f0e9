(** Properties C34 (every point of a parameter scan is evaluated exactly once) and C35 (the
    exchange of messages terminates). *)
From Coq Require Import String ZArith List Bool Arith Lia Permutation Wf_nat.
From Verif Require Import Base BaseFacts Farm FarmFacts.
Import ListNotations.
Local Open Scope list_scope.
Local Open Scope nat_scope.

(** ** C34 *)

(** At any moment of any execution, no index has been evaluated twice, and every evaluation was
    made by a worker that exists, of an index of the scan.  [s_log]: the evaluations made so far.
    This holds whatever the evaluations, the storing and the saving are, for every number of
    processes the program accepts and whichever sends are buffered. *)
Theorem scan_no_index_twice : forall {IP FP L D O : Type} (evaluates : L -> nat -> outcome L -> Prop)
    (ints : L -> IP) (floats : L -> FP) (store : nat -> IP -> FP -> D -> outcome D) (save : D -> outcome O)
    (n_procs n_all : nat) (e : env) (d0 : D) (mems : list L) n s,
  procs_accepted n_procs n_all = Ok tt -> length mems = n_procs - 1 ->
  steps evaluates ints floats store save (n_procs - 1) n_all e n (initial (n_procs - 1) n_all d0 mems) s ->
  NoDup (map snd (s_log s)) /\ Forall (fun x => fst x < n_procs - 1 /\ snd x < n_all) (s_log s).
Proof.
  intros IP FP L D O ev ints floats store save np n_all e d0 mems n s Hp Hl H.
  assert (procs : 1 <= np - 1 /\ np - 1 <= n_all).
  { unfold procs_accepted in Hp. destruct (Nat.ltb_spec np 2); [discriminate|]. destruct (Nat.ltb_spec n_all (np - 1)); [discriminate|]. lia. }
  pose (inv := fun _ : L => True). pose (good := fun (_ : nat) (_ : IP) (_ : FP) => True).
  assert (R : Reach ints floats store (np - 1) n_all inv good d0 s).
  { eapply reach_steps with (evaluates := ev); [exact procs| |exact H|].
    - intros; split; exact I.
    - exists 0, 0, (repeat Free (np - 1)), []. apply inv_initial; auto. apply Forall_forall. intros; exact I. }
  destruct (stored_so_far _ _ _ _ _ procs _ _ _ _ R) as (stored & _ & _ & _ & _ & _ & _ & A & B). auto.
Qed.
Print Assumptions scan_no_index_twice.

(** When the master has left its loops, every index has been evaluated exactly once and its
    result has been stored exactly once: the final data are the initial ones after the storing
    of one result per index, each coming from the worker that evaluated the index. *)
Theorem scan_every_index_once : forall {IP FP L D O : Type} (evaluates : L -> nat -> outcome L -> Prop)
    (ints : L -> IP) (floats : L -> FP) (store : nat -> IP -> FP -> D -> outcome D) (save : D -> outcome O)
    (n_procs n_all : nat) (e : env) (d0 : D) (mems : list L) n s,
  procs_accepted n_procs n_all = Ok tt -> length mems = n_procs - 1 ->
  steps evaluates ints floats store save (n_procs - 1) n_all e n (initial (n_procs - 1) n_all d0 mems) s ->
  s_master s = MEnd ->
  Permutation (map snd (s_log s)) (seq 0 n_all) /\
  exists stored, store_all store stored d0 = Ok (s_data s) /\
    Permutation (map (fun x => (en_worker x, en_index x)) stored) (s_log s) /\
    Forall (fun x => exists l l', evaluates l (en_index x) (Ok l') /\ en_ip x = ints l' /\ en_fp x = floats l') stored.
Proof.
  intros IP FP L D O ev ints floats store save np n_all e d0 mems n s Hp Hl H Hm.
  assert (procs : 1 <= np - 1 /\ np - 1 <= n_all).
  { unfold procs_accepted in Hp. destruct (Nat.ltb_spec np 2); [discriminate|]. destruct (Nat.ltb_spec n_all (np - 1)); [discriminate|]. lia. }
  pose (inv := fun _ : L => True).
  pose (good := fun (j : nat) (ip : IP) (fp : FP) => exists l l', ev l j (Ok l') /\ ip = ints l' /\ fp = floats l').
  assert (R : Reach ints floats store (np - 1) n_all inv good d0 s).
  { eapply reach_steps with (evaluates := ev); [exact procs| |exact H|].
    - intros l j l' _ _ He. split; [exact I|]. exists l, l'. auto.
    - exists 0, 0, (repeat Free (np - 1)), []. apply inv_initial; auto. apply Forall_forall. intros; exact I. }
  destruct (end_stored _ _ _ _ _ procs _ _ _ _ R Hm) as (stored & Hd & Hg & Hw & P & Pl).
  split.
  - rewrite (Permutation_map snd Pl), map_map. exact P.
  - exists stored. split; [exact Hd|]. split; [apply Permutation_sym; exact Pl|exact Hg].
Qed.
Print Assumptions scan_every_index_once.

(** ** C35 *)

(** Every execution is finite: it has at most 9 (n_scan_all + 2 (n_procs - 1)) steps. *)
Theorem scan_bounded : forall {IP FP L D O : Type} (evaluates : L -> nat -> outcome L -> Prop)
    (ints : L -> IP) (floats : L -> FP) (store : nat -> IP -> FP -> D -> outcome D) (save : D -> outcome O)
    (n_procs n_all : nat) (e : env) (d0 : D) (mems : list L) n s,
  procs_accepted n_procs n_all = Ok tt -> length mems = n_procs - 1 ->
  steps evaluates ints floats store save (n_procs - 1) n_all e n (initial (n_procs - 1) n_all d0 mems) s ->
  n <= 9 * (n_all + 2 * (n_procs - 1)).
Proof.
  intros IP FP L D O ev ints floats store save np n_all e d0 mems n s Hp Hl H.
  assert (procs : 1 <= np - 1 /\ np - 1 <= n_all).
  { unfold procs_accepted in Hp. destruct (Nat.ltb_spec np 2); [discriminate|]. destruct (Nat.ltb_spec n_all (np - 1)); [discriminate|]. lia. }
  pose (inv := fun _ : L => True). pose (good := fun (_ : nat) (_ : IP) (_ : FP) => True).
  assert (R : Reach ints floats store (np - 1) n_all inv good d0 (@initial IP FP L D O (np - 1) n_all d0 mems)).
  { exists 0, 0, (repeat Free (np - 1)), []. apply inv_initial; auto. apply Forall_forall. intros; exact I. }
  pose proof (steps_bounded ev ints floats store save (np - 1) n_all e procs inv good (fun _ _ _ _ _ _ => conj I I) d0 n _ _ H R) as B.
  assert (C : cost (np - 1) n_all (@initial IP FP L D O (np - 1) n_all d0 mems) <= 9 * (n_all + 2 * (np - 1))).
  { unfold cost, initial. cbn [s_master s_workers].
    assert (T : total wcost (map (fun l : L => @mkW IP FP L WWait l [] []) mems) = 0).
    { apply total_zero. apply Forall_forall. intros w Hw. apply in_map_iff in Hw. destruct Hw as (l & <- & _). reflexivity. }
    rewrite T. unfold first. destruct (Nat.ltb_spec 0 (np - 1)); [|lia]. cbn [mcost]. lia. }
  lia.
Qed.
Print Assumptions scan_bounded.

(** If MPI buffers the orders to stop (one int each), the exchange never blocks, whichever other
    sends are buffered and in whatever order the messages arrive: until every process is at the
    barrier, some process can move. *)
Theorem scan_never_blocks : forall {IP FP L D O : Type} (evaluates : L -> nat -> outcome L -> Prop)
    (ints : L -> IP) (floats : L -> FP) (store : nat -> IP -> FP -> D -> outcome D) (save : D -> outcome O)
    (n_procs n_all : nat) (e : env) (d0 : D) (mems : list L) n s,
  procs_accepted n_procs n_all = Ok tt -> length mems = n_procs - 1 ->
  (forall l j, exists r, evaluates l j r) -> (forall i, buf_stop e i = true) ->
  steps evaluates ints floats store save (n_procs - 1) n_all e n (initial (n_procs - 1) n_all d0 mems) s ->
  ended s \/ exists r, step evaluates ints floats store save (n_procs - 1) n_all e s r.
Proof.
  intros IP FP L D O ev ints floats store save np n_all e d0 mems n s Hp Hl Htot Hb H.
  assert (procs : 1 <= np - 1 /\ np - 1 <= n_all).
  { unfold procs_accepted in Hp. destruct (Nat.ltb_spec np 2); [discriminate|]. destruct (Nat.ltb_spec n_all (np - 1)); [discriminate|]. lia. }
  pose (inv := fun _ : L => True). pose (good := fun (_ : nat) (_ : IP) (_ : FP) => True).
  assert (R : Reach ints floats store (np - 1) n_all inv good d0 s).
  { eapply reach_steps with (evaluates := ev); [exact procs| |exact H|].
    - intros; split; exact I.
    - exists 0, 0, (repeat Free (np - 1)), []. apply inv_initial; auto. apply Forall_forall. intros; exact I. }
  eapply progress; eauto.
Qed.
Print Assumptions scan_never_blocks.

(** So every execution that no failure cuts short can be continued to the end, where every
    process has left its loop. *)
Theorem scan_can_finish : forall {IP FP L D O : Type} (evaluates : L -> nat -> outcome L -> Prop)
    (ints : L -> IP) (floats : L -> FP) (store : nat -> IP -> FP -> D -> outcome D) (save : D -> outcome O)
    (n_procs n_all : nat) (e : env) (d0 : D) (mems : list L) n s,
  procs_accepted n_procs n_all = Ok tt -> length mems = n_procs - 1 ->
  (forall l j, exists r, evaluates l j r) -> (forall i, buf_stop e i = true) ->
  let run := steps evaluates ints floats store save (n_procs - 1) n_all e in
  let start := initial (n_procs - 1) n_all d0 mems in
  (forall m t, run m start t -> ~ step evaluates ints floats store save (n_procs - 1) n_all e t Fail) ->
  run n start s ->
  exists m t, run m s t /\ ended t.
Proof.
  intros IP FP L D O ev ints floats store save np n_all e d0 mems n s Hp Hl Htot Hb run start Hfail H.
  assert (Trans : forall m a b, run m a b -> forall k c, run k b c -> run (m + k) a c).
  { induction 1; intros k c Hc; [exact Hc|]. cbn [Nat.add]. econstructor; [eassumption|]. apply IHsteps. exact Hc. }
  assert (G : forall k n s, run n start s -> 9 * (n_all + 2 * (np - 1)) - n <= k -> exists m t, run m s t /\ ended t).
  { induction k as [|k IH]; intros n' s' H' Hk;
      (destruct (scan_never_blocks ev ints floats store save np n_all e d0 mems n' s' Hp Hl Htot Hb H') as [He|(r & Hr)];
       [exists 0, s'; split; [constructor|exact He]|]);
      (destruct r as [t|]; [|destruct (Hfail _ _ H' Hr)]);
      assert (H2 : run (n' + 1) start t) by (eapply Trans; [exact H'|econstructor; [exact Hr|constructor]]);
      pose proof (scan_bounded ev ints floats store save np n_all e d0 mems _ _ Hp Hl H2) as Hbd; [lia|].
    destruct (IH _ _ H2) as (m & u & Hm & Hu); [lia|].
    exists (S m), u. split; auto. econstructor; eauto. }
  eapply G; eauto.
Qed.
Print Assumptions scan_can_finish.

(** If an order to stop is not buffered, the program can deadlock: the order of turn i of the
    last loop goes to worker i, not to the worker whose result was just received.  Two workers,
    two indices; worker 1 finishes first; the master then blocks in sending to worker 0, which
    blocks in sending its result to the master. *)
Theorem scan_terminates_unbuffered_refuted :
  exists (e : env) n (s : @state nat nat unit unit unit),
    procs_accepted 3 2 = Ok tt /\
    steps (fun _ _ r => r = Ok tt) (fun _ => 0) (fun _ => 0) (fun _ _ _ d => Ok d) (fun d => Ok d) 2 2 e n
      (initial 2 2 tt [tt; tt]) s /\
    ~ ended s /\
    stuck (fun _ _ r => r = Ok tt) (fun _ => 0) (fun _ => 0) (fun _ _ _ d => Ok d) (fun d => Ok d) 2 2 e s.
Proof.
  exists (mkEnv (fun _ => false) (fun _ => false) (fun _ => false) (fun _ => false)). eexists. eexists.
  split; [reflexivity|]. split; [|split].
  - unfold initial. cbn [map first Nat.ltb Nat.leb].
    eapply stepsS. { eapply (st_send_sync _ _ _ _ _ _ _ _ (SFirst 0)); reflexivity. }
    cbn [after first dest content obey upd Nat.ltb Nat.leb].
    eapply stepsS. { eapply (st_send_sync _ _ _ _ _ _ _ _ (SFirst 1)); reflexivity. }
    cbn [after first main final dest content obey upd Nat.ltb Nat.leb].
    eapply stepsS. { eapply (st_eval _ _ _ _ _ _ _ _ _ _ _ _ _ 0 _ 0 (Ok tt)); reflexivity. }
    cbn [upd w_in w_out w_pc w_mem].
    eapply stepsS. { eapply (st_eval _ _ _ _ _ _ _ _ _ _ _ _ _ 1 _ 1 (Ok tt)); reflexivity. }
    cbn [upd w_in w_out w_pc w_mem].
    eapply stepsS. { eapply (st_ints_sync _ _ _ _ _ _ _ _ _ _ _ _ _ 1 _ 1); reflexivity. }
    cbn [upd w_in w_out w_pc w_mem].
    eapply stepsS. { exact (st_floats_sync (fun _ _ r => r = Ok tt) (fun _ => 0) (fun _ => 0) (fun _ _ _ d => Ok d) (fun d => Ok d) 2 2
      (mkEnv (fun _ => false) (fun _ => false) (fun _ => false) (fun _ => false)) (Final 0) 1 0 tt
      [mkW (WInts 0) tt [] []; mkW (WFloats 1) tt [] []] [] [(0, 0); (1, 1)] (mkW (WFloats 1) tt [] []) 1 eq_refl eq_refl eq_refl eq_refl). }
    apply steps0.
  - intros (H & _). discriminate H.
  - intros r Hr. cbn [upd w_in w_out w_pc w_mem reply] in Hr.
    inversion Hr; subst;
      repeat match goal with
      | X : buffered _ _ = true |- _ => discriminate X
      | X : (fun _ => false) _ = true |- _ => discriminate X
      | X : nth_error _ (dest _) = Some _ |- _ => cbn in X; injection X as <-
      | X : nth_error _ ?i = Some _ |- _ => destruct i as [|[|i]]; cbn in X; [injection X as <-|injection X as <-|destruct i; discriminate X]
      | X : w_pc (mkW _ _ _ _) = _ |- _ => cbn in X; try discriminate X; injection X as <-
      | X : w_in (mkW _ _ _ _) = _ :: _ |- _ => cbn in X; discriminate X
      end; try discriminate.
Qed.
Print Assumptions scan_terminates_unbuffered_refuted.

(** An execution that meets the hypotheses: three workers, five indices, buffered and unbuffered
    sends mixed; it reaches the end, in at most 99 steps. *)
Example farm_example :
  let e := mkEnv Nat.even (fun _ => true) Nat.odd Nat.even in
  exists n (s : @state nat nat unit (list nat) unit),
    procs_accepted 4 5 = Ok tt /\
    steps (fun _ _ r => r = Ok tt) (fun _ => 7) (fun _ => 8) (fun w _ _ d => Ok (d ++ [w])) (fun _ => Ok tt) 3 5 e n
      (initial 3 5 [] [tt; tt; tt]) s /\
    ended s /\ n <= 99 /\ Permutation (map snd (s_log s)) [0; 1; 2; 3; 4].
Proof.
  intros e.
  pose (ev := fun (_ : unit) (_ : nat) (r : outcome unit) => r = Ok tt).
  destruct (@scan_can_finish nat nat unit (list nat) unit ev (fun _ => 7) (fun _ => 8)
    (fun w _ _ d => Ok (d ++ [w])) (fun _ => Ok tt) 4 5 e [] [tt; tt; tt] 0 (initial 3 5 [] [tt; tt; tt])) as (n & s & H & He); auto.
  - intros. exists (Ok tt). reflexivity.
  - intros m t Ht Hf.
    assert (procs : 1 <= 3 /\ 3 <= 5) by lia.
    assert (R : Reach (fun _ : unit => 7) (fun _ => 8) (fun w _ _ (d : list nat) => Ok (d ++ [w])) 3 5 (fun _ => True) (fun _ _ _ => True) [] t).
    { eapply reach_steps with (evaluates := ev); [exact procs| |exact Ht|].
      - intros; split; exact I.
      - exists 0, 0, (repeat Free 3), []. apply inv_initial; auto. }
    destruct (inv_fail ev _ _ _ (fun _ => Ok tt) 3 5 e procs _ _ [] t R Hf)
      as [(l & j & r & _ & _ & Hr & C)|[(st & i & j & ip & fp & _ & _ & _ & _ & _ & _ & _ & C)|C]].
    + unfold ev in Hr. subst r. apply (C tt); reflexivity.
    + eapply C; reflexivity.
    + apply (C tt); reflexivity.
  - apply steps0.
  - exists n, s. split; [reflexivity|]. split; [exact H|]. split; [exact He|].
    split; [apply (scan_bounded ev _ _ _ _ 4 5 e [] [tt; tt; tt] n s eq_refl eq_refl H)|].
    destruct He as (Hm & _).
    apply (scan_every_index_once ev _ _ _ _ 4 5 e [] [tt; tt; tt] n s eq_refl eq_refl H Hm).
Qed.
