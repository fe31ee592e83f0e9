(** Proofs about the master/worker exchange. *)
From Coq Require Import String ZArith List Bool Arith Lia Permutation Sorted.
From Verif Require Import Base BaseFacts Farm.
Import ListNotations.
Local Open Scope list_scope.
Local Open Scope nat_scope.

(** ** Indexed sums over lists. *)
Fixpoint imap {A B} (f : nat -> A -> list B) (k : nat) (l : list A) : list B :=
  match l with [] => [] | a :: r => f k a ++ imap f (S k) r end.

Section Count.
Context {A B : Type} (dec : forall x y : B, {x = y} + {x <> y}).
Lemma imap_count (f : nat -> A -> list B) l i s : forall k,
  nth_error l i = Some s ->
  exists rest : B -> nat,
    (forall x, count_occ dec (imap f k l) x = count_occ dec (f (k + i) s) x + rest x) /\
    (forall s' x, count_occ dec (imap f k (upd l i s')) x = count_occ dec (f (k + i) s') x + rest x).
Proof.
  revert i; induction l as [|a l IH]; intros [|i] k H; simpl in H; try discriminate.
  - injection H as ->. exists (fun x => count_occ dec (imap f (S k) l) x).
    split; intros; cbn [imap upd]; rewrite count_occ_app; rewrite Nat.add_0_r; reflexivity.
  - destruct (IH i (S k) H) as (r & R1 & R2).
    exists (fun x => count_occ dec (f k a) x + r x). replace (k + S i) with (S k + i) by lia.
    split; intros; cbn [imap upd]; rewrite count_occ_app, ?R1, ?R2; lia.
Qed.
End Count.

Section Weight.
Context {A : Type} (f : A -> nat).
Fixpoint total (l : list A) : nat := match l with [] => 0 | a :: r => f a + total r end.
Lemma total_upd (l : list A) i s : nth_error l i = Some s ->
  f s <= total l /\ forall s', total (upd l i s') = f s' + (total l - f s).
Proof.
  revert i; induction l as [|a l IH]; intros [|i] H; simpl in H; try discriminate.
  - injection H as ->. cbn [total upd]. split; [lia|]. intros; lia.
  - destruct (IH i H) as (P & Q). cbn [total upd]. split; [lia|]. intros. rewrite Q. lia.
Qed.
Lemma total_zero (l : list A) : total l = 0 <-> Forall (fun a => f a = 0) l.
Proof.
  induction l; simpl; split; intros H; auto.
  - constructor; [lia|]. apply IHl; lia.
  - inversion H; subst. apply IHl in H3. lia.
Qed.
Lemma total_lt (l : list A) : (forall a, In a l -> f a <= 1) -> total l < length l ->
  exists i a, nth_error l i = Some a /\ f a = 0.
Proof.
  intros Hb H. induction l as [|a l IH]; simpl in *; [lia|].
  destruct (f a) eqn:E.
  - exists 0, a. auto.
  - assert (f a <= 1) by (apply Hb; auto).
    destruct IH as (i & b & X & Y); auto; [lia|]. exists (S i), b. auto.
Qed.
Lemma total_full (l : list A) : (forall a, In a l -> f a <= 1) -> total l = length l -> Forall (fun a => f a = 1) l.
Proof.
  induction l as [|a l IH]; intros Hb H; simpl in *; auto.
  assert (f a <= 1) by auto.
  assert (total l <= length l).
  { clear - Hb. induction l as [|b l IH]; simpl; [lia|]. assert (f b <= 1) by (apply Hb; simpl; auto).
    assert (total l <= length l); [|lia]. apply IH. intros; apply Hb. simpl in *. destruct H0; auto. }
  constructor; [lia|]. apply IH; auto. lia.
Qed.
End Weight.

Section FarmFacts.
Context {IP FP L D O : Type}.
Variable evaluates : L -> nat -> outcome L -> Prop.
Variables (ints : L -> IP) (floats : L -> FP).
Variable store : nat -> IP -> FP -> D -> outcome D.
Variable save : D -> outcome O.
Variables (nw n_all : nat).
Variable e : env.
Hypothesis procs : 1 <= nw /\ nw <= n_all.

(** What the worker memory satisfies, and what a result of index j is. *)
Variable inv : L -> Prop.
Variable good : nat -> IP -> FP -> Prop.
Hypothesis evaluates_good : forall l j l', inv l -> j < n_all -> evaluates l j (Ok l') ->
  inv l' /\ good j (ints l') (floats l').

Notation worker := (@worker IP FP L).
Notation state := (@state IP FP L D O).
Notation step := (step evaluates ints floats store save nw n_all e).
Notation steps := (steps evaluates ints floats store save nw n_all e).

(** A stored result: where it came from, its index, its two messages. *)
Record entry := mkE { en_worker : nat; en_index : nat; en_ip : IP; en_fp : FP }.
Fixpoint store_all (l : list entry) (d : D) : outcome D :=
  match l with
  | [] => Ok d
  | x :: r => do d' <- store (en_worker x) (en_ip x) (en_fp x) d; store_all r d'
  end.
Lemma store_all_app a b d : store_all (a ++ b) d = do d' <- store_all a d; store_all b d'.
Proof.
  revert d; induction a as [|x a IH]; intros d; cbn [app store_all bind]; auto.
  destruct (store _ _ _ d); cbn [bind]; auto.
Qed.

(** What a worker is busy with. *)
Inductive wstat := Free | Todo (j : nat) | Done (j : nat) | Half (j : nat) (ip : IP).

Inductive wview (stopped : bool) : wstat -> worker -> Prop :=
| v_free l : inv l -> wview stopped Free (mkW WWait l (if stopped then [None] else []) [])
| v_free_end l : stopped = true -> wview stopped Free (mkW WEnd l [] [])
| v_todo_in j l : inv l -> wview stopped (Todo j) (mkW WWait l (Some j :: if stopped then [None] else []) [])
| v_todo j l : inv l -> wview stopped (Todo j) (mkW (WWork j) l (if stopped then [None] else []) [])
| v_ints j l : inv l -> good j (ints l) (floats l) ->
    wview stopped (Done j) (mkW (WInts j) l (if stopped then [None] else []) [])
| v_floats j l : inv l -> good j (ints l) (floats l) ->
    wview stopped (Done j) (mkW (WFloats j) l (if stopped then [None] else []) [inl (ints l)])
| v_sent j l ip fp : inv l -> good j ip fp ->
    wview stopped (Done j) (mkW WWait l (if stopped then [None] else []) [inl ip; inr fp])
| v_sent_end j l ip fp : good j ip fp -> stopped = true ->
    wview stopped (Done j) (mkW WEnd l [] [inl ip; inr fp])
| v_half_floats j l ip : inv l -> good j ip (floats l) ->
    wview stopped (Half j ip) (mkW (WFloats j) l (if stopped then [None] else []) [])
| v_half j l ip fp : inv l -> good j ip fp ->
    wview stopped (Half j ip) (mkW WWait l (if stopped then [None] else []) [inr fp])
| v_half_end j l ip fp : good j ip fp -> stopped = true ->
    wview stopped (Half j ip) (mkW WEnd l [] [inr fp]).

Definition index_of (_ : nat) (s : wstat) : list nat :=
  match s with Free => [] | Todo j => [j] | Done j => [j] | Half j _ => [j] end.
Definition evaluated (i : nat) (s : wstat) : list (nat * nat) :=
  match s with Free => [] | Todo j => [] | Done j => [(i, j)] | Half j _ => [(i, j)] end.
Definition free (s : wstat) : nat := match s with Free => 1 | _ => 0 end.

Definition pair_dec (x y : nat * nat) : {x = y} + {x <> y}.
Proof. decide equality; apply Nat.eq_dec. Defined.
Notation cntn l x := (count_occ Nat.eq_dec l x).
Notation cntp l x := (count_occ pair_dec l x).

(** Numbers that go with a position of process 0: indices given out, free workers, orders to
    stop sent. *)
Definition phase (m : @master IP) (g nf stops : nat) (stats : list wstat) : Prop :=
  match m with
  | MSend (SFirst i) => i < nw /\ g = i /\ nf = nw - i /\ stops = 0 /\
      (forall k s, i <= k -> nth_error stats k = Some s -> s = Free)
  | MLoop j | MRecv (Next j) | MRecv2 (Next j) _ _ => nw <= j < n_all /\ g = j /\ nf = 0 /\ stops = 0
  | MSend (SNext j w) => nw <= j < n_all /\ g = j /\ nf = 1 /\ stops = 0 /\ nth_error stats w = Some Free
  | MRecv (Final i) | MRecv2 (Final i) _ _ => i < nw /\ g = n_all /\ nf = i /\ stops = i
  | MSend (SStop i) => i < nw /\ g = n_all /\ nf = S i /\ stops = i
  | MEnd => g = n_all /\ nf = nw /\ stops = nw
  end.
(** Only the worker whose floats are awaited is half received. *)
Definition halves (m : @master IP) (stats : list wstat) : Prop :=
  (forall k j ip, nth_error stats k = Some (Half j ip) -> exists t, m = MRecv2 t k ip) /\
  (forall t k ip, m = MRecv2 t k ip -> exists j, nth_error stats k = Some (Half j ip)).

Record Inv (d0 : D) (s : state) (g stops : nat) (stats : list wstat) (stored : list entry) : Prop := mkInv {
  i_lw : length (s_workers s) = nw;
  i_ls : length stats = nw;
  i_view : forall i w st, nth_error (s_workers s) i = Some w -> nth_error stats i = Some st ->
             wview (i <? stops) st w;
  i_phase : phase (s_master s) g (total free stats) stops stats;
  i_half : halves (s_master s) stats;
  i_data : store_all stored d0 = Ok (s_data s);
  i_good : Forall (fun x => good (en_index x) (en_ip x) (en_fp x)) stored;
  i_from : Forall (fun x => en_worker x < nw) stored;
  i_idx : forall x, cntn (map en_index stored) x + cntn (imap index_of 0 stats) x = cntn (seq 0 g) x;
  i_log : forall x, cntp (s_log s) x =
            cntp (map (fun y => (en_worker y, en_index y)) stored) x + cntp (imap evaluated 0 stats) x }.

Definition Reach d0 s := exists g stops stats stored, Inv d0 s g stops stats stored.

Lemma stat_of (s : state) (stats : list wstat) i w :
  length (s_workers s) = nw -> length stats = nw -> nth_error (s_workers s) i = Some w ->
  i < nw /\ exists st, nth_error stats i = Some st.
Proof.
  intros H1 H2 H. assert (i < nw) by (rewrite <- H1; apply nth_error_Some; congruence).
  split; auto. destruct (nth_error stats i) eqn:E; eauto. apply nth_error_None in E. lia.
Qed.
Lemma worker_of (ws : list worker) (stats : list wstat) i st :
  length ws = nw -> length stats = nw -> nth_error stats i = Some st ->
  i < nw /\ exists w, nth_error ws i = Some w.
Proof.
  intros H1 H2 H. assert (i < nw) by (rewrite <- H2; apply nth_error_Some; congruence).
  split; auto. destruct (nth_error ws i) eqn:E; eauto. apply nth_error_None in E. lia.
Qed.

Lemma count_seq_lt g x : cntn (seq 0 g) x = if x <? g then 1 else 0.
Proof.
  destruct (x <? g) eqn:E.
  - apply Nat.ltb_lt in E. apply NoDup_count_occ'; [apply seq_NoDup|apply in_seq; lia].
  - apply Nat.ltb_ge in E. apply count_occ_not_In. rewrite in_seq. lia.
Qed.
Lemma count_seq_S g x : cntn (seq 0 (S g)) x = cntn (seq 0 g) x + cntn [g] x.
Proof. rewrite seq_S, count_occ_app. reflexivity. Qed.

Lemma view_upd (ws : list worker) stats i w' st' stops :
  (forall k w st, nth_error ws k = Some w -> nth_error stats k = Some st -> wview (k <? stops) st w) ->
  wview (i <? stops) st' w' ->
  forall k w st, nth_error (upd ws i w') k = Some w -> nth_error (upd stats i st') k = Some st ->
  wview (k <? stops) st w.
Proof.
  intros H Hi k w st A B. destruct (Nat.eq_dec k i) as [->|Hne].
  - assert (i < length ws) by (rewrite <- (upd_length ws i w'); apply nth_error_Some; congruence).
    assert (i < length stats) by (rewrite <- (upd_length stats i st'); apply nth_error_Some; congruence).
    rewrite nth_error_upd_same in A by auto. rewrite nth_error_upd_same in B by auto. congruence.
  - rewrite nth_error_upd_other in A by auto. rewrite nth_error_upd_other in B by auto. eauto.
Qed.

Lemma worker_same d0 m d ws sv lg g stops stats stored i (w w' : worker) st :
  Inv d0 (mkS m d ws sv lg) g stops stats stored ->
  nth_error ws i = Some w -> nth_error stats i = Some st -> wview (i <? stops) st w' ->
  Inv d0 (mkS m d (upd ws i w') sv lg) g stops stats stored.
Proof.
  intros [A B C P H E G Fr I J] Hw Hs Hv. constructor; cbn [s_workers s_master s_data s_log] in *; auto.
  - rewrite upd_length; auto.
  - intros k w0 st0 Hk Hk'. destruct (Nat.eq_dec k i) as [->|Hne].
    + rewrite nth_error_upd_same in Hk by (apply nth_error_Some; congruence). congruence.
    + rewrite nth_error_upd_other in Hk by auto. eauto.
Qed.

(** Changing the status of one worker. *)
Lemma stat_change d0 m m' d d' ws sv sv' lg lg' g g' stops stats stored stored' i (w w' : worker) st st' :
  Inv d0 (mkS m d ws sv lg) g stops stats stored ->
  nth_error ws i = Some w -> nth_error stats i = Some st -> wview (i <? stops) st' w' ->
  phase m' g' (total free stats - free st + free st') stops (upd stats i st') ->
  halves m' (upd stats i st') ->
  store_all stored' d0 = Ok d' ->
  Forall (fun x => good (en_index x) (en_ip x) (en_fp x)) stored' ->
  Forall (fun x => en_worker x < nw) stored' ->
  (forall x, cntn (map en_index stored') x + cntn (index_of i st') x + cntn (seq 0 g) x
           = cntn (map en_index stored) x + cntn (index_of i st) x + cntn (seq 0 g') x) ->
  (forall x, cntp lg' x + cntp (map (fun y => (en_worker y, en_index y)) stored) x + cntp (evaluated i st) x =
             cntp lg x + cntp (map (fun y => (en_worker y, en_index y)) stored') x + cntp (evaluated i st') x) ->
  Inv d0 (mkS m' d' (upd ws i w') sv' lg') g' stops (upd stats i st') stored'.
Proof.
  intros [A B C P H E G Fr I J] Hw Hs Hv Hp Hh Hd Hg Hf Hi Hl.
  constructor; cbn [s_workers s_master s_data s_log] in *; auto.
  - rewrite upd_length; auto.
  - rewrite upd_length; auto.
  - apply view_upd; auto.
  - destruct (total_upd free stats i st Hs) as (T1 & T2). rewrite T2.
    replace (free st' + (total free stats - free st)) with (total free stats - free st + free st') by lia. exact Hp.
  - intros x. destruct (imap_count Nat.eq_dec index_of stats i st 0 Hs) as (r & R1 & R2).
    rewrite R2. specialize (I x). rewrite R1 in I. specialize (Hi x). cbn [Nat.add] in *.
    change (index_of (0 + i)) with (index_of i) in *. lia.
  - intros x. destruct (imap_count pair_dec evaluated stats i st 0 Hs) as (r & R1 & R2).
    rewrite R2. specialize (J x). rewrite R1 in J. specialize (Hl x). cbn [Nat.add] in *. lia.
Qed.

Lemma index_bound d0 s g stops stats stored i st j :
  Inv d0 s g stops stats stored -> nth_error stats i = Some st -> In j (index_of i st) -> j < g.
Proof.
  intros HI Hs Hj. pose proof (i_idx _ _ _ _ _ _ HI j) as I.
  destruct (imap_count Nat.eq_dec index_of stats i st 0 Hs) as (r & R1 & R2). rewrite R1 in I.
  rewrite count_seq_lt in I. cbn [Nat.add] in I. apply (count_occ_In Nat.eq_dec) in Hj.
  destruct (j <? g) eqn:E; [apply Nat.ltb_lt; auto|]. lia.
Qed.
Lemma given_bound d0 s g stops stats stored : Inv d0 s g stops stats stored -> g <= n_all.
Proof.
  intros HI. pose proof (i_phase _ _ _ _ _ _ HI) as P. unfold phase in P.
  destruct (s_master s) as [[]| |[]|[]|]; lia.
Qed.

Lemma stored_nodup d0 s g stops stats stored i st j :
  Inv d0 s g stops stats stored -> nth_error stats i = Some st -> In j (index_of i st) ->
  NoDup (j :: map en_index stored) /\ Forall (fun x => x < n_all) (j :: map en_index stored).
Proof.
  intros HI Hs Hj. pose proof (i_idx _ _ _ _ _ _ HI) as I. pose proof (given_bound _ _ _ _ _ _ HI) as Hg.
  destruct (imap_count Nat.eq_dec index_of stats i st 0 Hs) as (r & R1 & R2).
  apply (count_occ_In Nat.eq_dec) in Hj.
  assert (C : forall x, cntn (j :: map en_index stored) x <= cntn (seq 0 g) x).
  { intros x. specialize (I x). rewrite R1 in I. cbn [Nat.add count_occ] in *.
    destruct (Nat.eq_dec j x) as [<-|]; lia. }
  split.
  - apply (NoDup_count_occ Nat.eq_dec). intros x. specialize (C x). rewrite count_seq_lt in C. destruct (x <? g); lia.
  - apply Forall_forall. intros x Hx. apply (count_occ_In Nat.eq_dec) in Hx. specialize (C x).
    rewrite count_seq_lt in C. destruct (x <? g) eqn:E; [apply Nat.ltb_lt in E|]; lia.
Qed.

(** After the send of an index. *)
Lemma phase_main j (stats : list wstat) : nw <= j -> j <= n_all -> total free stats = 0 ->
  phase (main nw n_all j) j 0 0 stats /\
  forall t w ip, @main IP nw n_all j <> MRecv2 t w ip.
Proof.
  intros H1 H2 H3. unfold main. destruct (j <? n_all) eqn:E.
  - apply Nat.ltb_lt in E. split; [|discriminate]. cbn. auto.
  - apply Nat.ltb_ge in E. unfold final. destruct (0 <? nw) eqn:E2.
    + split; [|discriminate]. cbn. lia.
    + apply Nat.ltb_ge in E2. lia.
Qed.
Lemma halves_none m (stats : list wstat) :
  (forall k j ip, nth_error stats k <> Some (Half j ip)) -> (forall t w ip, m <> MRecv2 t w ip) -> halves m stats.
Proof.
  intros A B. split.
  - intros k j ip H. destruct (A _ _ _ H).
  - intros t k ip H. destruct (B _ _ _ H).
Qed.
Lemma no_half m (stats : list wstat) : halves m stats -> (forall t w ip, m <> MRecv2 t w ip) ->
  forall k j ip, nth_error stats k <> Some (Half j ip).
Proof. intros (A & _) B k j ip H. destruct (A _ _ _ H) as (t & E). destruct (B _ _ _ E). Qed.
Lemma no_half_upd (stats : list wstat) i st :
  (forall k j ip, nth_error stats k <> Some (Half j ip)) -> (forall j ip, st <> Half j ip) ->
  forall k j ip, nth_error (upd stats i st) k <> Some (Half j ip).
Proof.
  intros A B k j ip H. destruct (Nat.eq_dec k i) as [->|Hne].
  - assert (i < length stats) by (rewrite <- (upd_length stats i st); apply nth_error_Some; congruence).
    rewrite nth_error_upd_same in H by auto. injection H as ->. eapply B; eauto.
  - rewrite nth_error_upd_other in H by auto. eapply A; eauto.
Qed.

Lemma send_index d0 sd d ws sv lg g stops stats stored (w w' : worker) j :
  Inv d0 (mkS (MSend sd) d ws sv lg) g stops stats stored ->
  content sd = Some j -> nth_error ws (dest sd) = Some w ->
  (forall l, inv l -> w = mkW WWait l [] [] -> wview false (Todo j) w') ->
  exists stats', Inv d0 (mkS (after nw n_all sd) d (upd ws (dest sd) w') sv lg) (S g) 0 stats' stored.
Proof.
  intros HI Hc Hw Hv. pose proof (i_phase _ _ _ _ _ _ HI) as P. cbn [s_master] in P.
  pose proof (i_half _ _ _ _ _ _ HI) as Hh. cbn [s_master] in Hh.
  pose proof (i_data _ _ _ _ _ _ HI) as Hd. cbn [s_data] in Hd.
  pose proof (no_half _ _ Hh ltac:(discriminate)) as Hn.
  destruct (stat_of _ stats (dest sd) w (i_lw _ _ _ _ _ _ HI) (i_ls _ _ _ _ _ _ HI) Hw) as (Hlt & st & Hs).
  assert (st = Free /\ stops = 0 /\ j = g) as (-> & -> & ->).
  { destruct sd as [i|j' w0|i]; cbn [content dest phase] in *; try discriminate; injection Hc as ->.
    - destruct P as (A & B & C & E & Fr). repeat split; auto. eapply Fr; eauto.
    - destruct P as (A & B & C & E & Fr). repeat split; auto. congruence. }
  pose proof (i_view _ _ _ _ _ _ HI _ _ _ Hw Hs) as V. cbn in V. inversion V; subst; [|discriminate].
  exists (upd stats (dest sd) (Todo g)).
  eapply stat_change; eauto using i_good, i_from.
  - destruct (total_upd free stats (dest sd) Free Hs) as (T1 & T2).
    destruct sd as [i|j' w0|i]; cbn [content dest phase after] in *; try discriminate; injection Hc as ->.
    + destruct P as (A & _ & C & E & Fr). unfold first. destruct (S g <? nw) eqn:E2.
      * apply Nat.ltb_lt in E2. cbn [phase free]. repeat split; auto; try lia.
        intros k s Hk Hs'. rewrite nth_error_upd_other in Hs' by lia. apply (Fr k s); auto; lia.
      * apply Nat.ltb_ge in E2. replace (S g) with nw by lia.
        cbn [free] in *. replace (total free stats - 1 + 0) with 0 by lia.
        apply phase_main; try lia. rewrite T2. cbn [free]. lia.
    + destruct P as (A & _ & C & E & Fr). cbn [free] in *. replace (total free stats - 1 + 0) with 0 by lia.
      apply phase_main; try lia. rewrite T2. cbn [free]. lia.
  - apply halves_none. { apply no_half_upd; auto; discriminate. }
    destruct sd as [i|j' w0|i]; cbn [content after] in *; try discriminate.
    + unfold first. destruct (S i <? nw); [discriminate|]. unfold main, final.
      destruct (nw <? n_all); [discriminate|]. destruct (0 <? nw); discriminate.
    + unfold main, final. destruct (S j' <? n_all); [discriminate|]. destruct (0 <? nw); discriminate.
  - intros x. rewrite count_seq_S. cbn [index_of]. change (cntn [] x) with 0. lia.
Qed.

Lemma send_stop d0 i d ws sv lg g stops stats stored (w w' : worker) :
  Inv d0 (mkS (MSend (SStop i)) d ws sv lg) g stops stats stored ->
  nth_error ws i = Some w ->
  (forall st, wview false st w -> wview true st w') ->
  Inv d0 (mkS (after nw n_all (SStop i)) d (upd ws i w') sv lg) g (S i) stats stored.
Proof.
  intros HI Hw Hv. destruct (stat_of _ stats i w (i_lw _ _ _ _ _ _ HI) (i_ls _ _ _ _ _ _ HI) Hw) as (Hlt & st & Hs).
  destruct HI as [A B C P H E G Fr I J]. cbn [s_workers s_master s_data s_log phase] in *.
  destruct P as (P1 & P2 & P3 & ->).
  assert (Hn : forall k j ip, nth_error stats k <> Some (Half j ip)) by (eapply no_half; eauto; discriminate).
  constructor; cbn [s_workers s_master s_data s_log] in *; auto.
  - rewrite upd_length; auto.
  - intros k w0 st0 Hk Hk'. destruct (Nat.eq_dec k i) as [->|Hne].
    + rewrite nth_error_upd_same in Hk by lia. injection Hk as <-.
      replace (i <? S i) with true by (symmetry; apply Nat.ltb_lt; lia). apply Hv.
      specialize (C _ _ _ Hw Hk'). rewrite Nat.ltb_irrefl in C. auto.
    + rewrite nth_error_upd_other in Hk by auto.
      replace (k <? S i) with (k <? i). { eauto. }
      destruct (Nat.ltb_spec k i), (Nat.ltb_spec k (S i)); auto; lia.
  - cbn [after]. unfold final. destruct (S i <? nw) eqn:E2; cbn [phase].
    + apply Nat.ltb_lt in E2. repeat split; auto; lia.
    + apply Nat.ltb_ge in E2. repeat split; auto; lia.
  - apply halves_none; auto. cbn [after]. unfold final. destruct (S i <? nw); discriminate.
Qed.

Lemma receive d0 t i ip fp d ws sv lg d' g stops stats stored (w w' : worker) j :
  Inv d0 (mkS (MRecv2 t i ip) d ws sv lg) g stops stats stored ->
  nth_error ws i = Some w -> nth_error stats i = Some (Half j ip) ->
  wview (i <? stops) Free w' -> good j ip fp -> store i ip fp d = Ok d' ->
  Inv d0 (mkS (MSend (reply t i)) d' (upd ws i w') sv lg) g stops (upd stats i Free) (stored ++ [mkE i j ip fp]).
Proof.
  intros HI Hw Hs Hv Hg Hst.
  destruct (stat_of _ stats i w (i_lw _ _ _ _ _ _ HI) (i_ls _ _ _ _ _ _ HI) Hw) as (Hlt & _).
  pose proof (i_half _ _ _ _ _ _ HI) as (Hh1 & Hh2). cbn [s_master] in *.
  eapply stat_change; eauto.
  - destruct (total_upd free stats i _ Hs) as (T1 & T2). cbn [free] in *.
    pose proof (i_phase _ _ _ _ _ _ HI) as P. cbn [s_master] in P. rewrite Nat.sub_0_r.
    destruct t; cbn [phase reply] in *.
    + repeat split; try lia. rewrite nth_error_upd_same; auto. rewrite (i_ls _ _ _ _ _ _ HI); auto.
    + repeat split; try lia.
  - apply halves_none; [|discriminate]. intros k j' ip' Hk. destruct (Nat.eq_dec k i) as [->|Hne].
    + rewrite nth_error_upd_same in Hk by (rewrite (i_ls _ _ _ _ _ _ HI); auto). discriminate.
    + rewrite nth_error_upd_other in Hk by auto. destruct (Hh1 _ _ _ Hk) as (t' & E). congruence.
  - rewrite store_all_app. rewrite (i_data _ _ _ _ _ _ HI). cbn [bind s_data store_all en_worker en_ip en_fp].
    rewrite Hst. reflexivity.
  - apply Forall_app. split; [eapply i_good; eauto|]. repeat constructor; auto.
  - apply Forall_app. split; [eapply i_from; eauto|]. repeat constructor; auto.
  - intros x. rewrite map_app, count_occ_app. cbn [index_of map en_index]. change (cntn [] x) with 0. lia.
  - intros x. rewrite map_app, count_occ_app. cbn [evaluated map en_index en_worker]. change (cntp [] x) with 0. lia.
Qed.

Lemma inv_step_grow d0 s t g stops stats stored : Inv d0 s g stops stats stored -> step s (Run t) ->
  exists g' stops' stats' stored', Inv d0 t g' stops' stats' stored' /\ exists more, stored' = stored ++ more.
Proof.
  intros HI Hst. inversion Hst; subst; clear Hst;
    try match goal with X : nth_error _ _ = Some _ |- _ => rename X into Hnth end;
    try match goal with X : w_pc _ = _ |- _ => rename X into Hpc end;
    try match goal with X : w_out _ = _ |- _ => rename X into Hout end;
    try match goal with X : w_in _ = _ |- _ => rename X into Hin end;
    try match goal with X : evaluates _ _ _ |- _ => rename X into Hev end.
  - (* send *) rename s0 into sd. destruct (content sd) as [j|] eqn:Ec.
    + destruct (send_index d0 sd d ws sv lg g stops stats stored w
        (mkW (w_pc w) (w_mem w) (w_in w ++ [Some j]) (w_out w)) j) as (st' & H'); auto.
      { intros l Hl ->. cbn. apply v_todo_in; auto. }
      exists (S g), 0, st', stored. split; [|exists []; rewrite app_nil_r; reflexivity]. auto.
    + destruct sd; try discriminate. cbn [dest] in *.
      exists g, (S i), stats, stored. split; [|exists []; rewrite app_nil_r; reflexivity]. eapply send_stop; eauto.
      intros st V. inversion V; subst; try discriminate; cbn [w_pc w_mem w_in w_out app]; econstructor; eauto.
  - (* synchronous send *) rename s0 into sd. destruct (content sd) as [j|] eqn:Ec.
    + destruct (send_index d0 sd d ws sv lg g stops stats stored w
        (mkW (obey (Some j)) (w_mem w) [] (w_out w)) j) as (st' & H'); auto.
      { intros l Hl ->. cbn. apply (v_todo false); auto. }
      exists (S g), 0, st', stored. split; [|exists []; rewrite app_nil_r; reflexivity]. auto.
    + destruct sd; try discriminate. cbn [dest] in *.
      exists g, (S i), stats, stored. split; [|exists []; rewrite app_nil_r; reflexivity]. eapply send_stop; eauto.
      intros st V. inversion V; subst; cbn in *; try discriminate; econstructor; eauto.
  - (* no save *) exists g, stops, stats, stored. split; [|exists []; rewrite app_nil_r; reflexivity]. destruct HI as [A B C P H E G Fr I J]. constructor; auto.
    cbn [s_master] in *. apply halves_none; [eapply no_half; eauto|]; discriminate.
  - (* save *) destruct (save d); try discriminate. match goal with X : Run _ = Run _ |- _ => injection X as <- end.
    exists g, stops, stats, stored. split; [|exists []; rewrite app_nil_r; reflexivity]. destruct HI as [A B C P H E G Fr I J]. constructor; auto.
    cbn [s_master] in *. apply halves_none; [eapply no_half; eauto|]; discriminate.
  - (* ints *) destruct m as [ip|]; try discriminate. match goal with X : Run _ = Run _ |- _ => injection X as <- end.
    destruct (stat_of _ stats i w (i_lw _ _ _ _ _ _ HI) (i_ls _ _ _ _ _ _ HI) Hnth) as (Hlt & st & Hs).
    pose proof (i_view _ _ _ _ _ _ HI _ _ _ Hnth Hs) as V.
    pose proof (i_half _ _ _ _ _ _ HI) as Hh. cbn [s_master] in Hh.
    assert (exists j, st = Done j /\ wview (i <? stops) (Half j ip) (mkW (w_pc w) (w_mem w) (w_in w) q)) as (j & -> & V').
    { inversion V; subst; cbn [w_out] in Hout; try discriminate; injection Hout as <- <-;
        eexists; split; try reflexivity; cbn [w_pc w_mem w_in]; econstructor; eauto. }
    exists g, stops, (upd stats i (Half j ip)), stored. split; [|exists []; rewrite app_nil_r; reflexivity].
    eapply stat_change; eauto using i_good, i_from.
    + pose proof (i_phase _ _ _ _ _ _ HI) as P. cbn [s_master] in P. cbn [free].
      rewrite Nat.sub_0_r, Nat.add_0_r. destruct t0; exact P.
    + split.
      * intros k j' ip' Hk. destruct (Nat.eq_dec k i) as [->|Hne].
        { rewrite nth_error_upd_same in Hk by (rewrite (i_ls _ _ _ _ _ _ HI); auto). injection Hk as <- <-. eauto. }
        rewrite nth_error_upd_other in Hk by auto. exfalso. eapply no_half; eauto. discriminate.
      * intros t' k ip' Hk. injection Hk as -> -> ->. exists j.
        apply nth_error_upd_same. rewrite (i_ls _ _ _ _ _ _ HI); auto.
    + exact (i_data _ _ _ _ _ _ HI).
  - (* ints, synchronous *)
    destruct (stat_of _ stats i w (i_lw _ _ _ _ _ _ HI) (i_ls _ _ _ _ _ _ HI) Hnth) as (Hlt & st & Hs).
    pose proof (i_view _ _ _ _ _ _ HI _ _ _ Hnth Hs) as V.
    pose proof (i_half _ _ _ _ _ _ HI) as Hh. cbn [s_master] in Hh.
    assert (st = Done j /\ wview (i <? stops) (Half j (ints (w_mem w))) (mkW (WFloats j) (w_mem w) (w_in w) [])) as (-> & V').
    { inversion V; subst; cbn [w_pc] in Hpc; try discriminate. injection Hpc as ->.
      split; auto. cbn [w_pc w_mem w_in]. econstructor; eauto. }
    exists g, stops, (upd stats i (Half j (ints (w_mem w)))), stored. split; [|exists []; rewrite app_nil_r; reflexivity].
    eapply stat_change; eauto using i_good, i_from.
    + pose proof (i_phase _ _ _ _ _ _ HI) as P. cbn [s_master] in P. cbn [free].
      rewrite Nat.sub_0_r, Nat.add_0_r. destruct t0; exact P.
    + split.
      * intros k j' ip' Hk. destruct (Nat.eq_dec k i) as [->|Hne].
        { rewrite nth_error_upd_same in Hk by (rewrite (i_ls _ _ _ _ _ _ HI); auto). injection Hk as <- <-. eauto. }
        rewrite nth_error_upd_other in Hk by auto. exfalso. eapply no_half; eauto. discriminate.
      * intros t' k ip' Hk. injection Hk as -> -> <-. exists j.
        apply nth_error_upd_same. rewrite (i_ls _ _ _ _ _ _ HI); auto.
    + exact (i_data _ _ _ _ _ _ HI).
  - (* floats *) destruct m as [|fp]; try discriminate.
    unfold received in *. destruct (store i ip fp d) as [d'| |] eqn:Est; try discriminate.
    match goal with X : Run _ = Run _ |- _ => injection X as <- end.
    pose proof (i_half _ _ _ _ _ _ HI) as (_ & Hh2). cbn [s_master] in Hh2.
    destruct (Hh2 _ _ _ eq_refl) as (j & Hs).
    pose proof (i_view _ _ _ _ _ _ HI _ _ _ Hnth Hs) as V.
    exists g, stops, (upd stats i Free), (stored ++ [mkE i j ip fp]). split; [|eexists; reflexivity].
    inversion V; subst; cbn [w_out w_pc w_mem w_in] in *; try discriminate; injection Hout as <- <-;
      eapply receive; eauto; econstructor; eauto.
  - (* floats, synchronous *)
    unfold received in *. destruct (store i ip (floats (w_mem w)) d) as [d'| |] eqn:Est; try discriminate.
    match goal with X : Run _ = Run _ |- _ => injection X as <- end.
    pose proof (i_half _ _ _ _ _ _ HI) as (_ & Hh2). cbn [s_master] in Hh2.
    destruct (Hh2 _ _ _ eq_refl) as (j' & Hs).
    pose proof (i_view _ _ _ _ _ _ HI _ _ _ Hnth Hs) as V.
    exists g, stops, (upd stats i Free), (stored ++ [mkE i j' ip (floats (w_mem w))]). split; [|eexists; reflexivity].
    inversion V; subst; cbn [w_out w_pc w_mem w_in] in *; try discriminate.
    eapply receive; eauto. econstructor; eauto.
  - (* take *)
    destruct (stat_of _ stats i w (i_lw _ _ _ _ _ _ HI) (i_ls _ _ _ _ _ _ HI) Hnth) as (Hlt & st & Hs).
    pose proof (i_view _ _ _ _ _ _ HI _ _ _ Hnth Hs) as V.
    exists g, stops, stats, stored. split; [|exists []; rewrite app_nil_r; reflexivity]. eapply worker_same; eauto.
    inversion V; subst; cbn [w_pc w_in w_mem w_out] in *; try discriminate;
      try (destruct (i <? stops) eqn:E; try discriminate; injection Hin as <- <-; cbn [obey];
           econstructor; eauto; fail).
    all: injection Hin as <- <-; cbn [obey]; econstructor; eauto.
  - (* eval *) destruct r as [l| |]; try discriminate. match goal with X : Run _ = Run _ |- _ => injection X as <- end.
    destruct (stat_of _ stats i w (i_lw _ _ _ _ _ _ HI) (i_ls _ _ _ _ _ _ HI) Hnth) as (Hlt & st & Hs).
    pose proof (i_view _ _ _ _ _ _ HI _ _ _ Hnth Hs) as V.
    assert (st = Todo j /\ w_in w = (if i <? stops then [None] else []) /\ w_out w = [] /\ inv (w_mem w)) as (-> & Hin & Hout & Hinv).
    { inversion V; subst; cbn [w_pc] in *; try discriminate. injection Hpc as ->. auto. }
    assert (Hj : j < n_all).
    { pose proof (given_bound _ _ _ _ _ _ HI). pose proof (index_bound _ _ _ _ _ _ i _ j HI Hs ltac:(simpl; auto)). lia. }
    destruct (evaluates_good _ _ _ Hinv Hj Hev) as (Hinv' & Hgood).
    exists g, stops, (upd stats i (Done j)), stored. split; [|exists []; rewrite app_nil_r; reflexivity].
    pose proof (i_half _ _ _ _ _ _ HI) as Hh. cbn [s_master] in Hh.
    eapply stat_change; eauto using i_good, i_from.
    + rewrite Hin, Hout. constructor; auto.
    + pose proof (i_phase _ _ _ _ _ _ HI) as P. cbn [s_master] in P. cbn [free].
      rewrite Nat.sub_0_r, Nat.add_0_r. destruct m as [[]| |[]|[]|]; cbn [phase] in *; auto.
      * destruct P as (P1 & P2 & P3 & P4 & P5). repeat split; auto.
        intros k s Hk Hs'. destruct (Nat.eq_dec k i) as [->|Hne].
        { specialize (P5 _ _ Hk Hs). discriminate. }
        rewrite nth_error_upd_other in Hs' by auto. eauto.
      * destruct P as (P1 & P2 & P3 & P4 & P5). repeat split; auto; try lia.
        destruct (Nat.eq_dec w0 i) as [->|Hne]; [congruence|]. rewrite nth_error_upd_other by auto. auto.
    + destruct Hh as (Hh1 & Hh2). split.
      * intros k j' ip' Hk. destruct (Nat.eq_dec k i) as [->|Hne].
        { rewrite nth_error_upd_same in Hk by (rewrite (i_ls _ _ _ _ _ _ HI); auto). discriminate. }
        rewrite nth_error_upd_other in Hk by auto. eauto.
      * intros t' k ip' Hk. destruct (Hh2 _ _ _ Hk) as (j' & Hj'). exists j'.
        destruct (Nat.eq_dec k i) as [->|Hne]; [congruence|]. rewrite nth_error_upd_other by auto. auto.
    + exact (i_data _ _ _ _ _ _ HI).
    + intros x. rewrite count_occ_app. cbn [evaluated]. change (cntp [] x) with 0. lia.
  - (* send ints *)
    destruct (stat_of _ stats i w (i_lw _ _ _ _ _ _ HI) (i_ls _ _ _ _ _ _ HI) Hnth) as (Hlt & st & Hs).
    pose proof (i_view _ _ _ _ _ _ HI _ _ _ Hnth Hs) as V.
    exists g, stops, stats, stored. split; [|exists []; rewrite app_nil_r; reflexivity]. eapply worker_same; eauto.
    inversion V; subst; cbn [w_pc w_in w_mem w_out] in *; try discriminate. injection Hpc as ->. econstructor; eauto.
  - (* send floats *)
    destruct (stat_of _ stats i w (i_lw _ _ _ _ _ _ HI) (i_ls _ _ _ _ _ _ HI) Hnth) as (Hlt & st & Hs).
    pose proof (i_view _ _ _ _ _ _ HI _ _ _ Hnth Hs) as V.
    exists g, stops, stats, stored. split; [|exists []; rewrite app_nil_r; reflexivity]. eapply worker_same; eauto.
    inversion V; subst; cbn [w_pc w_in w_mem w_out] in *; try discriminate; injection Hpc as ->; cbn [app]; econstructor; eauto.
Qed.

Lemma inv_step d0 s t : Reach d0 s -> step s (Run t) -> Reach d0 t.
Proof.
  intros (g & stops & stats & stored & HI) Hst. destruct (inv_step_grow _ _ _ _ _ _ _ HI Hst) as (g' & st' & ss' & sd' & H & _).
  exists g', st', ss', sd'. auto.
Qed.

(** A failure is an evaluation that fails, a result that cannot be stored, or a save that fails. *)
Lemma inv_fail d0 s : Reach d0 s -> step s Fail ->
  (exists l j r, inv l /\ j < n_all /\ evaluates l j r /\ (forall l', r <> Ok l')) \/
  (exists stored i j ip fp, store_all stored d0 = Ok (s_data s) /\
     Forall (fun x => good (en_index x) (en_ip x) (en_fp x)) stored /\ Forall (fun x => en_worker x < nw) stored /\
     good j ip fp /\ i < nw /\ NoDup (j :: map en_index stored) /\
     Forall (fun x => x < n_all) (j :: map en_index stored) /\
     forall d', store i ip fp (s_data s) <> Ok d') \/
  (forall x, save (s_data s) <> Ok x).
Proof.
  intros (g & stops & stats & stored & HI) Hst. inversion Hst; subst; clear Hst;
    try match goal with X : nth_error _ _ = Some _ |- _ => rename X into Hnth end;
    try match goal with X : w_pc _ = _ |- _ => rename X into Hpc end;
    try match goal with X : w_out _ = _ |- _ => rename X into Hout end;
    try match goal with X : w_in _ = _ |- _ => rename X into Hin end;
    try match goal with X : evaluates _ _ _ |- _ => rename X into Hev end.
  - (* save *) right; right. cbn [s_data]. destruct (save d); discriminate.
  - (* ints *) exfalso. destruct m as [|fp]; try discriminate.
    destruct (stat_of _ stats i w (i_lw _ _ _ _ _ _ HI) (i_ls _ _ _ _ _ _ HI) Hnth) as (Hlt & st & Hs).
    pose proof (i_view _ _ _ _ _ _ HI _ _ _ Hnth Hs) as V.
    pose proof (i_half _ _ _ _ _ _ HI) as (Hh & _). cbn [s_master] in Hh.
    inversion V; subst; cbn [w_out] in *; try discriminate; destruct (Hh _ _ _ Hs); discriminate.
  - (* ints, wrong *) exfalso.
    destruct (stat_of _ stats i w (i_lw _ _ _ _ _ _ HI) (i_ls _ _ _ _ _ _ HI) Hnth) as (Hlt & st & Hs).
    pose proof (i_view _ _ _ _ _ _ HI _ _ _ Hnth Hs) as V.
    pose proof (i_half _ _ _ _ _ _ HI) as (Hh & _). cbn [s_master] in Hh.
    inversion V; subst; cbn [w_out w_pc] in *; try discriminate; destruct (Hh _ _ _ Hs); discriminate.
  - (* floats *)
    pose proof (i_half _ _ _ _ _ _ HI) as (_ & Hh2). cbn [s_master] in Hh2.
    destruct (Hh2 _ _ _ eq_refl) as (j & Hs).
    destruct (stat_of _ stats i w (i_lw _ _ _ _ _ _ HI) (i_ls _ _ _ _ _ _ HI) Hnth) as (Hlt & _).
    pose proof (i_view _ _ _ _ _ _ HI _ _ _ Hnth Hs) as V.
    assert (exists fp, m = inr fp /\ good j ip fp) as (fp & -> & Hg).
    { inversion V; subst; cbn [w_out] in *; try discriminate; injection Hout as <- <-; eauto. }
    right; left. exists stored, i, j, ip, fp. cbn [s_data].
    pose proof (stored_nodup _ _ _ _ _ _ i _ j HI Hs ltac:(simpl; auto)) as (N1 & N2).
    repeat (split; [solve [eauto using i_data, i_good, i_from | exact (i_data _ _ _ _ _ _ HI)]|]).
    unfold received in *. intros d' E. rewrite E in *. discriminate.
  - (* floats, synchronous *)
    pose proof (i_half _ _ _ _ _ _ HI) as (_ & Hh2). cbn [s_master] in Hh2.
    destruct (Hh2 _ _ _ eq_refl) as (j' & Hs).
    destruct (stat_of _ stats i w (i_lw _ _ _ _ _ _ HI) (i_ls _ _ _ _ _ _ HI) Hnth) as (Hlt & _).
    pose proof (i_view _ _ _ _ _ _ HI _ _ _ Hnth Hs) as V.
    right; left. exists stored, i, j', ip, (floats (w_mem w)). cbn [s_data].
    pose proof (stored_nodup _ _ _ _ _ _ i _ j' HI Hs ltac:(simpl; auto)) as (N1 & N2).
    repeat (split; [solve [eauto using i_data, i_good, i_from | exact (i_data _ _ _ _ _ _ HI)
       | inversion V; subst; cbn [w_pc] in *; try discriminate; cbn [w_mem]; auto]|]).
    unfold received in *. intros d' E. rewrite E in *. discriminate.
  - (* floats, wrong *) exfalso.
    pose proof (i_half _ _ _ _ _ _ HI) as (_ & Hh2). cbn [s_master] in Hh2.
    destruct (Hh2 _ _ _ eq_refl) as (j' & Hs).
    pose proof (i_view _ _ _ _ _ _ HI _ _ _ Hnth Hs) as V.
    inversion V; subst; cbn [w_pc] in *; discriminate.
  - (* eval *) left.
    destruct (stat_of _ stats i w (i_lw _ _ _ _ _ _ HI) (i_ls _ _ _ _ _ _ HI) Hnth) as (Hlt & st & Hs).
    pose proof (i_view _ _ _ _ _ _ HI _ _ _ Hnth Hs) as V.
    assert (st = Todo j /\ inv (w_mem w)) as (-> & Hinv).
    { inversion V; subst; cbn [w_pc] in *; try discriminate. injection Hpc as ->. auto. }
    exists (w_mem w), j, r. repeat split; auto.
    + pose proof (given_bound _ _ _ _ _ _ HI). pose proof (index_bound _ _ _ _ _ _ i _ j HI Hs ltac:(simpl; auto)). lia.
    + intros l' ->. discriminate.
Qed.

(** ** Progress *)
Hypothesis evaluates_total : forall l j, inv l -> j < n_all -> exists r, evaluates l j r.

Lemma busy_progress d0 m d ws sv lg g stops stats stored i st :
  Inv d0 (mkS m d ws sv lg) g stops stats stored ->
  nth_error stats i = Some st -> st <> Free ->
  (exists t, m = MRecv t) \/ (exists t j ip, m = MRecv2 t i ip /\ st = Half j ip) ->
  exists r, step (mkS m d ws sv lg) r.
Proof.
  intros HI Hs Hne Hm.
  destruct (worker_of _ _ _ _ (i_lw _ _ _ _ _ _ HI) (i_ls _ _ _ _ _ _ HI) Hs) as (Hlt & w & Hw).
  cbn [s_workers] in Hw.
  pose proof (i_view _ _ _ _ _ _ HI _ _ _ Hw Hs) as V.
  pose proof (i_half _ _ _ _ _ _ HI) as (Hh1 & _). cbn [s_master] in *.
  assert (Hb : forall j, In j (index_of i st) -> j < n_all).
  { intros j Hj. pose proof (given_bound _ _ _ _ _ _ HI). pose proof (index_bound _ _ _ _ _ _ i _ j HI Hs Hj). lia. }
  inversion V; subst; try congruence.
  - (* instruction in transit *) eexists. eapply st_take; eauto; reflexivity.
  - (* evaluating *) destruct (evaluates_total l j) as (r & Hr); auto. { apply Hb; simpl; auto. }
    eexists. eapply st_eval; eauto; reflexivity.
  - (* sending ints *) destruct (buf_ints e j) eqn:Eb.
    + eexists. eapply st_send_ints; eauto; reflexivity.
    + destruct Hm as [(t & ->)|(t & j' & ip & -> & ?)]; [|discriminate].
      eexists. eapply st_ints_sync; eauto; reflexivity.
  - (* ints buffered *) destruct Hm as [(t & ->)|(t & j' & ip & -> & ?)]; [|discriminate].
    eexists. eapply (st_ints _ _ _ _ _ _ _ _ t _ _ _ _ i); eauto; reflexivity.
  - destruct Hm as [(t & ->)|(t & j' & ip' & -> & ?)]; [|discriminate].
    eexists. eapply (st_ints _ _ _ _ _ _ _ _ t _ _ _ _ i); eauto; reflexivity.
  - destruct Hm as [(t & ->)|(t & j' & ip' & -> & ?)]; [|discriminate].
    eexists. eapply (st_ints _ _ _ _ _ _ _ _ t _ _ _ _ i); eauto; reflexivity.
  - (* half *) destruct Hm as [(t & ->)|(t & j' & ip' & -> & E)]; [destruct (Hh1 _ _ _ Hs); discriminate|].
    destruct (buf_floats e j) eqn:Eb.
    + eexists. eapply st_send_floats; eauto; reflexivity.
    + eexists. eapply st_floats_sync; eauto; reflexivity.
  - destruct Hm as [(t & ->)|(t & j' & ip' & -> & E)]; [destruct (Hh1 _ _ _ Hs); discriminate|].
    eexists. eapply st_floats; eauto; reflexivity.
  - destruct Hm as [(t & ->)|(t & j' & ip' & -> & E)]; [destruct (Hh1 _ _ _ Hs); discriminate|].
    eexists. eapply st_floats; eauto; reflexivity.
Qed.

Lemma end_dec (p : wpc) : {p = WEnd} + {p <> WEnd}.
Proof. destruct p; (left; reflexivity) || (right; discriminate). Qed.
Lemma progress d0 s : Reach d0 s -> (forall i, buf_stop e i = true) -> ended s \/ exists r, step s r.
Proof.
  intros (g & stops & stats & stored & HI) Hbuf. destruct s as [m d ws sv lg].
  pose proof (i_phase _ _ _ _ _ _ HI) as P. cbn [s_master] in P.
  assert (Hf : forall a, In a stats -> free a <= 1) by (intros [] _; simpl; lia).
  assert (Hsome : total free stats < nw -> exists i st, nth_error stats i = Some st /\ st <> Free).
  { intros Hlt. destruct (total_lt free stats Hf) as (i & st & A & B).
    - rewrite (i_ls _ _ _ _ _ _ HI); auto.
    - exists i, st. split; auto. intros ->. discriminate. }
  destruct m as [sd|j|t|t w ip|].
  - (* send *) right.
    assert (Hd : dest sd < nw).
    { destruct sd; cbn [phase dest] in *; try lia. destruct P as (_ & _ & _ & _ & P).
      rewrite <- (i_ls _ _ _ _ _ _ HI). apply nth_error_Some. congruence. }
    destruct (nth_error ws (dest sd)) as [w|] eqn:Ew.
    2:{ apply nth_error_None in Ew. pose proof (i_lw _ _ _ _ _ _ HI) as Hl. cbn [s_workers] in Hl. lia. }
    destruct (buffered e sd) eqn:Eb.
    + eexists. eapply st_send; eauto; reflexivity.
    + destruct (stat_of _ stats (dest sd) w (i_lw _ _ _ _ _ _ HI) (i_ls _ _ _ _ _ _ HI) Ew) as (_ & st & Hs).
      pose proof (i_view _ _ _ _ _ _ HI _ _ _ Ew Hs) as V.
      assert (st = Free /\ stops = 0) as (-> & ->).
      { destruct sd; cbn [phase dest buffered] in *; try congruence.
        - destruct P as (P1 & P2 & P3 & P4 & P5). split; auto. eapply P5; eauto.
        - destruct P as (P1 & P2 & P3 & P4 & P5). split; auto. congruence. }
      cbn in V. inversion V; subst; [|discriminate].
      eexists. eapply st_send_sync; eauto; reflexivity.
  - right. eexists. apply st_no_save.
  - right. destruct Hsome as (i & st & A & B).
    { destruct t; cbn [phase] in P; lia. }
    eapply busy_progress; eauto.
  - right. pose proof (i_half _ _ _ _ _ _ HI) as (_ & Hh2). cbn [s_master] in Hh2.
    destruct (Hh2 _ _ _ eq_refl) as (j & Hs).
    eapply busy_progress; eauto; [discriminate|]. right. eauto.
  - (* end *) cbn [phase] in P. destruct P as (-> & Hnf & ->).
    assert (Hall : Forall (fun a => free a = 1) stats).
    { apply total_full; auto. rewrite (i_ls _ _ _ _ _ _ HI). auto. }
    destruct (Forall_Exists_dec (fun w : worker => w_pc w = WEnd)
       (fun w => end_dec (w_pc w)) ws)
      as [F|Ex].
    + left. split; auto.
    + right. apply Exists_exists in Ex. destruct Ex as (w & Hin & Hpc).
      destruct (In_nth_error _ _ Hin) as (i & Hi).
      destruct (stat_of _ stats i w (i_lw _ _ _ _ _ _ HI) (i_ls _ _ _ _ _ _ HI) Hi) as (Hlt & st & Hs).
      pose proof (i_view _ _ _ _ _ _ HI _ _ _ Hi Hs) as V.
      rewrite Forall_forall in Hall. pose proof (Hall st (nth_error_In _ _ Hs)) as Hst.
      destruct st; try discriminate. inversion V; subst; [|exfalso; apply Hpc; reflexivity].
      replace (i <? nw) with true in * by (symmetry; apply Nat.ltb_lt; auto).
      eexists. eapply st_take; eauto; reflexivity.
Qed.

(** ** The start *)
Lemma inv_initial d0 mems : length mems = nw -> Forall inv mems ->
  Inv d0 (initial nw n_all d0 mems) 0 0 (repeat Free nw) [].
Proof.
  intros Hl Hm. unfold initial.
  assert (Z : forall n, total free (repeat Free n) = n) by (induction n; simpl; auto).
  constructor; cbn [s_workers s_master s_data s_log map store_all]; auto.
  - rewrite map_length; auto.
  - apply repeat_length.
  - intros i w st Hw Hs. assert (st = Free) as ->.
    { apply nth_error_In in Hs. apply repeat_spec in Hs. auto. }
    rewrite nth_error_map in Hw. destruct (nth_error mems i) eqn:E; [|discriminate]. injection Hw as <-.
    rewrite Forall_forall in Hm. apply (v_free false). apply Hm. eapply nth_error_In; eauto.
  - unfold first. destruct (0 <? nw) eqn:E; [|apply Nat.ltb_ge in E; lia]. cbn [phase].
    rewrite Z. repeat split; try lia. intros k s _ Hs. apply nth_error_In in Hs. apply repeat_spec in Hs. auto.
  - apply halves_none.
    + intros k j ip Hs. apply nth_error_In in Hs. apply repeat_spec in Hs. discriminate.
    + unfold first. destruct (0 <? nw) eqn:E; [discriminate|apply Nat.ltb_ge in E; lia].
  - intros x. assert (E : forall n k, imap index_of k (repeat Free n) = []) by (induction n; simpl; auto).
    rewrite E. reflexivity.
  - intros x. assert (E : forall n k, imap evaluated k (repeat Free n) = []) by (induction n; simpl; auto).
    rewrite E. reflexivity.
Qed.
Lemma reach_steps d0 n s t : steps n s t -> Reach d0 s -> Reach d0 t.
Proof. induction 1; auto. intros H1. apply IHsteps. eapply inv_step; eauto. Qed.

(** ** The end *)
Lemma imap_nil {A B} (f : nat -> A -> list B) l : (forall k a, In a l -> f k a = []) -> forall k, imap f k l = [].
Proof.
  induction l as [|a l IH]; intros H k; simpl; auto. rewrite H by (simpl; auto). simpl. apply IH. intros; apply H; simpl; auto.
Qed.
Lemma end_stored d0 s : Reach d0 s -> s_master s = MEnd ->
  exists stored, store_all stored d0 = Ok (s_data s) /\
    Forall (fun x => good (en_index x) (en_ip x) (en_fp x)) stored /\ Forall (fun x => en_worker x < nw) stored /\
    Permutation (map en_index stored) (seq 0 n_all) /\
    Permutation (s_log s) (map (fun y => (en_worker y, en_index y)) stored).
Proof.
  intros (g & stops & stats & stored & HI) Hm. exists stored.
  pose proof (i_phase _ _ _ _ _ _ HI) as P. rewrite Hm in P. cbn [phase] in P. destruct P as (-> & Hnf & ->).
  assert (Hf : forall a, In a stats -> free a <= 1) by (intros [] _; simpl; lia).
  assert (Hall : Forall (fun a => free a = 1) stats).
  { apply total_full; auto. rewrite (i_ls _ _ _ _ _ _ HI). auto. }
  rewrite Forall_forall in Hall.
  repeat split; eauto using i_data, i_good, i_from.
  - apply (Permutation_count_occ Nat.eq_dec). intros x. pose proof (i_idx _ _ _ _ _ _ HI x) as I.
    rewrite imap_nil in I. { simpl in I. lia. }
    intros k [] Ha; auto; specialize (Hall _ Ha); discriminate.
  - apply (Permutation_count_occ pair_dec). intros x. pose proof (i_log _ _ _ _ _ _ HI x) as I.
    rewrite (imap_nil evaluated) in I. { simpl in I. lia. }
    intros k [] Ha; auto; specialize (Hall _ Ha); discriminate.
Qed.

(** Results received so far. *)
Lemma evaluated_index (stats : list wstat) x : forall k,
  cntn (map snd (imap evaluated k stats)) x <= cntn (imap index_of k stats) x.
Proof.
  induction stats as [|st stats IH]; intros k; cbn [imap map]; auto.
  rewrite map_app, !count_occ_app. specialize (IH (S k)).
  destruct st; cbn [evaluated index_of map snd count_occ]; try destruct (Nat.eq_dec j x); lia.
Qed.
Lemma evaluated_worker (stats : list wstat) : forall k p, In p (imap evaluated k stats) -> fst p < k + length stats.
Proof.
  induction stats as [|st stats IH]; intros k p H; cbn [imap] in H; [destruct H|].
  apply in_app_or in H. cbn [length]. destruct H as [H|H].
  - destruct st; cbn [evaluated] in H; try destruct H; subst; simpl; try lia; destruct H.
  - specialize (IH _ _ H). lia.
Qed.
Lemma stored_facts d0 s g stops stats stored : Inv d0 s g stops stats stored ->
    store_all stored d0 = Ok (s_data s) /\
    Forall (fun x => good (en_index x) (en_ip x) (en_fp x)) stored /\ Forall (fun x => en_worker x < nw) stored /\
    NoDup (map en_index stored) /\ Forall (fun x => x < n_all) (map en_index stored) /\
    incl (map (fun y => (en_worker y, en_index y)) stored) (s_log s) /\ NoDup (map snd (s_log s)) /\
    Forall (fun x => fst x < nw /\ snd x < n_all) (s_log s).
Proof.
  intros HI.
  pose proof (i_idx _ _ _ _ _ _ HI) as I. pose proof (i_log _ _ _ _ _ _ HI) as J.
  pose proof (given_bound _ _ _ _ _ _ HI) as Hg.
  assert (C : forall x, cntn (map en_index stored) x <= if x <? g then 1 else 0).
  { intros x. rewrite <- count_seq_lt. specialize (I x). lia. }
  assert (P : Permutation (s_log s) (map (fun y => (en_worker y, en_index y)) stored ++ imap evaluated 0 stats)).
  { apply (Permutation_count_occ pair_dec). intros x. rewrite count_occ_app. apply J. }
  assert (C2 : forall x, cntn (map snd (s_log s)) x <= if x <? g then 1 else 0).
  { intros x. pose proof (Permutation_map snd P) as P'.
    rewrite (Permutation_count_occ Nat.eq_dec) in P'. rewrite P'.
    rewrite map_app, count_occ_app, map_map.
    change (map (fun x => snd (en_worker x, en_index x)) stored) with (map en_index stored).
    rewrite <- count_seq_lt. specialize (I x). pose proof (evaluated_index stats x 0). lia. }
  repeat split; eauto using i_data, i_good, i_from.
  - apply (NoDup_count_occ Nat.eq_dec). intros x. specialize (C x). destruct (x <? g); lia.
  - apply Forall_forall. intros x Hx. apply (count_occ_In Nat.eq_dec) in Hx. specialize (C x).
    destruct (x <? g) eqn:E; [apply Nat.ltb_lt in E|]; lia.
  - intros p Hp. apply (Permutation_in p (Permutation_sym P)). apply in_or_app. auto.
  - apply (NoDup_count_occ Nat.eq_dec). intros x. specialize (C2 x). destruct (x <? g); lia.
  - apply Forall_forall. intros p Hp. split.
    + apply (Permutation_in p P) in Hp. apply in_app_or in Hp. destruct Hp as [Hp|Hp].
      * apply in_map_iff in Hp. destruct Hp as (y & <- & Hy). pose proof (i_from _ _ _ _ _ _ HI) as Fr.
        rewrite Forall_forall in Fr. simpl. auto.
      * apply evaluated_worker in Hp. rewrite (i_ls _ _ _ _ _ _ HI) in Hp. auto.
    + apply (in_map snd) in Hp. apply (count_occ_In Nat.eq_dec) in Hp. specialize (C2 (snd p)).
      destruct (snd p <? g) eqn:E; [apply Nat.ltb_lt in E|]; lia.
Qed.

Lemma stored_so_far d0 s : Reach d0 s ->
  exists stored, store_all stored d0 = Ok (s_data s) /\
    Forall (fun x => good (en_index x) (en_ip x) (en_fp x)) stored /\ Forall (fun x => en_worker x < nw) stored /\
    NoDup (map en_index stored) /\ Forall (fun x => x < n_all) (map en_index stored) /\
    incl (map (fun y => (en_worker y, en_index y)) stored) (s_log s) /\ NoDup (map snd (s_log s)) /\
    Forall (fun x => fst x < nw /\ snd x < n_all) (s_log s).
Proof. intros (g & stops & stats & stored & HI). exists stored. eapply stored_facts; eauto. Qed.

(** The files written so far, and the results each of them was made from. *)
Definition extends (a b : list entry) : Prop := exists more, b = a ++ more.
Definition Hist (d0 : D) (s : state) (stored : list entry) (sss : list (list entry)) : Prop :=
  Forall2 (fun st x => exists d, store_all st d0 = Ok d /\ save d = Ok x) sss (s_saved s) /\
  StronglySorted extends sss /\ Forall (fun st => extends st stored) sss.

Lemma extends_trans a b c : extends a b -> extends b c -> extends a c.
Proof. intros (x & ->) (y & ->). exists (x ++ y). rewrite app_assoc. reflexivity. Qed.
Lemma sorted_snoc (l : list (list entry)) x : StronglySorted extends l -> Forall (fun a => extends a x) l ->
  StronglySorted extends (l ++ [x]).
Proof.
  induction 1 as [|a l S IH H]; intros Hx; cbn [app]; [repeat constructor|]. inversion Hx; subst.
  constructor; auto. apply Forall_app. auto.
Qed.
Lemma saved_step s t : step s (Run t) ->
  s_saved t = s_saved s \/ exists x, s_saved t = s_saved s ++ [x] /\ save (s_data s) = Ok x.
Proof.
  intros H. inversion H; subst; cbn [s_saved s_data]; auto;
    try (destruct (save d) eqn:E; try discriminate; match goal with X : Run _ = Run _ |- _ => injection X as <- end; right; eexists; split; [reflexivity|auto]; fail);
    left; unfold received in *;
    repeat match goal with X : context [match ?z with _ => _ end] |- _ => destruct z; try discriminate end;
    match goal with X : Run _ = Run _ |- _ => injection X as <- end; reflexivity.
Qed.
Lemma saved_history d0 n s t : steps n s t -> forall g stops stats stored sss,
  Inv d0 s g stops stats stored -> Hist d0 s stored sss ->
  exists g' stops' stats' stored' sss', Inv d0 t g' stops' stats' stored' /\ Hist d0 t stored' sss'.
Proof.
  induction 1 as [s|n s t u Hst Hs IH]; intros g stops stats stored sss HI HH.
  - exists g, stops, stats, stored, sss. auto.
  - destruct (inv_step_grow _ _ _ _ _ _ _ HI Hst) as (g' & stops' & stats' & stored' & HI' & Hext).
    destruct HH as (A & B & C).
    assert (C' : Forall (fun st => extends st stored') sss).
    { eapply Forall_impl; [|exact C]. intros a Ha. eapply extends_trans; [exact Ha|exact Hext]. }
    destruct (saved_step _ _ Hst) as [E|(x & E & Hx)].
    + eapply IH; [exact HI'|]. split; [rewrite E; exact A|]. split; [exact B|exact C'].
    + apply (IH g' stops' stats' stored' (sss ++ [stored]) HI'). split; [|split].
      * rewrite E. apply Forall2_app; auto. constructor; [|constructor]. exists (s_data s). split; auto. eapply i_data; eauto.
      * apply sorted_snoc; auto.
      * apply Forall_app. split; auto.
Qed.

(** ** Termination *)
Definition wcost (w : worker) : nat :=
  4 * length (w_in w) + match w_pc w with WWork _ => 3 | WInts _ => 2 | WFloats _ => 1 | _ => 0 end.
Definition mcost (m : @master IP) : nat :=
  match m with
  | MSend (SFirst i) => 9 * (nw - i) + 9 * n_all + 9 * nw
  | MLoop j => 9 * (n_all - j) + 9 * nw
  | MRecv (Next j) => 9 * (n_all - j) + 9 * nw - 1
  | MRecv2 (Next j) _ _ => 9 * (n_all - j) + 9 * nw - 2
  | MSend (SNext j _) => 9 * (n_all - j) + 9 * nw - 3
  | MRecv (Final i) => 9 * (nw - i)
  | MRecv2 (Final i) _ _ => 9 * (nw - i) - 1
  | MSend (SStop i) => 9 * (nw - i) - 2
  | MEnd => 0
  end.
Definition cost (s : state) : nat := mcost (s_master s) + total wcost (s_workers s).

Lemma mcost_main j : nw <= j -> mcost (main nw n_all j) <= 9 * (n_all - j) + 9 * nw.
Proof.
  intros H. unfold main, final. destruct (j <? n_all); cbn [mcost]; [lia|].
  destruct (0 <? nw); cbn [mcost]; lia.
Qed.
Lemma cost_send sd g nf stops stats : phase (MSend sd) g nf stops stats ->
  mcost (after nw n_all sd) + 5 <= mcost (MSend sd).
Proof.
  intros P. destruct sd; cbn [phase] in P; cbn [after].
  - unfold first. destruct (S i <? nw) eqn:E.
    + apply Nat.ltb_lt in E. cbn [mcost]. lia.
    + apply Nat.ltb_ge in E. pose proof (mcost_main nw (le_n _)) as H. generalize dependent (mcost (main nw n_all nw)).
      intros c H. cbn [mcost]. lia.
  - pose proof (mcost_main (S j) ltac:(lia)) as H. generalize dependent (mcost (main nw n_all (S j))).
    intros c H. cbn [mcost]. lia.
  - unfold final. destruct (S i <? nw) eqn:E; cbn [mcost]; lia.
Qed.
Lemma cost_step d0 s t : Reach d0 s -> step s (Run t) -> cost t < cost s.
Proof.
  intros (g & stops & stats & stored & HI) Hst. pose proof (i_phase _ _ _ _ _ _ HI) as P.
  clear HI. unfold cost. inversion Hst; subst; clear Hst;
    try match goal with X : nth_error _ _ = Some _ |- _ => rename X into Hnth end;
    try match goal with X : w_pc _ = _ |- _ => rename X into Hpc end;
    try match goal with X : w_out _ = _ |- _ => rename X into Hout end;
    try match goal with X : w_in _ = _ |- _ => rename X into Hin end;
    try match goal with X : evaluates _ _ _ |- _ => rename X into Hev end;
    try (destruct w as [pc mem inn out]);
    try (destruct (total_upd wcost _ _ _ Hnth) as (T1 & T2));
    unfold received in *;
    repeat match goal with X : match ?x with _ => _ end = Run _ |- _ => destruct x; try discriminate X end;
    try match goal with X : Run _ = Run _ |- _ => injection X as <- end;
    cbn [w_pc w_in w_out w_mem] in *; subst; cbn [s_master s_workers] in *; rewrite ?T2;
    try (pose proof (cost_send _ _ _ _ _ P)).
  all: try match goal with H : mcost (after nw n_all ?x) + 5 <= _ |- _ => generalize dependent (mcost (after nw n_all x)); intros end.
  all: try match goal with |- context [content ?x] => destruct (content x) end.
  all: try match goal with x : option nat |- _ => destruct x end.
  all: try match goal with x : turn |- _ => destruct x end.
  all: cbn [mcost phase reply] in *; unfold wcost in *; cbn [w_pc w_in obey length] in *;
    rewrite ?app_length in *; cbn [length] in *.
  all: try lia.
Qed.

Lemma steps_bounded d0 n s t : steps n s t -> Reach d0 s -> n + cost t <= cost s.
Proof.
  induction 1; intros H1; [lia|]. pose proof (cost_step _ _ _ H1 H).
  specialize (IHsteps (inv_step _ _ _ H1 H)). lia.
Qed.
End FarmFacts.
