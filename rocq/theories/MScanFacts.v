(** Facts about one point of a parameter scan and about the collection of the results. *)
From Coq Require Import String ZArith List Bool Arith Lia Permutation.
From Verif Require Import Base BaseFacts FloatOps Tensor TensorFacts ScanFacts CollectFacts Outfile Grid Farm FarmFacts MScan MScanSpec.
Import ListNotations.
Local Open Scope list_scope.
Local Open Scope nat_scope.

Section Facts.
Context {F : Type} (o : fops F) (fabs : F -> F) (of_Z : Z -> F) {X : Type}.
Notation stage := (@stage F X).
Notation multiopt := (@multiopt F X).
Notation qobj := (@qobj F).
Variable optimize : multiopt -> outcome multiopt.
Variable keep_all : bool.
Variable limits : string -> F.
Notation zero := (fzero o).
Notation acceptable := (acceptable o fabs keep_all limits).
Notation falls_short := (falls_short keep_all).
Notation requirements := (requirements o fabs limits).
Notation judge := (judge o fabs keep_all limits).
Notation run_filters := (run_filters o fabs limits).

(** ** The filters *)
Definition hit (q : qobj) (k : nat) (e : nat * comparison_kind * string * string) : Z :=
  let '(k', c, m, lim) := e in
  if (k' =? k) && fails o fabs c (qo_num q m) (limits lim) then 1%Z else 0%Z.
Definition hits (t : list (nat * comparison_kind * string * string)) (q : qobj) (k : nat) : Z :=
  fold_right (fun e n => (hit q k e + n)%Z) 0%Z t.
Definition entry_ok (q : qobj) (e : nat * comparison_kind * string * string) : bool :=
  let '(k', c, m, lim) := e in negb (fails o fabs c (qo_num q m) (limits lim)).

Lemma incrZ_spec (l : list Z) k : k < length l ->
  exists l', incrZ l k = Ok l' /\ length l' = length l /\
    forall i, nth i l' 0%Z = (nth i l 0 + if (i =? k)%nat then 1 else 0)%Z.
Proof.
  intros H. unfold incrZ. rewrite (aget_ok l k 0%Z H). cbn [bind]. rewrite aset_ok by auto.
  eexists; split; [reflexivity|]. split; [apply upd_length|]. intros i. rewrite nth_upd.
  destruct (Nat.eqb_spec i k); cbn [andb]; [subst|lia].
  apply Nat.ltb_lt in H. rewrite H. lia.
Qed.
Lemma addZ_spec (l : list Z) k x : k < length l ->
  exists l', addZ l k x = Ok l' /\ length l' = length l /\
    forall i, nth i l' 0%Z = (nth i l 0 + if (i =? k)%nat then x else 0)%Z.
Proof.
  intros H. unfold addZ. rewrite (aget_ok l k 0%Z H). cbn [bind]. rewrite aset_ok by auto.
  eexists; split; [reflexivity|]. split; [apply upd_length|]. intros i. rewrite nth_upd.
  destruct (Nat.eqb_spec i k); cbn [andb]; [subst|lia].
  apply Nat.ltb_lt in H. rewrite H. lia.
Qed.

Lemma run_filters_spec t q : forall f p,
  Forall (fun e => fst (fst (fst e)) < length f) t ->
  exists f', run_filters t q f p = Ok (f', p && forallb (entry_ok q) t) /\ length f' = length f /\
    forall k, nth k f' 0%Z = (nth k f 0 + hits t q k)%Z.
Proof.
  induction t as [|[[[k c] m] lim] t IH]; intros f p H; cbn [MScan.run_filters forallb].
  - exists f. rewrite andb_true_r. repeat split; auto. intros k. cbn. lia.
  - inversion H as [|? ? H1 H2]; subst. cbn [fst] in H1. cbn [entry_ok hits fold_right hit].
    destruct (fails o fabs c (qo_num q m) (limits lim)) eqn:E; cbn [negb andb].
    + destruct (incrZ_spec f k H1) as (f1 & -> & L1 & N1). cbn [bind].
      destruct (IH f1 false) as (f2 & -> & L2 & N2). { rewrite L1. auto. }
      exists f2. rewrite !andb_false_r. cbn [andb]. repeat split; auto; try lia.
      intros i. rewrite N2, N1. rewrite andb_true_r. fold (hits t q i). rewrite Nat.eqb_sym. destruct (k =? i); lia.
    + destruct (IH f p) as (f2 & -> & L2 & N2); auto.
      exists f2. repeat split; auto. intros i. rewrite N2, andb_false_r. fold (hits t q i). lia.
Qed.

(** The counters of one point. *)
Definition tally (q : qobj) (passed : bool) (k : nat) : Z :=
  ((if (k =? P_ATTEMPTS)%nat then 1 else 0) + (if keep_all then 0 else hits filter_table q k)
   + (if (k =? P_KEPT)%nat then (if passed then 1 else 0) else 0))%Z.
Lemma judge_spec q : exists f,
  judge q = Ok (f, keep_all || forallb (entry_ok q) filter_table) /\ length f = P_N_FILTERS /\
  forall k, nth k f 0%Z = tally q (keep_all || forallb (entry_ok q) filter_table) k.
Proof.
  unfold MScan.judge.
  destruct (incrZ_spec (repeat 0%Z P_N_FILTERS) P_ATTEMPTS) as (f0 & -> & L0 & N0). { rewrite repeat_length. unfold P_ATTEMPTS, P_N_FILTERS. lia. }
  rewrite repeat_length in L0. cbn [bind].
  assert (Z0 : forall i, nth i f0 0%Z = if i =? P_ATTEMPTS then 1%Z else 0%Z).
  { intros i. rewrite N0. rewrite nth_repeat. lia. }
  unfold tally. destruct keep_all; cbn [bind orb].
  - destruct (incrZ_spec f0 P_KEPT) as (f1 & -> & L1 & N1). { rewrite L0. unfold P_KEPT, P_N_FILTERS. lia. }
    cbn [bind]. exists f1. repeat split; [congruence|]. intros k. rewrite N1, Z0. destruct (k =? P_KEPT); lia.
  - destruct (run_filters_spec filter_table q f0 true) as (f1 & -> & L1 & N1).
    { rewrite L0. unfold filter_table. repeat constructor. }
    cbn [bind andb]. destruct (forallb (entry_ok q) filter_table) eqn:E.
    + destruct (incrZ_spec f1 P_KEPT) as (f2 & -> & L2 & N2). { rewrite L1, L0. unfold P_KEPT, P_N_FILTERS. lia. }
      cbn [bind]. exists f2. repeat split; [congruence|]. intros k. rewrite N2, N1, Z0. destruct (k =? P_KEPT); lia.
    + exists f1. repeat split; [congruence|]. intros k. rewrite N1, Z0. destruct (k =? P_KEPT); lia.
Qed.

Lemma passed_acceptable (mo : multiopt) (s : stage) : last_stage mo = Some s ->
  keep_all || forallb (entry_ok (st_q s)) filter_table = acceptable mo.
Proof.
  intros H. unfold MScanSpec.acceptable, MScanSpec.falls_short. rewrite H.
  destruct keep_all; cbn [negb andb orb]; [reflexivity|].
  cbn [forallb filter_table MScanSpec.requirements entry_ok fails snd].
  repeat match goal with |- context [flt o ?x ?y] => generalize (flt o x y); intros end.
  repeat match goal with b : bool |- _ => match goal with |- context [b] => destruct b; cbn [negb andb]; try reflexivity end end.
Qed.

(** ** Packing *)
Definition source_value (mo : multiopt) (s : source) : option F :=
  match s with Last_q m => q_of_last m mo | Last_opt m => opt_of_last m mo | First_iter m => iter_of_first m mo end.
Definition or0 (x : option F) : F := match x with Some v => v | None => zero end.
Definition block_value (mo : multiopt) (b k : nat) : F :=
  match nth_error axis_columns b with Some (_, f) => or0 (f mo k) | None => zero end.

Record is_result (na : nat) (j : nat) (mo : multiopt) (ip : list Z) (fp : list F) : Prop := mkIsResult {
  ir_last : exists s, last_stage mo = Some s /\ nth 3 ip 0%Z = qo_helicity (st_q s) /\
     forall k, k < P_N_FILTERS -> nth (k + 4) ip 0%Z = tally (st_q s) (acceptable mo) k;
  ir_lenip : length ip = n_int_parameters;
  ir_0 : nth 0 ip 0%Z = Z.of_nat j;
  ir_1 : nth 1 ip 0%Z = if acceptable mo then 1%Z else 0%Z;
  ir_2 : nth 2 ip 0%Z = mo_n_evals mo;
  ir_lenfp : length fp = n_parameters na;
  ir_scalar : forall i s, In (i, s) pack_table -> nth i fp zero = or0 (source_value mo s);
  ir_axis : forall b k, b < 8 -> k < na -> nth (block na b k) fp zero = block_value mo b k }.

Lemma pack_ints_spec j passed (mo : multiopt) last f p :
  length f = P_N_FILTERS -> length p = n_int_parameters ->
  exists p', pack_ints j passed mo last f p = Ok p' /\ length p' = n_int_parameters /\
    nth 0 p' 0%Z = Z.of_nat j /\ nth 1 p' 0%Z = (if passed then 1 else 0)%Z /\ nth 2 p' 0%Z = mo_n_evals mo /\
    nth 3 p' 0%Z = qo_helicity (st_q last) /\ forall k, k < P_N_FILTERS -> nth (k + 4) p' 0%Z = nth k f 0%Z.
Proof.
  intros Lf Lp. unfold pack_ints. unfold n_int_parameters, n_int_parameters_base, P_N_FILTERS in *.
  do 4 (rewrite aset_ok by (rewrite ?upd_length; lia); cbn [bind]).
  set (q := upd (upd _ _ _) 3 _).
  assert (Lq : length q = 4 + 17) by (unfold q; rewrite !upd_length; auto).
  assert (Q : nth 0 q 0%Z = Z.of_nat j /\ nth 1 q 0%Z = (if passed then 1 else 0)%Z /\ nth 2 q 0%Z = mo_n_evals mo /\
    nth 3 q 0%Z = qo_helicity (st_q last)).
  { unfold q. rewrite !nth_upd, !upd_length, Lp. cbn. auto. }
  clearbody q. destruct Q as (Q0 & Q1 & Q2 & Q3).
  destruct (for_loop_inv (fun m r => length r = 4 + 17 /\ (forall i, i < 4 -> nth i r 0%Z = nth i q 0%Z) /\
     forall k, k < m -> nth (k + 4) r 0%Z = nth k f 0%Z)
    (fun j p => do v <- aget f j; aset p (j + 4) v) 17 q) as (r & -> & L & A & B).
  - repeat split; auto. intros; lia.
  - intros k x Hk (L & A & B). rewrite (aget_ok f k 0%Z) by lia. cbn [bind]. rewrite aset_ok by lia.
    eexists; split; [reflexivity|]. rewrite upd_length. repeat split; auto.
    + intros i Hi. rewrite nth_upd. destruct (Nat.eqb_spec i (k + 4)); [lia|]. cbn [andb]. auto.
    + intros i Hi. rewrite nth_upd. destruct (Nat.eqb_spec (i + 4) (k + 4)) as [E|E]; cbn [andb].
      * replace (k + 4 <? length x) with true by (symmetry; apply Nat.ltb_lt; lia). f_equal. lia.
      * apply B. lia.
  - exists r. rewrite (A 0), (A 1), (A 2), (A 3) by lia. repeat split; auto.
Qed.

Lemma read_source_ok (mo : multiopt) first last na n0 s :
  first_stage mo = Some first -> last_stage mo = Some last -> shaped na n0 mo ->
  match s with First_iter m => In m ["iter_eta_bar"; "iter_B2c"; "iter_B2s"]%string | _ => True end ->
  read_source first last s = Ok (or0 (source_value mo s)).
Proof.
  intros Hf Hl [_ _ (s1 & Hf' & _ & Hi & _)] Hs. rewrite Hf in Hf'. injection Hf' as <-.
  destruct s as [m|m|m]; cbn [read_source source_value]; unfold q_of_last, opt_of_last, iter_of_first; rewrite ?Hl, ?Hf; auto.
  specialize (Hi m Hs). destruct (st_iter first m) as [|v l] eqn:E; [congruence|]. reflexivity.
Qed.

Lemma pack_scalars_spec (mo : multiopt) first last na n0 : first_stage mo = Some first -> last_stage mo = Some last -> shaped na n0 mo ->
  forall t p, NoDup (map fst t) -> Forall (fun e => fst e < length p) t ->
  Forall (fun e => match snd e with First_iter m => In m ["iter_eta_bar"; "iter_B2c"; "iter_B2s"]%string | _ => True end) t ->
  exists p', pack_scalars t first last p = Ok p' /\ length p' = length p /\
    (forall i s, In (i, s) t -> nth i p' zero = or0 (source_value mo s)) /\
    (forall i, ~ In i (map fst t) -> nth i p' zero = nth i p zero).
Proof.
  intros Hf Hl Hs. induction t as [|[i s] t IH]; intros p Hn Hb Hi; cbn [pack_scalars].
  - exists p. repeat split; auto. intros i s [].
  - inversion Hb; subst. inversion Hn; subst. inversion Hi; subst. cbn [fst snd] in *.
    rewrite (read_source_ok mo first last na n0) by auto. cbn [bind].
    rewrite aset_ok by auto. cbn [bind].
    destruct (IH (upd p i (or0 (source_value mo s)))) as (p' & -> & L & A & B); auto. { rewrite upd_length. auto. }
    exists p'. rewrite upd_length in L. repeat split; auto.
    + intros i' s' [E|E]; [injection E as <- <-|auto]. rewrite B by auto. rewrite nth_upd, Nat.eqb_refl. cbn [andb].
      rewrite (proj2 (Nat.ltb_lt _ _)) by auto. reflexivity.
    + intros i' Hi'. cbn [map fst] in Hi'. rewrite B by (intros E; apply Hi'; right; auto). rewrite nth_upd.
      destruct (Nat.eqb_spec i' i); [subst; exfalso; apply Hi'; left; auto|]. reflexivity.
Qed.

Lemma block_lt na b k : b < 8 -> k < na -> block na b k < n_parameters na.
Proof. unfold block, n_parameters. intros. assert (b * na <= 7 * na) by (apply Nat.mul_le_mono_r; lia). lia. Qed.
Lemma block_inj na b k b' k' : k < na -> k' < na -> block na b k = block na b' k' -> b = b' /\ k = k'.
Proof.
  unfold block. intros H H' E. assert (b = b').
  { destruct (Nat.lt_trichotomy b b') as [L|[L|L]]; auto; exfalso.
    - assert (na + b * na <= b' * na) by (change (na + b * na) with (S b * na); apply Nat.mul_le_mono_r; lia). lia.
    - assert (na + b' * na <= b * na) by (change (na + b' * na) with (S b' * na); apply Nat.mul_le_mono_r; lia). lia. }
  subst. lia.
Qed.
Lemma block_ge na b k : 58 <= block na b k.
Proof. unfold block, n_parameters_base. lia. Qed.

(** A loop that sets four blocks. *)
Definition set4 (na b0 : nat) (g : nat -> nat -> outcome F) (j : nat) (p : list F) : outcome (list F) :=
  do v <- g 0 j; do p <- aset p (block na (0 + b0) j) v;
  do v <- g 1 j; do p <- aset p (block na (1 + b0) j) v;
  do v <- g 2 j; do p <- aset p (block na (2 + b0) j) v;
  do v <- g 3 j; aset p (block na (3 + b0) j) v.
Lemma set4_loop na b0 n g (val : nat -> nat -> F) p :
  b0 <= 4 -> n <= na -> length p = n_parameters na ->
  (forall c j, c < 4 -> j < n -> g c j = Ok (val c j)) ->
  exists p', for_loop n (set4 na b0 g) p = Ok p' /\ length p' = n_parameters na /\
    (forall c j, c < 4 -> j < n -> nth (block na (c + b0) j) p' zero = val c j) /\
    (forall i, (forall c j, c < 4 -> j < n -> i <> block na (c + b0) j) -> nth i p' zero = nth i p zero).
Proof.
  intros Hb Hn Lp Hg.
  destruct (for_loop_inv (fun m p' => length p' = n_parameters na /\
    (forall c j, c < 4 -> j < m -> nth (block na (c + b0) j) p' zero = val c j) /\
    (forall i, (forall c j, c < 4 -> j < m -> i <> block na (c + b0) j) -> nth i p' zero = nth i p zero))
    (set4 na b0 g) n p) as (p' & -> & L & A & B); [|intros k x Hk (L & A & B)|exists p'; auto].
  { split; [auto|split; [intros; lia|auto]]. }
  unfold set4. rewrite !Hg by lia. cbn [bind].
  do 4 (rewrite aset_ok by (rewrite ?upd_length, L; apply block_lt; lia); cbn [bind]).
  eexists; split; [reflexivity|]. rewrite !upd_length. split; [auto|split].
  - intros c j Hc Hj. rewrite !nth_upd, !upd_length, L.
    repeat match goal with |- context [block ?a ?b k <? n_parameters na] =>
      rewrite (proj2 (Nat.ltb_lt (block a b k) _)) by (apply block_lt; lia) end.
    rewrite !andb_true_r.
    repeat match goal with |- context [?a =? ?b] => let E := fresh "E" in destruct (Nat.eqb_spec a b) as [E|E];
      [apply block_inj in E; [|lia|lia]; destruct E as (E & ->); f_equal; lia|] end.
    assert (j <> k). { intros ->. assert (c = 0 \/ c = 1 \/ c = 2 \/ c = 3) as [-> | [-> | [-> | -> ]]] by lia; solve [match goal with H : ?a <> ?b |- _ => apply H; reflexivity end]. }
    apply A; lia.
  - intros i Hi. rewrite !nth_upd.
    repeat match goal with |- context [?a =? ?b] => let E := fresh "E" in destruct (Nat.eqb_spec a b) as [E|E];
      [exfalso; revert E; apply Hi; lia|cbn [andb]] end.
    apply B. intros; apply Hi; lia.
Qed.

(** ** One point *)
Variable mo_ref : multiopt.
Variables na n0 : nat.
Variable dims : list (@dim F).
Notation point := (MScanSpec.point optimize mo_ref na dims).
Hypothesis optimize_shaped : forall idx mo mo', set_dims na dims idx mo_ref = Ok mo -> optimize mo = Ok mo' -> shaped na n0 mo'.

Definition mem_ok (me : @memory F) : Prop :=
  length (me_ints me) = n_int_parameters /\ length (me_floats me) = n_parameters na /\
  forall b k, 4 <= b < 8 -> n0 <= k < na -> nth (block na b k) (me_floats me) zero = zero.
Definition good (j : nat) (ip : list Z) (fp : list F) : Prop := exists mo, point j = Ok mo /\ is_result na j mo ip fp.
Notation evaluates := (MScan.evaluates o fabs optimize keep_all limits mo_ref dims na).

Lemma pack_table_ok : NoDup (map fst pack_table) /\ Forall (fun e => 0 < fst e < 58) pack_table /\
  Forall (fun e => match snd e with First_iter m => In m ["iter_eta_bar"; "iter_B2c"; "iter_B2s"]%string | _ => True end) pack_table.
Proof.
  split; [|split].
  - assert (H : map fst pack_table = seq 1 57) by reflexivity. rewrite H. apply seq_NoDup.
  - unfold pack_table. repeat (constructor; [cbn [fst]; lia|]). constructor.
  - unfold pack_table. repeat (constructor; [cbn [snd In]; auto|]). constructor.
Qed.

Lemma eval_spec elapsed j me mo : mem_ok me -> point j = Ok mo ->
  exists me', eval_scan_index o fabs optimize keep_all limits mo_ref na dims elapsed j me = Ok me' /\
    mem_ok me' /\ is_result na j mo (me_ints me') (me_floats me').
Proof.
  intros (Li & Lf & Hz) Hp. unfold MScanSpec.point in Hp. unfold eval_scan_index.
  destruct (set_dims na dims _ mo_ref) as [mo1| |] eqn:E1; try discriminate. cbn [bind] in *.
  pose proof (optimize_shaped _ _ _ E1 Hp) as Sh. rewrite Hp. cbn [bind].
  pose proof Sh as [Hn0 (sl & Hl & L1 & L2 & L3 & L4) (sf & Hf & L5 & It & Ax)].
  unfold first_stage, last_stage in Hf, Hl. rewrite (aget_nth_error _ _ _ Hf), (aget_nth_error _ _ _ Hl). cbn [bind].
  fold (first_stage mo) in Hf. fold (last_stage mo) in Hl.
  destruct (judge_spec (st_q sl)) as (f & Hj & Lfil & Nf). rewrite Hj. cbn [bind].
  rewrite (passed_acceptable mo sl Hl) in *.
  destruct (pack_ints_spec j (acceptable mo) mo sl f (me_ints me) Lfil Li) as (ip & -> & Lip & I0 & I1 & I2 & I3 & I4).
  cbn [bind]. rewrite aset_ok by (rewrite Lf; unfold n_parameters, n_parameters_base; lia). cbn [bind].
  destruct pack_table_ok as (T1 & T2 & T3).
  destruct (pack_scalars_spec mo sf sl na n0 Hf Hl Sh pack_table (upd (me_floats me) 0 elapsed) T1) as (p & -> & Lp & P1 & P2); auto.
  { eapply Forall_impl; [|exact T2]. cbn beta. intros a Ha. rewrite upd_length, Lf. unfold n_parameters, n_parameters_base. lia. }
  cbn [bind]. rewrite upd_length, Lf in Lp.
  unfold pack_axis.
  change (fun j0 p0 => do v <- aget (qo_R0c (st_q sl)) j0; _) with
    (set4 na 0 (fun c j => aget (nth c [qo_R0c (st_q sl); qo_R0s (st_q sl); qo_Z0c (st_q sl); qo_Z0s (st_q sl)] []) j)).
  destruct (set4_loop na 0 na (fun c j => aget (nth c [qo_R0c (st_q sl); qo_R0s (st_q sl); qo_Z0c (st_q sl); qo_Z0s (st_q sl)] []) j)
    (fun c j => nth j (nth c [qo_R0c (st_q sl); qo_R0s (st_q sl); qo_Z0c (st_q sl); qo_Z0s (st_q sl)] []) zero) p)
    as (p2 & -> & Lp2 & A2 & B2); auto; try lia.
  { intros c k Hc Hk. apply aget_ok. assert (c = 0 \/ c = 1 \/ c = 2 \/ c = 3) as [-> | [-> | [-> | -> ]]] by lia; cbn [nth]; lia. }
  cbn [bind].
  change (fun j0 p0 => do v <- matrix_get (st_iter_axis sf "iter_R0c") j0 0; _) with
    (set4 na 4 (fun c j => matrix_get (st_iter_axis sf (nth c ["iter_R0c"; "iter_R0s"; "iter_Z0c"; "iter_Z0s"]%string ""%string)) j 0)).
  rewrite L5.
  destruct (set4_loop na 4 n0 (fun c j => matrix_get (st_iter_axis sf (nth c ["iter_R0c"; "iter_R0s"; "iter_Z0c"; "iter_Z0s"]%string ""%string)) j 0)
    (fun c j => nth j (m_data (st_iter_axis sf (nth c ["iter_R0c"; "iter_R0s"; "iter_Z0c"; "iter_Z0s"]%string ""%string))) zero) p2)
    as (p3 & -> & Lp3 & A3 & B3); auto; try lia.
  { intros c k Hc Hk. unfold matrix_get, matrix_index. rewrite Nat.mul_0_r, Nat.add_0_r. apply aget_ok.
    eapply Nat.lt_le_trans; [exact Hk|]. apply Ax.
    assert (c = 0 \/ c = 1 \/ c = 2 \/ c = 3) as [-> | [-> | [-> | -> ]]] by lia; cbn [nth In]; auto. }
  cbn [bind]. eexists; split; [reflexivity|]. cbn [me_ints me_floats].
  assert (Zb : forall b k, 4 <= b < 8 -> n0 <= k < na -> nth (block na b k) p3 zero = zero).
  { intros b k Hb Hk. rewrite B3.
    2:{ intros c j' Hc Hj' E. apply block_inj in E; lia. }
    rewrite B2.
    2:{ intros c j' Hc Hj' E. apply block_inj in E; lia. }
    rewrite P2.
    2:{ intros E. apply in_map_iff in E. destruct E as (e & E & He). rewrite Forall_forall in T2. apply T2 in He.
        pose proof (block_ge na b k). rewrite E in He. lia. }
    rewrite nth_upd. pose proof (block_ge na b k). destruct (Nat.eqb_spec (block na b k) 0); [lia|]. cbn [andb]. auto. }
  split; [split; [auto|split; auto]|].
  constructor; auto.
  - exists sl. repeat split; auto. intros k Hk. rewrite I4 by auto. apply Nf.
  - intros i s Hin. rewrite B3, B2; [apply P1; auto| |];
      intros c j' Hc Hj' E; rewrite Forall_forall in T2; apply T2 in Hin; cbn [fst] in Hin;
      match type of E with _ = block na ?b j' => pose proof (block_ge na b j') end; lia.
  - intros b k Hb Hk. destruct (Nat.lt_ge_cases b 4) as [C|C].
    + rewrite B3. 2:{ intros c j' Hc Hj' E. apply block_inj in E; lia. }
      replace b with (b + 0) at 1 by lia. rewrite A2 by auto. unfold block_value.
      assert (b = 0 \/ b = 1 \/ b = 2 \/ b = 3) as [-> | [-> | [-> | -> ]]] by lia; cbn [nth_error axis_columns nth];
        unfold axis_of_last; rewrite Hl; cbn [or0];
        match goal with |- nth _ ?l _ = or0 (nth_error ?l _) => rewrite (nth_error_nth' l zero) by lia; reflexivity end.
    + destruct (Nat.lt_ge_cases k n0) as [C'|C'].
      * replace b with ((b - 4) + 4) at 1 by lia. rewrite A3 by lia. unfold block_value.
        assert (b = 4 \/ b = 5 \/ b = 6 \/ b = 7) as [-> | [-> | [-> | -> ]]] by lia; cbn [nth_error axis_columns nth Nat.sub];
        unfold axis_of_first; rewrite Hf, L5, (proj2 (Nat.ltb_lt _ _) C');
        match goal with |- nth _ ?l _ = or0 (nth_error ?l _) => rewrite (nth_error_nth' l zero); [reflexivity|] end;
        (eapply Nat.lt_le_trans; [exact C'|]); apply Ax; cbn [In]; auto.
      * rewrite Zb by lia. unfold block_value.
        assert (b = 4 \/ b = 5 \/ b = 6 \/ b = 7) as [-> | [-> | [-> | -> ]]] by lia; cbn [nth_error axis_columns];
        unfold axis_of_first; rewrite Hf, L5, (proj2 (Nat.ltb_ge _ _) C'); reflexivity.
Qed.

Lemma evaluates_good me j me' : mem_ok me -> evaluates me j (Ok me') ->
  mem_ok me' /\ good j (me_ints me') (me_floats me').
Proof.
  intros Hm (el & He).
  assert (exists mo, point j = Ok mo) as (mo & Hp).
  { unfold eval_scan_index in He. unfold MScanSpec.point. destruct (set_dims _ _ _ _); cbn [bind] in *; try discriminate.
    destruct (optimize _); cbn [bind] in *; try discriminate. eauto. }
  destruct (eval_spec el j me mo Hm Hp) as (me2 & E & A & B). rewrite <- He in E. injection E as <-.
  split; auto. exists mo; auto.
Qed.

(** ** Storing the results *)
Notation entry := (@entry (list Z) (list F)).
Variable n_all : nat.
Notation store := (store_result o na).
Definition sumZ (l : list Z) : Z := fold_right Z.add 0%Z l.
Lemma sumZ_app a b : sumZ (a ++ b) = (sumZ a + sumZ b)%Z.
Proof. induction a as [|x a IH]; cbn [app sumZ fold_right]; [reflexivity|]. fold (sumZ (a ++ b)) (sumZ a). rewrite IH. lia. Qed.
Lemma sumZ_perm a b : Permutation a b -> sumZ a = sumZ b.
Proof. induction 1; cbn [sumZ fold_right]; repeat fold (sumZ l); repeat fold (sumZ l'); auto; lia. Qed.

Record holds (np : nat) (stored : list entry) (d : @data F) : Prop := mkHolds {
  ho_par : mat_ok (n_parameters na) n_all (da_parameters d);
  ho_par_in : forall x i, In x stored -> i < n_parameters na ->
     nth (i + n_parameters na * en_index x) (m_data (da_parameters d)) zero = nth i (en_fp x) zero;
  ho_int_len : length (da_int_parameters d) = 4 * n_all;
  ho_int_in : forall x i, In x stored -> i < 4 ->
     nth (i + 4 * en_index x) (da_int_parameters d) 0%Z = nth i (en_ip x) 0%Z;
  ho_int_out : forall j, ~ In j (map en_index stored) -> nth (1 + 4 * j) (da_int_parameters d) 0%Z = 0%Z;
  ho_fil_len : length (da_filters d) = P_N_FILTERS;
  ho_fil : forall k, k < P_N_FILTERS -> nth k (da_filters d) 0%Z = sumZ (map (fun x => nth (k + 4) (en_ip x) 0%Z) stored);
  ho_att_len : length (da_attempts_per_proc d) = np;
  ho_kept_len : length (da_n_solves_kept d) = np;
  ho_evals : da_n_evals d = sumZ (map (fun x => nth 2 (en_ip x) 0%Z) stored) }.

Lemma holds_data0 np : holds np [] (data0 o na n_all np).
Proof.
  constructor; cbn [data0 da_parameters da_int_parameters da_filters da_attempts_per_proc da_n_solves_kept da_n_evals map sumZ fold_right].
  - unfold mat_ok, matrix_new. cbn. rewrite repeat_length. auto.
  - intros x i [].
  - apply repeat_length.
  - intros x i [].
  - intros j _. apply nth_repeat.
  - apply repeat_length.
  - intros k _. apply nth_repeat.
  - apply repeat_length.
  - apply repeat_length.
  - reflexivity.
Qed.

Lemma idx_col r a b j j' : a < r -> b < r -> a + r * j = b + r * j' -> a = b /\ j = j'.
Proof. intros Ha Hb E. eapply idx2_inj; eauto. Qed.

Lemma store_step np stored (d : @data F) w j ip fp :
  holds np stored d -> good j ip fp -> S w < np -> j < n_all -> ~ In j (map en_index stored) ->
  exists d', store w ip fp d = Ok d' /\ holds np (stored ++ [mkE w j ip fp]) d'.
Proof.
  intros H (mo & Hp & R) Hw Hj Hnew. unfold store_result.
  assert (Lip : length ip = 21) by exact (ir_lenip _ _ _ _ _ R).
  pose proof (ir_lenfp _ _ _ _ _ R) as Lfp.
  rewrite (aget_ok ip 0 0%Z) by lia. cbn [bind]. rewrite (ir_0 _ _ _ _ _ R).
  destruct (Z.ltb_spec (Z.of_nat j) 0) as [C|_]; [lia|]. rewrite Nat2Z.id.
  pose proof (ho_par _ _ _ H) as M0.
  (* parameters *)
  destruct (for_loop_inv (fun m x => mat_ok (n_parameters na) n_all x /\
     (forall i, i < m -> nth (i + n_parameters na * j) (m_data x) zero = nth i fp zero) /\
     (forall i j', i < n_parameters na -> j' <> j -> nth (i + n_parameters na * j') (m_data x) zero = nth (i + n_parameters na * j') (m_data (da_parameters d)) zero))
     (fun i m => do v <- aget fp i; matrix_set m i j v) (n_parameters na) (da_parameters d)) as (par & -> & Mp & A1 & B1).
  { repeat split; try apply M0; auto. intros; lia. }
  { intros k x Hk (M & A & B). rewrite (aget_ok fp k zero) by lia. cbn [bind].
    destruct (matrix_set_spec _ _ x k j (nth k fp zero) M Hk Hj) as (x' & E & M' & D). exists x'. split; [exact E|]. split; [auto|].
    assert (Lx : k + n_parameters na * j < length (m_data x)).
    { destruct M as (_ & _ & ->). apply idx2_bound; auto. }
    apply Nat.ltb_lt in Lx.
    split; [intros i Hi|intros i j' Hi Hj']; rewrite D, nth_upd.
    - destruct (Nat.eqb_spec (i + n_parameters na * j) (k + n_parameters na * j)) as [E1|E1]; cbn [andb].
      + rewrite Lx. f_equal. lia.
      + apply A. lia.
    - destruct (Nat.eqb_spec (i + n_parameters na * j') (k + n_parameters na * j)) as [E1|E1]; cbn [andb].
      + apply idx_col in E1; auto. lia.
      + apply B; auto. }
  cbn [bind].
  (* int_parameters *)
  pose proof (ho_int_len _ _ _ H) as Li.
  destruct (for_loop_inv (fun m x => length x = 4 * n_all /\
     (forall i, i < m -> nth (i + 4 * j) x 0%Z = nth i ip 0%Z) /\
     (forall i j', i < 4 -> j' <> j -> nth (i + 4 * j') x 0%Z = nth (i + 4 * j') (da_int_parameters d) 0%Z))
     (fun i p => do v <- aget ip i; aset p (i + n_int_parameters_base * j) v) n_int_parameters_base (da_int_parameters d))
    as (ints & -> & Lint & A2 & B2).
  { repeat split; auto. intros; lia. }
  { unfold n_int_parameters_base. intros k x Hk (L & A & B). rewrite (aget_ok ip k 0%Z) by lia. cbn [bind].
    rewrite aset_ok by lia. eexists; split; [reflexivity|]. rewrite upd_length. split; [auto|].
    split; [intros i Hi|intros i j' Hi Hj']; rewrite nth_upd.
    - destruct (Nat.eqb_spec (i + 4 * j) (k + 4 * j)) as [E1|E1]; cbn [andb].
      + rewrite (proj2 (Nat.ltb_lt _ _)) by lia. f_equal. lia.
      + apply A. lia.
    - destruct (Nat.eqb_spec (i + 4 * j') (k + 4 * j)) as [E1|E1]; cbn [andb].
      + lia.
      + apply B; auto. }
  cbn [bind].
  (* filters *)
  pose proof (ho_fil_len _ _ _ H) as Lf. unfold P_N_FILTERS in Lf.
  destruct (for_loop_inv (fun m x => length x = 17 /\
     (forall i, i < 17 -> nth i x 0%Z = (nth i (da_filters d) 0 + if (i <? m)%nat then nth (i + 4) ip 0 else 0)%Z))
     (fun i f => do v <- aget ip (i + n_int_parameters_base); addZ f i v) P_N_FILTERS (da_filters d))
    as (fil & -> & Lfil & A3).
  { split; auto. intros i Hi. cbn [Nat.ltb Nat.leb]. lia. }
  { unfold P_N_FILTERS, n_int_parameters_base. intros k x Hk (L & A). rewrite (aget_ok ip (k + 4) 0%Z) by lia. cbn [bind].
    destruct (addZ_spec x k (nth (k + 4) ip 0%Z)) as (x' & -> & L' & N). { lia. }
    eexists; split; [reflexivity|]. split; [congruence|]. intros i Hi. rewrite N, A by auto.
    destruct (Nat.eqb_spec i k); subst.
    - rewrite (proj2 (Nat.ltb_ge k k)), (proj2 (Nat.ltb_lt k (1 + k))) by lia. lia.
    - destruct (Nat.ltb_spec i k); destruct (Nat.ltb_spec i (1 + k)); lia. }
  cbn [bind].
  destruct (incrZ_spec (da_attempts_per_proc d) (S w)) as (att & -> & Latt & _). { rewrite (ho_att_len _ _ _ H). auto. }
  cbn [bind]. rewrite (aget_ok ip (P_KEPT + n_int_parameters_base) 0%Z) by (rewrite Lip; unfold P_KEPT, n_int_parameters_base; lia).
  cbn [bind].
  assert (exists sk, (if (0 <? nth (P_KEPT + n_int_parameters_base) ip 0)%Z then incrZ (da_n_solves_kept d) (S w) else Ok (da_n_solves_kept d)) = Ok sk
    /\ length sk = np) as (sk & -> & Lsk).
  { destruct (0 <? _)%Z; [|eexists; split; [reflexivity|apply (ho_kept_len _ _ _ H)]].
    destruct (incrZ_spec (da_n_solves_kept d) (S w)) as (x & -> & Lx & _). { rewrite (ho_kept_len _ _ _ H). auto. }
    eexists; split; [reflexivity|]. rewrite Lx. apply (ho_kept_len _ _ _ H). }
  cbn [bind]. rewrite (aget_ok fp 0 zero) by (rewrite Lfp; unfold n_parameters, n_parameters_base; lia). cbn [bind].
  rewrite (aget_ok ip 2 0%Z) by lia. cbn [bind]. eexists; split; [reflexivity|].
  constructor; cbn [da_parameters da_int_parameters da_filters da_attempts_per_proc da_n_solves_kept da_n_evals]; auto.
  - intros x i Hx Hi. apply in_app_or in Hx. destruct Hx as [Hx|[<-|[]]].
    + rewrite B1; [apply (ho_par_in _ _ _ H); auto|auto|].
      intros E. apply Hnew. rewrite <- E. apply in_map. auto.
    + cbn [en_index en_fp]. apply A1. auto.
  - intros x i Hx Hi. apply in_app_or in Hx. destruct Hx as [Hx|[<-|[]]].
    + rewrite B2; [apply (ho_int_in _ _ _ H); auto|auto|].
      intros E. apply Hnew. rewrite <- E. apply in_map. auto.
    + cbn [en_index en_ip]. apply A2. auto.
  - intros j' Hj'. rewrite map_app in Hj'. cbn [map en_index] in Hj'. rewrite in_app_iff in Hj'. cbn [In] in Hj'.
    rewrite B2; [apply (ho_int_out _ _ _ H); tauto|lia|]. intros ->. tauto.
  - intros k Hk. rewrite A3 by exact Hk. rewrite (proj2 (Nat.ltb_lt _ _) Hk).
    rewrite (ho_fil _ _ _ H) by auto. rewrite map_app, sumZ_app. cbn [map sumZ fold_right en_ip]. lia.
  - rewrite Latt. apply (ho_att_len _ _ _ H).
  - rewrite (ho_evals _ _ _ H). rewrite map_app, sumZ_app. cbn [map sumZ fold_right en_ip]. lia.
Qed.

Lemma store_all_holds np stored : forall prev d,
  holds np prev d -> Forall (fun x => good (en_index x) (en_ip x) (en_fp x)) stored ->
  Forall (fun x => S (en_worker x) < np) stored -> NoDup (map en_index (prev ++ stored)) ->
  Forall (fun j => j < n_all) (map en_index stored) ->
  exists d', store_all store stored d = Ok d' /\ holds np (prev ++ stored) d'.
Proof.
  induction stored as [|x l IH]; intros prev d H Hg Hw Hn Hb; cbn [store_all].
  - exists d. rewrite app_nil_r. auto.
  - inversion Hg; subst. inversion Hw; subst. cbn [map] in Hb. inversion Hb; subst.
    assert (~ In (en_index x) (map en_index prev)).
    { rewrite map_app in Hn. cbn [map] in Hn. apply NoDup_remove in Hn. intros E. apply Hn. apply in_or_app. auto. }
    destruct (store_step np prev d (en_worker x) (en_index x) (en_ip x) (en_fp x)) as (d1 & -> & Hd1); auto.
    cbn [bind]. destruct (IH (prev ++ [x]) d1) as (d2 & -> & Hd2); auto.
    + destruct x; exact Hd1.
    + rewrite <- app_assoc. exact Hn.
    + exists d2. rewrite <- app_assoc in Hd2. auto.
Qed.


(** ** The arrays that are saved *)
Definition value_at (i : nat) (mo : multiopt) : F :=
  match find (fun e => fst e =? i) pack_table with Some e => or0 (source_value mo (snd e)) | None => zero end.
Definition axis_col (b : nat) (mo : multiopt) : list F := map (block_value mo b) (seq 0 na).
Definition hel (mo : multiopt) : Z := match last_stage mo with Some s => qo_helicity (st_q s) | None => 0%Z end.
Definition tallied (k : nat) (mo : multiopt) : Z :=
  match last_stage mo with Some s => tally (st_q s) (acceptable mo) k | None => 0%Z end.

(** The arrays when the configurations [ms] have been unpacked and there are [n] in all. *)
Definition arrays_of (n : nat) (ms : list multiopt) : @arrays F :=
  mkArr (length ms) (map mo_n_evals ms ++ repeat 0%Z (n - length ms)) (map hel ms ++ repeat 0%Z (n - length ms))
    (map (fun e => map (value_at (snd e)) ms ++ repeat zero (n - length ms)) unpack_table)
    (map (fun e => mkMatrix na n (na * n) (flat_map (axis_col (snd e)) ms ++ repeat zero (na * (n - length ms)))) axis_table).

Lemma upd_app_repeat {A} (l : list A) z n v : upd (l ++ repeat z (S n)) (length l) v = (l ++ [v]) ++ repeat z n.
Proof. induction l as [|a l IH]; cbn; [reflexivity|]. f_equal. exact IH. Qed.
Lemma aset_app_repeat {A B} (f : A -> B) (l : list A) x z n : length l < n ->
  aset (map f l ++ repeat z (n - length l)) (length l) (f x) = Ok (map f (l ++ [x]) ++ repeat z (n - length (l ++ [x]))).
Proof.
  intros H. rewrite aset_ok by (rewrite app_length, map_length, repeat_length; lia).
  rewrite app_length. cbn [length]. replace (n - length l) with (S (n - (length l + 1))) by lia.
  rewrite <- (map_length f l) at 2. rewrite upd_app_repeat. rewrite map_app. reflexivity.
Qed.
Lemma flat_map_axis_len b (ms : list multiopt) : length (flat_map (axis_col b) ms) = na * length ms.
Proof.
  induction ms as [|m ms IH]; cbn [flat_map length]; [lia|]. rewrite app_length, IH. unfold axis_col. rewrite map_length, seq_length. lia.
Qed.
Lemma nth_skip {A} (l r : list A) k d : nth (length l + k) (l ++ r) d = nth k r d.
Proof. rewrite app_nth2 by lia. f_equal. lia. Qed.

Lemma unpack_scalars_spec n (d : @data F) j (ms : list multiopt) mo :
  length ms < n -> mat_ok (n_parameters na) n_all (da_parameters d) -> j < n_all ->
  (forall e, In e unpack_table -> nth (snd e + n_parameters na * j) (m_data (da_parameters d)) zero = value_at (snd e) mo) ->
  Forall (fun e => snd e < n_parameters na) unpack_table ->
  unpack_scalars unpack_table (da_parameters d) j (length ms)
    (map (fun e => map (value_at (snd e)) ms ++ repeat zero (n - length ms)) unpack_table)
  = Ok (map (fun e => map (value_at (snd e)) (ms ++ [mo]) ++ repeat zero (n - length (ms ++ [mo]))) unpack_table).
Proof.
  intros Hn M Hj Hv Hb. revert Hv Hb. generalize unpack_table. intros t.
  induction t as [|[nm i] t IH]; intros Hv Hb; cbn [unpack_scalars map snd]; [reflexivity|].
  inversion Hb; subst. cbn [snd] in *. unfold matrix_get, matrix_index. destruct M as (Mr & Mc & Ml). rewrite Mr.
  rewrite (aget_ok _ _ zero). 2:{ rewrite Ml. apply idx2_bound; auto. }
  cbn [bind]. rewrite (Hv (nm, i) (or_introl eq_refl)) || (pose proof (Hv (nm, i) (or_introl eq_refl)) as HH; cbn [snd] in HH; rewrite HH). cbn [snd]. rewrite aset_app_repeat by auto. cbn [bind].
  rewrite IH; auto. intros e He. apply Hv. right. auto.
Qed.

Lemma axis_loop n b (d : @data F) j (ms : list multiopt) mo :
  length ms < n -> b < 8 -> mat_ok (n_parameters na) n_all (da_parameters d) -> j < n_all ->
  (forall k, k < na -> nth (block na b k + n_parameters na * j) (m_data (da_parameters d)) zero = block_value mo b k) ->
  for_loop na (fun k x => do v <- matrix_get (da_parameters d) (block na b k) j; matrix_set x k (length ms) v)
    (mkMatrix na n (na * n) (flat_map (axis_col b) ms ++ repeat zero (na * (n - length ms))))
  = Ok (mkMatrix na n (na * n) (flat_map (axis_col b) (ms ++ [mo]) ++ repeat zero (na * (n - length (ms ++ [mo]))))).
Proof.
  intros Hn Hb (Mr & Mc & Ml) Hj Hv.
  destruct (for_loop_inv (fun m x => x = mkMatrix na n (na * n)
     ((flat_map (axis_col b) ms ++ map (block_value mo b) (seq 0 m)) ++ repeat zero (na * (n - length ms) - m)))
    (fun k x => do v <- matrix_get (da_parameters d) (block na b k) j; matrix_set x k (length ms) v) na
    (mkMatrix na n (na * n) (flat_map (axis_col b) ms ++ repeat zero (na * (n - length ms))))) as (x & -> & Hx).
  - cbn [seq map]. rewrite app_nil_r, Nat.sub_0_r. reflexivity.
  - intros k x Hk ->. unfold matrix_get, matrix_index. rewrite Mr.
    rewrite (aget_ok _ _ zero). 2:{ rewrite Ml. apply idx2_bound; auto. apply block_lt; auto. }
    cbn [bind]. rewrite Hv by auto. unfold matrix_set, matrix_index. cbn [m_data m_nrows m_ncols m_len].
    assert (Lk : length (flat_map (axis_col b) ms ++ map (block_value mo b) (seq 0 k)) = k + na * length ms).
    { rewrite app_length, flat_map_axis_len, map_length, seq_length. lia. }
    assert (Hs : na <= na * (n - length ms)) by (rewrite <- (Nat.mul_1_r na) at 1; apply Nat.mul_le_mono_l; lia).
    rewrite <- Lk. rewrite aset_ok by (rewrite (app_length _ (repeat _ _)), repeat_length; lia). cbn [bind].
    eexists; split; [reflexivity|]. f_equal.
    replace (na * (n - length ms) - k) with (S (na * (n - length ms) - (1 + k))) by lia.
    rewrite upd_app_repeat. rewrite <- app_assoc. change (1 + k) with (S k) at 1. rewrite seq_S, map_app. cbn [map Nat.add].
    rewrite <- !app_assoc. reflexivity.
  - subst x. f_equal. f_equal. rewrite flat_map_app. cbn [flat_map]. rewrite app_nil_r. f_equal.
    rewrite app_length. cbn [length]. f_equal.
    replace (n - length ms) with (S (n - (length ms + 1))) by lia. rewrite Nat.mul_succ_r. apply Nat.add_sub.
Qed.

Lemma unpack_axis_spec n (d : @data F) j (ms : list multiopt) mo :
  length ms < n -> mat_ok (n_parameters na) n_all (da_parameters d) -> j < n_all ->
  (forall b k, b < 8 -> k < na -> nth (block na b k + n_parameters na * j) (m_data (da_parameters d)) zero = block_value mo b k) ->
  unpack_axis na axis_table (da_parameters d) j (length ms)
    (map (fun e => mkMatrix na n (na * n) (flat_map (axis_col (snd e)) ms ++ repeat zero (na * (n - length ms)))) axis_table)
  = Ok (map (fun e => mkMatrix na n (na * n) (flat_map (axis_col (snd e)) (ms ++ [mo]) ++ repeat zero (na * (n - length (ms ++ [mo]))))) axis_table).
Proof.
  intros Hn M Hj Hv.
  assert (Hb : Forall (fun e : string * nat => snd e < 8) axis_table) by (unfold axis_table; repeat constructor).
  revert Hb. generalize axis_table. intros t. induction t as [|[nm b] t IH]; intros Hb; cbn [unpack_axis map snd]; [reflexivity|].
  inversion Hb; subst. cbn [snd] in *. rewrite (axis_loop n b d j ms mo) by auto. cbn [bind]. rewrite IH; auto.
Qed.

(** [value_at] is what the table says. *)
Lemma unpack_values j mo ip fp : is_result na j mo ip fp ->
  forall e, In e unpack_table -> nth (snd e) fp zero = value_at (snd e) mo.
Proof.
  intros R e He. unfold value_at.
  assert (Hf : exists s, find (fun x => fst x =? snd e) pack_table = Some (snd e, s)).
  { assert (H : Forall (fun e : string * nat => exists s, find (fun x => fst x =? snd e) pack_table = Some (snd e, s)) unpack_table).
    { unfold unpack_table. repeat (constructor; [cbn; eexists; reflexivity|]). constructor. }
    rewrite Forall_forall in H. auto. }
  destruct Hf as (s & Hf). rewrite Hf. cbn [snd]. apply find_some in Hf. apply (ir_scalar _ _ _ _ _ R). apply Hf.
Qed.

Lemma unpack_one_keep np stored d n (ms : list multiopt) mo x :
  holds np stored d -> In x stored -> is_result na (en_index x) mo (en_ip x) (en_fp x) -> en_index x < n_all ->
  acceptable mo = true -> length ms < n ->
  unpack_one na d (en_index x) (arrays_of n ms) = Ok (arrays_of n (ms ++ [mo])).
Proof.
  intros H Hx R Hj Hacc Hn. unfold unpack_one, n_int_parameters_base.
  pose proof (ho_int_len _ _ _ H) as Li.
  rewrite !(Nat.mul_comm (en_index x) 4).
  rewrite (aget_ok _ _ 0%Z) by lia. cbn [bind].
  rewrite (ho_int_in _ _ _ H) by (auto; lia). rewrite (ir_1 _ _ _ _ _ R), Hacc. cbn [Z.ltb Z.compare Pos.compare Pos.compare_cont].
  rewrite (aget_ok _ (2 + _) 0%Z) by lia. cbn [bind].
  rewrite (ho_int_in _ _ _ H) by (auto; lia). rewrite (ir_2 _ _ _ _ _ R). cbn [arrays_of ar_j ar_n_evals ar_helicity ar_floats ar_axis].
  rewrite (aset_app_repeat mo_n_evals) by auto. cbn [bind].
  rewrite (aget_ok _ (3 + _) 0%Z) by lia. cbn [bind].
  rewrite (ho_int_in _ _ _ H) by (auto; lia).
  assert (Hh : nth 3 (en_ip x) 0%Z = hel mo).
  { destruct (ir_last _ _ _ _ _ R) as (s & Hs & E & _). unfold hel. rewrite Hs. auto. }
  rewrite Hh. rewrite (aset_app_repeat hel) by auto. cbn [bind].
  rewrite (unpack_scalars_spec n d (en_index x) ms mo); auto.
  - cbn [bind]. rewrite (unpack_axis_spec n d (en_index x) ms mo); auto.
    + cbn [bind]. unfold arrays_of. rewrite app_length. cbn [length]. rewrite Nat.add_1_r. reflexivity.
    + apply (ho_par _ _ _ H).
    + intros b k Hb Hk. rewrite (ho_par_in _ _ _ H) by (auto; apply block_lt; auto). apply (ir_axis _ _ _ _ _ R); auto.
  - apply (ho_par _ _ _ H).
  - intros e He. rewrite (ho_par_in _ _ _ H); auto.
    + eapply unpack_values; eauto.
    + assert (Hb : Forall (fun e : string * nat => snd e < 58) unpack_table) by (apply Forall_forall; unfold unpack_table; cbn [In]; intros ? Hz; repeat (destruct Hz as [<-|Hz]; [cbn; lia|]); destruct Hz).
      rewrite Forall_forall in Hb. specialize (Hb _ He). unfold n_parameters, n_parameters_base. lia.
  - apply Forall_forall. intros e He.
    assert (Hb : Forall (fun e : string * nat => snd e < 58) unpack_table) by (apply Forall_forall; unfold unpack_table; cbn [In]; intros ? Hz; repeat (destruct Hz as [<-|Hz]; [cbn; lia|]); destruct Hz).
    rewrite Forall_forall in Hb. specialize (Hb _ He). unfold n_parameters, n_parameters_base. lia.
Qed.
Lemma unpack_one_skip np stored d j a : holds np stored d -> j < n_all ->
  (~ In j (map en_index stored) \/ exists x mo, In x stored /\ en_index x = j /\ is_result na j mo (en_ip x) (en_fp x) /\ acceptable mo = false) ->
  unpack_one na d j a = Ok a.
Proof.
  intros H Hj Hc. unfold unpack_one, n_int_parameters_base. pose proof (ho_int_len _ _ _ H) as Li.
  rewrite !(Nat.mul_comm j 4). rewrite (aget_ok _ _ 0%Z) by lia. cbn [bind].
  assert (E : nth (1 + 4 * j) (da_int_parameters d) 0%Z = 0%Z).
  { destruct Hc as [Hc|(x & mo & Hx & <- & R & Ha)]; [apply (ho_int_out _ _ _ H); auto|].
    rewrite (ho_int_in _ _ _ H) by (auto; lia). rewrite (ir_1 _ _ _ _ _ R), Ha. reflexivity. }
  rewrite E. reflexivity.
Qed.

(** The indices of the stored results, in the order of the grid, and the results. *)
Definition inb (j : nat) (l : list nat) : bool := existsb (Nat.eqb j) l.
Lemma inb_spec j l : inb j l = true <-> In j l.
Proof.
  unfold inb. rewrite existsb_exists. split; [intros (x & Hx & E); apply Nat.eqb_eq in E; subst; auto|intros H; exists j; split; auto; apply Nat.eqb_refl].
Qed.
Definition received (stored : list entry) (g : nat) : list nat := filter (fun j => inb j (map en_index stored)) (seq 0 g).
Definition res (j : nat) : multiopt := match point j with Ok mo => mo | _ => mkMO [] 0%Z end.
Definition results (stored : list entry) (g : nat) : list multiopt := map res (received stored g).

Lemma received_S stored g : received stored (S g) = received stored g ++ (if inb g (map en_index stored) then [g] else []).
Proof. unfold received. rewrite seq_S, filter_app. cbn [filter Nat.add]. reflexivity. Qed.
Lemma received_perm stored : NoDup (map en_index stored) -> Forall (fun j => j < n_all) (map en_index stored) ->
  Permutation (map en_index stored) (received stored n_all).
Proof.
  intros Hn Hb. apply NoDup_Permutation; auto.
  - apply NoDup_filter, seq_NoDup.
  - intros x. unfold received. rewrite filter_In, inb_spec, in_seq. rewrite Forall_forall in Hb. split; [intros H; split; auto; specialize (Hb _ H); lia|tauto].
Qed.

Lemma unpack_all np stored d n : holds np stored d ->
  Forall (fun x => good (en_index x) (en_ip x) (en_fp x)) stored ->
  length (filter acceptable (results stored n_all)) = n ->
  for_loop n_all (unpack_one na d) (arrays0 o na n) = Ok (arrays_of n (filter acceptable (results stored n_all))).
Proof.
  intros H Hg Hn.
  destruct (for_loop_inv (fun g a => a = arrays_of n (filter acceptable (results stored g)) /\
      g <= n_all)
    (unpack_one na d) n_all (arrays0 o na n)) as (a & -> & -> & _); auto.
  - split; [|lia]. unfold arrays0, arrays_of. cbn [results received seq filter map length app flat_map]. rewrite Nat.sub_0_r.
    reflexivity.
  - intros g a Hg1 (-> & Hle).
    assert (Le : length (filter acceptable (results stored (S g))) <= n).
    { rewrite <- Hn. unfold results, received. replace n_all with (S g + (n_all - S g)) by lia.
      rewrite seq_app, filter_app, map_app, filter_app, app_length. lia. }
    unfold results in Le. rewrite received_S, map_app, filter_app, app_length in Le.
    change (1 + g) with (S g). unfold results. rewrite received_S, map_app, filter_app.
    destruct (inb g (map en_index stored)) eqn:E; cbn [map filter] in *.
    + apply inb_spec in E. apply in_map_iff in E. destruct E as (x & Ex & Hx). subst g.
      rewrite Forall_forall in Hg. destruct (Hg _ Hx) as (mo & Hp & R). unfold res in *. rewrite Hp in *.
      destruct (acceptable mo) eqn:A.
      * eexists; split; [|split; [reflexivity|lia]].
        eapply unpack_one_keep; eauto. cbn [length] in Le. lia.
      * rewrite app_nil_r. eexists; split; [|split; [reflexivity|lia]]. eapply unpack_one_skip; eauto. right. exists x, mo; auto.
    + rewrite app_nil_r. eexists; split; [|split; [reflexivity|lia]]. eapply unpack_one_skip; eauto.
      left. intros C. apply inb_spec in C. congruence.
Qed.

(** The file. *)
Definition expected (ms : list multiopt) : @output F :=
  let keep := filter acceptable ms in
  mkOut (Z.of_nat (length keep)) (sumZ (map mo_n_evals ms))
    (map (fun e => (fst e, sumZ (map (tallied (snd e)) ms))) counter_table)
    (map (fun e => (fst e, fdiv o (of_Z (sumZ (map (tallied (snd e)) ms))) (of_Z (Z.of_nat (length ms))))) fraction_table)
    [("scan_n_evals"%string, map mo_n_evals keep); ("scan_helicity"%string, map hel keep)]
    (map (fun e => (fst e, map (value_at (snd e)) keep)) unpack_table)
    (map (fun e => (fst e, mkMatrix na (length keep) (na * length keep) (flat_map (axis_col (snd e)) keep))) axis_table).

Lemma read_counters_ok f t : Forall (fun e : string * nat => snd e < length f) t ->
  read_counters t f = Ok (map (fun e => (fst e, nth (snd e) f 0%Z)) t).
Proof.
  induction t as [|[nm k] t IH]; intros H; cbn [read_counters map fst snd]; [reflexivity|]. inversion H; subst. cbn [snd] in *.
  rewrite (aget_ok f k 0%Z) by auto. cbn [bind]. rewrite IH by auto. reflexivity.
Qed.
Lemma read_fractions_ok f tot t : Forall (fun e : string * nat => snd e < length f) t ->
  read_fractions o of_Z t f tot = Ok (map (fun e => (fst e, fdiv o (of_Z (nth (snd e) f 0%Z)) (of_Z tot))) t).
Proof.
  induction t as [|[nm k] t IH]; intros H; cbn [read_fractions map fst snd]; [reflexivity|]. inversion H; subst. cbn [snd] in *.
  rewrite (aget_ok f k 0%Z) by auto. cbn [bind]. rewrite IH by auto. reflexivity.
Qed.
Lemma tables_low : Forall (fun e : string * nat => snd e < P_N_FILTERS) counter_table /\ Forall (fun e : string * nat => snd e < P_N_FILTERS) fraction_table.
Proof.
  split; unfold counter_table, fraction_table; repeat (apply Forall_cons; [apply Nat.ltb_lt; reflexivity|]); apply Forall_nil.
Qed.
Lemma combine_map {A B C} (f : A -> B) (g : A -> C) l : combine (map f l) (map g l) = map (fun x => (f x, g x)) l.
Proof. induction l; cbn; [reflexivity|]. f_equal. auto. Qed.

Lemma hits_low q : hits filter_table q P_ATTEMPTS = 0%Z /\ hits filter_table q P_KEPT = 0%Z.
Proof. split; reflexivity. Qed.
Lemma sumZ_const {A} (l : list A) : sumZ (map (fun _ => 1%Z) l) = Z.of_nat (length l).
Proof. induction l; cbn [map sumZ fold_right length]; [reflexivity|]. fold (sumZ (map (fun _ : A => 1%Z) l)). lia. Qed.
Lemma sumZ_flag {A} (f : A -> bool) (l : list A) : sumZ (map (fun x => if f x then 1%Z else 0%Z) l) = Z.of_nat (length (filter f l)).
Proof.
  induction l as [|a l IH]; cbn [map sumZ fold_right filter length]; [reflexivity|].
  fold (sumZ (map (fun x => if f x then 1%Z else 0%Z) l)). rewrite IH. destruct (f a); cbn [length]; lia.
Qed.

Theorem save_spec np stored d : holds np stored d ->
  Forall (fun x => good (en_index x) (en_ip x) (en_fp x)) stored ->
  NoDup (map en_index stored) -> Forall (fun j => j < n_all) (map en_index stored) ->
  save_results o of_Z na n_all d = Ok (expected (results stored n_all)).
Proof.
  intros H Hg Hn Hb. pose proof (received_perm stored Hn Hb) as P.
  assert (Sum : forall (h : multiopt -> Z) (g : entry -> Z), (forall x mo, In x stored -> point (en_index x) = Ok mo ->
      is_result na (en_index x) mo (en_ip x) (en_fp x) -> g x = h mo) ->
      sumZ (map g stored) = sumZ (map h (results stored n_all))).
  { intros h g E. unfold results. rewrite map_map.
    rewrite <- (sumZ_perm _ _ (Permutation_map (fun x => h (res x)) P)).
    rewrite (map_map en_index). f_equal. apply map_ext_in. intros x Hx. rewrite Forall_forall in Hg. destruct (Hg _ Hx) as (mo & Hp & R).
    unfold res. rewrite Hp. eapply E; eauto. }
  assert (Tal : forall k, k < P_N_FILTERS -> nth k (da_filters d) 0%Z = sumZ (map (tallied k) (results stored n_all))).
  { intros k Hk. rewrite (ho_fil _ _ _ H) by auto. apply Sum. intros x mo Hx Hp R.
    destruct (ir_last _ _ _ _ _ R) as (s & Hs & _ & T). unfold tallied. rewrite Hs. auto. }
  assert (Last : forall mo, In mo (results stored n_all) -> exists s, last_stage mo = Some s).
  { intros mo Hm. unfold results in Hm. apply in_map_iff in Hm. destruct Hm as (j & <- & Hj).
    apply (Permutation_in j (Permutation_sym P)) in Hj. apply in_map_iff in Hj. destruct Hj as (x & <- & Hx).
    rewrite Forall_forall in Hg. destruct (Hg _ Hx) as (mo & Hp & R). unfold res. rewrite Hp.
    destruct (ir_last _ _ _ _ _ R) as (s & Hs & _). eauto. }
  assert (Kept : nth P_KEPT (da_filters d) 0%Z = Z.of_nat (length (filter acceptable (results stored n_all)))).
  { rewrite Tal by (unfold P_KEPT, P_N_FILTERS; lia). rewrite <- sumZ_flag. f_equal. apply map_ext_in. intros mo Hm.
    destruct (Last mo Hm) as (s & Hs). unfold tallied, tally. rewrite Hs. rewrite (proj2 (hits_low (st_q s))).
    cbn [P_KEPT P_ATTEMPTS Nat.eqb]. destruct keep_all; destruct (acceptable mo); reflexivity. }
  assert (Tot : nth P_ATTEMPTS (da_filters d) 0%Z = Z.of_nat (length (results stored n_all))).
  { rewrite Tal by (unfold P_ATTEMPTS, P_N_FILTERS; lia). rewrite <- sumZ_const. f_equal. apply map_ext_in. intros mo Hm.
    destruct (Last mo Hm) as (s & Hs). unfold tallied, tally. rewrite Hs. rewrite (proj1 (hits_low (st_q s))).
    cbn [P_KEPT P_ATTEMPTS Nat.eqb]. destruct keep_all; reflexivity. }
  pose proof (ho_fil_len _ _ _ H) as Lf. unfold P_N_FILTERS in Lf.
  unfold save_results, filter_global_arrays.
  rewrite (aget_ok (da_filters d) P_KEPT 0%Z) by (rewrite Lf; unfold P_KEPT; lia). cbn [bind]. rewrite Kept.
  destruct (Z.ltb_spec (Z.of_nat (length (filter acceptable (results stored n_all)))) 0) as [C|_]; [lia|].
  rewrite Nat2Z.id. rewrite (unpack_all np stored d _ H Hg eq_refl). cbn [bind]. cbn [arrays_of ar_j]. rewrite Z.eqb_refl. cbn [bind].
  rewrite (aget_ok (da_filters d) P_ATTEMPTS 0%Z) by (rewrite Lf; unfold P_ATTEMPTS; lia). cbn [bind]. rewrite Tot.
  rewrite read_counters_ok by (rewrite Lf; apply tables_low). cbn [bind].
  rewrite read_fractions_ok by (rewrite Lf; apply tables_low). cbn [bind].
  unfold expected. cbn [arrays_of ar_n_evals ar_helicity ar_floats ar_axis].
  rewrite Nat.sub_diag. cbn [repeat]. rewrite !app_nil_r, !combine_map. f_equal. f_equal.
  - rewrite (ho_evals _ _ _ H). apply Sum. intros x mo Hx Hp R. apply (ir_2 _ _ _ _ _ R).
  - apply map_ext_in. intros e He. f_equal. apply Tal.
    revert e He. apply Forall_forall. apply tables_low.
  - apply map_ext_in. intros e He. f_equal. f_equal. f_equal. apply Tal.
    revert e He. apply Forall_forall. apply tables_low.
  - apply map_ext. intros e. rewrite app_nil_r. reflexivity.
  - apply map_ext. intros e. rewrite Nat.mul_0_r. cbn [repeat]. rewrite app_nil_r. reflexivity.
Qed.

(** ** The file says what it should *)
Lemma count_sum (f : multiopt -> bool) (h : multiopt -> Z) ms :
  (forall mo, In mo ms -> h mo = if f mo then 1%Z else 0%Z) -> sumZ (map h ms) = count f ms.
Proof. intros H. unfold count. rewrite <- sumZ_flag. f_equal. apply map_ext_in. exact H. Qed.

Lemma tallied_kept mo s : last_stage mo = Some s -> tallied P_KEPT mo = if acceptable mo then 1%Z else 0%Z.
Proof.
  intros Hs. unfold tallied, tally. rewrite Hs. rewrite (proj2 (hits_low (st_q s))).
  cbn [P_KEPT P_ATTEMPTS Nat.eqb]. destruct keep_all; destruct (acceptable mo); reflexivity.
Qed.
Lemma tallied_attempts mo s : last_stage mo = Some s -> tallied P_ATTEMPTS mo = 1%Z.
Proof.
  intros Hs. unfold tallied, tally. rewrite Hs. rewrite (proj1 (hits_low (st_q s))).
  cbn [P_KEPT P_ATTEMPTS Nat.eqb]. destruct keep_all; reflexivity.
Qed.

Lemma rejections_all (P : string * (qobj -> bool) -> Prop) :
  (forall i r, nth_error requirements i = Some r -> P r) -> forall r, In r requirements -> P r.
Proof. intros H r Hr. apply In_nth_error in Hr. destruct Hr as (i & Hi). eauto. Qed.

Lemma tallied_rejected mo s name f k : last_stage mo = Some s -> In (name, f) requirements ->
  lookup counter_table name = Some k -> tallied k mo = if falls_short f mo then 1%Z else 0%Z.
Proof.
  intros Hs Hi Hk. unfold tallied, tally, MScanSpec.falls_short. rewrite Hs.
  cbn [MScanSpec.requirements In] in Hi.
  repeat (destruct Hi as [Hi|Hi];
    [injection Hi as <- <-; cbn in Hk; injection Hk as <-;
     destruct keep_all; [reflexivity|];
     cbn [hits filter_table fold_right hit fails negb andb];
     match goal with |- _ = (if flt o ?a ?b then _ else _) => destruct (flt o a b); reflexivity end|]).
  destruct Hi.
Qed.

Lemma value_at_column (mo : multiopt) name f : shaped na n0 mo -> In (name, f) columns ->
  exists i, lookup unpack_table name = Some i /\ Some (value_at i mo) = f mo.
Proof.
  intros [_ (sl & Hl & _) (sf & Hf & _ & It & _)] Hi.
  unfold columns, named in Hi. cbn [map app] in Hi. cbn [In] in Hi.
  repeat (destruct Hi as [Hi|Hi];
    [injection Hi as <- <-; eexists; split; [reflexivity|];
     unfold value_at; cbn [find pack_table fst snd Nat.eqb source_value];
     unfold q_of_last, opt_of_last, iter_of_first; rewrite ?Hl, ?Hf; cbn [option_map or0]; try reflexivity|]).
  4: destruct Hi.
  all: cbn [String.append] in *.
  - destruct (st_iter sf "iter_eta_bar") eqn:E; [destruct (It "iter_eta_bar"%string); cbn; auto|reflexivity].
  - destruct (st_iter sf "iter_B2c") eqn:E; [destruct (It "iter_B2c"%string); cbn; auto|reflexivity].
  - destruct (st_iter sf "iter_B2s") eqn:E; [destruct (It "iter_B2s"%string); cbn; auto|reflexivity].
Qed.

Lemma lookup_map {A B} (g : A -> B) (l : list (string * A)) k :
  lookup (map (fun e => (fst e, g (snd e))) l) k = option_map g (lookup l k).
Proof. induction l as [|[x v] l IH]; cbn [map lookup fst snd option_map]; [reflexivity|]. destruct (String.eqb k x); auto. Qed.

Lemma fraction_of name f k : In (name, f) requirements -> lookup counter_table name = Some k ->
  lookup fraction_table (String.append "fraction_" name) = Some k.
Proof.
  intros Hi Hk. cbn [MScanSpec.requirements In] in Hi.
  repeat (destruct Hi as [Hi|Hi]; [injection Hi as <- <-; cbn in Hk; injection Hk as <-; reflexivity|]). destruct Hi.
Qed.
Lemma counter_of name f : In (name, f) requirements -> exists k, lookup counter_table name = Some k.
Proof.
  intros Hi. cbn [MScanSpec.requirements In] in Hi.
  repeat (destruct Hi as [Hi|Hi]; [injection Hi as <- <-; eexists; reflexivity|]). destruct Hi.
Qed.

Theorem expected_describes ms : Forall (shaped na n0) ms ->
  describes o fabs of_Z keep_all limits na ms (expected ms).
Proof.
  intros Hs. rewrite Forall_forall in Hs.
  assert (Last : forall mo, In mo ms -> exists s, last_stage mo = Some s).
  { intros mo Hm. destruct (Hs _ Hm) as [_ (s & H & _) _]. eauto. }
  assert (In_f : forall mo, In mo (filter acceptable ms) -> In mo ms) by (intros mo H; apply filter_In in H; tauto).
  constructor; unfold expected; cbn [out_n_scan out_n_evals out_counters out_fractions out_ints out_floats out_axis].
  - reflexivity.
  - reflexivity.
  - rewrite (lookup_map (fun k => sumZ (map (tallied k) ms))).
    change (lookup counter_table "attempts") with (Some P_ATTEMPTS). cbn [option_map]. f_equal.
    rewrite <- sumZ_const. f_equal. apply map_ext_in. intros mo Hm. destruct (Last mo Hm) as (s & E). eapply tallied_attempts; eauto.
  - intros name f Hi. rewrite (lookup_map (fun k => sumZ (map (tallied k) ms))).
    destruct (counter_of _ _ Hi) as (k & Hk). rewrite Hk. cbn [option_map]. f_equal. apply count_sum.
    intros mo Hm. destruct (Last mo Hm) as (s & E). eapply tallied_rejected; eauto.
  - rewrite (lookup_map (fun k => fdiv o (of_Z (sumZ (map (tallied k) ms))) (of_Z (Z.of_nat (length ms))))).
    change (lookup fraction_table "fraction_kept") with (Some P_KEPT). cbn [option_map]. f_equal. f_equal. f_equal. apply count_sum.
    intros mo Hm. destruct (Last mo Hm) as (s & E). eapply tallied_kept; eauto.
  - intros name f Hi. rewrite (lookup_map (fun k => fdiv o (of_Z (sumZ (map (tallied k) ms))) (of_Z (Z.of_nat (length ms))))).
    destruct (counter_of _ _ Hi) as (k & Hk). rewrite (fraction_of _ _ _ Hi Hk). cbn [option_map]. f_equal. f_equal. f_equal. apply count_sum.
    intros mo Hm. destruct (Last mo Hm) as (s & E). eapply tallied_rejected; eauto.
  - split; [reflexivity|]. eexists; split; [reflexivity|]. rewrite map_map. apply map_ext_in.
    intros mo Hm. destruct (Last mo (In_f _ Hm)) as (s & E). unfold hel. rewrite E. reflexivity.
  - intros name f Hi. rewrite (lookup_map (fun k => map (value_at k) (filter acceptable ms))).
    assert (Hc : exists i, lookup unpack_table name = Some i).
    { clear - Hi. unfold columns, named in Hi. cbn [map app] in Hi. cbn [In] in Hi.
      repeat (destruct Hi as [Hi|Hi]; [injection Hi as <- <-; eexists; reflexivity|]). destruct Hi. }
    destruct Hc as (i & Hc). rewrite Hc. cbn [option_map]. eexists; split; [reflexivity|].
    rewrite map_map. apply map_ext_in. intros mo Hm.
    destruct (value_at_column mo name f (Hs _ (In_f _ Hm)) Hi) as (i' & E & V). rewrite Hc in E. injection E as <-. exact V.
  - intros name f Hi.
    rewrite (lookup_map (fun b => mkMatrix na (length (filter acceptable ms)) (na * length (filter acceptable ms)) (flat_map (axis_col b) (filter acceptable ms)))).
    assert (Hc : exists b, lookup axis_table name = Some b /\ @nth_error (string * (multiopt -> nat -> option F)) axis_columns b = Some (name, f)).
    { clear - Hi. unfold axis_columns in Hi |- *. cbn [In] in Hi.
      repeat (destruct Hi as [Hi|Hi]; [injection Hi as <- <-; eexists; split; reflexivity|]). destruct Hi. }
    destruct Hc as (b & Hc & Hn). rewrite Hc. cbn [option_map]. eexists; split; [reflexivity|]. cbn [m_nrows m_ncols]. split; [reflexivity|]. split; [reflexivity|].
    intros k p mo Hk Hp. unfold matrix_get, matrix_index. cbn [m_nrows m_data].
    assert (Hpl : p < length (filter acceptable ms)) by (apply nth_error_Some; congruence).
    rewrite (aget_ok _ _ zero). 2:{ rewrite flat_map_axis_len. apply idx2_bound; auto. }
    f_equal. rewrite (flat_map_nth (axis_col b) na _ p k mo); auto.
    + unfold axis_col. rewrite (nth_indep _ zero (block_value mo b 0)) by (rewrite map_length, seq_length; auto).
      rewrite map_nth. rewrite seq_nth by auto. unfold block_value. cbn [Nat.add]. rewrite Hn. reflexivity.
    + intros x _. unfold axis_col. rewrite map_length, seq_length. reflexivity.
Qed.
End Facts.
