(** Facts about the residuals and the objective function of an optimization. *)
From Coq Require Import String Ascii ZArith List Bool Arith Lia Reals Lra.
From Verif Require Import Base BaseFacts FloatOps Tensor Outfile MScan Opt OptSpec OptState.
Import ListNotations.
Local Open Scope list_scope.
Local Open Scope nat_scope.

Section Facts.
Context {F : Type} (o : fops F) (fsqrt : F -> F) (of_Z : Z -> F) {Y : Type}.
Notation opt := (@stage F (@rest F Y)).
Notation af := (af o fsqrt of_Z).
Notation arr := (arr o).
Notation terms := (terms o fsqrt of_Z).
Notation used := (used o).
Notation residual_vector := (residual_vector o fsqrt of_Z).
Notation residual_labels := (residual_labels o fsqrt of_Z).
Notation groups := (groups o fsqrt of_Z).
Notation weight := (@weight F Y).

Definition tname (t : string * option nat * (nat -> nat -> F)) : string := fst (fst t).
Definition tsize (t : string * option nat * (nat -> nat -> F)) : option nat := snd (fst t).
Definition tval (t : string * option nat * (nat -> nat -> F)) : nat -> nat -> F := snd t.
Definition to_size (n : option nat) : size := match n with None => Once | Some m => PerPhi m end.

(** ** Sizes and labels *)
Lemma sizes_names (s : opt) : residual_sizes = map (fun t => (tname t, to_size (tsize t))) (terms s).
Proof. reflexivity. Qed.
Definition labels_of (s : opt) (ts : list (string * option nat * (nat -> nat -> F))) : list string :=
  flat_map (fun t => if used s (tname t) then labels s (tname t) (tsize t) else []) ts.
Lemma name_term_eq (s : opt) t st : name_term o s (nphi s) (tname t, to_size (tsize t)) st =
  (fst st + length (if used s (tname t) then labels s (tname t) (tsize t) else []),
   snd st ++ (if used s (tname t) then labels s (tname t) (tsize t) else [])).
Proof.
  unfold name_term. change (active o s (tname t)) with (used s (tname t)).
  destruct (used s (tname t)); cbn [length].
  - destruct (tsize t); cbn [to_size labels].
    + rewrite map_length, seq_length. reflexivity.
    + cbn. f_equal. lia.
  - rewrite Nat.add_0_r, app_nil_r. destruct st; reflexivity.
Qed.
Lemma residual_labels_eq (s : opt) : residual_labels s = labels_of s (terms s).
Proof. apply flat_map_ext. intros [[a b] c]. reflexivity. Qed.
Lemma init_residuals_eq (s : opt) : init_residuals o s =
  if length (residual_labels s) <? 1 then Throw "There must be at least 1 residual term."
  else Ok (set_rest (set_terms_shape (length (residual_labels s)) (residual_labels s)
             (repeat (fzero o) (length (residual_labels s))) (st_rest s)) s).
Proof.
  unfold init_residuals. fold (nphi s). rewrite (sizes_names s), residual_labels_eq.
  assert (H : forall ts st, fold_left (fun st g => name_term o s (nphi s) g st) (map (fun t => (tname t, to_size (tsize t))) ts) st
    = (fst st + length (labels_of s ts), snd st ++ labels_of s ts)).
  { induction ts as [|t ts IH]; intros st; cbn [map fold_left].
    - cbn. rewrite Nat.add_0_r, app_nil_r. destruct st; reflexivity.
    - rewrite name_term_eq, IH. cbn [fst snd]. unfold labels_of. cbn [flat_map]. rewrite app_length.
      f_equal; [lia|]. rewrite app_assoc. reflexivity. }
  rewrite H. cbn [fst snd Nat.add app]. reflexivity.
Qed.

(** ** One term *)
Definition squares (l : list F) (acc : F) : F := fold_left (fun a t => fadd o a (fmul o t t)) l acc.
Definition sent (s : opt) (name : string) (l : list F) : list F := if used s name then map (fmul o (weight s name)) l else [].
Lemma sent_app s name l l' : sent s name (l ++ l') = sent s name l ++ sent s name l'.
Proof. unfold sent. destruct (used s name); auto. apply map_app. Qed.

Definition Emit (s : opt) (name : string) (W : (nat * list F) * F -> outcome ((nat * list F) * F)) (ts : list F) : Prop :=
  forall pre mid post acc, length mid = length (sent s name ts) ->
    W ((length pre, pre ++ mid ++ post), acc) =
    Ok ((length (pre ++ sent s name ts), (pre ++ sent s name ts) ++ post), squares ts acc).
Lemma Emit_nil s name : Emit s name (fun st => Ok st) [].
Proof.
  intros pre mid post acc H. assert (E : sent s name [] = []) by (unfold sent; destruct (used s name); reflexivity).
  rewrite E in *. destruct mid; [|discriminate]. rewrite app_nil_r. reflexivity.
Qed.
Lemma Emit_bind s name W1 W2 t1 t2 : Emit s name W1 t1 -> Emit s name W2 t2 -> Emit s name (fun st => do y <- W1 st; W2 y) (t1 ++ t2).
Proof.
  intros H1 H2 pre mid post acc H. rewrite sent_app in *. rewrite app_length in H.
  rewrite <- (firstn_skipn (length (sent s name t1)) mid). rewrite <- app_assoc.
  rewrite H1 by (rewrite firstn_length; lia). cbn [bind]. rewrite H2 by (rewrite skipn_length; lia).
  unfold squares. rewrite fold_left_app. repeat rewrite <- app_assoc. reflexivity.
Qed.
Lemma Emit_ext s name W W' t : (forall x, W x = W' x) -> Emit s name W t -> Emit s name W' t.
Proof. intros E H pre mid post acc L. rewrite <- E. auto. Qed.
Lemma Emit_one s name t : Emit s name (add_term o s name t) [t].
Proof.
  intros pre mid post acc H. unfold add_term, sent in *. cbn [fst snd]. change (active o s name) with (used s name).
  destruct (used s name).
  - rewrite (Writes_put (fmul o (weight s name) t)) by auto. reflexivity.
  - destruct mid; [|discriminate]. rewrite app_nil_r. reflexivity.
Qed.
Lemma Emit_loop s name (body : nat -> _ -> outcome _) (ts : nat -> list F) : forall c i,
  (forall k, i <= k < i + c -> Emit s name (body k) (ts k)) ->
  Emit s name (for_from i c body) (flat_map ts (seq i c)).
Proof.
  induction c as [|c IH]; intros i H; cbn [seq flat_map]; [apply Emit_nil|].
  eapply Emit_ext; [intros x; symmetry; apply for_from_bind|].
  apply (Emit_bind s name (body i) (for_from (S i) c body)); [apply H; lia|apply IH; intros k Hk; apply H; lia].
Qed.

(** Value of a term: the sum of the squares. *)
Definition term_value (s : opt) (n : option nat) (f : nat -> nat -> F) : F :=
  match n with None => fmul o (f 0 0) (f 0 0) | Some _ => squares (entries s n f) (fzero o) end.
(** A modelled group computes a term of the specification. *)
Definition computes (s : opt) (g : string * size * (nat -> nat -> outcome F)) (t : string * option nat * (nat -> nat -> F)) : Prop :=
  let '(name, sz, f) := g in
  name = tname t /\ sz = to_size (tsize t) /\
  forall k i, k < match tsize t with None => 1 | Some _ => nphi s end -> i < match tsize t with None => 1 | Some m => m end ->
    f k i = Ok (tval t k i).
Lemma run_group_eq (s : opt) name sz f t pre mid post : computes s (name, sz, f) t ->
  length mid = length (sent s name (entries s (tsize t) (tval t))) ->
  run_group o s name sz f (length pre, pre ++ mid ++ post) =
  Ok ((length (pre ++ sent s name (entries s (tsize t) (tval t))), (pre ++ sent s name (entries s (tsize t) (tval t))) ++ post),
      term_value s (tsize t) (tval t)).
Proof.
  intros (En & Es & Hf) L. subst sz. unfold run_group. destruct (tsize t) as [m|]; cbn [to_size entries term_value] in *.
  - fold (nphi s). apply (Emit_loop s name _ (fun k => map (tval t k) (seq 0 m))); auto.
    intros k Hk. assert (E : map (tval t k) (seq 0 m) = flat_map (fun i => [tval t k i]) (seq 0 m)).
    { clear. generalize 0. induction m; intros i; cbn; [auto|]. rewrite IHm. reflexivity. }
    rewrite E. unfold for_loop. apply Emit_loop. intros i Hi. eapply Emit_ext; [|apply Emit_one].
    intros x. rewrite Hf by lia. reflexivity.
  - rewrite Hf by lia. cbn [bind]. unfold sent in *. change (active o s name) with (used s name).
    destruct (used s name); cbn [map] in *.
    + rewrite (Writes_put (fmul o (weight s name) (tval t 0 0))) by auto. reflexivity.
    + destruct mid; [|discriminate]. rewrite app_nil_r. reflexivity.
Qed.

(** ** All the terms *)
Lemma af_get (s : opt) k : k < length (qx_arr (r_q (st_rest s)) "d_l_d_phi") -> aget (arclength_factor o fsqrt of_Z s) k = Ok (af s k).
Proof.
  intros H. apply aget_nth_error. unfold arclength_factor.
  rewrite (map_nth_error _ k _ (nth_error_nth' _ (fzero o) H)). reflexivity.
Qed.
Lemma in_arrays m : existsb (String.eqb m) grid_arrays = true -> In m grid_arrays.
Proof. intros H. apply existsb_exists in H as [x [I E]]. apply String.eqb_eq in E. subst. auto. Qed.
Ltac arrays H := cbn [fst snd tsize tval to_size];
  repeat match goal with
  | |- context [aget (arclength_factor _ _ _ _) ?k] => rewrite (af_get _ k) by (rewrite (proj1 H) by (apply in_arrays; reflexivity); assumption); cbn [bind]
  | |- context [aget (qx_arr (r_q (st_rest ?s)) ?m) ?k] =>
      rewrite (aget_ok (qx_arr (r_q (st_rest s)) m) k (fzero o)) by (rewrite (proj1 H) by (apply in_arrays; reflexivity); assumption); cbn [bind]
  end.
Lemma groups_compute (s : opt) : arrays_ok (r_q (st_rest s)) -> Forall2 (computes s) (groups s) (terms s).
Proof.
  intros H. unfold Opt.groups, OptSpec.terms.
  assert (Tens : forall name m, length (qx_arr (r_q (st_rest s)) name) = m * nphi s ->
    forall k i, k < nphi s -> i < m -> tensor o fsqrt of_Z s name k i = Ok (fmul o (af s k) (arr s name (k + nphi s * i)))).
  { intros name m L k i Hk Hi. unfold tensor. fold (nphi s).
    rewrite (af_get s k) by (rewrite (proj1 H) by (apply in_arrays; reflexivity); assumption). cbn [bind].
    rewrite (aget_ok _ (k + nphi s * i) (fzero o)) by nia. reflexivity. }
  assert (Amg : forall names, (forall m, In m names -> In m grid_arrays) -> forall k i, k < nphi s -> i < length names ->
    among o fsqrt of_Z s names k i = Ok (fmul o (af s k) (arr s (pick names i) k))).
  { intros names Hn k i Hk Hi. unfold among, scaled, pick. rewrite (aget_ok names i EmptyString) by auto. cbn [bind].
    rewrite (af_get s k) by (rewrite (proj1 H) by (apply in_arrays; reflexivity); assumption). cbn [bind].
    rewrite (aget_ok _ k (fzero o)) by (rewrite (proj1 H) by (apply Hn, nth_In; auto); assumption). reflexivity. }
  repeat (apply Forall2_cons; [unfold computes; split; [reflexivity|split; [reflexivity|]]; cbn [fst snd tsize tval]; intros k i Hk Hi|]); [..|apply Forall2_nil];
    try reflexivity;
    try (apply Amg; [let m := fresh in let I := fresh in intros m I; cbn in I; repeat (destruct I as [<-|I]; [apply in_arrays; reflexivity|]); destruct I|assumption|assumption]);
    try (unfold scaled, R0_shortfall, R0_deviation, inverse_r_singularity; arrays H; reflexivity).
  - unfold R0_shortfall. arrays H. fold (arr s "R0" k). destruct (flt o (arr s "R0" k) (st_num s "min_R0")); reflexivity.
  - apply (Tens _ 9); auto. apply (proj1 (proj2 H)).
  - apply (Tens _ 27); auto. apply (proj2 (proj2 H)).
Qed.

Lemma residual_vector_eq (s : opt) : residual_vector s = flat_map (fun t => sent s (tname t) (entries s (tsize t) (tval t))) (terms s).
Proof. apply flat_map_ext. intros [[a b] c]. reflexivity. Qed.

Lemma run_groups_eq (s : opt) gs ts : Forall2 (computes s) gs ts -> forall pre mid post tf,
  length mid = length (flat_map (fun t => sent s (tname t) (entries s (tsize t) (tval t))) ts) ->
  exists tf', run_groups o s gs (length pre, pre ++ mid ++ post) tf =
    Ok ((length (pre ++ flat_map (fun t => sent s (tname t) (entries s (tsize t) (tval t))) ts),
         (pre ++ flat_map (fun t => sent s (tname t) (entries s (tsize t) (tval t))) ts) ++ post), tf') /\
    (NoDup (map tname ts) -> (forall t, In t ts -> tf' (tname t) = term_value s (tsize t) (tval t))) /\
    (forall m, ~ In m (map tname ts) -> tf' m = tf m).
Proof.
  induction 1 as [|[[name sz] f] t gs ts Hc Hall IH]; intros pre mid post tf L.
  - destruct mid; [|discriminate]. exists tf. cbn [run_groups flat_map]. rewrite app_nil_r. split; [reflexivity|]. split; [intros _ t []|auto].
  - cbn [flat_map] in *. rewrite app_length in L. pose proof (proj1 Hc) as En. cbn in En.
    set (e := sent s (tname t) (entries s (tsize t) (tval t))) in *.
    rewrite <- (firstn_skipn (length e) mid). rewrite <- (app_assoc (firstn _ mid)). cbn [run_groups].
    rewrite (run_group_eq s name sz f t pre) by (auto; rewrite En; fold e; rewrite firstn_length; lia).
    cbn [bind fst snd]. rewrite En. fold e.
    destruct (IH (pre ++ e) (skipn (length e) mid) post
      (fun y => if String.eqb y (tname t) then term_value s (tsize t) (tval t) else tf y)) as (tf' & E & H1 & H2).
    { rewrite skipn_length. lia. }
    exists tf'. rewrite E. split; [repeat rewrite <- app_assoc; reflexivity|]. split.
    + cbn [map]. intros Hd. inversion Hd as [|? ? Hn Hd']; subst. intros t' [<-|I].
      * rewrite H2 by auto. rewrite String.eqb_refl. reflexivity.
      * apply H1; auto.
    + cbn [map]. intros m Hm. rewrite H2 by (intros I; apply Hm; right; auto).
      destruct (String.eqb_spec m (tname t)); auto. subst. exfalso. apply Hm. left; auto.
Qed.
Lemma names_nodup (s : opt) : NoDup (map tname (terms s)).
Proof.
  change (map tname (terms s)) with weight_order. unfold weight_order.
  repeat (apply NoDup_cons; [cbn; intuition discriminate|]). apply NoDup_nil.
Qed.
Lemma length_entries (s : opt) n f : length (entries s n f) = match n with None => 1 | Some m => nphi s * m end.
Proof.
  destruct n as [m|]; cbn; auto. generalize (seq 0 m) as l, (seq_length m 0). intros l Hl. rewrite <- (seq_length (nphi s) 0) at 2.
  induction (seq 0 (nphi s)) as [|k ks IH]; cbn; auto. rewrite app_length, map_length, IH. lia.
Qed.
Lemma labels_length (s : opt) : length (residual_labels s) = length (residual_vector s).
Proof.
  rewrite residual_labels_eq, residual_vector_eq. unfold labels_of. induction (terms s) as [|t ts IH]; cbn [flat_map]; auto.
  do 2 rewrite app_length. rewrite IH. f_equal. unfold sent. destruct (used s (tname t)); auto.
  rewrite map_length, length_entries. unfold labels. destruct (tsize t); auto. rewrite map_length, seq_length. auto.
Qed.
Lemma copy_all {A} (l f : list A) : length f = length l ->
  for_loop (length l) (fun j f => do v <- aget l j; aset f j v) f = Ok l.
Proof.
  intros Hf. destruct (for_loop_inv (fun k g => length g = length l /\ forall i, i < k -> nth_error g i = nth_error l i)
    (fun j f => do v <- aget l j; aset f j v) (length l) f) as (g & E & L & G).
  - split; auto. lia.
  - intros k g Hk [L G]. destruct (nth_error l k) as [v|] eqn:E; [|apply nth_error_None in E; lia].
    rewrite (aget_nth_error l k v E). cbn [bind]. exists (upd g k v). rewrite aset_ok by lia. split; auto.
    rewrite upd_length. split; auto. intros i Hi. destruct (Nat.eq_dec i k) as [->|].
    + rewrite nth_error_upd_same by lia. auto.
    + rewrite nth_error_upd_other by auto. apply G. lia.
  - rewrite E. f_equal. apply nth_error_ext. intros i. destruct (Nat.lt_ge_cases i (length l)) as [H|H]; [auto|].
    rewrite (proj2 (nth_error_None g i)), (proj2 (nth_error_None l i)) by lia. reflexivity.
Qed.

Lemma objective_ext (s s' : opt) tf : (forall m, st_num s' m = st_num s m) -> objective o s' tf = objective o s tf.
Proof.
  intros H. unfold objective. generalize (combine weight_order term_order) as l, (fzero o) as acc.
  induction l as [|x l IH]; intros acc; cbn [fold_left]; auto.
  replace (add_objective o s' tf acc x) with (add_objective o s tf acc x); [apply IH|].
  unfold add_objective, Opt.weight. rewrite H. reflexivity.
Qed.
(** What set_residuals leaves behind. *)
Definition evaluated (s : opt) : Prop :=
  r_residuals (st_rest s) = residual_vector s /\
  (forall t, In t (terms s) -> r_terms (st_rest s) (tname t) = term_value s (tsize t) (tval t)) /\
  r_objective (st_rest s) = objective o s (r_terms (st_rest s)).
Lemma set_residuals_eq (s : opt) : arrays_ok (r_q (st_rest s)) ->
  r_n_terms (st_rest s) = length (residual_labels s) -> length (r_residuals (st_rest s)) = r_n_terms (st_rest s) ->
  exists tf, let s' := set_rest (set_objective (residual_vector s) (objective o s tf) tf (st_rest s)) s in
    set_residuals o fsqrt of_Z s = Ok (s', residual_vector s) /\ evaluated s'.
Proof.
  intros Ha Hn Hl.
  destruct (run_groups_eq s (groups s) (terms s) (groups_compute s Ha) [] (r_residuals (st_rest s)) [] (fun _ => fzero o))
    as (tf & E & H1 & _).
  { rewrite <- residual_vector_eq, Hl, Hn. apply labels_length. }
  cbn [app length] in E. repeat rewrite app_nil_r in E. rewrite <- residual_vector_eq in E.
  exists tf. cbv zeta. split.
  - unfold set_residuals. rewrite E. cbn [bind fst snd]. rewrite Hn, labels_length, Nat.eqb_refl.
    rewrite copy_all by apply repeat_length. reflexivity.
  - split; [reflexivity|]. split.
    + intros t It. apply (H1 (names_nodup s) t It).
    + symmetry. apply (objective_ext s). reflexivity.
Qed.

(** The labels depend only on the weights and nphi. *)
Lemma labels_ext (s s' : opt) : nphi s' = nphi s -> (forall m, st_num s' m = st_num s m) -> residual_labels s' = residual_labels s.
Proof.
  intros Hn Hw. do 2 rewrite residual_labels_eq. unfold labels_of.
  assert (E : forall t, (if used s' (tname t) then labels s' (tname t) (tsize t) else []) = (if used s (tname t) then labels s (tname t) (tsize t) else [])).
  { intros t. unfold OptSpec.used, labels. rewrite Hw, Hn. reflexivity. }
  transitivity (flat_map (fun x => if used s' (fst x) then labels s' (fst x) (snd x) else []) (map (fun t => (tname t, tsize t)) (terms s))); [reflexivity|].
  induction (terms s) as [|t ts IH]; [reflexivity|]. cbn [map flat_map fst snd]. rewrite E, IH. reflexivity.
Qed.
End Facts.

(** ** In exact arithmetic *)
Section Real.
Context (fsqrt : R -> R) (of_Z : Z -> R) {Y : Type}.
Notation opt := (@stage R (@rest R Y)).
Local Open Scope R_scope.
Definition sumsq (l : list R) : R := fold_right (fun x a => x * x + a) 0 l.
Lemma sumsq_app l l' : sumsq (l ++ l') = sumsq l + sumsq l'.
Proof. unfold sumsq. induction l; cbn; [ring|]. rewrite IHl. ring. Qed.
Lemma sumsq_scale w l : sumsq (map (Rmult w) l) = w * w * sumsq l.
Proof. unfold sumsq. induction l; cbn; [ring|]. rewrite IHl. ring. Qed.
Lemma squares_R l : forall acc, squares R_ops l acc = acc + sumsq l.
Proof.
  induction l as [|a l IH]; intros acc; unfold squares in *; cbn [fold_left sumsq fold_right]; [cbn; lra|].
  rewrite IH. cbn. fold (sumsq l). lra.
Qed.
Lemma term_value_R (s : opt) n f : term_value R_ops s n f = sumsq (entries s n f).
Proof. destruct n; unfold term_value; [rewrite squares_R; cbn; lra|cbn; lra]. Qed.
Lemma objective_R (s : opt) tf : (forall t, In t (terms R_ops fsqrt of_Z s) -> tf (tname t) = term_value R_ops s (tsize t) (tval t)) ->
  objective R_ops s tf = / 2 * sumsq (residual_vector R_ops fsqrt of_Z s).
Proof.
  intros H. unfold objective.
  change (combine weight_order term_order) with (map (fun t => (tname t, tname t)) (terms R_ops fsqrt of_Z s)).
  rewrite residual_vector_eq.
  assert (G : forall ts acc, (forall t, In t ts -> tf (tname t) = term_value R_ops s (tsize t) (tval t)) ->
    fold_left (add_objective R_ops s tf) (map (fun t => (tname t, tname t)) ts) acc =
    acc + / 2 * sumsq (flat_map (fun t => sent R_ops s (tname t) (entries s (tsize t) (tval t))) ts)).
  { induction ts as [|t ts IH]; intros acc Ht; cbn [map fold_left flat_map].
    - cbn. lra.
    - rewrite IH by (intros; apply Ht; right; auto). rewrite sumsq_app. unfold add_objective, sent. cbn [fst snd].
      change (flt R_ops (fzero R_ops) (weight s (tname t))) with (used R_ops s (tname t)).
      destruct (used R_ops s (tname t)); [|cbn; lra].
      rewrite (Ht t) by (left; auto). rewrite term_value_R.
      change (fmul R_ops (weight s (tname t))) with (Rmult (weight s (tname t))). rewrite sumsq_scale.
      unfold half. cbn. lra. }
  rewrite G by auto. cbn. lra.
Qed.
End Real.
