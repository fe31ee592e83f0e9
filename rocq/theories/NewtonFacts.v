(** Proofs about [Newton]. *)
From Coq Require Import String ZArith Reals List Arith Lia Lra Bool SpecFloat.
From Verif Require Import Base BaseFacts FloatOps Newton NewtonSpec.
Import ListNotations.
Local Open Scope list_scope.

Section F.
Context {F : Type} (o : fops F).

Lemma dot_from (l : list F) : forall pre acc,
  for_from (length pre) (length l)
    (fun j sum => do a <- aget (pre ++ l) j; do b <- aget (pre ++ l) j; Ok (fadd o sum (fmul o a b))) acc
  = Ok (fold_left (fun s x => fadd o s (fmul o x x)) l acc).
Proof.
  induction l as [|x l IH]; intros pre acc; simpl; auto.
  unfold aget. rewrite nth_error_app2 by lia. rewrite Nat.sub_diag. simpl.
  specialize (IH (pre ++ [x]) (fadd o acc (fmul o x x))).
  rewrite app_length in IH. simpl in IH. rewrite Nat.add_1_r in IH.
  rewrite <- app_assoc in IH. simpl in IH. exact IH.
Qed.

Lemma dot_self (r : list F) : dot_product o r r = Ok (norm_sq o r).
Proof. unfold dot_product. rewrite Nat.eqb_refl. apply (dot_from r [] (fzero o)). Qed.

Context {M U : Type}.
Variable rf : list F -> U -> outcome (list F * U).
Variable jf : list F -> U -> outcome (M * U).
Variable ls : M -> list F -> outcome (list F).
Variable Fn : list F -> list F.
Hypothesis Hrf : evaluates rf Fn.

(** The residual and its norm belong to the state. *)
Definition consistent (s : nst (F:=F) (U:=U)) : Prop :=
  n_residual s = Fn (n_state s) /\ n_norm s = norm_sq o (Fn (n_state s)).

Lemma linesearch_consistent n : forall state0 step sc last s s',
  consistent s -> linesearch o rf n state0 step sc last s = Ok s' -> consistent s'.
Proof.
  induction n as [|n IH]; simpl; intros state0 step sc last s s' Hc H.
  - inversion H; subst; auto.
  - destruct (axpy o state0 sc step) as [x| |]; try discriminate. simpl in H.
    destruct (Hrf x (n_user s)) as [u' E]. rewrite E in H. simpl in H.
    rewrite dot_self in H. simpl in H.
    assert (C : consistent (mkNst x (Fn x) (norm_sq o (Fn x)) u')) by (split; reflexivity).
    destruct (flt o (norm_sq o (Fn x)) last).
    + inversion H; subst; auto.
    + eapply IH; eauto.
Qed.

Lemma newton_loop_status n mls tol : forall s st s',
  consistent s -> newton_loop o rf jf ls n mls tol s = Ok (st, s') ->
  match st with
  | NEWTON_CONVERGED => consistent s' /\ flt o (norm_sq o (Fn (n_state s'))) tol = true
  | NEWTON_MAX_ITERATIONS => consistent s' /\ flt o (norm_sq o (Fn (n_state s'))) tol = false
  | NEWTON_LINESEARCH_FAILED => flt o (norm_sq o (Fn (n_state s'))) tol = false
  end.
Proof.
  induction n as [|n IH]; simpl; intros s st s' Hc H.
  - destruct Hc as [H1 H2]. rewrite H2 in H.
    destruct (flt o (norm_sq o (Fn (n_state s))) tol) eqn:E; inversion H; subst; (split; [split|]; auto).
  - destruct (flt o (n_norm s) tol) eqn:E.
    + inversion H; subst. split; auto. destruct Hc as [H1 H2]. congruence.
    + destruct (jf (n_state s) (n_user s)) as [[m u1]| |]; try discriminate. simpl in H.
      destruct (ls m (map (fopp o) (n_residual s))) as [step| |]; try discriminate. simpl in H.
      destruct (linesearch o rf mls (n_state s) step (fone o) (n_norm s)
        (mkNst (n_state s) (n_residual s) (n_norm s) u1)) as [s1| |] eqn:El; try discriminate. simpl in H.
      apply linesearch_consistent in El; [|destruct Hc; split; auto].
      destruct (flt o (n_norm s) (n_norm s1)).
      * inversion H; subst. simpl. destruct Hc as [_ Hn]. congruence.
      * eapply IH; eauto.
Qed.

(** ** The norm never grows, when the values compared are totally ordered. *)
Hypothesis lt_irrefl : forall x, flt o (norm_sq o (Fn x)) (norm_sq o (Fn x)) = false.
Hypothesis not_lt_trans : forall s t r,
  flt o (norm_sq o (Fn s)) (norm_sq o (Fn t)) = false ->
  flt o (norm_sq o (Fn t)) (norm_sq o (Fn r)) = false ->
  flt o (norm_sq o (Fn s)) (norm_sq o (Fn r)) = false.

Lemma newton_loop_monotone n mls tol : forall s st s',
  consistent s -> newton_loop o rf jf ls n mls tol s = Ok (st, s') ->
  flt o (norm_sq o (Fn (n_state s))) (norm_sq o (Fn (n_state s'))) = false.
Proof.
  induction n as [|n IH]; simpl; intros s st s' Hc H.
  - inversion H; subst. apply lt_irrefl.
  - destruct (flt o (n_norm s) tol) eqn:E.
    + inversion H; subst. apply lt_irrefl.
    + destruct (jf (n_state s) (n_user s)) as [[m u1]| |]; try discriminate. simpl in H.
      destruct (ls m (map (fopp o) (n_residual s))) as [step| |]; try discriminate. simpl in H.
      destruct (linesearch o rf mls (n_state s) step (fone o) (n_norm s)
        (mkNst (n_state s) (n_residual s) (n_norm s) u1)) as [s1| |] eqn:El; try discriminate. simpl in H.
      apply linesearch_consistent in El; [|destruct Hc; split; auto].
      destruct (flt o (n_norm s) (n_norm s1)) eqn:Ec.
      * inversion H; subst. simpl. apply lt_irrefl.
      * destruct Hc as [_ Hn]. destruct El as [El1 El2]. rewrite Hn, El2 in Ec.
        eapply not_lt_trans; [exact Ec|]. eapply IH; eauto. split; auto.
Qed.
End F.

Section Top.
Context {F : Type} (o : fops F) {M U : Type}.
Variable rf : list F -> U -> outcome (list F * U).
Variable jf : list F -> U -> outcome (M * U).
Variable ls : M -> list F -> outcome (list F).
Variable Fn : list F -> list F.
Hypothesis Hrf : evaluates rf Fn.

Lemma newton_status_truthful s0 u0 mn ml tol st s r u :
  newton_solve o rf jf ls s0 u0 mn ml tol = Ok (st, s, r, u) ->
  match st with
  | NEWTON_CONVERGED => r = Fn s /\ flt o (norm_sq o (Fn s)) (fmul o tol tol) = true
  | NEWTON_MAX_ITERATIONS => r = Fn s /\ flt o (norm_sq o (Fn s)) (fmul o tol tol) = false
  | NEWTON_LINESEARCH_FAILED => flt o (norm_sq o (Fn s)) (fmul o tol tol) = false
  end.
Proof.
  unfold newton_solve. intros H. destruct (Hrf s0 u0) as [u1 E]. rewrite E in H. simpl in H.
  rewrite dot_self in H. simpl in H.
  destruct (newton_loop o rf jf ls (Z.to_nat mn) (Z.to_nat ml) (fmul o tol tol)
    (mkNst s0 (Fn s0) (norm_sq o (Fn s0)) u1)) as [[st' s']| |] eqn:El; try discriminate.
  simpl in H. inversion H; subst.
  eapply newton_loop_status in El; eauto; [|split; reflexivity].
  destruct st; intuition; match goal with C : consistent _ _ _ |- _ => destruct C; auto end.
Qed.

Lemma newton_never_worse s0 u0 mn ml tol st s r u :
  (forall x, flt o (norm_sq o (Fn x)) (norm_sq o (Fn x)) = false) ->
  (forall x y z,
     flt o (norm_sq o (Fn x)) (norm_sq o (Fn y)) = false ->
     flt o (norm_sq o (Fn y)) (norm_sq o (Fn z)) = false ->
     flt o (norm_sq o (Fn x)) (norm_sq o (Fn z)) = false) ->
  newton_solve o rf jf ls s0 u0 mn ml tol = Ok (st, s, r, u) ->
  flt o (norm_sq o (Fn s0)) (norm_sq o (Fn s)) = false.
Proof.
  intros T1 T2.
  unfold newton_solve. intros H. destruct (Hrf s0 u0) as [u1 E]. rewrite E in H. simpl in H.
  rewrite dot_self in H. simpl in H.
  destruct (newton_loop o rf jf ls (Z.to_nat mn) (Z.to_nat ml) (fmul o tol tol)
    (mkNst s0 (Fn s0) (norm_sq o (Fn s0)) u1)) as [[st' s']| |] eqn:El; try discriminate.
  simpl in H. inversion H; subst.
  eapply newton_loop_monotone in El; eauto. split; reflexivity.
Qed.
End Top.

(** ** Call discipline. *)
Section Calls.
Context {F : Type} (o : fops F) {M : Type}.
Variable Fn : list F -> list F.
Variable J : list F -> M.
Variable ls : M -> list F -> outcome (list F).
Notation rf := (log_res Fn).
Notation jf := (log_jac J).
Notation st := (nst (F:=F) (U:=list (call F))).

Lemma linesearch_calls n : forall state0 step sc last (s s' : st),
  linesearch o rf n state0 step sc last s = Ok s' ->
  (n = 0 /\ s' = s) \/
  (1 <= n /\ exists l, n_user s' = (CRes (n_state s') :: l ++ n_user s)
     /\ Forall (fun c => is_res c = true) l /\ length l <= n - 1).
Proof.
  induction n as [|n IH]; simpl; intros state0 step sc last s s' H.
  - inversion H; auto.
  - right. split; [lia|].
    destruct (axpy o state0 sc step) as [x| |]; try discriminate. cbn [bind] in H.
    unfold log_res in H at 1. cbn [bind fst snd] in H. rewrite dot_self in H. cbn [bind] in H.
    destruct (flt o (norm_sq o (Fn x)) last).
    + inversion H; subst. simpl. exists []. repeat split; auto. simpl. lia.
    + apply IH in H as [[-> ->]|[Hn [l [E [Hl Hlen]]]]].
      * simpl. exists []. repeat split; auto. 
      * simpl in E. exists (l ++ [CRes x]). rewrite <- app_assoc. simpl. split; auto. split.
        -- apply Forall_app. auto.
        -- rewrite app_length. simpl. lia.
Qed.

Lemma filter_all {A} (f : A -> bool) l : Forall (fun c => f c = true) l -> filter f l = l.
Proof. induction 1; simpl; auto. rewrite H. congruence. Qed.
Lemma filter_none {A} (f : A -> bool) l : Forall (fun c => f c = false) l -> filter f l = [].
Proof. induction 1; simpl; auto. rewrite H. auto. Qed.

Lemma n_res_app l (m : list (call F)) : Forall (fun c => is_res c = true) l ->
  n_res (l ++ m) = length l + n_res m /\ n_jac (l ++ m) = n_jac m
  /\ (jac_after_res (l ++ m) <-> jac_after_res m)
  /\ (jac_right_after_res (l ++ m) <-> jac_right_after_res m).
Proof.
  intros H. unfold n_res, n_jac. rewrite !filter_app, (filter_all _ l H), app_length.
  rewrite (filter_none is_jac l).
  2:{ eapply Forall_impl; [|exact H]. unfold is_jac. simpl. intros a ->. reflexivity. }
  simpl. split; auto. split; auto.
  induction H; simpl; [tauto|]. destruct x; simpl in *; [tauto|discriminate].
Qed.

Lemma newton_loop_calls n mls tol : forall (s : st) stt s',
  last_res (n_user s) = Some (n_state s) ->
  jac_after_res (n_user s) ->
  newton_loop o rf jf ls n mls tol s = Ok (stt, s') ->
  n_res (n_user s') <= n_res (n_user s) + n * mls
  /\ n_jac (n_user s') <= n_jac (n_user s) + n
  /\ jac_after_res (n_user s')
  /\ (1 <= mls -> (exists l, n_user s = CRes (n_state s) :: l) -> jac_right_after_res (n_user s) ->
      jac_right_after_res (n_user s')).
Proof.
  induction n as [|n IH]; simpl; intros s stt s' Hl Hj H.
  - inversion H; subst. repeat split; auto; lia.
  - destruct (flt o (n_norm s) tol) eqn:E.
    { inversion H; subst. repeat split; auto; lia. }
    unfold log_jac in H at 1. cbn [bind fst snd] in H.
    destruct (ls (J (n_state s)) (map (fopp o) (n_residual s))) as [step| |]; try discriminate. simpl in H.
    destruct (linesearch o rf mls (n_state s) step (fone o) (n_norm s)
      (mkNst (n_state s) (n_residual s) (n_norm s) (CJac (n_state s) :: n_user s))) as [s1| |] eqn:El;
      try discriminate. simpl in H.
    apply linesearch_calls in El.
    assert (P : n_res (n_user s1) <= n_res (n_user s) + mls
                /\ n_jac (n_user s1) = n_jac (n_user s) + 1
                /\ jac_after_res (n_user s1)
                /\ last_res (n_user s1) = Some (n_state s1)
                /\ (1 <= mls -> (exists l, n_user s = CRes (n_state s) :: l) -> jac_right_after_res (n_user s) ->
                    (exists l, n_user s1 = CRes (n_state s1) :: l) /\ jac_right_after_res (n_user s1))).
    { destruct El as [[-> ->]|[Hm [l [Eu [Hr Hlen]]]]].
      - simpl. unfold n_res, n_jac. simpl. repeat split; auto; try lia.
      - assert (Ea : n_user s1 = (CRes (n_state s1) :: l) ++ (CJac (n_state s) :: n_user s)) by (rewrite Eu; reflexivity).
        simpl in Eu. rewrite Ea.
        destruct (n_res_app (CRes (n_state s1) :: l) (CJac (n_state s) :: n_user s)) as (A1 & A2 & A3 & A4).
        { constructor; auto. }
        rewrite A1, A2, A3, A4.
        split. { unfold n_res at 1. simpl. fold (n_res (n_user s)). lia. }
        split. { unfold n_jac at 1. simpl. fold (n_jac (n_user s)). lia. }
        split. { simpl. auto. }
        split; [reflexivity|].
        intros _ [l0 El0] Hj2. split; [simpl; eauto|]. simpl. split; auto. exists l0. auto. }
    destruct P as (P1 & P2 & P3 & P4 & P5).
    destruct (flt o (n_norm s) (n_norm s1)) eqn:Ec.
    + inversion H; subst. simpl. repeat split; auto; try lia. intros A B C. apply P5; auto.
    + destruct (IH s1 stt s' P4 P3 H) as (Q1 & Q2 & Q3 & Q4).
      repeat split; auto; try lia. intros A B C. destruct (P5 A B C) as [D1 D2]. apply Q4; auto.
Qed.

Lemma newton_calls s0 mn ml tol stt s r log :
  newton_solve o rf jf ls s0 [] mn ml tol = Ok (stt, s, r, log) ->
  n_res log <= 1 + Z.to_nat mn * Z.to_nat ml
  /\ n_jac log <= Z.to_nat mn
  /\ jac_after_res log
  /\ ((1 <= ml)%Z -> jac_right_after_res log).
Proof.
  unfold newton_solve. unfold log_res at 1. cbn [bind fst snd]. rewrite dot_self. cbn [bind].
  intros H.
  destruct (newton_loop o rf jf ls (Z.to_nat mn) (Z.to_nat ml) (fmul o tol tol)
    (mkNst s0 (Fn s0) (norm_sq o (Fn s0)) [CRes s0])) as [[st' s']| |] eqn:El; try discriminate.
  simpl in H. inversion H; subst.
  apply newton_loop_calls in El; simpl; auto. cbn [n_user n_state] in El.
  change (n_res [CRes s0]) with 1 in El. change (n_jac [CRes s0]) with 0 in El.
  destruct El as (A & B & C & D). repeat split; auto; try lia.
  intros Hm. apply D; [lia|eexists; reflexivity|simpl; exact I].
Qed.
End Calls.

(** ** Exact arithmetic. *)
Lemma Rltb_true x y : Rltb x y = true <-> (x < y)%R.
Proof. unfold Rltb. destruct (Rlt_dec x y); split; intros; auto; discriminate. Qed.
Lemma Rltb_false x y : Rltb x y = false <-> (y <= x)%R.
Proof. unfold Rltb. destruct (Rlt_dec x y); split; intros; auto; try discriminate; lra. Qed.
Lemma Rleb_true x y : Rleb x y = true <-> (x <= y)%R.
Proof. unfold Rleb. destruct (Rle_dec x y); split; intros; auto; discriminate. Qed.
Lemma Rleb_false x y : Rleb x y = false <-> (y < x)%R.
Proof. unfold Rleb. destruct (Rle_dec x y); split; intros; auto; try discriminate; lra. Qed.

Lemma newton_never_worse_R {M U} (rf : list R -> U -> outcome (list R * U)) (jf : list R -> U -> outcome (M * U))
  ls Fn s0 u0 mn ml tol st s r u :
  evaluates rf Fn ->
  newton_solve R_ops rf jf ls s0 u0 mn ml tol = Ok (st, s, r, u) ->
  (norm_sq R_ops (Fn s) <= norm_sq R_ops (Fn s0))%R.
Proof.
  intros Hr H. apply Rltb_false.
  eapply (newton_never_worse R_ops rf jf ls Fn Hr); try eassumption; simpl.
  - intros a. rewrite Rltb_false. lra.
  - intros x y z A B. rewrite Rltb_false in *. lra.
Qed.

(** ** binary64: the comparison of floats that are not NaN is a total preorder. *)
Definition not_nan (x : spec_float) : Prop := x <> S754_nan.

(** Lexicographic keys that order floats as [SFltb] does. *)
Definition fkey (x : spec_float) : Z * Z * Z :=
  match x with
  | S754_nan => (0, 0, 0)
  | S754_zero _ => (0, 0, 0)
  | S754_infinity true => (-2, 0, 0)
  | S754_infinity false => (2, 0, 0)
  | S754_finite true m e => (-1, - e, Zneg m)
  | S754_finite false m e => (1, e, Zpos m)
  end%Z.
Definition klt (a b : Z * Z * Z) : Prop :=
  let '(a1, a2, a3) := a in let '(b1, b2, b3) := b in
  (a1 < b1 \/ a1 = b1 /\ (a2 < b2 \/ a2 = b2 /\ a3 < b3))%Z.

Lemma SFltb_key x y : not_nan x -> not_nan y -> (SFltb x y = true <-> klt (fkey x) (fkey y)).
Proof.
  unfold not_nan, SFltb, SFcompare, klt, fkey.
  destruct x as [sx|sx| |sx mx ex], y as [sy|sy| |sy my ey]; try congruence; intros _ _;
  try destruct sx; try destruct sy; try (split; intros; (discriminate || lia || reflexivity)).
  - destruct (Z.compare_spec ex ey) as [E|E|E]; cbn; [|split; intros; (discriminate || lia || reflexivity)..].
    subst.
    destruct (Pos.compare_cont Eq mx my) eqn:C; cbn; change (Pos.compare_cont Eq mx my) with (mx ?= my)%positive in C;
    [apply Pos.compare_eq in C | apply (proj1 (Pos.compare_lt_iff _ _)) in C | apply (proj1 (Pos.compare_gt_iff _ _)) in C];
    split; intros; (discriminate || lia || reflexivity).
  - destruct (Z.compare_spec ex ey) as [E|E|E]; cbn; [|split; intros; (discriminate || lia || reflexivity)..].
    subst.
    destruct (Pos.compare_cont Eq mx my) eqn:C; cbn; change (Pos.compare_cont Eq mx my) with (mx ?= my)%positive in C;
    [apply Pos.compare_eq in C | apply (proj1 (Pos.compare_lt_iff _ _)) in C | apply (proj1 (Pos.compare_gt_iff _ _)) in C];
    split; intros; (discriminate || lia || reflexivity).
Qed.

Lemma SFltb_irrefl x : SFltb x x = false.
Proof.
  destruct x as [s|s| |s m e] eqn:Ex; try reflexivity; try (destruct s; reflexivity).
  rewrite <- Ex. destruct (SFltb x x) eqn:H; auto.
  apply SFltb_key in H; [|unfold not_nan; congruence..].
  unfold klt in H. destruct (fkey x) as [[a b] c]. lia.
Qed.

Lemma SFltb_not_trans x y z : not_nan x -> not_nan y -> not_nan z ->
  SFltb x y = false -> SFltb y z = false -> SFltb x z = false.
Proof.
  intros Hx Hy Hz A B. destruct (SFltb x z) eqn:C; auto.
  apply SFltb_key in C; auto.
  assert (A' : ~ klt (fkey x) (fkey y)) by (rewrite <- SFltb_key by auto; congruence).
  assert (B' : ~ klt (fkey y) (fkey z)) by (rewrite <- SFltb_key by auto; congruence).
  unfold klt in *. destruct (fkey x) as [[? ?] ?], (fkey y) as [[? ?] ?], (fkey z) as [[? ?] ?]. lia.
Qed.

Lemma newton_never_worse_D {M U} (rf : list spec_float -> U -> outcome (list spec_float * U))
  (jf : list spec_float -> U -> outcome (M * U)) ls Fn s0 u0 mn ml tol st s r u :
  evaluates rf Fn ->
  (forall x, norm_sq D_ops (Fn x) <> S754_nan) ->
  newton_solve D_ops rf jf ls s0 u0 mn ml tol = Ok (st, s, r, u) ->
  SFltb (norm_sq D_ops (Fn s0)) (norm_sq D_ops (Fn s)) = false.
Proof.
  intros Hr Hn H.
  eapply (newton_never_worse D_ops rf jf ls Fn Hr); try eassumption; simpl.
  - intros a. apply SFltb_irrefl.
  - intros x y z. apply SFltb_not_trans; apply Hn.
Qed.

(** ** Totality. *)
Section Total.
Context {F : Type} (o : fops F) {M U : Type}.
Variable rf : list F -> U -> outcome (list F * U).
Variable jf : list F -> U -> outcome (M * U).
Variable ls : M -> list F -> outcome (list F).
Variable n : nat.
Hypothesis Hrf : forall s u, length s = n -> exists r u', rf s u = Ok (r, u') /\ length r = n.
Hypothesis Hjf : forall s u, length s = n -> exists m u', jf s u = Ok (m, u').
Hypothesis Hls : forall m v, length v = n -> exists x, ls m v = Ok x /\ length x = n.

Definition sized (s : nst (F:=F) (U:=U)) := length (n_state s) = n /\ length (n_residual s) = n.

Lemma linesearch_total k : forall state0 step sc last s,
  length state0 = n -> length step = n -> sized s ->
  exists s', linesearch o rf k state0 step sc last s = Ok s' /\ sized s'.
Proof.
  induction k as [|k IH]; simpl; intros state0 step sc last s H0 H1 Hs.
  - eauto.
  - unfold axpy. rewrite H0, H1, Nat.eqb_refl. cbn [bind].
    set (x := map _ _). assert (Hx : length x = n).
    { unfold x. rewrite map_length, combine_length. lia. }
    destruct (Hrf x (n_user s) Hx) as (r & u' & E & Hr). rewrite E. cbn [bind fst snd].
    rewrite dot_self. cbn [bind]. destruct (flt o _ _).
    + eexists. split; [reflexivity|]. split; simpl; auto.
    + apply IH; auto. split; simpl; auto.
Qed.

Lemma newton_loop_total k mls tol : forall s, sized s ->
  exists st s', newton_loop o rf jf ls k mls tol s = Ok (st, s') /\ sized s'.
Proof.
  induction k as [|k IH]; simpl; intros s Hs.
  - eauto.
  - destruct (flt o (n_norm s) tol); [eauto|]. destruct Hs as [Hs1 Hs2].
    destruct (Hjf (n_state s) (n_user s) Hs1) as (m & u' & E). rewrite E. cbn [bind fst snd].
    destruct (Hls m (map (fopp o) (n_residual s))) as (x & Ex & Hx). { rewrite map_length; auto. }
    rewrite Ex. cbn [bind].
    destruct (linesearch_total mls (n_state s) x (fone o) (n_norm s)
      (mkNst (n_state s) (n_residual s) (n_norm s) u')) as (s' & El & [H1 H2]); auto. { split; auto. }
    rewrite El. cbn [bind]. destruct (flt o (n_norm s) (n_norm s')).
    + do 2 eexists. split; [reflexivity|]. split; simpl; auto.
    + apply IH. split; auto.
Qed.

Lemma newton_total s0 u0 mn ml tol : length s0 = n ->
  exists st s r u, newton_solve o rf jf ls s0 u0 mn ml tol = Ok (st, s, r, u) /\ length s = n /\ length r = n.
Proof.
  intros H0. unfold newton_solve. destruct (Hrf s0 u0 H0) as (r & u' & E & Hr). rewrite E. cbn [bind fst snd].
  rewrite dot_self. cbn [bind].
  destruct (newton_loop_total (Z.to_nat mn) (Z.to_nat ml) (fmul o tol tol)
    (mkNst s0 r (norm_sq o r) u')) as (st & s' & El & [H1 H2]). { split; auto. }
  rewrite El. cbn [bind fst snd]. exists st, (n_state s'), (n_residual s'), (n_user s'). auto.
Qed.
End Total.
