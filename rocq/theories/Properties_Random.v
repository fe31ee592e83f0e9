(** Properties C20-C22: class Random. *)
From Coq Require Import String ZArith Reals List Lia Lra Bool SpecFloat.
From Verif Require Import Base FloatOps NewtonFacts RandomGen RandomSpec RandomFacts.
Import ListNotations.
Local Open Scope R_scope.

(** ** C20, in exact arithmetic, for any random engine with values in [0,1], both for
    deterministic and for random generators, after any history of calls. *)
Theorem C20_random_range :
  forall (G : Type) (uniform : G -> R * G) det d min max r v r',
  (forall g, 0 <= fst (uniform g) <= 1) ->
  reachable R_ops R_funs uniform det d min max r ->
  get R_ops R_funs uniform r = (v, r') ->
  (d <> "2 sided log"%string -> between min max v)
  /\ (d = "2 sided log"%string -> between min max (Rabs v)
      /\ (min <> max -> (v < 0 <-> 1 / 2 < rand01_of uniform r))).
Proof. intros. eapply get_range; eauto. Qed.
Print Assumptions C20_random_range.

(** Equal limits return the limit (in particular 0 for zero limits) and do not advance. *)
Theorem C20_equal_limits :
  forall (G : Type) (uniform : G -> R * G) det d a r,
  reachable R_ops R_funs uniform det d a a r -> get R_ops R_funs uniform r = (a, r).
Proof.
  intros G uniform det d a r H. apply reachable_params in H as (_ & _ & H1 & H2 & _).
  rewrite get_equal; congruence.
Qed.
Print Assumptions C20_equal_limits.

Example C20_example : exists r : random (F:=R) (G:=unit),
  reachable R_ops R_funs (fun g => (1 / 2, g)) true "2 sided log" 1 2 r.
Proof.
  destruct (proj2 (make_random_ok true "2 sided log" 1 2 tt)) as [r H].
  - right. right. split; auto. lra.
  - exists r. econstructor. exact H.
Qed.

(** ** C21, in any arithmetic: after any history, [set_to_nth n] of a deterministic
    generator gives exactly the sequence that a fresh generator gives from its n-th call. *)
Theorem C21_set_to_nth :
  forall (F : Type) (o : fops F) (f : rfuns F) (G : Type) (uniform : G -> F * G) d min max r fresh seed n m,
  reachable o f uniform true d min max r ->
  make_random o f true d min max seed = Ok fresh ->
  fst (get o f uniform (gets o f uniform m (set_to_nth o f uniform n r)))
  = fst (get o f uniform (gets o f uniform (Z.to_nat n + m) fresh)).
Proof.
  intros F o f G uniform d min max r fresh seed n m Hr Hf.
  apply reachable_same in Hr as [seed' [r0 [H0 S0]]].
  assert (P : r_det fresh = true /\ r_last fresh = fzero o /\ same_params fresh r0).
  { unfold make_random in *. revert H0 Hf. repeat match goal with |- context [if ?b then _ else _] => destruct b end;
    intros H0 Hf; try discriminate; injection H0 as <-; injection Hf as <-; repeat split. }
  destruct P as (Pd & Pl & Ps).
  unfold set_to_nth. rewrite <- gets_add.
  fold (set_last r (fzero o)).
  destruct (gets_det_state o f uniform (Z.to_nat n + m) fresh (set_last r (fzero o)) Pd) as (A & B & _).
  - eapply same_trans; [exact Ps|]. eapply same_trans; [exact S0|]. repeat split.
  - simpl. congruence.
  - apply get_det_value; auto.
    destruct (gets_same o f uniform (Z.to_nat n + m) fresh) as [E _]. congruence.
Qed.
Print Assumptions C21_set_to_nth.

(** In exact arithmetic the position is the fractional part of a multiple of the golden
    ratio: the m-th value after [set_to_nth n] is made from frac((n+m+1) * golden). *)
Theorem C21_position :
  forall (G : Type) (uniform : G -> R * G) d min max r n m,
  reachable R_ops R_funs uniform true d min max r -> min <> max -> (0 <= n)%Z ->
  rand01_of uniform (gets R_ops R_funs uniform m (set_to_nth R_ops R_funs uniform n r))
  = frac ((IZR n + INR m + 1) * golden).
Proof.
  intros G uniform d min max r n m Hr Hne Hn.
  apply reachable_params in Hr as (_ & Hd & Hmin & Hmax & _).
  unfold set_to_nth. rewrite <- gets_add. fold (set_last r (fzero R_ops)).
  destruct (gets_same R_ops R_funs uniform (Z.to_nat n + m) (set_last r (fzero R_ops))) as [E _].
  unfold rand01_of. rewrite E. simpl r_det. rewrite Hd.
  destruct (Nat.eq_dec (Z.to_nat n + m) 0) as [Z0|Z0].
  - rewrite Z0. simpl. f_equal. assert (n = 0%Z) by lia. assert (m = 0%nat) by lia. subst. simpl. ring.
  - rewrite gets_frac; simpl; try congruence; [|lia]. rewrite frac_shift, plus_INR, INR_IZR_INZ, Z2Nat.id by lia. f_equal. ring.
Qed.
Print Assumptions C21_position.

Example C21_example : exists r : random (F:=R) (G:=unit),
  reachable R_ops R_funs (fun g => (0, g)) true "linear" 3 (-4) (set_to_nth R_ops R_funs (fun g => (0, g)) 7 r).
Proof. eexists. apply reach_set. apply reach_get. eapply (reach_make _ _ _ _ _ _ _ tt). reflexivity. Qed.

(** Finding: for a generator that is not deterministic the comment says set_to_nth has no
    effect; it discards n numbers. *)
Theorem C21_not_deterministic_refuted :
  exists (uniform : nat -> R * nat) r n,
  reachable R_ops R_funs uniform false "linear" 0 1 r
  /\ fst (get R_ops R_funs uniform (set_to_nth R_ops R_funs uniform n r)) <> fst (get R_ops R_funs uniform r).
Proof.
  set (rnd := fun g => mkRandom (F:=R) (G:=nat) false LINEAR 0 1 (ln (Rabs 0)) (ln (Rabs 1)) 0 (if Rltb 1 0 then - (1) else 1) g).
  exists (fun g => (INR g / 4, S g)), (rnd 0%nat), 1%Z.
  split. { eapply reach_make. reflexivity. }
  assert (E : feqb R_ops 1 0 = false) by (apply feqb_R_false; lra).
  assert (Es : set_to_nth R_ops R_funs (fun g => (INR g / 4, S g)) 1 (rnd 0%nat) = rnd 1%nat).
  { unfold set_to_nth. change (Z.to_nat 1) with 1%nat. cbn [gets]. unfold get. cbn [r_max r_min rnd].
    rewrite E. reflexivity. }
  rewrite Es, !get_value by (simpl; lra). unfold map_distrib, rand01_of. simpl. lra.
Qed.
Print Assumptions C21_not_deterministic_refuted.

(** ** C22, in exact arithmetic: the constructor accepts exactly the documented limits. *)
Theorem C22_constructor :
  forall (G : Type) det d min max (seed : G),
  (exists r, make_random R_ops R_funs det d min max seed = Ok r) <-> limits_allowed d min max.
Proof. intros. apply make_random_ok. Qed.
Print Assumptions C22_constructor.

(** Finding: in binary64 the same-sign test max*min < 0 underflows: limits of opposite sign
    and magnitude 2^-600 are accepted. *)
Theorem C22_underflow_refuted :
  exists min max : spec_float, SFltb min (S754_zero false) = true /\ SFltb (S754_zero false) max = true
  /\ forall (f : rfuns spec_float) (G : Type) (seed : G), exists r, make_random D_ops f true "log" min max seed = Ok r.
Proof.
  exists (SFldexp 53 1024 (S754_finite true 1 0) (-600)), (SFldexp 53 1024 (S754_finite false 1 0) (-600)).
  split; [vm_compute; reflexivity|]. split; [vm_compute; reflexivity|].
  intros f G seed. unfold make_random. simpl String.eqb. cbv iota.
  match goal with |- context [flt D_ops ?a ?b] =>
    replace (flt D_ops a b) with false by (vm_compute; reflexivity) end.
  match goal with |- context [if ?b then _ else _] => replace b with false by (vm_compute; reflexivity) end.
  eexists. reflexivity.
Qed.
Print Assumptions C22_underflow_refuted.

(** Finding: swapping the limits does change the samples (the comment says it never does). *)
Theorem C22_swap_refuted :
  exists (r s : random (F:=R) (G:=unit)),
  make_random R_ops R_funs true "linear" 0 1 tt = Ok r /\ make_random R_ops R_funs true "linear" 1 0 tt = Ok s
  /\ fst (get R_ops R_funs (fun g => (0, g)) r) <> fst (get R_ops R_funs (fun g => (0, g)) s).
Proof.
  do 2 eexists. split; [reflexivity|]. split; [reflexivity|].
  rewrite !get_value by (simpl; lra). unfold map_distrib, rand01_of. simpl.
  assert (S5 : 2 < sqrt 5 < 3).
  { split; [apply Rsqr_incrst_0|apply Rsqr_incrst_0]; try rewrite Rsqr_sqrt by lra; unfold Rsqr; try lra; apply sqrt_pos. }
  assert (F : frac (0 + golden) = golden - 1).
  { unfold frac, golden. rewrite (Int_part_unique _ 1) by lra. ring. }
  rewrite F. unfold golden. lra.
Qed.
Print Assumptions C22_swap_refuted.

(** What is true: the swapped generator maps the engine's number t to what the original maps
    1-t to (linear and log), so the range and, for a uniform engine, the distribution are
    the same; for 2-sided log the magnitudes correspond in the same way. *)
Theorem C22_swap_partial :
  forall (G : Type) (uniform : G -> R * G) det d min max r s t,
  reachable R_ops R_funs uniform det d min max r ->
  reachable R_ops R_funs uniform det d max min s ->
  (d <> "2 sided log"%string -> map_distrib R_ops R_funs s t = map_distrib R_ops R_funs r (1 - t))
  /\ (d = "2 sided log"%string -> forall u, Rabs ((t - 1 / 2) * 2) = 1 - Rabs ((u - 1 / 2) * 2) ->
      Rabs (map_distrib R_ops R_funs s t) = Rabs (map_distrib R_ops R_funs r u)).
Proof.
  intros G uniform det d min max r s t Hr Hs.
  apply reachable_params in Hr as (L & A1 & A2 & A3 & A4 & A5 & A6 & A7).
  apply reachable_params in Hs as (_ & B1 & B2 & B3 & B4 & B5 & B6 & B7).
  assert (X : forall x, Rabs (- x) = Rabs x) by apply Rabs_Ropp.
  unfold map_distrib. rewrite A2, A3, A4, A5, A6, B2, B3, B4, B5, B6. simpl.
  destruct A7 as [[-> ->]|[[-> ->]|[-> ->]]], B7 as [[K ->]|[[K ->]|[K ->]]]; try discriminate.
  - split; [|discriminate]. intros _. ring.
  - split; [|discriminate]. intros _.
    replace (ln (Rabs max) + (ln (Rabs min) - ln (Rabs max)) * t)
      with (ln (Rabs min) + (ln (Rabs max) - ln (Rabs min)) * (1 - t)) by ring.
    destruct L as [L|[[_ L]|[L _]]]; try discriminate.
    unfold Rltb. destruct (Rlt_dec min 0), (Rlt_dec max 0); try lra.
  - split; [congruence|]. intros _ u Hu. rewrite Hu.
    replace (ln (Rabs max) + (ln (Rabs min) - ln (Rabs max)) * (1 - Rabs ((u - 1 / 2) * 2)))
      with (ln (Rabs min) + (ln (Rabs max) - ln (Rabs min)) * Rabs ((u - 1 / 2) * 2)) by ring.
    destruct (Rltb (1 / 2) t), (Rltb (1 / 2) u); rewrite ?X; reflexivity.
Qed.
Print Assumptions C22_swap_partial.
