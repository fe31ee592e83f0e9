(** A whole optimization: from the invariants of OptRun.v to the vocabulary of OptSpec.v. *)
From Coq Require Import String ZArith List Bool Arith Lia.
From Verif Require Import Base BaseFacts FloatOps Tensor TensorFacts Outfile OutfileFacts MScan ScanFacts MScanDims Alloc AllocFacts
  Opt OptSpec OptState OptResid OptRun.
Import ListNotations.
Local Open Scope list_scope.
Local Open Scope nat_scope.

Section End.
Context {F : Type} (o : fops F) (fsqrt : F -> F) (of_Z : Z -> F) {Y : Type}.
Notation opt := (@stage F (@rest F Y)).
Variable rt : @routines F Y.
Variable gsl : nat -> opt -> Z -> list F -> list (@event F).
Variable junk : nat -> list F.
Variable fit : @qobj F -> @qextra F Y -> Prop.
Hypothesis Hqsc : qsc_ok fit rt.

Lemma check_sizes_bad (s : opt) : ~ flagged s -> exists a, length (r_vary (st_rest s) a) <> length (get_axis (st_q s) a) /\ check_sizes s = Throw (String.append "Size of vary_" (String.append (axis_name a) " is incorrect")).
Proof.
  intros H. unfold check_sizes.
  destruct (length (r_vary (st_rest s) R0c) =? length (get_axis (st_q s) R0c)) eqn:E1; cbn [negb]; [|exists R0c; split; [apply Nat.eqb_neq; exact E1|reflexivity]].
  destruct (length (r_vary (st_rest s) R0s) =? length (get_axis (st_q s) R0s)) eqn:E2; cbn [negb]; [|exists R0s; split; [apply Nat.eqb_neq; exact E2|reflexivity]].
  destruct (length (r_vary (st_rest s) Z0c) =? length (get_axis (st_q s) Z0c)) eqn:E3; cbn [negb]; [|exists Z0c; split; [apply Nat.eqb_neq; exact E3|reflexivity]].
  destruct (length (r_vary (st_rest s) Z0s) =? length (get_axis (st_q s) Z0s)) eqn:E4; cbn [negb]; [|exists Z0s; split; [apply Nat.eqb_neq; exact E4|reflexivity]].
  exfalso. apply H. bprop. intros []; auto.
Qed.
Lemma flagged_dec (s : opt) : flagged s \/ ~ flagged s.
Proof.
  unfold flagged.
  destruct (Nat.eq_dec (length (r_vary (st_rest s) R0c)) (length (get_axis (st_q s) R0c))) as [A|A]; [|right; intros H; apply A, H].
  destruct (Nat.eq_dec (length (r_vary (st_rest s) R0s)) (length (get_axis (st_q s) R0s))) as [B|B]; [|right; intros H; apply B, H].
  destruct (Nat.eq_dec (length (r_vary (st_rest s) Z0c)) (length (get_axis (st_q s) Z0c))) as [C|C]; [|right; intros H; apply C, H].
  destruct (Nat.eq_dec (length (r_vary (st_rest s) Z0s)) (length (get_axis (st_q s) Z0s))) as [D|D]; [|right; intros H; apply D, H].
  left. intros []; auto.
Qed.

Hypothesis Hgsl : gsl_ok gsl.
Hypothesis Hjunk : forall n, length (junk n) = n.

(** What is known when an optimization has ended. *)
Definition done (s : opt) (st : opt * list (bool * opt)) : Prop :=
  exists s1, allocate o rt s = Ok s1 /\ ready o s1 /\ same_settings s s1 /\ same_inputs (st_q s) (st_q s1) /\
    same_extra (r_q (st_rest s)) (r_q (st_rest s1)) /\ qx_nphi (r_q (st_rest s1)) = odd_nphi (qx_nphi (r_q (st_rest s))) /\
    r_vary (st_rest s1) = r_vary (st_rest s) /\ r_n_evals (st_rest s1) = r_n_evals (st_rest s) /\
    flagged s /\ flagged s1 /\ finished o fsqrt of_Z rt fit gsl s1 st.
Lemma run_opt_cases (Th : string -> Prop) (s : opt) : input_ok s ->
  (forall q x w, OptSpec.acceptable q x -> q_allocate rt q x = Throw w -> Th w) ->
  (forall q x w, OptSpec.acceptable q x -> same_extra (r_q (st_rest s)) x -> q_init rt q x = Throw w -> Th w) ->
  (forall q x w, fit q x -> q_calculate rt q x = Throw w -> Th w) ->
  ((r_max_iter (st_rest s) < 0)%Z -> Th "std::bad_alloc"%string) ->
  (forall a, length (r_vary (st_rest s) a) <> length (get_axis (st_q s) a) -> Th (String.append "Size of vary_" (String.append (axis_name a) " is incorrect"))) ->
  (flagged s -> (forall p, ~ free s p) -> Th "There must be at least 1 parameter varied."%string) ->
  ((forall name, In name term_names -> used o s name = false) -> Th "There must be at least 1 residual term."%string) ->
  safe Th (done s) (run_opt o fsqrt of_Z rt gsl junk s).
Proof.
  intros Hs Ta Ti Tc Tb Tf Tp Tt. unfold run_opt. pose proof (allocate_safe o rt fit Hqsc Th Ta s Hs Tb) as H.
  destruct (allocate o rt s) as [s1|e|e] eqn:Ea; cbn [bind safe] in *; auto.
  destruct H as (R & S & I & X & N & V & E).
  assert (Fl : flagged s1 <-> flagged s).
  { unfold flagged. rewrite V. split; intros H a; rewrite H; [symmetry|]; f_equal; rewrite (proj2 I a); reflexivity. }
  destruct (flagged_dec s1) as [Hf|Hf].
  - eapply safe_imp; [apply (optimize_log_safe o fsqrt of_Z rt fit gsl junk s1 R Hf Hqsc Hgsl Hjunk Th Ta)|].
    + intros q x w A B. apply Ti; [exact A|]. eapply same_extra_trans; [exact X|exact B].
    + exact Tc.
    + intros Hn. apply Tp; [apply Fl; exact Hf|]. intros p Hp. apply (Hn p). destruct S as (_ & _ & _ & _ & Ev). destruct p as [m|a k]; cbn in *.
      * rewrite Ev. exact Hp.
      * unfold vary_at. rewrite V. rewrite nth_error_app1; [exact Hp|]. apply nth_error_Some. congruence.
    + intros Hn. apply Tt. intros name Hm. rewrite <- (Hn name Hm). unfold used. destruct S as (-> & _). reflexivity.
    + intros st Fi. exists s1. repeat (split; [auto; fail|]). split; [|auto]. apply Fl. exact Hf.
  - destruct (check_sizes_bad s1 Hf) as (a & Hb & Ec). unfold optimize_log. rewrite Ec. cbn [bind safe]. apply Tf. rewrite V, (proj2 I a) in Hb. exact Hb.
Qed.
Lemma run_opt_safe (s : opt) : input_ok s -> safe (fun _ => True) (done s) (run_opt o fsqrt of_Z rt gsl junk s).
Proof. intros Hs. apply run_opt_cases; auto. Qed.
Lemma flags_checked (s : opt) : ~ flagged s -> forall st, run_opt o fsqrt of_Z rt gsl junk s <> Ok st.
Proof.
  intros Hf st. unfold run_opt. destruct (allocate o rt s) as [s1|e|e] eqn:Ea; cbn [bind]; try discriminate.
  destruct (flagged_dec s1) as [H|H].
  - exfalso. apply Hf. intros a. pose proof (H a) as Ha. unfold allocate, on_q in Ea.
    destruct (q_allocate rt (st_q s) (r_q (st_rest s))) as [[q x]|e|e] eqn:Eq; cbn [bind fst snd] in Ea; try discriminate.
    cbn [with_q st_rest r_max_iter] in Ea. destruct (r_max_iter (st_rest s) <? 0)%Z; [discriminate|].
    injection Ea as <-. cbn [st_rest set_steps r_vary with_q st_q] in Ha. rewrite Ha. f_equal.
    apply (allocate_ok fit rt Hqsc _ _ _ _ Eq).
  - destruct (check_sizes_bad s1 H) as (a & _ & Ec). unfold optimize_log. rewrite Ec. cbn. discriminate.
Qed.

(** Translation. *)
Section Translate.
Variables (s s1 : opt).
Hypothesis Hset : same_settings s s1.
Hypothesis Hin : same_inputs (st_q s) (st_q s1).
Hypothesis Hv : r_vary (st_rest s1) = r_vary (st_rest s).
Hypothesis Hok : input_ok s.
Hypothesis Hf : flagged s.

Lemma modes_same a : length (get_axis (st_q s1) a) = n_modes s.
Proof. rewrite (proj2 Hin a). apply (proj1 Hok a). Qed.
Lemma init_value_same p : is_input p -> init_value o s1 p = start_value o s p.
Proof.
  destruct Hset as (_ & E & _). destruct p as [m|a k]; cbn; intros H.
  - f_equal. apply (proj1 Hin); auto.
  - rewrite E, (proj2 Hin a). reflexivity.
Qed.
Lemma free_at_same j p : j <= st_fourier_refine s -> free_at s1 j p <-> varied_in s j p.
Proof.
  intros Hj. destruct Hset as (_ & E & _ & _ & Ev). unfold varied_in. destruct p as [m|a k].
  - cbn. rewrite Ev. split; [auto|]. intros [H|(a & k & H & _)]; [auto|discriminate].
  - unfold free_at, vary_at. rewrite Hv, E. pose proof (Hf a) as La. pose proof (proj1 Hok a) as L0.
    change (length (qo_R0c (st_q s))) with (n_modes s) in L0. rewrite L0 in La.
    cbn [free]. destruct (Nat.lt_ge_cases k (n_modes s)) as [Hk|Hk].
    + rewrite nth_error_app1 by lia. split; [auto|]. intros [H|(a' & k' & H & _ & H')]; [auto|]. injection H as <- <-. lia.
    + rewrite nth_error_app2 by lia. rewrite La.
      assert (N : nth_error (r_vary (st_rest s) a) k <> Some true) by (intros H; assert (H2 : k < length (r_vary (st_rest s) a)) by (apply nth_error_Some; congruence); lia).
      assert (G : nth_error (repeat true j ++ repeat false (st_fourier_refine s - j)) (k - n_modes s) = Some true <-> k < n_modes s + j).
      { destruct (Nat.lt_ge_cases (k - n_modes s) j) as [H|H].
        - rewrite nth_error_app1 by (rewrite repeat_length; auto). rewrite nth_error_repeat by auto. intuition lia.
        - rewrite nth_error_app2 by (rewrite repeat_length; auto). rewrite repeat_length.
          split; [|intros; lia]. intros H'. apply nth_error_In, repeat_spec in H'. discriminate. }
      assert (B : nth_error (repeat false (st_fourier_refine s)) (k - n_modes s) = Some true <-> False).
      { split; [|tauto]. intros H'. apply nth_error_In, repeat_spec in H'. discriminate. }
      split.
      * intros H. right. exists a, k. split; auto. destruct a; try (apply B in H; tauto); apply G in H; auto.
      * intros [H|(a' & k' & H & Ha & H')]; [tauto|]. injection H as <- <-.
        destruct a; try (destruct Ha; discriminate); apply G; lia.
Qed.
Lemma segs_same j l : r_max_iter (st_rest s1) = r_max_iter (st_rest s) -> j <= S (st_fourier_refine s) ->
  segs o gsl s1 j l -> steps_logged o gsl s j l.
Proof.
  intros Hm Hj H. induction H as [|j l obj ps x0 seg H IH Hl Hd Hp Hx Hm' Hlv]; [constructor|].
  rewrite Hm in Hl, Hm'. econstructor; eauto.
  - apply IH. lia.
  - intros p. rewrite Hp. apply free_at_same. lia.
  - rewrite Hx. apply map_ext_in. intros p Hi. unfold now, value_after, last_entry.
    destruct (nth_error l (length l - 1)); auto. apply init_value_same.
    apply Hp in Hi. destruct p; [apply Hi|exact I].
Qed.
Lemma nphi_same j : qx_nphi (r_q (st_rest s1)) = odd_nphi (qx_nphi (r_q (st_rest s))) -> nphi_at s1 j = nphi_in s j.
Proof. intros H. destruct Hset as (_ & _ & _ & E & _). unfold nphi_at, nphi_in. rewrite E, H. reflexivity. Qed.
End Translate.

Lemma evaluated_spec (r : opt) : evaluated o fsqrt of_Z r -> computed rt fit r -> evaluated_at o fsqrt of_Z rt r.
Proof.
  intros (A & B & C) (q & x & _ & D). split; [exists q, x; exact D|]. split; [exact A|]. split.
  - intros name n f I. apply (B (name, n, f) I).
  - rewrite C. unfold objective.
    change (combine weight_order term_order) with (map (fun t => (tname t, tname t)) (terms o fsqrt of_Z r)).
    match goal with |- fold_left ?f _ _ = fold_left ?g _ _ =>
      assert (G : forall ts acc, fold_left f (map (fun t => (tname t, tname t)) ts) acc = fold_left g ts acc) end.
    { induction ts as [|[[name n] f] ts IH]; intros acc; [reflexivity|]. cbn [map fold_left]. rewrite IH. reflexivity. }
    apply G.
Qed.
End End.
