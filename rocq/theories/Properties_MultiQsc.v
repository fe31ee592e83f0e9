(** C100: an optimization in several stages with the calculation of Run.v. *)
From Coq Require Import String ZArith List Arith Bool Lia Reals.
From Verif Require Import Base BaseFacts FloatOps MathOps Tensor Newton RSing Axis AxisSpec Alloc AllocSpec AllocFacts Toml TomlSpec TomlFacts Options OptionsSpec
  NetCDF NetCDFOut NetCDFSpec NetCDFFacts NetCDFRead.
From Verif Require Import Run RunSpec RunFacts RunSafe MScan Opt OptSpec OptState OptResid OptRun OptEnd OptMulti OptFixed RunInput OptQsc Properties_Opt Properties_MultiOpt
  Properties_NetCDF Properties_RSing HelicityFacts Properties_RunSafe Properties_OptQsc.
Import ListNotations.
Local Open Scope string_scope.
Local Open Scope nat_scope.

Section MultiQsc.
Context {F : Type} (o : fops F) (mo : mops F).
Variables (ge0 : F -> bool) (newton_tol mu0 : F) (newton_linear_solve : (nat -> nat -> F) -> list F -> outcome (list F))
  (linear_solve : matrix F -> list F -> outcome (list F)) (geev : list F -> Z * (list F * list F)) (tol : tolerances F) (finite : F -> bool).
Notation members := (members F).
Notation opt := (@stage F (@rest F members)).
Notation multiopt := (@MScan.multiopt F (@rest F members)).
Notation routines := (qsc_routines o mo ge0 mu0 newton_linear_solve linear_solve geev tol finite).
Notation run_gives := (run_gives o mo ge0 newton_tol mu0 newton_linear_solve linear_solve geev tol finite).
Variable gsl : nat -> opt -> Z -> list F -> list (@event F).
Variable junk : nat -> list F.
Notation run := (run_opt o (m_sqrt mo) (m_of_Z mo) routines gsl junk).
Notation optimize := (multiopt_optimize o (m_sqrt mo) (m_of_Z mo) routines gsl junk).
Hypothesis solvers : solvers_ok newton_linear_solve linear_solve.
Hypothesis gsl_calls : gsl_ok gsl.
Hypothesis junk_size : forall n, length (junk n) = n.
Notation called := (calculation_called_ok o mo ge0 newton_tol mu0 newton_linear_solve linear_solve geev tol finite gsl junk solvers gsl_calls junk_size).

Theorem stages_defined : forall (s : multiopt) why, stages_ok (mo_opts s) -> optimize s <> UB why.
Proof. intros s why H. apply multiopt_in_bounds; [apply called|exact H]. Qed.

Lemma same_fixed_trans (e e' e'' : members) : same_fixed e e' -> same_fixed e' e'' -> same_fixed e e''.
Proof.
  intros (A & B & C) (A' & B' & C'). split; [|split; [|congruence]]; intros x Hx; [rewrite A by exact Hx; apply A'; exact Hx|rewrite B by exact Hx; apply B'; exact Hx].
Qed.
Lemma same_fixed_refl (e : members) : same_fixed e e.
Proof. split; [|split]; reflexivity. Qed.
Lemma start_config prev (s start : opt) : continues prev s start -> config start = config (match prev with Some s0 => s0 | None => s end).
Proof. destruct prev as [s0|]; cbn [continues]; intros ->; reflexivity. Qed.

(** The inputs that are not varied are those of the first stage, in all stages. *)
Theorem stages_fixed_inputs : forall (s s' : multiopt) first, stages_ok (mo_opts s) -> optimize s = Ok s' -> nth_error (mo_opts s) 0 = Some first ->
  forall i r, nth_error (mo_opts s') i = Some r -> same_fixed (config r) (config first).
Proof.
  intros s s' first Hs E Hf. destruct (multiopt_chain o (m_sqrt mo) (m_of_Z mo) routines gsl junk s s' called Hs E) as (L & C & _).
  induction i as [|i IH]; intros r Hr.
  - destruct (C 0 first r Hf Hr) as (start & l & A & _ & R & _). cbn [previous continues] in A. subst start.
    apply (fixed_inputs_kept o mo ge0 mu0 newton_linear_solve linear_solve geev tol finite gsl junk first r l R).
  - assert (Hl : S i < length (mo_opts s')) by (apply nth_error_Some; congruence).
    destruct (nth_error (mo_opts s') i) as [r0|] eqn:E0; [|apply nth_error_None in E0; lia].
    destruct (nth_error (mo_opts s) (S i)) as [t|] eqn:Et; [|apply nth_error_None in Et; lia].
    destruct (C (S i) t r Et Hr) as (start & l & A & _ & R & _). cbn [previous] in A. rewrite E0 in A.
    eapply same_fixed_trans; [apply (fixed_inputs_kept o mo ge0 mu0 newton_linear_solve linear_solve geev tol finite gsl junk start r l R)|].
    rewrite (start_config _ _ _ A). apply IH. reflexivity.
Qed.

(** The file of each stage that has evaluated something.  As in C99, the part about the configuration is the file of a run with the inputs of the last evaluation of the
    stage, and entry i of the variables about the iterations is the number that a run with the inputs of the i-th configuration reported writes.  The stage
    is the optimization [start], which continues from the configuration in which the stage before ended. *)
Theorem stages_write_runs : forall (s s' : multiopt) first, stages_ok (mo_opts s) -> optimize s = Ok s' -> nth_error (mo_opts s) 0 = Some first -> ints_fit (config first) ->
  forall i t r e, nth_error (mo_opts s) i = Some t -> nth_error (mo_opts s') i = Some r -> 0 < r_n_iter (st_rest r) -> holds_history r (config r) e ->
  exists start l fq f new, continues (previous None (mo_opts s') i) t start /\ run start = Ok (r, l) /\
    run_gives (config r) fq /\ opt_write_netcdf F (m_of_Z mo) (config r) e = Ok f /\ f_vars F f = (f_vars F fq ++ new)%list /\
    forall k c, nth_error (map snd (filter fst l)) k = Some c ->
      exists fc, run_gives (config c) fc /\
        forall h x, In (h, x) (reported_first ++ reported_second) -> exists v, element F f h [k] v /\ element F fc x [] v.
Proof.
  intros s s' first Hs E Hf Hi i t r e Ht Hr Hn HH.
  destruct (multiopt_chain o (m_sqrt mo) (m_of_Z mo) routines gsl junk s s' called Hs E) as (L & C & _).
  destruct (C i t r Ht Hr) as (start & l & A & B & R & _).
  assert (Hl : l <> []).
  { intros ->. destruct (optimization_history o (m_sqrt mo) (m_of_Z mo) routines gsl junk start r [] called B R) as (Hit & _). cbn in Hit. lia. }
  assert (Sf : same_fixed (config start) (config first)).
  { rewrite (start_config _ _ _ A). destruct i as [|i]; cbn [previous].
    - assert (t = first) by congruence. subst t. apply same_fixed_refl.
    - destruct (nth_error (mo_opts s') i) as [r0|] eqn:E0; [apply (stages_fixed_inputs s s' first Hs E Hf i r0 E0)|].
      apply nth_error_None in E0. assert (S i < length (mo_opts s')) by (apply nth_error_Some; congruence). lia. }
  assert (If : ints_fit (config start)).
  { intros x Hx. destruct (string_dec x "nphi") as [->|N].
    - destruct B as (_ & _ & _ & _ & B). change (m_int F (config start) "nphi") with (qx_nphi (r_q (st_rest start))). unfold nphi_limits in B. unfold in_int32. lia.
    - rewrite (proj1 Sf); [apply Hi; exact Hx|]. cbn in *. intuition congruence. }
  destruct (optimization_writes_runs o mo ge0 newton_tol mu0 newton_linear_solve linear_solve geev tol finite gsl junk solvers gsl_calls junk_size start r l e B If R Hl HH)
    as (fq & f & new & H1 & H2 & H3 & H4).
  exists start, l, fq, f, new. auto 7.
Qed.
End MultiQsc.

(** ** In real arithmetic *)
Section Completes.
Variables (ge0 : R -> bool) (newton_tol mu0 : R) (newton_linear_solve : (nat -> nat -> R) -> list R -> outcome (list R))
  (linear_solve : matrix R -> list R -> outcome (list R)) (geev : list R -> Z * (list R * list R)) (single : bool).
Notation opt := (@stage R (@rest R (members R))).
Notation multiopt := (@MScan.multiopt R (@rest R (members R))).
Notation routines := (qsc_routines R_ops R_math ge0 mu0 newton_linear_solve linear_solve geev (tolerances_of R_ops R_math single) (fun _ => true)).
Notation optimize := (multiopt_optimize R_ops (m_sqrt R_math) (m_of_Z R_math) routines).
(** If the solvers and LAPACK succeed, the optimization ends normally if, in each stage, the lists of varied modes have the size that the arrays have when
    the stage begins, something is varied and there is a term. *)
Theorem stages_complete : forall gsl junk (s : multiopt) first,
  (forall m v, exists x, newton_linear_solve m v = Ok x /\ length x = length v) -> (forall m v, exists x, linear_solve m v = Ok x) -> (forall m, fst (geev m) = 0%Z) ->
  gsl_ok gsl -> (forall n, length (junk n) = n) ->
  stages_ok (mo_opts s) -> nth_error (mo_opts s) 0 = Some first -> In (qx_order_r_option (r_q (st_rest first))) ["r1"; "r2"; "r2.1"] ->
  (forall i t, nth_error (mo_opts s) i = Some t ->
     (forall a, length (r_vary (st_rest t) a) = modes_before (n_modes first) (mo_opts s) i) /\ (0 <= r_max_iter (st_rest t))%Z /\
     (exists p, free t p) /\ (exists name, In name term_names /\ used R_ops t name = true)) ->
  exists s', optimize gsl junk s = Ok s'.
Proof.
  intros gsl junk s first S1 S2 S3 G J Hs Hf Ho Ht.
  assert (HS : solvers_ok newton_linear_solve linear_solve).
  { split; [|split].
    - intros m v w. destruct (S1 m v) as (x & -> & _). discriminate.
    - intros m v x E. destruct (S1 m v) as (y & Ey & L). congruence.
    - intros m v w. destruct (S2 m v) as (x & ->). discriminate. }
  pose proof (calculation_called_ok R_ops R_math ge0 newton_tol mu0 newton_linear_solve linear_solve geev (tolerances_of R_ops R_math single) (fun _ => true) gsl junk HS G J) as HC.
  destruct (optimize gsl junk s) as [s'|w|w] eqn:E; [eauto|exfalso..].
  - destruct (multistage_stops R_ops (m_sqrt R_math) (m_of_Z R_math) routines gsl junk s w first HC Hs Hf E) as (i & t & start & before & A & B & C & I & R & M & X).
    destruct (Ht i t A) as (Fl & Mx & (p & Hp) & (name & Hn & Hu)).
    assert (Sm : r_vary (st_rest start) = r_vary (st_rest t) /\ r_max_iter (st_rest start) = r_max_iter (st_rest t) /\ st_num start = st_num t /\ r_vary_num (st_rest start) = r_vary_num (st_rest t)).
    { destruct (previous None (mo_opts before) i); cbn [continues] in C; subst start; cbn; auto. }
    destruct Sm as (E1 & E2 & E3 & E4).
    destruct (optimization_completes ge0 newton_tol mu0 newton_linear_solve linear_solve geev single gsl junk start S1 S2 S3 G J I) as (s' & l & Er).
    + rewrite (proj2 X). exact Ho.
    + rewrite E2. exact Mx.
    + intros a. rewrite E1, Fl, (proj1 I a), M. reflexivity.
    + exists p. destruct p as [m|a k]; cbn [free] in *; [rewrite E4|rewrite E1]; exact Hp.
    + exists name. split; [exact Hn|]. unfold used in *. rewrite E3. exact Hu.
    + rewrite Er in R. discriminate R.
  - exact (stages_defined R_ops R_math ge0 newton_tol mu0 newton_linear_solve linear_solve geev (tolerances_of R_ops R_math single) (fun _ => true) gsl junk HS G J s w Hs E).
Qed.
End Completes.

(** ** An example: a second stage after one with a step of refinement *)
Section Example.
Notation opt := (@stage R (@rest R (members R))).
Notation routines := (qsc_routines R_ops R_math Rge0 0%R easy_solver easy_solver2 easy_geev (tolerances_of R_ops R_math false) (fun _ => true)).
Definition two_stage (refine : nat) (vary : axis -> list bool) : opt :=
  mkStage (update [("weight_iota", 1%R)] (fun _ => 0%R)) plain_object (fun _ => []) (fun _ => mkMatrix 0 0 0 []) refine
    (mkRest (mkQx 15%Z 3%Z "r2.1" false (fun _ => []) plain_members) 5%Z 0 0%Z 0 [] (fun m => String.eqb m "eta_bar") vary 0 0 [] [] [] 0%R (fun _ => 0%R) []).
Definition two_stages : @MScan.multiopt R (@rest R (members R)) :=
  mkMO [two_stage 1 (fun _ => [false; true]); two_stage 0 (fun _ => [false; true; true])] 0%Z.
Lemma two_stages_ok : stages_ok (mo_opts two_stages).
Proof.
  split; [constructor; [split; [left; reflexivity|limits_tac]|constructor; [split; [left; reflexivity|limits_tac]|constructor]]|].
  intros s Hs. injection Hs as <-. split; [|limits_tac]. split; [intros []; reflexivity|]. split; [split; [left; reflexivity|]|split; [|split]]; limits_tac.
Qed.
Example stages_example : exists s' r1 r2,
  multiopt_optimize R_ops (m_sqrt R_math) (m_of_Z R_math) routines step_gsl zero_junk two_stages = Ok s' /\ stages_ok (mo_opts two_stages) /\
  mo_opts s' = [r1; r2] /\ 0 < r_n_iter (st_rest r1) /\ 0 < r_n_iter (st_rest r2) /\ length (qo_R0c (st_q r2)) = 3 /\
  ints_fit (config (two_stage 1 (fun _ => [false; true]))) /\ holds_history r2 (config r2) (iteration_members r2).
Proof.
  assert (J : forall n, length (zero_junk n) = n) by (intros n; apply repeat_length).
  pose proof (calculation_called_ok R_ops R_math Rge0 0%R 0%R easy_solver easy_solver2 easy_geev (tolerances_of R_ops R_math false) (fun _ => true) step_gsl zero_junk easy_ok step_gsl_ok J) as HC.
  destruct (stages_complete Rge0 0%R 0%R easy_solver easy_solver2 easy_geev false step_gsl zero_junk two_stages (two_stage 1 (fun _ => [false; true]))) as (s' & E).
  - intros m v. exists v. split; reflexivity.
  - intros m v. exists v. reflexivity.
  - reflexivity.
  - exact step_gsl_ok.
  - exact J.
  - exact two_stages_ok.
  - reflexivity.
  - cbn. tauto.
  - assert (U : forall n v, used R_ops (two_stage n v) "iota" = true).
    { intros n v. unfold used. cbn. unfold Rltb. destruct (Rlt_dec 0 1) as [_|H]; [reflexivity|]. exfalso. apply H. exact Rlt_0_1. }
    intros i t Ht. destruct i as [|[|i]]; [| |destruct i; discriminate Ht]; cbn [two_stages mo_opts nth_error] in Ht; injection Ht as <-;
      (split; [intros a; reflexivity|]; split; [cbn; lia|]; split; [exists (PNum "eta_bar"); split; [cbn; tauto|reflexivity]|exists "iota"; split; [cbn; tauto|apply U]]).
  - destruct (multiopt_chain R_ops (m_sqrt R_math) (m_of_Z R_math) routines step_gsl zero_junk two_stages s' HC two_stages_ok E) as (L & C & _).
    pose proof (multiopt_sizes R_ops (m_sqrt R_math) (m_of_Z R_math) routines step_gsl zero_junk two_stages s' (two_stage 1 (fun _ => [false; true])) HC two_stages_ok E eq_refl) as Sz.
    destruct s' as [os ne]. cbn [mo_opts] in *. destruct os as [|r1 [|r2 [|r3 os]]]; try discriminate L. exists (mkMO [r1; r2] ne), r1, r2.
    assert (Ev : forall i t r, nth_error (mo_opts two_stages) i = Some t -> nth_error [r1; r2] i = Some r -> 0 < r_n_iter (st_rest r)).
    { intros i t r Ht Hr. destruct (C i t r Ht Hr) as (start & l & A & B & D & _).
      destruct (optimization_history R_ops (m_sqrt R_math) (m_of_Z R_math) routines step_gsl zero_junk start r l HC B D) as (Hit & _). rewrite Hit.
      assert (Ht' : t = two_stage 1 (fun _ => [false; true]) \/ t = two_stage 0 (fun _ => [false; true; true])).
      { destruct i as [|[|i]]; cbn in Ht; [left|right|destruct i; discriminate Ht]; congruence. }
      assert (X : qx_order_r_option (r_q (st_rest start)) = "r2.1" /\ r_max_iter (st_rest start) = 5%Z).
      { split.
        - change (m_text R (config start) "order_r_option" = "r2.1"). rewrite (start_config _ _ _ A). destruct i as [|i]; cbn [previous].
          + destruct Ht' as [-> | ->]; reflexivity.
          + destruct (nth_error [r1; r2] i) as [r0|] eqn:E0; [|destruct Ht' as [-> | ->]; reflexivity].
            destruct (stages_fixed_inputs R_ops R_math Rge0 0%R 0%R easy_solver easy_solver2 easy_geev (tolerances_of R_ops R_math false) (fun _ => true) step_gsl zero_junk easy_ok step_gsl_ok J
              two_stages (mkMO [r1; r2] ne) (two_stage 1 (fun _ => [false; true])) two_stages_ok E eq_refl i r0 E0) as (_ & _ & X). rewrite X. reflexivity.
        - destruct (previous None [r1; r2] i); cbn [continues] in A; subst start; destruct Ht' as [-> | ->]; reflexivity. }
      pose proof (optimization_evaluates R_ops (m_sqrt R_math) (m_of_Z R_math) routines step_gsl zero_junk start r l HC B D (proj1 X)) as Q. rewrite (proj2 X) in Q.
      specialize (Q ltac:(lia)).
      destruct (first_record_is_start R_ops (m_sqrt R_math) (m_of_Z R_math) routines step_gsl zero_junk start r l HC B D Q) as (c & Hc & _).
      apply nth_error_Some. congruence. }
    split; [exact E|]. split; [exact two_stages_ok|]. split; [reflexivity|]. split; [apply (Ev 0 _ r1 eq_refl eq_refl)|]. split; [apply (Ev 1 _ r2 eq_refl eq_refl)|]. split.
    + apply (proj1 (Sz 1 _ r2 eq_refl eq_refl) Opt.R0c).
    + split; [|apply iteration_holds]. intros x Hx. cbn in Hx. repeat (destruct Hx as [<-|Hx]; [cbn; unfold in_int32; lia|]). destruct Hx.
Qed.
End Example.
Print Assumptions stages_defined.
Print Assumptions stages_fixed_inputs.
Print Assumptions stages_write_runs.
Print Assumptions stages_complete.
