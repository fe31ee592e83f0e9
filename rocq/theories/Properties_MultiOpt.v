(** Property C47: the stages of an optimization are chained.  Also C46 for several stages. *)
From Coq Require Import String ZArith List Bool Arith Lia SpecFloat.
From Verif Require Import Base BaseFacts FloatOps Tensor Outfile MScan MScanSpec MScanDims Alloc Opt OptSpec OptState OptResid OptRun OptEnd OptMulti
  Properties_Opt Properties_MScan.
Import ListNotations.
Local Open Scope list_scope.
Local Open Scope nat_scope.

Section MultiOpt.
Context {F : Type} (o : fops F) (fsqrt : F -> F) (of_Z : Z -> F) {Y : Type}.
Notation opt := (@stage F (@rest F Y)).
Notation multiopt := (@multiopt F (@rest F Y)).
Variable rt : @routines F Y.
Variable gsl : nat -> opt -> Z -> list F -> list (@event F).
Variable junk : nat -> list F.
Notation run := (run_opt o fsqrt of_Z rt gsl junk).
Notation optimize := (multiopt_optimize o fsqrt of_Z rt gsl junk).

(** No access is out of bounds, for any number of stages. *)
Theorem multiopt_in_bounds : forall (mo : multiopt) why, called_ok rt gsl junk -> stages_ok (mo_opts mo) -> optimize mo <> UB why.
Proof.
  intros mo why ((fit & H1) & H2 & H3) H E. pose proof (multi_safe o fsqrt of_Z rt gsl junk fit H1 H2 H3 mo H) as D. rewrite E in D. exact D.
Qed.

(** The stages are run in the order of the file, each once.  Each is the run of a single
    optimization with the settings of the stage, from the configuration in which the stage before
    ended (the first one: from the configuration read from the file).  The number of evaluations is that of
    all stages. *)
Theorem multiopt_chain : forall (mo mo' : multiopt), called_ok rt gsl junk -> stages_ok (mo_opts mo) -> optimize mo = Ok mo' ->
  length (mo_opts mo') = length (mo_opts mo) /\
  (forall i s s', nth_error (mo_opts mo) i = Some s -> nth_error (mo_opts mo') i = Some s' ->
     exists start l, continues (previous None (mo_opts mo') i) s start /\ input_ok start /\ run start = Ok (s', l) /\
       r_n_evals (st_rest s') = (r_n_evals (st_rest s) + Z.of_nat (length (filter (fun e => negb (fst e)) l)))%Z) /\
  mo_n_evals mo' = fold_left (fun a s => (a + r_n_evals (st_rest s))%Z) (mo_opts mo') (mo_n_evals mo).
Proof.
  intros mo mo' ((fit & H1) & H2 & H3) H E. pose proof (multi_safe o fsqrt of_Z rt gsl junk fit H1 H2 H3 mo H) as D. rewrite E in D. cbn [safe] in D.
  destruct D as (ys & Em & (L & C) & Hn). split; [rewrite Em, map_length; exact L|]. split; [|exact Hn].
  intros i s s' Hi Hi'. rewrite Em, nth_error_map in Hi'. destruct (nth_error ys i) as [[s2 l]|] eqn:Ey; [|discriminate].
  injection Hi' as <-. destruct (C i s s2 l Hi Ey) as (start & A & B & D). exists start, l. rewrite Em.
  split; [exact A|]. split; [exact B|]. split; [exact D|].
  destruct (run_rect o fsqrt of_Z rt gsl junk fit H1 H2 H3 start s2 l B D) as (_ & _ & _ & _ & _ & R & _). cbn [fst]. rewrite R.
  destruct (previous None (map fst ys) i); cbn [continues] in A; subst start; reflexivity.
Qed.

(** The first configuration recorded in a stage is the one in which the stage before ended,
    with new modes that are zero. *)
Theorem multiopt_continues : forall (mo mo' : multiopt), called_ok rt gsl junk -> stages_ok (mo_opts mo) -> optimize mo = Ok mo' ->
  forall i s s0 s', nth_error (mo_opts mo) (S i) = Some s -> nth_error (mo_opts mo') i = Some s0 -> nth_error (mo_opts mo') (S i) = Some s' ->
  0 < r_n_iter (st_rest s') ->
  (forall m, In m varied_numbers -> nth_error (st_iter s' (String.append "iter_" m)) 0 = Some (qo_num (st_q s0) m)) /\
  (forall n a k, In (n, a) recorded_axes -> k < n_modes s0 + st_fourier_refine s ->
     cell (st_iter_axis s' n) k 0 = Some (nth k (get_axis (st_q s0) a) (fzero o))).
Proof.
  intros mo mo' HC H E i s s0 s' Hi H0 Hi' Hn.
  destruct (multiopt_chain mo mo' HC H E) as (L & C & _).
  destruct (C (S i) s s' Hi Hi') as (start & l & A & B & D & _). cbn [previous] in A. rewrite H0 in A. cbn [continues] in A. subst start.
  set (start := with_q _ _ s) in *.
  destruct (optimization_history o fsqrt of_Z rt gsl junk start s' l HC B D) as (Hit & _ & Hs & _).
  assert (Hl : l <> []) by (intros ->; rewrite Hit in Hn; cbn in Hn; lia).
  destruct (first_record_is_start o fsqrt of_Z rt gsl junk start s' l HC B D Hl) as (r & Hr & _ & Hv).
  destruct (Hs 0 r Hr) as (S1 & S2 & _).
  split.
  - intros m Hm.
    specialize (Hv (PNum m) Hm). cbn [value start_value] in Hv. injection Hv as Hv. change (qo_num (st_q start) m) with (qo_num (st_q s0) m) in Hv.
    rewrite <- Hv. apply S1. unfold recorded. right. apply in_or_app. right. apply in_or_app. left. apply in_map_iff. exists m. split; auto.
    cbn in Hm |- *. intuition auto.
  - intros n a k Hna Hk.
    assert (Hk' : k < n_modes start + st_fourier_refine start) by exact Hk.
    specialize (Hv (PAxis a k) I). cbn [value start_value] in Hv.
    rewrite (S2 n a k Hna Hk'), Hv. change (get_axis (st_q start) a) with (get_axis (st_q s0) a). change (st_fourier_refine start) with (st_fourier_refine s).
    assert (La : length (get_axis (st_q s0) a) = n_modes s0) by (apply B).
    destruct (Nat.lt_ge_cases k (length (get_axis (st_q s0) a))) as [Q|Q].
    + rewrite nth_error_app1 by lia. apply nth_error_nth'. exact Q.
    + rewrite nth_error_app2 by lia. rewrite (nth_overflow _ _ Q). rewrite nth_error_repeat; [reflexivity|]. lia.
Qed.

(** If all stages finish, the number of modes after each stage is the initial number and the
    modes added so far; and the lists of varied modes of a stage had the number of entries before it. *)
Theorem multiopt_sizes : forall (mo mo' : multiopt) first, called_ok rt gsl junk -> stages_ok (mo_opts mo) -> optimize mo = Ok mo' ->
  nth_error (mo_opts mo) 0 = Some first ->
  forall i s s', nth_error (mo_opts mo) i = Some s -> nth_error (mo_opts mo') i = Some s' ->
    (forall a, length (get_axis (st_q s') a) = modes_before (n_modes first) (mo_opts mo) (S i)) /\
    (forall a, length (r_vary (st_rest s) a) = modes_before (n_modes first) (mo_opts mo) i).
Proof.
  intros mo mo' first ((fit & H1) & H2 & H3) H E H0 i s s' Hi Hi'.
  pose proof (multi_safe o fsqrt of_Z rt gsl junk fit H1 H2 H3 mo H) as D. rewrite E in D. cbn [safe] in D.
  destruct D as (ys & Em & C & _). rewrite Em, nth_error_map in Hi'. destruct (nth_error ys i) as [[s2 l]|] eqn:Ey; [|discriminate].
  injection Hi' as <-. cbn [fst]. pose proof (chain_sizes o fsqrt of_Z rt gsl junk fit H1 H2 H3 (mo_opts mo) ys C first H0) as Sz.
  split; [apply (Sz i s2 l Ey)|].
  destruct (proj2 C i s s2 l Hi Ey) as (start & A & B & R).
  destruct (run_rect o fsqrt of_Z rt gsl junk fit H1 H2 H3 start s2 l B R) as (_ & Fl & _).
  destruct i as [|i].
  - cbn [previous continues] in A. subst start. rewrite H0 in Hi. injection Hi as ->. intros a. rewrite Fl. unfold modes_before. cbn. apply B.
  - cbn [previous] in A. rewrite nth_error_map in A.
    destruct (nth_error ys i) as [[sp lp]|] eqn:Ep; cbn in A.
    + subst start. intros a. specialize (Fl a). cbn in Fl. rewrite Fl. apply (Sz i sp lp Ep).
    + apply nth_error_None in Ep. assert (S i < length ys) by (apply nth_error_Some; congruence). lia.
Qed.

(** The assumption of the theorems about parameter scans (C36 and others) holds: when the scanned
    optimization finishes, its arrays have the sizes the scan expects. *)
Theorem optimization_shapes : forall (mo_ref : multiopt) dims first, called_ok rt gsl junk -> stages_ok (mo_opts mo_ref) ->
  nth_error (mo_opts mo_ref) 0 = Some first -> (1 <= r_max_iter (st_rest first))%Z ->
  shapes optimize mo_ref dims (n_modes first + st_fourier_refine first).
Proof.
  intros mo_ref dims first ((fit & H1) & H2 & H3) H H0 Hm idx mo mo' Hd Ho.
  eapply (shapes_hold o fsqrt of_Z rt gsl junk fit H1 H2 H3 mo_ref (scan_na mo_ref) dims first H0 H Hm); eauto.
Qed.
(** An optimization with several stages that ends with an exception: it is that of one of the stages, [start], and the stages before it have been run. *)
Theorem multistage_stops : forall (mo : multiopt) w first, called_ok rt gsl junk -> stages_ok (mo_opts mo) -> nth_error (mo_opts mo) 0 = Some first -> optimize mo = Throw w ->
  exists i s start before, nth_error (mo_opts mo) i = Some s /\ optimize (mkMO (firstn i (mo_opts mo)) (mo_n_evals mo)) = Ok before /\
    continues (previous None (mo_opts before) i) s start /\ input_ok start /\ run start = Throw w /\
    n_modes start = modes_before (n_modes first) (mo_opts mo) i /\ same_extra (r_q (st_rest first)) (r_q (st_rest start)).
Proof.
  intros mo w first ((fit & H1) & H2 & H3) [Hn H0] Hf E. destruct (H0 first Hf) as (Hi & Hl). unfold multiopt_optimize in E.
  destruct (run_stages o fsqrt of_Z rt gsl junk None (mo_opts mo) (mo_n_evals mo)) as [z|e|e] eqn:Ez; cbn [bind] in E; try discriminate. injection E as ->.
  destruct (stages_throw o fsqrt of_Z rt gsl junk fit H1 H2 H3 (mo_opts mo) None (mo_n_evals mo) (n_modes first) (r_q (st_rest first)) Hn Hl) with (w := w)
    as (i & s & start & dn & n' & A & B & C & D & X & I & R).
  - apply Hi.
  - intros s Hs. assert (s = first) by congruence. subst s. split; [exact Hi|]. split; [reflexivity|]. split; reflexivity.
  - exact Ez.
  - exists i, s, start, (mkMO (map fst dn) n'). split; [exact A|]. split; [|repeat (split; [assumption|]); assumption].
    unfold multiopt_optimize. cbn [mo_opts mo_n_evals]. cbn [prev_q] in B. rewrite B. reflexivity.
Qed.
(** So the sizes of the lists of varied modes decide: if they are those of the arrays when the stage begins, and each stage varies something and has a term, then only
    an exception of the routines ends the optimization. *)
Theorem multistage_exceptions : forall (mo : multiopt) w first, called_ok rt gsl junk -> stages_ok (mo_opts mo) -> nth_error (mo_opts mo) 0 = Some first ->
  (forall i s, nth_error (mo_opts mo) i = Some s ->
     (forall a, length (r_vary (st_rest s) a) = modes_before (n_modes first) (mo_opts mo) i) /\ (0 <= r_max_iter (st_rest s))%Z /\
     (exists p, free s p) /\ (exists name, In name term_names /\ used o s name = true)) ->
  optimize mo = Throw w ->
  exists q x, q_allocate rt q x = Throw w \/ q_init rt q x = Throw w \/ q_calculate rt q x = Throw w.
Proof.
  intros mo w first HC Hok Hf Hs E. destruct (multistage_stops mo w first HC Hok Hf E) as (i & s & start & before & A & B & C & I & R & M & X).
  destruct (Hs i s A) as (Fl & Mx & (p & Hp) & (name & Hn & Hu)).
  assert (Sm : r_vary (st_rest start) = r_vary (st_rest s) /\ r_max_iter (st_rest start) = r_max_iter (st_rest s) /\ st_num start = st_num s /\ r_vary_num (st_rest start) = r_vary_num (st_rest s)).
  { destruct (previous None (mo_opts before) i); cbn [continues] in C; subst start; cbn; auto. }
  destruct Sm as (E1 & E2 & E3 & E4).
  destruct (optimization_exceptions o fsqrt of_Z rt gsl junk start w HC I R) as [G|[(G & _)|[(a & G & _)|[(G & _)|(G & _)]]]].
  - exact G.
  - rewrite E2 in G. lia.
  - exfalso. apply G. rewrite E1, Fl, (proj1 I a), M. reflexivity.
  - exfalso. apply (G p). destruct p as [m|a k]; cbn [free] in *; [rewrite E4|rewrite E1]; exact Hp.
  - exfalso. specialize (G name Hn). unfold used in *. rewrite E3 in G. congruence.
Qed.
End MultiOpt.
Print Assumptions multistage_stops.
Print Assumptions multistage_exceptions.
Print Assumptions multiopt_in_bounds.
Print Assumptions multiopt_chain.
Print Assumptions multiopt_continues.
Print Assumptions multiopt_sizes.
Print Assumptions optimization_shapes.

(** ** Examples *)
Definition ex_stage2 : @stage spec_float (@rest spec_float unit) :=
  mkStage ex_weights ex_q (fun _ => []) (fun _ => mkMatrix 0 0 0 []) 0
    (ex_rest 3%Z (fun a => match a with R0c => [false; true; true] | _ => [false; false; false] end) []).
Definition ex_multi : @multiopt spec_float (@rest spec_float unit) := mkMO [ex_opt; ex_stage2] 0%Z.
Notation ex_optimize := (multiopt_optimize D_ops (fun v => v) d_of_Z ex_rt ex_gsl ex_junk).
Lemma ex_multi_ok : stages_ok (mo_opts ex_multi).
Proof.
  split; [constructor; [split; [right; reflexivity|limits_tac]|constructor; [split; [left; reflexivity|limits_tac]|constructor]]|].
  intros s [= <-]. split; [apply ex_input|limits_tac].
Qed.
Example ex_multi_runs : exists mo', ex_optimize ex_multi = Ok mo' /\ mo_n_evals mo' = 6%Z /\
  map (fun s => (r_n_iter (st_rest s), length (qo_R0c (st_q s)))) (mo_opts mo') = [(4, 3); (2, 3)] /\
  map (fun s => option_map (fun v => SFeqb v (d_of_Z 4)) (nth_error (st_iter s "iter_eta_bar"%string) 0)) (mo_opts mo') = [Some false; Some true].
Proof.
  observe (ex_optimize ex_multi) (fun mo' : @multiopt spec_float (@rest spec_float unit) => (mo_n_evals mo', map (fun s => (r_n_iter (st_rest s), length (qo_R0c (st_q s)))) (mo_opts mo'),
    map (fun s => option_map (fun v => SFeqb v (d_of_Z 4)) (nth_error (st_iter s "iter_eta_bar"%string) 0)) (mo_opts mo')))
    (6%Z, [(4, 3); (2, 3)], [Some false; Some true]) mo' E H. injection H as H1 H2 H3. exists mo'. auto.
Qed.
Example ex_shapes : shapes ex_optimize ex_multi [] 3.
Proof. apply (optimization_shapes D_ops (fun v => v) d_of_Z ex_rt ex_gsl ex_junk ex_multi [] ex_opt called_example ex_multi_ok eq_refl). cbn. lia. Qed.

(** Finding: lists of varied modes of the wrong size are rejected only when their stage is
    reached.  Among them are the default lists, which have the size of the initial arrays: a file with two
    stages whose first one refines and whose second one has no lists (here: two entries per list, as
    the initial arrays) is rejected after the evaluations of the first stage. *)
Definition ex_default : @stage spec_float (@rest spec_float unit) :=
  mkStage ex_weights ex_q (fun _ => []) (fun _ => mkMatrix 0 0 0 []) 0 (ex_rest 3%Z ex_vary []).
Theorem later_stage_flags_rejected_early_refuted : exists mo s1 l,
  stages_ok (mo_opts mo) /\ Forall flagged (mo_opts mo) /\
  nth_error (mo_opts mo) 0 = Some ex_opt /\ ex_run ex_opt = Ok (s1, l) /\ l <> [] /\
  ex_optimize mo = Throw "Size of vary_R0c is incorrect"%string.
Proof.
  destruct ex_runs as (s1 & l & E & L & _).
  exists (mkMO [ex_opt; ex_default] 0%Z), s1, l.
  split.
  { split; [constructor; [split; [right; reflexivity|limits_tac]|constructor; [split; [left; reflexivity|limits_tac]|constructor]]|].
    intros s [= <-]. split; [apply ex_input|limits_tac]. }
  split; [repeat constructor; intros []; reflexivity|]. split; [reflexivity|]. split; [exact E|].
  split; [intros ->; discriminate L|]. vm_compute. reflexivity.
Qed.
Print Assumptions later_stage_flags_rejected_early_refuted.
