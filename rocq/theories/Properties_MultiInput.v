(** C108: an optimization in several stages from its input file to its output files. *)
From Coq Require Import String ZArith List Arith Bool Lia Reals.
From Verif Require Import Base BaseFacts FloatOps MathOps Tensor Newton RSing Axis AxisSpec Alloc AllocSpec AllocFacts Toml TomlSpec TomlFacts Options OptionsSpec
  NetCDF NetCDFOut NetCDFSpec NetCDFFacts NetCDFRead.
From Verif Require Import Run RunSpec RunFacts RunSafe RunInput MScan Opt OptSpec OptState OptResid OptRun OptEnd OptMulti OptFixed OptQsc Properties_Opt Properties_MultiOpt Properties_NetCDF Properties_RSing
  HelicityFacts Properties_RunSafe GridFacts ScanInput Properties_OptQsc Properties_MultiQsc Properties_ScanInput OptInput Properties_OptInput MultiInput.
Import ListNotations.
Local Open Scope string_scope.
Local Open Scope nat_scope.

(** ** Specification *)
Section Spec.
Context {F : Type} (o : fops F) (mo : mops F) (point4 point3 newton_tol : F).
Notation members := (members F).
Notation opt := (@stage F (@rest F members)).
Notation store := (Toml.store F).
Notation inputs := (opt_inputs o mo point4 point3 newton_tol).
(** The tables "qsc" and "opt" followed by [i] are read as [sq] and [so] (C107). *)
Definition stage_read (tq : Toml.table F) (tx : nat -> option (Toml.table F)) (sq so : store) (i : nat) : Prop :=
  exists t alg dm, tx i = Some t /\ inputs tq t = Ok (sq, (so, alg, dm)).
(** Input of [n] stages for which the arithmetic on integers does not overflow. *)
Definition acceptable_stages (sq : store) (so : nat -> store) (n : nat) : Prop :=
  OptSpec.limits (length (v_vec sq "R0c") + list_sum (map (fun i => Z.to_nat (v_int (so i) "fourier_refine")) (seq 0 n))) (v_int sq "nfp") /\ nphi_limits (v_int sq "nphi") /\
  forall i, i < n -> (0 <= v_int (so i) "fourier_refine")%Z /\ Forall nphi_limits (v_ints (so i) "nphi").
(** The inputs that are not varied are those of the table "qsc". *)
Definition table_fixed (sq : store) (c : members) : Prop :=
  (forall x, In x fixed_ints -> m_int F c x = v_int sq x) /\ (forall x, In x fixed_floats -> m_float F c x = v_float o sq x) /\ m_text F c "order_r_option" = v_str sq "order_r_option".
(** The numbers and the arrays at the beginning of stage [i], if the objects [done] are the stages at their end: those of the table for the first stage, otherwise those of the
    stage before. *)
Definition number_before (sq : store) (done : list opt) (i : nat) (x : string) : F :=
  match i with O => v_float o sq x | S k => match nth_error done k with Some r => m_float F (config r) x | None => fzero o end end.
Definition array_before (sq : store) (done : list opt) (i : nat) (a : string) : list F :=
  match i with O => v_vec sq a | S k => match nth_error done k with Some r => m_array F (config r) a | None => [] end end.
(** The configuration [c] is that of the beginning, but for what the table [so] of the stage lets vary in step [j] of its refinement. *)
Definition varied_from (so : store) (number : string -> F) (array : string -> list F) (j : nat) (c : members) : Prop :=
  (forall x, In x varied_numbers -> v_bool so (String.append "vary_" x) = false -> m_float F c x = number x) /\
  forall a, In a axis_keys -> let n := length (array a) in length (m_array F c a) = n + Z.to_nat (v_int so "fourier_refine") /\
    forall k, ~ mode_varied so n j a k -> nth k (m_array F c a) (fzero o) = nth k (array a) (fzero o).
(** The configuration [c] is that of the beginning, with zeros for the new modes. *)
Definition starts_from (so : store) (number : string -> F) (array : string -> list F) (c : members) : Prop :=
  (forall x, In x varied_numbers -> m_float F c x = number x) /\
  forall a, In a axis_keys -> m_array F c a = (array a ++ repeat (fzero o) (Z.to_nat (v_int so "fourier_refine")))%list.
End Spec.

(** ** Evaluations *)
Lemma axis_of {F : Type} (a : string) : In a axis_keys -> exists b, axis_name b = a /\ (forall s : @stage F (@rest F (members F)), m_array F (config s) a = get_axis (st_q s) b) /\ (In a ["R0c"; "Z0s"] <-> (b = Opt.R0c \/ b = Opt.Z0s)).
Proof.
  intros Ha. destruct Ha as [<-|[<-|[<-|[<-|[]]]]]; [exists Opt.R0c|exists Opt.R0s|exists Opt.Z0c|exists Opt.Z0s]; (split; [reflexivity|split; [reflexivity|cbn; split; intros HH0; intuition discriminate]]).
Qed.
Section Evaluations.
Context {F : Type} (o : fops F) (mo : mops F).
Variables (ge0 : F -> bool) (newton_tol mu0 : F) (newton_linear_solve : (nat -> nat -> F) -> list F -> outcome (list F))
  (linear_solve : matrix F -> list F -> outcome (list F)) (geev : list F -> Z * (list F * list F)) (tol : tolerances F) (finite : F -> bool).
Notation members := (members F).
Notation opt := (@stage F (@rest F members)).
Variable gsl : nat -> opt -> Z -> list F -> list (@event F).
Variable junk : nat -> list F.
Notation run := (run_opt o (m_sqrt mo) (m_of_Z mo) (qsc_routines o mo ge0 mu0 newton_linear_solve linear_solve geev tol finite) gsl junk).
Hypothesis solvers : solvers_ok newton_linear_solve linear_solve.
Hypothesis gsl_calls : gsl_ok gsl.
Hypothesis junk_size : forall n, length (junk n) = n.

Lemma evaluation_inputs (s s' : opt) l so : input_ok s -> run s = Ok (s', l) ->
  st_fourier_refine s = Z.to_nat (v_int so "fourier_refine") -> r_nphi (st_rest s) = v_ints so "nphi" ->
  (forall x, r_vary_num (st_rest s) x = v_bool so (String.append "vary_" x)) -> (forall a, r_vary (st_rest s) a = v_bools so (String.append "vary_" (axis_name a))) ->
  (forall b r, In (b, r) l -> let j := r_j_fourier_refine (st_rest r) in j <= st_fourier_refine s /\
     m_int F (config r) "nphi" = odd_nphi (nth j (v_ints so "nphi") (m_int F (config s) "nphi")) /\ same_fixed (config r) (config s) /\
     varied_from o so (m_float F (config s)) (m_array F (config s)) j (config r) /\ st_num r = st_num s) /\
  (l <> [] -> exists r, nth_error (map snd (filter fst l)) 0 = Some r /\ starts_from o so (m_float F (config s)) (m_array F (config s)) (config r)).
Proof.
  intros Hok E Hfr Hnp Hvn Hva.
  pose proof (calculation_called_ok o mo ge0 newton_tol mu0 newton_linear_solve linear_solve geev tol finite gsl junk solvers gsl_calls junk_size) as HC.
  destruct (fixed_inputs_kept o mo ge0 mu0 newton_linear_solve linear_solve geev tol finite gsl junk s s' l E) as (_ & Fx). split.
  - intros b r Hr j. destruct (refinement_step o (m_sqrt mo) (m_of_Z mo) _ gsl junk s s' l b r HC Hok E Hr) as (Lj & _ & Sz & Fixed & Np & _). fold j in Lj, Fixed, Np.
    split; [exact Lj|]. split; [|split; [exact (Fx b r Hr)|split; [split|]]].
    + change (m_int F (config r) "nphi") with (qx_nphi (r_q (st_rest r))). rewrite Np. unfold nphi_in. rewrite Hnp. change (qx_nphi (r_q (st_rest s))) with (m_int F (config s) "nphi").
      destruct (nth_error (v_ints so "nphi") j) as [z|] eqn:En; [rewrite (nth_error_nth _ _ _ En); reflexivity|]. apply nth_error_None in En. rewrite nth_overflow by exact En. reflexivity.
    + intros x Hx Hv. assert (V : value (st_q r) (PNum x) = start_value o s (PNum x)).
      { apply Fixed; [exact Hx|]. intros [(_ & Fv)|(a & k & Ep & _)]; [|discriminate]. rewrite Hvn in Fv. congruence. }
      cbn [value start_value] in V. injection V as V. exact V.
    + intros a Ha n0. destruct (axis_of (F:=F) a Ha) as (b0 & Nb & Eb & Ib).
      assert (Ln : n_modes s = n0) by (unfold n0; rewrite Eb; symmetry; apply Hok).
      split; [rewrite Eb, Sz, Ln, Hfr; reflexivity|]. intros k Hk. rewrite !Eb.
      assert (V : value (st_q r) (PAxis b0 k) = start_value o s (PAxis b0 k)).
      { apply Fixed; [exact I|]. intros [Fv|(a' & k' & Ep & Ia & Kk)]; apply Hk.
        - left. cbn [free] in Fv. rewrite Hva, Nb in Fv. apply nth_error_nth. exact Fv.
        - injection Ep as <- <-. right. rewrite Ln in Kk. split; [apply Ib; exact Ia|exact Kk]. }
      cbn [value start_value] in V. unfold n0 in *. rewrite Eb in *.
      destruct (nth_error (get_axis (st_q r) b0) k) as [v|] eqn:Ev.
      * rewrite (nth_error_nth _ _ _ Ev). symmetry in V. destruct (Nat.lt_ge_cases k (length (get_axis (st_q s) b0))) as [Kl|Kl].
        -- rewrite nth_error_app1 in V by exact Kl. symmetry. apply nth_error_nth. exact V.
        -- rewrite nth_error_app2 in V by exact Kl. rewrite (nth_overflow (get_axis (st_q s) b0)) by exact Kl. apply nth_error_In, repeat_spec in V. exact V.
      * symmetry in V. apply nth_error_None in Ev, V. rewrite app_length in V. rewrite !nth_overflow by lia. reflexivity.
    + pose proof (run_opt_safe o (m_sqrt mo) (m_of_Z mo) _ gsl junk (fit o) (qsc_routines_ok o mo ge0 newton_tol mu0 newton_linear_solve linear_solve geev tol finite solvers) gsl_calls junk_size s Hok) as D.
      rewrite E in D. cbn [safe] in D. destruct D as (s1 & _ & _ & S & _ & _ & _ & _ & _ & _ & _ & [_ _ L _ _ _]). cbn [fst snd] in L.
      pose proof (proj1 (Forall_forall _ _) (lo_entry _ _ _ _ _ _ _ L) _ Hr) as (_ & Ac & _). cbn [snd] in Ac.
      rewrite (ph_num _ _ _ _ (ac_phase _ _ _ _ _ _ _ Ac)). apply S.
  - intros Hl. destruct (first_record_is_start o (m_sqrt mo) (m_of_Z mo) _ gsl junk s s' l HC Hok E Hl) as (r & Hr & Jr & V). exists r. split; [exact Hr|]. split.
    + intros x Hx. specialize (V (PNum x) Hx). cbn [value start_value] in V. injection V as V. exact V.
    + intros a Ha. destruct (axis_of (F:=F) a Ha) as (b0 & Nb & Eb & _). rewrite !Eb, <- Hfr. apply nth_error_ext. intros k. exact (V (PAxis b0 k) I).
Qed.
End Evaluations.

(** ** Reading *)
Section Reading.
Context {F : Type} (o : fops F) (mo : mops F) (point4 point3 newton_tol : F).
Notation members := (members F).
Notation opt := (@stage F (@rest F members)).
Notation store := (Toml.store F).
Notation nopts t := (multiopt_input_nopts (m_of_Z mo) t 0).
Notation stage_read := (stage_read o mo point4 point3 newton_tol).
Notation stages := (read_stages o mo point4 point3 newton_tol).
Lemma stages_are tq tx sq (so : nat -> store) e s0 n : forall j, (forall i, i < n -> stage_read tq tx sq (so (j + i)) (j + i)) -> (forall i, i < n -> (0 <= v_int (so (j + i)%nat) "fourier_refine")%Z) ->
  exists l, stages tq tx e s0 j n = Ok l /\ length l = n /\
    forall i t, nth_error l i = Some t -> exists t0 alg dm, tx (j + i) = Some t0 /\ opt_inputs o mo point4 point3 newton_tol tq t0 = Ok (sq, (so (j + i), alg, dm)) /\
      t = stage_object mo (so (j + i)) alg dm (load sq (constructed o (e (j + i)))) (s0 (j + i)).
Proof.
  induction n as [|n IH]; intros j H Hf; cbn [read_stages].
  - exists []. split; [reflexivity|]. split; [reflexivity|]. intros [|i] t Ht; discriminate Ht.
  - destruct (H 0 ltac:(lia)) as (t & alg & dm & Ht & Hi). rewrite Nat.add_0_r in *. rewrite Ht. cbn [bind]. rewrite Hi. cbn [bind].
    specialize (Hf 0 ltac:(lia)) as Hf0. rewrite Nat.add_0_r in Hf0. destruct (Z.ltb_spec (v_int (so j) "fourier_refine") 0) as [K|_]; [lia|].
    destruct (IH (S j)) as (l & -> & L & E).
    { intros i Hl. replace (S j + i) with (j + S i) by lia. apply H. lia. }
    { intros i Hl. replace (S j + i) with (j + S i) by lia. apply Hf. lia. }
    cbn [bind]. eexists. split; [reflexivity|]. split; [cbn [length]; rewrite L; reflexivity|].
    intros [|i] t' Ht'; cbn [nth_error] in Ht'.
    + injection Ht' as <-. exists t, alg, dm. rewrite Nat.add_0_r. auto.
    + destruct (E i t' Ht') as (t0 & alg' & dm' & X). exists t0, alg', dm'. replace (S j + i) with (j + S i) in X by lia. exact X.
Qed.
Lemma stages_limits sq so n (l : list opt) (Hl : length l = n) : forall j, (forall i t, nth_error l i = Some t -> st_fourier_refine t = Z.to_nat (v_int (so (j + i)) "fourier_refine")) ->
  fold_right Nat.add (length (v_vec (F:=F) sq "R0c")) (map (@st_fourier_refine F _) l) = length (v_vec sq "R0c") + list_sum (map (fun i => Z.to_nat (v_int (F:=F) (so i) "fourier_refine")) (seq j n)).
Proof.
  revert n Hl. induction l as [|t l IH]; intros n <- j H; [cbn; lia|]. cbn [length seq map fold_right list_sum].
  rewrite (IH (length l) eq_refl (S j)).
  - rewrite (H 0 t eq_refl), Nat.add_0_r. unfold list_sum. cbn [fold_right]. lia.
  - intros i t' Ht. replace (S j + i) with (j + S i) by lia. apply H. exact Ht.
Qed.
Lemma read_ok tm tq tx n sq so e s0 : nopts tm = Ok n -> (forall i, i < Z.to_nat n -> stage_read tq tx sq (so i) i) -> acceptable_stages sq so (Z.to_nat n) ->
  exists l, multi_input o mo point4 point3 newton_tol tm tq tx e s0 = Ok (mkMO l 0%Z) /\ length l = Z.to_nat n /\ stages_ok l /\
    (forall i t, nth_error l i = Some t -> exists t0 alg dm, tx i = Some t0 /\ opt_inputs o mo point4 point3 newton_tol tq t0 = Ok (sq, (so i, alg, dm)) /\
       t = stage_object mo (so i) alg dm (load sq (constructed o (e i))) (s0 i)) /\
    (forall first, nth_error l 0 = Some first -> ints_fit (config first) /\ m_int F (config first) "nphi" = v_int sq "nphi" /\ table_fixed o sq (config first) /\
       (forall x, In x varied_numbers -> m_float F (config first) x = v_float o sq x) /\ (forall a, In a axis_keys -> m_array F (config first) a = v_vec sq a)).
Proof.
  intros Hn H (A1 & A2 & A3). destruct (stages_are tq tx sq so e s0 (Z.to_nat n) 0 H (fun i Hi => proj1 (A3 i Hi))) as (l & E & L & T). cbn [Nat.add] in T.
  exists l. unfold multi_input. rewrite Hn. cbn [bind]. rewrite E. cbn [bind]. split; [reflexivity|]. split; [exact L|].
  assert (Tot : forall m, fold_right Nat.add m (map (@st_fourier_refine F _) l) = m + list_sum (map (fun i => Z.to_nat (v_int (so i) "fourier_refine")) (seq 0 (Z.to_nat n))) \/ m <> length (v_vec sq "R0c")).
  { intros m. destruct (Nat.eq_dec m (length (v_vec sq "R0c"))) as [->|N]; [left|right; exact N]. apply stages_limits; [exact L|].
    intros i t Ht. destruct (T i t Ht) as (_ & alg & dm & _ & _ & ->). reflexivity. }
  assert (F1 : forall first, nth_error l 0 = Some first -> input_ok first /\ ints_fit (config first) /\ n_modes first = length (v_vec sq "R0c") /\
    (forall x, In (x, KInt) qsc_keys -> m_int F (config first) x = v_int sq x) /\ (forall x, In (x, KFloat) qsc_keys -> m_float F (config first) x = v_float o sq x) /\
    m_text F (config first) "order_r_option" = v_str sq "order_r_option" /\ (forall a, get_axis (st_q first) a = v_vec sq (axis_name a))).
  { intros first Hf. destruct (T 0 first Hf) as (_ & alg & dm & _ & _ & ->). assert (N0 : 0 < Z.to_nat n) by (rewrite <- L; apply nth_error_Some; congruence).
    destruct (H 0 N0) as (t & alg' & dm' & _ & Hi).
    assert (A : acceptable_opt sq (so 0)).
    { destruct (A3 0 N0) as (B1 & B2). split; [exact B1|]. split; [|split; [exact A2|exact B2]].
      destruct (inputs_parts o mo point4 point3 newton_tol _ _ _ _ _ _ Hi) as (_ & _ & (m & M & Ax) & _).
      eapply limits_mono; [|rewrite (proj2 (Ax "R0c" (or_introl eq_refl))); lia|exact A1].
      destruct (Z.to_nat n) as [|k]; [lia|]. cbn [seq map list_sum]. unfold list_sum. cbn [fold_right]. lia. }
    exact (object_input_ok o mo point4 point3 newton_tol tq t sq (so 0) alg' dm' (e 0) (s0 0) Hi A). }
  split; [|split; [exact T|]].
  - split.
    + apply Forall_forall. intros t Ht. apply In_nth_error in Ht as (i & Ht). assert (Hi : i < Z.to_nat n) by (rewrite <- L; apply nth_error_Some; congruence).
      destruct (H i Hi) as (t' & alg' & dm' & _ & Hin). destruct (inputs_parts o mo point4 point3 newton_tol _ _ _ _ _ _ Hin) as (_ & _ & _ & (_ & _ & _ & _ & nphi & fr & E1 & E2 & E3)).
      destruct (T i t Ht) as (_ & alg & dm & _ & _ & ->). destruct (A3 i Hi) as (B1 & B2). split; [|exact B2]. cbn [stage_object opt_object st_rest r_nphi st_fourier_refine].
      unfold v_ints, v_int in *. rewrite E1, E2 in *. destruct E3 as [->|E3]; [left; reflexivity|right]. lia.
    + intros first Hf. destruct (F1 first Hf) as (I1 & _ & I3 & I4 & _). split; [exact I1|]. unfold modes_before. rewrite firstn_all. destruct (Tot (n_modes first)) as [->|K]; [|contradiction].
      rewrite I3. change (qx_nfp (r_q (st_rest first))) with (m_int F (config first) "nfp"). rewrite I4 by (cbn; tauto). exact A1.
  - intros first Hf. destruct (F1 first Hf) as (_ & I2 & _ & I4 & I5 & I6 & I7). split; [exact I2|]. split; [apply I4; cbn; tauto|]. split; [split; [|split; [|exact I6]]|split].
    + intros x Hx. apply I4. repeat (destruct Hx as [<-|Hx]; [cbn; tauto|]). destruct Hx.
    + intros x Hx. apply I5. repeat (destruct Hx as [<-|Hx]; [cbn; tauto|]). destruct Hx.
    + intros x Hx. apply I5. repeat (destruct Hx as [<-|Hx]; [cbn; tauto|]). destruct Hx.
    + intros a Ha. destruct (axis_of (F:=F) a Ha) as (b & <- & -> & _). apply I7.
Qed.
End Reading.

(** ** Stages *)
Section Stages.
Context {F : Type} (o : fops F) (mo : mops F) (point4 point3 : F).
Variables (ge0 : F -> bool) (newton_tol mu0 : F) (newton_linear_solve : (nat -> nat -> F) -> list F -> outcome (list F))
  (linear_solve : matrix F -> list F -> outcome (list F)) (geev : list F -> Z * (list F * list F)) (tol : tolerances F) (finite : F -> bool).
Notation members := (members F).
Notation opt := (@stage F (@rest F members)).
Notation store := (Toml.store F).
Notation multiopt := (@MScan.multiopt F (@rest F members)).
Notation run_gives := (run_gives o mo ge0 newton_tol mu0 newton_linear_solve linear_solve geev tol finite).
Variable gsl : nat -> opt -> Z -> list F -> list (@event F).
Variable junk : nat -> list F.
Notation nopts t := (multiopt_input_nopts (m_of_Z mo) t 0).
Notation stage_read := (stage_read o mo point4 point3 newton_tol).
Notation program := (multi_program o mo point4 point3 newton_tol ge0 mu0 newton_linear_solve linear_solve geev tol finite gsl junk).
Hypothesis solvers : solvers_ok newton_linear_solve linear_solve.
Hypothesis gsl_calls : gsl_ok gsl.
Hypothesis junk_size : forall n, length (junk n) = n.

(** An optimization in several stages has defined behaviour if its tables can be read and the conditions above hold. *)
Theorem multi_program_defined : forall tm tq tx n sq so e s0 why, nopts tm = Ok n -> (forall i, i < Z.to_nat n -> stage_read tq tx sq (so i) i) -> acceptable_stages sq so (Z.to_nat n) ->
  program tm tq tx e s0 <> UB why.
Proof.
  intros tm tq tx n sq so e s0 why Hn H A E. destruct (read_ok o mo point4 point3 newton_tol tm tq tx n sq so e s0 Hn H A) as (l & El & _ & Sok & _). unfold multi_program in E. rewrite El in E. cbn [bind] in E.
  exact (stages_defined o mo ge0 newton_tol mu0 newton_linear_solve linear_solve geev tol finite gsl junk solvers gsl_calls junk_size (mkMO l 0%Z) why Sok E).
Qed.

(** From the input file to the output files.  There are as many stages as the table "multiopt" says.  In each stage: the inputs that cannot be varied are those of the table "qsc";
    each configuration evaluated has, but for what the table of this stage lets vary, the numbers and the modes with which the stage before ended, or of the table "qsc" for the
    first stage; the weights and targets, the algorithm and the differences used
    are those of the table of this stage; the first configuration reported is the one with which the stage before ended; and the file of the
    stage contains the file of a run for its last configuration, and for each configuration reported what a run for it alone writes. *)
Theorem multi_from_input_to_output : forall tm tq tx n sq so e s0 s',
  nopts tm = Ok n -> (forall i, i < Z.to_nat n -> stage_read tq tx sq (so i) i) -> acceptable_stages sq so (Z.to_nat n) -> program tm tq tx e s0 = Ok s' ->
  length (mo_opts s') = Z.to_nat n /\ (1 <= n)%Z /\
  forall i r hist, nth_error (mo_opts s') i = Some r -> 0 < r_n_iter (st_rest r) -> holds_history r (config r) hist ->
    table_fixed o sq (config r) /\
    exists l t alg dm fq f new, let reported := map snd (filter fst l) in let number := number_before o sq (mo_opts s') i in let array := array_before sq (mo_opts s') i in
      tx i = Some t /\ opt_inputs o mo point4 point3 newton_tol tq t = Ok (sq, (so i, alg, dm)) /\
      length reported = r_n_iter (st_rest r) /\ (Z.of_nat (length reported) <= v_int (so i) "max_iter")%Z /\
      (forall b c, In (b, c) l -> let j := r_j_fourier_refine (st_rest c) in (Z.of_nat j <= v_int (so i) "fourier_refine")%Z /\ table_fixed o sq (config c) /\
         varied_from o (so i) number array j (config c) /\ (forall x, In (x, KFloat) opt_keys -> st_num c x = v_float o (so i) x) /\
         st_num c "algorithm" = m_of_Z mo (algorithm_code alg) /\ st_num c "diff_method" = m_of_Z mo (diff_method_code dm)) /\
      (exists c, nth_error reported 0 = Some c /\ starts_from o (so i) number array (config c)) /\
      (exists b c, In (b, c) l /\ config c = config r) /\
      run_gives (config r) fq /\ opt_write_netcdf F (m_of_Z mo) (config r) hist = Ok f /\ f_vars F f = (f_vars F fq ++ new)%list /\
      forall k c, nth_error reported k = Some c -> exists fc, run_gives (config c) fc /\
        forall h x, In (h, x) (reported_first ++ reported_second) -> exists v, element F f h [k] v /\ element F fc x [] v.
Proof.
  intros tm tq tx n sq so e s0 s' Hn H A E. destruct (read_ok o mo point4 point3 newton_tol tm tq tx n sq so e s0 Hn H A) as (l0 & El & L0 & Sok & T & F1). unfold multi_program in E. rewrite El in E. cbn [bind] in E.
  pose proof (calculation_called_ok o mo ge0 newton_tol mu0 newton_linear_solve linear_solve geev tol finite gsl junk solvers gsl_calls junk_size) as HC.
  destruct (multiopt_chain o (m_sqrt mo) (m_of_Z mo) _ gsl junk (mkMO l0 0%Z) s' HC Sok E) as (L & C & _). cbn [mo_opts] in *.
  assert (N1 : (1 <= n)%Z).
  { revert Hn. unfold multiopt_input_nopts. intros Hn. destruct (read_section _ _ _ _) as [s| |]; cbn [bind] in Hn; try discriminate. destruct (int_of _) as [z| |]; cbn [bind] in Hn; try discriminate.
    destruct (Z.ltb_spec z 1); [discriminate|]. assert (z = n) by congruence. lia. }
  split; [rewrite L; exact L0|]. split; [exact N1|]. intros i r hist Hr Hit HH.
  assert (Hi : i < Z.to_nat n) by (rewrite <- L0, <- L; apply nth_error_Some; congruence).
  destruct (nth_error l0 0) as [first|] eqn:Ef; [|apply nth_error_None in Ef; lia]. destruct (F1 first eq_refl) as (Fi & _ & Ft & Fn & Fa).
  destruct (nth_error l0 i) as [t|] eqn:Et; [|apply nth_error_None in Et; lia]. destruct (T i t Et) as (tt0 & alg & dm & Tt & Tin & Ett).
  pose proof (stages_fixed_inputs o mo ge0 newton_tol mu0 newton_linear_solve linear_solve geev tol finite gsl junk solvers gsl_calls junk_size (mkMO l0 0%Z) s' first Sok E Ef) as Sf.
  assert (Tf : forall c : members, same_fixed c (config first) -> table_fixed o sq c).
  { intros c (X1 & X2 & X3). destruct Ft as (Y1 & Y2 & Y3). split; [|split; [|congruence]]; intros x Hx; [rewrite X1 by exact Hx; apply Y1; exact Hx|rewrite X2 by exact Hx; apply Y2; exact Hx]. }
  split; [apply Tf; exact (Sf i r Hr)|].
  destruct (stages_write_runs o mo ge0 newton_tol mu0 newton_linear_solve linear_solve geev tol finite gsl junk solvers gsl_calls junk_size (mkMO l0 0%Z) s' first Sok E Ef Fi i t r hist Et Hr Hit HH)
    as (start & l & fq & f & new & Cn & Rn & W1 & W2 & W3 & W4). cbn [mo_opts] in *.
  assert (Iok : input_ok start).
  { destruct (C i t r Et Hr) as (start' & l' & A' & B' & _). assert (start' = start); [|congruence]. destruct (previous None (mo_opts s') i); cbn [continues] in *; congruence. }
  assert (St : st_fourier_refine start = st_fourier_refine t /\ r_nphi (st_rest start) = r_nphi (st_rest t) /\ r_vary_num (st_rest start) = r_vary_num (st_rest t) /\ r_vary (st_rest start) = r_vary (st_rest t) /\
    st_num start = st_num t /\ r_max_iter (st_rest start) = r_max_iter (st_rest t)) by (destruct (previous None (mo_opts s') i); cbn [continues] in Cn; subst start; cbn; auto 8).
  destruct St as (S1 & S2 & S3 & S4 & S5 & S6).
  pose proof (start_config _ _ _ Cn) as Cs.
  assert (Sfx : same_fixed (config start) (config first)).
  { rewrite Cs. destruct i as [|i]; cbn [previous].
    - assert (Etf : t = first) by congruence. rewrite Etf. apply same_fixed_refl.
    - destruct (nth_error (mo_opts s') i) as [r0|] eqn:E0; [exact (Sf i r0 E0)|]. apply nth_error_None in E0. lia. }
  assert (Nb : forall x, In x varied_numbers -> m_float F (config start) x = number_before o sq (mo_opts s') i x).
  { intros x Hx. rewrite Cs. destruct i as [|i]; cbn [previous number_before].
    - assert (Etf : t = first) by congruence. rewrite Etf. apply Fn. exact Hx.
    - destruct (nth_error (mo_opts s') i) as [r0|] eqn:E0; [reflexivity|]. apply nth_error_None in E0. lia. }
  assert (Ab : forall a, In a axis_keys -> m_array F (config start) a = array_before sq (mo_opts s') i a).
  { intros a Ha. rewrite Cs. destruct i as [|i]; cbn [previous array_before].
    - assert (Etf : t = first) by congruence. rewrite Etf. apply Fa. exact Ha.
    - destruct (nth_error (mo_opts s') i) as [r0|] eqn:E0; [reflexivity|]. apply nth_error_None in E0. lia. }
  destruct (evaluation_inputs o mo ge0 newton_tol mu0 newton_linear_solve linear_solve geev tol finite gsl junk solvers gsl_calls junk_size start r l (so i) Iok Rn) as (Ev & First).
  { rewrite S1, Ett. reflexivity. } { rewrite S2, Ett. reflexivity. } { intros x. rewrite S3, Ett. reflexivity. } { intros a. rewrite S4, Ett. reflexivity. }
  destruct (optimization_history o (m_sqrt mo) (m_of_Z mo) _ gsl junk start r l HC Iok Rn) as (Nit & Mx & _).
  assert (Hl : l <> []) by (intros ->; cbn in Nit; lia).
  exists l, tt0, alg, dm, fq, f, new. cbv zeta. split; [exact Tt|]. split; [exact Tin|]. split; [symmetry; exact Nit|]. split; [rewrite S6, Ett in Mx; exact Mx|]. split; [|split; [|split; [|split; [exact W1|split; [exact W2|split; [exact W3|exact W4]]]]]].
  - intros b c Hc. set (j := r_j_fourier_refine (st_rest c)). destruct (Ev b c Hc) as (Lj & _ & Sx & (V1 & V2) & Sn). fold j in Lj, V2. destruct A as (_ & _ & A3). destruct (A3 i Hi) as (B1 & _).
    split; [rewrite S1, Ett in Lj; cbn [stage_object opt_object st_fourier_refine] in Lj; lia|]. split; [apply Tf; eapply same_fixed_trans; eassumption|]. split; [split|split; [|rewrite Sn, S5, Ett; split; reflexivity]].
    + intros x Hx Hv. rewrite V1 by assumption. apply Nb. exact Hx.
    + intros a Ha. specialize (V2 a Ha). rewrite (Ab a Ha) in V2. exact V2.
    + intros x Hx. destruct (inputs_parts o mo point4 point3 newton_tol _ _ _ _ _ _ Tin) as (_ & _ & _ & Ro).
      rewrite Sn, S5, Ett. cbn [stage_object opt_object st_num]. rewrite (opt_floats o mo point4 point3 _ _ _ _ _ Ro x Hx).
      assert (Nx : String.eqb x "algorithm" = false /\ String.eqb x "diff_method" = false).
      { unfold opt_keys in Hx. cbn [map app opt_weight_keys] in Hx. repeat (destruct Hx as [Hx|Hx]; [first [discriminate Hx|injection Hx as <-; split; reflexivity]|]). destruct Hx. }
      destruct Nx as (-> & ->). reflexivity.
  - destruct (First Hl) as (c & Hc & V1 & V2). exists c. split; [exact Hc|]. split; [intros x Hx; rewrite V1 by exact Hx; apply Nb; exact Hx|intros a Ha; rewrite V2 by exact Ha; rewrite (Ab a Ha); reflexivity].
  - destruct (refinement_order o (m_sqrt mo) (m_of_Z mo) _ gsl junk start r l HC Iok Rn) as (_ & _ & G). destruct (nth_error l (length l - 1)) as [[b c]|] eqn:Elast.
    + exists b, c. split; [eapply nth_error_In; exact Elast|]. destruct G as (G1 & G2). unfold config. rewrite G1, G2. reflexivity.
    + apply nth_error_None in Elast. destruct l; [contradiction|cbn in Elast; lia].
Qed.
(** If the optimization ends normally, the lists of varied modes of each stage have the size of the arrays of the table "qsc" and what the stages before have added. *)
Theorem multi_flag_sizes : forall tm tq tx n sq so e s0 s',
  nopts tm = Ok n -> (forall i, i < Z.to_nat n -> stage_read tq tx sq (so i) i) -> acceptable_stages sq so (Z.to_nat n) -> program tm tq tx e s0 = Ok s' ->
  forall i a, i < Z.to_nat n -> In a axis_keys ->
    length (v_bools (so i) (String.append "vary_" a)) = length (v_vec sq "R0c") + list_sum (map (fun k => Z.to_nat (v_int (so k) "fourier_refine")) (seq 0 i)).
Proof.
  intros tm tq tx n sq so e s0 s' Hn H A E i a Hi Ha. destruct (read_ok o mo point4 point3 newton_tol tm tq tx n sq so e s0 Hn H A) as (l0 & El & L0 & Sok & T & F1). unfold multi_program in E. rewrite El in E. cbn [bind] in E.
  pose proof (calculation_called_ok o mo ge0 newton_tol mu0 newton_linear_solve linear_solve geev tol finite gsl junk solvers gsl_calls junk_size) as HC.
  destruct (multiopt_chain o (m_sqrt mo) (m_of_Z mo) _ gsl junk (mkMO l0 0%Z) s' HC Sok E) as (L & _). cbn [mo_opts] in L.
  destruct (nth_error l0 0) as [first|] eqn:Ef; [|apply nth_error_None in Ef; lia]. destruct (F1 first eq_refl) as (_ & _ & _ & _ & Fa).
  destruct (nth_error l0 i) as [t|] eqn:Et; [|apply nth_error_None in Et; lia]. destruct (nth_error (mo_opts s') i) as [r|] eqn:Er; [|apply nth_error_None in Er; lia].
  destruct (multiopt_sizes o (m_sqrt mo) (m_of_Z mo) _ gsl junk (mkMO l0 0%Z) s' first HC Sok E Ef i t r Et Er) as (_ & S). cbn [mo_opts] in S.
  destruct (axis_of (F:=F) a Ha) as (b & <- & _). specialize (S b). destruct (T i t Et) as (_ & alg & dm & _ & _ & Ett).
  assert (V : r_vary (st_rest t) b = v_bools (so i) (String.append "vary_" (axis_name b))) by (rewrite Ett; reflexivity). rewrite V in S.
  assert (Nm : n_modes first = length (v_vec sq "R0c")) by (rewrite <- (Fa "R0c" (or_introl eq_refl)); reflexivity).
  rewrite S, Nm. unfold modes_before. apply stages_limits; [rewrite firstn_length; lia|].
  intros k t' Ht'. assert (Hk : nth_error l0 k = Some t').
  { rewrite <- Ht'. assert (K : k < length (firstn i l0)) by (apply nth_error_Some; congruence). rewrite firstn_length in K.
    rewrite <- (firstn_skipn i l0) at 1. rewrite nth_error_app1 by (rewrite firstn_length; lia). reflexivity. }
  destruct (T k t' Hk) as (_ & alg' & dm' & _ & _ & ->). reflexivity.
Qed.
(** So after a stage that refines the axis, the table of each stage has to say, for each of the four arrays, which modes vary: the default, which has the size of the arrays of the
    table "qsc", does not do. *)
Theorem multi_flags_required : forall tm tq tx n sq so e s0 s',
  nopts tm = Ok n -> (forall i, i < Z.to_nat n -> stage_read tq tx sq (so i) i) -> acceptable_stages sq so (Z.to_nat n) -> program tm tq tx e s0 = Ok s' ->
  forall i k a, k < i -> i < Z.to_nat n -> (1 <= v_int (so k) "fourier_refine")%Z -> In a axis_keys ->
  exists t v, tx i = Some t /\ Toml.lookup (String.append "vary_" a) t = Some v.
Proof.
  intros tm tq tx n sq so e s0 s' Hn H A E i k a Hk Hi Hf Ha. pose proof (multi_flag_sizes tm tq tx n sq so e s0 s' Hn H A E i a Hi Ha) as S.
  destruct (H i Hi) as (t & alg & dm & Ht & Hin). exists t. destruct (inputs_parts o mo point4 point3 newton_tol _ _ _ _ _ _ Hin) as (_ & _ & _ & (_ & Eff & _)).
  destruct (Toml.lookup (String.append "vary_" a) t) as [v|] eqn:Ev; [exists v; split; [exact Ht|reflexivity]|exfalso].
  assert (D : so i (String.append "vary_" a) = vary_default (length (v_vec sq "R0c")) (opt_defaults o point4 point3) (String.append "vary_" a)).
  { destruct Eff as (Eff & _). specialize (Eff (String.append "vary_" a) KBools ltac:(destruct Ha as [<-|[<-|[<-|[<-|[]]]]]; cbn; tauto)). rewrite Ev in Eff. exact Eff. }
  assert (Lv : length (v_bools (so i) (String.append "vary_" a)) = length (v_vec sq "R0c")).
  { destruct (inputs_parts o mo point4 point3 newton_tol _ _ _ _ _ _ Hin) as (_ & _ & (m & M & Ax) & _). pose proof (proj2 (Ax "R0c" (or_introl eq_refl))) as Lr.
    unfold v_bools. rewrite D. destruct Ha as [<-|[<-|[<-|[<-|[]]]]]; cbn; rewrite repeat_length; lia. }
  assert (P : 1 <= list_sum (map (fun k => Z.to_nat (v_int (so k) "fourier_refine")) (seq 0 i))).
  { assert (Q : 1 <= Z.to_nat (v_int (so k) "fourier_refine")) by lia. clear - Hk Q.
    change (1 <= (fun k => Z.to_nat (v_int (so k) "fourier_refine")) k) in Q. revert Q. generalize (fun k => Z.to_nat (v_int (so k) "fourier_refine")). intros f Q. replace i with (k + S (i - k - 1)) by lia. rewrite seq_app, map_app, list_sum_app. cbn. lia. }
  lia.
Qed.
End Stages.
Print Assumptions multi_program_defined.
Print Assumptions multi_from_input_to_output.
Print Assumptions multi_flag_sizes.
Print Assumptions multi_flags_required.

(** ** An example *)
(** The optimization of C107 with one step of refinement, and a second stage for the axis with the mode that the first one adds. *)
Section Example.
Definition multi_multiopt : Toml.table R := [("nopts", Toml.TInt 2)].
Definition second_opt : Toml.table R :=
  ("weight_iota", Toml.TFloat 1%R) :: ("max_iter", Toml.TInt 6) :: map (fun a => (String.append "vary_" a, TArr [TBool false; TBool true; TBool true])) axis_keys.
Definition multi_opts (i : nat) : option (Toml.table R) := match i with O => Some opt_opt | S O => Some second_opt | _ => None end.
Notation inputs := (opt_inputs R_ops R_math 0%R 0%R 0%R).
Notation program := (multi_program R_ops R_math 0%R 0%R 0%R Rge0 0%R easy_solver easy_solver2 easy_geev (tolerances_of R_ops R_math false) (fun _ => true) step_gsl zero_junk multi_multiopt opt_qsc multi_opts).
Notation routines := (qsc_routines R_ops R_math Rge0 0%R easy_solver easy_solver2 easy_geev (tolerances_of R_ops R_math false) (fun _ => true)).
Lemma second_tables : exists sq so, inputs opt_qsc second_opt = Ok (sq, (so, GSL_LM, DIFF_METHOD_FORWARD)) /\ v_int so "fourier_refine" = 0%Z /\ v_ints so "nphi" = [] /\
  v_int so "max_iter" = 6%Z /\ so "weight_iota" = VFloat 1%R /\ v_bool so "vary_eta_bar" = true /\ (forall a, length (v_bools so (String.append "vary_" (axis_name a))) = 3).
Proof.
  assert (H : match inputs opt_qsc second_opt with Ok (sq, (so, alg, dm)) => (alg = GSL_LM /\ dm = DIFF_METHOD_FORWARD) /\ v_int so "fourier_refine" = 0%Z /\ v_ints so "nphi" = [] /\
    v_int so "max_iter" = 6%Z /\ so "weight_iota" = VFloat 1%R /\
    v_bool so "vary_eta_bar" = true /\ length (v_bools so "vary_R0c") = 3 /\ length (v_bools so "vary_R0s") = 3 /\ length (v_bools so "vary_Z0c") = 3 /\ length (v_bools so "vary_Z0s") = 3 | _ => False end).
  { lazy -[Rdiv IZR Ropp Rplus Rmult Rminus]. repeat split. }
  destruct (inputs opt_qsc second_opt) as [[sq [[so alg] dm]]| |]; [|contradiction|contradiction]. destruct H as ((-> & ->) & H5 & H6 & H7 & H8 & H9 & G1 & G2 & G3 & G4).
  exists sq, so. repeat (split; [first [reflexivity|assumption]|]). intros []; assumption.
Qed.
Lemma one_qsc {F : Type} (o : fops F) mo p4 p3 nt tq t t' sq so alg dm sq' so' alg' dm' :
  opt_inputs o mo p4 p3 nt tq t = Ok (sq, (so, alg, dm)) -> opt_inputs o mo p4 p3 nt tq t' = Ok (sq', (so', alg', dm')) -> sq = sq'.
Proof.
  unfold opt_inputs. generalize (qsc_input (m_of_Z mo) (fzero o) tq (default_store o nt)). intros q A B. destruct q as [q|w|w]; cbn [bind] in *; [|discriminate A|discriminate A].
  destruct (vec_of (q "R0c")) as [v| |]; cbn [bind] in *; [|discriminate A|discriminate A].
  destruct (opt_input _ _ t _ _ _) as [[[s1 a1] d1]| |]; cbn [bind] in A; [|discriminate A|discriminate A].
  destruct (opt_input _ _ t' _ _ _) as [[[s2 a2] d2]| |]; cbn [bind] in B; [|discriminate B|discriminate B]. congruence.
Qed.
Example multi_input_example : exists n sq so s' r1 r2,
  multiopt_input_nopts (m_of_Z R_math) multi_multiopt 0 = Ok n /\ (forall i, i < Z.to_nat n -> stage_read R_ops R_math 0%R 0%R 0%R opt_qsc multi_opts sq (so i) i) /\ acceptable_stages sq so (Z.to_nat n) /\
  program (fun _ => two_processes) (fun _ => plain_opt) = Ok s' /\ mo_opts s' = [r1; r2] /\ 0 < r_n_iter (st_rest r1) /\ 0 < r_n_iter (st_rest r2) /\ holds_history r2 (config r2) (iteration_members r2) /\
  solvers_ok easy_solver easy_solver2 /\ gsl_ok step_gsl /\ (forall n, length (zero_junk n) = n).
Proof.
  assert (J : forall n, length (zero_junk n) = n) by (intros n; apply repeat_length).
  assert (U : used R_ops plain_opt "iota" = true) by (unfold used; cbn; unfold Rltb; destruct (Rlt_dec 0 1) as [_|H]; [reflexivity|exfalso; apply H; exact Rlt_0_1]).
  pose proof (calculation_called_ok R_ops R_math Rge0 0%R 0%R easy_solver easy_solver2 easy_geev (tolerances_of R_ops R_math false) (fun _ => true) step_gsl zero_junk easy_ok step_gsl_ok J) as HC.
  destruct example_tables as (sq & so0 & Ei & E1 & E2 & E3 & E4 & E5 & E6 & E7 & E8 & E9 & E10).
  destruct second_tables as (sq' & so1 & Ei' & F5 & F6 & F7 & F8 & F9 & F10).
  pose proof (one_qsc _ _ _ _ _ _ _ _ _ _ _ _ _ _ _ _ Ei Ei') as Q. subst sq'.
  set (so := fun i : nat => match i with O => so0 | _ => so1 end).
  assert (Hn : multiopt_input_nopts (m_of_Z R_math) multi_multiopt 0 = Ok 2%Z) by reflexivity.
  assert (Sr : forall i, i < Z.to_nat 2 -> stage_read R_ops R_math 0%R 0%R 0%R opt_qsc multi_opts sq (so i) i).
  { intros [|[|i]] Hi; [exists opt_opt, GSL_DOGLEG, DIFF_METHOD_FORWARD|exists second_opt, GSL_LM, DIFF_METHOD_FORWARD|cbn in Hi; lia]; (split; [reflexivity|assumption]). }
  assert (A : acceptable_stages sq so (Z.to_nat 2)).
  { unfold acceptable_stages. change (seq 0 (Z.to_nat 2)) with [0; 1]. cbn [map so list_sum fold_right]. rewrite E1, E2, E4, E5, F5. unfold OptSpec.limits, nphi_limits. split; [cbn; lia|]. split; [lia|].
    intros [|[|i]] Hi; [| |cbn in Hi; lia]; cbn [so]; [rewrite E5, E6|rewrite F5, F6]; (split; [lia|]); repeat constructor; lia. }
  destruct (read_ok R_ops R_math 0%R 0%R 0%R multi_multiopt opt_qsc multi_opts 2%Z sq so (fun _ => two_processes) (fun _ => plain_opt) Hn Sr A) as (l & El & L & Sok & T & F1).
  destruct (nth_error l 0) as [first|] eqn:Ef; [|apply nth_error_None in Ef; rewrite L in Ef; cbn in Ef; lia].
  destruct (F1 first eq_refl) as (Fi & _ & (_ & _ & Fo) & _ & Fa).
  assert (Nm : n_modes first = 2).
  { unfold n_modes. specialize (Fa "R0c" (or_introl eq_refl)). rewrite E4 in Fa. apply (f_equal (@length R)) in Fa. exact Fa. }
  assert (TT : forall i t, nth_error l i = Some t -> (forall a, length (r_vary (st_rest t) a) = modes_before (n_modes first) l i) /\ r_max_iter (st_rest t) = 6%Z /\
     (exists p, free t p) /\ (exists name, In name term_names /\ used R_ops t name = true)).
  { intros i t Ht. assert (Hi : i < 2) by (change 2 with (Z.to_nat 2); rewrite <- L; apply nth_error_Some; congruence). destruct (T i t Ht) as (_ & alg & dm & _ & _ & Et).
    assert (W : st_num t "weight_iota" = 1%R).
    { rewrite Et. cbn [stage_object opt_object st_num]. destruct i as [|[|i]]; [| |lia]; cbn [so]; [rewrite E8|rewrite F8]; reflexivity. }
    split; [|split; [|split]].
    - intros a. unfold modes_before. rewrite Nm. rewrite Et. cbn [stage_object opt_object st_rest r_vary]. destruct i as [|[|i]]; [| |lia]; cbn [so firstn map fold_right].
      + rewrite E10. reflexivity.
      + rewrite F10. destruct l as [|t0 l']; [discriminate Ef|]. destruct (T 0 t0 eq_refl) as (_ & alg0 & dm0 & _ & _ & ->). cbn [firstn map fold_right stage_object opt_object st_fourier_refine so]. rewrite E5. reflexivity.
    - rewrite Et. cbn [stage_object opt_object st_rest r_max_iter]. destruct i as [|[|i]]; [exact E7|exact F7|lia].
    - exists (PNum "eta_bar"). rewrite Et. split; [cbn; tauto|]. destruct i as [|[|i]]; [exact E9|exact F9|lia].
    - exists "iota". split; [cbn; tauto|]. unfold used. change (String.append "weight_" "iota") with "weight_iota". rewrite W. unfold used in U. exact U. }
  destruct (stages_complete Rge0 0%R 0%R easy_solver easy_solver2 easy_geev false step_gsl zero_junk (mkMO l 0%Z) first) as (s' & E);
    [intros m v; exists v; split; reflexivity|intros m v; exists v; reflexivity|reflexivity|exact step_gsl_ok|exact J|exact Sok|exact Ef| | |].
  - change (qx_order_r_option (r_q (st_rest first))) with (m_text R (config first) "order_r_option"). rewrite Fo, E3. cbn. tauto.
  - intros i t Ht. destruct (TT i t Ht) as (A1 & A2 & A3). split; [exact A1|]. split; [rewrite A2; lia|exact A3].
  - destruct (multiopt_chain R_ops (m_sqrt R_math) (m_of_Z R_math) routines step_gsl zero_junk (mkMO l 0%Z) s' HC Sok E) as (L' & C & _). cbn [mo_opts] in L', C. rewrite L in L'.
    pose proof (stages_fixed_inputs R_ops R_math Rge0 0%R 0%R easy_solver easy_solver2 easy_geev (tolerances_of R_ops R_math false) (fun _ => true) step_gsl zero_junk easy_ok step_gsl_ok J
      (mkMO l 0%Z) s' first Sok E Ef) as Sf.
    assert (Ev : forall i r, nth_error (mo_opts s') i = Some r -> 0 < r_n_iter (st_rest r)).
    { intros i r Hr. assert (Hi : i < length l) by (rewrite L, <- L'; apply nth_error_Some; congruence). destruct (nth_error l i) as [t|] eqn:Ht; [|apply nth_error_None in Ht; lia].
      destruct (C i t r Ht Hr) as (start & l1 & X & B & D & _).
      destruct (optimization_history R_ops (m_sqrt R_math) (m_of_Z R_math) routines step_gsl zero_junk start r l1 HC B D) as (Hit & _). rewrite Hit.
      assert (Y : qx_order_r_option (r_q (st_rest start)) = "r2.1" /\ r_max_iter (st_rest start) = 6%Z).
      { split.
        - change (m_text R (config start) "order_r_option" = "r2.1"). rewrite (start_config _ _ _ X). destruct i as [|i]; cbn [previous].
          + assert (Etf : t = first) by congruence. rewrite Etf, Fo. exact E3.
          + destruct (nth_error (mo_opts s') i) as [r0|] eqn:E0; [|apply nth_error_None in E0; rewrite L' in E0; rewrite L in Hi; lia].
            destruct (Sf i r0 E0) as (_ & _ & Z0). rewrite Z0, Fo. exact E3.
        - destruct (TT i t Ht) as (_ & A2 & _). destruct (previous None (mo_opts s') i); cbn [continues] in X; subst start; exact A2. }
      pose proof (optimization_evaluates R_ops (m_sqrt R_math) (m_of_Z R_math) routines step_gsl zero_junk start r l1 HC B D (proj1 Y)) as Q. rewrite (proj2 Y) in Q. specialize (Q ltac:(lia)).
      destruct (first_record_is_start R_ops (m_sqrt R_math) (m_of_Z R_math) routines step_gsl zero_junk start r l1 HC B D Q) as (c & Hc & _).
      apply nth_error_Some. congruence. }
    destruct s' as [os ne]. cbn [mo_opts] in *. change (Z.to_nat 2) with 2 in L'. destruct os as [|r1 [|r2 [|r3 os]]]; try discriminate L'.
    exists 2%Z, sq, so, (mkMO [r1; r2] ne), r1, r2. split; [exact Hn|]. split; [exact Sr|]. split; [exact A|]. split.
    { unfold multi_program. rewrite El. exact E. }
    split; [reflexivity|]. split; [exact (Ev 0 r1 eq_refl)|]. split; [exact (Ev 1 r2 eq_refl)|]. split; [apply iteration_holds|]. split; [exact easy_ok|split; [exact step_gsl_ok|exact J]].
Qed.
End Example.
