(** C107: an optimization from its input file to its output file. *)
From Coq Require Import String ZArith List Arith Bool Lia Reals.
From Verif Require Import Base BaseFacts FloatOps MathOps Tensor Newton RSing Axis AxisSpec Alloc AllocSpec AllocFacts Toml TomlSpec TomlFacts Options OptionsSpec
  NetCDF NetCDFOut NetCDFSpec NetCDFFacts NetCDFRead.
From Verif Require Import Run RunSpec RunFacts RunSafe RunInput MScan Opt OptSpec OptState OptResid OptRun OptEnd OptFixed OptQsc Properties_Opt Properties_NetCDF Properties_RSing HelicityFacts Properties_RunSafe
  GridFacts ScanInput Properties_OptQsc Properties_ScanInput OptInput.
Import ListNotations.
Local Open Scope string_scope.
Local Open Scope nat_scope.

Section Reading.
Context {F : Type} (o : fops F) (mo : mops F) (point4 point3 newton_tol : F).
Notation members := (members F).
Notation opt := (@stage F (@rest F members)).
Notation store := (Toml.store F).
Notation of_int := (m_of_Z mo).
Notation inputs := (opt_inputs o mo point4 point3 newton_tol).

(** ** Specification *)
(** The variables [sq] of the table "qsc", as in C05 and C06: a key sets the variable of that name, the other variables have the default; then the four arrays are filled up
    with zeros to the length of the longest. *)
Definition qsc_read (t : Toml.table F) (sq : store) : Prop :=
  exists s1, section_effect of_int qsc_keys t (default_store o newton_tol) s1 /\ (forall x, ~ In x axis_keys -> sq x = s1 x) /\
    exists n, (forall x, In x axis_keys -> exists v, s1 x = VVec v /\ length v <= n /\ sq x = VVec (TomlSpec.padded (fzero o) n v)) /\
    exists x v, In x axis_keys /\ s1 x = VVec v /\ length v = n.
(** Input for which the arithmetic on integers does not overflow. *)
Definition acceptable_opt (sq so : store) : Prop :=
  (0 <= v_int so "fourier_refine")%Z /\ OptSpec.limits (length (v_vec sq "R0c") + Z.to_nat (v_int so "fourier_refine")) (v_int sq "nfp") /\
  nphi_limits (v_int sq "nphi") /\ Forall nphi_limits (v_ints so "nphi").
(** Element [k] of the array [a] is varied in step [j] of the refinement, if the axis of the input has [n] modes. *)
Definition mode_varied (so : store) (n j : nat) (a : string) (k : nat) : Prop :=
  nth k (v_bools so (String.append "vary_" a)) false = true \/ In a ["R0c"; "Z0s"] /\ n <= k < n + j.
(** The configuration [c] has the inputs of the tables, but for those that are varied in step [j] of the refinement. *)
Definition from_tables (sq so : store) (j : nat) (c : members) : Prop :=
  m_int F c "nphi" = odd_nphi (nth j (v_ints so "nphi") (v_int sq "nphi")) /\
  (forall x, In x fixed_ints -> m_int F c x = v_int sq x) /\ (forall x, In x fixed_floats -> m_float F c x = v_float o sq x) /\
  m_text F c "order_r_option" = v_str sq "order_r_option" /\
  (forall x, In x varied_numbers -> v_bool so (String.append "vary_" x) = false -> m_float F c x = v_float o sq x) /\
  (forall a, In a axis_keys -> let n := length (v_vec sq a) in length (m_array F c a) = n + Z.to_nat (v_int so "fourier_refine") /\
    forall k, ~ mode_varied so n j a k -> nth k (m_array F c a) (fzero o) = nth k (v_vec sq a) (fzero o)).
(** The configuration of the table "qsc", with zeros for the new modes. *)
Definition start_of (sq so : store) (c : members) : Prop :=
  (forall x, In x varied_numbers -> m_float F c x = v_float o sq x) /\
  forall a, In a axis_keys -> m_array F c a = (v_vec sq a ++ repeat (fzero o) (Z.to_nat (v_int so "fourier_refine")))%list.

(** ** Reading *)
Lemma qsc_table t : (valid_section of_int qsc_keys t /\ exists sq, qsc_input of_int (fzero o) t (default_store o newton_tol) = Ok sq /\ qsc_read t sq /\ typed qsc_keys sq /\
    exists n, forall x, In x axis_keys -> sq x = VVec (v_vec sq x) /\ length (v_vec sq x) = n) \/
  (~ valid_section of_int qsc_keys t /\ exists m, qsc_input of_int (fzero o) t (default_store o newton_tol) = Throw m).
Proof.
  destruct (qsc_input_cases of_int (fzero o) t (default_store o newton_tol)) as [(V & s1 & s' & a & E & K1 & K2 & K3 & K4 & Eq & P1 & P2 & P3 & P4 & Ot)|(V & m & Eq)].
  { intros x Hx. unfold axis_keys in Hx. cbn in Hx. repeat (destruct Hx as [<-|Hx]; [eexists; reflexivity|]). destruct Hx. }
  2: { right. eauto. }
  left. split; [exact V|]. exists s'. split; [exact Eq|].
  pose proof (effect_typed mo qsc_keys _ _ _ eq_refl E (qsc_defaults_typed o newton_tol)) as T.
  assert (L : forall v, In v [Toml.R0c a; Toml.R0s a; Toml.Z0c a; Toml.Z0s a] -> length v <= max_len a).
  { intros v Hv. unfold max_len. cbn in Hv. destruct Hv as [<-|[<-|[<-|[<-|[]]]]]; lia. }
  assert (Ax : forall x, In x axis_keys -> exists v, s1 x = VVec v /\ length v <= max_len a /\ s' x = VVec (TomlSpec.padded (fzero o) (max_len a) v)).
  { intros x Hx. destruct Hx as [<-|[<-|[<-|[<-|[]]]]]; eexists; (split; [eassumption|]); (split; [apply L; cbn; tauto|assumption]). }
  split; [|split].
  - exists s1. split; [exact E|]. split; [exact Ot|]. exists (max_len a). split; [exact Ax|].
    assert (M : max_len a = length (Toml.R0c a) \/ max_len a = length (Toml.R0s a) \/ max_len a = length (Toml.Z0c a) \/ max_len a = length (Toml.Z0s a)) by (unfold max_len; lia).
    destruct M as [M|[M|[M|M]]]; rewrite M; [exists "R0c", (Toml.R0c a)|exists "R0s", (Toml.R0s a)|exists "Z0c", (Toml.Z0c a)|exists "Z0s", (Toml.Z0s a)];
      (split; [cbn; tauto|split; [assumption|reflexivity]]).
  - intros x k Hx. destruct (in_dec string_dec x axis_keys) as [Ha|Ha].
    + destruct (Ax x Ha) as (v & Ev & _ & ->). specialize (T x k Hx). rewrite Ev in T. destruct k; try contradiction. exact I.
    + rewrite (Ot x Ha). exact (T x k Hx).
  - exists (max_len a). intros x Hx. destruct (Ax x Hx) as (v & _ & Lv & E'). unfold v_vec. rewrite E'. split; [reflexivity|]. apply padded_length. exact Lv.
Qed.
(** Reading the two tables: either an exception is thrown, and a table has an unknown key or a value that is not acceptable (C05); or the variables are those of the
    specification.  The axis must have a mode. *)
Theorem opt_tables_read : forall tq tx, (forall sq, qsc_read tq sq -> v_vec sq "R0c" <> []) ->
  (exists sq so alg dm, inputs tq tx = Ok (sq, (so, alg, dm)) /\ valid_section of_int qsc_keys tq /\ qsc_read tq sq /\
     opt_result of_int (length (v_vec sq "R0c")) tx (opt_defaults o point4 point3) GSL_LM DIFF_METHOD_FORWARD so alg dm) \/
  ((exists msg, inputs tq tx = Throw msg) /\
   (~ valid_section of_int qsc_keys tq \/ forall sq, qsc_read tq sq ->
      ~ exists so alg dm, opt_result of_int (length (v_vec sq "R0c")) tx (opt_defaults o point4 point3) GSL_LM DIFF_METHOD_FORWARD so alg dm)).
Proof.
  intros tq tx Hn. unfold opt_inputs. destruct (qsc_table tq) as [(V & sq & -> & Rd & T & n & Ax)|(V & m & ->)]; cbn [bind]; [|right; eauto].
  destruct (Ax "R0c" (or_introl eq_refl)) as (Er & Lr). rewrite Er. cbn [vec_of bind].
  assert (N : 1 <= length (v_vec sq "R0c")) by (specialize (Hn sq Rd); destruct (v_vec sq "R0c"); [contradiction|cbn; lia]).
  destruct (opt_input_cases of_int (length (v_vec sq "R0c")) tx (opt_defaults o point4 point3) GSL_LM DIFF_METHOD_FORWARD [] 0%Z N eq_refl eq_refl) as [(so & alg & dm & -> & R)|((m & ->) & R)]; cbn [bind].
  - left. exists sq, so, alg, dm. auto.
  - right. split; [eauto|]. right. intros sq' Rd'.
    assert (Len : length (v_vec sq' "R0c") = length (v_vec sq "R0c")).
    { destruct Rd as (s1 & E1 & _ & n1 & A1 & x1 & v1 & I1 & J1 & L1), Rd' as (s2 & E2 & _ & n2 & A2 & x2 & v2 & I2 & J2 & L2).
      assert (S : forall x, In x axis_keys -> s1 x = s2 x).
      { intros x Hx. assert (Hk : In (x, KVec) qsc_keys) by (destruct Hx as [<-|[<-|[<-|[<-|[]]]]]; cbn; tauto).
        destruct E1 as (E1 & _), E2 as (E2 & _). specialize (E1 x KVec Hk). specialize (E2 x KVec Hk).
        destruct (Toml.lookup x tq) as [v|]; [eapply TomlFacts.denotes_unique; eassumption|congruence]. }
      assert (Hnn : n1 = n2).
      { destruct (A1 x2 I2) as (w & Ew & Lw & _), (A2 x1 I1) as (w' & Ew' & Lw' & _). rewrite S in Ew by exact I2. rewrite <- S in Ew' by exact I1.
        assert (W1 : w = v2) by congruence. assert (W2 : w' = v1) by congruence. rewrite W1 in Lw. rewrite W2 in Lw'. lia. }
      rewrite <- Hnn in *. destruct (A1 "R0c" (or_introl eq_refl)) as (w & _ & Lw & Ew), (A2 "R0c" (or_introl eq_refl)) as (w' & _ & Lw' & Ew'). unfold v_vec. rewrite Ew, Ew', !padded_length by assumption. reflexivity. }
    rewrite Len. exact R.
Qed.

(** ** The object *)
Lemma inputs_parts tq tx sq so alg dm : inputs tq tx = Ok (sq, (so, alg, dm)) ->
  qsc_read tq sq /\ typed qsc_keys sq /\ (exists n, 1 <= n /\ forall x, In x axis_keys -> sq x = VVec (v_vec sq x) /\ length (v_vec sq x) = n) /\
  opt_result of_int (length (v_vec sq "R0c")) tx (opt_defaults o point4 point3) GSL_LM DIFF_METHOD_FORWARD so alg dm.
Proof.
  unfold opt_inputs. intros H. destruct (qsc_table tq) as [(V & sq' & E & Rd & T & n & Ax)|(V & m & E)]; rewrite E in H; cbn [bind] in H; [|discriminate].
  destruct (Ax "R0c" (or_introl eq_refl)) as (Er & Lr). rewrite Er in H. cbn [vec_of bind] in H.
  destruct (Nat.eq_dec n 0) as [N|N].
  { exfalso. rewrite Lr, N in H. unfold opt_input in H. cbn [repeat aset length] in H. revert H. cbn. discriminate. }
  assert (N1 : 1 <= length (v_vec sq' "R0c")) by lia.
  destruct (opt_input_cases of_int (length (v_vec sq' "R0c")) tx (opt_defaults o point4 point3) GSL_LM DIFF_METHOD_FORWARD [] 0%Z N1 eq_refl eq_refl) as [(so' & alg' & dm' & E' & R)|((m & E') & R)];
    rewrite E' in H; cbn [bind] in H; [|discriminate].
  assert (sq' = sq /\ so' = so /\ alg' = alg /\ dm' = dm) as (-> & -> & -> & ->) by (repeat split; congruence).
  split; [exact Rd|]. split; [exact T|]. split; [exists n; split; [lia|exact Ax]|exact R].
Qed.
Lemma opt_floats n tx so alg dm : opt_result of_int n tx (opt_defaults o point4 point3) GSL_LM DIFF_METHOD_FORWARD so alg dm ->
  forall x, In (x, KFloat) opt_keys -> so x = VFloat (v_float o so x).
Proof.
  intros (_ & E & _) x Hx. unfold v_float.
  apply (TomlFacts.effect_kind of_int opt_keys tx _ so x KFloat (fun c => c = VFloat (match c with VFloat v => v | _ => fzero o end)) Hx E).
  - unfold opt_keys in Hx. cbn [map app opt_weight_keys] in Hx. repeat (destruct Hx as [Hx|Hx]; [first [discriminate Hx|injection Hx as <-; reflexivity]|]). destruct Hx.
  - intros v c D. inversion D; reflexivity.
Qed.
Lemma object_input_ok tq tx sq so alg dm e s0 : inputs tq tx = Ok (sq, (so, alg, dm)) -> acceptable_opt sq so ->
  let s := opt_object so (load sq (constructed o e)) s0 in
  input_ok s /\ ints_fit (config s) /\ n_modes s = length (v_vec sq "R0c") /\
  (forall x, In (x, KInt) qsc_keys -> m_int F (config s) x = v_int sq x) /\ (forall x, In (x, KFloat) qsc_keys -> m_float F (config s) x = v_float o sq x) /\
  m_text F (config s) "order_r_option" = v_str sq "order_r_option" /\ (forall a, get_axis (st_q s) a = v_vec sq (axis_name a)).
Proof.
  intros H (A0 & A1 & A2 & A3) s. destruct (inputs_parts _ _ _ _ _ _ H) as (_ & Tq & (n & N & Ax) & (_ & _ & _ & _ & nphi & fr & E1 & E2 & E3)).
  assert (I : forall x, In (x, KInt) qsc_keys -> m_int F (load sq (constructed o e)) x = v_int sq x /\ in_int32 (v_int sq x)).
  { intros x Hx. destruct (typed_int _ _ _ Tq Hx) as (E & B). split; [|exact B]. cbn [load m_int]. rewrite E. reflexivity. }
  assert (G : forall a, get_axis (st_q s) a = v_vec sq (axis_name a)).
  { intros a. destruct (Ax (axis_name a)) as (E & _); [destruct a; cbn; tauto|]. destruct a; cbn in *; rewrite E; reflexivity. }
  assert (Gn : forall a, length (get_axis (st_q s) a) = n) by (intros a; rewrite G; apply Ax; destruct a; cbn; tauto).
  destruct (members_of_view (load sq (constructed o e))) as [M1 M2 M3 M4 M5].
  change (members_of (fst (view_of (load sq (constructed o e)))) (snd (view_of (load sq (constructed o e))))) with (config s) in *.
  assert (Ik : forall x, In (x, KInt) qsc_keys -> m_int F (config s) x = v_int sq x) by (intros x Hx; rewrite M1; apply I; exact Hx).
  assert (Nm : n_modes s = length (v_vec sq "R0c")) by (apply (f_equal (@length F) (G Opt.R0c))).
  split; [|split; [|split; [exact Nm|split; [exact Ik|split; [|split; [|exact G]]]]]].
  - split; [intros a; rewrite Gn; symmetry; exact (Gn Opt.R0c)|]. split; [|split; [|split]].
    + split; [|exact A3]. cbn [s opt_object st_rest r_nphi st_fourier_refine]. unfold v_ints, v_int. rewrite E1, E2. destruct E3 as [->|E3]; [left; reflexivity|right].
      unfold v_int in A0. rewrite E2 in A0. lia.
    + rewrite Nm. destruct (Ax "R0c" (or_introl eq_refl)) as (_ & ->). exact N.
    + rewrite Nm. change (qx_nfp (r_q (st_rest s))) with (m_int F (config s) "nfp"). rewrite Ik by (cbn; tauto). exact A1.
    + change (qx_nphi (r_q (st_rest s))) with (m_int F (config s) "nphi"). rewrite Ik by (cbn; tauto). exact A2.
  - intros x Hx. assert (Hk : In (x, KInt) qsc_keys) by (repeat (destruct Hx as [<-|Hx]; [cbn; tauto|]); destruct Hx). rewrite (Ik x Hk). apply (I x Hk).
  - intros x Hx. rewrite M3. cbn [load m_float]. rewrite (typed_float o _ _ _ Tq Hx). reflexivity.
  - rewrite M4. cbn [load m_text]. rewrite (typed_str _ _ "order_r_option" Tq) by (cbn; tauto). reflexivity.
Qed.

End Reading.

(** ** Optimizations *)
Section OptInput.
Context {F : Type} (o : fops F) (mo : mops F) (point4 point3 : F).
Variables (ge0 : F -> bool) (newton_tol mu0 : F) (newton_linear_solve : (nat -> nat -> F) -> list F -> outcome (list F))
  (linear_solve : matrix F -> list F -> outcome (list F)) (geev : list F -> Z * (list F * list F)) (tol : tolerances F) (finite : F -> bool).
Notation members := (members F).
Notation opt := (@stage F (@rest F members)).
Notation store := (Toml.store F).
Notation of_int := (m_of_Z mo).
Notation run_gives := (run_gives o mo ge0 newton_tol mu0 newton_linear_solve linear_solve geev tol finite).
Variable gsl : algorithm_type -> diff_method_type -> nat -> opt -> Z -> list F -> list (@event F).
Variable junk : nat -> list F.
Notation inputs := (opt_inputs o mo point4 point3 newton_tol).
Notation program := (opt_program o mo point4 point3 newton_tol ge0 mu0 newton_linear_solve linear_solve geev tol finite gsl junk).
Hypothesis solvers : solvers_ok newton_linear_solve linear_solve.
Hypothesis gsl_calls : forall alg dm, gsl_ok (gsl alg dm).
Hypothesis junk_size : forall n, length (junk n) = n.

(** An optimization has defined behaviour for every input file: it is rejected, or read; then the conditions above are enough. *)
Theorem opt_program_defined : forall tq tx e s0 why,
  (forall sq, qsc_read o mo newton_tol tq sq -> v_vec sq "R0c" <> []) -> (forall sq so alg dm, inputs tq tx = Ok (sq, (so, alg, dm)) -> acceptable_opt sq so) -> program tq tx e s0 <> UB why.
Proof.
  intros tq tx e s0 why Hn H E. unfold opt_program in E.
  destruct (opt_tables_read o mo point4 point3 newton_tol tq tx Hn) as [(sq & so & alg & dm & Ei & _)|((m & Ei) & _)]; rewrite Ei in E; cbn [bind] in E; [|discriminate].
  specialize (H sq so alg dm Ei). destruct (Z.ltb_spec (v_int so "fourier_refine") 0) as [K|_]; [destruct H; lia|].
  destruct (object_input_ok o mo point4 point3 newton_tol tq tx sq so alg dm e s0 Ei H) as (Hok & _).
  exact (optimization_defined o mo ge0 newton_tol mu0 newton_linear_solve linear_solve geev tol finite (gsl alg dm) junk solvers (gsl_calls alg dm) junk_size _ why Hok E).
Qed.

(** From the input file to the output file.  Let the tables be read as [sq] and [so], and let the program evaluate the configurations of [l] and end with [s'].  Then each
    configuration has the inputs of the table "qsc" but for those that the table "opt" lets vary; the weights and targets of the objective function are those of the table
    "opt"; the first configuration reported is the one of the table "qsc"; no more than max_iter configurations are reported; and the output file contains the file that a run
    for the last configuration writes, and for each reported configuration the numbers that a run for it alone writes. *)
Theorem opt_from_input_to_output : forall tq tx sq so alg dm e s0 s' l hist,
  inputs tq tx = Ok (sq, (so, alg, dm)) -> acceptable_opt sq so -> program tq tx e s0 = Ok (s', l) -> l <> [] -> holds_history s' (config s') hist ->
  let reported := map snd (filter fst l) in
  (forall b r, In (b, r) l -> let j := r_j_fourier_refine (st_rest r) in (Z.of_nat j <= v_int so "fourier_refine")%Z /\ from_tables o sq so j (config r) /\
     forall x, In (x, KFloat) opt_keys -> st_num r x = v_float o so x) /\
  (exists r, nth_error reported 0 = Some r /\ start_of o sq so (config r)) /\ (Z.of_nat (length reported) <= v_int so "max_iter")%Z /\
  exists fq f new, run_gives (config s') fq /\ opt_write_netcdf F of_int (config s') hist = Ok f /\ f_vars F f = (f_vars F fq ++ new)%list /\
    forall i r, nth_error reported i = Some r -> exists fr, run_gives (config r) fr /\
      forall h x, In (h, x) (reported_first ++ reported_second) -> exists v, element F f h [i] v /\ element F fr x [] v.
Proof.
  intros tq tx sq so alg dm e s0 s' l hist Ei A E Hl HH reported. unfold opt_program in E. rewrite Ei in E. cbn [bind] in E.
  destruct (Z.ltb_spec (v_int so "fourier_refine") 0) as [K|Hfr]; [discriminate|].
  destruct (object_input_ok o mo point4 point3 newton_tol tq tx sq so alg dm e s0 Ei A) as (Hok & Hi & Nm & Ik & Fk & Tk & G). set (s := opt_object so (load sq (constructed o e)) s0) in *.
  destruct (inputs_parts o mo point4 point3 newton_tol _ _ _ _ _ _ Ei) as (_ & _ & (n & N & Ax) & Ro). pose proof (opt_floats o mo point4 point3 _ _ _ _ _ Ro) as Fo.
  pose proof (calculation_called_ok o mo ge0 newton_tol mu0 newton_linear_solve linear_solve geev tol finite (gsl alg dm) junk solvers (gsl_calls alg dm) junk_size) as HC.
  destruct (fixed_inputs_kept o mo ge0 mu0 newton_linear_solve linear_solve geev tol finite (gsl alg dm) junk s s' l E) as (_ & Fx).
  split; [|split; [|split]].
  - intros b r Hr j.
    destruct (refinement_step o (m_sqrt mo) (m_of_Z mo) _ (gsl alg dm) junk s s' l b r HC Hok E Hr) as (Lj & _ & Sz & Fixed & Np & _). fold j in Lj, Fixed, Np.
    split; [cbn [s opt_object st_fourier_refine] in Lj; lia|]. destruct (Fx b r Hr) as (X1 & X2 & X3). split; [split; [|split; [|split; [|split; [|split]]]]|].
    + change (m_int F (config r) "nphi") with (qx_nphi (r_q (st_rest r))). rewrite Np. unfold nphi_in. change (r_nphi (st_rest s)) with (v_ints so "nphi").
      change (qx_nphi (r_q (st_rest s))) with (m_int F (config s) "nphi"). rewrite Ik by (cbn; tauto). destruct (nth_error (v_ints so "nphi") j) as [z|] eqn:En.
      * rewrite (nth_error_nth _ _ _ En). reflexivity.
      * apply nth_error_None in En. rewrite nth_overflow by exact En. reflexivity.
    + intros x Hx. rewrite X1 by exact Hx. apply Ik. repeat (destruct Hx as [<-|Hx]; [cbn; tauto|]). destruct Hx.
    + intros x Hx. rewrite X2 by exact Hx. apply Fk. repeat (destruct Hx as [<-|Hx]; [cbn; tauto|]). destruct Hx.
    + rewrite X3. exact Tk.
    + intros x Hx Hv. assert (Hk : In (x, KFloat) qsc_keys) by (repeat (destruct Hx as [<-|Hx]; [cbn; tauto|]); destruct Hx).
      assert (V : value (st_q r) (PNum x) = start_value o s (PNum x)).
      { apply Fixed; [exact Hx|]. intros [(_ & Fv)|(a & k & Ep & _)]; [|discriminate]. cbn [s opt_object st_rest r_vary_num] in Fv. congruence. }
      cbn [value start_value] in V. change (m_float F (config r) x) with (qo_num (st_q r) x). rewrite <- (Fk x Hk). change (m_float F (config s) x) with (qo_num (st_q s) x). congruence.
    + intros a Ha n0.
      assert (Hax : exists b0, axis_name b0 = a /\ m_array F (config r) a = get_axis (st_q r) b0 /\ (In a ["R0c"; "Z0s"] <-> (b0 = Opt.R0c \/ b0 = Opt.Z0s))).
      { destruct Ha as [<-|[<-|[<-|[<-|[]]]]]; [exists Opt.R0c|exists Opt.R0s|exists Opt.Z0c|exists Opt.Z0s]; (split; [reflexivity|split; [reflexivity|cbn; split; intros HH0; intuition discriminate]]). }
      destruct Hax as (b0 & Nb & Eb & Ib). assert (Ln : n_modes s = n0) by (rewrite Nm; unfold n0; rewrite (proj2 (Ax a Ha)); apply Ax; cbn; tauto).
      split; [rewrite Eb, Sz, Ln; reflexivity|]. intros k Hk. rewrite Eb.
      assert (V : value (st_q r) (PAxis b0 k) = start_value o s (PAxis b0 k)).
      { apply Fixed; [exact I|]. intros [Fv|(a' & k' & Ep & Ia & Kk)]; apply Hk.
        - left. cbn [free s opt_object st_rest r_vary] in Fv. rewrite Nb in Fv. apply nth_error_nth. exact Fv.
        - injection Ep as <- <-. right. rewrite Ln in Kk. split; [apply Ib; exact Ia|exact Kk]. }
      cbn [value start_value] in V. rewrite G, Nb in V.
      destruct (nth_error (get_axis (st_q r) b0) k) as [v|] eqn:Ev.
      * rewrite (nth_error_nth _ _ _ Ev). symmetry in V. destruct (Nat.lt_ge_cases k n0) as [Kl|Kl].
        -- rewrite nth_error_app1 in V by exact Kl. symmetry. apply nth_error_nth. exact V.
        -- rewrite nth_error_app2 in V by exact Kl. rewrite (nth_overflow (v_vec sq a)) by exact Kl. apply nth_error_In, repeat_spec in V. exact V.
      * symmetry in V. apply nth_error_None in Ev, V. rewrite app_length in V. rewrite !nth_overflow by lia. reflexivity.
    + intros x Hx.
      assert (Sn : st_num r = st_num s).
      { pose proof (run_opt_safe o (m_sqrt mo) (m_of_Z mo) _ (gsl alg dm) junk (fit o) (qsc_routines_ok o mo ge0 newton_tol mu0 newton_linear_solve linear_solve geev tol finite solvers) (gsl_calls alg dm) junk_size s Hok) as D.
        rewrite E in D. cbn [safe] in D. destruct D as (s1 & _ & _ & S & _ & _ & _ & _ & _ & _ & _ & [_ _ L _ _ _]). cbn [fst snd] in L.
        pose proof (proj1 (Forall_forall _ _) (lo_entry _ _ _ _ _ _ _ L) _ Hr) as (_ & Ac & _). cbn [snd] in Ac.
        rewrite (ph_num _ _ _ _ (ac_phase _ _ _ _ _ _ _ Ac)). apply S. }
      rewrite Sn. cbn [s opt_object st_num]. rewrite (Fo x Hx). reflexivity.
  - destruct (first_record_is_start o (m_sqrt mo) (m_of_Z mo) _ (gsl alg dm) junk s s' l HC Hok E Hl) as (r & Hr & Jr & V). exists r. split; [exact Hr|]. split.
    + intros x Hx. assert (Hk : In (x, KFloat) qsc_keys) by (repeat (destruct Hx as [<-|Hx]; [cbn; tauto|]); destruct Hx).
      specialize (V (PNum x) Hx). cbn [value start_value] in V. rewrite <- (Fk x Hk). change (m_float F (config r) x) with (qo_num (st_q r) x). change (m_float F (config s) x) with (qo_num (st_q s) x). congruence.
    + intros a Ha. assert (Hax : exists b0, axis_name b0 = a /\ m_array F (config r) a = get_axis (st_q r) b0).
      { destruct Ha as [<-|[<-|[<-|[<-|[]]]]]; [exists Opt.R0c|exists Opt.R0s|exists Opt.Z0c|exists Opt.Z0s]; split; reflexivity. }
      destruct Hax as (b0 & Nb & ->). apply nth_error_ext. intros k. specialize (V (PAxis b0 k) I). cbn [value start_value] in V. rewrite G, Nb in V. exact V.
  - destruct (optimization_history o (m_sqrt mo) (m_of_Z mo) _ (gsl alg dm) junk s s' l HC Hok E) as (_ & Lm & _). exact Lm.
  - exact (optimization_writes_runs o mo ge0 newton_tol mu0 newton_linear_solve linear_solve geev tol finite (gsl alg dm) junk solvers (gsl_calls alg dm) junk_size s s' l hist Hok Hi E Hl HH).
Qed.
End OptInput.
Print Assumptions opt_tables_read.
Print Assumptions opt_program_defined.
Print Assumptions opt_from_input_to_output.

(** Without the condition that the axis has a mode, it is not so: if the four arrays of the table "qsc" are empty, which Qsc::input accepts, the first elements of vary_R0c and
    vary_Z0s are written although the arrays have none (opt_input.cpp lines 21-22). *)
Theorem opt_without_modes_refuted : forall {F : Type} (o : fops F) (mo : mops F) point4 point3 newton_tol ge0 mu0 nls ls geev tol finite gsl junk tx e s0,
  let tq := map (fun x => (x, TArr [])) axis_keys in
  valid_section (m_of_Z mo) qsc_keys tq /\ exists why, opt_program (F:=F) o mo point4 point3 newton_tol ge0 mu0 nls ls geev tol finite gsl junk tq tx e s0 = UB why.
Proof.
  intros.
  assert (H : match qsc_input (m_of_Z mo) (fzero o) tq (default_store o newton_tol) with Throw _ => False | _ => True end) by (vm_compute; exact I).
  split.
  - destruct (qsc_table o mo newton_tol tq) as [(V & _)|(_ & m & E)]; [exact V|]. rewrite E in H. destruct H.
  - assert (G : match opt_inputs o mo point4 point3 newton_tol tq tx with UB _ => True | _ => False end) by (vm_compute; exact I).
    unfold opt_program. destruct (opt_inputs o mo point4 point3 newton_tol tq tx) as [| |w]; [destruct G|destruct G|]. exists w. reflexivity.
Qed.
Print Assumptions opt_without_modes_refuted.

(** ** An example *)
(** An optimization of eta_bar, B2c and the axis for a given iota at order r2.1, with one step of refinement. *)
Section Example.
Definition opt_qsc : Toml.table R :=
  [("nfp", Toml.TInt 3); ("order_r_option", TStr "r2.1"); ("B0", Toml.TFloat 1%R); ("R0c", TArr [Toml.TFloat 1%R; Toml.TFloat (1 / 20)%R]); ("Z0s", TArr [Toml.TFloat 0%R; Toml.TFloat (1 / 20)%R])].
Definition opt_opt : Toml.table R :=
  [("weight_iota", Toml.TFloat 1%R); ("max_iter", Toml.TInt 6); ("fourier_refine", Toml.TInt 1); ("nphi", TArr [Toml.TInt 15; Toml.TInt 21]); ("algorithm", TStr "dogleg")].
Notation inputs := (opt_inputs R_ops R_math 0%R 0%R 0%R opt_qsc opt_opt).
Notation program := (opt_program R_ops R_math 0%R 0%R 0%R Rge0 0%R easy_solver easy_solver2 easy_geev (tolerances_of R_ops R_math false) (fun _ => true) (fun _ _ => step_gsl) zero_junk opt_qsc opt_opt).
Lemma example_tables : exists sq so, inputs = Ok (sq, (so, GSL_DOGLEG, DIFF_METHOD_FORWARD)) /\ v_int sq "nfp" = 3%Z /\ v_int sq "nphi" = 15%Z /\ v_str sq "order_r_option" = "r2.1" /\
  v_vec sq "R0c" = [1; 1 / 20]%R /\ v_int so "fourier_refine" = 1%Z /\ v_ints so "nphi" = [15%Z; 21%Z] /\ v_int so "max_iter" = 6%Z /\ so "weight_iota" = VFloat 1%R /\
  v_bool so "vary_eta_bar" = true /\ (forall a, length (v_bools so (String.append "vary_" (axis_name a))) = 2).
Proof.
  assert (H : match inputs with Ok (sq, (so, alg, dm)) => (alg = GSL_DOGLEG /\ dm = DIFF_METHOD_FORWARD) /\ v_int sq "nfp" = 3%Z /\ v_int sq "nphi" = 15%Z /\ v_str sq "order_r_option" = "r2.1" /\
    v_vec sq "R0c" = [1; 1 / 20]%R /\ v_int so "fourier_refine" = 1%Z /\ v_ints so "nphi" = [15%Z; 21%Z] /\ v_int so "max_iter" = 6%Z /\ so "weight_iota" = VFloat 1%R /\
    v_bool so "vary_eta_bar" = true /\ length (v_bools so "vary_R0c") = 2 /\ length (v_bools so "vary_R0s") = 2 /\ length (v_bools so "vary_Z0c") = 2 /\ length (v_bools so "vary_Z0s") = 2 | _ => False end).
  { lazy -[Rdiv IZR Ropp Rplus Rmult Rminus]. repeat split. }
  destruct inputs as [[sq [[so alg] dm]]| |]; [|contradiction|contradiction]. destruct H as ((-> & ->) & H1 & H2 & H3 & H4 & H5 & H6 & H7 & H8 & H9 & G1 & G2 & G3 & G4).
  exists sq, so. repeat (split; [first [reflexivity|assumption]|]). intros []; assumption.
Qed.
Example opt_input_example : exists sq so alg dm s' l, inputs = Ok (sq, (so, alg, dm)) /\ acceptable_opt sq so /\ program two_processes plain_opt = Ok (s', l) /\ l <> [] /\
  holds_history s' (config s') (iteration_members s') /\ (forall sq, qsc_read R_ops R_math 0%R opt_qsc sq -> v_vec sq "R0c" <> []) /\
  solvers_ok easy_solver easy_solver2 /\ gsl_ok step_gsl /\ (forall n, length (zero_junk n) = n).
Proof.
  assert (J : forall n, length (zero_junk n) = n) by (intros n; apply repeat_length).
  assert (U : used R_ops plain_opt "iota" = true) by (unfold used; cbn; unfold Rltb; destruct (Rlt_dec 0 1) as [_|H]; [reflexivity|exfalso; apply H; exact Rlt_0_1]).
  destruct example_tables as (sq & so & Ei & E1 & E2 & E3 & E4 & E5 & E6 & E7 & E8 & E9 & E10).
  assert (A : acceptable_opt sq so).
  { unfold acceptable_opt. rewrite E1, E2, E4, E5, E6. unfold OptSpec.limits, nphi_limits. cbn [length]. split; [lia|]. split; [cbn; lia|]. split; [lia|]. repeat constructor; lia. }
  destruct (object_input_ok R_ops R_math 0%R 0%R 0%R _ _ sq so _ _ two_processes plain_opt Ei A) as (Hok & _ & _ & Ik & _ & Tk & G).
  destruct (optimization_completes Rge0 0%R 0%R easy_solver easy_solver2 easy_geev false step_gsl zero_junk (opt_object so (load sq (constructed R_ops two_processes)) plain_opt)) as (s' & l & E);
    [| | |exact step_gsl_ok|exact J|exact Hok| | | | | |].
  - intros m v. exists v. split; reflexivity.
  - intros m v. exists v. reflexivity.
  - reflexivity.
  - change (qx_order_r_option (r_q (st_rest (opt_object so (load sq (constructed R_ops two_processes)) plain_opt)))) with (m_text R (config (opt_object so (load sq (constructed R_ops two_processes)) plain_opt)) "order_r_option").
    rewrite Tk, E3. cbn. tauto.
  - cbn [opt_object st_rest r_max_iter]. rewrite E7. lia.
  - intros a. rewrite G. cbn [opt_object st_rest r_vary]. rewrite E10. destruct (inputs_parts R_ops R_math 0%R 0%R 0%R _ _ _ _ _ _ Ei) as (_ & _ & (n & _ & Ax) & _).
    rewrite (proj2 (Ax (axis_name a) ltac:(destruct a; cbn; tauto))), <- (proj2 (Ax "R0c" (or_introl eq_refl))), E4. reflexivity.
  - exists (PNum "eta_bar"). split; [cbn; tauto|exact E9].
  - exists "iota". split; [cbn; tauto|]. assert (W : st_num (opt_object so (load sq (constructed R_ops two_processes)) plain_opt) (String.append "weight_" "iota") = 1%R) by (cbn [opt_object st_num]; change (String.append "weight_" "iota") with "weight_iota"; rewrite E8; reflexivity).
    unfold used. rewrite W. unfold used in U. exact U.
  - exists sq, so, GSL_DOGLEG, DIFF_METHOD_FORWARD, s', l. split; [exact Ei|]. split; [exact A|]. split.
    { unfold opt_program. rewrite Ei. cbn [bind]. rewrite E5. exact E. }
    split.
    { apply (optimization_evaluates R_ops (m_sqrt R_math) (m_of_Z R_math) _ step_gsl zero_junk (opt_object so (load sq (constructed R_ops two_processes)) plain_opt) s' l (calculation_called_ok R_ops R_math Rge0 0%R 0%R easy_solver easy_solver2 easy_geev (tolerances_of R_ops R_math false) (fun _ => true) step_gsl zero_junk easy_ok step_gsl_ok J) Hok E).
      - change (qx_order_r_option (r_q (st_rest (opt_object so (load sq (constructed R_ops two_processes)) plain_opt)))) with (m_text R (config (opt_object so (load sq (constructed R_ops two_processes)) plain_opt)) "order_r_option").
        rewrite Tk. exact E3.
      - cbn [opt_object st_rest r_max_iter]. rewrite E7. lia. }
    split; [apply iteration_holds|]. split; [|split; [exact easy_ok|split; [exact step_gsl_ok|exact J]]].
    intros sq' (s1 & (He & _) & _ & n & Ax & _). specialize (He "R0c" KVec ltac:(cbn; tauto)). destruct (Ax "R0c" (or_introl eq_refl)) as (v & Ev & Lv & Eq). unfold v_vec. rewrite Eq.
    cbn in He. rewrite Ev in He. assert (Lw : length v = 2) by (inversion He; subst; match goal with H : Forall2 _ _ _ |- _ => rewrite <- (GridFacts.Forall2_len _ _ _ H) end; reflexivity).
    intros K. apply (f_equal (@length R)) in K. rewrite padded_length in K by exact Lv. cbn in K. lia.
Qed.
End Example.
