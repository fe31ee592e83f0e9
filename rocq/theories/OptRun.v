(** Facts about a whole optimization: safety, history, Fourier refinement. *)
From Coq Require Import String Ascii ZArith List Bool Arith Lia.
From Verif Require Import Base BaseFacts FloatOps Tensor TensorFacts Outfile ScanFacts MScan MScanDims Alloc AllocFacts Opt OptSpec OptState OptResid.
Import ListNotations.
Local Open Scope list_scope.
Local Open Scope nat_scope.

(** Normal results satisfy [P]; exceptions are allowed, undefined behaviour is not. *)
Definition safe {A} (T : string -> Prop) (P : A -> Prop) (x : outcome A) : Prop :=
  match x with Ok a => P a | Throw w => T w | UB _ => False end.
Lemma safe_bind {A B} T (P : A -> Prop) (Q : B -> Prop) x f :
  safe T P x -> (forall a, P a -> safe T Q (f a)) -> safe T Q (bind x f).
Proof. destruct x; cbn; auto. Qed.
Lemma safe_imp {A} T (P Q : A -> Prop) x : safe T P x -> (forall a, P a -> Q a) -> safe T Q x.
Proof. destruct x; cbn; auto. Qed.
Lemma safe_ok {A} T (P : A -> Prop) x a : safe T P x -> x = Ok a -> P a.
Proof. intros H ->. exact H. Qed.
Lemma safe_noub {A} T (P : A -> Prop) x w : safe T P x -> x <> UB w.
Proof. intros H ->. exact H. Qed.

Lemma extend_eq {A} (fill : A) l new : length l <= new ->
  extend fill (length l) new l = Ok (l ++ repeat fill (new - length l)).
Proof.
  intros Hn. unfold extend.
  destruct (for_loop_inv (fun k b => b = firstn k l ++ repeat fill (new - k)) (fun j b => do v <- aget l j; aset b j v) (length l) (repeat fill new))
    as (b & E & Hb).
  - cbn. f_equal. lia.
  - intros k b Hk ->. rewrite (aget_ok l k fill) by auto. cbn [bind]. eexists. split.
    + apply aset_ok. rewrite app_length, firstn_length, repeat_length. lia.
    + replace (new - k) with (S (new - (1 + k))) by lia. cbn [repeat].
      pose proof (upd_mid (firstn k l) (repeat fill (new - (1 + k))) fill (nth k l fill)) as U.
      rewrite firstn_length, Nat.min_l in U by lia. rewrite U.
      replace (1 + k) with (S k) by lia.
      assert (E : firstn (S k) l = firstn k l ++ [nth k l fill]).
      { clear -Hk. revert k Hk. induction l as [|a l IH]; intros [|k] Hk; cbn in *; try lia; auto.
        f_equal. apply IH. lia. }
      rewrite E, <- app_assoc. reflexivity.
  - rewrite E, Hb, firstn_all. reflexivity.
Qed.

Section Run.
Context {F : Type} (o : fops F) (fsqrt : F -> F) (of_Z : Z -> F) {Y : Type}.
Notation qobj := (@qobj F).
Notation rest := (@rest F Y).
Notation opt := (@stage F rest).
Notation terms := (terms o fsqrt of_Z).
Notation residual_labels := (residual_labels o fsqrt of_Z).
Notation residual_vector := (residual_vector o fsqrt of_Z).
Notation evaluated := (evaluated o fsqrt of_Z).

(** ** Recording *)
Lemma record_numbers_eq (s : opt) i : forall t it, NoDup (map fst t) -> (forall m x, In (m, x) t -> i < length (it m)) ->
  exists it', record_numbers t s i it = Ok it' /\
    (forall m x, In (m, x) t -> it' m = upd (it m) i (quantity_of s x)) /\
    (forall m, ~ In m (map fst t) -> it' m = it m).
Proof.
  induction t as [|[m x] t IH]; intros it Hd Hl; cbn [record_numbers].
  - exists it. split; auto. split; [intros ? ? []|auto].
  - cbn [map fst] in Hd. inversion Hd as [|? ? Hn Hd']; subst.
    rewrite aset_ok by (apply (Hl m x); left; auto). cbn [bind].
    destruct (IH (set_iter it m (upd (it m) i (quantity_of s x))) Hd') as (it' & E & H1 & H2).
    { intros m' x' I. unfold set_iter. destruct (String.eqb_spec m' m).
      - subst. rewrite upd_length. apply (Hl m x); left; auto.
      - apply (Hl m' x'). right; auto. }
    exists it'. split; [exact E|]. split.
    + intros m' x' [I|I].
      * injection I as -> ->. rewrite H2 by auto. unfold set_iter. rewrite String.eqb_refl. reflexivity.
      * rewrite (H1 m' x' I). unfold set_iter. destruct (String.eqb_spec m' m); auto. subst.
        exfalso. apply Hn. apply (in_map fst) in I. exact I.
    + cbn [map fst]. intros m' Hm. rewrite H2 by (intros I; apply Hm; right; auto).
      unfold set_iter. destruct (String.eqb_spec m' m); auto. subst. exfalso. apply Hm. left; auto.
Qed.
Lemma history_nodup : NoDup (map fst history_table).
Proof.
  assert (D : forall l : list string, (fix f l := match l with [] => true | x :: l => negb (existsb (String.eqb x) l) && f l end) l = true -> NoDup l).
  { induction l as [|x l IH]; intros H; [constructor|]. apply andb_true_iff in H as [H1 H2]. constructor; [|apply IH; exact H2].
    intros Hi. apply negb_true_iff in H1. assert (existsb (String.eqb x) l = true); [|congruence].
    apply existsb_exists. exists x. split; [exact Hi|apply String.eqb_refl]. }
  apply D. reflexivity.
Qed.

Lemma matrix_set_cell r c (m : matrix F) k i v : mat_ok r c m -> k < r -> i < c ->
  exists m', matrix_set m k i v = Ok m' /\ mat_ok r c m' /\
    forall k' i', k' < r -> cell m' k' i' = if (k' =? k) && (i' =? i) then Some v else cell m k' i'.
Proof.
  intros (Hr & Hc & Hd) Hk Hi. unfold matrix_set, matrix_index. rewrite Hr.
  rewrite aset_ok by (rewrite Hd; apply idx2_bound; auto). cbn [bind]. eexists. split; [reflexivity|]. split.
  { unfold mat_ok. cbn. rewrite upd_length. auto. }
  intros k' i' Hk'. unfold cell. cbn [m_data m_nrows]. rewrite Hr.
  destruct ((k' =? k) && (i' =? i)) eqn:E.
  - bprop. subst. apply nth_error_upd_same. rewrite Hd. apply idx2_bound; auto.
  - apply nth_error_upd_other. intros X. apply idx2_inj in X as [-> ->]; auto. do 2 rewrite Nat.eqb_refl in E. discriminate.
Qed.

Lemma record_axis_eq (s : opt) i na c it : (forall a, length (get_axis (st_q s) a) = na) -> i < c ->
  (forall n a, In (n, a) recorded_axes -> mat_ok na c (it n)) ->
  exists it', record_axis s i it = Ok it' /\
    (forall n a, In (n, a) recorded_axes -> mat_ok na c (it' n) /\
       forall k i', k < na -> cell (it' n) k i' = if i' =? i then nth_error (get_axis (st_q s) a) k else cell (it n) k i').
Proof.
  intros Hl Hi Hm. unfold record_axis. change (qo_R0c (st_q s)) with (get_axis (st_q s) R0c) at 1. rewrite (Hl R0c).
  match goal with |- exists it', for_loop na ?body it = _ /\ _ =>
    destruct (for_loop_inv (fun j jt => forall n a, In (n, a) recorded_axes -> mat_ok na c (jt n) /\
       forall k i', k < na -> cell (jt n) k i' = if (i' =? i) && (k <? j) then nth_error (get_axis (st_q s) a) k else cell (it n) k i')
      body na it) as (it' & E & H) end.
  - intros n a I. split; [eauto|]. intros k i' _. rewrite andb_false_r. reflexivity.
  - intros j jt Hj H.
    set (v a := nth j (get_axis (st_q s) a) (fzero o)).
    assert (Hv : forall a, aget (get_axis (st_q s) a) j = Ok (v a)) by (intros a; apply aget_ok; rewrite Hl; auto).
    assert (Hv' : forall a, nth_error (get_axis (st_q s) a) j = Some (v a)) by (intros a; apply aget_inv, Hv).
    pose proof (Hv R0c) as V1. pose proof (Hv R0s) as V2. pose proof (Hv Z0c) as V3. pose proof (Hv Z0s) as V4. cbn [get_axis] in V1, V2, V3, V4.
    destruct (H "iter_R0c"%string R0c) as [M1 C1]; [cbn; auto|]. destruct (H "iter_R0s"%string R0s) as [M2 C2]; [cbn; auto|].
    destruct (H "iter_Z0c"%string Z0c) as [M3 C3]; [cbn; auto|]. destruct (H "iter_Z0s"%string Z0s) as [M4 C4]; [cbn; auto|].
    destruct (matrix_set_cell na c _ j i (v R0c) M1 Hj Hi) as (m1 & S1 & N1 & D1).
    destruct (matrix_set_cell na c _ j i (v R0s) M2 Hj Hi) as (m2 & S2 & N2 & D2).
    destruct (matrix_set_cell na c _ j i (v Z0c) M3 Hj Hi) as (m3 & S3 & N3 & D3).
    destruct (matrix_set_cell na c _ j i (v Z0s) M4 Hj Hi) as (m4 & S4 & N4 & D4).
    rewrite V1, V2, V3, V4. cbn [bind]. rewrite S1. cbn [bind]. unfold set_iter at 1. cbn [String.eqb Ascii.eqb Bool.eqb].
    rewrite S2. cbn [bind]. unfold set_iter at 1 2. cbn [String.eqb Ascii.eqb Bool.eqb]. rewrite S3. cbn [bind].
    unfold set_iter at 1 2 3. cbn [String.eqb Ascii.eqb Bool.eqb]. rewrite S4. cbn [bind]. eexists. split; [reflexivity|].
    assert (Fin : forall a k i' (m m' : matrix F) (old : matrix F), k < na ->
      (forall k' i', k' < na -> cell m' k' i' = if (k' =? j) && (i' =? i) then Some (v a) else cell m k' i') ->
      (forall k i', k < na -> cell m k i' = if (i' =? i) && (k <? j) then nth_error (get_axis (st_q s) a) k else cell old k i') ->
      cell m' k i' = if (i' =? i) && (k <? 1 + j) then nth_error (get_axis (st_q s) a) k else cell old k i').
    { intros a k i' m m' old Hk D C. rewrite D, C by auto.
      destruct (k =? j) eqn:Ek; destruct (i' =? i) eqn:Ei; cbn [andb]; auto.
      - bprop. subst. replace (j <? 1 + j) with true by (symmetry; apply Nat.ltb_lt; lia). rewrite Hv'. reflexivity.
      - bprop. replace (k <? 1 + j) with (k <? j); auto. destruct (k <? j) eqn:E1; symmetry; [apply Nat.ltb_lt|apply Nat.ltb_ge]; bprop; lia. }
    intros n a I. cbn in I. destruct I as [I|[I|[I|[I|[]]]]]; injection I as <- <-; unfold set_iter; cbn [String.eqb Ascii.eqb Bool.eqb];
      (split; [assumption|]); intros k i' Hk; eapply Fin; eauto.
  - exists it'. split; [exact E|]. intros n a I. destruct (H n a I) as [M C]. split; auto. intros k i' Hk. rewrite C by auto.
    replace (k <? na) with true by (symmetry; apply Nat.ltb_lt; auto). rewrite andb_true_r. reflexivity.
Qed.

(** ** What is true throughout an optimization *)
Variable rt : @routines F Y.
Variable fit : qobj -> @qextra F Y -> Prop.
Variable gsl : nat -> opt -> Z -> list F -> list (@event F).
Variable junk : nat -> list F.
Variable s0 : opt.                          (* the object at the beginning *)
Notation q0 := (st_q s0).
Notation fr := (st_fourier_refine s0).
Let old := length (qo_R0c q0).
Let na := old + fr.
Let c := Z.to_nat (r_max_iter (st_rest s0)).

(** The flags after [j] steps of refinement. *)
Definition vary_at (j : nat) (a : axis) : list bool :=
  r_vary (st_rest s0) a ++ match a with R0c | Z0s => repeat true j ++ repeat false (fr - j) | _ => repeat false fr end.
Definition free_at (j : nat) (p : param) : Prop :=
  match p with
  | PNum m => In m varied_numbers /\ r_vary_num (st_rest s0) m = true
  | PAxis a k => nth_error (vary_at j a) k = Some true
  end.
(** The initial configuration, with the new modes. *)
Definition init_value (p : param) : option F :=
  match p with
  | PNum m => Some (qo_num q0 m)
  | PAxis a k => nth_error (get_axis q0 a ++ repeat (fzero o) fr) k
  end.
Definition nphi_at (j : nat) : Z :=
  match nth_error (r_nphi (st_rest s0)) j with Some n => odd_nphi n | None => qx_nphi (r_q (st_rest s0)) end.

Record HistSized (s : opt) : Prop := {
  hs_num : forall m x, In (m, x) history_table -> length (st_iter s m) = c;
  hs_axes : forall n a, In (n, a) recorded_axes -> mat_ok na c (st_iter_axis s n);
  hs_step : length (r_iter_fourier_refine_step (st_rest s)) = c }.
Record Phase (j : nat) (s : opt) : Prop := {
  ph_num : st_num s = st_num s0;
  ph_fr : st_fourier_refine s = fr;
  ph_max : r_max_iter (st_rest s) = r_max_iter (st_rest s0);
  ph_nphis : r_nphi (st_rest s) = r_nphi (st_rest s0);
  ph_vnum : r_vary_num (st_rest s) = r_vary_num (st_rest s0);
  ph_vary : forall a, r_vary (st_rest s) a = vary_at j a;
  ph_len : forall a, length (get_axis (st_q s) a) = na;
  ph_fixed : forall p, is_input p -> ~ free_at j p -> value (st_q s) p = init_value p;
  ph_extra : same_extra (r_q (st_rest s0)) (r_q (st_rest s));
  ph_hist : HistSized s;
  ph_nphi : nphi_limits (qx_nphi (r_q (st_rest s))) }.
Record Active (j : nat) (s : opt) : Prop := {
  ac_phase : Phase j s;
  ac_j : r_j_fourier_refine (st_rest s) = j;
  ac_np : r_n_parameters (st_rest s) = length (params (st_rest s));
  ac_names : r_state_vector_names (st_rest s) = map param_name (params (st_rest s));
  ac_nt : r_n_terms (st_rest s) = length (residual_labels s);
  ac_labels : r_residual_names (st_rest s) = residual_labels s;
  ac_res : length (r_residuals (st_rest s)) = r_n_terms (st_rest s);
  ac_nphi : qx_nphi (r_q (st_rest s)) = nphi_at j;
  ac_fit : fit (st_q s) (r_q (st_rest s)) }.

(** The object at the beginning is as Opt::input and Opt::allocate leave it. *)
Record ready : Prop := {
  rd_axes : forall a, length (get_axis q0 a) = old;
  rd_nphis : r_nphi (st_rest s0) = [] \/ length (r_nphi (st_rest s0)) = fr + 1;
  rd_nphi_limits : Forall nphi_limits (r_nphi (st_rest s0)) /\ nphi_limits (qx_nphi (r_q (st_rest s0)));
  rd_limits : limits na (qx_nfp (r_q (st_rest s0)));
  rd_nphi : odd_nphi (qx_nphi (r_q (st_rest s0))) = qx_nphi (r_q (st_rest s0));
  rd_hist : HistSized s0;
  rd_max : (0 <= r_max_iter (st_rest s0))%Z;
  rd_blank : forall i, i < c -> (forall m x, In (m, x) history_table -> nth_error (st_iter s0 m) i = Some (fzero o)) /\
     (forall n a k, In (n, a) recorded_axes -> k < na -> cell (st_iter_axis s0 n) k i = Some (fzero o)) /\
     nth_error (r_iter_fourier_refine_step (st_rest s0)) i = Some 0%Z }.
Hypothesis Hready : ready.
Hypothesis Hflag : forall a, length (r_vary (st_rest s0) a) = length (get_axis q0 a).
Hypothesis Hqsc : qsc_ok fit rt.
Hypothesis Hgsl : gsl_ok gsl.
Hypothesis Hjunk : forall n, length (junk n) = n.
(** The exceptions that may be thrown: those of the routines, and those for an object without varied parameters or without terms. *)
Variable Th : string -> Prop.
Hypothesis Tallocate : forall q x w, acceptable q x -> q_allocate rt q x = Throw w -> Th w.
Hypothesis Tinit : forall q x w, acceptable q x -> same_extra (r_q (st_rest s0)) x -> q_init rt q x = Throw w -> Th w.
Hypothesis Tcalculate : forall q x w, fit q x -> q_calculate rt q x = Throw w -> Th w.
Hypothesis Tparams : (forall p, ~ free_at 0 p) -> Th "There must be at least 1 parameter varied."%string.
Hypothesis Tterms : (forall name, In name term_names -> used o s0 name = false) -> Th "There must be at least 1 residual term."%string.

Lemma vary_at_length j a : j <= fr -> length (vary_at j a) = na.
Proof.
  intros Hj. unfold vary_at. rewrite app_length, Hflag, (rd_axes Hready). unfold na. f_equal.
  destruct a; repeat rewrite app_length; repeat rewrite repeat_length; lia.
Qed.
Lemma phase_flagged j s : j <= fr -> Phase j s -> flagged s.
Proof. intros Hj H a. rewrite (ph_vary j s H), (ph_len j s H). apply vary_at_length; auto. Qed.
Lemma phase_free j s p : Phase j s -> free s p <-> free_at j p.
Proof. intros H. unfold free, free_at. destruct p; [rewrite (ph_vnum j s H); tauto|]. rewrite (ph_vary j s H). tauto. Qed.
Lemma free_input (s : opt) p : free s p -> is_input p.
Proof. destruct p; cbn; tauto. Qed.
Lemma same_inputs_value (q q' : qobj) : same_inputs q q' <-> forall p, is_input p -> value q' p = value q p.
Proof.
  split.
  - intros [H1 H2] [m|a k] Hp; cbn [value]; [rewrite H1; auto|rewrite H2; auto].
  - intros H. split; [intros m Hm; specialize (H (PNum m) Hm); cbn in H; congruence|].
    intros a. apply nth_error_ext. intros k. apply (H (PAxis a k)). exact I.
Qed.
Lemma same_inputs_refl (q : qobj) : same_inputs q q.
Proof. split; auto. Qed.
Lemma same_inputs_trans (q1 q2 q3 : qobj) : same_inputs q1 q2 -> same_inputs q2 q3 -> same_inputs q1 q3.
Proof. intros [A B] [C D]. split; [intros m Hm; rewrite C, A; auto|intros a; rewrite D, B; auto]. Qed.

Lemma same_extra_trans (x1 x2 x3 : @qextra F Y) : same_extra x1 x2 -> same_extra x2 x3 -> same_extra x1 x3.
Proof. intros [A B] [C D]. split; congruence. Qed.
(** The parts of an object that belong to the history. *)
Definition same_history (s s' : opt) : Prop :=
  st_iter s' = st_iter s /\ st_iter_axis s' = st_iter_axis s /\
  r_iter_fourier_refine_step (st_rest s') = r_iter_fourier_refine_step (st_rest s) /\
  r_n_iter (st_rest s') = r_n_iter (st_rest s) /\ r_n_evals (st_rest s') = r_n_evals (st_rest s).
Lemma hist_sized_same s s' : same_history s s' -> HistSized s -> HistSized s'.
Proof. intros (A & B & C & _) [H1 H2 H3]. constructor; rewrite ?A, ?B, ?C; auto. Qed.
Definition computed (s : opt) : Prop := exists q x, fit q x /\ q_calculate rt q x = Ok (st_q s, r_q (st_rest s)) /\ same_inputs q (st_q s).

Lemma evaluate_safe j s x : j <= fr -> Active j s -> qx_order_r2p1 (r_q (st_rest s)) = true ->
  length x = length (params (st_rest s)) ->
  safe Th (fun s' => Active j s' /\ evaluated s' /\ qx_order_r2p1 (r_q (st_rest s')) = true /\ arrays_ok (r_q (st_rest s')) /\
                  computed s' /\ same_history s s' /\
                  same_inputs (assign (params (st_rest s)) x (st_q s)) (st_q s')) (evaluate o fsqrt of_Z rt x s).
Proof.
  intros Hj Ha Ho Hx. destruct Ha as [Hp Hjj Hnp Hnames Hnt Hlab Hres Hnphi Hft].
  assert (Hf := phase_flagged j s Hj Hp).
  unfold evaluate. rewrite (unpack_eq s x Hf Hx Hnp). cbn [bind].
  set (qa := assign (params (st_rest s)) x (st_q s)).
  assert (Hfit : fit qa (r_q (st_rest s))) by (apply (inputs_fit fit rt Hqsc (st_q s)); [exact Hft|intros a; apply assign_length]).
  unfold on_q. cbn [st_q st_rest with_q r_q].
  destruct (q_calculate rt qa (r_q (st_rest s))) as [[q1 x1]| |] eqn:Ec; cbn [bind safe fst snd].
  2: { exact (Tcalculate _ _ _ Hfit Ec). }
  2: { exact (proj2 (no_ub fit rt Hqsc qa (r_q (st_rest s)) why) Hfit Ec). }
  destruct (calculate_ok fit rt Hqsc _ _ _ _ Hfit Ec) as (Hsi & Hfp1 & Hn1 & Ho1 & Harr & Hfit1).
  set (s1 := with_q q1 x1 (with_q qa (r_q (st_rest s)) s)).
  assert (L1 : residual_labels s1 = residual_labels s).
  { apply labels_ext; [|reflexivity]. unfold nphi. cbn. rewrite Hn1. reflexivity. }
  assert (A1 : arrays_ok (r_q (st_rest s1))) by (apply Harr; auto).
  destruct (set_residuals_eq o fsqrt of_Z s1 A1) as (tf & E & Hev).
  { rewrite L1. exact Hnt. }
  { exact Hres. }
  cbv zeta in E, Hev. rewrite E. cbn [bind safe fst].
  set (s2 := set_rest (set_objective (residual_vector s1) (objective o s1 tf) tf (st_rest s1)) s1) in *.
  assert (L2 : residual_labels s2 = residual_labels s).
  { rewrite <- L1. apply labels_ext; reflexivity. }
  split; [|split; [exact Hev|split; [|split; [exact A1|split; [|split]]]]].
  - constructor; auto.
    + constructor; try apply Hp; auto.
      * intros a. cbn [s2 s1 st_q set_rest with_q]. rewrite (proj2 Hsi). unfold qa. rewrite assign_length. apply (ph_len j s Hp).
      * intros p Hi Hn. cbn [s2 s1 st_q set_rest with_q].
        rewrite (proj1 (same_inputs_value _ _) Hsi p Hi). unfold qa.
        rewrite value_assign_other; [apply (ph_fixed j s Hp); auto|apply params_present; exact Hf|].
        intros I. apply Hn. rewrite <- (phase_free j s p Hp). apply in_params. exact I.
      * cbn. eapply same_extra_trans; [apply (ph_extra j s Hp)|exact Hfp1].
      * apply (hist_sized_same s); [repeat split|apply (ph_hist j s Hp)].
      * cbn. rewrite Hn1. apply (ph_nphi j s Hp).
    + rewrite L2. exact Hnt.
    + rewrite L2. exact Hlab.
    + cbn [s2 st_rest set_rest r_residuals set_objective r_n_terms]. rewrite <- labels_length, L1. symmetry. exact Hnt.
    + cbn. rewrite Hn1. exact Hnphi.
  - cbn. rewrite Ho1. exact Ho.
  - exists qa, (r_q (st_rest s)). split; [exact Hfit|]. split; [exact Ec|exact Hsi].
  - repeat split.
  - exact Hsi.
Qed.

(** ** History *)
Definition reports (l : list (bool * opt)) : list opt := map snd (filter fst l).
Definition column (s : opt) (i : nat) (r : opt) : Prop :=
  (forall m v, In (m, v) (recorded r) -> nth_error (st_iter s m) i = Some v) /\
  (forall n a k, In (n, a) recorded_axes -> k < na -> cell (st_iter_axis s n) k i = nth_error (get_axis (st_q r) a) k) /\
  nth_error (r_iter_fourier_refine_step (st_rest s)) i = Some (Z.of_nat (r_j_fourier_refine (st_rest r))).
Definition blank (s : opt) (i : nat) : Prop :=
  (forall m x, In (m, x) history_table -> nth_error (st_iter s m) i = Some (fzero o)) /\
  (forall n a k, In (n, a) recorded_axes -> k < na -> cell (st_iter_axis s n) k i = Some (fzero o)) /\
  nth_error (r_iter_fourier_refine_step (st_rest s)) i = Some 0%Z.
Record Hist (s : opt) (l : list (bool * opt)) : Prop := {
  hi_n : r_n_iter (st_rest s) = length (reports l);
  hi_max : r_n_iter (st_rest s) <= c;
  hi_col : forall i r, nth_error (reports l) i = Some r -> column s i r;
  hi_blank : forall i, length (reports l) <= i < c -> blank s i }.
Lemma hist_same s s' l : same_history s s' -> Hist s l -> Hist s' l.
Proof.
  intros (A & B & C & D & E) [H1 H2 H3 H4].
  constructor; rewrite ?D; auto; unfold column, blank in *; rewrite ?A, ?B, ?C; auto.
Qed.
Lemma reports_app l l' : reports (l ++ l') = reports l ++ reports l'.
Proof. unfold reports. rewrite filter_app, map_app. reflexivity. Qed.
Lemma hist_eval s l s' : Hist s l -> Hist s (l ++ [(false, s')]).
Proof.
  intros H. assert (E : reports (l ++ [(false, s')]) = reports l) by (rewrite reports_app; apply app_nil_r).
  destruct H as [H1 H2 H3 H4]. constructor; rewrite ?E; auto.
Qed.
Lemma recorded_table (s : opt) m v : In (m, v) (recorded s) -> exists x, In (m, x) history_table /\ quantity_of s x = v.
Proof.
  unfold recorded. cbn [map app String.append].
  intros I. repeat (destruct I as [I|I]; [injection I as <- <-;
    match goal with |- exists x, In (?m, x) _ /\ _ =>
      let r := eval vm_compute in (lookup history_table m) in
      match r with Some ?x => exists x; split; [apply lookup_In; reflexivity|reflexivity] end end|]). destruct I.
Qed.
Lemma record_ok j s l : Active j s -> Hist s l -> r_n_iter (st_rest s) < c ->
  exists s', record s = Ok s' /\ Active j s' /\ Hist s' (l ++ [(true, s')]) /\ st_q s' = st_q s /\ r_q (st_rest s') = r_q (st_rest s) /\
    r_terms (st_rest s') = r_terms (st_rest s) /\ r_objective (st_rest s') = r_objective (st_rest s) /\
    r_residuals (st_rest s') = r_residuals (st_rest s) /\
    r_n_iter (st_rest s') = S (r_n_iter (st_rest s)) /\ r_n_evals (st_rest s') = r_n_evals (st_rest s).
Proof.
  intros Ha [H1 H2 H3 H4] Hlt. destruct Ha as [Hp Hjj Hnp Hnames Hnt Hlab Hres Hnphi].
  destruct (ph_hist j s Hp) as [S1 S2 S3]. unfold record. set (i := r_n_iter (st_rest s)) in *.
  destruct (record_numbers_eq s i history_table (st_iter s) history_nodup) as (it & E1 & N1 & N2).
  { intros m x I. rewrite (S1 m x I). exact Hlt. }
  destruct (record_axis_eq s i na c (st_iter_axis s) (ph_len j s Hp) Hlt S2) as (ax & E2 & N3).
  rewrite E1. cbn [bind]. rewrite E2. cbn [bind]. rewrite aset_ok by (rewrite S3; exact Hlt). cbn [bind].
  eexists. split; [reflexivity|].
  match goal with |- Active j ?x /\ _ => set (s' := x) end.
  assert (L : residual_labels s' = residual_labels s) by (apply labels_ext; reflexivity).
  split; [|split; [|repeat split]].
  - constructor; auto.
    + constructor; try apply Hp. constructor; cbn [s' st_iter st_iter_axis st_rest set_counts set_steps r_iter_fourier_refine_step].
      * intros m x I. rewrite (N1 m x I), upd_length. apply (S1 m x I).
      * intros n a I. apply (N3 n a I).
      * rewrite upd_length. exact S3.
  - assert (Er : reports (l ++ [(true, s')]) = reports l ++ [s']) by (rewrite reports_app; reflexivity).
    constructor; rewrite ?Er, ?app_length; cbn [length].
    + cbn. fold i. rewrite H1. lia.
    + cbn. fold i. lia.
    + intros k r Hk. unfold column. cbn [s' st_iter st_iter_axis st_rest set_counts set_steps r_iter_fourier_refine_step].
      destruct (Nat.eq_dec k i) as [->|Hne].
      * rewrite nth_error_app2 in Hk by lia. replace (i - length (reports l)) with 0 in Hk by lia. injection Hk as <-.
        split; [|split].
        { intros m v I. destruct (recorded_table s' m v I) as (x & It & Ex). rewrite (N1 m x It).
          rewrite nth_error_upd_same by (rewrite (S1 m x It); auto). rewrite <- Ex. destruct x; reflexivity. }
        { intros n a k I Hk. destruct (N3 n a I) as [_ N]. rewrite N by auto. rewrite Nat.eqb_refl. reflexivity. }
        { rewrite nth_error_upd_same by (rewrite S3; auto). reflexivity. }
      * assert (Hk' : k < length (reports l)).
        { assert (k < length (reports l ++ [s'])) by (apply nth_error_Some; congruence). rewrite app_length in H. cbn in H. lia. }
        rewrite nth_error_app1 in Hk by auto. destruct (H3 k r Hk) as (C1 & C2 & C3). split; [|split].
        { intros m v I. destruct (recorded_table r m v I) as (x & It & Ex). rewrite (N1 m x It).
          rewrite nth_error_upd_other by auto. apply C1; auto. }
        { intros n a k' I Hk''. destruct (N3 n a I) as [_ N]. rewrite N by auto.
          destruct (k =? i) eqn:E; [bprop; lia|]. apply (C2 n a k' I Hk''). }
        { rewrite nth_error_upd_other by auto. exact C3. }
    + intros k Hk. destruct (H4 k) as (C1 & C2 & C3); [lia|]. unfold blank.
      cbn [s' st_iter st_iter_axis st_rest set_counts set_steps r_iter_fourier_refine_step]. split; [|split].
      * intros m x I. rewrite (N1 m x I), nth_error_upd_other by lia. apply (C1 m x I).
      * intros n a k' I Hk'. destruct (N3 n a I) as [_ N]. rewrite N by auto.
        destruct (k =? i) eqn:E; [bprop; lia|]. apply (C2 n a k' I Hk').
      * rewrite nth_error_upd_other by lia. exact C3.
Qed.

(** ** The log *)
Definition entry_ok (e : bool * opt) : Prop :=
  let s := snd e in
  r_j_fourier_refine (st_rest s) <= fr /\ Active (r_j_fourier_refine (st_rest s)) s /\ evaluated s /\
  qx_order_r2p1 (r_q (st_rest s)) = true /\ arrays_ok (r_q (st_rest s)) /\ computed s.
Definition level (e : bool * opt) : nat := r_j_fourier_refine (st_rest (snd e)).
Definition follows (e e' : bool * opt) : Prop :=
  level e' = level e \/ level e' = S (level e) /\ same_inputs (st_q (snd e)) (st_q (snd e')).
Definition starts (e : bool * opt) : Prop :=
  level e = 0 /\ forall p, is_input p -> value (st_q (snd e)) p = init_value p.
Record log_ok (l : list (bool * opt)) : Prop := {
  lo_entry : Forall entry_ok l;
  lo_first : forall e, nth_error l 0 = Some e -> starts e;
  lo_next : forall i e e', nth_error l i = Some e -> nth_error l (S i) = Some e' -> follows e e' }.
Definition last_entry (l : list (bool * opt)) : option (bool * opt) := nth_error l (length l - 1).
Lemma last_app l (e : bool * opt) : last_entry (l ++ [e]) = Some e.
Proof.
  unfold last_entry. rewrite app_length. cbn. replace (length l + 1 - 1) with (length l) by lia. apply nth_mid.
Qed.
(** The next entry may be at level [j], with the configuration of [s]. *)
Definition cursor (l : list (bool * opt)) (j : nat) (s : opt) : Prop :=
  match last_entry l with
  | None => j = 0 /\ forall p, is_input p -> value (st_q s) p = init_value p
  | Some e => S (level e) = j /\ same_inputs (st_q (snd e)) (st_q s)
  end.
Lemma log_nil : log_ok [].
Proof. constructor; [apply Forall_nil|discriminate|]. intros [|i] e e' H; discriminate. Qed.
Lemma log_app l e : log_ok l -> entry_ok e ->
  match last_entry l with None => starts e | Some e1 => follows e1 e end -> log_ok (l ++ [e]).
Proof.
  intros [H1 H2 H3] He Hn. constructor.
  - apply Forall_app. auto.
  - intros e' E. destruct l as [|a l]; [|apply H2; exact E]. cbn in E. injection E as <-. exact Hn.
  - intros i e1 e2 E1 E2. assert (S i < length (l ++ [e])) as Hl by (apply nth_error_Some; congruence).
    rewrite app_length in Hl. cbn in Hl. rewrite nth_error_app1 in E1 by lia.
    destruct (Nat.eq_dec (S i) (length l)) as [Hi|Hi].
    + rewrite nth_error_app2 in E2 by lia. rewrite Hi, Nat.sub_diag in E2. injection E2 as <-.
      unfold last_entry in Hn. replace (length l - 1) with i in Hn by lia. rewrite E1 in Hn. exact Hn.
    + rewrite nth_error_app1 in E2 by lia. eapply H3; eauto.
Qed.
Lemma last_none l : last_entry l = None -> l = [].
Proof. destruct l; auto. intros H. apply nth_error_None in H. cbn in H. lia. Qed.

Definition n_reports (es : list (@event F)) : nat := length (filter is_report es).
(** The object after a step of the log is the logged one. *)
Record running (j : nat) (st : opt * list (bool * opt)) : Prop := {
  rn_le : j <= fr;
  rn_active : Active j (fst st);
  rn_order : qx_order_r2p1 (r_q (st_rest (fst st))) = true;
  rn_hist : Hist (fst st) (snd st);
  rn_log : log_ok (snd st) }.
Lemma evaluated_same (s s' : opt) : st_num s' = st_num s -> st_q s' = st_q s -> r_q (st_rest s') = r_q (st_rest s) ->
  r_residuals (st_rest s') = r_residuals (st_rest s) -> r_terms (st_rest s') = r_terms (st_rest s) ->
  r_objective (st_rest s') = r_objective (st_rest s) -> evaluated s -> evaluated s'.
Proof.
  intros A B C D E G (H1 & H2 & H3).
  assert (T : terms s' = terms s). { unfold OptSpec.terms, OptSpec.af, OptSpec.arr, nphi. rewrite A, B, C. reflexivity. }
  split; [|split].
  - rewrite D, H1. unfold OptSpec.residual_vector. rewrite T. apply flat_map_ext. intros [[n k] f].
    unfold used, entries, nphi. rewrite A, C. reflexivity.
  - rewrite T, E. intros t It. rewrite (H2 t It). unfold term_value, entries, nphi. rewrite C. reflexivity.
  - rewrite G, H3, E. symmetry. apply objective_ext. rewrite A. reflexivity.
Qed.
Lemma run_event_safe j e st : running j st ->
  length (point e) = length (params (st_rest (fst st))) -> r_n_iter (st_rest (fst st)) + n_reports [e] <= c ->
  (cursor (snd st) j (fst st) /\ point e = map (val o (st_q (fst st))) (params (st_rest (fst st))) \/
   exists e1, last_entry (snd st) = Some e1 /\ level e1 = j) ->
  safe Th (fun st' => running j st' /\ r_n_iter (st_rest (fst st')) = r_n_iter (st_rest (fst st)) + n_reports [e] /\
          params (st_rest (fst st')) = params (st_rest (fst st)) /\ r_n_evals (st_rest (fst st')) = r_n_evals (st_rest (fst st)) /\
          exists e1, snd st' = snd st ++ [e1] /\ level e1 = j /\ snd e1 = fst st' /\ made (params (st_rest (fst st))) e e1) (run_event o fsqrt of_Z rt e st).
Proof.
  intros [Hj Ha Ho Hh Hl] Hx Hn Hc. destruct st as [s l]. cbn [fst snd] in *.
  assert (Step : safe Th (fun s' => Active j s' /\ evaluated s' /\ qx_order_r2p1 (r_q (st_rest s')) = true /\ arrays_ok (r_q (st_rest s')) /\
       computed s' /\ same_history s s' /\ same_inputs (assign (params (st_rest s)) (point e) (st_q s)) (st_q s'))
       (evaluate o fsqrt of_Z rt (point e) s)) by (apply evaluate_safe; auto).
  assert (Pext : forall s' : opt, Active j s' -> params (st_rest s') = params (st_rest s)).
  { intros s' Ha'. destruct Ha as [Hp _ _ _ _ _ _ _]. destruct Ha' as [Hp' _ _ _ _ _ _ _].
    unfold params, params_num, params_axis, axis_at. rewrite (ph_vnum j s Hp), (ph_vnum j s' Hp').
    repeat rewrite (ph_vary j s Hp). repeat rewrite (ph_vary j s' Hp'). 
    assert (X : forall a, flat_map (fun k => if nth k (r_vary (st_rest s') a) false then [PAxis a k] else []) (seq 0 (length (vary_at j a))) =
                          flat_map (fun k => if nth k (r_vary (st_rest s) a) false then [PAxis a k] else []) (seq 0 (length (vary_at j a)))).
    { intros a. rewrite (ph_vary j s Hp), (ph_vary j s' Hp'). reflexivity. }
    repeat rewrite X. reflexivity. }
  assert (Good : forall b s', Active j s' -> evaluated s' -> qx_order_r2p1 (r_q (st_rest s')) = true -> arrays_ok (r_q (st_rest s')) ->
     computed s' -> same_inputs (assign (params (st_rest s)) (point e) (st_q s)) (st_q s') -> log_ok (l ++ [(b, s')])).
  { intros b s' A1 A2 A3 A4 A5 A6. apply log_app; auto.
    - unfold entry_ok. cbn [snd]. rewrite (ac_j j s' A1). auto 10.
    - unfold level in Hc. destruct Hc as [[Hc Hpt]|(e1 & E1 & L1)].
      + assert (Hsame : same_inputs (st_q s) (st_q s')).
        { eapply same_inputs_trans; [|exact A6]. apply same_inputs_value. intros p _. rewrite Hpt. apply assign_val.
          exact (phase_flagged j s Hj (ac_phase j s Ha)). }
        unfold cursor in Hc. destruct (last_entry l) as [e1|] eqn:El.
        * right. unfold level. cbn [snd]. rewrite (ac_j j s' A1). split; [symmetry; apply Hc|].
          eapply same_inputs_trans; [apply Hc|exact Hsame].
        * destruct Hc as [-> Hc]. split; [apply (ac_j 0 s' A1)|]. cbn [snd]. intros p Hi. rewrite (proj1 (same_inputs_value _ _) Hsame p Hi). auto.
      + rewrite E1. left. unfold level. cbn [snd]. rewrite (ac_j j s' A1). auto. }
  assert (Made : forall (b : bool) (s' : opt), b = is_report e -> same_inputs (assign (params (st_rest s)) (point e) (st_q s)) (st_q s') -> made (params (st_rest s)) e (b, s')).
  { intros b s' Hb Hs. split; [exact Hb|]. cbn [snd]. intros i p Hi.
    assert (Hfl := phase_flagged j s Hj (ac_phase j s Ha)).
    assert (Hin : free s p) by (apply in_params; eapply nth_error_In; eauto).
    rewrite (proj1 (same_inputs_value _ _) Hs p (free_input s p Hin)).
    assert (i < length (params (st_rest s))) by (apply nth_error_Some; congruence).
    destruct (nth_error (point e) i) as [v|] eqn:Ev; [|apply nth_error_None in Ev; lia].
    apply (value_assign (params (st_rest s)) (point e) (st_q s) i p v (nodup_params _) (params_present _ _ Hfl) Hi Ev). }
  destruct e as [x|x]; cbn [run_event point fst snd] in *.
  - apply (safe_bind _ _ _ _ _ Step). intros s' (A1 & A2 & A3 & A4 & A5 & A6 & A7). cbn [safe fst snd].
    split; [constructor; cbn [fst snd]; auto; apply hist_eval; eapply hist_same; eauto|].
    split; [rewrite (proj1 (proj2 (proj2 (proj2 A6)))); cbn; lia|]. split; [auto|]. split; [apply A6|].
    exists (false, s'). split; [reflexivity|]. split; [apply (ac_j j s' A1)|]. split; [reflexivity|]. apply Made; auto.
  - apply (safe_bind _ _ _ _ _ Step). intros s' (A1 & A2 & A3 & A4 & A5 & A6 & A7).
    assert (Hn' : r_n_iter (st_rest s') = r_n_iter (st_rest s)) by apply A6.
    destruct (record_ok j s' l A1) as (s2 & E & B1 & B2 & B3 & B4 & B5 & B6 & B7 & B8 & B9).
    { eapply hist_same; eauto. }
    { rewrite Hn'. unfold n_reports in Hn. cbn in Hn. lia. }
    rewrite E. cbn [bind safe fst snd].
    assert (Hev : evaluated s2).
    { eapply (evaluated_same s'); eauto. rewrite (ph_num j s2 (ac_phase j s2 B1)), (ph_num j s' (ac_phase j s' A1)). reflexivity. }
    split; [constructor; cbn [fst snd]; auto; [congruence|apply (Good true); auto; try congruence]|].
    + destruct A5 as (q & xx & Eq & Es). exists q, xx. rewrite B3, B4. auto.
    + split; [rewrite B8, Hn'; cbn; lia|]. split; [auto|]. split; [rewrite B9; apply A6|].
      exists (true, s2). split; [reflexivity|]. split; [apply (ac_j j s2 B1)|]. split; [reflexivity|]. apply Made; auto. congruence.
Qed.

Lemma run_events_safe j : forall es st, running j st ->
  Forall (fun e => length (point e) = length (params (st_rest (fst st)))) es ->
  r_n_iter (st_rest (fst st)) + n_reports es <= c ->
  (exists e1, last_entry (snd st) = Some e1 /\ level e1 = j /\ snd e1 = fst st) ->
  safe Th (fun st' => running j st' /\ r_n_evals (st_rest (fst st')) = r_n_evals (st_rest (fst st)) /\
          exists l, snd st' = snd st ++ l /\ (Forall2 (made (params (st_rest (fst st)))) es l /\ Forall (fun en => level en = j) l) /\
          exists e1, last_entry (snd st') = Some e1 /\ level e1 = j /\ snd e1 = fst st') (run_events o fsqrt of_Z rt es st).
Proof.
  induction es as [|e es IH]; intros st Hr Hx Hn He; cbn [run_events].
  - cbn [safe]. split; auto. split; auto. exists []. rewrite app_nil_r. auto.
  - inversion Hx as [|? ? Hx1 Hx2]; subst.
    assert (Hn' : n_reports (e :: es) = n_reports [e] + n_reports es).
    { unfold n_reports. cbn. destruct (is_report e); reflexivity. }
    eapply safe_bind; [apply (run_event_safe j e st Hr Hx1); [lia|right; destruct He as (e1 & A & B & _); eauto]|].
    intros st' (R & N & P & V & e1 & E & L & S & T).
    eapply safe_imp; [apply (IH st' R)|].
    + rewrite P. exact Hx2.
    + lia.
    + exists e1. rewrite E. split; [apply last_app|auto].
    + intros st2 (R2 & V2 & l & E2 & M2 & L2). split; auto. split; [congruence|]. exists (e1 :: l).
      split; [rewrite E2, E, <- app_assoc; reflexivity|]. split; [|exact L2]. destruct M2 as [M2 M3].
      split; constructor; auto. rewrite <- P. exact M2.
Qed.

(** ** Between the steps *)
Definition start_ok (j : nat) (s : opt) : Prop :=
  match j with O => Phase 0 s /\ qx_nphi (r_q (st_rest s)) = qx_nphi (r_q (st_rest s0)) | S j' => Active j' s end.
Record between (j : nat) (st : opt * list (bool * opt)) : Prop := {
  bt_start : start_ok j (fst st);
  bt_hist : Hist (fst st) (snd st);
  bt_log : log_ok (snd st);
  bt_cursor : cursor (snd st) j (fst st) }.

Lemma phase_with_q j s q x : Phase j s -> same_inputs (st_q s) q -> same_extra (r_q (st_rest s)) x -> nphi_limits (qx_nphi x) -> Phase j (with_q q x s).
Proof.
  intros Hp Hs Hx Hl. constructor; try apply Hp; auto.
  - intros a. cbn [st_q with_q]. rewrite (proj2 Hs). apply (ph_len j s Hp).
  - intros p Hi Hn. cbn [st_q with_q]. rewrite (proj1 (same_inputs_value _ _) Hs p Hi). apply (ph_fixed j s Hp p Hi Hn).
  - cbn. eapply same_extra_trans; [apply (ph_extra j s Hp)|exact Hx].
  - apply (hist_sized_same s); [repeat split|apply (ph_hist j s Hp)].
Qed.
(** What an intermediate step of [prepare] leaves alone. *)
Definition keeps (s s' : opt) : Prop := same_history s s' /\ same_inputs (st_q s) (st_q s').
Lemma keeps_refl s : keeps s s.
Proof. split; [repeat split|apply same_inputs_refl]. Qed.
Lemma keeps_trans s1 s2 s3 : keeps s1 s2 -> keeps s2 s3 -> keeps s1 s3.
Proof.
  intros [(A & B & C & D & E) I] [(A' & B' & C' & D' & E') I'].
  split; [repeat split; congruence|eapply same_inputs_trans; eauto].
Qed.

Lemma vary_step j a : j < fr -> (a = R0c \/ a = Z0s) -> upd (vary_at j a) (old + j) true = vary_at (S j) a.
Proof.
  intros Hj Ha. unfold vary_at. pose proof (Hflag a) as L. rewrite (rd_axes Hready) in L.
  assert (E : repeat false (fr - j) = false :: repeat false (fr - S j)).
  { replace (fr - j) with (S (fr - S j)) by lia. reflexivity. }
  assert (G : upd (r_vary (st_rest s0) a ++ repeat true j ++ repeat false (fr - j)) (old + j) true =
              r_vary (st_rest s0) a ++ repeat true (S j) ++ repeat false (fr - S j)).
  { rewrite E. pose proof (upd_mid (r_vary (st_rest s0) a ++ repeat true j) (repeat false (fr - S j)) false true) as U.
    rewrite app_length, repeat_length, L in U. rewrite <- app_assoc in U. rewrite U.
    change (repeat true (S j)) with (true :: repeat true j). rewrite (repeat_cons j true). repeat rewrite <- app_assoc. reflexivity. }
  destruct Ha; subst a; exact G.
Qed.
Lemma free_at_step j p : j <= fr -> free_at j p -> free_at (S j) p.
Proof.
  intros Hj. destruct p as [m|a k]; cbn; auto.
  unfold vary_at. destruct (Nat.lt_ge_cases k (length (r_vary (st_rest s0) a))).
  - repeat rewrite nth_error_app1 by auto. auto.
  - repeat rewrite nth_error_app2 by auto. set (k' := k - _).
    assert (G : nth_error (repeat true j ++ repeat false (fr - j)) k' = Some true ->
                nth_error (repeat true (S j) ++ repeat false (fr - S j)) k' = Some true).
    { intros E. destruct (Nat.lt_ge_cases k' j).
      - rewrite nth_error_app1 by (rewrite repeat_length; lia). apply nth_error_repeat. lia.
      - rewrite nth_error_app2 in E by (rewrite repeat_length; lia). apply nth_error_In, repeat_spec in E. discriminate. }
    destruct a; auto.
Qed.
Definition set_j (j : nat) (s : opt) : opt := set_rest (set_counts (r_n_iter (st_rest s)) (r_n_evals (st_rest s)) j (st_rest s)) s.

(** The first part of a step: the flags. *)
Lemma free_modes_ok j s : S j <= fr -> Phase j s ->
  exists s', (do s1 <- free_mode R0c (old + S j - 1) s; free_mode Z0s (old + S j - 1) s1) = Ok s' /\ Phase (S j) s' /\
    st_q s' = st_q s /\ r_q (st_rest s') = r_q (st_rest s) /\ same_history s s' /\
    r_n_terms (st_rest s') = r_n_terms (st_rest s) /\ r_residual_names (st_rest s') = r_residual_names (st_rest s) /\
    r_residuals (st_rest s') = r_residuals (st_rest s) /\ r_j_fourier_refine (st_rest s') = r_j_fourier_refine (st_rest s).
Proof.
  intros Hj Hp. replace (old + S j - 1) with (old + j) by lia. unfold free_mode.
  rewrite (ph_vary j s Hp R0c). rewrite aset_ok by (rewrite vary_at_length by lia; unfold na; lia). cbn [bind].
  rewrite (vary_step j R0c) by auto.
  cbn [st_rest set_rest set_vary r_vary upd_vary axis_eqb]. rewrite (ph_vary j s Hp Z0s).
  rewrite aset_ok by (rewrite vary_at_length by lia; unfold na; lia). cbn [bind]. rewrite (vary_step j Z0s) by auto.
  eexists. split; [reflexivity|]. split; [|repeat split].
  constructor; try apply Hp.
  - intros a. cbn [st_rest set_rest set_vary r_vary]. unfold upd_vary. destruct a; cbn [axis_eqb]; auto; rewrite (ph_vary j s Hp); reflexivity.
  - intros p Hi Hn. apply (ph_fixed j s Hp p Hi). intros X. apply Hn. apply free_at_step; auto. lia.
  - apply (hist_sized_same s); [repeat split|apply (ph_hist j s Hp)].
Qed.

Lemma odd_odd n : odd_nphi (odd_nphi n) = odd_nphi n.
Proof. destruct (odd_nphi_least (odd_nphi n)) as [[H _]|[_ H]]; auto. rewrite odd_nphi_odd in H. discriminate. Qed.

(** The second part: the residuals. *)
Definition resid_ok (j : nat) (s : opt) : Prop :=
  Phase j s /\ r_j_fourier_refine (st_rest s) = j /\ r_n_terms (st_rest s) = length (residual_labels s) /\
  r_residual_names (st_rest s) = residual_labels s /\ length (r_residuals (st_rest s)) = r_n_terms (st_rest s) /\
  qx_nphi (r_q (st_rest s)) = nphi_at j.
Lemma init_residuals_safe j s : Phase j s -> r_j_fourier_refine (st_rest s) = j -> qx_nphi (r_q (st_rest s)) = nphi_at j ->
  safe Th (fun s' => resid_ok j s' /\ keeps s s') (init_residuals o s).
Proof.
  intros Hp Hj Hn. rewrite (init_residuals_eq o fsqrt of_Z s). destruct (length (residual_labels s) <? 1) eqn:El; cbn [safe].
  { apply Tterms. apply Nat.ltb_lt in El. intros name Hm. rewrite (residual_labels_eq o fsqrt of_Z s) in El. change term_names with (map tname (terms s)) in Hm.
    apply in_map_iff in Hm as (t & <- & Ht). destruct (used o s0 (tname t)) eqn:Eu; [exfalso|reflexivity].
    assert (Eu' : used o s (tname t) = true) by (unfold used in *; rewrite (ph_num j s Hp); exact Eu).
    enough (Q : labels_of o s (terms s) <> []) by (destruct (labels_of o s (terms s)); [congruence|cbn in El; lia]).
    intros Q. assert (Q' : forall x, ~ In x (labels_of o s (terms s))) by (rewrite Q; auto). 
    assert (Lb : exists x, In x (labels s (tname t) (tsize t))).
    { assert (Pn : 0 < nphi s).
      { unfold nphi. rewrite Hn. unfold nphi_at. destruct (rd_nphi_limits Hready) as [L1 L2]. destruct (nth_error (r_nphi (st_rest s0)) j) as [m|] eqn:En.
        - rewrite Forall_forall in L1. specialize (L1 m (nth_error_In _ _ En)). pose proof (odd_nphi_odd m) as Od. unfold nphi_limits in L1.
          destruct (odd_nphi_least m) as [[Eo _]|[Eo _]]; rewrite Eo in *; [|lia]. destruct (Z.eq_dec m 0) as [E0|]; [rewrite E0 in Od; discriminate Od|lia].
        - pose proof (odd_nphi_odd (qx_nphi (r_q (st_rest s0)))) as Od. rewrite (rd_nphi Hready) in Od. unfold nphi_limits in L2.
          destruct (Z.eq_dec (qx_nphi (r_q (st_rest s0))) 0) as [E|]; [rewrite E in Od; discriminate|lia]. }
      assert (Pt : tsize t <> Some 0).
      { assert (G : Forall (fun z => z <> Some 0) (map tsize (terms s))).
        { cbn [map terms OptSpec.terms tsize fst snd]. repeat (constructor; [discriminate|]). constructor. }
        rewrite Forall_forall in G. apply G. apply in_map. exact Ht. }
      unfold labels. destruct (tsize t) as [[|m]|]; [contradiction| |exists (tname t); left; reflexivity].
      destruct (nphi s) as [|n]; [lia|]. cbn [Nat.mul Nat.add seq map]. eexists. left. reflexivity. }
    destruct Lb as (x & Hx). apply (Q' x). unfold labels_of. apply in_flat_map. exists t. split; [exact Ht|]. rewrite Eu'. exact Hx. }
  match goal with |- resid_ok j ?x /\ _ => set (s' := x) end.
  assert (L : residual_labels s' = residual_labels s) by (apply labels_ext; reflexivity).
  split; [|split; [repeat split|apply same_inputs_refl]].
  split; [|split; [exact Hj|split; [|split; [|split; [|exact Hn]]]]].
  - constructor; try apply Hp. apply (hist_sized_same s); [repeat split|apply (ph_hist j s Hp)].
  - rewrite L. reflexivity.
  - rewrite L. reflexivity.
  - cbn. apply repeat_length.
Qed.
Lemma on_q_safe (f : qobj -> @qextra F Y -> outcome (qobj * @qextra F Y)) (s : opt) : (forall q x q' x', f q x = Ok (q', x') -> same_inputs q q' /\ same_extra x x' /\ qx_nphi x' = odd_nphi (qx_nphi x)) ->
  (forall why, f (st_q s) (r_q (st_rest s)) <> UB why) -> (forall w, f (st_q s) (r_q (st_rest s)) = Throw w -> Th w) ->
  safe Th (fun s' => exists q x, s' = with_q q x s /\ f (st_q s) (r_q (st_rest s)) = Ok (q, x) /\ same_inputs (st_q s) q /\ same_extra (r_q (st_rest s)) x /\
                  qx_nphi x = odd_nphi (qx_nphi (r_q (st_rest s)))) (on_q f s).
Proof.
  intros H Hu Ht. unfold on_q. destruct (f (st_q s) (r_q (st_rest s))) as [[q x]| |] eqn:E; cbn [bind safe]; auto.
  - exists q, x. split; [reflexivity|]. split; [reflexivity|]. apply (H _ _ _ _ E).
  - exact (Hu _ eq_refl).
Qed.
Lemma phase_acceptable j s : Phase j s -> acceptable (st_q s) (r_q (st_rest s)).
Proof.
  intros H. unfold acceptable. change (qo_R0c (st_q s)) with (get_axis (st_q s) R0c).
  split; [intros a; rewrite !(ph_len j s H); reflexivity|]. split; [|apply (ph_nphi j s H)]. rewrite (ph_len j s H). rewrite (proj1 (ph_extra j s H)). apply (rd_limits Hready).
Qed.
Lemma odd_limits n : nphi_limits n -> nphi_limits (odd_nphi n).
Proof. unfold nphi_limits. intros H. destruct (odd_nphi_least n) as [[-> _]|[-> O]]; [exact H|]. destruct (Z.eq_dec n 1073741821) as [->|]; [discriminate O|lia]. Qed.
Lemma nphi_at_limits j : nphi_limits (nphi_at j).
Proof.
  unfold nphi_at. destruct (rd_nphi_limits Hready) as [L1 L2]. destruct (nth_error _ j) as [n|] eqn:E; [|exact L2].
  apply odd_limits. rewrite Forall_forall in L1. apply L1. eapply nth_error_In; exact E.
Qed.
Lemma prepare_safe j s : j <= fr -> start_ok j s ->
  safe Th (fun s' => Active j s' /\ keeps s s' /\ qx_order_r2p1 (r_q (st_rest s')) = String.eqb (qx_order_r_option (r_q (st_rest s0))) "r2.1")
    (prepare o rt old j s).
Proof.
  intros Hj Hs. unfold prepare. fold (set_j j s).
  (* flags *)
  eapply (safe_bind Th (fun s1 => Phase j s1 /\ r_j_fourier_refine (st_rest s1) = j /\ keeps s s1 /\ r_q (st_rest s1) = r_q (st_rest s) /\
     (0 < j -> r_n_terms (st_rest s1) = length (residual_labels s1) /\ r_residual_names (st_rest s1) = residual_labels s1 /\
               length (r_residuals (st_rest s1)) = r_n_terms (st_rest s1)))).
  { destruct j as [|j]; cbn [Nat.ltb Nat.leb start_ok] in *.
    - cbn [safe]. destruct Hs as [Hp Hn]. split; [|split; [reflexivity|split; [split; [repeat split|apply same_inputs_refl]|split; [reflexivity|lia]]]].
      constructor; try apply Hp. apply (hist_sized_same s); [repeat split|apply (ph_hist 0 s Hp)].
    - destruct Hs as [Hp Hjj Hnp Hnames Hnt Hlab Hres Hnphi].
      destruct (free_modes_ok j (set_j (S j) s) Hj) as (s' & E & P & Q & X & H & T1 & T2 & T3 & T4).
      { constructor; try apply Hp. apply (hist_sized_same s); [repeat split|apply (ph_hist j s Hp)]. }
      rewrite E. cbn [safe]. split; [exact P|]. split; [exact T4|]. split; [split|].
      + destruct H as (A & B & C & D & E'). repeat split; assumption.
      + rewrite Q. apply same_inputs_refl.
      + split; [exact X|]. intros _.
        assert (L : residual_labels s' = residual_labels s).
        { apply labels_ext; [unfold nphi; rewrite X; reflexivity|]. rewrite (ph_num (S j) s' P), (ph_num j s Hp). reflexivity. }
        rewrite L, T1, T2, T3. repeat split; assumption. }
  intros s1 (P1 & J1 & K1 & X1 & R1).
  (* residuals *)
  eapply (safe_bind Th (fun s2 => resid_ok j s2 /\ keeps s s2)).
  { rewrite (ph_nphis j s1 P1). destruct (0 <? length (r_nphi (st_rest s0))) eqn:E0.
    - bprop. destruct (rd_nphis Hready) as [E|E]; [rewrite E in E0; cbn in E0; lia|].
      destruct (nth_error (r_nphi (st_rest s0)) j) as [n|] eqn:En; [|apply nth_error_None in En; lia].
      rewrite (aget_nth_error _ _ _ En). cbn [bind].
      assert (Ln : nphi_limits n) by (pose proof (proj1 (rd_nphi_limits Hready)) as L; rewrite Forall_forall in L; apply L; eapply nth_error_In; exact En).
      assert (An : acceptable (st_q (set_nphi n s1)) (r_q (st_rest (set_nphi n s1)))).
      { apply (phase_acceptable j (set_nphi n s1)). apply phase_with_q; [exact P1|apply same_inputs_refl|split; reflexivity|exact Ln]. }
      eapply safe_bind; [apply on_q_safe; [intros q x q' x' Hq; apply (allocate_ok fit rt Hqsc q x q' x' Hq)| |]|].
      { intros why. apply (no_ub fit rt Hqsc). exact An. }
      { intros w. apply Tallocate. exact An. }
      intros s2 (q & x & -> & Ea & I1 & I2 & I3). cbn [set_nphi st_q with_q st_rest r_q qx_nphi qx_nfp] in I1, I2, I3.
      eapply safe_imp; [apply (init_residuals_safe j)|].
      + apply phase_with_q; [apply phase_with_q|cbn; auto|exact I2|rewrite I3; apply odd_limits; exact Ln].
        * exact P1.
        * apply same_inputs_refl.
        * split; reflexivity.
        * exact Ln.
      + exact J1.
      + cbn [with_q st_rest r_q qx_nphi] in *. rewrite I3. unfold nphi_at. rewrite En. reflexivity.
      + intros s3 [A B]. split; auto. eapply keeps_trans; [exact K1|]. eapply keeps_trans; [|exact B].
        split; [repeat split|cbn; exact I1].
    - assert (E : r_nphi (st_rest s0) = []).
      { apply Nat.ltb_ge in E0. destruct (r_nphi (st_rest s0)); auto. cbn in E0. lia. }
      assert (Ent : forall i, nphi_at i = qx_nphi (r_q (st_rest s0))).
      { intros i. unfold nphi_at. rewrite E. destruct i; reflexivity. }
      destruct j as [|j]; cbn [Nat.eqb].
      + eapply safe_imp; [apply (init_residuals_safe 0); auto|].
        * rewrite X1, Ent. apply (proj2 Hs).
        * intros s3 [A B]. split; auto. eapply keeps_trans; eauto.
      + cbn [safe]. split; auto. split; auto. split; auto. destruct R1 as (A & B & C); [lia|]. repeat split; auto.
        rewrite X1, Ent, <- (Ent j). apply (ac_nphi j s Hs). }
  intros s2 ((P2 & J2 & T1 & T2 & T3 & N2) & K2).
  (* parameters *)
  rewrite init_parameters_eq. destruct (length (params (st_rest s2)) <? 1) eqn:El; cbn [bind safe].
  { apply Tparams. intros p Hp. apply Nat.ltb_lt in El.
    assert (Hj' : free_at j p).
    { assert (G : forall i, i <= j -> free_at i p); [|apply G; lia].
      induction i as [|i IH]; intros Hi; [exact Hp|]. apply free_at_step; [lia|apply IH; lia]. }
    apply (phase_free j s2 p P2), in_params in Hj'. destruct (params (st_rest s2)); [exact Hj'|cbn in El; lia]. }
  match goal with |- safe _ _ (on_q _ ?x) => set (s3 := x) end.
  assert (P3 : Phase j s3).
  { constructor; try apply P2. apply (hist_sized_same s2); [repeat split|apply (ph_hist j s2 P2)]. }
  assert (Acc : acceptable (st_q s3) (r_q (st_rest s3))).
  { apply (phase_acceptable j s3 P3). }
  eapply safe_imp; [apply on_q_safe; [|intros why; apply (no_ub fit rt Hqsc); exact Acc|intros w; apply Tinit; [exact Acc|exact (ph_extra j s3 P3)]]|].
  { intros q x q' x' Hq. destruct (init_ok fit rt Hqsc q x q' x' Hq) as (A & B & C & _). auto. }
  intros s4 (q & x & -> & Ei & I1 & I2 & I3). destruct (init_ok fit rt Hqsc _ _ _ _ Ei) as (_ & _ & _ & Ho).
  assert (Hnp : qx_nphi x = nphi_at j).
  { rewrite I3. cbn [s3 set_rest st_rest set_parameters r_q]. rewrite N2. unfold nphi_at.
    destruct (nth_error (r_nphi (st_rest s0)) j); [apply odd_odd|apply (rd_nphi Hready)]. }
  assert (L : residual_labels (with_q q x s3) = residual_labels s2).
  { apply labels_ext; [|reflexivity]. unfold nphi. cbn [with_q st_rest r_q]. rewrite Hnp, N2. reflexivity. }
  split; [|split].
  - constructor; [apply phase_with_q; auto; rewrite Hnp; apply nphi_at_limits|exact J2|reflexivity|reflexivity|rewrite L; exact T1|rewrite L; exact T2|exact T3|exact Hnp|exact (init_fit fit rt Hqsc _ _ _ _ Acc Ei)].
  - eapply keeps_trans; [exact K2|]. split; [repeat split|cbn; exact I1].
  - cbn [with_q st_rest r_q]. rewrite Ho. f_equal. destruct (ph_extra j s3 P3) as [_ E]. exact E.
Qed.

(** ** The loop *)
Definition n_evals_of (l : list (bool * opt)) : Z := Z.of_nat (length (filter (fun e => negb (fst e)) l)).
Definition ends_at (st : opt * list (bool * opt)) : Prop :=
  match last_entry (snd st) with
  | Some e => st_q (fst st) = st_q (snd e) /\ r_q (st_rest (fst st)) = r_q (st_rest (snd e))
  | None => forall p, is_input p -> value (st_q (fst st)) p = init_value p
  end.
Definition now (l : list (bool * opt)) (p : param) : option F :=
  match last_entry l with Some e => value (st_q (snd e)) p | None => init_value p end.
Inductive segs : nat -> list (bool * opt) -> Prop :=
| segs_nil : segs 0 []
| segs_step j l obj ps x0 seg : segs j l ->
    (0 < r_max_iter (st_rest s0) - 1 - Z.of_nat (length (filter fst l)))%Z ->
    NoDup ps -> (forall p, In p ps <-> free_at j p) -> map Some x0 = map (now l) ps ->
    Forall2 (made ps) (gsl j obj (r_max_iter (st_rest s0) - 1 - Z.of_nat (length (filter fst l)))%Z x0) seg ->
    Forall (fun en => level en = j) seg -> segs (S j) (l ++ seg).
Record loop_ok (j : nat) (st : opt * list (bool * opt)) : Prop := {
  lp_between : between j st;
  lp_evals : r_n_evals (st_rest (fst st)) = (r_n_evals (st_rest s0) + n_evals_of (snd st))%Z;
  lp_ends : ends_at st;
  lp_order : snd st <> [] -> String.eqb (qx_order_r_option (r_q (st_rest s0))) "r2.1" = true;
  lp_report : j = 0 \/ 0 < length (snd st);
  lp_segs : segs j (snd st) }.
(** What is true at the end. *)
Record finished (st : opt * list (bool * opt)) : Prop := {
  fi_phase : exists j, j <= fr /\ Phase j (fst st);
  fi_hist : Hist (fst st) (snd st);
  fi_log : log_ok (snd st);
  fi_evals : r_n_evals (st_rest (fst st)) = (r_n_evals (st_rest s0) + n_evals_of (snd st))%Z;
  fi_ends : ends_at st;
  fi_segs : exists j, j <= S fr /\ segs j (snd st) /\
    (j = S fr \/ (r_max_iter (st_rest s0) - 1 <= Z.of_nat (length (filter fst (snd st))))%Z \/
     (snd st = [] /\ String.eqb (qx_order_r_option (r_q (st_rest s0))) "r2.1" = false));
  fi_order : snd st <> [] -> String.eqb (qx_order_r_option (r_q (st_rest s0))) "r2.1" = true }.
Lemma n_evals_app l l' : n_evals_of (l ++ l') = (n_evals_of l + n_evals_of l')%Z.
Proof. unfold n_evals_of. rewrite filter_app, app_length. lia. Qed.
Lemma n_evals_events l (es : list (@event F)) : map fst l = map is_report es -> n_evals_of l = n_evaluations es.
Proof.
  unfold n_evals_of, n_evaluations. revert es. induction l as [|[b s] l IH]; intros [|e es] H; try discriminate; auto.
  cbn [map fst] in H. injection H as H1 H2. specialize (IH es H2). cbn [filter fst].
  destruct e; cbn in H1; subst b; cbn [negb length]; lia.
Qed.
Lemma gsl_basic (x0 : list F) maxiter es : gsl_calls x0 maxiter es ->
  nth_error es 0 = Some (Eval x0) /\ Forall (fun e => length (point e) = length x0) es /\
  (Z.of_nat (length (filter is_report es)) <= 1 + Z.max 1 maxiter)%Z.
Proof.
  intros (pre & its & failed & E & _ & H & L). split; [rewrite E; reflexivity|]. split; [exact L|].
  assert (N : forall xs, length (filter is_report (map (@Eval F) xs)) = 0) by (induction xs; auto).
  assert (M : length (filter is_report (flat_map (fun it => map (@Eval F) (fst it) ++ [Report (snd it)]) its)) = length its).
  { clear. induction its as [|[a b] its IH]; auto. cbn [flat_map]. do 2 rewrite filter_app, app_length. rewrite IH.
    cbn [fst snd filter is_report length]. assert (N : forall xs, length (filter is_report (map (@Eval F) xs)) = 0) by (induction xs; auto). rewrite N. reflexivity. }
  rewrite E. cbn [filter is_report]. rewrite filter_app, app_length, N. cbn [filter is_report length]. rewrite filter_app, app_length, N, M. lia.
Qed.
Lemma made_reports ps (es : list (@event F)) (l : list (bool * opt)) : Forall2 (made ps) es l -> map fst l = map is_report es.
Proof. induction 1 as [|e en es l H _ IH]; cbn; auto. rewrite IH, (proj1 H). reflexivity. Qed.
Lemma minimize_safe j s l : j <= fr -> Active j s -> qx_order_r2p1 (r_q (st_rest s)) = true -> Hist s l -> log_ok l -> cursor l j s ->
  r_n_evals (st_rest s) = (r_n_evals (st_rest s0) + n_evals_of l)%Z ->
  (Z.of_nat (r_n_iter (st_rest s)) < r_max_iter (st_rest s) - 1)%Z ->
  String.eqb (qx_order_r_option (r_q (st_rest s0))) "r2.1" = true -> segs j l ->
  safe Th (fun st => loop_ok (S j) st) (minimize o fsqrt of_Z rt gsl junk j (s, l)).
Proof.
  intros Hj Ha Ho Hh Hl Hc Hv Hm Hopt Hsg. unfold minimize. cbn [fst].
  assert (Hf := phase_flagged j s Hj (ac_phase j s Ha)).
  rewrite (set_state_vector_eq o s) by (try apply (ac_np j s Ha); auto; rewrite Hjunk; apply (ac_np j s Ha)). cbn [bind].
  set (x0 := map (val o (st_q s)) (params (st_rest s))).
  set (mi := (r_max_iter (st_rest s) - 1 - Z.of_nat (r_n_iter (st_rest s)))%Z).
  destruct (gsl_basic x0 mi (gsl j s mi x0) (Hgsl j s mi x0)) as (G1 & G2 & G3).
  remember (gsl j s mi x0) as es eqn:Ees. destruct es as [|e es]; [discriminate|]. injection G1 as ->.
  assert (Lx : length x0 = length (params (st_rest s))) by (unfold x0; apply map_length).
  rewrite Lx in G2. inversion G2 as [|? ? _ G2']; subst x l0.
  assert (Hcount : r_n_iter (st_rest s) + n_reports es <= c).
  { change (filter is_report (Eval x0 :: es)) with (filter is_report es) in G3. fold (n_reports es) in G3. pose proof (ph_max j s (ac_phase j s Ha)) as Em. subst mi. unfold c. lia. }
  eapply (safe_bind Th (fun st => running j st /\ r_n_evals (st_rest (fst st)) = r_n_evals (st_rest s) /\
      exists l', snd st = l ++ l' /\ (Forall2 (made (params (st_rest s))) (Eval x0 :: es) l' /\ Forall (fun en => level en = j) l') /\
      exists e1, last_entry (snd st) = Some e1 /\ level e1 = j /\ snd e1 = fst st)).
  { cbn [run_events].
    eapply safe_bind; [apply (run_event_safe j (Eval x0) (s, l))|].
    - constructor; auto.
    - exact Lx.
    - cbn. lia.
    - left. split; [exact Hc|reflexivity].
    - cbn [fst snd]. intros st' (R & N & P & V & e1 & E & L & S & T).
      eapply safe_imp; [apply (run_events_safe j es st' R)|].
      + rewrite P. exact G2'.
      + cbn in N. lia.
      + exists e1. rewrite E. split; [apply last_app|auto].
      + intros st2 (R2 & V2 & l2 & E2 & M2 & L2). split; auto. split; [congruence|]. exists (e1 :: l2).
        split; [rewrite E2, E, <- app_assoc; reflexivity|]. split; [|exact L2].
        destruct M2 as [M2 M3]. split; constructor; auto. rewrite <- P. exact M2. }
  intros [s' l''] ([_ Ra Ro Rh Rl] & V & l' & E & [M Mlv] & e1 & L1 & L2 & L3). cbn [fst snd safe] in *. subst l''.
  set (s2 := set_rest _ s').
  assert (Lab : residual_labels s2 = residual_labels s') by (apply labels_ext; reflexivity).
  assert (Ha2 : Active j s2).
  { destruct Ra as [Hp Hjj Hnp Hnames Hnt Hlab Hres Hnphi]. constructor; auto.
    constructor; try apply Hp. destruct (ph_hist j s' Hp) as [S1 S2 S3]. constructor; auto. }
  constructor; cbn [fst snd].
  - constructor; cbn [fst snd]; auto.
    + destruct Rh as [H1 H2 H3 H4]. constructor; auto.
    + unfold cursor. rewrite L1. split; [lia|]. rewrite L3. apply same_inputs_refl.
  - cbn [s2 set_rest st_rest set_counts r_n_evals]. rewrite V, Hv, n_evals_app, (n_evals_events l' (Eval x0 :: es) (made_reports _ _ _ M)). lia.
  - unfold ends_at. cbn [fst snd]. rewrite L1, L3. split; reflexivity.
  - auto.
  - right. rewrite app_length. destruct l'; [inversion M|cbn; lia].
  - assert (Hni : r_n_iter (st_rest s) = length (filter fst l)) by (rewrite (hi_n s l Hh); apply map_length).
    assert (Hmx : r_max_iter (st_rest s) = r_max_iter (st_rest s0)) by apply (ph_max j s (ac_phase j s Ha)).
    apply (segs_step j l s (params (st_rest s)) x0 l'); auto.
    + lia.
    + apply nodup_params.
    + intros p. rewrite in_params. apply (phase_free j s p (ac_phase j s Ha)).
    + unfold x0. rewrite map_map. apply map_ext_in. intros p Hp.
      assert (Hin : is_input p) by (apply (free_input s), in_params, Hp).
      rewrite <- (value_val o). 2: { pose proof (params_present _ _ Hf) as Q. rewrite Forall_forall in Q. apply Q; exact Hp. }
      unfold now. unfold cursor in Hc. destruct (last_entry l) as [e|].
      * apply (proj1 (same_inputs_value _ _) (proj2 Hc) p Hin).
      * apply Hc; auto.
    + rewrite <- Hni, <- Hmx. fold mi. rewrite <- Ees. exact M.
Qed.
Lemma start_phase j s : start_ok j s -> j <= S fr -> exists i, i <= fr /\ Phase i s.
Proof. destruct j as [|j]; cbn; [intros [H _]; exists 0; split; [lia|auto]|]. intros [H _ _ _ _ _ _ _] L. exists j. split; [lia|auto]. Qed.
Lemma refine_safe count : forall j st, j + count = S fr -> loop_ok j st ->
  safe Th finished (refine o fsqrt of_Z rt gsl junk old j count st).
Proof.
  induction count as [|count IH]; intros j [s l] Hj Hl; cbn [refine fst snd].
  - destruct Hl as [[B1 B2 B3 B4] V E O _ Sg]. cbn [safe fst snd] in *. constructor; auto; [apply (start_phase j); [auto|lia]|].
    exists j. cbn [snd]. split; [lia|]. split; [auto|]. left. lia.
  - destruct Hl as [[B1 B2 B3 B4] V E O Rp Sg]. cbn [fst snd] in *.
    assert (Hni : r_n_iter (st_rest s) = length (filter fst l)) by (rewrite (hi_n s l B2); apply map_length).
    assert (Hmx : r_max_iter (st_rest s) = r_max_iter (st_rest s0)).
    { destruct (start_phase j s B1) as (i & _ & P); [lia|]. apply (ph_max i s P). }
    match goal with |- safe _ _ (if ?b then _ else _) => destruct b eqn:Em end.
    { cbn [safe]. constructor; auto; [apply (start_phase j); [auto|lia]|]. exists j. cbn [snd]. split; [lia|]. split; [auto|].
      right; left. apply Z.leb_le in Em. rewrite <- Hni, <- Hmx. exact Em. }
    apply Z.leb_gt in Em.
    eapply safe_bind; [apply (prepare_safe j s); [lia|exact B1]|].
    intros s' (A & [K I] & Ho). assert (Hh : Hist s' l) by (eapply hist_same; eauto).
    assert (Hv : r_n_evals (st_rest s') = (r_n_evals (st_rest s0) + n_evals_of l)%Z).
    { destruct K as (_ & _ & _ & _ & ->). exact V. }
    destruct (qx_order_r2p1 (r_q (st_rest s'))) eqn:E2.
    + eapply safe_bind; [apply (minimize_safe j s' l); auto; try lia|].
      * unfold cursor in *. destruct (last_entry l) as [e|].
        -- split; [apply B4|eapply same_inputs_trans; [apply B4|exact I]].
        -- split; [apply B4|]. intros p Hp. rewrite (proj1 (same_inputs_value _ _) I p Hp). apply B4; auto.
      * destruct K as (_ & _ & _ & K4 & _). rewrite K4.
        assert (r_max_iter (st_rest s') = r_max_iter (st_rest s)) as ->.
        { rewrite (ph_max j s' (ac_phase j s' A)). symmetry. destruct (start_phase j s B1) as (i & _ & P); [lia|]. apply (ph_max i _ P). }
        lia.
      * intros st' Hst'. apply IH; [lia|exact Hst'].
    + cbn [safe].
      assert (En : l = []).
      { destruct l as [|e l]; auto. rewrite O in Ho by discriminate. congruence. }
      constructor; cbn [fst snd]; auto.
      * exists j. split; [lia|apply (ac_phase j s' A)].
      * unfold ends_at in *. cbn [fst snd]. rewrite En in *. cbn in *. intros p Hp.
        rewrite (proj1 (same_inputs_value _ _) I p Hp). auto.
      * exists j. cbn [snd]. split; [lia|]. split; [auto|]. right; right. split; [exact En|]. congruence.
Qed.
Lemma check_sizes_ok : check_sizes s0 = Ok tt.
Proof. unfold check_sizes. repeat (rewrite Hflag, Nat.eqb_refl; cbn [negb]). reflexivity. Qed.
(** [s]: the object with the axes [da] and the lists of flags [dv] extended. *)
Record grown (da dv : axis -> bool) (s : opt) : Prop := {
  gr_num : st_num s = st_num s0; gr_fr : st_fourier_refine s = fr;
  gr_max : r_max_iter (st_rest s) = r_max_iter (st_rest s0); gr_nphis : r_nphi (st_rest s) = r_nphi (st_rest s0);
  gr_vnum : r_vary_num (st_rest s) = r_vary_num (st_rest s0); gr_q : r_q (st_rest s) = r_q (st_rest s0);
  gr_hist : same_history s0 s; gr_qnum : qo_num (st_q s) = qo_num q0; gr_hel : qo_helicity (st_q s) = qo_helicity q0;
  gr_axis : forall a, get_axis (st_q s) a = if da a then get_axis q0 a ++ repeat (fzero o) fr else get_axis q0 a;
  gr_vary : forall a, r_vary (st_rest s) a = if dv a then r_vary (st_rest s0) a ++ repeat false fr else r_vary (st_rest s0) a }.
Lemma grown_axis da dv s a : grown da dv s -> da a = false ->
  exists s', extend_axis o old na a s = Ok s' /\ grown (fun b => orb (axis_eqb b a) (da b)) dv s'.
Proof.
  intros [G1 G2 G3 G4 G5 G6 G7 G8 G9 G10 G11] Ha. unfold extend_axis. rewrite G10, Ha. pose proof (rd_axes Hready a) as L.
  change (length (get_axis q0 a) = old) in L.
  assert (E : extend (fzero o) old na (get_axis q0 a) = Ok (get_axis q0 a ++ repeat (fzero o) fr))
    by (rewrite <- L; rewrite extend_eq by (unfold na; lia); do 3 f_equal; unfold na; lia).
  rewrite E. cbn [bind].
  eexists. split; [reflexivity|]. constructor; auto; try (destruct a; assumption).
  intros b. cbn [with_q st_q]. clear E.
  pose proof (G10 b) as Q. destruct a, b; cbn [axis_eqb orb set_axis get_axis qo_R0c qo_R0s qo_Z0c qo_Z0s] in *; try reflexivity; assumption.
Qed.
Lemma grown_vary da dv s a : grown da dv s -> dv a = false ->
  exists s', extend_vary old na a s = Ok s' /\ grown da (fun b => orb (axis_eqb b a) (dv b)) s'.
Proof.
  intros [G1 G2 G3 G4 G5 G6 G7 G8 G9 G10 G11] Ha. unfold extend_vary. rewrite G11, Ha. pose proof (rd_axes Hready a) as L.
  change (length (get_axis q0 a) = old) in L. 
  assert (L' : length (r_vary (st_rest s0) a) = old) by (rewrite Hflag; exact L).
  assert (E : extend false old na (r_vary (st_rest s0) a) = Ok (r_vary (st_rest s0) a ++ repeat false fr))
    by (rewrite <- L'; rewrite extend_eq by (unfold na; lia); do 3 f_equal; unfold na; lia).
  rewrite E. cbn [bind].
  eexists. split; [reflexivity|]. constructor; auto.
  intros b. cbn [set_rest set_vary st_rest r_vary]. unfold upd_vary.
  destruct (axis_eqb b a) eqn:E'; [|apply G11]. destruct a, b; try discriminate; reflexivity.
Qed.
Lemma add_modes_ok : exists s, add_modes o s0 = Ok s /\ Phase 0 s /\ same_history s0 s /\ r_q (st_rest s) = r_q (st_rest s0) /\
  (forall p, value (st_q s) p = init_value p) /\ qo_helicity (st_q s) = qo_helicity q0.
Proof.
  unfold add_modes. fold old. fold na.
  assert (G : grown (fun _ => false) (fun _ => false) s0) by (constructor; auto; repeat split).
  apply (fun G => grown_axis _ _ _ R0c G eq_refl) in G. destruct G as (s1 & -> & G). cbn [bind].
  apply (fun G => grown_axis _ _ _ R0s G eq_refl) in G. destruct G as (s2 & -> & G). cbn [bind].
  apply (fun G => grown_axis _ _ _ Z0c G eq_refl) in G. destruct G as (s3 & -> & G). cbn [bind].
  apply (fun G => grown_axis _ _ _ Z0s G eq_refl) in G. destruct G as (s4 & -> & G). cbn [bind].
  apply (fun G => grown_vary _ _ _ R0c G eq_refl) in G. destruct G as (s5 & -> & G). cbn [bind].
  apply (fun G => grown_vary _ _ _ R0s G eq_refl) in G. destruct G as (s6 & -> & G). cbn [bind].
  apply (fun G => grown_vary _ _ _ Z0c G eq_refl) in G. destruct G as (s7 & -> & G). cbn [bind].
  apply (fun G => grown_vary _ _ _ Z0s G eq_refl) in G. destruct G as (s8 & -> & G).
  clear s1 s2 s3 s4 s5 s6 s7. exists s8. split; [reflexivity|]. destruct G as [G1 G2 G3 G4 G5 G6 G7 G8 G9 G10 G11].
  assert (A : forall a, get_axis (st_q s8) a = get_axis q0 a ++ repeat (fzero o) fr) by (intros a; rewrite G10; destruct a; reflexivity).
  assert (V : forall a, r_vary (st_rest s8) a = r_vary (st_rest s0) a ++ repeat false fr) by (intros a; rewrite G11; destruct a; reflexivity).
  assert (Hval : forall p, value (st_q s8) p = init_value p).
  { intros [m|a k]; cbn [value init_value]; [rewrite G8; reflexivity|rewrite A; reflexivity]. }
  split; [|auto]. constructor; auto.
  - intros a. unfold vary_at. rewrite V, Nat.sub_0_r. destruct a; reflexivity.
  - intros a. rewrite A, app_length, repeat_length. unfold na. f_equal. apply (rd_axes Hready a).
  - rewrite G6. split; reflexivity.
  - apply (hist_sized_same s0); [exact G7|apply (rd_hist Hready)].
  - rewrite G6. apply (rd_nphi_limits Hready).
Qed.
Theorem optimize_log_safe : safe Th finished (optimize_log o fsqrt of_Z rt gsl junk s0).
Proof.
  unfold optimize_log. rewrite check_sizes_ok. cbn [bind]. fold old.
  destruct add_modes_ok as (s & E & P & H & X & V & _). rewrite E. cbn [bind].
  match goal with |- safe _ _ (refine _ _ _ _ _ _ _ _ (S ?n) _) => replace n with fr by (symmetry; apply (ph_fr 0 s P)) end.
  match goal with |- safe _ _ (refine _ _ _ _ _ _ _ _ _ (?x, _)) => set (s1 := x) end.
  destruct H as (H1 & H2 & H3 & H4 & H5).
  assert (P1 : Phase 0 s1).
  { constructor; try apply P. destruct (ph_hist 0 s P) as [S1 S2 S3]. constructor; auto. }
  apply refine_safe; [lia|]. constructor; cbn [fst snd].
  - constructor; cbn [fst snd].
    + split; [exact P1|]. cbn. rewrite X. reflexivity.
    + constructor; cbn [reports filter map length].
      * reflexivity.
      * cbn. lia.
      * intros [|i] r Hr; discriminate.
      * intros i [_ Hi]. unfold blank. cbn [s1 set_rest st_iter st_iter_axis st_rest set_counts r_iter_fourier_refine_step]. rewrite H1, H2, H3.
        apply (rd_blank Hready); auto.
    + apply log_nil.
    + unfold cursor. cbn. split; [reflexivity|]. intros p _. apply V.
  - cbn. rewrite H5. unfold n_evals_of. cbn. lia.
  - unfold ends_at. cbn. intros p _. apply V.
  - congruence.
  - auto.
  - constructor.
Qed.
End Run.

(** ** From Opt::allocate *)
Section Allocated.
Context {F : Type} (o : fops F) (fsqrt : F -> F) (of_Z : Z -> F) {Y : Type}.
Notation opt := (@stage F (@rest F Y)).
Variable rt : @routines F Y.
Variable fit : @qobj F -> @qextra F Y -> Prop.
Hypothesis Hqsc : qsc_ok fit rt.
Variable Th : string -> Prop.
Hypothesis Tallocate : forall q x w, acceptable q x -> q_allocate rt q x = Throw w -> Th w.

(** The parts of an object that are neither the history nor the configuration. *)
Definition same_settings (s s' : opt) : Prop :=
  st_num s' = st_num s /\ st_fourier_refine s' = st_fourier_refine s /\ r_max_iter (st_rest s') = r_max_iter (st_rest s) /\
  r_nphi (st_rest s') = r_nphi (st_rest s) /\ r_vary_num (st_rest s') = r_vary_num (st_rest s).

Lemma fold_set_iter {A B} (g : B -> string * A) : forall (l : list B) (it : string -> A) m,
  (forall b b', In b l -> In b' l -> fst (g b) = fst (g b') -> snd (g b) = snd (g b')) ->
  (forall b, In b l -> fst (g b) = m -> fold_left (fun it b => set_iter it (fst (g b)) (snd (g b))) l it m = snd (g b)) /\
  ((forall b, In b l -> fst (g b) <> m) -> fold_left (fun it b => set_iter it (fst (g b)) (snd (g b))) l it m = it m).
Proof.
  induction l as [|b l IH]; intros it m H; cbn [fold_left]; [split; [intros b []|auto]|].
  assert (H' : forall b b', In b l -> In b' l -> fst (g b) = fst (g b') -> snd (g b) = snd (g b')) by (intros; apply H; auto; right; auto).
  destruct (IH (set_iter it (fst (g b)) (snd (g b))) m H') as [I1 I2]. split.
  - intros b' [<-|I] E.
    + destruct (in_dec string_dec m (map (fun x => fst (g x)) l)) as [Hi|Hn].
      * apply in_map_iff in Hi as (b2 & E2 & Hi). rewrite (I1 b2 Hi E2). apply H; [right; auto|left; auto|congruence].
      * rewrite I2; [|intros b2 Hb2 E2; apply Hn; apply in_map_iff; eauto]. unfold set_iter. rewrite E, String.eqb_refl. reflexivity.
    + auto.
  - intros Hn. rewrite I2 by (intros b' Hb'; apply Hn; right; auto). unfold set_iter.
    destruct (String.eqb_spec m (fst (g b))); auto. exfalso. apply (Hn b); [left; auto|auto].
Qed.
Lemma history_in_arrays m x : In (m, x) history_table -> In m history_arrays.
Proof.
  intros I. assert (E : forallb (fun t => existsb (String.eqb (fst t)) history_arrays) history_table = true) by reflexivity.
  rewrite forallb_forall in E. specialize (E _ I). apply existsb_exists in E as (y & Iy & E). apply String.eqb_eq in E. cbn in E. subst. auto.
Qed.

Lemma allocate_safe (s : opt) : input_ok s -> ((r_max_iter (st_rest s) < 0)%Z -> Th "std::bad_alloc"%string) ->
  safe Th (fun s' => ready o s' /\ same_settings s s' /\ same_inputs (st_q s) (st_q s') /\ same_extra (r_q (st_rest s)) (r_q (st_rest s')) /\
          qx_nphi (r_q (st_rest s')) = odd_nphi (qx_nphi (r_q (st_rest s))) /\
          r_vary (st_rest s') = r_vary (st_rest s) /\ r_n_evals (st_rest s') = r_n_evals (st_rest s)) (allocate o rt s).
Proof.
  intros (Hax & (Hn & Hl) & H1 & Hlim & Hnl) Tb. unfold allocate.
  assert (An : acceptable (st_q s) (r_q (st_rest s))).
  { split; [exact Hax|]. split; [|exact Hnl]. destruct Hlim as (A & B & C). split; [exact H1|]. split; [exact B|]. unfold n_modes in *. nia. }
  eapply safe_bind; [apply on_q_safe; [intros q x q' x' Hq; apply (allocate_ok fit rt Hqsc q x q' x' Hq)| |]|].
  { intros why. apply (no_ub fit rt Hqsc). exact An. }
  { intros w. apply Tallocate. exact An. }
  intros s1 (q & x & -> & Ea & I1 & I2 & I3). cbn [with_q st_rest r_max_iter st_q st_iter st_iter_axis st_fourier_refine st_num].
  destruct (r_max_iter (st_rest s) <? 0)%Z eqn:Em; cbn [safe]; [apply Tb, Z.ltb_lt; exact Em|]. apply Z.ltb_ge in Em.
  set (n := Z.to_nat (r_max_iter (st_rest s))). set (rows := length (qo_R0c q) + st_fourier_refine s).
  match goal with |- ready o ?x /\ _ => set (s' := x) end.
  assert (N : forall m y, In (m, y) history_table -> st_iter s' m = repeat (fzero o) n).
  { intros m y I. cbn [s' st_iter].
    destruct (fold_set_iter (fun m => (m, repeat (fzero o) n)) history_arrays (st_iter s) m) as [G _]; [reflexivity|].
    apply (G m); [|reflexivity]. eapply history_in_arrays; eauto. }
  assert (M : forall n' a, In (n', a) recorded_axes -> st_iter_axis s' n' = mkMatrix rows n (rows * n) (repeat (fzero o) (rows * n))).
  { intros n' a I. cbn [s' st_iter_axis history_axes fold_left fst snd]. unfold matrix_resize.
    cbn in I. destruct I as [I|[I|[I|[I|[]]]]]; injection I as <- <-; unfold set_iter; cbn [String.eqb Ascii.eqb Bool.eqb]; reflexivity. }
  assert (Hs : HistSized s' s').
  { constructor.
    - intros m y I. rewrite (N m y I), repeat_length. reflexivity.
    - intros n' a I. rewrite (M n' a I). unfold mat_ok. cbn [m_nrows m_ncols m_data]. rewrite repeat_length. auto.
    - cbn. apply repeat_length. }
  split; [|split; [repeat split|split; [exact I1|split; [exact I2|split; [exact I3|split; reflexivity]]]]].
  constructor.
  - intros a. cbn [s' st_q]. change (qo_R0c q) with (get_axis q R0c). rewrite (proj2 I1 a), (proj2 I1 R0c), Hax. symmetry. apply (Hax R0c).
  - exact Hn.
  - split; [exact Hl|]. cbn [s' st_rest set_steps r_q with_q]. rewrite I3. revert Hnl. unfold nphi_limits. intros Hnl.
    destruct (odd_nphi_least (qx_nphi (r_q (st_rest s)))) as [[-> _]|[-> O]]; [exact Hnl|].
    destruct (Z.eq_dec (qx_nphi (r_q (st_rest s))) 1073741821) as [Ez|]; [rewrite Ez in O; discriminate O|lia].
  - cbn [s' st_rest set_steps r_q with_q st_q st_fourier_refine]. rewrite (proj1 I2). change (qo_R0c q) with (get_axis q R0c). rewrite (proj2 I1 R0c). exact Hlim.
  - cbn [s' st_rest set_steps r_q with_q]. rewrite I3. apply odd_odd.
  - exact Hs.
  - exact Em.
  - intros i Hi. change (Z.to_nat (r_max_iter (st_rest s'))) with n in Hi. split; [|split].
    + intros m y I. rewrite (N m y I). apply nth_error_repeat. exact Hi.
    + intros n' a k I Hk. rewrite (M n' a I). unfold cell. cbn [m_nrows m_data]. apply nth_error_repeat.
      apply idx2_bound; auto.
    + cbn. apply nth_error_repeat. exact Hi.
Qed.
End Allocated.
