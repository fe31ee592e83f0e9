(** C106: a random scan, from the input file to the output file. *)
From Coq Require Import String ZArith List Arith Bool Lia Reals Lra.
From Verif Require Import Base BaseFacts FloatOps MathOps Tensor Newton RSing Axis AxisSpec Alloc AllocSpec AllocFacts Toml TomlSpec TomlFacts Options OptionsSpec
  NetCDF NetCDFOut NetCDFSpec NetCDFFacts NetCDFRead.
From Verif Require Import Scan ScanSpec ScanFacts RandomGen RandomSpec RandomFacts ScanDet ScanDetFacts OptSpec Run RunSpec RunFacts RunSafe RunFile RunInput OptQsc ScanQsc Star Collect CollectFacts ScanFile
  Properties_NetCDF Properties_Random Properties_Scan Properties_Collect Properties_RSing HelicityFacts Properties_RunSafe Properties_ScanQsc Properties_ScanFile ScanDraw Properties_ScanDraw ScanInput.
Import ListNotations.
Local Open Scope string_scope.
Local Open Scope nat_scope.

(** ** Reading *)
Section Reading.
Context {F : Type} (o : fops F) (mo : mops F) (big newton_tol : F).
Notation store := (Toml.store F).
Notation of_int := (m_of_Z mo).
Notation effect := (section_effect of_int).

(** The variables [ss] after the table [t] has been read: a key of the table sets the variable of that name, the other variables have the default; then the arrays are
    filled up with zeros to the length [n] of the longest. *)
Definition scan_read (t : Toml.table F) (ss : store) : Prop :=
  exists s1 n, effect scan_keys t (scan_defaults o mo big) s1 /\ (forall x, ~ In x limit_arrays -> ss x = s1 x) /\
    (forall x, In x limit_arrays -> exists v, s1 x = VVec v /\ length v <= n /\ ss x = VVec (TomlSpec.padded (fzero o) n v)) /\
    (exists x v, In x limit_arrays /\ s1 x = VVec v /\ length v = n).

(** A variable of the type [k]; an integer is in the range of int. *)
Definition has_kind (k : kind) (c : cval F) : Prop :=
  match k, c with KInt, VInt z => in_int32 z | KBool, VBool _ => True | KFloat, VFloat _ => True | KStr, VStr _ => True | KVec, VVec _ => True | _, _ => False end.
Definition typed (docs : list (string * kind)) (s : store) : Prop := forall x k, In (x, k) docs -> has_kind k (s x).
Definition plain_kind (k : kind) : bool := match k with KInt | KBool | KFloat | KStr | KVec => true | _ => false end.
Lemma denoted_kind k v c : plain_kind k = true -> TomlSpec.denotes of_int k v c -> has_kind k c.
Proof. intros H D. destruct D; try discriminate; cbn; try exact I. match goal with H : int32_of _ _ |- _ => exact (proj1 H) end. Qed.
Lemma effect_typed docs t s s1 : forallb (fun p => plain_kind (snd p)) docs = true -> effect docs t s s1 -> typed docs s -> typed docs s1.
Proof.
  intros P E T x k Hx. rewrite forallb_forall in P. specialize (P (x, k) Hx). cbn in P.
  apply (TomlFacts.effect_kind of_int docs t s s1 x k (has_kind k) Hx E (T x k Hx)). intros v c. apply denoted_kind. exact P.
Qed.
Ltac each Hx := repeat (destruct Hx as [Hx|Hx]; [injection Hx as <- <-; cbv; repeat split; discriminate|]); destruct Hx.
Lemma scan_defaults_typed : typed scan_keys (scan_defaults o mo big).
Proof. intros x k Hx. unfold scan_keys in Hx. cbn [map app] in Hx. each Hx. Qed.
Lemma qsc_defaults_typed : typed qsc_keys (default_store o newton_tol).
Proof. intros x k Hx. unfold qsc_keys in Hx. each Hx. Qed.
Lemma limit_arrays_vec x : In x limit_arrays -> In (x, KVec) scan_keys.
Proof. intros H. unfold scan_keys. cbn [map app]. repeat (destruct H as [<-|H]; [repeat (first [left; reflexivity|right])|]); destruct H. Qed.

Lemma newsize_is (s : store) l : (forall x, In x l -> exists v, s x = VVec v) -> forall n0, exists n, newsize_of s l n0 = Ok n /\ n0 <= n /\
  (forall x v, In x l -> s x = VVec v -> length v <= n) /\ (n = n0 \/ exists x v, In x l /\ s x = VVec v /\ length v = n).
Proof.
  induction l as [|x l IH]; intros H n0; cbn [newsize_of].
  - exists n0. split; [reflexivity|]. split; [lia|]. split; [intros ? ? []|left; reflexivity].
  - destruct (H x (or_introl eq_refl)) as (v & Ev). rewrite Ev. cbn [vec_of bind]. destruct (IH (fun y Hy => H y (or_intror Hy)) (Nat.max n0 (length v))) as (n & E & L & A & B).
    exists n. split; [exact E|]. split; [lia|]. split.
    + intros y w [<-|Hy] Ew; [|exact (A y w Hy Ew)]. assert (w = v) by congruence. subst w. lia.
    + destruct B as [B|(y & w & B1 & B2 & B3)]; [|right; exists y, w; cbn; auto]. destruct (Nat.max_spec n0 (length v)) as [(_ & M)|(_ & M)]; rewrite M in B; [right; exists x, v; cbn; auto|left; exact B].
Qed.
Lemma pad_limits_is n l : NoDup l -> forall s : store, (forall x, In x l -> exists v, s x = VVec v /\ length v <= n) ->
  exists s', pad_limits o n l s = Ok s' /\ (forall x, ~ In x l -> s' x = s x) /\ (forall x v, In x l -> s x = VVec v -> s' x = VVec (TomlSpec.padded (fzero o) n v)).
Proof.
  induction 1 as [|x l Nx ND IH]; intros s H; cbn [pad_limits].
  - exists s. split; [reflexivity|]. split; [auto|intros ? ? []].
  - destruct (H x (or_introl eq_refl)) as (v & Ev & Lv). rewrite Ev. cbn [vec_of bind]. rewrite pad_vector_ok by exact Lv. cbn [bind].
    destruct (IH (sset s x (VVec (TomlSpec.padded (fzero o) n v)))) as (s' & E & A & B).
    { intros y Hy. rewrite sset_other by (intros ->; contradiction). apply H. right. exact Hy. }
    exists s'. split; [exact E|]. split.
    + intros y Hy. rewrite A by (intros K; apply Hy; right; exact K). apply sset_other. intros ->. apply Hy. left. reflexivity.
    + intros y w [<-|Hy] Ew.
      * rewrite A by exact Nx. rewrite sset_same. congruence.
      * apply B; [exact Hy|]. rewrite sset_other by (intros ->; contradiction). exact Ew.
Qed.
(** Reading the table "scan": a table with an unknown key, or with a value of the wrong type, is rejected; for the other tables the variables are those of the specification. *)
Theorem scan_table_read : forall t,
  (valid_section of_int scan_keys t /\ exists ss, scan_input o mo t (scan_defaults o mo big) = Ok ss /\ scan_read t ss) \/
  (~ valid_section of_int scan_keys t /\ exists msg, scan_input o mo t (scan_defaults o mo big) = Throw msg).
Proof.
  intros t. unfold scan_input. destruct (scan_reads_section of_int t (scan_defaults o mo big)) as [(V & s1 & -> & E)|(V & m & ->)]; cbn [bind]; [left|right; eauto].
  split; [exact V|]. pose proof (effect_typed scan_keys _ _ _ eq_refl E scan_defaults_typed) as T.
  assert (Vec : forall x, In x limit_arrays -> exists v, s1 x = VVec v).
  { intros x Hx. specialize (T x KVec (limit_arrays_vec x Hx)). destruct (s1 x) as [| | | |v| | | |]; try contradiction. eauto. }
  destruct (newsize_is s1 limit_arrays Vec 0) as (n & -> & _ & A & B). cbn [bind].
  destruct (pad_limits_is n limit_arrays) with (s := s1) as (s' & -> & A' & B').
  { apply nodupb_ok. reflexivity. }
  { intros x Hx. destruct (Vec x Hx) as (v & Ev). exists v. split; [exact Ev|exact (A x v Hx Ev)]. }
  exists s'. split; [reflexivity|]. exists s1, n. split; [exact E|]. split; [exact A'|]. split.
  - intros x Hx. destruct (Vec x Hx) as (v & Ev). exists v. split; [exact Ev|]. split; [exact (A x v Hx Ev)|exact (B' x v Hx Ev)].
  - destruct B as [->|B]; [|exact B]. destruct (Vec "R0c_min" (or_introl eq_refl)) as (v & Ev). exists "R0c_min", v. split; [left; reflexivity|]. split; [exact Ev|].
    specialize (A _ v (or_introl eq_refl) Ev). lia.
Qed.

(** What is needed of the variables. *)
Lemma scan_inputs_typed tq ts sq ss : scan_inputs o mo big newton_tol tq ts = Ok (sq, ss) -> typed qsc_keys sq /\ typed scan_keys ss /\
  exists n, forall x, In x limit_arrays -> length (v_vec ss x) = n.
Proof.
  unfold scan_inputs. intros H. destruct (qsc_input_cases of_int (fzero o) tq (default_store o newton_tol)) as [(V & s1 & s' & a & E & K1 & K2 & K3 & K4 & Eq & P1 & P2 & P3 & P4 & Ot)|(V & m & Eq)].
  { intros x Hx. unfold axis_keys in Hx. cbn in Hx. repeat (destruct Hx as [<-|Hx]; [eexists; reflexivity|]). destruct Hx. }
  2: { rewrite Eq in H. discriminate. }
  rewrite Eq in H. cbn [bind] in H. destruct (scan_table_read ts) as [(_ & s2 & Es & (s3 & n & E3 & O3 & A3 & _))|(_ & m & Es)]; rewrite Es in H; cbn [bind] in H; [|discriminate].
  injection H as <- <-. split; [|split].
  - pose proof (effect_typed qsc_keys _ _ _ eq_refl E qsc_defaults_typed) as T. intros x k Hx. destruct (in_dec string_dec x axis_keys) as [Ha|Ha].
    + assert (k = KVec). { specialize (T x k Hx). destruct Ha as [<-|[<-|[<-|[<-|[]]]]]; rewrite ?K1, ?K2, ?K3, ?K4 in T; destruct k; try contradiction; reflexivity. }
      subst k. destruct Ha as [<-|[<-|[<-|[<-|[]]]]]; rewrite ?P1, ?P2, ?P3, ?P4; exact I.
    + rewrite (Ot x Ha). exact (T x k Hx).
  - pose proof (effect_typed scan_keys _ _ _ eq_refl E3 scan_defaults_typed) as T. intros x k Hx. destruct (in_dec string_dec x limit_arrays) as [Ha|Ha].
    + destruct (A3 x Ha) as (v & Ev & _ & ->). specialize (T x k Hx). rewrite Ev in T. destruct k; try contradiction. exact I.
    + rewrite (O3 x Ha). exact (T x k Hx).
  - exists n. intros x Hx. destruct (A3 x Hx) as (v & _ & L & E'). unfold v_vec. rewrite E'. apply padded_length. exact L.
Qed.
Lemma scan_inputs_defined tq ts why : scan_inputs o mo big newton_tol tq ts <> UB why.
Proof.
  unfold scan_inputs. intros H. destruct (qsc_input_cases of_int (fzero o) tq (default_store o newton_tol)) as [(_ & s1 & s' & a & _ & _ & _ & _ & _ & Eq & _)|(V & m & Eq)].
  { intros x Hx. unfold axis_keys in Hx. cbn in Hx. repeat (destruct Hx as [<-|Hx]; [eexists; reflexivity|]). destruct Hx. }
  2: { rewrite Eq in H. discriminate. }
  rewrite Eq in H. cbn [bind] in H. destruct (scan_table_read ts) as [(_ & s2 & Es & _)|(_ & m & Es)]; rewrite Es in H; discriminate.
Qed.
Lemma typed_int docs s x : typed docs s -> In (x, KInt) docs -> s x = VInt (v_int s x) /\ in_int32 (v_int s x).
Proof. intros T H. specialize (T x KInt H). unfold v_int. destruct (s x); try contradiction. split; [reflexivity|exact T]. Qed.
Lemma typed_float docs s x : typed docs s -> In (x, KFloat) docs -> s x = VFloat (v_float o s x).
Proof. intros T H. specialize (T x KFloat H). unfold v_float. destruct (s x); try contradiction. reflexivity. Qed.
Lemma typed_bool docs s x : typed docs s -> In (x, KBool) docs -> s x = VBool (v_bool s x).
Proof. intros T H. specialize (T x KBool H). unfold v_bool. destruct (s x); try contradiction. reflexivity. Qed.
Lemma typed_str docs s x : typed docs s -> In (x, KStr) docs -> s x = VStr (v_str s x).
Proof. intros T H. specialize (T x KStr H). unfold v_str. destruct (s x); try contradiction. reflexivity. Qed.
Lemma typed_vec docs s x : typed docs s -> In (x, KVec) docs -> s x = VVec (v_vec s x).
Proof. intros T H. specialize (T x KVec H). unfold v_vec. destruct (s x); try contradiction. reflexivity. Qed.
End Reading.

(** ** Scans *)
Section Scans.
Variable big : R.
Variables (ge0 : R -> bool) (newton_tol mu0 : R) (newton_linear_solve : (nat -> nat -> R) -> list R -> outcome (list R))
  (linear_solve : matrix R -> list R -> outcome (list R)) (geev : list R -> Z * (list R * list R)) (tol : tolerances R) (finite : R -> bool).
Notation members := (members R).
Notation run_gives := (run_gives R_ops R_math ge0 newton_tol mu0 newton_linear_solve linear_solve geev tol finite).
Context {G : Type} (uniform : G -> R * G).
Notation program := (scan_program R_ops R_math big newton_tol R_funs uniform ge0 mu0 newton_linear_solve linear_solve geev tol finite).
Notation inputs := (scan_inputs R_ops R_math big newton_tol).
Notation proc := (@proc R (gens (F:=R) (G:=G)) (calc R)).
Variable fof : nat -> R.
Hypothesis solvers : solvers_ok newton_linear_solve linear_solve.
Hypothesis uniform01 : forall g, (0 <= fst (uniform g) <= 1)%R.

(** ** Specification *)
(** Input for which the arithmetic on integers does not overflow, and with room for a configuration. *)
Definition acceptable_scan (sq ss : Toml.store R) : Prop :=
  OptSpec.limits (length (v_vec ss "R0c_max")) (v_int sq "nfp") /\ nphi_limits (v_int sq "nphi") /\ (1 <= v_int ss "max_keep_per_proc")%Z.
(** The numbers and amplitudes of a configuration are within the limits that the keys of the table "scan" give.  The first amplitude, R0c[0], is itself between its limits,
    whatever the distribution. *)
Definition in_limits (ss : Toml.store R) (second : bool) (number : string -> R) (amplitude : string -> list R) : Prop :=
  (forall x, In x (["eta_bar"; "sigma0"] ++ if second then ["B2c"; "B2s"; "p2"] else []) ->
     within (v_str ss (String.append x "_scan_option"), v_float R_ops ss (String.append x "_min"), v_float R_ops ss (String.append x "_max")) (number x)) /\
  (forall a, In a axis_keys -> length (amplitude a) = length (v_vec ss (String.append a "_max")) /\
     forall j v, nth_error (amplitude a) j = Some v -> exists lo hi, nth_error (v_vec ss (String.append a "_min")) j = Some lo /\ nth_error (v_vec ss (String.append a "_max")) j = Some hi /\
       (if (String.eqb a "R0c" && Nat.eqb j 0)%bool then RandomSpec.between lo hi v else within (v_str ss "fourier_scan_option", lo, hi) v)).
Definition positions_fit (ss : Toml.store R) (rank : Z) : Prop :=
  (-2147483648 <= rank * v_int ss "max_attempts_per_proc" /\ rank * v_int ss "max_attempts_per_proc" + 7 < 2147483648)%Z.

Lemma ranges_in_limits ss second number amplitude : (forall x, In x limit_arrays -> length (v_vec ss x) = length (v_vec ss "R0c_max")) ->
  in_ranges (ranges_of R_ops ss) second number amplitude -> in_limits ss second number amplitude.
Proof.
  intros L (A & B). split.
  - intros x Hx. apply A. unfold number_limits. destruct second; cbn [app] in *; repeat (destruct Hx as [<-|Hx]; [repeat (first [left; reflexivity|right])|]); destruct Hx.
  - intros a Ha. rewrite L by (destruct Ha as [<-|[<-|[<-|[<-|[]]]]]; cbn; tauto). apply B. unfold amplitude_limits.
    destruct Ha as [<-|[<-|[<-|[<-|[]]]]]; repeat (first [left; reflexivity|right]).
Qed.
Lemma object_ok tq ts sq ss e : inputs tq ts = Ok (sq, ss) -> acceptable_scan sq ss ->
  let q := load sq (constructed R_ops e) in
  scan_input_ok (settings_of R_ops sq ss) (length (R0c_max (ranges_of R_ops ss))) q /\ ints_fit q /\
  (forall x, In (x, KInt) qsc_keys -> m_int R q x = v_int sq x) /\ (forall x, In (x, KFloat) qsc_keys -> m_float R q x = v_float R_ops sq x) /\
  m_text R q "order_r_option" = v_str sq "order_r_option".
Proof.
  intros H (A1 & A2 & A3) q. destruct (scan_inputs_typed R_ops R_math big newton_tol tq ts sq ss H) as (Tq & Ts & _).
  assert (I : forall x, In (x, KInt) qsc_keys -> m_int R q x = v_int sq x /\ in_int32 (v_int sq x)).
  { intros x Hx. destruct (typed_int _ _ _ Tq Hx) as (E & B). split; [|exact B]. unfold q. cbn [load m_int]. rewrite E. reflexivity. }
  assert (Fl : forall x, In (x, KFloat) qsc_keys -> m_float R q x = v_float R_ops sq x).
  { intros x Hx. unfold q. cbn [load m_float]. rewrite (typed_float R_ops _ _ _ Tq Hx). reflexivity. }
  assert (Tx : m_text R q "order_r_option" = v_str sq "order_r_option").
  { unfold q. cbn [load m_text]. rewrite (typed_str _ _ "order_r_option" Tq) by (cbn; tauto). reflexivity. }
  split; [|split; [|split; [intros x Hx; apply I; exact Hx|split; [exact Fl|exact Tx]]]].
  - unfold scan_input_ok. cbn [settings_of ranges_of R0c_max Scan.max_keep_per_proc Scan.at_least_order_r2].
    rewrite Tx, (proj1 (I "nfp" ltac:(cbn; tauto))), (proj1 (I "nphi" ltac:(cbn; tauto))). split; [exact A1|]. split; [exact A2|]. split; [lia|reflexivity].
  - intros x Hx. assert (Hk : In (x, KInt) qsc_keys) by (repeat (destruct Hx as [<-|Hx]; [cbn; tauto|]); destruct Hx). destruct (I x Hk) as (-> & B). exact B.
Qed.
(** A scan has defined behaviour for every input file: it is rejected, or read; then the conditions above are enough. *)
Theorem scan_program_defined : forall tq ts seed rank e start clock why,
  (forall sq ss, inputs tq ts = Ok (sq, ss) -> acceptable_scan sq ss /\ positions_fit ss rank) -> program tq ts seed rank e start clock <> UB why.
Proof.
  intros tq ts seed rank e start clock why H E. unfold scan_program in E. destruct (inputs tq ts) as [[sq ss]| |w] eqn:Ei; cbn [bind fst snd] in E; [|discriminate|exact (scan_inputs_defined _ _ _ _ _ _ _ Ei)].
  destruct (H sq ss eq_refl) as (A & P). destruct (object_ok tq ts sq ss e Ei A) as (Hok & Hi & _).
  destruct (scan_inputs_typed R_ops R_math big newton_tol tq ts sq ss Ei) as (_ & _ & n & L).
  revert E. apply (whole_scan_defined ge0 newton_tol mu0 newton_linear_solve linear_solve geev tol finite uniform _ solvers); [exact Hok| |exact P].
  intros x lo hi Hx. cbn [ranges_of R0c_max amplitude_limits In] in *. rewrite (L "R0c_max") by (cbn; tauto).
  destruct Hx as [Hx|[Hx|[Hx|[Hx|[]]]]]; injection Hx as _ <- <-; cbn [ranges_of R0c_min R0c_max R0s_min R0s_max Z0c_min Z0c_max Z0s_min Z0s_max]; split; apply L; cbn; tauto.
Qed.
(** A process that has gone through the scan, with its own rank, seeds, memory and clock, and the object q of the process at the beginning or at the end of one of its attempts. *)
Definition scan_process (tq ts : Toml.table R) (p : proc) : Prop := exists seed rank e start clock, program tq ts seed rank e start clock = Ok (p, true).
Definition q_object (tq ts : Toml.table R) (p : proc) (m : members) : Prop :=
  exists sq ss seed rank e start clock, inputs tq ts = Ok (sq, ss) /\ program tq ts seed rank e start clock = Ok (p, true) /\
    ((exists q, scan_start R_ops (length (v_vec ss "R0c_max")) (load sq (constructed R_ops e)) = Ok q /\ m = c_members (q_rest q)) \/ exists c v, In (c, v) (p_log p) /\ m = c_members (q_rest c)).
(** The inputs of a configuration that are not drawn are those of the table "qsc". *)
Definition from_input (sq : Toml.store R) (c : members) : Prop :=
  m_int R c "nphi" = odd_nphi (v_int sq "nphi") /\ (forall x, In x ["nfp"; "sG"; "spsi"; "max_newton_iterations"; "max_linesearch_iterations"] -> m_int R c x = v_int sq x) /\
  (forall x, In x ["B0"; "I2"; "newton_tolerance"] -> m_float R c x = v_float R_ops sq x) /\ m_text R c "order_r_option" = v_str sq "order_r_option".
(** Entry [j] of the output file [f] is within the limits for what is kept. *)
Definition lower_limits (second : bool) : list (string * string) :=
  [("scan_min_R0", "min_R0_to_keep"); ("scan_min_L_grad_B", "min_L_grad_B_to_keep")] ++
  if second then [("scan_min_L_grad_grad_B", "min_L_grad_grad_B_to_keep"); ("scan_r_singularity", "min_r_singularity_to_keep"); ("scan_DMerc_times_r2", "min_DMerc_times_r2_to_keep");
                  ("scan_beta", "min_beta_to_keep")] else [].
Definition upper_limits (second : bool) : list (string * string) :=
  [("scan_max_elongation", "max_elongation_to_keep")] ++
  if second then [("scan_B20_variation", "max_B20_variation_to_keep"); ("scan_d2_volume_d_psi2", "max_d2_volume_d_psi2_to_keep")] else [].
Definition to_keep (ss : Toml.store R) (second : bool) (f : file R) (j : nat) : Prop :=
  (forall x y, In (x, y) (lower_limits second) -> exists v, element R f x [j] v /\ (v_float R_ops ss y <= v)%R) /\
  (forall x y, In (x, y) (upper_limits second) -> exists v, element R f x [j] v /\ (v <= v_float R_ops ss y)%R) /\
  (exists v, element R f "scan_iota" [j] v /\ (v_float R_ops ss "min_iota_to_keep" <= Rabs v)%R) /\
  (exists h, integer_at f "scan_helicity" j h /\ (v_int ss "helicity_to_keep" = 0%Z -> h = 0%Z) /\ (v_int ss "helicity_to_keep" = 1%Z -> h = 1%Z \/ h = (-1)%Z)).
(** The settings of the scan are in its output file. *)
Definition always_recorded : list string := ["eta_bar_min"; "eta_bar_max"; "sigma0_min"; "sigma0_max"].
Definition second_recorded : list string := ["B2c_min"; "B2c_max"; "B2s_min"; "B2s_max"; "p2_min"; "p2_max"].
Definition text_at (f : file R) (x : string) (t : string) : Prop := exists v, In v (f_vars R f) /\ v_name R v = x /\ v_contents R v = Some (Chars t).
Definition settings_recorded (ss : Toml.store R) (second : bool) (f : file R) : Prop :=
  (forall x, In x (always_recorded ++ if second then second_recorded else []) -> element R f x [] (v_float R_ops ss x)) /\
  (forall x k, In x limit_arrays -> k < length (v_vec ss x) -> element R f x [k] (nth k (v_vec ss x) 0%R)) /\
  (forall x, In x (["eta_bar_scan_option"; "sigma0_scan_option"; "fourier_scan_option"] ++ if second then ["B2c_scan_option"; "B2s_scan_option"; "p2_scan_option"] else []) -> text_at f x (v_str ss x)).

Lemma options_not_empty rg g : good R_ops R_funs uniform rg g -> 0 < length (R0c_max rg) ->
  (forall l, In l [rg_eta_bar rg; rg_sigma0 rg; rg_B2c rg; rg_B2s rg; rg_p2 rg] -> fst (fst l) <> "") /\ rg_fourier_option rg <> "".
Proof.
  intros (H1 & H2 & H3 & H4 & H5 & L & H) Hn.
  assert (A : forall d lo hi r, reachable R_ops R_funs uniform (rg_deterministic rg) d lo hi r -> d <> "").
  { intros d lo hi r Hr. destruct (reachable_params uniform _ _ _ _ _ Hr) as (_ & _ & _ & _ & _ & _ & _ & [(-> & _)|[(-> & _)|(-> & _)]]); discriminate. }
  split.
  - intros l Hl. destruct Hl as [<-|[<-|[<-|[<-|[<-|[]]]]]];
      [destruct (rg_eta_bar rg) as [[d lo] hi]|destruct (rg_sigma0 rg) as [[d lo] hi]|destruct (rg_B2c rg) as [[d lo] hi]|destruct (rg_B2s rg) as [[d lo] hi]|destruct (rg_p2 rg) as [[d lo] hi]];
      cbn [fst]; eapply A; eassumption.
  - destruct (nth_error (g_modes g) 0) as [m|] eqn:E; [|apply nth_error_None in E; lia]. destruct (H 0 m E) as (_ & (a & b & _ & _ & Hr) & _). exact (A _ _ _ _ Hr).
Qed.

(** A process of the scan, in the terms of Properties_ScanFile.v. *)
Lemma program_is tq ts sq ss seed rank e start clock p : inputs tq ts = Ok (sq, ss) -> program tq ts seed rank e start clock = Ok (p, true) ->
  let cfg := settings_of R_ops sq ss in let na := length (v_vec ss "R0c_max") in let q := load sq (constructed R_ops e) in
  whole_scan R_ops R_math R_funs uniform ge0 mu0 newton_linear_solve linear_solve geev tol finite cfg (ranges_of R_ops ss) seed rank q start clock = Ok (p, true) /\
  exists g, good R_ops R_funs uniform (ranges_of R_ops ss) g /\
    random_scan R_ops R_math ge0 mu0 newton_linear_solve linear_solve geev tol finite (RandomGen.fabs R_funs) (sized_pick R_ops R_funs uniform (Scan.at_least_order_r2 cfg) na) cfg na q g start clock = Ok (p, true).
Proof.
  intros Ei E cfg na q. unfold scan_program in E. rewrite Ei in E. cbn [bind fst snd] in E. split; [exact E|].
  destruct (scan_with_sized ge0 mu0 newton_linear_solve linear_solve geev tol finite uniform cfg (ranges_of R_ops ss) seed rank q start clock p true E) as (g & Hg & _ & Er).
  exists g. split; [exact Hg|exact Er].
Qed.
Lemma objects_same tq ts sq ss e e' : inputs tq ts = Ok (sq, ss) -> acceptable_scan sq ss -> same_scan_input (load sq (constructed R_ops e)) (load sq (constructed R_ops e')).
Proof.
  intros Ei A. destruct (object_ok tq ts sq ss e Ei A) as (_ & _ & I & Fl & Tx). destruct (object_ok tq ts sq ss e' Ei A) as (_ & _ & I' & Fl' & Tx'). split; [|split].
  - intros x Hx. assert (Hk : In (x, KInt) qsc_keys) by (repeat (destruct Hx as [<-|Hx]; [cbn; tauto|]); destruct Hx). rewrite I, I' by exact Hk. reflexivity.
  - intros x Hx. assert (Hk : In (x, KFloat) qsc_keys) by (repeat (destruct Hx as [<-|Hx]; [cbn; tauto|]); destruct Hx). rewrite Fl, Fl' by exact Hk. reflexivity.
  - congruence.
Qed.
(** What is kept meets the requirements. *)
Lemma program_justified tq ts sq ss p c : inputs tq ts = Ok (sq, ss) -> acceptable_scan sq ss -> scan_process tq ts p -> In (c, None) (p_log p) ->
  forall k, ~ violates R_ops Rabs (settings_of R_ops sq ss) k c.
Proof.
  intros Ei A (seed & rank & e & start & clock & E) Hc. destruct (program_is _ _ _ _ _ _ _ _ _ _ Ei E) as (_ & g & _ & Er). destruct (object_ok tq ts sq ss e Ei A) as (Hok & _).
  cbn [ranges_of R0c_max] in Hok. set (cfg := settings_of R_ops sq ss) in *. set (na := length (v_vec ss "R0c_max")) in *.
  destruct (scan_cases R_ops R_math ge0 newton_tol mu0 newton_linear_solve linear_solve geev tol finite (RandomGen.fabs R_funs) (sized_pick R_ops R_funs uniform (Scan.at_least_order_r2 cfg) na) cfg na _ g start clock Hok)
    as [(w & _ & Ew)|(q & _ & Eq & _)]; [congruence|]. rewrite Eq in Er.
  destruct (scan_reports_are_true R_ops (RandomGen.fabs R_funs) _ _ cfg na (fun g s => sized_pick_sized R_ops R_funs uniform _ na g s) (proj1 (proj2 (proj2 Hok))) _ _ _ _ _ _ Er) as (J & _).
  rewrite Forall_forall in J. exact (J _ Hc).
Qed.
(** When a process stops, in terms of the table "scan": it makes at most max_attempts_per_proc attempts, if that is positive, and at most one after max_seconds have passed; it keeps
    at most max_keep_per_proc configurations; and it does not end before one of these limits is reached. *)
Theorem scan_stops_as_told : forall tq ts sq ss seed rank e start clock p, inputs tq ts = Ok (sq, ss) -> acceptable_scan sq ss -> program tq ts seed rank e start clock = Ok (p, true) ->
  ((0 < v_int ss "max_attempts_per_proc")%Z -> (Z.of_nat (length (p_log p)) <= v_int ss "max_attempts_per_proc")%Z) /\
  (forall before c later, clock = (before ++ c :: later)%list -> (v_float R_ops ss "max_seconds" < fst c - start)%R -> length (p_log p) <= length before + 1) /\
  (Z.of_nat (length (kept (p_log p))) <= v_int ss "max_keep_per_proc")%Z /\
  ((0 < v_int ss "max_attempts_per_proc" /\ Z.of_nat (length (p_log p)) = v_int ss "max_attempts_per_proc")%Z \/ Z.of_nat (length (kept (p_log p))) = v_int ss "max_keep_per_proc" \/
   exists c, In c clock /\ (v_float R_ops ss "max_seconds" < fst c - start)%R).
Proof.
  intros tq ts sq ss seed rank e start clock p Ei A E. destruct (program_is _ _ _ _ _ _ _ _ _ _ Ei E) as (_ & g & _ & Er). destruct (object_ok tq ts sq ss e Ei A) as (Hok & _).
  cbn [ranges_of R0c_max] in Hok. set (cfg := settings_of R_ops sq ss) in *. set (na := length (v_vec ss "R0c_max")) in *.
  destruct (scan_cases R_ops R_math ge0 newton_tol mu0 newton_linear_solve linear_solve geev tol finite (RandomGen.fabs R_funs) (sized_pick R_ops R_funs uniform (Scan.at_least_order_r2 cfg) na) cfg na _ g start clock Hok)
    as [(w & _ & Ew)|(q & _ & Eq & _)]; [congruence|]. rewrite Eq in Er.
  pose proof (fun g s => sized_pick_sized R_ops R_funs uniform (Scan.at_least_order_r2 cfg) na g s) as Sz. pose proof (proj1 (proj2 (proj2 Hok))) as K1.
  destruct (scan_stops R_ops (RandomGen.fabs R_funs) _ _ cfg na Sz K1 _ _ _ _ _ _ Er) as (S1 & S2 & S3).
  destruct (run_inv R_ops (RandomGen.fabs R_funs) _ _ cfg na Sz _ _ _ _ _ _ K1 Er) as (I & _). pose proof (inv_kept _ _ _ _ _ I) as Kp.
  destruct A as (_ & _ & A3).
  assert (Mk : Scan.max_keep_per_proc cfg = Z.to_nat (v_int ss "max_keep_per_proc")) by reflexivity. rewrite Mk in *.
  assert (Ma : Scan.max_attempts_per_proc cfg = v_int ss "max_attempts_per_proc") by reflexivity. rewrite Ma in *.
  assert (Lt : forall c, flt R_ops (Scan.max_seconds cfg) (fsub R_ops (fst c) start) = true <-> (v_float R_ops ss "max_seconds" < fst (B:=R) c - start)%R).
  { intros c. change (Rltb (v_float R_ops ss "max_seconds") (fst c - start) = true <-> (v_float R_ops ss "max_seconds" < fst c - start)%R). unfold Rltb.
    destruct (Rlt_dec _ _); split; intros H; try reflexivity; try assumption; [discriminate H|contradiction]. }
  split; [intros H; apply S1; exact H|]. split; [intros before c later H1 H2; apply (S2 before c later H1); apply Lt; exact H2|]. split; [lia|].
  destruct (S3 eq_refl) as [H|[H|(c & H1 & H2)]]; [left; exact H|right; left; lia|right; right; exists c; split; [exact H1|apply Lt; exact H2]].
Qed.
(** Any number of processes run the scan of an input file with the tables [tq] and [ts].  Whatever the order in which the messages between them arrive, the results are
    collected as often as a process saves them, and the output file that is then written lists the configurations that were kept, in the order of the ranks.  For each of them a run of the code
    for this configuration alone writes a file [fc] with the same results; its inputs are those of the table "qsc", or within the limits of the table "scan", and are in the
    output file; and it is one of those to be kept. *)
Theorem scan_from_input_to_output : forall tq ts sq ss (s0 : members) p0 ps root (leaves : list (list (@sending R))),
  inputs tq ts = Ok (sq, ss) -> acceptable_scan sq ss -> scan_process tq ts p0 -> Forall (scan_process tq ts) ps ->
  contributes p0 root -> Forall2 (fun p l => contributes p (map snd l)) ps leaves -> (forall p, In p ps -> length (p_saves p) = length (p_saves p0)) ->
  let na := length (v_vec ss "R0c_max") in let second := negb (String.eqb (v_str sq "order_r_option") "r1") in
  exists n outs st, steps n (scan_comm R_ops fof na root leaves) st /\ completed outs st /\ length outs = length (p_saves p0) /\
    (forall k st', steps k (scan_comm R_ops fof na root leaves) st' -> k <= n /\ steps (n - k) st' st) /\
    forall i out m, nth_error outs i = Some out -> (Z.of_nat (g_n_scan out) < 2147483648)%Z -> q_object tq ts p0 m ->
      exists logs f, Forall2 (fun p log => exists newer, p_log p = (newer ++ log)%list) (p0 :: ps) logs /\ (S i = length outs -> logs = map p_log (p0 :: ps)) /\
        scan_write_netcdf R (m_of_Z R_math) (store_merged out (with_q (scan_object ss s0) m)) = Ok f /\ NoDup (map (v_name R) (f_vars R f)) /\
        settings_recorded ss second f /\
        integer_at f "n_scan" 0 (Z.of_nat (length (flat_map kept logs))) /\
        (forall j, j < length (flat_map kept logs) ->
          exists c fc, run_gives c fc /\ from_input sq c /\ in_limits ss second (m_float R c) (m_array R c) /\
            (second = false -> forall x, In x ["B2c"; "B2s"; "p2"] -> m_float R c x = v_float R_ops sq x) /\
            (forall x y, In (x, y) scanned_first -> element R f x [j] (m_float R c y)) /\
            (forall x y k, In (x, y) scanned_axis -> k < na -> length (m_array R c y) = na /\ element R f x [j; k] (nth k (m_array R c y) 0%R)) /\
            (forall x y, In (x, y) results_first -> same_number f x [j] fc y) /\
            integer_at f "scan_helicity" j (whole R fc "helicity") /\
            (second = true ->
              (forall x y, In (x, y) scanned_second -> element R f x [j] (m_float R c y)) /\ (forall x y, In (x, y) results_second -> same_number f x [j] fc y)) /\
            (v_bool ss "keep_all" = false -> to_keep ss second f j)).
Proof.
  intros tq ts sq ss s0 p0 ps root leaves Ei A P0 Ps C0 Cs Hsv na second. pose proof P0 as (seed & rank & e & start & clock & E0).
  set (cfg := settings_of R_ops sq ss). set (q := load sq (constructed R_ops e)). set (pk := sized_pick R_ops R_funs uniform (Scan.at_least_order_r2 cfg) na).
  destruct (object_ok tq ts sq ss e Ei A) as (Hok & Hi & I & Fl & Tx). cbn [ranges_of R0c_max] in Hok. fold cfg in Hok. fold na in Hok. fold q in Hok, Hi, I, Fl, Tx.
  destruct (scan_inputs_typed R_ops R_math big newton_tol tq ts sq ss Ei) as (Tq & Ts & n0 & L0).
  assert (Ln : forall x, In x limit_arrays -> length (v_vec ss x) = na) by (intros x Hx; unfold na; rewrite (L0 x Hx), (L0 "R0c_max") by (cbn; tauto); reflexivity).
  assert (SA : forall x, In x limit_arrays -> m_array R (scan_object ss s0) x = v_vec ss x).
  { intros x Hx. cbn [scan_object load m_array]. rewrite (typed_vec _ _ x Ts (limit_arrays_vec x Hx)). reflexivity. }
  assert (SF : forall x, In (x, KFloat) scan_keys -> m_float R (scan_object ss s0) x = v_float R_ops ss x).
  { intros x Hx. cbn [scan_object load m_float]. rewrite (typed_float R_ops _ _ x Ts Hx). reflexivity. }
  assert (ST : forall x, In (x, KStr) scan_keys -> m_text R (scan_object ss s0) x = v_str ss x).
  { intros x Hx. cbn [scan_object load m_text]. rewrite (typed_str _ _ x Ts Hx). reflexivity. }
  assert (Pr : forall p, scan_process tq ts p -> process R_ops R_math ge0 mu0 newton_linear_solve linear_solve geev tol finite (RandomGen.fabs R_funs) pk cfg na q p).
  { intros p (seed' & rank' & e' & start' & clock' & E'). destruct (program_is _ _ _ _ _ _ _ _ _ _ Ei E') as (_ & g & _ & Er). exists (load sq (constructed R_ops e')), g, start', clock'.
    split; [exact (objects_same tq ts sq ss e e' Ei A)|exact Er]. }
  assert (Hset : scan_settings_ok na (scan_object ss s0)).
  { destruct (program_is _ _ _ _ _ _ _ _ _ _ Ei E0) as (_ & g & Hg & _). destruct (options_not_empty _ _ Hg) as (N1 & N2). { cbn [ranges_of R0c_max]. destruct A as ((A & _) & _). lia. }
    cbn [ranges_of rg_eta_bar rg_sigma0 rg_B2c rg_B2s rg_p2 rg_fourier_option] in N1, N2. split.
    - intros x Hx. repeat (destruct Hx as [<-|Hx]; [rewrite ST by (apply in_or_app; left; cbn; tauto); first [exact N2|refine (N1 (_, _, _) _); cbn; tauto]|]). destruct Hx.
    - intros x Hx. assert (Hl : In x limit_arrays) by (repeat (destruct Hx as [<-|Hx]; [cbn; tauto|]); destruct Hx). rewrite (SA x Hl). exact (Ln x Hl). }
  assert (Sz : forall g s, ScanSpec.sized na (fst (pk g s))) by (intros; apply sized_pick_sized).
  destruct (scan_file_full R_ops R_math ge0 newton_tol mu0 newton_linear_solve linear_solve geev tol finite (RandomGen.fabs R_funs) pk cfg na fof solvers Sz q (scan_object ss s0) p0 ps root leaves Hok Hi Hset
    (Pr p0 P0)) as (n & outs & st & S1 & S2 & S3 & S4 & S5); [|exact C0|exact Cs|exact Hsv|].
  { rewrite Forall_forall in *. intros p Hp. apply Pr. apply Ps. exact Hp. }
  exists n, outs, st. split; [exact S1|]. split; [exact S2|]. split; [exact S3|]. split; [exact S4|]. intros i out m Hout Hbig Hm.
  assert (Hheld : held R_ops R_math ge0 mu0 newton_linear_solve linear_solve geev tol finite (RandomGen.fabs R_funs) pk cfg na q p0 m).
  { destruct Hm as (sq' & ss' & seed' & rank' & e' & start' & clock' & Ei' & E' & Hm). assert (sq' = sq /\ ss' = ss) as (-> & ->) by (split; congruence).
    destruct (program_is _ _ _ _ _ _ _ _ _ _ Ei E') as (_ & g & _ & Er). exists (load sq (constructed R_ops e')), g, start', clock'.
    split; [exact (objects_same tq ts sq ss e e' Ei A)|]. split; [exact Er|exact Hm]. }
  destruct (held_ready R_ops R_math ge0 newton_tol mu0 newton_linear_solve linear_solve geev tol finite (RandomGen.fabs R_funs) pk cfg na fof solvers Sz q p0 m Hok Hheld) as (_ & _ & Fm).
  destruct (S5 i out m Hout Hbig Hheld) as (logs & f & L1 & L2 & L3 & L4 & LC & L5 & L6 & _). exists logs, f.
  set (w := store_merged out (with_q (scan_object ss s0) m)) in *.
  assert (E2 : Scan.at_least_order_r2 cfg = second) by reflexivity.
  assert (Act : second = true -> NetCDFOut.active R w [("q.at_least_order_r2", true)] = true).
  { intros T. cbn [NetCDFOut.active forallb fst snd]. change (m_flag R w "q.at_least_order_r2") with (m_flag R m "at_least_order_r2"). rewrite Fm, E2, T. reflexivity. }
  split; [exact L1|]. split; [exact L2|]. split; [exact L3|]. split; [exact L4|]. split; [|split; [exact L5|]].
  - split; [|split].
    + intros x Hx. apply in_app_or in Hx. destruct Hx as [Hx|Hx].
      * assert (Ev : m_float R w x = v_float R_ops ss x) by (repeat (destruct Hx as [<-|Hx]; [apply (SF _); apply in_or_app; right; apply in_or_app; left; cbn; tauto|]); destruct Hx).
        rewrite <- Ev. apply (read_float R_math (scan_object ss s0) m out f LC [] x x); [|reflexivity].
        repeat (destruct Hx as [<-|Hx]; [apply in_puts; vm_compute; reflexivity|]); destruct Hx.
      * destruct second eqn:Es2; [|destruct Hx].
        assert (Ev : m_float R w x = v_float R_ops ss x) by (repeat (destruct Hx as [<-|Hx]; [apply (SF _); apply in_or_app; right; apply in_or_app; left; cbn; tauto|]); destruct Hx).
        rewrite <- Ev. apply (read_float R_math (scan_object ss s0) m out f LC [("q.at_least_order_r2", true)] x x); [|exact (Act eq_refl)].
        repeat (destruct Hx as [<-|Hx]; [apply in_puts; vm_compute; reflexivity|]); destruct Hx.
    + intros x k Hx Hk. rewrite (Ln x Hx) in Hk.
      assert (Ew : m_array R w x = v_vec ss x) by (repeat (destruct Hx as [<-|Hx]; [apply (SA _); cbn; tauto|]); destruct Hx).
      assert (Hp : In (Put [] x (SVector "axis_nmax_plus_1_dim" x)) scan_puts) by (repeat (destruct Hx as [<-|Hx]; [apply in_puts; vm_compute; reflexivity|]); destruct Hx).
      apply (contains_vector (m_of_Z R_math) _ w _ _ f x "axis_nmax_plus_1_dim" x na k _ LC (in_statements R w scan_puts _ _ _ Hp eq_refl)); [|exact Hk|].
      * change (Some (length (m_array R (scan_object ss s0) "R0c_max")) = Some na). rewrite SA by (cbn; tauto). reflexivity.
      * rewrite Ew. apply nth_error_nth'. rewrite (Ln x Hx). exact Hk.
    + intros x Hx.
      assert (Tt : forall when, In (Put when x (SText x)) scan_puts -> NetCDFOut.active R w when = true -> text_at f x (m_text R w x)).
      { intros when Hp Ha. destruct (contains_var R (m_of_Z R_math) _ _ _ _ _ _ LC (in_statements R w scan_puts _ _ _ Hp Ha)) as (v & c & K1 & K2 & K3 & K4 & K5).
        cbn [fst snd NetCDFSpec.denotes] in K3, K4. exists v. split; [exact K1|]. split; [exact K2|]. congruence. }
      apply in_app_or in Hx. destruct Hx as [Hx|Hx].
      * assert (Ev : m_text R w x = v_str ss x) by (repeat (destruct Hx as [<-|Hx]; [apply (ST _); apply in_or_app; left; cbn; tauto|]); destruct Hx).
        rewrite <- Ev. apply (Tt []); [|reflexivity]. repeat (destruct Hx as [<-|Hx]; [apply in_puts; vm_compute; reflexivity|]); destruct Hx.
      * destruct second eqn:Es2; [|destruct Hx].
        assert (Ev : m_text R w x = v_str ss x) by (repeat (destruct Hx as [<-|Hx]; [apply (ST _); apply in_or_app; left; cbn; tauto|]); destruct Hx).
        rewrite <- Ev. apply (Tt [("q.at_least_order_r2", true)]); [|exact (Act eq_refl)]. repeat (destruct Hx as [<-|Hx]; [apply in_puts; vm_compute; reflexivity|]); destruct Hx.
  - intros j Hj. destruct (nth_error (flat_map kept logs) j) as [cj|] eqn:Hc; [|apply nth_error_None in Hc; lia].
    destruct (L6 j cj Hc) as (fc & Q1 & (O1 & O2 & O3 & O4) & Col & Hel & Q3 & Q4 & Q5 & Q6 & Q7).
    destruct (kept_of_logs _ _ _ L1 (nth_error_In _ _ Hc)) as (p & Hp & Hl). assert (Pp : scan_process tq ts p) by (destruct Hp as [<-|Hp]; [exact P0|rewrite Forall_forall in Ps; exact (Ps p Hp)]).
    pose proof Pp as (seed' & rank' & e' & start' & clock' & E'). destruct (program_is _ _ _ _ _ _ _ _ _ _ Ei E') as (Ew & _).
    destruct (object_ok tq ts sq ss e' Ei A) as (Hok' & Hi' & _ & Fl' & Tx').
    destruct (kept_drawn ge0 newton_tol mu0 newton_linear_solve linear_solve geev tol finite uniform cfg solvers uniform01 _ _ _ _ _ _ p true cj Hok' Hi' Ew Hl) as (D1 & D2). rewrite Tx' in D1, D2.
    exists (c_members (q_rest cj)), fc. split; [exact Q1|]. split; [|split; [exact (ranges_in_limits ss second _ _ Ln D1)|split; [|split; [exact Q3|split; [exact Q4|split; [exact Q5|split; [exact Q6|split]]]]]]].
    + split; [rewrite O1, I by (cbn; tauto); reflexivity|]. split; [intros x Hx; rewrite (O2 x Hx); apply I; repeat (destruct Hx as [<-|Hx]; [cbn; tauto|]); destruct Hx|].
      split; [intros x Hx; rewrite (O3 x Hx); apply Fl; repeat (destruct Hx as [<-|Hx]; [cbn; tauto|]); destruct Hx|]. rewrite O4. exact Tx.
    + intros Es x Hx. rewrite (D2 Es x Hx). apply Fl'. repeat (destruct Hx as [<-|Hx]; [cbn; tauto|]); destruct Hx.
    + intros Es. apply Q7. rewrite Tx. intros K. unfold second in Es. rewrite K in Es. discriminate.
    + intros Ka. pose proof (program_justified tq ts sq ss p cj Ei A Pp Hl) as J. fold cfg in J.
      assert (Kc : keep_all cfg = false) by exact Ka.
      assert (Lo : forall a b, flt R_ops a b <> true -> (b <= a)%R) by (intros a b Hab; cbn in Hab; unfold Rltb in Hab; destruct (Rlt_dec a b); [contradiction|lra]).
      assert (C1 : forall x k, In (x, k) scan_columns -> In (Put [] x (SVector "n_scan_dim" x)) scan_puts -> element R f x [j] (nth k (params_of cj) 0%R))
        by (intros x k Hx Hpt; exact (Col x k [] Hx Hpt eq_refl)).
      assert (C2 : second = true -> forall x k, In (x, k) scan_columns -> In (Put [("q.at_least_order_r2", true)] x (SVector "n_scan_dim" x)) scan_puts -> element R f x [j] (nth k (params_of cj) 0%R))
        by (intros Es x k Hx Hpt; exact (Col x k _ Hx Hpt (Act Es))).
      split; [|split; [|split]].
      * intros x y Hx. apply in_app_or in Hx. destruct Hx as [[Hx|[Hx|[]]]|Hx]; try (injection Hx as <- <-).
        { exists (q_grid_min_R0 cj). split; [apply (C1 _ 6); [column|apply in_puts; vm_compute; reflexivity]|]. apply Lo. intros K. apply (J 3). split; [exact Kc|exact K]. }
        { exists (q_grid_min_L_grad_B cj). split; [apply (C1 _ 10); [column|apply in_puts; vm_compute; reflexivity]|]. apply Lo. intros K. apply (J 8). split; [exact Kc|exact K]. }
        destruct second eqn:Es2; [|destruct Hx]. destruct Hx as [Hx|[Hx|[Hx|[Hx|[]]]]]; injection Hx as <- <-.
        { exists (q_grid_min_L_grad_grad_B cj). split; [apply (C2 eq_refl _ 11); [column|apply in_puts; vm_compute; reflexivity]|]. apply Lo. intros K. apply (J 10). split; [exact Kc|split; [exact E2|exact K]]. }
        { exists (q_r_singularity_robust cj). split; [apply (C2 eq_refl _ 12); [column|apply in_puts; vm_compute; reflexivity]|]. apply Lo. intros K. apply (J 13). split; [exact Kc|split; [exact E2|exact K]]. }
        { exists (q_DMerc_times_r2 cj). split; [apply (C2 eq_refl _ 14); [column|apply in_puts; vm_compute; reflexivity]|]. apply Lo. intros K. apply (J 12). split; [exact Kc|split; [exact E2|exact K]]. }
        { exists (q_beta cj). split; [apply (C2 eq_refl _ 19); [column|apply in_puts; vm_compute; reflexivity]|]. apply Lo. intros K. apply (J 14). split; [exact Kc|split; [exact E2|exact K]]. }
      * intros x y Hx. apply in_app_or in Hx. destruct Hx as [[Hx|[]]|Hx]; try (injection Hx as <- <-).
        { exists (q_grid_max_elongation cj). split; [apply (C1 _ 9); [column|apply in_puts; vm_compute; reflexivity]|]. apply Lo. intros K. apply (J 7). split; [exact Kc|exact K]. }
        destruct second eqn:Es2; [|destruct Hx]. destruct Hx as [Hx|[Hx|[]]]; injection Hx as <- <-.
        { exists (q_B20_grid_variation cj). split; [apply (C2 eq_refl _ 15); [column|apply in_puts; vm_compute; reflexivity]|]. apply Lo. intros K. apply (J 9). split; [exact Kc|split; [exact E2|exact K]]. }
        { exists (q_d2_volume_d_psi2 cj). split; [apply (C2 eq_refl _ 13); [column|apply in_puts; vm_compute; reflexivity]|]. apply Lo. intros K. apply (J 11). split; [exact Kc|split; [exact E2|exact K]]. }
      * exists (q_iota cj). split; [apply (C1 _ 8); [column|apply in_puts; vm_compute; reflexivity]|]. apply Lo. intros K. apply (J 6). split; [exact Kc|exact K].
      * exists (q_helicity cj). split; [exact Hel|]. split; intros Hk.
        { destruct (Z.eq_dec (q_helicity cj) 0) as [Hz|Hz]; [exact Hz|]. exfalso. apply (J 4). split; [exact Kc|]. left. split; [exact Hk|exact Hz]. }
        { destruct (Z.eq_dec (q_helicity cj) 1) as [Hz|Hz]; [left; exact Hz|]. destruct (Z.eq_dec (q_helicity cj) (-1)) as [Hy|Hy]; [right; exact Hy|]. exfalso. apply (J 4). split; [exact Kc|].
          right. split; [exact Hk|]. split; assumption. }
Qed.
End Scans.
Print Assumptions scan_table_read.
Print Assumptions scan_program_defined.
Print Assumptions scan_stops_as_told.
Print Assumptions scan_from_input_to_output.

(** ** An example *)
(** The scan of Properties_ScanDraw.v as an input file, in two processes: each keeps one configuration. *)
Section Example.
Definition example_qsc : Toml.table R := [("nfp", Toml.TInt 3); ("order_r_option", TStr "r2.1"); ("B0", Toml.TFloat 1%R)].
Definition example_scan : Toml.table R :=
  ([("eta_bar_scan_option", TStr "log"); ("eta_bar_min", Toml.TFloat (1 / 2)%R); ("eta_bar_max", Toml.TFloat 2%R); ("B2c_min", Toml.TFloat (-1)%R); ("B2c_max", Toml.TFloat 1%R);
   ("fourier_scan_option", TStr "2 sided log"); ("R0c_min", TArr [Toml.TFloat 1%R; Toml.TFloat (1 / 100)%R]); ("R0c_max", TArr [Toml.TFloat 1%R; Toml.TFloat (1 / 20)%R]);
   ("Z0s_min", TArr [Toml.TFloat 0%R; Toml.TFloat (1 / 100)%R]); ("Z0s_max", TArr [Toml.TFloat 0%R; Toml.TFloat (1 / 20)%R]);
   ("max_keep_per_proc", Toml.TInt 1); ("max_attempts_per_proc", Toml.TInt 1); ("max_seconds", Toml.TFloat 10%R); ("save_period", Toml.TFloat 10%R); ("helicity_to_keep", Toml.TInt 0)] ++
  map (fun x => (x, Toml.TFloat 0%R)) ["min_R0_to_keep"; "min_iota_to_keep"; "max_elongation_to_keep"; "min_L_grad_B_to_keep"; "min_L_grad_grad_B_to_keep"; "max_B20_variation_to_keep";
    "min_r_singularity_to_keep"; "min_DMerc_times_r2_to_keep"; "max_d2_volume_d_psi2_to_keep"; "min_beta_to_keep"])%list.
Definition two_processes : members R := mkMembers R (fun _ => 0%Z) (fun _ => true) (fun _ => 0%R) (fun _ => 0%Z) (fun _ => "r1") (fun _ => []) (fun _ => []).
Notation inputs := (scan_inputs R_ops R_math 0%R 0%R example_qsc example_scan).
Notation process := (scan_process 0%R Rge0 0%R 0%R easy_solver easy_solver2 easy_geev (tolerances_of R_ops R_math false) (fun _ => true) half_uniform example_qsc example_scan).
Notation q_object := (q_object 0%R Rge0 0%R 0%R easy_solver easy_solver2 easy_geev (tolerances_of R_ops R_math false) (fun _ => true) half_uniform example_qsc example_scan).
Lemma example_inputs : exists sq ss, inputs = Ok (sq, ss) /\ settings_of R_ops sq ss = one_cfg /\ ranges_of R_ops ss = draw_ranges /\ v_int sq "nfp" = 3%Z /\ v_int sq "nphi" = 15%Z /\
  v_int ss "max_keep_per_proc" = 1%Z /\ v_str sq "order_r_option" = "r2.1".
Proof.
  assert (H : match inputs with Ok (sq, ss) => settings_of R_ops sq ss = one_cfg /\ ranges_of R_ops ss = draw_ranges /\ v_int sq "nfp" = 3%Z /\ v_int sq "nphi" = 15%Z /\
    v_int ss "max_keep_per_proc" = 1%Z /\ v_str sq "order_r_option" = "r2.1" | _ => False end).
  { lazy -[Rdiv IZR Ropp Rplus Rmult Rminus]. repeat split. }
  destruct inputs as [[sq ss]| |]; [|contradiction|contradiction]. exists sq, ss. split; [reflexivity|exact H].
Qed.
Example scan_input_example : exists sq ss p root leaves, inputs = Ok (sq, ss) /\ acceptable_scan sq ss /\ process p /\ Forall process [p] /\ contributes p root /\
  Forall2 (fun p (l : list (@sending R)) => contributes p (map snd l)) [p] leaves /\ (forall p', In p' [p] -> length (p_saves p') = length (p_saves p)) /\
  (exists m, q_object p m) /\ kept (p_log p) <> [] /\ p_saves p <> [] /\ solvers_ok easy_solver easy_solver2 /\ (forall g, (0 <= fst (half_uniform g) <= 1)%R).
Proof.
  assert (HS : solvers_ok easy_solver easy_solver2) by (split; [|split]; try discriminate; intros m v x Ev; injection Ev as <-; reflexivity).
  destruct example_inputs as (sq & ss & Ei & Ec & Er & E1 & E2 & E3 & E4).
  assert (Hna : length (v_vec ss "R0c_max") = 2) by (change (length (R0c_max (ranges_of R_ops ss)) = 2); rewrite Er; reflexivity).
  assert (A : acceptable_scan sq ss) by (unfold acceptable_scan, OptSpec.limits, nphi_limits; rewrite Hna, E1, E2, E3; cbn; lia).
  destruct (object_ok 0%R Rge0 0%R (fun _ => true) example_qsc example_scan sq ss two_processes Ei A) as (Hok & Hi & _ & _ & Tx). rewrite Ec, Er in Hok. change (length (R0c_max draw_ranges)) with 2 in Hok.
  destruct (draw_scan _ Hok) as (p & sn & E & Hsn & Hj & Hk); [rewrite Tx, E4; cbn; tauto|].
  assert (Ep : scan_program R_ops R_math 0%R 0%R R_funs half_uniform Rge0 0%R easy_solver easy_solver2 easy_geev (tolerances_of R_ops R_math false) (fun _ => true) example_qsc example_scan
    (fun _ => tt) 0 two_processes 0%R [(0, 0)%R; (0, 0)%R] = Ok (p, true)).
  { unfold scan_program. rewrite Ei. cbn [bind fst snd]. rewrite Ec, Er. exact E. }
  assert (P : process p) by (exists (fun _ => tt), 0%Z, two_processes, 0%R, [(0, 0)%R; (0, 0)%R]; exact Ep).
  exists sq, ss, p, (map contribution_of (rev (p_saves p))), [map (fun sn => (fun _ => true, contribution_of sn)) (rev (p_saves p))].
  assert (C : contributes p (map contribution_of (rev (p_saves p)))).
  { split; [rewrite map_map; apply map_id|]. apply Forall_forall. intros c Hc. apply in_map_iff in Hc as [s [<- _]]. reflexivity. }
  split; [exact Ei|]. split; [exact A|]. split; [exact P|]. split; [constructor; [exact P|constructor]|]. split; [exact C|].
  split; [constructor; [rewrite map_map; exact C|constructor]|]. split; [intros p' [<-|[]]; reflexivity|].
  split; [|split; [exact Hk|split; [intros K; rewrite K in Hsn; destruct Hsn|split]]].
  - destruct (p_log p) as [|[c v] l] eqn:El; [contradiction Hk; reflexivity|]. exists (c_members (q_rest c)).
    exists sq, ss, (fun _ => tt), 0%Z, two_processes, 0%R, [(0, 0)%R; (0, 0)%R]. split; [exact Ei|]. split; [exact Ep|]. right. exists c, v. rewrite El. split; [left; reflexivity|reflexivity].
  - exact HS.
  - intros g. cbn. lra.
Qed.
End Example.
