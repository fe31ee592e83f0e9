(** C104: the output file of a parameter scan. *)
From Coq Require Import String ZArith List Arith Bool Lia Reals.
From Verif Require Import Base BaseFacts FloatOps MathOps Tensor Newton RSing Axis AxisSpec Alloc AllocSpec AllocFacts Toml TomlSpec TomlFacts Options OptionsSpec
  NetCDF NetCDFOut NetCDFSpec NetCDFFacts NetCDFRead Grid GridSpec Farm FarmFacts MScan MScanSpec MScanFacts MScanDims MScanRun.
From Verif Require Import Run RunSpec RunFacts RunSafe RunFile Opt OptSpec OptState OptResid OptRun OptEnd OptMulti OptFixed RunInput OptQsc ScanFile MScanFile Properties_Opt Properties_MultiOpt
  Properties_NetCDF Properties_RSing HelicityFacts Properties_RunSafe Properties_OptQsc Properties_MultiQsc Properties_MScan Properties_ScanQsc Properties_ScanFile Properties_MScanQsc.
Import ListNotations.
Local Open Scope string_scope.
Local Open Scope nat_scope.

(** ** Specification *)
Section Spec.
Context {F : Type} (o : fops F) (fabs : F -> F) (of_Z : Z -> F) {X : Type}.
Notation multiopt := (@MScan.multiopt F X).
Variable keep_all : bool.
Variable limits : string -> F.
Notation acceptable := (MScanSpec.acceptable o fabs keep_all limits).
Notation requirements := (requirements o fabs limits).
(** [file_describes na mos f]: the file [f] describes the results [mos], in this order: as [describes] of MScanSpec.v, for the variables of the file. *)
Record file_describes (na : nat) (mos : list multiopt) (f : file F) : Prop := mkFileDescribes {
  fd_n_scan : integer_at f "n_scan" 0 (count acceptable mos);
  fd_n_evals : element F f "n_evals" [] (of_Z (fold_right Z.add 0%Z (map mo_n_evals mos)));
  fd_attempts : integer_at f "attempts" 0 (Z.of_nat (length mos));
  fd_rejected : forall name g, In (name, g) requirements -> integer_at f name 0 (count (falls_short keep_all g) mos);
  fd_fraction_kept : element F f "fraction_kept" [] (fdiv o (of_Z (count acceptable mos)) (of_Z (Z.of_nat (length mos))));
  fd_fractions : forall name g, In (name, g) requirements ->
    element F f (String.append "fraction_" name) [] (fdiv o (of_Z (count (falls_short keep_all g) mos)) (of_Z (Z.of_nat (length mos))));
  fd_ints : forall p mo, nth_error (filter acceptable mos) p = Some mo -> integer_at f "scan_n_evals" p (mo_n_evals mo) /\
    forall s, last_stage mo = Some s -> integer_at f "scan_helicity" p (qo_helicity (st_q s));
  fd_columns : forall name g p mo, In (name, g) columns -> nth_error (filter acceptable mos) p = Some mo -> exists v, g mo = Some v /\ element F f name [p] v;
  fd_axis : forall name g p k mo, In (name, g) axis_columns -> nth_error (filter acceptable mos) p = Some mo -> k < na ->
    element F f name [p; k] (match g mo k with Some v => v | None => fzero o end) }.
End Spec.
(** The inputs that do not vary, which the file repeats. *)
Definition settings_ints : list string := ["nfp"; "sG"; "spsi"; "max_newton_iterations"; "max_linesearch_iterations"].
Definition settings_floats : list string := ["B0"; "I2"; "newton_tolerance"].
Definition limit_names : list string :=
  ["min_R0_to_keep"; "min_iota_to_keep"; "max_elongation_to_keep"; "min_L_grad_B_to_keep"; "min_L_grad_grad_B_to_keep"; "max_B20_variation_to_keep";
   "min_r_singularity_to_keep"; "max_d2_volume_d_psi2_to_keep"; "min_DMerc_times_r2_to_keep"; "max_XY2_to_keep"; "max_Z2_to_keep"; "max_XY3_to_keep";
   "max_d_XY2_d_varphi_to_keep"; "max_d_Z2_d_varphi_to_keep"; "max_d_XY3_d_varphi_to_keep"].

Lemma lookup_In {A} (l : list (string * A)) x v : MScan.lookup l x = Some v -> In (x, v) l.
Proof.
  induction l as [|[y w] l IH]; cbn [MScan.lookup]; [discriminate|]. destruct (String.eqb_spec x y) as [->|]; [|right; auto]. intros E. injection E as ->. left. reflexivity.
Qed.
Lemma read_counters_values t f l : read_counters t f = Ok l -> forall x k, MScan.lookup t x = Some k -> k < length f /\ MScan.lookup l x = Some (nth k f 0%Z).
Proof.
  revert l. induction t as [|[y j] t IH]; intros l E x k; cbn [read_counters MScan.lookup] in *; [discriminate|].
  destruct (aget f j) as [v| |] eqn:Ev; cbn [bind] in E; try discriminate. destruct (read_counters t f) as [r| |]; cbn [bind] in E; try discriminate. injection E as <-.
  cbn [MScan.lookup]. destruct (String.eqb x y); [|apply IH; reflexivity]. intros E. injection E as ->. apply aget_inv in Ev.
  split; [apply nth_error_Some; congruence|]. f_equal. symmetry. apply nth_error_nth. exact Ev.
Qed.
Lemma read_fractions_values {F} (o : fops F) (of_Z : Z -> F) t f total l : read_fractions o of_Z t f total = Ok l -> forall x k, MScan.lookup t x = Some k ->
  MScan.lookup l x = Some (fdiv o (of_Z (nth k f 0%Z)) (of_Z total)).
Proof.
  revert l. induction t as [|[y j] t IH]; intros l E x k; cbn [read_fractions MScan.lookup] in *; [discriminate|].
  destruct (aget f j) as [v| |] eqn:Ev; cbn [bind] in E; try discriminate. destruct (read_fractions o of_Z t f total) as [r| |]; cbn [bind] in E; try discriminate. injection E as <-.
  cbn [MScan.lookup]. destruct (String.eqb x y); [|apply IH; reflexivity]. intros E. injection E as ->. apply aget_inv in Ev.
  do 3 f_equal. symmetry. apply nth_error_nth. exact Ev.
Qed.

Lemma lookup_combine_none {A} (ns : list string) : forall (l : list A) x, ~ In x ns -> MScan.lookup (combine ns l) x = None.
Proof.
  induction ns as [|y ns IH]; intros l x H; [reflexivity|]. destruct l as [|a l]; [reflexivity|]. cbn [combine MScan.lookup].
  destruct (String.eqb_spec x y) as [->|]; [exfalso; apply H; left; reflexivity|]. apply IH. intros Hx. apply H. right. exact Hx.
Qed.

Section Stored.
Context {F : Type} (o : fops F) (fabs : F -> F) (of_Z : Z -> F) {X : Type}.
Notation members := (members F).
Notation multiopt := (@MScan.multiopt F X).
Variable keep_all : bool.
Variable limits : string -> F.
Notation acceptable := (MScanSpec.acceptable o fabs keep_all limits).
Notation describes := (MScanSpec.describes o fabs of_Z keep_all limits).
Variables (na n_all : nat) (first s : members) (d : @data F) (out : @MScan.output F) (mos : list multiopt).
Hypothesis saved : save_results o of_Z na n_all d = Ok out.
Hypothesis D : describes na mos out.
Hypothesis positive : 0 < na.
Notation w := (store_scan o of_Z na first d out s).
Notation kept := (filter acceptable mos).

Lemma saved_values : out_n_scan out = nth P_KEPT (da_filters d) 0%Z /\ P_KEPT < length (da_filters d) /\ out_n_evals out = da_n_evals d /\
  (forall x k, MScan.lookup counter_table x = Some k -> k < length (da_filters d) /\ MScan.lookup (out_counters out) x = Some (nth k (da_filters d) 0%Z)) /\
  (forall x k, MScan.lookup fraction_table x = Some k -> MScan.lookup (out_fractions out) x = Some (fdiv o (of_Z (nth k (da_filters d) 0%Z)) (of_Z (nth P_ATTEMPTS (da_filters d) 0%Z)))) /\
  forall x, ~ In x (map fst unpack_table) -> MScan.lookup (out_floats out) x = None.
Proof.
  pose proof saved as H. unfold save_results in H. destruct (filter_global_arrays o na n_all d) as [a| |]; cbn [bind] in H; try discriminate.
  destruct (aget (da_filters d) P_KEPT) as [n| |] eqn:E1; cbn [bind] in H; try discriminate. destruct (aget (da_filters d) P_ATTEMPTS) as [t| |] eqn:E2; cbn [bind] in H; try discriminate.
  destruct (read_counters counter_table (da_filters d)) as [cs| |] eqn:E3; cbn [bind] in H; try discriminate.
  destruct (read_fractions o of_Z fraction_table (da_filters d) t) as [fs| |] eqn:E4; cbn [bind] in H; try discriminate.
  match type of H with Ok ?v = Ok _ => assert (E : out = v) by congruence end. rewrite E. cbn [out_n_scan out_n_evals out_counters out_fractions out_ints].
  apply aget_inv in E1, E2. split; [symmetry; apply nth_error_nth; exact E1|]. split; [apply nth_error_Some; congruence|]. split; [reflexivity|].
  split; [exact (read_counters_values _ _ _ E3)|]. split; [|intros x Hx; cbn [out_floats]; apply lookup_combine_none; exact Hx].
  intros x k Hk. rewrite (read_fractions_values o of_Z _ _ _ _ E4 x k Hk). do 3 f_equal. symmetry. apply nth_error_nth. exact E2.
Qed.
Lemma stored_n_scan : m_int F w "n_scan" = Z.of_nat (length kept).
Proof.
  destruct saved_values as (A & B & _). change (m_int F w "n_scan") with (nth P_KEPT (da_filters d) (m_int F s "n_scan")).
  rewrite (nth_indep _ _ 0%Z B), <- A, (de_n_scan _ _ _ _ _ _ _ _ D). reflexivity.
Qed.
Lemma stored_lens : multiopt_scan_lens w = [("axis_nmax_plus_1_dim", na); ("n_scan_dim", length kept)].
Proof. unfold multiopt_scan_lens. rewrite stored_n_scan. change (m_int F w "axis_nmax_plus_1") with (Z.of_nat na). rewrite !Nat2Z.id. reflexivity. Qed.
Lemma stored_counter x y k v : MScan.lookup counter_table x = Some k -> row_of y (at_name "filters" mscan_filter_names) = Some k ->
  MScan.lookup (out_counters out) x = Some v -> m_int F w y = v.
Proof.
  intros Hk Hy Hv. destruct saved_values as (_ & _ & _ & C & _). destruct (C x k Hk) as (L & E). cbn [store_scan m_int]. rewrite Hy. rewrite (nth_indep _ _ 0%Z L). congruence.
Qed.
Lemma stored_fraction x y k v : MScan.lookup fraction_table x = Some k -> row_of y (at_name "filter_fractions" mscan_filter_names) = Some k ->
  MScan.lookup (out_fractions out) x = Some v -> m_float F w y = v.
Proof. intros Hk Hy Hv. destruct saved_values as (_ & _ & _ & _ & C & _). cbn [store_scan m_float]. rewrite Hy. rewrite (C x k Hk) in Hv. congruence. Qed.
Lemma column_values name g : In (name, g) columns -> exists l, m_array F w name = l /\ length l = length kept /\ forall p mo, nth_error kept p = Some mo -> exists v, g mo = Some v /\ nth_error l p = Some v.
Proof.
  intros H. destruct (de_columns _ _ _ _ _ _ _ _ D name g H) as (l & Hl & Hv). exists l. split; [cbn [store_scan m_array]; rewrite Hl; reflexivity|].
  split; [rewrite <- (map_length g kept), <- Hv, map_length; reflexivity|].
  intros p mo Hp. pose proof (f_equal (fun z => nth_error z p) Hv) as Hv'. cbv beta in Hv'. rewrite !nth_error_map, Hp in Hv'. cbn [option_map] in Hv'.
  destruct (nth_error l p) as [v|]; cbn in Hv'; [|discriminate]. exists v. split; [congruence|reflexivity].
Qed.
Lemma axis_values name g : In (name, g) axis_columns -> na * length kept <= length (m_array F w name) /\ forall p k mo, nth_error kept p = Some mo -> k < na ->
  nth_error (m_array F w name) (k + na * p) = Some (match g mo k with Some v => v | None => fzero o end).
Proof.
  intros H. destruct (de_axis _ _ _ _ _ _ _ _ D name g H) as (m & Hl & Hr & Hc & Hg).
  assert (Em : m_array F w name = m_data m).
  { destruct saved_values as (_ & _ & _ & _ & _ & C). cbn [store_scan m_array]. rewrite C, Hl; [reflexivity|].
    assert (Hn : In name (map fst (@axis_columns F X))) by (apply in_map_iff; exists (name, g); split; [reflexivity|exact H]).
    assert (Dis : forallb (fun x => negb (inb x (map fst unpack_table))) (map fst (@axis_columns F X)) = true) by (vm_compute; reflexivity).
    rewrite forallb_forall in Dis. specialize (Dis name Hn). intros Hx. apply inb_In in Hx. rewrite Hx in Dis. discriminate Dis. }
  rewrite Em. assert (Get : forall p k mo, nth_error kept p = Some mo -> k < na -> nth_error (m_data m) (k + na * p) = Some (match g mo k with Some v => v | None => fzero o end)).
  { intros p k mo Hp Hk. specialize (Hg k p mo Hk Hp). unfold matrix_get, matrix_index in Hg. rewrite Hr in Hg. apply aget_inv in Hg. exact Hg. }
  split; [|exact Get]. destruct (length kept) as [|n] eqn:En; [lia|].
  destruct (nth_error kept n) as [mo|] eqn:Ek; [|apply nth_error_None in Ek; lia].
  assert (na - 1 < na) by lia. pose proof (Get n (na - 1) mo Ek H0) as G. assert (L : na - 1 + na * n < length (m_data m)) by (apply nth_error_Some; congruence). lia.
Qed.
Lemma helicity_values : exists l, m_ints F w "scan_helicity" = l /\ length l = length kept /\ forall p mo st, nth_error kept p = Some mo -> last_stage mo = Some st -> nth_error l p = Some (qo_helicity (st_q st)).
Proof.
  destruct (de_ints _ _ _ _ _ _ _ _ D) as (_ & l & Hl & Hv). exists l. split; [cbn [store_scan m_ints]; rewrite Hl; reflexivity|].
  split; [apply (f_equal (@length _)) in Hv; rewrite !map_length in Hv; exact Hv|].
  intros p mo st Hp Hs. pose proof (f_equal (fun z => nth_error z p) Hv) as Hv'. cbv beta in Hv'. rewrite !nth_error_map, Hp in Hv'. cbn [option_map] in Hv'. rewrite Hs in Hv'. cbn [option_map] in Hv'.
  destruct (nth_error l p); cbn in Hv'; congruence.
Qed.
Lemma n_evals_values : m_ints F w "scan_n_evals" = map mo_n_evals kept.
Proof. destruct (de_ints _ _ _ _ _ _ _ _ D) as (H & _). cbn [store_scan m_ints]. rewrite H. reflexivity. Qed.

Definition mscan_source_ok (p : NetCDFOut.put) : bool :=
  let '(Put when name what) := p in
  match what with
  | SInt _ | SFlag _ | SFloat _ | SBig _ => true
  | SLit x => String.eqb x "multiopt_scan"
  | SInts d x => String.eqb d "n_scan_dim" && inb x ["scan_helicity"; "scan_n_evals"]
  | SVector d x => String.eqb d "n_scan_dim" && inb x (map fst (@columns F X))
  | SArray [d1; d2] x => String.eqb d1 "axis_nmax_plus_1_dim" && String.eqb d2 "n_scan_dim" && inb x (map fst (@axis_columns F X))
  | _ => false
  end.
Lemma mscan_sources_ok : forallb mscan_source_ok multiopt_scan_puts = true.
Proof. vm_compute. reflexivity. Qed.
Lemma in_names {A B} (l : list (A * B)) x : In x (map fst l) -> exists y, In (x, y) l.
Proof. intros H. apply in_map_iff in H as ([x' y] & <- & H). exists y. exact H. Qed.
Lemma stored_writable st : In st (statements F w multiopt_scan_puts) -> writable F (multiopt_scan_lens w) w (snd st).
Proof.
  intros Hst. rewrite stored_lens. destruct (statements_in F w multiopt_scan_puts st Hst) as [when [Hp _]].
  pose proof (proj1 (forallb_forall _ _) mscan_sources_ok _ Hp) as Ok1. cbn [mscan_source_ok] in Ok1.
  destruct (snd st) as [x|x|x|x|x|x|x|y x|y x|ds x]; try discriminate Ok1; cbn [writable]; try exact Logic.I.
  - apply String.eqb_eq in Ok1. subst x. discriminate.
  - apply andb_prop in Ok1 as [O1 O2]. apply String.eqb_eq in O1. subst y. eexists. split; [reflexivity|]. apply inb_In in O2. destruct O2 as [<-|[<-|[]]].
    + destruct helicity_values as (l & -> & -> & _). lia.
    + rewrite n_evals_values, map_length. lia.
  - apply andb_prop in Ok1 as [O1 O2]. apply String.eqb_eq in O1. subst y. eexists. split; [reflexivity|]. apply inb_In in O2. destruct (in_names _ _ O2) as (g & Hg).
    destruct (column_values x g Hg) as (l & -> & -> & _). lia.
  - destruct ds as [|d1 [|d2 [|]]]; try discriminate Ok1. apply andb_prop in Ok1 as [Ok1 O3]. apply andb_prop in Ok1 as [O1 O2]. apply String.eqb_eq in O1, O2. subst d1 d2.
    eexists. split; [reflexivity|]. apply inb_In in O3. destruct (in_names _ _ O3) as (g & Hg). destruct (axis_values x g Hg) as (L & _). cbn [fold_right removelast].
    split; [lia|constructor; [lia|constructor]].
Qed.

(** Reading the file. *)
Variable f : file F.
Hypothesis Hf : contains_exactly F of_Z (multiopt_scan_lens w) w [] (statements F w multiopt_scan_puts) f.
Lemma read_int when x y : In (Put when x (SInt y)) multiopt_scan_puts -> NetCDFOut.active F w when = true -> integer_at f x 0 (m_int F w y).
Proof.
  intros Hp Ha. destruct (contains_var F of_Z _ _ _ _ _ _ Hf (in_statements F w multiopt_scan_puts _ _ _ Hp Ha)) as (v & c & K1 & K2 & K3 & K4 & _). cbn [fst snd NetCDFSpec.denotes] in *.
  exists v, [m_int F w y]. split; [exact K1|]. split; [exact K2|]. split; [congruence|]. reflexivity.
Qed.
Lemma read_number when x b : In (Put when x (SFloat b)) multiopt_scan_puts -> NetCDFOut.active F w when = true -> element F f x [] (m_float F w b).
Proof.
  intros Hp Ha. destruct (contains_var F of_Z _ _ _ _ _ _ Hf (in_statements F w multiopt_scan_puts _ _ _ Hp Ha)) as (v & c & K1 & K2 & K3 & K4 & K5). cbn [fst snd NetCDFSpec.denotes NetCDFSpec.shape] in *.
  exists v, [m_float F w b], []. split; [exact K1|]. split; [exact K2|]. split; [congruence|]. split; [exact K5|]. split; [constructor|reflexivity].
Qed.
Lemma read_integers x p z : In (Put [] x (SInts "n_scan_dim" x)) multiopt_scan_puts -> p < length kept -> nth_error (m_ints F w x) p = Some z -> integer_at f x p z.
Proof.
  intros Hp Hj Hz. destruct (contains_var F of_Z _ _ _ _ _ _ Hf (in_statements F w multiopt_scan_puts _ _ _ Hp eq_refl)) as (v & c & K1 & K2 & K3 & K4 & _). cbn [fst snd NetCDFSpec.denotes] in *.
  rewrite stored_lens in K3. cbn [len_of String.eqb Ascii.eqb Bool.eqb option_map] in K3.
  exists v, (firstn (length kept) (m_ints F w x)). split; [exact K1|]. split; [exact K2|]. split; [congruence|]. rewrite nth_error_firstn by exact Hj. exact Hz.
Qed.
Lemma read_column_at name g p mo : In (name, g) columns -> nth_error kept p = Some mo -> exists v, g mo = Some v /\ element F f name [p] v.
Proof.
  intros Hc Hp. destruct (column_values name g Hc) as (l & El & Ll & Hv). destruct (Hv p mo Hp) as (v & Hg & Hl). exists v. split; [exact Hg|].
  assert (Hj : p < length kept) by (apply nth_error_Some; congruence).
  assert (Hw : inb name (map fst (@columns F X)) = true) by (apply inb_In; apply in_map_iff; exists (name, g); split; [reflexivity|exact Hc]).
  assert (All : forallb (fun x => existsb (fun q => match q with Put [] y (SVector "n_scan_dim" z) => String.eqb x y && String.eqb x z | _ => false end) multiopt_scan_puts) (map fst (@columns F X)) = true)
    by (vm_compute; reflexivity).
  rewrite forallb_forall in All. apply inb_In in Hw. specialize (All name Hw). apply existsb_exists in All as (q & Hq & Mq).
  assert (Eq : q = Put [] name (SVector "n_scan_dim" name)).
  { clear - Mq. destruct q as [when y what]. destruct when; [|discriminate Mq]. destruct what as [x|x|x|x|x|x|x|dd x|dd x|ds x]; try discriminate Mq.
    assert (Ed : dd = "n_scan_dim") by (repeat (match type of Mq with context [match ?z with _ => _ end] => destruct z; try discriminate Mq end); reflexivity). subst dd.
    apply andb_prop in Mq as (M1 & M2). apply String.eqb_eq in M1, M2. congruence. }
  subst q. apply (contains_vector of_Z _ w _ _ f name "n_scan_dim" name (length kept) p _ Hf (in_statements F w multiopt_scan_puts _ _ _ Hq eq_refl)); [rewrite stored_lens; reflexivity|exact Hj|].
  rewrite El. exact Hl.
Qed.
Lemma read_mode_at name g p k mo : In (name, g) axis_columns -> nth_error kept p = Some mo -> k < na -> element F f name [p; k] (match g mo k with Some v => v | None => fzero o end).
Proof.
  intros Hc Hp Hk. destruct (axis_values name g Hc) as (_ & Hv). assert (Hj : p < length kept) by (apply nth_error_Some; congruence).
  assert (Hq : In (Put [] name (SArray ["axis_nmax_plus_1_dim"; "n_scan_dim"] name)) multiopt_scan_puts)
    by (clear - Hc; repeat (destruct Hc as [Hc|Hc]; [apply (f_equal fst) in Hc; cbn [fst] in Hc; subst name; apply in_puts; vm_compute; reflexivity|]); destruct Hc).
  apply (contains_element F of_Z _ w _ _ f name ["axis_nmax_plus_1_dim"; "n_scan_dim"] name [na; length kept] [k; p] _ Hf (in_statements F w multiopt_scan_puts _ _ _ Hq eq_refl)).
  - rewrite stored_lens. reflexivity.
  - constructor; [exact Hk|constructor; [exact Hj|constructor]].
  - cbn [column_major]. replace (k + na * (p + length kept * 0)) with (k + na * p) by lia. apply Hv; assumption.
Qed.
End Stored.

(** ** Any optimization *)
(** A scan that ends writes a file that describes the results at all points of the grid, in the order of the grid; it repeats the inputs that are not scanned and the limits. *)
Section Any.
Context {F : Type} (o : fops F) (fabs : F -> F) (of_Z : Z -> F) {X : Type}.
Notation members := (members F).
Variables (first settings : members) (na n_all : nat).

Definition repeats_settings (f : file F) : Prop :=
  (forall x, In x settings_ints -> integer_at f x 0 (m_int F first x)) /\ (forall x, In x settings_floats -> element F f x [] (m_float F first x)) /\
  integer_at f "keep_all" 0 (if m_flag F settings "keep_all" then 1 else 0)%Z /\
  (m_flag F settings "keep_all" = false -> forall x, In x limit_names -> element F f x [] (m_float F settings x)).
Lemma stored_file keep_all limits (mos : list (@MScan.multiopt F X)) d out : save_results o of_Z na n_all d = Ok out ->
  MScanSpec.describes o fabs of_Z keep_all limits na mos out -> 0 < na ->
  exists f, mscan_file o of_Z na n_all first settings d = Ok f /\ file_describes o fabs of_Z keep_all limits na mos f /\ repeats_settings f.
Proof.
  intros S D P. pose proof (stored_writable o fabs of_Z keep_all limits na n_all first settings d out mos S D P) as W. set (w := store_scan o of_Z na first d out settings) in *.
  destruct (multiopt_scan_file of_Z w) as (f & E & C & _).
  - change (m_int F w "axis_nmax_plus_1") with (Z.of_nat na). lia.
  - unfold w. rewrite (stored_n_scan o fabs of_Z keep_all limits na n_all first settings d out mos S D). lia.
  - exact W.
  - exists f. split; [unfold mscan_file; rewrite S; cbn [bind]; exact E|].
    pose proof (saved_values o of_Z na n_all d out S) as (V1 & V2 & V3 & V4 & V5 & _).
    assert (Cnt : forall x y k v, MScan.lookup counter_table x = Some k -> row_of y (at_name "filters" mscan_filter_names) = Some k -> In (Put [] x (SInt y)) multiopt_scan_puts ->
      MScan.lookup (out_counters out) x = Some v -> integer_at f x 0 v).
    { intros x y k v H1 H2 H3 H4. rewrite <- (stored_counter o of_Z na n_all first settings d out S x y k v H1 H2 H4).
      apply (read_int o of_Z na first settings d out f C [] x y H3 eq_refl). }
    assert (Frc : forall x y k v, MScan.lookup fraction_table x = Some k -> row_of y (at_name "filter_fractions" mscan_filter_names) = Some k -> In (Put [] x (SFloat y)) multiopt_scan_puts ->
      MScan.lookup (out_fractions out) x = Some v -> element F f x [] v).
    { intros x y k v H1 H2 H3 H4. rewrite <- (stored_fraction o of_Z na n_all first settings d out S x y k v H1 H2 H4).
      apply (read_number o of_Z na first settings d out f C [] x y H3 eq_refl). }
    split; [constructor|].
    + pose proof (read_int o of_Z na first settings d out f C [] "n_scan" "n_scan" ltac:(apply in_puts; vm_compute; reflexivity) eq_refl) as H.
      rewrite (stored_n_scan o fabs of_Z keep_all limits na n_all first settings d out mos S D) in H. exact H.
    + destruct (contains_var F of_Z _ _ _ _ _ _ C (in_statements F w multiopt_scan_puts [] "n_evals" (SBig "n_evals") ltac:(apply in_puts; vm_compute; reflexivity) eq_refl)) as (v & c & K1 & K2 & K3 & K4 & K5).
      cbn [fst snd NetCDFSpec.denotes NetCDFSpec.shape] in *. rewrite <- (de_n_evals _ _ _ _ _ _ _ _ D), V3.
      exists v, [of_Z (da_n_evals d)], []. split; [exact K1|]. split; [exact K2|]. split; [rewrite K4; symmetry; exact K3|]. split; [exact K5|]. split; [constructor|reflexivity].
    + apply (Cnt "attempts" "filters[ATTEMPTS]" 0); [reflexivity|reflexivity|apply in_puts; vm_compute; reflexivity|exact (de_attempts _ _ _ _ _ _ _ _ D)].
    + intros name g Hg. pose proof (de_rejected _ _ _ _ _ _ _ _ D name g Hg) as Hv. revert Hv.
      repeat (destruct Hg as [Hg|Hg]; [injection Hg as <- <-; match goal with |- MScan.lookup _ ?x = _ -> _ =>
        match eval vm_compute in (find (fun q => match q with Put _ y (SInt _) => String.eqb x y | _ => false end) multiopt_scan_puts) with Some (Put _ _ (SInt ?b)) =>
          eapply (Cnt x b); [reflexivity|reflexivity|apply in_puts; vm_compute; reflexivity] end end|]). destruct Hg.
    + apply (Frc "fraction_kept" "filter_fractions[KEPT]" 1); [reflexivity|reflexivity|apply in_puts; vm_compute; reflexivity|exact (de_fraction_kept _ _ _ _ _ _ _ _ D)].
    + intros name g Hg. pose proof (de_fractions _ _ _ _ _ _ _ _ D name g Hg) as Hv. revert Hv.
      repeat (destruct Hg as [Hg|Hg]; [injection Hg as <- <-; match goal with |- MScan.lookup _ ?x = _ -> _ =>
        let x' := eval vm_compute in x in change x with x';
        match eval vm_compute in (find (fun q => match q with Put _ y (SFloat _) => String.eqb x' y | _ => false end) multiopt_scan_puts) with Some (Put _ _ (SFloat ?b)) =>
          eapply (Frc x' b); [reflexivity|reflexivity|apply in_puts; vm_compute; reflexivity] end end|]). destruct Hg.
    + intros p mo Hp. assert (Hj : p < length (filter (MScanSpec.acceptable o fabs keep_all limits) mos)) by (apply nth_error_Some; congruence). split.
      * apply (read_integers o fabs of_Z keep_all limits na n_all first settings d out mos S D f C "scan_n_evals" p); [apply in_puts; vm_compute; reflexivity|exact Hj|].
        rewrite (n_evals_values o fabs of_Z keep_all limits na first settings d out mos D). exact (map_nth_error mo_n_evals p _ Hp).
      * intros st Hs. destruct (helicity_values o fabs of_Z keep_all limits na first settings d out mos D) as (l & El & _ & Hl).
        apply (read_integers o fabs of_Z keep_all limits na n_all first settings d out mos S D f C "scan_helicity" p); [apply in_puts; vm_compute; reflexivity|exact Hj|].
        rewrite El. apply (Hl p mo st Hp Hs).
    + intros name g p mo Hg Hp. apply (read_column_at o fabs of_Z keep_all limits na n_all first settings d out mos S D f C name g p mo Hg Hp).
    + intros name g p k mo Hg Hp Hk. apply (read_mode_at o fabs of_Z keep_all limits na n_all first settings d out mos S D P f C name g p k mo Hg Hp Hk).
    + split; [|split; [|split]].
      * intros x Hx. repeat (destruct Hx as [<-|Hx]; [match goal with |- integer_at f ?x 0 _ =>
          refine (read_int o of_Z na first settings d out f C [] x (reference_prefix ++ x) _ eq_refl); apply in_puts; vm_compute; reflexivity end|]). destruct Hx.
      * intros x Hx. repeat (destruct Hx as [<-|Hx]; [match goal with |- element F f ?x [] _ =>
          refine (read_number o of_Z na first settings d out f C [] x (reference_prefix ++ x) _ eq_refl); apply in_puts; vm_compute; reflexivity end|]). destruct Hx.
      * destruct (contains_var F of_Z _ _ _ _ _ _ C (in_statements F w multiopt_scan_puts [] "keep_all" (SFlag "keep_all") ltac:(apply in_puts; vm_compute; reflexivity) eq_refl)) as (v & c & K1 & K2 & K3 & K4 & _).
        cbn [fst snd NetCDFSpec.denotes] in *. exists v. eexists. split; [exact K1|]. split; [exact K2|]. split; [rewrite K4; symmetry; exact K3|]. reflexivity.
      * intros Hk x Hx. assert (Ha : NetCDFOut.active F w [("keep_all", false)] = true).
        { cbn [NetCDFOut.active forallb fst snd]. change (m_flag F w "keep_all") with (m_flag F settings "keep_all"). rewrite Hk. reflexivity. }
        repeat (destruct Hx as [<-|Hx]; [match goal with |- element F f ?x [] _ =>
          refine (read_number o of_Z na first settings d out f C [("keep_all", false)] x x _ Ha); apply in_puts; vm_compute; reflexivity end|]). destruct Hx.
Qed.
End Any.

Theorem scan_file_described : forall {F : Type} (o : fops F) (fabs : F -> F) (of_Z : Z -> F) {X : Type}
    (optimize : @multiopt F X -> outcome multiopt) (keep_all : bool) (limits : string -> F) (mo_ref : multiopt) (dims : list MScan.dim)
    (n0 nw : nat) (e : env) (n : nat) s (first settings : members F),
  shapes optimize mo_ref dims n0 -> 0 < scan_na mo_ref -> 1 <= nw <= n_scan_all dims ->
  scan_steps o fabs of_Z optimize keep_all limits mo_ref dims nw e n (scan_start o mo_ref dims nw) s -> ended s ->
  exists mos f, results_at optimize mo_ref dims (seq 0 (n_scan_all dims)) mos /\
    mscan_file o of_Z (scan_na mo_ref) (n_scan_all dims) first settings (s_data s) = Ok f /\
    file_describes o fabs of_Z keep_all limits (scan_na mo_ref) mos f /\ repeats_settings first settings f.
Proof.
  intros F o fabs of_Z X optimize keep_all limits mo_ref dims n0 nw e n s first settings Sh P Hnw St (En & _).
  destruct (end_output o fabs of_Z optimize keep_all limits mo_ref dims n0 Sh nw e Hnw n s St En) as (mos & A & B & E).
  destruct (stored_file o fabs of_Z first settings (scan_na mo_ref) (n_scan_all dims) keep_all limits mos (s_data s) _ E (expected_describes o fabs of_Z keep_all limits _ _ mos B) P)
    as (f & Ef & D & S).
  exists mos, f. split; [exact A|]. auto.
Qed.
Print Assumptions scan_file_described.

(** ** The optimization of Opt.v with the calculation of Run.v *)
Section Runs.
Context {F : Type} (o : fops F) (mo : mops F).
Variables (ge0 : F -> bool) (newton_tol mu0 : F) (newton_linear_solve : (nat -> nat -> F) -> list F -> outcome (list F))
  (linear_solve : matrix F -> list F -> outcome (list F)) (geev : list F -> Z * (list F * list F)) (tol : tolerances F) (finite : F -> bool).
Notation members := (members F).
Notation opt := (@stage F (@rest F members)).
Notation multiopt := (@MScan.multiopt F (@rest F members)).
Notation routines := (qsc_routines o mo ge0 mu0 newton_linear_solve linear_solve geev tol finite).
Notation run_gives := (run_gives o mo ge0 newton_tol mu0 newton_linear_solve linear_solve geev tol finite).
Variable gsl : nat -> opt -> Z -> list F -> list (@event F).
Variable junk : nat -> list F.
Notation optimize := (multiopt_optimize o (m_sqrt mo) (m_of_Z mo) routines gsl junk).
Hypothesis solvers : solvers_ok newton_linear_solve linear_solve.
Hypothesis gsl_calls : gsl_ok gsl.
Hypothesis junk_size : forall n, length (junk n) = n.
Variables (keep_all : bool) (limits : string -> F).
Notation acceptable := (MScanSpec.acceptable o (m_abs mo) keep_all limits).

(** The file that a parameter scan writes at its end.  It describes the results of the optimizations at all points of the grid.  For each configuration [p] that it
    lists, a run of the code whose input file has the inputs [c] of this configuration writes a file [fq]; the inputs of [c] that can vary are entry [p] of the variables scan_eta_bar etc., the
    others, but for nphi and the order, which is r2.1, are variables of the file of the scan; and entry [p] of the variables with results is the number that is in [fq]. *)
Theorem parameter_scan_file_holds_runs : forall (mo_ref : multiopt) dims first nw e n s settings,
  stages_ok (mo_opts mo_ref) -> nth_error (mo_opts mo_ref) 0 = Some first -> ints_fit (config first) -> qx_order_r_option (r_q (st_rest first)) = "r2.1" ->
  (forall k t, nth_error (mo_opts mo_ref) k = Some t -> (2 <= r_max_iter (st_rest t))%Z) -> 1 <= nw <= n_scan_all dims ->
  MScan.scan_steps o (m_abs mo) (m_of_Z mo) optimize keep_all limits mo_ref dims nw e n (scan_start o mo_ref dims nw) s -> ended s ->
  exists mos f, results_at optimize mo_ref dims (seq 0 (n_scan_all dims)) mos /\
    mscan_file o (m_of_Z mo) (scan_na mo_ref) (n_scan_all dims) (config first) settings (s_data s) = Ok f /\
    file_describes o (m_abs mo) (m_of_Z mo) keep_all limits (scan_na mo_ref) mos f /\ repeats_settings (config first) settings f /\
    forall p r, nth_error (filter acceptable mos) p = Some r -> exists last fq, last_stage r = Some last /\
      let c := config last in
      (forall x, In x settings_ints -> integer_at f x 0 (m_int F c x)) /\ (forall x, In x settings_floats -> element F f x [] (m_float F c x)) /\
      m_text F c "order_r_option" = "r2.1" /\
      (forall name x, In (name, x) final_inputs -> element F f name [p] (m_float F c x)) /\
      (forall name x, In (name, x) final_axis -> length (m_array F c x) = scan_na mo_ref /\ forall k v, nth_error (m_array F c x) k = Some v -> element F f name [p; k] v) /\
      run_gives c fq /\
      (forall name x, In (name, x) (final_inputs ++ final_results) -> same_number f name [p] fq x) /\
      integer_at f "scan_helicity" p (RunSpec.whole F fq "helicity").
Proof.
  intros mo_ref dims first nw e n s settings Hok Hf Hi Ho Hm Hnw St En.
  pose proof (calculation_called_ok o mo ge0 newton_tol mu0 newton_linear_solve linear_solve geev tol finite gsl junk solvers gsl_calls junk_size) as HC.
  assert (Sh : shapes optimize mo_ref dims (n_modes first + st_fourier_refine first)).
  { apply (optimization_shapes o (m_sqrt mo) (m_of_Z mo) routines gsl junk mo_ref dims first HC Hok Hf). specialize (Hm 0 first Hf). lia. }
  assert (Hna : 0 < scan_na mo_ref).
  { destruct Hok as (_ & H). destruct (H first Hf) as ((_ & _ & H1 & _) & _). unfold scan_na, axis_nmax_plus_1. destruct (mo_opts mo_ref) as [|t ts]; [discriminate|]. injection Hf as ->.
    assert (G : forall (l : list opt) m, m <= fold_left (fun n s => n + st_fourier_refine s) l m).
    { induction l as [|u us IH]; intros m; cbn [fold_left]; [lia|]. specialize (IH (m + st_fourier_refine u)). lia. }
    unfold n_modes in H1. specialize (G (first :: ts) (length (qo_R0c (st_q first)))). lia. }
  destruct (scan_file_described o (m_abs mo) (m_of_Z mo) optimize keep_all limits mo_ref dims _ nw e n s (config first) settings Sh Hna Hnw St En) as (mos & f & A & E & D & S).
  exists mos, f. split; [exact A|]. split; [exact E|]. split; [exact D|]. split; [exact S|]. intros p r Er.
  destruct (parameter_scan_lists_runs o mo ge0 newton_tol mu0 newton_linear_solve linear_solve geev tol finite gsl junk solvers gsl_calls junk_size keep_all limits mo_ref dims first nw e n s
    Hok Hf Hi Ho Hm Hnw St En) as (mos' & out & A' & E' & D' & H).
  assert (mos' = mos).
  { clear - A A'. revert mos' A'. unfold results_at in A. induction A as [|x y l l' Hxy A IH]; intros mos' A'; inversion A' as [|x' y' k k' Hxy' A'']; subst; [reflexivity|].
    f_equal; [congruence|apply IH; exact A'']. }
  subst mos'. destruct (H p) as (r' & last & fq & Er' & El & Set' & G & In1 & In2 & In3 & He).
  { rewrite (de_n_scan _ _ _ _ _ _ _ _ D'). unfold MScanSpec.count. assert (p < length (filter acceptable mos)) by (apply nth_error_Some; congruence). lia. }
  assert (r' = r) by congruence. subst r'. exists last, fq. split; [exact El|]. cbv zeta in *. destruct Set' as (T1 & T2 & T3). destruct S as (S1 & S2 & _).
  assert (Col : forall name x, In (name, x) (final_inputs ++ final_results) -> element F f name [p] (m_float F (config last) x)).
  { intros name x Hx. destruct (fd_columns _ _ _ _ _ _ _ _ D name _ p r (column_of name x Hx) Er) as (v & Hv & He'). unfold q_of_last in Hv. rewrite El in Hv. cbn [option_map] in Hv.
    injection Hv as <-. exact He'. }
  split; [intros x Hx; rewrite T1; [apply S1; exact Hx|exact Hx]|]. split; [intros x Hx; rewrite T2; [apply S2; exact Hx|exact Hx]|].
  split; [rewrite T3; exact Ho|]. split; [intros name x Hx; apply Col; apply in_or_app; left; exact Hx|]. split; [|split; [exact G|split]].
  - intros name x Hx. destruct (In2 name x Hx) as (La & _). split; [exact La|]. intros k v Hk. destruct (axis_column_of (F:=F) name x Hx) as (a & -> & Hc).
    assert (Hk' : k < scan_na mo_ref) by (rewrite <- La; apply nth_error_Some; congruence).
    pose proof (fd_axis _ _ _ _ _ _ _ _ D name _ p k r Hc Er Hk') as Q. cbv beta in Q. unfold axis_of_last in Q. rewrite El in Q. unfold config in Hk. rewrite axis_array in Hk. rewrite Hk in Q. exact Q.
  - intros name x Hx. destruct (In3 name x Hx) as (v & (l & Hl & Hv) & He'). exists v. split; [|exact He'].
    destruct (de_columns _ _ _ _ _ _ _ _ D' name _ (column_of name x Hx)) as (l' & Hl' & Hm'). assert (l' = l) by congruence. subst l'.
    pose proof (f_equal (fun z => nth_error z p) Hm') as Q. cbv beta in Q. rewrite !nth_error_map, Er, Hv in Q. cbn [option_map] in Q. unfold q_of_last in Q. rewrite El in Q. cbn [option_map] in Q.
    injection Q as ->. exact (Col name x Hx).
  - destruct He as (l & Hl & Hv). destruct (de_ints _ _ _ _ _ _ _ _ D') as (_ & l' & Hl' & Hm'). assert (l' = l) by congruence. subst l'.
    pose proof (f_equal (fun z => nth_error z p) Hm') as Q. cbv beta in Q. rewrite !nth_error_map, Er, Hv in Q. cbn [option_map] in Q. rewrite El in Q. cbn [option_map] in Q.
    injection Q as ->. apply (fd_ints _ _ _ _ _ _ _ _ D p r Er). exact El.
Qed.
End Runs.
Print Assumptions parameter_scan_file_holds_runs.

(** The scan of the example of Properties_MScanQsc. *)
Local Notation routines := (qsc_routines R_ops R_math Rge0 0%R easy_solver easy_solver2 easy_geev (tolerances_of R_ops R_math false) (fun _ => true)).
Local Notation optimize := (multiopt_optimize R_ops (m_sqrt R_math) (m_of_Z R_math) routines step_gsl zero_junk).
Local Notation scan_to := (MScan.scan_steps R_ops (m_abs R_math) (m_of_Z R_math) optimize true (fun _ => 0%R) two_stages two_values 1 buffered).
(** The example of Properties_MScanQsc meets the hypotheses, and its file lists two configurations. *)
Example parameter_scan_file_example : exists n s f, scan_to n (scan_start R_ops two_stages two_values 1) s /\ ended s /\
  mscan_file R_ops (m_of_Z R_math) (scan_na two_stages) (n_scan_all two_values) (config (two_stage 1 (fun _ => [false; true]))) plain_members (s_data s) = Ok f /\
  integer_at f "n_scan" 0 2%Z /\ integer_at f "nfp" 0 3%Z.
Proof.
  destruct parameter_scan_example as (n & s & out & St & En & E & N & Hok & Hi & Hm). exists n, s.
  assert (J : forall n, length (zero_junk n) = n) by (intros k; apply repeat_length).
  assert (P : 1 <= 1 <= n_scan_all two_values) by (cbn; lia).
  destruct (parameter_scan_file_holds_runs R_ops R_math Rge0 0%R 0%R easy_solver easy_solver2 easy_geev (tolerances_of R_ops R_math false) (fun _ => true) step_gsl zero_junk easy_ok step_gsl_ok J
    true (fun _ => 0%R) two_stages two_values _ 1 buffered n s plain_members Hok two_first Hi eq_refl Hm P St En) as (mos & f & A & Ef & D & (S & _) & _).
  destruct (parameter_scan_lists_runs R_ops R_math Rge0 0%R 0%R easy_solver easy_solver2 easy_geev (tolerances_of R_ops R_math false) (fun _ => true) step_gsl zero_junk easy_ok step_gsl_ok J
    true (fun _ => 0%R) two_stages two_values _ 1 buffered n s Hok two_first Hi eq_refl Hm P St En) as (mos' & out' & A' & E' & D' & _).
  assert (mos' = mos).
  { clear - A A'. revert mos' A'. unfold results_at in A. induction A as [|x y l l' Hxy A IH]; intros mos' A'; inversion A' as [|x' y' k k' Hxy' A'']; subst; [reflexivity|].
    f_equal; [congruence|apply IH; exact A'']. }
  assert (out' = out) by congruence. subst mos' out'. exists f. split; [exact St|]. split; [exact En|]. split; [exact Ef|]. split.
  - rewrite <- N, (de_n_scan _ _ _ _ _ _ _ _ D'). exact (fd_n_scan _ _ _ _ _ _ _ _ D).
  - exact (S "nfp" ltac:(cbn; tauto)).
Qed.
