(** Properties of the calculation of one configuration as a whole: C87 (a run has defined behaviour), C90 (the configurations of the papers). *)
From Coq Require Import String ZArith Arith Bool Lia List Reals.
From Verif Require Import Base BaseFacts FloatOps MathOps Tensor Newton Diff Axis AxisFacts R1 R1Facts R2 RSing GradGradB Alloc AllocSpec AllocFacts Toml TomlSpec TomlFacts
  Options OptionsSpec NetCDF NetCDFOut NetCDFNames NetCDFSpec HelicityFacts Run RunSpec RunFacts RunSafe Properties_RSing.
Import ListNotations.
Local Open Scope string_scope.
Local Open Scope nat_scope.

Section Safe.
Context {F : Type} (o : fops F) (mo : mops F).
Variables (ge0 : F -> bool) (newton_tol mu0 : F) (newton_linear_solve : (nat -> nat -> F) -> list F -> outcome (list F))
  (linear_solve : matrix F -> list F -> outcome (list F)) (geev : list F -> Z * (list F * list F)) (tol : tolerances F) (finite : F -> bool).
Notation run := (Run.run o mo ge0 newton_tol mu0 newton_linear_solve linear_solve geev tol finite).
Notation construct_preset := (Run.construct_preset o mo ge0 newton_tol mu0 newton_linear_solve linear_solve geev tol finite).
Notation write := (qsc_write_netcdf F (m_of_Z mo)).
Notation default := (default_store o newton_tol).

(** C87, any arithmetic.  If every value that the input file gives the input parameters is acceptable, run() has no undefined behaviour, whatever the memory
    contained: it writes the output file or stops with an exception.  The solvers of linear equations may fail with an exception, but must not access memory out
    of bounds; that of Newton's method returns as many numbers as there are unknowns.  Nothing is assumed about the routine for the eigenvalues. *)
Theorem run_safe : forall t,
  (forall m v w, newton_linear_solve m v <> UB w) -> (forall m v x, newton_linear_solve m v = Ok x -> length x = length v) -> (forall m v w, linear_solve m v <> UB w) ->
  (forall s, section_effect (m_of_Z mo) qsc_keys t default s -> acceptable s) ->
  forall e w, run e t <> UB w.
Proof.
  intros t S1 S2 S3 Ha e w E.
  enough (H : fine false (fun _ => True) (run e t)) by (rewrite E in H; exact H).
  apply run_fine.
  - intros n m v Hv. specialize (S1 m v). specialize (S2 m v). destruct (newton_linear_solve m v) as [x| |]; cbn; [rewrite <- Hv; apply S2; reflexivity|reflexivity|eapply S1; reflexivity].
  - intros m v. specialize (S3 m v). destruct (linear_solve m v); cbn; [exact I|reflexivity|eapply S3; reflexivity].
  - intros i s. apply singularity_no_ub.
  - discriminate.
  - intros s Hs. split; [apply Ha; exact Hs|discriminate].
Qed.

(** C90.  Constructing a configuration of the papers by its name and writing the output file gives what the corresponding input file gives: the same result of
    Newton's method and the same output file, or the same exception; whatever the memory contained.  Any other name is refused. *)
Lemma lookup_numbers x (l : list (string * F)) (t : table F) :
  lookup x (map (fun p => (fst p, Toml.TFloat (snd p))) l ++ t)%list = match find (fun p => String.eqb x (fst p)) l with Some p => Some (Toml.TFloat (snd p)) | None => lookup x t end.
Proof. induction l as [|[y v] l IH]; [reflexivity|]. cbn [map app lookup find fst snd]. destruct (String.eqb x y); [reflexivity|exact IH]. Qed.
Definition free_numbers : list string := ["eta_bar"; "sigma0"; "B2c"; "B2s"; "I2"; "p2"].
Definition preset_table (p : preset (F := F)) : table F :=
  ([("nfp", Toml.TInt (p_nfp p)); ("order_r_option", Toml.TStr (p_order p))] ++ map (fun p => (fst p, Toml.TFloat (snd p))) (p_floats p) ++
  [("R0c", TArr (map (@Toml.TFloat F) (p_R0c p))); ("R0s", TArr (map (@Toml.TFloat F) (p_R0s p))); ("Z0c", TArr (map (@Toml.TFloat F) (p_Z0c p))); ("Z0s", TArr (map (@Toml.TFloat F) (p_Z0s p)))])%list.
Lemma vec_values l xs : Forall2 (fun v x => v = Toml.TFloat x) (map (@Toml.TFloat F) l) xs -> xs = l.
Proof. revert xs. induction l as [|y l IH]; intros xs H; inversion H; subst; [reflexivity|]. f_equal; [congruence|apply IH; assumption]. Qed.
Lemma vec_denoted l : TomlSpec.denotes (m_of_Z mo) KVec (TArr (map (@Toml.TFloat F) l)) (VVec l).
Proof. constructor. induction l; constructor; auto. Qed.
Record preset_ok (p : preset (F := F)) (n : nat) : Prop := mkPresetOk {
  po_nfp : (1 <= p_nfp p < 1000)%Z; po_n : 1 <= n /\ (Z.of_nat (n - 1) * p_nfp p <= 1290)%Z; po_floats : forall x v, In (x, v) (p_floats p) -> In x free_numbers;
  po_R0c : length (p_R0c p) = n; po_R0s : length (p_R0s p) = n; po_Z0c : length (p_Z0c p) = n; po_Z0s : length (p_Z0s p) = n; po_order : In (p_order p) ["r1"; "r2"; "r2.1"] }.
Lemma lookup_preset p n x : preset_ok p n -> lookup x (preset_table p) =
  if String.eqb x "nfp" then Some (Toml.TInt (p_nfp p)) else if String.eqb x "order_r_option" then Some (Toml.TStr (p_order p)) else
  match find (fun p => String.eqb x (fst p)) (p_floats p) with Some p => Some (Toml.TFloat (snd p)) | None =>
    lookup x [("R0c", TArr (map (@Toml.TFloat F) (p_R0c p))); ("R0s", TArr (map (@Toml.TFloat F) (p_R0s p))); ("Z0c", TArr (map (@Toml.TFloat F) (p_Z0c p))); ("Z0s", TArr (map (@Toml.TFloat F) (p_Z0s p)))] end.
Proof. intros H. unfold preset_table. cbn [app lookup]. destruct (String.eqb x "nfp"); [reflexivity|]. destruct (String.eqb x "order_r_option"); [reflexivity|]. apply lookup_numbers. Qed.
Lemma not_free p n x : preset_ok p n -> ~ In x free_numbers -> find (fun q => String.eqb x (fst q)) (p_floats p) = None.
Proof.
  intros H Hx. destruct (find _ _) as [[y v]|] eqn:E; [|reflexivity]. exfalso. apply find_some in E. destruct E as (Hi & E). apply String.eqb_eq in E. cbn [fst] in E.
  subst y. apply Hx, (po_floats _ _ H x v Hi).
Qed.
Ltac eqs H := repeat match type of H with context [if String.eqb ?a ?b then _ else _] => let v := eval vm_compute in (String.eqb a b) in change (String.eqb a b) with v in H; cbv iota in H end.
Ltac not_in := let K := fresh in intros K; cbn [In free_numbers] in K; repeat (destruct K as [K|K]; [discriminate K|]); destruct K.
Lemma preset_valid p n : preset_ok p n -> valid_section (m_of_Z mo) qsc_keys (preset_table p).
Proof.
  intros H. split.
  - intros x v Hi. unfold preset_table in Hi. apply in_app_or in Hi. destruct Hi as [Hi|Hi].
    { cbn [In] in Hi. destruct Hi as [E|[E|[]]]; injection E as <- _; cbn [In map fst qsc_keys]; tauto. }
    apply in_app_or in Hi. destruct Hi as [Hi|Hi].
    + apply in_map_iff in Hi. destruct Hi as ([y w] & E & Hi). cbn [fst snd] in E. injection E as <- <-. pose proof (po_floats _ _ H _ _ Hi) as K.
      cbn [In free_numbers] in K. cbn [In map fst qsc_keys]. tauto.
    + cbn [In] in Hi. repeat (destruct Hi as [E|Hi]; [injection E as <- _; cbn [In map fst qsc_keys]; tauto|]). destruct Hi.
  - intros x k v Hk Hl. rewrite (lookup_preset p n) in Hl by exact H.
    cbn [In qsc_keys] in Hk. repeat (destruct Hk as [E|Hk]; [injection E as <- <-; eqs Hl|]); try destruct Hk;
      try (rewrite (not_free p n) in Hl by (exact H || not_in); cbn [lookup] in Hl; eqs Hl);
      try discriminate Hl; try (injection Hl as <-); try (eexists; apply vec_denoted).
    all: try (destruct (find _ _) as [q|]; [injection Hl as <-; eexists; constructor|discriminate Hl]).
    + eexists. constructor. apply to_int32_of.
    + eexists. constructor.
Qed.
Lemma preset_effect p n s : preset_ok p n -> section_effect (m_of_Z mo) qsc_keys (preset_table p) default s ->
  (forall x, In x input_ints -> s x = VInt (if String.eqb x "nfp" then p_nfp p else match default x with VInt z => z | _ => 0%Z end)) /\
  (forall x, In x input_floats -> s x = VFloat (match find (fun q => String.eqb x (fst q)) (p_floats p) with Some q => snd q | None => match default x with VFloat v => v | _ => fzero o end end)) /\
  s "order_r_option" = VStr (p_order p) /\ s "R0c" = VVec (p_R0c p) /\ s "R0s" = VVec (p_R0s p) /\ s "Z0c" = VVec (p_Z0c p) /\ s "Z0s" = VVec (p_Z0s p).
Proof.
  intros H (He & _).
  assert (V : forall x l, In (x, KVec) qsc_keys -> lookup x (preset_table p) = Some (TArr (map (@Toml.TFloat F) l)) -> s x = VVec l).
  { intros x l Hi E. specialize (He x KVec Hi). rewrite E in He. inversion He; subst. f_equal. apply vec_values. assumption. }
  split; [|split; [|split; [|split; [|split; [|split]]]]].
  - intros x Hx. specialize (He x KInt). cbn [In input_ints] in Hx.
    repeat (destruct Hx as [<-|Hx]; [specialize (He ltac:(cbn [In qsc_keys]; tauto)); rewrite (lookup_preset p n) in He by exact H; eqs He|]); try destruct Hx;
      try (rewrite (not_free p n) in He by (exact H || not_in); cbn [lookup] in He; eqs He); try exact He.
    inversion He; subst. cbn [String.eqb Ascii.eqb Bool.eqb]. f_equal. eapply int32_of_unique; [eassumption|]. destruct (po_nfp _ _ H). split; [unfold in_int32; lia|exists 0%Z; lia].
  - intros x Hx. specialize (He x KFloat). cbn [In input_floats] in Hx.
    repeat (destruct Hx as [<-|Hx]; [specialize (He ltac:(cbn [In qsc_keys]; tauto)); rewrite (lookup_preset p n) in He by exact H; eqs He;
      (destruct (find _ _) as [q|]; [inversion He; reflexivity|exact He])|]); destruct Hx.
  - specialize (He "order_r_option" KStr ltac:(cbn [In qsc_keys]; tauto)). rewrite (lookup_preset p n) in He by exact H. eqs He. inversion He. reflexivity.
  - apply V; [cbn [In qsc_keys]; tauto|]. rewrite (lookup_preset p n), (not_free p n) by (exact H || not_in). reflexivity.
  - apply V; [cbn [In qsc_keys]; tauto|]. rewrite (lookup_preset p n), (not_free p n) by (exact H || not_in). reflexivity.
  - apply V; [cbn [In qsc_keys]; tauto|]. rewrite (lookup_preset p n), (not_free p n) by (exact H || not_in). reflexivity.
  - apply V; [cbn [In qsc_keys]; tauto|]. rewrite (lookup_preset p n), (not_free p n) by (exact H || not_in). reflexivity.
Qed.
Lemma preset_acceptable p n s : preset_ok p n -> section_effect (m_of_Z mo) qsc_keys (preset_table p) default s -> acceptable s.
Proof.
  intros H He. destruct (preset_effect p n s H He) as (E1 & _ & _ & A1 & A2 & A3 & A4).
  exists 15%Z, (p_nfp p), (mkAxis (p_R0c p) (p_R0s p) (p_Z0c p) (p_Z0s p)).
  rewrite !E1 by (cbn [In input_ints]; tauto). cbn [R0c R0s Z0c Z0s]. unfold max_len. cbn [R0c R0s Z0c Z0s]. rewrite (po_R0c _ _ H), (po_R0s _ _ H), (po_Z0c _ _ H), (po_Z0s _ _ H).
  rewrite !Nat.max_id. destruct (po_nfp _ _ H), (po_n _ _ H). repeat split; auto; lia.
Qed.
Lemma preset_run p n name e e' : preset_ok p n -> preset_of o mo name = Ok p ->
  (do r <- construct_preset e name; do f <- write (snd r); Ok (fst r, f)) = run e' (preset_table p).
Proof.
  intros H Hp. unfold Run.construct_preset, Run.run. rewrite Hp. cbn [bind].
  destruct (qsc_input_cases (m_of_Z mo) (fzero o) (preset_table p) default) as [(_ & s1 & s & a & He & B1 & B2 & B3 & B4 & E & A1 & A2 & A3 & A4 & Ho)|(Hv & _)].
  { intros x [<-|[<-|[<-|[<-|[]]]]]; eexists; reflexivity. }
  2: { exfalso. apply Hv. apply (preset_valid p n H). }
  rewrite E. cbn [bind]. destruct (preset_effect p n s1 H He) as (E1 & E2 & E3 & D1 & D2 & D3 & D4).
  assert (Ea : a = mkAxis (p_R0c p) (p_R0s p) (p_Z0c p) (p_Z0s p)) by (destruct a; cbn in *; congruence).
  assert (Em : max_len a = n).
  { rewrite Ea. unfold max_len. cbn [R0c R0s Z0c Z0s]. rewrite (po_R0c _ _ H), (po_R0s _ _ H), (po_Z0c _ _ H), (po_Z0s _ _ H), !Nat.max_id. reflexivity. }
  assert (Ep : forall l, length l = n -> padded (fzero o) n l = l) by (intros l <-; unfold padded; rewrite Nat.sub_diag; apply app_nil_r).
  rewrite Em, Ea in A1, A2, A3, A4. cbn [R0c R0s Z0c Z0s] in *.
  rewrite Ep in A1 by apply H. rewrite Ep in A2 by apply H. rewrite Ep in A3 by apply H. rewrite Ep in A4 by apply H.
  set (c := with_arrays _ _). set (c' := load s _).
  assert (N : forall x, In x (input_ints ++ input_floats ++ ["order_r_option"])%list -> s x = s1 x).
  { intros x Hx. apply Ho. intros Hk. assert (B : apart axis_keys (input_ints ++ input_floats ++ ["order_r_option"])%list = true) by (vm_compute; reflexivity).
    unfold apart in B. rewrite forallb_forall in B. specialize (B x Hx). apply inb_In in Hk. rewrite Hk in B. discriminate. }
  transitivity (do e <- Run.init o c; do r <- Run.calculate o mo ge0 mu0 newton_linear_solve linear_solve geev tol finite e; do f <- write (snd r); Ok (fst r, f)).
  { destruct (Run.init o c); reflexivity. }
  apply (init_written o mo ge0 newton_tol mu0 newton_linear_solve linear_solve geev tol finite).
  - intros x Hx. unfold c'. cbn [m_int load]. rewrite N, (E1 x Hx) by (apply in_or_app; left; exact Hx). cbn [In input_ints] in Hx. repeat (destruct Hx as [<-|Hx]; [reflexivity|]). destruct Hx.
  - intros x Hx. unfold c'. cbn [m_float load]. rewrite N, (E2 x Hx) by (apply in_or_app; right; apply in_or_app; left; exact Hx).
    unfold c. cbn [with_arrays with_text with_floats with_ints m_float load update]. unfold update.
    destruct (find _ _) as [q|]; [reflexivity|]. cbn [In input_floats] in Hx. repeat (destruct Hx as [<-|Hx]; [reflexivity|]). destruct Hx.
  - intros x [<-|[<-|[<-|[<-|[]]]]]; unfold c'; cbn [m_array load]; [rewrite A1|rewrite A2|rewrite A3|rewrite A4]; reflexivity.
  - unfold c'. cbn [m_text load]. rewrite N, E3 by (apply in_or_app; right; apply in_or_app; right; left; reflexivity). reflexivity.
Qed.
Ltac po := constructor; cbn [p_nfp p_floats p_order p_R0c p_R0s p_Z0c p_Z0s length zeros repeat]; try reflexivity; [lia|lia| |cbn [In]; tauto];
  let Hi := fresh in intros ? ? Hi; cbn [In] in Hi; repeat (destruct Hi as [Hi|Hi]; [injection Hi as <- _; cbn [In free_numbers]; tauto|]); destruct Hi.
Lemma published_preset name t : published (dec o mo) name = Some t -> exists p n, preset_of o mo name = Ok p /\ t = preset_table p /\ preset_ok p n.
Proof.
  unfold published, preset_of. cbn [existsb]. 
  repeat (match goal with |- context [String.eqb name ?x] => destruct (String.eqb name x) end; cbn [orb]; [intros E; injection E as <-; eexists; eexists; split; [reflexivity|split; [reflexivity|po]]|]).
  discriminate.
Qed.
Theorem preset_is_input_file : forall name e,
  match published (dec o mo) name with
  | Some t => forall e', (do r <- construct_preset e name; do f <- write (snd r); Ok (fst r, f)) = run e' t
  | None => construct_preset e name = Throw "Configuration name not recognized"
  end.
Proof.
  intros name e. destruct (published (dec o mo) name) as [t|] eqn:E.
  - intros e'. destruct (published_preset name t E) as (p & n & Hp & -> & Ok). apply (preset_run p n); assumption.
  - unfold published in E. cbn [existsb] in E. unfold Run.construct_preset, preset_of.
    repeat (match goal with |- context [String.eqb name ?x] => destruct (String.eqb name x) end; cbn [orb] in *; [discriminate E|]). reflexivity.
Qed.
(** The hypotheses of [run_safe] and [run_defined] hold for the configurations of the papers. *)
Lemma published_acceptable name t : published (dec o mo) name = Some t ->
  valid_section (m_of_Z mo) qsc_keys t /\
  forall s, section_effect (m_of_Z mo) qsc_keys t (default_store o newton_tol) s -> acceptable s /\ exists x, s "order_r_option" = VStr x /\ In x ["r1"; "r2"; "r2.1"].
Proof.
  intros E. destruct (published_preset name t E) as (p & n & _ & -> & H). split; [apply (preset_valid p n H)|].
  intros s Hs. split; [eapply preset_acceptable; eassumption|]. destruct (preset_effect p n s H Hs) as (_ & _ & E3 & _). exists (p_order p). split; [exact E3|apply H].
Qed.
End Safe.
Print Assumptions run_safe. Print Assumptions preset_is_input_file.

(** C87, real arithmetic.  If moreover the input file is valid, the option for the order is a documented one, and the external routines succeed, run() writes the
    output file: in real arithmetic no exception comes from the calculation itself. *)
Section Defined.
Variables (ge0 : R -> bool) (newton_tol mu0 : R) (newton_linear_solve : (nat -> nat -> R) -> list R -> outcome (list R))
  (linear_solve : matrix R -> list R -> outcome (list R)) (geev : list R -> Z * (list R * list R)) (single : bool).
Notation run := (Run.run R_ops R_math ge0 newton_tol mu0 newton_linear_solve linear_solve geev (tolerances_of R_ops R_math single) (fun _ => true)).
Theorem run_defined : forall t,
  valid_section IZR qsc_keys t ->
  (forall s, section_effect IZR qsc_keys t (default_store R_ops newton_tol) s -> acceptable s /\ exists x, s "order_r_option" = VStr x /\ In x ["r1"; "r2"; "r2.1"]) ->
  (forall m v, exists x, newton_linear_solve m v = Ok x /\ length x = length v) -> (forall m v, exists x, linear_solve m v = Ok x) -> (forall m, fst (geev m) = 0%Z) ->
  forall e, exists st f, run e t = Ok (st, f).
Proof.
  intros t Hv Ha S1 S2 S3 e.
  assert (H : fine true (fun _ => True) (run e t)).
  { apply run_fine.
    - intros n m v <-. destruct (S1 m v) as (x & -> & L). exact L.
    - intros m v. destruct (S2 m v) as (x & ->). exact I.
    - intros i s. destruct (singularity_defined geev single i s S3) as (x & ->). exact I.
    - intros _. exact Hv.
    - intros s Hs. destruct (Ha s Hs) as (A & B). split; [exact A|intros _; exact B]. }
  destruct (run e t) as [[st f]|w|w]; [exists st, f; reflexivity|discriminate H|destruct H].
Qed.

End Defined.
Example preset_safe : forall F (o : fops F) (mo : mops F) ge0 newton_tol mu0 newton_linear_solve linear_solve geev tol finite name e e' w,
  (forall m v w, newton_linear_solve m v <> UB w) -> (forall m v x, newton_linear_solve m v = Ok x -> length x = length v) -> (forall m v w, linear_solve m v <> UB w) ->
  (exists t, published (dec o mo) name = Some t /\ run o mo ge0 newton_tol mu0 newton_linear_solve linear_solve geev tol finite e' t <> UB w) \/
  construct_preset o mo ge0 newton_tol mu0 newton_linear_solve linear_solve geev tol finite e name = Throw "Configuration name not recognized".
Proof.
  intros. pose proof (preset_is_input_file o mo ge0 newton_tol mu0 newton_linear_solve linear_solve geev tol finite name e) as P.
  destruct (published (dec o mo) name) as [t|] eqn:E; [left|right; exact P]. exists t. split; [reflexivity|].
  apply run_safe; auto. intros s Hs. apply (published_acceptable o mo ge0 newton_tol mu0 newton_linear_solve finite name t E). exact Hs.
Qed.
(** All of this for a configuration of order r2.1, in real arithmetic, with solvers that always succeed. *)
Definition easy_solver : (nat -> nat -> R) -> list R -> outcome (list R) := fun _ v => Ok v.
Definition easy_solver2 : matrix R -> list R -> outcome (list R) := fun _ v => Ok v.
Definition easy_geev (m : list R) : Z * (list R * list R) := (0%Z, ([], [])).
Notation run_easy := (run R_ops R_math Rge0 0%R 0%R easy_solver easy_solver2 easy_geev (tolerances_of R_ops R_math false) (fun _ => true)).
Example published_runs : forall name t e, published (dec R_ops R_math) name = Some t -> exists st f, run_easy e t = Ok (st, f).
Proof.
  intros name t e E. destruct (published_acceptable R_ops R_math Rge0 0%R 0%R easy_solver (fun _ => true) name t E) as (V & A).
  apply run_defined; auto; [intros m v; exists v; auto|intros m v; exists v; reflexivity].
Qed.
Example published_names : forall name, In name ["r1 section 5.1"; "r1 section 5.2"; "r1 section 5.3"; "r2 section 5.1"; "r2 section 5.2"; "r2 section 5.3"; "r2 section 5.4"; "r2 section 5.5";
  "1"; "2"; "3"; "4"; "5"] <-> published (dec R_ops R_math) name <> None.
Proof.
  intros name. split.
  - intros H. cbn [In] in H. repeat (destruct H as [<-|H]; [discriminate|]). destruct H.
  - intros H. destruct (published (dec R_ops R_math) name) as [t|] eqn:E; [|congruence]. clear H. unfold published in E. cbn [existsb] in E.
    repeat (match type of E with context [String.eqb name ?x] => destruct (String.eqb_spec name x) as [->|] end; [cbn [In]; tauto|]; cbn [orb] in E). discriminate E.
Qed.
Print Assumptions run_defined.
