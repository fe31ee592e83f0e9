(** C109: what an input file means that does not give a parameter. *)
From Coq Require Import String ZArith List Arith Bool Lia Reals.
From Verif Require Import Base FloatOps MathOps Toml TomlSpec TomlFacts Tensor NetCDFOut RSing Run MScan Opt OptSpec OptQsc ScanInput OptInput Properties_ScanInput Properties_OptInput.
Import ListNotations.
Local Open Scope string_scope.
Local Open Scope nat_scope.

(** ** Specification: the defaults *)
Section Spec.
Context {F : Type} (o : fops F) (mo : mops F).
Variables (big point4 point3 newton_tol : F).
Notation zero := (VFloat (fzero o)).
Notation one := (VFloat (fone o)).
Notation minus_one := (VFloat (fopp o (fone o))).
(** The table "qsc": the constants in qsc.cpp.  The axis is a circle of radius 1. *)
Definition qsc_default_values : list (string * cval F) :=
  [("nphi", VInt 15); ("nfp", VInt 3); ("eta_bar", minus_one); ("spsi", VInt 1); ("sG", VInt 1); ("B0", one); ("I2", zero); ("sigma0", zero); ("B2s", zero); ("B2c", zero); ("p2", zero);
   ("max_newton_iterations", VInt 12); ("max_linesearch_iterations", VInt 4); ("newton_tolerance", VFloat newton_tol); ("verbose", VInt 1); ("order_r_option", VStr "r1")].
Definition qsc_default_arrays : list (string * F) := [("R0c", fone o); ("R0s", fzero o); ("Z0c", fzero o); ("Z0s", fzero o)].
(** The table "opt", for an axis with [n] modes: no term is used, eta_bar, B2c and the modes of a stellarator-symmetric axis but for the first are varied. *)
Definition opt_default_values (n : nat) : list (string * cval F) :=
  ([("vary_eta_bar", VBool true); ("vary_sigma0", VBool false); ("vary_B2c", VBool true); ("vary_B2s", VBool false); ("make_names", VBool true);
    ("vary_R0c", VBools (false :: repeat true (n - 1))); ("vary_R0s", VBools (repeat false n)); ("vary_Z0c", VBools (repeat false n)); ("vary_Z0s", VBools (false :: repeat true (n - 1)));
    ("target_iota", VFloat point4); ("min_R0", VFloat point3); ("max_d2_volume_d_psi2", zero); ("min_DMerc_times_r2", zero); ("target_axis_length", zero);
    ("max_iter", VInt 3000); ("verbose", VInt 1); ("fourier_refine", VInt 0); ("nphi", VInts [])] ++
   map (fun x => (String.append "weight_" x, minus_one)) term_names)%list.
(** The table "scan": the ranges are single points, everything is kept, for a minute. *)
Definition scan_default_values : list (string * cval F) :=
  ([("eta_bar_min", one); ("eta_bar_max", one); ("sigma0_min", zero); ("sigma0_max", zero); ("B2c_min", zero); ("B2c_max", zero); ("B2s_min", zero); ("B2s_max", zero); ("p2_min", zero); ("p2_max", zero);
    ("deterministic", VBool false); ("keep_all", VBool true); ("max_keep_per_proc", VInt 1000); ("max_attempts_per_proc", VInt (-1)); ("helicity_to_keep", VInt (-1));
    ("save_period", VFloat (m_of_Z mo 60)); ("max_seconds", VFloat (m_of_Z mo 60)); ("max_elongation_to_keep", VFloat (m_of_Z mo 10)); ("max_B20_variation_to_keep", VFloat big);
    ("min_DMerc_times_r2_to_keep", VFloat (fopp o big)); ("max_d2_volume_d_psi2_to_keep", VFloat big)] ++
   map (fun x => (x, minus_one)) ["min_R0_to_keep"; "min_iota_to_keep"; "min_L_grad_B_to_keep"; "min_L_grad_grad_B_to_keep"; "min_r_singularity_to_keep"; "min_beta_to_keep"] ++
   map (fun x => (String.append x "_scan_option", VStr "linear")) ["eta_bar"; "sigma0"; "B2c"; "B2s"; "p2"; "fourier"])%list.
Definition scan_default_arrays : list (string * F) :=
  [("R0c_min", fone o); ("R0c_max", fone o); ("R0s_min", fzero o); ("R0s_max", fzero o); ("Z0c_min", fzero o); ("Z0c_max", fzero o); ("Z0s_min", fzero o); ("Z0s_max", fzero o)].
(** A constant: its mode 0 is [v], the other modes are 0. *)
Definition constant_series (v : F) (l : list F) : Prop := exists n, l = v :: repeat (fzero o) n.
End Spec.

Section Defaults.
Context {F : Type} (o : fops F) (mo : mops F).
Variables (big point4 point3 newton_tol : F).
Notation store := (Toml.store F).
Notation of_int := (m_of_Z mo).
Lemma omitted docs (t : Toml.table F) (s s1 : store) x k : section_effect of_int docs t s s1 -> In (x, k) docs -> Toml.lookup x t = None -> s1 x = s x.
Proof. intros (E & _) Hx Hl. specialize (E x k Hx). rewrite Hl in E. exact E. Qed.
Lemma among (l l' : list string) : forallb (fun x => existsb (String.eqb x) l') l = true -> forall x, In x l -> In x l'.
Proof. intros H x Hx. rewrite forallb_forall in H. specialize (H x Hx). apply existsb_exists in H as (y & Hy & E). apply String.eqb_eq in E. subst y. exact Hy. Qed.
Lemma listed (docs : list (string * kind)) (d : store) (l : list (string * cval F)) : forallb (fun x => existsb (String.eqb x) (map fst docs)) (map fst l) = true -> Forall (fun p => d (fst p) = snd p) l ->
  forall x v, In (x, v) l -> exists k, In (x, k) docs /\ d x = v.
Proof.
  intros H D x v Hx. pose proof (among _ _ H x (in_map fst _ _ Hx)) as Hk. apply in_map_iff in Hk as ([y k] & <- & Hk). exists k. split; [exact Hk|].
  exact (proj1 (Forall_forall _ _) D _ Hx).
Qed.

(** The table "qsc": a number or a string that is not given has the value of the list above, an array that is not given is the constant there; and each key has a default. *)
Theorem qsc_omitted : forall t sq, qsc_input of_int (fzero o) t (default_store o newton_tol) = Ok sq ->
  (forall x v, In (x, v) (qsc_default_values o newton_tol) -> Toml.lookup x t = None -> sq x = v) /\
  (forall x v, In (x, v) (qsc_default_arrays o) -> Toml.lookup x t = None -> constant_series o v (v_vec sq x)) /\
  (forall x, In x (map fst qsc_keys) -> In x (map fst (qsc_default_values o newton_tol) ++ map fst (qsc_default_arrays o))).
Proof.
  intros t sq E. destruct (qsc_table o mo newton_tol t) as [(_ & sq' & E' & (s1 & Ef & K & n & Ax & _) & _)|(_ & m & E')]; [|rewrite E in E'; discriminate E'].
  assert (sq' = sq) by congruence. subst sq'. split; [|split].
  - intros x v Hx Hl. assert (Q : exists k, In (x, k) qsc_keys /\ default_store o newton_tol x = v) by (clear Hl; revert x v Hx; apply listed; [vm_compute; reflexivity|repeat constructor]).
    destruct Q as (k & Hk & <-). rewrite K; [exact (omitted _ _ _ _ _ _ Ef Hk Hl)|].
    unfold qsc_default_values in Hx. repeat (destruct Hx as [Hx|Hx]; [injection Hx as <- _; cbn; intuition discriminate|]). destruct Hx.
  - intros x v Hx Hl. assert (Q : In (x, KVec) qsc_keys /\ default_store o newton_tol x = VVec [v] /\ In x axis_keys).
    { unfold qsc_default_arrays in Hx. unfold qsc_keys. repeat (destruct Hx as [Hx|Hx]; [injection Hx as <- <-; split; [repeat (first [left; reflexivity|right])|split; [reflexivity|cbn; tauto]]|]). destruct Hx. }
    destruct Q as (Hk & D & Ha). destruct (Ax x Ha) as (w & Ew & Lw & Es). rewrite (omitted _ _ _ _ _ _ Ef Hk Hl), D in Ew. injection Ew as <-.
    exists (n - 1). unfold v_vec. rewrite Es. reflexivity.
  - apply among. vm_compute. reflexivity.
Qed.

(** The table "opt": a parameter that is not given has the value of the list above, algorithm and diff_method are Levenberg-Marquardt and forward differences; and each key has a default. *)
Theorem opt_omitted : forall tq t sq so alg dm, opt_inputs o mo point4 point3 newton_tol tq t = Ok (sq, (so, alg, dm)) ->
  (forall x v, In (x, v) (opt_default_values o point4 point3 (length (v_vec sq "R0c"))) -> Toml.lookup x t = None -> so x = v) /\
  (Toml.lookup "algorithm" t = None -> alg = GSL_LM) /\ (Toml.lookup "diff_method" t = None -> dm = DIFF_METHOD_FORWARD) /\
  (forall n x, In x (map fst opt_keys) -> In x (map fst (opt_default_values o point4 point3 n))).
Proof.
  intros tq t sq so alg dm E. destruct (inputs_parts o mo point4 point3 newton_tol _ _ _ _ _ _ E) as (_ & _ & _ & (_ & Ef & Al & Dm & _)). split; [|split; [|split]].
  - generalize dependent (length (v_vec sq "R0c")). intros n Ef x v Hx Hl.
    assert (Q : exists k, In (x, k) opt_keys /\ vary_default n (opt_defaults o point4 point3) x = v).
    { clear Hl. revert x v Hx. apply listed; [vm_compute; reflexivity|repeat constructor]. }
    destruct Q as (k & Hk & <-). exact (omitted _ _ _ _ _ _ Ef Hk Hl).
  - intros Hl. rewrite Hl in Al. exact Al.
  - intros Hl. rewrite Hl in Dm. exact Dm.
  - intros n. apply among. vm_compute. reflexivity.
Qed.
(** So a term of the objective function is not used if its weight is not given. *)
Theorem term_omitted : forall tq t sq so alg dm q s0 name, flt o (fzero o) (fopp o (fone o)) = false ->
  opt_inputs o mo point4 point3 newton_tol tq t = Ok (sq, (so, alg, dm)) -> In name term_names -> Toml.lookup (String.append "weight_" name) t = None ->
  used o (opt_object so q s0) name = false.
Proof.
  intros tq t sq so alg dm q s0 name N E Hn Hl. destruct (opt_omitted tq t sq so alg dm E) as (D & _).
  unfold used. cbn [opt_object st_num]. rewrite (D (String.append "weight_" name) (VFloat (fopp o (fone o)))); [exact N| |exact Hl].
  apply in_or_app. right. apply (in_map (fun x => (String.append "weight_" x, VFloat (fopp o (fone o)))) term_names name Hn).
Qed.

(** The table "scan". *)
Theorem scan_omitted : forall t ss, scan_input o mo t (scan_defaults o mo big) = Ok ss ->
  (forall x v, In (x, v) (scan_default_values o mo big) -> Toml.lookup x t = None -> ss x = v) /\
  (forall x v, In (x, v) (scan_default_arrays o) -> Toml.lookup x t = None -> constant_series o v (v_vec ss x)) /\
  (forall x, In x (map fst scan_keys) -> In x (map fst (scan_default_values o mo big) ++ map fst (scan_default_arrays o))).
Proof.
  intros t ss E. destruct (scan_table_read o mo big t) as [(_ & ss' & E' & (s1 & n & Ef & K & Ax & _))|(_ & m & E')]; [|rewrite E in E'; discriminate E'].
  assert (ss' = ss) by congruence. subst ss'. split; [|split].
  - intros x v Hx Hl. assert (Q : exists k, In (x, k) scan_keys /\ scan_defaults o mo big x = v).
    { clear Hl. revert x v Hx. apply listed; [vm_compute; reflexivity|repeat constructor]. }
    destruct Q as (k & Hk & <-). rewrite K; [exact (omitted _ _ _ _ _ _ Ef Hk Hl)|].
    unfold scan_default_values in Hx. cbn [map app] in Hx. repeat (destruct Hx as [Hx|Hx]; [injection Hx as <- _; cbn; intuition discriminate|]). destruct Hx.
  - intros x v Hx Hl. assert (Q : In (x, KVec) scan_keys /\ scan_defaults o mo big x = VVec [v] /\ In x limit_arrays).
    { unfold scan_default_arrays in Hx. unfold scan_keys. cbn [map app]. repeat (destruct Hx as [Hx|Hx]; [injection Hx as <- <-; split; [repeat (first [left; reflexivity|right])|split; [reflexivity|cbn; tauto]]|]). destruct Hx. }
    destruct Q as (Hk & D & Ha). destruct (Ax x Ha) as (w & Ew & Lw & Es). rewrite (omitted _ _ _ _ _ _ Ef Hk Hl), D in Ew. injection Ew as <-.
    exists (n - 1). unfold v_vec. rewrite Es. reflexivity.
  - apply among. vm_compute. reflexivity.
Qed.
End Defaults.
Print Assumptions qsc_omitted.
Print Assumptions opt_omitted.
Print Assumptions term_omitted.
Print Assumptions scan_omitted.

(** The hypotheses are met: the tables of C107, with real numbers; in double precision as well minus one is not positive. *)
Example omitted_example : exists sq so alg dm, opt_inputs R_ops R_math 0%R 0%R 0%R opt_qsc opt_opt = Ok (sq, (so, alg, dm)) /\
  so "max_d2_volume_d_psi2" = VFloat 0%R /\ (forall q s0, used R_ops (opt_object so q s0) "elongation" = false) /\ sq "nphi" = VInt 15 /\ v_vec sq "R0s" = [0; 0]%R.
Proof.
  destruct example_tables as (sq & so & E & _ & _ & _ & L & _). exists sq, so, GSL_DOGLEG, DIFF_METHOD_FORWARD. split; [exact E|].
  destruct (opt_omitted R_ops R_math 0%R 0%R 0%R _ _ _ _ _ _ E) as (D & _). split; [apply D; [cbn; tauto|reflexivity]|]. split.
  - intros q s0. apply (term_omitted R_ops R_math 0%R 0%R 0%R _ _ _ _ _ _ q s0 "elongation") with (2 := E); [|cbn; tauto|reflexivity].
    cbn. unfold Rltb. destruct (Rlt_dec 0 (- (1))) as [H|_]; [|reflexivity]. exfalso. apply (Rlt_irrefl 0). eapply Rlt_trans; [exact H|]. apply Ropp_lt_gt_0_contravar. exact Rlt_0_1.
  - unfold opt_inputs in E. destruct (qsc_input (m_of_Z R_math) (fzero R_ops) opt_qsc (default_store R_ops 0%R)) as [q| |] eqn:Q; cbn [bind] in E; [|discriminate E|discriminate E].
    destruct (qsc_omitted R_ops R_math 0%R _ _ Q) as (V & A & _).
    assert (q = sq).
    { destruct (vec_of (q "R0c")) as [v| |]; cbn [bind] in E; [|discriminate E|discriminate E]. destruct (opt_input _ _ _ _ _ _) as [r| |]; cbn [bind] in E; [|discriminate E|discriminate E]. congruence. }
    subst q. split; [apply V; [cbn; tauto|reflexivity]|]. destruct (A "R0s" 0%R ltac:(cbn; tauto) eq_refl) as (n & En).
    assert (H : match qsc_input (m_of_Z R_math) (fzero R_ops) opt_qsc (default_store R_ops 0%R) with Ok s => length (v_vec s "R0s") = 2 | _ => True end).
    { lazy -[Rdiv IZR Ropp Rplus Rmult Rminus]. reflexivity. }
    rewrite Q in H. rewrite En in *. cbn [length] in H. rewrite repeat_length in H. injection H as ->. reflexivity.
Qed.
Example minus_one_double : flt D_ops (fzero D_ops) (fopp D_ops (fone D_ops)) = false.
Proof. vm_compute. reflexivity. Qed.
