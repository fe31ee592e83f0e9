(** Properties C59 (layout of arrays in the output files), C60 (reading an output file), C61 (the history of an optimization in the output file),
    C76 (what the output files contain) and C77 (reading strings). *)
From Coq Require Import String Ascii ZArith Arith Bool Lia SpecFloat List.
From Verif Require Import Base BaseFacts FloatOps Tensor Alloc AllocSpec AllocFacts MScan Opt OptSpec OptRun OptEnd Properties_Opt
  NetCDF NetCDFOut NetCDFNames NetCDFSpec NetCDFFacts NetCDFRead.
Import ListNotations.
Local Open Scope string_scope.
Local Open Scope nat_scope.

Section Files.
Context {F : Type}.
Variable zero : F.
Variable to_int : F -> Z.
Variable of_int : Z -> F.
Notation members := (members F).
Notation file := (file F).
Notation qsc_write := (qsc_write_netcdf F of_int).
Notation opt_write := (opt_write_netcdf F of_int).
Notation scan_write := (scan_write_netcdf F of_int).
Notation multiopt_scan_write := (multiopt_scan_write_netcdf F of_int).
Notation read_C := (read_netcdf_C F zero to_int of_int).

(** ** Dimensions *)
Lemma def_dim_ok (f : file) name len : (0 <= len)%Z -> ~ In name (map fst (f_dims F f)) ->
  (len = 0%Z -> Forall (fun d => snd d <> 0) (f_dims F f)) ->
  def_dim F f name len = Ok (length (f_dims F f), mkFile F (f_dims F f ++ [(name, Z.to_nat len)])%list (f_vars F f)).
Proof.
  intros H1 H2 H3. unfold def_dim. destruct (Z.ltb_spec len 0); [lia|].
  assert (E : inq_dimid F f name = None).
  { unfold inq_dimid. apply find_index_none. intros d Hd. apply String.eqb_neq. intros <-. apply H2. apply in_map. exact Hd. }
  rewrite E. destruct (Z.eqb_spec len 0) as [->|]; [|reflexivity]. cbn [andb].
  assert (E' : existsb (fun d => snd d =? 0) (f_dims F f) = false).
  { apply not_true_is_false. intros K. apply existsb_exists in K as [d [Hd Hz]]. specialize (H3 eq_refl). rewrite Forall_forall in H3.
    apply (H3 d Hd). apply Nat.eqb_eq. exact Hz. }
  rewrite E'. reflexivity.
Qed.
Definition not_text (name : string) : bool := negb (String.eqb (substring 0 4 name) "dim_").
Lemma not_text_ok name k : not_text name = true -> name <> dim_str k.
Proof. intros H ->. unfold dim_str in H. cbn in H. destruct (zeros _ ++ _) in H; discriminate. Qed.
Lemma dims_texts (l : list (string * nat)) : forallb (fun d => not_text (fst d)) l = true -> forall n k, In (dim_str k, n) l -> n = k.
Proof. intros H n k Hin. rewrite forallb_forall in H. specialize (H _ Hin). cbn [fst] in H. exfalso. exact (not_text_ok _ _ H eq_refl). Qed.

(** ** C60: a configuration *)
Definition qsc_lens (q : members) : list (string * nat) :=
  [("nphi_dim", Z.to_nat (m_int F q "nphi")); ("axis_nmax_plus_1_dim", length (m_array F q "R0c")); ("nbt_dim", 3)].
Definition qsc_base (q : members) : list (string * nat) :=
  [("nphi", Z.to_nat (m_int F q "nphi")); ("axis_nmax_plus_1", length (m_array F q "R0c")); ("normal_binormal_tangent", 3)].
Lemma qsc_run_dims q : allocated F q ->
  run_dims F q ([], new_writer F) qsc_dims
  = Ok ([("nbt_dim", 2); ("axis_nmax_plus_1_dim", 1); ("nphi_dim", 0)], mkW F (mkFile F (qsc_base q) []) []).
Proof.
  intros (H1 & H2 & H3 & H4 & H5 & H6). unfold qsc_dims. cbn [run_dims run_dim fst snd dim_size]. unfold dim.
  assert (N0 : Z.to_nat (m_int F q "nphi") <> 0) by lia.
  rewrite def_dim_ok; [|lia|intros []|intros _; constructor]. cbn [bind fst snd f_dims f_vars w_file w_entries new_writer empty_file app length].
  rewrite def_dim_ok; [|lia|cbn; intros [K|[]]; discriminate|cbn; repeat constructor; exact N0].
  cbn [bind fst snd f_dims f_vars w_file w_entries app length]. rewrite Nat2Z.id.
  rewrite def_dim_ok; [|lia|cbn; intros [K|[K|[]]]; discriminate|cbn; repeat constructor; assumption].
  cbn [bind fst snd f_dims f_vars w_file w_entries app length]. reflexivity.
Qed.
Definition needed (when : list (string * bool)) (x : string) : bool :=
  match when with
  | [] => inb x vectors_first
  | [(c, true)] => (String.eqb c "at_least_order_r2" && inb x vectors_r2) || (String.eqb c "order_r3" && inb x vectors_r3)
                   || (String.eqb c "order_r2p1" && String.eqb x "lambda_for_XY3")
  | _ => false
  end.
Lemma active_same (e q : members) when : (forall c, In c when -> m_flag F e (fst c) = m_flag F q (fst c)) -> active F e when = active F q when.
Proof.
  intros H. unfold active. induction when as [|c when IH]; [reflexivity|]. cbn [forallb]. rewrite (H c (or_introl eq_refl)), IH; [reflexivity|].
  intros d Hd. apply H. right. exact Hd.
Qed.
Lemma active_one (e : members) c : active F e [(c, true)] = true -> m_flag F e c = true.
Proof. unfold active. cbn. destruct (m_flag F e c); [reflexivity|discriminate]. Qed.
Lemma needed_ok (q : members) n when x : needed when x = true -> active F q when = true ->
  required (m_flag F q "at_least_order_r2") (m_flag F q "order_r2p1") (m_flag F q "order_r3") n x [n].
Proof.
  unfold needed. destruct when as [|[c b] [|]]; [|destruct b; [|discriminate]|destruct b; discriminate]; intros H Ha.
  - apply req_first, inb_ok, H.
  - apply active_one in Ha. apply orb_prop in H as [H|H]; [apply orb_prop in H as [H|H]|]; apply andb_prop in H as [Hc H]; apply String.eqb_eq in Hc; subst c.
    + apply req_r2; [exact Ha|apply inb_ok, H].
    + apply req_r3; [exact Ha|apply inb_ok, H].
    + apply String.eqb_eq in H. subst x. apply req_r2p1. exact Ha.
Qed.
Lemma allocated_vector q when x : allocated F q -> needed when x = true -> active F q when = true ->
  length (m_array F q x) = Z.to_nat (m_int F q "nphi").
Proof.
  intros (H1 & H2 & H3 & H4 & H5 & H6) Hn Ha. specialize (H3 x _ (needed_ok q _ when x Hn Ha)). cbn in H3. lia.
Qed.
Definition arrays_written : list (list (string * bool) * string * list string) :=
  [([], "d_d_phi", ["nphi_dim"; "nphi_dim"]); ([], "d_d_varphi", ["nphi_dim"; "nphi_dim"]); ([], "grad_B_tensor", ["nphi_dim"; "nbt_dim"; "nbt_dim"]);
   ([("at_least_order_r2", true)], "grad_grad_B_tensor", ["nphi_dim"; "nbt_dim"; "nbt_dim"; "nbt_dim"])].
Definition array_eq_dec : forall a b : list (string * bool) * string * list string, {a = b} + {a <> b}.
Proof. repeat decide equality. Defined.
Definition qsc_put_ok (p : put) : bool :=
  let '(Put when name what) := p in
  match what with
  | SText x => String.eqb x "order_r_option"
  | SLit s => negb (String.eqb s "")
  | SInts _ _ => false
  | SVector d x => (String.eqb d "nphi_dim" && needed when x) || (String.eqb d "axis_nmax_plus_1_dim" && inb x axis_members)
  | SArray ds x => if in_dec array_eq_dec (when, x, ds) arrays_written then true else false
  | _ => true
  end.
Lemma qsc_writable q : allocated F q -> forall s, In s (statements F q qsc_puts) -> writable F (qsc_lens q) q (snd s).
Proof.
  intros A s Hs. apply statements_in in Hs as [when [Hin Ha]]. destruct s as [name what]. cbn [fst snd] in *.
  assert (C : forallb qsc_put_ok qsc_puts = true) by (vm_compute; reflexivity).
  rewrite forallb_forall in C. specialize (C _ Hin). unfold qsc_put_ok in C. pose proof A as (H1 & H2 & H3 & H4 & H5 & H6).
  assert (Nn : Z.to_nat (m_int F q "nphi") <> 0) by lia.
  destruct what as [x|x|x|x|x|x|x|d x|d x|ds x]; cbn [writable]; try exact I.
  - apply String.eqb_eq in C. subst x. exact H6.
  - intros ->. discriminate.
  - discriminate.
  - apply orb_prop in C as [C|C]; apply andb_prop in C as [Cd C]; apply String.eqb_eq in Cd; subst d; cbn [len_of qsc_lens String.eqb].
    + eexists. split; [reflexivity|]. rewrite (allocated_vector q when x A C Ha). lia.
    + eexists. split; [reflexivity|]. rewrite (H5 x) by (apply inb_ok, C). lia.
  - destruct (in_dec array_eq_dec (when, x, ds) arrays_written) as [Hi|]; [|discriminate]. cbn [arrays_written In] in Hi.
    destruct Hi as [Hi|[Hi|[Hi|[Hi|[]]]]]; injection Hi as <- <- <-; eexists; (split; [reflexivity|]); (split; [|cbn; repeat (apply Forall_cons; [first [assumption|discriminate]|]); apply Forall_nil]).
    all: cbn [fold_right].
    + specialize (H3 _ _ (req_ddphi _ _ _ _)). cbn [fold_right] in H3. nia.
    + specialize (H3 _ _ (req_ddvarphi _ _ _ _)). cbn [fold_right] in H3. nia.
    + specialize (H3 _ _ (req_gradB _ _ _ _)). cbn [fold_right] in H3. nia.
    + apply active_one in Ha. specialize (H3 _ _ (req_ggB _ _ _ _ Ha)). cbn [fold_right] in H3. nia.
Qed.
Lemma qsc_names : NoDup (map put_name qsc_puts).
Proof. apply nodup_check_ok. vm_compute. reflexivity. Qed.
(** The file written for a configuration: exactly the variables of the table, with the values of the members. *)
Lemma qsc_written q : allocated F q ->
  exists f, qsc_write q = Ok f /\ contains_exactly F of_int (qsc_lens q) q [] (statements F q qsc_puts) f
    /\ (exists x, f_dims F f = (qsc_base q ++ x)%list /\ Forall (fun d => exists k, k <> 0 /\ d = (dim_str k, k)) x)
    /\ (forall n k, In (dim_str k, n) (f_dims F f) -> n = k).
Proof.
  intros A. apply (write_file_ok F of_int q (new_writer F) qsc_dims qsc_puts _ _ (qsc_lens q) (qsc_run_dims q A)).
  - reflexivity.
  - cbn [w_file f_dims]. intros x n H. cbn [len_of qsc_lens] in H.
    destruct (String.eqb_spec x "nphi_dim") as [->|]; [injection H as <-; exists 0; eexists; split; reflexivity|].
    destruct (String.eqb_spec x "axis_nmax_plus_1_dim") as [->|]; [injection H as <-; exists 1; eexists; split; reflexivity|].
    destruct (String.eqb_spec x "nbt_dim") as [->|]; [injection H as <-; exists 2; eexists; split; reflexivity|]. discriminate.
  - cbn [w_file f_dims]. apply dims_texts. reflexivity.
  - cbn [w_file f_vars map app]. apply statements_nodup, qsc_names.
  - apply qsc_writable, A.
Qed.
Lemma qsc_read q f name what c : allocated F q -> contains_exactly F of_int (qsc_lens q) q [] (statements F q qsc_puts) f ->
  In (name, what) (statements F q qsc_puts) -> denotes F of_int (qsc_lens q) q what = Some c -> read F f name = Ok c.
Proof. intros A C Hs Hd. apply (contains_read F of_int _ _ _ _ _ (name, what) _ C); [|exact Hs|exact Hd]. cbn [map app]. apply statements_nodup, qsc_names. Qed.

Definition source_of (t : target) : source := match t with TInt x => SInt x | TFloat x => SFloat x | TVector x => SVector "nphi_dim" x end.
Definition put_eq_dec : forall a b : put, {a = b} + {a <> b}.
Proof. repeat decide equality. Defined.
Lemma in_puts p l : (if in_dec put_eq_dec p l then true else false) = true -> In p l.
Proof. destruct (in_dec put_eq_dec p l); [auto|discriminate]. Qed.
Definition get_eq_dec : forall a b : get, {a = b} + {a <> b}.
Proof. repeat decide equality. Defined.
Definition get_covered (g : get) : bool :=
  let '(Get when name t) := g in
  (if in_dec put_eq_dec (Put when name (source_of t)) qsc_puts then true else false) && match t with TVector x => needed when x | _ => true end.
Lemma gets_covered when name t : In (Get when name t) qsc_gets ->
  In (Put when name (source_of t)) qsc_puts /\ match t with TVector x => needed when x = true | _ => True end.
Proof.
  assert (C : forallb get_covered qsc_gets = true) by (vm_compute; reflexivity). rewrite forallb_forall in C. intros H. specialize (C _ H).
  unfold get_covered in C. apply andb_prop in C as [C1 C2]. destruct (in_dec put_eq_dec _ _); [|discriminate]. split; [assumption|]. destruct t; auto.
Qed.
Lemma needed_resized (e : members) when x : needed when x = true -> active F e when = true ->
  existsb (String.eqb x) (resized (m_flag F e "at_least_order_r2") (m_flag F e "order_r2p1") (m_flag F e "order_r3")) = true.
Proof.
  intros Hn Ha. change (inb x (resized (m_flag F e "at_least_order_r2") (m_flag F e "order_r2p1") (m_flag F e "order_r3")) = true). apply inb_ok.
  assert (S : forall l l', forallb (fun y => inb y l') l = true -> forall y, In y l -> In y l').
  { intros l l' H y Hy. rewrite forallb_forall in H. apply inb_ok. auto. }
  unfold resized. rewrite !map_app. unfold needed in Hn.
  destruct when as [|[c b] [|]]; [|destruct b; [|discriminate]|destruct b; discriminate].
  - apply in_or_app. left. apply (S vectors_first); [vm_compute; reflexivity|apply inb_ok, Hn].
  - apply active_one in Ha. apply orb_prop in Hn as [H|H]; [apply orb_prop in H as [H|H]|]; apply andb_prop in H as [Hc H]; apply String.eqb_eq in Hc; subst c; rewrite Ha.
    + apply in_or_app; right. apply in_or_app; left. apply (S vectors_r2); [vm_compute; reflexivity|apply inb_ok, H].
    + apply in_or_app; right. apply in_or_app; right. apply in_or_app; right. apply (S vectors_r3); [vm_compute; reflexivity|apply inb_ok, H].
    + apply in_or_app; right. apply in_or_app; right. apply in_or_app; left. apply String.eqb_eq in H. subst x. left. reflexivity.
Qed.

(** C60.  A file written for a configuration can be read into any object [p]; the object then has the orders of the expansion, the number of grid points
    and all quantities that read_netcdf reads of the configuration that was written. *)
Theorem qsc_round_trip : forall q, allocated F q ->
  exists f, qsc_write q = Ok f /\
    forall p, exists p', read_C f p = Ok p' /\
      (forall x, In x ["at_least_order_r2"; "order_r2p1"; "order_r3"] -> m_flag F p' x = m_flag F q x) /\
      (forall x, In x ("nphi" :: restored_ints) -> m_int F p' x = m_int F q x) /\
      (forall x, In x restored_numbers -> m_float F p' x = m_float F q x) /\
      (forall x, In x restored_vectors -> m_array F p' x = m_array F q x) /\
      (m_flag F q "at_least_order_r2" = true ->
        (forall x, In x restored_numbers_r2 -> m_float F p' x = m_float F q x) /\ (forall x, In x restored_vectors_r2 -> m_array F p' x = m_array F q x)) /\
      (m_flag F q "order_r3" = true -> forall x, In x restored_vectors_r3 -> m_array F p' x = m_array F q x).
Proof.
  intros q A. destruct (qsc_written q A) as [f [Hw [C _]]]. exists f. split; [exact Hw|]. intros p.
  pose proof A as (A1 & A2 & A3 & A4 & A5 & A6).
  assert (RF : forall name x, In (Put [] name (SFlag x)) qsc_puts -> get_int F to_int f name = Ok (if m_flag F q x then 1 else 0)%Z).
  { intros name x H. unfold get_int. rewrite (qsc_read q f name (SFlag x) (Ints [if m_flag F q x then 1 else 0]%Z) A C); [reflexivity| |reflexivity].
    apply (in_statements F q qsc_puts [] _ _ H). reflexivity. }
  assert (RI : get_int F to_int f "nphi" = Ok (m_int F q "nphi")).
  { unfold get_int. rewrite (qsc_read q f "nphi" (SInt "nphi") (Ints [m_int F q "nphi"]) A C); [reflexivity| |reflexivity].
    apply (in_statements F q qsc_puts []); [|reflexivity]. apply in_puts. vm_compute. reflexivity. }
  unfold read_netcdf_C. rewrite RI. cbn [bind].
  rewrite (RF "at_least_order_r2" "at_least_order_r2") by (apply in_puts; vm_compute; reflexivity). cbn [bind].
  rewrite (RF "order_r2.1" "order_r2p1") by (apply in_puts; vm_compute; reflexivity). cbn [bind].
  rewrite (RF "order_r3" "order_r3") by (apply in_puts; vm_compute; reflexivity). cbn [bind].
  match goal with |- context [allocate_members F zero ?e] => set (e1 := e) end.
  assert (Fl : forall x, In x ["at_least_order_r2"; "order_r2p1"; "order_r3"] -> m_flag F e1 x = m_flag F q x).
  { intros x [<-|[<-|[<-|[]]]]; unfold e1, set; cbn [m_flag String.eqb Ascii.eqb Bool.eqb];
      match goal with |- context [if m_flag F q ?y then _ else _] => destruct (m_flag F q y); reflexivity end. }
  assert (Np : m_int F e1 "nphi" = m_int F q "nphi") by (unfold e1; cbn [m_int]; apply set_same).
  assert (Od : odd_nphi (m_int F q "nphi") = m_int F q "nphi") by (destruct (odd_nphi_least (m_int F q "nphi")) as [[E _]|[_ E]]; [exact E|congruence]).
  unfold allocate_members. rewrite !Fl, Np by (cbn; tauto).
  match goal with |- context [Alloc.allocate ?a ?b ?c ?d ?sh] => destruct (allocate_required a b c d sh) as [sh' [Ea [Hreq _]]]; [rewrite Od; lia|] end.
  rewrite Ea, Od in *. cbn [bind fst snd].
  match goal with |- context [run_gets F to_int of_int f ?e qsc_gets] => set (e2 := e) end.
  assert (Fl2 : m_flag F e2 = m_flag F e1) by reflexivity.
  assert (Act : forall when name t, In (Get when name t) qsc_gets -> active F e2 when = active F q when).
  { intros when name t H.
    assert (K : forallb (fun g => let '(Get w _ _) := g in forallb (fun c => inb (fst c) ["at_least_order_r2"; "order_r2p1"; "order_r3"]) w) qsc_gets = true)
      by (vm_compute; reflexivity).
    rewrite forallb_forall in K. specialize (K _ H). cbv beta iota in K. rewrite forallb_forall in K. apply active_same.
    intros c Hc. rewrite Fl2. apply Fl, inb_ok, K, Hc. }
  destruct (run_gets_ok F to_int of_int f q qsc_gets e2) as [p' [H1 [H2 [H3 H4]]]].
  - intros when name t H Ha. rewrite (Act _ _ _ H) in Ha. destruct (gets_covered when name t H) as [G1 G2].
    pose proof (in_statements F q qsc_puts _ _ _ G1 Ha) as G3.
    destruct t as [x|x|x]; cbn [readable source_of] in *; apply (qsc_read q f name _ _ A C G3); cbn [denotes len_of qsc_lens String.eqb option_map]; try reflexivity.
    cbn. rewrite firstn_all2; [reflexivity|]. rewrite (allocated_vector q when x A G2 Ha). lia.
  - intros when name t H Ha. rewrite (Act _ _ _ H) in Ha. destruct (gets_covered when name t H) as [_ G2].
    destruct t as [x|x|x]; cbn [sized]; try exact I. unfold e2. cbn [m_array]. rewrite (needed_resized q when x G2 Ha).
    rewrite repeat_length, (Hreq x _ (needed_ok q _ when x G2 Ha)), (allocated_vector q when x A G2 Ha). cbn [fold_right]. lia.
  - exists p'. split; [exact H1|].
    assert (T : forall when name t, (if in_dec get_eq_dec (Get when name t) qsc_gets then true else false) = true -> active F q when = true -> agrees F q p' t).
    { intros when name t Hi Ha. destruct (in_dec get_eq_dec (Get when name t) qsc_gets) as [Hg|]; [|discriminate]. apply (H4 when name t Hg).
      rewrite (Act _ _ _ Hg). exact Ha. }
    assert (T' : forall when (mk : string -> target) l, forallb (fun x => if in_dec get_eq_dec (Get when x (mk x)) qsc_gets then true else false) l = true ->
      active F q when = true -> forall x, In x l -> agrees F q p' (mk x)).
    { intros when mk l Hl Ha x Hx. rewrite forallb_forall in Hl. exact (T when x (mk x) (Hl x Hx) Ha). }
    split; [intros x Hx; rewrite H2, Fl2; apply Fl, Hx|].
    split.
    { intros x [<-|Hx].
      - apply (H3 (TInt "nphi")). unfold e2. cbn [agrees m_int]. apply set_same.
      - apply (T' [] TInt restored_ints); [vm_compute; reflexivity|reflexivity|exact Hx]. }
    split; [apply (T' [] TFloat restored_numbers); [vm_compute; reflexivity|reflexivity]|].
    split; [apply (T' [] TVector restored_vectors); [vm_compute; reflexivity|reflexivity]|].
    split.
    + intros Hr2. assert (Ha : active F q [("at_least_order_r2", true)] = true) by (unfold active; cbn; rewrite Hr2; reflexivity).
      split; [apply (T' [("at_least_order_r2", true)] TFloat restored_numbers_r2)|apply (T' [("at_least_order_r2", true)] TVector restored_vectors_r2)]; try exact Ha; vm_compute; reflexivity.
    + intros Hr3. assert (Ha : active F q [("order_r3", true)] = true) by (unfold active; cbn; rewrite Hr3; reflexivity).
      apply (T' [("order_r3", true)] TVector restored_vectors_r3); [vm_compute; reflexivity|exact Ha].
Qed.

(** ** C59: layout *)
(** An array of any rank written by put: element (i1, ..., ir) of the program is element [ir]...[i1] of the variable in the file. *)
Theorem put_array_layout : forall (f0 : file) ids name data lens,
  ~ In name (map (v_name F) (f_vars F f0)) -> (forall n k, In (dim_str k, n) (f_dims F f0) -> n = k) ->
  lengths F f0 ids = Some lens -> Forall (fun n => n <> 0) (removelast lens) -> fold_right Nat.mul 1 lens <= length data ->
  exists w f, put_array F (append_writer F f0) ids name data = Ok w /\ write_and_close F w = Ok f /\
    forall idx x, in_range lens idx -> nth_error data (column_major lens idx) = Some x -> element F f name (rev idx) x.
Proof.
  intros f0 ids name data lens N T Hl Hz Hd. unfold put_array.
  destruct (define_inv F (f_dims F f0) (f_vars F f0) [] (append_writer F f0) name (rev ids) (Floats data) (Floats (firstn (fold_right Nat.mul 1 lens) data)) (rev lens))
    as [w [H1 H2]].
  - constructor; cbn [append_writer w_file w_entries map length]; [exists []; split; [now rewrite app_nil_r|constructor]|exact T|now rewrite app_nil_r|reflexivity|constructor].
  - exact N.
  - intros [].
  - apply lengths_rev. exact Hl.
  - rewrite tl_rev. apply Forall_rev. exact Hz.
  - rewrite product_rev. unfold product, first_elements. destruct (Nat.leb_spec (fold_right Nat.mul 1 lens) (length data)); [reflexivity|lia].
  - exists w. destruct H2 as [Hdim Ht Hv He Hi]. cbn [app] in *.
    eexists. split; [exact H1|]. unfold write_and_close. rewrite He, (write_all_items F _ _ _ Hv Hi). split; [reflexivity|].
    intros idx x Hr Hx. inversion Hi as [|? ? [Hs _] _]; subst. cbn [i_ids i_shape] in Hs.
    eexists _, _, (rev lens). split; [cbn [f_vars map]; apply in_or_app; right; left; reflexivity|].
    split; [reflexivity|]. split; [reflexivity|]. split.
    + cbn [item_written v_dims i_ids]. eapply lengths_dims; [exact Hs|]. exists []. cbn. now rewrite app_nil_r.
    + split; [apply in_range_rev; exact Hr|]. rewrite layout_rev by (apply in_range_length; exact Hr).
      rewrite nth_error_firstn by (apply column_major_bound; exact Hr). exact Hx.
Qed.
(** The indices of the program's classes of arrays. *)
Lemma aget_nth {A} (l : list A) i x : aget l i = Ok x -> nth_error l i = Some x.
Proof. unfold aget. destruct (nth_error l i); [|discriminate]. intros H. now injection H as ->. Qed.
Theorem matrix_layout : forall (f0 : file) d1 d2 name (M : matrix F),
  ~ In name (map (v_name F) (f_vars F f0)) -> (forall n k, In (dim_str k, n) (f_dims F f0) -> n = k) ->
  lengths F f0 [d1; d2] = Some [m_nrows M; m_ncols M] -> length (m_data M) = m_nrows M * m_ncols M -> m_nrows M <> 0 ->
  exists w f, put_array F (append_writer F f0) [d1; d2] name (m_data M) = Ok w /\ write_and_close F w = Ok f /\
    forall i j x, i < m_nrows M -> j < m_ncols M -> matrix_get M i j = Ok x -> element F f name [j; i] x.
Proof.
  intros f0 d1 d2 name M N T Hl Hd Hz.
  destruct (put_array_layout f0 [d1; d2] name (m_data M) _ N T Hl) as [w [f [H1 [H2 H3]]]].
  - repeat constructor. exact Hz.
  - cbn [fold_right]. rewrite Hd. lia.
  - exists w, f. split; [exact H1|]. split; [exact H2|]. intros i j x Hi Hj Hx. apply (H3 [i; j] x); [repeat constructor; assumption|].
    apply aget_nth in Hx. unfold matrix_index in Hx. cbn [column_major]. rewrite <- Hx. f_equal. lia.
Qed.
(** The arrays of several dimensions in the file of a configuration. *)
Theorem qsc_layout : forall q f (D V : matrix F) (G : tensor3 F) (H : tensor4 F), allocated F q -> qsc_write q = Ok f ->
  let n := Z.to_nat (m_int F q "nphi") in
  m_array F q "d_d_phi" = m_data D -> m_nrows D = n -> m_array F q "d_d_varphi" = m_data V -> m_nrows V = n ->
  m_array F q "grad_B_tensor" = t3_data G -> t3_d1 G = n -> t3_d2 G = 3 ->
  m_array F q "grad_grad_B_tensor" = t4_data H -> t4_d1 H = n -> t4_d2 H = 3 -> t4_d3 H = 3 ->
  (forall i j x, i < n -> j < n -> matrix_get D i j = Ok x -> element F f "d_d_phi" [j; i] x) /\
  (forall i j x, i < n -> j < n -> matrix_get V i j = Ok x -> element F f "d_d_varphi" [j; i] x) /\
  (forall i j k x, i < n -> j < 3 -> k < 3 -> t3_get G i j k = Ok x -> element F f "grad_B_tensor" [k; j; i] x) /\
  (m_flag F q "at_least_order_r2" = true ->
    forall i j k l x, i < n -> j < 3 -> k < 3 -> l < 3 -> t4_get H i j k l = Ok x -> element F f "grad_grad_B_tensor" [l; k; j; i] x).
Proof.
  intros q f D V G H A Hw n D1 D2 V1 V2 G1 G2 G3 T1 T2 T3 T4. destruct (qsc_written q A) as [f' [Hw' [C _]]]. rewrite Hw in Hw'. injection Hw' as <-.
  assert (E : forall when name ds ns idx x, active F q when = true -> In (Put when name (SArray ds name)) qsc_puts -> lens_of (qsc_lens q) ds = Some ns ->
    in_range ns idx -> nth_error (m_array F q name) (column_major ns idx) = Some x -> element F f name (rev idx) x).
  { intros when name ds ns idx x Ha Hi Hl Hr Hx. exact (contains_element F of_int _ _ _ _ _ _ _ _ _ _ _ C (in_statements F q _ _ _ _ Hi Ha) Hl Hr Hx). }
  split; [|split; [|split]].
  - intros i j x Hi Hj Hx. apply (E [] "d_d_phi" ["nphi_dim"; "nphi_dim"] [n; n] [i; j] x);
      [reflexivity|apply in_puts; vm_compute; reflexivity|reflexivity|repeat (apply Forall2_cons; [assumption|]); apply Forall2_nil|].
    rewrite D1. apply aget_nth in Hx. unfold matrix_index in Hx. rewrite D2 in Hx. cbn [column_major]. rewrite <- Hx. f_equal. lia.
  - intros i j x Hi Hj Hx. apply (E [] "d_d_varphi" ["nphi_dim"; "nphi_dim"] [n; n] [i; j] x);
      [reflexivity|apply in_puts; vm_compute; reflexivity|reflexivity|repeat (apply Forall2_cons; [assumption|]); apply Forall2_nil|].
    rewrite V1. apply aget_nth in Hx. unfold matrix_index in Hx. rewrite V2 in Hx. cbn [column_major]. rewrite <- Hx. f_equal. lia.
  - intros i j k x Hi Hj Hk Hx. apply (E [] "grad_B_tensor" ["nphi_dim"; "nbt_dim"; "nbt_dim"] [n; 3; 3] [i; j; k] x);
      [reflexivity|apply in_puts; vm_compute; reflexivity|reflexivity|repeat (apply Forall2_cons; [assumption|]); apply Forall2_nil|].
    rewrite G1. apply aget_nth in Hx. unfold t3_index in Hx. rewrite G2, G3 in Hx. cbn [column_major]. rewrite <- Hx. f_equal. lia.
  - intros Hr i j k l x Hi Hj Hk Hll Hx.
    apply (E [("at_least_order_r2", true)] "grad_grad_B_tensor" ["nphi_dim"; "nbt_dim"; "nbt_dim"; "nbt_dim"] [n; 3; 3; 3] [i; j; k; l] x);
      [unfold active; cbn; rewrite Hr; reflexivity|apply in_puts; vm_compute; reflexivity|reflexivity|repeat (apply Forall2_cons; [assumption|]); apply Forall2_nil|].
    rewrite T1. apply aget_nth in Hx. unfold t4_index in Hx. rewrite T2, T3, T4 in Hx. cbn [column_major]. rewrite <- Hx. f_equal. lia.
Qed.

(** ** C61: the history of an optimization *)
Definition opt_lens (q e : members) : list (string * nat) :=
  [("axis_nmax_plus_1_dim", length (m_array F q "R0c")); ("n_iter_dim", Z.to_nat (m_int F e "n_iter"))].
Lemma opt_run_dims (q e : members) (fq : file) x : allocated F q -> (0 <= m_int F e "n_iter")%Z ->
  f_dims F fq = (qsc_base q ++ x)%list -> Forall (fun d => exists k, k <> 0 /\ d = (dim_str k, k)) x ->
  run_dims F e ([], append_writer F fq) opt_dims
  = Ok ([("n_iter_dim", length (f_dims F fq)); ("axis_nmax_plus_1_dim", 1)],
        mkW F (mkFile F (f_dims F fq ++ [("n_iter", Z.to_nat (m_int F e "n_iter"))])%list (f_vars F fq)) []).
Proof.
  intros (H1 & H2 & H3 & H4 & H5 & H6) Hn Hd Hx. unfold opt_dims. cbn [run_dims run_dim fst snd dim_size append_writer].   assert (G : get_dim F (append_writer F fq) "axis_nmax_plus_1" = Ok 1).
  { unfold get_dim, inq_dimid. cbn [append_writer w_file]. rewrite Hd. reflexivity. }
  rewrite G. cbn [bind fst snd]. unfold dim. cbn [append_writer w_file w_entries]. rewrite def_dim_ok.
  - cbn [bind fst snd]. reflexivity.
  - exact Hn.
  - rewrite Hd, map_app. intros K. apply in_app_or in K as [K|K].
    + cbn in K. destruct K as [K|[K|[K|[]]]]; discriminate.
    + apply in_map_iff in K as [d [E K]]. rewrite Forall_forall in Hx. destruct (Hx d K) as [k [_ ->]]. cbn [fst] in E.
      exact (not_text_ok "n_iter" k eq_refl (eq_sym E)).
  - intros _. rewrite Hd. apply Forall_app. split.
    + unfold qsc_base. constructor; [cbn; lia|]. constructor; [exact H4|]. constructor; [cbn; lia|constructor].
    + eapply Forall_impl; [|exact Hx]. intros d [k [Hk ->]]. exact Hk.
Qed.
Lemma nodup_sub {A} (a b a' b' : list A) : NoDup (a ++ b)%list -> NoDup a' -> NoDup b' -> (forall x, In x a' -> In x a) -> (forall x, In x b' -> In x b) ->
  NoDup (a' ++ b')%list.
Proof.
  intros ND Na Nb Ha Hb. induction a' as [|x a' IH]; cbn [app]; [exact Nb|]. inversion Na as [|? ? Hx Na']; subst. constructor.
  - intros K. apply in_app_or in K as [K|K]; [contradiction|]. specialize (Ha x (or_introl eq_refl)). specialize (Hb x K).
    clear - ND Ha Hb. induction a as [|y a IH]; [destruct Ha|]. cbn [app] in ND. inversion ND as [|? ? Hy ND']; subst. destruct Ha as [->|Ha].
    + apply Hy. apply in_or_app. right. exact Hb.
    + auto.
  - apply IH; [exact Na'|]. intros y Hy. apply Ha. right. exact Hy.
Qed.
Lemma qsc_opt_names : NoDup (map put_name qsc_puts ++ map put_name opt_puts)%list.
Proof. rewrite <- map_app. apply nodup_check_ok. vm_compute. reflexivity. Qed.
Lemma opt_names : NoDup (map put_name opt_puts).
Proof. apply nodup_check_ok. vm_compute. reflexivity. Qed.
(** The file of an optimization: the variables of the configuration, and exactly the variables of the table. *)
Lemma opt_written (q e : members) : allocated F q -> (0 <= m_int F e "n_iter")%Z ->
  (forall s, In s (statements F e opt_puts) -> writable F (opt_lens q e) e (snd s)) ->
  exists fq f, qsc_write q = Ok fq /\ contains_exactly F of_int (qsc_lens q) q [] (statements F q qsc_puts) fq /\ opt_write q e = Ok f /\
    contains_exactly F of_int (opt_lens q e) e (f_vars F fq) (statements F e opt_puts) f /\
    NoDup (map (v_name F) (f_vars F fq) ++ map fst (statements F e opt_puts))%list.
Proof.
  intros A Hn W. destruct (qsc_written q A) as [fq [H1 [H2 [[x [Hx1 Hx2]] H4]]]]. exists fq.
  pose proof (opt_run_dims q e fq x A Hn Hx1 Hx2) as Hd.
  assert (ND : NoDup (map (v_name F) (f_vars F fq) ++ map fst (statements F e opt_puts))%list).
  { rewrite (contains_names F of_int _ _ _ _ _ H2). cbn [map app].
    destruct (statements_nodup F q qsc_puts qsc_names) as [N1 N2]. destruct (statements_nodup F e opt_puts opt_names) as [N3 N4].
    exact (nodup_sub _ _ _ _ qsc_opt_names N1 N3 N2 N4). }
  destruct (write_file_ok F of_int e (append_writer F fq) opt_dims opt_puts _ _ (opt_lens q e) Hd) as [f [G1 [G2 _]]].
  - reflexivity.
  - cbn [w_file f_dims]. intros y n Hy. cbn [len_of opt_lens] in Hy.
    destruct (String.eqb_spec y "axis_nmax_plus_1_dim") as [->|].
    { injection Hy as <-. exists 1. eexists. split; [reflexivity|]. rewrite Hx1. reflexivity. }
    destruct (String.eqb_spec y "n_iter_dim") as [->|]; [|discriminate].
    injection Hy as <-. exists (length (f_dims F fq)). eexists. split; [reflexivity|]. rewrite nth_error_app2 by apply le_n. rewrite Nat.sub_diag. reflexivity.
  - cbn [w_file f_dims]. intros n k K. apply in_app_or in K as [K|[K|[]]]; [eauto|].
    exfalso. assert (K' := f_equal fst K). cbn [fst] in K'. exact (not_text_ok "n_iter" k eq_refl K').
  - exact ND.
  - exact W.
  - exists f. unfold opt_write_netcdf. rewrite H1. cbn [bind]. auto.
Qed.
(** The boolean check that a table has the variables of a list. *)
Definition kind_of (what : source) : kind :=
  match what with
  | SText _ | SLit _ => KText | SInts d _ | SVector d _ => KArray [d] | SArray ds _ => KArray ds | _ => KScalar
  end.
Definition triple_eq_dec : forall a b : list (string * bool) * string * kind, {a = b} + {a <> b}.
Proof. repeat decide equality. Defined.
Definition triples_of_puts (l : list put) := map (fun p => let '(Put when name what) := p in (when, name, kind_of what)) l.
Definition triples_of_groups (l : list group) := flat_map (fun g => map (fun name => (fst (fst g), name, snd (fst g))) (snd g)) l.
Definition same_triples (a b : list (list (string * bool) * string * kind)) : bool :=
  forallb (fun x => if in_dec triple_eq_dec x b then true else false) a && forallb (fun x => if in_dec triple_eq_dec x a then true else false) b.
Lemma has_variables_ok lens (e : members) old puts groups f new : contains_exactly F of_int lens e old (statements F e puts) f ->
  f_vars F f = (old ++ new)%list -> same_triples (triples_of_puts puts) (triples_of_groups groups) = true ->
  has_variables F lens e groups f new.
Proof.
  intros [new' [E H]] E' S. rewrite E in E'. apply app_inv_head in E'. subst new'. apply andb_prop in S as [S1 S2].
  rewrite forallb_forall in S1, S2. split.
  - intros when k names name Hg Ha Hn. specialize (S2 (when, name, k)).
    destruct (in_dec triple_eq_dec (when, name, k) (triples_of_puts puts)) as [I|].
    2:{ discriminate S2. unfold triples_of_groups. apply in_flat_map. exists (when, k, names). split; [exact Hg|]. cbn [fst snd].
        apply (in_map (fun name => (when, name, k))). exact Hn. }
    unfold triples_of_puts in I. apply in_map_iff in I as [[w nm wh] [Et Hp]]. injection Et as -> -> Ek.
    pose proof (in_statements F e puts _ _ _ Hp Ha) as Hs. clear - H Hs.
    induction H as [|s v l l' Hh _ IH]; [destruct Hs|]. destruct Hs as [->|Hs]; [exists v; split; [left; reflexivity|apply Hh]|].
    destruct (IH Hs) as [v' [H1 H2]]. exists v'. split; [right; exact H1|exact H2].
  - intros v Hv. assert (G : exists s, In s (statements F e puts) /\ v_name F v = fst s /\ lengths F f (v_dims F v) = shape F lens e (snd s) /\ denotes F of_int lens e (snd s) <> None).
    { clear - H Hv. induction H as [|s u l l' Hh _ IH]; [destruct Hv|]. destruct Hv as [->|Hv].
      - exists s. destruct Hh as (A & B & C & D). rewrite B in C. repeat split; auto. left. reflexivity.
      - destruct (IH Hv) as [s' [H1 H2]]. exists s'. split; [right; exact H1|exact H2]. }
    destruct G as [s [Hs [Hn [Hl Hd]]]]. destruct (statements_in F e puts s Hs) as [when [Hp Ha]].
    specialize (S1 (when, fst s, kind_of (snd s))). destruct (in_dec triple_eq_dec (when, fst s, kind_of (snd s)) (triples_of_groups groups)) as [I|].
    2:{ discriminate S1. unfold triples_of_puts. apply in_map_iff. exists (Put when (fst s) (snd s)). split; [reflexivity|exact Hp]. }
    unfold triples_of_groups in I. apply in_flat_map in I as [[[w k] names] [Hg I]]. cbn [fst snd] in I. apply in_map_iff in I as [n [Et I]]. injection Et as -> -> ->.
    exists when, (kind_of (snd s)), names. split; [exact Hg|]. split; [exact Ha|]. split; [rewrite Hn; exact I|].
    destruct (snd s) as [x|x|x|x|x|x|x|d x|d x|ds x]; cbn [shape denotes kind_of] in *; rewrite Hl; try (eexists; split; reflexivity).
    + destruct (len_of lens d) as [n|] eqn:En; [|now destruct Hd]. eexists. split; [reflexivity|]. cbn. rewrite En. reflexivity.
    + destruct (len_of lens d) as [n|] eqn:En; [|now destruct Hd]. eexists. split; [reflexivity|]. cbn. rewrite En. reflexivity.
    + destruct (lens_of lens ds) as [l|] eqn:En; [|now destruct Hd]. eexists. split; [reflexivity|]. rewrite rev_involutive. reflexivity.
Qed.
Lemma contains_vector lens (e : members) old l f name d a n i x : contains_exactly F of_int lens e old l f ->
  In (name, SVector d a) l -> len_of lens d = Some n -> i < n -> nth_error (m_array F e a) i = Some x -> element F f name [i] x.
Proof.
  intros C Hs Hl Hr Hx. destruct (contains_var F of_int _ _ _ _ _ _ C Hs) as [v [c [H1 [H2 [H3 [H4 H5]]]]]]. cbn [fst snd denotes shape] in *.
  rewrite Hl in H3, H5. injection H3 as <-. eexists v, _, [n]. split; [exact H1|]. split; [exact H2|]. split; [exact H4|]. split; [exact H5|].
  split; [constructor; [exact Hr|constructor]|]. cbn [row_major fold_right]. rewrite Nat.mul_1_r, Nat.add_0_r, nth_error_firstn by exact Hr. exact Hx.
Qed.
End Files.

Section History.
Context {F : Type} (o : fops F) (fsqrt : F -> F) (of_Z : Z -> F) {Y : Type}.
Notation opt := (@stage F (@rest F Y)).
Variable rt : @routines F Y.
Variable gsl : nat -> opt -> Z -> list F -> list (@event F).
Variable junk : nat -> list F.
Variable of_int : Z -> F.
Notation run := (run_opt o fsqrt of_Z rt gsl junk).

(** The object that is written is the one that run leaves: [q], the configuration, and [e], the members of the optimization. *)
Definition holds_history (s : opt) (q e : members F) : Prop :=
  m_array F q "R0c" = qo_R0c (st_q s) /\ m_int F e "n_iter" = Z.of_nat (r_n_iter (st_rest s)) /\
  m_ints F e "iter_fourier_refine_step" = r_iter_fourier_refine_step (st_rest s) /\
  (forall m v, In (m, v) (recorded s) -> m_array F e m = st_iter s m) /\
  (forall n a, In (n, a) recorded_axes -> m_array F e n = m_data (st_iter_axis s n)).

Definition recorded_names : list string :=
  ["iter_objective_function"; "iter_B20_term"; "iter_iota_term"; "iter_elongation_term"; "iter_curvature_term"; "iter_R0_term"; "iter_d2_volume_d_psi2_term";
   "iter_DMerc_times_r2_term"; "iter_XY2_term"; "iter_XY2Prime_term"; "iter_XY2PrimePrime_term"; "iter_Z2_term"; "iter_Z2Prime_term"; "iter_XY3_term";
   "iter_XY3Prime_term"; "iter_XY3PrimePrime_term"; "iter_grad_B_term"; "iter_grad_grad_B_term"; "iter_r_singularity_term"; "iter_axis_length_term";
   "iter_standard_deviation_of_R_term"; "iter_B20_mean_term"; "iter_eta_bar"; "iter_sigma0"; "iter_B2c"; "iter_B2s"; "iter_iota"; "iter_B20_residual";
   "iter_d2_volume_d_psi2"; "iter_DMerc_times_r2"; "iter_standard_deviation_of_R"; "iter_standard_deviation_of_Z"; "iter_axis_length"; "iter_min_R0";
   "iter_max_curvature"; "iter_max_elongation"; "iter_min_L_grad_B"; "iter_min_L_grad_grad_B"; "iter_r_singularity"; "iter_B20_variation"].
Lemma recorded_names_ok (s : opt) : map fst (recorded s) = recorded_names.
Proof. reflexivity. Qed.
Lemma in_recorded (s : opt) m : In m recorded_names -> exists v, In (m, v) (recorded s).
Proof. rewrite <- (recorded_names_ok s). intros H. apply in_map_iff in H as [[m' v] [E H]]. cbn [fst] in E. subst. eauto. Qed.
Definition vector_written (m : string) : bool :=
  String.eqb m "iter_curvature_term" || (if in_dec put_eq_dec (Put [] m (SVector "n_iter_dim" m)) opt_puts then true else false).
Lemma vectors_written m : In m recorded_names -> m <> "iter_curvature_term" -> In (Put [] m (SVector "n_iter_dim" m)) opt_puts.
Proof.
  intros H N. assert (E : forallb vector_written recorded_names = true) by (vm_compute; reflexivity).
  rewrite forallb_forall in E. specialize (E m H). unfold vector_written in E. destruct (String.eqb_spec m "iter_curvature_term"); [contradiction|].
  exact (in_puts _ _ E).
Qed.
Definition opt_source_ok (p : put) : bool :=
  let '(Put when name what) := p in
  match what with
  | SVector d x => String.eqb d "n_iter_dim" && inb x recorded_names
  | SInts d x => String.eqb d "n_iter_dim" && String.eqb x "iter_fourier_refine_step"
  | SArray [d1; d2] x => String.eqb d1 "axis_nmax_plus_1_dim" && String.eqb d2 "n_iter_dim" && inb x (map fst recorded_axes)
  | SInt _ | SFloat _ => true
  | _ => false
  end.
Lemma opt_sources_ok : forallb opt_source_ok opt_puts = true.
Proof. vm_compute. reflexivity. Qed.

Theorem optimization_file_partial : forall (s s' : opt) (l : log) (q e : members F),
  called_ok rt gsl junk -> input_ok s -> run s = Ok (s', l) -> allocated F q -> holds_history s' q e ->
  exists fq f, qsc_write_netcdf F of_int q = Ok fq /\ opt_write_netcdf F of_int q e = Ok f /\
    (* the variables of the configuration are kept *)
    (exists new, f_vars F f = (f_vars F fq ++ new)%list /\ NoDup (map (v_name F) (f_vars F fq ++ new)%list) /\
      has_variables F [("axis_nmax_plus_1_dim", n_modes s + st_fourier_refine s); ("n_iter_dim", length (filter fst l))] e history_variables f new) /\
    (* entry i of each variable is the quantity of this name of the i-th configuration reported *)
    forall i r, nth_error (map snd (filter fst l)) i = Some r ->
      (forall m v, In (m, v) (recorded r) -> m <> "iter_curvature_term" -> element F f m [i] v) /\
      (forall v, In ("iter_elongation_term", v) (recorded r) -> element F f "iter_curvature_term" [i] v) /\
      (forall n a k v, In (n, a) recorded_axes -> nth_error (get_axis (st_q r) a) k = Some v -> element F f n [i; k] v) /\
      (exists v, In v (f_vars F f) /\ v_name F v = "iter_fourier_refine_step" /\
        exists c, v_contents F v = Some (Ints c) /\ nth_error c i = Some (Z.of_nat (r_j_fourier_refine (st_rest r)))).
Proof.
  intros s s' l q e HC Hin E A (Q1 & Q2 & Q3 & Q4 & Q5).
  destruct (optimization_history o fsqrt of_Z rt gsl junk s s' l HC Hin E) as (N1 & N2 & N3 & _).
  destruct HC as ((fit & C1) & C2 & C3).
  pose proof (run_opt_safe o fsqrt of_Z rt gsl junk fit C1 C2 C3 s Hin) as D. rewrite E in D. cbn [safe] in D.
  destruct D as (s1 & Ea & R & S & I & X & N & V & Ev & Hf & Hf1 & [P Hh L Fe En Sg _]). cbn [fst snd] in *.
  destruct Hh as [A1 A2 A3 A4]. destruct S as (S1 & S2 & S3 & S4 & S5). destruct P as [j [Hj Ph]].
  pose proof (ph_len o s1 j s' Ph) as Len. destruct (ph_hist o s1 j s' Ph) as [H1 H2 H3].
  set (na := length (qo_R0c (st_q s1)) + st_fourier_refine s1) in *. set (c := Z.to_nat (r_max_iter (st_rest s1))) in *.
  assert (Ena : n_modes s + st_fourier_refine s = na).
  { unfold na. rewrite S2. f_equal. symmetry. apply (modes_same s s1 I Hin R0c). }
  rewrite Ena in N3.
  assert (Lq : length (m_array F q "R0c") = na) by (rewrite Q1; exact (Len R0c)).
  assert (Hna : na <> 0) by (destruct A as (_ & _ & _ & A' & _); lia).
  assert (Le : opt_lens q e = [("axis_nmax_plus_1_dim", na); ("n_iter_dim", r_n_iter (st_rest s'))]).
  { unfold opt_lens. rewrite Lq, Q2, Nat2Z.id. reflexivity. }
  assert (Hrec : forall m, In m recorded_names -> length (m_array F e m) = c).
  { intros m Hm. destruct (in_recorded s' m Hm) as [v Hv]. rewrite (Q4 m v Hv). destruct (recorded_table s' m v Hv) as (x & Ix & _). exact (H1 m x Ix). }
  assert (Act : forall when name what, In (Put when name what) opt_puts -> active F e when = true).
  { intros when name what Hp. assert (G : forallb (fun p => let '(Put w _ _) := p in match w with [] => true | _ => false end) opt_puts = true) by (vm_compute; reflexivity).
    rewrite forallb_forall in G. specialize (G _ Hp). cbn in G. destruct when; [reflexivity|discriminate]. }
  destruct (opt_written of_int q e A) as [fq [f [W1 [W2 [W3 [W4 W5]]]]]].
  - rewrite Q2. lia.
  - intros st Hst. rewrite Le. destruct (statements_in F e opt_puts st Hst) as [when [Hp _]].
    pose proof (proj1 (forallb_forall _ _) opt_sources_ok _ Hp) as Ok1. cbn [opt_source_ok] in Ok1.
    destruct (snd st) as [x|x|x|x|x|x|x|d x|d x|ds x]; try discriminate Ok1; cbn [writable]; try exact Logic.I.
    + apply andb_prop in Ok1 as [O1 O2]. apply String.eqb_eq in O1, O2. subst d x. eexists. split; [reflexivity|]. rewrite Q3, H3. exact A2.
    + apply andb_prop in Ok1 as [O1 O2]. apply String.eqb_eq in O1. subst d. eexists. split; [reflexivity|]. rewrite (Hrec x (proj1 (inb_ok _ _) O2)). exact A2.
    + destruct ds as [|d1 [|d2 [|]]]; try discriminate Ok1. apply andb_prop in Ok1 as [O1 O2]. apply andb_prop in O1 as [O1 O3].
      apply String.eqb_eq in O1, O3. subst d1 d2. eexists. split; [reflexivity|].
      apply inb_ok, in_map_iff in O2 as [[n a] [En1 Hn]]. cbn [fst] in En1. subst n. rewrite (Q5 x a Hn). destruct (H2 x a Hn) as (M1 & M2 & M3).
      rewrite M3. cbn [fold_right removelast]. split; [rewrite Nat.mul_1_r; apply Nat.mul_le_mono_l; exact A2|]. apply Forall_cons; [exact Hna|apply Forall_nil].
  - exists fq, f. split; [exact W1|]. split; [exact W3|]. split.
    + pose proof W4 as [new [Hnew _]]. exists new. split; [exact Hnew|]. rewrite <- Hnew.
      split; [rewrite (contains_names F of_int _ _ _ _ _ W4); exact W5|].
      rewrite Le, N1, map_length in W4. rewrite Ena. eapply has_variables_ok; [exact W4|exact Hnew|vm_compute; reflexivity].
    + intros i r Hi. destruct (N3 i r Hi) as (G1 & G2 & G3).
      assert (Hlt : i < r_n_iter (st_rest s')) by (rewrite N1; apply nth_error_Some; rewrite Hi; discriminate).
      assert (LD : len_of (opt_lens q e) "n_iter_dim" = Some (r_n_iter (st_rest s'))) by (rewrite Le; reflexivity).
      assert (Vec : forall name m v, In (Put [] name (SVector "n_iter_dim" m)) opt_puts -> In (m, v) (recorded r) -> element F f name [i] v).
      { intros name m v Hp Hv. apply (contains_vector of_int _ e _ _ f name "n_iter_dim" m _ i v W4 (in_statements F e opt_puts _ _ _ Hp (Act _ _ _ Hp)) LD Hlt).
        assert (Hm : In m recorded_names) by (rewrite <- (recorded_names_ok r); change m with (fst (m, v)); apply in_map; exact Hv).
        destruct (in_recorded s' m Hm) as [v' Hv']. rewrite (Q4 m v' Hv'). exact (G1 m v Hv). }
      split; [|split; [|split]].
      * intros m v Hv Nm. apply (Vec m m v); [|exact Hv]. apply vectors_written; [|exact Nm].
        rewrite <- (recorded_names_ok r). change m with (fst (m, v)). apply in_map. exact Hv.
      * intros v Hv. apply (Vec _ "iter_elongation_term" v); [|exact Hv]. apply in_puts. vm_compute. reflexivity.
      * intros n a k v Hn Hk.
        assert (Hkn : k < na).
        { assert (K : length (get_axis (st_q r) a) = na).
          { apply nth_error_In, in_map_iff in Hi as [en [En1 Hen]]. apply filter_In in Hen as [Hen _].
            pose proof (proj1 (Forall_forall _ _) (lo_entry o fsqrt of_Z rt fit s1 l L) en Hen) as (_ & B & _). rewrite En1 in B.
            exact (ph_len o s1 _ r (ac_phase o fsqrt of_Z fit s1 _ r B) a). }
          rewrite <- K. apply nth_error_Some. rewrite Hk. discriminate. }
        change [i; k] with (rev [k; i]).
        apply (contains_element F of_int _ e _ _ f n ["axis_nmax_plus_1_dim"; "n_iter_dim"] n [na; r_n_iter (st_rest s')] [k; i] v W4).
        -- apply in_statements with (when := []); [|reflexivity]. apply in_puts.
           destruct Hn as [Hn|[Hn|[Hn|[Hn|[]]]]]; injection Hn as <- <-; vm_compute; reflexivity.
        -- rewrite Le. reflexivity.
        -- repeat (apply Forall2_cons; [assumption|]). apply Forall2_nil.
        -- rewrite (Q5 n a Hn). specialize (G2 n a k Hn Hkn). unfold cell in G2. destruct (H2 n a Hn) as (M1 & M2 & M3). rewrite M1 in G2.
           cbn [column_major]. rewrite Nat.mul_0_r, Nat.add_0_r. rewrite G2. exact Hk.
      * assert (Hp : In (Put [] "iter_fourier_refine_step" (SInts "n_iter_dim" "iter_fourier_refine_step")) opt_puts) by (apply in_puts; vm_compute; reflexivity).
        destruct (contains_var F of_int _ _ _ _ _ _ W4 (in_statements F e opt_puts _ _ _ Hp (Act _ _ _ Hp))) as [v [cc [K1 [K2 [K3 [K4 K5]]]]]].
        exists v. split; [exact K1|]. split; [exact K2|]. exists (firstn (r_n_iter (st_rest s')) (m_ints F e "iter_fourier_refine_step")).
        cbn [snd denotes] in K3. rewrite LD in K3. cbn [option_map] in K3. injection K3 as <-. split; [exact K4|].
        rewrite nth_error_firstn by exact Hlt. rewrite Q3. exact G3.
Qed.
End History.

(** ** C76: what the files contain *)
Section Contents.
Context {F : Type}.
Variable of_int : Z -> F.
Notation members := (members F).

(** The boolean version of [named_after]. *)
Definition quantity_namedb (name x : string) : bool :=
  String.eqb x name || String.eqb x ("q." ++ name) || String.eqb x ("mo_ref.opts[0].q." ++ name) || String.eqb x ("filters[" ++ uppercase name ++ "]") ||
  (String.eqb name ("fraction_" ++ substring 9 (String.length name - 9) name) &&
   (String.eqb x ("filter_fractions[" ++ uppercase (substring 9 (String.length name - 9) name) ++ "]") ||
    String.eqb x ("filter_fractions[N_" ++ uppercase (substring 9 (String.length name - 9) name) ++ "]"))) ||
  (String.eqb name "order_r2.1" && String.eqb x "order_r2p1").
Lemma quantity_namedb_ok name x : quantity_namedb name x = true -> quantity_named name x.
Proof.
  unfold quantity_namedb, quantity_named. rewrite !orb_true_iff, !andb_true_iff, orb_true_iff, !String.eqb_eq.
  intros [[[[[H|H]|H]|H]|[H1 H2]]|H]; auto 6.
  right. right. right. right. left. eauto.
Qed.
Definition named_afterb (p : put) : bool :=
  let '(Put _ name what) := p in match source_name what with Some x => quantity_namedb name x | None => String.eqb name "general_option" end.
Lemma named_afterb_ok e l s : forallb named_afterb l = true -> In s (statements F e l) -> named_after s.
Proof.
  intros H Hs. destruct (statements_in F e l s Hs) as [when [Hp _]]. rewrite forallb_forall in H. specialize (H _ Hp). cbn [named_afterb] in H.
  unfold named_after. destruct (source_name (snd s)); [apply quantity_namedb_ok; exact H|apply String.eqb_eq; exact H].
Qed.

(** A configuration. *)
Theorem qsc_file : forall q, allocated F q ->
  exists f, qsc_write_netcdf F of_int q = Ok f /\ contains_exactly F of_int (qsc_lens q) q [] (statements F q qsc_puts) f /\
    has_variables F (qsc_lens q) q configuration_variables f (f_vars F f) /\ NoDup (map (v_name F) (f_vars F f)) /\ Forall named_after (statements F q qsc_puts).
Proof.
  intros q A. destruct (qsc_written of_int q A) as [f [H1 [H2 _]]]. exists f. split; [exact H1|]. split; [exact H2|].
  split; [eapply has_variables_ok; [exact H2|reflexivity|vm_compute; reflexivity]|]. split.
  - rewrite (contains_names F of_int _ _ _ _ _ H2). cbn [map app]. apply (statements_nodup F q qsc_puts qsc_names).
  - apply Forall_forall. intros s. apply named_afterb_ok. vm_compute. reflexivity.
Qed.

(** A random or deterministic scan. *)
Definition scan_lens (e : members) : list (string * nat) :=
  [("nphi_dim", Z.to_nat (m_int F e "q.nphi")); ("axis_nmax_plus_1_dim", length (m_array F e "R0c_max")); ("n_scan_dim", Z.to_nat (m_big F e "n_scan"))].
Lemma int_of_big_small z : (0 <= z < 2147483648)%Z -> int_of_big z = z.
Proof. intros H. unfold int_of_big. rewrite Z.mod_small by lia. lia. Qed.
Lemma scan_names : NoDup (map put_name scan_puts).
Proof. apply nodup_check_ok. vm_compute. reflexivity. Qed.
Lemma multiopt_scan_names : NoDup (map put_name multiopt_scan_puts).
Proof. apply nodup_check_ok. vm_compute. reflexivity. Qed.
Theorem scan_file : forall e,
  (0 < m_int F e "q.nphi")%Z -> length (m_array F e "R0c_max") <> 0 -> (0 <= m_big F e "n_scan" < 2147483648)%Z ->
  (forall s, In s (statements F e scan_puts) -> writable F (scan_lens e) e (snd s)) ->
  exists f, scan_write_netcdf F of_int e = Ok f /\ contains_exactly F of_int (scan_lens e) e [] (statements F e scan_puts) f /\
    has_variables F (scan_lens e) e scan_variables f (f_vars F f) /\ NoDup (map (v_name F) (f_vars F f)) /\ Forall named_after (statements F e scan_puts).
Proof.
  intros e Hn Ha Hs W.
  assert (Hd : run_dims F e ([], new_writer F) scan_dims
    = Ok ([("n_scan_dim", 2); ("axis_nmax_plus_1_dim", 1); ("nphi_dim", 0)],
          mkW F (mkFile F [("nphi", Z.to_nat (m_int F e "q.nphi")); ("axis_nmax_plus_1", length (m_array F e "R0c_max")); ("n_scan", Z.to_nat (m_big F e "n_scan"))] []) [])).
  { unfold scan_dims. cbn [run_dims run_dim fst snd dim_size]. unfold dim. rewrite (int_of_big_small _ Hs).
    assert (N0 : Z.to_nat (m_int F e "q.nphi") <> 0) by lia.
    rewrite def_dim_ok; [|lia|intros []|intros _; constructor]. cbn [bind fst snd f_dims f_vars w_file w_entries new_writer empty_file app length].
    rewrite def_dim_ok; [|lia|cbn; intros [K|[]]; discriminate|intros _; cbn [f_dims]; apply Forall_cons; [exact N0|constructor]].
    cbn [bind fst snd f_dims f_vars w_file w_entries app length]. rewrite Nat2Z.id.
    rewrite def_dim_ok; [|lia|cbn; intros [K|[K|[]]]; discriminate|intros _; cbn [f_dims]; apply Forall_cons; [exact N0|]; apply Forall_cons; [exact Ha|constructor]].
    cbn [bind fst snd f_dims f_vars w_file w_entries app length]. reflexivity. }
  destruct (statements_nodup F e scan_puts scan_names) as [ND _].
  destruct (write_file_ok F of_int e (new_writer F) scan_dims scan_puts _ _ (scan_lens e) Hd) as [f [G1 [G2 _]]].
  - reflexivity.
  - cbn [w_file f_dims]. intros y n Hy. cbn [len_of scan_lens] in Hy.
    destruct (String.eqb_spec y "nphi_dim") as [->|]; [injection Hy as <-; exists 0; eexists; split; reflexivity|].
    destruct (String.eqb_spec y "axis_nmax_plus_1_dim") as [->|]; [injection Hy as <-; exists 1; eexists; split; reflexivity|].
    destruct (String.eqb_spec y "n_scan_dim") as [->|]; [injection Hy as <-; exists 2; eexists; split; reflexivity|]. discriminate.
  - cbn [w_file f_dims]. intros n k K. exfalso. cbn [In] in K. destruct K as [K|[K|[K|[]]]]; assert (K' := f_equal fst K); cbn [fst] in K';
      refine (not_text_ok _ k _ K'); reflexivity.
  - exact ND.
  - exact W.
  - exists f. split; [exact G1|]. split; [exact G2|]. split; [eapply has_variables_ok; [exact G2|reflexivity|vm_compute; reflexivity]|]. split.
    + rewrite (contains_names F of_int _ _ _ _ _ G2). exact ND.
    + apply Forall_forall. intros s. apply named_afterb_ok. vm_compute. reflexivity.
Qed.
(** A scan of optimizations. *)
Definition multiopt_scan_lens (e : members) : list (string * nat) :=
  [("axis_nmax_plus_1_dim", Z.to_nat (m_int F e "axis_nmax_plus_1")); ("n_scan_dim", Z.to_nat (m_int F e "n_scan"))].
Theorem multiopt_scan_file : forall e,
  (0 < m_int F e "axis_nmax_plus_1")%Z -> (0 <= m_int F e "n_scan")%Z ->
  (forall s, In s (statements F e multiopt_scan_puts) -> writable F (multiopt_scan_lens e) e (snd s)) ->
  exists f, multiopt_scan_write_netcdf F of_int e = Ok f /\ contains_exactly F of_int (multiopt_scan_lens e) e [] (statements F e multiopt_scan_puts) f /\
    has_variables F (multiopt_scan_lens e) e multiopt_scan_variables f (f_vars F f) /\ NoDup (map (v_name F) (f_vars F f)) /\ Forall named_after (statements F e multiopt_scan_puts).
Proof.
  intros e Ha Hs W.
  assert (Hd : run_dims F e ([], new_writer F) multiopt_scan_dims
    = Ok ([("n_scan_dim", 1); ("axis_nmax_plus_1_dim", 0)],
          mkW F (mkFile F [("axis_nmax_plus_1", Z.to_nat (m_int F e "axis_nmax_plus_1")); ("n_scan", Z.to_nat (m_int F e "n_scan"))] []) [])).
  { unfold multiopt_scan_dims. cbn [run_dims run_dim fst snd dim_size]. unfold dim.
    assert (N0 : Z.to_nat (m_int F e "axis_nmax_plus_1") <> 0) by lia.
    rewrite def_dim_ok; [|lia|intros []|intros _; constructor]. cbn [bind fst snd f_dims f_vars w_file w_entries new_writer empty_file app length].
    rewrite def_dim_ok; [|lia|cbn; intros [K|[]]; discriminate|intros _; cbn [f_dims]; apply Forall_cons; [exact N0|constructor]].
    cbn [bind fst snd f_dims f_vars w_file w_entries app length]. reflexivity. }
  destruct (statements_nodup F e multiopt_scan_puts multiopt_scan_names) as [ND _].
  destruct (write_file_ok F of_int e (new_writer F) multiopt_scan_dims multiopt_scan_puts _ _ (multiopt_scan_lens e) Hd) as [f [G1 [G2 _]]].
  - reflexivity.
  - cbn [w_file f_dims]. intros y n Hy. cbn [len_of multiopt_scan_lens] in Hy.
    destruct (String.eqb_spec y "axis_nmax_plus_1_dim") as [->|]; [injection Hy as <-; exists 0; eexists; split; reflexivity|].
    destruct (String.eqb_spec y "n_scan_dim") as [->|]; [injection Hy as <-; exists 1; eexists; split; reflexivity|]. discriminate.
  - cbn [w_file f_dims]. intros n k K. exfalso. cbn [In] in K. destruct K as [K|[K|[]]]; assert (K' := f_equal fst K); cbn [fst] in K';
      refine (not_text_ok _ k _ K'); reflexivity.
  - exact ND.
  - exact W.
  - exists f. split; [exact G1|]. split; [exact G2|]. split; [eapply has_variables_ok; [exact G2|reflexivity|vm_compute; reflexivity]|]. split.
    + rewrite (contains_names F of_int _ _ _ _ _ G2). exact ND.
    + apply Forall_forall. intros s. apply named_afterb_ok. vm_compute. reflexivity.
Qed.
(** An optimization: all but one. *)
Theorem opt_labels_partial : forall e s, In s (statements F e opt_puts) -> fst s <> "iter_curvature_term" -> named_after s.
Proof.
  intros e s Hs N. destruct (statements_in F e _ s Hs) as [when [Hp _]].
  assert (H : forallb (fun p => String.eqb (put_name p) "iter_curvature_term" || named_afterb p) opt_puts = true) by (vm_compute; reflexivity).
  rewrite forallb_forall in H. specialize (H _ Hp). cbn [put_name] in H. destruct (String.eqb_spec (fst s) "iter_curvature_term"); [contradiction|].
  cbn [orb named_afterb] in H. unfold named_after. destruct (source_name (snd s)); [apply quantity_namedb_ok; exact H|apply String.eqb_eq; exact H].
Qed.
(** A scan with 2^31 or more (but less than 2^32) kept configurations cannot be saved: the number is converted to a negative int. *)
Theorem large_scan_not_written : forall e, (0 < m_int F e "q.nphi")%Z ->
  (2147483648 <= m_big F e "n_scan" < 4294967296)%Z -> exists msg, scan_write_netcdf F of_int e = Throw msg.
Proof.
  intros e Hn Hb. unfold scan_write_netcdf, write_file, scan_dims. cbn [run_dims run_dim fst snd dim_size]. unfold dim.
  assert (N0 : Z.to_nat (m_int F e "q.nphi") <> 0) by lia.
  rewrite def_dim_ok; [|lia|intros []|intros _; constructor]. cbn [bind fst snd f_dims f_vars w_file w_entries new_writer empty_file app length].
  rewrite def_dim_ok; [|lia|cbn; intros [K|[]]; discriminate|intros _; cbn [f_dims]; apply Forall_cons; [exact N0|constructor]].
  cbn [bind fst snd f_dims f_vars w_file w_entries app length]. unfold def_dim.
  assert (E : (int_of_big (m_big F e "n_scan") <? 0)%Z = true).
  { apply Z.ltb_lt. unfold int_of_big. rewrite (Z.mod_eq _ 4294967296) by lia. replace ((m_big F e "n_scan" + 2147483648) / 4294967296)%Z with 1%Z; [lia|].
    apply (Z.div_unique _ _ 1 (m_big F e "n_scan" - 2147483648)); lia. }
  rewrite E. cbn [bind]. eauto.
Qed.

(** ** C77: strings *)
(** Reading a string that the writer has written is undefined behaviour, unless the string has 50 characters or less and contains the character NUL. *)
Lemma until_nul_none s : (forall i, String.get i s <> Some nul) -> until_nul s = None.
Proof.
  induction s as [|c s IH]; intros H; [reflexivity|]. cbn [until_nul]. destruct (Ascii.eqb_spec c nul) as [->|N].
  - exfalso. apply (H 0). reflexivity.
  - rewrite IH; [reflexivity|]. intros i. exact (H (S i)).
Qed.
Theorem string_read_undefined : forall (f : file F) name s, read F f name = Ok (Chars s) ->
  (forall i, String.get i s <> Some nul) -> exists why, get_string F f name = UB why.
Proof.
  intros f name s H N. unfold get_string. rewrite H. cbn [bind]. destruct (50 <? String.length s); [eauto|]. rewrite (until_nul_none s N). eauto.
Qed.
End Contents.

(** ** Examples *)
Section Examples.
Context {F : Type}.
Variable number : nat -> F.
(** A configuration on three grid points, with the given axis: the entries of each array are number 0, number 1, ... *)
Definition ex_size (x : string) : nat :=
  if String.eqb x "quadrant" then 4 else if inb x ["d_d_phi"; "d_d_varphi"; "work_matrix"] then 9 else if String.eqb x "grad_B_tensor" then 27
  else if String.eqb x "grad_grad_B_tensor" then 81 else if String.eqb x "r2_matrix" then 36 else if inb x ["r2_rhs"; "r2_ipiv"] then 6 else 3.
Definition ex_members (R0c : list F) : members F :=
  mkMembers F (fun x => if String.eqb x "nphi" then 3 else if String.eqb x "sG" then 1 else 5)%Z (fun _ => true) (fun x => number (String.length x)) (fun _ => 7%Z)
    (fun _ => "r2.1") (fun _ => []) (fun x => if String.eqb x "R0c" then R0c else map number (seq 0 (ex_size x))).
Example ex_allocated R0c : length R0c = 3 -> allocated F (ex_members R0c).
Proof.
  intros HL. unfold allocated. cbn [m_int m_flag m_text ex_members String.eqb Ascii.eqb Bool.eqb]. split; [reflexivity|]. split; [lia|].
  assert (V : forall x, (forallb (fun x => (ex_size x =? 3) && negb (String.eqb x "R0c")) (vectors_first ++ vectors_r2 ++ ["lambda_for_XY3"; "ipiv"] ++ vectors_r3)%list) = true ->
    In x (vectors_first ++ vectors_r2 ++ ["lambda_for_XY3"; "ipiv"] ++ vectors_r3)%list -> Z.of_nat (length (m_array F (ex_members R0c) x)) = 3%Z).
  { intros x H Hx. rewrite forallb_forall in H. specialize (H x Hx). apply andb_prop in H as [H1 H2]. apply Nat.eqb_eq in H1. apply negb_true_iff in H2.
    cbn [m_array ex_members]. rewrite H2, map_length, seq_length, H1. reflexivity. }
  assert (V' := fun x => V x eq_refl). clear V. split; [|split; [|split]].
  - intros x s H. destruct H; cbn [fold_right];
      try (rewrite V'; [reflexivity|repeat rewrite in_app_iff; cbn [In]; auto 7]); reflexivity.
  - cbn. lia.
  - intros x Hx. cbn [m_array ex_members]. change (String.eqb "R0c" "R0c") with true. cbv iota. destruct Hx as [<-|[<-|[<-|[<-|[]]]]]; cbn; auto.
  - discriminate.
Qed.
End Examples.
(** The optimization of Properties_Opt.v: it is run and written. *)
Definition ex_opt_members (s : @stage spec_float (@rest spec_float unit)) : members spec_float :=
  mkMembers spec_float (fun x => if String.eqb x "n_iter" then Z.of_nat (r_n_iter (st_rest s)) else r_n_evals (st_rest s)) (fun _ => false)
    (st_num s) (fun _ => 0%Z) (fun _ => "") (fun _ => r_iter_fourier_refine_step (st_rest s))
    (fun x => if inb x (map fst recorded_axes) then m_data (st_iter_axis s x) else st_iter s x).
Lemma ex_holds s : holds_history s (ex_members (fun n => d_of_Z (Z.of_nat n)) (qo_R0c (st_q s))) (ex_opt_members s).
Proof.
  split; [reflexivity|]. split; [reflexivity|]. split; [reflexivity|]. split.
  - intros m v H. assert (Hm : In m recorded_names) by (rewrite <- (recorded_names_ok s); change m with (fst (m, v)); apply in_map; exact H).
    assert (G : forallb (fun m => negb (inb m (map fst recorded_axes))) recorded_names = true) by (vm_compute; reflexivity).
    rewrite forallb_forall in G. specialize (G m Hm). apply negb_true_iff in G. cbn [m_array ex_opt_members]. rewrite G. reflexivity.
  - intros n a H. assert (E : inb n (map fst recorded_axes) = true) by (apply inb_ok; change n with (fst (n, a)); apply in_map; exact H).
    cbn [m_array ex_opt_members]. rewrite E. reflexivity.
Qed.
(** The variable iter_curvature_term does not have the term for the curvature: here the curvature is 1 and the elongation is eta_bar, 2. *)
Definition ex_fill_c (q : @qobj spec_float) (x : @qextra spec_float unit) : @qextra spec_float unit :=
  let y := ex_fill q x in
  mkQx (qx_nphi y) (qx_nfp y) (qx_order_r_option y) (qx_order_r2p1 y)
    (fun m => if String.eqb m "curvature" then repeat (d_of_Z 1) (Z.to_nat (qx_nphi x)) else qx_arr y m) tt.
Definition ex_rt_c : @routines spec_float unit :=
  mkRoutines (fun q x => Ok (q, ex_nphi x)) (fun q x => Ok (q, ex_flag x)) (fun q x => Ok (q, ex_fill_c q x)).
Lemma ex_fill_c_ok q x : arrays_ok (ex_fill_c q x).
Proof.
  destruct (ex_fill_ok q x) as (A & B & C). split; [|split; [exact B|exact C]].
  intros m Hm. specialize (A m Hm). cbn [ex_fill_c qx_arr qx_nphi]. destruct (String.eqb m "curvature"); [apply repeat_length|exact A].
Qed.
Lemma ex_rt_c_ok : qsc_ok (fun _ _ => True) ex_rt_c.
Proof.
  constructor; auto.
  - intros q x q' x' [= <- <-]. split; [apply same_inputs_refl|repeat split].
  - intros q x q' x' [= <- <-]. split; [apply same_inputs_refl|repeat split].
  - intros q x q' x' _ [= <- <-]. split; [apply same_inputs_refl|]. split; [repeat split|]. split; [reflexivity|]. split; [reflexivity|].
    split; [intros _; apply ex_fill_c_ok|exact I].
  - intros q x why. repeat split; discriminate.
Qed.
Notation ex_run_c := (run_opt D_ops (fun v => v) d_of_Z ex_rt_c ex_gsl ex_junk).
Lemma called_c : called_ok ex_rt_c ex_gsl ex_junk.
Proof. split; [eexists; exact ex_rt_c_ok|]. split; [exact ex_gsl_ok|]. intros n. apply repeat_length. Qed.
Theorem curvature_label_refuted : exists (s s' : @stage spec_float (@rest spec_float unit)) (l : log) (q e : members spec_float) f r v w,
  called_ok ex_rt_c ex_gsl ex_junk /\ input_ok s /\ ex_run_c s = Ok (s', l) /\ allocated spec_float q /\ holds_history s' q e /\
  opt_write_netcdf spec_float d_of_Z q e = Ok f /\ nth_error (map snd (filter fst l)) 0 = Some r /\ In ("iter_curvature_term", v) (recorded r) /\
  element spec_float f "iter_curvature_term" [0] w /\ w <> v.
Proof.
  observe (ex_run_c ex_opt) (fun y : ex_result => (length (qo_R0c (st_q (fst y))),
     option_map (fun r => (SFeqb (r_terms (st_rest r) "elongation") (r_terms (st_rest r) "curvature"), SFeqb (r_terms (st_rest r) "elongation") (r_terms (st_rest r) "elongation")))
       (nth_error (map snd (filter fst (snd y))) 0)))
    (3, Some (false, true)) y E H.
  destruct y as [s' l]. cbn [fst snd] in H. assert (H1 := f_equal fst H). assert (H2 := f_equal snd H). cbn [fst snd] in H1, H2. clear H.
  destruct (nth_error (map snd (filter fst l)) 0) as [r|] eqn:Er; [|discriminate H2]. cbn [option_map] in H2.
  assert (H3 : SFeqb (r_terms (st_rest r) "elongation") (r_terms (st_rest r) "curvature") = false) by congruence.
  assert (H4 : SFeqb (r_terms (st_rest r) "elongation") (r_terms (st_rest r) "elongation") = true) by congruence.
  set (q := ex_members (fun n => d_of_Z (Z.of_nat n)) (qo_R0c (st_q s'))).
  assert (A : allocated spec_float q) by (apply ex_allocated; exact H1).
  destruct (optimization_file_partial D_ops (fun v => v) d_of_Z ex_rt_c ex_gsl ex_junk d_of_Z ex_opt s' l q (ex_opt_members s') called_c (proj1 ex_input) E A (ex_holds s'))
    as [fq [f [F1 [F2 [F3 F4]]]]].
  destruct (F4 0 r Er) as (_ & G & _).
  exists ex_opt, s', l, q, (ex_opt_members s'), f, r, (r_terms (st_rest r) "curvature"), (r_terms (st_rest r) "elongation").
  split; [exact called_c|]. split; [exact (proj1 ex_input)|]. split; [exact E|]. split; [exact A|]. split; [exact (ex_holds s')|].
  split; [exact F2|]. split; [exact Er|]. split; [right; right; right; right; left; reflexivity|].
  split; [apply G; right; right; right; left; reflexivity|]. intros K. rewrite K in H3, H4. congruence.
Qed.
(** A scan with two configurations kept, and a scan of optimizations with none. *)
Definition ex_scan_size (x : string) : nat := if inb x ["scan_R0c"; "scan_R0s"; "scan_Z0c"; "scan_Z0s"] then 6 else if String.eqb x "q.phi" then 5 else 3.
Definition ex_scan : members Z :=
  mkMembers Z (fun x => if String.eqb x "n_scan" then 0 else 5)%Z (fun x => String.eqb x "q.at_least_order_r2") (fun _ => 1%Z) (fun _ => 2%Z) (fun _ => "random") (fun _ => [0; 1]%Z)
    (fun x => map Z.of_nat (seq 0 (ex_scan_size x))).
Definition writableb {F} (lens : list (string * nat)) (e : members F) (what : source) : bool :=
  match what with
  | SText x => negb (String.eqb (m_text F e x) "")
  | SLit s => negb (String.eqb s "")
  | SInts d x => match len_of lens d with Some n => n <=? length (m_ints F e x) | None => false end
  | SVector d x => match len_of lens d with Some n => n <=? length (m_array F e x) | None => false end
  | SArray ds x => match lens_of lens ds with
                   | Some l => (fold_right Nat.mul 1 l <=? length (m_array F e x)) && forallb (fun n => negb (n =? 0)) (removelast l)
                   | None => false end
  | _ => true
  end.
Lemma writableb_ok {F} lens (e : members F) what : writableb lens e what = true -> writable F lens e what.
Proof.
  destruct what as [x|x|x|x|x|x|x|d x|d x|ds x]; cbn [writableb writable]; intros H; try exact I.
  - apply negb_true_iff, String.eqb_neq in H. exact H.
  - apply negb_true_iff, String.eqb_neq in H. exact H.
  - destruct (len_of lens d); [|discriminate]. apply Nat.leb_le in H. eauto.
  - destruct (len_of lens d); [|discriminate]. apply Nat.leb_le in H. eauto.
  - destruct (lens_of lens ds) as [l|]; [|discriminate]. apply andb_prop in H as [H1 H2]. apply Nat.leb_le in H1. exists l. split; [reflexivity|]. split; [exact H1|].
    apply Forall_forall. intros n Hn. rewrite forallb_forall in H2. specialize (H2 n Hn). apply negb_true_iff, Nat.eqb_neq in H2. exact H2.
Qed.
Example scan_file_example : (0 < m_int Z ex_scan "q.nphi")%Z /\ length (m_array Z ex_scan "R0c_max") <> 0 /\ (0 <= m_big Z ex_scan "n_scan" < 2147483648)%Z /\
  forall s, In s (statements Z ex_scan scan_puts) -> writable Z (scan_lens ex_scan) ex_scan (snd s).
Proof.
  split; [reflexivity|]. split; [discriminate|]. split; [split; [discriminate|reflexivity]|].
  intros s Hs. apply writableb_ok. assert (E : forallb (fun s => writableb (scan_lens ex_scan) ex_scan (snd s)) (statements Z ex_scan scan_puts) = true) by (vm_compute; reflexivity).
  rewrite forallb_forall in E. exact (E s Hs).
Qed.
Example multiopt_scan_file_example : (0 < m_int Z ex_scan "axis_nmax_plus_1")%Z /\ (0 <= m_int Z ex_scan "n_scan")%Z /\
  forall s, In s (statements Z ex_scan multiopt_scan_puts) -> writable Z (multiopt_scan_lens ex_scan) ex_scan (snd s).
Proof.
  split; [reflexivity|]. split; [discriminate|].
  intros s Hs. apply writableb_ok.
  assert (E : forallb (fun s => writableb (multiopt_scan_lens ex_scan) ex_scan (snd s)) (statements Z ex_scan multiopt_scan_puts) = true) by (vm_compute; reflexivity).
  rewrite forallb_forall in E. exact (E s Hs).
Qed.
(** The option for the order of the expansion, as it is written, cannot be read. *)
Example string_read_example : exists f, qsc_write_netcdf Z (fun z => z) (ex_members Z.of_nat [1; 2; 3]%Z) = Ok f /\
  read Z f "order_r_option" = Ok (Chars "r2.1") /\ exists why, get_string Z f "order_r_option" = UB why.
Proof.
  destruct (qsc_file (fun z => z) (ex_members Z.of_nat [1; 2; 3]%Z) (ex_allocated Z.of_nat [1; 2; 3]%Z eq_refl)) as [f [H1 [H2 _]]]. exists f. split; [exact H1|].
  assert (E : read Z f "order_r_option" = Ok (Chars "r2.1")).
  { apply (qsc_read (fun z => z) _ f "order_r_option" (SText "order_r_option") (Chars "r2.1") (ex_allocated Z.of_nat [1; 2; 3]%Z eq_refl) H2); [|reflexivity].
    apply (in_statements Z _ qsc_puts []); [apply in_puts; vm_compute; reflexivity|reflexivity]. }
  split; [exact E|]. apply (string_read_undefined f _ _ E). intros [|[|[|[|i]]]]; cbn; discriminate.
Qed.
(** The elements of the differentiation matrix of the example: row 2, column 1 is in the file at [1][2]. *)
Example layout_example : exists f, qsc_write_netcdf Z (fun z => z) (ex_members Z.of_nat [1; 2; 3]%Z) = Ok f /\ element Z f "d_d_phi" [1; 2] 5%Z.
Proof.
  pose proof (ex_allocated Z.of_nat [1; 2; 3]%Z eq_refl) as A.
  destruct (qsc_file (fun z => z) _ A) as [f [H1 [H2 _]]]. exists f. split; [exact H1|].
  change [1; 2] with (rev [2; 1]).
  apply (contains_element Z (fun z => z) _ _ _ _ f "d_d_phi" ["nphi_dim"; "nphi_dim"] "d_d_phi" [3; 3] [2; 1] 5%Z H2);
    [apply (in_statements Z _ qsc_puts []); [|reflexivity]|reflexivity| |reflexivity].
  - apply in_puts. vm_compute. reflexivity.
  - apply Forall2_cons; [repeat constructor|]. apply Forall2_cons; [repeat constructor|constructor].
Qed.
Print Assumptions qsc_round_trip.
Print Assumptions put_array_layout.
Print Assumptions matrix_layout.
Print Assumptions qsc_layout.
Print Assumptions optimization_file_partial.
Print Assumptions curvature_label_refuted.
Print Assumptions qsc_file.
Print Assumptions scan_file.
Print Assumptions multiopt_scan_file.
Print Assumptions opt_labels_partial.
Print Assumptions large_scan_not_written.
Print Assumptions string_read_undefined.
