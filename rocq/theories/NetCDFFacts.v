From Coq Require Import Decimal DecimalString DecimalNat String Ascii ZArith Arith Bool Lia List.
From Verif Require Import Base BaseFacts Outfile NetCDF NetCDFOut NetCDFSpec.
Import ListNotations.
Local Open Scope string_scope.
Local Open Scope nat_scope.

Section Facts.
Variable F : Type.
Variable of_int : Z -> F.

Lemma find_index_app_none {A} (p : A -> bool) l l' : find_index p l = None -> find_index p (l ++ l')%list = option_map (Nat.add (length l)) (find_index p l').
Proof.
  induction l as [|x l IH]; cbn; intros H; [destruct (find_index p l'); reflexivity|].
  destruct (p x); [discriminate|]. destruct (find_index p l); [discriminate|]. rewrite (IH eq_refl).
  destruct (find_index p l'); reflexivity.
Qed.
Lemma find_index_app_some {A} (p : A -> bool) l l' i : find_index p l = Some i -> find_index p (l ++ l')%list = Some i.
Proof.
  revert i. induction l as [|x l IH]; cbn; intros i H; [discriminate|]. destruct (p x); [exact H|].
  destruct (find_index p l) as [j|]; [|discriminate]. rewrite (IH j eq_refl). exact H.
Qed.
Lemma find_index_none {A} (p : A -> bool) l : find_index p l = None <-> forall x, In x l -> p x = false.
Proof.
  induction l as [|x l IH]; cbn; [split; [intros _ x []|reflexivity]|]. destruct (p x) eqn:E.
  - split; [discriminate|]. intros H. rewrite (H x (or_introl eq_refl)) in E. discriminate.
  - destruct (find_index p l) eqn:E'; cbn; split; intros H.
    + discriminate.
    + assert (forall y, In y l -> p y = false) by (intros y Hy; apply H; right; exact Hy). apply IH in H0. discriminate.
    + intros y [<-|Hy]; [exact E|]. apply IH; [reflexivity|exact Hy].
    + reflexivity.
Qed.
Lemma find_index_nth {A} (p : A -> bool) l i : find_index p l = Some i -> exists x, nth_error l i = Some x /\ p x = true.
Proof.
  revert i. induction l as [|x l IH]; cbn; intros i H; [discriminate|]. destruct (p x) eqn:E; [injection H as <-; exists x; auto|].
  destruct (find_index p l) as [j|]; [|discriminate]. injection H as <-. cbn. apply IH. reflexivity.
Qed.
(** The name of the dimension of a string determines its length. *)
Fixpoint padded (k : nat) (d : uint) : uint := match k with O => d | S k' => D0 (padded k' d) end.
Lemma parse_zeros k s : NilEmpty.uint_of_string (zeros k ++ s) = option_map (padded k) (NilEmpty.uint_of_string s).
Proof. induction k as [|k IH]; cbn; [destruct (NilEmpty.uint_of_string s); reflexivity|]. rewrite IH. destruct (NilEmpty.uint_of_string s); reflexivity. Qed.
Lemma of_padded k d : Nat.of_uint (padded k d) = Nat.of_uint d.
Proof. induction k as [|k IH]; [reflexivity|]. exact IH. Qed.
Lemma dim_str_inj j k : dim_str j = dim_str k -> j = k.
Proof.
  unfold dim_str. intros H.
  assert (P : forall n, option_map Nat.of_uint (NilEmpty.uint_of_string (zeros (5 - String.length (to_string n)) ++ to_string n)) = Some n).
  { intros n. rewrite parse_zeros. unfold to_string.
    assert (E : NilEmpty.uint_of_string (NilZero.string_of_uint (Nat.to_uint n)) = Some (match Nat.to_uint n with Nil => D0 Nil | d => d end)).
    { destruct (Nat.to_uint n) eqn:E; [reflexivity|..]; unfold NilZero.string_of_uint; apply NilEmpty.usu. }
    rewrite E. cbn [option_map]. rewrite of_padded. f_equal. rewrite <- (Unsigned.of_to n) at 2. destruct (Nat.to_uint n); reflexivity. }
  assert (K : forall a b, "dim_" ++ a = "dim_" ++ b -> a = b) by (intros a b E; cbn in E; now injection E).
  apply K in H. pose proof (P j) as Pj. rewrite H, (P k) in Pj. now injection Pj.
Qed.

(** ** Reading *)
Lemma eqb_eq_name (l : list (variable F)) name v :
  NoDup (map (v_name F) l) -> In v l -> v_name F v = name ->
  exists i, find_index (fun x => String.eqb (v_name F x) name) l = Some i /\ nth_error l i = Some v.
Proof.
  induction l as [|x l IH]; cbn [map]; intros ND Hv E; [destruct Hv|]. inversion ND as [|? ? Hx ND']; subst. destruct Hv as [<-|Hin].
  - exists 0. cbn. rewrite String.eqb_refl. auto.
  - destruct (IH ND' Hin eq_refl) as [i [H1 H2]]. exists (S i). cbn.
    assert (v_name F x <> v_name F v) by (intros K; apply Hx; rewrite K; apply in_map; exact Hin).
    apply String.eqb_neq in H. rewrite H, H1. auto.
Qed.
Lemma read_in (f : file F) v c : NoDup (map (v_name F) (f_vars F f)) -> In v (f_vars F f) -> v_contents F v = Some c -> read F f (v_name F v) = Ok c.
Proof.
  intros ND Hin Hc. destruct (eqb_eq_name _ (v_name F v) v ND Hin eq_refl) as [i [H1 H2]].
  unfold read, inq_varid. rewrite H1, H2. destruct v; cbn in *. rewrite Hc. reflexivity.
Qed.

(** ** Writing *)
Record item := mkItem { i_name : string; i_ids : list nat; i_shape : list nat; i_data : contents F; i_stored : contents F }.
Definition item_var (it : item) : variable F := mkVar F (i_name it) (type_of F (i_data it)) (i_ids it) None.
Definition item_written (it : item) : variable F := mkVar F (i_name it) (type_of F (i_data it)) (i_ids it) (Some (i_stored it)).
Definition item_ok (f : file F) (it : item) : Prop :=
  lengths F f (i_ids it) = Some (i_shape it) /\ first_elements F (product (i_shape it)) (i_data it) = Ok (i_stored it).
Lemma lengths_dims (f f' : file F) ids l : lengths F f ids = Some l -> (exists x, f_dims F f' = (f_dims F f ++ x)%list) -> lengths F f' ids = Some l.
Proof.
  intros H [x Hx]. revert l H. induction ids as [|i ids IH]; cbn; intros l H; [exact H|].
  destruct (nth_error (f_dims F f) i) as [d|] eqn:E; [|discriminate]. destruct (lengths F f ids) as [r|]; [|discriminate].
  rewrite Hx, nth_error_app1 by (apply nth_error_Some; congruence). rewrite E, (IH r eq_refl). exact H.
Qed.
Lemma item_ok_dims f f' it : item_ok f it -> (exists x, f_dims F f' = (f_dims F f ++ x)%list) -> item_ok f' it.
Proof. intros [H1 H2] Hx. split; [|exact H2]. eapply lengths_dims; eassumption. Qed.
Lemma upd_app_r {A} (l l' : list A) (x y : A) : upd (l ++ x :: l')%list (length l) y = (l ++ y :: l')%list.
Proof. induction l as [|z l IH]; cbn; [reflexivity|]. now rewrite IH. Qed.
Lemma write_all_items items : forall f (done : list (variable F)),
  f_vars F f = (done ++ map item_var items)%list -> Forall (item_ok f) items ->
  write_all F f (combine (seq (length done) (length items)) (map i_data items))
  = Ok (mkFile F (f_dims F f) (done ++ map item_written items)%list).
Proof.
  induction items as [|it items IH]; intros f done Hv Hok; cbn [length seq map combine write_all].
  - rewrite app_nil_r. destruct f as [d v]; cbn in *. rewrite app_nil_r in Hv. now subst.
  - inversion Hok as [|? ? [Hl Hs] Hok']; subst. unfold put_var. rewrite Hv. cbn [map].
    rewrite nth_error_app2 by apply le_n. rewrite Nat.sub_diag. cbn [nth_error]. unfold item_var at 1. cbn [v_dims]. rewrite Hl, Hs. cbn [bind].
    rewrite upd_app_r. unfold item_var at 1. cbn [v_name v_type v_dims].
    set (f' := mkFile F (f_dims F f) _).
    assert (E : f_vars F f' = ((done ++ [item_written it]) ++ map item_var items)%list) by (unfold f'; cbn; rewrite <- app_assoc; reflexivity).
    specialize (IH f' (done ++ [item_written it])%list E).
    rewrite app_length in IH. cbn [length] in IH. rewrite Nat.add_1_r in IH. rewrite IH.
    + rewrite <- app_assoc. reflexivity.
    + eapply Forall_impl; [|exact Hok']. intros a Ha. eapply item_ok_dims; [exact Ha|]. exists []. cbn. now rewrite app_nil_r.
Qed.

(** The state of a writer that has processed [items]; [old] are the variables the file had, [base] its first dimensions. *)
Record inv (base : list (string * nat)) (old : list (variable F)) (items : list item) (w : writer F) : Prop := mkInv {
  inv_dims : exists x, f_dims F (w_file F w) = (base ++ x)%list /\ Forall (fun d => exists k, k <> 0 /\ d = (dim_str k, k)) x;
  inv_texts : forall n k, In (dim_str k, n) (f_dims F (w_file F w)) -> n = k;
  inv_vars : f_vars F (w_file F w) = (old ++ map item_var items)%list;
  inv_entries : w_entries F w = combine (seq (length old) (length items)) (map i_data items);
  inv_items : Forall (item_ok (w_file F w)) items }.
Lemma combine_app {A B} (a a' : list A) (b b' : list B) : length a = length b -> combine (a ++ a')%list (b ++ b')%list = (combine a b ++ combine a' b')%list.
Proof. revert b. induction a as [|x a IH]; intros [|y b] H; cbn in *; try discriminate; [reflexivity|]. rewrite IH by lia. reflexivity. Qed.
Lemma in_names old items name : ~ In name (map (v_name F) old) -> ~ In name (map i_name items) ->
  find_index (fun v => String.eqb (v_name F v) name) (old ++ map item_var items)%list = None.
Proof.
  intros H1 H2. apply find_index_none. intros v Hv. apply String.eqb_neq. intros <-. apply in_app_or in Hv as [Hv|Hv].
  - apply H1. apply in_map. exact Hv.
  - apply in_map_iff in Hv as [it [<- Hit]]. apply H2. cbn. apply in_map. exact Hit.
Qed.
Lemma define_inv base old items w name ids c c' l :
  inv base old items w -> ~ In name (map (v_name F) old) -> ~ In name (map i_name items) ->
  lengths F (w_file F w) ids = Some l -> Forall (fun n => n <> 0) (tl l) -> first_elements F (product l) c = Ok c' ->
  exists w', define F w name ids c = Ok w' /\ inv base old (items ++ [mkItem name ids l c c'])%list w'.
Proof.
  intros [Hd Ht Hv He Hi] N1 N2 Hl Hz Hc. unfold define, def_var, inq_varid. rewrite Hv, (in_names old items name N1 N2), Hl.
  assert (Z : existsb (Nat.eqb 0) (tl l) = false).
  { apply not_true_is_false. intros K. apply existsb_exists in K as [x [Hx Hx']]. rewrite Forall_forall in Hz. apply (Hz x Hx). apply Nat.eqb_eq in Hx'. auto. }
  rewrite Z. cbn [bind fst snd]. eexists. split; [reflexivity|]. constructor; cbn [w_file f_dims f_vars w_entries].
  - exact Hd.
  - exact Ht.
  - rewrite map_app, app_assoc. reflexivity.
  - rewrite He, app_length, map_length, !app_length, seq_app, map_app. cbn [length seq map]. rewrite combine_app by (rewrite seq_length, map_length; reflexivity).
    reflexivity.
  - apply Forall_app. split.
    + eapply Forall_impl; [|exact Hi]. intros a Ha. eapply item_ok_dims; [exact Ha|]. exists []. cbn. now rewrite app_nil_r.
    + constructor; [|constructor]. cbn. split; [|exact Hc]. eapply lengths_dims; [exact Hl|]. exists []. cbn. now rewrite app_nil_r.
Qed.
Lemma put_string_inv base old items w name s :
  inv base old items w -> ~ In name (map (v_name F) old) -> ~ In name (map i_name items) -> s <> "" ->
  exists ids w', put_string F w name s = Ok w' /\ inv base old (items ++ [mkItem name ids [String.length s] (Chars s) (Chars s)])%list w'.
Proof.
  intros I N1 N2 Hs. unfold put_string.
  assert (Len : String.length s <> 0) by (destruct s; [congruence|discriminate]).
  assert (Fe : forall k, k = String.length s -> first_elements F (product [k]) (Chars s) = Ok (Chars s)).
  { intros k ->. unfold product. cbn [fold_right]. rewrite Nat.mul_1_r. cbn. rewrite Nat.leb_refl. do 2 f_equal.
    clear. induction s; cbn; [reflexivity|]. now rewrite IHs. }
  destruct (inq_dimid F (w_file F w) (dim_str (String.length s))) as [i|] eqn:E; cbn [bind fst snd].
  - unfold inq_dimid in E. apply find_index_nth in E as [d [Hd Hd']]. apply String.eqb_eq in Hd'. destruct d as [dn dl]; cbn [fst] in Hd'.
    assert (K : dl = String.length s). { eapply (inv_texts _ _ _ _ I). rewrite <- Hd'. eapply nth_error_In. exact Hd. }
    destruct (define_inv base old items w name [i] (Chars s) (Chars s) [dl] I N1 N2) as [w' [H1 H2]]; [..|subst dl].
    + cbn. rewrite Hd. reflexivity.
    + constructor.
    + apply Fe, K.
    + exists [i], w'. auto.
  - unfold dim, def_dim. rewrite E. destruct (Z.ltb_spec (Z.of_nat (String.length s)) 0); [lia|].
    destruct (Z.eqb_spec (Z.of_nat (String.length s)) 0); [lia|]. cbn [andb bind fst snd]. rewrite Nat2Z.id.
    set (w1 := mkW F _ _).
    assert (I1 : inv base old items w1).
    { destruct I as [[x [Hx Hx']] Ht Hv He Hi]. constructor; unfold w1; cbn [w_file f_dims f_vars w_entries].
      - exists (x ++ [(dim_str (String.length s), String.length s)])%list. rewrite Hx, app_assoc. split; [reflexivity|].
        apply Forall_app. split; [exact Hx'|]. constructor; [|constructor]. exists (String.length s). auto.
      - intros n0 k Hin. apply in_app_or in Hin as [Hin|[Hin|[]]]; [eauto|].
        assert (Q1 := f_equal fst Hin). assert (Q2 := f_equal snd Hin). cbn [fst snd] in Q1, Q2. rewrite <- Q2. apply dim_str_inj. exact Q1.
      - exact Hv.
      - exact He.
      - eapply Forall_impl; [|exact Hi]. intros a Ha. eapply item_ok_dims; [exact Ha|]. eexists. cbn. reflexivity. }
    destruct (define_inv base old items w1 name [length (f_dims F (w_file F w))] (Chars s) (Chars s) [String.length s] I1 N1 N2) as [w' [H1 H2]].
    + unfold w1. cbn. rewrite nth_error_app2 by apply le_n. rewrite Nat.sub_diag. reflexivity.
    + constructor.
    + apply Fe. reflexivity.
    + eexists _, w'. split; [exact H1|exact H2].
Qed.

(** The dimension variables of the program agree with [lens]. *)
Definition dims_agree (base : list (string * nat)) (ds : dim_vars) (lens : list (string * nat)) : Prop :=
  forall x n, len_of lens x = Some n -> exists i d, dim_id ds x = Ok i /\ nth_error base i = Some (d, n).
Lemma dims_agree_ids base ds lens l ns : dims_agree base ds lens -> lens_of lens l = Some ns ->
  exists ids, dim_ids ds l = Ok ids /\ forall f, (exists x, f_dims F f = (base ++ x)%list) -> lengths F f ids = Some ns.
Proof.
  intros A. revert ns. induction l as [|x l IH]; cbn; intros ns H; [injection H as <-; exists []; split; [reflexivity|intros; reflexivity]|].
  destruct (len_of lens x) as [n|] eqn:E; [|discriminate]. destruct (lens_of lens l) as [r|]; [|discriminate]. injection H as <-.
  destruct (A x n E) as [i [d [H1 H2]]]. destruct (IH r eq_refl) as [ids [H3 H4]]. rewrite H1, H3. cbn [bind].
  exists (i :: ids). split; [reflexivity|]. intros f Hf. cbn. rewrite (H4 f Hf). destruct Hf as [y Hy].
  rewrite Hy, nth_error_app1 by (apply nth_error_Some; congruence). rewrite H2. reflexivity.
Qed.
Lemma lengths_app f a b la lb : lengths F f a = Some la -> lengths F f b = Some lb -> lengths F f (a ++ b)%list = Some (la ++ lb)%list.
Proof.
  revert la. induction a as [|i a IH]; cbn; intros la Ha Hb; [injection Ha as <-; exact Hb|].
  destruct (nth_error _ i); [|discriminate]. destruct (lengths F f a) as [r|]; [|discriminate]. injection Ha as <-. rewrite (IH r eq_refl Hb). reflexivity.
Qed.
Lemma lengths_rev f ids l : lengths F f ids = Some l -> lengths F f (rev ids) = Some (rev l).
Proof.
  revert l. induction ids as [|i ids IH]; cbn; intros l H; [injection H as <-; reflexivity|].
  destruct (nth_error (f_dims F f) i) eqn:E; [|discriminate]. destruct (lengths F f ids) as [r|]; [|discriminate]. injection H as <-. cbn [rev].
  apply lengths_app; [apply IH; reflexivity|]. cbn. rewrite E. reflexivity.
Qed.
Lemma product_app l l' : product (l ++ l')%list = product l * product l'.
Proof. unfold product. induction l as [|x l IH]; cbn [app fold_right]; [lia|]. rewrite IH. lia. Qed.
Lemma product_rev l : product (rev l) = product l.
Proof. induction l as [|x l IH]; cbn [rev]; [reflexivity|]. rewrite product_app, IH. unfold product. cbn [fold_right]. lia. Qed.
Lemma tl_rev {A} (l : list A) : tl (rev l) = rev (removelast l).
Proof.
  destruct l as [|y l _] using rev_ind; [reflexivity|]. rewrite rev_app_distr, removelast_last. reflexivity.
Qed.
Lemma run_put_inv base old items w e ds lens name what :
  inv base old items w -> dims_agree base ds lens -> ~ In name (map (v_name F) old) -> ~ In name (map i_name items) -> writable F lens e what ->
  exists it w', (forall when, active F e when = true -> run_put F of_int e ds w (Put when name what) = Ok w')
    /\ i_name it = name /\ denotes F of_int lens e what = Some (i_stored it) /\ shape F lens e what = Some (i_shape it) /\ inv base old (items ++ [it])%list w'.
Proof.
  intros I A N1 N2 W. unfold run_put.
  assert (S0 : forall c, first_elements F (product []) c = Ok c ->
    exists w', define F w name [] c = Ok w' /\ inv base old (items ++ [mkItem name [] [] c c])%list w').
  { intros c Hc. eapply define_inv; [exact I|exact N1|exact N2|reflexivity|constructor|exact Hc]. }
  assert (T0 : forall s, s <> "" -> exists ids w', put_string F w name s = Ok w' /\ inv base old (items ++ [mkItem name ids [String.length s] (Chars s) (Chars s)])%list w').
  { intros s Hs. apply put_string_inv; assumption. }
  destruct what; cbn [writable denotes] in *; try (match goal with
       | |- context [put_int F w name ?v] => destruct (S0 (Ints [v]) eq_refl) as [w' [H1 H2]]
       | |- context [put_float F w name ?v] => destruct (S0 (Floats [v]) eq_refl) as [w' [H1 H2]]
       end; eexists (mkItem name _ _ _ _), w'; split; [intros when ->; exact H1|]; split; [reflexivity|]; split; [reflexivity|]; split; [reflexivity|exact H2]).
  - destruct (T0 _ W) as [ids [w' [H1 H2]]]. eexists (mkItem name _ _ _ _), w'. split; [intros when ->; exact H1|]. split; [reflexivity|]. split; [reflexivity|]. split; [reflexivity|exact H2].
  - destruct (T0 _ W) as [ids [w' [H1 H2]]]. eexists (mkItem name _ _ _ _), w'. split; [intros when ->; exact H1|]. split; [reflexivity|]. split; [reflexivity|]. split; [reflexivity|exact H2].
  - destruct W as [n [Hn Hl]]. destruct (A _ _ Hn) as [i [d [Hi Hd]]]. destruct (inv_dims _ _ _ _ I) as [y [Hx _]].
    destruct (define_inv base old items w name [i] (Ints (m_ints F e x)) (Ints (firstn n (m_ints F e x))) [n] I N1 N2) as [w' [H1 H2]].
    + cbn. rewrite Hx, nth_error_app1 by (apply nth_error_Some; congruence). rewrite Hd. reflexivity.
    + constructor.
    + unfold product. cbn [fold_right]. rewrite Nat.mul_1_r. cbn. destruct (Nat.leb_spec n (length (m_ints F e x))); [reflexivity|lia].
    + eexists (mkItem name _ _ _ _), w'. split; [intros when ->; rewrite Hi; exact H1|]. split; [reflexivity|]. split; [rewrite Hn; reflexivity|]. split; [cbn [shape]; rewrite Hn; reflexivity|exact H2].
  - destruct W as [n [Hn Hl]]. destruct (A _ _ Hn) as [i [d [Hi Hd]]]. destruct (inv_dims _ _ _ _ I) as [y [Hx _]].
    destruct (define_inv base old items w name [i] (Floats (m_array F e x)) (Floats (firstn n (m_array F e x))) [n] I N1 N2) as [w' [H1 H2]].
    + cbn. rewrite Hx, nth_error_app1 by (apply nth_error_Some; congruence). rewrite Hd. reflexivity.
    + constructor.
    + unfold product. cbn [fold_right]. rewrite Nat.mul_1_r. cbn. destruct (Nat.leb_spec n (length (m_array F e x))); [reflexivity|lia].
    + eexists (mkItem name _ _ _ _), w'. split; [intros when ->; rewrite Hi; exact H1|]. split; [reflexivity|]. split; [rewrite Hn; reflexivity|]. split; [cbn [shape]; rewrite Hn; reflexivity|exact H2].
  - destruct W as [ns [Hn [Hl Hz]]]. destruct (dims_agree_ids _ _ _ _ _ A Hn) as [ids [Hi Hd]]. assert (Hx : exists x, f_dims F (w_file F w) = (base ++ x)%list) by (destruct (inv_dims _ _ _ _ I) as [y [Hx _]]; exists y; exact Hx).
    destruct (define_inv base old items w name (rev ids) (Floats (m_array F e x)) (Floats (firstn (fold_right Nat.mul 1 ns) (m_array F e x))) (rev ns) I N1 N2)
      as [w' [H1 H2]].
    + apply lengths_rev, Hd, Hx.
    + rewrite tl_rev. apply Forall_rev. exact Hz.
    + rewrite product_rev. unfold product. cbn. destruct (Nat.leb_spec (fold_right Nat.mul 1 ns) (length (m_array F e x))); [reflexivity|lia].
    + eexists (mkItem name _ _ _ _), w'. split; [intros when ->; rewrite Hi; exact H1|]. split; [reflexivity|]. split; [rewrite Hn; reflexivity|]. split; [cbn [shape]; rewrite Hn; reflexivity|exact H2].
Qed.
Lemma run_puts_inv base old e ds lens : dims_agree base ds lens -> forall puts items w,
  inv base old items w -> NoDup (map (v_name F) old ++ map i_name items ++ map fst (statements F e puts))%list ->
  (forall s, In s (statements F e puts) -> writable F lens e (snd s)) ->
  exists new w', run_puts F of_int e ds w puts = Ok w' /\ inv base old (items ++ new)%list w' /\
    Forall2 (fun s it => i_name it = fst s /\ denotes F of_int lens e (snd s) = Some (i_stored it) /\ shape F lens e (snd s) = Some (i_shape it)) (statements F e puts) new.
Proof.
  intros A. induction puts as [|[when name what] puts IH]; intros items w I ND W.
  - exists [], w. rewrite app_nil_r. split; [reflexivity|]. split; [exact I|constructor].
  - cbn [run_puts]. unfold statements in ND, W |- *. cbn [flat_map] in ND, W |- *. destruct (active F e when) eqn:Ea.
    + cbn [app map fst] in *. rewrite app_assoc in ND. pose proof (NoDup_remove_2 _ _ _ ND) as N. rewrite <- app_assoc in N.
      destruct (run_put_inv base old items w e ds lens name what I A) as [it [w1 [H1 [H2 [H3 [Hsh H4]]]]]].
      * intros K. apply N. apply in_or_app. left. exact K.
      * intros K. apply N. apply in_or_app. right. apply in_or_app. left. exact K.
      * apply (W (name, what)). left. reflexivity.
      * rewrite (H1 when Ea). cbn [bind]. destruct (IH (items ++ [it])%list w1 H4) as [new [w' [H5 [H6 H7]]]].
        -- rewrite map_app. cbn [map]. rewrite H2. rewrite <- !app_assoc in *. exact ND.
        -- intros s Hs. apply W. right. exact Hs.
        -- exists (it :: new), w'. split; [exact H5|]. split; [rewrite <- app_assoc in H6; exact H6|]. constructor; [auto|exact H7].
    + unfold run_put at 1. rewrite Ea. cbn [bind]. exact (IH items w I ND W).
Qed.
Theorem write_file_ok e w0 dims puts ds w lens :
  run_dims F e ([], w0) dims = Ok (ds, w) -> w_entries F w = [] -> dims_agree (f_dims F (w_file F w)) ds lens ->
  (forall n k, In (dim_str k, n) (f_dims F (w_file F w)) -> n = k) ->
  NoDup (map (v_name F) (f_vars F (w_file F w)) ++ map fst (statements F e puts))%list ->
  (forall s, In s (statements F e puts) -> writable F lens e (snd s)) ->
  exists f, write_file F of_int e w0 dims puts = Ok f /\ contains_exactly F of_int lens e (f_vars F (w_file F w)) (statements F e puts) f
    /\ (exists x, f_dims F f = (f_dims F (w_file F w) ++ x)%list /\ Forall (fun d => exists k, k <> 0 /\ d = (dim_str k, k)) x)
    /\ (forall n k, In (dim_str k, n) (f_dims F f) -> n = k).
Proof.
  intros Hr He A T ND W. unfold write_file. rewrite Hr. cbn [bind fst snd].
  destruct (run_puts_inv (f_dims F (w_file F w)) (f_vars F (w_file F w)) e ds lens A puts [] w) as [items [w' [H1 [H2 H3]]]].
  - constructor; [exists []; split; [now rewrite app_nil_r|constructor]|exact T|cbn; now rewrite app_nil_r|rewrite He; reflexivity|constructor].
  - exact ND.
  - exact W.
  - rewrite H1. cbn [bind app] in *. destruct H2 as [Hd Ht Hv Hen Hi]. unfold write_and_close. rewrite Hen, (write_all_items items _ _ Hv Hi).
    eexists. split; [reflexivity|]. split; [|split; [exact Hd|exact Ht]].
    exists (map item_written items). split; [reflexivity|].
    assert (Hi' : Forall (item_ok (mkFile F (f_dims F (w_file F w')) (f_vars F (w_file F w) ++ map item_written items)%list)) items).
    { eapply Forall_impl; [|exact Hi]. intros a Ha. eapply item_ok_dims; [exact Ha|]. exists []. cbn. now rewrite app_nil_r. }
    revert Hi'. set (f := mkFile F _ _). clearbody f. intros Hi'. clear - H3 Hi'.
    induction H3 as [|s it l l' [E1 [E2 E3]] H IH]; cbn; inversion Hi' as [|? ? [K1 K2] Hi'']; subst; constructor; [|apply IH; exact Hi''].
    cbn. split; [exact E1|]. split; [now rewrite E2|]. split; [discriminate|]. rewrite E3. exact K1.
Qed.
End Facts.
