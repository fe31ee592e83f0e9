(** Facts about the state vector of an optimization. *)
From Coq Require Import String Ascii ZArith List Bool Arith Lia.
From Verif Require Import Base BaseFacts FloatOps Tensor Outfile OutfileFacts MScan MScanDims Opt OptSpec.
Import ListNotations.
Local Open Scope list_scope.
Local Open Scope nat_scope.

Lemma upd_mid {A} (pre post : list A) m v : upd (pre ++ m :: post) (length pre) v = pre ++ v :: post.
Proof. induction pre; cbn; congruence. Qed.
Lemma nth_mid {A} (pre post : list A) m : nth_error (pre ++ m :: post) (length pre) = Some m.
Proof. induction pre; cbn; auto. Qed.
Lemma nth_error_ext {A} (l l' : list A) : (forall i, nth_error l i = nth_error l' i) -> l = l'.
Proof.
  revert l'. induction l as [|a l IH]; intros [|b l'] H; auto; try (specialize (H 0); discriminate).
  f_equal; [specialize (H 0); cbn in H; congruence|]. apply IH. intros i. apply (H (S i)).
Qed.

Definition param_dec (p p' : param) : {p = p'} + {p <> p'}.
Proof. decide equality; [apply string_dec|apply Nat.eq_dec|decide equality]. Qed.
Lemma axis_eqb_spec a b : axis_eqb a b = true <-> a = b.
Proof. destruct a, b; cbn; split; congruence. Qed.

Lemma param_name_inj p p' :
  (forall m, p = PNum m \/ p' = PNum m -> In m varied_numbers) -> param_name p = param_name p' -> p = p'.
Proof.
  intros H E. destruct p as [m|a k], p' as [m'|a' k']; cbn [param_name] in E.
  - congruence.
  - assert (Hm := H m (or_introl eq_refl)). cbn in Hm.
    destruct Hm as [<-|[<-|[<-|[<-|[]]]]]; destruct a'; cbn in E; discriminate.
  - assert (Hm := H m' (or_intror eq_refl)). cbn in Hm.
    destruct Hm as [<-|[<-|[<-|[<-|[]]]]]; destruct a; cbn in E; discriminate.
  - assert (a = a') by (destruct a, a'; cbn in E; try reflexivity; discriminate). subst a'.
    apply append_inj in E. apply append_inj in E. f_equal.
    assert (Hr : forall x y, String.append x "]" = String.append y "]" -> x = y).
    { clear. induction x as [|c x IH]; intros [|d y] H; auto; cbn in H.
      - injection H as _ H. destruct y; discriminate.
      - injection H as _ H. destruct x; discriminate.
      - injection H as -> H. f_equal. auto. }
    apply Hr in E. apply to_string_inj; auto.
Qed.

Section Facts.
Context {F : Type} (o : fops F) {Y : Type}.
Notation qobj := (@qobj F).
Notation rest := (@rest F Y).
Notation opt := (@stage F rest).

(** ** The list of the parameters *)
Definition params_num (r : rest) (m : string) : list param := if r_vary_num r m then [PNum m] else [].
Definition axis_at (r : rest) (a : axis) (k : nat) : list param := if nth k (r_vary r a) false then [PAxis a k] else [].
Definition params_axis (r : rest) (a : axis) : list param := flat_map (axis_at r a) (seq 0 (length (r_vary r a))).
Definition params (r : rest) : list param :=
  params_num r "eta_bar" ++ params_num r "sigma0" ++ params_num r "B2c" ++ params_num r "B2s" ++
  params_axis r R0c ++ params_axis r R0s ++ params_axis r Z0c ++ params_axis r Z0s.

Lemma in_params_num r m p : In p (params_num r m) <-> p = PNum m /\ r_vary_num r m = true.
Proof. unfold params_num. destruct (r_vary_num r m); cbn; intuition congruence. Qed.
Lemma in_params_axis r a p : In p (params_axis r a) <-> exists k, p = PAxis a k /\ nth_error (r_vary r a) k = Some true.
Proof.
  unfold params_axis. rewrite in_flat_map. split.
  - intros [k [Hk Hp]]. apply in_seq in Hk. unfold axis_at in Hp.
    destruct (nth k (r_vary r a) false) eqn:E; cbn in Hp; [|tauto].
    destruct Hp as [<-|[]]. exists k. split; auto.
    rewrite (nth_error_nth' (r_vary r a) false) by lia. congruence.
  - intros [k [-> Hk]]. exists k. assert (k < length (r_vary r a)) by (apply nth_error_Some; congruence).
    split; [apply in_seq; lia|]. unfold axis_at. rewrite (nth_error_nth (r_vary r a) k false Hk). left; auto.
Qed.
Lemma in_params (s : opt) p : In p (params (st_rest s)) <-> free s p.
Proof.
  unfold params. repeat rewrite in_app_iff. repeat rewrite in_params_num. repeat rewrite in_params_axis.
  destruct p as [m|a k]; cbn [free varied_numbers In]; split.
  - intros H. repeat match type of H with _ \/ _ => destruct H as [H|H] end;
      try (destruct H as [k [H _]]; discriminate); destruct H as [H V]; injection H as ->; intuition.
  - intros [Hm V]. destruct Hm as [<-|[<-|[<-|[<-|[]]]]]; intuition.
  - intros H. repeat match type of H with _ \/ _ => destruct H as [H|H] end;
      try (destruct H as [H _]; discriminate); destruct H as [k' [H V]]; injection H as -> ->; auto.
  - intros H. destruct a; [do 4 right; left|do 5 right; left|do 6 right; left|do 7 right]; eauto.
Qed.
Lemma NoDup_app {A} (l l' : list A) : NoDup l -> NoDup l' -> (forall x, In x l -> In x l' -> False) -> NoDup (l ++ l').
Proof.
  induction l as [|a l IH]; cbn; intros H H' D; auto. inversion H; subst. constructor.
  - rewrite in_app_iff. intros [I|I]; [auto|apply (D a); auto].
  - apply IH; auto. intros x I I'. apply (D x); auto.
Qed.
Lemma nodup_axis r a : NoDup (params_axis r a).
Proof.
  unfold params_axis. generalize 0 as i. induction (length (r_vary r a)) as [|n IH]; intros i; cbn [seq flat_map]; [constructor|].
  apply NoDup_app; auto.
  - unfold axis_at. destruct (nth i (r_vary r a) false); repeat constructor. intros [].
  - intros p Hp Hf. apply in_flat_map in Hf as [k [Hk Hp']]. apply in_seq in Hk. unfold axis_at in *.
    destruct (nth i (r_vary r a) false); destruct (nth k (r_vary r a) false); cbn in Hp, Hp'; try tauto.
    destruct Hp as [<-|[]]. destruct Hp' as [E|[]]. injection E. lia.
Qed.
Lemma nodup_num r m : NoDup (params_num r m).
Proof. unfold params_num. destruct (r_vary_num r m); repeat constructor. intros []. Qed.
Lemma nodup_params r : NoDup (params r).
Proof.
  unfold params.
  repeat (apply NoDup_app; [first [apply nodup_num|apply nodup_axis]| |
    intros p H H'; repeat rewrite in_app_iff in H';
    repeat rewrite in_params_num in *; repeat rewrite in_params_axis in *;
    repeat match type of H' with _ \/ _ => destruct H' as [H'|H'] end;
    repeat match goal with H : exists _, _ |- _ => destruct H | H : _ /\ _ |- _ => destruct H end; subst; discriminate]).
  apply nodup_axis.
Qed.

(** ** init_parameters *)
Lemma name_num_eq r m n ns : name_num r m (n, ns) = (n + length (params_num r m), ns ++ map param_name (params_num r m)).
Proof.
  unfold name_num, params_num. destruct (r_vary_num r m); cbn; f_equal; try lia. symmetry; apply app_nil_r.
Qed.
Lemma name_axis_eq r a n ns : name_axis r a (n, ns) = Ok (n + length (params_axis r a), ns ++ map param_name (params_axis r a)).
Proof.
  unfold name_axis, for_loop, params_axis.
  assert (H : forall c i n ns, i + c = length (r_vary r a) ->
    for_from i c (fun j st => do v <- aget (r_vary r a) j;
      if v : bool then Ok (S (fst st), snd st ++ [String.append (axis_name a) (String.append "[" (String.append (to_string j) "]"))]) else Ok st)
      (n, ns) = Ok (n + length (flat_map (axis_at r a) (seq i c)), ns ++ map param_name (flat_map (axis_at r a) (seq i c)))).
  { clear n ns. induction c as [|c IH]; intros i n ns Hi; cbn [for_from seq flat_map].
    - cbn. rewrite Nat.add_0_r, app_nil_r. reflexivity.
    - rewrite (aget_ok (r_vary r a) i false) by lia. cbn [bind]. unfold axis_at at 1 3.
      destruct (nth i (r_vary r a) false); cbn [bind fst snd]; rewrite IH by lia; cbn [app length map]; [|reflexivity].
      f_equal. f_equal; [lia|]. rewrite <- app_assoc. reflexivity. }
  apply (H (length (r_vary r a)) 0 n ns). reflexivity.
Qed.
Lemma init_parameters_eq (s : opt) : init_parameters s =
  if length (params (st_rest s)) <? 1 then Throw "There must be at least 1 parameter varied."
  else Ok (set_rest (set_parameters (length (params (st_rest s))) (map param_name (params (st_rest s))) (st_rest s)) s).
Proof.
  unfold init_parameters. repeat rewrite name_num_eq. repeat (rewrite name_axis_eq; cbn [bind]). cbn [fst snd].
  set (r := st_rest s).
  assert (E : map param_name (params r) = ((((((((nil ++ map param_name (params_num r "eta_bar")) ++ map param_name (params_num r "sigma0")) ++
     map param_name (params_num r "B2c")) ++ map param_name (params_num r "B2s")) ++ map param_name (params_axis r R0c)) ++
     map param_name (params_axis r R0s)) ++ map param_name (params_axis r Z0c)) ++ map param_name (params_axis r Z0s))).
  { unfold params. repeat rewrite map_app. repeat rewrite <- app_assoc. reflexivity. }
  rewrite <- E.
  match goal with |- context [?n <? 1] => assert (En : n = length (params r)) end.
  { unfold params. repeat rewrite app_length. lia. }
  rewrite En. reflexivity.
Qed.

(** ** set_state_vector *)
Definition val (q : qobj) (p : param) : F :=
  match p with PNum m => qo_num q m | PAxis a k => nth k (get_axis q a) (fzero o) end.
Definition Writes (W : nat * list F -> outcome (nat * list F)) (vs : list F) : Prop :=
  forall pre mid post, length mid = length vs ->
    W (length pre, pre ++ mid ++ post) = Ok (length (pre ++ vs), (pre ++ vs) ++ post).
Lemma Writes_nil : Writes (fun st => Ok st) [].
Proof. intros pre mid post H. destruct mid; [|discriminate]. rewrite app_nil_r. reflexivity. Qed.
Lemma Writes_put v : Writes (put v) [v].
Proof.
  intros pre mid post H. destruct mid as [|m [|? ?]]; try discriminate. unfold put. cbn [fst snd].
  rewrite aset_ok by (rewrite app_length; cbn; lia). cbn [bind app].
  rewrite upd_mid, app_length. cbn. rewrite <- app_assoc. cbn. do 2 f_equal. lia.
Qed.
Lemma Writes_bind W1 W2 v1 v2 : Writes W1 v1 -> Writes W2 v2 -> Writes (fun st => do y <- W1 st; W2 y) (v1 ++ v2).
Proof.
  intros H1 H2 pre mid post H. rewrite app_length in H.
  rewrite <- (firstn_skipn (length v1) mid). rewrite <- app_assoc. rewrite H1 by (rewrite firstn_length; lia).
  cbn [bind]. rewrite H2 by (rewrite skipn_length; lia). repeat rewrite <- app_assoc. reflexivity.
Qed.
Lemma Writes_ext W W' v : (forall x, W x = W' x) -> Writes W v -> Writes W' v.
Proof. intros E H pre mid post L. rewrite <- E. auto. Qed.
Lemma pack_num_w (s : opt) m : Writes (pack_num s m) (map (val (st_q s)) (params_num (st_rest s) m)).
Proof.
  unfold params_num. apply (Writes_ext (fun st => if r_vary_num (st_rest s) m then put (qo_num (st_q s) m) st else Ok st)); [reflexivity|].
  destruct (r_vary_num (st_rest s) m); [apply Writes_put|apply Writes_nil].
Qed.
Lemma for_from_bind {S} i n (body : nat -> S -> outcome S) st :
  for_from i (Datatypes.S n) body st = bind (body i st) (for_from (Datatypes.S i) n body).
Proof. reflexivity. Qed.
Lemma pack_axis_w (s : opt) a : flagged s -> Writes (pack_axis s a) (map (val (st_q s)) (params_axis (st_rest s) a)).
Proof.
  intros Hf. unfold params_axis. specialize (Hf a). unfold Opt.pack_axis, for_loop. set (vary := r_vary (st_rest s) a) in *.
  assert (H : forall c i, i + c = length vary -> Writes (for_from i c (fun k st => do v <- aget vary k;
      if v : bool then do x <- aget (get_axis (st_q s) a) k; put x st else Ok st))
      (map (val (st_q s)) (flat_map (axis_at (st_rest s) a) (seq i c)))).
  { induction c as [|c IH]; intros i Hi; cbn [seq flat_map]; [apply Writes_nil|].
    rewrite map_app. eapply Writes_ext; [intros st; symmetry; apply for_from_bind|].
    apply (Writes_bind _ (for_from (S i) c _)); [|apply IH; lia].
    apply (Writes_ext (fun st => if nth i vary false then put (nth i (get_axis (st_q s) a) (fzero o)) st else Ok st)).
    - intros st. rewrite (aget_ok vary i false) by lia. cbn [bind]. destruct (nth i vary false); auto.
      rewrite (aget_ok (get_axis (st_q s) a) i (fzero o)) by lia. reflexivity.
    - unfold axis_at. fold vary. destruct (nth i vary false); [apply Writes_put|apply Writes_nil]. }
  apply (H (length vary) 0). reflexivity.
Qed.
Lemma bind_assoc {A B C} (x : outcome A) (f : A -> outcome B) (g : B -> outcome C) :
  (do y <- (do z <- x; f z); g y) = (do z <- x; do y <- f z; g y).
Proof. destruct x; reflexivity. Qed.
Lemma bind_ext {A B} (x : outcome A) (f g : A -> outcome B) : (forall a, f a = g a) -> bind x f = bind x g.
Proof. intros H. destruct x; cbn; auto. Qed.
Lemma set_state_vector_eq (s : opt) buf : flagged s -> length buf = length (params (st_rest s)) ->
  r_n_parameters (st_rest s) = length (params (st_rest s)) ->
  set_state_vector s buf = Ok (map (val (st_q s)) (params (st_rest s))).
Proof.
  intros Hf Hb Hn. set (r := st_rest s) in *.
  pose proof (Writes_bind _ _ _ _ (pack_num_w s "eta_bar")
    (Writes_bind _ _ _ _ (pack_num_w s "sigma0") (Writes_bind _ _ _ _ (pack_num_w s "B2c") (Writes_bind _ _ _ _ (pack_num_w s "B2s")
    (Writes_bind _ _ _ _ (pack_axis_w s R0c Hf) (Writes_bind _ _ _ _ (pack_axis_w s R0s Hf)
    (Writes_bind _ _ _ _ (pack_axis_w s Z0c Hf) (pack_axis_w s Z0s Hf)))))))
    [] buf []) as E.
  repeat rewrite <- map_app in E. fold r in E. change (params_num r "eta_bar" ++ _) with (params r) in E.
  rewrite map_length in E. specialize (E Hb). cbn [app length] in E. repeat rewrite app_nil_r in E. rewrite map_length in E.
  unfold set_state_vector. fold r.
  assert (E' : (do st <- pack_num s "eta_bar" (0, buf); do st <- pack_num s "sigma0" st; do st <- pack_num s "B2c" st;
    do st <- pack_num s "B2s" st; do st <- Opt.pack_axis s R0c st; do st <- Opt.pack_axis s R0s st; do st <- Opt.pack_axis s Z0c st;
    do st <- Opt.pack_axis s Z0s st; if fst st =? r_n_parameters r then Ok (snd st) else Throw "assertion j == n_parameters failed") =
    (do st <- Ok (length (params r), map (val (st_q s)) (params r)); if fst st =? r_n_parameters r then Ok (snd st) else Throw "assertion j == n_parameters failed")).
  { rewrite <- E. repeat (rewrite bind_assoc; apply bind_ext; intros ?). reflexivity. }
  rewrite E'. cbn [bind fst snd]. rewrite Hn, Nat.eqb_refl. reflexivity.
Qed.

(** ** unpack_state_vector *)
Definition write (p : param) (v : F) (q : qobj) : qobj :=
  match p with PNum m => set_q_num m v q | PAxis a k => set_axis a (upd (get_axis q a) k v) q end.
Fixpoint assign (ps : list param) (vs : list F) (q : qobj) : qobj :=
  match ps, vs with p :: ps', v :: vs' => assign ps' vs' (write p v q) | _, _ => q end.
Definition sized (r : rest) (q : qobj) : Prop := forall a, length (r_vary r a) = length (get_axis q a).

Lemma get_set_axis a b l (q : qobj) : get_axis (set_axis a l q) b = if axis_eqb b a then l else get_axis q b.
Proof. destruct a, b; reflexivity. Qed.
Lemma get_write p v q a : get_axis (write p v q) a =
  match p with PAxis b k => if axis_eqb a b then upd (get_axis q a) k v else get_axis q a | _ => get_axis q a end.
Proof.
  destruct p as [m|b k]; cbn [write]; [destruct a; reflexivity|]. rewrite get_set_axis.
  destruct (axis_eqb a b) eqn:E; auto. apply axis_eqb_spec in E. subst. reflexivity.
Qed.
Lemma write_length p v q a : length (get_axis (write p v q) a) = length (get_axis q a).
Proof. rewrite get_write. destruct p; auto. destruct (axis_eqb a a0); auto. apply upd_length. Qed.
Lemma assign_length ps : forall vs q a, length (get_axis (assign ps vs q) a) = length (get_axis q a).
Proof. induction ps as [|p ps IH]; intros [|v vs] q a; cbn [assign]; auto. rewrite IH. apply write_length. Qed.
Lemma assign_helicity ps : forall vs q, qo_helicity (assign ps vs q) = qo_helicity q.
Proof.
  induction ps as [|p ps IH]; intros [|v vs] q; cbn [assign]; auto. rewrite IH. destruct p as [m|a k]; [reflexivity|].
  destruct a; reflexivity.
Qed.
Lemma assign_sized r ps vs q : sized r q -> sized r (assign ps vs q).
Proof. intros H a. rewrite assign_length. auto. Qed.
Lemma assign_app p1 : forall v1 p2 v2 q, length v1 = length p1 -> assign (p1 ++ p2) (v1 ++ v2) q = assign p2 v2 (assign p1 v1 q).
Proof. induction p1 as [|p p1 IH]; intros [|v v1] p2 v2 q H; cbn in *; try discriminate; auto. Qed.

(** Is the parameter there? *)
Definition present (q : qobj) (p : param) : Prop := match p with PNum _ => True | PAxis a k => k < length (get_axis q a) end.
Lemma value_write p v q p' : present q p -> value (write p v q) p' = if param_dec p p' then Some v else value q p'.
Proof.
  intros Hp. destruct p' as [m'|a' k'].
  - cbn [value]. destruct p as [m|a k].
    + cbn. unfold set_num. destruct (param_dec (PNum m) (PNum m')) as [E|E].
      * injection E as ->. rewrite String.eqb_refl. reflexivity.
      * destruct (String.eqb_spec m' m); [congruence|reflexivity].
    + destruct (param_dec (PAxis a k) (PNum m')); [discriminate|]. destruct a; reflexivity.
  - cbn [value]. rewrite get_write. destruct p as [m|a k].
    + destruct (param_dec (PNum m) (PAxis a' k')); [discriminate|]. reflexivity.
    + destruct (param_dec (PAxis a k) (PAxis a' k')) as [E|E].
      * injection E as -> ->. replace (axis_eqb a' a') with true by (symmetry; apply axis_eqb_spec; auto).
        apply nth_error_upd_same. exact Hp.
      * destruct (axis_eqb a' a) eqn:Ea; auto. apply axis_eqb_spec in Ea. subst a'.
        apply nth_error_upd_other. congruence.
Qed.
Lemma present_write p v q p' : present q p' <-> present (write p v q) p'.
Proof. destruct p' as [m|a k]; cbn; [tauto|]. rewrite write_length. tauto. Qed.
Lemma value_assign_other ps : forall vs q p, Forall (present q) ps -> ~ In p ps -> value (assign ps vs q) p = value q p.
Proof.
  induction ps as [|p0 ps IH]; intros [|v vs] q p Hp Hn; cbn [assign]; auto. inversion Hp; subst.
  rewrite IH.
  - rewrite value_write by auto. destruct (param_dec p0 p); auto. subst. exfalso. apply Hn. left; auto.
  - eapply Forall_impl; [|eassumption]. intros x. apply present_write.
  - intros Hi. apply Hn. right; auto.
Qed.
Lemma value_assign ps : forall vs q j p v, NoDup ps -> Forall (present q) ps ->
  nth_error ps j = Some p -> nth_error vs j = Some v -> value (assign ps vs q) p = Some v.
Proof.
  induction ps as [|p0 ps IH]; intros [|v0 vs] q j p v Hd Hp Ej Ev; try (destruct j; discriminate).
  cbn [assign]. inversion Hp; subst. inversion Hd; subst. destruct j as [|j].
  - injection Ej as ->. injection Ev as ->. rewrite value_assign_other; auto.
    + rewrite value_write by auto. destruct (param_dec p p); congruence.
    + eapply Forall_impl; [|eassumption]. intros x. apply present_write.
  - eapply IH; eauto. eapply Forall_impl; [|eassumption]. intros x. apply present_write.
Qed.
Lemma value_val q p : present q p -> value q p = Some (val q p).
Proof. destruct p as [m|a k]; cbn; intros H; auto. apply nth_error_nth'. auto. Qed.
Lemma params_present r q : sized r q -> Forall (present q) (params r).
Proof.
  intros H. apply Forall_forall. intros p Hp. unfold params in Hp. repeat rewrite in_app_iff in Hp.
  repeat rewrite in_params_num in Hp. repeat rewrite in_params_axis in Hp.
  destruct p as [m|a k]; cbn [present]; auto.
  assert (E : nth_error (r_vary r a) k = Some true).
  { repeat match type of Hp with _ \/ _ => destruct Hp as [Hp|Hp] end;
      try (destruct Hp as [Hp _]; discriminate); destruct Hp as [k' [E V]]; injection E as -> ->; auto. }
  rewrite <- H. apply nth_error_Some. congruence.
Qed.

Definition Reads (r : rest) (U : list F -> nat * qobj -> outcome (nat * qobj)) (ps : list param) : Prop :=
  forall pre mid post q, length mid = length ps -> sized r q ->
    U (pre ++ mid ++ post) (length pre, q) = Ok (length (pre ++ mid), assign ps mid q).
Lemma Reads_nil r : Reads r (fun x st => Ok st) [].
Proof. intros pre mid post q H _. destruct mid; [|discriminate]. rewrite app_nil_r. reflexivity. Qed.
Lemma Reads_bind r U1 U2 p1 p2 : Reads r U1 p1 -> Reads r U2 p2 -> Reads r (fun x st => do y <- U1 x st; U2 x y) (p1 ++ p2).
Proof.
  intros H1 H2 pre mid post q H Hs. rewrite app_length in H.
  rewrite <- (firstn_skipn (length p1) mid). set (m1 := firstn (length p1) mid). set (m2 := skipn (length p1) mid).
  assert (L1 : length m1 = length p1) by (unfold m1; rewrite firstn_length; lia).
  assert (L2 : length m2 = length p2) by (unfold m2; rewrite skipn_length; lia).
  rewrite <- app_assoc. rewrite H1 by auto. cbn [bind]. rewrite app_assoc. rewrite H2 by auto using assign_sized.
  rewrite assign_app by auto. rewrite <- app_assoc. reflexivity.
Qed.
Lemma Reads_ext r U U' ps : (forall x st, sized r (snd st) -> U x st = U' x st) -> Reads r U ps -> Reads r U' ps.
Proof. intros E H pre mid post q L Hs. rewrite <- E by auto. auto. Qed.
Lemma unpack_num_r r m : Reads r (fun x => unpack_num r x m) (params_num r m).
Proof.
  unfold params_num, unpack_num. destruct (r_vary_num r m); [|apply Reads_nil].
  intros pre mid post q H Hs. destruct mid as [|v [|? ?]]; try discriminate. cbn [fst snd app].
  rewrite (aget_nth_error _ _ _ (nth_mid pre post v)). cbn [bind assign write]. rewrite app_length. cbn. do 2 f_equal. lia.
Qed.
Lemma unpack_axis_r r a : Reads r (fun x => unpack_axis r x a) (params_axis r a).
Proof.
  unfold params_axis, unpack_axis, for_loop. set (vary := r_vary r a).
  assert (H : forall c i, i + c = length vary -> Reads r (fun x => for_from i c (fun k st => do v <- aget vary k;
      if v : bool then do y <- aget x (fst st); do l <- aset (get_axis (snd st) a) k y; Ok (S (fst st), set_axis a l (snd st)) else Ok st))
      (flat_map (axis_at r a) (seq i c))).
  { induction c as [|c IH]; intros i Hi; cbn [seq flat_map]; [apply Reads_nil|].
    eapply Reads_ext; [intros x st _; symmetry; apply for_from_bind|].
    apply (Reads_bind r (fun x st => _) (fun x => for_from (S i) c _)); [|apply IH; lia].
    unfold axis_at. fold vary.
    eapply (Reads_ext r (fun x st => if nth i vary false then do y <- aget x (fst st); do l <- aset (get_axis (snd st) a) i y; Ok (S (fst st), set_axis a l (snd st)) else Ok st)).
    - intros x st _. rewrite (aget_ok vary i false) by lia. reflexivity.
    - destruct (nth i vary false); [|apply Reads_nil].
      intros pre mid post q L Hs. destruct mid as [|v [|? ?]]; try discriminate. cbn [fst snd app].
      rewrite (aget_nth_error _ _ _ (nth_mid pre post v)). cbn [bind]. specialize (Hs a). fold vary in Hs.
      rewrite aset_ok by lia. cbn [bind assign write]. rewrite app_length. cbn. do 2 f_equal. lia. }
  apply (H (length vary) 0). reflexivity.
Qed.
Lemma unpack_eq (s : opt) x : flagged s -> length x = length (params (st_rest s)) ->
  r_n_parameters (st_rest s) = length (params (st_rest s)) ->
  unpack_state_vector x s = Ok (with_q (assign (params (st_rest s)) x (st_q s)) (r_q (st_rest s)) s).
Proof.
  intros Hf Hx Hn. set (r := st_rest s) in *.
  pose proof (Reads_bind r _ _ _ _ (unpack_num_r r "eta_bar")
    (Reads_bind r _ _ _ _ (unpack_num_r r "sigma0") (Reads_bind r _ _ _ _ (unpack_num_r r "B2c") (Reads_bind r _ _ _ _ (unpack_num_r r "B2s")
    (Reads_bind r _ _ _ _ (unpack_axis_r r R0c) (Reads_bind r _ _ _ _ (unpack_axis_r r R0s)
    (Reads_bind r _ _ _ _ (unpack_axis_r r Z0c) (unpack_axis_r r Z0s)))))))
    [] x [] (st_q s)) as E.
  change (params_num r "eta_bar" ++ _) with (params r) in E. specialize (E Hx Hf). cbn [app length] in E. rewrite app_nil_r in E.
  unfold unpack_state_vector. fold r.
  assert (E' : (do st <- unpack_num r x "eta_bar" (0, st_q s); do st <- unpack_num r x "sigma0" st; do st <- unpack_num r x "B2c" st;
    do st <- unpack_num r x "B2s" st; do st <- unpack_axis r x R0c st; do st <- unpack_axis r x R0s st; do st <- unpack_axis r x Z0c st;
    do st <- unpack_axis r x Z0s st; if fst st =? r_n_parameters r then Ok (with_q (snd st) (r_q r) s) else Throw "assertion j == n_parameters failed") =
    (do st <- Ok (length x, assign (params r) x (st_q s)); if fst st =? r_n_parameters r then Ok (with_q (snd st) (r_q r) s) else Throw "assertion j == n_parameters failed")).
  { rewrite <- E. repeat (rewrite bind_assoc; apply bind_ext; intros ?). reflexivity. }
  rewrite E'. cbn [bind fst snd]. rewrite Hn, Hx, Nat.eqb_refl. reflexivity.
Qed.
Lemma present_value q p : ~ present q p -> value q p = None.
Proof. destruct p as [m|a k]; cbn; intros H; [tauto|]. apply nth_error_None. lia. Qed.
Lemma assign_val r q : sized r q -> forall p, value (assign (params r) (map (val q) (params r)) q) p = value q p.
Proof.
  intros Hs p. destruct (in_dec param_dec p (params r)) as [Hi|Hi].
  - apply In_nth_error in Hi as [j Hj].
    rewrite (value_assign (params r) _ q j p (val q p)); auto using nodup_params, params_present.
    + symmetry. apply value_val. pose proof (params_present r q Hs) as Hp. rewrite Forall_forall in Hp. apply Hp.
      eapply nth_error_In; eauto.
    + apply map_nth_error; auto.
  - apply value_assign_other; auto using params_present.
Qed.
Lemma same_config_axes (q q' : qobj) : same_config q q' -> forall a, get_axis q' a = get_axis q a.
Proof. intros [H _] a. apply nth_error_ext. intros k. apply (H (PAxis a k)). Qed.
Lemma val_value q q' p : value q' p = value q p -> val q' p = val q p.
Proof.
  destruct p as [m|a k]; cbn; intros H; [congruence|].
  destruct (nth_error (get_axis q a) k) eqn:E.
  - rewrite (nth_error_nth _ _ (fzero o) E), (nth_error_nth _ _ (fzero o) H). reflexivity.
  - apply nth_error_None in E. apply nth_error_None in H. rewrite nth_overflow, nth_overflow by auto. reflexivity.
Qed.
Lemma map_val_assign r q x : sized r q -> length x = length (params r) -> map (val (assign (params r) x q)) (params r) = x.
Proof.
  intros Hs Hx. apply nth_error_ext. intros j. rewrite nth_error_map.
  destruct (nth_error (params r) j) as [p|] eqn:E; cbn.
  - destruct (nth_error x j) as [v|] eqn:Ev.
    + pose proof (value_assign (params r) x q j p v (nodup_params r) (params_present r q Hs) E Ev) as H.
      f_equal. destruct p as [m|a k]; cbn in *; [congruence|]. apply nth_error_nth. auto.
    + apply nth_error_None in Ev. assert (j < length (params r)) by (apply nth_error_Some; congruence). lia.
  - symmetry. apply nth_error_None. apply nth_error_None in E. lia.
Qed.
End Facts.
