(** Several stages of optimization (MultiOpt::optimize): proofs. *)
From Coq Require Import String ZArith List Bool Arith Lia.
From Verif Require Import Base BaseFacts FloatOps Tensor TensorFacts Outfile OutfileFacts MScan MScanSpec MScanDims ScanFacts Alloc AllocFacts
  Opt OptSpec OptState OptResid OptRun OptEnd.
Import ListNotations.
Local Open Scope list_scope.
Local Open Scope nat_scope.

Section Multi.
Context {F : Type} (o : fops F) (fsqrt : F -> F) (of_Z : Z -> F) {Y : Type}.
Notation opt := (@stage F (@rest F Y)).
Notation multiopt := (@multiopt F (@rest F Y)).
Variable rt : @routines F Y.
Variable gsl : nat -> opt -> Z -> list F -> list (@event F).
Variable junk : nat -> list F.
Notation run := (run_opt o fsqrt of_Z rt gsl junk).
Notation stages := (run_stages o fsqrt of_Z rt gsl junk).

Variable fit : @qobj F -> @qextra F Y -> Prop.
Hypothesis Hqsc : qsc_ok fit rt.
Hypothesis Hgsl : gsl_ok gsl.
Hypothesis Hjunk : forall n, length (junk n) = n.

Definition prev_q (prev : option opt) : option (@qobj F * @qextra F Y) :=
  match prev with Some s => Some (st_q s, r_q (st_rest s)) | None => None end.
Definition rect (n : nat) (q : @qobj F) : Prop := forall a, length (get_axis q a) = n.

(** What a stage leaves behind. *)
Lemma run_rect (s s' : opt) l : input_ok s -> run s = Ok (s', l) ->
  rect (n_modes s + st_fourier_refine s) (st_q s') /\ flagged s /\ same_settings s s' /\
  HistSized s s' /\ (0 <= r_max_iter (st_rest s))%Z /\
  r_n_evals (st_rest s') = (r_n_evals (st_rest s) + Z.of_nat (length (filter (fun e => negb (fst e)) l)))%Z /\
  qx_nfp (r_q (st_rest s')) = qx_nfp (r_q (st_rest s)) /\ nphi_limits (qx_nphi (r_q (st_rest s'))) /\
  same_extra (r_q (st_rest s)) (r_q (st_rest s')).
Proof.
  intros Hs E. pose proof (run_opt_safe o fsqrt of_Z rt gsl junk fit Hqsc Hgsl Hjunk s Hs) as D. rewrite E in D. cbn [safe] in D.
  destruct D as (s1 & Ea & R & S & I & X & N & V & Ev & Hf & Hf1 & [(j & Hj & P) Hh L Fe En Sg _]). cbn [fst snd] in *.
  destruct S as (S1 & S2 & S3 & S4 & S5).
  split; [|split; [exact Hf|split; [|split; [|split; [|split; [|split; [|split]]]]]]].
  - intros a. rewrite (ph_len o s1 j s' P a), S2. f_equal. apply (modes_same s s1 I Hs R0c).
  - split; [rewrite (ph_num o s1 j s' P); auto|]. split; [rewrite (ph_fr o s1 j s' P); auto|]. split; [rewrite (ph_max o s1 j s' P); auto|].
    split; [rewrite (ph_nphis o s1 j s' P); auto|]. rewrite (ph_vnum o s1 j s' P); auto.
  - destruct (ph_hist o s1 j s' P) as [A B C].
    assert (El : length (qo_R0c (st_q s1)) = length (qo_R0c (st_q s))) by (apply (modes_same s s1 I Hs R0c)).
    constructor; rewrite <- ?S3, <- ?S2, <- ?El; auto.
  - rewrite <- S3. apply (rd_max o s1 R).
  - rewrite Fe, Ev. reflexivity.
  - rewrite (proj1 (ph_extra o s1 j s' P)). apply (proj1 X).
  - apply (ph_nphi o s1 j s' P).
  - eapply same_extra_trans; [exact X|apply (ph_extra o s1 j s' P)].
Qed.

Definition chained (prev : option opt) (opts : list opt) (ys : list (opt * list (bool * opt))) : Prop :=
  length ys = length opts /\
  forall i s s' l, nth_error opts i = Some s -> nth_error ys i = Some (s', l) ->
    exists start, continues (previous prev (map fst ys) i) s start /\ input_ok start /\ run start = Ok (s', l).

Lemma limits_mono n m nfp : n <= m -> 1 <= n -> limits m nfp -> limits n nfp.
Proof. unfold limits. intros H1 H2 (A & B & C). split; [lia|]. split; [exact B|]. nia. Qed.
Lemma modes_cons n (s : opt) opts : modes_before n (s :: opts) (length (s :: opts)) = modes_before (n + st_fourier_refine s) opts (length opts).
Proof.
  unfold modes_before. rewrite !firstn_all. cbn [map fold_right]. induction (map st_fourier_refine opts) as [|x l IH]; cbn [fold_right]; lia.
Qed.
Lemma modes_first n (s : opt) opts : n + st_fourier_refine s <= modes_before n (s :: opts) (length (s :: opts)).
Proof. rewrite modes_cons. unfold modes_before. generalize (map st_fourier_refine (firstn (length opts) opts)). induction l; cbn; lia. Qed.
Lemma stages_safe : forall opts prev n, Forall nphi_ok opts ->
  match prev with
  | None => forall s, nth_error opts 0 = Some s -> input_ok s /\ limits (modes_before (n_modes s) opts (length opts)) (qx_nfp (r_q (st_rest s)))
  | Some s0 => exists k, rect k (st_q s0) /\ 1 <= k /\ limits (modes_before k opts (length opts)) (qx_nfp (r_q (st_rest s0))) /\ nphi_limits (qx_nphi (r_q (st_rest s0)))
  end ->
  safe (fun _ => True) (fun z => chained prev opts (fst z) /\ snd z = fold_left (fun a y => (a + r_n_evals (st_rest (fst y)))%Z) (fst z) n) (stages (prev_q prev) opts n).
Proof.
  induction opts as [|s opts IH]; intros prev n Hn Hp; cbn [run_stages].
  - cbn [safe fst snd]. split; [|reflexivity]. split; [reflexivity|]. intros [|i] s s' l H; discriminate.
  - inversion Hn as [|? ? Hn1 Hn2]; subst.
    set (start := take_q (prev_q prev) s).
    assert (Hc : continues prev s start) by (destruct prev; reflexivity).
    assert (Hi : input_ok start).
    { destruct prev as [s0|]; [|apply Hp; reflexivity]. destruct Hp as (k & Hk & K1 & K2 & K3).
      assert (En : n_modes start = k) by (apply (Hk R0c)).
      split; [|split; [exact Hn1|split; [lia|split; [|exact K3]]]].
      - intros a. change (st_q start) with (st_q s0). rewrite Hk, En. reflexivity.
      - rewrite En. change (qx_nfp (r_q (st_rest start))) with (qx_nfp (r_q (st_rest s0))). change (st_fourier_refine start) with (st_fourier_refine s).
        eapply limits_mono; [|lia|exact K2]. apply modes_first. }
    assert (Hlim : limits (modes_before (n_modes start) (s :: opts) (length (s :: opts))) (qx_nfp (r_q (st_rest start)))).
    { destruct prev as [s0|]; [|apply (Hp s); reflexivity]. destruct Hp as (k & Hk & K1 & K2 & K3).
      assert (En : n_modes start = k) by (apply (Hk R0c)). rewrite En. exact K2. }
    pose proof (run_opt_safe o fsqrt of_Z rt gsl junk fit Hqsc Hgsl Hjunk start Hi) as Hsafe.
    destruct (run start) as [[s' l]|e|e] eqn:E; cbn [bind safe] in *; auto. cbn [fst].
    destruct (run_rect start s' l Hi E) as (Hr & _ & _ & _ & _ & _ & Hfp & Hnl & _).
    eapply safe_bind; [apply (IH (Some s') (n + r_n_evals (st_rest s'))%Z Hn2); exists (n_modes start + st_fourier_refine start); split; [exact Hr|]|].
    { split; [destruct Hi as (_ & _ & Hi & _); lia|]. split; [|exact Hnl]. rewrite Hfp. assert (Efr : st_fourier_refine start = st_fourier_refine s) by (destruct prev; reflexivity). rewrite Efr. rewrite <- (modes_cons (n_modes start) s opts). exact Hlim. }
    intros [ys n'] ((L & C) & Hn'). cbn [safe fst snd] in *. split; [|exact Hn'].
    split; [cbn; congruence|]. intros [|i] t t' lt Ht Ht'.
    + cbn in Ht, Ht'. injection Ht as <-. injection Ht' as <- <-. exists start. cbn [previous]. auto.
    + cbn in Ht, Ht'. destruct (C i t t' lt Ht Ht') as (st & A & B & D). exists st. split; auto.
      destruct i; cbn [previous map nth_error fst] in *; exact A.
Qed.
(** If the stages end with an exception, it is that of one of the stages. *)
Lemma modes_shift k (s : opt) opts i : modes_before k (s :: opts) (S i) = modes_before (k + st_fourier_refine s) opts i.
Proof.
  unfold modes_before. cbn [firstn map fold_right]. induction (map st_fourier_refine (firstn i opts)) as [|x l IH]; cbn [fold_right]; lia.
Qed.
Lemma stages_throw : forall opts prev n k x0, Forall nphi_ok opts -> limits (modes_before k opts (length opts)) (qx_nfp x0) -> 1 <= k ->
  match prev with
  | None => forall s, nth_error opts 0 = Some s -> input_ok s /\ n_modes s = k /\ same_extra x0 (r_q (st_rest s))
  | Some s0 => rect k (st_q s0) /\ nphi_limits (qx_nphi (r_q (st_rest s0))) /\ same_extra x0 (r_q (st_rest s0))
  end ->
  forall w, stages (prev_q prev) opts n = Throw w ->
  exists i s start done n', nth_error opts i = Some s /\ stages (prev_q prev) (firstn i opts) n = Ok (done, n') /\ continues (previous prev (map fst done) i) s start /\
    n_modes start = modes_before k opts i /\ same_extra x0 (r_q (st_rest start)) /\ input_ok start /\ run start = Throw w.
Proof.
  induction opts as [|s opts IH]; intros prev n k x0 Hn Hlim Hk Hp w; cbn [run_stages]; [discriminate|].
  inversion Hn as [|? ? Hn1 Hn2]; subst. set (start := take_q (prev_q prev) s).
  assert (Hc : continues prev s start) by (destruct prev; reflexivity).
  assert (Hi : input_ok start /\ n_modes start = k /\ same_extra x0 (r_q (st_rest start))).
  { destruct prev as [s0|]; [|apply Hp; reflexivity]. destruct Hp as (Hr & K3 & Hx).
    assert (En : n_modes start = k) by (apply (Hr R0c)). split; [|split; [exact En|exact Hx]].
    split; [|split; [exact Hn1|split; [lia|split; [|exact K3]]]].
    - intros a. change (st_q start) with (st_q s0). rewrite Hr, En. reflexivity.
    - rewrite En. change (qx_nfp (r_q (st_rest start))) with (qx_nfp (r_q (st_rest s0))). rewrite (proj1 Hx). change (st_fourier_refine start) with (st_fourier_refine s).
      eapply limits_mono; [|lia|exact Hlim]. apply modes_first. }
  destruct Hi as (Hi & En & Hx). destruct (run start) as [[s' l]|e|e] eqn:E; cbn [bind fst]; try discriminate.
  - destruct (run_rect start s' l Hi E) as (Hr & _ & _ & _ & _ & _ & _ & Hnl & Hx'). rewrite En in Hr.
    assert (Efr : st_fourier_refine start = st_fourier_refine s) by (destruct prev; reflexivity). rewrite Efr in Hr.
    destruct (stages (Some (st_q s', r_q (st_rest s'))) opts (n + r_n_evals (st_rest s'))%Z) as [z|w'|w'] eqn:Ez; cbn [bind]; try discriminate.
    intros H. injection H as ->.
    destruct (IH (Some s') (n + r_n_evals (st_rest s'))%Z (k + st_fourier_refine s) x0 Hn2) with (w := w) as (i & t & st & dn & n' & H1 & H2 & H3 & H4 & H5 & H6 & H7).
    + rewrite <- modes_cons. exact Hlim.
    + lia.
    + split; [exact Hr|]. split; [exact Hnl|]. eapply same_extra_trans; [exact Hx|exact Hx'].
    + exact Ez.
    + exists (S i), t, st, ((s', l) :: dn), n'. split; [exact H1|]. split.
      { cbn [firstn run_stages]. fold start. rewrite E. cbn [bind fst]. cbn [prev_q] in H2. rewrite H2. reflexivity. }
      split; [destruct i; cbn [previous map nth_error fst] in *; exact H3|]. split; [rewrite modes_shift; exact H4|auto].
  - intros H. injection H as ->. exists 0, s, start, [], n. split; [reflexivity|]. split; [reflexivity|]. split; [exact Hc|]. split; [exact En|auto].
Qed.
Lemma multi_safe (mo : multiopt) : stages_ok (mo_opts mo) ->
  safe (fun _ => True) (fun mo' => exists ys, mo_opts mo' = map fst ys /\ chained None (mo_opts mo) ys /\
          mo_n_evals mo' = fold_left (fun a s => (a + r_n_evals (st_rest s))%Z) (mo_opts mo') (mo_n_evals mo))
       (multiopt_optimize o fsqrt of_Z rt gsl junk mo).
Proof.
  intros [Hn H0]. unfold multiopt_optimize.
  eapply safe_bind; [apply (stages_safe (mo_opts mo) None (mo_n_evals mo) Hn H0)|].
  intros [ys n'] (C & E). cbn [safe fst snd] in *. exists ys. split; [reflexivity|]. split; [exact C|].
  cbn [mo_opts mo_n_evals]. rewrite E. generalize (mo_n_evals mo). clear. induction ys as [|y ys IH]; intros a; cbn; auto.
Qed.

(** Sizes along the chain. *)
Lemma chain_sizes opts ys : chained None opts ys -> forall first, nth_error opts 0 = Some first ->
  forall i s' l, nth_error ys i = Some (s', l) -> rect (modes_before (n_modes first) opts (S i)) (st_q s').
Proof.
  intros [L C] first H0. induction i as [|i IH]; intros s' l Hi.
  - destruct (C 0 first s' l H0 Hi) as (start & A & B & D). cbn [previous continues] in A. subst start.
    destruct (run_rect first s' l B D) as (Hr & _). destruct opts as [|s1 opts]; [discriminate|]. injection H0 as ->.
    unfold modes_before. cbn. intros a. rewrite Hr. lia.
  - assert (Hl : S i < length ys) by (apply nth_error_Some; congruence).
    destruct (nth_error ys i) as [[sp lp]|] eqn:Ep; [|apply nth_error_None in Ep; lia].
    destruct (nth_error opts (S i)) as [s|] eqn:Es; [|apply nth_error_None in Es; lia].
    destruct (C (S i) s s' l Es Hi) as (start & A & B & D).
    cbn [previous] in A. rewrite (map_nth_error fst i ys Ep) in A. cbn [continues fst] in A. subst start.
    destruct (run_rect _ s' l B D) as (Hr & _). specialize (IH sp lp eq_refl).
    cbn [with_q st_fourier_refine] in Hr. unfold n_modes in Hr. cbn [with_q st_q] in Hr.
    change (length (qo_R0c (st_q sp))) with (length (get_axis (st_q sp) R0c)) in Hr. rewrite IH in Hr.
    intros a. rewrite Hr. unfold modes_before.
    assert (G : forall k (l : list opt) t n, nth_error l k = Some t ->
      fold_right Nat.add n (map st_fourier_refine (firstn (S k) l)) = fold_right Nat.add n (map st_fourier_refine (firstn k l)) + st_fourier_refine t).
    { clear. induction k as [|k IHk]; intros [|t l] t' n H; try discriminate.
      - injection H as ->. cbn. lia.
      - cbn in H. specialize (IHk l t' n H). change (firstn (S (S k)) (t :: l)) with (t :: firstn (S k) l).
        change (firstn (S k) (t :: l)) with (t :: firstn k l). cbn [map fold_right]. rewrite IHk. lia. }
    symmetry. apply G. exact Es.
Qed.

(** What the scan of parameters needs. *)
Lemma trim {X : Type} na dims : forall idx (mo : @MScan.multiopt F X), set_dims na dims idx mo =
  set_dims na (firstn (length idx) dims) (firstn (length dims) idx) mo.
Proof. induction dims as [|d dims IH]; intros [|i idx] mo; auto. cbn [length firstn set_dims]. apply bind_ext. intros m. apply IH. Qed.
Lemma shapes_hold (mo_ref : multiopt) na dims first : nth_error (mo_opts mo_ref) 0 = Some first -> stages_ok (mo_opts mo_ref) ->
  (1 <= r_max_iter (st_rest first))%Z -> na = axis_nmax_plus_1 mo_ref ->
  forall idx mo mo', set_dims na dims idx mo_ref = Ok mo -> multiopt_optimize o fsqrt of_Z rt gsl junk mo = Ok mo' ->
    shaped na (n_modes first + st_fourier_refine first) mo'.
Proof.
  intros H0 Hok Hmax Hna idx mo mo' Hd Ho.
  rewrite trim in Hd. apply set_dims_ok in Hd as (Hlen & _ & Hst).
  2: { rewrite !firstn_length. lia. }
  assert (Same : forall k s', nth_error (mo_opts mo) k = Some s' -> exists s, nth_error (mo_opts mo_ref) k = Some s /\ rest_same s s').
  { intros k s' Hk. destruct (nth_error (mo_opts mo_ref) k) as [s|] eqn:E.
    - destruct (Hst k s E) as (s2 & A & B & _). exists s. split; auto. congruence.
    - apply nth_error_None in E. assert (k < length (mo_opts mo)) by (apply nth_error_Some; congruence). lia. }
  assert (Frs : map st_fourier_refine (mo_opts mo) = map st_fourier_refine (mo_opts mo_ref)).
  { apply nth_error_ext. intros k. rewrite !nth_error_map. destruct (nth_error (mo_opts mo) k) as [s'|] eqn:Ek.
    - destruct (Same k s' Ek) as (s & E & R). rewrite E. cbn. f_equal. apply R.
    - apply nth_error_None in Ek. destruct (nth_error (mo_opts mo_ref) k) eqn:E2; auto.
      assert (k < length (mo_opts mo_ref)) by (apply nth_error_Some; congruence). lia. }
  assert (Hok' : stages_ok (mo_opts mo)).
  { destruct Hok as [Hn Hf]. split.
    - apply Forall_forall. intros s' Hi. apply In_nth_error in Hi as (k & Hk). destruct (Same k s' Hk) as (s & E & R).
      rewrite Forall_forall in Hn. specialize (Hn s (nth_error_In _ _ E)). unfold nphi_ok in *.
      destruct R as (_ & _ & R3 & R4 & _). rewrite R3, R4. exact Hn.
    - intros s' Hk. destruct (Same 0 s' Hk) as (s & E & R). specialize (Hf s E). destruct Hf as [(Hx & Hy & Hm & Hl & Hp) Hall].
      destruct R as (_ & _ & R3 & R4 & _ & R6 & R7 & R8 & R9).
      assert (Em : n_modes s' = n_modes s) by (unfold n_modes; congruence).
      split; [split; [|split; [|split; [lia|split]]]|].
      + intros a. pose proof (Hx a) as Ha. rewrite Em. destruct a; cbn [get_axis] in *; congruence.
      + unfold nphi_ok in *. rewrite R3, R4. exact Hy.
      + rewrite Em, R3, R4. exact Hl.
      + rewrite R4. exact Hp.
      + rewrite Em, R4. unfold modes_before in *. rewrite firstn_all in *. rewrite Frs. exact Hall. }
  pose proof (multi_safe mo Hok') as D. rewrite Ho in D. cbn [safe] in D. destruct D as (ys & Em & C & _).
  destruct (Hst 0 first H0) as (first' & Hf' & Rf & _).
  assert (L := proj1 C). assert (Hy : 0 < length ys) by (rewrite L; apply nth_error_Some; congruence).
  destruct (nth_error ys 0) as [[s1 l1]|] eqn:E1; [|apply nth_error_None in E1; lia].
  assert (Nm : n_modes first' = n_modes first) by (unfold n_modes; apply Rf).
  assert (Fr : st_fourier_refine first' = st_fourier_refine first) by apply Rf.
  assert (Efirst : first_stage mo' = Some s1).
  { unfold first_stage. rewrite Em, (map_nth_error fst 0 ys E1). reflexivity. }
  assert (All : modes_before (n_modes first) (mo_opts mo) (length ys) = na).
  { rewrite Hna, L. unfold modes_before. rewrite firstn_all. unfold axis_nmax_plus_1.
    destruct (mo_opts mo_ref) as [|f0 fs] eqn:Er; [discriminate|]. injection H0 as ->. fold (n_modes first). rewrite <- Er.
    assert (G : map st_fourier_refine (mo_opts mo) = map st_fourier_refine (mo_opts mo_ref)).
    { apply nth_error_ext. intros k. rewrite !nth_error_map. destruct (nth_error (mo_opts mo) k) as [s'|] eqn:Ek.
      - destruct (Same k s' Ek) as (s & E & R). rewrite Er in *. rewrite E. cbn. f_equal. apply R.
      - apply nth_error_None in Ek. destruct (nth_error (mo_opts mo_ref) k) eqn:E2; auto.
        assert (k < length (mo_opts mo_ref)) by (apply nth_error_Some; congruence). rewrite Er in *. lia. }
    rewrite G. generalize (n_modes first). induction (mo_opts mo_ref) as [|t ts IH]; intros n; cbn; auto.
    assert (Q : forall ts n m, fold_left (fun n (s : opt) => n + st_fourier_refine s) ts (n + m) = m + fold_left (fun n (s : opt) => n + st_fourier_refine s) ts n).
    { clear. induction ts as [|t ts IH]; intros n m; cbn; [lia|]. rewrite <- IH. f_equal. lia. }
    rewrite Q. f_equal. clear -o. revert n. induction ts as [|t ts IH]; intros n; cbn; auto.
    assert (Q : forall ts n m, fold_left (fun n (s : opt) => n + st_fourier_refine s) ts (n + m) = m + fold_left (fun n (s : opt) => n + st_fourier_refine s) ts n).
    { clear. induction ts as [|t' ts' IH]; intros n m; cbn; [lia|]. rewrite <- IH. f_equal. lia. }
    rewrite Q. f_equal. apply IH. }
  assert (Hr1 : rect (n_modes first + st_fourier_refine first) (st_q s1)).
  { pose proof (chain_sizes (mo_opts mo) ys C first' Hf' 0 s1 l1 E1) as Q. intros a. rewrite Q, Nm.
    unfold modes_before. destruct (mo_opts mo); [discriminate|]. injection Hf' as ->. cbn. rewrite Fr. lia. }
  constructor.
  - rewrite <- All. unfold modes_before. destruct (mo_opts mo) as [|t ts]; [discriminate|]. injection Hf' as ->.
    destruct (length ys) as [|k]; [lia|]. cbn [firstn map fold_right]. rewrite Fr.
    assert (Q : forall l, n_modes first <= fold_right Nat.add (n_modes first) l) by (induction l; cbn; lia).
    specialize (Q (map st_fourier_refine (firstn k ts))). lia.
  - destruct (nth_error ys (length ys - 1)) as [[sn ln]|] eqn:En; [|apply nth_error_None in En; lia].
    exists sn. split.
    + unfold last_stage. rewrite Em, map_length, (map_nth_error fst _ ys En). reflexivity.
    + pose proof (chain_sizes (mo_opts mo) ys C first' Hf' _ sn ln En) as Q. replace (S (length ys - 1)) with (length ys) in Q by lia.
      rewrite Nm, All in Q. split; [apply (Q R0c)|]. split; [apply (Q R0s)|]. split; [apply (Q Z0c)|apply (Q Z0s)].
  - exists s1. split; [exact Efirst|]. split; [apply (Hr1 R0c)|].
    destruct (proj2 C 0 first' s1 l1 Hf' E1) as (start & A & B & D). cbn [previous continues] in A. subst start.
    destruct (run_rect first' s1 l1 B D) as (_ & _ & _ & [Hs1 Hs2 _] & _).
    assert (Mx : r_max_iter (st_rest first') = r_max_iter (st_rest first)) by (destruct Rf as (_ & _ & _ & -> & _); reflexivity).
    split.
    + intros m Hm Hnil.
      assert (Hin : exists x, In (m, x) history_table).
      { cbn in Hm. destruct Hm as [<-|[<-|[<-|[]]]]; eexists; apply lookup_In; vm_compute; reflexivity. }
      destruct Hin as (x & Hx). specialize (Hs1 m x Hx). rewrite Hnil, Mx in Hs1. cbn in Hs1. lia.
    + intros m Hm.
      assert (Hin : exists a, In (m, a) recorded_axes).
      { cbn in Hm. destruct Hm as [<-|[<-|[<-|[<-|[]]]]]; eexists; cbn; eauto. }
      destruct Hin as (a & Ha). specialize (Hs2 m a Ha). destruct Hs2 as (_ & _ & Hdata). rewrite Hdata, Mx.
      change (length (qo_R0c (st_q first'))) with (n_modes first'). rewrite Nm, Fr. nia.
Qed.
End Multi.
