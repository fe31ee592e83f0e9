(** The spectral differentiation matrix: proofs. *)
From Coq Require Import String ZArith Reals List Arith Lia Lra Bool.
From Verif Require Import Base BaseFacts FloatOps MathOps MathFacts Tensor TensorFacts ScanFacts Diff.
Import ListNotations.

Section Entries.
Context {F : Type} (o : fops F) (mo : mops F).
Notation z := (fzero o).
Definition raw (N d : nat) : F :=
  if d =? 0 then z else if d <=? N / 2 then top o mo N (d - 1)
  else if Nat.even N then fopp o (top o mo N (N - 1 - d)) else top o mo N (N - 1 - d).
Definition signed (N d : nat) : F := if Nat.odd d then fopp o (raw N d) else raw N d.

Lemma halves N : 1 <= N -> (N - 1) / 2 + N / 2 = N - 1 /\ (N - 1) / 2 <= N / 2 /\ 2 * (N / 2) <= N <= 2 * (N / 2) + 1.
Proof.
  intros H. pose proof (Nat.div_mod (N - 1) 2 ltac:(lia)). pose proof (Nat.div_mod N 2 ltac:(lia)).
  pose proof (Nat.mod_upper_bound (N - 1) 2 ltac:(lia)). pose proof (Nat.mod_upper_bound N 2 ltac:(lia)). lia.
Qed.
Lemma column_ok N : 1 <= N -> exists c, column o mo N = Ok c /\ length c = N /\ forall d, d < N -> nth d c z = signed N d.
Proof.
  intros HN. destruct (halves N HN) as (H12 & Hle & Hb). set (n1 := (N - 1) / 2) in *. set (n2 := N / 2) in *.
  unfold column. fold n1 n2. rewrite aset_ok by (rewrite repeat_length; lia). cbn [bind].
  replace (upd (repeat z N) 0 z) with (repeat z N) by (destruct N; reflexivity).
  destruct (for_loop_inv (fun k t => length t = n2 /\ forall i, i < k -> nth i t z = top o mo N i)
    (fun j t => aset t j (top o mo N j)) n2 (repeat z n2)) as (topc & -> & Ht & Htv).
  { split; [apply repeat_length|intros; lia]. }
  { intros k t Hk (L & V). rewrite aset_ok by lia. eexists. split; [reflexivity|]. split; [rewrite upd_length; auto|].
    intros i Hi. rewrite nth_upd. replace (k <? length t) with true by (symmetry; apply Nat.ltb_lt; lia). rewrite andb_true_r.
    destruct (Nat.eqb_spec i k); [subst; auto|apply V; lia]. }
  cbn [bind].
  destruct (for_from_inv (fun k c => length c = N /\ forall i, i < N -> nth i c z = if (i =? 0) || (k <=? i) then z else top o mo N (i - 1))
    (fun j c => do t <- aget topc (j - 1); aset c j t) n2 1 (repeat z N)) as (c1 & -> & L1 & V1).
  { split; [apply repeat_length|]. intros i Hi. rewrite nth_repeat. destruct i; reflexivity. }
  { intros k c Hk (L & V). rewrite (aget_ok topc (k - 1) z) by lia. cbn [bind]. rewrite aset_ok by lia.
    eexists. split; [reflexivity|]. split; [rewrite upd_length; auto|]. intros i Hi. rewrite nth_upd.
    replace (k <? length c) with true by (symmetry; apply Nat.ltb_lt; lia). rewrite andb_true_r.
    destruct (Nat.eqb_spec i k) as [->|Hn].
    - rewrite (Htv (k - 1)) by lia. destruct (Nat.eqb_spec k 0); [lia|]. cbn [orb]. destruct (Nat.leb_spec (1 + k) k); [lia|reflexivity].
    - rewrite V by auto. destruct (Nat.eqb_spec i 0); cbn [orb]; auto. destruct (Nat.leb_spec k i), (Nat.leb_spec (1 + k) i); auto; lia. }
  cbn [bind].
  destruct (for_loop_inv (fun k c => length c = N /\ forall i, i < n2 + 1 + k -> nth i c z = raw N i)
    (fun j c => do t <- aget topc (n1 - 1 - j); aset c (n2 + 1 + j) (if Nat.even N then fopp o t else t)) n1 c1) as (c2 & -> & L2 & V2).
  { split; [auto|]. intros i Hi. rewrite V1 by lia. unfold raw. fold n2. destruct (Nat.eqb_spec i 0); cbn [orb]; auto.
    destruct (Nat.leb_spec (1 + n2) i), (Nat.leb_spec i n2); auto; lia. }
  { intros k c Hk (L & V). rewrite (aget_ok topc (n1 - 1 - k) z) by lia. cbn [bind]. rewrite aset_ok by lia.
    eexists. split; [reflexivity|]. split; [rewrite upd_length; auto|]. intros i Hi. rewrite nth_upd.
    replace (n2 + 1 + k <? length c) with true by (symmetry; apply Nat.ltb_lt; lia). rewrite andb_true_r.
    destruct (Nat.eqb_spec i (n2 + 1 + k)) as [->|Hn]; [|apply V; lia].
    rewrite Htv by lia. unfold raw. fold n2. destruct (Nat.eqb_spec (n2 + 1 + k) 0); [lia|]. destruct (Nat.leb_spec (n2 + 1 + k) n2); [lia|].
    replace (N - 1 - (n2 + 1 + k)) with (n1 - 1 - k) by lia. reflexivity. }
  cbn [bind].
  destruct (for_loop_inv (fun k c => length c = N /\ forall i, i < N -> nth i c z = if i <? 2 * k then signed N i else raw N i)
    (fun i c => do t <- aget c (2 * i + 1); aset c (2 * i + 1) (fopp o t)) n2 c2) as (c3 & -> & L3 & V3).
  { split; [auto|]. intros i Hi. apply V2. lia. }
  { intros k c Hk (L & V). rewrite (aget_ok c (2 * k + 1) z) by lia. cbn [bind]. rewrite aset_ok by lia.
    eexists. split; [reflexivity|]. split; [rewrite upd_length; auto|]. intros i Hi. rewrite nth_upd.
    replace (2 * k + 1 <? length c) with true by (symmetry; apply Nat.ltb_lt; lia). rewrite andb_true_r.
    destruct (Nat.eqb_spec i (2 * k + 1)) as [->|Hn].
    - rewrite V by lia. destruct (Nat.ltb_spec (2 * k + 1) (2 * k)); [lia|]. destruct (Nat.ltb_spec (2 * k + 1) (2 * (1 + k))); [|lia].
      unfold signed. replace (Nat.odd (2 * k + 1)) with true; [reflexivity|]. symmetry. apply Nat.odd_spec. exists k; lia.
    - rewrite V by auto. destruct (Nat.ltb_spec i (2 * k)), (Nat.ltb_spec i (2 * (1 + k))); auto; try lia.
      assert (i = 2 * k) by lia. subst i. unfold signed. replace (Nat.odd (2 * k)) with false; [reflexivity|].
      symmetry. rewrite <- Nat.negb_even. apply negb_false_iff. apply Nat.even_spec. exists k; lia. }
  exists c3. split; [reflexivity|]. split; [auto|]. intros d Hd. rewrite V3 by auto. destruct (Nat.ltb_spec d (2 * n2)); auto.
  assert (d = 2 * n2) by lia. subst d. unfold signed. replace (Nat.odd (2 * n2)) with false; [reflexivity|].
  symmetry. rewrite <- Nat.negb_even. apply negb_false_iff. apply Nat.even_spec. exists n2; lia.
Qed.

(** The entries of the matrix. *)
Definition entry (m : matrix F) (j k : nat) : F := nth (j + m_nrows m * k) (m_data m) z.
Definition scaled (N : nat) (xmin xmax : F) (d : nat) : F :=
  fmul o (fdiv o (fmul o (ftwo o) (m_pi mo)) (fsub o xmax xmin)) (signed N d).
Lemma matrix_ok N xmin xmax : 1 <= N -> exists m, differentiation_matrix o mo N xmin xmax = Ok m /\ mat_ok N N m /\
  forall j k, j < N -> k < N -> entry m j k = if k <? j then scaled N xmin xmax (j - k) else fopp o (scaled N xmin xmax (k - j)).
Proof.
  intros HN. unfold differentiation_matrix. destruct (column_ok N HN) as (c & -> & L & V). cbn [bind].
  set (c' := map _ c). assert (L' : length c' = N) by (unfold c'; rewrite map_length; auto).
  assert (V' : forall d, d < N -> aget c' d = Ok (scaled N xmin xmax d)).
  { intros d Hd. apply aget_nth_error. unfold c'. rewrite nth_error_map, (nth_error_nth' c z) by lia. cbn. rewrite V by auto. reflexivity. }
  set (val := fun j k => if k <? j then scaled N xmin xmax (j - k) else fopp o (scaled N xmin xmax (k - j))).
  assert (St : forall m j k v, mat_ok N N m -> j < N -> k < N -> exists m', matrix_set m j k v = Ok m' /\ mat_ok N N m' /\
     (forall j' k', j' < N -> k' < N -> entry m' j' k' = if (j' =? j) && (k' =? k) then v else entry m j' k')).
  { intros m j k v Hm Hj Hk. destruct (matrix_set_spec N N m j k v Hm Hj Hk) as (m' & E & Hm' & D). exists m'. split; [auto|]. split; [auto|].
    intros j' k' Hj' Hk'. unfold entry. destruct Hm as (R & _ & Ld). destruct Hm' as (R' & _). rewrite R, R', D, nth_upd.
    replace (j + N * k <? length (m_data m)) with true by (symmetry; apply Nat.ltb_lt; rewrite Ld; apply idx2_bound; auto). rewrite andb_true_r.
    destruct (Nat.eqb_spec (j' + N * k') (j + N * k)) as [Ei|Ei].
    - apply idx2_inj in Ei; auto. destruct Ei as [-> ->]. rewrite !Nat.eqb_refl. reflexivity.
    - destruct (Nat.eqb_spec j' j), (Nat.eqb_spec k' k); subst; auto; congruence. }
  destruct (for_loop_inv (fun n m => mat_ok N N m /\ forall j k, j < n -> j < N -> k < N -> entry m j k = val j k)
    (fun j d =>
    do d <- for_from j (N - j) (fun k d => do t <- aget c' (k - j); matrix_set d j k (fopp o t)) d;
    for_loop j (fun k d => do t <- aget c' (j - k); matrix_set d j k t) d) N (matrix_new (fzero o) N N)) as (m & -> & Hm & Vm).
  { split; [split; [reflexivity|split; [reflexivity|apply repeat_length]]|intros; lia]. }
  { intros j m Hj (Hm & Vm).
    destruct (for_from_inv (fun n m => mat_ok N N m /\ forall j' k, j' < N -> k < N -> (j' < j \/ j' = j /\ j <= k < n) -> entry m j' k = val j' k)
      (fun k d => do t <- aget c' (k - j); matrix_set d j k (fopp o t)) (N - j) j m) as (m1 & E1 & Hm1 & V1).
    { split; auto. intros j' k A B [C|C]; [apply Vm; auto|lia]. }
    { intros k m1 Hk (Hm1 & V1). rewrite V' by lia. cbn [bind]. destruct (St m1 j k (fopp o (scaled N xmin xmax (k - j))) Hm1 Hj ltac:(lia)) as (m2 & E2 & Hm2 & V2).
      exists m2. split; [auto|]. split; [auto|]. intros j' k' A B C. rewrite V2 by auto.
      destruct (Nat.eqb_spec j' j) as [->|Hn1], (Nat.eqb_spec k' k) as [->|Hn2]; cbn [andb].
      - unfold val. destruct (Nat.ltb_spec k j); [lia|reflexivity].
      - apply V1; auto. lia.
      - apply V1; auto; lia.
      - apply V1; auto; lia. }
    rewrite E1. cbn [bind]. replace (j + (N - j)) with N in * by lia.
    destruct (for_loop_inv (fun n m => mat_ok N N m /\ forall j' k, j' < N -> k < N -> (j' < j \/ j' = j /\ (j <= k \/ k < n)) -> entry m j' k = val j' k)
      (fun k d => do t <- aget c' (j - k); matrix_set d j k t) j m1) as (m2 & E2 & Hm2 & V2).
    { split; auto. intros j' k A B C. apply V1; auto. lia. }
    { intros k m2 Hk (Hm2 & V2). rewrite V' by lia. cbn [bind]. destruct (St m2 j k (scaled N xmin xmax (j - k)) Hm2 Hj ltac:(lia)) as (m3 & E3 & Hm3 & V3).
      exists m3. split; [auto|]. split; [auto|]. intros j' k' A B C. rewrite V3 by auto.
      destruct (Nat.eqb_spec j' j) as [->|Hn1], (Nat.eqb_spec k' k) as [->|Hn2]; cbn [andb].
      - unfold val. destruct (Nat.ltb_spec k j); [reflexivity|lia].
      - apply V2; auto. lia.
      - apply V2; auto; lia.
      - apply V2; auto; lia. }
    exists m2. split; [auto|]. split; [auto|]. intros j' k A B C. apply V2; auto. lia. }
  exists m. split; [reflexivity|]. split; auto. intros j k Hj Hk. apply (Vm j k); auto.
Qed.

(** The product with a vector. *)
Lemma product_ok N (m : matrix F) v : mat_ok N N m -> length v = N ->
  matrix_vector_product o m v = Ok (map (fun j => fsum o N (fun k => fmul o (entry m j k) (nth k v z))) (seq 0 N)).
Proof.
  intros (R & C & L) Lv. unfold matrix_vector_product. rewrite C, Lv, Nat.eqb_refl. cbn [negb]. rewrite R.
  assert (Inner : forall j, j < N -> forall n, n <= N -> for_loop n (fun k s => do a <- matrix_get m j k; do x <- aget v k; Ok (fadd o s (fmul o a x))) z =
     Ok (fsum o n (fun k => fmul o (entry m j k) (nth k v z)))).
  { intros j Hj n Hn.
    destruct (for_loop_inv (fun n s => s = fsum o n (fun k => fmul o (entry m j k) (nth k v z)))
      (fun k s => do a <- matrix_get m j k; do x <- aget v k; Ok (fadd o s (fmul o a x))) n z) as (s & E & ->); [reflexivity| |exact E].
    intros k s Hk ->. unfold matrix_get, matrix_index. rewrite R, (aget_ok (m_data m) _ z) by (rewrite L; apply idx2_bound; lia). cbn [bind].
    rewrite (aget_ok v k z) by lia. cbn [bind]. eexists. split; [reflexivity|]. cbn [Nat.add fsum]. unfold entry. rewrite R. reflexivity. }
  destruct (for_loop_inv (fun n r => r = map (fun j => fsum o N (fun k => fmul o (entry m j k) (nth k v z))) (seq 0 n))
    (fun j r => do s <- for_loop N (fun k s => do a <- matrix_get m j k; do x <- aget v k; Ok (fadd o s (fmul o a x))) z; Ok (r ++ [s])) N []) as (r & E & ->); [reflexivity| |exact E].
  intros j r Hj ->. rewrite Inner by lia. cbn [bind]. eexists. split; [reflexivity|]. cbn [Nat.add]. rewrite seq_S, map_app. reflexivity.
Qed.
End Entries.

(** ** In exact arithmetic *)
Local Open Scope R_scope.
Notation rentry := (entry R_ops).
(** The coefficient for the distance d. *)
Definition coef (N d : nat) : R :=
  (-1) ^ d * (if Nat.even N then cos (INR d * PI / INR N) else 1) / (2 * sin (INR d * PI / INR N)).

Lemma sin_pos_angle N d : (0 < d < N)%nat -> 0 < sin (INR d * PI / INR N).
Proof.
  intros H. pose proof PI_RGT_0. assert (0 < INR d) by (apply lt_0_INR; lia). assert (0 < INR N) by (apply lt_0_INR; lia).
  assert (INR d < INR N) by (apply lt_INR; lia).
  assert (0 < INR d * PI) by (apply Rmult_lt_0_compat; lra). apply sin_gt_0.
  - apply Rdiv_lt_0_compat; lra.
  - apply (Rmult_lt_reg_r (INR N)); [lra|]. unfold Rdiv. rewrite Rmult_assoc, Rinv_l by lra. nra.
Qed.
Lemma pow_m1 d : (-1) ^ d = if Nat.odd d then -1 else 1.
Proof.
  induction d as [|d IH]; [reflexivity|]. rewrite Nat.odd_succ, <- Nat.negb_odd. cbn [pow]. rewrite IH. destruct (Nat.odd d); cbn; ring.
Qed.
Lemma top_value N d : (0 < d < N)%nat -> top R_ops R_math N (d - 1) =
  (if Nat.even N then cos (INR d * PI / INR N) else 1) / (2 * sin (INR d * PI / INR N)).
Proof.
  intros H. unfold top, fhalf, of_nat. cbn [R_ops R_math fdiv fmul fone ftwo m_pi m_of_Z m_tan m_sin].
  replace (d - 1 + 1)%nat with d by lia. rewrite <- !INR_IZR_INZ.
  assert (Hn : INR N <> 0) by (apply not_0_INR; lia).
  replace (INR d * (2 * PI / INR N) / 2) with (INR d * PI / INR N) by (field; auto).
  pose proof (sin_pos_angle N d H) as Hs. destruct (Nat.even N); [|field; lra].
  unfold tan. destruct (Req_dec (cos (INR d * PI / INR N)) 0) as [Ec|Ec].
  - rewrite Ec. unfold Rdiv. rewrite Rinv_0, Rmult_0_r, Rinv_0. ring.
  - field. split; lra.
Qed.
Lemma reflect_sin N d : (0 < d < N)%nat -> sin (INR (N - d) * PI / INR N) = sin (INR d * PI / INR N).
Proof.
  intros H. rewrite minus_INR by lia. replace ((INR N - INR d) * PI / INR N) with (PI - INR d * PI / INR N) by (field; apply not_0_INR; lia).
  apply sin_PI_x.
Qed.
Lemma reflect_cos N d : (0 < d < N)%nat -> cos (INR (N - d) * PI / INR N) = - cos (INR d * PI / INR N).
Proof.
  intros H. rewrite minus_INR by lia. replace ((INR N - INR d) * PI / INR N) with (- (INR d * PI / INR N) + PI) by (field; apply not_0_INR; lia).
  rewrite neg_cos, cos_neg. reflexivity.
Qed.
Lemma signed_value N d : (d < N)%nat -> signed R_ops R_math N d = coef N d.
Proof.
  intros H. assert (Hr : raw R_ops R_math N d = (if Nat.even N then cos (INR d * PI / INR N) else 1) / (2 * sin (INR d * PI / INR N))).
  { unfold raw. destruct (Nat.eqb_spec d 0) as [->|Hd].
    - cbn [INR R_ops fzero]. replace (0 * PI / INR N) with 0 by (unfold Rdiv; ring). rewrite sin_0, Rmult_0_r. unfold Rdiv. rewrite Rinv_0. ring.
    - destruct (Nat.leb_spec d (N / 2)).
      + apply top_value. lia.
      + replace (N - 1 - d)%nat with ((N - d) - 1)%nat by lia. rewrite top_value by lia.
        rewrite reflect_sin, reflect_cos by lia. pose proof (sin_pos_angle N d ltac:(lia)).
        destruct (Nat.even N); cbn [R_ops fopp]; field; lra. }
  unfold signed. rewrite Hr. unfold coef. rewrite pow_m1. destruct (Nat.odd d); cbn [R_ops fopp]; unfold Rdiv; ring.
Qed.
Lemma coef_0 N : coef N 0 = 0.
Proof. unfold coef. cbn [INR]. replace (0 * PI / INR N) with 0 by (unfold Rdiv; ring). rewrite sin_0, Rmult_0_r. unfold Rdiv. rewrite Rinv_0. ring. Qed.
Lemma coef_reflect N d : (0 < d < N)%nat -> coef N (N - d) = - coef N d.
Proof.
  intros H. unfold coef. rewrite reflect_sin, reflect_cos by auto. pose proof (sin_pos_angle N d H) as Hs. rewrite !pow_m1.
  assert (Ho : Nat.odd (N - d) = if Nat.even N then Nat.odd d else negb (Nat.odd d)).
  { rewrite Nat.odd_sub by lia. rewrite <- Nat.negb_even. destruct (Nat.even N), (Nat.odd d); reflexivity. }
  rewrite Ho. destruct (Nat.even N), (Nat.odd d); cbn [negb]; field; lra.
Qed.

(** Sums over the grid. *)
Lemma cos_sum N p : (0 < p < N)%nat -> rsum N (fun d => cos (INR d * (2 * PI * INR p / INR N))) = 0.
Proof.
  intros H. set (a := 2 * PI * INR p / INR N). assert (Hn : INR N <> 0) by (apply not_0_INR; lia).
  assert (G : forall n, 2 * sin (a / 2) * rsum n (fun d => cos (INR d * a)) = sin ((INR n - 1 / 2) * a) + sin (a / 2)).
  { induction n as [|n IH].
    - cbn [fsum INR R_ops fzero]. replace ((0 - 1 / 2) * a) with (- (a / 2)) by field. rewrite sin_neg. ring.
    - rewrite rsum_S, Rmult_plus_distr_l, IH, S_INR.
      replace ((INR n + 1 - 1 / 2) * a) with (INR n * a + a / 2) by field. replace ((INR n - 1 / 2) * a) with (INR n * a - a / 2) by field.
      rewrite sin_plus, sin_minus. ring. }
  assert (Hs : sin (a / 2) <> 0).
  { pose proof (sin_pos_angle N p H) as Q. replace (a / 2) with (INR p * PI / INR N) by (unfold a; field; auto). lra. }
  specialize (G N). replace ((INR N - 1 / 2) * a) with (- (a / 2) + 2 * INR p * PI) in G by (unfold a; field; auto).
  rewrite sin_period, sin_neg in G. assert (2 * sin (a / 2) * rsum N (fun d => cos (INR d * a)) = 0) by lra.
  apply Rmult_integral in H0 as [H0|H0]; auto. exfalso. apply Hs. lra.
Qed.
Lemma alternating n x : (-1) ^ n * cos x = cos (x + INR n * PI).
Proof.
  revert x. induction n as [|n IH]; intros x; [cbn [INR pow]; rewrite Rmult_1_l; f_equal; ring|].
  rewrite S_INR. replace (x + (INR n + 1) * PI) with ((x + INR n * PI) + PI) by ring. rewrite neg_cos, <- IH. cbn [pow]. ring.
Qed.
Notation Tsum N m := (rsum N (fun d => coef N d * sin (INR m * (INR d * (2 * PI / INR N))))).
Lemma T_step N m : (2 * (m + 1) < N)%nat -> Tsum N (m + 1) - Tsum N m = -1.
Proof.
  intros H. assert (Hn : INR N <> 0) by (apply not_0_INR; lia). rewrite <- rsum_minus.
  rewrite rsum_first' by lia. rewrite coef_0.
  set (g := fun d => if Nat.even N then ((-1) ^ d * cos (INR (m + 1) * (INR d * (2 * PI / INR N))) + (-1) ^ d * cos (INR m * (INR d * (2 * PI / INR N)))) / 2
                 else (-1) ^ d * cos ((INR m + 1 / 2) * (INR d * (2 * PI / INR N)))).
  rewrite (rsum_ext (N - 1) _ (fun k => g (S k))).
  2: { intros k Hk. set (d := S k). set (u := INR d * PI / INR N).
       pose proof (sin_pos_angle N d ltac:(unfold d; lia)) as Hs. fold u in Hs.
       assert (A1 : INR (m + 1) * (INR d * (2 * PI / INR N)) = (2 * INR m + 1) * u + u) by (rewrite plus_INR; unfold u; cbn [INR]; field; auto).
       assert (A2 : INR m * (INR d * (2 * PI / INR N)) = (2 * INR m + 1) * u - u) by (unfold u; field; auto).
       assert (A3 : (INR m + 1 / 2) * (INR d * (2 * PI / INR N)) = (2 * INR m + 1) * u) by (unfold u; field; auto).
       unfold g. rewrite A1, A2, A3. unfold coef. fold u. rewrite !sin_plus, !sin_minus, !cos_plus, !cos_minus.
       destruct (Nat.even N); field; lra. }
  assert (Hg : rsum N g = 0).
  { unfold g. destruct (Nat.even N) eqn:Ev.
    - apply Nat.even_spec in Ev as (h & Eh).
      assert (G : forall j, (2 * j < N)%nat -> rsum N (fun d => (-1) ^ d * cos (INR j * (INR d * (2 * PI / INR N)))) = 0).
      { intros j Hj. rewrite (rsum_ext N _ (fun d => cos (INR d * (2 * PI * INR (h + j) / INR N)))).
        - apply cos_sum. lia.
        - intros d _. rewrite alternating. f_equal. rewrite plus_INR. assert (E2 : INR N = 2 * INR h) by (rewrite Eh, mult_INR; reflexivity).
          rewrite E2 in *. field. intros C. apply Hn. rewrite C. ring. }
      unfold Rdiv at 1. rewrite rsum_scal_r, rsum_plus, !G by lia. ring.
    - assert (Hodd : Nat.odd N = true) by (rewrite <- Nat.negb_even, Ev; reflexivity). apply Nat.odd_spec in Hodd as (h & Eh).
      rewrite (rsum_ext N _ (fun d => cos (INR d * (2 * PI * INR (h + 1 + m) / INR N)))).
      + apply cos_sum. lia.
      + intros d _. rewrite alternating. f_equal. rewrite !plus_INR. assert (E2 : INR N = 2 * INR h + 1) by (rewrite Eh, plus_INR, mult_INR; reflexivity).
        rewrite E2 in *. cbn [INR]. field. auto. }
  rewrite rsum_first' in Hg by lia.
  assert (G0 : g 0%nat = 1).
  { unfold g. cbn [INR pow]. rewrite !Rmult_0_l, !Rmult_0_r, cos_0. destruct (Nat.even N); field. }
  rewrite G0 in Hg. replace (rsum (N - 1) (fun k => g (S k))) with (-1) by lra. ring.
Qed.
Lemma T_value N m : (2 * m < N)%nat -> Tsum N m = - INR m.
Proof.
  induction m as [|m IH]; intros H.
  - rewrite rsum_zero; [cbn; ring|]. intros k _. cbn [INR]. rewrite Rmult_0_l, sin_0. ring.
  - rewrite <- (Nat.add_1_r m). pose proof (T_step N m ltac:(lia)) as S. rewrite IH in S by lia.
    replace (- INR (m + 1)) with (- INR m - 1) by (rewrite plus_INR; cbn [INR]; ring). lra.
Qed.
Lemma C_value N m : (0 < N)%nat -> rsum N (fun d => coef N d * cos (INR m * (INR d * (2 * PI / INR N)))) = 0.
Proof.
  intros HN. assert (Hn : INR N <> 0) by (apply not_0_INR; lia). rewrite rsum_first', coef_0 by lia. rewrite Rmult_0_l, Rplus_0_l.
  set (f := fun k => coef N (S k) * cos (INR m * (INR (S k) * (2 * PI / INR N)))).
  assert (E : rsum (N - 1) f = - rsum (N - 1) f); [|lra]. rewrite rsum_rev at 1. rewrite <- rsum_opp. apply rsum_ext. intros k Hk. unfold f.
  replace (S (N - 1 - 1 - k)) with (N - S k)%nat by lia. rewrite coef_reflect by lia.
  rewrite minus_INR by lia.
  replace (INR m * ((INR N - INR (S k)) * (2 * PI / INR N))) with (- (INR m * (INR (S k) * (2 * PI / INR N))) + 2 * INR m * PI) by (field; auto).
  rewrite cos_period, cos_neg. ring.
Qed.

(** The coefficient as a function of an integer distance with period N. *)
Lemma circ_sum N j (g : nat -> R) : (j < N)%nat ->
  rsum N (fun k => (if (k <? j)%nat then coef N (j - k) else - coef N (k - j)) * g k) =
  rsum N (fun d => coef N d * g ((j + N - d) mod N)%nat).
Proof.
  intros Hj.
  set (f := fun k => (if (k <? j)%nat then coef N (j - k) else - coef N (k - j)) * g k).
  set (h := fun d => coef N d * g ((j + N - d) mod N)%nat).
  assert (Eh : rsum N h = rsum (S j) h + rsum (N - 1 - j) (fun i => h (S j + i)%nat)).
  { replace N with (S j + (N - 1 - j))%nat at 1 by lia. apply rsum_app. }
  assert (Ef : rsum N f = rsum (S j) f + rsum (N - 1 - j) (fun i => f (S j + i)%nat)).
  { replace N with (S j + (N - 1 - j))%nat at 1 by lia. apply rsum_app. }
  rewrite Eh, Ef. f_equal.
  - rewrite (rsum_rev (S j) h). apply rsum_ext. intros k Hk. unfold f, h. replace (S j - 1 - k)%nat with (j - k)%nat by lia.
    replace ((j + N - (j - k)) mod N)%nat with k.
    2: { replace (j + N - (j - k))%nat with (k + 1 * N)%nat by lia. rewrite Nat.mod_add by lia. rewrite Nat.mod_small; lia. }
    destruct (Nat.ltb_spec k j); auto. replace k with j by lia. rewrite Nat.sub_diag, coef_0. ring.
  - rewrite (rsum_rev (N - 1 - j) (fun i => h (S j + i)%nat)). apply rsum_ext. intros k Hk. unfold f, h.
    destruct (Nat.ltb_spec (S j + k) j); [lia|].
    replace (S j + (N - 1 - j - 1 - k))%nat with (N - (S j + k - j))%nat by lia. rewrite coef_reflect by lia. f_equal.
    replace (j + N - (N - (S j + k - j)))%nat with (S j + k)%nat by lia. rewrite Nat.mod_small by lia. reflexivity.
Qed.
(** Applied to a wave. *)
Lemma wave N m j phase : (2 * m < N)%nat -> (j < N)%nat ->
  rsum N (fun k => (if (k <? j)%nat then coef N (j - k) else - coef N (k - j)) * cos (INR m * (INR k * (2 * PI / INR N)) + phase)) =
  - INR m * sin (INR m * (INR j * (2 * PI / INR N)) + phase).
Proof.
  intros Hm Hj. assert (Hn : INR N <> 0) by (apply not_0_INR; lia).
  rewrite (circ_sum N j (fun k => cos (INR m * (INR k * (2 * PI / INR N)) + phase)) Hj).
  set (al := INR m * (INR j * (2 * PI / INR N)) + phase).
  rewrite (rsum_ext N _ (fun d => cos al * (coef N d * cos (INR m * (INR d * (2 * PI / INR N)))) + sin al * (coef N d * sin (INR m * (INR d * (2 * PI / INR N)))))).
  - rewrite rsum_plus, !rsum_scal, C_value, T_value by lia. ring.
  - intros d Hd. set (t := ((j + N - d) mod N)%nat).
    assert (Et : exists q : nat, (j + N - d = t + q * N)%nat).
    { exists ((j + N - d) / N)%nat. unfold t. pose proof (Nat.div_mod (j + N - d) N ltac:(lia)). lia. }
    destruct Et as (q & Et). assert (Er : INR t = INR j + INR N - INR d - INR q * INR N).
    { assert (INR (j + N - d) = INR (t + q * N)) by (rewrite Et; reflexivity). rewrite minus_INR, !plus_INR, mult_INR in H by lia. lra. }
    assert (Ec : cos (INR m * (INR t * (2 * PI / INR N)) + phase) = cos (al - INR m * (INR d * (2 * PI / INR N)))).
    { assert (Ea : INR m * (INR t * (2 * PI / INR N)) + phase + 2 * INR (m * q) * PI = al - INR m * (INR d * (2 * PI / INR N)) + 2 * INR m * PI).
      { rewrite Er, mult_INR. unfold al. field. auto. }
      rewrite <- (cos_period (INR m * (INR t * (2 * PI / INR N)) + phase) (m * q)), Ea. apply cos_period. }
    rewrite Ec, cos_minus. ring.
Qed.
