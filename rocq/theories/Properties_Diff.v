(** Properties C10 (spectral differentiation is exact) and C11 (structure of the matrix). *)
From Coq Require Import ZArith Reals List Arith Lia Lra.
From Verif Require Import Base BaseFacts FloatOps MathOps MathFacts Tensor ScanFacts Diff DiffFacts.
Import ListNotations.
Local Open Scope R_scope.

(** A trigonometric polynomial with [M] harmonics 0, ..., M - 1 of the period [len]. *)
Definition trig (len : R) (M : nat) (a b : nat -> R) (x : R) : R :=
  rsum M (fun m => a m * cos (INR m * (2 * PI / len) * x) + b m * sin (INR m * (2 * PI / len) * x)).
(** The grid: N points, from xmin (included) to xmax (not included). *)
Definition grid (N : nat) (xmin xmax : R) : list R := map (fun j => xmin + INR j * ((xmax - xmin) / INR N)) (seq 0 N).

Lemma trig_derivative len M a b x : derivable_pt_lim (trig len M a b) x
  (trig len M (fun m => b m * (INR m * (2 * PI / len))) (fun m => - a m * (INR m * (2 * PI / len))) x).
Proof.
  unfold trig. induction M as [|M IH].
  - cbn [fsum R_ops fzero]. apply derivable_pt_lim_const.
  - rewrite rsum_S.
    apply (derivable_pt_lim_plus (fun x => rsum M (fun m => a m * cos (INR m * (2 * PI / len) * x) + b m * sin (INR m * (2 * PI / len) * x)))
      (fun x => a M * cos (INR M * (2 * PI / len) * x) + b M * sin (INR M * (2 * PI / len) * x))); [exact IH|].
    set (w := INR M * (2 * PI / len)).
    assert (Hl : derivable_pt_lim (fun x => w * x) x w).
    { pose proof (derivable_pt_lim_scal id w x 1 (derivable_pt_lim_id x)) as P. rewrite Rmult_1_r in P. exact P. }
    replace (b M * w * cos (w * x) + - a M * w * sin (w * x)) with (a M * (- sin (w * x) * w) + b M * (cos (w * x) * w)) by ring.
    apply (derivable_pt_lim_plus (fun x => a M * cos (w * x)) (fun x => b M * sin (w * x))).
    + apply (derivable_pt_lim_scal (fun x => cos (w * x))). apply (derivable_pt_lim_comp (fun x => w * x) cos x w (- sin (w * x)) Hl).
      apply derivable_pt_lim_cos.
    + apply (derivable_pt_lim_scal (fun x => sin (w * x))). apply (derivable_pt_lim_comp (fun x => w * x) sin x w (cos (w * x)) Hl).
      apply derivable_pt_lim_sin.
Qed.

(** C10.  For any number of grid points, interval and trigonometric polynomial of degree less
    than N / 2: the product of the matrix with the values on the grid is the derivative on
    the grid. *)
Theorem differentiation_exact : forall (N : nat) (xmin xmax : R) (M : nat) (a b : nat -> R),
  (1 <= N)%nat -> xmin < xmax -> (forall m, (m < M)%nat -> (2 * m < N)%nat) ->
  exists D f', differentiation_matrix R_ops R_math N xmin xmax = Ok D /\
    (forall x, derivable_pt_lim (trig (xmax - xmin) M a b) x (f' x)) /\
    matrix_vector_product R_ops D (map (trig (xmax - xmin) M a b) (grid N xmin xmax)) = Ok (map f' (grid N xmin xmax)).
Proof.
  intros N xmin xmax M a b HN Hx HM.
  destruct (matrix_ok R_ops R_math N xmin xmax HN) as (D & E & Hm & V).
  exists D, (trig (xmax - xmin) M (fun m => b m * (INR m * (2 * PI / (xmax - xmin)))) (fun m => - a m * (INR m * (2 * PI / (xmax - xmin))))).
  split; [exact E|]. split; [intros x; apply trig_derivative|].
  assert (Lg : length (grid N xmin xmax) = N) by (unfold grid; rewrite map_length, seq_length; auto).
  rewrite (product_ok R_ops N D) by (auto; rewrite map_length; auto). f_equal.
  unfold grid at 2. rewrite map_map. apply map_ext_in. intros j Hj. apply in_seq in Hj. destruct Hj as [_ Hj].
  assert (Hn : INR N <> 0) by (apply not_0_INR; lia).
  set (len := xmax - xmin) in *. assert (Hl : len <> 0) by (unfold len; lra).
  set (c := fun k => if (k <? j)%nat then coef N (j - k) else - coef N (k - j)).
  set (ph := fun m => INR m * (2 * PI / len) * xmin).
  rewrite (rsum_ext N _ (fun k => 2 * PI / len * rsum M (fun m =>
     a m * (c k * cos (INR m * (INR k * (2 * PI / INR N)) + ph m)) + b m * (c k * cos (INR m * (INR k * (2 * PI / INR N)) + (ph m - PI / 2)))))).
  - rewrite rsum_scal, rsum_swap. unfold trig. rewrite <- rsum_scal. apply rsum_ext. intros m Hm'.
    rewrite rsum_plus, !rsum_scal. unfold c. rewrite !wave by (auto; lia).
    replace (INR m * (2 * PI / len) * (xmin + INR j * (len / INR N))) with (INR m * (INR j * (2 * PI / INR N)) + ph m) by (unfold ph; field; auto).
    replace (INR m * (INR j * (2 * PI / INR N)) + (ph m - PI / 2)) with (INR m * (INR j * (2 * PI / INR N)) + ph m - PI / 2) by ring.
    rewrite (sin_minus _ (PI / 2)), cos_PI2, sin_PI2. field. auto.
  - intros k Hk. rewrite V by auto.
    rewrite (nth_indep _ _ (trig len M a b 0)) by (rewrite map_length, Lg; auto). rewrite map_nth.
    assert (Ek : nth k (grid N xmin xmax) 0 = xmin + INR k * (len / INR N)).
    { unfold grid. rewrite (nth_indep _ _ (xmin + INR 0 * ((xmax - xmin) / INR N))) by (rewrite map_length, seq_length; auto).
      rewrite (map_nth (fun j => xmin + INR j * ((xmax - xmin) / INR N))), seq_nth by auto. reflexivity. }
    rewrite Ek.
    assert (Ec : (if (k <? j)%nat then scaled R_ops R_math N xmin xmax (j - k) else fopp R_ops (scaled R_ops R_math N xmin xmax (k - j))) = 2 * PI / len * c k).
    { unfold c, scaled. destruct (Nat.ltb_spec k j); rewrite signed_value by lia; cbn [R_ops R_math fmul fdiv fsub ftwo fopp m_pi]; fold len; ring. }
    rewrite Ec. cbn [R_ops fmul]. rewrite Rmult_assoc. f_equal. unfold trig. rewrite <- rsum_scal. apply rsum_ext. intros m _.
    replace (INR m * (2 * PI / len) * (xmin + INR k * (len / INR N))) with (INR m * (INR k * (2 * PI / INR N)) + ph m) by (unfold ph; field; auto).
    replace (INR m * (INR k * (2 * PI / INR N)) + (ph m - PI / 2)) with (INR m * (INR k * (2 * PI / INR N)) + ph m - PI / 2) by ring.
    rewrite (cos_minus _ (PI / 2)), cos_PI2, sin_PI2. ring.
Qed.
Print Assumptions differentiation_exact.

(** A case: sin 2x + 3 on 5 points. *)
Example differentiation_example : (1 <= 5)%nat /\ 0 < 2 * PI /\ (forall m, (m < 3)%nat -> (2 * m < 5)%nat) /\
  forall x, trig (2 * PI - 0) 3 (fun m => match m with O => 3 | _ => 0 end) (fun m => match m with 2%nat => 1 | _ => 0 end) x = 3 + sin (2 * x).
Proof.
  pose proof PI_RGT_0. split; [lia|]. split; [lra|]. split; [intros; lia|]. intros x. unfold trig. cbn [fsum R_ops fadd fzero INR].
  rewrite Rminus_0_r. replace (2 * PI / (2 * PI)) with 1 by (field; lra).
  replace (0 * 1 * x) with 0 by ring. rewrite cos_0. replace ((1 + 1) * 1 * x) with (2 * x) by ring. ring.
Qed.

(** The degree cannot be larger: on an even number of points, the highest wave is not
    differentiated correctly (its derivative is sampled as zero). *)
Theorem differentiation_exact_at_half_refuted : exists a b D f',
  differentiation_matrix R_ops R_math 2 0 (2 * PI) = Ok D /\
  (forall x, derivable_pt_lim (trig (2 * PI - 0) 2 a b) x (f' x)) /\
  matrix_vector_product R_ops D (map (trig (2 * PI - 0) 2 a b) (grid 2 0 (2 * PI))) <> Ok (map f' (grid 2 0 (2 * PI))).
Proof.
  pose proof PI_RGT_0 as Hpi.
  exists (fun _ => 0), (fun m => match m with O => 0 | _ => 1 end).
  destruct (matrix_ok R_ops R_math 2 0 (2 * PI) ltac:(lia)) as (D & E & Hm & V). eexists D, _. split; [exact E|]. split; [intros x; apply trig_derivative|].
  rewrite (product_ok R_ops 2 D) by (auto; unfold grid; rewrite !map_length, seq_length; auto). intros C. injection C as C _.
  unfold trig, grid in C. cbn [seq map nth fsum INR R_ops fadd fmul fzero] in C.
  replace (2 * PI / (2 * PI - 0)) with 1 in C by (field; lra).
  repeat rewrite ?Rmult_0_l, ?Rmult_0_r, ?Rplus_0_l, ?Rplus_0_r, ?sin_0, ?cos_0, ?Rmult_1_l in C.
  replace (1 * ((2 * PI - 0) / (1 + 1))) with PI in C by field. replace ((2 * PI - 0) / (1 + 1)) with PI in C by field.
  rewrite ?sin_PI in C. lra.
Qed.
Print Assumptions differentiation_exact_at_half_refuted.

(** C11, for any arithmetic: the matrix is computed without any access out of bounds; it has
    N rows and N columns; the entry depends only on the difference of its indices; entries
    that are mirror images differ by the sign. *)
Theorem differentiation_structure : forall {F : Type} (o : fops F) (mo : mops F) (N : nat) (xmin xmax : F), (1 <= N)%nat ->
  exists D, differentiation_matrix o mo N xmin xmax = Ok D /\ m_nrows D = N /\ m_ncols D = N /\ length (m_data D) = (N * N)%nat /\
  (forall j k, (k < j < N)%nat -> exists v, matrix_get D j k = Ok v /\ matrix_get D k j = Ok (fopp o v)) /\
  (forall j k, (S j < N)%nat -> (S k < N)%nat -> matrix_get D (S j) (S k) = matrix_get D j k).
Proof.
  intros F o mo N xmin xmax HN. destruct (matrix_ok o mo N xmin xmax HN) as (D & E & Hm & V). exists D.
  split; [exact E|]. destruct Hm as (R & C & L). split; [auto|]. split; [auto|]. split; [auto|].
  assert (G : forall j k, (j < N)%nat -> (k < N)%nat -> matrix_get D j k = Ok (entry o D j k)).
  { intros j k Hj Hk. unfold matrix_get, matrix_index, entry. apply aget_ok. rewrite L, R. apply TensorFacts.idx2_bound; auto. }
  split.
  - intros j k H. exists (entry o D j k). rewrite !G by lia. split; [auto|]. rewrite !V by lia.
    destruct (Nat.ltb_spec k j), (Nat.ltb_spec j k); try lia. reflexivity.
  - intros j k Hj Hk. rewrite !G, !V by lia. change (S k <? S j)%nat with (k <? j)%nat. reflexivity.
Qed.
Print Assumptions differentiation_structure.
(** In exact arithmetic, it is also circulant and antisymmetric, with a zero diagonal, and its
    rows add up to zero. *)
Theorem differentiation_circulant : forall (N : nat) (xmin xmax : R), (1 <= N)%nat ->
  exists D, differentiation_matrix R_ops R_math N xmin xmax = Ok D /\
  (forall j k, (j < N)%nat -> (k < N)%nat -> matrix_get D (S j mod N) (S k mod N) = matrix_get D j k) /\
  (forall j k, (j < N)%nat -> (k < N)%nat -> exists v, matrix_get D j k = Ok v /\ matrix_get D k j = Ok (- v)) /\
  (forall j, (j < N)%nat -> matrix_get D j j = Ok 0) /\
  (xmin < xmax -> matrix_vector_product R_ops D (repeat 1 N) = Ok (repeat 0 N)).
Proof.
  intros N xmin xmax HN. destruct (matrix_ok R_ops R_math N xmin xmax HN) as (D & E & Hm & V). exists D.
  split; [exact E|]. pose proof Hm as (Hr & Hc & L).
  assert (G : forall j k, (j < N)%nat -> (k < N)%nat -> matrix_get D j k = Ok (2 * PI / (xmax - xmin) * if (k <? j)%nat then coef N (j - k) else - coef N (k - j))).
  { intros j k Hj Hk. unfold matrix_get, matrix_index. rewrite (aget_ok (m_data D) _ 0) by (rewrite L, Hr; apply TensorFacts.idx2_bound; auto). f_equal.
    change (nth (j + m_nrows D * k) (m_data D) 0) with (entry R_ops D j k). rewrite V by auto. unfold scaled.
    destruct (Nat.ltb_spec k j); rewrite signed_value by lia; cbn [R_ops R_math fmul fdiv fsub ftwo fopp m_pi]; ring. }
  split; [|split; [|split]].
  - intros j k Hj Hk. assert (Hn0 : N <> 0%nat) by lia. rewrite G, G; auto using Nat.mod_upper_bound. do 2 f_equal.
    destruct (Nat.eq_dec (S j) N) as [Ej|Ej], (Nat.eq_dec (S k) N) as [Ek|Ek].
    + rewrite Ej, Ek, Nat.mod_same by auto. replace k with j by lia. rewrite !Nat.ltb_irrefl, !Nat.sub_diag. reflexivity.
    + rewrite Ej, Nat.mod_same, (Nat.mod_small (S k)) by lia. destruct (Nat.ltb_spec (S k) 0); [lia|]. destruct (Nat.ltb_spec k j); [|lia].
      replace (S k - 0)%nat with (N - (j - k))%nat by lia. rewrite coef_reflect by lia. ring.
    + rewrite Ek, Nat.mod_same, (Nat.mod_small (S j)) by lia. destruct (Nat.ltb_spec 0 (S j)); [|lia]. destruct (Nat.ltb_spec k j); [lia|].
      replace (S j - 0)%nat with (N - (k - j))%nat by lia. rewrite coef_reflect by lia. ring.
    + rewrite !Nat.mod_small by lia. reflexivity.
  - intros j k Hj Hk. rewrite !G by auto. eexists. split; [reflexivity|]. f_equal.
    destruct (Nat.ltb_spec k j), (Nat.ltb_spec j k); try lia; try ring. replace k with j by lia. rewrite !Nat.sub_diag, coef_0. ring.
  - intros j Hj. rewrite G by auto. rewrite Nat.ltb_irrefl, Nat.sub_diag, coef_0. f_equal. ring.
  - intros Hx. destruct (differentiation_exact N xmin xmax 1 (fun _ => 1) (fun _ => 0) HN Hx) as (D' & f' & E' & Hd & P); [intros; lia|].
    assert (D' = D) by congruence. subst D'.
    assert (T1 : forall x, trig (xmax - xmin) 1 (fun _ => 1) (fun _ => 0) x = 1).
    { intros x. unfold trig. cbn [fsum R_ops fadd fzero INR]. replace (0 * (2 * PI / (xmax - xmin)) * x) with 0 by ring. rewrite cos_0, sin_0. ring. }
    assert (F0 : forall x, f' x = 0).
    { intros x. eapply uniqueness_limite; [apply Hd|]. apply derivable_pt_lim_ext with (f := fct_cte 1); [intros; symmetry; apply T1|]. apply derivable_pt_lim_const. }
    assert (M1 : forall (f : R -> R) c (l : list R), (forall x, f x = c) -> map f l = repeat c (length l)).
    { intros f c l Hf. induction l; cbn; [auto|]. rewrite Hf, IHl. reflexivity. }
    rewrite (M1 _ 1 _ T1), (M1 _ 0 _ F0) in P. unfold grid in P. rewrite map_length, seq_length in P. exact P.
Qed.
Print Assumptions differentiation_circulant.
(** For N = 0 the code writes to an empty array. *)
Theorem differentiation_empty : forall {F : Type} (o : fops F) (mo : mops F) xmin xmax, exists why, differentiation_matrix o mo 0 xmin xmax = UB why.
Proof. intros. eexists. reflexivity. Qed.
Print Assumptions differentiation_empty.
