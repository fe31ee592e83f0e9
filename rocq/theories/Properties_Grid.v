(** Properties C32 (enumeration of the grid of a parameter scan) and C33 (values of the grid). *)
From Coq Require Import String ZArith List Bool Arith Lia Reals Lra SpecFloat.
From Verif Require Import Base FloatOps Grid GridSpec GridFacts.
Import ListNotations.
Local Open Scope list_scope.
Local Open Scope nat_scope.

(** ** C32 *)

(** The program accepts a grid exactly when every dimension has at least two values and the
    number of points fits in an int, and then counts the points correctly. *)
Theorem scan_size_accepted : forall (params_n : list Z) (N : Z),
  grid_total params_n = Ok N <->
  Forall (fun n => (2 <= n)%Z) params_n /\ N = product params_n /\ (N <= 2147483647)%Z.
Proof.
  intros l N. split.
  - intros H. apply grid_total_from_spec in H; [|lia]. destruct H as (-> & Hf & Hp & Hm).
    unfold INT_MAX in Hm. repeat split; auto; lia.
  - intros (Hf & -> & Hm). unfold grid_total. replace (product l) with (1 * product l)%Z by lia.
    assert (G : forall acc, (0 < acc)%Z -> (acc * product l <= INT_MAX)%Z ->
                grid_total_from acc l = Ok (acc * product l)%Z).
    { clear Hm. induction Hf as [|n l Hn Hf IH]; intros acc Ha Hp; cbn [grid_total_from].
      - cbn. f_equal. lia.
      - cbn [product fold_right] in *. fold (product l) in *.
        assert (1 <= product l)%Z.
        { clear - Hf. induction Hf; cbn [product fold_right]; [lia|]. fold (product l). nia. }
        destruct (Z.ltb_spec n 2); [lia|].
        destruct (Z.leb_spec (acc * n) INT_MAX) as [H1|H1]; [|exfalso; clear IH; nia].
        rewrite IH by nia. f_equal. lia. }
    apply G; unfold INT_MAX; lia.
Qed.
Print Assumptions scan_size_accepted.

(** Every index below the number of points stands for a combination of grid values, and every
    combination is the one of exactly one such index. *)
Theorem scan_index_bijection : forall (params_n : list Z) (N : Z),
  grid_total params_n = Ok N ->
  let sizes := map Z.to_nat params_n in
  (forall j, j < Z.to_nat N -> grid_point sizes (decode sizes j)) /\
  (forall indices, grid_point sizes indices ->
     exists! j, j < Z.to_nat N /\ decode sizes j = indices).
Proof.
  intros l N H sizes. apply scan_size_accepted in H. destruct H as (Hf & -> & _).
  assert (E : Z.to_nat (product l) = nproduct sizes).
  { rewrite product_nproduct by auto. rewrite Nat2Z.id. reflexivity. }
  rewrite E.
  assert (Hs : Forall (fun n => n <> 0) sizes).
  { unfold sizes. apply Forall_map. eapply Forall_impl; [|exact Hf]. intros n Hn; cbn beta in *; lia. }
  split.
  - intros j Hj. apply decode_spec; auto.
  - intros idx Hi. exists (rank_of sizes idx). split.
    + split; [apply rank_lt; auto|apply decode_rank; auto].
    + intros j (Hj & <-). apply decode_spec; auto.
Qed.
Print Assumptions scan_index_bijection.

(** The order: the first scanned parameter varies slowest. *)
Theorem scan_index_order : forall (params_n : list Z) (N : Z),
  grid_total params_n = Ok N ->
  let sizes := map Z.to_nat params_n in
  forall j, j < Z.to_nat N -> rank_of sizes (decode sizes j) = j.
Proof.
  intros l N H sizes j Hj. apply scan_size_accepted in H. destruct H as (Hf & -> & _).
  rewrite product_nproduct in Hj by auto. rewrite Nat2Z.id in Hj.
  apply decode_spec; auto.
  unfold sizes. apply Forall_map. eapply Forall_impl; [|exact Hf]. intros n Hn; cbn beta in *; lia.
Qed.
Print Assumptions scan_index_order.

Example scan_index_example :
  grid_total [3; 2; 4]%Z = Ok 24%Z /\ decode [3; 2; 4] 13 = [1; 1; 1] /\
  map (decode [2; 3]) (seq 0 6) = [[0;0];[0;1];[0;2];[1;0];[1;1];[1;2]].
Proof. repeat split; reflexivity. Qed.

(** Not every list of sizes of at least 2 is handled: the number of points is computed in an
    int, and 50 dimensions of two values overflow it. *)
Theorem scan_size_overflow_refuted :
  exists params_n, Forall (fun n => (2 <= n <= 10)%Z) params_n /\
    exists why, grid_total params_n = UB why.
Proof.
  exists (repeat 2%Z 50). split.
  - apply Forall_forall. intros n Hn. apply repeat_spec in Hn. lia.
  - eexists. vm_compute. reflexivity.
Qed.
Print Assumptions scan_size_overflow_refuted.

(** ** C33 *)
Section Exact.
Local Open Scope R_scope.

Lemma grid_values_nth {F} (o : fops F) of_Z fexp flog b lo hi (n : Z) k d :
  (k < Z.to_nat n)%nat ->
  nth k (grid_values o of_Z fexp flog b lo hi n) d =
  if b then log_value o of_Z fexp flog lo hi n (Z.of_nat k) else linear_value o of_Z lo hi n (Z.of_nat k).
Proof.
  intros H. unfold grid_values.
  rewrite (nth_indep _ d ((fun k => if b then log_value o of_Z fexp flog lo hi n (Z.of_nat k)
     else linear_value o of_Z lo hi n (Z.of_nat k)) 0%nat)) by (rewrite map_length, seq_length; auto).
  rewrite (map_nth (fun k => if b then log_value o of_Z fexp flog lo hi n (Z.of_nat k)
     else linear_value o of_Z lo hi n (Z.of_nat k))). rewrite seq_nth by auto. reflexivity.
Qed.

(** Linear spacing, in exact arithmetic: n values, from min to max, in equal steps. *)
Theorem linear_grid : forall (lo hi : R) (n : Z), (2 <= n)%Z ->
  let v k := nth k (grid_values R_ops IZR exp ln false lo hi n) 0 in
  length (grid_values R_ops IZR exp ln false lo hi n) = Z.to_nat n /\
  v 0%nat = lo /\ v (Z.to_nat n - 1)%nat = hi /\
  (forall k, (k + 1 < Z.to_nat n)%nat -> v (k + 1)%nat - v k = (hi - lo) / IZR (n - 1)) /\
  (lo < hi -> forall k, (k + 1 < Z.to_nat n)%nat -> v k < v (k + 1)%nat).
Proof.
  intros lo hi n Hn v.
  assert (Hd : 0 < IZR (n - 1)) by (apply IZR_lt; lia).
  assert (V : forall k, (k < Z.to_nat n)%nat -> v k = lo + (hi - lo) * IZR (Z.of_nat k) / IZR (n - 1)).
  { intros k Hk. unfold v. rewrite grid_values_nth by auto. reflexivity. }
  assert (S : forall k, (k + 1 < Z.to_nat n)%nat -> v (k + 1)%nat - v k = (hi - lo) / IZR (n - 1)).
  { intros k Hk. rewrite !V by lia. rewrite Nat2Z.inj_add, plus_IZR. simpl (IZR (Z.of_nat 1)). field. lra. }
  repeat split; auto.
  - unfold grid_values. rewrite map_length, seq_length. reflexivity.
  - rewrite V by lia. simpl. field. lra.
  - rewrite V by lia. replace (Z.of_nat (Z.to_nat n - 1)) with (n - 1)%Z by lia. field. lra.
  - intros Hlt k Hk. specialize (S k Hk).
    assert (0 < (hi - lo) / IZR (n - 1)) by (apply Rdiv_lt_0_compat; lra). lra.
Qed.
Print Assumptions linear_grid.

(** Logarithmic spacing, in exact arithmetic: n positive values from min to max, each a fixed
    multiple of the one before. *)
Theorem log_grid : forall (lo hi : R) (n : Z), (2 <= n)%Z -> 0 < lo -> 0 < hi ->
  let v k := nth k (grid_values R_ops IZR exp ln true lo hi n) 0 in
  length (grid_values R_ops IZR exp ln true lo hi n) = Z.to_nat n /\
  v 0%nat = lo /\ v (Z.to_nat n - 1)%nat = hi /\
  (forall k, (k < Z.to_nat n)%nat -> 0 < v k) /\
  (exists q, 0 < q /\ forall k, (k + 1 < Z.to_nat n)%nat -> v (k + 1)%nat = q * v k) /\
  (lo < hi -> forall k, (k + 1 < Z.to_nat n)%nat -> v k < v (k + 1)%nat).
Proof.
  intros lo hi n Hn Hlo Hhi v.
  assert (Hd : 0 < IZR (n - 1)) by (apply IZR_lt; lia).
  assert (V : forall k, (k < Z.to_nat n)%nat ->
     v k = exp (ln lo + (ln hi - ln lo) * IZR (Z.of_nat k) / IZR (n - 1))).
  { intros k Hk. unfold v. rewrite grid_values_nth by auto. reflexivity. }
  assert (S : forall k, (k + 1 < Z.to_nat n)%nat -> v (k + 1)%nat = exp ((ln hi - ln lo) / IZR (n - 1)) * v k).
  { intros k Hk. rewrite !V by lia. rewrite <- exp_plus. f_equal.
    rewrite Nat2Z.inj_add, plus_IZR. simpl (IZR (Z.of_nat 1)). field. lra. }
  assert (P : forall k, (k < Z.to_nat n)%nat -> 0 < v k).
  { intros k Hk. rewrite V by auto. apply exp_pos. }
  repeat split; auto.
  - unfold grid_values. rewrite map_length, seq_length. reflexivity.
  - rewrite V by lia. simpl. rewrite Rmult_0_r. unfold Rdiv. rewrite Rmult_0_l, Rplus_0_r. apply exp_ln; auto.
  - rewrite V by lia. replace (Z.of_nat (Z.to_nat n - 1)) with (n - 1)%Z by lia.
    replace (ln lo + (ln hi - ln lo) * IZR (n - 1) / IZR (n - 1)) with (ln hi) by (field; lra). apply exp_ln; auto.
  - exists (exp ((ln hi - ln lo) / IZR (n - 1))). split; auto. apply exp_pos.
  - intros Hlt k Hk. rewrite S by auto.
    assert (1 < exp ((ln hi - ln lo) / IZR (n - 1))).
    { rewrite <- exp_0. apply exp_increasing. apply Rdiv_lt_0_compat; auto.
      assert (ln lo < ln hi) by (apply ln_increasing; auto). lra. }
    specialize (P k ltac:(lia)). nra.
Qed.
Print Assumptions log_grid.

(** With rounded arithmetic, of any precision and for any monotone rounding that leaves 0 and
    min unchanged, the linear grid still starts exactly at min and never decreases. *)
Theorem linear_grid_rounded : forall (rnd : R -> R) (lo hi : R) (n : Z),
  (forall x y, x <= y -> rnd x <= rnd y) -> rnd 0 = 0 -> rnd lo = lo -> (2 <= n)%Z -> lo <= hi ->
  let o := mkFops R 0 1 2 (fun x y => rnd (x + y)) (fun x y => rnd (x - y))
             (fun x y => rnd (x * y)) (fun x y => rnd (x / y)) Ropp Rltb Rleb in
  let v k := nth k (grid_values o IZR exp ln false lo hi n) 0 in
  v 0%nat = lo /\ (forall k, (k + 1 < Z.to_nat n)%nat -> v k <= v (k + 1)%nat).
Proof.
  intros rnd lo hi n Hm H0 Hlo Hn Hle o v.
  assert (Hd : 0 < IZR (n - 1)) by (apply IZR_lt; lia).
  assert (V : forall k, (k < Z.to_nat n)%nat ->
     v k = rnd (lo + rnd (rnd (rnd (hi - lo) * IZR (Z.of_nat k)) / IZR (n - 1)))).
  { intros k Hk. unfold v. rewrite grid_values_nth by auto. reflexivity. }
  split.
  - rewrite V by lia. simpl. rewrite Rmult_0_r, H0. unfold Rdiv. rewrite Rmult_0_l, H0, Rplus_0_r. auto.
  - intros k Hk. rewrite !V by lia. apply Hm. apply Rplus_le_compat_l. apply Hm.
    unfold Rdiv. apply Rmult_le_compat_r. { left. apply Rinv_0_lt_compat; auto. }
    apply Hm. apply Rmult_le_compat_l.
    { rewrite <- H0. apply Hm. lra. }
    apply IZR_le. lia.
Qed.
Print Assumptions linear_grid_rounded.

Example linear_grid_example :
  map (fun k => nth k (grid_values R_ops IZR exp ln false (-1) 2 4) 0) [0;1;2;3]%nat = [-1; 0; 1; 2].
Proof.
  cbn [map]. rewrite !grid_values_nth by (simpl; lia). unfold linear_value. simpl.
  repeat (f_equal; try lra).
Qed.
End Exact.

(** In double precision the last value need not be max, it can even lie above it: from 0.3 to
    0.9 with two points the last value is 0.9000000000000001. *)
Theorem linear_grid_last_double_refuted :
  exists lo hi : spec_float,
    lo = S754_finite false 5404319552844595 (-54) (* 0.3 *) /\
    hi = S754_finite false 8106479329266893 (-53) (* 0.9 *) /\
    exists a b, grid_values D_ops d_of_Z (fun x => x) (fun x => x) false lo hi 2 = [a; b] /\
      a = lo /\ SFltb hi b = true.
Proof.
  do 2 eexists. split; [reflexivity|]. split; [reflexivity|].
  do 2 eexists. split; [vm_compute; reflexivity|]. split; vm_compute; reflexivity.
Qed.
Print Assumptions linear_grid_last_double_refuted.
