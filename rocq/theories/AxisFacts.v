(** Facts about the model of init_axis. *)
From Coq Require Import String ZArith Reals List Arith Lia Lra Psatz.
From Verif Require Import Base BaseFacts FloatOps MathOps MathFacts Tensor ScanFacts Diff DiffFacts Helicity HelicitySpec HelicityFacts Curve Axis AxisSpec.
Import ListNotations.
Local Open Scope list_scope.
Local Open Scope nat_scope.

(** ** Integers *)
Lemma imul_ok a b : (- int_max - 1 <= a * b <= int_max)%Z -> imul a b = Ok (a * b)%Z.
Proof. intros H. unfold imul, int_ok. rewrite (proj2 (Z.leb_le _ _)), (proj2 (Z.leb_le _ _)) by lia. reflexivity. Qed.
Lemma imul_big a b : (int_max < a * b)%Z -> exists w, imul a b = UB w.
Proof. intros H. unfold imul, int_ok. rewrite (proj2 (Z.leb_gt (a * b) int_max)) by lia. rewrite Bool.andb_false_r. eauto. Qed.
Lemma cube_ok n nfp : (0 <= n -> 1 <= nfp -> n * nfp <= 1290 ->
  imul n nfp = Ok (n * nfp) /\ imul (n * nfp) n = Ok (n * nfp * n) /\ imul (n * nfp * n) nfp = Ok (n * nfp * n * nfp) /\
  imul (n * nfp * n * nfp) n = Ok (n * nfp * n * nfp * n) /\ imul (n * nfp * n * nfp * n) nfp = Ok (n * nfp * n * nfp * n * nfp))%Z.
Proof.
  intros H0 H1 H. unfold int_max in *. 
  assert (Hn : (0 <= n * nfp)%Z) by nia.
  assert (Hn1 : (n <= n * nfp)%Z) by nia.
  assert (A : (n * nfp * n <= (n * nfp) * (n * nfp))%Z) by nia.
  assert (B : ((n * nfp) * (n * nfp) <= 1290 * 1290)%Z) by nia.
  assert (C : (n * nfp * n * nfp * n <= (n * nfp) * (n * nfp) * (n * nfp))%Z) by nia.
  assert (D : ((n * nfp) * (n * nfp) * (n * nfp) <= 1290 * 1290 * 1290)%Z) by nia.
  assert (P : (0 <= n * nfp * n)%Z) by nia. assert (P2 : (0 <= n * nfp * n * nfp)%Z) by nia. assert (P3 : (0 <= n * nfp * n * nfp * n)%Z) by nia.
  assert (Q : (n * nfp * n * nfp = n * nfp * (n * nfp))%Z) by ring. assert (Q2 : (n * nfp * n * nfp * n * nfp = n * nfp * (n * nfp) * (n * nfp))%Z) by ring.
  repeat split; apply imul_ok; unfold int_max; rewrite ?Q, ?Q2; nia.
Qed.

Section Generic.
Context {F : Type} (o : fops F) (mo : mops F).
Lemma add_mode_ok i phi n s : axis_ok i -> 1 <= n < length (ai_R0c i) -> exists s', add_mode o mo i phi n s = Ok s'.
Proof.
  intros H Hn. destruct H. assert (Hr : (Z.of_nat n * ai_nfp i <= 1290)%Z) by nia.
  destruct (cube_ok (Z.of_nat n) (ai_nfp i)) as (E1 & E2 & E3 & E4 & E5); [lia|lia|lia|].
  unfold add_mode. rewrite E1. cbn [bind]. rewrite E2. cbn [bind]. rewrite E3. cbn [bind]. rewrite E4. cbn [bind]. rewrite E5. cbn [bind].
  rewrite !(aget_ok _ _ (fzero o)) by lia. cbn [bind]. eauto.
Qed.
Lemma helicity_ok (ge0 : F -> bool) n f g spsi sG : 1 <= n ->
  calculate_helicity ge0 n (map f (seq 0 n)) (map g (seq 0 n)) (repeat 0%Z (S n)) spsi sG
  = Ok (spsi * sG * winding ge0 (combine (map f (seq 0 n)) (map g (seq 0 n))))%Z.
Proof.
  intros Hn. pose proof (@helicity_winding F ge0 (map f (seq 0 n)) (map g (seq 0 n)) (repeat 0%Z (S n)) spsi sG) as P.
  rewrite map_length, seq_length in P. apply P; [rewrite map_length, seq_length; auto|rewrite repeat_length; auto|]. intros E.
  apply (f_equal (@length F)) in E. rewrite map_length, seq_length in E. cbn in E. lia.
Qed.
Lemma init_axis_eq ge0 i : axis_ok i -> exists d s,
  differentiation_matrix o mo (ai_nphi i) (fzero o) (fdiv o (fmul o (ftwo o) (m_pi mo)) (m_of_Z mo (ai_nfp i))) = Ok d /\
  axis_shape o mo i (phi_grid o (d_phi_of o mo i)) = Ok s /\
  let a := frenet o mo i d (phi_grid o (d_phi_of o mo i)) s in
  init_axis o mo ge0 i = Ok (a, ai_spsi i * ai_sG i * winding ge0 (combine (map (a_normal1 a) (seq 0 (ai_nphi i))) (map (a_normal3 a) (seq 0 (ai_nphi i)))))%Z.
Proof.
  intros H. destruct (matrix_ok o mo (ai_nphi i) (fzero o) (fdiv o (fmul o (ftwo o) (m_pi mo)) (m_of_Z mo (ai_nfp i))) (ok_nphi _ H)) as (d & Ed & _).
  exists d.
  assert (Es : exists s, axis_shape o mo i (phi_grid o (d_phi_of o mo i)) = Ok s).
  { unfold axis_shape. destruct H. rewrite !(aget_ok _ 0 (fzero o)) by lia. cbn [bind].
    edestruct (for_from_inv (fun _ _ => True) (add_mode o mo i (phi_grid o (d_phi_of o mo i))) (length (ai_R0c i) - 1) 1) as (s & E & _); [exact I| |].
    - intros k x Hk _. destruct (add_mode_ok i (phi_grid o (d_phi_of o mo i)) k x) as (s' & E); [constructor; auto|lia|]. eauto.
    - rewrite E. eauto. }
  destruct Es as (s & Es). exists s. split; [exact Ed|]. split; [exact Es|]. intros a.
  unfold init_axis. rewrite Ed. cbn [bind]. rewrite Es. cbn [bind]. fold a. rewrite helicity_ok by (destruct H; auto). reflexivity.
Qed.
(** A frequency that is too large. *)
Lemma shape_overflow i phi : 1 <= length (ai_R0c i) -> length (ai_R0s i) = length (ai_R0c i) -> length (ai_Z0c i) = length (ai_R0c i) ->
  length (ai_Z0s i) = length (ai_R0c i) -> (1 <= ai_nfp i)%Z -> (1290 < Z.of_nat (length (ai_R0c i) - 1) * ai_nfp i)%Z ->
  exists w, axis_shape o mo i phi = UB w.
Proof.
  intros L L1 L2 L3 Hf Hb. unfold axis_shape. rewrite !(aget_ok _ 0 (fzero o)) by lia. cbn [bind].
  match goal with |- context [for_from 1 _ _ ?s] => generalize s end.
  assert (G : forall m k s, k + m = length (ai_R0c i) -> 1 <= k -> 1 <= m -> exists w, for_from k m (add_mode o mo i phi) s = UB w).
  2:{ intros s. apply G; lia. }
  induction m as [|m IH]; intros k s Hk Hk1 Hm; [lia|]. cbn [for_from].
  destruct (Z.le_gt_cases (Z.of_nat k * ai_nfp i) 1290) as [Hle|Hgt].
  - destruct (cube_ok (Z.of_nat k) (ai_nfp i)) as (E1 & E2 & E3 & E4 & E5); [lia|lia|lia|].
    assert (Em : exists s', add_mode o mo i phi k s = Ok s').
    { unfold add_mode. rewrite E1. cbn [bind]. rewrite E2. cbn [bind]. rewrite E3. cbn [bind]. rewrite E4. cbn [bind]. rewrite E5. cbn [bind].
      rewrite !(aget_ok _ _ (fzero o)) by lia. cbn [bind]. eauto. }
    destruct Em as (s' & ->). cbn [bind]. apply IH; try lia.
    destruct m; [|lia]. exfalso. replace (length (ai_R0c i) - 1) with k in Hb by lia. lia.
  - assert (Em : exists w, add_mode o mo i phi k s = UB w).
    { unfold add_mode. set (n := Z.of_nat k) in *. set (f := ai_nfp i) in *.
      assert (P0 : (1 <= n)%Z) by lia.
      assert (Big : (int_max < n * f * n * f * n * f)%Z).
      { assert (X : (1291 <= n * f)%Z) by lia; assert (X2 : (1291 * 1291 <= (n * f) * (n * f))%Z) by nia;
           assert (X3 : (1291 * 1291 * 1291 <= (n * f) * (n * f) * (n * f))%Z) by nia;
           replace (n * f * n * f * n * f)%Z with ((n * f) * (n * f) * (n * f))%Z by ring; unfold int_max; lia. }
      assert (Q1 : (0 <= n * f)%Z) by nia; assert (Q2 : (0 <= n * f * n)%Z) by nia; assert (Q3 : (0 <= n * f * n * f)%Z) by nia;
           assert (Q4 : (0 <= n * f * n * f * n)%Z) by nia.
      all: destruct (Z.le_gt_cases (n * f) int_max) as [B1|B1]; [rewrite (imul_ok n f) by (unfold int_max in *; lia); cbn [bind]|destruct (imul_big n f) as (w & ->); [lia|]; eexists; reflexivity].
      all: destruct (Z.le_gt_cases (n * f * n) int_max) as [B2|B2]; [rewrite (imul_ok (n * f) n) by (unfold int_max in *; lia); cbn [bind]|destruct (imul_big (n * f) n) as (w & ->); [lia|]; eexists; reflexivity].
      all: destruct (Z.le_gt_cases (n * f * n * f) int_max) as [B3|B3]; [rewrite (imul_ok (n * f * n) f) by (unfold int_max in *; lia); cbn [bind]|destruct (imul_big (n * f * n) f) as (w & ->); [lia|]; eexists; reflexivity].
      all: destruct (Z.le_gt_cases (n * f * n * f * n) int_max) as [B4|B4]; [rewrite (imul_ok (n * f * n * f) n) by (unfold int_max in *; lia); cbn [bind]|destruct (imul_big (n * f * n * f) n) as (w & ->); [lia|]; eexists; reflexivity].
      all: destruct (imul_big (n * f * n * f * n) f) as (w & ->); [lia|]; eexists; reflexivity. }
    destruct Em as (w & ->). exists w. reflexivity.
Qed.
End Generic.

(** ** Exact arithmetic: the shape *)
Local Open Scope R_scope.
Definition tp (w : R) (M : nat) (a b : nat -> R) (x : R) : R :=
  rsum M (fun m => a m * cos (INR m * w * x) + b m * sin (INR m * w * x)).
Lemma tp_derivative w M a b x : derivable_pt_lim (tp w M a b) x (tp w M (fun m => b m * (INR m * w)) (fun m => - a m * (INR m * w)) x).
Proof.
  unfold tp. induction M as [|M IH].
  - cbn [fsum R_ops fzero]. apply derivable_pt_lim_const.
  - rewrite rsum_S.
    apply (derivable_pt_lim_plus (fun x => rsum M (fun m => a m * cos (INR m * w * x) + b m * sin (INR m * w * x)))
      (fun x => a M * cos (INR M * w * x) + b M * sin (INR M * w * x))); [exact IH|].
    set (v := INR M * w).
    assert (Hl : derivable_pt_lim (fun x => v * x) x v).
    { pose proof (derivable_pt_lim_scal id v x 1 (derivable_pt_lim_id x)) as P. rewrite Rmult_1_r in P. exact P. }
    replace (b M * v * cos (v * x) + - a M * v * sin (v * x)) with (a M * (- sin (v * x) * v) + b M * (cos (v * x) * v)) by ring.
    apply (derivable_pt_lim_plus (fun x => a M * cos (v * x)) (fun x => b M * sin (v * x))).
    + apply (derivable_pt_lim_scal (fun x => cos (v * x))). apply (derivable_pt_lim_comp (fun x => v * x) cos x v (- sin (v * x)) Hl).
      apply derivable_pt_lim_cos.
    + apply (derivable_pt_lim_scal (fun x => sin (v * x))). apply (derivable_pt_lim_comp (fun x => v * x) sin x v (cos (v * x)) Hl).
      apply derivable_pt_lim_sin.
Qed.
Lemma tp_ext w M a b a' b' x : (forall m, (m < M)%nat -> a m = a' m /\ b m = b' m) -> tp w M a b x = tp w M a' b' x.
Proof. intros H. apply rsum_ext. intros m Hm. destruct (H m Hm) as (-> & ->). reflexivity. Qed.
(** The first three derivatives of a series. *)
Definition tp1 w M (a b : nat -> R) := tp w M (fun m => b m * (INR m * w)) (fun m => - a m * (INR m * w)).
Definition tp2 w M (a b : nat -> R) := tp w M (fun m => - a m * (INR m * w) * (INR m * w)) (fun m => - (b m * (INR m * w)) * (INR m * w)).
Definition tp3 w M (a b : nat -> R) := tp w M (fun m => - (b m * (INR m * w)) * (INR m * w) * (INR m * w)) (fun m => - (- a m * (INR m * w) * (INR m * w)) * (INR m * w)).
Lemma tp_d1 w M a b x : derivable_pt_lim (tp w M a b) x (tp1 w M a b x). Proof. apply tp_derivative. Qed.
Lemma tp_d2 w M a b x : derivable_pt_lim (tp1 w M a b) x (tp2 w M a b x). Proof. apply tp_derivative. Qed.
Lemma tp_d3 w M a b x : derivable_pt_lim (tp2 w M a b) x (tp3 w M a b x). Proof. apply tp_derivative. Qed.
Definition cf (l : list R) (n : nat) : R := nth n l 0.
Lemma series_tp nfp c s M phi : (length c <= M)%nat -> (length s <= M)%nat -> series nfp c s phi = tp (IZR nfp) M (cf c) (cf s) phi.
Proof.
  intros Hc Hs. unfold series, tp. rewrite rsum_plus. f_equal.
  - replace M with (length c + (M - length c))%nat by lia. rewrite rsum_app. rewrite (rsum_zero (M - length c)); [cbn; unfold cf; ring|].
    intros k _. unfold cf. rewrite nth_overflow by lia. ring.
  - replace M with (length s + (M - length s))%nat by lia. rewrite rsum_app. rewrite (rsum_zero (M - length s)); [cbn; unfold cf; ring|].
    intros k _. unfold cf. rewrite nth_overflow by lia. ring.
Qed.

Lemma phi_grid_value d j : phi_grid R_ops d j = INR j * d.
Proof. induction j as [|j IH]; [cbn; ring|]. cbn [phi_grid]. rewrite IH, S_INR. cbn. ring. Qed.
Lemma phi_value i j : axis_ok i -> phi_grid R_ops (d_phi_of R_ops R_math i) j = grid_phi i j.
Proof.
  intros H. rewrite phi_grid_value. unfold d_phi_of, grid_phi. cbn [R_ops R_math fmul fdiv ftwo m_pi m_of_Z].
  rewrite mult_IZR, <- INR_IZR_INZ. field. destruct H. split; [apply not_0_INR; lia|apply not_0_IZR; lia].
Qed.

Lemma shape_values i (phi : nat -> R) : axis_ok i -> exists s, axis_shape R_ops R_math i phi = Ok s /\
  let w := IZR (ai_nfp i) in let M := length (ai_R0c i) in
  let rc := cf (ai_R0c i) in let rs := cf (ai_R0s i) in let zc := cf (ai_Z0c i) in let zs := cf (ai_Z0s i) in
  forall j, s_R s j = tp w M rc rs (phi j) /\ s_Z s j = tp w M zc zs (phi j) /\
   s_Rp s j = tp1 w M rc rs (phi j) /\ s_Zp s j = tp1 w M zc zs (phi j) /\
   s_Rpp s j = tp2 w M rc rs (phi j) /\ s_Zpp s j = tp2 w M zc zs (phi j) /\
   s_Rppp s j = tp3 w M rc rs (phi j) /\ s_Zppp s j = tp3 w M zc zs (phi j).
Proof.
  intros H. cbv zeta. unfold axis_shape. pose proof H as H'. destruct H'.
  rewrite !(aget_ok _ 0%nat 0) by lia. cbn [bind].
  set (w := IZR (ai_nfp i)).
  edestruct (for_from_inv (fun M s => forall j,
   s_R s j = tp w M (cf (ai_R0c i)) (cf (ai_R0s i)) (phi j) /\ s_Z s j = tp w M (cf (ai_Z0c i)) (cf (ai_Z0s i)) (phi j) /\
   s_Rp s j = tp1 w M (cf (ai_R0c i)) (cf (ai_R0s i)) (phi j) /\ s_Zp s j = tp1 w M (cf (ai_Z0c i)) (cf (ai_Z0s i)) (phi j) /\
   s_Rpp s j = tp2 w M (cf (ai_R0c i)) (cf (ai_R0s i)) (phi j) /\ s_Zpp s j = tp2 w M (cf (ai_Z0c i)) (cf (ai_Z0s i)) (phi j) /\
   s_Rppp s j = tp3 w M (cf (ai_R0c i)) (cf (ai_R0s i)) (phi j) /\ s_Zppp s j = tp3 w M (cf (ai_Z0c i)) (cf (ai_Z0s i)) (phi j))
   (add_mode R_ops R_math i phi) (length (ai_R0c i) - 1) 1%nat) as (s & E & P).
  3:{ rewrite E. exists s. split; [reflexivity|]. replace (1 + (length (ai_R0c i) - 1))%nat with (length (ai_R0c i)) in P by lia. exact P. }
  - intros j. unfold tp1, tp2, tp3, tp. cbn [s_R s_Z s_Rp s_Zp s_Rpp s_Zpp s_Rppp s_Zppp fsum R_ops fadd fzero INR].
    replace (0 * w * phi j) with 0 by ring. rewrite cos_0, sin_0. unfold cf. repeat split; ring.
  - intros k s Hk P. assert (Hr : (Z.of_nat k * ai_nfp i <= 1290)%Z) by nia.
    destruct (cube_ok (Z.of_nat k) (ai_nfp i)) as (E1 & E2 & E3 & E4 & E5); [lia|lia|lia|].
    unfold add_mode. rewrite E1. cbn [bind]. rewrite E2. cbn [bind]. rewrite E3. cbn [bind]. rewrite E4. cbn [bind]. rewrite E5. cbn [bind].
    rewrite !(aget_ok _ _ 0) by lia. cbn [bind]. eexists. split; [reflexivity|]. intros j.
    destruct (P j) as (P1 & P2 & P3 & P4 & P5 & P6 & P7 & P8).
    cbn [s_R s_Z s_Rp s_Zp s_Rpp s_Zpp s_Rppp s_Zppp]. rewrite P1, P2, P3, P4, P5, P6, P7, P8.
    unfold tp1, tp2, tp3, tp. change (1 + k)%nat with (S k). rewrite !rsum_S. 
    cbn [R_ops R_math fadd fmul m_sin m_cos m_of_Z]. rewrite ?opp_IZR, ?mult_IZR, <- ?INR_IZR_INZ. fold w. fold (cf (ai_R0c i) k) (cf (ai_R0s i) k) (cf (ai_Z0c i) k) (cf (ai_Z0s i) k).
    repeat split; ring.
Qed.
