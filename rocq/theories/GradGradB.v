(** Model of calculate_grad_grad_B_tensor and calculate_grad_grad_B_tensor_alt in src/grad_B_tensor.cpp, lines 57-1211.  The code
    computes each element for all the grid points at once, with operations on vectors; here an element is computed at one grid point, with
    the same operations in the same order, and set_row is the choice of the element by its three indices.  The timing and the messages
    are left out. *)
From Coq Require Import ZArith List Arith.
From Verif Require Import Base FloatOps MathOps Axis R1 R2.
Import ListNotations.

(** The tensors at one grid point, from the values there of the arrays that the formulas use. *)
Section Elements.
Context {F : Type} (o : fops F) (mo : mops F).
Local Infix "+!" := (fadd o) (at level 50, left associativity).
Local Infix "-!" := (fsub o) (at level 50, left associativity).
Local Infix "*!" := (fmul o) (at level 40, left associativity).
Local Infix "/!" := (fdiv o) (at level 40, left associativity).
Local Notation "-! x" := (fopp o x) (at level 35, right associativity).
Local Notation int := (m_of_Z mo).
Record point := mkPoint {
  p_sG : Z; p_spsi : Z; p_B0 : F; p_G0 : F; p_G2 : F; p_I2 : F; p_iota : F; p_iota_N : F; p_lp : F; p_B2s : F; p_B2c : F;
  p_B20 : F; p_curvature : F; p_torsion : F; p_d_curvature : F; p_d_torsion : F;
  p_X1c : F; p_Y1s : F; p_Y1c : F; p_d_X1c : F; p_d_Y1s : F; p_d_Y1c : F; p_d2_X1c : F; p_d2_Y1s : F; p_d2_Y1c : F;
  p_X20 : F; p_X2s : F; p_X2c : F; p_Y20 : F; p_Y2s : F; p_Y2c : F; p_Z2s : F; p_Z2c : F;
  p_d_X20 : F; p_d_X2s : F; p_d_X2c : F; p_d_Y20 : F; p_d_Y2s : F; p_d_Y2c : F; p_d_Z20 : F; p_d_Z2s : F; p_d_Z2c : F }.
Variable p : point.
Local Notation sG := (p_sG p).
Local Notation spsi := (p_spsi p).
Local Notation B0 := (p_B0 p).
Local Notation G0 := (p_G0 p).
Local Notation G2 := (p_G2 p).
Local Notation I2 := (p_I2 p).
Local Notation iota := (p_iota p).
Local Notation iota_N := (p_iota_N p).
Local Notation lp := (p_lp p).
Local Notation B2s := (p_B2s p).
Local Notation B2c := (p_B2c p).
Local Notation B20 := (p_B20 p).
Local Notation curvature := (p_curvature p).
Local Notation torsion := (p_torsion p).
Local Notation d_curvature_d_varphi := (p_d_curvature p).
Local Notation d_torsion_d_varphi := (p_d_torsion p).
Local Notation X1c := (p_X1c p).
Local Notation Y1s := (p_Y1s p).
Local Notation Y1c := (p_Y1c p).
Local Notation d_X1c_d_varphi := (p_d_X1c p).
Local Notation d_Y1s_d_varphi := (p_d_Y1s p).
Local Notation d_Y1c_d_varphi := (p_d_Y1c p).
Local Notation d2_X1c_d_varphi2 := (p_d2_X1c p).
Local Notation d2_Y1s_d_varphi2 := (p_d2_Y1s p).
Local Notation d2_Y1c_d_varphi2 := (p_d2_Y1c p).
Local Notation X20 := (p_X20 p).
Local Notation X2s := (p_X2s p).
Local Notation X2c := (p_X2c p).
Local Notation Y20 := (p_Y20 p).
Local Notation Y2s := (p_Y2s p).
Local Notation Y2c := (p_Y2c p).
Local Notation Z2s := (p_Z2s p).
Local Notation Z2c := (p_Z2c p).
Local Notation d_X20_d_varphi := (p_d_X20 p).
Local Notation d_X2s_d_varphi := (p_d_X2s p).
Local Notation d_X2c_d_varphi := (p_d_X2c p).
Local Notation d_Y20_d_varphi := (p_d_Y20 p).
Local Notation d_Y2s_d_varphi := (p_d_Y2s p).
Local Notation d_Y2c_d_varphi := (p_d_Y2c p).
Local Notation d_Z20_d_varphi := (p_d_Z20 p).
Local Notation d_Z2s_d_varphi := (p_d_Z2s p).
Local Notation d_Z2c_d_varphi := (p_d_Z2c p).
(** Lines 68-87. *)
Definition T000 : F :=
  (B0 *! B0 *! B0 *! B0 *! lp *! lp *! (int 8 *! iota_N *! X2c *! Y1c *! Y1s +! int 4 *! iota_N *! X2s *! (-! Y1c *! Y1c +! Y1s *! Y1s) +! int 2 *!
  iota_N *! X1c *! Y1s *! Y20 +! int 2 *! iota_N *! X1c *! Y1s *! Y2c -! int 2 *! iota_N *! X1c *! Y1c *! Y2s +! int 5 *! iota_N *! X1c *! X1c *! Y1c
  *! Y1s *! curvature -! int 2 *! Y1c *! Y20 *! d_X1c_d_varphi +! int 2 *! Y1c *! Y2c *! d_X1c_d_varphi +! int 2 *! Y1s *! Y2s *! d_X1c_d_varphi +!
  int 5 *! X1c *! Y1s *! Y1s *! curvature *! d_X1c_d_varphi +! int 2 *! Y1c *! Y1c *! d_X20_d_varphi +! int 2 *! Y1s *! Y1s *! d_X20_d_varphi -! int 2
  *! Y1c *! Y1c *! d_X2c_d_varphi +! int 2 *! Y1s *! Y1s *! d_X2c_d_varphi -! int 4 *! Y1c *! Y1s *! d_X2s_d_varphi)) /! (G0 *! G0 *! G0).
(** Lines 90-123. *)
Definition T001 : F :=
  (B0 *! B0 *! B0 *! B0 *! lp *! lp *! (Y1c *! Y1c *! (-! int 6 *! iota_N *! Y2s +! int 5 *! iota_N *! X1c *! Y1s *! curvature +! int 2 *! (lp *! X20
  *! torsion -! lp *! X2c *! torsion +! d_Y20_d_varphi -! d_Y2c_d_varphi)) +! Y1s *! (int 5 *! iota_N *! X1c *! Y1s *! Y1s *! curvature +! int 2 *!
  (lp *! X1c *! Y2s *! torsion +! Y2s *! d_Y1c_d_varphi -! (Y20 +! Y2c) *! d_Y1s_d_varphi) +! Y1s *! (int 6 *! iota_N *! Y2s +! int 2 *! lp *! X20 *!
  torsion +! int 2 *! lp *! X2c *! torsion +! int 5 *! lp *! X1c *! X1c *! curvature *! torsion +! int 5 *! X1c *! curvature *! d_Y1c_d_varphi +! int
  2 *! d_Y20_d_varphi +! int 2 *! d_Y2c_d_varphi)) +! Y1c *! (int 2 *! (lp *! X1c *! (-! Y20 +! Y2c) *! torsion -! Y20 *! d_Y1c_d_varphi +! Y2c *!
  d_Y1c_d_varphi +! Y2s *! d_Y1s_d_varphi) +! Y1s *! (int 12 *! iota_N *! Y2c -! int 4 *! lp *! X2s *! torsion -! int 5 *! X1c *! curvature *!
  d_Y1s_d_varphi -! int 4 *! d_Y2s_d_varphi)))) /! (G0 *! G0 *! G0).
(** Lines 126-148. *)
Definition T002 : F :=
  -! ((B0 *! B0 *! B0 *! lp *! lp *! (int 2 *! Y1c *! Y1c *! (int 2 *! B2c *! G0 *! lp +! B0 *! G2 *! lp +! B0 *! I2 *! lp *! iota -! int 2 *! G0 *!
  lp *! B20 +! int 2 *! B0 *! G0 *! iota_N *! Z2s +! B0 *! G0 *! lp *! X20 *! curvature -! B0 *! G0 *! lp *! X2c *! curvature -! B0 *! G0 *!
  d_Z20_d_varphi +! B0 *! G0 *! d_Z2c_d_varphi) +! Y1s *! (-! int 2 *! B0 *! G0 *! lp *! X1c *! Y2s *! curvature +! Y1s *! (-! int 4 *! B2c *! G0 *!
  lp +! int 2 *! B0 *! G2 *! lp +! int 2 *! B0 *! I2 *! lp *! iota -! int 4 *! G0 *! lp *! B20 -! int 4 *! B0 *! G0 *! iota_N *! Z2s +! int 2 *! B0 *!
  G0 *! lp *! X20 *! curvature +! int 2 *! B0 *! G0 *! lp *! X2c *! curvature +! B0 *! G0 *! lp *! X1c *! X1c *! curvature *! curvature -! int 2 *! B0
  *! G0 *! d_Z20_d_varphi -! int 2 *! B0 *! G0 *! d_Z2c_d_varphi)) +! int 2 *! G0 *! Y1c *! (B0 *! lp *! X1c *! (Y20 -! Y2c) *! curvature +! int 2 *!
  Y1s *! (int 2 *! B2s *! lp -! int 2 *! B0 *! iota_N *! Z2c -! B0 *! lp *! X2s *! curvature +! B0 *! d_Z2s_d_varphi)))) /! (G0 *! G0 *! G0 *! G0)).
(** Lines 151-175. *)
Definition T010 : F :=
  -! ((B0 *! B0 *! B0 *! B0 *! lp *! lp *! (int 3 *! iota_N *! X1c *! X1c *! X1c *! Y1s *! curvature +! int 3 *! lp *! X1c *! X1c *! Y1s *! Y1s *!
  curvature *! torsion +! int 2 *! (X2s *! Y1s *! (-! int 2 *! lp *! Y1c *! torsion +! d_X1c_d_varphi) +! X20 *! (lp *! Y1c *! Y1c *! torsion +! lp *!
  Y1s *! Y1s *! torsion -! Y1c *! d_X1c_d_varphi) +! X2c *! (-! (lp *! Y1c *! Y1c *! torsion) +! lp *! Y1s *! Y1s *! torsion +! Y1c *!
  d_X1c_d_varphi)) -! int 2 *! X1c *! (int 3 *! iota_N *! X2s *! Y1c -! iota_N *! X20 *! Y1s -! int 3 *! iota_N *! X2c *! Y1s +! lp *! Y1c *! Y20 *!
  torsion -! lp *! Y1c *! Y2c *! torsion -! lp *! Y1s *! Y2s *! torsion -! Y1c *! d_X20_d_varphi +! Y1c *! d_X2c_d_varphi +! Y1s *! d_X2s_d_varphi)))
  /! (G0 *! G0 *! G0)).
(** Lines 178-197. *)
Definition T011 : F :=
  (B0 *! B0 *! B0 *! B0 *! lp *! lp *! (-! int 4 *! iota_N *! X1c *! Y1s *! Y2c +! int 4 *! iota_N *! X1c *! Y1c *! Y2s -! int 3 *! iota_N *! X1c *!
  X1c *! Y1c *! Y1s *! curvature +! int 2 *! X20 *! Y1c *! d_Y1c_d_varphi +! int 2 *! X20 *! Y1s *! d_Y1s_d_varphi +! int 3 *! X1c *! X1c *! Y1s *!
  curvature *! d_Y1s_d_varphi +! int 2 *! X2s *! (iota_N *! Y1c *! Y1c -! Y1s *! (iota_N *! Y1s +! d_Y1c_d_varphi) -! Y1c *! d_Y1s_d_varphi) -! int 2
  *! X2c *! (Y1c *! (int 2 *! iota_N *! Y1s +! d_Y1c_d_varphi) -! Y1s *! d_Y1s_d_varphi) -! int 2 *! X1c *! Y1c *! d_Y20_d_varphi +! int 2 *! X1c *!
  Y1c *! d_Y2c_d_varphi +! int 2 *! X1c *! Y1s *! d_Y2s_d_varphi)) /! (G0 *! G0 *! G0).
(** Lines 200-210. *)
Definition T012 : F :=
  (int 2 *! B0 *! B0 *! B0 *! lp *! lp *! X1c *! (Y1c *! (int 2 *! B2c *! G0 *! lp +! B0 *! G2 *! lp +! B0 *! I2 *! lp *! iota -! int 2 *! G0 *! lp *!
  B20 +! int 2 *! B0 *! G0 *! iota_N *! Z2s +! int 2 *! B0 *! G0 *! lp *! X20 *! curvature -! int 2 *! B0 *! G0 *! lp *! X2c *! curvature -! B0 *! G0
  *! d_Z20_d_varphi +! B0 *! G0 *! d_Z2c_d_varphi) +! G0 *! Y1s *! (int 2 *! B2s *! lp -! int 2 *! B0 *! iota_N *! Z2c -! int 2 *! B0 *! lp *! X2s *!
  curvature +! B0 *! d_Z2s_d_varphi))) /! (G0 *! G0 *! G0 *! G0).
(** Lines 213-243. *)
Definition T020 : F :=
  (B0 *! B0 *! B0 *! B0 *! lp *! (-! int 4 *! lp *! lp *! X2s *! Y1c *! Y1s *! curvature +! int 2 *! lp *! lp *! X2c *! (-! Y1c *! Y1c +! Y1s *! Y1s)
  *! curvature +! int 2 *! lp *! lp *! X20 *! (Y1c *! Y1c +! Y1s *! Y1s) *! curvature -! int 2 *! lp *! lp *! X1c *! Y1c *! Y20 *! curvature +! int 2
  *! lp *! lp *! X1c *! Y1c *! Y2c *! curvature +! int 2 *! lp *! lp *! X1c *! Y1s *! Y2s *! curvature +! int 3 *! lp *! lp *! X1c *! X1c *! Y1s *!
  Y1s *! curvature *! curvature +! lp *! iota_N *! X1c *! X1c *! X1c *! Y1s *! torsion -! lp *! iota_N *! X1c *! Y1c *! Y1c *! Y1s *! torsion -! lp *!
  iota_N *! X1c *! Y1s *! Y1s *! Y1s *! torsion -! Y1s *! Y1s *! d_X1c_d_varphi *! d_X1c_d_varphi +! iota_N *! X1c *! X1c *! Y1s *! d_Y1c_d_varphi -!
  lp *! X1c *! Y1s *! Y1s *! torsion *! d_Y1c_d_varphi -! iota_N *! X1c *! X1c *! Y1c *! d_Y1s_d_varphi +! lp *! X1c *! Y1c *! Y1s *! torsion *!
  d_Y1s_d_varphi +! X1c *! Y1s *! Y1s *! d2_X1c_d_varphi2)) /! (G0 *! G0 *! G0).
(** Lines 246-265. *)
Definition T021 : F :=
  (B0 *! B0 *! B0 *! B0 *! lp *! (-! (Y1s *! d_X1c_d_varphi *! (iota_N *! Y1c *! Y1c +! Y1s *! (iota_N *! Y1s +! d_Y1c_d_varphi) -! Y1c *!
  d_Y1s_d_varphi)) +! lp *! X1c *! X1c *! Y1s *! (int 2 *! iota_N *! Y1c *! torsion -! torsion *! d_Y1s_d_varphi +! Y1s *! d_torsion_d_varphi) +! X1c
  *! (Y1c *! d_Y1s_d_varphi *! (-! (iota_N *! Y1c) +! d_Y1s_d_varphi) +! Y1s *! Y1s *! (lp *! torsion *! d_X1c_d_varphi +! iota_N *! d_Y1s_d_varphi +!
  d2_Y1c_d_varphi2) -! Y1s *! (d_Y1c_d_varphi *! d_Y1s_d_varphi +! Y1c *! (-! int 2 *! iota_N *! d_Y1c_d_varphi +! d2_Y1s_d_varphi2))))) /! (G0 *! G0
  *! G0).
(** Lines 268-275. *)
Definition T022 : F :=
  (B0 *! B0 *! B0 *! B0 *! lp *! lp *! X1c *! Y1s *! (-! (Y1s *! curvature *! d_X1c_d_varphi) +! X1c *! (-! (iota_N *! Y1c *! curvature) +! Y1s *!
  d_curvature_d_varphi))) /! (G0 *! G0 *! G0).
(** Lines 278-290. *)
Definition T100 : F :=
  (-! int 2 *! B0 *! B0 *! B0 *! B0 *! lp *! lp *! X1c *! (-! int 2 *! iota_N *! X2s *! Y1c +! int 2 *! iota_N *! X2c *! Y1s -! iota_N *! X1c *! Y2s
  +! iota_N *! X1c *! X1c *! Y1s *! curvature +! lp *! X1c *! Y1s *! Y1s *! curvature *! torsion -! Y20 *! d_X1c_d_varphi +! Y2c *! d_X1c_d_varphi +!
  Y1c *! d_X20_d_varphi -! Y1c *! d_X2c_d_varphi -! Y1s *! d_X2s_d_varphi)) /! (G0 *! G0 *! G0).
(** Lines 293-310. *)
Definition T101 : F :=
  (int 2 *! B0 *! B0 *! B0 *! B0 *! lp *! lp *! X1c *! (lp *! X1c *! Y20 *! torsion -! lp *! X1c *! Y2c *! torsion +! Y20 *! d_Y1c_d_varphi -! Y2c *!
  d_Y1c_d_varphi -! Y2s *! d_Y1s_d_varphi +! Y1c *! (int 3 *! iota_N *! Y2s -! lp *! X20 *! torsion +! lp *! X2c *! torsion -! d_Y20_d_varphi +!
  d_Y2c_d_varphi) +! Y1s *! (iota_N *! Y20 -! int 3 *! iota_N *! Y2c -! iota_N *! X1c *! Y1c *! curvature +! lp *! X2s *! torsion +! X1c *! curvature
  *! d_Y1s_d_varphi +! d_Y2s_d_varphi))) /! (G0 *! G0 *! G0).
(** Lines 313-325. *)
Definition T102 : F :=
  (int 2 *! B0 *! B0 *! B0 *! lp *! lp *! X1c *! (Y1c *! (int 2 *! B2c *! G0 *! lp +! B0 *! G2 *! lp +! B0 *! I2 *! lp *! iota -! int 2 *! G0 *! lp *!
  B20 +! int 2 *! B0 *! G0 *! iota_N *! Z2s +! B0 *! G0 *! lp *! X20 *! curvature -! B0 *! G0 *! lp *! X2c *! curvature -! B0 *! G0 *! d_Z20_d_varphi
  +! B0 *! G0 *! d_Z2c_d_varphi) +! G0 *! (B0 *! lp *! X1c *! (Y20 -! Y2c) *! curvature +! Y1s *! (int 2 *! B2s *! lp -! int 2 *! B0 *! iota_N *! Z2c
  -! B0 *! lp *! X2s *! curvature +! B0 *! d_Z2s_d_varphi)))) /! (G0 *! G0 *! G0 *! G0).
(** Lines 328-339. *)
Definition T110 : F :=
  (-! int 2 *! B0 *! B0 *! B0 *! B0 *! lp *! lp *! X1c *! (lp *! X2c *! Y1c *! torsion +! lp *! X2s *! Y1s *! torsion -! X2c *! d_X1c_d_varphi +! X20
  *! (-! (lp *! Y1c *! torsion) +! d_X1c_d_varphi) +! X1c *! (int 3 *! iota_N *! X2s +! lp *! Y20 *! torsion -! lp *! Y2c *! torsion -! d_X20_d_varphi
  +! d_X2c_d_varphi))) /! (G0 *! G0 *! G0).
(** Lines 342-352. *)
Definition T111 : F :=
  (-! int 2 *! B0 *! B0 *! B0 *! B0 *! lp *! lp *! X1c *! (-! (iota_N *! X2c *! Y1s) +! int 2 *! iota_N *! X1c *! Y2s -! X2c *! d_Y1c_d_varphi +! X20
  *! (iota_N *! Y1s +! d_Y1c_d_varphi) +! X2s *! (iota_N *! Y1c -! d_Y1s_d_varphi) -! X1c *! d_Y20_d_varphi +! X1c *! d_Y2c_d_varphi)) /! (G0 *! G0 *!
  G0).
(** Lines 355-362. *)
Definition T112 : F :=
  (-! int 2 *! B0 *! B0 *! B0 *! lp *! lp *! X1c *! X1c *! (int 2 *! B2c *! G0 *! lp +! B0 *! G2 *! lp +! B0 *! I2 *! lp *! iota -! int 2 *! G0 *! lp
  *! B20 +! int 2 *! B0 *! G0 *! iota_N *! Z2s +! int 2 *! B0 *! G0 *! lp *! X20 *! curvature -! int 2 *! B0 *! G0 *! lp *! X2c *! curvature -! B0 *!
  G0 *! d_Z20_d_varphi +! B0 *! G0 *! d_Z2c_d_varphi)) /! (G0 *! G0 *! G0 *! G0).
(** Lines 365-381. *)
Definition T120 : F :=
  (B0 *! B0 *! B0 *! B0 *! lp *! X1c *! (-! int 2 *! lp *! lp *! X20 *! Y1c *! curvature +! int 2 *! lp *! lp *! X2c *! Y1c *! curvature +! int 2 *!
  lp *! lp *! X2s *! Y1s *! curvature +! int 2 *! lp *! lp *! X1c *! Y20 *! curvature -! int 2 *! lp *! lp *! X1c *! Y2c *! curvature +! int 2 *! lp
  *! iota_N *! X1c *! Y1c *! Y1s *! torsion -! iota_N *! X1c *! Y1s *! d_X1c_d_varphi +! lp *! Y1s *! Y1s *! torsion *! d_X1c_d_varphi +! iota_N *!
  X1c *! X1c *! d_Y1s_d_varphi -! lp *! X1c *! Y1s *! torsion *! d_Y1s_d_varphi -! lp *! X1c *! Y1s *! Y1s *! d_torsion_d_varphi)) /! (G0 *! G0 *! G0).
(** Lines 384-395. *)
Definition T121 : F :=
  (B0 *! B0 *! B0 *! B0 *! lp *! X1c *! (-! (lp *! iota_N *! X1c *! X1c *! Y1s *! torsion) +! lp *! Y1s *! torsion *! (iota_N *! Y1c *! Y1c +! Y1s *!
  (iota_N *! Y1s +! d_Y1c_d_varphi) -! Y1c *! d_Y1s_d_varphi) +! X1c *! ((iota_N *! Y1c -! d_Y1s_d_varphi) *! d_Y1s_d_varphi +! Y1s *! (-! (iota_N *!
  d_Y1c_d_varphi) +! d2_Y1s_d_varphi2)))) /! (G0 *! G0 *! G0).
(** Lines 398-401. *)
Definition T122 : F :=
  (B0 *! B0 *! B0 *! B0 *! lp *! lp *! X1c *! X1c *! Y1s *! curvature *! (iota_N *! X1c +! int 2 *! lp *! Y1s *! torsion)) /! (G0 *! G0 *! G0).
(** Lines 404-416. *)
Definition T200 : F :=
  (B0 *! B0 *! B0 *! B0 *! lp *! X1c *! Y1s *! (lp *! iota_N *! X1c *! X1c *! torsion -! lp *! iota_N *! Y1c *! Y1c *! torsion -! lp *! iota_N *! Y1s
  *! Y1s *! torsion -! lp *! Y1s *! torsion *! d_Y1c_d_varphi +! X1c *! (int 2 *! lp *! lp *! Y1s *! curvature *! curvature +! iota_N *!
  d_Y1c_d_varphi) +! d_X1c_d_varphi *! d_Y1s_d_varphi +! Y1c *! (iota_N *! d_X1c_d_varphi +! lp *! torsion *! d_Y1s_d_varphi) +! Y1s *!
  d2_X1c_d_varphi2)) /! (G0 *! G0 *! G0).
(** Lines 420-430. *)
Definition T201 : F :=
  (B0 *! B0 *! B0 *! B0 *! lp *! X1c *! Y1s *! (lp *! X1c *! (int 2 *! iota_N *! Y1c *! torsion +! Y1s *! d_torsion_d_varphi) +! Y1s *! (int 2 *! lp
  *! torsion *! d_X1c_d_varphi +! int 2 *! iota_N *! d_Y1s_d_varphi +! d2_Y1c_d_varphi2) +! Y1c *! (int 2 *! iota_N *! d_Y1c_d_varphi -!
  d2_Y1s_d_varphi2))) /! (G0 *! G0 *! G0).
(** Lines 433-438. *)
Definition T202 : F :=
  (B0 *! B0 *! B0 *! B0 *! lp *! lp *! X1c *! X1c *! Y1s *! (-! (iota_N *! Y1c *! curvature) +! curvature *! d_Y1s_d_varphi +! Y1s *!
  d_curvature_d_varphi)) /! (G0 *! G0 *! G0).
(** Lines 441-447. *)
Definition T210 : F :=
  -! ((B0 *! B0 *! B0 *! B0 *! lp *! X1c *! X1c *! Y1s *! (-! int 2 *! lp *! iota_N *! Y1c *! torsion +! int 2 *! iota_N *! d_X1c_d_varphi +! int 2 *!
  lp *! torsion *! d_Y1s_d_varphi +! lp *! Y1s *! d_torsion_d_varphi)) /! (G0 *! G0 *! G0)).
(** Lines 450-461. *)
Definition T211 : F :=
  -! ((B0 *! B0 *! B0 *! B0 *! lp *! X1c *! Y1s *! (lp *! iota_N *! X1c *! X1c *! torsion -! lp *! iota_N *! Y1c *! Y1c *! torsion -! lp *! iota_N *!
  Y1s *! Y1s *! torsion -! lp *! Y1s *! torsion *! d_Y1c_d_varphi -! d_X1c_d_varphi *! d_Y1s_d_varphi +! Y1c *! (iota_N *! d_X1c_d_varphi +! lp *!
  torsion *! d_Y1s_d_varphi) +! X1c *! (iota_N *! d_Y1c_d_varphi -! d2_Y1s_d_varphi2))) /! (G0 *! G0 *! G0)).
(** Lines 464-467. *)
Definition T212 : F :=
  (B0 *! B0 *! B0 *! B0 *! lp *! lp *! X1c *! X1c *! Y1s *! curvature *! (iota_N *! X1c +! int 2 *! lp *! Y1s *! torsion)) /! (G0 *! G0 *! G0).
(** Lines 470-475. *)
Definition T220 : F :=
  (B0 *! B0 *! B0 *! B0 *! lp *! lp *! X1c *! X1c *! Y1s *! (-! (iota_N *! Y1c *! curvature) +! curvature *! d_Y1s_d_varphi +! Y1s *!
  d_curvature_d_varphi)) /! (G0 *! G0 *! G0).
(** Lines 478-483. *)
Definition T221 : F :=
  -! ((B0 *! B0 *! B0 *! B0 *! lp *! lp *! X1c *! Y1s *! curvature *! (iota_N *! Y1c *! Y1c +! Y1s *! (iota_N *! Y1s +! d_Y1c_d_varphi) -! Y1c *!
  d_Y1s_d_varphi)) /! (G0 *! G0 *! G0)).
(** Lines 486-488. *)
Definition T222 : F :=
  (-! int 2 *! B0 *! B0 *! B0 *! B0 *! lp *! lp *! lp *! X1c *! X1c *! Y1s *! Y1s *! curvature *! curvature) /! (G0 *! G0 *! G0).
Definition T_element (n1 n2 n3 : nat) : F :=
  match n1, n2, n3 with
  | 0, 0, 0 => T000 | 0, 0, 1 => T001 | 0, 0, 2 => T002 | 0, 1, 0 => T010 | 0, 1, 1 => T011 | 0, 1, 2 => T012 | 0, 2, 0 => T020 | 0, 2, 1 => T021 | 0, 2, 2 => T022
  | 1, 0, 0 => T100 | 1, 0, 1 => T101 | 1, 0, 2 => T102 | 1, 1, 0 => T110 | 1, 1, 1 => T111 | 1, 1, 2 => T112 | 1, 2, 0 => T120 | 1, 2, 1 => T121 | 1, 2, 2 => T122
  | 2, 0, 0 => T200 | 2, 0, 1 => T201 | 2, 0, 2 => T202 | 2, 1, 0 => T210 | 2, 1, 1 => T211 | 2, 1, 2 => T212 | 2, 2, 0 => T220 | 2, 2, 1 => T221 | 2, 2, 2 => T222
  | _, _, _ => fzero o
  end.
(** Lines 543-590. *)
Definition U000 : F :=
  (-! int 2 *! B0 *! (-! int 4 *! int sG *! int spsi *! iota_N *! X2c *! Y1c *! Y1s +! iota_N *! X1c *! X1c *! Y1c *! (Y1c *! (-! Y20 +! Y2c) +! Y1s
  *! (Y2s -! int 2 *! int sG *! int spsi *! curvature)) +! X20 *! Y1c *! Y1c *! Y1s *! d_X1c_d_varphi -! X2c *! Y1c *! Y1c *! Y1s *! d_X1c_d_varphi +!
  X20 *! Y1s *! Y1s *! Y1s *! d_X1c_d_varphi +! X2c *! Y1s *! Y1s *! Y1s *! d_X1c_d_varphi +! int sG *! int spsi *! Y1c *! Y20 *! d_X1c_d_varphi -!
  int sG *! int spsi *! Y1c *! Y2c *! d_X1c_d_varphi -! int sG *! int spsi *! Y1s *! Y2s *! d_X1c_d_varphi -! int 2 *! X2s *! (int sG *! int spsi *!
  iota_N *! Y1s *! Y1s +! Y1c *! Y1c *! (-! (int sG *! int spsi *! iota_N) +! iota_N *! X1c *! Y1s) +! Y1c *! Y1s *! Y1s *! d_X1c_d_varphi) +! X1c *!
  (iota_N *! X2c *! Y1c *! (-! Y1c *! Y1c +! Y1s *! Y1s) +! iota_N *! X20 *! Y1c *! (Y1c *! Y1c +! Y1s *! Y1s) -! int sG *! int spsi *! iota_N *! Y1s
  *! Y20 -! int sG *! int spsi *! iota_N *! Y1s *! Y2c +! int sG *! int spsi *! iota_N *! Y1c *! Y2s -! Y1c *! Y1s *! Y20 *! d_X1c_d_varphi +! Y1c *!
  Y1s *! Y2c *! d_X1c_d_varphi +! Y1s *! Y1s *! Y2s *! d_X1c_d_varphi -! int 2 *! int sG *! int spsi *! Y1s *! Y1s *! curvature *! d_X1c_d_varphi) -!
  int sG *! int spsi *! Y1c *! Y1c *! d_X20_d_varphi -! int sG *! int spsi *! Y1s *! Y1s *! d_X20_d_varphi +! int sG *! int spsi *! Y1c *! Y1c *!
  d_X2c_d_varphi -! int sG *! int spsi *! Y1s *! Y1s *! d_X2c_d_varphi +! int 2 *! int sG *! int spsi *! Y1c *! Y1s *! d_X2s_d_varphi)) /! (lp *! int
  spsi).
(** Lines 593-680. *)
Definition U001 : F :=
  (int 2 *! B0 *! (int 2 *! iota_N *! X2s *! Y1c *! Y1c *! Y1c *! Y1s +! int 2 *! iota_N *! X2s *! Y1c *! Y1s *! Y1s *! Y1s +! iota_N *! X1c *! Y1c *!
  Y1c *! Y1c *! Y20 +! iota_N *! X1c *! Y1c *! Y1s *! Y1s *! Y20 -! iota_N *! X1c *! Y1c *! Y1c *! Y1c *! Y2c +! int 6 *! int sG *! int spsi *! iota_N
  *! Y1c *! Y1s *! Y2c -! iota_N *! X1c *! Y1c *! Y1s *! Y1s *! Y2c -! int 3 *! int sG *! int spsi *! iota_N *! Y1c *! Y1c *! Y2s -! iota_N *! X1c *!
  Y1c *! Y1c *! Y1s *! Y2s +! int 3 *! int sG *! int spsi *! iota_N *! Y1s *! Y1s *! Y2s -! iota_N *! X1c *! Y1s *! Y1s *! Y1s *! Y2s +! int 2 *! int
  sG *! int spsi *! iota_N *! X1c *! Y1c *! Y1c *! Y1s *! curvature +! int 2 *! int sG *! int spsi *! iota_N *! X1c *! Y1s *! Y1s *! Y1s *! curvature
  -! int 2 *! lp *! int sG *! int spsi *! X2s *! Y1c *! Y1s *! torsion +! int 2 *! lp *! X1c *! X2s *! Y1c *! Y1s *! Y1s *! torsion -! lp *! int sG *!
  int spsi *! X1c *! Y1c *! Y20 *! torsion +! lp *! X1c *! X1c *! Y1c *! Y1s *! Y20 *! torsion +! lp *! int sG *! int spsi *! X1c *! Y1c *! Y2c *!
  torsion -! lp *! X1c *! X1c *! Y1c *! Y1s *! Y2c *! torsion +! lp *! int sG *! int spsi *! X1c *! Y1s *! Y2s *! torsion -! lp *! X1c *! X1c *! Y1s
  *! Y1s *! Y2s *! torsion +! int 2 *! lp *! int sG *! int spsi *! X1c *! X1c *! Y1s *! Y1s *! curvature *! torsion +! int 2 *! X2s *! Y1c *! Y1s *!
  Y1s *! d_Y1c_d_varphi -! int sG *! int spsi *! Y1c *! Y20 *! d_Y1c_d_varphi +! X1c *! Y1c *! Y1s *! Y20 *! d_Y1c_d_varphi +! int sG *! int spsi *!
  Y1c *! Y2c *! d_Y1c_d_varphi -! X1c *! Y1c *! Y1s *! Y2c *! d_Y1c_d_varphi +! int sG *! int spsi *! Y1s *! Y2s *! d_Y1c_d_varphi -! X1c *! Y1s *!
  Y1s *! Y2s *! d_Y1c_d_varphi +! int 2 *! int sG *! int spsi *! X1c *! Y1s *! Y1s *! curvature *! d_Y1c_d_varphi -! int 2 *! X2s *! Y1c *! Y1c *! Y1s
  *! d_Y1s_d_varphi -! X1c *! Y1c *! Y1c *! Y20 *! d_Y1s_d_varphi -! int sG *! int spsi *! Y1s *! Y20 *! d_Y1s_d_varphi +! X1c *! Y1c *! Y1c *! Y2c *!
  d_Y1s_d_varphi -! int sG *! int spsi *! Y1s *! Y2c *! d_Y1s_d_varphi +! int sG *! int spsi *! Y1c *! Y2s *! d_Y1s_d_varphi +! X1c *! Y1c *! Y1s *!
  Y2s *! d_Y1s_d_varphi -! int 2 *! int sG *! int spsi *! X1c *! Y1c *! Y1s *! curvature *! d_Y1s_d_varphi +! X2c *! (Y1c *! Y1c -! Y1s *! Y1s) *!
  (iota_N *! Y1c *! Y1c +! iota_N *! Y1s *! Y1s -! lp *! int sG *! int spsi *! torsion +! Y1s *! (lp *! X1c *! torsion +! d_Y1c_d_varphi) -! Y1c *!
  d_Y1s_d_varphi) -! X20 *! (Y1c *! Y1c +! Y1s *! Y1s) *! (iota_N *! Y1c *! Y1c +! iota_N *! Y1s *! Y1s -! lp *! int sG *! int spsi *! torsion +! Y1s
  *! (lp *! X1c *! torsion +! d_Y1c_d_varphi) -! Y1c *! d_Y1s_d_varphi) +! int sG *! int spsi *! Y1c *! Y1c *! d_Y20_d_varphi +! int sG *! int spsi *!
  Y1s *! Y1s *! d_Y20_d_varphi -! int sG *! int spsi *! Y1c *! Y1c *! d_Y2c_d_varphi +! int sG *! int spsi *! Y1s *! Y1s *! d_Y2c_d_varphi -! int 2 *!
  int sG *! int spsi *! Y1c *! Y1s *! d_Y2s_d_varphi)) /! (lp *! int spsi).
(** Lines 683-728. *)
Definition U002 : F :=
  (-! int 2 *! (Y1c *! Y1c *! (G2 *! int spsi +! I2 *! int spsi *! iota -! int 2 *! lp *! int sG *! int spsi *! B20 +! int 2 *! lp *! int sG *! int
  spsi *! B2c +! int 2 *! B0 *! int sG *! int spsi *! iota_N *! Z2s +! B0 *! lp *! int sG *! int spsi *! X20 *! curvature -! B0 *! lp *! int sG *! int
  spsi *! X2c *! curvature +! B0 *! lp *! X1c *! X20 *! Y1s *! curvature -! B0 *! lp *! X1c *! X2c *! Y1s *! curvature -! B0 *! int sG *! int spsi *!
  d_Z20_d_varphi +! B0 *! int sG *! int spsi *! d_Z2c_d_varphi) +! Y1s *! (B0 *! lp *! X1c *! (X20 +! X2c) *! Y1s *! Y1s *! curvature -! B0 *! lp *!
  int sG *! int spsi *! X1c *! Y2s *! curvature +! Y1s *! (G2 *! int spsi +! I2 *! int spsi *! iota -! int 2 *! lp *! int sG *! int spsi *! B20 -! int
  2 *! lp *! int sG *! int spsi *! B2c -! int 2 *! B0 *! int sG *! int spsi *! iota_N *! Z2s +! B0 *! lp *! int sG *! int spsi *! X20 *! curvature +!
  B0 *! lp *! int sG *! int spsi *! X2c *! curvature +! B0 *! lp *! X1c *! X1c *! Y2s *! curvature +! B0 *! lp *! int sG *! int spsi *! X1c *! X1c *!
  curvature *! curvature -! B0 *! int sG *! int spsi *! d_Z20_d_varphi -! B0 *! int sG *! int spsi *! d_Z2c_d_varphi)) +! Y1c *! (int 4 *! lp *! int
  sG *! int spsi *! B2s *! Y1s -! B0 *! (int 2 *! lp *! X1c *! X2s *! Y1s *! Y1s *! curvature +! lp *! int sG *! int spsi *! X1c *! (-! Y20 +! Y2c) *!
  curvature +! Y1s *! (int 4 *! int sG *! int spsi *! iota_N *! Z2c +! int 2 *! lp *! int sG *! int spsi *! X2s *! curvature +! lp *! X1c *! X1c *!
  Y20 *! curvature -! lp *! X1c *! X1c *! Y2c *! curvature -! int 2 *! int sG *! int spsi *! d_Z2s_d_varphi))))) /! (lp *! int spsi).
(** Lines 731-780. *)
Definition U010 : F :=
  (-! int 2 *! B0 *! (iota_N *! X1c *! X1c *! X1c *! (Y1c *! (Y20 -! Y2c) +! Y1s *! (-! Y2s +! int sG *! int spsi *! curvature)) -! X1c *! X1c *!
  (iota_N *! X2c *! (-! Y1c *! Y1c +! Y1s *! Y1s) +! iota_N *! X20 *! (Y1c *! Y1c +! Y1s *! Y1s) +! Y1s *! (-! int 2 *! iota_N *! X2s *! Y1c +! lp *!
  (Y1c *! (-! Y20 +! Y2c) +! Y1s *! (Y2s -! int sG *! int spsi *! curvature)) *! torsion)) +! int sG *! int spsi *! (X2s *! Y1s *! (-! int 2 *! lp *!
  Y1c *! torsion +! d_X1c_d_varphi) +! X20 *! (lp *! Y1c *! Y1c *! torsion +! lp *! Y1s *! Y1s *! torsion -! Y1c *! d_X1c_d_varphi) +! X2c *! (-! (lp
  *! Y1c *! Y1c *! torsion) +! lp *! Y1s *! Y1s *! torsion +! Y1c *! d_X1c_d_varphi)) +! X1c *! (int 3 *! int sG *! int spsi *! iota_N *! X2c *! Y1s
  +! lp *! X2c *! Y1c *! Y1c *! Y1s *! torsion -! lp *! X2c *! Y1s *! Y1s *! Y1s *! torsion -! lp *! int sG *! int spsi *! Y1c *! Y20 *! torsion +! lp
  *! int sG *! int spsi *! Y1c *! Y2c *! torsion +! lp *! int sG *! int spsi *! Y1s *! Y2s *! torsion -! X20 *! Y1s *! (-! (int sG *! int spsi *!
  iota_N) +! lp *! Y1c *! Y1c *! torsion +! lp *! Y1s *! Y1s *! torsion) +! X2s *! Y1c *! (-! int 3 *! int sG *! int spsi *! iota_N +! int 2 *! lp *!
  Y1s *! Y1s *! torsion) +! int sG *! int spsi *! Y1c *! d_X20_d_varphi -! int sG *! int spsi *! Y1c *! d_X2c_d_varphi -! int sG *! int spsi *! Y1s *!
  d_X2s_d_varphi))) /! (lp *! int spsi).
(** Lines 783-816. *)
Definition U011 : F :=
  (int 2 *! B0 *! (-! (X1c *! X1c *! (Y1c *! (Y20 -! Y2c) +! Y1s *! (-! Y2s +! int sG *! int spsi *! curvature)) *! (iota_N *! Y1c -! d_Y1s_d_varphi))
  +! X2s *! (iota_N *! Y1c *! Y1c *! (int sG *! int spsi -! int 2 *! X1c *! Y1s) -! int sG *! int spsi *! Y1s *! (iota_N *! Y1s +! d_Y1c_d_varphi) +!
  Y1c *! (-! (int sG *! int spsi) +! int 2 *! X1c *! Y1s) *! d_Y1s_d_varphi) +! int sG *! int spsi *! (X20 *! (Y1c *! d_Y1c_d_varphi +! Y1s *!
  d_Y1s_d_varphi) +! X2c *! (-! (Y1c *! (int 2 *! iota_N *! Y1s +! d_Y1c_d_varphi)) +! Y1s *! d_Y1s_d_varphi)) +! X1c *! (-! (X2c *! (Y1c *! Y1c -!
  Y1s *! Y1s) *! (iota_N *! Y1c -! d_Y1s_d_varphi)) +! X20 *! (Y1c *! Y1c +! Y1s *! Y1s) *! (iota_N *! Y1c -! d_Y1s_d_varphi) +! int sG *! int spsi *!
  (Y1c *! (int 2 *! iota_N *! Y2s -! d_Y20_d_varphi +! d_Y2c_d_varphi) +! Y1s *! (-! int 2 *! iota_N *! Y2c +! d_Y2s_d_varphi))))) /! (lp *! int spsi).
(** Lines 819-831. *)
Definition U012 : F :=
  (int 2 *! X1c *! (Y1c *! (G2 +! I2 *! iota -! int 2 *! lp *! int sG *! B20 +! int 2 *! lp *! int sG *! B2c +! int 2 *! B0 *! int sG *! iota_N *! Z2s
  +! int 2 *! B0 *! lp *! int sG *! X20 *! curvature -! int 2 *! B0 *! lp *! int sG *! X2c *! curvature -! B0 *! int sG *! d_Z20_d_varphi +! B0 *! int
  sG *! d_Z2c_d_varphi) +! int sG *! Y1s *! (int 2 *! lp *! B2s +! B0 *! (-! int 2 *! iota_N *! Z2c -! int 2 *! lp *! X2s *! curvature +!
  d_Z2s_d_varphi)))) /! (lp).
(** Lines 834-858. *)
Definition U020 : F :=
  (B0 *! (-! (lp *! int sG *! int spsi *! iota_N *! Y1c *! Y1c *! torsion) +! lp *! iota_N *! X1c *! X1c *! X1c *! Y1s *! torsion +! X1c *! X1c *! (lp
  *! lp *! Y1s *! Y1s *! torsion *! torsion +! iota_N *! Y1s *! d_Y1c_d_varphi -! iota_N *! Y1c *! d_Y1s_d_varphi) +! int sG *! int spsi *! Y1c *!
  (iota_N *! d_X1c_d_varphi +! int 2 *! lp *! torsion *! d_Y1s_d_varphi) +! X1c *! Y1s *! (int 2 *! lp *! lp *! int sG *! int spsi *! curvature *!
  curvature -! lp *! lp *! int sG *! int spsi *! torsion *! torsion -! iota_N *! Y1c *! d_X1c_d_varphi +! lp *! torsion *! (Y1s *! d_Y1c_d_varphi -!
  Y1c *! d_Y1s_d_varphi)) -! Y1s *! (Y1s *! (lp *! int sG *! int spsi *! iota_N *! torsion +! d_X1c_d_varphi *! d_X1c_d_varphi) +! int sG *! int spsi
  *! (int 2 *! lp *! torsion *! d_Y1c_d_varphi -! d2_X1c_d_varphi2)))) /! (lp *! lp *! int sG).
(** Lines 861-891. *)
Definition U021 : F :=
  (B0 *! (-! (iota_N *! Y1c *! Y1c *! Y1s *! d_X1c_d_varphi) +! lp *! X1c *! X1c *! Y1s *! torsion *! (iota_N *! Y1c -! d_Y1s_d_varphi) +! X1c *! (-!
  (iota_N *! Y1c *! Y1c *! d_Y1s_d_varphi) +! Y1c *! (lp *! int sG *! int spsi *! iota_N *! torsion +! iota_N *! Y1s *! d_Y1c_d_varphi +!
  d_Y1s_d_varphi *! d_Y1s_d_varphi) -! Y1s *! (lp *! Y1s *! torsion *! d_X1c_d_varphi +! d_Y1c_d_varphi *! d_Y1s_d_varphi -! lp *! int sG *! int spsi
  *! d_torsion_d_varphi)) +! Y1s *! (-! (iota_N *! Y1s *! Y1s *! d_X1c_d_varphi) -! Y1s *! d_X1c_d_varphi *! d_Y1c_d_varphi +! int sG *! int spsi *!
  (int 2 *! lp *! torsion *! d_X1c_d_varphi +! iota_N *! d_Y1s_d_varphi +! d2_Y1c_d_varphi2)) +! Y1c *! (int sG *! int spsi *! iota_N *!
  d_Y1c_d_varphi +! Y1s *! d_X1c_d_varphi *! d_Y1s_d_varphi -! int sG *! int spsi *! d2_Y1s_d_varphi2))) /! (lp *! lp *! int sG).
(** Lines 894-900. *)
Definition U022 : F :=
  -! ((B0 *! (Y1s *! curvature *! d_X1c_d_varphi +! X1c *! (iota_N *! Y1c *! curvature -! Y1s *! d_curvature_d_varphi))) /! (lp *! int spsi)).
(** Lines 903-931. *)
Definition U100 : F :=
  (-! int 2 *! B0 *! X1c *! (int 2 *! int sG *! int spsi *! iota_N *! X2c *! Y1s +! iota_N *! X1c *! X1c *! (Y1c *! (Y20 -! Y2c) +! int sG *! int spsi
  *! Y1s *! curvature) -! X20 *! Y1c *! Y1s *! d_X1c_d_varphi +! X2c *! Y1c *! Y1s *! d_X1c_d_varphi -! int sG *! int spsi *! Y20 *! d_X1c_d_varphi +!
  int sG *! int spsi *! Y2c *! d_X1c_d_varphi +! X2s *! (Y1c *! (-! int 2 *! int sG *! int spsi *! iota_N +! iota_N *! X1c *! Y1s) +! Y1s *! Y1s *!
  d_X1c_d_varphi) +! X1c *! (-! (iota_N *! X20 *! Y1c *! Y1c) +! iota_N *! X2c *! Y1c *! Y1c -! int sG *! int spsi *! iota_N *! Y2s +! lp *! int sG *!
  int spsi *! Y1s *! Y1s *! curvature *! torsion +! Y1s *! Y20 *! d_X1c_d_varphi -! Y1s *! Y2c *! d_X1c_d_varphi) +! int sG *! int spsi *! Y1c *!
  d_X20_d_varphi -! int sG *! int spsi *! Y1c *! d_X2c_d_varphi -! int sG *! int spsi *! Y1s *! d_X2s_d_varphi)) /! (lp *! int spsi).
(** Lines 934-993. *)
Definition U101 : F :=
  (-! int 2 *! B0 *! X1c *! (iota_N *! X2s *! Y1c *! Y1c *! Y1s +! iota_N *! X2s *! Y1s *! Y1s *! Y1s +! iota_N *! X1c *! Y1c *! Y1c *! Y20 -! int sG
  *! int spsi *! iota_N *! Y1s *! Y20 +! iota_N *! X1c *! Y1s *! Y1s *! Y20 -! iota_N *! X1c *! Y1c *! Y1c *! Y2c +! int 3 *! int sG *! int spsi *!
  iota_N *! Y1s *! Y2c -! iota_N *! X1c *! Y1s *! Y1s *! Y2c -! int 3 *! int sG *! int spsi *! iota_N *! Y1c *! Y2s +! int sG *! int spsi *! iota_N *!
  X1c *! Y1c *! Y1s *! curvature -! lp *! int sG *! int spsi *! X2s *! Y1s *! torsion +! lp *! X1c *! X2s *! Y1s *! Y1s *! torsion -! lp *! int sG *!
  int spsi *! X1c *! Y20 *! torsion +! lp *! X1c *! X1c *! Y1s *! Y20 *! torsion +! lp *! int sG *! int spsi *! X1c *! Y2c *! torsion -! lp *! X1c *!
  X1c *! Y1s *! Y2c *! torsion +! X2s *! Y1s *! Y1s *! d_Y1c_d_varphi -! int sG *! int spsi *! Y20 *! d_Y1c_d_varphi +! X1c *! Y1s *! Y20 *!
  d_Y1c_d_varphi +! int sG *! int spsi *! Y2c *! d_Y1c_d_varphi -! X1c *! Y1s *! Y2c *! d_Y1c_d_varphi -! X2s *! Y1c *! Y1s *! d_Y1s_d_varphi -! X1c
  *! Y1c *! Y20 *! d_Y1s_d_varphi +! X1c *! Y1c *! Y2c *! d_Y1s_d_varphi +! int sG *! int spsi *! Y2s *! d_Y1s_d_varphi -! int sG *! int spsi *! X1c
  *! Y1s *! curvature *! d_Y1s_d_varphi -! X20 *! Y1c *! (iota_N *! Y1c *! Y1c +! iota_N *! Y1s *! Y1s -! lp *! int sG *! int spsi *! torsion +! Y1s
  *! (lp *! X1c *! torsion +! d_Y1c_d_varphi) -! Y1c *! d_Y1s_d_varphi) +! X2c *! Y1c *! (iota_N *! Y1c *! Y1c +! iota_N *! Y1s *! Y1s -! lp *! int sG
  *! int spsi *! torsion +! Y1s *! (lp *! X1c *! torsion +! d_Y1c_d_varphi) -! Y1c *! d_Y1s_d_varphi) +! int sG *! int spsi *! Y1c *! d_Y20_d_varphi
  -! int sG *! int spsi *! Y1c *! d_Y2c_d_varphi -! int sG *! int spsi *! Y1s *! d_Y2s_d_varphi)) /! (lp *! int spsi).
(** Lines 996-1023. *)
Definition U102 : F :=
  (int 2 *! X1c *! (int 2 *! lp *! int sG *! int spsi *! B2s *! Y1s +! Y1c *! (G2 *! int spsi +! I2 *! int spsi *! iota -! int 2 *! lp *! int sG *!
  int spsi *! B20 +! int 2 *! lp *! int sG *! int spsi *! B2c +! int 2 *! B0 *! int sG *! int spsi *! iota_N *! Z2s +! B0 *! lp *! int sG *! int spsi
  *! X20 *! curvature -! B0 *! lp *! int sG *! int spsi *! X2c *! curvature +! B0 *! lp *! X1c *! X20 *! Y1s *! curvature -! B0 *! lp *! X1c *! X2c *!
  Y1s *! curvature -! B0 *! int sG *! int spsi *! d_Z20_d_varphi +! B0 *! int sG *! int spsi *! d_Z2c_d_varphi) -! B0 *! (lp *! X1c *! X2s *! Y1s *!
  Y1s *! curvature +! lp *! int sG *! int spsi *! X1c *! (-! Y20 +! Y2c) *! curvature +! Y1s *! (int 2 *! int sG *! int spsi *! iota_N *! Z2c +! lp *!
  int sG *! int spsi *! X2s *! curvature +! lp *! X1c *! X1c *! Y20 *! curvature -! lp *! X1c *! X1c *! Y2c *! curvature -! int sG *! int spsi *!
  d_Z2s_d_varphi)))) /! (lp *! int spsi).
(** Lines 1026-1051. *)
Definition U110 : F :=
  (int 2 *! B0 *! X1c *! (iota_N *! X1c *! X1c *! X1c *! (Y20 -! Y2c) +! X1c *! X1c *! (-! (iota_N *! X20 *! Y1c) +! iota_N *! X2c *! Y1c +! Y1s *!
  (iota_N *! X2s +! lp *! (Y20 -! Y2c) *! torsion)) -! int sG *! int spsi *! (lp *! X2s *! Y1s *! torsion +! X2c *! (lp *! Y1c *! torsion -!
  d_X1c_d_varphi) +! X20 *! (-! (lp *! Y1c *! torsion) +! d_X1c_d_varphi)) +! X1c *! (-! (lp *! X20 *! Y1c *! Y1s *! torsion) +! lp *! X2c *! Y1c *!
  Y1s *! torsion -! lp *! int sG *! int spsi *! Y20 *! torsion +! lp *! int sG *! int spsi *! Y2c *! torsion +! X2s *! (-! int 3 *! int sG *! int spsi
  *! iota_N +! lp *! Y1s *! Y1s *! torsion) +! int sG *! int spsi *! d_X20_d_varphi -! int sG *! int spsi *! d_X2c_d_varphi))) /! (lp *! int spsi).
(** Lines 1054-1070. *)
Definition U111 : F :=
  (-! int 2 *! B0 *! X1c *! (int sG *! int spsi *! (X20 -! X2c) *! (iota_N *! Y1s +! d_Y1c_d_varphi) +! X2s *! (int sG *! int spsi -! X1c *! Y1s) *!
  (iota_N *! Y1c -! d_Y1s_d_varphi) -! X1c *! X1c *! (Y20 -! Y2c) *! (iota_N *! Y1c -! d_Y1s_d_varphi) +! X1c *! (X20 *! Y1c *! (iota_N *! Y1c -!
  d_Y1s_d_varphi) +! X2c *! Y1c *! (-! (iota_N *! Y1c) +! d_Y1s_d_varphi) +! int sG *! int spsi *! (int 2 *! iota_N *! Y2s -! d_Y20_d_varphi +!
  d_Y2c_d_varphi)))) /! (lp *! int spsi).
(** Lines 1073-1079. *)
Definition U112 : F :=
  (-! int 2 *! X1c *! X1c *! (G2 +! I2 *! iota -! int 2 *! lp *! int sG *! B20 +! int 2 *! lp *! int sG *! B2c +! int 2 *! B0 *! int sG *! iota_N *!
  Z2s +! int 2 *! B0 *! lp *! int sG *! X20 *! curvature -! int 2 *! B0 *! lp *! int sG *! X2c *! curvature -! B0 *! int sG *! d_Z20_d_varphi +! B0 *!
  int sG *! d_Z2c_d_varphi)) /! (lp).
(** Lines 1082-1095. *)
Definition U120 : F :=
  (B0 *! X1c *! (lp *! iota_N *! Y1c *! (int sG *! int spsi +! X1c *! Y1s) *! torsion +! (-! (int sG *! int spsi *! iota_N) +! lp *! Y1s *! Y1s *!
  torsion) *! d_X1c_d_varphi +! iota_N *! X1c *! X1c *! d_Y1s_d_varphi -! int 2 *! lp *! int sG *! int spsi *! torsion *! d_Y1s_d_varphi +! lp *! X1c
  *! Y1s *! torsion *! d_Y1s_d_varphi -! lp *! int sG *! int spsi *! Y1s *! d_torsion_d_varphi)) /! (lp *! lp *! int sG).
(** Lines 1098-1113. *)
Definition U121 : F :=
  (B0 *! X1c *! (lp *! iota_N *! Y1c *! Y1c *! Y1s *! torsion +! lp *! iota_N *! Y1s *! Y1s *! Y1s *! torsion -! lp *! lp *! int sG *! int spsi *! Y1s
  *! torsion *! torsion -! int sG *! int spsi *! iota_N *! d_Y1c_d_varphi +! lp *! Y1s *! Y1s *! torsion *! d_Y1c_d_varphi -! lp *! Y1c *! Y1s *!
  torsion *! d_Y1s_d_varphi +! X1c *! (-! (lp *! int sG *! int spsi *! iota_N *! torsion) +! lp *! lp *! Y1s *! Y1s *! torsion *! torsion +! (iota_N
  *! Y1c -! d_Y1s_d_varphi) *! d_Y1s_d_varphi) +! int sG *! int spsi *! d2_Y1s_d_varphi2)) /! (lp *! lp *! int sG).
(** Lines 1116-1119. *)
Definition U122 : F :=
  (B0 *! X1c *! curvature *! (iota_N *! X1c +! int 2 *! lp *! Y1s *! torsion)) /! (lp *! int spsi).
(** Lines 1122-1135. *)
Definition U200 : F :=
  (B0 *! (int 2 *! lp *! lp *! int sG *! int spsi *! curvature *! curvature +! lp *! iota_N *! X1c *! X1c *! torsion -! lp *! iota_N *! Y1c *! Y1c *!
  torsion -! lp *! iota_N *! Y1s *! Y1s *! torsion +! iota_N *! Y1c *! d_X1c_d_varphi +! iota_N *! X1c *! d_Y1c_d_varphi -! lp *! Y1s *! torsion *!
  d_Y1c_d_varphi +! lp *! Y1c *! torsion *! d_Y1s_d_varphi +! d_X1c_d_varphi *! d_Y1s_d_varphi +! Y1s *! d2_X1c_d_varphi2)) /! (lp *! lp *! int spsi).
(** Lines 1138-1147. *)
Definition U201 : F :=
  (B0 *! (lp *! X1c *! (int 2 *! iota_N *! Y1c *! torsion +! Y1s *! d_torsion_d_varphi) +! Y1s *! (int 2 *! lp *! torsion *! d_X1c_d_varphi +! int 2
  *! iota_N *! d_Y1s_d_varphi +! d2_Y1c_d_varphi2) +! Y1c *! (int 2 *! iota_N *! d_Y1c_d_varphi -! d2_Y1s_d_varphi2))) /! (lp *! lp *! int spsi).
(** Lines 1150-1155. *)
Definition U202 : F :=
  (B0 *! (-! (iota_N *! X1c *! Y1c *! curvature) -! Y1s *! curvature *! d_X1c_d_varphi +! int sG *! int spsi *! d_curvature_d_varphi)) /! (lp *! int
  spsi).
(** Lines 1158-1164. *)
Definition U210 : F :=
  (B0 *! X1c *! (int 2 *! lp *! iota_N *! Y1c *! torsion -! int 2 *! iota_N *! d_X1c_d_varphi -! lp *! (int 2 *! torsion *! d_Y1s_d_varphi +! Y1s *!
  d_torsion_d_varphi))) /! (lp *! lp *! int spsi).
(** Lines 1167-1179. *)
Definition U211 : F :=
  -! ((B0 *! (iota_N *! Y1c *! d_X1c_d_varphi +! iota_N *! X1c *! d_Y1c_d_varphi -! d_X1c_d_varphi *! d_Y1s_d_varphi +! lp *! torsion *! (iota_N *!
  X1c *! X1c -! iota_N *! Y1c *! Y1c -! Y1s *! (iota_N *! Y1s +! d_Y1c_d_varphi) +! Y1c *! d_Y1s_d_varphi) -! X1c *! d2_Y1s_d_varphi2)) /! (lp *! lp
  *! int spsi)).
(** Lines 1182-1186. *)
Definition U212 : F :=
  (B0 *! curvature *! (iota_N *! X1c *! X1c +! lp *! int sG *! int spsi *! torsion +! lp *! X1c *! Y1s *! torsion)) /! (lp *! int spsi).
(** Lines 1189-1194. *)
Definition U220 : F :=
  (B0 *! (-! (iota_N *! X1c *! Y1c *! curvature) -! Y1s *! curvature *! d_X1c_d_varphi +! int sG *! int spsi *! d_curvature_d_varphi)) /! (lp *! int
  spsi).
(** Lines 1197-1204. *)
Definition U221 : F :=
  -! ((B0 *! curvature *! (iota_N *! Y1c *! Y1c +! iota_N *! Y1s *! Y1s -! lp *! int sG *! int spsi *! torsion +! Y1s *! (lp *! X1c *! torsion +!
  d_Y1c_d_varphi) -! Y1c *! d_Y1s_d_varphi)) /! (lp *! int spsi)).
(** Lines 1207-1208. *)
Definition U222 : F :=
  (-! int 2 *! B0 *! curvature *! curvature) /! int sG.
Definition U_element (n1 n2 n3 : nat) : F :=
  match n1, n2, n3 with
  | 0, 0, 0 => U000 | 0, 0, 1 => U001 | 0, 0, 2 => U002 | 0, 1, 0 => U010 | 0, 1, 1 => U011 | 0, 1, 2 => U012 | 0, 2, 0 => U020 | 0, 2, 1 => U021 | 0, 2, 2 => U022
  | 1, 0, 0 => U100 | 1, 0, 1 => U101 | 1, 0, 2 => U102 | 1, 1, 0 => U110 | 1, 1, 1 => U111 | 1, 1, 2 => U112 | 1, 2, 0 => U120 | 1, 2, 1 => U121 | 1, 2, 2 => U122
  | 2, 0, 0 => U200 | 2, 0, 1 => U201 | 2, 0, 2 => U202 | 2, 1, 0 => U210 | 2, 1, 1 => U211 | 2, 1, 2 => U212 | 2, 2, 0 => U220 | 2, 2, 1 => U221 | 2, 2, 2 => U222
  | _, _, _ => fzero o
  end.
End Elements.
Arguments point : clear implicits.

Section Tensor.
Context {F : Type} (o : fops F) (mo : mops F) (i : r2_input F) (s : r2 F).
Let a := i_axis (j_r1 i).
Let q := r1_diagnostics o mo (j_r1 i) (j_sigma i) (j_iota i).
Let D := ddv o (j_r1 i).
(** The values at the grid point [j]; the derivatives are those of calculate_r1.cpp and of calculate_r2.cpp lines 36-43 and 188-204. *)
Definition point_at (j : nat) : point F :=
  mkPoint (i_sG (j_r1 i)) (i_spsi (j_r1 i)) (i_B0 (j_r1 i)) (a_G0 a) (s_G2 s) (i_I2 (j_r1 i)) (j_iota i) (r_iota_N q) (a_abs_G0_over_B0 a) (j_B2s i) (j_B2c i)
    (s_B20 s j) (a_curvature a j) (a_torsion a j) (D (a_curvature a) j) (D (a_torsion a) j)
    (r_X1c q j) (r_Y1s q j) (r_Y1c q j) (r_d_X1c q j) (r_d_Y1s q j) (r_d_Y1c q j) (D (r_d_X1c q) j) (D (r_d_Y1s q) j) (D (r_d_Y1c q) j)
    (s_X20 s j) (s_X2s s j) (s_X2c s j) (s_Y20 s j) (s_Y2s s j) (s_Y2c s j) (s_Z2s s j) (s_Z2c s j)
    (D (s_X20 s) j) (D (s_X2s s) j) (D (s_X2c s) j) (D (s_Y20 s) j) (D (s_Y2s s) j) (D (s_Y2c s) j) (D (s_Z20 s) j) (D (s_Z2s s) j) (D (s_Z2c s) j).
(** grad_grad_B_tensor(j, n1, n2, n3), and the tensor that calculate_grad_grad_B_tensor_alt returns. *)
Definition grad_grad_B_tensor (j n1 n2 n3 : nat) : F := T_element o mo (point_at j) n1 n2 n3.
Definition grad_grad_B_tensor_alt (j n1 n2 n3 : nat) : F := U_element o mo (point_at j) n1 n2 n3.
(** Lines 490-522: the scale length and its minimum. *)
Definition squares (t : nat -> nat -> nat -> F) : F :=
  match flat_map (fun n1 => flat_map (fun n2 => map (fun n3 => fmul o (t n1 n2 n3) (t n1 n2 n3)) [0; 1; 2]%nat) [0; 1; 2]%nat) [0; 1; 2]%nat with
  | [] => fzero o
  | x :: l => fold_left (fadd o) l x
  end.
Definition L_grad_grad_B (j : nat) : F :=
  m_sqrt mo (fdiv o (fmul o (m_of_Z mo 4) (i_B0 (j_r1 i))) (m_sqrt mo (squares (grad_grad_B_tensor j)))).
Definition L_grad_grad_B_inverse (j : nat) : F := fdiv o (fone o) (L_grad_grad_B j).
Definition grid_min_L_grad_grad_B : F := fmin o (a_nphi a - 1) L_grad_grad_B.
End Tensor.
