(** The magnetic axis as a curve: the specification for init_axis. *)
From Coq Require Import ZArith Reals List.
From Verif Require Import FloatOps MathOps Curve Axis.
Local Open Scope R_scope.

(** A Fourier series in the toroidal angle, with nfp field periods: the coefficients of the
    cosines and of the sines. *)
Definition series (nfp : Z) (c s : list R) (phi : R) : R :=
  rsum (length c) (fun n => nth n c 0 * cos (INR n * IZR nfp * phi))
  + rsum (length s) (fun n => nth n s 0 * sin (INR n * IZR nfp * phi)).
(** The point of the axis at the toroidal angle [phi]. *)
Definition position (i : axis_input R) (phi : R) : vec :=
  cyl phi (V (series (ai_nfp i) (ai_R0c i) (ai_R0s i) phi) 0 (series (ai_nfp i) (ai_Z0c i) (ai_Z0s i) phi)).
(** The grid point [j]. *)
Definition grid_phi (i : axis_input R) (j : nat) : R := 2 * PI * INR j / (IZR (ai_nfp i) * INR (ai_nphi i)).

(** Inputs that can occur: at least one grid point and field period; arrays of
    coefficients of the same length, at least one (Properties_Input shows this for
    what is read from a file); and frequencies n * nfp whose cube is an int. *)
Record axis_ok {F} (i : axis_input F) : Prop := mkAxisOk {
  ok_nphi : (1 <= ai_nphi i)%nat; ok_nfp : (1 <= ai_nfp i)%Z; ok_R0c : (1 <= length (ai_R0c i))%nat;
  ok_R0s : length (ai_R0s i) = length (ai_R0c i); ok_Z0c : length (ai_Z0c i) = length (ai_R0c i);
  ok_Z0s : length (ai_Z0s i) = length (ai_R0c i);
  ok_range : (Z.of_nat (length (ai_R0c i) - 1) * ai_nfp i <= 1290)%Z }.
