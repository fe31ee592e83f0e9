(** Model of the tensor-product grid of a parameter scan: MultiOptScan::init and the first part
    of MultiOptScan::eval_scan_index in src/multiopt_scan.cpp. *)
From Coq Require Import String ZArith List Bool Arith.
From Verif Require Import Base FloatOps.
Import ListNotations.
Local Open Scope list_scope.
Local Open Scope nat_scope.

Definition INT_MAX : Z := 2147483647.

(** multiopt_scan.cpp lines 69-72: [n_scan_all = 1; for (j...) { if (params_n[j] < 2) throw;
    n_scan_all *= params_n[j]; ...}].  [n_scan_all] is an int. *)
Fixpoint grid_total_from (acc : Z) (params_n : list Z) : outcome Z :=
  match params_n with
  | [] => Ok acc
  | n :: rest =>
      if (n <? 2)%Z then Throw "params_n values must all be >= 2"
      else if (acc * n <=? INT_MAX)%Z then grid_total_from (acc * n) rest
      else UB "signed integer overflow"
  end.
Definition grid_total (params_n : list Z) : outcome Z := grid_total_from 1 params_n.

Section Values.
Context {F : Type} (o : fops F).
(** Conversion of an int to a qscfloat, and the C library's exp and log. *)
Variable of_Z : Z -> F.
Variables fexp flog : F -> F.

(** Lines 79-80: [params_min[j] + (params_max[j] - params_min[j]) * k / (params_n[j] - 1)]. *)
Definition linear_value (lo hi : F) (n k : Z) : F :=
  fadd o lo (fdiv o (fmul o (fsub o hi lo) (of_Z k)) (of_Z (n - 1))).
(** Lines 75-76: [exp(log(params_min[j]) + (log(params_max[j]) - log(params_min[j])) * k / (params_n[j] - 1))]. *)
Definition log_value (lo hi : F) (n k : Z) : F :=
  fexp (fadd o (flog lo) (fdiv o (fmul o (fsub o (flog hi) (flog lo)) (of_Z k)) (of_Z (n - 1)))).
(** Lines 72-81: the array params_vals[j]. *)
Definition grid_values (logarithmic : bool) (lo hi : F) (n : Z) : list F :=
  map (fun k => if logarithmic then log_value lo hi n (Z.of_nat k) else linear_value lo hi n (Z.of_nat k))
      (seq 0 (Z.to_nat n)).
End Values.

(** Lines 264-268: [jmod = j_scan; for (k = ndim - 1; k >= 0; k--) { indices[k] = jmod % params_n[k];
    jmod = (jmod - indices[k]) / params_n[k]; }].  The loop runs from the last dimension to the
    first: [sizes] is params_n in reverse order, and the indices come out in reverse order.
    params_n[k] is at least 2 here, so the conversion of the int to an unsigned 64-bit integer
    changes nothing. *)
Fixpoint decode_rev (sizes : list nat) (jmod : nat) : list nat :=
  match sizes with
  | [] => []
  | n :: rest => let i := jmod mod n in i :: decode_rev rest ((jmod - i) / n)
  end.
Definition decode (params_n : list nat) (j_scan : nat) : list nat :=
  rev (decode_rev (rev params_n) j_scan).
