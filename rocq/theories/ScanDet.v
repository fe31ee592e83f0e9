(** Model of the random generators of Scan::random, src/scan_random.cpp lines 31-64, and of the
    draws of lines 111-129. *)
From Coq Require Import String ZArith List Bool.
From Verif Require Import Base FloatOps Tensor Scan RandomGen Collect.
Import ListNotations.
Local Open Scope list_scope.

Section Gens.
Context {F : Type} (o : fops F) (f : rfuns F).
Context {G : Type} (uniform : G -> F * G).

(** The four generators of one Fourier mode, and all generators of a process. *)
Record mode := mkMode { m_R0c : random (F:=F) (G:=G); m_R0s : random (F:=F) (G:=G); m_Z0c : random (F:=F) (G:=G); m_Z0s : random (F:=F) (G:=G) }.
Record gens := mkGens {
  g_eta_bar : random (F:=F) (G:=G); g_sigma0 : random (F:=F) (G:=G); g_B2c : random (F:=F) (G:=G);
  g_B2s : random (F:=F) (G:=G); g_p2 : random (F:=F) (G:=G); g_modes : list mode }.

(** Limits and distributions of the scan (scan.hpp lines 52-72). *)
Record ranges := mkRanges {
  rg_deterministic : bool;
  rg_eta_bar : string * F * F; rg_sigma0 : string * F * F; rg_B2c : string * F * F;
  rg_B2s : string * F * F; rg_p2 : string * F * F;
  rg_fourier_option : string;
  R0c_min : list F; R0c_max : list F; R0s_min : list F; R0s_max : list F;
  Z0c_min : list F; Z0c_max : list F; Z0s_min : list F; Z0s_max : list F }.

(** mpi_rank * max_attempts_per_proc + k is computed in int. *)
Definition int_ok (z : Z) : bool := (-2147483648 <=? z)%Z && (z <=? 2147483647)%Z.
Definition start_position (rank max_attempts k : Z) : outcome Z :=
  let z := (rank * max_attempts)%Z in
  if int_ok z && int_ok (z + k)%Z then Ok (z + k)%Z else UB "signed integer overflow".

(** A generator constructed and positioned.  [seed]: see RandomGen.make_random. *)
Definition positioned (det : bool) (lim : string * F * F) (seed : G) (rank max_attempts k : Z)
  : outcome (random (F:=F) (G:=G)) :=
  let '(d, lo, hi) := lim in
  do r <- make_random o f det d lo hi seed;
  do n <- start_position rank max_attempts k;
  Ok (set_to_nth o f uniform n r).

(** Lines 45-64 for one mode j; the names in the code are the names here. *)
Definition make_mode (rg : ranges) (seed : nat -> G) (rank max_attempts : Z) (j : nat) : outcome mode :=
  let det := rg_deterministic rg in
  let opt := rg_fourier_option rg in
  let opt0 := if (Nat.eqb j 0 && String.eqb opt "2 sided log")%bool then "log"%string else opt in
  do a <- aget (R0c_min rg) j; do b <- aget (R0c_max rg) j;
  do r0c <- positioned det (opt0, a, b) (seed (4 * j + 5)) rank max_attempts 4;
  do a <- aget (R0s_min rg) j; do b <- aget (R0s_max rg) j;
  do r0s <- positioned det (opt, a, b) (seed (4 * j + 6)) rank max_attempts 5;
  do a <- aget (Z0c_min rg) j; do b <- aget (Z0c_max rg) j;
  do z0c <- positioned det (opt, a, b) (seed (4 * j + 7)) rank max_attempts 6;
  do a <- aget (Z0s_min rg) j; do b <- aget (Z0s_max rg) j;
  do z0s <- positioned det (opt, a, b) (seed (4 * j + 8)) rank max_attempts 7;
  Ok (mkMode r0c r0s z0c z0s).

(** Lines 31-64.  The order in which errors of several generators would be raised is not
    modelled; [seed] gives the engine of each generator. *)
Definition make_gens (rg : ranges) (seed : nat -> G) (rank max_attempts : Z) : outcome gens :=
  let det := rg_deterministic rg in
  do e <- positioned det (rg_eta_bar rg) (seed 0) rank max_attempts 0;
  do s <- positioned det (rg_sigma0 rg) (seed 1) rank max_attempts 1;
  do c <- positioned det (rg_B2c rg) (seed 2) rank max_attempts 2;
  do t <- positioned det (rg_B2s rg) (seed 3) rank max_attempts 3;
  do p <- positioned det (rg_p2 rg) (seed 4) rank max_attempts 4;
  do ms <- mapM (make_mode rg seed rank max_attempts) (seq 0 (length (R0c_max rg)));
  Ok (mkGens e s c t p ms).

(** Lines 111-129: one draw from every generator (the generators are separate objects, so the
    order of the draws does not matter); B2c, B2s and p2 only at second order. *)
Definition next (r : random (F:=F) (G:=G)) : random (F:=F) (G:=G) := snd (get o f uniform r).
Definition value (r : random (F:=F) (G:=G)) : F := fst (get o f uniform r).
Definition pick (r2 : bool) (g : gens) (prev : sample F) : sample F * gens :=
  (mkSample (value (g_eta_bar g)) (value (g_sigma0 g))
     (if r2 then value (g_B2c g) else s_B2c prev)
     (if r2 then value (g_B2s g) else s_B2s prev)
     (if r2 then value (g_p2 g) else s_p2 prev)
     (map (fun m => value (m_R0c m)) (g_modes g)) (map (fun m => value (m_R0s m)) (g_modes g))
     (map (fun m => value (m_Z0c m)) (g_modes g)) (map (fun m => value (m_Z0s m)) (g_modes g)),
   mkGens (next (g_eta_bar g)) (next (g_sigma0 g))
     (if r2 then next (g_B2c g) else g_B2c g) (if r2 then next (g_B2s g) else g_B2s g) (if r2 then next (g_p2 g) else g_p2 g)
     (map (fun m => mkMode (next (m_R0c m)) (next (m_R0s m)) (next (m_Z0c m)) (next (m_Z0s m))) (g_modes g))).
End Gens.
