(** Specification for C251. *)
From Coq Require Import Permutation.
From Verif Require Import RBase Chunk_Model Chunk_Spec EngineRun_Model FarmEval_Model Symm_Model Whole_Model Whole_Spec YieldRun_Model.
Local Open Scope R_scope.

(** the jobs of all chunks of n states, completed in any order *)
Definition schedule (np : Z) (css csp : option Z) (n : nat) (sched : list job) : Prop :=
  forall ls lt, calc_chunk_sizes n np css csp (Z.of_nat n) 0 = Ok (ls, lt) -> Permutation sched (submit (map Z.to_nat ls) (map Z.to_nat lt)).
(** the same farm with the wind of a state *)
Definition with_wind (c : scene) (z : wstate) : scene :=
  {| c_wd := z_wd z; c_wsp := z_ws z; c_def := c_def c; c_ctmax := c_ctmax c; c_s := c_s c; c_low := c_low c; c_high := c_high c; c_amb := c_amb c |}.
(** reasonable states *)
Definition good_states (c : scene) (zs : list wstate) : Prop := zs <> [] /\ forall z, In z zs -> good_scene (with_wind c z).
(** energy in GWh per year *)
Definition per_year (unit mean_power : R) : R := mean_power * 8760 * unit / 1000000000.
