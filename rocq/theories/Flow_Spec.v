(** Specification for C253. *)
From Coq Require Import Permutation.
From Verif Require Import RBase Chunk_Model EngineRun_Model EngineRun_Spec Superp_Model Superp_Spec Symm_Model Whole_Model Whole_Spec YieldRun_Model YieldRun_Spec Flow_Model.
Local Open Scope R_scope.

(** the jobs of all chunks of n states and m points, completed in any order *)
Definition schedule_points (np : Z) (css csp : option Z) (n m : nat) (sched : list job) : Prop :=
  forall ls lt, calc_chunk_sizes n np css csp (Z.of_nat n) (Z.of_nat m) = Ok (ls, lt) -> Permutation sched (submit (map Z.to_nat ls) (map Z.to_nat lt)).
(** a probe: something that stands at a point and has no rotor *)
Definition probe (p : vec3) : turb ttype := mkturb p 0 {| y_P := []; y_C := []; y_k := 0 |}.
(** the wind speed that the superposed wakes of all turbines leave over at a point *)
Definition wind_at (c : scene) (farm : list (turb ttype)) (res : list tres) (p : vec3) : R :=
  limited (c_low c) (c_high c) (c_wsp c + combination (c_s c) false (c_wsp c) (map (fun i => effect c (nth i farm no_turb) (nth i res no_res) (probe p)) (seq 0 (length farm)))).
(** unused default values *)
Definition no_pres : pres := {| p_ws := 0; p_amb := 0 |}.
Definition no_point : vec3 := (0, 0, 0).
(** element (s, k) of the results and of the points *)
Definition pick {A} (d : A) (l : list (list A)) (s k : nat) : A := nth k (nth s l []) d.
