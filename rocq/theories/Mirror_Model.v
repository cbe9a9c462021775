(** Mirror wakes (foxes/models/ground_models/wake_mirror.py) and small point models (foxes/models/point_models/). *)
From Verif Require Import RBase Circles_Model.
Local Open Scope R_scope.

(** Heights of the turbines by state and downwind index: component 2 of fdata[TXYH]; fdata[H] is a view on it (None), as
    InitFarmData creates it, or an own array (e.g. after Data.add). *)
Record farm := { th : nat -> nat -> R; own_h : option (nat -> nat -> R) }.
(** algorithms/downwind/models/init_farm_data.py:70-140: fdata[H] *)
Definition hvar (f : farm) : nat -> nat -> R := match own_h f with None => th f | Some h => h end.
(** fdata[TXYH][:, di, 2] = col *)
Definition set_heights (f : farm) (di : nat) (col : nat -> R) : farm :=
  {| th := fun s t => if (t =? di)%nat then col s else th f s t; own_h := own_h f |}.
(** wake_mirror.py:85 and 140 *)
Definition reflect (h hh : R) : R := hh + 2 * (h - hh).
(** contribute_to_farm_wakes, 70-92, and contribute_to_point_wakes, 129-150. [direct]: wake frame and wake model alone;
    [mirrored]: the partial wakes model for farm wakes, again wake frame and wake model for point wakes. *)
Definition contribute_mirrors {D} (heights : list R) (direct mirrored : farm -> D -> D) (f : farm) (di : nat) (d : D) : farm * D :=
  let hh := fun s => hvar f s di in
  let '(f', d') := fold_left (fun fd h => let f1 := set_heights (fst fd) di (fun s => reflect h (hh s)) in (f1, mirrored f1 (snd fd))) heights (f, direct f d) in
  (set_heights f' di hh, d').
(** GroundModel.contribute_to_farm_wakes, core/ground_model.py:86 (NoGround) *)
Definition contribute_no_ground {D} (mirrored : farm -> D -> D) (f : farm) (d : D) : D := mirrored f d.

(** Top-hat wakes at one target: with the partial wakes model (partial_wakes/top_hat.py:171-203) and without it
    (wake_models/top_hat.py:212-225), for additive superposition. wr: wake radius, dist: distance of the target's centre from the
    wake centre, cl: centreline delta. *)
Definition with_partial (D wr dist cl : R) (d : R) : R := if Rltb (dist - D / 2) wr then d + top_hat_weight D wr dist * cl else d.
(** models/wake_models/top_hat.py:212-225 *)
Definition without_partial (wr dist cl : R) (d : R) : R := if Rltb dist wr then d + cl else d.

(** Ustar2TI.calculate, ustar2ti.py:77-84; kappa: FC.KAPPA *)
Definition ustar2ti (kappa : R) (max_ti : option R) (ustar ws : R) : R :=
  let ti := (ustar / kappa) / ws in match max_ti with None => ti | Some m => Rmax ti m end.
(** TKE2TI.calculate, tke2ti.py:57-60 *)
Definition tke2ti (tke ws : R) : R := sqrt (3 / 2 * tke) / ws.
(** WakeDeltas.calculate, wake_deltas.py:80-86; [pt v] and [amb v] the values of variable v and its ambient counterpart *)
From Verif Require Import Data_Model.
(** models/point_models/wake_deltas.py:80-86 *)
Definition delta_name (v : string) : string := ("DELTA_" ++ v)%string.
(** models/point_models/wake_deltas.py:80-86 *)
Fixpoint normalize_all (amb : string -> R) (vars : list string) (out : list (string * R)) : result (list (string * R)) :=
  match vars with
  | [] => Ok out
  | v :: vars' => match lookup v out with None => Err KeyError | Some x => normalize_all amb vars' (store v (x / amb v) out) end
  end.
(** models/point_models/wake_deltas.py:80-86 *)
Definition wake_deltas (vars : list string) (normalize : bool) (pt amb : string -> R) : result (list (string * R)) :=
  let out := map (fun v => (delta_name v, pt v - amb v)) vars in
  if normalize then normalize_all amb vars out else Ok out.
