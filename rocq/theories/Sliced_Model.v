(** Model of wake models that evaluate slices of constant downwind distance:
    /repo/foxes/models/wake_models/dist_sliced.py:119-216 and axisymmetric.py:63-105, for one source, one state and one target
    turbine with its target points (those of the rotor model, core/rotor_model.py:131-173, in the coordinates of the wake frame
    RotorWD). Simplification: all states and targets are selected by the wake model. *)
From Coq Require Import Reals String.
From Verif Require Import Base RBase WindDir_Model Rotor_Model.
Local Open Scope R_scope.

(** contribute, dist_sliced.py:155-160: x = wake_coos[:, :, 0, 0] is the downwind coordinate of the first target point of each
    target; [f]: the wake effect as function of x and of the lateral coordinates *)
Definition sliced (f : R -> R * R -> R) (coos : list vec3) : list R :=
  let x := vx (nth 0 coos (0, 0, 0)) in map (fun c => f x (vy c, vz c)) coos.
(** axisymmetric.py:104-105 *)
Definition axisym (f : R -> R -> R) : R -> R * R -> R := fun x yz => f x (sqrt (fst yz * fst yz + snd yz * snd yz)).
(** the target points of a turbine in the coordinates of the source's wake, core/rotor_model.py:131-173, models/wake_frames/rotor_wd.py:100-119 *)
Definition target_coos (source : vec3) (wd : R) (centre : vec3) (yaw D : R) (pts : list rpt) : list vec3 :=
  map (fun p => wake_coos source wd (rotor_point centre yaw D p)) pts.

(** a dictionary, keys are variables *)
Definition dict (A : Type) := list (string * A).
(** d[v] *)
Fixpoint get {A} (v : string) (d : dict A) : option A :=
  match d with [] => None | (k, x) :: q => if String.eqb v k then Some x else get v q end.
(** d[v] = x *)
Fixpoint put {A} (v : string) (x : A) (d : dict A) : dict A :=
  match d with [] => [(v, x)] | (k, y) :: q => if String.eqb v k then (v, x) :: q else (k, y) :: put v x q end.
(** dist_sliced.py:162-180: [wdel] are the variables and effects of the wake model, [sup] the superpositions by variable, each of them a function of
    old deltas and effects; the deltas already written stay if a later variable raises *)
Fixpoint contribute {D} (sup : dict (D -> D -> D)) (wdel : dict D) (deltas : dict D) : dict D * option pyerr :=
  match wdel with
  | [] => (deltas, None)
  | (v, h) :: q =>
      match get v sup, get v deltas with
      | Some s, Some d => contribute sup q (put v (s d h) deltas)
      | _, _ => (deltas, Some KeyError)
      end
  end.
(** dist_sliced.py:213-216: all variables of the superpositions *)
Fixpoint finalize {D} (fin : dict (D -> D -> D)) (amb : dict D) (deltas : dict D) : dict D * option pyerr :=
  match fin with
  | [] => (deltas, None)
  | (v, s) :: q =>
      match get v amb, get v deltas with
      | Some a, Some d => finalize q amb (put v (s a d) deltas)
      | _, _ => (deltas, Some KeyError)
      end
  end.
