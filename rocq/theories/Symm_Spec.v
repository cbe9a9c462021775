(** Specification vocabulary: moving, turning and mirroring wind farms and wind fields. *)
From Verif Require Import RBase WindDir_Model Rotor_Model Symm_Model.
Local Open Scope R_scope.
Section S.
  Context {P A F D W : Type}.
  (** a point turned clockwise by an angle in degrees about the origin, and then moved by a vector *)
  Definition turned (a : R) (v : vec3) (p : vec3) : vec3 :=
    let c := cos (a * PI / 180) in let s := sin (a * PI / 180) in
    (vx p * c + vy p * s + vx v, vy p * c - vx p * s + vy v, vz p + vz v).
  (** the mirror image of a point: west and east interchanged *)
  Definition mirrored (p : vec3) : vec3 := (- vx p, vy p, vz p).
  (** a turbine at another position *)
  Definition at_pos (g : vec3 -> vec3) (t : turb P) : turb P := mkturb (g (t_pos t)) (t_diam t) (t_set t).
  (** the wind field [f'] is [f] moved by [g], with wind directions changed by [h], up to whole turns *)
  Definition moved_field (g : vec3 -> vec3) (h : R -> R) (f f' : field A) : Prop :=
    forall p, exists k : Z, f' (g p) = mkair (h (a_wd (f p)) + 360 * IZR k) (a_ws (f p)) (a_rest (f p)).
  (** there is wind at all hubs *)
  Definition windy (f : field A) (farm : list (turb P)) : Prop := forall t, In t farm -> 0 < a_ws (f (t_pos t)).
  (** left and right of a wake interchanged *)
  Definition flip (p : vec3) : vec3 := (vx p, - vy p, vz p).
  (** the wake model does not tell left from right *)
  Definition left_right_symmetric (m : smodel P F D W) : Prop :=
    forall s ds fs l t dt d, s_contrib m s ds fs (map flip l) t dt d = s_contrib m s ds fs l t dt d.
End S.
