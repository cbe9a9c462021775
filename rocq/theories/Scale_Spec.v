(** Specification vocabulary: wind farms and wind fields enlarged by a factor (C231). *)
From Verif Require Import RBase WindDir_Model Rotor_Model Symm_Model.
Local Open Scope R_scope.
Section S.
  Context {P A F D W : Type}.
  (** a point with all coordinates multiplied by a factor *)
  Definition scaled (l : R) (p : vec3) : vec3 := (l * vx p, l * vy p, l * vz p).
  (** a turbine with position, hub height and rotor diameter multiplied by a factor *)
  Definition enlarged (l : R) (t : turb P) : turb P := mkturb (scaled l (t_pos t)) (l * t_diam t) (t_set t).
  (** the wind field enlarged by a factor *)
  Definition stretched (l : R) (f f' : field A) : Prop := forall p, f' (scaled l p) = f p.
  (** a downwind distance that is not in the small range behind a rotor where wake models have no wake: x <= 1e-8 *)
  Definition clear (l x : R) : Prop := x <= 0 \/ (1e-8 < x /\ 1e-8 < l * x).
  (** the wake model has no length scale but the rotor diameter *)
  Definition scale_free (l : R) (m : smodel P F D W) : Prop :=
    (forall s ds, s_new m s (l * ds) = s_new m s ds) /\ (forall s ds w d, s_add m s (l * ds) w d = s_add m s ds w d) /\
    forall s ds fs pts t dt d, 0 < ds -> (forall p, In p pts -> clear l (vx p)) ->
      s_contrib m s (l * ds) fs (map (scaled l) pts) t (l * dt) d = s_contrib m s ds fs pts t dt d.
End S.
