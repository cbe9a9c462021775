(** Specification vocabulary: all wind speeds multiplied by a factor (C245). *)
From Verif Require Import RBase Superp_Model FarmWakes_Model PointWakes_Model.
Local Open Scope R_scope.
(** a contribution with the wind speed of the wake causing turbine multiplied *)
Definition faster (l : R) (c : contrib) : contrib := match c with Some (scale, r) => Some (l * scale, r) | None => None end.
(** a limit multiplied *)
Definition flimit (l : R) (o : option R) : option R := match o with Some x => Some (l * x) | None => None end.
(** exponents of power superpositions are positive *)
Definition pow_pos (s : superp) : Prop := match s with WSPow p | WSPowLocal p | TIPow p => 0 < p | _ => True end.
Section S.
  Context {T F P T' F' : Type}.
  Variables (l : R) (g : T -> T') (RF : F -> F' -> Prop).
  (** Two wind speed wake models that belong together: same superposition, limits multiplied, and at every point the same relative deficits with the multiplied wind speed of the wake causing
      turbine, whenever the results of that turbine belong together ([RF]). [g]: the same turbine, with settings for the other wind speeds (e.g. a stretched thrust curve) *)
  Definition same_deficits (m : swake T F P) (m' : swake T' F' P) : Prop :=
    is_ws (sm_s m) = true /\ pow_pos (sm_s m) /\ sm_s m' = sm_s m /\ sm_low m' = flimit l (sm_low m) /\ sm_high m' = flimit l (sm_high m) /\
    forall t f f' p, RF f f' -> sm_c m' (g t) f' p = faster l (sm_c m t f p).
End S.
