(** Wakes at points (calc_points) and at turbines (calc_farm), for one state and one variable. *)
From Verif Require Import RBase Superp_Model Order_Model FarmWakes_Model.
Local Open Scope R_scope.

(** One wake model acting on the variable: its superposition with the quadratic-TI flag and the limits, and the contribution
    (scale, result) of a wake causing turbine with given results to a point; [None] if the point is not in its wake.
    -- core/wake_model.py:33-128, models/wake_models/wake_model.py contribute / finalize_wake_deltas of the single-turbine wake models *)
Record swake {T F P : Type} := mks {
  sm_s : superp; sm_quad : bool; sm_low : option R; sm_high : option R;
  sm_c : T -> F -> P -> contrib
}.
Arguments swake : clear implicits.

Section Points.
  Context {T F P : Type}.
  (** the ambient value at a point, the hub position of a turbine *)
  Variable amb : P -> R.
  Variable hub : T -> P.

  (** The farm calculation with the centre rotor and centre partial wakes (models/partial_wakes/centre.py:18-41): zero-initialised delta,
      one add_wake per wake causing turbine, finalised with the ambient rotor results [amb_res] whatever the other wake models did
      (models/partial_wakes/rotor_points.py:94-104 called with amb_res at algorithms/downwind/models/farm_wakes_calc.py:85-95). *)
  Definition as_wmodel (m : swake T F P) : @wmodel T F R R :=
    mkw true (fun _ => 0) (fun t f t' d => add_wake (sm_s m) d (sm_c m t f (hub t')))
        (fun t w d => w + final_delta (sm_s m) (sm_quad m) (sm_low m) (sm_high m) (amb (hub t)) d).

  (** The point calculation: algorithms/downwind/models/point_wakes_calc.py:117-149 for one variable. All turbines contribute, in farm
      order (lines 128-132); finalize_point_wakes receives [res], the sum of the ambient value and the deltas of the wake models before
      (lines 138-146). [srcs]: the turbines with their farm results. *)
  Definition point_value (ms : list (swake T F P)) (srcs : list (T * F)) (p : P) : R :=
    fold_left (fun res m => res + final_wake (sm_s m) (sm_quad m) (sm_low m) (sm_high m) res (map (fun tf => sm_c m (fst tf) (snd tf) p) srcs))
              ms (amb p).
End Points.

(** Product superposition, final evaluation per variable (ws_product.py:167-172) in both calculations; [ds]: the accumulated factors of the
    wake models. farm_wakes_calc.py:85-95 and point_wakes_calc.py:138-146 *)
Definition prod_farm (low high : option R) (amb : R) (ds : list R) : R := fold_left (fun w d => w + prod_final low high amb d) ds amb.
(** algorithms/downwind/models/point_wakes_calc.py:138-146 *)
Definition prod_point (low high : option R) (amb : R) (ds : list R) : R := fold_left (fun w d => w + prod_final low high w d) ds amb.
