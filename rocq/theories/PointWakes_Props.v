(** Theorems about point and farm wakes. *)
From Verif Require Import RBase Superp_Model Superp_Spec Order_Model FarmWakes_Model FarmWakes_Spec PointWakes_Model PointWakes_Spec PointWakes_Proofs PointWakes_Witness.
Local Open Scope R_scope.

(** C121: the wind (or any waked variable) that calc_points reports at the hub of a turbine is the one the farm calculation evaluated that
    turbine with: the turbine's farm result is [ev] of it. Centre rotor, one state; one wake model for the variable ... *)
Theorem C121_hub_value_one_model : forall (T F P K : Type) (amb : P -> R) (hub : T -> P) (ev : T -> R -> F) (leb : K -> K -> bool) (key : T -> K) (dT : T) (dF : F),
  (forall a b, leb a b = true \/ leb b a = true) -> (forall a b c, leb a b = true -> leb b c = true -> leb a c = true) ->
  forall (m : swake T F P) (farm : list T) (fs : list F) (i : nat),
  (forall t, in_limits amb m (hub t)) -> downstream_only leb key hub m ->
  calc_farm (fun t => amb (hub t)) ev leb key dT dF 0 [as_wmodel amb hub m] farm = Ok fs -> (i < length farm)%nat ->
  nth i fs dF = ev (nth i farm dT) (point_value amb [m] (combine farm fs) (hub (nth i farm dT))).
Proof.
  intros T F P K amb hub ev leb key dT dF H1 H2 m farm fs i Hl Hd E Hi.
  refine (proj2 (hub_value amb hub ev leb key dT dF H1 H2 [m] farm fs i (or_intror (le_n 1)) _ _ E Hi)).
  - intros m' t [<-|[]]. apply Hl.
  - intros m' [<-|[]]. exact Hd.
Qed.
Print Assumptions C121_hub_value_one_model.
(** ... or several, if none of their superpositions refers to the ambient value and no earlier listed model reads what a later one changes *)
Theorem C121_hub_value_several_models : forall (T F P K : Type) (amb : P -> R) (hub : T -> P) (ev : T -> R -> F) (leb : K -> K -> bool) (key : T -> K) (dT : T) (dF : F),
  (forall a b, leb a b = true \/ leb b a = true) -> (forall a b c, leb a b = true -> leb b c = true -> leb a c = true) ->
  forall (ms : list (swake T F P)) (farm : list T) (fs : list F) (i : nat),
  Forall (fun m => ignores_ambient m = true) ms -> no_feedback ev (map (as_wmodel amb hub) ms) ->
  (forall m t, In m ms -> in_limits amb m (hub t)) -> (forall m, In m ms -> downstream_only leb key hub m) ->
  calc_farm (fun t => amb (hub t)) ev leb key dT dF 0 (map (as_wmodel amb hub) ms) farm = Ok fs -> (i < length farm)%nat ->
  nth i fs dF = ev (nth i farm dT) (point_value amb ms (combine farm fs) (hub (nth i farm dT))).
Proof.
  intros T F P K amb hub ev leb key dT dF H1 H2 ms farm fs i Hi Hn Hl Hd E Hx.
  exact (proj2 (hub_value amb hub ev leb key dT dF H1 H2 ms farm fs i (or_introl (conj Hi Hn)) Hl Hd E Hx)).
Qed.
Print Assumptions C121_hub_value_several_models.
(** With limits this fails, and the farm result falls below the lower limit that each of the two superpositions has: turbines 0 and 1 in
    a row, 8 m/s, two wake models with a deficit of 5 m/s and lower limit 0. Farm: -2 m/s, point at the same hub: 0 m/s. *)
Theorem C121_two_limited_models_refuted : exists (m : swake nat R nat) (fs : list R),
  sm_s m = WSLinear /\ sm_low m = Some 0 /\ sm_high m = None /\
  (forall t, in_limits (fun _ => 8) m t) /\ downstream_only Nat.leb (fun t => t) (fun t => t) m /\
  no_feedback (fun (_ : nat) (w : R) => w) (map (as_wmodel (fun _ => 8) (fun t => t)) [m; m]) /\
  calc_farm (fun _ => 8) (fun _ w => w) Nat.leb (fun t => t) 0%nat 0 0 (map (as_wmodel (fun _ => 8) (fun t => t)) [m; m]) [0; 1]%nat = Ok fs /\
  nth 1 fs 0 = -2 /\ point_value (fun _ => 8) [m; m] (combine [0; 1]%nat fs) 1%nat = 0.
Proof. exact two_limits_witness. Qed.
Print Assumptions C121_two_limited_models_refuted.
(** product superposition: points multiply the factors of the wake models, the farm calculation adds their deficits; equal for one model *)
Theorem C121_product_values amb ds :
  prod_point None None amb ds = amb * rprod ds /\ prod_farm None None amb ds = amb * (1 + rsum (map (fun d => d - 1) ds)).
Proof. exact (conj (prod_point_rprod amb ds) (prod_farm_sum amb ds)). Qed.
Print Assumptions C121_product_values.
Theorem C121_product_refuted amb d1 d2 : 0 < amb -> d1 < 1 -> d2 < 1 -> prod_farm None None amb [d1; d2] < prod_point None None amb [d1; d2].
Proof.
  intros H1 H2 H3. rewrite prod_point_rprod, prod_farm_sum. cbn [rprod map]. unfold rsum. cbn [fold_right].
  apply Rmult_lt_compat_l; [exact H1|]. assert (0 < (1 - d1) * (1 - d2)) by (apply Rmult_lt_0_compat; lra). lra.
Qed.
Print Assumptions C121_product_refuted.
(** three turbines in a row, numbered against the wind: 10, 9 and 8.1 m/s, at the hubs as at the points *)
Example C121_nonvacuous : calc_farm (fun _ => 10) (fun _ w => w) Nat.leb (fun t => t) 0%nat 0 0 [as_wmodel (fun _ => 10) (fun t => t) row] [2; 0; 1]%nat = Ok [8.1; 10; 9] /\
  point_value (fun _ => 10) [row] (combine [2; 0; 1]%nat [8.1; 10; 9]) 2%nat = 8.1 /\
  (forall t : nat, in_limits (fun _ => 10) row t) /\ downstream_only Nat.leb (fun t => t) (fun t => t) row.
Proof. exact row_case. Qed.
