(** Specification vocabulary for rotor averages. *)
From Verif Require Import RBase WindDir_Model Rotor_Model.
Local Open Scope R_scope.

(** a quadrature rule on the rotor: positive weights with sum one, centred at the hub, points inside the rotor square *)
Definition good_rule (l : list rpt) : Prop :=
  (forall p, In p l -> 0 < pw p) /\ rsum (map pw l) = 1 /\
  rsum (map (fun p => pw p * py p) l) = 0 /\ rsum (map (fun p => pw p * pz p) l) = 0 /\
  (forall p, In p l -> -1 < py p < 1 /\ -1 < pz p < 1).
(** inflow [(wd p, ws p)] at the points of a rule *)
Definition inflows (wd ws : rpt -> R) (l : list rpt) : list inflow :=
  map (fun p => {| i_wd := wd p; i_ws := ws p; i_w := pw p |}) l.
