(** Specification: parameters of turbine types and power curves from power coefficients. *)
From Coq Require Import String Reals.
From Verif Require Import RBase Factory_Model TypeName_Model TurbType_Model.
From Verif Require Curves_Model.
Local Open Scope list_scope.
Local Open Scope R_scope.

(** the attribute of a turbine type that a parameter sets *)
Definition attribute (k : str) (t : ttype) : option pval :=
  if seqb k (lit "D") then Some (t_D t) else if seqb k (lit "H") then Some (t_H t)
  else if seqb k (lit "P_nominal") then Some (t_P t) else if seqb k (lit "P_unit") then Some (t_unit t) else None.
(** the parameters the user relies on: diameter, hub height, nominal power and its unit *)
Definition settable : list str := [lit "D"; lit "H"; lit "P_nominal"; lit "P_unit"].
(** what a file name states for a parameter *)
Definition stated (q : pars) (k : str) : option pval :=
  if seqb k (lit "D") then option_map (fun x => PNum (rdec x)) (p_D q)
  else if seqb k (lit "H") then option_map (fun x => PNum (rdec x)) (p_H q)
  else if seqb k (lit "P_nominal") then option_map (fun x => PNum (rdec x)) (p_P q) else None.
(** the nominal power in watts *)
Definition nominal_watts (t : ttype) : option R :=
  match t_P t, t_unit t with PNum x, PText u => option_map (fun f => x * f) (p_units u) | _, _ => None end.
(** kinetic power of the wind through the rotor times cp, in watts *)
Definition rotor_watts (rho D cp u : R) : R := cp * (1 / 2 * rho * (PI * D ^ 2 / 4) * u ^ 3).
(** a power coefficient curve: increasing non-negative speeds, values in [0, C], slopes at most L *)
Fixpoint cp_curve (C L : R) (t : Curves_Model.table) : Prop :=
  match t with
  | [] => True
  | (x0, y0) :: t' => 0 <= x0 /\ 0 <= y0 <= C /\ match t' with (x1, y1) :: _ => x0 < x1 /\ Rabs (y1 - y0) <= L * (x1 - x0) | [] => True end /\ cp_curve C L t'
  end.
