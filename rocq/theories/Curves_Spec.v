(** Specification of curve tables *)
From Verif Require Import RBase Curves_Model.
Local Open Scope R_scope.
(** strictly increasing wind speeds *)
Fixpoint sorted (t : table) : Prop :=
  match t with (x0, _) :: (((x1, _) :: _) as t') => x0 < x1 /\ sorted t' | _ => True end.
(** all values between lo and hi *)
Definition values_in (lo hi : R) (t : table) : Prop := forall x y, In (x, y) t -> lo <= y <= hi.
Fixpoint increasing (t : table) : Prop :=
  match t with (_, y0) :: (((_, y1) :: _) as t') => y0 <= y1 /\ increasing t' | _ => True end.
