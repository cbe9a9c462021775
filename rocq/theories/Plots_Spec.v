(** Specification vocabulary for pictures of curves, heat maps and rotor points. *)
From Verif Require Import RBase.
From Coq Require Import List.
Import ListNotations.
Local Open Scope R_scope.
(** a list of different numbers in increasing order *)
Definition increasing (w : list R) : Prop := forall i j, (i < j < length w)%nat -> nth i w 0 < nth j w 0.
(** label number i is shown, with its own value *)
Definition shown (w : list R) (l : list (option R)) (i : nat) : Prop := nth i l None = Some (nth i w 0).
(** label number i is empty *)
Definition hidden (l : list (option R)) (i : nat) : Prop := nth i l None = None.
(** distance in parts of the length of the bar *)
Definition apart (w : list R) (i j : nat) : R := (nth j w 0 - nth i w 0) / (last w 0 - nth 0 w 0).
