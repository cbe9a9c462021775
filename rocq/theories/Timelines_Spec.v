(** Specification of the path of the air, from the displacements of the states. *)
From Verif Require Import RBase OnePoint_Model.
Local Open Scope R_scope.
(** displacement and path length from state s' to state s, j = s - s' steps *)
Fixpoint travelled (dxy : nat -> R * R) (s' j : nat) : R * R := match j with O => (0, 0) | S j' => add2 (dxy (s' + j')%nat) (travelled dxy s' j') end.
Fixpoint path_len (dxy : nat -> R * R) (s' j : nat) : R := match j with O => 0 | S j' => norm2 (dxy (s' + j')%nat) + path_len dxy s' j' end.

(** the air that passed the origin at state s' has, at state s, coordinates: path length so far plus the distance ahead along the displacement of state s',
    and the distance to the left of it *)
Definition on_path (dxy : nat -> R * R) (s s' : nat) (p : R * R) (x y : R) : Prop :=
  let q := sub2 p (travelled dxy s' (s - s')) in let v := dxy s' in
  0 < norm2 v /\ x = path_len dxy s' (s - s') + (fst q * fst v + snd q * snd v) / norm2 v /\ y = (- fst q * snd v + snd q * fst v) / norm2 v.
