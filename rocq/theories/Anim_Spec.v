(** Specification vocabulary of animations. *)
From Coq Require Import List Arith.
From Verif Require Import Base Anim_Model.
Import ListNotations.

(** the artists a generator contributes to picture number i: those of its i-th yield, none after its end *)
Definition artists_at {A} (i : nat) (g : gen A) : list A := match nth_error g i with Some (Pair _ a) => a | _ => [] end.
(** picture number i: all artists, in the order of the generators *)
Definition picture {A} (gs : list (gen A)) (i : nat) : list A := flat_map (artists_at i) gs.
(** all generators draw into one figure *)
Definition same_figure {A} (f : nat) (gs : list (gen A)) : Prop := forall g y, In g gs -> In y g -> exists a, y = Pair f a.
(** the duration: the length of the longest generator *)
Definition duration {A} (gs : list (gen A)) : nat := list_max (map (@length _) gs).
