(** Specification vocabulary for the farm controller. *)
From Verif Require Import Base Controller_Model.

(** What a global sequence does to turbine [j]: the models applied to it, in order. *)
Definition applied_models (j : nat) (ems : list emission) : list nat :=
  flat_map (fun e => match nth j (snd e) None with Some _ => [fst e] | None => [] end) ems.
(** ... and the selection entries used for them. *)
Definition applied_sels (j : nat) (ems : list emission) : list nat :=
  flat_map (fun e => match nth j (snd e) None with Some k => [k] | None => [] end) ems.
(** A ranking of all models along which every turbine's list strictly increases. *)
Definition compatible (rank : nat -> nat) (ls : list (list nat)) : Prop :=
  forall l, In l ls -> forall i j a b, i < j -> nth_error l i = Some a -> nth_error l j = Some b -> rank a < rank b.
