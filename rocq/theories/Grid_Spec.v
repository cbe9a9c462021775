(** Specifications for slices. *)
From Verif Require Import RBase WindDir_Model.
Local Open Scope R_scope.
(** a list of at least two numbers from a to b with constant distance *)
Definition spans (l : list R) (a b : R) : Prop :=
  (2 <= length l)%nat /\ nth 0 l 0 = a /\ last l 0 = b /\ (forall i, (S i < length l)%nat -> nth (S i) l 0 - nth i l 0 = (b - a) / INR (length l - 1)).
(** constant distances close to the resolution: relative error at most 1/(2n) for n intervals *)
Definition resolves (l : list R) (res : R) : Prop :=
  forall i, (S i < length l)%nat -> Rabs (nth (S i) l 0 - nth i l 0 - res) <= res / (2 * INR (length l - 1)).
(** weighted mean over the states of a field *)
Definition weighted_mean (w : list R) (fields : list (vec3 -> R)) (p : vec3) : R := rsum (map (fun q => fst q * snd q p) (combine w fields)) / rsum w.
(** squared distance *)
Definition dist2 (p q : vec3) : R := (vx p - vx q) * (vx p - vx q) + (vy p - vy q) * (vy p - vy q) + (vz p - vz q) * (vz p - vz q).
