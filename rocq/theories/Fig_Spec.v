(** Specification vocabulary of flow pictures: the coordinates of vectors in the plane of the picture. *)
From Verif Require Import RBase WindDir_Model Grid_Model Fig_Model.
Local Open Scope R_scope.

(** both coordinates of a vector in a picture of kind k; vertical pictures have the direction dir *)
Definition in_picture (k : kind) (dir : R) (v : vec3) : R * R :=
  match k with PXY => (vx v, vy v) | PXZ => (dot v (axis_x dir), vz v) | PYZ => (dot v (axis_y dir), vz v) end.
(** the horizontal wind vector *)
Definition wind (wd ws : R) : vec3 := (fst (wd2uv wd ws), snd (wd2uv wd ws), 0).
(** the hub *)
Definition hub (t : turb) : vec3 := (tX t, tY t, tH t).
(** a line of length d with the middle m, orthogonal to the vector n *)
Definition is_line (p q m : R * R) (d : R) (n : R * R) : Prop :=
  fst p + fst q = 2 * fst m /\ snd p + snd q = 2 * snd m /\ (fst p - fst q) * (fst p - fst q) + (snd p - snd q) * (snd p - snd q) = d * d /\
  (fst p - fst q) * fst n + (snd p - snd q) * snd n = 0.
