(** What the area of a shape file should be. *)
From Coq Require Import Reals.
From Verif Require Import Base RBase Geom_Model Shp_Model.

(** the polygon belongs to the geometry *)
Definition has_part (f : feature) (q : part) : Prop :=
  match f with FPoly q' => q = q' | FMulti qs => In q qs | FOther => False end.

(** the geometry is that of the first row of this name *)
Definition first_row (t : table) (n : nat) (f : feature) : Prop :=
  exists pre post, t = pre ++ (Some n, f) :: post /\ forall g, ~ In (Some n, g) pre.

(** the names that the user asks for: a list, or all names of the file *)
Definition wanted (t : table) (names : option (list nat)) (n : nat) : Prop :=
  match names with Some l => In n l | None => exists f, In (Some n, f) t end.

(** the polygon is one of those asked for *)
Definition chosen (t : table) (names : option (list nat)) (q : part) : Prop :=
  exists n f, wanted t names n /\ first_row t n f /\ has_part f q.

Section S.
Context {Z : Type}.
Variable proj : Z -> ring -> ring.
Variable ins : ring -> pt -> bool.

(** the coordinates in use: as in the file, or those of one and the same UTM zone, which is reported
    and is the zone that was asked for, if any *)
Definition coordinates (utm : option (option Z)) (zone : option Z) (c : ring -> ring) : Prop :=
  match utm with
  | None => forall r, c r = r
  | Some want => exists z, zone = Some z /\ (forall r, c r = proj z r) /\ (forall z', want = Some z' -> z = z')
  end.

(** the point is inside of a ring *)
Definition in_ring (c : ring -> ring) (r : ring) (p : pt) : Prop := r <> [] /\ ins (c r) p = true.
(** the point is inside of the outer ring, in a hole, in the polygon *)
Definition in_outer (c : ring -> ring) (q : part) (p : pt) : Prop := in_ring c (p_ext q) p.
Definition in_hole (c : ring -> ring) (q : part) (p : pt) : Prop := exists h, In h (p_holes q) /\ in_ring c h p.
Definition in_part (c : ring -> ring) (q : part) (p : pt) : Prop := in_outer c q p /\ ~ in_hole c q p.
End S.
