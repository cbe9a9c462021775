(** Specification: sets of points, boxes, distances. *)
From Verif Require Import RBase Geom_Model.
Local Open Scope R_scope.

(** area expressions as a user writes them, and the point set they denote *)
Inductive expr :=
| EHalf (c n : pt) | ECirc (c : pt) (r : R) | EPoly (q : list pt) (ins : pt -> bool)
| ENot (e : expr) | EPlus (a b : expr) | EMinus (a b : expr) | EUnion (es : list expr) | EInter (es : list expr).
Fixpoint den (e : expr) (p : pt) : Prop :=
  match e with
  | EHalf c n => 0 <= pdot (psub p c) n
  | ECirc c r => pdist p c <= r
  | EPoly _ ins => ins p = true
  | ENot a => ~ den a p
  | EPlus a b => den a p \/ den b p
  | EMinus a b => den a p /\ ~ den b p
  | EUnion es => (fix any l := match l with [] => False | a :: l' => den a p \/ any l' end) es
  | EInter es => (fix all l := match l with [] => True | a :: l' => den a p /\ all l' end) es
  end.
(** what the code constructs for it *)
Fixpoint build (e : expr) : geo :=
  match e with
  | EHalf c n => HP c n
  | ECirc c r => Circ c r
  | EPoly q ins => Poly q ins
  | ENot a => inverse (build a)
  | EPlus a b => add (build a) (build b)
  | EMinus a b => diff (build a) (build b)
  | EUnion es => Union (map build es)
  | EInter es => inter (map build es)
  end.
(** the point is on no boundary line of a half plane of the expression *)
Fixpoint off_lines (e : expr) (p : pt) : Prop :=
  match e with
  | EHalf c n => pdot (psub p c) n <> 0
  | ECirc _ _ | EPoly _ _ => True
  | ENot a => off_lines a p
  | EPlus a b | EMinus a b => off_lines a p /\ off_lines b p
  | EUnion es | EInter es => (fix all l := match l with [] => True | a :: l' => off_lines a p /\ all l' end) es
  end.

(** lower bound of a coordinate *)
Definition above (e : ext) (x : R) : Prop := match e with NInf => True | Fin l => l <= x | PInf => False end.

Definition below (e : ext) (x : R) : Prop := match e with PInf => True | Fin u => x <= u | NInf => False end.
(** every atom of the geometry is sound for boxes: a half plane whose normal is within the code's tolerance of an axis is
    exactly axis-parallel; points of a polygon are within the range of its vertices *)
Fixpoint atoms_ok (g : geo) : Prop :=
  match g with
  | HP _ n => forall e, In e [(1, 0); (-1, 0); (0, 1); (0, -1)] -> pdist n e < 1e-13 -> n = e
  | Poly q ins | InvPoly q ins => forall p, ins p = true -> forall i,
      (exists v, In v q /\ coord i v <= coord i p) /\ (exists v, In v q /\ coord i p <= coord i v)
  | Union gs | InvU gs => (fix all l := match l with [] => True | g :: l' => atoms_ok g /\ all l' end) gs
  | _ => True
  end.
(** no part of the geometry reports +inf as its lower (-inf as its upper) corner; [b] says whether the part is used
    inverted *)
Fixpoint honest (f : bool -> geo -> ext) (bad : ext) (b : bool) (g : geo) : Prop :=
  f b g <> bad /\
  match g with
  | Union gs => (fix all l := match l with [] => True | g :: l' => honest f bad b g /\ all l' end) gs
  | InvU gs => (fix all l := match l with [] => True | g :: l' => honest f bad (negb b) g /\ all l' end) gs
  | _ => True
  end.
(** boundary of a polygon: points of the edges of the closed vertex list *)
Definition on_segment (a b q : pt) : Prop := exists t, 0 <= t <= 1 /\ q = padd a (pscale t (psub b a)).
Fixpoint on_path (l : list pt) (q : pt) : Prop :=
  match l with a :: ((b :: _) as l') => on_segment a b q \/ on_path l' q | _ => False end.
(** [d] is the minimum distance from [p] to the set [S], attained at [q] *)
Definition min_distance (S : pt -> Prop) (p : pt) (d : R) (q : pt) : Prop :=
  S q /\ pdist p q = d /\ forall q', S q' -> d <= pdist p q'.
(** [d] is the infimum of the distances from [p] to the points of [S] *)
Definition inf_distance (S : pt -> Prop) (p : pt) (d : R) : Prop :=
  (forall q, S q -> d <= pdist p q) /\ forall eps, 0 < eps -> exists q, S q /\ pdist p q < d + eps.

(** distances with +inf *)
Definition odist (S : pt -> Prop) (p : pt) (d : option R) : Prop :=
  match d with Some d => inf_distance S p d | None => forall q, ~ S q end.
Definition ole (d : option R) (x : R) : Prop := match d with Some d => d <= x | None => False end.
(** the containment function fits the vertex list: leaving or entering the polygon crosses its boundary; every boundary
    point is approximated by inside points *)
Definition traces (q : list pt) (ins : pt -> bool) : Prop :=
  (exists v w, In v q /\ In w q /\ v <> w) /\
  (forall a b, ins a <> ins b -> exists x, on_path (close_pts q) x /\ on_segment a b x) /\
  (forall x eps, on_path (close_pts q) x -> 0 < eps -> exists y, ins y = true /\ pdist x y < eps).
(** normals are normalised, radii non-negative, polygons as above *)
Fixpoint wf (g : geo) : Prop :=
  match g with
  | HP _ n => pdot n n = 1
  | Circ _ r | InvCirc _ r => 0 <= r
  | Poly q ins | InvPoly q ins => traces q ins
  | Union gs | InvU gs => (fix all l := match l with [] => True | g :: l' => wf g /\ all l' end) gs
  end.
(** unions of shapes that are not inverted *)
Fixpoint positive (g : geo) : Prop :=
  match g with
  | HP _ _ | Circ _ _ | Poly _ _ => True
  | InvCirc _ _ | InvPoly _ _ | InvU _ => False
  | Union gs => (fix all l := match l with [] => True | g :: l' => positive g /\ all l' end) gs
  end.
