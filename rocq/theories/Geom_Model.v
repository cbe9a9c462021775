(** Boundary geometries (foxes/utils/geom2d). Points are pairs of reals; a query with many points is element-wise unless
    stated otherwise. *)
From Verif Require Import RBase.
Local Open Scope R_scope.

(** points of utils/geom2d, shape (2,) *)
Definition pt := (R * R)%type.
(** numpy arithmetic of utils/geom2d/polygon.py:101-126 *)
Definition psub (a b : pt) : pt := (fst a - fst b, snd a - snd b).
(** numpy arithmetic of utils/geom2d/polygon.py:101-126 *)
Definition padd (a b : pt) : pt := (fst a + fst b, snd a + snd b).
(** numpy arithmetic of utils/geom2d/polygon.py:101-126 *)
Definition pscale (k : R) (a : pt) : pt := (k * fst a, k * snd a).
(** np.einsum / dot of utils/geom2d/polygon.py:101-126 *)
Definition pdot (a b : pt) : R := fst a * fst b + snd a * snd b.
(** np.linalg.norm, utils/geom2d/polygon.py:101-126 *)
Definition pnorm (a : pt) : R := sqrt (pdot a a).
(** cdist / norm of a difference, utils/geom2d/{circle.py, polygon.py:101-126} *)
Definition pdist (a b : pt) : R := pnorm (psub a b).

(** The objects the API constructs. [HP c n]: half_plane.py:24-39 with the normalised [n]. [Circ c r]: circle.py:22-35.
    [Poly pts ins]: polygon.py:25-42; the containment test is matplotlib's Path.contains_points (polygon.py:150), an
    arbitrary function here. [Inv] wraps circles and polygons only: area_geometry.py:195-205 is overridden in HalfPlane,
    AreaUnion and InvertedAreaGeometry, so no other Inverted... object is ever constructed by the API.
    [Union gs], [InvU gs]: AreaUnion (383-406), InvertedAreaUnion of it (596-614). *)
Inductive geo :=
| HP (c n : pt)
| Circ (c : pt) (r : R)
| Poly (pts : list pt) (ins : pt -> bool)
| InvCirc (c : pt) (r : R)
| InvPoly (pts : list pt) (ins : pt -> bool)
| Union (gs : list geo)
| InvU (gs : list geo).

(** inverse(): half_plane.py:166-176, area_geometry.py:195-205, 370-380, 575-585 *)
Definition inverse (g : geo) : geo :=
  match g with
  | HP c n => HP c (- fst n, - snd n)
  | Circ c r => InvCirc c r
  | Poly q i => InvPoly q i
  | InvCirc c r => Circ c r
  | InvPoly q i => Poly q i
  | Union gs => InvU gs
  | InvU gs => Union gs
  end.
(** points_inside: half_plane.py:115-132, circle.py:100-116, polygon.py:135-150, area_geometry.py:315-330, 506-528 *)
Fixpoint inside (g : geo) (p : pt) : bool :=
  match g with
  | HP c n => Rleb 0 (pdot (psub p c) n)
  | Circ c r => Rleb (pnorm (psub p c)) r
  | Poly _ i => i p
  | InvCirc c r => negb (Rleb (pnorm (psub p c)) r)
  | InvPoly _ i => negb (i p)
  | Union gs => existsb (fun g => inside g p) gs
  | InvU gs => negb (existsb (fun g => inside g p) gs)
  end.
(** a + b: area_geometry.py:207-213, 587-593 (InvertedAreaUnion inherits the first) *)
Definition add (a b : geo) : geo :=
  match a, b with
  | Union gs, Union hs => Union (gs ++ hs)
  | Union gs, _ => Union (gs ++ [b])
  | _, Union hs => Union (a :: hs)
  | _, _ => Union [a; b]
  end.
(** AreaIntersection(gs): area_geometry.py:681-691 *)
Definition inter (gs : list geo) : geo := inverse (Union (map inverse gs)).
(** a - b: area_geometry.py:218-219 *)
Definition diff (a b : geo) : geo := inter [a; inverse b].
(** a - [b, ...]: area_geometry.py:216-217 calls inverse() of the python list *)
Definition diff_list (a : geo) (bs : list geo) : result geo := Err AttributeError.

(** extended reals of the bounding boxes -- utils/geom2d/area_geometry.py:408-670 *)
Inductive ext := NInf | Fin (x : R) | PInf.
(** np.minimum, utils/geom2d/area_geometry.py:408-425 *)
Definition emin (a b : ext) : ext :=
  match a, b with
  | NInf, _ | _, NInf => NInf
  | PInf, x | x, PInf => x
  | Fin x, Fin y => Fin (Rmin x y)
  end.
(** np.isinf, utils/geom2d/area_geometry.py:616-670 *)
Definition isinf (a : ext) : bool := match a with Fin _ => false | _ => true end.
(** one axis of a box: 0 is x, 1 is y *)
Definition coord (i : bool) (p : pt) : R := if i then snd p else fst p.
(** p_min, p_max of utils/geom2d/area_geometry.py:16-40, shape (2,) *)
Definition box := (ext * ext)%type.
(** component of p_min or p_max, utils/geom2d/area_geometry.py:616-670 *)
Definition bget (i : bool) (b : box) : ext := if i then snd b else fst b.
(** half_plane.py:51-60 *)
Definition near (n : pt) (e : pt) : bool := Rltb (pdist n e) 1e-13.
(** utils/geom2d/half_plane.py:51-60 *)
Definition hp_min (c n : pt) : box :=
  if near n (1, 0) then (Fin (fst c), NInf)
  else if near n (-1, 0) then (NInf, NInf)
  else if near n (0, 1) then (NInf, Fin (snd c))
  else if near n (0, -1) then (NInf, NInf) else (NInf, NInf).
(** np.min over the closed vertex list, polygon.py:44-54 *)
Fixpoint lmin (x : R) (l : list R) : R := match l with [] => x | y :: l' => Rmin x (lmin y l') end.
(** utils/geom2d/polygon.py:44-54 *)
Definition poly_min (q : list pt) : box :=
  match q with [] => (NInf, NInf) | p :: q' => (Fin (lmin (fst p) (map fst q')), Fin (lmin (snd p) (map snd q'))) end.
(** AreaUnion.p_min, area_geometry.py:408-425 (an empty union returns None; modelled as +inf, the neutral element) *)
Fixpoint emins (l : list ext) : ext := match l with [] => PInf | x :: l' => emin x (emins l') end.
(** utils/geom2d/area_geometry.py:408-425 *)
Definition union_min (bs : list box) : box := (emins (map fst bs), emins (map snd bs)).
(** InvertedAreaUnion.p_min, area_geometry.py:616-642: [bs] boxes of the members, [is] boxes of their inverses *)
Definition inv_axis (i : bool) (pmi : box) (is : list box) : ext :=
  if isinf (bget i pmi) then emins (filter (fun e => negb (isinf e)) (map (bget i) is)) else NInf.
(** utils/geom2d/area_geometry.py:616-642 *)
Definition invu_min (bs is : list box) : box :=
  match is with
  | [b] => b
  | _ =>
      let pmi := union_min bs in
      if isinf (fst pmi) || isinf (snd pmi) then (inv_axis false pmi is, inv_axis true pmi is) else (NInf, NInf)
  end.
(** p_min of [g] ([b = false]) and of its inverse ([b = true]) -- the p_min methods of utils/geom2d/{circle,half_plane,polygon,area_geometry}.py *)
Fixpoint pmin (b : bool) (g : geo) : box :=
  match g with
  | HP c n => if b then hp_min c (- fst n, - snd n) else hp_min c n
  | Circ c r => if b then (NInf, NInf) else (Fin (fst c - r), Fin (snd c - r))
  | Poly q _ => if b then (NInf, NInf) else poly_min q
  | InvCirc c r => if b then (Fin (fst c - r), Fin (snd c - r)) else (NInf, NInf)
  | InvPoly q _ => if b then poly_min q else (NInf, NInf)
  | Union gs => if b then invu_min (map (pmin false) gs) (map (pmin true) gs) else union_min (map (pmin false) gs)
  | InvU gs => if b then union_min (map (pmin false) gs) else invu_min (map (pmin false) gs) (map (pmin true) gs)
  end.

(** points_distance with return_nearest. HalfPlane: half_plane.py:105-113, one point *)
Definition hp_distance (c n p : pt) : R * pt :=
  let d := psub p c in
  let m := (- snd n, fst n) in
  (Rabs (pdot d n), padd c (pscale (pdot d m) m)).
(** Circle distance: circle.py:83-85 *)
Definition circ_distance (c : pt) (r : R) (p : pt) : R := Rabs (pnorm (psub p c) - r).
(** circle.py:87-96, all points: [sel] are the points with magd > 0. If one point is the centre, the division
    (k,2)/(k,) broadcasts only for k = 1 or k = 2 selected points, for k = 2 against the wrong axis; and the assignment
    to minp[~sel][:, 0] goes to a copy. *)
Definition circ_nearest (c : pt) (r : R) (ps : list pt) : result (list pt) :=
  let ds := map (fun p => psub p c) ps in
  let sel (d : pt) := Rltb 0 (pnorm d) in
  let put (d : pt) (row : pt) := padd c (pscale r (if sel d then row else (0, 0))) in
  if forallb sel ds then Ok (map (fun d => padd c (pscale r (fst d / pnorm d, snd d / pnorm d))) ds)
  else match filter sel ds with
       | [d0] => Ok (map (fun d => put d (fst d / pnorm d0, snd d / pnorm d0)) ds)
       | [d0; d1] => Ok (map (fun d => put d (fst d / pnorm d0, snd d / pnorm d1)) ds)
       | _ => Err ValueError
       end.
(** polygon.py:35-38: close the vertex list *)
Definition close_pts (q : list pt) : list pt :=
  match q with [] => [] | p :: _ => if Reqb (fst p) (fst (last q p)) && Reqb (snd p) (snd (last q p)) then q else q ++ [p] end.
(** polygon.py:90-98: nearest vertex; strict comparison keeps the first *)
Fixpoint nearest_vertex (p : pt) (best : R * pt) (q : list pt) : R * pt :=
  match q with [] => best | v :: q' => nearest_vertex p (if Rltb (pdist p v) (fst best) then (pdist p v, v) else best) q' end.
(** polygon.py:101-126: one edge *)
Definition edge_step (p : pt) (best : R * pt) (pA pB : pt) : R * pt :=
  let n := psub pB pA in
  let d := pnorm n in
  if Rltb 0 d then
    let u := (fst n / d, snd n / d) in
    let q := psub p pA in
    let x := pdot q u in
    if Rltb 0 x && Rltb x d then
      let y := sqrt (Rmax (pnorm q * pnorm q - x * x) 0) in
      (Rmin (fst best) y, if Rltb y (fst best) then padd pA (pscale x u) else snd best)
    else best
  else best.
(** utils/geom2d/polygon.py:101-126: loop over the edges *)
Fixpoint edges_loop (p : pt) (best : R * pt) (q : list pt) : R * pt :=
  match q with
  | pA :: ((pB :: _) as q') => edges_loop p (edge_step p best pA pB) q'
  | _ => best
  end.
(** polygon.py:68-133: [None] if there are no edges (a single vertex): np.min of an empty array raises ValueError *)
Definition poly_distance (q : list pt) (p : pt) : result (R * pt) :=
  let c := close_pts q in
  match removelast c with
  | [] => Err ValueError
  | v :: vs => Ok (edges_loop p (nearest_vertex p (pdist p v, v) vs) c)
  end.
(** AreaUnion.points_distance: area_geometry.py:467-504, one point; distances are [None] for +inf (the initial value);
    state (dist, pins) *)
Definition olt (a b : option R) : bool :=
  match a, b with None, _ => false | Some _, None => true | Some x, Some y => Rltb x y end.
(** utils/geom2d/area_geometry.py:467-504, one member *)
Definition union_step (st : option R * bool) (di : option R * bool) : option R * bool :=
  let '(dist, pins) := st in
  let '(d, ins) := di in
  let dist1 := if negb pins && negb ins && olt d dist then d else dist in
  let dist2 := if negb pins && ins then d else dist1 in
  let pins2 := pins || (negb pins && ins) in
  let dist3 := if pins2 && ins && olt dist2 d then d else dist2 in
  (dist3, pins2).
(** utils/geom2d/area_geometry.py:467-504 *)
Definition union_distance (ds : list (option R * bool)) : option R :=
  match ds with [(d, _)] => d | _ => fst (fold_left union_step ds (None, false)) end.
(** points_distance of every geometry; inverted objects forward to the original (area_geometry.py:292-313). A polygon
    with a single vertex, which raises, is given +inf. *)
Fixpoint gdist (g : geo) (p : pt) : option R :=
  match g with
  | HP c n => Some (fst (hp_distance c n p))
  | Circ c r | InvCirc c r => Some (circ_distance c r p)
  | Poly q _ | InvPoly q _ => match poly_distance q p with Ok (d, _) => Some d | Err _ => None end
  | Union gs | InvU gs => union_distance (map (fun g => (gdist g p, inside g p)) gs)
  end.

(** upper corners. half_plane.py:71-82 *)
Definition hp_max (c n : pt) : box :=
  if near n (1, 0) then (PInf, PInf)
  else if near n (-1, 0) then (Fin (fst c), PInf)
  else if near n (0, 1) then (PInf, PInf)
  else if near n (0, -1) then (PInf, Fin (snd c)) else (PInf, PInf).
(** np.max over the vertices, polygon.py:56-66 *)
Fixpoint lmax (x : R) (l : list R) : R := match l with [] => x | y :: l' => Rmax x (lmax y l') end.
(** utils/geom2d/polygon.py:56-66 *)
Definition poly_max (q : list pt) : box :=
  match q with [] => (PInf, PInf) | p :: q' => (Fin (lmax (fst p) (map fst q')), Fin (lmax (snd p) (map snd q'))) end.
(** np.maximum -- utils/geom2d/area_geometry.py:427-444 *)
Definition emax (a b : ext) : ext :=
  match a, b with
  | PInf, _ | _, PInf => PInf
  | NInf, x | x, NInf => x
  | Fin x, Fin y => Fin (Rmax x y)
  end.
(** AreaUnion.p_max, area_geometry.py:427-444 *)
Fixpoint emaxs (l : list ext) : ext := match l with [] => NInf | x :: l' => emax x (emaxs l') end.
(** utils/geom2d/area_geometry.py:427-444 *)
Definition union_max (bs : list box) : box := (emaxs (map fst bs), emaxs (map snd bs)).
(** InvertedAreaUnion.p_max, area_geometry.py:644-670 *)
Definition inv_axis_max (i : bool) (pma : box) (is : list box) : ext :=
  if isinf (bget i pma) then emaxs (filter (fun e => negb (isinf e)) (map (bget i) is)) else PInf.
(** utils/geom2d/area_geometry.py:644-670 *)
Definition invu_max (bs is : list box) : box :=
  match is with
  | [b] => b
  | _ =>
      let pma := union_max bs in
      if isinf (fst pma) || isinf (snd pma) then (inv_axis_max false pma is, inv_axis_max true pma is) else (PInf, PInf)
  end.
(** p_max of [g] ([b = false]) and of its inverse ([b = true]); circle.py:49-60 *)
Fixpoint pmax (b : bool) (g : geo) : box :=
  match g with
  | HP c n => if b then hp_max c (- fst n, - snd n) else hp_max c n
  | Circ c r => if b then (PInf, PInf) else (Fin (fst c + r), Fin (snd c + r))
  | Poly q _ => if b then (PInf, PInf) else poly_max q
  | InvCirc c r => if b then (Fin (fst c + r), Fin (snd c + r)) else (PInf, PInf)
  | InvPoly q _ => if b then poly_max q else (PInf, PInf)
  | Union gs => if b then invu_max (map (pmax false) gs) (map (pmax true) gs) else union_max (map (pmax false) gs)
  | InvU gs => if b then union_max (map (pmax false) gs) else invu_max (map (pmax false) gs) (map (pmax true) gs)
  end.
