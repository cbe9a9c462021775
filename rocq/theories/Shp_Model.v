(** Model of areas from shape files: /repo/foxes/utils/geopandas_utils.py:109-275 (_extract_poly_coords,
    read_shp_polygons, shp2geom2d). The table that geopandas reads, the projection of utm.from_latlon
    and matplotlib's containment test of a polygon are arbitrary. Simplifications: coordinates are real
    numbers; names are numbers, None is a missing name (nan). *)
From Coq Require Import Reals.
From Verif Require Import Base RBase Geom_Model.

(** a ring of coordinates; a polygon with its holes; the geometries of a file,
    geopandas_utils.py:113-126 *)
Definition ring := list pt.
Record part := mkpart { p_ext : ring; p_holes : list ring }.
(** one geometry of the table *)
Inductive feature := FPoly (q : part) | FMulti (qs : list part) | FOther.
(** the rows of the table: name and geometry *)
Definition table := list (option nat * feature).

(** nested python lists of rings, geopandas_utils.py:113-127 *)
Inductive nest := Ring (r : ring) | Nest (l : list nest).

(** geopandas_utils.py:109-127: exterior and interior coordinates; [geom.type] at 126 does not exist
    any more in shapely 2, the error is then AttributeError instead of ValueError; both are errors *)
Definition extract (f : feature) : result (nest * nest) :=
  match f with
  | FPoly q => Ok (Ring (p_ext q), Nest (map Ring (p_holes q)))
  | FMulti qs => Ok (Nest (map (fun q => Ring (p_ext q)) qs), Nest (map (fun q => Nest (map Ring (p_holes q))) qs))
  | FOther => Err ValueError
  end.

Section Shp.
(** UTM zones; the zone that utm picks for a ring, and the projection of a ring in a zone *)
Context {Z : Type}.
Variable zone_of : ring -> Z.
Variable proj : Z -> ring -> ring.
(** matplotlib's test, utils/geom2d/polygon.py:150 *)
Variable ins : ring -> pt -> bool.

(** geopandas_utils.py:201-210: the zone of the first ring is kept for all others *)
Definition to_utm (z : option Z) (r : ring) : option Z * ring :=
  match z with
  | Some z0 => (Some z0, proj z0 r)
  | None => (Some (zone_of r), proj (zone_of r) r)
  end.

(** geopandas_utils.py:212-218; [apply]: apply_utm *)
Fixpoint to_numpy (apply : bool) (z : option Z) (n : nest) : option Z * nest :=
  match n with
  | Ring [] => (z, Nest [])
  | Ring r => if apply then let (z', r') := to_utm z r in (z', Ring r') else (z, Ring r)
  | Nest l =>
      let (z', l') := (fix go z l := match l with
        | [] => (z, [])
        | x :: q => let (z1, x') := to_numpy apply z x in let (z2, q') := go z1 q in (z2, x' :: q')
        end) z l in (z', Nest l')
  end.

(** pnames.index(name) and the geometry of that row, geopandas_utils.py:193-198 *)
Fixpoint row_of (name : nat) (t : table) : option feature :=
  match t with
  | [] => None
  | (Some n, f) :: q => if Nat.eqb n name then Some f else row_of name q
  | (None, _) :: q => row_of name q
  end.

(** d[name] = v of a python dict *)
Fixpoint put (name : nat) (v : nest * nest) (d : list (nat * (nest * nest))) : list (nat * (nest * nest)) :=
  match d with
  | [] => [(name, v)]
  | (n, w) :: q => if Nat.eqb n name then (n, v) :: q else (n, w) :: put name v q
  end.

(** geopandas_utils.py:188-221: the dictionaries exterior and interior, here as one *)
Fixpoint read_names (t : table) (apply : bool) (z : option Z) (names : list (option nat))
    (d : list (nat * (nest * nest))) : result (option Z * list (nat * (nest * nest))) :=
  match names with
  | [] => Ok (z, d)
  | None :: q => read_names t apply z q d
  | Some n :: q =>
      match row_of n t with
      | None => Err KeyError
      | Some f =>
          do ei <- extract f;
          let (z1, e) := to_numpy apply z (fst ei) in
          let (z2, i) := to_numpy apply z1 (snd ei) in
          read_names t apply z2 q (put n (e, i) d)
      end
  end.

(** geopandas_utils.py:255-266 *)
Fixpoint create (n : nest) : option geo :=
  match n with
  | Ring [] => None
  | Ring r => Some (Poly r (ins r))
  | Nest l =>
      let gs := (fix go l := match l with
        | [] => []
        | x :: q => match create x with Some g => g :: go q | None => go q end
        end) l in
      match gs with [] => None | _ => Some (Union gs) end
  end.

(** shp2geom2d, geopandas_utils.py:176-190, 229-275: [names] None are all names of the file; [utm] is
    None without conversion, Some None for the zone of the first ring, Some (Some z) for a given zone.
    gext - gint with gext = None is a TypeError *)
Definition shp2geom (t : table) (names : option (list nat)) (utm : option (option Z)) : result (option geo * option Z) :=
  let nms := match names with Some l => map Some l | None => map fst t end in
  do r <- read_names t (match utm with Some _ => true | None => false end) (match utm with Some z => z | None => None end) nms [];
  let gext := create (Nest (map (fun nv => fst (snd nv)) (snd r))) in
  let gint := create (Nest (map (fun nv => snd (snd nv)) (snd r))) in
  match gext, gint with
  | Some e, Some i => Ok (Some (diff e i), fst r)
  | e, None => Ok (e, fst r)
  | None, Some _ => Err TypeError
  end.
End Shp.
