(** Pictures of areas: /repo/foxes/utils/geom2d/area_geometry.py:82-193 (AreaGeometry.add_to_figure). Lines of boundaries (super class calls of the derived classes), labels and
    colour bars are left out. *)
From Verif Require Import RBase Geom_Model.
Local Open Scope R_scope.

(** an array (x, y) with the flag that its type is an integer type *)
Record arr := { a_val : box; a_int : bool }.
(** the entries of the caller's dictionary pars_distance that the function takes out; all other entries are passed on to pcolormesh *)
Record pars := { k_Nx : option nat; k_Ny : option nat; k_N : option nat; k_min : option arr; k_max : option arr }.
(** fill_mode, area_geometry.py:151-180; None: nothing is filled *)
Inductive fill := FDist | FDistInside | FDistOutside | FInside | FOutside | FUnknown.
(** the filled picture: nodes along x and y, and the colour value for column i and row j; [None]: NaN, nothing is painted *)
Record picture := { px : list R; py : list R; pc : nat -> nat -> option R }.

(** area_geometry.py:110-119: Nx, Ny and the dictionary after taking them out *)
Definition take_sizes (d : pars) : result (nat * nat) * pars :=
  match k_Nx d, k_Ny d with
  | Some nx, Some ny => (Ok (nx, ny), {| k_Nx := None; k_Ny := None; k_N := k_N d; k_min := k_min d; k_max := k_max d |})
  | Some nx, None => (Err KeyError, {| k_Nx := None; k_Ny := None; k_N := k_N d; k_min := k_min d; k_max := k_max d |})
  | None, Some ny => (Err KeyError, d)
  | None, None =>
      match k_N d with
      | Some n => (Ok (n, n), {| k_Nx := None; k_Ny := None; k_N := None; k_min := k_min d; k_max := k_max d |})
      | None => (Ok (500%nat, 500%nat), d)
      end
  end.
(** a < q for a finite number *)
Definition lt_ext (a : R) (q : ext) : bool := match q with NInf => false | Fin x => Rltb a x | PInf => true end.
(** q < a *)
Definition gt_ext (a : R) (q : ext) : bool := match q with NInf => true | Fin x => Rltb x a | PInf => false end.
(** area_geometry.py:123-130, one component: [q]: p_min of the inverse, [a]: the lower limit of the axis *)
Definition fix_low (p q : ext) (a : R) : ext := if isinf p then (if lt_ext a q then Fin a else q) else p.
(** area_geometry.py:131-138, one component *)
Definition fix_high (p q : ext) (a : R) : ext := if isinf p then (if gt_ext a q then Fin a else q) else p.
(** area_geometry.py:140-142, one component: None if a corner is infinite (the differences are then infinite or not a number) *)
Definition widen (l h : ext) : option (R * R) :=
  match l, h with Fin x, Fin y => Some (x - 5 / 100 * (y - x), y + 5 / 100 * (y - x)) | _, _ => None end.
(** np.linspace(l, h, n), lines 144-145 *)
Definition linspace (l h : R) (n : nat) : list R :=
  match n with 1%nat => [l] | _ => map (fun i => l + INR i * ((h - l) / (INR n - 1))) (seq 0 n) end.
(** lines 147-150: the nodes, the column of y values for each x *)
Definition nodes (xs ys : list R) : list pt := flat_map (fun x => map (fun y => (x, y)) ys) xs.
(** lines 154-178: the values of all nodes *)
Definition node_values (g : geo) (m : fill) (ps : list pt) : result (list (option R)) :=
  match m with
  | FDist => Ok (map (gdist g) ps)
  | FDistInside => Ok (map (fun p => if inside g p then gdist g p else None) ps)
  | FDistOutside => Ok (map (fun p => if negb (inside g p) then gdist g p else None) ps)
  | FInside => Ok (map (fun p => if inside g p then Some 1 else None) ps)
  | FOutside => Ok (map (fun p => if negb (inside g p) then Some 1 else None) ps)
  | FUnknown => Err ValueError
  end.
(** the in-place changes of lines 123-142 as seen by the owner of the array: an entry given by the caller is this very array; infinite values as in numpy *)
Definition shift_low (l h : ext) : ext := match widen l h with Some (x, _) => Fin x | None => NInf end.
(** as above, for p_max *)
Definition shift_high (l h : ext) : ext := match widen l h with Some (_, y) => Fin y | None => PInf end.

Section Draw.
Variables (g : geo) (g_int : bool).   (* g_int: the corners that p_min() and p_max() return are integer arrays *)
Variables (xl yl : R * R).            (* current limits of the axis *)
(** the corners, lines 121-138 *)
Definition corners (d : pars) : (ext * ext) * (ext * ext) * (bool * bool) :=
  let p0 := match k_min d with Some a => a | None => {| a_val := pmin false g; a_int := g_int |} end in
  let p1 := match k_max d with Some a => a | None => {| a_val := pmax false g; a_int := g_int |} end in
  ((fix_low (fst (a_val p0)) (fst (pmin true g)) (fst xl), fix_low (snd (a_val p0)) (snd (pmin true g)) (fst yl)),
   (fix_high (fst (a_val p1)) (fst (pmax true g)) (snd xl), fix_high (snd (a_val p1)) (snd (pmax true g)) (snd yl)),
   (a_int p0, a_int p1)).
(** lines 109-183. Results: the picture, the dictionary afterwards, and the arrays of the caller (p_min, p_max) afterwards. Integer arrays cannot take the float results of line 141 (TypeError);
    an entry N that is left over beside Nx and Ny is no parameter of pcolormesh (AttributeError); pcolormesh rejects nodes that are not finite (ValueError) *)
Definition draw (m : fill) (d : pars) : result picture * pars * (option box * option box) :=
  match take_sizes d with
  | (Err e, d') => (Err e, d', (option_map a_val (k_min d), option_map a_val (k_max d)))
  | (Ok (nx, ny), d') =>
      let d2 := {| k_Nx := k_Nx d'; k_Ny := k_Ny d'; k_N := k_N d'; k_min := None; k_max := None |} in
      let '(lo, hi, (int0, int1)) := corners d in
      let user0 := option_map (fun _ => (shift_low (fst lo) (fst hi), shift_low (snd lo) (snd hi))) (k_min d) in
      if int0 then (Err TypeError, d2, (option_map a_val (k_min d), option_map a_val (k_max d)))
      else if int1 then (Err TypeError, d2, (user0, option_map a_val (k_max d)))
      else
        let user1 := option_map (fun _ => (shift_high (fst lo) (fst hi), shift_high (snd lo) (snd hi))) (k_max d) in
        (match widen (fst lo) (fst hi), widen (snd lo) (snd hi) with
         | Some (x0, x1), Some (y0, y1) =>
             let xs := linspace x0 x1 nx in
             let ys := linspace y0 y1 ny in
             do vs <- node_values g m (nodes xs ys);
             if match k_N d' with Some _ => true | None => false end then Err AttributeError
             else Ok {| px := xs; py := ys; pc := fun i j => nth (i * ny + j) vs None |}
         | _, _ => Err ValueError
         end, d2, (user0, user1))
  end.
End Draw.
