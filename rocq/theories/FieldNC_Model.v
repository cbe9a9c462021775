(** Wind fields from NetCDF files (foxes/input/states/field_data_nc.py): the selected window, the variables' slots, reading of files chunk by chunk, and
    interpolation of NaN values. *)
From Verif Require Import RBase.
Local Open Scope R_scope.

(** --- window --- *)
(** np.min and np.max of turbine coordinates, core/wind_farm.py:122-123 (no farm boundary) *)
Definition lmin (x : R) (l : list R) : R := fold_right Rmin x l.
(** core/wind_farm.py:122-123 *)
Definition lmax (x : R) (l : list R) : R := fold_right Rmax x l.
(** farm: the first turbine's position and the others' *)
Definition farm : Type := (R * R) * list (R * R).
(** get_xy_bounds with extra space in m, core/wind_farm.py:98-145: xy_min, xy_max *)
Definition get_xy_bounds (e : R) (f : farm) : (R * R) * (R * R) :=
  ((lmin (fst (fst f)) (map fst (snd f)) - e, lmin (snd (fst f)) (map snd (snd f)) - e),
   (lmax (fst (fst f)) (map fst (snd f)) + e, lmax (snd (fst f)) (map snd (snd f)) + e)).
(** slices for x and y *)
Definition window : Type := (R * R) * (R * R).
(** 379-393: self.sel; an existing selection is kept *)
Definition update_sel (e : R) (f : farm) (sel : option window) : window :=
  match sel with
  | Some w => w
  | None => let '(mn, mx) := get_xy_bounds e f in ((fst mn, snd mx), (snd mn, snd mx))
  end.
(** xarray's sel with a slice on an ascending coordinate, 38-39 *)
Definition select (s : R * R) (coords : list R) : list R := filter (fun c => Rleb (fst s) c && Rleb c (snd s)) coords.

(** xarray's sel with a slice on a descending coordinate, 38-39 (pandas: from the first label at most the start to the last one at least the stop) *)
Definition select_desc (s : R * R) (coords : list R) : list R := filter (fun c => Rleb c (fst s) && Rleb (snd s) c) coords.

(** --- variables --- *)
(** output variables *)
Inductive var := WD | WS | Other (k : nat).
(** equality of names *)
Definition veqb (a b : var) : bool := match a, b with WD, WD | WS, WS => true | Other i, Other j => Nat.eqb i j | _, _ => false end.
(** v in list *)
Definition vin (v : var) (l : list var) : bool := existsb (veqb v) l.
(** var2ncvar, 180-182 ([fixed]: names in fixed_vars); the names in ovars are distinct *)
Definition var2nc (ovars fixed : list var) : list var := filter (fun v => negb (vin v fixed)) ovars.
(** _dkys, 463-472: names in the order of their slots *)
Definition dkys (ovars fixed : list var) : list var :=
  let d0 := if vin WS ovars then [WD] else [] in
  let d1 := if vin WS (var2nc ovars fixed) then d0 ++ [WS] else d0 in
  fold_left (fun d v => if vin v d then d else d ++ [v]) (var2nc ovars fixed) d1.
(** self._dkys[v] *)
Fixpoint slot (d : list var) (v : var) : option nat :=
  match d with [] => None | u :: d' => if veqb v u then Some O else match slot d' v with Some i => Some (S i) | None => None end end.
(** python exceptions, or success *)
Inductive status := Fine | IndexErr | KeyErr.
(** 258-286: slots are written in an array with len(var2ncvar) of them *)
Definition store_slot (d : list var) (n : nat) (v : var) : status :=
  match slot d v with None => KeyErr | Some i => if Nat.ltb i n then Fine else IndexErr end.
(** first failure *)
Definition andthen (a b : status) : status := match a with Fine => b | _ => a end.
(** _get_data, 258-286 *)
Definition get_data (ovars fixed : list var) : status :=
  let d := dkys ovars fixed in let n := length (var2nc ovars fixed) in
  andthen (fold_left (fun s v => andthen s (store_slot d n v)) (var2nc ovars fixed) Fine)
    (if vin WD fixed then store_slot d n WD else Fine).
(** calculate, 725-735: both slots are needed *)
Definition use_data (ovars fixed : list var) : status :=
  if vin WD ovars && vin WS ovars then
    match slot (dkys ovars fixed) WD, slot (dkys ovars fixed) WS with Some _, Some _ => Fine | _, _ => KeyErr end
  else Fine.
(** loading and calculation with the given output variables and fixed variables *)
Definition run_vars (ovars fixed : list var) : status := andthen (get_data ovars fixed) (use_data ovars fixed).

(** --- files --- *)
Section Files.
Context {A : Type}.
(** states i0, ..., i1 - 1 of a list *)
Definition slice (i0 i1 : nat) (l : list A) : list A := firstn (i1 - i0) (skipn i0 l).
(** load modes preload and lazy: the files' states are put together (with the selection [isel] of states in each file), then the chunk is taken, 432-444, 657-671 *)
Definition read_all (isel : list A -> list A) (files : list (list A)) : list A := concat (map isel files).
(** load mode preload or lazy: the data of a chunk *)
Definition chunk_preload (isel : list A -> list A) (files : list (list A)) (i0 i1 : nat) : list A := slice i0 i1 (read_all isel files).
(** number of states in load mode fly, 31-32, 447-451 *)
Definition n_states_fly (files : list (list A)) : nat := length (concat files).
(** load mode fly, 679-707: returns the data and the final i0 *)
Fixpoint fly_loop (files : list (list A)) (j0 i0 i1 : nat) : list A * nat :=
  match files with
  | [] => ([], i0)
  | f :: rest =>
      if Nat.ltb i0 j0 then ([], i0)
      else
        let j1 := (j0 + length f)%nat in
        if Nat.ltb i0 j1 then
          let a := (i0 - j0)%nat in let b := (Nat.min i1 j1 - j0)%nat in
          let '(d, e) := fly_loop rest j1 (i0 + (b - a)) i1 in (slice a b f ++ d, e)
        else fly_loop rest j1 i0 i1
  end.
(** 709-713; None: the assertion fails *)
Definition chunk_fly (files : list (list A)) (i0 i1 : nat) : option (list A) :=
  let '(d, e) := fly_loop files 0 i0 i1 in if Nat.eqb e i1 then Some d else None.
End Files.

(** --- NaN --- *)
(** distance to and value of the next number *)
Fixpoint next_num (l : list (option R)) : option (nat * R) :=
  match l with [] => None | Some x :: _ => Some (O, x) | None :: l' => match next_num l' with Some (k, x) => Some (S k, x) | None => None end end.
(** pandas interpolate(method="linear", limit_direction="forward"), 763-765; [last]: distance to and value of the last number *)
Fixpoint interp_forward (last : option (nat * R)) (l : list (option R)) : list (option R) :=
  match l with
  | [] => []
  | Some x :: l' => Some x :: interp_forward (Some (1%nat, x)) l'
  | None :: l' =>
      match last with
      | None => None
      | Some (k, x) => match next_num l' with
                       | Some (m, y) => Some (x + (y - x) * INR k / (INR k + INR m + 1))
                       | None => Some x end
      end :: interp_forward (match last with Some (k, x) => Some (S k, x) | None => None end) l'
  end.
(** limit_direction="backward", 766-768, after the forward step: only leading NaN values are left *)
Fixpoint fill_leading (l : list (option R)) : list (option R) :=
  match l with
  | [] => []
  | Some x :: l' => l
  | None :: l' => match next_num l' with Some (_, y) => Some y | None => None end :: fill_leading l'
  end.
(** 753-769, one variable: the values of a chunk of states, state by state *)
Definition interp_nans (l : list (option R)) : list (option R) := fill_leading (interp_forward None l).
(** values of the chunk's states, [n] per state: state s *)
Definition state_values (n s : nat) (l : list (option R)) : list (option R) := firstn n (skipn (s * n) l).
