(** Stacks of slices: foxes/output/slices_data.py (SlicesData) on top of foxes/output/slice_data.py and foxes/output/grids.py. Names of axes and variables are numbers; the axes of a slice are
    [na], [nb], the third axis (the position of the slice) is [nc]; FC.STATE is the name [st]. *)
From Verif Require Import RBase.
From Coq Require Import List.
Import ListNotations.
Local Open Scope R_scope.

(** a_pos /= normalize_a, slice_data.py:69-74 *)
Definition norm (n : option R) (x : R) : R := match n with Some q => x / q | None => x end.
(** Arguments of the get functions: normalisations of the three axes, label_map (names without an entry are unchanged), variables *)
Record args := { n_a : option R; n_b : option R; n_c : option R; lmap : nat -> nat; vars : list nat }.
(** A slice in xarray format: names and coordinates of both axes, the attribute (name and value), the name and the values of each variable, indexed by state, b and a.
    Mean data has the single state 0 *)
Record slice := { s_a : nat * list R; s_b : nat * list R; s_attr : nat * R; s_data : list (nat * (nat -> nat -> nat -> R)) }.
(** np2xr_p (grids.py:607-644) and np2xr_sp (647-692) after _data_mod (slice_data.py:55-84): [field v s c b a] is the value of variable v in state s at the point with coordinates c, b, a.
    Names of variables are mapped for the data of states (686), not for means (641). Normalisation of values and limits are left out (Grid_Model.mod_value) *)
Definition get_slice (mean : bool) (field : nat -> nat -> R -> R -> R -> R) (na nb nc : nat) (apos bpos : list R) (x : args) (c : R) : slice :=
  {| s_a := (lmap x na, map (norm (n_a x)) apos); s_b := (lmap x nb, map (norm (n_b x)) bpos); s_attr := (lmap x nc, norm (n_c x) c);
     s_data := map (fun v => (if mean then v else lmap x v, fun s j i => field v s c (nth j bpos 0) (nth i apos 0))) (vars x) |}.
(** A stack: the name and the coordinates of the third axis, those of the others, the variables indexed by position, state, b and a *)
Record stack := { t_c : nat * list R; t_a : nat * list R; t_b : nat * list R; t_data : list (nat * (nat -> nat -> nat -> nat -> R)) }.
(** slices_data.py:76-93 (and 122-139, 168-185, 214-231, 260-277, 306-323): one slice per position, xr.concat along the new axis [nc] with the given positions as index, and del out.attrs[nc];
    ValueError without slices, KeyError if the attribute has another name. The data of states is transposed to (FC.STATE, nc, ...), ValueError if the axis of states has another name.
    All slices have the same coordinates and variables, so that xr.concat is the combination of arrays *)
Definition get_stack (mean : bool) (st : nat) (field : nat -> nat -> R -> R -> R -> R) (na nb nc : nat) (apos bpos : list R) (x : args) (cs : list R) : result stack :=
  let sl := map (get_slice mean field na nb nc apos bpos x) cs in
  match sl with
  | [] => Err ValueError
  | s0 :: _ =>
      if Nat.eqb (fst (s_attr s0)) nc then
        if mean || Nat.eqb (lmap x st) st then
          Ok {| t_c := (nc, cs); t_a := s_a s0; t_b := s_b s0;
                t_data := map (fun k => (fst (nth k (s_data s0) (0%nat, fun _ _ _ => 0)),
                                fun p => snd (nth k (s_data (nth p sl s0)) (0%nat, fun _ _ _ => 0)))) (seq 0 (length (s_data s0))) |}
        else Err ValueError
      else Err KeyError
  end.
(** The file of the argument to_file after the call (slice_data.py:189, written for each slice, write_nc overwrites) *)
Definition file_after (sl : list slice) : option slice := fold_left (fun _ s => Some s) sl None.
(** ret_grid=True (slice_data.py:332-335): the grid data after the in-place division of the coordinate arrays (69-72); the position c is a number and the points are another array *)
Definition ret_grid (apos bpos : list R) (c : R) (x : args) (point : R -> R -> R -> R * R * R) : list R * list R * R * list (R * R * R) :=
  (map (norm (n_a x)) apos, map (norm (n_b x)) bpos, c, flat_map (fun a => map (fun b => point c b a) bpos) apos).
