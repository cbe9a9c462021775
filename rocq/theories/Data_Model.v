(** Data containers (foxes/core/data.py). Only the base class: FData and TData run the same code and then reject more. *)
From Coq Require Export String.
From Verif Require Import RBase.
Local Open Scope R_scope.
Local Notation length := List.length.

(** numpy arrays: a shape and the entries as function of the index tuple (element type not modelled) -- core/data.py:29-69: an array with its shape *)
Record arr := { shp : list nat; val : list nat -> R }.
(** python dictionaries in insertion order -- dict access, core/data.py:29-246 *)
Fixpoint lookup {A} (k : string) (l : list (string * A)) : option A :=
  match l with [] => None | (k', v) :: l' => if (k =? k')%string then Some v else lookup k l' end.
(** dict assignment, core/data.py:29-246 *)
Fixpoint store {A} (k : string) (v : A) (l : list (string * A)) : list (string * A) :=
  match l with [] => [(k, v)] | (k', v') :: l' => if (k =? k')%string then (k, v) :: l' else (k', v') :: store k v l' end.
(** the object: array and dimension names (or None) under each key, sizes, loop dimensions. Simplification: the dicts `self`
    and `self.dims` have the same keys. -- core/data.py:29-69: the entries, their dims, the sizes and loop dims *)
Record data := { ents : list (string * (arr * option (list string))); sizes : list (string * nat); loops : list string }.
(** core/data.py:169-186: self[name] = data; self.dims[name] = dims *)
Definition set_entry (d : data) (k : string) (a : arr) (dm : option (list string)) : data :=
  {| ents := store k (a, dm) (ents d); sizes := sizes d; loops := loops d |}.

(** np.squeeze(data, axis=li) -- core/data.py:151-167: index arithmetic of np.squeeze *)
Fixpoint insert0 (i : nat) (l : list nat) : list nat :=
  match i, l with O, _ => O :: l | S i', x :: l' => x :: insert0 i' l' | S _, [] => [O] end.
(** core/data.py:158: shape after np.squeeze *)
Fixpoint remove_nth (i : nat) (l : list nat) : list nat :=
  match i, l with _, [] => [] | O, _ :: l' => l' | S i', x :: l' => x :: remove_nth i' l' end.
(** core/data.py:158: np.squeeze(data, axis=li) *)
Definition squeeze (a : arr) (li : nat) : arr := {| shp := remove_nth li (shp a); val := fun idx => val a (insert0 li idx) |}.
(** data.py:144-146: each matching axis is squeezed from the original array; [cur] is self[name] *)
Fixpoint squeeze_loop (a : arr) (dims : list string) (li : nat) (loop : list string) (cur : arr) : arr * option pyerr :=
  match loop with
  | [] => (cur, None)
  | l :: loop' =>
    match nth_error (shp a) li with
    | None => (cur, Some IndexError)
    | Some n =>
      let other := match nth_error dims li with None => true | Some c => negb (c =? l)%string end in
      squeeze_loop a dims (S li) loop' (if (n =? 1)%nat && other then squeeze a li else cur)
    end
  end.
(** data.py:147-155 *)
Fixpoint check_dims (sz : list (string * nat)) (sh : list nat) (dims : list string) {struct dims} : list (string * nat) * option pyerr :=
  match dims with
  | [] => (sz, None)
  | c :: dims' =>
    match sh with
    | [] => (sz, Some IndexError)
    | n :: sh' =>
      match lookup c sz with
      | None => check_dims (store c n sz) sh' dims'
      | Some m => if (m =? 1)%nat then check_dims (store c n sz) sh' dims'
                  else if (n =? 1)%nat then check_dims sz sh' dims'
                  else if (m =? n)%nat then check_dims sz sh' dims' else (sz, Some ValueError)
      end
    end
  end.
(** _run_entry_checks, data.py:139-155; the state is changed also if an error is raised *)
Definition entry_checks (d : data) (name : string) (a : arr) (dims : option (list string)) : data * option pyerr :=
  match dims with
  | None => (d, None)
  | Some ds =>
    let '(cur, e) := if (length ds =? length (shp a))%nat then (a, None) else squeeze_loop a ds 0 (loops d) a in
    let d1 := set_entry d name cur (Some ds) in
    match e with
    | Some e => (d1, Some e)
    | None => let '(sz, e) := check_dims (sizes d) (shp cur) ds in ({| ents := ents d1; sizes := sz; loops := loops d |}, e)
    end
  end.

(** foxes/variables.py:1 (X) *)
Definition nX := "X"%string.
(** foxes/variables.py:6 (Y) *)
Definition nY := "Y"%string.
(** foxes/variables.py:11 (H) *)
Definition nH := "H"%string.
(** foxes/variables.py:21 (TXYH) *)
Definition nTXYH := "txyh"%string.
(** foxes/constants.py:1 (XYH) *)
Definition nXYH := "xyh"%string.
(** np.arange(n) -- core/data.py:145-148: np.arange *)
Definition arange (n : nat) : arr := {| shp := [n]; val := fun idx => match idx with [i] => INR i | _ => 0 end |}.
(** np.stack([x, y, h], axis=-1) of equal shapes *)
Definition stack3 (x y h : arr) : arr :=
  {| shp := shp x ++ [3%nat];
     val := fun idx => val (match last idx O with O => x | S O => y | _ => h end) (removelast idx) |}.
(** core/data.py:127-140: shapes of X, Y, H agree *)
Definition same_shape (a b : arr) : bool := if list_eq_dec Nat.eq_dec (shp a) (shp b) then true else false.
(** core/data.py:127-140: dims of X, Y, H agree *)
Definition same_dims (a b : option (list string)) : bool :=
  match a, b with None, None => true | Some x, Some y => if list_eq_dec string_dec x y then true else false | _, _ => false end.
(** _auto_update, first part (data.py:117-131). The entries X, Y, H become views on the new array, with the same values. *)
Definition update_txyh (d : data) : data * option pyerr :=
  match lookup nTXYH (ents d), lookup nX (ents d), lookup nY (ents d), lookup nH (ents d) with
  | None, Some (x, dx), Some (y, dy), Some (h, dh) =>
    if same_dims dx dy && same_dims dx dh then
      if same_shape x y && same_shape x h then
        match dx with
        | Some ds => (set_entry d nTXYH (stack3 x y h) (Some (ds ++ [nXYH])), None)
        | None => (d, Some TypeError)
        end
      else (d, Some ValueError)
    else (d, None)
  | _, _, _, _ => (d, None)
  end.
(** second part (133-141): coordinates for dimensions that have a size but no entry *)
Definition add_coord (d : data) (c : string) : data :=
  match lookup c (ents d), lookup c (sizes d) with
  | None, Some n => set_entry d c (arange n) (Some [c])
  | _, _ => d
  end.
(** core/data.py:142-149: the dimension names in use *)
Definition all_dims (d : data) : list string := flat_map (fun e => match snd (snd e) with Some ds => ds | None => [] end) (ents d).
(** core/data.py:121-149 *)
Definition auto_update (d : data) : data * option pyerr :=
  match update_txyh d with
  | (d1, Some e) => (d1, Some e)
  | (d1, None) => (fold_left add_coord (all_dims d1) d1, None)
  end.
(** add, data.py:157-172 *)
Definition add (d : data) (name : string) (a : arr) (dims : option (list string)) : data * option pyerr :=
  match entry_checks (set_entry d name a dims) name a dims with
  | (d1, Some e) => (d1, Some e)
  | (d1, None) => auto_update d1
  end.
(** __init__, data.py:58-69, of a dict (no key twice) *)
Fixpoint init_checks (d : data) (items : list (string * (arr * option (list string)))) : data * option pyerr :=
  match items with
  | [] => (d, None)
  | (k, (a, dm)) :: items' => match entry_checks d k a dm with (d1, Some e) => (d1, Some e) | (d1, None) => init_checks d1 items' end
  end.
(** core/data.py:29-69 *)
Definition init (items : list (string * (arr * option (list string)))) (loop : list string) : data * option pyerr :=
  match init_checks {| ents := items; sizes := []; loops := loop |} items with
  | (d, Some e) => (d, Some e)
  | (d, None) => auto_update d
  end.
(** a program that calls add repeatedly and stops at the first exception -- core/data.py:169-186 repeatedly *)
Fixpoint adds (d : data) (l : list (string * (arr * option (list string)))) : option data :=
  match l with
  | [] => Some d
  | (k, (a, dm)) :: l' => match add d k a dm with (d1, None) => adds d1 l' | (_, Some _) => None end
  end.

(** get_slice, the state counter of the result (data.py:214-227): [i0] the counter of the container, [n] its number of
    states, [sel] the selected positions (a slice or an index array, already resolved to a list by numpy). *)
Definition slice_i0 (i0 n : nat) (sel : list nat) : result nat :=
  if forallb (fun i => (i <? n)%nat) sel then
    match map (fun i => (i0 + i)%nat) sel with
    | [] => Err IndexError
    | s0 :: l => if forallb (fun p => (fst p =? snd p)%nat) (combine (s0 :: l) (seq s0 (length (s0 :: l)))) then Ok s0 else Err ValueError
    end
  else Err IndexError.
