(** Lookup tables for turbine models (foxes/models/turbine_models/lookup_table.py) and the turbine type that uses them (foxes/models/turbine_types/lookup.py). *)
From Verif Require Import RBase Curves_Model Heights_Model.
Local Open Scope R_scope.

(** --- table with two input variables --- *)
(** lexicographic order of two inputs *)
Definition klt (a b : R * R) : bool := Rltb (fst a) (fst b) || (Reqb (fst a) (fst b) && Rltb (snd a) (snd b)).
(** equal inputs *)
Definition keqb (a b : R * R) : bool := Reqb (fst a) (fst b) && Reqb (snd a) (snd b).
Section Sort.
Context {K : Type} (lt eqb : K -> K -> bool).
(** insertion into a sorted list without repetitions *)
Fixpoint insert_u (k : K) (l : list K) : list K :=
  match l with [] => [k] | a :: l' => if lt k a then k :: l else if eqb k a then l else a :: insert_u k l' end.
(** the different values in ascending order: index levels and index of pandas' pivot_table, lookup_table.py:149 *)
Definition sort_u (l : list K) : list K := fold_right insert_u [] l.
(** unique(), 142-145: the different values in the order of their appearance *)
Fixpoint uniq (l : list K) : list K := match l with [] => [] | a :: l' => a :: filter (fun b => negb (eqb a b)) (uniq l') end.
End Sort.
(** a row of the table: the two inputs and the output value *)
Definition row : Type := (R * R) * R.
(** aggregation by pivot_table: mean of the rows with the same inputs, 149 *)
Definition mean_of (rows : list row) (k : R * R) : R :=
  let vs := map snd (filter (fun r => keqb (fst r) k) rows) in rsum vs / INR (length vs).
(** the loaded data set: coordinates, levels' shape and values *)
Record lookup_data := { xs : list R; ys : list R; vals : list R }.
(** pivot_table's index levels have attribute levshape only for two or more input variables (a MultiIndex), 152-154; [None]: AttributeError *)
Definition levshape (levels : list (list R)) : option (list nat) := match levels with [] | [_] => None | _ => Some (map (@length R) levels) end.
(** load_data, 138-157; None: ValueError of reshape. The sorted rows' inputs in order, 141, may be repeated in the table but not in [sort_u] *)
Definition load (rows : list row) : option lookup_data :=
  let keys := sort_u klt keqb (map fst rows) in
  let lx := sort_u Rltb Reqb (map fst keys) in let ly := sort_u Rltb Reqb (map snd keys) in
  match levshape [lx; ly] with
  | Some [nx; ny] => if Nat.eqb (length keys) (nx * ny)
      then Some {| xs := uniq Reqb (map fst keys); ys := uniq Reqb (map snd keys); vals := map (mean_of rows) keys |} else None
  | _ => None
  end.
(** load_data for one input variable, 138-157: the index is no MultiIndex; None: an exception *)
Definition load1 (rows : list (R * R)) : option (list R * list R) :=
  let keys := sort_u Rltb Reqb (map fst rows) in
  match levshape [keys] with Some [n] => if Nat.eqb (length keys) n then Some (uniq Reqb keys, map (fun k => mean_of (map (fun r => ((fst r, 0), snd r)) rows) (k, 0)) keys) else None | _ => None end.
(** entry of the array after reshape *)
Definition entry (d : lookup_data) (i j : nat) : R := nth (i * length (ys d) + j) (vals d) 0.
(** row i of the array *)
Definition entries (d : lookup_data) (i : nat) : list R := map (entry d i) (seq 0 (length (ys d))).
(** linear interpolation in both inputs, 217-220; None: ValueError (bounds_error=True). At a grid point scipy uses the cell above instead of the one below
    (Heights_Model.cell), with the same result *)
Definition lookup (d : lookup_data) (x y : R) : option R :=
  match height_weights true (xs d) x, height_weights true (ys d) y with
  | Some wx, Some wy => Some (wsum wx (map (fun i => wsum wy (entries d i)) (seq 0 (length (xs d)))))
  | _, _ => None
  end.

(** --- turbine type --- *)
(** out[v][st_sel] = values, lookup_table.py:241-242; entries are the pairs (state, turbine) *)
Fixpoint masked (sel : list bool) (new old : list R) : list R :=
  match sel, new, old with b :: sel', x :: new', y :: old' => (if b then x else y) :: masked sel' new' old' | _, _, _ => [] end.
(** memory of numpy arrays: the array P of the farm data is at address 0, CT at address 1 *)
Definition heap := nat -> list R.
(** array assignment *)
Definition store (h : heap) (a : nat) (l : list R) : heap := fun b => if Nat.eqb b a then l else h b.
(** LookupTable.calculate, lookup_table.py:192-244, called with wind speeds [ws]: P and CT are written in place into the farm data's arrays; the returned arrays are
    these (turbine_types/lookup.py:263-264 puts the same arrays into fdata_lookup). [tabP], [tabCT]: the tables for each entry's other inputs *)
Definition lookup_calc (tabP tabCT : nat -> R -> R) (sel : list bool) (ws : list R) (h : heap) : heap * (nat * nat) :=
  let new tab := map (fun i => tab i (nth i ws 0)) (seq 0 (length ws)) in
  (store (store h 0 (masked sel (new tabP) (h 0%nat))) 1 (masked sel (new tabCT) (h 1%nat)), (0%nat, 1%nat)).
(** wind speeds for thrust and power of one entry, turbine_types/lookup.py:266-304: [wsct], [wsp] are the values of variables var_ws_ct and var_ws_P;
    [rho]: density of the type and of the air; [cosm]: cosine of yaw misalignment; exponents *)
Definition rews_ct (wsct : R) (cosm : option R) (p_ct : option R) : R :=
  match cosm, p_ct with Some c, Some p => wsct * yaw_factor c p (1 / 2) | _, _ => wsct end.
(** turbine_types/lookup.py:270, 281-282, 302-303 *)
Definition rews_P (wsp : R) (rho : option (R * R)) (cosm : option R) (p_P : option R) : R :=
  let w := match rho with Some (r0, r) => wsp * rho_factor r0 r | None => wsp end in
  match cosm, p_P with Some c, Some p => w * yaw_factor c p (1 / 3) | _, _ => w end.
(** calculate, turbine_types/lookup.py:306-316: [corrected]: some correction or wind speed variables other than REWS; result arrays P and CT *)
Definition type_calc (tabP tabCT : nat -> R -> R) (sel : list bool) (corrected : bool) (rews rews2 rews3 : list R) (h : heap) : list R * list R :=
  if corrected then
    let '(h1, (_, ct)) := lookup_calc tabP tabCT sel rews2 h in
    let '(h2, (p, _)) := lookup_calc tabP tabCT sel rews3 h1 in (h2 p, h2 ct)
  else let '(h1, (p, ct)) := lookup_calc tabP tabCT sel rews h in (h1 p, h1 ct).
(** initialize, turbine_types/lookup.py:187-190: nominal power from the table's column of power; [varmap]: column of each variable, [names]: variables of the table (the data
    set has their names, lookup_table.py:138-157); None: KeyError *)
Definition nominal (varmap : nat -> nat) (names : list nat) (data : nat -> list R) (P : nat) : option R :=
  if existsb (Nat.eqb (varmap P)) names then Some (fold_right Rmax (nth 0 (data (varmap P)) 0) (data (varmap P))) else None.
