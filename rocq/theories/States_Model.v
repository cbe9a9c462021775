(** Input states: foxes/input/states/{scan,single,states_table}.py, foxes/utils/tab_files.py. Weights and values are reals,
    variables and table columns are numbered. *)
From Verif Require Import RBase.
Local Open Scope R_scope.

(** --- ScanStates (scan.py) --- -- scan.py:39-81: the number of states *)
Definition prodn (l : list nat) : nat := fold_right Nat.mul 1%nat l.
(** index tuple of row r after data.reshape(N, n_v) of a C-ordered array with shape [shp] (73) *)
Fixpoint unravel (shp : list nat) (r : nat) : list nat :=
  match shp with [] => [] | _ :: s => (r / prodn s)%nat :: unravel s (r mod prodn s)%nat end.
(** input/states/scan.py:23-81: the given values of each variable *)
Definition scans := list (list R).
(** input/states/scan.py:39-81 *)
Definition shape (sc : scans) : list nat := map (@length R) sc.
(** _N, 63-64 *)
Definition scan_size (sc : scans) : nat := prodn (shape sc).
(** 67-73: data[k0, ..., i] = d_i[k_i], one row *)
Fixpoint pick (ks : list nat) (sc : scans) : list R :=
  match ks, sc with k :: ks', d :: sc' => nth k d 0 :: pick ks' sc' | _, _ => [] end.
(** input/states/scan.py:67-73 *)
Definition scan_row (sc : scans) (r : nat) : list R := pick (unravel (shape sc) r) sc.
(** 211-213 *)
Definition scan_weight (sc : scans) (r : nat) : R := 1 / INR (scan_size sc).

(** --- SingleStateStates (single.py:120-130, 219-221) --- *)
Definition single_size : nat := 1.
(** input/states/single.py:219-221 *)
Definition single_weight (r : nat) : R := 1.

(** --- StatesTable (states_table.py) --- *)
(** vertical profile specifications in the profiles argument (157-168); [PDict b]: a dict, b tells if it has the key "type" *)
Inductive prof := PStr | PObj | PDict (has_type : bool) | POther.
(** one entry: 158-168. d.pop("type") removes the key from the user's dict *)
Definition init_prof (p : prof) : result prof :=
  match p with
  | PStr => Ok PStr | PObj => Ok PObj
  | PDict true => Ok (PDict false) | PDict false => Err KeyError
  | POther => Err TypeError
  end.
(** input/states/states_table.py:158-168: all entries *)
Fixpoint init_profs (l : list (nat * prof)) : result (list (nat * prof)) :=
  match l with
  | [] => Ok []
  | (v, p) :: l' => do p' <- init_prof p; do r <- init_profs l'; Ok ((v, p') :: r)
  end.

(** input/states/states_table.py:186-265: the data frame *)
Record table := { nrows : nat; column : nat -> option (nat -> R) }.
Section Table.
Variables (t : table) (var2col : nat -> nat) (is_profile : nat -> bool).
(** 248-257: the selected columns; [tvars] is list(set), in any order *)
Fixpoint tcols (tvars : list nat) : result (list (nat -> R)) :=
  match tvars with
  | [] => Ok []
  | v :: l =>
      match column t (var2col v) with
      | Some c => do r <- tcols l; Ok (c :: r)
      | None => if is_profile v then tcols l else Err KeyError
      end
  end.
(** 259-261 and xr.Dataset in core/algorithm.py:378, which requires as many columns as coordinates *)
Definition load (tvars : list nat) : result (list (nat -> R)) :=
  do r <- tcols tvars; if (length r =? length tvars)%nat then Ok r else Err ValueError.
(** calculate (407-427): table variables by position, then fixed variables, then profiles; values at state s *)
Fixpoint assign (tvars : list nat) (cols : list (nat -> R)) (s : nat) (f : nat -> option R) : nat -> option R :=
  match tvars, cols with
  | v :: vs, c :: cs => assign vs cs s (fun u => if (u =? v)%nat then Some (c s) else f u)
  | _, _ => f
  end.
Variables (fixed : nat -> option R) (profile : nat -> R).
(** input/states/states_table.py:407-427 *)
Definition deliver (tvars : list nat) (cols : list (nat -> R)) (s v : nat) : option R :=
  if is_profile v then Some (profile v)
  else match fixed v with Some x => Some x | None => assign tvars cols s (fun _ => None) v end.
End Table.
(** 429-434: weights column or 1/_N *)
Definition table_weight (t : table) (w : option (nat -> R)) (s : nat) : R :=
  match w with Some c => c s | None => 1 / INR (nrows t) end.

(** --- TabStates (states_table.py:546-579) with read_tab_file(normalize=True), tab_files.py:58-60 --- *)
Section Tab.
Variables (nws nwd : nat) (ws_freq : nat -> nat -> R) (wd_freq : nat -> R).
(** utils/tab_files.py:58-60 *)
Definition col_sum (d : nat) : R := rsum (map (fun w => ws_freq w d) (seq 0 nws)).
(** utils/tab_files.py:58-60 *)
Definition wd_sum : R := rsum (map wd_freq (seq 0 nwd)).
(** utils/tab_files.py:58-60 *)
Definition norm_ws (w d : nat) : R := ws_freq w d * (1000 / col_sum d).
(** utils/tab_files.py:58-60 *)
Definition norm_wd (d : nat) : R := wd_freq d * (100 / wd_sum).
(** input/states/states_table.py:546-579 *)
Definition tab_weight (w d : nat) : R := norm_ws w d * (norm_wd d / 100) / 1000.
(** 570-577: row-major selection of the positive weights *)
Definition tab_cells : list (nat * nat) := flat_map (fun w => map (fun d => (w, d)) (seq 0 nwd)) (seq 0 nws).
(** input/states/states_table.py:570-577 *)
Definition tab_states : list (nat * nat) := filter (fun wd => Rltb 0 (tab_weight (fst wd) (snd wd))) tab_cells.
(** input/states/states_table.py:570-577 *)
Definition tab_weights : list R := map (fun wd => tab_weight (fst wd) (snd wd)) tab_states.
(** 554-558: centres of the wind speed bins; [up] are the upper bin limits *)
Definition bin_centre (a : R) (up : nat -> R) (w : nat) : R :=
  0.5 * (a * (match w with O => 0 | S w' => up w' end) + a * up w).
End Tab.
