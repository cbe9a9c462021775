(** Writing farm results to files (foxes/output/results_writer.py, foxes/utils/pandas_utils.py). *)
From Verif Require Import Base.
From Coq Require Import String.
Local Open Scope nat_scope.

(** names of columns: constants.py:11,21,26; the names pandas gives to a plain index; variables; columns of a state-turbine table (the text f"{v}_T{t:04d}" or f"{v}_{t}" is taken as the pair) *)
Inductive name := STATE | TURBINE | TNAME | INDEX | LEVEL0 | V (n : nat) | Tcol (v : name) (t : val)
(** a cell: integer label, text, or a float given by its bits *)
with val := Lab (z : Z) | Txt (s : string) | Num (bits : Z).

(** equality of cells *)
Definition val_eqb (a b : val) : bool :=
  match a, b with Lab x, Lab y => Z.eqb x y | Txt x, Txt y => String.eqb x y | Num x, Num y => Z.eqb x y | _, _ => false end.
(** order of cells, as used by groupby; columns with mixed types do not occur *)
Definition val_leb (a b : val) : bool :=
  match a, b with Lab x, Lab y => Z.leb x y | Txt x, Txt y => String.leb x y | Num x, Num y => Z.leb x y | Lab _, _ => true | Txt _, Num _ => true | _, _ => false end.
(** equality of names *)
Fixpoint name_eqb (a b : name) : bool :=
  match a, b with
  | STATE, STATE | TURBINE, TURBINE | TNAME, TNAME | INDEX, INDEX | LEVEL0, LEVEL0 => true
  | V n, V m => Nat.eqb n m
  | Tcol v t, Tcol w u => name_eqb v w && val_eqb t u
  | _, _ => false
  end.
(** membership *)
Definition has (n : name) (l : list name) : bool := existsb (name_eqb n) l.

(** pandas.DataFrame: index levels, columns, number of rows; without index levels it has the plain range index *)
Record frame := { idx : list (name * list val); cols : list (name * list val); nrow : nat }.
(** column by name *)
Fixpoint get (n : name) (l : list (name * list val)) : option (list val) :=
  match l with [] => None | (m, c) :: r => if name_eqb n m then Some c else get n r end.
(** all of a list of options *)
Fixpoint all_some {A} (l : list (option A)) : option (list A) :=
  match l with [] => Some [] | None :: _ => None | Some a :: r => match all_some r with Some q => Some (a :: q) | None => None end end.
(** several columns by name; None: KeyError *)
Definition gets (ns : list name) (l : list (name * list val)) : option (list (name * list val)) :=
  all_some (map (fun n => match get n l with Some c => Some (n, c) | None => None end) ns).
(** data[list of names]; None: KeyError *)
Definition select (ns : list name) (f : frame) : option frame :=
  match gets ns (cols f) with Some c => Some {| idx := idx f; cols := c; nrow := nrow f |} | None => None end.
(** new name *)
Definition rename1 (d : list (name * name)) (n : name) : name := match find (fun p => name_eqb n (fst p)) d with Some p => snd p | None => n end.
(** DataFrame.rename(d, axis=1) *)
Definition rename (d : list (name * name)) (f : frame) : frame :=
  {| idx := idx f; cols := map (fun p => (rename1 d (fst p), snd p)) (cols f); nrow := nrow f |}.
(** DataFrame.rename_axis(index=d) *)
Definition rename_axis (d : list (name * name)) (f : frame) : frame :=
  {| idx := map (fun p => (rename1 d (fst p), snd p)) (idx f); cols := cols f; nrow := nrow f |}.
(** DataFrame.reset_index(); the index becomes columns, in front; None: a column of this name exists *)
Definition reset (f : frame) : option frame :=
  let cn := map fst (cols f) in
  let new := match idx f with
             | [] => [(if has INDEX cn then LEVEL0 else INDEX, map (fun i => Lab (Z.of_nat i)) (seq 0 (nrow f)))]
             | l => l end in
  if existsb (fun p => has (fst p) cn) new then None else Some {| idx := []; cols := (new ++ cols f)%list; nrow := nrow f |}.
(** number of columns with this name *)
Definition mult (n : name) (l : list name) : nat := List.length (filter (name_eqb n) l).
(** DataFrame.set_index(keys); None: a key is missing or not unique *)
Definition set_index (ks : list name) (f : frame) : option frame :=
  if forallb (fun k => Nat.eqb (mult k (map fst (cols f))) 1) ks
  then match gets ks (cols f) with
       | Some i => Some {| idx := i; cols := filter (fun p => negb (has (fst p) ks)) (cols f); nrow := nrow f |}
       | None => None end
  else None.

(** the argument variables: None, a list, a dict *)
Inductive vars := All | Keys (l : list name) | Ren (d : list (name * name)).
(** the data frame obtained is self.data itself, or a new one *)
Inductive target := Same (f : frame) | New (f : frame).
(** the frame *)
Definition the (t : target) : frame := match t with Same f => f | New f => f end.
(** ResultsWriter._get_data_vars, results_writer.py:52-69; also the argument after the call *)
Definition get_data_vars (self : frame) (v : vars) : vars * option target :=
  match v with
  | All => (All, Some (Same self))
  | Keys l => (v, match select l self with Some f => Some (New f) | None => None end)
  | Ren d =>
      let inds := filter (fun p => has (fst p) (map fst (idx self))) d in
      let rest := filter (fun p => negb (has (fst p) (map fst (idx self)))) d in
      (Ren rest,
       match (if (0 <? List.length rest) then match select (map fst rest) self with Some f => Some (New (rename rest f)) | None => None end else Some (Same self)) with
       | None => None
       | Some t => if (0 <? List.length inds) then Some (New (rename_axis inds (the t))) else Some t
       end)
  end.

(** rows of a group *)
Definition sel_rows (k : list bool) (c : list val) : list val := map snd (filter fst (combine k c)).
(** dict keys: distinct values in order of appearance *)
Definition distinct (c : list val) : list val := fold_left (fun acc t => if existsb (val_eqb t) acc then acc else acc ++ [t])%list c [].
(** smallest value: the first group of groupby *)
Definition smallest (c : list val) : option val :=
  match c with [] => None | x :: r => Some (fold_left (fun m t => if val_leb m t then m else t) r x) end.
(** state-turbine table, results_writer.py:111-132; None: an error. A group with another number of rows is an error of the column assignment. Without rows the loop does not run and odata is undefined (NameError) *)
Definition table (tix v : name) (f : frame) : option frame :=
  match get tix (cols f), get STATE (cols f), get v (cols f) with
  | Some tc, Some sc, Some vc =>
      match smallest tc with
      | None => None
      | Some t0 =>
          let rows t := map (val_eqb t) tc in
          let i0 := sel_rows (rows t0) sc in
          let ts := distinct tc in
          if forallb (fun t => Nat.eqb (List.length (sel_rows (rows t) vc)) (List.length i0)) ts
          then Some {| idx := [(STATE, i0)]; cols := map (fun t => (Tcol v t, sel_rows (rows t) vc)) ts; nrow := List.length i0 |}
          else None
      end
  | _, _, _ => None
  end.

(** outcome of a call: self.data afterwards, the argument afterwards, and the table written to the file (None: an exception) *)
Record outcome := { self' : frame; vars' : vars; file : option frame }.
(** ResultsWriter.write_csv, results_writer.py:71-136 *)
Definition write_csv (self : frame) (v : vars) (turbine_names state_turbine_table : bool) : outcome :=
  let (v', t) := get_data_vars self v in
  match t with
  | None => {| self' := self; vars' := v'; file := None |}
  | Some t =>
      let variables := map fst (cols (the t)) in
      match reset (the t) with
      | None => {| self' := self; vars' := v'; file := None |}
      | Some f =>
          let upd g := match t with Same _ => g | New _ => self end in
          let tix := if turbine_names then TNAME else TURBINE in
          if state_turbine_table
          then {| self' := upd f; vars' := v'; file := match variables with [w] => table tix w f | _ => None end |}
          else match set_index [STATE; tix] f with
               | Some g => {| self' := upd g; vars' := v'; file := Some g |}
               | None => {| self' := upd f; vars' := v'; file := None |}
               end
      end
  end.

(** ResultsWriter.write_nc, results_writer.py:138-188, without turbine_names: states, number of turbines, and the matrices; None: an error. self.data is not changed *)
Definition write_nc (self : frame) (v : vars) : option (list val * nat * list (name * list (list val))) :=
  match snd (get_data_vars self v) with
  | None => None
  | Some t =>
      match idx (the t) with
      | (_, i0) :: (_, i1) :: _ =>
          let st := distinct i0 in
          let n := List.length st in
          let m := List.length (distinct i1) in
          if forallb (fun p => Nat.eqb (List.length (snd p)) (n * m)) (cols (the t))
          then Some (st, m, map (fun p => (fst p, map (fun s => map (fun t => nth (s * m + t) (snd p) (Num 0)) (seq 0 m)) (seq 0 n))) (cols (the t)))
          else None
      | _ => None
      end
  end.

(** coordinates with turbine_names, results_writer.py:171-174: the names in the rows of the state with label 0; None: KeyError *)
Definition nc_names (self : frame) : option (list val) :=
  match idx self, get TNAME (cols self) with
  | (_, i0) :: _, Some c => match sel_rows (map (val_eqb (Lab 0)) i0) c with [] => None | l => Some l end
  | _, _ => None
  end.

(** ResultsWriter.__init__, results_writer.py:39-44: farm results (labels of the states, number of turbines, names, variables) as data frame, rows ordered by state, then turbine *)
Record farm_results := { labels : list val; nturb : nat; tnames : nat -> string; fvars : list (nat * (nat -> nat -> Z)) }.
(** row-major list over states and turbines *)
Definition flat {A} (n m : nat) (f : nat -> nat -> A) : list A := flat_map (fun s => map (f s) (seq 0 m)) (seq 0 n).
(** the data frame *)
Definition init (r : farm_results) : frame :=
  let n := List.length (labels r) in
  {| idx := [(STATE, flat n (nturb r) (fun s _ => nth s (labels r) (Lab 0))); (TURBINE, flat n (nturb r) (fun _ t => Lab (Z.of_nat t)))];
     cols := (map (fun p => (V (fst p), flat n (nturb r) (fun s t => Num (snd p s t)))) (fvars r) ++ [(TNAME, flat n (nturb r) (fun _ t => Txt (tnames r t)))])%list;
     nrow := n * nturb r |}.

(** PandasFileHelper.write_file, pandas_utils.py:122-175 *)
Inductive pywriter := to_csv | to_hdf | to_netcdf.
(** file name after the first dot, as the list of its parts; 153-155 *)
Definition suffix (parts : list string) : string := String.concat "." (tl parts).
(** the writing function, 156-164; the loop over the formats is left in its first round, with format csv *)
Definition writer_of (sfx : string) : option pywriter :=
  if String.eqb (substring 0 3 sfx) "csv" then Some to_csv else if String.eqb sfx "h5" then Some to_hdf else if String.eqb sfx "nc" then Some to_netcdf else None.
(** dict.update *)
Fixpoint update {A} (d : list (string * A)) (u : list (string * A)) : list (string * A) :=
  match u with [] => d | (k, x) :: r => update (if existsb (fun p => String.eqb k (fst p)) d then map (fun p => if String.eqb k (fst p) then (k, x) else p) d else (d ++ [(k, x)])%list) r end.
(** one call: the class-level parameters of the first format (csv) before and after, and what is called (None: KeyError); 165-171 *)
Definition write_file {A} (defaults : list (string * A)) (parts : list string) (kwargs : list (string * A)) : list (string * A) * option (pywriter * list (string * A)) :=
  match writer_of (suffix parts) with
  | Some w => let p := update defaults kwargs in (p, Some (w, p))
  | None => (defaults, None)
  end.
(** the pandas function exists, and its required argument is given: DataFrame.to_hdf needs key, DataFrame.to_netcdf does not exist *)
Definition callable {A} (c : pywriter * list (string * A)) : bool :=
  match c with (to_csv, _) => true | (to_hdf, p) => existsb (fun q => String.eqb "key" (fst q)) p | (to_netcdf, _) => false end.
(** a history of calls *)
Definition history {A} (calls : list (list string * list (string * A))) : list (string * A) := fold_left (fun d c => fst (write_file d (fst c) (snd c))) calls [].
(** PandasFileHelper.read_file, 78-120: the parameters of csv (a copy of an empty dict), updated by the arguments; None: KeyError *)
Definition read_file {A} (parts : list string) (kwargs : list (string * A)) : option (pywriter * list (string * A)) :=
  match writer_of (suffix parts) with Some w => Some (w, update [] kwargs) | None => None end.
