(** Reading and writing wind farm layouts: /repo/foxes/input/farm_layout/from_csv.py, from_df.py, from_json.py,
    from_random.py, /repo/foxes/utils/random_xy.py, and /repo/foxes/output/farm_layout.py. *)
From Coq Require Import String DecimalString DecimalZ.
From Flocq Require Import Core.
From Verif Require Import RBase.
Local Open Scope R_scope.
Local Open Scope list_scope.

(** ** Tables *)

(** a row label of a pandas index: an integer or a string *)
Inductive label := LI (z : Z) | LS (s : string).
(** a cell: a number, NaN (an empty cell of a file), or text *)
Inductive cell := CNum (x : R) | CNan | CStr (s : string).
(** pandas.DataFrame: the column names, and the rows with their labels *)
Record table := mktable { t_cols : list string; t_rows : list (label * list cell) }.
(** equality of labels *)
Definition label_eqb (a b : label) : bool :=
  match a, b with LI x, LI y => Z.eqb x y | LS x, LS y => String.eqb x y | _, _ => false end.
(** the cell of a row in a column *)
Fixpoint cell_at (cols : list string) (row : list cell) (c : string) : option cell :=
  match cols, row with
  | k :: cols', x :: row' => if String.eqb k c then Some x else cell_at cols' row' c
  | _, _ => None
  end.
(** data.loc[i, c], from_csv.py:88-115. Simplification: for a label that several rows have, pandas
    returns all of them, and the values of a turbine are then arrays, which fails later on (for
    positive verbosity at wind_farm.py:55); this is a TypeError here *)
Definition loc (tab : table) (i : label) (c : string) : result cell :=
  match filter (fun r => label_eqb (fst r) i) (t_rows tab) with
  | [] => Err KeyError
  | [r] => match cell_at (t_cols tab) (snd r) c with Some x => Ok x | None => Err KeyError end
  | _ => Err TypeError
  end.
(** data.loc[i, [c1, c2, ...]].tolist(), from_csv.py:101, 106 *)
Fixpoint loc_all (tab : table) (i : label) (cs : list string) : result (list cell) :=
  match cs with [] => Ok [] | c :: r => do x <- loc tab i c; do l <- loc_all tab i r; Ok (x :: l) end.

(** ** Turbines *)

(** heights and diameters: not set (the turbine type's value is used), NaN, or a number; core/turbine.py:43-44 *)
Inductive hval := HNone | HNan | HVal (x : R).
(** core/turbine.py:71-76 *)
Record turb := mkturb { t_name : cell; t_index : cell; t_x : cell; t_y : cell; t_H : hval; t_D : hval; t_models : list cell }.
(** WindFarm.add_turbine, core/wind_farm.py:49-53, with the name given *)
Definition add (farm : list turb) (nm : cell) (i : option cell) (x y : cell) (H D : hval) (ms : list cell) : list turb :=
  farm ++ [mkturb nm (match i with Some k => k | None => CNum (INR (length farm)) end) x y H D ms].

(** the arguments of add_from_csv, from_csv.py:7-25; p_models, p_H and p_D are those of
    turbine_parameters, 82-84 *)
Record opts := mkopts {
  col_name : option string; col_x : string; col_y : string; col_H : option string; col_D : option string; col_id : option string;
  cols_pre : option (list string); col_type : option string; cols_post : option (list string);
  base : string; ids : option (list Z); shift : bool; p_models : list cell; p_H : hval; p_D : hval }.
(** the default arguments, from_csv.py:7-25 *)
Definition default_opts : opts := mkopts None "x" "y" None None None None None None "T" None false [] HNone HNone.
(** decimal representation of an integer *)
Definition string_of_Z (z : Z) : string := NilEmpty.string_of_int (Z.to_int z).
(** f"{turbine_base_name}{i+s}", from_csv.py:87-89 *)
Definition base_label (o : opts) (i : label) : result cell :=
  match i with
  | LI z => Ok (CStr (base o ++ string_of_Z (z + if shift o then 1 else 0)))
  | LS _ => Err TypeError
  end.
(** python's l[z] *)
Definition pynth (l : list Z) (z : Z) : option Z :=
  let n := Z.of_nat (length l) in
  if (0 <=? z)%Z then (if (z <? n)%Z then nth_error l (Z.to_nat z) else None)
  else if (- n <=? z)%Z then nth_error l (Z.to_nat (z + n)) else None.
(** turbine_ids[i], from_csv.py:94 *)
Definition id_of (l : list Z) (i : label) : result cell :=
  match i with
  | LI z => match pynth l z with Some k => Ok (CNum (IZR k)) | None => Err IndexError end
  | LS _ => Err TypeError
  end.
(** a cell as height or diameter *)
Definition as_h (c : cell) : hval := match c with CNum x => HVal x | _ => HNan end.
(** H if col_H not in data.columns else data.loc[i, col_H], from_csv.py:114-115; text is not modelled *)
Definition h_of (tab : table) (i : label) (col : option string) (dflt : hval) : result hval :=
  match col with
  | Some c => if existsb (String.eqb c) (t_cols tab) then do x <- loc tab i c; Ok (as_h x) else Ok dflt
  | None => Ok dflt
  end.
(** an optional list of columns, from_csv.py:100-107 *)
Definition opt_cells (tab : table) (i : label) (cs : option (list string)) : result (list cell) :=
  match cs with Some l => loc_all tab i l | None => Ok [] end.
(** from_csv.py:87-120, one row *)
Definition add_row_csv (o : opts) (tab : table) (i : label) (farm : list turb) : result (list turb) :=
  do nm <- match col_name o with None => base_label o i | Some c => loc tab i c end;
  do x <- loc tab i (col_x o);
  do y <- loc tab i (col_y o);
  do ti <- match ids o, col_id o with
           | Some l, _ => do k <- id_of l i; Ok (Some k)
           | None, Some c => do k <- loc tab i c; Ok (Some k)
           | None, None => Ok None
           end;
  do a <- opt_cells tab i (cols_pre o);
  do t <- match col_type o with None => Ok [] | Some c => do k <- loc tab i c; Ok [k] end;
  do b <- opt_cells tab i (cols_post o);
  do H <- h_of tab i (col_H o) (p_H o);
  do D <- h_of tab i (col_D o) (p_D o);
  Ok (add farm nm ti x y H D (a ++ t ++ p_models o ++ b)).
(** the loop over data.index, from_csv.py:86 *)
Fixpoint add_rows (o : opts) (tab : table) (ls : list label) (farm : list turb) : result (list turb) :=
  match ls with [] => Ok farm | i :: r => do f <- add_row_csv o tab i farm; add_rows o tab r f end.
(** add_from_csv of a table, and add_from_df: from_csv.py:74-120, from_df.py:27 *)
Definition add_csv (o : opts) (tab : table) (farm : list turb) : result (list turb) :=
  add_rows o tab (map fst (t_rows tab)) farm.

(** ** Writing csv files *)

(** np.round(x, 4): half to even at the fourth decimal, output/farm_layout.py:370-372 *)
Definition round4 (x : R) : R := IZR (ZnearestE (x * 10000)) / 10000.
(** a cell rounded; NaN stays NaN *)
Definition round_cell (c : cell) : cell := match c with CNum x => CNum (round4 x) | _ => c end.
(** an entry of a float array: None becomes NaN, output/farm_layout.py:98 *)
Definition h_cell (h : hval) : cell := match h with HVal x => CNum x | _ => CNan end.
(** output/farm_layout.py:362-378 and pandas' to_csv, without type_col and with from_results=False *)
Definition write_csv (farm : list turb) : table :=
  mktable ["index"; "name"; "x"; "y"; "h"; "D"]%string
    (map (fun kt => let k := fst kt in let t := snd kt in
          (LI (Z.of_nat k), [CNum (INR k); t_name t; round_cell (t_x t); round_cell (t_y t); round_cell (h_cell (t_H t)); h_cell (t_D t)]))
         (combine (seq 0 (length farm)) farm)).
(** pandas.read_csv, from_csv.py:80, of such a file: [text] says what becomes of the names, which
    pandas converts if they all look like numbers, and where they look like missing values. With
    col_index=None the labels are the row numbers *)
Definition read_csv (text : cell -> cell) (f : table) : table :=
  mktable (t_cols f) (map (fun r => (fst r, match snd r with k :: nm :: l => k :: text nm :: l | l => l end)) (t_rows f)).

(** ** JSON files *)

(** a turbine's entry: id, position, H and D and models if given, from_json.py:47-67 *)
Record jturb := mkjturb { j_id : option cell; j_x : cell; j_y : cell; j_H : option hval; j_D : option hval; j_models : option (list cell) }.
(** d[k] = v in a dict: a new key goes to the end *)
Fixpoint jput {A} (k : string) (v : A) (d : list (string * A)) : list (string * A) :=
  match d with
  | [] => [(k, v)]
  | (j, w) :: r => if String.eqb k j then (j, v) :: r else (j, w) :: jput k v r
  end.
(** get_layout_dict and write_json, output/farm_layout.py:114-126, 392-397, from the turbines' own
    positions; the names are texts *)
Definition write_json (farm : list (string * turb)) : list (string * jturb) :=
  fold_left (fun d nt => jput (fst nt) (mkjturb (Some (t_index (snd nt))) (t_x (snd nt)) (t_y (snd nt)) None None None) d) farm [].
(** from_json.py:47-67: one turbine; the parameters [pH], [pD], [pm] are those of the call *)
Definition add_json1 (pH pD : hval) (pm : option (list cell)) (farm : list turb) (e : string * jturb) : list turb :=
  let j := snd e in
  let ms := match j_models j with
            | Some l => l ++ match pm with Some m => m | None => [] end
            | None => match pm with Some m => m | None => [] end
            end in
  add farm (CStr (fst e)) (j_id j) (j_x j) (j_y j)
    (match j_H j with Some h => h | None => pH end) (match j_D j with Some h => h | None => pD end) ms.
(** from_json.py:31-67: a file with the wind farms of [file], by name. Returns the name and the turbines *)
Definition add_json (pH pD : hval) (pm : option (list cell)) (set_name : bool) (file : list (string * list (string * jturb))) (name : string) (farm : list turb)
  : result (string * list turb) :=
  match file with
  | [(fname, ts)] => Ok (if set_name then fname else name, fold_left (add_json1 pH pD pm) ts farm)
  | _ => Err KeyError
  end.

(** ** Random layouts *)

(** positions *)
Definition point := (R * R)%type.
(** cdist, random_xy.py:47 *)
Definition dist (p q : point) : R := sqrt ((fst p - fst q) * (fst p - fst q) + (snd p - snd q) * (snd p - snd q)).
(** turbine i is closer than min_dist to another one; random_xy.py:47-49 *)
Definition too_close (d : R) (xy : list point) (i : nat) : bool :=
  existsb (fun j => negb (j =? i)%nat && Rltb (dist (nth i xy (0, 0)) (nth j xy (0, 0))) d) (seq 0 (length xy)).
(** the indices sel, random_xy.py:49 *)
Definition sel_close (d : R) (xy : list point) : list nat := filter (too_close d xy) (seq 0 (length xy)).
(** xy[sel] = ..., random_xy.py:55; the i-th entry of sel gets the i-th new point *)
Definition replace_sel (xy : list point) (sel : list nat) (new : nat -> point) : list point :=
  map (fun i => match find (fun ks => (snd ks =? i)%nat) (combine (seq 0 (length sel)) sel) with
                | Some (k, _) => new k
                | None => nth i xy (0, 0)
                end) (seq 0 (length xy)).
(** numpy's random numbers: the generator's state, seeding, and the numbers of the unit square drawn in
    round k of a calculation; the random numbers may be any *)
Record rng (G : Type) := mkrng { seeded : Z -> G; unit_draw : G -> nat -> nat -> point }.
Arguments seeded {G}. Arguments unit_draw {G}.
(** a point of the square of side xmax *)
Definition scale (s : R) (p : point) : point := (s * fst p, s * snd p).
(** the loop, random_xy.py:46-55; None: still running after this many rounds *)
Fixpoint regenerate (fuel : nat) (draw : nat -> nat -> point) (growth d xmax : R) (k : nat) (xy : list point) : option (list point) :=
  match fuel with
  | O => None
  | S f =>
      match sel_close d xy with
      | [] => Some xy
      | sel => regenerate f draw growth d (xmax * growth) (S k) (replace_sel xy sel (fun i => scale (xmax * growth) (draw k i)))
      end
  end.
(** np.mean *)
Definition mean (l : list R) : R := rsum l / INR (length l).
(** random_xy.py:56, from_random.py:40 *)
Definition recentre (c : point) (xy : list point) : list point :=
  let mx := mean (map fst xy) in let my := mean (map snd xy) in
  map (fun p => (fst p - mx + fst c, snd p - my + snd c)) xy.
(** random_xy.py:41-56, from_random.py:39-40: the positions. [if seed:] is false for seed 0 *)
Definition random_positions {G} (r : rng G) (g : G) (fuel : nat) (n : nat) (d : R) (c : point) (seed : option Z) : option (list point) :=
  let g' := match seed with Some s => if (s =? 0)%Z then g else seeded r s | None => g end in
  let xmax := sqrt (INR n) * d in
  option_map (recentre c)
    (regenerate fuel (fun k => unit_draw r g' (S k)) (102 / 100) d xmax 0 (map (fun i => scale xmax (unit_draw r g' 0%nat i)) (seq 0 n))).
