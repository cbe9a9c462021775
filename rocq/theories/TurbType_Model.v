(** Model of turbine types created from files: the constructors of
    /repo/foxes/core/turbine_type.py:33-63, models/turbine_types/PCt_file.py:42-103 (and 174-191),
    PCt_from_two.py:45-118, CpCt_file.py:21-76, CpCt_from_two.py:21-94 and TBL_file.py:41-79.
    Simplifications: parameters are a name -> value dictionary; of the keyword arguments only those of
    TurbineType and the column name of thrust coefficients of CpCtFile are modelled (those that PCtFile and
    PCtFromTwo take themselves, such as p_ct, are not among the parameters here); reading the file itself is left out (its
    content is given as a table); np.interp and linspace are exact. *)
From Coq Require Import String Reals Lra.
From Verif Require Import RBase Factory_Model TypeName_Model.
From Verif Require Curves_Model.
Local Open Scope list_scope.
Local Open Scope R_scope.

(** parameter values: numbers, texts and None *)
Inductive pval := PNum (x : R) | PText (s : str) | PNone.
(** keyword arguments **parameters *)
Definition kwargs := dict pval.
(** a decimal as number, data/parse.py:51-63 *)
Definition rdec (d : dec) : R := IZR (fst d) / 10 ^ (snd d).
(** the dictionary of data/parse.py:25-67 *)
Definition as_dict (q : pars) : kwargs :=
  (lit "name", PText (p_name q)) ::
  (match p_P q with Some x => [(lit "P_nominal", PNum (rdec x))] | None => [] end) ++
  (match p_D q with Some x => [(lit "D", PNum (rdec x))] | None => [] end) ++
  (match p_H q with Some x => [(lit "H", PNum (rdec x))] | None => [] end).

(** constants.py:180 *)
Definition p_units (u : str) : option R :=
  if seqb u (lit "W") then Some 1 else if seqb u (lit "kW") then Some 1000 else if seqb u (lit "MW") then Some 1000000
  else if seqb u (lit "GW") then Some 1000000000 else if seqb u (lit "TW") then Some 1000000000000 else None.
(** the attributes set in core/turbine_type.py:54-58 *)
Record ttype := mkttype { t_name : pval; t_D : pval; t_H : pval; t_P : pval; t_unit : pval }.
(** a keyword argument with its default *)
Definition arg (kw : kwargs) (k : str) (d : pval) : pval := match dget kw k with Some v => v | None => d end.
(** names of the keyword arguments of TurbineType, core/turbine_type.py:33 *)
Definition type_args : list str := [lit "name"; lit "D"; lit "H"; lit "P_nominal"; lit "P_unit"].
(** TurbineType.__init__, core/turbine_type.py:33-63; [cls]: the class name *)
Definition turbine_type (cls : str) (kw : kwargs) : result ttype :=
  if forallb (fun kv => existsb (seqb (fst kv)) type_args) kw then
    let nm := match arg kw (lit "name") PNone with PNone => PText cls | v => v end in
    match arg kw (lit "P_unit") (PText (lit "kW")) with
    | PText u => match p_units u with
                 | Some _ => Ok (mkttype nm (arg kw (lit "D") PNone) (arg kw (lit "H") PNone) (arg kw (lit "P_nominal") PNone) (PText u))
                 | None => Err KeyError
                 end
    | _ => Err KeyError
    end
  else Err TypeError.

(** a data source: a data frame or a file name *)
Inductive source := Frame | File (f : str).
(** PCtFile.__init__, PCt_file.py:86-92 *)
Definition pct_file (s : source) (kw : kwargs) : result ttype :=
  match s with
  | File f => do q <- parse_name f; turbine_type (lit "PCtFile") (dupdate (as_dict q) kw)
  | Frame => turbine_type (lit "PCtFile") kw
  end.
(** PCtFromTwo.__init__, PCt_from_two.py:98-104. parse_Pct_two_files handed a data frame fails in Path (data/parse.py:24). *)
Definition two_pars (a b : source) (kw : kwargs) : result kwargs :=
  match a, b with
  | Frame, Frame => Ok kw
  | File f, File g => do q <- parse_two f g; Ok (as_dict q)
  | Frame, File _ => Err TypeError
  | File f, Frame => do _ <- parse_name f; Err TypeError
  end.
Definition pct_from_two (a b : source) (kw : kwargs) : result ttype :=
  do p <- two_pars a b kw; turbine_type (lit "PCtFromTwo") p.
(** dict.pop(k) *)
Definition dpop (d : kwargs) (k : str) : kwargs := filter (fun kv => negb (seqb (fst kv) k)) d.
(** CpCt_file.py:58-73, CpCt_from_two.py:68-84: the diameter and the unit *)
Definition cp_args (p : kwargs) : result (R * R * str) :=
  match dget p (lit "D") with
  | Some (PNum D) =>
      match arg p (lit "P_unit") (PText (lit "kW")) with
      | PText u => match p_units u with Some f => Ok (D, f, u) | None => Err KeyError end
      | _ => Err KeyError
      end
  | Some _ => Err TypeError
  | None => Err KeyError
  end.

(** np.interp(x, ws, cp, left=0, right=0), CpCt_file.py:71 *)
Definition cp_at (t : Curves_Model.table) (x : R) : result R := Curves_Model.interp t x.
(** np.min(ws), np.max(ws), CpCt_file.py:65-66 *)
Definition ws_min (t : Curves_Model.table) : R := match t with [] => 0 | (x, _) :: r => fold_left Rmin (map fst r) x end.
Definition ws_max (t : Curves_Model.table) : R := match t with [] => 0 | (x, _) :: r => fold_left Rmax (map fst r) x end.
(** int((ws_max - ws_min) / ws_delta), CpCt_file.py:64-67; the quotient is not negative *)
Definition n_rows (t : Curves_Model.table) : nat := Z.to_nat (rfloor ((ws_max t - ws_min t) / 0.0001)).
(** np.linspace(ws_min, ws_max, N, endpoint=True), CpCt_file.py:70 *)
Definition speed (t : Curves_Model.table) (j : nat) : R :=
  ws_min t + INR j * ((ws_max t - ws_min t) / INR (n_rows t - 1)).
(** the power column, CpCt_file.py:68-74, CpCt_from_two.py:68-84: rho in kg/m3, D in m, unit in W *)
Definition power_at (rho D unit cp u : R) : R := 0.5 * rho * (PI * (D / 2) ^ 2) * cp * u ^ 3 / unit.
Fixpoint power_rows (rho D unit : R) (t : Curves_Model.table) (js : list nat) : result Curves_Model.table :=
  match js with
  | [] => Ok []
  | j :: r => do c <- cp_at t (speed t j); do l <- power_rows rho D unit t r; Ok ((speed t j, power_at rho D unit c (speed t j)) :: l)
  end.
(** the data frame data_P; an empty table of cp values makes np.min fail (65) *)
Definition power_table (rho D unit : R) (t : Curves_Model.table) : result Curves_Model.table :=
  match t with [] => Err ValueError | _ => power_rows rho D unit t (seq 0 (n_rows t)) end.

(** CpCtFile.__init__, CpCt_file.py:49-76: the turbine type and its power curve. The frame handed on has the columns
    ws, cp and P. *)
Definition cpct_file (s : source) (t : Curves_Model.table) (rho : R) (kw : kwargs) : result (ttype * Curves_Model.table * str) :=
  do p <- (match s with File f => do q <- parse_name f; Ok (dupdate (as_dict q) kw) | Frame => Ok kw end);
  do a <- cp_args p;
  let '(D, f, u) := a in
  do tab <- power_table rho D f t;
  let col := match arg p (lit "col_ct") (PText (lit "ct")) with PText c => c | _ => [] end in
  do ty <- turbine_type (lit "CpCtFile") (dput (dpop (dpop p (lit "P_unit")) (lit "col_ct")) (lit "P_unit") (PText u));
  Ok (ty, tab, col).
(** PCtFile.load_data for that frame, PCt_file.py:188-191: ws has become the index; the thrust column is taken by name *)
Definition cpct_load (c : ttype * Curves_Model.table * str) : result (Curves_Model.table * str) :=
  let '(_, tab, col) := c in
  if seqb col (lit "cp") || seqb col (lit "P") then Ok (tab, col) else Err KeyError.
(** CpCtFromTwo.__init__, CpCt_from_two.py:55-94: power from the first table, thrust from the second *)
Definition cpct_from_two (a b : source) (tp tc : Curves_Model.table) (rho : R) (kw : kwargs) : result (ttype * Curves_Model.table * Curves_Model.table) :=
  do p <- two_pars a b kw;
  do x <- cp_args p;
  let '(D, f, u) := x in
  do tab <- power_table rho D f tp;
  do ty <- turbine_type (lit "CpCtFromTwo") (dput (dpop p (lit "P_unit")) (lit "P_unit") (PText u));
  Ok (ty, tab, tc).
(** TBLFile.__init__, TBL_file.py:60-79: H, D and the nominal power (MW) of the second line of the file; parameters of
    these names are given twice *)
Definition tbl_file (H D P_mw : R) (kw : kwargs) : result ttype :=
  if existsb (fun kv => existsb (seqb (fst kv)) [lit "H"; lit "D"; lit "P_nominal"; lit "P_unit"]) kw then Err TypeError
  else turbine_type (lit "TBLFile")
         ([(lit "H", PNum H); (lit "D", PNum D); (lit "P_nominal", PNum (P_mw * 1000)); (lit "P_unit", PText (lit "kW"))] ++ kw).
