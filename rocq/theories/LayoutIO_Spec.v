(** Vocabulary for wind farm layouts in tables and files. *)
From Coq Require Import String.
From Verif Require Import RBase LayoutIO_Model.
Local Open Scope R_scope.
Local Open Scope list_scope.

(** the entry of a row in the column of a name *)
Definition entry (tab : table) (row : list cell) (c : string) (x : cell) : Prop :=
  exists k, nth_error (t_cols tab) k = Some c /\ nth_error row k = Some x /\ forall j, (j < k)%nat -> nth_error (t_cols tab) j <> Some c.
(** the entries of several columns *)
Definition entries (tab : table) (row : list cell) (cs : list string) (l : list cell) : Prop := Forall2 (entry tab row) cs l.
(** each row has as many cells as there are columns *)
Definition rectangular (tab : table) : Prop := forall r, In r (t_rows tab) -> length (snd r) = length (t_cols tab).
(** a height or diameter from its column, if the table has that column; else the given default *)
Definition height_from (tab : table) (row : list cell) (col : option string) (dflt h : hval) : Prop :=
  match col with
  | Some c => (In c (t_cols tab) /\ exists x, entry tab row c x /\ h = match x with CNum v => HVal v | _ => HNan end) \/ (~ In c (t_cols tab) /\ h = dflt)
  | None => h = dflt
  end.
(** the models of a turbine: those of the first columns, the type, the given ones, those of the last columns *)
Definition models_from (o : opts) (tab : table) (row : list cell) (ms : list cell) : Prop :=
  exists a t b, ms = a ++ t ++ p_models o ++ b /\
    match cols_pre o with Some l => entries tab row l a | None => a = [] end /\
    match col_type o with Some c => exists x, entry tab row c x /\ t = [x] | None => t = [] end /\
    match cols_post o with Some l => entries tab row l b | None => b = [] end.
(** the turbine of row number k, read into a farm that had m turbines before *)
Definition fits (o : opts) (tab : table) (m k : nat) (lr : label * list cell) (t : turb) : Prop :=
  let row := snd lr in
  entry tab row (col_x o) (t_x t) /\ entry tab row (col_y o) (t_y t) /\
  match col_name o with
  | Some c => entry tab row c (t_name t)
  | None => exists z, fst lr = LI z /\ t_name t = CStr (base o ++ string_of_Z (z + if shift o then 1 else 0))
  end /\
  match ids o, col_id o with
  | Some l, _ => exists z, fst lr = LI z /\ match pynth l z with Some v => t_index t = CNum (IZR v) | None => False end
  | None, Some c => entry tab row c (t_index t)
  | None, None => t_index t = CNum (INR (m + k))
  end /\
  height_from tab row (col_H o) (p_H o) (t_H t) /\ height_from tab row (col_D o) (p_D o) (t_D t) /\
  models_from o tab row (t_models t).

(** the columns an argument asks for *)
Definition wanted (o : opts) : list string :=
  col_x o :: col_y o :: match col_name o with Some c => [c] | None => [] end ++
  match ids o, col_id o with None, Some c => [c] | _, _ => [] end ++
  match cols_pre o with Some l => l | None => [] end ++ match col_type o with Some c => [c] | None => [] end ++
  match cols_post o with Some l => l | None => [] end.

(** pairwise distances *)
Definition apart (d : R) (ps : list point) : Prop :=
  forall i j p q, nth_error ps i = Some p -> nth_error ps j = Some q -> i <> j -> d <= dist p q.
