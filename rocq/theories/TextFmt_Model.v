(** Numbers in written tables: Output.write (foxes/output/output.py) and PandasFileHelper.write_file (foxes/utils/pandas_utils.py). *)
From Coq Require Import String Ascii NArith.
From Verif Require Import Base.
Local Open Scope N_scope.

(** a cell of a table before writing: a finite float, given by its sign bit and its absolute value num / den (every finite double is such a fraction); an integer; infinity; a missing entry (NaN or None); a text. Booleans and dates are not modelled *)
Inductive cell := Fin (neg : bool) (num : N) (den : positive) | Whole (z : Z) | Inf (neg : bool) | Missing | Txt (t : list ascii).
(** the character of a digit *)
Definition digit (n : N) : ascii := ascii_of_N (48 + n).
(** the last d decimal digits of n *)
Fixpoint fixed (d : nat) (n : N) : list ascii :=
  match d with O => [] | S k => fixed k (n / 10) ++ [digit (n mod 10)] end.
(** number of decimal digits; fuel is the number of bits *)
Fixpoint len (fuel : nat) (n : N) : nat :=
  match fuel with O => 1 | S k => if n <? 10 then 1%nat else S (len k (n / 10)) end.
(** a/b rounded to an integer, ties to the even one: the rounding of python's format with type f, which works on the exact value of the float *)
Definition round_even (a : N) (b : positive) : N :=
  let q := a / N.pos b in
  let r := a mod N.pos b in
  if 2 * r <? N.pos b then q else if N.pos b <? 2 * r then q + 1 else if N.even q then q else q + 1.
(** the minus sign *)
Definition sgn (neg : bool) : list ascii := if neg then ["-"%char] else [].
(** an unsigned decimal with d digits behind the point *)
Definition decimal (d : nat) (n : N) : list ascii :=
  let w := len (N.size_nat n) (n / 10 ^ N.of_nat d) in
  fixed w (n / 10 ^ N.of_nat d) ++ (match d with O => [] | S _ => "."%char :: fixed d n end).
(** '{:.df}'.format(x), pandas_utils.py:145-147; None: ValueError, for texts. A missing entry does not reach the call. User formats other than '{:.df}' are not modelled *)
Definition fmt (d : nat) (x : cell) : option (list ascii) :=
  match x with
  | Fin s a b => Some (sgn s ++ decimal d (round_even (a * 10 ^ N.of_nat d) b))
  | Whole z => Some (sgn (Z.ltb z 0) ++ decimal d (Z.abs_N z * 10 ^ N.of_nat d))
  | Inf s => Some (sgn s ++ ["i"; "n"; "f"]%char)
  | Missing | Txt _ => None
  end.

(** formats by name: the digits d of '{:.df}' *)
Definition formats := list (string * nat).
(** dict.get *)
Fixpoint look {A} (l : list (string * A)) (k : string) : option A :=
  match l with [] => None | (n, v) :: r => if String.eqb k n then Some v else look r k end.
(** DEFAULT_FORMAT_DICT, pandas_utils.py:49-77; names: foxes/variables.py *)
Definition defaults : formats :=
  [("WD", 3); ("AMB_WD", 3); ("YAW", 3); ("AMB_YAW", 3); ("WS", 4); ("AMB_WS", 4); ("REWS", 4); ("AMB_REWS", 4);
   ("REWS2", 4); ("AMB_REWS2", 4); ("REWS3", 4); ("AMB_REWS3", 4); ("TI", 6); ("AMB_TI", 6); ("RHO", 5); ("AMB_RHO", 5);
   ("P", 3); ("AMB_P", 3); ("CT", 6); ("AMB_CT", 6); ("T", 3); ("AMB_T", 3); ("YLD", 3); ("AMB_YLD", 3);
   ("CAP", 5); ("AMB_CAP", 5); ("EFF", 5)]%string%nat.
(** a table: the columns in order; the index is written unchanged and is not part of the model; column names are distinct *)
Definition table := list (string * list cell).
(** one entry, pandas_utils.py:145-147: a text, or kept if missing *)
Definition entry (d : nat) (x : cell) : result cell :=
  match x with Missing => Ok Missing | _ => match fmt d x with Some t => Ok (Txt t) | None => Err ValueError end end.
(** all entries of a column *)
Fixpoint entries (d : nat) (l : list cell) : result (list cell) :=
  match l with [] => Ok [] | x :: r => do y <- entry d x; do ys <- entries d r; Ok (y :: ys) end.
(** PandasFileHelper.write_file, pandas_utils.py:138-149: the table handed to pandas; fdict.update(format_dict) puts the entries of the call in front *)
Fixpoint write_file (format_dict : formats) (data : table) : result table :=
  match data with
  | [] => Ok []
  | (c, l) :: r =>
      do o <- match look (format_dict ++ defaults) c with Some d => entries d l | None => Ok l end;
      do os <- write_file format_dict r;
      Ok ((c, o) :: os)
  end.
(** the variable of a column: format_col2var.get(c, c), output.py:88 *)
Definition var_of (col2var : list (string * string)) (c : string) : string := match look col2var c with Some v => v | None => c end.
(** fdict of Output.write, output.py:86-92 *)
Fixpoint fdict (col2var : list (string * string)) (format_dict : formats) (cs : list string) : formats :=
  match cs with
  | [] => []
  | c :: r =>
      let v := var_of col2var c in
      match look format_dict v with
      | Some d => (c, d) :: fdict col2var format_dict r
      | None => match look defaults v with Some d => (c, d) :: fdict col2var format_dict r | None => fdict col2var format_dict r end
      end
  end.
(** Output.write, output.py:66-95 *)
Definition write (data : table) (col2var : list (string * string)) (format_dict : formats) : result table :=
  write_file (fdict col2var format_dict (map fst data)) data.
