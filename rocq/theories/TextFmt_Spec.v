(** What a reader of a written table may expect. *)
From Coq Require Import String Ascii NArith Reals.
From Verif Require Import Base TextFmt_Model.
Local Open Scope N_scope.

(** value of a digit *)
Definition dval (c : ascii) : option N := let n := N_of_ascii c in if (48 <=? n) && (n <? 58) then Some (n - 48) else None.
(** reading digits up to the end or up to a point; [pt]: number of digits behind the point, None before it *)
Fixpoint rd (acc : N) (pt : option nat) (l : list ascii) : option (N * nat) :=
  match l with
  | [] => Some (acc, match pt with Some k => k | None => 0%nat end)
  | c :: r =>
      match dval c with
      | Some v => rd (10 * acc + v) (option_map S pt) r
      | None => if Ascii.eqb c "." then match pt with None => rd acc (Some 0%nat) r | Some _ => None end else None
      end
  end.
(** reading a decimal number: sign, digits, and how many of them are behind the point *)
Definition read (l : list ascii) : option (bool * N * nat) :=
  match l with
  | c :: r => if Ascii.eqb c "-" then match rd 0 None r with Some (m, k) => Some (true, m, k) | None => None end
              else match rd 0 None l with Some (m, k) => Some (false, m, k) | None => None end
  | [] => None
  end.
Local Open Scope R_scope.
(** sign *)
Definition signed (neg : bool) (x : R) : R := if neg then - x else x.
(** the number that a decimal denotes *)
Definition denotes (p : bool * N * nat) : R := let '(s, m, k) := p in signed s (IZR (Z.of_N m) / 10 ^ k).
(** the number in a cell *)
Definition number (x : cell) : option R :=
  match x with
  | Fin s a b => Some (signed s (IZR (Z.of_N a) / IZR (Zpos b)))
  | Whole z => Some (IZR z)
  | _ => None
  end.
(** sign bit of a number *)
Definition negative (x : cell) : bool := match x with Fin s _ _ => s | Whole z => Z.ltb z 0 | Inf s => s | _ => false end.
(** v is x rounded to d decimals, ties to even *)
Definition rounded (d : nat) (x v : R) : Prop :=
  exists k, v = IZR k / 10 ^ d /\ Rabs (x * 10 ^ d - IZR k) <= 1 / 2 /\ (Rabs (x * 10 ^ d - IZR k) = 1 / 2 -> Z.even k = true).
(** the format of a column: the one the user gives for its variable, else the default of its variable *)
Definition format_for (col2var : list (string * string)) (user : formats) (c : string) : option nat :=
  match look user (var_of col2var c) with Some d => Some d | None => look defaults (var_of col2var c) end.
(** a cell [o] in the file for the cell [x] of the table: missing entries are kept, numbers are texts that read as the rounded number with the sign of the number and d digits behind the point *)
Definition shows (d : nat) (x o : cell) : Prop :=
  (x = Missing /\ o = Missing)
  \/ (exists s, x = Inf s /\ o = Txt (sgn s ++ ["i"; "n"; "f"]%char))
  \/ (exists r t m, number x = Some r /\ o = Txt t /\ read t = Some (negative x, m, d) /\ rounded d r (denotes (negative x, m, d))).
(** no text *)
Definition no_text (x : cell) : Prop := match x with Txt _ => False | _ => True end.
(** the variables written with d digits if nothing else is asked for: angles, power, time and yield 3, wind speeds 4, density and ratios 5, turbulence intensity and thrust coefficient 6 *)
Local Open Scope string_scope.
Definition with_digits (d : nat) : list string :=
  match d with
  | 3 => ["WD"; "AMB_WD"; "YAW"; "AMB_YAW"; "P"; "AMB_P"; "T"; "AMB_T"; "YLD"; "AMB_YLD"]
  | 4 => ["WS"; "AMB_WS"; "REWS"; "AMB_REWS"; "REWS2"; "AMB_REWS2"; "REWS3"; "AMB_REWS3"]
  | 5 => ["RHO"; "AMB_RHO"; "CAP"; "AMB_CAP"; "EFF"]
  | 6 => ["TI"; "AMB_TI"; "CT"; "AMB_CT"]
  | _ => []
  end%nat.
