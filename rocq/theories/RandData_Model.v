(** Random states data: input/states/create/random_abl_states.py and input/states/create/random_timeseries.py. Numbers are real numbers,
    NaN is None; the random generator is arbitrary. *)
From Coq Require Import String.
From Verif Require Import RBase NcOut_Model.
Local Open Scope R_scope.

Section Rand.
  (** numpy's global random generator: its state, the next number in [0, 1), setting a seed; random_abl_states.py:44, random_timeseries.py:43, 53 *)
  Context {G : Type}.
  Variable draw : G -> R * G.
  Variable seeded : Z -> G.

  (** n draws *)
  Fixpoint draws (n : nat) (g : G) : list R * G :=
    match n with O => ([], g) | S n' => let (u, g1) := draw g in let (l, g2) := draws n' g1 in (u :: l, g2) end.
  (** np.random.uniform(low, high, n): random_abl_states.py:44, random_timeseries.py:53 *)
  Definition uniform (lo hi : R) (n : nat) (g : G) : list R * G :=
    let (l, g') := draws n g in (map (fun u => lo + (hi - lo) * u) l, g').
  (** the columns in the order of the dictionary, random_abl_states.py:43-46; keys of a dict are distinct *)
  Fixpoint gen_cols (n : nat) (cols : list (string * (R * R))) (g : G) : list (string * list (option R)) * G :=
    match cols with
    | [] => ([], g)
    | (v, (lo, hi)) :: r =>
        let (l, g1) := uniform lo hi n g in let (rest, g2) := gen_cols n r g1 in ((v, map Some l) :: rest, g2)
    end.
  (** random_abl_states.py:50-53; comparisons with NaN are False *)
  Definition mol_mask (r : R * R) (x : option R) : option R :=
    match x with Some y => if Rltb (Rabs y) (fst r) || Rltb (snd r) (Rabs y) then None else Some y | None => None end.
  (** pandas' sum skips NaN, random_abl_states.py:57 *)
  Definition osum (l : list (option R)) : R := rsum (map (fun x => match x with Some y => y | None => 0 end) l).
  (** random_abl_states.py:57 *)
  Definition normalised (l : list (option R)) : list (option R) :=
    map (fun x => match x with Some y => Some (y / osum l) | None => None end) l.
  (** change of the column with a name, random_abl_states.py:53, 57 *)
  Definition on_col (c : string) (f : list (option R) -> list (option R)) (d : list (string * list (option R))) : list (string * list (option R)) :=
    map (fun p => if String.eqb (fst p) c then (fst p, f (snd p)) else p) d.
  (** random_abl_states.py:9-59; [cmol], [wcol]: the columns of MOL and WEIGHT according to var2col, lines 48, 55 *)
  Definition create (n : nat) (cols : list (string * (R * R))) (cmol wcol : string) (mrange : option (R * R)) (normalize : bool) (g : G) : list (string * list (option R)) * G :=
    let (d, g') := gen_cols n cols g in
    let d1 := match mrange with Some r => on_col cmol (map (mol_mask r)) d | None => d end in
    ((if normalize then on_col wcol normalised d1 else d1), g').

  (** random_timeseries.py:42-56; seed None or 0: no seeding (line 42). [dranges]: the ranges after the update of the defaults, 45-47. The index (times) is not modelled *)
  Definition timeseries (n : nat) (dranges : list (string * (R * R))) (seed : option Z) (g : G) : list (string * list (option R)) * G :=
    gen_cols n dranges (match seed with Some s => if Z.eqb s 0 then g else seeded s | None => g end).
End Rand.

(** the argument digits of write_random_abl_states: None, 'auto' or a number; random_abl_states.py:70 *)
Inductive digits_arg := DNone | DAuto | DNum (d : Z).
(** digits of a column, None: not rounded; the last assignment wins; random_abl_states.py:110-128 *)
Definition hdigits (cmol wcol ctI : string) (c : string) : option Z :=
  if String.eqb c ctI then Some 6%Z else if String.eqb c cmol then Some 1%Z else if String.eqb c wcol then None else Some 4%Z.
(** random_abl_states.py:110-133: both branches of line 125 assign hdigits *)
Definition write_digits (arg : digits_arg) (cmol wcol ctI c : string) : option Z :=
  match arg with DNone => None | DAuto => hdigits cmol wcol ctI c | DNum _ => hdigits cmol wcol ctI c end.
(** random_abl_states.py:130-135, the numbers that are written *)
Definition written (arg : digits_arg) (cmol wcol ctI : string) (d : list (string * list (option R))) : list (string * list (option R)) :=
  map (fun p => (fst p, match write_digits arg cmol wcol ctI (fst p) with
                        | Some k => map (option_map (round_dec k)) (snd p) | None => snd p end)) d.
