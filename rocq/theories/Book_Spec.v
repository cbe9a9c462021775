(** Specification: what the names of rotor models, partial wakes, wake frames and kTI models stand for. *)
From Verif Require Import Factory_Model Factory_Spec TypeName_Model TypeName_Spec.
Local Open Scope list_scope.

(** the number written with the digits is the square of a whole number *)
Definition square_of (n : Z) (ds : list nat) : Prop := (0 <= n)%Z /\ num ds = (n * n)%Z.
(** the arguments of the created model: class and the given further entries, and nothing else *)
Definition makes (r : result (dict value)) (cls : string) (args : list (string * value)) : Prop :=
  exists kw, r = Ok kw /\ dget kw (lit "class") = Some (VStr (lit cls)) /\
    forall k, k <> lit "class" -> dget kw k = dget (map (fun a => (lit (fst a), snd a)) args) k.
(** times and lengths with a unit, and their value in minutes and kilometres *)
Inductive time_unit := Seconds | Minutes.
Definition time_text (x : number) (u : time_unit) : str :=
  number_text "."%char x ++ match u with Seconds => lit "s" | Minutes => lit "min" end.
Definition minutes (x : number) (u : time_unit) : value :=
  let d := number_dec x in match u with Seconds => VQuot (fst d) (snd d) 60 | Minutes => VDec (fst d) (snd d) end.
Inductive length_unit := Metres | Kilometres.
Definition length_text (x : number) (u : length_unit) : str :=
  number_text "."%char x ++ match u with Metres => lit "m" | Kilometres => lit "km" end.
Definition kilometres (x : number) (u : length_unit) : value :=
  let d := number_dec x in match u with Metres => VQuot (fst d) (snd d) 1000 | Kilometres => VDec (fst d) (snd d) end.
(** numbers of kTI names: whole numbers, where a leading zero stands for "0." (02 is 0.2), or decimal numbers that do not
    start with a zero *)
Definition short_ok (x : number) : Prop := number_ok x /\ (snd x = None \/ hd 0 (fst x) <> 0).
Definition short_value (x : number) : value :=
  match x with
  | (0 :: r, _) => VDec (num r) (List.length r)
  | _ => VDec (fst (number_dec x)) (snd (number_dec x))
  end.
