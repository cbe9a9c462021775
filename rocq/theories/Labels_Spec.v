(** Specification vocabulary for result labels. *)
From Coq Require Import Ascii.
From Verif Require Import Base Labels_Model.

(** what the label [k] stands for after the history [h]: the value stored last *)
Fixpoint stands_for {V} (h : list (event V)) (k : str) : option V :=
  match h with
  | [] => None
  | e :: r => match stands_for r k with
              | Some v => Some v
              | None => match e with
                        | EStore k' v => if list_eq_dec ascii_dec k k' then Some v else None
                        | _ => None
                        end
              end
  end.

(** a label: a dollar sign and further characters, without brackets *)
Definition plain (k : str) : Prop :=
  hd_error k = Some "$"%char /\ ~ In "["%char k /\ ~ In "]"%char k.

(** an integer literal: decimal digits, most significant first, with an optional minus sign *)
Record numeral := mknum { n_neg : bool; n_digits : list nat }.
Definition num_ok (n : numeral) : Prop := n_digits n <> [] /\ Forall (fun d => d < 10) (n_digits n).
Definition num_text (n : numeral) : str :=
  (if n_neg n then ["-"%char] else []) ++ map (fun d => ascii_of_nat (48 + d)) (n_digits n).
Definition num_value (n : numeral) : Z :=
  (if n_neg n then -1 else 1)%Z
  * fold_left (fun a d => 10 * a + Z.of_nat d)%Z (n_digits n) 0%Z.
(** the text  label[i,j,...] *)
Fixpoint commas (l : list str) : str :=
  match l with
  | [] => []
  | [x] => x
  | x :: r => x ++ ","%char :: commas r
  end.
Definition element (k : str) (ns : list numeral) : str :=
  k ++ "["%char :: commas (map num_text ns) ++ ["]"%char].

(** how a given argument [g] reaches the function as [v], when the history is [h]: strings that
    begin with a dollar sign stand for objects, everything else is passed as it is *)
Definition passed {V} (index : V -> list Z -> result V) (vstr : str -> V) (h : list (event V)) (g : arg V) (v : V) : Prop :=
  match g with
  | AObj x => v = x
  | AStr s =>
      (hd_error s <> Some "$"%char -> v = vstr s)
      /\ (plain s -> stands_for h s = Some v)
      /\ forall k ns, plain k -> ns <> [] -> Forall num_ok ns -> s = element k ns ->
           exists o, stands_for h k = Some o /\ index o (map num_value ns) = Ok v
  end.
