(** Specification: names that are instances of a template. *)
From Verif Require Import Factory_Model.
Local Open Scope list_scope.
(** text with the values filled in: p0 w1 p1 w2 p2 ... wn pn *)
Fixpoint render (pre ws : list str) : str :=
  match pre, ws with
  | p :: pre', w :: ws' => p ++ w ++ render pre' ws'
  | p :: _, [] => p
  | [], _ => []
  end.
(** s occurs in t at position i *)
Definition occurs (s t : str) (i : nat) : Prop := exists a b, t = a ++ s ++ b /\ List.length a = i.
(** every value is followed by a separator that does not start earlier in the text value + separator *)
Fixpoint separated (seps ws : list str) : Prop :=
  match seps, ws with
  | p :: seps', w :: ws' => (p <> [] -> forall i, i < List.length w -> ~ occurs p (w ++ p) i) /\ separated seps' ws'
  | _, _ => True
  end.
(** the template written with its variables in brackets *)
Definition bracket (v : str) : str := "<"%char :: v ++ [">"%char].
(** separators that cannot overlap with themselves: the first character occurs nowhere else in them *)
Definition simple_sep (p : str) : Prop := match p with [] => True | a :: p' => ~ In a p' end.
(** s contains t *)
Definition contains_text (t s : str) : Prop := exists i, occurs t s i.

(** numbers as digit lists, most significant first *)
Definition chars (ds : list nat) : str := map (fun d => ascii_of_nat (48 + d)) ds.
Definition digit_list (ds : list nat) : Prop := ds <> [] /\ Forall (fun d => d < 10) ds.
Definition num (ds : list nat) : Z := fold_left (fun a d => (10 * a + Z.of_nat d)%Z) ds 0%Z.
(** 004 stands for 0.04, 4 for 4 *)
Definition number_value (ds : list nat) : value :=
  match ds with 0 :: r => VDec (num r) (List.length r) | _ => VDec (num ds) 0 end.
(** the ways to specify a wake growth parameter in a model name, and the constructor arguments they stand for *)
Inductive growth := GNone | GK (x : list nat) | GKa (x : list nat) | GKaKb (x y : list nat) | GAmb (x : list nat) | GAmbKb (x y : list nat).
Definition growth_text (g : growth) : str :=
  match g with
  | GNone => []
  | GK x => lit "_k" ++ chars x
  | GKa x => lit "_ka" ++ chars x
  | GKaKb x y => lit "_ka" ++ chars x ++ lit "_kb" ++ chars y
  | GAmb x => lit "_ambka" ++ chars x
  | GAmbKb x y => lit "_ambka" ++ chars x ++ lit "_kb" ++ chars y
  end.
Definition growth_ok (g : growth) : Prop :=
  match g with GNone => True | GK x | GKa x | GAmb x => digit_list x | GKaKb x y | GAmbKb x y => digit_list x /\ digit_list y end.
Definition growth_args (g : growth) : option value * option value * option value * str :=
  match g with
  | GNone => (None, None, None, lit "TI")
  | GK x => (Some (number_value x), None, None, lit "TI")
  | GKa x => (None, Some (number_value x), None, lit "TI")
  | GKaKb x y => (None, Some (number_value x), Some (number_value y), lit "TI")
  | GAmb x => (None, Some (number_value x), None, lit "AMB_TI")
  | GAmbKb x y => (None, Some (number_value x), Some (number_value y), lit "AMB_TI")
  end.
