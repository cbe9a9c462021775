(** Specification: how names of turbine type files are written, /repo/foxes/data/parse.py:5-22
    (e.g. "NREL-5MW-D126-H90.csv", "IWT_7d5MW_D164_H100.csv"). *)
From Verif Require Import Factory_Model Factory_Spec TypeName_Model.
Local Open Scope list_scope.

(** a number written with digits and possibly a decimal mark: whole part and decimals *)
Definition number := (list nat * option (list nat))%type.
Definition number_ok (x : number) : Prop :=
  digit_list (fst x) /\ match snd x with None => True | Some f => Forall (fun d => d < 10) f end.
Definition number_text (mark : ascii) (x : number) : str :=
  chars (fst x) ++ match snd x with None => [] | Some f => mark :: chars f end.
(** its value m / 10^e *)
Definition number_dec (x : number) : dec :=
  match snd x with None => (num (fst x), 0) | Some f => (num (fst x ++ f), List.length f) end.

(** units of power *)
Inductive punit := Watt | KiloWatt | MegaWatt | GigaWatt.
Definition unit_text (u : punit) : str :=
  match u with Watt => lit "W" | KiloWatt => lit "kW" | MegaWatt => lit "MW" | GigaWatt => lit "GW" end.
(** a power in kilowatts *)
Definition kilowatts (u : punit) (x : dec) : dec :=
  match u with
  | Watt => (fst x, 3 + snd x)
  | KiloWatt => x
  | MegaWatt => ((1000 * fst x)%Z, snd x)
  | GigaWatt => ((1000000 * fst x)%Z, snd x)
  end.

(** what a part of a name can state *)
Inductive token := Power (x : number) (u : punit) | Diameter (x : number) | Height (x : number) | Word (w : str).
Definition token_text (mark : ascii) (t : token) : str :=
  match t with
  | Power x u => number_text mark x ++ unit_text u
  | Diameter x => "D"%char :: number_text mark x
  | Height x => "H"%char :: number_text mark x
  | Word w => w
  end.
(** a text without separators, dots and slashes *)
Definition plain (w : str) : Prop :=
  ~ In "-"%char w /\ ~ In "_"%char w /\ ~ In "."%char w /\ ~ In "/"%char w.
(** words do not begin with D or H and do not end with W *)
Definition word_ok (w : str) : Prop :=
  plain w /\ exists a r z, w = a :: r /\ a <> "D"%char /\ a <> "H"%char /\ last w z <> "W"%char.
Definition token_ok (t : token) : Prop :=
  match t with Power x _ | Diameter x | Height x => number_ok x | Word w => word_ok w end.

(** the file name: directory, base name, parts after separators, extension *)
Definition file_name (dir : str) (sep mark : ascii) (b : str) (ts : list token) (ext : str) : str :=
  dir ++ b ++ concat (map (fun t => sep :: token_text mark t) ts) ++ "."%char :: ext.
Definition directory (dir : str) : Prop := dir = [] \/ exists d, dir = d ++ ["/"%char].
Definition extension (ext : str) : Prop := ext <> [] /\ ~ In "."%char ext /\ ~ In "/"%char ext.
(** decimals are marked by d, or by a dot where the parts are separated by underscores *)
Definition style_ok (sep mark : ascii) : Prop :=
  (sep = "-"%char /\ mark = "d"%char) \/ (sep = "_"%char /\ (mark = "d"%char \/ mark = "."%char)).

(** what the name says: the last statement of each kind counts; powers and words stay in the name *)
Fixpoint last_of {A} (f : token -> option A) (ts : list token) : option A :=
  match ts with [] => None | t :: r => match last_of f r with Some a => Some a | None => f t end end.
Definition stated_power (t : token) : option dec := match t with Power x u => Some (kilowatts u (number_dec x)) | _ => None end.
Definition stated_D (t : token) : option dec := match t with Diameter x => Some (number_dec x) | _ => None end.
Definition stated_H (t : token) : option dec := match t with Height x => Some (number_dec x) | _ => None end.
Definition stated_name (mark : ascii) (b : str) (ts : list token) : str :=
  b ++ concat (map (fun t => match t with Power _ _ | Word _ => "-"%char :: token_text mark t | _ => [] end) ts).

(** equal numbers, and equal entries *)
Definition same_dec (a b : dec) : Prop := (fst a * 10 ^ Z.of_nat (snd b) = fst b * 10 ^ Z.of_nat (snd a))%Z.
Definition same_entry (a b : option dec) : Prop :=
  match a, b with Some x, Some y => same_dec x y | None, None => True | _, _ => False end.
(** i is the length of the longest common beginning *)
Definition longest_common (a b : str) (n : str) : Prop :=
  exists x y, a = n ++ x /\ b = n ++ y /\ match x, y with c :: _, d :: _ => c <> d | _, _ => True end.
