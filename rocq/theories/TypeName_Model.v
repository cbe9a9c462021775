(** Model of the information in names of turbine type files: /repo/foxes/data/parse.py.
    Strings are lists of characters (Factory_Model). Simplifications: python's float is the one of
    Factory_Model (plain digits with at most one dot; signs, exponents, blanks, underscores, inf and
    nan, which python also accepts, are ValueError here), numbers are exact decimals m / 10^e, the
    warnings issued at parse.py:30-32, 36-38 are left out, and Path keeps only its last component
    (no trailing slash). *)
From Verif Require Export Factory_Model.
Local Open Scope list_scope.

(** a decimal number m / 10^e, parse.py:51-63 *)
Definition dec := (Z * nat)%type.
(** float(p.replace("d", ".")), parse.py:51-63 *)
Definition num_of (p : str) : result dec :=
  match pyfloat (map (fun c => if aeq c "d"%char then "."%char else c) p) with
  | Ok (VDec m e) => Ok (m, e)
  | Ok _ => Err TypeError                            (* pyfloat gives decimals only *)
  | Err e => Err e
  end.
(** the dictionary of parse.py:25, 46-67; None: no such key *)
Record pars := mkpars { p_name : str; p_P : option dec; p_D : option dec; p_H : option dec }.

(** c in s, parse.py:29-43 *)
Definition has (c : ascii) (s : str) : bool := existsb (aeq c) s.
(** c.join(l) *)
Fixpoint joinc (c : ascii) (l : list str) : str :=
  match l with [] => [] | [w] => w | w :: l' => w ++ c :: joinc c l' end.
(** Path(file_name).stem, parse.py:24: the last component, without the text from its last dot on if
    that dot is neither its first nor its last character *)
Definition stem (f : str) : str :=
  let name := last (split "/"%char f) [] in
  let parts := split "."%char name in
  match last parts [], joinc "."%char (removelast parts) with
  | _ :: _, (_ :: _) as s => s
  | _, _ => name
  end.
(** the text from the first dot on, parse.py:27-29 *)
Fixpoint from_dot (s : str) : str :=
  match s with [] => [] | c :: r => if aeq c "."%char then s else from_dot r end.
(** one piece of the name, parse.py:48-65 *)
Definition piece (q : pars) (p : str) : result pars :=
  match rev p with
  | [] => Err IndexError                                           (* p[-1] *)
  | c :: r =>
      if aeq c "W"%char then
        match r with
        | [] => Err IndexError                                     (* p[-2] *)
        | u :: r' =>
            do x <- (if aeq u "k"%char then num_of (rev r')
                     else if aeq u "M"%char then do x <- num_of (rev r'); Ok ((1000 * fst x)%Z, snd x)
                     else if aeq u "G"%char then do x <- num_of (rev r'); Ok ((1000000 * fst x)%Z, snd x)
                     else do x <- num_of (rev r); Ok (fst x, 3 + snd x));
            Ok (mkpars (p_name q ++ "-"%char :: p) (Some x) (p_D q) (p_H q))
        end
      else
        match p with
        | d :: p' =>
            if aeq d "D"%char then do x <- num_of p'; Ok (mkpars (p_name q) (p_P q) (Some x) (p_H q))
            else if aeq d "H"%char then do x <- num_of p'; Ok (mkpars (p_name q) (p_P q) (p_D q) (Some x))
            else Ok (mkpars (p_name q ++ "-"%char :: p) (p_P q) (p_D q) (p_H q))
        | [] => Err IndexError
        end
  end.
(** the loop, parse.py:48 *)
Fixpoint pieces (q : pars) (ps : list str) : result pars :=
  match ps with [] => Ok q | p :: ps' => do q' <- piece q p; pieces q' ps' end.
(** parse.py:46-67 for the list made in 41-44 *)
Definition of_pieces (l : list str) : result pars :=
  match l with [] => Err IndexError | b :: ps => pieces (mkpars b None None None) ps end.
(** parse_Pct_file_name, parse.py:5-67. Without separator, pieces (46) is not bound. *)
Definition parse_name (f : str) : result pars :=
  let s := stem f in
  let only := mkpars (List.hd [] (split "."%char s)) None None None in
  if has "-"%char (from_dot s) then Ok only
  else if has "-"%char s && has "_"%char s then Ok only
  else if has "-"%char s then of_pieces (split "-"%char s)
  else if has "_"%char s then of_pieces (split "_"%char s)
  else Err NameError.

(** the while loop, parse.py:95-97: the number of equal leading characters *)
Fixpoint common (a b : str) : nat :=
  match a, b with x :: a', y :: b' => if aeq x y then S (common a' b') else 0 | _, _ => 0 end.
(** parse.py:98-99 *)
Definition no_dash (name : str) (i : nat) : nat :=
  match i with 0 => 0 | S j => match nth_error name j with Some c => if aeq c "-"%char then j else i | None => i end end.
(** equality of numbers, parse.py:106 *)
Definition dec_eqb (a b : dec) : bool := (fst a * 10 ^ Z.of_nat (snd b) =? fst b * 10 ^ Z.of_nat (snd a))%Z.
(** equality of entries of the dictionaries, parse.py:106 *)
Definition odec_eqb (a b : option dec) : bool :=
  match a, b with Some x, Some y => dec_eqb x y | None, None => true | _, _ => false end.
(** parse_Pct_two_files, parse.py:70-111 *)
Definition parse_two (fa fb : str) : result pars :=
  do A <- parse_name fa;
  do B <- parse_name fb;
  let i := no_dash (p_name A) (common (p_name A) (p_name B)) in
  match i with
  | 0 => Err ValueError
  | _ => if odec_eqb (p_P A) (p_P B) && odec_eqb (p_D A) (p_D B) && odec_eqb (p_H A) (p_H B)
         then Ok (mkpars (firstn i (p_name A)) (p_P A) (p_D A) (p_H A)) else Err ValueError
  end.
