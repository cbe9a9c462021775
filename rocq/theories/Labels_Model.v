(** Model of the output functions of a parameter file and their result labels:
    /repo/foxes/input/yaml/dict.py:238-246 (_get_object), 249-339 (run_obj_function), 389-441
    (run_outputs). Strings are lists of characters. Creating output objects and calling their
    functions is left to an arbitrary environment that sees the history.
    Simplifications: the arguments algo and farm that run_obj_function adds (dict.py:296-301),
    plt_show and the skipping of outputs without farm results (see Params_Model) are left out;
    int() is modelled for optional surrounding blanks, a sign and decimal digits. *)
From Coq Require Import Ascii.
From Verif Require Import Base.

(** python str *)
Definition str := list ascii.
(** equality of strings *)
Fixpoint seqb (a b : str) : bool :=
  match a, b with
  | [], [] => true
  | x :: a', y :: b' => Ascii.eqb x y && seqb a' b'
  | _, _ => false
  end.
(** the characters that matter *)
Definition dollar : ascii := "$"%char.
Definition lbr : ascii := "["%char.
Definition rbr : ascii := "]"%char.
Definition comma : ascii := ","%char.
Definition minus : ascii := "-"%char.
Definition plus : ascii := "+"%char.
Definition blank : ascii := " "%char.

(** dict.py:240, d.replace("]", "") *)
Definition drop_rbr (d : str) : str := filter (fun c => negb (Ascii.eqb c rbr)) d.
(** dict.py:241, d.find("["): position of the first one *)
Fixpoint find_lbr (d : str) : option nat :=
  match d with
  | [] => None
  | c :: r => if Ascii.eqb c lbr then Some 0
              else match find_lbr r with Some i => Some (S i) | None => None end
  end.
(** dict.py:243, split(",") *)
Fixpoint split_comma (d : str) : list str :=
  match d with
  | [] => [[]]
  | c :: r => match split_comma r with
              | [] => [[c]]                       (* unreachable *)
              | h :: t => if Ascii.eqb c comma then [] :: h :: t else (c :: h) :: t
              end
  end.
(** value of a decimal digit *)
Definition digit (c : ascii) : option Z :=
  let n := nat_of_ascii c in
  if (48 <=? n) && (n <=? 57) then Some (Z.of_nat (n - 48)) else None.
(** the digits of int() *)
Fixpoint digits (acc : Z) (d : str) : option Z :=
  match d with
  | [] => Some acc
  | c :: r => match digit c with Some v => digits (10 * acc + v)%Z r | None => None end
  end.
(** leading blanks *)
Fixpoint lstrip (d : str) : str :=
  match d with c :: r => if Ascii.eqb c blank then lstrip r else d | [] => [] end.
(** dict.py:243, int(x) *)
Definition parse_int (d : str) : result Z :=
  let e := rev (lstrip (rev (lstrip d))) in
  let num (x : str) := match x with
                       | [] => None
                       | _ => digits 0%Z x end in
  let v := match e with
           | c :: r => if Ascii.eqb c minus then option_map Z.opp (num r)
                       else if Ascii.eqb c plus then num r else num e
           | [] => None
           end in
  match v with Some z => Ok z | None => Err ValueError end.
(** a list comprehension whose element expression may raise *)
Fixpoint mapr {A B} (f : A -> result B) (l : list A) : result (list B) :=
  match l with
  | [] => Ok []
  | a :: r => do b <- f a; do t <- mapr f r; Ok (b :: t)
  end.

Section Run.
Context {V : Type}.
(** python operations on objects: obj[tuple], obj[i] for an int i, None and strings as objects *)
Variable index : V -> list Z -> result V.
Variable item : V -> nat -> result V.
Variable none : V.
Variable vstr : str -> V.

(** the label dictionary, dict.py:390 *)
Definition labels := list (str * V).
(** rlabels[k] *)
Fixpoint look (k : str) (l : labels) : option V :=
  match l with
  | [] => None
  | (k', v) :: r => if seqb k k' then Some v else look k r
  end.
(** rlabels[k] = v, dict.py:331 *)
Fixpoint put (k : str) (v : V) (l : labels) : labels :=
  match l with
  | [] => [(k, v)]
  | (k', v') :: r => if seqb k k' then (k, v) :: r else (k', v') :: put k v r
  end.
(** rlabels[k] with its KeyError, utils/dict.py:124-130 *)
Definition fetch (l : labels) (k : str) : result V :=
  match look k l with Some v => Ok v | None => Err KeyError end.

(** dict.py:238-246 *)
Definition get_object (l : labels) (d : str) : result V :=
  let c := drop_rbr d in
  match find_lbr c with
  | Some (S i) =>
      do inds <- mapr parse_int (split_comma (skipn (S (S i)) c));
      do o <- fetch l (firstn (S i) c);
      index o inds
  | _ => fetch l c
  end.

(** an entry of a function dictionary: a string or any other object *)
Inductive arg := AStr (s : str) | AObj (v : V).
(** dict.py:303-306 *)
Definition resolve (l : labels) (a : arg) : result V :=
  match a with
  | AObj v => Ok v
  | AStr [] => Err IndexError                     (* d[0] of the empty string *)
  | AStr (c :: r) => if Ascii.eqb c dollar then get_object l (c :: r) else Ok (vstr (c :: r))
  end.

(** the result labels of a function, dict.py:289, 333-337: none, one, or a list of them *)
Inductive lspec := LNone | LOne (k : str) | LList (ks : list str).
(** dict.py:285-289: a function with its arguments (names are positions here), plt_close and
    result_labels *)
Record func := mkfunc { f_name : nat; f_args : list arg; f_close : bool; f_labels : lspec }.

(** what happens: a function of an object is called with these arguments, given as [gs]; a result
    is stored under a label; an output object is created *)
Inductive event :=
| ECall (o : V) (f : nat) (gs : list arg) (vs : list V)
| EStore (k : str) (v : V)
| ENew (cls : nat) (o : V).
(** the environment: the result of creating an object or of calling a function *)
Variable create : list event -> nat -> result V.
Variable call : list event -> V -> nat -> list V -> result V.

(** dict.py:323: labels that are not stored *)
Definition ignored (k : str) : bool :=
  existsb (seqb k) [[]; ["n"; "o"; "n"; "e"]%char; ["N"; "o"; "n"; "e"]%char; ["_"]%char; ["_"; "_"]%char].
(** dict.py:324-329: the form of a label *)
Definition well_formed (k : str) : bool :=
  match k with
  | c :: _ => Ascii.eqb c dollar
              && forallb (fun x => negb (Ascii.eqb x lbr || Ascii.eqb x rbr || Ascii.eqb x comma)) k
  | [] => false
  end.
(** the labels and the history *)
Definition state : Type := labels * list event.
(** dict.py:322-331 (_set_label) *)
Definition set_label (st : state) (k : str) (r : V) : state * result unit :=
  if ignored k then (st, Ok tt)
  else if well_formed k then ((put k r (fst st), snd st ++ [EStore k r]), Ok tt)
  else (st, Err AssertionError).
(** dict.py:334-335: label i gets results[i] *)
Fixpoint set_labels (st : state) (i : nat) (ks : list str) (r : V) : state * result unit :=
  match ks with
  | [] => (st, Ok tt)
  | k :: t =>
      match item r i with
      | Err e => (st, Err e)
      | Ok v => let (st1, x) := set_label st k v in
                match x with Ok _ => set_labels st1 (S i) t r | Err e => (st1, Err e) end
      end
  end.
(** dict.py:249-339 (run_obj_function) *)
Definition run_func (st : state) (o : V) (f : func) : state * result V :=
  match mapr (resolve (fst st)) (f_args f) with
  | Err e => (st, Err e)
  | Ok vs =>
      match call (snd st) o (f_name f) vs with
      | Err e => (st, Err e)
      | Ok r0 =>
          let st1 := (fst st, snd st ++ [ECall o (f_name f) (f_args f) vs]) in
          let r := if f_close f then none else r0 in      (* dict.py:315-317 *)
          let (st2, x) := match f_labels f with
                          | LNone => (st1, Ok tt)
                          | LOne k => set_label st1 k r
                          | LList ks => set_labels st1 0 ks r
                          end in
          (st2, match x with Ok _ => Ok r | Err e => Err e end)
      end
  end.
(** dict.py:433-435 *)
Fixpoint run_funcs (st : state) (o : V) (fs : list func) : state * result (list V) :=
  match fs with
  | [] => (st, Ok [])
  | f :: t =>
      let (st1, r) := run_func st o f in
      match r with
      | Err e => (st1, Err e)
      | Ok v => let (st2, q) := run_funcs st1 o t in
                (st2, match q with Ok l => Ok (v :: l) | Err e => Err e end)
      end
  end.
(** dict.py:398-430: an output is of a given class, or a labelled object *)
Inductive target := TNew (cls : nat) | TObj (k : str).
(** dict.py:397-430: the object of an output *)
Definition get_target (st : state) (t : target) : state * result V :=
  match t with
  | TNew c => match create (snd st) c with
              | Ok o => ((fst st, snd st ++ [ENew c o]), Ok o)
              | Err e => (st, Err e)
              end
  | TObj k => (st, get_object (fst st) k)
  end.
(** dict.py:397-436 *)
Fixpoint run_list (st : state) (os : list (target * list func)) : state * result (list (list V)) :=
  match os with
  | [] => (st, Ok [])
  | (t, fs) :: r =>
      let (st1, o) := get_target st t in
      match o with
      | Err e => (st1, Err e)
      | Ok ob =>
          let (st2, x) := run_funcs st1 ob fs in
          match x with
          | Err e => (st2, Err e)
          | Ok l => let (st3, q) := run_list st2 r in
                    (st3, match q with Ok m => Ok (l :: m) | Err e => Err e end)
          end
      end
  end.
(** what run_outputs returns: the list of outputs alone, or with the labels *)
Inductive returned := Outs (l : list (list V)) | OutsAndLabels (l : list (list V)) (r : labels).
(** dict.py:389-441; the conditional expression of the return statement binds tighter than the
    comma *)
Definition run_outputs (ret_rlabels : bool) (os : list (target * list func)) : state * result returned :=
  let (st, r) := run_list ([], []) os in
  (st, match r with
       | Ok l => Ok (OutsAndLabels (if negb ret_rlabels then l else l) (fst st))
       | Err e => Err e
       end).
End Run.
Arguments arg V : clear implicits.
Arguments func V : clear implicits.
Arguments event V : clear implicits.
Arguments labels V : clear implicits.
Arguments state V : clear implicits.
