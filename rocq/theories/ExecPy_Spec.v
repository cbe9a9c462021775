(** Specification vocabulary: python strings in structures. *)
From Coq Require Import String Ascii.
From Verif Require Import Base Factory_Model ExecPy_Model.
Section S.
  Context {O K : Type}.
  (** a text that is not code: it does not begin with the indicator, or consists of it *)
  Definition no_code (ind : ascii) (s : str) : Prop := List.hd_error s <> Some ind \/ length s <= 1.
  (** a value without code *)
  Fixpoint plain (ind : ascii) (s : pv O K) : Prop :=
    match s with
    | Str t => no_code ind t
    | Lst l | Tup l => (fix all l := match l with [] => True | x :: r => plain ind x /\ all r end) l
    | Dct l => (fix all l := match l with [] => True | (_, x) :: r => plain ind x /\ all r end) l
    | Obj _ => True
    end.
  (** the same structure: lists, tuples and dictionaries with the same keys; text may have become an object *)
  Fixpoint same_shape (a b : pv O K) : Prop :=
    match a, b with
    | Str s, Str t => s = t
    | Str _, Obj _ => True
    | Obj o, Obj o' => o = o'
    | Lst l, Lst l' | Tup l, Tup l' => (fix all l l' := match l, l' with [], [] => True | x :: r, y :: r' => same_shape x y /\ all r r' | _, _ => False end) l l'
    | Dct l, Dct l' => (fix all l l' := match l, l' with [], [] => True | (k, x) :: r, (k', y) :: r' => k = k' /\ same_shape x y /\ all r r' | _, _ => False end) l l'
    | _, _ => False
    end.
  (** statements executed one after the other without an exception *)
  Inductive steps (exec : str -> env O -> env O * option pyerr) : list str -> env O -> env O -> Prop :=
  | st_nil e : steps exec [] e e
  | st_cons c cs e e1 e2 : exec c e = (e1, None) -> steps exec cs e1 e2 -> steps exec (c :: cs) e e2.
  (** texts joined by a character *)
  Fixpoint joined (c : ascii) (l : list str) : str := match l with [] => [] | [x] => x | x :: r => x ++ c :: joined c r end.
  (** the value stored first under a name *)
  Inductive stored (v : str) (o : O) : env O -> Prop :=
  | sv_here e : stored v o ((v, o) :: e)
  | sv_there w p e : v <> w -> stored v o e -> stored v o ((w, p) :: e).
End S.
