(** utils/exec_python.py: evaluation of python strings inside of a structure. Python's exec is an arbitrary function on the local variables; indicator and
    newline are single characters (as by default); globals are constant. *)
From Coq Require Import String Ascii.
From Verif Require Import Base Factory_Model.

Section Exec.
  (** python objects, dictionary keys *)
  Context {O K : Type}.
  (** the local variables, utils/exec_python.py:7 *)
  Definition env := list (str * O).
  (** exec(code, globals, locals): the locals afterwards and the exception, utils/exec_python.py:42, 51 *)
  Variable exec : str -> env -> env * option pyerr.

  (** the source: utils/exec_python.py:37-59 *)
  Inductive pv := Str (s : str) | Lst (l : list pv) | Tup (l : list pv) | Dct (l : list (K * pv)) | Obj (o : O).

  (** locals[v], line 52 *)
  Fixpoint getv (v : str) (e : env) : option O :=
    match e with [] => None | (w, o) :: r => if seqb v w then Some o else getv v r end.
  (** lines 50-51 *)
  Fixpoint run_all (cs : list str) (e : env) : env * option pyerr :=
    match cs with
    | [] => (e, None)
    | c :: r => match exec c e with (e', None) => run_all r e' | (e', Some x) => (e', Some x) end
    end.
  (** `indicator in a`, line 41 *)
  Definition has_char (c : ascii) (s : str) : bool := existsb (aeq c) s.
  (** lines 37-52: a string *)
  Definition run_str (ind nl : ascii) (s : str) (e : env) : result pv * env :=
    match s with
    | c :: _ :: _ =>
        let a := tl s in
        if aeq c ind then
          if has_char ind a then
            match split ind a with
            | [v; b] =>
                match run_all (split nl b) e with
                | (e', Some x) => (Err x, e')
                | (e', None) => match getv v e' with Some o => (Ok (Obj o), e') | None => (Err KeyError, e') end
                end
            | _ => (Err ValueError, e)
            end
          else match exec a e with (e', None) => (Ok (Str s), e') | (e', Some x) => (Err x, e') end
        else (Ok (Str s), e)
    | _ => (Ok (Str s), e)
    end.
  (** the elements of a list from left to right, the first exception ends it; lines 54, 58 (dict values) *)
  Definition eval_list {A} (f : A -> env -> result A * env) : list A -> env -> result (list A) * env :=
    fix go (l : list A) (sh : env) : result (list A) * env :=
      match l with
      | [] => (Ok [], sh)
      | x :: r => match f x sh with
                  | (Err e, sh1) => (Err e, sh1)
                  | (Ok y, sh1) => match go r sh1 with (Err e, sh2) => (Err e, sh2) | (Ok ys, sh2) => (Ok (y :: ys), sh2) end
                  end
      end.
  (** wrapping the result of a computation; lines 54-58 *)
  Definition fmap {A B} (f : A -> B) (r : result A * env) : result B * env :=
    match r with (Ok a, e) => (Ok (f a), e) | (Err x, e) => (Err x, e) end.
  (** lines 53-59 and the recursive calls (54, 56, 58), which pass the indicator only: newline and locals are the defaults, and the default locals
      are one dict object for all calls *)
  Fixpoint nested (ind : ascii) (s : pv) (sh : env) {struct s} : result pv * env :=
    match s with
    | Str t => run_str ind ";"%char t sh
    | Lst l => fmap Lst (eval_list (nested ind) l sh)
    | Tup l => fmap Tup (eval_list (nested ind) l sh)
    | Dct l => fmap Dct (eval_list (fun p e => fmap (pair (fst p)) (nested ind (snd p) e)) l sh)
    | Obj o => (Ok (Obj o), sh)
    end.
  (** a call; [own]: the argument locals, if given; [sh]: the default dict. Returns the value and both afterwards *)
  Definition exec_python (s : pv) (ind nl : ascii) (own : option env) (sh : env) : result pv * option env * env :=
    match s with
    | Str t => match own with
               | Some e => let (r, e') := run_str ind nl t e in (r, Some e', sh)
               | None => let (r, e') := run_str ind nl t sh in (r, None, e')
               end
    | _ => let (r, sh') := nested ind s sh in (r, own, sh')
    end.
End Exec.
Arguments pv : clear implicits.
Arguments env : clear implicits.
