(** Shared vocabulary: python results with exceptions as values. *)
From Coq Require Export List Arith ZArith Lia Bool.
Export ListNotations.

(** Kinds of python exceptions the modelled code can raise. [OutOfFuel] is not a python
    exception: it marks exhaustion of a model's fuel and is excluded by theorems. [PlainException] is an
    exception of class Exception itself; UnboundLocalError counts as its base class NameError. *)
Inductive pyerr :=
| ValueError | KeyError | IndexError | TypeError | AttributeError
| AssertionError | ZeroDivisionError | NameError | NotImplementedError | PlainException | OutOfFuel.

Inductive result (A : Type) :=
| Ok (a : A)
| Err (e : pyerr).
Arguments Ok {A} a.
Arguments Err {A} e.

Definition bind {A B} (r : result A) (f : A -> result B) : result B :=
  match r with Ok a => f a | Err e => Err e end.
Notation "'do' x <- r ; f" := (bind r (fun x => f))
  (at level 200, x pattern, r at level 100, f at level 200).

Lemma bind_ok {A B} (r : result A) (f : A -> result B) b :
  bind r f = Ok b -> exists a, r = Ok a /\ f a = Ok b.
Proof. destruct r; cbn; intros H; [eauto|discriminate]. Qed.
