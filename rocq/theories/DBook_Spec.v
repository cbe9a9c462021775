(** Specification vocabulary: what was added to a data book, in order. *)
From Coq Require Import String.
From Verif Require Import Base DBook_Model.
Section S.
  Variable is_file : string -> bool.
  Variable base_name : string -> string.
  (** the paths before the first one that is no file *)
  Fixpoint files_before (ps : list string) : list string := match ps with [] => [] | p :: r => if is_file p then p :: files_before r else [] end.
  (** a text ends with another, shorter and non-empty one *)
  Definition ends_with (f s : string) : Prop := exists a, a <> EmptyString /\ s <> EmptyString /\ f = (a ++ s)%string.
  (** (context, name, path) that a call adds *)
  Definition adds (k : call) : list (string * string * string) :=
    match k with
    | AddFiles c ps => map (fun p => (c, base_name p, p)) (files_before ps)
    | AddPackage c contents sfx => map (fun f => (c, fst f, snd f)) (filter (fun f => existsb (has_sfx (fst f)) sfx) contents)
    | AddPackageFile c n (Some p) => [(c, n, p)]
    | AddPackageFile _ _ None => []
    end.
  (** the context that a call mentions *)
  Definition context (k : call) : string := match k with AddFiles c _ | AddPackage c _ _ | AddPackageFile c _ _ => c end.
  (** the path added last *)
  Definition last_added (h : list call) (c n p : string) : Prop :=
    exists a b, flat_map adds h = (a ++ (c, n, p) :: b)%list /\ forall p', ~ In (c, n, p') b.
  Definition never_added (h : list call) (c n : string) : Prop := forall p, ~ In (c, n, p) (flat_map adds h).
End S.
