(** What files of farm results should contain. *)
From Coq Require Import String.
From Verif Require Import Base Writer_Model.
Local Open Scope nat_scope.

(** the value of a column for a state and a turbine; plain indices number the rows *)
Definition cell (r : farm_results) (s t : nat) (n : name) : option val :=
  match n with
  | STATE => nth_error (labels r) s
  | TURBINE => Some (Lab (Z.of_nat t))
  | TNAME => Some (Txt (tnames r t))
  | INDEX | LEVEL0 => Some (Lab (Z.of_nat (s * nturb r + t)))
  | V v => match find (fun p => Nat.eqb v (fst p)) (fvars r) with Some p => Some (Num (snd p s t)) | None => None end
  | Tcol _ _ => None
  end.
(** a column has one row per state and turbine, and in it the value *)
Definition right_column (r : farm_results) (n : name) (c : list val) : Prop :=
  List.length c = List.length (labels r) * nturb r /\
  forall s t, s < List.length (labels r) -> t < nturb r -> nth_error c (s * nturb r + t) = cell r s t n.
(** all of a table is right *)
Definition right (r : farm_results) (f : frame) : Prop :=
  (forall n c, In (n, c) (idx f) -> right_column r n c) /\ (forall n c, In (n, c) (cols f) -> right_column r n c).
(** the variables of the results, with the turbine names *)
Definition columns (r : farm_results) : list name := (map (fun p => V (fst p)) (fvars r) ++ [TNAME])%list.
(** names of the index and of the columns of a table *)
Definition index_names (f : frame) : list name := map fst (idx f).
(** same for the columns *)
Definition column_names (f : frame) : list name := map fst (cols f).
(** calls of write_csv one after another: arguments variables, turbine_names, state_turbine_table *)
Definition run (self : frame) (l : list (vars * bool * bool)) : frame :=
  fold_left (fun f c => self' (write_csv f (fst (fst c)) (snd (fst c)) (snd c))) l self.
(** sorted out: a dataset has different names for different variables *)
Definition wf (r : farm_results) : Prop := NoDup (map fst (fvars r)).
