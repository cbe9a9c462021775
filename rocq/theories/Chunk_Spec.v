(** Independent vocabulary for the chunking properties. *)
From Verif Require Import Base.
Local Open Scope Z_scope.

(** [l] splits [total] items into consecutive non-empty chunks. *)
Definition partitions (l : list Z) (total : Z) : Prop :=
  Forall (fun c => 1 <= c) l /\ fold_right Z.add 0 l = total.

(** Any two chunk sizes differ by at most one. *)
Definition balanced (l : list Z) : Prop :=
  forall a b, In a l -> In b l -> a - b <= 1.

(** Admissible engine settings: at least one process, chunk sizes absent or positive. *)
Definition valid_setting (n_procs : Z) (css csp : option Z) : Prop :=
  1 <= n_procs /\ (forall c, css = Some c -> 1 <= c) /\ (forall c, csp = Some c -> 1 <= c).
