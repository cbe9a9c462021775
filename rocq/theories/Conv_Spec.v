(** What "converged" should mean. *)
From Verif Require Import RBase.
Local Open Scope R_scope.

(** the two floats are numbers and differ by at most [lim] (wind directions: on the circle) *)
Definition close (is_wd : bool) (lim : R) (x0 x : option R) : Prop :=
  exists a b, x0 = Some a /\ x = Some b /\
    if is_wd then exists k : Z, Rabs (b - a + 360 * IZR k) <= lim else Rabs (b - a) <= lim.
(** arrays that hold wind directions in [0,360] *)
Definition wd_array (l : list (option R)) : Prop := forall a, In (Some a) l -> 0 <= a <= 360.
Definition wd_ok (is_wd : bool) (x0 x : list (option R)) : Prop := is_wd = true -> wd_array x0 /\ wd_array x.
(** all variables present, non-empty arrays of matching size, wind directions in range *)
Definition well_formed (wd_vars : nat -> bool) (limits : list (nat * R)) (prev res : nat -> option (list (option R))) : Prop :=
  forall v lim, In (v, lim) limits -> exists x0 x, prev v = Some x0 /\ res v = Some x /\ x0 <> [] /\ length x0 = length x /\ wd_ok (wd_vars v) x0 x.
