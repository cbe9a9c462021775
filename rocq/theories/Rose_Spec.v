(** Specifications for wind roses. *)
From Verif Require Import RBase.
Local Open Scope R_scope.
(** the direction is in the sector around the centre: lower limit included, upper limit not included, directions modulo 360 *)
Definition in_sector (centre width wd : R) : Prop := exists m : Z, centre - width / 2 <= wd + 360 * IZR m < centre + width / 2.
(** the value is in bin j: lower edge included, upper edge only for the last bin *)
Definition in_interval (edges : list R) (j : nat) (x : R) : Prop :=
  (S j < length edges)%nat /\ nth j edges 0 <= x /\ (x < nth (S j) edges 0 \/ (S (S j) = length edges /\ x = nth (S j) edges 0)).
