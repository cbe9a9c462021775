(** Specification for dynamic wakes: the path of the air that leaves a rotor, and its length. *)
From Verif Require Import RBase WindDir_Model.
Local Open Scope R_scope.

Section Path.
Variable dt : nat -> R.                  (* duration of each state *)
Variable wind : nat -> vec3 -> R * R.    (* direction (degrees, from north, where the wind comes from) and speed, at a point *)
Variable rotor : nat -> vec3.            (* rotor position in each state *)
(** Position after a states, when leaving the rotor at the begin of state st: each state st + a moves the point with the wind of
    that state at the present position, for the duration of that state. *)
Fixpoint traj (st a : nat) : vec3 :=
  match a with
  | O => rotor st
  | S a' => let p := traj st a' in
            let wd := fst (wind (st + a')%nat p) in let ws := snd (wind (st + a')%nat p) in
            (vx p - ws * sin (wd * PI / 180) * dt (st + a')%nat, vy p - ws * cos (wd * PI / 180) * dt (st + a')%nat, vz p)
  end.
(** Length of that path: speed times duration, summed. *)
Fixpoint tlen (st a : nat) : R :=
  match a with
  | O => 0
  | S a' => tlen st a' + Rabs (snd (wind (st + a')%nat (traj st a')) * dt (st + a')%nat)
  end.
End Path.
