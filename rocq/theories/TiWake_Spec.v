(** Specification vocabulary for the wake-added turbulence. *)
From Verif Require Import RBase TiWake_Model.
Local Open Scope R_scope.

(** exponents and amplitudes of the usual signs *)
Definition ch_ok (p : crespo_pars) : Prop := 0 < ch_a_near p /\ 0 < ch_a_far p /\ ch_e3 p < 0.
(** the same constants, with the near wake length computed by the model *)
Definition auto_near (p : crespo_pars) : crespo_pars :=
  {| ch_a_near := ch_a_near p; ch_a_far := ch_a_far p; ch_e1 := ch_e1 p; ch_e2 := ch_e2 p; ch_e3 := ch_e3 p; ch_sbeta := ch_sbeta p; ch_near := None |}.
