(** Theorems about vertical wind profiles. *)
From Verif Require Import RBase Profiles_Model Profiles_Proofs.
Local Open Scope R_scope.

(** C39: through the reference *)
Theorem C39_power_law_reference ws0 h0 shear : 0 < h0 -> sheared_ws ws0 h0 shear h0 = ws0.
Proof. exact (sheared_ref ws0 h0 shear). Qed.
Print Assumptions C39_power_law_reference.
Theorem C39_neutral_reference w hr z0 : 0 < z0 < hr -> neutral_ws (Wind w hr) z0 hr = w.
Proof. exact (neutral_ref w hr z0). Qed.
Print Assumptions C39_neutral_reference.
Theorem C39_stable_reference w hr z0 mol : 0 < z0 -> 0 < mol -> 0 < hr -> stable_ws (Wind w hr) z0 mol hr = w.
Proof. exact (stable_ref w hr z0 mol). Qed.
Print Assumptions C39_stable_reference.
Theorem C39_unstable_reference w hr z0 mol : logz hr z0 - psi_unstable hr mol <> 0 -> unstable_ws (Wind w hr) z0 mol hr = w.
Proof. exact (unstable_ref w hr z0 mol). Qed.
Print Assumptions C39_unstable_reference.
(** monotone and non-negative *)
Theorem C39_power_law_shape ws0 h0 shear h h' : 0 <= ws0 -> 0 < h0 -> 0 <= shear -> 0 < h <= h' ->
  0 <= sheared_ws ws0 h0 shear h <= sheared_ws ws0 h0 shear h'.
Proof. exact (sheared_shape ws0 h0 shear h h'). Qed.
Print Assumptions C39_power_law_shape.
Theorem C39_neutral_shape i z0 h h' : 0 < z0 -> ref_ok i z0 -> h <= h' -> 0 <= neutral_ws i z0 h <= neutral_ws i z0 h'.
Proof. exact (neutral_shape i z0 h h'). Qed.
Print Assumptions C39_neutral_shape.
Theorem C39_stable_shape i z0 mol h h' : 0 < z0 -> 0 < mol -> ref_ok i z0 -> 0 <= h <= h' ->
  0 <= stable_ws i z0 mol h <= stable_ws i z0 mol h'.
Proof. exact (stable_shape i z0 mol h h'). Qed.
Print Assumptions C39_stable_shape.
(** the unstable profile is monotone, too, above the roughness length *)
Theorem C39_unstable_monotone i z0 mol h h' : 0 < z0 <= h -> h <= h' -> mol < 0 ->
  match i with Ustar us => 0 <= us | Wind w hr => 0 <= w /\ 0 < logz hr z0 - psi_unstable hr mol end ->
  unstable_ws i z0 mol h <= unstable_ws i z0 mol h'.
Proof. exact (unstable_mono i z0 mol h h'). Qed.
Print Assumptions C39_unstable_monotone.
(** the combined profile selects by stability *)
Theorem C39_combined_profile i z0 h :
  abl_ws i z0 None h = neutral_ws i z0 h /\ abl_ws i z0 (Some 0) h = neutral_ws i z0 h /\
  (forall mol, 0 < mol -> abl_ws i z0 (Some mol) h = stable_ws i z0 mol h) /\
  (forall mol, mol < 0 -> abl_ws i z0 (Some mol) h = unstable_ws i z0 mol h).
Proof.
  unfold abl_ws. split; [reflexivity|]. split; [now rewrite Reqb_refl|]. split; intros mol H; rdec; try lra; reflexivity.
Qed.
Print Assumptions C39_combined_profile.
Example C39_nonvacuous : ref_ok (Wind 10 100) 0.05 /\ neutral_ws (Wind 10 100) 0.05 100 = 10 /\ 0 < neutral_ws (Wind 10 100) 0.05 50.
Proof.
  split; [cbn; lra|]. split; [apply neutral_ref; lra|]. unfold neutral_ws, calc_neutral, ustar_neutral. pose proof kappa_pos.
  pose proof (logz_pos 100 0.05 ltac:(lra)). pose proof (logz_pos 50 0.05 ltac:(lra)).
  apply Rmult_lt_0_compat; [|assumption]. apply Rdiv_lt_0_compat; [|assumption]. apply Rdiv_lt_0_compat; [lra|assumption].
Qed.

(** C83 is false for the unstable profile: at the roughness length the wind speed is negative, for every friction
    velocity and every Monin-Obukhov length. *)
Theorem C83_nonnegative_refuted us z0 mol : 0 < us -> 0 < z0 -> mol < 0 -> unstable_ws (Ustar us) z0 mol z0 < 0.
Proof. exact (unstable_neg_at_z0 us z0 mol). Qed.
Print Assumptions C83_nonnegative_refuted.
(** All profiles are non-negative above any height at which they are non-negative (which all but the unstable one are
    everywhere). *)
Theorem C83_nonnegative_above_partial i z0 mol h h' : 0 < z0 <= h -> h <= h' -> mol < 0 ->
  match i with Ustar us => 0 <= us | Wind w hr => 0 <= w /\ 0 < logz hr z0 - psi_unstable hr mol end ->
  0 <= unstable_ws i z0 mol h -> 0 <= unstable_ws i z0 mol h'.
Proof. intros H Hh Hm Ho P. pose proof (unstable_mono i z0 mol h h' H Hh Hm Ho). lra. Qed.
Print Assumptions C83_nonnegative_above_partial.
