(** C255: wakes recover. *)
From Verif Require Import RBase Superp_Model Superp_Spec Curves_Model Curves_Spec Symm_Model Whole_Model Whole_Spec Whole_Proofs Whole_Props Flow_Model Flow_Spec Flow_Proofs More_Spec More_Proofs More_Props Recover_Proofs.
Local Open Scope R_scope.

(** Far enough behind a wind farm whose wakes grow, the wind speed at all points is the ambient one up to any given difference. *)
Theorem C255_far_wake : forall c farm eps, good_scene c -> good_farm farm -> (forall t, In t farm -> 0 < y_k (t_set t)) -> 0 < eps ->
  exists res, farm_results c farm = Ok res /\ exists X, forall p, (forall t, In t farm -> X <= behind (c_wd c) t (probe p)) -> c_wsp c - eps <= p_ws (at_point c farm res p) <= c_wsp c.
Proof.
  intros c farm eps HS HF HK He. destruct (result_balanced c farm HS HF) as (res & E & B & _). exists res. split; [exact E|]. destruct (recovers c farm res HS HF B HK eps He) as (X & H). exists X. intros p Hp.
  rewrite (at_point_wind c farm res HS HF B p). cbn [p_ws]. split; [now apply H|exact (wind_below c farm res HS HF B p)].
Qed.
Print Assumptions C255_far_wake.
Example C255_nonvacuous : good_scene west /\ good_farm row2 /\ (forall t, In t row2 -> 0 < y_k (t_set t)) /\ forall x, 1000 <= x -> forall t, In t row2 -> x - 1000 <= behind (c_wd west) t (probe (x, 0, 100)).
Proof.
  destruct C250_nonvacuous as (HS & HF & _). split; [exact HS|]. split; [exact HF|]. split; [intros t [<-|[<-|[]]]; cbn; lra|]. intros x Hx t Ht.
  assert (S1 : sin (270 * PI / 180) = -1). { replace (270 * PI / 180) with (3 * (PI / 2)) by field. apply sin_3PI2. } assert (K1 : cos (270 * PI / 180) = 0). { replace (270 * PI / 180) with (3 * (PI / 2)) by field. apply cos_3PI2. }
  unfold behind. cbn [west c_wd]. rewrite S1, K1. destruct Ht as [<-|[<-|[]]]; cbn; unfold vx, vy; cbn; lra.
Qed.
(** Growth is needed: behind a turbine with wake growth 0 the wind speed is 10/3 m/s at all distances, also arbitrarily far away. *)
Theorem C255_growth_needed : exists c farm res, good_scene c /\ good_farm farm /\ farm_results c farm = Ok res /\ c_wsp c = 10 /\ forall x, 1 <= x -> p_ws (at_point c farm res (x, 0, 100)) = 10 / 3.
Proof.
  destruct C250_nonvacuous as (HS & _). assert (HF : good_farm front). { intros t Ht. apply tube_good. apply in_or_app. now right. } destruct (result_balanced west front HS HF) as (res & E & B & _). exists west, front, res.
  split; [exact HS|]. split; [exact HF|]. split; [exact E|]. split; [reflexivity|]. intros x Hx. rewrite (at_point_wind west front res HS HF B). cbn [p_ws].
  assert (C : r_ct (nth 0 res no_res) = 8/9). { destruct (result_bounds west front HS HF res E 0%nat ltac:(cbn; lia)) as [U1 U2]. specialize (U2 0 eq_refl). cbn [west c_wsp] in U1. destruct B as [_ B]. destruct (B 0%nat ltac:(cbn; lia)) as (W & C & _). cbv zeta in W, C. rewrite <- W in C. cbn [front nth at_xy t_set] in C. rewrite tube_ct in C by lra. now injection C. }
  assert (W0 : 0 < c_wsp west) by (cbn; lra).
  assert (U : r_ws (nth 0 res no_res) = 10). { apply (C250_undisturbed west front res 0 HS HF E ltac:(cbn; lia)). intros i Hi. left. destruct i; [|cbn in Hi; lia]. unfold behind. lra. }
  unfold wind_at. cbn [front length seq map nth]. rewrite (effect_pos west (at_xy 0 0) _ (probe (x, 0, 100)) (at_xy x 0)) by reflexivity. destruct (tube_effect 0 0 x 0 (nth 0 res no_res) C W0) as (_ & T & _). rewrite T; [|lra|rewrite Rminus_0_r, Rabs_R0; lra].
  rewrite U. cbn [west c_s c_low c_high c_wsp combination]. unfold absol. cbn [Superp_Spec.covering map rsum limited fst snd]. rewrite Rmax_left; lra.
Qed.
Print Assumptions C255_growth_needed.
