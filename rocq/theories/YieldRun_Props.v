(** C251: energy yields of complete runs. *)
From Coq Require Import Permutation.
From Verif Require Import RBase Chunk_Model Chunk_Spec EngineRun_Model FarmEval_Model FarmEval_Proofs Superp_Model Curves_Model Curves_Spec Symm_Model Whole_Model Whole_Spec Whole_Proofs Whole_Props YieldRun_Model YieldRun_Spec YieldRun_Proofs.
Local Open Scope R_scope.

(** For all numbers of processes and chunk sizes and all orders in which the chunks are completed, the yields are those of the balanced results of the states, weighted with the weights of the states. *)
Theorem C251_yields : forall c farm np css csp zs sched unit, good_farm farm -> good_states c zs -> valid_setting np css csp -> schedule np css csp (length zs) sched ->
  exists y y0 res, yields c farm np css csp zs sched unit = Ok (y, y0) /\ Forall2 (fun z r => balanced (with_wind c z) farm r) zs res /\
    forall t, y t = per_year unit (rsum (map (fun zr => r_p (nth t (snd zr) no_res) * z_weight (fst zr)) (combine zs res))) /\
              y0 t = per_year unit (rsum (map (fun z => value (y_P (t_set (nth t farm no_turb))) (z_ws z) * z_weight z) zs)).
Proof.
  intros c farm np css csp zs sched unit HF HS HV HP. destruct (yields_ok c farm np css csp zs sched unit HF HS HV HP) as (y & y0 & E & A & B). exists y, y0, (map (rows_of c farm) zs).
  split; [exact E|]. split.
  - destruct HS as [_ HS]. clear -HF HS. induction zs as [|z zs IH]; [constructor|]. cbn [map]. constructor; [apply rows_ok; [exact HF|apply HS; now left]|]. apply IH. intros; apply HS; now right.
  - intros t. split; [|apply B]. rewrite A. f_equal. f_equal. clear. induction zs as [|z zs IH]; [reflexivity|]. cbn [map combine fst snd]. now rewrite IH.
Qed.
Print Assumptions C251_yields.
(** The yields do not depend on the engine and its settings, nor on the order of the states. *)
Theorem C251_same_yields : forall c farm np css csp zs sched np' css' csp' zs' sched' unit, good_farm farm -> good_states c zs -> Permutation zs zs' ->
  valid_setting np css csp -> schedule np css csp (length zs) sched -> valid_setting np' css' csp' -> schedule np' css' csp' (length zs') sched' ->
  exists y y0 y' y0', yields c farm np css csp zs sched unit = Ok (y, y0) /\ yields c farm np' css' csp' zs' sched' unit = Ok (y', y0') /\ forall t, y t = y' t /\ y0 t = y0' t.
Proof.
  intros c farm np css csp zs sched np' css' csp' zs' sched' unit HF HS P HV HP HV' HP'. destruct (yields_ok c farm np css csp zs sched unit HF HS HV HP) as (y & y0 & E & A & B).
  assert (HS' : good_states c zs'). { destruct HS as [H0 H1]. split; [intros ->; apply H0; now apply Permutation_nil, Permutation_sym|]. intros z Hz. apply H1. now apply (Permutation_in z (Permutation_sym P)). }
  destruct (yields_ok c farm np' css' csp' zs' sched' unit HF HS' HV' HP') as (y' & y0' & E' & A' & B'). exists y, y0, y', y0'. split; [exact E|]. split; [exact E'|]. intros t. rewrite A, B, A', B'.
  split; f_equal; apply rsum_perm; now apply Permutation_map.
Qed.
Print Assumptions C251_same_yields.
(** With power curves that do not fall up to the wind speeds of the states, no turbine and no wind farm yields more than without wakes, and no yield is negative. *)
Theorem C251_losses : forall c farm np css csp zs sched unit, good_farm farm -> good_states c zs -> valid_setting np css csp -> schedule np css csp (length zs) sched -> 0 <= unit ->
  (forall z, In z zs -> 0 <= z_weight z) ->
  (forall t, In t farm -> Curves_Spec.increasing (y_P (t_set t)) /\ forall z, In z zs -> z_ws z <= fst (last (y_P (t_set t)) (0, 0))) ->
  exists y y0, yields c farm np css csp zs sched unit = Ok (y, y0) /\ (forall t, (t < length farm)%nat -> 0 <= y t <= y0 t) /\
    exists e e0, calc_farm_yield (length farm) (yield_col false) y None = Ok (e, None) /\ calc_farm_yield (length farm) (yield_col false) y0 None = Ok (e0, None) /\ 0 <= e <= e0.
Proof.
  intros c farm np css csp zs sched unit HF HS HV HP Hu Hw Hc. destruct (yields_ok c farm np css csp zs sched unit HF HS HV HP) as (y & y0 & E & A & B). exists y, y0. split; [exact E|].
  assert (L : forall t, (t < length farm)%nat -> 0 <= y t <= y0 t).
  { intros t Ht. rewrite A, B. destruct (Hc _ (nth_In farm no_turb Ht)) as [I1 I2]. assert (Q : forall z, In z zs -> 0 <= r_p (nth t (rows_of c farm z) no_res) <= value (y_P (t_set (nth t farm no_turb))) (z_ws z)).
    { intros z Hz. destruct HS as [_ HS]. destruct (rows_ok c farm z HF (HS z Hz)) as [Er _]. apply (result_power (at_state c z) farm (HS z Hz) HF _ t Er Ht I1). cbn. now apply I2. }
    split.
    - replace 0 with (per_year unit 0) by (unfold per_year; lra). apply per_year_le; [exact Hu|]. apply rsum_nonneg. intros x Hx. apply in_map_iff in Hx as (z & <- & Hz). apply Rmult_le_pos; [apply Q|apply Hw]; exact Hz.
    - apply per_year_le; [exact Hu|]. apply rsum_le. intros z Hz. apply Rmult_le_compat_r; [now apply Hw|now apply Q]. }
  split; [exact L|]. eexists; eexists. split; [reflexivity|]. split; [reflexivity|]. split; [apply bsum_nonneg|apply bsum_le]; intros i Hi; now apply L.
Qed.
Print Assumptions C251_losses.
(** Two turbines in a row, three states of west wind with 10 m/s, two chunks of different sizes, the second one completed first. The front turbine makes 1 MW all year long: 8.76 GWh. *)
Definition three : list wstate := repeat {| z_wd := 270; z_ws := 10; z_weight := 1 / 3 |} 3.
Example C251_nonvacuous : good_farm row2 /\ good_states west three /\ valid_setting 2 None None /\ schedule 2 None None 3 (rev (submit [1%nat; 2%nat] [0%nat])) /\
  exists y y0, yields west row2 2 None None three (rev (submit [1%nat; 2%nat] [0%nat])) 1000000 = Ok (y, y0) /\ y 1%nat = 876 / 100 /\ y0 0%nat = 876 / 100.
Proof.
  destruct C250_nonvacuous as (HS & HF & a & b & E & _ & Pb & _). split; [exact HF|].
  assert (HZ : good_states west three). { split; [discriminate|]. intros z Hz. apply repeat_spec in Hz as ->. exact HS. } split; [exact HZ|].
  assert (HV : valid_setting 2 None None) by (split; [lia|split; discriminate]). split; [exact HV|].
  assert (HP : schedule 2 None None 3 (rev (submit [1%nat; 2%nat] [0%nat]))). { intros ls lt K. vm_compute in K. injection K as <- <-. apply Permutation_sym, Permutation_rev. } split; [exact HP|].
  destruct (yields_ok west row2 2 None None three _ 1000000 HF HZ HV HP) as (y & y0 & K & A & B). exists y, y0. split; [exact K|]. rewrite A, B.
  assert (R1 : rows_of west row2 {| z_wd := 270; z_ws := 10; z_weight := 1 / 3 |} = [a; b]). { unfold rows_of. change (at_state west {| z_wd := 270; z_ws := 10; z_weight := 1 / 3 |}) with west. now rewrite E. }
  unfold three. cbn [repeat map rsum]. rewrite R1. cbn [nth z_weight z_ws]. rewrite Pb. split; [unfold per_year; lra|].
  assert (V : value (y_P (t_set (nth 0 row2 no_turb))) 10 = 1).
  { cbn [nth row2 t_set flat y_P]. unfold value, interp. cbn [last fst]. replace (Rltb 10 0) with false by (symmetry; apply Rltb_false; lra). replace (Rltb 20 10) with false by (symmetry; apply Rltb_false; lra). cbn [interp_from]. replace (Rltb 10 20) with true by (symmetry; apply Rltb_true; lra). lra. }
  cbn [nth] in V |- *. rewrite V. unfold per_year. lra.
Qed.
