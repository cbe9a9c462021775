(** C253: complete flow calculations. *)
From Coq Require Import Permutation.
From Verif Require Import RBase Chunk_Model Chunk_Spec EngineRun_Model EngineRun_Spec Superp_Model Superp_Spec Curves_Model Curves_Spec Symm_Model Whole_Model Whole_Spec Whole_Proofs Whole_Props
  YieldRun_Model YieldRun_Spec YieldRun_Proofs YieldRun_Props Flow_Model Flow_Spec Flow_Proofs.
Local Open Scope R_scope.

(** For all engine settings and orders of completion, the value at a point is the wind speed that the wakes of all turbines, with the balanced results of the state, leave over there; and the ambient value is the wind speed of the state. *)
Theorem C253_flow : forall c farm np css csp zs ps m sched sched_p, good_farm farm -> good_states c zs -> valid_setting np css csp -> (1 <= m)%nat -> shape ps (length zs) m ->
  schedule np css csp (length zs) sched -> schedule_points np css csp (length zs) m sched_p ->
  exists res out, calc_flow c farm np css csp zs ps sched sched_p = Ok (res, out) /\ shape out (length zs) m /\ length res = length zs /\
    forall s, (s < length zs)%nat -> let c' := with_wind c (nth s zs no_state) in balanced c' farm (nth s res []) /\
      forall k, (k < m)%nat -> p_ws (pick no_pres out s k) = wind_at c' farm (nth s res []) (pick no_point ps s k) /\ p_amb (pick no_pres out s k) = z_ws (nth s zs no_state).
Proof.
  intros c farm np css csp zs ps m sched sched_p HF HZ HV Hm Hsh HP HP'. eexists; eexists. split; [exact (flow_ok c farm np css csp zs ps m sched sched_p HF HZ HV Hm Hsh HP HP')|].
  split. { destruct Hsh as [L Fp]. split; [rewrite map_length, combine_length, L; lia|]. apply Forall_map. apply Forall_forall. intros [z r] Hr. cbn [snd]. rewrite map_length. apply in_combine_r in Hr. rewrite Forall_forall in Fp. now apply Fp. }
  split; [apply map_length|]. intros s Hs. cbv zeta.
  assert (E : nth s (map (rows_of c farm) zs) [] = rows_of c farm (nth s zs no_state)). { rewrite (nth_indep _ [] (rows_of c farm no_state)) by (rewrite map_length; exact Hs). apply map_nth. }
  rewrite E. assert (G : good_scene (with_wind c (nth s zs no_state))) by (apply HZ; now apply nth_In). destruct (rows_ok c farm (nth s zs no_state) HF G) as [_ B]. split; [exact B|].
  intros k Hk. rewrite (pick_map (fun z => at_point (with_wind c z) farm (rows_of c farm z)) zs ps m no_point no_pres s k Hsh Hs Hk). rewrite (at_point_wind _ farm _ G HF B). split; reflexivity.
Qed.
Print Assumptions C253_flow.
(** Wind speeds at points are never above the ambient wind speed and never below the lower limit. Points behind no turbine have the ambient wind speed, with Jensen wakes also those beside all wakes.
    At the hub of a turbine the value is the effective wind speed of the turbine. *)
Theorem C253_values : forall c farm np css csp zs ps m sched sched_p, good_farm farm -> good_states c zs -> valid_setting np css csp -> (1 <= m)%nat -> shape ps (length zs) m ->
  schedule np css csp (length zs) sched -> schedule_points np css csp (length zs) m sched_p ->
  exists res out, calc_flow c farm np css csp zs ps sched sched_p = Ok (res, out) /\
    forall s k, (s < length zs)%nat -> (k < m)%nat -> let z := nth s zs no_state in let p := pick no_point ps s k in let v := p_ws (pick no_pres out s k) in
      v <= z_ws z /\ (forall l, c_low c = Some l -> l <= v) /\
      ((forall t, In t farm -> behind (z_wd z) t (probe p) <= 0 \/ (c_def c = Jensen /\ t_diam t / 2 + y_k (t_set t) * behind (z_wd z) t (probe p) <= beside (z_wd z) t (probe p))) -> v = z_ws z) /\
      (forall j, (j < length farm)%nat -> p = t_pos (nth j farm no_turb) -> v = r_ws (nth j (nth s res []) no_res)).
Proof.
  intros c farm np css csp zs ps m sched sched_p HF HZ HV Hm Hsh HP HP'. destruct (C253_flow c farm np css csp zs ps m sched sched_p HF HZ HV Hm Hsh HP HP') as (res & out & E & _ & _ & H). exists res, out. split; [exact E|].
  intros s k Hs Hk. cbv zeta. destruct (H s Hs) as [B V]. destruct (V k Hk) as [V1 _]. rewrite V1. assert (G : good_scene (with_wind c (nth s zs no_state))) by (apply HZ; now apply nth_In).
  split; [exact (wind_below _ farm _ G HF B _)|]. split; [intros l El; now apply (wind_low _ farm _ G)|]. split.
  - intros K. apply (wind_undisturbed _ farm _ G HF B). intros i Hi. cbv zeta. exact (K _ (nth_In farm no_turb Hi)).
  - intros j Hj Ep. rewrite Ep. exact (wind_hub _ farm _ B j Hj).
Qed.
Print Assumptions C253_values.
(** Two calculations with different engine settings, different lists of states and different points agree at every point and state they have in common. *)
Theorem C253_same_values : forall c farm np css csp zs ps m sched sched_p np' css' csp' zs' ps' m' sched' sched_p', good_farm farm -> good_states c zs -> good_states c zs' ->
  valid_setting np css csp -> (1 <= m)%nat -> shape ps (length zs) m -> schedule np css csp (length zs) sched -> schedule_points np css csp (length zs) m sched_p ->
  valid_setting np' css' csp' -> (1 <= m')%nat -> shape ps' (length zs') m' -> schedule np' css' csp' (length zs') sched' -> schedule_points np' css' csp' (length zs') m' sched_p' ->
  exists res out res' out', calc_flow c farm np css csp zs ps sched sched_p = Ok (res, out) /\ calc_flow c farm np' css' csp' zs' ps' sched' sched_p' = Ok (res', out') /\
    forall s k s' k', (s < length zs)%nat -> (k < m)%nat -> (s' < length zs')%nat -> (k' < m')%nat -> nth s zs no_state = nth s' zs' no_state -> pick no_point ps s k = pick no_point ps' s' k' ->
      pick no_pres out s k = pick no_pres out' s' k'.
Proof.
  intros c farm np css csp zs ps m sched sched_p np' css' csp' zs' ps' m' sched' sched_p' HF HZ HZ' HV Hm Hsh HP HPp HV' Hm' Hsh' HP' HPp'. eexists; eexists; eexists; eexists.
  split; [exact (flow_ok c farm np css csp zs ps m sched sched_p HF HZ HV Hm Hsh HP HPp)|]. split; [exact (flow_ok c farm np' css' csp' zs' ps' m' sched' sched_p' HF HZ' HV' Hm' Hsh' HP' HPp')|].
  intros s k s' k' Hs Hk Hs' Hk' Ez Ep. rewrite (pick_map (fun z => at_point (with_wind c z) farm (rows_of c farm z)) zs ps m no_point no_pres s k Hsh Hs Hk), (pick_map (fun z => at_point (with_wind c z) farm (rows_of c farm z)) zs' ps' m' no_point no_pres s' k' Hsh' Hs' Hk').
  now rewrite Ez, Ep.
Qed.
Print Assumptions C253_same_values.
(** Two turbines in a row, one state of west wind with 10 m/s, three points in two chunks, the second one completed first: the hub of the second turbine, a point in front, a point 60 m beside the first rotor. *)
Definition probes : list (list vec3) := [[(1000, 0, 100); (-1, 0, 100); (0, 60, 100)]].
Example C253_nonvacuous : good_farm row2 /\ good_states west [nth 0 three no_state] /\ valid_setting 2 None (Some 2%Z) /\ shape probes 1 3 /\ schedule 2 None (Some 2%Z) 1 (submit [1%nat] [0%nat]) /\
  schedule_points 2 None (Some 2%Z) 1 3 (rev (submit [1%nat] [1%nat; 2%nat])) /\
  exists res out, calc_flow west row2 2 None (Some 2%Z) [nth 0 three no_state] probes (submit [1%nat] [0%nat]) (rev (submit [1%nat] [1%nat; 2%nat])) = Ok (res, out) /\
    p_ws (pick no_pres out 0 0) = 10 * (1 - 1 / 6) /\ p_ws (pick no_pres out 0 1) = 10 /\ p_ws (pick no_pres out 0 2) = 10.
Proof.
  destruct C250_nonvacuous as (HS & HF & a & b & E & Ub & _ & Ua). split; [exact HF|]. assert (HZ : good_states west [nth 0 three no_state]). { split; [discriminate|]. intros z [<-|[]]. exact HS. } split; [exact HZ|].
  assert (HV : valid_setting 2 None (Some 2%Z)) by (split; [lia|split; [discriminate|intros ? Q; injection Q as <-; lia]]). split; [exact HV|]. assert (Hsh : shape probes 1 3) by (split; [reflexivity|repeat constructor]). split; [exact Hsh|].
  assert (HP : schedule 2 None (Some 2%Z) 1 (submit [1%nat] [0%nat])). { intros ls lt K. vm_compute in K. injection K as <- <-. apply Permutation_refl. } split; [exact HP|].
  assert (HPp : schedule_points 2 None (Some 2%Z) 1 3 (rev (submit [1%nat] [1%nat; 2%nat]))). { intros ls lt K. vm_compute in K. injection K as <- <-. apply Permutation_sym, Permutation_rev. } split; [exact HPp|].
  destruct (C253_flow west row2 2 None (Some 2%Z) [nth 0 three no_state] probes 3 _ _ HF HZ HV ltac:(lia) Hsh HP HPp) as (res & out & K & _ & _ & H). exists res, out. split; [exact K|].
  destruct (H 0%nat ltac:(cbn; lia)) as [B V]. cbv zeta in B, V. change (with_wind west (nth 0 [nth 0 three no_state] no_state)) with west in B, V.
  assert (R0 : nth 0 res [] = [a; b]). { destruct (C250_only_balanced_results west row2 HS HF) as (r & E' & _ & U). rewrite E in E'. injection E' as E'. rewrite E'. now apply U. }
  assert (S1 : sin (270 * PI / 180) = -1). { replace (270 * PI / 180) with (3 * (PI / 2)) by field. apply sin_3PI2. }
  assert (K1 : cos (270 * PI / 180) = 0). { replace (270 * PI / 180) with (3 * (PI / 2)) by field. apply cos_3PI2. }
  destruct (V 0%nat ltac:(lia)) as [V0 _]. destruct (V 1%nat ltac:(lia)) as [V1 _]. destruct (V 2%nat ltac:(lia)) as [V2 _]. rewrite V0, V1, V2. rewrite R0 in B |- *. cbn [pick probes nth]. split; [|split].
  - change (1000, 0, 100) with (t_pos (nth 0 row2 no_turb)). rewrite (wind_hub west row2 [a; b] B 0 ltac:(cbn; lia)). exact Ua.
  - apply (wind_undisturbed west row2 [a; b] HS HF B). intros i Hi. cbv zeta. left. unfold behind. cbn [west c_wd]. rewrite S1, K1. destruct i as [|[|i]]; [| |cbn in Hi; lia]; cbn; lra.
  - apply (wind_undisturbed west row2 [a; b] HS HF B). intros i Hi. cbv zeta. left. unfold behind. cbn [west c_wd]. rewrite S1, K1. destruct i as [|[|i]]; [| |cbn in Hi; lia]; cbn; lra.
Qed.
