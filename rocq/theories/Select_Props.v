(** Theorems about turbine model selections, two dimensional tables, sectors and wake growth from turbulence. *)
From Verif Require Import Select_Model Select_Proofs.
Local Open Scope R_scope.

(** C125: a turbine model is applied to exactly those states and turbines that name it, whatever the chunk (first state i0), the downwind order
    of the turbines, and whether the whole farm is evaluated or one turbine (index oi of the downwind order) during the wake calculation.
    [applies s i]: turbine i lists the model for state s. [order]: None before, Some after the turbines are put into downwind order. *)
Theorem C125_model_applied_where_named n_states nt applies i0 ns order doi :
  (i0 + ns <= n_states)%nat ->
  let turbine s p := match order with None => p | Some o => o s p end in
  (forall s p, (s < ns)%nat -> (p < nt)%nat -> (turbine s p < nt)%nat) ->
  forall s p, (s < ns)%nat -> (p < nt)%nat ->
  (hits (model_sel n_states nt applies i0 order doi) s p = true <-> applies (i0 + s)%nat (turbine s p) = true /\ match doi with None => True | Some oi => p = oi end).
Proof.
  intros Hn turbine Ht s p Hs Hp. apply model_sel_hits; [lia|]. exact (Ht s p Hs Hp).
Qed.
Print Assumptions C125_model_applied_where_named.
(** two turbines in reverse order, the model belongs to turbine 1 in state 3 only; chunk of the states 2, 3 *)
Example C125_nonvacuous :
  let ap s i := ((s =? 3) && (i =? 1))%nat in
  let sl := model_sel 5 2 ap 2 (Some (fun _ p => 1 - p)%nat) in
  hits (sl None) 1 0 = true /\ hits (sl None) 1 1 = false /\ hits (sl None) 0 0 = false /\ hits (sl (Some 0%nat)) 1 0 = true /\ hits (sl (Some 1%nat)) 1 1 = false.
Proof. vm_compute. repeat split. Qed.

(** C126: a model that all turbines use in all states makes every calculation fail if it is one of the turbine types with two dimensional curves
    (power and thrust as functions of wind speed and air density, or wind speed and turbulence intensity), or the table factors model ... *)
Theorem C126_used_by_all_turbines_refuted n_states nt applies i0 ns order doi :
  (forall s i, (s < n_states)%nat -> (i < nt)%nat -> applies s i = true) ->
  let sl := model_sel n_states nt applies i0 order doi in
  (forall t d oP oC, exists e, calc2d t ns nt sl d oP oC = Err e) /\ (forall tab row col old, exists e, table_factors tab ns nt sl row col old = Err e).
Proof.
  intros H sl. split; intros.
  - apply calc2d_tuple. now apply sel_tuple_all.
  - apply factors_tuple. now apply sel_tuple_all.
Qed.
Print Assumptions C126_used_by_all_turbines_refuted.
(** ... and, whoever uses it, as soon as wakes are calculated for a second turbine, since then the model is called for one turbine of the downwind order *)
Theorem C126_in_wake_calculations_refuted n_states nt applies i0 ns order oi :
  let sl := model_sel n_states nt applies i0 order (Some oi) in
  (forall t d oP oC, exists e, calc2d t ns nt sl d oP oC = Err e) /\ (forall tab row col old, exists e, table_factors tab ns nt sl row col old = Err e).
Proof.
  intros sl. split; intros.
  - apply calc2d_tuple. now apply sel_tuple_index.
  - apply factors_tuple. now apply sel_tuple_index.
Qed.
Print Assumptions C126_in_wake_calculations_refuted.
(** What remains: evaluations of the whole farm, with a model that is not used by all turbines in all states. The factors are then multiplied once
    where the model applies, nothing else changes. *)
Theorem C126_factors_partial n_states nt applies i0 ns order tab row col old s0 t0 : (s0 < n_states)%nat -> (t0 < nt)%nat -> applies s0 t0 = false ->
  let turbine s p := match order with None => p | Some o => o s p end in
  (forall s p, (s < ns)%nat -> (p < nt)%nat -> applies (i0 + s)%nat (turbine s p) = true -> exists f, tab (row s p) (col s p) = Some f) ->
  exists x, table_factors tab ns nt (model_sel n_states nt applies i0 order None) row col old = Ok x /\ forall s p, (s < ns)%nat -> (p < nt)%nat ->
    (forall f, applies (i0 + s)%nat (turbine s p) = true -> tab (row s p) (col s p) = Some f -> x s p = old s p * f) /\
    (applies (i0 + s)%nat (turbine s p) = false -> x s p = old s p).
Proof.
  intros Hs Ht Ha turbine H. rewrite (sel_mask _ _ _ i0 order s0 t0 Hs Ht Ha). exact (factors_mask tab ns nt (chunk_sels applies i0 order) row col old H).
Qed.
Print Assumptions C126_factors_partial.
Example C126_nonvacuous : exists x, table_factors (fun a b => Some (a * b)) 1 2 (model_sel 1 2 (fun _ i => i =? 0)%nat 0 None None) (fun _ _ => 2) (fun _ _ => 3) (fun _ _ => 10) = Ok x /\
  x 0%nat 0%nat = 60 /\ x 0%nat 1%nat = 10.
Proof. eexists. split; [vm_compute; reflexivity|]. vm_compute. split; lra. Qed.

(** C127: the values of the two dimensional curves, for boolean selections [m] and without density correction. The power is the table value at the
    (yaw corrected) wind speed variable for power, zero outside of the table's wind speed range, untouched for other turbines. The thrust
    coefficient is looked up at the same wind speed variable, although the range is checked with the one for thrust. *)
Theorem C127_values_partial t ns nt m d oP oC : d_rP d = None -> d_rct d = None ->
  (forall s i, (s < ns)%nat -> (i < nt)%nat -> m s i = true ->
     (t_lo t <= d_wsp d s i <= t_hi t -> exists v, t_P t (d_wsp d s i * 1 * d_yP d s i) (d_aux d s i) = Some v) /\
     (t_lo t <= d_wsct d s i <= t_hi t -> exists v, t_ct t (d_wsp d s i * 1 * d_yct d s i) (d_aux d s i) = Some v)) ->
  exists P C, calc2d t ns nt (SMask m) d oP oC = Ok (P, C) /\ forall s i, (s < ns)%nat -> (i < nt)%nat ->
    ((m s i = true -> t_lo t <= d_wsp d s i <= t_hi t -> t_P t (d_wsp d s i * 1 * d_yP d s i) (d_aux d s i) = Some (P s i)) /\
     (m s i = true -> ~ t_lo t <= d_wsp d s i <= t_hi t -> P s i = 0) /\ (m s i = false -> P s i = oP s i)) /\
    ((m s i = true -> t_lo t <= d_wsct d s i <= t_hi t -> t_ct t (d_wsp d s i * 1 * d_yct d s i) (d_aux d s i) = Some (C s i)) /\
     (m s i = true -> ~ t_lo t <= d_wsct d s i <= t_hi t -> C s i = 0) /\ (m s i = false -> C s i = oC s i)).
Proof.
  intros E1 E2 H.
  destruct (curve2d_ok ns nt m (t_lo t) (t_hi t) (d_wsp d) (d_wsp d) (d_aux d) (d_yP d) (d_rP d) (t_P t) oP) as (P & EP & RP).
  { unfold density_ok. now rewrite E1. }
  { unfold table_covers. rewrite E1. intros s i Hs Hi Hm. now apply H. }
  destruct (curve2d_ok ns nt m (t_lo t) (t_hi t) (d_wsct d) (d_wsp d) (d_aux d) (d_yct d) (d_rct d) (t_ct t) oC) as (C & EC & RC).
  { unfold density_ok. now rewrite E2. }
  { unfold table_covers. rewrite E2. intros s i Hs Hi Hm. now apply H. }
  exists P, C. unfold calc2d. rewrite EP, EC. split; [reflexivity|]. intros s i Hs Hi.
  specialize (RP s i Hs Hi). specialize (RC s i Hs Hi). rewrite E1 in RP. rewrite E2 in RC. tauto.
Qed.
Print Assumptions C127_values_partial.
(** so the thrust coefficient is not the one of the thrust wind speed *)
Theorem C127_thrust_refuted : exists t d P C, d_rP d = None /\ d_rct d = None /\ d_yct d 0%nat 0%nat = 1 /\
  calc2d t 1 1 (SMask (fun _ _ => true)) d (fun _ _ => 0) (fun _ _ => 0) = Ok (P, C) /\
  t_lo t <= d_wsct d 0%nat 0%nat <= t_hi t /\ t_ct t (d_wsct d 0%nat 0%nat) (d_aux d 0%nat 0%nat) <> Some (C 0%nat 0%nat).
Proof.
  set (t := {| t_lo := 0; t_hi := 20; t_P := fun w _ => Some (100 * w); t_ct := fun w _ => Some (w / 20) |}).
  set (c := fun x : R => (fun _ _ => x) : arr).
  set (d := {| d_wsp := c 10; d_wsct := c 8; d_aux := c 1.2; d_yP := c 1; d_yct := c 1; d_rP := None; d_rct := None |}).
  destruct (C127_values_partial t 1 1 (fun _ _ => true) d (fun _ _ => 0) (fun _ _ => 0) eq_refl eq_refl) as (P & C & E & V).
  { intros. cbn. split; intros; eexists; reflexivity. }
  exists t, d, P, C. split; [reflexivity|]. split; [reflexivity|]. split; [reflexivity|]. split; [exact E|].
  destruct (V 0%nat 0%nat ltac:(lia) ltac:(lia)) as (_ & VC & _). cbn in VC |- *. unfold c in *.
  split; [lra|]. intros Q. rewrite <- VC in Q; [|reflexivity|lra]. injection Q. lra.
Qed.
Print Assumptions C127_thrust_refuted.
(** with density correction (WsTI2PCtFromTwo) the calculation fails as soon as one turbine is within and another outside of the wind speed range *)
Theorem C127_density_refuted t ns nt m d f oP oC s i s' i' : d_rP d = Some f ->
  (s < ns)%nat -> (i < nt)%nat -> m s i = true -> t_lo t <= d_wsp d s i <= t_hi t ->
  (s' < ns)%nat -> (i' < nt)%nat -> m s' i' = true -> ~ t_lo t <= d_wsp d s' i' <= t_hi t ->
  exists e, calc2d t ns nt (SMask m) d oP oC = Err e.
Proof.
  intros E H1 H2 H3 H4 H5 H6 H7 H8.
  destruct (curve2d_err ns nt m (t_lo t) (t_hi t) (d_wsp d) (d_wsp d) (d_aux d) (d_yP d) (d_rP d) (t_P t) oP) as [e Ee].
  { unfold density_ok. rewrite E. intros [A|A]; [exact (H8 (A _ _ H5 H6 H7))|exact (A _ _ H1 H2 H3 H4)]. }
  exists e. unfold calc2d. now rewrite Ee.
Qed.
Print Assumptions C127_density_refuted.

(** C128: sector management. For a period p (360 degrees) the rule from mi to ma, given in any turn, matches a value iff the value, in some turn, lies in
    the sector that starts at mi and ends at the first ma after it, provided the sector is neither empty nor the full circle. Turn numbers: j, k. *)
Theorem C128_sector p mi ma d j : 0 < p -> mi < ma + p * IZR j < mi + p ->
  (in_range (Some p) mi ma d = true <-> exists k : Z, mi <= d + p * IZR k < ma + p * IZR j).
Proof. exact (sector_iff p mi ma d j). Qed.
Print Assumptions C128_sector.
(** without period: plain interval *)
Theorem C128_interval mi ma d : in_range None mi ma d = true <-> mi <= d < ma.
Proof. exact (sector_plain mi ma d). Qed.
Print Assumptions C128_interval.
(** a rule matches iff all of its ranges do *)
Theorem C128_all_ranges ranges vals : length vals = length ranges ->
  (rule_matches ranges vals = true <-> forall i, (i < length ranges)%nat ->
    let r := nth i ranges (None, 0, 0) in in_range (fst (fst r)) (snd (fst r)) (snd r) (nth i vals 0) = true).
Proof. exact (rule_iff ranges vals). Qed.
Print Assumptions C128_all_ranges.
(** the full circle, e.g. 0 to 360, matches nothing *)
Theorem C128_full_circle_refuted p mi d : 0 < p -> in_range (Some p) mi (mi + p) d = false.
Proof. intros Hp. replace (mi + p) with (mi + p * IZR 1) by (cbn; ring). now apply sector_full. Qed.
Print Assumptions C128_full_circle_refuted.
(** 350 to 10 degrees and -10 to 10 degrees are the same sector: 5 and 355 are inside, 180 and 10 are not *)
Example C128_nonvacuous : (350 < 10 + 360 * IZR 1 < 350 + 360) /\ in_range (Some 360) 350 10 5 = true /\ in_range (Some 360) 350 10 10 = false /\
  in_range (Some 360) (-10) 10 355 = true /\ in_range (Some 360) (-10) 10 180 = false.
Proof.
  assert (N : forall a b : bool, (a = true <-> b = true) -> a = b) by (intros [] []; intuition congruence).
  split; [lra|]. split; [apply (C128_sector 360 350 10 5 1); [lra|lra|exists 1%Z; lra]|]. split; [|split].
  - destruct (in_range (Some 360) 350 10 10) eqn:E; [|reflexivity]. apply (C128_sector 360 350 10 10 1) in E; try lra. destruct E as [k Hk].
    assert ((k < 1)%Z) by (apply lt_IZR; lra). assert ((0 < k)%Z) by (apply lt_IZR; lra). lia.
  - apply (C128_sector 360 (-10) 10 355 0); [lra|lra|exists (-1)%Z; lra].
  - destruct (in_range (Some 360) (-10) 10 180) eqn:E; [|reflexivity]. apply (C128_sector 360 (-10) 10 180 0) in E; try lra. destruct E as [k Hk].
    assert ((k < 0)%Z) by (apply lt_IZR; lra). assert ((-1 < k)%Z) by (apply lt_IZR; lra). lia.
Qed.

(** C129: the kTI model. k = kTI * TI + kb with the turbulence intensity of the farm data, where the model applies; constructor arguments take precedence
    over farm data for kTI; a missing kb is zero; other turbines keep their value *)
Theorem C129_wake_growth kti kb tv f_kti f_kb ti f_k s : exists k, kti_calc (Some kti) kb tv f_kti f_kb (Some ti) f_k s = Ok k /\ forall si i,
  (hits s si i = true -> k si i = kti * ti si i + match kb with Some b => b | None => 0 end) /\
  (hits s si i = false -> k si i = match f_k with Some k0 => k0 si i | None => 0 end).
Proof.
  unfold kti_calc. cbn. eexists. split; [reflexivity|]. intros si i. cbn. split; intros H; now rewrite H.
Qed.
Print Assumptions C129_wake_growth.
Theorem C129_kti_from_farm_data kb tv kti f_kb ti f_k s : exists k, kti_calc None kb tv (Some kti) f_kb (Some ti) f_k s = Ok k /\ forall si i,
  hits s si i = true -> k si i = kti si i * ti si i + match kb with Some b => b | None => 0 end.
Proof.
  unfold kti_calc. cbn. eexists. split; [reflexivity|]. intros si i H. cbn. now rewrite H.
Qed.
Print Assumptions C129_kti_from_farm_data.
(** the constructor argument ti_val is never used: with farm data it has no influence, without farm data the calculation fails *)
Theorem C129_given_turbulence_refuted kti kb v v' f_kti f_kb f_ti f_k s :
  kti_calc kti kb (Some v) f_kti f_kb f_ti f_k s = kti_calc kti kb (Some v') f_kti f_kb f_ti f_k s /\
  kti_calc kti kb (Some v) f_kti f_kb None f_k s = Err ValueError.
Proof. unfold kti_calc. split; [reflexivity|]. destruct kti, f_kti; reflexivity. Qed.
Print Assumptions C129_given_turbulence_refuted.
(** nor is kb searched in the farm data, as documented: without the constructor argument it is zero *)
Theorem C129_kb_from_farm_data_refuted kti tv f_kti b b' f_ti f_k s :
  kti_calc kti None tv f_kti (Some b) f_ti f_k s = kti_calc kti None tv f_kti (Some b') f_ti f_k s /\ forall ti, exists k, kti_calc (Some 1) None tv f_kti (Some b) (Some ti) f_k SAll = Ok k /\ forall si i, k si i = ti si i.
Proof.
  unfold kti_calc. cbn. split; [reflexivity|]. intros ti. eexists. split; [reflexivity|]. intros si i. cbn. ring.
Qed.
Print Assumptions C129_kb_from_farm_data_refuted.
Example C129_nonvacuous : exists k, kti_calc (Some 0.5) (Some 0.01) None None None (Some (fun _ i => if (i =? 0)%nat then 0.1 else 0.2)) (Some (fun _ _ => 0.04)) (SCol 1) = Ok k /\
  k 0%nat 1%nat = 0.5 * 0.2 + 0.01 /\ k 0%nat 0%nat = 0.04.
Proof. eexists. split; [reflexivity|]. cbn. split; reflexivity. Qed.
