(** Theorems about wind fields from NetCDF files (FieldDataNC). *)
From Verif Require Import RBase FieldNC_Model FieldNC_Proofs.
Local Open Scope R_scope.

(** C147: the selected grid coordinates in y are exactly those that are not further than the extra space from the farm's y range *)
Theorem C147_y_window e f coords c : In c (select (snd (update_sel e f None)) coords) <->
  In c coords /\ exists p q, In p (turbines f) /\ In q (turbines f) /\ snd p - e <= c <= snd q + e.
Proof.
  rewrite select_in. unfold update_sel, get_xy_bounds. cbn [fst snd]. rewrite (min_iff snd), (max_iff snd).
  split; [intros (A & (p & B & C) & (q & D & E)); split; [exact A|]; exists p, q; tauto|intros (A & p & q & B & D & C & E); split; [exact A|]; split; eauto].
Qed.
Print Assumptions C147_y_window.
(** ... but the upper bound of the coordinates in x is the largest y value, not the largest x value *)
Theorem C147_x_window_refuted e f coords c : In c (select (fst (update_sel e f None)) coords) <->
  In c coords /\ exists p q, In p (turbines f) /\ In q (turbines f) /\ fst p - e <= c <= snd q + e.
Proof.
  rewrite select_in. unfold update_sel, get_xy_bounds. cbn [fst snd]. rewrite (min_iff fst), (max_iff snd).
  split; [intros (A & (p & B & C) & (q & D & E)); split; [exact A|]; exists p, q; tauto|intros (A & p & q & B & D & C & E); split; [exact A|]; split; eauto].
Qed.
Print Assumptions C147_x_window_refuted.
(** ... so that grid points at and around a turbine are missing whenever it is further east than the extra space plus the farm's largest y value *)
Theorem C147_turbine_outside_refuted e f p coords : In p (turbines f) -> (forall q, In q (turbines f) -> snd q + e < fst p) ->
  forall c, In c (select (fst (update_sel e f None)) coords) -> c < fst p.
Proof.
  intros Hp H c Hc. apply C147_x_window_refuted in Hc. destruct Hc as (_ & p' & q & _ & Hq & _ & E). specialize (H q Hq). lra.
Qed.
Print Assumptions C147_turbine_outside_refuted.
(** ... and none at all are left if all turbines are further east than twice the extra space plus the largest y value *)
Theorem C147_empty_refuted e f coords : (forall p q, In p (turbines f) -> In q (turbines f) -> snd q + e < fst p - e) ->
  select (fst (update_sel e f None)) coords = [].
Proof.
  intros H. destruct (select (fst (update_sel e f None)) coords) as [|c l] eqn:E; [reflexivity|].
  assert (I : In c (select (fst (update_sel e f None)) coords)) by (rewrite E; now left). apply C147_x_window_refuted in I.
  destruct I as (_ & p & q & Hp & Hq & A & B). specialize (H p q Hp Hq). lra.
Qed.
Print Assumptions C147_empty_refuted.
(** ... and the window is kept: states that were used with one farm leave out the grid points of another one *)
Theorem C147_other_farm_refuted e f1 f2 coords c :
  (forall p q, In p (turbines f1) -> In q (turbines f2) -> snd p + e < snd q) -> In c (map snd (turbines f2)) ->
  ~ In c (select (snd (update_sel e f2 (Some (update_sel e f1 None)))) coords).
Proof.
  intros H Hc I. change (update_sel e f2 (Some (update_sel e f1 None))) with (update_sel e f1 None) in I. apply C147_y_window in I.
  destruct I as (_ & p & q & _ & Hq & _ & B). apply in_map_iff in Hc. destruct Hc as (t & <- & Ht). specialize (H q t Hq Ht). lra.
Qed.
Print Assumptions C147_other_farm_refuted.
(** ... and grid coordinates in descending order are never selected *)
Theorem C147_descending_refuted e f coords : 0 < e -> select_desc (snd (update_sel e f None)) coords = [].
Proof.
  intros He. destruct (select_desc (snd (update_sel e f None)) coords) as [|c l] eqn:E; [reflexivity|exfalso].
  assert (I : In c (select_desc (snd (update_sel e f None)) coords)) by (rewrite E; now left). unfold select_desc in I. rewrite filter_In, Bool.andb_true_iff, !Rleb_true in I.
  destruct I as (_ & A & B). unfold update_sel, get_xy_bounds in A, B. cbn [fst snd] in A, B.
  pose proof (lmin_le (snd (fst f)) (map snd (snd f)) _ (or_introl eq_refl)). pose proof (lmax_ge (snd (fst f)) (map snd (snd f)) _ (or_introl eq_refl)). lra.
Qed.
Print Assumptions C147_descending_refuted.
Example C147_nonvacuous : let f := ((0, 0), [(5000, 0)]) in
  In 5000 (select (snd (update_sel 1000 ((0, 0), [(0, 5000)]) None)) [0; 5000]) /\
  ~ In 5000 (select (fst (update_sel 1000 f None)) [0; 5000]) /\
  select (fst (update_sel 1000 ((5000, 0), []) None)) [5000] = [].
Proof.
  cbv zeta. split; [|split].
  - apply C147_y_window. split; [cbn; tauto|]. exists (0, 0), (0, 5000). cbn. repeat split; try tauto; lra.
  - intros H. apply (C147_turbine_outside_refuted 1000 ((0, 0), [(5000, 0)]) (5000, 0)) in H; [cbn in H; lra|cbn; tauto|].
    cbn. intros q [<-|[<-|[]]]; cbn; lra.
  - apply C147_empty_refuted. cbn. intros p q [<-|[]] [<-|[]]. cbn. lra.
Qed.
Example C147_other_nonvacuous : let f1 := ((0, 0), []) in let f2 := ((0, 5000), []) in
  (forall p q, In p (turbines f1) -> In q (turbines f2) -> snd p + 1000 < snd q) /\ In 5000 (map snd (turbines f2)).
Proof. cbn. split; [|tauto]. intros p q [<-|[]] [<-|[]]. cbn. lra. Qed.

(** C148: any output variables with wind speed and direction can be read from the files, each in a place of its own *)
Theorem C148_variables ovars fixed : NoDup ovars -> In WD ovars -> In WS ovars -> ~ In WD fixed -> ~ In WS fixed ->
  run_vars ovars fixed = Fine /\
  (forall v, In v ovars -> ~ In v fixed -> exists i, slot (dkys ovars fixed) v = Some i /\ (i < length (var2nc ovars fixed))%nat) /\
  (forall u v i, slot (dkys ovars fixed) u = Some i -> slot (dkys ovars fixed) v = Some i -> u = v).
Proof.
  intros Hn Hd Hs Fd Fs. destruct (dkys_spec ovars fixed Hn) as (A & B & _).
  assert (C : forall v, In v (dkys ovars fixed) <-> In v (var2nc ovars fixed)).
  { intros v. rewrite B. rewrite var2nc_in. intuition (subst; tauto). }
  assert (L : length (dkys ovars fixed) = length (var2nc ovars fixed)) by (apply nodup_len; [exact A|now apply NoDup_filter|exact C]).
  assert (S : forall v, In v (var2nc ovars fixed) -> exists i, slot (dkys ovars fixed) v = Some i /\ (i < length (var2nc ovars fixed))%nat).
  { intros v Hv. destruct (slot (dkys ovars fixed) v) as [i|] eqn:E; [|apply slot_none in E; now rewrite C in E]. exists i. split; [reflexivity|].
    apply slot_some in E. lia. }
  split; [|split].
  - unfold run_vars, get_data. rewrite fold_fine.
    + cbn [andthen]. rewrite (proj2 (vin_not _ _) Fd). cbn [andthen]. unfold use_data. rewrite (proj2 (vin_in _ _) Hd), (proj2 (vin_in _ _) Hs). cbn [andb].
      destruct (S WD) as (i & -> & _); [now apply var2nc_in|]. destruct (S WS) as (j & -> & _); [now apply var2nc_in|]. reflexivity.
    + intros v Hv. unfold store_slot. destruct (S v Hv) as (i & -> & Hi). now rewrite (proj2 (Nat.ltb_lt _ _) Hi).
  - intros v Hv Hf. apply S. now apply var2nc_in.
  - intros u v i Hu Hv. apply slot_some in Hu, Hv. destruct Hu as (_ & Hu), Hv as (_ & Hv). congruence.
Qed.
Print Assumptions C148_variables.
(** ... but the wind direction cannot be a fixed value *)
Theorem C148_fixed_wd_refuted ovars fixed : NoDup ovars -> In WD ovars -> In WS ovars -> In WD fixed -> ~ In WS fixed -> run_vars ovars fixed = IndexErr.
Proof.
  intros Hn Hd Hs Fd Fs. destruct (dkys_spec ovars fixed Hn) as (A & B & e & C).
  rewrite (proj2 (vin_in _ _) Hs) in C. rewrite (proj2 (vin_in WS (var2nc ovars fixed))) in C by now apply var2nc_in.
  assert (N : ~ In WD (var2nc ovars fixed)) by (rewrite var2nc_in; tauto).
  assert (NV : NoDup (var2nc ovars fixed)) by now apply NoDup_filter.
  assert (L : length (dkys ovars fixed) = S (length (var2nc ovars fixed))).
  { change (S (length (var2nc ovars fixed))) with (length (WD :: var2nc ovars fixed)). apply nodup_len; [exact A|now constructor|].
    intros v. rewrite B. cbn. intuition. }
  set (n := length (var2nc ovars fixed)) in *.
  assert (G : forall v, In v (var2nc ovars fixed) -> store_slot (dkys ovars fixed) n v = Fine \/ store_slot (dkys ovars fixed) n v = IndexErr).
  { intros v Hv. unfold store_slot. destruct (slot (dkys ovars fixed) v) as [i|] eqn:E; [destruct (Nat.ltb i n); tauto|].
    apply slot_none in E. rewrite B in E. tauto. }
  assert (X : exists v, In v (var2nc ovars fixed) /\ store_slot (dkys ovars fixed) n v = IndexErr).
  { destruct (nth_error (dkys ovars fixed) n) as [v|] eqn:E; [|apply nth_error_None in E; lia].
    assert (I : In v (dkys ovars fixed)) by (eapply nth_error_In; eauto).
    assert (Hv : v <> WD).
    { intros ->. rewrite NoDup_nth_error in A. assert (n = O); [|].
      - apply A; [lia|]. rewrite E, C. reflexivity.
      - assert (In WS (var2nc ovars fixed)) by now apply var2nc_in. unfold n in *. destruct (var2nc ovars fixed); [assumption|discriminate]. }
    exists v. split; [apply B in I; tauto|]. unfold store_slot. destruct (slot (dkys ovars fixed) v) as [i|] eqn:Es; [|apply slot_none in Es; tauto].
    apply slot_some in Es. destruct Es as (Hi & Es). rewrite NoDup_nth_error in A. assert (i = n) by (apply A; [lia|congruence]). subst i.
    now rewrite Nat.ltb_irrefl. }
  unfold run_vars, get_data. fold n. rewrite (fold_err _ _ IndexErr); [reflexivity|discriminate|exact G|exact X].
Qed.
Print Assumptions C148_fixed_wd_refuted.
(** ... and neither can the wind speed, although the code has a case for it *)
Theorem C148_fixed_ws_refuted ovars fixed : NoDup ovars -> In WD ovars -> In WS ovars -> ~ In WD fixed -> In WS fixed -> run_vars ovars fixed = KeyErr.
Proof.
  intros Hn Hd Hs Fd Fs. destruct (dkys_spec ovars fixed Hn) as (A & B & _).
  assert (C : forall v, In v (dkys ovars fixed) <-> In v (var2nc ovars fixed)).
  { intros v. rewrite B. rewrite var2nc_in. intuition (subst; tauto). }
  assert (L : length (dkys ovars fixed) = length (var2nc ovars fixed)) by (apply nodup_len; [exact A|now apply NoDup_filter|exact C]).
  unfold run_vars, get_data. rewrite fold_fine.
  - cbn [andthen]. rewrite (proj2 (vin_not _ _) Fd). cbn [andthen]. unfold use_data. rewrite (proj2 (vin_in _ _) Hd), (proj2 (vin_in _ _) Hs). cbn [andb].
    assert (E : slot (dkys ovars fixed) WS = None) by (apply slot_none; rewrite C, var2nc_in; tauto). rewrite E. now destruct (slot (dkys ovars fixed) WD).
  - intros v Hv. unfold store_slot. destruct (slot (dkys ovars fixed) v) as [i|] eqn:E; [|apply slot_none in E; now rewrite C in E].
    apply slot_some in E. rewrite L in E. now rewrite (proj2 (Nat.ltb_lt _ _) (proj1 E)).
Qed.
Print Assumptions C148_fixed_ws_refuted.
Example C148_nonvacuous : run_vars [WS; Other 1; WD] [Other 1] = Fine /\ run_vars [WS; WD; Other 1] [WD; Other 1] = IndexErr /\ run_vars [WS; WD] [WS] = KeyErr /\
  dkys [Other 2; WS; WD] [] = [WD; WS; Other 2].
Proof. repeat split; reflexivity. Qed.

(** C149: for any split of the states into files and into chunks, the data that is read from the files when a chunk needs it (load mode fly) is the data of the
    chunk's states, the same as with load modes preload and lazy *)
Theorem C149_load_modes {A} (files : list (list A)) i0 i1 : (i0 <= i1)%nat -> (i1 <= n_states_fly files)%nat ->
  chunk_fly files i0 i1 = Some (chunk_preload (fun l => l) files i0 i1) /\
  length (chunk_preload (fun l => l) files i0 i1) = (i1 - i0)%nat /\
  (forall k, (k < i1 - i0)%nat -> nth_error (chunk_preload (fun l => l) files i0 i1) k = nth_error (concat files) (i0 + k)).
Proof.
  unfold n_states_fly. intros H1 H2. unfold chunk_fly. rewrite fly_spec by lia. rewrite Nat.eqb_refl, !Nat.sub_0_r. unfold chunk_preload, read_all. rewrite map_id.
  split; [reflexivity|]. unfold slice. split; [rewrite firstn_length, skipn_length; lia|].
  intros k Hk. clear H2. rewrite <- (firstn_skipn i0 (concat files)) at 2. destruct (le_lt_dec i0 (length (concat files))) as [Hl|Hl].
  - rewrite nth_error_app2 by (rewrite firstn_length; lia). rewrite firstn_length, Nat.min_l by lia. replace (i0 + k - i0)%nat with k by lia.
    generalize (skipn i0 (concat files)). revert Hk. generalize (i1 - i0)%nat. clear. induction k as [|k IH]; intros [|n] H [|x l]; cbn; try lia; try reflexivity. apply IH. lia.
  - rewrite skipn_all2, firstn_nil, app_nil_r, firstn_all2 by lia. rewrite (proj2 (nth_error_None _ (i0 + k))) by lia. now destruct k.
Qed.
Print Assumptions C149_load_modes.
(** ... and states that are not in the files are an error in load mode fly, never other states *)
Theorem C149_missing_states {A} (files : list (list A)) i0 i1 : (i0 <= n_states_fly files < i1)%nat -> chunk_fly files i0 i1 = None.
Proof.
  unfold n_states_fly, chunk_fly. intros (H0 & H).
  assert (G : forall files j0 i, (i <= j0 + length (@concat A files))%nat -> (j0 + length (concat files) < i1)%nat -> (snd (fly_loop files j0 i i1) <= j0 + length (concat files))%nat).
  { clear files H0 H. induction files as [|f files IH]; intros j0 i Hi H; cbn [concat fly_loop snd] in *; [exact Hi|]. rewrite app_length in *.
    destruct (Nat.ltb_spec i j0); [cbn [snd]; exact Hi|]. destruct (Nat.ltb_spec i (j0 + length f)).
    - destruct (fly_loop files (j0 + length f) _ i1) as [d e] eqn:E. cbn [snd].
      pose proof (IH (j0 + length f)%nat (i + (Nat.min i1 (j0 + length f) - j0 - (i - j0)))%nat ltac:(lia) ltac:(lia)) as Q. rewrite E in Q. cbn [snd] in Q. lia.
    - pose proof (IH (j0 + length f)%nat i ltac:(lia) ltac:(lia)). lia. }
  specialize (G files O i0 H0 H). destruct (fly_loop files 0 i0 i1) as [d e]. cbn [snd] in G. destruct (Nat.eqb_spec e i1); [lia|reflexivity].
Qed.
Print Assumptions C149_missing_states.
(** ... but with a selection of states (isel) load mode fly ignores it: other states and another number of states *)
Theorem C149_selection_refuted {A} (a b : A) : a <> b -> let isel := skipn 1 in
  length (read_all isel [[a; b]]) = 1%nat /\ n_states_fly [[a; b]] = 2%nat /\ chunk_preload isel [[a; b]] 0 1 = [b] /\ chunk_fly [[a; b]] 0 1 = Some [a].
Proof. intros _. repeat split; reflexivity. Qed.
Print Assumptions C149_selection_refuted.
Example C149_nonvacuous : chunk_fly [[1; 2; 3]; [4]; []; [5; 6]]%nat 2 5 = Some [3; 4; 5]%nat /\ chunk_fly [[1; 2; 3]; [4]]%nat 2 5 = None.
Proof. split; reflexivity. Qed.

(** C150: with the option interp_nans all numbers of the data are kept, and no NaN is left if there is a number *)
Theorem C150_numbers_kept l i x : nth_error l i = Some (Some x) -> nth_error (interp_nans l) i = Some (Some x).
Proof. intros H. now apply leading_keep, forward_keep. Qed.
Print Assumptions C150_numbers_kept.
Theorem C150_no_nan l x : In (Some x) l -> Forall (fun v => v <> None) (interp_nans l) /\ length (interp_nans l) = length l.
Proof. intros H. split; [now apply interp_num with x|]. unfold interp_nans. now rewrite leading_len, forward_len. Qed.
Print Assumptions C150_no_nan.
(** ... and the values of a state do not depend on the other states of its chunk if its first and its last value are numbers *)
Theorem C150_chunks_partial n pre a mid b post s : length (Some a :: mid ++ [Some b]) = n -> length pre = (s * n)%nat ->
  state_values n s (interp_nans (pre ++ (Some a :: mid ++ [Some b]) ++ post)) = interp_nans (Some a :: mid ++ [Some b]).
Proof.
  intros Hn Hp. rewrite interp_block. unfold state_values.
  assert (L : length (firstn (length pre) (interp_nans (pre ++ [Some a]))) = (s * n)%nat).
  { rewrite firstn_length. unfold interp_nans. rewrite leading_len, forward_len, app_length. cbn [length]. lia. }
  rewrite skipn_app, skipn_all2, L, Nat.sub_diag by lia. cbn [app skipn].
  assert (M : length (interp_nans (Some a :: mid ++ [Some b])) = n) by (unfold interp_nans; now rewrite leading_len, forward_len).
  rewrite firstn_app, M, Nat.sub_diag. cbn [firstn]. rewrite app_nil_r. apply firstn_all2. lia.
Qed.
Print Assumptions C150_chunks_partial.
(** ... but else they do: values are interpolated between the last grid point of one state and the first one of the next state *)
Theorem C150_chunks_refuted : exists s0 s1 : list (option R), length s0 = 2%nat /\ length s1 = 2%nat /\
  interp_nans s0 = [Some 1; Some 1] /\ exists x, state_values 2 0 (interp_nans (s0 ++ s1)) = [Some 1; Some x] /\ x = 2.
Proof.
  exists [Some 1; None], [Some 3; Some 4]. split; [reflexivity|]. split; [reflexivity|]. split; [reflexivity|].
  exists (1 + (3 - 1) * INR 1 / (INR 1 + INR 0 + 1)). split; [reflexivity|]. cbn. lra.
Qed.
Print Assumptions C150_chunks_refuted.
Example C150_nonvacuous : interp_nans [None; Some 1; None; None] = [Some 1; Some 1; Some 1; Some 1] /\
  state_values 3 1 (interp_nans ([None; Some 7; None] ++ (Some 1 :: [None] ++ [Some 1]) ++ [None])) = interp_nans (Some 1 :: [None] ++ [Some 1]).
Proof. split; [reflexivity|]. now apply C150_chunks_partial. Qed.
