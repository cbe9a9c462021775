(** Theorems about wind roses (RosePlotOutput, StatesRosePlotOutput, WindRoseBinPlot). *)
From Verif Require Import RBase Rose_Model Rose_Spec Rose_Proofs Heights_Proofs.
Local Open Scope R_scope.

(** C164: n sectors around the directions i * 360 / n *)
Theorem C164_centres n : (0 < n)%nat -> length (wd_centres n) = n /\ length (wd_edges n) = S n /\ forall i, (i < n)%nat ->
  nth i (wd_centres n) 0 = INR i * (360 / INR n) /\ nth i (wd_edges n) 0 = nth i (wd_centres n) 0 - 360 / INR n / 2 /\ nth (S i) (wd_edges n) 0 = nth i (wd_centres n) 0 + 360 / INR n / 2.
Proof.
  intros H. split; [now apply centres_len|]. split; [now apply edges_len|]. intros i Hi. rewrite centres_nth, !edges_nth by lia. rewrite S_INR. fold (delta n). repeat split; lra.
Qed.
Print Assumptions C164_centres.
(** ... every direction from 0 to 360 is in exactly one of the sectors, as directions modulo 360 *)
Theorem C164_one_sector n x : (0 < n)%nat -> 0 <= x <= 360 -> exists i, (i < n)%nat /\ in_sector (nth i (wd_centres n) 0) (360 / INR n) x /\
  forall k, (k < n)%nat -> in_sector (nth k (wd_centres n) 0) (360 / INR n) x -> k = i.
Proof.
  intros H Hx. destruct (shift_range n x H Hx) as (S1 & _). destruct (sector_exists n (shift n x) H S1) as (i & Hi & E). exists i. split; [exact Hi|]. fold (delta n). split; [now apply sector_iff|].
  intros k Hk K. apply sector_iff in K; try assumption. congruence.
Qed.
Print Assumptions C164_one_sector.
(** ... the frequency of a bin, in percent, is the sum of weights of the states with direction in the sector and wind speed in the interval *)
Theorem C164_frequency n es l i j : (0 < n)%nat -> ascending es -> (2 <= length es)%nat -> (i < n)%nat -> (forall s, In s l -> 0 <= wd s <= 360) ->
  exists sel, frequency n es l i j = 100 * rsum (map wt (filter sel l)) /\ forall s, In s l -> sel s = true <-> in_sector (nth i (wd_centres n) 0) (360 / INR n) (wd s) /\ in_interval es j (ws s).
Proof.
  intros Hn A L Hi Hl. exists (in_bin n es i j). split; [reflexivity|]. intros s I. fold (delta n). apply in_bin_iff; auto.
Qed.
Print Assumptions C164_frequency.
(** ... the sum of all frequencies is the weight of the states with wind speeds in the range of the bins, both ends included *)
Theorem C164_total n es l : (0 < n)%nat -> ascending es -> (2 <= length es)%nat -> (forall s, In s l -> 0 <= wd s <= 360) ->
  rsum (map (fun i => rsum (map (frequency n es l i) (seq 0 (length es - 1)))) (seq 0 n)) =
  100 * rsum (map wt (filter (fun s => Rleb (nth 0 es 0) (ws s) && Rleb (ws s) (nth (length es - 1) es 0)) l)).
Proof.
  intros Hn A L Hl. unfold frequency. rewrite (map_ext _ (fun i => 100 * rsum (map (fun j => hist wt n es l i j) (seq 0 (length es - 1))))) by (intros; apply rsum_map_scale).
  rewrite rsum_map_scale, hist_total by exact Hn. f_equal. f_equal. f_equal. apply filter_ext_in. intros s I. destruct (shift_range n (wd s) Hn (Hl s I)) as (S1 & _).
  destruct (sector_exists n (shift n (wd s)) Hn S1) as (i & _ & E). rewrite E. destruct (bin es (ws s)) as [j|] eqn:B.
  - apply bin_iff in B; [|exact A|exact L]. destruct B as (B1 & B2 & B3). symmetry. apply andb_true_iff. rewrite !Rleb_true. pose proof (asc_le es 0 j A ltac:(lia)). split; [lra|].
    pose proof (asc_le es (S j) (length es - 1) A ltac:(lia)). destruct B3 as [B3|(_ & B3)]; lra.
  - symmetry. apply andb_false_iff. destruct (Rle_lt_dec (nth 0 es 0) (ws s)) as [F1|F1]; [|left; now apply Rleb_false]. destruct (Rle_lt_dec (ws s) (nth (length es - 1) es 0)) as [F2|F2]; [|right; now apply Rleb_false].
    exfalso. destruct (count_le_exists es (ws s) A) as (k & Hk & K1 & K2). assert (k <> 0%nat) by (intros ->; pose proof (K2 0%nat ltac:(lia)); lra).
    destruct (Nat.eq_dec k (length es)) as [->|N].
    + assert (T : bin es (ws s) = Some (length es - 2)%nat); [|congruence]. apply bin_iff; [exact A|exact L|]. split; [lia|]. split; [apply K1; lia|]. right. split; [lia|].
      pose proof (K1 (length es - 1)%nat ltac:(lia)). replace (S (length es - 2)) with (length es - 1)%nat by lia. lra.
    + assert (T : bin es (ws s) = Some (k - 1)%nat); [|congruence]. apply bin_iff; [exact A|exact L|]. split; [lia|]. split; [apply K1; lia|]. left. replace (S (k - 1)) with k by lia. apply K2. lia.
Qed.
Print Assumptions C164_total.
(** ... but a state whose direction is given as a negative angle (below half of a sector) is not counted anywhere *)
Theorem C164_negative_refuted n es s i j : (2 <= n)%nat -> wd s < - (360 / INR n / 2) -> frequency n es [s] i j = 0.
Proof.
  intros Hn Hs. fold (delta n) in Hs. destruct (delta_pos n ltac:(lia)) as (P & E). unfold frequency, hist. cbn [filter]. enough (in_bin n es i j s = false) as -> by (cbn; ring).
  unfold in_bin. enough (bin (wd_edges n) (shift n (wd s)) = None) as -> by reflexivity.
  assert (2 <= INR n) by (apply (le_INR 2); exact Hn).
  assert (Sh : shift n (wd s) = wd s) by (unfold shift; rewrite (proj2 (Rleb_false _ _)); [reflexivity|nra]). rewrite Sh.
  destruct (bin (wd_edges n) (wd s)) as [k|] eqn:B; [|reflexivity]. apply bin_iff in B; [|apply edges_asc; lia|rewrite edges_len; lia]. destruct B as (B1 & B2 & _). rewrite edges_len in B1 by lia. rewrite edges_nth in B2 by lia.
  pose proof (pos_INR k). nra.
Qed.
Print Assumptions C164_negative_refuted.
(** ... in the figure the bars of a sector are put on top of each other, up to the sector's frequency, and north is at the top, east on the right *)
Theorem C164_bars freq m : (forall j, bottom freq (S j) = bottom freq j + freq j) /\ bottom freq m = rsum (map freq (seq 0 m)).
Proof.
  split; [reflexivity|]. induction m as [|m IH]; [reflexivity|]. cbn [bottom]. rewrite IH, seq_S, map_app, rsum_app. cbn. ring.
Qed.
Print Assumptions C164_bars.
Theorem C164_compass wd : cos (angle wd * PI / 180) = sin (wd * PI / 180) /\ sin (angle wd * PI / 180) = cos (wd * PI / 180).
Proof.
  unfold angle, rmod. set (k := rfloor ((90 - wd) / 360)). replace ((90 - wd - 360 * IZR k) * PI / 180) with (PI / 2 - wd * PI / 180 + 2 * PI * IZR (- k)) by (rewrite opp_IZR; field).
  destruct (WindDir_Proofs.sin_cos_shift (PI / 2 - wd * PI / 180) (- k)) as (A & B). rewrite A, B. split; [apply cos_shift|apply sin_shift].
Qed.
Print Assumptions C164_compass.
Example C164_case : let es := [0; 5; 10] in ascending es /\ (forall s, In s [{| wt := 1 / 2; wd := 350; ws := 7; val := 0 |}; {| wt := 1 / 2; wd := 10; ws := 10; val := 0 |}] -> 0 <= wd s <= 360) /\
  frequency 4 es [{| wt := 1 / 2; wd := 350; ws := 7; val := 0 |}; {| wt := 1 / 2; wd := 10; ws := 10; val := 0 |}] 0 1 = 100.
Proof.
  assert (A : ascending [0; 5; 10]) by (intros i j H; cbn in H; destruct j as [|[|[|j]]]; destruct i as [|[|[|i]]]; try lia; cbn; lra).
  assert (Hl : forall s, In s [{| wt := 1 / 2; wd := 350; ws := 7; val := 0 |}; {| wt := 1 / 2; wd := 10; ws := 10; val := 0 |}] -> 0 <= wd s <= 360) by (intros s [<-|[<-|[]]]; cbn; lra).
  split; [exact A|]. split; [exact Hl|]. destruct (C164_frequency 4 [0; 5; 10] _ 0 1 ltac:(lia) A ltac:(cbn; lia) ltac:(lia) Hl) as (sel & E & F). rewrite E.
  assert (N : nth 0 (wd_centres 4) 0 = 0) by (rewrite centres_nth by lia; cbn; ring).
  assert (T : forall s, In s [{| wt := 1 / 2; wd := 350; ws := 7; val := 0 |}; {| wt := 1 / 2; wd := 10; ws := 10; val := 0 |}] -> sel s = true).
  { intros s I. apply F; [exact I|]. rewrite N. unfold in_sector, in_interval. destruct I as [<-|[<-|[]]]; cbn; (split; [|split; [lia|split; [lra|]]]).
    - exists (-1)%Z. cbn. lra.
    - left. lra.
    - exists 0%Z. cbn. lra.
    - right. split; [reflexivity|lra]. }
  cbn [filter]. rewrite (T _ (or_introl eq_refl)), (T _ (or_intror (or_introl eq_refl))). cbn. lra.
Qed.

(** C165: WindRoseBinPlot: the value of a bin is the weighted mean of the variable over the states of the bin, hence between their smallest and largest value *)
Theorem C165_mean n es l i j lo hi : (forall s, In s l -> 0 <= wt s) -> (forall s, In s l -> in_bin n es i j s = true -> lo <= val s <= hi) ->
  forall z, bin_mean n es l i j = Some z -> lo <= z <= hi /\ z * hist wt n es l i j = hist (fun s => wt s * val s) n es l i j.
Proof.
  intros W V z H. unfold bin_mean in H. destruct (Rltb (hist wt n es l i j) (/ 10 ^ 13)) eqn:B; [discriminate|]. apply Rltb_false in B. injection H as <-.
  assert (P : 0 < / 10 ^ 13) by (apply Rinv_0_lt_compat, pow_lt; lra). set (h := hist wt n es l i j) in *. assert (Hh : 0 < h) by lra.
  pose proof (mean_bounds (filter (in_bin n es i j) l) lo hi) as M. destruct M as (M1 & M2).
  - intros s I. apply filter_In in I. now apply W.
  - intros s I. apply filter_In in I. now apply V.
  - fold (hist wt n es l i j) in M1, M2. fold h in M1, M2. fold (hist (fun s => wt s * val s) n es l i j) in M1, M2. set (v := hist (fun s => wt s * val s) n es l i j) in *.
    split; [|field; lra]. split; apply Rmult_le_reg_r with h; try exact Hh; replace (v / h * h) with v by (field; lra); lra.
Qed.
Print Assumptions C165_mean.
(** ... a bin without states, or with a total weight below 1e-13, has no value *)
Theorem C165_empty n es l i j : bin_mean n es l i j = None <-> hist wt n es l i j < / 10 ^ 13.
Proof. unfold bin_mean. destruct (Rltb (hist wt n es l i j) (/ 10 ^ 13)) eqn:B; [apply Rltb_true in B|apply Rltb_false in B]; split; try discriminate; auto; lra. Qed.
Print Assumptions C165_empty.
(** ... without weights: the mean over the number of states, and no value exactly for bins without states *)
Theorem C165_no_weights n es l i j : let sel := filter (in_bin n es i j) l in
  bin_mean_no_weights n es l i j = match sel with [] => None | _ => Some (rsum (map val sel) / INR (length sel)) end.
Proof.
  intros sel. unfold bin_mean_no_weights, hist. fold sel. rewrite count_one. destruct sel as [|s r]; [cbn; rewrite (proj2 (Rltb_true _ _)) by lra; reflexivity|].
  rewrite (proj2 (Rltb_false _ _)); [reflexivity|]. cbn [length]. rewrite S_INR. pose proof (pos_INR (length r)). lra.
Qed.
Print Assumptions C165_no_weights.
(** ... the bins' values with the bins' weights give the total over all states in the range *)
Theorem C165_total n es l : (0 < n)%nat ->
  rsum (map (fun i => rsum (map (bin_sum n es l i) (seq 0 (length es - 1)))) (seq 0 n)) =
  rsum (map val (filter (fun s => match bin (wd_edges n) (shift n (wd s)), bin es (ws s) with Some _, Some _ => true | _, _ => false end) l)).
Proof. intros H. apply hist_total. exact H. Qed.
Print Assumptions C165_total.
(** ... if all weights are at least 1e-13, a bin with states has a value *)
Theorem C165_defined n es l i j s : In s l -> in_bin n es i j s = true -> (forall s, In s l -> / 10 ^ 13 <= wt s) -> exists z, bin_mean n es l i j = Some z.
Proof.
  intros I B W. destruct (bin_mean n es l i j) as [z|] eqn:E; [eauto|]. apply C165_empty in E. exfalso.
  assert (P : 0 < / 10 ^ 13) by (apply Rinv_0_lt_compat, pow_lt; lra).
  assert (G : forall r, In s r -> (forall x, In x r -> / 10 ^ 13 <= wt x) -> wt s <= rsum (map wt r)).
  { clear -P. induction r as [|a r IH]; intros K H; [destruct K|]; destruct K as [K|K]; cbn [map rsum].
    - subst. pose proof (rsum_nonneg (map wt r)) as Q. assert (0 <= rsum (map wt r)) by (apply Q; intros x J; apply in_map_iff in J; destruct J as (y & <- & J); specialize (H y (or_intror J)); lra). lra.
    - specialize (IH K (fun x J => H x (or_intror J))). specialize (H a (or_introl eq_refl)). lra. }
  assert (J : In s (filter (in_bin n es i j) l)) by (apply filter_In; tauto). specialize (G _ J). unfold hist in E.
  assert (wt s <= rsum (map wt (filter (in_bin n es i j) l))) by (apply G; intros x K; apply filter_In in K; now apply W). specialize (W s I). lra.
Qed.
Print Assumptions C165_defined.
Example C165_case : exists z, bin_mean 1 [0; 10] [{| wt := 1 / 4; wd := 10; ws := 7; val := 100 |}; {| wt := 3 / 4; wd := 170; ws := 10; val := 200 |}] 0 0 = Some z.
Proof.
  apply C165_defined with {| wt := 1 / 4; wd := 10; ws := 7; val := 100 |}; [now left| |].
  - apply (in_bin_iff 1 [0; 10] 0 0); try (cbn; lia); [|cbn; lra|].
    + intros i j H; cbn in H; destruct j as [|[|j]]; destruct i as [|[|i]]; try lia; cbn; lra.
    + rewrite centres_nth by lia. unfold delta. cbn [INR wd ws]. split; [exists 0%Z; cbn; lra|]. unfold in_interval. cbn. split; [lia|]. split; [lra|left; lra].
  - assert (/ 10 ^ 13 <= / 4) by (apply Rinv_le_contravar; [lra|]; assert (1 <= 10 ^ 12) by (apply pow_R1_Rle; lra); change (10 ^ 13) with (10 * 10 ^ 12); lra).
    intros s [<-|[<-|[]]]; cbn [wt]; lra.
Qed.
