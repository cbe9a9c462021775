(** Proofs about wind roses. *)
From Verif Require Import RBase Rose_Model Rose_Spec Heights_Proofs Grid_Proofs.
Local Open Scope R_scope.

Lemma arange_len a b d n : 0 < d -> INR n < (b - a) / d <= INR n + 1 -> length (arange a b d) = S n.
Proof.
  intros Hd (H1 & H2). unfold arange. rewrite map_length, seq_length. rewrite (rfloor_unique _ (- Z.of_nat n - 1)).
  - lia.
  - rewrite minus_IZR, opp_IZR, <- INR_IZR_INZ. lra.
Qed.
Lemma arange_nth a b d i : (i < length (arange a b d))%nat -> nth i (arange a b d) 0 = a + INR i * d.
Proof.
  unfold arange. rewrite map_length, seq_length. intros H. rewrite (nth_indep _ 0 ((fun k => a + INR k * d) 0%nat)) by (rewrite map_length, seq_length; exact H).
  rewrite (map_nth (fun k => a + INR k * d)), seq_nth by exact H. reflexivity.
Qed.
Lemma delta_pos n : (0 < n)%nat -> 0 < delta n /\ INR n * delta n = 360.
Proof. intros H. assert (0 < INR n) by now apply lt_0_INR. unfold delta. split; [apply Rdiv_lt_0_compat; lra|field; lra]. Qed.
Lemma edges_len n : (0 < n)%nat -> length (wd_edges n) = S n.
Proof.
  intros H. destruct (delta_pos n H) as (P & E). unfold wd_edges. apply arange_len; [exact P|]. replace ((360 - - (delta n / 2)) / delta n) with (INR n + 1 / 2) by (rewrite <- E; field; lra). lra.
Qed.
Lemma centres_len n : (0 < n)%nat -> length (wd_centres n) = n.
Proof.
  intros H. destruct (delta_pos n H) as (P & E). unfold wd_centres. destruct n as [|n]; [lia|]. apply arange_len; [exact P|].
  replace ((360 - 0) / delta (S n)) with (INR (S n)) by (rewrite <- E; field; lra). rewrite S_INR. lra.
Qed.
Lemma edges_nth n i : (0 < n)%nat -> (i <= n)%nat -> nth i (wd_edges n) 0 = INR i * delta n - delta n / 2.
Proof. intros H Hi. unfold wd_edges. rewrite arange_nth by (fold (wd_edges n); rewrite edges_len by exact H; lia). ring. Qed.
Lemma centres_nth n i : (0 < n)%nat -> (i < n)%nat -> nth i (wd_centres n) 0 = INR i * delta n.
Proof. intros H Hi. unfold wd_centres. rewrite arange_nth by (fold (wd_centres n); rewrite centres_len by exact H; lia). ring. Qed.
Lemma edges_asc n : (0 < n)%nat -> ascending (wd_edges n).
Proof.
  intros H i j Hij. rewrite edges_len in Hij by exact H. rewrite !edges_nth by lia. destruct (delta_pos n H) as (P & _). assert (INR i < INR j) by (apply lt_INR; lia). nra.
Qed.

Lemma count_le_spec es x k : ascending es -> (k <= length es)%nat -> (forall i, (i < k)%nat -> nth i es 0 <= x) -> (forall i, (k <= i < length es)%nat -> x < nth i es 0) ->
  length (filter (fun e => Rleb e x) es) = k.
Proof.
  revert k. induction es as [|h hs IH]; intros k A Hk H1 H2; [cbn in *; lia|]. destruct (asc_tail _ _ A) as (A' & _). cbn [filter length] in *. destruct k as [|k].
  - rewrite (proj2 (Rleb_false _ _)) by (apply (H2 0%nat); lia). apply (IH 0%nat); [exact A'|lia|intros; lia|]. intros i Hi. apply (H2 (S i)). lia.
  - rewrite (proj2 (Rleb_true _ _)) by (apply (H1 0%nat); lia). cbn [length]. f_equal. apply IH; [exact A'|lia| |]; intros i Hi; [apply (H1 (S i))|apply (H2 (S i))]; lia.
Qed.
Lemma count_le_exists es x : ascending es -> exists k, (k <= length es)%nat /\ (forall i, (i < k)%nat -> nth i es 0 <= x) /\ (forall i, (k <= i < length es)%nat -> x < nth i es 0).
Proof.
  induction es as [|h hs IH]; intros A; [exists 0%nat; cbn; repeat split; intros; lia|]. destruct (asc_tail _ _ A) as (A' & L). destruct (Rle_lt_dec h x) as [E|E].
  - destruct (IH A') as (k & Hk & K1 & K2). exists (S k). cbn [length]. repeat split; [lia| |].
    + intros [|i] Hi; [exact E|]. apply K1. lia.
    + intros [|i] Hi; [lia|]. apply K2. lia.
  - exists 0%nat. cbn [length]. repeat split; [lia|intros; lia|]. intros [|i] Hi; [exact E|]. cbn [nth]. apply Rlt_trans with h; [exact E|]. apply L. apply nth_In. lia.
Qed.
Lemma bin_iff es x j : ascending es -> (2 <= length es)%nat -> bin es x = Some j <-> in_interval es j x.
Proof.
  intros A L. destruct (count_le_exists es x A) as (k & Hk & K1 & K2). unfold bin. rewrite (count_le_spec es x k A Hk K1 K2), last_nth.
  set (m := length es) in *. destruct (Req_dec x (nth (m - 1) es 0)) as [E|E].
  - assert (Hkm : k = m) by (destruct (Nat.lt_ge_cases k m); [pose proof (K2 (m - 1)%nat ltac:(lia)); lra|lia]). subst k.
    rewrite (proj2 (Reqb_true _ _)) by exact E. destruct (Nat.leb_spec 1 (m - 1)); [|lia]. destruct (Nat.ltb_spec (m - 1) m); [|lia]. cbn [andb]. unfold in_interval. fold m. split.
    + intros H1. injection H1 as <-. split; [lia|]. split; [apply K1; lia|]. right. split; [lia|]. rewrite E. f_equal. lia.
    + intros (J1 & J2 & J3). f_equal. destruct J3 as [J3|(J3 & _)]; [|lia]. exfalso. rewrite E in J3. pose proof (asc_le es (S j) (m - 1) A ltac:(fold m; lia)). lra.
  - assert (EF : Reqb x (nth (m - 1) es 0) = false) by (apply Bool.not_true_iff_false; intros T; apply E; now apply Reqb_true).
    rewrite EF. unfold in_interval. fold m. split.
    + destruct (Nat.leb_spec 1 k); cbn [andb]; [|discriminate]. destruct (Nat.ltb_spec k m); [|discriminate]. intros H1. injection H1 as <-. split; [lia|].
      split; [apply K1; lia|]. left. replace (S (k - 1)) with k by lia. apply K2. lia.
    + intros (J1 & J2 & J3). assert (J4 : x < nth (S j) es 0) by (destruct J3 as [|(J3 & J4)]; [assumption|exfalso; apply E; rewrite J4; f_equal; lia]).
      assert (k = S j). { destruct (Nat.lt_trichotomy k (S j)) as [T|[T|T]]; [|exact T|].
        - pose proof (K2 j ltac:(lia)). lra.
        - pose proof (K1 (S j) T). lra. }
      subst k. destruct (Nat.ltb_spec (S j) m); [|lia]. cbn. f_equal. lia.
Qed.
(** the sector of a direction *)
Lemma sector_exists n w : (0 < n)%nat -> - (delta n / 2) <= w < 360 - delta n / 2 -> exists i, (i < n)%nat /\ bin (wd_edges n) w = Some i.
Proof.
  intros H Hw. destruct (delta_pos n H) as (P & E). destruct (count_le_exists (wd_edges n) w (edges_asc n H)) as (k & Hk & K1 & K2). rewrite edges_len in * by exact H.
  assert (k <> 0%nat) by (intros ->; pose proof (K2 0%nat ltac:(lia)) as Q; rewrite edges_nth in Q by lia; cbn in Q; lra).
  assert (k <> S n) by (intros ->; pose proof (K1 n ltac:(lia)) as Q; rewrite edges_nth in Q by lia; lra).
  exists (k - 1)%nat. split; [lia|]. apply bin_iff; [now apply edges_asc|rewrite edges_len by exact H; lia|]. unfold in_interval. rewrite edges_len by exact H.
  split; [lia|]. split; [apply K1; lia|]. left. replace (S (k - 1)) with k by lia. apply K2. lia.
Qed.
Lemma shift_range n x : (0 < n)%nat -> 0 <= x <= 360 -> - (delta n / 2) <= shift n x < 360 - delta n / 2 /\ exists m, shift n x = x + 360 * IZR m.
Proof.
  intros H Hx. destruct (delta_pos n H) as (P & E). assert (delta n <= 360) by (unfold delta; apply Rmult_le_reg_r with (INR n); [apply lt_0_INR; exact H|]; replace (360 / INR n * INR n) with 360 by (field; apply not_0_INR; lia); assert (1 <= INR n) by (apply (le_INR 1); lia); lra).
  unfold shift. destruct (Rleb (360 - delta n / 2) x) eqn:B.
  - apply Rleb_true in B. split; [lra|]. exists (-1)%Z. cbn. lra.
  - apply Rleb_false in B. split; [lra|]. exists 0%Z. cbn. lra.
Qed.
Lemma sector_iff n i x : (0 < n)%nat -> (i < n)%nat -> 0 <= x <= 360 -> bin (wd_edges n) (shift n x) = Some i <-> in_sector (nth i (wd_centres n) 0) (delta n) x.
Proof.
  intros H Hi Hx. destruct (delta_pos n H) as (P & E). destruct (shift_range n x H Hx) as (S1 & m & Sm). rewrite (bin_iff _ _ _ (edges_asc n H)) by (rewrite edges_len by exact H; lia).
  unfold in_interval, in_sector. rewrite edges_len, centres_nth, !edges_nth by lia. rewrite S_INR. split.
  - intros (_ & J1 & J2). exists m. rewrite <- Sm. destruct J2 as [J2|(J2 & J3)]; [lra|]. injection J2 as J2. rewrite <- J2 in *. rewrite S_INR in *. lra.
  - intros (q & Q). split; [lia|]. assert (Eq : q = m).
    { assert (0 <= INR i) by apply pos_INR. assert (INR i + 1 <= INR n) by (rewrite <- S_INR; apply le_INR; lia). assert (A : - 360 < 360 * (IZR q - IZR m) < 360) by nra.
      assert (IZR (-1) < IZR (q - m) < IZR 1) by (rewrite minus_IZR; cbn; lra). destruct H2 as (B1 & B2). apply lt_IZR in B1. apply lt_IZR in B2. lia. }
    subst q. rewrite Sm. lra.
Qed.
Lemma interval_unique es i j x : ascending es -> (2 <= length es)%nat -> in_interval es i x -> in_interval es j x -> i = j.
Proof. intros A L H1 H2. apply bin_iff in H1; [|exact A|exact L]. apply bin_iff in H2; [|exact A|exact L]. congruence. Qed.

(** sums over all bins *)
Lemma rsum_zero {A} (l : list A) (f : A -> R) : (forall x, In x l -> f x = 0) -> rsum (map f l) = 0.
Proof. induction l as [|a l IH]; intros H; [reflexivity|]. cbn [map rsum]. rewrite (H a) by now left. rewrite IH by (intros; apply H; now right). ring. Qed.
Lemma rsum_single (m : nat) (c : R) k s : rsum (map (fun j => if Nat.eqb j k then c else 0) (seq s m)) = if (s <=? k)%nat && (k <? s + m)%nat then c else 0.
Proof.
  revert s. induction m as [|m IH]; intros s; cbn [seq map rsum].
  - destruct (Nat.leb_spec s k); cbn [andb]; [|reflexivity]. destruct (Nat.ltb_spec k (s + 0)); [lia|reflexivity].
  - rewrite IH. destruct (Nat.eqb_spec s k).
    + subst. destruct (Nat.leb_spec (S k) k); [lia|]. cbn [andb]. rewrite Nat.leb_refl. destruct (Nat.ltb_spec k (k + S m)); [|lia]. cbn [andb]. ring.
    + destruct (Nat.leb_spec (S s) k), (Nat.leb_spec s k); try lia; cbn [andb]; [|ring]. destruct (Nat.ltb_spec k (S s + m)), (Nat.ltb_spec k (s + S m)); try lia; ring.
Qed.
Lemma bin_lt es x j : bin es x = Some j -> (S j < length es)%nat.
Proof.
  unfold bin. set (k := if Reqb x (last es 0) then _ else _). destruct (Nat.leb_spec 1 k); cbn [andb]; [|discriminate]. destruct (Nat.ltb_spec k (length es)); [|discriminate]. intros H1. injection H1 as <-. lia.
Qed.
(** the sum of f over the states in any bin *)
Lemma hist_total f n es l : (0 < n)%nat ->
  rsum (map (fun i => rsum (map (fun j => hist f n es l i j) (seq 0 (length es - 1)))) (seq 0 n)) =
  rsum (map f (filter (fun s => match bin (wd_edges n) (shift n (wd s)), bin es (ws s) with Some _, Some _ => true | _, _ => false end) l)).
Proof.
  intros Hn. unfold hist. induction l as [|s l IH]; cbn [filter map rsum].
  - apply rsum_zero. intros i _. apply rsum_zero. reflexivity.
  - set (own := fun i j => if in_bin n es i j s then f s else 0).
    assert (E : rsum (map (fun i => rsum (map (fun j => rsum (map f (if in_bin n es i j s then s :: filter (in_bin n es i j) l else filter (in_bin n es i j) l))) (seq 0 (length es - 1)))) (seq 0 n)) =
      rsum (map (fun i => rsum (map (own i) (seq 0 (length es - 1)))) (seq 0 n)) + rsum (map (fun i => rsum (map (fun j => rsum (map f (filter (in_bin n es i j) l))) (seq 0 (length es - 1)))) (seq 0 n))).
    { rewrite <- rsum_map_plus. f_equal. apply map_ext. intros i. rewrite <- rsum_map_plus. f_equal. apply map_ext. intros j. unfold own. destruct (in_bin n es i j s); cbn [map rsum]; ring. }
    rewrite E, IH. clear E IH. unfold own, in_bin. destruct (bin (wd_edges n) (shift n (wd s))) as [i0|] eqn:B1.
    + destruct (bin es (ws s)) as [j0|] eqn:B2.
      * cbn [map rsum]. f_equal. apply bin_lt in B1. rewrite edges_len in B1 by exact Hn. apply bin_lt in B2.
        rewrite (map_ext _ (fun i => if Nat.eqb i i0 then f s else 0)).
        { rewrite rsum_single. cbn [Nat.leb andb Nat.add]. destruct (Nat.ltb_spec i0 n); [reflexivity|lia]. }
        intros i. destruct (Nat.eqb i i0); cbn [andb]; [|apply rsum_zero; reflexivity]. rewrite rsum_single. cbn [Nat.leb andb Nat.add]. destruct (Nat.ltb_spec j0 (length es - 1)); [reflexivity|lia].
      * rewrite (rsum_zero (seq 0 n)) by (intros; apply rsum_zero; reflexivity). ring.
    + rewrite (rsum_zero (seq 0 n)) by (intros; apply rsum_zero; reflexivity). ring.
Qed.
Lemma in_bin_iff n es i j s : (0 < n)%nat -> ascending es -> (2 <= length es)%nat -> (i < n)%nat -> 0 <= wd s <= 360 ->
  in_bin n es i j s = true <-> in_sector (nth i (wd_centres n) 0) (delta n) (wd s) /\ in_interval es j (ws s).
Proof.
  intros Hn A L Hi Hs. rewrite <- (sector_iff n i (wd s) Hn Hi Hs), <- (bin_iff es (ws s) j A L). unfold in_bin. destruct (bin (wd_edges n) (shift n (wd s))) as [i'|]; [|split; [discriminate|intros (T & _); discriminate]].
  destruct (bin es (ws s)) as [j'|]; [|split; [discriminate|intros (_ & T); discriminate]]. rewrite andb_true_iff, !Nat.eqb_eq. split; intros (T1 & T2); [split; f_equal; congruence|]. injection T1 as <-. injection T2 as <-. tauto.
Qed.
Lemma mean_bounds (l : list state) lo hi : (forall s, In s l -> 0 <= wt s) -> (forall s, In s l -> lo <= val s <= hi) -> lo * rsum (map wt l) <= rsum (map (fun s => wt s * val s) l) <= hi * rsum (map wt l).
Proof.
  induction l as [|s l IH]; intros W V; cbn [map rsum]; [lra|]. specialize (IH (fun x H => W x (or_intror H)) (fun x H => V x (or_intror H))). pose proof (W s (or_introl eq_refl)). pose proof (V s (or_introl eq_refl)). nra.
Qed.
Lemma count_one (l : list state) : rsum (map (fun _ : state => 1) l) = INR (length l).
Proof. induction l as [|s l IH]; [reflexivity|]. cbn [map rsum length]. rewrite IH, S_INR. ring. Qed.
