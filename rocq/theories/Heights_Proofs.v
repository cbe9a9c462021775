(** Lemmas about interpolation of wind data. *)
From Verif Require Import RBase WindDir_Model WindDir_Proofs Heights_Model.
Local Open Scope R_scope.

Lemma wsum_cons a w x l : wsum (a :: w) (x :: l) = a * x + wsum w l.
Proof. reflexivity. Qed.
Lemma wsum_nil w : wsum w [] = 0.
Proof. unfold wsum. now destruct w. Qed.
Lemma wsum_map_add {A} w (f g : A -> R) l : wsum w (map (fun a => f a + g a) l) = wsum w (map f l) + wsum w (map g l).
Proof. revert w. induction l as [|a l IH]; intros [|b w]; cbn [map]; rewrite ?wsum_nil; try (unfold wsum; cbn; lra). rewrite !wsum_cons, IH. ring. Qed.
Lemma wsum_map_scale {A} w c (f : A -> R) l : wsum w (map (fun a => c * f a) l) = c * wsum w (map f l).
Proof. revert w. induction l as [|a l IH]; intros [|b w]; cbn [map]; rewrite ?wsum_nil; try (unfold wsum; cbn; lra). rewrite !wsum_cons, IH. ring. Qed.
Lemma wsum_ext {A} w (f g : A -> R) l : (forall a, In a l -> f a = g a) -> wsum w (map f l) = wsum w (map g l).
Proof. intros H. f_equal. now apply map_ext_in. Qed.
Lemma wsum_le {A} w (f g : A -> R) l : (forall a, In a w -> 0 <= a) -> (forall a, In a l -> f a <= g a) -> wsum w (map f l) <= wsum w (map g l).
Proof.
  revert w. induction l as [|a l IH]; intros [|b w] Hw H; cbn [map]; rewrite ?wsum_nil; try (unfold wsum; cbn; lra). rewrite !wsum_cons.
  assert (b * f a <= b * g a) by (apply Rmult_le_compat_l; [apply Hw; now left|apply H; now left]).
  assert (wsum w (map f l) <= wsum w (map g l)) by (apply IH; intros; [apply Hw|apply H]; now right). lra.
Qed.
Lemma wsum_const {A} w c (l : list A) : length w = length l -> wsum w (map (fun _ => c) l) = c * rsum w.
Proof. revert w. induction l as [|a l IH]; intros [|b w] H; try discriminate; cbn [map rsum]; [unfold wsum; cbn; lra|]. rewrite wsum_cons, IH by (cbn in H; lia). ring. Qed.

(** components of the interpolated vector along any direction *)
Lemma interp_along w nodes p : fst (interp_uv w nodes) * sin p + snd (interp_uv w nodes) * cos p = wsum w (map (fun n => - (snd n * cos (fst n * PI / 180 - p))) nodes).
Proof.
  unfold interp_uv. cbn [fst snd]. rewrite (Rmult_comm _ (sin p)), (Rmult_comm _ (cos p)), <- !wsum_map_scale, <- wsum_map_add.
  apply wsum_ext. intros n _. unfold wd2uv, wd2wdvec. cbn [fst snd]. rewrite cos_minus. ring.
Qed.
Lemma interp_polar w nodes : interp_uv w nodes = wd2uv (interp_wd w nodes) (interp_ws w nodes).
Proof. unfold interp_wd, interp_ws. destruct (interp_uv w nodes) as [u v]. cbn [fst snd]. now rewrite wd_roundtrip. Qed.
Lemma ws_nonneg w nodes : 0 <= interp_ws w nodes.
Proof. apply sqrt_pos. Qed.
(** speed times sine and cosine of the direction relative to any angle *)
Lemma interp_cos w nodes p : interp_ws w nodes * cos (interp_wd w nodes * PI / 180 - p) = wsum w (map (fun n => snd n * cos (fst n * PI / 180 - p)) nodes).
Proof.
  pose proof (interp_along w nodes p) as H. rewrite interp_polar in H. unfold wd2uv, wd2wdvec in H. cbn [fst snd] in H.
  rewrite (wsum_ext w _ (fun n => -1 * (snd n * cos (fst n * PI / 180 - p)))) in H by (intros; ring). rewrite wsum_map_scale in H. rewrite cos_minus. lra.
Qed.
Lemma interp_sin w nodes p : interp_ws w nodes * sin (interp_wd w nodes * PI / 180 - p) = wsum w (map (fun n => snd n * sin (fst n * PI / 180 - p)) nodes).
Proof.
  assert (E : forall a, sin (a - p) = cos (a - (p + PI / 2))).
  { intros a. replace (a - (p + PI / 2)) with (- (PI / 2 - (a - p))) by ring. now rewrite cos_neg, cos_shift. }
  rewrite E, interp_cos. apply wsum_ext. intros n _. now rewrite E.
Qed.
Lemma ws_le w nodes : (forall a, In a w -> 0 <= a) -> (forall n, In n nodes -> 0 <= snd n) -> interp_ws w nodes <= wsum w (map snd nodes).
Proof.
  intros Hw Hn. pose proof (interp_cos w nodes (interp_wd w nodes * PI / 180)) as H. rewrite Rminus_diag_eq, cos_0, Rmult_1_r in H by reflexivity. rewrite H.
  apply wsum_le; [exact Hw|]. intros n I. specialize (Hn n I). pose proof (COS_bound (fst n * PI / 180 - interp_wd w nodes * PI / 180)). nra.
Qed.
Lemma polar_eq (u : R * R) wd ws : 0 <= ws -> u = wd2uv wd ws -> sqrt (fst u * fst u + snd u * snd u) = ws /\ (0 < ws -> uv2wd u = rmod wd 360).
Proof. intros H ->. split; [now apply uv_length|]. intros. now apply uv_roundtrip. Qed.
Lemma same_dir w nodes wd : (forall n, In n nodes -> fst n = wd) -> interp_uv w nodes = wd2uv wd (wsum w (map snd nodes)).
Proof.
  intros H. unfold interp_uv, wd2uv at 3, wd2wdvec. cbn [fst snd]. f_equal.
  - rewrite (wsum_ext w _ (fun n => - sin (wd * PI / 180) * snd n)) by (intros n I; unfold wd2uv, wd2wdvec; cbn [fst snd]; rewrite (H n I); ring). rewrite wsum_map_scale. ring.
  - rewrite (wsum_ext w _ (fun n => - cos (wd * PI / 180) * snd n)) by (intros n I; unfold wd2uv, wd2wdvec; cbn [fst snd]; rewrite (H n I); ring). rewrite wsum_map_scale. ring.
Qed.
Lemma rotated w nodes a : interp_uv w (map (fun n => (fst n + a, snd n)) nodes) = wd2uv (interp_wd w nodes + a) (interp_ws w nodes).
Proof.
  unfold interp_uv at 1. rewrite !map_map. cbn [fst snd]. unfold wd2uv at 3, wd2wdvec. cbn [fst snd].
  assert (E : forall x, (x + a) * PI / 180 = x * PI / 180 - - (a * PI / 180)) by (intros; field). rewrite !E. f_equal.
  - rewrite interp_sin, (wsum_ext w _ (fun n => -1 * (snd n * sin (fst n * PI / 180 - - (a * PI / 180))))); [rewrite wsum_map_scale; ring|].
    intros n _. unfold wd2uv, wd2wdvec. cbn [fst snd]. rewrite E. ring.
  - rewrite interp_cos, (wsum_ext w _ (fun n => -1 * (snd n * cos (fst n * PI / 180 - - (a * PI / 180))))); [rewrite wsum_map_scale; ring|].
    intros n _. unfold wd2uv, wd2wdvec. cbn [fst snd]. rewrite E. ring.
Qed.

(** --- sums with one unit --- *)
Lemma sum_delta j (g : nat -> R) n : (j < n)%nat -> rsum (map (fun i => (if Nat.eqb i j then 1 else 0) * g i) (seq 0 n)) = g j.
Proof.
  induction n as [|n IH]; intros H; [lia|]. rewrite seq_S, map_app, rsum_app. cbn [map rsum Nat.add]. destruct (Nat.eqb_spec n j) as [->|Hj].
  - replace (rsum (map (fun i => (if Nat.eqb i j then 1 else 0) * g i) (seq 0 j))) with 0; [ring|].
    rewrite (rsum_ext _ (fun _ => 0)); [rewrite rsum_const; ring|]. intros i Hi. apply in_seq in Hi. destruct (Nat.eqb_spec i j); [lia|ring].
  - rewrite IH by lia. ring.
Qed.
Lemma wsum_seq f xs : wsum (map f (seq 0 (length xs))) xs = rsum (map (fun i => f i * nth i xs 0) (seq 0 (length xs))).
Proof.
  assert (G : forall l s, wsum (map f (seq s (length l))) l = rsum (map (fun i => f i * nth (i - s) l 0) (seq s (length l)))).
  { induction l as [|x l IH]; intros s; [reflexivity|]. cbn [length seq map rsum]. rewrite wsum_cons, IH, Nat.sub_diag. cbn [nth]. f_equal.
    apply rsum_ext. intros i Hi. apply in_seq in Hi. replace (i - s)%nat with (S (i - S s)) by lia. reflexivity. }
  rewrite G. apply rsum_ext. intros i _. now rewrite Nat.sub_0_r.
Qed.
Lemma wsum_unit n j xs : length xs = n -> (j < n)%nat -> wsum (unit_row n j) xs = nth j xs 0.
Proof. intros <- H. unfold unit_row. rewrite wsum_seq. now rewrite (sum_delta j (fun i => nth i xs 0)). Qed.
Lemma wsum_linear hs z xs : (2 <= length hs)%nat -> length xs = length hs -> let hi := cell hs z in let lo := (hi - 1)%nat in
  wsum (linear_row hs z) xs = (nth hi xs 0 - nth lo xs 0) / (nth hi hs 0 - nth lo hs 0) * (z - nth lo hs 0) + nth lo xs 0.
Proof.
  intros H L hi lo. assert (Hh : (hi < length hs)%nat) by (unfold hi, cell; lia). assert (Hl : (lo < length hs)%nat) by (unfold lo; lia).
  unfold linear_row. fold hi. fold lo. rewrite <- L, wsum_seq. rewrite <- L in Hh, Hl. set (c := / (nth hi hs 0 - nth lo hs 0) * (z - nth lo hs 0)).
  rewrite (rsum_ext _ (fun i => c * ((if Nat.eqb i hi then 1 else 0) * nth i xs 0) + (1 - c) * ((if Nat.eqb i lo then 1 else 0) * nth i xs 0))).
  - rewrite rsum_map_plus, !rsum_map_scale, !(sum_delta _ (fun i => nth i xs 0)) by assumption. unfold c, Rdiv. ring.
  - intros i _. unfold c, Rdiv. ring.
Qed.
(** strictly ascending *)
Definition ascending (hs : list R) : Prop := forall i j, (i < j < length hs)%nat -> nth i hs 0 < nth j hs 0.
Lemma asc_tail h hs : ascending (h :: hs) -> ascending hs /\ forall x, In x hs -> h < x.
Proof.
  intros H. split.
  - intros i j Hij. apply (H (S i) (S j)). cbn. lia.
  - intros x I. apply In_nth with (d := 0) in I. destruct I as (n & Hn & <-). apply (H O (S n)). cbn. lia.
Qed.
Lemma count_spec hs z k : ascending hs -> (k <= length hs)%nat -> (forall i, (i < k)%nat -> nth i hs 0 < z) -> (forall i, (k <= i < length hs)%nat -> z <= nth i hs 0) ->
  count_lt hs z = k.
Proof.
  unfold count_lt. revert k. induction hs as [|h hs IH]; intros k A Hk H1 H2; [cbn in *; lia|]. destruct (asc_tail _ _ A) as (A' & _). cbn [filter length] in *.
  destruct k as [|k].
  - rewrite (proj2 (Rltb_false h z)) by (apply (H2 O); lia). apply IH; [exact A'|lia|lia|]. intros i Hi. apply (H2 (S i)). lia.
  - rewrite (proj2 (Rltb_true h z)) by (apply (H1 O); lia). cbn [length]. f_equal. apply IH; [exact A'|lia| |]; intros i Hi; [apply (H1 (S i))|apply (H2 (S i))]; lia.
Qed.
Lemma asc_le hs i j : ascending hs -> (i <= j < length hs)%nat -> nth i hs 0 <= nth j hs 0.
Proof. intros A H. destruct (Nat.eq_dec i j) as [->|]; [lra|]. left. apply A. lia. Qed.
Lemma linear_spec hs z k xs : ascending hs -> (S k < length hs)%nat -> nth k hs 0 <= z <= nth (S k) hs 0 -> length xs = length hs ->
  wsum (linear_row hs z) xs = nth k xs 0 + (nth (S k) xs 0 - nth k xs 0) * ((z - nth k hs 0) / (nth (S k) hs 0 - nth k hs 0)).
Proof.
  intros A Hk Hz L. assert (D := A k (S k) ltac:(lia)). rewrite wsum_linear by (assumption || lia). destruct (Req_dec z (nth k hs 0)) as [E|E].
  - assert (C : count_lt hs z = k).
    { apply count_spec; [exact A|lia| |]; intros i Hi; [rewrite E; apply A; lia|rewrite E; apply asc_le; [exact A|lia]]. }
    unfold cell. rewrite C. rewrite Nat.min_l by lia. destruct k as [|k].
    + cbn [Nat.max Nat.sub]. rewrite E. unfold Rdiv. ring.
    + rewrite Nat.max_l by lia. replace (S k - 1)%nat with k by lia. rewrite E. assert (D2 := A k (S k) ltac:(lia)). field. split; lra.
  - assert (C : count_lt hs z = S k).
    { apply count_spec; [exact A|lia| |]; intros i Hi.
      - apply Rle_lt_trans with (nth k hs 0); [apply asc_le; [exact A|lia]|lra].
      - apply Rle_trans with (nth (S k) hs 0); [lra|]. apply asc_le; [exact A|lia]. }
    unfold cell. rewrite C, Nat.max_l, Nat.min_l by lia. replace (S k - 1)%nat with k by lia. field. lra.
Qed.
(** a height between the lowest and the highest is in a cell *)
Lemma cell_exists hs z : ascending hs -> (2 <= length hs)%nat -> nth 0 hs 0 <= z <= nth (length hs - 1) hs 0 ->
  exists k, (S k < length hs)%nat /\ nth k hs 0 <= z <= nth (S k) hs 0.
Proof.
  intros A L H. assert (G : forall m, (m < length hs)%nat -> z <= nth m hs 0 -> m = O \/ exists k, (S k <= m)%nat /\ nth k hs 0 <= z <= nth (S k) hs 0).
  { induction m as [|m IH]; intros Hm Hz; [now left|right]. destruct (Rle_lt_dec z (nth m hs 0)) as [Q|Q].
    - destruct (IH ltac:(lia) Q) as [->|(k & Hk & K)]; [|exists k; split; [lia|exact K]]. exists O. split; [lia|]. split; lra.
    - exists m. split; [lia|lra]. }
  destruct (G (length hs - 1)%nat ltac:(lia) (proj2 H)) as [E|(k & Hk & K)]; [lia|]. exists k. split; [lia|exact K].
Qed.
Lemma row_len hs z : length (linear_row hs z) = length hs.
Proof. unfold linear_row. now rewrite map_length, seq_length. Qed.
Lemma unit_len n j : length (unit_row n j) = n.
Proof. unfold unit_row. now rewrite map_length, seq_length. Qed.

(** --- grids --- *)
Lemma corners_len ts : length (corner_weights ts) = Nat.pow 2 (length ts).
Proof. induction ts as [|t ts IH]; [reflexivity|]. cbn [corner_weights length Nat.pow]. rewrite app_length, !map_length, IH. lia. Qed.
Lemma corners_nonneg ts : (forall t, In t ts -> 0 <= t <= 1) -> forall w, In w (corner_weights ts) -> 0 <= w.
Proof.
  induction ts as [|t ts IH]; intros H w; cbn [corner_weights]; [intros [<-|[]]; lra|]. specialize (H t (or_introl eq_refl)) as Ht. rewrite in_app_iff, !in_map_iff.
  intros [(u & <- & I)|(u & <- & I)]; apply IH in I; try (intros; apply H; now right); nra.
Qed.
Lemma corners_sum ts : rsum (corner_weights ts) = 1.
Proof. induction ts as [|t ts IH]; cbn [corner_weights]; [cbn; lra|]. rewrite rsum_app, !rsum_scale, IH. ring. Qed.
Lemma wsum_app w1 w2 x1 x2 : length w1 = length x1 -> wsum (w1 ++ w2) (x1 ++ x2) = wsum w1 x1 + wsum w2 x2.
Proof. revert x1. induction w1 as [|a w1 IH]; intros [|x x1] H; try discriminate; cbn [app]; [unfold wsum at 2; cbn; lra|]. rewrite !wsum_cons, IH by (cbn in H; lia). ring. Qed.
Lemma wsum_scale_l c w x : wsum (map (fun a => c * a) w) x = c * wsum w x.
Proof. revert x. induction w as [|a w IH]; intros [|y x]; cbn [map]; try (unfold wsum; cbn; lra). rewrite !wsum_cons, IH. ring. Qed.
(** two nodes with the same speed *)
Lemma ws_two x wd1 wd2 t : 0 <= x -> interp_ws [1 - t; t] [(wd1, x); (wd2, x)] = x * sqrt (1 - 2 * t * (1 - t) * (1 - cos (wd1 * PI / 180 - wd2 * PI / 180))).
Proof.
  intros Hx. unfold interp_ws, interp_uv. cbn [map]. unfold wd2uv, wd2wdvec. cbn [fst snd]. rewrite !wsum_cons, !wsum_nil. rewrite cos_minus.
  set (a := wd1 * PI / 180). set (b := wd2 * PI / 180). pose proof (sin2_cos2 a) as Ha. pose proof (sin2_cos2 b) as Hb. unfold Rsqr in Ha, Hb.
  transitivity (sqrt (x * x * (1 - 2 * t * (1 - t) * (1 - (cos a * cos b + sin a * sin b))))).
  - f_equal. rewrite !Rplus_0_r.
    transitivity (x * x * ((1 - t) * (1 - t) * (sin a * sin a + cos a * cos a) + t * t * (sin b * sin b + cos b * cos b) + 2 * t * (1 - t) * (cos a * cos b + sin a * sin b))); [ring|].
    rewrite Ha, Hb. ring.
  - rewrite sqrt_mult_alt by nra. now rewrite sqrt_square.
Qed.
