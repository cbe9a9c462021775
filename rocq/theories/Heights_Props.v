(** Theorems about interpolated wind data: wind vectors, grids and heights. *)
From Verif Require Import RBase WindDir_Model WindDir_Proofs Heights_Model Heights_Proofs.
Local Open Scope R_scope.

(** C151: for any weights and any data (wind direction, wind speed), the interpolated wind speed is at most the weighted mean of the wind speeds *)
Theorem C151_speed_bound w nodes : (forall a, In a w -> 0 <= a) -> (forall n, In n nodes -> 0 <= snd n) -> 0 <= interp_ws w nodes <= wsum w (map snd nodes).
Proof. intros Hw Hn. split; [apply ws_nonneg|now apply ws_le]. Qed.
Print Assumptions C151_speed_bound.
(** ... it is the weighted mean if all directions are the same, with this direction *)
Theorem C151_same_direction w nodes wd : (forall a, In a w -> 0 <= a) -> (forall n, In n nodes -> 0 <= snd n) -> (forall n, In n nodes -> fst n = wd) ->
  interp_ws w nodes = wsum w (map snd nodes) /\ (0 < wsum w (map snd nodes) -> interp_wd w nodes = rmod wd 360).
Proof.
  intros Hw Hn Hd. assert (P : 0 <= wsum w (map snd nodes)) by (pose proof (C151_speed_bound w nodes Hw Hn); lra).
  exact (polar_eq _ wd _ P (same_dir w nodes wd Hd)).
Qed.
Print Assumptions C151_same_direction.
(** ... turning all directions by an angle turns the result by this angle; in particular it does not matter if directions are given as 0 or 360 *)
Theorem C151_rotation w nodes a : interp_ws w (map (fun n => (fst n + a, snd n)) nodes) = interp_ws w nodes /\
  (0 < interp_ws w nodes -> interp_wd w (map (fun n => (fst n + a, snd n)) nodes) = rmod (interp_wd w nodes + a) 360).
Proof. exact (polar_eq _ _ _ (ws_nonneg w nodes) (rotated w nodes a)). Qed.
Print Assumptions C151_rotation.
(** ... and the direction is between the data's directions: if they are all in a sector of less than 180 degrees, so is the result *)
Theorem C151_direction_between w nodes c d : (forall a, In a w -> 0 <= a) -> (forall n, In n nodes -> 0 <= snd n) -> 0 <= d < 90 ->
  (forall n, In n nodes -> c - d <= fst n <= c + d) -> 0 < interp_ws w nodes ->
  exists k : Z, c - d <= interp_wd w nodes + 360 * IZR k <= c + d.
Proof.
  intros Hw Hn Hd Hs P. pose proof PI_RGT_0 as Hpi.
  destruct (angle_wrap (interp_wd w nodes * PI / 180 - c * PI / 180)) as (k & K). exists k.
  set (th := interp_wd w nodes * PI / 180 - c * PI / 180 + 2 * PI * IZR k) in *. set (dr := d * PI / 180).
  assert (Hdr : 0 <= dr < PI / 2) by (unfold dr; split; nra).
  assert (Sh : forall p, sin (interp_wd w nodes * PI / 180 - (c * PI / 180 + p)) = sin (th - p) /\ cos (interp_wd w nodes * PI / 180 - (c * PI / 180 + p)) = cos (th - p)).
  { intros p. destruct (sin_cos_shift (interp_wd w nodes * PI / 180 - (c * PI / 180 + p)) k) as (A & B).
    replace (interp_wd w nodes * PI / 180 - (c * PI / 180 + p) + 2 * PI * IZR k) with (th - p) in A, B by (unfold th; ring). now rewrite A, B. }
  assert (Z0 : forall f : R * R -> R, (forall n, In n nodes -> 0 <= f n) -> 0 <= wsum w (map f nodes)).
  { intros f Hf. apply Rle_trans with (wsum w (map (fun _ => 0) nodes)); [|apply wsum_le; assumption].
    rewrite (wsum_ext w _ (fun n => 0 * snd n)) by (intros; ring). rewrite wsum_map_scale. lra. }
  assert (Nd : forall n, In n nodes -> - dr <= fst n * PI / 180 - c * PI / 180 <= dr) by (intros n I; specialize (Hs n I); unfold dr; split; nra).
  assert (C : 0 <= cos th).
  { pose proof (interp_cos w nodes (c * PI / 180 + 0)) as E. rewrite (proj2 (Sh 0)), Rminus_0_r in E.
    assert (0 <= interp_ws w nodes * cos th); [|nra]. rewrite E. apply Z0. intros n I. specialize (Nd n I). apply Rmult_le_pos; [now apply Hn|].
    replace (fst n * PI / 180 - (c * PI / 180 + 0)) with (fst n * PI / 180 - c * PI / 180) by ring. apply cos_ge_0; lra. }
  assert (S1 : 0 <= sin (th + dr)).
  { pose proof (interp_sin w nodes (c * PI / 180 + - dr)) as E. rewrite (proj1 (Sh (- dr))) in E. replace (th - - dr) with (th + dr) in E by ring.
    assert (0 <= interp_ws w nodes * sin (th + dr)); [|nra]. rewrite E. apply Z0. intros n I. specialize (Nd n I). apply Rmult_le_pos; [now apply Hn|].
    apply sin_ge_0; lra. }
  assert (S2 : sin (th - dr) <= 0).
  { pose proof (interp_sin w nodes (c * PI / 180 + dr)) as E. rewrite (proj1 (Sh dr)) in E.
    assert (0 <= - (interp_ws w nodes * sin (th - dr))); [|nra]. rewrite E.
    replace (- wsum w (map (fun n => snd n * sin (fst n * PI / 180 - (c * PI / 180 + dr))) nodes)) with (wsum w (map (fun n => -1 * (snd n * sin (fst n * PI / 180 - (c * PI / 180 + dr)))) nodes))
      by (rewrite wsum_map_scale; ring).
    apply Z0. intros n I. specialize (Nd n I). assert (sin (fst n * PI / 180 - (c * PI / 180 + dr)) <= 0).
    { replace (fst n * PI / 180 - (c * PI / 180 + dr)) with (- (c * PI / 180 + dr - fst n * PI / 180)) by ring. rewrite sin_neg.
      assert (0 <= sin (c * PI / 180 + dr - fst n * PI / 180)) by (apply sin_ge_0; lra). lra. }
    specialize (Hn n I). nra. }
  assert (Q : - (PI / 2) <= th <= PI / 2).
  { split; apply Rnot_lt_le; intros H.
    - assert (cos th < 0); [|lra]. rewrite <- cos_neg. apply cos_lt_0; lra.
    - assert (cos th < 0); [|lra]. apply cos_lt_0; lra. }
  assert (T1 : - dr <= th).
  { apply Rnot_lt_le. intros H. assert (sin (th + dr) < 0); [|lra]. replace (th + dr) with (- (- (th + dr))) by ring. rewrite sin_neg.
    assert (0 < sin (- (th + dr))) by (apply sin_gt_0; lra). lra. }
  assert (T2 : th <= dr).
  { apply Rnot_lt_le. intros H. assert (0 < sin (th - dr)) by (apply sin_gt_0; lra). lra. }
  assert (E : interp_wd w nodes + 360 * IZR k = c + th * 180 / PI) by (unfold th; field; lra). rewrite E.
  assert (D : d = dr * 180 / PI) by (unfold dr; field; lra). rewrite D. unfold Rdiv. pose proof (Rinv_0_lt_compat PI Hpi). split; nra.
Qed.
Print Assumptions C151_direction_between.
(** ... the weights of a grid cell's corners are not negative and their sum is one, in any number of dimensions, and the result is linear in each *)
Theorem C151_grid_weights t ts x0 x1 : length x0 = Nat.pow 2 (length ts) ->
  wsum (corner_weights (t :: ts)) (x0 ++ x1) = (1 - t) * wsum (corner_weights ts) x0 + t * wsum (corner_weights ts) x1.
Proof. intros H. cbn [corner_weights]. rewrite wsum_app, !wsum_scale_l; [reflexivity|]. now rewrite map_length, corners_len. Qed.
Print Assumptions C151_grid_weights.
Theorem C151_grid_weights_sum ts : (forall t, In t ts -> 0 <= t <= 1) -> (forall w, In w (corner_weights ts) -> 0 <= w) /\ rsum (corner_weights ts) = 1.
Proof. intros H. split; [now apply corners_nonneg|apply corners_sum]. Qed.
Print Assumptions C151_grid_weights_sum.
(** ... and a state's result is interpolated from the state's data only, in chunks of any size, if there are no NaN values *)
Theorem C151_own_state xs i : (i < length xs)%nat -> interp_state (map Some xs) i = Some (nth i xs 0).
Proof.
  intros H. assert (N : forall j, (j < length xs)%nat -> nth j (map Some xs) None = Some (nth j xs 0)).
  { intros j Hj. rewrite (nth_indep _ None (Some 0)) by (rewrite map_length; exact Hj). apply map_nth. }
  unfold interp_state. rewrite map_length. destruct (Nat.eqb_spec (length xs) 1) as [E|E].
  - replace i with O by lia. rewrite N by lia. cbn [oscale oadd]. f_equal. ring.
  - rewrite !N by lia. cbn [oscale oadd]. f_equal. destruct (le_lt_dec i (length xs - 2)).
    + rewrite Nat.min_l by assumption. ring.
    + rewrite Nat.min_r by lia. assert (Ei : i = S (length xs - 2)) by lia. rewrite Ei, S_INR. ring.
Qed.
Print Assumptions C151_own_state.
(** ... but with NaN values in the next state of the chunk the result is NaN, while in a chunk of its own, or as the last state of a chunk, it is a number *)
Theorem C151_nan_refuted x y : interp_state [Some x; None] 0 = None /\ interp_state [Some x] 0 = Some x /\ interp_state [Some y; Some x] 1 = Some x.
Proof.
  split; [|split].
  - cbn. reflexivity.
  - cbn. f_equal. ring.
  - cbn. f_equal. ring.
Qed.
Print Assumptions C151_nan_refuted.
(** opposite directions cancel *)
Example C151_nonvacuous : interp_ws [1 / 2; 1 / 2] [(0, 8); (180, 8)] = 0 /\
  (exists k : Z, -10 <= interp_wd [1 / 2; 1 / 2] [(-10, 8); (10, 8)] + 360 * IZR k <= 10).
Proof.
  split.
  - unfold interp_ws, interp_uv. cbn [map]. unfold wd2uv, wd2wdvec. cbn [fst snd]. rewrite !wsum_cons, wsum_nil.
    replace (0 * PI / 180) with 0 by field. replace (180 * PI / 180) with PI by field. rewrite sin_0, cos_0, sin_PI, cos_PI.
    match goal with |- sqrt ?x = 0 => replace x with 0 by ring end. apply sqrt_0.
  - destruct (C151_direction_between [1 / 2; 1 / 2] [(-10, 8); (10, 8)] 0 10) as (k & K).
    + cbn. intros a [<-|[<-|[]]]; lra.
    + cbn. intros a [<-|[<-|[]]]; cbn; lra.
    + lra.
    + cbn. intros a [<-|[<-|[]]]; cbn; lra.
    + assert (C : 0 < cos (10 * PI / 180)) by (pose proof PI_RGT_0; apply cos_gt_0; lra).
      pose proof (interp_cos [1 / 2; 1 / 2] [(-10, 8); (10, 8)] 0) as E. cbn [map fst snd] in E. rewrite !wsum_cons, wsum_nil in E.
      replace (-10 * PI / 180 - 0) with (- (10 * PI / 180)) in E by field. rewrite cos_neg in E. rewrite !Rminus_0_r in E.
      destruct (ws_nonneg [1 / 2; 1 / 2] [(-10, 8); (10, 8)]) as [H|H]; [exact H|]. rewrite <- H in E. lra.
    + exists k. lra.
Qed.

(** C152: for heights in ascending order, data at any height between two of them is interpolated linearly between these two *)
Theorem C152_linear hs z k xs bounds_error : ascending hs -> (S k < length hs)%nat -> nth k hs 0 <= z <= nth (S k) hs 0 -> length xs = length hs ->
  exists w, height_weights bounds_error hs z = Some w /\
    wsum w xs = nth k xs 0 + (nth (S k) xs 0 - nth k xs 0) * ((z - nth k hs 0) / (nth (S k) hs 0 - nth k hs 0)).
Proof.
  intros A Hk Hz L. exists (linear_row hs z). split; [|now apply linear_spec].
  unfold height_weights. assert (B : nth 0 hs 0 <= z) by (apply Rle_trans with (nth k hs 0); [apply asc_le; [exact A|lia]|lra]).
  assert (C : z <= nth (length hs - 1) hs 0) by (apply Rle_trans with (nth (S k) hs 0); [lra|apply asc_le; [exact A|lia]]).
  rewrite (proj2 (Rltb_false z _) B), (proj2 (Rltb_false _ z) C). cbn [orb]. now rewrite Bool.andb_false_r.
Qed.
Print Assumptions C152_linear.
(** ... so that it is the height's own data at each height, and never outside the range of the data *)
Theorem C152_within hs z xs bounds_error a b : ascending hs -> (2 <= length hs)%nat -> nth 0 hs 0 <= z <= nth (length hs - 1) hs 0 -> length xs = length hs ->
  (forall x, In x xs -> a <= x <= b) ->
  exists w, height_weights bounds_error hs z = Some w /\ a <= wsum w xs <= b /\ forall k, (k < length hs)%nat -> z = nth k hs 0 -> wsum w xs = nth k xs 0.
Proof.
  intros A L2 Hz L Hx. destruct (cell_exists hs z A L2 Hz) as (k & Hk & K). destruct (C152_linear hs z k xs bounds_error A Hk K L) as (w & E & F). exists w. split; [exact E|].
  assert (D := A k (S k) ltac:(lia)). set (t := (z - nth k hs 0) / (nth (S k) hs 0 - nth k hs 0)) in *.
  assert (T : 0 <= t <= 1).
  { unfold t. split; [unfold Rdiv; apply Rmult_le_pos; [lra|left; apply Rinv_0_lt_compat; lra]|]. apply Rmult_le_reg_r with (nth (S k) hs 0 - nth k hs 0); [lra|]. unfold Rdiv. rewrite Rmult_assoc, Rinv_l; lra. }
  split.
  - assert (X0 := Hx _ (nth_In xs 0 (ltac:(lia) : (k < length xs)%nat))). assert (X1 := Hx _ (nth_In xs 0 (ltac:(lia) : (S k < length xs)%nat))). rewrite F. nra.
  - intros m Hm Em. rewrite F. destruct (lt_eq_lt_dec m k) as [[Hl|He]|Hg].
    + assert (nth m hs 0 < nth k hs 0) by (apply A; lia). lra.
    + subst m. replace t with 0; [ring|]. unfold t. rewrite Em. unfold Rdiv. ring.
    + destruct (Nat.eq_dec m (S k)) as [->|Hne].
      * replace t with 1; [ring|]. unfold t. rewrite Em. field. lra.
      * assert (nth (S k) hs 0 < nth m hs 0) by (apply A; lia). lra.
Qed.
Print Assumptions C152_within.
(** ... heights outside are an error, or, with bounds_error=False, get the data of the lowest or of the highest height *)
Theorem C152_outside hs z xs : ascending hs -> (1 <= length hs)%nat -> length xs = length hs ->
  (z < nth 0 hs 0 -> height_weights true hs z = None /\ exists w, height_weights false hs z = Some w /\ wsum w xs = nth 0 xs 0) /\
  (nth (length hs - 1) hs 0 < z -> height_weights true hs z = None /\ exists w, height_weights false hs z = Some w /\ wsum w xs = nth (length hs - 1) xs 0).
Proof.
  intros A L1 L. unfold height_weights. split; intros H.
  - rewrite (proj2 (Rltb_true _ _) H). split; [reflexivity|]. exists (unit_row (length hs) 0). split; [|apply wsum_unit; [exact L|lia]].
    cbn [andb]. rewrite (proj2 (Rltb_false (nth (length hs - 1) hs 0) z)); [reflexivity|]. assert (nth 0 hs 0 <= nth (length hs - 1) hs 0) by (apply asc_le; [exact A|lia]). lra.
  - rewrite (proj2 (Rltb_true _ _) H). rewrite Bool.orb_true_r. split; [reflexivity|]. exists (unit_row (length hs) (length hs - 1)).
    split; [reflexivity|]. apply wsum_unit; [exact L|lia].
Qed.
Print Assumptions C152_outside.
(** ... but heights in descending order are not sorted: there is an error for every height *)
Theorem C152_descending_refuted hs z : (2 <= length hs)%nat -> nth (length hs - 1) hs 0 < nth 0 hs 0 -> height_weights true hs z = None.
Proof.
  intros L H. unfold height_weights. cbn [andb]. destruct (Rlt_le_dec z (nth 0 hs 0)) as [Q|Q].
  - now rewrite (proj2 (Rltb_true _ _) Q).
  - rewrite (proj2 (Rltb_true (nth (length hs - 1) hs 0) z)) by lra. now rewrite Bool.orb_true_r.
Qed.
Print Assumptions C152_descending_refuted.
(** ... and with bounds_error=False wrong data: the lowest height's data at all heights above it, the highest one's at and below it *)
Theorem C152_descending_data_refuted hs z xs : (2 <= length hs)%nat -> nth (length hs - 1) hs 0 < nth 0 hs 0 -> length xs = length hs ->
  exists w, height_weights false hs z = Some w /\
    wsum w xs = if Rltb (nth (length hs - 1) hs 0) z then nth (length hs - 1) xs 0 else nth 0 xs 0.
Proof.
  intros L H Lx. unfold height_weights. cbn [andb]. destruct (Rltb (nth (length hs - 1) hs 0) z) eqn:E.
  - eexists. split; [reflexivity|]. apply wsum_unit; [exact Lx|lia].
  - apply Rltb_false in E. rewrite (proj2 (Rltb_true z (nth 0 hs 0))) by lra. eexists. split; [reflexivity|]. apply wsum_unit; [exact Lx|lia].
Qed.
Print Assumptions C152_descending_data_refuted.
Example C152_nonvacuous : ascending [50; 100; 150] /\ (exists w, height_weights true [50; 100; 150] 110 = Some w /\ wsum w [8; 9; 10] = 92 / 10) /\
  height_weights true [150; 100; 50] 110 = None.
Proof.
  assert (A : ascending [50; 100; 150]).
  { intros i j H. cbn in H. assert (J : (j = 1 \/ j = 2)%nat) by lia. destruct J as [->| ->].
    - replace i with O by lia. cbn. lra.
    - assert (I : (i = 0 \/ i = 1)%nat) by lia. destruct I as [->| ->]; cbn; lra. }
  split; [exact A|]. split.
  - destruct (C152_linear [50; 100; 150] 110 1 [8; 9; 10] true A) as (w & E & F); [cbn; lia|cbn; lra|reflexivity|]. exists w. split; [exact E|]. rewrite F. cbn [nth]. lra.
  - apply C152_descending_refuted; cbn; [lia|lra].
Qed.

(** C153: a variable that does not depend on the height has the given value at all heights, and variables other than wind speed and wind direction are
    interpolated linearly *)
Theorem C153_variables get w k : (get WD = Nowhere \/ exists l, get WS = Profile l \/ (exists x, get WS = Solo x) \/ exists x, get WS = Fixed x) -> forall x l,
  (get (Other k) = Solo x \/ get (Other k) = Fixed x -> height_result get w (Other k) = Some x) /\
  (get (Other k) = Profile l -> height_result get w (Other k) = Some (wsum w l)).
Proof.
  intros H x l. unfold height_result, loaded.
  assert (G : forall P Q : option R, P = Q -> match get WD with Profile wds => match speeds (length wds) (get WS) with None => None | Some _ => P end | _ => P end = Q).
  { intros P Q E. destruct (get WD) eqn:Ed; try exact E. destruct (get WS) eqn:Es; cbn [speeds]; try exact E.
    destruct H as [H|(m & [H|[(y & H)|(y & H)]])]; discriminate. }
  split; [intros [E|E]|intros E]; rewrite E; now apply G.
Qed.
Print Assumptions C153_variables.
(** ... wind speed and wind direction are those of the interpolated wind vector if the wind direction depends on the height *)
Theorem C153_vectors get w wds wss : get WD = Profile wds -> get WS = Profile wss -> length wds = length wss ->
  height_result get w WS = Some (interp_ws w (combine wds wss)) /\ height_result get w WD = Some (interp_wd w (combine wds wss)).
Proof. intros A B _. unfold height_result, loaded. rewrite A, B. split; reflexivity. Qed.
Print Assumptions C153_vectors.
(** ... but then also a wind speed from fixed_vars, or one that is the same at all heights, is changed: between two heights with directions wd1 and wd2 *)
Theorem C153_fixed_speed_refuted get x wd1 wd2 t : get WD = Profile [wd1; wd2] -> (get WS = Fixed x \/ get WS = Solo x) -> 0 < x -> 0 < t < 1 ->
  exists y, height_result get [1 - t; t] WS = Some y /\ y = x * sqrt (1 - 2 * t * (1 - t) * (1 - cos (wd1 * PI / 180 - wd2 * PI / 180))) /\
    (cos (wd1 * PI / 180 - wd2 * PI / 180) <> 1 -> y < x).
Proof.
  intros A B Hx Ht. exists (interp_ws [1 - t; t] [(wd1, x); (wd2, x)]). split; [|split].
  - unfold height_result, loaded. rewrite A. destruct B as [->| ->]; reflexivity.
  - apply ws_two. lra.
  - intros C. assert (Cl : cos (wd1 * PI / 180 - wd2 * PI / 180) < 1) by (pose proof (COS_bound (wd1 * PI / 180 - wd2 * PI / 180)); lra).
    set (c := cos (wd1 * PI / 180 - wd2 * PI / 180)) in *.
    assert (E : interp_ws [1 - t; t] [(wd1, x); (wd2, x)] = x * sqrt (1 - 2 * t * (1 - t) * (1 - c))).
    { unfold c. apply ws_two. lra. }
    rewrite E. assert (0 < 2 * t * (1 - t) * (1 - c)) by (repeat apply Rmult_lt_0_compat; lra).
    assert (sqrt (1 - 2 * t * (1 - t) * (1 - c)) < 1); [|nra].
    destruct (Rle_lt_dec 0 (1 - 2 * t * (1 - t) * (1 - c))) as [P|P].
    + apply Rlt_le_trans with (sqrt 1); [apply sqrt_lt_1; lra|rewrite sqrt_1; lra].
    + rewrite sqrt_neg_0 by lra. lra.
Qed.
Print Assumptions C153_fixed_speed_refuted.
(** ... and the weight as an output variable is an error, unless it is in fixed_vars *)
Theorem C153_weight_refuted get w : (forall x, get WEIGHT <> Fixed x) -> height_result get w WEIGHT = None.
Proof.
  intros H. unfold height_result. assert (E : loaded get WEIGHT = Nowhere) by (unfold loaded; destruct (get WEIGHT); try reflexivity; now elim (H x)).
  rewrite E. destruct (loaded get WD); try reflexivity. now destruct (speeds _ _).
Qed.
Print Assumptions C153_weight_refuted.
Example C153_nonvacuous : let get v := match v with WD => Profile [0; 90] | WS => Fixed 8 | Other _ => Profile [1; 3] | WEIGHT => Solo (1 / 10) end in
  height_result get [1 / 2; 1 / 2] (Other 0) = Some (wsum [1 / 2; 1 / 2] [1; 3]) /\ (exists y, height_result get [1 - 1 / 2; 1 / 2] WS = Some y /\ y < 8) /\
  height_result get [1 / 2; 1 / 2] WEIGHT = None.
Proof.
  cbv zeta. split; [reflexivity|]. split; [|reflexivity].
  destruct (C153_fixed_speed_refuted (fun v => match v with WD => Profile [0; 90] | WS => Fixed 8 | Other _ => Profile [1; 3] | WEIGHT => Solo (1 / 10) end) 8 0 90 (1 / 2))
    as (y & E & _ & L); [reflexivity|left; reflexivity|lra|lra|]. exists y. split; [exact E|]. apply L.
  replace (0 * PI / 180 - 90 * PI / 180) with (- (PI / 2)) by field. rewrite cos_neg, cos_PI2. lra.
Qed.
