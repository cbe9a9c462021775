(** Theorems about slices through the flow field (SliceData, SlicesData, FlowPlots2D). *)
From Verif Require Import RBase WindDir_Model WindDir_Proofs Grid_Model Grid_Spec Grid_Proofs.
Local Open Scope R_scope.

(** C158: a horizontal slice with automatic bounds: the grid exists, starts [xspace] before the first and ends [xspace] behind the last turbine position, and its point distances
    are those of the resolution up to the relative error 1/(2n) *)
Theorem C158_covers res xspace yspace z t : 0 < res -> res <= 4 * xspace -> res <= 4 * yspace ->
  exists g, get_grid_xy (Some res) None None None None None z xspace yspace t = Some g /\ resolves (ga g) res /\ resolves (gb g) res /\
  (exists a b c d, spans (ga g) a b /\ spans (gb g) c d /\
    (forall p, In p (fst t :: snd t) -> a + xspace <= vx p <= b - xspace /\ c + yspace <= vy p <= d - yspace) /\
    (exists p1 p2 p3 p4, In p1 (fst t :: snd t) /\ In p2 (fst t :: snd t) /\ In p3 (fst t :: snd t) /\ In p4 (fst t :: snd t) /\
       a = vx p1 - xspace /\ b = vx p2 + xspace /\ c = vy p3 - yspace /\ d = vy p4 + yspace)).
Proof.
  intros Hr Hx Hy. pose proof (lo_hi vx t). pose proof (lo_hi vy t). unfold get_grid_xy. cbn [orelse].
  destruct (grid_resolution res (lo vx t - xspace) (hi vx t + xspace) (lo vy t - yspace) (hi vy t + yspace) (1 / 2 * (orelse z (lo vz t) + orelse z (hi vz t)))
    (fun x y => (x, y, 1 / 2 * (orelse z (lo vz t) + orelse z (hi vz t)))) Hr ltac:(lra) ltac:(lra)) as (g & E & S1 & S2 & R1 & R2).
  exists g. split; [exact E|]. split; [exact R1|]. split; [exact R2|]. do 4 eexists. split; [exact S1|]. split; [exact S2|]. split.
  - intros p I. pose proof (lo_le vx t p I). pose proof (hi_ge vx t p I). pose proof (lo_le vy t p I). pose proof (hi_ge vy t p I). lra.
  - destruct (lo_in vx t) as (p1 & I1 & E1). destruct (hi_in vx t) as (p2 & I2 & E2). destruct (lo_in vy t) as (p3 & I3 & E3). destruct (hi_in vy t) as (p4 & I4 & E4).
    exists p1, p2, p3, p4. rewrite E1, E2, E3, E4. tauto.
Qed.
Print Assumptions C158_covers.
(** ... with given bounds and numbers of points, at least two: the grid has these numbers of points from bound to bound *)
Theorem C158_image n m xmin ymin xmax ymax z xspace yspace t : (2 <= n)%nat -> (2 <= m)%nat ->
  exists g, get_grid_xy None (Some (Z.of_nat n, Z.of_nat m)) (Some xmin) (Some ymin) (Some xmax) (Some ymax) z xspace yspace t = Some g /\
    length (ga g) = n /\ length (gb g) = m /\ spans (ga g) xmin xmax /\ spans (gb g) ymin ymax.
Proof. intros Hn Hm. unfold get_grid_xy. cbn [orelse]. now apply grid_img. Qed.
Print Assumptions C158_image.
(** ... the points: those of the two coordinates, in the order of x first, all with height z, or the mean of lowest and highest hub height *)
Theorem C158_points res img xmin ymin xmax ymax z xspace yspace t g : get_grid_xy res img xmin ymin xmax ymax z xspace yspace t = Some g ->
  length (gpts g) = (length (ga g) * length (gb g))%nat /\
  (forall i j, (i < length (ga g))%nat -> (j < length (gb g))%nat -> nth (i * length (gb g) + j) (gpts g) (0, 0, 0) = (nth i (ga g) 0, nth j (gb g) 0, gc g)) /\
  match z with Some h => gc g = h | None => (forall h, (forall p, In p (fst t :: snd t) -> vz p = h) -> gc g = h) /\ exists p q, In p (fst t :: snd t) /\ In q (fst t :: snd t) /\ vz p <= gc g <= vz q end.
Proof.
  intros H. unfold get_grid_xy in H. apply grid_points in H. destruct H as (C & L & P). split; [exact L|]. split; [intros i j Hi Hj; rewrite P by assumption; now rewrite C|].
  rewrite C. destruct z as [h|]; cbn [orelse]; [lra|]. pose proof (lo_hi vz t). destruct (lo_in vz t) as (p & Ip & Ep). destruct (hi_in vz t) as (q & Iq & Eq). split.
  - intros h Hh. rewrite Ep, Eq, (Hh p Ip), (Hh q Iq). lra.
  - exists p, q. rewrite <- Ep, <- Eq. repeat split; try assumption; lra.
Qed.
Print Assumptions C158_points.
(** ... but a given range shorter than half the resolution gets one point, at its lower bound, and the upper bound is not in the grid *)
Theorem C158_short_refuted res xmin ymin xmax ymax z xspace yspace t : 0 < res -> xmin < xmax -> xmax - xmin < res / 2 -> res / 2 <= ymax - ymin ->
  exists g, get_grid_xy (Some res) None (Some xmin) (Some ymin) (Some xmax) (Some ymax) z xspace yspace t = Some g /\ ga g = [xmin] /\ ~ In xmax (ga g).
Proof.
  intros Hr H1 H2 Hy. unfold get_grid_xy, make_grid. cbn [orelse counts]. rewrite npts_small by lra. destruct (lin_resolution ymin ymax res Hr Hy) as (ys & E & _).
  rewrite E. change 1%Z with (Z.of_nat 1). rewrite linspace_nat. eexists. split; [reflexivity|]. cbn. split; [f_equal; ring|]. intros [F|[]]. lra.
Qed.
Print Assumptions C158_short_refuted.
Example C158_case : exists g, get_grid_xy (Some 100) None None None None None None 500 500 ((0, 0, 90), [(1000, 300, 110)]) = Some g /\ gc g = 100.
Proof.
  destruct (C158_covers 100 500 500 None ((0, 0, 90), [(1000, 300, 110)]) ltac:(lra) ltac:(lra) ltac:(lra)) as (g & E & _). exists g. split; [exact E|].
  unfold get_grid_xy in E. apply grid_points in E. rewrite (proj1 E). cbn [orelse]. unfold lo, hi, FieldNC_Model.lmin, FieldNC_Model.lmax, vz. cbn [fst snd map fold_right].
  rewrite Rmin_right, Rmax_left by lra. lra.
Qed.

(** C159: vertical slices: the axes are orthonormal, the third axis is vertical *)
Theorem C159_axes dir : dot (axis_x dir) (axis_x dir) = 1 /\ dot (axis_y dir) (axis_y dir) = 1 /\ dot (axis_x dir) (axis_y dir) = 0 /\ vz (axis_x dir) = 0 /\ vz (axis_y dir) = 0.
Proof. apply axes. Qed.
Print Assumptions C159_axes.
(** ... every point has the two coordinates along the slice's axes, and all points are in one plane *)
Theorem C159_points_xz res img dir xmin zmin xmax zmax y xspace zspace t g : get_grid_xz res img dir xmin zmin xmax zmax y xspace zspace t = Some g ->
  forall i j, (i < length (ga g))%nat -> (j < length (gb g))%nat -> let p := nth (i * length (gb g) + j) (gpts g) (0, 0, 0) in
  dot p (axis_x dir) = nth i (ga g) 0 /\ dot p (axis_y dir) = gc g /\ vz p = nth j (gb g) 0.
Proof.
  intros H i j Hi Hj p. unfold get_grid_xz in H. apply grid_points in H. destruct H as (C & _ & P). subst p. rewrite P by assumption. rewrite C. apply lin3_coords.
Qed.
Print Assumptions C159_points_xz.
Theorem C159_points_yz res img dir ymin zmin ymax zmax x yspace zspace t g : get_grid_yz res img dir ymin zmin ymax zmax x yspace zspace t = Some g ->
  forall i j, (i < length (ga g))%nat -> (j < length (gb g))%nat -> let p := nth (i * length (gb g) + j) (gpts g) (0, 0, 0) in
  dot p (axis_y dir) = nth i (ga g) 0 /\ dot p (axis_x dir) = gc g /\ vz p = nth j (gb g) 0.
Proof.
  intros H i j Hi Hj p. unfold get_grid_yz in H. apply grid_points in H. destruct H as (C & _ & P). subst p. rewrite P by assumption. rewrite C.
  pose proof (lin3_coords dir (1 / 2 * (orelse x (lo (fun p => dot p (axis_x dir)) t) + orelse x (hi (fun p => dot p (axis_x dir)) t))) (nth i (ga g) 0) (nth j (gb g) 0)) as Q. cbn zeta in Q. tauto.
Qed.
Print Assumptions C159_points_yz.
(** ... distances in the picture are distances in space *)
Theorem C159_isometric res img dir xmin zmin xmax zmax y xspace zspace t g i j i' j' : get_grid_xz res img dir xmin zmin xmax zmax y xspace zspace t = Some g ->
  (i < length (ga g))%nat -> (j < length (gb g))%nat -> (i' < length (ga g))%nat -> (j' < length (gb g))%nat ->
  dist2 (nth (i * length (gb g) + j) (gpts g) (0, 0, 0)) (nth (i' * length (gb g) + j') (gpts g) (0, 0, 0)) =
  (nth i (ga g) 0 - nth i' (ga g) 0) ^ 2 + (nth j (gb g) 0 - nth j' (gb g) 0) ^ 2.
Proof.
  intros H Hi Hj Hi' Hj'. unfold get_grid_xz in H. apply grid_points in H. destruct H as (_ & _ & P). rewrite !P by assumption. rewrite lin3_dist. ring.
Qed.
Print Assumptions C159_isometric.
(** ... with automatic bounds the slice covers all turbines in flow direction, from the ground to [zspace] above the highest, and is between the outer turbines; through the turbines
    if all are in one plane *)
Theorem C159_covers res dir xspace zspace t : 0 < res -> res <= 4 * xspace -> res / 2 <= zspace -> (forall p, In p (fst t :: snd t) -> 0 <= vz p) ->
  exists g, get_grid_xz (Some res) None dir None (Some 0) None None None xspace zspace t = Some g /\ resolves (ga g) res /\ resolves (gb g) res /\
  (exists a b d, spans (ga g) a b /\ spans (gb g) 0 d /\
    forall p, In p (fst t :: snd t) -> a + xspace <= dot p (axis_x dir) <= b - xspace /\ vz p <= d - zspace) /\
  (exists p q, In p (fst t :: snd t) /\ In q (fst t :: snd t) /\ dot p (axis_y dir) <= gc g <= dot q (axis_y dir)) /\
  (forall y, (forall p, In p (fst t :: snd t) -> dot p (axis_y dir) = y) -> gc g = y).
Proof.
  intros Hr Hx Hz Hv. set (fx := fun p => dot p (axis_x dir)). set (fy := fun p => dot p (axis_y dir)). set (fz := fun p => dot p axis_z).
  assert (Z : forall p, fz p = vz p) by (intros p; unfold fz, dot, axis_z, vx, vy, vz; cbn [fst snd]; ring).
  pose proof (lo_hi fx t). pose proof (lo_hi fy t). assert (0 <= hi fz t) by (apply Rle_trans with (fz (fst t)); [rewrite Z; apply Hv; now left|apply hi_ge; now left]).
  unfold get_grid_xz. cbn [orelse]. fold fx fy fz.
  destruct (grid_resolution res (lo fx t - xspace) (hi fx t + xspace) 0 (hi fz t + zspace) (1 / 2 * (lo fy t + hi fy t))
    (fun x z => lin3 x (axis_x dir) (1 / 2 * (lo fy t + hi fy t)) (axis_y dir) z axis_z) Hr ltac:(lra) ltac:(lra)) as (g & E & S1 & S2 & R1 & R2).
  exists g. split; [exact E|]. split; [exact R1|]. split; [exact R2|]. split; [|split].
  - do 3 eexists. split; [exact S1|]. split; [exact S2|]. intros p I. pose proof (lo_le fx t p I). pose proof (hi_ge fx t p I). pose proof (hi_ge fz t p I). rewrite Z in *. unfold fx in *. cbn beta in *. lra.
  - apply grid_points in E. rewrite (proj1 E). destruct (lo_in fy t) as (p & Ip & Ep). destruct (hi_in fy t) as (q & Iq & Eq). exists p, q. unfold fy in *. cbn beta in *. repeat split; try assumption; lra.
  - intros y Hy. apply grid_points in E. rewrite (proj1 E). destruct (lo_in fy t) as (p & Ip & Ep). destruct (hi_in fy t) as (q & Iq & Eq). rewrite Ep, Eq. unfold fy. rewrite (Hy p Ip), (Hy q Iq). lra.
Qed.
Print Assumptions C159_covers.
(** ... for the default direction 270 the points are those with the given y coordinate *)
Theorem C159_default res img xmin zmin xmax zmax y xspace zspace t g : get_grid_xz res img 270 xmin zmin xmax zmax (Some y) xspace zspace t = Some g ->
  forall i j, (i < length (ga g))%nat -> (j < length (gb g))%nat -> nth (i * length (gb g) + j) (gpts g) (0, 0, 0) = (nth i (ga g) 0, y, nth j (gb g) 0).
Proof.
  intros H i j Hi Hj. unfold get_grid_xz in H. apply grid_points in H. destruct H as (C & _ & P). rewrite P by assumption. cbn [orelse].
  unfold lin3, axis_y, axis_x, cross, axis_z, vx, vy, vz. rewrite uv270. cbn [fst snd]. f_equal; [f_equal|]; lra.
Qed.
Print Assumptions C159_default.
(** ... but for the opposite direction the points' y coordinate is minus the given one *)
Theorem C159_y_refuted res img xmin zmin xmax zmax y xspace zspace t g : get_grid_xz res img 90 xmin zmin xmax zmax (Some y) xspace zspace t = Some g ->
  forall i j, (i < length (ga g))%nat -> (j < length (gb g))%nat -> nth (i * length (gb g) + j) (gpts g) (0, 0, 0) = (- nth i (ga g) 0, - y, nth j (gb g) 0).
Proof.
  intros H i j Hi Hj. unfold get_grid_xz in H. apply grid_points in H. destruct H as (C & _ & P). rewrite P by assumption. cbn [orelse].
  unfold lin3, axis_y, axis_x, cross, axis_z, vx, vy, vz. rewrite uv90. cbn [fst snd]. f_equal; [f_equal|]; lra.
Qed.
Print Assumptions C159_y_refuted.
Example C159_case : exists g, get_grid_xz (Some 10) None 90 None (Some 0) None None (Some 100) 500 500 ((0, 0, 90), [(1000, 0, 90)]) = Some g.
Proof.
  unfold get_grid_xz, make_grid. cbn [orelse counts].
  set (fx := fun p => dot p (axis_x 90)). set (fz := fun p => dot p axis_z). pose proof (lo_hi fx ((0, 0, 90), [(1000, 0, 90)])).
  assert (90 <= hi fz ((0, 0, 90), [(1000, 0, 90)])) by (replace 90 with (fz (0, 0, 90)) at 1 by (unfold fz, dot, axis_z, vx, vy, vz; cbn [fst snd]; ring); apply hi_ge; now left).
  destruct (lin_resolution (lo fx ((0, 0, 90), [(1000, 0, 90)]) - 500) (hi fx ((0, 0, 90), [(1000, 0, 90)]) + 500) 10 ltac:(lra) ltac:(lra)) as (xs & E1 & _).
  destruct (lin_resolution 0 (hi fz ((0, 0, 90), [(1000, 0, 90)]) + 500) 10 ltac:(lra) ltac:(lra)) as (ys & E2 & _). rewrite E1, E2. eexists. reflexivity.
Qed.

(** C160: all formats have the value of the point with coordinates a(i), b(j) at the place of these coordinates: numpy and xarray by position, pandas with index (i, j). For every field
    on the points of a grid of any orientation *)
Theorem C160_formats res img a0 a1 b0 b1 c pt g (f : vec3 -> R) i j : make_grid res img a0 a1 b0 b1 c pt = Some g -> (i < length (ga g))%nat -> (j < length (gb g))%nat ->
  let d := map f (gpts g) in let na := length (ga g) in let nb := length (gb g) in let v := f (pt (nth i (ga g) 0) (nth j (gb g) 0)) in
  (exists m, np2np_p na nb d = Some m /\ nth j (nth i m []) 0 = v) /\
  (exists rows, np2pd_p na nb d = Some rows /\ In ((i, j), v) rows /\ (forall w, In ((i, j), w) rows -> w = v)) /\
  (exists m, np2xr_p na nb d = Some m /\ nth i (nth j m []) 0 = v).
Proof.
  intros H Hi Hj d na nb v. apply grid_points in H. destruct H as (_ & L & P). assert (Ld : length d = (na * nb)%nat) by (subst d; now rewrite map_length).
  assert (K : forall i j, (i < na)%nat -> (j < nb)%nat -> (i * nb + j < na * nb)%nat) by (intros; nia).
  assert (V : forall i j, (i < na)%nat -> (j < nb)%nat -> nth (i * nb + j) d 0 = f (pt (nth i (ga g) 0) (nth j (gb g) 0))).
  { intros i' j' Hi' Hj'. subst d. rewrite (nth_indep _ 0 (f (0, 0, 0))) by (rewrite Ld; now apply K). rewrite map_nth. unfold nb. now rewrite P. }
  split; [|split].
  - destruct (reshape_nth na nb d i j Ld Hi Hj) as (m & E & _ & N). exists m. split; [exact E|]. rewrite N. now apply V.
  - destruct (pandas_nth na nb d i j Ld Hi Hj) as (rows & E & Lr & N). exists rows. split; [exact E|]. rewrite (V i j Hi Hj) in N. split.
    + fold v in N. rewrite <- N. apply nth_In. rewrite Lr. now apply K.
    + intros w I. destruct (In_nth _ _ ((0%nat, 0%nat), 0) I) as (k & Hk & Ek). rewrite Lr in Hk.
      assert (Hk2 : (k / nb < na)%nat) by (apply Nat.div_lt_upper_bound; lia). assert (Hk3 : (k mod nb < nb)%nat) by (apply Nat.mod_upper_bound; lia).
      destruct (pandas_nth na nb d (k / nb) (k mod nb) Ld Hk2 Hk3) as (rows' & E' & _ & N'). rewrite E in E'. injection E' as <-.
      replace (k / nb * nb + k mod nb)%nat with k in N' by (pose proof (Nat.div_mod k nb ltac:(lia)); lia). rewrite Ek in N'. injection N' as A B W. rewrite W.
      replace k with (i * nb + j)%nat; [now apply V|]. rewrite A, B. pose proof (Nat.div_mod k nb ltac:(lia)). lia.
  - destruct (reshape_nth na nb d i j Ld Hi Hj) as (m & E & _ & N). unfold np2xr_p. rewrite E. eexists. split; [reflexivity|]. rewrite swap_nth by assumption. rewrite N. now apply V.
Qed.
Print Assumptions C160_formats.
(** ... also for the data of the states, as numpy array or xarray data set *)
Theorem C160_states res img a0 a1 b0 b1 c pt g (fields : list (vec3 -> R)) s i j : make_grid res img a0 a1 b0 b1 c pt = Some g -> (i < length (ga g))%nat -> (j < length (gb g))%nat -> (s < length fields)%nat ->
  let d := A2 (map (fun f => map f (gpts g)) fields) in let na := length (ga g) in let nb := length (gb g) in let v := nth s fields (fun _ => 0) (pt (nth i (ga g) 0) (nth j (gb g) 0)) in
  (exists m, np2np_sp (length fields) na nb d = Some m /\ nth j (nth i (nth s m []) []) 0 = v) /\ (exists m, np2xr_sp (length fields) na nb d = Some m /\ nth i (nth j (nth s m []) []) 0 = v).
Proof.
  intros H Hi Hj Hs d na nb v. pose proof H as H0. apply grid_points in H. destruct H as (_ & L & _).
  set (rs := fun d : list R => map (fun i => map (fun j => nth (i * nb + j) d 0) (seq 0 nb)) (seq 0 na)).
  assert (E : np2np_sp (length fields) na nb d = Some (map (fun f => rs (map f (gpts g))) fields)).
  { unfold np2np_sp, d. rewrite map_length, Nat.eqb_refl, map_map. apply collect_map. intros f _. unfold reshape. rewrite map_length. fold na nb in L. rewrite L, Nat.eqb_refl. reflexivity. }
  assert (N : nth s (map (fun f => rs (map f (gpts g))) fields) [] = rs (map (nth s fields (fun _ => 0)) (gpts g))).
  { rewrite (nth_indep _ [] ((fun f => rs (map f (gpts g))) (fun _ => 0))) by (rewrite map_length; exact Hs). apply (map_nth (fun f => rs (map f (gpts g)))). }
  destruct (C160_formats _ _ _ _ _ _ _ _ _ (nth s fields (fun _ => 0)) i j H0 Hi Hj) as ((m & Em & V) & _ & _). fold na nb in Em. unfold np2np_p, reshape in Em.
  rewrite map_length in Em. fold na nb in L. rewrite L, Nat.eqb_refl in Em. injection Em as Em. change (rs (map (nth s fields (fun _ => 0)) (gpts g)) = m) in Em.
  split.
  - eexists. split; [exact E|]. rewrite N, Em. exact V.
  - unfold np2xr_sp. rewrite E. cbn [option_map]. eexists. split; [reflexivity|].
    rewrite (nth_indep _ [] (swap na nb (rs (map (fun _ => 0) (gpts g))))) by (rewrite !map_length; exact Hs). rewrite (map_nth (swap na nb)), (map_nth (fun f => rs (map f (gpts g)))).
    rewrite Em, swap_nth by assumption. exact V.
Qed.
Print Assumptions C160_states.
(** ... but never as pandas data frame: the arrays with dimensions state and point are no columns *)
Theorem C160_pandas_refuted ns na nb rows : np2pd_sp ns na nb (A2 rows) = None.
Proof. reflexivity. Qed.
Print Assumptions C160_pandas_refuted.
Example C160_case : exists g, make_grid None (Some (3%Z, 2%Z)) 0 10 0 5 90 (fun x y => (x, y, 90)) = Some g /\ length (gpts g) = 6%nat.
Proof.
  destruct (grid_img 3 2 0 10 0 5 90 (fun x y => (x, y, 90)) ltac:(lia) ltac:(lia)) as (g & E & A & B & _). exists g. split; [exact E|]. apply grid_points in E.
  rewrite (proj1 (proj2 E)), A, B. reflexivity.
Qed.

(** C161: the mean over all states: with weights of sum one, the result at every point is the weighted mean of the states' fields *)
Theorem C161_mean W v (w : list R) (fields : list (vec3 -> R)) pts ds : get ds W = Some (A1 w) -> get ds v = Some (A2 (map (fun f => map f pts) fields)) -> rsum w = 1 ->
  exists r, mean_data W (length pts) (Some [v]) ds = Some [r] /\ length r = length pts /\ forall k, (k < length pts)%nat -> nth k r 0 = weighted_mean w fields (nth k pts (0, 0, 0)).
Proof.
  intros Hw Hv H1. unfold mean_data. rewrite Hw. cbn [var_list map]. rewrite Hv. cbn [einsum collect]. eexists. split; [reflexivity|]. split; [now rewrite map_length, seq_length|].
  intros k Hk. rewrite (nth_indep _ 0 ((fun p => sumprod w (column (map (fun f => map f pts) fields) p)) 0%nat)) by (rewrite map_length, seq_length; exact Hk).
  rewrite (map_nth (fun p => sumprod w (column (map (fun f => map f pts) fields) p))), seq_nth by exact Hk. cbn [Nat.add]. rewrite column_fields by exact Hk.
  rewrite sumprod_map. unfold weighted_mean. rewrite H1. field.
Qed.
Print Assumptions C161_mean.
(** ... in general it is the weighted mean multiplied by the sum of the weights: this holds for a selection of states, whose weights are not normalised *)
Theorem C161_selection W v (w : list R) (fields : list (vec3 -> R)) pts ds : get ds W = Some (A1 w) -> get ds v = Some (A2 (map (fun f => map f pts) fields)) -> rsum w <> 0 ->
  exists r, mean_data W (length pts) (Some [v]) ds = Some [r] /\ forall k, (k < length pts)%nat -> nth k r 0 = rsum w * weighted_mean w fields (nth k pts (0, 0, 0)).
Proof.
  intros Hw Hv H1. unfold mean_data. rewrite Hw. cbn [var_list map]. rewrite Hv. cbn [einsum collect]. eexists. split; [reflexivity|].
  intros k Hk. rewrite (nth_indep _ 0 ((fun p => sumprod w (column (map (fun f => map f pts) fields) p)) 0%nat)) by (rewrite map_length, seq_length; exact Hk).
  rewrite (map_nth (fun p => sumprod w (column (map (fun f => map f pts) fields) p))), seq_nth by exact Hk. cbn [Nat.add]. rewrite column_fields by exact Hk.
  rewrite sumprod_map. unfold weighted_mean. field. exact H1.
Qed.
Print Assumptions C161_selection.
(** ... so that the result of one of two equal states with wind speed 10 is 5 *)
Theorem C161_selection_refuted : exists r, mean_data 0 1 (Some [1%nat]) [(0%nat, A1 [1 / 2]); (1%nat, A2 [[10]])] = Some [r] /\ r = [5].
Proof.
  eexists. split; [reflexivity|]. cbn. f_equal. lra.
Qed.
Print Assumptions C161_selection_refuted.
(** ... and the mean of the wind directions 350 and 10 is 180 *)
Theorem C161_direction_refuted : exists r, mean_data 0 1 (Some [1%nat]) [(0%nat, A1 [1 / 2; 1 / 2]); (1%nat, A2 [[350]; [10]])] = Some [r] /\ r = [180].
Proof. eexists. split; [reflexivity|]. cbn. f_equal. lra. Qed.
Print Assumptions C161_direction_refuted.
(** ... with non-negative weights of sum one the mean is between the smallest and the largest value *)
Theorem C161_between W v (w : list R) rows np ds lo hi k : get ds W = Some (A1 w) -> get ds v = Some (A2 rows) -> length w = length rows -> rsum w = 1 -> (forall a, In a w -> 0 <= a) -> (k < np)%nat ->
  (forall r, In r rows -> lo <= nth k r 0 <= hi) -> exists r, mean_data W np (Some [v]) ds = Some [r] /\ lo <= nth k r 0 <= hi.
Proof.
  intros Hw Hv L H1 H0 Hk Hr. unfold mean_data. rewrite Hw. cbn [var_list map]. rewrite Hv. cbn [einsum collect]. eexists. split; [reflexivity|].
  rewrite (nth_indep _ 0 ((fun p => sumprod w (column rows p)) 0%nat)) by (rewrite map_length, seq_length; exact Hk).
  rewrite (map_nth (fun p => sumprod w (column rows p))), seq_nth by exact Hk. cbn [Nat.add].
  pose proof (sumprod_bounds w (column rows k) lo hi) as B. rewrite H1 in B. destruct B as (B1 & B2); [unfold column; now rewrite map_length|exact H0| |lra].
  intros b I. unfold column in I. apply in_map_iff in I. destruct I as (r & <- & I). now apply Hr.
Qed.
Print Assumptions C161_between.
(** ... weights that depend on the point (wind resource grids) are used at their point *)
Theorem C161_point_weights W v ws rows np ds k : get ds W = Some (A2 ws) -> get ds v = Some (A2 rows) -> (k < np)%nat ->
  exists r, mean_data W np (Some [v]) ds = Some [r] /\ nth k r 0 = sumprod (map (fun l => nth k l 0) ws) (map (fun l => nth k l 0) rows).
Proof.
  intros Hw Hv Hk. unfold mean_data. rewrite Hw. cbn [var_list map]. rewrite Hv. cbn [einsum collect]. eexists. split; [reflexivity|].
  rewrite (nth_indep _ 0 ((fun p => sumprod (column ws p) (column rows p)) 0%nat)) by (rewrite map_length, seq_length; exact Hk).
  rewrite (map_nth (fun p => sumprod (column ws p) (column rows p))), seq_nth by exact Hk. reflexivity.
Qed.
Print Assumptions C161_point_weights.
Example C161_case : weighted_mean [1 / 4; 3 / 4] [fun _ => 8; fun p => vx p] (12, 0, 90) = 11.
Proof. unfold weighted_mean, vx. cbn. field. Qed.

(** C162: without a choice of variables the mean data cannot be calculated: the results contain the weights, which have no value per point *)
Theorem C162_default_refuted W np w ds : get ds W = Some (A1 w) -> mean_data W np None ds = None.
Proof.
  intros H. unfold mean_data. rewrite H. apply collect_none. cbn [var_list]. apply in_map_iff. exists W. rewrite H. split; [reflexivity|].
  revert H. induction ds as [|(k, a) r IH]; cbn [get map]; [discriminate|]. destruct (Nat.eqb_spec k W); intros E; [now left|right; auto].
Qed.
Print Assumptions C162_default_refuted.
(** ... nor can the states' data be brought to the array format, except for one point *)
Theorem C162_states_refuted W ns na nb w ds : get ds W = Some (A1 w) -> length w = ns -> (0 < ns)%nat -> (na * nb)%nat <> 1%nat -> exists a, In W (var_list None ds) /\ get ds W = Some a /\ np2np_sp ns na nb a = None.
Proof.
  intros H L Hn N. exists (A1 w). split; [|split; [exact H|]].
  - cbn [var_list]. revert H. induction ds as [|(k, a) r IH]; cbn [get map]; [discriminate|]. destruct (Nat.eqb_spec k W); intros E; [now left|right; auto].
  - cbn [np2np_sp]. destruct (Nat.eqb_spec (length w) (ns * (na * nb))); [|reflexivity]. nia.
Qed.
Print Assumptions C162_states_refuted.
(** ... a choice of variables with values per point works *)
Theorem C162_chosen_partial W np w vars ds : get ds W = Some (A1 w) -> (forall v, In v vars -> exists rows, get ds v = Some (A2 rows)) -> exists r, mean_data W np (Some vars) ds = Some r /\ length r = length vars.
Proof.
  intros H Hv. unfold mean_data. rewrite H. cbn [var_list]. set (g := fun v => match get ds v with Some (A2 rows) => map (fun p => sumprod w (column rows p)) (seq 0 np) | _ => [] end).
  exists (map g vars). split; [|apply map_length]. apply collect_map. intros v I. destruct (Hv v I) as (rows & E). unfold g. rewrite E. reflexivity.
Qed.
Print Assumptions C162_chosen_partial.
Example C162_case : mean_data 0 1 None [(0%nat, A1 [1]); (1%nat, A2 [[10]])] = None /\ exists r, mean_data 0 1 (Some [1%nat]) [(0%nat, A1 [1]); (1%nat, A2 [[10]])] = Some r.
Proof. split; [reflexivity|]. eexists. reflexivity. Qed.

(** C163: limits: a modified value is within the limits if there are two consistent ones, and it is the normalised value if this is within the limits *)
Theorem C163_limits norm vmin vmax x : (forall m M, vmin = Some m -> vmax = Some M -> m <= M) ->
  let y := mod_value norm vmin vmax x in (forall m, vmin = Some m -> m <= y) /\ (forall M, vmax = Some M -> y <= M).
Proof.
  intros H y. unfold y, mod_value. set (u := match norm with Some n => x / n | None => x end). split.
  - intros m ->. pose proof (Rmax_r u m). destruct vmax as [M|]; [|exact H0]. apply Rmin_glb; [exact H0|]. now apply (H m M).
  - intros M ->. apply Rmin_r.
Qed.
Print Assumptions C163_limits.
Theorem C163_inside n vmin vmax x : (forall m, vmin = Some m -> m <= x / n) -> (forall M, vmax = Some M -> x / n <= M) -> mod_value (Some n) vmin vmax x = x / n.
Proof.
  intros A B. unfold mod_value. destruct vmin as [m|]; [rewrite Rmax_left by now apply A|]; (destruct vmax as [M|]; [now rewrite Rmin_left by now apply B|reflexivity]).
Qed.
Print Assumptions C163_inside.
(** ... the picture shows the requested variable, whatever the order of the set of variables *)
Theorem C163_picture var order data : In var order -> fig_data var order data = data var.
Proof.
  intros H. unfold fig_data. destruct (find (Nat.eqb var) order) as [v|] eqn:E.
  - apply find_some in E. destruct E as (_ & E). apply Nat.eqb_eq in E. now subst.
  - pose proof (find_none _ _ E var H) as F. now rewrite Nat.eqb_refl in F.
Qed.
Print Assumptions C163_picture.
(** ... but the data returned with it is that of the set's first element *)
Theorem C163_ret_data_refuted var WD WS data : var <> WD -> data WD <> data var -> exists order, In var order /\ In WD order /\ In WS order /\ ret_data order data = data WD /\ ret_data order data <> fig_data var order data.
Proof.
  intros H D. exists [WD; WS; var]. split; [cbn; tauto|]. split; [cbn; tauto|]. split; [cbn; tauto|]. split; [reflexivity|]. rewrite C163_picture by (cbn; tauto). exact D.
Qed.
Print Assumptions C163_ret_data_refuted.
Theorem C163_ret_data_partial var order data : hd_error order = Some var -> ret_data order data = data var.
Proof. destruct order as [|a o]; cbn; [discriminate|]. intros H. now injection H as <-. Qed.
Print Assumptions C163_ret_data_partial.
(** ... the rotors drawn into the pictures are those of the shown states if no states are selected *)
Theorem C163_rotors_partial {A} (res : list A) si : (si < length res)%nat -> exists s, fig_state (seq 0 (length res)) si = Some s /\ rotors res (seq 0 (length res)) si = nth_error res s.
Proof.
  intros H. exists si. split; [|reflexivity]. unfold fig_state. rewrite (nth_error_nth' _ 0%nat) by (rewrite seq_length; exact H). now rewrite seq_nth.
Qed.
Print Assumptions C163_rotors_partial.
(** ... but with a selection those of the states with the first numbers *)
Theorem C163_rotors_refuted : exists (res : list R) sel si s, fig_state sel si = Some s /\ nth_error res s = Some 20 /\ rotors res sel si = Some 10.
Proof. exists [10; 20], [1%nat], 0%nat, 1%nat. repeat split; reflexivity. Qed.
Print Assumptions C163_rotors_refuted.
Example C163_case : mod_value (Some 10) (Some 0) (Some 1) 15 = 1.
Proof. unfold mod_value. rewrite Rmax_left by lra. rewrite Rmin_right by lra. reflexivity. Qed.
