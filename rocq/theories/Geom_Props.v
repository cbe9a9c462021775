(** Theorems about boundary geometries. *)
From Verif Require Import RBase Geom_Model Geom_Spec Geom_Proofs Geom_Proofs2.
Local Open Scope R_scope.

(** C40: set algebra, for every nested expression, at every point that is on no half plane's boundary line *)
Theorem C40_set_algebra e p : off_lines e p -> (inside (build e) p = true <-> den e p).
Proof. exact (build_correct e p). Qed.
Print Assumptions C40_set_algebra.
Theorem C40_double_inverse g : inverse (inverse g) = g.
Proof. exact (inverse_involutive g). Qed.
Print Assumptions C40_double_inverse.
Theorem C40_half_plane_boundary c n p : pdot (psub p c) n = 0 ->
  inside (build (EHalf c n)) p = true /\ inside (build (ENot (EHalf c n))) p = true.
Proof. exact (halfplane_boundary c n p). Qed.
Print Assumptions C40_half_plane_boundary.
Example C40_nonvacuous :
  let e := EUnion [EMinus (ECirc (0, 0) 2) (EHalf (0, 0) (1, 0)); ENot (EInter [EPoly sq sq_in; ECirc (1, 1) 1])] in
  off_lines e (-1, 0) /\ den e (-1, 0) /\ inside (build e) (-1, 0) = true.
Proof.
  cbv zeta. set (e := EUnion _). assert (O : off_lines e (-1, 0)) by (cbn; unfold pdot, psub; cbn; lra).
  assert (D : den e (-1, 0)).
  { left. cbn. split; [|unfold pdot, psub; cbn; lra]. apply pnorm_le; [lra|]. unfold pdot, psub; cbn; lra. }
  split; [assumption|]. split; [assumption|]. now apply C40_set_algebra.
Qed.

(** C41 is false: a bounded intersection of four half planes containing the origin reports the box (+inf, -inf). *)
Theorem C41_boxes_refuted :
  inside diamond (0, 0) = true /\ (forall p, inside diamond p = true -> Rabs (fst p) <= 5/3 /\ Rabs (snd p) <= 5/4) /\
  pmin false diamond = (PInf, PInf) /\ pmax false diamond = (NInf, NInf).
Proof. split; [exact diamond_origin|]. split; [exact diamond_bounded|exact diamond_boxes]. Qed.
Print Assumptions C41_boxes_refuted.
(** Boxes are right whenever no part reports an inverted infinite corner. *)
Theorem C41_lower_corner_partial i g p : atoms_ok g -> honest (fun b g => bget i (pmin b g)) PInf false g ->
  inside g p = true -> above (bget i (pmin false g)) (coord i p).
Proof. exact (pmin_ok i g false p). Qed.
Print Assumptions C41_lower_corner_partial.
Theorem C41_upper_corner_partial i g p : atoms_ok g -> honest (fun b g => bget i (pmax b g)) NInf false g ->
  inside g p = true -> below (bget i (pmax false g)) (coord i p).
Proof. exact (pmax_ok i g p). Qed.
Print Assumptions C41_upper_corner_partial.
Example C41_nonvacuous :
  let g := build (EUnion [EPoly sq sq_in; EMinus (ECirc (5, 0) 2) (ECirc (5, 0) 1)]) in
  atoms_ok g /\ honest (fun b g => bget false (pmin b g)) PInf false g /\ bget false (pmin false g) = Fin 0 /\ inside g (1/2, 1/2) = true.
Proof.
  cbv zeta. cbn [build map]. unfold diff, inter. cbn [map inverse build].
  split; [|split; [|split]].
  - cbn [atoms_ok]. split; [exact sq_atoms|]. repeat split.
  - cbn. repeat split; try discriminate.
  - cbn. f_equal. unfold Rmin. repeat destruct (Rle_dec _ _); lra.
  - cbn. rewrite Bool.orb_true_iff. left. apply sq_in_true. cbn; lra.
Qed.

(** C42: half plane, circle and polygon distances are minimum distances to the boundary; nearest points attain them *)
Theorem C42_half_plane c n p : pdot n n = 1 ->
  min_distance (fun q => pdot (psub q c) n = 0) p (fst (hp_distance c n p)) (snd (hp_distance c n p)).
Proof. exact (hp_distance_ok c n p). Qed.
Print Assumptions C42_half_plane.
Theorem C42_circle c r p : 0 <= r -> inf_distance (fun q => pdist q c = r) p (circ_distance c r p).
Proof. exact (circ_distance_inf c r p). Qed.
Print Assumptions C42_circle.
Theorem C42_polygon q p v w : In v q -> In w q -> v <> w ->
  exists d x, poly_distance q p = Ok (d, x) /\ min_distance (on_path (close_pts q)) p d x.
Proof. exact (poly_distance_ok q p v w). Qed.
Print Assumptions C42_polygon.
Theorem C42_circle_nearest_partial c r ps : 0 <= r -> (forall p, In p ps -> p <> c) ->
  exists qs, circ_nearest c r ps = Ok qs /\
             Forall2 (fun p q => min_distance (fun x => pdist x c = r) p (circ_distance c r p) q) ps qs.
Proof.
  intros Hr H. assert (P : forall p, In p ps -> 0 < pnorm (psub p c)).
  { intros p Hp. destruct (Rle_lt_or_eq_dec 0 _ (pnorm_nonneg (psub p c))) as [A|A]; [assumption|]. exfalso. apply (H p Hp).
    assert (D : pdot (psub p c) (psub p c) = 0) by (rewrite <- pnorm_sq, <- A; ring). unfold pdot, psub in D; cbn in D.
    pose proof (Rle_0_sqr (fst p - fst c)) as Q1; pose proof (Rle_0_sqr (snd p - snd c)) as Q2; unfold Rsqr in Q1, Q2.
    assert (X : fst p - fst c = 0) by (apply Rsqr_0_uniq; unfold Rsqr; lra).
    assert (Y : snd p - snd c = 0) by (apply Rsqr_0_uniq; unfold Rsqr; lra). destruct p, c; cbn in *. f_equal; lra. }
  exists (map (proj_circle c r) ps). split; [now apply circ_nearest_ok|]. clear H. induction ps as [|p ps IH]; [constructor|].
  cbn [map]. constructor; [apply circ_distance_ok; [assumption|apply P; now left]|]. apply IH. intros; apply P; now right.
Qed.
Print Assumptions C42_circle_nearest_partial.
(** The nearest-point query is an error if the centre is queried along with three or more other points. *)
Theorem C42_circle_nearest_refuted c r ps : In c ps ->
  (3 <= length (filter (fun d => Rltb 0 (pnorm d)) (map (fun p => psub p c) ps)))%nat -> circ_nearest c r ps = Err ValueError.
Proof. exact (circ_nearest_err c r ps). Qed.
Print Assumptions C42_circle_nearest_refuted.
Theorem C42_circle_nearest_centre_refuted c r : circ_nearest c r [c] = Err ValueError.
Proof. exact (circ_nearest_centre c r). Qed.
Print Assumptions C42_circle_nearest_centre_refuted.
Example C42_nonvacuous : exists d x, poly_distance sq (2, 2) = Ok (d, x) /\ min_distance (on_path (close_pts sq)) (2, 2) d x.
Proof. apply (C42_polygon sq (2, 2) (0, 0) (1, 0)); [now left|right; now left|]. intros E. injection E. lra. Qed.

(** C84: distances of compound geometries. For every nested geometry, no point closer than the reported distance has a
    different membership. *)
Theorem C84_safe_radius g p q : wf g -> inside g p <> inside g q -> ole (gdist g p) (pdist p q).
Proof. exact (safe_radius g p q). Qed.
Print Assumptions C84_safe_radius.
(** Outside a union of shapes it is the exact distance to the union. *)
Theorem C84_outside_exact g p : wf g -> positive g -> inside g p = false -> odist (fun q => inside g q = true) p (gdist g p).
Proof. exact (outside_exact g p). Qed.
Print Assumptions C84_outside_exact.
(** Inside it is not: a union covering the plane has no boundary, but reports a finite distance. *)
Theorem C84_inside_refuted :
  let g := Union [HP (0, 0) (1, 0); HP (1, 0) (-1, 0)] in
  wf g /\ (forall p, inside g p = true) /\ exists d, gdist g (1/2, 0) = Some d /\ d = 1/2.
Proof.
  cbv zeta. split; [cbn; unfold pdot; cbn; lra|]. split; [exact cover_inside|exact cover_dist].
Qed.
Print Assumptions C84_inside_refuted.
Example C84_nonvacuous : let g := Union [Poly sq sq_in; Circ (5, 0) 1; HP (10, 0) (1, 0)] in wf g /\ positive g /\ inside g (2, 2) = false.
Proof.
  cbv zeta. split; [|split].
  - cbn [wf]. split; [exact sq_traces|]. split; [lra|]. split; [unfold pdot; cbn; lra|exact I].
  - cbn. tauto.
  - cbn [inside existsb]. rewrite !Bool.orb_false_iff. repeat split.
    + apply Bool.not_true_iff_false. rewrite sq_in_true. cbn. lra.
    + apply Rleb_false. apply (Rlt_le_trans _ 3); [lra|]. apply le_pnorm. unfold pdot, psub; cbn. lra.
    + apply Rleb_false. unfold pdot, psub; cbn. lra.
Qed.
