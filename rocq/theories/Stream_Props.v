(** Theorems about the Streamlines2D wake frame. *)
From Verif Require Import Base RBase WindDir_Model OnePoint_Model Timelines_Model Order_Model Order_Spec Stream_Model Stream_Proofs.
From Coq Require Import Permutation.
Local Open Scope R_scope.

(** C135: for a wind direction that is the same at all points, a point has the coordinates (downwind distance, distance to the left) of straight wakes
    if it is less than one step upstream of the rotor and less than the streamline's number of points times the step downstream, and none otherwise *)
Theorem C135_uniform_direction wdf wd step n rotor p x y : (forall q, wdf q = Some wd) -> 0 < step ->
  x = (fst p - fst rotor) * fst (wd2uv wd 1) + (snd p - snd rotor) * snd (wd2uv wd 1) ->
  y = - (fst p - fst rotor) * snd (wd2uv wd 1) + (snd p - snd rotor) * fst (wd2uv wd 1) ->
  (- step < x < (INR n + 1) * step -> scoos step n (sline wdf step rotor (Some wd)) p = Some (x, y)) /\
  (~ - step < x < (INR n + 1) * step -> scoos step n (sline wdf step rotor (Some wd)) p = None).
Proof.
  intros Hw Hs Hx Hy. rewrite (scoos_uniform wdf wd Hw step Hs rotor n p).
  replace (dot2 (sub2 p rotor) (wd2uv wd 1)) with x by (rewrite Hx; unfold dot2, sub2; cbn [fst snd]; ring).
  replace (dot2 (sub2 p rotor) (perp2 (wd2uv wd 1))) with y by (rewrite Hy; unfold dot2, sub2, perp2; cbn [fst snd]; ring).
  split; intros H.
  - now rewrite (proj2 (Rltb_true _ _)), (proj2 (Rltb_true _ _)) by lra.
  - destruct (Rltb (- step) x && Rltb x ((INR n + 1) * step)) eqn:E; [|reflexivity]. rewrite andb_true_iff, !Rltb_true in E. tauto.
Qed.
Print Assumptions C135_uniform_direction.
(** for every direction field: a streamline point follows the wind of the point before, by one step ... *)
Theorem C135_follows_the_wind wdf step p0 wd0 i q d : sline wdf step p0 wd0 i = (Some q, Some d) ->
  exists d', sline wdf step p0 wd0 (S i) = (Some (fst q + step * fst (wd2uv d 1), snd q + step * snd (wd2uv d 1)), Some d') /\
    (wdf (Some (fst q + step * fst (wd2uv d 1), snd q + step * snd (wd2uv d 1))) = Some d' \/
     wdf (Some (fst q + step * fst (wd2uv d 1), snd q + step * snd (wd2uv d 1))) = None /\ d' = d).
Proof.
  intros H. cbn [sline]. rewrite H. unfold add2. cbn [fst snd]. destruct (wdf _) as [d'|] eqn:E; eexists; split; try reflexivity; auto.
Qed.
Print Assumptions C135_follows_the_wind.
(** ... and coordinates are those relative to the nearest streamline point: the distance along the streamline plus the distance ahead *)
Theorem C135_nearest_point step n line p x y : scoos step n line p = Some (x, y) ->
  exists i q w, (i <= n)%nat /\ line i = (Some q, Some w) /\
    (forall j q', (j <= n)%nat -> fst (line j) = Some q' -> norm2 (sub2 p q) <= norm2 (sub2 p q')) /\
    Rabs (x - step * INR i) < step /\ x = step * INR i + dot2 (sub2 p q) (wd2uv w 1) /\ y = dot2 (sub2 p q) (perp2 (wd2uv w 1)).
Proof. exact (scoos_nearest step n line p x y). Qed.
Print Assumptions C135_nearest_point.
(** west wind: the wake goes east *)
Lemma west : wd2uv 270 1 = (1, 0).
Proof.
  unfold wd2uv, wd2wdvec. cbn [fst snd]. replace (270 * PI / 180) with (PI / 2 + PI) by field. rewrite neg_sin, neg_cos, sin_PI2, cos_PI2. f_equal; ring.
Qed.
Example C135_nonvacuous : scoos 100 199 (sline (fun _ => Some 270) 100 (500, 500) (Some 270)) (1234, 510) = Some (734, 10).
Proof.
  destruct (C135_uniform_direction (fun _ => Some 270) 270 100 199 (500, 500) (1234, 510) 734 10 (fun _ => eq_refl)) as [H _]; rewrite ?west; cbn [fst snd]; try lra.
  apply H. replace (INR 199) with 199 by (rewrite INR_IZR_INZ; reflexivity). lra.
Qed.

(** C136: in a farm calculation all turbines are in farm order, whatever the wind, and no point has coordinates in any wake: no turbine is waked.
    [amb_wd]: the ambient wind directions at the time when wakes are calculated *)
Theorem C136_no_wakes_refuted nt wdf step n pos amb_wd :
  fst (farm_coos nt wdf step n pos amb_wd) = seq 0 nt /\ forall k p, snd (farm_coos nt wdf step n pos amb_wd) k p = None.
Proof. exact (farm_nan nt wdf step n pos amb_wd). Qed.
Print Assumptions C136_no_wakes_refuted.
(** without the data kept from the ordering, with known directions, the wakes would be there (as in calculations at points) *)
Theorem C136_fresh_model_data nt wdf wd step n pos p k : (forall q, wdf q = Some wd) -> 0 < step ->
  let x := (fst p - fst (pos k)) * fst (wd2uv wd 1) + (snd p - snd (pos k)) * snd (wd2uv wd 1) in - step < x < (INR n + 1) * step ->
  exists y, scoos step n (get_streamline_data nt wdf step None pos (fun _ => Some wd) k) p = Some (x, y).
Proof.
  intros Hw Hs x Hx. eexists. unfold get_streamline_data, calc_streamlines. eapply C135_uniform_direction; [exact Hw|exact Hs|reflexivity|reflexivity|exact Hx].
Qed.
Print Assumptions C136_fresh_model_data.

(** C137: with known start directions, in uniform wind direction: if all turbines are less than a step upstream of the last turbine of the farm, and within the streamline length, the turbines
    are in the order of their downwind position *)
Theorem C137_order_partial nt wdf wd step n pos : (forall q, wdf q = Some wd) -> 0 < step ->
  let x j := fst (pos j) * fst (wd2uv wd 1) + snd (pos j) * snd (wd2uv wd 1) in
  (forall j, (j < S nt)%nat -> - step < x j - x nt < (INR n + 1) * step) ->
  let order := stream_order (S nt) step n (calc_streamlines wdf step pos (fun _ => Some wd)) pos in
  Permutation order (seq 0 (S nt)) /\ forall a b, (a < b < S nt)%nat -> x (nth a order O) <= x (nth b order O).
Proof.
  intros Hw Hs x Hx order. destruct (lexsort_spec (S nt) (fun i j => match scoos step n (calc_streamlines wdf step pos (fun _ => Some wd) i) (pos j) with Some (x, _) => Some x | None => None end)) as [A _].
  change (Permutation order (seq 0 (S nt))) in A. split; [exact A|]. intros a b Hab.
  assert (In_ : forall c, (c < S nt)%nat -> (nth c order O < S nt)%nat).
  { intros c Hc. assert (I : In (nth c order O) order). { apply nth_In. rewrite (Permutation_length A), seq_length. exact Hc. }
    apply (Permutation_in _ A), in_seq in I. lia. }
  pose proof (lexsort_last nt (fun i j => match scoos step n (calc_streamlines wdf step pos (fun _ => Some wd) i) (pos j) with Some (x, _) => Some x | None => None end) a b Hab) as L.
  change (lexsort (S nt) _) with order in L. cbn beta in L.
  assert (E : forall j, (j < S nt)%nat -> match scoos step n (calc_streamlines wdf step pos (fun _ => Some wd) nt) (pos j) with Some (x, _) => Some x | None => None end = Some (x j - x nt)).
  { intros j Hj. unfold calc_streamlines. rewrite (proj1 (C135_uniform_direction wdf wd step n (pos nt) (pos j) (x j - x nt) _ Hw Hs ltac:(unfold x; ring) eq_refl)) by (apply Hx; exact Hj). reflexivity. }
  rewrite !E in L by (apply In_; lia). cbn [olt] in L. apply Rltb_false in L. lra.
Qed.
Print Assumptions C137_order_partial.
(** otherwise not: a turbine more than a step upstream of the last turbine comes after it *)
Theorem C137_upstream_turbine_last_refuted wdf wd step n pos : (forall q, wdf q = Some wd) -> 0 < step ->
  let x j := fst (pos j) * fst (wd2uv wd 1) + snd (pos j) * snd (wd2uv wd 1) in
  x 0%nat <= x 1%nat - step -> stream_order 2 step n (calc_streamlines wdf step pos (fun _ => Some wd)) pos = [1%nat; 0%nat].
Proof.
  intros Hw Hs x Hx.
  assert (E : match scoos step n (calc_streamlines wdf step pos (fun _ => Some wd) 1%nat) (pos 0%nat) with Some (x, _) => Some x | None => None end = None).
  { unfold calc_streamlines. rewrite (proj2 (C135_uniform_direction wdf wd step n (pos 1%nat) (pos 0%nat) (x 0%nat - x 1%nat) _ Hw Hs ltac:(unfold x; ring) eq_refl)) by lra. reflexivity. }
  assert (F : match scoos step n (calc_streamlines wdf step pos (fun _ => Some wd) 1%nat) (pos 1%nat) with Some (x, _) => Some x | None => None end = Some 0).
  { unfold calc_streamlines. rewrite (proj1 (C135_uniform_direction wdf wd step n (pos 1%nat) (pos 1%nat) 0 _ Hw Hs ltac:(ring) eq_refl)) by (pose proof (pos_INR n); nra). reflexivity. }
  unfold stream_order, lexsort. cbn [seq map rev app]. rewrite E, F. unfold argsort, isort. cbn [length seq combine fold_right insert fst lex_leb olt]. reflexivity.
Qed.
Print Assumptions C137_upstream_turbine_last_refuted.
Example C137_nonvacuous : stream_order 2 100 199 (calc_streamlines (fun _ => Some 270) 100 (fun j => match j with O => (0, 0) | _ => (500, 0) end) (fun _ => Some 270)) (fun j => match j with O => (0, 0) | _ => (500, 0) end) = [1%nat; 0%nat].
Proof. apply (C137_upstream_turbine_last_refuted (fun _ => Some 270) 270); [reflexivity|lra|]. rewrite west. cbn [fst snd]. lra. Qed.
