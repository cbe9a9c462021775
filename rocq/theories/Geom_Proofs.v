(** Proofs about the boundary geometries. *)
From Verif Require Import RBase Geom_Model Geom_Spec.
Local Open Scope R_scope.

(** * Set operations *)
Section ExprInd.
  Variable P : expr -> Prop.
  Hypothesis H1 : forall c n, P (EHalf c n).
  Hypothesis H2 : forall c r, P (ECirc c r).
  Hypothesis H3 : forall q i, P (EPoly q i).
  Hypothesis H4 : forall e, P e -> P (ENot e).
  Hypothesis H5 : forall a b, P a -> P b -> P (EPlus a b).
  Hypothesis H6 : forall a b, P a -> P b -> P (EMinus a b).
  Hypothesis H7 : forall es, Forall P es -> P (EUnion es).
  Hypothesis H8 : forall es, Forall P es -> P (EInter es).
  Fixpoint expr_ind2 (e : expr) : P e :=
    match e with
    | EHalf c n => H1 c n
    | ECirc c r => H2 c r
    | EPoly q i => H3 q i
    | ENot e => H4 e (expr_ind2 e)
    | EPlus a b => H5 a b (expr_ind2 a) (expr_ind2 b)
    | EMinus a b => H6 a b (expr_ind2 a) (expr_ind2 b)
    | EUnion es => H7 es ((fix go l : Forall P l := match l with [] => Forall_nil _ | a :: l' => Forall_cons a (expr_ind2 a) (go l') end) es)
    | EInter es => H8 es ((fix go l : Forall P l := match l with [] => Forall_nil _ | a :: l' => Forall_cons a (expr_ind2 a) (go l') end) es)
    end.
End ExprInd.

Definition offg (g : geo) (p : pt) : Prop := match g with HP c n => pdot (psub p c) n <> 0 | _ => True end.
Lemma pdot_neg a n : pdot a (- fst n, - snd n) = - pdot a n.
Proof. unfold pdot; cbn; ring. Qed.
Lemma offg_inverse g p : offg g p -> offg (inverse g) p.
Proof. destruct g; cbn [offg inverse]; auto. rewrite pdot_neg. lra. Qed.
Lemma inside_inverse g p : offg g p -> inside (inverse g) p = negb (inside g p).
Proof.
  destruct g; cbn [offg inverse inside]; intros H; auto using Bool.negb_involutive; try (symmetry; apply Bool.negb_involutive).
  rewrite pdot_neg. rdec; cbn; auto; lra.
Qed.
Lemma existsb_app_b {A} (f : A -> bool) l m : existsb f (l ++ m) = existsb f l || existsb f m.
Proof. apply existsb_app. Qed.
Lemma inside_union gs p : inside (Union gs) p = existsb (fun g => inside g p) gs.
Proof. reflexivity. Qed.
Lemma inside_add a b p : inside (add a b) p = inside a p || inside b p.
Proof.
  destruct a, b; cbn [add]; rewrite ?inside_union, ?existsb_app; cbn [existsb]; rewrite ?Bool.orb_false_r; reflexivity.
Qed.
Lemma inside_inter gs p : Forall (fun g => offg g p) gs -> inside (inter gs) p = forallb (fun g => inside g p) gs.
Proof.
  intros H. unfold inter. cbn [inverse inside]. induction H as [|g gs H Hs IH]; [reflexivity|].
  cbn [map existsb forallb]. rewrite inside_inverse by assumption. rewrite Bool.negb_orb, Bool.negb_involutive, IH. reflexivity.
Qed.
Lemma offg_build e p : off_lines e p -> offg (build e) p.
Proof.
  induction e using expr_ind2; cbn [off_lines build]; intros H'; try exact I; auto.
  - apply offg_inverse; auto.
  - destruct (build e1), (build e2); exact I.
Qed.
Theorem build_correct e p : off_lines e p -> (inside (build e) p = true <-> den e p).
Proof.
  induction e using expr_ind2; cbn [off_lines build den]; intros H'.
  - cbn. apply Rleb_true.
  - cbn. apply Rleb_true.
  - reflexivity.
  - rewrite inside_inverse by (now apply offg_build). rewrite Bool.negb_true_iff. specialize (IHe H').
    rewrite <- IHe. destruct (inside (build e) p); split; intros A; auto; try discriminate. now contradiction A.
  - destruct H' as (Ha & Hb). rewrite inside_add, Bool.orb_true_iff. rewrite IHe1, IHe2 by assumption. tauto.
  - destruct H' as (Ha & Hb). unfold diff. rewrite inside_inter.
    + cbn [forallb]. rewrite inside_inverse by (now apply offg_build). rewrite !Bool.andb_true_iff, Bool.negb_true_iff.
      rewrite IHe1 by assumption. specialize (IHe2 Hb). destruct (inside (build e2) p).
      * split; [intros (_ & A & _); discriminate|]. intros (_ & A). exfalso. tauto.
      * split; [intros (A & _); split; [assumption|]|]. { intros B. apply IHe2 in B. discriminate. } tauto.
    + repeat constructor; [now apply offg_build|apply offg_inverse; now apply offg_build].
  - rewrite inside_union. induction H as [|a es Ha Hs IH]; [cbn; split; [discriminate|tauto]|].
    destruct H' as (H1 & H2). cbn [map existsb]. rewrite Bool.orb_true_iff, (Ha H1). rewrite (IH H2). tauto.
  - rewrite inside_inter.
    + induction H as [|a es Ha Hs IH]; [cbn; tauto|].
      destruct H' as (H1 & H2). cbn [map forallb]. rewrite Bool.andb_true_iff, (Ha H1). rewrite (IH H2). tauto.
    + clear H. induction es as [|a es IH]; [constructor|]. destruct H' as (H1 & H2).
      constructor; [now apply offg_build|now apply IH].
Qed.
Lemma inverse_involutive g : inverse (inverse g) = g.
Proof. destruct g as [c (x, y)| | | | | |]; cbn; rewrite ?Ropp_involutive; reflexivity. Qed.
(** on the boundary line a half plane and its inverse both contain the point *)
Lemma halfplane_boundary c n p : pdot (psub p c) n = 0 -> inside (HP c n) p = true /\ inside (inverse (HP c n)) p = true.
Proof. intros H. cbn [inverse inside]. rewrite pdot_neg, H. rdec; split; auto; lra. Qed.
(** ... so that a difference with a half plane loses its boundary-line points the exact set keeps, never the converse *)

(** * Distances *)
Lemma pdot_self_nonneg a : 0 <= pdot a a.
Proof. unfold pdot. nra. Qed.
Lemma pnorm_nonneg a : 0 <= pnorm a.
Proof. apply sqrt_pos. Qed.
Lemma pnorm_sq a : pnorm a * pnorm a = pdot a a.
Proof. apply sqrt_sqrt. apply pdot_self_nonneg. Qed.
Lemma cauchy a b : pdot a b <= pnorm a * pnorm b.
Proof.
  pose proof (pnorm_nonneg a). pose proof (pnorm_nonneg b). pose proof (pnorm_sq a). pose proof (pnorm_sq b).
  destruct (Rle_or_lt (pdot a b) 0); [nra|]. apply Rsqr_incr_0; [|lra|apply Rmult_le_pos; assumption].
  unfold Rsqr. replace (pnorm a * pnorm b * (pnorm a * pnorm b)) with ((pnorm a * pnorm a) * (pnorm b * pnorm b)) by ring.
  rewrite H1, H2. unfold pdot. pose proof (Rle_0_sqr (fst a * snd b - snd a * fst b)) as Q. unfold Rsqr in Q. lra.
Qed.
Lemma pnorm_le a x : 0 <= x -> pdot a a <= x * x -> pnorm a <= x.
Proof. intros. apply Rsqr_incr_0; [|apply pnorm_nonneg|assumption]. unfold Rsqr. now rewrite pnorm_sq. Qed.
Lemma le_pnorm a x : x * x <= pdot a a -> x <= pnorm a.
Proof.
  intros. destruct (Rle_or_lt x 0); [pose proof (pnorm_nonneg a); lra|].
  apply Rsqr_incr_0; [|lra|apply pnorm_nonneg]. unfold Rsqr. now rewrite pnorm_sq.
Qed.
Lemma pnorm_eq a x : 0 <= x -> pdot a a = x * x -> pnorm a = x.
Proof. intros. apply Rle_antisym; [apply pnorm_le|apply le_pnorm]; lra. Qed.
Lemma triangle a b : pnorm (padd a b) <= pnorm a + pnorm b.
Proof.
  pose proof (pnorm_nonneg a). pose proof (pnorm_nonneg b). apply pnorm_le; [lra|].
  pose proof (cauchy a b). pose proof (pnorm_sq a). pose proof (pnorm_sq b).
  replace (pdot (padd a b) (padd a b)) with (pdot a a + 2 * pdot a b + pdot b b) by (unfold pdot, padd; cbn; ring). nra.
Qed.
Lemma pdist_sym a b : pdist a b = pdist b a.
Proof. unfold pdist, pnorm. f_equal. unfold pdot, psub; cbn; ring. Qed.
Lemma pdist_triangle a b c : pdist a c <= pdist a b + pdist b c.
Proof.
  unfold pdist. replace (psub a c) with (padd (psub a b) (psub b c)) by (unfold padd, psub; cbn; f_equal; ring). apply triangle.
Qed.
Lemma pdist_refl a : pdist a a = 0.
Proof. unfold pdist. apply pnorm_eq; [lra|]. unfold pdot, psub; cbn; ring. Qed.

Lemma hp_distance_ok c n p : pdot n n = 1 ->
  min_distance (fun q => pdot (psub q c) n = 0) p (fst (hp_distance c n p)) (snd (hp_distance c n p)).
Proof.
  intros H. destruct c as (cx, cy), n as (nx, ny), p as (px, py). unfold hp_distance. cbn [fst snd].
  unfold pdot in H; cbn in H. split; [|split].
  - unfold pdot, psub, padd, pscale; cbn. ring.
  - apply pnorm_eq; [apply Rabs_pos|]. rewrite <- Rabs_mult. rewrite Rabs_pos_eq by (apply Rle_0_sqr || nra).
    unfold pdot, psub, padd, pscale; cbn.
    replace (px - (cx + ((px - cx) * - ny + (py - cy) * nx) * - ny)) with
      ((px - cx) * (1 - ny * ny) + (py - cy) * nx * ny) by ring.
    replace (py - (cy + ((px - cx) * - ny + (py - cy) * nx) * nx)) with
      ((py - cy) * (1 - nx * nx) + (px - cx) * nx * ny) by ring.
    replace (1 - ny * ny) with (nx * nx) by lra. replace (1 - nx * nx) with (ny * ny) by lra.
    replace (((px - cx) * (nx * nx) + (py - cy) * nx * ny) * ((px - cx) * (nx * nx) + (py - cy) * nx * ny) +
      ((py - cy) * (ny * ny) + (px - cx) * nx * ny) * ((py - cy) * (ny * ny) + (px - cx) * nx * ny)) with
      (((px - cx) * nx + (py - cy) * ny) * ((px - cx) * nx + (py - cy) * ny) * (nx * nx + ny * ny)) by ring.
    rewrite H. ring.
  - intros (qx, qy) Hq. unfold pdist.
    assert (E : pdot (psub (px, py) (cx, cy)) (nx, ny) = pdot (psub (px, py) (qx, qy)) (nx, ny)).
    { unfold pdot, psub in *; cbn in *. lra. }
    rewrite E. apply Rabs_le. assert (N : pnorm (nx, ny) = 1) by (apply pnorm_eq; [lra|unfold pdot; cbn; lra]).
    pose proof (cauchy (psub (px, py) (qx, qy)) (nx, ny)) as C1.
    pose proof (cauchy (psub (px, py) (qx, qy)) (-nx, -ny)) as C2.
    assert (N2 : pnorm (-nx, -ny) = 1) by (apply pnorm_eq; [lra|unfold pdot; cbn; lra]).
    rewrite N in C1. rewrite N2 in C2. unfold pdot in *; cbn in *. lra.
Qed.

(** circles *)
Lemma pnorm_scale k a : 0 <= k -> pnorm (pscale k a) = k * pnorm a.
Proof. intros. apply pnorm_eq; [apply Rmult_le_pos; [assumption|apply pnorm_nonneg]|].
  replace (k * pnorm a * (k * pnorm a)) with (k * k * (pnorm a * pnorm a)) by ring. rewrite pnorm_sq. unfold pdot, pscale; cbn; ring. Qed.
Definition on_circle c r (q : pt) : Prop := pdist q c = r.
Definition proj_circle (c : pt) r p := padd c (pscale r (fst (psub p c) / pnorm (psub p c), snd (psub p c) / pnorm (psub p c))).
Lemma circ_lower c r p q : on_circle c r q -> circ_distance c r p <= pdist p q.
Proof.
  unfold on_circle, circ_distance. intros <-. apply Rabs_le. change (pnorm (psub p c)) with (pdist p c).
  pose proof (pdist_triangle p q c). pose proof (pdist_triangle q p c). rewrite (pdist_sym q p) in H0. lra.
Qed.
Lemma unit_vec a : 0 < pnorm a -> pnorm (fst a / pnorm a, snd a / pnorm a) = 1.
Proof.
  intros H. apply pnorm_eq; [lra|]. pose proof (pnorm_sq a). unfold pdot in *; cbn in *.
  replace (fst a / pnorm a * (fst a / pnorm a) + snd a / pnorm a * (snd a / pnorm a))
    with ((fst a * fst a + snd a * snd a) / (pnorm a * pnorm a)) by (field; lra).
  rewrite <- H0. field. lra.
Qed.
Lemma circ_proj c r p : 0 <= r -> 0 < pnorm (psub p c) ->
  on_circle c r (proj_circle c r p) /\ pdist p (proj_circle c r p) = circ_distance c r p.
Proof.
  intros Hr Hp. pose proof (unit_vec _ Hp) as U. set (d := psub p c) in *. split.
  - unfold on_circle, pdist, proj_circle. fold d.
    replace (psub (padd c (pscale r (fst d / pnorm d, snd d / pnorm d))) c) with (pscale r (fst d / pnorm d, snd d / pnorm d)).
    + rewrite pnorm_scale, U by assumption. ring.
    + unfold psub, padd, pscale; cbn. f_equal; ring.
  - unfold pdist, proj_circle. fold d.
    set (u := (fst d / pnorm d, snd d / pnorm d)) in *.
    assert (E : psub p (padd c (pscale r u)) = pscale (pnorm d - r) u).
    { unfold u, psub, padd, pscale; cbn. unfold d; cbn. fold d. f_equal; field; lra. }
    rewrite E. unfold circ_distance. fold d. destruct (Rle_or_lt r (pnorm d)).
    + rewrite pnorm_scale, U by lra. rewrite Rabs_pos_eq by lra. ring.
    + replace (pscale (pnorm d - r) u) with (pscale (r - pnorm d) (- fst u, - snd u)).
      * rewrite pnorm_scale by lra. rewrite Rabs_left by lra.
        replace (pnorm (- fst u, - snd u)) with (pnorm u) by (unfold pnorm, pdot; cbn; f_equal; ring). rewrite U. ring.
      * unfold pscale; cbn. f_equal; ring.
Qed.
Lemma circ_distance_ok c r p : 0 <= r -> 0 < pnorm (psub p c) ->
  min_distance (on_circle c r) p (circ_distance c r p) (proj_circle c r p).
Proof. intros H1 H2. destruct (circ_proj c r p H1 H2). split; [assumption|]. split; [assumption|]. intros q. apply circ_lower. Qed.
Lemma circ_distance_inf c r p : 0 <= r -> inf_distance (on_circle c r) p (circ_distance c r p).
Proof.
  intros Hr. split; [intros q; apply circ_lower|]. intros eps He. destruct (Rle_lt_or_eq_dec 0 _ (pnorm_nonneg (psub p c))) as [H|H].
  - exists (proj_circle c r p). destruct (circ_proj c r p Hr H) as (A & B). split; [assumption|]. lra.
  - exists (padd c (r, 0)). unfold on_circle, pdist. split.
    + apply pnorm_eq; [assumption|]. unfold pdot, psub, padd; cbn; ring.
    + unfold circ_distance. rewrite <- H. rewrite Rabs_left1 by lra.
      assert (Z : pdot (psub p c) (psub p c) = 0) by (rewrite <- pnorm_sq, <- H; ring).
      unfold pdot, psub in Z; cbn in Z.
      assert (X : fst p - fst c = 0) by (apply Rsqr_0_uniq; unfold Rsqr; pose proof (Rle_0_sqr (fst p - fst c)) as Q1; pose proof (Rle_0_sqr (snd p - snd c)) as Q2; unfold Rsqr in Q1, Q2; lra).
      assert (Y : snd p - snd c = 0) by (apply Rsqr_0_uniq; unfold Rsqr; pose proof (Rle_0_sqr (fst p - fst c)) as Q1; pose proof (Rle_0_sqr (snd p - snd c)) as Q2; unfold Rsqr in Q1, Q2; lra).
      assert (N : pnorm (psub p (padd c (r, 0))) = r).
      { apply pnorm_eq; [assumption|]. unfold pdot, psub, padd; cbn.
        replace (fst p - (fst c + r)) with (fst p - fst c - r) by ring. replace (snd p - (snd c + 0)) with (snd p - snd c) by ring.
        rewrite X, Y. ring. }
      rewrite N. lra.
Qed.
(** the batched nearest-point query *)
Lemma circ_nearest_ok c r ps : (forall p, In p ps -> 0 < pnorm (psub p c)) ->
  circ_nearest c r ps = Ok (map (proj_circle c r) ps).
Proof.
  intros H. unfold circ_nearest. replace (forallb _ _) with true.
  - now rewrite map_map.
  - symmetry. apply forallb_forall. intros d Hd. apply in_map_iff in Hd. destruct Hd as (p & <- & Hp). apply Rltb_true. auto.
Qed.
Lemma circ_nearest_err c r ps : In c ps -> (3 <= length (filter (fun d => Rltb 0 (pnorm d)) (map (fun p => psub p c) ps)))%nat ->
  circ_nearest c r ps = Err ValueError.
Proof.
  intros H1 H2. unfold circ_nearest. replace (forallb _ _) with false.
  - destruct (filter _ _) as [|? [|? [|? ?]]]; cbn in H2; try lia. reflexivity.
  - symmetry. apply Bool.not_true_iff_false. intros A. rewrite forallb_forall in A.
    specialize (A (psub c c)). rewrite in_map_iff in A. specialize (A (ex_intro _ c (conj eq_refl H1))).
    apply Rltb_true in A. change (pnorm (psub c c)) with (pdist c c) in A. rewrite pdist_refl in A. lra.
Qed.
Lemma circ_nearest_centre c r : circ_nearest c r [c] = Err ValueError.
Proof.
  unfold circ_nearest. cbn [map forallb filter]. change (pnorm (psub c c)) with (pdist c c). rewrite pdist_refl. rdec; [lra|reflexivity].
Qed.

(** * Polygons *)
Definition attained (S : pt -> Prop) p (b : R * pt) : Prop := S (snd b) /\ pdist p (snd b) = fst b.
Lemma pythagoras (q u : pt) x : pdot u u = 1 -> pdot q u = x -> pdot (psub q (pscale x u)) (psub q (pscale x u)) = pdot q q - x * x.
Proof.
  intros Hu <-. replace (pdot (psub q (pscale (pdot q u) u)) (psub q (pscale (pdot q u) u)))
    with (pdot q q - 2 * (pdot q u * pdot q u) + (pdot q u * pdot q u) * pdot u u) by (unfold pdot, psub, pscale; cbn; ring).
  rewrite Hu. ring.
Qed.
(** distance to a segment's points is at least the smaller of end point distances or, when the foot is inside, the height *)
Lemma unit_scale (n : pt) d : d <> 0 -> n = pscale d (fst n / d, snd n / d).
Proof. intros. destruct n; unfold pscale; cbn. f_equal; field; assumption. Qed.
Lemma segment_points a b q : on_segment a b q -> forall p,
  let n := psub b a in let d := pnorm n in
  0 < d ->
  let u := (fst n / d, snd n / d) in let x := pdot (psub p a) u in
  (x <= 0 -> pdist p a <= pdist p q) /\ (d <= x -> pdist p b <= pdist p q) /\
  (sqrt (Rmax (pnorm (psub p a) * pnorm (psub p a) - x * x) 0) <= pdist p q).
Proof.
  intros (t & Ht & ->) p n d Hd u x. pose proof (unit_vec n Hd) as U. fold d in U. fold u in U.
  assert (Uu : pdot u u = 1) by (rewrite <- pnorm_sq, U; ring).
  assert (En : n = pscale d u) by (apply unit_scale; lra).
  set (v := psub p a) in *.
  assert (Eq : forall s, pdot (psub p (padd a (pscale s n))) (psub p (padd a (pscale s n))) = (pdot v v - x * x) + (x - s * d) * (x - s * d)).
  { intros s. replace (psub p (padd a (pscale s n))) with (psub v (pscale (s * d) u)).
    - unfold x. replace (pdot (psub v (pscale (s * d) u)) (psub v (pscale (s * d) u))) with
        (pdot v v - 2 * (s * d) * pdot v u + (s * d) * (s * d) * pdot u u) by (unfold pdot, psub, pscale; cbn; ring).
      rewrite Uu. ring.
    - rewrite En. unfold v, psub, padd, pscale; cbn. f_equal; ring. }
  assert (Ea : pdist p a = pnorm (psub p (padd a (pscale 0 n)))) by (unfold pdist; f_equal; unfold psub, padd, pscale; cbn; f_equal; ring).
  assert (Eb : pdist p b = pnorm (psub p (padd a (pscale 1 n)))) by (unfold pdist, n; f_equal; unfold psub, padd, pscale; cbn; f_equal; ring).
  assert (M : forall s s', (x - s * d) * (x - s * d) <= (x - s' * d) * (x - s' * d) ->
    pnorm (psub p (padd a (pscale s n))) <= pnorm (psub p (padd a (pscale s' n)))).
  { intros s s' H. apply pnorm_le; [apply pnorm_nonneg|]. rewrite pnorm_sq, !Eq. lra. }
  fold n. split; [|split].
  - intros Hx. rewrite Ea. apply M. assert (0 <= t * d) by nra. nra.
  - intros Hx. rewrite Eb. apply M. assert (t * d <= d) by nra. nra.
  - unfold pdist. rewrite pnorm_sq. unfold pnorm at 1. apply sqrt_le_1_alt. rewrite Eq.
    apply Rmax_lub; [|rewrite <- Eq; apply pdot_self_nonneg]. pose proof (Rle_0_sqr (x - t * d)) as Q; unfold Rsqr in Q. lra.
Qed.
Lemma segment_degenerate a b q : on_segment a b q -> pnorm (psub b a) <= 0 -> q = a.
Proof.
  intros (t & Ht & ->) H. assert (Z : pnorm (psub b a) = 0) by (pose proof (pnorm_nonneg (psub b a)); lra).
  assert (D : pdot (psub b a) (psub b a) = 0) by (rewrite <- pnorm_sq, Z; ring).
  unfold pdot, psub in D; cbn in D.
  pose proof (Rle_0_sqr (fst b - fst a)) as Q1; pose proof (Rle_0_sqr (snd b - snd a)) as Q2; unfold Rsqr in Q1, Q2.
  assert (X : fst b - fst a = 0) by (apply Rsqr_0_uniq; unfold Rsqr; lra).
  assert (Y : snd b - snd a = 0) by (apply Rsqr_0_uniq; unfold Rsqr; lra).
  unfold padd, pscale, psub; cbn. rewrite X, Y. destruct a; cbn. f_equal; ring.
Qed.
Lemma segment_ends a b : on_segment a b a /\ on_segment a b b.
Proof.
  split; [exists 0|exists 1]; (split; [lra|]); unfold padd, pscale, psub; destruct a, b; cbn; f_equal; ring.
Qed.
Lemma seg_param (a n : pt) x d : d <> 0 -> padd a (pscale x (fst n / d, snd n / d)) = padd a (pscale (x / d) n).
Proof. intros. unfold padd, pscale; cbn. f_equal; field; assumption. Qed.
Lemma edge_step_ok S p best a b :
  attained S p best -> fst best <= pdist p a -> fst best <= pdist p b -> (forall q, on_segment a b q -> S q) ->
  let best' := edge_step p best a b in
  attained S p best' /\ fst best' <= fst best /\ (forall q, on_segment a b q -> fst best' <= pdist p q).
Proof.
  intros (Hs & Hd) Ha Hb HS. unfold edge_step. set (n := psub b a). set (d := pnorm n).
  destruct (Rltb 0 d) eqn:Ed; [apply Rltb_true in Ed|apply Rltb_false in Ed].
  - set (u := (fst n / d, snd n / d)). set (x := pdot (psub p a) u).
    destruct (Rltb 0 x && Rltb x d) eqn:Ex; cbn [fst snd].
    + apply Bool.andb_true_iff in Ex. destruct Ex as (X1 & X2). apply Rltb_true in X1. apply Rltb_true in X2.
      set (y := sqrt (Rmax (pnorm (psub p a) * pnorm (psub p a) - x * x) 0)).
      assert (Hy : S (padd a (pscale x u)) /\ pdist p (padd a (pscale x u)) = y).
      { split.
        - apply HS. exists (x / d). split; [|apply seg_param; lra].
          split; [apply Rlt_le; now apply Rdiv_lt_0_compat|]. apply (Rmult_le_reg_r d); [assumption|]. unfold Rdiv.
          rewrite Rmult_assoc, Rinv_l by lra. lra.
        - unfold pdist. replace (psub p (padd a (pscale x u))) with (psub (psub p a) (pscale x u))
            by (unfold psub, padd, pscale; cbn; f_equal; ring).
          assert (Uu : pdot u u = 1) by (rewrite <- pnorm_sq; unfold u; unfold d; rewrite unit_vec by assumption; ring).
          pose proof (pythagoras (psub p a) u x Uu eq_refl) as Py. unfold pnorm at 1. rewrite Py. unfold y. f_equal.
          rewrite pnorm_sq. rewrite Rmax_left; [reflexivity|]. rewrite <- Py. apply pdot_self_nonneg. }
      split; [|split].
      * rdec.
        -- split; cbn [fst snd]; [apply Hy|]. rewrite Rmin_right by lra. apply Hy.
        -- split; cbn [fst snd]; [assumption|]. rewrite Rmin_left by lra. assumption.
      * apply Rmin_l.
      * intros q Hq. eapply Rle_trans; [apply Rmin_r|]. apply (segment_points a b q Hq p Ed).
    + split; [now split|]. split; [lra|]. intros q Hq. destruct (segment_points a b q Hq p Ed) as (S1 & S2 & _).
      fold n d u x in S1, S2. apply Bool.andb_false_iff in Ex. destruct Ex as [X|X]; apply Rltb_false in X.
      * specialize (S1 X). lra.
      * specialize (S2 X). lra.
  - split; [now split|]. split; [lra|]. intros q Hq. rewrite (segment_degenerate a b q Hq Ed). assumption.
Qed.
Lemma edges_loop_ok S p : forall q best,
  attained S p best -> (forall v, In v q -> fst best <= pdist p v) -> (forall x, on_path q x -> S x) ->
  attained S p (edges_loop p best q) /\ fst (edges_loop p best q) <= fst best /\
  (forall x, on_path q x -> fst (edges_loop p best q) <= pdist p x).
Proof.
  induction q as [|a q IH]; intros best Hb Hv HS; [cbn; split; [assumption|split; [lra|tauto]]|].
  destruct q as [|b q]; [cbn; split; [assumption|split; [lra|tauto]]|].
  change (edges_loop p best (a :: b :: q)) with (edges_loop p (edge_step p best a b) (b :: q)).
  destruct (edge_step_ok S p best a b Hb) as (A1 & A2 & A3).
  - apply Hv; now left.
  - apply Hv; right; now left.
  - intros x Hx. apply HS. now left.
  - destruct (IH (edge_step p best a b) A1) as (B1 & B2 & B3).
    + intros v Hin. eapply Rle_trans; [apply A2|]. apply Hv. now right.
    + intros x Hx. apply HS. now right.
    + split; [assumption|]. split; [lra|]. intros x [Hx|Hx]; [|now apply B3]. eapply Rle_trans; [apply B2|now apply A3].
Qed.
Lemma nearest_vertex_ok S p : forall q best,
  attained S p best -> (forall v, In v q -> S v) ->
  attained S p (nearest_vertex p best q) /\ fst (nearest_vertex p best q) <= fst best /\
  (forall v, In v q -> fst (nearest_vertex p best q) <= pdist p v).
Proof.
  induction q as [|a q IH]; intros best Hb HS; [cbn; split; [assumption|split; [lra|tauto]]|].
  cbn [nearest_vertex]. destruct (IH (if Rltb (pdist p a) (fst best) then (pdist p a, a) else best)) as (B1 & B2 & B3).
  - rdec; [|assumption]. split; [apply HS; now left|reflexivity].
  - intros v Hv. apply HS. now right.
  - split; [assumption|]. assert (L : fst (if Rltb (pdist p a) (fst best) then (pdist p a, a) else best) <= fst best /\
      fst (if Rltb (pdist p a) (fst best) then (pdist p a, a) else best) <= pdist p a) by (rdec; cbn; lra).
    split; [lra|]. intros v [Hv|Hv]; [subst v; lra|now apply B3].
Qed.
Lemma on_path_vertex : forall l v, (2 <= length l)%nat -> In v l -> on_path l v.
Proof.
  induction l as [|a l IH]; intros v Hl Hv; [cbn in Hl; lia|]. destruct l as [|b l]; [cbn in Hl; lia|].
  destruct Hv as [Hv|Hv]; [subst v; left; apply segment_ends|].
  destruct l as [|c l]; [destruct Hv as [Hv|[]]; subst v; left; apply segment_ends|]. right. apply IH; [cbn; lia|assumption].
Qed.
Lemma removelast_In {A} (l : list A) x : In x (removelast l) -> In x l.
Proof. induction l as [|a [|b l] IH]; cbn; [tauto|tauto|]. intros [H|H]; [now left|right; now apply IH]. Qed.
Lemma close_shape v q : exists m, close_pts (v :: q) = v :: m /\ last (v :: m) v = v /\
  (forall x, In x (v :: q) -> In x (v :: m)) /\ (forall x, In x (v :: m) -> In x (v :: q)).
Proof.
  unfold close_pts. destruct (Reqb _ _ && Reqb _ _) eqn:E.
  - exists q. split; [reflexivity|]. split; [|split; auto].
    apply Bool.andb_true_iff in E. destruct E as (E1 & E2). apply Reqb_true in E1. apply Reqb_true in E2.
    symmetry. rewrite (surjective_pairing (last (v :: q) v)), <- E1, <- E2. apply surjective_pairing.
  - exists (q ++ [v]). split; [reflexivity|]. split; [now rewrite app_comm_cons, last_last|].
    split; intros x; cbn; rewrite in_app_iff; cbn; tauto.
Qed.
Lemma last_in_split {A} (l : list A) d : l <> [] -> l = removelast l ++ [last l d].
Proof. apply app_removelast_last. Qed.
(** the boundary of the polygon with these vertices *)
Theorem poly_distance_ok q p v0 v1 : In v0 q -> In v1 q -> v0 <> v1 ->
  exists d x, poly_distance q p = Ok (d, x) /\ min_distance (on_path (close_pts q)) p d x.
Proof.
  intros I0 I1 N. destruct q as [|v q]; [contradiction|]. destruct (close_shape v q) as (m & E & L & C1 & C2).
  unfold poly_distance. rewrite E.
  assert (Hm : m <> []).
  { intros ->. apply C1 in I0. apply C1 in I1. cbn in *. destruct I0 as [|[]], I1 as [|[]]. congruence. }
  assert (S1 : v :: m = removelast (v :: m) ++ [v]) by (rewrite (last_in_split (v :: m) v) at 1; [now rewrite L|discriminate]).
  assert (R0 : exists vs, removelast (v :: m) = v :: vs) by (destruct m as [|w m]; [contradiction|exists (removelast (w :: m)); reflexivity]).
  destruct R0 as (vs & R0). rewrite R0. set (S := on_path (v :: m)).
  assert (Lm : (2 <= length (v :: m))%nat) by (destruct m; [contradiction|cbn; lia]).
  assert (VS : forall x, In x (v :: m) -> S x) by (intros x; apply on_path_vertex; assumption).
  assert (VS' : forall x, In x (v :: vs) -> In x (v :: m)) by (intros x; rewrite <- R0; apply removelast_In).
  destruct (nearest_vertex_ok S p vs (pdist p v, v)) as (A1 & A2 & A3).
  { split; [apply VS; now left|reflexivity]. }
  { intros x Hx. apply VS, VS'. now right. }
  assert (NV : forall x, In x (v :: m) -> fst (nearest_vertex p (pdist p v, v) vs) <= pdist p x).
  { intros x Hx. rewrite S1, R0 in Hx. apply in_app_iff in Hx. cbn in Hx, A2.
    destruct Hx as [[Hx|Hx]|[Hx|[]]]; [subst; lra|now apply A3|subst; lra]. }
  destruct (edges_loop_ok S p (v :: m) _ A1 NV (fun x H => H)) as (B1 & B2 & B3).
  destruct (edges_loop p (nearest_vertex p (pdist p v, v) vs) (v :: m)) as (d, x) eqn:El. exists d, x. split; [reflexivity|].
  destruct B1 as (B1 & B1'). split; [exact B1|]. split; [exact B1'|exact B3].
Qed.
