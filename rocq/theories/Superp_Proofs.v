(** Proofs about superpositions. *)
From Coq Require Import Permutation.
From Verif Require Import RBase Superp_Model Superp_Spec.
Local Open Scope R_scope.

Lemma Rmax_swap a b c : Rmax (Rmax a b) c = Rmax (Rmax a c) b.
Proof. unfold Rmax. repeat destruct (Rle_dec _ _); lra. Qed.
Lemma Rmax_swap' a b c : Rmax a (Rmax b c) = Rmax b (Rmax a c).
Proof. unfold Rmax. repeat destruct (Rle_dec _ _); lra. Qed.
Lemma add_wake_comm s d c1 c2 : add_wake s (add_wake s d c1) c2 = add_wake s (add_wake s d c2) c1.
Proof.
  destruct c1 as [[s1 r1]|], c2 as [[s2 r2]|]; cbn; auto.
  destruct s; try ring; try apply Rmax_swap; try apply Rmax_swap'.
Qed.
Lemma fold_perm {A B} (f : A -> B -> A) : (forall a x y, f (f a x) y = f (f a y) x) ->
  forall l l', Permutation l l' -> forall a, fold_left f l a = fold_left f l' a.
Proof.
  intros H l l' P. induction P; intros a; cbn; auto.
  - now rewrite H.
  - now rewrite IHP1.
Qed.
Lemma wake_delta_perm s cs cs' : Permutation cs cs' -> wake_delta s cs = wake_delta s cs'.
Proof. intros P. unfold wake_delta. apply fold_perm; [apply add_wake_comm|exact P]. Qed.

(** npow *)
Lemma npow_0 p : npow 0 p = 0.
Proof. unfold npow. now rewrite Reqb_refl. Qed.
Lemma npow_nonneg x p : 0 <= x -> 0 <= npow x p.
Proof. intros H. unfold npow. rdec; [lra|]. unfold Rpower. left. apply exp_pos. Qed.
Lemma npow_mono x y p : 0 < p -> 0 <= x <= y -> npow x p <= npow y p.
Proof.
  intros Hp (Hx & Hxy). destruct (Req_dec x 0) as [E0|E0].
  - subst x. rewrite npow_0. now apply npow_nonneg.
  - unfold npow. rdec; try lra. apply Rle_Rpower_l; lra.
Qed.
Lemma npow_inv x p : 0 < p -> 0 <= x -> npow (npow x p) (1 / p) = x.
Proof.
  intros Hp Hx. destruct (Req_dec x 0) as [E0|E0]; [subst x; now rewrite !npow_0|].
  assert (Hr : 0 < Rpower x p) by (unfold Rpower; apply exp_pos).
  unfold npow at 2. rewrite (proj2 (Reqb_false x 0) E0). unfold npow. rewrite (proj2 (Reqb_false (Rpower x p) 0)) by lra. rewrite Rpower_mult. replace (p * (1 / p)) with 1 by (field; lra). apply Rpower_1. lra.
Qed.

(** clamp *)
Lemma clamp_high low h amb w : amb + clamp low (Some h) amb w <= h.
Proof. unfold clamp. destruct low as [l|]; [pose proof (Rmin_r (Rmax w (l - amb)) (h - amb))|pose proof (Rmin_r w (h - amb))]; lra. Qed.
Lemma clamp_low l high amb w : (forall h, high = Some h -> l <= h) -> l <= amb + clamp (Some l) high amb w.
Proof.
  intros H. unfold clamp. pose proof (Rmax_r w (l - amb)). destruct high as [h|]; [|lra].
  specialize (H h eq_refl). unfold Rmin. destruct (Rle_dec _ _); lra.
Qed.
Lemma clamp_id low high amb w : (forall l, low = Some l -> l <= amb + w) -> (forall h, high = Some h -> amb + w <= h) -> clamp low high amb w = w.
Proof.
  intros Hl Hh. unfold clamp. assert (E : match low with Some l => Rmax w (l - amb) | None => w end = w).
  { destruct low as [l|]; [|reflexivity]. specialize (Hl l eq_refl). apply Rmax_left. lra. }
  rewrite E. destruct high as [h|]; [|reflexivity]. specialize (Hh h eq_refl). apply Rmin_left. lra.
Qed.
Lemma clamp_mono low high amb w w' : w <= w' -> clamp low high amb w <= clamp low high amb w'.
Proof.
  intros H. unfold clamp.
  assert (E : match low with Some l => Rmax w (l - amb) | None => w end <= match low with Some l => Rmax w' (l - amb) | None => w' end).
  { destruct low as [l|]; [|exact H]. apply Rle_max_compat_r. exact H. }
  destruct high as [h|]; [|exact E]. apply Rle_min_compat_r. exact E.
Qed.

(** no wakes *)
Lemma wake_delta_none s cs : Forall (fun c => c = None) cs -> wake_delta s cs = 0.
Proof.
  unfold wake_delta. generalize 0. induction cs as [|c cs IH]; intros d H; cbn; [reflexivity|]. inversion H; subst. cbn. auto.
Qed.
Lemma raw_final_0 s quad amb : 0 <= amb -> raw_final s quad amb 0 = 0.
Proof.
  intros H. destruct s, quad; cbn; unfold ti_to_amb; rewrite ?sqrt_0, ?npow_0; try lra;
    try (replace (0 * 0 + amb * amb) with (amb * amb) by ring); try (replace (0 + amb * amb) with (amb * amb) by ring);
    rewrite ?sqrt_square by lra; lra.
Qed.
Lemma no_wake s quad low high amb cs : Forall (fun c => c = None) cs -> 0 <= amb ->
  (forall l, low = Some l -> l <= amb) -> (forall h, high = Some h -> amb <= h) ->
  final_wake s quad low high amb cs = 0.
Proof.
  intros H Ha Hl Hh. unfold final_wake. rewrite wake_delta_none by exact H. unfold final_delta. rewrite raw_final_0 by exact Ha.
  destruct (is_ws s); [|reflexivity]. apply clamp_id; intros x E; [specialize (Hl x E)|specialize (Hh x E)]; lra.
Qed.

(** monotonicity *)
(** sign and direction of the accumulated delta *)
Definition accum (s : superp) (d : R) : Prop := match s with WSLinear | WSLinearLocal => d <= 0 | _ => 0 <= d end.
Definition stronger (s : superp) (d d' : R) : Prop := match s with WSLinear | WSLinearLocal => d' <= d | _ => d <= d' end.
Lemma add_stronger s d c : good s c -> stronger s d (add_wake s d c).
Proof.
  destruct c as [[sc r]|]; cbn; [|intros _; destruct s; cbn; lra].
  destruct s; cbn; intros H; try (destruct H as (Hs & Hr)); try nra.
  - pose proof (Rmax_l d (Rabs (sc * r))). lra.
  - pose proof (Rmax_l d (Rabs r)). lra.
  - pose proof (npow_nonneg (Rabs (sc * r)) p (Rabs_pos _)). lra.
  - pose proof (npow_nonneg (Rabs r) p (Rabs_pos _)). lra.
  - pose proof (Rmax_r r d). lra.
  - pose proof (npow_nonneg r p H). lra.
Qed.
Lemma accum_stronger s d d' : accum s d -> stronger s d d' -> accum s d'.
Proof. destruct s; cbn; lra. Qed.
Lemma accum_wake s cs : Forall (good s) cs -> accum s (wake_delta s cs).
Proof.
  unfold wake_delta. assert (G : forall cs d, Forall (good s) cs -> accum s d -> accum s (fold_left (add_wake s) cs d)).
  { clear cs. induction cs as [|c cs IH]; intros d H A; cbn; [exact A|]. inversion H; subst. apply IH; auto.
    eapply accum_stronger; [exact A|now apply add_stronger]. }
  intros H. apply G; auto. destruct s; cbn; lra.
Qed.
Lemma sqrt_sum_mono a b amb : 0 <= a <= b -> sqrt (a + amb * amb) <= sqrt (b + amb * amb).
Proof. intros H. apply sqrt_le_1_alt. lra. Qed.
Lemma raw_mono s quad amb d d' : pow_ok s -> 0 <= amb -> accum s d -> stronger s d d' ->
  if is_ws s then raw_final s quad amb d' <= raw_final s quad amb d else raw_final s quad amb d <= raw_final s quad amb d'.
Proof.
  intros Hp Ha A S. destruct s; cbn in *; try nra.
  - pose proof (sqrt_le_1_alt d d' S). lra.
  - pose proof (sqrt_le_1_alt d d' S). nra.
  - assert (Hi : 0 < 1 / p) by (apply Rdiv_lt_0_compat; lra). pose proof (npow_mono d d' (1 / p) Hi (conj A S)). lra.
  - assert (Hi : 0 < 1 / p) by (apply Rdiv_lt_0_compat; lra). pose proof (npow_mono d d' (1 / p) Hi (conj A S)). nra.
  - unfold ti_to_amb. destruct quad; [|lra]. assert (0 <= d * d <= d' * d') by nra. pose proof (sqrt_sum_mono _ _ amb H). lra.
  - destruct quad; [pose proof (sqrt_sum_mono d d' amb (conj A S))|pose proof (sqrt_le_1_alt d d' S)]; lra.
  - unfold ti_to_amb. destruct quad; [|lra]. assert (0 <= d * d <= d' * d') by nra. pose proof (sqrt_sum_mono _ _ amb H). lra.
  - destruct quad.
    + assert (Hi : 0 < 2 / p) by (apply Rdiv_lt_0_compat; lra).
      pose proof (npow_mono d d' (2 / p) Hi (conj A S)). pose proof (npow_nonneg d (2 / p) A).
      pose proof (sqrt_sum_mono _ _ amb (conj H0 H)). lra.
    + assert (Hi : 0 < 1 / p) by (apply Rdiv_lt_0_compat; lra). exact (npow_mono d d' (1 / p) Hi (conj A S)).
Qed.
Lemma wake_delta_snoc s cs c : wake_delta s (cs ++ [c]) = add_wake s (wake_delta s cs) c.
Proof. unfold wake_delta. now rewrite fold_left_app. Qed.
Lemma more_wakes s quad low high amb cs c : pow_ok s -> 0 <= amb -> Forall (good s) cs -> good s c ->
  if is_ws s then final_wake s quad low high amb (cs ++ [c]) <= final_wake s quad low high amb cs
  else final_wake s quad low high amb cs <= final_wake s quad low high amb (cs ++ [c]).
Proof.
  intros Hp Ha H Hc. unfold final_wake. rewrite wake_delta_snoc.
  pose proof (raw_mono s quad amb _ _ Hp Ha (accum_wake s cs H) (add_stronger s (wake_delta s cs) c Hc)) as M.
  unfold final_delta. destruct (is_ws s); [now apply clamp_mono|exact M].
Qed.
Lemma ti_never_below s quad low high amb cs : is_ws s = false -> pow_ok s -> 0 <= amb -> Forall (good s) cs -> 0 <= final_wake s quad low high amb cs.
Proof.
  intros Hs Hp Ha H. induction cs as [|c cs IH] using rev_ind.
  - unfold final_wake, final_delta. rewrite Hs. cbn. rewrite raw_final_0; lra.
  - apply Forall_app in H. destruct H as (H & Hc). inversion Hc; subst. pose proof (more_wakes s quad low high amb cs c Hp Ha H H2) as M.
    rewrite Hs in M. specialize (IH H). lra.
Qed.
Lemma ws_never_above s quad low high amb cs : is_ws s = true -> pow_ok s -> 0 <= amb -> (forall l, low = Some l -> l <= amb) -> Forall (good s) cs -> final_wake s quad low high amb cs <= 0.
Proof.
  intros Hs Hp Ha Hl H. induction cs as [|c cs IH] using rev_ind.
  - unfold final_wake, final_delta. rewrite Hs. cbn. rewrite raw_final_0 by lra.
    unfold clamp. assert (E : match low with Some l => Rmax 0 (l - amb) | None => 0 end = 0).
    { destruct low as [l|]; [|reflexivity]. specialize (Hl l eq_refl). apply Rmax_left. lra. }
    rewrite E. destruct high; [apply Rmin_l|lra].
  - apply Forall_app in H. destruct H as (H & Hc). inversion Hc; subst. pose proof (more_wakes s quad low high amb cs c Hp Ha H H2) as M.
    rewrite Hs in M. specialize (IH H). lra.
Qed.
(** a single wake *)
Lemma single_wake s quad amb scale r : is_ws s = true -> pow_ok s -> 0 <= scale -> r <= 0 ->
  final_wake s quad None None amb [Some (scale, r)] =
  match s with WSLinearLocal | WSQuadraticLocal | WSMaxLocal | WSPowLocal _ => amb * r | _ => scale * r end.
Proof.
  intros Hs Hp Hsc Hr. unfold final_wake, final_delta, wake_delta, clamp. rewrite Hs. cbn [fold_left].
  assert (A1 : Rabs (scale * r) = - (scale * r)) by (apply Rabs_left1; nra).
  assert (A2 : Rabs r = - r) by (apply Rabs_left1; lra).
  destruct s; cbn in *; try discriminate; rewrite ?A1, ?A2, ?Rplus_0_l.
  - ring.
  - ring.
  - replace (scale * r * (scale * r)) with ((- (scale * r)) * (- (scale * r))) by ring. rewrite sqrt_square by nra. ring.
  - replace (r * r) with ((- r) * (- r)) by ring. rewrite sqrt_square by lra. ring.
  - rewrite Rmax_right by nra. ring.
  - rewrite Rmax_right by lra. ring.
  - rewrite npow_inv by nra. ring.
  - rewrite npow_inv by lra. ring.
Qed.

(** product superposition *)
Lemma mul_sel_nth ds rs i d : nth_error ds i = Some d -> length rs = length ds ->
  nth_error (mul_sel ds rs) i = Some (match nth i rs None with Some x => d * (1 + x) | None => d end).
Proof.
  revert rs i; induction ds as [|a ds IH]; intros [|r rs] [|i] E L; cbn in *; try discriminate.
  - injection E as ->. reflexivity.
  - apply IH; auto.
Qed.
Lemma mul_sel_length ds rs : length (mul_sel ds rs) = length ds.
Proof. revert rs; induction ds as [|a ds IH]; intros [|r rs]; cbn; auto. Qed.
Lemma all_tiny_zeros n : all_tiny (repeat 0 n) = true.
Proof.
  induction n as [|n IH]; [reflexivity|]. cbn. rewrite Rabs_R0. unfold all_tiny in IH. rewrite IH, andb_true_r. apply Rltb_true. unfold tiny. lra.
Qed.
Lemma prod_tail : forall calls ds i d, stays ds calls -> Forall (fun c => length c = length ds) calls ->
  nth_error ds i = Some d ->
  nth_error (fold_left prod_add (map Some calls) ds) i = Some (d * rprod (map (factor i) calls)).
Proof.
  induction calls as [|c cs IH]; intros ds i d S F E; cbn [map fold_left].
  - cbn. rewrite E. f_equal. ring.
  - destruct S as (T & S). inversion F; subst. cbn [prod_add]. rewrite T.
    rewrite (IH (mul_sel ds c) i (d * factor i c)).
    + cbn [map rprod]. f_equal. ring.
    + exact S.
    + rewrite mul_sel_length. exact H2.
    + rewrite (mul_sel_nth ds c i d E H1). unfold factor. destruct (nth i c None); f_equal; ring.
Qed.
Lemma prod_correct n c calls i : (i < n)%nat -> length c = n -> Forall (fun c => length c = n) calls ->
  stays (mul_sel (repeat 1 n) c) calls ->
  nth_error (prod_run n (map Some (c :: calls))) i = Some (rprod (map (factor i) (c :: calls))).
Proof.
  intros Hi Hc F S. unfold prod_run. cbn [map fold_left]. cbn [prod_add]. rewrite all_tiny_zeros.
  assert (E1 : map (fun _ : R => 1) (repeat 0 n) = repeat 1 n) by (clear; induction n; cbn; congruence). rewrite E1.
  assert (L : length (repeat 1 n) = n) by apply repeat_length.
  rewrite (prod_tail calls _ i (factor i c)); [reflexivity|exact S|now rewrite mul_sel_length, L|].
  assert (En : nth_error (repeat 1 n) i = Some 1) by (clear -Hi; revert i Hi; induction n; intros [|i] Hi; cbn; try lia; auto; apply IHn; lia).
  rewrite (mul_sel_nth _ c i 1 En) by lia. unfold factor. destruct (nth i c None); f_equal; ring.
Qed.

(** closed forms *)
Lemma delta_sum s (f : R * R -> R) : (forall d c, add_wake s d (Some c) = d + f c) -> (forall d, add_wake s d None = d) ->
  forall cs d, fold_left (add_wake s) cs d = d + rsum (map f (covering cs)).
Proof.
  intros H N. induction cs as [|c cs IH]; intros d; cbn [fold_left covering map rsum]; [lra|]. destruct c as [c|].
  - rewrite IH, H. cbn [map rsum]. ring.
  - now rewrite IH, N.
Qed.
Lemma largest_nonneg l : 0 <= largest l.
Proof. induction l as [|x l IH]; cbn [largest]; [lra|]. eapply Rle_trans; [exact IH|apply Rmax_r]. Qed.
Lemma delta_max s (f : R * R -> R) : (forall d c, add_wake s d (Some c) = Rmax d (f c)) -> (forall d, add_wake s d None = d) ->
  forall cs d, 0 <= d -> fold_left (add_wake s) cs d = Rmax d (largest (map f (covering cs))).
Proof.
  intros H N. induction cs as [|c cs IH]; intros d Hd; cbn [fold_left covering map largest]; [now rewrite Rmax_left|]. destruct c as [c|].
  - rewrite H, IH; [|eapply Rle_trans; [exact Hd|apply Rmax_l]]. cbn [map largest]. now rewrite Rmax_assoc.
  - rewrite N. now apply IH.
Qed.
Lemma npow_half x p : 0 < p -> 0 <= x -> npow x (2 / p) = npow x (1 / p) * npow x (1 / p).
Proof.
  intros Hp Hx. unfold npow. destruct (Reqb x 0) eqn:E; [ring|]. apply Reqb_false in E. rewrite <- Rpower_plus. f_equal. field. lra.
Qed.
Lemma sumpow_nonneg p l : (forall x, In x l -> 0 <= x) -> 0 <= sumpow p l.
Proof. intros H. unfold sumpow. apply rsum_nonneg. intros y Hy. apply in_map_iff in Hy. destruct Hy as (x & E & Hx). subst. apply npow_nonneg. auto. Qed.
Lemma superp_combination s quad amb cs : pow_ok s -> Forall (good s) cs -> final_wake s quad None None amb cs = combination s quad amb cs.
Proof.
  intros Hp G. unfold final_wake, final_delta, wake_delta.
  assert (Cl : forall w, clamp None None amb w = w) by reflexivity.
  assert (TI : is_ws s = false -> forall x, In x (local cs) -> 0 <= x).
  { intros E x Hx. unfold local in Hx. apply in_map_iff in Hx. destruct Hx as ((sc & r) & E1 & Hx). cbn in E1. subst r. clear Hp Cl.
    induction cs as [|c cs' IH]; [destruct Hx|]. inversion G as [|? ? G1 G2]; subst. cbn [covering] in Hx. destruct c as [c|]; [|now apply IH].
    destruct Hx as [Hx|Hx]; [|now apply IH]. subst c. unfold good in G1. now rewrite E in G1. }
  destruct s; cbn [is_ws raw_final combination]; rewrite ?Cl; unfold absol, local in *.
  - rewrite (delta_sum WSLinear (fun c => fst c * snd c)) by (intros; try destruct c; reflexivity). ring.
  - rewrite (delta_sum WSLinearLocal snd) by (intros; try destruct c; reflexivity). ring.
  - rewrite (delta_sum WSQuadratic (fun c => (fst c * snd c) * (fst c * snd c))) by (intros; try destruct c; reflexivity).
    unfold sumsq. rewrite map_map, Rplus_0_l. reflexivity.
  - rewrite (delta_sum WSQuadraticLocal (fun c => snd c * snd c)) by (intros; try destruct c; reflexivity).
    unfold sumsq. rewrite map_map, Rplus_0_l. ring.
  - rewrite (delta_max WSMax (fun c => Rabs (fst c * snd c))) by (intros; try destruct c; try reflexivity; lra).
    rewrite map_map, Rmax_right by apply largest_nonneg. reflexivity.
  - rewrite (delta_max WSMaxLocal (fun c => Rabs (snd c))) by (intros; try destruct c; try reflexivity; lra).
    rewrite map_map, Rmax_right by apply largest_nonneg. ring.
  - rewrite (delta_sum (WSPow p) (fun c => npow (Rabs (fst c * snd c)) p)) by (intros; try destruct c; reflexivity).
    unfold sumpow. rewrite !map_map, Rplus_0_l. reflexivity.
  - rewrite (delta_sum (WSPowLocal p) (fun c => npow (Rabs (snd c)) p)) by (intros; try destruct c; reflexivity).
    unfold sumpow. rewrite !map_map, Rplus_0_l. ring.
  - rewrite (delta_sum TILinear snd) by (intros; try destruct c; reflexivity). rewrite Rplus_0_l. unfold ti_to_amb. cbn zeta.
    destruct quad; [|reflexivity]. rewrite Rplus_comm. reflexivity.
  - rewrite (delta_sum TIQuadratic (fun c => snd c * snd c)) by (intros; try destruct c; reflexivity). rewrite Rplus_0_l. cbn zeta.
    unfold sumsq. rewrite map_map. destruct quad; [|reflexivity]. rewrite Rplus_comm. reflexivity.
  - rewrite (delta_max TIMax snd) by (intros; try destruct c; cbn [add_wake snd]; try reflexivity; try lra; apply Rmax_comm).
    rewrite Rmax_right by apply largest_nonneg. unfold ti_to_amb. cbn zeta. destruct quad; [|reflexivity]. rewrite Rplus_comm. reflexivity.
  - rewrite (delta_sum (TIPow p) (fun c => npow (snd c) p)) by (intros; try destruct c; reflexivity). rewrite Rplus_0_l. cbn zeta.
    assert (E : rsum (map (fun c : R * R => npow (snd c) p) (covering cs)) = sumpow p (map snd (covering cs))) by (unfold sumpow; now rewrite map_map).
    rewrite E. destruct quad; [|reflexivity]. rewrite npow_half; [|exact Hp|apply sumpow_nonneg; now apply TI]. rewrite Rplus_comm. reflexivity.
Qed.
