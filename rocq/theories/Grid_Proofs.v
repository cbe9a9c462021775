(** Proofs about slices. *)
From Verif Require Import RBase WindDir_Model WindDir_Proofs Grid_Model Grid_Spec.
From Verif Require Wrg_Model Wrg_Proofs FieldNC_Model FieldNC_Proofs.
Local Open Scope R_scope.

(** --- linspace --- *)
Lemma linspace_nat a b n : linspace a b (Z.of_nat n) = Some (map (fun i => a + INR i * ((b - a) / INR (n - 1))) (seq 0 n)).
Proof. unfold linspace. destruct (Z.ltb_spec (Z.of_nat n) 0); [lia|]. now rewrite Nat2Z.id. Qed.
Lemma lin_nth a b n i d : (i < n)%nat -> nth i (map (fun i => a + INR i * ((b - a) / INR (n - 1))) (seq 0 n)) d = a + INR i * ((b - a) / INR (n - 1)).
Proof.
  intros H. rewrite (nth_indep _ d ((fun i => a + INR i * ((b - a) / INR (n - 1))) 0%nat)) by (rewrite map_length, seq_length; exact H).
  rewrite (map_nth (fun i => a + INR i * ((b - a) / INR (n - 1)))), seq_nth by exact H. reflexivity.
Qed.
Lemma last_nth {A} (l : list A) d : last l d = nth (length l - 1) l d.
Proof.
  induction l as [|x l IH]; [reflexivity|]. destruct l as [|y l]; [reflexivity|]. change (last (x :: y :: l) d) with (last (y :: l) d). rewrite IH.
  cbn [length]. replace (S (S (length l)) - 1)%nat with (S (S (length l) - 1)) by lia. reflexivity.
Qed.
Lemma lin_spans a b n : (2 <= n)%nat -> spans (map (fun i => a + INR i * ((b - a) / INR (n - 1))) (seq 0 n)) a b.
Proof.
  intros H. assert (P : 0 < INR (n - 1)) by (apply lt_0_INR; lia). unfold spans. rewrite map_length, seq_length. split; [exact H|]. split; [|split].
  - rewrite lin_nth by lia. cbn. ring.
  - rewrite last_nth, map_length, seq_length, lin_nth by lia. field. lra.
  - intros i Hi. rewrite !lin_nth by lia. rewrite S_INR. field. lra.
Qed.
Lemma trunc_half x : 1 / 2 <= x -> exists n, Wrg_Model.trunc (x + 1 / 2) = Z.of_nat (S n) /\ INR (S n) - 1 / 2 <= x < INR (S n) + 1 / 2.
Proof.
  intros H. destruct (Wrg_Proofs.trunc_nonneg (x + 1 / 2) ltac:(lra)) as (E & _). rewrite E. pose proof (rfloor_spec (x + 1 / 2)) as (F1 & F2).
  set (k := rfloor (x + 1 / 2)) in *. assert (0 < k)%Z by (apply lt_IZR; lra). exists (Z.to_nat k - 1)%nat. replace (S (Z.to_nat k - 1)) with (Z.to_nat k) by lia.
  split; [lia|]. rewrite INR_IZR_INZ, Z2Nat.id by lia. lra.
Qed.
Lemma npts_spec len res : 0 < res -> res / 2 <= len -> exists n, npts len res = Z.of_nat (S (S n)) /\ Rabs (len / INR (S n) - res) <= res / (2 * INR (S n)).
Proof.
  intros Hr Hl. destruct (trunc_half (len / res)) as (n & E & B).
  { apply Rmult_le_reg_r with res; [exact Hr|]. replace (len / res * res) with len by (field; lra). lra. }
  exists n. split; [unfold npts; rewrite E; lia|]. assert (P : 0 < INR (S n)) by (apply lt_0_INR; lia).
  assert (A : (INR (S n) - 1 / 2) * res <= len) by (apply Rmult_le_reg_r with (/ res); [apply Rinv_0_lt_compat; exact Hr|]; replace ((INR (S n) - 1 / 2) * res * / res) with (INR (S n) - 1 / 2) by (field; lra); exact (proj1 B)).
  assert (A' : len <= (INR (S n) + 1 / 2) * res) by (apply Rmult_le_reg_r with (/ res); [apply Rinv_0_lt_compat; exact Hr|]; replace ((INR (S n) + 1 / 2) * res * / res) with (INR (S n) + 1 / 2) by (field; lra); apply Rlt_le, (proj2 B)).
  apply Rabs_le. split; apply Rmult_le_reg_r with (INR (S n)); try exact P.
  - replace (- (res / (2 * INR (S n))) * INR (S n)) with (- (res / 2)) by (field; lra). replace ((len / INR (S n) - res) * INR (S n)) with (len - INR (S n) * res) by (field; lra). lra.
  - replace (res / (2 * INR (S n)) * INR (S n)) with (res / 2) by (field; lra). replace ((len / INR (S n) - res) * INR (S n)) with (len - INR (S n) * res) by (field; lra). lra.
Qed.
Lemma npts_small len res : 0 < res -> 0 <= len < res / 2 -> npts len res = 1%Z.
Proof.
  intros Hr Hl. unfold npts. destruct (Wrg_Proofs.trunc_nonneg (len / res + 1 / 2)) as (E & _).
  { assert (0 <= len / res) by (apply Rmult_le_pos; [lra|apply Rlt_le, Rinv_0_lt_compat; exact Hr]). lra. }
  rewrite E. rewrite (rfloor_unique _ 0); [reflexivity|]. cbn.
  assert (0 <= len / res < 1 / 2); [|lra]. split; apply Rmult_le_reg_r with res || apply Rmult_lt_reg_r with res; try exact Hr; replace (len / res * res) with len by (field; lra); lra.
Qed.
Lemma lin_resolution a b res : 0 < res -> res / 2 <= b - a -> exists l, linspace a b (npts (b - a) res) = Some l /\ spans l a b /\ resolves l res.
Proof.
  intros Hr H. destruct (npts_spec (b - a) res Hr H) as (n & E & B). rewrite E, linspace_nat. eexists. split; [reflexivity|]. pose proof (lin_spans a b (S (S n)) ltac:(lia)) as Sp.
  split; [exact Sp|]. intros i Hi. rewrite (proj2 (proj2 (proj2 Sp)) i Hi). rewrite map_length, seq_length. replace (S (S n) - 1)%nat with (S n) by lia. exact B.
Qed.

(** --- grids --- *)
Lemma prod_nth {A B} (lx : list A) (ly : list B) (i j : nat) d1 d2 : (i < length lx)%nat -> (j < length ly)%nat -> nth (i * length ly + j) (list_prod lx ly) (d1, d2) = (nth i lx d1, nth j ly d2).
Proof.
  revert i. induction lx as [|x lx IH]; intros i Hi Hj; cbn [length] in Hi; [lia|]. cbn [list_prod]. destruct i as [|i].
  - cbn [Nat.mul Nat.add]. rewrite app_nth1 by (rewrite map_length; exact Hj). rewrite (nth_indep _ _ (x, d2)) by (rewrite map_length; exact Hj).
    rewrite (map_nth (fun y => (x, y))). reflexivity.
  - rewrite app_nth2 by (rewrite map_length; cbn [Nat.mul]; lia). rewrite map_length. replace (S i * length ly + j - length ly)%nat with (i * length ly + j)%nat by (cbn [Nat.mul]; lia).
    cbn [nth]. apply IH; lia.
Qed.
Lemma grid_points res img a0 a1 b0 b1 c pt g : make_grid res img a0 a1 b0 b1 c pt = Some g ->
  gc g = c /\ length (gpts g) = (length (ga g) * length (gb g))%nat /\
  forall i j, (i < length (ga g))%nat -> (j < length (gb g))%nat -> nth (i * length (gb g) + j) (gpts g) (0, 0, 0) = pt (nth i (ga g) 0) (nth j (gb g) 0).
Proof.
  unfold make_grid. destruct (counts _ _ _ _) as [[na nb]|]; [|discriminate]. destruct (linspace a0 a1 na) as [xs|]; [|discriminate]. destruct (linspace b0 b1 nb) as [ys|]; [|discriminate].
  intros H. injection H as <-. cbn. split; [reflexivity|]. split; [rewrite map_length; apply prod_length|].
  intros i j Hi Hj. assert ((i * length ys + j < length (list_prod xs ys))%nat) by (rewrite prod_length; nia).
  rewrite (nth_indep _ _ ((fun p => pt (fst p) (snd p)) (0, 0))) by (rewrite map_length; assumption). rewrite (map_nth (fun p => pt (fst p) (snd p))), prod_nth by assumption. reflexivity.
Qed.
Lemma grid_resolution r a0 a1 b0 b1 c pt : 0 < r -> r / 2 <= a1 - a0 -> r / 2 <= b1 - b0 ->
  exists g, make_grid (Some r) None a0 a1 b0 b1 c pt = Some g /\ spans (ga g) a0 a1 /\ spans (gb g) b0 b1 /\ resolves (ga g) r /\ resolves (gb g) r.
Proof.
  intros Hr Ha Hb. unfold make_grid, counts. destruct (lin_resolution a0 a1 r Hr Ha) as (xs & E1 & S1 & R1). destruct (lin_resolution b0 b1 r Hr Hb) as (ys & E2 & S2 & R2).
  rewrite E1, E2. eexists. split; [reflexivity|]. cbn. tauto.
Qed.
Lemma grid_img n m a0 a1 b0 b1 c pt : (2 <= n)%nat -> (2 <= m)%nat ->
  exists g, make_grid None (Some (Z.of_nat n, Z.of_nat m)) a0 a1 b0 b1 c pt = Some g /\ length (ga g) = n /\ length (gb g) = m /\ spans (ga g) a0 a1 /\ spans (gb g) b0 b1.
Proof.
  intros Hn Hm. unfold make_grid, counts. rewrite !linspace_nat. eexists. split; [reflexivity|]. cbn [ga gb]. rewrite !map_length, !seq_length.
  split; [reflexivity|]. split; [reflexivity|]. split; now apply lin_spans.
Qed.
Lemma lo_le f t p : In p (fst t :: snd t) -> lo f t <= f p.
Proof. intros H. apply FieldNC_Proofs.lmin_le. change (In (f p) (map f (fst t :: snd t))). now apply in_map. Qed.
Lemma hi_ge f t p : In p (fst t :: snd t) -> f p <= hi f t.
Proof. intros H. apply FieldNC_Proofs.lmax_ge. change (In (f p) (map f (fst t :: snd t))). now apply in_map. Qed.
Lemma lo_in f t : exists p, In p (fst t :: snd t) /\ lo f t = f p.
Proof.
  pose proof (FieldNC_Proofs.lmin_in (f (fst t)) (map f (snd t))) as H. change (In (lo f t) (map f (fst t :: snd t))) in H. apply in_map_iff in H. destruct H as (p & E & I). exists p. auto.
Qed.
Lemma hi_in f t : exists p, In p (fst t :: snd t) /\ hi f t = f p.
Proof.
  pose proof (FieldNC_Proofs.lmax_in (f (fst t)) (map f (snd t))) as H. change (In (hi f t) (map f (fst t :: snd t))) in H. apply in_map_iff in H. destruct H as (p & E & I). exists p. auto.
Qed.
Lemma lo_hi f t : lo f t <= hi f t.
Proof. pose proof (lo_le f t (fst t) (or_introl eq_refl)). pose proof (hi_ge f t (fst t) (or_introl eq_refl)). lra. Qed.

(** --- axes --- *)
Lemma axes dir : let nx := axis_x dir in let ny := axis_y dir in
  dot nx nx = 1 /\ dot ny ny = 1 /\ dot nx ny = 0 /\ vz nx = 0 /\ vz ny = 0.
Proof.
  cbn zeta. pose proof (n_unit dir) as U. unfold axis_y, axis_x, axis_z, cross, dot, vx, vy, vz. cbn [fst snd]. set (a := fst (wd2uv dir 1)) in *. set (b := snd (wd2uv dir 1)) in *.
  repeat split; try ring; lra.
Qed.
Lemma lin3_coords dir x y z : let p := lin3 x (axis_x dir) y (axis_y dir) z axis_z in dot p (axis_x dir) = x /\ dot p (axis_y dir) = y /\ vz p = z.
Proof.
  cbn zeta. pose proof (n_unit dir) as U. unfold lin3, axis_y, axis_x, axis_z, cross, dot, vx, vy, vz. cbn [fst snd]. set (a := fst (wd2uv dir 1)) in *. set (b := snd (wd2uv dir 1)) in *.
  repeat split; [| |ring].
  - transitivity (x * (a * a + b * b)); [ring|]. rewrite U. ring.
  - transitivity (y * (a * a + b * b)); [ring|]. rewrite U. ring.
Qed.
Lemma lin3_dist dir x y z x' y' z' : dist2 (lin3 x (axis_x dir) y (axis_y dir) z axis_z) (lin3 x' (axis_x dir) y' (axis_y dir) z' axis_z) =
  (x - x') * (x - x') + (y - y') * (y - y') + (z - z') * (z - z').
Proof.
  pose proof (n_unit dir) as U. unfold dist2, lin3, axis_y, axis_x, axis_z, cross, vx, vy, vz. cbn [fst snd]. set (a := fst (wd2uv dir 1)) in *. set (b := snd (wd2uv dir 1)) in *.
  transitivity (((x - x') * (x - x') + (y - y') * (y - y')) * (a * a + b * b) + (z - z') * (z - z')); [ring|]. rewrite U. ring.
Qed.
Lemma uv270 : wd2uv 270 1 = (1, 0).
Proof.
  unfold wd2uv, wd2wdvec. cbn [fst snd]. replace (270 * PI / 180) with (3 * (PI / 2)) by field. rewrite sin_3PI2, cos_3PI2. f_equal; ring.
Qed.
Lemma uv90 : wd2uv 90 1 = (-1, 0).
Proof.
  unfold wd2uv, wd2wdvec. cbn [fst snd]. replace (90 * PI / 180) with (PI / 2) by field. rewrite sin_PI2, cos_PI2. f_equal; ring.
Qed.

(** --- formats --- *)
Lemma reshape_nth na nb d i j : length d = (na * nb)%nat -> (i < na)%nat -> (j < nb)%nat -> exists m, reshape na nb d = Some m /\ length m = na /\ nth j (nth i m []) 0 = nth (i * nb + j) d 0.
Proof.
  intros L Hi Hj. unfold reshape. rewrite L, Nat.eqb_refl. eexists. split; [reflexivity|]. split; [now rewrite map_length, seq_length|].
  rewrite (nth_indep _ [] ((fun i => map (fun j => nth (i * nb + j) d 0) (seq 0 nb)) 0%nat)) by (rewrite map_length, seq_length; exact Hi).
  rewrite (map_nth (fun i => map (fun j => nth (i * nb + j) d 0) (seq 0 nb))), seq_nth by exact Hi. cbn [Nat.add].
  rewrite (nth_indep _ 0 ((fun j => nth (i * nb + j) d 0) 0%nat)) by (rewrite map_length, seq_length; exact Hj).
  rewrite (map_nth (fun j => nth (i * nb + j) d 0)), seq_nth by exact Hj. reflexivity.
Qed.
Lemma swap_nth na nb m i j : (i < na)%nat -> (j < nb)%nat -> nth i (nth j (swap na nb m) []) 0 = nth j (nth i m []) 0.
Proof.
  intros Hi Hj. unfold swap. rewrite (nth_indep _ [] ((fun j => map (fun i => nth j (nth i m []) 0) (seq 0 na)) 0%nat)) by (rewrite map_length, seq_length; exact Hj).
  rewrite (map_nth (fun j => map (fun i => nth j (nth i m []) 0) (seq 0 na))), seq_nth by exact Hj. cbn [Nat.add].
  rewrite (nth_indep _ 0 ((fun i => nth j (nth i m []) 0) 0%nat)) by (rewrite map_length, seq_length; exact Hi).
  rewrite (map_nth (fun i => nth j (nth i m []) 0)), seq_nth by exact Hi. reflexivity.
Qed.
Lemma pandas_nth na nb d i j : length d = (na * nb)%nat -> (i < na)%nat -> (j < nb)%nat -> exists rows, np2pd_p na nb d = Some rows /\ length rows = (na * nb)%nat /\ nth (i * nb + j) rows ((0%nat, 0%nat), 0) = ((i, j), nth (i * nb + j) d 0).
Proof.
  intros L Hi Hj. unfold np2pd_p. rewrite L, Nat.eqb_refl. eexists. split; [reflexivity|].
  assert (P : length (list_prod (seq 0 na) (seq 0 nb)) = (na * nb)%nat) by (rewrite prod_length, !seq_length; reflexivity).
  split; [rewrite combine_length, P, L; lia|]. rewrite combine_nth by congruence. f_equal.
  pose proof (prod_nth (seq 0 na) (seq 0 nb) i j 0%nat 0%nat) as Q. rewrite !seq_length in Q. rewrite Q by assumption. rewrite !seq_nth by assumption. reflexivity.
Qed.
Lemma collect_map {A B} (f : A -> option B) (g : A -> B) l : (forall x, In x l -> f x = Some (g x)) -> collect (map f l) = Some (map g l).
Proof.
  induction l as [|a l IH]; intros H; [reflexivity|]. cbn [map collect]. rewrite (H a) by now left. rewrite IH by (intros; apply H; now right). reflexivity.
Qed.
Lemma collect_none {A} (l : list (option A)) : In None l -> collect l = None.
Proof. induction l as [|a l IH]; intros []; [now subst|]. cbn [collect]. destruct a; [|reflexivity]. now rewrite IH. Qed.

(** --- means --- *)
Lemma sumprod_bounds (w x : list R) lo hi : length w = length x -> (forall a, In a w -> 0 <= a) -> (forall b, In b x -> lo <= b <= hi) -> lo * rsum w <= sumprod w x <= hi * rsum w.
Proof.
  revert x. induction w as [|a w IH]; intros [|b x] L Hw Hx; cbn [length] in L; try discriminate; cbn [sumprod rsum]; [lra|].
  specialize (IH x ltac:(lia) (fun c H => Hw c (or_intror H)) (fun c H => Hx c (or_intror H))). pose proof (Hw a (or_introl eq_refl)). pose proof (Hx b (or_introl eq_refl)). nra.
Qed.
Lemma sumprod_const (w x : list R) c : length w = length x -> (forall b, In b x -> b = c) -> sumprod w x = c * rsum w.
Proof.
  revert x. induction w as [|a w IH]; intros [|b x] L Hx; cbn [length] in L; try discriminate; cbn [sumprod rsum]; [ring|].
  rewrite (IH x ltac:(lia) (fun b H => Hx b (or_intror H))), (Hx b (or_introl eq_refl)). ring.
Qed.
Lemma column_fields (fields : list (vec3 -> R)) (pts : list vec3) k : (k < length pts)%nat -> column (map (fun f => map f pts) fields) k = map (fun f => f (nth k pts (0, 0, 0))) fields.
Proof.
  intros H. unfold column. rewrite map_map. apply map_ext. intros f. rewrite (nth_indep _ 0 (f (0, 0, 0))) by (rewrite map_length; exact H). apply map_nth.
Qed.
Lemma sumprod_map (w : list R) (fields : list (vec3 -> R)) p : sumprod w (map (fun f => f p) fields) = rsum (map (fun q => fst q * snd q p) (combine w fields)).
Proof. revert fields. induction w as [|a w IH]; intros [|f fields]; cbn [map combine sumprod rsum fst snd]; try reflexivity. now rewrite IH. Qed.
