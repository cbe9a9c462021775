(** Proofs about rotor models. *)
From Coq Require Import Permutation.
From Verif Require Import RBase WindDir_Model WindDir_Proofs Rotor_Model Rotor_Spec.
Local Open Scope R_scope.

(** reflection of the index range *)
Definition flip (n i : nat) : nat := (n - 1 - i)%nat.
Lemma NoDup_map_in {A B} (f : A -> B) l : (forall x y, In x l -> In y l -> f x = f y -> x = y) -> NoDup l -> NoDup (map f l).
Proof.
  induction l as [|a l IH]; intros H N; [constructor|]. inversion N as [|? ? N1 N2]; subst. cbn. constructor.
  - intros K. apply in_map_iff in K. destruct K as (b & E & Hb). apply H in E; [subst; contradiction|now right|now left].
  - apply IH; [|exact N2]. intros x y Hx Hy. apply H; now right.
Qed.
Lemma flip_perm n : Permutation (map (flip n) (seq 0 n)) (seq 0 n).
Proof.
  apply NoDup_Permutation_bis.
  - apply NoDup_map_in; [|apply seq_NoDup]. intros x y Hx Hy. apply in_seq in Hx, Hy. unfold flip. lia.
  - rewrite map_length. lia.
  - intros x Hx. apply in_map_iff in Hx. destruct Hx as (y & E & Hy). apply in_seq in Hy. apply in_seq. unfold flip in E. lia.
Qed.
Lemma rsum_flip n (f : nat -> R) : rsum (map f (seq 0 n)) = rsum (map (fun i => f (flip n i)) (seq 0 n)).
Proof. rewrite <- (map_map (flip n) f). symmetry. apply rsum_perm, Permutation_map, flip_perm. Qed.
Lemma rsum_prod {A B} (f : A * B -> R) l m : rsum (map f (list_prod l m)) = rsum (map (fun a => rsum (map (fun b => f (a, b)) m)) l).
Proof.
  induction l as [|a l IH]; [reflexivity|]. cbn [list_prod map rsum]. rewrite map_app, rsum_app, IH, map_map. reflexivity.
Qed.
Lemma rsum_zero {A} (l : list A) : rsum (map (fun _ => 0) l) = 0.
Proof. rewrite rsum_const. ring. Qed.

Lemma cell_flip n i : (i < n)%nat -> cell n (flip n i) = - cell n i.
Proof.
  intros H. unfold cell, flip. rewrite !minus_INR by lia. cbn [INR]. assert (0 < INR n) by (apply lt_0_INR; lia). field. lra.
Qed.
Lemma cell_range n i : (i < n)%nat -> -1 < cell n i < 1.
Proof.
  intros H. unfold cell. assert (Hn : 0 < INR n) by (apply lt_0_INR; lia). assert (Hi : INR i + 1 <= INR n) by (rewrite <- S_INR; apply le_INR; lia).
  pose proof (pos_INR i). assert (0 < 2 / INR n) by (apply Rdiv_lt_0_compat; lra). split; [nra|].
  assert (E : INR n * (2 / INR n) = 2) by (field; lra). nra.
Qed.
Lemma sub_flip n nint c k : (0 < n)%nat -> (k < nint)%nat -> sub n nint (- c) (flip nint k) = - sub n nint c k.
Proof.
  intros Hn H. unfold sub, flip. rewrite !minus_INR by lia. cbn [INR]. assert (0 < INR n) by (apply lt_0_INR; lia).
  assert (0 < INR nint) by (apply lt_0_INR; lia). field. split; lra.
Qed.
Lemma inside_opp_l x y : inside (- x) y = inside x y.
Proof. unfold inside. replace (- x * - x) with (x * x) by ring. reflexivity. Qed.
Lemma inside_opp_r x y : inside x (- y) = inside x y.
Proof. unfold inside. replace (- y * - y) with (y * y) by ring. reflexivity. Qed.
Lemma inside_nonneg x y : 0 <= inside x y.
Proof. unfold inside. rdec; lra. Qed.

Lemma grid_weight_flip_l n nint i j : (i < n)%nat -> grid_weight n nint (flip n i) j = grid_weight n nint i j.
Proof.
  intros H. unfold grid_weight, pairs. f_equal. rewrite !rsum_prod. cbn [fst snd]. rewrite cell_flip by exact H. rewrite rsum_flip.
  apply rsum_ext. intros k Hk. apply in_seq in Hk. apply rsum_ext. intros l _.
  rewrite sub_flip by lia. apply inside_opp_l.
Qed.
Lemma grid_weight_flip_r n nint i j : (j < n)%nat -> grid_weight n nint i (flip n j) = grid_weight n nint i j.
Proof.
  intros H. unfold grid_weight, pairs. f_equal. rewrite !rsum_prod. cbn [fst snd]. rewrite cell_flip by exact H.
  apply rsum_ext. intros k _. rewrite rsum_flip. apply rsum_ext. intros l Hl. apply in_seq in Hl.
  rewrite sub_flip by lia. apply inside_opp_r.
Qed.
Lemma level_weight_flip n nint i : (i < n)%nat -> level_weight n nint (flip n i) = level_weight n nint i.
Proof.
  intros H. unfold level_weight, pairs. f_equal. rewrite !rsum_prod. cbn [fst snd]. rewrite cell_flip by exact H.
  apply rsum_ext. intros k _. rewrite rsum_flip. apply rsum_ext. intros l Hl. apply in_seq in Hl.
  rewrite sub_flip by lia. apply inside_opp_r.
Qed.
Lemma div_nonneg a b : 0 <= a -> 0 <= b -> 0 <= a / b.
Proof.
  intros Ha Hb. destruct (Req_dec b 0) as [E|E]; [subst; unfold Rdiv; rewrite Rinv_0; lra|].
  apply Rmult_le_pos; [exact Ha|apply Rlt_le, Rinv_0_lt_compat; lra].
Qed.
Lemma grid_weight_nonneg n nint i j : 0 <= grid_weight n nint i j.
Proof.
  unfold grid_weight. apply div_nonneg.
  - apply rsum_nonneg. intros x Hx. apply in_map_iff in Hx. destruct Hx as (kl & E & _). subst x. apply inside_nonneg.
  - pose proof (pos_INR nint). nra.
Qed.
Lemma level_weight_nonneg n nint i : 0 <= level_weight n nint i.
Proof.
  unfold level_weight. apply div_nonneg.
  - apply rsum_nonneg. intros x Hx. apply in_map_iff in Hx. destruct Hx as (kl & E & _). subst x. apply inside_nonneg.
  - pose proof (pos_INR nint). nra.
Qed.

(** antisymmetric sums vanish *)
Lemma antisym_zero n (f : nat -> R) : (forall i, (i < n)%nat -> f (flip n i) = - f i) -> rsum (map f (seq 0 n)) = 0.
Proof.
  intros H. assert (E : rsum (map f (seq 0 n)) = - rsum (map f (seq 0 n))); [|lra].
  rewrite rsum_flip at 1. replace (- rsum (map f (seq 0 n))) with (-1 * rsum (map f (seq 0 n))) by ring. rewrite <- rsum_map_scale.
  apply rsum_ext. intros i Hi. apply in_seq in Hi. rewrite H by lia. ring.
Qed.
Lemma grid_moment_y n (w : nat -> nat -> R) : (forall i j, (i < n)%nat -> w (flip n i) j = w i j) ->
  rsum (map (fun ij => w (fst ij) (snd ij) * cell n (fst ij)) (pairs n)) = 0.
Proof.
  intros H. unfold pairs. rewrite rsum_prod. cbn [fst snd].
  rewrite (antisym_zero n (fun i => rsum (map (fun b => w i b * cell n i) (seq 0 n)))); [reflexivity|].
  intros i Hi. cbn beta. replace (- rsum (map (fun b => w i b * cell n i) (seq 0 n))) with (-1 * rsum (map (fun b => w i b * cell n i) (seq 0 n))) by ring.
  rewrite <- rsum_map_scale. apply rsum_ext. intros b _. rewrite H, cell_flip by exact Hi. ring.
Qed.
Lemma grid_moment_z n (w : nat -> nat -> R) : (forall i j, (j < n)%nat -> w i (flip n j) = w i j) ->
  rsum (map (fun ij => w (fst ij) (snd ij) * cell n (snd ij)) (pairs n)) = 0.
Proof.
  intros H. unfold pairs. rewrite rsum_prod. cbn [fst snd]. rewrite <- (rsum_zero (seq 0 n)). apply rsum_ext. intros i _.
  apply (antisym_zero n (fun b => w i b * cell n b)). intros b Hb. rewrite H, cell_flip by exact Hb. ring.
Qed.

(** reduction *)
Lemma filter_sum (g : rpt -> R) l : (forall p, In p l -> 0 <= pw p) ->
  rsum (map (fun p => pw p * g p) (filter (fun p => Rltb 0 (pw p)) l)) = rsum (map (fun p => pw p * g p) l).
Proof.
  induction l as [|p l IH]; [reflexivity|]. intros H. cbn [filter]. pose proof (H p (or_introl eq_refl)).
  specialize (IH (fun q Hq => H q (or_intror Hq))). destruct (Rltb 0 (pw p)) eqn:E.
  - cbn [map rsum]. now rewrite IH.
  - apply Rltb_false in E. cbn [map rsum]. rewrite IH. replace (pw p) with 0 by lra. ring.
Qed.
Lemma reduce_good l : (forall p, In p l -> 0 <= pw p) -> (exists p, In p l /\ 0 < pw p) ->
  (forall p, In p l -> -1 < py p < 1 /\ -1 < pz p < 1) ->
  rsum (map (fun p => pw p * py p) l) = 0 -> rsum (map (fun p => pw p * pz p) l) = 0 -> good_rule (reduce_points l).
Proof.
  intros H0 (q & Hq & Hqp) Hr My Mz. unfold reduce_points. cbn zeta. set (l' := filter _ l).
  assert (Hin : forall p, In p l' <-> In p l /\ 0 < pw p).
  { intros p. unfold l'. rewrite filter_In. rewrite Rltb_true. reflexivity. }
  set (s := rsum (map pw l')).
  assert (Hs : 0 < s).
  { assert (A : forall m, In q m -> (forall p, In p m -> 0 < pw p) -> 0 < rsum (map pw m)).
    { induction m as [|p m IH]; [intros []|]. intros Hi Hp. cbn [map rsum]. pose proof (Hp p (or_introl eq_refl)).
      assert (0 <= rsum (map pw m)). { apply rsum_nonneg. intros x Hx. apply in_map_iff in Hx. destruct Hx as (r & E & Hr'). subst. apply Rlt_le, Hp. now right. }
      lra. }
    apply A; [now apply Hin|]. intros p Hp. now apply Hin. }
  assert (Sc : forall g, rsum (map (fun p => pw p / s * g p) l') = rsum (map (fun p => pw p * g p) l') / s).
  { intros g. unfold Rdiv at 2. rewrite Rmult_comm, <- rsum_map_scale. apply rsum_ext. intros p _. field. lra. }
  unfold good_rule. rewrite !map_map. cbn [py pz pw]. split; [|split; [|split; [|split]]].
  - intros p Hp. apply in_map_iff in Hp. destruct Hp as (p0 & E & Hp). subst p. cbn. apply Rdiv_lt_0_compat; [now apply Hin|exact Hs].
  - transitivity (rsum (map (fun p => pw p / s * 1) l')); [apply rsum_ext; intros; ring|]. rewrite (Sc (fun _ => 1)).
    transitivity (s / s); [|field; lra]. f_equal. apply rsum_ext. intros; ring.
  - rewrite (Sc py). unfold l'. rewrite filter_sum by exact H0. rewrite My. unfold Rdiv. ring.
  - rewrite (Sc pz). unfold l'. rewrite filter_sum by exact H0. rewrite Mz. unfold Rdiv. ring.
  - intros p Hp. apply in_map_iff in Hp. destruct Hp as (p0 & E & Hp). subst p. cbn. apply Hr. now apply Hin.
Qed.

(** a sub-point within the disc exists *)
Lemma mid_index n : (0 < n)%nat -> exists i, (i < n)%nat /\ Rabs (cell n i) <= 1 / 2.
Proof.
  intros H. exists (n / 2)%nat. assert (L : (n / 2 < n)%nat) by (apply Nat.div_lt; lia). split; [exact L|].
  assert (Hn : 0 < INR n) by (apply lt_0_INR; lia). unfold cell.
  pose proof (Nat.div_mod n 2 ltac:(lia)) as E. pose proof (Nat.mod_upper_bound n 2 ltac:(lia)) as U.
  set (h := (n / 2)%nat) in *. set (m := (n mod 2)%nat) in *.
  assert (E' : INR n = 2 * INR h + INR m) by (rewrite E at 1; rewrite plus_INR, mult_INR; cbn [INR]; ring).
  replace (-1 + (INR h + 1 / 2) * (2 / INR n)) with ((1 - INR m) / INR n) by (rewrite E' in *; field; lra).
  assert (C : m = 0%nat \/ m = 1%nat) by lia. destruct C as [C|C]; rewrite C.
  - cbn [INR]. rewrite Rabs_pos_eq; [|apply div_nonneg; lra]. assert (2 <= n)%nat by lia. assert (2 <= INR n) by (apply (le_INR 2); lia).
    apply Rmult_le_reg_r with (INR n); [exact Hn|]. unfold Rdiv at 1. rewrite Rmult_assoc, Rinv_l by lra. lra.
  - cbn [INR]. replace ((1 - 1) / INR n) with 0 by (field; lra). rewrite Rabs_R0. lra.
Qed.
Lemma sub_cell n nint i k : (0 < n)%nat -> (0 < nint)%nat -> sub n nint (cell n i) k = cell (n * nint) (i * nint + k).
Proof.
  intros Hn Hi. assert (0 < INR n) by (apply lt_0_INR; lia). assert (0 < INR nint) by (apply lt_0_INR; lia).
  unfold sub, cell. rewrite plus_INR, !mult_INR. field. split; lra.
Qed.
Lemma mid_sub n nint : (0 < n)%nat -> (0 < nint)%nat -> exists i k, (i < n)%nat /\ (k < nint)%nat /\ Rabs (sub n nint (cell n i) k) <= 1 / 2.
Proof.
  intros Hn Hi. destruct (mid_index (n * nint) ltac:(nia)) as (j & Hj & A).
  exists (j / nint)%nat, (j mod nint)%nat. split; [apply Nat.div_lt_upper_bound; nia|]. split; [apply Nat.mod_upper_bound; lia|].
  rewrite sub_cell by assumption. replace (j / nint * nint + j mod nint)%nat with j; [exact A|]. rewrite Nat.mul_comm. apply Nat.div_mod. lia.
Qed.
Lemma inside_half x y : Rabs x <= 1 / 2 -> Rabs y <= 1 / 2 -> inside x y = 1.
Proof.
  intros Hx Hy. unfold inside. rewrite (proj2 (Rleb_true _ _)); [reflexivity|].
  rewrite <- sqrt_1. apply sqrt_le_1_alt. assert (Bx : -1 / 2 <= x <= 1 / 2) by (unfold Rabs in Hx; destruct (Rcase_abs x); lra).
  assert (By : -1 / 2 <= y <= 1 / 2) by (unfold Rabs in Hy; destruct (Rcase_abs y); lra). nra.
Qed.
Lemma rsum_pos_in {A} (f : A -> R) l x : (forall y, In y l -> 0 <= f y) -> In x l -> 0 < f x -> 0 < rsum (map f l).
Proof.
  induction l as [|a l IH]; [intros _ []|]. intros H Hi Hp. cbn [map rsum].
  assert (0 <= rsum (map f l)). { apply rsum_nonneg. intros z Hz. apply in_map_iff in Hz. destruct Hz as (b & E & Hb). subst. apply H. now right. }
  destruct Hi as [E|Hi]; [subst; lra|]. pose proof (H a (or_introl eq_refl)). specialize (IH (fun y Hy => H y (or_intror Hy)) Hi Hp). lra.
Qed.
Lemma in_pairs n i j : In (i, j) (pairs n) <-> (i < n)%nat /\ (j < n)%nat.
Proof. unfold pairs. rewrite in_prod_iff, !in_seq. lia. Qed.
Lemma grid_weight_pos n nint : (0 < n)%nat -> (0 < nint)%nat -> exists i j, (i < n)%nat /\ (j < n)%nat /\ 0 < grid_weight n nint i j.
Proof.
  intros Hn Hi. destruct (mid_sub n nint Hn Hi) as (i & k & A & B & C). exists i, i. split; [exact A|split; [exact A|]].
  unfold grid_weight. assert (0 < INR nint) by (apply lt_0_INR; lia). apply Rdiv_lt_0_compat; [|nra].
  apply (rsum_pos_in _ (pairs nint) (k, k)).
  - intros y _. apply inside_nonneg.
  - now apply in_pairs.
  - cbn [fst snd]. rewrite inside_half by exact C. lra.
Qed.
Lemma linsp_half nint : (3 <= nint)%nat -> exists k, (k < nint)%nat /\ Rabs (linsp nint k) <= 1 / 2.
Proof.
  intros H. unfold linsp. replace (nint =? 1)%nat with false by (symmetry; apply Nat.eqb_neq; lia).
  set (m := (nint - 1)%nat). assert (Hm : (2 <= m)%nat) by (unfold m; lia). exists (m / 2)%nat.
  assert (Hm' : 2 <= INR m) by (apply (le_INR 2); lia).
  pose proof (Nat.div_mod m 2 ltac:(lia)) as E. pose proof (Nat.mod_upper_bound m 2 ltac:(lia)) as U. split.
  - assert (m / 2 < m)%nat by (apply Nat.div_lt; lia). unfold m in *. lia.
  - set (h := (m / 2)%nat) in *. set (r := (m mod 2)%nat) in *.
    assert (E' : INR m = 2 * INR h + INR r) by (rewrite E at 1; rewrite plus_INR, mult_INR; cbn [INR]; ring).
    replace (1 - 2 * INR h / INR m) with (INR r / INR m) by (rewrite E'; field; rewrite <- E'; lra).
    assert (C : r = 0%nat \/ r = 1%nat) by lia. destruct C as [C|C]; rewrite C; cbn [INR].
    + unfold Rdiv. rewrite Rmult_0_l, Rabs_R0. lra.
    + rewrite Rabs_pos_eq; [|apply div_nonneg; lra]. apply Rmult_le_reg_r with (INR m); [lra|]. unfold Rdiv at 1. rewrite Rmult_assoc, Rinv_l by lra. lra.
Qed.
Lemma level_weight_pos n nint : (0 < n)%nat -> (3 <= nint)%nat -> exists i, (i < n)%nat /\ 0 < level_weight n nint i.
Proof.
  intros Hn Hi. destruct (mid_sub n nint Hn ltac:(lia)) as (i & k & A & B & C). destruct (linsp_half nint Hi) as (k' & B' & C').
  exists i. split; [exact A|].
  unfold level_weight. assert (0 < INR nint) by (apply lt_0_INR; lia). apply Rdiv_lt_0_compat; [|nra].
  apply (rsum_pos_in _ (pairs nint) (k', k)).
  - intros y _. apply inside_nonneg.
  - now apply in_pairs.
  - cbn [fst snd]. rewrite inside_half by assumption. lra.
Qed.

Lemma grid_good n nint red : (0 < n)%nat -> (0 < nint)%nat -> good_rule (grid_points n nint red).
Proof.
  intros Hn Hi. assert (HN : 0 < INR n) by (apply lt_0_INR; lia). unfold grid_points. destruct red.
  - apply reduce_good.
    + intros p Hp. apply in_map_iff in Hp. destruct Hp as (ij & E & _). subst p. apply grid_weight_nonneg.
    + destruct (grid_weight_pos n nint Hn Hi) as (i & j & A & B & C).
      exists {| py := cell n i; pz := cell n j; pw := grid_weight n nint i j |}. split; [|exact C].
      apply in_map_iff. exists (i, j). split; [reflexivity|now apply in_pairs].
    + intros p Hp. apply in_map_iff in Hp. destruct Hp as ((i & j) & E & Hp). subst p. apply in_pairs in Hp. cbn. split; apply cell_range; lia.
    + rewrite map_map. cbn [py pz pw]. apply (grid_moment_y n (grid_weight n nint)). intros. now apply grid_weight_flip_l.
    + rewrite map_map. cbn [py pz pw]. apply (grid_moment_z n (grid_weight n nint)). intros. now apply grid_weight_flip_r.
  - assert (HN2 : 0 < INR (n * n)) by (apply lt_0_INR; nia).
    unfold good_rule. rewrite !map_map. cbn [py pz pw]. split; [|split; [|split; [|split]]].
    + intros p Hp. apply in_map_iff in Hp. destruct Hp as (ij & E & _). subst p. cbn. apply Rdiv_lt_0_compat; lra.
    + rewrite rsum_const. unfold pairs. rewrite prod_length, !seq_length. field. lra.
    + apply (grid_moment_y n (fun _ _ => 1 / INR (n * n))). reflexivity.
    + apply (grid_moment_z n (fun _ _ => 1 / INR (n * n))). reflexivity.
    + intros p Hp. apply in_map_iff in Hp. destruct Hp as ((i & j) & E & Hp). subst p. apply in_pairs in Hp. cbn. split; apply cell_range; lia.
Qed.
Lemma level_good n nint red : (0 < n)%nat -> (3 <= nint)%nat \/ red = false -> good_rule (level_points n nint red).
Proof.
  intros Hn Hi. assert (HN : 0 < INR n) by (apply lt_0_INR; lia). unfold level_points. destruct red.
  - destruct Hi as [Hi|Hi]; [|discriminate]. apply reduce_good.
    + intros p Hp. apply in_map_iff in Hp. destruct Hp as (i & E & _). subst p. apply level_weight_nonneg.
    + destruct (level_weight_pos n nint Hn Hi) as (i & A & C).
      exists {| py := 0; pz := cell n i; pw := level_weight n nint i |}. split; [|exact C].
      apply in_map_iff. exists i. split; [reflexivity|apply in_seq; lia].
    + intros p Hp. apply in_map_iff in Hp. destruct Hp as (i & E & Hp). subst p. apply in_seq in Hp. cbn. split; [lra|apply cell_range; lia].
    + rewrite map_map. cbn [py pz pw]. etransitivity; [|apply (rsum_zero (seq 0 n))]. apply rsum_ext. intros; ring.
    + rewrite map_map. cbn [py pz pw]. apply antisym_zero. intros i Hin. rewrite level_weight_flip, cell_flip by exact Hin. ring.
  - unfold good_rule. rewrite !map_map. cbn [py pz pw]. split; [|split; [|split; [|split]]].
    + intros p Hp. apply in_map_iff in Hp. destruct Hp as (ij & E & _). subst p. cbn. apply Rdiv_lt_0_compat; lra.
    + rewrite rsum_const, seq_length. field. lra.
    + etransitivity; [|apply (rsum_zero (seq 0 n))]. apply rsum_ext. intros; ring.
    + apply antisym_zero. intros i Hin. rewrite cell_flip by exact Hin. ring.
    + intros p Hp. apply in_map_iff in Hp. destruct Hp as (i & E & Hp). subst p. apply in_seq in Hp. cbn. split; [lra|apply cell_range; lia].
Qed.
Lemma centre_good : good_rule centre_points.
Proof.
  unfold good_rule, centre_points. cbn [map rsum py pz pw]. split; [|split; [|split; [|split]]]; try lra.
  - intros p [E|[]]. subst. cbn. lra.
  - intros p [E|[]]. subst. cbn. lra.
Qed.

(** rotor point positions *)
Lemma rotor_point_plane c yaw D p : let n := wd2uv yaw 1 in
  dot (vsub (rotor_point c yaw D p) c) (fst n, snd n, 0) = 0.
Proof. cbn zeta. unfold rotor_point, dot, vsub, vx, vy, vz. cbn [fst snd]. ring. Qed.
Lemma rotor_point_dist c yaw D p : let d := vsub (rotor_point c yaw D p) c in
  dot d d = (1 / 2 * D) * (1 / 2 * D) * (py p * py p + pz p * pz p).
Proof.
  cbn zeta. pose proof (n_unit yaw) as U. unfold rotor_point, dot, vsub, vx, vy, vz. cbn [fst snd].
  set (a := fst (wd2uv yaw 1)) in *. set (b := snd (wd2uv yaw 1)) in *.
  transitivity (1 / 2 * D * (1 / 2 * D) * (py p * py p * (a * a + b * b) + pz p * pz p)); [ring|]. rewrite U. ring.
Qed.
Lemma rotor_mean_position l c yaw D : good_rule l ->
  rsum (map (fun p => pw p * vx (rotor_point c yaw D p)) l) = vx c /\
  rsum (map (fun p => pw p * vy (rotor_point c yaw D p)) l) = vy c /\
  rsum (map (fun p => pw p * vz (rotor_point c yaw D p)) l) = vz c.
Proof.
  intros (_ & S & My & Mz & _). unfold rotor_point, vx, vy, vz. cbn [fst snd].
  assert (A : forall x k g, rsum (map (fun p => pw p * g p) l) = 0 -> rsum (map (fun p => pw p * (x + k * g p)) l) = x).
  { intros x k g H. transitivity (x * rsum (map pw l) + k * rsum (map (fun p => pw p * g p) l)); [|rewrite S, H; ring].
    rewrite <- !rsum_map_scale, <- rsum_map_plus. apply rsum_ext. intros; ring. }
  repeat split.
  - etransitivity; [|apply (A (fst (fst c)) (1 / 2 * D * - snd (wd2uv yaw 1)) py My)]. apply rsum_ext. intros; ring.
  - etransitivity; [|apply (A (snd (fst c)) (1 / 2 * D * fst (wd2uv yaw 1)) py My)]. apply rsum_ext. intros; ring.
  - etransitivity; [|apply (A (snd c) (1 / 2 * D) pz Mz)]. apply rsum_ext. intros; ring.
Qed.

(** averages *)
Lemma wsp_cos yaw q : wsp yaw q = i_ws q * cos ((i_wd q - yaw) * PI / 180).
Proof.
  unfold wsp, wd2uv, wd2wdvec. cbn [fst snd]. replace ((i_wd q - yaw) * PI / 180) with (i_wd q * PI / 180 - yaw * PI / 180) by field.
  rewrite cos_minus. ring.
Qed.
Lemma cbrt_cube x : 0 <= x -> cbrt (x * x * x) = x.
Proof.
  intros H. unfold cbrt. destruct (Req_dec x 0) as [E|E].
  - subst. replace (0 * 0 * 0) with 0 by ring. now rewrite Reqb_refl.
  - assert (0 < x) by lra. assert (P : 0 < x * x * x) by (apply Rmult_lt_0_compat; [apply Rmult_lt_0_compat|]; lra).
    rewrite (proj2 (Reqb_false _ _)) by lra. replace (x * x * x) with (x ^ 3) by ring.
    rewrite <- (Rpower_pow 3) by exact H0. rewrite Rpower_mult. replace (INR 3 * (1 / 3)) with 1 by (cbn [INR]; field). now apply Rpower_1.
Qed.
Lemma inflow_sum wd ws l (g : rpt -> inflow -> R) : forall f : inflow -> R,
  rsum (map f (inflows wd ws l)) = rsum (map (fun p => f {| i_wd := wd p; i_ws := ws p; i_w := pw p |}) l).
Proof. intros f. unfold inflows. now rewrite map_map. Qed.
Lemma uniform_all l wd ws : good_rule l -> 0 <= ws ->
  let q := inflows (fun _ => wd) (fun _ => ws) l in
  rotor_ws q = ws /\ (0 < ws -> rotor_wd q = rmod wd 360) /\
  rews wd q = ws /\ rews2 wd q = ws /\ rews3 wd q = Some ws.
Proof.
  intros (P & S & _) H. cbn zeta.
  assert (A : forall c, rsum (map (fun p => pw p * c) l) = c).
  { intros c. transitivity (c * rsum (map pw l)); [|rewrite S; ring]. rewrite <- rsum_map_scale. apply rsum_ext. intros; ring. }
  assert (M : mean_uv (inflows (fun _ => wd) (fun _ => ws) l) = wd2uv wd ws).
  { unfold mean_uv, inflows. rewrite !map_map. cbn [i_wd i_ws i_w]. rewrite !A. now destruct (wd2uv wd ws). }
  assert (W : forall p : rpt, wsp wd {| i_wd := wd; i_ws := ws; i_w := pw p |} = ws).
  { intros p. rewrite wsp_cos. cbn [i_wd i_ws]. replace ((wd - wd) * PI / 180) with 0 by field. rewrite cos_0. ring. }
  split; [|split; [|split; [|split]]].
  - unfold rotor_ws. rewrite M. now apply uv_length.
  - intros Hp. unfold rotor_wd. rewrite M. now apply uv_roundtrip.
  - unfold rews, inflows. rewrite map_map. rewrite (rsum_ext _ (fun p => pw p * ws)) by (intros; now rewrite W). rewrite A. now apply Rmax_left.
  - unfold rews2, inflows. rewrite !map_map. rewrite (rsum_ext _ (fun p => pw p * (sgn ws * (ws * ws)))) by (intros; now rewrite W).
    rewrite (rsum_ext (fun p => _ * (wsp wd _ * _)) (fun p => pw p * (ws * ws))) by (intros; now rewrite W). rewrite !A.
    assert (E : sgn ws * (ws * ws) = ws * ws). { unfold sgn. rdec; try ring; try lra. replace ws with 0 by lra. ring. }
    rewrite E, Rmax_left by nra. rewrite sqrt_square by exact H. now destruct (1 <? _)%nat.
  - unfold rews3, inflows. cbn zeta. rewrite !map_map. rewrite (rsum_ext _ (fun p => pw p * (ws * ws * ws))) by (intros; now rewrite W). rewrite A.
    assert (0 <= ws * ws * ws) by (apply Rmult_le_pos; [apply Rmult_le_pos|]; exact H).
    rewrite Rmax_left by assumption. rewrite (proj2 (Rltb_false _ _)) by assumption. rewrite cbrt_cube by exact H. now destruct (1 <? _)%nat.
Qed.
Lemma mean_const l c : good_rule l -> rotor_mean (map (fun p => (c, pw p)) l) = c.
Proof.
  intros (_ & S & _). unfold rotor_mean. rewrite map_map. cbn [fst snd]. rewrite rsum_map_scale, S. ring.
Qed.
(** linear shear across the rotor, aligned with the rotor axis *)
Lemma linear_shear l wd ws sy sz : good_rule l -> 0 <= ws ->
  rews wd (inflows (fun _ => wd) (fun p => ws + sy * py p + sz * pz p) l) = ws.
Proof.
  intros (P & S & My & Mz & _) H. unfold rews, inflows. rewrite map_map.
  rewrite (rsum_ext _ (fun p => ws * pw p + (sy * (pw p * py p) + sz * (pw p * pz p)))).
  2:{ intros p _. rewrite wsp_cos. cbn [i_wd i_ws i_w]. replace ((wd - wd) * PI / 180) with 0 by field. rewrite cos_0. ring. }
  rewrite !rsum_map_plus, !rsum_map_scale, S, My, Mz. rewrite Rmax_left; lra.
Qed.
Lemma rews_bound yaw (l : list inflow) m : (forall q, In q l -> 0 <= i_w q) -> rsum (map i_w l) = 1 ->
  (forall q, In q l -> 0 <= i_ws q <= m) -> 0 <= rews yaw l /\ (0 <= m -> rews yaw l <= m).
Proof.
  intros P S B. split; [apply Rmax_r|]. intros Hm. unfold rews. apply Rmax_lub; [|exact Hm].
  apply Rle_trans with (rsum (map (fun q => m * i_w q) l)).
  - apply rsum_le. intros q Hq. rewrite wsp_cos. specialize (B q Hq). specialize (P q Hq).
    pose proof (COS_bound ((i_wd q - yaw) * PI / 180)). assert (i_ws q * cos ((i_wd q - yaw) * PI / 180) <= m) by nra. nra.
  - rewrite rsum_map_scale, S. lra.
Qed.
Lemma level_nint2_empty n : level_points n 2 true = [].
Proof.
  unfold level_points, reduce_points. cbn zeta.
  replace (filter _ _) with (@nil rpt); [reflexivity|]. symmetry.
  assert (A : forall i, In i (seq 0 n) -> level_weight n 2 i = 0).
  { intros i Hi. apply in_seq in Hi. unfold level_weight.
    assert (Z : forall k l, (k < 2)%nat -> (l < 2)%nat -> inside (linsp 2 k) (sub n 2 (cell n i) l) = 0).
    { intros k l Hk Hl. unfold inside. rewrite (proj2 (Rleb_false _ _)); [reflexivity|].
      assert (L1 : linsp 2 k * linsp 2 k = 1). { unfold linsp. cbn [Nat.eqb Nat.sub]. destruct k as [|[|]]; [| |lia]; cbn [INR]; field. }
      rewrite sub_cell by lia.
      assert (L2 : cell (n * 2) (i * 2 + l) <> 0).
      { unfold cell. intros E. assert (HN : 0 < INR (n * 2)) by (apply lt_0_INR; lia).
        assert (E2 : 2 * INR (i * 2 + l) + 1 = INR (n * 2)).
        { assert (E3 : INR (n * 2) * (-1 + (INR (i * 2 + l) + 1 / 2) * (2 / INR (n * 2))) = 0) by (rewrite E; ring).
          replace (INR (n * 2) * (-1 + (INR (i * 2 + l) + 1 / 2) * (2 / INR (n * 2)))) with (- INR (n * 2) + (2 * INR (i * 2 + l) + 1)) in E3 by (field; lra). lra. }
        replace (2 * INR (i * 2 + l) + 1) with (INR (2 * (i * 2 + l) + 1)) in E2 by (rewrite plus_INR, mult_INR; cbn [INR]; ring).
        apply INR_eq in E2. lia. }
      rewrite <- sqrt_1. apply sqrt_lt_1_alt. split; [lra|]. rewrite L1. assert (0 < cell (n * 2) (i * 2 + l) * cell (n * 2) (i * 2 + l)) by (apply Rsqr_pos_lt; exact L2). lra. }
    unfold pairs. cbn [seq list_prod map app rsum fst snd]. rewrite !Z by lia. unfold Rdiv. ring. }
  revert A. generalize (seq 0 n) as l. induction l as [|i l IH]; intros A; [reflexivity|]. cbn [map filter]. cbn [pw].
  rewrite (A i (or_introl eq_refl)). rewrite (proj2 (Rltb_false 0 0)) by lra. apply IH. intros j Hj. apply A. now right.
Qed.
Lemma centre_agrees yaw q : i_w q = 1 -> 0 <= i_ws q -> Rabs (i_wd q - yaw) <= 90 ->
  0 <= centre_rews yaw q /\ rews yaw [q] = centre_rews yaw q /\ rews2 yaw [q] = centre_rews yaw q /\ rews3 yaw [q] = Some (centre_rews yaw q).
Proof.
  intros Hw Hs Ha. assert (P : 0 <= wsp yaw q).
  { rewrite wsp_cos. apply Rmult_le_pos; [exact Hs|]. pose proof PI_RGT_0.
    assert (B : -90 <= i_wd q - yaw <= 90) by (unfold Rabs in Ha; destruct (Rcase_abs (i_wd q - yaw)); lra).
    apply cos_ge_0; [|]; nra. }
  unfold centre_rews, rews, rews2, rews3. cbn [map rsum length Nat.ltb Nat.leb]. cbn zeta. rewrite Hw. set (w := wsp yaw q) in *.
  split; [exact P|]. split; [rewrite Rmax_left; lra|]. split.
  - replace (1 * (w * w) + 0) with (w * w) by ring. now apply sqrt_square.
  - assert (0 <= w * w * w) by (apply Rmult_le_pos; [apply Rmult_le_pos|]; exact P). replace (1 * (w * w * w) + 0) with (w * w * w) by ring.
    rewrite (proj2 (Rltb_false _ _)) by assumption. now rewrite cbrt_cube.
Qed.
