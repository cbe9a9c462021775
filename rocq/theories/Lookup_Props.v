(** Theorems about the turbine type FromLookupTable and about LookupTable. *)
From Coq Require Import Sorting.Permutation.
From Verif Require Import RBase Curves_Model Heights_Model Heights_Proofs Heights_Props Lookup_Model Lookup_Proofs.
Local Open Scope R_scope.

Lemma type_calc_nth tabP tabCT sel (corrected : bool) (rews rews2 rews3 : list R) (h : heap) i :
  length rews = length sel -> length rews2 = length sel -> length rews3 = length sel -> length (h 0%nat) = length sel -> length (h 1%nat) = length sel -> (i < length sel)%nat ->
  let w := if corrected then rews3 else rews in let '(p, ct) := type_calc tabP tabCT sel corrected rews rews2 rews3 h in
  nth i p 0 = (if nth i sel false then tabP i (nth i w 0) else nth i (h 0%nat) 0) /\ nth i ct 0 = (if nth i sel false then tabCT i (nth i w 0) else nth i (h 1%nat) 0).
Proof.
  intros L1 L2 L3 L4 L5 Hi. cbv zeta.
  assert (N : forall tab ws, length ws = length sel -> nth i (map (fun i => tab i (nth i ws 0)) (seq 0 (length ws))) 0 = tab i (nth i ws 0)).
  { intros tab ws L. rewrite (nth_indep _ 0 (tab 0%nat (nth 0 ws 0))) by (rewrite map_length, seq_length; lia). rewrite (map_nth (fun i => tab i (nth i ws 0))).
    rewrite seq_nth by lia. reflexivity. }
  assert (M : forall (tab : nat -> R -> R) ws, length ws = length sel -> length (map (fun i => tab i (nth i ws 0)) (seq 0 (length ws))) = length sel).
  { intros tab ws L. now rewrite map_length, seq_length. }
  unfold type_calc, lookup_calc, store. destruct corrected; cbn [Nat.eqb].
  - rewrite !masked_nth by first [assumption | apply M; assumption | apply masked_len; [apply M; assumption|assumption]]. rewrite !N by assumption. destruct (nth i sel false); split; reflexivity.
  - rewrite !masked_nth by first [assumption | apply M; assumption]. rewrite !N by assumption. destruct (nth i sel false); split; reflexivity.
Qed.
(** C154: the power of the selected turbines is the table's at the wind speed for power, that of all others is not changed *)
Theorem C154_power tabP tabCT sel (rews rews2 rews3 : list R) (h : heap) i : let n := length sel in
  length rews = n -> length rews2 = n -> length rews3 = n -> length (h 0%nat) = n -> length (h 1%nat) = n -> (i < n)%nat ->
  nth i (fst (type_calc tabP tabCT sel true rews rews2 rews3 h)) 0 = (if nth i sel false then tabP i (nth i rews3 0) else nth i (h 0%nat) 0) /\
  (nth i sel false = false -> nth i (snd (type_calc tabP tabCT sel true rews rews2 rews3 h)) 0 = nth i (h 1%nat) 0).
Proof.
  intros n L1 L2 L3 L4 L5 Hi. pose proof (type_calc_nth tabP tabCT sel true rews rews2 rews3 h i L1 L2 L3 L4 L5 Hi) as H. cbv zeta in H.
  destruct (type_calc tabP tabCT sel true rews rews2 rews3 h) as [p ct]. cbn [fst snd]. destruct H as (A & B). split; [exact A|]. intros E. now rewrite E in B.
Qed.
Print Assumptions C154_power.
(** ... but the thrust coefficient, too, is taken at the wind speed for power: the wind speed for thrust has no effect at all *)
Theorem C154_thrust_refuted tabP tabCT sel (rews rews2 rews3 : list R) (h : heap) i : let n := length sel in
  length rews = n -> length rews2 = n -> length rews3 = n -> length (h 0%nat) = n -> length (h 1%nat) = n -> (i < n)%nat -> nth i sel false = true ->
  nth i (snd (type_calc tabP tabCT sel true rews rews2 rews3 h)) 0 = tabCT i (nth i rews3 0).
Proof.
  intros n L1 L2 L3 L4 L5 Hi Hs. pose proof (type_calc_nth tabP tabCT sel true rews rews2 rews3 h i L1 L2 L3 L4 L5 Hi) as H. cbv zeta in H.
  destruct (type_calc tabP tabCT sel true rews rews2 rews3 h) as [p ct]. cbn [fst snd]. destruct H as (_ & B). now rewrite Hs in B.
Qed.
Print Assumptions C154_thrust_refuted.
(** ... so that it is right without corrections and with REWS as wind speed variable *)
Theorem C154_uncorrected_partial tabP tabCT sel (rews rews2 rews3 : list R) (h : heap) i : let n := length sel in
  length rews = n -> length rews2 = n -> length rews3 = n -> length (h 0%nat) = n -> length (h 1%nat) = n -> (i < n)%nat -> nth i sel false = true ->
  nth i (fst (type_calc tabP tabCT sel false rews rews2 rews3 h)) 0 = tabP i (nth i rews 0) /\ nth i (snd (type_calc tabP tabCT sel false rews rews2 rews3 h)) 0 = tabCT i (nth i rews 0).
Proof.
  intros n L1 L2 L3 L4 L5 Hi Hs. pose proof (type_calc_nth tabP tabCT sel false rews rews2 rews3 h i L1 L2 L3 L4 L5 Hi) as H. cbv zeta in H.
  destruct (type_calc tabP tabCT sel false rews rews2 rews3 h) as [p ct]. cbn [fst snd]. destruct H as (A & B). rewrite Hs in A, B. now split.
Qed.
Print Assumptions C154_uncorrected_partial.
(** ... the wind speed for thrust does differ: with the default exponents, for any yaw misalignment below 90 degrees, the one used instead is smaller *)
Theorem C154_yawed_refuted ws c : 0 < ws -> 0 < c < 1 -> rews_P ws None (Some c) (Some (188 / 100)) < rews_ct ws (Some c) (Some 1).
Proof.
  intros Hw Hc. unfold rews_P, rews_ct, yaw_factor. apply Rmult_lt_compat_l; [exact Hw|]. rewrite !Rpower_mult. unfold Rpower. apply exp_increasing.
  assert (ln c < 0) by (rewrite <- ln_1; apply ln_increasing; lra). nra.
Qed.
Print Assumptions C154_yawed_refuted.
(** ... power in the partial load region with the cube law: the density correction gives the density's factor, the yaw correction the cosine to the power p_P *)
Theorem C154_cube_law k ws r0 r c p : 0 < r0 -> 0 < r -> 0 < c -> let cube x := k * (x * x * x) in
  cube (rews_P ws (Some (r0, r)) (Some c) (Some p)) = cube ws * (r0 / r) * Rpower c p.
Proof.
  intros H0 Hr Hc cube. unfold cube, rews_P, rho_factor, yaw_factor.
  assert (E : forall x, 0 < x -> Rpower x (1 / 3) * Rpower x (1 / 3) * Rpower x (1 / 3) = x).
  { intros x Hx. rewrite <- !Rpower_plus. replace (1 / 3 + 1 / 3 + 1 / 3) with 1 by field. now apply Rpower_1. }
  assert (A := E (r0 / r) ltac:(apply Rdiv_lt_0_compat; lra)). assert (B := E (Rpower c p) ltac:(apply exp_pos)).
  set (a := Rpower (r0 / r) (1 / 3)) in *. set (b := Rpower (Rpower c p) (1 / 3)) in *. rewrite <- A, <- B. ring.
Qed.
Print Assumptions C154_cube_law.
(** ... thrust with the square law: the yaw correction gives the cosine to the power p_ct *)
Theorem C154_square_law k ws c p : 0 < c -> let square x := k * (x * x) in square (rews_ct ws (Some c) (Some p)) = square ws * Rpower c p.
Proof.
  intros Hc square. unfold square, rews_ct, yaw_factor. assert (E : Rpower (Rpower c p) (1 / 2) * Rpower (Rpower c p) (1 / 2) = Rpower c p).
  { rewrite <- Rpower_plus. replace (1 / 2 + 1 / 2) with 1 by field. apply Rpower_1. apply exp_pos. }
  rewrite <- E at 3. ring.
Qed.
Print Assumptions C154_square_law.
(** ... and if the table's column of power has another name than P, the nominal power is not found *)
Theorem C154_nominal_refuted varmap names data P : ~ In (varmap P) names -> nominal varmap names data P = None.
Proof.
  intros H. unfold nominal. destruct (existsb (Nat.eqb (varmap P)) names) eqn:E; [|reflexivity]. apply existsb_exists in E. destruct E as (x & I & E). apply Nat.eqb_eq in E. subst. now elim H.
Qed.
Print Assumptions C154_nominal_refuted.
Theorem C154_nominal_partial varmap names data P x : In (varmap P) names -> In x (data (varmap P)) -> exists y, nominal varmap names data P = Some y /\ x <= y /\ In y (data (varmap P)).
Proof.
  intros I J. unfold nominal. rewrite (proj2 (existsb_exists (Nat.eqb (varmap P)) names)) by (exists (varmap P); split; [exact I|apply Nat.eqb_refl]). eexists. split; [reflexivity|].
  destruct (data (varmap P)) as [|a l]; [destruct J|]. cbn [nth]. clear -J.
  assert (G : forall l z, (forall x, In x l -> x <= fold_right Rmax z l) /\ (fold_right Rmax z l = z \/ In (fold_right Rmax z l) l)).
  { clear. induction l as [|b l IH]; intros z; cbn [fold_right In]; [tauto|]. destruct (IH z) as (A & B). split.
    - intros x [->|H]; [apply Rmax_l|]. apply Rle_trans with (2 := Rmax_r _ _). now apply A.
    - destruct (Rle_dec b (fold_right Rmax z l)) as [Q|Q]; [rewrite Rmax_right by exact Q|rewrite Rmax_left by lra; right; now left]. destruct B as [B|B]; [now left|right; now right]. }
  destruct (G (a :: l) a) as (A & B). split; [now apply A|]. destruct B as [B|B]; [rewrite B; now left|exact B].
Qed.
Print Assumptions C154_nominal_partial.
Example C154_nonvacuous : let tab (_ : nat) (x : R) := x * x in let h (a : nat) := [7; 7] in
  type_calc (fun _ x => x * x * x) tab [true; false] true [8; 8] [8; 8] [6; 6] h = ([6 * 6 * 6; 7], [6 * 6; 7]) /\ nominal (fun v => v + 10)%nat [0; 1]%nat (fun _ => [1]) 0 = None.
Proof. split; reflexivity. Qed.

(** C155: a table with two inputs can be loaded exactly if it has rows for all combinations of its input values *)
Theorem C155_full_grid rows : rows <> [] -> (exists d, load rows = Some d) <->
  (forall x y, In x (map fst (map fst rows)) -> In y (map snd (map fst rows)) -> In (x, y) (map fst rows)).
Proof.
  intros Hr. split.
  - intros (d & H) x y Hx Hy. destruct (load_some rows d Hr H) as (P & A & B & _). apply (sort_in klt keqb keqb_eq). rewrite P. apply in_prod_iff. rewrite A, B.
    rewrite !(sort_in Rltb Reqb Reqb_true). apply in_map_iff in Hx, Hy. destruct Hx as (k & <- & Hk), Hy as (k' & <- & Hk').
    split; apply in_map; now apply (sort_in klt keqb keqb_eq).
  - intros H. unfold load. set (keys := sort_u klt keqb (map fst rows)). set (lx := sort_u Rltb Reqb (map fst keys)). set (ly := sort_u Rltb Reqb (map snd keys)).
    cbn [levshape map]. replace (Nat.eqb (length keys) (length lx * length ly)) with true; [eexists; reflexivity|]. symmetry. apply Nat.eqb_eq. rewrite <- prod_length.
    assert (Nl : NoDup keys) by (apply (srt_nodup klt klt_irr), sort_srt; [exact klt_irr|exact klt_tr|exact keqb_eq|exact klt_tot]).
    assert (Np : NoDup (list_prod lx ly)).
    { apply (srt_nodup klt klt_irr), prod_srt; apply sort_srt; (exact rlt_irr || exact rlt_tr || exact Reqb_true || exact rlt_tot). }
    assert (IK : forall k, In k keys <-> In k (map fst rows)) by (intros k; apply (sort_in klt keqb keqb_eq)).
    apply Nat.le_antisymm; apply NoDup_incl_length; try assumption; intros [a b] I.
    + apply in_prod_iff. unfold lx, ly. rewrite !(sort_in Rltb Reqb Reqb_true). split; apply in_map_iff; exists (a, b); tauto.
    + apply in_prod_iff in I. unfold lx, ly in I. rewrite !(sort_in Rltb Reqb Reqb_true) in I. destruct I as (Ia & Ib). apply IK, H.
      * apply in_map_iff in Ia. destruct Ia as (k & <- & Hk). apply in_map, IK, Hk.
      * apply in_map_iff in Ib. destruct Ib as (k & <- & Hk). apply in_map, IK, Hk.
Qed.
Print Assumptions C155_full_grid.
Lemma entries_len d i : length (entries d i) = length (ys d).
Proof. unfold entries. now rewrite map_length, seq_length. Qed.
Lemma entries_nth d i j : (j < length (ys d))%nat -> nth j (entries d i) 0 = entry d i j.
Proof.
  intros H. unfold entries. rewrite (nth_indep _ 0 (entry d i 0)) by (rewrite map_length, seq_length; exact H). rewrite (map_nth (entry d i)), seq_nth by exact H. reflexivity.
Qed.
Lemma map_seq_nth (f : nat -> R) n i : (i < n)%nat -> nth i (map f (seq 0 n)) 0 = f i.
Proof. intros H. rewrite (nth_indep _ 0 (f 0%nat)) by (rewrite map_length, seq_length; exact H). rewrite map_nth, seq_nth by exact H. reflexivity. Qed.
(** a bound for the data *)
Lemma list_bound (l : list R) : exists a b, forall x, In x l -> a <= x <= b.
Proof.
  induction l as [|y l (a & b & H)]; [exists 0, 0; intros x []|]. exists (Rmin a y), (Rmax b y). intros x [->|I].
  - split; [apply Rmin_r|apply Rmax_r].
  - specialize (H x I). pose proof (Rmin_l a y). pose proof (Rmax_l b y). lra.
Qed.
Lemma node_weights hs k : ascending hs -> (2 <= length hs)%nat -> (k < length hs)%nat ->
  exists w, height_weights true hs (nth k hs 0) = Some w /\ forall v, length v = length hs -> wsum w v = nth k v 0.
Proof.
  intros A L Hk. assert (B : nth 0 hs 0 <= nth k hs 0 <= nth (length hs - 1) hs 0) by (split; apply asc_le; try exact A; lia).
  destruct (list_bound hs) as (a & b & Hb). destruct (C152_within hs (nth k hs 0) hs true a b A L B eq_refl Hb) as (w & E & _ & _). exists w. split; [exact E|].
  intros v Hv. destruct (list_bound v) as (a' & b' & Hb'). destruct (C152_within hs (nth k hs 0) v true a' b' A L B Hv Hb') as (w' & E' & _ & N). rewrite E in E'. injection E' as <-.
  now apply N.
Qed.
(** ... at a row's inputs the result is the row's value, or the mean over all rows with these inputs *)
Theorem C155_nodes rows d x y v : load rows = Some d -> (2 <= length (xs d))%nat -> (2 <= length (ys d))%nat -> In ((x, y), v) rows ->
  lookup d x y = Some (mean_of rows (x, y)) /\ (NoDup (map fst rows) -> lookup d x y = Some v).
Proof.
  intros H Lx Ly I. assert (Hr : rows <> []) by (intros ->; destruct I).
  destruct (loaded_row rows d x y Hr H) as (i & j & Hi & Hj & Ei & Ej); [change (x, y) with (fst ((x, y), v)); now apply in_map|].
  destruct (loaded_asc rows d Hr H) as (Ax & Ay).
  assert (E : lookup d x y = Some (mean_of rows (x, y))).
  { unfold lookup. rewrite <- Ei, <- Ej. destruct (node_weights (xs d) i Ax Lx Hi) as (wx & Ex & Nx). destruct (node_weights (ys d) j Ay Ly Hj) as (wy & Ey & Ny).
    rewrite Ex, Ey. f_equal. rewrite Nx by now rewrite map_length, seq_length. rewrite map_seq_nth by exact Hi. rewrite Ny by apply entries_len. rewrite entries_nth by exact Hj.
    apply (loaded_entry rows d i j Hr H Hi Hj). }
  split; [exact E|]. intros N. rewrite E. f_equal. now apply mean_single.
Qed.
Print Assumptions C155_nodes.
(** ... in between it is within the range of the table's values *)
Theorem C155_within rows d x y a b : rows <> [] -> load rows = Some d -> (2 <= length (xs d))%nat -> (2 <= length (ys d))%nat ->
  nth 0 (xs d) 0 <= x <= nth (length (xs d) - 1) (xs d) 0 -> nth 0 (ys d) 0 <= y <= nth (length (ys d) - 1) (ys d) 0 -> (forall r, In r rows -> a <= snd r <= b) ->
  exists v, lookup d x y = Some v /\ a <= v <= b.
Proof.
  intros Hr H Lx Ly Hx Hy Hb. destruct (loaded_asc rows d Hr H) as (Ax & Ay).
  assert (G : exists wy, height_weights true (ys d) y = Some wy /\ forall v, length v = length (ys d) -> (forall u, In u v -> a <= u <= b) -> a <= wsum wy v <= b).
  { destruct (list_bound (ys d)) as (a0 & b0 & Hb0). destruct (C152_within (ys d) y (ys d) true a0 b0 Ay Ly Hy eq_refl Hb0) as (w & E & _ & _). exists w. split; [exact E|].
    intros v Hv Hu. destruct (C152_within (ys d) y v true a b Ay Ly Hy Hv Hu) as (w' & E' & N & _). rewrite E in E'. now injection E' as <-. }
  destruct G as (wy & Ey & Ny).
  set (col := map (fun i => wsum wy (entries d i)) (seq 0 (length (xs d)))).
  assert (Lc : length col = length (xs d)) by (unfold col; now rewrite map_length, seq_length).
  assert (C : forall u, In u col -> a <= u <= b).
  { intros u Hu. unfold col in Hu. apply in_map_iff in Hu. destruct Hu as (i & <- & Hi). apply in_seq in Hi. apply Ny; [apply entries_len|].
    intros e He. apply In_nth with (d := 0) in He. destruct He as (j & Hj & <-). rewrite entries_len in Hj. rewrite entries_nth by exact Hj.
    destruct (loaded_entry rows d i j Hr H ltac:(lia) Hj) as (-> & I). now apply mean_bounds. }
  destruct (C152_within (xs d) x col true a b Ax Lx Hx Lc C) as (wx & Ex & N & _). exists (wsum wx col). split; [|exact N]. unfold lookup. rewrite Ex, Ey. reflexivity.
Qed.
Print Assumptions C155_within.
(** ... and outside there is an error *)
Theorem C155_outside d x y : x < nth 0 (xs d) 0 \/ nth (length (xs d) - 1) (xs d) 0 < x \/ y < nth 0 (ys d) 0 \/ nth (length (ys d) - 1) (ys d) 0 < y -> lookup d x y = None.
Proof.
  assert (G : forall hs z, z < nth 0 hs 0 \/ nth (length hs - 1) hs 0 < z -> height_weights true hs z = None).
  { intros hs z H. unfold height_weights. cbn [andb]. destruct H as [H|H]; rewrite (proj2 (Rltb_true _ _) H); [reflexivity|]. now rewrite Bool.orb_true_r. }
  unfold lookup. intros [H|[H|[H|H]]]; [rewrite (G (xs d)) by tauto|rewrite (G (xs d)) by tauto|rewrite (G (ys d)) by tauto|rewrite (G (ys d)) by tauto]; try reflexivity;
    now destruct (height_weights true (xs d) x).
Qed.
Print Assumptions C155_outside.
(** ... the order of the rows does not matter *)
Theorem C155_row_order rows rows' : Permutation rows rows' -> load rows = load rows'.
Proof.
  intros H. unfold load. rewrite <- (sort_perm rows rows' H). destruct (levshape _) as [[|nx [|ny [|? ?]]]|]; try reflexivity. destruct (Nat.eqb _ _); [|reflexivity]. f_equal. f_equal.
  apply map_ext. intros k. now apply mean_perm.
Qed.
Print Assumptions C155_row_order.
(** ... but a table with one input variable cannot be loaded *)
Theorem C155_one_input_refuted rows : load1 rows = None.
Proof. reflexivity. Qed.
Print Assumptions C155_one_input_refuted.
Example C155_nonvacuous : let rows := [((2, 1), 40); ((1, 2), 20); ((2, 2), 50); ((1, 1), 10)] in
  (exists d, load rows = Some d /\ (2 <= length (xs d))%nat /\ (2 <= length (ys d))%nat /\ lookup d 2 1 = Some 40) /\ ~ (exists d, load [((1, 1), 10); ((2, 2), 20)] = Some d).
Proof.
  cbv zeta. set (rows := [((2, 1), 40); ((1, 2), 20); ((2, 2), 50); ((1, 1), 10)]). assert (Hr : rows <> []) by discriminate. split.
  - destruct (proj2 (C155_full_grid rows Hr)) as (d & H).
    { cbn. intros x y [<-|[<-|[<-|[<-|[]]]]] [<-|[<-|[<-|[<-|[]]]]]; tauto. }
    assert (Lx : (2 <= length (xs d))%nat).
    { destruct (load_some rows d Hr H) as (_ & A & _). rewrite A. change 2%nat with (length [1; 2]). apply NoDup_incl_length; [repeat constructor; cbn; lra|].
      intros x Hx. rewrite (sort_in Rltb Reqb Reqb_true). apply in_map_iff. cbn in Hx. destruct Hx as [<-|[<-|[]]].
      - exists (1, 1). split; [reflexivity|]. apply (sort_in klt keqb keqb_eq). cbn. tauto.
      - exists (2, 1). split; [reflexivity|]. apply (sort_in klt keqb keqb_eq). cbn. tauto. }
    assert (Ly : (2 <= length (ys d))%nat).
    { destruct (load_some rows d Hr H) as (_ & _ & A & _). rewrite A. change 2%nat with (length [1; 2]). apply NoDup_incl_length; [repeat constructor; cbn; lra|].
      intros x Hx. rewrite (sort_in Rltb Reqb Reqb_true). apply in_map_iff. cbn in Hx. destruct Hx as [<-|[<-|[]]].
      - exists (1, 1). split; [reflexivity|]. apply (sort_in klt keqb keqb_eq). cbn. tauto.
      - exists (1, 2). split; [reflexivity|]. apply (sort_in klt keqb keqb_eq). cbn. tauto. }
    exists d. split; [exact H|]. split; [exact Lx|]. split; [exact Ly|]. apply (C155_nodes rows d 2 1 40); [exact H|exact Lx|exact Ly|cbn; tauto|].
    assert (P : forall a b c e : R, (a, b) = (c, e) -> a = c /\ b = e) by (intros a b c e Q; injection Q; tauto).
    cbn [map fst rows]. constructor; [cbn [In]; intros [E|[E|[E|[]]]]; apply P in E; lra|]. constructor; [cbn [In]; intros [E|[E|[]]]; apply P in E; lra|].
    constructor; [cbn [In]; intros [E|[]]; apply P in E; lra|]. constructor; [intros []|constructor].
  - intros Q0. pose proof (proj1 (C155_full_grid [((1, 1), 10); ((2, 2), 20)] ltac:(discriminate)) Q0) as Q. cbn in Q. specialize (Q 1 2 ltac:(tauto) ltac:(tauto)).
    assert (P : forall a b c e : R, (a, b) = (c, e) -> a = c /\ b = e) by (intros a b c e E; injection E; tauto).
    destruct Q as [E|[E|[]]]; apply P in E; lra.
Qed.
