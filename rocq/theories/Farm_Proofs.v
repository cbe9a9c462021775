From Coq Require Import DecimalString DecimalNat Ratan.
From Verif Require Import RBase Farm_Model.
Local Open Scope R_scope.

Lemma tname_inj i j : tname i = tname j -> i = j.
Proof.
  unfold tname. intros E. injection E as E. apply (f_equal NilEmpty.uint_of_string) in E. rewrite !NilEmpty.usu in E. injection E as E.
  now apply Unsigned.to_uint_inj.
Qed.
Lemma add_points_app : forall ps farm, exists new, add_points farm ps = farm ++ new /\ map xy new = ps /\
  map index new = seq (List.length farm) (List.length ps) /\ map name new = map tname (seq (List.length farm) (List.length ps)).
Proof.
  unfold add_points. induction ps as [|p ps IH]; intros farm; [exists []; rewrite app_nil_r; repeat split|].
  cbn [fold_left]. destruct (IH (add_turbine farm p None None)) as (new & E & E1 & E2 & E3). unfold add_turbine in *. rewrite app_length in *. cbn [List.length] in *.
  rewrite Nat.add_1_r in *. eexists. split; [rewrite E, <- app_assoc; reflexivity|]. cbn [app map xy index name seq]. rewrite E1, E2, E3. repeat split.
Qed.
Definition defaults (farm : list turbine) : Prop :=
  map index farm = seq 0 (List.length farm) /\ map name farm = map tname (seq 0 (List.length farm)).
Lemma add_points_defaults farm ps : defaults farm -> defaults (add_points farm ps).
Proof.
  intros (H1 & H2). destruct (add_points_app ps farm) as (new & E & E1 & E2 & E3). unfold defaults. rewrite E, !map_app, app_length.
  assert (L : List.length new = List.length ps) by (rewrite <- E1, map_length; reflexivity). rewrite L, seq_app, map_app, H1, H2, E2, E3. split; reflexivity.
Qed.
Lemma tnames_NoDup n : NoDup (map tname (seq 0 n)).
Proof. apply FinFun.Injective_map_NoDup; [intros i j; apply tname_inj|apply seq_NoDup]. Qed.

(** grid *)
Lemma grid_length p0 v0 v1 n0 n1 : List.length (grid_points p0 v0 v1 n0 n1) = (n0 * n1)%nat.
Proof.
  unfold grid_points. rewrite map_length. generalize 0%nat at 2. induction n0 as [|n0 IH]; intros a; [reflexivity|]. cbn [seq flat_map].
  rewrite app_length, map_length, seq_length, IH. lia.
Qed.
Lemma grid_index : forall n0 n1 a i j, (i < n0)%nat -> (j < n1)%nat ->
  nth_error (flat_map (fun i => map (fun j => (i, j)) (seq 0 n1)) (seq a n0)) (i * n1 + j) = Some ((a + i)%nat, j).
Proof.
  induction n0 as [|n0 IH]; intros n1 a i j Hi Hj; [lia|]. cbn [seq flat_map]. destruct i as [|i].
  - rewrite nth_error_app1 by (rewrite map_length, seq_length; lia). cbn [Nat.mul Nat.add]. rewrite Nat.add_0_r. apply (map_nth_error (fun j0 => (a, j0))).
    rewrite (nth_error_nth' _ 0%nat) by (rewrite seq_length; lia). f_equal. rewrite seq_nth by lia. reflexivity.
  - rewrite nth_error_app2 by (rewrite map_length, seq_length; nia). rewrite map_length, seq_length. replace (S i * n1 + j - n1)%nat with (i * n1 + j)%nat by nia.
    rewrite IH by lia. do 2 f_equal. lia.
Qed.

(** ring *)
Lemma angles_float_nth : forall n da a i, (i < n)%nat -> nth_error (angles_float da a n) i = Some (a + INR i * da).
Proof.
  induction n as [|n IH]; intros da a i Hi; [lia|]. destruct i as [|i]; cbn [angles_float nth_error]; [f_equal; cbn; ring|].
  rewrite IH by lia. f_equal. rewrite S_INR. ring.
Qed.
Lemma angles_float_length : forall n da a, List.length (angles_float da a n) = n.
Proof. induction n as [|n IH]; intros da a; cbn; [reflexivity|]. now rewrite IH. Qed.
Lemma angles_int_length : forall n da a, List.length (angles_int da a n) = n.
Proof. induction n as [|n IH]; intros da a; cbn; [reflexivity|]. now rewrite IH. Qed.
Lemma trunc_add a da : (0 <= a)%Z -> 0 <= da -> trunc (IZR a + da) = (a + rfloor da)%Z.
Proof.
  intros Ha Hd. apply IZR_le in Ha. unfold trunc. destruct (Rleb 0 (IZR a + da)) eqn:E; [|apply Rleb_false in E; lra].
  apply rfloor_unique. rewrite plus_IZR. pose proof (rfloor_spec da). lra.
Qed.
Lemma rfloor_nonneg x : 0 <= x -> (0 <= rfloor x)%Z.
Proof. intros H. pose proof (rfloor_spec x) as (A & B). assert (-1 < rfloor x)%Z by (apply lt_IZR; lra). lia. Qed.
Lemma angles_int_nth : forall n da a i, (0 <= a)%Z -> 0 <= da -> (i < n)%nat -> nth_error (angles_int da a n) i = Some (a + Z.of_nat i * rfloor da)%Z.
Proof.
  induction n as [|n IH]; intros da a i Ha Hd Hi; [lia|]. destruct i as [|i]; cbn [angles_int nth_error]; [f_equal; lia|].
  rewrite trunc_add by assumption. rewrite IH; [|pose proof (rfloor_nonneg da Hd); lia|assumption|lia]. f_equal. lia.
Qed.
(** chords *)
Lemma sin_lt a : 0 < a -> a <= PI / 2 -> sin a < a.
Proof.
  intros H1 H2. pose proof PI_4. destruct (sin_bound a 0) as (_ & B); [lra|lra|]. eapply Rle_lt_trans; [exact B|].
  unfold sin_approx, sin_term. cbn. field_simplify. 
  assert (a * a < 20) by nra. assert (0 < a * a * a) by (apply Rmult_lt_0_compat; [apply Rmult_lt_0_compat|]; assumption).
  nra.
Qed.
Definition d2 (p q : point) : R := (fst p - fst q) * (fst p - fst q) + (snd p - snd q) * (snd p - snd q).
Lemma chord p0 r a b : d2 (ring_point p0 r a) (ring_point p0 r b) = (2 * r * sin ((a - b) * PI / 360)) * (2 * r * sin ((a - b) * PI / 360)).
Proof.
  unfold d2, ring_point, wdvec. cbn [fst snd]. set (x := a * PI / 180). set (y := b * PI / 180).
  assert (E : (a - b) * PI / 360 = (x - y) / 2) by (unfold x, y; field). rewrite E.
  pose proof (sin2_cos2 x) as Sx. pose proof (sin2_cos2 y) as Sy. unfold Rsqr in *.
  pose proof (cos_2a_sin ((x - y) / 2)) as C. replace (2 * ((x - y) / 2)) with (x - y) in C by field. rewrite cos_minus in C.
  transitivity (r * r * (2 - 2 * (cos x * cos y + sin x * sin y))).
  - transitivity (r * r * ((sin x * sin x + cos x * cos x) + (sin y * sin y + cos y * cos y) - 2 * (cos x * cos y + sin x * sin y))); [ring|]. rewrite Sx, Sy. ring.
  - rewrite C. ring.
Qed.

(** bounds *)
Lemma minl_le : forall l x y, In y (x :: l) -> minl x l <= y.
Proof.
  induction l as [|a l IH]; intros x y H; cbn [minl]; [destruct H as [H|[]]; subst; lra|].
  destruct H as [H|H]; [subst; apply Rmin_l|]. eapply Rle_trans; [apply Rmin_r|apply IH; exact H].
Qed.
Lemma maxl_ge : forall l x y, In y (x :: l) -> y <= maxl x l.
Proof.
  induction l as [|a l IH]; intros x y H; cbn [maxl]; [destruct H as [H|[]]; subst; lra|].
  destruct H as [H|H]; [subst; apply Rmax_l|]. eapply Rle_trans; [apply IH; exact H|apply Rmax_r].
Qed.
Lemma minl_in : forall l x, In (minl x l) (x :: l).
Proof.
  induction l as [|a l IH]; intros x; cbn [minl]; [now left|]. unfold Rmin. destruct (Rle_dec x (minl a l)); [now left|right; apply IH].
Qed.
Lemma maxl_in : forall l x, In (maxl x l) (x :: l).
Proof.
  induction l as [|a l IH]; intros x; cbn [maxl]; [now left|]. unfold Rmax. destruct (Rle_dec x (maxl a l)); [right; apply IH|now left].
Qed.
Lemma lmin_le l m y : lmin l = Some m -> In y l -> m <= y.
Proof. destruct l as [|x l]; [discriminate|]. cbn. intros E H. injection E as <-. now apply minl_le. Qed.
Lemma lmax_ge l m y : lmax l = Some m -> In y l -> y <= m.
Proof. destruct l as [|x l]; [discriminate|]. cbn. intros E H. injection E as <-. now apply maxl_ge. Qed.
Lemma map2_in {A B C} (f : A -> B -> C) : forall l m i a b, nth_error l i = Some a -> nth_error m i = Some b -> In (f a b) (map2 f l m).
Proof.
  induction l as [|x l IH]; intros [|y m] [|i] a b E1 E2; try discriminate; cbn in *.
  - injection E1 as ->. injection E2 as ->. now left.
  - right. now apply (IH m i).
Qed.

(** heap *)
Lemma set_nth_length : forall l r x, List.length (set_nth l r x) = List.length l.
Proof. induction l as [|y l IH]; intros [|r] x; cbn; try reflexivity. now rewrite IH. Qed.
Lemma get_put_other h r q x : r <> q -> get (put h r x) q = get h q.
Proof.
  unfold get, put. cbn. generalize (lists h). intros l. revert r q. induction l as [|y l IH]; intros [|r] [|q] N; cbn; try reflexivity; try congruence. apply IH. congruence.
Qed.
Lemma get_put_same h r x : (r < List.length (lists h))%nat -> get (put h r x) r = x.
Proof.
  unfold get, put. cbn. generalize (lists h). intros l. revert r. induction l as [|y l IH]; intros [|r] H; cbn in *; try lia; [reflexivity|]. apply IH. lia.
Qed.
Lemma get_alloc h x r : (r < List.length (lists h))%nat -> get (fst (alloc h x)) r = get h r.
Proof. intros H. unfold get, alloc. cbn. now rewrite app_nth1. Qed.
Lemma get_alloc_new h x : get (fst (alloc h x)) (snd (alloc h x)) = x.
Proof. unfold get, alloc. cbn. rewrite app_nth2, Nat.sub_diag by lia. reflexivity. Qed.

(** every list is used by one turbine only, in one role *)
Definition size (s : session) : nat := List.length (lists (hp s)).
Record good (s : session) : Prop := {
  g_valid : forall a t, nth_error (ts s) a = Some t -> (models t < size s)%nat /\ (sels t < size s)%nat;
  g_models : forall a b t u, nth_error (ts s) a = Some t -> nth_error (ts s) b = Some u -> models t = models u -> a = b;
  g_sels : forall a b t u, nth_error (ts s) a = Some t -> nth_error (ts s) b = Some u -> sels t = sels u -> a = b;
  g_roles : forall a b t u, nth_error (ts s) a = Some t -> nth_error (ts s) b = Some u -> models t <> sels u;
  g_lengths : forall a t, nth_error (ts s) a = Some t -> List.length (get (hp s) (models t)) = List.length (get (hp s) (sels t)) }.
Lemma size_add h t m sel : List.length (lists (add_model h t m sel)) = List.length (lists h).
Proof. unfold add_model, put. cbn. now rewrite !set_nth_length. Qed.
Lemma size_insert h t i m sel : List.length (lists (insert_model h t i m sel)) = List.length (lists h).
Proof. unfold insert_model, put. cbn. now rewrite !set_nth_length. Qed.
(** a change of turbine a's lists by functions f, g *)
Definition change (h : heap) (t : tref) (f g : list nat -> list nat) : heap :=
  let h1 := put h (models t) (f (get h (models t))) in put h1 (sels t) (g (get h1 (sels t))).
Lemma change_get h t f g r : (models t < List.length (lists h))%nat -> (sels t < List.length (lists h))%nat -> models t <> sels t ->
  get (change h t f g) r = if (r =? models t)%nat then f (get h r) else if (r =? sels t)%nat then g (get h r) else get h r.
Proof.
  intros V1 V2 N. unfold change. cbv zeta.
  assert (V3 : (sels t < List.length (lists (put h (models t) (f (get h (models t))))))%nat) by (unfold put; cbn; now rewrite set_nth_length).
  destruct (r =? models t)%nat eqn:E; [apply Nat.eqb_eq in E; subst r|apply Nat.eqb_neq in E].
  - rewrite get_put_other by congruence. now rewrite get_put_same.
  - destruct (r =? sels t)%nat eqn:E'; [apply Nat.eqb_eq in E'; subst r|apply Nat.eqb_neq in E'].
    + rewrite get_put_same by assumption. rewrite get_put_other by congruence. reflexivity.
    + rewrite !get_put_other by congruence. reflexivity.
Qed.
Lemma good_change s a t f g : good s -> nth_error (ts s) a = Some t ->
  (forall l m, List.length l = List.length m -> List.length (f l) = List.length (g m)) ->
  let s' := {| hp := change (hp s) t f g; ts := ts s |} in
  good s' /\ models_of s' a = option_map f (models_of s a) /\ sels_of s' a = option_map g (sels_of s a) /\
  forall b, b <> a -> models_of s' b = models_of s b /\ sels_of s' b = sels_of s b.
Proof.
  intros G Ha L. cbv zeta. destruct (g_valid _ G a t Ha) as (V1 & V2). pose proof (g_roles _ G a a t t Ha Ha) as N.
  pose proof (fun r => change_get (hp s) t f g r V1 V2 N) as Cg.
  assert (A1 : get (change (hp s) t f g) (models t) = f (get (hp s) (models t))) by (rewrite Cg, Nat.eqb_refl; reflexivity).
  assert (A2 : get (change (hp s) t f g) (sels t) = g (get (hp s) (sels t))).
  { rewrite Cg. destruct (sels t =? models t)%nat eqn:E; [apply Nat.eqb_eq in E; congruence|]. now rewrite Nat.eqb_refl. }
  assert (B : forall b u, b <> a -> nth_error (ts s) b = Some u -> get (change (hp s) t f g) (models u) = get (hp s) (models u) /\ get (change (hp s) t f g) (sels u) = get (hp s) (sels u)).
  { intros b u Hb Hu. assert (M1 : models u <> models t) by (intros E; apply Hb; now apply (g_models _ G b a u t)).
    assert (M2 : sels u <> sels t) by (intros E; apply Hb; now apply (g_sels _ G b a u t)).
    pose proof (g_roles _ G a b t u Ha Hu) as M3. pose proof (g_roles _ G b a u t Hu Ha) as M4. rewrite !Cg.
    rewrite (proj2 (Nat.eqb_neq _ _) M1), (proj2 (Nat.eqb_neq _ _) M4). rewrite (proj2 (Nat.eqb_neq _ _) M2).
    rewrite (proj2 (Nat.eqb_neq (sels u) (models t))) by congruence. tauto. }
  split; [|split; [|split]].
  - split; unfold size; cbn [hp ts].
    + intros b u Hu. unfold change, put. cbn. rewrite !set_nth_length. apply (g_valid _ G b u Hu).
    + apply (g_models _ G).
    + apply (g_sels _ G).
    + apply (g_roles _ G).
    + intros b u Hu. destruct (Nat.eq_dec b a) as [E|E].
      * subst b. assert (u = t) by congruence. subst u. rewrite A1, A2. apply L. now apply (g_lengths _ G a).
      * destruct (B b u E Hu) as (-> & ->). now apply (g_lengths _ G b).
  - unfold models_of. cbn [hp ts]. rewrite Ha. cbn [option_map]. now rewrite A1.
  - unfold sels_of. cbn [hp ts]. rewrite Ha. cbn [option_map]. now rewrite A2.
  - intros b Hb. unfold models_of, sels_of. cbn [hp ts]. destruct (nth_error (ts s) b) as [u|] eqn:E; [|tauto]. cbn [option_map]. destruct (B b u Hb E) as (-> & ->). tauto.
Qed.
(** creating a turbine from a list no turbine uses *)
Definition fresh (s : session) (r : nat) : Prop := (r < size s)%nat /\ forall t, In t (ts s) -> models t <> r /\ sels t <> r.
Lemma good_new s r : good s -> fresh s r -> good (step s (ONew (Some r))).
Proof.
  intros G (V & F). cbn [step new_turbine alloc]. set (h' := {| lists := lists (hp s) ++ [map (fun _ => 0%nat) (get (hp s) r)] |}).
  set (t := {| models := r; sels := List.length (lists (hp s)) |}).
  assert (Hn : forall a u, nth_error (ts s ++ [t]) a = Some u -> nth_error (ts s) a = Some u \/ (a = List.length (ts s) /\ u = t)).
  { intros a u H. destruct (Nat.lt_ge_cases a (List.length (ts s))) as [L|L]; [left; now rewrite nth_error_app1 in H|right].
    rewrite nth_error_app2 in H by assumption. destruct (a - List.length (ts s))%nat as [|k] eqn:E; [|destruct k; discriminate]. injection H as <-. split; [lia|reflexivity]. }
  assert (Lt : forall a u, nth_error (ts s) a = Some u -> (a < List.length (ts s))%nat) by (intros a u H; apply nth_error_Some; congruence).
  assert (Sz : forall a u, nth_error (ts s) a = Some u -> (models u < List.length (lists (hp s)))%nat /\ (sels u < List.length (lists (hp s)))%nat) by (exact (g_valid _ G)).
  assert (Gr : forall q, (q < List.length (lists (hp s)))%nat -> get h' q = get (hp s) q) by (intros q Hq; exact (get_alloc (hp s) _ q Hq)).
  unfold size in *.
  split; unfold size; cbn [hp ts].
  - intros a u H. unfold h'. cbn. rewrite app_length. cbn. apply Hn in H. destruct H as [H|(_ & ->)]; [apply Sz in H; lia|]. cbn. lia.
  - intros a b u v Ha Hb E. apply Hn in Ha, Hb. destruct Ha as [Ha|(-> & ->)], Hb as [Hb|(-> & ->)]; try reflexivity.
    + now apply (g_models _ G a b u v).
    + cbn in E. exfalso. destruct (F u) as (F1 & _); [now apply nth_error_In in Ha|]. now apply F1.
    + cbn in E. exfalso. destruct (F v) as (F1 & _); [now apply nth_error_In in Hb|]. now apply F1.
  - intros a b u v Ha Hb E. apply Hn in Ha, Hb. destruct Ha as [Ha|(-> & ->)], Hb as [Hb|(-> & ->)]; try reflexivity.
    + now apply (g_sels _ G a b u v).
    + cbn in E. apply Sz in Ha. lia.
    + cbn in E. apply Sz in Hb. lia.
  - intros a b u v Ha Hb E. apply Hn in Ha, Hb. destruct Ha as [Ha|(-> & ->)], Hb as [Hb|(-> & ->)].
    + now apply (g_roles _ G a b u v).
    + cbn in E. apply Sz in Ha. lia.
    + cbn in E. destruct (F v) as (_ & F1); [now apply nth_error_In in Hb|]. now apply F1.
    + cbn in E. lia.
  - intros a u Ha. apply Hn in Ha. destruct Ha as [Ha|(_ & ->)].
    + destruct (Sz a u Ha) as (S1 & S2). rewrite !Gr by assumption. now apply (g_lengths _ G a).
    + cbn [models sels t]. rewrite Gr by assumption. replace (get h' (List.length (lists (hp s)))) with (map (fun _ => 0%nat) (get (hp s) r)); [now rewrite map_length|].
      symmetry. exact (get_alloc_new (hp s) _).
Qed.
Lemma good_list s x : good s -> good (step s (OList x)) /\ forall a, models_of (step s (OList x)) a = models_of s a /\ sels_of (step s (OList x)) a = sels_of s a.
Proof.
  intros G. cbn [step]. assert (Sz : forall a u, nth_error (ts s) a = Some u -> (models u < List.length (lists (hp s)))%nat /\ (sels u < List.length (lists (hp s)))%nat) by (exact (g_valid _ G)).
  split.
  - split; unfold size; cbn [hp ts].
    + intros a u H. cbn. rewrite app_length. apply Sz in H. cbn. lia.
    + apply (g_models _ G).
    + apply (g_sels _ G).
    + apply (g_roles _ G).
    + intros a u H. destruct (Sz a u H) as (S1 & S2). rewrite !get_alloc by assumption. now apply (g_lengths _ G a).
  - intros a. unfold models_of, sels_of. cbn [hp ts]. destruct (nth_error (ts s) a) as [u|] eqn:E; [|tauto]. cbn [option_map]. destruct (Sz a u E) as (S1 & S2). now rewrite !get_alloc by assumption.
Qed.
(** histories in which every turbine is created from a list object no other turbine holds *)
Fixpoint history_ok (s : session) (l : list op) : Prop :=
  match l with
  | [] => True
  | o :: l' => (match o with ONew ms => fresh s (match ms with Some r => r | None => 0%nat end) | _ => True end) /\ history_ok (step s o) l'
  end.
Lemma insert_length i x l : List.length (insert i x l) = S (List.length l).
Proof. unfold insert. rewrite app_length. cbn. rewrite Nat.add_succ_r, <- app_length, firstn_skipn. reflexivity. Qed.
Lemma good_run l : forall s, good s -> history_ok s l -> good (fold_left step l s).
Proof.
  induction l as [|o l IH]; intros s G H; [exact G|]. destruct H as (H1 & H2). cbn [fold_left]. apply IH; [|exact H2]. destruct o as [x|ms|t m sel|t i m sel].
  - now apply good_list.
  - destruct ms as [r|]; [now apply good_new|]. change (step s (ONew None)) with (step s (ONew (Some 0%nat))). now apply good_new.
  - cbn [step]. destruct (nth_error (ts s) t) as [t'|] eqn:E; [|exact G]. apply (good_change s t t' (fun l => l ++ [m]) (fun l => l ++ [sel]) G E).
    intros l1 l2 L. rewrite !app_length. cbn. lia.
  - cbn [step]. destruct (nth_error (ts s) t) as [t'|] eqn:E; [|exact G]. apply (good_change s t t' (insert i m) (insert i sel) G E).
    intros l1 l2 L. rewrite !insert_length. lia.
Qed.
Lemma good_start : good start.
Proof. split; cbn; intros [|a]; intros; discriminate. Qed.
Lemma shared_list s ms m sel : (ms < size s)%nat -> let n := List.length (ts s) in let s2 := step (step s (ONew (Some ms))) (ONew (Some ms)) in
  let s3 := step s2 (OAdd n m sel) in
  models_of s2 (S n) = Some (get (hp s) ms) /\ models_of s3 (S n) = Some (get (hp s) ms ++ [m]) /\ sels_of s3 (S n) = sels_of s2 (S n).
Proof.
  intros V. cbv zeta. unfold size in V. cbn [step new_turbine alloc ts hp lists fst snd]. set (k := List.length (lists (hp s))).
  set (x := map (fun _ => 0%nat) (get (hp s) ms)). set (h1 := {| lists := lists (hp s) ++ [x] |}).
  set (x2 := map (fun _ => 0%nat) (get h1 ms)). set (h2 := {| lists := (lists (hp s) ++ [x]) ++ [x2] |}).
  set (t1 := {| models := ms; sels := k |}). set (t2 := {| models := ms; sels := List.length (lists (hp s) ++ [x]) |}).
  assert (L1 : List.length (lists (hp s) ++ [x]) = S k) by (rewrite app_length; cbn; unfold k; lia).
  assert (N1 : nth_error ((ts s ++ [t1]) ++ [t2]) (List.length (ts s)) = Some t1).
  { rewrite <- app_assoc, nth_error_app2, Nat.sub_diag by lia. reflexivity. }
  assert (N2 : nth_error ((ts s ++ [t1]) ++ [t2]) (S (List.length (ts s))) = Some t2).
  { rewrite <- app_assoc, nth_error_app2 by lia. replace (S (List.length (ts s)) - List.length (ts s))%nat with 1%nat by lia. reflexivity. }
  rewrite N1. unfold models_of, sels_of. cbn [hp ts]. rewrite N2. cbn [option_map models sels t2].
  assert (G2 : get h2 ms = get (hp s) ms).
  { unfold h2, get. cbn [lists]. rewrite app_nth1 by lia. rewrite app_nth1 by lia. reflexivity. }
  change (add_model h2 t1 m sel) with (change h2 t1 (fun l => l ++ [m]) (fun l => l ++ [sel])).
  assert (L2 : List.length (lists h2) = S (S k)) by (unfold h2; cbn [lists]; rewrite app_length, L1; cbn; lia).
  rewrite !change_get; cbn [models sels t1]; try (rewrite L2; lia); try lia. rewrite Nat.eqb_refl, L1.
  rewrite (proj2 (Nat.eqb_neq (S k) ms)) by lia. rewrite (proj2 (Nat.eqb_neq (S k) k)) by lia. rewrite G2. repeat split.
Qed.
