(** Theorems about the Sequential algorithm and the SeqDynamicWakes wake frame. *)
From Verif Require Import Base RBase WindDir_Model Stream_Model Stream_Props DynWakes_Spec Seq_Model Seq_Proofs.
Local Open Scope R_scope.
Local Open Scope nat_scope.

(** C138: whatever the sequence of iter and next calls of a loop (left and resumed any number of times, with failing calculations tried again), up to the
    end of iteration each state was handed out exactly once, in the order of the states, and the stored results are those of all states.
    [f i]: the results of state i, whenever its calculation succeeds *)
Theorem C138_each_state_once {M V} labels (calc : M -> nat -> option V * M) zero f cs m m1 os m2 : NoDup labels ->
  (forall mem i v mem', calc mem i = (Some v, mem') -> v = f i) ->
  pos m = None -> run labels calc zero (Iter :: cs) m = (m1, os) -> ~ In Stop os -> next_call labels calc m1 = (m2, Stop) ->
  yields os = map (fun i => (i, f i)) (seq 0 (length labels)) /\ res m2 = map f (seq 0 (length labels)) /\ pos m2 = None.
Proof.
  intros U F Hp H HS HN. destruct (run_iter labels calc zero f U F cs m m1 os Hp H HS) as (k & A & B & C & D & _).
  destruct (next_stop labels calc m1 k m2 A B HN) as (E1 & E2 & E3). subst k. split; [exact D|]. split; [|exact E2].
  rewrite E3, C. unfold partial. rewrite skipn_all. cbn [map]. apply app_nil_r.
Qed.
Print Assumptions C138_each_state_once.
(** at any time before: the first k states were handed out, their results are stored, the other entries are zero; no type or index errors *)
Theorem C138_interrupted {M V} labels (calc : M -> nat -> option V * M) zero f cs m m1 os : NoDup labels ->
  (forall mem i v mem', calc mem i = (Some v, mem') -> v = f i) ->
  pos m = None -> run labels calc zero (Iter :: cs) m = (m1, os) -> ~ In Stop os ->
  exists k, k <= length labels /\ yields os = map (fun i => (i, f i)) (seq 0 k) /\
    res m1 = map f (seq 0 k) ++ map (fun _ => zero) (skipn k labels) /\ ~ In TypeErr os /\ ~ In IndexErr os.
Proof.
  intros U F Hp H HS. destruct (run_iter labels calc zero f U F cs m m1 os Hp H HS) as (k & A & B & C & D & E1 & E2). exists k. auto.
Qed.
Print Assumptions C138_interrupted.
(** a loop ends: one next per state and one more *)
Theorem C138_ends {M V} labels (calc : M -> nat -> option V * M) zero f m : NoDup labels ->
  (forall mem i, exists mem', calc mem i = (Some (f i), mem')) -> pos m = None ->
  exists m', run labels calc zero (Iter :: repeat Next (S (length labels))) m =
    (m', Self :: map (fun i => Yield i (f i)) (seq 0 (length labels)) ++ [Stop]).
Proof.
  intros U F Hp. cbn [run]. unfold iter_call. rewrite Hp.
  assert (G : forall j k r mm, k + j = length labels -> exists m', run labels calc zero (repeat Next (S j)) {| pos := Some k; res := r; mem := mm |} =
    (m', map (fun i => Yield i (f i)) (seq k j) ++ [Stop])).
  { induction j as [|j IH]; intros k r mm Hk.
    - cbn [repeat run]. unfold next_call. cbn [pos]. rewrite (proj2 (Nat.ltb_ge k (length labels))) by lia. eexists. reflexivity.
    - change (repeat Next (S (S j))) with (Next :: repeat Next (S j)). cbn [run]. unfold next_call at 1. cbn [pos mem res]. rewrite (proj2 (Nat.ltb_lt k (length labels))) by lia.
      destruct (F mm k) as (mm' & Em). rewrite Em, (proj2 (unique_nodup labels) U).
      destruct (IH (S k) (set_nth r (label_index labels (nth k labels 0%Z)) (f k)) mm' ltac:(lia)) as (m' & E). rewrite E. eexists. reflexivity. }
  destruct (G (length labels) 0 (map (fun _ => zero) labels) (mem m) eq_refl) as (m' & E). rewrite E. eexists. reflexivity.
Qed.
Print Assumptions C138_ends.
(** ... but a further next is a type error, not the StopIteration that python requires of iterators; also next without a loop *)
Theorem C138_next_at_the_end_refuted {M V} labels (calc : M -> nat -> option V * M) m m1 : next_call labels calc m = (m1, Stop) ->
  next_call labels calc m1 = (m1, TypeErr).
Proof.
  unfold next_call. destruct (pos m) as [k|] eqn:E; [|discriminate]. destruct (k <? length labels).
  - destruct (calc (mem m) k) as [[v|] mem']; [destruct (is_unique labels)|]; discriminate.
  - intros H. injection H as <-. reflexivity.
Qed.
Print Assumptions C138_next_at_the_end_refuted.
(** ... and with a label that occurs twice in the time series, no state is ever handed out *)
Theorem C138_duplicate_labels_refuted {M V} labels (calc : M -> nat -> option V * M) zero cs m m1 os : ~ NoDup labels ->
  run labels calc zero cs m = (m1, os) -> yields os = [].
Proof.
  intros U. assert (UF : is_unique labels = false) by (destruct (is_unique labels) eqn:E; [exfalso; apply U; now apply unique_nodup|reflexivity]).
  revert m m1 os. induction cs as [|c cs IH]; intros m m1 os H; cbn [run] in H.
  - now injection H as <- <-.
  - destruct (match c with Iter => iter_call labels zero m | Next => next_call labels calc m end) as [m2 o] eqn:E1.
    destruct (run labels calc zero cs m2) as [m3 os3] eqn:E2. injection H as <- <-. apply IH in E2. cbn [yields flat_map]. fold (yields os3). rewrite E2, app_nil_r.
    destruct c; unfold iter_call, next_call in E1; destruct (pos m); try (injection E1 as <- <-; reflexivity).
    destruct (n <? length labels); [|now injection E1 as <- <-]. destruct (calc (mem m) n) as [[v|] mm]; rewrite ?UF in E1; now injection E1 as <- <-.
Qed.
Print Assumptions C138_duplicate_labels_refuted.
(** three states; the first calculation of state 1 fails, and the loop is left and resumed there *)
Example C138_nonvacuous : let calc := fun (t : nat) i => (if t =? 1 then None else Some (10 * i), S t) in
  run [5; 7; 9]%Z calc 0 [Iter; Next; Next; Iter; Next; Next; Next] {| pos := None; res := []; mem := 0 |} =
    ({| pos := None; res := [0; 10; 20]; mem := 4 |}, [Self; Yield 0 0; Failed; Self; Yield 1 10; Yield 2 20; Stop]).
Proof. reflexivity. Qed.

(** C139: a second loop gives the same results as the first, if the models' results do not depend on what they remember *)
Theorem C139_repeat {M V} labels (calc : M -> nat -> option V * M) zero f m cs1 cs2 m1 m2 m3 m4 os1 os2 : NoDup labels ->
  (forall mem i v mem', calc mem i = (Some v, mem') -> v = f i) -> pos m = None ->
  run labels calc zero (Iter :: cs1) m = (m1, os1) -> ~ In Stop os1 -> next_call labels calc m1 = (m2, Stop) ->
  run labels calc zero (Iter :: cs2) m2 = (m3, os2) -> ~ In Stop os2 -> next_call labels calc m3 = (m4, Stop) ->
  yields os2 = yields os1 /\ res m4 = res m2.
Proof.
  intros U F Hp H1 S1 N1 H2 S2 N2. destruct (C138_each_state_once labels calc zero f cs1 m m1 os1 m2 U F Hp H1 S1 N1) as (A & B & C).
  destruct (C138_each_state_once labels calc zero f cs2 m2 m3 os2 m4 U F C H2 S2 N2) as (A' & B' & _). now rewrite A, A', B, B'.
Qed.
Print Assumptions C139_repeat.
Local Open Scope R_scope.
(** ... but SeqDynamicWakes keeps its traces: in steady wind, after a loop over states 0, ..., c, state 0 of the next loop has wake coordinates only for
    points between (c - 1) L and (c + 1) L downstream, L being the distance per state, although in the first loop this is -L to L *)
Theorem C139_second_loop_refuted dts wd ws d wind p0 c q x : 0 < ws -> 0 < d -> (forall i, (i <= c)%nat -> nth i dts 0 = d) -> (0 < length dts)%nat ->
  (forall s p, (s <= c)%nat -> wind s p = (wd, ws)) -> let rotor := fun _ => p0 in
  x = (vx q - vx p0) * fst (wd2uv wd 1) + (vy q - vy p0) * snd (wd2uv wd 1) ->
  let first := snd (get_coos dts wind rotor 0 no_traces q) in
  let second := snd (get_coos dts wind rotor 0 (updates dts wind rotor c no_traces) q) in
  (first <> None <-> - (ws * d) < x < ws * d) /\ (second <> None <-> INR c * (ws * d) - ws * d < x < INR c * (ws * d) + ws * d).
Proof.
  intros Hws Hd Hdt Hl Hw rotor Hx first second.
  assert (Hc0 : dt_cur dts 0 = d). { unfold dt_cur. rewrite (proj2 (Nat.ltb_lt _ _) Hl). apply Hdt. lia. }
  split.
  - unfold first. change (snd (get_coos dts wind rotor 0 no_traces q)) with (trace_coos dts 0 (updates dts wind rotor 0 no_traces) q).
    rewrite (coos_steady dts wind rotor wd ws d p0 0%nat Hws Hd) by (auto; intros; (lia || (apply Hw; lia))). rewrite <- Hx. cbn [INR].
    destruct (Rltb _ _ && Rltb _ _) eqn:E; split; intros H; try congruence.
    + rewrite andb_true_iff, !Rltb_true in E. lra.
    + apply andb_false_iff in E. rewrite !Rltb_false in E. lra.
  - destruct (updates_spec dts wind rotor c) as [HS _]. cbn zeta in HS. destruct (HS 0%nat ltac:(lia)) as (P & T & W). rewrite Nat.sub_0_r in P, T.
    assert (Hdt' : forall i, (i < c)%nat -> dt_at dts i = d) by (intros i Hi; apply Hdt; lia).
    rewrite (traj_steady dts wind rotor wd ws d p0 c Hdt' Hw (fun _ _ => eq_refl)) in P by lia. rewrite (tlen_steady dts wind rotor wd ws d c Hws Hd Hdt' Hw) in T by lia.
    rewrite Hw in W by lia. cbn [fst snd] in W.
    unfold second, get_coos. cbn [snd]. rewrite (update_known dts wind rotor 0%nat _ _ T).
    rewrite (coos_one dts wd ws d p0 0%nat Hws Hc0 _ q 0%nat (INR c * (ws * d)) eq_refl P T W). rewrite <- Hx.
    destruct (Rltb _ _ && Rltb _ _) eqn:E; split; intros H; try congruence.
    + rewrite andb_true_iff, !Rltb_true in E. lra.
    + apply andb_false_iff in E. rewrite !Rltb_false in E. lra.
Qed.
Print Assumptions C139_second_loop_refuted.
(** three states of a minute at 10 m/s from the west: 300 m behind the rotor there is a wake in the first loop's first state, none in the second loop's *)
Example C139_nonvacuous : let dts := [60; 60; 60] in let wind := fun _ _ => (270, 10) in let rotor := fun _ => (500, 500, 100) in
  snd (get_coos dts wind rotor 0 no_traces (800, 500, 100)) <> None /\
  ~ snd (get_coos dts wind rotor 0 (updates dts wind rotor 2 no_traces) (800, 500, 100)) <> None.
Proof.
  intros dts wind rotor.
  assert (Hd : forall i, (i <= 2)%nat -> nth i dts 0 = 60) by (intros i Hi; destruct i as [|[|[|i]]]; cbn; (lia || reflexivity)).
  destruct (C139_second_loop_refuted dts 270 10 60 wind (500, 500, 100) 2 (800, 500, 100) 300 ltac:(lra) ltac:(lra) Hd ltac:(cbn; lia) (fun _ _ _ => eq_refl)) as [A B].
  { rewrite west. unfold vx, vy. cbn [fst snd]. ring. }
  split; [apply A; lra|intros H; apply B in H; cbn [INR] in H; lra].
Qed.

(** C140: the sequential calculation gives the results of the calculation of all states in chunks of any sizes, if nothing is looked up by state index *)
Theorem C140_same_results {D V} (f : nat -> D -> V) sizes ds : length ds = fold_right Nat.add 0%nat sizes -> (forall i j d, f i d = f j d) ->
  calc_sequential f ds = calc_chunks f sizes 0 ds.
Proof.
  intros H F. rewrite chunks_all by exact H. rewrite seq_map. clear H sizes. generalize 0%nat. induction ds as [|d ds IH]; intros i; cbn; [reflexivity|].
  rewrite (F i 0%nat d). f_equal. rewrite <- IH. apply map_ext. intros a. apply F.
Qed.
Print Assumptions C140_same_results.
(** ... but what is looked up by state index is that of state 0 in all sequential states *)
Theorem C140_index_zero_refuted {D V} (f : nat -> D -> V) sizes ds k d0 v0 : length ds = fold_right Nat.add 0%nat sizes -> (k < length ds)%nat ->
  nth k (calc_chunks f sizes 0 ds) v0 = f k (nth k ds d0) /\ nth k (calc_sequential f ds) v0 = f 0%nat (nth k ds d0).
Proof.
  intros H Hk. split; [rewrite chunks_all by exact H; now apply (chunk_nth f 0 ds)|now apply seq_nth].
Qed.
Print Assumptions C140_index_zero_refuted.
(** a moving turbine stays at its first position *)
Theorem C140_turbine_does_not_move_refuted (xys : list (R * R)) (ds : list unit) k : (k < length ds)%nat ->
  nth k (calc_sequential (fun i _ => turbine_xy (Coq.Init.Datatypes.inr xys) i) ds) (0, 0) = nth 0 xys (0, 0).
Proof. intros Hk. rewrite (seq_nth (fun i (_ : unit) => turbine_xy (Coq.Init.Datatypes.inr xys) i) ds k tt) by exact Hk. reflexivity. Qed.
Print Assumptions C140_turbine_does_not_move_refuted.
(** a turbine that moves 1 km between two states *)
Example C140_nonvacuous : let f := fun i (_ : unit) => turbine_xy (Coq.Init.Datatypes.inr [(0, 0); (1000, 0)]) i in
  calc_chunks f [1; 1]%nat 0 [tt; tt] = [(0, 0); (1000, 0)] /\ calc_sequential f [tt; tt] = [(0, 0); (0, 0)].
Proof. split; reflexivity. Qed.

(** C141: with calls in all states, the tracked points in state c are on the paths of the air that left the rotor in states 0, ..., c, with their lengths,
    and carry the wind of state c there *)
Theorem C141_traces dts wind rotor c s : (s <= c)%nat -> let m := updates dts wind rotor c no_traces in
  tp m s = traj (fun i => nth i dts 0) wind rotor s (c - s) /\ tl m s = Some (tlen (fun i => nth i dts 0) wind rotor s (c - s)) /\
  tv m s = wd2uv (fst (wind c (tp m s))) (snd (wind c (tp m s))).
Proof. intros Hs. destruct (updates_spec dts wind rotor c) as [H _]. exact (H s Hs). Qed.
Print Assumptions C141_traces.
(** a point's coordinates are relative to the nearest of them: its path length plus the distance ahead, less than one time step away *)
Theorem C141_nearest dts c m q x y : trace_coos dts c m q = Some (Some x, y) ->
  exists s l, (s <= c)%nat /\ tl m s = Some l /\ (forall s', (s' <= c)%nat -> dist3 q (tp m s) <= dist3 q (tp m s')) /\
    let w := sqrt (fst (tv m s) * fst (tv m s) + snd (tv m s) * snd (tv m s)) in
    w <> 0 /\ Rabs (x - l) < w * dt_cur dts c /\
    x = l + ((vx q - vx (tp m s)) * fst (tv m s) + (vy q - vy (tp m s)) * snd (tv m s)) / w /\
    y = (- (vx q - vx (tp m s)) * snd (tv m s) + (vy q - vy (tp m s)) * fst (tv m s)) / w.
Proof. exact (coos_nearest dts c m q x y). Qed.
Print Assumptions C141_nearest.
(** in steady wind these are the straight wake's coordinates up to the front of the wake, (c + 1) L after c + 1 states, and none beyond *)
Theorem C141_steady dts wd ws d wind p0 c q x y : 0 < ws -> 0 < d -> (forall i, (i < length dts)%nat -> nth i dts 0 = d) -> (c <= length dts)%nat -> (0 < length dts)%nat ->
  (forall s p, (s <= c)%nat -> wind s p = (wd, ws)) -> let rotor := fun _ => p0 in let L := ws * d in
  x = (vx q - vx p0) * fst (wd2uv wd 1) + (vy q - vy p0) * snd (wd2uv wd 1) ->
  y = - (vx q - vx p0) * snd (wd2uv wd 1) + (vy q - vy p0) * fst (wd2uv wd 1) ->
  (- L < x < (INR c + 1) * L -> snd (get_coos dts wind rotor c (updates dts wind rotor c no_traces) q) = Some (Some x, y)) /\
  (~ - L < x < (INR c + 1) * L -> snd (get_coos dts wind rotor c (updates dts wind rotor c no_traces) q) = None).
Proof.
  intros Hws Hd Hdt Hc Hl Hw rotor L Hx Hy. unfold get_coos. cbn [snd].
  assert (E : update dts wind rotor c (updates dts wind rotor c no_traces) = updates dts wind rotor c no_traces).
  { destruct (updates_spec dts wind rotor c) as [HS _]. destruct (HS c ltac:(lia)) as (_ & T & _). exact (update_known _ _ _ _ _ _ T). }
  rewrite E. assert (Hcur : dt_cur dts c = d).
  { unfold dt_cur. destruct (Nat.ltb_spec c (length dts)); apply Hdt; lia. }
  rewrite (coos_steady dts wind rotor wd ws d p0 c Hws Hd) by (auto; intros i Hi; apply Hdt; lia). rewrite <- Hx, <- Hy. fold L.
  split; intros H.
  - now rewrite (proj2 (Rltb_true _ _)), (proj2 (Rltb_true _ _)) by lra.
  - destruct (Rltb (- L) x && Rltb x ((INR c + 1) * L)) eqn:F; [|reflexivity]. rewrite andb_true_iff, !Rltb_true in F. tauto.
Qed.
Print Assumptions C141_steady.
(** any number of calls within a state, for farm and points, give the same *)
Theorem C141_repeated_calls dts wind rotor c m q q' : snd (get_coos dts wind rotor c (fst (get_coos dts wind rotor c m q)) q') = snd (get_coos dts wind rotor c m q').
Proof. unfold get_coos. cbn [fst snd]. now rewrite update_idem. Qed.
Print Assumptions C141_repeated_calls.
(** minutes at 10 m/s from the west: in the third state the wake reaches 1500 m, not 2000 m *)
Example C141_nonvacuous : let dts := [60; 60; 60] in let wind := fun _ _ => (270, 10) in let rotor := fun _ => (500, 500, 100) in
  let m := updates dts wind rotor 2 no_traces in
  snd (get_coos dts wind rotor 2 m (2000, 510, 100)) = Some (Some 1500, 10) /\ snd (get_coos dts wind rotor 2 m (2500, 510, 100)) = None.
Proof.
  intros dts wind rotor m.
  assert (Hd : forall i, (i < 3)%nat -> nth i dts 0 = 60) by (intros i Hi; destruct i as [|[|[|i]]]; cbn; (lia || reflexivity)).
  split.
  - apply (C141_steady dts 270 10 60 wind (500, 500, 100) 2 (2000, 510, 100) 1500 10); try exact Hd; try (intros; reflexivity); try (cbn; lia); cbn [INR]; try lra; rewrite west; unfold vx, vy; cbn [fst snd]; ring.
  - apply (C141_steady dts 270 10 60 wind (500, 500, 100) 2 (2500, 510, 100) 2000 10); try exact Hd; try (intros; reflexivity); try (cbn; lia); cbn [INR]; try lra; rewrite west; unfold vx, vy; cbn [fst snd]; ring.
Qed.

(** C142: coordinates in the wake of a turbine are those of this turbine alone, as long as it was at the same place of the downwind order in all states so far *)
Theorem C142_same_order dts wind pos order c j q : (forall s, (s <= c)%nat -> order s j = order c j) ->
  snd (get_coos dts wind (ordered_rotor pos order j) c (updates dts wind (ordered_rotor pos order j) c no_traces) q) =
  snd (get_coos dts wind (fun _ => pos (order c j)) c (updates dts wind (fun _ => pos (order c j)) c no_traces) q).
Proof.
  intros H. unfold get_coos. cbn [snd]. f_equal.
  assert (E : updates dts wind (ordered_rotor pos order j) c no_traces = updates dts wind (fun _ => pos (order c j)) c no_traces).
  { apply updates_ext. intros s Hs. unfold ordered_rotor. now rewrite H. }
  rewrite E. unfold update, ordered_rotor. reflexivity.
Qed.
Print Assumptions C142_same_order.
(** ... but the traces are kept by downwind position: turbines at 0 and 900 m on a line, west wind then east wind, a minute each at 10 m/s. In the second
    state, at 540 m, the wake of the turbine at 900 m, alone, has x = 360 m. In the farm it is the first in the order, where the other turbine was before:
    x = 660 m, from the trace of the other turbine; and for the other x = -540 m: the point is not in the wake of the turbine at 900 m any more *)
Theorem C142_order_change_refuted : let pos := fun t : nat => match t with O => (0, 0, 100) | _ => (900, 0, 100) end in
  let order := fun s j : nat => match s with O => j | _ => (1 - j)%nat end in let dts := [60] in let q := (540, 0, 100) in
  let coos := fun rotor => snd (get_coos dts turning rotor 1 (updates dts turning rotor 1 no_traces) q) in
  order 1%nat 0%nat = 1%nat /\ coos (fun _ => pos 1%nat) = Some (Some 360, 0) /\
  coos (ordered_rotor pos order 0) = Some (Some 660, 0) /\ coos (ordered_rotor pos order 1) = Some (Some (-540), 0).
Proof.
  intros pos order dts q coos.
  assert (E : forall r0 r1, coos (fun s : nat => match s with O => (r0, 0, 100) | _ => (r1, 0, 100) end) =
    trace_coos [60] 1 (updates [60] turning (fun s : nat => match s with O => (r0, 0, 100) | _ => (r1, 0, 100) end) 1 no_traces) q).
  { intros r0 r1. reflexivity. }
  assert (X : forall r1 r2, (forall s, (s <= 1)%nat -> r1 s = r2 s) -> coos r1 = coos r2).
  { intros r1 r2 H. unfold coos, get_coos. cbn [snd]. rewrite (updates_ext dts turning r1 r2 1 _ H). reflexivity. }
  assert (C : forall r0 r1 rotor, rotor 0%nat = (r0, 0, 100) -> rotor 1%nat = (r1, 0, 100) -> coos rotor =
    if Rltb (Rabs (540 - r1)) (Rabs (540 - (r0 + 600))) then (if Rltb (-600) (r1 - 540) && Rltb (r1 - 540) 600 then Some (Some (r1 - 540), 0) else None)
    else (if Rltb (-600) (r0 + 600 - 540) && Rltb (r0 + 600 - 540) 600 then Some (Some (r0 + 600 - 540 + 600), 0) else None)).
  { intros r0 r1 rotor H0 H1. rewrite (X rotor (fun s : nat => match s with O => (r0, 0, 100) | _ => (r1, 0, 100) end)).
    - rewrite E. exact (turning_coos r0 r1 540).
    - intros s Hs. destruct s as [|[|s]]; [exact H0|exact H1|lia]. }
  split; [reflexivity|]. split; [|split].
  - rewrite (C 900 900 (fun _ => pos 1%nat) eq_refl eq_refl). rewrite (proj2 (Rltb_true _ _)) by (unfold Rabs; destruct (Rcase_abs _), (Rcase_abs _); lra).
    rewrite !(proj2 (Rltb_true _ _)) by lra. cbn [andb]. do 3 f_equal. ring.
  - rewrite (C 0 900 (ordered_rotor pos order 0) eq_refl eq_refl). rewrite (proj2 (Rltb_false _ _)) by (unfold Rabs; destruct (Rcase_abs _), (Rcase_abs _); lra).
    rewrite !(proj2 (Rltb_true _ _)) by lra. cbn [andb]. do 3 f_equal. ring.
  - rewrite (C 900 0 (ordered_rotor pos order 1) eq_refl eq_refl). rewrite (proj2 (Rltb_true _ _)) by (unfold Rabs; destruct (Rcase_abs _), (Rcase_abs _); lra).
    rewrite !(proj2 (Rltb_true _ _)) by lra. cbn [andb]. do 3 f_equal. ring.
Qed.
Print Assumptions C142_order_change_refuted.
Example C142_nonvacuous : let order := fun s j : nat => match s with O => j | _ => (2 - j)%nat end in forall s, (s <= 3)%nat -> order s 1%nat = order 3%nat 1%nat.
Proof. intros order s _. destruct s; reflexivity. Qed.

(** C143: with wakes evaluated in every state the result is that of C141, whatever else is evaluated; [called s]: there was an evaluation in state s *)
Theorem C143_called_in_all_states dts wind rotor c called : (forall s, called s = true) ->
  updates_if dts wind rotor called c no_traces = updates dts wind rotor c no_traces.
Proof.
  intros H. rewrite <- updates_if_all. generalize (@no_traces) as m. intros m. induction c as [|c IH]; cbn [updates_if]; rewrite H; [reflexivity|]. now rewrite IH.
Qed.
Print Assumptions C143_called_in_all_states.
(** ... but not otherwise. A farm of one turbine has evaluations only in states in which points are calculated. If that is only state c, the wake ends one
    time step behind the rotor (for points that are closer to the rotor than to the coordinate origin), not at (c + 1) L *)
Theorem C143_one_turbine_refuted dts wd ws d wind p0 c q x y : 0 < ws -> dt_cur dts c = d ->
  (forall s p, (s <= c)%nat -> wind s p = (wd, ws)) -> let rotor := fun _ => p0 in let L := ws * d in
  dist3 q p0 < dist3 q (0, 0, 0) ->
  x = (vx q - vx p0) * fst (wd2uv wd 1) + (vy q - vy p0) * snd (wd2uv wd 1) ->
  y = - (vx q - vx p0) * snd (wd2uv wd 1) + (vy q - vy p0) * fst (wd2uv wd 1) ->
  let m := updates_if dts wind rotor (fun s => s =? c)%nat c no_traces in
  (- L < x < L -> snd (get_coos dts wind rotor c m q) = Some (Some x, y)) /\ (~ - L < x < L -> snd (get_coos dts wind rotor c m q) = None).
Proof.
  intros Hws Hcur Hw rotor L Hq Hx Hy m. unfold m, get_coos. cbn [snd]. rewrite updates_if_last, update_idem.
  destruct (update_fresh dts wind rotor c) as (B & P & T & W). cbn zeta in *. set (m' := update dts wind rotor c no_traces) in *.
  rewrite Hw in W by lia. cbn [fst snd] in W.
  assert (N : near c m' q = c).
  { pose proof (near_le c m' q) as Hle. destruct (Nat.eq_dec (near c m' q) c) as [E|E]; [exact E|]. exfalso.
    pose proof (near_min c m' q c ltac:(lia)) as Q. destruct (B (near c m' q) ltac:(lia)) as [B1 _]. rewrite B1, P in Q. unfold rotor in Q. lra. }
  assert (P' : tp m' c = (vx p0 + 0 * fst (wd2uv wd 1), vy p0 + 0 * snd (wd2uv wd 1), vz p0)).
  { rewrite P. unfold rotor. destruct p0 as [[a b] e]. unfold vx, vy, vz. cbn [fst snd]. f_equal; f_equal; ring. }
  rewrite (coos_one dts wd ws d p0 c Hws Hcur m' q c 0 N P' T W). rewrite <- Hx, <- Hy. fold L.
  split; intros H.
  - now rewrite (proj2 (Rltb_true _ _)), (proj2 (Rltb_true _ _)) by lra.
  - destruct (Rltb (0 - L) x && Rltb x (0 + L)) eqn:F; [|reflexivity]. rewrite andb_true_iff, !Rltb_true in F. exfalso. apply H. lra.
Qed.
Print Assumptions C143_one_turbine_refuted.
(** ... and with worker processes it is the same for all farms: after any calculations the memory is the initial one, and each state is calculated as if it
    were the only one *)
Theorem C143_workers_refuted dts wind rotor (calls : list (nat * vec3)) c q :
  let m := fold_left (fun m cq => fst (get_coos_worker dts wind rotor (fst cq) m (snd cq))) calls no_traces in
  snd (get_coos_worker dts wind rotor c m q) = snd (get_coos dts wind rotor c (updates_if dts wind rotor (fun s => s =? c)%nat c no_traces) q).
Proof. cbn zeta. rewrite worker_memory. unfold get_coos_worker, get_coos. cbn [snd]. now rewrite updates_if_last, update_idem. Qed.
Print Assumptions C143_workers_refuted.
(** the case of C141: at 1500 m in the third state, there is no wake *)
Example C143_nonvacuous : let dts := [60; 60; 60] in let wind := fun _ _ => (270, 10) in let rotor := fun _ => (5000, 500, 100) in
  snd (get_coos dts wind rotor 2 (updates dts wind rotor 2 no_traces) (6500, 500, 100)) = Some (Some 1500, 0) /\
  snd (get_coos_worker dts wind rotor 2 no_traces (6500, 500, 100)) = None.
Proof.
  intros dts wind rotor.
  assert (Hd : forall i, (i < 3)%nat -> nth i dts 0 = 60) by (intros i Hi; destruct i as [|[|[|i]]]; cbn; (lia || reflexivity)).
  split.
  - apply (C141_steady dts 270 10 60 wind (5000, 500, 100) 2 (6500, 500, 100) 1500 0); try exact Hd; try (intros; reflexivity); try (cbn; lia); cbn [INR]; try lra; rewrite west; unfold vx, vy; cbn [fst snd]; ring.
  - pose proof (C143_workers_refuted dts wind rotor [] 2 (6500, 500, 100)) as E. cbn [fold_left] in E. rewrite E.
    apply (C143_one_turbine_refuted dts 270 10 60 wind (5000, 500, 100) 2 (6500, 500, 100) 1500 0); try (intros; reflexivity); try reflexivity; try lra;
      try (rewrite west; unfold vx, vy; cbn [fst snd]; ring).
    unfold dist3, vx, vy, vz. cbn [fst snd]. apply sqrt_lt_1; lra.
Qed.
