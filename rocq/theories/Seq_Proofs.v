(** Proofs about the Sequential algorithm and SeqDynamicWakes. *)
From Verif Require Import Base RBase WindDir_Model Stream_Model Stream_Proofs DynWakes_Spec Seq_Model.
Local Open Scope R_scope.
Local Open Scope nat_scope.

Lemma unique_nodup l : is_unique l = true <-> NoDup l.
Proof.
  induction l as [|x l IH]; cbn; [split; constructor|]. rewrite andb_true_iff, negb_true_iff, IH, NoDup_cons_iff.
  assert (E : existsb (Z.eqb x) l = false <-> ~ In x l).
  { split.
    - intros H Hin. assert (existsb (Z.eqb x) l = true) by (apply existsb_exists; exists x; split; [exact Hin|apply Z.eqb_refl]). congruence.
    - intros H. destruct (existsb (Z.eqb x) l) eqn:E; [|reflexivity]. apply existsb_exists in E as (y & Hy & Hxy). apply Z.eqb_eq in Hxy. subst. contradiction. }
  tauto.
Qed.
Lemma label_nth l i : NoDup l -> i < length l -> label_index l (nth i l 0%Z) = i.
Proof.
  revert i. induction l as [|x l IH]; intros i Hn Hi; [cbn in Hi; lia|]. inversion Hn; subst. destruct i as [|i]; cbn.
  - now rewrite Z.eqb_refl.
  - cbn in Hi. destruct (Z.eqb_spec (nth i l 0%Z) x) as [E|E]; [|now rewrite IH by (assumption || lia)].
    exfalso. apply H1. rewrite <- E. apply nth_In. lia.
Qed.
Section Iter.
Context {M V : Type} (labels : list Z) (calc : M -> nat -> option V * M) (zero : V) (f : nat -> V).
Hypothesis U : NoDup labels.
Hypothesis F : forall mem i v mem', calc mem i = (Some v, mem') -> v = f i.
Let n := length labels.

Lemma set_nth_app (l1 : list V) v x l2 : set_nth (l1 ++ x :: l2) (length l1) v = (l1 ++ [v]) ++ l2.
Proof using Type. induction l1 as [|y l1 IH]; cbn; [reflexivity|]. now rewrite IH. Qed.
Definition partial (k : nat) : list V := map f (seq 0 k) ++ map (fun _ => zero) (skipn k labels).
Lemma partial_set k : k < n -> set_nth (partial k) k (f k) = partial (S k).
Proof using Type.
  intros Hk. unfold partial. assert (E : skipn k labels = nth k labels 0%Z :: skipn (S k) labels).
  { clear U F. unfold n in Hk. revert k Hk. induction labels as [|x l IH]; intros k Hk; [cbn in Hk; lia|]. destruct k; [reflexivity|]. cbn in Hk. rewrite !skipn_cons. now rewrite (IH k) by lia. }
  rewrite E. cbn [map]. rewrite seq_S, map_app. cbn [map Nat.add]. rewrite <- (set_nth_app (map f (seq 0 k)) (f k) zero). now rewrite map_length, seq_length.
Qed.
Lemma run_some cs : forall k m m' os, k <= n -> pos m = Some k -> res m = partial k -> run labels calc zero cs m = (m', os) -> ~ In Stop os ->
  exists k', k <= k' <= n /\ pos m' = Some k' /\ res m' = partial k' /\ yields os = map (fun i => (i, f i)) (seq k (k' - k)) /\ ~ In TypeErr os /\ ~ In IndexErr os.
Proof using U F.
  induction cs as [|c cs IH]; intros k m m' os Hk Hp Hr H HS; cbn [run] in H.
  - injection H as <- <-. exists k. rewrite Nat.sub_diag. cbn. repeat split; auto.
  - destruct (match c with Iter => iter_call labels zero m | Next => next_call labels calc m end) as [m1 o] eqn:E1.
    destruct (run labels calc zero cs m1) as [m2 os2] eqn:E2. injection H as <- <-.
    assert (HS2 : ~ In Stop os2) by (intros X; apply HS; now right).
    destruct c.
    + unfold iter_call in E1. rewrite Hp in E1. injection E1 as <- <-.
      destruct (IH k m m2 os2 Hk Hp Hr E2 HS2) as (k' & A & B & C & D & G1 & G2). exists k'. repeat split; try tauto; cbn; intuition discriminate.
    + unfold next_call in E1. rewrite Hp in E1. destruct (Nat.ltb_spec k (length labels)) as [Hlt|Hge].
      2:{ injection E1 as <- <-. exfalso. apply HS. now left. }
      destruct (calc (mem m) k) as [[v|] mem'] eqn:EC.
      * rewrite (proj2 (unique_nodup labels) U) in E1. injection E1 as <- <-. apply F in EC. subst v.
        rewrite label_nth in E2 by (assumption || exact Hlt).
        edestruct (IH (S k) {| pos := Some (S k); res := set_nth (res m) k (f k); mem := mem' |} m2 os2) as (k' & A & B & C & D & G1 & G2); [unfold n; lia|reflexivity|cbn [res]; rewrite Hr; now apply partial_set|exact E2|exact HS2|].
        exists k'. repeat split; try tauto; try lia; [|cbn; intuition discriminate|cbn; intuition discriminate].
        cbn [yields flat_map]. fold (yields os2). rewrite D. replace (k' - k) with (S (k' - S k)) by lia. reflexivity.
      * injection E1 as <- <-. destruct (IH k {| pos := Some k; res := res m; mem := mem' |} m2 os2 Hk eq_refl Hr E2 HS2) as (k' & A & B & C & D & G1 & G2). exists k'. repeat split; try tauto; cbn; intuition discriminate.
Qed.
Lemma run_iter cs m m' os : pos m = None -> run labels calc zero (Iter :: cs) m = (m', os) -> ~ In Stop os ->
  exists k, k <= n /\ pos m' = Some k /\ res m' = partial k /\ yields os = map (fun i => (i, f i)) (seq 0 k) /\ ~ In TypeErr os /\ ~ In IndexErr os.
Proof using U F.
  intros Hp H HS. cbn [run] in H. unfold iter_call in H. rewrite Hp in H.
  destruct (run labels calc zero cs _) as [m2 os2] eqn:E. injection H as <- <-.
  destruct (run_some cs 0 {| pos := Some 0; res := map (fun _ => zero) labels; mem := mem m |} m2 os2 ltac:(lia) eq_refl eq_refl E ltac:(intros X; apply HS; now right)) as (k & A & B & C & D & G1 & G2).
  exists k. rewrite Nat.sub_0_r in D. repeat split; try tauto; try lia; try (cbn; intuition discriminate).
Qed.
Lemma next_stop m k m' : k <= n -> pos m = Some k -> next_call labels calc m = (m', Stop) -> k = n /\ pos m' = None /\ res m' = res m.
Proof using Type.
  intros Hk Hp H. unfold next_call in H. rewrite Hp in H. destruct (Nat.ltb_spec k (length labels)) as [Hlt|Hge].
  - destruct (calc (mem m) k) as [[v|] mem']; [destruct (is_unique labels)|]; discriminate.
  - injection H as <-. cbn. unfold n in *. repeat split. lia.
Qed.
Lemma run_app cs1 cs2 m : run labels calc zero (cs1 ++ cs2) m =
  let '(m1, o1) := run labels calc zero cs1 m in let '(m2, o2) := run labels calc zero cs2 m1 in (m2, o1 ++ o2).
Proof using Type.
  revert m. induction cs1 as [|c cs IH]; intros m; cbn [run app].
  - destruct (run labels calc zero cs2 m) as [m2 o2]. reflexivity.
  - destruct (match c with Iter => iter_call labels zero m | Next => next_call labels calc m end) as [m1 o]. rewrite IH.
    destruct (run labels calc zero cs m1) as [m2 o2]. destruct (run labels calc zero cs2 m2) as [m3 o3]. reflexivity.
Qed.
End Iter.

Section Index.
Context {D V : Type} (f : nat -> D -> V).
Lemma chunk_nth i0 ds : forall k d0 v0, k < length ds -> nth k (calc_chunk f i0 ds) v0 = f (i0 + k) (nth k ds d0).
Proof using Type.
  revert i0. induction ds as [|d ds IH]; intros i0 k d0 v0 Hk; [cbn in Hk; lia|]. destruct k as [|k]; cbn.
  - now rewrite Nat.add_0_r.
  - cbn in Hk. rewrite (IH (S i0) k d0) by lia. f_equal. lia.
Qed.
Lemma chunk_len i0 ds : length (calc_chunk f i0 ds) = length ds.
Proof using Type. revert i0. induction ds as [|d ds IH]; intros i0; cbn; [reflexivity|]. now rewrite IH. Qed.
Lemma chunk_app i0 a b : calc_chunk f i0 (a ++ b) = calc_chunk f i0 a ++ calc_chunk f (i0 + length a) b.
Proof using Type. revert i0. induction a as [|d a IH]; intros i0; cbn; [now rewrite Nat.add_0_r|]. rewrite IH. do 2 f_equal. f_equal. lia. Qed.
Lemma chunks_all sizes : forall i0 ds, length ds = fold_right Nat.add 0 sizes -> calc_chunks f sizes i0 ds = calc_chunk f i0 ds.
Proof using Type.
  induction sizes as [|n sizes IH]; intros i0 ds H; cbn in *.
  - destruct ds; [reflexivity|discriminate].
  - rewrite IH by (rewrite skipn_length; lia). rewrite <- (firstn_skipn n ds) at 3. rewrite chunk_app. rewrite firstn_length, Nat.min_l by lia. reflexivity.
Qed.
Lemma seq_nth ds k d0 v0 : k < length ds -> nth k (calc_sequential f ds) v0 = f 0 (nth k ds d0).
Proof using Type.
  unfold calc_sequential. revert k. induction ds as [|d ds IH]; intros k Hk; [cbn in Hk; lia|]. destruct k as [|k]; cbn; [reflexivity|]. cbn in Hk. apply IH. lia.
Qed.
Lemma seq_map ds : calc_sequential f ds = map (f 0) ds.
Proof using Type. induction ds as [|d ds IH]; [reflexivity|]. change (f 0 d :: calc_sequential f ds = f 0 d :: map (f 0) ds). now rewrite IH. Qed.
End Index.

Section SeqDyn.
Context (dts : list R) (wind : nat -> vec3 -> R * R) (rotor : nat -> vec3).
Local Open Scope R_scope.
Lemma sqrt_wd wd a : sqrt (fst (wd2uv wd a) * fst (wd2uv wd a) + snd (wd2uv wd a) * snd (wd2uv wd a)) = Rabs a.
Proof using Type.
  unfold wd2uv, wd2wdvec. cbn [fst snd]. set (t := wd * PI / 180). pose proof (sin2_cos2 t) as H. unfold Rsqr in H.
  replace (- (a * sin t) * - (a * sin t) + - (a * cos t) * - (a * cos t)) with (a * a) by (replace (a * a) with (a * a * (sin t * sin t + cos t * cos t)) by (rewrite H; ring); ring).
  now rewrite <- sqrt_Rsqr_abs.
Qed.
(** the tracked points are on the paths of the air *)
Lemma updates_spec c : let m := updates dts wind rotor c no_traces in
  (forall s, (s <= c)%nat -> tp m s = traj (dt_at dts) wind rotor s (c - s) /\ tl m s = Some (tlen (dt_at dts) wind rotor s (c - s)) /\
     tv m s = wd2uv (fst (wind c (tp m s))) (snd (wind c (tp m s)))) /\
  forall s, (c < s)%nat -> tl m s = None.
Proof using Type.
  induction c as [|c IH]; cbn zeta in *.
  - cbn [updates]. unfold update. cbn [tl no_traces tp tv]. split.
    + intros s Hs. assert (s = O) by lia. subst. cbn. auto.
    + intros s Hs. destruct s as [|s]; [lia|reflexivity].
  - destruct IH as [IH1 IH2]. cbn [updates]. set (m := updates dts wind rotor c no_traces) in *. unfold update. rewrite (IH2 (S c)) by lia. cbn [tp tl tv]. split.
    + intros s Hs. rewrite (proj2 (Nat.leb_le s (S c)) Hs). destruct (Nat.eqb_spec s (S c)) as [->|Hne].
      * rewrite Nat.sub_diag. cbn [traj tlen]. auto.
      * destruct (IH1 s ltac:(lia)) as (P & L & W). rewrite (proj2 (Nat.ltb_lt s (S c))) by lia.
        replace (S c - s)%nat with (S (c - s)) by lia. cbn [traj tlen]. replace (s + (c - s))%nat with c by lia.
        unfold dxyz. rewrite W, L, P. replace (S c - 1)%nat with c by lia. cbn [fst snd].
        set (p := traj (dt_at dts) wind rotor s (c - s)). repeat split.
        -- unfold wd2uv, wd2wdvec. cbn [fst snd]. f_equal; f_equal; ring.
        -- f_equal. f_equal.
           pose proof (sqrt_wd (fst (wind c p)) (snd (wind c p) * dt_at dts c)) as Q. rewrite <- Q. f_equal. unfold wd2uv, wd2wdvec. cbn [fst snd]. ring.
    + intros s Hs. destruct (Nat.eqb_spec s (S c)); [lia|]. destruct (Nat.ltb_spec s (S c)); [lia|]. apply IH2. lia.
Qed.
Lemma near_le c m q : (near c m q <= c)%nat.
Proof using Type. apply argmin_le. Qed.
Lemma near_min c m q s : (s <= c)%nat -> dist3 q (tp m (near c m q)) <= dist3 q (tp m s).
Proof using Type. intros Hs. exact (argmin_min _ c (fun s => dist3 q (tp m s)) (fun _ _ => eq_refl) s Hs). Qed.
Lemma coos_nearest c m q x y : trace_coos dts c m q = Some (Some x, y) ->
  exists s l, (s <= c)%nat /\ tl m s = Some l /\ (forall s', (s' <= c)%nat -> dist3 q (tp m s) <= dist3 q (tp m s')) /\
    let w := sqrt (fst (tv m s) * fst (tv m s) + snd (tv m s) * snd (tv m s)) in
    w <> 0 /\ Rabs (x - l) < w * dt_cur dts c /\
    x = l + ((vx q - vx (tp m s)) * fst (tv m s) + (vy q - vy (tp m s)) * snd (tv m s)) / w /\
    y = (- (vx q - vx (tp m s)) * snd (tv m s) + (vy q - vy (tp m s)) * fst (tv m s)) / w.
Proof using Type.
  unfold trace_coos. set (s := near c m q). destruct (Reqb _ _) eqn:E; [discriminate|]. apply Reqb_false in E. cbn zeta. cbn [fst snd].
  destruct (Rltb _ _ && Rltb _ _) eqn:B; [|discriminate]. rewrite andb_true_iff, !Rltb_true in B. destruct (tl m s) as [l|] eqn:L; [|discriminate].
  intros H. injection H as Hx Hy. exists s, l. split; [apply near_le|]. split; [exact L|]. split; [intros s' Hs'; now apply near_min|].
  split; [exact E|]. split; [apply Rabs_def1; lra|]. split; [rewrite <- Hx|rewrite <- Hy]; field; exact E.
Qed.

(** repeated calls within a state change nothing *)
Lemma update_known c m l : tl m c = Some l -> update dts wind rotor c m = m.
Proof using Type. intros H. unfold update. now rewrite H. Qed.
Lemma update_idem c m : update dts wind rotor c (update dts wind rotor c m) = update dts wind rotor c m.
Proof using Type.
  destruct (tl m c) as [l|] eqn:E; [rewrite (update_known c m l E); exact (update_known c m l E)|].
  apply (update_known c _ 0). unfold update. rewrite E. cbn [tl]. now rewrite Nat.eqb_refl.
Qed.
(** traces when only state c had a call *)
Lemma update_fresh c : let m := update dts wind rotor c no_traces in
  (forall s, (s < c)%nat -> tp m s = (0, 0, 0) /\ tl m s = None) /\ tp m c = rotor c /\ tl m c = Some 0 /\ tv m c = wd2uv (fst (wind c (rotor c))) (snd (wind c (rotor c))).
Proof using Type.
  cbn zeta. unfold update. cbn [tl tp tv no_traces]. rewrite Nat.eqb_refl, Nat.leb_refl. repeat split.
  - destruct (Nat.eqb_spec s c); [lia|]. rewrite (proj2 (Nat.ltb_lt s c) H). unfold dxyz, vx, vy, vz. cbn. f_equal; f_equal; ring.
  - destruct (Nat.eqb_spec s c); [lia|]. now rewrite (proj2 (Nat.ltb_lt s c) H).
Qed.
Lemma updates_if_only c : forall c', (c' < c)%nat -> updates_if dts wind rotor (fun s => s =? c)%nat c' no_traces = no_traces.
Proof using Type.
  induction c' as [|c' IH]; intros H; cbn [updates_if].
  - destruct (Nat.eqb_spec 0 c); [lia|reflexivity].
  - rewrite IH by lia. destruct (Nat.eqb_spec (S c') c); [lia|reflexivity].
Qed.
Lemma updates_if_last c : updates_if dts wind rotor (fun s => s =? c)%nat c no_traces = update dts wind rotor c no_traces.
Proof using Type.
  destruct c as [|c]; cbn [updates_if]; [reflexivity|]. rewrite updates_if_only by lia. now rewrite Nat.eqb_refl.
Qed.
Lemma updates_if_all c m : updates_if dts wind rotor (fun _ => true) c m = updates dts wind rotor c m.
Proof using Type. induction c as [|c IH]; cbn [updates_if updates]; [reflexivity|]. now rewrite IH. Qed.

(** steady wind *)
Section Steady.
Variables (wd ws d : R) (p0 : vec3) (c : nat).
Hypothesis Hws : 0 < ws.
Hypothesis Hd : 0 < d.
Hypothesis Hdt : forall i, (i < c)%nat -> dt_at dts i = d.
Hypothesis Hcur : dt_cur dts c = d.
Hypothesis Hwind : forall s p, (s <= c)%nat -> wind s p = (wd, ws).
Hypothesis Hrot : forall s, (s <= c)%nat -> rotor s = p0.
Let L := ws * d.
Let n := wd2uv wd 1.
Lemma n_unit2 : fst n * fst n + snd n * snd n = 1.
Proof using Type. unfold n, wd2uv, wd2wdvec. cbn [fst snd]. pose proof (sin2_cos2 (wd * PI / 180)) as H. unfold Rsqr in H. nra. Qed.
Lemma wd_n a : wd2uv wd a = (a * fst n, a * snd n).
Proof using Type. unfold n, wd2uv, wd2wdvec. cbn [fst snd]. f_equal; ring. Qed.
Lemma traj_steady s a : (s + a <= c)%nat -> traj (dt_at dts) wind rotor s a = (vx p0 + INR a * L * fst n, vy p0 + INR a * L * snd n, vz p0).
Proof using Hdt Hwind Hrot.
  induction a as [|a IH]; intros Ha.
  - cbn [traj INR]. rewrite Hrot by lia. destruct p0 as [[x y] z]. unfold vx, vy, vz. cbn [fst snd]. f_equal; f_equal; ring.
  - cbn [traj]. rewrite IH by lia. rewrite Hwind, Hdt by lia. unfold vx, vy, vz. cbn [fst snd]. rewrite S_INR. unfold n, L, wd2uv, wd2wdvec. cbn [fst snd]. f_equal; f_equal; ring.
Qed.
Lemma tlen_steady s a : (s + a <= c)%nat -> tlen (dt_at dts) wind rotor s a = INR a * L.
Proof using Hdt Hwind Hws Hd.
  induction a as [|a IH]; intros Ha; [cbn; ring|]. cbn [tlen]. rewrite IH, Hwind, Hdt by lia. cbn [snd]. rewrite S_INR, Rabs_right by (apply Rle_ge, Rlt_le; nra). unfold L. ring.
Qed.
Lemma dist_steady q a : let x := (vx q - vx p0) * fst n + (vy q - vy p0) * snd n in let y := - (vx q - vx p0) * snd n + (vy q - vy p0) * fst n in
  dist3 q (vx p0 + INR a * L * fst n, vy p0 + INR a * L * snd n, vz p0) = sqrt ((x - INR a * L) * (x - INR a * L) + y * y + (vz q - vz p0) * (vz q - vz p0)).
Proof using Type.
  intros x y. unfold dist3. f_equal. cbn [vx vy vz fst snd]. unfold vx, vy, vz. cbn [fst snd]. f_equal.
  pose proof n_unit2 as U. set (dx := fst (fst q) - fst (fst p0)) in *. set (dy := snd (fst q) - snd (fst p0)) in *. unfold x, y, vx, vy. fold dx dy.
  set (t := INR a * L).
  replace (fst (fst q) - (fst (fst p0) + t * fst n)) with (dx - t * fst n) by (unfold dx; ring).
  replace (snd (fst q) - (snd (fst p0) + t * snd n)) with (dy - t * snd n) by (unfold dy; ring).
  replace ((dx - t * fst n) * (dx - t * fst n) + (dy - t * snd n) * (dy - t * snd n)) with (dx * dx + dy * dy - 2 * t * (dx * fst n + dy * snd n) + t * t * (fst n * fst n + snd n * snd n)) by ring.
  replace ((dx * fst n + dy * snd n - t) * (dx * fst n + dy * snd n - t) + (- dx * snd n + dy * fst n) * (- dx * snd n + dy * fst n))
    with ((dx * dx + dy * dy) * (fst n * fst n + snd n * snd n) - 2 * t * (dx * fst n + dy * snd n) + t * t) by ring.
  rewrite U. ring.
Qed.
Lemma coos_steady q : let x := (vx q - vx p0) * fst n + (vy q - vy p0) * snd n in let y := - (vx q - vx p0) * snd n + (vy q - vy p0) * fst n in
  trace_coos dts c (updates dts wind rotor c no_traces) q = if Rltb (- L) x && Rltb x ((INR c + 1) * L) then Some (Some x, y) else None.
Proof using Hdt Hwind Hws Hd Hcur Hrot.
  intros x y. destruct (updates_spec c) as [HS _]. cbn zeta in HS. unfold trace_coos. set (m := updates dts wind rotor c no_traces) in *.
  set (s := near c m q). assert (Hs : (s <= c)%nat) by apply near_le.
  assert (PS : forall s, (s <= c)%nat -> tp m s = (vx p0 + INR (c - s) * L * fst n, vy p0 + INR (c - s) * L * snd n, vz p0)).
  { intros s' H'. destruct (HS s' H') as (P & _ & _). rewrite P. apply traj_steady. lia. }
  destruct (HS s Hs) as (P & LL & W). rewrite Hwind in W by lia. cbn [fst snd] in W. rewrite W, LL, (PS s Hs), Hcur, tlen_steady by lia. rewrite sqrt_wd. rewrite (Rabs_right ws) by lra.
  assert (E0 : Reqb ws 0 = false) by (apply Reqb_false; lra). rewrite E0. rewrite wd_n. cbn [fst snd]. unfold vx, vy. cbn [fst snd].
  set (a := (c - s)%nat). pose proof n_unit2 as U.
  assert (Lp : 0 < L) by (unfold L; nra).
  assert (PX : forall k, (k <= c)%nat -> Rabs (x - INR a * L) <= Rabs (x - INR k * L)).
  { intros k Hk. assert (Q := near_min c m q (c - k)%nat ltac:(lia)). fold s in Q. rewrite (PS s Hs), (PS (c - k)%nat) in Q by lia.
    replace (c - (c - k))%nat with k in Q by lia. fold a in Q. rewrite !dist_steady in Q. fold x y in Q. assert (Q2 := fun A B => sqrt_le_0 _ _ A B Q); clear Q.
    assert (SS : forall a b c : R, 0 <= a * a + b * b + c * c) by (intros; nra). specialize (Q2 (SS _ _ _) (SS _ _ _)).
    apply Rsqr_le_abs_0. unfold Rsqr. lra. }
  assert (EF : forall t, ws * t / ws = t) by (intros t; field; lra). rewrite !EF.
  replace ((fst (fst q) - (fst (fst p0) + INR a * L * fst n)) * fst n + (snd (fst q) - (snd (fst p0) + INR a * L * snd n)) * snd n) with (x - INR a * L).
  2:{ unfold x, vx, vy. replace (INR a * L) with (INR a * L * (fst n * fst n + snd n * snd n)) at 1 by (rewrite U; ring). ring. }
  replace ((fst (fst q) - (fst (fst p0) + INR a * L * fst n)) * - snd n + (snd (fst q) - (snd (fst p0) + INR a * L * snd n)) * fst n) with y.
  2:{ unfold y, vx, vy. ring. }
  fold L. destruct (Rltb (- L) x && Rltb x ((INR c + 1) * L)) eqn:E.
  - rewrite andb_true_iff, !Rltb_true in E. destruct (near_exists L Lp x c E) as (k & K1 & K2). specialize (PX k K1). rewrite (Rmult_comm L) in K2.
    assert (B : Rabs (x - INR a * L) < L) by lra. apply Rabs_def2 in B. rewrite (proj2 (Rltb_true _ _)), (proj2 (Rltb_true _ _)) by lra. cbn [andb]. do 2 f_equal. f_equal. ring.
  - destruct (Rltb (- L) (x - INR a * L) && Rltb (x - INR a * L) L) eqn:F; [|reflexivity]. exfalso.
    rewrite andb_true_iff, !Rltb_true in F. apply andb_false_iff in E. rewrite !Rltb_false in E.
    assert (Li : INR a <= INR c) by (apply le_INR; unfold a; lia). pose proof (pos_INR a). nra.
Qed.
(** one trace only *)
Lemma coos_one m q s l : near c m q = s -> tp m s = (vx p0 + l * fst n, vy p0 + l * snd n, vz p0) -> tl m s = Some l -> tv m s = wd2uv wd ws ->
  let x := (vx q - vx p0) * fst n + (vy q - vy p0) * snd n in let y := - (vx q - vx p0) * snd n + (vy q - vy p0) * fst n in
  trace_coos dts c m q = if Rltb (l - L) x && Rltb x (l + L) then Some (Some x, y) else None.
Proof using Hws Hcur.
  intros Hn P T W x y. unfold trace_coos. rewrite Hn, P, T, W, Hcur, sqrt_wd. rewrite (Rabs_right ws) by lra.
  assert (E0 : Reqb ws 0 = false) by (apply Reqb_false; lra). rewrite E0, wd_n. cbn [fst snd]. unfold vx, vy. cbn [fst snd].
  pose proof n_unit2 as U. assert (EF : forall t, ws * t / ws = t) by (intros t; field; lra). rewrite !EF.
  replace ((fst (fst q) - (fst (fst p0) + l * fst n)) * fst n + (snd (fst q) - (snd (fst p0) + l * snd n)) * snd n) with (x - l).
  2:{ unfold x, vx, vy. replace l with (l * (fst n * fst n + snd n * snd n)) at 1 by (rewrite U; ring). ring. }
  replace ((fst (fst q) - (fst (fst p0) + l * fst n)) * - snd n + (snd (fst q) - (snd (fst p0) + l * snd n)) * fst n) with y by (unfold y, vx, vy; ring).
  fold L. assert (E : Rltb (- L) (x - l) && Rltb (x - l) L = Rltb (l - L) x && Rltb x (l + L)).
  { apply Bool.eq_iff_eq_true. rewrite !andb_true_iff, !Rltb_true. lra. }
  rewrite E. destruct (Rltb (l - L) x && Rltb x (l + L)); [|reflexivity]. do 2 f_equal. f_equal. ring.
Qed.
End Steady.
End SeqDyn.

(** only the positions in the states so far matter *)
Lemma updates_ext dts wind r1 r2 c m : (forall s, (s <= c)%nat -> r1 s = r2 s) -> updates dts wind r1 c m = updates dts wind r2 c m.
Proof.
  assert (E : forall c m, r1 c = r2 c -> update dts wind r1 c m = update dts wind r2 c m) by (intros c' m' H; unfold update; now rewrite H).
  induction c as [|c IH]; intros H; cbn [updates]; [apply E, H; lia|]. rewrite IH by (intros s Hs; apply H; lia). apply E, H. lia.
Qed.
(** all calculations in worker processes: the memory stays as it is *)
Lemma worker_memory dts wind rotor m (cs : list (nat * vec3)) :
  fold_left (fun m cq => fst (get_coos_worker dts wind rotor (fst cq) m (snd cq))) cs m = m.
Proof. induction cs as [|[c q] cs IH]; cbn; [reflexivity|exact IH]. Qed.

Local Open Scope R_scope.
(** wind turning from west to east: two states on a line *)
Definition turning (s : nat) (_ : vec3) : R * R := match s with O => (270, 10) | S _ => (90, 10) end.
Lemma west10 a : wd2uv 270 a = (a, 0).
Proof. unfold wd2uv, wd2wdvec. cbn [fst snd]. replace (270 * PI / 180) with (PI / 2 + PI) by field. rewrite neg_sin, neg_cos, sin_PI2, cos_PI2. f_equal; ring. Qed.
Lemma east10 a : wd2uv 90 a = (- a, 0).
Proof. unfold wd2uv, wd2wdvec. cbn [fst snd]. replace (90 * PI / 180) with (PI / 2) by field. rewrite sin_PI2, cos_PI2. f_equal; ring. Qed.
Lemma turning_coos r0 r1 q : let rotor := fun s : nat => match s with O => (r0, 0, 100) | _ => (r1, 0, 100) end in
  trace_coos [60] 1 (updates [60] turning rotor 1 no_traces) (q, 0, 100) =
  if Rltb (Rabs (q - r1)) (Rabs (q - (r0 + 600))) then (if Rltb (-600) (r1 - q) && Rltb (r1 - q) 600 then Some (Some (r1 - q), 0) else None)
  else (if Rltb (-600) (r0 + 600 - q) && Rltb (r0 + 600 - q) 600 then Some (Some (r0 + 600 - q + 600), 0) else None).
Proof.
  intros rotor. destruct (updates_spec [60] turning rotor 1) as [HS _]. cbn zeta in HS. set (m := updates [60] turning rotor 1 no_traces) in *.
  destruct (HS 0%nat ltac:(lia)) as (P0 & T0 & W0). destruct (HS 1%nat ltac:(lia)) as (P1 & T1 & W1). clear HS.
  cbn [Nat.sub traj tlen turning Nat.add dt_at nth fst snd] in P0, T0, P1, T1. unfold turning in W0, W1. cbn [fst snd] in W0, W1. rewrite east10 in W0, W1.
  pose proof (west10 10) as Q. unfold wd2uv, wd2wdvec in Q. cbn [fst snd] in Q. injection Q as Q1 Q2.
  assert (P0' : tp m 0%nat = (r0 + 600, 0, 100)).
  { rewrite P0. unfold rotor, vx, vy, vz, dt_at. cbn [fst snd nth]. f_equal. f_equal; lra. }
  assert (T0' : tl m 0%nat = Some 600). { rewrite T0. f_equal. unfold dt_at. cbn [nth]. rewrite Rabs_right; lra. }
  change (tp m 1%nat = (r1, 0, 100)) in P1.
  assert (D0 : dist3 (q, 0, 100) (tp m 0%nat) = Rabs (q - (r0 + 600))).
  { rewrite P0'. unfold dist3, vx, vy, vz. cbn [fst snd]. rewrite <- sqrt_Rsqr_abs. f_equal. unfold Rsqr. ring. }
  assert (D1 : dist3 (q, 0, 100) (tp m 1%nat) = Rabs (q - r1)).
  { rewrite P1. unfold dist3, vx, vy, vz. cbn [fst snd]. rewrite <- sqrt_Rsqr_abs. f_equal. unfold Rsqr. ring. }
  unfold trace_coos, near. cbn [argmin]. rewrite D0, D1.
  assert (S10 : sqrt (- (10) * - (10) + 0 * 0) = 10) by (replace (- (10) * - (10) + 0 * 0) with (10 * 10) by ring; apply sqrt_square; lra).
  assert (R10 : Reqb 10 0 = false) by (apply Reqb_false; lra).
  assert (DC : dt_cur [60] 1 = 60) by reflexivity.
  destruct (Rltb (Rabs (q - r1)) (Rabs (q - (r0 + 600)))).
  - rewrite W1, P1, T1, DC. cbn [fst snd]. rewrite S10, R10. unfold vx, vy. cbn [fst snd].
    replace ((q - r1) * (- (10) / 10) + (0 - 0) * (0 / 10)) with (r1 - q) by field. replace (- (10 * 60)) with (-600) by ring. replace (10 * 60) with 600 by ring.
    destruct (Rltb (-600) (r1 - q) && Rltb (r1 - q) 600); [|reflexivity]. f_equal. f_equal; [f_equal; ring|field].
  - rewrite W0, P0', T0', DC. cbn [fst snd]. rewrite S10, R10. unfold vx, vy. cbn [fst snd].
    replace ((q - (r0 + 600)) * (- (10) / 10) + (0 - 0) * (0 / 10)) with (r0 + 600 - q) by field. replace (- (10 * 60)) with (-600) by ring. replace (10 * 60) with 600 by ring.
    destruct (Rltb (-600) (r0 + 600 - q) && Rltb (r0 + 600 - q) 600); [|reflexivity]. f_equal. f_equal. field.
Qed.
