(** Proofs for C247. *)
From Coq Require Import Permutation.
From Verif Require Import RBase Superp_Model Superp_Proofs Order_Model Order_Proofs FarmWakes_Model FarmWakes_Spec FarmWakes_Proofs FarmIter_Proofs PointWakes_Model PointWakes_Spec PointWakes_Proofs Conv_Model Contract_Spec Contract_Proofs Sens_Spec.
Local Open Scope R_scope.

Lemma rotor_norm s : rotor_scaled s -> norm_like s.
Proof. destruct s; cbn; intros H; try tauto; split; auto. Qed.
Lemma loss_deficit s amb c : rotor_scaled s -> deficit_of s amb c = loss c.
Proof. intros H. destruct c as [(sc, r)|]; [|reflexivity]. destruct s; cbn in *; try tauto. Qed.
Lemma raw_noamb s quad a b d : rotor_scaled s -> raw_final s quad a d = raw_final s quad b d.
Proof. destruct s; cbn; intros H; try contradiction; reflexivity. Qed.
Lemma max_shift a x y : a + Rmax x y = Rmax (a + x) (a + y).
Proof. unfold Rmax. destruct (Rle_dec x y), (Rle_dec (a + x) (a + y)); lra. Qed.
Lemma min_shift a x y : a + Rmin x y = Rmin (a + x) (a + y).
Proof. unfold Rmin. destruct (Rle_dec x y), (Rle_dec (a + x) (a + y)); lra. Qed.
Lemma clamp_shift low high amb w : amb + clamp low high amb w = (let y := match low with Some l => Rmax (amb + w) l | None => amb + w end in match high with Some h => Rmin y h | None => y end).
Proof.
  unfold clamp. assert (E : forall l, amb + (l - amb) = l) by (intros; ring). destruct low as [l|], high as [h|]; cbn zeta; rewrite ?min_shift, ?max_shift, ?E; reflexivity.
Qed.
Lemma lim_lip low high x y :
  Rabs ((let y := match low with Some l => Rmax x l | None => x end in match high with Some h => Rmin y h | None => y end) -
        (let y := match low with Some l => Rmax y l | None => y end in match high with Some h => Rmin y h | None => y end)) <= Rabs (x - y).
Proof.
  pose proof (clamp_lip low high 0 x y) as H. rewrite !(fun w => eq_trans (eq_sym (Rplus_0_l (clamp low high 0 w))) (clamp_shift low high 0 w)) in H.
  rewrite !Rplus_0_l in H. exact H.
Qed.
Lemma raw_lip s quad a b cs cs' : rotor_scaled s -> length cs = length cs' ->
  Rabs (raw_final s quad a (wake_delta s cs) - raw_final s quad b (wake_delta s cs')) <= rsum (map2 (fun c c' => Rabs (loss c - loss c')) cs cs').
Proof.
  intros Hs L. pose proof (final_lip s quad None None 0 cs cs' (rotor_norm _ Hs) L) as H. unfold final_wake, final_delta in H. rewrite (proj1 (rotor_norm _ Hs)) in H. cbn [clamp] in H.
  rewrite (raw_noamb s quad a 0), (raw_noamb s quad b 0) by exact Hs. eapply Rle_trans; [exact H|]. right. clear H L. revert cs'.
  induction cs as [|c cs IH]; intros [|c' cs']; cbn [map2 rsum]; auto. now rewrite IH, !loss_deficit.
Qed.

Section S.
  Context {T P : Type}.
  Variables (amb amb' : P -> R) (hub : T -> P).
  Local Notation ev := (fun (_ : T) (w : R) => w).
  Variables (m m' : swake T R P) (L eta : T -> T -> R) (dT : T).
  Hypothesis Hs : rotor_scaled (sm_s m).
  Hypothesis HN : nearly hub L eta m m'.
  Hypothesis L0 : forall t t', 0 <= L t t'.
  Local Notation X1 := (X (fun t => amb (hub t)) [as_wmodel amb hub m]).
  Local Notation X2 := (X (fun t => amb' (hub t)) [as_wmodel amb' hub m']).

  Lemma X_diff done done' t : length done = length done' ->
    Rabs (X1 done t - X2 done' t) <= Rabs (amb (hub t) - amb' (hub t)) +
      rsum (map2 (fun c c' => Rabs (loss c - loss c')) (map (fun tf => sm_c m (fst tf) (snd tf) (hub t)) done) (map (fun tf => sm_c m' (fst tf) (snd tf) (hub t)) done')).
  Proof.
    intros Ld. unfold X. cbn [fold_left]. rewrite !deltas_wake. cbn [as_wmodel w_add]. destruct HN as (E1 & E2 & E3 & E4 & _). rewrite E1, E2, E3, E4.
    unfold final_delta. rewrite (proj1 (rotor_norm _ Hs)), !clamp_shift. eapply Rle_trans; [apply lim_lip|].
    match goal with |- Rabs (amb (hub t) + ?x - (amb' (hub t) + ?y)) <= _ => replace (amb (hub t) + x - (amb' (hub t) + y)) with ((amb (hub t) - amb' (hub t)) + (x - y)) by ring end.
    eapply Rle_trans; [apply Rabs_triang|]. apply Rplus_le_compat_l. apply raw_lip; [exact Hs|]. now rewrite !map_length.
  Qed.
  Lemma front_bound ts xs ys e j : (j <= length ts)%nat -> length xs = length ts -> length ys = length ts ->
    (forall i, (i < j)%nat -> Rabs (nth i xs 0 - nth i ys 0) <= nth i e 0) ->
    rsum (map2 (fun c c' => Rabs (loss c - loss c')) (map (fun tf => sm_c m (fst tf) (snd tf) (hub (nth j ts dT))) (firstn j (combine ts xs))) (map (fun tf => sm_c m' (fst tf) (snd tf) (hub (nth j ts dT))) (firstn j (combine ts ys))))
    <= front_sum (fun i t t' => L t t' * nth i e 0 + eta t t') ts dT j.
  Proof.
    unfold front_sum. generalize (nth j ts dT) as tj. intros tj. revert xs ys e j. induction ts as [|t ts IH]; intros [|x xs] [|y ys] e j Hj Lx Ly H; cbn in Hj, Lx, Ly; try discriminate.
    - assert (j = 0%nat) by lia. subst. cbn. lra.
    - destruct j as [|j]; [cbn; lra|]. cbn [combine firstn map map2 rsum seq fst snd nth]. apply Rplus_le_compat.
      + destruct HN as (_ & _ & _ & _ & G). eapply Rle_trans; [apply G|]. apply Rplus_le_compat_r. apply Rmult_le_compat_l; [apply L0|]. exact (H 0%nat ltac:(lia)).
      + specialize (IH xs ys (tl e) j ltac:(lia) ltac:(lia) ltac:(lia)). eapply Rle_trans; [apply IH|].
        * intros i Hi. specialize (H (S i) ltac:(lia)). cbn [nth] in H. destruct e as [|e0 e]; cbn [tl nth] in *; auto. destruct i; auto.
        * right. rewrite <- seq_shift, map_map. apply rsum_ext. intros i _. destruct e as [|e0 e]; cbn [nth tl]; [destruct i; reflexivity|reflexivity].
  Qed.
  Lemma ideal_close ts e : (forall j, (j < length ts)%nat -> Rabs (amb (hub (nth j ts dT)) - amb' (hub (nth j ts dT))) + front_sum (fun i t t' => L t t' * nth i e 0 + eta t t') ts dT j <= nth j e 0) ->
    forall j, (j < length ts)%nat -> Rabs (nth j (ideal (fun t => amb (hub t)) ev [as_wmodel amb hub m] [] ts) 0 - nth j (ideal (fun t => amb' (hub t)) ev [as_wmodel amb' hub m'] [] ts) 0) <= nth j e 0.
  Proof.
    intros He. induction j as [j IH] using lt_wf_ind. intros Hj. rewrite !(ideal_nth _ _ _ ts j (nth j ts dT) 0 dT Hj eq_refl).
    set (xs := ideal (fun t => amb (hub t)) ev _ [] ts) in *. set (ys := ideal (fun t => amb' (hub t)) ev _ [] ts) in *.
    assert (Lx : length xs = length ts) by apply ideal_length. assert (Ly : length ys = length ts) by apply ideal_length.
    eapply Rle_trans; [apply X_diff; rewrite !firstn_length, !combine_length; lia|]. eapply Rle_trans; [|apply He; exact Hj]. apply Rplus_le_compat_l.
    apply front_bound; [lia|exact Lx|exact Ly|]. intros i Hi. apply IH; lia.
  Qed.
  Hypothesis A : forall t, in_limits amb m (hub t).
  Hypothesis A' : forall t, in_limits amb' m' (hub t).
  Lemma down1 ts : calc_downwind (fun t => amb (hub t)) ev 0 [as_wmodel amb hub m] ts = Ok (ideal (fun t => amb (hub t)) ev [as_wmodel amb hub m] [] ts).
  Proof. apply downwind_ideal; [apply (as_all_down amb hub [m])|apply (as_neutral amb hub [m]); intros ? t [<-|[]]; apply A|apply nofb_single]. Qed.
  Lemma down2 ts : calc_downwind (fun t => amb' (hub t)) ev 0 [as_wmodel amb' hub m'] ts = Ok (ideal (fun t => amb' (hub t)) ev [as_wmodel amb' hub m'] [] ts).
  Proof. apply downwind_ideal; [apply (as_all_down amb' hub [m'])|apply (as_neutral amb' hub [m']); intros ? t [<-|[]]; apply A'|apply nofb_single]. Qed.
  Lemma down_close ts e xs ys : (forall j, (j < length ts)%nat -> Rabs (amb (hub (nth j ts dT)) - amb' (hub (nth j ts dT))) + front_sum (fun i t t' => L t t' * nth i e 0 + eta t t') ts dT j <= nth j e 0) ->
    calc_downwind (fun t => amb (hub t)) ev 0 [as_wmodel amb hub m] ts = Ok xs -> calc_downwind (fun t => amb' (hub t)) ev 0 [as_wmodel amb' hub m'] ts = Ok ys ->
    forall j, (j < length ts)%nat -> Rabs (nth j xs 0 - nth j ys 0) <= nth j e 0.
  Proof. intros He. rewrite down1, down2. intros E1 E2. injection E1 as <-. injection E2 as <-. now apply ideal_close. Qed.

  (** uniform bounds *)
  Variables (l h delta : R).
  Hypothesis Hl : forall t t', L t t' <= l.
  Hypothesis Hh : forall t t', 0 <= eta t t' <= h.
  Lemma geo D n : rsum (map (fun i => l * (D * (1 + l) ^ i)) (seq 0 n)) = D * (1 + l) ^ n - D.
  Proof. induction n as [|n IH]; [cbn; ring|]. rewrite seq_S, map_app, rsum_app, IH. cbn [map rsum Nat.add pow]. ring. Qed.
  Lemma uniform_close ts xs ys : (forall t, In t ts -> Rabs (amb (hub t) - amb' (hub t)) <= delta) ->
    calc_downwind (fun t => amb (hub t)) ev 0 [as_wmodel amb hub m] ts = Ok xs -> calc_downwind (fun t => amb' (hub t)) ev 0 [as_wmodel amb' hub m'] ts = Ok ys ->
    forall j, (j < length ts)%nat -> Rabs (nth j xs 0 - nth j ys 0) <= (delta + INR (length ts - 1) * h) * (1 + l) ^ (length ts - 1).
  Proof.
    intros Hd E1 E2 j Hj. set (n := length ts) in *. set (D := delta + INR (n - 1) * h).
    assert (l0 : 0 <= l) by (eapply Rle_trans; [apply (L0 dT dT)|apply Hl]).
    assert (h0 : 0 <= h) by (destruct (Hh dT dT); lra).
    assert (d0 : 0 <= delta). { eapply Rle_trans; [apply Rabs_pos|apply (Hd (nth j ts dT)); apply nth_In; exact Hj]. }
    assert (D0 : 0 <= D). { unfold D. assert (0 <= INR (n - 1)) by apply pos_INR. nra. }
    set (e := map (fun i => D * (1 + l) ^ i) (seq 0 n)).
    assert (Ee : forall i, (i < n)%nat -> nth i e 0 = D * (1 + l) ^ i).
    { intros i Hi. unfold e. rewrite (nth_indep _ 0 (D * (1 + l) ^ 0)) by (rewrite map_length, seq_length; exact Hi).
      rewrite (map_nth (fun i => D * (1 + l) ^ i)), seq_nth by exact Hi. reflexivity. }
    eapply Rle_trans; [apply (down_close ts e xs ys); [|exact E1|exact E2|exact Hj]|].
    - intros k Hk. rewrite (Ee k Hk). eapply Rle_trans; [apply Rplus_le_compat; [apply Hd, nth_In; exact Hk|]|].
      + unfold front_sum. apply rsum_le with (g := fun i => l * (D * (1 + l) ^ i) + h). intros i Hi. apply in_seq in Hi. rewrite Ee by lia.
        apply Rplus_le_compat; [|apply Hh]. apply Rmult_le_compat_r; [|apply Hl]. apply Rmult_le_pos; [exact D0|]. apply pow_le. lra.
      + rewrite rsum_map_plus, geo, rsum_const, seq_length. assert (INR k <= INR (n - 1)) by (apply le_INR; lia). assert (HD : D = delta + INR (n - 1) * h) by reflexivity. assert (h * INR k <= INR (n - 1) * h) by nra. lra.
    - rewrite (Ee j Hj). apply Rmult_le_compat_l; [exact D0|]. apply Rle_pow; [lra|lia].
  Qed.
  Context {K : Type}.
  Variables (leb : K -> K -> bool) (key : T -> K).
  Lemma farm_close farm xs ys : (forall t, In t farm -> Rabs (amb (hub t) - amb' (hub t)) <= delta) ->
    calc_farm (fun t => amb (hub t)) ev leb key dT 0 0 [as_wmodel amb hub m] farm = Ok xs -> calc_farm (fun t => amb' (hub t)) ev leb key dT 0 0 [as_wmodel amb' hub m'] farm = Ok ys ->
    forall j, (j < length farm)%nat -> Rabs (nth j xs 0 - nth j ys 0) <= (delta + INR (length farm - 1) * h) * (1 + l) ^ (length farm - 1).
  Proof.
    intros Hd E1 E2 j Hj. pose proof (farm_perm leb key farm) as Pm. pose proof (perm_length _ _ Pm) as Lp.
    destruct (In_nth _ _ 0%nat (Permutation_in _ (Permutation_sym Pm) (proj2 (in_seq _ _ _) (conj (Nat.le_0_l j) Hj)))) as (k & Hk & Ek). rewrite Lp in Hk.
    set (ts := gather dT farm (farm_order leb key farm)) in *. assert (Lt : length ts = length farm) by (unfold ts; rewrite gather_length; exact Lp).
    destruct (calc_farm_nth (fun t => amb (hub t)) ev leb key dT 0 0 [as_wmodel amb hub m] farm j k _ (down1 ts) Hk Ek) as (r1 & C1 & _ & N1).
    destruct (calc_farm_nth (fun t => amb' (hub t)) ev leb key dT 0 0 [as_wmodel amb' hub m'] farm j k _ (down2 ts) Hk Ek) as (r2 & C2 & _ & N2).
    rewrite C1 in E1. rewrite C2 in E2. injection E1 as <-. injection E2 as <-. rewrite N1, N2, <- Lt.
    apply uniform_close; [|apply down1|apply down2|lia].
    intros t Ht. apply Hd. unfold ts, gather in Ht. apply in_map_iff in Ht. destruct Ht as (i & <- & Hi). apply nth_In. apply (Permutation_in _ Pm) in Hi. apply in_seq in Hi. lia.
  Qed.
End S.

(** solutions of coupled equations *)
Lemma solutions_close n q f g D x y : contracts n q f -> solution n f x -> solution n g y -> (forall z, length z = n -> within D (f z) (g z)) -> within (D / (1 - q)) x y.
Proof.
  intros C (Lx & Fx) (Ly & Gy) H. apply within_sym. apply (near_solution n q f C D y x Ly (conj Lx Fx)). rewrite <- Gy at 1. apply within_sym, H, Ly.
Qed.
