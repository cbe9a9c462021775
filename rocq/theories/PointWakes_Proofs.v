(** Proofs about point and farm wakes. *)
From Coq Require Import Permutation.
From Verif Require Import RBase Superp_Model Superp_Spec Superp_Proofs Order_Model Order_Spec Order_Proofs.
From Verif Require Import FarmWakes_Model FarmWakes_Spec FarmWakes_Proofs FarmIter_Proofs PointWakes_Model PointWakes_Spec.
Local Open Scope R_scope.

Lemma final_zero s quad low high a : 0 <= a -> (forall l, low = Some l -> l <= a) -> (forall h, high = Some h -> a <= h) ->
  final_delta s quad low high a 0 = 0.
Proof. intros H1 H2 H3. exact (no_wake s quad low high a [] (Forall_nil _) H1 H2 H3). Qed.

Lemma ignores_final {T F P} (m : swake T F P) a a' d : ignores_ambient m = true ->
  final_delta (sm_s m) (sm_quad m) (sm_low m) (sm_high m) a d = final_delta (sm_s m) (sm_quad m) (sm_low m) (sm_high m) a' d.
Proof.
  unfold ignores_ambient, final_delta. destruct m as [s q lo hi c]. cbn [sm_s sm_quad sm_low sm_high].
  destruct s; cbn [is_ws raw_final]; destruct lo, hi, q; intros H; try discriminate; reflexivity.
Qed.

Lemma wake_delta_app_none s cs cs' : Forall (fun c => c = None) cs' -> wake_delta s (cs ++ cs') = wake_delta s cs.
Proof.
  intros H. unfold wake_delta. rewrite fold_left_app. induction H as [|c l Hc Hl IH]; cbn [fold_left]; [reflexivity|]. rewrite Hc. exact IH.
Qed.

Section Hub.
  Context {T F P K : Type}.
  Variable amb : P -> R.
  Variable hub : T -> P.
  Variable ev : T -> R -> F.
  Variable leb : K -> K -> bool.
  Variable key : T -> K.
  Variables (dT : T) (dF : F).
  Hypothesis total : forall a b, leb a b = true \/ leb b a = true.
  Hypothesis trans : forall a b c, leb a b = true -> leb b c = true -> leb a c = true.

  Local Notation wm := (as_wmodel amb hub).
  Local Notation ambt := (fun t => amb (hub t)).

  Lemma as_all_down (ms : list (swake T F P)) : all_down (map wm ms).
  Proof. apply Forall_map. apply Forall_forall. reflexivity. Qed.
  Lemma as_neutral (ms : list (swake T F P)) : (forall m t, In m ms -> in_limits amb m (hub t)) -> neutral (map wm ms).
  Proof.
    intros H w Hw t x. apply in_map_iff in Hw. destruct Hw as (m & <- & Hm). cbn [as_wmodel w_add w_new].
    destruct (H m t Hm) as (H1 & H2 & H3). rewrite final_zero by assumption. lra.
  Qed.
  Lemma nofb_single (w : @wmodel T F R R) : no_feedback ev [w].
  Proof. intros i j w1 w2 Hij H1 H2. destruct i as [|[|i]], j as [|[|j]]; cbn in *; try lia; discriminate. Qed.

  (** the deltas of the farm calculation are wake deltas *)
  Lemma deltas_wake (m : swake T F P) (done : list (T * F)) t : deltas (wm m) done t (w_new (wm m) t) =
    wake_delta (sm_s m) (map (fun tf => sm_c m (fst tf) (snd tf) (hub t)) done).
  Proof.
    unfold deltas, wake_delta. cbn [as_wmodel w_new w_contrib]. generalize 0 as d.
    induction done as [|x l IH]; intros d; cbn [fold_left map]; [reflexivity|]. apply IH.
  Qed.

  (** both calculations agree if every model ignores the ambient value or there is a single model *)
  Lemma X_point (ms : list (swake T F P)) (done srcs : list (T * F)) t :
    (forall m, In m ms -> wake_delta (sm_s m) (map (fun tf => sm_c m (fst tf) (snd tf) (hub t)) done) =
                          wake_delta (sm_s m) (map (fun tf => sm_c m (fst tf) (snd tf) (hub t)) srcs)) ->
    Forall (fun m => ignores_ambient m = true) ms \/ (length ms <= 1)%nat ->
    X ambt (map wm ms) done t = point_value amb ms srcs (hub t).
  Proof.
    intros E H. unfold X, point_value.
    assert (G : forall x m, In m ms -> ignores_ambient m = true \/ x = amb (hub t) ->
      w_add (wm m) t x (deltas (wm m) done t (w_new (wm m) t)) =
      x + final_wake (sm_s m) (sm_quad m) (sm_low m) (sm_high m) x (map (fun tf => sm_c m (fst tf) (snd tf) (hub t)) srcs)).
    { intros x m Hm Hi. rewrite deltas_wake. rewrite (E m Hm). unfold final_wake. cbn [as_wmodel w_add]. f_equal.
      destruct Hi as [Hi| ->]; [apply (ignores_final m (amb (hub t)) x _ Hi)|reflexivity]. }
    destruct H as [H|H].
    - clear E. revert G H. generalize (amb (hub t)) at 2 3 as x. induction ms as [|m ms IH]; intros x G H; cbn [map fold_left]; [reflexivity|].
      inversion H as [|? ? H1 H2]; subst. rewrite G; [|now left|now left]. apply IH; [|exact H2]. intros y m' Hm' Hi. apply G; [now right|exact Hi].
    - destruct ms as [|m [|m' ms]]; [reflexivity| |cbn in H; lia]. cbn [map fold_left]. apply G; [now left|now right].
  Qed.

  Lemma combine_gather (farm : list T) (fs : list F) o : length fs = length farm -> (forall k, In k o -> (k < length farm)%nat) ->
    combine (gather dT farm o) (gather dF fs o) = map (fun k => nth k (combine farm fs) (dT, dF)) o.
  Proof.
    intros L H. unfold gather. induction o as [|k o IH]; cbn [map combine]; [reflexivity|].
    rewrite combine_nth by lia. f_equal. apply IH. intros j Hj. apply H. now right.
  Qed.

  Lemma hub_value (ms : list (swake T F P)) (farm : list T) (fs : list F) (i : nat) :
    Forall (fun m => ignores_ambient m = true) ms /\ no_feedback ev (map wm ms) \/ (length ms <= 1)%nat ->
    (forall m t, In m ms -> in_limits amb m (hub t)) -> (forall m, In m ms -> downstream_only leb key hub m) ->
    calc_farm ambt ev leb key dT dF 0 (map wm ms) farm = Ok fs -> (i < length farm)%nat ->
    length fs = length farm /\ nth i fs dF = ev (nth i farm dT) (point_value amb ms (combine farm fs) (hub (nth i farm dT))).
  Proof.
    intros Hm Hl Hd E Hi.
    assert (NF : no_feedback ev (map wm ms)).
    { destruct Hm as [(_ & H)|H]; [exact H|]. destruct ms as [|m [|m' ms']]; [|apply nofb_single|cbn in H; lia].
      intros a b w1 w2 _ H1 _. destruct a; discriminate. }
    set (o := farm_order leb key farm) in *. set (ts := gather dT farm o) in *.
    assert (Po : isperm (length farm) o) by (apply farm_perm).
    assert (Lo : length o = length farm) by (apply perm_length; exact Po).
    assert (Lt : length ts = length farm) by (unfold ts; rewrite gather_length; exact Lo).
    pose proof (downwind_ideal ambt ev 0 (map wm ms) ts (as_all_down ms) (as_neutral ms Hl) NF) as Ed.
    set (r := ideal ambt ev (map wm ms) [] ts) in *.
    assert (Lr : length r = length farm) by (unfold r; rewrite ideal_length; exact Lt).
    assert (Ef : fs = gather dF r (invert o)).
    { unfold calc_farm in E. fold o ts in E. rewrite Ed in E. cbn [bind] in E. now injection E as <-. }
    assert (Lf : length fs = length farm) by (rewrite Ef, gather_length, invert_length; exact Lo).
    split; [exact Lf|].
    (* the position of turbine i *)
    destruct (order_invert (length farm) o i Po Hi) as (Hk & Ek). set (k := nth i (invert o) 0%nat) in *.
    assert (Et : nth k ts dT = nth i farm dT) by (unfold ts; rewrite nth_gather by lia; now rewrite Ek).
    assert (Efi : nth i fs dF = nth k r dF) by (rewrite Ef, nth_gather by (rewrite invert_length; lia); reflexivity).
    rewrite Efi. unfold r at 1. rewrite (ideal_nth ambt ev (map wm ms) ts k (nth i farm dT) dF dT) by (lia || exact Et). fold r. f_equal.
    (* processing order pairs are a permutation of farm order pairs *)
    assert (Er : r = gather dF fs o).
    { apply (list_eq_nth dF); [rewrite gather_length; lia|]. intros j Hj. rewrite nth_gather by lia.
      rewrite Ef. rewrite nth_gather by (rewrite invert_length; apply (perm_nth_lt (length farm) o j) in Po; lia).
      now rewrite (invert_order (length farm) o j Po) by lia. }
    assert (Pc : Permutation (combine ts r) (combine farm fs)).
    { rewrite Er. unfold ts. rewrite combine_gather; [|exact Lf|intros q Hq; now apply (perm_in (length farm) o)].
      apply Permutation_trans with (map (fun q => nth q (combine farm fs) (dT, dF)) (seq 0 (length farm))).
      - apply Permutation_map. exact Po.
      - replace (length farm) with (length (combine farm fs)) by (rewrite combine_length; lia). 
        assert (G : map (fun q => nth q (combine farm fs) (dT, dF)) (seq 0 (length (combine farm fs))) = combine farm fs).
        { apply (list_eq_nth (dT, dF)); [rewrite map_length, seq_length; reflexivity|]. intros q Hq. rewrite map_length, seq_length in Hq.
          rewrite (nth_indep _ (dT, dF) ((fun q => nth q (combine farm fs) (dT, dF)) 0%nat)) by (rewrite map_length, seq_length; exact Hq).
          rewrite (map_nth (fun q => nth q (combine farm fs) (dT, dF))). now rewrite seq_nth by exact Hq. }
        rewrite G. apply Permutation_refl. }
    apply X_point; [|destruct Hm as [(H & _)|H]; [now left|now right]].
    intros m Hin. rewrite <- (wake_delta_perm (sm_s m) _ _ (Permutation_map (fun tf => sm_c m (fst tf) (snd tf) (hub (nth i farm dT))) Pc)).
    rewrite <- (firstn_skipn k (combine ts r)) at 2. rewrite map_app. symmetry. apply wake_delta_app_none.
    apply Forall_map. apply Forall_forall. intros [t f] Hx. cbn [fst snd].
    apply (Hd m Hin). apply (In_nth _ _ (dT, dF)) in Hx. destruct Hx as (q & Hq & Eq).
    rewrite skipn_length, combine_length in Hq.
    assert (En : nth q (skipn k (combine ts r)) (dT, dF) = nth (k + q) (combine ts r) (dT, dF)).
    { rewrite <- (firstn_skipn k (combine ts r)) at 2. rewrite app_nth2 by (rewrite firstn_length, combine_length; lia).
      f_equal. rewrite firstn_length, combine_length. lia. }
    rewrite En, combine_nth in Eq by lia. injection Eq as Eq _. subst t.
    rewrite <- Et. destruct (Nat.eq_dec q 0) as [->|Hq0]; [rewrite Nat.add_0_r; destruct (total (key (nth k ts dT)) (key (nth k ts dT))); assumption|].
    unfold ts. rewrite !nth_gather by lia.
    pose proof (argsort_spec K leb total trans (map key farm) (key dT)) as (_ & HS).
    specialize (HS k (k + q)%nat). rewrite map_length in HS. specialize (HS ltac:(lia) ltac:(lia)).
    change (argsort leb (map key farm)) with o in HS. rewrite !(map_nth key) in HS. exact HS.
  Qed.
End Hub.

(** two models that look at the ambient value *)
Lemma prod_point_rprod amb ds : prod_point None None amb ds = amb * rprod ds.
Proof.
  unfold prod_point. revert amb. induction ds as [|d ds IH]; intros a; cbn [fold_left rprod]; [lra|]. rewrite IH. unfold prod_final, clamp. ring.
Qed.
Lemma prod_farm_sum amb ds : prod_farm None None amb ds = amb * (1 + rsum (map (fun d => d - 1) ds)).
Proof.
  unfold prod_farm. assert (G : forall w, fold_left (fun w d => w + prod_final None None amb d) ds w = w + amb * rsum (map (fun d => d - 1) ds)).
  { induction ds as [|d ds IH]; intros w; cbn [fold_left map]; [unfold rsum; cbn; lra|].
    rewrite IH. unfold prod_final, clamp. change (rsum ((d - 1) :: map (fun d => d - 1) ds)) with ((d - 1) + rsum (map (fun d => d - 1) ds)). ring. }
  rewrite G. ring.
Qed.
