From Verif Require Import Base RBase Order_Model Order_Spec Order_Proofs FarmWakes_Model Superp_Model Superp_Proofs PointWakes_Model WsScale_Spec.
Local Open Scope R_scope.

(** two calculations step by step *)
Section Two.
  Context {T F D W T' F' D' W' : Type}.
  Variables (g : T -> T') (RF : F -> F' -> Prop) (RW : W -> W' -> Prop).
  Variables (amb : T -> W) (ev : T -> W -> F) (amb' : T' -> W') (ev' : T' -> W' -> F').
  Hypothesis Hamb : forall t, RW (amb t) (amb' (g t)).
  Hypothesis Hev : forall t x x', RW x x' -> RF (ev t x) (ev' (g t) x').
  Definition step_rel (RD : D -> D' -> Prop) (w : @wmodel T F D W) (w' : @wmodel T' F' D' W') : Prop :=
    w_down w' = w_down w /\ (forall t, RD (w_new w t) (w_new w' (g t))) /\
    (forall s f f' t d d', RF f f' -> RD d d' -> RD (w_contrib w s f t d) (w_contrib w' (g s) f' (g t) d')) /\
    (forall t x x' d d', RW x x' -> RD d d' -> RW (w_add w t x d) (w_add w' (g t) x' d')).
  Definition wrel w w' := exists RD, step_rel RD w w'.
  Definition crel0 (c : @cell T F D W) (c' : @cell T' F' D' W') := c_t c' = g (c_t c) /\ RF (c_f c) (c_f c') /\ RW (c_w c) (c_w c').
  Definition crel (RD : D -> D' -> Prop) c c' := crel0 c c' /\ RD (c_d c) (c_d c').
  Lemma eval_rel RD w w' c c' : step_rel RD w w' -> crel RD c c' -> crel RD (eval_cell ev w c) (eval_cell ev' w' c').
  Proof.
    intros (A & B & C & E) ((X & Y & Z) & V). unfold eval_cell. rewrite X. repeat split; cbn; auto.
  Qed.
  Lemma contrib_rel RD w w' s s' c c' : step_rel RD w w' -> crel RD s s' -> crel RD c c' -> crel RD (contrib_cell w s c) (contrib_cell w' s' c').
  Proof.
    intros (A & B & C & E) ((X & Y & Z) & V) ((X' & Y' & Z') & V'). unfold contrib_cell. rewrite X, X'. repeat split; cbn; auto.
  Qed.
  Lemma map_contrib_rel RD w w' s s' k k' : step_rel RD w w' -> crel RD s s' -> Forall2 (crel RD) k k' -> Forall2 (crel RD) (map (contrib_cell w s) k) (map (contrib_cell w' s') k').
  Proof. intros H S Q. induction Q; cbn; constructor; auto. now apply contrib_rel. Qed.
  Lemma tail_rel RD w w' : step_rel RD w w' -> forall n k k', Forall2 (crel RD) k k' -> Forall2 (crel RD) (down_tail ev w k n) (down_tail ev' w' k' n).
  Proof.
    intros H n. induction n as [|n IH]; intros k k' Q; [exact Q|]. destruct Q as [|c c' k k' X Q]; [constructor|]. cbn.
    pose proof (eval_rel RD w w' c c' H X) as E. constructor; [exact E|]. apply IH. now apply map_contrib_rel.
  Qed.
  Lemma F2_length {A B} (Q : A -> B -> Prop) k k' : Forall2 Q k k' -> length k = length k'.
  Proof. induction 1; cbn; auto. Qed.
  Lemma pass_rel0 RD w w' : step_rel RD w w' -> forall k k', Forall2 (crel RD) k k' -> Forall2 (crel RD) (down_pass ev w k) (down_pass ev' w' k').
  Proof.
    intros H k k' Q. destruct Q as [|c c' k k' X Q]; [constructor|]. cbn. constructor; [exact X|]. rewrite (F2_length _ _ _ Q). apply tail_rel; [exact H|]. now apply map_contrib_rel.
  Qed.
  Lemma F2_rev {A B} (Q : A -> B -> Prop) k k' : Forall2 Q k k' -> Forall2 Q (rev k) (rev k').
  Proof. induction 1; cbn; [constructor|]. apply Forall2_app; auto. Qed.
  Lemma pass_rel w w' : wrel w w' -> forall k k', Forall2 crel0 k k' -> Forall2 crel0 (pass ev w k) (pass ev' w' k').
  Proof.
    intros (RD & H) k k' Q. assert (Q' : Forall2 (crel RD) (map (fresh w) k) (map (fresh w') k')).
    { induction Q as [|c c' k k' (X & Y & Z) Q IH]; cbn; constructor; auto. destruct H as (_ & H & _). unfold fresh. rewrite X. repeat split; cbn; auto. }
    assert (weak : forall a b, Forall2 (crel RD) a b -> Forall2 crel0 a b) by (intros a b; induction 1 as [|? ? ? ? (? & _)]; constructor; auto).
    unfold pass. assert (D0 := proj1 H). rewrite D0. destruct (w_down w); apply weak.
    - apply pass_rel0; [exact H|exact Q'].
    - unfold up_pass. apply F2_rev, pass_rel0; [exact H|now apply F2_rev].
  Qed.
  Definition same_result {A B} (Q : A -> B -> Prop) (r : result A) (r' : result B) : Prop :=
    match r, r' with Ok a, Ok b => Q a b | Err e, Err e' => e = e' | _, _ => False end.
  Lemma run_rel ws ws' : Forall2 wrel ws ws' -> forall sd su k k', Forall2 crel0 k k' -> same_result (Forall2 crel0) (run_models ev ws sd su k) (run_models ev' ws' sd su k').
  Proof.
    induction 1 as [|w w' ws ws' H Hs IH]; intros sd su k k' Q; [exact Q|]. cbn. assert (E : w_down w' = w_down w) by now destruct H as (RD & E & _). rewrite E.
    destruct ((sd || w_down w) && (su || negb (w_down w)))%bool; [reflexivity|]. apply IH. now apply pass_rel.
  Qed.
  Lemma down_rel d0 d0' ws ws' ts : Forall2 wrel ws ws' -> same_result (Forall2 RF) (calc_downwind amb ev d0 ws ts) (calc_downwind amb' ev' d0' ws' (map g ts)).
  Proof.
    intros H. unfold calc_downwind. assert (Q : Forall2 crel0 (start amb ev (fun _ => d0) ts) (start amb' ev' (fun _ => d0') (map g ts))).
    { unfold start. induction ts as [|t ts IH]; cbn; constructor; auto. repeat split; cbn; auto. }
    pose proof (run_rel ws ws' H false false _ _ Q) as X. destruct (run_models ev ws _ _ _) as [k|e], (run_models ev' ws' _ _ _) as [k'|e']; cbn in *; try contradiction; [|exact X].
    clear - X. induction X as [|c c' k k' (_ & Y & _) X IH]; cbn; constructor; auto.
  Qed.
  Lemma gather_rel RD w w' : step_rel RD w w' -> forall srcs srcs', Forall2 (fun a b => fst b = g (fst a) /\ RF (snd a) (snd b)) srcs srcs' ->
    forall j oi t d d', RD d d' -> RD (gather_contribs w j oi srcs t d) (gather_contribs w' j oi srcs' (g t) d').
  Proof.
    intros H srcs srcs' Q. induction Q as [|(s, f) (s', f') srcs srcs' (X & Y) Q IH]; intros j oi t d d' V; [exact V|]. cbn in *. subst s'. apply IH.
    destruct (oi =? j); [exact V|]. now apply H.
  Qed.
  Lemma all_rel ws ws' : Forall2 wrel ws ws' -> forall srcs srcs', Forall2 (fun a b => fst b = g (fst a) /\ RF (snd a) (snd b)) srcs srcs' ->
    forall j t x x', RW x x' -> RW (all_models ws j srcs t x) (all_models ws' j srcs' (g t) x').
  Proof.
    induction 1 as [|w w' ws ws' (RD & H) Hs IH]; intros srcs srcs' Q j t x x' V; [exact V|]. cbn. apply IH; [exact Q|].
    pose proof (gather_rel RD w w' H srcs srcs' Q j 0 t _ _ (proj1 (proj2 H) t)) as X. now apply H.
  Qed.
  Lemma sweeps_rel ws ws' ts k : Forall2 wrel ws ws' -> Forall2 RF (sweeps amb ev ws ts k) (sweeps amb' ev' ws' (map g ts) k).
  Proof.
    intros H. induction k as [|k IH]; cbn.
    - clear - Hamb Hev. induction ts; cbn; constructor; auto.
    - unfold sweep. assert (Q : Forall2 (fun a b => fst b = g (fst a) /\ RF (snd a) (snd b)) (combine ts (sweeps amb ev ws ts k)) (combine (map g ts) (sweeps amb' ev' ws' (map g ts) k))).
      { revert IH. generalize (sweeps amb ev ws ts k) (sweeps amb' ev' ws' (map g ts) k). clear. induction ts as [|t ts IH]; intros a b Q; cbn; [constructor|]. destruct Q; constructor; cbn; auto. }
      revert Q. generalize (combine ts (sweeps amb ev ws ts k)) (combine (map g ts) (sweeps amb' ev' ws' (map g ts) k)). intros a b Q. generalize 0%nat.
      clear IH. induction ts as [|t ts IH]; intros j; cbn; constructor; [|apply IH]. apply Hev. now apply all_rel.
  Qed.
  Lemma F2_nth {A B} (Q : A -> B -> Prop) d d' k k' i : Q d d' -> Forall2 Q k k' -> Q (nth i k d) (nth i k' d').
  Proof. intros Hd H. revert i. induction H; intros [|i]; cbn; auto. Qed.
  Lemma farm_rel {K} leb (key : T -> K) (key' : T' -> K) dT dF dF' d0 d0' ws ws' farm : (forall t, key' (g t) = key t) -> RF dF dF' -> Forall2 wrel ws ws' ->
    same_result (Forall2 RF) (calc_farm amb ev leb key dT dF d0 ws farm) (calc_farm amb' ev' leb key' (g dT) dF' d0' ws' (map g farm)).
  Proof.
    intros Hk Hd H. unfold calc_farm. assert (O : farm_order leb key' (map g farm) = farm_order leb key farm).
    { unfold farm_order. rewrite map_map. f_equal. apply map_ext. exact Hk. }
    rewrite O. assert (G : gather (g dT) (map g farm) (farm_order leb key farm) = map g (gather dT farm (farm_order leb key farm))).
    { unfold gather. rewrite map_map. apply map_ext. intros i. apply map_nth. }
    rewrite G. pose proof (down_rel d0 d0' ws ws' (gather dT farm (farm_order leb key farm)) H) as X.
    destruct (calc_downwind amb ev d0 ws _) as [k|e], (calc_downwind amb' ev' d0' ws' _) as [k'|e']; cbn in *; try contradiction; [|exact X].
    generalize (invert (farm_order leb key farm)). intros o. unfold gather. induction o as [|i o IH]; cbn; constructor; auto. now apply F2_nth.
  Qed.
End Two.

(** powers *)
Lemma npow_mult a b p : 0 < a -> 0 <= b -> npow (a * b) p = npow a p * npow b p.
Proof.
  intros A B. unfold npow. destruct (Reqb b 0) eqn:E.
  - apply Reqb_true in E. subst b. rewrite Rmult_0_r. assert (X : Reqb 0 0 = true) by now apply Reqb_true. rewrite X. ring.
  - apply Reqb_false in E. assert (X : Reqb (a * b) 0 = false) by (apply Reqb_false; nra). assert (Y : Reqb a 0 = false) by (apply Reqb_false; lra). rewrite X, Y. symmetry. apply Rpower_mult_distr; lra.
Qed.
Lemma npow_pos a p : 0 < a -> 0 < npow a p.
Proof. intros A. unfold npow. assert (Y : Reqb a 0 = false) by (apply Reqb_false; lra). rewrite Y. apply exp_pos. Qed.

(** how the accumulated value of a superposition changes *)
Definition factor (l : R) (s : superp) : R :=
  match s with WSLinear | WSMax => l | WSQuadratic => l * l | WSPow p => npow l p | _ => 1 end.
Definition has_sign (s : superp) : Prop := match s with WSLinear | WSLinearLocal => False | _ => True end.
Definition drel (l : R) (s : superp) (d d' : R) : Prop := d' = factor l s * d /\ (has_sign s -> 0 <= d).
Lemma add_rel l s d d' c : 0 < l -> is_ws s = true -> drel l s d d' -> drel l s (add_wake s d c) (add_wake s d' (faster l c)).
Proof.
  intros L S (E & N). subst d'. destruct c as [(sc, r)|]; [|split; [reflexivity|exact N]]. unfold drel.
  destruct s; try discriminate; cbn [add_wake faster factor has_sign] in *; try (specialize (N I)).
  - split; [ring|easy].
  - split; [ring|easy].
  - split; [ring|intros _; nra].
  - split; [ring|intros _; nra].
  - rewrite Rmult_assoc, Rabs_mult, (Rabs_pos_eq l) by lra. split; [|intros _; pose proof (Rmax_l d (Rabs (sc * r))); lra].
    now rewrite RmaxRmult by lra.
  - split; [now rewrite !Rmult_1_l|intros _; pose proof (Rmax_l d (Rabs r)); lra].
  - rewrite Rmult_assoc, Rabs_mult, (Rabs_pos_eq l) by lra. rewrite npow_mult by (try apply Rabs_pos; lra). split; [ring|intros _]. pose proof (npow_nonneg (Rabs (sc * r)) p (Rabs_pos _)). lra.
  - split; [ring|intros _]. pose proof (npow_nonneg (Rabs r) p (Rabs_pos _)). lra.
Qed.
Lemma Rmin_scale l a b : 0 <= l -> Rmin (l * a) (l * b) = l * Rmin a b.
Proof. intros H. unfold Rmin. destruct (Rle_dec a b), (Rle_dec (l * a) (l * b)); nra. Qed.
Lemma clamp_scale l low high amb w : 0 < l -> clamp (flimit l low) (flimit l high) (l * amb) (l * w) = l * clamp low high amb w.
Proof.
  intros L. unfold clamp. destruct low as [a|], high as [b|]; cbn; rewrite <- ?Rmult_minus_distr_l; rewrite ?RmaxRmult by lra; rewrite ?Rmin_scale by lra; reflexivity.
Qed.
Lemma final_rel l s q q' low high amb d d' : 0 < l -> is_ws s = true -> pow_pos s -> drel l s d d' ->
  final_delta s q' (flimit l low) (flimit l high) (l * amb) d' = l * final_delta s q low high amb d.
Proof.
  intros L S Pp (E & N). unfold final_delta. rewrite S. rewrite <- clamp_scale by exact L. f_equal. subst d'.
  destruct s; try discriminate; cbn [raw_final factor has_sign pow_pos] in *; try (specialize (N I)); try ring.
  - rewrite sqrt_mult by nra. rewrite sqrt_square by lra. ring.
  - rewrite Rmult_1_l. ring.
  - rewrite npow_mult by (try apply npow_pos; lra). rewrite npow_inv by lra. ring.
  - rewrite Rmult_1_l. ring.
Qed.
Lemma drel_0 l s : drel l s 0 0.
Proof. split; [ring|intros _; lra]. Qed.
Lemma wake_rel l s cs : 0 < l -> is_ws s = true -> drel l s (wake_delta s cs) (wake_delta s (map (faster l) cs)).
Proof.
  intros L S. unfold wake_delta. assert (G : forall d d', drel l s d d' -> drel l s (fold_left (add_wake s) cs d) (fold_left (add_wake s) (map (faster l) cs) d')).
  { induction cs as [|c cs IH]; intros d d' H; [exact H|]. cbn. apply IH. now apply add_rel. }
  apply G, drel_0.
Qed.
Lemma models_rel {T F P T' F'} l (g : T -> T') (RF : F -> F' -> Prop) (amb amb' : P -> R) hub hub' (ms : list (swake T F P)) (ms' : list (swake T' F' P)) :
  0 < l -> (forall p, amb' p = l * amb p) -> (forall t, hub' (g t) = hub t) -> Forall2 (same_deficits l g RF) ms ms' ->
  Forall2 (wrel g RF (fun x x' => x' = l * x)) (map (as_wmodel amb hub) ms) (map (as_wmodel amb' hub') ms').
Proof.
  intros L A Hh M. induction M as [|m m' ms ms' (S & Pp & E1 & E2 & E3 & C) M IH]; cbn [map]; constructor; [|exact IH]. exists (drel l (sm_s m)).
  split; [reflexivity|]. split; [intros; apply drel_0|]. split.
  - intros s f f' t d d' Hf Hd. cbn. rewrite E1, Hh, (C _ _ _ _ Hf). now apply add_rel.
  - intros t x x' d d' -> Hd. cbn. rewrite E1, E2, E3, Hh, A, Rmult_plus_distr_l. f_equal. now apply final_rel.
Qed.
Lemma point_rel {T F P T' F'} l (g : T -> T') (RF : F -> F' -> Prop) (amb amb' : P -> R) (ms : list (swake T F P)) (ms' : list (swake T' F' P)) srcs srcs' p :
  0 < l -> (forall p, amb' p = l * amb p) -> Forall2 (same_deficits l g RF) ms ms' -> Forall2 (fun a b => fst b = g (fst a) /\ RF (snd a) (snd b)) srcs srcs' ->
  point_value amb' ms' srcs' p = l * point_value amb ms srcs p.
Proof.
  intros L A M Q. unfold point_value. rewrite A. generalize (amb p). induction M as [|m m' ms ms' (S & Pp & E1 & E2 & E3 & C) M IH]; intros x; [reflexivity|]. cbn [fold_left].
  rewrite <- IH. f_equal. rewrite Rmult_plus_distr_l. f_equal. unfold final_wake. rewrite E1, E2, E3. apply final_rel; auto.
  assert (X : map (fun tf => sm_c m' (fst tf) (snd tf) p) srcs' = map (faster l) (map (fun tf => sm_c m (fst tf) (snd tf) p) srcs)).
  { clear - Q C. induction Q as [|a b srcs srcs' (X & Y) Q IH]; [reflexivity|]. cbn. rewrite IH, X. f_equal. now apply C. }
  rewrite X. now apply wake_rel.
Qed.
