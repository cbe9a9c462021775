(** Turbines without effect on a group of others can be left out when calculating that group. *)
From Coq Require Import Sorted Permutation.
From Verif Require Import Base Order_Model Order_Spec Order_Proofs FarmWakes_Model FarmWakes_Spec FarmWakes_Proofs FarmIter_Proofs Parked_Spec Apart_Spec.

Section Apart.
  Context {T F D W : Type}.
  Variable amb : T -> W.
  Variable ev : T -> W -> F.
  Variable off : T -> bool.
  Notation wmodel := (@wmodel T F D W).
  Notation cell := (@cell T F D W).
  Notation consistent := (@consistent T F D W ev).

  Definition vis (l : list cell) : list cell := filter (fun c => negb (off (c_t c))) l.
  Definition quiet (w : wmodel) : Prop := forall t x t' d, off t = true -> off t' = false -> w_contrib w t (ev t x) t' d = d.
  Definition idle (w : wmodel) : Prop := forall t x, w_add w t x (w_new w t) = x.

  Lemma vis_map (f : cell -> cell) l : (forall c, c_t (f c) = c_t c) -> vis (map f l) = map f (vis l).
  Proof. intros H. unfold vis. induction l as [|c l IH]; [reflexivity|]. cbn [map filter]. rewrite H. destruct (off (c_t c)); cbn [negb map]; [exact IH|now rewrite IH]. Qed.
  Lemma contrib_off w s l : quiet w -> consistent s -> off (c_t s) = true -> vis (map (contrib_cell w s) l) = vis l.
  Proof.
    intros Q C O. rewrite vis_map by reflexivity. rewrite <- (map_id (vis l)) at 2. apply map_ext_in. intros c I. apply filter_In in I. destruct I as [_ I].
    unfold contrib_cell. rewrite C, Q by (auto; now destruct (off (c_t c))). now destruct c.
  Qed.
  Lemma eval_consistent w c : consistent (eval_cell ev w c).
  Proof. reflexivity. Qed.
  Lemma tail_vis w : quiet w -> forall n l, length l = n -> vis (down_tail ev w l n) = down_tail ev w (vis l) (length (vis l)).
  Proof.
    intros Q. induction n as [|n IH]; intros [|c l] L; try discriminate; [reflexivity|]. cbn [length] in L.
    assert (L' : length l = n) by lia. cbn [down_tail].
    change (vis (?a :: ?b)) with (if negb (off (c_t a)) then a :: vis b else vis b). cbn [c_t eval_cell].
    destruct (off (c_t c)) eqn:O; cbn [negb].
    - rewrite IH by now rewrite map_length. rewrite contrib_off; [reflexivity|exact Q|apply eval_consistent|exact O].
    - cbn [length down_tail]. f_equal. rewrite IH by now rewrite map_length. rewrite vis_map by reflexivity. now rewrite map_length.
  Qed.
  Lemma tail_pass w l : idle w -> Forall consistent l -> down_tail ev w (map (fresh w) l) (length (map (fresh w) l)) = down_pass ev w (map (fresh w) l).
  Proof.
    intros N H. destruct l as [|c l]; [reflexivity|]. inversion H as [|? ? H1 H2]; subst. cbn [map length down_tail down_pass].
    assert (E : eval_cell ev w (fresh w c) = fresh w c) by (unfold eval_cell, fresh; cbn; now rewrite N, <- H1). rewrite E. now rewrite map_length.
  Qed.
  Lemma vis_forall (P : cell -> Prop) l : Forall P l -> Forall P (vis l).
  Proof. intros H. apply Forall_forall. intros c I. apply filter_In in I. rewrite Forall_forall in H. now apply H. Qed.
  Lemma pass_vis0 w l : quiet w -> idle w -> Forall consistent l -> vis (down_pass ev w (map (fresh w) l)) = down_pass ev w (map (fresh w) (vis l)).
  Proof.
    intros Q N H. rewrite <- (tail_pass w l N H). rewrite tail_vis by (auto; now rewrite map_length). rewrite vis_map by reflexivity.
    apply tail_pass; [exact N|now apply vis_forall].
  Qed.
  Lemma vis_rev l : vis (rev l) = rev (vis l).
  Proof.
    unfold vis. induction l as [|c l IH]; [reflexivity|]. cbn [rev]. rewrite filter_app, IH. cbn [filter]. destruct (negb _); [reflexivity|]. now rewrite app_nil_r.
  Qed.
  Lemma pass_vis w l : quiet w -> idle w -> Forall consistent l -> vis (pass ev w l) = pass ev w (vis l).
  Proof.
    intros Q N H. unfold pass. destruct (w_down w); [now apply pass_vis0|]. unfold up_pass. rewrite vis_rev, <- !map_rev, pass_vis0; auto using Forall_rev. now rewrite vis_rev.
  Qed.
  Lemma tail_consistent w : forall n l, length l = n -> Forall consistent (down_tail ev w l n).
  Proof.
    induction n as [|n IH]; intros [|c l] L; try discriminate; [constructor|]. cbn [length] in L. cbn [down_tail]. constructor; [apply eval_consistent|]. apply IH. rewrite map_length. lia.
  Qed.
  Lemma pass_consistent w l : Forall consistent l -> Forall consistent (pass ev w l).
  Proof.
    assert (G : forall l, Forall consistent l -> Forall consistent (down_pass ev w (map (fresh w) l))).
    { intros [|c q] H; [constructor|]. inversion H as [|? ? H1 H2]; subst. cbn [map down_pass]. constructor; [exact H1|]. apply tail_consistent. now rewrite map_length. }
    intros H. unfold pass. destruct (w_down w); [now apply G|]. unfold up_pass. rewrite <- map_rev. apply Forall_rev, G, Forall_rev, H.
  Qed.
  Lemma run_vis ws : Forall quiet ws -> Forall idle ws -> forall sd su l, Forall consistent l ->
    run_models ev ws sd su (vis l) = (do r <- run_models ev ws sd su l; Ok (vis r)).
  Proof.
    induction ws as [|w ws IH]; intros Q N sd su l H; [reflexivity|]. inversion Q as [|? ? Q1 Q2]; inversion N as [|? ? N1 N2]; subst. cbn [run_models].
    destruct ((sd || w_down w) && (su || negb (w_down w))); [reflexivity|]. rewrite <- pass_vis by assumption. apply IH; auto using pass_consistent.
  Qed.
  Lemma run_t ws : forall sd su (l r : list cell), run_models ev ws sd su l = Ok r -> map c_t r = map c_t l.
  Proof.
    induction ws as [|w ws IH]; intros sd su l r E; cbn [run_models] in E; [congruence|]. destruct (_ && _); [discriminate|]. apply IH in E. rewrite E. clear.
    assert (G : forall n l, map c_t (down_tail ev w l n) = map c_t l).
    { induction n as [|n IH]; intros [|c l0]; try reflexivity. cbn [down_tail map]. f_equal. rewrite IH, map_map. now apply map_ext. }
    assert (P : forall l, map c_t (down_pass ev w (map (fresh w) l)) = map c_t l).
    { intros [|c q]; [reflexivity|]. cbn [map down_pass]. f_equal. rewrite G, !map_map. now apply map_ext. }
    unfold pass. destruct (w_down w); [apply P|]. unfold up_pass. rewrite <- map_rev, map_rev, P. rewrite <- (map_rev c_t), rev_involutive. reflexivity.
  Qed.
  Lemma apart_downwind (d0 : D) (ws : list wmodel) ts : unreached ev off ws -> neutral ws ->
    calc_downwind amb ev d0 ws (without off ts) = (do r <- calc_downwind amb ev d0 ws ts; Ok (others off ts r)).
  Proof.
    intros Q N. unfold calc_downwind.
    assert (E : @start T F D W amb ev (fun _ => d0) (without off ts) = vis (start amb ev (fun _ => d0) ts)).
    { unfold without, start, vis. clear. induction ts as [|t ts IH]; [reflexivity|]. cbn. destruct (off t); cbn; [exact IH|now rewrite IH]. }
    rewrite E, run_vis.
    - destruct (run_models ev ws false false (start amb ev (fun _ => d0) ts)) as [r|e] eqn:R; [|reflexivity]. cbn [bind]. f_equal. apply run_t in R.
      assert (Et : ts = map c_t r) by (rewrite R; unfold start; rewrite map_map; cbn; now rewrite map_id).
      rewrite Et. unfold others, vis. clear. induction r as [|c r IH]; [reflexivity|]. cbn [filter map combine fst]. destruct (off (c_t c)); cbn [negb map snd]; [exact IH|now rewrite IH].
    - apply Forall_forall. intros w I t x t' d O O'. now apply Q.
    - apply Forall_forall. intros w I t x. now apply N.
    - apply Forall_forall. intros c I. unfold start in I. apply in_map_iff in I. destruct I as (t & <- & _). reflexivity.
  Qed.

  (** *** iterative *)
  Definition on_p (p : T * F) : bool := negb (off (fst p)).
  Lemma deltas_on (w : wmodel) l t d : (forall s, In s l -> off (fst s) = true -> forall d', w_contrib w (fst s) (snd s) t d' = d') ->
    deltas w (filter on_p l) t d = deltas w l t d.
  Proof.
    revert d. induction l as [|s l IH]; intros d H; [reflexivity|]. cbn [filter]. unfold on_p at 1. destruct (off (fst s)) eqn:O; cbn [negb].
    - rewrite IH by (intros; apply H; auto; now right). unfold deltas. cbn [fold_left]. now rewrite (H s (or_introl eq_refl) O).
    - unfold deltas in *. cbn [fold_left]. apply IH. intros; apply H; auto; now right.
  Qed.
  Lemma gather_after (w : wmodel) tj j : forall srcs oi dj, j < oi -> gather_contribs w j oi srcs tj dj = deltas w srcs tj dj.
  Proof.
    induction srcs as [|[t f] srcs IH]; intros oi dj Hj; cbn; [reflexivity|]. destruct (Nat.eqb_spec oi j); [lia|]. apply IH. lia.
  Qed.
  Lemma gather_around (w : wmodel) tj j pre x post : forall oi dj, oi + length pre = j ->
    gather_contribs w j oi (pre ++ x :: post) tj dj = deltas w post tj (deltas w pre tj dj).
  Proof.
    induction pre as [|[t f] pre IH]; intros oi dj Hj; cbn in *.
    - destruct x as [t f]. destruct (Nat.eqb_spec oi j); [|lia]. apply gather_after. lia.
    - destruct (Nat.eqb_spec oi j); [lia|]. unfold deltas in *. cbn. apply IH. lia.
  Qed.
  Lemma models_around (ws : list wmodel) tj pre x post : forall wj, off (fst x) = false ->
    (forall w, In w ws -> forall s, In s (pre ++ x :: post) -> off (fst s) = true -> forall d', w_contrib w (fst s) (snd s) tj d' = d') ->
    all_models ws (length (filter on_p pre)) (filter on_p (pre ++ x :: post)) tj wj = all_models ws (length pre) (pre ++ x :: post) tj wj.
  Proof.
    induction ws as [|w ws IH]; intros wj O H; [reflexivity|]. cbn [all_models]. rewrite IH by (auto; intros; eapply H; eauto; now right). f_equal. f_equal.
    rewrite filter_app. cbn [filter]. unfold on_p at 3. rewrite O. cbn [negb]. rewrite !gather_around by (cbn; lia).
    rewrite deltas_on, deltas_on; [reflexivity| |]; intros s I; apply (H w (or_introl eq_refl)); apply in_app_iff; cbn; tauto.
  Qed.
  Lemma sweep_on (ws : list wmodel) srcs ts : forall pre post, length post = length ts -> srcs = pre ++ post -> map fst post = ts ->
    (forall w, In w ws -> forall s, In s srcs -> off (fst s) = true -> forall t' d', off t' = false -> w_contrib w (fst s) (snd s) t' d' = d') ->
    sweep_from amb ev ws (filter on_p srcs) (length (filter on_p pre)) (without off ts) = others off ts (sweep_from amb ev ws srcs (length pre) ts).
  Proof.
    induction ts as [|t ts IH]; intros pre [|x post] L E M H; try discriminate; [reflexivity|]. cbn [map] in M. injection M as M1 M2.
    assert (E' : srcs = (pre ++ [x]) ++ post) by (now rewrite <- app_assoc). specialize (IH (pre ++ [x]) post ltac:(cbn in L; lia) E' M2 H).
    unfold without, others in *. cbn [filter combine sweep_from fst]. rewrite app_length in IH. cbn [length] in IH. rewrite filter_app, app_length in IH. cbn [filter] in IH.
    unfold on_p in IH at 3. rewrite M1 in IH. destruct (off t) eqn:O; cbn [negb] in *.
    - cbn [length] in IH. rewrite Nat.add_0_r, Nat.add_1_r in IH. exact IH.
    - cbn [sweep_from map snd]. cbn [length] in IH. rewrite !Nat.add_1_r in IH. f_equal; [|exact IH]. f_equal. rewrite E. apply models_around; [congruence|]. intros w I s Is Os d'. apply H; [exact I|now rewrite E|exact Os|exact O].
  Qed.
  Lemma others_combine ts (fs : list F) : length fs = length ts -> combine (without off ts) (others off ts fs) = filter on_p (combine ts fs).
  Proof.
    revert fs. induction ts as [|t ts IH]; intros [|f fs] L; try discriminate; [reflexivity|]. unfold without, others, on_p in *. cbn [combine filter fst]. destruct (off t); cbn [negb]; [apply IH; cbn in L; lia|].
    cbn [map combine snd]. f_equal. apply IH. cbn in L; lia.
  Qed.
  Lemma sweeps_ev (ws : list wmodel) ts k : forall s, In s (combine ts (sweeps amb ev ws ts k)) -> exists x, snd s = ev (fst s) x.
  Proof.
    assert (G : forall srcs ts j s, In s (combine ts (sweep_from amb ev ws srcs j ts)) -> exists x, snd s = ev (fst s) x).
    { induction ts0 as [|t ts0 IH]; intros j s I; cbn in I; [easy|]. destruct I as [<-|I]; [cbn; eauto|]. eapply IH, I. }
    destruct k as [|k]; cbn [sweeps]; [|apply G]. induction ts as [|t ts IH]; intros s I; cbn in I; [easy|]. destruct I as [<-|I]; [cbn; eauto|]. now apply IH.
  Qed.
  Lemma apart_sweeps (ws : list wmodel) ts k : unreached ev off ws -> sweeps amb ev ws (without off ts) k = others off ts (sweeps amb ev ws ts k).
  Proof.
    intros Q. induction k as [|k IH].
    - cbn [sweeps]. unfold without, others. clear. induction ts as [|t ts IH]; [reflexivity|]. cbn. destruct (off t); cbn; [exact IH|now rewrite IH].
    - cbn [sweeps]. rewrite IH. unfold sweep. rewrite others_combine by apply sweeps_length.
      apply (sweep_on ws (combine ts (sweeps amb ev ws ts k)) ts [] (combine ts (sweeps amb ev ws ts k))); [rewrite combine_length, sweeps_length; lia|reflexivity| |].
      + generalize (sweeps amb ev ws ts k), (sweeps_length amb ev ws ts k). clear. induction ts as [|t ts IH]; intros [|f l] L; try discriminate; [reflexivity|]. cbn. f_equal. apply IH. now injection L.
      + intros w I s Is O t' d' O'. destruct (sweeps_ev ws ts k s Is) as (x & ->). now apply Q.
  Qed.
End Apart.

Section Farm.
  Context {T F D W K : Type}.
  Variable amb : T -> W.
  Variable ev : T -> W -> F.
  Variable leb : K -> K -> bool.
  Variable key : T -> K.
  Variables (dT : T) (dF : F) (d0 : D).
  Hypothesis total : forall a b, leb a b = true \/ leb b a = true.
  Hypothesis trans : forall a b c, leb a b = true -> leb b c = true -> leb a c = true.
  Variable off : T -> bool.
  Notation lt := (fun a b : T => leb (key b) (key a) = false).

  Lemma sorted_filter (P : T -> bool) l : StronglySorted lt l -> StronglySorted lt (filter P l).
  Proof.
    induction 1 as [|a l S IH H]; [constructor|]. cbn [filter]. destruct (P a); [|exact IH]. constructor; [exact IH|]. apply Forall_forall. intros x I. apply filter_In in I. rewrite Forall_forall in H. now apply H.
  Qed.
  Lemma perm_filter (P : T -> bool) l l' : Permutation l l' -> Permutation (filter P l) (filter P l').
  Proof.
    induction 1; cbn; auto; [destruct (P x); auto|destruct (P x), (P y); auto; constructor|eauto using Permutation_trans].
  Qed.
  Lemma sorted_distinct l : StronglySorted lt l -> distinct leb key dT l.
  Proof.
    intros H. assert (G : forall i j, i < j -> j < length l -> leb (key (nth j l dT)) (key (nth i l dT)) = false).
    { induction H as [|a l S IH A]; intros i j Hij Hj; cbn in Hj; [lia|]. destruct j as [|j]; [lia|]. rewrite Forall_forall in A. destruct i as [|i]; cbn [nth]; [apply A, nth_In; lia|apply IH; lia]. }
    intros i j Hi Hj N. destruct (Nat.lt_total i j) as [L|[L|L]]; [right|lia|left]; now apply G.
  Qed.
  Lemma distinct_perm l l' : Permutation l l' -> distinct leb key dT l -> distinct leb key dT l'.
  Proof.
    intros P H. apply (Permutation_nth l l' dT) in P. destruct P as (L & f & B & J & N). intros i j Hi Hj Nij. rewrite L in Hi, Hj.
    rewrite !N by assumption. apply H; [now apply B|now apply B|]. intros E. apply Nij. now apply J.
  Qed.
  Lemma apart_order farm : distinct leb key dT farm ->
    gather dT (without off farm) (farm_order leb key (without off farm)) = without off (gather dT farm (farm_order leb key farm)).
  Proof.
    intros Hd. pose proof (ordered_sorted leb key dT total trans farm Hd) as So.
    assert (Sf : StronglySorted lt (without off (gather dT farm (farm_order leb key farm)))) by now apply sorted_filter.
    assert (P : Permutation (without off (gather dT farm (farm_order leb key farm))) (without off farm)).
    { apply perm_filter. apply gather_perm_farm, farm_perm. }
    apply (strict_unique leb key total).
    - eapply Permutation_trans; [apply gather_perm_farm, farm_perm|apply Permutation_sym, P].
    - apply (ordered_sorted leb key dT total trans). eapply distinct_perm; [exact P|]. now apply sorted_distinct.
    - exact Sf.
  Qed.
  (** farm results belong to their turbines *)
  Lemma farm_pairs (ws : list (@wmodel T F D W)) farm r rs : calc_downwind amb ev d0 ws (gather dT farm (farm_order leb key farm)) = Ok rs ->
    calc_farm amb ev leb key dT dF d0 ws farm = Ok r -> Permutation (combine (gather dT farm (farm_order leb key farm)) rs) (combine farm r) /\ length r = length farm.
  Proof.
    intros E1 E2. unfold calc_farm in E2. rewrite E1 in E2. cbn [bind] in E2. injection E2 as <-.
    pose proof (farm_perm leb key farm) as P. pose proof (perm_length _ _ P) as L. pose proof (calc_length amb ev d0 _ _ _ E1) as Lr. rewrite gather_length in Lr.
    set (o := farm_order leb key farm) in *. assert (Lg : length (gather dF rs (invert o)) = length farm) by (rewrite gather_length, invert_length; lia). split; [|exact Lg].
    assert (C : combine farm (gather dF rs (invert o)) = map (fun i => (nth i farm dT, nth i (gather dF rs (invert o)) dF)) (seq 0 (length farm))).
    { apply (list_eq_nth (dT, dF)); [rewrite combine_length, map_length, seq_length; lia|]. intros i Hi. rewrite combine_length in Hi. rewrite combine_nth by lia.
      rewrite (nth_indep _ (dT, dF) ((fun i => (nth i farm dT, nth i (gather dF rs (invert o)) dF)) 0)) by (rewrite map_length, seq_length; lia).
      rewrite (map_nth (fun i => (nth i farm dT, nth i (gather dF rs (invert o)) dF))), seq_nth by lia. reflexivity. }
    rewrite C. apply Permutation_trans with (map (fun i => (nth i farm dT, nth i (gather dF rs (invert o)) dF)) o); [|apply Permutation_map, P].
    match goal with |- Permutation ?a ?b => assert (a = b) as ->; [|apply Permutation_refl] end.
    apply (list_eq_nth (dT, dF)); [rewrite combine_length, map_length, gather_length; lia|]. intros k Hk. rewrite combine_length, gather_length in Hk. rewrite combine_nth by (rewrite gather_length; lia).
    rewrite (nth_indep (map _ o) (dT, dF) ((fun i => (nth i farm dT, nth i (gather dF rs (invert o)) dF)) 0)) by (rewrite map_length; lia).
    rewrite (map_nth (fun i => (nth i farm dT, nth i (gather dF rs (invert o)) dF))). rewrite nth_gather by lia. f_equal.
    assert (Hi : nth k o 0 < length farm) by (apply (perm_nth_lt (length farm)); auto; lia). rewrite nth_gather by (rewrite invert_length; lia). f_equal. symmetry. apply (invert_order (length farm)); auto. lia.
  Qed.
  Lemma apart_farm (ws : list (@wmodel T F D W)) farm r : unreached ev off ws -> neutral ws -> distinct leb key dT farm ->
    calc_farm amb ev leb key dT dF d0 ws farm = Ok r ->
    exists r', calc_farm amb ev leb key dT dF d0 ws (without off farm) = Ok r' /\ length r' = length (without off farm) /\ length r = length farm
      /\ forall t f, off t = false -> (In (t, f) (combine farm r) <-> In (t, f) (combine (without off farm) r')).
  Proof.
    intros Q N Hd E. assert (E0 := E). unfold calc_farm in E0. apply bind_ok in E0. destruct E0 as (rs & E1 & _).
    destruct (farm_pairs ws farm r rs E1 E) as (P1 & L1).
    assert (E2 : calc_downwind amb ev d0 ws (gather dT (without off farm) (farm_order leb key (without off farm))) = Ok (others off (gather dT farm (farm_order leb key farm)) rs)).
    { rewrite apart_order by exact Hd. rewrite (apart_downwind amb ev off d0 ws _ Q N), E1. reflexivity. }
    assert (E3 : exists r', calc_farm amb ev leb key dT dF d0 ws (without off farm) = Ok r') by (unfold calc_farm; rewrite E2; cbn [bind]; eauto).
    destruct E3 as (r' & E3). exists r'. destruct (farm_pairs ws (without off farm) r' _ E2 E3) as (P2 & L2). repeat split; auto.
    - intros I. apply (Permutation_in _ P2). rewrite apart_order by exact Hd. rewrite others_combine by (apply (calc_length amb ev d0 ws); exact E1).
      apply filter_In. split; [apply (Permutation_in _ (Permutation_sym P1)), I|]. unfold on_p. cbn. now rewrite H.
    - intros I. apply (Permutation_in _ (Permutation_sym P2)) in I. rewrite apart_order in I by exact Hd. rewrite others_combine in I by (apply (calc_length amb ev d0 ws); exact E1).
      apply filter_In in I. apply (Permutation_in _ P1), I.
  Qed.
End Farm.
