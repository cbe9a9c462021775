(** Proofs about the farm wake calculation. *)
From Verif Require Import Base Order_Model Order_Spec Order_Proofs FarmWakes_Model FarmWakes_Spec.
From Coq Require Import Permutation Sorted.

Section Down.
  Context {T F D W : Type}.
  Variable amb : T -> W.
  Variable ev : T -> W -> F.
  Notation wmodel := (@wmodel T F D W).
  Notation cell := (@cell T F D W).

  Lemma down_tail_length (w : wmodel) n : forall l : list cell, length (down_tail ev w l n) = length l.
  Proof. induction n as [|n IH]; intros [|c l]; cbn; auto. rewrite IH, map_length. reflexivity. Qed.
  Lemma down_pass_length (w : wmodel) (l : list cell) : length (down_pass ev w l) = length l.
  Proof. destruct l; cbn; auto. now rewrite down_tail_length, map_length. Qed.
  Lemma pass_length (w : wmodel) (l : list cell) : length (pass ev w l) = length l.
  Proof. unfold pass. destruct (w_down w); unfold up_pass; rewrite ?rev_length, down_pass_length, ?rev_length, map_length; auto. Qed.

  Lemma down_tail_prefix (w : wmodel) (p : list cell) : forall s,
    firstn (length p) (down_tail ev w (p ++ s) (length (p ++ s))) = down_tail ev w p (length p).
  Proof.
    assert (G : forall n p s, length p = n -> firstn n (down_tail ev w (p ++ s) (length (p ++ s))) = down_tail ev w p n).
    { induction n as [|n IH]; intros p' s Hp; [now destruct p'; cbn|].
      destruct p' as [|c p']; cbn in Hp; [lia|]. cbn [app length down_tail firstn]. f_equal.
      rewrite map_app. specialize (IH (map (contrib_cell w (eval_cell ev w c)) p') (map (contrib_cell w (eval_cell ev w c)) s)).
      rewrite <- map_app in *. rewrite !map_length in IH. apply IH. lia. }
    intros s. now apply G.
  Qed.
  Lemma down_pass_prefix (w : wmodel) (p s : list cell) :
    firstn (length p) (down_pass ev w (p ++ s)) = down_pass ev w p.
  Proof.
    destruct p as [|c p]; [reflexivity|]. cbn [app length down_pass firstn]. f_equal.
    rewrite map_app. rewrite <- (map_length (contrib_cell w c) p) at 1.
    rewrite <- (map_length (contrib_cell w c) (p ++ s)), map_app, down_tail_prefix, map_length. reflexivity.
  Qed.
  Lemma pass_prefix (w : wmodel) (p s : list cell) : w_down w = true ->
    firstn (length p) (pass ev w (p ++ s)) = pass ev w p.
  Proof.
    intros H. unfold pass. rewrite H, map_app. rewrite <- (map_length (fresh w) p) at 1. apply down_pass_prefix.
  Qed.
  Lemma run_prefix (ws : list wmodel) : all_down ws -> forall sd (p s : list cell),
    exists r, run_models ev ws sd false (p ++ s) = Ok r /\ length r = length (p ++ s) /\
              run_models ev ws sd false p = Ok (firstn (length p) r).
  Proof.
    induction 1 as [|w ws Hw _ IH]; intros sd p s; cbn [run_models].
    - exists (p ++ s). rewrite firstn_app, firstn_all, Nat.sub_diag. cbn. rewrite app_nil_r. auto.
    - rewrite Hw. cbn [negb orb]. rewrite orb_true_r. cbn [andb].
      rewrite <- (firstn_skipn (length p) (pass ev w (p ++ s))). rewrite pass_prefix by exact Hw.
      destruct (IH true (pass ev w p) (skipn (length p) (pass ev w (p ++ s)))) as (r & E1 & E2 & E3).
      exists r. rewrite E1, E3, pass_length. repeat split; auto.
      rewrite E2, app_length, skipn_length, !pass_length, app_length. lia.
  Qed.

  Lemma start_app d0 (p s : list T) : @start T F D W amb ev d0 (p ++ s) = start amb ev d0 p ++ start amb ev d0 s.
  Proof. unfold start. apply map_app. Qed.
  Lemma start_length d0 ts : length (@start T F D W amb ev d0 ts) = length ts.
  Proof. apply map_length. Qed.

  Lemma causality d0 (ws : list wmodel) (p s : list T) : all_down ws ->
    exists r, calc_downwind amb ev d0 ws (p ++ s) = Ok r /\ length r = length (p ++ s) /\
              calc_downwind amb ev d0 ws p = Ok (firstn (length p) r).
  Proof.
    intros H. unfold calc_downwind. rewrite start_app.
    destruct (run_prefix ws H false (start amb ev (fun _ => d0) p) (start amb ev (fun _ => d0) s)) as (r & E1 & E2 & E3).
    rewrite E1, E3. cbn [bind]. exists (map c_f r). rewrite map_length, E2, start_length, app_length, !start_length, app_length.
    repeat split. now rewrite firstn_map.
  Qed.

  Lemma single_ambient d0 (ws : list wmodel) t : all_down ws -> calc_downwind amb ev d0 ws [t] = Ok [ev t (amb t)].
  Proof.
    intros H. unfold calc_downwind.
    assert (G : forall sd c, exists d, run_models ev ws sd false [c] = Ok [mkc (c_t c) (c_f c) (c_w c) d]).
    { induction H as [|w ws Hw _ IH]; intros sd c; cbn [run_models].
      - exists (c_d c). destruct c; reflexivity.
      - rewrite Hw. cbn [negb orb]. rewrite orb_true_r. cbn [andb]. unfold pass. rewrite Hw. cbn [map down_pass down_tail length].
        destruct (IH true (fresh w c)) as (d & E). exists d. rewrite E. reflexivity. }
    unfold start. cbn [map]. destruct (G false (mkc t (ev t (amb t)) (amb t) d0)) as (d & E). rewrite E. reflexivity.
  Qed.

  Lemma first_ambient d0 (ws : list wmodel) t ts : all_down ws ->
    exists r, calc_downwind amb ev d0 ws (t :: ts) = Ok (ev t (amb t) :: r) /\ length r = length ts.
  Proof.
    intros H. destruct (causality d0 ws [t] ts H) as (r & E1 & E2 & E3). rewrite single_ambient in E3 by exact H.
    injection E3 as E3. destruct r as [|f r]; cbn in *; [lia|]. injection E3 as ->. exists r. split; [exact E1|lia].
  Qed.

  (** mixing *)
  Lemma run_mixed (ws : list wmodel) : forall sd su (l : list cell),
    (exists r, run_models ev ws sd su l = Ok r) <->
    (ws = [] \/ negb ((sd || existsb (fun w => w_down w) ws) && (su || existsb (fun w => negb (w_down w)) ws)) = true).
  Proof.
    induction ws as [|w ws IH]; intros sd su l; cbn [run_models existsb].
    - split; [now left|]. eauto.
    - split.
      + intros [r E]. right. destruct ((sd || w_down w) && (su || negb (w_down w))) eqn:E1; [discriminate|].
        destruct (proj1 (IH _ _ _) (ex_intro _ r E)) as [->|E2].
        * cbn. rewrite !orb_false_r. now rewrite E1.
        * rewrite !orb_assoc. exact E2.
      + intros [E|E]; [discriminate|]. rewrite !orb_assoc in E.
        assert (E1 : (sd || w_down w) && (su || negb (w_down w)) = false).
        { destruct sd, su, (w_down w); cbn in *; try reflexivity; try discriminate; try (destruct (existsb _ _); discriminate). }
        rewrite E1. apply IH. now right.
  Qed.
  Lemma mixing_iff d0 (ws : list wmodel) ts :
    (exists r, calc_downwind amb ev d0 ws ts = Ok r) <-> (all_down ws \/ all_up ws).
  Proof.
    unfold calc_downwind, all_down, all_up.
    assert (X : (exists r, calc_downwind amb ev d0 ws ts = Ok r) <->
                (exists r, run_models ev ws false false (start amb ev (fun _ => d0) ts) = Ok r)).
    { unfold calc_downwind. split; intros [r E].
      - apply bind_ok in E. destruct E as (a & E & _). eauto.
      - rewrite E. cbn. eauto. }
    unfold calc_downwind in X. rewrite X, run_mixed. cbn [orb]. split.
    - intros [->|E]; [left; constructor|].
      destruct (existsb (fun w => w_down w) ws) eqn:E1.
      + left. apply Forall_forall. intros w Hw. destruct (w_down w) eqn:E2; auto.
        assert (existsb (fun w => negb (w_down w)) ws = true) by (apply existsb_exists; exists w; split; auto; now rewrite E2).
        rewrite H in E. discriminate.
      + right. apply Forall_forall. intros w Hw. destruct (w_down w) eqn:E2; auto.
        assert (existsb (fun w => w_down w) ws = true) by (apply existsb_exists; eauto). congruence.
    - intros [H|H]; right.
      + replace (existsb (fun w => negb (w_down w)) ws) with false; [now rewrite andb_false_r|]. symmetry.
        destruct (existsb _ ws) eqn:E; auto. apply existsb_exists in E. destruct E as (w & Hw & E).
        rewrite Forall_forall in H. rewrite H in E by auto. discriminate.
      + replace (existsb (fun w => w_down w) ws) with false; [reflexivity|]. symmetry.
        destruct (existsb _ ws) eqn:E; auto. apply existsb_exists in E. destruct E as (w & Hw & E).
        rewrite Forall_forall in H. rewrite H in E by auto. discriminate.
  Qed.
  Lemma mixing_keyerror d0 (ws : list wmodel) ts : ~ all_down ws -> ~ all_up ws -> calc_downwind amb ev d0 ws ts = Err KeyError.
  Proof.
    intros H1 H2. destruct (calc_downwind amb ev d0 ws ts) as [r|e] eqn:E.
    - exfalso. destruct (proj1 (mixing_iff d0 ws ts)); eauto.
    - f_equal. unfold calc_downwind in E.
      assert (G : forall (ws : list wmodel) l sd su e, run_models ev ws sd su l = Err e -> e = KeyError).
      { clear. induction ws as [|w ws IH]; intros l sd su e E; cbn in E; [discriminate|].
        destruct (_ && _); [congruence|]. eapply IH, E. }
      destruct (run_models _ _ _ _ _) eqn:E1 in E; cbn in E; [discriminate|]. injection E as <-. eapply G, E1.
  Qed.
End Down.

(** ** farm level *)
Section Farm.
  Context {T F D W K : Type}.
  Variable amb : T -> W.
  Variable ev : T -> W -> F.
  Variable leb : K -> K -> bool.
  Variable key : T -> K.
  Variables (dT : T) (dF : F) (d0 : D).
  Hypothesis total : forall a b, leb a b = true \/ leb b a = true.
  Hypothesis trans : forall a b c, leb a b = true -> leb b c = true -> leb a c = true.

  Lemma insert_low (p : K * nat) A B : (forall q, In q B -> leb (fst p) (fst q) = true) ->
    insert leb p (A ++ B) = insert leb p A ++ B.
  Proof.
    intros H. induction A as [|a A IH]; cbn [app insert].
    - destruct B as [|b B]; [reflexivity|]. cbn. rewrite H by now left. reflexivity.
    - destruct (leb (fst p) (fst a)); [reflexivity|]. now rewrite IH.
  Qed.
  Lemma insert_high (p : K * nat) A B : (forall q, In q A -> leb (fst p) (fst q) = false) ->
    insert leb p (A ++ B) = A ++ insert leb p B.
  Proof.
    intros H. induction A as [|a A IH]; cbn [app insert]; [reflexivity|].
    rewrite H by now left. f_equal. apply IH. intros; apply H; now right.
  Qed.
  Lemma isort_split (P : K * nat -> bool) l :
    (forall p q, P p = true -> P q = false -> leb (fst p) (fst q) = true /\ leb (fst q) (fst p) = false) ->
    isort leb l = isort leb (filter P l) ++ isort leb (filter (fun p => negb (P p)) l).
  Proof.
    intros H. induction l as [|p l IH]; [reflexivity|]. cbn [isort fold_right filter]. fold (isort leb l). rewrite IH.
    destruct (P p) eqn:E; cbn [negb].
    - cbn [isort fold_right]. apply insert_low. intros q Hq.
      apply (Permutation_in _ (isort_perm leb _)) in Hq. apply filter_In in Hq. destruct Hq as [_ Hq].
      apply H; auto. now apply negb_true_iff.
    - cbn [isort fold_right]. apply insert_high. intros q Hq.
      apply (Permutation_in _ (isort_perm leb _)) in Hq. apply filter_In in Hq. destruct Hq as [_ Hq]. now apply H.
  Qed.

  Definition upstream (extra : list T) (p : K * nat) : bool := forallb (fun e => negb (leb (key e) (fst p))) extra.
  Lemma upstream_ok extra p q : upstream extra p = true -> upstream extra q = false ->
    leb (fst p) (fst q) = true /\ leb (fst q) (fst p) = false.
  Proof.
    intros Hp Hq. unfold upstream in *. rewrite forallb_forall in Hp.
    assert (exists e, In e extra /\ leb (key e) (fst q) = true) as (e & He & E).
    { clear -Hq. induction extra as [|e l IH]; cbn in Hq; [discriminate|].
      destruct (leb (key e) (fst q)) eqn:E; [exists e; split; [now left|exact E]|].
      destruct IH as (x & Hx & Ex); [exact Hq|]. exists x. split; [now right|exact Ex]. }
    assert (E2 : leb (fst q) (fst p) = false).
    { destruct (leb (fst q) (fst p)) eqn:E2; auto. specialize (Hp e He). rewrite (trans _ _ _ E E2) in Hp. discriminate. }
    split; auto. destruct (total (fst p) (fst q)); congruence.
  Qed.

  Lemma order_split farm extra :
    let pre := map snd (isort leb (filter (upstream extra) (combine (map key farm) (seq 0 (length farm))))) in
    (exists s1, farm_order leb key farm = pre ++ s1) /\ (exists s2, farm_order leb key (farm ++ extra) = pre ++ s2).
  Proof.
    cbn. unfold farm_order, argsort. split.
    - rewrite map_length. rewrite (isort_split (upstream extra)) by (intros; now apply (upstream_ok extra)).
      rewrite map_app. eauto.
    - rewrite map_length. rewrite (isort_split (upstream extra)) by (intros; now apply (upstream_ok extra)).
      rewrite map_app. eexists. f_equal. f_equal. f_equal.
      rewrite map_app, app_length, seq_app. cbn.
      assert (C : forall (a a' : list K) (b b' : list nat), length a = length b -> combine (a ++ a') (b ++ b') = combine a b ++ combine a' b').
      { induction a as [|x a IH]; intros a' [|y b] b' Hl; cbn in *; try lia; [reflexivity|]. f_equal. apply IH. lia. }
      rewrite C by now rewrite map_length, seq_length. rewrite filter_app.
      match goal with |- filter _ _ ++ ?z = _ => assert (Z : z = []) end.
      { match goal with |- filter _ (combine _ ?q) = _ => generalize q end.
        assert (G : forall sub q, (forall e, In e sub -> In e extra) -> filter (upstream extra) (combine (map key sub) q) = []).
        { induction sub as [|e sub IH]; intros [|k q] Hs; try reflexivity. cbn.
          destruct (upstream extra (key e, k)) eqn:E; [|apply IH; intros; apply Hs; now right].
          unfold upstream in E. rewrite forallb_forall in E. specialize (E e (Hs e ltac:(now left))). cbn in E.
          destruct (total (key e) (key e)) as [R|R]; rewrite R in E; discriminate. }
        intros q. now apply G. }
      rewrite Z. apply app_nil_r.
  Qed.

  Lemma farm_perm farm : isperm (length farm) (farm_order leb key farm).
  Proof. unfold farm_order. rewrite <- (map_length key farm). apply argsort_perm. Qed.

  Lemma gather_app_l (farm extra : list T) pre : (forall k, In k pre -> k < length farm) ->
    gather dT (farm ++ extra) pre = gather dT farm pre.
  Proof. intros H. unfold gather. apply map_ext_in. intros k Hk. apply app_nth1. auto. Qed.
  Lemma gather_app (farm : list T) a b : gather dT farm (a ++ b) = gather dT farm a ++ gather dT farm b.
  Proof. unfold gather. apply map_app. Qed.

  (** the result of turbine [i] sits at the position of [i] in the order *)
  Lemma calc_farm_nth (ws : list (@wmodel T F D W)) farm i k r :
    calc_downwind amb ev d0 ws (gather dT farm (farm_order leb key farm)) = Ok r ->
    k < length farm -> nth k (farm_order leb key farm) 0 = i ->
    exists r', calc_farm amb ev leb key dT dF d0 ws farm = Ok r' /\ length r' = length farm /\ nth i r' dF = nth k r dF.
  Proof.
    intros E Hk Hi. unfold calc_farm. rewrite E. cbn [bind]. eexists. split; [reflexivity|].
    pose proof (farm_perm farm) as P. pose proof (perm_length _ _ P) as L.
    split; [rewrite gather_length, invert_length; lia|].
    assert (i < length farm) by (subst i; now apply (perm_nth_lt (length farm))).
    rewrite nth_gather by (rewrite invert_length; lia).
    f_equal. subst i. now apply (invert_order (length farm)).
  Qed.

  Lemma farm_causality (ws : list (@wmodel T F D W)) farm extra i : all_down ws -> i < length farm ->
    (forall e, In e extra -> leb (key e) (key (nth i farm dT)) = false) ->
    exists r1 r2, calc_farm amb ev leb key dT dF d0 ws farm = Ok r1 /\
                  calc_farm amb ev leb key dT dF d0 ws (farm ++ extra) = Ok r2 /\
                  length r1 = length farm /\ length r2 = length (farm ++ extra) /\
                  nth i r1 dF = nth i r2 dF.
  Proof.
    intros Hw Hi He. pose proof (order_split farm extra) as S. cbn in S.
    set (pre := map snd (isort leb (filter (upstream extra) (combine (map key farm) (seq 0 (length farm)))))) in *.
    destruct S as ((s1 & E1) & (s2 & E2)).
    assert (Hin : In i pre).
    { unfold pre. apply in_map_iff. exists (key (nth i farm dT), i). split; [reflexivity|].
      apply (Permutation_in _ (Permutation_sym (isort_perm leb _))). apply filter_In. split.
      - assert (G : forall s j, j < length farm -> In (key (nth j farm dT), s + j) (combine (map key farm) (seq s (length farm)))).
        { clear. induction farm as [|t farm IH]; intros s j Hj; cbn in Hj; [lia|]. destruct j; cbn; [left; f_equal; lia|].
          right. replace (s + S j) with (S s + j) by lia. apply IH. lia. }
        apply (G 0 i Hi).
      - unfold upstream. apply forallb_forall. intros e Hin. cbn. now rewrite He. }
    destruct (In_nth _ _ 0 Hin) as (k & Hk & Ek).
    pose proof (farm_perm farm) as P1. pose proof (farm_perm (farm ++ extra)) as P2.
    pose proof (perm_length _ _ P1) as L1. pose proof (perm_length _ _ P2) as L2.
    assert (Hpre : forall j, In j pre -> j < length farm).
    { intros j Hj. apply (proj1 (perm_in _ _ j P1)). rewrite E1. apply in_app_iff. now left. }
    destruct (causality amb ev d0 ws (gather dT farm pre) (gather dT farm s1) Hw) as (r1 & A1 & A2 & A3).
    destruct (causality amb ev d0 ws (gather dT (farm ++ extra) pre) (gather dT (farm ++ extra) s2) Hw) as (r2 & B1 & B2 & B3).
    rewrite <- gather_app, <- E1 in A1. rewrite <- gather_app, <- E2 in B1.
    rewrite (gather_app_l farm extra pre Hpre) in B3. rewrite A3 in B3. injection B3 as B3.
    rewrite gather_length in B3.
    assert (Hlp : length pre <= length farm). { rewrite E1, app_length in L1. lia. }
    destruct (calc_farm_nth ws farm i k r1 A1) as (q1 & C1 & C2 & C3); [lia|rewrite E1, app_nth1 by lia; exact Ek|].
    destruct (calc_farm_nth ws (farm ++ extra) i k r2 B1) as (q2 & D1 & D2 & D3);
      [rewrite app_length; lia|rewrite E2, app_nth1 by lia; exact Ek|].
    exists q1, q2. repeat split; auto. rewrite C3, D3.
    rewrite <- (firstn_skipn (length pre) r1), <- (firstn_skipn (length pre) r2), B3.
    rewrite gather_length in *.
    assert (length pre <= length r2).
    { rewrite B2, app_length, gather_length. lia. }
    rewrite !app_nth1; auto; rewrite firstn_length; lia.
  Qed.

  (** *** renumbering *)
  Definition distinct (farm : list T) : Prop :=
    forall i j, i < length farm -> j < length farm -> i <> j ->
      leb (key (nth i farm dT)) (key (nth j farm dT)) = false \/ leb (key (nth j farm dT)) (key (nth i farm dT)) = false.

  Lemma gather_seq (farm : list T) : gather dT farm (seq 0 (length farm)) = farm.
  Proof.
    apply (list_eq_nth dT); [rewrite gather_length, seq_length; reflexivity|].
    intros i Hi. rewrite gather_length, seq_length in Hi. rewrite nth_gather by (rewrite seq_length; lia).
    now rewrite seq_nth.
  Qed.
  Lemma gather_perm_farm (farm : list T) o : isperm (length farm) o -> Permutation (gather dT farm o) farm.
  Proof. intros H. rewrite <- (gather_seq farm) at 2. unfold gather. apply Permutation_map. exact H. Qed.

  Let lt (a b : T) : Prop := leb (key b) (key a) = false.
  Lemma strict_unique l1 : forall l2, Permutation l1 l2 -> StronglySorted lt l1 -> StronglySorted lt l2 -> l1 = l2.
  Proof.
    assert (L : forall a b, lt a b -> lt b a -> False).
    { unfold lt. intros a b H1 H2. destruct (total (key a) (key b)); congruence. }
    induction l1 as [|a l1 IH]; intros l2 P S1 S2.
    - apply Permutation_nil in P. now subst.
    - destruct l2 as [|b l2]; [apply Permutation_sym, Permutation_nil in P; discriminate|].
      inversion S1 as [|? ? A1 A2]; inversion S2 as [|? ? B1 B2]; subst.
      assert (a = b).
      { assert (Ha : In a (b :: l2)) by (apply (Permutation_in _ P); now left).
        assert (Hb : In b (a :: l1)) by (apply (Permutation_in _ (Permutation_sym P)); now left).
        destruct Ha as [|Ha]; [auto|]. destruct Hb as [|Hb]; [auto|].
        rewrite Forall_forall in A2, B2. exfalso. eapply L; eauto. }
      subst b. f_equal. apply IH; auto. now apply Permutation_cons_inv with a.
  Qed.
  Lemma sorted_of_nth (l : list T) : (forall i j, i < j -> j < length l -> lt (nth i l dT) (nth j l dT)) -> StronglySorted lt l.
  Proof.
    induction l as [|a l IH]; intros H; constructor.
    - apply IH. intros i j Hij Hj. apply (H (S i) (S j)); cbn; lia.
    - apply Forall_forall. intros x Hx. destruct (In_nth _ _ dT Hx) as (k & Hk & <-). apply (H 0 (S k)); cbn; lia.
  Qed.
  Lemma ordered_sorted farm : distinct farm -> StronglySorted lt (gather dT farm (farm_order leb key farm)).
  Proof.
    intros Hd. pose proof (farm_perm farm) as P. pose proof (perm_length _ _ P) as L.
    apply sorted_of_nth. intros i j Hij Hj. rewrite gather_length in Hj. rewrite !nth_gather by lia.
    unfold lt. set (a := nth i (farm_order leb key farm) 0). set (b := nth j (farm_order leb key farm) 0).
    assert (Ha : a < length farm) by (apply (perm_nth_lt (length farm)); auto; lia).
    assert (Hb : b < length farm) by (apply (perm_nth_lt (length farm)); auto; lia).
    assert (Hab : a <> b).
    { intros E. pose proof (perm_nodup _ _ P) as N. rewrite NoDup_nth in N. specialize (N i j). apply N in E; lia. }
    assert (Hs : leb (key (nth a farm dT)) (key (nth b farm dT)) = true).
    { pose proof (argsort_sorted leb total trans (map key farm) (key dT) i j Hij) as G. rewrite map_length in G.
      fold (farm_order leb key farm) in G. rewrite !map_nth in G. apply G. lia. }
    destruct (Hd a b Ha Hb Hab); congruence.
  Qed.
  Lemma distinct_gather farm pi : isperm (length farm) pi -> distinct farm -> distinct (gather dT farm pi).
  Proof.
    intros P Hd i j Hi Hj Hij. rewrite gather_length in Hi, Hj. rewrite !nth_gather by lia.
    pose proof (perm_length _ _ P) as L. apply Hd.
    - apply (perm_nth_lt (length farm)); auto; lia.
    - apply (perm_nth_lt (length farm)); auto; lia.
    - intros E. pose proof (perm_nodup _ _ P) as N. rewrite NoDup_nth in N. specialize (N i j). apply N in E; lia.
  Qed.
  Lemma renumber_ts farm pi : isperm (length farm) pi -> distinct farm ->
    gather dT (gather dT farm pi) (farm_order leb key (gather dT farm pi)) = gather dT farm (farm_order leb key farm).
  Proof.
    intros P Hd. apply strict_unique.
    - eapply Permutation_trans; [apply gather_perm_farm, farm_perm|].
      eapply Permutation_trans; [apply gather_perm_farm, P|]. apply Permutation_sym, gather_perm_farm, farm_perm.
    - apply ordered_sorted. now apply distinct_gather.
    - now apply ordered_sorted.
  Qed.

  Lemma calc_length (ws : list (@wmodel T F D W)) ts r : calc_downwind amb ev d0 ws ts = Ok r -> length r = length ts.
  Proof.
    unfold calc_downwind. intros E. apply bind_ok in E. destruct E as (l & E & X). injection X as X. subst r.
    rewrite map_length. rewrite <- (start_length (F := F) (D := D) amb ev (fun _ => d0) ts).
    assert (G : forall (ws : list (@wmodel T F D W)) l0 a b, run_models ev ws a b l0 = Ok l -> length l = length l0).
    { clear. induction ws as [|w ws IH]; intros l0 a b E; cbn in E; [congruence|].
      destruct (_ && _); [discriminate|]. apply IH in E. now rewrite pass_length in E. }
    eapply G, E.
  Qed.
  Lemma renumber (ws : list (@wmodel T F D W)) farm pi r : isperm (length farm) pi -> distinct farm ->
    calc_farm amb ev leb key dT dF d0 ws farm = Ok r ->
    calc_farm amb ev leb key dT dF d0 ws (gather dT farm pi) = Ok (gather dF r pi).
  Proof.
    intros P Hd E. unfold calc_farm in *. rewrite (renumber_ts farm pi P Hd).
    apply bind_ok in E. destruct E as (q & E & X). injection X as X. rewrite E. cbn [bind]. f_equal. subst r.
    pose proof (calc_length _ _ _ E) as Lq. rewrite gather_length in Lq.
    pose proof (farm_perm farm) as P1. pose proof (farm_perm (gather dT farm pi)) as P2. rewrite gather_length in P2.
    pose proof (perm_length _ _ P) as L. pose proof (perm_length _ _ P1) as L1. pose proof (perm_length _ _ P2) as L2.
    rewrite L in P2, L2.
    apply (list_eq_nth dF).
    - rewrite !gather_length, !invert_length. lia.
    - intros i Hi. rewrite gather_length, invert_length in Hi.
      rewrite !nth_gather by (rewrite ?invert_length; lia).
      assert (Hpi : nth i pi 0 < length farm) by (apply (perm_nth_lt (length farm)); auto; lia).
      rewrite nth_gather by (rewrite invert_length; lia). f_equal.
      (* both are the position of the turbine in the common sorted list *)
      destruct (order_invert _ _ i P2 ltac:(lia)) as [B1 C1].
      destruct (order_invert _ _ (nth i pi 0) P1 Hpi) as [B2 C2].
      set (k := nth i (invert (farm_order leb key (gather dT farm pi))) 0) in *.
      set (k' := nth (nth i pi 0) (invert (farm_order leb key farm)) 0) in *.
      assert (E1 : nth k (gather dT farm (farm_order leb key farm)) dT = nth (nth i pi 0) farm dT).
      { rewrite <- (renumber_ts farm pi P Hd). rewrite nth_gather by lia. rewrite C1. rewrite nth_gather by lia. reflexivity. }
      assert (E2 : nth k' (gather dT farm (farm_order leb key farm)) dT = nth (nth i pi 0) farm dT).
      { rewrite nth_gather by lia. now rewrite C2. }
      destruct (Nat.eq_dec k k') as [|N]; [auto|exfalso].
      rewrite nth_gather in E1 by lia.
      assert (nth k (farm_order leb key farm) 0 <> nth i pi 0).
      { intros X. rewrite <- C2 in X. pose proof (perm_nodup _ _ P1) as N1. rewrite NoDup_nth in N1. apply N, N1; [lia|lia|exact X]. }
      assert (nth k (farm_order leb key farm) 0 < length farm) by (apply (perm_nth_lt (length farm)); auto).
      destruct (Hd _ _ H0 Hpi H) as [X|X]; rewrite E1 in X;
        destruct (total (key (nth (nth i pi 0) farm dT)) (key (nth (nth i pi 0) farm dT))); congruence.
  Qed.
End Farm.
