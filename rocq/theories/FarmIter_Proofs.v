(** The iterative sweeps reach the downwind result. *)
From Verif Require Import Base FarmWakes_Model FarmWakes_Spec FarmWakes_Proofs.

Section Iter.
  Context {T F D W : Type}.
  Variable amb : T -> W.
  Variable ev : T -> W -> F.
  Notation wmodel := (@wmodel T F D W).
  Notation cell := (@cell T F D W).

  (** the deltas of [t] after contributions of [done] *)
  Definition deltas (w : wmodel) (done : list (T * F)) (t : T) (d : D) : D :=
    fold_left (fun d s => w_contrib w (fst s) (snd s) t d) done d.
  Definition X (ws : list wmodel) (done : list (T * F)) (t : T) : W :=
    fold_left (fun x w => w_add w t x (deltas w done t (w_new w t))) ws (amb t).
  Fixpoint ideal (ws : list wmodel) (done : list (T * F)) (ts : list T) : list F :=
    match ts with
    | [] => []
    | t :: ts' => let f := ev t (X ws done t) in f :: ideal ws (done ++ [(t, f)]) ts'
    end.

  (** *** sweeps *)
  Lemma ideal_length (ws : list wmodel) ts : forall done, length (ideal ws done ts) = length ts.
  Proof. induction ts; intros; cbn; auto. Qed.
  Lemma sweep_from_length (ws : list wmodel) srcs ts : forall j, length (sweep_from amb ev ws srcs j ts) = length ts.
  Proof. induction ts; intros; cbn; auto. Qed.
  Lemma sweeps_length (ws : list wmodel) ts k : length (sweeps amb ev ws ts k) = length ts.
  Proof. destruct k; cbn; [apply map_length|]. apply sweep_from_length. Qed.

  Lemma gather_all_after (w : wmodel) tj j : forall srcs oi dj, j < oi ->
    (forall s, In s srcs -> forall d, w_contrib w (fst s) (snd s) tj d = d) ->
    gather_contribs w j oi srcs tj dj = dj.
  Proof.
    induction srcs as [|[t f] srcs IH]; intros oi dj Hj H; cbn; [reflexivity|].
    destruct (Nat.eqb_spec oi j); [lia|]. rewrite (H (t, f)) by now left. apply IH; [lia|]. intros; apply H; now right.
  Qed.
  Lemma gather_split (w : wmodel) tj j done x rest : forall oi dj, oi + length done = j ->
    (forall s, In s rest -> forall d, w_contrib w (fst s) (snd s) tj d = d) ->
    gather_contribs w j oi (done ++ x :: rest) tj dj = deltas w done tj dj.
  Proof.
    induction done as [|[t f] done IH]; intros oi dj Hj H; cbn in *.
    - destruct x as [t f]. destruct (Nat.eqb_spec oi j); [|lia]. apply gather_all_after; [lia|exact H].
    - destruct (Nat.eqb_spec oi j); [lia|]. unfold deltas in *. cbn. apply IH; [lia|exact H].
  Qed.
  Lemma all_models_X (ws : list wmodel) tj j done x rest : j = length done ->
    (forall w, In w ws -> forall s, In s rest -> forall d, w_contrib w (fst s) (snd s) tj d = d) ->
    all_models ws j (done ++ x :: rest) tj (amb tj) = X ws done tj.
  Proof.
    intros Hj H. unfold X. generalize (amb tj). induction ws as [|w ws IH]; intros a; cbn; [reflexivity|].
    rewrite gather_split; [|cbn; lia|apply H; now left]. apply IH. intros; apply H; auto. now right.
  Qed.

  Lemma combine_app_eq {A B} (a a' : list A) (b b' : list B) : length a = length b ->
    combine (a ++ a') (b ++ b') = combine a b ++ combine a' b'.
  Proof. revert b; induction a as [|x a IH]; intros [|y b] H; cbn in *; try lia; [reflexivity|]. f_equal. apply IH. lia. Qed.

  Lemma sweep_nth (ws : list wmodel) ts fs j t dF dT : acts_downstream ws ts -> length fs = length ts -> j < length ts -> nth j ts dT = t ->
    nth j (sweep amb ev ws ts fs) dF = ev t (X ws (firstn j (combine ts fs)) t).
  Proof.
    intros H Hl Hj Ht. unfold sweep.
    assert (G : forall ts' i j, i + j < length ts -> ts' = skipn i ts ->
      nth j (sweep_from amb ev ws (combine ts fs) i ts') dF = ev (nth (i + j) ts dT) (all_models ws (i + j) (combine ts fs) (nth (i + j) ts dT) (amb (nth (i + j) ts dT)))).
    { clear j t Hj Ht. induction ts' as [|t ts' IH]; intros i j Hij E.
      - exfalso. apply (f_equal (@length T)) in E. rewrite skipn_length in E. cbn in E. lia.
      - assert (E0 : nth i ts dT = t). { rewrite <- (firstn_skipn i ts), <- E, app_nth2; rewrite firstn_length; [|lia]. replace (i - _) with 0 by lia. reflexivity. }
        destruct j; cbn [sweep_from nth].
        + rewrite Nat.add_0_r, E0. reflexivity.
        + rewrite IH; [now rewrite Nat.add_succ_r| lia|].
          clear -E. revert ts E. induction i as [|i IHi]; intros [|x ts] E; cbn in *; try discriminate; [now injection E|]. now apply IHi. }
    rewrite (G ts 0 j) by (cbn; auto). cbn [Nat.add]. rewrite Ht. f_equal.
    assert (Hc : length (combine ts fs) = length ts) by (rewrite combine_length; lia).
    destruct (skipn j (combine ts fs)) as [|x rest] eqn:E.
    { apply (f_equal (@length _)) in E. rewrite skipn_length in E. cbn in E. lia. }
    rewrite <- (firstn_skipn j (combine ts fs)) at 1. rewrite E.
    apply all_models_X; [rewrite firstn_length; lia|].
    intros w Hw s Hs d.
    assert (exists m, j < m /\ nth_error ts m = Some (fst s)) as (m & Hm & Em).
    { destruct (In_nth_error _ _ Hs) as (m & Em). exists (j + S m). split; [lia|].
      assert (Es : nth_error (skipn j (combine ts fs)) (S m) = Some s) by (rewrite E; exact Em).
      assert (Es' : nth_error (combine ts fs) (j + S m) = Some s).
      { rewrite <- (firstn_skipn j (combine ts fs)). rewrite nth_error_app2; rewrite firstn_length; [|lia].
        replace (j + S m - _) with (S m) by lia. exact Es. }
      clear -Es' Hl. revert ts fs Hl Es'. generalize (j + S m). induction n as [|n IH]; intros [|a ts] [|b fs] Hl E; cbn in *; try discriminate; try lia.
      - now injection E as <-.
      - eapply IH; [|exact E]. lia. }
    eapply H; eauto. subst t. apply nth_error_nth'. exact Hj.
  Qed.

  Lemma ideal_nth (ws : list wmodel) ts j t dF dT : j < length ts -> nth j ts dT = t ->
    nth j (ideal ws [] ts) dF = ev t (X ws (firstn j (combine ts (ideal ws [] ts))) t).
  Proof.
    assert (G : forall ts done j t, j < length ts -> nth j ts dT = t ->
      nth j (ideal ws done ts) dF = ev t (X ws (done ++ firstn j (combine ts (ideal ws done ts))) t)).
    { induction ts0 as [|a ts0 IH]; intros done i t0 Hi Hi2; cbn in Hi; [lia|]. destruct i; cbn in *.
      - subst. now rewrite app_nil_r.
      - rewrite (IH _ i t0) by (auto; lia). now rewrite <- app_assoc. }
    intros. now apply (G ts []).
  Qed.

  Lemma firstn_combine_eq (ts : list T) (f g : list F) j : firstn j f = firstn j g -> firstn j (combine ts f) = firstn j (combine ts g).
  Proof.
    revert f g j; induction ts as [|t ts IH]; intros [|a f] [|b g] [|j] H; cbn in *; try discriminate; auto.
    injection H as -> H. f_equal. auto.
  Qed.
  Lemma firstn_eq_nth (f g : list F) j dF : length f = length g -> (forall i, i < j -> nth i f dF = nth i g dF) -> firstn j f = firstn j g.
  Proof.
    revert g j; induction f as [|a f IH]; intros [|b g] [|j] Hl H; cbn in *; try lia; auto.
    f_equal; [apply (H 0); lia|]. apply IH; [lia|]. intros i Hi. apply (H (S i)). lia.
  Qed.
  Lemma nth_firstn_eq (f g : list F) j dF i : firstn j f = firstn j g -> i < j -> nth i f dF = nth i g dF.
  Proof.
    revert g j i; induction f as [|a f IH]; intros [|b g] [|j] i H Hi; cbn in *; try lia; try discriminate; auto.
    destruct i; [now injection H|]. injection H as _ H. eapply IH; [exact H|lia].
  Qed.

  Lemma sweeps_prefix (ws : list wmodel) ts k : acts_downstream ws ts -> firstn k (sweeps amb ev ws ts k) = firstn k (ideal ws [] ts).
  Proof.
    intros H. induction k as [|k IH]; [reflexivity|].
    destruct ts as [|t0 ts'] eqn:Ets; [destruct k; reflexivity|]. rewrite <- Ets in *. set (dT := t0). set (dF := ev t0 (amb t0)).
    apply (firstn_eq_nth _ _ _ dF); [rewrite sweeps_length, ideal_length; reflexivity|].
    intros i Hi. destruct (Nat.lt_ge_cases i (length ts)) as [Hlt|Hge].
    - cbn [sweeps]. rewrite (sweep_nth ws ts _ i (nth i ts dT) dF dT); auto using sweeps_length.
      rewrite (ideal_nth ws ts i (nth i ts dT) dF dT) by auto. do 2 f_equal. apply firstn_combine_eq.
      apply (firstn_eq_nth _ _ _ dF); [rewrite sweeps_length, ideal_length; reflexivity|].
      intros j Hj. apply (nth_firstn_eq _ _ k); auto. lia.
    - rewrite !nth_overflow; auto; rewrite ?sweeps_length, ?ideal_length; lia.
  Qed.
  (** with neutral models the first turbine is exact from the start *)
  Lemma X_nil (ws : list wmodel) t : neutral ws -> X ws [] t = amb t.
  Proof.
    intros H. unfold X. cbn. generalize (amb t). induction ws as [|w ws IH]; intros a; cbn; [reflexivity|].
    rewrite H by now left. apply IH. intros w' Hw'. apply H. now right.
  Qed.
  Lemma sweeps_prefix1 (ws : list wmodel) ts k : acts_downstream ws ts -> neutral ws ->
    firstn (S k) (sweeps amb ev ws ts k) = firstn (S k) (ideal ws [] ts).
  Proof.
    intros H Hn. destruct ts as [|t0 ts'] eqn:Ets; [destruct k; reflexivity|]. rewrite <- Ets in *.
    induction k as [|k IH].
    - subst ts. cbn. now rewrite X_nil.
    - set (dT := t0). set (dF := ev t0 (amb t0)).
      apply (firstn_eq_nth _ _ _ dF); [rewrite sweeps_length, ideal_length; reflexivity|].
      intros i Hi. destruct (Nat.lt_ge_cases i (length ts)) as [Hlt|Hge].
      + cbn [sweeps]. rewrite (sweep_nth ws ts _ i (nth i ts dT) dF dT); auto using sweeps_length.
        rewrite (ideal_nth ws ts i (nth i ts dT) dF dT) by auto. do 2 f_equal. apply firstn_combine_eq.
        apply (firstn_eq_nth _ _ _ dF); [rewrite sweeps_length, ideal_length; reflexivity|].
        intros j Hj. apply (nth_firstn_eq _ _ (S k)); auto. lia.
      + rewrite !nth_overflow; auto; rewrite ?sweeps_length, ?ideal_length; lia.
  Qed.
  Lemma sweeps_all (ws : list wmodel) ts k : acts_downstream ws ts -> neutral ws -> length ts <= S k -> sweeps amb ev ws ts k = ideal ws [] ts.
  Proof.
    intros H Hn Hk. pose proof (sweeps_prefix1 ws ts k H Hn) as E.
    rewrite !firstn_all2 in E; rewrite ?sweeps_length, ?ideal_length; auto.
  Qed.

  (** *** downwind *)
  Definition pair_of (c : cell) : T * F := (c_t c, c_f c).
  Definition with_d (w : wmodel) (done : list (T * F)) (c : cell) : cell :=
    mkc (c_t c) (c_f c) (c_w c) (deltas w done (c_t c) (c_d c)).
  Fixpoint pass_spec (w : wmodel) (done : list (T * F)) (l : list cell) : list cell :=
    match l with
    | [] => []
    | c :: l' => let c' := eval_cell ev w (with_d w done c) in c' :: pass_spec w (done ++ [pair_of c']) l'
    end.
  Lemma with_d_snoc w done s c : with_d w (done ++ [pair_of s]) c = contrib_cell w s (with_d w done c).
  Proof. unfold with_d, contrib_cell, deltas. cbn. rewrite fold_left_app. reflexivity. Qed.
  Lemma down_tail_spec w l : forall done n, n = length l ->
    down_tail ev w (map (with_d w done) l) n = pass_spec w done l.
  Proof.
    induction l as [|c l IH]; intros done n Hn; subst n; cbn [length map down_tail pass_spec]; [reflexivity|].
    f_equal. rewrite map_map. rewrite <- (IH (done ++ [pair_of (eval_cell ev w (with_d w done c))]) (length l) eq_refl).
    f_equal. apply map_ext. intros a. symmetry. apply with_d_snoc.
  Qed.
  Lemma with_d_nil w c : with_d w [] c = c.
  Proof. destruct c; reflexivity. Qed.

  Definition consistent (c : cell) : Prop := c_f c = ev (c_t c) (c_w c).
  Lemma pass_is_spec w l : w_down w = true -> (forall t x, w_add w t x (w_new w t) = x) -> Forall consistent l ->
    pass ev w l = pass_spec w [] (map (fresh w) l).
  Proof.
    intros Hw Hn Hc. unfold pass. rewrite Hw. destruct l as [|c l]; [reflexivity|]. cbn [map down_pass pass_spec].
    inversion Hc as [|? ? H1 H2]; subst.
    assert (E : eval_cell ev w (with_d w [] (fresh w c)) = fresh w c).
    { rewrite with_d_nil. unfold eval_cell, fresh; cbn. rewrite Hn, <- H1. reflexivity. }
    rewrite E. f_equal. cbn [app].
    rewrite <- (down_tail_spec w (map (fresh w) l) [pair_of (fresh w c)] _ eq_refl).
    reflexivity.
  Qed.
  Lemma fold_add_snoc (ws : list wmodel) w done t : X (ws ++ [w]) done t = w_add w t (X ws done t) (deltas w done t (w_new w t)).
  Proof. unfold X. rewrite fold_left_app. reflexivity. Qed.

  (** the part of a cell that matters between passes *)
  Definition er (c : cell) : T * F * W := (c_t c, c_f c, c_w c).
  (** cells after the wake models [ws1], when the final results of earlier turbines come from [ws] *)
  Fixpoint cells_of (ws ws1 : list wmodel) (done : list (T * F)) (ts : list T) : list (T * F * W) :=
    match ts with
    | [] => []
    | t :: ts' => (t, ev t (X ws1 done t), X ws1 done t) :: cells_of ws ws1 (done ++ [(t, ev t (X ws done t))]) ts'
    end.
  Lemma insens ws1 w ws2 : no_feedback ev (ws1 ++ w :: ws2) -> forall done t t' d,
    w_contrib w t (ev t (X (ws1 ++ [w]) done t)) t' d = w_contrib w t (ev t (X (ws1 ++ w :: ws2) done t)) t' d.
  Proof.
    intros H done t t' d. replace (ws1 ++ w :: ws2) with ((ws1 ++ [w]) ++ ws2) by (rewrite <- app_assoc; reflexivity).
    assert (E : forall w', In w' ws2 -> forall x dd, w_contrib w t (ev t (w_add w' t x dd)) t' d = w_contrib w t (ev t x) t' d).
    { intros w' Hin x dd. destruct (In_nth_error _ _ Hin) as (m & Em).
      apply (H (length ws1) (length ws1 + S m) w w'); [lia| |].
      - rewrite nth_error_app2, Nat.sub_diag by lia. reflexivity.
      - rewrite nth_error_app2 by lia. replace (length ws1 + S m - length ws1) with (S m) by lia. exact Em. }
    unfold X at 2. rewrite fold_left_app. fold (X (ws1 ++ [w]) done t). generalize (X (ws1 ++ [w]) done t) as x.
    clear H. induction ws2 as [|w' ws2 IH]; intros x; cbn; [reflexivity|].
    rewrite <- IH by (intros; apply E; now right). symmetry. apply E. now left.
  Qed.

  Lemma pass_cells ws1 w ws2 : no_feedback ev (ws1 ++ w :: ws2) -> forall ts done done' (l : list cell),
    map er l = cells_of (ws1 ++ w :: ws2) ws1 done ts ->
    map fst done' = map fst done ->
    (forall t' d, deltas w done' t' d = deltas w done t' d) ->
    map er (pass_spec w done' (map (fresh w) l)) = cells_of (ws1 ++ w :: ws2) (ws1 ++ [w]) done ts.
  Proof.
    intros NF. induction ts as [|t ts IH]; intros done done' l E Hf Hd.
    - destruct l; [reflexivity|discriminate].
    - destruct l as [|c l]; [discriminate|]. cbn [map cells_of] in E. injection E as E1 E2 E3 E4.
      cbn [map pass_spec cells_of].
      set (c' := eval_cell ev w (with_d w done' (fresh w c))).
      assert (Ec : er c' = (t, ev t (X (ws1 ++ [w]) done t), X (ws1 ++ [w]) done t)).
      { unfold c', er, eval_cell, with_d, fresh. cbn. rewrite Hd, E1, E3, fold_add_snoc. reflexivity. }
      clearbody c'. f_equal; [exact Ec|]. apply IH; [exact E4| |].
      + rewrite !map_app, Hf. cbn. f_equal. f_equal. unfold er in Ec. now injection Ec.
      + intros t' d. unfold deltas in *. rewrite !fold_left_app, Hd. cbn.
        assert (F1 : c_t c' = t) by exact (f_equal (fun p => fst (fst p)) Ec).
        assert (F2 : c_f c' = ev t (X (ws1 ++ [w]) done t)) by exact (f_equal (fun p => snd (fst p)) Ec).
        rewrite F1, F2. now apply (insens ws1 w ws2).
  Qed.
  Lemma cells_consistent (ws : list wmodel) ws1 ts : forall done l, map er l = cells_of ws ws1 done ts -> Forall consistent l.
  Proof.
    induction ts as [|t ts IH]; intros done [|c l] E; try discriminate; [constructor|].
    cbn in E. injection E as E1 E2 E3 E4. constructor; [|eapply IH, E4]. unfold consistent. congruence.
  Qed.
  Lemma cells_final (ws : list wmodel) ts : forall done l, map er l = cells_of ws ws done ts -> map (@c_f T F D W) l = ideal ws done ts.
  Proof.
    induction ts as [|t ts IH]; intros done [|c l] E; try discriminate; [reflexivity|].
    cbn in E. injection E as E1 E2 E3 E4. cbn. f_equal; [congruence|]. now apply IH.
  Qed.

  Lemma run_cells ws2 : forall ws1 sd ts l, all_down ws2 -> neutral ws2 -> no_feedback ev (ws1 ++ ws2) ->
    map er l = cells_of (ws1 ++ ws2) ws1 [] ts ->
    exists r, run_models ev ws2 sd false l = Ok r /\ map er r = cells_of (ws1 ++ ws2) (ws1 ++ ws2) [] ts.
  Proof.
    induction ws2 as [|w ws2 IH]; intros ws1 sd ts l Hw Hn NF E.
    - rewrite app_nil_r in *. exists l. split; [reflexivity|exact E].
    - inversion Hw as [|? ? Hw1 Hw2]; subst. cbn [run_models]. rewrite Hw1. cbn [negb orb]. rewrite orb_true_r. cbn [andb].
      rewrite pass_is_spec; [|exact Hw1|intros; apply Hn; now left|eapply cells_consistent, E].
      pose proof (pass_cells ws1 w ws2 NF ts [] [] l E eq_refl (fun _ _ => eq_refl)) as E'.
      replace (ws1 ++ w :: ws2) with ((ws1 ++ [w]) ++ ws2) in * by (rewrite <- app_assoc; reflexivity).
      apply IH; auto. intros w' Hw'. apply Hn. now right.
  Qed.

  Lemma downwind_ideal d0 (ws : list wmodel) ts : all_down ws -> neutral ws -> no_feedback ev ws ->
    calc_downwind amb ev d0 ws ts = Ok (ideal ws [] ts).
  Proof.
    intros Hw Hn NF. unfold calc_downwind.
    destruct (run_cells ws [] false ts (start amb ev (fun _ => d0) ts) Hw Hn NF) as (r & E1 & E2).
    - cbn [app]. generalize (@nil (T * F)) as done. unfold start. induction ts as [|t ts IH]; intros done; cbn; [reflexivity|].
      f_equal. apply IH.
    - rewrite E1. cbn [bind]. f_equal. now apply cells_final.
  Qed.

  Lemma iterative_prefix d0 (ws : list wmodel) ts r k : all_down ws -> neutral ws -> no_feedback ev ws -> acts_downstream ws ts ->
    calc_downwind amb ev d0 ws ts = Ok r -> firstn (S k) (sweeps amb ev ws ts k) = firstn (S k) r.
  Proof.
    intros H1 H2 H3 H4 E. rewrite (downwind_ideal d0 ws ts H1 H2 H3) in E. injection E as <-. now apply sweeps_prefix1.
  Qed.
  Lemma iterative_all d0 (ws : list wmodel) ts r k : all_down ws -> neutral ws -> no_feedback ev ws -> acts_downstream ws ts ->
    calc_downwind amb ev d0 ws ts = Ok r -> length ts <= S k -> sweeps amb ev ws ts k = r.
  Proof.
    intros H1 H2 H3 H4 E Hk. rewrite (downwind_ideal d0 ws ts H1 H2 H3) in E. injection E as <-. now apply sweeps_all.
  Qed.
  (** a sweep that changes nothing has reached the result *)
  Lemma fixpoint_all (ws : list wmodel) ts k : acts_downstream ws ts -> neutral ws -> sweeps amb ev ws ts (S k) = sweeps amb ev ws ts k ->
    sweeps amb ev ws ts k = ideal ws [] ts.
  Proof.
    intros H Hn E. assert (G : forall m, sweeps amb ev ws ts (k + m) = sweeps amb ev ws ts k).
    { induction m as [|m IH]; [now rewrite Nat.add_0_r|]. rewrite Nat.add_succ_r. cbn [sweeps]. rewrite IH. exact E. }
    rewrite <- (G (length ts)). apply sweeps_all; auto. lia.
  Qed.
End Iter.
