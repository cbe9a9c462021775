From Verif Require Import Factory_Model Factory_Spec.
Local Open Scope list_scope.
Local Notation length := List.length.

Lemma aeq_refl a : aeq a a = true. Proof. apply Ascii.eqb_refl. Qed.
Lemma aeq_eq a b : aeq a b = true -> a = b. Proof. apply Ascii.eqb_eq. Qed.
Lemma seqb_eq : forall a b, seqb a b = true <-> a = b.
Proof.
  induction a as [|x a IH]; intros [|y b]; cbn; split; intros H; try discriminate; try reflexivity.
  - apply andb_prop in H. destruct H as [H1 H2]. f_equal; [now apply aeq_eq|now apply IH].
  - injection H as -> ->. rewrite aeq_refl. now apply IH.
Qed.
Lemma seqb_refl a : seqb a a = true. Proof. now apply seqb_eq. Qed.
Lemma seqb_neq a b : a <> b -> seqb a b = false.
Proof. intros N. destruct (seqb a b) eqn:E; [|reflexivity]. apply seqb_eq in E. contradiction. Qed.

(** find *)
Lemma prefixb_iff : forall p s, prefixb p s = true <-> exists b, s = p ++ b.
Proof.
  induction p as [|a p IH]; intros s; cbn.
  - split; [intros _; now exists s|reflexivity].
  - destruct s as [|c s]; [split; [discriminate|intros (b & E); discriminate]|]. split.
    + intros H. apply andb_prop in H. destruct H as [H1 H2]. apply aeq_eq in H1. subst c. apply IH in H2. destruct H2 as (b & ->). now exists b.
    + intros (b & E). injection E as -> ->. rewrite aeq_refl. apply IH. now exists b.
Qed.
Lemma occurs_0 p s : occurs p s 0 <-> prefixb p s = true.
Proof.
  rewrite prefixb_iff. split.
  - intros (a & b & E & L). destruct a; [|discriminate]. now exists b.
  - intros (b & E). now exists [], b.
Qed.
Lemma occurs_S p c s i : occurs p (c :: s) (S i) <-> occurs p s i.
Proof.
  split.
  - intros (a & b & E & L). destruct a as [|x a]; [discriminate|]. injection E as _ E. injection L as L. now exists a, b.
  - intros (a & b & E & L). exists (c :: a), b. rewrite E. split; [reflexivity|]. cbn. now rewrite L.
Qed.
Lemma occurs_nil_S p i : ~ occurs p [] (S i).
Proof. intros (a & b & E & L). destruct a; discriminate. Qed.
Lemma find_some : forall s p i, find p s = Some i <-> occurs p s i /\ forall j, j < i -> ~ occurs p s j.
Proof.
  assert (U : forall p c s, find p (c :: s) = if prefixb p (c :: s) then Some 0 else option_map S (find p s)) by reflexivity.
  induction s as [|c s IH]; intros p i.
  - cbn. destruct (prefixb p []) eqn:E; split; try discriminate.
    + intros H. injection H as <-. split; [now apply occurs_0|lia].
    + intros (H & H1). f_equal. destruct i; [reflexivity|]. now apply occurs_nil_S in H.
    + intros (H & H1). destruct i; [apply occurs_0 in H; congruence|now apply occurs_nil_S in H].
  - rewrite U. destruct (prefixb p (c :: s)) eqn:E.
    + split.
      * intros H. injection H as <-. split; [now apply occurs_0|lia].
      * intros (H & H1). f_equal. destruct i; [reflexivity|]. exfalso. apply (H1 0); [lia|now apply occurs_0].
    + destruct (find p s) as [k|] eqn:F; cbn [option_map]; split.
      * intros H. injection H as <-. apply IH in F. destruct F as (F1 & F2). split; [now apply occurs_S|].
        intros [|j] Hj; [rewrite occurs_0; congruence|rewrite occurs_S; apply F2; lia].
      * intros (H & H1). destruct i as [|i]; [apply occurs_0 in H; congruence|]. apply (proj1 (occurs_S p c s i)) in H.
        assert (G : Some k = Some i); [|injection G as ->; reflexivity].
        rewrite <- F. apply (proj2 (IH p i)). split; [assumption|]. intros j Hj O. apply (H1 (S j)); [lia|]. now apply occurs_S.
      * discriminate.
      * intros (H & H1). destruct i as [|i]; [apply occurs_0 in H; congruence|]. apply (proj1 (occurs_S p c s i)) in H.
        assert (G : None = Some i); [|discriminate G].
        rewrite <- F. apply (proj2 (IH p i)). split; [assumption|]. intros j Hj O. apply (H1 (S j)); [lia|]. now apply occurs_S.
Qed.
Lemma find_none s p : find p s = None <-> forall i, ~ occurs p s i.
Proof.
  assert (U : forall p c s, find p (c :: s) = if prefixb p (c :: s) then Some 0 else option_map S (find p s)) by reflexivity.
  induction s as [|c s IH]; split.
  - cbn. destruct (prefixb p []) eqn:E; [discriminate|]. intros _ [|i]; [rewrite occurs_0; congruence|apply occurs_nil_S].
  - intros H. cbn. destruct (prefixb p []) eqn:E; [|reflexivity]. exfalso. now apply (H 0), occurs_0.
  - rewrite U. destruct (prefixb p (c :: s)) eqn:E; [discriminate|]. destruct (find p s); [discriminate|]. intros _ [|i]; [rewrite occurs_0; congruence|].
    rewrite occurs_S. now apply IH.
  - intros H. rewrite U. destruct (prefixb p (c :: s)) eqn:E; [exfalso; now apply (H 0), occurs_0|].
    replace (find p s) with (@None nat); [reflexivity|]. symmetry. apply IH. intros i O. now apply (H (S i)), occurs_S.
Qed.
Lemma find_occurs p s i : occurs p s i -> exists j, find p s = Some j /\ j <= i.
Proof.
  intros O. destruct (find p s) as [j|] eqn:F.
  - exists j. split; [reflexivity|]. apply find_some in F. destruct F as (_ & F). destruct (le_lt_dec j i); [assumption|]. now apply F in l.
  - rewrite find_none in F. now apply F in O.
Qed.

(** values followed by their separators *)
Fixpoint body (ps ws : list str) : str :=
  match ps, ws with p :: ps', w :: ws' => w ++ p ++ body ps' ws' | _, _ => [] end.
Lemma render_body : forall ps p ws, length ps = length ws -> render (p :: ps) ws = p ++ body ps ws.
Proof.
  induction ps as [|q ps IH]; intros p [|w ws] L; try discriminate L; [cbn; now rewrite app_nil_r|].
  injection L as L. change (render (p :: q :: ps) (w :: ws)) with (p ++ w ++ render (q :: ps) ws). now rewrite IH.
Qed.
(** only the last separator may be empty *)
Fixpoint mid (ps : list str) : Prop := match ps with [] => True | [_] => True | p :: ps' => p <> [] /\ mid ps' end.
Lemma mid_tl p ps : mid (p :: ps) -> mid ps.
Proof. destruct ps; cbn; tauto. Qed.
Lemma mid_hd p ps : mid (p :: ps) -> ps <> [] -> p <> [].
Proof. destruct ps; cbn; [congruence|tauto]. Qed.

Definition match_step (first : bool) (p : str) (ps : list str) (rest : str) : option (list str) :=
  match find p rest with
  | None => None
  | Some i => if first && (0 <? i) then None
              else match match_pre false ps (skipn (i + length p) rest) with
                   | None => None | Some ws => Some (if first then ws else firstn i rest :: ws) end
  end.
Lemma match_cons first p ps rest : p <> [] -> match_pre first (p :: ps) rest = match_step first p ps rest.
Proof. destruct p; [congruence|reflexivity]. Qed.
Lemma skip_app {A} (a p b : list A) : skipn (length a + length p) (a ++ p ++ b) = b.
Proof. rewrite app_assoc, <- app_length, skipn_app, skipn_all, Nat.sub_diag. reflexivity. Qed.
Lemma first_app {A} (a b : list A) : firstn (length a) (a ++ b) = a.
Proof. rewrite firstn_app, firstn_all, Nat.sub_diag. cbn. now rewrite app_nil_r. Qed.

Lemma match_sound : forall ps rest ws, mid ps -> match_pre false ps rest = Some ws ->
  length ws = length ps /\ exists tail, rest = body ps ws ++ tail /\ (ps <> [] -> last ps [] = [] -> tail = []).
Proof.
  induction ps as [|p ps IH]; intros rest ws M H.
  - cbn in H. injection H as <-. split; [reflexivity|]. exists rest. split; [reflexivity|congruence].
  - destruct p as [|a p].
    + cbn in H. destruct ps as [|q ps]; [|exfalso; cbn in M; tauto]. cbn in H. injection H as <-. split; [reflexivity|].
      exists []. cbn. rewrite !app_nil_r. split; reflexivity.
    + rewrite match_cons in H by discriminate. unfold match_step in H. destruct (find (a :: p) rest) as [i|] eqn:F; [|discriminate].
      cbn [andb] in H. destruct (match_pre false ps _) as [ws'|] eqn:E; [|discriminate]. injection H as <-.
      apply find_some in F. destruct F as ((x & b & Er & L) & _). apply IH in E; [|now apply mid_tl in M]. destruct E as (L' & tail & E' & Tl).
      split; [cbn; now rewrite L'|]. exists tail. rewrite <- L in *. split.
      * rewrite Er in E'. rewrite skip_app in E'. cbn [body]. rewrite Er, first_app, E', <- !app_assoc. reflexivity.
      * intros _ Z. destruct ps as [|q ps]; [discriminate Z|]. apply Tl; [discriminate|exact Z].
Qed.
Lemma match_complete : forall ps ws rest, mid ps -> length ws = length ps ->
  (exists tail, rest = body ps ws ++ tail) -> exists ws', match_pre false ps rest = Some ws'.
Proof.
  induction ps as [|p ps IH]; intros ws rest M L (tail & E); [now exists []|].
  destruct ws as [|w ws]; [discriminate|]. injection L as L. destruct p as [|a p].
  - destruct ps as [|q ps]; [|exfalso; cbn in M; tauto]. cbn. eauto.
  - rewrite match_cons by discriminate. unfold match_step. cbn [body] in E.
    destruct (find_occurs (a :: p) rest (length w)) as (j & F & Hj).
    { exists w, (body ps ws ++ tail). split; [|reflexivity]. rewrite E, <- !app_assoc. reflexivity. }
    rewrite F. cbn [andb].
    assert (S1 : exists x, skipn (j + length (a :: p)) rest = x ++ body ps ws ++ tail).
    { exists (skipn (j + length (a :: p)) (w ++ a :: p)). rewrite E. rewrite <- !app_assoc. rewrite (app_assoc w (a :: p)).
      rewrite skipn_app. f_equal. rewrite app_length. replace (j + length (a :: p) - _) with 0 by lia. reflexivity. }
    destruct S1 as (x & S1). rewrite S1. destruct ps as [|q ps].
    + cbn. eauto.
    + destruct ws as [|w' ws]; [discriminate|]. destruct (IH ((x ++ w') :: ws) (x ++ body (q :: ps) (w' :: ws) ++ tail)) as (ws' & G).
      * now apply mid_tl in M.
      * exact L.
      * exists tail. cbn [body]. rewrite <- !app_assoc. reflexivity.
      * rewrite G. eauto.
Qed.
Lemma occurs_more p w more i : i <= length w -> occurs p (w ++ p ++ more) i -> occurs p (w ++ p) i.
Proof.
  intros Hi (a & b & E & L).
  assert (E1 : firstn (i + length p) (w ++ p ++ more) = a ++ p).
  { rewrite E, app_assoc, <- L, <- app_length. apply first_app. }
  assert (E2 : firstn (i + length p) (w ++ p ++ more) = firstn (i + length p) (w ++ p)).
  { rewrite (app_assoc w p more), firstn_app, app_length. replace (i + length p - _) with 0 by lia. cbn. now rewrite app_nil_r. }
  exists a, (skipn (i + length p) (w ++ p)). split; [|assumption]. rewrite app_assoc, <- E1, E2. symmetry. apply firstn_skipn.
Qed.
Lemma find_separated p w more : p <> [] -> (forall i, i < length w -> ~ occurs p (w ++ p) i) -> find p (w ++ p ++ more) = Some (length w).
Proof.
  intros Np S. apply find_some. split; [exists w, more; tauto|]. intros j Hj O. apply (S j Hj). apply (occurs_more _ _ more); [lia|assumption].
Qed.
Lemma match_round : forall ps ws, mid ps -> length ws = length ps -> separated ps ws -> match_pre false ps (body ps ws) = Some ws.
Proof.
  induction ps as [|p ps IH]; intros [|w ws] M L S; try discriminate L; [reflexivity|]. injection L as L. destruct S as (S1 & S2).
  destruct p as [|a p].
  - destruct ps as [|q ps]; [|exfalso; cbn in M; tauto]. destruct ws; [|discriminate]. cbn. now rewrite !app_nil_r.
  - rewrite match_cons by discriminate. unfold match_step. cbn [body]. rewrite find_separated; [|discriminate|now apply S1; discriminate].
    cbn [andb]. rewrite skip_app, IH; [|now apply mid_tl in M|assumption|assumption]. now rewrite first_app.
Qed.
(** well-formed texts: the first may be empty only if it is followed by at most one variable *)
Lemma match_first : forall p ps name, match_pre true (p :: ps) name =
  if prefixb p name then match_pre false ps (skipn (length p) name) else None.
Proof.
  intros [|a p] ps name; [cbn; destruct (match_pre false ps name); reflexivity|]. rewrite match_cons by discriminate. unfold match_step.
  destruct (find (a :: p) name) as [i|] eqn:F.
  - apply find_some in F. destruct F as (O & F). destruct i as [|i].
    + apply occurs_0 in O. rewrite O. cbn [Nat.ltb Nat.leb andb]. change (0 + length (a :: p)) with (length (a :: p)).
      destruct (match_pre false ps (skipn (length (a :: p)) name)); reflexivity.
    + cbn [Nat.ltb Nat.leb andb]. destruct (prefixb (a :: p) name) eqn:E; [|reflexivity]. exfalso. apply (F 0); [lia|]. now apply occurs_0.
  - destruct (prefixb (a :: p) name) eqn:E; [|reflexivity]. exfalso. apply occurs_0 in E. rewrite find_none in F. now apply F in E.
Qed.
Definition wf_pre (ps : list str) : Prop := match ps with [] => False | _ :: ps' => mid ps' end.

Lemma match_iff ps name : wf_pre ps -> (match_pre true ps name <> None <->
  exists ws tail, name = render ps ws ++ tail /\ length ps = S (length ws) /\ (2 <= length ps -> last ps [] = [] -> tail = [])).
Proof.
  destruct ps as [|p ps]; [intros []|]. intros M. cbn in M. rewrite match_first. split.
  - destruct (prefixb p name) eqn:E; [|congruence]. apply prefixb_iff in E. destruct E as (b & ->).
    rewrite skipn_app, skipn_all, Nat.sub_diag. cbn [skipn app]. destruct (match_pre false ps b) as [ws|] eqn:F; [|congruence]. intros _.
    apply match_sound in F; [|assumption]. destruct F as (L & tail & E & T). exists ws, tail. rewrite render_body by congruence.
    split; [rewrite E, app_assoc; reflexivity|]. split; [cbn; congruence|]. intros G Z. apply T; destruct ps; cbn in G; try lia; try congruence. exact Z.
  - intros (ws & tail & E & L & T). cbn in L. injection L as L. rewrite render_body in E by congruence. rewrite E, <- app_assoc.
    replace (prefixb p (p ++ _)) with true by (symmetry; apply prefixb_iff; eauto).
    rewrite skipn_app, skipn_all, Nat.sub_diag. cbn [skipn app]. destruct (match_complete ps ws (body ps ws ++ tail)) as (ws' & F); [assumption|congruence|eauto|].
    rewrite F. congruence.
Qed.
Lemma match_render ps ws : wf_pre ps -> length ps = S (length ws) -> separated (tl ps) ws -> match_pre true ps (render ps ws) = Some ws.
Proof.
  destruct ps as [|p ps]; [intros []|]. intros M L S. cbn [wf_pre tl List.length] in *. injection L as L. rewrite match_first.
  rewrite render_body by assumption.
  replace (prefixb p (p ++ _)) with true by (symmetry; apply prefixb_iff; eauto).
  rewrite skipn_app, skipn_all, Nat.sub_diag. cbn [skipn app]. apply match_round; congruence || assumption.
Qed.
Lemma match_tail : forall ps rest more ws, mid ps -> (ps = [] \/ last ps [] <> []) -> match_pre false ps rest = Some ws ->
  match_pre false ps (rest ++ more) = Some ws.
Proof.
  induction ps as [|p ps IH]; intros rest more ws M N H; [exact H|]. destruct p as [|a p].
  - destruct ps as [|q ps]; [|exfalso; cbn in M; tauto]. destruct N as [N|N]; [discriminate|]. now contradict N.
  - rewrite match_cons in H |- * by discriminate. unfold match_step in *. destruct (find (a :: p) rest) as [i|] eqn:F; [|discriminate].
    cbn [andb] in *. destruct (match_pre false ps _) as [ws'|] eqn:E in H; [|discriminate]. injection H as <-.
    pose proof F as F0. apply find_some in F. destruct F as ((x & b & Er & L) & F).
    assert (G : find (a :: p) (rest ++ more) = Some i).
    { apply find_some. split; [exists x, (b ++ more); split; [rewrite Er, <- !app_assoc; reflexivity|assumption]|].
      intros j Hj (x' & b' & E' & L'). apply (F j Hj). exists x', (skipn (j + length (a :: p)) rest). split; [|assumption].
      assert (Q : length (a :: p) + i <= length rest) by (rewrite Er, !app_length; lia).
      assert (E1 : firstn (j + length (a :: p)) (rest ++ more) = x' ++ a :: p) by (rewrite E', app_assoc, <- L', <- app_length; apply first_app).
      rewrite firstn_app in E1. replace (j + length (a :: p) - length rest) with 0 in E1 by lia. cbn [firstn] in E1. rewrite app_nil_r in E1.
      rewrite app_assoc, <- E1. symmetry. apply firstn_skipn. }
    rewrite G. assert (Q : i + length (a :: p) <= length rest) by (rewrite Er, !app_length; lia).
    rewrite skipn_app. replace (i + length (a :: p) - length rest) with 0 by lia. cbn [skipn].
    rewrite (IH _ more ws'); [|now apply mid_tl in M| |assumption].
    + rewrite firstn_app. replace (i - length rest) with 0 by lia. cbn [firstn]. now rewrite app_nil_r.
    + destruct ps; [now left|right]. destruct N as [N|N]; [discriminate|exact N].
Qed.
Lemma match_tail_first ps name more ws : wf_pre ps -> last ps [] <> [] -> match_pre true ps name = Some ws -> match_pre true ps (name ++ more) = Some ws.
Proof.
  destruct ps as [|p ps]; [intros []|]. intros M N. rewrite !match_first. destruct (prefixb p name) eqn:E; [|discriminate].
  apply prefixb_iff in E. destruct E as (b & ->). rewrite <- app_assoc. replace (prefixb p (p ++ _)) with true by (symmetry; apply prefixb_iff; eauto).
  rewrite !skipn_app, skipn_all, Nat.sub_diag. cbn [skipn app]. apply match_tail; [assumption|]. destruct ps; [now left|right; exact N].
Qed.
(** separators that cannot overlap with themselves *)
Lemma simple_ok p w : simple_sep p -> p <> [] -> ~ contains_text p w -> forall i, i < length w -> ~ occurs p (w ++ p) i.
Proof.
  intros Sp Np C i Hi (a & b & E & L). destruct p as [|c p]; [congruence|]. cbn in Sp.
  assert (W : exists u, w = a ++ u /\ u ++ c :: p = (c :: p) ++ b).
  { exists (skipn i w). assert (Ea : firstn i w = a).
    { rewrite <- (first_app a ((c :: p) ++ b)), <- E, L, firstn_app. replace (i - length w) with 0 by lia. cbn. now rewrite app_nil_r. }
    split; [rewrite <- Ea; symmetry; apply firstn_skipn|]. apply (app_inv_head a). rewrite <- E, app_assoc, <- Ea, firstn_skipn. reflexivity. }
  destruct W as (u & -> & E2). destruct (le_lt_dec (length (c :: p)) (length u)) as [G|G].
  - apply C. exists i, a, (skipn (length (c :: p)) u). split; [|assumption]. f_equal.
    transitivity (firstn (length (c :: p)) u ++ skipn (length (c :: p)) u); [symmetry; apply firstn_skipn|]. f_equal.
    assert (E3 : firstn (length (c :: p)) (u ++ c :: p) = c :: p) by (rewrite E2; apply first_app).
    rewrite firstn_app in E3. replace (length (c :: p) - length u) with 0 in E3 by lia. rewrite app_nil_r in E3. exact E3.
  - destruct u as [|x u]; [rewrite app_nil_r in Hi; lia|]. cbn in E2. injection E2 as _ E2. apply Sp.
    assert (T : nth_error (u ++ c :: p) (length u) = Some c) by (rewrite nth_error_app2, Nat.sub_diag by lia; reflexivity).
    rewrite E2, nth_error_app1 in T by (cbn in G; lia). now apply nth_error_In in T.
Qed.

(** templates *)
Fixpoint join (c : ascii) (l : list str) : str :=
  match l with [] => [] | [a] => a | a :: l' => a ++ c :: join c l' end.
Lemma split_ne c s : split c s <> [].
Proof. destruct s as [|a s]; cbn; [discriminate|]. destruct (aeq a c); [discriminate|]. now destruct (split c s). Qed.
Lemma join_split c : forall s, join c (split c s) = s.
Proof.
  induction s as [|a s IH]; [reflexivity|]. cbn. destruct (aeq a c) eqn:E.
  - apply aeq_eq in E. subst a. destruct (split c s) eqn:F; [now apply split_ne in F|]. cbn in IH |- *. now rewrite IH.
  - destruct (split c s) as [|w ws] eqn:F; [now apply split_ne in F|]. rewrite <- IH. now destruct ws.
Qed.
Lemma parse_parts_ok : forall parts first ps vs, parts <> [] -> parse_parts first parts = Ok (ps, vs) ->
  length ps = S (length vs) /\ render ps (map bracket vs) = join ">"%char parts /\ (first = false -> mid ps) /\ wf_pre ps.
Proof.
  induction parts as [|p parts IH]; intros first ps vs N H; [congruence|]. clear N. destruct parts as [|p2 parts].
  - cbn in H. injection H as <- <-. cbn. tauto.
  - cbn [parse_parts] in H. destruct (split "<"%char p) as [|q [|v [|? ?]]] eqn:E; try discriminate.
    destruct (negb first && _) eqn:C; [discriminate|]. apply bind_ok in H. destruct H as ((ps' & vs') & H & H2). injection H2 as <- <-.
    apply IH in H; [|discriminate]. destruct H as (L & R & M & W). specialize (M eq_refl). cbn [fst snd].
    assert (Ep : p = q ++ "<"%char :: v) by (rewrite <- (join_split "<"%char p), E; reflexivity).
    split; [cbn; now rewrite L|]. split; [|split].
    + change (render (q :: ps') (map bracket (v :: vs'))) with (q ++ bracket v ++ render ps' (map bracket vs')). rewrite R.
      change (join ">"%char (p :: p2 :: parts)) with (p ++ ">"%char :: join ">"%char (p2 :: parts)). rewrite Ep. unfold bracket.
      rewrite <- !app_assoc. cbn. rewrite <- !app_assoc. reflexivity.
    + intros ->. cbn in C. destruct ps' as [|q' ps']; [exact I|]. split; [|exact M]. intros ->. discriminate.
    + exact M.
Qed.
Lemma parse_template_ok t ps vs : parse_template t = Ok (ps, vs) ->
  length ps = S (length vs) /\ render ps (map bracket vs) = t /\ wf_pre ps.
Proof.
  unfold parse_template. intros H. apply bind_ok in H. destruct H as ((ps' & vs') & H & H2). destruct (indicators_ok _ _); [|discriminate].
  injection H2 as -> ->. apply parse_parts_ok in H; [|apply split_ne]. destruct H as (L & R & _ & W). rewrite join_split in R. tauto.
Qed.

(** dictionaries *)
Lemma dget_dput {A} (d : dict A) k k' a : dget (dput d k a) k' = if seqb k k' then Some a else dget d k'.
Proof.
  induction d as [|(k0, b) d IH]; cbn [dput dget]; [reflexivity|]. destruct (seqb k0 k) eqn:E; cbn [dget].
  - apply seqb_eq in E. subst k0. destruct (seqb k k'); reflexivity.
  - destruct (seqb k0 k') eqn:E'; [|assumption]. apply seqb_eq in E'. subst k0. destruct (seqb k k') eqn:E2; [|reflexivity].
    apply seqb_eq in E2. subst k'. rewrite seqb_refl in E. discriminate.
Qed.
Lemma dget_dupdate {A} (u : dict A) : forall d k, ~ In k (map fst u) -> dget (dupdate d u) k = dget d k.
Proof.
  induction u as [|(k0, a) u IH]; intros d k N; [reflexivity|]. cbn [dupdate fold_left fst snd]. 
  change (dget (dupdate (dput d k0 a) u) k = dget d k). rewrite IH by (intros X; apply N; now right). rewrite dget_dput.
  rewrite seqb_neq; [reflexivity|]. intros X. apply N. now left.
Qed.
Lemma dget_some_in {A} (d : dict A) k a : dget d k = Some a -> In (k, a) d.
Proof.
  induction d as [|(k0, b) d IH]; cbn; [discriminate|]. destruct (seqb k0 k) eqn:E; intros H.
  - apply seqb_eq in E. injection H as ->. subst. now left.
  - right. now apply IH.
Qed.

(** values of a rendered name *)
Inductive all_conv (f : factory) : list str -> list str -> list value -> Prop :=
| ac_nil : all_conv f [] [] []
| ac_cons v vs w ws x xs : convert f v w = Ok x -> all_conv f vs ws xs -> all_conv f (v :: vs) (w :: ws) (x :: xs).
Lemma collect_ok f : forall vs ws xs kw, all_conv f vs ws xs -> NoDup (map (arg_name f) vs) ->
  exists kw', collect f vs ws kw = Ok kw' /\
    (forall k, ~ In k (map (arg_name f) vs) -> dget kw' k = dget kw k) /\
    (forall i v x, nth_error vs i = Some v -> nth_error xs i = Some x -> dget kw' (arg_name f v) = Some x).
Proof.
  intros vs ws xs kw H. revert kw. induction H as [|v vs w ws x xs C H IH]; intros kw N.
  - exists kw. cbn. repeat split. intros [|i] v x E; discriminate.
  - cbn [map] in N. inversion N as [|? ? N1 N2]. subst. cbn [collect]. rewrite C. cbn [bind]. destruct (IH (dput kw (arg_name f v) x) N2) as (kw' & E & K1 & K2).
    exists kw'. split; [assumption|]. split.
    + intros k Hk. cbn [map In] in Hk. rewrite K1 by tauto. rewrite dget_dput, seqb_neq; [reflexivity|]. intros X. apply Hk. now left.
    + intros [|i] v' x' E1 E2; cbn [nth_error] in *.
      * injection E1 as <-. injection E2 as <-. rewrite K1 by assumption. now rewrite dget_dput, seqb_refl.
      * now apply (K2 i).
Qed.

(** FDict *)
Lemma first_construct_ok l k f kw : first_construct l k = Ok (f, kw) -> In f l /\ construct f k = Ok kw.
Proof.
  induction l as [|g l IH]; cbn; [discriminate|]. destruct (construct g k) as [kw'|[]] eqn:E; try discriminate.
  - intros H. injection H as <- <-. tauto.
  - intros H. apply IH in H. tauto.
Qed.
Lemma construct_match f k kw : construct f k = Ok kw -> check_match f k = true.
Proof.
  unfold construct, match_pars, check_match. destruct (match_pre true (pre f) k); [reflexivity|]. cbn. discriminate.
Qed.
Lemma getitem_contains d k d' o : getitem d k = (d', Ok o) -> contains d k = true.
Proof.
  unfold getitem, contains. destruct (dget (items d) k); [reflexivity|]. destruct (first_construct (facs d) k) as [(f, kw)|] eqn:E; [|discriminate].
  intros _. apply first_construct_ok in E. destruct E as (I & C). apply existsb_exists. exists f. split; [assumption|]. now apply construct_match in C.
Qed.
Lemma first_construct_err l k : (exists f kw, In f l /\ construct f k = Ok kw) ->
  (forall f, In f l -> forall e, construct f k = Err e -> e = ValueError) -> exists r, first_construct l k = Ok r.
Proof.
  induction l as [|g l IH]; intros (f & kw & I & C) H; [destruct I|]. cbn. destruct (construct g k) as [kw'|e] eqn:E; [eauto|].
  assert (e = ValueError) by (apply (H g); [now left|assumption]). subst e. apply IH.
  - exists f, kw. split; [|assumption]. destruct I as [I|I]; [congruence|assumption].
  - intros f' I'. apply H. now right.
Qed.
(** histories *)
Inductive op := OSet (k : str) | OGet (k : str) | OIn (k : str) | OAdd (f : factory).
Definition run_op (d : fdict) (o : op) : fdict :=
  match o with OSet k => set_item d k | OGet k => fst (getitem d k) | OIn _ => d | OAdd f => add_factory d f end.
Definition run_ops (d : fdict) (l : list op) : fdict := fold_left run_op l d.
Lemma run_op_keep d o k x : dget (items d) k = Some x -> (forall k', o = OSet k' -> k' <> k) -> dget (items (run_op d o)) k = Some x.
Proof.
  intros H N. destruct o as [k'|k'|k'|f]; cbn; try assumption.
  - rewrite dget_dput, seqb_neq; [assumption|]. now apply N.
  - unfold getitem. destruct (dget (items d) k') as [y|] eqn:E; [assumption|]. destruct (first_construct (facs d) k'); [|assumption]. cbn.
    destruct (store d); [|assumption]. rewrite dget_dput. destruct (seqb k' k) eqn:E'; [|assumption]. apply seqb_eq in E'. congruence.
Qed.
Lemma run_ops_keep l : forall d k x, dget (items d) k = Some x -> (forall k', In (OSet k') l -> k' <> k) -> dget (items (run_ops d l)) k = Some x.
Proof.
  induction l as [|o l IH]; intros d k x H N; [assumption|]. cbn. apply IH.
  - apply run_op_keep; [assumption|]. intros k' ->. apply N. now left.
  - intros k' Hk. apply N. now right.
Qed.
Lemma getitem_stored d k d' x : store d = true -> getitem d k = (d', Ok x) -> dget (items d') k = Some x.
Proof.
  intros S. unfold getitem. destruct (dget (items d) k) as [y|] eqn:E.
  - intros H. injection H as <- <-. assumption.
  - destruct (first_construct (facs d) k); [|discriminate]. rewrite S. intros H. injection H as <- <-. cbn. now rewrite dget_dput, seqb_refl.
Qed.
Lemma getitem_fresh d d' k o : (forall k' x, dget (items d) k' = Some x -> x < next d) -> getitem d k = (d', Ok o) ->
  (forall k' x, dget (items d') k' = Some x -> x < next d') /\ next d <= next d'.
Proof.
  intros H. unfold getitem. destruct (dget (items d) k) as [y|] eqn:E.
  - intros E1. injection E1 as <- <-. split; [assumption|lia].
  - destruct (first_construct (facs d) k); [|discriminate]. intros E1. injection E1 as <- <-. cbn. split; [|lia]. intros k' x. destruct (store d).
    + rewrite dget_dput. destruct (seqb k k'); intros G; [injection G as <-; lia|]. apply H in G. lia.
    + intros G. apply H in G. lia.
Qed.
