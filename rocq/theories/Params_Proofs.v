(** Proofs about Params_Model. *)
From Coq Require Import String.
From Verif Require Import Base Params_Model Params_Spec.

Lemma look_put k v p j : look j (put k v p) = if String.eqb j k then Some v else look j p.
Proof.
  induction p as [|[k' v'] q IH]; cbn [put look]; [destruct (String.eqb j k); reflexivity|].
  destruct (String.eqb k k') eqn:E.
  - apply String.eqb_eq in E; subst. cbn [look]. destruct (String.eqb j k'); reflexivity.
  - cbn [look]. destruct (String.eqb j k') eqn:F; [|exact IH].
    apply String.eqb_eq in F; subst. rewrite String.eqb_sym, E. reflexivity.
Qed.
Lemma put_id k v p : look k p = Some v -> put k v p = p.
Proof.
  induction p as [|[k' v'] q IH]; cbn [put look]; [discriminate|].
  destruct (String.eqb k k') eqn:E; intros H.
  - apply String.eqb_eq in E; subst. injection H as ->. reflexivity.
  - rewrite (IH H). reflexivity.
Qed.
Lemma look_in k u v : look k u = Some v -> In (k, v) u.
Proof.
  induction u as [|[k' v'] q IH]; cbn [look]; [discriminate|].
  destruct (String.eqb k k') eqn:E; intros H; [|right; auto].
  apply String.eqb_eq in E; subst. injection H as ->. left; reflexivity.
Qed.
Lemma look_none k u : look k u = None -> ~ In k (map fst u).
Proof.
  induction u as [|[k' v'] q IH]; cbn [look map fst]; [tauto|].
  destruct (String.eqb k k') eqn:E; [discriminate|]. intros H [F|F]; [|exact (IH H F)].
  subst. rewrite String.eqb_refl in E. discriminate.
Qed.
Lemma look_update u p k : NoDup (map fst u) ->
  look k (update p u) = match look k u with Some v => Some v | None => look k p end.
Proof.
  revert p; induction u as [|[k' v'] q IH]; intros p N; [reflexivity|].
  cbn [map fst] in N. inversion N as [|? ? N1 N2]; subst.
  change (update p ((k', v') :: q)) with (update (put k' v' p) q).
  rewrite (IH _ N2), look_put. cbn [look].
  destruct (String.eqb k k') eqn:E; [|reflexivity].
  apply String.eqb_eq in E; subst. destruct (look k' q) as [v|] eqn:F; [|reflexivity].
  apply look_in in F. exfalso. apply N1. apply in_map_iff. exists (k', v). split; auto.
Qed.
Lemma update_id u p : (forall k v, In (k, v) u -> look k p = Some v) -> update p u = p.
Proof.
  induction u as [|[k v] q IH]; intros H; [reflexivity|].
  change (update p ((k, v) :: q)) with (update (put k v p) q).
  rewrite (put_id k v p); [|apply H; left; reflexivity].
  apply IH. intros; apply H; right; assumption.
Qed.
Lemma update_twice u p : NoDup (map fst u) -> update (update p u) u = update p u.
Proof.
  intros N. apply update_id. intros k v I. rewrite (look_update _ _ _ N).
  enough (look k u = Some v) as -> by reflexivity.
  clear p. induction u as [|[k' v'] q IH]; [destruct I|].
  cbn [map fst] in N. inversion N as [|? ? N1 N2]; subst. cbn [look].
  destruct I as [Q|I]; [injection Q as -> ->; rewrite String.eqb_refl; reflexivity|].
  destruct (String.eqb k k') eqn:E; [|auto].
  apply String.eqb_eq in E; subst. exfalso. apply N1. apply in_map_iff. exists (k', v). auto.
Qed.

(** the dictionary after a run without errors *)
Definition algo_after (g : given) (p : params) : option pars :=
  if g_algo g then p_algo p
  else match p_algo p with
       | Some a => Some (update (if g_iter g then put "algo_type"%string 0 a else a) (g_pars g))
       | None => None
       end.
Definition spent (g : given) (p : params) : params :=
  mkparams (p_states p) (p_book p)
    (if g_farm g || g_algo g then p_farm p
     else match p_farm p with Some f => Some (mkfsec None (f_args f)) | None => None end)
    (p_engine p) (algo_after g p)
    (match p_calc p with Some c => Some (mkcsec None (c_args c)) | None => None end)
    (match p_points p with
     | Some q => Some (mkpsec None (if wants_points p then None else q_points q) (q_args q))
     | None => None end)
    (p_outputs p).

Lemma outs_run ext f q os s : all_well ext ->
  run_outs ext f q os s =
    (mkst (par s) (eng s)
       (log s ++ map (fun o => EvOut (o_id o) f q) (active f os)),
     Ok (map (fun o => negb (o_needs o) || f) os)).
Proof.
  intros W. revert s; induction os as [|o r IH]; intros [p e l].
  - cbn. rewrite app_nil_r. reflexivity.
  - cbn [run_outs]. unfold active. cbn [filter map].
    destruct (o_needs o), f; cbn [andb negb orb]; unfold mbind, mask, mret; cbn [log par eng];
      try rewrite (W l); cbn [log par eng]; rewrite IH; cbn [log par eng map];
      rewrite <-?app_assoc; reflexivity.
Qed.

(** what a run does, when all calls succeed *)
Lemma run_once ext g p e0 l : all_well ext -> complete g p ->
  (engine_of g p <> None -> e0 = None) ->
  exists a, algo_after g p = (if g_algo g then p_algo p else Some a) /\
  run_dict ext g (mkst p e0 l) =
    (mkst (spent g p) e0 (l ++ plan g p a),
     Ok (wants_farm p, (match p_points p with None => None | Some _ => Some (wants_points p) end),
         map (fun o => negb (o_needs o) || wants_farm p) (p_outputs p))).
Proof.
  intros W [C1 C2] E.
  assert (exists a, algo_after g p = (if g_algo g then p_algo p else Some a)) as [a A].
  { unfold algo_after. destruct (g_algo g) eqn:G; [exists []; reflexivity|].
    destruct C1 as (C1 & _). destruct (p_algo p) as [a|]; [|congruence]. eexists; reflexivity. }
  exists a; split; [exact A|].
  unfold run_dict.
  assert (R : read_dict ext g (mkst p e0 l) =
    (mkst (set_algo (algo_after g p)
            (set_farm (if g_farm g || g_algo g then p_farm p
               else match p_farm p with Some f => Some (mkfsec None (f_args f)) | None => None end) p))
          (match engine_of g p with Some e => Some e | None => e0 end)
          (l ++ (if g_states g || g_algo g then []
             else match p_states p with Some s => [EvStates s] | None => [] end)
            ++ (if g_book g || g_algo g then []
                else match p_book p with Some b => [EvBook b] | None => [] end)
            ++ (if g_farm g || g_algo g then []
                else match p_farm p with
                     | Some f => match f_layouts f with Some l => [EvFarm (f_args f) l] | None => [] end
                     | None => [] end)
            ++ match engine_of g p with Some e => [EvStart e] | None => [] end
            ++ (if g_algo g then [] else [EvAlgo a])), Ok (engine_of g p))).
  { unfold read_dict, read_states, read_book, read_farm, read_engine, read_algo, start,
      engine_of, algo_after in *.
    destruct p as [ps pb pf pe pa pc pp po]; cbn [p_states p_book p_farm p_engine p_algo p_calc p_points p_outputs] in *.
    destruct g as [gf gs gb ga ge gi gp]; cbn [g_farm g_states g_book g_algo g_engine g_iter g_pars] in *.
    destruct ga.
    - destruct C1 as (-> & -> & ->). cbn [orb].
      destruct ge as [i|]; [|destruct pe as [i|]];
        try (assert (e0 = None) as -> by (apply E; discriminate));
        unfold mbind, mret, mpar; cbn [par eng log p_engine]; try rewrite W; cbn [par eng log];
        rewrite ?app_nil_r, ?app_nil_l; try reflexivity.
    - destruct C1 as (Ca & Cs & Cf). destruct pa as [a0|]; [|congruence].
      injection A as <-. rewrite !Bool.orb_false_r.
      destruct gs; [|destruct Cs as [Cs|Cs]; [discriminate|]; destruct ps as [s0|]; [|congruence]];
      (destruct gb; [|destruct pb as [b0|]]);
      (destruct gf; [|destruct Cf as [Cf|(f & Cf & Cl)]; [discriminate|]; rewrite Cf; destruct (f_layouts f) as [ly|] eqn:FL; [|congruence]]);
      (destruct ge as [i|]; [|destruct pe as [i|]]);
      try (assert (e0 = None) as -> by (apply E; discriminate));
      unfold mbind, mret, mpar, mask, mget, mset; cbn; rewrite ?W; cbn; rewrite ?FL; cbn;
      repeat ((rewrite W || (rewrite FL; unfold mret)); cbn); rewrite <-?app_assoc; cbn; try reflexivity. }
  unfold mbind at 1. rewrite R. clear R.
  set (pre := l ++ _).
  unfold mbind, run_calc, run_points, mpar, mret, mask, mget, mset, stop, plan, spent, wants_farm, wants_points in *.
  destruct p as [ps pb pf pe pa pc pp po]; cbn [par eng log p_states p_book p_farm p_engine p_algo p_calc p_points p_outputs set_algo set_farm set_calc set_points] in *.
  destruct pc as [[[[]|] ca]|]; cbn [c_run c_args] in *;
  (destruct pp as [[[[]|] [t|] qa]|]; cbn [q_run q_points q_args] in *;
    try (exfalso; destruct C2; congruence);
    try (exfalso; destruct C2 as [_ C2']; apply C2'; reflexivity));
  cbn; unfold mbind; cbn; repeat (rewrite W; cbn); rewrite (outs_run ext _ _ _ _ W); cbn [par eng log];
  (destruct (engine_of g _) as [e|] eqn:EN in |- *; [unfold mask; cbn [log]; rewrite W|]); cbn [par eng log];
  try (assert (e0 = None) as -> by (apply E; rewrite EN; discriminate));
  unfold pre; rewrite ?EN, <-?app_assoc; cbn [app]; rewrite ?app_nil_r; try reflexivity.
Qed.

(** computations that neither start nor stop an engine *)
Definition is_start (e : event) : bool := match e with EvStart _ => true | _ => false end.
Definition tame {A} (m : M A) : Prop := forall s, exists t,
  log (fst (m s)) = log s ++ t /\ eng (fst (m s)) = eng s /\ forallb (fun e => negb (is_start e)) t = true
  /\ p_engine (par (fst (m s))) = p_engine (par s).
Lemma tame_bind {A B} (m : M A) (f : A -> M B) : tame m -> (forall a, tame (f a)) -> tame (mbind m f).
Proof.
  intros T U s. unfold mbind. destruct (T s) as (t & L & E & N & P).
  destruct (m s) as [s1 [a|x]]; cbn [fst] in *.
  - destruct (U a s1) as (t2 & L2 & E2 & N2 & P2). exists (t ++ t2).
    rewrite L2, L, app_assoc, E2, E, P2, P, forallb_app, N, N2. repeat split.
  - exists t. repeat split; assumption.
Qed.
Lemma tame_ret {A} (a : A) : tame (mret a).
Proof. intros s. exists []. cbn. rewrite app_nil_r. repeat split. Qed.
Lemma tame_fail {A} e : tame (@mfail A e).
Proof. intros s. exists []. cbn. rewrite app_nil_r. repeat split. Qed.
Lemma tame_par : tame mpar.
Proof. intros s. exists []. cbn. rewrite app_nil_r. repeat split. Qed.
Lemma tame_get {A} (o : option A) : tame (mget o).
Proof. destruct o; [apply tame_ret|apply tame_fail]. Qed.
Lemma tame_set f : (forall p, p_engine (f p) = p_engine p) -> tame (mset f).
Proof. intros F s. exists []. cbn. rewrite app_nil_r. repeat split. apply F. Qed.
Lemma tame_mask ext e : is_start e = false -> tame (mask ext e).
Proof.
  intros F s. unfold mask. destruct (ext (log s) e) eqn:X; cbn [fst log eng par].
  - exists []. rewrite app_nil_r. repeat split.
  - exists [e]. cbn [forallb]. rewrite F. repeat split.
Qed.
Ltac tamed := repeat (first [apply tame_bind; [|intros ?] | apply tame_ret | apply tame_fail
  | apply tame_par | apply tame_get | (apply tame_set; intros []; reflexivity)
  | (apply tame_mask; reflexivity)]).
Lemma tame_states ext g : tame (read_states ext g).
Proof. unfold read_states. destruct (g_states g), (g_algo g); tamed. Qed.
Lemma tame_book ext g : tame (read_book ext g).
Proof. unfold read_book. destruct (g_book g), (g_algo g); tamed. destruct (p_book a); tamed. Qed.
Lemma tame_farm ext g : tame (read_farm ext g).
Proof. unfold read_farm. destruct (g_farm g), (g_algo g); tamed. Qed.
Lemma tame_algo ext g : tame (read_algo ext g).
Proof. unfold read_algo. destruct (g_algo g); tamed. Qed.
Lemma tame_calc ext : tame (run_calc ext).
Proof.
  unfold run_calc. tamed. destruct (p_calc a) as [c|]; tamed. destruct (c_run c) as [[]|]; tamed.
Qed.
Lemma tame_points ext f : tame (run_points ext f).
Proof.
  unfold run_points. tamed. destruct (p_points a) as [q|]; tamed.
  match goal with |- tame (if ?b then _ else _) => destruct b end; tamed.
Qed.
Lemma tame_outs ext f q os : tame (run_outs ext f q os).
Proof.
  induction os as [|o r IH]; cbn [run_outs]; tamed; [|exact IH].
  destruct (o_needs o && negb f); tamed.
Qed.

Definition before (ext : env) (g : given) : M unit :=
  let* _ := read_states ext g in let* _ := read_book ext g in read_farm ext g.
Definition after (ext : env) (g : given) : M (bool * option bool * list bool) :=
  let* _ := read_algo ext g in
  let* f := run_calc ext in
  let* q := run_points ext f in
  let* p := mpar in
  let* o := run_outs ext f (match q with Some b => b | None => false end) (p_outputs p) in
  mret (f, q, o).
Lemma tame_before ext g : tame (before ext g).
Proof.
  unfold before. apply tame_bind; [apply tame_states|intros _].
  apply tame_bind; [apply tame_book|intros _]. apply tame_farm.
Qed.
Lemma tame_after ext g : tame (after ext g).
Proof.
  unfold after. apply tame_bind; [apply tame_algo|intros _].
  apply tame_bind; [apply tame_calc|intros f]. apply tame_bind; [apply tame_points|intros q].
  apply tame_bind; [apply tame_par|intros p]. apply tame_bind; [apply tame_outs|intros o].
  apply tame_ret.
Qed.
Lemma run_split ext g s : run_dict ext g s =
  mbind (before ext g) (fun _ => mbind (read_engine ext g) (fun e =>
    mbind (after ext g) (fun r =>
      mbind (match e with None => mret tt | Some i => stop ext i end) (fun _ => mret r)))) s.
Proof.
  unfold run_dict, read_dict, before, after, mbind, mret.
  repeat match goal with
  | |- context [let (_, _) := ?m ?s in _] => destruct (m s) as [? [?|?]] eqn:?; cbn [fst snd]
  end; reflexivity.
Qed.
(** the engine step *)
Lemma engine_step ext g s : read_engine ext g s =
  match engine_of g (par s) with
  | None => (s, Ok None)
  | Some e => match ext (log s) (EvStart e) with
              | Some x => (s, Err x)
              | None => match eng s with
                        | Some _ => (s, Err ValueError)
                        | None => (mkst (par s) (Some e) (log s ++ [EvStart e]), Ok (Some e))
                        end
              end
  end.
Proof.
  unfold read_engine, engine_of, mbind, mret, mpar, start.
  destruct (g_engine g) as [e|]; [|destruct (p_engine (par s)) as [e|]; [|reflexivity]];
    destruct (ext (log s) (EvStart e)); try reflexivity; destruct (eng s); reflexivity.
Qed.

Lemma ended_well ext g s s' r : eng s = None -> run_dict ext g s = (s', Ok r) -> eng s' = None.
Proof.
  rewrite run_split. unfold mbind at 1. intros E0 H.
  destruct (tame_before ext g s) as (t & L & E & N & P).
  destruct (before ext g s) as [s1 [a|x]]; cbn [fst] in *; [|discriminate].
  unfold mbind at 1 in H. rewrite engine_step in H. rewrite E, E0 in H.
  destruct (engine_of g (par s1)) as [e|].
  - destruct (ext (log s1) (EvStart e)); [discriminate|].
    unfold mbind at 1 in H. set (s2 := mkst _ _ _) in H.
    destruct (tame_after ext g s2) as (t2 & L2 & E2 & N2 & P2).
    destruct (after ext g s2) as [s3 [b|y]]; cbn [fst] in *; [|discriminate].
    unfold stop, mbind, mask, mret in H. destruct (ext (log s3) (EvStop e)); [discriminate|].
    injection H as <- _. reflexivity.
  - unfold mbind at 1 in H.
    destruct (tame_after ext g s1) as (t2 & L2 & E2 & N2 & P2).
    destruct (after ext g s1) as [s3 [b|y]]; cbn [fst] in *; [|discriminate].
    unfold mbind, mret in H. injection H as <- _. congruence.
Qed.

Lemma ended_badly ext g s s' x : eng s = None -> run_dict ext g s = (s', Err x) ->
  exists t, log s' = log s ++ t /\
    ((eng s' = None /\ forall e, ~ In (EvStart e) t)
     \/ exists e, engine_of g (par s) = Some e /\ In (EvStart e) t /\ eng s' = Some e).
Proof.
  assert (NS : forall t, forallb (fun e => negb (is_start e)) t = true -> forall e, ~ In (EvStart e) t).
  { intros t F e I. rewrite forallb_forall in F. specialize (F _ I). discriminate. }
  rewrite run_split. unfold mbind at 1. intros E0 H.
  destruct (tame_before ext g s) as (t & L & E & N & P).
  destruct (before ext g s) as [s1 [a|y]]; cbn [fst] in *.
  2:{ injection H as <- _. exists t. split; [exact L|]. left. rewrite E. split; [exact E0|]. apply NS, N. }
  unfold mbind at 1 in H. rewrite engine_step in H. rewrite E, E0 in H.
  assert (EO : engine_of g (par s1) = engine_of g (par s)) by (unfold engine_of; rewrite P; reflexivity).
  destruct (engine_of g (par s1)) as [e|].
  - destruct (ext (log s1) (EvStart e)).
    { injection H as <- _. exists t. split; [exact L|]. left. rewrite E. split; [exact E0|]. apply NS, N. }
    unfold mbind at 1 in H. set (s2 := mkst _ _ _) in H.
    destruct (tame_after ext g s2) as (t2 & L2 & E2 & N2 & P2).
    destruct (after ext g s2) as [s3 [b|y]]; cbn [fst] in *.
    + unfold stop, mbind, mask, mret in H. destruct (ext (log s3) (EvStop e)); [|discriminate].
      injection H as <- _. exists (t ++ [EvStart e] ++ t2). split.
      * rewrite L2. cbn [s2 log]. rewrite L, <-!app_assoc. reflexivity.
      * right. exists e. split; [congruence|]. split; [|exact E2].
        apply in_or_app; right; left; reflexivity.
    + injection H as <- _. exists (t ++ [EvStart e] ++ t2). split.
      * rewrite L2. cbn [s2 log]. rewrite L, <-!app_assoc. reflexivity.
      * right. exists e. split; [congruence|]. split; [|exact E2].
        apply in_or_app; right; left; reflexivity.
  - unfold mbind at 1 in H.
    destruct (tame_after ext g s1) as (t2 & L2 & E2 & N2 & P2).
    destruct (after ext g s1) as [s3 [b|y]]; cbn [fst] in *; [unfold mbind, mret in H; discriminate|].
    injection H as <- _. exists (t ++ t2). split; [rewrite L2, L, app_assoc; reflexivity|].
    left. split; [congruence|]. apply NS. rewrite forallb_app, N, N2. reflexivity.
Qed.

Lemma blocked ext g s i e : eng s = Some i -> engine_of g (par s) = Some e ->
  exists s' x, run_dict ext g s = (s', Err x) /\ eng s' = Some i.
Proof.
  intros E0 G. rewrite run_split. unfold mbind at 1.
  destruct (tame_before ext g s) as (t & L & E & N & P).
  destruct (before ext g s) as [s1 [a|y]]; cbn [fst] in *; [|exists s1, y; split; congruence].
  unfold mbind at 1. rewrite engine_step, E, E0.
  assert (EO : engine_of g (par s1) = Some e) by (rewrite <- G; unfold engine_of; rewrite P; reflexivity).
  rewrite EO. destruct (ext (log s1) (EvStart e)) as [x|]; eexists _, _; (split; [reflexivity|]); congruence.
Qed.

(** the second run *)
Lemma engine_spent g g' p : engine_of g (spent g' p) = engine_of g p.
Proof. reflexivity. Qed.
Lemma second_layouts ext g g' p e l : all_well ext -> g_farm g = false -> g_algo g = false ->
  g_algo g' = false -> g_farm g' = false -> p_farm p <> None ->
  (g_states g' = true \/ p_states p <> None) ->
  exists s', run_dict ext g' (mkst (spent g p) e l) = (s', Err KeyError)
             /\ eng s' = e /\ forall a, ~ In (EvCalc a) (skipn (List.length l) (log s')).
Proof.
  intros W G A A' G' PF PS. destruct (p_farm p) as [f|] eqn:F; [|congruence].
  unfold run_dict, read_dict, read_states, read_book, read_farm, mbind, mpar, mret, mask.
  unfold spent. rewrite A', G', A, G, F. cbn [orb].
  assert (SK : forall t, skipn (List.length l) (l ++ t) = t)
    by (intros; rewrite skipn_app, skipn_all, Nat.sub_diag; reflexivity).
  assert (SK0 : skipn (List.length l) l = []) by apply skipn_all.
  destruct (g_states g') eqn:GS; [|destruct PS as [PS|PS]; [congruence|];
    destruct (p_states p) as [ps|] eqn:PST; [|congruence]];
  (destruct (g_book g'); [|destruct (p_book p) as [b|] eqn:B]);
  cbn; rewrite ?PST; cbn; rewrite ?W; cbn; rewrite ?B; cbn; rewrite ?W; cbn;
  (eexists; split; [reflexivity|split; [reflexivity|]]); cbn;
  rewrite <-?app_assoc, ?SK, ?SK0; intros; cbn; intuition discriminate.
Qed.

Lemma mbind_ok {A B} (m : M A) (f : A -> M B) s s' b : mbind m f s = (s', Ok b) ->
  exists s1 a, m s = (s1, Ok a) /\ f a s1 = (s', Ok b).
Proof. unfold mbind. destruct (m s) as [s1 [a|x]]; [eauto|discriminate]. Qed.
(** computations that leave the section of the points alone *)
Definition keeps {A} (m : M A) : Prop := forall s,
  p_points (par (fst (m s))) = p_points (par s) /\ p_algo (par (fst (m s))) = p_algo (par s).
Lemma keeps_bind {A B} (m : M A) (f : A -> M B) : keeps m -> (forall a, keeps (f a)) -> keeps (mbind m f).
Proof.
  intros T U s. unfold mbind. specialize (T s). destruct (m s) as [s1 [a|x]]; [|exact T].
  cbn [fst] in T. destruct (U a s1) as [U1 U2]. rewrite U1, U2. exact T.
Qed.
Lemma keeps_ret {A} (a : A) : keeps (mret a). Proof. intros s; split; reflexivity. Qed.
Lemma keeps_fail {A} e : keeps (@mfail A e). Proof. intros s; split; reflexivity. Qed.
Lemma keeps_par : keeps mpar. Proof. intros s; split; reflexivity. Qed.
Lemma keeps_get {A} (o : option A) : keeps (mget o). Proof. destruct o; intros s; split; reflexivity. Qed.
Lemma keeps_mask ext e : keeps (mask ext e).
Proof. intros s. unfold mask. destruct (ext (log s) e); split; reflexivity. Qed.
Lemma keeps_set f : (forall p, p_points (f p) = p_points p /\ p_algo (f p) = p_algo p) -> keeps (mset f).
Proof. intros F s. apply F. Qed.
Ltac kept := repeat (first [apply keeps_bind; [|intros ?] | apply keeps_ret | apply keeps_fail
  | apply keeps_par | apply keeps_get | (apply keeps_set; intros []; split; reflexivity) | apply keeps_mask]).

Lemma incomplete ext g s s' r : run_dict ext g s = (s', Ok r) -> complete g (par s).
Proof.
  rewrite run_split. intros H.
  apply mbind_ok in H as (s1 & [] & HB & H). apply mbind_ok in H as (s2 & e & HE & H).
  apply mbind_ok in H as (s3 & r1 & HA & _).
  unfold before in HB. apply mbind_ok in HB as (t1 & [] & H1 & HB).
  apply mbind_ok in HB as (t2 & [] & H2 & H3).
  assert (K1 : keeps (read_states ext g)) by (unfold read_states; destruct (g_states g), (g_algo g); kept).
  assert (K2 : keeps (read_book ext g)) by (unfold read_book; destruct (g_book g), (g_algo g); kept; destruct (p_book a); kept).
  assert (K3 : keeps (read_farm ext g)) by (unfold read_farm; destruct (g_farm g), (g_algo g); kept).
  specialize (K1 s). rewrite H1 in K1. specialize (K2 t1). rewrite H2 in K2. specialize (K3 t2). rewrite H3 in K3.
  cbn [fst] in K1, K2, K3.
  rewrite engine_step in HE.
  assert (K4 : par s2 = par s1).
  { destruct (engine_of g (par s1)); [destruct (ext (log s1) (EvStart n)); [discriminate|]; destruct (eng s1); [discriminate|]|];
      injection HE as <- _; reflexivity. }
  unfold after in HA. apply mbind_ok in HA as (s4 & [] & H4 & HA).
  apply mbind_ok in HA as (s5 & f & H5 & HA). apply mbind_ok in HA as (s6 & q & H6 & HA).
  assert (FF : p_farm (par t2) = p_farm (par s)).
  { transitivity (p_farm (par t1)).
    - unfold read_book in H2. destruct (g_book g), (g_algo g); try discriminate; try (injection H2 as <-; reflexivity).
      unfold mbind, mpar in H2. destruct (p_book (par t1)); [|injection H2 as <-; reflexivity].
      unfold mask in H2. destruct (ext (log t1) (EvBook p)); [discriminate|]. injection H2 as <-. reflexivity.
    - unfold read_states in H1. destruct (g_states g), (g_algo g); try discriminate; try (injection H1 as <-; reflexivity).
      unfold mbind, mpar, mget in H1. destruct (p_states (par s)); [|discriminate].
      cbn in H1. unfold mask in H1. destruct (ext (log s) (EvStates p)); [discriminate|]. injection H1 as <-. reflexivity. }
  split.
  - destruct (g_algo g) eqn:G.
    + unfold read_states in H1; unfold read_book in H2; unfold read_farm in H3. rewrite G in *.
      destruct (g_states g); [discriminate|]. destruct (g_book g); [discriminate|].
      destruct (g_farm g); [discriminate|]. repeat split.
    + repeat split.
      * unfold read_algo in H4. rewrite G in H4. unfold mbind, mpar, mget in H4.
        rewrite K4 in H4. destruct K1 as [_ K1], K2 as [_ K2], K3 as [_ K3].
        rewrite K3, K2, K1 in H4. intros Q. rewrite Q in H4. discriminate.
      * unfold read_states in H1. rewrite G in H1. destruct (g_states g); [left; reflexivity|right].
        unfold mbind, mpar, mget in H1. intros Q. rewrite Q in H1. discriminate.
      * unfold read_farm in H3. rewrite G in H3. destruct (g_farm g); [left; reflexivity|right].
        unfold mbind, mpar, mget in H3. rewrite FF in H3. destruct (p_farm (par s)) as [f0|]; [|discriminate].
        exists f0; split; [reflexivity|]. intros Q. cbn in H3. rewrite Q in H3. discriminate.
  - assert (PP : p_points (par s5) = p_points (par s)).
    { transitivity (p_points (par s4)).
      - unfold run_calc, mbind, mpar, mask, mset, mret in H5. cbn in H5.
        destruct (p_calc (par s4)) as [c|].
        + destruct (match c_run c with Some b => b | None => true end); cbn in H5.
          * destruct (ext (log s4) (EvCalc (c_args c))); [discriminate|]. injection H5 as <- _. reflexivity.
          * injection H5 as <- _. reflexivity.
        + destruct (ext (log s4) (EvCalc [])); [discriminate|]. injection H5 as <- _. reflexivity.
      - destruct K1 as [<- _], K2 as [<- _], K3 as [<- _]. rewrite <- K4.
        unfold read_algo in H4. destruct (g_algo g); [injection H4 as <-; reflexivity|].
        unfold mbind, mpar, mget, mset, mask, mret in H4. destruct (p_algo (par s2)); [|discriminate]. cbn in H4.
        match type of H4 with context [ext ?a ?b] => destruct (ext a b) end; [discriminate|].
        injection H4 as <-. reflexivity. }
    unfold run_points, mbind, mpar, mget in H6. rewrite PP in H6.
    destruct (p_points (par s)) as [[[b|] [t|] qa]|]; cbn in *; try exact I; try discriminate.
    + split; discriminate.
    + split; [discriminate|]. intros Q. injection Q as ->. discriminate.
Qed.

(** repeating a run with the same arguments *)
Lemma algo_stable g p : NoDup (map fst (g_pars g)) -> look "algo_type" (g_pars g) = None ->
  algo_after g (spent g p) = algo_after g p.
Proof.
  intros N L. unfold algo_after, spent, algo_after. cbn [p_algo].
  destruct (g_algo g); [reflexivity|]. destruct (p_algo p) as [a|]; [|reflexivity]. f_equal.
  destruct (g_iter g); [|apply update_twice, N].
  rewrite put_id; [apply update_twice, N|].
  rewrite (look_update _ _ _ N), L, look_put, String.eqb_refl. reflexivity.
Qed.
Lemma second_plan g p a : g_farm g || g_algo g = true -> p_points p = None ->
  plan g (spent g p) a =
  plan g (mkparams (p_states p) (p_book p) (p_farm p) (p_engine p) (p_algo p)
    (match p_calc p with Some c => Some (mkcsec (Some true) (c_args c)) | None => None end)
    None (p_outputs p)) a.
Proof.
  intros G Q. unfold plan, spent, wants_farm, wants_points.
  cbn [p_states p_book p_farm p_engine p_algo p_calc p_points p_outputs c_run c_args]. rewrite Q, G.
  destruct (p_calc p); reflexivity.
Qed.
