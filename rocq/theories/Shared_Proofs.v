(** Proofs about algorithms that share a model book. *)
From Coq Require Import String.
From Verif Require Import Base Shared_Model Shared_Spec.
Open Scope string_scope.

Lemma mem_iff : forall x l, mem x l = true <-> In x l.
Proof.
  intros x l. unfold mem. rewrite existsb_exists. split.
  - intros [y [H E]]. apply String.eqb_eq in E. subst. exact H.
  - intros H. exists x. split; [exact H|]. apply String.eqb_refl.
Qed.

Lemma mem_not : forall x l, mem x l = false <-> ~ In x l.
Proof.
  intros x l. rewrite <- mem_iff. destruct (mem x l); split; congruence.
Qed.

Lemma insert_in : forall x y l, In y (insert x l) <-> y = x \/ In y l.
Proof.
  intros x y l. induction l as [|z q IH]; cbn [insert In]; [intuition|].
  destruct (String.leb x z); cbn [In]; rewrite ?IH; intuition.
Qed.

Lemma sort_in : forall y l, In y (sort l) <-> In y l.
Proof.
  intros y l. induction l as [|z q IH]; cbn [sort In]; [reflexivity|].
  rewrite insert_in, IH. intuition.
Qed.

Lemma snoc_unless : forall (c : bool) x y l,
  In y (if c && negb (mem x l) then (l ++ [x])%list else l) <-> In y l \/ (y = x /\ c = true).
Proof.
  intros c x y l. destruct c; cbn [andb]; [|intuition discriminate].
  destruct (mem x l) eqn:M; cbn [negb].
  - apply mem_iff in M. intuition; subst; auto.
  - rewrite in_app_iff. cbn [In]. intuition.
Qed.

(** the variables of a rotor without memory *)
Lemma vars_fresh : forall vrs r2 r3 v,
  In "WS" vrs ->
  (In v (rotor_vars None vrs r2 r3) <->
   v = "REWS" \/ v = "weight" \/ (In v vrs /\ v <> "WS") \/ (v = "REWS2" /\ r2 = true) \/ (v = "REWS3" /\ r3 = true)).
Proof.
  intros vrs r2 r3 v W. unfold rotor_vars.
  rewrite (proj2 (mem_iff "WS" vrs) W).
  match goal with |- In v (if mem _ ?l then _ else _) <-> _ => set (L := l) end.
  assert (HL : forall w, In w L <-> w = "REWS" \/ (In w vrs /\ w <> "WS") \/ (w = "REWS2" /\ r2 = true) \/ (w = "REWS3" /\ r3 = true)).
  { intros w. unfold L. rewrite sort_in, !snoc_unless. cbn [In]. rewrite filter_In.
    rewrite Bool.negb_true_iff, String.eqb_neq. intuition. }
  destruct (mem "weight" L) eqn:M.
  - apply mem_iff in M. rewrite HL in M. rewrite HL. intuition; subst; intuition.
  - rewrite in_app_iff, HL. cbn [In]. intuition.
Qed.

(** a rotor that has variables keeps them *)
Lemma weight_in : forall m vrs r2 r3, In "weight" (rotor_vars m vrs r2 r3).
Proof.
  intros. unfold rotor_vars. match goal with |- In _ (if mem _ ?l then _ else _) => destruct (mem "weight" l) eqn:M end.
  - apply mem_iff. exact M.
  - rewrite in_app_iff. right. left. reflexivity.
Qed.

Lemma vars_kept : forall l vrs r2 r3, In "weight" l -> rotor_vars (Some l) vrs r2 r3 = l.
Proof.
  intros l vrs r2 r3 H. unfold rotor_vars. rewrite (proj2 (mem_iff _ _) H). reflexivity.
Qed.

(** good farms *)
Section Farm.
Variable b : book.

Definition the_type (t : turb) (n : string) : Prop := filter (is_type b) (u_models t) = [n].

Lemma find_good : forall ts,
  (forall t, In t ts -> exists n, the_type t n) ->
  exists ns, find_types b ts = (map Some ns, true) /\ Forall2 the_type ts ns.
Proof.
  induction ts as [|t q IH]; intros G; cbn [find_types].
  - exists []. split; [reflexivity|constructor].
  - destruct (G t (or_introl eq_refl)) as [n N].
    destruct IH as [ns [E F]]; [intros u U; apply G; right; exact U|].
    exists (n :: ns). split; [|constructor; assumption].
    pose proof N as N'. unfold the_type in N'. rewrite N', E. reflexivity.
Qed.

Lemma find_same : forall ts us,
  Forall2 (fun t u => filter (is_type b) (u_models t) = filter (is_type b) (u_models u)) ts us ->
  find_types b ts = find_types b us.
Proof.
  induction 1 as [|t u ts us E F IH]; cbn [find_types]; [reflexivity|].
  rewrite E, IH.
  assert (L : length ts = length us) by (clear - F; induction F; cbn; congruence).
  assert (M : map (fun _ : turb => @None string) ts = map (fun _ => None) us).
  { clear - L. revert us L. induction ts as [|x xs IHx]; intros [|y ys] L; cbn in L |- *; try discriminate; auto.
    f_equal. apply IHx. congruence. }
  rewrite M. reflexivity.
Qed.

Lemma somes_map : forall ns, somes (map Some ns) = Some ns.
Proof. induction ns as [|n q IH]; cbn [map somes]; [reflexivity|]. rewrite IH. reflexivity. Qed.

Lemma the_type_in : forall t n, the_type t n -> exists y, type_of b t n y.
Proof.
  intros t n T. unfold the_type in T.
  assert (In n (filter (is_type b) (u_models t))) as I1 by (rewrite T; left; reflexivity).
  apply filter_In in I1. destruct I1 as [I1 I2]. unfold is_type in I2.
  destruct (b_type b n) as [y|] eqn:E; [|discriminate]. exists y. split; assumption.
Qed.

Lemma the_type_only : forall t n m y, the_type t n -> type_of b t m y -> m = n.
Proof.
  intros t n m y T [I1 E]. unfold the_type in T.
  assert (In m (filter (is_type b) (u_models t))) as I2.
  { apply filter_In. split; [exact I1|]. unfold is_type. rewrite E. reflexivity. }
  rewrite T in I2. destruct I2 as [I2|[]]. auto.
Qed.

Lemma known_good : forall ts ns, Forall2 the_type ts ns ->
  (forall t n, In t ts -> In n (u_models t) -> is_type b n = true \/ b_model b n = true) ->
  models_known b ns ts = true.
Proof.
  intros ts ns F G. unfold models_known. apply forallb_forall. intros t T. apply forallb_forall. intros n N.
  destruct (G t n T N) as [Y|Y]; [|rewrite Y; apply Bool.orb_true_r].
  replace (mem n ns) with true; [reflexivity|]. symmetry. apply mem_iff.
  clear G. induction F as [|u m us ms U F IH]; [destruct T|].
  destruct T as [->|T]; [left|right; auto].
  assert (In n (filter (is_type b) (u_models t))) as I1 by (apply filter_In; split; assumption).
  unfold the_type in U. rewrite U in I1. destruct I1 as [I1|[]]. exact I1.
Qed.

Lemma dims_good : forall ts ns, Forall2 the_type ts ns ->
  exists ds, dims b ns ts = Ok ds /\ Forall2 (own_dims b) ts ds.
Proof.
  induction 1 as [|t n ts ns T F IH]; cbn [dims].
  - exists []. split; [reflexivity|constructor].
  - destruct IH as [ds [E D]]. destruct (the_type_in t n T) as [y [Y1 Y2]].
    cbn [List.tl]. rewrite Y2, E.
    destruct (u_H t) as [h|] eqn:EH; destruct (u_D t) as [d|] eqn:ED; cbn [bind]; eexists; (split; [reflexivity|]);
      (constructor; [|exact D]); exists n, y; rewrite EH, ED; cbn [fst snd]; (split; [split; assumption|auto]).
Qed.

Lemma needs_good : forall f ts ns, Forall2 the_type ts ns ->
  (needs b f ns = true <-> exists t n y, In t ts /\ type_of b t n y /\ f y = true).
Proof.
  intros f ts ns F. unfold needs. rewrite existsb_exists. split.
  - intros [n [I1 E]]. destruct (b_type b n) as [y|] eqn:Y; [|discriminate].
    induction F as [|t m ts ms T F IH]; [destruct I1|].
    destruct I1 as [->|I1].
    + destruct (the_type_in t n T) as [y' [Y1 Y2]]. exists t, n, y. split; [left; reflexivity|]. split; [|exact E]. split; assumption.
    + destruct (IH I1) as [t' [n' [y' [A B]]]]. exists t', n', y'. split; [right; exact A|exact B].
  - intros [t [n [y [A [B C]]]]].
    induction F as [|u m ts ms T F IH]; [destruct A|].
    destruct A as [->|A].
    + exists m. split; [left; reflexivity|]. pose proof (the_type_only t m n y T B). subst m.
      destruct B as [_ B]. rewrite B. exact C.
    + destruct (IH A) as [x [X1 X2]]. exists x. split; [right; exact X1|exact X2].
Qed.

(** the variables are read and the types are fed, if the variables are the algorithm's own *)
Lemma own_ok : forall a vars,
  good_states a -> (forall v, In v vars <-> own_var b a v) ->
  readable vars (a_vars a) = true /\ types_fed b (a_turbs a) vars = true.
Proof.
  intros a vars [W [D N]] V. split.
  - unfold readable. rewrite (proj2 (mem_iff _ _) W), (proj2 (mem_iff _ _) D).
    apply andb_true_intro. split; [destruct (existsb from_wind vars); reflexivity|].
    apply forallb_forall. intros v I1. apply V in I1.
    destruct I1 as [->|[->|[[I1 _]|[[-> _]|[-> _]]]]]; try reflexivity.
    rewrite (proj2 (mem_iff _ _) I1). apply Bool.orb_true_r.
  - unfold types_fed. apply forallb_forall. intros t T. apply forallb_forall. intros n I1.
    destruct (b_type b n) as [y|] eqn:Y; [|reflexivity].
    assert (Ty : type_of b t n y) by (split; assumption).
    apply andb_true_intro. split.
    + destruct (t_r2 y) eqn:R2; [|reflexivity]. cbn [negb orb]. apply mem_iff, V.
      right. right. right. left. split; [reflexivity|]. exists t, n, y. auto.
    + destruct (t_r3 y) eqn:R3; [|reflexivity]. cbn [negb orb]. apply mem_iff, V.
      right. right. right. right. split; [reflexivity|]. exists t, n, y. auto.
Qed.

(** the state in which the types are those of an algorithm *)
Definition types_are (a : algo) (s : shared) : Prop :=
  h_types s = None \/ h_types s = Some (fst (find_types b (a_turbs a))).

Lemma calc_types : forall a s, h_types (fst (calc b a s)) =
  Some (match h_types s with Some l => l | None => fst (find_types b (a_turbs a)) end).
Proof.
  intros a s. unfold calc. set (l := match h_types s with Some l => l | None => _ end).
  destruct (somes l) as [ty|]; [|reflexivity].
  destruct (models_known b ty (a_turbs a)); [|reflexivity].
  destruct (dims b ty (a_turbs a)); [|reflexivity].
  match goal with |- context[if ?c then _ else _] => destruct c end; reflexivity.
Qed.

Lemma calc_good_types : forall a s, good_farm b a -> types_are a s ->
  exists ns ds, Forall2 the_type (a_turbs a) ns /\ Forall2 (own_dims b) (a_turbs a) ds /\
    calc b a s =
      (let vars := rotor_vars (h_vars s) (a_vars a) (needs b t_r2 ns) (needs b t_r3 ns) in
       (mkshared (Some (map Some ns)) (Some vars),
        if readable vars (a_vars a) && types_fed b (a_turbs a) vars then Ok (ds, vars) else Err KeyError)).
Proof.
  intros a s G T.
  destruct (find_good (a_turbs a)) as [ns [E F]]; [intros t I1; apply G; exact I1|].
  destruct (dims_good _ _ F) as [ds [E2 D]].
  exists ns, ds. split; [exact F|]. split; [exact D|].
  unfold calc.
  assert (L : match h_types s with Some l => l | None => fst (find_types b (a_turbs a)) end = map Some ns).
  { destruct T as [T|T]; rewrite T, ?E; reflexivity. }
  rewrite L, somes_map, (known_good _ _ F), E2.
  - cbv zeta. match goal with |- context[if ?c then _ else _] => destruct c end; reflexivity.
  - intros t n I1 I2. apply (proj2 (G t I1)). exact I2.
Qed.
End Farm.

(** histories *)
Lemma after_snoc : forall b h e, after b (h ++ [e]) = step b (after b h) e.
Proof. intros. unfold after. rewrite fold_left_app. reflexivity. Qed.

Lemma after_app : forall b h k, after b (h ++ k) = fold_left (step b) k (after b h).
Proof. intros. unfold after. apply fold_left_app. Qed.

Lemma types_survive : forall b k s l,
  (forall e, In e k -> exists a, e = Calc a) -> h_types s = Some l ->
  h_types (fold_left (step b) k s) = Some l.
Proof.
  intros b k. induction k as [|e q IH]; intros s l C E; cbn [fold_left]; [exact E|].
  apply IH; [intros e' I1; apply C; right; exact I1|].
  destruct (C e (or_introl eq_refl)) as [a ->]. cbn [step]. rewrite calc_types, E. reflexivity.
Qed.

Lemma vars_survive : forall b k s l, In "weight" l -> h_vars s = Some l -> h_vars (fold_left (step b) k s) = Some l.
Proof.
  intros b k. induction k as [|e q IH]; intros s l W E; cbn [fold_left]; [exact E|].
  apply IH; [exact W|].
  destruct e as [a|a]; cbn [step].
  - unfold create. destruct (find_types b (a_turbs a)). exact E.
  - unfold calc. destruct (somes _) as [ty|]; [|exact E].
    destruct (models_known b ty (a_turbs a)); [|exact E].
    rewrite E, vars_kept by exact W.
    destruct (dims b ty (a_turbs a)); [|reflexivity].
    match goal with |- context[if ?c then _ else _] => destruct c end; reflexivity.
Qed.

Lemma calc_vars_kept : forall b a s ds vars l, In "weight" l -> h_vars s = Some l ->
  snd (calc b a s) = Ok (ds, vars) -> vars = l.
Proof.
  intros b a s ds vars l W E. unfold calc.
  destruct (somes _) as [ty|]; [|discriminate].
  destruct (models_known b ty (a_turbs a)); [|discriminate].
  rewrite E, vars_kept by exact W.
  destruct (dims b ty (a_turbs a)); [|discriminate].
  match goal with |- context[if ?c then _ else _] => destruct c end; [|discriminate].
  cbn [snd]. congruence.
Qed.

Lemma calc_ok_vars : forall b a s ds vars, snd (calc b a s) = Ok (ds, vars) ->
  h_vars (fst (calc b a s)) = Some vars /\ In "weight" vars.
Proof.
  intros b a s ds vars. unfold calc.
  destruct (somes _) as [ty|]; [|discriminate].
  destruct (models_known b ty (a_turbs a)); [|discriminate].
  destruct (dims b ty (a_turbs a)); [|discriminate].
  match goal with |- context[if ?c then _ else _] => destruct c end; [|discriminate].
  cbn [snd fst h_vars]. intros H. injection H as _ <-. split; [reflexivity|apply weight_in].
Qed.

(** all algorithms of the history agree with [a] *)
Definition agrees (b : book) (a : algo) (e : event) : Prop :=
  match e with Create c | Calc c => same_types b a c /\ a_vars c = a_vars a end.

Lemma same_good : forall b a c, same_types b a c -> find_types b (a_turbs a) = find_types b (a_turbs c).
Proof. intros b a c S. apply find_same. exact S. Qed.

Lemma agree_after : forall b a h, good_farm b a ->
  Forall (agrees b a) h ->
  types_are b a (after b h) /\
  (h_vars (after b h) = None \/
   exists ns, Forall2 (the_type b) (a_turbs a) ns /\
     h_vars (after b h) = Some (rotor_vars None (a_vars a) (needs b t_r2 ns) (needs b t_r3 ns))).
Proof.
  intros b a h G. induction h as [|e h IH] using rev_ind; intros A.
  - split; left; reflexivity.
  - apply Forall_app in A. destruct A as [A1 A2]. apply Forall_inv in A2. specialize (IH A1).
    destruct IH as [T V]. rewrite after_snoc. set (s := after b h) in *. clearbody s. clear A1 h.
    destruct e as [c|c]; cbn [step agrees] in *; destruct A2 as [S EV]; pose proof (same_good b a c S) as SF.
    + unfold create. destruct (find_types b (a_turbs c)) as [l ok] eqn:E. cbn [fst].
      split; [right; cbn [h_types]; rewrite SF; reflexivity|exact V].
    + split; [right; rewrite calc_types; rewrite <- SF; destruct T as [T|T]; rewrite T; reflexivity|].
      destruct (find_good b (a_turbs a)) as [ns [E F]]; [intros t I1; apply (proj1 (G t I1))|].
      unfold calc.
      assert (L : match h_types s with Some l => l | None => fst (find_types b (a_turbs c)) end = map Some ns).
      { rewrite <- SF. destruct T as [T|T]; rewrite T, ?E; reflexivity. }
      rewrite L, somes_map.
      destruct (models_known b ns (a_turbs c)); [|exact V].
      assert (R : h_vars s = None \/ exists l, h_vars s = Some l /\ In "weight" l /\
        exists ns0, Forall2 (the_type b) (a_turbs a) ns0 /\ l = rotor_vars None (a_vars a) (needs b t_r2 ns0) (needs b t_r3 ns0)).
      { destruct V as [V|[ns0 [F0 V]]]; [left; exact V|right]. eexists. split; [exact V|]. split; [apply weight_in|]. exists ns0. auto. }
      assert (K : exists ns0, Forall2 (the_type b) (a_turbs a) ns0 /\
        rotor_vars (h_vars s) (a_vars c) (needs b t_r2 ns) (needs b t_r3 ns) = rotor_vars None (a_vars a) (needs b t_r2 ns0) (needs b t_r3 ns0)).
      { destruct R as [R|[l [R [W [ns0 [F0 ->]]]]]].
        - exists ns. split; [exact F|]. rewrite R, EV. reflexivity.
        - exists ns0. split; [exact F0|]. rewrite R. apply vars_kept. apply weight_in. }
      destruct K as [ns0 [F0 K]]. rewrite K. right. exists ns0. split; [exact F0|].
      destruct (dims b ns (a_turbs c)); [|reflexivity].
      match goal with |- context[if ?x then _ else _] => destruct x end; reflexivity.
Qed.

Lemma agree_right : forall b a h, good_farm b a -> good_states a -> Forall (agrees b a) h ->
  right b a (result_after b h a).
Proof.
  intros b a h G St A. destruct (agree_after b a h G A) as [T V].
  unfold result_after. destruct (calc_good_types b a _ G T) as [ns [ds [F [D ->]]]]. cbn [snd].
  set (vars := rotor_vars (h_vars (after b h)) (a_vars a) (needs b t_r2 ns) (needs b t_r3 ns)).
  assert (O : forall v, In v vars <-> own_var b a v).
  { assert (exists ns0, Forall2 (the_type b) (a_turbs a) ns0 /\ vars = rotor_vars None (a_vars a) (needs b t_r2 ns0) (needs b t_r3 ns0)) as [ns0 [F0 E]].
    { unfold vars. destruct V as [V|[ns0 [F0 V]]]; rewrite V; [exists ns; auto|]. exists ns0. split; [exact F0|]. apply vars_kept, weight_in. }
    intros v. rewrite E. destruct St as [W _]. rewrite vars_fresh by exact W.
    unfold own_var, farm_needs. rewrite (needs_good b t_r2 _ _ F0), (needs_good b t_r3 _ _ F0). reflexivity. }
  destruct (own_ok b a vars St O) as [R1 R2]. rewrite R1, R2. cbn [andb].
  exists ds, vars. auto.
Qed.

Lemma last_created : forall b h1 c h2 a, good_farm b a -> same_types b a c ->
  (forall e, In e h2 -> exists d, e = Calc d) ->
  types_are b a (after b (h1 ++ Create c :: h2)).
Proof.
  intros b h1 c h2 a G S C. right.
  replace (h1 ++ Create c :: h2)%list with ((h1 ++ [Create c]) ++ h2)%list by (rewrite <- app_assoc; reflexivity).
  rewrite after_app. rewrite (same_good b a c S).
  apply types_survive; [exact C|]. rewrite after_snoc. cbn [step]. unfold create.
  destruct (find_types b (a_turbs c)). reflexivity.
Qed.
