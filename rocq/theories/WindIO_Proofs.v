(** Lemmas about windIO input. *)
From Coq Require Import String.
From Verif Require Import RBase Wrg_Model Wrg_Proofs WindIO_Model WindIO_Spec.
Local Open Scope R_scope.
Local Notation length := List.length.

Lemma veqb_eq a b : veqb a b = true <-> a = b.
Proof. destruct a, b; cbn; split; intros H; try reflexivity; discriminate. Qed.
Lemma veqb_refl a : veqb a a = true.
Proof. now apply veqb_eq. Qed.
Lemma veqb_neq a b : veqb a b = false <-> a <> b.
Proof.
  destruct (veqb a b) eqn:E; split; intros H; try reflexivity; try discriminate.
  - apply veqb_eq in E. contradiction.
  - intros ->. rewrite veqb_refl in E. discriminate.
Qed.
Lemma veqb_sym a b : veqb a b = veqb b a.
Proof. destruct a, b; reflexivity. Qed.
Lemma lveqb_eq a : forall b, lveqb a b = true <-> a = b.
Proof.
  induction a as [|x a IH]; intros [|y b]; cbn; split; intros H; try reflexivity; try discriminate.
  - apply andb_prop in H as (A & B). apply veqb_eq in A. apply IH in B. now subst.
  - injection H as -> ->. rewrite veqb_refl. now apply IH.
Qed.

Lemma get_put {A} v w (a : A) d : get v (put w a d) = if veqb v w then Some a else get v d.
Proof.
  induction d as [|[x b] d IH]; cbn.
  - destruct (veqb v w); reflexivity.
  - destruct (veqb w x) eqn:E; cbn.
    + apply veqb_eq in E. subst x. destruct (veqb v w); reflexivity.
    + destruct (veqb v x) eqn:F.
      * apply veqb_eq in F. subst x. rewrite veqb_sym in E. now rewrite E.
      * exact IH.
Qed.
Definition keys {A} (d : dict A) := map fst d.
Lemma put_keys {A} v (a : A) d : forall w, In w (keys (put v a d)) <-> w = v \/ In w (keys d).
Proof.
  induction d as [|[x b] d IH]; intros w; cbn.
  - intuition.
  - destruct (veqb v x) eqn:E; cbn.
    + apply veqb_eq in E. subst x. intuition.
    + rewrite IH. intuition.
Qed.
Lemma put_nodup {A} v (a : A) d : NoDup (keys d) -> NoDup (keys (put v a d)).
Proof.
  induction d as [|[x b] d IH]; intros H; cbn.
  - constructor; [intros []|constructor].
  - cbn in H. inversion H as [|? ? N D]; subst. destruct (veqb v x) eqn:E; cbn.
    + apply veqb_eq in E. subst x. now constructor.
    + constructor; [|now apply IH]. fold (keys (put v a d)). rewrite put_keys. intros [-> | I]; [|contradiction].
      rewrite veqb_refl in E. discriminate.
Qed.
Lemma get_none {A} v (d : dict A) : get v d = None <-> ~ In v (keys d).
Proof.
  induction d as [|[x b] d IH]; cbn; [intuition|]. destruct (veqb v x) eqn:E.
  - apply veqb_eq in E. subst. split; [discriminate|intuition].
  - apply veqb_neq in E. rewrite IH. intuition.
Qed.
Lemma get_upd {A} v (u : dict A) : forall d, NoDup (keys u) ->
  get v (upd d u) = match get v u with Some x => Some x | None => get v d end.
Proof.
  induction u as [|[x b] u IH]; intros d H; cbn; [reflexivity|].
  cbn in H. inversion H as [|? ? N D]; subst. change (fold_left _ u (put x b d)) with (upd (put x b d) u).
  rewrite IH by exact D. rewrite get_put. destruct (veqb v x) eqn:E; [|reflexivity].
  apply veqb_eq in E. subst x. apply get_none in N. now rewrite N.
Qed.
Lemma get_in {A} v (d : dict A) a : get v d = Some a -> In (v, a) d.
Proof.
  induction d as [|[x b] d IH]; cbn; [discriminate|]. destruct (veqb v x) eqn:E.
  - apply veqb_eq in E. subst. intros Q. injection Q as ->. now left.
  - right. auto.
Qed.

(** what one entry adds *)
Definition adds_field (n : wname) (d : wdata) (v : var) (e : arr * list var) : Prop :=
  wio2foxes n = Some v /\
  ((exists x, d = DNum x /\ e = (A0 x, []) /\ match n with Wprobability | Wsector_probability | Wturbulence_intensity | WLMO | Wz0 | Wreference_height => True | _ => False end)
   \/ exists a ds vs, d = DField a ds /\ mapdims ds = Some vs /\ length vs = ndim a /\ e = (a, vs)).
Definition adds_coord (n : wname) (d : wdata) (v : var) (c : arr) : Prop :=
  wio2foxes n = Some v /\
  ((exists x, d = DNum x /\ c = A0 x) \/ (exists l, d = DList (A1 l) /\ c = A1 l)) /\
  match n with Wtime | Wwind_turbine | Wwind_direction | Wwind_speed | Wx | Wy | Wheight => True | _ => False end.
Lemma read_field_cases n d s t : read_field n d s = Ok t ->
  (exists k, n = WIgn k /\ t = s) \/
  (exists v e, adds_field n d v e /\ t = mksite (coords s) (put v e (fields s))) \/
  (exists v c, adds_coord n d v c /\ t = mksite (put v c (coords s)) (fields s)).
Proof.
  assert (CO : forall v, wio2foxes n = Some v ->
    match n with Wtime | Wwind_turbine | Wwind_direction | Wwind_speed | Wx | Wy | Wheight => True | _ => False end ->
    forall u, as_coord v d s = Some u -> exists v c, adds_coord n d v c /\ u = mksite (put v c (coords s)) (fields s)).
  { intros v W M u. unfold as_coord. destruct d as [x|[]| |]; intros Q; try discriminate; injection Q as <-.
    - exists v, (A0 x). split; [|reflexivity]. split; [exact W|]. split; [|exact M]. left. eauto.
    - exists v, (A1 l). split; [|reflexivity]. split; [exact W|]. split; [|exact M]. right. eauto. }
  assert (DA : forall v, wio2foxes n = Some v ->
    (match n with Wprobability | Wsector_probability | Wturbulence_intensity | WLMO | Wz0 | Wreference_height => True | _ => False end \/ as_coord v d s = None) ->
    forall u, as_data v d s = Some (Ok u) -> exists v e, adds_field n d v e /\ u = mksite (coords s) (put v e (fields s))).
  { intros v W M u. unfold as_data. destruct d as [x|a|a ds|]; intros Q; try discriminate.
    - injection Q as <-. exists v, (A0 x, []). split; [|reflexivity]. split; [exact W|]. left. exists x. repeat split.
      destruct M as [M|M]; [exact M|discriminate M].
    - destruct (mapdims ds) as [vs|] eqn:E; [|discriminate]. destruct (Nat.eqb (length vs) (ndim a)) eqn:F; [|discriminate].
      injection Q as <-. apply Nat.eqb_eq in F. exists v, (a, vs). split; [|reflexivity]. split; [exact W|]. right. exists a, ds, vs. repeat split; auto. }
  destruct n; cbn -[as_coord as_data]; intros Q; try discriminate.
  all: try (injection Q as <-; left; eauto; fail).
  all: right.
  all: lazymatch type of Q with
       | match as_coord ?v ?d ?s with Some t => Ok t | None => Err ValueError end = _ =>
           destruct (as_coord v d s) as [u|] eqn:E; [|discriminate]; injection Q as <-; right; apply (CO v); auto
       | match as_coord ?v ?d ?s with _ => _ end = _ =>
           destruct (as_coord v d s) as [u|] eqn:E; [injection Q as <-; right; apply (CO v); auto|];
           left; destruct (as_data v d s) as [[u|]|] eqn:F; try discriminate; injection Q as <-; apply (DA v); auto
       | match as_data ?v ?d ?s with _ => _ end = _ =>
           left; destruct (as_data v d s) as [[u|]|] eqn:F; try discriminate; injection Q as <-; apply (DA v); auto
       end.
Qed.

Lemma keys_nodup n d s t : read_field n d s = Ok t ->
  NoDup (keys (fields s)) /\ NoDup (keys (coords s)) -> NoDup (keys (fields t)) /\ NoDup (keys (coords t)).
Proof.
  intros E (A & B). destruct (read_field_cases _ _ _ _ E) as [(k & _ & ->)|[(v & e & _ & ->)|(v & c & _ & ->)]]; cbn [fields coords]; split; auto using put_nodup.
Qed.
Lemma read_fields_nodup l : forall s t, read_fields l s = Ok t ->
  NoDup (keys (fields s)) /\ NoDup (keys (coords s)) -> NoDup (keys (fields t)) /\ NoDup (keys (coords t)).
Proof.
  induction l as [|[n d] l IH]; cbn -[read_field]; intros s t H K.
  - injection H as <-. exact K.
  - destruct (read_field n d s) as [u|] eqn:E; cbn in H; [|discriminate]. eapply IH; [exact H|]. eapply keys_nodup; eauto.
Qed.

Lemma silent_fields v l : forall s t, silent l v -> read_fields l s = Ok t ->
  get v (fields t) = get v (fields s) /\ get v (coords t) = get v (coords s).
Proof.
  induction l as [|[n d] l IH]; cbn -[read_field]; intros s t S H.
  - injection H as <-. auto.
  - destruct (read_field n d s) as [u|] eqn:E; cbn in H; [|discriminate].
    assert (S' : silent l v) by (intros n' d' I; apply (S n' d'); now right).
    destruct (IH _ _ S' H) as (-> & ->). pose proof (S n d (or_introl eq_refl)) as N.
    destruct (read_field_cases _ _ _ _ E) as [(k & _ & ->)|[(w & e & (W & _) & ->)|(w & c & (W & _) & ->)]]; cbn; auto; rewrite get_put.
    + destruct (veqb v w) eqn:F; [|auto]. apply veqb_eq in F. subst w. contradiction.
    + destruct (veqb v w) eqn:F; [|auto]. apply veqb_eq in F. subst w. contradiction.
Qed.

(** entries for the same variable all add the same *)
Lemma only_field v e l : forall s t,
  read_fields l s = Ok t ->
  (forall n d, In (n, d) l -> wio2foxes n = Some v -> adds_field n d v e) ->
  get v (fields t) = get v (fields s) \/ get v (fields t) = Some e.
Proof.
  induction l as [|[n d] l IH]; cbn -[read_field]; intros s t H K.
  - injection H as <-. auto.
  - destruct (read_field n d s) as [u|] eqn:E; cbn in H; [|discriminate].
    destruct (IH _ _ H (fun n d I => K n d (or_intror I))) as [-> | ->]; [|auto].
    destruct (read_field_cases _ _ _ _ E) as [(k & _ & ->)|[(w & e' & W & ->)|(w & c & (W & _) & ->)]]; cbn; auto; rewrite get_put.
    destruct (veqb v w) eqn:F; [|auto]. apply veqb_eq in F. subst w. right. f_equal.
    destruct W as (W & Q). destruct (K n d (or_introl eq_refl) W) as (_ & P).
    destruct P as [(x & -> & -> & _)|(a & ds & vs & -> & M & _ & ->)], Q as [(x' & D & -> & _)|(a' & ds' & vs' & D & M' & _ & ->)]; try discriminate D.
    + now injection D as <-.
    + injection D as <- <-. rewrite M in M'. now injection M' as <-.
Qed.
Lemma field_stays v e l : forall s t,
  read_fields l s = Ok t ->
  (forall n d, In (n, d) l -> wio2foxes n = Some v -> adds_field n d v e) ->
  get v (fields s) = Some e -> get v (fields t) = Some e.
Proof. intros s t H K G. destruct (only_field v e l s t H K) as [-> | ->]; auto. Qed.
Lemma adds_unique n d v e : adds_field n d v e -> forall s t, read_field n d s = Ok t -> get v (fields t) = Some e.
Proof.
  intros (W & P) s t E.
  destruct (read_field_cases _ _ _ _ E) as [(k & -> & _)|[(w & e' & (W' & Q) & ->)|(w & c & (W' & C & M) & ->)]]; cbn.
  - discriminate W.
  - rewrite W in W'. injection W' as <-. rewrite get_put, veqb_refl. f_equal.
    destruct P as [(x & -> & -> & _)|(a & ds & vs & -> & MD & _ & ->)], Q as [(x' & D & -> & _)|(a' & ds' & vs' & D & MD' & _ & ->)]; try discriminate D.
    + now injection D as <-.
    + injection D as <- <-. rewrite MD in MD'. now injection MD' as <-.
  - destruct P as [(x & -> & -> & N)|(a & ds & vs & -> & MD & _ & ->)].
    + destruct n; contradiction.
    + destruct C as [(? & D & _)|(? & D & _)]; discriminate D.
Qed.
Lemma only_get l n v d e : only l n v d -> adds_field n d v e -> forall s t, read_fields l s = Ok t -> get v (fields t) = Some e.
Proof.
  intros (I & W & U) A.
  assert (K : forall n' d', In (n', d') l -> wio2foxes n' = Some v -> adds_field n' d' v e) by (intros n' d' I' W'; destruct (U n' d' I' W') as (-> & ->); exact A).
  clear U. induction l as [|[n' d'] l IH]; [destruct I|]; intros s t H. cbn -[read_field] in H.
  destruct (read_field n' d' s) as [u|] eqn:E; cbn in H; [|discriminate].
  assert (K' := fun n d I => K n d (or_intror I)). destruct I as [Q|I].
  - injection Q as -> ->. apply (field_stays v e l u t H K'). eapply adds_unique; eauto.
  - eapply IH; eauto.
Qed.
(** what the reader accepted was acceptable *)
Lemma accepted l : forall s t n d, read_fields l s = Ok t -> In (n, d) l -> exists u u', read_field n d u = Ok u'.
Proof.
  induction l as [|[n' d'] l IH]; intros s t n d H I; [destruct I|]. cbn -[read_field] in H.
  destruct (read_field n' d' s) as [u|] eqn:E; cbn in H; [|discriminate]. destruct I as [Q|I].
  - injection Q as -> ->. eauto.
  - eauto.
Qed.

(** coordinates *)
Lemma coord_given l : forall s t v, read_fields l s = Ok t -> In v (keys (coords t)) ->
  In v (keys (coords s)) \/ exists n d c, In (n, d) l /\ adds_coord n d v c.
Proof.
  induction l as [|[n d] l IH]; cbn -[read_field]; intros s t v H I.
  - injection H as <-. auto.
  - destruct (read_field n d s) as [u|] eqn:E; cbn in H; [|discriminate].
    destruct (IH _ _ _ H I) as [J|(n' & d' & c & J & A)]; [|right; exists n', d', c; auto].
    destruct (read_field_cases _ _ _ _ E) as [(k & _ & ->)|[(w & e & _ & ->)|(w & c & W & ->)]]; cbn in J; auto.
    apply put_keys in J as [-> | J]; auto. right. exists n, d, c. auto.
Qed.
Lemma coord_kept l : forall s t v, read_fields l s = Ok t ->
  (In v (keys (coords s)) \/ exists n d c, In (n, d) l /\ adds_coord n d v c) -> In v (keys (coords t)).
Proof.
  induction l as [|[n d] l IH]; cbn -[read_field]; intros s t v H [J|(n' & d' & c & J & A)].
  - injection H as <-. auto.
  - destruct J.
  - destruct (read_field n d s) as [u|] eqn:E; cbn in H; [|discriminate]. apply (IH _ _ v H). left.
    destruct (read_field_cases _ _ _ _ E) as [(k & _ & ->)|[(w & e & _ & ->)|(w & c & W & ->)]]; cbn; auto. apply put_keys. auto.
  - destruct (read_field n d s) as [u|] eqn:E; cbn in H; [|discriminate]. destruct J as [Q|J].
    + injection Q as -> ->. apply (IH _ _ v H). left.
      destruct A as (W & C & M).
      destruct (read_field_cases _ _ _ _ E) as [(k & -> & ->)|[(w & e & (W' & P) & ->)|(w & c' & (W' & _) & ->)]]; cbn.
      * discriminate W.
      * exfalso. destruct C as [(x & -> & _)|(y & -> & _)]; destruct P as [(? & D & _ & N)|(? & ? & ? & D & _)]; try discriminate D. destruct n'; contradiction.
      * rewrite W in W'. injection W' as <-. apply put_keys. auto.
    + apply (IH _ _ v H). right. exists n', d', c. auto.
Qed.
Lemma coord_value l : forall s t n d v, only l n v d -> read_fields l s = Ok t -> forall c, adds_coord n d v c -> get v (coords t) = Some c.
Proof.
  assert (ST : forall l s t n d v c, read_fields l s = Ok t -> adds_coord n d v c ->
     (forall n' d', In (n', d') l -> wio2foxes n' = Some v -> n' = n /\ d' = d) -> get v (coords s) = Some c -> get v (coords t) = Some c).
  { clear l. induction l as [|[n' d'] l IH]; cbn -[read_field]; intros s t n d v c H A U G; [injection H as <-; auto|].
    destruct (read_field n' d' s) as [u|] eqn:E; cbn in H; [|discriminate].
    apply (IH u t n d v c H A (fun n d I => U n d (or_intror I))).
    destruct (read_field_cases _ _ _ _ E) as [(k & _ & ->)|[(w & e & _ & ->)|(w & c' & (W & C & M) & ->)]]; cbn; auto.
    rewrite get_put. destruct (veqb v w) eqn:F; [|auto]. apply veqb_eq in F. subst w.
    destruct (U n' d' (or_introl eq_refl) W) as (-> & ->). f_equal. destruct A as (_ & C' & _).
    destruct C as [(x & -> & ->)|(y & -> & ->)], C' as [(x' & D & ->)|(y' & D & ->)]; try discriminate D; now injection D as <-. }
  induction l as [|[n' d'] l IH]; intros s t n d v (I & W & U) H c A; [destruct I|]. cbn -[read_field] in H.
  destruct (read_field n' d' s) as [u|] eqn:E; cbn in H; [|discriminate].
  assert (U' := fun n d I => U n d (or_intror I)). destruct I as [Q|I].
  - injection Q as -> ->. apply (ST l u t n d v c H A U').
    destruct A as (_ & C & M).
    destruct (read_field_cases _ _ _ _ E) as [(k & -> & ->)|[(w & e & (W' & P) & ->)|(w & c' & (W' & C' & _) & ->)]]; cbn.
    + discriminate W.
    + exfalso. destruct C as [(x & -> & _)|(y & -> & _)]; destruct P as [(? & D & _ & N)|(? & ? & ? & D & _)]; try discriminate D. destruct n; contradiction.
    + rewrite W in W'. injection W' as <-. rewrite get_put, veqb_refl. f_equal.
      destruct C as [(x & -> & ->)|(y & -> & ->)], C' as [(x' & D & ->)|(y' & D & ->)]; try discriminate D; now injection D as <-.
  - eapply IH; eauto. repeat split; eauto; eapply U'; eauto.
Qed.

(** the data of the states *)
Lemma time_data_keys f v : In v (keys (time_data f)) -> In v (keys f).
Proof.
  induction f as [|[w [[] dm]] f IH]; cbn; auto; try (destruct (lveqb dm [TIME]); cbn); intuition.
Qed.
Lemma get_time_data f v : NoDup (keys f) ->
  get v (time_data f) = match get v f with Some (A1 l, dm) => if lveqb dm [TIME] then Some l else None | _ => None end.
Proof.
  induction f as [|[w [a dm]] f IH]; intros N; cbn; [reflexivity|].
  cbn in N. inversion N as [|? ? M D]; subst. specialize (IH D).
  destruct (veqb v w) eqn:E.
  - apply veqb_eq in E. subst w. assert (G : get v (time_data f) = None) by (apply get_none; intros I; apply M, time_data_keys, I).
    destruct a; try exact G. destruct (lveqb dm [TIME]); [|exact G]. cbn. now rewrite veqb_refl.
  - destruct a; try exact IH. destruct (lveqb dm [TIME]); [|exact IH]. cbn. now rewrite E.
Qed.
Lemma const_data_keys f v : In v (keys (const_data f)) -> In v (keys f).
Proof. induction f as [|[w [a [|]]] f IH]; cbn; intuition. Qed.
Lemma get_const_data f v : NoDup (keys f) ->
  get v (const_data f) = match get v f with Some (a, []) => Some a | _ => None end.
Proof.
  induction f as [|[w [a dm]] f IH]; intros N; cbn; [reflexivity|].
  cbn in N. inversion N as [|? ? M D]; subst. specialize (IH D). destruct (veqb v w) eqn:E.
  - apply veqb_eq in E. subst w. assert (G : get v (const_data f) = None) by (apply get_none; intros I; apply M, const_data_keys, I).
    destruct dm; [|exact G]. cbn. now rewrite veqb_refl.
  - destruct dm; [|exact IH]. cbn. now rewrite E.
Qed.
Lemma height_data_keys f v : In v (keys (height_data f)) -> In v (keys f).
Proof.
  induction f as [|[w [[] dm]] f IH]; cbn; auto; try (destruct (lveqb dm [TIME; H]); cbn; [|destruct (lveqb dm [H; TIME]); cbn]); intuition.
Qed.
Lemma get_height_data f v : NoDup (keys f) ->
  get v (height_data f) = match get v f with
    | Some (A2 m, dm) => if lveqb dm [TIME; H] then Some m else if lveqb dm [H; TIME] then Some (transpose (ncols m) m) else None
    | _ => None end.
Proof.
  induction f as [|[w [a dm]] f IH]; intros N; cbn [height_data get]; [reflexivity|].
  cbn in N. inversion N as [|? ? M D]; subst. specialize (IH D). destruct (veqb v w) eqn:E.
  - apply veqb_eq in E. subst w. assert (G : get v (height_data f) = None) by (apply get_none; intros I; apply M, height_data_keys, I).
    destruct a; try exact G. destruct (lveqb dm [TIME; H]); [cbn; now rewrite veqb_refl|].
    destruct (lveqb dm [H; TIME]); [cbn; now rewrite veqb_refl|exact G].
  - destruct a; try exact IH. destruct (lveqb dm [TIME; H]); [cbn; now rewrite E|].
    destruct (lveqb dm [H; TIME]); [cbn; now rewrite E|exact IH].
Qed.
Lemma filter_nodup {A} (p : var * A -> bool) u : NoDup (keys u) -> NoDup (keys (filter p u)).
Proof.
  induction u as [|[x b] u IH]; cbn; intros H; [constructor|]. inversion H as [|? ? N D]; subst.
  destruct (p (x, b)); cbn; [|auto]. constructor; [|auto]. intros I. apply N. apply in_map_iff in I as (y & Y & F).
  apply filter_In in F as (F & _). apply in_map_iff. eauto.
Qed.
Lemma get_filter {A B} (data : dict B) v (u : dict A) :
  get v (filter (fun x => match get (fst x) data with None => true | Some _ => false end) u)
  = match get v data with None => get v u | Some _ => None end.
Proof.
  induction u as [|[x b] u IH]; cbn; [destruct (get v data); reflexivity|].
  destruct (veqb v x) eqn:E.
  - apply veqb_eq in E. subst x. destruct (get v data) eqn:G; [exact IH|cbn; now rewrite veqb_refl].
  - destruct (get x data); [exact IH|cbn; now rewrite E].
Qed.
Lemma get_fix {B} (data : dict B) const fixval v : NoDup (keys fixval) ->
  get v (fix_vars data const fixval) = match get v data with
    | Some _ => get v const
    | None => match get v fixval with Some x => Some x | None => get v const end end.
Proof.
  intros N. unfold fix_vars. rewrite get_upd by now apply filter_nodup. rewrite get_filter. destruct (get v data); reflexivity.
Qed.

(** the fixed values *)
Definition fixval_of (f : dict (arr * list var)) : dict arr :=
  upd [(TI, A0 (5 / 100)); (RHO, A0 (1225 / 1000))] (snd (get_profiles f)).
Lemma fixval_nodup f : NoDup (keys (fixval_of f)).
Proof.
  unfold fixval_of, get_profiles. destruct (get Z0 f); [destruct (get H f) as [[h ?]|]; [destruct (get MOL f)|]|]; cbn;
  repeat constructor; cbn; intuition discriminate.
Qed.
Lemma fixval_get f v : get v (fixval_of f) = match v with
  | TI => Some (A0 (5 / 100)) | RHO => Some (A0 (1225 / 1000))
  | H => match get Z0 f, get H f with Some _, Some (h, _) => Some h | _, _ => None end
  | _ => None end.
Proof.
  unfold fixval_of, get_profiles. destruct (get Z0 f); [destruct (get H f) as [[h ?]|]; [destruct (get MOL f)|]|]; destruct v; reflexivity.
Qed.

(** what was read *)
Lemma read_site_inv l s : read_site l = Ok s -> exists t,
  read_fields l (mksite [] []) = Ok t /\ NoDup (keys (fields t)) /\ NoDup (keys (coords t)) /\
  ((exists ts ov p, coords t = [(TIME, A1 ts)] /\
     (forall v x, In (v, x) (time_data (fields t)) -> length x = length ts) /\
     s = Timeseries ts (time_data (fields t)) ov (fix_vars (time_data (fields t)) (const_data (fields t)) (fixval_of (fields t))) p) \/
   (exists ts hs ov, (coords t = [(TIME, A1 ts); (H, A1 hs)] \/ coords t = [(H, A1 hs); (TIME, A1 ts)]) /\
     (forall v m, In (v, m) (height_data (fields t)) -> matrix (length ts) (length hs) m) /\
     s = MultiHeight ts hs (height_data (fields t)) ov (fix_vars (height_data (fields t)) (const_data (fields t)) (fixval_of (fields t))))).
Proof.
  unfold read_site. destruct (read_fields l (mksite [] [])) as [t|] eqn:E; cbn -[get_states]; [|discriminate]. intros G.
  exists t. split; [reflexivity|]. destruct (read_fields_nodup _ _ _ E) as (N1 & N2); [split; constructor|].
  split; [exact N1|]. split; [exact N2|]. revert G. unfold get_states.
  assert (F : upd [(TI, A0 (5 / 100)); (RHO, A0 (1225 / 1000))] (snd (get_profiles (fields t))) = fixval_of (fields t)) by reflexivity.
  destruct (get_profiles (fields t)) as [[p ov] fv] eqn:P. cbn [snd] in F. rewrite F.
  assert (MX : forall (ts hs : list R), forallb (fun x : var * list (list R) => Nat.eqb (length (snd x)) (length ts)
      && forallb (fun r => Nat.eqb (length r) (length hs)) (snd x)) (height_data (fields t)) = true ->
      forall v m, In (v, m) (height_data (fields t)) -> matrix (length ts) (length hs) m).
  { intros ts hs A v m I. rewrite forallb_forall in A. specialize (A _ I). cbn in A. apply andb_prop in A as (A & B).
    apply Nat.eqb_eq in A. split; [exact A|]. apply Forall_forall. intros x X. rewrite forallb_forall in B. now apply Nat.eqb_eq, B. }
  set (td := time_data (fields t)) in *. set (hdt := height_data (fields t)) in *. clearbody td hdt.
  destruct (coords t) as [|[v0 a0] [|[v1 a1] r]]; cbn -[fix_vars]; [discriminate| |].
  - destruct v0, a0 as [|ts| |]; try discriminate.
    destruct (forallb _ td) eqn:FB; [|discriminate]. intros Q. injection Q as <-. left. eexists _, _, _. split; [reflexivity|]. split; [|reflexivity].
    intros v x I. rewrite forallb_forall in FB. specialize (FB _ I). now apply Nat.eqb_eq.
  - destruct v0, v1, a0, a1, r; cbn -[fix_vars forallb]; try discriminate.
    all: match goal with |- context [if forallb ?f ?h then _ else _] => destruct (forallb f h) eqn:FB; [|discriminate] end.
    all: intros Q; injection Q as <-; right; eexists _, _, _; split; [(left; reflexivity) || (right; reflexivity)|split; [apply MX; exact FB|reflexivity]].
Qed.

(** transposition *)
Lemma nth_error_hd : forall (m : list (list R)) i, nth_error (map (fun r => hd 0 r) m) i = option_map (fun r => hd 0 r) (nth_error m i).
Proof. induction m as [|r m IH]; intros [|i]; cbn; auto. Qed.
Lemma transpose_entry n : forall m i j, Forall (fun x => length x = n) m -> entry (transpose n m) i j = entry m j i.
Proof.
  unfold entry. induction n as [|n IH]; intros m i j F; cbn [transpose].
  - assert (A : nth_error (@nil (list R)) i = None) by (destruct i; reflexivity). rewrite A.
    destruct (nth_error m j) as [r|] eqn:E; [|reflexivity]. apply nth_error_In in E. rewrite Forall_forall in F. specialize (F r E).
    destruct r; [destruct i; reflexivity|discriminate].
  - destruct i as [|i]; cbn [nth_error].
    + rewrite nth_error_hd. destruct (nth_error m j) as [r|] eqn:E; [|reflexivity]. apply nth_error_In in E. rewrite Forall_forall in F. specialize (F r E).
      destruct r; [discriminate|reflexivity].
    + rewrite IH.
      * rewrite nth_error_map. destruct (nth_error m j) as [r|] eqn:E; [|reflexivity]. cbn. apply nth_error_In in E. rewrite Forall_forall in F. specialize (F r E).
        destruct r; [discriminate|reflexivity].
      * apply Forall_forall. intros x X. apply in_map_iff in X as (y & <- & Y). rewrite Forall_forall in F. specialize (F y Y). destruct y; [discriminate|]. cbn in *. lia.
Qed.

(** keys of types *)
Lemma keqb_eq a b : keqb a b = true <-> a = b.
Proof.
  destruct a, b; cbn; split; intros X; try discriminate.
  - apply Nat.eqb_eq in X. now subst.
  - injection X as ->. apply Nat.eqb_refl.
  - apply String.eqb_eq in X. now subst.
  - injection X as ->. apply String.eqb_refl.
Qed.
Lemma type_of_in k tab t : type_of k tab = Ok t -> In (k, t) tab.
Proof.
  induction tab as [|[j s] tab IH]; cbn; [discriminate|]. destruct (keqb k j) eqn:E; intros Q.
  - apply keqb_eq in E. injection Q as ->. subst. now left.
  - right. auto.
Qed.
Lemma type_of_known k tab : In k (map fst tab) -> exists t, type_of k tab = Ok t.
Proof.
  induction tab as [|[j s] tab IH]; cbn; [intros []|]. intros I. destruct (keqb k j) eqn:E; [eauto|]. apply IH.
  destruct I as [-> | I]; [|exact I]. exfalso. assert (keqb k k = true) by now apply keqb_eq. congruence.
Qed.
Lemma zip_nth {A B} : forall (a : list A) (b : list B) i p, nth_error (zip a b) i = Some p <-> nth_error a i = Some (fst p) /\ nth_error b i = Some (snd p).
Proof.
  induction a as [|x a IH]; intros [|y b] [|i] [u v]; cbn; try (split; [discriminate|intros (? & ?); discriminate]).
  - split; [intros Q; injection Q as -> ->; auto|intros (Q & P); injection Q as ->; injection P as ->; auto].
  - apply (IH b i (u, v)).
Qed.
Lemma zip_length {A B} : forall (a : list A) (b : list B), length (zip a b) = Nat.min (length a) (length b).
Proof. induction a as [|x a IH]; intros [|y b]; cbn; auto. Qed.
Lemma add_nth tab tm xy : forall i q, add_turbines tab tm i xy = Ok q ->
  length q = length xy /\ forall j p t, nth_error q j = Some (p, t) -> nth_error xy j = Some p /\
    exists k, (match tm with None => k = KInt 0 | Some ks => nth_error ks (i + j) = Some k end) /\ In (k, t) tab.
Proof.
  induction xy as [|p xy IH]; cbn; intros i q Q.
  - injection Q as <-. split; [reflexivity|]. intros [|j]; discriminate.
  - destruct (match tm with None => Ok (KInt 0) | Some l => match nth_error l i with Some k => Ok k | None => Err IndexError end end) as [k|] eqn:K; cbn in Q; [|discriminate].
    destruct (type_of k tab) as [t|] eqn:T; cbn in Q; [|discriminate].
    destruct (add_turbines tab tm (S i) xy) as [r|] eqn:R; cbn in Q; [|discriminate]. injection Q as <-.
    destruct (IH _ _ R) as (L & N). split; [cbn; lia|]. intros [|j] p' t'; cbn.
    + intros X. injection X as <- <-. split; [reflexivity|]. exists k. split; [|now apply type_of_in].
      rewrite Nat.add_0_r. destruct tm as [ks|]; [|now injection K as <-]. destruct (nth_error ks i); [now injection K as <-|discriminate].
    + intros X. destruct (N _ _ _ X) as (A & k' & B & C). split; [exact A|]. exists k'. split; [|exact C]. destruct tm; [|exact B].
      now replace (i + S j)%nat with (S i + j)%nat by lia.
Qed.
Lemma add_ok tab ks xy : forall i, (i + length xy <= length ks)%nat -> (forall k, In k ks -> In k (map fst tab)) ->
  exists q, add_turbines tab (Some ks) i xy = Ok q.
Proof.
  induction xy as [|p xy IH]; cbn; intros i L K; [eauto|].
  destruct (nth_error ks i) as [k|] eqn:E; [|apply nth_error_None in E; lia].
  destruct (type_of_known k tab) as (t & T); [apply K; eapply nth_error_In; eauto|].
  destruct (IH (S i)) as (q & Q); [lia|exact K|]. cbn. rewrite T. cbn. rewrite Q. cbn. eauto.
Qed.
Lemma add_short tab ks xy : forall i, (length ks < i + length xy)%nat -> xy <> [] -> forall q, add_turbines tab (Some ks) i xy <> Ok q.
Proof.
  induction xy as [|p xy IH]; cbn; intros i L K q; [contradiction|].
  destruct (nth_error ks i) as [k|] eqn:E; cbn; [|discriminate].
  assert (i < length ks)%nat by (apply nth_error_Some; congruence).
  destruct (type_of k tab); cbn; [|discriminate]. destruct xy as [|p' xy]; [cbn in *; lia|].
  destruct (add_turbines tab (Some ks) (S i) (p' :: xy)) as [r|] eqn:R; cbn -[add_turbines]; [|discriminate].
  exfalso. eapply (IH (S i)); [cbn in *; lia|discriminate|exact R].
Qed.
Lemma layouts_split tab : forall ls q, read_layouts tab ls = Ok q <->
  exists qs, Forall2 (fun l p => read_layout tab l = Ok p) ls qs /\ q = concat qs.
Proof.
  induction ls as [|l ls IH]; cbn; intros q; split; intros Q.
  - injection Q as <-. exists []. split; [constructor|reflexivity].
  - destruct Q as (qs & F & ->). inversion F; subst. reflexivity.
  - destruct (read_layout tab l) as [a|] eqn:A; cbn in Q; [|discriminate]. destruct (read_layouts tab ls) as [b|] eqn:B; cbn in Q; [|discriminate].
    injection Q as <-. destruct (proj1 (IH b) eq_refl) as (qs & F & ->). exists (a :: qs). split; [constructor; auto|reflexivity].
  - destruct Q as (qs & F & ->). inversion F as [|? a ? qs' A F']; subst. rewrite A. cbn.
    assert (B : read_layouts tab ls = Ok (concat qs')) by (apply IH; eauto). now rewrite B.
Qed.
