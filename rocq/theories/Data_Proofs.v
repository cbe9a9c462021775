From Verif Require Import RBase Data_Model.
Local Notation length := List.length.

Lemma lookup_store_eq {A} k (v : A) l : lookup k (store k v l) = Some v.
Proof. induction l as [|(k', v') l IH]; cbn; [now rewrite String.eqb_refl|]. destruct (k =? k')%string eqn:E; cbn; [now rewrite String.eqb_refl|]. now rewrite E. Qed.
Lemma lookup_store_ne {A} k k2 (v : A) l : k2 <> k -> lookup k2 (store k v l) = lookup k2 l.
Proof.
  intros N. induction l as [|(k', v') l IH]; cbn.
  - destruct (k2 =? k)%string eqn:E; [apply String.eqb_eq in E; contradiction|reflexivity].
  - destruct (k =? k')%string eqn:E; cbn.
    + apply String.eqb_eq in E. subst k'. destruct (k2 =? k)%string eqn:E2; [apply String.eqb_eq in E2; contradiction|reflexivity].
    + destruct (k2 =? k')%string; [reflexivity|exact IH].
Qed.
Lemma lookup_In {A} k (v : A) l : lookup k l = Some v -> In (k, v) l.
Proof. induction l as [|(k', v') l IH]; cbn; [discriminate|]. destruct (k =? k')%string eqn:E; intros H; [apply String.eqb_eq in E; injection H as <-; subst; now left|right; now apply IH]. Qed.
Lemma In_lookup {A} k (v : A) l : NoDup (map fst l) -> In (k, v) l -> lookup k l = Some v.
Proof.
  induction l as [|(k', v') l IH]; cbn; [contradiction|]. intros N [H|H].
  - injection H as H1 H2. subst. now rewrite String.eqb_refl.
  - inversion N as [|? ? N1 N2]. subst. destruct (k =? k')%string eqn:E; [|now apply IH]. apply String.eqb_eq in E. subst. exfalso. apply N1. apply in_map_iff. exists (k', v). auto.
Qed.

(** an array fits the sizes along all dimensions (except the last one of txyh) *)
Definition fits (sz : list (string * nat)) (name : string) (a : arr) (ds : list string) : Prop :=
  forall ci c, nth_error ds ci = Some c -> (c <> nXYH \/ name <> nTXYH) ->
    exists n m, nth_error (shp a) ci = Some n /\ lookup c sz = Some m /\ (n = m \/ n = 1%nat).
Definition cons_on (P : string -> Prop) (d : data) : Prop :=
  forall name a ds, P name -> lookup name (ents d) = Some (a, Some ds) -> fits (sizes d) name a ds.
(** sizes only change from one (or nothing) *)
Definition grows (sz sz' : list (string * nat)) : Prop := forall c m, lookup c sz = Some m -> exists m', lookup c sz' = Some m' /\ (m' = m \/ m = 1%nat).
Lemma grows_refl sz : grows sz sz.
Proof. intros c m H. exists m. auto. Qed.
Lemma grows_trans a b c : grows a b -> grows b c -> grows a c.
Proof. intros H1 H2 k m E. destruct (H1 k m E) as (m1 & E1 & D1). destruct (H2 k m1 E1) as (m2 & E2 & D2). exists m2. split; [assumption|]. destruct D1 as [D1|D1]; [|auto]. subst. auto. Qed.
Lemma grows_store sz c n : (lookup c sz = None \/ lookup c sz = Some 1%nat) -> grows sz (store c n sz).
Proof.
  intros H k m E. destruct (string_dec k c) as [->|N].
  - exists n. rewrite lookup_store_eq. split; [reflexivity|]. destruct H as [H|H]; rewrite H in E; [discriminate|]. injection E as <-. auto.
  - exists m. rewrite lookup_store_ne by assumption. auto.
Qed.
Lemma fits_grows sz sz' name a ds : grows sz sz' -> fits sz name a ds -> fits sz' name a ds.
Proof.
  intros G F ci c E H. destruct (F ci c E H) as (n & m & E1 & E2 & D). destruct (G c m E2) as (m' & E3 & D'). exists n, m'.
  split; [assumption|]. split; [assumption|]. destruct D as [D|D]; [|auto]. destruct D' as [D'|D']; subst; auto.
Qed.

Lemma check_dims_ok dims : forall sz sh sz', check_dims sz sh dims = (sz', None) ->
  grows sz sz' /\ forall ci c, nth_error dims ci = Some c -> exists n m, nth_error sh ci = Some n /\ lookup c sz' = Some m /\ (n = m \/ n = 1%nat).
Proof.
  induction dims as [|c dims IH]; intros sz sh sz' H; cbn [check_dims] in H.
  - assert (sz = sz') by congruence. subst sz'. split; [apply grows_refl|]. intros [|ci] c E; discriminate.
  - destruct sh as [|n sh]; [discriminate|].
    assert (Step : forall sz1, grows sz sz1 -> (exists m, lookup c sz1 = Some m /\ (n = m \/ n = 1%nat)) -> check_dims sz1 sh dims = (sz', None) ->
      grows sz sz' /\ forall ci c0, nth_error (c :: dims) ci = Some c0 -> exists n0 m, nth_error (n :: sh) ci = Some n0 /\ lookup c0 sz' = Some m /\ (n0 = m \/ n0 = 1%nat)).
    { intros sz1 G1 (m & Em & D) H1. destruct (IH _ _ _ H1) as (G2 & F). split; [now apply (grows_trans _ sz1)|].
      intros [|ci] c0 E; [|exact (F ci c0 E)]. cbn in E. injection E as <-. destruct (G2 c m Em) as (m' & E' & D'). exists n, m'. split; [reflexivity|]. split; [assumption|].
      destruct D as [D|D]; [|auto]. destruct D' as [D'|D']; subst; auto. }
    destruct (lookup c sz) as [m|] eqn:E.
    + destruct (m =? 1)%nat eqn:E1; [apply Nat.eqb_eq in E1|apply Nat.eqb_neq in E1].
      * apply (Step (store c n sz)); [apply grows_store; subst; auto| |assumption]. exists n. rewrite lookup_store_eq. auto.
      * destruct (n =? 1)%nat eqn:E2; [apply Nat.eqb_eq in E2|apply Nat.eqb_neq in E2].
        -- apply (Step sz); [apply grows_refl| |assumption]. exists m. auto.
        -- destruct (m =? n)%nat eqn:E3; [apply Nat.eqb_eq in E3|discriminate]. apply (Step sz); [apply grows_refl| |assumption]. exists m. auto.
    + apply (Step (store c n sz)); [apply grows_store; auto| |assumption]. exists n. rewrite lookup_store_eq. auto.
Qed.
(** a conflicting size is found *)
Lemma check_dims_reject dims : forall sz sh ci c n m, nth_error dims ci = Some c -> nth_error sh ci = Some n -> lookup c sz = Some m -> m <> 1%nat -> n <> 1%nat -> n <> m ->
  exists sz' e, check_dims sz sh dims = (sz', Some e).
Proof.
  induction dims as [|c0 dims IH]; intros sz sh ci c n m Ec En Em Hm Hn Hd; [destruct ci; discriminate|]. cbn.
  destruct sh as [|n0 sh]; [eauto|]. destruct ci as [|ci].
  - cbn in Ec, En. injection Ec as ->. injection En as ->. rewrite Em. apply Nat.eqb_neq in Hm. rewrite Hm. apply Nat.eqb_neq in Hn. rewrite Hn.
    destruct (m =? n)%nat eqn:E; [apply Nat.eqb_eq in E; congruence|eauto].
  - cbn in Ec, En. assert (G : forall x, (lookup c0 sz = None \/ lookup c0 sz = Some 1%nat) -> exists sz' e, check_dims (store c0 x sz) sh dims = (sz', Some e)).
    { intros x D. apply (IH _ sh ci c n m); try assumption. rewrite lookup_store_ne; [assumption|]. intros ->. destruct D as [D|D]; rewrite D in Em; congruence. }
    destruct (lookup c0 sz) as [m0|] eqn:E0; [|apply G; auto].
    destruct (m0 =? 1)%nat eqn:E1; [apply Nat.eqb_eq in E1; subst; apply G; auto|].
    destruct (n0 =? 1)%nat; [apply (IH sz sh ci c n m); assumption|]. destruct (m0 =? n0)%nat; [apply (IH sz sh ci c n m); assumption|eauto].
Qed.

Lemma entry_checks_ok P d name a dm d' : cons_on P d -> lookup name (ents d) = Some (a, dm) -> entry_checks d name a dm = (d', None) ->
  cons_on (fun k => P k \/ k = name) d' /\ grows (sizes d) (sizes d') /\ (forall k, k <> name -> lookup k (ents d') = lookup k (ents d)) /\ loops d' = loops d /\
  (exists a', lookup name (ents d') = Some (a', dm)).
Proof.
  intros C L H. destruct dm as [ds|]; cbn [entry_checks] in H.
  - destruct (if (length ds =? length (shp a))%nat then (a, None) else squeeze_loop a ds 0 (loops d) a) as (cur, e). destruct e as [e|]; [discriminate|].
    destruct (check_dims (sizes d) (shp cur) ds) as (sz, e) eqn:E. injection H as <- ->. destruct (check_dims_ok _ _ _ _ E) as (G & F). cbn [sizes ents loops set_entry]. split; [|split; [exact G|split; [|split; [reflexivity|]]]].
    + intros k b db HP Lk. cbn [ents sizes set_entry] in *. destruct (string_dec k name) as [->|N].
      * rewrite lookup_store_eq in Lk. injection Lk as <- <-. intros ci c Ec _. exact (F ci c Ec).
      * rewrite lookup_store_ne in Lk by assumption. apply (fits_grows (sizes d)); [exact G|]. apply C; [|assumption]. destruct HP as [HP|HP]; [assumption|contradiction].
    + intros k N. now rewrite lookup_store_ne.
    + exists cur. apply lookup_store_eq.
  - injection H as <-. split; [|split; [apply grows_refl|split; [reflexivity|split; [reflexivity|eauto]]]]. intros k b db HP Lk. destruct HP as [HP|HP]; [now apply C|]. subst. rewrite L in Lk. discriminate.
Qed.

Definition all : string -> Prop := fun _ => True.
Lemma add_coord_ok d c : cons_on all d -> cons_on all (add_coord d c) /\ sizes (add_coord d c) = sizes d.
Proof.
  intros C. unfold add_coord. destruct (lookup c (ents d)) as [x|] eqn:E1; [now split|]. destruct (lookup c (sizes d)) as [n|] eqn:E2; [|now split].
  split; [|reflexivity]. intros k a ds _ L. cbn [ents sizes set_entry] in *. destruct (string_dec k c) as [->|N].
  - rewrite lookup_store_eq in L. injection L as <- <-. intros [|ci] c' E _; [|destruct ci; discriminate]. cbn in E. injection E as <-. exists n, n. cbn. auto.
  - rewrite lookup_store_ne in L by assumption. now apply (C k a ds I).
Qed.
Lemma add_coords_ok l : forall d, cons_on all d -> cons_on all (fold_left add_coord l d) /\ sizes (fold_left add_coord l d) = sizes d.
Proof. induction l as [|c l IH]; intros d C; cbn; [auto|]. destruct (add_coord_ok d c C) as (C1 & S1). destruct (IH _ C1) as (C2 & S2). split; [assumption|congruence]. Qed.
Lemma update_txyh_ok d d' : cons_on all d -> update_txyh d = (d', None) -> cons_on all d' /\ sizes d' = sizes d.
Proof.
  intros C. unfold update_txyh. destruct (lookup nTXYH (ents d)) as [?|] eqn:E0; [intros H; injection H as <-; auto|].
  destruct (lookup nX (ents d)) as [(x, dx)|] eqn:E1; [|intros H; injection H as <-; auto].
  destruct (lookup nY (ents d)) as [(y, dy)|] eqn:E2; [|intros H; injection H as <-; auto].
  destruct (lookup nH (ents d)) as [(h, dh)|] eqn:E3; [|intros H; injection H as <-; auto].
  destruct (same_dims dx dy && same_dims dx dh); [|intros H; injection H as <-; auto].
  destruct (same_shape x y && same_shape x h); [|discriminate]. destruct dx as [ds|]; [|discriminate]. intros H. injection H as <-. split; [|reflexivity].
  intros k a d0 _ L. cbn [ents sizes set_entry] in *. destruct (string_dec k nTXYH) as [->|N].
  - rewrite lookup_store_eq in L. injection L as <- <-. intros ci c Ec [Hc|Hc]; [|contradiction]. cbn [stack3 shp].
    assert (Ld : (ci < length ds)%nat).
    { assert (ci < length (ds ++ [nXYH]))%nat by (apply nth_error_Some; congruence). rewrite app_length in H. cbn in H. destruct (Nat.eq_dec ci (length ds)) as [->|]; [|lia].
      rewrite nth_error_app2, Nat.sub_diag in Ec by lia. cbn in Ec. injection Ec as <-. contradiction. }
    rewrite nth_error_app1 in Ec by assumption. destruct (C nX x ds I E1 ci c Ec) as (n & m & A1 & A2 & A3); [right; discriminate|].
    exists n, m. split; [|auto]. rewrite nth_error_app1; [assumption|]. apply nth_error_Some. congruence.
  - rewrite lookup_store_ne in L by assumption. now apply (C k a d0 I).
Qed.
Lemma auto_update_ok d d' : cons_on all d -> auto_update d = (d', None) -> cons_on all d' /\ sizes d' = sizes d.
Proof.
  intros C. unfold auto_update. destruct (update_txyh d) as (d1, e) eqn:E. destruct e; [discriminate|]. intros H. injection H as <-.
  destruct (update_txyh_ok _ _ C E) as (C1 & S1). destruct (add_coords_ok (all_dims d1) d1 C1) as (C2 & S2). split; [assumption|congruence].
Qed.
Lemma add_ok d name a dm d' : cons_on all d -> add d name a dm = (d', None) -> cons_on all d' /\ grows (sizes d) (sizes d').
Proof.
  intros C. unfold add. destruct (entry_checks (set_entry d name a dm) name a dm) as (d1, e) eqn:E. destruct e; [discriminate|]. intros H.
  assert (C0 : cons_on (fun k => k <> name) (set_entry d name a dm)).
  { intros k b ds N L. cbn [ents sizes set_entry] in *. rewrite lookup_store_ne in L by assumption. now apply (C k b ds I). }
  destruct (entry_checks_ok _ _ _ _ _ _ C0 (lookup_store_eq _ _ _) E) as (C1 & G & _).
  assert (C2 : cons_on all d1) by (intros k b ds _ L; apply C1; [destruct (string_dec k name); auto|assumption]).
  destruct (auto_update_ok _ _ C2 H) as (C3 & S3). split; [assumption|]. rewrite S3. exact G.
Qed.
Lemma init_checks_ok items : forall P d d', NoDup (map fst items) -> (forall k v, In (k, v) items -> lookup k (ents d) = Some v) -> cons_on P d -> init_checks d items = (d', None) ->
  cons_on (fun k => P k \/ In k (map fst items)) d' /\ (forall k, ~ In k (map fst items) -> lookup k (ents d') = lookup k (ents d)).
Proof.
  induction items as [|(k, (a, dm)) items IH]; intros P d d' N L C H; cbn in H.
  - injection H as <-. split; [|reflexivity]. intros k b ds [HP|[]] Lk. now apply C.
  - inversion N as [|? ? N1 N2]. subst. destruct (entry_checks d k a dm) as (d1, e) eqn:E. destruct e; [discriminate|].
    destruct (entry_checks_ok P d k a dm d1 C (L k (a, dm) (or_introl eq_refl)) E) as (C1 & _ & O & _).
    destruct (IH (fun x => P x \/ x = k) d1 d' N2) as (C2 & O2).
    + intros k2 v2 I2. rewrite O; [apply L; now right|]. intros ->. apply N1. apply in_map_iff. exists (k, v2). auto.
    + exact C1.
    + exact H.
    + split; [|intros k2 N3; cbn in N3; rewrite O2 by tauto; apply O; intros ->; tauto]. intros k2 b ds HP Lk. apply C2; [|assumption]. cbn in HP. destruct HP as [HP|[HP|HP]]; auto.
Qed.
Lemma init_keys items : forall d d', init_checks d items = (d', None) -> forall k, lookup k (ents d') <> None -> lookup k (ents d) <> None \/ In k (map fst items).
Proof.
  induction items as [|(k, (a, dm)) items IH]; intros d d' H k2 Hk; cbn in H; [injection H as <-; auto|].
  destruct (entry_checks d k a dm) as (d1, e) eqn:E. destruct e; [discriminate|]. destruct (IH _ _ H k2 Hk) as [Hl|Hl]; [|cbn; auto].
  destruct (string_dec k2 k) as [->|N]; [cbn; auto|]. left. unfold entry_checks in E. destruct dm as [ds|]; [|injection E as <-; exact Hl].
  destruct (if (length ds =? length (shp a))%nat then (a, None) else squeeze_loop a ds 0 (loops d) a) as (cur, e). destruct e; [discriminate|].
  destruct (check_dims (sizes d) (shp cur) ds) as (sz, e). injection E as <- ->. cbn [ents set_entry] in Hl. rewrite lookup_store_ne in Hl by assumption. exact Hl.
Qed.
Lemma init_ok items loop d : NoDup (map fst items) -> init items loop = (d, None) -> cons_on all d.
Proof.
  intros N. unfold init. destruct (init_checks {| ents := items; sizes := []; loops := loop |} items) as (d1, e) eqn:E. destruct e; [discriminate|]. intros H.
  assert (C1 : cons_on all d1).
  { destruct (init_checks_ok items (fun _ => False) {| ents := items; sizes := []; loops := loop |} d1 N) as (C & _); [| |exact E|].
    - intros k v I. cbn. now apply In_lookup.
    - intros k a ds [].
    - intros k a ds _ L. apply C; [|assumption]. right. destruct (init_keys _ _ _ E k) as [Hk|Hk]; [congruence| |assumption]. cbn in Hk.
      destruct (lookup k items) as [v|] eqn:Ev; [|contradiction]. apply lookup_In in Ev. apply in_map_iff. exists (k, v). auto. }
  exact (proj1 (auto_update_ok _ _ C1 H)).
Qed.
Lemma adds_ok l : forall d d', cons_on all d -> adds d l = Some d' -> cons_on all d'.
Proof.
  induction l as [|(k, (a, dm)) l IH]; intros d d' C H; cbn in H; [injection H as <-; exact C|].
  destruct (add d k a dm) as (d1, e) eqn:E. destruct e; [discriminate|]. apply (IH d1 d'); [|exact H]. exact (proj1 (add_ok _ _ _ _ _ C E)).
Qed.

(** fitting arrays agree *)
Lemma fits_agree sz n1 a1 ds1 n2 a2 ds2 i1 i2 c l1 l2 : fits sz n1 a1 ds1 -> fits sz n2 a2 ds2 -> nth_error ds1 i1 = Some c -> nth_error ds2 i2 = Some c ->
  (c <> nXYH \/ (n1 <> nTXYH /\ n2 <> nTXYH)) -> nth_error (shp a1) i1 = Some l1 -> nth_error (shp a2) i2 = Some l2 -> l1 = l2 \/ l1 = 1%nat \/ l2 = 1%nat.
Proof.
  intros F1 F2 E1 E2 H L1 L2. destruct (F1 i1 c E1) as (x1 & m1 & A1 & B1 & D1); [tauto|]. destruct (F2 i2 c E2) as (x2 & m2 & A2 & B2 & D2); [tauto|].
  rewrite L1 in A1. injection A1 as <-. rewrite L2 in A2. injection A2 as <-. rewrite B1 in B2. injection B2 as <-. destruct D1, D2; subst; auto.
Qed.
(** coordinates never change once stored, except by adding them *)
Lemma add_coord_keep d c k v : lookup k (ents d) = Some v -> lookup k (ents (add_coord d c)) = Some v.
Proof.
  intros H. unfold add_coord. destruct (lookup c (ents d)) as [?|] eqn:E; [assumption|]. destruct (lookup c (sizes d)); [|assumption]. cbn [ents set_entry].
  rewrite lookup_store_ne; [assumption|]. congruence.
Qed.
Lemma add_coords_keep l : forall d k v, lookup k (ents d) = Some v -> lookup k (ents (fold_left add_coord l d)) = Some v.
Proof. induction l as [|c l IH]; intros d k v H; cbn; [exact H|]. apply IH. now apply add_coord_keep. Qed.
Lemma auto_update_keep d d' e k v : lookup k (ents d) = Some v -> auto_update d = (d', e) -> lookup k (ents d') = Some v.
Proof.
  intros H. unfold auto_update. assert (K : forall d1 e1, update_txyh d = (d1, e1) -> lookup k (ents d1) = Some v).
  { unfold update_txyh. intros d1 e1. destruct (lookup nTXYH (ents d)) as [?|] eqn:E0; [intros Q; injection Q as <- _; exact H|].
    destruct (lookup nX (ents d)) as [(x, dx)|]; [|intros Q; injection Q as <- _; exact H].
    destruct (lookup nY (ents d)) as [(y, dy)|]; [|intros Q; injection Q as <- _; exact H].
    destruct (lookup nH (ents d)) as [(h, dh)|]; [|intros Q; injection Q as <- _; exact H].
    destruct (same_dims dx dy && same_dims dx dh); [|intros Q; injection Q as <- _; exact H].
    destruct (same_shape x y && same_shape x h); [|intros Q; injection Q as <- _; exact H]. destruct dx; intros Q; injection Q as <- _; [|exact H].
    cbn [ents set_entry]. rewrite lookup_store_ne; [exact H|]. congruence. }
  destruct (update_txyh d) as (d1, e1). specialize (K d1 e1 eq_refl). destruct e1; intros Q; injection Q as <- _; [exact K|]. now apply add_coords_keep.
Qed.
Lemma entry_checks_keep d name a dm d' e k : k <> name -> entry_checks d name a dm = (d', e) -> lookup k (ents d') = lookup k (ents d).
Proof.
  intros N. unfold entry_checks. destruct dm as [ds|]; [|intros H; injection H as <- _; reflexivity].
  destruct (if (length ds =? length (shp a))%nat then (a, None) else squeeze_loop a ds 0 (loops d) a) as (cur, e0). destruct e0.
  - intros H. injection H as <- _. cbn [ents set_entry]. now rewrite lookup_store_ne.
  - destruct (check_dims (sizes d) (shp cur) ds) as (sz, e1). intros H. injection H as <- _. cbn [ents set_entry]. now rewrite lookup_store_ne.
Qed.
Lemma add_keep d name a dm d' e k v : k <> name -> lookup k (ents d) = Some v -> add d name a dm = (d', e) -> lookup k (ents d') = Some v.
Proof.
  intros N H. unfold add. destruct (entry_checks (set_entry d name a dm) name a dm) as (d1, e1) eqn:E. apply (entry_checks_keep _ _ _ _ _ _ k N) in E. cbn [ents set_entry] in E.
  rewrite lookup_store_ne in E by assumption. rewrite H in E. destruct e1; intros Q; [injection Q as <- _; exact E|]. exact (auto_update_keep _ _ _ _ _ E Q).
Qed.
(** adding an array of matching rank stores it *)
Lemma add_stores d name a ds d' e : length ds = length (shp a) -> add d name a (Some ds) = (d', e) -> lookup name (ents d') = Some (a, Some ds).
Proof.
  intros HL. unfold add, entry_checks. rewrite HL, Nat.eqb_refl. destruct (check_dims _ _ _) as (sz, e1). destruct e1; intros H.
  - injection H as <- _. cbn [ents set_entry]. apply lookup_store_eq.
  - eapply auto_update_keep; [|exact H]. cbn [ents set_entry]. apply lookup_store_eq.
Qed.

Lemma combine_seq_eq l : forall s, forallb (fun p => (fst p =? snd p)%nat) (combine l (seq s (length l))) = true -> l = seq s (length l).
Proof. induction l as [|x l IH]; intros s H; [reflexivity|]. cbn in H. apply andb_prop in H. destruct H as (H1 & H2). apply Nat.eqb_eq in H1. subst. cbn. f_equal. now apply IH. Qed.
Lemma combine_seq_refl n : forall s, forallb (fun p => (fst p =? snd p)%nat) (combine (seq s n) (seq s n)) = true.
Proof. induction n as [|n IH]; intros s; [reflexivity|]. cbn. rewrite Nat.eqb_refl. apply IH. Qed.

(** squeezing of loop axes *)
Definition keep (a : arr) (ds : list string) (i : nat) (l : string) : Prop := exists n, nth_error (shp a) i = Some n /\ (n <> 1%nat \/ nth_error ds i = Some l).
Lemma squeeze_keep a ds rest : forall lp li cur, (forall j l, nth_error lp j = Some l -> keep a ds (li + j) l) ->
  squeeze_loop a ds li (lp ++ rest) cur = squeeze_loop a ds (li + length lp) rest cur.
Proof.
  induction lp as [|l lp IH]; intros li cur H; [cbn [app List.length]; now rewrite Nat.add_0_r|].
  cbn [app squeeze_loop]. destruct (H 0%nat l eq_refl) as (n & E & K). rewrite Nat.add_0_r in *. rewrite E.
  assert (C : ((n =? 1)%nat && match nth_error ds li with None => true | Some c => negb (c =? l)%string end) = false).
  { destruct K as [K|K]; [apply Nat.eqb_neq in K; now rewrite K|]. rewrite K, String.eqb_refl. apply andb_false_r. }
  rewrite C. rewrite IH; [cbn [List.length]; f_equal; lia|]. intros j l' Hj. replace (S li + j)%nat with (li + S j)%nat by lia. apply H. exact Hj.
Qed.
Lemma insert0_app i j : insert0 (length i) (i ++ j) = i ++ 0%nat :: j.
Proof. induction i as [|x i IH]; [destruct j; reflexivity|]. cbn [List.length app insert0]. now rewrite IH. Qed.
Lemma remove_nth_app i x j : remove_nth (length i) (i ++ x :: j) = i ++ j.
Proof. induction i as [|y i IH]; [reflexivity|]. cbn [List.length app remove_nth]. now rewrite IH. Qed.
Lemma squeeze_one a ds pre post lp l ls : shp a = pre ++ 1%nat :: post -> length lp = length pre -> nth_error ds (length pre) <> Some l ->
  (forall j k, nth_error lp j = Some k -> keep a ds j k) -> (forall j k, nth_error ls j = Some k -> keep a ds (S (length pre) + j) k) ->
  exists cur, squeeze_loop a ds 0 (lp ++ l :: ls) a = (cur, None) /\ shp cur = pre ++ post /\ forall i j, length i = length pre -> val cur (i ++ j) = val a (i ++ 0%nat :: j).
Proof.
  intros Hs HL Hd H1 H2. exists (squeeze a (length pre)). rewrite squeeze_keep by exact H1. cbn [Nat.add squeeze_loop]. rewrite HL.
  rewrite Hs at 1. rewrite nth_error_app2 by lia. rewrite Nat.sub_diag. cbn [nth_error]. rewrite Nat.eqb_refl. cbn [andb].
  assert (O : match nth_error ds (length pre) with None => true | Some c => negb (c =? l)%string end = true).
  { destruct (nth_error ds (length pre)) as [c|]; [|reflexivity]. destruct (c =? l)%string eqn:E; [|reflexivity]. apply String.eqb_eq in E. congruence. }
  rewrite O. split.
  - rewrite <- (app_nil_r ls). rewrite squeeze_keep by exact H2. reflexivity.
  - unfold squeeze. cbn [shp val]. rewrite Hs, remove_nth_app. split; [reflexivity|]. intros i j Hi. rewrite <- Hi. now rewrite insert0_app.
Qed.
