From Verif Require Import Base ChunkStore_Model ChunkStore_Spec.
Require Import ZifyBool.
Local Open Scope Z_scope.

Section P.
  Context {V : Type}.
  Notation store := (@store V).

  Lemma dget_dset n m v (d : list (nat * V)) :
    dget n (dset m v d) = if (n =? m)%nat then Some v else dget n d.
  Proof.
    induction d as [|[k w] d IH]; cbn.
    - reflexivity.
    - destruct (m =? k)%nat eqn:E; cbn.
      + apply Nat.eqb_eq in E; subst k. destruct (n =? m)%nat eqn:E2; reflexivity.
      + destruct (n =? k)%nat eqn:E2.
        * apply Nat.eqb_eq in E2; subst k. destruct (n =? m)%nat eqn:E3; [|reflexivity].
          apply Nat.eqb_eq in E3; subst. rewrite Nat.eqb_refl in E. discriminate.
        * exact IH.
  Qed.

  Definition keyed (f : @centry V -> @centry V) := forall e, c_i0 (f e) = c_i0 e /\ c_t0 (f e) = c_t0 e.
  Lemma sget_supd i0 t0 i t f (s : store) : keyed f ->
    sget i t (supd i0 t0 f s) = if (i0 =? i) && (t0 =? t) then option_map f (sget i t s) else sget i t s.
  Proof.
    intros Hf. unfold sget. induction s as [|e s IH]; cbn [supd find].
    - now destruct (_ && _).
    - destruct (is_key i0 t0 e) eqn:E; cbn [find].
      + assert (is_key i t (f e) = is_key i t e) as ->. { unfold is_key. destruct (Hf e) as [-> ->]. reflexivity. }
        unfold is_key in *. destruct ((c_i0 e =? i) && (c_t0 e =? t)) eqn:E2.
        * assert ((i0 =? i) && (t0 =? t) = true) as -> by lia. reflexivity.
        * assert ((i0 =? i) && (t0 =? t) = false) as -> by lia. reflexivity.
      + destruct (is_key i t e) eqn:E2.
        * assert ((i0 =? i) && (t0 =? t) = false) as -> by (unfold is_key in *; lia). reflexivity.
        * exact IH.
  Qed.
  Lemma sget_app i t (s s' : store) :
    sget i t (s ++ s') = match sget i t s with Some e => Some e | None => sget i t s' end.
  Proof. unfold sget. induction s as [|e s IH]; cbn; [reflexivity|]. now destruct (is_key i t e). Qed.

  Definition sdata (i t : Z) (n : nat) (s : store) : option V :=
    match sget i t s with Some e => dget n (c_data e) | None => None end.
  Lemma add_keyed n v : keyed (fun e => mkentry (c_i0 e) (c_ns e) (c_t0 e) (c_nt e) (dset n v (c_data e))).
  Proof. split; reflexivity. Qed.
  Lemma sdata_add i t n m v g (s : store) :
    sdata i t n (add m v g s) = if (m =? n)%nat && (g_i0 g =? i) && (g_t0 g =? t) then Some v else sdata i t n s.
  Proof.
    unfold sdata, add. rewrite sget_supd by apply add_keyed.
    assert (Hn : sget (g_i0 g) (g_t0 g) s = None -> (g_i0 g =? i) && (g_t0 g =? t) = true -> sget i t s = None).
    { intros H H'. assert (g_i0 g = i) by lia. assert (g_t0 g = t) by lia. subst. exact H. }
    assert (Hs : forall e, sget (g_i0 g) (g_t0 g) s = Some e -> (g_i0 g =? i) && (g_t0 g =? t) = true -> sget i t s = Some e).
    { intros e H H'. assert (g_i0 g = i) by lia. assert (g_t0 g = t) by lia. subst. exact H. }
    destruct ((g_i0 g =? i) && (g_t0 g =? t)) eqn:E.
    - rewrite <- andb_assoc, E, andb_true_r. rewrite Nat.eqb_sym.
      destruct (sget (g_i0 g) (g_t0 g) s) as [e|] eqn:Eg.
      + rewrite (Hs e eq_refl eq_refl). cbn. now rewrite dget_dset.
      + rewrite sget_app. rewrite (Hn eq_refl eq_refl). cbn.
        unfold is_key; cbn. rewrite E. cbn. now destruct (n =? m)%nat.
    - rewrite <- andb_assoc, E, andb_false_r.
      destruct (sget (g_i0 g) (g_t0 g) s) as [e|] eqn:Eg; [reflexivity|].
      rewrite sget_app. destruct (sget i t s); [reflexivity|]. cbn. unfold is_key; cbn. now rewrite E.
  Qed.

  Lemma run_snoc ops o : run (ops ++ [o]) = @step V (run ops) o.
  Proof. unfold run. now rewrite fold_left_app. Qed.
  Lemma sdata_run n i t (ops : list (@op V)) : sdata i t n (run ops) = last_stored n i t (rev ops).
  Proof.
    induction ops as [|o ops IH] using rev_ind; [reflexivity|].
    rewrite run_snoc, rev_app_distr. cbn [rev app last_stored]. destruct o as [m v g|].
    - cbn [step]. rewrite sdata_add, IH. reflexivity.
    - reflexivity.
  Qed.

  Lemma get_current (ops : list (@op V)) n g error :
    get (run ops) n g 0 0 error =
    match last_stored n (g_i0 g) (g_t0 g) (rev ops) with
    | Some v => Ok (Some v)
    | None => if error then Err KeyError else Ok None
    end.
  Proof.
    rewrite <- sdata_run. unfold get, find_chunk, sdata. cbn.
    destruct (sget _ _ _) as [e|]; [destruct (dget n (c_data e))|]; reflexivity.
  Qed.

  Lemma supd_In i t f (s : store) e : In e (supd i t f s) -> In e s \/ exists e0, In e0 s /\ e = f e0.
  Proof.
    induction s as [|x s IH]; cbn; [tauto|]. destruct (is_key i t x); cbn.
    - intros [<-|H]; [right; exists x; auto|auto].
    - intros [<-|H]; [auto|]. destruct (IH H) as [|(e0 & ? & ?)]; [auto|right; eauto].
  Qed.
  Lemma supd_In_keep i t f (s : store) e0 : keyed f -> In e0 s -> exists e, In e (supd i t f s) /\ c_i0 e = c_i0 e0 /\ c_t0 e = c_t0 e0.
  Proof.
    intros Hf. induction s as [|x s IH]; cbn; [tauto|]. destruct (is_key i t x); cbn.
    - intros [<-|H]; [exists (f x); split; [now left|apply Hf]|exists e0; auto].
    - intros [<-|H]; [exists x; auto|]. destruct (IH H) as (e & ? & ?). exists e; auto.
  Qed.
  (** ** walking back on a grid *)
  Variables ss ts : list Z.
  Hypothesis Hss : Forall (fun x => 0 < x) ss.
  Hypothesis Hts : ts = [0] \/ Forall (fun x => 0 < x) ts.

  Lemma off_S l a : (a < length l)%nat -> off l (S a) = off l a + size l a.
  Proof.
    unfold off, size. revert a; induction l as [|x l IH]; intros a H; [cbn in H; lia|].
    destruct a as [|a]; [cbn; lia|]. specialize (IH a ltac:(cbn in H; lia)).
    rewrite !firstn_cons. unfold zsum in *. cbn [fold_right nth]. lia.
  Qed.
  Lemma off_mono l a b : Forall (fun x => 0 < x) l -> (a < b)%nat -> (b <= length l)%nat -> off l a < off l b.
  Proof.
    intros Hl Hab. induction Hab as [|b Hab IH]; intros Hb.
    - rewrite off_S by lia. assert (0 < size l a); [|lia].
      unfold size. rewrite Forall_forall in Hl. apply Hl, nth_In. lia.
    - rewrite off_S by lia. specialize (IH ltac:(lia)). assert (0 < size l b); [|lia].
      unfold size. rewrite Forall_forall in Hl. apply Hl, nth_In. lia.
  Qed.
  Lemma off_inj l a b : Forall (fun x => 0 < x) l -> (a <= length l)%nat -> (b <= length l)%nat -> off l a = off l b -> a = b.
  Proof.
    intros Hl Ha Hb E. destruct (Nat.lt_trichotomy a b) as [H|[H|H]]; [|exact H|];
      [apply (off_mono l) in H|apply (off_mono l) in H]; auto; lia.
  Qed.

  Definition gridstore (s : store) : Prop :=
    forall e, In e s -> exists a b, (a < length ss)%nat /\ (b < length ts)%nat /\
      c_i0 e = off ss a /\ c_ns e = size ss a /\ c_t0 e = off ts b /\ c_nt e = size ts b.

  Lemma gridstore_run ops : Forall (@on_grid V ss ts) ops -> gridstore (run ops).
  Proof.
    induction ops as [|o ops IH] using rev_ind; intros H.
    - intros e [].
    - apply Forall_app in H. destruct H as [H1 H2]. inversion H2 as [|? ? Ho _]; subst.
      specialize (IH H1). rewrite run_snoc. destruct o as [n v g|]; [|intros e []].
      destruct Ho as (a & b & Ha & Hb & ->). cbn [step]. unfold add. cbn [grid g_i0 g_t0 g_ns g_nt].
      assert (G : gridstore (match sget (off ss a) (off ts b) (run ops) with Some _ => run ops
        | None => run ops ++ [mkentry (off ss a) (size ss a) (off ts b) (size ts b) []] end)).
      { destruct (sget _ _ _); [exact IH|]. intros e He. apply in_app_or in He. destruct He as [He|[<-|[]]]; [auto|].
        exists a, b. cbn. auto 6. }
      intros e He. apply supd_In in He. destruct He as [He|(e0 & He & ->)]; [auto|]. exact (G e0 He).
  Qed.

  Lemma find_some_first {A} (f : A -> bool) l x : In x l -> f x = true -> exists y, find f l = Some y /\ In y l /\ f y = true.
  Proof.
    intros Hin Hf. destruct (find f l) as [y|] eqn:E.
    - exists y. split; [reflexivity|]. now apply find_some.
    - exfalso. apply (find_none f l E) in Hin. congruence.
  Qed.

  Lemma walk_t_grid (s : store) a : gridstore s -> (a < length ss)%nat -> forall pt b,
    (b < length ts)%nat -> (pt <= b)%nat ->
    (forall k, (b - pt <= k < b)%nat -> stored_chunk ss ts a k s) ->
    walk_t s (off ss a) (off ts b) (size ts b) pt = Some (off ts (b - pt), size ts (b - pt)).
  Proof.
    intros G Ha pt. induction pt as [|pt IH]; intros b Hb Hp Hst; cbn [walk_t].
    - now rewrite Nat.sub_0_r.
    - destruct (Hst (b - 1)%nat ltac:(lia)) as (e & He & E1 & E2).
      destruct (G e He) as (a' & b' & A1 & A2 & A3 & A4 & A5 & A6).
      assert (Hpos : Forall (fun x => 0 < x) ts). { destruct Hts as [->|H]; [cbn in Hb; lia|exact H]. }
      destruct (find_some_first (fun e => (c_i0 e =? off ss a) && (c_t0 e + c_nt e =? off ts b)) s e He) as (y & Fy & Iy & Py).
      { assert (b' = (b - 1)%nat) by (apply (off_inj ts); [exact Hpos|lia|lia|congruence]). subst b'.
        pose proof (off_S ts (b - 1) ltac:(lia)) as E. replace (S (b - 1)) with b in E by lia. apply andb_true_iff. split; apply Z.eqb_eq; lia. }
      apply andb_true_iff in Py; destruct Py as [Py1 Py2]; apply Z.eqb_eq in Py1, Py2.
      rewrite Fy. destruct (G y Iy) as (ya & yb & Y1 & Y2 & Y3 & Y4 & Y5 & Y6).
      assert (yb = (b - 1)%nat).
      { assert (S yb = b); [|lia]. apply (off_inj ts); [exact Hpos|lia|lia|]. rewrite off_S by lia. lia. }
      subst yb. rewrite Y6. pose proof (off_S ts (b - 1) ltac:(lia)) as E. replace (S (b - 1)) with b in E by lia.
      replace (off ts b - size ts (b - 1)) with (off ts (b - 1)) by lia.
      rewrite IH; try lia.
      + do 2 f_equal; f_equal; lia.
      + intros k Hk. apply Hst. lia.
  Qed.
  Lemma walk_s_grid (s : store) b : gridstore s -> (b < length ts)%nat -> forall ps a,
    (a < length ss)%nat -> (ps <= a)%nat ->
    (forall k, (a - ps <= k < a)%nat -> stored_chunk ss ts k b s) ->
    walk_s s (off ss a) (off ts b) (size ss a) ps = Some (off ss (a - ps), size ss (a - ps)).
  Proof.
    intros G Hb ps. induction ps as [|ps IH]; intros a Ha Hp Hst; cbn [walk_s].
    - now rewrite Nat.sub_0_r.
    - destruct (Hst (a - 1)%nat ltac:(lia)) as (e & He & E1 & E2).
      destruct (G e He) as (a' & b' & A1 & A2 & A3 & A4 & A5 & A6).
      destruct (find_some_first (fun e => (c_i0 e + c_ns e =? off ss a) && (c_t0 e =? off ts b)) s e He) as (y & Fy & Iy & Py).
      { assert (a' = (a - 1)%nat) by (apply (off_inj ss); [exact Hss|lia|lia|congruence]). subst a'.
        pose proof (off_S ss (a - 1) ltac:(lia)) as E. replace (S (a - 1)) with a in E by lia. apply andb_true_iff. split; apply Z.eqb_eq; lia. }
      apply andb_true_iff in Py; destruct Py as [Py1 Py2]; apply Z.eqb_eq in Py1, Py2.
      rewrite Fy. destruct (G y Iy) as (ya & yb & Y1 & Y2 & Y3 & Y4 & Y5 & Y6).
      assert (ya = (a - 1)%nat).
      { assert (S ya = a); [|lia]. apply (off_inj ss); [exact Hss|lia|lia|]. rewrite off_S by lia. lia. }
      subst ya. rewrite Y4. pose proof (off_S ss (a - 1) ltac:(lia)) as E. replace (S (a - 1)) with a in E by lia.
      replace (off ss a - size ss (a - 1)) with (off ss (a - 1)) by lia.
      rewrite IH; try lia.
      + do 2 f_equal; f_equal; lia.
      + intros k Hk. apply Hst. lia.
  Qed.

  Lemma stored_nonempty a b (s : store) : stored_chunk ss ts a b s -> (length s =? 0)%nat = false.
  Proof. intros (e & He & _). destruct s; [contradiction|reflexivity]. Qed.

  Lemma find_grid (ops : list (@op V)) a b ps pt error :
    Forall (on_grid ss ts) ops -> (a < length ss)%nat -> (b < length ts)%nat -> (ps <= a)%nat -> (pt <= b)%nat ->
    (forall k, (b - pt <= k < b)%nat -> stored_chunk ss ts a k (run ops)) ->
    (forall k, (a - ps <= k < a)%nat -> stored_chunk ss ts k (b - pt) (run ops)) ->
    find_chunk (run ops) (grid ss ts a b) ps pt error = Ok (Some (grid ss ts (a - ps) (b - pt))).
  Proof.
    intros Ho Ha Hb Hs Ht H1 H2. pose proof (gridstore_run ops Ho) as G.
    unfold find_chunk. cbn [grid g_i0 g_t0 g_ns g_nt].
    destruct (((0 <? ps)%nat || (0 <? pt)%nat) && (length (run ops) =? 0)%nat) eqn:E.
    - exfalso. apply andb_true_iff in E. destruct E as [E1 E2].
      destruct pt as [|pt].
      + destruct ps as [|ps]; [discriminate|].
        rewrite (stored_nonempty (a - 1) (b - 0) (run ops)) in E2; [discriminate|]. apply H2. lia.
      + rewrite (stored_nonempty a (b - 1) (run ops)) in E2; [discriminate|]. apply H1. lia.
    - rewrite (walk_t_grid (run ops) a G Ha pt b Hb Ht H1).
      rewrite (walk_s_grid (run ops) (b - pt) G ltac:(lia) ps a Ha Hs H2). reflexivity.
  Qed.

  Lemma get_back (ops : list (@op V)) n a b ps pt error :
    Forall (on_grid ss ts) ops -> (a < length ss)%nat -> (b < length ts)%nat -> (ps <= a)%nat -> (pt <= b)%nat ->
    (forall k, (b - pt <= k < b)%nat -> stored_chunk ss ts a k (run ops)) ->
    (forall k, (a - ps <= k < a)%nat -> stored_chunk ss ts k (b - pt) (run ops)) ->
    get (run ops) n (grid ss ts a b) ps pt error =
    match last_stored n (off ss (a - ps)) (off ts (b - pt)) (rev ops) with
    | Some v => Ok (Some v)
    | None => if error then Err KeyError else Ok None
    end.
  Proof.
    intros. unfold get. rewrite find_grid by auto. cbn [bind grid g_i0 g_t0].
    rewrite <- sdata_run. unfold sdata.
    destruct (sget _ _ _) as [e|]; [destruct (dget n (c_data e))|]; reflexivity.
  Qed.

  (** missing predecessor *)
  Lemma get_missing (ops : list (@op V)) n a b error :
    Forall (on_grid ss ts) ops -> (a < length ss)%nat -> (b < length ts)%nat -> run ops <> [] ->
    (forall a', (S a' = a)%nat -> ~ stored_chunk ss ts a' b (run ops)) ->
    get (run ops) n (grid ss ts a b) 1 0 error = if error then Err KeyError else Ok None.
  Proof.
    intros Ho Ha Hb Hne Hm. pose proof (gridstore_run ops Ho) as G.
    unfold get, find_chunk. cbn [grid g_i0 g_t0 g_ns g_nt walk_t walk_s].
    destruct (run ops) as [|x s] eqn:Er; [congruence|]. cbn [length Nat.eqb Nat.ltb Nat.leb orb andb].
    destruct (find _ (x :: s)) as [y|] eqn:Ef.
    - exfalso. apply find_some in Ef. destruct Ef as [Iy Py].
      destruct (G y Iy) as (ya & yb & Y1 & Y2 & Y3 & Y4 & Y5 & Y6).
      assert (S ya = a). { apply (off_inj ss); [exact Hss|lia|lia|]. rewrite off_S by lia. lia. }
      apply (Hm ya); auto. exists y. repeat split; auto. lia.
    - destruct error; reflexivity.
  Qed.

  (** ** merging worker stores *)
End P.

Section M.
  Context {V : Type}.
  Notation store := (@store V).

  Lemma dget_fold n : forall (d' : list (nat * V)) d, dget n (fold_left (fun a nv => dset (fst nv) (snd nv) a) d' d) =
    match dget n (rev d') with Some v => Some v | None => dget n d end.
  Proof.
    induction d' as [|[m v] d' IH] using rev_ind; intros d; [reflexivity|].
    rewrite fold_left_app, rev_app_distr. cbn. rewrite dget_dset. destruct (n =? m)%nat; [reflexivity|apply IH].
  Qed.

  Lemma worker_adds_data (s0 : store) g adds i t n :
    sdata i t n (fold_left (fun s nv => add (fst nv) (snd nv) g s) adds s0) =
    if (g_i0 g =? i) && (g_t0 g =? t)
    then match dget n (rev adds) with Some v => Some v | None => sdata i t n s0 end else sdata i t n s0.
  Proof.
    induction adds as [|[m v] adds IH] using rev_ind.
    - cbn. now destruct (_ && _).
    - rewrite fold_left_app, rev_app_distr. cbn [fold_left fst snd rev app dget]. rewrite sdata_add, IH.
      destruct ((g_i0 g =? i) && (g_t0 g =? t)) eqn:E.
      + rewrite <- andb_assoc, E, andb_true_r, Nat.eqb_sym. now destruct (n =? m)%nat.
      + rewrite <- andb_assoc, E, andb_false_r. reflexivity.
  Qed.

  Lemma sdata_merge1 i t n (s : store) e : NoDup (map fst (c_data e)) ->
    sdata i t n (merge1 s e) =
    if (c_i0 e =? i) && (c_t0 e =? t)
    then match dget n (c_data e) with Some v => Some v | None => sdata i t n s end else sdata i t n s.
  Proof.
    intros Hnd.
    assert (Hrev : forall m (d : list (nat * V)), NoDup (map fst d) -> dget m (rev d) = dget m d).
    { clear. intros m d. induction d as [|[k v] d IH]; intros H; [reflexivity|]. cbn. inversion H as [|? ? H1 H2]; subst.
      assert (A : forall l l' : list (nat * V), dget m (l ++ l') = match dget m l with Some v => Some v | None => dget m l' end).
      { induction l as [|[p w] l IHl]; intros l'; cbn; [reflexivity|]. now destruct (m =? p)%nat. }
      rewrite A, IH by exact H2. cbn. destruct (m =? k)%nat eqn:E; [|now destruct (dget m d)].
      apply Nat.eqb_eq in E; subst k. destruct (dget m d) as [w|] eqn:D; [|reflexivity].
      exfalso. apply H1. clear -D. induction d as [|[p w'] d IHd]; cbn in *; [discriminate|].
      destruct (m =? p)%nat eqn:E; [left; symmetry; now apply Nat.eqb_eq|right; auto]. }
    unfold sdata, merge1. destruct (sget (c_i0 e) (c_t0 e) s) as [x|] eqn:Ex.
    - assert (K : forall i t, sget i t (supd (c_i0 e) (c_t0 e) (fun o => mkentry (c_i0 e) (c_ns e) (c_t0 e) (c_nt e) (dupdate (c_data o) (c_data e))) s)
        = if (c_i0 e =? i) && (c_t0 e =? t) then option_map (fun o => mkentry (c_i0 e) (c_ns e) (c_t0 e) (c_nt e) (dupdate (c_data o) (c_data e))) (sget i t s) else sget i t s).
      { clear. intros i t. unfold sget. induction s as [|a s IH]; cbn [supd find].
        - now destruct (_ && _).
        - destruct (is_key (c_i0 e) (c_t0 e) a) eqn:E; cbn [find].
          + unfold is_key in *; cbn [c_i0 c_t0].
            assert (((c_i0 e =? i) && (c_t0 e =? t)) = ((c_i0 a =? i) && (c_t0 a =? t))) as -> by lia.
            now destruct ((c_i0 a =? i) && (c_t0 a =? t)).
          + destruct (is_key i t a) eqn:E2.
            * assert ((c_i0 e =? i) && (c_t0 e =? t) = false) as -> by (unfold is_key in *; lia). reflexivity.
            * exact IH. }
      rewrite K. destruct ((c_i0 e =? i) && (c_t0 e =? t)) eqn:E; [|reflexivity].
      assert (sget i t s = Some x) as ->. { assert (c_i0 e = i) by lia. assert (c_t0 e = t) by lia. now subst. }
      cbn. unfold dupdate. now rewrite dget_fold, Hrev.
    - rewrite sget_app. destruct ((c_i0 e =? i) && (c_t0 e =? t)) eqn:E.
      + assert (sget i t s = None) as ->. { assert (c_i0 e = i) by lia. assert (c_t0 e = t) by lia. now subst. }
        cbn. unfold is_key. rewrite E. now destruct (dget n (c_data e)).
      + destruct (sget i t s); [reflexivity|]. cbn. unfold is_key. now rewrite E.
  Qed.

  Lemma dset_nodup n v (d : list (nat * V)) : NoDup (map fst d) -> NoDup (map fst (dset n v d)).
  Proof.
    intros H. assert (A : forall k, In k (map fst (dset n v d)) -> k = n \/ In k (map fst d)).
    { clear. induction d as [|[m w] d IH]; cbn; [intuition|]. intros k. destruct (n =? m)%nat; cbn; [tauto|].
      intros [<-|Hk]; [tauto|]. destruct (IH _ Hk); tauto. }
    revert A. induction d as [|[m w] d IH]; intros A; cbn; [repeat constructor; tauto|].
    inversion H as [|? ? H1 H2]; subst. destruct (n =? m)%nat eqn:E; [exact H|]. cbn. constructor.
    - intros Hin. assert (B : m = n \/ In m (map fst d)).
      { clear -Hin. induction d as [|[q w'] d IH]; cbn in *; [intuition|]. destruct (n =? q)%nat; cbn in *; intuition. }
      destruct B as [->|B]; [rewrite Nat.eqb_refl in E; discriminate|contradiction].
    - apply IH; [exact H2|]. intros k Hk. clear -Hk. induction d as [|[q w'] d IH]; cbn in *; [intuition|].
      destruct (n =? q)%nat; cbn in *; intuition.
  Qed.
  Definition wf (s : store) : Prop := forall e, In e s -> NoDup (map fst (c_data e)).
  Lemma add_wf n v g (s : store) : wf s -> wf (add n v g s).
  Proof.
    intros H e He. unfold add in He. apply supd_In in He.
    assert (W : wf (match sget (g_i0 g) (g_t0 g) s with Some _ => s | None => s ++ [mkentry (g_i0 g) (g_ns g) (g_t0 g) (g_nt g) []] end)).
    { destruct (sget _ _ s); [exact H|]. intros x Hx. apply in_app_or in Hx. destruct Hx as [Hx|[<-|[]]]; [auto|constructor]. }
    destruct He as [He|(e0 & He & ->)]; [auto|]. cbn. apply dset_nodup. auto.
  Qed.
  Lemma run_wf ops : wf (@run V ops).
  Proof.
    induction ops as [|o ops IH] using rev_ind; [intros e []|]. rewrite run_snoc.
    destruct o; [now apply add_wf|intros e []].
  Qed.
  Lemma adds_wf g adds : forall s : store, wf s -> wf (fold_left (fun s nv => add (fst nv) (snd nv) g s) adds s).
  Proof. induction adds as [|a adds IH]; cbn; intros s H; [exact H|]. apply IH, add_wf, H. Qed.

  (** every chunk's additions survive the merge; keys of different chunks do not interfere *)
  Lemma merge_all_data (s0 : store) chunks g adds n v :
    wf s0 ->
    NoDup (map (fun c => (g_i0 (fst c), g_t0 (fst c))) chunks) ->
    In (g, adds) chunks -> dget n (rev adds) = Some v ->
    sdata (g_i0 g) (g_t0 g) n (merge_all s0 chunks) = Some v.
  Proof.
    intros Hwf Hnd Hin Hd. unfold merge_all.
    assert (Gen : forall chunks s,
      NoDup (map (fun c => (g_i0 (fst c), g_t0 (fst c))) chunks) ->
      (In (g, adds) chunks \/ (~ In (g_i0 g, g_t0 g) (map (fun c => (g_i0 (fst c), g_t0 (fst c))) chunks) /\ sdata (g_i0 g) (g_t0 g) n s = Some v)) ->
      sdata (g_i0 g) (g_t0 g) n (fold_left merge1 (flat_map (fun c => worker s0 (fst c) (snd c)) chunks) s) = Some v).
    { clear chunks Hnd Hin. induction chunks as [|[g' a'] chunks IH]; intros s Hnd [Hin|(Hni & Hs)].
      - contradiction.
      - exact Hs.
      - cbn [flat_map fst snd]. rewrite fold_left_app. inversion Hnd as [|? ? N1 N2]; subst. cbn [fst] in N1.
        apply IH; [exact N2|]. destruct Hin as [E|Hin]; [right|left; exact Hin].
        inversion E; subst g' a'. split; [exact N1|].
        pose proof (worker_adds_data s0 g adds (g_i0 g) (g_t0 g) n) as Hw.
        rewrite !Z.eqb_refl, Hd in Hw. cbn in Hw. unfold worker. unfold sdata in Hw at 1.
        destruct (sget (g_i0 g) (g_t0 g) _) as [e|] eqn:Eg; [|discriminate]. cbn [fold_left].
        assert (He : In e (fold_left (fun s nv => add (fst nv) (snd nv) g s) adds s0) /\ is_key (g_i0 g) (g_t0 g) e = true)
          by (apply (find_some _ _ Eg)).
        destruct He as [He Hk]. rewrite sdata_merge1 by (apply (adds_wf g adds s0 Hwf _ He)).
        unfold is_key in Hk. rewrite Hk, Hw. reflexivity.
      - cbn [flat_map fst snd]. rewrite fold_left_app. inversion Hnd as [|? ? N1 N2]; subst.
        apply IH; [exact N2|]. right. cbn in Hni. split; [tauto|].
        unfold worker. destruct (sget (g_i0 g') (g_t0 g') _) as [e|] eqn:Eg; cbn [fold_left]; [|exact Hs].
        assert (He : In e (fold_left (fun s nv => add (fst nv) (snd nv) g' s) a' s0) /\ is_key (g_i0 g') (g_t0 g') e = true)
          by (apply (find_some _ _ Eg)).
        destruct He as [He Hk]. rewrite sdata_merge1 by (apply (adds_wf g' a' s0 Hwf _ He)).
        destruct ((c_i0 e =? g_i0 g) && (c_t0 e =? g_t0 g)) eqn:E; [|exact Hs].
        exfalso. apply Hni. left. unfold is_key in Hk. f_equal; lia. }
    apply Gen; auto.
  Qed.
  Lemma merge_all_spec ops chunks g adds n v error :
    NoDup (map (fun c => (g_i0 (fst c), g_t0 (fst c))) chunks) ->
    In (g, adds) chunks -> dget n (rev adds) = Some v ->
    get (merge_all (@run V ops) chunks) n g 0 0 error = Ok (Some v).
  Proof.
    intros H1 H2 H3. pose proof (merge_all_data (run ops) chunks g adds n v (run_wf ops) H1 H2 H3) as H.
    unfold get, find_chunk, sdata in *. cbn.
    destruct (sget _ _ _) as [e|]; [|discriminate]. now rewrite H.
  Qed.
End M.

Section T.
  Lemma tupd_same f i p : tupd f i p i = p.
  Proof. unfold tupd. now rewrite Nat.eqb_refl. Qed.
  (** Invariant of non-iterative runs: the pointer stays at the caller's Dict; a worker past its
      addition has data there. *)
  Definition tinv (s : shared) (ps : nat -> pc) : Prop :=
    cur s = 0%nat /\ (forall k, ps k = P2 -> heap s 0%nat k = true) /\ (forall k, ps k <> Bad).
  Lemma texec_inv sched : forall s ps, tinv s ps -> let '(s', ps') := texec false sched s ps in tinv s' ps'.
  Proof.
    induction sched as [|k sched IH]; intros s ps (H1 & H2 & H3); cbn [texec]; [split; auto|].
    destruct (tstep false k s (ps k)) as [s' p] eqn:E. apply IH.
    destruct (ps k) eqn:Ek; cbn in E; injection E as <- <-.
    - split; [reflexivity|]. cbn. split; intros j; unfold tupd; destruct (j =? k)%nat; try discriminate; auto.
    - split; [exact H1|]. cbn. rewrite H1. split; intros j; unfold tupd, hset; destruct (j =? k)%nat eqn:Ej; try discriminate; cbn; auto.
    - rewrite H1, (H2 k Ek). split; [exact H1|]. split; intros j; unfold tupd; destruct (j =? k)%nat; try discriminate; auto.
    - split; [exact H1|]. split; intros j; unfold tupd; destruct (j =? k)%nat; try discriminate; auto.
    - split; [exact H1|]. split; intros j; unfold tupd; destruct (j =? k)%nat; try discriminate; auto.
    - exfalso. now apply (H3 k).
  Qed.
  Lemma threads_safe sched k : snd (texec false sched tinit (fun _ => P0)) k <> Bad.
  Proof.
    pose proof (texec_inv sched tinit (fun _ => P0)) as H.
    destruct (texec false sched tinit (fun _ => P0)) as [s ps]. cbn.
    apply H. split; [reflexivity|]. split; discriminate.
  Qed.
End T.

Lemma walk_back_spec : forall V (ss ts : list Z),
  Forall (fun x => 0 < x) ss -> (ts = [0] \/ Forall (fun x => 0 < x) ts) ->
  forall (ops : list (@op V)) n a b ps pt error,
  Forall (on_grid ss ts) ops ->
  (a < length ss)%nat -> (b < length ts)%nat -> (ps <= a)%nat -> (pt <= b)%nat ->
  (forall k, (b - pt <= k < b)%nat -> stored_chunk ss ts a k (run ops)) ->
  (forall k, (a - ps <= k < a)%nat -> stored_chunk ss ts k (b - pt) (run ops)) ->
  find_chunk (run ops) (grid ss ts a b) ps pt error = Ok (Some (grid ss ts (a - ps) (b - pt))) /\
  get (run ops) n (grid ss ts a b) ps pt error =
  match last_stored n (off ss (a - ps)) (off ts (b - pt)) (rev ops) with
  | Some v => Ok (Some v)
  | None => if error then Err KeyError else Ok None
  end.
Proof. intros. split; [apply find_grid|apply get_back]; auto. Qed.

Lemma reset_spec : forall V (s : @store V),
  snd (reset None s) = s /\ fst (reset None s) = [] /\
  fst (reset (Some (snd (reset None s))) (fst (reset None s))) = s /\
  forall n g error, get (fst (reset None s)) n g 0 0 error = if error then Err KeyError else Ok None.
Proof. intros V s. repeat split. Qed.

Lemma empty_raises : forall V n g ps pt,
  (0 < ps \/ 0 < pt)%nat -> get ([] : @store V) n g ps pt false = Err IndexError.
Proof.
  intros V n g ps pt H. unfold get, find_chunk.
  assert (((0 <? ps)%nat || (0 <? pt)%nat) = true) as -> by lia. reflexivity.
Qed.
Lemma nonempty_no_raise : forall V (s : @store V) n g ps pt,
  s <> [] -> exists r, get s n g ps pt false = Ok r.
Proof.
  intros V s n g ps pt H. unfold get, find_chunk. destruct s as [|x s]; [congruence|].
  rewrite andb_false_r.
  destruct (walk_t _ _ _ _ _) as [[t0 nt]|]; [|eexists; reflexivity].
  destruct (walk_s _ _ _ _ _) as [[i0 ns]|]; [|eexists; reflexivity]. cbn [bind g_i0 g_t0].
  destruct (sget _ _ _) as [e|]; [destruct (dget _ _)|]; eexists; reflexivity.
Qed.
Lemma threads_race : exists sched k, snd (texec true sched tinit (fun _ => P0)) k = Bad.
Proof. exists [0;1;1;0;0;0;1]%nat, 1%nat. reflexivity. Qed.
