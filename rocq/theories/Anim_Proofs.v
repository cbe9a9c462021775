(** Proofs about animations. *)
From Coq Require Import List Arith Lia.
From Verif Require Import Base Anim_Model Anim_Spec.
Import ListNotations.

Lemma pass_good {A} f (gs : list (gen A)) : same_figure f gs -> forall self loc, (self = None \/ self = Some f) -> (loc = None \/ loc = Some f) ->
  exists s l, pass self loc gs = Ok (s, l, map (@tl _) gs, picture gs 0) /\ (s = None \/ s = Some f) /\ (l = None \/ l = Some f) /\
    ((exists g, In g gs /\ g <> []) -> l = Some f) /\ ((forall g, In g gs -> g = []) -> l = loc) /\ (loc = Some f -> l = Some f) /\ (self = Some f -> s = Some f).
Proof.
  induction gs as [|g r IH]; intros SF self loc Hs Hl.
  - exists self, loc. cbn. split; [reflexivity|]. repeat split; auto. intros (g & [] & _).
  - assert (SF' : same_figure f r) by (intros g' y I J; apply (SF g' y); [now right|exact J]).
    destruct g as [|y g].
    + destruct (IH SF' self loc Hs Hl) as (s & l & E & H1 & H2 & H3 & H4 & H5 & H6). exists s, l. cbn [pass]. rewrite E. split; [reflexivity|]. repeat split; auto.
      * intros (g & [<-|I] & N); [now contradiction N|]. apply H3. now exists g.
      * intros Q. apply H4. intros g I. apply Q. now right.
    + destruct (SF (y :: g) y) as [a ->]; [now left|now left|].
      destruct (IH SF' (Some f) (Some f)) as (s & l & E & H1 & H2 & H3 & H4 & H5 & H6); [now right|now right|]. exists s, l.
      cbn [pass]. split; [|repeat split; auto].
      * destruct self as [f0|].
        { destruct Hs as [Hs|Hs]; [discriminate|]. injection Hs as ->. rewrite Nat.eqb_refl, E. reflexivity. }
        { rewrite E. reflexivity. }
      * intros Q. specialize (Q (Pair f a :: g) (or_introl eq_refl)). discriminate.
Qed.
Lemma same_tl {A} f (gs : list (gen A)) : same_figure f gs -> same_figure f (map (@tl _) gs).
Proof. intros H g y I J. apply in_map_iff in I. destruct I as (g0 & <- & I). apply (H g0 y I). destruct g0; [exact J|now right]. Qed.
Lemma picture_tl {A} (gs : list (gen A)) i : picture (map (@tl _) gs) i = picture gs (S i).
Proof. unfold picture. induction gs as [|g r IH]; [reflexivity|]. cbn [map flat_map]. rewrite IH. f_equal. unfold artists_at. destruct g; [destruct i; reflexivity|reflexivity]. Qed.
Lemma duration_tl {A} (gs : list (gen A)) : duration (map (@tl _) gs) = pred (duration gs).
Proof. unfold duration. induction gs as [|g r IH]; [reflexivity|]. cbn [map list_max fold_right] in *. fold (list_max (map (@length (yielded A)) (map (@tl _) r))). fold (list_max (map (@length (yielded A)) r)). rewrite IH. destruct g; cbn [tl length]; lia. Qed.
Lemma duration_0 {A} (gs : list (gen A)) g : duration gs = 0 -> In g gs -> g = [].
Proof.
  unfold duration. intros H I. assert (L : length g <= list_max (map (@length _) gs)).
  { pose proof (list_max_le (map (@length _) gs) (list_max (map (@length _) gs))) as [Q _]. specialize (Q (le_n _)). rewrite Forall_forall in Q. apply Q. now apply in_map. }
  destruct g; [reflexivity|cbn in L; lia].
Qed.
Lemma duration_S {A} (gs : list (gen A)) n : duration gs = S n -> exists g, In g gs /\ length g = S n.
Proof.
  unfold duration. revert n. induction gs as [|g r IH]; intros n H; [discriminate|]. cbn [map list_max fold_right] in H. fold (list_max (map (@length (yielded A)) r)) in H.
  destruct (Nat.max_spec (length g) (list_max (map (@length _) r))) as [[_ E]|[_ E]]; rewrite E in H.
  - destruct (IH n H) as (g' & I & L). exists g'. split; [now right|exact L].
  - exists g. split; [now left|exact H].
Qed.
Lemma skipn_tl {A} n (g : list A) : skipn n (tl g) = skipn (S n) g. Proof. destruct g; [now rewrite skipn_nil|reflexivity]. Qed.
Lemma picture_end {A} (gs : list (gen A)) i : duration gs <= i -> picture gs i = [].
Proof.
  intros H. unfold picture. assert (G : forall g, In g gs -> artists_at i g = []).
  { intros g I. unfold artists_at. assert (L : length g <= list_max (map (@length _) gs)).
    { pose proof (list_max_le (map (@length _) gs) (list_max (map (@length _) gs))) as [Q _]. specialize (Q (le_n _)). rewrite Forall_forall in Q. apply Q. now apply in_map. }
    assert (E : nth_error g i = None) by (apply nth_error_None; unfold duration in H; lia). now rewrite E. }
  induction gs as [|g r IH]; [reflexivity|]. cbn [flat_map]. rewrite (G g) by now left. apply IH; [|intros g' I; apply G; now right].
  unfold duration in *. cbn [map list_max fold_right] in H. fold (list_max (map (@length (yielded A)) r)) in H. lia.
Qed.
(** the loop: pictures until the first without artists, number m *)
Lemma loop_good {A} f m : forall (gs : list (gen A)) fuel self loc, same_figure f gs -> (self = None \/ self = Some f) -> (loc = None \/ loc = Some f) -> m < fuel ->
  (forall i, i < m -> picture gs i <> []) -> picture gs m = [] ->
  exists s l, frames_loop fuel self loc gs = Ok (s, l, map (skipn (S m)) gs, map (picture gs) (seq 0 m)) /\ (l = None \/ l = Some f) /\
    (l = None <-> loc = None /\ forall g, In g gs -> g = []).
Proof.
  induction m as [|m IH]; intros gs fuel self loc SF Hs Hl Hf Hne He; (destruct fuel as [|k]; [lia|]); cbn [frames_loop];
    destruct (pass_good f gs SF self loc Hs Hl) as (s & l & E & H1 & H2 & H3 & H4 & H5 & H6); rewrite E.
  - rewrite He. exists s, l. split; [|split; [exact H2|]].
    + cbn [seq map]. assert (Q : map (@tl (yielded A)) gs = map (skipn 1) gs) by (apply map_ext; intros g; now destruct g). now rewrite Q.
    + split.
      * intros ->. split; [destruct Hl as [Hl|Hl]; [exact Hl|]; specialize (H5 Hl); discriminate|]. intros g I. destruct g as [|y g]; [reflexivity|].
        assert (Q : None = Some f) by (apply H3; exists (y :: g); split; [exact I|discriminate]). discriminate.
      * intros [-> Q]. now apply H4.
  - destruct (picture gs 0) as [|a h] eqn:P0; [exfalso; now apply (Hne 0); [lia|]|].
    assert (L : l = Some f).
    { apply H3. assert (N : ~ (forall g, In g gs -> g = [])).
      { intros Q. assert (X : picture gs 0 = []); [|congruence]. unfold picture. clear - Q. induction gs as [|g r IH]; [reflexivity|]. cbn [flat_map]. rewrite (Q g) by now left. apply IH. intros g' I. apply Q. now right. }
      destruct (existsb (fun g => match g with [] => false | _ => true end) gs) eqn:X.
      - apply existsb_exists in X. destruct X as (g & I & Q). exists g. split; [exact I|]. now destruct g.
      - exfalso. apply N. intros g I. assert (Y : (match g with [] => false | _ => true end) = false); [|now destruct g].
        destruct (match g with [] => false | _ => true end) eqn:Z; [|reflexivity]. assert (existsb (fun g => match g with [] => false | _ => true end) gs = true) by (apply existsb_exists; now exists g). congruence. }
    destruct (IH (map (@tl _) gs) k s l) as (s' & l' & E' & G1 & G2); [now apply same_tl|exact H1|exact H2|lia| | |].
    { intros i Hi. rewrite picture_tl. apply Hne. lia. }
    { now rewrite picture_tl. }
    rewrite E'. exists s', l'. split; [|split; [exact G1|]].
    + assert (Q1 : map (skipn (S m)) (map (@tl (yielded A)) gs) = map (skipn (S (S m))) gs) by (rewrite map_map; apply map_ext; intros g; now rewrite skipn_tl). rewrite Q1.
      assert (Q2 : map (picture (map (@tl (yielded A)) gs)) (seq 0 m) = map (picture gs) (seq 1 m)) by (rewrite <- seq_shift, map_map; apply map_ext; intros i; apply picture_tl). rewrite Q2. cbn [seq map]. now rewrite P0.
    + rewrite L in G2. split; [intros Q; apply G2 in Q; destruct Q; discriminate|]. intros [-> Q]. rewrite H4 in L by exact Q. discriminate.
Qed.
Lemma fold_stored {D} tf (l : list (nat * D)) p : stored (fold_left (update tf) l p) = stored p ++ map snd l.
Proof. revert p. induction l as [|x r IH]; intros p; [cbn; now rewrite app_nil_r|]. cbn [fold_left map]. rewrite IH. cbn [update stored]. now rewrite <- app_assoc. Qed.
Lemma fold_title {D} tf (l : list (nat * D)) x p : title (fold_left (update tf) (l ++ [x]) p) = match tf with Some f => Some (f (fst x)) | None => title p end.
Proof. rewrite fold_left_app. cbn. destruct tf as [f|]; [reflexivity|]. revert p. induction l as [|y r IH]; intros p; [reflexivity|]. cbn [fold_left]. rewrite IH. reflexivity. Qed.
Lemma map_snd_combine {D} (l : list D) a : map snd (combine (seq a (length l)) l) = l.
Proof. revert a. induction l as [|x r IH]; intros a; [reflexivity|]. cbn [length seq combine map snd]. now rewrite IH. Qed.
Lemma combine_last {D} (l : list D) x a : combine (seq a (length (l ++ [x]))) (l ++ [x]) = combine (seq a (length l)) l ++ [(a + length l, x)].
Proof. revert a. induction l as [|y r IH]; intros a; [cbn; now rewrite Nat.add_0_r|]. cbn [length app seq combine]. rewrite IH. cbn [length]. f_equal. f_equal. f_equal. f_equal. lia. Qed.
