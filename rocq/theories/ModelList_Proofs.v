From Verif Require Import RBase Data_Model Data_Proofs ModelList_Model.
Local Notation length := List.length.
Section Chain.
Context {V : Type}.
Implicit Types (fd res : @vars V) (m : @model V).

(** sequential execution, as an independent function *)
Fixpoint run_seq dflt (ms : list model) (ps : list par) fd : result vars :=
  match ms, ps with
  | m :: ms', p :: ps' => match calculate dflt m p fd with Ok (fd', r) => run_seq dflt ms' ps' (update fd' r) | Err e => Err e end
  | _, _ => Ok fd
  end.
Lemma calculate_list dflt ms l fd : length l = length ms -> calculate dflt (MList ms) (PList (Some l)) fd =
  match run_seq dflt ms l fd with Err e => Err e | Ok fd' => match collect fd' (outputs (MList ms)) with Ok r => Ok (fd', r) | Err e => Err e end end.
Proof.
  intros H. cbn [calculate]. rewrite H, Nat.eqb_refl. assert (E : forall ms ps fd, run_models (calculate dflt) ms ps fd = run_seq dflt ms ps fd).
  { induction ms0 as [|m ms0 IH]; intros ps fd0; [destruct ps; reflexivity|]. destruct ps as [|p ps]; [reflexivity|]. cbn [run_models run_seq]. destruct (calculate dflt m p fd0) as [(fd', r)|e]; [apply IH|reflexivity]. }
  rewrite E. reflexivity.
Qed.
Lemma calculate_none dflt ms fd : calculate dflt (MList ms) (PList None) fd = calculate dflt (MList ms) (PList (Some (repeat PEmpty (length ms)))) fd.
Proof. cbn [calculate]. reflexivity. Qed.
Lemma run_seq_app dflt ms1 : forall ms2 ps1 ps2 fd, length ps1 = length ms1 -> run_seq dflt (ms1 ++ ms2) (ps1 ++ ps2) fd =
  match run_seq dflt ms1 ps1 fd with Ok fd' => run_seq dflt ms2 ps2 fd' | Err e => Err e end.
Proof.
  induction ms1 as [|m ms1 IH]; intros ms2 ps1 ps2 fd H; destruct ps1 as [|p ps1]; try discriminate; [reflexivity|].
  cbn. destruct (calculate dflt m p fd) as [(fd', r)|e]; [|reflexivity]. apply IH. now injection H.
Qed.
(** lookup in an updated dict: the last entry *)
Lemma lookup_update v res : forall fd, lookup v (update fd res) = match lookup v (rev res) with Some x => Some x | None => lookup v fd end.
Proof.
  induction res as [|(k, x) res IH] using rev_ind; intros fd; [reflexivity|]. unfold update. rewrite fold_left_app, rev_app_distr. cbn [fold_left rev app lookup fst snd].
  destruct (v =? k)%string eqn:E.
  - apply String.eqb_eq in E. subst. apply lookup_store_eq.
  - apply String.eqb_neq in E. rewrite lookup_store_ne by assumption. apply IH.
Qed.

Lemma fromkeys_in l : forall seen x, In x (fromkeys seen l) <-> In x l /\ ~ In x seen.
Proof.
  induction l as [|y l IH]; intros seen x; cbn; [tauto|]. destruct (in_dec string_dec y seen) as [I|N].
  - rewrite IH. split; [tauto|]. intros ([->|H] & Hn); [contradiction|tauto].
  - cbn. rewrite IH. cbn. destruct (string_dec y x) as [->|D]; tauto.
Qed.
Lemma fromkeys_NoDup l : forall seen, NoDup (fromkeys seen l).
Proof. induction l as [|y l IH]; intros seen; cbn; [constructor|]. destruct (in_dec string_dec y seen); [apply IH|]. constructor; [|apply IH]. rewrite fromkeys_in. cbn. tauto. Qed.
(** position of the first occurrence *)
Fixpoint first_pos (x : string) (l : list string) : nat := match l with [] => 0 | y :: l' => if (x =? y)%string then 0 else S (first_pos x l') end.
Lemma first_pos_in_lt l : forall x, In x l -> first_pos x l < length l.
Proof. induction l as [|y l IH]; intros x []; cbn. - subst. rewrite String.eqb_refl. lia. - destruct (x =? y)%string; [lia|]. apply IH in H. lia. Qed.
Lemma fromkeys_order l : forall seen i j x y, i < j -> nth_error (fromkeys seen l) i = Some x -> nth_error (fromkeys seen l) j = Some y -> first_pos x l < first_pos y l.
Proof.
  induction l as [|z l IH]; intros seen i j x y Hij Hx Hy; cbn in *; [destruct i; discriminate|]. destruct (in_dec string_dec z seen) as [I|N].
  - assert (Nx : ~ In x seen) by (apply nth_error_In in Hx; apply fromkeys_in in Hx; tauto). assert (Ny : ~ In y seen) by (apply nth_error_In in Hy; apply fromkeys_in in Hy; tauto).
    destruct (x =? z)%string eqn:Ex; [apply String.eqb_eq in Ex; subst; contradiction|]. destruct (y =? z)%string eqn:Ey; [apply String.eqb_eq in Ey; subst; contradiction|].
    apply -> Nat.succ_lt_mono. eapply IH; eassumption.
  - destruct j as [|j]; [lia|]. cbn in Hy. assert (Ny : y <> z) by (apply nth_error_In in Hy; apply fromkeys_in in Hy; cbn in Hy; intuition congruence).
    apply String.eqb_neq in Ny. rewrite Ny. destruct i as [|i]; cbn in Hx.
    + injection Hx as ->. rewrite String.eqb_refl. lia.
    + assert (Nx : x <> z) by (apply nth_error_In in Hx; apply fromkeys_in in Hx; cbn in Hx; intuition congruence). apply String.eqb_neq in Nx. rewrite Nx.
      apply -> Nat.succ_lt_mono. apply (IH (z :: seen) i j x y); [lia|assumption|assumption].
Qed.
Lemma collect_ok vs : forall fd r, collect fd vs = Ok r -> map fst r = vs /\ forall v, In v vs -> lookup v r = lookup v fd /\ lookup v fd <> None.
Proof.
  induction vs as [|v vs IH]; intros fd r H; cbn in H; [injection H as <-; split; [reflexivity|intros ? []]|].
  destruct (lookup v fd) as [x|] eqn:E; [|discriminate]. destruct (collect fd vs) as [r'|e] eqn:C; [|discriminate]. injection H as <-. destruct (IH _ _ C) as (A & B). split; [cbn; now rewrite A|].
  intros w [<-|Hw]; cbn; [rewrite String.eqb_refl, E; split; [reflexivity|discriminate]|]. destruct (w =? v)%string eqn:Ew; [apply String.eqb_eq in Ew; subst; rewrite E; split; [reflexivity|discriminate]|]. now apply B.
Qed.
Lemma store_same k (x : V) fd : lookup k fd = Some x -> store k x fd = fd.
Proof. induction fd as [|(k', x') fd IH]; cbn; [discriminate|]. destruct (k =? k')%string eqn:E; intros H; [apply String.eqb_eq in E; subst; injection H as ->; reflexivity|]. now rewrite IH. Qed.
Lemma update_same fd : forall r, (forall v x, In (v, x) r -> lookup v fd = Some x) -> update fd r = fd.
Proof.
  induction r as [|(v, x) r IH]; intros H; [reflexivity|]. unfold update. cbn [fold_left fst snd]. rewrite (store_same v x fd) by (apply H; now left). apply IH. intros w y I. apply H. now right.
Qed.
Lemma collect_in vs : forall fd r, collect fd vs = Ok r -> forall v x, In (v, x) r -> lookup v fd = Some x.
Proof.
  induction vs as [|v vs IH]; intros fd r H w x I; cbn in H; [injection H as <-; destruct I|]. destruct (lookup v fd) as [y|] eqn:E; [|discriminate]. destruct (collect fd vs) as [r'|e] eqn:C; [|discriminate]. injection H as <-.
  destruct I as [I|I]; [injection I as <- <-; exact E|]. eapply IH; eassumption.
Qed.
Lemma fromkeys_idem l (k : list string) : forall s s', (forall x, In x s <-> In x s') -> fromkeys s (fromkeys s' l ++ k) = fromkeys s (l ++ k).
Proof.
  induction l as [|x l IH]; intros s s' H; cbn [app fromkeys]; [reflexivity|]. destruct (in_dec string_dec x s') as [I|N]; destruct (in_dec string_dec x s) as [I'|N']; try (exfalso; rewrite H in *; contradiction).
  - now apply IH.
  - cbn [app fromkeys]. destruct (in_dec string_dec x s); [contradiction|]. f_equal. apply IH. intros y. cbn. now rewrite H.
Qed.
End Chain.
