From Coq Require FinFun.
From Coq Require Import String.
From Verif Require Import Base Writer_Model Writer_Spec.
Local Open Scope nat_scope.
Local Open Scope list_scope.

Lemma val_eqb_eq a b : val_eqb a b = true <-> a = b.
Proof.
  destruct a, b; cbn; split; intro H; try discriminate; try (apply Z.eqb_eq in H; congruence); try (apply String.eqb_eq in H; congruence);
  inversion H; subst; try apply Z.eqb_refl; apply String.eqb_refl.
Qed.
Lemma val_eqb_refl a : val_eqb a a = true.
Proof. now apply val_eqb_eq. Qed.

Lemma name_eqb_eq a : forall b, name_eqb a b = true <-> a = b.
Proof.
  induction a as [| | | | |n|v IH t]; intros b; destruct b; cbn; split; intro H; try discriminate; try reflexivity.
  - apply Nat.eqb_eq in H. congruence.
  - inversion H. apply Nat.eqb_refl.
  - apply andb_true_iff in H as [H1 H2]. apply IH in H1. apply val_eqb_eq in H2. congruence.
  - inversion H; subst. apply andb_true_iff; split; [now apply IH | apply val_eqb_refl].
Qed.
Lemma name_eqb_refl a : name_eqb a a = true.
Proof. now apply name_eqb_eq. Qed.
Lemma name_eqb_neq a b : name_eqb a b = false <-> a <> b.
Proof. rewrite <- name_eqb_eq. destruct (name_eqb a b); split; congruence. Qed.
Lemma has_in n l : has n l = true <-> In n l.
Proof.
  unfold has. rewrite existsb_exists. split.
  - intros [x [H1 H2]]. apply name_eqb_eq in H2. congruence.
  - intros H. exists n. split; [easy | apply name_eqb_refl].
Qed.
Lemma has_not n l : has n l = false <-> ~ In n l.
Proof. rewrite <- has_in. destruct (has n l); split; congruence. Qed.

(** lists *)
Lemma flat_length {A} n m (f : nat -> nat -> A) : List.length (flat n m f) = n * m.
Proof.
  unfold flat. rewrite <- (seq_length n 0) at 2. generalize (seq 0 n). induction l as [|a l IH]; cbn; [easy|].
  rewrite app_length, map_length, seq_length, IH. reflexivity.
Qed.
Lemma flat_nth {A} n m (f : nat -> nat -> A) s t : s < n -> t < m -> nth_error (flat n m f) (s * m + t) = Some (f s t).
Proof.
  unfold flat. intros Hs Ht.
  assert (G : forall l k, k < List.length l -> nth_error (flat_map (fun s => map (f s) (seq 0 m)) l) (k * m + t) = Some (f (nth k l 0) t)).
  { induction l as [|a l IH]; cbn; intros k Hk; [lia|]. destruct k as [|k].
    - cbn. rewrite nth_error_app1 by (rewrite map_length, seq_length; lia).
      rewrite nth_error_map. rewrite nth_error_nth' with (d := 0) by (rewrite seq_length; lia). cbn. now rewrite seq_nth by lia.
    - rewrite nth_error_app2 by (rewrite map_length, seq_length; cbn; lia).
      rewrite map_length, seq_length. replace (S k * m + t - m) with (k * m + t) by (cbn; lia). apply IH. lia. }
  rewrite G by (rewrite seq_length; lia). now rewrite seq_nth by lia.
Qed.

Lemma get_in n l c : get n l = Some c -> In (n, c) l.
Proof.
  induction l as [|[m d] l IH]; cbn; [easy|]. destruct (name_eqb n m) eqn:E.
  - apply name_eqb_eq in E. intros H; inversion H; subst. now left.
  - intros H. right. now apply IH.
Qed.
Lemma get_some n l : In n (map fst l) -> exists c, get n l = Some c.
Proof.
  induction l as [|[m d] l IH]; cbn; [easy|]. destruct (name_eqb n m) eqn:E; [eauto|].
  intros [H|H]; [|now apply IH]. subst. now rewrite name_eqb_refl in E.
Qed.
Lemma get_none n l : ~ In n (map fst l) -> get n l = None.
Proof.
  induction l as [|[m d] l IH]; cbn; [easy|]. intros H. destruct (name_eqb n m) eqn:E.
  - apply name_eqb_eq in E. subst. tauto.
  - apply IH. tauto.
Qed.
Lemma get_unique n l c : NoDup (map fst l) -> In (n, c) l -> get n l = Some c.
Proof.
  induction l as [|[m d] l IH]; cbn; [easy|]. intros Hn H. inversion Hn; subst. destruct H as [H|H].
  - inversion H; subst. now rewrite name_eqb_refl.
  - destruct (name_eqb n m) eqn:E; [|now apply IH]. apply name_eqb_eq in E. subst.
    exfalso. apply H2. apply in_map_iff. exists (m, c). auto.
Qed.
Lemma gets_spec ns l q : gets ns l = Some q -> map fst q = ns /\ forall n c, In (n, c) q -> In (n, c) l.
Proof.
  unfold gets. revert q. induction ns as [|n ns IH]; cbn; intros q.
  - intros H; inversion H. cbn. split; [easy | tauto].
  - destruct (get n l) eqn:E; [|easy]. destruct (all_some _) eqn:F; [|easy]. intros H; inversion H; subst. clear H.
    destruct (IH _ eq_refl) as [H1 H2]. cbn. split; [congruence|]. intros m c [H|H]; [|now apply H2]. inversion H; subst. now apply get_in.
Qed.
Lemma gets_some ns l : (forall n, In n ns -> In n (map fst l)) -> exists q, gets ns l = Some q.
Proof.
  unfold gets. induction ns as [|n ns IH]; cbn; intros H; [eauto|].
  destruct (get_some n l) as [c E]; [apply H; now left|]. rewrite E. destruct IH as [q F]; [intros; apply H; now right|]. rewrite F. eauto.
Qed.
Lemma gets_none ns l n : In n ns -> ~ In n (map fst l) -> gets ns l = None.
Proof.
  unfold gets. induction ns as [|m ns IH]; cbn; [easy|]. intros [H|H] Hn.
  - subst. now rewrite get_none.
  - destruct (get m l); [|easy]. now rewrite IH.
Qed.
Lemma gets_inv ns l q n : gets ns l = Some q -> In n ns -> In n (map fst l).
Proof.
  intros H Hn. destruct (gets_spec _ _ _ H) as [H1 H2]. rewrite <- H1 in Hn. apply in_map_iff in Hn as [[m c] [E Hc]]. cbn in E. subst.
  apply in_map_iff. exists (n, c). split; [easy | now apply H2].
Qed.

Lemma mult_0 n l : mult n l = 0 <-> ~ In n l.
Proof.
  unfold mult. induction l as [|m l IH]; cbn; [tauto|]. destruct (name_eqb n m) eqn:E; cbn.
  - apply name_eqb_eq in E. subst. split; [lia|tauto].
  - apply name_eqb_neq in E. rewrite IH. split; [|tauto]. intros H [K|K]; [congruence | tauto].
Qed.
Lemma mult_nodup n l : NoDup l -> In n l -> mult n l = 1.
Proof.
  induction l as [|m l IH]; [easy|]. intros H Hn. inversion H; subst. unfold mult in *. cbn. destruct (name_eqb n m) eqn:E; cbn.
  - apply name_eqb_eq in E. subst. apply mult_0 in H2. unfold mult in H2. now rewrite H2.
  - apply name_eqb_neq in E. destruct Hn as [K|K]; [congruence | now apply IH].
Qed.
Lemma mult_cons n m l : mult n (m :: l) = (if name_eqb n m then 1 else 0) + mult n l.
Proof. unfold mult. cbn [filter]. destruct (name_eqb n m); reflexivity. Qed.
Lemma mult_app n l k : mult n (l ++ k) = mult n l + mult n k.
Proof. unfold mult. now rewrite filter_app, app_length. Qed.

(** frames of the writer *)
Section R.
Variable r : farm_results.
Local Notation N := (List.length (labels r)).
Local Notation M := (nturb r).

Definition rightl (l : list (name * list val)) := forall n c, In (n, c) l -> right_column r n c.
Lemma find_fvars p : wf r -> In p (fvars r) -> find (fun q => Nat.eqb (fst p) (fst q)) (fvars r) = Some p.
Proof.
  unfold wf. induction (fvars r) as [|q l IH]; cbn; [easy|]. intros Hn H. inversion Hn; subst. destruct H as [H|H].
  - subst. now rewrite Nat.eqb_refl.
  - destruct (Nat.eqb (fst p) (fst q)) eqn:E; [|now apply IH]. apply Nat.eqb_eq in E. exfalso. apply H2. rewrite <- E. apply in_map. easy.
Qed.
Lemma init_right : wf r -> right r (init r).
Proof.
  intros W. split; unfold init; cbn.
  - intros n c [H|[H|[]]]; inversion H; subst; (split; [apply flat_length|]); intros s t Hs Ht; rewrite flat_nth by easy; cbn; [|easy].
    symmetry. now apply nth_error_nth'.
  - intros n c H. apply in_app_or in H as [H|[H|[]]].
    + apply in_map_iff in H as [p [E Hp]]. inversion E; subst. split; [apply flat_length|]. intros s t Hs Ht. rewrite flat_nth by easy. cbn. now rewrite find_fvars.
    + inversion H; subst. split; [apply flat_length|]. intros s t Hs Ht. now rewrite flat_nth by easy.
Qed.
Lemma select_right ns f g : right r f -> select ns f = Some g -> right r g.
Proof.
  unfold select. destruct (gets ns (cols f)) eqn:E; [|easy]. intros [H1 H2] H; inversion H; subst. split; cbn; [easy|].
  apply gets_spec in E as [_ E]. intros n c Hc. apply H2. now apply E.
Qed.
Lemma reset_right f g : right r f -> nrow f = N * M -> reset f = Some g -> right r g /\ nrow g = N * M.
Proof.
  unfold reset. intros [H1 H2] Hn. destruct (existsb _ _); [easy|]. intros H; inversion H; subst. split; [|easy]. split; cbn; [tauto|].
  intros n c Hc. apply in_app_or in Hc as [Hc|Hc]; [|now apply H2]. destruct (idx f) as [|p l]; [|apply H1; easy].
  destruct Hc as [Hc|[]]. inversion Hc; subst. split; [now rewrite map_length, seq_length, Hn|].
  intros s t Hs Ht. assert (s * M + t < N * M) by nia. rewrite Hn.
  rewrite nth_error_map, nth_error_nth' with (d := 0) by (now rewrite seq_length). rewrite seq_nth by easy. cbn. now destruct (has INDEX _).
Qed.
Lemma set_index_right ks f g : right r f -> set_index ks f = Some g -> right r g /\ nrow g = nrow f.
Proof.
  unfold set_index. destruct (forallb _ _); [|easy]. destruct (gets ks (cols f)) eqn:E; [|easy]. intros [H1 H2] H; inversion H; subst. split; [|easy]. split; cbn.
  - apply gets_spec in E as [_ E]. intros n c Hc. apply H2. now apply E.
  - intros n c Hc. apply filter_In in Hc as [Hc _]. now apply H2.
Qed.
Lemma select_nrow ns f g : select ns f = Some g -> nrow g = nrow f /\ idx g = idx f /\ map fst (cols g) = ns.
Proof. unfold select. destruct (gets ns (cols f)) eqn:E; [|easy]. intros H; inversion H; subst. cbn. apply gets_spec in E as [E _]. easy. Qed.

(** what a call does to self.data: nothing, or it stays right *)
Lemma write_right f v a b : right r f -> nrow f = N * M -> right r (self' (write_csv f v a b)) /\ nrow (self' (write_csv f v a b)) = N * M.
Proof.
  intros H Hn. unfold write_csv. destruct (get_data_vars f v) as [v' t] eqn:E. destruct t as [t|]; [|easy].
  destruct (reset (the t)) as [g|] eqn:G; [|easy].
  assert (K : match t with Same h => h = f | New _ => True end).
  { destruct t as [h|h]; [|easy]. destruct v as [|l|d]; cbn [get_data_vars] in E.
    - inversion E. easy.
    - destruct (select l f); inversion E.
    - destruct (0 <? List.length (filter (fun p => negb (has (fst p) (map fst (idx f)))) d)).
      + destruct (select _ f); [|inversion E]. destruct (0 <? _); inversion E.
      + destruct (0 <? _); inversion E. easy. }
  destruct t as [h|h].
  - subst h. cbn [the] in G. destruct (reset_right _ _ H Hn G) as [G1 G2]. destruct b; cbn; [easy|].
    destruct (set_index _ g) eqn:S; cbn; [|easy]. destruct (set_index_right _ _ _ G1 S). split; [easy|]. congruence.
  - destruct b; cbn; [easy|]. destruct (set_index _ g); cbn; easy.
Qed.
Lemma run_right l : wf r -> right r (run (init r) l) /\ nrow (run (init r) l) = N * M.
Proof.
  intros W. unfold run. rewrite <- fold_left_rev_right. induction (rev l) as [|c k IH]; cbn.
  - split; [now apply init_right | easy].
  - apply write_right; tauto.
Qed.
(** files with all or with listed variables *)
Lemma file_right f v a g : right r f -> nrow f = N * M -> (forall d, v <> Ren d) -> file (write_csv f v a false) = Some g -> right r g.
Proof.
  intros H Hn Hv. unfold write_csv. destruct v as [|l|d]; [| |now destruct (Hv d)]; cbn [get_data_vars].
  - cbn [the]. destruct (reset f) eqn:G; [|easy]. destruct (reset_right _ _ H Hn G) as [G1 G2]. destruct (set_index _ f0) eqn:S; [|easy].
    cbn. intros K; inversion K; subst. now apply set_index_right in S.
  - destruct (select l f) as [h|] eqn:Q; [|easy]. cbn [the]. pose proof (select_right _ _ _ H Q) as H'. apply select_nrow in Q as [Q _]. rewrite <- Q in Hn.
    destruct (reset h) eqn:G; [|easy]. destruct (reset_right _ _ H' Hn G) as [G1 G2]. destruct (set_index _ f0) eqn:S; [|easy].
    cbn. intros K; inversion K; subst. now apply set_index_right in S.
Qed.

Lemma init_cols : map fst (cols (init r)) = columns r.
Proof. unfold init, columns; cbn. rewrite map_app, map_map. reflexivity. Qed.
Lemma columns_not n : In n (columns r) -> n = TNAME \/ exists v, n = V v.
Proof. unfold columns. intros H. apply in_app_or in H as [H|[H|[]]]; [|now left]. apply in_map_iff in H as [p [H _]]. right. eauto. Qed.
Lemma columns_nodup : wf r -> NoDup (columns r).
Proof.
  unfold wf, columns. intros H. induction (fvars r) as [|p l IH]; cbn.
  - constructor; [easy|constructor].
  - inversion H; subst. constructor; [|now apply IH]. intros K. apply in_app_or in K as [K|[K|[]]]; [|easy].
    apply in_map_iff in K as [q [K1 K2]]. inversion K1. apply H2. rewrite <- H1. now apply in_map.
Qed.
Lemma filter_id {A} (p : A -> bool) l : (forall x, In x l -> p x = true) -> filter p l = l.
Proof. induction l as [|a l IH]; cbn; intros H; [easy|]. rewrite H by now left. f_equal. apply IH. intros; apply H; now right. Qed.
Lemma frame_eq f g : idx f = idx g -> cols f = cols g -> nrow f = nrow g -> f = g.
Proof. destruct f, g; cbn. congruence. Qed.

(** reset and set again, for a frame indexed by state and turbine *)
Definition indexed (f : frame) := exists a b, idx f = [(STATE, a); (TURBINE, b)].
Lemma reset_ok f a b : idx f = [(STATE, a); (TURBINE, b)] -> ~ In STATE (map fst (cols f)) -> ~ In TURBINE (map fst (cols f)) ->
  reset f = Some {| idx := []; cols := (STATE, a) :: (TURBINE, b) :: cols f; nrow := nrow f |}.
Proof. intros E H1 H2. unfold reset. rewrite E. cbn [existsb fst]. rewrite (proj2 (has_not _ _) H1), (proj2 (has_not _ _) H2). reflexivity. Qed.
Lemma set_ok f a b c n : ~ In STATE (map fst c) -> ~ In TURBINE (map fst c) -> f = {| idx := []; cols := (STATE, a) :: (TURBINE, b) :: c; nrow := n |} ->
  set_index [STATE; TURBINE] f = Some {| idx := [(STATE, a); (TURBINE, b)]; cols := c; nrow := n |}.
Proof.
  intros H1 H2 ->. unfold set_index. cbn [cols map fst forallb].
  assert (XSTATE : mult STATE (STATE :: TURBINE :: map fst c) = 1) by (rewrite !mult_cons, (proj2 (mult_0 STATE (map fst c)) ltac:(assumption)); reflexivity). rewrite XSTATE.
  assert (XTURBINE : mult TURBINE (STATE :: TURBINE :: map fst c) = 1) by (rewrite !mult_cons, (proj2 (mult_0 TURBINE (map fst c)) ltac:(assumption)); reflexivity). rewrite XTURBINE.
  cbn [Nat.eqb andb]. cbn. f_equal. apply frame_eq; cbn; try easy. apply filter_id. intros [m d] Hm. cbn.
  assert (Hn : In m (map fst c)) by (apply in_map_iff; exists (m, d); auto).
  destruct m; try reflexivity; tauto.
Qed.
Lemma write_back f a b : idx f = [(STATE, a); (TURBINE, b)] -> ~ In STATE (map fst (cols f)) -> ~ In TURBINE (map fst (cols f)) ->
  exists g, reset f = Some g /\ set_index [STATE; TURBINE] g = Some f.
Proof.
  intros E H1 H2. rewrite (reset_ok _ _ _ E H1 H2). eexists; split; [reflexivity|]. rewrite (set_ok _ a b (cols f) (nrow f)); [|easy|easy|reflexivity].
  f_equal. apply frame_eq; cbn; congruence.
Qed.
Lemma init_idx : exists a b, idx (init r) = [(STATE, a); (TURBINE, b)].
Proof. unfold init; cbn; eauto. Qed.
Lemma columns_state : ~ In STATE (columns r) /\ ~ In TURBINE (columns r).
Proof. split; intros H; destruct (columns_not _ H) as [K|[v K]]; easy. Qed.

Lemma mult_in n l : mult n l <> 0 -> In n l.
Proof.
  unfold mult. induction l as [|m l IH]; cbn; [easy|]. destruct (name_eqb n m) eqn:E.
  - apply name_eqb_eq in E. subst. now left.
  - intros H. right. now apply IH.
Qed.
Lemma set_some ks f : (exists g, set_index ks f = Some g) <-> forall k, In k ks -> mult k (map fst (cols f)) = 1.
Proof.
  unfold set_index. destruct (forallb _ ks) eqn:E.
  - rewrite forallb_forall in E. split.
    + intros _ k Hk. now apply Nat.eqb_eq, E.
    + intros H. destruct (gets_some ks (cols f)) as [q ->]; [|eauto]. intros n Hn. apply mult_in. rewrite H; easy.
  - split; [intros [g H]; easy|]. intros H. exfalso. assert (X : forallb (fun k => Nat.eqb (mult k (map fst (cols f))) 1) ks = true).
    { apply forallb_forall. intros k Hk. apply Nat.eqb_eq. now apply H. } congruence.
Qed.

Lemma incl_select vs : incl vs (columns r) -> exists g, select vs (init r) = Some g.
Proof.
  intros H. unfold select. destruct (gets_some vs (cols (init r))) as [q ->]; [|eauto].
  intros n Hn. rewrite init_cols. now apply H.
Qed.
Lemma list_file vs : incl vs (columns r) -> exists f, file (write_csv (init r) (Keys vs) false false) = Some f /\ index_names f = [STATE; TURBINE] /\ column_names f = vs.
Proof.
  intros H. destruct (incl_select vs H) as [g G]. unfold write_csv. cbn [get_data_vars]. rewrite G. cbn [the].
  destruct init_idx as [a [b E]]. destruct columns_state as [C1 C2].
  destruct (select_nrow _ _ _ G) as [G1 [G2 G3]]. rewrite E in G2.
  destruct (write_back g a b G2) as [h [-> ->]]; [rewrite G3; intros K; now apply C1, H | rewrite G3; intros K; now apply C2, H|].
  exists g. cbn. unfold index_names, column_names. now rewrite G2, G3.
Qed.
Lemma list_self f vs a b : self' (write_csv f (Keys vs) a b) = f.
Proof.
  unfold write_csv. cbn [get_data_vars]. destruct (select vs f); [|easy]. cbn [the]. destruct (reset f0); [|easy].
  destruct b; [easy|]. destruct (set_index _ f1); easy.
Qed.
Lemma dict_self f d a b : d <> [] -> self' (write_csv f (Ren d) a b) = f.
Proof.
  intros Hd. unfold write_csv. cbn [get_data_vars].
  set (inds := filter (fun p => has (fst p) (map fst (idx f))) d). set (rest := filter (fun p => negb (has (fst p) (map fst (idx f)))) d).
  assert (L : 0 <? List.length rest = true \/ 0 <? List.length inds = true).
  { subst inds rest. destruct d as [|p d]; [easy|]. cbn [filter]. destruct (has (fst p) _); cbn [negb List.length]; [right | left]; reflexivity. }
  destruct (0 <? List.length rest).
  - destruct (select _ f); [|easy]. destruct (0 <? List.length inds); cbn [the]; (destruct (reset _); [|easy]); (destruct b; [easy|]); destruct (set_index _ _); easy.
  - destruct L as [L|L]; [easy|]. rewrite L. cbn [the]. (destruct (reset _); [|easy]); (destruct b; [easy|]); destruct (set_index _ _); easy.
Qed.
Lemma all_plain : self' (write_csv (init r) All false false) = init r /\ file (write_csv (init r) All false false) = Some (init r).
Proof.
  unfold write_csv. cbn [get_data_vars the]. destruct init_idx as [a [b E]]. destruct columns_state as [C1 C2].
  destruct (write_back (init r) a b E) as [h [-> ->]]; [now rewrite init_cols | now rewrite init_cols | easy].
Qed.
Lemma index_names_file f v a g : file (write_csv f v a false) = Some g -> index_names g = [STATE; if a then TNAME else TURBINE].
Proof.
  unfold write_csv. destruct (get_data_vars f v) as [v' t]. destruct t as [t|]; [|easy]. destruct (reset (the t)) as [h|]; [|easy].
  destruct (set_index _ h) eqn:E; [|easy]. cbn. intros H; inversion H; subst. unfold set_index in E. destruct (forallb _ _); [|easy]. destruct (gets _ _) eqn:G; [|easy].
  inversion E; subst. unfold index_names; cbn. now apply gets_spec in G as [G _].
Qed.

Lemma init_reset_cols vs g : select vs (init r) = Some g -> incl vs (columns r) -> exists h, reset g = Some h /\ map fst (cols h) = STATE :: TURBINE :: vs.
Proof.
  intros G H. destruct init_idx as [a [b E]]. destruct columns_state as [C1 C2]. destruct (select_nrow _ _ _ G) as [G1 [G2 G3]]. rewrite E in G2.
  rewrite (reset_ok g a b G2); [|rewrite G3; intros K; now apply C1, H | rewrite G3; intros K; now apply C2, H].
  eexists; split; [reflexivity|]. cbn. now rewrite G3.
Qed.
Lemma list_names vs : incl vs (columns r) -> ((exists f, file (write_csv (init r) (Keys vs) true false) = Some f) <-> mult TNAME vs = 1).
Proof.
  intros H. destruct (incl_select vs H) as [g G]. unfold write_csv. cbn [get_data_vars]. rewrite G. cbn [the].
  destruct (init_reset_cols vs g G H) as [h [Hh Hc]]. rewrite Hh. clear Hh.
  assert (X : (exists q, set_index [STATE; TNAME] h = Some q) <-> mult TNAME vs = 1).
  { rewrite set_some, Hc. split.
    - intros K. specialize (K TNAME ltac:(cbn; tauto)). rewrite !mult_cons in K. exact K.
    - intros K k [<-|[<-|[]]]; rewrite !mult_cons; cbn [name_eqb]; [|lia]. replace (mult STATE vs) with 0; [easy|]. symmetry. apply mult_0. intros Q. apply H in Q. now apply columns_state in Q. }
  rewrite <- X. destruct (set_index [STATE; TNAME] h); cbn; split; intros [q Q]; try easy; eauto.
Qed.
Lemma init_reset : reset (init r) = Some {| idx := []; cols := idx (init r) ++ cols (init r); nrow := nrow (init r) |}.
Proof.
  destruct init_idx as [a [b E]]. destruct columns_state as [C1 C2]. rewrite (reset_ok _ a b E); [|now rewrite init_cols | now rewrite init_cols]. now rewrite E.
Qed.
Definition data_names : frame :=
  {| idx := [(STATE, flat N M (fun s _ => nth s (labels r) (Lab 0))); (TNAME, flat N M (fun _ t => Txt (tnames r t)))];
     cols := (TURBINE, flat N M (fun _ t => Lab (Z.of_nat t))) :: map (fun p => (V (fst p), flat N M (fun s t => Num (snd p s t)))) (fvars r); nrow := N * M |}.
Lemma filter_app_last {A} (p : A -> bool) l x : (forall y, In y l -> p y = true) -> p x = false -> filter p (l ++ [x]) = l.
Proof. intros H1 H2. rewrite filter_app. cbn. rewrite H2, app_nil_r. now apply filter_id. Qed.
Lemma get_app_last n l c : ~ In n (map fst l) -> get n (l ++ [(n, c)]) = Some c.
Proof.
  induction l as [|[m d] l IH]; cbn.
  - now rewrite name_eqb_refl.
  - intros H. destruct (name_eqb n m) eqn:E; [apply name_eqb_eq in E; subst; tauto|]. apply IH. tauto.
Qed.
Lemma vars_names k : In k (map fst (map (fun p : nat * (nat -> nat -> Z) => (V (fst p), flat N M (fun s t => Num (snd p s t)))) (fvars r))) -> exists v, k = V v.
Proof. rewrite map_map. cbn. intros H. apply in_map_iff in H as [p [H _]]. eauto. Qed.
Lemma all_names : write_csv (init r) All true false = {| self' := data_names; vars' := All; file := Some data_names |}.
Proof.
  unfold write_csv. cbn [get_data_vars the]. rewrite init_reset.
  set (vc := map (fun p : nat * (nat -> nat -> Z) => (V (fst p), flat N M (fun s t => Num (snd p s t)))) (fvars r)).
  assert (NV : forall k, (forall v, k <> V v) -> ~ In k (map fst vc)).
  { intros k Hk Q. apply vars_names in Q as [v Q]. now apply (Hk v). }
  assert (E : set_index [STATE; TNAME] {| idx := []; cols := idx (init r) ++ cols (init r); nrow := nrow (init r) |} = Some data_names); [|now rewrite E].
  unfold set_index. cbn [cols idx nrow init]. fold vc.
  match goal with |- (if ?b then _ else _) = _ => replace b with true end.
  2:{ symmetry. apply forallb_forall. intros k Hk. apply Nat.eqb_eq. cbn [map fst app]. rewrite !map_app, !mult_cons, mult_app. cbn [map fst]. rewrite mult_cons.
      destruct Hk as [<-|[<-|[]]]; cbn [name_eqb]; match goal with |- context [mult ?k (map fst vc)] => rewrite (proj2 (mult_0 k (map fst vc)) (NV k ltac:(intros; discriminate))) end; reflexivity. }
  unfold gets. cbn [map app get name_eqb]. rewrite get_app_last by (apply NV; easy). cbn [all_some].
  f_equal. apply frame_eq; cbn [idx cols nrow data_names]; try easy. cbn [filter fst has existsb name_eqb orb negb]. f_equal.
  apply filter_app_last; [|reflexivity]. intros [k c] Hk. assert (Q : In k (map fst vc)) by (apply in_map_iff; exists (k, c); auto).
  apply vars_names in Q as [v ->]. reflexivity.
Qed.
Lemma after_names vs a : incl vs (columns r) -> ~ In TNAME vs -> file (write_csv data_names (Keys vs) false a) = None.
Proof.
  intros H Ht. unfold write_csv. cbn [get_data_vars].
  assert (HV : forall k, In k vs -> exists v, k = V v) by (intros k Hk; destruct (columns_not _ (H _ Hk)) as [->|K]; tauto).
  destruct (select vs data_names) as [g|] eqn:G; [|easy]. cbn [the].
  destruct (select_nrow _ _ _ G) as [G1 [G2 G3]].
  destruct (reset g) as [h|] eqn:Q; [|easy].
  assert (C : map fst (cols h) = STATE :: TNAME :: vs).
  { unfold reset in Q. rewrite G2 in Q. cbn [idx data_names] in Q. destruct (existsb _ _); [easy|]. injection Q as <-. cbn. now rewrite G3. }
  assert (NT : ~ In TURBINE (map fst (cols h))).
  { rewrite C. intros [K|[K|K]]; try easy. destruct (HV _ K) as [v E]; easy. }
  destruct a; cbn [file].
  - destruct (map fst (cols g)) as [|w [|? ?]]; try easy. unfold table. now rewrite (get_none TURBINE).
  - destruct (set_index [STATE; TURBINE] h) eqn:E; [|easy]. exfalso.
    assert (X : exists q, set_index [STATE; TURBINE] h = Some q) by eauto. rewrite set_some in X. specialize (X TURBINE ltac:(cbn; tauto)). apply mult_0 in NT. lia.
Qed.
(** after an attempt to write all variables into a state-turbine table *)
Definition data_plain : frame := {| idx := []; cols := idx (init r) ++ cols (init r); nrow := N * M |}.
Lemma all_table a : fvars r <> [] -> write_csv (init r) All a true = {| self' := data_plain; vars' := All; file := None |}.
Proof.
  intros H. unfold write_csv. cbn [get_data_vars the]. rewrite init_reset, init_cols. unfold columns, data_plain. destruct (fvars r) as [|p l]; [easy|]. destruct l; reflexivity.
Qed.
Lemma plain_names : map fst (cols data_plain) = STATE :: TURBINE :: columns r.
Proof. unfold data_plain. cbn [cols]. rewrite map_app, init_cols. destruct init_idx as [a [b ->]]. reflexivity. Qed.
Lemma plain_list vs a b : incl vs (columns r) -> file (write_csv data_plain (Keys vs) a b) = None.
Proof.
  intros H. unfold write_csv. cbn [get_data_vars].
  destruct (select vs data_plain) as [g|] eqn:G; [|easy]. cbn [the]. destruct (select_nrow _ _ _ G) as [G1 [G2 G3]].
  destruct (reset g) as [h|] eqn:Q; [|easy].
  assert (C : exists n, (n = INDEX \/ n = LEVEL0) /\ map fst (cols h) = n :: vs).
  { unfold reset in Q. rewrite G2 in Q. cbn [idx data_plain] in Q. destruct (existsb _ _); [easy|]. injection Q as <-. cbn [cols map fst app]. rewrite G3. eexists. split; [|reflexivity]. destruct (has INDEX vs); tauto. }
  destruct C as [n [Cn C]].
  assert (NT : ~ In STATE (map fst (cols h))).
  { rewrite C. intros [K|K]; [destruct Cn; congruence|]. apply H in K. now apply columns_state in K. }
  destruct b; cbn [file].
  - destruct (map fst (cols g)) as [|w [|? ?]]; try easy. unfold table. rewrite (get_none STATE _ NT). now destruct (get _ (cols h)).
  - match goal with |- context [set_index ?k h] => destruct (set_index k h) eqn:E; [|easy]; exfalso; assert (X : exists q, set_index k h = Some q) by eauto end.
    rewrite set_some in X. specialize (X STATE ltac:(cbn; tauto)). apply mult_0 in NT. lia.
Qed.
Lemma plain_all : exists f, file (write_csv data_plain All false false) = Some f /\ index_names f = [STATE; TURBINE] /\ column_names f = INDEX :: columns r.
Proof.
  assert (HI : ~ In INDEX (map fst (cols data_plain))).
  { rewrite plain_names. intros [K|[K|K]]; try easy. apply columns_not in K as [K|[v K]]; easy. }
  destruct init_idx as [a [b E]].
  unfold write_csv. cbn [get_data_vars the]. unfold reset.
  change (idx data_plain) with (@nil (name * list val)). cbn iota. rewrite (proj2 (has_not _ _) HI).
  cbn [existsb fst]. rewrite (proj2 (has_not _ _) HI). cbn [orb].
  set (ic := map _ (seq 0 _)).
  assert (Q : set_index [STATE; TURBINE] {| idx := []; cols := [(INDEX, ic)] ++ cols data_plain; nrow := nrow data_plain |} = Some {| idx := [(STATE, a); (TURBINE, b)]; cols := (INDEX, ic) :: cols (init r); nrow := nrow data_plain |}).
  { unfold set_index. cbn [cols].
    match goal with |- (if ?b then _ else _) = _ => replace b with true end.
    2:{ symmetry. apply forallb_forall. intros k Hk. apply Nat.eqb_eq. rewrite map_app, plain_names. cbn [map fst app]. rewrite !mult_cons.
        destruct columns_state as [C1 C2]. apply mult_0 in C1, C2. destruct Hk as [<-|[<-|[]]]; cbn [name_eqb]; lia. }
    unfold data_plain. cbn [cols idx nrow]. rewrite E. unfold gets. cbn [map app get name_eqb all_some].
    f_equal. apply frame_eq; cbn [idx cols nrow]; try easy. cbn [filter fst has existsb name_eqb orb negb]. f_equal.
    apply filter_id. intros [m d] Hm. assert (Hn : In m (columns r)) by (rewrite <- init_cols; apply in_map_iff; exists (m, d); auto).
    apply columns_not in Hn as [->|[v ->]]; reflexivity. }
  rewrite Q. eexists. cbn [file]. split; [reflexivity|]. unfold index_names, column_names. cbn [idx cols map fst]. now rewrite init_cols.
Qed.
End R.

(** state-turbine tables *)
Lemma sel_app k1 k2 c1 c2 : List.length k1 = List.length c1 -> sel_rows (k1 ++ k2) (c1 ++ c2) = sel_rows k1 c1 ++ sel_rows k2 c2.
Proof.
  unfold sel_rows. revert c1. induction k1 as [|a k1 IH]; intros [|x c1] H; cbn in H; try lia; [easy|].
  cbn [app combine filter]. cbn [fst]. destruct a; cbn [map app]; rewrite IH by lia; reflexivity.
Qed.
Lemma sel_none k (g : nat -> val) l : ~ In k l -> sel_rows (map (fun t => val_eqb (Lab (Z.of_nat k)) (Lab (Z.of_nat t))) l) (map g l) = [].
Proof.
  unfold sel_rows. induction l as [|a l IH]; [easy|]. intros H. cbn [map combine filter fst].
  destruct (val_eqb (Lab (Z.of_nat k)) (Lab (Z.of_nat a))) eqn:E.
  - apply val_eqb_eq in E. inversion E. exfalso. apply H. left. lia.
  - apply IH. intros K. apply H. now right.
Qed.
Lemma sel_row k (g : nat -> val) l : NoDup l -> In k l -> sel_rows (map (fun t => val_eqb (Lab (Z.of_nat k)) (Lab (Z.of_nat t))) l) (map g l) = [g k].
Proof.
  induction l as [|a l IH]; [easy|]. intros Hn H. inversion Hn; subst. unfold sel_rows. cbn [map combine filter fst].
  destruct (val_eqb (Lab (Z.of_nat k)) (Lab (Z.of_nat a))) eqn:E.
  - apply val_eqb_eq in E. inversion E. assert (k = a) by lia. subst. cbn [map snd]. f_equal. now apply sel_none.
  - destruct H as [H|H]; [subst; now rewrite val_eqb_refl in E|]. now apply IH.
Qed.
Lemma sel_flat n m k (g : nat -> nat -> val) : k < m ->
  sel_rows (map (val_eqb (Lab (Z.of_nat k))) (flat n m (fun _ t => Lab (Z.of_nat t)))) (flat n m g) = map (fun s => g s k) (seq 0 n).
Proof.
  intros H. unfold flat. generalize (seq 0 n). induction l as [|a l IH]; [easy|]. cbn [flat_map map].
  rewrite map_app, sel_app by (now rewrite !map_length). rewrite IH, map_map. rewrite (sel_row k (g a)); [easy | apply seq_NoDup | apply in_seq; lia].
Qed.
Definition add1 (acc : list val) (t : val) := if existsb (val_eqb t) acc then acc else acc ++ [t].
Lemma dist_old l : forall acc, incl l acc -> fold_left add1 l acc = acc.
Proof.
  induction l as [|a l IH]; [easy|]. intros acc H. cbn [fold_left]. assert (E : add1 acc a = acc).
  { unfold add1. replace (existsb _ acc) with true; [easy|]. symmetry. apply existsb_exists. exists a. split; [apply H; now left | apply val_eqb_refl]. }
  rewrite E. apply IH. intros x Hx. apply H. now right.
Qed.
Lemma dist_new l : forall acc, NoDup (acc ++ l) -> fold_left add1 l acc = acc ++ l.
Proof.
  induction l as [|a l IH]; intros acc H; [now rewrite app_nil_r|]. cbn [fold_left]. assert (E : add1 acc a = acc ++ [a]).
  { unfold add1. replace (existsb _ acc) with false; [easy|]. symmetry. apply not_true_iff_false. intros K. apply existsb_exists in K as [x [K1 K2]]. apply val_eqb_eq in K2. subst.
    apply NoDup_remove_2 in H. apply H. apply in_or_app. now left. }
  rewrite E. rewrite IH; rewrite <- app_assoc; [easy | exact H].
Qed.
Lemma distinct_new l : NoDup l -> distinct l = l.
Proof. intros H. change (distinct l) with (fold_left add1 l []). now apply (dist_new l []). Qed.
Lemma dist_in l : forall acc, incl acc (fold_left add1 l acc) /\ incl l (fold_left add1 l acc) /\ (NoDup acc -> NoDup (fold_left add1 l acc)) /\ incl (fold_left add1 l acc) (acc ++ l).
Proof.
  induction l as [|a l IH]; intros acc; cbn [fold_left].
  - split; [|split; [|split]]; try easy; intros x Hx; try easy. rewrite app_nil_r. exact Hx.
  - destruct (IH (add1 acc a)) as [H1 [H2 [H3 H4]]].
    assert (A : incl acc (add1 acc a) /\ In a (add1 acc a) /\ (NoDup acc -> NoDup (add1 acc a)) /\ incl (add1 acc a) (acc ++ [a])).
    { unfold add1. destruct (existsb (val_eqb a) acc) eqn:E.
      - apply existsb_exists in E as [x [E1 E2]]. apply val_eqb_eq in E2. subst x. split; [|split; [|split]]; try easy. intros y Hy. apply in_or_app. now left.
      - split; [|split; [|split]]; try easy.
        + intros x Hx. apply in_or_app. now left.
        + apply in_or_app. right. now left.
        + intros Hn. assert (Q := Add_app a acc []). rewrite app_nil_r in Q. apply (NoDup_Add Q). split; [easy|]. intros K. assert (X : existsb (val_eqb a) acc = true) by (apply existsb_exists; exists a; split; [easy | apply val_eqb_refl]). congruence. }
    destruct A as [A1 [A2 [A3 A4]]]. split; [|split; [|split]].
    + intros x Hx. now apply H1, A1.
    + intros x [<-|Hx]; [now apply H1, A2 | now apply H2].
    + auto.
    + intros x Hx. apply H4 in Hx. apply in_app_or in Hx as [Hx|Hx].
      * apply A4 in Hx. apply in_app_or in Hx as [Hx|[Hx|[]]]; apply in_or_app; [now left | right; now left].
      * apply in_or_app. right. now right.
Qed.
Lemma distinct_nodup l : NoDup (distinct l).
Proof. change (distinct l) with (fold_left add1 l []). apply (dist_in l []). constructor. Qed.
Lemma distinct_incl l x : In x (distinct l) <-> In x l.
Proof. change (distinct l) with (fold_left add1 l []). destruct (dist_in l []) as [H1 [H2 [H3 H4]]]. split; intros H; [now apply H4 in H | now apply H2]. Qed.
Lemma distinct_same l k : incl l k -> incl k l -> NoDup k -> List.length (distinct l) = List.length k.
Proof.
  intros H1 H2 H3. apply Nat.le_antisymm; apply NoDup_incl_length; try easy; try apply distinct_nodup; intros x Hx.
  - apply H1. now apply distinct_incl.
  - apply distinct_incl. now apply H2.
Qed.
Lemma labs_nodup m : NoDup (map (fun t => Lab (Z.of_nat t)) (seq 0 m)).
Proof. apply FinFun.Injective_map_NoDup; [|apply seq_NoDup]. intros a b H. inversion H. lia. Qed.
Lemma distinct_turbines n m : 0 < n -> distinct (flat n m (fun _ t => Lab (Z.of_nat t))) = map (fun t => Lab (Z.of_nat t)) (seq 0 m).
Proof.
  intros H. change (distinct ?l) with (fold_left add1 l []). destruct n as [|n]; [lia|]. unfold flat. cbn [seq flat_map].
  rewrite fold_left_app, (dist_new _ []) by (apply labs_nodup). cbn [app]. apply dist_old. intros x Hx. apply in_flat_map in Hx as [s [_ Hx]]. exact Hx.
Qed.
Lemma flat_in {A} n m (f : nat -> nat -> A) x : In x (flat n m f) <-> exists s t, s < n /\ t < m /\ f s t = x.
Proof.
  unfold flat. rewrite in_flat_map. split.
  - intros [s [H1 H2]]. apply in_map_iff in H2 as [t [H2 H3]]. apply in_seq in H1, H3. exists s, t. repeat split; try easy; lia.
  - intros [s [t [H1 [H2 H3]]]]. exists s. split; [apply in_seq; lia|]. apply in_map_iff. exists t. split; [easy|]. apply in_seq; lia.
Qed.
Lemma smallest_in l : l <> [] -> exists x, smallest l = Some x /\ In x l.
Proof.
  destruct l as [|a l]; [easy|]. intros _. cbn [smallest]. eexists; split; [reflexivity|].
  assert (G : forall l a, In (fold_left (fun m t => if val_leb m t then m else t) l a) (a :: l)).
  { clear. induction l as [|b l IH]; intros a; [now left|]. cbn [fold_left]. specialize (IH (if val_leb a b then a else b)).
    destruct IH as [H|H]; [|right; now right]. rewrite <- H. destruct (val_leb a b); [now left | right; now left]. }
  apply G.
Qed.
Lemma labels_map r : map (fun s => nth s (labels r) (Lab 0)) (seq 0 (List.length (labels r))) = labels r.
Proof.
  apply nth_ext with (d := Lab 0) (d' := Lab 0); [now rewrite map_length, seq_length|]. intros k Hk. rewrite map_length, seq_length in Hk.
  rewrite nth_indep with (d' := (fun s => nth s (labels r) (Lab 0)) 0) by (now rewrite map_length, seq_length). rewrite (map_nth (fun s => nth s (labels r) (Lab 0))). now rewrite seq_nth.
Qed.
Lemma get_var r p : wf r -> In p (fvars r) -> get (V (fst p)) (cols (init r)) = Some (flat (List.length (labels r)) (nturb r) (fun s t => Num (snd p s t))).
Proof.
  intros W H. apply get_unique; [rewrite init_cols; now apply columns_nodup|]. unfold init; cbn [cols]. apply in_or_app. left. apply in_map_iff. exists p. easy.
Qed.
Lemma table_file r p : wf r -> In p (fvars r) -> labels r <> [] -> 0 < nturb r ->
  file (write_csv (init r) (Keys [V (fst p)]) false true) =
  Some {| idx := [(STATE, labels r)]; cols := map (fun t => (Tcol (V (fst p)) (Lab (Z.of_nat t)), map (fun s => Num (snd p s t)) (seq 0 (List.length (labels r))))) (seq 0 (nturb r)); nrow := List.length (labels r) |}.
Proof.
  intros W H HL HT. set (n := List.length (labels r)). assert (Hn : 0 < n) by (subst n; destruct (labels r); [easy | cbn; lia]).
  unfold write_csv. cbn [get_data_vars]. unfold select, gets. cbn [map]. rewrite (get_var r p W H). cbn [all_some the].
  fold n. set (vc := flat n (nturb r) (fun s t => Num (snd p s t))).
  match goal with |- context [reset ?f] => assert (E : reset f = Some {| idx := []; cols := idx (init r) ++ [(V (fst p), vc)]; nrow := nrow (init r) |}) by (unfold init; reflexivity) end.
  rewrite E. clear E. cbn [cols map fst file]. unfold table. cbn [cols init idx app get name_eqb]. fold n. rewrite Nat.eqb_refl.
  set (tc := flat n (nturb r) (fun _ t => Lab (Z.of_nat t))).
  destruct (smallest_in tc) as [t0 [-> T0]].
  { intros K. assert (X : List.length tc = 0) by now rewrite K. subst tc. rewrite flat_length in X. nia. }
  apply flat_in in T0 as [s0 [k0 [S0 [K0 <-]]]].
  subst tc. rewrite distinct_turbines by easy. cbv zeta.
  rewrite sel_flat by easy. subst n. rewrite labels_map.
  match goal with |- (if ?b then _ else _) = _ => replace b with true end.
  2:{ symmetry. apply forallb_forall. intros x Hx. apply in_map_iff in Hx as [t [<- Ht]]. apply in_seq in Ht. apply Nat.eqb_eq. subst vc. rewrite sel_flat by lia. now rewrite map_length, seq_length. }
  f_equal. apply frame_eq; cbn [idx cols nrow]; try easy. rewrite map_map. apply map_ext_in. intros t Ht. apply in_seq in Ht. f_equal. subst vc. now rewrite sel_flat by lia.
Qed.
Lemma table_names r v : file (write_csv (init r) (Keys [V v]) true true) = None.
Proof.
  unfold write_csv. cbn [get_data_vars]. unfold select, gets. cbn [map]. destruct (get (V v) (cols (init r))); [|easy]. cbn [all_some the].
  match goal with |- context [reset ?f] => assert (E : reset f = Some {| idx := []; cols := idx (init r) ++ [(V v, l)]; nrow := nrow (init r) |}) by (unfold init; reflexivity) end.
  rewrite E. reflexivity.
Qed.

(** renaming *)
Lemma rename1_in d k w : NoDup (map fst d) -> In (k, w) d -> rename1 d k = w.
Proof.
  unfold rename1. induction d as [|[a b] d IH]; [easy|]. cbn [map fst find]. intros Hn H. inversion Hn; subst. destruct H as [H|H].
  - inversion H; subst. now rewrite name_eqb_refl.
  - destruct (name_eqb k a) eqn:E; [|now apply IH]. apply name_eqb_eq in E. subst. exfalso. apply H2. apply in_map_iff. exists (a, w). auto.
Qed.
Lemma rename1_other d k : rename1 d k = k \/ In (rename1 d k) (map snd d).
Proof. unfold rename1. destruct (find _ d) as [p|] eqn:E; [|now left]. right. apply find_some in E as [E _]. now apply in_map. Qed.
Lemma filter_none {A} (p : A -> bool) l : (forall x, In x l -> p x = false) -> filter p l = [].
Proof. induction l as [|a l IH]; cbn; intros H; [easy|]. rewrite H by now left. apply IH. intros; apply H; now right. Qed.
Lemma dict_file r d : wf r -> d <> [] -> NoDup (map fst d) -> incl (map fst d) (columns r) -> ~ In STATE (map snd d) -> ~ In TURBINE (map snd d) ->
  vars' (write_csv (init r) (Ren d) false false) = Ren d /\
  exists f, file (write_csv (init r) (Ren d) false false) = Some f /\ index_names f = [STATE; TURBINE] /\ column_names f = map snd d /\
  forall i k w, nth_error d i = Some (k, w) -> exists c, nth_error (cols f) i = Some (w, c) /\ right_column r k c.
Proof.
  intros W Hd Hn H H1 H2. unfold write_csv. cbn [get_data_vars].
  destruct (init_idx r) as [a [b E]]. destruct (columns_state r) as [C1 C2]. rewrite E. cbn [map fst].
  assert (K : forall p, In p d -> has (fst p) [STATE; TURBINE] = false).
  { intros p Hp. apply has_not. intros [Q|[Q|[]]]; [apply C1 | apply C2]; rewrite Q; apply H; now apply in_map. }
  rewrite (filter_none (fun p => has (fst p) [STATE; TURBINE])) by exact K.
  rewrite (filter_id (fun p => negb (has (fst p) [STATE; TURBINE]))) by (intros p Hp; now rewrite K).
  replace (0 <? List.length d) with true by (destruct d; [easy | reflexivity]). cbn [List.length Nat.ltb Nat.leb].
  destruct (incl_select r (map fst d) H) as [g G]. rewrite G. cbn [the].
  pose proof (select_right r _ _ _ (init_right r W) G) as [_ R].
  destruct (select_nrow _ _ _ G) as [G1 [G2 G3]]. rewrite E in G2.
  assert (N : map fst (cols (rename d g)) = map snd d).
  { unfold rename. cbn [cols]. rewrite map_map. cbn [fst]. rewrite <- (map_map fst (rename1 d)), G3, map_map. apply map_ext_in. intros [k w] Hk. cbn [fst snd]. now apply rename1_in. }
  destruct (write_back (rename d g) a b) as [h [-> ->]]; [exact G2 | now rewrite N | now rewrite N|]. cbn [vars' file]. split; [easy|].
  exists (rename d g). split; [easy|]. split; [unfold index_names, rename; cbn [idx]; now rewrite G2|]. split; [exact N|].
  intros i k w Hi.
  assert (Hg : nth_error (map fst (cols g)) i = Some k) by (rewrite G3, nth_error_map, Hi; easy).
  rewrite nth_error_map in Hg. destruct (nth_error (cols g) i) as [[k' c]|] eqn:Q; [|easy]. cbn in Hg. inversion Hg; subst k'.
  exists c. split; [|apply R; now apply nth_error_In in Q]. unfold rename. cbn [cols]. rewrite nth_error_map, Q. cbn. f_equal. f_equal. apply rename1_in; [easy|]. now apply nth_error_In in Hi.
Qed.
Lemma dict_state r d x a b : NoDup (map fst d) -> In (STATE, x) d -> ~ In STATE (map snd d) -> file (write_csv (init r) (Ren d) a b) = None.
Proof.
  intros Hn Hx H. unfold write_csv. cbn [get_data_vars].
  destruct (init_idx r) as [ia [ib E]]. rewrite E. cbn [map fst].
  set (inds := filter (fun p => has (fst p) [STATE; TURBINE]) d). set (rest := filter (fun p => negb (has (fst p) [STATE; TURBINE])) d).
  assert (Hi : In (STATE, x) inds) by (apply filter_In; auto).
  assert (Ni : NoDup (map fst inds)).
  { subst inds. clear - Hn. induction d as [|p d IH]; [constructor|]. cbn [map] in Hn. inversion Hn; subst. cbn [filter]. destruct (has _ _); [|now apply IH].
    cbn [map]. constructor; [|now apply IH]. intros K. apply H1. apply in_map_iff in K as [q [K1 K2]]. apply filter_In in K2 as [K2 _]. rewrite <- K1. now apply in_map. }
  assert (Si : ~ In STATE (map snd inds)) by (intros K; apply H; apply in_map_iff in K as [q [K1 K2]]; apply filter_In in K2 as [K2 _]; rewrite <- K1; now apply in_map).
  assert (Sr : ~ In STATE (map snd rest)) by (intros K; apply H; apply in_map_iff in K as [q [K1 K2]]; apply filter_In in K2 as [K2 _]; rewrite <- K1; now apply in_map).
  assert (L : 0 <? List.length inds = true) by (destruct inds; [easy | reflexivity]).
  assert (G : forall f, idx f = idx (init r) -> ~ In STATE (map fst (cols f)) -> forall h, reset (rename_axis inds f) = Some h -> ~ In STATE (map fst (cols h))).
  { intros f Hf Hs h. unfold reset. destruct (existsb _ _); [easy|]. intros Q. injection Q as <-. unfold rename_axis. cbn [cols idx]. rewrite Hf, E. cbn [map fst snd]. cbn [app map fst].
    rewrite (rename1_in inds STATE x) by easy. intros [Q|[Q|Q]]; [| |easy].
    - subst x. apply Si. apply in_map_iff. exists (STATE, STATE). auto.
    - destruct (rename1_other inds TURBINE) as [Z|Z]; rewrite Q in Z; [easy | now apply Si]. }
  assert (F : forall f, idx f = idx (init r) -> ~ In STATE (map fst (cols f)) ->
     file (match reset (rename_axis inds f) with None => {| self' := init r; vars' := Ren rest; file := None |}
       | Some g => if b then {| self' := init r; vars' := Ren rest; file := match map fst (cols f) with [w] => table (if a then TNAME else TURBINE) w g | _ => None end |}
                   else match set_index [STATE; if a then TNAME else TURBINE] g with Some q => {| self' := init r; vars' := Ren rest; file := Some q |} | None => {| self' := init r; vars' := Ren rest; file := None |} end end) = None).
  { intros f Hf Hs. destruct (reset (rename_axis inds f)) as [h|] eqn:Q; [|easy]. pose proof (G f Hf Hs h Q) as S. destruct b; cbn [file].
    - destruct (map fst (cols f)) as [|w [|? ?]]; try easy. unfold table. rewrite (get_none STATE _ S). now destruct (get _ (cols h)).
    - destruct (set_index _ h) as [q|] eqn:X; [|easy]. exfalso.
      assert (Y : exists q, set_index [STATE; if a then TNAME else TURBINE] h = Some q) by eauto. rewrite set_some in Y. specialize (Y STATE ltac:(cbn; tauto)). apply mult_0 in S. lia. }
  rewrite L. destruct (0 <? List.length rest).
  - destruct (select (map fst rest) (init r)) as [g|] eqn:Q; [|easy]. cbn [the]. destruct (select_nrow _ _ _ Q) as [Q1 [Q2 Q3]].
    apply (F (rename rest g)); [exact Q2|]. unfold rename. cbn [cols]. rewrite map_map. cbn [fst]. rewrite <- (map_map fst (rename1 rest)), Q3, map_map. intros K.
    apply in_map_iff in K as [p [K1 K2]]. destruct (rename1_other rest (fst p)) as [Z|Z]; rewrite K1 in Z; [|now apply Sr].
    apply filter_In in K2 as [_ K2]. rewrite <- Z in K2. cbn in K2. easy.
  - cbn [the]. apply (F (init r)); [easy|]. rewrite init_cols. apply columns_state.
Qed.

(** netCDF *)
Lemma dist_block a m acc : fold_left add1 (map (fun _ : nat => a) (seq 0 (S m))) acc = add1 acc a.
Proof.
  cbn [seq map fold_left]. apply dist_old. intros x Hx. apply in_map_iff in Hx as [k [<- _]].
  unfold add1. destruct (existsb (val_eqb a) acc) eqn:E; [|apply in_or_app; right; now left].
  apply existsb_exists in E as [y [E1 E2]]. apply val_eqb_eq in E2. now subst.
Qed.
Lemma distinct_states r : 0 < nturb r -> distinct (flat (List.length (labels r)) (nturb r) (fun s _ => nth s (labels r) (Lab 0))) = distinct (labels r).
Proof.
  intros H. destruct (nturb r) as [|m]; [lia|]. transitivity (distinct (map (fun s => nth s (labels r) (Lab 0)) (seq 0 (List.length (labels r))))); [|now rewrite labels_map]. unfold flat.
  change (distinct ?l) with (fold_left add1 l []). generalize (@nil val). generalize (seq 0 (List.length (labels r))).
  induction l as [|s l IH]; intros acc; [easy|]. cbn [flat_map map fold_left]. rewrite fold_left_app, dist_block. apply IH.
Qed.
Lemma nc_file r vs : wf r -> labels r <> [] -> NoDup (labels r) -> 0 < nturb r -> incl vs (columns r) ->
  exists ms, write_nc (init r) (Keys vs) = Some (labels r, nturb r, ms) /\ map fst ms = vs /\
  forall v m, In (v, m) ms -> List.length m = List.length (labels r) /\
    forall s t, s < List.length (labels r) -> t < nturb r -> exists row, nth_error m s = Some row /\ nth_error row t = cell r s t v.
Proof.
  intros W HL HD HT H. assert (Hn : 0 < List.length (labels r)) by (destruct (labels r); [easy | cbn; lia]).
  unfold write_nc. cbn [get_data_vars snd]. destruct (incl_select r vs H) as [g G]. rewrite G. cbn [the].
  pose proof (select_right r _ _ _ (init_right r W) G) as [_ R]. destruct (select_nrow _ _ _ G) as [G1 [G2 G3]]. rewrite G2. cbn [idx init].
  rewrite distinct_states, distinct_turbines, distinct_new by easy. rewrite map_length, seq_length.
  match goal with |- context [if ?b then _ else _] => replace b with true end.
  2:{ symmetry. apply forallb_forall. intros [n c] Hc. apply Nat.eqb_eq. now apply R in Hc as [Hc _]. }
  eexists. split; [reflexivity|]. rewrite map_map. cbn [fst]. split; [exact G3|].
  intros v m Hm. apply in_map_iff in Hm as [[n c] [Q Hc]]. cbn [fst snd] in Q. inversion Q; subst. split; [now rewrite map_length, seq_length|].
  intros s t Hs Ht. apply R in Hc as [Hc1 Hc2]. eexists. rewrite nth_error_map, nth_error_nth' with (d := 0) by (now rewrite seq_length). cbn [option_map]. split; [reflexivity|].
  rewrite nth_error_map, nth_error_nth' with (d := 0) by (now rewrite seq_length). cbn [option_map]. rewrite !seq_nth by easy. cbn [Nat.add].
  rewrite <- (Hc2 s t Hs Ht). symmetry. apply nth_error_nth'. rewrite Hc1. nia.
Qed.
Lemma nc_duplicates r vs : wf r -> ~ NoDup (labels r) -> 0 < nturb r -> incl vs (columns r) -> vs <> [] -> write_nc (init r) (Keys vs) = None.
Proof.
  intros W HD HT H Hv. assert (Hn : 0 < List.length (labels r)) by (destruct (labels r); [exfalso; apply HD; constructor | cbn; lia]).
  unfold write_nc. cbn [get_data_vars snd]. destruct (incl_select r vs H) as [g G]. rewrite G. cbn [the].
  pose proof (select_right r _ _ _ (init_right r W) G) as [_ R]. destruct (select_nrow _ _ _ G) as [G1 [G2 G3]]. rewrite G2. cbn [idx init].
  rewrite distinct_states, distinct_turbines by easy. rewrite map_length, seq_length.
  match goal with |- (if ?b then _ else _) = _ => replace b with false; [easy|] end.
  symmetry. apply not_true_iff_false. intros K. rewrite forallb_forall in K. destruct (cols g) as [|p q] eqn:Q; [destruct vs; easy|].
  specialize (K p (or_introl eq_refl)). apply Nat.eqb_eq in K. destruct (R (fst p) (snd p)) as [L _]; [destruct p; now left|].
  rewrite L in K. apply Nat.mul_cancel_r in K; [|lia]. apply HD. apply NoDup_incl_NoDup with (l := distinct (labels r)); [apply distinct_nodup | lia | intros x Hx; now apply distinct_incl].
Qed.
Lemma sel_true (c : list val) : sel_rows (map (fun _ : val => true) c) c = c.
Proof. unfold sel_rows. induction c as [|a c IH]; [easy|]. cbn [map combine filter fst snd]. now rewrite IH. Qed.
Lemma sel_const b (g : nat -> val) l : sel_rows (map (fun _ : nat => b) l) (map g l) = if b then map g l else [] .
Proof.
  unfold sel_rows. induction l as [|a l IH]; [now destruct b|]. cbn [map combine filter fst]. destruct b; cbn [map snd]; [now rewrite IH | exact IH].
Qed.
Lemma sel_state r lab : sel_rows (map (val_eqb lab) (flat (List.length (labels r)) (nturb r) (fun s _ => nth s (labels r) (Lab 0)))) (flat (List.length (labels r)) (nturb r) (fun _ t => Txt (tnames r t)))
  = flat_map (fun x => if val_eqb lab x then map (fun t => Txt (tnames r t)) (seq 0 (nturb r)) else []) (labels r).
Proof.
  transitivity (flat_map (fun x => if val_eqb lab x then map (fun t => Txt (tnames r t)) (seq 0 (nturb r)) else []) (map (fun s => nth s (labels r) (Lab 0)) (seq 0 (List.length (labels r))))); [|now rewrite labels_map]. unfold flat. generalize (seq 0 (List.length (labels r))). induction l as [|s l IH]; [easy|]. cbn [flat_map map].
  rewrite map_app, sel_app by (now rewrite !map_length). rewrite IH, map_map. now rewrite sel_const.
Qed.
Lemma get_tname r : get TNAME (cols (init r)) = Some (flat (List.length (labels r)) (nturb r) (fun _ t => Txt (tnames r t))).
Proof. unfold init. cbn [cols]. apply get_app_last. intros H. rewrite map_map in H. cbn [fst] in H. apply in_map_iff in H as [p [H _]]. easy. Qed.
Lemma nc_names_spec r : 0 < nturb r -> NoDup (labels r) ->
  nc_names (init r) = if existsb (val_eqb (Lab 0)) (labels r) then Some (map (fun t => Txt (tnames r t)) (seq 0 (nturb r))) else None.
Proof.
  intros HT HD. unfold nc_names. rewrite get_tname. cbn [idx init]. rewrite sel_state.
  assert (Hne : map (fun t => Txt (tnames r t)) (seq 0 (nturb r)) <> []) by (destruct (nturb r); [lia | easy]).
  set (b := map (fun t => Txt (tnames r t)) (seq 0 (nturb r))) in *. induction (labels r) as [|x l IH]; [easy|].
  inversion HD; subst. cbn [flat_map existsb]. destruct (val_eqb (Lab 0) x) eqn:E; cbn [orb].
  - apply val_eqb_eq in E. subst x. replace (flat_map _ l) with (@nil val).
    + rewrite app_nil_r. now destruct b.
    + symmetry. clear - H1. induction l as [|y l IH]; [easy|]. cbn [flat_map]. destruct (val_eqb (Lab 0) y) eqn:E.
      * apply val_eqb_eq in E. subst. exfalso. apply H1. now left.
      * cbn [app]. apply IH. intros K. apply H1. now right.
  - cbn [app]. now apply IH.
Qed.

(** files *)
Lemma update_app {A} (u v d : list (string * A)) : update d (u ++ v) = update (update d u) v.
Proof. revert d. induction u as [|[k x] u IH]; intros d; cbn [app update]; [easy|]. apply IH. Qed.
Lemma history_update {A} (calls : list (list string * list (string * A))) :
  history calls = update [] (flat_map (fun c => match writer_of (suffix (fst c)) with Some _ => snd c | None => [] end) calls).
Proof.
  unfold history.
  assert (G : forall d, fold_left (fun d c => fst (write_file d (fst c) (snd c))) calls d = update d (flat_map (fun c => match writer_of (suffix (fst c)) with Some _ => snd c | None => [] end) calls)); [|apply G].
  induction calls as [|[p k] calls IH]; intros d; [easy|]. cbn [fold_left flat_map fst snd].
  rewrite update_app, IH. f_equal. unfold write_file. destruct (writer_of (suffix p)); reflexivity.
Qed.
