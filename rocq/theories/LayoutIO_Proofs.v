(** Proofs about wind farm layouts in tables and files. *)
From Coq Require Import String.
From Flocq Require Import Core.
From Verif Require Import RBase LayoutIO_Model LayoutIO_Spec.
Local Open Scope R_scope.
Local Open Scope list_scope.

Lemma label_eqb_spec a b : reflect (a = b) (label_eqb a b).
Proof.
  destruct a as [x|x], b as [y|y]; cbn; try (constructor; discriminate).
  - destruct (Z.eqb_spec x y); constructor; congruence.
  - destruct (String.eqb_spec x y); constructor; congruence.
Qed.
Lemma cell_entry cols row c x : cell_at cols row c = Some x ->
  exists k, nth_error cols k = Some c /\ nth_error row k = Some x /\ forall j, (j < k)%nat -> nth_error cols j <> Some c.
Proof.
  revert row. induction cols as [|k cols IH]; intros [|y row]; cbn; try discriminate.
  destruct (String.eqb_spec k c) as [-> |N]; intros Q.
  - injection Q as ->. exists 0%nat. repeat split. intros j J. lia.
  - destruct (IH row Q) as (m & A & B & C). exists (S m). repeat split; auto. intros [|j] J; cbn; [congruence|apply C; lia].
Qed.
Lemma cell_total cols row c : In c cols -> length row = length cols -> exists x, cell_at cols row c = Some x.
Proof.
  revert row. induction cols as [|k cols IH]; intros [|y row] I L; cbn in *; try (destruct I; fail); try discriminate.
  destruct (String.eqb_spec k c); [eauto|]. destruct I as [|I]; [contradiction|]. apply IH; [exact I|lia].
Qed.
Lemma filter_label (rows : list (label * list cell)) l row : NoDup (map fst rows) -> In (l, row) rows ->
  filter (fun r => label_eqb (fst r) l) rows = [(l, row)].
Proof.
  induction rows as [|[k r] rows IH]; cbn; [tauto|]. intros D I. inversion D; subst.
  assert (E : forall rr, ~ In l (map fst rr) -> filter (fun r => label_eqb (fst r) l) rr = @nil (label * list cell)).
  { induction rr as [|[j q] rr IHR]; cbn; [reflexivity|]. intros N. destruct (label_eqb_spec j l); [subst; tauto|apply IHR; tauto]. }
  destruct I as [Q|I].
  - inversion Q; subst. destruct (label_eqb_spec l l); [|congruence]. now rewrite E.
  - destruct (label_eqb_spec k l) as [-> |]; [exfalso; apply H1; apply (in_map fst) in I; exact I|]. now apply IH.
Qed.
Lemma loc_row tab l row c : NoDup (map fst (t_rows tab)) -> In (l, row) (t_rows tab) ->
  loc tab l c = match cell_at (t_cols tab) row c with Some x => Ok x | None => Err KeyError end.
Proof. intros D I. unfold loc. now rewrite (filter_label _ _ _ D I). Qed.
Lemma loc_entry tab l row c x : NoDup (map fst (t_rows tab)) -> In (l, row) (t_rows tab) -> loc tab l c = Ok x -> entry tab row c x.
Proof.
  intros D I. rewrite (loc_row _ _ _ _ D I). destruct (cell_at (t_cols tab) row c) eqn:E; [|discriminate].
  intros Q. injection Q as ->. now apply cell_entry.
Qed.
Lemma loc_all_entries tab l row cs : NoDup (map fst (t_rows tab)) -> In (l, row) (t_rows tab) ->
  forall xs, loc_all tab l cs = Ok xs -> entries tab row cs xs.
Proof.
  intros D I. induction cs as [|c cs IH]; cbn; intros xs Q; [injection Q as <-; constructor|].
  apply bind_ok in Q as (x & X & Q). apply bind_ok in Q as (ys & Y & Q). injection Q as <-.
  constructor; [eapply loc_entry; eauto|now apply IH].
Qed.
Lemma h_of_from tab l row col d h : NoDup (map fst (t_rows tab)) -> In (l, row) (t_rows tab) ->
  h_of tab l col d = Ok h -> height_from tab row col d h.
Proof.
  intros D I. unfold h_of, height_from. destruct col as [c|]; [|intros Q; now injection Q as <-].
  destruct (existsb (String.eqb c) (t_cols tab)) eqn:E.
  - intros Q. apply bind_ok in Q as (x & X & Q). injection Q as <-. left.
    apply existsb_exists in E as (k & K & S). apply String.eqb_eq in S. subst k. split; [exact K|].
    exists x. split; [eapply loc_entry; eauto|reflexivity].
  - intros Q. injection Q as <-. right. split; [|reflexivity]. intros J.
    assert (existsb (String.eqb c) (t_cols tab) = true) by (apply existsb_exists; exists c; split; [exact J|apply String.eqb_refl]). congruence.
Qed.
Lemma add_row_fits o tab l row farm f' : NoDup (map fst (t_rows tab)) -> In (l, row) (t_rows tab) ->
  add_row_csv o tab l farm = Ok f' -> exists t, f' = farm ++ [t] /\ forall k m, (m + k)%nat = length farm -> fits o tab m k (l, row) t.
Proof.
  intros D I Q. unfold add_row_csv in Q.
  apply bind_ok in Q as (nm & NM & Q). apply bind_ok in Q as (x & X & Q). apply bind_ok in Q as (y & Y & Q).
  apply bind_ok in Q as (ti & TI & Q). apply bind_ok in Q as (a & A & Q). apply bind_ok in Q as (t & T & Q).
  apply bind_ok in Q as (b & B & Q). apply bind_ok in Q as (H & HH & Q). apply bind_ok in Q as (Dm & DD & Q).
  injection Q as <-. unfold add. eexists. split; [reflexivity|]. intros k m MK.
  unfold fits. cbn [fst snd t_x t_y t_name t_index t_H t_D t_models].
  split; [eapply loc_entry; eauto|]. split; [eapply loc_entry; eauto|]. split; [|split; [|split; [|split]]].
  - destruct (col_name o); [eapply loc_entry; eauto|]. unfold base_label in NM. destruct l as [z|]; [|discriminate]. injection NM as <-. eauto.
  - destruct (ids o) as [il|].
    + apply bind_ok in TI as (k0 & K0 & TI). injection TI as <-. unfold id_of in K0. destruct l as [z|]; [|discriminate]. exists z. split; [reflexivity|].
      destruct (pynth il z); [|discriminate]. now injection K0 as <-.
    + destruct (col_id o) as [c|].
      * apply bind_ok in TI as (k0 & K0 & TI). injection TI as <-. eapply loc_entry; eauto.
      * injection TI as <-. now rewrite MK.
  - eapply h_of_from; eauto.
  - eapply h_of_from; eauto.
  - exists a, t, b. split; [reflexivity|]. unfold opt_cells in A, B. split; [|split].
    + destruct (cols_pre o); [eapply loc_all_entries; eauto|now injection A as <-].
    + destruct (col_type o); [|now injection T as <-]. apply bind_ok in T as (k0 & K0 & T). injection T as <-. exists k0. split; [eapply loc_entry; eauto|reflexivity].
    + destruct (cols_post o); [eapply loc_all_entries; eauto|now injection B as <-].
Qed.
Lemma add_rows_fits o tab : NoDup (map fst (t_rows tab)) -> forall rs farm f', incl rs (t_rows tab) ->
  add_rows o tab (map fst rs) farm = Ok f' ->
  exists ts, f' = farm ++ ts /\ length ts = length rs /\
    forall m k0, (m + k0)%nat = length farm -> forall k lr t, nth_error rs k = Some lr -> nth_error ts k = Some t -> fits o tab m (k0 + k) lr t.
Proof.
  intros D. induction rs as [|[l row] rs IH]; cbn [map add_rows fst]; intros farm f' I Q.
  - injection Q as <-. exists []. rewrite app_nil_r. split; [reflexivity|]. split; [reflexivity|]. intros m k0 M [|k] lr t; discriminate.
  - apply bind_ok in Q as (f & F & Q). destruct (add_row_fits o tab l row farm f D (I _ (or_introl eq_refl)) F) as (t & -> & T).
    destruct (IH (farm ++ [t]) f' (fun r R => I r (or_intror R)) Q) as (ts & -> & L & P).
    exists (t :: ts). split; [now rewrite <- app_assoc|]. split; [cbn; lia|]. intros m k0 M [|k] lr u A B; cbn in A, B.
    + injection A as <-. injection B as <-. rewrite Nat.add_0_r. now apply T.
    + replace (k0 + S k)%nat with (S k0 + k)%nat by lia. eapply P; eauto. rewrite app_length. cbn. lia.
Qed.
Lemma loc_ok tab l row c : NoDup (map fst (t_rows tab)) -> rectangular tab -> In (l, row) (t_rows tab) -> In c (t_cols tab) -> exists x, loc tab l c = Ok x.
Proof.
  intros D R I C. rewrite (loc_row _ _ _ _ D I). destruct (cell_total (t_cols tab) row c C (R _ I)) as (x & ->). eauto.
Qed.
Lemma loc_all_ok tab l row cs : NoDup (map fst (t_rows tab)) -> rectangular tab -> In (l, row) (t_rows tab) -> incl cs (t_cols tab) -> exists x, loc_all tab l cs = Ok x.
Proof.
  intros D R I. induction cs as [|c cs IH]; intros C; cbn; [eauto|].
  destruct (loc_ok tab l row c D R I (C _ (or_introl eq_refl))) as (x & ->). destruct IH as (xs & ->); [intros z Z; apply C; now right|]. cbn. eauto.
Qed.
Lemma h_of_ok tab l row c d : NoDup (map fst (t_rows tab)) -> rectangular tab -> In (l, row) (t_rows tab) -> exists h, h_of tab l c d = Ok h.
Proof.
  intros D R I. unfold h_of. destruct c as [c|]; [|eauto]. destruct (existsb _ _) eqn:E; [|eauto].
  apply existsb_exists in E as (k & K & S). apply String.eqb_eq in S. subst k. destruct (loc_ok tab l row c D R I K) as (x & ->). cbn. eauto.
Qed.
Lemma add_row_ok o tab l row farm : NoDup (map fst (t_rows tab)) -> rectangular tab -> In (l, row) (t_rows tab) ->
  incl (wanted o) (t_cols tab) -> (col_name o = None -> exists z, l = LI z) ->
  (forall ks, ids o = Some ks -> exists z v, l = LI z /\ pynth ks z = Some v) ->
  exists f', add_row_csv o tab l farm = Ok f'.
Proof.
  intros D R I W N K. unfold wanted in W.
  assert (L : forall c, In c (wanted o) -> exists x, loc tab l c = Ok x) by (intros c C; eapply loc_ok; eauto).
  unfold wanted in L. unfold add_row_csv.
  assert (A1 : exists nm, match col_name o with None => base_label o l | Some c => loc tab l c end = Ok nm).
  { destruct (col_name o) as [c|]; [apply L; cbn; tauto|]. destruct (N eq_refl) as (z & ->). cbn. eauto. }
  destruct A1 as (nm & ->). cbn [bind].
  destruct (L (col_x o)) as (x & ->); [now left|]. cbn [bind]. destruct (L (col_y o)) as (y & ->); [right; now left|]. cbn [bind].
  assert (A2 : exists ti, match ids o, col_id o with Some l0, _ => do k <- id_of l0 l; Ok (Some k) | None, Some c => do k <- loc tab l c; Ok (Some k) | None, None => Ok None end = Ok ti).
  { destruct (ids o) as [ks|]; [destruct (K ks eq_refl) as (z & v & -> & P); cbn; rewrite P; cbn; eauto|]. destruct (col_id o) as [c|]; [|eauto]. destruct (L c) as (k & ->); [right; right; apply in_or_app; right; apply in_or_app; left; now left|]. cbn. eauto. }
  destruct A2 as (ti & ->). cbn [bind].
  assert (A3 : exists a, opt_cells tab l (cols_pre o) = Ok a).
  { unfold opt_cells. destruct (cols_pre o) as [cs|]; [|eauto]. eapply loc_all_ok; eauto. intros c C. apply W. right; right; do 2 (apply in_or_app; right). apply in_or_app. now left. }
  destruct A3 as (a & ->). cbn [bind].
  assert (A4 : exists t, match col_type o with None => Ok [] | Some c => do k <- loc tab l c; Ok [k] end = Ok t).
  { destruct (col_type o) as [c|]; [|eauto]. destruct (L c) as (k & ->); [right; right; do 3 (apply in_or_app; right); apply in_or_app; left; now left|]. cbn. eauto. }
  destruct A4 as (t & ->). cbn [bind].
  assert (A5 : exists b, opt_cells tab l (cols_post o) = Ok b).
  { unfold opt_cells. destruct (cols_post o) as [cs|]; [|eauto]. eapply loc_all_ok; eauto. intros c C. apply W. right; right; do 4 (apply in_or_app; right). exact C. }
  destruct A5 as (b & ->). cbn [bind].
  destruct (h_of_ok tab l row (col_H o) (p_H o) D R I) as (h & ->). cbn [bind]. destruct (h_of_ok tab l row (col_D o) (p_D o) D R I) as (d & ->). cbn [bind]. eauto.
Qed.

(** ** JSON *)
Lemma jput_keys {A} k (v : A) d : forall j, In j (map fst (jput k v d)) <-> j = k \/ In j (map fst d).
Proof.
  induction d as [|[w x] d IH]; intros j; cbn; [firstorder congruence|].
  destruct (String.eqb_spec k w) as [-> |N]; cbn; [firstorder congruence|]. rewrite IH. firstorder congruence.
Qed.
Lemma jput_nodup {A} k (v : A) d : NoDup (map fst d) -> NoDup (map fst (jput k v d)).
Proof.
  induction d as [|[w x] d IH]; cbn; intros D; [repeat constructor; intros []|]. inversion D; subst.
  destruct (String.eqb_spec k w) as [-> |N]; cbn; constructor; auto. rewrite jput_keys. intros [|]; [congruence|contradiction].
Qed.
Lemma jput_new {A} k (v : A) d : ~ In k (map fst d) -> jput k v d = d ++ [(k, v)].
Proof.
  induction d as [|[w x] d IH]; cbn; intros N; [reflexivity|]. destruct (String.eqb_spec k w); [subst; tauto|]. now rewrite IH by tauto.
Qed.
Definition jentry (t : turb) : jturb := mkjturb (Some (t_index t)) (t_x t) (t_y t) None None None.
Lemma write_json_distinct farm : NoDup (map fst farm) -> write_json farm = map (fun nt => (fst nt, jentry (snd nt))) farm.
Proof.
  unfold write_json. intros D.
  assert (G : forall l acc, NoDup (map fst acc ++ map fst l) ->
    fold_left (fun d nt => jput (fst nt) (mkjturb (Some (t_index (snd nt))) (t_x (snd nt)) (t_y (snd nt)) None None None) d) l acc = acc ++ map (fun nt => (fst nt, jentry (snd nt))) l).
  { induction l as [|[n t] l IH]; intros acc H; cbn [fold_left map]; [now rewrite app_nil_r|].
    rewrite jput_new. 2:{ cbn [map fst] in H. apply NoDup_remove_2 in H. intros I. apply H. apply in_or_app. now left. }
    rewrite IH. { cbn. now rewrite <- app_assoc. } rewrite map_app. cbn [map fst] in *. rewrite <- app_assoc. exact H. }
  exact (G farm [] D).
Qed.
Lemma write_json_keys farm : NoDup (map fst (write_json farm)) /\ forall j, In j (map fst (write_json farm)) <-> In j (map fst farm).
Proof.
  unfold write_json.
  assert (G : forall l acc, NoDup (map fst acc) -> let r := fold_left (fun d nt => jput (fst nt) (mkjturb (Some (t_index (snd nt))) (t_x (snd nt)) (t_y (snd nt)) None None None) d) l acc in
    NoDup (map fst r) /\ forall j, In j (map fst r) <-> In j (map fst acc) \/ In j (map fst l)).
  { induction l as [|[n t] l IH]; intros acc H; cbn [fold_left map fst]; [split; [exact H|cbn; tauto]|].
    destruct (IH (jput n (mkjturb (Some (t_index t)) (t_x t) (t_y t) None None None) acc)) as [A B]; [now apply jput_nodup|].
    split; [exact A|]. intros j. cbn [fst snd] in B. rewrite B, jput_keys. cbn. firstorder congruence. }
  destruct (G farm [] (NoDup_nil _)) as [A B]. split; [exact A|]. intros j. rewrite B. cbn. tauto.
Qed.

(** ** Random layouts *)
Lemma too_close_false d xy i : too_close d xy i = false -> forall j, (j < length xy)%nat -> j <> i -> d <= dist (nth i xy (0, 0)) (nth j xy (0, 0)).
Proof.
  unfold too_close. intros E j J N. destruct (Rle_lt_dec d (dist (nth i xy (0, 0)) (nth j xy (0, 0)))) as [|L]; [assumption|exfalso].
  assert (T : existsb (fun j => negb (j =? i)%nat && Rltb (dist (nth i xy (0, 0)) (nth j xy (0, 0))) d) (seq 0 (length xy)) = true); [|congruence].
  apply existsb_exists. exists j. split; [apply in_seq; lia|]. apply andb_true_intro. split; [|now apply Rltb_true].
  destruct (Nat.eqb_spec j i); [contradiction|reflexivity].
Qed.
Lemma none_close d xy : sel_close d xy = [] -> apart d xy.
Proof.
  intros E i j p q P Q N. assert (I : (i < length xy)%nat) by (apply nth_error_Some; congruence). assert (J : (j < length xy)%nat) by (apply nth_error_Some; congruence).
  apply (nth_error_nth _ _ (0, 0)) in P, Q. rewrite <- P, <- Q. apply too_close_false; auto.
  destruct (too_close d xy i) eqn:T; [|reflexivity]. exfalso.
  assert (X : In i (sel_close d xy)) by (apply filter_In; split; [apply in_seq; lia|exact T]). rewrite E in X. exact X.
Qed.
Lemma regenerate_spec fuel draw gr d : forall xmax k xy r, regenerate fuel draw gr d xmax k xy = Some r -> apart d r /\ length r = length xy.
Proof.
  induction fuel as [|f IH]; cbn; intros xmax k xy r Q; [discriminate|]. destruct (sel_close d xy) as [|s sel] eqn:E.
  - injection Q as <-. split; [now apply none_close|reflexivity].
  - apply IH in Q as [A L]. split; [exact A|]. rewrite L. unfold replace_sel. now rewrite map_length, seq_length.
Qed.
Lemma recentre_apart d c xy : apart d xy -> apart d (recentre c xy).
Proof.
  intros A i j p q P Q N. unfold recentre in P, Q. unfold point in *. cbv zeta in P, Q. rewrite nth_error_map in P, Q.
  destruct (nth_error xy i) as [p0|] eqn:P0; [|discriminate P]. destruct (nth_error xy j) as [q0|] eqn:Q0; [|discriminate Q].
  cbn in P, Q. injection P as <-. injection Q as <-. specialize (A i j p0 q0 P0 Q0 N). unfold dist in *. cbn [fst snd].
  set (mx := mean (map fst xy)). set (my := mean (map snd xy)).
  replace (fst p0 - mx + fst c - (fst q0 - mx + fst c)) with (fst p0 - fst q0) by ring.
  replace (snd p0 - my + snd c - (snd q0 - my + snd c)) with (snd p0 - snd q0) by ring. exact A.
Qed.
Lemma rsum_shift (f : point -> R) a l : rsum (map (fun p => f p + a) l) = rsum (map f l) + INR (length l) * a.
Proof. induction l as [|p l IH]; [cbn; ring|]. cbn [map length]. rewrite S_INR; cbn [rsum fold_right] in *; rewrite IH. ring. Qed.
Lemma mean_shift (f : point -> R) c l : l <> [] -> mean (map (fun p => f p - mean (map f l) + c) l) = c.
Proof.
  intros N. unfold mean at 1. rewrite map_length.
  rewrite (map_ext (fun p => f p - mean (map f l) + c) (fun p => f p + (c - mean (map f l)))) by (intros; ring).
  rewrite rsum_shift. unfold mean. rewrite map_length.
  assert (0 < INR (length l)) by (apply lt_0_INR; destruct l; [congruence|cbn; lia]). field. lra.
Qed.
Lemma round4_err x : Rabs (round4 x - x) <= 1 / 20000.
Proof.
  unfold round4. pose proof (Znearest_half (fun t => negb (Z.even t)) (x * 10000)) as H.
  set (z := IZR (ZnearestE (x * 10000))) in *. apply Rabs_le_inv in H. apply Rabs_le. lra.
Qed.
