(** C191-C194: wind farm layouts in tables and files, and random layouts. *)
From Coq Require Import String.
From Verif Require Import RBase LayoutIO_Model LayoutIO_Spec LayoutIO_Proofs.
Local Open Scope R_scope.
Local Open Scope list_scope.

(** C191: one turbine for each row of the table, in the order of the rows, with the entries of that
    row; for tables with distinct row labels. *)
Theorem C191_rows_partial : forall o tab farm f', NoDup (map fst (t_rows tab)) ->
  add_csv o tab farm = Ok f' ->
  exists ts, f' = farm ++ ts /\ length ts = length (t_rows tab) /\
    forall k lr t, nth_error (t_rows tab) k = Some lr -> nth_error ts k = Some t -> fits o tab (length farm) k lr t.
Proof.
  intros o tab farm f' D Q. destruct (add_rows_fits o tab D (t_rows tab) farm f' (fun r R => R) Q) as (ts & A & B & C).
  exists ts. split; [exact A|]. split; [exact B|]. intros k lr t. apply (C (length farm) 0%nat); lia.
Qed.
(** Every table that has the wanted columns is accepted. *)
Theorem C191_accepted_partial : forall o tab farm, NoDup (map fst (t_rows tab)) -> rectangular tab ->
  incl (wanted o) (t_cols tab) -> (forall l, In l (map fst (t_rows tab)) -> (col_name o = None -> exists z, l = LI z) /\
    forall ks, ids o = Some ks -> exists z v, l = LI z /\ pynth ks z = Some v) ->
  exists f', add_csv o tab farm = Ok f'.
Proof.
  intros o tab farm D R W L. unfold add_csv.
  assert (G : forall rs farm, incl rs (t_rows tab) -> exists f', add_rows o tab (map fst rs) farm = Ok f').
  { induction rs as [|[l row] rs IH]; intros fm I; cbn [map add_rows fst]; [eauto|].
    assert (J : In (l, row) (t_rows tab)) by (apply I; now left). destruct (L l (in_map fst _ _ J)) as [L1 L2].
    destruct (add_row_ok o tab l row fm D R J W L1 L2) as (f & ->). cbn [bind]. apply IH. intros r RR. apply I. now right. }
  apply G. apply incl_refl.
Qed.
(** A label that occurs twice, as in concatenated tables, is an error. *)
Theorem C191_duplicates_refuted : forall o tab farm l r1 r2 a b c, t_rows tab = a ++ (l, r1) :: b ++ (l, r2) :: c ->
  forall f', add_csv o tab farm <> Ok f'.
Proof.
  intros o tab farm l r1 r2 a b c E f' Q.
  assert (X : forall c0 x, loc tab l c0 <> Ok x).
  { intros c0 x. unfold loc. rewrite E, filter_app. cbn [filter fst]. destruct (label_eqb_spec l l); [|congruence].
    rewrite filter_app. cbn [filter fst]. destruct (label_eqb_spec l l); [|congruence].
    destruct (filter _ a) as [|? [|? ?]]; cbn; [|discriminate|discriminate]. destruct (filter _ b); discriminate. }
  unfold add_csv in Q. revert farm Q. assert (I : In l (map fst (t_rows tab))) by (rewrite E, map_app; apply in_or_app; right; now left).
  induction (map fst (t_rows tab)) as [|l0 ls IH]; intros farm Q; [destruct I|]. cbn in Q. apply bind_ok in Q as (f & F & Q).
  destruct I as [-> | I]; [|now apply (IH I f)]. unfold add_row_csv in F. apply bind_ok in F as (nm & _ & F). apply bind_ok in F as (x & F & _). now apply X in F.
Qed.
(** turbine_ids is read at the row's label, not in the order of the rows. *)
Theorem C191_ids_refuted : forall x0 y0 x1 y1 a b, a <> b ->
  let o := mkopts None "x" "y" None None None None None None "T" (Some [a; b]) false [] HNone HNone in
  let tab := mktable ["x"; "y"]%string [(LI 1, [CNum x0; CNum y0]); (LI 0, [CNum x1; CNum y1])] in
  exists t u, add_csv o tab [] = Ok [t; u] /\ t_x t = CNum x0 /\ t_index t = CNum (IZR b) /\ t_index u = CNum (IZR a).
Proof. intros. eexists _, _. cbv -[IZR]. repeat split. Qed.
(** An empty cell is not replaced by the turbine type's value: the height is NaN then. *)
Theorem C191_empty_refuted : forall o tab farm f' c, NoDup (map fst (t_rows tab)) -> col_H o = Some c -> In c (t_cols tab) ->
  add_csv o tab farm = Ok f' -> forall k lr t, nth_error (t_rows tab) k = Some lr -> entry tab (snd lr) c CNan ->
  nth_error f' (length farm + k) = Some t -> t_H t = HNan.
Proof.
  intros o tab farm f' c D C IC Q k lr t K E T. destruct (C191_rows_partial o tab farm f' D Q) as (ts & -> & L & F).
  rewrite nth_error_app2 in T by lia. replace (length farm + k - length farm)%nat with k in T by lia.
  destruct (F k lr t K T) as (_ & _ & _ & _ & H & _). rewrite C in H. cbn in H. destruct H as [(_ & x & X & ->)|(N & _)]; [|contradiction].
  destruct E as (i & A & B & M), X as (j & A' & B' & M').
  destruct (Nat.lt_trichotomy i j) as [O|[O|O]]; [now apply M' in O| |now apply M in O]. subst j. rewrite B in B'. now injection B' as <-.
Qed.
Print Assumptions C191_rows_partial.
Print Assumptions C191_accepted_partial.
Print Assumptions C191_duplicates_refuted.
Print Assumptions C191_ids_refuted.
Print Assumptions C191_empty_refuted.
Example C191_witness :
  let o := mkopts (Some "id"%string) "x" "y" (Some "h"%string) None None None (Some "type"%string) None "T" None false [CStr "kTI"] HNone (HVal 120) in
  let tab := mktable ["id"; "x"; "y"; "type"; "h"]%string
    [(LI 4, [CStr "a"; CNum 1; CNum 2; CStr "NREL"; CNum 90]); (LI 2, [CStr "b"; CNum 3; CNum 4; CStr "DTU"; CNan])] in
  (NoDup (map fst (t_rows tab)) /\ rectangular tab /\ incl (wanted o) (t_cols tab)) /\
  add_csv o tab [] = Ok [mkturb (CStr "a") (CNum (INR 0)) (CNum 1) (CNum 2) (HVal 90) (HVal 120) [CStr "NREL"; CStr "kTI"];
                         mkturb (CStr "b") (CNum (INR 1)) (CNum 3) (CNum 4) HNan (HVal 120) [CStr "DTU"; CStr "kTI"]].
Proof.
  split; [|reflexivity]. split; [|split].
  - repeat constructor; cbn; intuition discriminate.
  - intros r [<-|[<-|[]]]; reflexivity.
  - intros c C. cbn in *. tauto.
Qed.

(** C192: reading a csv file that was written by the layout output. *)
Definition file_opts (ms : list cell) : opts := mkopts (Some "name"%string) "x" "y" (Some "h"%string) (Some "D"%string) None None None None "T" None false ms HNone HNone.
(** the same number up to half of the fourth decimal; NaN and text unchanged *)
Definition near (a b : cell) : Prop := match a with CNum x => exists y, b = CNum y /\ Rabs (y - x) <= 1 / 20000 | _ => b = a end.
Lemma round_near c : near c (round_cell c).
Proof. destruct c; cbn; eauto using round4_err. Qed.
Lemma entry_cell tab row c x : entry tab row c x -> cell_at (t_cols tab) row c = Some x.
Proof.
  intros (k & A & B & M). revert row k A B M. induction (t_cols tab) as [|n cols IH]; intros row k A B M; [destruct k; discriminate|].
  destruct k as [|k].
  - cbn in A. injection A as ->. destruct row as [|y row]; [discriminate|]. cbn in *. injection B as ->. now rewrite String.eqb_refl.
  - destruct row as [|y row]; [discriminate|]. cbn in A, B |- *. destruct (String.eqb_spec n c) as [-> |N]; [exfalso; apply (M 0%nat); [lia|reflexivity]|].
    eapply IH; eauto. intros j J. apply (M (S j)). lia.
Qed.
Lemma file_rows text farm k t : nth_error farm k = Some t ->
  nth_error (t_rows (read_csv text (write_csv farm))) k =
    Some (LI (Z.of_nat k), [CNum (INR k); text (t_name t); round_cell (t_x t); round_cell (t_y t); round_cell (h_cell (t_H t)); h_cell (t_D t)]).
Proof.
  intros T. unfold read_csv, write_csv. cbn [t_rows]. rewrite !nth_error_map.
  assert (L : (k < length farm)%nat) by (apply nth_error_Some; congruence).
  assert (E : nth_error (combine (seq 0 (length farm)) farm) k = Some (k, t)).
  { assert (G : forall l a k0 t0, nth_error l k0 = Some t0 -> nth_error (combine (seq a (length l)) l) k0 = Some ((a + k0)%nat, t0 : turb)).
    { induction l as [|x l IH]; intros a [|k0] t0 Q; try discriminate; cbn in *; [injection Q as ->; now rewrite Nat.add_0_r|].
      rewrite (IH (S a) k0 t0 Q). do 2 f_equal. lia. }
    exact (G farm 0%nat k t T). }
  rewrite E. reflexivity.
Qed.
Lemma file_shape text farm : length (t_rows (read_csv text (write_csv farm))) = length farm /\
  NoDup (map fst (t_rows (read_csv text (write_csv farm)))) /\ rectangular (read_csv text (write_csv farm)).
Proof.
  unfold read_csv, write_csv. cbn [t_rows]. assert (L : length (combine (seq 0 (length farm)) farm) = length farm) by (rewrite combine_length, seq_length; lia).
  split; [now rewrite !map_length|]. split.
  - rewrite !map_map. cbn [fst]. rewrite <- (map_map fst (fun k => LI (Z.of_nat k))).
    assert (E : map fst (combine (seq 0 (length farm)) farm) = seq 0 (length farm)).
    { generalize 0%nat. induction farm as [|t farm IH]; intros a; [reflexivity|]. cbn. f_equal. apply IH. rewrite combine_length, seq_length. lia. }
    rewrite E. apply FinFun.Injective_map_NoDup; [|apply seq_NoDup]. intros i j Q. injection Q as Q. lia.
  - intros r I. cbn [t_rows] in I. apply in_map_iff in I as (x & <- & I). apply in_map_iff in I as (y & <- & I). reflexivity.
Qed.
Theorem C192_read_back_partial : forall text farm ms, exists farm',
  add_csv (file_opts ms) (read_csv text (write_csv farm)) [] = Ok farm' /\ length farm' = length farm /\
  forall k t t', nth_error farm k = Some t -> nth_error farm' k = Some t' ->
    t_name t' = text (t_name t) /\ near (t_x t) (t_x t') /\ near (t_y t) (t_y t') /\
    t_index t' = CNum (INR k) /\ t_models t' = ms /\
    (forall h, t_H t = HVal h -> exists h', t_H t' = HVal h' /\ Rabs (h' - h) <= 1 / 20000) /\
    (forall d, t_D t = HVal d -> t_D t' = HVal d).
Proof.
  intros text farm ms. destruct (file_shape text farm) as (L & D & R). set (tab := read_csv text (write_csv farm)) in *.
  destruct (C191_accepted_partial (file_opts ms) tab [] D R) as (f' & F).
  { intros c C. cbn in C |- *. tauto. }
  { intros l _. split; [discriminate|]. intros ks Q; discriminate. }
  exists f'. split; [exact F|]. destruct (C191_rows_partial _ _ _ _ D F) as (ts & -> & LT & P). cbn [app] in *. split; [lia|].
  intros k t t' T T'. pose proof (file_rows text farm k t T) as K. specialize (P k _ t' K T').
  destruct P as (PX & PY & PN & PI & PH & PD & a & ty & b & M & MA & MT & MB). cbn [snd fst file_opts col_x col_y col_name ids col_id col_H col_D cols_pre col_type cols_post p_models] in *.
  apply entry_cell in PX, PY, PN. cbn in PX, PY, PN. injection PX as <-. injection PY as <-. injection PN as <-.
  subst a ty b. cbn in M. rewrite app_nil_r in M.
  split; [reflexivity|]. split; [apply round_near|]. split; [apply round_near|]. split; [exact PI|]. split; [exact M|].
  destruct PH as [(_ & x & E & H)|(N & _)]; [|exfalso; apply N; cbn; tauto]. destruct PD as [(_ & y & E' & H')|(N & _)]; [|exfalso; apply N; cbn; tauto].
  apply entry_cell in E, E'. cbn in E, E'. injection E as <-. injection E' as <-.
  split.
  - intros h Q. rewrite Q in H. cbn in H. exists (round4 h). split; [exact H|apply round4_err].
  - intros d Q. rewrite Q in H'. exact H'.
Qed.
(** Heights and diameters that a turbine takes from its type come back as NaN. *)
Theorem C192_unset_refuted : forall text farm ms farm' k t t',
  add_csv (file_opts ms) (read_csv text (write_csv farm)) [] = Ok farm' ->
  nth_error farm k = Some t -> nth_error farm' k = Some t' ->
  (t_H t = HNone -> t_H t' = HNan) /\ (t_D t = HNone -> t_D t' = HNan).
Proof.
  intros text farm ms farm' k t t' F T T'. destruct (file_shape text farm) as (L & D & R). set (tab := read_csv text (write_csv farm)) in *.
  destruct (C191_rows_partial _ _ _ _ D F) as (ts & -> & LT & P). cbn [app] in *.
  pose proof (file_rows text farm k t T) as K. specialize (P k _ t' K T').
  destruct P as (_ & _ & _ & _ & PH & PD & _). cbn [snd fst file_opts col_H col_D] in *.
  destruct PH as [(_ & x & E & H)|(N & _)]; [|exfalso; apply N; cbn; tauto]. destruct PD as [(_ & y & E' & H')|(N & _)]; [|exfalso; apply N; cbn; tauto].
  apply entry_cell in E, E'. cbn in E, E'. injection E as <-. injection E' as <-.
  split; intros Q; rewrite Q in *; assumption.
Qed.
Print Assumptions C192_read_back_partial.
Print Assumptions C192_unset_refuted.
Example C192_witness : exists farm', add_csv (file_opts [CStr "NREL"]) (read_csv (fun c => c) (write_csv
    [mkturb (CStr "A") (CNum 7) (CNum 1) (CNum 2) (HVal 90) (HVal 120) []; mkturb (CStr "B") (CNum 8) (CNum 3) (CNum 4) HNone HNone []])) [] = Ok farm' /\
  map t_name farm' = [CStr "A"; CStr "B"] /\ map t_index farm' = [CNum (INR 0); CNum (INR 1)] /\ map t_D farm' = [HVal 120; HNan].
Proof. eexists. split; [reflexivity|]. repeat split. Qed.

(** C193: reading a JSON file that was written by the layout output: names, numbers and positions. *)
Theorem C193_read_back_partial : forall pH pD pm set_name fname name farm old, NoDup (map fst farm) ->
  exists ts, add_json pH pD pm set_name [(fname, write_json farm)] name old = Ok (if set_name then fname else name, old ++ ts) /\
  length ts = length farm /\
  forall k n t t', nth_error farm k = Some (n, t) -> nth_error ts k = Some t' ->
    t_name t' = CStr n /\ t_index t' = t_index t /\ t_x t' = t_x t /\ t_y t' = t_y t /\
    t_models t' = match pm with Some m => m | None => [] end.
Proof.
  intros pH pD pm sn fname name farm old D. rewrite (write_json_distinct farm D). unfold add_json.
  set (ms := match pm with Some m => m | None => [] end).
  assert (G : forall l o, fold_left (add_json1 pH pD pm) (map (fun nt => (fst nt, jentry (snd nt))) l) o =
     o ++ map (fun nt => mkturb (CStr (fst nt)) (t_index (snd nt)) (t_x (snd nt)) (t_y (snd nt)) pH pD ms) l).
  { induction l as [|[n t] l IH]; intros o; cbn [map fold_left]; [now rewrite app_nil_r|]. rewrite IH. unfold add_json1, add. cbn. now rewrite <- app_assoc. }
  rewrite G. eexists. split; [reflexivity|]. split; [now rewrite map_length|]. intros k n t t' K T. rewrite nth_error_map, K in T. cbn in T. injection T as <-. repeat split.
Qed.
(** The file has no heights and diameters: those of the turbines are lost. *)
Theorem C193_heights_refuted : forall pH pD pm sn fname name farm old r, add_json pH pD pm sn [(fname, write_json farm)] name old = Ok r ->
  forall t, In t (snd r) -> In t old \/ (t_H t = pH /\ t_D t = pD).
Proof.
  intros pH pD pm sn fname name farm old r Q. cbn in Q. injection Q as <-. cbn [snd].
  assert (E : forall e, In e (write_json farm) -> j_H (snd e) = None /\ j_D (snd e) = None).
  { unfold write_json. assert (G : forall l acc, (forall e, In e acc -> j_H (snd e) = None /\ j_D (snd e) = None) ->
      forall e, In e (fold_left (fun d (nt : string * turb) => jput (fst nt) (mkjturb (Some (t_index (snd nt))) (t_x (snd nt)) (t_y (snd nt)) None None None) d) l acc) -> j_H (snd e) = None /\ j_D (snd e) = None).
    { induction l as [|nt l IH]; intros acc A; cbn [fold_left]; [exact A|]. apply IH. clear - A. induction acc as [|[w x] acc IH]; cbn; intros e; [intros [<-|[]]; now split|].
      destruct (String.eqb (fst nt) w); cbn; intros [<-|I]; try (now split); [apply A; now right|apply A; now left|]. apply IH; [intros z Z; apply A; now right|exact I]. }
    intros e. apply (G farm []). intros z []. }
  revert old. induction (write_json farm) as [|e l IH]; intros old t I; cbn [fold_left] in I; [now left|].
  apply IH in I as [I|I]; [|now right|intros x X; apply E; now right].
  unfold add_json1, add in I. apply in_app_iff in I as [I|[<-|[]]]; [now left|right]. destruct (E e (or_introl eq_refl)) as [-> ->]. split; reflexivity.
Qed.
(** Turbines with the same name are merged into one. *)
Theorem C193_names_refuted : forall pH pD pm sn fname name farm r, ~ NoDup (map fst farm) ->
  add_json pH pD pm sn [(fname, write_json farm)] name [] = Ok r -> (length (snd r) < length farm)%nat.
Proof.
  intros pH pD pm sn fname name farm r N Q. cbn in Q. injection Q as <-. cbn [snd].
  assert (L : forall l o, length (fold_left (add_json1 pH pD pm) l o) = (length o + length l)%nat).
  { induction l as [|e l IH]; intros o; cbn [fold_left]; [cbn; lia|]. rewrite IH. unfold add_json1, add. rewrite app_length. cbn. lia. }
  rewrite L. cbn [length Nat.add]. destruct (write_json_keys farm) as [D K].
  destruct (Nat.lt_ge_cases (length (write_json farm)) (length farm)) as [|G]; [assumption|exfalso]. apply N.
  apply (NoDup_incl_NoDup (l := map fst (write_json farm))); [exact D|rewrite !map_length; exact G|intros j; apply K].
Qed.
(** Any JSON file: it must hold exactly one wind farm; the turbines follow in the file's order, their own
    heights and diameters win over the given parameters, their own models come before the given ones. *)
Theorem C193_file : forall pH pD pm set_name file name old,
  (length file <> 1%nat -> add_json pH pD pm set_name file name old = Err KeyError) /\
  (forall fname entries, file = [(fname, entries)] ->
     exists ts, add_json pH pD pm set_name file name old = Ok (if set_name then fname else name, old ++ ts) /\ length ts = length entries /\
     forall k n j t, nth_error entries k = Some (n, j) -> nth_error ts k = Some t ->
       t_name t = CStr n /\ t_x t = j_x j /\ t_y t = j_y j /\ (forall i, j_id j = Some i -> t_index t = i) /\
       (forall h, j_H j = Some h -> t_H t = h) /\ (j_H j = None -> t_H t = pH) /\
       (forall d, j_D j = Some d -> t_D t = d) /\ (j_D j = None -> t_D t = pD) /\
       (forall a b, j_models j = Some a -> pm = Some b -> t_models t = a ++ b) /\
       (forall a, j_models j = Some a -> pm = None -> t_models t = a) /\
       (forall b, j_models j = None -> pm = Some b -> t_models t = b) /\
       (j_models j = None -> pm = None -> t_models t = [])).
Proof.
  intros pH pD pm sn file name old. split.
  - intros L. destruct file as [|[f t] [|e r]]; try reflexivity. now cbn in L.
  - intros fname entries ->. unfold add_json.
    assert (G : forall l o, exists ts, fold_left (add_json1 pH pD pm) l o = o ++ ts /\ length ts = length l /\
      forall k e, nth_error l k = Some e -> exists o1 t, nth_error ts k = Some t /\ add_json1 pH pD pm o1 e = o1 ++ [t]).
    { induction l as [|e l IH]; intros o; cbn [fold_left]; [exists []; split; [now rewrite app_nil_r|split; [reflexivity|intros [|k] e; discriminate]]|].
      destruct (IH (add_json1 pH pD pm o e)) as (ts & -> & L & H). assert (X : exists t, add_json1 pH pD pm o e = o ++ [t]) by (unfold add_json1, add; eexists; reflexivity).
      destruct X as (t & E). exists (t :: ts). rewrite E, <- app_assoc. split; [reflexivity|]. split; [cbn; now rewrite L|].
      intros [|k] e'; cbn; [intros X; injection X as <-; exists o, t; now split|apply H]. }
    destruct (G entries old) as (ts & -> & L & H). exists ts. split; [reflexivity|]. split; [exact L|]. intros k n j t K T.
    destruct (H k _ K) as (o1 & t' & T' & E). rewrite T in T'. injection T' as <-. unfold add_json1, add in E. cbn [fst snd] in E. apply app_inv_head in E. injection E as <-. cbn.
    repeat split; intros; repeat match goal with Q : ?x = _ |- context [?x] => rewrite Q end; rewrite ?app_nil_r; reflexivity.
Qed.
Print Assumptions C193_file.
Print Assumptions C193_read_back_partial.
Print Assumptions C193_heights_refuted.
Print Assumptions C193_names_refuted.
Example C193_witness :
  let a := mkturb (CStr "A") (CNum 5) (CNum 1) (CNum 2) (HVal 90) HNone [] in let b := mkturb (CStr "B") (CNum 6) (CNum 3) (CNum 4) HNone HNone [] in
  add_json HNone HNone (Some [CStr "NREL"]) true [("F"%string, write_json [("A"%string, a); ("B"%string, b)])] "wind_farm" [] =
   Ok ("F"%string, [mkturb (CStr "A") (CNum 5) (CNum 1) (CNum 2) HNone HNone [CStr "NREL"]; mkturb (CStr "B") (CNum 6) (CNum 3) (CNum 4) HNone HNone [CStr "NREL"]]).
Proof. reflexivity. Qed.

(** C194: random layouts have the wanted number of turbines, minimal distance and centre, whatever the
    random numbers are. *)
Theorem C194_layout : forall G (r : rng G) g fuel n d c seed ps, random_positions r g fuel n d c seed = Some ps ->
  length ps = n /\ apart d ps /\ ((1 <= n)%nat -> mean (map fst ps) = fst c /\ mean (map snd ps) = snd c).
Proof.
  intros G r g fuel n d c seed ps Q. unfold random_positions in Q.
  match type of Q with option_map _ ?e = _ => destruct e as [xy|] eqn:E; [|discriminate] end. cbn in Q. injection Q as <-.
  apply regenerate_spec in E as [A L]. rewrite map_length, seq_length in L.
  split; [unfold recentre; now rewrite map_length|]. split; [now apply recentre_apart|]. intros N.
  assert (NE : xy <> []) by (intros ->; cbn in L; lia). unfold recentre. rewrite !map_map. cbn [fst snd]. split; apply (mean_shift _ _ xy NE).
Qed.
(** A seed makes the result independent of the generator's state, unless it is 0, which is ignored. *)
Theorem C194_seed_partial : forall G (r : rng G) g g' fuel n d c s, s <> 0%Z ->
  random_positions r g fuel n d c (Some s) = random_positions r g' fuel n d c (Some s).
Proof. intros G r g g' fuel n d c s S. unfold random_positions. destruct (Z.eqb_spec s 0); [contradiction|reflexivity]. Qed.
Theorem C194_seed_zero_refuted : forall G (r : rng G) g fuel n d c,
  random_positions r g fuel n d c (Some 0%Z) = random_positions r g fuel n d c None.
Proof. reflexivity. Qed.
Print Assumptions C194_layout.
Print Assumptions C194_seed_partial.
Print Assumptions C194_seed_zero_refuted.
Example C194_witness : exists r : rng bool, (exists p, random_positions r true 1 2 100 (5, 7) (Some 3%Z) = Some p) /\
  random_positions r true 1 2 100 (5, 7) (Some 0%Z) = None /\ sel_close 100 [(0, 0); (3, 4)] = [0%nat; 1%nat].
Proof.
  exists (mkrng bool (fun _ => false) (fun g _ i => if g then (0, 0) else (INR i, INR i))).
  assert (Q : sqrt (INR 2) * sqrt (INR 2) = 2) by (rewrite sqrt_sqrt; cbn; lra). split; [|split].
  - unfold random_positions. cbn [seeded unit_draw Z.eqb map seq regenerate]. set (s := sqrt (INR 2) * 100).
    assert (SS : s * s = 20000) by (unfold s; nra).
    assert (E : sel_close 100 [scale s (INR 0, INR 0); scale s (INR 1, INR 1)] = []); [|rewrite E; eexists; reflexivity].
    unfold sel_close, too_close, dist, scale. cbn [length seq existsb Nat.eqb negb andb nth fst snd filter INR].
    replace ((s * 0 - s * 1) * (s * 0 - s * 1) + (s * 0 - s * 1) * (s * 0 - s * 1)) with (200 * 200) by lra.
    replace ((s * 1 - s * 0) * (s * 1 - s * 0) + (s * 1 - s * 0) * (s * 1 - s * 0)) with (200 * 200) by lra.
    rewrite sqrt_square by lra. rewrite !(proj2 (Rltb_false 200 100)) by lra. reflexivity.
  - unfold random_positions. cbn [seeded unit_draw Z.eqb map seq regenerate]. set (s := sqrt (INR 2) * 100).
    assert (E : exists a l, sel_close 100 [scale s (0, 0); scale s (0, 0)] = a :: l); [|destruct E as (a & l & E); rewrite E; reflexivity].
    unfold sel_close, too_close, dist, scale. cbn [length seq existsb Nat.eqb negb andb nth fst snd filter].
    replace ((s * 0 - s * 0) * (s * 0 - s * 0) + (s * 0 - s * 0) * (s * 0 - s * 0)) with (0 * 0) by ring.
    rewrite sqrt_square by lra. rewrite !(proj2 (Rltb_true 0 100)) by lra. cbn. eauto.
  - unfold sel_close, too_close, dist. cbn [length seq existsb Nat.eqb negb andb nth fst snd filter].
    replace ((0 - 3) * (0 - 3) + (0 - 4) * (0 - 4)) with (5 * 5) by ring. replace ((3 - 0) * (3 - 0) + (4 - 0) * (4 - 0)) with (5 * 5) by ring.
    rewrite sqrt_square by lra. rewrite !(proj2 (Rltb_true 5 100)) by lra. reflexivity.
Qed.
