(** C195-C196: netCDF files and point calculations of the output package. *)
From Coq Require Import String.
From Flocq Require Import Core.
From Verif Require Import RBase NcOut_Model.
From Verif Require Combine_Model.
Local Open Scope R_scope.
Local Open Scope list_scope.

Lemma pow10_pos d : 0 < powerRZ 10 d.
Proof. apply powerRZ_lt. lra. Qed.
Lemma round_dec_err d x : Rabs (round_dec d x - x) <= / 2 / powerRZ 10 d.
Proof.
  unfold round_dec. pose proof (pow10_pos d) as P. set (p := powerRZ 10 d) in *.
  pose proof (Znearest_half (fun t => negb (Z.even t)) (x * p)) as H. set (z := IZR (ZnearestE (x * p))) in *.
  replace (z / p - x) with (- (x * p - z) / p) by (field; lra). unfold Rdiv. rewrite Rabs_mult, Rabs_Ropp.
  rewrite (Rabs_pos_eq (/ p)) by (left; now apply Rinv_0_lt_compat). apply Rmult_le_compat_r; [left; now apply Rinv_0_lt_compat|exact H].
Qed.
(** the values of a variable in a file: as they are, or numbers of d decimals that differ by at most
    half of the last one *)
Definition rounded (d : option Z) (x y : R) : Prop :=
  match d with None => y = x | Some d => (exists z : Z, y * powerRZ 10 d = IZR z) /\ Rabs (y - x) <= / 2 / powerRZ 10 d end.
Definition same_var (l : list (string * option Z)) (v w : nvar) : Prop :=
  n_name w = n_name v /\ n_kind w = n_kind v /\ Forall2 (rounded (digits l (n_name v))) (n_data v) (n_data w).
Lemma rounded_none (l : list R) : Forall2 (rounded None) l l.
Proof. induction l; constructor; [reflexivity|assumption]. Qed.
Lemma rounded_some d l : Forall2 (rounded (Some d)) l (map (round_dec d) l).
Proof.
  induction l as [|x l IH]; constructor; [|exact IH]. split; [|apply round_dec_err].
  exists (ZnearestE (x * powerRZ 10 d)). unfold round_dec. field. pose proof (pow10_pos d). lra.
Qed.
(** the result of both passes *)
Definition touched (b : bool) (l : list (string * option Z)) (v : nvar) : nvar :=
  if Bool.eqb (is_coord v) b then match digits l (n_name v) with Some d => mknvar (n_name v) (n_kind v) (map (round_dec d) (n_data v)) | None => v end else v.
Lemma pass_ok b l ds : forall ds', round_pass b l ds = (ds', false) -> ds' = map (touched b l) ds /\
  (b = true -> forall v, In v ds -> n_kind v = DimCoord -> digits l (n_name v) = None).
Proof.
  induction ds as [|v ds IH]; cbn [round_pass map]; intros ds' Q; [injection Q as <-; split; [reflexivity|intros _ v []]|].
  destruct (round_pass b l ds) as [r' e] eqn:E. unfold touched at 1. destruct (Bool.eqb (is_coord v) b) eqn:B.
  - destruct (digits l (n_name v)) as [d|] eqn:D.
    + destruct (n_kind v) eqn:K; try discriminate; injection Q as <- ->; destruct (IH r' eq_refl) as [-> H];
        (split; [reflexivity|]; intros Hb w [<-|I] W; [congruence|auto]).
    + injection Q as <- ->. destruct (IH r' eq_refl) as [-> H]. split; [reflexivity|]. intros Hb w [<-|I] W; auto.
  - injection Q as <- ->. destruct (IH r' eq_refl) as [-> H]. split; [reflexivity|]. intros Hb w [<-|I] W; [|auto].
    subst b. unfold is_coord in B. rewrite W in B. discriminate.
Qed.
Lemma pass_err b l ds : forall ds', round_pass b l ds = (ds', true) -> b = true /\ exists v, In v ds /\ n_kind v = DimCoord /\ digits l (n_name v) <> None.
Proof.
  induction ds as [|v ds IH]; cbn [round_pass]; intros ds' Q; [discriminate|].
  assert (G : forall r', round_pass b l ds = (r', true) -> b = true /\ exists w, In w (v :: ds) /\ n_kind w = DimCoord /\ digits l (n_name w) <> None).
  { intros r' E. destruct (IH r' E) as (B & w & W & X). split; [exact B|]. exists w. split; [now right|exact X]. }
  destruct (round_pass b l ds) as [r' e] eqn:E. destruct (Bool.eqb (is_coord v) b) eqn:B.
  - destruct (digits l (n_name v)) as [d|] eqn:D.
    + destruct (n_kind v) eqn:K.
      * injection Q as <- ->. eauto.
      * injection Q as <- ->. eauto.
      * split; [|exists v; split; [now left|]; split; [exact K|congruence]]. unfold is_coord in B. rewrite K in B. now destruct b.
    + injection Q as <- ->. eauto.
  - injection Q as <- ->. eauto.
Qed.
Lemma touched_twice l ds : map (touched false l) (map (touched true l) ds) =
  map (fun v => match digits l (n_name v) with Some d => mknvar (n_name v) (n_kind v) (map (round_dec d) (n_data v)) | None => v end) ds.
Proof.
  rewrite map_map. apply map_ext. intros v. unfold touched.
  destruct (Bool.eqb (is_coord v) true) eqn:B.
  - destruct (digits l (n_name v)) as [d|] eqn:D; unfold is_coord in *; cbn [n_kind n_name]; destruct (n_kind v); cbn in *; congruence.
  - replace (Bool.eqb (is_coord v) false) with true by (destruct (is_coord v); [discriminate|reflexivity]). reflexivity.
Qed.
Lemma write_nc_exact l ds :
  write_nc (Some l) ds = (snd (fst (write_nc (Some l) ds), fst (write_nc (Some l) ds)), snd (write_nc (Some l) ds)) /\
  ((exists v, In v ds /\ n_kind v = DimCoord /\ digits l (n_name v) <> None) -> snd (write_nc (Some l) ds) = Err ValueError) /\
  (~ (exists v, In v ds /\ n_kind v = DimCoord /\ digits l (n_name v) <> None) ->
     write_nc (Some l) ds = let r := map (fun v => match digits l (n_name v) with Some d => mknvar (n_name v) (n_kind v) (map (round_dec d) (n_data v)) | None => v end) ds in (r, Ok r)).
Proof.
  split; [now destruct (write_nc (Some l) ds)|]. unfold write_nc. destruct (round_pass true l ds) as [ds1 e1] eqn:E1. destruct e1.
  - split; [reflexivity|]. intros N. exfalso. apply N. now destruct (pass_err _ _ _ _ E1).
  - destruct (pass_ok _ _ _ _ E1) as [-> H]. destruct (round_pass false l (map (touched true l) ds)) as [ds2 e2] eqn:E2. destruct e2.
    + apply pass_err in E2 as [X _]. discriminate.
    + apply pass_ok in E2 as [-> _]. rewrite touched_twice. split; [|reflexivity].
      intros (v & V & K & D). exfalso. apply D. now apply H.
Qed.

(** C195: the file has all variables, with values rounded to their digits (and none if round=None). *)
Theorem C195_file : forall l ds ds' file, write_nc (Some l) ds = (ds', Ok file) -> Forall2 (same_var l) ds file.
Proof.
  intros l ds ds' file Q. destruct (write_nc_exact l ds) as (_ & A & B).
  assert (N : ~ (exists v, In v ds /\ n_kind v = DimCoord /\ digits l (n_name v) <> None)).
  { intros E. specialize (A E). rewrite Q in A. discriminate. }
  rewrite (B N) in Q. cbv zeta in Q. injection Q as _ <-. clear. induction ds as [|v ds IH]; constructor; [|exact IH].
  unfold same_var. destruct (digits l (n_name v)) as [d|] eqn:D; cbn; repeat split; [apply rounded_some|apply rounded_none].
Qed.
Theorem C195_unrounded : forall ds, write_nc None ds = (ds, Ok ds).
Proof. reflexivity. Qed.
(** Given digits, or none, hold in place of the default ones. *)
Theorem C195_given_digits : forall a b v d, ~ In v (map fst a) -> digits (a ++ (v, d) :: b) v = d.
Proof.
  intros a b v d N. unfold digits. enough (E : assoc v (a ++ (v, d) :: b) = Some d) by now rewrite E. induction a as [|[w x] a IH]; cbn.
  - now rewrite String.eqb_refl.
  - destruct (String.eqb_spec v w) as [->|]; [exfalso; apply N; now left|]. apply IH. intros I. apply N. now right.
Qed.
Print Assumptions C195_given_digits.
(** The digits that hold without instruction. *)
Theorem C195_digits : forall v d,
  (In (v, d) [("WS", 4); ("REWS", 4); ("REWS2", 4); ("REWS3", 4); ("WD", 3); ("TI", 6); ("RHO", 5); ("P", 3); ("CT", 6); ("T", 3); ("YLD", 3); ("CAP", 5)]%string%Z ->
     digits [] v = Some d /\ digits [] ("AMB_" ++ v) = Some d) /\ (In v ["EFF"]%string -> digits [] v = Some 5%Z) /\
  (In v ["state"; "turbine"; "X"; "Y"; "H"; "D"; "YAW"; "x"; "y"; "z"; "AMB_YAW"; "weight"]%string -> digits [] v = None).
Proof.
  intros v d. split; [|split].
  - intros I. cbn in I. repeat (destruct I as [I|I]; [injection I as <- <-; split; reflexivity|]). destruct I.
  - intros [<-|[]]. reflexivity.
  - intros I. cbn in I. repeat (destruct I as [I|I]; [subst v; reflexivity|]). destruct I.
Qed.
Lemma Forall2_self {A} (Q : A -> A -> Prop) l : Forall2 Q l l -> forall v, In v l -> Q v v.
Proof. induction l as [|a l IH]; intros F v; [intros []|]. inversion F; subst. intros [<-|I]; auto. Qed.
(** The caller's data set is changed: it is what the file contains. *)
Theorem C195_changed_refuted : forall l ds ds' file, write_nc (Some l) ds = (ds', Ok file) -> ds' = file /\
  forall v x d, In v ds -> In x (n_data v) -> digits l (n_name v) = Some d -> (forall z : Z, x * powerRZ 10 d <> IZR z) -> ds' <> ds.
Proof.
  intros l ds ds' file Q.
  assert (F : ds' = file). { unfold write_nc in Q. destruct (round_pass true l ds) as [d1 [|]]; [discriminate|]. destruct (round_pass false l d1) as [d2 [|]]; [discriminate|]. now injection Q as <- <-. }
  split; [exact F|]. intros v x d V X D N E. subst ds'. pose proof (C195_file _ _ _ _ Q) as G. rewrite E in G.
  destruct (Forall2_self _ _ G v V) as (_ & _ & S). rewrite D in S. destruct (Forall2_self _ _ S x X) as [[z Z] _]. exact (N z Z).
Qed.
(** So a table of the StateTurbineTable has other values if it is also written to a file. *)
Theorem C195_table_refuted : forall l ds r, get_dataset (Some (Some l)) ds = Ok r ->
  get_dataset None ds = Ok ds /\ Forall2 (same_var l) ds r.
Proof.
  intros l ds r Q. split; [reflexivity|]. unfold get_dataset in Q. destruct (write_nc (Some l) ds) as [ds' [f|]] eqn:W; [|discriminate].
  cbn in Q. injection Q as <-. destruct (C195_changed_refuted l ds ds' f W) as [-> _]. eapply C195_file; eauto.
Qed.
(** A dimension whose labels are to be rounded, such as wind speeds, is an error; everything else is
    accepted. *)
Theorem C195_dimension_refuted : forall l ds,
  (exists v, In v ds /\ n_kind v = DimCoord /\ digits l (n_name v) <> None) <-> snd (write_nc (Some l) ds) = Err ValueError.
Proof.
  intros l ds. destruct (write_nc_exact l ds) as (_ & A & B). split; [exact A|]. intros E.
  assert (DEC : forall d, (exists v, In v d /\ n_kind v = DimCoord /\ digits l (n_name v) <> None) \/ ~ (exists v, In v d /\ n_kind v = DimCoord /\ digits l (n_name v) <> None)).
  { induction d as [|v d [IH|IH]]; [right; intros (v & [] & _)| |].
    - left. destruct IH as (w & W & K). exists w. split; [now right|exact K].
    - assert (C : (n_kind v = DimCoord /\ digits l (n_name v) <> None) \/ ~ (n_kind v = DimCoord /\ digits l (n_name v) <> None)).
      { destruct (n_kind v); [right; intros [X _]; discriminate..|]. destruct (digits l (n_name v)); [left; split; [reflexivity|discriminate]|right; intros [_ X]; now apply X]. }
      destruct C as [C|C]; [left; exists v; split; [now left|exact C]|right]. intros (w & [<-|W] & K); [now apply C|apply IH; eauto]. }
  destruct (DEC ds) as [D|D]; [exact D|]. rewrite (B D) in E. discriminate.
Qed.
Print Assumptions C195_file.
Print Assumptions C195_unrounded.
Print Assumptions C195_digits.
Print Assumptions C195_changed_refuted.
Print Assumptions C195_table_refuted.
Print Assumptions C195_dimension_refuted.
Example C195_witness : exists ds',
  write_nc (Some [("X"%string, Some 0%Z)]) [mknvar "state" DimCoord [0; 1]; mknvar "WS" DataVar [1 / 3]; mknvar "Y" DataVar [1 / 3]] = (ds', Ok ds') /\
  (forall z : Z, 1 / 3 * powerRZ 10 4 <> IZR z) /\
  snd (write_nc (Some []) [mknvar "WS" DimCoord [8; 9]; mknvar "P" DataVar [1]]) = Err ValueError.
Proof.
  eexists. split; [reflexivity|]. split; [|reflexivity]. intros z ZZ. assert (E : powerRZ 10 4 = 10000) by (unfold powerRZ; simpl; lra). rewrite E in ZZ.
  assert (Q : 10000 = IZR (3 * z)) by (rewrite mult_IZR; lra). apply eq_IZR in Q. lia.
Qed.

(** C196: the point calculation of the output class gives what the algorithm gives for these points. *)
Theorem C196_points_partial : forall P (a : algo P) w wv p, n_states a = Some (n_sel a) ->
  calculate a w false false wv p = (calc_points a p, None).
Proof.
  intros P a w wv p N. unfold calculate, expand. destruct p as [l|m|]; cbn [bind calc_points]; [|now destruct (_ =? _)%nat|reflexivity].
  rewrite N. cbn [bind]. rewrite repeat_length, Nat.eqb_refl. reflexivity.
Qed.
(** Points that are the same for all states are rejected together with a selection of states, which the
    algorithm accepts. *)
Theorem C196_selection_refuted : forall P (a : algo P) n w sm tf wv l, n_states a = Some n -> n <> n_sel a ->
  calculate a w sm tf wv (Pts2 l) = (Err ValueError, None) /\ exists r, calc_points a (Pts2 l) = Ok r.
Proof.
  intros P a n w sm tf wv l N D. split; [|eexists; reflexivity]. unfold calculate, expand. rewrite N. cbn [bind calc_points]. rewrite repeat_length.
  destruct (Nat.eqb_spec n (n_sel a)); [contradiction|reflexivity].
Qed.
(** The mean over states is never returned. *)
Theorem C196_mean_refuted : forall P (a : algo P) w tf wv p, (forall m, calc a m <> []) ->
  exists e, calculate a w true tf wv p = (Err e, None).
Proof.
  intros P a w tf wv p N. unfold calculate. destruct (do pts <- expand a p; calc_points a (Pts3 pts)) as [r|e] eqn:E; [|eauto].
  destruct w as [?|?]; [eauto|]. destruct r as [|x r]; [exfalso|eauto]. apply bind_ok in E as (m0 & _ & E). cbn in E. destruct (_ =? _)%nat; [|discriminate]. injection E as E. now apply N in E.
Qed.
(** The file has the points and exactly the wanted variables of the results ... *)
Lemma full_vars_spec res : forall vs l, full_vars res vs = Ok l -> Forall2 (fun v x => fst x = v /\ assoc v res = Some (Combine_Model.Full (snd x))) vs l.
Proof.
  induction vs as [|v vs IH]; cbn; intros l Q; [injection Q as <-; constructor|].
  destruct (assoc v res) as [[|m]|] eqn:E; try discriminate. apply bind_ok in Q as (r & R & Q). injection Q as <-. constructor; [now split|auto].
Qed.
Theorem C196_file_partial : forall P (a : algo P) w vs p r f, calculate a w false true (Some vs) p = (r, Some f) ->
  f_points f = p /\ exists res, r = Ok res /\ Forall2 (fun v x => fst x = v /\ assoc v res = Some (Combine_Model.Full (snd x))) vs (f_vars f).
Proof.
  intros P a w vs p r f. unfold calculate. destruct (do pts <- expand a p; calc_points a (Pts3 pts)) as [res|e]; [|discriminate].
  destruct (full_vars res vs) as [l|] eqn:E; [|discriminate]. intros Q. injection Q as <- <-. split; [reflexivity|]. exists res. split; [reflexivity|]. now apply full_vars_spec.
Qed.
(** ... but if variables are not chosen, the weights, which do not depend on points, are an error. *)
Theorem C196_file_refuted : forall P (a : algo P) w p, (forall m, exists l, assoc "weight"%string (calc a m) = Some (Combine_Model.PerState l)) ->
  exists e, calculate a w false true None p = (Err e, None).
Proof.
  intros P a w p H. unfold calculate. destruct (do pts <- expand a p; calc_points a (Pts3 pts)) as [res|e] eqn:E; [|eauto].
  apply bind_ok in E as (m & _ & E). cbn in E. destruct (_ =? _)%nat; [|discriminate]. injection E as <-. destruct (H m) as (l & L).
  destruct (full_vars (calc a m) (map fst (calc a m))) as [vs|] eqn:F; [|eauto]. exfalso. apply full_vars_spec in F.
  assert (I : In "weight"%string (map fst (calc a m))).
  { revert L. clear. induction (calc a m) as [|[k x] r IH]; cbn [assoc map fst In]; [discriminate|]. destruct (String.eqb_spec "weight" k) as [<-|]; intros L; [now left|right; exact (IH L)]. }
  revert I. clear - F L. induction F as [|v x vs l0 [A B] F IH]; [intros []|]. intros [E|I]; [rewrite E in B; congruence|auto].
Qed.
Print Assumptions C196_points_partial.
Print Assumptions C196_selection_refuted.
Print Assumptions C196_mean_refuted.
Print Assumptions C196_file_partial.
Print Assumptions C196_file_refuted.
Example C196_witness :
  let a := mkalgo (Some 2%nat) 2 (fun m => [("weight"%string, Combine_Model.PerState [1; 1]); ("WS"%string, Combine_Model.Full m)]) in
  calculate a (Combine_Model.PerState [1; 1]) false true (Some ["WS"%string]) (Pts2 [8; 9])
   = (Ok [("weight"%string, Combine_Model.PerState [1; 1]); ("WS"%string, Combine_Model.Full [[8; 9]; [8; 9]])], Some (mkpfile (Pts2 [8; 9]) [("WS"%string, [[8; 9]; [8; 9]])])).
Proof. reflexivity. Qed.
