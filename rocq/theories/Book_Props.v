(** C202 - C204: names of the model book (models/model_book.py). *)
From Verif Require Import Factory_Model Factory_Spec Factory_Proofs Factory_Proofs2 TypeName_Model TypeName_Spec TypeName_Proofs Book_Model Book_Spec Book_Proofs.
Local Open Scope list_scope.


(** C202: a lookup creates the object, stores it under its name, and a rejected name changes nothing *)
Theorem C202_lookup d k kw : created d k = Ok kw ->
  snd (getitem d k) = Ok (next d) /\ (store d = true -> dget (items (fst (getitem d k))) k = Some (next d)).
Proof. exact (created_found d k kw). Qed.
Print Assumptions C202_lookup.
Theorem C202_rejected d k e : dget (items d) k = None -> created d k = Err e -> getitem d k = (d, Err e).
Proof. exact (created_fails d k e). Qed.
Print Assumptions C202_rejected.

(** the grid rotor *)
Theorem C202_grid ds n : digit_list ds -> square_of n ds ->
  makes (created rotor_models (lit "grid" ++ chars ds)) "GridRotor" [("n"%string, VDec n 0); ("reduce"%string, VBool true)].
Proof.
  intros D Q. unfold created. change (dget (items rotor_models) (lit "grid" ++ chars ds)) with (@None nat). cbn iota. rewrite rotor_facs.
  erewrite first_take by (erewrite one by reflexivity; rewrite (n2n_square _ _ D Q); reflexivity). made.
Qed.
Print Assumptions C202_grid.
Theorem C202_grid_raw ds n : digit_list ds -> square_of n ds ->
  makes (created rotor_models (lit "grid" ++ chars ds ++ lit "_raw")) "GridRotor" [("n"%string, VDec n 0); ("reduce"%string, VBool false)].
Proof.
  intros D Q. unfold created. change (dget (items rotor_models) (lit "grid" ++ chars ds ++ lit "_raw")) with (@None nat). cbn iota. rewrite rotor_facs.
  rewrite first_skip by (erewrite one by reflexivity; rewrite (n2n_bad "_"%char) by (raw_char || discriminate || raw_in); reflexivity).
  erewrite first_take by (erewrite (onesep _ (lit "grid") (lit "_raw")); [rewrite (n2n_square _ _ D Q); reflexivity|reflexivity|discriminate|raw_sep|raw_text|reflexivity|reflexivity|reflexivity]). made.
Qed.
Print Assumptions C202_grid_raw.
(** other numbers of points are rejected (with an Exception, not a KeyError), although the name counts as known *)
Theorem C202_not_square ds suf : digit_list ds -> (forall n, ~ square_of n ds) -> suf = [] \/ suf = lit "_raw" ->
  getitem rotor_models (lit "grid" ++ chars ds ++ suf) = (rotor_models, Err PlainException) /\
  contains rotor_models (lit "grid" ++ chars ds ++ suf) = true.
Proof.
  intros D Q S. assert (M := n2n_other _ D Q). split.
  - apply created_fails; [reflexivity|]. unfold created. change (dget (items rotor_models) (lit "grid" ++ chars ds ++ suf)) with (@None nat). cbn iota. rewrite rotor_facs.
    destruct S as [->| ->].
    + rewrite app_nil_r. cbn [first_construct]. erewrite one by reflexivity. rewrite M. reflexivity.
    + rewrite first_skip by (erewrite one by reflexivity; rewrite (n2n_bad "_"%char) by (raw_char || discriminate || raw_in); reflexivity).
      cbn [first_construct]. erewrite (onesep _ (lit "grid") (lit "_raw")); [rewrite M; reflexivity|reflexivity|discriminate|raw_sep|raw_text|reflexivity|reflexivity|reflexivity].
  - unfold contains. change (dget (items rotor_models) (lit "grid" ++ chars ds ++ suf)) with (@None nat). cbn iota. rewrite rotor_facs. cbn [existsb]. unfold check_match at 1.
    change (pre (fac "GridRotor" "grid<n2>" [(lit "reduce", VBool true)] [(lit "n2", lit "n")] [(lit "n2", OFun n2n)])) with [lit "grid"; []]. rewrite match_head. reflexivity.
Qed.
Print Assumptions C202_not_square.
(** the level rotor *)
Theorem C202_level ds : digit_list ds ->
  makes (created rotor_models (lit "level" ++ chars ds)) "LevelRotor" [("n"%string, VDec (num ds) 0); ("reduce"%string, VBool true)] /\
  makes (created rotor_models (lit "level" ++ chars ds ++ lit "_raw")) "LevelRotor" [("n"%string, VDec (num ds) 0); ("reduce"%string, VBool false)].
Proof.
  intros D. split.
  - unfold created. change (dget (items rotor_models) (lit "level" ++ chars ds)) with (@None nat). cbn iota. rewrite rotor_facs.
    do 2 rewrite first_skip by (eapply miss; reflexivity).
    erewrite first_take by (erewrite one by reflexivity; rewrite (dig_int _ D); reflexivity). made.
  - unfold created. change (dget (items rotor_models) (lit "level" ++ chars ds ++ lit "_raw")) with (@None nat). cbn iota. rewrite rotor_facs.
    do 2 rewrite first_skip by (eapply miss; reflexivity).
    rewrite first_skip by (erewrite one by reflexivity; rewrite (bad_int "_"%char) by (raw_char || raw_in); reflexivity).
    erewrite first_take by (erewrite (onesep _ (lit "level") (lit "_raw")); [rewrite (dig_int _ D); reflexivity|reflexivity|discriminate|raw_sep|raw_text|reflexivity|reflexivity|reflexivity]). made.
Qed.
Print Assumptions C202_level.
(** partial wakes *)
Theorem C202_partial_wakes ds : digit_list ds ->
  makes (created partial_wakes (lit "axiwake" ++ chars ds)) "PartialAxiwake" [("n"%string, VDec (num ds) 0)] /\
  (forall n, square_of n ds -> makes (created partial_wakes (lit "grid" ++ chars ds)) "PartialGrid" [("n"%string, VDec n 0)]) /\
  ((forall n, ~ square_of n ds) -> getitem partial_wakes (lit "grid" ++ chars ds) = (partial_wakes, Err PlainException)).
Proof.
  intros D. split; [|split].
  - unfold created. change (dget (items partial_wakes) (lit "axiwake" ++ chars ds)) with (@None nat). cbn iota. rewrite partial_facs.
    erewrite first_take by (erewrite one by reflexivity; rewrite (dig_int _ D); reflexivity). made.
  - intros n Q. unfold created. change (dget (items partial_wakes) (lit "grid" ++ chars ds)) with (@None nat). cbn iota. rewrite partial_facs.
    rewrite first_skip by (eapply miss; reflexivity).
    erewrite first_take by (erewrite one by reflexivity; rewrite (n2n_square _ _ D Q); reflexivity). made.
  - intros Q. apply created_fails; [reflexivity|]. unfold created. change (dget (items partial_wakes) (lit "grid" ++ chars ds)) with (@None nat). cbn iota. rewrite partial_facs.
    rewrite first_skip by (eapply miss; reflexivity). cbn [first_construct]. erewrite one by reflexivity. rewrite (n2n_other _ D Q). reflexivity.
Qed.
Print Assumptions C202_partial_wakes.
Example C202_witness : digit_list [1; 6] /\ square_of 4 [1; 6] /\ chars [1; 6] = lit "16" /\ (forall n, ~ square_of n [1; 5]).
Proof.
  split; [split; [discriminate|repeat constructor; lia]|]. split; [split; [lia|reflexivity]|]. split; [reflexivity|].
  intros n (N & E). change (num [1; 5]) with 15%Z in E. assert (n <= 3 \/ 4 <= n)%Z as [A|A] by lia; nia.
Qed.

(** C203: wake frames with a time step or a length *)
Theorem C203_time x u : number_ok x ->
  makes (created wake_frames (lit "timelines_" ++ time_text x u)) "Timelines" [("dt_min"%string, minutes x u)] /\
  makes (created wake_frames (lit "seq_dyn_wakes_" ++ time_text x u)) "SeqDynamicWakes" [("dt_min"%string, minutes x u)].
Proof.
  intros X. assert (T := todt_time x u X). destruct frame_facs as (y & _ & Y & F). split.
  - unfold created. change (dget (items wake_frames) (lit "timelines_" ++ time_text x u)) with (@None nat). cbn iota. rewrite F, skip_yawed by (reflexivity || assumption).
    do 2 rewrite first_skip by (eapply miss; reflexivity). erewrite first_take by (erewrite one by reflexivity; rewrite T; reflexivity). made.
  - unfold created. change (dget (items wake_frames) (lit "seq_dyn_wakes_" ++ time_text x u)) with (@None nat). cbn iota. rewrite F, skip_yawed by (reflexivity || assumption).
    do 4 rewrite first_skip by (eapply miss; reflexivity). erewrite first_take by (erewrite one by reflexivity; rewrite T; reflexivity). made.
Qed.
Print Assumptions C203_time.
Theorem C203_length x u : number_ok x ->
  makes (created wake_frames (lit "dyn_wakes_" ++ length_text x u)) "DynamicWakes" [("max_length_km"%string, kilometres x u)].
Proof.
  intros X. assert (T := tokm_length x u X). destruct frame_facs as (y & _ & Y & F).
  unfold created. change (dget (items wake_frames) (lit "dyn_wakes_" ++ length_text x u)) with (@None nat). cbn iota. rewrite F, skip_yawed by (reflexivity || assumption).
  do 3 rewrite first_skip by (eapply miss; reflexivity). erewrite first_take by (erewrite one by reflexivity; rewrite T; reflexivity). made.
Qed.
Print Assumptions C203_length.
Theorem C203_step x : number_ok x ->
  makes (created wake_frames (lit "streamlines_" ++ number_text "."%char x)) "Streamlines2D" [("step"%string, VDec (fst (number_dec x)) (snd (number_dec x)))].
Proof.
  intros X. assert (T := number_float x X). destruct frame_facs as (y & _ & Y & F).
  unfold created. change (dget (items wake_frames) (lit "streamlines_" ++ number_text "."%char x)) with (@None nat). cbn iota. rewrite F, skip_yawed by (reflexivity || assumption).
  erewrite first_take by (erewrite one by reflexivity; rewrite T; reflexivity). made.
Qed.
Print Assumptions C203_step.
(** texts that end with no known unit are rejected, whatever precedes the last character *)
Theorem C203_unit x c : c <> "s"%char -> c <> "n"%char -> c <> "m"%char ->
  getitem wake_frames (lit "timelines_" ++ x ++ [c]) = (wake_frames, Err NotImplementedError) /\
  getitem wake_frames (lit "seq_dyn_wakes_" ++ x ++ [c]) = (wake_frames, Err NotImplementedError) /\
  getitem wake_frames (lit "dyn_wakes_" ++ x ++ [c]) = (wake_frames, Err NotImplementedError).
Proof.
  intros A B C. assert (T := todt_unit x c A B). assert (T' := tokm_unit x c C). destruct frame_facs as (y & _ & Y & F). repeat split; (apply created_fails; [reflexivity|]).
  - unfold created. change (dget (items wake_frames) (lit "timelines_" ++ x ++ [c])) with (@None nat). cbn iota. rewrite F, skip_yawed by (reflexivity || assumption).
    do 2 rewrite first_skip by (eapply miss; reflexivity). cbn [first_construct]. erewrite one by reflexivity. rewrite T. reflexivity.
  - unfold created. change (dget (items wake_frames) (lit "seq_dyn_wakes_" ++ x ++ [c])) with (@None nat). cbn iota. rewrite F, skip_yawed by (reflexivity || assumption).
    do 4 rewrite first_skip by (eapply miss; reflexivity). cbn [first_construct]. erewrite one by reflexivity. rewrite T. reflexivity.
  - unfold created. change (dget (items wake_frames) (lit "dyn_wakes_" ++ x ++ [c])) with (@None nat). cbn iota. rewrite F, skip_yawed by (reflexivity || assumption).
    do 3 rewrite first_skip by (eapply miss; reflexivity). cbn [first_construct]. erewrite one by reflexivity. rewrite T'. reflexivity.
Qed.
Print Assumptions C203_unit.
Example C203_witness : number_ok ([1; 0], Some [5]) /\ time_text ([1; 0], Some [5]) Seconds = lit "10.5s" /\ minutes ([1; 0], Some [5]) Seconds = VQuot 105 1 60 /\
  length_text ([5], None) Kilometres = lit "5km".
Proof. split; [split; [split; [discriminate|repeat constructor; lia]|repeat constructor; lia]|]. repeat split. Qed.

(** C204: kTI models *)
Lemma kti_item x : short_ok x -> forall r, dget (items turbine_models) (lit "kTI_" ++ number_text "."%char x ++ r) = None.
Proof.
  intros (((Ne & F) & _) & _) r. unfold number_text. destruct x as [[|d ds] o]; [contradiction|]. apply Forall_inv in F. cbn [fst chars map app].
  do 10 (destruct d as [|d]; [reflexivity|]). lia.
Qed.
Theorem C204_one x : short_ok x -> makes (created turbine_models (lit "kTI_" ++ number_text "."%char x)) "kTI" [("kTI"%string, short_value x)].
Proof.
  intros X. assert (N := number_no_sep x (proj1 X)). assert (K := knum_short x X). assert (I := kti_item x X []). rewrite app_nil_r in I.
  unfold created. rewrite I, kti_facs. rewrite first_skip by (eapply (nosep _ _ (lit "_")); [reflexivity|discriminate|now apply no_occ]).
  erewrite first_take by (erewrite one by reflexivity; rewrite K; reflexivity). made.
Qed.
Print Assumptions C204_one.
Theorem C204_two x y : short_ok x -> short_ok y ->
  makes (created turbine_models (lit "kTI_" ++ number_text "."%char x ++ lit "_" ++ number_text "."%char y)) "kTI" [("kTI"%string, short_value x); ("kb"%string, short_value y)].
Proof.
  intros X Y. assert (N := number_no_sep x (proj1 X)). assert (K := knum_short x X). assert (L := knum_short y Y).
  unfold created. rewrite (kti_item x X), kti_facs.
  erewrite first_take by (erewrite (two _ _ (lit "_")); [rewrite K; cbn [bind]; rewrite L; reflexivity|reflexivity|discriminate|cbn; tauto|now apply no_text|reflexivity|reflexivity|reflexivity|reflexivity]). made.
Qed.
Print Assumptions C204_two.
Theorem C204_ambient x : short_ok x ->
  makes (created turbine_models (lit "kTI_amb_" ++ number_text "."%char x)) "kTI" [("kTI"%string, short_value x); ("ti_var"%string, VStr (lit "AMB_TI"))] /\
  forall y, short_ok y -> makes (created turbine_models (lit "kTI_amb_" ++ number_text "."%char x ++ lit "_" ++ number_text "."%char y)) "kTI"
    [("kTI"%string, short_value x); ("kb"%string, short_value y); ("ti_var"%string, VStr (lit "AMB_TI"))].
Proof.
  intros X. assert (N := number_no_sep x (proj1 X)). assert (K := knum_short x X).
  assert (A : knum (lit "amb") = Err ValueError) by reflexivity. split; [|intros y Y; assert (L := knum_short y Y)].
  - unfold created. change (dget (items turbine_models) (lit "kTI_amb_" ++ number_text "."%char x)) with (@None nat). cbn iota. rewrite kti_facs.
    rewrite first_skip by (change (lit "kTI_amb_" ++ number_text "."%char x) with (lit "kTI_" ++ lit "amb" ++ lit "_" ++ number_text "."%char x);
      erewrite (two _ _ (lit "_")); [rewrite A; reflexivity|reflexivity|discriminate|cbn; tauto|apply no_text; cbn; intuition discriminate|reflexivity|reflexivity|reflexivity|reflexivity]).
    rewrite first_skip by (change (lit "kTI_amb_" ++ number_text "."%char x) with (lit "kTI_" ++ (lit "amb_" ++ number_text "."%char x));
      erewrite one by reflexivity; rewrite (knum_bad "_"%char); [reflexivity|right; cbn; lia|discriminate|apply in_app_iff; left; cbn; tauto]).
    rewrite first_skip by (eapply (nosep _ _ (lit "_")); [reflexivity|discriminate|now apply no_occ]).
    erewrite first_take by (erewrite one by reflexivity; rewrite K; reflexivity). made.
  - unfold created. change (dget (items turbine_models) (lit "kTI_amb_" ++ number_text "."%char x ++ lit "_" ++ number_text "."%char y)) with (@None nat). cbn iota. rewrite kti_facs.
    rewrite first_skip by (change (lit "kTI_amb_" ++ number_text "."%char x ++ lit "_" ++ number_text "."%char y) with (lit "kTI_" ++ lit "amb" ++ lit "_" ++ (number_text "."%char x ++ lit "_" ++ number_text "."%char y));
      erewrite (two _ _ (lit "_")); [rewrite A; reflexivity|reflexivity|discriminate|cbn; tauto|apply no_text; cbn; intuition discriminate|reflexivity|reflexivity|reflexivity|reflexivity]).
    rewrite first_skip by (change (lit "kTI_amb_" ++ number_text "."%char x ++ lit "_" ++ number_text "."%char y) with (lit "kTI_" ++ (lit "amb_" ++ number_text "."%char x ++ lit "_" ++ number_text "."%char y));
      erewrite one by reflexivity; rewrite (knum_bad "_"%char); [reflexivity|right; cbn; lia|discriminate|apply in_app_iff; left; cbn; tauto]).
    erewrite first_take by (erewrite (two _ _ (lit "_")); [rewrite K; cbn [bind]; rewrite L; reflexivity|reflexivity|discriminate|cbn; tauto|now apply no_text|reflexivity|reflexivity|reflexivity|reflexivity]). made.
Qed.
Print Assumptions C204_ambient.
(** decimal numbers below one, as in the example names kTI_0.2 and kTI_0.2_0.001 that the templates print, do not exist, although they count as known *)
Theorem C204_decimal_refuted f : Forall (fun d => d < 10) f ->
  getitem turbine_models (lit "kTI_0." ++ chars f) = (turbine_models, Err KeyError) /\ contains turbine_models (lit "kTI_0." ++ chars f) = true.
Proof.
  intros H. assert (N : ~ In "_"%char (lit "0." ++ chars f)).
  { intros I. apply in_app_iff in I. destruct I as [I|I]; [cbn in I; intuition discriminate|]. revert I. apply chars_not_in; [exact H|right; cbn; lia]. }
  assert (Z : knum (lit "0." ++ chars f) = Err ValueError) by apply knum_zero_dot.
  change (lit "kTI_0." ++ chars f) with (lit "kTI_" ++ (lit "0." ++ chars f)). split.
  - apply created_fails; [reflexivity|]. unfold created. change (dget (items turbine_models) (lit "kTI_" ++ lit "0." ++ chars f)) with (@None nat). cbn iota. rewrite kti_facs.
    rewrite first_skip by (eapply (nosep _ _ (lit "_")); [reflexivity|discriminate|now apply no_occ]).
    rewrite first_skip by (erewrite one by reflexivity; rewrite Z; reflexivity).
    rewrite first_skip by (eapply miss; reflexivity). rewrite first_skip by (eapply miss; reflexivity). reflexivity.
  - unfold contains. change (dget (items turbine_models) (lit "kTI_" ++ lit "0." ++ chars f)) with (@None nat). cbn iota. rewrite kti_facs. cbn [existsb].
    apply orb_true_iff. right. apply orb_true_iff. left. unfold check_match.
    change (pre (fac "kTI" "kTI_<kTI>" [] [] [(lit "kTI", OFun knum)])) with [lit "kTI_"; []]. rewrite match_head. reflexivity.
Qed.
Print Assumptions C204_decimal_refuted.
Example C204_witness : short_ok ([0; 2], None) /\ number_text "."%char ([0; 2], None) = lit "02" /\ short_value ([0; 2], None) = VDec 2 1 /\
  short_ok ([1], Some [5]) /\ short_value ([1], Some [5]) = VDec 15 1.
Proof.
  split; [split; [split; [split; [discriminate|repeat constructor; lia]|exact I]|now left]|]. split; [reflexivity|split; [reflexivity|split; [|reflexivity]]].
  split; [split; [split; [discriminate|repeat constructor; lia]|repeat constructor; lia]|]. right. discriminate.
Qed.
