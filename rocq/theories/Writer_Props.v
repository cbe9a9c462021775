From Coq Require Import String.
From Verif Require Import Base Writer_Model Writer_Spec Writer_Proofs.
Local Open Scope nat_scope.
Local Open Scope list_scope.

(** C166: whatever calls of write_csv came before, a file written for all or for listed variables has one row per state and turbine with the values of the farm results *)
Theorem C166_right : forall r l v names f, wf r -> (forall d, v <> Ren d) ->
  file (write_csv (run (init r) l) v names false) = Some f -> right r f /\ index_names f = [STATE; if names then TNAME else TURBINE].
Proof. intros r l v a f W Hv H. destruct (run_right r l W) as [R1 R2]. split; [now apply (file_right r _ v a f R1 R2 Hv) | now apply index_names_file in H]. Qed.
Print Assumptions C166_right.
(** with a list of variables: a file with exactly these columns *)
Theorem C166_list : forall r vs, wf r -> incl vs (columns r) ->
  exists f, file (write_csv (init r) (Keys vs) false false) = Some f /\ index_names f = [STATE; TURBINE] /\ column_names f = vs /\ right r f.
Proof.
  intros r vs W H. destruct (list_file r vs H) as [f [F1 [F2 F3]]]. exists f. repeat (split; [easy|]).
  apply (file_right r (init r) (Keys vs) false f); [now apply init_right | easy | easy | easy].
Qed.
Print Assumptions C166_list.
(** without variables: all *)
Theorem C166_all : forall r, wf r ->
  exists f, file (write_csv (init r) All false false) = Some f /\ index_names f = [STATE; TURBINE] /\ column_names f = columns r /\ right r f.
Proof.
  intros r W. destruct (all_plain r) as [_ E]. exists (init r). split; [easy|]. split; [easy|]. split; [apply init_cols | now apply init_right].
Qed.
Print Assumptions C166_all.
(** two states, two turbines, power and wind speed *)
Definition r0 : farm_results := {| labels := [Lab 5; Lab 7]; nturb := 2; tnames := fun t => if Nat.eqb t 0 then "A"%string else "B"%string; fvars := [(0, fun s t => Z.of_nat (10 * s + t)); (1, fun s t => Z.of_nat (100 * s + t))] |}.
Example C166_case : wf r0 /\ incl [V 1; V 0] (columns r0) /\
  file (write_csv (init r0) (Keys [V 1]) false false) = Some {| idx := [(STATE, [Lab 5; Lab 5; Lab 7; Lab 7]); (TURBINE, [Lab 0; Lab 1; Lab 0; Lab 1])]; cols := [(V 1, [Num 0; Num 1; Num 100; Num 101])]; nrow := 4 |}.
Proof.
  split; [unfold wf, r0; cbn; repeat constructor; cbn; intros H; decompose [or] H; easy|]. split; [|reflexivity]. intros x [<-|[<-|[]]]; cbn; tauto.
Qed.

(** C167: with turbine_names a list of variables is written only if it names the column of the turbine names once *)
Theorem C167_names_partial : forall r vs, incl vs (columns r) ->
  ((exists f, file (write_csv (init r) (Keys vs) true false) = Some f) <-> mult TNAME vs = 1).
Proof. exact list_names. Qed.
Print Assumptions C167_names_partial.
(** so turbine names fail for any list of variables *)
Theorem C167_names_refuted : forall r vs, incl vs (columns r) -> ~ In TNAME vs -> file (write_csv (init r) (Keys vs) true false) = None.
Proof.
  intros r vs H Hn. destruct (file (write_csv (init r) (Keys vs) true false)) as [f|] eqn:E; [|easy]. exfalso.
  assert (X : exists f, file (write_csv (init r) (Keys vs) true false) = Some f) by eauto. apply (list_names r vs H) in X. apply mult_0 in Hn. lia.
Qed.
Print Assumptions C167_names_refuted.
(** all variables with turbine names *)
Theorem C167_all : forall r, exists f, file (write_csv (init r) All true false) = Some f /\ index_names f = [STATE; TNAME] /\ column_names f = TURBINE :: map (fun p => V (fst p)) (fvars r).
Proof. intros r. rewrite all_names. eexists. split; [reflexivity|]. split; [easy|]. unfold column_names, data_names. cbn [cols map fst]. now rewrite map_map. Qed.
Print Assumptions C167_all.
Example C167_case : file (write_csv (init r0) (Keys [V 1]) true false) = None /\ exists f, file (write_csv (init r0) (Keys [V 1; TNAME]) true false) = Some f /\ cols f = [(TURBINE, [Lab 0; Lab 1; Lab 0; Lab 1]); (V 1, [Num 0; Num 1; Num 100; Num 101])].
Proof. split; [reflexivity|]. eexists. split; reflexivity. Qed.

(** C168: calls with a list, or a non-empty dict, of variables do not change the writer, whatever its data; so the order of such calls is irrelevant *)
Theorem C168_unchanged_partial : forall f v names table, v <> All -> v <> Ren [] -> self' (write_csv f v names table) = f.
Proof. intros f [|vs|d] a b H1 H2; [easy | apply list_self | apply dict_self; congruence]. Qed.
Print Assumptions C168_unchanged_partial.
(** and writing everything by turbine index neither *)
Theorem C168_all : forall r, self' (write_csv (init r) All false false) = init r.
Proof. intros r. now destruct (all_plain r). Qed.
Print Assumptions C168_all.
(** but after writing everything with turbine names, a list of variables can no longer be written by turbine index *)
Theorem C168_names_refuted : forall r vs table, incl vs (columns r) -> ~ In TNAME vs ->
  file (write_csv (run (init r) [(All, true, false)]) (Keys vs) false table) = None.
Proof. intros r vs b H Hn. unfold run. cbn [fold_left fst snd]. rewrite all_names. now apply after_names. Qed.
Print Assumptions C168_names_refuted.
(** and after a refused state-turbine table of everything, lists of variables can no longer be written at all, and a file with everything has an additional column *)
Theorem C168_table_refuted : forall r a, fvars r <> [] ->
  file (write_csv (init r) All a true) = None /\
  (forall vs names table, incl vs (columns r) -> file (write_csv (run (init r) [(All, a, true)]) (Keys vs) names table) = None) /\
  exists f, file (write_csv (run (init r) [(All, a, true)]) All false false) = Some f /\ column_names f = INDEX :: columns r.
Proof.
  intros r a H. unfold run. cbn [fold_left fst snd]. rewrite (all_table r a H). cbn [self' file]. split; [easy|]. split.
  - intros vs x b Hv. now apply plain_list.
  - destruct (plain_all r) as [f [F1 [_ F3]]]. eauto.
Qed.
Print Assumptions C168_table_refuted.
Example C168_case : (exists f, file (write_csv (init r0) (Keys [V 0]) false false) = Some f) /\ file (write_csv (run (init r0) [(All, true, false)]) (Keys [V 0]) false false) = None.
Proof. split; [eexists; reflexivity | reflexivity]. Qed.

(** C169: state-turbine table of a variable: one row per state, one column per turbine, in their order, with the values *)
Theorem C169_table : forall r v, wf r -> In v (map fst (fvars r)) -> labels r <> [] -> 0 < nturb r ->
  exists f, file (write_csv (init r) (Keys [V v]) false true) = Some f /\ idx f = [(STATE, labels r)] /\
  column_names f = map (fun t => Tcol (V v) (Lab (Z.of_nat t))) (seq 0 (nturb r)) /\
  forall s t, s < List.length (labels r) -> t < nturb r -> exists n c, nth_error (cols f) t = Some (n, c) /\ nth_error c s = cell r s t (V v).
Proof.
  intros r v W Hv HL HT. apply in_map_iff in Hv as [p [<- Hp]]. rewrite (table_file r p W Hp HL HT). eexists. split; [reflexivity|]. split; [easy|]. split.
  - unfold column_names. cbn [cols]. now rewrite map_map.
  - intros s t Hs Ht. cbn [cols]. eexists _, _. rewrite nth_error_map, nth_error_nth' with (d := 0) by (now rewrite seq_length). cbn [option_map]. split; [reflexivity|].
    rewrite nth_error_map, nth_error_nth' with (d := 0) by (now rewrite seq_length). cbn [option_map cell]. rewrite !seq_nth by easy. cbn [Nat.add]. now rewrite (find_fvars r p W Hp).
Qed.
Print Assumptions C169_table.
(** a table with turbine names is never written *)
Theorem C169_names_refuted : forall r v, file (write_csv (init r) (Keys [V v]) true true) = None.
Proof. exact table_names. Qed.
Print Assumptions C169_names_refuted.
Example C169_case : file (write_csv (init r0) (Keys [V 1]) false true) = Some {| idx := [(STATE, [Lab 5; Lab 7])]; cols := [(Tcol (V 1) (Lab 0), [Num 0; Num 100]); (Tcol (V 1) (Lab 1), [Num 1; Num 101])]; nrow := 2 |}.
Proof. reflexivity. Qed.

(** C170: a dict renames the columns *)
Theorem C170_rename : forall r d, wf r -> d <> [] -> NoDup (map fst d) -> incl (map fst d) (columns r) -> ~ In STATE (map snd d) -> ~ In TURBINE (map snd d) ->
  vars' (write_csv (init r) (Ren d) false false) = Ren d /\
  exists f, file (write_csv (init r) (Ren d) false false) = Some f /\ index_names f = [STATE; TURBINE] /\ column_names f = map snd d /\
  forall i k w, nth_error d i = Some (k, w) -> exists c, nth_error (cols f) i = Some (w, c) /\ right_column r k c.
Proof. exact dict_file. Qed.
Print Assumptions C170_rename.
(** but a new name for the index of states is never written *)
Theorem C170_state_refuted : forall r d x names table, NoDup (map fst d) -> In (STATE, x) d -> ~ In STATE (map snd d) -> file (write_csv (init r) (Ren d) names table) = None.
Proof. exact dict_state. Qed.
Print Assumptions C170_state_refuted.
(** and such names are taken out of the caller's dict: the same call again has another result *)
Theorem C170_dict_refuted : exists r v, let first := write_csv (init r) v false false in
  file first = None /\ vars' first <> v /\ exists f, file (write_csv (self' first) (vars' first) false false) = Some f.
Proof. exists r0, (Ren [(STATE, V 9); (V 0, V 8)]). cbv zeta. split; [reflexivity|]. split; [discriminate|]. eexists. reflexivity. Qed.
Print Assumptions C170_dict_refuted.
Example C170_case : exists f, file (write_csv (init r0) (Ren [(V 1, V 7); (V 0, V 8)]) false false) = Some f /\ cols f = [(V 7, [Num 0; Num 1; Num 100; Num 101]); (V 8, [Num 0; Num 1; Num 10; Num 11])].
Proof. eexists. split; reflexivity. Qed.

(** C171: write_nc, for different labels of the states *)
Theorem C171_nc_partial : forall r vs, wf r -> labels r <> [] -> NoDup (labels r) -> 0 < nturb r -> incl vs (columns r) ->
  exists ms, write_nc (init r) (Keys vs) = Some (labels r, nturb r, ms) /\ map fst ms = vs /\
  forall v m, In (v, m) ms -> List.length m = List.length (labels r) /\
    forall s t, s < List.length (labels r) -> t < nturb r -> exists row, nth_error m s = Some row /\ nth_error row t = cell r s t v.
Proof. exact nc_file. Qed.
Print Assumptions C171_nc_partial.
(** nothing is written if a label occurs twice *)
Theorem C171_duplicates_refuted : forall r vs, wf r -> ~ NoDup (labels r) -> 0 < nturb r -> incl vs (columns r) -> vs <> [] -> write_nc (init r) (Keys vs) = None.
Proof. exact nc_duplicates. Qed.
Print Assumptions C171_duplicates_refuted.
(** names of the turbines: if and only if a state has label 0 *)
Theorem C171_names_partial : forall r, 0 < nturb r -> NoDup (labels r) ->
  (In (Lab 0) (labels r) -> nc_names (init r) = Some (map (fun t => Txt (tnames r t)) (seq 0 (nturb r)))) /\
  (~ In (Lab 0) (labels r) -> nc_names (init r) = None).
Proof.
  intros r H D. rewrite (nc_names_spec r H D). destruct (existsb (val_eqb (Lab 0)) (labels r)) eqn:E; split; intros K; try easy.
  - exfalso. apply K. apply existsb_exists in E as [x [E1 E2]]. apply val_eqb_eq in E2. now subst.
  - exfalso. assert (X : existsb (val_eqb (Lab 0)) (labels r) = true) by (apply existsb_exists; exists (Lab 0); split; [easy | reflexivity]). congruence.
Qed.
Print Assumptions C171_names_partial.
Example C171_case : nc_names (init r0) = None /\ write_nc (init r0) (Keys [V 1]) = Some ([Lab 5; Lab 7], 2, [(V 1, [[Num 0; Num 1]; [Num 100; Num 101]])]).
Proof. split; reflexivity. Qed.

(** C172: parameters of a call of the pandas function: those of this call over those of all earlier successful calls *)
Theorem C172_history_partial : forall (A : Type) (calls : list (list string * list (string * A))) parts kwargs w, writer_of (suffix parts) = Some w ->
  snd (write_file (history calls) parts kwargs) = Some (w, update [] (flat_map (fun c => match writer_of (suffix (fst c)) with Some _ => snd c | None => [] end) calls ++ kwargs)).
Proof. intros A calls parts kw w H. unfold write_file. rewrite H. cbn [snd]. rewrite history_update, update_app. reflexivity. Qed.
Print Assumptions C172_history_partial.
(** so a parameter of an earlier call changes later files *)
Theorem C172_leak_refuted : exists (calls : list (list string * list (string * string))) parts kwargs,
  snd (write_file (history calls) parts kwargs) <> snd (write_file (history []) parts kwargs).
Proof. exists [(["a"; "csv"], [("sep", ";")])]%string, ["b"; "csv"]%string, []. discriminate. Qed.
Print Assumptions C172_leak_refuted.
(** reading has no history *)
Theorem C172_read : forall (A : Type) parts (kwargs : list (string * A)) w, writer_of (suffix parts) = Some w -> read_file parts kwargs = Some (w, update [] kwargs).
Proof. intros A parts kw w H. unfold read_file. now rewrite H. Qed.
Print Assumptions C172_read.
(** a csv file can always be written if its name has one dot *)
Theorem C172_csv : forall (A : Type) (d : list (string * A)) stem kwargs, exists p, snd (write_file d [stem; "csv"%string] kwargs) = Some (to_csv, p) /\ callable (to_csv, p) = true.
Proof. intros A d stem kw. eexists. split; reflexivity. Qed.
Print Assumptions C172_csv.
(** but not with another dot in the name; netCDF files never; h5 files only if the key was given, now or before *)
Theorem C172_formats_refuted :
  (forall (A : Type) (d : list (string * A)) stem kwargs, snd (write_file d [stem; "v1"; "csv"]%string kwargs) = None) /\
  (forall (A : Type) (d : list (string * A)) stem kwargs c, snd (write_file d [stem; "nc"]%string kwargs) = Some c -> callable c = false) /\
  (forall (A : Type) stem, exists c, snd (write_file (history (@nil (list string * list (string * A)))) [stem; "h5"]%string []) = Some c /\ callable c = false).
Proof. split; [reflexivity|]. split; [intros A d stem kw c H; inversion H; reflexivity|]. intros A stem. eexists. split; reflexivity. Qed.
Print Assumptions C172_formats_refuted.
Example C172_case : snd (write_file (history [(["a"; "csv"], [("sep", ";")]); (["x"; "y"], [("sep", "|")])]) ["b"; "csv"] [("na_rep", "-")])%string = Some (to_csv, [("sep", ";"); ("na_rep", "-")])%string.
Proof. reflexivity. Qed.
