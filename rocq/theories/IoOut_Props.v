(** C264: the outputs requested by a windIO file. *)
From Coq Require Import String Lra.
From Verif Require Import RBase Data_Model IoOut_Model IoOut_Spec IoOut_Proofs.
From Verif Require Grid_Model Grid_Proofs WindIO_Model WindIO_Props NcOut_Model.
Local Open Scope string_scope.
Local Open Scope R_scope.
Local Open Scope list_scope.
Local Notation length := List.length.

(** proved: if the request is accepted, the turbine file has the requested variables in the requested order, with the values of all turbines in
    the chosen states, to three decimals for the power and four for wind speeds, unless the subset of states is empty *)
Theorem C264_turbine_partial hubs r dir outs t c all fr : read_outputs hubs r = Ok (dir, outs) ->
  r_turb r = Some t -> t_report t <> Some false -> r_cases r = Some c -> c_all c = Some all -> (all = false -> c_subset c <> Some []) ->
  exists o names, In o outs /\ t_vars t = Some names /\
    (forall st tab, table_file fr o = Ok (st, tab) ->
       chosen all (c_subset c) (states fr) st /\ map fst tab = names /\
       forall n rows', In (n, rows') tab -> exists v rows sel, turb_meaning n v /\ lookup v (fvars fr) = Some rows /\
         chosen all (c_subset c) rows sel /\ Forall2 (Forall2 (shown (if n =? "power" then 3 else 4))) sel rows') /\
    ((forall n v, turb_meaning n v -> exists rows, lookup v (fvars fr) = Some rows /\ length rows = length (states fr)) ->
     (forall idx, all = false -> c_subset c = Some idx -> Forall (fun i => - Z.of_nat (length (states fr)) <= i < Z.of_nat (length (states fr)))%Z idx) ->
     exists res, table_file fr o = Ok res).
Proof.
  intros H Ht Hrep Hc Ha Hne. destruct (read_parts _ _ _ _ H) as (c' & al & isel & ts & fs & Hc' & Ha' & Hi & Hts & Hfs & ->).
  rewrite Hc in Hc'; injection Hc' as <-. rewrite Ha in Ha'; injection Ha' as <-. rewrite Ht in Hts. unfold read_turbine in Hts.
  replace (match t_report t with Some b => b | None => true end) with true in Hts by (destruct (t_report t) as [[]|]; congruence).
  apply bind_ok in Hts; destruct Hts as (names & Hn & Hts). apply need_ok in Hn. apply bind_ok in Hts; destruct Hts as (fvs & Hm & Hts). injection Hts as <-.
  replace (match isel with Some (i :: l) => Some (i :: l) | _ => None end) with isel.
  2:{ destruct all; [rewrite Hi; reflexivity|]. destruct Hi as (idx & E & ->). destruct idx; [|reflexivity]. destruct (Hne eq_refl E). }
  eexists _, names. split; [left; reflexivity|]. split; [exact Hn|]. apply turb_mapped in Hm.
  assert (Hsel : forall A (l l' : list A), isel_opt l isel = Ok l' -> chosen all (c_subset c) l l').
  { intros A l l' E. unfold chosen. destruct all; [subst isel; cbn in E; congruence|]. destruct Hi as (idx & E1 & ->). exists idx. split; [exact E1|apply isel_entries, E]. }
  split.
  - intros st tab E. cbn [table_file] in E. apply bind_ok in E; destruct E as (tab' & Et & E). apply bind_ok in E; destruct E as (st' & Es & E). injection E as -> ->.
    pose proof (table_vars_ok _ _ _ _ _ Hm Et) as F. split; [apply Hsel, Es|]. split.
    + clear -F. induction F as [|n e ns tab (E & _) _ IH]; [reflexivity|]. cbn. now rewrite E, IH.
    + intros n rows' Hin. clear -F Hin Hsel. induction F as [|n0 e ns tab (E & v & rows & sel & A & B & C & D) _ IH]; [destruct Hin|].
      destruct Hin as [-> | Hin]; [|exact (IH Hin)]. cbn [fst] in E. subst n0. exists v, rows, sel. split; [exact A|split; [exact B|split; [apply Hsel, C|exact D]]].
  - intros Hv Hr. cbn [table_file].
    assert (Tot : forall A (l : list A), length l = length (states fr) -> exists l', isel_opt l isel = Ok l').
    { intros A l HL. destruct all; [subst isel; eexists; reflexivity|]. destruct Hi as (idx & E1 & ->). apply isel_total. rewrite HL. apply Hr; [reflexivity|exact E1]. }
    destruct (table_vars_total fr isel fvs names Hm) as (tab & E).
    { intros n v Hnv. destruct (Hv n v Hnv) as (rows & A & B). exists rows. split; [exact A|apply Tot, B]. }
    match goal with |- context [table_vars fr turb_ivmap ?d isel fvs] => change d with digs end. rewrite E. cbn [bind]. destruct (Tot _ (states fr) eq_refl) as (st & Es). rewrite Es. eexists; reflexivity.
Qed.
Print Assumptions C264_turbine_partial.
(** proved: if the request is accepted, the flow field is calculated for the requested variables, states, bounds and heights, on a grid not
    coarser than requested *)
Theorem C264_flow_partial hubs r dir outs f c all : read_outputs hubs r = Ok (dir, outs) ->
  r_flow r = Some f -> f_report f <> Some false -> r_cases r = Some c -> c_all c = Some all ->
  exists p zs hs isel x0 x1 y0 y1 dx dy nx ny vs fvs file, In (OSlices hs isel x0 x1 y0 y1 nx ny fvs file) outs /\
    f_planes f = Some p /\ f_vars f = Some vs /\ Forall2 flow_meaning vs fvs /\ p_z p = Some zs /\
    (forall A (l l' : list A), isel_opt l isel = Ok l' -> chosen all (c_subset c) l l') /\
    p_xb p = Some [x0; x1] /\ p_yb p = Some [y0; y1] /\ p_dx p = Some dx /\ p_dy p = Some dy /\
    (0 < dx -> x0 <= x1 -> (2 <= nx)%Z /\ (x1 - x0) / IZR (nx - 1) <= dx) /\ (0 < dy -> y0 <= y1 -> (2 <= ny)%Z /\ (y1 - y0) / IZR (ny - 1) <= dy) /\
    match zs with
    | ZPlaneList => p_list p = Some hs
    | ZHubs => ascending hs /\ forall z, In z hs <-> In z hubs
    | ZGrid => exists a b n, p_zb p = Some [a; b] /\ p_zn p = Some (Z.of_nat n) /\ length hs = n /\
                 forall k, (k < n)%nat -> nth_error hs k = Some (a + INR k * ((b - a) / INR (n - 1)))
    | ZNumber z => hs = [z]
    | ZOther => False
    end.
Proof.
  intros H Hf Hrep Hc Ha. destruct (read_parts _ _ _ _ H) as (c' & al & isel & ts & fs & Hc' & Ha' & Hi & Hts & Hfs & ->).
  rewrite Hc in Hc'; injection Hc' as <-. rewrite Ha in Ha'; injection Ha' as <-. rewrite Hf in Hfs. unfold read_flow in Hfs.
  replace (match f_report f with Some b => b | None => true end) with true in Hfs by (destruct (f_report f) as [[]|]; congruence).
  apply bind_ok in Hfs; destruct Hfs as (vs & Hv & E). apply need_ok in Hv. apply bind_ok in E; destruct E as (p & Hp & E). apply need_ok in Hp.
  apply bind_ok in E; destruct E as (zs & Hz & E). apply need_ok in Hz. apply bind_ok in E; destruct E as (xy & _ & E).
  apply bind_ok in E; destruct E as (hs & Hh & E). destruct xy; [|discriminate].
  assert (Two : forall l q, two l = Ok q -> l = [fst q; snd q]) by (intros [|u [|w [|]]] q; cbn; try discriminate; intros T; injection T as <-; reflexivity).
  apply bind_ok in E; destruct E as (xb & Hxb & E). apply need_ok in Hxb. apply bind_ok in E; destruct E as (xs & Hxs & E). apply Two in Hxs; subst xb.
  apply bind_ok in E; destruct E as (yb & Hyb & E). apply need_ok in Hyb. apply bind_ok in E; destruct E as (ys & Hys & E). apply Two in Hys; subst yb.
  apply bind_ok in E; destruct E as (dx & Hdx & E). apply need_ok in Hdx. apply bind_ok in E; destruct E as (dy & Hdy & E). apply need_ok in Hdy.
  apply bind_ok in E; destruct E as (fvs & Hm & E). injection E as <-. apply flow_mapped in Hm.
  exists p, zs, hs, isel, (fst xs), (snd xs), (fst ys), (snd ys), dx, dy. do 2 eexists. exists vs, fvs. eexists.
  split; [apply in_or_app; right; left; reflexivity|].
  split; [exact Hp|split; [exact Hv|split; [exact Hm|split; [exact Hz|]]]].
  split.
  { intros A l l' E. unfold chosen. destruct all; [subst isel; cbn in E; congruence|]. destruct Hi as (idx & E1 & ->). exists idx. split; [exact E1|apply isel_entries, E]. }
  split; [exact Hxb|split; [exact Hyb|split; [exact Hdx|split; [exact Hdy|]]]].
  split; [intros D X; destruct (WindIO_Props.C184_grid _ _ _ D X) as (A & B & _); split; assumption|].
  split; [intros D X; destruct (WindIO_Props.C184_grid _ _ _ D X) as (A & B & _); split; assumption|].
  destruct zs; cbn [heights] in Hh.
  - apply need_ok, Hh.
  - injection Hh as <-. apply hubs_sorted.
  - apply bind_ok in Hh; destruct Hh as (zb & Hzb & E). apply need_ok in Hzb. apply bind_ok in E; destruct E as (q & Hq & E). apply Two in Hq; subst zb.
    apply bind_ok in E; destruct E as (zn & Hzn & E). apply need_ok in Hzn.
    destruct (Grid_Model.linspace (fst q) (snd q) zn) as [l|] eqn:El; [|discriminate]. injection E as ->.
    unfold Grid_Model.linspace in El. destruct (zn <? 0)%Z eqn:Es; [discriminate|]. apply Z.ltb_ge in Es. injection El as <-.
    exists (fst q), (snd q), (Z.to_nat zn). rewrite Z2Nat.id by exact Es. split; [exact Hzb|split; [exact Hzn|]]. rewrite map_length, seq_length. split; [reflexivity|].
    intros k Hk. rewrite nth_error_map. rewrite (nth_error_nth' _ 0%nat) by (rewrite seq_length; exact Hk). rewrite seq_nth by exact Hk. reflexivity.
  - injection Hh as <-. reflexivity.
  - discriminate.
Qed.
Print Assumptions C264_flow_partial.
(** REFUTED: with an empty subset of states the turbine file has all states *)
Theorem C264_empty_refuted hubs r dir outs t c fr : read_outputs hubs r = Ok (dir, outs) -> r_turb r = Some t -> t_report t <> Some false ->
  r_cases r = Some c -> c_all c = Some false -> c_subset c = Some [] ->
  exists o, In o outs /\ forall st tab, table_file fr o = Ok (st, tab) -> st = states fr.
Proof.
  intros H Ht Hrep Hc Ha Hs. destruct (read_parts _ _ _ _ H) as (c' & al & isel & ts & fs & Hc' & Ha' & Hi & Hts & Hfs & ->).
  rewrite Hc in Hc'; injection Hc' as <-. rewrite Ha in Ha'; injection Ha' as <-. destruct Hi as (idx & E1 & ->). rewrite Hs in E1; injection E1 as <-.
  rewrite Ht in Hts. unfold read_turbine in Hts.
  replace (match t_report t with Some b => b | None => true end) with true in Hts by (destruct (t_report t) as [[]|]; congruence).
  apply bind_ok in Hts; destruct Hts as (names & Hn & Hts). apply bind_ok in Hts; destruct Hts as (fvs & Hm & Hts). injection Hts as <-.
  eexists. split; [left; reflexivity|]. intros st tab E. cbn [table_file] in E. apply bind_ok in E; destruct E as (tab' & Et & E). cbn in E. injection E as <- _. reflexivity.
Qed.
Print Assumptions C264_empty_refuted.
(** REFUTED: however many heights are requested, the flow file has the last one only *)
Theorem C264_heights_refuted hs z isel x0 x1 y0 y1 nx ny vs file : flow_heights (OSlices (hs ++ [z]) isel x0 x1 y0 y1 nx ny vs file) = Some z.
Proof. cbn. rewrite fold_left_app. reflexivity. Qed.
Print Assumptions C264_heights_refuted.
(** REFUTED: a request for any other result of turbines, or any other flow variable, raises KeyError, although the results have it *)
Theorem C264_names_refuted hubs r t c all vs v : r_cases r = Some c -> c_all c = Some all -> (all = false -> c_subset c <> None) ->
  r_turb r = Some t -> t_report t <> Some false -> t_vars t = Some vs -> In v vs -> v <> "power" -> v <> "rotor_effective_velocity" ->
  read_outputs hubs r = Err KeyError.
Proof.
  intros Hc Ha Hs Ht Hrep Hv Hin N1 N2. unfold read_outputs. rewrite Hc, Ha. cbn [need bind].
  assert (E : exists isel, (if all then Ok None else (do l <- need (c_subset c); Ok (Some l))) = Ok isel).
  { destruct all; [eexists; reflexivity|]. destruct (c_subset c); [eexists; reflexivity|]. destruct (Hs eq_refl eq_refl). }
  destruct E as (isel & ->). cbn [bind]. rewrite Ht. unfold read_turbine.
  replace (match t_report t with Some b => b | None => true end) with true by (destruct (t_report t) as [[]|]; congruence).
  rewrite Hv. cbn [need bind]. rewrite (mapped_bad turb_vmap vs v Hin); [reflexivity|]. cbn.
  destruct (String.eqb_spec v "power"); [contradiction|]. destruct (String.eqb_spec v "rotor_effective_velocity"); [contradiction|reflexivity].
Qed.
Print Assumptions C264_names_refuted.
(** REFUTED: a request without cases_run raises KeyError, although the code gives it a default *)
Theorem C264_cases_refuted hubs r : r_cases r = None -> read_outputs hubs r = Err KeyError.
Proof. intros H. unfold read_outputs. rewrite H. reflexivity. Qed.
Print Assumptions C264_cases_refuted.
(** proved: the outputs go to the requested folder and files, else to the documented ones, and nothing is written that is not asked for *)
Theorem C264_files hubs r dir outs : read_outputs hubs r = Ok (dir, outs) ->
  (forall d, r_folder r = Some d -> dir = d) /\ (r_folder r = None -> dir = ".") /\
  (forall vs names ds file isel, In (OTable vs names ds file isel) outs -> exists t, r_turb r = Some t /\ t_report t <> Some false /\
     (forall n, t_file t = Some n -> file = n) /\ (t_file t = None -> file = "turbine_outputs.nc")) /\
  (forall hs isel x0 x1 y0 y1 nx ny vs file, In (OSlices hs isel x0 x1 y0 y1 nx ny vs file) outs -> exists f, r_flow r = Some f /\ f_report f <> Some false /\
     (forall n, f_file f = Some n -> file = n) /\ (f_file f = None -> file = "flow_field.nc")).
Proof.
  intros H. destruct (read_parts _ _ _ _ H) as (c & al & isel & ts & fs & Hc & Ha & Hi & Hts & Hfs & ->).
  assert (Hd : dir = match r_folder r with Some d => d | None => "." end).
  { unfold read_outputs in H. apply bind_ok in H; destruct H as (al' & _ & H). apply bind_ok in H; destruct H as (i' & _ & H).
    apply bind_ok in H; destruct H as (ts' & _ & H). apply bind_ok in H; destruct H as (fs' & _ & H). injection H as H _. symmetry; exact H. }
  split; [intros d E; rewrite E in Hd; exact Hd|split; [intros E; rewrite E in Hd; exact Hd|]].
  assert (Kt : forall o, In o ts -> exists t vs names ds il, r_turb r = Some t /\ t_report t <> Some false /\ o = OTable vs names ds (match t_file t with Some f => f | None => "turbine_outputs.nc" end) il).
  { intros o Ho. unfold read_turbine in Hts. destruct (r_turb r) as [t|]; [|injection Hts as <-; destruct Ho].
    destruct (match t_report t with Some b => b | None => true end) eqn:Er; [|injection Hts as <-; destruct Ho].
    apply bind_ok in Hts; destruct Hts as (nm & _ & Hts). apply bind_ok in Hts; destruct Hts as (fvs & _ & Hts). injection Hts as <-. destruct Ho as [<- | []].
    exists t. do 4 eexists. split; [reflexivity|split; [destruct (t_report t) as [[]|]; congruence|reflexivity]]. }
  assert (Kf : forall o, In o fs -> exists f hs il x0 x1 y0 y1 nx ny vs, r_flow r = Some f /\ f_report f <> Some false /\ o = OSlices hs il x0 x1 y0 y1 nx ny vs (match f_file f with Some n => n | None => "flow_field.nc" end)).
  { intros o Ho. unfold read_flow in Hfs. destruct (r_flow r) as [f|]; [|injection Hfs as <-; destruct Ho].
    destruct (match f_report f with Some b => b | None => true end) eqn:Er; [|injection Hfs as <-; destruct Ho].
    do 5 (apply bind_ok in Hfs; destruct Hfs as (? & _ & Hfs)). match type of Hfs with (if ?b then _ else _) = _ => destruct b; [|discriminate] end.
    do 7 (apply bind_ok in Hfs; destruct Hfs as (? & _ & Hfs)). injection Hfs as <-. destruct Ho as [<- | []].
    exists f. do 9 eexists. split; [reflexivity|split; [destruct (f_report f) as [[]|]; congruence|reflexivity]]. }
  split.
  - intros vs names ds file il Hin. apply in_app_or in Hin. destruct Hin as [Hin|Hin].
    + destruct (Kt _ Hin) as (t & ? & ? & ? & ? & A & B & E). injection E as _ _ _ E _. exists t. split; [exact A|split; [exact B|]].
      split; [intros n En|intros En]; rewrite En in E; exact E.
    + destruct (Kf _ Hin) as (? & ? & ? & ? & ? & ? & ? & ? & ? & ? & _ & _ & E). discriminate.
  - intros hs il x0 x1 y0 y1 nx ny vs file Hin. apply in_app_or in Hin. destruct Hin as [Hin|Hin].
    + destruct (Kt _ Hin) as (? & ? & ? & ? & ? & _ & _ & E). discriminate.
    + destruct (Kf _ Hin) as (f & ? & ? & ? & ? & ? & ? & ? & ? & ? & A & B & E). injection E as _ _ _ _ _ _ _ _ _ E. exists f. split; [exact A|split; [exact B|]].
      split; [intros n En|intros En]; rewrite En in E; exact E.
Qed.
Print Assumptions C264_files.

Definition example_request (z : zsampling) (subset : list Z) : request :=
  {| r_folder := None; r_cases := Some {| c_all := Some false; c_subset := Some subset |};
     r_turb := Some {| t_report := None; t_file := None; t_vars := Some ["power"; "rotor_effective_velocity"] |};
     r_flow := Some {| f_report := Some true; f_file := None; f_vars := Some ["wind_speed"];
       f_planes := Some {| p_z := Some z; p_list := Some [50; 100]; p_zb := Some [0; 100]; p_zn := Some 3%Z; p_grid := Some true;
         p_xb := Some [0; 1000]; p_yb := Some [0; 500]; p_dx := Some 300; p_dy := Some 100 |} |} |}.
Example C264_nonvacuous :
  (forall z subset, z <> ZOther -> exists outs, read_outputs [90; 120; 90] (example_request z subset) = Ok (".", outs) /\ length outs = 2%nat) /\
  (let fr := {| states := [10; 20; 30]%Z; fvars := [("P", [[1; 2]; [3; 4]; [5; 6]]); ("REWS", [[7; 7]; [8; 8]; [9; 9]])] |} in
   (forall n v, turb_meaning n v -> exists rows, lookup v (fvars fr) = Some rows /\ length rows = length (states fr)) /\
   Forall (fun i => - Z.of_nat (length (states fr)) <= i < Z.of_nat (length (states fr)))%Z [0; -1]%Z /\
   entries (states fr) [0; -1]%Z [10; 30]%Z).
Proof.
  split; [|cbv zeta; split; [|split]].
  - intros z subset Hz. destruct z; try (eexists; split; [cbn; reflexivity|reflexivity]). destruct (Hz eq_refl).
  - intros n v []; eexists; split; reflexivity.
  - repeat constructor; cbn; lia.
  - unfold entries. cbn. repeat constructor; lia.
Qed.
