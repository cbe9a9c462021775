(** C179-C185: reading windIO input. *)
From Coq Require Import String.
From Verif Require Import RBase Wrg_Model Wrg_Proofs WindIO_Model WindIO_Spec WindIO_Proofs.
From Verif Require Params_Model.
Local Open Scope R_scope.
Local Notation length := List.length.

(** the names that may be given as numbers without becoming coordinates, except for the turbulence
    intensity *)
Definition constant_name (n : wname) : Prop :=
  n = Wprobability \/ n = Wsector_probability \/ n = WLMO \/ n = Wz0 \/ n = Wreference_height.

Lemma adds_number n v x : wio2foxes n = Some v -> constant_name n -> adds_field n (DNum x) v (A0 x, []).
Proof.
  intros W C. split; [exact W|]. left. exists x. repeat split.
  destruct C as [-> | [-> | [-> | [-> | ->]]]]; exact I.
Qed.
Lemma adds_array n v a ds vs : wio2foxes n = Some v -> mapdims ds = Some vs -> length vs = ndim a -> adds_field n (DField a ds) v (a, vs).
Proof. intros W M L. split; [exact W|]. right. exists a, ds, vs. auto. Qed.
Lemma number_var n v : wio2foxes n = Some v -> constant_name n -> v <> TI /\ v <> RHO.
Proof. intros W [-> | [-> | [-> | [-> | ->]]]]; injection W as <-; split; discriminate. Qed.
Lemma no_rho n : wio2foxes n <> Some RHO.
Proof. destruct n; discriminate. Qed.

(** C179: a variable over time has its given value at every time. *)
Theorem C179_series_partial : forall l ts data ov fx p n v vals i,
  read_site l = Ok (Timeseries ts data ov fx p) ->
  only l n v (DField (A1 vals) [Wtime]) ->
  value_at (Timeseries ts data ov fx p) v i = nth_error vals i /\ length vals = length ts.
Proof.
  intros l ts data ov fx p n v vals i R O. destruct (read_site_inv _ _ R) as (t & E & N1 & N2 & [(ts' & ov' & p' & C & L & Q)|(ts' & hs & ov' & _ & _ & Q)]); [|discriminate Q].
  injection Q as -> -> -> -> ->.
  assert (G : get v (fields t) = Some (A1 vals, [TIME])).
  { eapply only_get; [exact O| |exact E]. apply adds_array; [apply O|reflexivity|reflexivity]. }
  assert (D : get v (time_data (fields t)) = Some vals) by (rewrite get_time_data, G by exact N1; reflexivity).
  unfold value_at. rewrite D. split; [reflexivity|]. eapply L. apply get_in. exact D.
Qed.
(** A constant, other than the turbulence intensity, has its value at all times. *)
Theorem C179_constant_partial : forall l ts data ov fx p n v x i,
  read_site l = Ok (Timeseries ts data ov fx p) ->
  only l n v (DNum x) -> constant_name n ->
  value_at (Timeseries ts data ov fx p) v i = Some x.
Proof.
  intros l ts data ov fx p n v x i R O K. destruct (read_site_inv _ _ R) as (t & E & N1 & N2 & [(ts' & ov' & p' & C & L & Q)|(ts' & hs & ov' & _ & _ & Q)]); [|discriminate Q].
  injection Q as -> -> -> -> ->. assert (W : wio2foxes n = Some v) by apply O.
  assert (G : get v (fields t) = Some (A0 x, [])) by (eapply only_get; [exact O|now apply adds_number|exact E]).
  assert (D : get v (time_data (fields t)) = None) by (rewrite get_time_data, G by exact N1; reflexivity).
  destruct (number_var _ _ W K) as (T1 & T2).
  unfold value_at. rewrite D, get_fix by apply fixval_nodup. rewrite D, fixval_get, get_const_data, G by exact N1.
  destruct v; try reflexivity; try contradiction. rewrite G. now destruct (get Z0 (fields t)) as [[? ?]|].
Qed.
(** Without a turbulence intensity it is 0.05; the density is always 1.225; the times are the given ones. *)
Theorem C179_defaults : forall l ts data ov fx p i,
  read_site l = Ok (Timeseries ts data ov fx p) ->
  (silent l TI -> value_at (Timeseries ts data ov fx p) TI i = Some (5 / 100)) /\
  value_at (Timeseries ts data ov fx p) RHO i = Some (1225 / 1000) /\
  (forall d, only l Wtime TIME d -> d = DList (A1 ts)).
Proof.
  intros l ts data ov fx p i R. destruct (read_site_inv _ _ R) as (t & E & N1 & N2 & [(ts' & ov' & p' & C & L & Q)|(ts' & hs & ov' & _ & _ & Q)]); [|discriminate Q].
  injection Q as -> -> -> -> ->.
  assert (SI : forall v, silent l v -> get v (time_data (fields t)) = None /\ get v (const_data (fields t)) = None).
  { intros v S. destruct (silent_fields v _ _ _ S E) as (G & _). rewrite get_time_data, get_const_data, G by exact N1. auto. }
  split; [|split].
  - intros S. destruct (SI _ S) as (A & B). unfold value_at. now rewrite A, get_fix, A, fixval_get by apply fixval_nodup.
  - destruct (SI RHO) as (A & B); [intros n d _; apply no_rho|]. unfold value_at. now rewrite A, get_fix, A, fixval_get by apply fixval_nodup.
  - intros d O. destruct (accepted _ _ _ Wtime d E (proj1 O)) as (u & u' & RF).
    destruct (read_field_cases _ _ _ _ RF) as [(k & Q & _)|[(v & e & (W & A) & U)|(v & c & A & U)]]; [discriminate Q| |].
    + exfalso. destruct A as [(x & _ & _ & F)|(a & ds & vs & -> & _)]; [exact F|]. cbn in RF. discriminate RF.
    + assert (V : v = TIME) by (destruct A as (W & _); now injection W as <-). subst v.
      pose proof (coord_value _ _ _ _ _ _ O E _ A) as G. rewrite C in G. cbn in G. injection G as <-.
      destruct A as (_ & [(x & _ & F)|(y & -> & F)] & _); [discriminate F|]. now injection F as <-.
Qed.
(** A constant turbulence intensity is overwritten by the default. *)
Theorem C179_ti_refuted : forall l ts data ov fx p x i,
  read_site l = Ok (Timeseries ts data ov fx p) ->
  only l Wturbulence_intensity TI (DNum x) ->
  value_at (Timeseries ts data ov fx p) TI i = Some (5 / 100).
Proof.
  intros l ts data ov fx p x i R O. destruct (read_site_inv _ _ R) as (t & E & N1 & N2 & [(ts' & ov' & p' & C & L & Q)|(ts' & hs & ov' & _ & _ & Q)]); [|discriminate Q].
  injection Q as -> -> -> -> ->.
  assert (G : get TI (fields t) = Some (A0 x, [])).
  { eapply only_get; [exact O| |exact E]. split; [reflexivity|]. left. exists x. auto. }
  assert (D : get TI (time_data (fields t)) = None) by (rewrite get_time_data, G by exact N1; reflexivity).
  unfold value_at. now rewrite D, get_fix, D, fixval_get by apply fixval_nodup.
Qed.
(** What the names of windIO mean, and which entries are skipped. *)
Theorem C179_names : (forall n v, wio2foxes n = Some v <->
  In (n, v) [(Wtime, TIME); (Wx, X); (Wy, Y); (Wheight, H); (Wwind_turbine, TURBINE); (Wwind_direction, WD); (Wwind_speed, WS);
             (Wprobability, WEIGHT); (Wsector_probability, SECP); (Wturbulence_intensity, TI); (WLMO, MOL); (Wz0, Z0); (Wreference_height, H)]) /\
  (forall k d l1 l2, read_site (l1 ++ (WIgn k, d) :: l2) = read_site (l1 ++ l2)) /\
  (forall k d l1 l2 st, read_site (l1 ++ (WOther k, d) :: l2) <> Ok st).
Proof.
  split; [|split].
  - intros n v. split.
    + destruct n; cbn [wio2foxes]; intros Q; try discriminate Q; injection Q as <-; cbn; tauto.
    + intros I. cbn in I. repeat (destruct I as [I|I]; [injection I as <- <-; reflexivity|]). destruct I.
  - intros k d l1 l2. unfold read_site. f_equal. generalize (mksite [] []). induction l1 as [|[n e] l1 IH]; intros s; [reflexivity|].
    cbn [app read_fields]. destruct (read_field n e s); [apply IH|reflexivity].
  - intros k d l1 l2 st. unfold read_site. generalize (mksite [] []). induction l1 as [|[n e] l1 IH]; intros s; [discriminate|].
    cbn [app read_fields]. destruct (read_field n e s); [apply IH|discriminate].
Qed.
Print Assumptions C179_names.
Print Assumptions C179_series_partial.
Print Assumptions C179_constant_partial.
Print Assumptions C179_defaults.
Print Assumptions C179_ti_refuted.

(** decides what a concrete resource says *)
Ltac decide_entry :=
  unfold only, silent;
  match goal with
  | |- _ /\ _ /\ _ => split; [cbn; tauto|split; [reflexivity|]]
  | _ => idtac
  end;
  intros ? ? I; cbn in I;
  repeat (destruct I as [I|I]; [injection I as <- <-; intros W; first [discriminate W | now split]|]); destruct I.
(** a time series with wind data, an ABL profile and a constant turbulence intensity of 0.1 *)
Definition demo_series : list (wname * wdata) :=
  [(Wtime, DList (A1 [0; 1; 2])); (Wwind_speed, DField (A1 [8; 9; 10]) [Wtime]);
   (Wwind_direction, DField (A1 [270; 271; 272]) [Wtime]); (Wz0, DNum (1 / 10));
   (Wreference_height, DNum 100); (Wturbulence_intensity, DNum (1 / 10)); (WIgn 3, DOther)].
Example C179_witness : exists data ov fx,
  read_site demo_series = Ok (Timeseries [0; 1; 2] data ov fx PNeutral) /\
  only demo_series Wwind_speed WS (DField (A1 [8; 9; 10]) [Wtime]) /\
  only demo_series Wreference_height H (DNum 100) /\
  only demo_series Wturbulence_intensity TI (DNum (1 / 10)) /\ silent demo_series MOL.
Proof.
  eexists _, _, _. split; [reflexivity|].
  repeat (split; [first [now decide_entry | reflexivity]|]); first [now decide_entry | reflexivity].
Qed.

(** C180: whatever is accepted has a list of times, and no coordinates other than time and height. *)
Theorem C180_accepted : forall l s,
  NoDup (map fst l) -> read_site l = Ok s ->
  (exists ts, In (Wtime, DList (A1 ts)) l) /\
  forall n d, In (n, d) l -> (exists x, d = DNum x) \/ (exists a, d = DList a) ->
    n = Wtime \/ n = Wheight \/ constant_name n \/ n = Wturbulence_intensity \/ exists k, n = WIgn k.
Proof.
  intros l s N R. destruct (read_site_inv _ _ R) as (t & E & N1 & N2 & C).
  assert (K : (exists ts, get TIME (coords t) = Some (A1 ts)) /\ forall v, In v (keys (coords t)) -> v = TIME \/ v = H).
  { destruct C as [(ts & ov & p & C & _)|(ts & hs & ov & [C|C] & _)]; rewrite C; split; try (eexists; reflexivity); cbn; intuition. }
  destruct K as ((ts & K1) & K2). split.
  - exists ts. assert (I : In TIME (keys (coords t))) by (apply get_in in K1; apply in_map_iff; exists (TIME, A1 ts); auto).
    destruct (coord_given _ _ _ _ E I) as [[]|(n & d & c & J & A)].
    assert (n = Wtime) by (destruct A as (W & _); destruct n; try discriminate W; reflexivity). subst n.
    assert (O : only l Wtime TIME d).
    { split; [exact J|]. split; [reflexivity|]. intros n' d' I' W'. assert (n' = Wtime) by (destruct n'; try discriminate W'; reflexivity). subst n'.
      split; [reflexivity|]. clear - N J I'. induction l as [|[n e] l IH]; [destruct J|]. cbn in N. inversion N as [|? ? M D]; subst.
      destruct J as [Q|J], I' as [Q'|I'].
      - congruence.
      - exfalso. injection Q as -> ->. apply M. apply in_map_iff. exists (Wtime, d'). auto.
      - exfalso. injection Q' as -> ->. apply M. apply in_map_iff. exists (Wtime, d). auto.
      - auto. }
    pose proof (coord_value _ _ _ _ _ _ O E _ A) as G. rewrite K1 in G. injection G as <-.
    destruct A as (_ & [(x & _ & F)|(y & -> & F)] & _); [discriminate F|]. injection F as <-. exact J.
  - intros n d I D. destruct (accepted _ _ _ n d E I) as (u & u' & RF).
    destruct (read_field_cases _ _ _ _ RF) as [(k & Q & _)|[(v & e & (W & A) & U)|(v & c & A & U)]].
    + right. right. right. right. eauto.
    + destruct A as [(x & -> & _ & F)|(a & ds & vs & -> & _)].
      * destruct n; try contradiction; unfold constant_name; tauto.
      * destruct D as [(? & D)|(? & D)]; discriminate D.
    + assert (J : In v (keys (coords t))) by (eapply coord_kept; [exact E|]; right; eauto 6).
      destruct A as (W & _ & M). destruct (K2 _ J) as [-> | ->]; destruct n; try discriminate W; try contradiction; tauto.
Qed.
(** A single wind speed or direction, or a list of them (a wind rose), is never accepted. *)
Theorem C180_single_refuted : forall l n d,
  NoDup (map fst l) -> In (n, d) l -> n = Wwind_speed \/ n = Wwind_direction ->
  (exists x, d = DNum x) \/ (exists a, d = DList a) -> forall s, read_site l <> Ok s.
Proof.
  intros l n d N I C D s R. destruct (C180_accepted l s N R) as (_ & F). unfold constant_name in F.
  destruct (F n d I D) as [-> | [-> | [K | [-> | (k & ->)]]]];
  destruct C as [C|C]; subst; try discriminate; intuition discriminate.
Qed.
Print Assumptions C180_accepted.
Print Assumptions C180_single_refuted.

(** a single wind condition and a wind rose: both are rejected *)
Definition demo_single := [(Wwind_speed, DNum 8); (Wwind_direction, DNum 270); (Wturbulence_intensity, DNum (1 / 10))].
Definition demo_rose := [(Wwind_speed, DList (A1 [8; 10])); (Wwind_direction, DList (A1 [0; 180]));
  (Wprobability, DField (A2 [[1 / 4; 1 / 4]; [1 / 4; 1 / 4]]) [Wwind_direction; Wwind_speed])].
Example C180_witness :
  (NoDup (map fst demo_single) /\ (forall s, read_site demo_single <> Ok s)) /\
  (NoDup (map fst demo_rose) /\ (forall s, read_site demo_rose <> Ok s)).
Proof.
  assert (A : NoDup (map fst demo_single)) by (cbn; repeat constructor; cbn; intuition discriminate).
  assert (B : NoDup (map fst demo_rose)) by (cbn; repeat constructor; cbn; intuition discriminate).
  split; (split; [assumption|]).
  - apply (C180_single_refuted demo_single Wwind_speed (DNum 8) A); [left; reflexivity|tauto|eauto].
  - apply (C180_single_refuted demo_rose Wwind_speed (DList (A1 [8; 10])) B); [left; reflexivity|tauto|eauto].
Qed.

(** C181: data over time and height, in either order, has its value at each time and height. *)
Theorem C181_heights_partial : forall l ts hs data ov fx n v m,
  read_site l = Ok (MultiHeight ts hs data ov fx) ->
  Forall (fun x => length x = ncols m) m ->
  (only l n v (DField (A2 m) [Wtime; Wheight]) ->
    matrix (length ts) (length hs) m /\
    forall i j, value_at_height (MultiHeight ts hs data ov fx) v i j = entry m i j) /\
  (only l n v (DField (A2 m) [Wheight; Wtime]) ->
    forall i j, value_at_height (MultiHeight ts hs data ov fx) v i j = entry m j i).
Proof.
  intros l ts hs data ov fx n v m R RM. destruct (read_site_inv _ _ R) as (t & E & N1 & N2 & [(ts' & ov' & p' & C & L & Q)|(ts' & hs' & ov' & _ & MX & Q)]); [discriminate Q|].
  injection Q as -> -> -> -> ->.
  assert (V : forall m' vs dm mm, get v (fields t) = Some (A2 m', dm) -> dm = vs :: mm -> get v (height_data (fields t)) = Some m ->
     forall i j, value_at_height (MultiHeight ts' hs' (height_data (fields t)) ov' (fix_vars (height_data (fields t)) (const_data (fields t)) (fixval_of (fields t)))) v i j = entry m i j).
  { intros m' vs dm mm G DM D i j. unfold value_at_height. rewrite get_fix, D, get_const_data, G, DM by (exact N1 || apply fixval_nodup). reflexivity. }
  split; intros O.
  - assert (G : get v (fields t) = Some (A2 m, [TIME; H])) by (eapply only_get; [exact O|apply adds_array; [apply O|reflexivity|reflexivity]|exact E]).
    assert (D : get v (height_data (fields t)) = Some m) by (rewrite get_height_data, G by exact N1; reflexivity).
    split; [eapply MX, get_in, D|]. eapply V; eauto.
  - assert (G : get v (fields t) = Some (A2 m, [H; TIME])) by (eapply only_get; [exact O|apply adds_array; [apply O|reflexivity|reflexivity]|exact E]).
    assert (D : get v (height_data (fields t)) = Some (transpose (ncols m) m)) by (rewrite get_height_data, G by exact N1; reflexivity).
    intros i j. unfold value_at_height. rewrite get_fix, D, get_const_data, G by (exact N1 || apply fixval_nodup).
    rewrite <- (transpose_entry (ncols m)) by exact RM. reflexivity.
Qed.
(** Constants other than the turbulence intensity keep their value. *)
Theorem C181_constant_partial : forall l ts hs data ov fx n v x i j,
  read_site l = Ok (MultiHeight ts hs data ov fx) ->
  only l n v (DNum x) -> constant_name n ->
  value_at_height (MultiHeight ts hs data ov fx) v i j = Some x.
Proof.
  intros l ts hs data ov fx n v x i j R O K. destruct (read_site_inv _ _ R) as (t & E & N1 & N2 & [(ts' & ov' & p' & C & L & Q)|(ts' & hs' & ov' & _ & MX & Q)]); [discriminate Q|].
  injection Q as -> -> -> -> ->. assert (W : wio2foxes n = Some v) by apply O.
  assert (G : get v (fields t) = Some (A0 x, [])) by (eapply only_get; [exact O|now apply adds_number|exact E]).
  assert (D : get v (height_data (fields t)) = None) by (rewrite get_height_data, G by exact N1; reflexivity).
  destruct (number_var _ _ W K) as (T1 & T2).
  unfold value_at_height. rewrite get_fix by apply fixval_nodup. rewrite D, fixval_get, get_const_data, G by exact N1.
  destruct v; try reflexivity; try contradiction. rewrite G. now destruct (get Z0 (fields t)) as [[? ?]|].
Qed.
(** Data over time only is dropped if there are heights; the turbulence intensity then is 0.05, as it
    is if a constant was given. *)
Theorem C181_time_only_refuted : forall l ts hs data ov fx n v vals x i j,
  read_site l = Ok (MultiHeight ts hs data ov fx) ->
  (only l n v (DField (A1 vals) [Wtime]) ->
     value_at_height (MultiHeight ts hs data ov fx) v i j = if veqb v TI then Some (5 / 100) else None) /\
  (only l Wturbulence_intensity TI (DNum x) -> value_at_height (MultiHeight ts hs data ov fx) TI i j = Some (5 / 100)).
Proof.
  intros l ts hs data ov fx n v vals x i j R. destruct (read_site_inv _ _ R) as (t & E & N1 & N2 & [(ts' & ov' & p' & C & L & Q)|(ts' & hs' & ov' & _ & MX & Q)]); [discriminate Q|].
  injection Q as -> -> -> -> ->. split; intros O.
  - assert (G : get v (fields t) = Some (A1 vals, [TIME])) by (eapply only_get; [exact O|apply adds_array; [apply O|reflexivity|reflexivity]|exact E]).
    assert (D : get v (height_data (fields t)) = None) by (rewrite get_height_data, G by exact N1; reflexivity).
    assert (W : wio2foxes n = Some v) by apply O.
    unfold value_at_height. rewrite get_fix by apply fixval_nodup. rewrite D, fixval_get, get_const_data, G by exact N1.
    destruct v; try reflexivity; [|now apply no_rho in W]. rewrite G. now destruct (get Z0 (fields t)) as [[? ?]|].
  - assert (G : get TI (fields t) = Some (A0 x, [])) by (eapply only_get; [exact O|split; [reflexivity|left; exists x; auto]|exact E]).
    assert (D : get TI (height_data (fields t)) = None) by (rewrite get_height_data, G by exact N1; reflexivity).
    unfold value_at_height. now rewrite get_fix, D, fixval_get by apply fixval_nodup.
Qed.
Print Assumptions C181_heights_partial.
Print Assumptions C181_constant_partial.
Print Assumptions C181_time_only_refuted.

(** wind speed by time and height, wind direction by height and time, turbulence intensity by time *)
Definition demo_heights : list (wname * wdata) :=
  [(Wheight, DList (A1 [50; 100])); (Wtime, DList (A1 [0; 1; 2]));
   (Wwind_speed, DField (A2 [[8; 9]; [9; 10]; [10; 11]]) [Wtime; Wheight]);
   (Wwind_direction, DField (A2 [[270; 271; 272]; [280; 281; 282]]) [Wheight; Wtime]);
   (Wturbulence_intensity, DField (A1 [1 / 10; 2 / 10; 3 / 10]) [Wtime])].
Example C181_witness : exists data ov fx,
  read_site demo_heights = Ok (MultiHeight [0; 1; 2] [50; 100] data ov fx) /\
  only demo_heights Wwind_speed WS (DField (A2 [[8; 9]; [9; 10]; [10; 11]]) [Wtime; Wheight]) /\
  only demo_heights Wwind_direction WD (DField (A2 [[270; 271; 272]; [280; 281; 282]]) [Wheight; Wtime]) /\
  only demo_heights Wturbulence_intensity TI (DField (A1 [1 / 10; 2 / 10; 3 / 10]) [Wtime]) /\
  value_at_height (MultiHeight [0; 1; 2] [50; 100] data ov fx) WD 2 1 = Some 282.
Proof.
  eexists _, _, _. split; [reflexivity|].
  repeat (split; [first [now decide_entry | reflexivity]|]); first [now decide_entry | reflexivity].
Qed.

(** C182: the farm consists of the turbines of the layouts, in their order, each at its position and
    of its type. *)
Theorem C182_turbines_partial : forall w q, read_farm w = Ok q ->
  exists qs, q = concat qs /\ Forall2 (placed w) (w_layouts w) qs.
Proof.
  intros w q. unfold read_farm. destruct (type_table w) as [tab|] eqn:T; cbn [bind]; [|discriminate]. intros R.
  apply layouts_split in R as (qs & F & ->). exists qs. split; [reflexivity|]. revert F.
  assert (IMP : forall (P' : layout -> list (R * R * string) -> Prop), (forall y p, read_layout tab y = Ok p -> P' y p) ->
    Forall2 (fun l p => read_layout tab l = Ok p) (w_layouts w) qs -> Forall2 P' (w_layouts w) qs)
    by (intros P' K F; induction F; constructor; auto).
  apply IMP. clear IMP. intros y p P.
  unfold read_layout in P. destruct (add_nth _ _ _ _ _ P) as (L & N). split; [rewrite L; apply zip_length|].
  intros i a b t I. destruct (N i (a, b) t I) as (Z & k & K & J). apply zip_nth in Z as (Z1 & Z2). cbn in Z1, Z2. split; [exact Z1|]. split; [exact Z2|].
  unfold type_table in T. destruct (w_types w) as [tab'|] eqn:WT.
  - destruct (dict_ok tab') eqn:DO; [|discriminate]. injection T as ->. destruct (l_types y) as [ks|] eqn:LT.
    + eapply ti_keyed; eauto.
    + subst k. exfalso. unfold dict_ok in DO. rewrite forallb_forall in DO. specialize (DO _ J). discriminate DO.
  - injection T as <-. destruct J as [J|[]]. injection J as <- <-. destruct (l_types y) as [ks|] eqn:LT; [eapply ti_zero|apply ti_single]; eauto.
Qed.
(** A farm with named types, in which every layout names a known type per turbine, is read. *)
Theorem C182_complete_partial : forall w tab, w_types w = Some tab ->
  (forall k t, In (k, t) tab -> exists s, k = KStr s) ->
  Forall (well_formed tab) (w_layouts w) -> exists q, read_farm w = Ok q.
Proof.
  intros w tab T K F. unfold read_farm, type_table. rewrite T.
  assert (D : dict_ok tab = true) by (apply forallb_forall; intros [k t] I; destruct (K _ _ I) as (s & ->); reflexivity). rewrite D. cbn [bind].
  assert (X : exists qs, Forall2 (fun l p => read_layout tab l = Ok p) (w_layouts w) qs).
  { induction F as [|y ls (ks & LT & L1 & L2 & KN) _ (qs & IH)]; [exists []; constructor|].
    destruct (add_ok tab ks (zip (l_x y) (l_y y)) 0) as (p & P); [rewrite zip_length; cbn; lia|exact KN|].
    exists (p :: qs). constructor; [|exact IH]. unfold read_layout. now rewrite LT. }
  destruct X as (qs & X). exists (concat qs). apply layouts_split. eauto.
Qed.
(** A farm with the single type "turbines" and without maps of types is read; surplus x or y
    coordinates are dropped without notice. *)
Theorem C182_single_refuted : forall w, w_types w = None -> Forall (fun y => l_types y = None) (w_layouts w) ->
  read_farm w = Ok (map (fun p => (p, w_turbines w)) (concat (map (fun y => zip (l_x y) (l_y y)) (w_layouts w)))).
Proof.
  intros w T F. unfold read_farm, type_table. rewrite T. cbn [bind]. apply layouts_split.
  exists (map (fun y => map (fun p => (p, w_turbines w)) (zip (l_x y) (l_y y))) (w_layouts w)). split.
  - induction F as [|y ls Y _ IH]; cbn; constructor; [|exact IH]. unfold read_layout. rewrite Y.
    assert (Z : forall z i, add_turbines [(KInt 0, w_turbines w)] None i z = Ok (map (fun p => (p, w_turbines w)) z)); [|apply Z].
    induction z as [|p z IHz]; intros i; cbn; [reflexivity|]. now rewrite IHz.
  - rewrite concat_map, map_map. reflexivity.
Qed.
(** Types with integer keys are never read, although the layouts' default type is number 0; a map of
    types that is too short is rejected. *)
Theorem C182_integer_refuted : forall w tab k t, w_types w = Some tab -> In (KInt k, t) tab -> read_farm w = Err TypeError.
Proof.
  intros w tab k t T I. unfold read_farm, type_table. rewrite T. destruct (dict_ok tab) eqn:D; [|reflexivity].
  unfold dict_ok in D. rewrite forallb_forall in D. specialize (D _ I). discriminate D.
Qed.
Theorem C182_short_map : forall w y ks, In y (w_layouts w) -> l_types y = Some ks ->
  (length ks < Nat.min (length (l_x y)) (length (l_y y)))%nat -> forall q, read_farm w <> Ok q.
Proof.
  intros w y ks I L S q. unfold read_farm. destruct (type_table w) as [tab|]; cbn [bind]; [|discriminate]. intros R.
  apply layouts_split in R as (qs & F & _).
  assert (X : exists p, read_layout tab y = Ok p).
  { clear - I F. induction F as [|y' p' ls qs P _ IH]; [destruct I|]. destruct I as [-> | I]; eauto. }
  destruct X as (p & P). unfold read_layout in P. rewrite L in P. revert P. apply add_short; [rewrite zip_length; cbn; lia|].
  intros Z. apply (f_equal (@List.length _)) in Z. rewrite zip_length in Z. cbn in Z. lia.
Qed.
Print Assumptions C182_turbines_partial.
Print Assumptions C182_complete_partial.
Print Assumptions C182_single_refuted.
Print Assumptions C182_integer_refuted.
Print Assumptions C182_short_map.

Section FarmWitness.
Local Open Scope string_scope.
Local Open Scope list_scope.
(** two layouts with two named types; a farm with types numbered 0 and 1; x without y *)
Definition demo_types : wfarm :=
  mkwfarm (Some [(KStr "0", "V80"); (KStr "1", "V90")]) "" 
    [mklayout [0; 500] [0; 100] (Some [KStr "1"; KStr "0"]); mklayout [900] [7] (Some [KStr "0"])].
Definition demo_ints : wfarm :=
  mkwfarm (Some [(KInt 0, "V80"); (KInt 1, "V90")]) "" [mklayout [0; 500] [0; 100] (Some [KInt 0; KInt 1])].
Definition demo_single_type : wfarm := mkwfarm None "V80" [mklayout [0; 500; 900] [0; 100] None].
Example C182_witness :
  (forall k t, In (k, t) [(KStr "0", "V80"); (KStr "1", "V90")] -> exists s, k = KStr s) /\
  Forall (well_formed [(KStr "0", "V80"); (KStr "1", "V90")]) (w_layouts demo_types) /\
  read_farm demo_types = Ok [(0, 0, "V90"); (500, 100, "V80"); (900, 7, "V80")] /\
  read_farm demo_ints = Err TypeError /\
  read_farm demo_single_type = Ok [(0, 0, "V80"); (500, 100, "V80")].
Proof.
  split; [|split; [|split; [|split]]]; try reflexivity.
  - cbn. intros k t [Q|[Q|[]]]; injection Q as <- <-; eauto.
  - repeat constructor; eexists; (split; [reflexivity|]); cbn; intuition.
Qed.
End FarmWitness.

(** C183: the wake growth is k_a * TI + k_b; a turbulence model without own coefficient uses the one of
    the wind deficit. *)
Theorem C183_expansion : forall c ti amb, growth (wake_k c) ti amb = Some (expansion c ti amb).
Proof.
  intros [a b fs] ti amb. unfold growth, wake_k, expansion. cbn [k_a k_b fs_ti]. destruct a as [a|].
  - unfold Reqb. destruct (Req_EM_T a 0) as [-> | NZ]; cbn [wk_k wk_ka wk_kb wk_amb].
    + cbn. destruct b; f_equal; ring.
    + unfold WakeK_Model.new_wake_k. cbn. unfold Reqb. destruct (Req_EM_T a 0); [contradiction|]. cbn. destruct b; reflexivity.
  - cbn. destruct b; f_equal; ring.
Qed.
Theorem C183_turbulence : forall d own ti amb,
  growth (ti_wake_k d own) ti amb = Some (expansion (match own with Some c => c | None => d end) ti amb).
Proof. intros d own ti amb. unfold ti_wake_k. apply C183_expansion. Qed.
Print Assumptions C183_expansion.
Print Assumptions C183_turbulence.
Example C183_witness :
  growth (wake_k (mkcoef (Some (1 / 2)) (Some (1 / 100)) true)) (2 / 10) (1 / 10) = Some (6 / 100) /\
  growth (ti_wake_k (mkcoef (Some (1 / 2)) (Some (1 / 100)) true) (Some (mkcoef None (Some (4 / 100)) false))) (2 / 10) (1 / 10) = Some (4 / 100).
Proof. rewrite C183_expansion, C183_turbulence. unfold expansion. cbn. split; f_equal; lra. Qed.

(** C184: the flow field's grid is not coarser than asked for, and has as few points as possible. *)
Theorem C184_grid : forall x0 x1 dx, 0 < dx -> x0 <= x1 ->
  (2 <= n_points x0 x1 dx)%Z /\ (x1 - x0) / IZR (n_points x0 x1 dx - 1) <= dx /\
  forall m, (2 <= m)%Z -> (x1 - x0) / IZR (m - 1) <= dx -> (n_points x0 x1 dx <= m)%Z.
Proof.
  intros x0 x1 dx D X. set (L := x1 - x0). assert (HL : 0 <= L) by (unfold L; lra).
  assert (Q0 : 0 <= L / dx) by (apply Rmult_le_pos; [exact HL|left; now apply Rinv_0_lt_compat]).
  destruct (trunc_nonneg _ Q0) as (TE & T0). pose proof (rfloor_spec (L / dx)) as (F1 & F2). rewrite <- TE in F1, F2.
  set (k := trunc (L / dx)) in *.
  assert (DIV : forall j, (1 <= j)%Z -> (L / IZR j <= dx <-> L / dx <= IZR j)).
  { intros j J. assert (0 < IZR j) by (apply IZR_lt; lia). split; intros A.
    - apply (Rmult_le_compat_r (IZR j)) in A; [|lra]. unfold Rdiv in A. rewrite Rmult_assoc, Rinv_l in A by lra.
      apply (Rmult_le_reg_r dx); [exact D|]. unfold Rdiv. rewrite Rmult_assoc, Rinv_l by lra. lra.
    - apply (Rmult_le_compat_r dx) in A; [|lra]. unfold Rdiv in A. rewrite Rmult_assoc, Rinv_l in A by lra.
      apply (Rmult_le_reg_r (IZR j)); [assumption|]. unfold Rdiv. rewrite Rmult_assoc, Rinv_l by lra. lra. }
  unfold n_points. fold L. fold k. cbv zeta. replace (Z.max k 1 + 1 - 1)%Z with (Z.max k 1) by lia.
  destruct (Rltb dx (L / IZR (Z.max k 1))) eqn:B.
  - apply Rltb_true in B.
    assert (NB : IZR (Z.max k 1) < L / dx).
    { destruct (Rlt_le_dec (IZR (Z.max k 1)) (L / dx)) as [A|A]; [exact A|]. apply DIV in A; [lra|lia]. }
    split; [lia|]. split.
    + replace (Z.max k 1 + 1 + 1 - 1)%Z with (Z.max k 1 + 1)%Z by lia. apply DIV; [lia|].
      assert (IZR k + 1 <= IZR (Z.max k 1 + 1)) by (rewrite plus_IZR; apply Rplus_le_compat_r, IZR_le; lia). lra.
    + intros m M A. apply DIV in A; [|lia]. assert (IZR (Z.max k 1) < IZR (m - 1)) by lra. apply lt_IZR in H. lia.
  - apply Rltb_false in B. split; [lia|]. split; [replace (Z.max k 1 + 1 - 1)%Z with (Z.max k 1) by lia; exact B|].
    intros m M A. apply DIV in A; [|lia]. assert (IZR k <= IZR (m - 1)) by lra. apply le_IZR in H. lia.
Qed.
(** With the bounds in the wrong order the grid has two points, whatever the spacing asked for. *)
Theorem C184_reversed : forall x0 x1 dx, 0 < dx -> x1 < x0 -> n_points x0 x1 dx = 2%Z.
Proof.
  intros x0 x1 dx D X. unfold n_points.
  assert (N : (x1 - x0) / dx < 0) by (unfold Rdiv; rewrite Rmult_comm; apply Ropp_lt_cancel; rewrite Ropp_0, Ropp_mult_distr_r; apply Rmult_lt_0_compat; [now apply Rinv_0_lt_compat|lra]).
  rewrite (trunc_neg _ N). pose proof (rfloor_spec (- ((x1 - x0) / dx))) as (F1 & F2).
  assert (A : (0 <= rfloor (- ((x1 - x0) / dx)))%Z) by (assert (IZR (-1) < IZR (rfloor (- ((x1 - x0) / dx)))) by lra; apply lt_IZR in H; lia).
  replace (Z.max (- rfloor (- ((x1 - x0) / dx))) 1 + 1)%Z with 2%Z by lia. cbv zeta.
  replace (IZR (2 - 1)) with 1 by reflexivity. rewrite (proj2 (Rltb_false _ _)); [reflexivity|]. lra.
Qed.
Print Assumptions C184_grid.
Print Assumptions C184_reversed.
Example C184_witness : n_points 0 1000 300 = 5%Z.
Proof.
  unfold n_points. assert (T : trunc ((1000 - 0) / 300) = 3%Z).
  { unfold trunc. rewrite (proj2 (Rleb_true _ _)) by lra. apply rfloor_unique. lra. }
  rewrite T. cbn. rewrite (proj2 (Rltb_true _ _)); [reflexivity|lra].
Qed.

(** C185: the rotor, the partial wakes, the wake models, the wake frame and the iterative flag of the
    command line have no effect; an output directory is an error. *)
Theorem C185_options_refuted : forall ext x x' s,
  x_odir x = None -> x_odir x' = None -> x_engine x = x_engine x' ->
  foxes_windio ext x s = foxes_windio ext x' s.
Proof. intros ext [o p e i] [o' p' e' i'] s A B C. cbn in A, B, C. subst. reflexivity. Qed.
Theorem C185_odir_refuted : forall ext x s o, x_odir x = Some o -> foxes_windio ext x s = (s, Err AttributeError).
Proof. intros ext x s o E. unfold foxes_windio. rewrite E. reflexivity. Qed.
Print Assumptions C185_options_refuted.
Print Assumptions C185_odir_refuted.
Example C185_witness :
  let s := Params_Model.mkst (Params_Model.mkparams None None None None None None None [Params_Model.mkosec 1 true]) None [] in
  foxes_windio (fun _ _ => None) (mkoptions None [("rotor_model"%string, 7%nat)] (Some 4%nat) true) s
  = foxes_windio (fun _ _ => None) (mkoptions None [("rotor_model"%string, 8%nat)] (Some 4%nat) false) s
  /\ Params_Model.log (fst (foxes_windio (fun _ _ => None) (mkoptions None [] (Some 4%nat) true) s))
     = [Params_Model.EvStart 4; Params_Model.EvCalc []; Params_Model.EvOut 1 true false; Params_Model.EvStop 4].
Proof. split; reflexivity. Qed.
