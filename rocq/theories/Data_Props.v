(** Theorems about data containers. A container is what [init] returns without error, changed by accepted additions. *)
From Verif Require Import RBase Data_Model Data_Proofs.
Local Open Scope R_scope.
Local Notation length := List.length.
Local Open Scope string_scope.
Local Open Scope list_scope.

(** C56: lengths along shared dimensions agree after any accepted history, for all dimensions but "xyh" of the automatic
    entry "txyh" *)
Theorem C56_sizes_agree_partial items loop d0 l d : NoDup (map fst items) -> init items loop = (d0, None) -> adds d0 l = Some d ->
  forall n1 a1 ds1 n2 a2 ds2 i1 i2 c, lookup n1 (ents d) = Some (a1, Some ds1) -> lookup n2 (ents d) = Some (a2, Some ds2) ->
  nth_error ds1 i1 = Some c -> nth_error ds2 i2 = Some c -> (c <> "xyh" \/ (n1 <> "txyh" /\ n2 <> "txyh")) ->
  exists l1 l2, nth_error (shp a1) i1 = Some l1 /\ nth_error (shp a2) i2 = Some l2 /\ (l1 = l2 \/ l1 = 1%nat \/ l2 = 1%nat).
Proof.
  intros N H0 H n1 a1 ds1 n2 a2 ds2 i1 i2 c L1 L2 E1 E2 Hc.
  pose proof (adds_ok l d0 d (init_ok _ _ _ N H0) H) as C. pose proof (C n1 a1 ds1 I L1) as F1. pose proof (C n2 a2 ds2 I L2) as F2.
  destruct (F1 i1 c E1) as (x1 & m1 & A1 & _); [unfold nXYH, nTXYH; tauto|]. destruct (F2 i2 c E2) as (x2 & m2 & A2 & _); [unfold nXYH, nTXYH; tauto|].
  exists x1, x2. split; [assumption|]. split; [assumption|]. eapply (fits_agree (sizes d) n1 a1 ds1 n2 a2 ds2 i1 i2 c); eassumption.
Qed.
Print Assumptions C56_sizes_agree_partial.
(** an addition that would break this raises *)
Theorem C56_conflict_raises_partial items loop d0 l d : NoDup (map fst items) -> init items loop = (d0, None) -> adds d0 l = Some d ->
  forall n1 a1 ds1 i1 c m name a ds i n, lookup n1 (ents d) = Some (a1, Some ds1) -> nth_error ds1 i1 = Some c -> (c <> "xyh" \/ n1 <> "txyh") ->
  nth_error (shp a1) i1 = Some m -> length ds = length (shp a) -> nth_error ds i = Some c -> nth_error (shp a) i = Some n -> n <> m -> n <> 1%nat -> m <> 1%nat ->
  exists d' e, add d name a (Some ds) = (d', Some e).
Proof.
  intros N H0 H n1 a1 ds1 i1 c m name a ds i n L1 E1 Hc Em HL Ei En D1 D2 D3. pose proof (adds_ok l d0 d (init_ok _ _ _ N H0) H) as C.
  destruct (C n1 a1 ds1 I L1 i1 c E1 Hc) as (x & m' & A1 & A2 & A3). rewrite Em in A1. injection A1 as <-. destruct A3 as [A3|A3]; [|contradiction]. subst m'.
  unfold add, entry_checks. rewrite HL, Nat.eqb_refl. cbn [sizes set_entry]. destruct (check_dims_reject ds (sizes d) (shp a) i c n m Ei En A2) as (sz & e & ->); try assumption. eauto.
Qed.
Print Assumptions C56_conflict_raises_partial.
(** False as stated for "xyh": the automatic entry does not register the size of its last dimension. *)
Definition A (s : list nat) : arr := {| shp := s; val := fun _ => 0 |}.
Theorem C56_xyh_refuted m : exists items d0 d a1 a2, NoDup (map fst items) /\ init items ["state"] = (d0, None) /\
  adds d0 [("P", (A [2; m]%nat, Some ["state"; "xyh"]))] = Some d /\
  lookup "txyh" (ents d) = Some (a1, Some ["state"; "xyh"]) /\ lookup "P" (ents d) = Some (a2, Some ["state"; "xyh"]) /\
  nth_error (shp a1) 1 = Some 3%nat /\ nth_error (shp a2) 1 = Some m.
Proof.
  exists [("X", (A [2%nat], Some ["state"])); ("Y", (A [2%nat], Some ["state"])); ("H", (A [2%nat], Some ["state"]))].
  eexists. eexists. eexists. eexists. split; [repeat constructor; cbn; intuition discriminate|].
  split; [reflexivity|]. split; [reflexivity|]. split; [reflexivity|]. split; [reflexivity|]. split; reflexivity.
Qed.
Print Assumptions C56_xyh_refuted.
(** A rejected addition is nevertheless stored: afterwards arrays that share a dimension disagree. *)
Theorem C56_rejected_is_stored_refuted d name a ds d' e : length ds = length (shp a) -> add d name a (Some ds) = (d', Some e) ->
  lookup name (ents d') = Some (a, Some ds) /\ forall k v, k <> name -> lookup k (ents d) = Some v -> lookup k (ents d') = Some v.
Proof. intros HL H. split; [exact (add_stores _ _ _ _ _ _ HL H)|]. intros k v N L. exact (add_keep _ _ _ _ _ _ _ _ N L H). Qed.
Print Assumptions C56_rejected_is_stored_refuted.
Example C56_nonvacuous : exists d0 d d', init [("WS", (A [10; 3]%nat, Some ["state"; "turbine"]))] ["state"] = (d0, None) /\
  adds d0 [("WD", (A [10; 1]%nat, Some ["state"; "turbine"])); ("T", (A [10]%nat, Some ["state"]))] = Some d /\
  add d "bad" (A [9]%nat) (Some ["state"]) = (d', Some ValueError) /\ lookup "bad" (ents d') = Some (A [9]%nat, Some ["state"]) /\ lookup "turbine" (sizes d) = Some 3%nat.
Proof. eexists. eexists. eexists. repeat split; reflexivity. Qed.

(** C90: generated coordinates. Right after generation they enumerate the dimension ... *)
Theorem C90_generated_partial d d' c n : lookup c (ents d) = None -> lookup c (sizes d) = Some n -> In c (all_dims d) -> c <> "txyh" -> auto_update d = (d', None) ->
  exists a, lookup c (ents d') = Some (a, Some [c]) /\ shp a = [n] /\ forall i, (i < n)%nat -> val a [i] = INR i.
Proof.
  intros L Sn Hc Nc H. unfold auto_update in H. destruct (update_txyh d) as (d1, e) eqn:E. destruct e; [discriminate|]. injection H as <-.
  assert (K : lookup c (ents d1) = None /\ lookup c (sizes d1) = Some n /\ In c (all_dims d1)).
  { unfold update_txyh in E. destruct (lookup nTXYH (ents d)) as [?|] eqn:E0; [injection E as <-; auto|].
    destruct (lookup nX (ents d)) as [(x, dx)|]; [|injection E as <-; auto].
    destruct (lookup nY (ents d)) as [(y, dy)|]; [|injection E as <-; auto].
    destruct (lookup nH (ents d)) as [(h, dh)|]; [|injection E as <-; auto].
    destruct (same_dims dx dy && same_dims dx dh); [|injection E as <-; auto].
    destruct (same_shape x y && same_shape x h); [|discriminate]. destruct dx as [ds|]; [|discriminate]. injection E as <-. cbn [ents sizes set_entry].
    rewrite lookup_store_ne by exact Nc. split; [assumption|]. split; [assumption|]. unfold all_dims in *. cbn [ents set_entry].
    assert (S : forall (l : list (string * (arr * option (list string)))), lookup nTXYH l = None -> forall v, store nTXYH v l = l ++ [(nTXYH, v)]).
    { induction l as [|(k', v') l IHl]; intros HN v; [reflexivity|]. cbn [lookup store app] in *. destruct (nTXYH =? k')%string eqn:Ek; [discriminate|]. now rewrite IHl. }
    rewrite S by assumption. rewrite flat_map_app. apply in_or_app. now left. }
  destruct K as (K1 & K2 & K3). clear E. revert d1 K1 K2 K3. intros d1. generalize (all_dims d1). intros l. revert d1. induction l as [|c0 l IH]; intros d1 K1 K2 K3; [destruct K3|].
  cbn [fold_left]. destruct (string_dec c0 c) as [->|Nc0].
  - exists (arange n). split; [|split; [reflexivity|reflexivity]]. apply add_coords_keep. unfold add_coord. rewrite K1, K2. cbn [ents set_entry]. apply lookup_store_eq.
  - destruct K3 as [K3|K3]; [contradiction|]. apply IH; [| |exact K3]; unfold add_coord; destruct (lookup c0 (ents d1)) as [?|]; try assumption; destruct (lookup c0 (sizes d1)); try assumption.
    cbn [ents set_entry]. rewrite lookup_store_ne; [assumption|congruence].
Qed.
Print Assumptions C90_generated_partial.
(** ... but they do not follow when the dimension later grows from one *)
Theorem C90_stale_coordinate_refuted n : (2 <= n)%nat -> exists d0 d, init [("WS", (A [1%nat], Some ["state"]))] ["state"] = (d0, None) /\
  adds d0 [("WD", (A [n], Some ["state"]))] = Some d /\ lookup "state" (sizes d) = Some n /\ lookup "state" (ents d) = Some (arange 1, Some ["state"]).
Proof. intros Hn. eexists. eexists. repeat split; reflexivity. Qed.
Print Assumptions C90_stale_coordinate_refuted.

(** C91: the position array. Created consistently ... *)
Theorem C91_created_partial d d' x y h ds : lookup "txyh" (ents d) = None -> lookup "X" (ents d) = Some (x, Some ds) -> lookup "Y" (ents d) = Some (y, Some ds) -> lookup "H" (ents d) = Some (h, Some ds) ->
  auto_update d = (d', None) -> exists t, lookup "txyh" (ents d') = Some (t, Some (ds ++ ["xyh"])) /\ shp t = shp x ++ [3%nat] /\
  forall idx, val t (idx ++ [0%nat]) = val x idx /\ val t (idx ++ [1%nat]) = val y idx /\ val t (idx ++ [2%nat]) = val h idx.
Proof.
  intros Ht Hx Hy Hh. unfold auto_update, update_txyh. unfold nTXYH, nX, nY, nH. rewrite Ht, Hx, Hy, Hh.
  assert (Sd : same_dims (Some ds) (Some ds) = true) by (cbn; destruct (list_eq_dec string_dec ds ds); congruence). rewrite Sd. cbn [andb].
  destruct (same_shape x y && same_shape x h); [|discriminate]. intros H. injection H as <-. exists (stack3 x y h). split; [apply add_coords_keep; cbn [ents set_entry]; apply lookup_store_eq|].
  split; [reflexivity|]. intros idx. cbn [stack3 val]. rewrite !last_last, !removelast_last. auto.
Qed.
Print Assumptions C91_created_partial.
(** ... but a later accepted addition of X, Y or H leaves the position array as it was. *)
Theorem C91_stale_positions_refuted d v a ds d' t : In v ["X"; "Y"; "H"] -> lookup "txyh" (ents d) = Some t -> length ds = length (shp a) -> add d v a (Some ds) = (d', None) ->
  lookup v (ents d') = Some (a, Some ds) /\ lookup "txyh" (ents d') = Some t.
Proof.
  intros Hv L HL H. split; [exact (add_stores _ _ _ _ _ _ HL H)|]. eapply add_keep; [|exact L|exact H]. intros <-. cbn in Hv. intuition discriminate.
Qed.
Print Assumptions C91_stale_positions_refuted.
Example C91_nonvacuous : let X v := {| shp := [2%nat]; val := fun _ => v |} in exists d0 d t,
  init [("X", (X 1, Some ["state"])); ("Y", (X 2, Some ["state"])); ("H", (X 3, Some ["state"]))] ["state"] = (d0, None) /\
  add d0 "H" (X 99) (Some ["state"]) = (d, None) /\ lookup "txyh" (ents d) = Some (t, Some ["state"; "xyh"]) /\ val t [0; 2]%nat = 3 /\ lookup "H" (ents d) = Some (X 99, Some ["state"]).
Proof. cbv zeta. eexists. eexists. eexists. repeat split; reflexivity. Qed.

(** C92: the state counter of a slice: accepted exactly for non-empty runs of consecutive states, and then the j-th selected
    state has the counter of the slice plus j. *)
Theorem C92_slice_counter i0 n sel i : slice_i0 i0 n sel = Ok i <->
  sel <> [] /\ (forall j k, nth_error sel j = Some k -> (k < n)%nat /\ (i0 + k = i + j)%nat).
Proof.
  unfold slice_i0. destruct (forallb (fun i1 => (i1 <? n)%nat) sel) eqn:B.
  - rewrite forallb_forall in B. destruct sel as [|s0 sel]; cbn [map]; [split; [discriminate|intros (H & _); now contradiction H]|].
    set (l := ((i0 + s0)%nat :: map (fun i1 => (i0 + i1)%nat) sel)). destruct (forallb _ (combine l (seq (i0 + s0) (length l)))) eqn:C; split.
    + intros H. injection H as <-. split; [discriminate|]. intros j k E. split; [apply Nat.ltb_lt, B; apply (nth_error_In _ j); exact E|]. apply combine_seq_eq in C.
      assert (El : nth_error l j = Some (i0 + k)%nat) by (apply (map_nth_error (fun i1 => (i0 + i1)%nat) j (s0 :: sel)) in E; exact E).
      assert (Hj : (j < length l)%nat) by (apply nth_error_Some; congruence). rewrite C in El. rewrite (nth_error_nth' _ 0%nat) in El by (rewrite seq_length; exact Hj).
      rewrite seq_nth in El by exact Hj. injection El as El. lia.
    + intros (_ & H). destruct (H 0%nat s0 eq_refl) as (_ & H0). f_equal. lia.
    + discriminate.
    + intros (_ & H). exfalso. destruct (H 0%nat s0 eq_refl) as (_ & H0). assert (El : l = seq (i0 + s0) (length l)).
      { apply (nth_ext _ _ 0%nat 0%nat); [now rewrite seq_length|]. intros j Hj. rewrite seq_nth by exact Hj. unfold l in Hj. change (length (map (fun i1 => (i0 + i1)%nat) (s0 :: sel)) > j)%nat in Hj. rewrite map_length in Hj.
        assert (Ej : nth_error (s0 :: sel) j = Some (nth j (s0 :: sel) 0%nat)) by (apply nth_error_nth'; exact Hj). destruct (H j _ Ej) as (_ & Hk).
        change l with (map (fun i1 => (i0 + i1)%nat) (s0 :: sel)). rewrite (nth_indep _ 0%nat (i0 + 0)%nat) by (rewrite map_length; exact Hj). rewrite (map_nth (fun i1 => (i0 + i1)%nat)). lia. }
      rewrite El in C at 1. rewrite combine_seq_refl in C. discriminate.
  - split; [discriminate|]. intros (_ & H). exfalso. apply Bool.not_true_iff_false in B. apply B. apply forallb_forall. intros k I. apply In_nth_error in I. destruct I as (j & E). apply Nat.ltb_lt. now apply (H j).
Qed.
Print Assumptions C92_slice_counter.
Example C92_nonvacuous : slice_i0 100 10 [3; 4; 5]%nat = Ok 103%nat /\ slice_i0 100 10 [3; 5]%nat = Err ValueError.
Proof. split; reflexivity. Qed.

(** C93: one extra loop axis of size one is removed, keeping the values ... *)
Theorem C93_one_axis_partial a ds pre post lp l ls : shp a = pre ++ 1%nat :: post -> length lp = length pre -> nth_error ds (length pre) <> Some l ->
  (forall j k, nth_error lp j = Some k -> exists n, nth_error (shp a) j = Some n /\ (n <> 1%nat \/ nth_error ds j = Some k)) ->
  (forall j k, nth_error ls j = Some k -> exists n, nth_error (shp a) (S (length pre) + j) = Some n /\ (n <> 1%nat \/ nth_error ds (S (length pre) + j) = Some k)) ->
  exists cur, squeeze_loop a ds 0 (lp ++ l :: ls) a = (cur, None) /\ shp cur = pre ++ post /\ forall i j, length i = length pre -> val cur (i ++ j) = val a (i ++ 0%nat :: j).
Proof. exact (squeeze_one a ds pre post lp l ls). Qed.
Print Assumptions C93_one_axis_partial.
Example C93_nonvacuous : exists cur, squeeze_loop (A [3; 1; 4]%nat) ["state"; "height"] 0 ["state"; "target"] (A [3; 1; 4]%nat) = (cur, None) /\ shp cur = [3; 4]%nat.
Proof. eexists. split; reflexivity. Qed.
(** ... but of two such axes only the last one is removed, so that the sizes are taken from the wrong axes *)
Theorem C93_two_axes_refuted n : (2 <= n)%nat -> exists d, init [("WS", (A [1; 1; n]%nat, Some ["height"]))] ["state"; "target"] = (d, None) /\
  lookup "height" (sizes d) = Some 1%nat /\ exists a, lookup "WS" (ents d) = Some (a, Some ["height"]) /\ shp a = [1; n]%nat.
Proof. intros Hn. eexists. split; [reflexivity|]. split; [reflexivity|]. eexists. split; reflexivity. Qed.
Print Assumptions C93_two_axes_refuted.
