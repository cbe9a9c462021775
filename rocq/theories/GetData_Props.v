(** Theorems about the data lookup of models. *)
From Verif Require Import RBase Data_Model GetData_Model GetData_Proofs.
Local Open Scope R_scope.
Local Notation length := List.length.
Local Open Scope string_scope.
Local Open Scope list_scope.

(** C57: farm data of one downwind index: the slice at that index, for every target *)
Theorem C57_farm_data_partial c t i s l a up idx : t <> STurbine -> (l = Lf \/ (l = Lw /\ has_tdata s = true)) -> fsrc s = Some (a, ["state"; "turbine"]) ->
  shp a = [n_states c; n_turbines c] -> inside (tshape c t) idx ->
  exists out, get_data c t (Some i) s None up [l] = Ok out /\ bget out idx = val a [nth 0 idx 0%nat; i].
Proof.
  intros Ht Hl Hs Ha Hi. pose proof (inside_length _ _ Hi) as Hn.
  assert (G : forall b, (length (shp b) <= length (tshape c t))%nat ->
    val b (bidx (shp b) idx) = val a [nth 0 idx 0%nat; i] -> forall r, match_shape (tshape c t) b = Ok r -> bget r idx = val a [nth 0 idx 0%nat; i]).
  { intros b B1 B3 r Hr. rewrite (match_shape_get (tshape c t) b r idx B1 (eq_sym Hn) Hr). exact B3. }
  assert (F0 : exists n0 rest, idx = n0 :: rest /\ (n0 < n_states c)%nat).
  { unfold inside in Hi. destruct t; cbn in Hi; inversion Hi; subst; eauto. }
  destruct F0 as (n0 & rest & E0 & B0).
  assert (C0 : (if (n_states c =? 1)%nat then 0%nat else n0) = n0) by (destruct (n_states c =? 1)%nat eqn:E1; [apply Nat.eqb_eq in E1; lia|reflexivity]).
  assert (K : exists b, try_source c t (Some i) s l = bind (match_shape (tshape c t) b) (fun x => Ok (Some x)) /\ fitting (shp b) (tshape c t) /\ val b (bidx (shp b) idx) = val a [nth 0 idx 0%nat; i]).
  { destruct Hl as [->|(-> & Htd)].
    - exists (column a i). cbn [try_source]. rewrite Hs. change (is_turbine_dims ["state"; "turbine"]) with true. cbv iota. split; [destruct t; [contradiction|reflexivity|reflexivity]|].
      unfold column. cbn [shp val]. rewrite Ha. cbn [nth]. split.
      + split; [destruct t; cbn; lia|]. destruct t; cbn; rewrite Nat.eqb_refl, orb_true_r; reflexivity.
      + subst idx. unfold bidx. cbn [combine map fst snd nth]. now rewrite C0.
    - exists (wake_data t a i). cbn [try_source]. rewrite Hs, Htd. change (is_turbine_dims ["state"; "turbine"]) with true. cbv iota. cbn [andb]. split; [reflexivity|].
      unfold wake_data. cbn [shp val]. rewrite Ha. cbn [nth]. split.
      + split; [destruct t; cbn; lia|]. destruct t; cbn; rewrite Nat.eqb_refl, orb_true_r; reflexivity.
      + subst idx. destruct t; [contradiction| |]; unfold bidx; cbn [tdims length Nat.sub repeat combine map fst snd nth]; now rewrite C0. }
  destruct K as (b & K1 & K2 & K3). destruct (match_shape_ok _ _ K2) as (out & Ho). rewrite Ho in K1. cbn in K1.
  pose proof (G b (proj1 K2) K3 out Ho) as V.
  exists (if up then upcast (tshape c t) out else out). split; [|destruct up; [rewrite upcast_get by exact Hi|]; exact V].
  unfold get_data. cbn [find_source]. rewrite K1. rewrite Hs. destruct t; [contradiction| |]; reflexivity.
Qed.
Print Assumptions C57_farm_data_partial.
(** model and target data that do not depend on the turbine are returned as they are (broadcast) *)
Theorem C57_other_data_partial c t di s l a ds out idx : (l = Lm /\ msrc s = Some (a, ds)) \/ (l = Lt /\ t <> STurbine /\ tsrc s = Some (a, ds)) -> fsrc s = None ->
  ~ In "turbine" ds -> prefixb ds (tdims t) = true -> length (shp a) = length ds -> inside (tshape c t) idx ->
  get_data c t di s None true [l] = Ok out -> bget out idx = val a (bidx (shp a) idx).
Proof.
  intros Hl Hf Hd Hp Hn Hi. pose proof (inside_length _ _ Hi) as Hlen.
  assert (Fd : snd (filter_dims di a ds) = ds).
  { destruct di as [i|]; [|reflexivity]. cbn. clear - Hd. induction ds as [|d ds IH]; [reflexivity|]. cbn. unfold not_turbine at 1. destruct (d =? "turbine")%string eqn:E; [apply String.eqb_eq in E; subst; exfalso; apply Hd; now left|]. cbn. f_equal. apply IH. intros I. apply Hd. now right. }
  assert (Tr : try_source c t di s l = bind (match_shape (tshape c t) a) (fun x => Ok (Some x))).
  { destruct Hl as [(-> & Hm)|(-> & Ht & Hm)]; cbn [try_source]; rewrite Hm; destruct (filter_dims di a ds) as (b, d); cbn [snd] in Fd; subst d; rewrite Hp; [reflexivity|]. destruct t; [contradiction|reflexivity|reflexivity]. }
  assert (PL : (length ds <= length (tdims t))%nat).
  { clear - Hp. revert Hp. generalize (tdims t). induction ds as [|d ds IH]; intros l Hp; cbn; [lia|]. destruct l as [|x l]; [discriminate|]. cbn in Hp |- *. apply andb_prop in Hp. destruct Hp as (_ & Hp). apply IH in Hp. lia. }
  assert (TL : length (tdims t) = length (tshape c t)) by (destruct t; reflexivity).
  intros H. assert (G : exists b, match_shape (tshape c t) a = Ok b /\ out = upcast (tshape c t) b).
  { unfold get_data in H. cbn [find_source] in H. rewrite Tr in H. rewrite Hf in H. destruct (match_shape (tshape c t) a) as [b|e]; cbn in H.
    - exists b. split; [reflexivity|]. destruct t, di; try discriminate; injection H as <-; reflexivity.
    - destruct t, di; discriminate. }
  destruct G as (b & Hb & ->). rewrite upcast_get by exact Hi. apply (match_shape_get (tshape c t) a b idx); [lia|lia|exact Hb].
Qed.
Print Assumptions C57_other_data_partial.
(** False for turbine dependent model data (the same code serves target data): the full array is returned instead of the slice;
    at a target the value of the turbine with the target's number is found, not the one of the requested turbine. *)
Theorem C57_model_data_refuted c i s a : msrc s = Some (a, ["state"; "turbine"]) -> fsrc s = None -> shp a = [n_states c; n_turbines c] ->
  get_data c STarget (Some i) s None false [Lm] = Ok a /\
  (n_targets c = n_turbines c -> forall st t, inside (tshape c STarget) [st; t] -> bget a [st; t] = val a [st; t]).
Proof.
  intros Hm Hf Ha. split.
  - unfold get_data. cbn [find_source try_source]. rewrite Hm, Hf. cbn [filter_dims filter not_turbine]. unfold not_turbine. cbn [String.eqb Ascii.eqb Bool.eqb negb prefixb tdims andb]. unfold match_shape. rewrite Ha. cbn. reflexivity.
  - intros E st t Hi. apply bget_inside. rewrite Ha. cbn [tshape] in Hi. rewrite E in Hi. exact Hi.
Qed.
Print Assumptions C57_model_data_refuted.
Theorem C57_target_data_refuted c i s a : tsrc s = Some (a, ["state"; "turbine"]) -> fsrc s = None -> shp a = [n_states c; n_turbines c] ->
  get_data c STarget (Some i) s None false [Lt] = Ok a.
Proof.
  intros Hm Hf Ha. unfold get_data. cbn [find_source try_source]. rewrite Hm, Hf. cbn [filter_dims filter not_turbine]. unfold not_turbine. cbn [String.eqb Ascii.eqb Bool.eqb negb prefixb tdims andb]. unfold match_shape. rewrite Ha. cbn. reflexivity.
Qed.
Print Assumptions C57_target_data_refuted.
Definition ex_c := {| n_states := 2; n_turbines := 3; n_targets := 3; n_tpoints := 1 |}.
Definition ex_a : arr := {| shp := [2; 3]%nat; val := fun idx => INR (10 * nth 0 idx 0 + nth 1 idx 0)%nat |}.
(** a downwind index with a farm-shaped target is rejected *)
Theorem C57_turbine_target_rejects_index c i s o up ls : get_data c STurbine (Some i) s o up ls = Err ValueError.
Proof. reflexivity. Qed.
Print Assumptions C57_turbine_target_rejects_index.
Example C57_nonvacuous : exists out,
  get_data ex_c STarget (Some 2%nat) {| self_attr := None; msrc := Some (ex_a, ["state"; "turbine"]); fsrc := None; tsrc := None; has_tdata := false |} None false [Ls; Lm] = Ok out /\
  bget out [1; 0]%nat = INR 10 /\ val ex_a [1; 2]%nat = INR 12.
Proof. exists ex_a. repeat split. Qed.

(** C94: a parameter set on the model itself. Used, if the wake frame does not provide source states ... *)
Theorem C94_own_parameter_partial c t di s a ls idx : t <> STurbine -> self_attr s = Some a -> fitting (shp a) (tshape c t) -> inside (tshape c t) idx ->
  exists out, get_data c t di s None true (Ls :: ls) = Ok out /\ bget out idx = val a (bidx (shp a) idx).
Proof.
  intros Ht Hs Hf Hi. destruct (match_shape_ok _ _ Hf) as (b & Hb). pose proof (match_shape_get (tshape c t) a b idx (proj1 Hf) (eq_sym (inside_length _ _ Hi)) Hb) as V.
  exists (upcast (tshape c t) b). split; [|rewrite upcast_get by exact Hi; exact V]. unfold get_data. cbn [find_source try_source]. rewrite Hs, Hb. cbn [bind].
  destruct t; [contradiction| |]; destruct (fsrc s) as [(f, ds)|]; reflexivity.
Qed.
Print Assumptions C94_own_parameter_partial.
(** ... but replaced by the farm data's variable of the same name, if it does (dynamic wakes): the result does not depend on it. *)
Theorem C94_own_parameter_refuted c t i s a f ds o g ls idx : t <> STurbine -> self_attr s = Some a -> fitting (shp a) (tshape c t) -> inside (tshape c t) idx ->
  fsrc s = Some (f, ds) -> prev o = Some g ->
  exists out, get_data c t (Some i) s (Some o) false (Ls :: ls) = Ok out /\
    val out idx = (let st := source_state c o t idx in if (st <? i0 o)%nat then g st i else val f [st - i0 o; i]%nat).
Proof.
  intros Ht Hs Hf Hi Hfs Hp. destruct (match_shape_ok _ _ Hf) as (b & Hb). exists (replace_states c o t i f (upcast (tshape c t) b)). split.
  - unfold get_data. cbn [find_source try_source]. rewrite Hs, Hb. cbn [bind]. rewrite Hfs. destruct t; [contradiction| |]; reflexivity.
  - cbn [replace_states val]. rewrite Hp. reflexivity.
Qed.
Print Assumptions C94_own_parameter_refuted.
Example C94_nonvacuous : exists out, get_data ex_c STarget (Some 2%nat)
    {| self_attr := Some {| shp := []; val := fun _ => 99 |}; msrc := None; fsrc := Some (ex_a, ["state"; "turbine"]); tsrc := None; has_tdata := true |}
    (Some {| sts := fun s _ _ => s; weights := [1]; i0 := 0; prev := None |}) false [Ls; Lw] = Ok out /\ val out [1; 1]%nat = INR 12.
Proof. eexists. split; reflexivity. Qed.

(** C95: data of the turbine at the state that caused the wake *)
Theorem C95_source_states c t i s f o up idx : t <> STurbine -> fsrc s = Some (f, ["state"; "turbine"]) -> has_tdata s = true -> shp f = [n_states c; n_turbines c] -> inside (tshape c t) idx ->
  exists out, get_data c t (Some i) s (Some o) up [Lw] = Ok out /\
    let st := source_state c o t idx in
    bget out idx = if (st <? i0 o)%nat then match prev o with Some g => g st i | None => val f [nth 0 idx 0%nat; i] end else val f [st - i0 o; i]%nat.
Proof.
  intros Ht Hs Htd Ha Hi. destruct (C57_farm_data_partial c t i s Lw f true idx Ht (or_intror (conj eq_refl Htd)) Hs Ha Hi) as (o1 & H1 & V1).
  assert (E : exists b, find_source c t (Some i) s [Lw] = Ok (Some b) /\ o1 = upcast (tshape c t) b).
  { unfold get_data in H1. rewrite Hs in H1. destruct (find_source c t (Some i) s [Lw]) as [[b|]|e]; destruct t; try contradiction; try discriminate; exists b; split; try reflexivity; injection H1 as <-; reflexivity. }
  destruct E as (b & E1 & ->). rewrite upcast_get in V1 by exact Hi.
  set (r := replace_states c o t i f (upcast (tshape c t) b)). assert (Vr : bget r idx = (let st := source_state c o t idx in if (st <? i0 o)%nat then match prev o with Some g => g st i | None => val f [nth 0 idx 0%nat; i] end else val f [st - i0 o; i]%nat)).
  { rewrite bget_inside by exact Hi. cbn [r replace_states val upcast]. cbv zeta. destruct (source_state c o t idx <? i0 o)%nat; [|reflexivity]. destruct (prev o); [reflexivity|exact V1]. }
  exists (if up then upcast (tshape c t) r else r). split.
  - unfold get_data. rewrite E1, Hs. destruct t; [contradiction| |]; destruct up; reflexivity.
  - cbv zeta in *. destruct up; [rewrite upcast_get by exact Hi|]; exact Vr.
Qed.
Print Assumptions C95_source_states.
(** for averaged targets the state is between the states of the target's points *)
Theorem C95_mean_state_between o s t lo hi : (forall w, In w (weights o) -> 0 <= w) -> rsum (weights o) = 1 ->
  (forall p, (p < length (weights o))%nat -> (lo <= sts o s t p <= hi)%nat) -> (lo <= mean_state o s t <= hi)%nat.
Proof.
  intros Hw Hs Hb. unfold mean_state. apply round_bounds. pose proof (wsum_bounds (weights o) (fun p => INR (sts o s t p)) (INR lo) (INR hi) 0 Hw) as B. rewrite Hs, !Rmult_1_r in B. apply B.
  intros j Hj. destruct (Hb j) as (B1 & B2); [lia|]. split; now apply le_INR.
Qed.
Print Assumptions C95_mean_state_between.
Lemma wsum_rsum w f k : wsum w f k = rsum (map (fun p => nth p w 0 * f (k + p)%nat) (seq 0 (length w))).
Proof.
  revert k. induction w as [|x w IH]; intros k; [reflexivity|]. cbn [wsum length seq map rsum nth]. rewrite IH, Nat.add_0_r. f_equal. rewrite <- seq_shift, map_map. f_equal. apply map_ext. intros p. cbn [nth]. now rewrite Nat.add_succ_r.
Qed.
(** which state that is: of target t in state s the one stored for it (for each of its points if they are asked for), and for the mean over several points the nearest integer to the weighted mean of their states *)
Theorem C95_source_of_target c o s t p :
  source_state c o STPoint [s; t; p]%nat = sts o s t p /\
  (n_tpoints c = 1%nat -> source_state c o STarget [s; t]%nat = sts o s t 0%nat) /\
  (n_tpoints c <> 1%nat -> let m := rsum (map (fun q => nth q (weights o) 0 * INR (sts o s t q)) (seq 0 (length (weights o)))) in 0 <= m -> m - 1 / 2 < INR (source_state c o STarget [s; t]%nat) <= m + 1 / 2).
Proof.
  split; [reflexivity|]. split; intros H.
  - cbn [source_state nth]. rewrite H. reflexivity.
  - cbv zeta. intros Hm. cbn [source_state nth]. apply Nat.eqb_neq in H. rewrite H. unfold mean_state. rewrite wsum_rsum. cbn [Nat.add]. set (m := rsum _) in *. pose proof (rfloor_spec (m + 1 / 2)) as (A & B).
    assert (Z0 : (0 <= rfloor (m + 1 / 2))%Z) by (assert (J : (-1 < rfloor (m + 1 / 2))%Z) by (apply lt_IZR; lra); lia).
    rewrite INR_IZR_INZ, Z2Nat.id by exact Z0. lra.
Qed.
Print Assumptions C95_source_of_target.
Example C95_nonvacuous : mean_state {| sts := fun _ _ p => p; weights := [1/2; 1/2]; i0 := 0; prev := None |} 0 0 = 1%nat.
Proof. unfold mean_state. cbn. replace (1 / 2 * 0 + (1 / 2 * 1 + 0) + 1 / 2) with 1 by lra. replace (rfloor 1) with 1%Z; [reflexivity|]. symmetry. apply rfloor_unique. lra. Qed.
