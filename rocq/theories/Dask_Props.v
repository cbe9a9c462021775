(** C186-C190: dask engines and worker pools. *)
From Coq Require Import String Permutation.
From Verif Require Import Base Chunk_Model Chunk_Spec Chunk_Proofs EngineRun_Model EngineRun_Spec EngineRun_Proofs Dask_Model Dask_Spec.
From Verif Require Import Chunk_Props EngineRun_Props.
From Verif Require EngineLife_Model.
Local Notation length := List.length.

Lemma blocks_sum c : (1 <= c)%nat -> forall f n, (n <= f)%nat -> nsum (blocks_aux f n c) = n.
Proof.
  intros C. induction f as [|f IH]; intros n L; cbn [blocks_aux]; [cbn; lia|].
  destruct (Nat.eqb_spec n 0) as [-> | N]; [reflexivity|]. destruct (Nat.leb_spec n c); [cbn; lia|].
  change (c + nsum (blocks_aux f (n - c) c) = n)%nat. rewrite IH by lia. lia.
Qed.
Lemma zmin_pos l : forall d, (1 <= d)%Z -> Forall (fun x => 1 <= x)%Z l -> (1 <= zmin l d)%Z.
Proof. induction l as [|x l IH]; intros d D F; cbn; [exact D|]. inversion F; subst. specialize (IH d D H2). lia. Qed.

(** C186: the blocks of XArrayEngine cover all states and targets. *)
Theorem C186_blocks : forall fuel np css csp ns nt,
  valid_setting np css csp -> (1 <= ns)%nat -> (Z.of_nat ns <= Z.of_nat fuel)%Z ->
  exists ls lt, xarray_blocks fuel np css csp ns nt = Ok (ls, lt) /\ nsum ls = ns /\ nsum lt = nt /\ ((1 <= nt)%nat -> lt <> []).
Proof.
  intros fuel np css csp ns nt V N F. destruct (C01_chunks_partition np css csp (Z.of_nat ns) (Z.of_nat nt) fuel V ltac:(lia) ltac:(lia) F) as (ls & lt & E & P & PT & Z).
  unfold xarray_blocks. rewrite E. cbn [bind]. eexists _, _. split; [reflexivity|].
  assert (M : forall l n, partitions l n -> (1 <= n)%Z -> (1 <= zmin (tl l) (hd 0%Z l))%Z).
  { intros l n (Q & S) L. destruct l as [|x l]; [cbn in S; lia|]. inversion Q; subst. cbn [tl hd]. apply zmin_pos; [lia|]. eapply Forall_impl; [|eassumption]. cbn. intros; lia. }
  pose proof (M _ _ P ltac:(lia)) as Ms.
  assert (T : nsum (blocks nt (Nat.min nt (Z.to_nat (zmin (tl lt) (hd 0%Z lt))))) = nt).
  { destruct (Nat.eq_dec nt 0) as [-> | NT]; [reflexivity|]. specialize (M _ _ (PT ltac:(lia)) ltac:(lia)). apply blocks_sum; lia. }
  split; [apply blocks_sum; lia|]. split; [exact T|]. intros L E0. rewrite E0 in T. cbn in T. lia.
Qed.
(** Hence its results are those of one single chunk, whatever the chunk sizes and the order in which
    the blocks are computed. *)
Theorem C186_results : forall (X Y V : Type) (calc : list X -> list (list Y) -> list (list V)),
  per_pair calc -> forall np css csp xs ps nt ls lt fuel sched,
  valid_setting np css csp -> (1 <= length xs)%nat -> (1 <= nt)%nat -> shape ps (length xs) nt -> (length xs <= fuel)%nat ->
  xarray_blocks fuel np css csp (length xs) nt = Ok (ls, lt) -> Permutation sched (submit ls lt) ->
  run_pool calc xs ps ls lt sched = Ok (calc xs ps).
Proof.
  intros X Y V calc P np css csp xs ps nt ls lt fuel sched VS L NT S F E PM.
  destruct (C186_blocks fuel np css csp (length xs) nt VS L ltac:(lia)) as (ls' & lt' & E' & A & B & C).
  rewrite E in E'. injection E' as <- <-. eapply C03_any_partition; eauto.
Qed.
Print Assumptions C186_blocks.
Print Assumptions C186_results.
Example C186_witness : valid_setting 4 (Some 3%Z) (Some 4%Z) /\
  xarray_blocks 10 4 (Some 3%Z) (Some 4%Z) 10 9 = Ok ([3; 3; 3; 1], [4; 4; 1]).
Proof. split; [split; [lia|split; intros c Q; injection Q as <-; lia]|vm_compute; reflexivity]. Qed.

(** C187: each block of each data set consists of that data set's own variables. *)
Lemma first_in {A} v (l : list (string * A)) a : first_of v l = Some a -> In (v, a) l.
Proof.
  induction l as [|[w b] l IH]; cbn; [discriminate|]. destruct (String.eqb_spec v w); intros Q; [injection Q as ->; subst; now left|right; auto].
Qed.
Lemma first_none {A} v (l : list (string * A)) a : first_of v l = None -> ~ In (v, a) l.
Proof.
  induction l as [|[w b] l IH]; cbn; [tauto|]. destruct (String.eqb_spec v w); [discriminate|]. intros Q [P|P]; [congruence|]. now apply IH.
Qed.
Lemma in_pack {A} b (sets : list (list (item A))) v a :
  In (v, a) (pack b sets) <-> exists s, In s sets /\ In (mkitem v b a) s.
Proof.
  unfold pack. rewrite in_flat_map. split.
  - intros (s & S & I). apply in_map_iff in I as (x & Q & I). apply filter_In in I as (I & L). injection Q as <- <-.
    exists s. split; [exact S|]. apply Bool.eqb_prop in L. subst b. destruct x; exact I.
  - intros (s & S & I). exists s. split; [exact S|]. apply in_map_iff. exists (mkitem v b a). split; [reflexivity|]. apply filter_In. split; [exact I|]. cbn. now rewrite Bool.eqb_reflx.
Qed.
Theorem C187_own_data_partial : forall (A : Type) (f : A -> A) sets s,
  compatible sets -> In s sets -> unpack f sets s = own_block f s.
Proof.
  intros A f sets s C I. unfold unpack, own_block. apply map_ext_in. intros x X. f_equal.
  destruct (first_of (i_name x) (pack true sets)) as [a|] eqn:E.
  - apply first_in, in_pack in E as (t & T & J). assert (Q : x = mkitem (i_name x) true a) by exact (C s t x _ I T X J eq_refl). rewrite Q. reflexivity.
  - destruct (i_loop x) eqn:L.
    + exfalso. apply (first_none _ _ (i_val x) E). apply in_pack. exists s. split; [exact I|]. rewrite <- L. destruct x; exact X.
    + destruct (first_of (i_name x) (pack false sets)) as [a|] eqn:G.
      * apply first_in, in_pack in G as (t & T & J). assert (Q : x = mkitem (i_name x) false a) by exact (C s t x _ I T X J eq_refl). rewrite Q. reflexivity.
      * exfalso. apply (first_none _ _ (i_val x) G). apply in_pack. exists s. split; [exact I|]. rewrite <- L. destruct x; exact X.
Qed.
(** In general it is the value of the first data set that has a variable of this name, those over
    states or targets first; a name with two meanings is mixed up. *)
Theorem C187_shared_names_refuted : forall (A : Type) (f : A -> A) m fd td v a b,
  (forall x, In x m -> i_name x <> v) -> In (mkitem v true a) fd -> (forall x, In x fd -> i_name x = v -> x = mkitem v true a) ->
  In (mkitem v true b) td ->
  In (v, Some (f a)) (unpack f [m; fd; td] td).
Proof.
  intros A f m fd td v a b M F U T. unfold unpack. apply in_map_iff. exists (mkitem v true b). split; [|exact T]. cbn [i_name].
  assert (E : first_of v (pack true [m; fd; td]) = Some a); [|now rewrite E].
  unfold pack. cbn [flat_map].
  assert (AP : forall l r, first_of v (l ++ r) = match first_of v l with Some c => Some c | None => @first_of A v r end).
  { induction l as [|[w c] l IH]; intros r; cbn; [reflexivity|]. destruct (String.eqb v w); auto. }
  assert (NM : first_of v (map (fun x => (i_name x, i_val x)) (filter (fun x => Bool.eqb (i_loop x) true) m)) = None).
  { destruct (first_of v (map _ _)) eqn:Q; [|reflexivity]. apply first_in, in_map_iff in Q as (x & P & J). injection P as P _. apply filter_In in J as (J & _). now apply M in J. }
  rewrite AP, NM, AP. clear - F U. induction fd as [|x fd IH]; [destruct F|].
  destruct F as [-> | F].
  - cbn. now rewrite String.eqb_refl.
  - cbn [filter]. assert (IHA := IH F (fun y Y => U y (or_intror Y))). destruct (Bool.eqb (i_loop x) true) eqn:L; [|exact IHA].
    cbn [map first_of]. destruct (String.eqb_spec v (i_name x)) as [Q|Q]; [|exact IHA]. rewrite (U x (or_introl eq_refl) (eq_sym Q)). reflexivity.
Qed.
Print Assumptions C187_own_data_partial.
Print Assumptions C187_shared_names_refuted.
Example C187_witness :
  let sets := [[mkitem "idx"%string false [1]; mkitem "state"%string true [0; 1; 2]]; [mkitem "REWS"%string true [8; 9; 7]; mkitem "state"%string true [0; 1; 2]]] in
  compatible sets /\ map (unpack (firstn 2) sets) sets
    = [[("idx"%string, Some [1]); ("state"%string, Some [0; 1])]; [("REWS"%string, Some [8; 9]); ("state"%string, Some [0; 1])]].
Proof.
  split; [|reflexivity]. intros s t x y S T X Y. cbn in S, T.
  destruct S as [<-|[<-|[]]], T as [<-|[<-|[]]]; cbn in X, Y; destruct X as [<-|[<-|[]]], Y as [<-|[<-|[]]]; cbn; intros Q; try discriminate Q; reflexivity.
Qed.

(** C188: the dict of an engine, after any constructor calls: the settings for clusters are added to it
    exactly if one of the cluster engines made so far was given the same dict object. *)
Lemma cget_cput k v c j : cget j (cput k v c) = if String.eqb j k then Some v else cget j c.
Proof.
  induction c as [|[w x] c IH]; cbn.
  - destruct (String.eqb_spec j k); reflexivity.
  - destruct (String.eqb_spec k w) as [<-|N]; cbn.
    + destruct (String.eqb_spec j k); reflexivity.
    + destruct (String.eqb_spec j w) as [->|]; [|exact IH]. destruct (String.eqb_spec w k); [congruence|reflexivity].
Qed.
Lemma cget_cluster c k : cget k (cupd c cluster_settings) = match cget k cluster_settings with Some v => Some v | None => cget k c end.
Proof.
  unfold cupd, cluster_settings. cbn [fold_left fst snd]. rewrite !cget_cput. cbn [cget].
  destruct (String.eqb_spec k "scheduler"); destruct (String.eqb_spec k "distributed.scheduler.worker-ttl"); subst; try discriminate; reflexivity.
Qed.
Definition uses (i : nat) (x : bool * option nat) : bool := fst x && (match snd x with Some j => j | None => 0 end =? i).
Theorem C188_config_partial : forall l h i k,
  cget k (new_all h l i) = match cget k cluster_settings with
    | Some v => if existsb (uses i) l then Some v else cget k (h i)
    | None => cget k (h i)
    end.
Proof.
  induction l as [|[cl a] l IH]; intros h i k; [cbn [existsb new_all fold_left]; now destruct (cget k cluster_settings)|].
  change (new_all h ((cl, a) :: l)) with (new_all (fst (new_dask h cl a)) l). rewrite IH.
  assert (Q : cget k (fst (new_dask h cl a) i) = if uses i (cl, a) then match cget k cluster_settings with Some v => Some v | None => cget k (h i) end else cget k (h i)).
  { unfold new_dask, uses. cbn [fst snd]. destruct cl; [|reflexivity]. unfold hset. cbn [andb]. rewrite Nat.eqb_sym.
    destruct (Nat.eqb_spec (match a with Some j => j | None => 0 end) i) as [-> |]; [apply cget_cluster|reflexivity]. }
  rewrite Q. cbn [existsb]. destruct (cget k cluster_settings) as [v|]; destruct (uses i (cl, a)), (existsb (uses i) l); reflexivity.
Qed.
Lemma cput_keys k v c : forall j, In j (map fst (cput k v c)) -> j = k \/ In j (map fst c).
Proof.
  induction c as [|[w x] c IH]; cbn; intros j.
  - intros [<-|[]]; now left.
  - destruct (String.eqb_spec k w) as [<-|N]; cbn; intros [<-|I]; auto. destruct (IH j I); auto.
Qed.
Lemma cput_nodup k v c : NoDup (map fst c) -> NoDup (map fst (cput k v c)).
Proof.
  induction c as [|[w x] c IH]; cbn; intros D; [repeat constructor; intros []|].
  inversion D; subst. destruct (String.eqb_spec k w) as [<-|N]; cbn; constructor; auto.
  intros I. apply cput_keys in I as [|]; [congruence|contradiction].
Qed.
Lemma cupd_get u : NoDup (map fst u) -> forall b k, cget k (cupd b u) = match cget k u with Some v => Some v | None => cget k b end.
Proof.
  induction u as [|[w x] u IH]; intros D b k; [reflexivity|]. inversion D; subst.
  change (cupd b ((w, x) :: u)) with (cupd (cput w x b) u). rewrite IH by assumption. rewrite cget_cput. cbn [cget].
  destruct (String.eqb_spec k w) as [-> |]; [|reflexivity].
  assert (G : cget w u = None); [|now rewrite G].
  cbn in H1. clear - H1. induction u as [|[j y] u IH]; [reflexivity|]. cbn in *. destruct (String.eqb_spec w j); [subst; tauto|tauto].
Qed.
Lemma new_all_nodup l : forall h, (forall i, NoDup (map fst (h i))) -> forall i, NoDup (map fst (new_all h l i)).
Proof.
  induction l as [|[cl a] l IH]; intros h D i; [apply D|].
  change (new_all h ((cl, a) :: l)) with (new_all (fst (new_dask h cl a)) l). apply IH. intros j. unfold new_dask. cbn [fst snd].
  destruct cl; [|apply D]. unfold hset. destruct (j =? _); [|apply D]. unfold cupd, cluster_settings. cbn [fold_left]. now do 2 apply cput_nodup.
Qed.
(** While an engine is active, its own dict takes precedence over dask's settings. *)
Theorem C188_active : forall base h l e k, (forall i, NoDup (map fst (h i))) ->
  cget k (active_cfg base (new_all h l) e) = match cget k (new_all h l e) with Some v => Some v | None => cget k base end.
Proof. intros. unfold active_cfg. apply cupd_get, new_all_nodup. assumption. Qed.
(** So an engine that has nothing to do with clusters is run with the distributed scheduler, once
    a cluster engine with default arguments has been made, before or after it. *)
Theorem C188_shared_default_refuted : forall base h l, (forall i, NoDup (map fst (h i))) ->
  In (true, None) l ->
  cget "scheduler"%string (active_cfg base (new_all h l) (snd (new_dask h false None))) = Some 1.
Proof.
  intros base h l D I. rewrite C188_active by exact D. rewrite C188_config_partial. cbn [cget cluster_settings String.eqb new_dask snd].
  assert (E : existsb (uses 0) l = true) by (apply existsb_exists; exists (true, None); split; [exact I|reflexivity]).
  rewrite E. reflexivity.
Qed.
Print Assumptions C188_config_partial.
Print Assumptions C188_active.
Print Assumptions C188_shared_default_refuted.
Example C188_witness : let h := (fun _ => []) : heap in
  snd (new_dask h false None) = 0 /\ cget "scheduler"%string (active_cfg [("scheduler"%string, 7)] (new_all h [(false, None)]) 0) = Some 7 /\ cget "scheduler"%string (active_cfg [("scheduler"%string, 7)] (new_all h [(false, None); (true, None)]) 0) = Some 1 /\ cget "scheduler"%string (active_cfg [("scheduler"%string, 7)] (new_all h [(false, None); (true, Some 1)]) 0) = Some 7.
Proof. repeat split. Qed.

(** C189: map calls the function with the given inputs, provided these are all ints, all floats, all
    strings, or (no tuples) objects that numpy does not know. *)
Lemma np_uniform str l : uniform l -> l <> [] -> np_array str l = Ok l.
Proof.
  intros U N. destruct l as [|v0 l0] eqn:EL; [congruence|]. rewrite <- EL in *. clear N.
  assert (T : forall v, In v l -> match v with PTup _ => False | _ => True end).
  { intros v I. destruct U as [U|[U|[U|[_ U]]]]; specialize (U v I); [now destruct v|now destruct U as (z & d & ->)|now destruct v|exact U]. }
  unfold np_array.
  assert (F1 : forallb (fun v => match v with PTup _ => true | _ => false end) l = false).
  { rewrite EL. cbn. specialize (T v0). rewrite EL in T. specialize (T (or_introl eq_refl)). now destruct v0. }
  assert (F2 : existsb (fun v => match v with PTup _ => true | _ => false end) l = false).
  { destruct (existsb _ l) eqn:Q; [|reflexivity]. apply existsb_exists in Q as (v & I & Q). specialize (T v I). now destruct v. }
  rewrite F1, F2. f_equal. unfold np_scalars. clear F1 F2 T.
  destruct (forallb is_int l) eqn:FI; [reflexivity|].
  destruct U as [U|[U|[U|[[n U] _]]]].
  - assert (X : forallb is_int l = true) by (apply forallb_forall; exact U). congruence.
  - assert (X : forallb is_num l = true) by (apply forallb_forall; intros v I; destruct (U v I) as (z & d & ->); reflexivity).
    rewrite X. rewrite <- (map_id l) at 2. apply map_ext_in. intros v I. now destruct (U v I) as (z & d & ->).
  - assert (X : forallb is_num l = false).
    { rewrite EL. cbn. specialize (U v0). rewrite EL in U. specialize (U (or_introl eq_refl)). now destruct v0. }
    assert (Y : forallb is_scal l = true) by (apply forallb_forall; intros v I; unfold is_scal; rewrite (U v I); apply Bool.orb_true_r).
    rewrite X, Y. rewrite <- (map_id l) at 2. apply map_ext_in. intros v I. specialize (U v I). now destruct v.
  - assert (X : forall g, g (Obj n) = false -> forallb g l = false).
    { intros g G. destruct (forallb g l) eqn:Q; [|reflexivity]. rewrite forallb_forall in Q. specialize (Q _ U). congruence. }
    rewrite (X is_num), (X is_scal) by reflexivity. reflexivity.
Qed.
Theorem C189_map_partial : forall (B : Type) str (f : pyval -> B) np inputs sched,
  (1 <= np)%nat -> (forall l, Permutation (sched l) l) -> uniform inputs ->
  np_map str f np inputs sched = Ok (map f inputs).
Proof.
  intros B str f np inputs sched N P U. unfold np_map. destruct inputs as [|x [|y r]]; [reflexivity..|].
  rewrite np_uniform by (exact U || discriminate). cbn [bind]. apply C04_pool_map_eq_map; [exact N|apply P].
Qed.
(** One input is never converted. *)
Theorem C189_single : forall (B : Type) str (f : pyval -> B) np x sched, np_map str f np [x] sched = Ok [f x].
Proof. reflexivity. Qed.
(** Otherwise the function may be called with other values: an int becomes a float if there is a
    float, numbers become strings if there is a string, tuples become arrays; and tuples of
    different lengths, or tuples among other objects, are an error. *)
Theorem C189_float_refuted : forall (B : Type) str (f : pyval -> B) np z w d inputs sched,
  (1 <= np)%nat -> (forall l, Permutation (sched l) l) ->
  (forall v, In v inputs -> is_num v = true) -> In (PInt z) inputs -> In (PFloat w d) inputs ->
  exists out, np_map str f np inputs sched = Ok out /\ length out = length inputs /\ forall i, (i < length inputs)%nat -> nth_error out i = option_map (fun v => f (to_float v)) (nth_error inputs i).
Proof.
  intros B str f np z w d inputs sched N P U IZ IW. exists (map f (map to_float inputs)). split; [|split; [now rewrite !map_length|]].
  2:{ intros i _. rewrite map_map, nth_error_map. reflexivity. }
  unfold np_map. destruct inputs as [|x [|y r]]; [destruct IZ|destruct IZ as [->|[]], IW as [Q|[]]; discriminate|].
  set (l := x :: y :: r) in *.
  assert (A : np_array str l = Ok (map to_float l)).
  { unfold np_array.
    assert (F1 : forallb (fun v => match v with PTup _ => true | _ => false end) l = false).
    { unfold l. cbn. specialize (U x (or_introl eq_refl)). now destruct x. }
    assert (F2 : existsb (fun v => match v with PTup _ => true | _ => false end) l = false).
    { destruct (existsb _ l) eqn:Q; [|reflexivity]. apply existsb_exists in Q as (v & I & Q). specialize (U v I). now destruct v. }
    rewrite F1, F2. f_equal. unfold np_scalars.
    destruct (forallb is_int l) eqn:FI; [rewrite forallb_forall in FI; specialize (FI _ IW); discriminate|].
    assert (X : forallb is_num l = true) by (apply forallb_forall; exact U). now rewrite X. }
  rewrite A. cbn [bind]. apply C04_pool_map_eq_map; [exact N|apply P].
Qed.
Theorem C189_string_refuted : forall (B : Type) str (f : pyval -> B) np x y sched, (1 <= np)%nat -> (forall l, Permutation (sched l) l) ->
  is_num x = true -> np_map str f np [x; PStr y] sched = Ok [f (PStr (str x)); f (PStr y)].
Proof.
  intros B str f np x y sched N P U.
  assert (A : np_array str [x; PStr y] = Ok [PStr (str x); PStr y]) by (destruct x; try discriminate U; reflexivity).
  unfold np_map. rewrite A. cbn [bind]. apply C04_pool_map_eq_map; [exact N|apply P].
Qed.
Theorem C189_tuple_refuted : forall (B : Type) str (f : pyval -> B) np a b c d sched, (1 <= np)%nat -> (forall l, Permutation (sched l) l) ->
  np_map str f np [PTup [PInt a; PInt b]; PTup [PInt c; PInt d]] sched = Ok [f (PArr [PInt a; PInt b]); f (PArr [PInt c; PInt d])].
Proof. intros B str f np a b c d sched N P. apply C04_pool_map_eq_map; [exact N|apply P]. Qed.
Theorem C189_ragged_refuted : forall (B : Type) str (f : pyval -> B) np s t r sched, length s <> length t ->
  np_map str f np (PTup s :: PTup t :: r) sched = Err ValueError.
Proof.
  intros B str f np s t r sched N. unfold np_map.
  assert (A : np_array str (PTup s :: PTup t :: r) = Err ValueError); [|now rewrite A].
  unfold np_array. destruct (forallb _ (PTup s :: PTup t :: r)); [|reflexivity].
  cbn [map hd forallb]. rewrite Nat.eqb_refl. destruct (Nat.eqb_spec (length t) (length s)); [congruence|reflexivity].
Qed.
Print Assumptions C189_map_partial.
Print Assumptions C189_single.
Print Assumptions C189_float_refuted.
Print Assumptions C189_string_refuted.
Print Assumptions C189_tuple_refuted.
Print Assumptions C189_ragged_refuted.
Example C189_witness : let str := (fun _ => ""%string) : stringify in
  uniform [PInt 3; PInt 4; PInt 5] /\ np_map str (fun v => v) 2 [PInt 3; PInt 4; PInt 5] (fun l => rev l) = Ok [PInt 3; PInt 4; PInt 5] /\ np_map str (fun v => v) 2 [PInt 3; PFloat 45 1] (fun l => rev l) = Ok [PFloat 3 0; PFloat 45 1].
Proof. split; [left; intros v [<-|[<-|[<-|[]]]]; reflexivity|split; vm_compute; reflexivity]. Qed.

(** C190: as long as no call fails, the worker pools that are alive are exactly those of the engines
    that are entered. *)
Definition pinv (s : pst) : Prop := pools_match s /\ forall i p, pool_of s i = Some p -> (p < made s)%nat.
Lemma pinv_alive s p : pinv s -> In p (alive s) -> (p < made s)%nat.
Proof. intros [[A _] B] I. apply A in I as (i & _ & I). eauto. Qed.
Lemma pinv_same s l : pinv s -> EngineLife_Model.entered l = EngineLife_Model.entered (life s) -> pinv (mkpst l (made s) (alive s) (pool_of s)).
Proof. intros [[A [B C]] D] E. split; [split; [|split]|]; cbn [life made alive pool_of]; rewrite ?E; auto. Qed.
Lemma enter_ok l i : snd (EngineLife_Model.enter l i) = Ok tt ->
  EngineLife_Model.entered l i = false /\ EngineLife_Model.entered (fst (EngineLife_Model.enter l i)) = EngineLife_Model.upd (EngineLife_Model.entered l) i true.
Proof.
  unfold EngineLife_Model.enter. destruct (EngineLife_Model.entered l i); [discriminate|]. split; [reflexivity|].
  destruct (EngineLife_Model.inited _ i) eqn:I; [reflexivity|]. unfold EngineLife_Model.init_entered in *. rewrite I in *.
  destruct (EngineLife_Model.glob _); reflexivity.
Qed.
Lemma exit_ok l i : snd (EngineLife_Model.exit_ l i) = Ok tt ->
  EngineLife_Model.entered l i = true /\ EngineLife_Model.entered (fst (EngineLife_Model.exit_ l i)) = EngineLife_Model.upd (EngineLife_Model.entered l) i false.
Proof.
  unfold EngineLife_Model.exit_. destruct (EngineLife_Model.entered l i); [|discriminate]. split; [reflexivity|].
  destruct (EngineLife_Model.inited _ i) eqn:I; [|reflexivity]. unfold EngineLife_Model.fin_not_entered. now rewrite I.
Qed.
Lemma ok_tt (o : result unit) u : o = Ok u -> o = Ok tt.
Proof. now destruct u. Qed.
Lemma penter_inv s i u : pinv s -> snd (penter s i) = Ok u -> pinv (fst (penter s i)).
Proof.
  intros J Q. pose proof (fun p => pinv_alive s p J) as AL. destruct J as [[A [B C]] D]. unfold penter in *.
  destruct (EngineLife_Model.enter (life s) i) as [l o] eqn:E. cbn [fst snd] in *.
  assert (Q' : snd (EngineLife_Model.enter (life s) i) = Ok tt) by (rewrite E; eapply ok_tt; exact Q).
  apply enter_ok in Q' as (N & U). rewrite E in U. cbn [fst] in U.
  unfold pinv, pools_match. cbn [life made alive pool_of]. rewrite U. unfold EngineLife_Model.upd.
  split; [split; [|split]|].
  - intros p. rewrite in_app_iff. cbn [In]. rewrite A. split.
    + intros [(j & J & P)|[<-|[]]].
      * exists j. destruct (Nat.eqb_spec j i) as [-> |]; [congruence|auto].
      * exists i. now rewrite Nat.eqb_refl.
    + intros (j & J & P). destruct (Nat.eqb_spec j i) as [_|]; [injection P as <-; right; left; reflexivity|left; eauto].
  - intros j J. destruct (Nat.eqb_spec j i); eauto.
  - intros j k p J K PJ PK. destruct (Nat.eqb_spec j i), (Nat.eqb_spec k i); [congruence|apply D in PK; injection PJ as PJ; lia|apply D in PJ; injection PK as PK; lia|eauto].
  - intros j p P. destruct (Nat.eqb_spec j i); [injection P as <-; lia|apply D in P; lia].
Qed.
Lemma pexit_inv s i u : pinv s -> snd (pexit s i) = Ok u -> pinv (fst (pexit s i)).
Proof.
  intros [[A [B C]] D] Q. unfold pexit in *. destruct (pool_of s i) as [p|] eqn:P; [|discriminate].
  destruct (EngineLife_Model.exit_ (life s) i) as [l o] eqn:E. cbn [fst snd] in *.
  assert (Q' : snd (EngineLife_Model.exit_ (life s) i) = Ok tt) by (rewrite E; eapply ok_tt; exact Q).
  apply exit_ok in Q' as (N & U). rewrite E in U. cbn [fst] in U.
  unfold pinv, pools_match. cbn [life made alive pool_of]. rewrite U. unfold EngineLife_Model.upd.
  split; [split; [|split]|exact D].
  - intros q. rewrite filter_In, A. split.
    + intros ((j & J & PJ) & K). exists j. destruct (Nat.eqb_spec j i) as [-> |]; [|auto].
      rewrite P in PJ. injection PJ as <-. rewrite Nat.eqb_refl in K. discriminate.
    + intros (j & J & PJ). destruct (Nat.eqb_spec j i); [discriminate|]. split; [eauto|].
      destruct (Nat.eqb_spec q p) as [-> |]; [|reflexivity]. exfalso. eauto.
  - intros j J. destruct (Nat.eqb_spec j i); [discriminate|]. eauto.
  - intros j k q J K. destruct (Nat.eqb_spec j i), (Nat.eqb_spec k i); try discriminate. eauto.
Qed.
Lemma pstep_inv s o u : pinv s -> snd (pstep s o) = Ok u -> pinv (fst (pstep s o)).
Proof.
  intros J Q. destruct o as [i|i|i|i]; cbn [pstep] in *.
  - eapply penter_inv; eauto.
  - eapply pexit_inv; eauto.
  - unfold pinit in *. destruct (EngineLife_Model.entered (life s) i) eqn:E; [|eapply penter_inv; eauto].
    unfold EngineLife_Model.init_entered in *. destruct (EngineLife_Model.inited (life s) i); [apply pinv_same; auto|].
    destruct (EngineLife_Model.glob (life s)); apply pinv_same; auto.
  - unfold pfin in *. destruct (EngineLife_Model.entered (life s) i) eqn:E; [eapply pexit_inv; eauto|].
    unfold EngineLife_Model.fin_not_entered in *. destruct (EngineLife_Model.inited (life s) i); apply pinv_same; auto.
Qed.
Theorem C190_pools_partial : forall ops, all_fine pst0 ops = true -> pools_match (prun pst0 ops).
Proof.
  assert (G : forall ops s, pinv s -> all_fine s ops = true -> pinv (prun s ops)).
  { induction ops as [|o ops IH]; intros s J F; [exact J|]. cbn [all_fine] in F. destruct (snd (pstep s o)) eqn:Q; [|discriminate].
    change (prun s (o :: ops)) with (prun (fst (pstep s o)) ops). apply IH; [|exact F]. eapply pstep_inv; eauto. }
  intros ops F. apply G; [|exact F]. repeat split; cbn; try tauto; try discriminate. intros (i & N & _); discriminate.
Qed.
(** In particular nothing is left once every engine has been left. *)
Theorem C190_nothing_left_partial : forall ops, all_fine pst0 ops = true ->
  (forall i, EngineLife_Model.entered (life (prun pst0 ops)) i = false) -> alive (prun pst0 ops) = [].
Proof.
  intros ops F N. destruct (C190_pools_partial ops F) as [A _]. destruct (alive (prun pst0 ops)) as [|p r]; [reflexivity|].
  destruct (A p) as [A1 _]. destruct (A1 (or_introl eq_refl)) as (i & I & _). rewrite N in I. discriminate.
Qed.
(** An engine that is rejected because another one is registered has a pool running, which the user
    did not get from a completed __enter__. *)
Theorem C190_rejected_refuted : forall s i g, EngineLife_Model.glob (life s) = Some g ->
  EngineLife_Model.entered (life s) i = false -> EngineLife_Model.inited (life s) i = false ->
  exists s', penter s i = (s', Err ValueError) /\ In (made s) (alive s').
Proof.
  intros s i g G E I. unfold penter, EngineLife_Model.enter, EngineLife_Model.init_entered. rewrite E. cbn [EngineLife_Model.set_entered EngineLife_Model.inited EngineLife_Model.glob]. rewrite I, G.
  eexists. split; [reflexivity|]. cbn. apply in_or_app. right. now left.
Qed.
(** Entering an engine again is an error, after which nothing ever shuts down its first pool. *)
Definition pfresh (s : pst) : Prop :=
  (forall j q, pool_of s j = Some q -> (q < made s)%nat) /\ (forall j k q, pool_of s j = Some q -> pool_of s k = Some q -> j = k).
Lemma pfresh_run : forall ops s0, pfresh s0 -> pfresh (prun s0 ops).
Proof.
  induction ops as [|o ops IH]; intros s0 [H H']; [split; [exact H|exact H']|]. change (prun s0 (o :: ops)) with (prun (fst (pstep s0 o)) ops). apply IH.
  assert (PE : forall k, pfresh (fst (penter s0 k))).
  { intros k. unfold penter. destruct (EngineLife_Model.enter (life s0) k). split; cbn [fst pool_of made].
    - intros j q. destruct (j =? k); intros Q; [injection Q as <-; lia|apply H in Q; lia].
    - intros j m q. destruct (Nat.eqb_spec j k), (Nat.eqb_spec m k); [congruence|intros Q R; injection Q as Q; apply H in R; lia|intros Q R; injection R as R; apply H in Q; lia|apply H']. }
  assert (PX : forall k, pfresh (fst (pexit s0 k))).
  { intros k. unfold pexit. destruct (pool_of s0 k); [|split; assumption]. destruct (EngineLife_Model.exit_ (life s0) k). split; assumption. }
  destruct o as [k|k|k|k]; cbn [pstep]; [apply PE|apply PX|unfold pinit; destruct (EngineLife_Model.entered (life s0) k); [|apply PE]; destruct (EngineLife_Model.init_entered (life s0) k); split; assumption
    |unfold pfin; destruct (EngineLife_Model.entered (life s0) k); [apply PX|]; destruct (EngineLife_Model.fin_not_entered (life s0) k); split; assumption].
Qed.
Lemma orphan_stays p : forall ops s0, In p (alive s0) -> (p < made s0)%nat -> (forall j, pool_of s0 j <> Some p) -> In p (alive (prun s0 ops)).
Proof.
  induction ops as [|o ops IH]; intros s0 H1 H2 H3; [exact H1|]. change (prun s0 (o :: ops)) with (prun (fst (pstep s0 o)) ops).
  assert (PE : forall k, let r := fst (penter s0 k) in In p (alive r) /\ (p < made r)%nat /\ forall j, pool_of r j <> Some p).
  { intros k. unfold penter. destruct (EngineLife_Model.enter (life s0) k). cbn. split; [apply in_or_app; now left|]. split; [lia|]. intros j. destruct (j =? k); [intros Q; injection Q as Q; lia|apply H3]. }
  assert (PX : forall k, let r := fst (pexit s0 k) in In p (alive r) /\ (p < made r)%nat /\ forall j, pool_of r j <> Some p).
  { intros k. unfold pexit. destruct (pool_of s0 k) as [q|] eqn:Q; [|auto]. destruct (EngineLife_Model.exit_ (life s0) k). cbn. split; [|auto].
    apply filter_In. split; [exact H1|]. destruct (Nat.eqb_spec p q) as [-> |]; [|reflexivity]. exfalso. eapply H3; eauto. }
  assert (R : let r := fst (pstep s0 o) in In p (alive r) /\ (p < made r)%nat /\ forall j, pool_of r j <> Some p).
  { destruct o as [k|k|k|k]; cbn [pstep]; [apply PE|apply PX|unfold pinit; destruct (EngineLife_Model.entered (life s0) k); [|apply PE]; destruct (EngineLife_Model.init_entered (life s0) k); cbn; auto
    |unfold pfin; destruct (EngineLife_Model.entered (life s0) k); [apply PX|]; destruct (EngineLife_Model.fin_not_entered (life s0) k); cbn; auto]. }
  destruct R as (R1 & R2 & R3). now apply IH.
Qed.
Theorem C190_leak_refuted : forall ops1 i, all_fine pst0 ops1 = true ->
  EngineLife_Model.entered (life (prun pst0 ops1)) i = true ->
  snd (pstep (prun pst0 ops1) (PEnter i)) = Err ValueError /\
  exists p, pool_of (prun pst0 ops1) i = Some p /\ forall ops2, In p (alive (prun pst0 (ops1 ++ PEnter i :: ops2))).
Proof.
  intros ops1 i F E. destruct (C190_pools_partial ops1 F) as [A [B C]]. destruct (B i E) as (p & P). set (s := prun pst0 ops1) in *.
  assert (M : pfresh s) by (apply pfresh_run; split; cbn; discriminate). destruct M as [M M'].
  assert (EN : EngineLife_Model.enter (life s) i = (life s, Err ValueError)) by (unfold EngineLife_Model.enter; now rewrite E).
  split; [cbn [pstep]; unfold penter; rewrite EN; reflexivity|]. exists p. split; [exact P|]. intros ops2.
  unfold prun. rewrite fold_left_app. cbn [fold_left]. change (fold_left (fun a o => fst (pstep a o)) ops1 pst0) with s.
  change (In p (alive (prun (fst (pstep s (PEnter i))) ops2))).
  specialize (M _ _ P) as PM.
  cbn [pstep]. unfold penter. rewrite EN. cbn [fst]. apply orphan_stays; cbn [alive made pool_of].
  - apply in_or_app. left. apply A. eauto.
  - lia.
  - intros j Q. destruct (Nat.eqb_spec j i) as [_|N]; [injection Q as Q; lia|]. apply N. eauto.
Qed.
Print Assumptions C190_pools_partial.
Print Assumptions C190_nothing_left_partial.
Print Assumptions C190_rejected_refuted.
Print Assumptions C190_leak_refuted.
Example C190_witness : all_fine pst0 [PEnter 0; PExit 0; PInit 1; PInit 1; PFin 1; PEnter 0] = true /\
  alive (prun pst0 [PEnter 0; PExit 0; PInit 1; PInit 1; PFin 1; PEnter 0]) = [2] /\
  alive (prun pst0 [PEnter 0; PEnter 0; PExit 0]) = [0] /\ alive (prun pst0 [PEnter 0; PEnter 1; PExit 0]) = [1].
Proof. repeat split. Qed.
