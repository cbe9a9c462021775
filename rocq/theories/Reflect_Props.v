(** C223: reflection in the wind axis, and symmetric wind farms. *)
From Coq Require Import Permutation Reals Lra.
From Verif Require Import RBase WindDir_Model WindDir_Proofs Rotor_Model Order_Model Order_Spec Order_Proofs FarmWakes_Model FarmWakes_Spec AnyOrder_Model AnyOrder_Spec AnyOrder_Proofs
  Symm_Model Symm_Spec Symm_Proofs Symm_Props.
Local Open Scope R_scope.

(** the image of a point under the reflection in the vertical plane through [c] along the wind direction: its distance to the plane changes sign *)
Definition to_the_left (wd : R) (c p : vec3) : R :=
  (vx p - vx c) * - snd (wd2uv wd 1) + (vy p - vy c) * fst (wd2uv wd 1).
Definition reflected (wd : R) (c p : vec3) : vec3 :=
  (vx p - 2 * to_the_left wd c p * - snd (wd2uv wd 1), vy p - 2 * to_the_left wd c p * fst (wd2uv wd 1), vz p).
(** uniform wind *)
Definition uniform {A} (wd ws : R) (rest : A) : field A := fun _ => mkair wd ws rest.
(** a turbine has no effect on a turbine all of whose target points are not downstream of it *)
Definition silent_upstream {P F D W} (m : smodel P F D W) : Prop :=
  forall s ds fs l t dt d, (forall p, In p l -> vx p <= 0) -> s_contrib m s ds fs l t dt d = d.
(** contributions can be added in any order *)
Definition commuting {P F D W} (m : smodel P F D W) : Prop :=
  forall s ds fs l s' ds' fs' l' t dt d,
    s_contrib m s ds fs l t dt (s_contrib m s' ds' fs' l' t dt d) = s_contrib m s' ds' fs' l' t dt (s_contrib m s ds fs l t dt d).
(** no contributions, no effect *)
Definition no_effect {P F D W} (m : smodel P F D W) : Prop :=
  forall t dt w, s_add m t dt w (s_new m t dt) = w.

(** the reflection is made of turns and the mirror image *)
Lemma reflected_turns wd c : exists v, forall p, reflected wd c p = turned wd v (mirrored (turned (- wd) (0, 0, 0) p)).
Proof.
  pose (k := vx c * - snd (wd2uv wd 1) + vy c * fst (wd2uv wd 1)).
  exists (2 * k * - snd (wd2uv wd 1), 2 * k * fst (wd2uv wd 1), 0). intros p. unfold k, reflected, to_the_left, turned, mirrored, vx, vy, vz. destruct p as [[x y] z], c as [[c0 c1] c2]. cbn [fst snd].
  unfold wd2uv, wd2wdvec. cbn [fst snd]. replace (- wd * PI / 180) with (- (wd * PI / 180)) by field. rewrite cos_neg, sin_neg.
  pose proof (unit_cs (wd * PI / 180)) as U. set (co := cos (wd * PI / 180)) in *. set (s := sin (wd * PI / 180)) in *.
  assert (U2 : s * s = 1 - co * co) by lra.
  apply f_equal2; [apply f_equal2|ring].
  - transitivity (x - 2 * (co * co * x) + 2 * co * s * y + 2 * (c0 * co - c1 * s) * co); [ring|].
    transitivity (s * s * x - co * co * x + 2 * co * s * y + 2 * (c0 * co - c1 * s) * co); [rewrite U2; ring|ring].
  - transitivity (y - 2 * (s * s) * y + 2 * co * s * x + 2 * (c0 * co - c1 * s) * - s); [ring|].
    transitivity (co * co * y - s * s * y + 2 * co * s * x + 2 * (c0 * co - c1 * s) * - s); [rewrite U2; ring|ring].
Qed.

(** C223: in uniform wind the reflected wind farm has the same results, turbine by turbine. *)
Theorem C223_reflected : forall (P A F D W : Type) (amb0 : R -> A -> W) (ev0 : P -> W -> F) dps (dT : turb P) (dF : F) (d0 : D)
    wd ws rest c (ms : list (smodel P F D W)) farm,
  0 < ws -> (forall q, In q dps -> py q = 0) -> (forall m, In m ms -> left_right_symmetric m) ->
  calc amb0 ev0 dps dT dF d0 (uniform wd ws rest) ms (map (at_pos (reflected wd c)) farm) =
  calc amb0 ev0 dps dT dF d0 (uniform wd ws rest) ms farm.
Proof.
  intros P A F D W amb0 ev0 dps dT dF d0 wd ws rest c ms farm Hw Hq Hm. destruct (reflected_turns wd c) as [v E].
  transitivity (calc amb0 ev0 dps dT dF d0 (uniform wd ws rest) ms (map (at_pos (turned wd v)) (map (at_pos mirrored) (map (at_pos (turned (- wd) (0, 0, 0))) farm)))).
  { f_equal. rewrite !map_map. apply map_ext. intros t. unfold at_pos. cbn [t_pos t_diam t_set]. now rewrite E. }
  unfold uniform. rewrite (C218_uniform P A F D W amb0 ev0 dps dT dF d0 0 wd ws rest wd v ms _ Hw) by (exists 0%Z; ring).
  rewrite (C219_mirrored P A F D W amb0 ev0 dps dT dF d0 (fun _ => mkair 0 ws rest) (fun _ => mkair 0 ws rest) ms); [|exact Hq|exact Hm| |now intros t _].
  - apply (C218_uniform P A F D W amb0 ev0 dps dT dF d0 wd 0 ws rest (- wd) (0, 0, 0) ms farm Hw). exists 0%Z. ring.
  - intros p. exists 0%Z. cbn [a_wd a_ws a_rest]. f_equal. ring.
Qed.
Print Assumptions C223_reflected.

(** the mean direction of uniform wind *)
Lemma rsum_const {T} (x : R) (l : list T) : rsum (map (fun _ => x) l) = x * INR (length l).
Proof. induction l as [|t l IH]; cbn [map length]; [cbn; ring|]. rewrite S_INR. unfold rsum in *. cbn [fold_right]. rewrite IH. ring. Qed.
Lemma mean_uniform {P A} wd ws (rest : A) (farm : list (turb P)) : farm <> [] -> mean_dir (uniform wd ws rest) farm = wd2uv wd 1.
Proof.
  intros N. unfold mean_dir, uniform. cbn [a_wd]. rewrite !rsum_const.
  assert (INR (length farm) <> 0) by (apply not_0_INR; destruct farm; [congruence|discriminate]).
  destruct (wd2uv wd 1) as [n0 n1]. cbn [fst snd]. f_equal; field; assumption.
Qed.

(** C223: if a wind farm in uniform wind is its own reflection, then each turbine has the results of its reflection. *)
Theorem C223_symmetric_farm : forall (P A F D W : Type) (amb0 : R -> A -> W) (ev0 : P -> W -> F) dps (dT : turb P) (dF : F) (d0 : D)
    wd ws rest c (ms : list (smodel P F D W)) farm pi,
  0 < ws -> (forall q, In q dps -> py q = 0) ->
  (forall m, In m ms -> s_down m = true /\ left_right_symmetric m /\ silent_upstream m /\ commuting m /\ no_effect m) ->
  isperm (length farm) pi ->
  (forall i, (i < length farm)%nat -> nth (nth i pi 0%nat) farm dT = at_pos (reflected wd c) (nth i farm dT)) ->
  exists r, length r = length farm /\ calc amb0 ev0 dps dT dF d0 (uniform wd ws rest) ms farm = Ok r /\
    forall i, (i < length farm)%nat -> nth (nth i pi 0%nat) r dF = nth i r dF.
Proof.
  intros P A F D W amb0 ev0 dps dT dF d0 wd ws rest c ms farm pi Hw Hq Hm Hpi Hsym.
  set (f := uniform wd ws rest).
  set (key := fun t : turb P => vx (t_pos t) * fst (wd2uv wd 1) + vy (t_pos t) * snd (wd2uv wd 1)).
  assert (CF : forall fm, calc amb0 ev0 dps dT dF d0 f ms fm = calc_farm (amb amb0 f) (ev ev0) Rleb key dT dF d0 (map (as_model dps f) ms) fm).
  { intros fm. unfold calc. rewrite calc_farm_with. f_equal. unfold farm_order. f_equal. unfold along. destruct fm as [|t fm]; [reflexivity|]. unfold f. rewrite (mean_uniform wd ws rest (t :: fm)) by discriminate. reflexivity. }
  assert (X : forall s t p, In p (target_points dps f t) -> vx (wake_coos (t_pos s) (wake_wd f s) p) = key t - key s).
  { intros s t p I1. apply in_map_iff in I1. destruct I1 as (q & <- & _). unfold wake_coos. rewrite wake_wd_uv by exact Hw. unfold f, uniform. cbn [a_wd]. unfold key, rotor_point, dot, vsub, vx, vy, vz.
    destruct (t_pos s) as [[s0 s1] s2], (t_pos t) as [[u0 u1] u2], (wd2uv wd 1) as [n0 n1]. cbn [fst snd]. ring. }
  destruct (renumber_ties (amb amb0 f) (ev ev0) Rleb key dT dF d0) with (ws := map (as_model dps f) ms) (farm := farm) (pi := pi) as (r & L & E1 & E2).
  - intros a b. destruct (Rle_or_lt a b); [left; now apply Rleb_true|right; apply Rleb_true; lra].
  - intros a b d H1 H2. apply Rleb_true in H1. apply Rleb_true in H2. apply Rleb_true. lra.
  - apply Forall_map, Forall_forall. intros m I. cbn [as_model w_down]. now apply Hm.
  - intros w I t x. apply in_map_iff in I. destruct I as (m & <- & I). cbn [as_model w_add w_new]. apply (Hm m I).
  - intros w I s fs s' fs' t d. apply in_map_iff in I. destruct I as (m & <- & I). cbn [as_model w_contrib]. apply (Hm m I).
  - intros w I s fs t d K. apply in_map_iff in I. destruct I as (m & <- & I). cbn [as_model w_contrib]. apply (Hm m I). intros p Ip. apply in_map_iff in Ip. destruct Ip as (p0 & <- & Ip).
    rewrite (X s t p0 Ip). apply Rleb_true in K. lra.
  - exact Hpi.
  - exists r. split; [exact L|]. rewrite <- CF in E1. split; [exact E1|].
    assert (G : gather dT farm pi = map (at_pos (reflected wd c)) farm).
    { apply (list_eq_nth dT); [now rewrite gather_length, map_length, (perm_length _ _ Hpi)|]. intros i Hi. rewrite gather_length, (perm_length _ _ Hpi) in Hi.
      rewrite nth_gather by now rewrite (perm_length _ _ Hpi). rewrite (Hsym i Hi). rewrite (nth_indep (map (at_pos (reflected wd c)) farm) dT (at_pos (reflected wd c) dT)) by now rewrite map_length. now rewrite map_nth. }
    rewrite <- CF in E2.
    rewrite G in E2. unfold f in E2. rewrite C223_reflected in E2; [|exact Hw|exact Hq|intros m I; now apply (Hm m I)]. fold f in E2.
    assert (R1 : gather dF r pi = r) by congruence.
    intros i Hi. rewrite <- R1 at 2. rewrite nth_gather by now rewrite (perm_length _ _ Hpi). reflexivity.
Qed.
Print Assumptions C223_symmetric_farm.

(** Non-vacuity: a V-shaped farm in north wind; the wake model counts the turbines upstream *)
Definition count_model : smodel nat R R R :=
  mks true (fun _ _ => 0) (fun _ _ _ l _ _ d => if existsb (fun p => Rltb 0 (vx p)) l then d + 1 else d) (fun _ _ w d => w - d).
Definition v_farm : list (turb nat) := [mkturb (-500, -500, 90) 126 0%nat; mkturb (0, 0, 90) 126 0%nat; mkturb (500, -500, 90) 126 0%nat].
Example ex_v_farm : forall i, (i < length v_farm)%nat -> nth (nth i [2; 1; 0]%nat 0%nat) v_farm (mkturb (0, 0, 0) 0 0%nat) = at_pos (reflected 0 (0, 0, 0)) (nth i v_farm (mkturb (0, 0, 0) 0 0%nat)).
Proof.
  assert (N : wd2uv 0 1 = (0, -1)) by (unfold wd2uv, wd2wdvec; cbn [fst snd]; replace (0 * PI / 180) with 0 by field; rewrite sin_0, cos_0; f_equal; ring).
  intros i Hi. cbn [length v_farm] in Hi. unfold at_pos, reflected, to_the_left. rewrite N.
  destruct i as [|[|[|i]]]; [| | |lia]; cbn [nth v_farm t_pos t_diam t_set fst snd]; unfold vx, vy, vz; cbn [fst snd]; f_equal; apply f_equal2; try apply f_equal2; ring.
Qed.
Example ex_count_model : s_down count_model = true /\ left_right_symmetric count_model /\ silent_upstream count_model /\ commuting count_model /\ no_effect count_model.
Proof.
  split; [reflexivity|]. split; [|split; [|split]].
  - intros s ds fs l t dt d. cbn [count_model s_contrib]. replace (existsb (fun p => Rltb 0 (vx p)) (map flip l)) with (existsb (fun p => Rltb 0 (vx p)) l); [reflexivity|].
    induction l as [|p l IH]; cbn [existsb map]; [reflexivity|]. now rewrite IH.
  - intros s ds fs l t dt d H. cbn [count_model s_contrib]. destruct (existsb _ l) eqn:E; [|reflexivity]. apply existsb_exists in E. destruct E as (p & I & E). apply Rltb_true in E. specialize (H p I). lra.
  - intros s ds fs l s' ds' fs' l' t dt d. cbn [count_model s_contrib]. destruct (existsb _ l), (existsb _ l'); reflexivity.
  - intros t dt w. cbn. ring.
Qed.
