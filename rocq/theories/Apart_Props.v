(** C243: groups of turbines that do not reach each other, e.g. wind farms side by side. *)
From Verif Require Import Base RBase Order_Model Order_Spec FarmWakes_Model FarmWakes_Spec FarmWakes_Proofs Superp_Model Superp_Proofs Induction_Model PointWakes_Model Parked_Spec Apart_Spec Apart_Proofs.

(** C243: turbines that no other turbine reaches have the results of the farm that consists of them alone, in the Downwind algorithm, for downwind and for upwind models, also if the calculation raises *)
Theorem C243_downwind {T F D W} (amb : T -> W) (ev : T -> W -> F) off (d0 : D) (ws : list (@wmodel T F D W)) ts : unreached ev off ws -> neutral ws ->
  calc_downwind amb ev d0 ws (without off ts) = (do r <- calc_downwind amb ev d0 ws ts; Ok (others off ts r)).
Proof. apply apart_downwind. Qed.
(** ... after any number of iterations of the iterative algorithm *)
Theorem C243_iterative {T F D W} (amb : T -> W) (ev : T -> W -> F) off (ws : list (@wmodel T F D W)) ts k : unreached ev off ws ->
  sweeps amb ev ws (without off ts) k = others off ts (sweeps amb ev ws ts k).
Proof. apply apart_sweeps. Qed.
(** ... and with the farm's own order of calculation, for turbines at different along-wind coordinates *)
Theorem C243_farm {T F D W K} (amb : T -> W) (ev : T -> W -> F) leb (key : T -> K) dT dF (d0 : D) off (ws : list (@wmodel T F D W)) farm r :
  (forall a b, leb a b = true \/ leb b a = true) -> (forall a b c, leb a b = true -> leb b c = true -> leb a c = true) ->
  unreached ev off ws -> neutral ws -> distinct leb key dT farm -> calc_farm amb ev leb key dT dF d0 ws farm = Ok r ->
  exists r', calc_farm amb ev leb key dT dF d0 ws (without off farm) = Ok r' /\ length r' = length (without off farm) /\ length r = length farm
    /\ forall t f, off t = false -> (In (t, f) (combine farm r) <-> In (t, f) (combine (without off farm) r')).
Proof. intros H1 H2 Q N Hd. now apply apart_farm. Qed.
(** C243: two wind farms that do not reach each other: the results of the joint calculation are those of the two separate ones *)
Theorem C243_two_farms {T F D W K} (amb : T -> W) (ev : T -> W -> F) leb (key : T -> K) dT dF (d0 : D) second (ws : list (@wmodel T F D W)) farm r :
  (forall a b, leb a b = true \/ leb b a = true) -> (forall a b c, leb a b = true -> leb b c = true -> leb a c = true) ->
  unreached ev second ws -> unreached ev (fun t => negb (second t)) ws -> neutral ws -> distinct leb key dT farm -> calc_farm amb ev leb key dT dF d0 ws farm = Ok r ->
  exists r1 r2, calc_farm amb ev leb key dT dF d0 ws (filter (fun t => negb (second t)) farm) = Ok r1 /\ calc_farm amb ev leb key dT dF d0 ws (filter second farm) = Ok r2
    /\ forall t f, In (t, f) (combine farm r) <-> In (t, f) (combine (filter (fun t => negb (second t)) farm) r1) \/ In (t, f) (combine (filter second farm) r2).
Proof.
  intros H1 H2 Q1 Q2 N Hd E. destruct (C243_farm amb ev leb key dT dF d0 second ws farm r H1 H2 Q1 N Hd E) as (r1 & E1 & L1 & _ & B1).
  destruct (C243_farm amb ev leb key dT dF d0 (fun t => negb (second t)) ws farm r H1 H2 Q2 N Hd E) as (r2 & E2 & L2 & _ & B2).
  assert (X : without (fun t => negb (second t)) farm = filter second farm) by (unfold without; apply filter_ext; intros t; now destruct (second t)). rewrite X in *.
  exists r1, r2. split; [exact E1|]. split; [exact E2|]. intros t f. destruct (second t) eqn:S0.
  - assert (S1 : negb (second t) = false) by now rewrite S0. rewrite (B2 t f S1). split; [now right|]. intros [I|I]; [|exact I]. exfalso.
    apply in_combine_l in I. apply filter_In in I. destruct I as [_ I]. rewrite S0 in I. discriminate.
  - rewrite (B1 t f S0). split; [now left|]. intros [I|I]; [exact I|]. exfalso. apply in_combine_l in I. apply filter_In in I. destruct I as [_ I]. congruence.
Qed.
(** ... the conditions hold for all wind speed and turbulence superpositions but the product, with any limits around the ambient values, if the marked turbines contribute nothing at the places of the others *)
Theorem C243_superpositions {T F P} (amb : P -> R) (hub : T -> P) (ev : T -> R -> F) off (ms : list (swake T F P)) :
  (forall m, In m ms -> forall t x t', off t = true -> off t' = false -> sm_c m t (ev t x) (hub t') = None) ->
  (forall p, 0 <= amb p)%R -> (forall m, In m ms -> forall p, (forall l, sm_low m = Some l -> l <= amb p)%R /\ (forall h, sm_high m = Some h -> amb p <= h)%R) ->
  unreached ev off (map (as_wmodel amb hub) ms) /\ neutral (map (as_wmodel amb hub) ms).
Proof.
  intros Hc Ha Hl. split.
  - intros w I t x t' d O O'. apply in_map_iff in I. destruct I as (m & <- & I). cbn. now rewrite Hc.
  - intros w I t x. apply in_map_iff in I. destruct I as (m & <- & I). cbn. destruct (Hl m I (hub t)) as (A & B).
    unfold final_delta. rewrite raw_final_0 by apply Ha. destruct (is_ws (sm_s m)); [|lra]. rewrite clamp_id; [lra| |]; intros z E; rewrite Rplus_0_r; auto.
Qed.
(** A Jensen wake in wind along the first axis: turbines with position, diameter and thrust coefficient as function of the wind speed; wake growth k; the wind speed as result *)
Record jturb := { jx : R; jy : R; jD : R; jct : R -> R }.
Definition jensen_wake (s : superp) (low high : option R) (ct2a : R -> R) (k : R) : swake jturb R (R * R) :=
  mks _ _ _ s false low high (fun t u p =>
    let x := (fst p - jx t)%R in let r := Rabs (snd p - jy t) in let ct := jct t u in
    if (Rltb 1e-8 x && Rltb 1e-8 ct && Rltb r (jensen_radius (jD t) k x))%bool then Some (u, jensen_centreline ct2a (jD t) (jensen_radius (jD t) k x) ct) else None).
(** C243: Jensen wakes: a farm next to another one, at a lateral distance of at least the wake radius of each of the other's turbines upstream of it, has the results it has alone *)
Theorem C243_jensen (amb : R) s low high ct2a k dT farm (off : jturb -> bool) r : (0 <= amb)%R -> (forall l, low = Some l -> l <= amb)%R -> (forall h, high = Some h -> amb <= h)%R ->
  distinct Rleb jx dT farm ->
  (forall t t', off t = true -> off t' = false -> jx t < jx t' -> jensen_radius (jD t) k (jx t' - jx t) <= Rabs (jy t' - jy t))%R ->
  let ws := [as_wmodel (fun _ => amb) (fun t => (jx t, jy t)) (jensen_wake s low high ct2a k)] in
  calc_farm (fun _ => amb) (fun _ u => u) Rleb jx dT 0%R 0%R ws farm = Ok r ->
  exists r', calc_farm (fun _ => amb) (fun _ u => u) Rleb jx dT 0%R 0%R ws (without off farm) = Ok r' /\ length r' = length (without off farm) /\ length r = length farm
    /\ forall t f, off t = false -> (In (t, f) (combine farm r) <-> In (t, f) (combine (without off farm) r')).
Proof.
  intros A Lo Hi Hd Far ws E.
  destruct (C243_superpositions (fun _ => amb) (fun t => (jx t, jy t)) (fun _ u => u) off [jensen_wake s low high ct2a k]) as [U N].
  - intros m [<-|[]] t x t' O O'. unfold jensen_wake. cbn [sm_c fst snd]. destruct (Rltb 1e-8 (jx t' - jx t)) eqn:X; [|reflexivity]. apply Rltb_true in X. destruct (Rltb 1e-8 (jct t x)); [|reflexivity]. cbn [andb].
    assert (F : (jensen_radius (jD t) k (jx t' - jx t) <= Rabs (jy t' - jy t))%R) by (apply Far; auto; lra). apply Rltb_false in F. now rewrite F.
  - intros _. exact A.
  - intros m [<-|[]] p. cbn. split; [exact Lo|exact Hi].
  - apply C243_farm; try assumption.
    + intros a b. unfold Rleb. destruct (Rle_dec a b), (Rle_dec b a); auto. lra.
    + intros a b c X Y. apply Rleb_true in X, Y. apply Rleb_true. lra.
Qed.
Print Assumptions C243_downwind.
Print Assumptions C243_iterative.
Print Assumptions C243_farm.
Print Assumptions C243_two_farms.
Print Assumptions C243_superpositions.
Print Assumptions C243_jensen.
(** two farms: turbines (along-wind coordinate, farm); the effect is one unit per turbine of the same farm further upstream *)
Definition own : @wmodel (nat * nat) nat nat nat := {|
  w_down := true; w_new := fun _ => 0; w_contrib := fun s f t d => if (snd s =? snd t) && (fst s <? fst t) then d + 1 else d; w_add := fun _ x d => x - d |}.
Example C243_witness : let second := fun t : nat * nat => snd t =? 1 in
  unreached (F := nat) (W := nat) (fun _ x => x) second [own] /\ neutral [own]
  /\ calc_farm (fun _ => 10) (fun _ x => x) Nat.leb fst (0, 0) 0 0 [own] [(5, 0); (4, 1); (0, 0); (2, 1); (7, 1)] = Ok [9; 9; 10; 10; 8]
  /\ calc_farm (fun _ => 10) (fun _ x => x) Nat.leb fst (0, 0) 0 0 [own] [(4, 1); (2, 1); (7, 1)] = Ok [9; 10; 8].
Proof.
  intros second. split; [|split; [|split]]; try (vm_compute; reflexivity).
  - intros w [<-|[]] (x, a) u (y, b) d O O'. cbn in *. apply Nat.eqb_eq in O. subst a. destruct (Nat.eqb_spec 1 b) as [<-|]; [discriminate|reflexivity].
  - intros w [<-|[]] t x. cbn. lia.
Qed.
Example C243_jensen_witness : let t1 := {| jx := 0; jy := 0; jD := 100; jct := fun _ => 0.8 |}%R in let t2 := {| jx := 1000; jy := 500; jD := 100; jct := fun _ => 0.8 |}%R in
  distinct Rleb jx t1 [t1; t2] /\ (jensen_radius (jD t1) 0.075 (jx t2 - jx t1) <= Rabs (jy t2 - jy t1))%R.
Proof.
  intros t1 t2. split.
  - intros i j Hi Hj Nij. cbn in Hi, Hj. destruct i as [|[|i]], j as [|[|j]]; try lia; cbn; [right|left]; apply Rleb_false; lra.
  - unfold jensen_radius. cbn. rewrite Rabs_pos_eq; lra.
Qed.
