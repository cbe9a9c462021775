(** C245: all wind speeds multiplied by a factor. *)
From Verif Require Import Base RBase Order_Model FarmWakes_Model Superp_Model Superp_Proofs Induction_Model PointWakes_Model Apart_Props WsScale_Spec WsScale_Proofs.
Local Open Scope R_scope.

(** C245: the wake effect on the wind speed at one place: with all wind speeds and limits multiplied by l and the same relative deficits it is multiplied by l, for all wind speed superpositions *)
Theorem C245_superpositions l s quad low high amb cs : 0 < l -> is_ws s = true -> pow_pos s ->
  final_wake s quad (flimit l low) (flimit l high) (l * amb) (map (faster l) cs) = l * final_wake s quad low high amb cs.
Proof. intros L S Pp. unfold final_wake. apply final_rel; auto. now apply wake_rel. Qed.
(** ... also for the product superposition *)
Theorem C245_product l low high amb d : 0 < l -> prod_final (flimit l low) (flimit l high) (l * amb) d = l * prod_final low high amb d.
Proof. intros L. unfold prod_final. rewrite Rmult_assoc. now apply clamp_scale. Qed.
(** C245: the farm: all ambient wind speeds multiplied by l, turbines ([g]) whose results at multiplied wind speeds belong to the original ones: then all results belong to the original ones,
    in the Downwind algorithm in the farm's own order *)
Theorem C245_farm {T F P T' F' K} l (g : T -> T') (RF : F -> F' -> Prop) (amb amb' : P -> R) hub hub' (ev : T -> R -> F) (ev' : T' -> R -> F') leb (key : T -> K) key' dT dF dF'
  (ms : list (swake T F P)) (ms' : list (swake T' F' P)) farm r : 0 < l ->
  (forall p, amb' p = l * amb p) -> (forall t, hub' (g t) = hub t) -> (forall t, key' (g t) = key t) -> RF dF dF' -> (forall t x, RF (ev t x) (ev' (g t) (l * x))) ->
  Forall2 (same_deficits l g RF) ms ms' ->
  calc_farm (fun t => amb (hub t)) ev leb key dT dF 0 (map (as_wmodel amb hub) ms) farm = Ok r ->
  exists r', calc_farm (fun t => amb' (hub' t)) ev' leb key' (g dT) dF' 0 (map (as_wmodel amb' hub') ms') (map g farm) = Ok r' /\ Forall2 RF r r'.
Proof.
  intros L A Hh Hk Hd He M E.
  assert (X := farm_rel g RF (fun x x' => x' = l * x) (fun t => amb (hub t)) ev (fun t => amb' (hub' t)) ev' ltac:(intros t; cbn; rewrite Hh; apply A) ltac:(intros t x x' ->; apply He)
    leb key key' dT dF dF' 0 0 _ _ farm Hk Hd (models_rel l g RF amb amb' hub hub' ms ms' L A Hh M)).
  rewrite E in X. destruct (calc_farm (fun t => amb' (hub' t)) _ _ _ _ _ _ _ _) as [r'|e]; [exists r'; split; [reflexivity|exact X]|contradiction].
Qed.
(** ... after any number of iterations of the iterative algorithm *)
Theorem C245_iterative {T F P T' F'} l (g : T -> T') (RF : F -> F' -> Prop) (amb amb' : P -> R) hub hub' (ev : T -> R -> F) (ev' : T' -> R -> F')
  (ms : list (swake T F P)) (ms' : list (swake T' F' P)) ts k : 0 < l ->
  (forall p, amb' p = l * amb p) -> (forall t, hub' (g t) = hub t) -> (forall t x, RF (ev t x) (ev' (g t) (l * x))) -> Forall2 (same_deficits l g RF) ms ms' ->
  Forall2 RF (sweeps (fun t => amb (hub t)) ev (map (as_wmodel amb hub) ms) ts k) (sweeps (fun t => amb' (hub' t)) ev' (map (as_wmodel amb' hub') ms') (map g ts) k).
Proof.
  intros L A Hh He M. apply (sweeps_rel g RF (fun x x' => x' = l * x)).
  - intros t. cbn. rewrite Hh. apply A.
  - intros t x x' ->. apply He.
  - now apply models_rel.
Qed.
(** ... and at points, for farm results that belong together *)
Theorem C245_points {T F P T' F'} l (g : T -> T') (RF : F -> F' -> Prop) (amb amb' : P -> R) (ms : list (swake T F P)) (ms' : list (swake T' F' P)) farm r r' p : 0 < l ->
  (forall p, amb' p = l * amb p) -> Forall2 (same_deficits l g RF) ms ms' -> Forall2 RF r r' ->
  point_value amb' ms' (combine (map g farm) r') p = l * point_value amb ms (combine farm r) p.
Proof.
  intros L A M Q. apply (point_rel l g RF); auto. revert r r' Q. induction farm as [|t farm IH]; intros r r' Q; cbn; [constructor|]. destruct Q; constructor; cbn; auto.
Qed.
(** a turbine whose thrust coefficient at l u is that of the original one at u *)
Definition stretch (l : R) (t : jturb) : jturb := {| jx := jx t; jy := jy t; jD := jD t; jct := fun u => jct t (u / l) |}.
(** C245: Jensen wakes: with l times the ambient wind speed, limits times l, and thrust curves stretched by l all wind speeds are l times the original ones ([dT] is a placeholder for index errors) *)
Theorem C245_jensen l amb s low high ct2a k dT farm r : 0 < l -> is_ws s = true -> pow_pos s ->
  let calc d a lo hi := calc_farm (fun _ => a) (fun _ u => u) Rleb jx d 0 0 [as_wmodel (fun _ => a) (fun t => (jx t, jy t)) (jensen_wake s lo hi ct2a k)] in
  calc dT amb low high farm = Ok r -> calc (stretch l dT) (l * amb) (flimit l low) (flimit l high) (map (stretch l) farm) = Ok (map (Rmult l) r).
Proof.
  intros L S Pp calc E. unfold calc in *.
  destruct (C245_farm l (stretch l) (fun u u' => u' = l * u) (fun _ : R * R => amb) (fun _ => l * amb) (fun t => (jx t, jy t)) (fun t => (jx t, jy t)) (fun _ u => u) (fun _ u => u) Rleb jx jx dT 0 0
    [jensen_wake s low high ct2a k] [jensen_wake s (flimit l low) (flimit l high) ct2a k] farm r) as (r' & E' & Q); auto; try ring.
  - constructor; [|constructor]. unfold same_deficits. cbn [jensen_wake sm_s sm_low sm_high sm_c]. repeat split; auto. intros t u u' (x, y) ->. unfold stretch. cbn [jx jy jD jct fst snd].
    replace (l * u / l) with u by (field; lra). destruct (_ && _)%bool; reflexivity.
  - cbn [map] in E'. rewrite E'. f_equal. clear - Q. induction Q; cbn; congruence.
Qed.
(** C245: a limit that stays the same breaks the proportion: deficit of 95 percent, lower limit 1 m/s, ambient 10 m/s and 5 m/s *)
Theorem C245_fixed_limit_refuted : exists l low amb c, 0 < l /\ final_wake WSLinear false (Some low) None (l * amb) (map (faster l) [c]) <> l * final_wake WSLinear false (Some low) None amb [c].
Proof.
  exists (1 / 2), 1, 10, (Some (10, - (95 / 100))). split; [lra|]. unfold final_wake, final_delta, wake_delta, clamp. cbn. unfold Rmax. repeat destruct (Rle_dec _ _); lra.
Qed.
Print Assumptions C245_superpositions.
Print Assumptions C245_product.
Print Assumptions C245_farm.
Print Assumptions C245_iterative.
Print Assumptions C245_points.
Print Assumptions C245_jensen.
Print Assumptions C245_fixed_limit_refuted.
(** a farm of two turbines in line *)
Example C245_witness : let t1 := {| jx := 0; jy := 0; jD := 100; jct := fun u => if Rltb u 20 then 8 / 10 else 0 |} in let t2 := {| jx := 450; jy := 0; jD := 100; jct := fun u => 8 / 10 |} in
  exists r, calc_farm (fun _ => 10) (fun _ u => u) Rleb jx t1 0 0 [as_wmodel (fun _ => 10) (fun t => (jx t, jy t)) (jensen_wake WSLinear None None (fun c => c / 4) (1 / 10))] [t1; t2] = Ok r
  /\ nth 0 r 0 = 10 /\ nth 1 r 0 < 10.
Proof.
  intros t1 t2. assert (O : farm_order Rleb jx [t1; t2] = [0; 1]%nat). { unfold farm_order, argsort. cbn. assert (X : Rleb 0 450 = true) by (apply Rleb_true; lra). rewrite X. reflexivity. }
  set (J := jensen_wake WSLinear None None (fun c => c / 4) (1 / 10)).
  assert (J1 : exists v, v < 0 /\ sm_c J t1 10 (450, 0) = Some (10, v)).
  { exists (jensen_centreline (fun c => c / 4) 100 (jensen_radius 100 (1 / 10) (450 - 0)) (8 / 10)). split; [unfold jensen_centreline, jensen_radius; lra|]. unfold J, jensen_wake. cbn [sm_c fst snd t1 jx jy jct jD].
    assert (X1 : Rltb 1e-8 (450 - 0) = true) by (apply Rltb_true; lra). assert (X2 : Rltb 10 20 = true) by (apply Rltb_true; lra). rewrite X1, X2.
    assert (X3 : Rltb 1e-8 (8 / 10) = true) by (apply Rltb_true; lra). rewrite X3. assert (X4 : Rltb (Rabs (0 - 0)) (jensen_radius 100 (1 / 10) (450 - 0)) = true).
    { apply Rltb_true. rewrite Rminus_0_r, Rabs_R0. unfold jensen_radius. lra. }
    rewrite X4. reflexivity. }
  destruct J1 as (v & V & J1). unfold calc_farm. rewrite O. eexists. split; [reflexivity|]. split; [reflexivity|]. cbn -[sm_c]. unfold final_delta. cbn -[sm_c]. change (jx t1) with 0. 
  cbn -[sm_c] in J1. rewrite J1. cbn. lra.
Qed.
