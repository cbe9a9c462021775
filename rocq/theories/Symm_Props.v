(** Property theorems C218, C219: symmetries of farm calculations. *)
From Coq Require Import Reals Lra.
From Verif Require Import RBase WindDir_Model Rotor_Model Symm_Model Symm_Spec Symm_Proofs.
Local Open Scope R_scope.

(** C218: moving and turning the wind farm together with the wind leaves the results of all turbines unchanged *)
Theorem C218_moved : forall (P A F D W : Type) (amb0 : R -> A -> W) (ev0 : P -> W -> F) dps (dT : turb P) (dF : F) (d0 : D)
    (f f' : field A) angle v (ms : list (smodel P F D W)) farm,
  moved_field (turned angle v) (fun wd => wd + angle) f f' -> windy f farm ->
  calc amb0 ev0 dps dT dF d0 f' ms (map (at_pos (turned angle v)) farm) = calc amb0 ev0 dps dT dF d0 f ms farm.
Proof.
  intros P A F D W amb0 ev0 dps dT dF d0 f f' a v ms farm Hf Hw.
  assert (U : forall p, wd2uv (a_wd (f' (turned a v p))) 1 = (fst (wd2uv (a_wd (f p)) 1) * cos (a * PI / 180) + snd (wd2uv (a_wd (f p)) 1) * sin (a * PI / 180), snd (wd2uv (a_wd (f p)) 1) * cos (a * PI / 180) - fst (wd2uv (a_wd (f p)) 1) * sin (a * PI / 180))).
  { intros p. destruct (Hf p) as (k & ->). cbn [a_wd]. apply wd2uv_turn. }
  set (c := cos (a * PI / 180)) in *. set (s := sin (a * PI / 180)) in *.
  eapply calc_moved with (c := vx v * fst (mean_dir f' (map (at_pos (turned a v)) farm)) + vy v * snd (mean_dir f' (map (at_pos (turned a v)) farm))).
  - intros p. destruct (Hf p) as (k & ->). split; reflexivity.
  - intros m t1 t2 fs d _ I1 I2. cbn [as_model w_contrib at_pos t_set t_diam t_pos]. f_equal. unfold target_points. rewrite !map_map. apply map_ext. intros q. cbn [at_pos t_pos t_diam].
    rewrite (point_turned a v _ _ q (a_wd (f (t_pos t2)))) by apply U. apply coos_turned. rewrite !wake_wd_uv; [apply U|now apply Hw|].
    cbn [at_pos t_pos]. destruct (Hf (t_pos t1)) as (k & ->). cbn. now apply Hw.
  - unfold along. assert (N : mean_dir f' (map (at_pos (turned a v)) farm) = (fst (mean_dir f farm) * c + snd (mean_dir f farm) * s, snd (mean_dir f farm) * c - fst (mean_dir f farm) * s)).
    { unfold mean_dir. cbn [fst snd]. rewrite map_length, !map_map. cbn [at_pos t_pos].
      rewrite (map_ext _ (fun t : turb P => fst (wd2uv (a_wd (f (t_pos t))) 1) * c + snd (wd2uv (a_wd (f (t_pos t))) 1) * s)) by (intros t; now rewrite U).
      rewrite (map_ext (fun t : turb P => snd (wd2uv (a_wd (f' (turned a v (t_pos t)))) 1)) (fun t : turb P => snd (wd2uv (a_wd (f (t_pos t))) 1) * c + fst (wd2uv (a_wd (f (t_pos t))) 1) * (- s))) by (intros t; rewrite U; cbn; ring).
      rewrite !rsum_lin. unfold Rdiv. f_equal; ring. }
    rewrite N. cbn [fst snd]. rewrite !map_map. apply map_ext. intros t. cbn [at_pos t_pos]. unfold turned, vx, vy, vz. fold c s. destruct (t_pos t) as [[x y] z]. destruct (mean_dir f farm) as [n0 n1]. cbn [fst snd].
    pose proof (unit_cs (a * PI / 180)) as K. fold c s in K.
    transitivity ((c * c + s * s) * (x * n0 + y * n1) + (fst (fst v) * (n0 * c + n1 * s) + snd (fst v) * (n1 * c - n0 * s))); [ring|rewrite K; ring].
Qed.
Print Assumptions C218_moved.
(** in uniform wind only the wind direction has to be turned *)
Theorem C218_uniform : forall (P A F D W : Type) (amb0 : R -> A -> W) (ev0 : P -> W -> F) dps (dT : turb P) (dF : F) (d0 : D)
    wd wd' ws rest angle v (ms : list (smodel P F D W)) farm, 0 < ws -> (exists k : Z, wd' = wd + angle + 360 * IZR k) ->
  calc amb0 ev0 dps dT dF d0 (fun _ => mkair wd' ws rest) ms (map (at_pos (turned angle v)) farm) =
  calc amb0 ev0 dps dT dF d0 (fun _ => mkair wd ws rest) ms farm.
Proof.
  intros P A F D W amb0 ev0 dps dT dF d0 wd wd' ws rest a v ms farm Hw (k & ->). apply C218_moved; [|now intros t _].
  intros p. exists k. reflexivity.
Qed.
Print Assumptions C218_uniform.

(** C219: the mirror image of a wind farm in the mirror image of the wind has the same results, for wake models that do not tell left from right,
    evaluated on the rotors' vertical axis *)
Theorem C219_mirrored : forall (P A F D W : Type) (amb0 : R -> A -> W) (ev0 : P -> W -> F) dps (dT : turb P) (dF : F) (d0 : D)
    (f f' : field A) (ms : list (smodel P F D W)) farm,
  (forall q, In q dps -> py q = 0) -> (forall m, In m ms -> left_right_symmetric m) ->
  moved_field mirrored (fun wd => - wd) f f' -> windy f farm ->
  calc amb0 ev0 dps dT dF d0 f' ms (map (at_pos mirrored) farm) = calc amb0 ev0 dps dT dF d0 f ms farm.
Proof.
  intros P A F D W amb0 ev0 dps dT dF d0 f f' ms farm Hq Hm Hf Hw.
  assert (U : forall p, wd2uv (a_wd (f' (mirrored p))) 1 = (- fst (wd2uv (a_wd (f p)) 1), snd (wd2uv (a_wd (f p)) 1))).
  { intros p. destruct (Hf p) as (k & ->). cbn [a_wd]. apply wd2uv_mirror. }
  eapply calc_moved with (c := 0).
  - intros p. destruct (Hf p) as (k & ->). split; reflexivity.
  - intros m t1 t2 fs d Im I1 I2. cbn [as_model w_contrib at_pos t_set t_diam t_pos]. rewrite <- (Hm m Im _ _ _ (map (wake_coos (t_pos t1) (wake_wd f t1)) (target_points dps f t2))).
    f_equal. unfold target_points. rewrite !map_map. apply map_ext_in. intros q Iq. cbn [at_pos t_pos t_diam].
    rewrite (point_mirrored _ _ q (a_wd (f (t_pos t2)))) by (apply U || now apply Hq). apply coos_mirrored. rewrite !wake_wd_uv; [apply U|now apply Hw|].
    cbn [at_pos t_pos]. destruct (Hf (t_pos t1)) as (k & ->). cbn. now apply Hw.
  - unfold along. assert (N : mean_dir f' (map (at_pos mirrored) farm) = (- fst (mean_dir f farm), snd (mean_dir f farm))).
    { unfold mean_dir. cbn [fst snd]. rewrite map_length, !map_map. cbn [at_pos t_pos].
      rewrite (map_ext _ (fun t : turb P => fst (wd2uv (a_wd (f (t_pos t))) 1) * (- 1) + snd (wd2uv (a_wd (f (t_pos t))) 1) * 0)) by (intros t; rewrite U; cbn; ring).
      rewrite (map_ext (fun t : turb P => snd (wd2uv (a_wd (f' (mirrored (t_pos t)))) 1)) (fun t : turb P => snd (wd2uv (a_wd (f (t_pos t))) 1))) by (intros t; now rewrite U).
      rewrite !rsum_lin. unfold Rdiv. f_equal; ring. }
    rewrite N. cbn [fst snd]. rewrite !map_map. apply map_ext. intros t. cbn [at_pos t_pos]. unfold mirrored, vx, vy, vz. destruct (t_pos t) as [[x y] z]. cbn [fst snd]. ring.
Qed.
Print Assumptions C219_mirrored.
(** Non-vacuity: every wind field can be moved and turned, and mirrored *)
Theorem C218_every_field : forall (A : Type) (f : field A) angle v, exists f', moved_field (turned angle v) (fun wd => wd + angle) f f'.
Proof.
  intros A f a v. exists (fun p => let q := turned (- a) (0, 0, 0) (vsub p v) in mkair (a_wd (f q) + a) (a_ws (f q)) (a_rest (f q))). intros p. exists 0%Z. cbv zeta.
  assert (E : turned (- a) (0, 0, 0) (vsub (turned a v p) v) = p); [|rewrite E; f_equal; ring].
  unfold turned, vsub, vx, vy, vz. destruct p as [[x y] z], v as [[v0 v1] v2]. cbn [fst snd]. replace (- a * PI / 180) with (- (a * PI / 180)) by field. rewrite cos_neg, sin_neg.
  pose proof (unit_cs (a * PI / 180)) as K. set (c := cos (a * PI / 180)) in *. set (s := sin (a * PI / 180)) in *.
  apply f_equal2; [apply f_equal2|ring].
  - transitivity ((c * c + s * s) * x); [ring|rewrite K; ring].
  - transitivity ((c * c + s * s) * y); [ring|rewrite K; ring].
Qed.
Print Assumptions C218_every_field.
Example ex_mirror_field (A : Type) (f : field A) : moved_field mirrored (fun wd => - wd) f (fun p => mkair (- a_wd (f (mirrored p))) (a_ws (f (mirrored p))) (a_rest (f (mirrored p)))).
Proof.
  intros p. exists 0%Z. replace (mirrored (mirrored p)) with p; [f_equal; ring|]. unfold mirrored, vx, vy, vz. destruct p as [[x y] z]. cbn. now rewrite Ropp_involutive.
Qed.
(** models that depend on the downwind and the radial distance only, as models/wake_models/axisymmetric.py:104-105 *)
Definition axisymmetric {P F D W} (dn : bool) (nw : P -> R -> D) (h : P -> R -> F -> list (R * R) -> P -> R -> D -> D) (ad : P -> R -> W -> D -> W) : smodel P F D W :=
  mks dn nw (fun s ds fs l => h s ds fs (map (fun p => (vx p, sqrt (vy p * vy p + vz p * vz p))) l)) ad.
Example ex_axisymmetric P F D W dn nw h ad : left_right_symmetric (@axisymmetric P F D W dn nw h ad).
Proof.
  intros s ds fs l t dt d. unfold axisymmetric. cbn [s_contrib]. rewrite map_map. f_equal. apply map_ext. intros p. unfold flip, vx, vy, vz. cbn [fst snd]. f_equal. f_equal. ring.
Qed.
(** a quarter turn: west wind on a row from west to east becomes north wind on a row from north to south *)
Example ex_turn : turned 90 (0, 0, 0) (500, 0, 100) = (0, -500, 100).
Proof. unfold turned, vx, vy, vz. cbn [fst snd]. replace (90 * PI / 180) with (PI / 2) by field. rewrite cos_PI2, sin_PI2. apply f_equal2; [apply f_equal2|]; ring. Qed.
