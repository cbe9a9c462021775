(** Lemmas about moved wind farms. *)
From Coq Require Import Permutation Reals Lra.
From Verif Require Import RBase WindDir_Model WindDir_Proofs Rotor_Model Order_Model Order_Spec Order_Proofs FarmWakes_Model FarmWakes_Spec FarmWakes_Proofs AnyOrder_Model Symm_Model Symm_Spec.
Local Open Scope R_scope.

(** two farm calculations whose turbines correspond to each other *)
Section Map.
  Context {T F D W : Type}.
  Variables (amb amb' : T -> W) (ev ev' : T -> W -> F) (g : T -> T) (dom : T -> Prop).
  Hypothesis Ha : forall t, dom t -> amb' (g t) = amb t.
  Hypothesis He : forall t w, dom t -> ev' (g t) w = ev t w.
  Definition corr (w w' : @wmodel T F D W) : Prop :=
    w_down w' = w_down w /\ (forall t, dom t -> w_new w' (g t) = w_new w t) /\
    (forall s f t d, dom s -> dom t -> w_contrib w' (g s) f (g t) d = w_contrib w s f t d) /\
    (forall t a d, dom t -> w_add w' (g t) a d = w_add w t a d).
  Definition gc (c : @cell T F D W) : cell := mkc (g (c_t c)) (c_f c) (c_w c) (c_d c).
  Definition cdom (c : @cell T F D W) : Prop := dom (c_t c).

  Lemma eval_gc w w' c : corr w w' -> cdom c -> eval_cell ev' w' (gc c) = gc (eval_cell ev w c).
  Proof. intros (_ & _ & _ & H) Hc. unfold eval_cell, gc. cbn. rewrite H by exact Hc. now rewrite He by exact Hc. Qed.
  Lemma contrib_gc w w' s c : corr w w' -> cdom s -> cdom c -> contrib_cell w' (gc s) (gc c) = gc (contrib_cell w s c).
  Proof. intros (_ & _ & H & _) Hs Hc. unfold contrib_cell, gc. cbn. now rewrite H. Qed.
  Lemma map_contrib w w' s (l : list cell) : corr w w' -> cdom s -> Forall cdom l -> map (contrib_cell w' (gc s)) (map gc l) = map gc (map (contrib_cell w s) l).
  Proof.
    intros C Hs H. rewrite !map_map. apply map_ext_in. intros c I. rewrite Forall_forall in H. apply (contrib_gc w w' s c); auto.
  Qed.
  Lemma contrib_dom w s (l : list cell) : Forall cdom l -> Forall cdom (map (contrib_cell w s) l).
  Proof. intros H. apply Forall_map. exact H. Qed.
  Lemma tail_gc w w' : corr w w' -> forall n (l : list cell), Forall cdom l -> down_tail ev' w' (map gc l) n = map gc (down_tail ev w l n).
  Proof.
    intros C. induction n as [|n IH]; intros [|c l] H; cbn [down_tail map]; try reflexivity. inversion H as [|? ? Hc Hl]; subst.
    cbn zeta. rewrite (eval_gc w w' c C Hc). f_equal. rewrite (map_contrib w w') by assumption. apply IH. now apply contrib_dom.
  Qed.
  Lemma down_gc w w' (l : list cell) : corr w w' -> Forall cdom l -> down_pass ev' w' (map gc l) = map gc (down_pass ev w l).
  Proof.
    intros C H. destruct l as [|c l]; [reflexivity|]. inversion H as [|? ? Hc Hl]; subst. cbn [map down_pass]. f_equal. rewrite (map_contrib w w') by assumption.
    rewrite map_length. apply (tail_gc w w'); [exact C|now apply contrib_dom].
  Qed.
  Lemma pass_gc w w' (l : list cell) : corr w w' -> Forall cdom l -> pass ev' w' (map gc l) = map gc (pass ev w l).
  Proof.
    intros C H. unfold pass. assert (E : map (fresh w') (map gc l) = map gc (map (fresh w) l)).
    { rewrite !map_map. apply map_ext_in. intros c I. unfold fresh, gc. cbn. destruct C as (_ & N & _). rewrite Forall_forall in H. now rewrite N by now apply H. }
    assert (HF : Forall cdom (map (fresh w) l)) by now apply Forall_map.
    rewrite E, (proj1 C). destruct (w_down w); [now apply (down_gc w w')|]. unfold up_pass. rewrite <- map_rev, (down_gc w w'); [now rewrite map_rev|exact C|].
    now apply Forall_rev.
  Qed.
  Lemma tail_dom w n : forall l : list cell, Forall cdom l -> Forall cdom (down_tail ev w l n).
  Proof.
    induction n as [|n IH]; intros [|c l] H; cbn [down_tail]; try exact H. inversion H as [|? ? Hc Hl]; subst. constructor; [exact Hc|]. apply IH. now apply contrib_dom.
  Qed.
  Lemma pass_dom w (l : list cell) : Forall cdom l -> Forall cdom (pass ev w l).
  Proof.
    intros H. unfold pass, up_pass. assert (HF : Forall cdom (map (fresh w) l)) by now apply Forall_map.
    assert (Q : forall k : list cell, Forall cdom k -> Forall cdom (down_pass ev w k)).
    { intros [|c k] K; [exact K|]. inversion K as [|? ? Hc Hl]; subst. constructor; [exact Hc|]. apply tail_dom. now apply contrib_dom. }
    destruct (w_down w); [now apply Q|]. apply Forall_rev, Q, Forall_rev, HF.
  Qed.
  Lemma run_gc ws ws' : Forall2 corr ws ws' -> forall sd su (l : list cell), Forall cdom l ->
    run_models ev' ws' sd su (map gc l) = match run_models ev ws sd su l with Ok r => Ok (map gc r) | Err e => Err e end.
  Proof.
    induction 1 as [|w w' ws ws' C H IH]; intros sd su l L; cbn [run_models]; [reflexivity|]. rewrite (proj1 C), (pass_gc w w' l C L).
    destruct ((sd || w_down w) && (su || negb (w_down w)))%bool; [reflexivity|]. apply IH. now apply pass_dom.
  Qed.
  Lemma calc_gc d0 ws ws' ts : Forall2 corr ws ws' -> Forall dom ts -> calc_downwind amb' ev' d0 ws' (map g ts) = calc_downwind amb ev d0 ws ts.
  Proof.
    intros C H. unfold calc_downwind. assert (E : start amb' ev' (fun _ => d0) (map g ts) = map gc (start amb ev (fun _ => d0) ts)).
    { unfold start. rewrite !map_map. apply map_ext_in. intros t I. rewrite Forall_forall in H. unfold gc. cbn. rewrite Ha, He by now apply H. reflexivity. }
    rewrite E, (run_gc ws ws' C); [|unfold start; apply Forall_map; exact H]. destruct (run_models ev ws false false _) as [r|]; cbn; [|reflexivity].
    f_equal. rewrite map_map. apply map_ext. reflexivity.
  Qed.
End Map.

(** sorting does not change with the origin *)
Lemma insert_shift (c : R) p : forall l, insert Rleb (fst p + c, snd p) (map (fun q => (fst q + c, snd q)) l) = map (fun q : R * nat => (fst q + c, snd q)) (insert Rleb p l).
Proof.
  induction l as [|q l IH]; cbn [insert map]; [reflexivity|]. cbn [fst snd].
  replace (Rleb (fst p + c) (fst q + c)) with (Rleb (fst p) (fst q)).
  - destruct (Rleb (fst p) (fst q)); cbn [map fst snd]; [reflexivity|]. now rewrite IH.
  - destruct (Rleb (fst p) (fst q)) eqn:E; symmetry; [apply Rleb_true in E; apply Rleb_true; lra|apply Rleb_false in E; apply Rleb_false; lra].
Qed.
Lemma argsort_shift (c : R) (k : list R) : argsort Rleb (map (fun x => x + c) k) = argsort Rleb k.
Proof.
  unfold argsort. rewrite map_length. set (q := seq 0 (length k)).
  assert (E : combine (map (fun x => x + c) k) q = map (fun q : R * nat => (fst q + c, snd q)) (combine k q)).
  { generalize q. induction k as [|x k IH]; intros [|n l]; cbn; try reflexivity. now rewrite IH. }
  rewrite E. assert (I : forall l, isort Rleb (map (fun q : R * nat => (fst q + c, snd q)) l) = map (fun q : R * nat => (fst q + c, snd q)) (isort Rleb l)).
  { induction l as [|p l IH]; cbn [isort fold_right map]; [reflexivity|]. fold (isort Rleb l). rewrite <- insert_shift. unfold isort in IH at 1. now rewrite IH. }
  rewrite I, map_map. now apply map_ext.
Qed.

(** directions *)
Lemma wd2uv_turn wd a (k : Z) : wd2uv (wd + a + 360 * IZR k) 1 =
  (fst (wd2uv wd 1) * cos (a * PI / 180) + snd (wd2uv wd 1) * sin (a * PI / 180), snd (wd2uv wd 1) * cos (a * PI / 180) - fst (wd2uv wd 1) * sin (a * PI / 180)).
Proof.
  unfold wd2uv, wd2wdvec. cbn [fst snd]. replace ((wd + a + 360 * IZR k) * PI / 180) with ((wd * PI / 180 + a * PI / 180) + 2 * PI * IZR k) by field.
  destruct (sin_cos_shift (wd * PI / 180 + a * PI / 180) k) as [-> ->]. rewrite sin_plus, cos_plus. f_equal; ring.
Qed.
Lemma wd2uv_mirror wd (k : Z) : wd2uv (- wd + 360 * IZR k) 1 = (- fst (wd2uv wd 1), snd (wd2uv wd 1)).
Proof.
  unfold wd2uv, wd2wdvec. cbn [fst snd]. replace ((- wd + 360 * IZR k) * PI / 180) with (- (wd * PI / 180) + 2 * PI * IZR k) by field.
  destruct (sin_cos_shift (- (wd * PI / 180)) k) as [-> ->]. rewrite sin_neg, cos_neg. f_equal; ring.
Qed.
Lemma wd2uv_mod wd : wd2uv (rmod wd 360) 1 = wd2uv wd 1.
Proof.
  unfold rmod. set (z := rfloor (wd / 360)). unfold wd2uv, wd2wdvec. cbn [fst snd].
  replace ((wd - 360 * IZR z) * PI / 180) with (wd * PI / 180 + 2 * PI * IZR (- z)) by (rewrite opp_IZR; field).
  destruct (sin_cos_shift (wd * PI / 180) (- z)) as [-> ->]. reflexivity.
Qed.

Section Moved.
  Context {P A F D W : Type}.
  Variables (amb0 : R -> A -> W) (ev0 : P -> W -> F) (dT : turb P) (dF : F) (d0 : D).
  Lemma gather_map (g : turb P -> turb P) farm o : (forall k, In k o -> (k < length farm)%nat) -> gather dT (map g farm) o = map g (gather dT farm o).
  Proof.
    intros H. unfold gather. rewrite map_map. apply map_ext_in. intros k I. specialize (H k I). rewrite (nth_indep (map g farm) dT (g dT)) by now rewrite map_length. apply map_nth.
  Qed.
  (** the same calculation for corresponding farms *)
  Lemma calc_moved (f f' : field A) (g : vec3 -> vec3) dps ms farm c :
    (forall p, a_ws (f' (g p)) = a_ws (f p) /\ a_rest (f' (g p)) = a_rest (f p)) ->
    (forall m s t fs d, In m ms -> In s farm -> In t farm ->
       w_contrib (as_model dps f' m) (at_pos g s) fs (at_pos g t) d = w_contrib (as_model (F := F) (D := D) (W := W) dps f m) s fs t d) ->
    along f' (map (at_pos g) farm) = map (fun x => x + c) (along f farm) ->
    calc amb0 ev0 dps dT dF d0 f' ms (map (at_pos g) farm) = calc amb0 ev0 dps dT dF d0 f ms farm.
  Proof.
    intros H1 H2 H3. unfold calc, calc_with. rewrite H3, argsort_shift. set (o := argsort Rleb (along f farm)).
    assert (Ho : isperm (length farm) o). { unfold o. replace (length farm) with (length (along f farm)) by apply map_length. apply argsort_perm. }
    assert (Hk : forall k, In k o -> (k < length farm)%nat) by (intros k I; now apply (perm_in _ _ _ Ho)).
    rewrite gather_map by exact Hk.
    assert (G : forall t, In t (gather dT farm o) -> In t farm) by (intros t I; apply in_map_iff in I as (k & <- & K); apply nth_In; auto).
    rewrite (calc_gc (amb amb0 f) (amb amb0 f') (ev ev0) (ev ev0) (at_pos g) (fun t => In t farm) ) with (ws := map (as_model dps f) ms); [reflexivity| | | |].
    - intros t _. unfold amb. cbn [at_pos t_pos]. destruct (H1 (t_pos t)) as [-> ->]. reflexivity.
    - intros t w _. reflexivity.
    - clear -H2. induction ms as [|m ms IH]; cbn [map]; constructor; [|apply IH; intros; apply H2; auto; now right].
      unfold corr. cbn [as_model w_down w_new w_add at_pos t_set t_diam]. repeat split; try reflexivity. intros s fs t d Hs Ht. apply (H2 m s t fs d); auto. now left.
    - apply Forall_forall. exact G.
  Qed.
End Moved.

Lemma rsum_lin {T} (u v : T -> R) a b l : rsum (map (fun t => u t * a + v t * b) l) = rsum (map u l) * a + rsum (map v l) * b.
Proof. induction l as [|x l IH]; cbn [map rsum fold_right]; [ring|]. change (rsum (map (fun t => u t * a + v t * b) (x :: l)) = rsum (map u (x :: l)) * a + rsum (map v (x :: l)) * b). cbn. unfold rsum in *. lra. Qed.

(** wake coordinates and rotor points under a turn and under mirroring, for corresponding direction vectors *)
Lemma unit_cs a : cos a * cos a + sin a * sin a = 1.
Proof. pose proof (sin2_cos2 a) as H. unfold Rsqr in H. lra. Qed.
Lemma coos_turned a v o p wd wd' : wd2uv wd' 1 = (fst (wd2uv wd 1) * cos (a * PI / 180) + snd (wd2uv wd 1) * sin (a * PI / 180), snd (wd2uv wd 1) * cos (a * PI / 180) - fst (wd2uv wd 1) * sin (a * PI / 180)) ->
  wake_coos (turned a v o) wd' (turned a v p) = wake_coos o wd p.
Proof.
  intros E. unfold wake_coos. rewrite E. destruct (wd2uv wd 1) as [n0 n1]. pose proof (unit_cs (a * PI / 180)) as U. unfold turned, dot, vsub, vx, vy, vz. cbn [fst snd].
  destruct o as [[o0 o1] o2], p as [[p0 p1] p2]. cbn [fst snd]. set (c := cos (a * PI / 180)) in *. set (s := sin (a * PI / 180)) in *.
  f_equal; [f_equal|].
  - transitivity ((c * c + s * s) * ((p0 - o0) * n0 + (p1 - o1) * n1)); [ring|rewrite U; ring].
  - transitivity ((c * c + s * s) * (- (p0 - o0) * n1 + (p1 - o1) * n0)); [ring|rewrite U; ring].
  - ring.
Qed.
Lemma point_turned a v o D q wd wd' : wd2uv wd' 1 = (fst (wd2uv wd 1) * cos (a * PI / 180) + snd (wd2uv wd 1) * sin (a * PI / 180), snd (wd2uv wd 1) * cos (a * PI / 180) - fst (wd2uv wd 1) * sin (a * PI / 180)) ->
  rotor_point (turned a v o) wd' D q = turned a v (rotor_point o wd D q).
Proof.
  intros E. unfold rotor_point. rewrite E. destruct (wd2uv wd 1) as [n0 n1]. unfold turned, vx, vy, vz. destruct o as [[o0 o1] o2]. cbn [fst snd]. apply f_equal2; [apply f_equal2|]; ring.
Qed.
Lemma coos_mirrored o p wd wd' : wd2uv wd' 1 = (- fst (wd2uv wd 1), snd (wd2uv wd 1)) -> wake_coos (mirrored o) wd' (mirrored p) = flip (wake_coos o wd p).
Proof.
  intros E. unfold wake_coos. rewrite E. destruct (wd2uv wd 1) as [n0 n1]. unfold mirrored, flip, dot, vsub, vx, vy, vz. destruct o as [[o0 o1] o2], p as [[p0 p1] p2]. cbn [fst snd]. apply f_equal2; [apply f_equal2|]; ring.
Qed.
Lemma point_mirrored o D q wd wd' : wd2uv wd' 1 = (- fst (wd2uv wd 1), snd (wd2uv wd 1)) -> py q = 0 -> rotor_point (mirrored o) wd' D q = mirrored (rotor_point o wd D q).
Proof.
  intros E Q. unfold rotor_point. rewrite E, Q. destruct (wd2uv wd 1) as [n0 n1]. unfold mirrored, vx, vy, vz. destruct o as [[o0 o1] o2]. cbn [fst snd]. apply f_equal2; [apply f_equal2|]; ring.
Qed.
(** the wind direction of a turbine's wake *)
Lemma wake_wd_uv {P A} (f : field A) (t : turb P) : 0 < a_ws (f (t_pos t)) -> wd2uv (wake_wd f t) 1 = wd2uv (a_wd (f (t_pos t))) 1.
Proof. intros H. unfold wake_wd. rewrite uv_roundtrip by exact H. apply wd2uv_mod. Qed.
