(** Proofs for TiWake_Model. *)
From Coq Require Import Rpower.
From Coquelicot Require Import Coquelicot.
From Verif Require Import RBase Induction_Model Induction_Spec Induction_Proofs Yaw_Spec Yaw_Proofs TiWake_Model TiWake_Spec.
Local Open Scope R_scope.

Lemma top_hat_in rad cl ct x r : 1e-8 < x -> 1e-8 < ct -> r < rad -> top_hat rad cl ct x r = cl.
Proof. intros A B C. unfold top_hat. rewrite (proj2 (Rltb_true _ _) A), (proj2 (Rltb_true _ _) B), (proj2 (Rltb_true _ _) C). reflexivity. Qed.
Lemma top_hat_out rad cl ct x r : x <= 1e-8 \/ ct <= 1e-8 \/ rad <= r -> top_hat rad cl ct x r = 0.
Proof. intros [A|[A|A]]; apply Rltb_false in A; unfold top_hat; rewrite A, ?andb_false_r; reflexivity. Qed.
Lemma top_hat_cases (rad ct x r : R) : {1e-8 < x /\ 1e-8 < ct /\ r < rad} + {x <= 1e-8 \/ ct <= 1e-8 \/ rad <= r}.
Proof.
  destruct (Rlt_dec 1e-8 x); [|right; lra]. destruct (Rlt_dec 1e-8 ct); [|right; lra]. destruct (Rlt_dec r rad); [|right; lra]. left. auto.
Qed.

(* ---- IEC ---- *)
Lemma iec_slope_pos ty D ws ct : 0 < D -> 0 <= ws -> 0 < ct ->
  exists s n, 0 <= s /\ 0 < n <= 1 /\ forall x, iec_centreline ty D ws ct x = n / (1.5 + s * x).
Proof.
  intros HD Hw Hc. destruct ty; cbn [iec_centreline].
  - exists (0.3 / D * sqrt ws), (sqrt 0.9). assert (0 < 0.3 / D) by (apply Rdiv_lt_0_compat; lra). pose proof (sqrt_pos ws).
    split; [nra|]. split; [split; [apply sqrt_lt_R0; lra|]|].
    + replace 1 with (sqrt 1) by apply sqrt_1. apply sqrt_le_1; lra.
    + intros x. f_equal. f_equal. generalize 0.3. intros q. unfold Rdiv. ring.
  - exists (0.8 / D / sqrt ct), 1. assert (0 < sqrt ct) by (apply sqrt_lt_R0; lra).
    assert (0 < 0.8 / D / sqrt ct) by (apply Rdiv_lt_0_compat; [apply Rdiv_lt_0_compat; lra|lra]).
    split; [lra|]. split; [lra|]. intros x. f_equal. f_equal. generalize 0.8. intros q. unfold Rdiv. ring.
Qed.
Lemma frac_mono n s x x' : 0 <= s -> 0 < n -> 0 <= x <= x' -> 0 < n / (1.5 + s * x') <= n / (1.5 + s * x).
Proof.
  intros Hs Hn Hx. assert (A : 0 < 1.5 + s * x) by nra. assert (B : 1.5 + s * x <= 1.5 + s * x') by nra. split.
  - apply Rdiv_lt_0_compat; lra.
  - apply Rmult_le_compat_l; [lra|]. now apply Rinv_le_contravar.
Qed.
Lemma frac_lt n s x x' : 0 < s -> 0 < n -> 0 <= x < x' -> n / (1.5 + s * x') < n / (1.5 + s * x).
Proof.
  intros Hs Hn Hx. assert (A : 0 < 1.5 + s * x) by nra. assert (B : 1.5 + s * x < 1.5 + s * x') by nra.
  apply Rmult_lt_compat_l; [lra|]. apply Rinv_lt_contravar; [apply Rmult_lt_0_compat; lra|exact B].
Qed.
Lemma iec_bounds ty o D ws ct x r : 0 < D -> 0 <= ws -> 0 <= iec_ti ty o D ws ct x r <= 2 / 3.
Proof.
  intros HD Hw. unfold iec_ti. destruct (top_hat_cases (iec_radius o D x) ct x r) as [(A & B & C)|H];
    [|rewrite top_hat_out by exact H; lra].
  rewrite top_hat_in by assumption. destruct (iec_slope_pos ty D ws ct HD Hw ltac:(lra)) as (s & n & Hs & Hn & E). rewrite E.
  pose proof (frac_mono n s 0 x Hs (proj1 Hn) ltac:(lra)) as [P Q]. split; [lra|]. eapply Rle_trans; [exact Q|]. rewrite Rmult_0_r, Rplus_0_r. lra.
Qed.
Lemma iec_inside ty o D ws ct x r : 0 < D -> 0 <= ws -> 1e-8 < x -> 1e-8 < ct -> r < iec_radius o D x -> 0 < iec_ti ty o D ws ct x r.
Proof.
  intros HD Hw A B C. unfold iec_ti. rewrite top_hat_in by assumption. destruct (iec_slope_pos ty D ws ct HD Hw ltac:(lra)) as (s & n & Hs & Hn & E).
  rewrite E. apply (frac_mono n s x x Hs (proj1 Hn)). lra.
Qed.
Lemma iec_decays ty o D ws ct x x' r : 0 < D -> 0 < ws -> 1e-8 < x < x' -> 1e-8 < ct -> r < iec_radius o D x -> r < iec_radius o D x' ->
  iec_ti ty o D ws ct x' r < iec_ti ty o D ws ct x r.
Proof.
  intros HD Hw Hx Hc R1 R2. unfold iec_ti. rewrite !top_hat_in by (assumption || lra).
  destruct ty; cbn [iec_centreline].
  - assert (P : forall y, 0.3 * y / D * sqrt ws = (0.3 / D * sqrt ws) * y) by (intros y; generalize 0.3; intros q; unfold Rdiv; ring). rewrite !P.
    apply frac_lt; [|apply sqrt_lt_R0; lra|lra]. apply Rmult_lt_0_compat; [apply Rdiv_lt_0_compat; lra|apply sqrt_lt_R0; lra].
  - assert (P : forall y, 0.8 * y / D / sqrt ct = (0.8 / D / sqrt ct) * y) by (intros y; generalize 0.8; intros q; unfold Rdiv; ring). rewrite !P.
    apply frac_lt; [|lra|lra]. apply Rdiv_lt_0_compat; [apply Rdiv_lt_0_compat; lra|apply sqrt_lt_R0; lra].
Qed.
Lemma iec_grows_with_ct o D ws ct ct' x r : 0 < D -> 1e-8 < x -> 1e-8 < ct < ct' -> r < iec_radius o D x ->
  iec_ti Iec2019 o D ws ct x r < iec_ti Iec2019 o D ws ct' x r.
Proof.
  intros HD Hx Hc R1. unfold iec_ti. rewrite !top_hat_in by (assumption || lra). cbn [iec_centreline].
  assert (S : 0 < sqrt ct < sqrt ct') by (split; [apply sqrt_lt_R0; lra|apply sqrt_lt_1; lra]).
  assert (Q : 0 < 0.8 * x / D) by (apply Rdiv_lt_0_compat; lra).
  assert (U : 0 < 0.8 * x / D / sqrt ct' < 0.8 * x / D / sqrt ct).
  { split; [apply Rdiv_lt_0_compat; lra|]. apply Rmult_lt_compat_l; [lra|]. apply Rinv_lt_contravar; [apply Rmult_lt_0_compat|]; lra. }
  apply Rmult_lt_compat_l; [lra|]. apply Rinv_lt_contravar; [apply Rmult_lt_0_compat|]; lra.
Qed.

(* ---- Crespo-Hernandez ---- *)
Lemma ch_default_ok : ch_ok crespo_default.
Proof. unfold ch_ok, crespo_default; cbn; lra. Qed.
Lemma rpow_pos a b : 0 < Rpower a b.
Proof. unfold Rpower. apply exp_pos. Qed.
Lemma rpow_decr a b e : e < 0 -> 0 < a < b -> Rpower b e < Rpower a e.
Proof. intros He Hab. unfold Rpower. apply exp_increasing. pose proof (ln_increasing a b (proj1 Hab) (proj2 Hab)). nra. Qed.
Lemma rpow_decr_le a b e : e < 0 -> 0 < a <= b -> Rpower b e <= Rpower a e.
Proof. intros He Hab. destruct (Req_dec a b) as [->|N]; [lra|]. left. apply rpow_decr; [exact He|lra]. Qed.
Lemma rpow_inv y e : e <> 0 -> 0 < y -> Rpower (Rpower y (1 / e)) e = y.
Proof. intros He Hy. rewrite Rpower_mult. replace (1 / e * e) with 1 by (field; exact He). now rewrite Rpower_1. Qed.
Definition far_wake (p : crespo_pars) (twoa ti q : R) := ch_a_far p * Rpower (twoa / 2) (ch_e1 p) * Rpower ti (ch_e2 p) * Rpower q (ch_e3 p).
Lemma far_at_near p twoa ti : ch_ok p -> ch_near p = None -> 0 < twoa -> far_wake p twoa ti (crespo_near_D p twoa ti) = ch_a_near p * twoa.
Proof.
  intros (P1 & P2 & P3) N Ht. unfold far_wake, crespo_near_D. rewrite N.
  set (Y := Rpower 2 (ch_e1 p) * ch_a_near p / (ch_a_far p * Rpower ti (ch_e2 p)) * Rpower twoa (1 - ch_e1 p)).
  pose proof (rpow_pos ti (ch_e2 p)) as T. pose proof (rpow_pos 2 (ch_e1 p)) as T2. pose proof (rpow_pos twoa (1 - ch_e1 p)) as T3.
  assert (HY : 0 < Y).
  { unfold Y. apply Rmult_lt_0_compat; [|exact T3]. apply Rdiv_lt_0_compat; apply Rmult_lt_0_compat; assumption. }
  rewrite rpow_inv by (lra || exact HY). unfold Y.
  assert (E1 : Rpower (twoa / 2) (ch_e1 p) * Rpower 2 (ch_e1 p) = Rpower twoa (ch_e1 p)).
  { rewrite Rpower_mult_distr by lra. f_equal. field. }
  assert (E2 : Rpower twoa (ch_e1 p) * Rpower twoa (1 - ch_e1 p) = twoa).
  { rewrite <- Rpower_plus. replace (ch_e1 p + (1 - ch_e1 p)) with 1 by ring. now apply Rpower_1. }
  transitivity (ch_a_near p * (Rpower (twoa / 2) (ch_e1 p) * Rpower 2 (ch_e1 p) * Rpower twoa (1 - ch_e1 p))).
  - field. split; lra.
  - rewrite E1, E2. reflexivity.
Qed.
Lemma near_pos p twoa ti : ch_near p = None -> 0 < crespo_near_D p twoa ti.
Proof. intros N. unfold crespo_near_D. rewrite N. apply rpow_pos. Qed.
Lemma far_decr p twoa ti q q' : ch_ok p -> 0 < q <= q' -> far_wake p twoa ti q' <= far_wake p twoa ti q.
Proof.
  intros (P1 & P2 & P3) Hq. unfold far_wake. apply Rmult_le_compat_l.
  - pose proof (rpow_pos (twoa / 2) (ch_e1 p)). pose proof (rpow_pos ti (ch_e2 p)). left. repeat apply Rmult_lt_0_compat; assumption.
  - now apply rpow_decr_le.
Qed.
Lemma far_pos p twoa ti q : ch_ok p -> 0 < far_wake p twoa ti q.
Proof. intros (P1 & P2 & P3). unfold far_wake. repeat apply Rmult_lt_0_compat; (assumption || apply rpow_pos). Qed.
Lemma crespo_cl p ct2a D ti ct x : crespo_centreline p ct2a D ti ct x =
  if Rltb x (crespo_near_D p (2 * ct2a ct) ti * D) then ch_a_near p * (2 * ct2a ct) else far_wake p (2 * ct2a ct) ti (x / D).
Proof. reflexivity. Qed.
Lemma div_ge a b D : 0 < D -> a * D <= b -> a <= b / D.
Proof. intros HD H. apply (Rmult_le_reg_r D); [exact HD|]. replace (b / D * D) with b by (field; lra). exact H. Qed.
Lemma crespo_cl_mono p ct2a D ti ct x x' : ch_ok p -> ch_near p = None -> 0 < D -> 0 < ct2a ct -> 0 <= x <= x' ->
  crespo_centreline p ct2a D ti ct x' <= crespo_centreline p ct2a D ti ct x.
Proof.
  intros P N HD Ha Hx. rewrite !crespo_cl. set (t := 2 * ct2a ct). assert (Ht : 0 < t) by (unfold t; lra).
  pose proof (near_pos p t ti N) as NP. pose proof (far_at_near p t ti P N Ht) as FN. set (n := crespo_near_D p t ti) in *.
  destruct (Rltb x' (n * D)) eqn:E'; [apply Rltb_true in E'|apply Rltb_false in E'];
  (destruct (Rltb x (n * D)) eqn:E; [apply Rltb_true in E|apply Rltb_false in E]); try lra.
  - rewrite <- FN. apply far_decr; [exact P|]. split; [exact NP|]. apply div_ge; assumption.
  - apply far_decr; [exact P|]. pose proof (div_ge n x D HD E). split; [lra|]. apply Rmult_le_compat_r; [|lra]. left. now apply Rinv_0_lt_compat.
Qed.
Lemma crespo_cl_bounds p ct2a D ti ct x : ch_ok p -> ch_near p = None -> 0 < D -> 0 < ct2a ct -> 0 <= x ->
  0 < crespo_centreline p ct2a D ti ct x <= ch_a_near p * (2 * ct2a ct).
Proof.
  intros P N HD Ha Hx. split.
  - rewrite crespo_cl. destruct (Rltb _ _); [|now apply far_pos]. destruct P. apply Rmult_lt_0_compat; lra.
  - eapply Rle_trans; [apply (crespo_cl_mono p ct2a D ti ct 0 x P N HD Ha); lra|]. rewrite crespo_cl.
    rewrite (proj2 (Rltb_true _ _)); [lra|]. apply Rmult_lt_0_compat; [now apply near_pos|exact HD].
Qed.
Lemma far_continuous p twoa ti D a : 0 < D -> 0 < a -> continuous (fun x => far_wake p twoa ti (x / D)) a.
Proof.
  intros HD Ha. apply (ex_derive_continuous (V := R_NormedModule)). unfold far_wake, Rpower. auto_derive. apply Rdiv_lt_0_compat; assumption.
Qed.
Lemma crespo_switch p ct2a D ti ct : ch_ok p -> 0 < D -> 0 < ct2a ct -> 0 < crespo_near_D p (2 * ct2a ct) ti ->
  let xn := crespo_near_D p (2 * ct2a ct) ti * D in
  left_limit (crespo_centreline p ct2a D ti ct) xn (ch_a_near p * (2 * ct2a ct)) /\
  right_limit (crespo_centreline p ct2a D ti ct) xn (far_wake p (2 * ct2a ct) ti (crespo_near_D p (2 * ct2a ct) ti)).
Proof.
  intros P HD Ha Hn xn. assert (Hxn : 0 < xn) by (unfold xn; now apply Rmult_lt_0_compat). split.
  - intros eps He. exists 1. split; [lra|]. intros x Hx. rewrite crespo_cl. fold xn. rewrite (proj2 (Rltb_true _ _)) by lra.
    replace (_ - _) with 0 by ring. now rewrite Rabs_R0.
  - apply (right_of _ (fun x => far_wake p (2 * ct2a ct) ti (x / D)) _ _ 1); [lra| |now apply far_continuous|].
    + intros x Hx. rewrite crespo_cl. fold xn. rewrite (proj2 (Rltb_false _ _)) by lra. reflexivity.
    + f_equal. unfold xn. field. lra.
Qed.
Lemma crespo_ti_bounds p ct2a D k ti ct x r : ch_ok p -> ch_near p = None -> 0 < D -> (forall c, 0 < c -> 0 < ct2a c < 1 / 2) ->
  0 <= crespo_ti p ct2a D k ti ct x r <= ch_a_near p.
Proof.
  intros P N HD H2. unfold crespo_ti. destruct (top_hat_cases (crespo_radius p ct2a D k ct x) ct x r) as [(A & B & C)|Z].
  - rewrite top_hat_in by assumption. destruct (H2 ct ltac:(lra)) as [U V]. destruct (crespo_cl_bounds p ct2a D ti ct x P N HD U ltac:(lra)) as [W X].
    destruct P as (P1 & _). split; [lra|]. nra.
  - rewrite top_hat_out by exact Z. destruct P. lra.
Qed.
Lemma crespo_radius_mono p ct2a D k ct x x' : 0 <= k -> x <= x' -> crespo_radius p ct2a D k ct x <= crespo_radius p ct2a D k ct x'.
Proof. intros Hk Hx. unfold crespo_radius. cbn zeta. nra. Qed.

(* ---- TurbOPark ---- *)
Definition tp_F (u : R) : R := sqrt (u * u + 1) - ln ((sqrt (u * u + 1) + 1) / u).
Lemma tp_F_derive u : 0 < u -> is_derive tp_F u (sqrt (1 + 1 / (u * u))).
Proof.
  intros Hu. assert (Q : 0 < u * u + 1) by nra. pose proof (sqrt_lt_R0 _ Q) as S. unfold tp_F. auto_derive.
  - repeat split; try lra. apply Rdiv_lt_0_compat; lra.
  - replace (1 + 1 / (u * u)) with ((u * u + 1) / (u * u)) by (field; lra). rewrite sqrt_div_alt by nra. rewrite sqrt_square by lra.
    assert (SS : sqrt (u * u + 1) * sqrt (u * u + 1) = u * u + 1) by (apply sqrt_sqrt; lra). set (s := sqrt (u * u + 1)) in *.
    assert (U2 : u * u = s * s - 1) by lra.
    transitivity ((u * u + s + 1) / (u * (s + 1))); [field; repeat split; lra|]. rewrite U2. field. split; lra.
Qed.
Lemma turbo_sigma_F ct2a sbeta c1 c2 D k ati ct x : 0 < D -> 0 < c1 -> 0 < c2 -> 0 < ati -> 0 < ct -> 0 <= x ->
  let b := c2 * ati / sqrt ct in
  turbo_sigma ct2a sbeta c1 c2 D k ati ct x =
  D * (sbeta * sqrt ((1 - ct2a ct) / (1 - 2 * ct2a ct))) + D * k / b * (tp_F (c1 * ati + b * x / D) - tp_F (c1 * ati)).
Proof.
  intros HD H1 H2 Ha Hc Hx b. unfold turbo_sigma. cbn zeta. fold b.
  assert (Hsc : 0 < sqrt ct) by now apply sqrt_lt_R0. assert (Hb : 0 < b) by (unfold b; apply Rdiv_lt_0_compat; [apply Rmult_lt_0_compat|]; assumption).
  set (al := c1 * ati). assert (Hal : 0 < al) by (unfold al; now apply Rmult_lt_0_compat).
  assert (Hu : 0 < al + b * x / D). { assert (0 <= b * x / D); [|lra]. apply Rmult_le_pos; [nra|]. left. now apply Rinv_0_lt_compat. }
  set (u := al + b * x / D) in *. unfold tp_F. rewrite (Rplus_comm 1 (al * al)).
  assert (Su : 0 < sqrt (u * u + 1)) by (apply sqrt_lt_R0; nra). assert (Sa : 0 < sqrt (al * al + 1)) by (apply sqrt_lt_R0; nra).
  set (su := sqrt (u * u + 1)) in *. set (sa := sqrt (al * al + 1)) in *.
  replace ((su + 1) * al / ((sa + 1) * u)) with (((su + 1) / u) * / ((sa + 1) / al)) by (field; repeat split; lra).
  rewrite ln_mult; [|apply Rdiv_lt_0_compat; lra|apply Rinv_0_lt_compat, Rdiv_lt_0_compat; lra].
  rewrite ln_Rinv by (apply Rdiv_lt_0_compat; lra). field. lra.
Qed.

Lemma turbo_u_derive al b D x : D <> 0 -> is_derive (fun y => al + b * y / D) x (b / D).
Proof. intros HD. auto_derive; [exact I|]. field. exact HD. Qed.
Lemma turbo_sigma_derive ct2a sbeta c1 c2 D k ati ct x : 0 < D -> 0 < c1 -> 0 < c2 -> 0 < ati -> 0 < ct -> 0 < x ->
  is_derive (turbo_sigma ct2a sbeta c1 c2 D k ati ct) x
    (k / ati * sqrt (ati * ati + (1 / (c1 + c2 * x / D / sqrt ct)) * (1 / (c1 + c2 * x / D / sqrt ct)))).
Proof.
  intros HD H1 H2 Ha Hc Hx. set (b := c2 * ati / sqrt ct). set (al := c1 * ati).
  assert (Hsc : 0 < sqrt ct) by now apply sqrt_lt_R0. assert (Hb : 0 < b) by (unfold b; apply Rdiv_lt_0_compat; [apply Rmult_lt_0_compat|]; assumption).
  assert (Hal : 0 < al) by (unfold al; now apply Rmult_lt_0_compat).
  set (e0 := D * (sbeta * sqrt ((1 - ct2a ct) / (1 - 2 * ct2a ct)))).
  apply (is_derive_ext_loc (fun y => e0 + D * k / b * (tp_F (al + b * y / D) - tp_F al))).
  - exists (mkposreal x Hx). intros y Hy. unfold ball in Hy; cbn in Hy. unfold AbsRing_ball, abs, minus, plus, opp in Hy; cbn in Hy.
    apply Rabs_def2 in Hy. rewrite turbo_sigma_F by (assumption || lra). reflexivity.
  - assert (Hu : 0 < al + b * x / D). { assert (0 < b * x / D); [|lra]. apply Rdiv_lt_0_compat; [now apply Rmult_lt_0_compat|assumption]. }
    pose proof (is_derive_comp tp_F (fun y => al + b * y / D) x _ _ (tp_F_derive _ Hu) (turbo_u_derive al b D x ltac:(lra))) as C.
    pose proof (is_derive_scal _ x (D * k / b) _ (is_derive_minus _ _ x _ _ C (is_derive_const (tp_F al) x))) as C2.
    pose proof (is_derive_plus _ _ x _ _ (is_derive_const e0 x) C2) as C3.
    match type of C3 with is_derive _ _ ?v => replace (k / ati * sqrt _) with v; [exact C3|] end.
    unfold scal, minus, plus, opp, zero, mult; cbn -[sqrt]. unfold mult, one; cbn -[sqrt].
    set (w := c1 + c2 * x / D / sqrt ct). assert (Hw : 0 < w). { unfold w. assert (0 < c2 * x / D / sqrt ct); [|lra]. repeat apply Rdiv_lt_0_compat; try assumption. now apply Rmult_lt_0_compat. }
    assert (EU : al + b * x / D = ati * w). { unfold al, b, w. field. split; lra. } rewrite EU.
    replace (ati * ati + 1 / w * (1 / w)) with (ati * ati * (1 + 1 / (ati * w * (ati * w)))) by (field; split; lra).
    rewrite sqrt_mult_alt by nra. rewrite sqrt_square by lra. set (q := sqrt _). unfold Rminus. field. repeat split; lra.
Qed.
Lemma turbo_sigma_at_0 ct2a sbeta c1 c2 D k ati ct : 0 < D -> 0 < c1 -> 0 < c2 -> 0 < ati -> 0 < ct ->
  turbo_sigma ct2a sbeta c1 c2 D k ati ct 0 = sbeta * sqrt ((1 - ct2a ct) / (1 - 2 * ct2a ct)) * D.
Proof.
  intros HD H1 H2 Ha Hc. rewrite turbo_sigma_F by (assumption || lra). set (b := c2 * ati / sqrt ct).
  replace (c1 * ati + b * 0 / D) with (c1 * ati) by (field; lra). ring.
Qed.
Lemma tp_F_growth a b : 0 < a <= b -> b - a <= tp_F b - tp_F a.
Proof.
  intros H. destruct (Req_dec a b) as [->|N]; [lra|].
  destruct (MVT_gen tp_F a b (fun u => sqrt (1 + 1 / (u * u)))) as (c & Hc & E).
  - intros u Hu. rewrite Rmin_left in Hu by lra. apply tp_F_derive. lra.
  - intros u Hu. rewrite Rmin_left in Hu by lra. apply derivable_continuous_pt. exists (sqrt (1 + 1 / (u * u))). apply is_derive_Reals. apply tp_F_derive. lra.
  - rewrite Rmin_left, Rmax_right in Hc by lra. rewrite E. assert (1 <= sqrt (1 + 1 / (c * c))).
    { rewrite <- sqrt_1 at 1. apply sqrt_le_1_alt. assert (0 < 1 / (c * c)); [|lra]. apply Rdiv_lt_0_compat; nra. }
    nra.
Qed.
(** the wake widens at least as fast as with the constant expansion [k] *)
Lemma turbo_sigma_growth ct2a sbeta c1 c2 D k ati ct x x' : 0 < D -> 0 < c1 -> 0 < c2 -> 0 < ati -> 0 < ct -> 0 <= k -> 0 <= x <= x' ->
  turbo_sigma ct2a sbeta c1 c2 D k ati ct x + k * (x' - x) <= turbo_sigma ct2a sbeta c1 c2 D k ati ct x'.
Proof.
  intros HD H1 H2 Ha Hc Hk Hx. rewrite !turbo_sigma_F by (assumption || lra). set (b := c2 * ati / sqrt ct).
  assert (Hsc : 0 < sqrt ct) by now apply sqrt_lt_R0. assert (Hb : 0 < b) by (unfold b; apply Rdiv_lt_0_compat; [apply Rmult_lt_0_compat|]; assumption).
  assert (Hal : 0 < c1 * ati) by now apply Rmult_lt_0_compat. set (al := c1 * ati) in *. set (e0 := D * _).
  assert (L : 0 < / D) by now apply Rinv_0_lt_compat.
  assert (Q : al <= al + b * x / D <= al + b * x' / D).
  { unfold Rdiv. split; [|]; [assert (0 <= b * x * / D) by (apply Rmult_le_pos; [nra|lra]); lra|]. apply Rplus_le_compat_l, Rmult_le_compat_r; nra. }
  pose proof (tp_F_growth (al + b * x / D) (al + b * x' / D) ltac:(lra)) as G.
  assert (B : 0 <= D * k / b). { apply Rmult_le_pos; [nra|]. left. now apply Rinv_0_lt_compat. }
  apply (Rmult_le_compat_l _ _ _ B) in G.
  replace (D * k / b * (al + b * x' / D - (al + b * x / D))) with (k * (x' - x)) in G by (field; lra). lra.
Qed.
Lemma gauss_ampl_mono ct2a D ct s s' : physical ct2a ct -> 0 < D -> 0 <= ct -> 0 < s <= s' -> gauss_ampl ct2a D ct s <= gauss_ampl ct2a D ct s'.
Proof.
  intros P HD Hc Hs. unfold gauss_ampl. cbn zeta. apply Rle_max_compat_r. destruct P as (P1 & P2 & P3).
  assert (Q : 0 < s / D <= s' / D). { split; [apply Rdiv_lt_0_compat; lra|]. unfold Rdiv. pose proof (Rinv_0_lt_compat D HD). nra. }
  assert (ct2a (ct / (8 * (s' / D * (s' / D)))) <= ct2a (ct / (8 * (s / D * (s / D))))); [|lra].
  apply P2. split.
  - apply Rmult_le_pos; [lra|]. apply Rlt_le, Rinv_0_lt_compat. nra.
  - unfold Rdiv at 1 4. apply Rmult_le_compat_l; [lra|]. apply Rinv_le_contravar; nra.
Qed.
Lemma turbo_sigma_pos ct2a sbeta c1 c2 D k ati ct x : physical ct2a ct -> 0 < D -> 0 < c1 -> 0 < c2 -> 0 < ati -> 0 < ct -> 0 <= k -> 0 < sbeta -> 0 <= x ->
  0 < turbo_sigma ct2a sbeta c1 c2 D k ati ct x.
Proof.
  intros (P1 & P2 & P3) HD H1 H2 Ha Hc Hk Hs Hx. pose proof (turbo_sigma_growth ct2a sbeta c1 c2 D k ati ct 0 x HD H1 H2 Ha Hc Hk ltac:(lra)) as G.
  rewrite turbo_sigma_at_0 in G by assumption. pose proof (beta_ge_1 (ct2a ct) (conj (P1 ct ltac:(lra)) (P3 ct ltac:(lra)))) as B.
  assert (1 <= sqrt ((1 - ct2a ct) / (1 - 2 * ct2a ct))) by (rewrite <- sqrt_1 at 1; now apply sqrt_le_1_alt).
  assert (0 < sbeta * sqrt ((1 - ct2a ct) / (1 - 2 * ct2a ct)) * D) by (repeat apply Rmult_lt_0_compat; lra). nra.
Qed.
Lemma turbo_bounds ct2a sbeta c1 c2 D k ati ct x r : physical ct2a ct -> 0 < D -> 0 < c1 -> 0 < c2 -> 0 < ati -> 0 <= k -> 0 < sbeta ->
  -1 <= turbo_deficit ct2a sbeta c1 c2 D k ati ct x r <= 0.
Proof.
  intros P HD H1 H2 Ha Hk Hs. unfold turbo_deficit. destruct (Rltb 1e-8 x) eqn:Ex; [apply Rltb_true in Ex|cbn; lra].
  destruct (Rltb 1e-8 ct) eqn:Ec; [apply Rltb_true in Ec|cbn; lra]. cbn [andb]. cbn zeta.
  pose proof (turbo_sigma_pos ct2a sbeta c1 c2 D k ati ct x P HD H1 H2 Ha ltac:(lra) Hk Hs ltac:(lra)) as S.
  set (sg := turbo_sigma ct2a sbeta c1 c2 D k ati ct x) in *.
  pose proof (gauss_ampl_bounds ct2a D ct sg (proj1 P) HD ltac:(lra) S) as A.
  pose proof (exp_gauss_bounds (r / sg * (r / sg)) ltac:(nra)) as E. nra.
Qed.
Lemma turbo_recovers ct2a sbeta c1 c2 D k ati ct x x' : physical ct2a ct -> 0 < D -> 0 < c1 -> 0 < c2 -> 0 < ati -> 0 <= k -> 0 < sbeta -> 1e-8 < ct -> 1e-8 < x <= x' ->
  turbo_deficit ct2a sbeta c1 c2 D k ati ct x 0 <= turbo_deficit ct2a sbeta c1 c2 D k ati ct x' 0.
Proof.
  intros P HD H1 H2 Ha Hk Hs Hc Hx. unfold turbo_deficit.
  assert (W : forall y, 1e-8 < y -> Rltb 1e-8 y && Rltb 1e-8 ct = true).
  { intros y Hy. rewrite (proj2 (Rltb_true 1e-8 y) Hy), (proj2 (Rltb_true 1e-8 ct) Hc). reflexivity. }
  rewrite !W by lra. cbn zeta.
  assert (Z : forall s, 0 / s * (0 / s) = 0) by (intros; unfold Rdiv; ring). rewrite !Z, Rmult_0_r, exp_0, !Rmult_1_r.
  apply gauss_ampl_mono; [assumption|assumption|lra|]. split; [apply turbo_sigma_pos; (assumption || lra)|].
  pose proof (turbo_sigma_growth ct2a sbeta c1 c2 D k ati ct x x' HD H1 H2 Ha ltac:(lra) Hk ltac:(lra)). nra.
Qed.
Lemma turbo_zero ct2a sbeta c1 c2 D k ati ct x r : x <= 1e-8 \/ ct <= 1e-8 -> turbo_deficit ct2a sbeta c1 c2 D k ati ct x r = 0.
Proof. intros [H|H]; apply Rltb_false in H; unfold turbo_deficit; rewrite H, ?andb_false_r; reflexivity. Qed.
(** with the same expansion rate the TurbOPark wake is never narrower, hence never deeper on the axis, than the Gaussian one *)
Lemma turbo_vs_gauss ct2a sbeta c1 c2 D k ati ct x : physical ct2a ct -> 0 < D -> 0 < c1 -> 0 < c2 -> 0 < ati -> 0 <= k -> 0 < sbeta ->
  gauss_deficit ct2a sbeta D k ct x 0 <= turbo_deficit ct2a sbeta c1 c2 D k ati ct x 0.
Proof.
  intros P HD H1 H2 Ha Hk Hs. unfold turbo_deficit, gauss_deficit. destruct (Rltb 1e-8 x) eqn:Ex; [apply Rltb_true in Ex|cbn; lra].
  destruct (Rltb 1e-8 ct) eqn:Ec; [apply Rltb_true in Ec|cbn; lra]. cbn [andb]. cbn zeta.
  assert (Z : forall s, 0 / s * (0 / s) = 0) by (intros; unfold Rdiv; ring). rewrite !Z, Rmult_0_r, exp_0, !Rmult_1_r.
  pose proof (gauss_sigma_pos ct2a sbeta D k ct x P HD Hk Hs ltac:(lra) ltac:(lra)) as S.
  apply gauss_ampl_mono; [assumption|assumption|lra|]. split; [nra|].
  pose proof (turbo_sigma_growth ct2a sbeta c1 c2 D k ati ct 0 x HD H1 H2 Ha ltac:(lra) Hk ltac:(lra)) as G.
  rewrite turbo_sigma_at_0 in G by (assumption || lra). unfold gauss_sigma. cbn zeta. lra.
Qed.
Lemma far_decr_strict p twoa ti q q' : ch_ok p -> 0 < q < q' -> far_wake p twoa ti q' < far_wake p twoa ti q.
Proof.
  intros (P1 & P2 & P3) Hq. unfold far_wake. apply Rmult_lt_compat_l.
  - repeat apply Rmult_lt_0_compat; (assumption || apply rpow_pos).
  - now apply rpow_decr.
Qed.
Lemma crespo_jump p n ct2a D ti ct : ch_ok p -> ch_near p = Some n -> 0 < n -> n <> crespo_near_D (auto_near p) (2 * ct2a ct) ti -> 0 < D -> 0 < ct2a ct ->
  exists l r, l <> r /\ left_limit (crespo_centreline p ct2a D ti ct) (n * D) l /\ right_limit (crespo_centreline p ct2a D ti ct) (n * D) r.
Proof.
  intros P N Hn Ne HD Ha. assert (E : crespo_near_D p (2 * ct2a ct) ti = n) by (unfold crespo_near_D; now rewrite N).
  destruct (crespo_switch p ct2a D ti ct P HD Ha ltac:(lra)) as [L R]. rewrite E in L, R.
  exists (ch_a_near p * (2 * ct2a ct)), (far_wake p (2 * ct2a ct) ti n). split; [|split; assumption].
  pose proof (far_at_near (auto_near p) (2 * ct2a ct) ti P eq_refl ltac:(lra)) as F. pose proof (near_pos (auto_near p) (2 * ct2a ct) ti eq_refl) as NP.
  set (na := crespo_near_D (auto_near p) (2 * ct2a ct) ti) in *.
  change (far_wake (auto_near p)) with (far_wake p) in F. change (ch_a_near (auto_near p)) with (ch_a_near p) in F. rewrite <- F.
  destruct (Rlt_le_dec n na).
  - pose proof (far_decr_strict p (2 * ct2a ct) ti n na P ltac:(lra)). lra.
  - pose proof (far_decr_strict p (2 * ct2a ct) ti na n P ltac:(lra)). lra.
Qed.
Lemma crespo_cont_switch p ct2a D ti ct : ch_ok p -> ch_near p = None -> 0 < D -> 0 < ct2a ct ->
  continuous (crespo_centreline p ct2a D ti ct) (crespo_near_D p (2 * ct2a ct) ti * D).
Proof.
  intros P N HD Ha. pose proof (near_pos p (2 * ct2a ct) ti N) as NP.
  destruct (crespo_switch p ct2a D ti ct P HD Ha NP) as [L R]. rewrite far_at_near in R by (assumption || lra).
  set (xn := crespo_near_D p (2 * ct2a ct) ti * D) in *.
  assert (V : crespo_centreline p ct2a D ti ct xn = ch_a_near p * (2 * ct2a ct)).
  { rewrite crespo_cl. fold xn. rewrite (proj2 (Rltb_false _ _)) by lra. replace (xn / D) with (crespo_near_D p (2 * ct2a ct) ti) by (unfold xn; field; lra).
    apply far_at_near; (assumption || lra). }
  apply continuity_pt_filterlim. intros eps He. destruct (L eps He) as (d1 & D1 & F1). destruct (R eps He) as (d2 & D2 & F2).
  exists (Rmin d1 d2). split; [now apply Rmin_glb_lt|]. intros x [_ Hx]. cbn in Hx |- *. unfold R_dist in *. rewrite V.
  pose proof (Rmin_l d1 d2). pose proof (Rmin_r d1 d2). apply Rabs_def2 in Hx. destruct (Rtotal_order x xn) as [Q|[Q|Q]].
  - apply F1. lra.
  - subst x. rewrite V. replace (_ - _) with 0 by ring. now rewrite Rabs_R0.
  - apply F2. lra.
Qed.
Lemma crespo_cont p ct2a D ti ct x : ch_ok p -> ch_near p = None -> 0 < D -> 0 < ct2a ct -> 0 < x -> continuous (crespo_centreline p ct2a D ti ct) x.
Proof.
  intros P N HD Ha Hx. set (xn := crespo_near_D p (2 * ct2a ct) ti * D). destruct (Rtotal_order x xn) as [Q|[Q|Q]].
  - apply (continuous_ext_loc _ (fun _ => ch_a_near p * (2 * ct2a ct))); [|apply continuous_const].
    exists (mkposreal (xn - x) ltac:(lra)). intros y Hy. unfold ball in Hy; cbn in Hy. unfold AbsRing_ball, abs, minus, plus, opp in Hy; cbn in Hy.
    apply Rabs_def2 in Hy. rewrite crespo_cl. fold xn. rewrite (proj2 (Rltb_true _ _)) by lra. reflexivity.
  - rewrite Q. now apply crespo_cont_switch.
  - apply (continuous_ext_loc _ (fun y => far_wake p (2 * ct2a ct) ti (y / D))); [|now apply far_continuous].
    exists (mkposreal (x - xn) ltac:(lra)). intros y Hy. unfold ball in Hy; cbn in Hy. unfold AbsRing_ball, abs, minus, plus, opp in Hy; cbn in Hy.
    apply Rabs_def2 in Hy. rewrite crespo_cl. fold xn. rewrite (proj2 (Rltb_false _ _)) by lra. reflexivity.
Qed.
(** the wake of a point never re-starts behind: the wake area is a growing cone *)
Lemma crespo_ti_mono p ct2a D k ti ct x x' r : ch_ok p -> ch_near p = None -> 0 < D -> 0 <= k -> 0 < ct2a ct -> 1e-8 < ct -> 1e-8 < x <= x' ->
  r < crespo_radius p ct2a D k ct x -> 0 < crespo_ti p ct2a D k ti ct x' r <= crespo_ti p ct2a D k ti ct x r.
Proof.
  intros P N HD Hk Ha Hc Hx Hr. pose proof (crespo_radius_mono p ct2a D k ct x x' Hk ltac:(lra)). unfold crespo_ti. rewrite !top_hat_in by lra. split.
  - apply crespo_cl_bounds; (assumption || lra).
  - apply crespo_cl_mono; (assumption || lra).
Qed.

(** membership in the wake *)
Lemma iec_pos_iff ty o D ws ct x r : 0 < D -> 0 <= ws -> 1e-8 < x -> 1e-8 < ct -> (0 < iec_ti ty o D ws ct x r <-> r < iec_radius o D x).
Proof.
  intros HD Hw Hx Hc. split.
  - intros H. destruct (Rlt_le_dec r (iec_radius o D x)) as [L|L]; [exact L|].
    unfold iec_ti in H. rewrite top_hat_out in H by (right; right; exact L). lra.
  - intros H. apply iec_inside; assumption.
Qed.
Lemma iec_linear_iff ty k D ws ct x r : 0 < D -> 0 <= ws -> 1e-8 < x -> 1e-8 < ct -> (0 < iec_ti ty (Linear k) D ws ct x r <-> r < D / 2 + k * x).
Proof. intros. apply (iec_pos_iff ty (Linear k)); assumption. Qed.
Lemma iec_cone_iff ty deg D ws ct x r : 0 < D -> 0 <= ws -> 1e-8 < x -> 1e-8 < ct -> 0 < deg < 180 ->
  (0 < iec_ti ty (cone_of_angle deg) D ws ct x r <-> atan (r / x) * 180 / PI < deg / 2).
Proof.
  intros HD Hw Hx Hc Hd. rewrite iec_pos_iff by assumption. unfold cone_of_angle. cbn [iec_radius].
  pose proof PI_RGT_0 as HP. set (h := deg / 2 * PI / 180).
  assert (Hh : 0 < h < PI / 2).
  { unfold h. split; [apply Rmult_lt_0_compat; [|lra]; apply Rmult_lt_0_compat; lra|].
    apply Rmult_lt_reg_r with (180 / PI); [apply Rdiv_lt_0_compat; lra|].
    replace (deg / 2 * PI / 180 * (180 / PI)) with (deg / 2) by (field; lra). replace (PI / 2 * (180 / PI)) with 90 by (field; lra). lra. }
  assert (E : h * 180 / PI = deg / 2) by (unfold h; field; lra). rewrite <- E.
  assert (A : atan (tan h) = h) by (apply atan_tan; lra).
  assert (Hr : r < tan h * x <-> r / x < tan h).
  { split; intros H.
    - apply Rmult_lt_reg_r with x; [lra|]. replace (r / x * x) with r by (field; lra). exact H.
    - apply Rmult_lt_reg_r with (/ x); [apply Rinv_0_lt_compat; lra|]. replace (tan h * x * / x) with (tan h) by (field; lra). exact H. }
  rewrite Hr.
  assert (HQ : atan (r / x) * 180 / PI < h * 180 / PI <-> atan (r / x) < h).
  { split; intros H.
    - apply Rmult_lt_reg_r with (180 / PI); [apply Rdiv_lt_0_compat; lra|]. lra.
    - apply Rmult_lt_compat_r with (r := 180 / PI) in H; [lra|apply Rdiv_lt_0_compat; lra]. }
  rewrite HQ. rewrite <- A at 2. split.
  - apply atan_increasing.
  - intros H. destruct (Rlt_le_dec (r / x) (tan h)) as [L|[L|L]]; [exact L| |].
    + apply atan_increasing in L. lra.
    + rewrite <- L in H. lra.
Qed.

(** the radius of the Crespo-Hernandez wake: twice the Gaussian width *)
Lemma crespo_pos_iff p ct2a D k ti ct x r : ch_ok p -> ch_near p = None -> 0 < D -> 0 < ct2a ct -> 1e-8 < x -> 1e-8 < ct ->
  (0 < crespo_ti p ct2a D k ti ct x r <-> r < 2 * (k * x + ch_sbeta p * sqrt ((1 - ct2a ct) / (1 - 2 * ct2a ct)) * D)).
Proof.
  intros Hp Hn HD Ha Hx Hc. split.
  - intros H. destruct (Rlt_le_dec r (crespo_radius p ct2a D k ct x)) as [L|L]; [exact L|].
    unfold crespo_ti in H. rewrite top_hat_out in H by (right; right; exact L). lra.
  - intros H. unfold crespo_ti. rewrite top_hat_in by (try assumption; exact H). apply crespo_cl_bounds; (assumption || lra).
Qed.
