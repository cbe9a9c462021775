(** Proofs for C254. *)
From Verif Require Import RBase Superp_Model Superp_Spec Superp_Proofs PointWakes_Model PointWakes_Proofs Curves_Model Curves_Spec Curves_Proofs Induction_Model Induction_Proofs Symm_Model Whole_Model Whole_Spec Whole_Proofs Flow_Model Flow_Spec Flow_Proofs More_Spec.
Local Open Scope R_scope.

(** ** induction along the wind *)
Lemma filter_le {A} (f g : A -> bool) l : (forall x, In x l -> f x = true -> g x = true) -> (length (filter f l) <= length (filter g l))%nat.
Proof.
  induction l as [|a l IH]; intros H; [cbn; lia|]. cbn [filter]. assert (IH' : (length (filter f l) <= length (filter g l))%nat) by (apply IH; intros; apply H; [now right|assumption]).
  destruct (f a) eqn:E; [rewrite (H a (or_introl eq_refl) E); cbn; lia|]. destruct (g a); cbn; lia.
Qed.
Lemma filter_lt {A} (f g : A -> bool) l x : (forall y, In y l -> f y = true -> g y = true) -> In x l -> f x = false -> g x = true -> (length (filter f l) < length (filter g l))%nat.
Proof.
  induction l as [|a l IH]; intros H Hx Fx Gx; [destruct Hx|]. cbn [filter]. assert (H' : forall y, In y l -> f y = true -> g y = true) by (intros; apply H; [now right|assumption]). destruct Hx as [->|Hx].
  - rewrite Fx, Gx. cbn. pose proof (filter_le f g l H'). lia.
  - specialize (IH H' Hx Fx Gx). destruct (f a) eqn:E; [rewrite (H a (or_introl eq_refl) E); cbn; lia|]. destruct (g a); cbn; lia.
Qed.
Lemma down_ind (n : nat) (key : nat -> R) (P : nat -> Prop) : (forall j, (j < n)%nat -> (forall i, (i < n)%nat -> key i < key j -> P i) -> P j) -> forall j, (j < n)%nat -> P j.
Proof.
  intros H. set (m := fun j => length (filter (fun i => Rltb (key i) (key j)) (seq 0 n))).
  assert (G : forall k j, (j < n)%nat -> (m j < k)%nat -> P j).
  { induction k as [|k IH]; intros j Hj Hm; [lia|]. apply H; [exact Hj|]. intros i Hi L. apply IH; [exact Hi|]. assert ((m i < m j)%nat); [|lia]. unfold m. apply filter_lt with (x := i).
    - intros y _ E. apply Rltb_true in E. apply Rltb_true. lra.
    - apply in_seq. lia.
    - apply Rltb_false. lra.
    - now apply Rltb_true. }
  intros j Hj. apply (G (Datatypes.S (m j)) j Hj). lia.
Qed.
(** ** stronger wakes, less wind *)
Definition local_s (s : superp) : Prop := match s with WSLinearLocal | WSQuadraticLocal | WSMaxLocal | WSPowLocal _ => True | _ => False end.
Definition worse (s : superp) (c c' : contrib) : Prop :=
  match c, c' with
  | None, None => True
  | None, Some (sc, r) => r <= 0 /\ (local_s s \/ 0 <= sc)
  | Some _, None => False
  | Some (sc, r), Some (sc', r') => r' <= r /\ r <= 0 /\ (local_s s \/ (sc' = sc /\ 0 <= sc))
  end.
Lemma sq_le a b : b <= a -> a <= 0 -> a * a <= b * b.
Proof. nra. Qed.
Lemma abs_le a b : b <= a -> a <= 0 -> Rabs a <= Rabs b.
Proof. intros. rewrite !Rabs_left1; lra. Qed.
Lemma max_le a b a' b' : a <= a' -> b <= b' -> Rmax a b <= Rmax a' b'.
Proof. intros. unfold Rmax. repeat destruct (Rle_dec _ _); lra. Qed.
Lemma add_worse s d d' c c' : is_ws s = true -> pow_ok s -> stronger s d d' -> worse s c c' -> stronger s (add_wake s d c) (add_wake s d' c').
Proof.
  intros Hs Hp S W. destruct c as [[sc r]|], c' as [[sc' r']|]; cbn [worse] in W; [|contradiction| |exact S].
  - destruct W as (W1 & W2 & W3). destruct s; try discriminate Hs; cbn [add_wake stronger local_s pow_ok] in *; try (destruct W3 as [[]|[-> W3]]; []).
    + nra.
    + lra.
    + pose proof (sq_le (sc * r) (sc * r') ltac:(nra) ltac:(nra)). lra.
    + pose proof (sq_le r r' ltac:(lra) ltac:(lra)). lra.
    + apply max_le; [exact S|]. apply abs_le; nra.
    + apply max_le; [exact S|]. apply abs_le; lra.
    + assert (npow (Rabs (sc * r)) p <= npow (Rabs (sc * r')) p); [|lra]. apply npow_mono; [exact Hp|]. split; [apply Rabs_pos|apply abs_le; nra].
    + assert (npow (Rabs r) p <= npow (Rabs r') p); [|lra]. apply npow_mono; [exact Hp|]. split; [apply Rabs_pos|apply abs_le; lra].
  - destruct W as (W1 & W2). cbn [add_wake]. destruct s; try discriminate Hs; cbn [stronger local_s] in *; try (destruct W2 as [[]|W2]; []).
    + nra.
    + lra.
    + pose proof (Rle_0_sqr (sc' * r')) as Q. unfold Rsqr in Q. lra.
    + pose proof (Rle_0_sqr r') as Q. unfold Rsqr in Q. lra.
    + pose proof (Rmax_l d' (Rabs (sc' * r'))). lra.
    + pose proof (Rmax_l d' (Rabs r')). lra.
    + pose proof (npow_nonneg (Rabs (sc' * r')) p (Rabs_pos _)). lra.
    + pose proof (npow_nonneg (Rabs r') p (Rabs_pos _)). lra.
Qed.
Lemma fold_worse s cs cs' : is_ws s = true -> pow_ok s -> Forall2 (worse s) cs cs' -> forall d d', stronger s d d' -> stronger s (fold_left (add_wake s) cs d) (fold_left (add_wake s) cs' d').
Proof. intros Hs Hp F. induction F as [|c c' cs cs' W F IH]; intros d d' S; [exact S|]. cbn [fold_left]. apply IH. now apply add_worse. Qed.
Lemma fine_accum s cs : is_ws s = true -> fine s cs -> accum s (wake_delta s cs).
Proof. intros Hs F. destruct (fine_good s cs Hs F) as (cs' & G & E & _). rewrite <- E. now apply accum_wake. Qed.
Lemma final_worse s low high a cs cs' more : is_ws s = true -> pow_ok s -> 0 <= a -> fine s cs -> fine s more -> Forall2 (worse s) cs cs' -> final_wake s false low high a (cs' ++ more) <= final_wake s false low high a cs.
Proof.
  intros Hs Hp Ha Fc Fm F. unfold final_wake, final_delta. rewrite Hs. apply clamp_mono. assert (S : stronger s (wake_delta s cs) (wake_delta s (cs' ++ more))).
  { unfold wake_delta. rewrite fold_left_app. assert (S0 : stronger s (fold_left (add_wake s) cs 0) (fold_left (add_wake s) cs' 0)) by (apply fold_worse; auto; destruct s; cbn; lra).
    revert S0. generalize (fold_left (add_wake s) cs' 0) as d'. generalize (fold_left (add_wake s) cs 0) as d. clear cs cs' F Fc. induction Fm as [|c m W F IH]; intros d d' S0; [exact S0|]. cbn [fold_left]. apply IH.
    change d with (add_wake s d None). apply add_worse; auto. }
  pose proof (raw_mono s false a _ _ Hp Ha (fine_accum s cs Hs Fc) S) as M. rewrite Hs in M. exact M.
Qed.
(** ** a deeper deficit with more thrust *)
Lemma induction_le cm a b : a <= b -> induction cm a <= induction cm b.
Proof. intros H. rewrite <- !betz_is. now apply betz_mono. Qed.
Lemma formula_le c D k a b x r : 0 < D -> 0 <= k -> 0 < x -> (match c_def c with Jensen => b <= a | Gauss _ => a = b end) -> formula c D k a x r <= formula c D k b x r.
Proof.
  intros HD Hk Hx H. unfold formula. destruct (c_def c) as [|sb]; [|subst; lra]. destruct (Rlt_dec _ _); [|lra]. pose proof (induction_le (c_ctmax c) b a H).
  pose proof (Rle_0_sqr (D / (D + 2 * k * x))) as Q. unfold Rsqr in Q. cbn [pow]. rewrite Rmult_1_r. nra.
Qed.
Section More.
Variables (c : scene) (farm more : list (turb ttype)) (res res' : list tres).
Hypothesis HS : good_scene c.
Hypothesis HF : good_farm (farm ++ more).
Hypothesis HA : of_ambient c.
Hypothesis HT : forall t, In t farm -> steady_thrust c (t_set t).
Hypothesis HB : balanced c farm res.
Hypothesis HB' : balanced c (farm ++ more) res'.
Let n := length farm.
Lemma HF0 : good_farm farm.
Proof. intros t Ht. apply HF. apply in_or_app. now left. Qed.
Lemma app_tb i : (i < n)%nat -> nth i (farm ++ more) no_turb = nth i farm no_turb.
Proof. intros H. apply app_nth1. exact H. Qed.
Lemma local_of (x : Prop) : c_amb c = true -> x \/ c_amb c = true.
Proof. auto. Qed.
Lemma effect_worse i t : (i < n)%nat -> (1e-8 < behind (c_wd c) (nth i farm no_turb) t -> r_ws (nth i res' no_res) <= r_ws (nth i res no_res)) ->
  worse (c_s c) (effect c (nth i farm no_turb) (nth i res no_res) t) (effect c (nth i farm no_turb) (nth i res' no_res) t).
Proof.
  intros Hi Hw. pose proof (nth_In farm no_turb Hi) as Hin. destruct (HF0 _ Hin) as [Y D]. pose proof (result_bounds c farm HS HF0 res (res_eq c farm res HS HF0 HB) i Hi) as [B1 B2].
  assert (Hi' : (i < length (farm ++ more))%nat) by (rewrite app_length; fold n; lia). pose proof (result_bounds c (farm ++ more) HS HF res' (res_eq c _ res' HS HF HB') i Hi') as [B3 B4].
  destruct (effect c (nth i farm no_turb) (nth i res no_res) t) as [[sc r]|] eqn:E; destruct (effect c (nth i farm no_turb) (nth i res' no_res) t) as [[sc' r']|] eqn:E'; cbn [worse]; [| |destruct (effect_neg c _ _ _ _ _ HS Y D E') as (A1 & A2 & A3)|exact I].
  3:{ split; [exact A1|]. destruct HA as [K|K]; [right; rewrite A3 by exact K; destruct HS; lra|left; exact K]. }
  all: unfold effect in E, E'; destruct (Rlt_dec 1e-8 (behind (c_wd c) (nth i farm no_turb) t)) as [L|L]; [|discriminate]; specialize (Hw L).
  all: destruct HB as [_ Bb]; destruct (Bb i Hi) as (_ & C1 & _); cbv zeta in C1; destruct HB' as [_ Bb']; destruct (Bb' i Hi') as (_ & C2 & _); cbv zeta in C2.
  all: destruct (Bb i Hi) as (W1 & _); cbv zeta in W1; rewrite <- W1 in C1; destruct (Bb' i Hi') as (W2 & _); cbv zeta in W2; rewrite <- W2 in C2; rewrite app_tb in C2 by exact Hi.
  all: pose proof (HT _ Hin _ _ _ _ B4 Hw B1 C2 C1) as TH.
  - destruct (Rlt_dec 1e-8 (r_ct (nth i res no_res))) as [L1|L1]; [|discriminate]. destruct (Rlt_dec 1e-8 (r_ct (nth i res' no_res))) as [L2|L2]; [|discriminate].
    assert (E0 : effect c (nth i farm no_turb) (nth i res no_res) t = Some (sc, r)). { unfold effect. destruct (Rlt_dec _ _); [|contradiction]. destruct (Rlt_dec _ _); [|contradiction]. exact E. }
    destruct (effect_neg c _ _ _ _ _ HS Y D E0) as (A1 & _ & A3). injection E as <- <-. injection E' as <- <-. split; [|split; [exact A1|]].
    + set (e := 1e-8) in *. assert (0 < e) by (unfold e; lra). apply formula_le; [exact D|apply Y|lra|exact TH].
    + destruct HA as [K|K]; [right|left; exact K]. rewrite K in *. split; [reflexivity|]. destruct HS; lra.
  - destruct (Rlt_dec 1e-8 (r_ct (nth i res no_res))) as [L1|L1]; [|discriminate]. destruct (Rlt_dec 1e-8 (r_ct (nth i res' no_res))) as [L2|L2]; [discriminate|]. apply Rnot_lt_le in L2. set (e := 1e-8) in *. destruct (c_def c); lra.
Qed.
Lemma wind_final (fm : list (turb ttype)) (rs : list tres) p : good_farm fm -> balanced c fm rs -> wind_at c fm rs p = c_wsp c + final_wake (c_s c) false (c_low c) (c_high c) (c_wsp c) (peffects c fm rs p).
Proof.
  intros F B. pose proof (at_point_wind c fm rs HS F B p) as E. apply (f_equal p_ws) in E. cbn [p_ws] in E. rewrite <- E. unfold at_point, point_value. cbn [fold_left p_ws]. rewrite (point_contribs c fm rs HS F B). reflexivity.
Qed.
Lemma point_less p : (forall i, (i < n)%nat -> 1e-8 < behind (c_wd c) (nth i farm no_turb) (probe p) -> r_ws (nth i res' no_res) <= r_ws (nth i res no_res)) -> wind_at c (farm ++ more) res' p <= wind_at c farm res p.
Proof.
  intros H. rewrite (wind_final _ _ p HF HB'), (wind_final _ _ p HF0 HB). apply Rplus_le_compat_l. pose proof (peffects_fine c (farm ++ more) res' HS HF HB' p) as Fm. unfold peffects in Fm |- *. rewrite app_length, seq_app, map_app in Fm |- *. fold n in Fm |- *.
  apply Forall_app in Fm as [_ Fm]. destruct HS as (Hw & _ & Hs & Hp & _). apply final_worse; [exact Hs|exact Hp|lra|exact (peffects_fine c farm res HS HF0 HB p)|exact Fm|].
  assert (B : forall i, In i (seq 0 n) -> (i < n)%nat) by (intros i J; apply in_seq in J; lia). revert B. generalize (seq 0 n) as l. induction l as [|i l IH]; intros B; [constructor|]. cbn [map]. constructor.
  - assert (Hi : (i < n)%nat) by (apply B; now left). rewrite app_tb by exact Hi. apply effect_worse; [exact Hi|now apply H].
  - apply IH. intros; apply B; now right.
Qed.
Lemma wind_less j : (j < n)%nat -> r_ws (nth j res' no_res) <= r_ws (nth j res no_res).
Proof.
  revert j. apply (down_ind n (fun j => - (vx (t_pos (nth j farm no_turb)) * sin (c_wd c * PI / 180) + vy (t_pos (nth j farm no_turb)) * cos (c_wd c * PI / 180)))). intros j Hj IH.
  rewrite <- (wind_hub c farm res HB j Hj). rewrite <- (wind_hub c (farm ++ more) res' HB' j) by (rewrite app_length; fold n; lia). rewrite app_tb by exact Hj. apply point_less. intros i Hi L. apply IH; [exact Hi|].
  unfold behind in L. cbn [probe t_pos] in L. set (e := 1e-8) in *. assert (0 < e) by (unfold e; lra). lra.
Qed.
Lemma power_less j : (j < n)%nat -> Curves_Spec.increasing (y_P (t_set (nth j farm no_turb))) -> c_wsp c <= fst (last (y_P (t_set (nth j farm no_turb))) (0, 0)) -> r_p (nth j res' no_res) <= r_p (nth j res no_res).
Proof.
  intros Hj Hi Hl. assert (Hj' : (j < length (farm ++ more))%nat) by (rewrite app_length; fold n; lia). destruct HB as [_ Bb]. destruct HB' as [_ Bb']. destruct (Bb j Hj) as (W1 & _ & P1). destruct (Bb' j Hj') as (W2 & _ & P2). cbv zeta in *.
  rewrite <- W1 in P1. rewrite <- W2 in P2. rewrite app_tb in P2 by exact Hj. destruct (HF0 _ (nth_In farm no_turb Hj)) as [(Y1 & Y2 & Y3 & Y4 & Y5 & Y6 & Y7) _].
  pose proof (result_bounds c farm HS HF0 res (res_eq c farm res HS HF0 HB) j Hj) as [B1 _].
  destruct (interp_mono _ _ _ Y4 Hi Y6 (wind_less j Hj) ltac:(lra) Y2) as (y & y' & A & B & C). rewrite P2 in A. injection A as <-. rewrite P1 in B. injection B as <-. exact C.
Qed.
End More.
