(** Theorems about pictures of power curves, heat maps and rotor points. *)
From Verif Require Import RBase Rose_Model Plots_Model Plots_Spec.
From Coq Require Import List Arith Lia.
Import ListNotations.
Local Open Scope R_scope.

(** C240: the wind speeds of the curve start at ws_min, have the distance ws_step, and reach ws_max *)
Theorem C240_speeds wmin wmax step : 0 < step -> wmin <= wmax ->
  let ws := wind_speeds wmin wmax step in
  (1 <= length ws)%nat /\ (forall k, (k < length ws)%nat -> nth k ws 0 = wmin + INR k * step) /\ wmax <= last ws 0 < wmax + step.
Proof.
  intros D W ws. set (x := (wmax + step - wmin) / step). set (n := (- rfloor (- x))%Z).
  assert (X : x * step = wmax + step - wmin) by (unfold x; field; lra). destruct (rfloor_spec (- x)) as [F1 F2]. fold x in F1, F2.
  assert (N : IZR n = - IZR (rfloor (- x))) by (unfold n; apply opp_IZR). assert (X1 : 1 <= x) by nra.
  assert (N1 : (1 <= n)%Z). { apply le_IZR. lra. }
  assert (L : length ws = Z.to_nat n) by (unfold ws, wind_speeds, arange; rewrite map_length, seq_length; reflexivity).
  assert (K : forall k, (k < length ws)%nat -> nth k ws 0 = wmin + INR k * step).
  { intros k Hk. unfold ws, wind_speeds, arange in *. rewrite map_length, seq_length in Hk. set (f := fun k => wmin + INR k * step). rewrite (nth_indep _ 0 (f 0%nat)) by (rewrite map_length, seq_length; exact Hk).
    rewrite (map_nth f), seq_nth by exact Hk. reflexivity. }
  split; [lia|]. split; [exact K|].
  assert (La : last ws 0 = nth (length ws - 1) ws 0).
  { clear. induction ws as [|a [|b l] IH]; [reflexivity|reflexivity|]. change (last (a :: b :: l) 0) with (last (b :: l) 0). rewrite IH. cbn [length]. replace (S (S (length l)) - 1)%nat with (S (S (length l) - 1))%nat by lia. reflexivity. }
  rewrite La, K by lia. rewrite L. rewrite minus_INR, INR_IZR_INZ, Z2Nat.id by lia. cbn [INR]. nra.
Qed.
(** C240: if the range is a multiple of the step, the last wind speed is ws_max *)
Theorem C240_last wmin step n : 0 < step -> length (wind_speeds wmin (wmin + INR n * step) step) = S n /\ last (wind_speeds wmin (wmin + INR n * step) step) 0 = wmin + INR n * step.
Proof.
  intros D. pose proof (pos_INR n) as P. destruct (C240_speeds wmin (wmin + INR n * step) step D ltac:(nra)) as (A & B & C). set (ws := wind_speeds wmin (wmin + INR n * step) step) in *.
  assert (La : last ws 0 = nth (length ws - 1) ws 0).
  { clear. induction ws as [|a [|b l] IH]; [reflexivity|reflexivity|]. change (last (a :: b :: l) 0) with (last (b :: l) 0). rewrite IH. cbn [length]. replace (S (S (length l)) - 1)%nat with (S (S (length l) - 1))%nat by lia. reflexivity. }
  rewrite La, B in C |- * by lia. assert (E : (length ws - 1)%nat = n).
  { destruct C as [C1 C2]. assert (C3 : INR n <= INR (length ws - 1)) by nra. assert (C4 : INR (length ws - 1) < INR (S n)) by (rewrite S_INR; nra). apply INR_le in C3. apply INR_lt in C4. lia. }
  rewrite E. split; [lia|reflexivity].
Qed.
(** C240, refuted: otherwise the curve is drawn beyond ws_max *)
Theorem C240_beyond_refuted wmin wmax step : 0 < step -> wmin <= wmax -> (forall n, wmax <> wmin + INR n * step) -> wmax < last (wind_speeds wmin wmax step) 0.
Proof.
  intros D W H. destruct (C240_speeds wmin wmax step D W) as (A & B & C & _). set (ws := wind_speeds wmin wmax step) in *.
  assert (La : last ws 0 = nth (length ws - 1) ws 0).
  { clear. induction ws as [|a [|b l] IH]; [reflexivity|reflexivity|]. change (last (a :: b :: l) 0) with (last (b :: l) 0). rewrite IH. cbn [length]. replace (S (S (length l)) - 1)%nat with (S (S (length l) - 1))%nat by lia. reflexivity. }
  rewrite La, B in C |- * by lia. destruct C as [C|C]; [exact C|]. destruct (H _ C).
Qed.
(** C240: with an axis (or None) for each variable, variable number i is drawn as its curve over the wind speeds, on the axis given for it, else on a new one of its own; with a power mask
    followed by the masked curve *)
Theorem C240_lines curve mcurve mask ws axs fresh vars : (length vars <= length axs)%nat -> (forall x, In (Some x) axs -> (x < fresh)%nat) ->
  exists ids, length ids = length vars /\ (forall i x, (i < length vars)%nat -> nth_error axs i = Some (Some x) -> nth i ids 0%nat = x) /\
    (forall i j, (i < j < length vars)%nat -> nth_error axs j = Some None -> (fresh <= nth j ids 0)%nat /\ nth i ids 0%nat <> nth j ids 0%nat) /\
    draw curve mcurve mask ws axs fresh vars 0 =
      (flat_map (fun p => (fst p, map (fun w => (w, curve (snd p) w)) ws) :: (if mask then [(fst p, map (fun w => (w, mcurve (snd p) w)) ws)] else [])) (combine ids vars), None).
Proof.
  intros L H.
  assert (G : forall vars i fresh, (i + length vars <= length axs)%nat -> (forall x, In (Some x) axs -> (x < fresh)%nat) ->
    exists ids, length ids = length vars /\ (forall k x, (k < length vars)%nat -> nth_error axs (i + k) = Some (Some x) -> nth k ids 0%nat = x) /\
      (forall k, (k < length vars)%nat -> nth_error axs (i + k) = Some None -> (fresh <= nth k ids 0)%nat) /\
      (forall k j, (k < j < length vars)%nat -> nth_error axs (i + j) = Some None -> nth k ids 0%nat <> nth j ids 0%nat) /\
      draw curve mcurve mask ws axs fresh vars i =
      (flat_map (fun p => (fst p, map (fun w => (w, curve (snd p) w)) ws) :: (if mask then [(fst p, map (fun w => (w, mcurve (snd p) w)) ws)] else [])) (combine ids vars), None)).
  { clear L H fresh vars. induction vars as [|v r IH]; intros i fresh L H.
    - exists []. repeat split; intros; cbn in *; try lia; reflexivity.
    - cbn [length] in L. destruct (nth_error axs i) as [a|] eqn:Ea; [|apply nth_error_None in Ea; lia].
      set (ax := match a with Some x => x | None => fresh end). set (fresh' := match a with Some _ => fresh | None => S fresh end).
      assert (Fr : (fresh <= fresh')%nat) by (unfold fresh'; destruct a; lia).
      destruct (IH (S i) fresh' ltac:(lia)) as (ids & I1 & I2 & I3 & I4 & I5). { intros x Hx. pose proof (H x Hx). lia. }
      exists (ax :: ids). split; [cbn; lia|]. split; [|split; [|split]].
      + intros [|k] x Hk E. * rewrite Nat.add_0_r, Ea in E. injection E as ->. reflexivity. * cbn [nth]. apply I2; [cbn in Hk; lia|]. now replace (S i + k)%nat with (i + S k)%nat by lia.
      + intros [|k] Hk E. * rewrite Nat.add_0_r, Ea in E. injection E as ->. cbn. lia. * cbn [nth]. apply Nat.le_trans with fresh'; [exact Fr|]. apply I3; [cbn in Hk; lia|]. now replace (S i + k)%nat with (i + S k)%nat by lia.
      + intros k [|j] Hk E; [lia|]. cbn [length] in Hk. assert (Ej : nth_error axs (S i + j) = Some None) by now replace (S i + j)%nat with (i + S j)%nat by lia.
        destruct k as [|k]; cbn [nth]; [|apply I4; [lia|exact Ej]]. pose proof (I3 j ltac:(lia) Ej) as Q. unfold ax, fresh' in *. destruct a as [x|]; [|lia].
        pose proof (H x (nth_error_In _ _ Ea)). lia.
      + cbn [draw]. rewrite Ea. fold ax fresh'. rewrite I5. cbn [combine flat_map fst snd]. reflexivity. }
  destruct (G vars 0%nat fresh L H) as (ids & I1 & I2 & I3 & I4 & I5). exists ids. split; [exact I1|]. split; [exact I2|]. split; [|exact I5].
  intros i j Hj E. split; [apply I3; [lia|exact E]|apply I4; [lia|exact E]].
Qed.
(** C240, refuted: without axes (the default), two or more variables raise IndexError, after the first was drawn; and the axis of a single variable is not returned *)
Theorem C240_axes_refuted curve mcurve mask ws fresh v v' r : snd (draw curve mcurve mask ws (axs_list (ASingle None)) fresh (v :: v' :: r) 0) = Some IndexError /\
  In (fresh, map (fun w => (w, curve v w)) ws) (fst (draw curve mcurve mask ws (axs_list (ASingle None)) fresh (v :: v' :: r) 0)) /\ returned (ASingle None) = [None].
Proof. cbn. split; [reflexivity|]. split; [|reflexivity]. left. reflexivity. Qed.
(** C240: the axes given are returned *)
Theorem C240_returned l : returned (AList l) = l /\ forall a, returned (ASingle (Some a)) = [Some a].
Proof. split; reflexivity. Qed.
(** C240: the model book is unchanged by a successful call, unless it has a model of the temporary name *)
Theorem C240_book tmp mask book : ~ In tmp book -> book_after tmp mask false book = book.
Proof.
  intros H. unfold book_after. destruct mask; [|reflexivity]. assert (E : existsb (Nat.eqb tmp) book = false).
  { apply Bool.not_true_iff_false. intros E. apply existsb_exists in E as (x & Hx & E). apply Nat.eqb_eq in E. subst. contradiction. }
  rewrite E, filter_app. cbn. rewrite Nat.eqb_refl. cbn. rewrite app_nil_r. clear E. induction book as [|b l IH]; [reflexivity|]. cbn.
  destruct (Nat.eqb_spec b tmp) as [->|N]; [destruct H; now left|]. cbn. f_equal. apply IH. intros X. apply H. now right.
Qed.
(** C240, refuted: a failing run with power mask (e.g. a type without nominal power) leaves the temporary model in the model book *)
Theorem C240_book_refuted tmp book : ~ In tmp book -> book_after tmp true true book = book ++ [tmp].
Proof.
  intros H. unfold book_after. assert (E : existsb (Nat.eqb tmp) book = false).
  { apply Bool.not_true_iff_false. intros E. apply existsb_exists in E as (x & Hx & E). apply Nat.eqb_eq in E. subst. contradiction. }
  now rewrite E.
Qed.

(** C241: the value of state number s and turbine t fills the cell from this state to the next, and from t to t + 1 *)
Theorem C241_cell states z s t : (S s < length states)%nat -> cell states z s t = Ok ((nth s states 0, nth (S s) states 0), (INR t, INR (S t)), z s t).
Proof.
  intros H. unfold cell, state_bounds. destruct (rev states) as [|b [|a l]] eqn:E.
  - apply (f_equal (@length _)) in E. rewrite rev_length in E. cbn in E. lia.
  - apply (f_equal (@length _)) in E. rewrite rev_length in E. cbn in E. lia.
  - rewrite !app_nth1 by lia. reflexivity.
Qed.
(** C241: the cell of the last state has the width of the one before *)
Theorem C241_last_cell states z t n : length states = S (S n) -> exists x1 x2, cell states z (S n) t = Ok ((nth (S n) states 0, x1), x2, z (S n) t) /\ x1 - nth (S n) states 0 = nth (S n) states 0 - nth n states 0 /\ x2 = (INR t, INR (S t)).
Proof.
  intros H. unfold cell, state_bounds. destruct (rev states) as [|b [|a l]] eqn:E.
  - apply (f_equal (@length _)) in E. rewrite rev_length in E. cbn in E. lia.
  - apply (f_equal (@length _)) in E. rewrite rev_length in E. cbn in E. lia.
  - assert (R : states = rev l ++ [a; b]). { rewrite <- (rev_involutive states), E. cbn [rev]. now rewrite <- app_assoc. }
    assert (Hl : length (rev l) = n) by (rewrite R, app_length in H; cbn in H; lia).
    assert (A : nth n states 0 = a) by (rewrite R, app_nth2, Hl, Nat.sub_diag by lia; reflexivity).
    assert (B : nth (S n) states 0 = b) by (rewrite R, app_nth2, Hl by lia; replace (S n - n)%nat with 1%nat by lia; reflexivity).
    exists (b + (b - a)), (INR t, INR (S t)). split; [|split; [rewrite A, B; ring|reflexivity]].
    rewrite (app_nth1 states [_]) by lia. rewrite (app_nth2 states) by lia. rewrite H, Nat.sub_diag. reflexivity.
Qed.
(** C241, refuted: a single state raises IndexError *)
Theorem C241_single_refuted x z s t : cell [x] z s t = Err IndexError.
Proof. reflexivity. Qed.
(** C241: turbine labels are in the middle of the cells of their turbine; up to nine turbines have one each, more have one for every fifth *)
Theorem C241_turbine_labels n t : (t < n)%nat -> fst (nth t (y_ticks n) (0, None)) = (INR t + INR (S t)) / 2 /\
  snd (nth t (y_ticks n) (0, None)) = (if ((n <=? 9) || (t mod 5 =? 0))%nat then Some t else None).
Proof.
  intros H. unfold y_ticks. set (f := fun t => _). rewrite (nth_indep _ (0, None) (f 0%nat)) by (rewrite map_length, seq_length; exact H). rewrite (map_nth f), seq_nth by exact H. unfold f. cbn [fst snd Nat.add].
  split; [rewrite S_INR; field|]. destruct (Nat.ltb_spec 10 (n + 1)), (Nat.leb_spec n 9), (t mod 5 =? 0)%nat; cbn; try reflexivity; lia.
Qed.
(** C241, refuted: the label of a state is in the middle of the state's cell iff the distance of the ticks is that of the states; evenly spaced states and ticks *)
Theorem C241_state_labels_refuted x0 d n ds i : (i < n)%nat -> (2 <= n + 1)%nat ->
  nth i (x_ticks (map (fun k => x0 + INR k * d) (seq 0 (S n)))) (0, 0) = (x0 + INR i * d + d / 2, x0 + INR i * d) /\
  (fst (nth i (x_ticks (map (fun k => x0 + INR k * d) (seq 0 (S n)))) (0, 0)) = (x0 + INR i * d) + ds / 2 <-> d = ds).
Proof.
  intros H _. assert (E : nth i (x_ticks (map (fun k => x0 + INR k * d) (seq 0 (S n)))) (0, 0) = (x0 + INR i * d + d / 2, x0 + INR i * d)).
  { unfold x_ticks. set (f := fun k => x0 + INR k * d). destruct n as [|n]; [lia|]. rewrite (seq_S (S n)), (seq_S n), !map_app, !rev_app_distr. cbn [map rev app Nat.add].
    rewrite removelast_last. set (g := fun x => (x + _, x)). replace (map f (seq 0 n) ++ [f n]) with (map f (seq 0 (S n))) by (rewrite seq_S, map_app; reflexivity). rewrite map_map.
    rewrite (nth_indep _ (0, 0) (g (f 0%nat))) by (rewrite map_length, seq_length; exact H). rewrite (map_nth (fun k => g (f k))), seq_nth by exact H. cbn [Nat.add]. unfold g, f. f_equal. rewrite S_INR. field. }
  rewrite E. split; [reflexivity|]. cbn [fst]. split; intros; lra.
Qed.

(** the labels before the correction for the first weight *)
Definition plain (w : list R) (k : nat) : option R := if (k =? length w - 1)%nat then Some (last w 0) else if Rltb (5 / 100) (apart w k (S k)) then Some (nth k w 0) else None.
Lemma loop_plain w i : forall l, l <> [] -> (forall j, (j < length l)%nat -> nth j l None = plain w (S i + j)) -> (S i + length l = length w)%nat ->
  let r := label_loop w i l in length r = length w /\ nth 0 r None = Some (nth 0 w 0) /\
  (forall k, (2 <= k < length w)%nat -> nth k r None = plain w k) /\ nth 1 r None = (if Rltb (5 / 100) (apart w 0 1) then plain w 1 else None).
Proof.
  induction i as [|i IH]; intros l N Hl L; cbn [label_loop].
  - change ((nth 1 w 0 - nth 0 w 0) / (last w 0 - nth 0 w 0)) with (apart w 0 1). destruct l as [|x l]; [contradiction|]. cbn [length] in L.
    destruct (Rltb _ _) eqn:E; cbn [length tl nth].
    + split; [lia|]. split; [reflexivity|]. split; [|exact (Hl 0%nat ltac:(cbn; lia))].
      intros [|[|k]] Hk; try lia. cbn [nth]. exact (Hl (S k) ltac:(cbn; lia)).
    + split; [lia|]. split; [reflexivity|]. split; [|reflexivity]. intros [|[|k]] Hk; try lia. cbn [nth]. exact (Hl (S k) ltac:(cbn; lia)).
  - set (p := if Rltb _ _ then _ else _). assert (P : exists x, p = x :: l /\ x = plain w (S i)).
    { unfold p. change ((nth (S (S i)) w 0 - nth (S i) w 0) / (last w 0 - nth 0 w 0)) with (apart w (S i) (S (S i))). unfold plain.
      destruct l as [|y l]; [contradiction|]. cbn [length] in L. destruct (Nat.eqb_spec (S i) (length w - 1)); [lia|]. destruct (Rltb (5 / 100) (apart w (S i) (S (S i)))); eexists; split; reflexivity. }
    destruct P as (x & -> & ->). apply IH; [discriminate| |cbn [length]; lia].
    intros [|j] Hj; cbn [nth]; [f_equal; lia|]. cbn in Hj. rewrite Hl by lia. f_equal. lia.
Qed.
Lemma bar_spec w : (2 <= length w)%nat -> length (bar_labels w) = length w /\ nth 0 (bar_labels w) None = Some (nth 0 w 0) /\
  (forall k, (2 <= k < length w)%nat -> nth k (bar_labels w) None = plain w k) /\ nth 1 (bar_labels w) None = (if Rltb (5 / 100) (apart w 0 1) then plain w 1 else None).
Proof.
  intros H. unfold bar_labels. destruct (length w) as [|[|k]] eqn:E; try lia. rewrite <- E. apply loop_plain; [discriminate| |cbn; lia].
  intros [|j] Hj; [|cbn in Hj; lia]. cbn [nth]. unfold plain. rewrite E. destruct (Nat.eqb_spec (S k + 0) (S (S k) - 1)); [reflexivity|lia].
Qed.
Lemma last_is_nth (w : list R) : last w 0 = nth (length w - 1) w 0.
Proof. induction w as [|a [|b l] IH]; [reflexivity|reflexivity|]. change (last (a :: b :: l) 0) with (last (b :: l) 0). rewrite IH. cbn [length]. replace (S (S (length l)) - 1)%nat with (S (S (length l) - 1))%nat by lia. reflexivity. Qed.
(** C242: for each of the different weights there is one label; the first and the last are shown, each of the others is shown with its own value, or empty *)
Theorem C242_labels w : increasing w -> (1 <= length w)%nat -> length (bar_labels w) = length w /\ shown w (bar_labels w) 0 /\ shown w (bar_labels w) (length w - 1) /\
  forall i, (i < length w)%nat -> shown w (bar_labels w) i \/ hidden (bar_labels w) i.
Proof.
  intros I H. unfold shown, hidden. destruct (Nat.eq_dec (length w) 1) as [E|E].
  - destruct w as [|a [|b w]]; try discriminate. cbn. repeat split. intros [|i] Hi; [now left|lia].
  - destruct (bar_spec w ltac:(lia)) as (A & B & C & D). split; [exact A|]. split; [exact B|].
    assert (P : forall k, plain w k = Some (nth k w 0) \/ plain w k = None). { intros k. unfold plain. destruct (Nat.eqb_spec k (length w - 1)) as [->|]; [left; now rewrite last_is_nth|]. destruct (Rltb (5 / 100) (apart w k (S k))); [now left|now right]. }
    split.
    + destruct (Nat.eq_dec (length w) 2) as [E2|E2].
      * rewrite E2. cbn [Nat.sub]. rewrite D. assert (G : apart w 0 1 = 1). { unfold apart. rewrite last_is_nth, E2. cbn [Nat.sub]. pose proof (I 0%nat 1%nat ltac:(lia)) as Q. field. intros X. apply (Rlt_not_eq _ _ Q). lra. }
        rewrite G. destruct (Rltb (5 / 100) 1) eqn:F; [|apply Rltb_false in F; lra]. unfold plain. rewrite E2. cbn [Nat.sub Nat.eqb]. now rewrite last_is_nth, E2.
      * rewrite C by lia. unfold plain. rewrite Nat.eqb_refl. now rewrite last_is_nth.
    + intros [|[|i]] Hi; [left; exact B| |rewrite C by lia; apply P]. rewrite D. destruct (Rltb (5 / 100) (apart w 0 1)); [apply P|now right].
Qed.
(** C242: the labels shown are more than five percent of the bar apart, except for those next to the first; two labels i < j *)
Theorem C242_apart w i j : increasing w -> (0 < i < j)%nat -> (j < length w)%nat -> shown w (bar_labels w) i -> shown w (bar_labels w) j -> 5 / 100 < apart w i j.
Proof.
  intros I J L Si _. destruct (bar_spec w ltac:(lia)) as (A & B & C & D). unfold shown in Si.
  assert (P : plain w i = Some (nth i w 0)). { destruct i as [|[|i]]; [lia| |now rewrite C in Si by lia]. rewrite D in Si. destruct (Rltb (5 / 100) (apart w 0 1)); [exact Si|discriminate]. }
  unfold plain in P. destruct (Nat.eqb_spec i (length w - 1)); [lia|]. destruct (Rltb (5 / 100) (apart w i (S i))) eqn:F; [|discriminate]. apply Rltb_true in F.
  apply Rlt_le_trans with (1 := F). unfold apart. assert (S0 : 0 < last w 0 - nth 0 w 0) by (rewrite last_is_nth; pose proof (I 0%nat (length w - 1)%nat ltac:(lia)); lra).
  apply Rmult_le_compat_r; [apply Rlt_le, Rinv_0_lt_compat; exact S0|]. destruct (Nat.eq_dec (S i) j) as [<-|]; [lra|]. pose proof (I (S i) j ltac:(lia)). lra.
Qed.
(** C242: a label is not empty without need: between the first and the last it is shown if the next weight is more than five percent away, unless the first weight is next to it *)
Theorem C242_shown w i : increasing w -> (0 < i)%nat -> (S i < length w)%nat -> 5 / 100 < apart w i (S i) -> (i = 1%nat -> 5 / 100 < apart w 0 1) -> shown w (bar_labels w) i.
Proof.
  intros I J L G F. destruct (bar_spec w ltac:(lia)) as (A & B & C & D). unfold shown.
  assert (P : plain w i = Some (nth i w 0)). { unfold plain. destruct (Nat.eqb_spec i (length w - 1)); [lia|]. apply Rltb_true in G. now rewrite G. }
  destruct i as [|[|i]]; [lia| |now rewrite C by lia]. rewrite D. specialize (F eq_refl). apply Rltb_true in F. now rewrite F.
Qed.
(** C242, refuted: labels may be printed over each other: with three weights close to the lower end, the first and the third are shown at a distance of two percent *)
Theorem C242_overlap_refuted : exists w, increasing w /\ shown w (bar_labels w) 0 /\ shown w (bar_labels w) 2 /\ apart w 0 2 = 2 / 100.
Proof.
  exists [0; 1; 2; 100]. assert (I : increasing [0; 1; 2; 100]).
  { intros i j [H1 H2]. cbn [length] in H2. destruct i as [|[|[|[|i]]]], j as [|[|[|[|j]]]]; try lia; cbn; lra. }
  split; [exact I|]. split; [apply C242_labels; [exact I|cbn; lia]|]. split; [|unfold apart; cbn; field].
  apply C242_shown; [exact I|lia|cbn; lia|unfold apart; cbn; lra|discriminate].
Qed.
Print Assumptions C240_speeds.
Print Assumptions C240_last.
Print Assumptions C240_beyond_refuted.
Print Assumptions C240_lines.
Print Assumptions C240_axes_refuted.
Print Assumptions C240_returned.
Print Assumptions C240_book.
Print Assumptions C240_book_refuted.
Print Assumptions C241_cell.
Print Assumptions C241_last_cell.
Print Assumptions C241_single_refuted.
Print Assumptions C241_turbine_labels.
Print Assumptions C241_state_labels_refuted.
Print Assumptions C242_labels.
Print Assumptions C242_apart.
Print Assumptions C242_shown.
Print Assumptions C242_overlap_refuted.
Example C240_witness : length (wind_speeds 0 30 (1 / 10)) = 301%nat /\ last (wind_speeds 0 30 (1 / 10)) 0 = 30.
Proof. pose proof (C240_last 0 (1 / 10) 300 ltac:(lra)) as H. replace (0 + INR 300 * (1 / 10)) with 30 in H by (rewrite INR_IZR_INZ; cbn; field). exact H. Qed.
Example C241_witness : nth 0 (x_ticks (map (fun k => 0 + INR k * 20) (seq 0 6))) (0, 0) = (10, 0) /\ cell [0; 10; 20] (fun s t => INR (s + t)) 1 2 = Ok ((10, 20), (INR 2, INR 3), INR 3).
Proof. split; [|now rewrite C241_cell by (cbn; lia)]. rewrite (proj1 (C241_state_labels_refuted 0 20 5 1 0 ltac:(lia) ltac:(lia))). f_equal; cbn; field. Qed.
Example C242_witness : bar_labels [5] = [Some 5] /\ increasing [1; 2; 4].
Proof. split; [reflexivity|]. intros i j [H1 H2]. cbn [length] in H2. destruct i as [|[|[|i]]], j as [|[|[|j]]]; try lia; cbn; lra. Qed.
