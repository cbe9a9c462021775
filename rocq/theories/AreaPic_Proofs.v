(** Proofs for C249. *)
From Verif Require Import RBase Geom_Model Geom_Spec Geom_Proofs Geom_Proofs2 AreaPic_Model AreaPic_Spec.
Local Open Scope R_scope.

Lemma linspace_length l h n : length (linspace l h n) = n.
Proof. unfold linspace. destruct n as [|[|n]]; auto. now rewrite map_length, seq_length. Qed.
Lemma nodes_nth xs ys : forall i j, (i < length xs)%nat -> (j < length ys)%nat -> nth_error (nodes xs ys) (i * length ys + j) = Some (nth i xs 0, nth j ys 0).
Proof.
  induction xs as [|x xs IH]; intros i j Hi Hj; cbn in Hi; [lia|]. unfold nodes in *. cbn [flat_map]. destruct i as [|i].
  - cbn [Nat.mul Nat.add nth]. rewrite nth_error_app1 by (rewrite map_length; exact Hj). rewrite nth_error_map, (nth_error_nth' ys 0 Hj). reflexivity.
  - rewrite nth_error_app2 by (rewrite map_length; cbn; lia). rewrite map_length. replace (S i * length ys + j - length ys)%nat with (i * length ys + j)%nat by (cbn; lia).
    cbn [nth]. apply IH; [lia|exact Hj].
Qed.
Lemma map_nodes (f : pt -> option R) xs ys i j : (i < length xs)%nat -> (j < length ys)%nat -> nth (i * length ys + j) (map f (nodes xs ys)) None = f (nth i xs 0, nth j ys 0).
Proof.
  intros Hi Hj. pose proof (nodes_nth xs ys i j Hi Hj) as E. apply (map_nth_error f) in E. now apply nth_error_nth.
Qed.
Lemma lt_ext_spec a x : lt_ext a (Fin x) = true <-> a < x.
Proof. cbn. apply Rltb_true. Qed.
Lemma fix_low_fin p q a z : fix_low p q a = Fin z -> (p = Fin z \/ (isinf p = true /\ z <= a /\ (forall x, q = Fin x -> z <= x))).
Proof.
  unfold fix_low. destruct (isinf p) eqn:E; [|auto]. right. split; [reflexivity|]. destruct q as [|x|]; cbn [lt_ext] in H; try discriminate.
  - destruct (Rltb a x) eqn:L; injection H as <-; [apply Rltb_true in L|apply Rltb_false in L]; split; try lra; intros y Ey; injection Ey as <-; lra.
  - injection H as <-. split; [lra|]. intros x Ex. discriminate.
Qed.
Lemma fix_high_fin p q a z : fix_high p q a = Fin z -> (p = Fin z \/ (isinf p = true /\ a <= z /\ (forall x, q = Fin x -> x <= z))).
Proof.
  unfold fix_high. destruct (isinf p) eqn:E; [|auto]. right. split; [reflexivity|]. destruct q as [|x|]; cbn [gt_ext] in H; try discriminate.
  - injection H as <-. split; [lra|]. intros x Ex. discriminate.
  - destruct (Rltb x a) eqn:L; injection H as <-; [apply Rltb_true in L|apply Rltb_false in L]; split; try lra; intros y Ey; injection Ey as <-; lra.
Qed.
Lemma linspace_ends l h n : (2 <= n)%nat -> nth 0 (linspace l h n) 0 = l /\ nth (n - 1) (linspace l h n) 0 = h.
Proof.
  intros Hn. unfold linspace. destruct n as [|[|n]]; try lia. assert (N0 : INR (S (S n)) - 1 <> 0) by (rewrite S_INR; pose proof (lt_0_INR (S n) ltac:(lia)); lra).
  assert (E : forall k, (k < S (S n))%nat -> nth k (map (fun i => l + INR i * ((h - l) / (INR (S (S n)) - 1))) (seq 0 (S (S n)))) 0 = l + INR k * ((h - l) / (INR (S (S n)) - 1))).
  { intros k Hk. rewrite (nth_indep _ 0 (l + INR 0 * ((h - l) / (INR (S (S n)) - 1)))) by (rewrite map_length, seq_length; exact Hk).
    rewrite (map_nth (fun i => l + INR i * ((h - l) / (INR (S (S n)) - 1)))), seq_nth by exact Hk. reflexivity. }
  rewrite !E by lia. split; [cbn [INR]; ring|]. replace (S (S n) - 1)%nat with (S n) by lia. rewrite !S_INR in *. field. lra.
Qed.
(** what a successful call has computed *)
Lemma draw_inv g gi xl yl m d pic d' u : draw g gi xl yl m d = (Ok pic, d', u) -> exists nx ny x0 x1 y0 y1 vs,
  fst (take_sizes d) = Ok (nx, ny) /\
  (let '(lo, hi, _) := corners g gi xl yl d in widen (fst lo) (fst hi) = Some (x0, x1) /\ widen (snd lo) (snd hi) = Some (y0, y1)) /\
  node_values g m (nodes (linspace x0 x1 nx) (linspace y0 y1 ny)) = Ok vs /\
  pic = {| px := linspace x0 x1 nx; py := linspace y0 y1 ny; pc := fun i j => nth (i * ny + j) vs None |}.
Proof.
  unfold draw. destruct (take_sizes d) as [[[nx ny]|e] d1]; [|discriminate]. destruct (corners g gi xl yl d) as [[lo hi] [i0 i1]] eqn:C.
  destruct i0; [discriminate|]. destruct i1; [discriminate|]. destruct (widen (fst lo) (fst hi)) as [[x0 x1]|] eqn:W0; [|discriminate].
  destruct (widen (snd lo) (snd hi)) as [[y0 y1]|] eqn:W1; [|discriminate]. destruct (node_values _ _ _) as [vs|e] eqn:V; cbn [bind]; [|discriminate]. destruct (k_N d1); [discriminate|].
  intros H. injection H as <- _ _. exists nx, ny, x0, x1, y0, y1, vs. auto.
Qed.
Lemma draw_colours g gi xl yl m d pic d' u : draw g gi xl yl m d = (Ok pic, d', u) ->
  forall i j, (i < length (px pic))%nat -> (j < length (py pic))%nat -> pc pic i j = colour g m (nth i (px pic) 0, nth j (py pic) 0).
Proof.
  intros H i j Hi Hj. apply draw_inv in H. destruct H as (nx & ny & x0 & x1 & y0 & y1 & vs & _ & _ & V & ->). cbn [px py pc] in *.
  assert (L : length (linspace y0 y1 ny) = ny) by apply linspace_length.
  assert (K : forall f : pt -> option R, nth (i * ny + j) (map f (nodes (linspace x0 x1 nx) (linspace y0 y1 ny))) None = f (nth i (linspace x0 x1 nx) 0, nth j (linspace y0 y1 ny) 0)).
  { intros f. rewrite <- L at 1. now apply map_nodes. }
  destruct m; cbn in V; try discriminate; injection V as <-; rewrite K; cbn [colour]; auto; destruct (inside g _); reflexivity.
Qed.
Lemma draw_sizes g gi xl yl m d pic d' u : draw g gi xl yl m d = (Ok pic, d', u) ->
  (forall nx ny, k_Nx d = Some nx -> k_Ny d = Some ny -> length (px pic) = nx /\ length (py pic) = ny) /\
  (k_Nx d = None -> k_Ny d = None -> forall n, k_N d = Some n -> length (px pic) = n /\ length (py pic) = n) /\
  (k_Nx d = None -> k_Ny d = None -> k_N d = None -> length (px pic) = 500%nat /\ length (py pic) = 500%nat).
Proof.
  intros H. apply draw_inv in H. destruct H as (nx & ny & x0 & x1 & y0 & y1 & vs & T & _ & _ & ->). cbn [px py]. rewrite !linspace_length. unfold take_sizes in T. repeat split.
  - rewrite H, H0 in T. now injection T.
  - rewrite H, H0 in T. now injection T.
  - rewrite H, H0, H1 in T. now injection T.
  - rewrite H, H0, H1 in T. now injection T.
  - rewrite H, H0, H1 in T. now injection T.
  - rewrite H, H0, H1 in T. now injection T.
Qed.
Lemma widen_in l h x0 x1 p : widen l h = Some (x0, x1) -> above l p -> below h p -> x0 <= p <= x1.
Proof. destruct l as [|l|], h as [|h|]; cbn; try discriminate. intros E A B. injection E as <- <-. lra. Qed.
Lemma fix_low_above p q a x : above p x -> a <= x -> above (fix_low p q a) x.
Proof.
  unfold fix_low. intros A B. destruct p as [|y|]; cbn [isinf above] in *; try tauto. destruct q as [|z|]; cbn [lt_ext]; [exact I| |exact B].
  destruct (Rltb a z) eqn:E; cbn; [exact B|]. apply Rltb_false in E. lra.
Qed.
Lemma fix_high_below p q a x : below p x -> x <= a -> below (fix_high p q a) x.
Proof.
  unfold fix_high. intros A B. destruct p as [|y|]; cbn [isinf below] in *; try tauto. destruct q as [|z|]; cbn [gt_ext]; [exact B| |exact I].
  destruct (Rltb z a) eqn:E; cbn; [exact B|]. apply Rltb_false in E. lra.
Qed.
Lemma fix_low_inv p q a x : isinf p = true -> above q x -> above (fix_low p q a) x.
Proof.
  unfold fix_low. intros -> A. destruct q as [|z|]; cbn [lt_ext above] in *; try tauto. destruct (Rltb a z) eqn:E; cbn; [apply Rltb_true in E; lra|exact A].
Qed.
Lemma fix_high_inv p q a x : isinf p = true -> below q x -> below (fix_high p q a) x.
Proof.
  unfold fix_high. intros -> A. destruct q as [|z|]; cbn [gt_ext below] in *; try tauto. destruct (Rltb z a) eqn:E; cbn; [apply Rltb_true in E; lra|exact A].
Qed.
Lemma in_window_of x0 x1 y0 y1 nx ny f p : (2 <= nx)%nat -> (2 <= ny)%nat -> x0 <= fst p <= x1 -> y0 <= snd p <= y1 ->
  in_window {| px := linspace x0 x1 nx; py := linspace y0 y1 ny; pc := f |} nx ny p.
Proof.
  intros Hx Hy A B. unfold in_window. cbn [px py]. destruct (linspace_ends x0 x1 nx Hx) as [-> ->]. destruct (linspace_ends y0 y1 ny Hy) as [-> ->]. auto.
Qed.
Lemma draw_shows g gi xl yl m nx ny pic d' u : (2 <= nx)%nat -> (2 <= ny)%nat -> draw g gi xl yl m (sizes nx ny) = (Ok pic, d', u) ->
  atoms_ok g -> (forall i, honest (fun b g => bget i (pmin b g)) PInf false g) -> (forall i, honest (fun b g => bget i (pmax b g)) NInf false g) ->
  forall p, inside g p = true ->
  (forall i, isinf (bget i (pmin false g)) = true -> fst (if i : bool then yl else xl) <= coord i p) -> (forall i, isinf (bget i (pmax false g)) = true -> coord i p <= snd (if i : bool then yl else xl)) ->
  in_window pic nx ny p.
Proof.
  intros Hx Hy H A H0 H1 p Ip B0 B1. apply draw_inv in H. destruct H as (nx' & ny' & x0 & x1 & y0 & y1 & vs & T & C & _ & ->). cbn in T. injection T as <- <-. cbn in C. destruct C as [W0 W1].
  assert (L : forall i, above (fix_low (bget i (pmin false g)) (bget i (pmin true g)) (fst (if i : bool then yl else xl))) (coord i p)).
  { intros i. pose proof (pmin_ok i g false p A (H0 i) Ip) as P. specialize (B0 i). destruct (isinf (bget i (pmin false g))) eqn:E.
    - apply fix_low_above; auto. - unfold fix_low. rewrite E. exact P. }
  assert (M : forall i, below (fix_high (bget i (pmax false g)) (bget i (pmax true g)) (snd (if i : bool then yl else xl))) (coord i p)).
  { intros i. pose proof (pmax_ok i g p A (H1 i) Ip) as P. specialize (B1 i). destruct (isinf (bget i (pmax false g))) eqn:E.
    - apply fix_high_below; auto. - unfold fix_high. rewrite E. exact P. }
  apply in_window_of; auto.
  - exact (widen_in _ _ _ _ _ W0 (L false) (M false)).
  - exact (widen_in _ _ _ _ _ W1 (L true) (M true)).
Qed.
Lemma pmin_inverse g : pmin true g = pmin false (inverse g).
Proof. destruct g; reflexivity. Qed.
Lemma pmax_inverse g : pmax true g = pmax false (inverse g).
Proof. destruct g; reflexivity. Qed.
Lemma draw_shows_hole g gi xl yl m nx ny pic d' u : (2 <= nx)%nat -> (2 <= ny)%nat -> draw g gi xl yl m (sizes nx ny) = (Ok pic, d', u) ->
  atoms_ok (inverse g) -> (forall i, honest (fun b g => bget i (pmin b g)) PInf false (inverse g)) -> (forall i, honest (fun b g => bget i (pmax b g)) NInf false (inverse g)) ->
  (forall i, isinf (bget i (pmin false g)) = true /\ isinf (bget i (pmax false g)) = true) ->
  forall p, inside (inverse g) p = true -> in_window pic nx ny p.
Proof.
  intros Hx Hy H A H0 H1 E p Ip. apply draw_inv in H. destruct H as (nx' & ny' & x0 & x1 & y0 & y1 & vs & T & C & _ & ->). cbn in T. injection T as <- <-. cbn in C. destruct C as [W0 W1].
  assert (L : forall i, above (fix_low (bget i (pmin false g)) (bget i (pmin true g)) (fst (if i : bool then yl else xl))) (coord i p)).
  { intros i. apply fix_low_inv; [apply E|]. rewrite pmin_inverse. exact (pmin_ok i _ false p A (H0 i) Ip). }
  assert (M : forall i, below (fix_high (bget i (pmax false g)) (bget i (pmax true g)) (snd (if i : bool then yl else xl))) (coord i p)).
  { intros i. apply fix_high_inv; [apply E|]. rewrite pmax_inverse. exact (pmax_ok i _ p A (H1 i) Ip). }
  apply in_window_of; auto.
  - exact (widen_in _ _ _ _ _ W0 (L false) (M false)).
  - exact (widen_in _ _ _ _ _ W1 (L true) (M true)).
Qed.
(** half planes *)
Lemma near_comp n e : near n e = true -> Rabs (fst n - fst e) < 1/2 /\ Rabs (snd n - snd e) < 1/2.
Proof.
  unfold near. intros H. apply Rltb_true in H. set (t := 1e-13) in *. assert (Ht : t < 1/2) by (unfold t; lra). clearbody t.
  assert (K : forall q : pt, Rabs (fst q) <= pnorm q /\ Rabs (snd q) <= pnorm q).
  { intros q. unfold pnorm, pdot. split; rewrite <- sqrt_Rsqr_abs; apply sqrt_le_1_alt; unfold Rsqr; nra. }
  destruct (K (psub n e)) as [K1 K2]. unfold pdist in H. cbn [psub fst snd] in K1, K2. lra.
Qed.
Lemma hp_open c n : exists i : bool, bget i (hp_min c n) = NInf /\ bget i (hp_min c (- fst n, - snd n)) = NInf.
Proof.
  unfold hp_min. destruct (near n (1, 0)) eqn:E1.
  - exists true. split; [reflexivity|]. destruct (near (- fst n, - snd n) (1, 0)); [reflexivity|]. destruct (near (- fst n, - snd n) (-1, 0)); [reflexivity|]. destruct (near (- fst n, - snd n) (0, 1)) eqn:E2; [|now destruct (near (- fst n, - snd n) (0, -1))].
    exfalso. apply near_comp in E1. apply near_comp in E2. cbn [fst snd] in *. destruct E1 as [_ E1]. destruct E2 as [_ E2]. unfold Rabs in *. repeat destruct (Rcase_abs _); lra.
  - destruct (near n (-1, 0)) eqn:E2.
    + exists true. split; [reflexivity|]. destruct (near (- fst n, - snd n) (1, 0)) eqn:E3; [reflexivity|]. destruct (near (- fst n, - snd n) (-1, 0)); [reflexivity|]. destruct (near (- fst n, - snd n) (0, 1)) eqn:E4; [|now destruct (near (- fst n, - snd n) (0, -1))].
      exfalso. apply near_comp in E2. apply near_comp in E4. cbn [fst snd] in *. destruct E2 as [_ E2]. destruct E4 as [_ E4]. unfold Rabs in *. repeat destruct (Rcase_abs _); lra.
    + destruct (near (- fst n, - snd n) (1, 0)) eqn:E3.
      * exists true. split; [|reflexivity]. destruct (near n (0, 1)) eqn:E4; [|now destruct (near n (0, -1))].
        exfalso. apply near_comp in E3. apply near_comp in E4. cbn [fst snd] in *. destruct E3 as [_ E3]. destruct E4 as [_ E4]. unfold Rabs in *. repeat destruct (Rcase_abs _); lra.
      * exists false. split.
        -- destruct (near n (0, 1)); [reflexivity|]. now destruct (near n (0, -1)).
        -- destruct (near (- fst n, - snd n) (-1, 0)); [reflexivity|]. destruct (near (- fst n, - snd n) (0, 1)); [reflexivity|]. now destruct (near (- fst n, - snd n) (0, -1)).
Qed.
Lemma draw_hp c n xl yl m d : k_min d = None -> (match k_max d with Some a => a_int a | None => false end) = false -> (forall nx ny, fst (take_sizes d) = Ok (nx, ny) -> fst (fst (draw (HP c n) false xl yl m d)) = Err ValueError).
Proof.
  intros K0 K1 nx ny T. unfold draw. destruct (take_sizes d) as [[[nx' ny']|e] d1]; [|discriminate]. unfold corners. rewrite K0. cbn [a_val a_int].
  replace (a_int match k_max d with Some a => a | None => {| a_val := pmax false (HP c n); a_int := false |} end) with false by (destruct (k_max d); auto).
  set (p1 := match k_max d with Some a => a | None => _ end). destruct (hp_open c n) as [i [A B]]. cbn [pmin].
  destruct i; cbn [bget] in A, B; rewrite A, B; cbn [fix_low isinf lt_ext fst snd widen]; [|reflexivity]. now destruct (widen _ _) as [[? ?]|].
Qed.
Lemma draw_dict g gi xl yl m d pic d' u : draw g gi xl yl m d = (Ok pic, d', u) -> d' = nothing.
Proof.
  unfold draw. destruct (take_sizes d) as [[[nx ny]|e] d1] eqn:T; [|discriminate]. destruct (corners g gi xl yl d) as [[lo hi] [i0 i1]].
  destruct i0; [discriminate|]. destruct i1; [discriminate|]. destruct (widen (fst lo) (fst hi)) as [[x0 x1]|]; [|discriminate].
  destruct (widen (snd lo) (snd hi)) as [[y0 y1]|]; [|discriminate]. destruct (node_values _ _ _) as [vs|e]; cbn [bind]; [|discriminate]. destruct (k_N d1) eqn:E; [discriminate|].
  intros H. injection H as _ <- _. unfold nothing. unfold take_sizes in T. destruct (k_Nx d) eqn:E1, (k_Ny d) eqn:E2; try discriminate.
  - injection T as _ _ <-. cbn in *. reflexivity.
  - destruct (k_N d) eqn:E3; injection T as _ _ <-; cbn in *; [reflexivity|]. now rewrite E1, E2.
Qed.
Lemma draw_window g gi xl yl m x0 y0 x1 y1 : m <> FUnknown -> exists pic,
  draw g gi xl yl m (window {| a_val := (Fin x0, Fin y0); a_int := false |} {| a_val := (Fin x1, Fin y1); a_int := false |}) =
  (Ok pic, nothing, (Some (Fin (x0 - 5 / 100 * (x1 - x0)), Fin (y0 - 5 / 100 * (y1 - y0))), Some (Fin (x1 + 5 / 100 * (x1 - x0)), Fin (y1 + 5 / 100 * (y1 - y0))))).
Proof.
  intros Hm. unfold draw. cbv [take_sizes window k_Nx k_Ny k_N k_min k_max corners a_val a_int fst snd fix_low fix_high isinf widen shift_low shift_high option_map].
  destruct m; try congruence; cbn [node_values bind]; eexists; reflexivity.
Qed.
