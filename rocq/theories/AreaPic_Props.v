(** C249: pictures of areas. *)
From Verif Require Import RBase Geom_Model Geom_Spec Geom_Proofs AreaPic_Model AreaPic_Spec AreaPic_Proofs.
Local Open Scope R_scope.

(** Every painted node carries the colour that belongs to its own coordinates: rows and columns are not mixed up, for any area, any window and any numbers of nodes. *)
Theorem C249_colours : forall g gi xl yl m d pic d' u, draw g gi xl yl m d = (Ok pic, d', u) ->
  forall i j, (i < length (px pic))%nat -> (j < length (py pic))%nat -> pc pic i j = colour g m (nth i (px pic) 0, nth j (py pic) 0).
Proof. exact draw_colours. Qed.
Print Assumptions C249_colours.
(** The numbers of nodes are those asked for: Nx and Ny, or N for both, or 500. *)
Theorem C249_sizes : forall g gi xl yl m d pic d' u, draw g gi xl yl m d = (Ok pic, d', u) ->
  (forall nx ny, k_Nx d = Some nx -> k_Ny d = Some ny -> length (px pic) = nx /\ length (py pic) = ny) /\
  (k_Nx d = None -> k_Ny d = None -> forall n, k_N d = Some n -> length (px pic) = n /\ length (py pic) = n) /\
  (k_Nx d = None -> k_Ny d = None -> k_N d = None -> length (px pic) = 500%nat /\ length (py pic) = 500%nat).
Proof. exact draw_sizes. Qed.
Print Assumptions C249_sizes.
(** Without corners given by the caller, every point of the area is in the window, as far as it is within the current limits of the axis in those directions in which the area has no finite corner. *)
Theorem C249_shows_all : forall g gi xl yl m nx ny pic d' u, (2 <= nx)%nat -> (2 <= ny)%nat -> draw g gi xl yl m (sizes nx ny) = (Ok pic, d', u) ->
  atoms_ok g -> (forall i, honest (fun b g => bget i (pmin b g)) PInf false g) -> (forall i, honest (fun b g => bget i (pmax b g)) NInf false g) ->
  forall p, inside g p = true ->
  (forall i, isinf (bget i (pmin false g)) = true -> fst (if i : bool then yl else xl) <= coord i p) -> (forall i, isinf (bget i (pmax false g)) = true -> coord i p <= snd (if i : bool then yl else xl)) ->
  in_window pic nx ny p.
Proof. exact draw_shows. Qed.
Print Assumptions C249_shows_all.
(** If the area has no finite corner at all, everything that is outside of the area is in the window. *)
Theorem C249_shows_hole : forall g gi xl yl m nx ny pic d' u, (2 <= nx)%nat -> (2 <= ny)%nat -> draw g gi xl yl m (sizes nx ny) = (Ok pic, d', u) ->
  atoms_ok (inverse g) -> (forall i, honest (fun b g => bget i (pmin b g)) PInf false (inverse g)) -> (forall i, honest (fun b g => bget i (pmax b g)) NInf false (inverse g)) ->
  (forall i, isinf (bget i (pmin false g)) = true /\ isinf (bget i (pmax false g)) = true) ->
  forall p, inside (inverse g) p = true -> in_window pic nx ny p.
Proof. exact draw_shows_hole. Qed.
Print Assumptions C249_shows_hole.
(** the unit circle on 3 times 2 nodes, and the plane without the unit circle *)
Example C249_nonvacuous : exists pic d' u, draw (Circ (0, 0) 1) false (0, 1) (0, 1) FInside (sizes 3 2) = (Ok pic, d', u) /\ inside (Circ (0, 0) 1) (0, 0) = true /\ atoms_ok (Circ (0, 0) 1) /\
  (forall i, honest (fun b g => bget i (pmin b g)) PInf false (Circ (0, 0) 1)) /\ (forall i, honest (fun b g => bget i (pmax b g)) NInf false (Circ (0, 0) 1)).
Proof.
  eexists. eexists. eexists. split; [reflexivity|]. split. { cbn. unfold pnorm, pdot, psub. cbn. replace ((0 - 0) * (0 - 0) + (0 - 0) * (0 - 0)) with 0 by ring. rewrite sqrt_0. apply Rleb_true. lra. }
  split; [exact I|]. split; intros [|]; cbn; split; auto; discriminate.
Qed.
Example C249_nonvacuous_hole : exists pic d' u, draw (InvCirc (0, 0) 1) false (0, 1) (0, 1) FOutside (sizes 3 2) = (Ok pic, d', u) /\
  (forall i, isinf (bget i (pmin false (InvCirc (0, 0) 1))) = true /\ isinf (bget i (pmax false (InvCirc (0, 0) 1))) = true).
Proof.
  unfold draw. cbv [take_sizes sizes k_Nx k_Ny k_N k_min k_max corners a_val a_int fst snd pmin pmax fix_low fix_high isinf lt_ext gt_ext].
  destruct (Rltb 0 (0 - 1)), (Rltb (0 + 1) 1); cbn [widen node_values bind]; eexists; eexists; eexists; (split; [reflexivity|intros [|]; cbn; auto]).
Qed.
(** The caller's dictionary is emptied by every successful call (REFUTED: arguments are kept) ... *)
Theorem C249_dictionary_kept_refuted : forall g gi xl yl m d pic d' u, draw g gi xl yl m d = (Ok pic, d', u) -> d' = nothing.
Proof. exact draw_dict. Qed.
Print Assumptions C249_dictionary_kept_refuted.
(** ... so that the same call, done again with the same dictionary, has other nodes. *)
Theorem C249_repeated_call_refuted : exists g gi xl yl m d pic d' u pic2 d'' u2, draw g gi xl yl m d = (Ok pic, d', u) /\ draw g gi xl yl m d' = (Ok pic2, d'', u2) /\
  length (px pic) = 3%nat /\ length (px pic2) = 500%nat.
Proof.
  exists (Circ (0, 0) 1), false, (0, 1), (0, 1), FInside, (sizes 3 2). eexists. eexists. eexists. eexists. eexists. eexists. split; [reflexivity|]. split; [reflexivity|].
  cbn [px]. now rewrite !linspace_length.
Qed.
Print Assumptions C249_repeated_call_refuted.
(** Corners given by the caller are widened in place (REFUTED: arguments are kept): the picture and the caller's arrays grow with every call. *)
Theorem C249_corners_kept_refuted : forall g gi xl yl m x0 y0 x1 y1, m <> FUnknown -> exists pic,
  draw g gi xl yl m (window {| a_val := (Fin x0, Fin y0); a_int := false |} {| a_val := (Fin x1, Fin y1); a_int := false |}) =
  (Ok pic, nothing, (Some (Fin (x0 - 5 / 100 * (x1 - x0)), Fin (y0 - 5 / 100 * (y1 - y0))), Some (Fin (x1 + 5 / 100 * (x1 - x0)), Fin (y1 + 5 / 100 * (y1 - y0))))).
Proof. exact draw_window. Qed.
Print Assumptions C249_corners_kept_refuted.
(** No half plane can be drawn unless the caller gives the lower corner (REFUTED: the limits of the axis stand in for infinite corners), for any direction, limits and fill mode. *)
Theorem C249_half_plane_refuted : forall c n xl yl m nx ny, fst (fst (draw (HP c n) false xl yl m (sizes nx ny))) = Err ValueError /\ fst (fst (draw (HP c n) false xl yl m nothing)) = Err ValueError.
Proof. intros. split; eapply draw_hp; reflexivity. Qed.
Print Assumptions C249_half_plane_refuted.
(** Areas whose corners are integer arrays (polygons given by integer points) cannot be drawn (REFUTED), and neither can windows with integer corners. *)
Theorem C249_integers_refuted : forall g xl yl m nx ny, fst (fst (draw g true xl yl m (sizes nx ny))) = Err TypeError /\
  forall gi v w b, fst (fst (draw g gi xl yl m (window {| a_val := v; a_int := true |} {| a_val := w; a_int := b |}))) = Err TypeError.
Proof. intros. split; reflexivity. Qed.
Print Assumptions C249_integers_refuted.
(** Nx without Ny is a KeyError (and has removed Nx from the dictionary), so is Ny without Nx; N beside both is an AttributeError; an unknown fill mode is a ValueError. *)
Theorem C249_errors : forall g xl yl m n k, let a := {| a_val := (Fin 0, Fin 0); a_int := false |} in
  fst (draw g false xl yl m {| k_Nx := Some n; k_Ny := None; k_N := k; k_min := None; k_max := None |}) = (Err KeyError, {| k_Nx := None; k_Ny := None; k_N := k; k_min := None; k_max := None |}) /\
  fst (draw g false xl yl m {| k_Nx := None; k_Ny := Some n; k_N := k; k_min := None; k_max := None |}) = (Err KeyError, {| k_Nx := None; k_Ny := Some n; k_N := k; k_min := None; k_max := None |}) /\
  (m <> FUnknown -> fst (fst (draw g false xl yl m {| k_Nx := Some n; k_Ny := Some n; k_N := Some n; k_min := Some a; k_max := Some a |})) = Err AttributeError) /\
  fst (fst (draw g false xl yl FUnknown {| k_Nx := Some n; k_Ny := Some n; k_N := None; k_min := Some a; k_max := Some a |})) = Err ValueError.
Proof. intros. repeat split. intros Hm. destruct m; try congruence; reflexivity. Qed.
Print Assumptions C249_errors.
