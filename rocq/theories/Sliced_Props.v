(** C227, C228: wake effects at the points of a rotor; variables and superpositions. *)
From Coq Require Import Reals String.
From Verif Require Import Base RBase WindDir_Model WindDir_Proofs Rotor_Model Sliced_Model.
Local Open Scope R_scope.

(** the downwind coordinate of a rotor point: that of the rotor centre, plus the point's distance from the rotor plane at the source *)
Lemma point_x s wd c yaw D p :
  vx (wake_coos s wd (rotor_point c yaw D p)) = vx (wake_coos s wd c) + D / 2 * py p * sin ((yaw - wd) * PI / 180).
Proof.
  replace ((yaw - wd) * PI / 180) with (yaw * PI / 180 - wd * PI / 180) by field. rewrite sin_minus.
  unfold wake_coos, rotor_point, dot, vsub, wd2uv, wd2wdvec, vx, vy, vz. cbn [fst snd]. field.
Qed.
(** C227: if the rotor faces the wind at the source, the effect at each rotor point is that at the point's own coordinates *)
Theorem C227_facing_partial f s wd c yaw D pts : sin ((yaw - wd) * PI / 180) = 0 ->
  sliced f (target_coos s wd c yaw D pts) = map (fun p => let q := wake_coos s wd (rotor_point c yaw D p) in f (vx q) (vy q, vz q)) pts.
Proof.
  intros E. unfold sliced, target_coos. destruct pts as [|p0 pts]; [reflexivity|]. cbn [nth map]. rewrite map_map. cbv zeta. f_equal.
  apply map_ext. intros p. now rewrite !point_x, E, !Rmult_0_r.
Qed.
(** ... and if the rotor has one point, in any case *)
Theorem C227_one_point f s wd c yaw D p :
  sliced f (target_coos s wd c yaw D [p]) = [let q := wake_coos s wd (rotor_point c yaw D p) in f (vx q) (vy q, vz q)].
Proof. reflexivity. Qed.
(** ... in general the downwind coordinate is that of the first point; the error is at most the diameter times the sine of the angle *)
Theorem C227_offset_partial f s wd c yaw D pts k : (k < length pts)%nat ->
  let q := wake_coos s wd (rotor_point c yaw D (nth k pts {| py := 0; pz := 0; pw := 0 |})) in
  exists e, nth k (sliced f (target_coos s wd c yaw D pts)) 0 = f (vx q + e) (vy q, vz q)
    /\ e = D / 2 * (py (nth 0 pts {| py := 0; pz := 0; pw := 0 |}) - py (nth k pts {| py := 0; pz := 0; pw := 0 |})) * sin ((yaw - wd) * PI / 180)
    /\ (0 <= D -> (forall p, In p pts -> -1 <= py p <= 1) -> Rabs e <= D * Rabs (sin ((yaw - wd) * PI / 180))).
Proof.
  intros Hk q. set (o := {| py := 0; pz := 0; pw := 0 |}) in *. eexists. split; [|split; [reflexivity|]].
  - set (F := fun p => f (vx (wake_coos s wd (rotor_point c yaw D (nth 0 pts o)))) (vy (wake_coos s wd (rotor_point c yaw D p)), vz (wake_coos s wd (rotor_point c yaw D p)))).
    assert (E : sliced f (target_coos s wd c yaw D pts) = map F pts).
    { unfold sliced, target_coos, F. destruct pts as [|p0 l]; [reflexivity|]. rewrite map_map. reflexivity. }
    rewrite E, (nth_indep _ 0 (F o)) by (rewrite map_length; exact Hk). rewrite map_nth. unfold F. fold q. f_equal. unfold q. rewrite !point_x. ring.
  - intros HD Hp. rewrite !Rabs_mult. apply Rmult_le_compat_r; [apply Rabs_pos|]. rewrite (Rabs_pos_eq (D / 2)) by lra.
    assert (A := Hp _ (nth_In pts o (ltac:(lia) : (0 < length pts)%nat))). assert (B := Hp _ (nth_In pts o Hk)).
    assert (Rabs (py (nth 0 pts o) - py (nth k pts o)) <= 2) by (apply Rabs_le; lra). nra.
Qed.
(** ... so that for any rotor that does not face the wind at the source, with two points at different lateral positions, there is a wake model whose effect is not that at the points *)
Theorem C227_own_coordinates_refuted s wd c yaw D p0 p1 pts : sin ((yaw - wd) * PI / 180) <> 0 -> 0 < D -> py p0 <> py p1 ->
  let f (x : R) (_ : R * R) := x in
  sliced f (target_coos s wd c yaw D (p0 :: p1 :: pts)) <> map (fun p => let q := wake_coos s wd (rotor_point c yaw D p) in f (vx q) (vy q, vz q)) (p0 :: p1 :: pts).
Proof.
  intros Hs HD Hp f E. unfold sliced, target_coos, f in E. cbn [map nth] in E. injection E as E _. rewrite !point_x in E.
  apply Hp. apply Rmult_eq_reg_l with (D / 2 * sin ((yaw - wd) * PI / 180)); [|apply Rmult_integral_contrapositive_currified; [lra|exact Hs]].
  apply Rplus_eq_reg_l with (vx (wake_coos s wd c)).
  replace (D / 2 * sin ((yaw - wd) * PI / 180) * py p0) with (D / 2 * py p0 * sin ((yaw - wd) * PI / 180)) by ring. rewrite E. ring.
Qed.
(** ... e.g. the points downstream of a neighbour's rotor plane get no effect, if the first point is upstream of it *)
Theorem C227_neighbour_refuted s wd c yaw D p0 p1 (f : R -> R * R -> R) : (forall x yz, x <= 0 -> f x yz = 0) ->
  vx (wake_coos s wd (rotor_point c yaw D p0)) <= 0 -> sliced f (target_coos s wd c yaw D [p0; p1]) = [0; 0].
Proof. intros Hf H0. unfold sliced, target_coos. cbn [map nth]. now rewrite !Hf. Qed.
Print Assumptions C227_facing_partial.
Print Assumptions C227_one_point.
Print Assumptions C227_offset_partial.
Print Assumptions C227_own_coordinates_refuted.
Print Assumptions C227_neighbour_refuted.
Lemma sin_m30 : sin ((240 - 270) * PI / 180) = - (1 / 2).
Proof. replace ((240 - 270) * PI / 180) with (- (PI / 6)) by field. rewrite sin_neg, sin_PI6. lra. Qed.
Example C227_witness : let p0 := {| py := 1 / 2; pz := 0; pw := 1 / 2 |} in let p1 := {| py := - (1 / 2); pz := 0; pw := 1 / 2 |} in
  let f (x : R) (_ : R * R) := if Rltb 0 x then 1 else 0 in
  sliced f (target_coos (0, 0, 90) 270 (0, 100, 90) 240 100 [p0; p1]) = [0; 0]
  /\ map (fun p => let q := wake_coos (0, 0, 90) 270 (rotor_point (0, 100, 90) 240 100 p) in f (vx q) (vy q, vz q)) [p0; p1] = [0; 1].
Proof.
  intros p0 p1 f.
  assert (C : vx (wake_coos (0, 0, 90) 270 (0, 100, 90)) = 0).
  { unfold wake_coos, dot, vsub, wd2uv, wd2wdvec, vx, vy, vz. cbn [fst snd]. replace (270 * PI / 180) with (3 * (PI / 2)) by field. rewrite cos_3PI2. ring. }
  assert (X0 : vx (wake_coos (0, 0, 90) 270 (rotor_point (0, 100, 90) 240 100 p0)) = - (25 / 2)) by (rewrite point_x, C, sin_m30; cbn [py p0]; lra).
  assert (X1 : vx (wake_coos (0, 0, 90) 270 (rotor_point (0, 100, 90) 240 100 p1)) = 25 / 2) by (rewrite point_x, C, sin_m30; cbn [py p1]; lra).
  split.
  - apply C227_neighbour_refuted; [intros x yz Hx; unfold f; now rewrite (proj2 (Rltb_false 0 x) Hx)|rewrite X0; lra].
  - cbn [map]. cbv zeta. rewrite X0, X1. unfold f. rewrite (proj2 (Rltb_false 0 (- (25 / 2)))) by lra. rewrite (proj2 (Rltb_true 0 (25 / 2))) by lra. reflexivity.
Qed.

(** --- C228 --- *)
Lemma get_put {A} v w (x : A) d : get w (put v x d) = if String.eqb w v then Some x else get w d.
Proof.
  induction d as [|(k, y) q IH]; cbn [put get]; [reflexivity|]. destruct (String.eqb_spec v k) as [->|N]; cbn [get].
  - now destruct (String.eqb w k).
  - destruct (String.eqb_spec w k) as [->|N']; [|exact IH]. destruct (String.eqb_spec k v); [congruence|reflexivity].
Qed.
(** all keys of one dictionary are keys of another *)
Definition covered {A B} (d : dict A) (e : dict B) : Prop := forall v, get v d <> None -> get v e <> None.
Lemma get_in {A} v (x : A) d : NoDup (map fst d) -> (In (v, x) d <-> get v d = Some x).
Proof.
  induction d as [|(k, y) q IH]; intros N; cbn [get map fst] in *; [split; [intros []|discriminate]|]. inversion N as [|? ? Nk Nq]; subst. cbn [In]. destruct (String.eqb_spec v k) as [->|Hv].
  - split; [intros [E|I]; [congruence|]|intros E; left; congruence]. elim Nk. change k with (fst (k, x)). now apply in_map.
  - rewrite <- IH by exact Nq. split; [intros [E|I]; [congruence|exact I]|now right].
Qed.
(** C228: each variable of the wake model is combined by its own superposition, all others are left as they are *)
Theorem C228_own_superposition {D} (sup : dict (D -> D -> D)) wdel : forall deltas, NoDup (map fst wdel) -> covered wdel sup -> covered wdel deltas ->
  exists deltas', contribute sup wdel deltas = (deltas', None) /\ forall v,
    get v deltas' = match get v wdel, get v sup, get v deltas with Some h, Some s, Some d => Some (s d h) | _, _, _ => get v deltas end.
Proof.
  induction wdel as [|(v, h) q IH]; intros deltas N C1 C2; cbn [contribute].
  - exists deltas. split; [reflexivity|]. reflexivity.
  - cbn [map fst] in N. inversion N as [|? ? Nv Nq]; subst.
    destruct (get v sup) as [s|] eqn:Es; [|exfalso; apply (C1 v); [cbn [get]; rewrite String.eqb_refl; discriminate|exact Es]].
    destruct (get v deltas) as [d|] eqn:Ed; [|exfalso; apply (C2 v); [cbn [get]; rewrite String.eqb_refl; discriminate|exact Ed]].
    assert (Q : forall w, get w q <> None -> w <> v).
    { intros w Hw ->. destruct (get v q) as [x|] eqn:E; [|congruence]. apply Nv. apply get_in in E; [|exact Nq]. change v with (fst (v, x)). now apply in_map. }
    assert (H : forall w, get w q <> None -> get w ((v, h) :: q) <> None).
    { intros w Hw. cbn [get]. destruct (String.eqb w v); [discriminate|exact Hw]. }
    destruct (IH (put v (s d h) deltas) Nq) as (deltas' & E & G).
    + intros w Hw. apply C1, H, Hw.
    + intros w Hw. rewrite get_put. destruct (String.eqb w v); [discriminate|]. apply C2, H, Hw.
    + exists deltas'. split; [exact E|]. intros w. rewrite G. cbn [get]. rewrite get_put. destruct (String.eqb_spec w v) as [->|Hw].
      * rewrite Es, Ed. destruct (get v q) as [x|] eqn:Eq; [|reflexivity]. exfalso. apply (Q v); [congruence|reflexivity].
      * reflexivity.
Qed.
(** ... a variable of the wake model without a superposition is a KeyError *)
Theorem C228_missing {D} (sup : dict (D -> D -> D)) wdel : forall deltas v, get v wdel <> None -> get v sup = None -> snd (contribute sup wdel deltas) = Some KeyError.
Proof.
  induction wdel as [|(w, h) q IH]; intros deltas v Hv Hs; cbn [get] in Hv; [congruence|]. cbn [contribute].
  destruct (get w sup) as [s|] eqn:Es; [|reflexivity]. destruct (get w deltas) as [d|]; [|reflexivity]. apply IH with v; [|exact Hs].
  destruct (String.eqb_spec v w) as [Evw|Nvw]; [rewrite Evw in Hs; congruence|exact Hv].
Qed.
(** ... but by then the variables before it have been changed *)
Theorem C228_partly_written_refuted : exists (sup : dict (nat -> nat -> nat)) wdel deltas, snd (contribute sup wdel deltas) = Some KeyError /\ fst (contribute sup wdel deltas) <> deltas.
Proof.
  exists [("WS"%string, Nat.add)], [("WS"%string, 1%nat); ("TI"%string, 1%nat)], [("WS"%string, 0%nat); ("TI"%string, 0%nat)]. split; [reflexivity|discriminate].
Qed.
(** ... finally each variable with a superposition gets its final delta from its own ambient value and wake delta, once *)
Theorem C228_finalized {D} (fin : dict (D -> D -> D)) amb : forall deltas, NoDup (map fst fin) -> covered fin amb -> covered fin deltas ->
  exists deltas', finalize fin amb deltas = (deltas', None) /\ forall v,
    get v deltas' = match get v fin, get v amb, get v deltas with Some s, Some a, Some d => Some (s a d) | _, _, _ => get v deltas end.
Proof.
  induction fin as [|(v, s) q IH]; intros deltas N C1 C2; cbn [finalize].
  - exists deltas. split; [reflexivity|]. reflexivity.
  - cbn [map fst] in N. inversion N as [|? ? Nv Nq]; subst.
    destruct (get v amb) as [a|] eqn:Ea; [|exfalso; apply (C1 v); [cbn [get]; rewrite String.eqb_refl; discriminate|exact Ea]].
    destruct (get v deltas) as [d|] eqn:Ed; [|exfalso; apply (C2 v); [cbn [get]; rewrite String.eqb_refl; discriminate|exact Ed]].
    assert (Q : get v q = None).
    { destruct (get v q) as [x|] eqn:E; [|reflexivity]. elim Nv. apply get_in in E; [|exact Nq]. change v with (fst (v, x)). now apply in_map. }
    assert (H : forall w, get w q <> None -> get w ((v, s) :: q) <> None).
    { intros w Hw. cbn [get]. destruct (String.eqb w v); [discriminate|exact Hw]. }
    destruct (IH (put v (s a d) deltas) Nq) as (deltas' & E & G).
    + intros w Hw. apply C1, H, Hw.
    + intros w Hw. rewrite get_put. destruct (String.eqb w v); [discriminate|]. apply C2, H, Hw.
    + exists deltas'. split; [exact E|]. intros w. rewrite G. cbn [get]. rewrite get_put. destruct (String.eqb_spec w v) as [->|Hw]; [|reflexivity]. now rewrite Ea, Ed, Q.
Qed.
Print Assumptions C228_own_superposition.
Print Assumptions C228_missing.
Print Assumptions C228_partly_written_refuted.
Print Assumptions C228_finalized.
Example C228_witness : let sup := [("WS", Nat.add); ("TI", Nat.max)]%string in
  contribute sup [("TI", 5); ("WS", 2)]%string%nat [("WS", 1); ("TI", 3)]%string%nat = ([("WS", 3); ("TI", 5)]%string%nat, None)
  /\ finalize sup [("WS", 10); ("TI", 1)]%string%nat [("WS", 3); ("TI", 5)]%string%nat = ([("WS", 13); ("TI", 5)]%string%nat, None).
Proof. split; reflexivity. Qed.
