(** Theorems about mirror wakes and point models. *)
From Verif Require Import RBase Circles_Model Mirror_Model Mirror_Proofs Data_Model.
Local Open Scope R_scope.

(** C59 *)
Theorem C59_heights_restored {D} (direct mirrored : farm -> D -> D) heights f di d : own_h f = None \/ (forall s, hvar f s di = th f s di) ->
  let f' := fst (contribute_mirrors heights direct mirrored f di d) in forall s t, th f' s t = th f s t /\ hvar f' s t = hvar f s t.
Proof.
  intros H. cbv zeta. destruct (mirrors_farm direct mirrored heights f di d) as (A & B). intros s t.
  assert (S : hvar f s di = th f s di) by (destruct H as [H|H]; [unfold hvar; now rewrite H|apply H]).
  assert (T : th (fst (contribute_mirrors heights direct mirrored f di d)) s t = th f s t) by (rewrite B; destruct (t =? di)%nat eqn:E; [apply Nat.eqb_eq in E; subst; exact S|reflexivity]).
  split; [exact T|]. unfold hvar. rewrite A. destruct (own_h f); [reflexivity|exact T].
Qed.
Print Assumptions C59_heights_restored.
Theorem C59_reflection_involution h x : reflect h (reflect h x) = x /\ reflect h x - h = - (x - h).
Proof. split; [apply reflect_twice|unfold reflect; ring]. Qed.
Print Assumptions C59_reflection_involution.
(** each mirror contributes once, from the reflection of the original height, on top of the direct wake *)
Theorem C59_contributions {D} (direct mirrored : farm -> D -> D) heights f di d : (forall f g d, same_heights f g -> mirrored f d = mirrored g d) ->
  snd (contribute_mirrors heights direct mirrored f di d) =
  fold_left (fun d h => mirrored (set_heights f di (fun s => reflect h (hvar f s di))) d) heights (direct f d).
Proof. intros H. exact (mirrors_deltas direct mirrored H heights f di d). Qed.
Print Assumptions C59_contributions.
Example C59_nonvacuous : let f := {| th := fun s t => 100 + INR t; own_h := None |} in
  let r := contribute_mirrors [0; 500] (fun f d => d ++ [th f 0%nat 1%nat]) (fun f d => d ++ [th f 0%nat 1%nat]) f 1 [] in
  snd r = [100 + 1; -101; 899] /\ th (fst r) 0 1 = 100 + 1.
Proof. cbn. unfold reflect. split; [|ring]. repeat (f_equal; try ring). Qed.

(** C98: the direct wake plus its image is symmetric about the mirror plane, for wake models that depend on the vertical
    offset only through its absolute value *)
Theorem C98_plane_symmetry (w : R -> R) h hh z : (forall a, w (- a) = w a) ->
  w (z - hh) + w (z - reflect h hh) = w (reflect h z - hh) + w (reflect h z - reflect h hh).
Proof.
  intros E. replace (reflect h z - hh) with (- (z - reflect h hh)) by (unfold reflect; ring). replace (reflect h z - reflect h hh) with (- (z - hh)) by (unfold reflect; ring). rewrite !E. ring.
Qed.
Print Assumptions C98_plane_symmetry.
Example C98_nonvacuous : let w := fun a => a * a in w (10 - 90) + w (10 - reflect 0 90) = w (-10 - 90) + w (-10 - reflect 0 90) /\ reflect 0 10 = -10.
Proof. unfold reflect. split; ring. Qed.

(** C96: a mirror model without mirror heights does not equal the model without ground: the direct wake of a turbine reaches the
    rotors without the partial wakes model. *)
Theorem C96_direct_wake_refuted D wr cl d : 0 < wr -> wr < D / 2 -> cl <> 0 ->
  let direct := fun (_ : farm) => without_partial wr 0 cl in let partial := fun (_ : farm) => with_partial D wr 0 cl in
  forall f di, snd (contribute_mirrors [] direct partial f di d) = d + cl /\
    contribute_no_ground partial f d = d + (wr / (D / 2)) * (wr / (D / 2)) * cl /\
    snd (contribute_mirrors [] direct partial f di d) <> contribute_no_ground partial f d.
Proof.
  intros H1 H2 H3. cbv zeta. intros f di. assert (A : snd (contribute_mirrors [] (fun _ : farm => without_partial wr 0 cl) (fun _ : farm => with_partial D wr 0 cl) f di d) = d + cl).
  { cbn. unfold without_partial. destruct (Rltb 0 wr) eqn:E; [reflexivity|apply Rltb_false in E; lra]. }
  assert (B : contribute_no_ground (fun _ : farm => with_partial D wr 0 cl) f d = d + (wr / (D / 2)) * (wr / (D / 2)) * cl).
  { unfold contribute_no_ground, with_partial. destruct (Rltb (0 - D / 2) wr) eqn:E; [|apply Rltb_false in E; lra]. rewrite small_wake_weight by lra. reflexivity. }
  split; [exact A|]. split; [exact B|]. rewrite A, B. intros E. assert (F : (1 - (wr / (D / 2)) * (wr / (D / 2))) * cl = 0) by lra. apply Rmult_integral in F. destruct F as [F|F]; [|contradiction].
  set (q := wr / (D / 2)) in *. assert (Q : 0 < q < 1). { unfold q. split; [apply Rmult_lt_0_compat; [lra|apply Rinv_0_lt_compat; lra]|]. apply (Rmult_lt_reg_r (D / 2)); [lra|]. replace (wr / (D / 2) * (D / 2)) with wr by (field; lra). lra. }
  nra.
Qed.
Print Assumptions C96_direct_wake_refuted.
(** It does for partial wakes models that just evaluate the wake at the target points. *)
Theorem C96_point_models_partial {D} (direct mirrored : farm -> D -> D) f di d : (forall f d, mirrored f d = direct f d) -> snd (contribute_mirrors [] direct mirrored f di d) = contribute_no_ground mirrored f d.
Proof. intros H. cbn. unfold contribute_no_ground. now rewrite H. Qed.
Print Assumptions C96_point_models_partial.

(** C58 is false: the limit is used as a lower limit *)
Theorem C58_max_ti_refuted kappa m ustar ws : m <= ustar2ti kappa (Some m) ustar ws /\
  (m < (ustar / kappa) / ws -> ustar2ti kappa (Some m) ustar ws = (ustar / kappa) / ws /\ m < ustar2ti kappa (Some m) ustar ws).
Proof. unfold ustar2ti. split; [apply Rmax_r|]. intros H. rewrite Rmax_left by lra. split; [reflexivity|exact H]. Qed.
Print Assumptions C58_max_ti_refuted.
Theorem C58_exact_partial kappa m ustar ws : ustar2ti kappa (Some m) ustar ws <= m <-> (ustar / kappa) / ws <= m.
Proof. unfold ustar2ti, Rmax. destruct (Rle_dec _ _); split; intros; lra. Qed.
Print Assumptions C58_exact_partial.
Example C58_nonvacuous : 1/2 < ustar2ti (2/5) (Some (1/2)) 4 10 /\ ustar2ti (2/5) (Some (1/2)) (2/5) 10 = 1/2.
Proof. unfold ustar2ti, Rmax. split; destruct (Rle_dec _ _); lra. Qed.

(** C99: wake deltas. Without normalisation they are differences to the ambient values ... *)
Theorem C99_deltas_partial vars pt amb v : In v vars -> (forall w, In w vars -> delta_name w = delta_name v -> pt w = pt v /\ amb w = amb v) ->
  exists out, wake_deltas vars false pt amb = Ok out /\ lookup (delta_name v) out = Some (pt v - amb v).
Proof.
  intros Hv Hw. eexists. split; [reflexivity|]. induction vars as [|w vars IH]; [destruct Hv|]. cbn [map lookup]. destruct (delta_name v =? delta_name w)%string eqn:E.
  - apply String.eqb_eq in E. destruct (Hw w (or_introl eq_refl) (eq_sym E)) as (E1 & E2). now rewrite E1, E2.
  - destruct Hv as [->|Hv]; [apply String.eqb_neq in E; now contradiction E|]. apply IH; [exact Hv|]. intros x Hx. apply Hw. now right.
Qed.
Print Assumptions C99_deltas_partial.
(** ... with normalisation the calculation always raises *)
Theorem C99_normalize_refuted v vars pt amb : (forall w, In w (v :: vars) -> v <> delta_name w) -> wake_deltas (v :: vars) true pt amb = Err KeyError.
Proof. intros H. unfold wake_deltas. cbn [normalize_all]. rewrite (delta_not_var v (v :: vars) (fun v => pt v - amb v)) by exact H. reflexivity. Qed.
Print Assumptions C99_normalize_refuted.
Example C99_nonvacuous : wake_deltas ["WS"%string] true (fun _ => 8) (fun _ => 10) = Err KeyError /\ wake_deltas ["WS"%string] false (fun _ => 8) (fun _ => 10) = Ok [("DELTA_WS"%string, 8 - 10)].
Proof. split; reflexivity. Qed.
