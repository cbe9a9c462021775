(** Concrete farms: witnesses and non-vacuity. *)
From Verif Require Import Base Order_Model Order_Spec FarmWakes_Model FarmWakes_Spec FarmWakes_Proofs FarmIter_Proofs.
From Verif Require Import IterLoop_Model IterLoop_Spec IterLoop_Proofs.
From Coq Require Import Permutation.

(** A row of turbines 0, 1, 2, ... in wind direction; each turbine deducts 11 - its wind speed (at least 1)
    from every later one. *)
Definition row_model : @wmodel nat nat nat nat :=
  mkw true (fun _ => 0) (fun t f t' d => if t <? t' then d + (11 - f) else d) (fun _ w d => w - d).
Definition row_amb : nat -> nat := fun _ => 10.
Definition row_ev : nat -> nat -> nat := fun _ w => w.
Lemma row_hyps : all_down [row_model] /\ neutral [row_model] /\ no_feedback row_ev [row_model] /\ acts_downstream [row_model] [0; 1; 2].
Proof.
  split; [|split; [|split]].
  - repeat constructor.
  - intros w [<-|[]] t x. cbn. lia.
  - intros i j w w' Hij E1 E2. destruct j as [|[|j]]; [lia|discriminate|discriminate].
  - intros w [<-|[]] i j t t' Hij E1 E2 f d. cbn [row_model w_contrib].
    assert (t < t').
    { destruct i as [|[|[|i]]], j as [|[|[|j]]]; cbn in *; try lia; try discriminate; try (now destruct j); injection E1 as <-; injection E2 as <-; lia. }
    destruct (Nat.ltb_spec t' t); [lia|reflexivity].
Qed.

(** A velocity model whose deficit is the turbulence of the causing turbine, and a turbulence model. *)
Definition ws_model : @wmodel nat (nat * nat) nat (nat * nat) :=
  mkw true (fun _ => 0) (fun t f t' d => if t <? t' then d + snd f else d) (fun _ w d => (fst w - d, snd w)).
Definition ti_model : @wmodel nat (nat * nat) nat (nat * nat) :=
  mkw true (fun _ => 0) (fun t f t' d => if t <? t' then d + 1 else d) (fun _ w d => (fst w, snd w + d)).
Definition two_amb : nat -> nat * nat := fun _ => (10, 1).
Definition two_ev : nat -> nat * nat -> nat * nat := fun _ w => w.
Lemma two_neutral : neutral [ws_model; ti_model].
Proof. intros w [<-|[<-|[]]] t [a b]; cbn; f_equal; lia. Qed.
Lemma two_down : acts_downstream [ws_model; ti_model] [0; 1; 2].
Proof.
  intros w Hw i j t t' Hij E1 E2 f d.
  assert (t < t').
  { destruct i as [|[|[|i]]], j as [|[|[|j]]]; cbn in *; try lia; try discriminate; try (now destruct j); injection E1 as <-; injection E2 as <-; lia. }
  destruct Hw as [<-|[<-|[]]]; cbn [ws_model ti_model w_contrib]; destruct (Nat.ltb_spec t' t); try lia; reflexivity.
Qed.
Lemma feedback_witness : exists (ws : list (@wmodel nat (nat * nat) nat (nat * nat))) ts amb ev r k,
  all_down ws /\ neutral ws /\ acts_downstream ws ts /\ calc_downwind amb ev 0 ws ts = Ok r /\
  length ts <= S k /\ sweeps amb ev ws ts (S k) = sweeps amb ev ws ts k /\ sweeps amb ev ws ts k <> r.
Proof.
  exists [ws_model; ti_model], [0; 1; 2], two_amb, two_ev, [(10, 1); (9, 2); (8, 3)], 3.
  split; [repeat constructor|]. split; [exact two_neutral|]. split; [exact two_down|].
  split; [reflexivity|]. split; [cbn; lia|]. split; [reflexivity|]. vm_compute. discriminate.
Qed.
Lemma list_order_witness : exists (w1 w2 : @wmodel nat (nat * nat) nat (nat * nat)) ts amb ev r1 r2,
  all_down [w1; w2] /\ neutral [w1; w2] /\
  (forall t t' f d d', w_contrib w1 t f t' (d + d') = w_contrib w1 t f t' d + d' /\ w_contrib w2 t f t' (d + d') = w_contrib w2 t f t' d + d') /\
  (forall t x d d', w_add w1 t (w_add w2 t x d) d' = w_add w2 t (w_add w1 t x d') d) /\
  calc_downwind amb ev 0 [w1; w2] ts = Ok r1 /\ calc_downwind amb ev 0 [w2; w1] ts = Ok r2 /\ r1 <> r2.
Proof.
  exists ws_model, ti_model, [0; 1; 2], two_amb, two_ev, [(10, 1); (9, 2); (8, 3)], [(10, 1); (9, 2); (7, 3)].
  split; [repeat constructor|]. split; [exact two_neutral|].
  split; [intros; cbn [ws_model ti_model w_contrib]; destruct (t <? t'); split; lia|].
  split; [reflexivity|]. split; [reflexivity|]. split; [reflexivity|]. discriminate.
Qed.

Section C.
  Context {T F D W : Type}.
  Lemma independent_commute : forall (amb : T -> W) (ev : T -> W -> F) (d0 : D)
    (w1 w2 : @wmodel T F D W) (ts : list T),
    all_down [w1; w2] -> neutral [w1; w2] -> no_feedback ev [w1; w2] -> no_feedback ev [w2; w1] ->
    (forall t x d d', w_add w1 t (w_add w2 t x d) d' = w_add w2 t (w_add w1 t x d') d) ->
    calc_downwind amb ev d0 [w1; w2] ts = calc_downwind amb ev d0 [w2; w1] ts.
  Proof.
    intros amb ev d0 w1 w2 ts H1 H2 H3 H4 H5.
    assert (H1' : all_down [w2; w1]) by (unfold all_down in *; rewrite Forall_forall in *; intros w [<-|[<-|[]]]; apply H1; cbn; auto).
    assert (H2' : neutral [w2; w1]) by (intros w [<-|[<-|[]]] t x; apply H2; cbn; auto).
    rewrite !downwind_ideal by auto. f_equal. generalize (@nil (T * F)) as done.
    induction ts as [|t ts IH]; intros done; cbn [ideal]; [reflexivity|].
    assert (E : X amb [w1; w2] done t = X amb [w2; w1] done t).
    { unfold X. cbn. rewrite H5. reflexivity. }
    rewrite E. f_equal. apply IH.
  Qed.
End C.

Lemma last_iteration_witness : exists (ws : list (@wmodel nat nat nat nat)) ts amb ev max_it fres dwnd,
  calc_farm_iter (sweep_run amb ev (fun r => r) ws ts) (fun _ => false) None false max_it = (fres, dwnd, max_it) /\
  all_down ws /\ neutral ws /\ acts_downstream ws ts /\ fres <> dwnd.
Proof.
  destruct row_hyps as (A & B & _ & C).
  exists [row_model], [0; 1; 2], row_amb, row_ev, 1, [10; 9; 8], [10; 9; 7].
  split; [reflexivity|]. repeat (split; auto). discriminate.
Qed.
Lemma ambient_not_reordered : forall (R : Type) (run run' : mkind -> option R -> R) block crit amb max_it,
  (forall prev, run MFull prev = run' MFull prev) -> (forall prev, run MWakes prev = run' MWakes prev) ->
  amb = true \/ max_it = 0 ->
  calc_farm_iter run block crit amb max_it = calc_farm_iter run' block crit amb max_it.
Proof.
  intros R run run' block crit amb max_it HF HW Ha. unfold calc_farm_iter.
  assert (G : forall k it fres, iter_loop run block crit amb k it fres = iter_loop run' block crit amb k it fres).
  { induction k as [|k IH]; intros it fres; cbn.
    - replace (run (collect it false amb) fres) with (run' (collect it false amb) fres); [reflexivity|].
      unfold collect. destruct (it =? 0), amb; auto.
    - replace (run (collect it false amb) fres) with (run' (collect it false amb) fres).
      + destruct (stop _ _ _ _ _); auto.
      + unfold collect. destruct (it =? 0), amb; auto. }
  rewrite G. destruct (iter_loop run' block crit amb max_it 0 None) as [[prev r] it] eqn:E. f_equal. f_equal.
  unfold collect. destruct Ha as [Ha|Ha]; rewrite Ha in *; clear Ha.
  - destruct (it =? 0); auto.
  - cbn in E. assert (it = 0) by (destruct (stop _ _ _ _ _) in E; now injection E). subst it. cbn. auto.
Qed.
Lemma ambient_order_witness : exists (order : list nat) (g : nat -> nat),
  isperm 2 order /\
  fst (fst (calc_farm_iter (R := list nat)
     (fun m prev => match m, prev with
                    | MReorder, Some r => gather 0 r (invert order)
                    | _, _ => map g order
                    end) (fun _ => false) None true 3)) <> map g (seq 0 2).
Proof. exists [1; 0], (fun i => i). split; [unfold isperm; cbn; apply perm_swap|]. cbn. discriminate. Qed.

Definition proj_model : @wmodel (Z * Z * Z * Z) Z Z Z :=
  mkw true (fun _ => 0%Z)
    (fun s _ t d => let '(x, y, u, v) := s in let '(x', y', _, _) := t in
       if (0 <? (x' - x) * u + (y' - y) * v)%Z then (d + 1)%Z else d)
    (fun _ w d => (w - d)%Z).
Lemma inhomogeneous_witness : exists (w : @wmodel (Z * Z * Z * Z) Z Z Z) amb ev farm c r1 r2,
  w_down w = true /\ length farm = 2 /\
  calc_farm_wd amb ev 0%Z 0%Z [w] farm = Ok r1 /\ calc_farm_wd amb ev 0%Z 0%Z [w] (farm ++ [c]) = Ok r2 /\
  last (wd_order (farm ++ [c])) 0 = 2 /\ nth 1 r1 0%Z <> nth 1 r2 0%Z.
Proof.
  exists proj_model, (fun _ => 10%Z), (fun _ w => w), [(0, 0, 1, 0); (1, -3, 1, 0)]%Z, (100, 0, 0, 1)%Z, [10; 9]%Z, [10; 10; 8]%Z.
  split; [reflexivity|]. split; [reflexivity|]. split; [vm_compute; reflexivity|]. 
  split; [vm_compute; reflexivity|]. split; [reflexivity|cbn; discriminate].
Qed.
