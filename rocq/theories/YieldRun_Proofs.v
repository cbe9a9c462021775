(** Proofs for C251. *)
From Coq Require Import Permutation.
From Verif Require Import RBase Chunk_Model Chunk_Spec Chunk_Proofs EngineRun_Model EngineRun_Spec EngineRun_Proofs FarmEval_Model FarmEval_Proofs Symm_Model Curves_Model Curves_Spec Whole_Model Whole_Spec Whole_Proofs YieldRun_Model YieldRun_Spec.
Local Open Scope R_scope.

Lemma all_ok_map {A B} (f : A -> result B) (g : A -> B) l : (forall a, In a l -> f a = Ok (g a)) -> all_ok (map f l) = Ok (map g l).
Proof.
  induction l as [|a l IH]; intros H; [reflexivity|]. cbn [map all_ok]. rewrite (H a (or_introl eq_refl)), IH by (intros; apply H; now right). reflexivity.
Qed.
(** the results of a state *)
Definition rows_of (c : scene) (farm : list (turb ttype)) (z : wstate) : list tres := match farm_results (at_state c z) farm with Ok r => r | Err _ => [] end.
Lemma rows_ok c farm z : good_farm farm -> good_scene (at_state c z) -> farm_results (at_state c z) farm = Ok (rows_of c farm z) /\ balanced (at_state c z) farm (rows_of c farm z).
Proof. intros HF HS. destruct (result_balanced _ _ HS HF) as (r & E & B & _). unfold rows_of. rewrite E. auto. Qed.
Lemma run_ok c farm np css csp zs sched : good_farm farm -> good_states c zs -> valid_setting np css csp -> schedule np css csp (length zs) sched -> run_farm c farm np css csp zs sched = Ok (map (rows_of c farm) zs).
Proof.
  intros HF (H0 & HS) HV HP. unfold run_farm. assert (L : (1 <= length zs)%nat) by (destruct zs; [contradiction|cbn; lia]).
  destruct (C01_lemma np css csp (Z.of_nat (length zs)) 0%Z (length zs) HV ltac:(lia) ltac:(lia) ltac:(lia)) as (ls & lt & E & _). rewrite E. cbn [bind fst].
  specialize (HP ls lt E). assert (Q : per_state (chunk_farm c farm)) by (exists (fun z => farm_results (at_state c z) farm); reflexivity).
  rewrite (engine_farm_lemma _ _ (chunk_farm c farm) Q np css csp zs ls lt (length zs) sched HV L ltac:(lia) E HP). cbn [bind]. unfold chunk_farm. apply all_ok_map.
  intros z Hz. apply rows_ok; auto.
Qed.
Lemma bsum_list {A} (l : list A) (d : A) (f : A -> R) : bsum (length l) (fun s => f (nth s l d)) = rsum (map f l).
Proof.
  unfold bsum. f_equal. apply (nth_ext _ _ (f d) (f d)); [now rewrite !map_length, seq_length|]. intros i Hi. rewrite map_length, seq_length in Hi.
  rewrite (nth_indep _ (f d) (f (nth (length l) l d))) by (rewrite map_length, seq_length; exact Hi). rewrite (map_nth (fun s => f (nth s l d)) (seq 0 (length l)) (length l) i), seq_nth by exact Hi. cbn [plus]. symmetry. apply map_nth.
Qed.
Lemma mean_yield ns nt unit w p : exists y, calc_turbine_yield ns nt Plain None (Some unit) true None None w p = Ok y /\ forall t, y t = per_year unit (bsum ns (fun s => p s t * wt w s t)).
Proof.
  destruct (calc_turbine_yield ns nt Plain None (Some unit) true None None w p) as [y|e] eqn:E; [|discriminate E]. exists y. split; [reflexivity|]. intros t.
  rewrite (annual_yield ns nt Plain None (Some unit) None None w p 8760 eq_refl ltac:(lra) y E t). reflexivity.
Qed.
Lemma yields_ok c farm np css csp zs sched unit : good_farm farm -> good_states c zs -> valid_setting np css csp -> schedule np css csp (length zs) sched ->
  exists y y0, yields c farm np css csp zs sched unit = Ok (y, y0) /\
    (forall t, y t = per_year unit (rsum (map (fun z => r_p (nth t (rows_of c farm z) no_res) * z_weight z) zs))) /\
    (forall t, y0 t = per_year unit (rsum (map (fun z => value (y_P (t_set (nth t farm no_turb))) (z_ws z) * z_weight z) zs))).
Proof.
  intros HF HS HV HP. unfold yields. rewrite (run_ok c farm np css csp zs sched HF HS HV HP). cbn [bind]. cbv zeta. set (w := WS (fun s => z_weight (nth s zs no_state))).
  destruct (mean_yield (length zs) (length farm) unit w (power (map (rows_of c farm) zs))) as (y & E & Hy). destruct (mean_yield (length zs) (length farm) unit w (amb_power farm zs)) as (y0 & E0 & Hy0).
  exists y, y0. split; [now rewrite E, E0|]. split; intros t.
  - rewrite Hy. f_equal. rewrite <- (bsum_list zs no_state). apply bsum_ext. intros s Hs. cbn [wt w]. unfold power. f_equal. rewrite (nth_indep _ [] (rows_of c farm no_state)) by (rewrite map_length; exact Hs). rewrite map_nth. reflexivity.
  - rewrite Hy0. f_equal. rewrite <- (bsum_list zs no_state). apply bsum_ext. intros s Hs. reflexivity.
Qed.
Lemma per_year_le unit a b : 0 <= unit -> a <= b -> per_year unit a <= per_year unit b.
Proof. intros. unfold per_year. assert (a * 8760 * unit <= b * 8760 * unit) by nra. lra. Qed.
