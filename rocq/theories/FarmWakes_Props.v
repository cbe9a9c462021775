(** Property theorems C13, C14, C21, C22, C68-C71: farm wakes and iteration. *)
From Verif Require Import Base Order_Model Order_Spec FarmWakes_Model FarmWakes_Spec FarmWakes_Proofs FarmIter_Proofs.
From Verif Require Import IterLoop_Model IterLoop_Spec IterLoop_Proofs FarmWakes_Witness.

(** C13: turbines listed in processing order; [p] are the first |p| of them. Their results in any larger
    farm [p ++ s] are the results of the farm consisting of [p] alone. *)
Theorem C13_no_downstream_influence : forall (T F D W : Type) (amb : T -> W) (ev : T -> W -> F) (d0 : D)
  (ws : list (@wmodel T F D W)) (p s : list T), all_down ws ->
  exists r, calc_downwind amb ev d0 ws (p ++ s) = Ok r /\ length r = length (p ++ s) /\
            calc_downwind amb ev d0 ws p = Ok (firstn (length p) r).
Proof. intros T F D W amb ev d0 ws p s. exact (causality amb ev d0 ws p s). Qed.
Print Assumptions C13_no_downstream_influence.

Theorem C13_first_turbine_ambient : forall (T F D W : Type) (amb : T -> W) (ev : T -> W -> F) (d0 : D)
  (ws : list (@wmodel T F D W)) (t : T) (ts : list T), all_down ws ->
  exists r, calc_downwind amb ev d0 ws (t :: ts) = Ok (ev t (amb t) :: r) /\ length r = length ts.
Proof. intros T F D W amb ev d0 ws t ts. exact (first_ambient amb ev d0 ws t ts). Qed.
Print Assumptions C13_first_turbine_ambient.

(** C13 in farm order: appending turbines strictly downstream of turbine [i] does not change its result. *)
Theorem C13_farm_result_unchanged : forall (T F D W K : Type) (amb : T -> W) (ev : T -> W -> F)
  (leb : K -> K -> bool) (key : T -> K) (dT : T) (dF : F) (d0 : D),
  (forall a b, leb a b = true \/ leb b a = true) ->
  (forall a b c, leb a b = true -> leb b c = true -> leb a c = true) ->
  forall (ws : list (@wmodel T F D W)) (farm extra : list T) (i : nat), all_down ws -> i < length farm ->
  (forall e, In e extra -> leb (key e) (key (nth i farm dT)) = false) ->
  exists r1 r2, calc_farm amb ev leb key dT dF d0 ws farm = Ok r1 /\
                calc_farm amb ev leb key dT dF d0 ws (farm ++ extra) = Ok r2 /\
                length r1 = length farm /\ length r2 = length (farm ++ extra) /\ nth i r1 dF = nth i r2 dF.
Proof. exact @farm_causality. Qed.
Print Assumptions C13_farm_result_unchanged.

(** C14 *)
Theorem C14_renumbering : forall (T F D W K : Type) (amb : T -> W) (ev : T -> W -> F)
  (leb : K -> K -> bool) (key : T -> K) (dT : T) (dF : F) (d0 : D),
  (forall a b, leb a b = true \/ leb b a = true) ->
  (forall a b c, leb a b = true -> leb b c = true -> leb a c = true) ->
  forall (ws : list (@wmodel T F D W)) (farm : list T) (pi : list nat) (r : list F),
  isperm (length farm) pi ->
  (forall i j, i < length farm -> j < length farm -> i <> j ->
     leb (key (nth i farm dT)) (key (nth j farm dT)) = false \/ leb (key (nth j farm dT)) (key (nth i farm dT)) = false) ->
  calc_farm amb ev leb key dT dF d0 ws farm = Ok r ->
  calc_farm amb ev leb key dT dF d0 ws (gather dT farm pi) = Ok (gather dF r pi).
Proof. exact @renumber. Qed.
Print Assumptions C14_renumbering.

(** C21: after k sweeps the first k+1 turbines of the order have their downwind result ... *)
Theorem C21_sweeps_reach_downwind : forall (T F D W : Type) (amb : T -> W) (ev : T -> W -> F) (d0 : D)
  (ws : list (@wmodel T F D W)) (ts : list T) (r : list F) (k : nat),
  all_down ws -> neutral ws -> no_feedback ev ws -> acts_downstream ws ts ->
  calc_downwind amb ev d0 ws ts = Ok r ->
  firstn (S k) (sweeps amb ev ws ts k) = firstn (S k) r /\
  (length ts <= S k -> sweeps amb ev ws ts k = r).
Proof.
  intros T F D W amb ev d0 ws ts r k H1 H2 H3 H4 E.
  exact (conj (iterative_prefix amb ev d0 ws ts r k H1 H2 H3 H4 E) (iterative_all amb ev d0 ws ts r k H1 H2 H3 H4 E)).
Qed.
Print Assumptions C21_sweeps_reach_downwind.

(** ... and when the default iteration limit stops the loop, or when the criterion accepts only results that
    did not change, the returned results are the downwind results. *)
Theorem C21_default_limit_suffices : forall (T F D W : Type) (amb : T -> W) (ev : T -> W -> F) (reord : list F -> list F)
  (ws : list (@wmodel T F D W)) (ts : list T) block crit fres dwnd (r : list F) (d0 : D),
  all_down ws -> neutral ws -> no_feedback ev ws -> acts_downstream ws ts ->
  calc_downwind amb ev d0 ws ts = Ok r ->
  calc_farm_iter (sweep_run amb ev reord ws ts) block crit false (default_max_it (length ts))
    = (fres, dwnd, default_max_it (length ts)) ->
  dwnd = r /\ fres = reord r.
Proof. exact @limit_result. Qed.
Print Assumptions C21_default_limit_suffices.

Theorem C21_exact_criterion : forall (T F D W : Type) (amb : T -> W) (ev : T -> W -> F) (reord : list F -> list F)
  (ws : list (@wmodel T F D W)) (ts : list T) block crit n fres dwnd k (r : list F) (d0 : D),
  all_down ws -> neutral ws -> no_feedback ev ws -> acts_downstream ws ts ->
  calc_downwind amb ev d0 ws ts = Ok r -> length ts = n ->
  (forall c, crit = Some c -> forall p q, c (Some p) q = true -> p = q) ->
  (forall c, crit = Some c -> forall q, c None q = false) ->
  calc_farm_iter (sweep_run amb ev reord ws ts) block crit false (default_max_it n) = (fres, dwnd, k) ->
  dwnd = r /\ fres = reord r.
Proof. exact @sweeps_result. Qed.
Print Assumptions C21_exact_criterion.

(** C21: the hypothesis [no_feedback] is needed. *)
Theorem C21_feedback_refuted : exists (ws : list (@wmodel nat (nat * nat) nat (nat * nat))) ts amb ev r k,
  all_down ws /\ neutral ws /\ acts_downstream ws ts /\ calc_downwind amb ev 0 ws ts = Ok r /\
  length ts <= S k /\ sweeps amb ev ws ts (S k) = sweeps amb ev ws ts k /\ sweeps amb ev ws ts k <> r.
Proof. exact feedback_witness. Qed.
Print Assumptions C21_feedback_refuted.

(** C22 *)
Theorem C22_loop : forall (R : Type) (run : mkind -> option R -> R) (block : nat -> bool)
  (crit : option (option R -> R -> bool)) (amb : bool) (max_it : nat) fres dwnd n,
  calc_farm_iter run block crit amb max_it = (fres, dwnd, n) ->
  n <= max_it /\ (forall j, j < n -> ~ passes run block crit amb j) /\ (n = max_it \/ passes run block crit amb n).
Proof. exact @terminates_spec. Qed.
Print Assumptions C22_loop.

(** C68: exactly which results are returned. *)
Theorem C68_returned_results_partial : forall (R : Type) (run : mkind -> option R -> R) (block : nat -> bool)
  (crit : option (option R -> R -> bool)) (amb : bool) (max_it : nat) fres dwnd n,
  calc_farm_iter run block crit amb max_it = (fres, dwnd, n) ->
  dwnd = iterate run amb n /\
  fres = match n with
         | O => run MFull None
         | S m => run (if amb then MFull else MReorder) (Some (iterate run amb m))
         end.
Proof. exact @returned_spec. Qed.
Print Assumptions C68_returned_results_partial.

(** C68 refuted: two turbines, the loop stops at its limit, the returned results are not the re-ordered
    results of the last iteration. *)
Theorem C68_last_iteration_refuted : exists (ws : list (@wmodel nat nat nat nat)) ts amb ev max_it fres dwnd,
  calc_farm_iter (sweep_run amb ev (fun r => r) ws ts) (fun _ => false) None false max_it = (fres, dwnd, max_it) /\
  all_down ws /\ neutral ws /\ acts_downstream ws ts /\ fres <> dwnd.
Proof. exact last_iteration_witness. Qed.
Print Assumptions C68_last_iteration_refuted.

(** C69: ambient (and re-ambient) iterative runs and runs with one iteration return processing order:
    the re-ordering model is never run. *)
Theorem C69_ambient_never_reordered : forall (R : Type) (run run' : mkind -> option R -> R) block crit amb max_it,
  (forall prev, run MFull prev = run' MFull prev) -> (forall prev, run MWakes prev = run' MWakes prev) ->
  amb = true \/ max_it = 0 ->
  calc_farm_iter run block crit amb max_it = calc_farm_iter run' block crit amb max_it.
Proof. exact @ambient_not_reordered. Qed.
Print Assumptions C69_ambient_never_reordered.
Theorem C69_farm_order_refuted : exists (order : list nat) (g : nat -> nat),
  isperm 2 order /\
  fst (fst (calc_farm_iter (R := list nat)
     (fun m prev => match m, prev with
                    | MReorder, Some r => gather 0 r (invert order)
                    | _, _ => map g order
                    end) (fun _ => false) None true 3)) <> map g (seq 0 2).
Proof. exact ambient_order_witness. Qed.
Print Assumptions C69_farm_order_refuted.

(** C70: the order in which wake models are listed matters. *)
Theorem C70_wake_model_list_order_refuted : exists (w1 w2 : @wmodel nat (nat * nat) nat (nat * nat)) ts amb ev r1 r2,
  all_down [w1; w2] /\ neutral [w1; w2] /\
  (forall t t' f d d', w_contrib w1 t f t' (d + d') = w_contrib w1 t f t' d + d' /\ w_contrib w2 t f t' (d + d') = w_contrib w2 t f t' d + d') /\
  (forall t x d d', w_add w1 t (w_add w2 t x d) d' = w_add w2 t (w_add w1 t x d') d) /\
  calc_downwind amb ev 0 [w1; w2] ts = Ok r1 /\ calc_downwind amb ev 0 [w2; w1] ts = Ok r2 /\ r1 <> r2.
Proof. exact list_order_witness. Qed.
Print Assumptions C70_wake_model_list_order_refuted.

(** C70: it does not if no listed model reads what the other one changes. *)
Theorem C70_independent_models_commute_partial : forall (T F D W : Type) (amb : T -> W) (ev : T -> W -> F) (d0 : D)
  (w1 w2 : @wmodel T F D W) (ts : list T),
  all_down [w1; w2] -> neutral [w1; w2] -> no_feedback ev [w1; w2] -> no_feedback ev [w2; w1] ->
  (forall t x d d', w_add w1 t (w_add w2 t x d) d' = w_add w2 t (w_add w1 t x d') d) ->
  calc_downwind amb ev d0 [w1; w2] ts = calc_downwind amb ev d0 [w2; w1] ts.
Proof. exact @independent_commute. Qed.
Print Assumptions C70_independent_models_commute_partial.

(** C71: in inhomogeneous wind a turbine downstream of all others changes the order of the others, and so
    the result of an upstream turbine. Turbines are (x, y, u, v); [downstream_of s t]: t is in the wind
    direction of s. *)
Theorem C71_inhomogeneous_wind_refuted : exists (w : @wmodel (Z * Z * Z * Z) Z Z Z) amb ev farm c r1 r2,
  w_down w = true /\ length farm = 2 /\
  calc_farm_wd amb ev 0%Z 0%Z [w] farm = Ok r1 /\ calc_farm_wd amb ev 0%Z 0%Z [w] (farm ++ [c]) = Ok r2 /\
  last (wd_order (farm ++ [c])) 0 = 2 /\ nth 1 r1 0%Z <> nth 1 r2 0%Z.
Proof. exact inhomogeneous_witness. Qed.
Print Assumptions C71_inhomogeneous_wind_refuted.

(** C72: mixing upwind and downwind wake models is an error, and nothing else is. *)
Theorem C72_mixing_rejected : forall (T F D W : Type) (amb : T -> W) (ev : T -> W -> F) (d0 : D)
  (ws : list (@wmodel T F D W)) (ts : list T),
  ((exists r, calc_downwind amb ev d0 ws ts = Ok r) <-> (all_down ws \/ all_up ws)) /\
  (~ all_down ws -> ~ all_up ws -> calc_downwind amb ev d0 ws ts = Err KeyError).
Proof. intros T F D W amb ev d0 ws ts. exact (conj (mixing_iff amb ev d0 ws ts) (mixing_keyerror amb ev d0 ws ts)). Qed.
Print Assumptions C72_mixing_rejected.

(** Non-vacuity: the hypotheses of C13, C14 and C21 are met by a three turbine row with a linear deficit. *)
Example ex_row_hyps : all_down [row_model] /\ neutral [row_model] /\ no_feedback row_ev [row_model] /\ acts_downstream [row_model] [0; 1; 2].
Proof. exact row_hyps. Qed.
Example ex_row : calc_downwind row_amb row_ev 0 [row_model] [0; 1; 2] = Ok [10; 9; 7] /\ sweeps row_amb row_ev [row_model] [0; 1; 2] 1 = [10; 9; 8].
Proof. split; reflexivity. Qed.
Example ex_farm : calc_farm row_amb row_ev Nat.leb (fun t => t) 0 0 0 [row_model] [2; 0; 1] = Ok [7; 10; 9].
Proof. reflexivity. Qed.
Example ex_farm_extra : calc_farm row_amb row_ev Nat.leb (fun t => t) 0 0 0 [row_model] [2; 0; 1; 5] = Ok [7; 10; 9; 3].
Proof. reflexivity. Qed.
