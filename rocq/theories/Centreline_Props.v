(** Theorems about centreline integrals and the wake width of TurbOParkWakeIX. *)
From Coquelicot Require Import Coquelicot.
From Verif Require Import RBase Induction_Model Centreline_Model Centreline_Spec Centreline_Proofs.
Local Open Scope R_scope.

(** C111: within the maximal wake length, the value of every target is the right-point sum up to its own coordinate, whatever the other targets are *)
Theorem C111_value f max_len dx x0 xl p d : 0 < dx -> (p < length (x0 :: xl))%nat -> 0 <= nth p (x0 :: xl) d <= max_len ->
  nth p (centreline_integral f max_len dx x0 xl) 0 = riemann f dx (nth p (x0 :: xl) d).
Proof. exact (target_value f max_len dx x0 xl p d). Qed.
Print Assumptions C111_value.
Theorem C111_constant_exact c dx x : 0 < dx -> riemann (fun _ => c) dx x = c * x.
Proof. exact (riemann_const c dx x). Qed.
Print Assumptions C111_constant_exact.
(** first-order error against the true integral *)
Theorem C111_error f L dx x : 0 <= L -> lipschitz f L -> 0 < dx -> 0 <= x -> Rabs (riemann f dx x - RInt f 0 x) <= L * dx * x.
Proof. exact (riemann_err f L dx x). Qed.
Print Assumptions C111_error.
Theorem C111_grows f dx x x' : 0 < dx -> 0 <= x <= x' -> (forall y, 0 < y -> 0 <= f y) -> riemann f dx x <= riemann f dx x'.
Proof. exact (riemann_mono_x f dx x x'). Qed.
Print Assumptions C111_grows.
Theorem C111_monotone f g dx x : 0 < dx -> 0 <= x -> (forall y, 0 < y -> f y <= g y) -> riemann f dx x <= riemann g dx x.
Proof. exact (riemann_le f g dx x). Qed.
Print Assumptions C111_monotone.
Theorem C111_linear f g a b dx x : riemann (fun y => a * f y + b * g y) dx x = a * riemann f dx x + b * riemann g dx x.
Proof. exact (riemann_linear f g a b dx x). Qed.
Print Assumptions C111_linear.
(** beyond the maximal length (plus one step) the fill value 0 is returned: the integral falls back to zero *)
Theorem C111_beyond_refuted f max_len dx x0 xl p d : 0 < dx -> 0 <= max_len -> (p < length (x0 :: xl))%nat -> max_len + dx <= nth p (x0 :: xl) d ->
  nth p (centreline_integral f max_len dx x0 xl) 0 = 0.
Proof. exact (target_beyond f max_len dx x0 xl p d). Qed.
Print Assumptions C111_beyond_refuted.
(** so for TurbOParkWakeIX a farther target can be narrower-waked than a nearer one: two targets, at 20 km and 20.2 km, step 100 m, maximal length 20 km *)
Theorem C111_width_shrinks_refuted ct2a sbeta D k ct ti : 0 < k -> 0 < ti ->
  let ti_ix := centreline_integral (fun _ => ti) 20000 100 20000 [20200] in
  turbo_ix_sigma ct2a sbeta D k ct (nth 1 ti_ix 0) < turbo_ix_sigma ct2a sbeta D k ct (nth 0 ti_ix 0).
Proof.
  intros Hk Ht ti_ix. unfold ti_ix. rewrite (target_beyond _ 20000 100 20000 [20200] 1 0) by (cbn; lia || lra).
  rewrite (target_value _ 20000 100 20000 [20200] 0 0) by (cbn; lia || lra). rewrite riemann_const by lra. cbn [nth]. unfold turbo_ix_sigma. cbn zeta. nra.
Qed.
Print Assumptions C111_width_shrinks_refuted.
(** x = 250, dx = 100, f y = 300 - y: 200*100 + 100*100 + 0*50 = 30000, true integral 43750, bound 1 * 100 * 250 *)
Example C111_nonvacuous : nth 1 (centreline_integral (fun y => 300 - y) 1000 100 700 [250; 10]) 0 = 30000 /\ lipschitz (fun y => 300 - y) 1.
Proof.
  split.
  - rewrite (target_value _ 1000 100 700 [250; 10] 1 0) by (cbn; lia || lra). cbn [nth]. unfold riemann. cbn zeta.
    rewrite (floor_nat_unique (250 / 100) 2) by (cbn; lra). cbn. lra.
  - intros y z _ _. replace (300 - y - (300 - z)) with (- (y - z)) by ring. rewrite Rabs_Ropp. lra.
Qed.
