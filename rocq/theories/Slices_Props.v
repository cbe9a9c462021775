(** Theorems about stacks of slices (SlicesData). *)
From Verif Require Import RBase Slices_Model.
From Coq Require Import List.
Import ListNotations.
Local Open Scope R_scope.

(** C238: if the names of the third axis (and of the states) are not mapped, the stack has the given positions as coordinates and at position k, node (j, i) the value at the point (c_k, b_j, a_i);
    the other coordinates are normalised *)
Theorem C238_values mean st field na nb nc apos bpos x cs : cs <> [] -> lmap x nc = nc -> (mean = false -> lmap x st = st) ->
  exists t, get_stack mean st field na nb nc apos bpos x cs = Ok t /\ t_c t = (nc, cs) /\ t_a t = (lmap x na, map (norm (n_a x)) apos) /\ t_b t = (lmap x nb, map (norm (n_b x)) bpos) /\
    length (t_data t) = length (vars x) /\
    forall q p s j i d, (q < length (vars x))%nat -> (p < length cs)%nat ->
      snd (nth q (t_data t) d) p s j i = field (nth q (vars x) 0%nat) s (nth p cs 0) (nth j bpos 0) (nth i apos 0).
Proof.
  intros N E1 E2. destruct cs as [|c0 cr]; [contradiction|]. unfold get_stack. cbn [map]. cbn [get_slice s_attr fst]. rewrite E1, Nat.eqb_refl.
  replace (mean || Nat.eqb (lmap x st) st)%bool with true by (destruct mean; [reflexivity|]; rewrite (E2 eq_refl), Nat.eqb_refl; reflexivity).
  eexists. split; [reflexivity|]. cbn [t_c t_a t_b t_data s_a s_b s_data get_slice]. split; [reflexivity|]. split; [reflexivity|]. split; [reflexivity|]. rewrite !map_length, seq_length. split; [reflexivity|].
  intros q p s j i d Q P. set (g := fun k : nat => _) at 1. rewrite (nth_indep _ d (g 0%nat)) by (rewrite map_length, seq_length; exact Q). rewrite (map_nth g), seq_nth by exact Q. unfold g. cbn [snd Nat.add].
  set (sl := map (get_slice mean field na nb nc apos bpos x) (c0 :: cr)).
  change (snd (nth q (s_data (nth p sl (get_slice mean field na nb nc apos bpos x c0))) (0%nat, fun _ _ _ => 0)) s j i = field (nth q (vars x) 0%nat) s (nth p (c0 :: cr) 0) (nth j bpos 0) (nth i apos 0)).
  unfold sl. rewrite (map_nth (get_slice mean field na nb nc apos bpos x)). cbn [get_slice s_data].
  set (h := fun v : nat => _). rewrite (nth_indep _ _ (h 0%nat)) by (rewrite map_length; exact Q). rewrite (map_nth h). unfold h. cbn [snd].
  now rewrite (nth_indep (c0 :: cr) c0 0) by exact P.
Qed.
(** C238, refuted: a normalisation of the third axis has no effect on the coordinate of the stack *)
Theorem C238_normalize_refuted mean st field na nb nc apos bpos x cs t q : get_stack mean st field na nb nc apos bpos x cs = Ok t -> n_c x = Some q -> q <> 0 -> q <> 1 ->
  forall p, (p < length cs)%nat -> nth p cs 0 <> 0 -> nth p (snd (t_c t)) 0 <> norm (n_c x) (nth p cs 0).
Proof.
  intros H Q Q0 Q1 p P Z. assert (C : t_c t = (nc, cs)).
  { unfold get_stack in H. destruct cs as [|c0 cr]; [discriminate|]. cbn [map] in H. destruct (Nat.eqb _ nc); [|discriminate]. destruct (_ || _)%bool; [|discriminate]. injection H as <-. reflexivity. }
  rewrite C, Q. cbn [snd norm]. intros E. apply Q1. apply Rmult_eq_reg_l with (nth p cs 0); [|exact Z]. rewrite E at 1. field. exact Q0.
Qed.
(** C238, refuted: a new name for the third axis, for the axis of states (data of states), or an empty list of positions is an exception *)
Theorem C238_names_refuted mean st field na nb nc apos bpos x cs :
  (cs <> [] -> lmap x nc <> nc -> get_stack mean st field na nb nc apos bpos x cs = Err KeyError) /\
  (cs <> [] -> lmap x nc = nc -> lmap x st <> st -> get_stack false st field na nb nc apos bpos x cs = Err ValueError) /\
  get_stack mean st field na nb nc apos bpos x [] = Err ValueError.
Proof.
  split; [|split; [|reflexivity]].
  - intros N E. destruct cs; [contradiction|]. unfold get_stack. cbn [map get_slice s_attr fst]. apply Nat.eqb_neq in E. now rewrite E.
  - intros N E1 E2. destruct cs; [contradiction|]. unfold get_stack. cbn [map get_slice s_attr fst]. rewrite E1, Nat.eqb_refl. apply Nat.eqb_neq in E2. now rewrite E2.
Qed.
(** C238: names of variables: mapped for states, and (refuted) not for means *)
Theorem C238_variables_refuted field na nb nc apos bpos x c :
  map fst (s_data (get_slice false field na nb nc apos bpos x c)) = map (lmap x) (vars x) /\ map fst (s_data (get_slice true field na nb nc apos bpos x c)) = vars x.
Proof. cbn [get_slice s_data]. rewrite !map_map. cbn [fst]. split; [reflexivity|apply map_id]. Qed.
(** C238, refuted: with to_file the file has the last slice only *)
Theorem C238_file_refuted mean field na nb nc apos bpos x cs c : file_after (map (get_slice mean field na nb nc apos bpos x) (cs ++ [c])) = Some (get_slice mean field na nb nc apos bpos x c).
Proof. rewrite map_app. unfold file_after. rewrite fold_left_app. reflexivity. Qed.
(** C238, refuted: the grid returned with ret_grid=True has normalised coordinates a, b, but its position and its points are not *)
Theorem C238_grid_refuted apos bpos c x point qa qc i : n_a x = Some qa -> n_c x = Some qc -> let '(ra, _, rc, pts) := ret_grid apos bpos c x point in
  (i < length apos)%nat -> nth i ra 0 = nth i apos 0 / qa /\ rc = c /\ pts = flat_map (fun a => map (fun b => point c b a) bpos) apos.
Proof.
  intros A C. unfold ret_grid. intros I. rewrite A. split; [|split; reflexivity]. rewrite (nth_indep _ 0 (norm (Some qa) 0)) by (rewrite map_length; exact I). now rewrite (map_nth (norm (Some qa))).
Qed.
Print Assumptions C238_values.
Print Assumptions C238_normalize_refuted.
Print Assumptions C238_names_refuted.
Print Assumptions C238_variables_refuted.
Print Assumptions C238_file_refuted.
Print Assumptions C238_grid_refuted.
Example C238_witness : let x := {| n_a := Some 100; n_b := None; n_c := Some 100; lmap := fun n => n; vars := [7%nat] |} in
  exists t, get_stack true 9 (fun v s c b a => c + b + a) 0 1 2 [0; 100] [0; 50; 70] x [90; 120] = Ok t /\ snd (t_a t) = [0 / 100; 100 / 100] /\ snd (t_c t) = [90; 120] /\
    snd (nth 0 (t_data t) (0%nat, fun _ _ _ _ => 0)) 1%nat 0%nat 2%nat 1%nat = 120 + 70 + 100.
Proof.
  cbv zeta. destruct (C238_values true 9 (fun v s c b a => c + b + a) 0 1 2 [0; 100] [0; 50; 70] {| n_a := Some 100; n_b := None; n_c := Some 100; lmap := fun n => n; vars := [7%nat] |} [90; 120]) as (t & E & C & A & B & L & V);
    [discriminate|reflexivity|discriminate|]. exists t. split; [exact E|]. rewrite A, C. split; [reflexivity|]. split; [reflexivity|]. rewrite V by (cbn; lia). reflexivity.
Qed.
