(** Theorems about input states. *)
From Verif Require Import RBase States_Model States_Proofs.
Local Open Scope R_scope.

(** C52: weights *)
Theorem C52_scan_weights sc : (forall d, In d sc -> d <> []) ->
  (forall r, 0 <= scan_weight sc r) /\ rsum (map (scan_weight sc) (seq 0 (scan_size sc))) = 1.
Proof.
  intros H. assert (P : (0 < scan_size sc)%nat).
  { apply prodn_pos. apply Forall_forall. intros n I. apply in_map_iff in I. destruct I as (d & E & I). apply H in I. destruct d; [congruence|cbn in E; lia]. }
  split.
  - intros r. unfold scan_weight, Rdiv. apply Rmult_le_pos; [lra|]. left. apply Rinv_0_lt_compat. now apply lt_0_INR.
  - now apply uniform_sum.
Qed.
Print Assumptions C52_scan_weights.
(** each combination of indices, i.e. of scan values, is one row, and rows belong to different combinations *)
Theorem C52_scan_visits_once sc ks : Forall2 (fun d k => (k < length d)%nat) sc ks ->
  exists r, (r < scan_size sc)%nat /\ scan_row sc r = pick ks sc /\ forall r', (r' < scan_size sc)%nat -> unravel (shape sc) r' = ks -> r' = r.
Proof.
  intros H. assert (W : within (shape sc) ks) by (unfold shape; induction H; constructor; assumption).
  destruct (unravel_exists _ _ W) as (r & Hr & E). exists r. split; [assumption|]. split; [unfold scan_row; now rewrite E|].
  intros r' Hr' E'. apply (unravel_inj (shape sc)); [assumption|assumption|congruence].
Qed.
Print Assumptions C52_scan_visits_once.
Theorem C52_scan_rows_are_combinations sc r : (r < scan_size sc)%nat ->
  exists ks, Forall2 (fun d k => (k < length d)%nat) sc ks /\ scan_row sc r = pick ks sc.
Proof.
  intros H. exists (unravel (shape sc) r). split; [|reflexivity]. pose proof (unravel_within _ _ H) as W. unfold shape in *. revert W.
  generalize (unravel (map (@length R) sc) r). clear H. induction sc as [|d sc IH]; intros ks W; inversion W; subst; constructor; [assumption|]. now apply IH.
Qed.
Print Assumptions C52_scan_rows_are_combinations.
Theorem C52_table_weights t : (0 < nrows t)%nat -> (forall s, 0 <= table_weight t None s) /\ rsum (map (table_weight t None) (seq 0 (nrows t))) = 1.
Proof.
  intros P. split; [|now apply uniform_sum]. intros s. unfold table_weight, Rdiv. apply Rmult_le_pos; [lra|]. left. apply Rinv_0_lt_compat. now apply lt_0_INR.
Qed.
Print Assumptions C52_table_weights.
Theorem C52_single_weight : rsum (map single_weight (seq 0 single_size)) = 1.
Proof. unfold single_weight, single_size. cbn [map seq rsum]. lra. Qed.
Print Assumptions C52_single_weight.
Theorem C52_wind_rose_weights nws nwd ws_freq wd_freq :
  (forall w d, (w < nws)%nat -> (d < nwd)%nat -> 0 <= ws_freq w d) -> (forall d, (d < nwd)%nat -> 0 <= wd_freq d) ->
  (forall d, (d < nwd)%nat -> 0 < rsum (map (fun w => ws_freq w d) (seq 0 nws))) -> 0 < rsum (map wd_freq (seq 0 nwd)) ->
  (forall x, In x (tab_weights nws nwd ws_freq wd_freq) -> 0 < x) /\ rsum (tab_weights nws nwd ws_freq wd_freq) = 1.
Proof. intros H1 H2 H3 H4. split; [intros x; apply tab_pos|now apply tab_sum]. Qed.
Print Assumptions C52_wind_rose_weights.
(** the wind speed of a wind rose state lies strictly within its bin *)
Theorem C52_bin_centres a up w : 0 < a -> (forall i, up i < up (S i)) -> 0 < up O ->
  a * (match w with O => 0 | S v => up v end) < bin_centre a up w < a * up w.
Proof. intros Ha Hu H0. unfold bin_centre. destruct w as [|w]; [|pose proof (Hu w)]; nra. Qed.
Print Assumptions C52_bin_centres.
Example C52_nonvacuous : scan_size [[1; 2; 3]; [270; 280]] = 6%nat /\ scan_row [[1; 2; 3]; [270; 280]] 3 = [2; 280] /\
  map (scan_row [[1; 2]; [270; 280]]) (seq 0 4) = [[1; 270]; [1; 280]; [2; 270]; [2; 280]].
Proof. repeat split. Qed.
Example C52_wind_rose_nonvacuous : rsum (tab_weights 2 2 (fun w _ => 1 + INR w) (fun _ => 50)) = 1.
Proof.
  apply C52_wind_rose_weights; intros; try (pose proof (pos_INR w)); cbn; lra.
Qed.

(** C53 *)
Theorem C53_own_column t v2c isp fx pr tv cs s v : NoDup tv -> load t v2c isp tv = Ok cs -> In v tv -> isp v = false -> fx v = None ->
  exists c, column t (v2c v) = Some c /\ deliver isp fx pr tv cs s v = Some (c s).
Proof. exact (deliver_ok t v2c isp fx pr tv cs s v). Qed.
Print Assumptions C53_own_column.
Theorem C53_loads t v2c isp tv : (forall v, In v tv -> column t (v2c v) <> None) -> exists cs, load t v2c isp tv = Ok cs.
Proof. intros H. destruct (tcols_all t v2c isp tv H) as (r & E & L). unfold load. rewrite E. cbn [bind]. rewrite L, Nat.eqb_refl. eauto. Qed.
Print Assumptions C53_loads.
Theorem C53_missing_rejected t v2c isp tv v : In v tv -> column t (v2c v) = None -> exists e, load t v2c isp tv = Err e.
Proof. exact (load_missing t v2c isp tv v). Qed.
Print Assumptions C53_missing_rejected.
Example C53_nonvacuous : let t := {| nrows := 2; column := fun c => match c with 10%nat => Some (fun s => INR s + 5) | 11%nat => Some (fun _ => 270) | _ => None end |} in
  let v2c := fun v => (v + 10)%nat in exists cs, load t v2c (fun _ => false) [1; 0]%nat = Ok cs /\ deliver (fun _ => false) (fun _ => None) (fun _ => 0) [1; 0]%nat cs 1 0 = Some (1 + 5).
Proof. cbv zeta. eexists. split; reflexivity. Qed.

(** C87: a profile instead of a table column is announced by the error message and the check in load_data, but the data
    set is then rejected. *)
Theorem C87_profile_instead_of_column_refuted t v2c isp tv v : (forall u, In u tv -> column t (v2c u) = None -> isp u = true) ->
  In v tv -> column t (v2c v) = None -> load t v2c isp tv = Err ValueError.
Proof. exact (load_missing_profile t v2c isp tv v). Qed.
Print Assumptions C87_profile_instead_of_column_refuted.
Theorem C87_profile_with_column_partial t v2c isp fx pr tv cs s v : load t v2c isp tv = Ok cs -> isp v = true -> deliver isp fx pr tv cs s v = Some (pr v).
Proof. intros _ H. unfold deliver. now rewrite H. Qed.
Print Assumptions C87_profile_with_column_partial.
Example C87_nonvacuous : load {| nrows := 1; column := fun c => if (c =? 1)%nat then Some (fun _ => 8) else None |} (fun v => v) (fun v => (v =? 0)%nat) [0; 1]%nat = Err ValueError.
Proof. reflexivity. Qed.

(** C88 is false if a profile is given by a dict: its entry "type" is removed by the first initialisation. *)
Theorem C88_initialise_again_refuted l l' : init_profs l = Ok l' -> (exists v b, In (v, PDict b) l) -> init_profs l' = Err KeyError.
Proof. exact (init_again l l'). Qed.
Print Assumptions C88_initialise_again_refuted.
Theorem C88_without_dicts_partial l : (forall v p, In (v, p) l -> p = PStr \/ p = PObj) -> exists l', init_profs l = Ok l' /\ init_profs l' = Ok l'.
Proof. intros H. pose proof (init_stable l H) as E. exists l. auto. Qed.
Print Assumptions C88_without_dicts_partial.
Example C88_nonvacuous : exists l', init_profs [(0%nat, PStr); (1%nat, PDict true)] = Ok l' /\ init_profs l' = Err KeyError.
Proof. eexists. split; reflexivity. Qed.
