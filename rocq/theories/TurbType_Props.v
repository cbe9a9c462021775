(** Theorems about turbine types created from files (C199 - C201). *)
From Coq Require Import String Reals Lra.
From Verif Require Import RBase Factory_Model Factory_Proofs TypeName_Model TurbType_Model TurbType_Spec TurbType_Proofs.
From Verif Require Import Curves_Model Curves_Spec Curves_Proofs.
Local Open Scope list_scope.
Local Open Scope R_scope.

(** ** C199: parameters given explicitly win over those in the file name *)

Lemma dget_dupdate_in {A} (u : dict A) : forall d k, dget (dupdate d u) k = match dget (rev u) k with Some v => Some v | None => dget d k end.
Proof.
  induction u as [|(k0, a) u IH] using rev_ind; intros d k; [reflexivity|].
  unfold dupdate in *. rewrite fold_left_app, rev_app_distr. cbn [fold_left fst snd rev app dget].
  rewrite dget_dput. destruct (seqb k0 k); [reflexivity|]. apply IH.
Qed.
Lemma dget_rev {A} (u : dict A) k : NoDup (map fst u) -> dget (rev u) k = dget u k.
Proof.
  intros N. induction u as [|(k0, a) u IH]; [reflexivity|]. cbn [map fst] in N. inversion N; subst. cbn [rev dget].
  assert (App : forall l1 l2 : dict A, dget (l1 ++ l2) k = match dget l1 k with Some v => Some v | None => dget l2 k end).
  { induction l1 as [|(k1, b) l1 I1]; intros l2; [reflexivity|]. cbn [app dget]. destruct (seqb k1 k); [reflexivity|apply I1]. }
  rewrite App, IH by assumption. cbn [dget]. destruct (seqb k0 k) eqn:E; [|now destruct (dget u k)].
  apply seqb_eq in E. subst k0. destruct (dget u k) eqn:G; [|reflexivity]. apply dget_some_in in G. exfalso. apply H1. apply in_map_iff. now exists (k, a0).
Qed.
Lemma as_dict_get q k : In k settable -> dget (as_dict q) k = stated q k.
Proof.
  unfold settable. cbn [In]. unfold as_dict, stated.
  intros [<-|[<-|[<-|[<-|[]]]]]; destruct (p_P q), (p_D q), (p_H q); reflexivity.
Qed.
Lemma turbine_type_attr cls kw t k v : turbine_type cls kw = Ok t -> In k settable -> dget kw k = Some v -> attribute k t = Some v.
Proof.
  unfold turbine_type. destruct (forallb _ kw); [|discriminate]. intros H I G.
  assert (U : forall u, arg kw (lit "P_unit") (PText (lit "kW")) = PText u -> match p_units u with
     | Some _ => Ok (mkttype match arg kw (lit "name") PNone with PNone => PText cls | v => v end (arg kw (lit "D") PNone) (arg kw (lit "H") PNone) (arg kw (lit "P_nominal") PNone) (PText u))
     | None => Err KeyError end = Ok t -> attribute k t = Some v).
  { intros u E H'. destruct (p_units u); [|discriminate]. injection H' as <-. unfold settable in I. cbn [In] in I. unfold attribute. unfold arg in E.
    destruct I as [<-|[<-|[<-|[<-|[]]]]]; cbn [t_D t_H t_P t_unit]; unfold arg; cbn in G, E |- *; try (rewrite G; reflexivity).
    rewrite G in E. now subst v. }
  destruct (arg kw (lit "P_unit") (PText (lit "kW"))) as [x|u|] eqn:E; try discriminate. exact (U u eq_refl H).
Qed.
(** Holds for power and thrust curves from one file, and for cp and ct from one file: given parameters are used, and
    what is not given is what the name of the file states. *)
Theorem C199_one_file_partial f kw t : NoDup (map fst kw) -> pct_file (File f) kw = Ok t ->
  exists q, parse_name f = Ok q /\ forall k v, In k settable ->
    (dget kw k = Some v -> attribute k t = Some v) /\ (dget kw k = None -> stated q k = Some v -> attribute k t = Some v).
Proof.
  intros N H. unfold pct_file in H. destruct (parse_name f) as [q|] eqn:E; [|discriminate]. cbn [bind] in H. exists q. split; [reflexivity|].
  intros k v I. assert (G : dget (dupdate (as_dict q) kw) k = match dget kw k with Some v => Some v | None => stated q k end).
  { rewrite dget_dupdate_in, dget_rev, as_dict_get by assumption. reflexivity. }
  split; intros A; [|intros B]; eapply turbine_type_attr; try eassumption; rewrite G, A; [reflexivity|exact B].
Qed.
Print Assumptions C199_one_file_partial.
Lemma dget_pop kw a k : dget (dpop kw a) k = if seqb a k then None else dget kw k.
Proof.
  unfold dpop. induction kw as [|(k0, v) kw IH]; [now destruct (seqb a k)|]. cbn [filter fst]. destruct (seqb k0 a) eqn:E; cbn [negb].
  - apply seqb_eq in E. subst k0. rewrite IH. cbn [dget]. now destruct (seqb a k).
  - cbn [dget]. rewrite IH. destruct (seqb k0 k) eqn:F; [|reflexivity]. apply seqb_eq in F. subst k0. destruct (seqb a k) eqn:G; [|reflexivity].
    apply seqb_eq in G. subst a. rewrite seqb_refl in E. discriminate.
Qed.
Theorem C199_cp_file_partial f tab rho kw t p col : NoDup (map fst kw) -> cpct_file (File f) tab rho kw = Ok (t, p, col) ->
  exists q, parse_name f = Ok q /\ forall k v, In k settable ->
    (dget kw k = Some v -> attribute k t = Some v) /\ (dget kw k = None -> stated q k = Some v -> attribute k t = Some v).
Proof.
  intros N H. unfold cpct_file in H. destruct (parse_name f) as [q|] eqn:E; [|discriminate]. cbn [bind] in H. exists q. split; [reflexivity|].
  set (P := dupdate (as_dict q) kw) in *. destruct (cp_args P) as [[[D0 f0] u]|] eqn:CA; [|discriminate]. cbn [bind] in H.
  destruct (power_table rho D0 f0 tab) as [pt|]; [|discriminate]. cbn [bind] in H.
  destruct (turbine_type _ _) as [ty|] eqn:TT; [|discriminate]. cbn [bind] in H. injection H as <- <- _.
  assert (U : dget P (lit "P_unit") = Some (PText u) \/ (dget P (lit "P_unit") = None /\ u = lit "kW")).
  { unfold cp_args in CA. destruct (dget P (lit "D")) as [[]|]; try discriminate. unfold arg in CA. destruct (dget P (lit "P_unit")) as [[| s |]|]; try discriminate.
    - destruct (p_units s); [|discriminate]. injection CA as _ _ <-. now left.
    - destruct (p_units (lit "kW")); [|discriminate]. injection CA as _ _ <-. now right. }
  intros k v I. assert (G : dget P k = match dget kw k with Some v => Some v | None => stated q k end).
  { unfold P. rewrite dget_dupdate_in, dget_rev, as_dict_get by assumption. reflexivity. }
  assert (Q : dget P k = Some v -> attribute k ty = Some v).
  { intros A. eapply turbine_type_attr; [exact TT|exact I|]. rewrite dget_dput. destruct (seqb (lit "P_unit") k) eqn:S.
    - apply seqb_eq in S. subst k. destruct U as [U|(U & _)]; rewrite U in A; [exact A|discriminate].
    - rewrite !dget_pop, S. destruct (seqb (lit "col_ct") k) eqn:S2; [|exact A]. apply seqb_eq in S2. subst k. unfold settable in I. cbn [In] in I. intuition discriminate. }
  split; intros A; [|intros B]; apply Q; rewrite G, A; [reflexivity|exact B].
Qed.
Print Assumptions C199_cp_file_partial.
(** With two files, every given parameter is dropped without a word. *)
Theorem C199_two_files_refuted f g tp tc rho kw : 
  pct_from_two (File f) (File g) kw = pct_from_two (File f) (File g) [] /\
  cpct_from_two (File f) (File g) tp tc rho kw = cpct_from_two (File f) (File g) tp tc rho [].
Proof. split; reflexivity. Qed.
Print Assumptions C199_two_files_refuted.
(** A file together with a data frame is never accepted. *)
Theorem C199_mixed_refuted f tp tc rho kw : (exists e, pct_from_two (File f) Frame kw = Err e) /\ pct_from_two Frame (File f) kw = Err TypeError /\
  (exists e, cpct_from_two (File f) Frame tp tc rho kw = Err e) /\ cpct_from_two Frame (File f) tp tc rho kw = Err TypeError.
Proof. unfold pct_from_two, cpct_from_two, two_pars. destruct (parse_name f); cbn; repeat split; eexists; reflexivity. Qed.
Print Assumptions C199_mixed_refuted.
(** For a tbl file, giving any of them is an error. *)
Theorem C199_tbl_refuted H D P kw k v : In k settable -> dget kw k = Some v -> tbl_file H D P kw = Err TypeError.
Proof.
  intros I G. unfold tbl_file. replace (existsb _ kw) with true; [reflexivity|]. symmetry. apply existsb_exists. apply dget_some_in in G. exists (k, v). split; [exact G|].
  cbn [fst]. apply existsb_exists. exists k. split; [|apply seqb_refl]. unfold settable in I. cbn [In] in *. tauto.
Qed.
Print Assumptions C199_tbl_refuted.
Lemma existsb_keys (kw : kwargs) l : (forall k, In k l -> dget kw k = None) -> existsb (fun kv => existsb (seqb (fst kv)) l) kw = false.
Proof.
  intros H. destruct (existsb _ kw) eqn:E; [|reflexivity]. apply existsb_exists in E. destruct E as ((k, v) & I & E). cbn [fst] in E. apply existsb_exists in E.
  destruct E as (k' & I' & E). apply seqb_eq in E. subst k'. specialize (H k I'). exfalso. clear I'.
  induction kw as [|(k0, v0) kw IH]; [destruct I|]. cbn [dget] in H. destruct (seqb k0 k) eqn:Q; [discriminate|]. destruct I as [I|I]; [injection I as -> ->; rewrite seqb_refl in Q; discriminate|]. now apply IH.
Qed.
(** Otherwise it has the values of the file. *)
Theorem C199_tbl_partial H D P kw t : (forall k, In k settable -> dget kw k = None) -> tbl_file H D P kw = Ok t ->
  t_H t = PNum H /\ t_D t = PNum D /\ nominal_watts t = Some (P * 1000000).
Proof.
  intros G T. unfold tbl_file in T. rewrite existsb_keys in T by (intros k I; apply G; unfold settable; cbn [In] in *; tauto).
  set (l := _ ++ kw) in T. assert (A : forall k v, In k settable -> dget l k = Some v -> attribute k t = Some v) by (intros k v; now apply (turbine_type_attr (lit "TBLFile"))).
  assert (A1 := A (lit "H") (PNum H) ltac:(unfold settable; cbn; tauto) eq_refl). assert (A2 := A (lit "D") (PNum D) ltac:(unfold settable; cbn; tauto) eq_refl).
  assert (A3 := A (lit "P_nominal") (PNum (P * 1000)) ltac:(unfold settable; cbn; tauto) eq_refl). assert (A4 := A (lit "P_unit") (PText (lit "kW")) ltac:(unfold settable; cbn; tauto) eq_refl).
  cbn in A1, A2, A3, A4. injection A1 as A1. injection A2 as A2. injection A3 as A3. injection A4 as A4.
  split; [exact A1|split; [exact A2|]]. unfold nominal_watts. rewrite A3, A4. cbn. f_equal. ring.
Qed.
Print Assumptions C199_tbl_partial.
Example C199_nonvacuous : let f := lit "NREL-5MW-D126-H90.csv" in
  pct_file (File f) [(lit "H", PNum 100)] = Ok (mkttype (PText (lit "NREL-5MW")) (PNum (rdec (126%Z, 0%nat))) (PNum 100) (PNum (rdec (5000%Z, 0%nat))) (PText (lit "kW"))) /\
  pct_from_two (File f) (File f) [(lit "H", PNum 100); (lit "no such", PNone)] = Ok (mkttype (PText (lit "NREL-5MW")) (PNum (rdec (126%Z, 0%nat))) (PNum (rdec (90%Z, 0%nat))) (PNum (rdec (5000%Z, 0%nat))) (PText (lit "kW"))).
Proof. split; reflexivity. Qed.

(** ** C200: power and thrust from power and thrust coefficients *)

(** A turbine type of one file with cp and ct cannot be used in any calculation, whatever the file contains ... *)
Theorem C200_one_file_refuted s tab rho kw c : cpct_file s tab rho kw = Ok c -> (forall v, ~ In (lit "col_ct", v) kw) -> cpct_load c = Err KeyError.
Proof.
  intros H N. assert (Q : forall d, dget d (lit "col_ct") = None -> forall u, (forall v, ~ In (lit "col_ct", v) u) -> dget (@dupdate pval d u) (lit "col_ct") = None).
  { intros d Hd u Hu. rewrite dget_dupdate_in, Hd. destruct (dget (rev u) (lit "col_ct")) eqn:E; [|reflexivity]. apply dget_some_in in E. apply in_rev in E. now apply Hu in E. }
  assert (C : exists p, dget p (lit "col_ct") = None /\ (do a <- cp_args p; let '(D, f, u) := a in do tab <- power_table rho D f tab;
     let col := match arg p (lit "col_ct") (PText (lit "ct")) with PText c => c | _ => [] end in
     do ty <- turbine_type (lit "CpCtFile") (dput (dpop (dpop p (lit "P_unit")) (lit "col_ct")) (lit "P_unit") (PText u)); Ok (ty, tab, col)) = Ok c).
  { unfold cpct_file in H. destruct s as [|f].
    - exists kw. split; [|exact H]. destruct (dget kw (lit "col_ct")) eqn:E; [|reflexivity]. apply dget_some_in in E. now apply N in E.
    - destruct (parse_name f) as [q|]; [|discriminate]. cbn [bind] in H. eexists. split; [|exact H]. apply Q; [|exact N].
      unfold as_dict. destruct (p_P q), (p_D q), (p_H q); reflexivity. }
  destruct C as (p & Cn & C). destruct (cp_args p) as [[[D0 f0] u]|]; [|discriminate]. cbn [bind] in C. destruct (power_table rho D0 f0 tab) as [pt|]; [|discriminate]. cbn [bind] in C.
  unfold arg in C. rewrite Cn in C. cbn zeta in C. destruct (turbine_type _ _) as [ty|]; [|discriminate]. cbn [bind] in C. injection C as <-. reflexivity.
Qed.
Print Assumptions C200_one_file_refuted.
(** ... and naming a thrust column only helps if it is that of the power coefficients or of the power. *)
Theorem C200_never_thrust_refuted c tab col : cpct_load c = Ok (tab, col) -> col = lit "cp" \/ col = lit "P".
Proof.
  destruct c as ((ty & t) & k). unfold cpct_load. destruct (seqb k (lit "cp")) eqn:A; cbn [orb].
  - intros [= <- <-]. left. now apply seqb_eq.
  - destruct (seqb k (lit "P")) eqn:B; [|discriminate]. intros [= <- <-]. right. now apply seqb_eq.
Qed.
Print Assumptions C200_never_thrust_refuted.
Lemma cp_curve_parts C L : forall t, cp_curve C L t -> sorted t /\ slopes L t /\ values_in 0 C t.
Proof.
  induction t as [|(x0, y0) t IH]; [intros _; split; [exact I|split; [exact I|intros ? ? []]]|].
  intros (A & B & D & E). destruct (IH E) as (S1 & S2 & S3). split; [|split].
  - destruct t as [|(x1, y1) t]; [exact I|]. destruct D. now split.
  - destruct t as [|(x1, y1) t]; [exact I|]. destruct D. now split.
  - intros x y [I|I]; [injection I as <- <-; exact B|now apply (S3 x)].
Qed.
(** From two tables: for speeds within the table the power is that of the wind through the rotor times cp, up to the
    spacing of the wind speeds used (at most 0.3 mm/s), and exactly so at those speeds; it is zero outside. *)
Theorem C200_two_tables_partial rho D unit x0 y0 t C L pt :
  let T := (x0, y0) :: t in let b := fst (last T (0, 0)) in
  0 <= rho -> 0 < unit -> 0 <= C -> 0 <= L -> cp_curve C L T -> 0.0002 <= b - x0 -> power_table rho D unit T = Ok pt ->
  (forall u, x0 <= u <= b -> exists y, interp pt u = Ok y /\
     Rabs (y - rotor_watts rho D (interp_from T u) u / unit) <= 0.5 * rho * (PI * (D / 2) ^ 2) / unit * (L * b ^ 3 + 3 * C * b ^ 2) * 0.0003) /\
  (forall u y, In (u, y) pt -> y = rotor_watts rho D (interp_from T u) u / unit /\ x0 <= u <= b) /\
  (forall u, u < x0 \/ b < u -> interp pt u = Ok 0).
Proof.
  intros T b Hr Hu HC HL CP Hb PT. destruct (cp_curve_parts C L T CP) as (S & Sl & V).
  assert (X0 : 0 <= x0) by apply CP.
  assert (M : ws_min T = x0) by (apply (fold_min_sorted t x0 y0 S)). assert (X : ws_max T = b) by (apply (fold_max_sorted t x0 y0 S)).
  assert (R0 : ws_min T <= ws_max T) by (rewrite M, X; lra).
  assert (N : (2 <= n_rows T)%nat).
  { destruct (n_rows_eq T R0) as (_ & Q). rewrite M, X in Q. assert (A : 2 <= (b - x0) / 0.0001).
    { apply Rmult_le_reg_r with 0.0001; [lra|]. unfold Rdiv. rewrite Rmult_assoc, Rinv_l by lra. lra. }
    assert (Z : INR 1 < INR (n_rows T)) by (cbn [INR]; lra). apply INR_lt in Z. lia. }
  assert (PT' : pt = map (fun j => (speed T j, exact_power rho D unit T (speed T j))) (seq 0 (n_rows T))).
  { unfold power_table in PT. unfold T at 1 in PT. rewrite (rows_ok rho D unit x0 y0 t S) in PT by (intros j I; apply in_seq in I; fold T; lia). now injection PT as <-. }
  destruct (rows_sorted rho D unit T R0 N (n_rows T) 0 ltac:(lia)) as (PS & PG). rewrite <- PT' in PS, PG.
  set (k := 0.5 * rho * (PI * (D / 2) ^ 2) / unit).
  assert (Hk : 0 <= k).
  { unfold k. apply Rmult_le_pos; [|left; now apply Rinv_0_lt_compat]. apply Rmult_le_pos; [lra|]. apply Rmult_le_pos; [left; apply PI_RGT_0|]. apply pow2_ge_0. }
  assert (EX : forall u, exact_power rho D unit T u = k * interp_from T u * u ^ 3) by (intros u; unfold exact_power, power_at, k; replace 0.5 with (/ 2) by lra; field; lra).
  assert (RW : forall u, rotor_watts rho D (interp_from T u) u / unit = exact_power rho D unit T u) by (intros u; unfold rotor_watts, exact_power, power_at; replace 0.5 with (/ 2) by lra; field; lra).
  assert (ROW : forall u y, In (u, y) pt -> y = exact_power rho D unit T u /\ x0 <= u <= b).
  { intros u y I. rewrite PT' in I. apply in_map_iff in I. destruct I as (j & E & J). apply in_seq in J. injection E as <- <-. split; [reflexivity|]. rewrite <- M at 1. rewrite <- X. apply speed_range; [assumption|lia]. }
  assert (HEAD : exists y r, pt = (x0, y) :: r).
  { rewrite PT'. destruct (n_rows T) as [|n] eqn:E; [lia|]. cbn [seq map]. assert (SP : speed T 0 = x0) by (unfold speed; cbn [INR]; rewrite M; ring). rewrite SP. eauto. }
  assert (LAST : fst (last pt (0, 0)) = b).
  { rewrite PT', last_map_seq by lia. cbn [fst]. destruct (step_bounds T R0 N) as (_ & E). now rewrite E. }
  destruct HEAD as (y1 & r & EP).
  split; [|split].
  - intros u U. exists (interp_from pt u). split.
    + rewrite EP. apply interp_inside. rewrite <- EP, LAST. lra.
    + rewrite RW. rewrite EP. rewrite EP in PS, PG, LAST. fold k.
      apply (interp_close (fun u => exact_power rho D unit T u) (k * (L * b ^ 3 + 3 * C * b ^ 2)) 0.0003 x0 b).
      * apply Rmult_le_pos; [assumption|]. assert (0 <= b ^ 3) by (apply pow_le; lra). assert (0 <= b ^ 2) by (apply pow_le; lra).
        assert (0 <= L * b ^ 3) by (apply Rmult_le_pos; lra). assert (0 <= 3 * C * b ^ 2) by (apply Rmult_le_pos; lra). lra.
      * lra.
      * intros v w Hv Hw. rewrite !EX. unfold T, b. apply power_lip; try assumption.
      * assumption.
      * assumption.
      * intros x y I. apply ROW. now rewrite EP.
      * rewrite LAST. exact U.
  - intros u y I. destruct (ROW u y I) as (A & B). rewrite RW. split; assumption.
  - intros u U. apply interp_outside; [rewrite EP; discriminate|]. destruct U as [U|U]; [left|right]; intros x y I; apply ROW in I; lra.
Qed.
Print Assumptions C200_two_tables_partial.
(** A table covering less than 0.1 mm/s, such as one with a single wind speed, gives no power curve at all. *)
Theorem C200_short_refuted rho D unit x0 y0 t : sorted ((x0, y0) :: t) -> fst (last ((x0, y0) :: t) (0, 0)) - x0 < 0.0001 ->
  power_table rho D unit ((x0, y0) :: t) = Ok [] /\ forall u, interp [] u = Err ValueError.
Proof.
  intros S H. split; [|reflexivity]. set (T := (x0, y0) :: t) in *. assert (M : ws_min T = x0) by (apply (fold_min_sorted t x0 y0 S)). assert (X : ws_max T = fst (last T (0, 0))) by (apply (fold_max_sorted t x0 y0 S)).
  assert (R0 : ws_min T <= ws_max T) by (rewrite M, X; now apply sorted_range).
  assert (N : n_rows T = 0%nat).
  { destruct (n_rows_eq T R0) as (Q & _). rewrite M, X in Q. assert (A : (fst (last T (0, 0)) - x0) / 0.0001 < 1).
    { apply Rmult_lt_reg_r with 0.0001; [lra|]. unfold Rdiv. rewrite Rmult_assoc, Rinv_l by lra. lra. }
    assert (Z : INR (n_rows T) < INR 1) by (cbn [INR]; lra). apply INR_lt in Z. lia. }
  unfold power_table, T. fold T. rewrite N. reflexivity.
Qed.
Print Assumptions C200_short_refuted.
(** The table is always made if the speeds increase, so that only the parameters can be wrong. *)
Theorem C200_table rho D unit x0 y0 t : sorted ((x0, y0) :: t) -> exists pt, power_table rho D unit ((x0, y0) :: t) = Ok pt.
Proof. intros S. unfold power_table. rewrite (rows_ok rho D unit x0 y0 t S) by (intros j I; apply in_seq in I; lia). eexists. reflexivity. Qed.
Print Assumptions C200_table.
Theorem C200_two_files_use f g tp tc rho kw t p c : cpct_from_two f g tp tc rho kw = Ok (t, p, c) -> c = tc /\
  exists D unit, t_D t = PNum D /\ (exists u, t_unit t = PText u /\ p_units u = Some unit) /\ power_table rho D unit tp = Ok p.
Proof.
  unfold cpct_from_two. destruct (two_pars f g kw) as [q|]; [|discriminate]. cbn [bind]. destruct (cp_args q) as [[[D fu] u]|] eqn:CA; [|discriminate]. cbn [bind].
  destruct (power_table rho D fu tp) as [pt|] eqn:PTE; [|discriminate]. cbn [bind]. destruct (turbine_type _ _) as [ty|] eqn:TT; [|discriminate]. cbn [bind]. intros [= <- <- <-].
  split; [reflexivity|]. exists D, fu.
  unfold cp_args in CA. destruct (dget q (lit "D")) as [[x| |]|] eqn:GD; try discriminate.
  assert (GU : p_units u = Some fu /\ x = D).
  { destruct (arg q (lit "P_unit") (PText (lit "kW"))) as [|s|]; try discriminate. destruct (p_units s) eqn:PU; [|discriminate]. injection CA as <- <- <-. now split. }
  destruct GU as (GU & ->). split; [|split; [exists u; split; [|exact GU]|exact PTE]].
  - assert (A := turbine_type_attr _ _ _ (lit "D") (PNum D) TT ltac:(unfold settable; cbn; tauto)). rewrite dget_dput, dget_pop in A. change (seqb (lit "P_unit") (lit "D")) with false in A. cbn iota in A.
    specialize (A GD). cbn in A. now injection A as ->.
  - assert (A := turbine_type_attr _ _ _ (lit "P_unit") (PText u) TT ltac:(unfold settable; cbn; tauto)). rewrite dget_dput, seqb_refl in A. specialize (A eq_refl). cbn in A. now injection A as ->.
Qed.
Print Assumptions C200_two_files_use.
Example C200_nonvacuous : cp_curve 1 1 [(3, 0.3); (10, 0.4); (25, 0.1)] /\ (exists c, cpct_file Frame [(3, 0.3); (10, 0.4); (25, 0.1)] 1.225 [(lit "D", PNum 126)] = Ok c) /\
  exists c, cpct_from_two Frame Frame [(3, 0.3); (10, 0.4); (25, 0.1)] [(3, 0.8)] 1.225 [(lit "D", PNum 126); (lit "P_unit", PText (lit "MW"))] = Ok c.
Proof.
  assert (A : cp_curve 1 1 [(3, 0.3); (10, 0.4); (25, 0.1)]).
  { cbn. repeat split; try lra; [rewrite Rabs_pos_eq; lra|rewrite Rabs_left1; lra]. }
  split; [exact A|]. destruct (cp_curve_parts _ _ _ A) as (S & _). split.
  - destruct (C200_table 1.225 126 1000 3 0.3 [(10, 0.4); (25, 0.1)] S) as (pt & E). unfold cpct_file. cbn [bind]. change (cp_args [(lit "D", PNum 126)]) with (@Ok (R * R * str) (126, 1000, lit "kW")). cbn [bind]. rewrite E. eexists. reflexivity.
  - destruct (C200_table 1.225 126 1000000 3 0.3 [(10, 0.4); (25, 0.1)] S) as (pt & E). unfold cpct_from_two. cbn [two_pars bind]. change (cp_args [(lit "D", PNum 126); (lit "P_unit", PText (lit "MW"))]) with (@Ok (R * R * str) (126, 1000000, lit "MW")). cbn [bind]. rewrite E. eexists. reflexivity.
Qed.

(** ** C201: nominal power stated in a file name *)

(** It is right if no unit is given ... *)
Theorem C201_default_unit_partial f kw t q x : NoDup (map fst kw) -> dget kw (lit "P_unit") = None -> dget kw (lit "P_nominal") = None ->
  parse_name f = Ok q -> p_P q = Some x -> pct_file (File f) kw = Ok t -> nominal_watts t = Some (rdec x * 1000).
Proof.
  intros N U Pn E Px H. destruct (C199_one_file_partial f kw t N H) as (q' & E' & A). rewrite E in E'. injection E' as <-.
  destruct (A (lit "P_nominal") (PNum (rdec x)) ltac:(unfold settable; cbn; tauto)) as (_ & B). cbn in B. rewrite Px in B. specialize (B Pn eq_refl). injection B as B.
  unfold nominal_watts. rewrite B. unfold pct_file in H. rewrite E in H. cbn [bind] in H. unfold turbine_type in H. destruct (forallb _ _); [|discriminate].
  assert (D : arg (dupdate (as_dict q) kw) (lit "P_unit") (PText (lit "kW")) = PText (lit "kW")).
  { unfold arg. rewrite dget_dupdate_in, dget_rev, U, as_dict_get by (try assumption; unfold settable; cbn; tauto). reflexivity. }
  rewrite D in H. cbn in H. injection H as <-. reflexivity.
Qed.
Print Assumptions C201_default_unit_partial.
(** ... but with any other unit the same number is taken for that unit: 5MW in the name is 5000 MW with P_unit="MW". *)
Theorem C201_unit_refuted f kw t q x u : NoDup (map fst kw) -> dget kw (lit "P_unit") = Some (PText u) -> dget kw (lit "P_nominal") = None ->
  parse_name f = Ok q -> p_P q = Some x -> pct_file (File f) kw = Ok t -> exists s, p_units u = Some s /\ nominal_watts t = Some (rdec x * s).
Proof.
  intros N U Pn E Px H. destruct (C199_one_file_partial f kw t N H) as (q' & E' & A). rewrite E in E'. injection E' as <-.
  destruct (A (lit "P_nominal") (PNum (rdec x)) ltac:(unfold settable; cbn; tauto)) as (_ & B). cbn in B. rewrite Px in B. specialize (B Pn eq_refl). injection B as B.
  destruct (A (lit "P_unit") (PText u) ltac:(unfold settable; cbn; tauto)) as (C & _). specialize (C U). cbn in C. injection C as C.
  unfold pct_file in H. rewrite E in H. cbn [bind] in H. unfold turbine_type in H. destruct (forallb _ _); [|discriminate].
  assert (D : arg (dupdate (as_dict q) kw) (lit "P_unit") (PText (lit "kW")) = PText u).
  { unfold arg. rewrite dget_dupdate_in, dget_rev, U by assumption. reflexivity. }
  rewrite D in H. destruct (p_units u) as [s|] eqn:PU; [|discriminate]. exists s. split; [reflexivity|]. unfold nominal_watts. rewrite B, C, PU. reflexivity.
Qed.
Print Assumptions C201_unit_refuted.
Example C201_nonvacuous : exists t, pct_file (File (lit "NREL-5MW-D126-H90.csv")) [(lit "P_unit", PText (lit "MW"))] = Ok t /\ nominal_watts t = Some (rdec (5000%Z, 0%nat) * 1000000).
Proof. eexists. split; reflexivity. Qed.
