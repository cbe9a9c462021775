(** C229: under-relaxation in the iterative algorithm. *)
From Coq Require Import String.
From Verif Require Import Base URelax_Model.
Open Scope list_scope.

(** some entry point has variables *)
Definition in_use (u : option urel) : Prop := exists d e, u = Some d /\ d e = true.

Lemma relax_err {X} (rest : X -> result X) x : relax rest x = Err TypeError.
Proof. reflexivity. Qed.
Lemma run_relax {X} other rest (l : list mdl) : (In Relax l \/ In (Wakes true) l) -> forall x : X, exists e, run other rest l x = Err e.
Proof.
  induction l as [|m q IH]; intros H x; [destruct H as [[]|[]]|]. cbn [run].
  assert (C : (m = Relax \/ m = Wakes true) \/ (In Relax q \/ In (Wakes true) q)) by (destruct H as [[H|H]|[H|H]]; subst; tauto).
  destruct C as [[-> | ->]|C].
  - exists TypeError. reflexivity.
  - cbn [step]. destruct (other (Wakes true) x) as [y|e]; cbn [bind]; eexists; reflexivity.
  - destruct (step other rest m x) as [y|e]; cbn [bind]; [now apply IH|now exists e].
Qed.
Lemma run_good {X} other rest (l : list mdl) : (forall m x, exists y, other m x = Ok y) -> (In Relax l \/ In (Wakes true) l) -> forall x : X, run other rest l x = Err TypeError.
Proof.
  intros W. induction l as [|m q IH]; intros H x; [destruct H as [[]|[]]|]. cbn [run].
  assert (C : (m = Relax \/ m = Wakes true) \/ (m <> Relax /\ m <> Wakes true /\ (In Relax q \/ In (Wakes true) q))).
  { destruct m as [b| | | |[|]| |]; try (left; tauto); right; repeat split; try discriminate; destruct H as [[H|H]|[H|H]]; try discriminate; tauto. }
  destruct C as [[-> | ->]|(N1 & N2 & C)].
  - reflexivity.
  - cbn [step]. destruct (W (Wakes true) x) as (y & ->). reflexivity.
  - assert (E : exists y, step other rest m x = Ok y).
    { destruct (W m x) as (y & E). exists y. destruct m as [b| | | |[|]| |]; cbn [step]; try exact E; congruence. }
    destruct E as (y & ->). cbn [bind]. now apply IH.
Qed.
(** C229: if a variable is under-relaxed anywhere, the first iteration raises, for all data and all other models *)
Theorem C229_never_runs_refuted {X} (other : mdl -> X -> result X) rest u ambient x : in_use u -> exists e, iterate other rest u ambient x = Err e.
Proof.
  intros (d & e & -> & H). unfold iterate, first_list.
  destruct ambient, (d First) eqn:E1, (d PreRotor) eqn:E2, (d PostRotor) eqn:E3, (d PreWake) eqn:E4, (d Last) eqn:E5;
    try (exfalso; destruct e; congruence);
    cbv [plain insert set_relax app firstn skipn nth_error Nat.add bind fst];
    try (eexists; reflexivity); apply run_relax; cbn [In]; tauto.
Qed.
(** ... and with all other models running well it is a TypeError: the call inside of the under-relaxation has an unknown argument *)
Theorem C229_type_error_refuted {X} (other : mdl -> X -> result X) rest u x : (forall m y, exists z, other m y = Ok z) -> in_use u ->
  iterate other rest u false x = Err TypeError.
Proof.
  intros W (d & e & -> & H). unfold iterate, first_list.
  destruct (d First) eqn:E1, (d PreRotor) eqn:E2, (d PostRotor) eqn:E3, (d PreWake) eqn:E4, (d Last) eqn:E5;
    try (exfalso; destruct e; congruence);
    cbv [plain insert set_relax app firstn skipn nth_error Nat.add bind fst];
    (apply run_good; [exact W|cbn [In]; tauto]).
Qed.
(** ... without under-relaxed variables the models are those of the Downwind algorithm *)
Theorem C229_unused u ambient : ~ in_use u -> first_list u ambient = Ok (plain ambient, false).
Proof.
  intros N. destruct u as [d|]; [|reflexivity]. assert (F : forall e, d e = false) by (intros e; destruct (d e) eqn:E; [elim N; now exists d, e|reflexivity]).
  unfold first_list. now rewrite !F.
Qed.
(** ... under-relaxation is where its entry point says: before all models, before the rotor, after the turbine models, inside of the wake calculation, at the end *)
Theorem C229_places d : exists l r, first_list (Some d) false = Ok (l, r) /\
  l = (if d First then [Relax] else []) ++ [Ctrl true; Init] ++ (if d PreRotor then [Relax] else []) ++ [Rotor; Ctrl false]
      ++ (if d PostRotor then [Relax] else []) ++ [SetAmb; Wakes (d PreWake)] ++ (if d Last then [Relax] else [])
  /\ r = (d First || d PreRotor || d PostRotor)%bool.
Proof.
  unfold first_list. destruct (d First), (d PreRotor), (d PostRotor), (d PreWake), (d Last); do 2 eexists; repeat split.
Qed.
(** ... parameters of several calls are collected; unknown entry points and initialized algorithms are rejected *)
Theorem C229_set u e e' vars : exists d, set_urelax false (Some e) vars u = Ok (Some d) /\
  (d e' = true <-> (exists d0, u = Some d0 /\ d0 e' = true) \/ (e = e' /\ vars = true)).
Proof.
  eexists. split; [reflexivity|]. cbv beta. destruct u as [d0|].
  - assert (Q : (exists d1, Some d0 = Some d1 /\ d1 e' = true) <-> d0 e' = true) by (split; [intros (d1 & E & H); congruence|intros H; now exists d0]).
    rewrite Q. destruct e, e'; rewrite ?Bool.orb_true_iff; split; intros H; try tauto; destruct H as [H|(H & _)]; try exact H; discriminate.
  - assert (Q : ~ exists d1, @None urel = Some d1 /\ d1 e' = true) by (intros (d1 & E & _); discriminate).
    destruct e, e'; cbn [orb]; split; intros H; try tauto; try discriminate; destruct H as [H|(H & H')]; try tauto; discriminate.
Qed.
Theorem C229_rejected u e vars : set_urelax true e vars u = Err ValueError /\ set_urelax false None vars u = Err KeyError.
Proof. split; reflexivity. Qed.
Print Assumptions C229_never_runs_refuted.
Print Assumptions C229_type_error_refuted.
Print Assumptions C229_unused.
Print Assumptions C229_places.
Print Assumptions C229_set.
Print Assumptions C229_rejected.
Example C229_witness : exists u, set_urelax false (Some PostRotor) true None = Ok u /\ in_use u
  /\ iterate (fun _ x => Ok (S x)) (fun x => Ok x) u false 0 = Err TypeError /\ iterate (fun _ x => Ok (S x)) (fun x => Ok x) None false 0 = Ok 6.
Proof. eexists. split; [reflexivity|]. split; [eexists _, PostRotor; split; reflexivity|]. split; reflexivity. Qed.
