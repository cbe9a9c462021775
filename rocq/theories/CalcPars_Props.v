(** C222: parameters of farm calculations. *)
From Coq Require Import String.
From Verif Require Import Base CalcPars_Model.
Open Scope string_scope.

(** what the user's entry for a model says *)
Definition user_dict (c : cpars) (h : heap) (name : string) : dict :=
  match cget name c with Some r => nth r h [] | None => [] end.

(** the dictionaries of the user are different objects, and exist *)
Definition proper (c : cpars) (h : heap) : Prop :=
  NoDup (map snd c) /\ forall n r, cget n c = Some r -> r < length h.

Lemma cget_in : forall c k r, cget k c = Some r -> In (k, r) c.
Proof.
  induction c as [|[k' r'] q IH]; intros k r E; cbn [cget] in E; [discriminate|].
  destruct (String.eqb k k') eqn:Q; [apply String.eqb_eq in Q; subst; left; congruence|right; auto].
Qed.

Lemma cget_apart : forall c k k' r, NoDup (map snd c) -> cget k c = Some r -> cget k' c = Some r -> k = k'.
Proof.
  intros c k k' r N A B. apply cget_in in A. apply cget_in in B.
  induction c as [|[x y] q IH]; [destruct A|]. cbn [map snd] in N. inversion N as [|? ? N1 N2]; subst.
  destruct A as [A|A], B as [B|B]; try congruence.
  - injection A as -> ->. exfalso. apply N1. change r with (snd (k', r)). apply in_map. exact B.
  - injection B as -> ->. exfalso. apply N1. change r with (snd (k, r)). apply in_map. exact A.
  - auto.
Qed.

Lemma hset_length : forall r f h, length (hset r f h) = length h.
Proof. intros r f h. revert r. induction h as [|d q IH]; intros [|r]; cbn [hset length]; congruence. Qed.

Lemma hset_same : forall r f h, r < length h -> nth r (hset r f h) [] = f (nth r h []).
Proof.
  intros r f h. revert r. induction h as [|d q IH]; intros [|r] L; cbn [hset nth length] in *; try lia; [reflexivity|].
  apply IH. lia.
Qed.

Lemma hset_other : forall r s f h, r <> s -> nth s (hset r f h) [] = nth s h [].
Proof.
  intros r s f h. revert r s. induction h as [|d q IH]; intros [|r] [|s] N; cbn [hset nth]; try lia; try reflexivity.
  apply IH. lia.
Qed.

(** the flags that later entries write into the object of a model *)
Fixpoint later (c : cpars) (name : string) (l : list mstep) (d : dict) : dict :=
  match l with
  | [] => d
  | s :: q =>
      later c name q (match m_flag s with
        | Some (k, v) => if String.eqb name (m_name s) then (match cget name c with Some _ => dput k v d | None => d end) else d
        | None => d end)
  end.

(** parameters of every entry of the list: the user's, with its own flag and, if the user gave them,
    with the flags of the later entries of the same model *)
Lemma collect_spec : forall c l h,
  NoDup (map snd c) -> (forall n r, cget n c = Some r -> r < length h) ->
  length (fst (collect c h l)) >= length h /\
  (forall n r, cget n c = Some r -> nth r (fst (collect c h l)) [] = later c n l (nth r h [])) /\
  (forall r, r < length h -> (forall n, cget n c <> Some r) -> nth r (fst (collect c h l)) [] = nth r h []) /\
  length (snd (collect c h l)) = length l /\
  (forall i s, nth_error l i = Some s ->
     match cget (m_name s) c with
     | Some r => nth_error (snd (collect c h l)) i = Some r
     | None => exists r, nth_error (snd (collect c h l)) i = Some r /\
         nth r (fst (collect c h l)) [] = match m_flag s with Some (k, v) => [(k, v)] | None => [] end
     end).
Proof.
  intros c l. induction l as [|s q IH]; intros h N P; cbn [collect fst snd].
  - repeat split; auto. intros i s E. destruct i; discriminate.
  - unfold get_pars. destruct (cget (m_name s) c) as [r|] eqn:G.
    + set (h2 := match m_flag s with Some (k, v) => hset r (dput k v) h | None => h end).
      assert (L2 : length h2 = length h) by (unfold h2; destruct (m_flag s) as [[k v]|]; [apply hset_length|reflexivity]).
      destruct (IH h2 N) as [I1 [I2 [I3 [I4 I5]]]]; [intros n x E; rewrite L2; eapply P; exact E|].
      destruct (collect c h2 q) as [h3 rs] eqn:C. cbn [fst snd] in *.
      split; [lia|]. split; [|split; [|split; [cbn; congruence|]]].
      * intros n x E. rewrite (I2 n x E). cbn [later]. f_equal. unfold h2. destruct (m_flag s) as [[k v]|]; [|reflexivity].
        destruct (String.eqb n (m_name s)) eqn:Q.
        -- apply String.eqb_eq in Q. subst n. rewrite E. assert (x = r) by congruence. subst x. apply hset_same. eapply P. exact E.
        -- apply hset_other. intros ->. rewrite (cget_apart c n (m_name s) x N E G), String.eqb_refl in Q. discriminate.
      * intros x Lx U. rewrite (I3 x) by (rewrite ?L2; assumption). unfold h2. destruct (m_flag s) as [[k v]|]; [|reflexivity].
        apply hset_other. intros ->. exact (U _ G).
      * intros [|i] t E; cbn [nth_error] in *; [|apply I5; exact E]. injection E as <-. rewrite G. reflexivity.
    + set (h2 := match m_flag s with Some (k, v) => hset (length h) (dput k v) (h ++ [[]])%list | None => (h ++ [[]])%list end).
      assert (L2 : length h2 = S (length h)).
      { unfold h2. destruct (m_flag s) as [[k v]|]; rewrite ?hset_length, app_length; cbn [length]; lia. }
      assert (O : forall x, x < length h -> nth x h2 [] = nth x h []).
      { intros x Lx. unfold h2. destruct (m_flag s) as [[k v]|]; rewrite ?hset_other by lia; apply app_nth1; exact Lx. }
      destruct (IH h2 N) as [I1 [I2 [I3 [I4 I5]]]]; [intros n x E; rewrite L2; specialize (P n x E); lia|].
      destruct (collect c h2 q) as [h3 rs] eqn:C. cbn [fst snd] in *.
      split; [lia|]. split; [|split; [|split; [cbn; congruence|]]].
      * intros n x E. rewrite (I2 n x E). cbn [later]. rewrite (O x (P n x E)). f_equal.
        destruct (m_flag s) as [[k v]|]; [|reflexivity].
        destruct (String.eqb n (m_name s)) eqn:Q; [|reflexivity].
        apply String.eqb_eq in Q. subst n. congruence.
      * intros x Lx U. rewrite (I3 x) by (rewrite ?L2; auto; lia). apply O. exact Lx.
      * intros [|i] t E; cbn [nth_error] in *; [|apply I5; exact E]. injection E as <-. rewrite G.
        exists (length h). split; [reflexivity|].
        rewrite (I3 (length h)); [|lia|intros n E; specialize (P n _ E); lia].
        unfold h2. destruct (m_flag s) as [[k v]|].
        -- rewrite hset_same by (rewrite app_length; cbn; lia). rewrite app_nth2, Nat.sub_diag by lia. reflexivity.
        -- rewrite app_nth2, Nat.sub_diag by lia. reflexivity.
Qed.

Lemma called_spec : forall c l h i s, proper c h -> nth_error l i = Some s ->
  nth_error (called c h l) i = Some (m_name s,
    match cget (m_name s) c with
    | Some r => later c (m_name s) l (nth r h [])
    | None => match m_flag s with Some (k, v) => [(k, v)] | None => [] end
    end).
Proof.
  intros c l h i s [N P] E. unfold called.
  destruct (collect_spec c l h N P) as [_ [I2 [_ [I4 I5]]]]. specialize (I5 i s E).
  destruct (collect c h l) as [h' rs]. cbn [fst snd] in *.
  assert (K : forall r, nth_error rs i = Some r -> nth_error (combine (map m_name l) (map (fun r => nth r h' []) rs)) i = Some (m_name s, nth r h' [])).
  { clear - E I4. revert rs i I4 E. induction l as [|t q IH]; intros [|r rs] [|i] L E x X; cbn in *; try discriminate; try lia.
    - congruence.
    - apply (IH rs i); auto; lia. }
  destruct (cget (m_name s) c) as [r|] eqn:G.
  - rewrite (K r I5). rewrite (I2 (m_name s) r G). reflexivity.
  - destruct I5 as [r [A B]]. rewrite (K r A), B. reflexivity.
Qed.

(** C222: if the user gives no parameters for the farm controller, then every model of the list is
    called with exactly the user's parameters for it, plus the flag that belongs to this call. *)
Theorem C222_own_parameters : forall ctrl rotor ambient keep c h i s,
  proper c h -> cget ctrl c = None -> rotor <> ctrl ->
  ~ In rotor ["InitFarmData"; "SetAmbFarmResults"; "FarmWakesCalculation"; "ReorderFarmOutput"] ->
  nth_error (steps ctrl rotor ambient keep) i = Some s ->
  nth_error (called c h (steps ctrl rotor ambient keep)) i =
  Some (m_name s, match m_flag s with Some (k, v) => dput k v (user_dict c h (m_name s)) | None => user_dict c h (m_name s) end).
Proof.
  intros ctrl rotor ambient keep c h i s P U NR NI E. rewrite (called_spec _ _ _ _ _ P E). f_equal. f_equal.
  unfold user_dict. destruct (cget (m_name s) c) as [r|] eqn:G; [|destruct (m_flag s) as [[k v]|]; reflexivity].
  assert (X : m_name s <> ctrl) by (intros XX; rewrite XX in G; congruence).
  assert (I1 : In s (steps ctrl rotor ambient keep)) by (eapply nth_error_In; exact E).
  assert (LT : forall l d, (forall t, In t l -> m_name s <> m_name t \/ m_flag t = None) -> later c (m_name s) l d = d).
  { induction l as [|t q IH]; intros d A; cbn [later]; [reflexivity|].
    rewrite IH by (intros t' T'; apply A; right; exact T').
    destruct (m_flag t) as [[k v]|] eqn:F; [|reflexivity].
    destruct (A t (or_introl eq_refl)) as [B|B]; [|congruence].
    apply String.eqb_neq in B. rewrite B. reflexivity. }
  assert (XR : String.eqb rotor ctrl = false) by (apply String.eqb_neq; exact NR).
  assert (XS : String.eqb (m_name s) ctrl = false) by (apply String.eqb_neq; exact X).
  destruct (String.eqb (m_name s) rotor) eqn:Q.
  - apply String.eqb_eq in Q.
    assert (m_flag s = Some ("store", 1)) as ->.
    { unfold steps in I1. cbn [In app] in I1.
      destruct I1 as [<-|[<-|[<-|[<-|[<-|I1]]]]]; cbn [m_name m_flag] in *; try reflexivity; try congruence.
      - exfalso. apply NI. rewrite <- Q. cbn. auto.
      - exfalso. apply NI. rewrite <- Q. cbn. auto.
      - exfalso. apply in_app_iff in I1.
        destruct I1 as [I1|I1]; [destruct ambient|destruct keep]; cbn in I1; try contradiction;
          destruct I1 as [<-|[]]; apply NI; cbn in Q; rewrite <- Q; cbn; auto. }
    rewrite Q in G |- *. unfold steps. cbn [app later m_flag m_name]. rewrite XR, String.eqb_refl, G.
    rewrite Q in LT.
    apply LT. intros t T. right. apply in_app_iff in T.
    destruct T as [T|T]; [destruct ambient|destruct keep]; cbn in T; try contradiction; destruct T as [<-|[]]; reflexivity.
  - assert (m_flag s = None) as ->.
    { apply String.eqb_neq in Q. unfold steps in I1. cbn [In app] in I1.
      destruct I1 as [<-|[<-|[<-|[<-|[<-|I1]]]]]; cbn [m_name m_flag] in *; try reflexivity; try congruence.
      apply in_app_iff in I1.
      destruct I1 as [I1|I1]; [destruct ambient|destruct keep]; cbn in I1; try contradiction; destruct I1 as [<-|[]]; reflexivity. }
    apply LT. intros t T. apply String.eqb_neq in Q.
    unfold steps in T. cbn [In app] in T.
    destruct T as [<-|[<-|[<-|[<-|[<-|T]]]]]; cbn [m_name m_flag]; auto.
    right. apply in_app_iff in T.
    destruct T as [T|T]; [destruct ambient|destruct keep]; cbn in T; try contradiction; destruct T as [<-|[]]; reflexivity.
Qed.

Lemma dlook_dput : forall k v d, dlook k (dput k v d) = Some v.
Proof.
  intros k v d. induction d as [|[k' v'] q IH]; cbn [dput dlook]; [rewrite String.eqb_refl; reflexivity|].
  destruct (String.eqb k k') eqn:E; cbn [dlook]; [rewrite String.eqb_refl; reflexivity|]. rewrite E. exact IH.
Qed.

(** lists of models *)
Lemma runs_list : forall ctrl rotor pre post ambient keep c h,
  proper c h -> rotor <> ctrl ->
  ~ In ctrl ["InitFarmData"; "SetAmbFarmResults"; "FarmWakesCalculation"; "ReorderFarmOutput"] ->
  runs ctrl rotor pre post ambient keep c h =
  ((match cget ctrl c with None => pre | Some _ => post end) ++ ["InitFarmData"; rotor] ++ post ++ ["SetAmbFarmResults"]
   ++ (if ambient then [] else ["FarmWakesCalculation"]) ++ (if keep then ["ReorderFarmOutput"] else []))%list.
Proof.
  intros ctrl rotor pre post ambient keep c h P NR NI.
  unfold runs.
  assert (L : length (called c h (steps ctrl rotor ambient keep)) = length (steps ctrl rotor ambient keep)).
  { unfold called. destruct P as [P1 P2]. destruct (collect_spec c (steps ctrl rotor ambient keep) h P1 P2) as [_ [_ [_ [I4 _]]]].
    destruct (collect c h (steps ctrl rotor ambient keep)) as [h' rs]. cbn [snd] in I4.
    rewrite combine_length, !map_length, I4. apply Nat.min_id. }
  assert (NC : forall n, In n ["InitFarmData"; "SetAmbFarmResults"; "FarmWakesCalculation"; "ReorderFarmOutput"] -> String.eqb n ctrl = false).
  { intros n I1. apply String.eqb_neq. intros ->. exact (NI I1). }
  assert (XR : String.eqb rotor ctrl = false) by (apply String.eqb_neq; exact NR).
  assert (XC : String.eqb ctrl rotor = false) by (apply String.eqb_neq; congruence).
  set (K := fun (s : mstep) => match cget (m_name s) c with
    | Some r => later c (m_name s) (steps ctrl rotor ambient keep) (nth r h [])
    | None => match m_flag s with Some (k, v) => [(k, v)] | None => [] end end).
  assert (M : called c h (steps ctrl rotor ambient keep) = map (fun s => (m_name s, K s)) (steps ctrl rotor ambient keep)).
  { apply nth_ext with (d := ("", [])) (d' := ("", [])); [rewrite map_length; exact L|].
    intros i Hi. rewrite L in Hi.
    destruct (nth_error (steps ctrl rotor ambient keep) i) as [s|] eqn:E; [|apply nth_error_None in E; lia].
    pose proof (called_spec c _ h i s P E) as S1.
    pose proof (map_nth_error (fun s => (m_name s, K s)) i _ E) as S2.
    etransitivity; [apply nth_error_nth; exact S1|]. symmetry. apply nth_error_nth. exact S2. }
  rewrite M.
  assert (FL : forall l, (forall s, In s l -> String.eqb (m_name s) ctrl = false) ->
    flat_map (fun nd => if String.eqb (fst nd) ctrl then ctrl_runs pre post (snd nd) else [fst nd]) (map (fun s => (m_name s, K s)) l) = map m_name l).
  { induction l as [|s q IH]; intros A; cbn [map flat_map fst]; [reflexivity|].
    rewrite (A s (or_introl eq_refl)). cbn [app]. f_equal. apply IH. intros t T. apply A. right. exact T. }
  assert (W : exists tail, steps ctrl rotor ambient keep =
    (mkmstep ctrl (Some ("pre_rotor", 1)) :: mkmstep "InitFarmData" None :: mkmstep rotor (Some ("store", 1)) ::
     mkmstep ctrl (Some ("pre_rotor", 0)) :: tail)%list /\
     (forall s, In s tail -> String.eqb (m_name s) ctrl = false /\ m_flag s = None) /\
     map m_name tail = (["SetAmbFarmResults"] ++ (if ambient then [] else ["FarmWakesCalculation"]) ++ (if keep then ["ReorderFarmOutput"] else []))%list).
  { eexists. split; [reflexivity|]. split; [|destruct ambient, keep; reflexivity].
    intros s I1. destruct ambient, keep; cbn in I1; intuition; subst; cbn [m_name m_flag]; auto; apply NC; cbn; auto. }
  destruct W as [tail [W [T1 T2]]].
  assert (KP : forall b, ctrl_runs pre post (K (mkmstep ctrl (Some ("pre_rotor", b)))) =
    match cget ctrl c with None => if Nat.eqb b 1 then pre else post | Some _ => post end).
  { intros b. unfold K. cbn [m_name m_flag]. destruct (cget ctrl c) as [r|] eqn:G.
    - rewrite W. cbn [later m_flag m_name]. rewrite G, String.eqb_refl, XC.
      assert (LT : forall l d, (forall t, In t l -> m_flag t = None) -> later c ctrl l d = d).
      { induction l as [|t q IH]; intros d A; cbn [later]; [reflexivity|].
        rewrite (A t (or_introl eq_refl)). apply IH. intros t' T'. apply A. right. exact T'. }
      rewrite LT by (intros t T; apply T1; exact T).
      unfold ctrl_runs. rewrite dlook_dput. reflexivity.
    - unfold ctrl_runs. cbn. destruct b as [|[|b]]; reflexivity. }
  rewrite W. cbn [map flat_map]. cbn [fst m_name].
  rewrite !String.eqb_refl, XR, (NC "InitFarmData" ltac:(cbn; auto)).
  cbn [snd]. rewrite !KP. rewrite FL by (intros s I1; apply T1; exact I1). rewrite T2.
  destruct (cget ctrl c); reflexivity.
Qed.

(** C222: without parameters for the controller, the pre-rotor turbine models run before the
    ambient data is set, and the post-rotor turbine models after the rotor model, once each. *)
Theorem C222_order : forall ctrl rotor pre post ambient keep c h,
  proper c h -> rotor <> ctrl ->
  ~ In ctrl ["InitFarmData"; "SetAmbFarmResults"; "FarmWakesCalculation"; "ReorderFarmOutput"] ->
  cget ctrl c = None ->
  runs ctrl rotor pre post ambient keep c h =
  (pre ++ ["InitFarmData"; rotor] ++ post ++ ["SetAmbFarmResults"]
   ++ (if ambient then [] else ["FarmWakesCalculation"]) ++ (if keep then ["ReorderFarmOutput"] else []))%list.
Proof. intros. rewrite runs_list by assumption. rewrite H2. reflexivity. Qed.

(** C222 REFUTED: as soon as the user gives any parameters for the controller, even none at all
    (an empty dictionary), the pre-rotor turbine models never run, and the post-rotor models run
    twice, first before there is any data. *)
Theorem C222_controller_parameters_refuted : forall ctrl rotor pre post ambient keep c h r,
  proper c h -> rotor <> ctrl ->
  ~ In ctrl ["InitFarmData"; "SetAmbFarmResults"; "FarmWakesCalculation"; "ReorderFarmOutput"] ->
  cget ctrl c = Some r ->
  runs ctrl rotor pre post ambient keep c h =
  (post ++ ["InitFarmData"; rotor] ++ post ++ ["SetAmbFarmResults"]
   ++ (if ambient then [] else ["FarmWakesCalculation"]) ++ (if keep then ["ReorderFarmOutput"] else []))%list.
Proof. intros. rewrite runs_list by assumption. rewrite H2. reflexivity. Qed.

(** hypotheses are met: parameters for the rotor, and an empty dictionary for the controller *)
Example C222_case :
  let c := [("centre", 0)] in let h := [[("downwind_index", 3)]] in
  proper c h /\ cget "basic_ctrl" c = None /\
  called c h (steps "basic_ctrl" "centre" false true) =
    [("basic_ctrl", [("pre_rotor", 1)]); ("InitFarmData", []); ("centre", [("downwind_index", 3); ("store", 1)]);
     ("basic_ctrl", [("pre_rotor", 0)]); ("SetAmbFarmResults", []); ("FarmWakesCalculation", []); ("ReorderFarmOutput", [])] /\
  runs "basic_ctrl" "centre" ["set_yaw"] ["NREL5MW"] false true c h =
    ["set_yaw"; "InitFarmData"; "centre"; "NREL5MW"; "SetAmbFarmResults"; "FarmWakesCalculation"; "ReorderFarmOutput"] /\
  runs "basic_ctrl" "centre" ["set_yaw"] ["NREL5MW"] false true [("basic_ctrl", 0)] [[]] =
    ["NREL5MW"; "InitFarmData"; "centre"; "NREL5MW"; "SetAmbFarmResults"; "FarmWakesCalculation"; "ReorderFarmOutput"].
Proof.
  cbv zeta. split; [|repeat split; reflexivity]. split; [repeat constructor; cbn; tauto|].
  intros n r E. cbn [cget] in E. destruct (String.eqb n "centre"); [injection E as <-; cbn; lia|discriminate].
Qed.

Print Assumptions C222_own_parameters.
Print Assumptions C222_order.
Print Assumptions C222_controller_parameters_refuted.
