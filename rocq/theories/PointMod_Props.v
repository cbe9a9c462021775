(** C263: ready-made point models for turbulence and uniform data. *)
From Coq Require Import String Lra.
From Verif Require Import RBase Data_Model Data_Proofs ModelList_Model ModelList_Proofs Mirror_Model PointMod_Model PointMod_Spec PointMod_Proofs.
Local Open Scope string_scope.
Local Open Scope R_scope.
Local Open Scope list_scope.
Local Notation length := List.length.

(** REFUTED: no calculation with the model "tke2ti" in the list of point models, at any depth, ever returns *)
Theorem C263_tke_refuted m : uses tke2ti_model m -> forall p pdata r, calculate None m p pdata <> Ok r.
Proof. apply uses_never. intros p fd r. cbn. discriminate. Qed.
Print Assumptions C263_tke_refuted.
(** REFUTED: its formula would give one and a half times the turbulence intensity of isotropic turbulence of that energy *)
Theorem C263_tke_formula_refuted k ws ti : isotropic k ws ti -> 0 < ti -> tke2ti k ws = 3 / 2 * ti /\ tke2ti k ws > ti.
Proof. intros H Ht. rewrite (iso_formula _ _ _ H). lra. Qed.
Print Assumptions C263_tke_formula_refuted.
(** proved: "ustar2ti" at the end of a list sets the turbulence intensity from the friction velocity and wind speed that the models before it
    provide, and leaves all their other variables as they are *)
Theorem C263_ustar_partial ms pdata f c us ws : calculate None (MList ms) PEmpty pdata = Ok (f, c) ->
  lookup "USTAR" f = Some us -> lookup "WS" f = Some ws -> 0 < ws ->
  exists f' c' ti, calculate None (MList (ms ++ [ustar2ti_model None])) PEmpty pdata = Ok (f', c') /\
    lookup "TI" c' = Some ti /\ us = ti * ws * (41 / 100) /\
    (forall v, v <> "TI" -> In v (outputs (MList ms)) -> lookup v c' = lookup v c) /\ (forall v, v <> "TI" -> lookup v f' = lookup v f).
Proof.
  intros H Hu Hw Hp.
  assert (Hc : ustar2ti_calc None f PEmpty = Ok [("TI", us / kappa / ws)]).
  { unfold ustar2ti_calc. cbn. unfold item. rewrite Hu. cbn. rewrite Hw. reflexivity. }
  destruct (chain_last None ms "TI" (ustar2ti_calc None) (repeat PEmpty (length ms)) pdata f c _ (repeat_length _ _) H Hc) as (f' & c' & E & Ht & -> & Ho).
  exists (store "TI" (us / kappa / ws) f), c', (us / kappa / ws). split; [|split; [exact Ht|split; [unfold kappa; field; lra|split; [exact Ho|]]]].
  - assert (Er : repeat PEmpty (length ms) ++ [PEmpty] = repeat PEmpty (length (ms ++ [ustar2ti_model None]))).
    { rewrite app_length. cbn [List.length]. rewrite Nat.add_1_r. symmetry. apply (repeat_cons (length ms) PEmpty). }
    fold (ustar2ti_model None) in E. rewrite Er in E. exact E.
  - intros v Hv. apply lookup_store_ne. exact Hv.
Qed.
Print Assumptions C263_ustar_partial.
(** proved: without a friction velocity among the variables at the points, the calculation raises KeyError *)
Theorem C263_missing ms pdata f c lim : calculate None (MList ms) PEmpty pdata = Ok (f, c) -> lookup "USTAR" f = None ->
  calculate None (MList (ms ++ [ustar2ti_model lim])) PEmpty pdata = Err KeyError.
Proof.
  intros H Hu.
  assert (Er : repeat PEmpty (length (ms ++ [ustar2ti_model lim])) = repeat PEmpty (length ms) ++ [PEmpty]).
  { rewrite app_length. cbn [List.length]. rewrite Nat.add_1_r. apply (repeat_cons (length ms) PEmpty). }
  change (calculate None (MList (ms ++ [ustar2ti_model lim])) (PList (Some (repeat PEmpty (length (ms ++ [ustar2ti_model lim]))))) pdata = Err KeyError).
  rewrite Er, calculate_list by (rewrite !app_length, repeat_length; reflexivity).
  change (calculate None (MList ms) (PList (Some (repeat PEmpty (length ms)))) pdata = Ok (f, c)) in H.
  rewrite calculate_list in H by apply repeat_length.
  rewrite run_seq_app by apply repeat_length. destruct (run_seq None ms _ pdata) as [f0|]; [|discriminate].
  destruct (collect f0 _); [|discriminate]. injection H as -> _. cbn. unfold ustar2ti_calc. cbn. unfold item. rewrite Hu. reflexivity.
Qed.
Print Assumptions C263_missing.
(** REFUTED: a model for uniform data can never be initialised, whatever data it is given *)
Theorem C263_uniform_refuted A (load : result A) : initialize set_uniform_attrs load = Err AttributeError /\ initialize ustar2ti_attrs load = load.
Proof. split; reflexivity. Qed.
Print Assumptions C263_uniform_refuted.

Example C263_nonvacuous :
  let st := Elem ["WS"; "USTAR"; "TI"] (fun _ _ => Ok [("WS", 10); ("USTAR", 41 / 100); ("TI", 0)]) in
  (exists f c, calculate None (MList [st]) PEmpty [] = Ok (f, c) /\ lookup "USTAR" f = Some (41 / 100) /\ lookup "WS" f = Some 10) /\
  (exists f c ti, calculate None (MList [st; ustar2ti_model None]) PEmpty [] = Ok (f, c) /\ lookup "TI" c = Some ti /\ ti = / 10) /\
  uses tke2ti_model (MList [st; MList [tke2ti_model]]) /\ isotropic 6 10 (/ 5).
Proof.
  split; [|split; [|split]].
  - do 2 eexists. split; [reflexivity|split; reflexivity].
  - do 3 eexists. split; [cbn; reflexivity|split; [cbn; reflexivity|]]. unfold ustar2ti, kappa. lra.
  - eapply uses_in; [right; left; reflexivity|]. eapply uses_in; [left; reflexivity|]. apply uses_self.
  - exists 2. split; [lra|split; lra].
Qed.
