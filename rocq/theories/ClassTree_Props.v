(** C248: selecting classes by name. *)
From Coq Require Import String.
From Verif Require Import Base ClassTree_Model ClassTree_Spec ClassTree_Proofs.

(** all_subclasses: exactly the classes derived from the base, over any number of levels, also with several bases; not the base itself. *)
Theorem C248_all_subclasses tr c d : well_founded_tree tr -> (In d (all_subclasses tr c) <-> inherits tr d c).
Proof. exact (all_subclasses_spec tr c d). Qed.
Print Assumptions C248_all_subclasses.
Theorem C248_base_is_not_its_subclass tr c : well_founded_tree tr -> ~ In c (all_subclasses tr c).
Proof. intros W H. apply (all_subclasses_spec tr c c W) in H. apply (inherits_lt tr c c W) in H. lia. Qed.
Print Assumptions C248_base_is_not_its_subclass.
(** The selected class is derived from the base and has the name; if there is none it is a KeyError; no name, no class. *)
Theorem C248_selected tr base it n : well_founded_tree tr -> iterates it (fun x => In x (all_subclasses tr base)) ->
  match new_cls tr it (Some n) with
  | Ok (Some d) => inherits tr d base /\ name_of tr d = Some n
  | Ok None => False
  | Err e => e = KeyError /\ forall d, inherits tr d base -> name_of tr d <> Some n
  end.
Proof. exact (new_cls_spec tr base it n). Qed.
Print Assumptions C248_selected.
Theorem C248_no_name tr it : new_cls tr it None = Ok None.
Proof. reflexivity. Qed.
Print Assumptions C248_no_name.
(** If the name is given once below the base, the result is that class, whatever the order of python's set. *)
Theorem C248_one_name tr base it n d : well_founded_tree tr -> iterates it (fun x => In x (all_subclasses tr base)) -> one_name tr base n ->
  inherits tr d base -> name_of tr d = Some n -> new_cls tr it (Some n) = Ok (Some d).
Proof. exact (new_cls_unique tr base it n d). Qed.
Print Assumptions C248_one_name.
(** Classes defined later, under other names, change nothing. *)
Theorem C248_later_classes tr ext base it it' n : well_founded_tree (tr ++ ext) ->
  iterates it (fun x => In x (all_subclasses tr base)) -> iterates it' (fun x => In x (all_subclasses (tr ++ ext) base)) ->
  one_name tr base n -> (forall k, In k ext -> c_name k <> n) -> new_cls (tr ++ ext) it' (Some n) = new_cls tr it (Some n).
Proof.
  intros W I I' O N. pose proof (wf_app _ _ W) as W0.
  assert (G : forall d, name_of (tr ++ ext) d = Some n -> d < List.length tr).
  { intros d H. destruct (Nat.lt_ge_cases d (List.length tr)) as [L|L]; [exact L|]. unfold name_of in H. rewrite nth_error_app2 in H by exact L.
    destruct (nth_error ext (d - List.length tr)) as [k|] eqn:E; [|discriminate]. cbn in H. injection H as H. apply nth_error_In in E. now destruct (N k E). }
  pose proof (new_cls_spec tr base it n W0 I) as S. destruct (new_cls tr it (Some n)) as [[d|]|e].
  - destruct S as (S1 & S2). pose proof (inherits_def _ _ _ S1) as L. apply (new_cls_unique (tr ++ ext) base it' n d W I').
    + intros a b Ha Hb Na Nb. pose proof (G a Na) as La. pose proof (G b Nb) as Lb. rewrite name_app in Na, Nb by assumption. apply inherits_app in Ha; auto. apply inherits_app in Hb; auto.
    + now apply inherits_app.
    + now rewrite name_app.
  - destruct S.
  - destruct S as (-> & S). pose proof (new_cls_spec (tr ++ ext) base it' n W I') as S'. destruct (new_cls (tr ++ ext) it' (Some n)) as [[d|]|e].
    + destruct S' as (S1 & S2). pose proof (G d S2) as L. rewrite name_app in S2 by exact L. apply inherits_app in S1; auto. now destruct (S d S1).
    + destruct S'. + now destruct S' as (-> & _).
Qed.
Print Assumptions C248_later_classes.
(** Two classes of the same name (e.g. a user's class named like one of foxes): which one is selected depends on the order of a python set. *)
Theorem C248_same_name_refuted : exists tr it it' n, well_founded_tree tr /\ iterates it (fun x => In x (all_subclasses tr 0)) /\ iterates it' (fun x => In x (all_subclasses tr 0)) /\
  new_cls tr it (Some n) <> new_cls tr it' (Some n).
Proof.
  exists [ {| c_name := "States"; c_bases := [] |}; {| c_name := "Timeseries"; c_bases := [0] |}; {| c_name := "Timeseries"; c_bases := [1] |} ]%string, [1; 2], [2; 1], "Timeseries"%string.
  split; [intros [|[|[|c]]] b H; cbn in H; try tauto; [destruct H as [<-|[]]; lia|destruct H as [<-|[]]; lia|unfold bases_of in H; destruct c; destruct H]|].
  split; [intros x; vm_compute; tauto|]. split; [intros x; vm_compute; tauto|]. vm_compute. discriminate.
Qed.
Print Assumptions C248_same_name_refuted.

(** The engines of foxes: every short name selects an engine, the same as its full class name does, independent of the order of the set. *)
Lemma foxes_wf : well_founded_tree foxes_engines.
Proof. intros c b H. do 15 (destruct c as [|c]; [cbn in H; repeat (destruct H as [<-|H]; [lia|]); destruct H|]). unfold bases_of in H. replace (nth_error foxes_engines _) with (@None cls) in H; [destruct H|]. symmetry. apply nth_error_None. cbn. lia. Qed.
Lemma foxes_below d : inherits foxes_engines d 0 -> In d (seq 1 14).
Proof. intros H. pose proof (inherits_lt _ _ _ foxes_wf H). pose proof (inherits_def _ _ _ H). apply in_seq. cbn in *. lia. Qed.
Lemma foxes_one_name n : one_name foxes_engines 0 n.
Proof.
  intros d e Hd He Nd Ne. apply foxes_below in Hd, He. assert (E : name_of foxes_engines d = name_of foxes_engines e) by congruence. clear Nd Ne.
  cbn [seq In] in Hd, He.
  repeat (destruct Hd as [<-|Hd]; [repeat (destruct He as [<-|He]; [first [reflexivity|discriminate E]|]); destruct He|]); destruct Hd.
Qed.
Theorem C248_engine_names it n d : iterates it (fun x => In x (all_subclasses foxes_engines 0)) ->
  In (n, d) [(None, 14); (Some "default", 14); (Some "threads", 5); (Some "process", 6); (Some "xarray", 10); (Some "dask", 11); (Some "multiprocess", 2); (Some "local_cluster", 12);
             (Some "slurm_cluster", 13); (Some "mpi", 7); (Some "ray", 8); (Some "numpy", 3); (Some "single", 4);
             (Some "DefaultEngine", 14); (Some "ThreadsEngine", 5); (Some "ProcessEngine", 6); (Some "XArrayEngine", 10); (Some "DaskEngine", 11); (Some "MultiprocessEngine", 2); (Some "LocalClusterEngine", 12);
             (Some "SlurmClusterEngine", 13); (Some "MPIEngine", 7); (Some "RayEngine", 8); (Some "NumpyEngine", 3); (Some "SingleChunkEngine", 4)]%string ->
  new_engine foxes_engines it n = Ok (Some d).
Proof.
  intros I H. unfold new_engine. apply (new_cls_unique foxes_engines 0 it _ d foxes_wf I (foxes_one_name _)).
  - apply all_subclasses_spec; [exact foxes_wf|]. cbn [In] in H. repeat (destruct H as [H|H]; [injection H as <- <-; vm_compute; tauto|]). destruct H.
  - cbn [In] in H. repeat (destruct H as [H|H]; [injection H as <- <-; reflexivity|]). destruct H.
Qed.
Print Assumptions C248_engine_names.
Example C248_nonvacuous : iterates [14; 9; 4; 3; 1; 2; 5; 6; 7; 8; 10; 11; 12; 13] (fun x => In x (all_subclasses foxes_engines 0)) /\ inherits foxes_engines 7 1 /\ new_cls foxes_engines [14; 9; 4; 3; 1; 2; 5; 6; 7; 8; 10; 11; 12; 13] (Some "Engine"%string) = Err KeyError.
Proof.
  split; [intros x; vm_compute; tauto|]. split; [|reflexivity]. apply inh_step with 6; [cbn; tauto|]. apply inh_step with 5; [cbn; tauto|]. apply inh_direct. cbn. tauto.
Qed.
