(** The last part of combine_results: variables whose chunk results have size one in the target or turbine dimension (weights).
    core/engine.py:468-535, for one variable. *)
From Verif Require Import Base EngineRun_Model.

Section C.
  Context {Z : Type}.
  Variable d : Z.
  (** a variable of the resulting data set: with the state dimension only, or with state and target / turbine dimension *)
  Inductive dsvar := PerState (l : list Z) | Full (m : list (list Z)).
  (** reading it at a state and a target, with xarray's broadcasting of missing dimensions *)
  Definition read (v : dsvar) (s t : nat) : Z := match v with PerState l => nth s l d | Full m => nth t (nth s m []) d end.
  (** d.shape[1] of the combined array *)
  Definition width (m : list (list Z)) : nat := length (hd [] m).
  (** core/engine.py:519-525 (farm results) *)
  Definition reduce_turbines (n_turbines : nat) (m : list (list Z)) : dsvar :=
    if (width m =? 1) && (1 <? n_turbines) then PerState (map (fun r => nth 0 r d) m) else Full m.
  (** core/engine.py:526-531 (point results; the third dimension has size one) *)
  Definition reduce_targets (n_targets nct : nat) (m : list (list Z)) : dsvar :=
    if (nct <? n_targets) && (width m =? nct) then PerState (map (fun r => nth 0 r d) m) else Full m.
End C.
