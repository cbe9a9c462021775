(** Specification of turbines without effect on others (C230). *)
From Verif Require Import Base FarmWakes_Model.

Section S.
  Context {T F D W : Type}.
  Variable amb : T -> W.
  Variable ev : T -> W -> F.
  (** The turbines marked by [off] have no effect in any wake model, whatever wind they see: e.g. turbines whose thrust coefficient is zero, for which all wake
      models of foxes leave the deltas of the targets as they are (models/wake_models/top_hat.py:212, wind/bastankhah14.py:146, wind/bastankhah16.py:184,
      wind/turbopark.py:164,449, induction/self_similar.py:215,235, rathmann.py:199,220, vortex_sheet.py:183,206, rankine_half_body.py:201,212: the condition ct > 1e-8). *)
  Definition silent (off : T -> bool) (ws : list (@wmodel T F D W)) : Prop :=
    forall w, In w ws -> forall t x t' d, off t = true -> w_contrib w t (ev t x) t' d = d.
  (** the farm without these turbines *)
  Definition without (off : T -> bool) (ts : list T) : list T := filter (fun t => negb (off t)) ts.
  (** the results of the others *)
  Definition others (off : T -> bool) (ts : list T) (r : list F) : list F :=
    map snd (filter (fun p => negb (off (fst p))) (combine ts r)).
End S.
