(** Specification vocabulary for sums of floats. *)
From Coq Require Import Reals List.
From Verif Require Import RBase Superp_Model Float_Model FloatSum_Model.
Import ListNotations.
Local Open Scope R_scope.
(** the values that the wakes add, one for each turbine whose wake includes the point *)
Definition terms (fpow : R -> R -> R) (s : superp) (cs : list contrib) : list R := flat_map (fun c => match c with None => [] | Some (scale, r) => [f_term fpow s scale r] end) cs.
(** the sum of their absolute values *)
Definition total (l : list R) : R := rsum (map Rabs l).
(** wake model results are floats *)
Definition floats (cs : list contrib) : Prop := forall scale r, In (Some (scale, r)) cs -> is_float r.
(** the superpositions that take the maximum of wake effects; all others add them *)
Definition takes_max (s : superp) : Prop := s = WSMax \/ s = WSMaxLocal \/ s = TIMax.
