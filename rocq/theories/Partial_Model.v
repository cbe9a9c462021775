(** Finalisation of partial wakes, one variable, one state, one target turbine; lists run over points. *)
From Verif Require Import RBase.
Local Open Scope R_scope.

(** np.einsum("sp,p->s", a, w): weighted sum over points. models/partial_wakes/segregated.py:153-163 *)
Definition wsum (w a : list R) : R := rsum (map (fun wa => fst wa * snd wa) (combine w a)).

Section Fin.
  (** wmodel.finalize_wake_deltas for one element: final delta from the ambient value and the accumulated delta *)
  Variable fin : R -> R -> R.

  (** models/partial_wakes/rotor_points.py:94-104 with algorithms/downwind/models/farm_wakes_calc.py:85-95: the values at the rotor points;
      one accumulated delta per rotor point (get_wake_points returns the rotor points, lines 37-40) *)
  Definition rotor_points_result (amb delta : list R) : list R := map (fun ad => fst ad + fin (fst ad) (snd ad)) (combine amb delta).

  (** models/partial_wakes/segregated.py:142-157: the ambient values used for the partial wake points. Equal numbers of points: those at the
      rotor points, taken in the order of enumeration; otherwise the rotor mean for each point. *)
  Definition seg_ares (w amb : list R) (n : nat) : list R := if (length w =? n)%nat then amb else repeat (wsum w amb) n.
  (** models/partial_wakes/segregated.py:159-166: the mean delta, the same at all rotor points; [g], [delta]: weights and accumulated deltas
      of the partial wake points *)
  Definition seg_delta (w amb g delta : list R) : R :=
    wsum g (map (fun ad => fin (fst ad) (snd ad)) (combine (seg_ares w amb (length g)) delta)).
  (** farm_wakes_calc.py:93-95: added at every rotor point *)
  Definition segregated_result (w amb g delta : list R) : list R := map (fun a => a + seg_delta w amb g delta) amb.
End Fin.

(** algorithms/downwind/downwind.py:748-775: the part of calc_points before the calculation that reads [farm_results]; [n_states] is its
    number of states. [None]: python's None. isel / sel / sizes are attributes of a data set. *)
Definition calc_points_prepare (farm_results : option nat) (ambient has_isel has_sel : bool) : result nat :=
  if negb ambient && (match farm_results with None => true | _ => false end) then Err ValueError else
  match farm_results with
  | None => Err AttributeError
  | Some n => Ok n
  end.
