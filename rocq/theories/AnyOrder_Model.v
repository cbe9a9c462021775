(** Model of the farm calculation for one state with a given processing order of the turbines. The order comes from the
    wake frame: models/wake_frames/rotor_wd.py:62-66 sorts by the along-wind coordinate, models/wake_frames/farm_order.py:72-97
    takes the order of the farm. Simplifications as in FarmWakes_Model. *)
From Verif Require Export Base Order_Model FarmWakes_Model.
Section AnyOrder.
  Context {T F D W : Type}.
  Variable amb : T -> W.
  Variable ev : T -> W -> F.
  Variables (dT : T) (dF : F) (d0 : D).
  (** algorithms/downwind/models/init_farm_data.py:114-137 (apply the order), the wake calculation, reorder_farm_output.py:73-86 *)
  Definition calc_with (ws : list (@wmodel T F D W)) (farm : list T) (order : list nat) : result (list F) :=
    do r <- calc_downwind amb ev d0 ws (gather dT farm order);
    Ok (gather dF r (invert order)).
  (** models/wake_frames/farm_order.py:94-97: np.arange(n_turbines) *)
  Definition listed_order (farm : list T) : list nat := seq 0 (length farm).
End AnyOrder.
