(** What the results of a calculation should be, from the algorithm's own farm and states only. *)
From Coq Require Import String.
From Verif Require Import Base Shared_Model.
Open Scope string_scope.

(** the farm is fine: each turbine names exactly one turbine type, all other names are models *)
Definition good_farm (b : book) (a : algo) : Prop :=
  forall t, In t (a_turbs a) ->
    (exists n, filter (is_type b) (u_models t) = [n]) /\
    (forall n, In n (u_models t) -> is_type b n = true \/ b_model b n = true).

(** the states provide wind speed and direction, and no weights of their own *)
Definition good_states (a : algo) : Prop :=
  In "WS" (a_vars a) /\ In "WD" (a_vars a) /\ ~ In "weight" (a_vars a).

(** [n] is the turbine type of the turbine *)
Definition type_of (b : book) (t : turb) (n : string) (y : ttype) : Prop :=
  In n (u_models t) /\ b_type b n = Some y.

(** diameter and height of a turbine: its own, or those of its type *)
Definition own_dims (b : book) (t : turb) (dh : nat * nat) : Prop :=
  exists n y, type_of b t n y /\
    fst dh = match u_D t with Some d => d | None => t_D y end /\
    snd dh = match u_H t with Some h => h | None => t_H y end.

(** some turbine of the farm needs it *)
Definition farm_needs (b : book) (f : ttype -> bool) (a : algo) : Prop :=
  exists t n y, In t (a_turbs a) /\ type_of b t n y /\ f y = true.

(** the variable belongs to the rotor results of the algorithm *)
Definition own_var (b : book) (a : algo) (v : string) : Prop :=
  v = "REWS" \/ v = "weight" \/ (In v (a_vars a) /\ v <> "WS") \/
  (v = "REWS2" /\ farm_needs b t_r2 a) \/ (v = "REWS3" /\ farm_needs b t_r3 a).

(** a result that is right for the algorithm *)
Definition right (b : book) (a : algo) (r : result shown) : Prop :=
  exists ds vars, r = Ok (ds, vars) /\ Forall2 (own_dims b) (a_turbs a) ds /\
    (forall v, In v vars <-> own_var b a v).

(** two algorithms agree in what the shared objects remember *)
Definition same_types (b : book) (a c : algo) : Prop :=
  Forall2 (fun t u => filter (is_type b) (u_models t) = filter (is_type b) (u_models u)) (a_turbs a) (a_turbs c).
