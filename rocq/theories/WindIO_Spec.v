(** What windIO input should mean, independent of how it is read. *)
From Coq Require Import String.
From Verif Require Import RBase WindIO_Model.
Local Open Scope R_scope.

(** the resource [l] contains the entry [d] under the name [n], and nothing else that stands for
    the same foxes variable [v] *)
Definition only (l : list (wname * wdata)) (n : wname) (v : var) (d : wdata) : Prop :=
  In (n, d) l /\ wio2foxes n = Some v /\
  forall n' d', In (n', d') l -> wio2foxes n' = Some v -> n' = n /\ d' = d.
(** the resource says nothing about [v] *)
Definition silent (l : list (wname * wdata)) (v : var) : Prop :=
  forall n d, In (n, d) l -> wio2foxes n <> Some v.
(** matrices with [r] rows and [c] columns *)
Definition matrix (r c : nat) (m : list (list R)) : Prop :=
  List.length m = r /\ Forall (fun x => List.length x = c) m.
(** entry number j of row number i *)
Definition entry (m : list (list R)) (i j : nat) : option R :=
  match nth_error m i with Some r => nth_error r j | None => None end.

(** the name of the type of turbine number [i] of a layout *)
Inductive type_is (w : wfarm) (y : layout) (i : nat) (t : string) : Prop :=
| ti_single : w_types w = None -> l_types y = None -> t = w_turbines w -> type_is w y i t
| ti_zero ks : w_types w = None -> l_types y = Some ks -> nth_error ks i = Some (KInt 0) ->
    t = w_turbines w -> type_is w y i t
| ti_keyed tab ks k : w_types w = Some tab -> l_types y = Some ks -> nth_error ks i = Some k ->
    In (k, t) tab -> type_is w y i t.

(** the layout names a known type for every turbine *)
Definition well_formed (tab : list (key * string)) (y : layout) : Prop :=
  exists ks, l_types y = Some ks /\ List.length (l_x y) = List.length (l_y y) /\
  List.length ks = List.length (l_x y) /\ forall k, In k ks -> In k (map fst tab).

(** the turbines [p] of one layout: one per pair of coordinates, in their order, of the right type *)
Definition placed (w : wfarm) (y : layout) (p : list (R * R * string)) : Prop :=
  List.length p = Nat.min (List.length (l_x y)) (List.length (l_y y)) /\
  forall i a b t, nth_error p i = Some (a, b, t) ->
    nth_error (l_x y) i = Some a /\ nth_error (l_y y) i = Some b /\ type_is w y i t.

(** the wake expansion coefficient k = k_a * TI + k_b of windIO; free_stream_ti asks for the ambient
    turbulence intensity; a missing k_a or k_b is zero *)
Definition expansion (c : coef) (ti amb_ti : R) : R :=
  match k_a c with None => 0 | Some a => a end * (if fs_ti c then amb_ti else ti)
  + match k_b c with None => 0 | Some b => b end.
