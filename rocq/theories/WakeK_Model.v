(** The wake growth parameter (foxes/core/wake_model.py, class WakeK). *)
From Verif Require Import RBase Data_Model GetData_Model.
Local Open Scope R_scope.
Local Notation length := List.length.

(** core/wake_model.py:202-239: the parameters k, ka, kb *)
Record wake_k := { par_k : option R; par_ka : option R; par_kb : option R }.
(** python's `is None`, core/wake_model.py:202-340 *)
Definition isnone {A} (o : option A) : bool := match o with None => true | Some _ => false end.
(** __init__, 229-243 *)
Definition new_wake_k (k ka kb : option R) : result wake_k :=
  if negb (isnone k) && (negb (isnone ka) || negb (isnone kb)) then Err ValueError
  else if isnone k && negb (isnone kb) && match ka with None => true | Some x => Reqb x 0 end then Err ValueError
  else Ok {| par_k := k; par_ka := ka; par_kb := kb |}.
(** __call__, 314-326: the value that is set as attribute before the lookup; [ti] is the turbulence intensity in the shape of
    the target. ka is not None if kb is not None, by construction (otherwise python raises a TypeError). *)
Definition scalar (x : R) : arr := {| shp := []; val := fun _ => x |}.
(** core/wake_model.py:314-326 *)
Definition k_attr (w : wake_k) (ti : arr) : result (option arr) :=
  match par_ka w, par_kb w with
  | None, None => Ok (option_map scalar (par_k w))
  | None, Some _ => Err TypeError
  | Some a, kb => Ok (Some {| shp := shp ti; val := fun idx => a * val ti idx + match kb with None => 0 | Some b => b end |})
  end.
(** __call__, 327-329, with lookup_k="sw" and upcast; [fk]: the farm data's variable of that name *)
Definition call_wake_k (c : counts) (t : target) (di : option nat) (w : wake_k) (ti : arr) (fk : option (arr * list string)) (o : option other) : result arr :=
  match k_attr w ti with
  | Err e => Err e
  | Ok a => get_data c t di {| self_attr := a; msrc := None; fsrc := fk; tsrc := None; has_tdata := true |} o true [Ls; Lw]
  end.
