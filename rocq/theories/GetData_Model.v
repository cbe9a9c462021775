(** Data lookup for models (foxes/core/model.py, Model.get_data) without the argument `selection`. *)
From Verif Require Import RBase Data_Model.
Local Open Scope R_scope.
Local Notation length := List.length.
Local Open Scope string_scope.
Local Open Scope list_scope.

(** sizes of the calculation, 355-385 *)
Record counts := { n_states : nat; n_turbines : nat; n_targets : nat; n_tpoints : nat }.
(** core/model.py:355-385: FC.STATE_TURBINE, STATE_TARGET, STATE_TARGET_TPOINT *)
Inductive target := STurbine | STarget | STPoint.
(** core/model.py:355-385 *)
Definition tdims (t : target) : list string :=
  match t with STurbine => ["state"; "turbine"] | STarget => ["state"; "target"] | STPoint => ["state"; "target"; "target_point"] end.
(** core/model.py:355-385 *)
Definition tshape (c : counts) (t : target) : list nat :=
  match t with STurbine => [n_states c; n_turbines c] | STarget => [n_states c; n_targets c] | STPoint => [n_states c; n_targets c; n_tpoints c] end.

(** _match_shape, 387-401: missing trailing axes are added, the others checked; arrays of equal rank are not checked *)
Fixpoint prefix_ok (sh tgt : list nat) : bool :=
  match sh, tgt with n :: sh', m :: tgt' => ((n =? 1)%nat || (n =? m)%nat) && prefix_ok sh' tgt' | _, _ => true end.
(** core/model.py:387-401 *)
Definition match_shape (tgt : list nat) (a : arr) : result arr :=
  if (length (shp a) <? length tgt)%nat then
    if prefix_ok (shp a) tgt then Ok {| shp := shp a ++ repeat 1%nat (length tgt - length (shp a)); val := fun idx => val a (firstn (length (shp a)) idx) |}
    else Err ValueError
  else if (length tgt <? length (shp a))%nat then Err ValueError else Ok a.

(** _filter_dims, 403-415: selection of one turbine along all axes named "turbine" *)
Fixpoint expand (ds : list string) (di : nat) (idx : list nat) : list nat :=
  match ds with
  | [] => idx
  | d :: ds' => if (d =? "turbine")%string then di :: expand ds' di idx
                else match idx with [] => [] | i :: idx' => i :: expand ds' di idx' end
  end.
(** core/model.py:403-415 *)
Fixpoint drop_turbine (sh : list nat) (ds : list string) : list nat :=
  match ds, sh with
  | d :: ds', n :: sh' => if (d =? "turbine")%string then drop_turbine sh' ds' else n :: drop_turbine sh' ds'
  | _, _ => sh
  end.
(** core/model.py:403-415 *)
Definition not_turbine (d : string) : bool := negb (d =? "turbine")%string.
(** core/model.py:403-415 *)
Definition filter_dims (di : option nat) (a : arr) (ds : list string) : arr * list string :=
  match di with
  | Some i => ({| shp := drop_turbine (shp a) ds; val := fun idx => val a (expand ds i idx) |}, filter not_turbine ds)
  | None => (a, ds)
  end.

(** what the sources hold for the requested variable -- core/model.py:417-478 *)
Record sources := {
  self_attr : option arr;                   (** attribute of the model itself *)
  msrc : option (arr * list string);        (** mdata *)
  fsrc : option (arr * list string);        (** fdata *)
  tsrc : option (arr * list string);        (** tdata *)
  has_tdata : bool                          (** tdata and algo are given *)
}.
(** core/model.py:417-478: the letters of `lookup` *)
Inductive letter := Ls | Lm | Lf | Lt | Lw.
(** core/model.py:417-478: comparison of the leading dims *)
Fixpoint prefixb (d dims : list string) : bool :=
  match d, dims with [], _ => true | x :: d', y :: dims' => (x =? y)%string && prefixb d' dims' | _ :: _, [] => false end.
(** core/model.py:417-478: dims == (FC.STATE, FC.TURBINE) *)
Definition is_turbine_dims (ds : list string) : bool := match ds with [s; t] => (s =? "state")%string && (t =? "turbine")%string | _ => false end.
(** column of an array of shape (n_states, n_turbines) -- core/model.py:417-478 *)
Definition column (a : arr) (di : nat) : arr := {| shp := [nth 0 (shp a) 0%nat]; val := fun idx => val a [nth 0 idx 0%nat; di] |}.
(** WakeFrame.get_wake_modelling_data, core/wake_frame.py:147-158 (the default; one frame overrides it) *)
Definition wake_data (t : target) (a : arr) (di : nat) : arr :=
  {| shp := nth 0 (shp a) 0%nat :: repeat 1%nat (length (tdims t) - 1); val := fun idx => val a [nth 0 idx 0%nat; di] |}.
(** one letter of the lookup, 417-478; mdata and tdata: the selected array decides about the acceptance, but the full array is
    taken (lines 429 and 453) *)
Definition try_source (c : counts) (t : target) (di : option nat) (s : sources) (l : letter) : result (option arr) :=
  let some (r : result arr) := bind r (fun a => Ok (Some a)) in
  let from (x : option (arr * list string)) :=
    match x with
    | None => Ok None
    | Some (a, ds) => let '(_, d) := filter_dims di a ds in
      if prefixb d (tdims t) then some (match_shape (tshape c t) a) else Ok None
    end in
  match l with
  | Ls => match self_attr s with Some a => some (match_shape (tshape c t) a) | None => Ok None end
  | Lm => from (msrc s)
  | Lf => match fsrc s with
          | Some (a, ds) => if is_turbine_dims ds then
              match t, di with STurbine, _ => Ok (Some a) | _, Some i => some (match_shape (tshape c t) (column a i)) | _, None => Ok None end
            else Ok None
          | None => Ok None
          end
  | Lt => match t with STurbine => Ok None | _ => from (tsrc s) end
  | Lw => match fsrc s, di with
          | Some (a, ds), Some i => if has_tdata s && is_turbine_dims ds then some (match_shape (tshape c t) (wake_data t a i)) else Ok None
          | _, _ => Ok None
          end
  end.
(** core/model.py:417-478 *)
Fixpoint find_source (c : counts) (t : target) (di : option nat) (s : sources) (ls : list letter) : result (option arr) :=
  match ls with
  | [] => Ok None
  | l :: ls' => match try_source c t di s l with Err e => Err e | Ok (Some a) => Ok (Some a) | Ok None => find_source c t di s ls' end
  end.
(** numpy broadcasting: the element at a full index -- core/model.py:495-501 *)
Definition bidx (sh idx : list nat) : list nat := map (fun p => if (fst p =? 1)%nat then 0%nat else snd p) (combine sh idx).
(** core/model.py:495-501 *)
Definition bget (a : arr) (idx : list nat) : R := val a (bidx (shp a) idx).
(** tmp = zeros(shp); tmp[:] = out -- core/model.py:495-501 *)
Definition upcast (tgt : list nat) (a : arr) : arr := {| shp := tgt; val := fun idx => bget a idx |}.

(** --- data from other states (488-550), present if the wake frame stored the states that cause the wakes --- *)
Record other := {
  sts : nat -> nat -> nat -> nat;      (** tdata[STATES_SEL] at state, target, target point *)
  weights : list R;                    (** target point weights *)
  i0 : nat;                            (** counter of the first state of the chunk *)
  prev : option (nat -> nat -> R)      (** results of the previous iteration by state counter and turbine, if any *)
}.
(** the mean over target points, rounded to the nearest integer (526-527) *)
Fixpoint wsum (w : list R) (f : nat -> R) (k : nat) : R := match w with [] => 0 | x :: w' => x * f k + wsum w' f (S k) end.
(** core/model.py:526-527 *)
Definition mean_state (o : other) (s t : nat) : nat := Z.to_nat (rfloor (wsum (weights o) (fun p => INR (sts o s t p)) 0 + 1 / 2)).
(** core/model.py:488-550 *)
Definition source_state (c : counts) (o : other) (t : target) (idx : list nat) : nat :=
  match t with
  | STarget => if (n_tpoints c =? 1)%nat then sts o (nth 0 idx 0%nat) (nth 1 idx 0%nat) 0 else mean_state o (nth 0 idx 0%nat) (nth 1 idx 0%nat)
  | _ => sts o (nth 0 idx 0%nat) (nth 1 idx 0%nat) (nth 2 idx 0%nat)
  end.
(** core/model.py:488-550 *)
Definition replace_states (c : counts) (o : other) (t : target) (di : nat) (f out : arr) : arr :=
  {| shp := shp out;
     val := fun idx => let st := source_state c o t idx in
       if (st <? i0 o)%nat then match prev o with Some g => g st di | None => val out idx end else val f [st - i0 o; di]%nat |}.
(** get_data, without `selection`, for an iterative algorithm (which provides the previous results) -- core/model.py:287-562 *)
Definition get_data (c : counts) (t : target) (di : option nat) (s : sources) (o : option other) (up : bool) (ls : list letter) : result arr :=
  match t, di with
  | STurbine, Some _ => Err ValueError
  | _, _ =>
    match find_source c t di s ls with
    | Err e => Err e
    | Ok None => Err ValueError
    | Ok (Some a) =>
      let fin x := Ok (if up then upcast (tshape c t) x else x) in
      match t, fsrc s, o with
      | STurbine, _, _ | _, None, _ | _, _, None => fin a
      | _, Some (f, _), Some o => match di with
          | None => Err KeyError
          | Some i => fin (replace_states c o t i f (upcast (tshape c t) a))
          end
      end
    end
  end.
