(** Wake superpositions, /repo/foxes/models/wake_superpositions/*.py.
    One element (state, target, point) of the wake delta array, except for the product
    superposition, whose reset test looks at the whole array. *)
From Verif Require Import RBase.
Local Open Scope R_scope.

(** [x ** p] for x >= 0 and p > 0 *)
Definition npow (x p : R) : R := if Reqb x 0 then 0 else Rpower x p.

(** the classes of models/wake_superpositions/{ws_linear,ws_quadratic,ws_max,ws_pow,ti_linear,ti_quadratic,ti_max,ti_pow}.py with their parameters *)
Inductive superp :=
| WSLinear | WSLinearLocal | WSQuadratic | WSQuadraticLocal | WSMax | WSMaxLocal
| WSPow (p : R) | WSPowLocal (p : R)
| TILinear | TIQuadratic | TIMax | TIPow (p : R).

(** A contribution to the element: [None] if the element is not selected by st_sel, otherwise
    (scale, wake_model_result); scale is REWS or AMB_REWS of the wake causing turbine. -- argument of add_wake, e.g. models/wake_superpositions/ws_linear.py:96-152 *)
Definition contrib := option (R * R)%type.

(** The add_wake functions: ws_linear.py:134, 290; ws_quadratic.py:134, 290; ws_max.py:134-137, 293-296;
    ws_pow.py:139, 301; ti_linear.py:90; ti_quadratic.py:90; ti_max.py:90; ti_pow.py:97. *)
Definition add_wake (s : superp) (delta : R) (c : contrib) : R :=
  match c with
  | None => delta
  | Some (scale, r) =>
      match s with
      | WSLinear => delta + scale * r
      | WSLinearLocal => delta + r
      | WSQuadratic => delta + (scale * r) * (scale * r)
      | WSQuadraticLocal => delta + r * r
      | WSMax => Rmax delta (Rabs (scale * r))
      | WSMaxLocal => Rmax delta (Rabs r)
      | WSPow p => delta + npow (Rabs (scale * r)) p
      | WSPowLocal p => delta + npow (Rabs r) p
      | TILinear => delta + r
      | TIQuadratic => delta + r * r
      | TIMax => Rmax r delta
      | TIPow p => delta + npow r p
      end
  end.
(** lim_low/lim_high, e.g. ws_linear.py:177-180: np.maximum then np.minimum. *)
Definition clamp (low high : option R) (amb w : R) : R :=
  let w1 := match low with Some l => Rmax w (l - amb) | None => w end in
  match high with Some h => Rmin w1 (h - amb) | None => w1 end.
(** superp_to_amb of the TI superpositions, e.g. ti_linear.py:132-137: linear or quadratic *)
Definition ti_to_amb (quad : bool) (amb d : R) : R := if quad then sqrt (d * d + amb * amb) - amb else d.
(** calc_final_wake_delta: ws_linear.py:176, 332; ws_quadratic.py:176, 332; ws_max.py:179, 338; ws_pow.py:181, 343;
    ti_linear.py:131-137, ti_quadratic.py:131-137, ti_max.py:131-137, ti_pow.py:138-144. *)
Definition raw_final (s : superp) (quad : bool) (amb delta : R) : R :=
  match s with
  | WSLinear => delta
  | WSLinearLocal => delta * amb
  | WSQuadratic => - sqrt delta
  | WSQuadraticLocal => - sqrt delta * amb
  | WSMax => - delta
  | WSMaxLocal => - delta * amb
  | WSPow p => - npow delta (1 / p)
  | WSPowLocal p => - npow delta (1 / p) * amb
  | TILinear | TIMax => ti_to_amb quad amb delta
  | TIQuadratic => if quad then sqrt (delta + amb * amb) - amb else sqrt delta
  | TIPow p => if quad then sqrt (npow delta (2 / p) + amb * amb) - amb else npow delta (1 / p)
  end.
(** wind speed or TI superposition: the class names in models/wake_superpositions *)
Definition is_ws (s : superp) : bool := match s with TILinear | TIQuadratic | TIMax | TIPow _ => false | _ => true end.
(** calc_final_wake_delta, the lines listed above *)
Definition final_delta (s : superp) (quad : bool) (low high : option R) (amb delta : R) : R :=
  if is_ws s then clamp low high amb (raw_final s quad amb delta) else raw_final s quad amb delta.
(** The whole calculation for one element: zero-initialised wake delta (core/wake_model.py new_wake_deltas),
    one add_wake per wake causing turbine, final evaluation. -- core/wake_model.py:33-94 with the add_wake methods *)
Definition wake_delta (s : superp) (cs : list contrib) : R := fold_left (add_wake s) cs 0.
(** core/wake_model.py:33-128, the lines listed above *)
Definition final_wake (s : superp) (quad : bool) (low high : option R) (amb : R) (cs : list contrib) : R :=
  final_delta s quad low high amb (wake_delta s cs).

(** ** Product superposition, ws_product.py:121-127, on the whole array. A call is a list with [Some r] at selected
    elements; [None] in place of the list: the wake model had nothing selected and did not call add_wake
    (models/wake_models/top_hat.py:211-227, axisymmetric contribute: loop over returned variables). *)
Definition tiny : R := 1 / 100000000000000.
(** models/wake_superpositions/ws_product.py:121-127 *)
Definition all_tiny (ds : list R) : bool := forallb (fun d => Rltb (Rabs d) tiny) ds.
(** models/wake_superpositions/ws_product.py:121-127 *)
Fixpoint mul_sel (ds : list R) (rs : list (option R)) : list R :=
  match ds, rs with
  | d :: ds', r :: rs' => (match r with Some x => d * (1 + x) | None => d end) :: mul_sel ds' rs'
  | _, _ => ds
  end.
(** models/wake_superpositions/ws_product.py:121-127 *)
Definition prod_add (ds : list R) (call : option (list (option R))) : list R :=
  match call with
  | None => ds
  | Some rs => mul_sel (if all_tiny ds then map (fun _ => 1) ds else ds) rs
  end.
(** models/wake_superpositions/ws_product.py:121-127, one call per wake causing turbine *)
Definition prod_run (n : nat) (calls : list (option (list (option R)))) : list R :=
  fold_left prod_add calls (repeat 0 n).
(** ws_product.py:167-172 *)
Definition prod_final (low high : option R) (amb d : R) : R := clamp low high amb (amb * (d - 1)).
