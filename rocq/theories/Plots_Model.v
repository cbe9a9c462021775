(** Pictures of power curves, heat maps and rotor points: foxes/output/turbine_type_curves.py, foxes/output/state_turbine_map.py, foxes/output/rotor_point_plots.py. *)
From Verif Require Import RBase Rose_Model.
From Coq Require Import List Arith Lia.
Import ListNotations.
Local Open Scope R_scope.

(** turbine_type_curves.py:115: the wind speeds np.arange(ws_min, ws_max + ws_step, ws_step), in exact arithmetic *)
Definition wind_speeds (wmin wmax step : R) : list R := arange wmin (wmax + step) step.
(** the argument axs, turbine_type_curves.py:112-113: a list (tuple, array) of axes or None, or a single axis or None, which becomes a list of length one *)
Inductive axs_arg := AList (l : list (option nat)) | ASingle (a : option nat).
Definition axs_list (a : axs_arg) : list (option nat) := match a with AList l => l | ASingle x => [x] end.
(** A drawn line: the axis, and its points *)
Definition line : Type := nat * list (R * R).
(** turbine_type_curves.py:156-172: the loop over variables. [curve v ws], [mcurve v ws]: the results without and with power mask at wind speed ws (one turbine, no wakes, one state per wind
    speed); [mask]: P_max is given. [fresh]: the number of the next axis that plt.subplots creates; the created axis is bound to a local variable, the list axs is not changed. Titles and
    labels, indexed by the same number, are left out: lists given by the caller that are shorter fail with IndexError like axs *)
Fixpoint draw (curve mcurve : nat -> R -> R) (mask : bool) (ws : list R) (axs : list (option nat)) (fresh : nat) (vars : list nat) (i : nat) : list line * option pyerr :=
  match vars with
  | [] => ([], None)
  | v :: r =>
      match nth_error axs i with
      | None => ([], Some IndexError)
      | Some a =>
          let ax := match a with Some x => x | None => fresh end in
          let fresh' := match a with Some _ => fresh | None => S fresh end in
          let ls := (ax, map (fun w => (w, curve v w)) ws) :: (if mask then [(ax, map (fun w => (w, mcurve v w)) ws)] else []) in
          let (rest, e) := draw curve mcurve mask ws axs fresh' r (S i) in (ls ++ rest, e)
      end
  end.
(** turbine_type_curves.py:134-154: the model book's turbine models during the run with power mask: the temporary model is set (replacing one of this name), and deleted after a successful run.
    [tmp]: its name; [fails]: the run with mask raises an error. Result: the names afterwards *)
Definition book_after (tmp : nat) (mask fails : bool) (book : list nat) : list nat :=
  if mask then let b := if existsb (Nat.eqb tmp) book then book else book ++ [tmp] in if fails then b else filter (fun x => negb (Nat.eqb x tmp)) b else book.
(** turbine_type_curves.py:198: the returned list *)
Definition returned (a : axs_arg) : list (option nat) := axs_list a.

(** state_turbine_map.py:77-82: bounds of cells along states: the state labels and one more, at the distance of the last two; states[-2] fails with IndexError for a single state *)
Definition state_bounds (states : list R) : result (list R) :=
  match rev states with b :: a :: _ => Ok (states ++ [b + (b - a)]) | _ => Err IndexError end.
(** state_turbine_map.py:80,82-88: pcolormesh with flat shading draws z[s][t] between bounds s, s + 1 along x and t, t + 1 along y. The cell of a state and a turbine: x range, y range, value *)
Definition cell (states : list R) (z : nat -> nat -> R) (s t : nat) : result ((R * R) * (R * R) * R) :=
  match state_bounds states with Ok b => Ok ((nth s b 0, nth (S s) b 0), (INR t, INR (S t)), z s t) | Err e => Err e end.
(** state_turbine_map.py:90-91,97-101: y ticks and their labels (None: no text) for n turbines; every fifth label if there are more than ten bounds *)
Definition y_ticks (n : nat) : list (R * option nat) :=
  map (fun t => (INR t + 1 / 2, if (10 <? n + 1)%nat then if (t mod 5 =? 0)%nat then Some t else None else Some t)) (seq 0 n).
(** state_turbine_map.py:92-96: x ticks: those of matplotlib, [xt], without the last, moved by half of the distance of the last two ticks. Result: position and labelled value *)
Definition x_ticks (xt : list R) : list (R * R) :=
  match rev xt with b :: a :: _ => map (fun x => (x + 1 / 2 * (b - a), x)) (removelast xt) | _ => [] end.

(** rotor_point_plots.py:106-116: the labels of the colour bar for the distinct weights in increasing order; None: empty text. [go i l]: the loop from index i downwards, [l] the labels so far *)
Fixpoint label_loop (w : list R) (i : nat) (l : list (option R)) : list (option R) :=
  let wi := nth i w 0 in
  let span := last w 0 - nth 0 w 0 in
  let l' := if Rltb (5 / 100) ((nth (S i) w 0 - wi) / span) then Some wi :: l
            else match i with O => Some wi :: None :: tl l | S _ => None :: l end in
  match i with O => l' | S k => label_loop w k l' end.
Definition bar_labels (w : list R) : list (option R) :=
  match length w with O => [] | S O => [Some (last w 0)] | S (S k) => label_loop w k [Some (last w 0)] end.
