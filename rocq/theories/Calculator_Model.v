(** The turbine model Calculator in farm calculations: /repo/foxes/models/turbine_models/calculator.py:85-98, core/farm_controller.py:277-298 (st_sel), core/farm_data_model.py:288-293 (update of the farm data),
    algorithms/downwind/downwind.py:422-470, algorithms/downwind/models/farm_wakes_calc.py:72-174, algorithms/iterative/models/farm_wakes_calc.py:90-163.
    One state; turbines in processing order; all turbines have the Calculator as last turbine model, with one input variable and one output variable, which may be the same one.
    Simplification: what the rotor model and the turbine models before the Calculator assign to the input variable of a turbine is given ([amb], [waked]); the values of the Calculator have no effect on the wakes. *)
From Verif Require Export Base Order_Model.
Local Open Scope nat_scope.

Section Calc.
Context {A : Type}.
(** the function, calculator.py:24-33: of the whole array and the selection; None: all turbines, [Some oi]: the turbine at position oi *)
Definition func := option nat -> list A -> list A.
(** Calculator([v], [w], func); c_same: v and w are the same variable; calculator.py:35-46 *)
Record calculator := { c_same : bool; c_func : func }.
(** the arrays of the input and, if it is another one, of the output variable -- fdata of core/farm_data_model.py:288-293 *)
Definition data := (list A * list A)%type.
(** calculate, calculator.py:95-98, and the update of the farm data with the whole arrays, core/farm_data_model.py:290-291 *)
Definition run_calc (c : calculator) (s : option nat) (d : data) : data :=
  if c_same c then (c_func c s (fst d), snd d) else (fst d, c_func c s (fst d)).
(** farm controller for all turbines; algorithms/downwind/downwind.py:446-449 *)
Definition all_turbines (c : calculator) (v : list A) (d : data) : data := run_calc c None (v, snd d).
(** farm controller for one turbine: the models before assign the element, then the Calculator is called; farm_wakes_calc.py:101-106, farm_controller.py:369-400 *)
Definition one_turbine (c : calculator) (waked : nat -> A) (d : data) (oi : nat) : data := run_calc c (Some oi) (set_nth oi (waked oi) (fst d), snd d).
(** the loop over the turbines for one downwind wake model, without the first turbine; farm_wakes_calc.py:120-142 *)
Definition one_model (c : calculator) (n : nat) (d : data) (waked : nat -> A) : data := fold_left (one_turbine c waked) (seq 1 (n - 1)) d.
(** Downwind.calc_farm: ambient values first, then the listed wake models, for each of them the values assigned at its evaluation; downwind.py:422-470, farm_wakes_calc.py:107-174 *)
Definition downwind (c : calculator) (amb : list A) (out0 : list A) (models : list (nat -> A)) : data :=
  fold_left (one_model c (length amb)) models (all_turbines c amb (amb, out0)).
(** Iterative.calc_farm after further iterations, all turbines at once; iterative farm_wakes_calc.py:156-163 *)
Definition iterative (c : calculator) (amb : list A) (out0 : list A) (iterations : list (list A)) : data :=
  fold_left (fun d v => all_turbines c v d) iterations (all_turbines c amb (amb, out0)).
(** the output variable *)
Definition out_var (c : calculator) (d : data) : list A := if c_same c then fst d else snd d.
End Calc.
Arguments calculator : clear implicits.
Arguments func : clear implicits.
