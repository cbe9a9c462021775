(** Places of the code where the rounding of floats decides about numbers of chunks, sectors or steps. Floats are the binary64 numbers of Flocq (radix 2, precision 53,
    minimal exponent -1074), every operation rounds the exact result to nearest, ties to even. Overflow, infinities and NaN are not modelled. *)
From Coq Require Import ZArith Reals Lra Lia List.
From Flocq Require Import Core.
From Verif Require Import RBase.
Import ListNotations.
Local Open Scope R_scope.

(** binary64 rounding: python floats, numpy.float64 (config.dtype_double) *)
Definition rnd64 (x : R) : R := round radix2 (FLT_exp (-1074) 53) ZnearestE x.
(** the real numbers that are python floats *)
Definition is_float (x : R) : Prop := generic_format radix2 (FLT_exp (-1074) 53) x.
(** the float operators + - * / *)
Definition fadd (x y : R) : R := rnd64 (x + y).
Definition fsub (x y : R) : R := rnd64 (x - y).
Definition fmul (x y : R) : R := rnd64 (x * y).
Definition fdiv (x y : R) : R := rnd64 (x / y).

(** python's int(a / b) for ints, foxes/core/engine.py:271-298: a / b is the correctly rounded quotient, int truncates *)
Definition py_int_div (a b : Z) : Z := Ztrunc (fdiv (IZR a) (IZR b)).

(** C's fmod, part of np.mod for floats (and of python's %): the exact remainder with the sign of x *)
Definition fmod (x p : R) : R := x - p * IZR (Ztrunc (x / p)).
(** np.mod(x, p) for floats and p > 0 (numpy's npy_divmod): fmod, and p is added to a negative remainder. Used at foxes/models/turbine_models/yawm2yaw.py:63,
    foxes/models/turbine_models/sector_management.py:147,206, foxes/utils/wind_dir.py:90, foxes/output/rose_plot.py:259,292,574,595 *)
Definition np_mod (x p : R) : R := let m := fmod x p in if Rltb m 0 then fadd m p else m.

(** the number of entries of np.arange(a, b, d) (numpy's PyArray_ArangeObj): the ceiling of the computed (b - a) / d *)
Definition arange_len (a b d : R) : Z := Zceil (fdiv (fsub b a) d).
(** the entries: a, a + d', a + 2 d', ..., with d' the difference of the first two *)
Definition np_arange (a b d : R) : list R :=
  let d' := fsub (fadd a d) a in map (fun k => fadd a (fmul (INR k) d')) (seq 0 (Z.to_nat (arange_len a b d))).

(** foxes/output/rose_plot.py:170, foxes/utils/tab_files.py:41, foxes/input/states/wrg_states.py:160: the sector width 360 / n *)
Definition wd_delta (n : Z) : R := fdiv 360 (IZR n).
(** foxes/output/rose_plot.py:172: wd_bins, the bounds of sectors; division by 2 *)
Definition wd_bins (n : Z) : list R := np_arange (- fdiv (wd_delta n) 2) 360 (wd_delta n).
(** foxes/output/rose_plot.py:179, foxes/utils/tab_files.py:43, foxes/input/states/wrg_states.py:160: the sector centres *)
Definition wd_cents (n : Z) : list R := np_arange 0 360 (wd_delta n).
(** foxes/output/rose_plot.py:177-195: the data set of n sectors has the centres as coordinate, and wd_bins[:-1] along it; xarray raises ValueError for different lengths *)
Definition rose_data (n : Z) : result (list R * list R) :=
  if Nat.eqb (length (wd_cents n)) (length (wd_bins n) - 1) then Ok (wd_cents n, wd_bins n) else Err ValueError.
(** foxes/utils/tab_files.py:41-47, foxes/input/states/wrg_states.py:160-167: a file with n sectors, whose [cols] columns of frequencies go along the sector centres *)
Definition sector_coords (n : Z) (cols : nat) : result (list R) :=
  if Nat.eqb (length (wd_cents n)) cols then Ok (wd_cents n) else Err ValueError.

(** foxes/core/wake_frame.py:239-244: the number of steps of size [dx] up to [xmax]; xmin = 0 *)
Definition cl_steps (xmax dx : R) : Z :=
  let n := Ztrunc (fdiv (fsub xmax 0) dx) in
  if Rltb (fadd 0 (fmul (IZR n) dx)) xmax then (n + 1)%Z else n.
(** foxes/core/wake_frame.py:245-248: xs = np.arange(xmin, xmin + n_ix * dx, dx); the entries after the first are written into an array of n_steps entries, which raises ValueError
    for another number of entries. Result: xs *)
Definition cl_grid (xmax dx : R) : result (list R) :=
  let n := cl_steps xmax dx in
  let xs := np_arange 0 (fadd 0 (fmul (IZR (n + 1)) dx)) dx in
  if Z.eqb (Z.of_nat (length xs)) (n + 1) then Ok xs else Err ValueError.

(** limits of the wind speed superpositions, foxes/models/wake_superpositions/ws_linear.py:177-181,333-337 (likewise ws_quadratic.py, ws_pow.py, ws_max.py, ws_product.py): the final wake delta
    for the limits [lo], [hi], the ambient value [amb] and the wake delta [w] *)
Definition f_final_delta (lo hi : option R) (amb w : R) : R :=
  let w := match lo with Some l => Rmax w (fsub l amb) | None => w end in
  match hi with Some h => Rmin w (fsub h amb) | None => w end.
(** the waked wind speed: ambient plus delta, foxes/algorithms/downwind/models/point_wakes_calc.py:146 (farm_wakes_calc.py adds rotor averages) *)
Definition f_final_ws (lo hi : option R) (amb w : R) : R := fadd amb (f_final_delta lo hi amb w).
