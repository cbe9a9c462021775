(** Evaluation of farm results (foxes/output/farm_results_eval.py). A variable is an array v s t over states s < S and
    turbines t < T. *)
From Verif Require Import RBase.
Local Open Scope R_scope.

(** output/farm_results_eval.py:63-120: a variable with dims (state, turbine) *)
Definition arr := nat -> nat -> R.
(** np.sum over n entries -- output/farm_results_eval.py:63-230 *)
Definition bsum (n : nat) (f : nat -> R) : R := rsum (map f (seq 0 n)).
(** np.min, np.max over n entries, n > 0 *)
Fixpoint bmin (n : nat) (f : nat -> R) : R := match n with O => 0 | 1%nat => f O | S n' => Rmin (bmin n' f) (f n') end.
(** np.max, output/farm_results_eval.py:139-230 *)
Fixpoint bmax (n : nat) (f : nat -> R) : R := match n with O => 0 | 1%nat => f O | S n' => Rmax (bmax n' f) (f n') end.
(** weights: dims (state,) or (state, turbine) (farm_results_eval.py:80-117) *)
Inductive weights := WS (w : nat -> R) | WST (w : arr).
(** output/farm_results_eval.py:80-117 *)
Definition wt (w : weights) : arr := match w with WS w => fun s _ => w s | WST w => w end.
Section Sizes.
Variables ns nt : nat.
(** weinsum (63-120) of the fields' product [v]; [nan s t] marks entries at which any field is NaN; states with a NaN
    are dropped and the weights rescaled (83-95, 100-112) *)
Definition row_nan (nan : nat -> nat -> bool) (s : nat) : bool := existsb (nan s) (seq 0 nt).
(** output/farm_results_eval.py:80-100 *)
Definition any_nan nan : bool := existsb (row_nan nan) (seq 0 ns).
(** output/farm_results_eval.py:80-117: the weights of the remaining states *)
Definition kept (nan : nat -> nat -> bool) (w : weights) (s t : nat) : R := if row_nan nan s then 0 else wt w s t.
(** w0 / w1: one number for (state,) weights, one per turbine otherwise; the same formula *)
Definition weff nan (w : weights) (s t : nat) : R :=
  if any_nan nan then kept nan w s t * (bsum ns (fun s => wt w s t) / bsum ns (fun s => kept nan w s t)) else wt w s t.
(** dropped rows contribute nothing -- output/farm_results_eval.py:80-117 *)
Definition term nan (w : weights) (v : arr) s t : R := if row_nan nan s then 0 else v s t * weff nan w s t.
(** output/farm_results_eval.py:63-120 with the result dims (turbine,) *)
Definition weinsum_t nan w v (t : nat) : R := bsum ns (fun s => term nan w v s t).
(** output/farm_results_eval.py:63-120 with the result dims (state,) *)
Definition weinsum_s nan w v (s : nat) : R := bsum nt (fun t => term nan w v s t).
(** output/farm_results_eval.py:63-120 with a scalar result *)
Definition weinsum_all nan w v : R := bsum ns (fun s => bsum nt (fun t => term nan w v s t)).
(** the case of output/farm_results_eval.py:80 without NaN entries *)
Definition no_nan : nat -> nat -> bool := fun _ _ => false.
(** reduce_states (139-169), one variable without NaN; None: unknown operation, KeyError *)
Inductive op := OWeights | OMeanNW | OSum | OMin | OMax | OStd | OOther.
(** np.mean, output/farm_results_eval.py:139-230 *)
Definition mean (n : nat) (f : nat -> R) : R := bsum n f / INR n.
(** output/farm_results_eval.py:139-169 *)
Definition reduce_states (w : weights) (v : arr) (o : op) : result (nat -> R) :=
  match o with
  | OWeights => Ok (weinsum_t no_nan w v)
  | OMeanNW => Ok (fun t => mean ns (fun s => v s t))
  | OSum => Ok (fun t => bsum ns (fun s => v s t))
  | OMin => Ok (fun t => bmin ns (fun s => v s t))
  | OMax => Ok (fun t => bmax ns (fun s => v s t))
  | OStd => Ok (fun t => sqrt (mean ns (fun s => (v s t - mean ns (fun s => v s t)) * (v s t - mean ns (fun s => v s t)))))
  | OOther => Err KeyError
  end.
(** reduce_turbines (188-216) *)
Definition reduce_turbines (w : weights) (v : arr) (o : op) : result (nat -> R) :=
  match o with
  | OWeights => Ok (weinsum_s no_nan w v)
  | OMeanNW => Ok (fun s => mean nt (v s))
  | OSum => Ok (fun s => bsum nt (v s))
  | OMin => Ok (fun s => bmin nt (v s))
  | OMax => Ok (fun s => bmax nt (v s))
  | OStd | OOther => Err KeyError
  end.
(** reduce_all (241-269). Lines 254-255 contract the reduced row, broadcast over the states, with the weights. *)
Definition reduce_all (w : weights) (v : arr) (so to : op) : result R :=
  match reduce_states w v so with
  | Err e => Err e
  | Ok r =>
      match to with
      | OWeights => Ok (match so with OWeights => weinsum_all no_nan w v | _ => weinsum_all no_nan w (fun _ t => r t) end)
      | OMeanNW => Ok (bsum nt r)
      | OSum => Ok (bsum nt r)
      | OMin => Ok (bmin nt r)
      | OMax => Ok (bmax nt r)
      | OStd | OOther => Err KeyError
      end
  end.
(** calc_farm_mean (357-373), calc_farm_sum (375-391), calc_mean_farm_power (393-410) *)
Definition calc_farm_mean w v : result R := reduce_all w v OWeights OWeights.
(** output/farm_results_eval.py:375-391 *)
Definition calc_farm_sum w v : result R := reduce_all w v OSum OSum.
(** output/farm_results_eval.py:393-410 *)
Definition calc_mean_farm_power w v : result R := reduce_all w v OWeights OSum.

(** calc_turbine_yield (412-489). States: time stamps in nanoseconds, or not a time series. *)
Inductive states := Times (t : nat -> Z) | Plain.
(** durations: 465-481; the float quotient duration/1e9 is cut to an integer *)
Definition duration_hours (st : states) (annual : bool) (hours : option R) (delta_t : option Z) : result R :=
  match st with
  | Times t =>
      match hours with
      | Some _ => Err KeyError
      | None =>
          match delta_t, ns with
          | None, (O | 1%nat) => Err IndexError
          | _, _ =>
              let dt := match delta_t with Some d => d | None => (t (ns - 1)%nat - t (ns - 2)%nat)%Z end in
              Ok (IZR (Z.quot (t (ns - 1)%nat - t 0%nat + dt) 1000000000) / 3600)
          end
      end
  | Plain =>
      match hours with
      | None => if annual then Ok 8760 else Err ValueError
      | Some h => Ok h
      end
  end.
(** [algo_unit]: power units of the turbines of a given algorithm; [unit]: the P_unit_W argument (454-462) *)
Definition calc_turbine_yield (st : states) (algo_unit : option (nat -> R)) (unit : option R) (annual : bool)
    (hours : option R) (delta_t : option Z) (w : weights) (p : arr) : result (nat -> R) :=
  match (match algo_unit, unit with Some u, None => Ok u | None, Some u => Ok (fun _ => u) | _, _ => Err KeyError end) with
  | Err e => Err e
  | Ok u =>
      match duration_hours st annual hours delta_t with
      | Err e => Err e
      | Ok h =>
          Ok (fun t => let y := weinsum_t no_nan w p t * h * u t / 1000000000 in if annual then y * (8760 / h) else y)
      end
  end.
(** columns of the returned table and calc_farm_yield (535-571), [pu]: power_uncert *)
Inductive col := YLD | AMB_YLD.
(** output/farm_results_eval.py:535-571 *)
Definition yield_col (ambient : bool) : col := if ambient then AMB_YLD else YLD.
(** output/farm_results_eval.py:535-571 *)
Definition calc_farm_yield (c : col) (y : nat -> R) (pu : option R) : result (R * option (R * R)) :=
  match c with
  | AMB_YLD => Err KeyError
  | YLD => Ok (bsum nt y, match pu with None => None | Some u => Some (bsum nt y * (1 - 0.675 * u), bsum nt y * (1 - 1.282 * u)) end)
  end.
End Sizes.
(** add_efficiency (573-589), one entry *)
Definition efficiency (p p0 : R) : R := if Rltb p 1e-10 then 0 else Rmin (p / Rmax p0 1e-12) 1.
(** calc_farm_efficiency (591-603) of the mean farm powers *)
Definition farm_efficiency (p p0 : R) : R := Rmin (p / Rmax p0 1e-14) 1.
(** add_capacity (491-533), one entry *)
Definition capacity (p pnom : R) : R := p / pnom.
