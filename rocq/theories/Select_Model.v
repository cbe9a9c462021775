(** Turbine model selections (st_sel), models with two dimensional tables, sector ranges and wake growth from turbulence:
    core/farm_controller.py, models/turbine_types/wsrho2PCt_from_two.py, wsti2PCt_from_two.py, models/turbine_models/table_factors.py,
    sector_management.py, kTI_model.py.
    Arrays of shape (n_states, n_turbines) are functions of the indices; entries outside of the shape are meaningless. *)
From Verif Require Export Base RBase.
Local Open Scope R_scope.

(** the four kinds of index objects built at core/farm_controller.py:285-293: [np.s_[:, :]], [np.s_[:, oi]], a boolean array, and
    [np.s_[boolean vector, oi]]. The first two and the last are python tuples. *)
Inductive sel := SAll | SCol (oi : nat) | SMask (m : nat -> nat -> bool) | SMaskCol (m : nat -> bool) (oi : nat).
(** numpy indexing: the entries that [a[s]] reads and [a[s] = x] writes -- used e.g. at models/turbine_models/set_farm_vars.py:281-282 *)
Definition hits (s : sel) (si ti : nat) : bool :=
  match s with SAll => true | SCol oi => (ti =? oi)%nat | SMask m => m si ti | SMaskCol m oi => m si && (ti =? oi)%nat end.
(** the entries of an array in C order *)
Definition cells (ns nt : nat) : list (nat * nat) := list_prod (seq 0 ns) (seq 0 nt).

(** core/farm_controller.py:267-268: [_tmall], np.all over all states of the calculation and all turbines *)
Definition tmall (n_states nt : nat) (applies : nat -> nat -> bool) : bool :=
  forallb (fun c => applies (fst c) (snd c)) (cells n_states nt).
(** mdata[TMODEL_SELS] of a chunk that starts at state [i0]: farm order before, downwind order after InitFarmData --
    core/farm_controller.py:341-344, core/engine.py (chunk slices), algorithms/downwind/models/init_farm_data.py:131-135.
    [order s p] is the farm index of the turbine at downwind position p in state s of the chunk *)
Definition chunk_sels (applies : nat -> nat -> bool) (i0 : nat) (order : option (nat -> nat -> nat)) (s p : nat) : bool :=
  applies (i0 + s)%nat (match order with None => p | Some o => o s p end).
(** core/farm_controller.py:276-298: [__get_pars] *)
Definition get_sel (all : bool) (sels : nat -> nat -> bool) (downwind_index : option nat) : sel :=
  match all, downwind_index with
  | true, None => SAll
  | true, Some oi => SCol oi
  | false, None => SMask sels
  | false, Some oi => SMaskCol (fun s => sels s oi) oi
  end.
(** the selection a turbine model receives -- core/farm_controller.py:276-298,372-374 *)
Definition model_sel (n_states nt : nat) (applies : nat -> nat -> bool) (i0 : nat) (order : option (nat -> nat -> nat)) (downwind_index : option nat) : sel :=
  get_sel (tmall n_states nt applies) (chunk_sels applies i0 order) downwind_index.

(** python/numpy [st_sel & (array of shape (n_states, nt))]: a boolean array is and-ed; a tuple is first converted to an array. Two index
    objects become an object array of shape (2,), which broadcasts to nt = 1 or 2 columns, where [slice & bool] is a TypeError, and to no
    other number of columns (ValueError); (boolean vector, int) is no array at all (ValueError, inhomogeneous).
    -- models/turbine_types/wsrho2PCt_from_two.py:267-272, wsti2PCt_from_two.py:279-284 *)
Definition and_mask (nt : nat) (s : sel) (b : nat -> nat -> bool) : result (nat -> nat -> bool) :=
  match s with
  | SMask m => Ok (fun si ti => m si ti && b si ti)
  | SMaskCol _ _ => Err ValueError
  | _ => Err (if (nt =? 1)%nat || (nt =? 2)%nat then TypeError else ValueError)
  end.
(** [np.sum(st_sel)]: slices cannot be added (TypeError); (boolean vector, int) as above -- models/turbine_models/table_factors.py:146 *)
Definition np_sum (ns nt : nat) (s : sel) : result nat :=
  match s with
  | SMask m => Ok (length (filter (fun c => m (fst c) (snd c)) (cells ns nt)))
  | SMaskCol _ _ => Err ValueError
  | _ => Err TypeError
  end.

(** arrays of shape (n_states, n_turbines) -- foxes/core/data.py *)
Definition arr := nat -> nat -> R.
(** the pieces of both power and thrust calculations -- wsrho2PCt_from_two.py:266-304,306-343, wsti2PCt_from_two.py:278-325,327-373.
    [lo], [hi]: first and last wind speed of the power table; [wsel]: the wind speed that is compared with them; [wval]: the wind speed for
    the look-up, multiplied by the yaw factor [fy] and, with density correction, by [fr]; [aux]: RHO or TI; [tab]: scipy's interpn with
    bounds_error=True, None if outside of the table. NaN-free data. The density array is taken at st_sel (all selected entries), the wind speeds at
    st_sel_P (those within the range): python's in-place multiplication requires equally many *)
Definition curve2d (ns nt : nat) (s : sel) (lo hi : R) (wsel wval aux fy : arr) (fr : option arr) (tab : R -> R -> option R) (old : arr) : result arr :=
  match and_mask nt s (fun si ti => Rleb lo (wsel si ti) && Rleb (wsel si ti) hi) with
  | Err e => Err e
  | Ok inrg =>
      let cs := filter (fun c => inrg (fst c) (snd c)) (cells ns nt) in
      let q si ti := wval si ti * match fr with None => 1 | Some f => f si ti end * fy si ti in
      let out si ti := if inrg si ti then match tab (q si ti) (aux si ti) with Some v => v | None => 0 end
                       else if hits s si ti then 0 else old si ti in
      match cs with
      | [] => Ok out
      | _ => if match fr with None => false | Some _ => negb (length cs =? length (filter (fun c => hits s (fst c) (snd c)) (cells ns nt)))%nat end then Err ValueError
             else if forallb (fun c => match tab (q (fst c) (snd c)) (aux (fst c) (snd c)) with Some _ => true | None => false end) cs then Ok out
             else Err ValueError
      end
  end.
(** the turbine types' parameters: range of the power table, both interpolators *)
Record type2d := { t_lo : R; t_hi : R; t_P : R -> R -> option R; t_ct : R -> R -> option R }.
(** turbine data used: the wind speeds WSP (REWS3) and WSCT (REWS2), RHO or TI, yaw factors and density factors of both curves *)
Record data2d := { d_wsp : arr; d_wsct : arr; d_aux : arr; d_yP : arr; d_yct : arr; d_rP : option arr; d_rct : option arr }.
(** wsrho2PCt_from_two.py:239-345 (d_rP = d_rct = None) and wsti2PCt_from_two.py:251-375: P and CT. The thrust curve is also evaluated at
    WSP (lines 319 and 340), after comparing WSCT with the range of the power table *)
Definition calc2d (t : type2d) (ns nt : nat) (s : sel) (d : data2d) (oldP oldC : arr) : result (arr * arr) :=
  match curve2d ns nt s (t_lo t) (t_hi t) (d_wsp d) (d_wsp d) (d_aux d) (d_yP d) (d_rP d) (t_P t) oldP with
  | Err e => Err e
  | Ok P =>
      match curve2d ns nt s (t_lo t) (t_hi t) (d_wsct d) (d_wsp d) (d_aux d) (d_yct d) (d_rct d) (t_ct t) oldC with
      | Err e => Err e
      | Ok C => Ok (P, C)
      end
  end.
(** models/turbine_models/table_factors.py:120-168, one output variable *)
Definition table_factors (tab : R -> R -> option R) (ns nt : nat) (s : sel) (row col : arr) (old : arr) : result arr :=
  match np_sum ns nt s with
  | Err e => Err e
  | Ok _ =>
      if forallb (fun c => match tab (row (fst c) (snd c)) (col (fst c) (snd c)) with Some _ => true | None => false end)
           (filter (fun c => hits s (fst c) (snd c)) (cells ns nt))
      then Ok (fun si ti => if hits s si ti then old si ti * match tab (row si ti) (col si ti) with Some f => f | None => 1 end else old si ti)
      else Err ValueError
  end.

(** models/turbine_models/sector_management.py:145-147,204-225: one range variable of one rule, with or without period. Both range limits
    and the value are taken modulo the period *)
Definition in_range (period : option R) (mi ma d : R) : bool :=
  match period with
  | None => Rleb mi d && Rltb d ma
  | Some p =>
      let mi := rmod mi p in let ma := rmod ma p in let d := rmod d p in
      if Rltb ma mi then Rleb mi d || Rltb d ma else Rleb mi d && Rltb d ma
  end.
(** sector_management.py:202-225: all range variables of a rule *)
Definition rule_matches (ranges : list (option R * R * R)) (vals : list R) : bool :=
  forallb (fun rv => in_range (fst (fst (fst rv))) (snd (fst (fst rv))) (snd (fst rv)) (snd rv)) (combine ranges vals).

(** models/turbine_models/kTI_model.py:46-52,79-138: [self_kti], [self_kb]: constructor arguments; [f_kti], [f_kb], [f_ti]: farm data entries if
    present; lookup "sf" for kTI and kb, "f" for the turbulence intensity. [ti_val] is stored as an attribute that the lookup ignores. [oldk]: fdata[K],
    zeros if missing. get_data raises a ValueError for data that is not found *)
Definition kti_calc (self_kti self_kb ti_val : option R) (f_kti f_kb f_ti f_k : option arr) (s : sel) : result arr :=
  let pick a f := match a with Some x => Some (fun _ _ => x) | None => f end in
  match pick self_kti f_kti, pick (Some match self_kb with Some b => b | None => 0 end) f_kb, f_ti with
  | Some kti, Some kb, Some ti =>
      Ok (fun si j => if hits s si j then kti si j * ti si j + kb si j else match f_k with Some k => k si j | None => 0 end)
  | _, _, _ => Err ValueError
  end.
