(** Model of the name templates of /repo/foxes/models/model_book.py for rotor models, partial wakes, wake frames and the
    turbine models kTI, on top of the factories of Factory_Model (utils/factory.py). Simplifications: python's float and
    int are modelled on plain digits with (float) at most one dot -- signs, exponents, blanks, underscores, inf and nan
    count as ValueError here; numbers are exact decimals or quotients of them; the classes' constructors accept all
    arguments of the templates (they only store them); the class is kept among the arguments under the key "class". *)
From Verif Require Export Factory_Model.
Local Open Scope list_scope.

(** int(x) in a template option, model_book.py:120, 127, 223 *)
Definition pyint (x : str) : result value :=
  match x, digits 0 x with [], _ => Err ValueError | _, Some m => Ok (VDec m 0) | _, None => Err ValueError end.
(** _n2n, model_book.py:91-98: the square root of a number of points; int(sqrt(x)) is the whole part of the root *)
Definition n2n (x : str) : result value :=
  match pyfloat x with
  | Ok (VDec m e) =>
      let n := Z.sqrt (m / 10 ^ Z.of_nat e) in
      if (n * n * 10 ^ Z.of_nat e =? m)%Z then Ok (VDec n 0) else Err PlainException
  | Ok _ => Err TypeError                            (* pyfloat gives decimals only *)
  | Err e => Err e
  end.
(** x ends with t, model_book.py:261, 263, 269, 271 *)
Definition ends (t x : str) : bool := prefixb (rev t) (rev x).
(** x without its last n characters, model_book.py:262, 264, 270, 272 *)
Definition cut (n : nat) (x : str) : str := firstn (List.length x - n) x.
(** _todt, model_book.py:260-266: a time step in minutes *)
Definition todt (x : str) : result value :=
  match x with
  | [] => Err IndexError
  | _ =>
      if ends (lit "s") x then
        match pyfloat (cut 1 x) with Ok (VDec m e) => Ok (VQuot m e 60) | Ok _ => Err TypeError | Err e => Err e end
      else if ends (lit "min") x then pyfloat (cut 3 x)
      else Err NotImplementedError
  end.
(** _tokm, model_book.py:268-274: a length in km *)
Definition tokm (x : str) : result value :=
  match x with
  | [] => Err IndexError
  | _ =>
      if ends (lit "km") x then pyfloat (cut 2 x)
      else if ends (lit "m") x then
        match pyfloat (cut 1 x) with Ok (VDec m e) => Ok (VQuot m e 1000) | Ok _ => Err TypeError | Err e => Err e end
      else Err NotImplementedError
  end.

(** Factory.__init__ for a template without errors, utils/factory.py:38-154 *)
Definition fac (cls tmpl : string) (kw : dict value) (v2a : dict str) (os : dict opt) : factory :=
  let pv := match parse_template (lit tmpl) with Ok r => r | Err _ => ([], []) end in
  {| pre := fst pv; vars := snd pv; options := os; var2arg := v2a; fixed := (lit "class", VStr (lit cls)) :: kw;
     ctor := fun _ => Ok tt |}.
(** a dictionary with the given entries, to which the factories are added one after the other, utils/factory.py:568-596 *)
Definition book (keys : list string) (fs : list factory) : fdict :=
  fold_left add_factory fs (fold_left set_item (map lit keys) {| items := []; facs := []; next := 0; store := true |}).

(** model_book.py:88-129 *)
Definition rotor_models : fdict :=
  book ["centre"%string]
    [ fac "GridRotor" "grid<n2>" [(lit "reduce", VBool true)] [(lit "n2", lit "n")] [(lit "n2", OFun n2n)];
      fac "GridRotor" "grid<n2>_raw" [(lit "reduce", VBool false)] [(lit "n2", lit "n")] [(lit "n2", OFun n2n)];
      fac "LevelRotor" "level<n>" [(lit "reduce", VBool true)] [] [(lit "n", OFun pyint)];
      fac "LevelRotor" "level<n>_raw" [(lit "reduce", VBool false)] [] [(lit "n", OFun pyint)] ].
(** model_book.py:214-232 *)
Definition partial_wakes : fdict :=
  book ["rotor_points"; "top_hat"; "centre"]%string
    [ fac "PartialAxiwake" "axiwake<n>" [] [] [(lit "n", OFun pyint)];
      fac "PartialGrid" "grid<n2>" [] [(lit "n2", lit "n")] [(lit "n2", OFun n2n)] ].
(** model_book.py:234-296; the six factories of yawed_[wake_k] are those of utils/factory.py:351-516 *)
Definition wake_frames : fdict :=
  book ["rotor_wd"; "rotor_wd_farmo"; "timelines"; "dyn_wakes"; "seq_dyn_wakes"]%string
    (wakek_factories [lit "yawed"] [] [] [(lit "class", VStr (lit "YawedWakes"))] (fun _ => Ok tt) ++
    [ fac "Streamlines2D" "streamlines_<step>" [] [] [(lit "step", OFun pyfloat)];
      fac "Streamlines2D" "streamlines_<step>" [] [] [(lit "step", OFun pyfloat)];
      fac "Timelines" "timelines_<dt>" [] [(lit "dt", lit "dt_min")] [(lit "dt", OFun todt)];
      fac "DynamicWakes" "dyn_wakes_<length>" [] [(lit "length", lit "max_length_km")] [(lit "length", OFun tokm)];
      fac "SeqDynamicWakes" "seq_dyn_wakes_<dt>" [] [(lit "dt", lit "dt_min")] [(lit "dt", OFun todt)] ]).
(** model_book.py:148-199 *)
Definition turbine_models : fdict :=
  book ["kTI"; "kTI_amb"; "thrust2ct"; "PMask"; "yaw2yawm"; "yawm2yaw"; "hubh_data"]%string
    [ fac "kTI" "kTI_<kTI>" [] [] [(lit "kTI", OFun knum)];
      fac "kTI" "kTI_amb_<kTI>" [(lit "ti_var", VStr (lit "AMB_TI"))] [] [(lit "kTI", OFun knum)];
      fac "kTI" "kTI_<kTI>_<kb>" [] [] [(lit "kTI", OFun knum); (lit "kb", OFun knum)];
      fac "kTI" "kTI_amb_<kTI>_<kb>" [(lit "ti_var", VStr (lit "AMB_TI"))] [] [(lit "kTI", OFun knum); (lit "kb", OFun knum)] ].
(** the arguments of a newly created entry, utils/factory.py:650-664 *)
Definition created (d : fdict) (name : str) : result (dict value) :=
  match dget (items d) name with
  | Some _ => Err KeyError                           (* an existing entry, nothing is created *)
  | None => match first_construct (facs d) name with Ok (_, kw) => Ok kw | Err e => Err e end
  end.
