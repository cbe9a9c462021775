(** Animations: foxes/output/animation.py (Animator) and foxes/output/seq_plugins/seq_flow_ani_plugin.py (SeqFlowAnimationPlugin). *)
From Coq Require Import List Arith Lia.
From Verif Require Import Base.
Import ListNotations.

(** What a generator yields, animation.py:88-95: a pair of figure and artists, or something that is not of length 2 *)
Inductive yielded (A : Type) := Pair (fig : nat) (artists : list A) | Other.
Arguments Pair {A} fig artists.
Arguments Other {A}.
(** A generator is the list of what it still yields; next on an exhausted generator raises StopIteration *)
Definition gen (A : Type) : Type := list (yielded A).
(** The state of the call: self.fig, the local variable fig (None: not bound yet), the generators, the artists of the frame *)
(** animation.py:86-104: one pass through the generators. A figure different from self.fig, or a yield that is not a pair, raises ValueError *)
Fixpoint pass {A} (self loc : option nat) (gs : list (gen A)) : result (option nat * option nat * list (gen A) * list A) :=
  match gs with
  | [] => Ok (self, loc, [], [])
  | [] :: r => match pass self loc r with Ok (s, l, g, h) => Ok (s, l, [] :: g, h) | Err e => Err e end
  | (Other :: _) :: _ => Err ValueError
  | (Pair f a :: y) :: r =>
      match self with
      | Some f0 => if Nat.eqb f f0
          then match pass self (Some f) r with Ok (s, l, g, h) => Ok (s, l, y :: g, a ++ h) | Err e => Err e end
          else Err ValueError
      | None => match pass (Some f) (Some f) r with Ok (s, l, g, h) => Ok (s, l, y :: g, a ++ h) | Err e => Err e end
      end
  end.
(** animation.py:81-110: frames until a pass has no artists; [fuel] bounds the number of passes *)
Fixpoint frames_loop {A} (fuel : nat) (self loc : option nat) (gs : list (gen A)) : result (option nat * option nat * list (gen A) * list (list A)) :=
  match fuel with
  | O => Err OutOfFuel
  | S k =>
      match pass self loc gs with
      | Err e => Err e
      | Ok (s, l, g, []) => Ok (s, l, g, [])
      | Ok (s, l, g, h) => match frames_loop k s l g with Ok (s', l', g', fr) => Ok (s', l', g', h :: fr) | Err e => Err e end
      end
  end.
(** animation.py:56-119: animate. [self]: self.fig. Result: None without generators, else the figure of the animation, the frames, self.fig and the generators afterwards.
    The variable fig is not bound if no generator yielded: UnboundLocalError. The number of passes is at most one more than the number of yields *)
Definition animate {A} (self : option nat) (gs : list (gen A)) : result (option (nat * list (list A)) * option nat * list (gen A)) :=
  match gs with
  | [] => Ok (None, self, [])
  | _ =>
      match frames_loop (S (list_max (map (@length _) gs))) self None gs with
      | Err e => Err e
      | Ok (s, Some f, g, fr) => Ok (Some (f, fr), s, g)
      | Ok (s, None, g, fr) => Err NameError
      end
  end.

(** orientations, seq_flow_ani_plugin.py:79-88 *)
Inductive orient := XY | XZ | YZ.
(** The plugin: self.pars["title"] and self._data; a datum stands for the data of one state *)
Record plugin (D : Type) := { title : option nat; stored : list D }.
Arguments title {D}. Arguments stored {D}.
(** seq_flow_ani_plugin.py:58-100: update. [tfun]: the title function of the constructor, if any, of the counter; [n] is the counter *)
Definition update {D} (tfun : option (nat -> nat)) (p : plugin D) (nd : nat * D) : plugin D :=
  {| title := match tfun with Some f => Some (f (fst nd)) | None => title p end; stored := stored p ++ [snd nd] |}.
(** seq_flow_ani_plugin.py:45-56: initialize, then one update per state of the sequential run. [t0]: the title of the constructor, if it is not a function *)
Definition run {D} (tfun : option (nat -> nat)) (t0 : option nat) (l : list D) : plugin D :=
  fold_left (update tfun) (combine (seq 0 (length l)) l) {| title := t0; stored := [] |}.
(** seq_flow_ani_plugin.py:102-143: gen_images yields one picture per stored datum, by gen_states_fig_xy whatever the orientation, with self.pars["title"]; the picture of xz or yz data fails,
    as the grid data then has a number in place of y (x) coordinates and an array in place of the height (TypeError, get_fig.py:110-112). A picture is the title and the datum *)
Definition gen_images {D} (o : orient) (p : plugin D) : result (list (option nat * D)) :=
  match o, stored p with
  | XY, l => Ok (map (fun d => (title p, d)) l)
  | _, [] => Ok []
  | _, _ => Err TypeError
  end.
