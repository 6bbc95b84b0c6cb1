(** Model of what the frames of animate do to pyplot's state (make_frame, base.py:603-797, run by
    dask.compute, base.py:511) when several are made at once, in any interleaving of the calls:
    without a distributed client dask runs delayed tasks in threads of the same process.

    Modelled of matplotlib: plt.figure makes a figure with a new number and makes it the
    active one; plt.axes adds axes to the active figure; ax.pcolormesh and the rest draw on
    the axes they are called on; fig.savefig writes all axes of the figure; plt.close removes
    the figure.  Each call is one step. *)
From Verif Require Import Base.
Open Scope nat_scope.

(** Axes in a figure: the user's, or those a frame made, with whether its data are drawn
    (base.py:625, 673). *)
Inductive axes := Users (k : nat) | OfFrame (i : nat) (drawn : bool).
(** A figure: its number and its axes (base.py:624). *)
Definition figure : Type := nat * list axes.
(** pyplot's open figures, the last one active, and the files of frames written (base.py:624, 784). *)
Record canvas := mkCanvas { c_figs : list figure; c_files : list (nat * list axes) }.

(** Where a frame is: before plt.figure, before plt.axes, before drawing, before savefig, before
    plt.close, done (base.py:624, 625, 673, 784, 785). *)
Inductive place := Waiting | HasFigure (n : nat) | HasAxes (n : nat) | Drawn (n : nat) | Saved (n : nat) | Finished.

(** plt.figure(): the number after the largest (base.py:624). *)
Definition next_number (figs : list figure) : nat := S (fold_right Nat.max 0 (map fst figs)).
(** plt.axes(): gcf().add_subplot(), with a new figure if there is none (base.py:625). *)
Fixpoint add_axes (a : axes) (figs : list figure) : list figure :=
  match figs with
  | [] => [(1, [a])]
  | [f] => [(fst f, snd f ++ [a])]
  | f :: r => f :: add_axes a r
  end.
(** Drawing on the axes of frame i, wherever they are (base.py:673, 680). *)
Definition draw_axes (i : nat) (a : axes) : axes :=
  match a with OfFrame j d => OfFrame j (if Nat.eqb j i then true else d) | Users k => Users k end.
(** base.py:660-673. *)
Definition draw (i : nat) (figs : list figure) : list figure := map (fun f => (fst f, map (draw_axes i) (snd f))) figs.
(** fig.savefig (base.py:784). *)
Definition axes_of (n : nat) (figs : list figure) : list axes :=
  match find (fun f => Nat.eqb (fst f) n) figs with Some f => snd f | None => [] end.
(** plt.close(fig) (base.py:785). *)
Definition close (n : nat) (figs : list figure) : list figure := filter (fun f => negb (Nat.eqb (fst f) n)) figs.

(** The next call of frame i (base.py:624-785). *)
Definition step (i : nat) (p : place) (c : canvas) : place * canvas :=
  match p with
  | Waiting => let n := next_number (c_figs c) in (HasFigure n, mkCanvas (c_figs c ++ [(n, [])]) (c_files c))
  | HasFigure n => (HasAxes n, mkCanvas (add_axes (OfFrame i false) (c_figs c)) (c_files c))
  | HasAxes n => (Drawn n, mkCanvas (draw i (c_figs c)) (c_files c))
  | Drawn n => (Saved n, mkCanvas (c_figs c) (c_files c ++ [(i, axes_of n (c_figs c))]))
  | Saved n => (Finished, mkCanvas (close n (c_figs c)) (c_files c))
  | Finished => (Finished, c)
  end.
(** The frames of a batch and the canvas they share (base.py:509-511). *)
Record studio := mkStudio { s_place : nat -> place; s_canvas : canvas }.
(** base.py:511. *)
Definition advance (s : studio) (i : nat) : studio :=
  let '(p, c) := step i (s_place s i) (s_canvas s) in
  mkStudio (fun j => if Nat.eqb j i then p else s_place s j) c.
(** dask.compute: [schedule] names the frame that makes its next call (base.py:511). *)
Definition animate (figs : list figure) (schedule : list nat) : studio :=
  fold_left advance schedule (mkStudio (fun _ => Waiting) (mkCanvas figs [])).
