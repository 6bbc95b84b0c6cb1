(** Model of what plots do to the process they run in: numpy's global random numbers
    (setup_id_plot_params, base.py:578-590), matplotlib's settings (setup_plot_params,
    base.py:573-576) and pyplot's current axes (single_plot, base.py:269-278, 295-346).

    [draws s k] is the k-th number numpy gives after np.random.seed(s); before the first
    seeding the process is at some place of some stream.  Of matplotlib's settings the two
    that plots set are kept. *)
From Coq Require Import String.
From Verif Require Import Base Plot Draw.
Open Scope nat_scope.

(** ** Random numbers and settings *)

(** One row of the colour map (base.py:587). *)
Definition shade : Type := Q * Q * Q.
(** text.usetex and font.family (base.py:575-576). *)
Record settings := mkSettings { usetex : bool; family : string }.
(** Stream and place of numpy's global generator, settings (base.py:575-587). *)
Record process := mkProcess { seed : Z; taken : nat; rc : settings }.

(** setup_plot_params (base.py:573-576). *)
Definition set_fonts (p : process) : process := mkProcess (seed p) (taken p) (mkSettings false "serif").
Section Random.
Variable draws : Z -> nat -> Q.
(** np.random.random(size=(n, 3)): row by row (base.py:587). *)
Fixpoint random_rows (n : nat) (p : process) : list shade * process :=
  match n with
  | 0 => ([], p)
  | S k =>
    let d := draws (seed p) in let t := taken p in
    let (rows, p') := random_rows k (mkProcess (seed p) (t + 3) (rc p)) in
    ((d t, d (t + 1), d (t + 2)) :: rows, p')
  end.
(** _setup_common_params with plot_IDs and setup_id_plot_params (base.py:241-247, 578-590): the
    largest ID and the colour map. *)
Definition id_colours (values : list value) (cmap : option (list shade)) (p : process) : result draw_err (nat * list shade) * process :=
  let p := set_fonts p in
  match max_id values with
  | None => (Err NoNumber, p)
  | Some m =>
    match cmap with
    | None => let (rows, p) := random_rows m (mkProcess 42 0 (rc p)) in (Ok (m, rows), p)
    | Some l => (if Nat.ltb (length l) m then Err FewColours else Ok (m, l), p)
    end
  end.
(** The colour an ID is drawn in (base.py:589). *)
Definition shade_of (c : nat * list shade) (id : nat) : option shade :=
  match colour (fst c) (Some (length (snd c))) id with Ok k => nth_error (snd c) k | Err _ => None end.

(** What a program does: seed, draw a number, change settings, plot IDs, plot something else
    (base.py:233-267). *)
Inductive op := Seed (s : Z) | Random | Rc (s : settings) | IdPlot (values : list value) (cmap : option (list shade)) | OtherPlot.
(** base.py:233-267, 573-590. *)
Definition perform (p : process) (o : op) : list Q * process :=
  match o with
  | Seed s => ([], mkProcess s 0 (rc p))
  | Random => ([draws (seed p) (taken p)], mkProcess (seed p) (taken p + 1) (rc p))
  | Rc s => ([], mkProcess (seed p) (taken p) s)
  | IdPlot values cmap => ([], snd (id_colours values cmap p))
  | OtherPlot => ([], set_fonts p)
  end.
(** The numbers the program draws, and the process afterwards (base.py:233-267). *)
Fixpoint perform_all (p : process) (l : list op) : list Q * process :=
  match l with
  | [] => ([], p)
  | o :: r => let (a, p1) := perform p o in let (b, p2) := perform_all p1 r in (a ++ b, p2)
  end.
End Random.

(** ** Current axes *)

(** A figure: its axes in order of creation, the current one (base.py:275). *)
Record fig := mkFig { g_axes : list nat; g_current : option nat }.
(** pyplot's figures (the last is the active one), the number of axes made so far, and the colour
    bars: beside which axes, for the picture in which axes (base.py:274-277, 314). *)
Record screen := mkScreen { managed : list fig; next_axes : nat; bars : list (nat * nat) }.
(** plt.figure() (base.py:274). *)
Definition plt_figure (s : screen) : screen := mkScreen (managed s ++ [mkFig [] None]) (next_axes s) (bars s).
(** New axes in the last figure, a new one if there is none (base.py:275). *)
Fixpoint add_to_last (a : nat) (l : list fig) : list fig :=
  match l with
  | [] => [mkFig [a] (Some a)]
  | [f] => [mkFig (g_axes f ++ [a]) (Some a)]
  | f :: r => f :: add_to_last a r
  end.
(** plt.axes() (base.py:275). *)
Definition plt_axes (s : screen) : nat * screen :=
  (next_axes s, mkScreen (add_to_last (next_axes s) (managed s)) (S (next_axes s)) (bars s)).
(** plt.gca() (base.py:314). *)
Definition plt_gca (s : screen) : nat * screen :=
  match g_current (last (managed s) (mkFig [] None)) with
  | Some a => (a, s)
  | None => plt_axes s
  end.
(** _setup_axes (base.py:269-278). *)
Definition setup_axes (ax : option nat) (s : screen) : nat * screen :=
  match ax with None => plt_axes (plt_figure s) | Some a => (a, s) end.
(** _setup_colorbar without a position (base.py:305-314). *)
Definition setup_colorbar (show : bool) (own : nat) (s : screen) : screen :=
  if show then let (a, s) := plt_gca s in mkScreen (managed s) (next_axes s) (bars s ++ [(a, own)]) else s.
(** single_plot (base.py:331-346): the axes drawn on, the screen afterwards. *)
Definition single_plot_on (ax : option nat) (show : bool) (s : screen) : nat * screen :=
  let (own, s) := setup_axes ax s in (own, setup_colorbar show own s).
