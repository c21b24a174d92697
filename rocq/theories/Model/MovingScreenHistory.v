(** The calibration object of the moving-screen technique over time, and its plot: detectors/_calibration.py
    PCCalibrationMovingScreen ("cal") and draw/_ebsd_detector_plot.py plot_moving_screen_calibration (562-690, "plt").

    Its points, patterns (of which only the shape is kept), delta_z, px_size, binning and convention are attributes
    which can be assigned at any time; the lines within the patterns are made when the object is created and by
    make_lines.  Real numbers instead of doubles, but with the results of divisions by zero.  Points are stacked in
    one array, so that there are as many in both patterns. *)
From Coq Require Import String List Arith Reals Bool.
From Verif Require Import Model.Detector Model.MovingScreen.
Import ListNotations.
Local Open Scope list_scope.
Local Open Scope R_scope.

(** Results of numpy's divisions.  The sign of an infinity is left out. *)
Inductive number := Finite (x : R) | Infinite | NotANumber.
Definition divide (a b : R) : number :=
  if Req_EM_T b 0 then (if Req_EM_T a 0 then NotANumber else Infinite) else Finite (a / b).

(** The object: the attributes assigned, and the lines in the "in" and "out" patterns, from start to end. *)
Definition line : Type := point * point.
Record state := State { settings : calibration; lines : list (line * line) }.

(** _construct_lines_between_points, cal 362-369, for both patterns: make_lines, cal 255-261. *)
Definition lines_between (features : list (point * point)) : list (line * line) :=
  map (fun fg => ((fst (fst fg), fst (snd fg)), (snd (fst fg), snd (snd fg)))) (pairs features).
Definition make_lines (s : state) : state := State (settings s) (lines_between (m_points (settings s))).
(** __init__, cal 80-102 *)
Definition create (c : calibration) : state := make_lines (State c []).

(** What a user can do to the object. *)
Inductive operation :=
| AssignPoints (features : list (point * point))
| AssignPatterns (nrows ncols : nat)
| AssignDeltaZ (dz : R)
| AssignPixelSize (px : option R)
| AssignBinning (b : R)
| AssignConvention (p : presentation)
| MakeLines.
(** An assignment to an attribute changes that attribute only. *)
Definition assign (o : operation) (c : calibration) : calibration :=
  let (ny, nx, f, dz, px, b, p) := c in
  match o with
  | AssignPoints f => Calibration ny nx f dz px b p
  | AssignPatterns ny nx => Calibration ny nx f dz px b p
  | AssignDeltaZ dz => Calibration ny nx f dz px b p
  | AssignPixelSize px => Calibration ny nx f dz px b p
  | AssignBinning b => Calibration ny nx f dz px b p
  | AssignConvention p => Calibration ny nx f dz px b p
  | MakeLines => c
  end.
Definition step (s : state) (o : operation) : state :=
  match o with
  | MakeLines => make_lines s
  | _ => State (assign o (settings s)) (lines s)
  end.
Definition run (s : state) (h : list operation) : state := fold_left step h s.

(** ** What is read from it.  None is an exception. *)

(** _pxy_all, cal 182-191: for each two features.  None in the list: not two finite numbers. *)
Definition intersections (s : state) : list (option point) :=
  map (fun fg => intersection (snd (fst fg)) (fst (fst fg)) (snd (snd fg)) (fst (snd fg))) (pairs (m_points (settings s))).
(** pxy_within_detector, cal 193-204.  Without two features the array has no columns (IndexError). *)
Definition mask (s : state) : option (list bool) :=
  if (length (m_points (settings s)) <? 2)%nat then None
  else Some (map (fun o => match o with Some p => within (settings s) p | None => false end) (intersections s)).
(** array[mask]: an IndexError if they are not of the same length. *)
Definition select {A} (l : list A) (m : list bool) : option (list A) :=
  if (length l =? length m)%nat then Some (map fst (filter snd (combine l m))) else None.
Definition bind {A B} (o : option A) (f : A -> option B) : option B := match o with Some a => f a | None => None end.

(** pxy_all, cal 206-212 *)
Definition pxy_all (s : state) : option (list point) :=
  bind (mask s) (fun m => option_map (flat_map (fun o => match o with Some p => [p] | None => [] end)) (select (intersections s) m)).
(** pcz_all, cal 234-243 *)
Definition distance_from (c : calibration) (l : line * line) : number :=
  let length_in := line_length (fst (fst l)) (snd (fst l)) in
  let length_out := line_length (fst (snd l)) (snd (snd l)) in
  let z := match divide length_out length_in with
           | Finite r => divide (m_delta_z c) (r - 1)
           | Infinite => Finite 0
           | NotANumber => NotANumber
           end in
  match m_px_size c, z with
  | Some px, Finite z => divide z (INR (m_nrows c) * px * m_binning c)
  | _, z => z
  end.
Definition pcz_all (s : state) : option (list number) :=
  bind (mask s) (fun m => select (map (distance_from (settings s)) (lines s)) m).
(** pcx_all, pcy_all and pc_all, cal 221-232 and 245-248 *)
Definition pc_xy (c : calibration) (p : point) : R * R :=
  let y := snd p / INR (m_nrows c) in
  (fst p / INR (m_ncols c), match m_convention c with TSL => 1 - y | BRUKER => y end).
Definition read_pc_all (s : state) : option (list ((R * R) * number)) :=
  bind (pxy_all s) (fun xy => bind (pcz_all s) (fun z => Some (combine (map (pc_xy (settings s)) xy) z))).

(** np.nanmean of a column: what is not a number is left out. *)
Definition sum (l : list R) : R := fold_right Rplus 0 l.
Definition finite_part (l : list number) : list R := flat_map (fun x => match x with Finite r => [r] | _ => [] end) l.
Definition nanmean (l : list number) : number :=
  if existsb (fun x => match x with Infinite => true | _ => false end) l then Infinite
  else match finite_part l with [] => NotANumber | v => Finite (sum v / INR (length v)) end.
(** pxy and pc, cal 214-219 and 250-253 *)
Definition pxy (s : state) : option (number * number) :=
  option_map (fun l => (nanmean (map (fun p => Finite (fst p)) l), nanmean (map (fun p => Finite (snd p)) l))) (pxy_all s).
Definition read_pc (s : state) : option (number * number * number) :=
  option_map (fun l => (nanmean (map (fun e => Finite (fst (fst e))) l), nanmean (map (fun e => Finite (snd (fst e))) l), nanmean (map snd l)))
    (read_pc_all s).

(** ** Plot *)

(** Keyword arguments. *)
Definition kwargs := list (string * R).
Definition get (k : string) (kw : kwargs) : option R := option_map snd (find (fun e => String.eqb k (fst e)) kw).
Definition has (k : string) (kw : kwargs) : bool := match get k kw with Some _ => true | None => false end.
Definition get_or (k : string) (kw : kwargs) (default : R) : R := match get k kw with Some v => v | None => default end.

Inductive picture := PatternIn | PatternOut | Grey.
Record pc_mark := Mark { position : number * number; circle_size : R; cross_size : R; order : R }.
Record panel := Panel { shown : picture; dots : list point; stars : list point; through : list line; pc_drawn : pc_mark }.

(** plt 638-690: the three panels.  None is an exception: those of the readings, and the TypeError if a keyword
    argument is given twice (a line or the dots).  Colours, titles and figure options are left out. *)
Definition plot (s : state) (line_kwargs scatter_kwargs pc_kwargs : option kwargs) : option (list panel) :=
  let line_kwargs := match line_kwargs with Some k => k | None => [("linewidth", 2); ("zorder", 1)]%string end in
  let scatter_kwargs := match scatter_kwargs with Some k => k | None => [("zorder", 2)]%string end in
  let pc_kwargs := match pc_kwargs with Some k => k | None => [] end in
  let features := m_points (settings s) in
  bind (pxy s) (fun xy => bind (pxy_all s) (fun all =>
    let twice := (negb (length (lines s) =? 0)%nat && (has "linestyle" line_kwargs || has "color" line_kwargs))
                 || has "color" scatter_kwargs || has "marker" scatter_kwargs
                 || (negb (length features =? 0)%nat && has "color" line_kwargs) in
    if twice then None
    else
      let s_ := get_or "s" pc_kwargs 200 in
      let mark := Mark xy s_ (1 / 2 * s_) (get_or "zorder" scatter_kwargs 2) in
      Some [Panel PatternIn (map fst features) [] (map fst (lines s)) mark;
            Panel PatternOut (map snd features) [] (map snd (lines s)) mark;
            Panel Grey (map fst features ++ map snd features) all (map (fun f => (snd f, fst f)) features) mark])).
