(** Plots of projection centers (PCs), draw/_projection_center_plot.py ("pcp"), as called from
    detectors/_ebsd_detector.py ("det": plot_pc 2097-2174, estimate_xtilt 1218-1235 and fit_pc 1577-1596), and of
    pattern positions in a map, draw/_plot_pattern_positions_in_map.py ("pos").

    Real numbers.  Colours, sizes of markers, legends and aspect are left out.  Of Matplotlib, points and texts are
    at the given coordinates, imshow(image, extent=(left, right, bottom, top)) draws the first row of the image at
    the top edge and the last at the bottom edge, and limits are as set. *)
From Coq Require Import String List Arith ZArith Bool Reals.
From Verif Require Import Model.Detector.
Import ListNotations.
Local Open Scope list_scope.
Local Open Scope R_scope.

(** ** Projection centers *)

Inductive label := PCx | PCy | PCz.
(** Columns of the PC array with three columns, pcp 207-211. *)
Definition column (j : nat) (p : pc3) : R := match j with 0%nat => pcx p | 1%nat => pcy p | _ => pcz p end.
(** labels, pcp 159. *)
Definition labels (j : nat) : label := match j with 0%nat => PCx | 1%nat => PCy | _ => PCz end.

Record panel := Panel { x_label : label; y_label : label; points : list (R * R); numbers : list (nat * (R * R));
                        x_inverted : bool; y_inverted : bool }.
Record map_panel := MapPanel { map_label : label; map_values : list (list R) }.
Record space := Space { x_label3 : label; y_label3 : label; z_label3 : label; points3 : list (R * R * R);
                        limits3 : (R * R) * (R * R) * (R * R); numbers3 : list (nat * (R * R * R)); z_inverted : bool }.

(** enumerate. *)
Definition enumerate {A} (l : list A) : list (nat * A) := combine (seq 0 (length l)) l.

(** plot_all_projection_centers_as_scatter, pcp 199-219: one panel for each pair of columns; then axes are inverted. *)
Definition scatter_panel (annotate : bool) (pcs : list pc3) (jk : nat * nat) (inv : bool * bool) : panel :=
  let x_coord := map (column (fst jk)) pcs in
  let y_coord := map (column (snd jk)) pcs in
  Panel (labels (fst jk)) (labels (snd jk)) (combine x_coord y_coord)
        (if annotate then enumerate (combine x_coord y_coord) else []) (fst inv) (snd inv).
Definition scatter_panels (annotate : bool) (pcs : list pc3) : list panel :=
  [scatter_panel annotate pcs (0, 1)%nat (true, false);
   scatter_panel annotate pcs (0, 2)%nat (true, true);
   scatter_panel annotate pcs (2, 1)%nat (false, false)].

(** Rows of an array of n columns in C order. *)
Fixpoint rows_of {A} (ny nx : nat) (l : list A) : list (list A) :=
  match ny with O => [] | S k => firstn nx l :: rows_of k nx (skipn nx l) end.

(** plot_all_projection_centers_in_map, pcp 183-196. *)
Definition map_panels (ny nx : nat) (pcs : list pc3) : list map_panel :=
  map (fun i => MapPanel (labels i) (map (map (column i)) (rows_of ny nx pcs))) [0; 1; 2]%nat.

(** np.min and np.max of a list that is not empty. *)
Definition min_of (l : list R) : R := match l with [] => 0 | a :: r => fold_left Rmin r a end.
Definition max_of (l : list R) : R := match l with [] => 0 | a :: r => fold_left Rmax r a end.

(** plot_all_projection_centers_in_3d, pcp 222-250. *)
Definition space_plot (annotate : bool) (pcs : list pc3) : space :=
  let coordinates := map (fun p => (pcx p, pcz p, pcy p)) pcs in
  let extent j := (min_of (map (column j) pcs), max_of (map (column j) pcs)) in
  Space (labels 0) (labels 2) (labels 1) coordinates (extent 0%nat, extent 2%nat, extent 1%nat)
        (if annotate then enumerate coordinates else []) true.

(** The dictionary figure_kwargs. *)
Record figure_kwargs := FigureKwargs { figsize : option (R * R); layout : option string }.
Definition setdefault {A} (given : option A) (default : A) : option A := match given with Some a => Some a | None => Some default end.

Inductive orientation := Horizontal | Vertical.
Inductive contents := Maps (l : list map_panel) | Scatters (l : list panel) | InSpace (s : space).
Inductive plotted := Refused | Figure (size : R * R) (c : contents).

(** plot_all_projection_centers (pcp 134-180) after the checks of plot_pc (det 2143-2174).  [default_size] is the
    figure size of Matplotlib.  The dictionary is the caller's: it is returned as the call leaves it. *)
Definition plot_pc (default_size : R * R) (nav_shape : list nat) (pcs : list pc3)
    (mode : string) (o : orientation) (annotate : bool) (kw : figure_kwargs) : plotted * figure_kwargs :=
  if (fold_right Nat.mul 1 nav_shape =? 1)%nat then (Refused, kw)
  else if (mode =? "map")%string && negb (length nav_shape =? 2)%nat then (Refused, kw)
  else if negb (existsb (String.eqb mode) ["map"; "scatter"; "3d"]%string) then (Refused, kw)
  else
    let kw1 := FigureKwargs (figsize kw) (setdefault (layout kw) "tight"%string) in
    let k := Rmax (fst default_size) (snd default_size) / 3 in
    let kw2 :=
      if existsb (String.eqb mode) ["map"; "scatter"]%string
      then FigureKwargs (setdefault (figsize kw1) (match o with Horizontal => (6 * k, 2 * k) | Vertical => (2 * k, 6 * k) end)) (layout kw1)
      else kw1 in
    let size := match figsize kw2 with Some s => s | None => default_size end in
    (Figure size
       (if (mode =? "map")%string then Maps (map_panels (nth 0 nav_shape 0%nat) (nth 1 nav_shape 0%nat) pcs)
        else if (mode =? "scatter")%string then Scatters (scatter_panels annotate pcs)
        else InSpace (space_plot annotate pcs)), kw2).

(** *** Fits *)

(** pc_fit.T of an array of shape (ny, nx, 3), and ravel of each of its three parts: column after column.  With one
    navigation dimension the order is unchanged (pcp 74-78). *)
Definition transposed {A} (nav_shape : list nat) (d : A) (l : list A) : list A :=
  match nav_shape with
  | [ny; nx] => flat_map (fun j => map (fun i => nth (i * nx + j) l d) (seq 0 ny)) (seq 0 nx)
  | _ => l
  end.
Record fit_panel := FitPanel { fit_x : label; fit_y : label; data_points : list (R * R); fit_points : list (R * R); fit_line : list (R * R) }.
Record fit_figure := FitFigure { flat : list fit_panel; data3 : list (R * R * R); fit3 : list (R * R * R);
                                 box : (R * R) * (R * R) * (R * R); has_surface : bool }.
(** plot_projection_center_fit, pcp 66-131. *)
Definition plot_projection_center_fit (nav_shape : list nat) (pcs fitted : list pc3) (intercept slope : R) : fit_figure :=
  let fit := transposed nav_shape (PC 0 0 0) fitted in
  let xy l := combine (map pcx l) (map pcy l) in
  let xz l := combine (map pcx l) (map pcz l) in
  let zy l := combine (map pcz l) (map pcy l) in
  let xzy := map (fun p => (pcx p, pcz p, pcy p)) in
  let lim c := (min_of (map c pcs ++ map c fit), max_of (map c pcs ++ map c fit)) in
  FitFigure
    [FitPanel PCx PCy (xy pcs) (xy fit) [];
     FitPanel PCx PCz (xz pcs) (xz fit) [];
     FitPanel PCz PCy (zy pcs) (zy fit) (map (fun p => (pcz p, intercept + slope * pcz p)) fit)]
    (xzy pcs) (xzy fit) (lim pcx, lim pcz, lim pcy) (length nav_shape =? 2)%nat.

(** The plot of estimate_xtilt: det 1218-1233 and plot_xtilt_estimate, pcp 33-63.  [predict] is the fitted line. *)
Record tilt_figure := TiltFigure { tilt_data : list (R * R); tilt_outliers : list (R * R); tilt_line : list (R * R) }.
Definition plot_xtilt_estimate (predict : R -> R) (pcs : list pc3) (is_outlier : option (list bool)) : tilt_figure :=
  let zy := map (fun p => (pcz p, pcy p)) in
  let z0 := min_of (map pcz pcs) in
  let z1 := max_of (map pcz pcs) in
  TiltFigure (zy pcs)
    (match is_outlier with None => [] | Some m => zy (map snd (filter fst (combine m pcs))) end)
    [(z0, predict z0); (z1, predict z1)].

(** ** Pattern positions in a map *)

(** An image as drawn: its rows and the four edges. *)
Record image (A : Type) := Image { pixels : list (list A); left : R; right : R; bottom : R; top : R }.
Arguments Image {A}.  Arguments pixels {A}.  Arguments left {A}.  Arguments right {A}.  Arguments bottom {A}.  Arguments top {A}.

Record map_figure (A : Type) := MapFigure {
  area_drawn : option (image A); roi_drawn : option (image A);
  roi_rectangle : option ((R * R) * (R * R));        (* corner (x, y), and width and height *)
  marks : list ((R * R) * nat);                      (* (x, y) and number *)
  view : option ((R * R) * (R * R)) }.               (* from left to right, from top to bottom *)
Arguments MapFigure {A}.  Arguments area_drawn {A}.  Arguments roi_drawn {A}.  Arguments roi_rectangle {A}.
Arguments marks {A}.  Arguments view {A}.

(** Arrays of positions (row, column) are kept in a store, as one may be shared with the caller: copy adds a new
    array and -= changes one. *)
Definition store := list (list (R * R)).
Definition copied (s : store) (a : nat) : store * nat := (s ++ [nth a s []], length s).
Fixpoint update {A} (l : list A) (k : nat) (f : A -> A) : list A :=
  match l, k with [], _ => [] | a :: r, O => f a :: r | a :: r, S m => a :: update r m f end.

(** plot_pattern_positions_in_map, pos 32-132, for the array [rc] of the store. *)
Definition plot_positions {A} (s : store) (rc : nat) (roi_shape : R * R) (roi_origin : R * R) (area_shape : option (R * R))
    (roi_image area_image : option (list (list A))) (new_axis : bool) : map_figure A * store :=
  let (roi_ny, roi_nx) := roi_shape in
  let is_origin := if Req_EM_T (fst roi_origin) 0 then if Req_EM_T (snd roi_origin) 0 then true else false else false in
  let (in_area, lims) := match area_shape with
                         | Some (ny, nx) => if new_axis then (true, (nx, ny)) else (false, (roi_nx, roi_ny))
                         | None => (false, (roi_nx, roi_ny))
                         end in
  let area := if in_area then option_map (fun im => Image (rev im) 0 (fst lims) 0 (snd lims)) area_image else None in
  let '(s1, rc1, origin) :=
    if in_area then (s, rc, roi_origin)
    else if is_origin then (s, rc, roi_origin)
    else let (s', a) := copied s rc in
         (update s' a (map (fun p => (fst p - fst roi_origin, snd p - snd roi_origin))), a, (0, 0)) in
  (MapFigure area
     (if new_axis then option_map (fun im => Image im (snd origin) (snd origin + roi_nx) (fst origin + roi_ny) (fst origin)) roi_image else None)
     (if new_axis then match area_shape with Some _ => Some ((snd origin, fst origin), (roi_nx, roi_ny)) | None => None end else None)
     (map (fun e => ((snd (snd e), fst (snd e)), fst e)) (enumerate (nth rc1 s1 [])))
     (if new_axis then Some ((0, fst lims), (0, snd lims)) else None), s1).
