(** What an interactive plot of a detector is expected to show. *)
From Coq Require Import String List Reals ZArith.
From Verif Require Import Model.Detector Model.Rotations Model.Simulation Model.KikuchiLines Model.GeometryViews.
From Verif Require Import Model.DetectorPlane Model.DetectorPlotter.
From Verif Require Model.SimulationMarkers Model.Intensity.
Import ListNotations.
Local Open Scope R_scope.

(** A detector with the same shape, pixel size and binning, these values of the seven parameters, and one PC *)
Definition with_values (v : parameter -> R) (d : detector) : detector :=
  Det (d_ny d) (d_nx d) (d_px_size d) (d_binning d) (v DetectorTilt) (v Azimuthal) (v Twist) (v SampleTilt)
    (PCArray [1%nat] [PC (v PCx) (v PCy) (v PCz)]).
Definition has_one_pc (d : detector) : Prop := exists p, d_pc d = PCArray [1%nat] [p].

(** What of the overlay is on the screen when its box is ticked: all bands and zone axes of the geometrical simulation, or the image of the
    simulated pattern on the area of the screen, its first row on top. *)
Definition image_point (extent : (R * R) * (R * R)) (rows_upwards : bool) (right below : R) : R * R :=
  let '((x0, x1), (y0, y1)) := extent in
  (x0 + right * (x1 - x0), if rows_upwards then y0 + below * (y1 - y0) else y1 + below * (y0 - y1)).
Definition bands_of (l : list drawing) : list segment := flat_map (fun x => match x with Bands l => l | _ => [] end) l.
Definition zone_axes_of (l : list drawing) : list point := flat_map (fun x => match x with ZoneAxes l => l | _ => [] end) l.
Definition is_image (x : drawing) : bool := match x with Image _ _ _ => true | _ => false end.
Definition drawn_when_ticked (d : detector) (q : quat) (c : coordinates) (on : plane) (o : content) (l : list drawing) : Prop :=
  match o with
  | Geometrical base reflectors _ _ => forall p, pcs (d_pc d) = [p] ->
      bands_of l = fst (geometrical_simulation base reflectors d p q c) /\ zone_axes_of l = snd (geometrical_simulation base reflectors d p q c) /\
      existsb is_image l = false
  | MasterPattern mp => exists pixels extent rows_upwards, l = [Image pixels extent rows_upwards] /\
      (forall dc, direction_cosines d None = OneSet dc -> pixels = option_map (project_single mp Intensity.Float32 true 0 1 q) (all_some dc)) /\
      ((1 < d_ny d)%Z -> (1 < d_nx d)%Z -> forall right below, image_point extent rows_upwards right below = SimulationMarkers.drawn_at (area on) right below)
  end.

(** The three views of a detector, and overlays for an orientation on the screen, one on top of the other *)
Definition shows (d : detector) (q : option quat) (c : coordinates) (pc circles : bool) (overlays : list overlay) (pict : picture) : Prop :=
  plot_side_view d = Some (side pict) /\ plot_top_view d = Some (top pict) /\
  plot d (match c with InPixels => "pixel" | Gnomonic => "gnomonic" end)%string 1 pc circles None None = Some (screen pict) /\
  match q with
  | None => on_screen pict = []
  | Some q => exists parts, on_screen pict = concat parts /\
      Forall2 (fun o l => if ticked o then drawn_when_ticked d q c (screen pict) (of_content o) l else l = []) overlays parts
  end.

(** ** Histories *)

Definition sets_overlay (i : nat) (a : action) : Prop :=
  match a with SetGeometrical k _ _ _ _ => k = i | SetMasterPattern k _ _ => k = i | _ => False end.
(** Overlays of a plotter are set before it is shown. *)
Definition overlays_before_shows (h : list action) : Prop :=
  forall before i c after a, h = (before ++ Show i c :: after)%list -> In a after -> ~ sets_overlay i a.
(** The caller gives detectors one PC only. *)
Definition one_pc_assigned (h : list action) : Prop := forall a pcs, In (AssignPC a pcs) h -> exists p, pcs = PCArray [1%nat] [p].
(** The caller does not change this detector, nor allows plotters to. *)
Definition leaves_alone (a : nat) (h : list action) : Prop :=
  forall x, In x h -> match x with Create k _ inplace => k = a -> inplace = false | Assign k _ _ => k <> a | AssignPC k _ => k <> a | _ => True end.
(** The value of a parameter after sliders were moved: that of the last move of its slider (which does not leave its range). *)
Definition after_moves (q : parameter) (least greatest : R) (moves : list (control * R)) (v : R) : R :=
  fold_left (fun v m => match fst m with
                        | ParameterSlider q' => if parameter_eqb q' q then Rmin (Rmax (snd m) least) greatest else v
                        | AngleSlider _ => v
                        end) moves v.

(** The values of a parameter of a detector, one for each projection center for the coordinates of these. *)
Definition readings (q : parameter) (d : detector) : list R :=
  match q with
  | SampleTilt => [d_sample_tilt d] | DetectorTilt => [d_tilt d] | Azimuthal => [d_azimuthal d] | Twist => [d_twist d]
  | PCx => map pcx (pcs (d_pc d)) | PCy => map pcy (pcs (d_pc d)) | PCz => map pcz (pcs (d_pc d))
  end.
