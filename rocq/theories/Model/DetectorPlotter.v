(** The interactive plot of a detector: EBSDDetectorPlotter, its overlays and sliders, draw/_ebsd_detector_plotter.py.

    Objects of the caller (detectors and dictionaries of options) are at addresses, so that sharing is seen. A history is
    a list of actions: calls, moving a slider, ticking a box and assigning to an attribute of a detector.

    Simplifications: figures, layout and ticks are left out, and formatting of all but zone axes and bands; exceptions are a
    flag. ipywidgets is taken to keep the value of a slider within its limits, and to call observers, in the order they
    were added, when a value changes. Signals of a detector (psygnal) have no effect: nothing is connected to them, here or
    elsewhere in the package. Angles of a rotation are those orix gives. *)
From Coq Require Import String List Arith ZArith Reals Bool.
From Verif Require Import Model.Detector Model.Rotations Model.Simulation Model.KikuchiLines Model.GeometryViews Model.DetectorPlane.
From Verif Require Model.Intensity Model.Pattern.
Import ListNotations.
Local Open Scope R_scope.

(** ** Sliders *)

(** get_detector_value_range, 61-70 *)
Definition detector_value_range (value vmin vmax : R) : R * R :=
  let margin := Rmax ((vmax - vmin) * (1/10)) (1/10) in
  let vmin' := if Rlt_dec value vmin then value - margin else vmin in
  let vmax' := if Rlt_dec vmax value then value + margin else vmax in
  (vmin', vmax').

Record slider := Slider { least : R; greatest : R; value : R }.
(** A value given to a slider of ipywidgets. *)
Definition set_value (s : slider) (v : R) : slider := Slider (least s) (greatest s) (Rmin (Rmax v (least s)) (greatest s)).
Definition new_slider (v : R) (range : R * R) : slider := set_value (Slider (fst range) (snd range) v) v.

Inductive parameter := SampleTilt | DetectorTilt | Azimuthal | Twist | PCx | PCy | PCz.
Definition parameter_eqb (a b : parameter) : bool :=
  match a, b with
  | SampleTilt, SampleTilt | DetectorTilt, DetectorTilt | Azimuthal, Azimuthal | Twist, Twist
  | PCx, PCx | PCy, PCy | PCz, PCz => true
  | _, _ => false
  end.

(** get_sample_tilt_slider 77-92, get_detector_tilt_slider 95-110, get_detector_azimuthal_slider 113-128,
    get_detector_twist_slider 131-146, get_pcx_slider 149-164, get_pcy_slider 167-182, get_pcz_slider 185-200 *)
Definition current (q : parameter) (d : detector) : R :=
  match q with
  | SampleTilt => d_sample_tilt d
  | DetectorTilt => d_tilt d
  | Azimuthal => d_azimuthal d
  | Twist => d_twist d
  | PCx => pcx (mean_pc (pcs (d_pc d)))
  | PCy => pcy (mean_pc (pcs (d_pc d)))
  | PCz => pcz (mean_pc (pcs (d_pc d)))
  end.
Definition usual_range (q : parameter) : R * R :=
  match q with
  | SampleTilt => (0, 90)
  | DetectorTilt => (-90, 90)
  | Azimuthal | Twist => (-10, 10)
  | PCx => (0, 1)
  | PCy => (-1/2, 3/2)
  | PCz => (2/10, 1)
  end.
Definition parameter_slider (q : parameter) (d : detector) : slider :=
  new_slider (current q d) (detector_value_range (current q d) (fst (usual_range q)) (snd (usual_range q))).

(** get_phi1_slider 203-217, get_Phi_slider 220-234, get_phi2_slider 237-251 *)
Inductive angle := Phi1 | BigPhi | Phi2.
Definition angle_eqb (a b : angle) : bool := match a, b with Phi1, Phi1 | BigPhi, BigPhi | Phi2, Phi2 => true | _, _ => false end.
(** A single rotation: its quaternion and its Euler angles in degrees (to_euler). *)
Record rotation := Rotation { quaternion : quat; euler : angle -> R }.
Definition angle_slider (a : angle) (r : rotation) : slider :=
  new_slider (euler r a) (0, match a with BigPhi => 180 | _ => 360 end).

(** ** Detectors *)

(** The setters of the attributes of a detector, detectors/_ebsd_detector.py 337-344, 366-372, 393-398, 418-424, 511-566; all PCs
    get a given coordinate. *)
Definition assign (q : parameter) (v : R) (d : detector) : detector :=
  match q with
  | SampleTilt => Det (d_ny d) (d_nx d) (d_px_size d) (d_binning d) (d_tilt d) (d_azimuthal d) (d_twist d) v (d_pc d)
  | DetectorTilt => Det (d_ny d) (d_nx d) (d_px_size d) (d_binning d) v (d_azimuthal d) (d_twist d) (d_sample_tilt d) (d_pc d)
  | Azimuthal => Det (d_ny d) (d_nx d) (d_px_size d) (d_binning d) (d_tilt d) v (d_twist d) (d_sample_tilt d) (d_pc d)
  | Twist => Det (d_ny d) (d_nx d) (d_px_size d) (d_binning d) (d_tilt d) (d_azimuthal d) v (d_sample_tilt d) (d_pc d)
  | PCx => with_pc d (map_pc (fun p => PC v (pcy p) (pcz p)) (d_pc d))
  | PCy => with_pc d (map_pc (fun p => PC (pcx p) v (pcz p)) (d_pc d))
  | PCz => with_pc d (map_pc (fun p => PC (pcx p) (pcy p) v) (d_pc d))
  end.
(** The setter of the PC (457-462) given one PC: an array of shape (1, 3). *)
Definition one_pc (p : pc3) : pcarray := PCArray [1%nat] [p].
(** update_detector_from_sliders, 900-905 *)
Definition update_detector (s : parameter -> slider) (d : detector) : detector :=
  let d := assign SampleTilt (value (s SampleTilt)) d in
  let d := assign DetectorTilt (value (s DetectorTilt)) d in
  let d := assign Azimuthal (value (s Azimuthal)) d in
  let d := assign Twist (value (s Twist)) d in
  with_pc d (one_pc (PC (value (s PCx)) (value (s PCy)) (value (s PCz)))).

(** ** Overlays *)

(** Dictionaries of options *)
Inductive option_value := Text (s : string) | Numeric (x : R).
Definition options := list (string * option_value).
Fixpoint get (k : string) (o : options) : option option_value :=
  match o with [] => None | (k', v) :: r => if String.eqb k k' then Some v else get k r end.
Definition setdefault (o : options) (kv : string * option_value) : options :=
  match get (fst kv) o with Some _ => o | None => o ++ [kv] end.
Fixpoint set_item (k : string) (v : option_value) (o : options) : options :=
  match o with
  | [] => [(k, v)]
  | (k', v') :: r => if String.eqb k k' then (k', v) :: r else (k', v') :: set_item k v r
  end.
Definition bands_defaults : options := [("color", Text "r"); ("linewidth", Numeric 1); ("zorder", Numeric 2)]%string.
Definition zone_axes_defaults : options := [("fc", Text "w"); ("ec", Text "k"); ("zorder", Numeric 3)]%string.

(** GeometricalSimulationOverlay, 471-544: a lattice, reflectors, addresses of the options for bands and for zone axes. MasterPatternOverlay,
    547-627: the hemispheres of the energy. Both have a box, which is ticked or not. *)
Inductive content := Geometrical (base : mat) (reflectors : list index) (bands_options zone_axes_options : nat) | MasterPattern (mp : master).
Record overlay := Overlay { of_content : content; ticked : bool }.
Definition is_geometrical (o : overlay) : bool := match of_content o with Geometrical _ _ _ _ => true | MasterPattern _ => false end.

(** What is drawn on the detector. An image has its pixels (None: read from outside of an array), its extent and whether rows are upwards (origin
    "lower"). *)
Inductive drawing :=
  | Bands (l : list segment)
  | ZoneAxes (l : list point)
  | Image (pixels : option (list R)) (extent : (R * R) * (R * R)) (lower_origin : bool).
(** GeometricalSimulationOverlay.draw, 523-544, and MasterPatternOverlay.draw, 594-627. None: ValueError, with several PCs. *)
Definition draw (d : detector) (q : quat) (c : coordinates) (o : overlay) : option (list drawing) :=
  match ticked o, pcs (d_pc d) with
  | false, _ => Some []
  | true, [p] =>
      match of_content o with
      | Geometrical base reflectors _ _ =>
          let '(bands, za) := geometrical_simulation base reflectors d p q c in
          Some ((match bands with [] => [] | _ => [Bands bands] end) ++ (match za with [] => [] | _ => [ZoneAxes za] end))%list
      | MasterPattern mp =>
          let dc := match direction_cosines d None with OneSet dc => all_some dc | PerPC _ => None end in
          let pixels := option_map (project_single mp Intensity.Float32 true 0 1 q) dc in
          match c with
          | Gnomonic => Some [Image pixels (snd (SimulationMarkers.detector_plot d Gnomonic)) false]
          | InPixels => Some [Image pixels ((0, ncols d - 1), (0, nrows d - 1)) true]
          end
      end
  | true, _ => None
  end.

(** ** Figures *)

Record picture := Picture { side : side_view; top : top_view; screen : plane; on_screen : list drawing }.
(** redraw_side, redraw_top and redraw_det, 864-892 *)
Definition redraw (d : detector) (q : option quat) (c : coordinates) (pc circles : bool) (overlays : list overlay) : option picture :=
  match plot_side_view d, plot_top_view d, update_detector_plane d c 1 (Some circles) pc with
  | Some s, Some t, Some p =>
      match q with
      | None => Some (Picture s t p [])
      | Some q => option_map (fun l => Picture s t p (concat l)) (all_some (map (draw d q c) overlays))
      end
  | _, _, _ => None
  end.

(** A plotter: the address of its detector, its rotation and overlays. *)
Record plotter := Plotter { p_detector : nat; p_rotation : option rotation; p_overlays : list overlay }.
(** A figure: number of the plotter, coordinates, sliders, boxes, number of overlays whose boxes it observes, what it shows, and options with
    which bands and zone axes were drawn. *)
Record figure := Figure {
  f_plotter : nat; f_coordinates : coordinates; f_sliders : parameter -> slider; f_angles : option (angle -> slider);
  f_pc : bool; f_circles : bool; f_watched : nat; f_picture : picture; f_options : list (options * options) }.
Record world := World { detectors : list detector; dictionaries : list options; plotters : list plotter; figures : list figure }.

Fixpoint replace {A} (i : nat) (a : A) (l : list A) : list A :=
  match l, i with [], _ => [] | _ :: r, O => a :: r | b :: r, S i => b :: replace i a r end.
Definition with_detectors w l := World l (dictionaries w) (plotters w) (figures w).
Definition with_dictionaries w l := World (detectors w) l (plotters w) (figures w).
Definition with_plotters w l := World (detectors w) (dictionaries w) l (figures w).
Definition with_figures w l := World (detectors w) (dictionaries w) (plotters w) l.

(** get_rotation, 858-862 *)
Definition rotation_of (p : plotter) (angles : option (angle -> slider)) : option quat :=
  match angles with
  | Some a => Some (rotation_from_euler (deg2rad (value (a Phi1))) (deg2rad (value (a BigPhi))) (deg2rad (value (a Phi2))))
  | None => option_map quaternion (p_rotation p)
  end.
(** The dictionaries used by the overlays drawn. *)
Definition used_options (dicts : list options) (overlays : list overlay) : list (options * options) :=
  flat_map (fun o => match of_content o with
                     | Geometrical _ _ b z => if ticked o then [(nth b dicts [], nth z dicts [])] else []
                     | MasterPattern _ => []
                     end) overlays.

(** on_slider_change, 909-923, of figure number i. False: an exception. *)
Definition on_change (i : nat) (w : world) : world * bool :=
  match nth_error (figures w) i with
  | None => (w, false)
  | Some f =>
    match nth_error (plotters w) (f_plotter f) with
    | None => (w, false)
    | Some p =>
      match nth_error (detectors w) (p_detector p) with
      | None => (w, false)
      | Some d =>
          let d' := update_detector (f_sliders f) d in
          let w' := with_detectors w (replace (p_detector p) d' (detectors w)) in
          match redraw d' (rotation_of p (f_angles f)) (f_coordinates f) (f_pc f) (f_circles f) (p_overlays p) with
          | None => (w', false)
          | Some pict =>
              (with_figures w' (replace i (Figure (f_plotter f) (f_coordinates f) (f_sliders f) (f_angles f) (f_pc f) (f_circles f)
                 (f_watched f) pict (used_options (dictionaries w) (p_overlays p))) (figures w')), true)
          end
      end
    end
  end.

(** ** Actions *)

Inductive control := ParameterSlider (q : parameter) | AngleSlider (a : angle).
Inductive action :=
  | Create (address : nat) (r : option rotation) (inplace : bool)
  | SetGeometrical (plotter : nat) (base : mat) (reflectors : list index) (bands_options zone_axes_options : option nat)
  | SetMasterPattern (plotter : nat) (suitable : bool) (mp : master)
  | Show (plotter : nat) (c : coordinates)
  | Move (figure : nat) (c : control) (v : R)
  | TickPC (figure : nat)
  | TickCircles (figure : nat)
  | TickOverlay (plotter overlay : nat)
  | Assign (address : nat) (q : parameter) (v : R)
  | AssignPC (address : nat) (a : pcarray).

(** EBSDDetectorPlotter.__init__, 663-676 *)
Definition create (a : nat) (r : option rotation) (inplace : bool) (w : world) : world * bool :=
  match nth_error (detectors w) a with
  | None => (w, false)
  | Some d =>
      let d' := with_pc d (one_pc (mean_pc (pcs (d_pc d)))) in
      if inplace then (with_plotters (with_detectors w (replace a d' (detectors w))) (plotters w ++ [Plotter a r []])%list, true)
      else (with_plotters (with_detectors w (detectors w ++ [d'])%list) (plotters w ++ [Plotter (length (detectors w)) r []])%list, true)
  end.

(** _raise_if_no_rotation and _raise_if_has_overlay, 961-972 *)
Definition can_set (p : plotter) (geometrical : bool) : bool :=
  match p_rotation p with
  | None => false
  | Some _ => negb (existsb (fun o => Bool.eqb (is_geometrical o) geometrical) (p_overlays p))
  end.
Definition add_overlay (i : nat) (p : plotter) (c : content) (w : world) : world :=
  with_plotters w (replace i (Plotter (p_detector p) (p_rotation p) (p_overlays p ++ [Overlay c true])%list) (plotters w)).
(** A dictionary given, or a new one. *)
Definition dictionary (a : option nat) (w : world) : nat * world :=
  match a with Some a => (a, w) | None => (length (dictionaries w), with_dictionaries w (dictionaries w ++ [[]])%list) end.
Definition with_defaults (a : nat) (defaults : options) (w : world) : world :=
  with_dictionaries w (replace a (fold_left setdefault defaults (nth a (dictionaries w) [])) (dictionaries w)).
(** set_geometrical_simulation, 701-729, and GeometricalSimulationOverlay.__init__, 487-513 *)
Definition set_geometrical (i : nat) (base : mat) (reflectors : list index) (bands zone_axes : option nat) (w : world) : world * bool :=
  match nth_error (plotters w) i with
  | None => (w, false)
  | Some p =>
      if can_set p true then
        let '(b, w) := dictionary bands w in
        let w := with_defaults b bands_defaults w in
        let '(z, w) := dictionary zone_axes w in
        let w := with_defaults z zone_axes_defaults w in
        (add_overlay i p (Geometrical base reflectors b z) w, true)
      else (w, false)
  end.
(** set_master_pattern, 731-758, and MasterPatternOverlay.__init__, 562-585, which fails for one not suitable for projection. *)
Definition set_master_pattern (i : nat) (suitable : bool) (mp : master) (w : world) : world * bool :=
  match nth_error (plotters w) i with
  | None => (w, false)
  | Some p => if can_set p false && suitable then (add_overlay i p (MasterPattern mp) w, true) else (w, false)
  end.

(** GeometricalSimulationOverlay.setup, 519-521, and MasterPatternOverlay.setup, 591-592 *)
Definition setup (d : detector) (dicts : list options) (o : overlay) : list options :=
  match of_content o with
  | Geometrical _ _ _ z =>
      replace z (set_item "s" (Numeric (Rmax (PI * (1/100 * nrows d) ^ 2) 6)) (nth z dicts [])) dicts
  | MasterPattern _ => dicts
  end.
(** show, 760-950 *)
Definition show (i : nat) (c : coordinates) (w : world) : world * bool :=
  match nth_error (plotters w) i with
  | None => (w, false)
  | Some p =>
    match nth_error (detectors w) (p_detector p) with
    | None => (w, false)
    | Some d =>
        let w := with_dictionaries w (fold_left (setup d) (p_overlays p) (dictionaries w)) in
        let angles := match p_overlays p, p_rotation p with
                      | _ :: _, Some r => Some (fun a => angle_slider a r)
                      | _, _ => None
                      end in
        match redraw d (rotation_of p angles) c true false (p_overlays p) with
        | None => (w, false)
        | Some pict =>
            (with_figures w (figures w ++ [Figure i c (fun q => parameter_slider q d) angles true false (length (p_overlays p)) pict
               (used_options (dictionaries w) (p_overlays p))])%list, true)
        end
    end
  end.

(** A slider is moved: observers are called if its value changes. *)
Definition moved (f : figure) (c : control) (v : R) : option figure :=
  match c with
  | ParameterSlider q =>
      let s := set_value (f_sliders f q) v in
      if Req_EM_T (value s) (value (f_sliders f q)) then None
      else Some (Figure (f_plotter f) (f_coordinates f) (fun q' => if parameter_eqb q' q then s else f_sliders f q') (f_angles f)
                   (f_pc f) (f_circles f) (f_watched f) (f_picture f) (f_options f))
  | AngleSlider a =>
      match f_angles f with
      | None => None
      | Some angles =>
          let s := set_value (angles a) v in
          if Req_EM_T (value s) (value (angles a)) then None
          else Some (Figure (f_plotter f) (f_coordinates f) (f_sliders f) (Some (fun a' => if angle_eqb a' a then s else angles a'))
                       (f_pc f) (f_circles f) (f_watched f) (f_picture f) (f_options f))
      end
  end.
Definition move (i : nat) (c : control) (v : R) (w : world) : world * bool :=
  match nth_error (figures w) i with
  | None => (w, false)
  | Some f => match moved f c v with None => (w, true) | Some f' => on_change i (with_figures w (replace i f' (figures w))) end
  end.
(** The boxes of a figure *)
Definition tick_pc (i : nat) (w : world) : world * bool :=
  match nth_error (figures w) i with
  | None => (w, false)
  | Some f => on_change i (with_figures w (replace i (Figure (f_plotter f) (f_coordinates f) (f_sliders f) (f_angles f) (negb (f_pc f))
                (f_circles f) (f_watched f) (f_picture f) (f_options f)) (figures w)))
  end.
Definition tick_circles (i : nat) (w : world) : world * bool :=
  match nth_error (figures w) i with
  | None => (w, false)
  | Some f => on_change i (with_figures w (replace i (Figure (f_plotter f) (f_coordinates f) (f_sliders f) (f_angles f) (f_pc f)
                (negb (f_circles f)) (f_watched f) (f_picture f) (f_options f)) (figures w)))
  end.
(** The box of an overlay, which all figures with it observe. An exception in an observer ends the calls. *)
Fixpoint on_changes (l : list nat) (w : world) : world * bool :=
  match l with
  | [] => (w, true)
  | i :: r => let '(w', ok) := on_change i w in if ok then on_changes r w' else (w', false)
  end.
Definition watching (k j : nat) (w : world) : list nat :=
  filter (fun i => match nth_error (figures w) i with
                   | Some f => Nat.eqb (f_plotter f) k && Nat.ltb j (f_watched f)
                   | None => false
                   end) (seq 0 (length (figures w))).
Definition tick_overlay (k j : nat) (w : world) : world * bool :=
  match nth_error (plotters w) k with
  | None => (w, false)
  | Some p =>
    match nth_error (p_overlays p) j with
    | None => (w, false)
    | Some o =>
        let w := with_plotters w (replace k (Plotter (p_detector p) (p_rotation p)
                   (replace j (Overlay (of_content o) (negb (ticked o))) (p_overlays p))) (plotters w)) in
        on_changes (watching k j w) w
    end
  end.

Definition on_detector_at (a : nat) (f : detector -> detector) (w : world) : world * bool :=
  match nth_error (detectors w) a with
  | None => (w, false)
  | Some d => (with_detectors w (replace a (f d) (detectors w)), true)
  end.
Definition step (a : action) (w : world) : world * bool :=
  match a with
  | Create a r inplace => create a r inplace w
  | SetGeometrical i base reflectors b z => set_geometrical i base reflectors b z w
  | SetMasterPattern i suitable mp => set_master_pattern i suitable mp w
  | Show i c => show i c w
  | Move i c v => move i c v w
  | TickPC i => tick_pc i w
  | TickCircles i => tick_circles i w
  | TickOverlay k j => tick_overlay k j w
  | Assign a q v => on_detector_at a (assign q v) w
  | AssignPC a pc => on_detector_at a (fun d => with_pc d pc) w
  end.
Definition start (ds : list detector) (os : list options) : world := World ds os [] [].
(** Exceptions end an action, not the history. *)
Definition run (h : list action) (w : world) : world := fold_left (fun w a => fst (step a w)) h w.
