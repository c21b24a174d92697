(** Plots of reflectors: KikuchiPatternSimulator.plot (simulations/kikuchi_pattern_simulator.py 382-538) and _plot_spherical
    (557-672).

    Simplifications: real numbers; structure factors are calculated if they are used; axes, labels, arrows, the white sphere
    and show_plotter are left out.  Facts about other libraries: np.argsort gives indices which sort, the order of equal
    values being unspecified ([argsort]); ref[order] keeps Bragg angles (diffsims); draw_circle (orix) draws for each
    vector, in order, the circle on the sphere with this axis and opening angle, 90 degrees if not given, in the colour of
    the vector; get_circle (orix) gives [steps] points on it ([circle]); Vector3d.from_polar with the angles of a vector
    gives the vector of this direction and the given length (orix). *)
From Coq Require Import String List Arith Reals Bool.
From Verif Require Import Model.Binary Model.Detector Model.Lambert.
From Verif Require Model.KinematicalMaster.
Import ListNotations.
Local Open Scope R_scope.

(** Red, green, blue, and opacity *)
Definition rgb := (R * R * R)%type.
Definition rgba := (rgb * R)%type.

(** What is drawn: circles by axis, opening angle and colour; curves through points; or one mesh of points, the lines
    through them (for each the number of its points followed by these) and a value for each line. *)
Inductive figure :=
| Circles (circles : list (vec * R * rgba)) (hemisphere : option string) (linewidth : option R)
| Curves (curves : list (list vec * rgba))
| Mesh (points : list vec) (lines : list nat) (scalars : list R) (clim : option (R * R)).

(** l[order] *)
Definition take {A} (d : A) (l : list A) (order : list nat) : list A := map (fun i => nth i l d) order.
(** np.max; 0 for an empty array, where it is a ValueError *)
Fixpoint maximum (l : list R) : R := match l with [] => 0 | [x] => x | x :: r => Rmax x (maximum r) end.

Section Plot.
Variables (argsort : list R -> list nat) (circle : vec -> R -> list vec) (to_rgb : string -> option rgb) (phase_rgb : rgb).
(** steps = 101, line 569; [circle] gives as many points. *)
Definition steps : nat := 101.

(** "Vector3d.from_polar(v.azimuth, v.polar, radial=1.01)", lines 636-637 *)
Definition from_polar (radial : R) (v : vec) : vec := let u := normalise v in Vec (radial * vx u) (radial * vy u) (radial * vz u).

(** _plot_spherical; [scaled] is whether there is a title of the scaling, [existing] whether a figure is given. *)
Definition plot_spherical (mode : string) (ref : list vec) (theta : list R) (color : list rgba) (backend : string) (existing scaled : bool)
    (intensity : list R) : figure :=
  let v := map normalise ref in
  let circles :=
    if (mode =? "lines")%string then [map (fun v => circle v (PI / 2)) v]
    else [map (fun vt => circle (fst vt) (PI / 2 - snd vt)) (combine v theta); map (fun vt => circle (fst vt) (PI / 2 + snd vt)) (combine v theta)] in
  if (backend =? "matplotlib")%string then
    Curves (match circles with
            | [c] => combine c color
            | c1 :: c2 :: _ => flat_map (fun cc => [(fst (fst cc), snd cc); (snd (fst cc), snd cc)]) (combine (combine c1 c2) color)
            | [] => []
            end)
  else
    let circles := if existing then map (map (map (from_polar 1.01))) circles else circles in
    let rows := concat circles in
    let intensity := if (mode =? "lines")%string then intensity else intensity ++ intensity in
    let lines := flat_map (fun k => steps :: seq (k * steps) steps) (seq 0 (List.length rows)) in
    Mesh (concat rows) lines intensity (if scaled then Some (0, maximum intensity) else None).

(** plot; [linewidth] is the one in the keyword arguments, if any; None is a ValueError. *)
Definition plot (r : KinematicalMaster.reflectors) (projection mode hemisphere : string) (scaling : option string) (existing : bool)
    (backend color : string) (linewidth : option R) : option figure :=
  if negb ((mode =? "lines")%string || (mode =? "bands")%string) then None
  else if ((mode =? "bands")%string && match KinematicalMaster.thetas r with None => true | Some _ => false end)%bool then None
  else
    let size := List.length (KinematicalMaster.vectors r) in
    let? intensity_order :=
      match scaling with
      | None => Some (repeat 1 size, seq 0 size)
      | Some _ =>
          let? intensity := KinematicalMaster.intensities scaling (match KinematicalMaster.factors r with Some f => f | None => [] end) in
          Some (intensity, argsort intensity)
      end in
    let (intensity, order) := intensity_order in
    let? color_rgb := if (color =? "phase")%string then Some phase_rgb else to_rgb color in
    let intensity_scaled := match scaling with Some _ => map (fun i => i / maximum intensity) intensity | None => intensity end in
    let color_rgba := take (color_rgb, 0) (map (fun i => (color_rgb, i)) intensity_scaled) order in
    let ref := take KinematicalMaster.origin (KinematicalMaster.vectors r) order in
    let theta := take 0 (match KinematicalMaster.thetas r with Some t => t | None => [] end) order in
    if (projection =? "stereographic")%string then
      let linewidth := Some (match linewidth with Some w => w | None => 0.5 end) in
      let hemisphere := if existing then None else Some hemisphere in
      if (mode =? "lines")%string then
        Some (Circles (map (fun vc => (fst vc, PI / 2, snd vc)) (combine ref color_rgba)) hemisphere linewidth)
      else
        Some (Circles (map (fun vtc => (fst (fst vtc), PI / 2 - snd (fst vtc), snd vtc)) (combine (combine ref theta) color_rgba)
                       ++ map (fun vtc => (fst (fst vtc), PI / 2 + snd (fst vtc), snd vtc)) (combine (combine ref theta) color_rgba))
                hemisphere linewidth)
    else if (projection =? "spherical")%string then
      Some (plot_spherical mode ref theta color_rgba backend existing (match scaling with None => false | Some _ => true end)
              (take 0 intensity order))
    else None.
End Plot.
