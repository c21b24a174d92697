(** What EDAX and Oxford Instruments h5ebsd files contain, in terms of the names in the documentation of the formats.
    A file may contain anything else besides. *)
From Coq Require Import String List ZArith Reals.
From Verif Require Import Model.Hdf5.
Import ListNotations.
Local Open Scope list_scope.

(** The group has a dataset with one value under this name (EDAX: possibly after blanks), as a single value or as an array
    with one entry, and nothing else under it. *)
Definition value_at (group : node) (name : string) (x : scalar) : Prop :=
  exists c k m, group = Group c /\ In (k, m) c /\ ((m = Dataset [1] [x] /\ lstrip k = name) \/ (m = Dataset [] [x] /\ k = name)) /\
    forall k' m', In (k', m') c -> k' = name \/ lstrip k' = name -> (k', m') = (k, m).
(** The group has a list of at least two numbers under this name. *)
Definition numbers_at (group : node) (name : string) (l : list R) : Prop :=
  exists c, group = Group c /\ In (name, Dataset [length l] (map Float l)) c /\ 2 <= length l /\
    forall k' m', In (k', m') c -> k' = name \/ lstrip k' = name -> (k', m') = (name, Dataset [length l] (map Float l)).
(** The group has a group under this name. *)
Definition group_at (group : node) (name : string) (g : node) : Prop :=
  exists c cg, group = Group c /\ g = Group cg /\ In (name, g) c /\ forall k' m', In (k', m') c -> k' = name \/ lstrip k' = name -> (k', m') = (name, g).
(** There is nothing under this name. *)
Definition nothing_at (group : node) (name : string) : Prop :=
  exists c, group = Group c /\ forall k m, In (k, m) c -> k <> name /\ lstrip k <> name.

(** A number, or nothing and the value documented for that case. *)
Definition number_or (group : node) (name : string) (default x : R) : Prop :=
  value_at group name (Float x) \/ nothing_at group name /\ x = default.

(** A scan of ny rows and nx columns of patterns with sy rows and sx columns of pixels, which are listed pattern by
    pattern, row by row. *)
Record oxford_scan (group o_header o_data : node) (patterns : string) (ny nx sy sx : nat) (dy dx : R) (pixels : list Z)
    (x y z : list R) (tilt_angle euler2 : R) : Prop := OxfordScan {
  o_is_header : path group ["EBSD"; "Header"]%string = Some o_header;
  o_is_data : path group ["EBSD"; "Data"]%string = Some o_data;
  o_rows : value_at o_header "Y Cells" (Int (Z.of_nat ny));
  o_columns : value_at o_header "X Cells" (Int (Z.of_nat nx));
  o_height : value_at o_header "Pattern Height" (Int (Z.of_nat sy));
  o_width : value_at o_header "Pattern Width" (Int (Z.of_nat sx));
  o_step_y : number_or o_header "Y Step" 1 dy;
  o_step_x : number_or o_header "X Step" 1 dx;
  o_tilt_angle : number_or o_header "Tilt Angle" (70 * PI / 180) tilt_angle;
  o_euler : (exists e1 e3, numbers_at o_header "Detector Orientation Euler" [e1; euler2; e3])
    \/ nothing_at o_header "Detector Orientation Euler" /\ euler2 = (PI / 2)%R;
  o_pcx : numbers_at o_data "Pattern Center X" x;
  o_pcy : numbers_at o_data "Pattern Center Y" y;
  o_pcz : numbers_at o_data "Detector Distance" z;
  o_one_pc_each : length x = ny * nx /\ length y = ny * nx /\ length z = ny * nx;
  o_patterns : exists shape, path group ["EBSD"; "Data"; patterns]%string = Some (Dataset shape (map Int pixels)) }.

Record edax_scan (group e_header : node) (grid : string) (ny nx sy sx : nat) (dy dx : R) (pixels : list Z)
    (x y z elevation azimuthal sample_tilt : R) : Prop := EdaxScan {
  e_is_header : path group ["EBSD"; "Header"]%string = Some e_header;
  e_grid : value_at e_header "Grid Type" (Text grid);
  e_rows : value_at e_header "nRows" (Int (Z.of_nat ny));
  e_columns : value_at e_header "nColumns" (Int (Z.of_nat nx));
  e_height : value_at e_header "Pattern Height" (Int (Z.of_nat sy));
  e_width : value_at e_header "Pattern Width" (Int (Z.of_nat sx));
  e_step_y : number_or e_header "Step Y" 1 dy;
  e_step_x : number_or e_header "Step X" 1 dx;
  e_elevation : number_or e_header "Camera Elevation Angle" 0 elevation;
  e_azimuthal : number_or e_header "Camera Azimuthal Angle" 0 azimuthal;
  e_sample_tilt : number_or e_header "Sample Tilt" 70 sample_tilt;
  e_pc : (exists g, group_at e_header "Pattern Center Calibration" g /\
      number_or g "x-star" (1 / 2) x /\ number_or g "y-star" (1 / 2) y /\ number_or g "z-star" (1 / 2) z)
    \/ nothing_at e_header "Pattern Center Calibration" /\ x = (1 / 2)%R /\ y = (1 / 2)%R /\ z = (1 / 2)%R;
  e_patterns : exists shape, path group ["EBSD"; "Data"; "Pattern"]%string = Some (Dataset shape (map Int pixels)) }.
