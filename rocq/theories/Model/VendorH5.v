(** Scans read from EDAX and Oxford Instruments h5ebsd files: src/kikuchipy/io/plugins/edax_h5ebsd/_api.py ("edax")
    and oxford_h5ebsd/_api.py ("oxford"), with _h5ebsd.py ("h5").
    Left out: metadata, the empty crystal map of the given shape, lazy reading (same data).  Entries of other types than
    the expected ones give None.  Parameters: the comparison of versions (packaging) and the search for "(WxH px)" in
    a text with a regular expression. *)
From Coq Require Import String List Arith ZArith Reals Bool.
From Verif Require Import Model.Binary Model.Hdf5.
From Verif Require Model.Detector Model.BrukerRoi Model.KikuchipyH5.
Import ListNotations.
Local Open Scope list_scope.

Definition number (x : scalar) : option R := match x with Int z => Some (IZR z) | Float r => Some r | Text _ => None end.
Definition pixel (x : scalar) : option Z := match x with Int z => Some z | _ => None end.
Fixpoint all {A B} (f : A -> option B) (l : list A) : option (list B) :=
  match l with [] => Some [] | a :: r => let? b := f a in let? r' := all f r in Some (b :: r') end.

(** d[key] as a size, d.get(key, default) as a number. *)
Definition size_in (d : list (string * entry)) (k : string) : option nat :=
  match get d k with Some (Value (Int z)) => if (0 <=? z)%Z then Some (Z.to_nat z) else None | _ => None end.
Definition number_in (d : list (string * entry)) (k : string) (default : R) : option R :=
  match get d k with None => Some default | Some (Value x) => number x | Some _ => None end.
Definition dict_in (d : list (string * entry)) (k : string) : option (list (string * entry)) :=
  match get d k with None => Some [] | Some (Dict x) => Some x | Some _ => None end.
(** As a column for np.column_stack: one number, or one for each pattern. *)
Definition column_in (d : list (string * entry)) (k : string) : option (list R) :=
  match get d k with
  | None => Some [(/ 2)%R]
  | Some (Value x) => let? r := number x in Some [r]
  | Some (Array [_] l) => all number l
  | Some _ => None
  end.

(** What is passed on to create a signal. *)
Record scan := Scan { s_data : nd; s_axes : list (axis R); s_detector : Detector.detector; s_background : option entry }.

(** get_data, h5 303-381. *)
Definition read_patterns (group : node) (name : string) (ny nx sy sx : nat) : option nd :=
  let? n := path group ["EBSD"; "Data"; name]%string in
  match n with
  | Dataset _ l => let? px := all pixel l in BrukerRoi.get_data [px] ny nx sy sx None
  | Group _ => None
  end.

(** edax 52-140. *)
Definition edax_scan2dict (group : node) : option scan :=
  let? h := path group ["EBSD"; "Header"]%string in
  let hd := hdf5group2dict true [] h in
  match get hd "Grid Type" with
  | Some (Value (Text "SqrGrid")) =>
      let? ny := size_in hd "nRows" in let? nx := size_in hd "nColumns" in
      let? sy := size_in hd "Pattern Height" in let? sx := size_in hd "Pattern Width" in
      let? dy := number_in hd "Step Y" 1 in let? dx := number_in hd "Step X" 1 in
      let? data := read_patterns group "Pattern" ny nx sy sx in
      let? tilt := number_in hd "Camera Elevation Angle" 0 in
      let? azimuthal := number_in hd "Camera Azimuthal Angle" 0 in
      let? sample_tilt := number_in hd "Sample Tilt" 70 in
      let? pcd := dict_in hd "Pattern Center Calibration" in
      let? x := number_in pcd "x-star" (/ 2) in let? y := number_in pcd "y-star" (/ 2) in let? z := number_in pcd "z-star" (/ 2) in
      let? det := Detector.new_detector (Z.of_nat sy) (Z.of_nat sx) 1 1 tilt azimuthal 0 sample_tilt
                    (Detector.PCArray [1] [Detector.PC x y z]) "edax" in
      Some (Scan data (KikuchipyH5.get_axes ny nx sy sx dy dx 1%R) det None)
  | _ => None
  end.

Section Oxford.
Variables (version_at_least_7 : string -> bool) (camera_shapes : string -> list (nat * nat)).
(** np.round of a quotient of integers: half to even. *)
Definition round_quotient (a b : nat) : nat :=
  let q := a / b in let r := a mod b in
  if 2 * r <? b then q else if b <? 2 * r then S q else if Nat.even q then q else S q.
(** get_binning, oxford 187-261; Some None without information. *)
Definition get_binning (hd : list (string * entry)) (version : string) : option (option nat) :=
  match get hd (if version_at_least_7 version then "Camera Mode" else "Camera Binning Mode")%string with
  | None => Some None
  | Some (Value (Text t)) =>
      match camera_shapes t with
      | [(_, sy)] => if sy =? 88 then Some (Some 8) else if sy =? 0 then None else Some (Some (round_quotient 1024 sy))
      | _ => Some None
      end
  | Some _ => None
  end.
Definition rad2deg (x : R) : R := (x * (180 / PI))%R.
Definition deg2rad (x : R) : R := (x * (PI / 180))%R.
Fixpoint zip3 (a b c : list R) : list Detector.pc3 :=
  match a, b, c with x :: a', y :: b', z :: c' => Detector.PC x y z :: zip3 a' b' c' | _, _, _ => [] end.
(** Projection centres, oxford 155-163. *)
Definition oxford_pcs (dd : list (string * entry)) (ny nx : nat) : option Detector.pcarray :=
  let? x := column_in dd "Pattern Center X" in
  let? y := column_in dd "Pattern Center Y" in
  let? z := column_in dd "Detector Distance" in
  if ((length x =? length y) && (length x =? length z))%nat then
    if 1 <? length x then if length x =? ny * nx then Some (Detector.PCArray [ny; nx] (zip3 x y z)) else None
    else Some (Detector.PCArray [length x] (zip3 x y z))
  else None.
(** get_detector, oxford 141-184. *)
Definition oxford_detector (dd hd : list (string * entry)) (version : string) (ny nx sy sx : nat) : option Detector.detector :=
  let? pc := oxford_pcs dd ny nx in
  let? sample_tilt := number_in hd "Tilt Angle" (deg2rad 70) in
  let? tilt := match get hd "Detector Orientation Euler" with
               | Some (Array _ (_ :: e :: _)) => let? e := number e in Some (rad2deg e - 90)%R
               | _ => Some 0%R end in
  let? binning := get_binning hd version in
  Detector.new_detector (Z.of_nat sy) (Z.of_nat sx) 1 (match binning with Some b => INR b | None => 1 end) tilt 0 0 (rad2deg sample_tilt) pc "oxford".
Definition pattern_names : list string := ["Unprocessed Patterns"; "Processed Patterns"]%string.
(** oxford 73-139. *)
Definition oxford_scan2dict (processed : bool) (version : string) (group : node) : option scan :=
  let? h := path group ["EBSD"; "Header"]%string in
  let? d := path group ["EBSD"; "Data"]%string in
  let hd := hdf5group2dict true [] h in
  let dd := hdf5group2dict false pattern_names d in
  let? ny := size_in hd "Y Cells" in let? nx := size_in hd "X Cells" in
  let? sy := size_in hd "Pattern Height" in let? sx := size_in hd "Pattern Width" in
  let? dy := number_in hd "Y Step" 1 in let? dx := number_in hd "X Step" 1 in
  let? data := read_patterns group (if processed then "Processed Patterns" else "Unprocessed Patterns")%string ny nx sy sx in
  let? det := oxford_detector dd hd version ny nx sy sx in
  Some (Scan data (KikuchipyH5.get_axes ny nx sy sx dy dx 1%R) det (get hd "Processed Static Background")).

(** file_reader of both formats, and H5EBSDReader.__init__ and read (h5 146-153, 469-507). *)
Definition read_edax (file : list (string * node)) (names : option (list string)) : option (list scan) :=
  let? mv := check_file file in
  let? gs := desired_scan_groups file names in
  all edax_scan2dict gs.
Definition read_oxford (processed : bool) (file : list (string * node)) (names : option (list string)) : option (list scan) :=
  let? mv := check_file file in
  let? gs := desired_scan_groups file names in
  all (oxford_scan2dict processed (snd mv)) gs.
End Oxford.
