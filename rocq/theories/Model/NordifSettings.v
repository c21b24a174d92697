(** NORDIF setting files: _get_settings_from_file() and _get_calibration_pattern_settings() of
    src/kikuchipy/io/plugins/nordif/_api.py, and the readers using them. A file is the list of its lines (splitlines() of text
    decoded as Latin-1, so a character is a byte). float() is exact: it returns the decimal number of the text, without the
    rounding to a 64-bit float; exponents, "nan", "inf" and "_" between digits are left out and fail here. Exceptions are None. *)
From Coq Require Import Ascii String List ZArith Arith QArith Qabs Qround Bool DecimalString.
From Verif Require Import Model.DetectorText Model.Binary Model.Nordif.
Import ListNotations.
Local Open Scope string_scope.
Local Open Scope list_scope.
Local Open Scope Z_scope.

(** Python's text operations: "p in s", and s[n:]. *)
Fixpoint contains (p s : string) : bool := prefix p s || match s with EmptyString => false | String _ r => contains p r end.
Fixpoint drop (n : nat) (s : string) : string := match n, s with O, _ => s | S n', String _ r => drop n' r | S _, EmptyString => "" end.
(** A greedy group of any characters, followed by the text suf: what is before the last occurrence of suf. *)
Fixpoint before_last (suf s : string) : option string :=
  match s with
  | EmptyString => if prefix suf "" then Some "" else None
  | String a r => match before_last suf r with Some g => Some (String a g) | None => if prefix suf s then Some "" else None end
  end.
(** group(1) of re.search() for pre, such a group and suf: the leftmost match. *)
Fixpoint search (pre suf s : string) : option string :=
  match (if prefix pre s then before_last suf (drop (String.length pre) s) else None) with
  | Some g => Some g
  | None => match s with EmptyString => None | String _ r => search pre suf r end
  end.
(** group() of re.search() for such a group after pre: what follows the first occurrence of pre. *)
Definition after (pre s : string) : option string := search pre "" s.
(** re.findall(r"\d+", s). *)
Fixpoint numbers (s : string) : list string :=
  match s with
  | EmptyString => []
  | String a r =>
      if is_digit a then
        match r with
        | String b _ => if is_digit b then match numbers r with t :: ts => String a t :: ts | [] => [] end else String a "" :: numbers r
        | EmptyString => [String a ""]
        end
      else numbers r
  end.
Definition is_space (a : ascii) : bool :=
  let n := nat_of_ascii a in ((n =? 32) || ((9 <=? n) && (n <=? 13)) || ((28 <=? n) && (n <=? 31)) || (n =? 133) || (n =? 160))%nat.
Fixpoint lstrip (s : string) : string := match s with String a r => if is_space a then lstrip r else s | EmptyString => "" end.
Fixpoint rstrip (s : string) : string :=
  match s with
  | EmptyString => ""
  | String a r => match rstrip r with EmptyString => if is_space a then "" else String a "" | t => String a t end
  end.
Definition strip (s : string) : string := rstrip (lstrip s).
(** int(s). *)
Definition digits (s : string) : option Z :=
  match s with EmptyString => None | _ => match NilEmpty.uint_of_string s with Some u => Some (Z.of_nat (Nat.of_uint u)) | None => None end end.
Definition py_int (s : string) : option Z :=
  match strip s with String "-" r => option_map Z.opp (digits r) | String "+" r => digits r | t => digits t end.
(** float(s). *)
Definition power10 (k : nat) : positive := Z.to_pos (10 ^ Z.of_nat k).
Fixpoint has_digit (s : string) : bool := match s with EmptyString => false | String a r => is_digit a || has_digit r end.
Definition unsigned (s : string) : option Q :=
  if has_digit s then match DetectorText.scan s 0 false 0 with Some (v, k) => Some (v # power10 k) | None => None end else None.
Definition py_float (s : string) : option Q :=
  match strip s with String "-" r => option_map Qopp (unsigned r) | String "+" r => unsigned r | t => unsigned t end.

(** blocks, 219-232: the number of the last line that contains the heading, or -1. *)
Fixpoint block_line (i found : Z) (block : string) (content : list string) : Z :=
  match content with [] => found | l :: ls => block_line (i + 1) (if contains block l then i else found) block ls end.
Definition blocks (content : list string) (block : string) : Z := block_line 0 (-1) block content.
(** content[line_no]; line_no is at least 0 in every use. *)
Definition get_line (content : list string) (line_no : Z) : option string := nth_error content (Z.to_nat line_no).
(** _get_string, 307-336: the value, and the line number in the warning if there is one. *)
Definition get_string (content : list string) (pre suf : string) (line_no : Z) : option (string * option Z) :=
  let? line := get_line content line_no in
  Some (match search pre suf line with None => ("", Some (line_no - 1)) | Some g => (g, None) end).
Definition get_text (content : list string) (pre suf : string) (line_no : Z) : option string := option_map fst (get_string content pre suf line_no).

Inductive pattern_type := Acquisition | Calibration.
(** f"[{pattern_type.capitalize()} settings]". *)
Definition settings_block (t : pattern_type) : string := match t with Acquisition => "[Acquisition settings]" | Calibration => "[Calibration settings]" end.

Record settings := Settings {
  beam_energy : Q; magnification : Z; microscope : string; working_distance : Q;
  ny : Z; nx : Z; sy : Z; sx : Z; step : Q;
  detector_shape : Z * Z; sample_tilt : Q; tilt : Q; azimuthal : Q }.

(** [int(i) for i in s.split("x")], unpacked into two. *)
Definition two_ints (s : string) : option (Z * Z) :=
  match split "x" s with [a; b] => let? x := py_int a in let? y := py_int b in Some (x, y) | _ => None end.
Definition tab : string := String (ascii_of_nat 9) "".
Definition is_close_to_zero (q : Q) : bool := Qle_bool (Qabs q) (1 # 100000000).

(** _get_settings_from_file, 204-304, without the calibration patterns. *)
Definition get_settings_from_file (t : pattern_type) (content : list string) : option settings :=
  let l_mic := blocks content "[Microscope]" in
  let l_ang := blocks content "[Detector angles]" in
  let l_acq := blocks content (settings_block t) in
  let l_area := blocks content "[Area]" in
  let? energy := get_text content ("Accelerating voltage" ++ tab)%string (tab ++ "kV")%string (l_mic + 5) in
  let? manufacturer := get_text content ("Manufacturer" ++ tab)%string tab (l_mic + 1) in
  let? model := get_text content ("Model" ++ tab)%string tab (l_mic + 2) in
  let? mag := get_text content ("Magnification" ++ tab)%string (tab ++ "#")%string (l_mic + 3) in
  let? wd := get_text content ("Working distance" ++ tab)%string (tab ++ "mm")%string (l_mic + 6) in
  let? energy := py_float energy in
  let? mag := py_int mag in
  let? wd := py_float wd in
  let? num_samp := get_text content ("Number of samples" ++ tab)%string (tab ++ "#")%string (l_area + 6) in
  let? samples := two_ints num_samp in
  let '(ny, nx) := samples in
  let? pattern_size := get_text content ("Resolution" ++ tab)%string (tab ++ "px")%string (l_acq + 2) in
  let? size := two_ints pattern_size in
  let '(sx, sy) := size in
  let? step_size := let? s := get_text content ("Step size" ++ tab)%string tab (l_area + 5) in py_float s in
  let? sample_tilt := let? s := get_text content ("Tilt angle" ++ tab)%string tab (l_mic + 7) in py_float s in
  let? elevation := let? s := get_text content ("Elevation" ++ tab)%string tab (l_ang + 5) in py_float s in
  let? azimuthal := let? s := get_text content ("Azimuthal" ++ tab)%string tab (l_ang + 4) in py_float s in
  let tilt := Qopp elevation in
  let tilt := if is_close_to_zero tilt then Qopp tilt else tilt in
  Some (Settings energy mag (manufacturer ++ " " ++ model)%string wd ny nx sy sx step_size (sy, sx) sample_tilt tilt azimuthal).

(** numpy.round(): to the nearest whole number, to the even one of two. *)
Definition round_half_even (q : Q) : Z :=
  let f := Qfloor q in
  match Qcompare (q - inject_Z f) (1 # 2) with Lt => f | Gt => f + 1 | Eq => if Z.even f then f else f + 1 end.

(** What _get_calibration_pattern_settings() puts in the original metadata. [area] is None if there is no such entry; a scaled number is
    None if it comes from a division by zero. *)
Record calibration := Calib {
  indices : list (list Z); area : option (option (Z * Z)); roi_origin : Z * Z; roi_shape : Z * Z;
  scaled : option (list (list (option Z)) * (option Z * option Z) * (option Z * option Z) * option (option Z * option Z)) }.

(** Lines 347-359: indices in the lines after the heading. *)
Fixpoint read_indices (lines : list string) : option (list (list Z)) :=
  match lines with
  | [] => Some []
  | l :: ls =>
      match search "Calibration (" ")" l with
      | None => read_indices ls
      | Some g => let? xs := all_some (map py_int (split "," g)) in let? rest := read_indices ls in Some (rev xs :: rest)
      end
  end.
(** Lines 384-394: a number of the region of interest in pixels and, for the width, scaled. *)
Definition read_roi (content : list string) (key : string) (line_no : Z) : Z * Q :=
  match (let? l := get_line content line_no in let? s := after key l in Some (numbers s)) with
  | Some (a :: b :: c :: _) => match py_int c, py_float (a ++ "." ++ b)%string with Some n, Some q => (n, q) | _, _ => (0, 0%Q) end
  | _ => (0, 0%Q)
  end.
Definition pair_of {A} (f : Z -> A) (p : Z * Z) : A * A := (f (fst p), f (snd p)).
(** _get_calibration_pattern_settings, 339-432, without the area image. Indices of different lengths fail in numpy.array(). *)
Definition calibration_settings (content : list string) (step_size : Q) : option calibration :=
  let l_cal := blocks content "[Calibration patterns]" in
  let l_area := blocks content "[Area]" in
  if l_cal =? -1 then None else
  let? rc := read_indices (skipn (Z.to_nat (l_cal + 1)) content) in
  match rc with
  | [] => None
  | r0 :: _ =>
    if negb (forallb (fun r => (List.length r =? List.length r0)%nat) rc) then None else
    let? line := get_line content (blocks content "[Electron image]" + 2) in
    let area := match after "Resolution" line with
      | None => Some None
      | Some s => match numbers s with
                  | [a; b] => match py_int a, py_int b with Some x, Some y => Some (Some (y, x)) | _, _ => None end
                  | _ => None
                  end
      end in
    let top := fst (read_roi content "Top" (l_area + 1)) in
    let left := fst (read_roi content "Left" (l_area + 2)) in
    let '(width, width_scaled) := read_roi content "Width" (l_area + 3) in
    let height := fst (read_roi content "Height" (l_area + 4)) in
    let factor := (step_size * inject_Z width / width_scaled)%Q in
    let scale := fun x => if Qeq_bool factor 0 then None else Some (round_half_even (inject_Z x / factor)) in
    let make := Calib rc area (top, left) (height, width) in
    if Qeq_bool width_scaled 0 then Some (make None)
    else match area with
      | None => None
      | Some shape => Some (make (Some (map (map scale) rc, pair_of scale (top, left), pair_of scale (height, width), option_map (pair_of scale) shape)))
      end
  end.

(** file_reader of io/plugins/nordif_calibration_patterns/_api.py, 32-117: the metadata, and the names of the files with patterns. Names are
    made of the indices; an index that is no pair fails. *)
Definition show_Z (z : Z) : string := ((if (z <? 0)%Z then "-" else "") ++ show_nat (Z.abs_nat z))%string.
Definition pattern_name (yx : list Z) : option string :=
  match yx with [y; x] => Some ("Calibration (" ++ show_Z x ++ "," ++ show_Z y ++ ").bmp")%string | _ => None end.
Definition calibration_reader (content : list string) : option (settings * calibration * list string) :=
  let? s := get_settings_from_file Calibration content in
  let? c := calibration_settings content (step s) in
  let? names := all_some (map pattern_name (indices c)) in
  Some (s, c, names).

(** file_reader of io/plugins/nordif/_api.py, 43-192, with the setting file: the scan of Model/Nordif.v and the shape of the detector. An
    existing setting file is read in any case, line 85. Negative sizes are taken as 0. *)
Definition as_nordif (s : settings) : Nordif.settings Q :=
  Nordif.Settings (Z.to_nat (nx s)) (Z.to_nat (ny s)) (Z.to_nat (sx s)) (Z.to_nat (sy s)) (step s).
Definition nordif_reader (f : file) (size : option scan_size) (pattern : option (nat * nat)) (setting_file : option (list string)) (lazy : bool)
  : option (Nordif.scan Q * option (Z * Z)) :=
  match setting_file with
  | None => let? s := Nordif.file_reader 1%Q f size pattern None lazy in Some (s, None)
  | Some content =>
      let? st := get_settings_from_file Acquisition content in
      let? s := Nordif.file_reader 1%Q f size pattern (Some (as_nordif st)) lazy in
      Some (s, Some (detector_shape st))
  end.
