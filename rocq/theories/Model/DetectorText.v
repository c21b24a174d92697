(** Detector text files, src/kikuchipy/io/_detectors.py 34-127, EBSDDetector.save() and EBSDDetector.load(). A file is the
    list of its lines without the newline characters. Python's printing and reading of floating point numbers in the header
    are parameters [show] and [read_float]; the projection centers are written with the default format of 7 decimals.
    numpy.savetxt() puts the header text first, each line after "# ", then a line per row with a space between columns;
    numpy.loadtxt() skips lines starting with "#" and drops an axis of length one. *)
From Coq Require Import Ascii String ZArith Arith Reals List Bool Decimal DecimalString.
From Verif Require Import Model.Detector.
Import ListNotations.
Local Open Scope string_scope.
Local Open Scope list_scope.
Local Open Scope nat_scope.

Definition bind {A B} (o : option A) (f : A -> option B) : option B := match o with Some x => f x | None => None end.
Fixpoint all_some {A} (l : list (option A)) : option (list A) :=
  match l with [] => Some [] | o :: l' => bind o (fun x => bind (all_some l') (fun xs => Some (x :: xs))) end.

(** Printing and reading of whole numbers; [int()] strips white space and fails on empty text. *)
Definition show_nat (n : nat) : string := NilEmpty.string_of_uint (Nat.to_uint n).
Fixpoint lstrip (s : string) : string := match s with String " " r => lstrip r | _ => s end.
Definition read_int (s : string) : option nat :=
  match lstrip s with EmptyString => None | t => match NilEmpty.uint_of_string t with Some u => Some (Nat.of_uint u) | None => None end end.
(** Printing of a tuple of whole numbers: "(3,)", "(3, 4)". *)
Fixpoint join (sep : string) (l : list string) : string :=
  match l with [] => "" | [s] => s | s :: l' => (s ++ sep ++ join sep l')%string end.
Definition show_tuple (l : list nat) : string :=
  match l with [n] => ("(" ++ show_nat n ++ ",)")%string | _ => ("(" ++ join ", " (map show_nat l) ++ ")")%string end.
(** Lines 67-72: [tuple(int(i) for i in shape[1:-1].split(","))], None after a ValueError. *)
Fixpoint split (c : ascii) (s : string) : list string :=
  match s with
  | EmptyString => [""]
  | String a r => if Ascii.eqb a c then "" :: split c r else match split c r with t :: ts => String a t :: ts | [] => [String a ""] end
  end.
Fixpoint without_last (s : string) : string :=
  match s with EmptyString => "" | String _ EmptyString => "" | String a r => String a (without_last r) end.
Definition without_first (s : string) : string := match s with EmptyString => "" | String _ r => r end.
Definition read_tuple (s : string) : option (list nat) := all_some (map read_int (split "," (without_last (without_first s)))).

(** Seven decimals: the text of z / 10^7. The "-" that Python writes before a value rounded to zero from below is left out. *)
Definition digit (n : Z) : ascii := ascii_of_nat (48 + Z.to_nat n).
Fixpoint padded (k : nat) (n : Z) : string := match k with O => "" | S k' => (padded k' (n / 10) ++ String (digit (n mod 10)) "")%string end.
Definition fixed (k : nat) (z : Z) : string :=
  ((if (z <? 0)%Z then "-" else "") ++ show_nat (Z.to_nat (Z.abs z / 10 ^ Z.of_nat k)) ++ "." ++ padded k (Z.abs z mod 10 ^ Z.of_nat k))%string.
Definition is_digit (a : ascii) : bool := (48 <=? nat_of_ascii a) && (nat_of_ascii a <=? 57).
(** Reading of a decimal number: the digits, and how many of them come after the point. *)
Fixpoint scan (s : string) (v : Z) (point : bool) (k : nat) : option (Z * nat) :=
  match s with
  | EmptyString => Some (v, k)
  | String a r =>
      if Ascii.eqb a "." then (if point then None else scan r v true k)
      else if is_digit a then scan r (10 * v + (Z.of_nat (nat_of_ascii a) - 48))%Z point (if point then S k else k) else None
  end.
Definition read_decimal (s : string) : option R :=
  match s with
  | String "-" r => match scan r 0 false 0 with Some (v, k) => Some (- (IZR v / 10 ^ k))%R | None => None end
  | _ => match scan s 0 false 0 with Some (v, k) => Some (IZR v / 10 ^ k)%R | None => None end
  end.

(** The regular expression of line 58: one word, or two words with a space between, then a colon and a space, then the value. *)
Definition is_word (a : ascii) : bool :=
  let n := nat_of_ascii a in is_digit a || ((65 <=? n) && (n <=? 90)) || ((97 <=? n) && (n <=? 122)) || (n =? 95).
Fixpoint word (s : string) : string * string :=
  match s with
  | EmptyString => ("", "")
  | String a r => if is_word a then let (w, t) := word r in (String a w, t) else ("", s)
  end.
Definition key_value (s : string) : option (string * string) :=
  let (w, t) := word s in
  match w, t with
  | EmptyString, _ => None
  | _, String ":" (String " " v) => Some (w, v)
  | _, String " " t' =>
      let (w', t'') := word t' in
      match w', t'' with EmptyString, _ => None | _, String ":" (String " " v) => Some ((w ++ " " ++ w')%string, v) | _, _ => None end
  | _, _ => None
  end.

Section Text.
Variable show : R -> string.
Variable read_float : string -> option R.

(** write_ebsd_detector_to_file, 90-123. [version] and [now] are the package version and the time. *)
Definition pc_row (p : pc3) : string :=
  join " " (map (fun x => fixed 7 (round_half_even (x * 10 ^ 7)%R)) [pcx p; pcy p; pcz p]).
Definition header (version now conv : string) (d : detector) : list string :=
  map (fun l => ("# " ++ l)%string)
  [ "EBSDDetector";
    "  shape: " ++ show_tuple [Z.to_nat (d_ny d); Z.to_nat (d_nx d)];
    "  px_size: " ++ show (d_px_size d);
    "  binning: " ++ show (d_binning d);
    "  tilt: " ++ show (d_tilt d) ++ " deg";
    "  azimuthal: " ++ show (d_azimuthal d) ++ " deg";
    "  twist: " ++ show (d_twist d) ++ " deg";
    "  sample_tilt: " ++ show (d_sample_tilt d) ++ " deg";
    "  convention: " ++ conv;
    "  navigation_shape: " ++ show_tuple (nav_shape (d_pc d));
    "";
    "kikuchipy version: " ++ version;
    "Time: " ++ now;
    "";
    "Column names: PCx, PCy, PCz" ]%string.
Definition save (version now conv : string) (d : detector) : option (list string) :=
  bind (detector_pc_in conv d) (fun a => Some (header version now conv d ++ map pc_row (pcs a))).

(** read_ebsd_detector_from_file, 34-90. *)
Definition is_comment (l : string) : bool := match l with String "#" _ => true | _ => false end.
Definition keys : list string :=
  ["shape"; "px_size"; "binning"; "tilt"; "azimuthal"; "twist"; "sample_tilt"; "convention"; "navigation_shape"]%string.
Definition kwargs := string -> option string.
Definition read_line (kw : kwargs) (l : string) : kwargs :=
  match key_value (lstrip (without_first (without_first l))) with
  | Some (k, v) => if existsb (String.eqb k) keys then fun k' => if String.eqb k' k then Some v else kw k' else kw
  | None => kw
  end.
Fixpoint read_header (kw : kwargs) (lines : list string) : kwargs :=
  match lines with [] => kw | l :: ls => if is_comment l then read_header (read_line kw l) ls else kw end.
(** [value.rstrip(" deg")]: any of these characters, line 74. *)
Definition in_deg (a : ascii) : bool := Ascii.eqb a " " || Ascii.eqb a "d" || Ascii.eqb a "e" || Ascii.eqb a "g".
Fixpoint rstrip_deg (s : string) : string :=
  match s with
  | EmptyString => ""
  | String a r => match rstrip_deg r with EmptyString => if in_deg a then "" else String a "" | t => String a t end
  end.
Definition number (kw : kwargs) (k : string) : option R := bind (kw k) (fun s => read_float (rstrip_deg s)).
Definition read_row (l : string) : option pc3 :=
  bind (all_some (map read_decimal (split " " l))) (fun r => match r with [x; y; z] => Some (PC x y z) | _ => None end).
Definition product (l : list nat) : nat := fold_right Nat.mul 1 l.
Definition load (lines : list string) : option detector :=
  let kw := read_header (fun _ => None) lines in
  bind (all_some (map read_row (filter (fun l => negb (is_comment l)) lines))) (fun rows =>
  bind (kw "shape"%string) (fun s => bind (read_tuple s) (fun shape =>
  bind (kw "navigation_shape"%string) (fun ns =>
  let nav := match read_tuple ns with Some nav => nav | None => [List.length rows] end in
  if product nav =? List.length rows then
  match shape with
  | [ny; nx] =>
      bind (number kw "px_size") (fun px_size => bind (number kw "binning") (fun binning => bind (number kw "tilt") (fun tilt =>
      bind (number kw "azimuthal") (fun azimuthal => bind (number kw "twist") (fun twist => bind (number kw "sample_tilt") (fun sample_tilt =>
      bind (kw "convention"%string) (fun conv =>
      new_detector (Z.of_nat ny) (Z.of_nat nx) px_size binning tilt azimuthal twist sample_tilt (PCArray nav rows) conv)))))))
  | _ => None
  end
  else None)))).
End Text.
