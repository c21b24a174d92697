(** Setting files as NORDIF writes them: blocks of a heading, entries and an empty line. An entry is a label, a value and a unit with tabs
    between. *)
From Coq Require Import Ascii String List ZArith QArith.
From Verif Require Import Model.DetectorText.
Import ListNotations.
Local Open Scope string_scope.
Local Open Scope list_scope.

Record entry := Entry { label : string; value : string; unit : string }.
Record block := Block { name : string; entries : list entry }.
Definition tabulator : string := String (ascii_of_nat 9) "".
Definition entry_text (e : entry) : string := (label e ++ tabulator ++ value e ++ tabulator ++ unit e)%string.
Definition heading (n : string) : string := ("[" ++ n ++ "]")%string.
Definition block_text (b : block) : list string :=
  ((heading (name b) ++ tabulator ++ tabulator)%string :: map entry_text (entries b)) ++ [(tabulator ++ tabulator)%string].
Definition document (d : list block) : list string := flat_map block_text d.

(** No character of a text is c. *)
Fixpoint free (c : ascii) (s : string) : Prop := match s with EmptyString => True | String a r => a <> c /\ free c r end.
(** Names, labels, values and units have no tabs and no square brackets. *)
Definition plain (s : string) : Prop := free (ascii_of_nat 9) s /\ free "[" s /\ free "]" s.
Definition plain_entry (e : entry) : Prop := plain (label e) /\ plain (value e) /\ plain (unit e).
Definition plain_block (b : block) : Prop := plain (name b) /\ Forall plain_entry (entries b).

(** The document has one block of this name, with these labels in this order; other entries may follow. *)
Definition has_block (d : list block) (n : string) (labels : list string) : Prop :=
  exists before es rest after,
    d = before ++ Block n (es ++ rest) :: after /\ map label es = labels /\ ~ In n (map name (before ++ after)).
(** The document has this value with this unit in this block under this label, and no other. *)
Definition says (d : list block) (n l v u : string) : Prop :=
  (exists b e, In b d /\ name b = n /\ In e (entries b) /\ e = Entry l v u)
  /\ forall b e, In b d -> name b = n -> In e (entries b) -> label e = l -> e = Entry l v u.

(** Decimal numbers: their amount and their text, such as "-12" and "24.70". *)
Record number := Number { decimals : nat; units : Z }.
Definition amount (x : number) : Q := units x # Z.to_pos (10 ^ Z.of_nat (decimals x)).
Definition text (x : number) : string :=
  match decimals x with O => ((if (units x <? 0)%Z then "-" else "") ++ show_nat (Z.abs_nat (units x)))%string | k => fixed k (units x) end.
(** "3x4". *)
Definition by_text (a b : nat) : string := (show_nat a ++ "x" ++ show_nat b)%string.

(** The blocks that are read, with the labels NORDIF writes first in them. *)
Definition microscope_labels : list string :=
  ["Manufacturer"; "Model"; "Magnification"; "Scan direction"; "Accelerating voltage"; "Working distance"; "Tilt angle"].
Definition image_labels : list string := ["Frame rate"; "Resolution"].
Definition angles_labels : list string := ["Euler 1"; "Euler 2"; "Euler 3"; "Azimuthal"; "Elevation"].
Definition area_labels : list string := ["Top"; "Left"; "Width"; "Height"; "Step size"; "Number of samples"].
Definition setting_document (settings : string) (d : list block) : Prop :=
  Forall plain_block d /\ has_block d "Microscope" microscope_labels /\ has_block d "Detector angles" angles_labels
  /\ has_block d settings image_labels /\ has_block d "Area" area_labels.
(** A length in micrometers and in pixels: "4.500 (11)". *)
Definition length_text (x : number) (px : nat) : string := (text x ++ " (" ++ show_nat px ++ ")")%string.
(** The entry of a pattern at column x and row y, and the name of its file. *)
Definition point_text (p : nat * nat) : string := ("Calibration (" ++ show_nat (fst p) ++ "," ++ show_nat (snd p) ++ ")")%string.
(** An entry of such a point, with any value and unit without a closing parenthesis. *)
Definition point_entry (e : entry) (p : nat * nat) : Prop := label e = point_text p /\ free ")" (value e) /\ free ")" (unit e).
