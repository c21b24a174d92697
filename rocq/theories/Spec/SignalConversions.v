(** What users rely on about the type of a signal and what belongs to it: names of types, and how a signal looks after
    conversions, in terms of what is asked for. *)
From Coq Require Import String List Bool.
From Verif Require Import Model.SignalType.
From Verif Require Model.Detector.
Import ListNotations.
Local Open Scope list_scope.
Local Open Scope string_scope.

(** Kinds of signals, and the names of a kind in files and for set_signal_type: its name first, then others. *)
Inductive kind := Patterns | PatternSimulation | ChannelingSimulation | VirtualImages.
Definition name_of (k : kind) : string :=
  match k with Patterns => "EBSD" | PatternSimulation => "EBSDMasterPattern" | ChannelingSimulation => "ECPMasterPattern" | VirtualImages => "VirtualBSEImage" end.
Definition other_names (k : kind) : list string :=
  match k with
  | Patterns => ["electron_backscatter_diffraction"]
  | PatternSimulation => ["ebsd_master_pattern"; "master_pattern"]
  | ChannelingSimulation => ["ecp_master_pattern"]
  | VirtualImages => ["virtual_backscatter_electron_image"]
  end.
Definition called (k : kind) (name : string) : Prop := name = name_of k \/ In name (other_names k).
(** The class of a kind, for data in memory and for data which are not. *)
Definition class_of (k : kind) (lazy : bool) : class :=
  match k, lazy with
  | Patterns, false => EBSD | Patterns, true => LazyEBSD
  | PatternSimulation, false => EBSDMasterPattern | PatternSimulation, true => LazyEBSDMasterPattern
  | ChannelingSimulation, false => ECPMasterPattern | ChannelingSimulation, true => LazyECPMasterPattern
  | VirtualImages, false => VirtualBSEImage | VirtualImages, true => LazyVirtualBSEImage
  end.
(** Names of data types of real numbers and others HyperSpy handles as such. *)
Definition part_of (s t : string) : Prop := exists a b, t = a ++ s ++ b.
Definition real_type (dtype : string) : Prop := exists s, In s ["float"; "int"; "void"; "bool"; "object"] /\ part_of s dtype.

(** No data type of NumPy is both. *)
Definition number_type (dtype : string) : Prop := real_type dtype /\ ~ part_of "complex" dtype.

Section View.
Variable image : Type.
Variable astype : string -> string -> image -> image.

(** What a user sees of a value: objects with what is in them, and arrays the same if in memory or not. *)
Inductive seen_value := SeesNone | SeesText (s : string) | SeesArray (dtype : string) (a : image) | Sees (t : thing).
Definition seen (w : world) (v : value image) : seen_value :=
  match v with PyNone => SeesNone | Text s => SeesText s | Numpy t a | Dask t a => SeesArray t a | Object r => Sees (thing_at w r) end.
(** s.name *)
Definition see (w : world) (s : signal image) (name : string) : option seen_value := option_map (seen w) (attribute s name).

(** .astype() of a typed array, several times. *)
Definition converted (ts : list string) (ta : string * image) : string * image :=
  fold_left (fun ta t => (t, astype (fst ta) t (snd ta))) ts ta.
Definition converted_value (ts : list string) (v : seen_value) : seen_value :=
  match v with SeesArray t a => let (t', a') := converted ts (t, a) in SeesArray t' a' | _ => v end.

(** What is asked for in a history of conversions: data types, and whether the data are to be in memory. *)
Definition types_asked (h : list (conversion image)) : list string := flat_map (fun c => match c with ChangeType t => [t] | _ => [] end) h.
Definition laziness_asked (h : list (conversion image)) (lazy : bool) : bool :=
  fold_left (fun l c => match c with AsLazy => true | Compute => false | _ => l end) h lazy.
Definition kind_asked (h : list (conversion image)) (k : kind) : kind :=
  fold_left (fun k c => match c with
                        | SetType t => if (t =? name_of PatternSimulation)%string then PatternSimulation else ChannelingSimulation
                        | _ => k end) h k.
(** Conversions which keep the kind of a signal. *)
Definition keeps_kind (c : conversion image) : Prop :=
  match c with AsLazy | Compute | DeepCopy => True | ChangeType t => number_type t | _ => False end.
(** Conversions between and of simulated patterns. *)
Definition keeps_simulation (c : conversion image) : Prop :=
  match c with
  | AsLazy | Compute | DeepCopy => True | ChangeType t => number_type t
  | SetType t => t = name_of PatternSimulation \/ t = name_of ChannelingSimulation
  | _ => False
  end.

(** Objects a value refers to exist. *)
Definition exists_in (w : world) (v : option (value image)) : Prop := match v with Some (Object r) => r < next w | Some _ => True | None => False end.

(** Signals of patterns as they are made: a detector, maybe a crystal map, maybe a background. *)
Record pattern_signal (w : world) (s : signal image) : Prop := {
  of_patterns : cls s = class_of Patterns false \/ cls s = class_of Patterns true;
  named : metadata_type s = name_of Patterns;
  real : number_type (dtype s);
  has_detector : exists d, see w s "detector" = Some (Sees (ADetector d));
  has_map : see w s "xmap" = Some SeesNone \/ exists m, see w s "xmap" = Some (Sees (ACrystalMap m));
  has_background : see w s "static_background" = Some SeesNone \/ exists t a, see w s "static_background" = Some (SeesArray t a);
  exist : exists_in w (attribute s "detector") /\ exists_in w (attribute s "xmap") }.

(** Signals of simulated patterns: a phase, and texts for hemisphere and projection (or None). *)
Record simulation_signal (k : kind) (w : world) (s : signal image) : Prop := {
  simulated : k = PatternSimulation \/ k = ChannelingSimulation;
  of_kind : cls s = class_of k false \/ cls s = class_of k true;
  named_simulation : metadata_type s = name_of k;
  real_simulation : number_type (dtype s);
  has_phase : exists p, see w s "phase" = Some (Sees (APhase p));
  has_hemisphere : see w s "hemisphere" = Some SeesNone \/ exists t, see w s "hemisphere" = Some (SeesText t);
  has_projection : see w s "projection" = Some SeesNone \/ exists t, see w s "projection" = Some (SeesText t);
  phase_exists : exists_in w (attribute s "phase") }.
End View.
Arguments SeesNone {image}.
Arguments SeesText {image}.
Arguments SeesArray {image}.
Arguments Sees {image}.
Arguments seen {image}.
Arguments see {image}.
Arguments converted {image}.
Arguments converted_value {image}.
Arguments types_asked {image}.
Arguments laziness_asked {image}.
Arguments kind_asked {image}.
Arguments keeps_kind {image}.
Arguments keeps_simulation {image}.
Arguments exists_in {image}.
Arguments pattern_signal {image}.
Arguments simulation_signal {image}.
