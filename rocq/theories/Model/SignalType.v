(** The class of a signal, and the attributes which kikuchipy's classes add to those of HyperSpy, when a signal is made from
    what a reader returns (src/kikuchipy/io/_io.py 146-195 and 279-350) and when it is converted: as_lazy, change_dtype,
    deepcopy, _assign_subclass and compute in src/kikuchipy/signals/_kikuchipy_signal.py 471-615, change_dtype of EBSD in
    src/kikuchipy/signals/ebsd.py 3174-3179 and set_signal_type in src/kikuchipy/signals/_kikuchi_master_pattern.py 370-386;
    classes are registered in src/kikuchipy/hyperspy_extension.yaml.

    HyperSpy is not part of the repository. What it does in these methods is written down here: as_lazy, compute, change_dtype
    and set_signal_type end with _assign_subclass, which takes the class registered for the type of signal, data type and
    laziness, or its own class without a type if there is none, gives this class to the signal and calls its __init__ again.
    All signals have two signal dimensions. Arrays are values (sharing of memory is left out); detectors, crystal maps and
    phases are objects, which several signals can refer to. *)
From Coq Require Import String List Arith ZArith Reals Bool.
From Verif Require Import Model.Binary Model.Hdf5.
From Verif Require Model.Detector.
Import ListNotations.
Local Open Scope nat_scope.
Local Open Scope list_scope.
Local Open Scope string_scope.

(** ** Classes *)

(** A class: its name, _signal_type, _alias_signal_types, aliases in hyperspy_extension.yaml, _lazy and _custom_attributes. *)
Record class := Class {
  c_name : string; c_type : string; c_aliases : list string; c_registered : list string; c_lazy : bool; c_custom : list string }.

Definition ebsd_attributes := ["detector"; "static_background"; "xmap"].
Definition master_attributes := ["hemisphere"; "phase"; "projection"].

(** ebsd.py 184-186 and 3186; ebsd_master_pattern.py 94-95 and 502; ecp_master_pattern.py 61-62 and 186; virtual_bse_image.py
    36-38 and 103; _kikuchi_master_pattern.py 74; hyperspy_extension.yaml. A lazy class inherits the aliases of its parent;
    in the YAML file, it has none. *)
Definition EBSD := Class "EBSD" "EBSD" ["electron_backscatter_diffraction"] ["electron_backscatter_diffraction"] false ebsd_attributes.
Definition LazyEBSD := Class "LazyEBSD" "EBSD" ["electron_backscatter_diffraction"] [] true ebsd_attributes.
Definition EBSDMasterPattern :=
  Class "EBSDMasterPattern" "EBSDMasterPattern" ["ebsd_master_pattern"; "master_pattern"] ["ebsd_master_pattern"; "master_pattern"] false master_attributes.
Definition LazyEBSDMasterPattern :=
  Class "LazyEBSDMasterPattern" "EBSDMasterPattern" ["ebsd_master_pattern"; "master_pattern"] [] true master_attributes.
Definition ECPMasterPattern := Class "ECPMasterPattern" "ECPMasterPattern" ["ecp_master_pattern"] ["ecp_master_pattern"] false master_attributes.
Definition LazyECPMasterPattern := Class "LazyECPMasterPattern" "ECPMasterPattern" ["ecp_master_pattern"] [] true master_attributes.
Definition VirtualBSEImage :=
  Class "VirtualBSEImage" "VirtualBSEImage" ["virtual_backscatter_electron_image"] ["virtual_backscatter_electron_image"] false [].
Definition LazyVirtualBSEImage := Class "LazyVirtualBSEImage" "VirtualBSEImage" ["virtual_backscatter_electron_image"] [] true [].
Definition classes :=
  [EBSD; LazyEBSD; EBSDMasterPattern; LazyEBSDMasterPattern; ECPMasterPattern; LazyECPMasterPattern; VirtualBSEImage; LazyVirtualBSEImage].

(** HyperSpy's classes without a type of signal. *)
Definition generic (complex lazy : bool) : class :=
  Class ((if lazy then "Lazy" else "") ++ (if complex then "ComplexSignal2D" else "Signal2D")) "" [] [] lazy [].

(** SIGNAL_TYPES, _kikuchipy_signal.py 56-64 *)
Definition signal_types : list string := flat_map (fun c => c_type c :: c_registered c) classes.
(** Whether a class derives from KikuchipySignal2D. *)
Definition ours (c : class) : bool := mem (c_name c) (map c_name classes).
Definition is_ebsd (c : class) : bool := mem (c_name c) ["EBSD"; "LazyEBSD"].
Definition is_master (c : class) : bool :=
  mem (c_name c) ["EBSDMasterPattern"; "LazyEBSDMasterPattern"; "ECPMasterPattern"; "LazyECPMasterPattern"].

(** s in t, for strings *)
Fixpoint contains (s t : string) : bool :=
  prefix s t || match t with EmptyString => false | String _ r => contains s r end.
(** _io.py 313-319, and the same in HyperSpy *)
Definition is_real (dtype : string) : bool :=
  contains "float" dtype || contains "int" dtype || contains "void" dtype || contains "bool" dtype || contains "object" dtype.
Definition is_complex (dtype : string) : bool := contains "complex" dtype.

(** _assign_signal_subclass, _io.py 279-350: None is a ValueError. *)
Definition assign_signal_subclass (dtype type : string) (lazy : bool) : option class :=
  if is_real dtype then
    match filter (fun c => (type =? c_type c)%string || mem type (c_aliases c)) (filter (fun c => Bool.eqb (c_lazy c) lazy) classes) with
    | [c] => Some c
    | _ => None
    end
  else None.

(** HyperSpy: the class for a type of signal; None is a ValueError. *)
Definition hyperspy_subclass (dtype type : string) (lazy : bool) : option class :=
  if is_real dtype then
    match filter (fun c => (type =? c_type c)%string || mem type (c_registered c)) (filter (fun c => Bool.eqb (c_lazy c) lazy) classes) with
    | c :: _ => Some c
    | [] => Some (generic false lazy)
    end
  else if is_complex dtype then Some (generic true lazy) else None.

(** ** Objects and signals *)
Inductive thing := ADetector (d : Detector.detector) | ACrystalMap (label : nat) | APhase (name : string).
Record world := World { next : nat; thing_at : nat -> thing }.
Definition new (w : world) (t : thing) : nat * world :=
  (next w, World (S (next w)) (fun i => if (i =? next w)%nat then t else thing_at w i)).
(** An attribute of an object is set, as in s.detector.tilt = 5. *)
Definition change_thing (w : world) (r : nat) (t : thing) : world :=
  World (next w) (fun i => if (i =? r)%nat then t else thing_at w i).

Section Signals.
(** Elements of a pattern, and .astype() from one type to another. *)
Variable image : Type.
Variable astype : string -> string -> image -> image.

Inductive value := PyNone | Text (s : string) | Numpy (dtype : string) (a : image) | Dask (dtype : string) (a : image) | Object (r : nat).

Record signal := Signal {
  cls : class;
  metadata_type : string;               (* metadata.Signal.signal_type *)
  dtype : string;
  data : list image;                    (* the patterns *)
  shape : nat * nat;                    (* of a pattern *)
  px : R;                               (* scale of the first signal axis *)
  attribute : string -> option value }. (* self._name; None: there is no such attribute *)

Definition set_attribute (a : string -> option value) (n : string) (v : option value) : string -> option value :=
  fun m => if (m =? n)%string then v else a m.
Definition set_attributes (a : string -> option value) (l : list (string * value)) : string -> option value :=
  fold_left (fun a p => set_attribute a (fst p) (Some (snd p))) l a.
Definition delete_attributes (a : string -> option value) (l : list string) : string -> option value :=
  fold_left (fun a n => set_attribute a n None) l a.

(** kwargs.get(name) *)
Definition given (kw : list (string * value)) (n : string) : option value := option_map snd (find (fun p => (fst p =? n)%string) kw).
Definition or_none (v : option value) : value := match v with Some v => v | None => PyNone end.

(** EBSDDetector(shape=self._signal_shape_rc, px_size=self.axes_manager.signal_axes[0].scale), ebsd.py 193-196 *)
Definition default_detector (shape : nat * nat) (px : R) : Detector.detector :=
  Detector.Det (Z.of_nat (fst shape)) (Z.of_nat (snd shape)) px 1 0 0 0 70 (Detector.PCArray [1] [Detector.PC 0.5 0.5 0.5]).

(** __init__ of the classes (ebsd.py 188-199, _kikuchi_master_pattern.py 76-80): attributes of an object after it. The default
    detector and phase are made in any case. *)
Definition init (w : world) (c : class) (shape : nat * nat) (px : R) (kw : list (string * value)) (a : string -> option value)
    : world * (string -> option value) :=
  if is_ebsd c then
    let (r, w) := new w (ADetector (default_detector shape px)) in
    (w, set_attributes a [("detector", match given kw "detector" with Some v => v | None => Object r end);
                          ("static_background", or_none (given kw "static_background")); ("xmap", or_none (given kw "xmap"))])
  else if is_master c then
    let (r, w) := new w (APhase "") in
    (w, set_attributes a [("hemisphere", or_none (given kw "hemisphere"));
                          ("phase", match given kw "phase" with Some v => v | None => Object r end);
                          ("projection", or_none (given kw "projection"))])
  else (w, a).

(** ** Loading *)

(** What a reader returns, as far as it matters here *)
Record signal_dict := SignalDict {
  d_data : list image; d_dtype : string; d_shape : nat * nat; d_px : R;
  d_type : option string; d_record_by : option string; d_others : list (string * value) }.

(** _dict2signal, _io.py 146-195 *)
Definition dict2signal (w : world) (d : signal_dict) (lazy : bool) : option (world * signal) :=
  let type := match d_type d with Some t => t | None => "" end in
  let? _ := match d_record_by d with
            | Some r => if (r =? "image")%string then Some tt else None
            | None => Some tt
            end in
  let? c := assign_signal_subclass (d_dtype d) type lazy in
  let '(w, a) := init w c (d_shape d) (d_px d) (d_others d) (fun _ => None) in
  Some (w, Signal c type (d_dtype d) (d_data d) (d_shape d) (d_px d) a).

(** ** Conversions *)

(** _get_custom_attributes, _kikuchipy_signal.py 471-501, without make_deepcopy; None: AttributeError *)
Fixpoint get_attributes (a : string -> option value) (names : list string) : option (list (string * value)) :=
  match names with
  | [] => Some []
  | n :: r => let? v := a n in let? l := get_attributes a r in Some ((n, v) :: l)
  end.
Definition get_custom_attributes (s : signal) : option (list (string * value)) := get_attributes (attribute s) (c_custom (cls s)).

(** deepcopy of a value, and of all *)
Definition copy_value (w : world) (v : value) : world * value :=
  match v with Object r => let (k, w) := new w (thing_at w r) in (w, Object k) | _ => (w, v) end.
Fixpoint copy_values (w : world) (l : list (string * value)) : world * list (string * value) :=
  match l with
  | [] => (w, [])
  | (n, v) :: r => let '(w, v) := copy_value w v in let '(w, r) := copy_values w r in (w, (n, v) :: r)
  end.
Definition make_lazy (v : value) : value := match v with Numpy t a => Dask t a | _ => v end.
Definition unmake_lazy (v : value) : value := match v with Dask t a => Numpy t a | _ => v end.
(** _set_custom_attributes, 503-545: [f] is what make_lazy or unmake_lazy does *)
Definition set_custom_attributes (f : value -> value) (l : list (string * value)) (s : signal) : signal :=
  Signal (cls s) (metadata_type s) (dtype s) (data s) (shape s) (px s)
    (set_attributes (attribute s) (map (fun p => (fst p, f (snd p))) (filter (fun p => mem (fst p) (c_custom (cls s))) l))).
Definition delete (names : list string) (s : signal) : signal :=
  Signal (cls s) (metadata_type s) (dtype s) (data s) (shape s) (px s) (delete_attributes (attribute s) names).

(** HyperSpy's _assign_subclass for [lazy], and kikuchipy's around it (583-597) for its own classes *)
Definition assign_subclass (lazy : bool) (w : world) (s : signal) : option (world * signal) :=
  let? c := hyperspy_subclass (dtype s) (metadata_type s) lazy in
  let type := match c_aliases c with [] => metadata_type s | _ => c_type c end in
  let '(w, a) := init w c (shape s) (px s) [] (attribute s) in
  let s' := Signal c type (dtype s) (data s) (shape s) (px s) a in
  Some (w, if ours (cls s) && negb (mem (c_type c) signal_types) then delete (c_custom (cls s)) s' else s').

(** What a call does: it returns (for methods which return a signal, this is the one), or it raises an exception; in both
    cases the signal may have changed. *)
Inductive outcome := Returns (w : world) (s : signal) | Raises (w : world) (s : signal).

(** deepcopy, 574-581: a new signal of the class from the data, metadata and axes of the signal *)
Definition deepcopy (w : world) (s : signal) : option (world * signal) :=
  let '(w, a) := init w (cls s) (shape s) (px s) [] (fun _ => None) in
  let s' := Signal (cls s) (metadata_type s) (dtype s) (data s) (shape s) (px s) a in
  if ours (cls s) && mem (c_type (cls s)) signal_types then
    let? l := get_custom_attributes s in
    let '(w, l) := copy_values w l in
    Some (w, set_custom_attributes (fun v => v) l s')
  else Some (w, s').

(** as_lazy, 549-557. HyperSpy makes a deep copy and gives it its new class. *)
Definition as_lazy (w : world) (s : signal) : option (world * signal) :=
  let? p := deepcopy w s in
  let? q := assign_subclass true (fst p) (snd p) in
  if ours (cls s) && mem (c_type (cls (snd q))) signal_types then
    let? l := get_custom_attributes s in
    Some (fst q, set_custom_attributes make_lazy l (snd q))
  else Some q.

(** compute of lazy signals, 610-615 *)
Definition compute (w : world) (s : signal) : option (world * signal) :=
  if c_lazy (cls s) then
    if ours (cls s) then
      let? l := get_custom_attributes s in
      let? q := assign_subclass false w s in
      if ours (cls (snd q)) then Some (fst q, set_custom_attributes unmake_lazy l (snd q)) else None
    else assign_subclass false w s
  else None.

(** change_dtype, 559-572, and of EBSD, ebsd.py 3174-3179. HyperSpy refuses to make real numbers from complex ones. *)
Definition background_astype (t : string) (s : signal) : signal :=
  match attribute s "static_background" with
  | Some (Numpy t0 a) => Signal (cls s) (metadata_type s) (dtype s) (data s) (shape s) (px s) (set_attribute (attribute s) "static_background" (Some (Numpy t (astype t0 t a))))
  | Some (Dask t0 a) => Signal (cls s) (metadata_type s) (dtype s) (data s) (shape s) (px s) (set_attribute (attribute s) "static_background" (Some (Dask t (astype t0 t a))))
  | _ => s
  end.
Definition change_dtype (t : string) (w : world) (s : signal) : option (world * signal) :=
  if is_complex (dtype s) && negb (is_complex t) then None
  else
    let s1 := Signal (cls s) (metadata_type s) t (map (astype (dtype s) t) (data s)) (shape s) (px s) (attribute s) in
    let? l := get_custom_attributes s in
    let? q := assign_subclass (c_lazy (cls s)) w s1 in
    if ours (cls s) then
      let s2 := if mem (c_type (cls (snd q))) signal_types then set_custom_attributes (fun v => v) l (snd q)
                else delete (map fst l) (snd q) in
      Some (fst q, if is_ebsd (cls s) && is_ebsd (cls s2) then background_astype t s2 else s2)
    else Some q.

(** set_signal_type: HyperSpy's for most signals; that of master patterns, _kikuchi_master_pattern.py 373-386 *)
Definition set_type (t : string) (s : signal) : signal :=
  Signal (cls s) t (dtype s) (data s) (shape s) (px s) (attribute s).
Definition set_signal_type (t : string) (w : world) (s : signal) : outcome :=
  if is_master (cls s) then
    if contains "master" (Detector.lower t) then
      match get_custom_attributes s with
      | None => Raises w s
      | Some l =>
        match assign_subclass (c_lazy (cls s)) w (set_type t s) with
        | None => Raises w (set_type t s)
        | Some (w, s') => if ours (cls s') then Returns w (set_custom_attributes (fun v => v) l s') else Raises w s'
        end
      end
    else
      match assign_subclass (c_lazy (cls s)) w (set_type t s) with
      | None => Raises w (set_type t s)
      | Some (w, s') => Returns w (delete (c_custom (cls s)) s')
      end
  else
    match assign_subclass (c_lazy (cls s)) w (set_type t s) with
    | None => Raises w (set_type t s)
    | Some (w, s') => Returns w s'
    end.

(** Intensity operations with dtype_out, as rescale_intensity in _kikuchipy_signal.py 198-243 and normalize_intensity: HyperSpy's
    map() gives the patterns new intensities of another type, attributes are set as they were before. *)
Definition intensities (f : list image -> list image) (t : string) (w : world) (s : signal) : option (world * signal) :=
  let s1 := Signal (cls s) (metadata_type s) t (f (data s)) (shape s) (px s) (attribute s) in
  let? l := get_custom_attributes s in
  let? q := assign_subclass (c_lazy (cls s)) w s1 in
  Some (fst q, set_custom_attributes (fun v => v) l (snd q)).

(** The checks of remove_static_background, ebsd.py 516-540, for the background of the signal: None is a ValueError; otherwise
    the array which is removed. Its shape is not compared here. *)
Definition background_to_remove (s : signal) : option image :=
  match attribute s "static_background" with
  | Some (Numpy t a) | Some (Dask t a) => if (t =? dtype s)%string then Some a else None
  | _ => None
  end.

(** ** Histories *)
Inductive conversion := AsLazy | Compute | ChangeType (t : string) | DeepCopy | SetType (t : string) | Intensities (f : list image -> list image) (t : string).
(** The signal after a conversion (for as_lazy and deepcopy, the returned one). A call which raises an exception leaves the
    signal as it was, except for set_signal_type. *)
Definition or_same (w : world) (s : signal) (r : option (world * signal)) : world * signal := match r with Some q => q | None => (w, s) end.
Definition convert (c : conversion) (ws : world * signal) : world * signal :=
  let (w, s) := ws in
  match c with
  | AsLazy => or_same w s (as_lazy w s)
  | Compute => or_same w s (compute w s)
  | ChangeType t => or_same w s (change_dtype t w s)
  | DeepCopy => or_same w s (deepcopy w s)
  | SetType t => match set_signal_type t w s with Returns w s | Raises w s => (w, s) end
  | Intensities f t => or_same w s (intensities f t w s)
  end.
Definition run (h : list conversion) (ws : world * signal) : world * signal := fold_left (fun ws c => convert c ws) h ws.

End Signals.
Arguments PyNone {image}.
Arguments Text {image}.
Arguments Numpy {image}.
Arguments Dask {image}.
Arguments Object {image}.
Arguments Signal {image}.
Arguments cls {image}.
Arguments metadata_type {image}.
Arguments dtype {image}.
Arguments data {image}.
Arguments shape {image}.
Arguments px {image}.
Arguments attribute {image}.
Arguments SignalDict {image}.
Arguments AsLazy {image}.
Arguments Compute {image}.
Arguments ChangeType {image}.
Arguments DeepCopy {image}.
Arguments SetType {image}.
Arguments Intensities {image}.
Arguments Returns {image}.
Arguments Raises {image}.
