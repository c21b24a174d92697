(** Selections with single indices, steps and values in the units of an axis: inav and isig (EBSD._slicer, src/kikuchipy/signals/ebsd.py
    2830-2876), crop() (2724-2770), what becomes of detector, static background and crystal map (_update_custom_attributes 3294-3378), and
    how arguments are read (get_parameters, signals/util/_overwrite_hyperspy_methods.py 26-59).

    HyperSpy and orix are outside the repository.  Of HyperSpy we keep how indices, slices and values become slices of the data; of orix
    that a slice of a crystal map with all points in the data has the points in the slice, in the order of the map, and the shape of the
    smallest box with these points, in steps of the map.  Simplifications: no Ellipsis and no steps in units; a selection of nothing is an
    error; a detector has at least as many navigation axes as the signal, or one PC. *)
From Coq Require Import String List Arith ZArith Reals Bool.
From Verif Require Import Model.Binary Model.NdArray.
From Verif Require Model.Detector Model.SignalSlices.
Import ListNotations.
Local Open Scope nat_scope.

Section All.
Context {A : Type}.
Fixpoint all_some (l : list (option A)) : option (list A) :=
  match l with [] => Some [] | x :: l => let? a := x in let? r := all_some l in Some (a :: r) end.
End All.

(** ** Arguments (get_parameters) *)

Section Arguments.
Context {V : Type}.
Variable none : V.
(** A parameter has a name and maybe a default. *)
Definition parameter : Type := string * option V.
Fixpoint update (k : string) (v : V) (d : list (string * V)) : list (string * V) :=
  match d with [] => [] | (k', w) :: d => if String.eqb k' k then (k', v) :: d else (k', w) :: update k v d end.
Fixpoint lookup (k : string) (d : list (string * V)) : option V :=
  match d with [] => None | (k', v) :: d => if String.eqb k' k then Some v else lookup k d end.
(** 33-40; the parameters are those of a bound method, without self, but one called self would be left out. *)
Definition defaults (ps : list parameter) : list (string * V) :=
  map (fun p => (fst p, match snd p with Some v => v | None => none end)) (filter (fun p => negb (String.eqb (fst p) "self")) ps).
(** 42-47; None is the IndexError for too many arguments. *)
Fixpoint positional (i : nat) (args : list V) (keys : list string) (d : list (string * V)) : option (list (string * V)) :=
  match args with
  | [] => Some d
  | a :: args => let? k := nth_error keys i in positional (S i) args keys (update k a d)
  end.
(** 49-52 *)
Definition keywords (kwargs : list (string * V)) (d : list (string * V)) : list (string * V) :=
  fold_left (fun d kv => update (fst kv) (snd kv) d) kwargs d.
(** The inner None is a parameter of interest that is not there. *)
Definition get_parameters (ps : list parameter) (interest : list string) (args : list V) (kwargs : list (string * V)) : option (option (list V)) :=
  let d := defaults ps in
  let? d := positional 0 args (map fst d) d in
  Some (all_some (map (fun k => lookup k (keywords kwargs d)) interest)).
End Arguments.

(** ** Selections as given, and as slices of the data (HyperSpy) *)

(** An axis: its size, first and last value, and HyperSpy's value2index (None: ValueError, not on the axis). *)
Record axis := Axis { size : nat; low : R; high : R; value2index : R -> option Z }.
(** A Python integer or a float. *)
Inductive edge := Index (i : Z) | Value (x : R).
Record range := Range { from : option edge; until : option edge; step : option Z }.
Inductive item := One (e : edge) | Many (r : range).
Definition whole : range := Range None None None.
Inductive entry := At (i : Z) | Sl (a b s : option Z).

(** Axis._get_array_slices: a value before the axis is no start, one after it no end, others beyond the axis raise an IndexError. *)
Definition start_index (ax : axis) (e : option edge) : option (option Z) :=
  match e with
  | None => Some None
  | Some (Index i) => Some (Some i)
  | Some (Value x) => match value2index ax x with Some i => Some (Some i) | None => if Rlt_dec (high ax) x then None else Some None end
  end.
Definition stop_index (ax : axis) (e : option edge) : option (option Z) :=
  match e with
  | None => Some None
  | Some (Index i) => Some (Some i)
  | Some (Value x) => match value2index ax x with Some i => Some (Some i) | None => if Rlt_dec x (low ax) then None else Some None end
  end.
Definition range_entry (ax : axis) (r : range) : option entry :=
  let? a := start_index ax (from r) in
  let? b := stop_index ax (until r) in
  match step r with Some 0%Z => None | s => Some (Sl a b s) end.
Definition nav_entry (ax : axis) (it : item) : option entry :=
  match it with
  | One (Index i) => Some (At i)
  | One (Value x) => option_map At (value2index ax x)
  | Many r => range_entry ax r
  end.

(** ** NumPy's basic indexing *)

(** slice.indices(n) and the indices from the first to the last *)
Definition slice_indices (n : Z) (a b : option Z) (s : Z) : Z * Z :=
  let lower := if (s <? 0)%Z then (-1)%Z else 0%Z in
  let upper := if (s <? 0)%Z then (n - 1)%Z else n in
  let clip i := if (i <? 0)%Z then Z.max (i + n) lower else Z.min i upper in
  (match a with Some i => clip i | None => if (s <? 0)%Z then upper else lower end,
   match b with Some i => clip i | None => if (s <? 0)%Z then lower else upper end).
Definition count (a b s : Z) : nat :=
  Z.to_nat (if (s <? 0)%Z then (if (b <? a)%Z then (a - b - 1) / (- s) + 1 else 0)%Z else (if (a <? b)%Z then (b - a - 1) / s + 1 else 0)%Z).
Definition positions (n : nat) (a b s : option Z) : list nat :=
  let s := match s with Some s => s | None => 1%Z end in
  let '(i, j) := slice_indices (Z.of_nat n) a b s in
  map (fun k => Z.to_nat (i + Z.of_nat k * s)) (seq 0 (count i j s)).
(** Positions on an axis, and whether the axis is kept; None is the IndexError. *)
Definition entry_positions (n : nat) (e : entry) : option (list nat * bool) :=
  match e with At i => option_map (fun k => ([k], false)) (position n i) | Sl a b s => Some (positions n a b s, true) end.
Fixpoint axes_positions (sh : list nat) (es : list entry) : option (list (list nat * bool)) :=
  match sh, es with
  | [], [] => Some []
  | [], _ :: _ => None
  | n :: sh, [] => let? r := axes_positions sh [] in Some ((seq 0 n, true) :: r)
  | n :: sh, e :: es => let? p := entry_positions n e in let? r := axes_positions sh es in Some (p :: r)
  end.
Definition new_shape (ps : list (list nat * bool)) : list nat := map (fun p => length (fst p)) (filter snd ps).
Fixpoint source (ps : list (list nat * bool)) (i : list nat) : list nat :=
  match ps with
  | [] => []
  | (p, true) :: ps => nth (hd 0 i) p 0 :: source ps (tl i)
  | (p, false) :: ps => nth 0 p 0 :: source ps i
  end.
Definition getitem {A} (a : arr A) (es : list entry) : option (arr A) :=
  let? ps := axes_positions (shape a) es in Some (Arr (new_shape ps) (fun i => at_ a (source ps i))).

(** Arrays as lists in row-major order. *)
Fixpoint cross (qs : list (list nat)) : list (list nat) :=
  match qs with [] => [[]] | q :: qs => flat_map (fun k => map (cons k) (cross qs)) q end.
Definition product (sh : list nat) : nat := fold_right Nat.mul 1 sh.
Fixpoint flat (sh i : list nat) : nat := match sh, i with _ :: sh, k :: i => k * product sh + flat sh i | _, _ => 0 end.
Definition listed {A} (sh : list nat) (l : list A) (d : A) (i : list nat) : A := nth (flat sh i) l d.

(** ** Signals *)

(** A crystal map: its shape and its points in the data. *)
Record cmap := CMap { m_shape : list nat; m_points : list nat }.
(** [patterns] has the navigation shape; a pattern is an array of the shape [sig]. *)
Record signal := Signal { patterns : arr (arr R); sig : nat * nat; detector : Detector.detector; background : option (arr R); xmap : option cmap }.

(** 3367-3376; None is the IndexError. *)
Definition pc_getitem (es : list entry) (a : Detector.pcarray) : option Detector.pcarray :=
  let? ps := axes_positions (Detector.nav_shape a) es in
  Some (Detector.PCArray (new_shape ps)
    (map (fun i => listed (Detector.nav_shape a) (Detector.pcs a) (Detector.PC 0 0 0) (source ps i)) (cross (map (seq 0) (new_shape ps))))).
Definition update_pc (es : list entry) (a : Detector.pcarray) : option Detector.pcarray :=
  if shape_eqb (Detector.nav_shape a) [1] then Some a
  else
    let? b := pc_getitem es a in
    Some (if product (Detector.nav_shape b) =? 0 then SignalSlices.half
          else match Detector.nav_shape b with [] => Detector.PCArray [1] (Detector.pcs b) | _ => b end).

Section Maps.
(** What orix makes of negative single indices is left open. *)
Variable negative_index : list entry -> cmap -> cmap.
Definition is_negative (e : entry) : bool := match e with At i => (i <? 0)%Z | Sl _ _ _ => false end.
Definition marked (n : nat) (p : list nat) : list nat := filter (fun k => existsb (Nat.eqb k) p) (seq 0 n).
Definition extent (l : list nat) : nat := match l with [] => 0 | a :: _ => last l a - a + 1 end.
(** xmap[nav_slices]; None is an exception that is caught. *)
Definition xmap_getitem (es : list entry) (m : cmap) : option cmap :=
  let? ps := axes_positions (m_shape m) es in
  let qs := map (fun np => marked (fst np) (fst (snd np))) (combine (m_shape m) ps) in
  Some (CMap (map extent qs) (map (listed (m_shape m) (m_points m) 0) (cross qs))).
(** 3356-3366: [ndim] is the number of navigation axes after, if it is given. *)
Definition update_xmap (es : list entry) (ndim : option nat) (m : cmap) : cmap :=
  if existsb is_negative es then negative_index es m
  else match xmap_getitem es m with
  | None => m
  | Some m' =>
      match ndim with
      | Some n => if n <? length (m_shape m')
          then CMap (match m_shape m' with [a; b] => if a =? 1 then [b] else [a] | sh => sh end) (m_points m') else m'
      | None => m'
      end
  end.

(** s.inav[items]: the first item is for the last axis of the array. *)
Definition inav (axes : list axis) (items : list item) (s : signal) : option signal :=
  if length axes <? length items then None
  else
    let items := rev (items ++ repeat (Many whole) (length axes - length items)) in
    let? es := all_some (map (fun ai => nav_entry (fst ai) (snd ai)) (combine axes items)) in
    let? p := getitem (patterns s) es in
    if existsb (Nat.eqb 0) (shape p) then None
    else
      let? pc := update_pc es (Detector.d_pc (detector s)) in
      Some (Signal p (sig s) (Detector.with_pc (detector s) pc) (background s) (option_map (update_xmap es (Some (length (shape p)))) (xmap s))).

(** s.isig[xs, ys] with ranges, [ys] along the rows of the detector.  The ends of the slices, but not the steps, give the detector
    (3322-3354, SignalSlices.v). *)
Definition ends (e : entry) : SignalSlices.slice := match e with At _ => SignalSlices.everything | Sl a b _ => SignalSlices.Slice a b end.
Definition cut (es : list entry) (b : arr R) : arr R := match getitem b es with Some b' => b' | None => b end.
Definition length_of (n : nat) (e : entry) : nat := match entry_positions n e with Some p => length (fst p) | None => 0 end.
Definition isig (ay ax : axis) (ys xs : range) (s : signal) : option signal :=
  let? ey := range_entry ay ys in
  let? ex := range_entry ax xs in
  let ny := length_of (fst (sig s)) ey in
  let nx := length_of (snd (sig s)) ex in
  if (ny =? 0) || (nx =? 0) then None
  else Some (Signal (Arr (shape (patterns s)) (fun i => cut [ey; ex] (at_ (patterns s) i))) (ny, nx)
               (SignalSlices.update_detector ny nx (ends ey) (ends ex) (detector s)) (option_map (cut [ey; ex]) (background s)) (xmap s)).

(** ** crop() *)

(** Axis._get_index (HyperSpy); None is the ValueError. *)
Definition get_index (ax : axis) (e : option edge) : option (option Z) :=
  match e with None => Some None | Some (Index i) => Some (Some i) | Some (Value x) => option_map Some (value2index ax x) end.
(** slice(params["start"], params["end"]) (2759, 2768): the arguments as they were given; None if one is a float, with which arrays cannot
    be sliced. *)
Definition raw (a b : option edge) : option entry :=
  match a, b with
  | Some (Value _), _ | _, Some (Value _) => None
  | a, b =>
      let z e := match e with Some (Index i) => Some i | _ => None end in Some (Sl (z a) (z b) None)
  end.
Definition everything : entry := Sl None None None.
(** The new detector if the old one cannot be cropped (3346-3354) *)
Definition fresh_detector (ny nx : nat) (d : Detector.detector) : Detector.detector :=
  Detector.Det (Z.of_nat ny) (Z.of_nat nx) (Detector.d_px_size d) (IZR (Detector.trunc (Detector.d_binning d))) (Detector.d_tilt d)
    (Detector.d_azimuthal d) 0%R (Detector.d_sample_tilt d) SignalSlices.half.
(** The signal after s.crop(axis, a, b), and whether an exception was raised; [k] is the number of the axis in the array. *)
Definition crop (ax : axis) (k : nat) (a b : option edge) (s : signal) : signal * bool :=
  match get_index ax a, get_index ax b with
  | Some i, Some j =>
      let e := Sl i j None in
      let n := length (shape (patterns s)) in
      let old := if k <? n then nth k (shape (patterns s)) 0 else if k =? n then fst (sig s) else snd (sig s) in
      let new := length_of old e in
      let none := match a, b with None, None => true | _, _ => false end in
      if new =? 0 then (s, true)
      else if none || (new =? old) then (s, false)
      else if k <? n then
        let slices e := repeat everything k ++ e :: repeat everything (n - 1 - k) in
        match getitem (patterns s) (slices e) with
        | None => (s, true)
        | Some p =>
            let xm := match raw a b with Some e => option_map (update_xmap (slices e) None) (xmap s) | None => xmap s end in
            let pc := if shape_eqb (Detector.nav_shape (Detector.d_pc (detector s))) [1] then Some (Detector.d_pc (detector s))
              else let? e := raw a b in update_pc (slices e) (Detector.d_pc (detector s)) in
            match pc with
            | Some pc => (Signal p (sig s) (Detector.with_pc (detector s) pc) (background s) xm, false)
            | None => (Signal p (sig s) (detector s) (background s) (xmap s), true)
            end
        end
      else
        let slices e := if k =? n then [e; everything] else [everything; e] in
        let new_sig := if k =? n then (new, snd (sig s)) else (fst (sig s), new) in
        let p := Arr (shape (patterns s)) (fun i => cut (slices e) (at_ (patterns s) i)) in
        match raw a b with
        | Some e =>
            let ey := if k =? n then e else everything in
            let ex := if k =? n then everything else e in
            (Signal p new_sig (SignalSlices.update_detector (fst new_sig) (snd new_sig) (ends ey) (ends ex) (detector s))
               (option_map (cut (slices e)) (background s)) (xmap s), false)
        | None => (Signal p new_sig (fresh_detector (fst new_sig) (snd new_sig) (detector s)) (background s) (xmap s), false)
        end
  | _, _ => (s, true)
  end.
End Maps.
