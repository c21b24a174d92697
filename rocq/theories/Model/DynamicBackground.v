(** The dynamic background: pattern/_pattern.py _dynamic_background_frequency_space_setup (604-631) and
    get_dynamic_background (634-695) ("pattern"), pattern/chunk.py get_dynamic_background (33-72) ("chunk"),
    signals/ebsd.py remove_dynamic_background (645-697) and get_dynamic_background (698-803) ("ebsd"), and the part of
    filters/window.py 117-186 which makes Gaussian windows ("window").

    Simplifications: real numbers instead of floats; scipy.signal.windows.gaussian and scipy.ndimage.gaussian_filter are
    modelled by their defining formulas (the latter with its default mode "reflect" and an output of the data type of the
    input, into which the values are stored after each axis); next_fast_len is an argument.  Arrays are functions of row
    and column as in Model/FftBarnes.v, and lists of pixels row by row where patterns of a signal are meant. *)
From Coq Require Import List Reals Arith ZArith.
From Verif Require Import Model.Pattern Model.Intensity Model.FftBarnes Model.Binary.
From Verif Require Model.Detector.
Import ListNotations.
Local Open Scope R_scope.

Fixpoint sum_below (n : nat) (f : nat -> R) : R := match n with O => 0 | S n => sum_below n f + f n end.

(** scipy's gaussian(M, std, sym=True), as get_window is called with fftbins=False (window 168) *)
Definition gaussian (n : nat) (std : R) (i : nat) : R :=
  let x := INR i - (INR n - 1) / 2 in exp (- (x ^ 2) / (2 * std ^ 2)).
(** Window("gaussian", std=std, shape=(n, n)): np.outer (window 174) *)
Definition gaussian_window (n : nat) (std : R) : array := fun u v => gaussian n std u * gaussian n std v.

(** int(truncate * std); window axes must be positive (window 133-134), otherwise ValueError (None) *)
Definition window_size (truncate std : R) : option nat :=
  let z := Detector.trunc (truncate * std) in if (z <? 1)%Z then None else Some (Z.to_nat z).
(** The normalized window (pattern 613-615) *)
Definition normalized_window (n : nat) (std : R) : array :=
  let w u v := gaussian_window n std u v / (2 * PI * std ^ 2) in
  let s := sum_below n (fun u => sum_below n (fun v => w u v)) in
  fun u v => w u v / s.

Section Background.
Variable next_fast_len : nat -> nat.

(** Filtering in the frequency domain: an image of [by_] x [bx] pixels with a window and transforms made for patterns
    of [ny] x [nx] pixels (pattern 617-631). *)
Definition frequency_filter (ny nx by_ bx : nat) (truncate std : R) (image : array) : option array :=
  let? n := window_size truncate std in
  Some (fft_filter by_ bx n n (next_fast_len (ny + n - 1)) (next_fast_len (nx + n - 1)) image (normalized_window n std)).

(** Index of a pixel outside of [0, n) with mode "reflect": d c b a | a b c d | d c b a *)
Definition reflect (n : nat) (i : Z) : nat :=
  let j := (i mod (2 * Z.of_nat n))%Z in
  Z.to_nat (if (j <? Z.of_nat n)%Z then j else (2 * Z.of_nat n - 1 - j)%Z).
(** scipy.ndimage.gaussian_filter1d: radius int(truncate * sigma + 0.5), weights which add up to one *)
Definition radius (truncate std : R) : nat := Z.to_nat (Detector.trunc (truncate * std + 1 / 2)).
Definition spatial_weight (r : nat) (std : R) (i : nat) : R :=
  let w i := exp (- (1 / 2) / std ^ 2 * (INR i - INR r) ^ 2) in w i / sum_below (2 * r + 1) w.
(** gaussian_filter: rows, then columns; [store] converts to the data type of the output. *)
Definition spatial_filter (store : R -> R) (ny nx : nat) (truncate std : R) (image : array) : array :=
  let r := radius truncate std in
  let a := fun y x => store (sum_below (2 * r + 1) (fun u =>
    spatial_weight r std u * image (reflect ny (Z.of_nat y + Z.of_nat u - Z.of_nat r)) x)) in
  fun y x => store (sum_below (2 * r + 1) (fun v =>
    spatial_weight r std v * a y (reflect nx (Z.of_nat x + Z.of_nat v - Z.of_nat r)))).

Inductive domain := Frequency | Spatial.
(** A background stored in data type [t] of a block of a pattern (pattern 666-695, chunk 58-72): what is left of the
    frequency filter when it is stored; gaussian_filter of an array of this data type. *)
Definition background_of_block (d : domain) (t : dtype) (ny nx by_ bx : nat) (truncate std : R) (image : array) : option array :=
  match d with
  | Frequency => let? a := frequency_filter ny nx by_ bx truncate std image in Some (fun y x => cast t (a y x))
  | Spatial => Some (spatial_filter (cast t) by_ bx truncate std image)
  end.
Definition background (d : domain) (t : dtype) (ny nx : nat) (truncate std : R) (image : array) : option array :=
  background_of_block d t ny nx ny nx truncate std image.

(** kikuchipy.pattern.get_dynamic_background (pattern 666-695): the default is pattern.shape[1] / 8. *)
Definition get_dynamic_background (d : domain) (t : dtype) (ny nx : nat) (std : option R) (truncate : R) (image : array) : option array :=
  background d t ny nx truncate (match std with Some s => s | None => INR nx / 8 end) image.

(** Conversion of whole numbers to an integer data type, which wraps around. *)
Definition astype (t : dtype) (x : R) : R :=
  if is_float t then x
  else let '(lo, hi) := dtype_range t in IZR (lo + (Detector.trunc x - lo) mod (hi - lo + 1)).

(** axes_manager.signal_shape has the columns first. *)
Definition signal_shape (ny nx : nat) : list nat := [nx; ny].
(** EBSD.get_dynamic_background (ebsd 741-803) for one pattern: the default is signal_shape[-1] / 8 (742), and patterns
    are converted before they are filtered (771). *)
Definition ebsd_get_dynamic_background (d : domain) (dtype_out : dtype) (ny nx : nat) (std : option R) (truncate : R) (image : array) : option array :=
  let std := match std with Some s => s | None => INR (last (signal_shape ny nx) 0%nat) / 8 end in
  background d dtype_out ny nx truncate std (fun y x => astype dtype_out (image y x)).
(** The same for lazy signals with chunks of [widths] columns of the detector: map_blocks filters each on its own. *)
Fixpoint block_of (offset : nat) (widths : list nat) (x : nat) : nat * nat :=
  match widths with
  | [] => (offset, 0%nat)
  | w :: rest => if (x <? offset + w)%nat then (offset, w) else block_of (offset + w) rest x
  end.
Definition ebsd_get_dynamic_background_chunked (d : domain) (dtype_out : dtype) (ny nx : nat) (widths : list nat) (std : option R) (truncate : R)
    (image : array) (y x : nat) : option R :=
  let std := match std with Some s => s | None => INR (last (signal_shape ny nx) 0%nat) / 8 end in
  let '(offset, w) := block_of 0 widths x in
  let? a := background_of_block d dtype_out ny nx ny w truncate std (fun y x => astype dtype_out (image y (offset + x)%nat)) in
  Some (a y (x - offset)%nat).

(** Patterns as lists of pixels. *)
Definition ravel (ny nx : nat) (a : array) : pattern := flat_map (fun y => map (a y) (seq 0 nx)) (seq 0 ny).
Definition unravel (nx : nat) (p : pattern) : array := fun y x => nth (y * nx + x) p 0.
(** EBSD.remove_dynamic_background (ebsd 645-697): the default is signal_shape[0] / 8 (649), and patterns are converted
    to 32-bit floats before they are filtered. *)
Definition ebsd_remove_dynamic_background (op : operation) (d : domain) (t : dtype) (ny nx : nat) (std : option R) (truncate : R)
    (data : list pattern) : option (list pattern) :=
  let std := match std with Some s => s | None => INR (hd 0%nat (signal_shape ny nx)) / 8 end in
  let blur p := match background d Float32 ny nx truncate std (unravel nx p) with Some a => ravel ny nx a | None => [] end in
  match background d Float32 ny nx truncate std (fun _ _ => 0) with
  | Some _ => Some (remove_dynamic_background_signal op t blur data)
  | None => None
  end.
End Background.
