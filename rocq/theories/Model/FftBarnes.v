(** Filtering in the frequency domain, src/kikuchipy/filters/fft_barnes.py 29-181. Arrays are functions of the row and the
    column, read within their shape. Real numbers instead of 32-bit floats. scipy.fft's rfft2 and irfft2 are modelled as the
    discrete Fourier transform and its inverse by their defining sums (rfft2 leaves out the half of the transform that
    irfft2 fills in again for real arrays), and next_fast_len as any number not less than its argument. *)
From Coq Require Import Reals Arith ZArith Bool.
Local Open Scope R_scope.

Definition C : Type := (R * R)%type.
Definition Cadd (a b : C) : C := (fst a + fst b, snd a + snd b).
Definition Cmul (a b : C) : C := (fst a * fst b - snd a * snd b, fst a * snd b + snd a * fst b).
Definition cis (t : R) : C := (cos t, sin t).
Definition real (x : R) : C := (x, 0).
Fixpoint csum (n : nat) (f : nat -> C) : C := match n with O => (0, 0) | S n => Cadd (csum n f) (f n) end.

Definition array := nat -> nat -> R.
Definition dft2 (fy fx : nat) (a : array) (k l : nat) : C :=
  csum fy (fun y => csum fx (fun x => Cmul (real (a y x)) (cis (- (2 * PI * (INR k * INR y / INR fy + INR l * INR x / INR fx)))))).
Definition idft2 (fy fx : nat) (t : nat -> nat -> C) (y x : nat) : C :=
  Cmul (real (/ (INR fy * INR fx)))
    (csum fy (fun k => csum fx (fun l => Cmul (t k l) (cis (2 * PI * (INR k * INR y / INR fy + INR l * INR x / INR fx)))))).

(** Assignment to [a[y0:y1, x0:x1]]. *)
Definition assign (y0 y1 x0 x1 : nat) (v : array) (a : array) : array :=
  fun y x => if (y0 <=? y)%nat && (y <? y1)%nat && ((x0 <=? x)%nat && (x <? x1)%nat) then v y x else a y x.

(** _pad_window, 97-104. *)
Definition pad_window (wy wx : nat) (w : array) : array :=
  assign 0 wy 0 wx (fun y x => w (wy - 1 - y)%nat (wx - 1 - x)%nat) (fun _ _ => 0).
(** _offset_before_fft and _offset_after_ifft, 113-116, for one axis. *)
Definition before (w : nat) : nat := (w - (w - 1) / 2 - 1)%nat.
Definition after (w : nat) : nat := ((w - 1) / 2)%nat.
(** _pad_image, 120-152. *)
Definition pad_image (iy ix wy wx fy fx : nat) (image : array) : array :=
  let oy := before wy in let ox := before wx in
  let hy := ((wy - 1) / 2)%nat in let hx := ((wx - 1) / 2)%nat in
  let a := assign 0 iy 0 ix image (fun _ _ => 0) in
  let a := assign iy (iy + hy) 0 ix (fun _ x => image (iy - 1)%nat x) a in
  let a := assign 0 iy ix (ix + hx) (fun y _ => image y (ix - 1)%nat) a in
  let a := assign (fy - oy) fy 0 ix (fun _ x => image 0%nat x) a in
  let a := assign 0 iy (fx - ox) fx (fun y _ => image y 0%nat) a in
  let a := assign iy (iy + hy) ix (ix + hx) (fun _ _ => image (iy - 1)%nat (ix - 1)%nat) a in
  let a := assign (fy - oy) fy ix (ix + hx) (fun _ _ => image 0%nat (ix - 1)%nat) a in
  let a := assign iy (iy + hy) (fx - ox) fx (fun _ _ => image (iy - 1)%nat 0%nat) a in
  assign (fy - oy) fy (fx - ox) fx (fun _ _ => image 0%nat 0%nat) a.
(** fft_filter, 60-94, and _fft_filter, 155-177. *)
Definition fft_filter (iy ix wy wx fy fx : nat) (image window : array) : array :=
  let transfer := dft2 fy fx (pad_window wy wx window) in
  let spectrum := dft2 fy fx (pad_image iy ix wy wx fy fx image) in
  let result := idft2 fy fx (fun k l => Cmul (spectrum k l) (transfer k l)) in
  fun y x => fst (result (after wy + y)%nat (after wx + x)%nat).
