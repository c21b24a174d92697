(** The windows modified_hann, lowpass and highpass, src/kikuchipy/filters/window.py 418-583, and their use in Window.__new__ (117-186).
    Real numbers; None is nan, or an exception where said. *)
From Coq Require Import Reals Arith List Bool.
From Verif Require Import Model.Window.
Import ListNotations.
Local Open Scope R_scope.

(** modified_hann, 418-452: element i. *)
Definition modified_hann (n i : nat) : R := cos (PI * (INR i - INR n / 2 + 1 / 2) / INR n).
(** Window("modified_hann", shape) with two axes: np.outer. *)
Definition modified_hann2 (ny nx y x : nat) : R := modified_hann ny y * modified_hann nx x.
(** cutoff_width is half of the cutoff if not given. *)
Definition width (cutoff : R) (cutoff_width : option R) : R := match cutoff_width with Some w => w | None => cutoff / 2 end.
(** np.exp of minus a squared quotient: 0 / 0 is nan and exp(-inf) is 0. *)
Definition bell (x d : R) : option R :=
  if Req_EM_T d 0 then (if Req_EM_T x 0 then None else Some 0) else Some (exp (- ((x / d) * (x / d)))).
(** lowpass_fft_filter, 455-519, at distance r. *)
Definition lowpass (cutoff : R) (cutoff_width : option R) (r : R) : option R :=
  let w := width cutoff cutoff_width in
  if Rlt_dec r cutoff then Some 1 else if Rgt_dec r (cutoff + 2 * w) then Some 0 else bell (r - cutoff) (sqrt 2 * w / 2).
(** highpass_fft_filter, 522-583. *)
Definition highpass (cutoff : R) (cutoff_width : option R) (r : R) : option R :=
  let w := width cutoff cutoff_width in
  if Rgt_dec r cutoff then Some 1 else if Rlt_dec r (cutoff - 2 * w) then Some 0 else bell (cutoff - r) (sqrt 2 * w / 2).
(** The transfer function with two axes. distance_to_origin squeezes the distances (411). *)
Definition lowpass2 (cutoff : R) (cutoff_width : option R) (h w y x : nat) : option R := lowpass cutoff cutoff_width (distance (h / 2) (w / 2) y x).
Definition highpass2 (cutoff : R) (cutoff_width : option R) (h w y x : nat) : option R := highpass cutoff cutoff_width (distance (h / 2) (w / 2) y x).
(** Window("lowpass" or "highpass", shape): with an axis of length one the squeezed result has less than two axes, and is multiplied (172-174) by
    the same function called with Nx, which it does not have; for the shape (1, 1) a float does not support item assignment. None is a TypeError. *)
Inductive pass := Low | High.
Definition pass_window (k : pass) (cutoff : R) (cutoff_width : option R) (h w : nat) : option (nat -> nat -> option R) :=
  if ((h <=? 1) || (w <=? 1))%nat then None
  else Some (match k with Low => lowpass2 cutoff cutoff_width h w | High => highpass2 cutoff cutoff_width h w end).
