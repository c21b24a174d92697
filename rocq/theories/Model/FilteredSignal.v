(** EBSD.fft_filter() (signals/ebsd.py 805-941) with pattern/chunk.py fft_filter (75-127) and
    filters/fft_barnes.py _fft_filter_setup (29-51) and _fft_filter (155-177).

    The filters are those of Model/PatternSpectrum.v (frequency domain) and Model/FftBarnes.v (spatial domain);
    each pattern is filtered and rescaled on its own, so chunks do not matter. A pixel that is not a number after
    division by zero is None (Model/FlatPatterns.v). Simplifications: real numbers; a transfer function in the frequency
    domain of another shape than the patterns raises an error (shapes of 1 that NumPy would repeat are left out);
    storing in place or returning a lazy signal is in Model/SignalHeap.v. *)
From Coq Require Import String List Arith Reals Bool.
From Verif Require Import Model.FftBarnes Model.Pattern Model.Intensity Model.FlatPatterns.
From Verif Require Model.PatternSpectrum.
Import ListNotations.
Local Open Scope R_scope.

(** A transfer function or window with its shape. *)
Record transfer := Transfer { t_rows : nat; t_cols : nat; t_at : array }.

(** The chosen filter_func of one pattern of h x w pixels (887-909). None for an error. *)
Definition filter_of (next_fast_len : nat -> nat) (function_domain : string) (shift : bool) (t : transfer) (h w : nat)
    : option (array -> array) :=
  if String.eqb function_domain "frequency" then
    if ((t_rows t =? h) && (t_cols t =? w))%nat
    then Some (fun p => snd (PatternSpectrum.fft_filter h w p (t_at t) None shift)) else None
  else if String.eqb function_domain "spatial" then
    Some (fun p => FftBarnes.fft_filter h w (t_rows t) (t_cols t) (next_fast_len (h + t_rows t - 1)%nat)
                     (next_fast_len (w + t_cols t - 1)%nat) p (t_at t))
  else None.

(** EBSD.fft_filter (880-919): the pixels of each pattern in reading order. None for an error. *)
Definition filtered_signal (next_fast_len : nat -> nat) (function_domain : string) (shift : bool) (t : transfer)
    (inplace : bool) (lazy_output : option bool) (dtype_out : dtype) (h w : nat) (data : list array)
    : option (list pixels) :=
  if (match lazy_output with Some true => true | _ => false end && inplace)%bool then None
  else option_map
    (fun f => map (fun p => rescaled_pattern None None dtype_out None (PatternSpectrum.pixels h w (f p))) data)
    (filter_of next_fast_len function_domain shift t h w).
