(** Methods of the signal classes that only forward to the inherited method:
    src/kikuchipy/signals/virtual_bse_image.py 39-105, ebsd.py 3108-3169, ebsd_master_pattern.py 434-492,
    ecp_master_pattern.py 120-178, and the inherited methods in _kikuchipy_signal.py 88-470. Python's rules
    for binding arguments are modelled; the values are what these methods accept. *)
From Coq Require Import String List Arith ZArith Bool.
From Verif Require Import Model.Intensity.
Import ListNotations.
Local Open Scope string_scope.

Inductive pyval := VNone | VBool (b : bool) | VInt (z : Z) | VPair (a b : Z) | VDtype (d : dtype).

(** A signature: parameter names (self left out) and defaults. *)
Definition signature := list (string * pyval).
Definition env := list (string * pyval).
Fixpoint lookup (x : string) (e : env) : option pyval :=
  match e with [] => None | (y, v) :: e' => if x =? y then Some v else lookup x e' end.

(** Python's binding of positional and keyword arguments; None for TypeError (too many positional
    arguments, an unknown keyword, a repeated one, or one already given by position). *)
Fixpoint bind (sig : signature) (pos : list pyval) (kw : env) : option env :=
  match sig with
  | [] => match pos, kw with [], [] => Some [] | _, _ => None end
  | (x, dflt) :: sig' =>
      match pos with
      | v :: pos' => match lookup x kw with Some _ => None | None => option_map (cons (x, v)) (bind sig' pos' kw) end
      | [] =>
          let '(v, kw') := match lookup x kw with
                           | Some v => (v, filter (fun p => negb (fst p =? x)) kw)
                           | None => (dflt, kw)
                           end in
          option_map (cons (x, v)) (bind sig' [] kw')
      end
  end.
(** A call repeats no keyword (a syntax error in Python). *)
Definition call (sig : signature) (pos : list pyval) (kw : env) : option env :=
  if list_eq_dec string_dec (nodup string_dec (map fst kw)) (map fst kw) then bind sig pos kw else None.

(** An override: its own signature and the arguments it passes on, by position (names of its own
    parameters) and by keyword (keyword, name of its own parameter). *)
Record override := Override { o_sig : signature; o_pos : list string; o_kw : list (string * string) }.

Fixpoint values (e : env) (xs : list string) : option (list pyval) :=
  match xs with
  | [] => Some []
  | x :: xs' => match lookup x e, values e xs' with Some v, Some vs => Some (v :: vs) | _, _ => None end
  end.
(** What the inherited method receives when the override is called. *)
Definition call_through (o : override) (base : signature) (pos : list pyval) (kw : env) : option env :=
  match call (o_sig o) pos kw with
  | None => None
  | Some e =>
      match values e (o_pos o), values e (map snd (o_kw o)) with
      | Some ps, Some vs => call base ps (combine (map fst (o_kw o)) vs)
      | _, _ => None
      end
  end.

(** ** Inherited methods: _kikuchipy_signal.py 88-99, 245-253, 340-348 *)

Definition base_rescale : signature :=
  [("relative", VBool false); ("in_range", VNone); ("out_range", VNone); ("dtype_out", VNone); ("percentiles", VNone);
   ("show_progressbar", VNone); ("inplace", VBool true); ("lazy_output", VNone)].
Definition base_normalize : signature :=
  [("num_std", VInt 1); ("divide_by_square_root", VBool false); ("dtype_out", VNone); ("show_progressbar", VNone);
   ("inplace", VBool true); ("lazy_output", VNone)].
Definition base_equalize : signature :=
  [("kernel_size", VNone); ("clip_limit", VInt 0); ("nbins", VInt 128); ("show_progressbar", VNone);
   ("inplace", VBool true); ("lazy_output", VNone)].

(** ** Overrides *)

(** virtual_bse_image.py 41-64 and ebsd.py 3110-3133. *)
Definition rescale_by_position : override :=
  Override base_rescale ["relative"; "in_range"; "out_range"; "dtype_out"; "percentiles"; "show_progressbar"; "inplace"; "lazy_output"] [].
(** ebsd_master_pattern.py 452-474, ecp_master_pattern.py 138-160. *)
Definition rescale_by_keyword : override :=
  Override base_rescale [] [("relative", "relative"); ("in_range", "in_range"); ("out_range", "out_range"); ("dtype_out", "dtype_out");
    ("percentiles", "percentiles"); ("show_progressbar", "show_progressbar"); ("inplace", "inplace"); ("lazy_output", "lazy_output")].
(** ebsd.py 3135-3151. *)
Definition normalize_ebsd : override :=
  Override base_normalize ["num_std"; "divide_by_square_root"; "dtype_out"; "show_progressbar"; "inplace"; "lazy_output"] [].
(** ebsd_master_pattern.py 434-450, ecp_master_pattern.py 120-136. *)
Definition normalize_by_keyword : override :=
  Override base_normalize [] [("num_std", "num_std"); ("divide_by_square_root", "divide_by_square_root"); ("dtype_out", "dtype_out");
    ("show_progressbar", "show_progressbar"); ("inplace", "inplace"); ("lazy_output", "lazy_output")].
(** virtual_bse_image.py 66-82: show_progressbar and dtype_out in the other order. *)
Definition normalize_virtual_bse : override :=
  Override base_normalize ["num_std"; "divide_by_square_root"; "show_progressbar"; "dtype_out"; "inplace"; "lazy_output"] [].
(** The same in virtual_bse_image.py 84-100, ebsd.py 3153-3169, ebsd_master_pattern.py 476-492,
    ecp_master_pattern.py 162-178. *)
Definition equalize_override : override :=
  Override base_equalize ["kernel_size"; "clip_limit"; "nbins"; "show_progressbar"; "inplace"; "lazy_output"] [].

(** Data type of the images normalize_intensity makes from images of type own, _kikuchipy_signal.py
    301-320: ValueError for lazy_output with inplace, and np.dtype(dtype_out) raises a TypeError for a value
    that is no data type. None for an error. *)
Definition truthy (v : pyval) : bool :=
  match v with VNone => false | VBool b => b | VInt z => negb (z =? 0)%Z | _ => true end.
Definition normalize_dtype (own : dtype) (received : option env) : option dtype :=
  match received with
  | None => None
  | Some e =>
      match lookup "dtype_out" e, lookup "inplace" e, lookup "lazy_output" e with
      | Some d, Some i, Some l =>
          if truthy l && truthy i then None
          else match d with VNone => Some own | VDtype t => Some t | _ => None end
      | _, _, _ => None
      end
  end.
