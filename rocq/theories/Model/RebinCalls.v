(** rebin() however it is called (EBSD.rebin, src/kikuchipy/signals/ebsd.py 2772-2828): with a new shape or with factors that need not be
    integers, with or without crop, with or without out, on a single pattern, a line scan or a map.

    HyperSpy is outside the repository.  Of its rebin we keep: the factors from the new shape or as given, in the order x, y of map and
    then pattern; the new sizes, rounded down (crop=True, the default) or up; each new value is the sum of the old ones, each weighted with
    the share of it which is in the new one; out gets the values, its attributes are left and nothing is returned; a result of the same
    kind is made with deepcopy(), which copies detector, static background and crystal map (_kikuchipy_signal.py 574-581).
    Simplifications: real numbers for floats; [round] is the conversion to the type of the new patterns, which HyperSpy makes for the
    patterns and line 2805 for the background; np.allclose (2818) is equality; a new size of 0 is an error; the static background has
    the shape of the patterns.  How arguments are read is in Selections.v (get_parameters). *)
From Coq Require Import List Arith ZArith Reals Bool.
From Verif Require Import Model.Binary.
From Verif Require Model.Detector Model.SignalHistory.
Import ListNotations.
Local Open Scope nat_scope.

(** ** HyperSpy *)

Fixpoint total (n : nat) (g : nat -> R) : R := match n with O => 0%R | S k => (total k g + g k)%R end.
(** The share of old pixel j in new pixel i. *)
Definition weight (f : R) (i j : nat) : R := Rmax 0 (Rmin (INR (S i) * f) (INR (S j)) - Rmax (INR i * f) (INR j)).
Fixpoint binned (ns : list nat) (fs : list R) (a : list nat -> R) (idx : list nat) : R :=
  match ns, fs, idx with
  | n :: ns, f :: fs, i :: idx => total n (fun j => weight f i j * binned ns fs (fun r => a (j :: r)) idx)%R
  | _, _, _ => a idx
  end.
Definition new_size (crop : bool) (n : nat) (f : R) : nat :=
  Z.to_nat (if crop then Int_part (INR n / f) else - Int_part (- (INR n / f)))%Z.
(** new_shape= or scale=, in the order x, y of map and then pattern. *)
Inductive request := NewShape (l : list nat) | Scale (l : list R).
(** From that order to the order of the array, for k map axes. *)
Definition array_order {A} (k : nat) (l : list A) : list A := rev (firstn k l) ++ rev (skipn k l).
Definition zip_with {A B C} (h : A -> B -> C) (l : list A) (m : list B) : list C := map (fun p => h (fst p) (snd p)) (combine l m).
Definition positive (f : R) : bool := if Rlt_dec 0 f then true else false.
Definition factors (k : nat) (shape : list nat) (q : request) : option (list R) :=
  match q with
  | NewShape l => if (length l =? length shape) && forallb (Nat.ltb 0) l
                  then Some (zip_with (fun n m => INR n / INR m)%R shape (array_order k l)) else None
  | Scale l => if (length l =? length shape) && forallb positive l then Some (array_order k l) else None
  end.
Definition hs_rebin (crop : bool) (q : request) (k : nat) (shape : list nat) (a : list nat -> R) : option (list nat * (list nat -> R)) :=
  let? fs := factors k shape q in
  let shape' := zip_with (new_size crop) shape fs in
  if existsb (Nat.eqb 0) shape' then None else Some (shape', binned shape fs a).

(** ** kikuchipy *)

Section Rebin.
Context {X : Type}.
Variable round : R -> R.
(** Map axes and pattern shape in the order of the array. *)
Record signal := Signal {
  nav : list nat; sig : nat * nat; data : list nat -> R;
  detector : Detector.detector; background : option (list nat * (list nat -> R)); (* shape and values *) xmap : option X }.
Definition shape (s : signal) : list nat := nav s ++ [fst (sig s); snd (sig s)].
Definition same (a b : list nat) : bool := if list_eq_dec Nat.eq_dec a b then true else false.

(** 2796-2807 *)
Definition signal_part (k : nat) (q : request) : request :=
  let sig_idx := rev [S k; k] in
  match q with
  | NewShape l => NewShape (map (fun i => nth i l 0) sig_idx)
  | Scale l => Scale (map (fun i => nth i l 0%R) sig_idx)
  end.
Definition rebin_background (crop : bool) (q : request) (s : signal) (sig' : nat * nat) : option (option (list nat * (list nat -> R))) :=
  match background s with
  | Some b =>
      if same [fst sig'; snd sig'] [fst (sig s); snd (sig s)] then Some (Some b)
      else let? r := hs_rebin crop (signal_part (length (nav s)) q) 0 [fst (sig s); snd (sig s)] (snd b) in
           Some (Some (fst r, fun i => round (snd r i)))
  | None => Some None
  end.
(** 2809-2821 *)
Definition rebin_detector (s : signal) (sig' : nat * nat) : Detector.detector :=
  let d := detector s in
  Detector.Det (Z.of_nat (fst sig')) (Z.of_nat (snd sig')) (Detector.d_px_size d)
    (SignalHistory.rebinned_binning (fst (sig s)) (snd (sig s)) (fst sig') (snd sig') d)
    (Detector.d_tilt d) (Detector.d_azimuthal d) (Detector.d_twist d) (Detector.d_sample_tilt d) (Detector.d_pc d).
(** A call without out (2772-2828) *)
Definition rebin (q : request) (crop : bool) (s : signal) : option signal :=
  let k := length (nav s) in
  let? r := hs_rebin crop q k (shape s) (data s) in
  let new := fun i => round (snd r i) in
  if same (fst r) (shape s) then Some (Signal (nav s) (sig s) new (detector s) (background s) (xmap s))
  else
    let nav' := firstn k (fst r) in
    let sig' := (nth k (fst r) 0, nth (S k) (fst r) 0) in
    let? b := rebin_background crop q s sig' in
    let d := rebin_detector s sig' in
    if same nav' (nav s) then Some (Signal nav' sig' new d b (xmap s))
    else Some (Signal nav' sig' new
                 (Detector.with_pc d (Detector.PCArray nav' (repeat (Detector.PC 0.5 0.5 0.5) (fold_right Nat.mul 1 nav'))))
                 None None).
(** A call with out: out after the call; its patterns must have the new shape (2780-2783) *)
Definition rebin_out (q : request) (crop : bool) (s out : signal) : option signal :=
  let? r := hs_rebin crop q (length (nav s)) (shape s) (data s) in
  if same (fst r) (shape out)
  then Some (Signal (nav out) (sig out) (fun i => round (snd r i)) (detector out) (background out) (xmap out)) else None.
End Rebin.
Arguments signal : clear implicits.
