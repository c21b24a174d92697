(** Window objects as NumPy arrays that may share memory: Window.__new__, __array_finalize__, is_valid, make_circular, shape_compatible and
    plot, src/kikuchipy/filters/window.py 117-385.

    Memory is a list of blocks.  An array has a block and, for each of its elements in row-major order, the place of the element in the block,
    as views have.  Simplifications: coefficients are real numbers; of NumPy's ways to make arrays from arrays, slices along the first axis,
    reshaping, copies and multiplication by a number are modelled (the first two are views, the other two new memory); windows "lowpass" and
    "highpass" are left out here (Model/FrequencyWindow.v); dask arrays, which np.asarray computes, are left out. *)
From Coq Require Import String List Reals Arith Bool ZArith.
From Verif Require Import Model.Window.
Import ListNotations.
Local Open Scope R_scope.

(** label is _name and flag is _circular; they belong to the object and are None and False for arrays that are not windows. *)
Record array := Arr { memory : nat; places : list nat; dims : list nat; is_window : bool; label : option string; flag : bool }.
Record state := State { blocks : list (list R); arrays : list array }.

Definition size (ds : list nat) : nat := fold_right Nat.mul 1%nat ds.
Definition values (bs : list (list R)) (a : array) : list R := map (fun p => nth p (nth (memory a) bs []) 0) (places a).
Fixpoint put {A} (l : list A) (i : nat) (v : A) : list A :=
  match l, i with [], _ => [] | _ :: l, 0%nat => v :: l | x :: l, S i => x :: put l i v end.
Definition write (bs : list (list R)) (m p : nat) (v : R) : list (list R) := put bs m (put (nth m bs []) p v).

(** An array in new memory: block [length bs]. *)
Definition fresh (s : state) (vs : list R) (ds : list nat) (w : bool) (n : option string) (f : bool) : state :=
  State (blocks s ++ [vs]) (arrays s ++ [Arr (length (blocks s)) (seq 0 (length vs)) ds w n f]).
Definition add (s : state) (a : array) : state := State (blocks s) (arrays s ++ [a]).

(** The arguments shape and Nx, lines 126-139; None is the ValueError.  Entries that are not integers are left out. *)
Definition shape_of (shape : option (list Z)) (nx : option nat) : option (list nat) :=
  match nx, shape with
  | None, None => Some [3; 3]%nat
  | Some n, _ => Some [n]
  | None, Some s => if existsb (fun i => (i <? 1)%Z) s then None else Some (map Z.to_nat s)
  end.

Section Windows.
(** scipy.signal.windows.get_window and modified_hann; None is the ValueError for an unknown name. *)
Context (taper : string -> nat -> option (list R)).

(** Lines 169-174: np.outer for two axes, the first axis only otherwise. *)
Definition outer (a b : list R) : list R := flat_map (fun x => map (fun y => x * y) b) a.
Definition tapered (name : string) (s : list nat) : option (list nat * list R) :=
  match s with
  | [] => None
  | [n; m] => match taper name n, taper name m with Some a, Some b => Some ([n; m], outer a b) | _, _ => None end
  | n :: _ => option_map (fun a => ([n], a)) (taper name n)
  end.

(** make_circular, lines 249-269, with distance_to_origin, 388-415.  None is an exception, see Model/Window.v; here also if there are not one or
    two axes. *)
Definition far (ny nx y x : nat) : bool :=
  if Rlt_dec (INR (Nat.max (ny / 2) (nx / 2))) (distance (ny / 2) (nx / 2) y x) then true else false.
Definition corners (ny nx : nat) (ps : list nat) : list nat :=
  map snd (filter (fun e => far ny nx (fst e / nx) (fst e mod nx)) (combine (seq 0 (length ps)) ps)).
Definition circular_name (n : option string) : option string :=
  match n with Some s => if (String.eqb s "rectangular" || String.eqb s "boxcar")%bool then Some "circular"%string else n | None => None end.
Definition make_circular (s : state) (k : nat) : option state :=
  match nth_error (arrays s) k with
  | None => None
  | Some a =>
      if negb (is_window a) then None else
      match dims a with
      | [_] => Some s
      | [ny; nx] =>
          if ((ny =? 1) && negb (nx =? 1))%nat then None
          else Some (State (fold_left (fun bs p => write bs (memory a) p 0) (corners ny nx (places a)) (blocks s))
                           (put (arrays s) k (Arr (memory a) (places a) (dims a) true (circular_name (label a)) true)))
      | _ => None
      end
  end.

(** What a user may do.  Arrays are named by the order in which they were made. *)
Inductive op :=
| NewArray (ds : list nat) (vs : list R)
| NewWindow (name : option string) (shape : option (list Z)) (nx : option nat)
| WindowOf (k : nat) (shape : option (list Z)) (nx : option nat)
| MakeCircular (k : nat)
| Rows (k a b : nat)
| Reshape (k : nat) (ds : list nat)
| Copy (k : nat)
| Times (k : nat) (c : R)
| Assign (k i : nat) (v : R).

(** Lines 117-187 for a name ... *)
Definition new_window (s : state) (name : option string) (sh : option (list Z)) (nx : option nat) : option state :=
  let name := match name with Some n => n | None => "circular"%string end in
  match shape_of sh nx with
  | None => None
  | Some ds =>
      let circ := String.eqb name "circular" in
      let name := if circ then "rectangular"%string else name in
      match tapered name ds with
      | None => None
      | Some (ds, vs) => let s' := fresh s vs ds true (Some name) false in
                         if circ then make_circular s' (length (arrays s)) else Some s'
      end
  end.
(** ... and for an array: np.asarray(data).view(cls) is a view of the same memory; np.asarray drops the attributes of a window. *)
Definition window_of (s : state) (k : nat) (sh : option (list Z)) (nx : option nat) : option state :=
  match shape_of sh nx, nth_error (arrays s) k with
  | Some _, Some a => Some (add s (Arr (memory a) (places a) (dims a) true (Some "custom"%string) false))
  | _, _ => None
  end.
(** __array_finalize__, lines 189-193: arrays made from a window get its name and flag. *)
Definition step (s : state) (o : op) : option state :=
  match o with
  | NewArray ds vs => if (length vs =? size ds)%nat then Some (fresh s vs ds false None false) else None
  | NewWindow n sh nx => new_window s n sh nx
  | WindowOf k sh nx => window_of s k sh nx
  | MakeCircular k => make_circular s k
  | Rows k a b =>
      match nth_error (arrays s) k with
      | Some w => match dims w with
                  | n :: ds => let b := Nat.min b n in
                               Some (add s (Arr (memory w) (skipn (a * size ds) (firstn (b * size ds) (places w))) ((b - a)%nat :: ds)
                                                (is_window w) (label w) (flag w)))
                  | [] => None
                  end
      | None => None
      end
  | Reshape k ds =>
      match nth_error (arrays s) k with
      | Some w => if (size ds =? size (dims w))%nat then Some (add s (Arr (memory w) (places w) ds (is_window w) (label w) (flag w))) else None
      | None => None
      end
  | Copy k => match nth_error (arrays s) k with
              | Some w => Some (fresh s (values (blocks s) w) (dims w) (is_window w) (label w) (flag w))
              | None => None end
  | Times k c => match nth_error (arrays s) k with
                 | Some w => Some (fresh s (map (Rmult c) (values (blocks s) w)) (dims w) (is_window w) (label w) (flag w))
                 | None => None end
  | Assign k i v => match nth_error (arrays s) k with
                    | Some w => match nth_error (places w) i with
                                | Some p => Some (State (write (blocks s) (memory w) p v) (arrays s))
                                | None => None end
                    | None => None end
  end.
Fixpoint run (s : state) (os : list op) : option state :=
  match os with [] => Some s | o :: os => match step s o with None => None | Some s => run s os end end.
Definition empty : state := State [] [].
End Windows.

(** shape_compatible, lines 271-288; None is the ValueError of comparing arrays of shapes that do not broadcast. *)
Definition shape_compatible (w shape : list nat) : option bool :=
  if (length shape <? length w)%nat then Some false
  else if (length w =? length shape)%nat then Some (negb (existsb (fun e => (snd e <? fst e)%nat) (combine w shape)))
  else match w with
       | [n] => Some (negb (existsb (fun m => (m <? n)%nat) shape))
       | [] => if (length shape =? 1)%nat then Some true else None
       | _ => None
       end.

(** is_valid, lines 222-230. *)
Definition is_valid (a : array) : bool :=
  is_window a && (match label a with Some _ => true | None => false end) && (length (dims a) <? 3)%nat.

(** plot, lines 290-385: the image in row-major order, the labels of the ticks and the texts, with the number written and whether it is in the
    second colour.  Left out: colour map, grid and colour bar.  [round], which breaks ties to even, rounds them up here.  None is an exception; an
    array without elements counts as one. *)
Record text := Text { column : nat; row : nat; number : R; second_colour : bool }.
Record figure := Figure { rows : nat; columns : nat; image : list R; x_labels : list Z; y_labels : list Z; texts : list text }.
Definition round4 (v : R) : R := IZR (Int_part (v * 10000 + 1 / 2)) / 10000.
Definition written (v : R) : R := if Req_EM_T (frac_part v) 0 then v else round4 v.
(** matplotlib's Normalize with the limits of the image *)
Definition norm (lo hi v : R) : R := if Req_EM_T lo hi then 0 else (v - lo) / (hi - lo).
Definition plot (show_values : bool) (a : array) (vs : list R) : option figure :=
  if negb (is_valid a) then None else
  match (match dims a with [n] => Some (n, 1%nat) | [ny; nx] => Some (ny, nx) | _ => None end), vs with
  | Some (ky, kx), v0 :: _ =>
      let lo := fold_right Rmin v0 vs in let hi := fold_right Rmax v0 vs in
      let threshold := norm lo hi hi / 2 in
      Some (Figure ky kx vs (map (fun i => (Z.of_nat i - Z.of_nat (kx / 2))%Z) (seq 0 kx)) (map (fun i => (Z.of_nat i - Z.of_nat (ky / 2))%Z) (seq 0 ky))
        (if show_values
         then map (fun e => Text (fst e mod kx) (fst e / kx) (written (snd e)) (if Rlt_dec threshold (norm lo hi (snd e)) then true else false))
                  (combine (seq 0 (length vs)) vs)
         else []))
  | _, _ => None
  end.
