(** Similarity metrics as objects which outlive a call of dictionary_indexing: signals/ebsd.py lines 1920-1984 and
    3049-3088 ("ebsd"), indexing/_dictionary_indexing.py lines 66-165 ("di") and the preparation of patterns in
    similarity_metrics/_normalized_cross_correlation.py lines 83-165 and _normalized_dot_product.py ("metric").

    Simplifications: the sorting of matches and iterations over the dictionary are in Model/DictIndex.v, so that the
    result of a point is here the list of its similarities with all dictionary patterns.  Pixels, data types, their
    conversion and the similarity of two prepared patterns are arguments; a name gives an object of the class. *)
From Coq Require Import List Arith Bool.
From Verif Require Import Model.Binary Model.DictIndex.
Import ListNotations.

Section Metric.
Variables (Pixel Dtype Score : Type) (zero : Pixel) (float32 : Dtype) (allowed : Dtype -> bool) (cast : Dtype -> Pixel -> Pixel).
Variable similarity : Dtype -> list Pixel -> list Pixel -> Score.

Record mask := Mask { shape : list nat; ravel : list bool }.
(** Attributes of a metric (_similarity_metric.py 73-90). *)
Record metric := Metric {
  n_experimental : option nat; n_dictionary : option nat;
  navigation_mask : option mask; signal_mask : option mask; dtype : Dtype; rechunk : bool }.
(** A metric made without arguments. *)
Definition new_metric : metric := Metric None None None None float32 false.

(** A signal: navigation and signal shape, and its data in C order. *)
Record signal := Signal { nav_shape : list nat; sig_shape : list nat; data : list Pixel }.
Definition product (l : list nat) : nat := fold_right Nat.mul 1 l.
(** Arguments of dictionary_indexing; the dictionary has one navigation axis. *)
Record call := Call {
  experimental : signal; dictionary : signal;
  c_navigation_mask : option mask; c_signal_mask : option mask; c_dtype : option Dtype }.

Definition shape_eqb (a b : list nat) : bool := if list_eq_dec Nat.eq_dec a b then true else false.
Definition or_else {A} (new old : option A) : option A := match new with Some x => Some x | None => old end.

(** _prepare_metric for an object (ebsd 3074-3086): the changed object, and whether its data type is allowed. *)
Definition prepare_metric (m : metric) (c : call) : metric * bool :=
  let m := Metric (Some (Nat.max (product (nav_shape (experimental c))) 1)) (Some (Nat.max (product (nav_shape (dictionary c))) 1))
    (or_else (c_navigation_mask c) (navigation_mask m)) (or_else (c_signal_mask c) (signal_mask m))
    (match c_dtype c with Some d => d | None => dtype m end) (rechunk m) in
  (m, allowed (dtype m)).

(** array.reshape((n, -1)); None: ValueError *)
Definition reshape (n : nat) (l : list Pixel) : option (list (list Pixel)) :=
  if (n =? 0) || negb (length l mod n =? 0) then None
  else Some (map (fun i => firstn (length l / n) (skipn (i * (length l / n)) l)) (seq 0 n)).
(** array[~mask.ravel()] along the first axis; None: IndexError *)
Definition unmasked {A} (m : option mask) (l : list A) : option (list A) :=
  match m with
  | None => Some l
  | Some m => if length (ravel m) =? length l then Some (compress (map negb (ravel m)) l) else None
  end.
Fixpoint all {A B} (f : A -> option B) (l : list A) : option (list B) :=
  match l with [] => Some [] | x :: r => let? y := f x in let? ys := all f r in Some (y :: ys) end.
(** prepare_experimental and prepare_dictionary up to the normalization (metric 111-127, 152-159) *)
Definition prepare_experimental (m : metric) (l : list Pixel) : option (list (list Pixel)) :=
  let? n := n_experimental m in
  let? patterns := reshape n (map (cast (dtype m)) l) in
  let? patterns := unmasked (navigation_mask m) patterns in
  all (unmasked (signal_mask m)) patterns.
Definition prepare_dictionary (m : metric) (l : list Pixel) : option (list (list Pixel)) :=
  let? n := n_dictionary m in
  let? patterns := reshape n l in
  all (fun p => unmasked (signal_mask m) (map (cast (dtype m)) p)) patterns.

(** _dictionary_indexing (di 66-165): at each point the similarities, or None if the point is not in the data. *)
Definition match_all (m : metric) (c : call) : option (list (option (list Score))) :=
  let? exp := prepare_experimental m (data (experimental c)) in
  let? dict := prepare_dictionary m (data (dictionary c)) in
  let scores := map (fun p => map (similarity (dtype m) p) dict) exp in
  match navigation_mask m with
  | None => Some (map Some scores)
  | Some nm =>
      if length (ravel nm) =? product (nav_shape (experimental c))
      then scatter None (map negb (ravel nm)) (map Some scores) else None
  end.

(** EBSD.dictionary_indexing with a metric object (ebsd 1920-1984): the object after the call, and the result.
    None: an error. *)
Definition dictionary_indexing (m : metric) (c : call) : metric * option (list (option (list Score))) :=
  let fits := match c_navigation_mask c with
    | Some nm => shape_eqb (shape nm) (nav_shape (experimental c)) && negb (forallb (fun b => b) (ravel nm))
    | None => true
    end in
  if negb (fits && shape_eqb (sig_shape (experimental c)) (sig_shape (dictionary c))) then (m, None)
  else
    let '(m, valid) := prepare_metric m c in
    (m, if valid then match_all m c else None).
(** ... and with the name of a metric (ebsd 3062-3065): [rechunk] is the argument of this name. *)
Definition dictionary_indexing_by_name (rechunk : bool) (c : call) : option (list (option (list Score))) :=
  snd (dictionary_indexing (Metric None None None None float32 rechunk) c).

(** Calls one after the other with the same object. *)
Fixpoint run (m : metric) (l : list call) : metric * list (option (list (option (list Score)))) :=
  match l with
  | [] => (m, [])
  | c :: l => let '(m, r) := dictionary_indexing m c in let '(m, rs) := run m l in (m, r :: rs)
  end.
End Metric.
