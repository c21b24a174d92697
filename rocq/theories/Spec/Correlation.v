(** Textbook definitions of the similarity of two patterns of [n] pixels, given as functions from
    the pixel number to the intensity.  Independent of the model. *)
From Coq Require Import Reals.
Local Open Scope R_scope.

(** f 0 + f 1 + ... + f (n - 1) *)
Fixpoint Sum (n : nat) (f : nat -> R) : R :=
  match n with O => 0 | S m => Sum m f + f m end.

Definition average (n : nat) (x : nat -> R) : R := Sum n x / INR n.

(** Pearson correlation coefficient (Gonzalez & Woods, as in the documentation of
    NormalizedCrossCorrelationMetric). *)
Definition pearson (n : nat) (x y : nat -> R) : R :=
  Sum n (fun i => (x i - average n x) * (y i - average n y))
  / (sqrt (Sum n (fun i => (x i - average n x) ^ 2)) * sqrt (Sum n (fun i => (y i - average n y) ^ 2))).

(** Normalized dot product (Chen et al. 2015). *)
Definition cosine (n : nat) (x y : nat -> R) : R :=
  Sum n (fun i => x i * y i)
  / (sqrt (Sum n (fun i => x i ^ 2)) * sqrt (Sum n (fun i => y i ^ 2))).

(** The pixels (or patterns) used with a mask: those where the mask is False. *)
From Coq Require Import List.
Definition used {A} (mask : option (list bool)) (l : list A) : list A :=
  match mask with
  | None => l
  | Some m => map snd (filter (fun mx => negb (fst mx)) (combine m l))
  end.
(** A pattern of pixel values as a function. *)
Definition px (p : list R) (i : nat) : R := nth i p 0.
