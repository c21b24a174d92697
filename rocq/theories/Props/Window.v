(** Windows: property C47. *)
From Coq Require Import List Reals Arith ZArith Lra Lia Bool.
From Verif Require Import Model.Window Proofs.ListLemmas Proofs.WindowProofs.
Import ListNotations.
Local Open Scope R_scope.

(** Offset of element number i of an axis of n elements from the origin, which is element n // 2. *)
Definition offset (n i : nat) : Z := (Z.of_nat i - Z.of_nat (n / 2))%Z.

(** A circular window has the shape asked for, with coefficient 1 where the element is not farther
    from the origin than the larger of the two half widths, and 0 elsewhere. *)
Theorem C47_circular_window_is_a_disc :
  forall ny nx w, circular [ny; nx] = Some w ->
    shape w = [ny; nx] /\ origin w = [(ny / 2)%nat; (nx / 2)%nat]
    /\ forall y x, (y < ny)%nat -> (x < nx)%nat ->
       let r := Z.of_nat (Nat.max (ny / 2) (nx / 2)) in
       ((offset ny y * offset ny y + offset nx x * offset nx x <= r * r)%Z -> coefficient w y x = Some 1)
       /\ ((offset ny y * offset ny y + offset nx x * offset nx x > r * r)%Z -> coefficient w y x = Some 0).
Proof.
  intros ny nx w H. apply circular_2d in H as (Hy & Hx & _ & Hs & Hc). split; [exact Hs|].
  split; [unfold origin; rewrite Hs; reflexivity|]. intros y x H1 H2 r.
  rewrite (Hc y x H1 H2), circular_coefficient_eq. unfold offset, r.
  split; intros H.
  - destruct (Z.leb_spec ((Z.of_nat y - Z.of_nat (ny / 2)) ^ 2 + (Z.of_nat x - Z.of_nat (nx / 2)) ^ 2)%Z
      (Z.of_nat (Nat.max (ny / 2) (nx / 2)) ^ 2)%Z) as [E|E]; [reflexivity|lia].
  - destruct (Z.leb_spec ((Z.of_nat y - Z.of_nat (ny / 2)) ^ 2 + (Z.of_nat x - Z.of_nat (nx / 2)) ^ 2)%Z
      (Z.of_nat (Nat.max (ny / 2) (nx / 2)) ^ 2)%Z) as [E|E]; [lia|reflexivity].
Qed.
Print Assumptions C47_circular_window_is_a_disc.

(** The origin of any non-empty window is one of its elements, and a circular window keeps it. *)
Theorem C47_origin_inside :
  forall w, Forall (fun n => (1 <= n)%nat) (shape w) -> Forall2 (fun o n => (o < n)%nat) (origin w) (shape w).
Proof.
  intros w H. unfold origin. induction H as [|n l Hn Hl IH]; cbn [map]; constructor; [|exact IH].
  apply Nat.div_lt; lia.
Qed.
Theorem C47_circular_keeps_origin :
  forall ny nx w, circular [ny; nx] = Some w -> coefficient w (ny / 2) (nx / 2) = Some 1.
Proof.
  intros ny nx w H. pose proof (circular_2d ny nx w H) as (Hy & Hx & _ & _ & _).
  destruct (C47_circular_window_is_a_disc ny nx w H) as (_ & _ & Hc).
  apply Hc; [apply Nat.div_lt; lia|apply Nat.div_lt; lia|]. unfold offset. lia.
Qed.

(** Odd sizes: the window is symmetric about both axes through its origin (n - 1 - i is the element
    with the opposite offset). *)
Theorem C47_circular_symmetric_odd :
  forall ny nx w y x, circular [ny; nx] = Some w -> Nat.odd ny = true -> Nat.odd nx = true ->
    (y < ny)%nat -> (x < nx)%nat ->
    (offset ny (ny - 1 - y) = - offset ny y)%Z /\ (offset nx (nx - 1 - x) = - offset nx x)%Z
    /\ coefficient w (ny - 1 - y) x = coefficient w y x
    /\ coefficient w y (nx - 1 - x) = coefficient w y x.
Proof.
  intros ny nx w y x H Oy Ox H1 H2. apply circular_2d in H as (_ & _ & _ & _ & Hc).
  assert (Ey : (offset ny (ny - 1 - y) = - offset ny y)%Z).
  { apply Nat.odd_spec in Oy as [k ->]. unfold offset.
    replace ((2 * k + 1) / 2)%nat with k by (apply Nat.div_unique with 1%nat; lia). lia. }
  assert (Ex : (offset nx (nx - 1 - x) = - offset nx x)%Z).
  { apply Nat.odd_spec in Ox as [k ->]. unfold offset.
    replace ((2 * k + 1) / 2)%nat with k by (apply Nat.div_unique with 1%nat; lia). lia. }
  unfold offset in *. split; [exact Ey|]. split; [exact Ex|].
  rewrite !Hc by lia. rewrite !circular_coefficient_eq. rewrite Ey, Ex.
  replace ((- (Z.of_nat y - Z.of_nat (ny / 2))) ^ 2)%Z with ((Z.of_nat y - Z.of_nat (ny / 2)) ^ 2)%Z by ring.
  replace ((- (Z.of_nat x - Z.of_nat (nx / 2))) ^ 2)%Z with ((Z.of_nat x - Z.of_nat (nx / 2)) ^ 2)%Z by ring.
  split; reflexivity.
Qed.
Print Assumptions C47_circular_symmetric_odd.

(** n_neighbours against the offsets of the elements of the axis: for odd sizes it is the largest
    distance from the origin... *)
Theorem C47_n_neighbours_odd :
  forall w k n, nth_error (shape w) k = Some n -> Nat.odd n = true ->
    exists m, nth_error (n_neighbours w) k = Some m
      /\ (forall i, (i < n)%nat -> (Z.abs (offset n i) <= m)%Z)
      /\ (exists i, (i < n)%nat /\ Z.abs (offset n i) = m).
Proof.
  intros w k n H O. unfold n_neighbours. rewrite nth_error_map, H. cbn [option_map]. eexists. split; [reflexivity|].
  apply Nat.odd_spec in O as [j ->]. unfold offset.
  replace ((2 * j + 1) / 2)%nat with j by (apply Nat.div_unique with 1%nat; lia).
  split; [intros i Hi; lia|]. exists 0%nat. split; lia.
Qed.
(** ... for even sizes it is one less: the first element of the axis is farther away. *)
Theorem C47_n_neighbours_even_refuted :
  forall w k n, nth_error (shape w) k = Some n -> (2 <= n)%nat -> Nat.even n = true ->
    exists m, nth_error (n_neighbours w) k = Some m /\ Z.abs (offset n 0) = (m + 1)%Z.
Proof.
  intros w k n H Hn E. unfold n_neighbours. rewrite nth_error_map, H. cbn [option_map]. eexists. split; [reflexivity|].
  apply Nat.even_spec in E as [j ->]. unfold offset.
  replace ((2 * j) / 2)%nat with j by (apply Nat.div_unique with 0%nat; lia). lia.
Qed.

(** Every element on an axis through the origin is kept by a circular window, so the offsets above
    are really used. *)
Theorem C47_circular_keeps_axes :
  forall ny nx w y x, circular [ny; nx] = Some w -> (y < ny)%nat -> (x < nx)%nat ->
    coefficient w y (nx / 2) = Some 1 /\ coefficient w (ny / 2) x = Some 1.
Proof.
  intros ny nx w y x H H1 H2. destruct (C47_circular_window_is_a_disc ny nx w H) as (_ & _ & Hc).
  assert (ny / 2 < ny)%nat by (apply Nat.div_lt; lia).
  assert (nx / 2 < nx)%nat by (apply Nat.div_lt; lia).
  assert (Hbound : forall n i, (i < n)%nat -> (- Z.of_nat (n / 2) <= offset n i <= Z.of_nat (n / 2))%Z).
  { intros n i Hi. unfold offset. pose proof (Nat.div_mod n 2 ltac:(lia)).
    pose proof (Nat.mod_upper_bound n 2 ltac:(lia)). lia. }
  pose proof (Hbound ny y H1). pose proof (Hbound nx x H2).
  split; apply Hc; try assumption; unfold offset at 1 2 3 4; unfold offset in *; nia.
Qed.

(** Which shapes a circular window can have: one row and several columns raises an error, although
    such a rectangular window, and the same window as a column, is fine. *)
Theorem C47_circular_single_row_refuted :
  forall n, (2 <= n)%nat ->
    circular [1%nat; n] = None
    /\ (exists w, rectangular [1%nat; n] = Some w) /\ (exists w, circular [n; 1%nat] = Some w).
Proof.
  intros n Hn. destruct n as [|[|n]]; [lia|lia|].
  unfold circular, rectangular, make_circular. simpl. rewrite repeat_length.
  split; [reflexivity|]. split; eexists; reflexivity.
Qed.
Theorem C47_circular_exists :
  forall ny nx, (1 <= nx)%nat -> (2 <= ny)%nat -> exists w, circular [ny; nx] = Some w.
Proof.
  intros ny nx H1 H2. unfold circular, rectangular.
  destruct (Nat.eqb_spec ny 0); [lia|]. destruct (Nat.eqb_spec nx 0); [lia|]. simpl orb. cbv iota.
  unfold make_circular. rewrite repeat_length.
  destruct (Nat.eqb_spec ny 1); [lia|]. simpl andb. cbv iota. eexists. reflexivity.
Qed.

Example C47_case : exists w, circular [3; 5]%nat = Some w
  /\ coefficient w 0 0 = Some 0 /\ coefficient w 0 1 = Some 1 /\ coefficient w 1 0 = Some 1.
Proof.
  destruct (C47_circular_exists 3 5) as [w H]; [lia|lia|]. exists w. split; [exact H|].
  destruct (C47_circular_window_is_a_disc 3 5 w H) as (_ & _ & Hc).
  repeat split; apply Hc; vm_compute; try lia; reflexivity || congruence.
Qed.
