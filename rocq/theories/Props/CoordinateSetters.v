(** Setting one coordinate of the projection centers. *)
From Coq Require Import Arith Bool Lia.
From Verif Require Import Model.CoordinateSetters.

(** A detector with PCs for a line or map of at least one point; a line has one row. *)
Definition some_points {T} (d : pc_map T) : Prop :=
  1 <= map_rows d /\ 1 <= map_cols d /\ (two_dimensional d = false -> map_rows d = 1).

Lemma axis_fits_iff m n : axis_fits m n = true <-> m = 1 \/ m = n.
Proof. unfold axis_fits. rewrite orb_true_iff, !Nat.eqb_eq. tauto. Qed.
Lemma get_put {T} k (x : T) p : get k (put k x p) = x.
Proof. destruct p as [[a b] c], k; reflexivity. Qed.
Lemma get_put_other {T} k l (x : T) p : k <> l -> get l (put k x p) = get l p.
Proof. destruct p as [[a b] c], k, l; intros; congruence || reflexivity. Qed.
Lemma source_same m i : i < m -> source m i = i.
Proof. unfold source. destruct (Nat.eqb_spec m 1); lia. Qed.

(** What can be assigned: any number; a list of one number or of as many as there are columns; a table with one row or
    those of the map, and one column or those of the map. *)
Theorem C120_accepted_iff {T} k (d : pc_map T) :
  (forall x, exists e, set_coordinate k (Number x) d = Some e) /\
  (forall n x, (exists e, set_coordinate k (Row n x) d = Some e) <-> n = 1 \/ n = map_cols d) /\
  (forall r c x, (exists e, set_coordinate k (Table r c x) d = Some e) <->
                 (r = 1 \/ r = map_rows d) /\ (c = 1 \/ c = map_cols d)).
Proof.
  split; [|split].
  - intros x. unfold set_coordinate. cbn. eauto.
  - intros n x. rewrite <- axis_fits_iff. unfold set_coordinate. cbn [atleast_2d]. change (axis_fits 1 (map_rows d)) with true.
    cbn [andb]. destruct (axis_fits n (map_cols d)); split; [auto|eauto|intros [e E]; discriminate|discriminate].
  - intros r c x. rewrite <- !axis_fits_iff. unfold set_coordinate. cbn [atleast_2d].
    destruct (axis_fits r (map_rows d)), (axis_fits c (map_cols d)); cbn [andb];
      split; try (intros [e E]; discriminate); try (intros [? ?]; discriminate); eauto.
Qed.

(** Whatever is assigned, the other two coordinates of every PC, and the number of PCs and their shape, stay. *)
Theorem C120_others_kept {T} k l v (d e : pc_map T) : set_coordinate k v d = Some e -> k <> l ->
  two_dimensional e = two_dimensional d /\ map_rows e = map_rows d /\ map_cols e = map_cols d /\
  forall i j, get l (pc_at e i j) = get l (pc_at d i j).
Proof.
  unfold set_coordinate. destruct (atleast_2d v) as [[r c] x].
  destruct (axis_fits r (map_rows d) && axis_fits c (map_cols d)); [|discriminate].
  intros [= <-] N. cbn [two_dimensional map_rows map_cols pc_at].
  split; [reflexivity|]. split; [reflexivity|]. split; [reflexivity|]. intros i j. now apply get_put_other.
Qed.

(** A number is given to all points; a list of the points of a line, and a table of the shape of a map, give each point its
    own. *)
Theorem C120_values {T} k (d : pc_map T) : some_points d ->
  (forall x, exists e, set_coordinate k (Number x) d = Some e /\ forall i j, get k (pc_at e i j) = x) /\
  (forall x, two_dimensional d = false ->
     exists e, set_coordinate k (Row (map_cols d) x) d = Some e /\ forall j, j < map_cols d -> get k (pc_at e 0 j) = x j) /\
  (forall x, exists e, set_coordinate k (Table (map_rows d) (map_cols d) x) d = Some e /\
     forall i j, i < map_rows d -> j < map_cols d -> get k (pc_at e i j) = x i j).
Proof.
  intros (R1 & C1 & L). assert (F : forall m, axis_fits m m = true) by (intros; apply axis_fits_iff; auto).
  split; [|split].
  - intros x. unfold set_coordinate. cbn [atleast_2d axis_fits Nat.eqb orb andb]. eexists; split; [reflexivity|].
    intros i j. cbn [pc_at]. apply get_put.
  - intros x _. unfold set_coordinate. cbn [atleast_2d]. rewrite F. change (axis_fits 1 (map_rows d)) with true. cbn [andb].
    eexists; split; [reflexivity|]. intros j Hj. cbn [pc_at]. rewrite get_put. now rewrite source_same.
  - intros x. unfold set_coordinate. cbn [atleast_2d]. rewrite !F. cbn [andb]. eexists; split; [reflexivity|].
    intros i j Hi Hj. cbn [pc_at]. rewrite get_put. now rewrite !source_same.
Qed.

(** Refuted: "several coordinates are given as a list". For a map of two or more rows the list of the coordinates of all
    points, which is what the documentation describes, is an error. *)
Theorem C120_list_of_all_refuted {T} k (d : pc_map T) x : some_points d -> 2 <= map_rows d ->
  set_coordinate k (Row (map_rows d * map_cols d) x) d = None.
Proof.
  intros (_ & C1 & _) H. destruct (set_coordinate k _ d) as [e|] eqn:E; [|reflexivity]. exfalso.
  assert (A : exists e, set_coordinate k (Row (map_rows d * map_cols d) x) d = Some e) by eauto.
  apply (proj1 (proj2 (C120_accepted_iff k d))) in A. nia.
Qed.

(** Refuted: "each coordinate in a list is that of one PC". The list of as many coordinates as a map has columns is accepted,
    and is given to every row. *)
Theorem C120_list_repeated_refuted {T} k (d : pc_map T) x : some_points d ->
  exists e, set_coordinate k (Row (map_cols d) x) d = Some e /\
            forall i j, i < map_rows d -> j < map_cols d -> get k (pc_at e i j) = x j.
Proof.
  intros _. assert (F : axis_fits (map_cols d) (map_cols d) = true) by (apply axis_fits_iff; auto).
  unfold set_coordinate. cbn [atleast_2d]. rewrite F. change (axis_fits 1 (map_rows d)) with true. cbn [andb].
  eexists; split; [reflexivity|]. intros i j _ Hj. cbn [pc_at]. rewrite get_put. now rewrite source_same.
Qed.

(** A map of 2 by 3 points. *)
Definition six : pc_map nat := PCMap true 2 3 (fun i j => (i, j, 5)).
Example six_points : some_points six. Proof. repeat split; cbn; auto; discriminate. Qed.
Example six_list : set_coordinate Y (Row 6 (fun j => j)) six = None. Proof. reflexivity. Qed.
Example six_table : option_map (fun e => (pc_at e 1 2, pc_at e 0 1)) (set_coordinate Y (Table 2 3 (fun i j => 10 * i + j)) six) =
  Some ((1, 12, 5), (0, 1, 5)). Proof. reflexivity. Qed.
(** A line of three points. *)
Definition three : pc_map nat := PCMap false 1 3 (fun i j => (i, j, 5)).
Example three_points : some_points three. Proof. repeat split; cbn; auto. Qed.
Example three_list : option_map (fun e => pc_at e 0 2) (set_coordinate Z (Row 3 (fun j => 7 + j)) three) = Some (0, 2, 9).
Proof. reflexivity. Qed.

Print Assumptions C120_accepted_iff.
Print Assumptions C120_others_kept.
Print Assumptions C120_values.
Print Assumptions C120_list_of_all_refuted.
Print Assumptions C120_list_repeated_refuted.
