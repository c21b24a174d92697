(** Projection centers read from kikuchipy h5ebsd files: property C118. *)
From Coq Require Import List Arith Bool Lia.
From Verif Require Import Model.Binary Model.KikuchipyH5 Model.StoredPCs.
Import ListNotations.
Local Open Scope nat_scope.

(** ** Specification *)

Section C.
Context {P : Type} (half : P).

(** The PC in an array of [c] columns at row i and column j, and the PC used for the map point (i, j) of a map of
    ny x nx points: the only one, or that of the same place in reading order. *)
Definition stored_at (c : nat) (pcs : list P) (i j : nat) : option P := nth_error pcs (i * c + j).
Definition pc_of_point (a : pc_array P) (nx i j : nat) : option P :=
  match values a with [p] => Some p | l => nth_error l (i * nx + j) end.
(** The detector fits the map: it has one PC, or one for each of its points. *)
Definition fits (a : pc_array P) (ny nx : nat) : Prop :=
  of_shape a = [1] /\ length (values a) = 1 \/
  of_shape a = filter (fun n => negb (n =? 1)) [ny; nx] /\ length (values a) = ny * nx.
(** PCs in the file: r rows of c; one row is stored with one or two dimensions. *)
Definition stored (s : list nat) (r c : nat) (pcs : list P) : Prop :=
  (s = [r; c] \/ r = 1 /\ s = [c]) /\ length pcs = r * c /\ 1 <= r /\ 1 <= c.

(** ** Lemmas *)

Lemma stored_shape s r c pcs : stored s r c pcs -> dstack_shape (unwrap_shape s) = [r; c] /\ size_of [r; c] = r * c.
Proof.
  intros ([->|[-> ->]] & _ & R & C); split; try (cbn; lia).
  - destruct r as [|[|r]]; [lia|reflexivity|reflexivity].
  - destruct c as [|[|c]]; [lia|reflexivity|reflexivity].
Qed.
Lemma padded_length ny nx r c pcs : length (padded half ny nx r c pcs) = ny * nx.
Proof.
  unfold padded. rewrite <- (seq_length ny 0) at 2. generalize (seq 0 ny) as l. induction l as [|x l IH]; [reflexivity|].
  cbn [flat_map]. rewrite app_length, map_length, seq_length, IH. cbn [length]. lia.
Qed.
Lemma rows_nth {A} (f : nat -> nat -> A) nx i j : j < nx -> forall n a, i < n ->
  nth_error (flat_map (fun y => map (f y) (seq 0 nx)) (seq a n)) (i * nx + j) = Some (f (a + i) j).
Proof.
  intros J n. revert i. induction n as [|n IH]; intros i a I; [lia|]. cbn [seq flat_map].
  destruct i as [|i].
  - rewrite nth_error_app1 by (rewrite map_length, seq_length; lia). cbn [Nat.mul Nat.add]. rewrite nth_error_map.
    rewrite (nth_error_nth' (seq 0 nx) 0) by (rewrite seq_length; lia). rewrite seq_nth by lia. cbn. now rewrite Nat.add_0_r.
  - rewrite nth_error_app2 by (rewrite map_length, seq_length; nia). rewrite map_length, seq_length.
    replace (S i * nx + j - nx) with (i * nx + j) by nia. rewrite IH by lia. f_equal. f_equal. lia.
Qed.
Lemma pc_of_many a nx i j : length (values a) <> 1 -> pc_of_point a nx i j = nth_error (values a) (i * nx + j).
Proof. unfold pc_of_point. destruct (values a) as [|p [|q l]]; cbn; try reflexivity. intros H. now contradiction H. Qed.

Section Read.
Variables (ny nx r c : nat) (s : list nat) (pcs : list P).
Hypothesis Hn : 1 <= ny /\ 1 <= nx.
Hypothesis Hs : stored s r c pcs.
Let out := read_stored_pcs half ny nx s pcs.

Lemma read_eq : out =
  let '(d, l, w) := if 1 <? r * c then
      if r * c =? ny * nx then ([ny; nx], pcs, [])
      else if (r <=? ny) && (c <=? nx) then ([ny; nx], padded half ny nx r c pcs, [Padding]) else ([1], [half], [Padding; CouldNotPad])
    else ([r; c], pcs, []) in
  PCs (match squeeze_shape d with [] => [1] | q => q end) l w.
Proof using Hs.
  destruct (stored_shape s r c pcs Hs) as [D Sz]. unfold out, read_stored_pcs. rewrite D, Sz. reflexivity.
Qed.

(** The detector of a loaded signal always fits its map. *)
Theorem C118_fits : fits out ny nx.
Proof using Hn Hs.
  rewrite read_eq. destruct Hs as (_ & L & R & C).
  assert (F : forall l, length l = ny * nx -> fits (PCs (match squeeze_shape [ny; nx] with [] => [1] | q => q end) l []) ny nx
    /\ fits (PCs (match squeeze_shape [ny; nx] with [] => [1] | q => q end) l [Padding]) ny nx).
  { intros l E. unfold fits, squeeze_shape. cbn [of_shape values]. destruct (filter (fun n => negb (n =? 1)) [ny; nx]) eqn:K; [|now split; right].
    cbn in K. destruct (Nat.eqb_spec ny 1), (Nat.eqb_spec nx 1); try discriminate K. subst ny nx. split; left; now split. }
  destruct (Nat.ltb_spec 1 (r * c)) as [A|A]; [destruct (Nat.eqb_spec (r * c) (ny * nx)) as [B|B]; [|destruct ((r <=? ny) && (c <=? nx))%bool]|].
  - apply F. congruence.
  - apply F. apply padded_length.
  - left. now split.
  - assert (r = 1 /\ c = 1) as [-> ->] by nia. left. split; [reflexivity|exact L].
Qed.

(** One PC is used for all points. *)
Theorem C118_one_pc p : pcs = [p] -> warned out = [] /\ forall i j, pc_of_point out nx i j = Some p.
Proof using Hs.
  intros E. rewrite read_eq. destruct Hs as (_ & L & R & C). rewrite E in *. cbn in L. rewrite <- L. cbn. split; [reflexivity|]. intros i j. reflexivity.
Qed.

(** As many PCs as points, in an array of the shape of the map, or on a line: each point gets its own. *)
Theorem C118_each_point_its_own i j : i < ny -> j < nx -> r = ny /\ c = nx \/ r = 1 /\ c = ny * nx ->
  warned out = [] /\ pc_of_point out nx i j = stored_at nx pcs i j /\ stored_at nx pcs i j <> None.
Proof using Hn Hs.
  intros I J E. rewrite read_eq. destruct Hs as (_ & L & R & C). assert (M : r * c = ny * nx) by (destruct E as [[-> ->]|[-> ->]]; lia).
  assert (N : stored_at nx pcs i j <> None) by (unfold stored_at; apply nth_error_Some; nia).
  rewrite M, Nat.eqb_refl. destruct (Nat.ltb_spec 1 (ny * nx)) as [A|A].
  - split; [reflexivity|]. split; [|exact N]. rewrite pc_of_many; [reflexivity|]. cbn [values]. lia.
  - split; [reflexivity|]. split; [|exact N]. assert (ny = 1 /\ nx = 1) as [-> ->] by nia. destruct pcs as [|p [|q l]]; cbn in L; try lia.
    unfold pc_of_point, stored_at. cbn [values]. now replace (i * 1 + j) with 0 by lia.
Qed.

(** More than one PC, in an array which fits in the map without filling it: points get their own as far as there are any,
    the others (0.5, 0.5, 0.5), with a warning. *)
Theorem C118_padded i j : i < ny -> j < nx -> 1 < r * c -> r <= ny -> c <= nx -> r * c <> ny * nx ->
  warned out = [Padding] /\ pc_of_point out nx i j = if (i <? r) && (j <? c) then stored_at c pcs i j else Some half.
Proof using Hn Hs.
  intros I J A B D E. rewrite read_eq. destruct Hs as (_ & L & R & C).
  apply Nat.ltb_lt in A as A'. rewrite A'. apply Nat.eqb_neq in E as E'. rewrite E'. apply Nat.leb_le in B as B'. apply Nat.leb_le in D as D'. rewrite B', D'. cbn [andb].
  split; [reflexivity|]. rewrite pc_of_many; cbn [values]; [|rewrite padded_length; nia].
  unfold padded. rewrite (rows_nth (fun i j => if (i <? r) && (j <? c) then nth (i * c + j) pcs half else half)) by lia. cbn [Nat.add].
  destruct (Nat.ltb_spec i r), (Nat.ltb_spec j c); cbn [andb]; try reflexivity. unfold stored_at. symmetry. apply nth_error_nth'. nia.
Qed.

(** With more rows or columns than the map has, all are lost: each point gets (0.5, 0.5, 0.5). *)
Theorem C118_larger_array_refuted i j : ny < r \/ nx < c -> r * c <> ny * nx -> 1 < r * c ->
  warned out = [Padding; CouldNotPad] /\ pc_of_point out nx i j = Some half.
Proof using Hn Hs.
  intros B E A. rewrite read_eq. apply Nat.ltb_lt in A. rewrite A. apply Nat.eqb_neq in E. rewrite E.
  destruct (Nat.leb_spec r ny), (Nat.leb_spec c nx); cbn [andb]; try (split; reflexivity). lia.
Qed.

(** And with as many in another shape points get those of other places, without a warning: the second row of points starts
    with a PC which is not the first of the second row in the file. *)
Theorem C118_other_shape_refuted : r * c = ny * nx -> c <> nx -> 2 <= ny -> 2 <= r ->
  warned out = [] /\ exists i j i' j', i < ny /\ j < nx /\ i < r /\ j < c /\ (i', j') <> (i, j) /\ i' < r /\ j' < c /\
    pc_of_point out nx i j = stored_at c pcs i' j' /\ stored_at c pcs i' j' <> None.
Proof using Hs Hn.
  intros M N Y X. rewrite read_eq. destruct Hs as (_ & L & R & C). assert (A : 1 < r * c) by nia. apply Nat.ltb_lt in A as A'. rewrite A', M, Nat.eqb_refl.
  split; [reflexivity|]. pose proof (Nat.div_mod nx c ltac:(lia)) as D. pose proof (Nat.mod_upper_bound nx c ltac:(lia)) as U.
  exists 1, 0, (nx / c), (nx mod c). repeat split; try lia.
  - intros K. injection K as K1 K2. nia.
  - apply Nat.div_lt_upper_bound; [lia|]. nia.
  - rewrite pc_of_many; cbn [values]; [|lia]. unfold stored_at. f_equal. lia.
  - unfold stored_at. apply nth_error_Some. nia.
Qed.
End Read.
End C.
Print Assumptions C118_fits.
Print Assumptions C118_one_pc.
Print Assumptions C118_each_point_its_own.
Print Assumptions C118_padded.
Print Assumptions C118_larger_array_refuted.
Print Assumptions C118_other_shape_refuted.

(** ** Cases: PCs are numbers, with 0 for (0.5, 0.5, 0.5) *)

Example C118_case : values (read_stored_pcs 0 2 3 [2; 2] [1; 2; 3; 4]) = [1; 2; 0; 3; 4; 0] /\
  values (read_stored_pcs 0 2 3 [3; 2] [1; 2; 3; 4; 5; 6]) = [1; 2; 3; 4; 5; 6] /\
  values (read_stored_pcs 0 2 2 [3; 2] [1; 2; 3; 4; 5; 6]) = [0].
Proof. repeat split. Qed.
Example C118_case_stored : stored [2; 2] 2 2 [1; 2; 3; 4] /\ stored [4] 1 4 [1; 2; 3; 4] /\ stored [3; 2] 3 2 [1; 2; 3; 4; 5; 6].
Proof. unfold stored. cbn. repeat split; auto; lia. Qed.
