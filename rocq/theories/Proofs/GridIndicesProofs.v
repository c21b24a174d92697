From Coq Require Import Bool List Arith ZArith Lia.
From Verif Require Import Spec.Grid Model.PyArray Model.GridIndices Proofs.ListLemmas Proofs.PyArrayProofs.
Import ListNotations.

(** Number of indices in a dimension. *)
Definition count (g n : nat) : nat := ceil_div n (spacing g n) - 1.
Definition centre (g n : nat) : Z :=
  ((Z.of_nat (spacing g n) - (Z.of_nat n - Z.of_nat (count g n * spacing g n))) / 2)%Z.
Definition grid_index (g n i : nat) : Z := (Z.of_nat ((i + 1) * spacing g n) - centre g n)%Z.

Lemma spacing_pos g n : 1 <= n -> 1 <= spacing g n.
Proof.
  intros H. unfold spacing. pose proof (ceil_div_spec n (g + 1) ltac:(lia)). nia.
Qed.
Lemma spacing_zero g : spacing g 0 = 0.
Proof. unfold spacing. apply ceil_div_unique; lia. Qed.

Lemma count_spec g n : 1 <= n ->
  count g n * spacing g n < n <= (count g n + 1) * spacing g n.
Proof.
  intros H. pose proof (spacing_pos g n H) as Hs.
  pose proof (ceil_div_spec n (spacing g n) Hs). unfold count. nia.
Qed.
Lemma count_le g n : 1 <= n -> count g n <= g.
Proof.
  intros H. pose proof (spacing_pos g n H) as Hs. pose proof (count_spec g n H) as [H1 _].
  pose proof (ceil_div_spec n (g + 1) ltac:(lia)) as [H2 _]. fold (spacing g n) in H2. nia.
Qed.
Lemma count_eq g n : 1 <= n -> (count g n = g <-> g * ceil_div n (g + 1) < n).
Proof.
  intros H. fold (spacing g n). pose proof (spacing_pos g n H) as Hs.
  pose proof (count_spec g n H) as [H1 H2]. pose proof (count_le g n H) as H3.
  split; intros E; [nia|]. nia.
Qed.
Lemma count_eq_large g n : g * g < n -> count g n = g.
Proof.
  intros H. apply count_eq; [lia|]. pose proof (ceil_div_spec n (g + 1) ltac:(lia)). nia.
Qed.

(** The centring is half of what is left between the last index plus one spacing and the end. *)
Lemma centre_bounds g n : 1 <= n ->
  (0 <= 2 * centre g n /\
   0 <= Z.of_nat (spacing g n) - (Z.of_nat n - Z.of_nat (count g n * spacing g n)) - 2 * centre g n <= 1)%Z.
Proof.
  intros H. unfold centre. pose proof (count_spec g n H) as [H1 H2].
  set (d := (Z.of_nat (spacing g n) - (Z.of_nat n - Z.of_nat (count g n * spacing g n)))%Z) in *.
  assert (Hd : (0 <= d)%Z) by (unfold d; nia).
  pose proof (Z.div_mod d 2 ltac:(lia)). pose proof (Z.mod_pos_bound d 2 ltac:(lia)). lia.
Qed.

Lemma grid_index_inside g n i : 1 <= n -> i < count g n -> (0 <= grid_index g n i < Z.of_nat n)%Z.
Proof.
  intros H Hi. pose proof (centre_bounds g n H) as [H1 H2]. pose proof (count_spec g n H) as [H3 H4].
  unfold grid_index. nia.
Qed.
Lemma grid_index_step g n i : grid_index g n (S i) = (grid_index g n i + Z.of_nat (spacing g n))%Z.
Proof. unfold grid_index. lia. Qed.

Lemma selected_1d g n : 1 <= n ->
  skipn 1 (every (spacing g n) (seq 0 n)) = map (fun i => (i + 1) * spacing g n) (seq 0 (count g n)).
Proof.
  intros H. pose proof (spacing_pos g n H) as Hs. rewrite every_seq by exact Hs.
  pose proof (ceil_div_spec n (spacing g n) Hs) as [H1 _].
  unfold count. destruct (ceil_div n (spacing g n)) as [|k] eqn:E; [lia|].
  simpl. rewrite Nat.sub_0_r, map_seq_shift. apply map_ext. intros i. lia.
Qed.

Lemma grid_indices_1d_eq g n :
  grid_indices_1d g n =
  if n =? 0 then None else if count g n =? 0 then None else Some (map (grid_index g n) (seq 0 (count g n))).
Proof.
  unfold grid_indices_1d. destruct (Nat.eqb_spec n 0) as [->|Hn].
  - rewrite spacing_zero. reflexivity.
  - assert (H : 1 <= n) by lia. pose proof (spacing_pos g n H) as Hs.
    rewrite selected_1d by exact H. rewrite map_map.
    destruct (spacing g n) as [|s'] eqn:Es; [lia|]. rewrite <- Es in *.
    destruct (Nat.eqb_spec (count g n) 0) as [->|Hc]; [reflexivity|].
    remember (map (fun x => Z.of_nat ((x + 1) * spacing g n)) (seq 0 (count g n))) as idx eqn:Ei.
    assert (El : last idx 0%Z = Z.of_nat (count g n * spacing g n)).
    { subst idx. rewrite last_map_seq by lia. f_equal. f_equal. lia. }
    rewrite El. destruct idx as [|a idx].
    + destruct (count g n); [lia|discriminate].
    + assert (a = Z.of_nat (spacing g n)) as ->.
      { destruct (count g n); [lia|]. simpl in Ei. injection Ei as -> _. f_equal. lia. }
      rewrite Ei, map_map. f_equal.
Qed.

(** Two dimensions: rows and columns are those of the two one-dimensional problems. *)
Lemma selected_2d g0 g1 n0 n1 : 1 <= n0 -> 1 <= n1 ->
  map (skipn 1) (skipn 1 (map (every (spacing g1 n1)) (every (spacing g0 n0) (arange2 n0 n1))))
  = map (fun i => map (fun j => (i + 1) * spacing g0 n0 * n1 + (j + 1) * spacing g1 n1) (seq 0 (count g1 n1)))
        (seq 0 (count g0 n0)).
Proof.
  intros H0 H1. unfold arange2. rewrite every_map, map_map.
  rewrite skipn_map, map_map. rewrite selected_1d by exact H0. rewrite map_map. apply map_ext. intros i.
  rewrite every_map, skipn_map, selected_1d by exact H1. rewrite map_map. reflexivity.
Qed.

Lemma unravelled_2d g0 g1 n0 n1 : 1 <= n0 -> 1 <= n1 ->
  map (map (fun i => let (y, x) := unravel2 n1 i in (Z.of_nat y, Z.of_nat x)))
    (map (skipn 1) (skipn 1 (map (every (spacing g1 n1)) (every (spacing g0 n0) (arange2 n0 n1)))))
  = map (fun i => map (fun j => (Z.of_nat ((i + 1) * spacing g0 n0), Z.of_nat ((j + 1) * spacing g1 n1)))
                      (seq 0 (count g1 n1)))
        (seq 0 (count g0 n0)).
Proof.
  intros H0 H1. rewrite selected_2d by assumption. rewrite map_map. apply map_ext. intros i.
  rewrite map_map. apply map_ext_in. intros j Hj. apply in_seq in Hj. unfold unravel2.
  pose proof (count_spec g1 n1 H1) as [Hc _].
  assert (Hlt : (j + 1) * spacing g1 n1 < n1) by nia.
  rewrite Nat.div_add_l by lia. rewrite Nat.div_small by exact Hlt. rewrite Nat.add_0_r.
  rewrite (Nat.add_comm ((i + 1) * spacing g0 n0 * n1)), Nat.mod_add by lia.
  rewrite Nat.mod_small by exact Hlt. reflexivity.
Qed.

Lemma grid_indices_2d_eq g0 g1 n0 n1 :
  grid_indices_2d (g0, g1) (n0, n1) =
  if (n0 =? 0) || (n1 =? 0) then None
  else if (count g0 n0 =? 0) || (count g1 n1 =? 0) then None
  else Some (map (fun i => map (fun j => (grid_index g0 n0 i, grid_index g1 n1 j)) (seq 0 (count g1 n1)))
                 (seq 0 (count g0 n0))).
Proof.
  unfold grid_indices_2d.
  destruct (Nat.eqb_spec n0 0) as [->|Hn0]; [rewrite spacing_zero; reflexivity|].
  destruct (Nat.eqb_spec n1 0) as [->|Hn1].
  { rewrite (spacing_zero g1). destruct (spacing g0 n0); reflexivity. }
  assert (H0 : 1 <= n0) by lia. assert (H1 : 1 <= n1) by lia.
  pose proof (spacing_pos g0 n0 H0) as Hs0. pose proof (spacing_pos g1 n1 H1) as Hs1.
  rewrite unravelled_2d by assumption. simpl orb.
  destruct (spacing g0 n0) as [|s0] eqn:E0; [lia|]. rewrite <- E0 in *.
  destruct (spacing g1 n1) as [|s1] eqn:E1; [lia|]. rewrite <- E1 in *.
  set (idx := map _ (seq 0 (count g0 n0))).
  destruct (Nat.eqb_spec (count g0 n0) 0) as [Hc0|Hc0].
  { subst idx. rewrite Hc0. reflexivity. }
  destruct (Nat.eqb_spec (count g1 n1) 0) as [Hc1|Hc1].
  { subst idx. rewrite Hc1. destruct (count g0 n0); [lia|]. simpl. reflexivity. }
  simpl orb.
  assert (El : last (last idx []) (0%Z, 0%Z) =
     (Z.of_nat (count g0 n0 * spacing g0 n0), Z.of_nat (count g1 n1 * spacing g1 n1))).
  { subst idx. rewrite last_map_seq by lia. rewrite last_map_seq by lia.
    f_equal; f_equal; f_equal; lia. }
  rewrite El.
  assert (Eh : exists r1 r2, idx = ((Z.of_nat (spacing g0 n0), Z.of_nat (spacing g1 n1)) :: r1) :: r2).
  { subst idx. destruct (count g0 n0); [lia|]. destruct (count g1 n1); [lia|].
    simpl. rewrite !Nat.add_0_r. eexists _, _. reflexivity. }
  destruct Eh as (r1 & r2 & Eh). rewrite Eh. rewrite <- Eh. unfold idx.
  rewrite map_map. f_equal. apply map_ext. intros i. rewrite map_map. apply map_ext. intros j. reflexivity.
Qed.
