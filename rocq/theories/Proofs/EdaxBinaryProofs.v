From Coq Require Import String List Arith ZArith Bool Lia.
From Verif Require Import Model.Binary Model.EdaxBinary Spec.BinaryFiles Proofs.ListLemmas Proofs.BinaryProofs.
Import ListNotations.
Local Open Scope nat_scope.

Lemma pattern_pixels_length pat sy sx : length (pattern_pixels pat sy sx) = sy * sx.
Proof. apply (grid_length (fun y x => pat y x)). Qed.
Lemma all_pixels_length pat n sy sx : length (all_pixels pat n sy sx) = n * (sy * sx).
Proof. apply flat_map_const_length. intros i. apply pattern_pixels_length. Qed.
Lemma all_pixels_nth pat n sy sx i y x : i < n -> y < sy -> x < sx ->
  nth_error (all_pixels pat n sy sx) (i * (sy * sx) + (y * sx + x)) = Some (pat i y x).
Proof.
  intros Hi Hy Hx. unfold all_pixels. rewrite (flat_map_const_nth _ (sy * sx)) by (try (intros; apply pattern_pixels_length); nia).
  apply (grid_nth (fun y x => pat i y x)); assumption.
Qed.
Lemma all_pixels_fits size pat n sy sx : fits size pat -> Forall (fun v => (0 <= v < 256 ^ Z.of_nat size)%Z) (all_pixels pat n sy sx).
Proof.
  intros F. apply Forall_forall. intros v I. unfold all_pixels in I. apply in_flat_map in I. destruct I as [i [_ I]].
  unfold pattern_pixels in I. apply in_flat_map in I. destruct I as [y [_ I]]. apply in_map_iff in I. destruct I as [x [<- _]]. apply F.
Qed.

Section File.
Variables (e : ext) (v sx sy : nat) (more : list Z) (pat : nat -> nat -> nat -> Z) (n : nat) (trailing : list Z).
Let f := edax_file (nbytes e) v sx sy more pat n trailing.
Definition small (k : nat) : Prop := (Z.of_nat k < 2 ^ 32)%Z.
Hypothesis V : small v. Hypothesis SX : small sx. Hypothesis SY : small sy. Hypothesis OFF : small (16 + length more).

Lemma u32_to_le a k b off : off = length a -> small k -> u32 (a ++ to_le 4 (Z.of_nat k) ++ b) off = Some k.
Proof using.
  intros -> S. unfold u32, uint_at. rewrite (sub_at a _ b) by (rewrite ?to_le_length; reflexivity).
  cbn [option_map]. rewrite le_to_le_small by (unfold small in S; cbn; lia). rewrite Nat2Z.id. reflexivity.
Qed.
Lemma file_version : u32 f 0 = Some v.
Proof using V. apply (u32_to_le [] v _ 0 eq_refl V). Qed.
Lemma file_sx : u32 f 4 = Some sx.
Proof using SX. unfold f, edax_file. apply u32_to_le; [rewrite to_le_length; reflexivity|exact SX]. Qed.
Lemma file_sy : u32 f 8 = Some sy.
Proof using SY. unfold f, edax_file. rewrite app_assoc. apply u32_to_le; [rewrite app_length, !to_le_length; reflexivity|exact SY]. Qed.
Lemma file_off : u32 f 12 = Some (16 + length more).
Proof using OFF. unfold f, edax_file. rewrite !(app_assoc (to_le 4 (Z.of_nat v))), (app_assoc (_ ++ _) (to_le 4 (Z.of_nat sy))).
  apply u32_to_le; [rewrite !app_length, !to_le_length; reflexivity|exact OFF]. Qed.

Definition start : list Z := to_le 4 (Z.of_nat v) ++ to_le 4 (Z.of_nat sx) ++ to_le 4 (Z.of_nat sy) ++ to_le 4 (Z.of_nat (16 + length more)).
Lemma start_length : length start = 16.
Proof using. unfold start. rewrite !app_length, !to_le_length. reflexivity. Qed.
Lemma file_split : f = start ++ more ++ flat_map (to_le (nbytes e)) (all_pixels pat n sy sx) ++ trailing.
Proof using. unfold f, edax_file, start. rewrite <- !app_assoc. reflexivity. Qed.
Lemma file_length : length f = 16 + length more + n * (sy * sx) * nbytes e + length trailing.
Proof using. rewrite file_split, !app_length, start_length, flat_le_length, all_pixels_length. lia. Qed.

(** A memory map of the right number of values. *)
Lemma file_memmap s : fits (nbytes e) pat -> size_of s = n * (sy * sx) ->
  memmap f (nbytes e) s (16 + length more) = Some (Nd s (all_pixels pat n sy sx)).
Proof using.
  clear V SX SY OFF. intros F E. unfold memmap.
  rewrite file_split, app_assoc.
  rewrite (sub_at (start ++ more) (flat_map (to_le (nbytes e)) (all_pixels pat n sy sx)) trailing).
  - cbn [option_map]. f_equal. f_equal. rewrite <- (app_nil_r (flat_map _ _)).
    rewrite E, <- (all_pixels_length pat n sy sx). apply items_flat, all_pixels_fits, F.
  - rewrite app_length, start_length. reflexivity.
  - rewrite flat_le_length, all_pixels_length, E. reflexivity.
Qed.

Lemma file_count : 0 < sx -> 0 < sy -> length trailing < sy * sx * nbytes e -> count e f sx sy (16 + length more) = Some n.
Proof using.
  clear V SX SY OFF. intros X Y T. unfold count. rewrite file_length.
  assert (N : 0 < nbytes e) by (destruct e; cbn; lia).
  destruct (Nat.ltb_spec (16 + length more + n * (sy * sx) * nbytes e + length trailing) (16 + length more)) as [H|_]; [lia|].
  destruct (Nat.eqb_spec (sx * sy * nbytes e) 0) as [H|_]; [nia|]. cbn [orb]. f_equal.
  symmetry. apply (Nat.div_unique _ _ _ (length trailing)); nia.
Qed.
End File.
