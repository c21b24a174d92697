(** C96: dictionaries written to HDF5 files and read again. *)
From Coq Require Import Ascii String List Arith NArith ZArith Reals Lia Lra.
From Verif Require Import Model.Binary Model.Hdf5 Model.Hdf5Write Spec.Hdf5WriteSpec Proofs.Hdf5Proofs Proofs.Hdf5WriteProofs.
Import ListNotations.
Local Open Scope list_scope.
Local Open Scope string_scope.

(** Names and metadata as written to a kikuchipy file: "Nickel", a voltage, projection centers, phases in a
    dictionary of dictionaries. *)
Definition example_dict : list (string * pyval) :=
  [("manufacturer", Str [107; 105; 107; 117]%N);
   ("n_rows", PyInt 3);
   ("beam_energy", Number (Float 20));
   ("pcx", NdArray [2; 2] [Float 0; Float 1; Float 2; Float 3]);
   ("crystal_map", Mapping [("phases", Mapping [("0", Mapping [("name", Str [78; 105]%N)])]); ("empty", Mapping [])])].
Lemma no_space c r : ~ In (nat_of_ascii c) [9; 10; 11; 12; 13; 32] -> ~ starts_with_space (String c r).
Proof. intros H (c' & r' & E & I). now injection E as <- <-. Qed.
Ltac key := split; [split; [discriminate|split; [discriminate|cbn; intuition discriminate]]|apply no_space; cbn; intuition discriminate].
Ltac level := constructor; [cbn; repeat constructor; cbn; intuition discriminate|cbn; intros k K; repeat (destruct K as [<-|K]; [key|]); destruct K|cbn; intros k v K].
Lemma example_storable : storable (Mapping example_dict).
Proof.
  level. repeat (destruct K as [K|K]; [injection K as <- <-|]); [| | | | |destruct K].
  - constructor. split; [repeat constructor|right; discriminate].
  - constructor. lia.
  - constructor.
  - constructor; discriminate.
  - level. repeat (destruct K as [K|K]; [injection K as <- <-|]); [| |destruct K].
    + level. repeat (destruct K as [K|K]; [injection K as <- <-|]); [|destruct K].
      level. repeat (destruct K as [K|K]; [injection K as <- <-|]); [|destruct K].
      constructor. split; [repeat constructor|right; discriminate].
    + level. destruct K.
Qed.

(** Every dictionary, however deeply nested, whose keys name single entries, whose texts are of 7-bit characters, and
    whose arrays have no first axis of length one, is written without warning and read back equal. *)
Theorem C96_dictionary_round_trip d : storable (Mapping d) ->
  exists e, round_trip (Mapping d) = Some (e, []) /\ equal (Mapping d) (Dict e).
Proof.
  intros H. destruct (storable_dict_stored d H) as (c & F & ND & NS & Q). unfold round_trip. rewrite dict_loop.
  pose proof (loop_stored d c [] [] [] F NS ND) as L. rewrite app_nil_r in L. rewrite L. cbn. eexists. split; [reflexivity|exact Q].
Qed.
Example C96_dictionary_round_trip_case : exists e, round_trip (Mapping example_dict) = Some (e, []) /\ equal (Mapping example_dict) (Dict e).
Proof. apply C96_dictionary_round_trip, example_storable. Qed.
Print Assumptions C96_dictionary_round_trip.

Lemma round_trip_one k v n : names_one k -> node_of v = Some (n, []) ->
  round_trip (Mapping [(k, v)]) = Some (entries_of true [] (k, n), []).
Proof.
  intros (_ & _ & NS) Hn. unfold round_trip. rewrite dict_loop, (loop_step _ _ _ _ _ _ _ Hn), split_slash_one by exact NS. cbn [create assoc bind loop app fst snd].
  rewrite dict_entries. cbn [flat_map]. now rewrite app_nil_r.
Qed.
Lemma equal_single k v k' e : equal (Mapping [(k, v)]) (Dict [(k', e)]) <-> k' = k /\ equal v e.
Proof.
  split.
  - intros H. inversion H as [| | | | | |? ? A B]; subst. destruct (A k v (or_introl eq_refl)) as (x & G & Q). unfold get in G. cbn in G.
    destruct (String.eqb_spec k' k) as [->|]; [|discriminate]. injection G as <-. now split.
  - intros [-> Q]. constructor.
    + intros k0 v0 [I|[]]. injection I as <- <-. exists e. split; [|exact Q]. unfold get. cbn. now rewrite String.eqb_refl.
    + intros k0. unfold get. cbn. destruct (String.eqb_spec k k0) as [->|]; [now left|congruence].
Qed.
Lemma key_back k : lstrip k = k <-> ~ starts_with_space k.
Proof. split; [intros <-; apply lstrip_no_space|apply lstrip_same]. Qed.

(** A text that can be written is read back unchanged exactly if it has only 7-bit characters and does not end with a
    zero, and its key exactly if it has no space in front. *)
Theorem C96_text_back_iff k s e w : names_one k -> round_trip (Mapping [(k, Str s)]) = Some (e, w) ->
  (equal (Mapping [(k, Str s)]) (Dict e) <-> plain_text s /\ ~ starts_with_space k).
Proof.
  intros K H. destruct (encode s) as [b|] eqn:E.
  - assert (Hn : node_of (Str s) = Some (Dataset [1] [Text (string_of_bytes (fixed_bytes (length s + 1) b))], [])) by (cbn [node_of write_leaf]; now rewrite E).
    rewrite (round_trip_one k _ _ K Hn) in H. injection H as <- <-. cbn [entries_of entry_of_dataset mem existsb]. rewrite equal_single, key_back, <- (text_back s b E).
    split; [intros [A B]; inversion B; subst; tauto|intros [A B]; split; [exact B|now constructor]].
  - exfalso. destruct K as (_ & _ & NS). unfold round_trip in H. rewrite dict_loop in H. cbn [loop write_leaf] in H. now rewrite E in H.
Qed.
(** The phase name "alpha" (one Greek letter) is read as two other characters, and the name of three Greek letters is
    cut after two of them. *)
Example C96_greek_names :
  round_trip (Mapping [("name", Str [945]%N)]) = Some ([("name", Value (Text (string_of_list_ascii [ascii_of_nat 206; ascii_of_nat 177])))], [])
  /\ round_trip (Mapping [("name", Str [945; 946; 947]%N)])
     = Some ([("name", Value (Text (string_of_list_ascii (map ascii_of_nat [206; 177; 206; 178]))))], []).
Proof. split; reflexivity. Qed.
Theorem C96_text_back_refuted : exists k s e, round_trip (Mapping [(k, Str s)]) = Some (e, []) /\ ~ equal (Mapping [(k, Str s)]) (Dict e).
Proof.
  exists "name", [945]%N. eexists. split; [apply C96_greek_names|]. intros H.
  assert (N : names_one "name") by (split; [discriminate|split; [discriminate|cbn; intuition discriminate]]).
  apply (C96_text_back_iff "name" [945]%N _ [] N (proj1 C96_greek_names)) in H. destruct H as [[H _] _]. inversion H; subst. lia.
Qed.
Print Assumptions C96_text_back_iff.

Lemma equal_shape s1 e1 s2 e2 : equal (NdArray s1 e1) (Array s2 e2) -> s1 = s2.
Proof. intros Q. inversion Q. reflexivity. Qed.
(** An array with one axis or more is read back with its shape exactly if its first axis is not of length one. *)
Theorem C96_array_back_iff k n shape entries e w : names_one k -> ~ starts_with_space k ->
  round_trip (Mapping [(k, NdArray (n :: shape) entries)]) = Some (e, w) ->
  (equal (Mapping [(k, NdArray (n :: shape) entries)]) (Dict e) <-> n <> 1).
Proof.
  intros K NS H. rewrite (round_trip_one k (NdArray (n :: shape) entries) (Dataset (n :: shape) entries) K eq_refl) in H. injection H as <- <-.
  destruct n as [|[|n]]; cbn [entries_of entry_of_dataset mem existsb].
  - rewrite equal_single. split; [discriminate|]. intros _. split; [reflexivity|now constructor].
  - rewrite (lstrip_same k NS), equal_single. split; [|easy]. intros [_ Q]. destruct shape as [|m shape].
    + destruct entries as [|x entries]; inversion Q.
    + apply equal_shape, (f_equal (@length nat)) in Q. cbn in Q. lia.
  - rewrite equal_single. split; [discriminate|]. intros _. split; [reflexivity|now constructor].
Qed.
Example C96_array_back_case : exists e w, round_trip (Mapping [("pcx", NdArray [1; 2] [Float 0; Float 1])]) = Some (e, w)
  /\ e = [("pcx", Array [2] [Float 0; Float 1])].
Proof. do 2 eexists. split; reflexivity. Qed.
Print Assumptions C96_array_back_iff.

(** If no warning is given, nothing is missing: every key has its entry, and that of a dictionary is that dictionary
    read on its own, again without warning. (Arrays have as many entries as their shape says.) *)
Theorem C96_silent_write_is_complete d e : (forall k, In k (map fst d) -> names_one k /\ ~ starts_with_space k) ->
  (forall k shape entries, In (k, NdArray shape entries) d -> length entries = fold_right Nat.mul 1 shape) ->
  round_trip (Mapping d) = Some (e, []) ->
  forall k v, In (k, v) d -> exists x, get e k = Some x
    /\ forall d', v = Mapping d' -> exists e', round_trip v = Some (e', []) /\ x = Dict e'.
Proof.
  intros K A H k v I. unfold round_trip in H. rewrite dict_loop in H. destruct (loop d [] []) as [[c w]|] eqn:L; [|discriminate].
  cbn [bind fst snd] in H. injection H as <- ->.
  assert (NS : forall k, In k (map fst d) -> ~ In "/"%char (list_ascii_of_string k)) by (intros k' I'; apply K, I').
  pose proof (loop_names d [] c [] NS L (NoDup_nil _)) as ND. destruct (loop_silent d [] c NS L) as (nodes & F & ->). cbn [app] in *.
  assert (exists n, In (k, n) nodes /\ node_of v = Some (n, [])) as (n & In' & Hn).
  { clear - F I. induction F as [|[k1 v1] [k2 n] d c [E Q] _ IH]; [easy|]. cbn in *. destruct I as [I|I].
    - injection I as -> ->. subst k2. eauto.
    - destruct (IH I) as (y & Iy & Qy). eauto. }
  assert (Kk : forall k', In k' (map fst nodes) -> lstrip k' = k').
  { intros k' I'. rewrite (stored_keys _ _ F) in I'. apply lstrip_same, K, I'. }
  assert (X : exists x, entries_of true [] (k, n) = [(k, x)] /\ forall d', v = Mapping d' -> exists e', round_trip v = Some (e', []) /\ x = Dict e').
  { assert (Lk : lstrip k = k) by (apply Kk, in_map_iff; now exists (k, n)).
    destruct v; cbn [node_of] in Hn.
    - destruct (write_leaf _) eqn:E; try discriminate. injection Hn as <-. cbn [write_leaf] in E. destruct (encode s); [|discriminate]. injection E as <- <-.
      cbn [entries_of entry_of_dataset mem existsb]. rewrite Lk. eexists. split; [reflexivity|discriminate].
    - destruct (write_leaf _) eqn:E; try discriminate. injection Hn as <-. cbn [write_leaf] in E. destruct (_ && _)%bool; [|discriminate]. injection E as <- <-.
      cbn [entries_of entry_of_dataset mem existsb]. rewrite Lk. eexists. split; [reflexivity|discriminate].
    - injection Hn as <-. cbn [entries_of entry_of_dataset mem existsb]. rewrite Lk. eexists. split; [reflexivity|discriminate].
    - injection Hn as <-. pose proof (A _ _ _ I) as LE. cbn [entries_of entry_of_dataset mem existsb]. rewrite Lk. destruct shape as [|[|[|m]] rest].
      + destruct entries; [discriminate|]. eexists. split; [reflexivity|discriminate].
      + eexists. split; [reflexivity|discriminate].
      + eexists. split; [reflexivity|discriminate].
      + eexists. split; [reflexivity|discriminate].
    - destruct items as [|x [|y r]]; [discriminate| |]; injection Hn as <-; cbn [entries_of entry_of_dataset mem existsb length map]; [rewrite Lk|]; eexists; (split; [reflexivity|discriminate]).
    - discriminate.
    - discriminate.
    - destruct (dict2hdf5group (Mapping d0)) as [[c w]|] eqn:E; [|discriminate]. cbn [bind fst snd] in Hn. injection Hn as <- ->.
      cbn [entries_of]. eexists. split; [reflexivity|]. intros d' V. unfold round_trip. rewrite E. cbn [bind fst snd]. eauto. }
  destruct X as (x & Ex & Q). exists x. split; [|exact Q]. refine (get_child true [] nodes k k n x _ Ex). split; [exact In'|].
  intros k' m' I' O. assert (k' = k) as -> by (destruct O as [O|O]; [exact O|]; rewrite <- O; symmetry; apply Kk, in_map_iff; now exists (k', m')).
  clear - ND In' I'. induction nodes as [|[k1 n1] nodes IH]; [easy|]. cbn in *. inversion ND as [|? ? N1 N2]; subst.
  destruct In' as [E1|E1], I' as [E2|E2].
  - congruence.
  - injection E1 as -> ->. destruct N1. apply in_map_iff. now exists (k, m').
  - injection E2 as -> ->. destruct N1. apply in_map_iff. now exists (k, n).
  - now apply IH.
Qed.
Example C96_silent_write_case : exists e, round_trip (Mapping example_dict) = Some (e, []) /\ get e "crystal_map" <> None.
Proof. eexists. split; [reflexivity|discriminate]. Qed.
Print Assumptions C96_silent_write_is_complete.

(** A value that cannot be written, such as None, ends the writing of its dictionary: what came before is read back, what
    comes after is lost, and the only warning is about the value itself. *)
Theorem C96_unwritable_value_drops_the_rest a k b : storable (Mapping a) ->
  exists e, round_trip (Mapping (a ++ (k, Unindexable) :: b)) = Some (e, [k]) /\ equal (Mapping a) (Dict e).
Proof.
  intros H. destruct (storable_dict_stored a H) as (c & F & ND & NS & Q). unfold round_trip. rewrite dict_loop.
  rewrite (loop_stored a c _ [] [] F NS ND). cbn. eexists. split; [reflexivity|exact Q].
Qed.
Theorem C96_only_warned_keys_are_lost_refuted : exists d e w k,
  round_trip (Mapping d) = Some (e, w) /\ In k (map fst d) /\ get e k = None /\ ~ In k w.
Proof.
  exists [("microscope", Unindexable); ("working_distance", Number (Float 15))]. do 2 eexists. exists "working_distance".
  split; [reflexivity|]. split; [cbn; auto|]. split; [reflexivity|]. cbn. intuition discriminate.
Qed.
Print Assumptions C96_unwritable_value_drops_the_rest.

(** A key with a slash is read as a dictionary within the dictionary. *)
Theorem C96_slash_in_key_refuted a b x : names_one a -> names_one b -> ~ starts_with_space b ->
  exists e, round_trip (Mapping [(a ++ "/" ++ b, Number x)]) = Some (e, [])
  /\ e = [(a, Dict [(b, Value x)])] /\ ~ equal (Mapping [(a ++ "/" ++ b, Number x)]) (Dict e).
Proof.
  intros (_ & _ & Na) (_ & _ & Nb) Sb. eexists. split; [|split; [reflexivity|]].
  - unfold round_trip. rewrite dict_loop. rewrite (loop_step _ (Number x) _ _ _ (Dataset [1] [x]) [] eq_refl). change ("/" ++ b) with (String "/" b). rewrite (split_slash_two a b Na).
    rewrite (split_slash_one b Nb). cbn. now rewrite (lstrip_same b Sb).
  - rewrite equal_single. intros [E _]. apply (f_equal String.length) in E. revert E. clear. induction a as [|c a IH]; cbn; intros E; [discriminate|]. injection E as E. exact (IH E).
Qed.
Example C96_slash_case : names_one "Ni" /\ names_one "Al" /\ ~ starts_with_space "Al".
Proof. repeat split; try discriminate; try (cbn; intuition discriminate). apply no_space. cbn. intuition discriminate. Qed.

(** And it cannot be written after a value under the first part of the key. *)
Theorem C96_slash_below_a_value a b x y : names_one a -> names_one b ->
  round_trip (Mapping [(a, Number x); (a ++ "/" ++ b, Number y)]) = None.
Proof.
  intros (_ & _ & Na) (_ & _ & Nb). unfold round_trip. rewrite dict_loop.
  cbn [loop write_leaf bind]. rewrite (split_slash_one a Na). cbn [create assoc app].
  change ("/" ++ b) with (String "/" b). rewrite (split_slash_two a b Na), (split_slash_one b Nb).
  cbn. rewrite String.eqb_refl. reflexivity.
Qed.

(** Writing raises an exception on a list of Python's numbers, on an empty list and on integers of more than 64 bits,
    whatever is in front of them. *)
Theorem C96_values_that_raise a k v b : storable (Mapping a) ->
  ((exists l, v = PlainItems l) \/ v = NumpyItems [] \/ exists z, v = PyInt z /\ ~ (- 2 ^ 63 <= z < 2 ^ 63)%Z) ->
  round_trip (Mapping (a ++ (k, v) :: b)) = None.
Proof.
  intros H V. destruct (storable_dict_stored a H) as (c & F & ND & NS & _). unfold round_trip. rewrite dict_loop.
  rewrite (loop_stored a c _ [] [] F NS ND). destruct V as [[l ->]|[->|(z & -> & B)]]; [reflexivity|reflexivity|].
  cbn [loop write_leaf]. destruct (Z.leb_spec (- 2 ^ 63) z); [|reflexivity]. destruct (Z.ltb_spec z (2 ^ 63)); [now destruct B|reflexivity].
Qed.
Example C96_values_that_raise_case : storable (Mapping example_dict) /\ ~ (- 2 ^ 63 <= 2 ^ 63 < 2 ^ 63)%Z.
Proof. split; [exact example_storable|lia]. Qed.
Print Assumptions C96_values_that_raise.

(** A list of numpy's numbers takes the type of its first: behind an integer, another number is read as the integer next to
    it on the side of zero. *)
Theorem C96_mixed_numbers_refuted z x : exists n,
  round_trip (Mapping [("steps", NumpyItems [Int z; Float x])]) = Some ([("steps", Array [2] [Int z; Int n])], [])
  /\ (Rabs (x - IZR n) < 1)%R /\ (Rabs (IZR n) <= Rabs x)%R /\ (0 <= x * IZR n)%R
  /\ ~ equal (Mapping [("steps", NumpyItems [Int z; Float x])]) (Dict [("steps", Array [2] [Int z; Int n])]).
Proof.
  exists (truncate x). split; [reflexivity|].
  assert (B : forall y, (0 <= y)%R -> (0 <= IZR (Int_part y) <= y)%R /\ (y - IZR (Int_part y) < 1)%R).
  { intros y Hy. destruct (base_Int_part y) as [L U]. repeat split; try lra. apply IZR_le.
    assert (Q : (-1 < Int_part y)%Z) by (apply lt_IZR; lra). lia. }
  assert (T : (Rabs (x - IZR (truncate x)) < 1 /\ Rabs (IZR (truncate x)) <= Rabs x /\ 0 <= x * IZR (truncate x))%R).
  { unfold truncate. destruct (Rlt_dec x 0) as [L|L].
    - destruct (B (- x)%R) as [B1 B2]; [lra|]. rewrite opp_IZR. set (n := IZR (Int_part (- x))) in *. clearbody n.
      repeat split; [apply Rabs_def1; lra| |nra]. rewrite Rabs_Ropp, Rabs_pos_eq, (Rabs_left x) by lra. lra.
    - destruct (B x) as [B1 B2]; [lra|]. set (n := IZR (Int_part x)) in *. clearbody n.
      repeat split; [apply Rabs_def1; lra| |nra]. rewrite !Rabs_pos_eq by lra. lra. }
  destruct T as (T1 & T2 & T3). repeat split; auto.
  rewrite equal_single. intros [_ Q]. inversion Q.
Qed.
(** Behind a number which is not an integer type, an integer becomes one of this type, of the same value. *)
Theorem C96_integers_among_floats x z : round_trip (Mapping [("steps", NumpyItems [Float x; Int z; Float x])])
  = Some ([("steps", Array [3] [Float x; Float (IZR z); Float x])], []).
Proof. reflexivity. Qed.
Example C96_mixed_numbers_case : truncate (5 / 2) = 2%Z /\ truncate (- (5 / 2)) = (-2)%Z.
Proof.
  assert (E : Int_part (5 / 2) = 2%Z) by (unfold Int_part; rewrite <- (tech_up (5 / 2) 3) by lra; reflexivity).
  unfold truncate. split; destruct (Rlt_dec _ _) as [L|L]; try lra; auto. rewrite Ropp_involutive, E. reflexivity.
Qed.
Print Assumptions C96_mixed_numbers_refuted.
