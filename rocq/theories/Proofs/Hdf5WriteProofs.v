(** Lemmas on dictionaries written to HDF5 groups. *)
From Coq Require Import Ascii String List Arith NArith ZArith Reals Bool Lia Permutation.
From Verif Require Import Model.Binary Model.Hdf5 Model.Hdf5Write Spec.Hdf5WriteSpec Proofs.Hdf5Proofs.
Import ListNotations.
Local Open Scope list_scope.

(** ** Text *)

Lemma utf8_char_cases c b : utf8_char c = Some b ->
  ((c < 128)%N /\ b = [c]) \/ ((128 <= c)%N /\ exists x y r, b = x :: y :: r /\ Forall (fun z => (128 <= z < 256)%N) b).
Proof.
  unfold utf8_char. intros H.
  assert (M : forall x, (128 <= 128 + x mod 64 < 256)%N) by (intros x; pose proof (N.mod_lt x 64 ltac:(discriminate)) as M; revert M; generalize (x mod 64)%N; intros; lia).
  destruct (N.ltb_spec c 128); [left; injection H as <-; auto|]. right. split; [assumption|].
  assert (D : forall a k m, (a + m <= 256 -> 128 <= a -> k <> 0 -> c < k * m -> 128 <= a + c / k < 256)%N).
  { intros a k m A1 A2 K L. pose proof (N.div_lt_upper_bound c k m K L) as Q. revert Q. generalize (c / k)%N. intros. lia. }
  destruct (N.ltb_spec c 2048).
  { injection H as <-. do 3 eexists. split; [reflexivity|]. repeat (apply Forall_cons || apply Forall_nil); try apply M. apply (D 192 64 64)%N; lia. }
  destruct (N.ltb_spec c 65536).
  { destruct ((55296 <=? c)%N && (c <? 57344)%N); [discriminate|]. injection H as <-. do 3 eexists. split; [reflexivity|].
    repeat (apply Forall_cons || apply Forall_nil); try apply M. apply (D 224 4096 32)%N; lia. }
  destruct (N.ltb_spec c 1114112); [|discriminate]. injection H as <-. do 3 eexists. split; [reflexivity|].
  repeat (apply Forall_cons || apply Forall_nil); try apply M. apply (D 240 262144 16)%N; lia.
Qed.

Lemma encode_plain s : Forall (fun c => (c < 128)%N) s -> encode s = Some s.
Proof.
  induction 1 as [|c r H _ IH]; [reflexivity|]. cbn [encode]. unfold utf8_char. apply N.ltb_lt in H. rewrite H. cbn [bind]. rewrite IH. reflexivity.
Qed.
Lemma encode_bytes s : forall b, encode s = Some b -> Forall (fun x => (x < 256)%N) b.
Proof.
  induction s as [|c r IH]; intros b H; [injection H as <-; constructor|]. cbn [encode] in H.
  destruct (utf8_char c) as [bc|] eqn:Ec; [|discriminate]. cbn [bind] in H. destruct (encode r) as [br|]; [|discriminate]. injection H as <-.
  apply Forall_app. split; [|now apply IH]. destruct (utf8_char_cases _ _ Ec) as [[L ->]|(_ & x & y & t & -> & F)].
  - repeat constructor. lia.
  - eapply Forall_impl; [|exact F]. cbn. intros. lia.
Qed.
Lemma encode_length s : forall b, encode s = Some b -> length s <= length b.
Proof.
  induction s as [|c r IH]; intros b H; [cbn; lia|]. cbn [encode] in H.
  destruct (utf8_char c) as [bc|] eqn:Ec; [|discriminate]. cbn [bind] in H. destruct (encode r) as [br|]; [|discriminate]. injection H as <-.
  rewrite app_length. specialize (IH br eq_refl). cbn [length].
  destruct (utf8_char_cases _ _ Ec) as [[L ->]|(_ & x & y & t & -> & F)]; cbn [length]; lia.
Qed.
Lemma encode_longer s : forall b, encode s = Some b -> ~ Forall (fun c => (c < 128)%N) s -> length s < length b.
Proof.
  induction s as [|c r IH]; intros b H NF; [now destruct NF|]. cbn [encode] in H.
  destruct (utf8_char c) as [bc|] eqn:Ec; [|discriminate]. cbn [bind] in H. destruct (encode r) as [br|] eqn:Er; [|discriminate]. injection H as <-.
  rewrite app_length. cbn [length]. pose proof (encode_length _ _ Er).
  destruct (utf8_char_cases _ _ Ec) as [[L ->]|(_ & x & y & t & -> & F)]; cbn [length]; [|lia].
  assert (length r < length br) by (apply IH; [reflexivity|]; intros G; apply NF; now constructor). lia.
Qed.
(** The byte behind the copy of a text in its own encoding is no zero. *)
Lemma encode_queue s : forall q b x rest, encode s = Some b -> q <> [] -> Forall (fun z => (128 <= z)%N) q -> q ++ b = s ++ x :: rest -> (128 <= x)%N.
Proof.
  induction s as [|c r IH]; intros q b x rest H NE F E.
  { destruct q as [|z q]; [easy|]. cbn in E. injection E as -> _. now inversion F. }
  cbn [encode] in H. destruct (utf8_char c) as [bc|] eqn:Ec; [|discriminate]. cbn [bind] in H. destruct (encode r) as [br|] eqn:Er; [|discriminate]. injection H as <-.
  destruct q as [|z q]; [easy|]. cbn in E. injection E as -> E. inversion F as [|? ? F1 F2]; subst.
  destruct (utf8_char_cases _ _ Ec) as [[L _]|(_ & x1 & y1 & t & -> & Fb)]; [lia|].
  apply (IH (q ++ x1 :: y1 :: t) br x rest eq_refl).
  - destruct q; easy.
  - apply Forall_app. split; [assumption|]. eapply Forall_impl; [|exact Fb]. cbn. intros. lia.
  - now rewrite <- app_assoc.
Qed.
Lemma encode_copy s : forall b x rest, encode s = Some b -> b = s ++ x :: rest -> (128 <= x)%N.
Proof.
  induction s as [|c r IH]; intros b x rest H E; [injection H as <-; discriminate|].
  cbn [encode] in H. destruct (utf8_char c) as [bc|] eqn:Ec; [|discriminate]. cbn [bind] in H. destruct (encode r) as [br|] eqn:Er; [|discriminate]. injection H as <-.
  destruct (utf8_char_cases _ _ Ec) as [[L ->]|(G & x1 & y1 & t & -> & Fb)].
  - cbn in E. injection E as E. now apply (IH br x rest).
  - cbn in E. injection E as -> E. apply (encode_queue r (y1 :: t) br x rest Er); [easy| |exact E].
    inversion Fb as [|? ? _ F2]; subst. eapply Forall_impl; [|exact F2]. cbn. intros. lia.
Qed.

Lemma strip_zeros_spec b : exists n, b = strip_zeros b ++ repeat 0%N n.
Proof.
  induction b as [|x r [n IH]]; [now exists 0|]. cbn [strip_zeros]. destruct (strip_zeros r) as [|y r'] eqn:E.
  - cbn in IH. destruct (N.eqb_spec x 0) as [->|]; [exists (S n); cbn; now rewrite IH at 1|exists n; cbn; now rewrite IH at 1].
  - exists n. cbn in *. now rewrite IH at 1.
Qed.
Lemma strip_zeros_last b : strip_zeros b = [] \/ last (strip_zeros b) 1%N <> 0%N.
Proof.
  induction b as [|x r IH]; [now left|]. cbn [strip_zeros]. destruct (strip_zeros r) as [|y r'] eqn:E.
  - destruct (N.eqb_spec x 0); [now left|right; cbn; assumption].
  - right. destruct IH as [IH|IH]; [discriminate|]. exact IH.
Qed.
Lemma strip_zeros_same b : b = [] \/ last b 1%N <> 0%N -> strip_zeros b = b.
Proof.
  induction b as [|x r IH]; [reflexivity|]. intros [H|H]; [discriminate|]. cbn [strip_zeros]. destruct r as [|y r'].
  - cbn in *. destruct (N.eqb_spec x 0); easy.
  - rewrite IH; [reflexivity|]. now right.
Qed.

Lemma code_points_bytes b : Forall (fun x => (x < 256)%N) b -> code_points (string_of_bytes b) = b.
Proof.
  unfold code_points, string_of_bytes. rewrite list_ascii_of_string_of_list_ascii, map_map. induction 1 as [|x r H _ IH]; [reflexivity|].
  cbn [map]. rewrite IH. f_equal. now apply N_ascii_embedding.
Qed.
Lemma strip_bytes b : Forall (fun x => (x < 256)%N) b -> Forall (fun x => (x < 256)%N) (strip_zeros b).
Proof. intros F. destruct (strip_zeros_spec b) as [n E]. rewrite E in F. now apply Forall_app in F. Qed.
Lemma firstn_forall {A} (P : A -> Prop) n l : Forall P l -> Forall P (firstn n l).
Proof. intros F. rewrite <- (firstn_skipn n l) in F. now apply Forall_app in F. Qed.

Theorem text_back s b : encode s = Some b -> (code_points (string_of_bytes (fixed_bytes (length s + 1) b)) = s <-> plain_text s).
Proof.
  intros H. unfold fixed_bytes. rewrite code_points_bytes by (apply strip_bytes, firstn_forall, (encode_bytes s), H). split.
  - intros E. assert (P : Forall (fun c => (c < 128)%N) s).
    { destruct (Forall_Exists_dec (fun c => (c < 128)%N) (fun c => match N.ltb_spec0 c 128 with ReflectT _ p => left p | ReflectF _ q => right q end) s) as [F|X]; [exact F|exfalso].
      assert (NF : ~ Forall (fun c => (c < 128)%N) s) by (intros F; apply Exists_exists in X; destruct X as (c & I & NC); rewrite Forall_forall in F; auto).
      pose proof (encode_longer _ _ H NF) as L.
      destruct (strip_zeros_spec (firstn (length s + 1) b)) as [n En]. rewrite E in En.
      assert (length (firstn (length s + 1) b) = length s + 1) as Lf by (rewrite firstn_length; lia).
      rewrite En, app_length, repeat_length in Lf. assert (n = 1) by lia. subst n. cbn in En.
      assert (B : b = s ++ 0%N :: skipn (length s + 1) b) by (rewrite <- (firstn_skipn (length s + 1) b) at 1; rewrite En, <- app_assoc; reflexivity).
      pose proof (encode_copy _ _ _ _ H B). lia. }
    split; [exact P|]. rewrite <- E. apply strip_zeros_last.
  - intros [P L]. rewrite (encode_plain s P) in H. injection H as <-. rewrite firstn_all2 by lia. now apply strip_zeros_same.
Qed.

(** ** Keys *)

Lemma split_slash_one k : ~ In "/"%char (list_ascii_of_string k) -> split_slash k = [k].
Proof.
  induction k as [|c r IH]; [reflexivity|]. cbn [list_ascii_of_string In split_slash]. intros H.
  destruct (Ascii.eqb_spec c "/"); [tauto|]. rewrite IH by tauto. reflexivity.
Qed.
Lemma split_slash_two k r : ~ In "/"%char (list_ascii_of_string k) -> split_slash (k ++ String "/" r)%string = k :: split_slash r.
Proof.
  induction k as [|c k IH]; [reflexivity|]. cbn [list_ascii_of_string In String.append split_slash]. intros H.
  destruct (Ascii.eqb_spec c "/"); [tauto|]. rewrite IH by tauto. reflexivity.
Qed.
Lemma is_space_iff c : is_space c = true <-> In (nat_of_ascii c) [9; 10; 11; 12; 13; 32].
Proof.
  unfold is_space. split.
  - destruct c as [[] [] [] [] [] [] [] []]; vm_compute; intros H; try discriminate H; auto 10.
  - cbn. intros [<-|[<-|[<-|[<-|[<-|[<-|[]]]]]]]; reflexivity.
Qed.
Lemma lstrip_same k : ~ starts_with_space k -> lstrip k = k.
Proof.
  destruct k as [|c r]; [reflexivity|]. intros H. cbn [lstrip]. destruct (is_space c) eqn:E; [|reflexivity].
  destruct H. exists c, r. split; [reflexivity|]. now apply is_space_iff.
Qed.
Lemma lstrip_no_space k : ~ starts_with_space (lstrip k).
Proof.
  induction k as [|c r IH]; [intros (c & r & E & _); discriminate|]. cbn [lstrip]. destruct (is_space c) eqn:E; [exact IH|].
  intros (c' & r' & E' & I). injection E' as -> ->. apply is_space_iff in I. congruence.
Qed.

(** ** The loop *)

Definition node_of (v : pyval) : option (node * list string) :=
  match v with
  | Mapping _ => let? cw := dict2hdf5group v in Some (Group (fst cw), snd cw)
  | _ => match write_leaf v with Stored sh es => Some (Dataset sh es, []) | _ => None end
  end.
Fixpoint loop (d : list (string * pyval)) (children : list (string * node)) (warned : list string) : option (list (string * node) * list string) :=
  match d with
  | [] => Some (children, warned)
  | (key, v) :: rest =>
      match v with
      | Mapping _ =>
          let? cw := dict2hdf5group v in
          let? children := create children (split_slash key) (Group (fst cw)) in
          loop rest children (warned ++ snd cw)
      | _ =>
          match write_leaf v with
          | Stored shape entries =>
              let? children := create children (split_slash key) (Dataset shape entries) in
              loop rest children warned
          | Skip => Some (children, warned ++ [key])
          | Error => None
          end
      end
  end.
Lemma dict_loop d : dict2hdf5group (Mapping d) = loop d [] [].
Proof. reflexivity. Qed.
Lemma loop_step key v rest children warned n w : node_of v = Some (n, w) ->
  loop ((key, v) :: rest) children warned = let? children := create children (split_slash key) n in loop rest children (warned ++ w).
Proof.
  destruct v; cbn [node_of loop]; intros H.
  all: try (destruct (write_leaf _); try discriminate; injection H as <- <-; rewrite app_nil_r; reflexivity).
  destruct (dict2hdf5group (Mapping d)) as [cw|]; [|discriminate]. cbn [bind] in *. injection H as <- <-. reflexivity.
Qed.
Lemma loop_cases key v rest children warned :
  (exists n w, node_of v = Some (n, w)) \/ (v = Unindexable /\ loop ((key, v) :: rest) children warned = Some (children, warned ++ [key]))
  \/ loop ((key, v) :: rest) children warned = None.
Proof.
  destruct v; cbn [node_of loop].
  all: try (destruct (write_leaf _) eqn:E; [left; eauto| |right; right; reflexivity]).
  all: try (cbn in E; repeat match type of E with context [match ?x with _ => _ end] => destruct x end; discriminate).
  - right. left. auto.
  - destruct (dict2hdf5group (Mapping d)) as [cw|]; [left; cbn; eauto|right; right; reflexivity].
Qed.

Definition stored_as (kv : string * pyval) (kn : string * node) : Prop := fst kv = fst kn /\ node_of (snd kv) = Some (snd kn, []).
Lemma stored_keys a c : Forall2 stored_as a c -> map fst c = map fst a.
Proof. induction 1 as [|[k v] [k' n] a c [E _] _ IH]; [reflexivity|]. cbn in *. now rewrite IH, E. Qed.
Lemma assoc_absent {A} (l : list (string * A)) k : ~ In k (map fst l) -> assoc l k = None.
Proof. intros H. apply assoc_none. intros a I. apply H. apply in_map_iff. now exists (k, a). Qed.
Lemma loop_stored a : forall c b children warned, Forall2 stored_as a c ->
  (forall k, In k (map fst a) -> ~ In "/"%char (list_ascii_of_string k)) -> NoDup (map fst children ++ map fst a) ->
  loop (a ++ b) children warned = loop b (children ++ c) warned.
Proof.
  induction a as [|[k v] a IH]; intros c b children warned H NS ND; inversion H as [|? [k' n] ? c' [E Hn] H']; subst.
  - now rewrite app_nil_r.
  - cbn in E, Hn. subst k'. cbn [app]. rewrite (loop_step _ _ _ _ _ _ _ Hn). rewrite split_slash_one by (apply NS; now left).
    cbn [create]. rewrite assoc_absent.
    + cbn [bind]. rewrite app_nil_r. rewrite (IH c'); [now rewrite <- app_assoc|assumption| |].
      * intros k' I. apply NS. now right.
      * rewrite map_app, <- app_assoc. exact ND.
    + apply NoDup_remove_2 in ND. intros I. apply ND. apply in_or_app. now left.
Qed.

(** ** Values that come back *)

Definition comes_back (v : pyval) : Prop :=
  exists n, node_of v = Some (n, []) /\ forall k, ~ starts_with_space k -> exists e, entries_of true [] (k, n) = [(k, e)] /\ equal v e.

Lemma comes_back_all d : (forall k v, In (k, v) d -> comes_back v) -> (forall k, In k (map fst d) -> ~ starts_with_space k) ->
  exists c e, Forall2 stored_as d c /\ flat_map (entries_of true []) c = e /\ Forall2 (fun kv ke => fst kv = fst ke /\ equal (snd kv) (snd ke)) d e.
Proof.
  induction d as [|[k v] d IH]; intros H NS; [exists [], []; repeat split; constructor|].
  destruct IH as (c & e & F & E & F'); [intros; apply (H k0); now right|intros; apply NS; now right|].
  destruct (H k v (or_introl eq_refl)) as (n & Hn & Hk). destruct (Hk k) as (x & Ex & Q); [apply NS; now left|].
  exists ((k, n) :: c), ((k, x) :: e). repeat split.
  - constructor; [split; [reflexivity|exact Hn]|exact F].
  - cbn [flat_map]. rewrite E. now rewrite Ex.
  - constructor; [now split|exact F'].
Qed.
Lemma equal_entries d e : NoDup (map fst d) -> Forall2 (fun kv ke => fst kv = fst ke /\ equal (snd kv) (snd ke)) d e -> equal (Mapping d) (Dict e).
Proof.
  intros ND F. assert (K : map fst e = map fst d).
  { clear ND. induction F as [|[k v] [k' x] d e [E _] _ IH]; [reflexivity|]. cbn in *. now rewrite IH, E. }
  constructor.
  - intros k v I. assert (exists x, In (k, x) e /\ equal v x) as (x & Ix & Q).
    { clear ND K. induction F as [|[k1 v1] [k2 x] d e [E Q] _ IH]; [easy|]. cbn in *. destruct I as [I|I].
      - injection I as -> ->. subst k2. eauto.
      - destruct (IH I) as (y & Iy & Qy). eauto. }
    exists x. split; [|exact Q]. apply get_unique; [exact Ix|]. intros y Iy. rewrite <- K in ND. clear - ND Ix Iy.
    induction e as [|[k' z] e IH]; [easy|]. cbn in *. inversion ND as [|? ? N1 N2]; subst.
    destruct Ix as [Ix|Ix], Iy as [Iy|Iy].
    + congruence.
    + injection Ix as -> ->. destruct N1. apply in_map_iff. now exists (k, y).
    + injection Iy as -> ->. destruct N1. apply in_map_iff. now exists (k, x).
    + now apply IH.
  - intros k G. rewrite <- K. destruct (in_dec string_dec k (map fst e)) as [I|NI]; [exact I|]. destruct G. apply get_none.
    intros x I. apply NI. apply in_map_iff. now exists (k, x).
Qed.

Theorem storable_comes_back v : storable v -> comes_back v.
Proof.
  induction 1 as [s P|z B|x|shape es H NE|x|items L NE T|d ND K S IH].
  - destruct P as [P Q]. pose proof (encode_plain s P) as E. eexists. cbn [node_of write_leaf]. rewrite E. split; [reflexivity|].
    intros k NS. cbn. rewrite (lstrip_same k NS). eexists. split; [reflexivity|]. constructor. now apply (text_back s s E).
  - eexists. cbn [node_of write_leaf]. destruct B as [B1 B2]. apply Z.leb_le in B1. apply Z.ltb_lt in B2. rewrite B1, B2. cbn [andb].
    split; [reflexivity|]. intros k NS. cbn [entries_of]. unfold entry_of_dataset. cbn [mem existsb]. rewrite (lstrip_same k NS). eexists. split; [reflexivity|]. constructor.
  - eexists. cbn [node_of write_leaf]. split; [reflexivity|]. intros k NS. cbn. rewrite (lstrip_same k NS). eexists. split; [reflexivity|]. constructor.
  - eexists. cbn [node_of write_leaf]. split; [reflexivity|]. intros k _. destruct shape as [|[|[|n]] r]; try easy; (eexists; split; [reflexivity|]; now constructor).
  - eexists. cbn [node_of write_leaf]. split; [reflexivity|]. intros k _. eexists. split; [reflexivity|]. constructor.
  - destruct items as [|x [|y r]]; [easy|now destruct L|]. eexists. cbn [node_of write_leaf]. split; [reflexivity|]. intros k _.
    assert (M : map (cast x) (x :: y :: r) = x :: y :: r).
    { rewrite <- (map_id (x :: y :: r)) at 2. apply map_ext_in. intros u I. destruct T as [T|T]; rewrite Forall_forall in T.
      - destruct (T x (or_introl eq_refl)) as [z ->]. destruct (T u I) as [z' ->]. reflexivity.
      - destruct (T x (or_introl eq_refl)) as [z ->]. destruct (T u I) as [z' ->]. reflexivity. }
    rewrite M. eexists. split; [reflexivity|]. constructor.
  - destruct (comes_back_all d IH) as (c & e & F & E & F'); [intros k I; now apply K|].
    assert (W : dict2hdf5group (Mapping d) = Some (c, [])).
    { rewrite dict_loop. pose proof (loop_stored d c [] [] [] F) as L. rewrite app_nil_r in L. rewrite L; [reflexivity|intros k I; now apply K|exact ND]. }
    exists (Group c). cbn [node_of]. rewrite W. split; [reflexivity|]. intros k _. cbn [entries_of]. eexists. split; [reflexivity|].
    rewrite dict_entries, E. now apply equal_entries.
Qed.

Lemma storable_dict_stored d : storable (Mapping d) -> exists c, Forall2 stored_as d c /\ NoDup (map fst d) /\
  (forall k, In k (map fst d) -> ~ In "/"%char (list_ascii_of_string k)) /\ equal (Mapping d) (Dict (hdf5group2dict true [] (Group c))).
Proof.
  intros H. inversion H as [| | | | | |? ND K S]; subst.
  destruct (comes_back_all d) as (c & e & F & E & F'); [intros k v I; apply storable_comes_back; eauto|intros k I; now apply K|].
  exists c. repeat split; [exact F|exact ND|intros k I; now apply K|]. rewrite dict_entries, E. now apply equal_entries.
Qed.

(** ** Writing without a warning *)

Lemma loop_warned d : forall children warned c w, loop d children warned = Some (c, w) -> exists w', w = warned ++ w'.
Proof.
  induction d as [|[k v] d IH]; intros children warned c w H.
  - injection H as <- <-. exists []. now rewrite app_nil_r.
  - destruct (loop_cases k v d children warned) as [(n & w0 & Hn)|[[-> E]|E]].
    + rewrite (loop_step _ _ _ _ _ _ _ Hn) in H. destruct (create children (split_slash k) n) as [ch|]; [|discriminate]. cbn [bind] in H.
      destruct (IH _ _ _ _ H) as [w' ->]. exists (w0 ++ w'). now rewrite app_assoc.
    + rewrite E in H. injection H as <- <-. eauto.
    + rewrite E in H. discriminate.
Qed.
Lemma loop_silent d : forall children c, (forall k, In k (map fst d) -> ~ In "/"%char (list_ascii_of_string k)) ->
  loop d children [] = Some (c, []) -> exists nodes, Forall2 stored_as d nodes /\ c = children ++ nodes.
Proof.
  induction d as [|[k v] d IH]; intros children c NS H.
  - injection H as <-. exists []. split; [constructor|now rewrite app_nil_r].
  - destruct (loop_cases k v d children []) as [(n & w0 & Hn)|[[-> E]|E]].
    + rewrite (loop_step _ _ _ _ _ _ _ Hn) in H. rewrite split_slash_one in H by (apply NS; now left). cbn [create] in H.
      destruct (assoc children k); [discriminate|]. cbn [bind app] in H. destruct (loop_warned _ _ _ _ _ H) as [w' W]. symmetry in W.
      apply app_eq_nil in W. destruct W as [-> _]. destruct (IH _ _ (fun k' I => NS k' (or_intror I)) H) as (nodes & F & ->).
      exists ((k, n) :: nodes). split; [constructor; [now split|exact F]|now rewrite <- app_assoc].
    + rewrite E in H. injection H as _ H. discriminate.
    + rewrite E in H. discriminate.
Qed.
Lemma loop_names d : forall children c w, (forall k, In k (map fst d) -> ~ In "/"%char (list_ascii_of_string k)) ->
  loop d children [] = Some (c, w) -> NoDup (map fst children) -> NoDup (map fst c).
Proof.
  enough (G : forall children warned c w, (forall k, In k (map fst d) -> ~ In "/"%char (list_ascii_of_string k)) ->
    loop d children warned = Some (c, w) -> NoDup (map fst children) -> NoDup (map fst c)) by (intros; eapply G; eauto).
  induction d as [|[k v] d IH]; intros children warned c w NS H ND.
  - injection H as <- _. exact ND.
  - destruct (loop_cases k v d children warned) as [(n & w0 & Hn)|[[-> E]|E]].
    + rewrite (loop_step _ _ _ _ _ _ _ Hn) in H. rewrite split_slash_one in H by (apply NS; now left). cbn [create] in H.
      destruct (assoc children k) eqn:A; [discriminate|]. cbn [bind] in H. apply (IH _ _ _ _ (fun k' I => NS k' (or_intror I)) H).
      rewrite map_app. apply (Permutation_NoDup (Permutation_cons_append (map fst children) k)). constructor; [|exact ND]. intros I. apply in_map_iff in I. destruct I as ([k' m] & <- & I).
      destruct (assoc_some children _ _ I). cbn in *. congruence.
    + rewrite E in H. injection H as <- _. exact ND.
    + rewrite E in H. discriminate.
Qed.
