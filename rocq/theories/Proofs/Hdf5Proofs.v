(** Lemmas on dictionaries read from HDF5 groups. *)
From Coq Require Import Ascii String List Arith ZArith Reals Bool Lia.
From Verif Require Import Model.Binary Model.Hdf5 Model.VendorH5.
Import ListNotations.
Local Open Scope list_scope.

Lemma assoc_in {A} (l : list (string * A)) k a : assoc l k = Some a -> In (k, a) l.
Proof.
  induction l as [|[k' a'] l IH]; [easy|]. cbn [assoc]. destruct (String.eqb_spec k' k) as [->|]; intros H; [injection H as ->; now left|right; auto].
Qed.
Lemma assoc_some {A} (l : list (string * A)) k a : In (k, a) l -> exists b, assoc l k = Some b.
Proof.
  induction l as [|[k' a'] l IH]; [easy|]. cbn [assoc]. intros H. destruct (String.eqb_spec k' k) as [->|]; [eauto|].
  destruct H as [H|H]; [congruence|auto].
Qed.
Lemma assoc_none {A} (l : list (string * A)) k : assoc l k = None <-> forall a, ~ In (k, a) l.
Proof.
  split; [intros H a I; destruct (assoc_some l k a I) as [b E]; congruence|]. intros H. destruct (assoc l k) as [a|] eqn:E; [|reflexivity].
  apply assoc_in in E. now destruct (H a).
Qed.
Lemma assoc_unique {A} (l : list (string * A)) k a : In (k, a) l -> (forall b, In (k, b) l -> b = a) -> assoc l k = Some a.
Proof. intros I U. destruct (assoc_some l k a I) as [b E]. rewrite E. f_equal. apply U. now apply assoc_in. Qed.
Lemma get_unique l k a : In (k, a) l -> (forall b, In (k, b) l -> b = a) -> get l k = Some a.
Proof. intros I U. unfold get. apply assoc_unique; [now rewrite <- in_rev|]. intros b. rewrite <- in_rev. apply U. Qed.
Lemma get_none l k : (forall a, ~ In (k, a) l) -> get l k = None.
Proof. intros H. unfold get. apply assoc_none. intros a. rewrite <- in_rev. apply H. Qed.

Lemma mem_In k l : mem k l = true <-> In k l.
Proof. unfold mem. rewrite existsb_exists. split; [intros (x & I & E); apply String.eqb_eq in E; now subst|intros I; exists k; split; [exact I|apply String.eqb_refl]]. Qed.
Lemma mem_not k l : ~ In k l -> mem k l = false.
Proof. intros H. destruct (mem k l) eqn:E; [|reflexivity]. now apply mem_In in E. Qed.

(** The entries made of one child *)
Definition entries_of (recursive : bool) (names : list string) (kn : string * node) : list (string * entry) :=
  let (key, m) := kn in
  match m with
  | Dataset shape entries => entry_of_dataset names key shape entries
  | Group _ => if recursive then [(key, Dict (hdf5group2dict recursive names m))] else if mem key names then [] else [(key, H5 m)]
  end.
Lemma dict_entries r names c : hdf5group2dict r names (Group c) = flat_map (entries_of r names) c.
Proof. reflexivity. Qed.
Lemma entry_keys r names k m key e : In (key, e) (entries_of r names (k, m)) -> key = k \/ key = lstrip k.
Proof.
  unfold entries_of. destruct m as [shape es|c].
  - unfold entry_of_dataset. destruct (mem k names); [easy|]. destruct shape as [|[|[|n]] rest].
    + destruct es; [easy|]. intros [H|[]]. injection H as <- _. now left.
    + intros [H|[]]. injection H as <- _. now left.
    + destruct (mem (lstrip k) names); [easy|]. intros [H|[]]. injection H as <- _. now right.
    + intros [H|[]]. injection H as <- _. now left.
  - destruct r; [intros [H|[]]; injection H as <- _; now left|]. destruct (mem k names); [easy|]. intros [H|[]]. injection H as <- _. now left.
Qed.
(** A child which is the only one with its name gives the entry of its name. *)
Definition only_child (c : list (string * node)) (name k : string) (m : node) : Prop :=
  In (k, m) c /\ forall k' m', In (k', m') c -> k' = name \/ lstrip k' = name -> (k', m') = (k, m).
Lemma get_child r names c name k m e : only_child c name k m -> entries_of r names (k, m) = [(name, e)] ->
  get (hdf5group2dict r names (Group c)) name = Some e.
Proof.
  intros [I U] E. rewrite dict_entries. apply get_unique.
  - apply in_flat_map. exists (k, m). split; [exact I|]. rewrite E. now left.
  - intros b Hb. apply in_flat_map in Hb. destruct Hb as ([k' m'] & I' & Hb). destruct (entry_keys _ _ _ _ _ _ Hb) as [->| ->].
    + rewrite (U _ _ I' (or_introl eq_refl)) in Hb. rewrite E in Hb. destruct Hb as [Hb|[]]. now injection Hb.
    + rewrite (U _ _ I' (or_intror eq_refl)) in Hb. rewrite E in Hb. destruct Hb as [Hb|[]]. now injection Hb.
Qed.
Lemma get_missing r names c name : (forall k m, In (k, m) c -> k <> name /\ lstrip k <> name) -> get (hdf5group2dict r names (Group c)) name = None.
Proof.
  intros H. rewrite dict_entries. apply get_none. intros a Ha. apply in_flat_map in Ha. destruct Ha as ([k m] & I & Ha).
  destruct (H k m I). destruct (entry_keys _ _ _ _ _ _ Ha) as [->| ->]; congruence.
Qed.

Lemma all_map {A B C} (f : B -> option C) (g : A -> B) (h : A -> C) l : (forall a, f (g a) = Some (h a)) -> all f (map g l) = Some (map h l).
Proof. intros H. induction l as [|a l IH]; [reflexivity|]. cbn [map all]. rewrite H. cbn [bind]. rewrite IH. reflexivity. Qed.
Lemma all_pixels px : all pixel (map Int px) = Some px.
Proof. rewrite (all_map pixel Int (fun z => z)); [now rewrite map_id|reflexivity]. Qed.
Lemma all_floats l : all number (map Float l) = Some l.
Proof. rewrite (all_map number Float (fun z => z)); [now rewrite map_id|reflexivity]. Qed.
