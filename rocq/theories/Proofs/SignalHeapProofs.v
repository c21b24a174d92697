From Coq Require Import List Arith ZArith Reals Bool Lia.
From Verif Require Import Model.Pattern Model.Intensity Model.MapOverlap Model.Downsample Model.SignalHeap.
From Verif Require Model.Detector.
Import ListNotations.

Definition refs (s : signal) : list nat :=
  s_data s :: s_det s :: match s_bg s with Some k => [k] | None => [] end ++ match s_xmap s with Some k => [k] | None => [] end.

(** Objects below [n] outside [l] are the same in both heaps. *)
Definition same_outside (l : list nat) (n : nat) (h h' : heap) : Prop :=
  forall k, k < n -> ~ In k l ->
    data_at h' k = data_at h k /\ det_at h' k = det_at h k /\ bg_at h' k = bg_at h k /\ xmap_at h' k = xmap_at h k.
(** References of a signal are old ones of s, or new ones. *)
Definition refs_from (l : list nat) (n n' : nat) (s : signal) : Prop :=
  forall k, In k (refs s) -> In k l \/ n <= k < n'.

Lemma put_same {A} (f : nat -> A) k v : put f k v k = v.
Proof. unfold put. now rewrite Nat.eqb_refl. Qed.
Lemma put_other {A} (f : nat -> A) k v i : i <> k -> put f k v i = f i.
Proof. intros H. unfold put. now destruct (Nat.eqb_spec i k). Qed.

Ltac heap_simpl := cbn [next data_at det_at bg_at xmap_at set_data set_det set_bg set_xmap new_data new_det new_bg new_xmap fresh] in *.
Ltac puts := cbn [next data_at det_at bg_at xmap_at set_data set_det set_bg set_xmap]; repeat (rewrite put_other by lia).

Lemma deepcopy_frame h s h' o : deepcopy h s = (h', o) ->
  next h <= next h' /\ same_outside [] (next h) h h' /\ refs_from [] (next h) (next h') o.
Proof.
  unfold deepcopy. destruct s as [sd st sb sx ss sty sa]. cbn [s_data s_det s_bg s_xmap s_shape s_dtype s_axes].
  destruct sb, sx; heap_simpl; intros E; injection E as <- <-; heap_simpl;
    (split; [lia|]; split;
     [intros k Hk _; puts; auto | intros k Hk; unfold refs in Hk; simpl in Hk; right; lia]).
Qed.

Lemma call_frame op inplace h s h' s' out : call op inplace h s = Some (h', s', out) ->
  next h <= next h' /\ same_outside (refs s) (next h) h h' /\ refs_from (refs s) (next h) (next h') s'
  /\ match out with Some o => refs_from (refs s) (next h) (next h') o | None => True end.
Proof.
  destruct s as [sd st sb sx ss sty sa]. unfold call. cbn [s_data s_det s_bg s_xmap s_shape s_dtype s_axes].
  assert (D : forall n k, k < n -> ~ In k (refs (Signal sd st sb sx ss sty sa)) -> k <> sd /\ k <> st).
  { intros n k _ H. unfold refs in H. cbn [s_data s_det In] in H. split; intros ->; apply H; auto. }
  destruct op as [f|f|factor|lo hi|lo hi]; destruct inplace; try discriminate.
  - intros E. injection E as <- <- <-. heap_simpl. split; [lia|]. split; [|split; [|exact I]].
    + intros k Hk Hn. destruct (D _ _ Hk Hn). puts. auto.
    + intros k Hk. now left.
  - heap_simpl. intros E. injection E as <- <- <-. heap_simpl. split; [lia|]. split; [|split].
    + intros k Hk Hn. puts. auto.
    + intros k Hk. now left.
    + intros k Hk. unfold refs in *. cbn [s_data s_det s_bg s_xmap In] in *. destruct Hk as [<-|Hk]; [right; lia|left; auto].
  - intros E. injection E as <- <- <-. heap_simpl. split; [lia|]. split; [|split; [|exact I]].
    + intros k Hk Hn. destruct (D _ _ Hk Hn). puts. auto.
    + intros k Hk. now left.
  - heap_simpl. intros E. injection E as <- <- <-. heap_simpl. split; [lia|]. split; [|split].
    + intros k Hk Hn. puts. auto.
    + intros k Hk. now left.
    + intros k Hk. unfold refs in *. cbn [s_data s_det s_bg s_xmap In] in *. destruct Hk as [<-|Hk]; [right; lia|left; auto].
  - destruct ss as [ny nx]. destruct (factor <=? 1); [discriminate|]. destruct (negb _); [discriminate|].
    destruct sb as [b|]; heap_simpl; intros E; injection E as <- <- <-; heap_simpl; (split; [lia|]; split; [|split; [|exact I]]).
    + intros k Hk Hn. destruct (D _ _ Hk Hn). puts. auto.
    + intros k Hk. unfold refs in *. cbn [s_data s_det s_bg s_xmap In app] in *. intuition lia.
    + intros k Hk Hn. destruct (D _ _ Hk Hn). puts. auto.
    + intros k Hk. unfold refs in *. cbn [s_data s_det s_bg s_xmap In app] in *. intuition lia.
  - destruct ss as [ny nx]. destruct (factor <=? 1); [discriminate|]. destruct (negb _); [discriminate|].
    destruct sb as [b|]; heap_simpl; intros E; injection E as <- <- <-; heap_simpl; (split; [lia|]; split; [|split]).
    + intros k Hk Hn. destruct (D _ _ Hk Hn). puts. auto.
    + intros k Hk. now left.
    + intros k Hk. unfold refs in *. cbn [s_data s_det s_bg s_xmap In app] in *. intuition lia.
    + intros k Hk Hn. destruct (D _ _ Hk Hn). puts. auto.
    + intros k Hk. now left.
    + intros k Hk. unfold refs in *. cbn [s_data s_det s_bg s_xmap In app] in *. intuition lia.
  - destruct ss as [ny nx]. destruct (negb _); [discriminate|].
    destruct sb as [b|]; heap_simpl; destruct (Detector.crop _ _) as [d|]; try discriminate;
      intros E; injection E as <- <- <-; heap_simpl; (split; [lia|]; split; [|split; [|exact I]]).
    + intros k Hk Hn. destruct (D _ _ Hk Hn). puts. auto.
    + intros k Hk. unfold refs in *. cbn [s_data s_det s_bg s_xmap In app] in *. intuition lia.
    + intros k Hk Hn. destruct (D _ _ Hk Hn). puts. auto.
    + intros k Hk. unfold refs in *. cbn [s_data s_det s_bg s_xmap In app] in *. intuition lia.
  - destruct (negb _); [discriminate|].
    destruct sx as [b|]; heap_simpl; intros E; injection E as <- <- <-; heap_simpl; (split; [lia|]; split; [|split; [|exact I]]).
    + intros k Hk Hn. destruct (D _ _ Hk Hn). puts. auto.
    + intros k Hk. unfold refs in *. cbn [s_data s_det s_bg s_xmap In app] in *. 
      rewrite in_app_iff in *. cbn [In] in *. intuition lia.
    + intros k Hk Hn. destruct (D _ _ Hk Hn). puts. auto.
    + intros k Hk. unfold refs in *. cbn [s_data s_det s_bg s_xmap In app] in *.
      rewrite in_app_iff in *. cbn [In] in *. intuition lia.
Qed.

Lemma view_same h h' s : (forall k, In k (refs s) ->
    data_at h' k = data_at h k /\ det_at h' k = det_at h k /\ bg_at h' k = bg_at h k /\ xmap_at h' k = xmap_at h k) ->
  look_at h' s = look_at h s.
Proof.
  intros H. destruct s as [sd st sb sx ss sty sa]. unfold look_at. cbn [s_data s_det s_bg s_xmap s_shape s_dtype s_axes].
  unfold refs in H. cbn [s_data s_det s_bg s_xmap] in H.
  destruct (H sd) as (E1 & _); [simpl; auto|]. destruct (H st) as (_ & E2 & _); [simpl; auto|].
  rewrite E1, E2. f_equal.
  - destruct sb as [b|]; [|reflexivity]. destruct (H b) as (_ & _ & E & _); [simpl; auto|]. simpl. now rewrite E.
  - destruct sx as [x|]; [|reflexivity]. destruct (H x) as (_ & _ & _ & E).
    { right. right. apply in_app_iff. right. simpl. auto. } simpl. now rewrite E.
Qed.

(** ** Isolation *)
Definition isolated (s0 : signal) (st : heap * list signal) : Prop :=
  (forall k, In k (refs s0) -> k < next (fst st))
  /\ match snd st with
     | [] => False
     | s :: rest => s = s0 /\ forall o, In o rest -> forall k, In k (refs o) -> k < next (fst st) /\ ~ In k (refs s0)
     end.

Lemma replace_in {A} (l : list A) i v x : In x (replace l i v) -> In x l \/ x = v.
Proof. revert i. induction l as [|a l IH]; intros [|i]; simpl; try tauto; [intuition|]. intros [->|H]; auto. destruct (IH _ H); auto. Qed.

Lemma isolated_step s0 c st : isolated s0 st ->
  match c with Call i _ _ | Copy i => i <> 0 end ->
  isolated s0 (execute c st) /\ look_at (fst (execute c st)) s0 = look_at (fst st) s0.
Proof.
  intros [H1 H2] Hi. destruct st as [h env]. cbn [fst snd] in *. destruct env as [|s rest]; [contradiction|].
  destruct H2 as [-> H2]. destruct c as [i op inplace|i]; (destruct i as [|i]; [congruence|]); simpl.
  - destruct (nth_error rest i) as [s|] eqn:En; [|split; [split; [exact H1|split; [reflexivity|exact H2]]|reflexivity]].
    assert (Hs := H2 s (nth_error_In _ _ En)).
    destruct (call op inplace h s) as [[[h' s'] out]|] eqn:Ec; [|split; [split; [exact H1|split; [reflexivity|exact H2]]|reflexivity]].
    destruct (call_frame _ _ _ _ _ _ _ Ec) as (Hn & Hsame & Hs' & Hout). cbn [fst snd]. split.
    + split; cbn [fst snd].
      * intros k Hk. specialize (H1 k Hk). lia.
      * cbn [app]. split; [reflexivity|]. intros o Ho k Hk. apply in_app_iff in Ho. destruct Ho as [Ho|Ho].
        -- apply replace_in in Ho. destruct Ho as [Ho| ->].
           ++ destruct (H2 o Ho k Hk). split; [lia|auto].
           ++ destruct (Hs' k Hk) as [Hr|Hr].
              ** destruct (Hs k Hr). split; [lia|auto].
              ** split; [lia|]. intros Hin. specialize (H1 k Hin). lia.
        -- destruct out as [o'|]; [|contradiction]. destruct Ho as [<-|[]]. destruct (Hout k Hk) as [Hr|Hr].
           ++ destruct (Hs k Hr). split; [lia|auto].
           ++ split; [lia|]. intros Hin. specialize (H1 k Hin). lia.
    + apply view_same. intros k Hk. apply Hsame; [now apply H1|]. intros Hin. destruct (Hs k Hin). contradiction.
  - destruct (nth_error rest i) as [s|] eqn:En; [|split; [split; [exact H1|split; [reflexivity|exact H2]]|reflexivity]].
    destruct (deepcopy h s) as [h' o'] eqn:Ed. destruct (deepcopy_frame _ _ _ _ Ed) as (Hn & Hsame & Ho'). cbn [fst snd]. split.
    + split; cbn [fst snd].
      * intros k Hk. specialize (H1 k Hk). lia.
      * cbn [app]. split; [reflexivity|]. intros o Ho k Hk. apply in_app_iff in Ho. destruct Ho as [Ho|[<-|[]]].
        -- destruct (H2 o Ho k Hk). split; [lia|auto].
        -- destruct (Ho' k Hk) as [[]|Hr]. split; [lia|]. intros Hin. specialize (H1 k Hin). lia.
    + apply view_same. intros k Hk. apply Hsame; [now apply H1|]. simpl. auto.
Qed.

Definition on_others (p : list command) : Prop := Forall (fun c => match c with Call i _ _ | Copy i => i <> 0 end) p.
Lemma isolated_run s0 p : forall st, isolated s0 st -> on_others p ->
  look_at (fst (run p st)) s0 = look_at (fst st) s0 /\ nth_error (snd (run p st)) 0 = Some s0.
Proof.
  induction p as [|c p IH]; intros st H Hp; simpl.
  - split; [reflexivity|]. destruct H as [_ H]. destruct (snd st); [contradiction|]. destruct H as [-> _]. reflexivity.
  - inversion Hp; subst. destruct (isolated_step s0 c st H) as [H' E]; auto.
    destruct (IH _ H') as [E' N]; auto. split; [congruence|auto].
Qed.

(** ** Sharing that does no harm: operations that change no detector object *)
Definition harmless (op : operation) : bool :=
  match op with Intensity _ | Blockwise _ | CropRows _ _ => true | Downsample _ | CropMapRows _ _ => false end.
Lemma call_harmless op inplace h s h' s' out : call op inplace h s = Some (h', s', out) -> harmless op = true ->
  next h <= next h' /\ s_data s' = s_data s
  /\ (forall k, k < next h -> det_at h' k = det_at h k /\ bg_at h' k = bg_at h k /\ xmap_at h' k = xmap_at h k
       /\ (k <> s_data s -> data_at h' k = data_at h k))
  /\ match out with Some o => next h <= s_data o < next h' | None => True end.
Proof.
  destruct s as [sd st sb sx ss sty sa]. unfold call. cbn [s_data s_det s_bg s_xmap s_shape s_dtype s_axes].
  destruct op as [f|f|factor|lo hi|lo hi]; destruct inplace; try discriminate; intros E _.
  1,3: injection E as <- <- <-; heap_simpl; repeat split; auto; try lia; intros; puts; auto.
  1,2: heap_simpl; injection E as <- <- <-; heap_simpl; cbn [s_data]; repeat split; try lia; intros; puts; auto.
  destruct ss as [ny nx]. destruct (negb _); [discriminate|].
  destruct sb as [b|]; heap_simpl; destruct (Detector.crop _ _) as [d|]; try discriminate;
    injection E as <- <- <-; heap_simpl; cbn [s_data]; repeat split; try lia; intros; puts; auto.
Qed.

Definition apart (s0 : signal) (st : heap * list signal) : Prop :=
  (forall k, In k (refs s0) -> k < next (fst st))
  /\ match snd st with
     | [] => False
     | s :: rest => s = s0 /\ forall o, In o rest -> s_data o < next (fst st) /\ s_data o <> s_data s0
     end.
Lemma apart_step s0 c st : apart s0 st ->
  match c with Call i op _ => i <> 0 /\ harmless op = true | Copy i => i <> 0 end ->
  apart s0 (execute c st) /\ look_at (fst (execute c st)) s0 = look_at (fst st) s0.
Proof.
  intros [H1 H2] Hi. destruct st as [h env]. cbn [fst snd] in *. destruct env as [|s rest]; [contradiction|].
  destruct H2 as [-> H2]. assert (Hd0 : s_data s0 < next h) by (apply H1; unfold refs; simpl; auto).
  destruct c as [i op inplace|i].
  - destruct Hi as [Hi Hop]. destruct i as [|i]; [congruence|]. simpl.
    destruct (nth_error rest i) as [s|] eqn:En; [|split; [split; [exact H1|split; [reflexivity|exact H2]]|reflexivity]].
    destruct (H2 s (nth_error_In _ _ En)) as [Hs1 Hs2].
    destruct (call op inplace h s) as [[[h' s'] out]|] eqn:Ec; [|split; [split; [exact H1|split; [reflexivity|exact H2]]|reflexivity]].
    destruct (call_harmless _ _ _ _ _ _ _ Ec Hop) as (Hn & Es' & Hsame & Hout). cbn [fst snd]. split.
    + split; cbn [fst snd].
      * intros k Hk. specialize (H1 k Hk). lia.
      * cbn [app]. split; [reflexivity|]. intros o Ho. apply in_app_iff in Ho. destruct Ho as [Ho|Ho].
        -- apply replace_in in Ho. destruct Ho as [Ho| ->]; [destruct (H2 o Ho); lia|]. lia.
        -- destruct out as [o'|]; [|contradiction]. destruct Ho as [<-|[]]. lia.
    + destruct s0 as [sd st sb sx ss sty sa]. unfold look_at. cbn [s_data s_det s_bg s_xmap s_shape s_dtype s_axes] in *.
      unfold refs in H1. cbn [s_data s_det s_bg s_xmap] in H1.
      destruct (Hsame sd) as (_ & _ & _ & E1); [auto|]. rewrite E1 by auto.
      destruct (Hsame st) as (E2 & _); [apply H1; simpl; auto|]. rewrite E2. f_equal.
      * destruct sb as [b|]; [|reflexivity]. destruct (Hsame b) as (_ & E & _); [apply H1; simpl; auto|]. simpl. now rewrite E.
      * destruct sx as [x|]; [|reflexivity]. destruct (Hsame x) as (_ & _ & E & _).
        { apply H1. right. right. apply in_app_iff. right. simpl. auto. } simpl. now rewrite E.
  - destruct i as [|i]; [congruence|]. simpl.
    destruct (nth_error rest i) as [s|] eqn:En; [|split; [split; [exact H1|split; [reflexivity|exact H2]]|reflexivity]].
    destruct (deepcopy h s) as [h' o'] eqn:Ed. destruct (deepcopy_frame _ _ _ _ Ed) as (Hn & Hsame & Ho'). cbn [fst snd]. split.
    + split; cbn [fst snd].
      * intros k Hk. specialize (H1 k Hk). lia.
      * cbn [app]. split; [reflexivity|]. intros o Ho. apply in_app_iff in Ho. destruct Ho as [Ho|[<-|[]]].
        -- destruct (H2 o Ho). lia.
        -- destruct (Ho' (s_data o')) as [[]|Hr]; [unfold refs; simpl; auto|]. lia.
    + apply view_same. intros k Hk. apply Hsame; [now apply H1|]. simpl. auto.
Qed.
Lemma apart_run s0 p : forall st, apart s0 st ->
  Forall (fun c => match c with Call i op _ => i <> 0 /\ harmless op = true | Copy i => i <> 0 end) p ->
  look_at (fst (run p st)) s0 = look_at (fst st) s0 /\ nth_error (snd (run p st)) 0 = Some s0.
Proof.
  induction p as [|c p IH]; intros st H Hp; simpl.
  - split; [reflexivity|]. destruct H as [_ H]. destruct (snd st); [contradiction|]. destruct H as [-> _]. reflexivity.
  - inversion Hp; subst. destruct (apart_step s0 c st H) as [H' E]; auto.
    destruct (IH _ H') as [E' N]; auto. split; [congruence|auto].
Qed.
