(** Plots of projection centers and of pattern positions: property C95. *)
From Coq Require Import String List Arith ZArith Bool Reals Lra Lia Permutation.
From Verif Require Import Model.Detector Model.PositionPlots Spec.PositionPlotsSpec.
Import ListNotations.
Local Open Scope list_scope.
Local Open Scope R_scope.

(** ** Lemmas *)
Lemma combine_map {A B C} (f : A -> B) (g : A -> C) l : combine (map f l) (map g l) = map (fun a => (f a, g a)) l.
Proof. induction l as [|a l IH]; [reflexivity|]. cbn. now rewrite IH. Qed.
Lemma enumerate_nth {A} (l : list A) k : nth_error (enumerate l) k = option_map (fun a => (k, a)) (nth_error l k).
Proof.
  unfold enumerate. assert (G : forall n, nth_error (combine (seq n (length l)) l) k = option_map (fun a => (n + k, a)%nat) (nth_error l k)).
  { revert k. induction l as [|a l IH]; intros [|k] n; cbn; try reflexivity.
    - now rewrite Nat.add_0_r.
    - rewrite IH. destruct (nth_error l k); [|reflexivity]. cbn. do 2 f_equal. lia. }
  apply G.
Qed.
Lemma enumerate_length {A} (l : list A) : length (enumerate l) = length l.
Proof. unfold enumerate. rewrite combine_length, seq_length. lia. Qed.
Lemma enumerate_in {A} (l : list A) k a : In (k, a) (enumerate l) <-> nth_error l k = Some a.
Proof.
  split.
  - intros H. apply In_nth_error in H. destruct H as (m & H). rewrite enumerate_nth in H. destruct (nth_error l m) eqn:E; [|discriminate].
    cbn in H. injection H as -> ->. exact E.
  - intros H. apply nth_error_In with k. now rewrite enumerate_nth, H.
Qed.

Lemma fold_min_le l a : fold_left Rmin l a <= a /\ forall v, In v l -> fold_left Rmin l a <= v.
Proof.
  revert a. induction l as [|b l IH]; intros a; cbn; [split; [lra|tauto]|]. destruct (IH (Rmin a b)) as [H1 H2].
  pose proof (Rmin_l a b). pose proof (Rmin_r a b). split; [lra|]. intros v [->|H3]; [lra|auto].
Qed.
Lemma fold_max_ge l a : a <= fold_left Rmax l a /\ forall v, In v l -> v <= fold_left Rmax l a.
Proof.
  revert a. induction l as [|b l IH]; intros a; cbn; [split; [lra|tauto]|]. destruct (IH (Rmax a b)) as [H1 H2].
  pose proof (Rmax_l a b). pose proof (Rmax_r a b). split; [lra|]. intros v [->|H3]; [lra|auto].
Qed.
Lemma fold_min_in l a : In (fold_left Rmin l a) (a :: l).
Proof.
  revert a. induction l as [|b l IH]; intros a; cbn [fold_left]; [now left|]. specialize (IH (Rmin a b)).
  destruct IH as [H|H]; [|now right; right]. rewrite <- H. unfold Rmin. destruct (Rle_dec a b); [now left|now right; left].
Qed.
Lemma fold_max_in l a : In (fold_left Rmax l a) (a :: l).
Proof.
  revert a. induction l as [|b l IH]; intros a; cbn [fold_left]; [now left|]. specialize (IH (Rmax a b)).
  destruct IH as [H|H]; [|now right; right]. rewrite <- H. unfold Rmax. destruct (Rle_dec a b); [now right; left|now left].
Qed.
Lemma min_max_tight l : l <> [] -> tight (min_of l, max_of l) l.
Proof.
  destruct l as [|a l]; [congruence|]. intros _. unfold tight, min_of, max_of. cbn [fst snd].
  destruct (fold_min_le l a) as [A B]. destruct (fold_max_ge l a) as [C D]. split; [|split; [apply fold_min_in|apply fold_max_in]].
  intros v [<-|H]; [lra|]. split; auto.
Qed.

Lemma rows_of_at {A} (l : list A) ny nx i j : length l = (ny * nx)%nat -> (i < ny)%nat -> (j < nx)%nat ->
  at_ (rows_of ny nx l) i j = nth_error l (i * nx + j).
Proof.
  revert l i. induction ny as [|ny IH]; intros l i H Hi Hj; [lia|]. cbn [rows_of]. destruct i as [|i].
  - unfold at_. cbn [nth_error Nat.mul Nat.add]. rewrite <- (firstn_skipn nx l) at 2. rewrite nth_error_app1; [reflexivity|].
    rewrite firstn_length. cbn [Nat.mul] in H. lia.
  - unfold at_ in *. cbn [nth_error]. rewrite IH; [|rewrite skipn_length; cbn [Nat.mul] in H; lia|lia|exact Hj].
    rewrite <- (firstn_skipn nx l) at 2. rewrite nth_error_app2; rewrite firstn_length; cbn [Nat.mul] in H |- *; [|lia].
    f_equal. lia.
Qed.

(** ** plot_pc *)

(** Plots are refused for single projection centers, for maps unless there are two navigation dimensions, and for
    other modes; in no other case. *)
Theorem C95_when_refused ds shape pcs mode o annotate kw :
  fst (plot_pc ds shape pcs mode o annotate kw) = Refused
  <-> fold_right Nat.mul 1%nat shape = 1%nat \/ (mode = "map"%string /\ length shape <> 2%nat)
      \/ (mode <> "map"%string /\ mode <> "scatter"%string /\ mode <> "3d"%string).
Proof.
  unfold plot_pc. destruct (Nat.eqb_spec (fold_right Nat.mul 1%nat shape) 1) as [E|E]; [cbn; tauto|].
  cbn [existsb]. destruct (String.eqb_spec mode "map") as [->|M].
  - cbn [andb orb negb]. destruct (Nat.eqb_spec (length shape) 2) as [L|L]; cbn [negb fst]; [|tauto].
    split; [discriminate|]. intros [H|[[_ H]|[H _]]]; congruence.
  - cbn [andb orb]. destruct (String.eqb_spec mode "scatter") as [->|S1]; cbn [orb negb fst].
    + split; [discriminate|]. intros [H|[[H _]|(_ & H & _)]]; congruence.
    + destruct (String.eqb_spec mode "3d") as [->|S2]; cbn [orb negb fst].
      * split; [discriminate|]. intros [H|[[H _]|(_ & _ & H)]]; congruence.
      * split; [|reflexivity]. tauto.
Qed.

(** Mode "scatter": each pair of components is shown once; in each panel there is one point for each projection
    center, in order, at the values of the components the axes are labelled with; and each point, and nothing else,
    has its index as number, if asked for.  PCx increases to the left, PCy upwards, and PCz downwards or to the right. *)
Theorem C95_scatter ds shape pcs o annotate kw size c kw' :
  plot_pc ds shape pcs "scatter" o annotate kw = (Figure size c, kw') ->
  exists l, c = Scatters l
    /\ map (fun p => (x_label p, y_label p)) l = [(PCx, PCy); (PCx, PCz); (PCz, PCy)]
    /\ map x_inverted l = [true; true; false] /\ map y_inverted l = [false; true; false]
    /\ forall p, In p l ->
       points p = map (fun q => (component (x_label p) q, component (y_label p) q)) pcs
       /\ forall k xy, In (k, xy) (numbers p) <-> annotate = true /\ nth_error (points p) k = Some xy.
Proof.
  unfold plot_pc. destruct (fold_right Nat.mul 1%nat shape =? 1)%nat; [discriminate|]. cbn [existsb String.eqb Ascii.eqb Bool.eqb andb orb negb].
  intros E. injection E as <- <- _. eexists. split; [reflexivity|]. do 3 (split; [reflexivity|]).
  intros p Hp. cbn [scatter_panels In] in Hp.
  destruct Hp as [<-|[<-|[<-|[]]]]; unfold scatter_panel; cbn [fst snd x_label y_label points numbers labels component column];
    rewrite !combine_map; (split; [reflexivity|]; intros k xy; destruct annotate; rewrite ?enumerate_in; [tauto|split; [intros []|intros [H _]; discriminate]]).
Qed.

(** Mode "map": one panel for each component, with the value of each projection center in its row and column. *)
Theorem C95_map ds ny nx pcs o annotate kw size c kw' :
  length pcs = (ny * nx)%nat ->
  plot_pc ds [ny; nx] pcs "map" o annotate kw = (Figure size c, kw') ->
  exists l, c = Maps l
    /\ map map_label l = [PCx; PCy; PCz]
    /\ forall p i j, In p l -> (i < ny)%nat -> (j < nx)%nat ->
       at_ (map_values p) i j = option_map (component (map_label p)) (nth_error pcs (i * nx + j)).
Proof.
  intros L. unfold plot_pc. destruct (fold_right Nat.mul 1%nat [ny; nx] =? 1)%nat; [discriminate|].
  cbn [existsb String.eqb Ascii.eqb Bool.eqb andb orb negb length Nat.eqb nth].
  intros E. injection E as <- <- _. eexists. split; [reflexivity|]. split; [reflexivity|].
  intros p i j Hp Hi Hj. rewrite <- (rows_of_at pcs ny nx i j L Hi Hj).
  assert (G : forall (f : pc3 -> R) (m : list (list pc3)), at_ (map (map f) m) i j = option_map f (at_ m i j)).
  { intros f m. unfold at_. rewrite nth_error_map. destruct (nth_error m i); [|reflexivity]. cbn [option_map]. now rewrite nth_error_map. }
  cbn [map_panels map In] in Hp. destruct Hp as [<-|[<-|[<-|[]]]]; cbn [map_values map_label labels component]; apply G.
Qed.

(** Mode "3d": the same in space, with PCy downwards, and the limits of the axes are the smallest with all points. *)
Theorem C95_space ds shape pcs o annotate kw size c kw' :
  pcs <> [] ->
  plot_pc ds shape pcs "3d" o annotate kw = (Figure size c, kw') ->
  exists s, c = InSpace s
    /\ points3 s = map (fun q => (component (x_label3 s) q, component (y_label3 s) q, component (z_label3 s) q)) pcs
    /\ [x_label3 s; y_label3 s; z_label3 s] = [PCx; PCz; PCy] /\ z_inverted s = true
    /\ tight (fst (fst (limits3 s))) (map (component (x_label3 s)) pcs)
    /\ tight (snd (fst (limits3 s))) (map (component (y_label3 s)) pcs)
    /\ tight (snd (limits3 s)) (map (component (z_label3 s)) pcs)
    /\ forall k xyz, In (k, xyz) (numbers3 s) <-> annotate = true /\ nth_error (points3 s) k = Some xyz.
Proof.
  intros N. unfold plot_pc. destruct (fold_right Nat.mul 1%nat shape =? 1)%nat; [discriminate|].
  cbn [existsb String.eqb Ascii.eqb Bool.eqb andb orb negb]. intros E. injection E as <- <- _.
  eexists. split; [reflexivity|]. unfold space_plot. cbn [points3 x_label3 y_label3 z_label3 limits3 numbers3 labels fst snd].
  do 3 (split; [reflexivity|]).
  assert (T : forall f : pc3 -> R, tight (min_of (map f pcs), max_of (map f pcs)) (map f pcs)).
  { intros f. apply min_max_tight. destruct pcs; [congruence|discriminate]. }
  split; [apply (T pcx)|]. split; [apply (T pcz)|]. split; [apply (T pcy)|].
  intros k xyz. destruct annotate; rewrite ?enumerate_in; [tauto|]. split; [intros []|intros [H _]; discriminate].
Qed.

(** The size of the figure is the one given, otherwise three times as wide as high or as high as wide. *)
Theorem C95_figure_size ds shape pcs mode o annotate kw size c kw' :
  plot_pc ds shape pcs mode o annotate kw = (Figure size c, kw') ->
  match figsize kw with
  | Some s => size = s
  | None => mode = "3d"%string /\ size = ds
            \/ mode <> "3d"%string /\ let m := Rmax (fst ds) (snd ds) in
              size = match o with Horizontal => (2 * m, 2 * m / 3) | Vertical => (2 * m / 3, 2 * m) end
  end.
Proof.
  unfold plot_pc. destruct (fold_right Nat.mul 1%nat shape =? 1)%nat; [discriminate|].
  destruct ((mode =? "map")%string && _); [discriminate|]. cbn [existsb].
  destruct (String.eqb_spec mode "map") as [->|M]; [|destruct (String.eqb_spec mode "scatter") as [->|M2]; [|destruct (String.eqb_spec mode "3d") as [->|M3]]];
    cbn [orb negb figsize layout]; intros E; try discriminate; injection E as <- _ _; destruct (figsize kw); cbn [setdefault]; try reflexivity;
    [right|right|left]; try (split; [discriminate|cbv zeta; destruct o; cbn [fst snd]; f_equal; field]). split; reflexivity.
Qed.

(** A dictionary of figure arguments used for two plots: the second plot gets the size of the first, as the first
    call has changed the dictionary. *)
Theorem C95_dictionary_reused_refuted ds shape pcs mode annotate kw size c kw' size' c' kw'' :
  0 < fst ds -> 0 < snd ds -> figsize kw = None -> mode <> "3d"%string ->
  plot_pc ds shape pcs mode Horizontal annotate kw = (Figure size c, kw') ->
  plot_pc ds shape pcs mode Vertical annotate kw' = (Figure size' c', kw'') ->
  kw' <> kw /\ size' = size /\ snd size' <> 3 * fst size'.
Proof.
  intros D1 D2 N M E1 E2.
  pose proof (C95_figure_size _ _ _ _ _ _ _ _ _ _ E1) as Z1. rewrite N in Z1. destruct Z1 as [[Z1 _]|[_ Z1]]; [congruence|].
  pose proof (C95_figure_size _ _ _ _ _ _ _ _ _ _ E2) as Z2.
  assert (F : figsize kw' = Some size /\ 0 < snd size).
  { revert E1. unfold plot_pc. destruct (fold_right Nat.mul 1%nat shape =? 1)%nat; [discriminate|].
    destruct ((mode =? "map")%string && _); [discriminate|]. cbn [existsb].
    pose proof (Rmax_l (fst ds) (snd ds)).
    destruct (String.eqb_spec mode "map") as [->|M1]; [|destruct (String.eqb_spec mode "scatter") as [->|M2]; [|destruct (String.eqb_spec mode "3d") as [->|M3]; [congruence|discriminate]]];
      cbn [orb negb figsize layout]; rewrite N; cbn [setdefault]; intros E; injection E as <- _ <-; cbn [figsize snd]; (split; [reflexivity|lra]). }
  destruct F as [F P]. rewrite F in Z2. split; [congruence|]. split; [exact Z2|]. rewrite Z2, Z1. rewrite Z1 in P. cbn [fst snd] in *. lra.
Qed.

(** ** Plots of fits *)

Lemma flat_map_swap {A B C} (f : A -> B -> C) l m :
  Permutation (flat_map (fun b => map (fun a => f a b) l) m) (flat_map (fun a => map (f a) m) l).
Proof.
  revert l. induction m as [|b m IH]; intros l; cbn [flat_map map].
  - induction l as [|a l IHl]; [constructor|]. cbn. exact IHl.
  - rewrite IH. clear IH. induction l as [|a l IHl]; [constructor|]. cbn [map flat_map app]. constructor.
    rewrite <- IHl. rewrite !app_assoc. apply Permutation_app_tail. apply Permutation_app_comm.
Qed.
Lemma rows_concat {A} (l : list A) ny nx d : length l = (ny * nx)%nat ->
  flat_map (fun i => map (fun j => nth (i * nx + j) l d) (seq 0 nx)) (seq 0 ny) = l.
Proof.
  revert l. induction ny as [|ny IH]; intros l H; [destruct l; [reflexivity|discriminate]|].
  cbn [seq flat_map]. rewrite <- seq_shift, flat_map_concat_map, map_map, <- flat_map_concat_map.
  transitivity (firstn nx l ++ skipn nx l); [|apply firstn_skipn]. cbn [Nat.mul] in H. assert (F : length (firstn nx l) = nx) by (rewrite firstn_length; lia). f_equal.
  - apply nth_ext with d d; [rewrite map_length, seq_length; auto|]. rewrite map_length, seq_length. intros n Hn.
    rewrite (nth_indep _ d (nth (0 * nx + 0) l d)) by (now rewrite map_length, seq_length).
    rewrite (map_nth (fun j => nth (0 * nx + j) l d)), seq_nth by exact Hn. cbn [Nat.mul Nat.add].
    transitivity (nth n (firstn nx l ++ skipn nx l) d); [now rewrite firstn_skipn|]. now rewrite app_nth1 by lia.
  - rewrite <- (IH (skipn nx l)) by (rewrite skipn_length; lia). apply flat_map_ext. intros i. apply map_ext. intros j.
    transitivity (nth (S i * nx + j) (firstn nx l ++ skipn nx l) d); [now rewrite firstn_skipn|].
    rewrite app_nth2 by (cbn [Nat.mul]; lia). f_equal. cbn [Nat.mul]. lia.
Qed.
Lemma transposed_permutation {A} shape (d : A) l : length l = fold_right Nat.mul 1%nat shape -> Permutation (transposed shape d l) l.
Proof.
  destruct shape as [|ny [|nx [|]]]; cbn [transposed]; auto. intros H. cbn [fold_right] in H. rewrite Nat.mul_1_r in H.
  rewrite (flat_map_swap (fun i j => nth (i * nx + j) l d)). now rewrite rows_concat.
Qed.

(** Every panel of the plot of fit_pc shows the projection centers, in order, and all fitted ones, each once, at the
    components its axes are labelled with; the line is drawn with the fitted slope and intercept over the fitted
    centers; the axes in space show all points of both and no more; there is a surface for maps. *)
Theorem C95_fit_plot shape pcs fitted intercept slope :
  length fitted = fold_right Nat.mul 1%nat shape -> pcs <> [] ->
  let f := plot_projection_center_fit shape pcs fitted intercept slope in
  exists fit, Permutation fit fitted
    /\ map (fun p => (fit_x p, fit_y p)) (flat f) = [(PCx, PCy); (PCx, PCz); (PCz, PCy)]
    /\ (forall p, In p (flat f) ->
          data_points p = map (fun q => (component (fit_x p) q, component (fit_y p) q)) pcs
          /\ fit_points p = map (fun q => (component (fit_x p) q, component (fit_y p) q)) fit
          /\ forall z y, In (z, y) (fit_line p) -> fit_x p = PCz /\ fit_y p = PCy /\ y = intercept + slope * z /\ In z (map pcz fitted))
    /\ (exists p, In p (flat f) /\ map fst (fit_line p) = map pcz fit)
    /\ data3 f = map (fun q => (pcx q, pcz q, pcy q)) pcs /\ fit3 f = map (fun q => (pcx q, pcz q, pcy q)) fit
    /\ tight (fst (fst (box f))) (map pcx (pcs ++ fit)) /\ tight (snd (fst (box f))) (map pcz (pcs ++ fit))
    /\ tight (snd (box f)) (map pcy (pcs ++ fit))
    /\ (has_surface f = true <-> length shape = 2%nat).
Proof.
  intros L N f. exists (transposed shape (PC 0 0 0) fitted). split; [now apply transposed_permutation|].
  unfold f, plot_projection_center_fit. cbn [flat data3 fit3 box has_surface map fst snd fit_x fit_y]. split; [reflexivity|].
  set (fit := transposed shape (PC 0 0 0) fitted).
  assert (T : forall g : pc3 -> R, tight (min_of (map g pcs ++ map g fit), max_of (map g pcs ++ map g fit)) (map g (pcs ++ fit))).
  { intros g. rewrite map_app. apply min_max_tight. destruct pcs; [congruence|discriminate]. }
  split; [|split; [|split; [reflexivity|split; [reflexivity|split; [apply T|split; [apply T|split; [apply T|apply Nat.eqb_eq]]]]]]].
  - intros p [<-|[<-|[<-|[]]]]; cbn [data_points fit_points fit_line fit_x fit_y component]; rewrite !combine_map;
      (split; [reflexivity|]; split; [reflexivity|]; intros z y H).
    1-2: destruct H.
    apply in_map_iff in H. destruct H as (q & E & I). injection E as <- <-. split; [reflexivity|]. split; [reflexivity|]. split; [reflexivity|].
    apply in_map. eapply Permutation_in; [|exact I]. now apply transposed_permutation.
  - eexists. split; [right; right; left; reflexivity|]. cbn [fit_line]. rewrite map_map. reflexivity.
Qed.

(** The plot of estimate_xtilt: all points, the outliers among them, and the fitted line from the least to the
    greatest PCz. *)
Theorem C95_tilt_plot predict pcs mask :
  pcs <> [] -> (forall m, mask = Some m -> length m = length pcs) ->
  let f := plot_xtilt_estimate predict pcs mask in
  tilt_data f = map (fun q => (component PCz q, component PCy q)) pcs
  /\ (forall zy, In zy (tilt_outliers f) <-> exists m k q, mask = Some m /\ nth_error m k = Some true /\ nth_error pcs k = Some q /\ zy = (pcz q, pcy q))
  /\ exists a b, tilt_line f = [a; b] /\ tight (fst a, fst b) (map pcz pcs) /\ snd a = predict (fst a) /\ snd b = predict (fst b).
Proof.
  intros N M f. unfold f, plot_xtilt_estimate. cbn [tilt_data tilt_outliers tilt_line]. split; [reflexivity|]. split.
  - intros zy. destruct mask as [m|].
    + rewrite in_map_iff. assert (G : forall m pcs q, In q (map snd (filter fst (combine m pcs))) <-> exists k, nth_error m k = Some true /\ nth_error pcs k = Some (q : pc3)).
      { clear. induction m as [|b m IH]; intros [|p pcs] q; cbn [combine filter map In]; try (split; [intros []|intros ([|k] & H1 & H2); discriminate]).
        destruct b; cbn [fst map In snd].
        - rewrite IH. split; [intros [->|(k & H)]; [exists 0%nat; now split|now exists (S k)]|].
          intros ([|k] & H1 & H2); cbn in H1, H2; [left; congruence|right; now exists k].
        - rewrite IH. split; [intros (k & H); now exists (S k)|]. intros ([|k] & H1 & H2); cbn in H1, H2; [discriminate|now exists k]. }
      split.
      * intros (q & <- & H). apply G in H. destruct H as (k & H1 & H2). now exists m, k, q.
      * intros (m' & k & q & E & H1 & H2 & ->). injection E as <-. exists q. split; [reflexivity|]. apply G. now exists k.
    + split; [intros []|]. intros (m & k & q & E & _). discriminate.
  - do 2 eexists. split; [reflexivity|]. cbn [fst snd]. split; [|split; reflexivity]. apply min_max_tight. destruct pcs; [congruence|discriminate].
Qed.

(** ** Pattern positions *)

Lemma update_other {A} (l : list A) k f a : a <> k -> nth_error (update l k f) a = nth_error l a.
Proof. revert k a. induction l as [|x l IH]; intros [|k] [|a] H; cbn; try reflexivity; try congruence. apply IH. congruence. Qed.
Lemma update_here {A} (l : list A) k f d : (k < length l)%nat -> nth k (update l k f) d = f (nth k l d).
Proof. revert k. induction l as [|x l IH]; intros [|k] H; cbn in *; try lia; [reflexivity|]. apply IH. lia. Qed.

(** Wherever the region of interest is drawn, the mark of each pattern is as far from its corner as the pattern is
    from the origin of the region, with its index as number; and no array of the caller is changed. *)
Theorem C95_marks_in_region {A} s rc ny nx origin area (roi_image area_image : option (list (list A))) new_axis fig s' :
  (rc < length s)%nat ->
  plot_positions s rc (ny, nx) origin area roi_image area_image new_axis = (fig, s') ->
  (exists corner,
     match roi_rectangle fig with Some (xy, wh) => corner = xy /\ wh = (nx, ny) | None => corner = (0, 0) end
     /\ length (marks fig) = length (nth rc s [])
     /\ forall k r c, nth_error (nth rc s []) k = Some (r, c) ->
        nth_error (marks fig) k = Some ((fst corner + (c - snd origin), snd corner + (r - fst origin)), k))
  /\ (forall a, (a < length s)%nat -> nth_error s' a = nth_error s a)
  /\ (roi_rectangle fig <> None <-> new_axis = true /\ area <> None)
  /\ match area with
     | Some (h, w) => if new_axis then view fig = Some ((0, w), (0, h)) else view fig = None
     | None => if new_axis then view fig = Some ((0, nx), (0, ny)) else view fig = None
     end.
Proof.
  intros Hrc. destruct origin as [o0 o1]. unfold plot_positions. cbn [fst snd].
  assert (Mk : forall (l : list (R * R)) k r c, nth_error l k = Some (r, c) ->
    nth_error (map (fun e : nat * (R * R) => ((snd (snd e), fst (snd e)), fst e)) (enumerate l)) k = Some ((c, r), k)).
  { intros l k r c H. rewrite nth_error_map, enumerate_nth, H. reflexivity. }
  assert (Cp : forall f : list (R * R) -> list (R * R), nth (length s) (update (s ++ [nth rc s []]) (length s) f) [] = f (nth rc s [])).
  { intros f. rewrite update_here by (rewrite app_length; cbn; lia). now rewrite app_nth2, Nat.sub_diag by lia. }
  assert (Ot : forall (f : list (R * R) -> list (R * R)) a, (a < length s)%nat -> nth_error (update (s ++ [nth rc s []]) (length s) f) a = nth_error s a).
  { intros f a Ha. rewrite update_other by lia. now apply nth_error_app1. }
  set (iso := if Req_EM_T o0 0 then if Req_EM_T o1 0 then true else false else false).
  assert (Iso : iso = true -> o0 = 0 /\ o1 = 0).
  { unfold iso. destruct (Req_EM_T o0 0), (Req_EM_T o1 0); intros; try discriminate; auto. }
  destruct area as [[h w]|]; [destruct new_axis|]; cbn [fst snd].
  - intros E. injection E as <- <-. cbn [roi_rectangle marks view]. split; [|split; [auto|split; [split; [intros _; split; [reflexivity|discriminate]|discriminate]|reflexivity]]].
    eexists. split; [split; reflexivity|]. split; [now rewrite map_length, enumerate_length|]. intros k r c H. cbn [fst snd].
    rewrite (Mk _ _ _ _ H). do 3 f_equal; ring.
  - destruct iso; cbn [copied fst snd]; intros E; injection E as <- <-; cbn [roi_rectangle marks view].
    + destruct (Iso eq_refl) as [-> ->]. split; [|split; [auto|split; [split; [congruence|intros [H _]; discriminate]|reflexivity]]].
      eexists. split; [reflexivity|]. split; [now rewrite map_length, enumerate_length|]. intros k r c H. rewrite (Mk _ _ _ _ H). cbn [fst snd]. do 3 f_equal; ring.
    + rewrite Cp. split; [|split; [auto|split; [split; [congruence|intros [H _]; discriminate]|reflexivity]]].
      eexists. split; [reflexivity|]. split; [now rewrite map_length, enumerate_length, map_length|]. intros k r c H.
      rewrite (Mk _ k (r - o0) (c - o1)) by (rewrite nth_error_map, H; reflexivity). cbn [fst snd]. do 3 f_equal; ring.
  - destruct iso; cbn [copied fst snd]; intros E; injection E as <- <-; cbn [roi_rectangle marks view].
    + destruct (Iso eq_refl) as [-> ->]. split; [|split; [auto|split; [split; [destruct new_axis; congruence|intros [_ H]; congruence]|destruct new_axis; reflexivity]]].
      exists (0, 0). split; [destruct new_axis; reflexivity|]. split; [now rewrite map_length, enumerate_length|]. intros k r c H. rewrite (Mk _ _ _ _ H). cbn [fst snd]. do 3 f_equal; ring.
    + rewrite Cp. split; [|split; [auto|split; [split; [destruct new_axis; congruence|intros [_ H]; congruence]|destruct new_axis; reflexivity]]].
      exists (0, 0). split; [destruct new_axis; reflexivity|]. split; [now rewrite map_length, enumerate_length, map_length|]. intros k r c H.
      rewrite (Mk _ k (r - o0) (c - o1)) by (rewrite nth_error_map, H; reflexivity). cbn [fst snd]. do 3 f_equal; ring.
Qed.

(** The images: pixel (i, j) of an image of the area with h rows and w columns is drawn i-th from the top and j-th from
    the left of the area, and likewise in the region for an image of the region. *)
Theorem C95_images {A} s rc ny nx origin area (roi_image area_image : option (list (list A))) fig s' h w m i j v :
  plot_positions s rc (ny, nx) origin area roi_image area_image true = (fig, s') ->
  of_shape m h w -> (i < h)%nat -> (j < w)%nat -> at_ m i j = Some v ->
  (forall ah aw, area = Some (ah, aw) -> area_image = Some m ->
     exists im, area_drawn fig = Some im
       /\ shows im w v (INR j * (aw / INR w)) (INR (S j) * (aw / INR w)) (INR i * (ah / INR h)) (INR (S i) * (ah / INR h)))
  /\ (roi_image = Some m ->
     exists im, roi_drawn fig = Some im
       /\ let corner := match roi_rectangle fig with Some (xy, _) => xy | None => (0, 0) end in
          shows im w v (fst corner + INR j * (nx / INR w)) (fst corner + INR (S j) * (nx / INR w))
                       (snd corner + INR i * (ny / INR h)) (snd corner + INR (S i) * (ny / INR h))).
Proof.
  intros E [Lh Lw] Hi Hj V. destruct origin as [o0 o1]. unfold plot_positions in E. cbn [fst snd] in E.
  set (iso := if Req_EM_T o0 0 then if Req_EM_T o1 0 then true else false else false) in *.
  assert (Iso : iso = true -> o0 = 0 /\ o1 = 0).
  { unfold iso. destruct (Req_EM_T o0 0), (Req_EM_T o1 0); intros; try discriminate; auto. }
  assert (Hh : INR h <> 0) by (apply not_0_INR; lia). assert (Hw : INR w <> 0) by (apply not_0_INR; lia).
  assert (Roi : forall ox oy, shows (Image m ox (ox + nx) (oy + ny) oy) w v (ox + INR j * (nx / INR w)) (ox + INR (S j) * (nx / INR w))
                       (oy + INR i * (ny / INR h)) (oy + INR (S i) * (ny / INR h))).
  { intros ox oy. exists i, j. split; [exact V|]. unfold column_edge, row_edge. cbn [left right top bottom pixels]. rewrite Lh.
    split; [|left]; f_equal; field; assumption. }
  assert (Area : forall ah aw, shows (Image (rev m) 0 aw 0 ah) w v (INR j * (aw / INR w)) (INR (S j) * (aw / INR w)) (INR i * (ah / INR h)) (INR (S i) * (ah / INR h))).
  { intros ah aw. exists (h - S i)%nat, j. split.
    - unfold at_ in *. cbn [pixels]. destruct (nth_error m i) as [row|] eqn:Er; [|discriminate].
      replace (nth_error (rev m) (h - S i)) with (Some row); [exact V|]. symmetry. rewrite nth_error_nth' with (d := []) by (rewrite rev_length; lia).
      rewrite rev_nth by lia. f_equal. rewrite Lh. replace (h - S (h - S i))%nat with i by lia. now apply nth_error_nth.
    - unfold column_edge, row_edge. cbn [left right top bottom pixels]. rewrite rev_length, Lh.
      split; [f_equal; field; assumption|]. right. replace (S (h - S i)) with (h - i)%nat by lia.
      rewrite !minus_INR by lia. f_equal; field; assumption. }
  destruct area as [[h' w']|].
  - injection E as <- <-. cbn [area_drawn roi_drawn roi_rectangle]. split.
    + intros ah aw Ea ->. injection Ea as <- <-. cbn [option_map]. eexists. split; [reflexivity|]. apply Area.
    + intros ->. cbn [option_map]. eexists. split; [reflexivity|]. cbn zeta. cbn [fst snd]. apply Roi.
  - split; [intros; discriminate|]. intros ->. destruct iso; cbn [copied fst snd] in E; injection E as <- <-; cbn [roi_drawn roi_rectangle option_map];
      (eexists; split; [reflexivity|]); cbn zeta; cbn [fst snd].
    + destruct (Iso eq_refl) as [-> ->]. apply Roi.
    + apply Roi.
Qed.

(** If the images have one pixel for each position, the mark of a pattern is on the corner of its own pixel. *)
Theorem C95_marks_on_their_pixels {A} s rc area_im roi_im h w rh rw r0 c0 r c k fig s' (v : A) :
  (rc < length s)%nat -> of_shape area_im h w -> (r < h)%nat -> (c < w)%nat ->
  nth_error (nth rc s []) k = Some (INR r, INR c) -> at_ area_im r c = Some v ->
  plot_positions s rc (INR rh, INR rw) (INR r0, INR c0) (Some (INR h, INR w)) roi_im (Some area_im) true = (fig, s') ->
  exists im x y, area_drawn fig = Some im /\ nth_error (marks fig) k = Some ((x, y), k) /\ shows im w v x (x + 1) y (y + 1).
Proof.
  intros Hrc Sh Hr Hc K V E.
  destruct (C95_images s rc _ _ _ _ _ _ fig s' h w area_im r c v E Sh Hr Hc V) as [H _].
  destruct (H _ _ eq_refl eq_refl) as (im & D & S).
  destruct (C95_marks_in_region s rc _ _ _ _ _ _ _ fig s' Hrc E) as [(corner & Rt & _ & Mk) _]. specialize (Mk k _ _ K). cbn [fst snd] in Mk.
  assert (Rr : roi_rectangle fig = Some ((INR c0, INR r0), (INR rw, INR rh))).
  { unfold plot_positions in E. cbn [fst snd] in E. now injection E as <- _. }
  rewrite Rr in Rt. destruct Rt as [-> _]. cbn [fst snd] in Mk.
  exists im, (INR c), (INR r). split; [exact D|]. split.
  - rewrite Mk. do 3 f_equal; ring.
  - assert (INR h <> 0) by (apply not_0_INR; lia). assert (INR w <> 0) by (apply not_0_INR; lia).
    rewrite !S_INR in S. replace (INR c * (INR w / INR w)) with (INR c) in S by (field; assumption).
    replace ((INR c + 1) * (INR w / INR w)) with (INR c + 1) in S by (field; assumption).
    replace (INR r * (INR h / INR h)) with (INR r) in S by (field; assumption).
    replace ((INR r + 1) * (INR h / INR h)) with (INR r + 1) in S by (field; assumption). exact S.
Qed.

(** ** Cases *)
Example C95_scatter_case : exists l kw, plot_pc (6, 4) [2%nat] [PC (4/10) (2/10) (5/10); PC (41/100) (21/100) (51/100)] "scatter" Vertical true (FigureKwargs None None)
  = (Figure (2 * (Rmax 6 4 / 3), 6 * (Rmax 6 4 / 3)) (Scatters l), kw) /\ length l = 3%nat.
Proof. do 2 eexists. split; reflexivity. Qed.
Example C95_map_refused : fst (plot_pc (6, 4) [2%nat] [PC 0 0 0; PC 1 1 1] "map" Vertical true (FigureKwargs None None)) = Refused.
Proof. apply C95_when_refused. right. left. split; [reflexivity|discriminate]. Qed.
Example C95_marks_case : exists fig s', plot_positions [[(2, 3); (4, 5)]] 0 (2, 2) (1, 1) None (@None (list (list nat))) None true = (fig, s')
  /\ marks fig = [((3 - 1, 2 - 1), 0%nat); ((5 - 1, 4 - 1), 1%nat)] /\ nth 0 s' [] = [(2, 3); (4, 5)].
Proof.
  do 2 eexists. unfold plot_positions. cbn [fst snd]. destruct (Req_EM_T 1 0); [lra|]. cbn [copied]. split; [reflexivity|]. split; reflexivity.
Qed.

Print Assumptions C95_scatter.
Print Assumptions C95_marks_on_their_pixels.
