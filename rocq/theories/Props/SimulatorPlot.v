(** Plots of reflectors: property C101. *)
From Coq Require Import String List Arith Reals Bool Lra Lia Permutation.
From Verif Require Import Model.Binary Model.Detector Model.Lambert Model.SimulatorPlot Spec.Euler Spec.KikuchiBandIntensity Spec.SimulatorPlotSpec.
From Verif Require Import Model.KinematicalMaster.
From Verif Require Props.KinematicalMaster.
Import ListNotations.
Local Open Scope R_scope.

Notation stand_for := Props.KinematicalMaster.stand_for.
Definition sorts (argsort : list R -> list nat) : Prop :=
  forall l, Permutation (argsort l) (seq 0 (List.length l)) /\ ascending (take 0 l (argsort l)).

(** ** Lists *)
Lemma take_seq {A} (d : A) l : take d l (seq 0 (List.length l)) = l.
Proof.
  unfold take. apply nth_ext with (d := d) (d' := d); rewrite map_length, seq_length; [reflexivity|].
  intros n H. rewrite nth_indep with (d' := nth 0 l d) by (now rewrite map_length, seq_length).
  rewrite map_nth with (f := fun i => nth i l d) (d := 0%nat). now rewrite seq_nth.
Qed.
Lemma take_perm {A} (d : A) l order : Permutation order (seq 0 (List.length l)) -> Permutation (take d l order) l.
Proof. intros P. rewrite <- (take_seq d l) at 2. unfold take. now apply Permutation_map. Qed.
Lemma take_map {A B} (f : A -> B) d d' l order : Forall (fun i => (i < List.length l)%nat) order -> take d' (map f l) order = map f (take d l order).
Proof.
  intros F. unfold take. rewrite map_map. apply map_ext_in. intros i Hi. rewrite Forall_forall in F.
  rewrite (nth_indep _ d' (f d)) by (rewrite map_length; auto). apply map_nth.
Qed.
Lemma order_bounds order n : Permutation order (seq 0 n) -> Forall (fun i => (i < n)%nat) order.
Proof. intros P. apply Forall_forall. intros i H. apply (Permutation_in _ P) in H. apply in_seq in H. lia. Qed.
Lemma ascending_repeat x n : ascending (repeat x n).
Proof. induction n; cbn; constructor; auto. apply Forall_forall. intros y H. apply repeat_spec in H. subst. lra. Qed.
Lemma maximum_largest l : l <> [] -> largest (maximum l) l.
Proof.
  induction l as [|x [|y r] IH]; intros N; [contradiction| |].
  - split; [now left|]. constructor; [cbn; lra|constructor].
  - destruct IH as [I F]; [discriminate|]. change (maximum (x :: y :: r)) with (Rmax x (maximum (y :: r))). split.
    + unfold Rmax. destruct (Rle_dec _ _); [now right|now left].
    + constructor; [apply Rmax_l|]. eapply Forall_impl; [|exact F]. intros z Hz. cbv beta in *. eapply Rle_trans; [exact Hz|apply Rmax_r].
Qed.
Lemma largest_unique x y l : largest x l -> largest y l -> x = y.
Proof. intros [Ix Fx] [Iy Fy]. rewrite Forall_forall in *. pose proof (Fx y Iy). pose proof (Fy x Ix). cbv beta in *. lra. Qed.
Lemma combine_maps {A B C} (f : A -> B) (g : A -> C) l : combine (map f l) (map g l) = map (fun a => (f a, g a)) l.
Proof. induction l; simpl; congruence. Qed.
Lemma map_combine_maps {A B C D} (f : A -> B) (g : A -> C) (h : B * C -> D) l : map h (combine (map f l) (map g l)) = map (fun a => h (f a, g a)) l.
Proof. now rewrite combine_maps, map_map. Qed.

(** ** The reflectors in the order they are drawn *)
Section Plot.
Variables (argsort : list R -> list nat) (circle : vec -> R -> list vec) (to_rgb : string -> option rgb) (phase_rgb : rgb).
Hypothesis argsort_sorts : sorts argsort.

Definition known_scaling (scaling : option string) : Prop := scaling = None \/ scaling = Some "linear"%string \/ scaling = Some "square"%string.
Definition chosen_colour (color : string) : option rgb := if (color =? "phase")%string then Some phase_rgb else to_rgb color.

Lemma plot_sorted r planes projection mode hemisphere scaling existing backend color linewidth c m :
  known_scaling scaling -> stand_for r scaling planes -> (mode = "lines" \/ mode = "bands")%string ->
  chosen_colour color = Some c -> largest m (map strength planes) ->
  exists qs, Permutation qs planes /\ ascending (map strength qs) /\
    plot argsort circle to_rgb phase_rgb r projection mode hemisphere scaling existing backend color linewidth =
    let shade := map (fun p => (c, strength p / m)) qs in
    if (projection =? "stereographic")%string then
      let linewidth := Some (match linewidth with Some w => w | None => 0.5 end) in
      let hemisphere := if existing then None else Some hemisphere in
      if (mode =? "lines")%string then
        Some (Circles (map (fun p => (normal p, PI / 2, (c, strength p / m))) qs) hemisphere linewidth)
      else Some (Circles (map (fun p => (normal p, PI / 2 - bragg p, (c, strength p / m))) qs
                          ++ map (fun p => (normal p, PI / 2 + bragg p, (c, strength p / m))) qs) hemisphere linewidth)
    else if (projection =? "spherical")%string then
      Some (plot_spherical circle mode (map normal qs) (map bragg qs) shade backend existing (match scaling with None => false | Some _ => true end) (map strength qs))
    else None.
Proof.
  intros Hs (Hv & Ht & fs & Hf & H2) Hm Hc L.
  assert (MO : (negb ((mode =? "lines")%string || (mode =? "bands")%string) = false)) by (destruct Hm as [->| ->]; reflexivity).
  set (n := List.length planes). set (ws := map strength planes).
  assert (IO : exists order, Permutation order (seq 0 n) /\ ascending (take 0 ws order) /\
    (match scaling with
     | None => Some (repeat 1 (List.length (vectors r)), seq 0 (List.length (vectors r)))
     | Some _ => let? intensity := intensities scaling (match factors r with Some f => f | None => [] end) in Some (intensity, argsort intensity)
     end) = Some (ws, order) /\ (scaling = None -> ws = repeat 1 n)).
  { destruct Hs as [->|Hs].
    - exists (seq 0 n). assert (W : ws = repeat 1 n).
      { unfold ws, n. clear - H2. revert fs H2. induction planes as [|p l IH]; intros fs H2; cbn; [reflexivity|].
        cbn in H2. inversion H2 as [|f' ? fs' ? S F]; subst. rewrite (IH fs' F). f_equal.
        destruct S as [[S _]|[[S _]|[_ S]]]; try discriminate S. exact S. }
      split; [reflexivity|]. split.
      + replace n with (List.length ws) by (unfold ws; now rewrite map_length). rewrite take_seq, W. apply ascending_repeat.
      + split; [|auto]. rewrite Hv, map_length, W. reflexivity.
    - exists (argsort ws). destruct (argsort_sorts ws) as [P A]. split; [unfold ws, n in *; now rewrite map_length in P|]. split; [exact A|].
      assert (I : intensities scaling fs = Some ws) by (apply Props.KinematicalMaster.intensities_eq; [right; exact Hs|exact H2]).
      split; [|destruct Hs as [->| ->]; discriminate].
      destruct Hs as [->| ->]; rewrite Hf, I; reflexivity. }
  destruct IO as (order & P & A & E & W1).
  pose proof (order_bounds _ _ P) as OB.
  set (d := Plane origin 0 0). set (qs := take d planes order).
  assert (Q : forall {B} (f : plane -> B) (b : B), take b (map f planes) order = map f qs).
  { intros B f b. apply take_map. exact OB. }
  exists qs. split; [apply take_perm; exact P|]. split; [rewrite <- (Q _ strength 0); exact A|].
  unfold plot. rewrite MO.
  assert (TH : ((mode =? "bands")%string && match thetas r with None => true | Some _ => false end)%bool = false) by (rewrite Ht; apply andb_false_r).
  rewrite TH. cbv zeta. rewrite E. cbn [bind]. unfold chosen_colour in Hc. rewrite Hc. cbn [bind].
  assert (SC : (match scaling with Some _ => map (fun i => i / maximum ws) ws | None => ws end) = map (fun p => strength p / m) planes).
  { assert (M : maximum ws = m).
    { apply (largest_unique _ _ ws); [|exact L]. apply maximum_largest. intros Q'. destruct L as [L _]. fold ws in L. rewrite Q' in L. destruct L. }
    destruct scaling; [unfold ws in *; rewrite map_map, M; reflexivity|].
    unfold ws in *. rewrite (W1 eq_refl) in *. destruct L as [L _]. apply repeat_spec in L. subst m.
    rewrite <- (W1 eq_refl). apply map_ext. intros p. field. }
  rewrite SC. rewrite (map_map (fun p => strength p / m) (fun i => (c, i))). rewrite (Q _ (fun p => (c, strength p / m))).
  rewrite Hv, (Q _ normal), Ht, (Q _ bragg). unfold ws. rewrite (Q _ strength).
  destruct (projection =? "stereographic")%string.
  - destruct (mode =? "lines")%string.
    + rewrite map_combine_maps. reflexivity.
    + rewrite combine_maps, !map_combine_maps. reflexivity.
  - reflexivity.
Qed.

(** Stereographic projection: every reflector is drawn once, weakest first, as the line of its plane (the great circle 90
    degrees from its normal) in the given colour, its opacity the ratio of its intensity to the largest. *)
Theorem C101_lines r planes hemisphere scaling existing backend color linewidth c m :
  known_scaling scaling -> stand_for r scaling planes -> chosen_colour color = Some c -> largest m (map strength planes) ->
  exists qs, Permutation qs planes /\ ascending (map strength qs) /\
    plot argsort circle to_rgb phase_rgb r "stereographic" "lines" hemisphere scaling existing backend color linewidth =
    Some (Circles (map (fun p => (normal p, PI / 2, (c, strength p / m))) qs) (if existing then None else Some hemisphere)
            (Some (match linewidth with Some w => w | None => 1 / 2 end))).
Proof.
  intros Hs St Hc L. destruct (plot_sorted r planes "stereographic" "lines" hemisphere scaling existing backend color linewidth c m) as (qs & P & A & E); auto.
  exists qs. rewrite E. repeat split; auto. cbn. destruct linewidth; repeat f_equal. lra.
Qed.
(** Or as the two edges of its band, at the Bragg angle on either side. *)
Theorem C101_bands r planes hemisphere scaling existing backend color linewidth c m :
  known_scaling scaling -> stand_for r scaling planes -> chosen_colour color = Some c -> largest m (map strength planes) ->
  exists qs, Permutation qs planes /\ ascending (map strength qs) /\
    plot argsort circle to_rgb phase_rgb r "stereographic" "bands" hemisphere scaling existing backend color linewidth =
    Some (Circles (map (fun p => (normal p, PI / 2 - bragg p, (c, strength p / m))) qs
                   ++ map (fun p => (normal p, PI / 2 + bragg p, (c, strength p / m))) qs)
            (if existing then None else Some hemisphere) (Some (match linewidth with Some w => w | None => 1 / 2 end))).
Proof.
  intros Hs St Hc L. destruct (plot_sorted r planes "stereographic" "bands" hemisphere scaling existing backend color linewidth c m) as (qs & P & A & E); auto.
  exists qs. rewrite E. repeat split; auto. cbn. destruct linewidth; repeat f_equal. lra.
Qed.

(** On the sphere with Matplotlib the same circles, curve by curve. *)
Theorem C101_sphere_curves r planes mode hemisphere scaling existing color linewidth c m :
  known_scaling scaling -> stand_for r scaling planes -> (mode = "lines" \/ mode = "bands")%string -> chosen_colour color = Some c -> largest m (map strength planes) ->
  exists qs, Permutation qs planes /\ ascending (map strength qs) /\
    plot argsort circle to_rgb phase_rgb r "spherical" mode hemisphere scaling existing "matplotlib" color linewidth =
    Some (Curves (flat_map (fun p =>
      map (fun opening => (circle (normalise (normal p)) opening, (c, strength p / m)))
        (if (mode =? "lines")%string then [PI / 2] else [PI / 2 - bragg p; PI / 2 + bragg p])) qs)).
Proof.
  intros Hs St Hm Hc L. destruct (plot_sorted r planes "spherical" mode hemisphere scaling existing "matplotlib" color linewidth c m) as (qs & P & A & E); auto.
  exists qs. rewrite E. repeat split; auto. cbn [String.eqb Ascii.eqb Bool.eqb]. cbv zeta. f_equal. unfold plot_spherical. cbv zeta. cbn [String.eqb Ascii.eqb Bool.eqb].
  f_equal. destruct Hm as [->| ->]; cbn [String.eqb Ascii.eqb Bool.eqb].
  - rewrite !map_map, combine_maps, flat_map_concat_map. clear. induction qs as [|p qs IH]; [reflexivity|]. cbn [map concat app]. cbn [map] in IH. now rewrite IH.
  - rewrite ?map_map, combine_maps, ?map_map, ?combine_maps, ?map_map, ?combine_maps. cbn [fst snd].
    clear. induction qs as [|p qs IH]; [reflexivity|]. cbn [map flat_map app fst snd]. rewrite IH. reflexivity.
Qed.

(** Lines of the mesh made for PyVista: each goes through the points of one row. *)
Lemma connects_rows n : forall k rows, connects (flat_map (fun k => n :: seq (k * n) n) (seq k rows)) (map (fun k => seq (k * n) n) (seq k rows)).
Proof.
  intros k rows. revert k. induction rows as [|rows IH]; intros k; cbn [seq flat_map map]; [constructor|].
  pose proof (connects_cons (seq (k * n) n) _ _ (IH (S k))) as C. rewrite seq_length in C. exact C.
Qed.
Lemma nth_rows {A} n : forall (rows : list (list A)), Forall (fun r => List.length r = n) rows ->
  map (fun k => map (nth_error (concat rows)) (seq (k * n) n)) (seq 0 (List.length rows)) = map (map Some) rows.
Proof.
  induction rows as [|r rows IH]; intros F; [reflexivity|]. inversion F as [|? ? Hr Fr]; subst.
  cbn [List.length seq map]. f_equal.
  - cbn [Nat.mul concat]. assert (G : forall (l t : list A) pre, map (nth_error (pre ++ l ++ t)) (seq (List.length pre) (List.length l)) = map Some l).
    { induction l as [|x l IHl]; intros t pre; [reflexivity|]. cbn [List.length seq map]. f_equal.
      - rewrite nth_error_app2, Nat.sub_diag by lia. reflexivity.
      - specialize (IHl t (pre ++ [x])). rewrite app_length in IHl. cbn [List.length] in IHl. rewrite Nat.add_1_r, <- app_assoc in IHl. exact IHl. }
    apply (G r (concat rows) []).
  - rewrite <- IH by exact Fr. rewrite <- seq_shift, map_map. apply map_ext. intros k. cbn [concat].
    cbn [Nat.mul]. assert (G : forall s m, map (nth_error (r ++ concat rows)) (seq (List.length r + s) m) = map (nth_error (concat rows)) (seq s m)).
    { intros s m. revert s. induction m as [|m IHm]; intros s; [reflexivity|]. cbn [seq map]. f_equal.
      - rewrite nth_error_app2 by lia. f_equal. lia.
      - rewrite <- IHm. f_equal. f_equal. lia. }
    apply G.
Qed.

(** With PyVista, one mesh: its k-th line goes through the points of the circle of the reflector whose intensity is its
    k-th value, at a radius of 1.01 in a figure which already has a sphere. *)
Theorem C101_sphere_mesh r planes mode hemisphere scaling existing color linewidth c m :
  known_scaling scaling -> stand_for r scaling planes -> (mode = "lines" \/ mode = "bands")%string -> chosen_colour color = Some c -> largest m (map strength planes) ->
  (forall v opening, List.length (circle v opening) = 101%nat) ->
  exists qs points lines scalars ids, Permutation qs planes /\ ascending (map strength qs) /\
    plot argsort circle to_rgb phase_rgb r "spherical" mode hemisphere scaling existing "pyvista" color linewidth =
      Some (Mesh points lines scalars (match scaling with None => None | Some _ => Some (0, m) end)) /\
    connects lines ids /\ List.length ids = List.length scalars /\
    combine (map (map (nth_error points)) ids) scalars =
    let curve opening p := map (fun v => Some (if existing then from_polar (101 / 100) v else v)) (circle (normalise (normal p)) opening) in
    if (mode =? "lines")%string then map (fun p => (curve (PI / 2) p, strength p)) qs
    else map (fun p => (curve (PI / 2 - bragg p) p, strength p)) qs ++ map (fun p => (curve (PI / 2 + bragg p) p, strength p)) qs.
Proof.
  intros Hs St Hm Hc L Hl. destruct (plot_sorted r planes "spherical" mode hemisphere scaling existing "pyvista" color linewidth c m) as (qs & P & A & E); auto.
  set (f := fun v => if existing then from_polar (101 / 100) v else v).
  set (row := fun opening p => map f (circle (normalise (normal p)) opening)).
  set (rows := if (mode =? "lines")%string then map (row (PI / 2)) qs
               else map (fun p => row (PI / 2 - bragg p) p) qs ++ map (fun p => row (PI / 2 + bragg p) p) qs).
  set (scalars := if (mode =? "lines")%string then map strength qs else map strength qs ++ map strength qs).
  assert (R101 : Forall (fun r => List.length r = 101%nat) rows).
  { unfold rows, row. apply Forall_forall. intros l I. destruct (mode =? "lines")%string; [|apply in_app_or in I; destruct I as [I|I]];
      apply in_map_iff in I; destruct I as (p & <- & _); rewrite map_length; apply Hl. }
  assert (LR : List.length rows = List.length scalars).
  { unfold rows, scalars. destruct (mode =? "lines")%string; rewrite ?app_length, !map_length; reflexivity. }
  exists qs, (concat rows), (flat_map (fun k => steps :: seq (k * steps) steps) (seq 0 (List.length rows))), scalars,
    (map (fun k => seq (k * steps) steps) (seq 0 (List.length rows))).
  split; [exact P|]. split; [exact A|]. split; [|split; [apply connects_rows|split]].
  - rewrite E. cbn [String.eqb Ascii.eqb Bool.eqb]. cbv zeta. f_equal. unfold plot_spherical. cbv zeta. cbn [String.eqb Ascii.eqb Bool.eqb].
    assert (RW : concat (if existing then map (map (map (from_polar 1.01)))
        (if (mode =? "lines")%string then [map (fun v => circle v (PI / 2)) (map normalise (map normal qs))]
         else [map (fun vt => circle (fst vt) (PI / 2 - snd vt)) (combine (map normalise (map normal qs)) (map bragg qs));
               map (fun vt => circle (fst vt) (PI / 2 + snd vt)) (combine (map normalise (map normal qs)) (map bragg qs))])
       else (if (mode =? "lines")%string then [map (fun v => circle v (PI / 2)) (map normalise (map normal qs))]
         else [map (fun vt => circle (fst vt) (PI / 2 - snd vt)) (combine (map normalise (map normal qs)) (map bragg qs));
               map (fun vt => circle (fst vt) (PI / 2 + snd vt)) (combine (map normalise (map normal qs)) (map bragg qs))])) = rows).
    { assert (N : (1.01 = 101 / 100)%R) by lra.
      unfold rows, row, f. rewrite N. rewrite (map_map normal normalise), combine_maps, !map_map. cbn [fst snd].
      destruct existing, (mode =? "lines")%string; cbn [map concat]; rewrite ?app_nil_r, ?map_map; try reflexivity;
        [|f_equal]; apply map_ext; intros p; symmetry; apply map_id. }
    rewrite RW. f_equal.
    destruct scaling; [|reflexivity]. f_equal. f_equal. apply (largest_unique _ _ scalars).
    + apply maximum_largest. intros Z. rewrite Z in LR. apply length_zero_iff_nil in LR.
      assert (Hq : qs = []).
      { unfold rows in LR. destruct (mode =? "lines")%string; [|apply app_eq_nil in LR; destruct LR as [LR _]]; destruct qs; auto; discriminate LR. }
      subst qs. apply Permutation_nil in P. subst planes. destruct L as [[] _].
    + assert (LQ : largest m (map strength qs)).
      { destruct L as [I F]. split; [apply (Permutation_in _ (Permutation_map strength (Permutation_sym P))); exact I|].
        eapply Permutation_Forall; [apply Permutation_map; symmetry; exact P|exact F]. }
      unfold scalars. destruct (mode =? "lines")%string; [exact LQ|]. destruct LQ as [I F]. split; [apply in_or_app; now left|now apply Forall_app].
  - rewrite map_length, seq_length. exact LR.
  - rewrite map_map, (nth_rows steps rows R101). unfold rows, scalars, row, f. cbv zeta.
    destruct (mode =? "lines")%string.
    + rewrite map_map, combine_maps. apply map_ext. intros p. now rewrite map_map.
    + rewrite map_app, !map_map.
      assert (CA : forall {X Y} (a a' : list X) (b b' : list Y), List.length a = List.length b -> combine (a ++ a') (b ++ b') = combine a b ++ combine a' b').
      { clear. intros X Y a. induction a as [|x a IH]; intros a' [|y b] b' H; try discriminate; cbn; auto. rewrite IH; auto. }
      rewrite CA by (now rewrite !map_length). rewrite !combine_maps. f_equal; apply map_ext; intros p; now rewrite map_map.
Qed.

(** Above the sphere of an existing figure a point of a curve is in the same direction, at the given distance from the centre of the sphere. *)
Theorem C101_over_an_existing_sphere radial v : dot3 v v = 1 -> from_polar radial v = Vec (radial * vx v) (radial * vy v) (radial * vz v).
Proof.
  intros H. unfold from_polar. replace (normalise v) with v; [reflexivity|]. unfold normalise, norm.
  replace (vx v * vx v + vy v * vy v + vz v * vz v) with 1 by (unfold dot3 in H; lra). rewrite sqrt_1. destruct v as [a b c]. cbn [vx vy vz]. f_equal; field.
Qed.


(** Without a documented value of an option the plot is refused, and otherwise it is not. *)
Theorem C101_refused_iff r fs planes projection mode hemisphere scaling existing backend color linewidth :
  vectors r = map normal planes -> factors r = Some fs ->
  (plot argsort circle to_rgb phase_rgb r projection mode hemisphere scaling existing backend color linewidth = None <->
   (projection <> "stereographic" /\ projection <> "spherical")%string \/ (mode <> "lines" /\ mode <> "bands")%string \/
   ~ known_scaling scaling \/ (mode = "bands"%string /\ thetas r = None) \/ chosen_colour color = None).
Proof.
  intros Hv Hf. unfold plot, chosen_colour, known_scaling. cbv zeta.
  destruct (String.eqb_spec mode "lines") as [M1|M1], (String.eqb_spec mode "bands") as [M2|M2]; cbn [orb negb andb]; [congruence| | |split; auto].
  - assert (IS : (exists io, (match scaling with
       | None => Some (repeat 1 (List.length (vectors r)), seq 0 (List.length (vectors r)))
       | Some _ => let? intensity := intensities scaling (match factors r with Some f => f | None => [] end) in Some (intensity, argsort intensity)
       end) = Some io /\ known_scaling scaling) \/ ((match scaling with
       | None => Some (repeat 1 (List.length (vectors r)), seq 0 (List.length (vectors r)))
       | Some _ => let? intensity := intensities scaling (match factors r with Some f => f | None => [] end) in Some (intensity, argsort intensity)
       end) = None /\ ~ known_scaling scaling)).
    { destruct scaling as [s|]; [|left; eexists; split; [reflexivity|now left]]. unfold known_scaling, intensities.
      destruct (String.eqb_spec s "linear") as [->|S1]; [left; eexists; split; [reflexivity|auto]|].
      destruct (String.eqb_spec s "square") as [->|S2]; [left; eexists; split; [reflexivity|auto]|].
      right. split; [reflexivity|]. intros [Q|[Q|Q]]; congruence. }
    destruct IS as [([i o] & -> & K)|[-> K]]; cbn [bind]; [|split; auto].
    destruct (if (color =? "phase")%string then Some phase_rgb else to_rgb color) as [c|]; cbn [bind]; [|split; auto 6].
    destruct (String.eqb_spec projection "stereographic") as [->|P1]; [split; [discriminate|]|].
    + intros [[Q _]|[[Q _]|[Q|[[Q _]|Q]]]]; [congruence|congruence|elim (Q K)|congruence|congruence].
    + destruct (String.eqb_spec projection "spherical") as [->|P2]; [split; [discriminate|]|split; auto].
      intros [[_ Q]|[[Q _]|[Q|[[Q _]|Q]]]]; first [congruence|elim (Q K)].
  - destruct (thetas r) as [ts|]; cbn [andb]; [|split; auto 6].
    assert (IS : (exists io, (match scaling with
       | None => Some (repeat 1 (List.length (vectors r)), seq 0 (List.length (vectors r)))
       | Some _ => let? intensity := intensities scaling (match factors r with Some f => f | None => [] end) in Some (intensity, argsort intensity)
       end) = Some io /\ known_scaling scaling) \/ ((match scaling with
       | None => Some (repeat 1 (List.length (vectors r)), seq 0 (List.length (vectors r)))
       | Some _ => let? intensity := intensities scaling (match factors r with Some f => f | None => [] end) in Some (intensity, argsort intensity)
       end) = None /\ ~ known_scaling scaling)).
    { destruct scaling as [s|]; [|left; eexists; split; [reflexivity|now left]]. unfold known_scaling, intensities.
      destruct (String.eqb_spec s "linear") as [->|S1]; [left; eexists; split; [reflexivity|auto]|].
      destruct (String.eqb_spec s "square") as [->|S2]; [left; eexists; split; [reflexivity|auto]|].
      right. split; [reflexivity|]. intros [Q|[Q|Q]]; congruence. }
    destruct IS as [([i o] & -> & K)|[-> K]]; cbn [bind]; [|split; auto].
    destruct (if (color =? "phase")%string then Some phase_rgb else to_rgb color) as [c|]; cbn [bind]; [|split; auto 6].
    destruct (String.eqb_spec projection "stereographic") as [->|P1]; [split; [discriminate|]|].
    + intros [[Q _]|[[_ Q]|[Q|[[_ Q]|Q]]]]; first [congruence|elim (Q K)].
    + destruct (String.eqb_spec projection "spherical") as [->|P2]; [split; [discriminate|]|split; auto].
      intros [[_ Q]|[[_ Q]|[Q|[[_ Q]|Q]]]]; first [congruence|elim (Q K)].
Qed.
(** Bragg angles are not needed for lines, nor structure factors if all reflectors are shown alike. *)
Theorem C101_needs_only_what_it_shows vs ts ts' fs fs' projection hemisphere scaling existing backend color linewidth :
  plot argsort circle to_rgb phase_rgb (Reflectors vs ts fs) projection "lines" hemisphere scaling existing backend color linewidth
  = plot argsort circle to_rgb phase_rgb (Reflectors vs ts' fs) projection "lines" hemisphere scaling existing backend color linewidth /\
  forall mode, plot argsort circle to_rgb phase_rgb (Reflectors vs ts fs) projection mode hemisphere None existing backend color linewidth
  = plot argsort circle to_rgb phase_rgb (Reflectors vs ts fs') projection mode hemisphere None existing backend color linewidth.
Proof. split; reflexivity. Qed.
(** But the backend is not looked at in this way: any other than Matplotlib is PyVista. *)
Theorem C101_unknown_backend_refuted r projection mode hemisphere scaling existing backend color linewidth : backend <> "matplotlib"%string ->
  plot argsort circle to_rgb phase_rgb r projection mode hemisphere scaling existing backend color linewidth
  = plot argsort circle to_rgb phase_rgb r projection mode hemisphere scaling existing "pyvista" color linewidth.
Proof. intros N. unfold plot, plot_spherical. destruct (String.eqb_spec backend "matplotlib"); [contradiction|reflexivity]. Qed.
End Plot.

(** ** What the circles are *)

Lemma length3_pos n : n <> Vec 0 0 0 -> 0 < length3 n.
Proof.
  intros N. unfold length3. apply sqrt_lt_R0. unfold dot3. destruct n as [x y z]. cbn [vx vy vz] in *.
  destruct (Req_EM_T x 0) as [->|]; [|nra]. destruct (Req_EM_T y 0) as [->|]; [|nra]. destruct (Req_EM_T z 0) as [->|]; [contradiction|nra].
Qed.
(** The line of a plane is where the plane through the origin meets the sphere ... *)
Theorem C101_line_is_the_plane p v : normal p <> Vec 0 0 0 -> dot3 v v = 1 -> (on_circle (normal p) (PI / 2) v <-> elevation p v = 0).
Proof.
  intros N V. pose proof (length3_pos _ N) as P. unfold on_circle, elevation. rewrite cos_PI2, Rmult_0_r. split.
  - intros [_ ->]. unfold Rdiv. ring.
  - intros E. split; [exact V|]. apply (Rmult_eq_reg_r (/ length3 (normal p))); [|apply Rinv_neq_0_compat; lra]. unfold Rdiv in E. lra.
Qed.
(** ... and the two circles of a band are the edges of the band which a simulated master pattern shows. *)
Theorem C101_circles_are_band_edges p v : normal p <> Vec 0 0 0 -> dot3 v v = 1 -> 0 <= bragg p <= PI / 2 ->
  (on_circle (normal p) (PI / 2 - bragg p) v \/ on_circle (normal p) (PI / 2 + bragg p) v <-> Rabs (elevation p v) = sin (bragg p)).
Proof.
  intros N V B. pose proof (length3_pos _ N) as P. unfold on_circle, elevation.
  rewrite cos_shift. replace (cos (PI / 2 + bragg p)) with (- sin (bragg p)) by (rewrite sin_cos; ring).
  assert (S : 0 <= sin (bragg p)) by (apply sin_ge_0; lra).
  set (d := dot3 (normal p) v). set (s := sin (bragg p)) in *. set (l := length3 (normal p)) in *. clearbody d s l. split.
  - intros [[_ ->]|[_ ->]]; [replace (l * s / l) with s by (field; lra)|replace (l * - s / l) with (- s) by (field; lra); rewrite Rabs_Ropp]; apply Rabs_pos_eq; exact S.
  - unfold Rabs. destruct (Rcase_abs (d / l)) as [C|C]; intros E; [right|left]; split; auto;
      (assert (D : d = (d / l) * l) by (field; lra)); rewrite D; [replace (d / l) with (- s) by lra|rewrite E]; ring.
Qed.
(** A reflector and its opposite, both among the reflectors of a crystal, give the same circles. *)
Theorem C101_opposite_reflectors p v :
  (on_circle (normal (other_side p)) (PI / 2) v <-> on_circle (normal p) (PI / 2) v) /\
  (on_circle (normal (other_side p)) (PI / 2 - bragg (other_side p)) v <-> on_circle (normal p) (PI / 2 + bragg p) v).
Proof.
  assert (L : length3 (negated (normal p)) = length3 (normal p)) by (unfold length3, negated, dot3; cbn [vx vy vz]; f_equal; ring).
  assert (D : dot3 (negated (normal p)) v = - dot3 (normal p) v) by (unfold dot3, negated; cbn [vx vy vz]; ring).
  unfold on_circle, other_side. cbn [normal bragg]. rewrite L, D, cos_PI2, cos_shift.
  replace (cos (PI / 2 + bragg p)) with (- sin (bragg p)) by (rewrite sin_cos; ring).
  split; split; intros [A B]; split; auto; lra.
Qed.

(** ** A concrete case: a permutation which sorts, three planes of which the last is the weakest *)
Fixpoint put (keys : list R) (i : nat) (l : list nat) : list nat :=
  match l with [] => [i] | j :: r => if Rle_dec (nth i keys 0) (nth j keys 0) then i :: l else j :: put keys i r end.
Definition insertion (keys : list R) : list nat := fold_right (put keys) [] (seq 0 (List.length keys)).
Lemma put_perm keys i l : Permutation (put keys i l) (i :: l).
Proof. induction l as [|j r IH]; cbn; [auto|]. destruct (Rle_dec _ _); [auto|]. rewrite IH. apply perm_swap. Qed.
Lemma put_ascending keys i l : ascending (take 0 keys l) -> ascending (take 0 keys (put keys i l)).
Proof.
  induction l as [|j r IH]; intros A; cbn [put]; [repeat constructor|]. cbn [take map] in A. inversion A as [|? ? F A']; subst.
  destruct (Rle_dec _ _) as [L|L].
  - unfold take. cbn [map]. constructor; [|exact A]. constructor; [exact L|]. eapply Forall_impl; [|exact F]. intros x Hx. cbv beta in *. lra.
  - unfold take in *. cbn [map]. constructor; [|apply IH; exact A'].
    eapply Permutation_Forall; [apply Permutation_map; symmetry; apply put_perm|]. cbn [map]. constructor; [lra|exact F].
Qed.
Lemma insertion_sorts : sorts insertion.
Proof.
  intros l. unfold insertion. generalize (seq 0 (List.length l)). intros s. induction s as [|i s [P A]]; cbn [fold_right]; [split; [auto|constructor]|].
  split; [rewrite put_perm; now constructor|now apply put_ascending].
Qed.
Definition three : list plane := [Plane (Vec 1 1 1) (1 / 10) 5; Plane (Vec 2 0 0) (1 / 5) 3; Plane (Vec 2 2 0) (3 / 10) 4].
Example C101_case : sorts insertion /\
  stand_for (Reflectors (map normal three) (Some (map bragg three)) (Some [(3, 4); (-3, 0); (0, -4)])) (Some "linear"%string) three /\
  largest 5 (map strength three) /\ Forall (fun p => normal p <> Vec 0 0 0 /\ 0 <= bragg p <= PI / 2) three.
Proof.
  split; [exact insertion_sorts|]. split; [|split].
  - split; [reflexivity|]. split; [reflexivity|]. eexists. split; [reflexivity|]. unfold three. cbn [map strength].
    apply Forall2_cons; [|apply Forall2_cons; [|apply Forall2_cons; [|apply Forall2_nil]]]; left; cbn [fst snd]; (split; [reflexivity|]); split; try lra; ring.
  - split; [now left|]. unfold three. cbn [map strength]. repeat constructor; lra.
  - assert (3 / 10 <= PI / 2) by (pose proof PI2_1; lra). unfold three.
    apply Forall_cons; [|apply Forall_cons; [|apply Forall_cons; [|apply Forall_nil]]]; cbn [normal bragg]; (split; [intros Q; injection Q; intros; lra|lra]).
Qed.

(** A number of points on every circle, here 101 times around a circle about z. *)
Example C101_circle_case : let circle (v : vec) opening := map (fun k => Vec (sin opening * cos (INR k * PI / 50)) (sin opening * sin (INR k * PI / 50)) (cos opening)) (seq 0 101) in
  (forall v opening, List.length (circle v opening) = 101%nat) /\ (forall opening, Forall (on_circle (Vec 0 0 1) opening) (circle (Vec 0 0 1) opening)).
Proof.
  cbv zeta. split; [intros; now rewrite map_length, seq_length|]. intros o. apply Forall_map, Forall_forall. intros k _.
  unfold on_circle, length3, dot3. cbn [vx vy vz]. generalize (INR k * PI / 50). intros a.
  pose proof (sin2_cos2 a) as A. pose proof (sin2_cos2 o) as O. unfold Rsqr in *. split.
  - transitivity (sin o * sin o * (sin a * sin a + cos a * cos a) + cos o * cos o); [ring|]. rewrite A. lra.
  - replace (0 * 0 + 0 * 0 + 1 * 1) with 1 by ring. rewrite sqrt_1. ring.
Qed.

Print Assumptions C101_lines.
Print Assumptions C101_sphere_mesh.
Print Assumptions C101_circles_are_band_edges.
