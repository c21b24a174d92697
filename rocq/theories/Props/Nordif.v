(** NORDIF files (property C26). *)
From Coq Require Import String List Arith ZArith Bool Lia.
From Verif Require Import Model.Binary Model.Nordif Proofs.ListLemmas Proofs.BinaryProofs.
Import ListNotations.
Local Open Scope nat_scope.

(** A signal whose data have the shape it says and fit its data type. *)
Definition well_formed (s : signal) : Prop :=
  length (values s) = size_of (nav s) * (sy s * sx s) /\ Forall (fun v => (0 <= v < 256 ^ Z.of_nat (item s))%Z) (values s).

(** The scan size a user passes for a signal of a given navigation shape. *)
Definition matching (nav : list nat) (n : scan_size) : Prop :=
  (exists ny nx, nav = [ny; nx] /\ n = Pair nx ny) \/ (exists nx, nav = [nx] /\ (n = Int nx \/ n = Pair nx 1)) \/
  (nav = [] /\ (n = Int 1 \/ n = Pair 1 1)).
(** The map rows and columns it stands for. *)
Definition rows_cols (nav : list nat) : list nat := match nav with [] => [1; 1] | [nx] => [1; nx] | _ => nav end.

Lemma chunks_concat {A} (L n : nat) (l : list A) : length l = n * L ->
  flat_map (fun i => firstn L (skipn (i * L) l)) (seq 0 n) = l.
Proof.
  revert l. induction n as [|n IH]; intros l H; [destruct l; [reflexivity|cbn in H; lia]|].
  cbn [seq flat_map]. rewrite <- seq_shift. rewrite flat_map_concat_map, map_map, <- flat_map_concat_map.
  transitivity (firstn L l ++ skipn L l); [|apply firstn_skipn]. cbn [Nat.mul skipn]. f_equal.
  transitivity (flat_map (fun i => firstn L (skipn (i * L) (skipn L l))) (seq 0 n)); [|apply IH; rewrite skipn_length; lia].
  apply flat_map_ext. intros i. rewrite skipn_skipn'. reflexivity.
Qed.
Lemma written s : well_formed s -> file_writer s = flat_map (to_le (item s)) (values s).
Proof.
  intros [L _]. unfold file_writer, patterns. transitivity (flat_map (to_le (item s)) (flat_map (fun i => firstn (sy s * sx s) (skipn (i * (sy s * sx s)) (values s))) (seq 0 (size_of (nav s)))));
    [|rewrite chunks_concat by exact L; reflexivity].
  induction (seq 0 (size_of (nav s))) as [|i r IH]; [reflexivity|]. cbn [map flat_map]. rewrite IH, flat_map_app. reflexivity.
Qed.

Lemma nav_rows nav n : matching nav n ->
  exists ny nx, rows_cols nav = [ny; nx] /\ match n with Int n => (n, 1) | Pair nx ny => (nx, ny) end = (nx, ny) /\ size_of nav = ny * nx.
Proof.
  intros [[ny [nx [-> ->]]]|[[nx [-> [->| ->]]]|[-> [->| ->]]]]; cbn; eexists; eexists; repeat split; lia.
Qed.

Lemma chosen {S} s n (setting : option (settings S)) : matching (nav s) n -> 1 <= size_of (nav s) -> chosen_scan_size (Some n) setting = Some n.
Proof.
  intros M NZ. unfold chosen_scan_size. destruct setting; [|reflexivity]. destruct n as [[|k]|a b]; try reflexivity.
  exfalso. destruct M as [[? [? [_ E]]]|[[? [E1 [E|E]]]|[_ [E|E]]]]; try discriminate.
  injection E as <-. rewrite E1 in NZ. cbn in NZ. lia.
Qed.

Lemma chosen_pair {S} a b (setting : option (settings S)) : chosen_scan_size (Some (Pair a b)) setting = Some (Pair a b).
Proof. destruct setting; reflexivity. Qed.

(** The same patterns come back in the same map positions: axes of length one are dropped unless the data are
    read lazily. *)
Theorem C26_round_trip_uint8_partial {S} (one : S) s n setting lazy :
  well_formed s -> item s = 1 -> matching (nav s) n -> 1 <= size_of (nav s) ->
  let full := rows_cols (nav s) ++ [sy s; sx s] in
  exists out, file_reader one (file_writer s) (Some n) (Some (sx s, sy s)) setting lazy = Some out /\
    shape (data out) = (if lazy then full else squeeze_shape full) /\
    forall idx, in_shape full idx ->
      at_ (data out) (if lazy then idx else squeeze_index full idx) = at_ (Nd full (values s)) idx.
Proof.
  intros WF I1 M NZ full. pose proof (written s WF) as W. destruct WF as [L B]. rewrite I1 in W, B.
  destruct (nav_rows _ _ M) as [ny [nx [RC [EN SZ]]]].
  assert (EF : full = [ny; nx; sy s; sx s]) by (unfold full; rewrite RC; reflexivity).
  assert (DS : ny * nx * sy s * sx s = length (values s)) by (rewrite L, SZ; rewrite Nat.mul_assoc; reflexivity).
  assert (LF : length (file_writer s) = length (values s)) by (rewrite W, flat_le_length; lia).
  assert (IT : items 1 (length (values s)) (file_writer s) = values s).
  { rewrite W, <- (app_nil_r (flat_map _ _)). apply items_flat. exact B. }
  pose proof (chosen s n setting M NZ) as G.
  unfold file_reader. rewrite G, EN. clear G.
  assert (SS : size_of [ny; nx; sy s; sx s] = length (values s)) by (rewrite <- DS; cbn; rewrite ?Nat.mul_1_r, ?Nat.mul_assoc; reflexivity).
  destruct lazy.
  - unfold memmap. rewrite SS, Nat.mul_1_r. unfold sub. rewrite LF. destruct (Nat.leb_spec (0 + length (values s)) (length (values s))); [|lia].
    cbn [option_map skipn]. rewrite (firstn_all2 (n := length (values s)) (file_writer s)) by lia. rewrite IT. eexists. split; [reflexivity|]. cbn [data shape]. rewrite EF. split; reflexivity.
  - rewrite DS, LF, Nat.min_id, IT, Nat.eqb_refl. eexists. split; [reflexivity|]. cbn [data shape]. rewrite EF. split; [reflexivity|].
    intros idx IN. exact (at_squeeze (Nd [ny; nx; sy s; sx s] (values s)) idx IN).
Qed.

(** Axes are right for a map with more than one row and column, and for all lazy data. *)
Theorem C26_axes_partial {S} (one : S) f n nx ny sx sy setting lazy out :
  n = Pair nx ny -> lazy = true \/ (nx <> 1 /\ ny <> 1 /\ sx <> 1 /\ sy <> 1) ->
  file_reader one f (Some n) (Some (sx, sy)) setting lazy = Some out ->
  let step := match setting with Some st => step_x st | None => one end in
  axes out = [Axis ny 0 "y"%string step; Axis nx 1 "x"%string step; Axis sy 2 "dy"%string one; Axis sx 3 "dx"%string one] /\
  xmap_shape out = [ny; nx].
Proof.
  intros -> H. unfold file_reader. rewrite chosen_pair. destruct lazy.
  - destruct (memmap f 1 [ny; nx; sy; sx] 0) as [a|] eqn:M; [|discriminate]. intros E. injection E as <-.
    unfold memmap in M. destruct (sub _ _ _); [|discriminate]. cbn in M. injection M as <-. cbn. destruct setting; split; reflexivity.
  - destruct H as [H|[H1 [H2 [H3 H4]]]]; [discriminate|].
    destruct (_ =? _).
    + intros E. injection E as <-. cbn [axes data shape squeeze squeeze_shape filter].
      destruct (Nat.eqb_spec ny 1); [contradiction|]. destruct (Nat.eqb_spec nx 1); [contradiction|].
      destruct (Nat.eqb_spec sy 1); [contradiction|]. destruct (Nat.eqb_spec sx 1); [contradiction|]. cbn.
      destruct setting; split; reflexivity.
    + intros E. injection E as <-. cbn. destruct setting; split; reflexivity.
Qed.

(** The code differs for a line of patterns: its axis is named y, and the detector's axes are named x and dy,
    the first with the step size of the map. *)
Theorem C26_line_axes_refuted {S} (one : S) s nx setting :
  well_formed s -> item s = 1 -> nav s = [nx] -> 2 <= nx -> sx s <> 1 -> sy s <> 1 ->
  exists out, file_reader one (file_writer s) (Some (Int nx)) (Some (sx s, sy s)) (Some setting) false = Some out /\
    axes out = [Axis nx 0 "y"%string (step_x setting); Axis (sy s) 1 "x"%string (step_x setting); Axis (sx s) 2 "dy"%string one].
Proof.
  intros WF I1 N NX SX SY.
  assert (M : matching (nav s) (Int nx)) by (right; left; exists nx; auto).
  assert (NZ : 1 <= size_of (nav s)) by (rewrite N; cbn; lia).
  destruct (C26_round_trip_uint8_partial one s (Int nx) (Some setting) false WF I1 M NZ) as [out [E [SH _]]].
  exists out. split; [exact E|]. rewrite N in SH. cbn [rows_cols app squeeze_shape filter] in SH.
  revert E. unfold file_reader. destruct nx as [|nx]; [lia|]. cbn [chosen_scan_size].
  match goal with |- match ?d with _ => _ end = _ -> _ => destruct d as [a|]; [|discriminate] end.
  intros E. injection E as <-. cbn [axes data] in *. rewrite SH.
  destruct (Nat.eqb_spec 1 1); [|contradiction]. destruct (Nat.eqb_spec (Datatypes.S nx) 1); [lia|].
  destruct (Nat.eqb_spec (sy s) 1); [contradiction|]. destruct (Nat.eqb_spec (sx s) 1); [contradiction|]. reflexivity.
Qed.

(** The shapes read lazily and not lazily differ for a map of one row. *)
Theorem C26_lazy_shape_refuted {S} (one : S) s nx setting :
  well_formed s -> item s = 1 -> nav s = [1; nx] -> 1 <= nx ->
  exists eager lazy, file_reader one (file_writer s) (Some (Pair nx 1)) (Some (sx s, sy s)) setting false = Some eager /\
    file_reader one (file_writer s) (Some (Pair nx 1)) (Some (sx s, sy s)) setting true = Some lazy /\
    length (shape (data eager)) < length (shape (data lazy)).
Proof.
  intros WF I1 N NX.
  assert (M : matching (nav s) (Pair nx 1)) by (left; exists 1, nx; auto).
  assert (NZ : 1 <= size_of (nav s)) by (rewrite N; cbn; lia).
  destruct (C26_round_trip_uint8_partial one s (Pair nx 1) setting false WF I1 M NZ) as [e [E [SE _]]].
  destruct (C26_round_trip_uint8_partial one s (Pair nx 1) setting true WF I1 M NZ) as [l [L [SL _]]].
  exists e, l. split; [exact E|]. split; [exact L|]. rewrite SE, SL, N. cbn [rows_cols app squeeze_shape filter Nat.eqb negb].
  destruct (negb (nx =? 1)), (negb (sy s =? 1)), (negb (sx s =? 1)); cbn; lia.
Qed.

(** Nor do patterns of another data type come back: whatever is stored, all values read are below 256. *)
Theorem C26_other_data_type_refuted {S} (one : S) s n setting :
  well_formed s -> item s = 2 -> matching (nav s) n -> 1 <= size_of (nav s) -> Forall (fun v => (256 <= v)%Z) (values s) ->
  exists out, file_reader one (file_writer s) (Some n) (Some (sx s, sy s)) setting false = Some out /\
    length (elems (data out)) = length (values s) /\
    forall i v v', nth_error (elems (data out)) i = Some v -> nth_error (values s) i = Some v' -> v <> v'.
Proof.
  intros WF I2 M NZ BIG. pose proof (written s WF) as W. destruct WF as [L B]. rewrite I2 in W, B.
  destruct (nav_rows _ _ M) as [ny [nx [RC [EN SZ]]]].
  assert (DS : ny * nx * sy s * sx s = length (values s)) by (rewrite L, SZ; rewrite Nat.mul_assoc; reflexivity).
  assert (LF : length (file_writer s) = length (values s) * 2) by (rewrite W, flat_le_length; reflexivity).
  pose proof (chosen s n setting M NZ) as G.
  unfold file_reader. rewrite G, EN, DS, LF. clear G. rewrite Nat.min_l by lia. rewrite items_length, Nat.eqb_refl.
  eexists. split; [reflexivity|]. cbn [data elems squeeze]. rewrite items_length. split; [reflexivity|].
  intros i v v' N1 N2. rewrite Forall_forall in BIG. specialize (BIG v' (nth_error_In _ _ N2)).
  assert (Hi : i < length (values s)) by (apply nth_error_Some; congruence).
  rewrite items_nth in N1 by exact Hi. injection N1 as <-. rewrite Nat.mul_1_r.
  assert (BY : Forall (fun b => (0 <= b < 256)%Z) (file_writer s)).
  { rewrite W. apply Forall_forall. intros b I. apply in_flat_map in I. destruct I as [u [_ I]]. cbn in I.
    destruct I as [<-|[<-|[]]]; apply Z.mod_pos_bound; lia. }
  destruct (skipn i (file_writer s)) as [|b r] eqn:E.
  - assert (LE : length (skipn i (file_writer s)) = 0) by (rewrite E; reflexivity). rewrite skipn_length in LE. lia.
  - cbn [firstn le]. assert (IB : In b (file_writer s)).
    { rewrite <- (firstn_skipn i (file_writer s)), E. apply in_or_app. right. left. reflexivity. }
    rewrite Forall_forall in BY. specialize (BY b IB). lia.
Qed.

(** A file that ends early is filled up with zeros. *)
Theorem C26_short_file {S} (one : S) f nx ny sx sy setting :
  length f < ny * nx * sy * sx ->
  exists out, file_reader one f (Some (Pair nx ny)) (Some (sx, sy)) setting false = Some out /\
    shape (data out) = [ny; nx; sy; sx] /\
    forall i, i < ny * nx * sy * sx -> nth_error (elems (data out)) i = Some (nth i f 0%Z).
Proof.
  intros H. unfold file_reader. rewrite chosen_pair, Nat.min_r by lia. rewrite items_length.
  destruct (Nat.eqb_spec (length f) (ny * nx * sy * sx)); [lia|].
  eexists. split; [reflexivity|]. cbn [data shape elems]. split; [reflexivity|]. intros i Hi.
  destruct (Nat.lt_ge_cases i (length f)) as [L|L].
  - rewrite nth_error_app1 by (rewrite items_length; exact L). rewrite items_nth by exact L. f_equal. rewrite Nat.mul_1_r.
    destruct (skipn i f) as [|b r] eqn:E.
    + assert (LE : length (skipn i f) = 0) by (rewrite E; reflexivity). rewrite skipn_length in LE. lia.
    + cbn [firstn le]. rewrite <- (firstn_skipn i f), E. rewrite app_nth2 by (rewrite firstn_length; lia).
      rewrite firstn_length, Nat.min_l by lia. rewrite Nat.sub_diag. cbn. lia.
  - rewrite nth_error_app2 by (rewrite items_length; exact L). rewrite items_length, nth_overflow by exact L.
    rewrite (nth_error_nth' _ 0%Z) by (rewrite repeat_length; lia). rewrite nth_repeat. reflexivity.
Qed.

(** A map of two rows of three 2 x 2 patterns, and a line of three. *)
Definition ex_signal (nav : list nat) : signal := Signal nav 2 2 1 (map (fun i => Z.of_nat (i mod 256)) (seq 0 (size_of nav * 4))).
Example C26_example : well_formed (ex_signal [2; 3]) /\ matching [2; 3] (Pair 3 2) /\ 1 <= size_of [2; 3] /\
  option_map (fun o => (shape (data o), nth_error (elems (data o)) 13, map ax_name (axes o), map ax_scale (axes o)))
    (file_reader 1 (file_writer (ex_signal [2; 3])) (Some (Pair 3 2)) (Some (2, 2)) (Some (Settings 7 7 2 2 5)) false)
  = Some ([2; 3; 2; 2], Some 13%Z, ["y"; "x"; "dy"; "dx"]%string, [5; 5; 1; 1]).
Proof.
  split; [split; [reflexivity|]|split; [left; exists 2, 3; auto|split; [cbn; lia|vm_compute; reflexivity]]].
  apply Forall_forall. intros v I. apply in_map_iff in I. destruct I as [i [<- _]]. cbn [ex_signal item].
  pose proof (Nat.mod_upper_bound i 256 ltac:(lia)). change (256 ^ Z.of_nat 1)%Z with 256%Z. lia.
Qed.
Example C26_line_example : well_formed (ex_signal [3]) /\
  option_map (fun o => (map ax_name (axes o), map ax_scale (axes o)))
    (file_reader 1 (file_writer (ex_signal [3])) (Some (Int 3)) (Some (2, 2)) (Some (Settings 7 7 2 2 5)) false)
  = Some (["y"; "x"; "dy"]%string, [5; 5; 1]).
Proof.
  split; [split; [reflexivity|]|vm_compute; reflexivity].
  apply Forall_forall. intros v I. apply in_map_iff in I. destruct I as [i [<- _]]. cbn [ex_signal item].
  pose proof (Nat.mod_upper_bound i 256 ltac:(lia)). change (256 ^ Z.of_nat 1)%Z with 256%Z. lia.
Qed.
Example C26_uint16_example : let s := Signal [2] 1 2 2 [256; 257; 300; 513]%Z in
  well_formed s /\ Forall (fun v => (256 <= v)%Z) (values s) /\
  option_map (fun o => elems (data o)) (file_reader 1 (file_writer s) (Some (Int 2)) (Some (2, 1)) None false) = Some [0; 1; 1; 1]%Z.
Proof. cbv zeta. split; [split; [reflexivity|repeat constructor; cbn; lia]|]. split; [repeat constructor; cbn; lia|reflexivity]. Qed.

Print Assumptions C26_round_trip_uint8_partial.
