(** EDAX binary files (property C27). *)
From Coq Require Import String List Arith ZArith Bool Lia.
From Verif Require Import Model.Binary Model.EdaxBinary Spec.BinaryFiles Proofs.ListLemmas Proofs.BinaryProofs Proofs.EdaxBinaryProofs.
Import ListNotations.
Local Open Scope nat_scope.

(** The array has n patterns of sy by sx pixels on a map with some rows and columns (no row axis for one row),
    and pattern number i is at row i // columns, column i % columns. *)
Definition places (a : nd) (rows cols sy sx : nat) (pat : nat -> nat -> nat -> Z) : Prop :=
  shape a = (if rows =? 1 then [cols; sy; sx] else [rows; cols; sy; sx]) /\
  forall i y x, i < rows * cols -> y < sy -> x < sx ->
    at_ a (if rows =? 1 then [i mod cols; y; x] else [i / cols; i mod cols; y; x]) = Some (pat i y x).

Lemma places_pixels rows cols sy sx pat :
  places (Nd (if rows =? 1 then [cols; sy; sx] else [rows; cols; sy; sx]) (all_pixels pat (rows * cols) sy sx)) rows cols sy sx pat.
Proof.
  split; [reflexivity|]. intros i y x Hi Hy Hx. unfold at_. cbn [shape elems].
  rewrite <- (all_pixels_nth pat (rows * cols) sy sx i y x Hi Hy Hx). f_equal.
  assert (C : cols <> 0) by (intros ->; lia). pose proof (Nat.div_mod i cols C) as D.
  destruct (Nat.eqb_spec rows 1) as [->|NE]; cbn.
  - rewrite Nat.mod_small by lia. nia.
  - pose proof (Nat.mod_upper_bound i cols C). rewrite !Nat.add_0_r, !Nat.mul_1_r. nia.
Qed.

Lemma shape_size rows cols sy sx : size_of (if rows =? 1 then [cols; sy; sx] else [rows; cols; sy; sx]) = rows * cols * (sy * sx).
Proof. destruct (Nat.eqb_spec rows 1) as [->|_]; cbn; rewrite ?Nat.mul_1_r; [lia|]. rewrite Nat.mul_assoc. reflexivity. Qed.

Section Headers.
Variables (e : ext) (v sx sy : nat) (pat : nat -> nat -> nat -> Z) (n : nat) (trailing : list Z).
Hypothesis V : small v. Hypothesis SX : small sx. Hypothesis SY : small sy.
Hypothesis FITS : fits (nbytes e) pat.

(** What the reader finds in a header of version 1. *)
Lemma header_1 more : small (16 + length more) -> v = 1 -> 0 < sx -> 0 < sy -> length trailing < sy * sx * nbytes e ->
  read_header e (edax_file (nbytes e) v sx sy more pat n trailing) = Some (Header sx sy (16 + length more) n 1 n One One false).
Proof using V SX SY.
  intros OFF V1 X Y T. unfold read_header, version. rewrite (file_version e v sx sy more pat n trailing V). cbn [bind].
  destruct (Nat.eqb_spec v 2); [lia|]. cbn [bind]. destruct (Nat.eqb_spec v 1); [|lia]. rewrite (file_sx e v sx sy more pat n trailing SX), (file_sy e v sx sy more pat n trailing SY),
    (file_off e v sx sy more pat n trailing OFF). cbn [bind]. rewrite file_count by assumption. reflexivity.
Qed.

(** And of version 3 or later. *)
Lemma header_3 u nx ny hex dx dy rest : let more := edax_more u nx ny hex dx dy rest in
  small (16 + length more) -> 3 <= v -> small nx -> small ny -> length dx = 8 -> length dy = 8 ->
  (hex = 0%Z \/ (hex <> 0%Z /\ 0 < sx /\ 0 < sy /\ length trailing < sy * sx * nbytes e)) ->
  read_header e (edax_file (nbytes e) v sx sy more pat n trailing) =
  Some (if (hex =? 0)%Z then Header sx sy (16 + length more) nx ny (nx * ny) (F64 dx) (F64 dy) false
        else Header sx sy (16 + length more) n 1 n (F64 dx) (F64 dy) true).
Proof using V SX SY.
  intros more OFF V3 NX NY LX LY HX. unfold read_header, version. rewrite (file_version e v sx sy more pat n trailing V). cbn [bind].
  destruct (Nat.eqb_spec v 2) as [->|_]; [lia|]. cbn [bind].
  rewrite (file_sx e v sx sy more pat n trailing SX), (file_sy e v sx sy more pat n trailing SY), (file_off e v sx sy more pat n trailing OFF).
  cbn [bind]. destruct (Nat.eqb_spec v 1) as [->|_]; [lia|].
  set (st := start v sx sy more). set (px := flat_map (to_le (nbytes e)) (all_pixels pat n sy sx) ++ trailing).
  assert (S16 : length st = 16) by apply start_length.
  assert (EF : edax_file (nbytes e) v sx sy more pat n trailing =
    (st ++ [u]) ++ to_le 4 (Z.of_nat nx) ++ to_le 4 (Z.of_nat ny) ++ [hex] ++ dx ++ dy ++ rest ++ px).
  { rewrite file_split. unfold more, edax_more. fold st px. rewrite <- !app_assoc. reflexivity. }
  assert (E1 : u32 (edax_file (nbytes e) v sx sy more pat n trailing) 17 = Some nx).
  { rewrite EF. apply u32_to_le; [rewrite app_length, S16; reflexivity|exact NX]. }
  assert (E2 : u32 (edax_file (nbytes e) v sx sy more pat n trailing) 21 = Some ny).
  { rewrite EF, app_assoc. apply u32_to_le; [rewrite !app_length, to_le_length, S16; reflexivity|exact NY]. }
  assert (E3 : uint_at (edax_file (nbytes e) v sx sy more pat n trailing) 25 1 = Some hex).
  { rewrite EF. unfold uint_at. rewrite (app_assoc (st ++ [u])), (app_assoc (_ ++ to_le 4 (Z.of_nat nx))).
    rewrite sub_at by (rewrite ?app_length, ?to_le_length, ?S16; reflexivity). cbn [option_map le]. f_equal. lia. }
  assert (E4 : sub (edax_file (nbytes e) v sx sy more pat n trailing) 26 8 = Some dx).
  { rewrite EF. rewrite (app_assoc (st ++ [u])), (app_assoc (_ ++ to_le 4 (Z.of_nat nx))), (app_assoc _ [hex]).
    apply sub_at; [rewrite ?app_length, ?to_le_length, ?S16; reflexivity|symmetry; exact LX]. }
  assert (E5 : sub (edax_file (nbytes e) v sx sy more pat n trailing) 34 8 = Some dy).
  { rewrite EF. rewrite (app_assoc (st ++ [u])), (app_assoc (_ ++ to_le 4 (Z.of_nat nx))), (app_assoc _ [hex]), (app_assoc _ dx).
    apply sub_at; [rewrite ?app_length, ?to_le_length, ?S16, LX; reflexivity|symmetry; exact LY]. }
  rewrite E1, E2, E3, E4, E5. cbn [bind]. destruct (Z.eqb_spec hex 0) as [H0|H0]; [reflexivity|].
  destruct HX as [H|[_ [X [Y T]]]]; [congruence|]. rewrite file_count by assumption. reflexivity.
Qed.
End Headers.

(** Rows and columns of the map: those given, if the map is not hexagonal, or those in the header. *)
Lemma read_with_header e f h nav rows cols : read_header e f = Some h ->
  (nav = None \/ is_hex h = true -> rows = ny h /\ cols = nx h) ->
  (forall r c, nav = Some (r, c) -> is_hex h = false -> rows = r /\ cols = c /\ r * c = n_patterns h) ->
  read_scan e f nav =
  bind (memmap f (nbytes e) (if rows =? 1 then [cols; sy h; sx h] else [rows; cols; sy h; sx h]) (pattern_offset h)) (fun a =>
    Some (Scan a (if rows =? 1 then [Axis cols 0 "x"%string (dy h); Axis (sy h) 1 "dy"%string (dx h); Axis (sx h) 2 "dx"%string One]
      else [Axis rows 0 "y"%string (dy h); Axis cols 1 "x"%string (dx h); Axis (sy h) 2 "dy"%string One; Axis (sx h) 3 "dx"%string One]))).
Proof.
  intros H D G. unfold read_scan. rewrite H. cbn [bind].
  assert (R : match nav with
    | Some (r, c) => if is_hex h then Some (ny h, nx h) else if r * c =? n_patterns h then Some (r, c) else None
    | None => Some (ny h, nx h) end = Some (rows, cols)).
  { destruct nav as [[r c]|].
    - destruct (is_hex h) eqn:HX; [destruct D as [-> ->]; auto|].
      destruct (G r c eq_refl eq_refl) as [-> [-> E]]. rewrite E, Nat.eqb_refl. reflexivity.
    - destruct D as [-> ->]; auto. }
  rewrite R. cbn [bind]. destruct (rows =? 1); reflexivity.
Qed.

(** Bytes of a pixel: one in UP1 files and two in UP2 files. *)
Definition item_bytes (e : ext) : nat := match e with Up1 => 1 | Up2 => 2 end.
Lemma item_bytes_eq e : item_bytes e = nbytes e. Proof. now destruct e. Qed.

(** Version 2 is refused. *)
Theorem C27_version_2_refused e sx sy more pat n trailing nav :
  read_scan e (edax_file (item_bytes e) 2 sx sy more pat n trailing) nav = None.
Proof.
  rewrite !item_bytes_eq.
  unfold read_scan, read_header, version. rewrite file_version by (unfold small; cbn; lia). reflexivity.
Qed.

(** Version 1: all complete patterns in the file are read, one after the other if no shape is given. *)
Theorem C27_version_1 e sx sy more pat n trailing rows cols nav :
  small sx -> small sy -> small (16 + length more) -> fits (item_bytes e) pat -> 0 < sx -> 0 < sy -> length trailing < sy * sx * item_bytes e ->
  rows * cols = n -> (nav = None /\ rows = 1) \/ nav = Some (rows, cols) ->
  exists out, read_scan e (edax_file (item_bytes e) 1 sx sy more pat n trailing) nav = Some out /\ places (data out) rows cols sy sx pat.
Proof.
  rewrite !item_bytes_eq.
  intros SX SY OFF F X Y T N NV.
  assert (V : small 1) by (unfold small; cbn; lia).
  pose proof (header_1 e 1 sx sy pat n trailing V SX SY more OFF eq_refl X Y T) as H.
  rewrite (read_with_header _ _ _ nav rows cols H); cbn [is_hex nx ny n_patterns dx dy EdaxBinary.sx EdaxBinary.sy pattern_offset].
  - rewrite file_memmap; [|exact F|rewrite shape_size, N; reflexivity].
    cbn [bind]. eexists. split; [reflexivity|]. cbn [data]. rewrite <- N. apply places_pixels.
  - intros [E|E]; [|discriminate]. destruct NV as [[_ R]|NV]; [|congruence]. subst rows. split; [reflexivity|]. lia.
  - intros r c E _. destruct NV as [[NV _]|NV]; [congruence|]. rewrite NV in E. injection E as <- <-. auto.
Qed.

(** Version 3 or later, square grid: the shape in the header or the given one. *)
Theorem C27_square_grid e v sx sy u nx ny dx dy rest pat trailing rows cols nav :
  small v -> 3 <= v -> small sx -> small sy -> small (16 + length (edax_more u nx ny 0 dx dy rest)) -> small nx -> small ny ->
  length dx = 8 -> length dy = 8 -> fits (item_bytes e) pat -> rows * cols = nx * ny ->
  (nav = None /\ rows = ny /\ cols = nx) \/ nav = Some (rows, cols) ->
  exists out, read_scan e (edax_file (item_bytes e) v sx sy (edax_more u nx ny 0 dx dy rest) pat (nx * ny) trailing) nav = Some out /\
    places (data out) rows cols sy sx pat /\
    (rows <> 1 -> axes out = [Axis rows 0 "y"%string (F64 dy); Axis cols 1 "x"%string (F64 dx); Axis sy 2 "dy"%string One; Axis sx 3 "dx"%string One]).
Proof.
  rewrite !item_bytes_eq.
  intros V V3 SX SY OFF NX NY LX LY F N NV.
  pose proof (header_3 e v sx sy pat (nx * ny) trailing V SX SY u nx ny 0%Z dx dy rest OFF V3 NX NY LX LY (or_introl eq_refl)) as H.
  cbn [Z.eqb] in H.
  rewrite (read_with_header _ _ _ nav rows cols H); cbn [is_hex EdaxBinary.nx EdaxBinary.ny n_patterns EdaxBinary.dx EdaxBinary.dy EdaxBinary.sx EdaxBinary.sy pattern_offset].
  - rewrite file_memmap; [|exact F|rewrite shape_size, N; reflexivity].
    cbn [bind]. eexists. split; [reflexivity|]. cbn [data axes]. split; [rewrite <- N; apply places_pixels|].
    intros NR. destruct (Nat.eqb_spec rows 1); [contradiction|reflexivity].
  - intros [E|E]; [|discriminate]. destruct NV as [NV|NV]; [tauto|congruence].
  - intros r c E _. destruct NV as [[NV _]|NV]; [congruence|]. rewrite NV in E. injection E as <- <-. auto.
Qed.

(** A given shape with another number of points is refused. *)
Theorem C27_wrong_shape_refused e v sx sy u nx ny dx dy rest pat n trailing r c :
  small v -> 3 <= v -> small sx -> small sy -> small (16 + length (edax_more u nx ny 0 dx dy rest)) -> small nx -> small ny ->
  length dx = 8 -> length dy = 8 -> r * c <> nx * ny ->
  read_scan e (edax_file (item_bytes e) v sx sy (edax_more u nx ny 0 dx dy rest) pat n trailing) (Some (r, c)) = None.
Proof.
  rewrite !item_bytes_eq.
  intros V V3 SX SY OFF NX NY LX LY NE.
  pose proof (header_3 e v sx sy pat n trailing V SX SY u nx ny 0%Z dx dy rest OFF V3 NX NY LX LY (or_introl eq_refl)) as H.
  unfold read_scan. rewrite H. cbn [Z.eqb bind is_hex n_patterns]. destruct (Nat.eqb_spec (r * c) (nx * ny)); [contradiction|reflexivity].
Qed.
Theorem C27_wrong_shape_refused_version_1 e sx sy more pat n trailing r c :
  small sx -> small sy -> small (16 + length more) -> 0 < sx -> 0 < sy -> length trailing < sy * sx * item_bytes e -> r * c <> n ->
  read_scan e (edax_file (item_bytes e) 1 sx sy more pat n trailing) (Some (r, c)) = None.
Proof.
  rewrite !item_bytes_eq.
  intros SX SY OFF X Y T NE. assert (V : small 1) by (unfold small; cbn; lia).
  pose proof (header_1 e 1 sx sy pat n trailing V SX SY more OFF eq_refl X Y T) as H.
  unfold read_scan. rewrite H. cbn [bind is_hex n_patterns]. destruct (Nat.eqb_spec (r * c) n); [contradiction|reflexivity].
Qed.

(** A file with fewer patterns than the header says is refused. *)
Theorem C27_short_file_refused e v sx sy u nx ny dx dy rest pat n nav :
  small v -> 3 <= v -> small sx -> small sy -> small (16 + length (edax_more u nx ny 0 dx dy rest)) -> small nx -> small ny ->
  length dx = 8 -> length dy = 8 -> 0 < sx -> 0 < sy -> n < nx * ny ->
  read_scan e (edax_file (item_bytes e) v sx sy (edax_more u nx ny 0 dx dy rest) pat n []) nav = None.
Proof.
  rewrite !item_bytes_eq.
  intros V V3 SX SY OFF NX NY LX LY X Y LT.
  pose proof (header_3 e v sx sy pat n [] V SX SY u nx ny 0%Z dx dy rest OFF V3 NX NY LX LY (or_introl eq_refl)) as H.
  cbn [Z.eqb] in H.
  assert (NB : 0 < nbytes e) by (destruct e; cbn; lia).
  assert (M : forall s, size_of s = nx * ny * (sy * sx) -> memmap (edax_file (nbytes e) v sx sy (edax_more u nx ny 0 dx dy rest) pat n [])
     (nbytes e) s (16 + length (edax_more u nx ny 0 dx dy rest)) = None).
  { intros s E. unfold memmap, sub. rewrite file_length, E. cbn [length]. destruct (Nat.leb_spec
      (16 + length (edax_more u nx ny 0 dx dy rest) + nx * ny * (sy * sx) * nbytes e)
      (16 + length (edax_more u nx ny 0 dx dy rest) + n * (sy * sx) * nbytes e + 0)) as [L|L]; [|reflexivity].
    exfalso. assert (n * (sy * sx) * nbytes e < nx * ny * (sy * sx) * nbytes e); [|lia].
    apply Nat.mul_lt_mono_pos_r; [exact NB|]. apply Nat.mul_lt_mono_pos_r; [nia|exact LT]. }
  unfold read_scan. rewrite H. cbn [bind is_hex n_patterns EdaxBinary.nx EdaxBinary.ny EdaxBinary.sx EdaxBinary.sy pattern_offset].
  destruct nav as [[r c]|].
  - destruct (Nat.eqb_spec (r * c) (nx * ny)) as [E|]; [|reflexivity]. cbn [bind]. rewrite M; [reflexivity|]. rewrite shape_size, E. reflexivity.
  - cbn [bind]. rewrite M; [reflexivity|]. rewrite shape_size, (Nat.mul_comm nx ny). reflexivity.
Qed.

(** Hexagonal grid: one axis for all complete patterns in the file, whatever the shape given. *)
Theorem C27_hexagonal_grid e v sx sy u nx ny hex dx dy rest pat n trailing nav :
  small v -> 3 <= v -> small sx -> small sy -> small (16 + length (edax_more u nx ny hex dx dy rest)) -> small nx -> small ny ->
  length dx = 8 -> length dy = 8 -> fits (item_bytes e) pat -> hex <> 0%Z -> 0 < sx -> 0 < sy -> length trailing < sy * sx * item_bytes e ->
  exists out, read_scan e (edax_file (item_bytes e) v sx sy (edax_more u nx ny hex dx dy rest) pat n trailing) nav = Some out /\
    places (data out) 1 n sy sx pat.
Proof.
  rewrite !item_bytes_eq.
  intros V V3 SX SY OFF NX NY LX LY F HX X Y T.
  pose proof (header_3 e v sx sy pat n trailing V SX SY u nx ny hex dx dy rest OFF V3 NX NY LX LY (or_intror (conj HX (conj X (conj Y T))))) as H.
  destruct (Z.eqb_spec hex 0) as [E|_]; [contradiction|].
  rewrite (read_with_header _ _ _ nav 1 n H); cbn [is_hex EdaxBinary.nx EdaxBinary.ny n_patterns EdaxBinary.dx EdaxBinary.dy EdaxBinary.sx EdaxBinary.sy pattern_offset].
  - rewrite file_memmap; [|exact F|cbn; nia]. cbn [bind]. eexists. split; [reflexivity|]. cbn [data].
    pose proof (places_pixels 1 n sy sx pat) as P. rewrite Nat.mul_1_l in P. exact P.
  - auto.
  - discriminate.
Qed.

(** The code differs for a single row: its axis gets the row step dy, and the detector's row axis the column
    step dx. *)
Theorem C27_single_row_scales_refuted e v sx sy u nx dx dy rest pat trailing :
  small v -> 3 <= v -> small sx -> small sy -> small (16 + length (edax_more u nx 1 0 dx dy rest)) -> small nx ->
  length dx = 8 -> length dy = 8 -> fits (item_bytes e) pat ->
  exists out, read_scan e (edax_file (item_bytes e) v sx sy (edax_more u nx 1 0 dx dy rest) pat (nx * 1) trailing) None = Some out /\
    axes out = [Axis nx 0 "x"%string (F64 dy); Axis sy 1 "dy"%string (F64 dx); Axis sx 2 "dx"%string One].
Proof.
  rewrite !item_bytes_eq.
  intros V V3 SX SY OFF NX LX LY F. assert (N1 : small 1) by (unfold small; cbn; lia).
  pose proof (header_3 e v sx sy pat (nx * 1) trailing V SX SY u nx 1 0%Z dx dy rest OFF V3 NX N1 LX LY (or_introl eq_refl)) as H.
  cbn [Z.eqb] in H.
  rewrite (read_with_header _ _ _ None 1 nx H); cbn [is_hex EdaxBinary.nx EdaxBinary.ny n_patterns EdaxBinary.dx EdaxBinary.dy EdaxBinary.sx EdaxBinary.sy pattern_offset].
  - rewrite file_memmap; [|exact F|cbn; nia]. cbn [bind]. eexists. split; [reflexivity|]. reflexivity.
  - auto.
  - discriminate.
Qed.

(** Two rows of three 2 x 1 patterns of uint16, with one trailing byte. *)
Example C27_example :
  let f := edax_file 2 3 1 2 (edax_more 9 3 2 0 [1;2;3;4;5;6;7;8] [8;7;6;5;4;3;2;1] [0;0])%Z (fun i y _ => Z.of_nat (300 * i + y)) 6 [7%Z] in
  option_map (fun s => (data s, map ax_scale (axes s))) (read_scan Up2 f None)
  = Some (Nd [2; 3; 2; 1] [0; 1; 300; 301; 600; 601; 900; 901; 1200; 1201; 1500; 1501]%Z,
      [F64 [8;7;6;5;4;3;2;1]%Z; F64 [1;2;3;4;5;6;7;8]%Z; One; One]) /\
  read_scan Up2 f (Some (2, 2)) = None /\ fits 2 (fun i y _ => Z.of_nat (Nat.min 255 i + Nat.min 200 y)).
Proof.
  cbv zeta. split; [vm_compute; reflexivity|]. split; [vm_compute; reflexivity|].
  intros i y x. change (256 ^ Z.of_nat 2)%Z with 65536%Z. lia.
Qed.

Print Assumptions C27_square_grid.
