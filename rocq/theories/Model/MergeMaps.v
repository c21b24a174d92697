(** Merging crystal maps: src/kikuchipy/indexing/_merge_crystal_maps.py 28-354. Scores are rationals; NaN,
    the score of a point outside a map, is None. Simplifications: input maps have one phase besides
    not-indexed; the derivation of masks from CrystalMap.is_in_data (94-102), the check of shapes
    (104-137), which are here the common number of points, step sizes and coordinates are in MergeInputs.v. *)
From Coq Require Import String List Arith ZArith QArith Bool.
From Verif Require Model.DictIndex.
Import ListNotations.
Local Open Scope nat_scope.

(** A phase: its name and what _equal_phase compares. *)
Record phase := Phase { ph_name : string; ph_content : nat }.
Definition not_indexed_phase : phase := Phase "not_indexed" 0.

(** One point of a crystal map: rotations (any type), scores, simulation indices and phase ID. *)
Record point (A : Type) := Point { rot : A; scores : list Q; sims : list Z; pid : Z }.
Arguments Point {A}. Arguments rot {A}. Arguments scores {A}. Arguments sims {A}. Arguments pid {A}.
Record xmap (A : Type) := XMap { x_points : list (point A); x_phase : phase }.
Arguments XMap {A}. Arguments x_points {A}. Arguments x_phase {A}.

(** xmap.phases_in_data without -1, first entry; IndexError (None) if no point is indexed. *)
Definition phase_in_data {A} (m : xmap A) : option phase :=
  if existsb (fun p => negb (pid p =? -1)%Z) (x_points m) then Some (x_phase m) else None.

(** navigation_masks1d, 139-149: None without masks; with masks, a list that is True where the map has a
    point (mask is True where it has none), all True for a mask of None. *)
Definition masks1d (size n_maps : nat) (masks : option (list (option (list bool)))) : list (option (list bool)) :=
  match masks with
  | None => repeat None n_maps
  | Some ms => map (fun m => match m with None => Some (repeat true size) | Some b => Some (map negb b) end) ms
  end.

(** One row per map point: the point of the map, or None (NaN) if it has none there. None is the error of a
    mask that does not fit. *)
Definition expand {A} (size : nat) (mask : option (list bool)) (m : xmap A) : option (list (option (point A))) :=
  match mask with
  | None => if length (x_points m) =? size then Some (map Some (x_points m)) else None
  | Some k => if length k =? size then Model.DictIndex.scatter None k (map Some (x_points m)) else None
  end.

Fixpoint all_some {A} (l : list (option A)) : option (list A) :=
  match l with
  | [] => Some []
  | x :: l' => match x, all_some l' with Some a, Some r => Some (a :: r) | _, _ => None end
  end.

(** x[:m] for an integer m. *)
Definition up_to {A} (m : Z) (l : list A) : list A :=
  firstn (Z.to_nat (if (m <? 0)%Z then Z.of_nat (length l) + m else m)) l.
Definition sumQ (l : list Q) : Q := fold_right Qplus 0%Q l.
(** np.nanmean; nan (None) of an empty list. *)
Definition meanQ (l : list Q) : option Q :=
  match l with [] => None | _ => Some (sumQ l / inject_Z (Z.of_nat (length l)))%Q end.

(** best_scores, 205-211, of one point in one map. *)
Definition best_score {A} (per_point : nat) (mean_n_best : Z) (p : option (point A)) : option Q :=
  match p with
  | None => None
  | Some q => if 1 <? per_point then meanQ (up_to mean_n_best (scores q)) else hd_error (scores q)
  end.

(** np.nanargmax of sign * row: first position of the largest, ValueError (None) if all are nan. *)
Fixpoint nanargmax_from (sign : Z) (best : option (nat * Q)) (i : nat) (l : list (option Q)) : option nat :=
  match l with
  | [] => option_map fst best
  | None :: l' => nanargmax_from sign best (S i) l'
  | Some x :: l' =>
      let v := (inject_Z sign * x)%Q in
      match best with
      | None => nanargmax_from sign (Some (i, v)) (S i) l'
      | Some (_, b) => if Qle_bool v b then nanargmax_from sign best (S i) l' else nanargmax_from sign (Some (i, v)) (S i) l'
      end
  end.
Definition nanargmax (sign : Z) (l : list (option Q)) : option nat := nanargmax_from sign None 0 l.

(** phase_id of one point, 205-214.  squeeze() (207) also removes the axis of maps if there is only one: with several scores per point, the
    best of the averaged scores is looked up instead of the best map, and if only one is averaged there is no axis 1 (AxisError). *)
Definition best_in {A} (sign : Z) (per_point : nat) (number : Z) (col : list (option (point A))) : option nat :=
  match col with
  | [q] =>
      if 1 <? per_point
      then match q with
           | None => None
           | Some pt => match up_to number (scores pt) with [_] => None | l => nanargmax sign (map Some l) end
           end
      else nanargmax sign (map (best_score per_point number) col)
  | _ => nanargmax sign (map (best_score per_point number) col)
  end.

(** Sign of the scores and number of best scores, 170-177. *)
Definition sign_and_number (mean_n_best : Z) (greater_is_better : option bool) : Z * Z :=
  match greater_is_better with
  | None => (if mean_n_best <? 0 then -1 else 1, Z.abs mean_n_best)%Z
  | Some true => (1, mean_n_best)%Z
  | Some false => (-1, mean_n_best)%Z
  end.

(** ** Phase list and restriction to one phase per point, 229-283 *)

Definition phase_list := list (Z * phase).
Definition find_name (n : string) (pl : phase_list) : option (Z * phase) := find (fun e => String.eqb (ph_name (snd e)) n) pl.
(** orix' PhaseList.add: the ID after the largest, 0 for the first. *)
Definition add_phase (ph : phase) (pl : phase_list) : phase_list :=
  pl ++ [((fold_right Z.max (-1) (map fst pl) + 1)%Z, ph)].
(** name + str(i). *)
Definition rename (ph : phase) (suffix : string) : phase := Phase (ph_name ph ++ suffix) (ph_content ph).

Record state (A : Type) := St { st_id : list Z; st_list : phase_list; st_new : list (option (point A)) }.
Arguments St {A}. Arguments st_id {A}. Arguments st_list {A}. Arguments st_new {A}.

(** Where a mask is True, take the value of the second list. *)
Definition choose {A} (mask : list bool) (old new : list A) : list A :=
  map (fun t : bool * (A * A) => if fst t then snd (snd t) else fst (snd t)) (combine mask (combine old new)).

(** One iteration of the loop over maps, 236-283. str gives the decimal digits of the map's number. The new
    entry of a point is the point of the map it is taken from; None stands for the initial zeros. PhaseList.add raises
    ValueError for a name that is in the list, which can be the case after renaming. *)
Definition step {A} (str : nat -> string) (st : state A) (im : nat * (xmap A * list (option (point A)))) : option (state A) :=
  let '(i, (m, rows)) := im in
  let mask := map (fun k => (k =? Z.of_nat i)%Z) (st_id st) in
  if existsb (fun b => b) mask then
    match phase_in_data m with
    | None => None
    | Some ph =>
        match
          match find_name (ph_name ph) (st_list st) with
          | Some (id, other) =>
              if ph_content ph =? ph_content other then Some (map (fun t : bool * Z => if fst t then id else snd t) (combine mask (st_id st)), st_list st)
              else match find_name (ph_name ph ++ str i) (st_list st) with
                   | Some _ => None
                   | None => Some (st_id st, add_phase (rename ph (str i)) (st_list st))
                   end
          | None => Some (st_id st, add_phase ph (st_list st))
          end
        with
        | None => None
        | Some (ids, pl) => Some (St ids pl (choose mask (st_new st) rows))
        end
    end
  else Some st.
Fixpoint steps {A} (str : nat -> string) (st : state A) (l : list (nat * (xmap A * list (option (point A))))) : option (state A) :=
  match l with
  | [] => Some st
  | im :: l' => match step str st im with None => None | Some st' => steps str st' l' end
  end.

(** ** Merged scores and simulation indices, 285-335 *)

(** Transpose rows (one per map) into one list per point. *)
Definition column {A} (tables : list (list (option (point A)))) (p : nat) : list (option (point A)) :=
  map (fun t => nth p t None) tables.

(** The combined scores of a point, reshaped from (N, K) to (N * K): score 0 of every map, then score 1... *)
Definition interleave {A B} (n : nat) (f : point A -> list B) (col : list (option (point A))) : list (option B) :=
  flat_map (fun j => map (fun q => match q with None => None | Some pt => nth_error (f pt) j end) col) (seq 0 n).

(** Stable (merge) sort of positions, smallest sign * -score first, i.e. largest sign * score first; nan
    last. *)
Definition before (sign : Z) (a b : option Q) : bool :=
  match a, b with
  | _, None => true
  | None, Some _ => false
  | Some x, Some y => Qle_bool (inject_Z sign * y) (inject_Z sign * x)
  end.
Fixpoint insert {B} (sign : Z) (x : option Q * B) (l : list (option Q * B)) : list (option Q * B) :=
  match l with
  | [] => [x]
  | y :: l' => if before sign (fst x) (fst y) then x :: l else y :: insert sign x l'
  end.
Definition sort_best {B} (sign : Z) (l : list (option Q * B)) : list (option Q * B) := fold_right (insert sign) [] l.

(** np.nanmax and np.nanmin of all simulation indices of a map; nan (None) if it has no points. *)
Definition all_sims {A} (m : xmap A) : list Z := flat_map sims (x_points m).
Definition zmax (l : list Z) : option Z := match l with [] => None | x :: r => Some (fold_right Z.max x r) end.
Definition zmin (l : list Z) : option Z := match l with [] => None | x :: r => Some (fold_right Z.min x r) end.
(** The numbers added to the indices of maps 1, 2, ..., 314-323, given the largest index so far. *)
Fixpoint increments_from {A} (prev_max : option Z) (maps : list (xmap A)) : list (option Z) :=
  match maps with
  | [] => []
  | m :: r =>
      let inc := match prev_max, zmin (all_sims m) with Some a, Some b => Some (Z.abs (a - b) + 1)%Z | _, _ => None end in
      let top := match inc, zmax (all_sims m) with Some a, Some b => Some (a + b)%Z | _, _ => None end in
      inc :: increments_from top r
  end.
Definition increments {A} (maps : list (xmap A)) : list (option Z) :=
  match maps with [] => [] | m :: r => Some 0%Z :: increments_from (zmax (all_sims m)) r end.
Definition shift_point {A} (inc : option Z) (p : point A) : point A :=
  match inc with None => Point (rot p) (scores p) [] (pid p) | Some d => Point (rot p) (scores p) (map (Z.add d) (sims p)) (pid p) end.

Record merged (A : Type) := Merged {
  m_phase_id : list Z; m_phases : phase_list;
  m_points : list (option (point A));                (* rotations, scores and simulation indices; None: zeros *)
  m_merged : list (list (option Q * option Z)) }.    (* merged_scores and merged_simulation_indices *)
Arguments Merged {A}. Arguments m_phase_id {A}. Arguments m_phases {A}. Arguments m_points {A}. Arguments m_merged {A}.

(** merge_crystal_maps, for maps of size points in total and per_point scores (and simulation indices) per
    point. None for every error. With one map point and several scores per point, squeeze() (206) also
    removes the axis of points and the following steps raise an error. *)
Definition merge_crystal_maps {A} (str : nat -> string) (size per_point : nat) (maps : list (xmap A)) (mean_n_best : Z)
  (greater_is_better : option bool) (masks : option (list (option (list bool)))) : option (merged A) :=
  let n_maps := length maps in
  if match masks with Some ms => negb (length ms =? n_maps) | None => false end then None else
  let '(sign, number) := sign_and_number mean_n_best greater_is_better in
  if (1 <? per_point) && (size =? 1) then None else
  match all_some (map (fun mm => expand size (fst mm) (snd mm)) (combine (masks1d size n_maps masks) maps)) with
  | None => None
  | Some tables =>
      match all_some (map (fun p => best_in sign per_point number (column tables p)) (seq 0 size)) with
      | None => None
      | Some best =>
          (* 213-227: with masks, not_indexed[i, mask][...] = True changes a copy only *)
          let not_indexed p := match masks with
            | Some _ => false
            | None => forallb (fun q => match q with Some pt => (pid pt =? -1)%Z | None => false end) (column tables p)
            end in
          let ids := map (fun pb => if not_indexed (fst pb) then (-1)%Z else Z.of_nat (snd pb)) (combine (seq 0 size) best) in
          let pl := if existsb (Z.eqb (-1)) ids then [((-1)%Z, not_indexed_phase)] else [] in
          match steps str (St ids pl (repeat None size)) (combine (seq 0 n_maps) (combine maps tables)) with
          | None => None
          | Some st =>
              let shifted := map (fun it => map (option_map (shift_point (fst it))) (snd it)) (combine (increments maps) tables) in
              Some (Merged (st_id st) (st_list st) (st_new st)
                (map (fun p => sort_best sign (combine (interleave per_point scores (column tables p))
                                                       (interleave per_point sims (column shifted p)))) (seq 0 size)))
          end
      end
  end.
