(** Master patterns shown on a sphere: plot_spherical, signals/_kikuchi_master_pattern.py 215-312 (the same for EBSD and ECP
    master patterns).

    Simplifications: real numbers; signals in memory, with as many columns as rows.  What is drawn is the list of points of
    the grid given to PyVista with their intensities, without the grey sphere inside.  Facts about other libraries:
    xy2vector is [xy2vector] of Model/KinematicalMaster.v; the vectors of Vector3d.stack((v1, v2)).flatten() (orix) are
    first those of v1, then those of v2. *)
From Coq Require Import String List Arith Reals Bool.
From Verif Require Import Model.Detector Model.MasterPattern.
From Verif Require Model.KinematicalMaster.
Import ListNotations.
Local Open Scope R_scope.

(** Rows and columns in C order. *)
Definition places (n : nat) : list (nat * nat) := list_prod (seq 0 n) (seq 0 n).
(** keep = mp_upper != 0, line 281 *)
Definition keep (n : nat) (upper : image) : list (nat * nat) :=
  filter (fun rc => if Req_EM_T (upper (fst rc) (snd rc)) 0 then false else true) (places n).
(** Vectors of the pixels kept, lines 285-293: x varies along columns, y along rows. *)
Definition vectors (n : nat) (pole : R) (kept : list (nat * nat)) : list vec :=
  map (fun rc => KinematicalMaster.xy2vector pole (linspace n (snd rc), linspace n (fst rc))) kept.

(** Lines 270-296; None is the ValueError (or the AttributeError without a point group). *)
Definition plot_spherical (s : master_signal) (energy : option R) : option (list (vec * R)) :=
  if negb (projection s =? "stereographic")%string then None
  else if (hemisphere s =? "both")%string || match point_group_inversion s with Some b => b | None => false end then
    match arrays_from_energy s energy with
    | None => None
    | Some (mp_upper, mp_lower) =>
        let kept := keep (size s) mp_upper in
        let data := map (fun rc => mp_upper (fst rc) (snd rc)) kept ++ map (fun rc => mp_lower (fst rc) (snd rc)) kept in
        Some (combine (vectors (size s) (-1) kept ++ vectors (size s) 1 kept) data)
    end
  else None.
