(** The square Lambert projection and the lookup of intensities in a master pattern
    (signals/util/_master_pattern.py: _vector2lambert 531-568, _lambert2vector 717-760,
    _get_lambert_interpolation_parameters 580-678, _get_pixel_from_master_pattern 681-708).

    Simplifications: real numbers instead of doubles; one vector at a time.  The test |z| == 1 is exact. *)
From Coq Require Import Reals ZArith.
From Verif Require Import Model.Detector.
Local Open Scope R_scope.

(** np.sign *)
Definition sign (x : R) : R := if Rlt_dec x 0 then -1 else if Rlt_dec 0 x then 1 else 0.

Definition normalise (v : vec) : vec := let n := norm v in Vec (vx v / n) (vy v / n) (vz v / n).

(** _vector2lambert *)
Definition vector2lambert (v : vec) : R * R :=
  let w := normalise v in
  let abs_z := Rabs (vz w) in
  let sqrt_z := sqrt (2 * (1 - abs_z)) in
  if Req_EM_T abs_z 1 then (0, 0)
  else if Rle_dec (Rabs (vy w)) (Rabs (vx w)) then
    let s := sign (vx w) in
    (s * sqrt_z * (sqrt PI / 2), s * sqrt_z * (2 / sqrt PI) * atan (vy w / vx w))
  else
    let s := sign (vy w) in
    (s * sqrt_z * (2 / sqrt PI) * atan (vx w / vy w), s * sqrt_z * (sqrt PI / 2)).

(** _lambert2vector *)
Definition lambert2vector (x y : R) : vec :=
  let xi := x * sqrt (PI / 2) in
  let yi := y * sqrt (PI / 2) in
  if Req_EM_T (Rmax (Rabs xi) (Rabs yi)) 0 then Vec 0 0 1
  else if Rle_dec (Rabs xi) (Rabs yi) then
    let q := 2 * yi * sqrt (PI - yi * yi) / PI in
    let qq := xi * PI * (1 / 4) / yi in
    Vec (q * sin qq) (q * cos qq) (1 - 2 * (yi * yi) / PI)
  else
    let q := 2 * xi * sqrt (PI - xi * xi) / PI in
    let qq := yi * PI * (1 / 4) / xi in
    Vec (q * cos qq) (q * sin qq) (1 - 2 * (xi * xi) / PI).

(** Interpolation parameters: rows nii, niip, columns nij, nijp, weights di, dj (dim = 1 - di and
    djm = 1 - dj). *)
Record lookup := Lookup { nii : Z; nij : Z; niip : Z; nijp : Z; di : R; dj : R }.
Definition interpolation_parameters (npx npy : Z) (scale : R) (v : vec) : lookup :=
  let (lx, ly) := vector2lambert v in
  let i := scale * ly / sqrt (PI / 2) in
  let j := scale * lx / sqrt (PI / 2) in
  let nii := trunc (i + scale) in
  let nij := trunc (j + scale) in
  let niip := (nii + 1)%Z in
  let nijp := (nij + 1)%Z in
  let niip := if (npx <=? niip)%Z then nii else niip in
  let nijp := if (npy <=? nijp)%Z then nij else nijp in
  let nii := if (nii <? 0)%Z then niip else nii in
  let nij := if (nij <? 0)%Z then nijp else nij in
  Lookup nii nij niip nijp (i - IZR nii + scale) (j - IZR nij + scale).

(** A master pattern hemisphere: intensity at row and column.  _get_pixel_from_master_pattern *)
Definition interpolate (mp : Z -> Z -> R) (l : lookup) : R :=
  let dim := 1 - di l in
  let djm := 1 - dj l in
  mp (nii l) (nij l) * dim * djm + mp (niip l) (nij l) * di l * djm
  + mp (nii l) (nijp l) * dim * dj l + mp (niip l) (nijp l) * di l * dj l.

(** One pixel of a simulated pattern (_project_single_pattern_from_master_pattern, 500-523): the
    hemisphere is chosen by the sign of z. *)
Definition pixel_from_master_pattern (upper lower : Z -> Z -> R) (npx : Z) (v : vec) : R :=
  let l := interpolation_parameters npx npx ((IZR npx - 1) / 2) v in
  if Rle_dec 0 (vz v) then interpolate upper l else interpolate lower l.
