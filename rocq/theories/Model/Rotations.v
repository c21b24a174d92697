(** Rotations used in pattern simulation (_utils/numba.py, lines 26-79).  Real numbers instead of
    doubles; one vector at a time (rotate_vector works on the rows of an array). *)
From Coq Require Import Reals.
From Verif Require Import Model.Detector.
Local Open Scope R_scope.

Record quat := Quat { qa : R; qb : R; qc : R; qd : R }.
Definition qneg (q : quat) : quat := Quat (- qa q) (- qb q) (- qc q) (- qd q).

(** rotation_from_euler (44-57) *)
Definition rotation_from_euler (alpha beta gamma : R) : quat :=
  let sigma := 0.5 * (alpha + gamma) in
  let delta := 0.5 * (alpha - gamma) in
  let c := cos (0.5 * beta) in
  let s := sin (0.5 * beta) in
  let rot := Quat (c * cos sigma) (- s * cos delta) (- s * sin delta) (- c * sin sigma) in
  if Rlt_dec (qa rot) 0 then qneg rot else rot.

(** rotation_from_rodrigues (26-41).  None: 0 / 0, NaN. *)
Definition rotation_from_rodrigues (rx ry rz : R) : option quat :=
  let norm := sqrt (rx * rx + ry * ry + rz * rz) in
  if Req_EM_T norm 0 then None
  else
    let half_angle := atan norm in
    let s := sin half_angle in
    let rot := Quat (cos half_angle) (s * rx / norm) (s * ry / norm) (s * rz / norm) in
    Some (if Rlt_dec (qa rot) 0 then qneg rot else rot).

(** rotate_vector (60-79) *)
Definition rotate_vector (q : quat) (v : vec) : vec :=
  let (a, b, c, d) := q in
  let (x, y, z) := v in
  let aa := a * a in let bb := b * b in let cc := c * c in let dd := d * d in
  let ac := a * c in let ab := a * b in let ad := a * d in let bc := b * c in let bd := b * d in let cd := c * d in
  Vec ((aa + bb - cc - dd) * x + 2 * ((ac + bd) * z + (bc - ad) * y))
      ((aa - bb + cc - dd) * y + 2 * ((ad + bc) * x + (cd - ab) * z))
      ((aa - bb - cc + dd) * z + 2 * ((ab + cd) * y + (bd - ac) * x)).
