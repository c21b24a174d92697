From Coq Require Import Reals ZArith Lra.
From Verif Require Import Model.Intensity Spec.DataTypes.
Local Open Scope R_scope.

Lemma lowest_eq t : lowest t = dtype_min t.
Proof. destruct t; unfold lowest, dtype_min; cbn [kind_of dtype_range fst Nat.sub pow]; lra. Qed.
Lemma highest_eq t : highest t = dtype_max t.
Proof. destruct t; unfold highest, dtype_max; cbn [kind_of dtype_range snd Nat.sub pow]; lra. Qed.
