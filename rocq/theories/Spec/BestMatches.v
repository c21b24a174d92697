(** Specification of "the best matches of one experimental pattern".

    Independent of the indexing code: a result is a list of
    (dictionary index, score) pairs, best first. *)
From Coq Require Import List ZArith.
Import ListNotations.

(** [better a b]: score [a] is at least as good as score [b]. [sgn] is the
    metric's sign: [1] when larger scores are better, [-1] when smaller are. *)
Definition at_least_as_good (sgn a b : Z) : Prop := (sgn * b <= sgn * a)%Z.

(** [best_matches sgn score N k res]: [res] lists [min k N] different entries of a
    dictionary with [N] entries, each with its true score, best first, and every
    entry left out is no better than any entry returned. *)
Definition best_matches (sgn : Z) (score : nat -> Z) (N k : nat)
    (res : list (nat * Z)) : Prop :=
  length res = Nat.min k N /\
  NoDup (map fst res) /\
  (forall i s, In (i, s) res -> i < N /\ s = score i) /\
  (forall p q i s j t, p < q -> nth_error res p = Some (i, s) ->
     nth_error res q = Some (j, t) -> at_least_as_good sgn s t) /\
  (forall j, j < N -> ~ In j (map fst res) ->
     forall i s, In (i, s) res -> at_least_as_good sgn s (score j)).
