(** C57: every pattern is refined with its own bounds and parameters, whatever order the chunks are processed in. *)
From Coq Require Import List Bool Arith Lia.
From Verif Require Import Model.RefinementSchedule.
Import ListNotations.

Definition of_chunk (t : nat) (out : list (nat * nat * option nat)) := filter (fun o => Nat.eqb (fst (fst o)) t) out.

Lemma own_chunk : forall t tr mem l,
  (actions_of t tr = program l -> of_chunk t (run true mem tr) = map (fun p => (t, p, Some p)) l) /\
  (forall p, actions_of t tr = Optimise p :: program l -> mem t = Some p -> of_chunk t (run true mem tr) = (t, p, Some p) :: map (fun p => (t, p, Some p)) l).
Proof.
  intros t tr. induction tr as [|[t' a] tr IH]; intros mem l.
  - split; [|intros p H; cbn in H; discriminate]. destruct l; cbn; [reflexivity|discriminate].
  - unfold actions_of in *. cbn [filter fst].
    destruct (Nat.eqb t' t) eqn:E; cbn [map snd].
    + apply Nat.eqb_eq in E. subst t'. split.
      * destruct l as [|p l]; cbn; [discriminate|]. intros H. injection H as -> H. cbn [run cell].
        apply (IH (fun c => if Nat.eqb c t then Some p else mem c) l); [exact H|]. now rewrite Nat.eqb_refl.
      * intros p H M. injection H as -> H. cbn [run cell of_chunk filter fst]. rewrite Nat.eqb_refl, M. f_equal. now apply IH.
    + destruct a as [q|q]; cbn [run cell].
      * apply Nat.eqb_neq in E. set (mem' := fun c => if Nat.eqb c t' then Some q else mem c). destruct (IH mem' l) as [A B].
        split; [exact A|]. intros p H M. apply B; [exact H|]. unfold mem'. destruct (Nat.eqb_spec t t'); [congruence|exact M].
      * cbn [of_chunk filter fst]. rewrite E. apply IH.
Qed.

(** With a copy per chunk, as for NLopt: for every division into chunks and every interleaving, each chunk refines exactly
    its patterns, in order, each with its own bounds. *)
Theorem C57_own_copies : forall chunks tr mem t, interleaving chunks tr ->
  of_chunk t (run true mem tr) = map (fun p => (t, p, Some p)) (nth t chunks []).
Proof. intros chunks tr mem t H. apply own_chunk. apply H. Qed.
Theorem C57_no_foreign_bounds : forall chunks tr mem t p q, interleaving chunks tr -> In (t, p, q) (run true mem tr) -> q = Some p /\ In p (nth t chunks []).
Proof.
  intros chunks tr mem t p q H I. assert (J : In (t, p, q) (of_chunk t (run true mem tr))) by (apply filter_In; cbn; now rewrite Nat.eqb_refl).
  rewrite (C57_own_copies chunks) in J by exact H. apply in_map_iff in J as (x & E & X). injection E as -> <-. auto.
Qed.

(** With one dictionary for all chunks this holds when patterns are refined one at a time, in any order of the chunks. *)
Theorem C57_shared_one_at_a_time_partial : forall order mem,
  run false mem (flat_map (fun tp => [(fst tp, Write (snd tp)); (fst tp, Optimise (snd tp))]) order) = map (fun tp => (fst tp, snd tp, Some (snd tp))) order.
Proof.
  induction order as [|[t p] order IH]; intros mem; cbn; [reflexivity|]. f_equal. apply IH.
Qed.
(** Otherwise a pattern may be refined with the bounds (or pattern) of another. *)
Theorem C57_shared_refuted : forall p q mem, p <> q ->
  exists tr, interleaving [[p]; [q]] tr /\ In (0, p, Some q) (run false mem tr).
Proof.
  intros p q mem N. exists [(0, Write p); (1, Write q); (0, Optimise p); (1, Optimise q)]. split.
  - intros [|[|[|t]]]; reflexivity.
  - cbn. auto.
Qed.

Example C57_case : interleaving [[3; 4]; [5]] [(1, Write 5); (0, Write 3); (0, Optimise 3); (0, Write 4); (1, Optimise 5); (0, Optimise 4)].
Proof. intros [|[|[|t]]]; reflexivity. Qed.
Print Assumptions C57_own_copies.
