(** Chunks of patterns refined in parallel. In each chunk patterns are refined one after another
    (src/kikuchipy/indexing/_refinement/_refinement.py 470-500, 526-570, 657-666, 683-698, 797-807, 827-844), and refining
    a pattern first writes what belongs to it and then runs the optimiser: SciPy's "bounds" or, for basin hopping,
    "minimizer_kwargs" in method_kwargs (_solvers.py 172-196), NLopt's objective function and bounds in the optimiser
    (_solvers.py 503-512), which each chunk copies (_refinement.py 530). *)
From Coq Require Import List Bool Arith.
Import ListNotations.

(** What is written is represented by the pattern it belongs to. *)
Inductive action := Write (p : nat) | Optimise (p : nat).
Definition program (patterns : list nat) : list action := flat_map (fun p => [Write p; Optimise p]) patterns.

(** The scheduler: which chunk does its next action. A trace is any interleaving of the programs of all chunks. *)
Definition event := (nat * action)%type.
Definition actions_of (t : nat) (tr : list event) : list action := map snd (filter (fun e => Nat.eqb (fst e) t) tr).
Definition interleaving (chunks : list (list nat)) (tr : list event) : Prop := forall t, actions_of t tr = program (nth t chunks []).

(** Run a trace; [own] says whether every chunk has its own copy of what is written to. The result lists the chunk, the
    pattern, and whose bounds and parameters the optimiser was run with. *)
Definition cell (own : bool) (t : nat) : nat := if own then t else 0.
Fixpoint run (own : bool) (mem : nat -> option nat) (tr : list event) : list (nat * nat * option nat) :=
  match tr with
  | [] => []
  | (t, Write p) :: tr => run own (fun c => if Nat.eqb c (cell own t) then Some p else mem c) tr
  | (t, Optimise p) :: tr => (t, p, mem (cell own t)) :: run own mem tr
  end.
