(** Which optimiser a refinement uses, with which options, and what it prints about it: _RefinementSetup.set_optimization_parameters
    (src/kikuchipy/indexing/_refinement/_refinement.py 1053-1139) and get_info_message (1244-1285), SUPPORTED_OPTIMIZATION_METHODS
    (indexing/_refinement/__init__.py 32-64), the message printed after the bounds are made (_refine_orientation 374-424, and the same in
    _refine_pc and _refine_orientation_pc), and the calls of the optimisers (_solvers.py 178-205 and 503-513; the same in the other solvers).

    [V] are the Python values in dictionaries of keyword arguments: [text] of strings, [no_items] is the empty dictionary and [pairs] an
    array of pairs of bounds.  Simplifications: names are ASCII; real numbers for floats; the printed message is a list of lines with the
    values that are printed in them.  What earlier calls leave behind is in RefinementState.v. *)
From Coq Require Import String Ascii List Arith ZArith Reals Bool.
From Verif Require Import Model.Binary Model.RefinementBounds.
From Verif Require Model.RefinementState.
Import ListNotations.
Local Open Scope string_scope.
Local Open Scope nat_scope.

(** str.lower and str.upper *)
Definition lower_char (c : ascii) : ascii := let n := nat_of_ascii c in if (65 <=? n) && (n <=? 90) then ascii_of_nat (n + 32) else c.
Definition upper_char (c : ascii) : ascii := let n := nat_of_ascii c in if (97 <=? n) && (n <=? 122) then ascii_of_nat (n - 32) else c.
Fixpoint map_string (f : ascii -> ascii) (s : string) : string := match s with EmptyString => EmptyString | String c s => String (f c) (map_string f s) end.
Definition lower := map_string lower_char.
Definition upper := map_string upper_char.

Inductive library := SciPy | NLopt.
Inductive kind := Local | Global.
(** __init__.py 32-64: kind, whether bounds are supported, and package *)
Definition supported : list (optimiser * (kind * bool * library)) :=
  [(Minimize, (Local, true, SciPy)); (LnNelderMead, (Local, true, NLopt)); (Basinhopping, (Global, false, SciPy));
   (DifferentialEvolution, (Global, true, SciPy)); (DualAnnealing, (Global, true, SciPy)); (Shgo, (Global, true, SciPy))].

Section Report.
Context {V : Type}.
Variables (text : string -> V) (no_items : V) (pairs : list R * list R -> V).
Definition kwargs := list (string * V).
Definition get (k : string) (d : kwargs) : option V := option_map snd (find (fun e => String.eqb (fst e) k) d).
Definition has (k : string) (d : kwargs) : bool := existsb (fun e => String.eqb (fst e) k) d.
(** d[k] = v *)
Definition set (k : string) (v : V) (d : kwargs) : kwargs :=
  if has k d then map (fun e => if String.eqb (fst e) k then (k, v) else e) d else (d ++ [(k, v)])%list.

(** The optimiser as set up: NLopt's object, or SciPy's function with keyword arguments *)
Inductive solver := Opt (algorithm : string) (variables : nat) (ftol_rel : R) (steps : option (list R)) (maxeval : option Z) | Function (f : optimiser) (kw : kwargs).
Record settings := Settings {
  method_name : V; optimization_type : kind; supports_bounds : bool; package : library;
  initial_step : option (list R); max_evaluations : option Z; used_solver : solver }.
(** 1082-1139; [installed] is whether nlopt is.  None for a ValueError or ImportError. *)
Definition set_optimization_parameters (m : mode) (installed : bool) (rtol : R) (method : string) (method_kwargs : option kwargs)
    (initial : option (list R)) (maxeval : option Z) : option settings :=
  let method := lower method in
  let? e := find (fun e => String.eqb (RefinementState.name (fst e)) method) supported in
  let '(f, (type, bounds, package)) := e in
  match package with
  | NLopt =>
      if negb installed then None
      else
        let? steps := match initial with None => Some None | Some s => option_map Some (initial_steps m s) end in
        Some (Settings (text (upper method)) type bounds NLopt steps maxeval (Opt (upper method) (nvars m) rtol steps maxeval))
  | SciPy =>
      let kw := match method_kwargs with None => [] | Some d => d end in
      let (name, kw) :=
        if String.eqb method "minimize" && negb (has "method" kw) then (text "Nelder-Mead", set "method" (text "Nelder-Mead") kw)
        else match get "method" kw with Some v => (v, kw) | None => (text method, kw) end in
      let kw := if String.eqb method "basinhopping" && negb (has "minimizer_kwargs" kw) then set "minimizer_kwargs" no_items kw else kw in
      Some (Settings name type bounds SciPy None None (Function f kw))
  end.

(** 1259-1285 *)
Inductive line :=
| MethodLine (name : V) (type : kind) (package : library)
| TrustRegionLine (t : option (list R))
| KeywordLine (kw : kwargs)
| ToleranceLine (rtol : R)
| InitialStepLine (steps : list R)
| MaxEvaluationsLine (n : Z)
| OperatorsLine (n : nat).
Definition get_info_message (s : settings) (trust_region : option argument) (n_ops : nat) : list line :=
  ([MethodLine (method_name s) (optimization_type s) (package s)]
   ++ (if supports_bounds s then [TrustRegionLine (option_map values trust_region)] else [])
   ++ match used_solver s with
      | Function _ kw => [KeywordLine kw]
      | Opt _ _ rtol _ _ =>
          [ToleranceLine rtol]
          ++ match initial_step s with Some (x :: l) => [InitialStepLine (x :: l)] | _ => [] end
          ++ match max_evaluations s with Some n => if (n =? 0)%Z then [] else [MaxEvaluationsLine n] | None => [] end
      end
   ++ if 0 <? n_ops then [OperatorsLine n_ops] else [])%list.
(** What is printed (374-424): the trust region is printed after bounds were made from it. *)
Definition report (m : mode) (s : settings) (trust_region : option argument) (n_ops : nat) : list line :=
  get_info_message s (option_map (after m) trust_region) n_ops.

(** One run of the optimiser from the point x (_solvers.py 178-205 and 503-513): what it is called with.  None for a TypeError, as keyword
    arguments are given twice.  Not modelled: the fixed parameters added to minimizer_kwargs of basinhopping(). *)
Inductive run := RunNlopt (algorithm : string) (variables : nat) (ftol_rel : R) (steps : option (list R)) (maxeval : option Z) (bounds : option (list R * list R))
| RunScipy (f : optimiser) (kw : kwargs) (bounds : option (list R * list R)).
Definition runs (m : mode) (x : list R) (trust_region : option argument) (s : settings) : option run :=
  match used_solver s with
  | Opt a n r st me => Some (RunNlopt a n r st me (passed_bounds LnNelderMead m x trust_region))
  | Function Minimize kw =>
      let b := passed_bounds Minimize m x trust_region in
      let kw := match b with Some b => set "bounds" (pairs b) kw | None => kw end in
      if existsb (fun k => has k kw) ["fun"; "x0"; "args"] then None else Some (RunScipy Minimize kw b)
  | Function Basinhopping kw => if existsb (fun k => has k kw) ["func"; "x0"] then None else Some (RunScipy Basinhopping kw None)
  | Function f kw => if existsb (fun k => has k kw) ["func"; "args"; "bounds"] then None else Some (RunScipy f kw (passed_bounds f m x trust_region))
  end.
End Report.
Arguments kwargs : clear implicits. Arguments settings : clear implicits. Arguments solver : clear implicits. Arguments line : clear implicits. Arguments run : clear implicits.
