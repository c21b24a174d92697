(** Names of optimisation methods, which may be written in upper or lower case, and what the documentation of refine_orientation() says of
    each of them. *)
From Coq Require Import String Ascii List Arith.
Import ListNotations.
Local Open Scope string_scope.

Definition capital (c : ascii) : Prop := 65 <= nat_of_ascii c <= 90.
(** The same letter in either case, or the same other character. *)
Definition same_letter (a b : ascii) : Prop :=
  a = b \/ (capital a /\ nat_of_ascii b = nat_of_ascii a + 32) \/ (capital b /\ nat_of_ascii a = nat_of_ascii b + 32).
Fixpoint same_word (a b : string) : Prop :=
  match a, b with
  | EmptyString, EmptyString => True
  | String x a, String y b => same_letter x y /\ same_word a b
  | _, _ => False
  end.
(** Methods of SciPy, and the one of NLopt. *)
Definition scipy_methods : list string := ["minimize"; "basinhopping"; "differential_evolution"; "dual_annealing"; "shgo"].
Definition nlopt_methods : list string := ["LN_NELDERMEAD"].
(** Arguments of SciPy's function that refine_orientation() and the like set themselves, by name. The bounds of minimize() are set as well,
    but replace those given. *)
Definition set_by_refinement (n : string) : list string :=
  if String.eqb n "minimize" then ["fun"; "x0"; "args"]
  else if String.eqb n "basinhopping" then ["func"; "x0"]
  else ["func"; "args"; "bounds"].
