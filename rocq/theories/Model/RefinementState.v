(** State shared between refinement calls: class-level dictionaries of _RefinementSetup and the dictionary of the caller,
    src/kikuchipy/indexing/_refinement/_refinement.py 902-1022, 1051-1139, 378, 615, 750. Python values other than
    strings, booleans and dictionaries are represented by numbers; an optimiser of NLopt by what it was set up with. *)
From Coq Require Import String List Bool Arith.
From Verif Require Import Model.RefinementBounds.
Import ListNotations.
Local Open Scope string_scope.
Local Open Scope list_scope.

Inductive value :=
| VNum (n : nat) | VStr (s : string) | VBool (b : bool) | VEmptyDict
| VOpt (nvariables rtol : nat) (initial maxeval : option nat).
Definition dict := list (string * value).
Fixpoint get (k : string) (d : dict) : option value :=
  match d with [] => None | (k', v) :: d => if String.eqb k k' then Some v else get k d end.
Fixpoint del (k : string) (d : dict) : dict :=
  match d with [] => [] | (k', v) :: d => if String.eqb k k' then del k d else (k', v) :: del k d end.
Definition set (k : string) (v : value) (d : dict) : dict := (k, v) :: del k d.

(** One refinement call. [steps_ok]: the number of initial steps matches the mode (1107-1112). *)
Record call := Call {
  c_mode : mode; c_method : optimiser; c_rtol : nat; c_kwargs : option nat; c_initial : option nat; c_steps_ok : bool;
  c_maxeval : option nat; c_fixed : nat; c_rescale : bool; c_trust : bool }.
Definition is_nlopt (k : optimiser) : bool := match k with LnNelderMead => true | _ => false end.
Definition name (k : optimiser) : string :=
  match k with
  | Minimize => "minimize" | LnNelderMead => "ln_neldermead" | Basinhopping => "basinhopping"
  | DifferentialEvolution => "differential_evolution" | DualAnnealing => "dual_annealing" | Shgo => "shgo"
  end.

(** Class attributes (918-919) and dictionaries of callers, by identity. *)
Record state := State { class_map : dict; class_solver : dict; callers : nat -> dict }.
Definition initial_state (callers : nat -> dict) : state := State [] [] callers.

Inductive write := ClassMap (k : string) (v : value) | ClassMapDel (k : string) | ClassSolver (k : string) (v : value)
| Caller (d : nat) (k : string) (v : value).
Definition apply (w : write) (st : state) : state :=
  match w with
  | ClassMap k v => State (set k v (class_map st)) (class_solver st) (callers st)
  | ClassMapDel k => State (del k (class_map st)) (class_solver st) (callers st)
  | ClassSolver k v => State (class_map st) (set k v (class_solver st)) (callers st)
  | Caller d k v => State (class_map st) (class_solver st) (fun d' => if Nat.eqb d' d then set k v (callers st d') else callers st d')
  end.

Definition drop_axis (m : mode) : value := VNum (match m with Pc => 1 | _ => 12 end).
Definition opt_of (c : call) : value := VOpt (nvars (c_mode c)) (c_rtol c) (c_initial c) (c_maxeval c).
(** Defaults added to the keyword arguments of SciPy, 1124-1136. *)
Definition added (k : optimiser) (d : dict) : list (string * value) :=
  match k with
  | Minimize => match get "method" d with None => [("method", VStr "Nelder-Mead")] | Some _ => [] end
  | Basinhopping => match get "minimizer_kwargs" d with None => [("minimizer_kwargs", VEmptyDict)] | Some _ => [] end
  | _ => []
  end.
(** Errors before anything is written (1078-1082, 1107-1112). *)
Definition accepted (c : call) : bool := negb (is_nlopt (c_method c)) || match c_initial c with Some _ => c_steps_ok c | None => true end.

(** Writes in order. *)
Definition writes (st : state) (c : call) : list write :=
  if negb (accepted c) then [] else
  (if is_nlopt (c_method c) then [ClassMap "opt" (opt_of c)]
   else match c_kwargs c with Some d => map (fun kv => Caller d (fst kv) (snd kv)) (added (c_method c) (callers st d)) | None => [] end)
  ++ (if is_nlopt (c_method c) then [ClassSolver "fixed_parameters" (VNum (c_fixed c)); ClassSolver "rescale" (VBool (c_rescale c))] else [])
  ++ [ClassMap "drop_axis" (drop_axis (c_mode c)); ClassMap "new_axis" (VNum 1); ClassMap "dtype" (VStr "float64")]
  ++ (if is_nlopt (c_method c) then [ClassSolver "trust_region_passed" (VBool (c_trust c))] else [ClassMapDel "opt"]).
Definition apply_all (ws : list write) (st : state) : state := fold_left (fun st w => apply w st) ws st.

(** Events of a session: a call, possibly stopped by an exception after n writes, and the caller changing a dictionary. *)
Inductive event := Refine (c : call) (stopped : option nat) | Change (d : nat) (new : dict).
Definition step (st : state) (e : event) : state :=
  match e with
  | Refine c s => let ws := writes st c in apply_all (match s with None => ws | Some n => firstn n ws end) st
  | Change d new => State (class_map st) (class_solver st) (fun d' => if Nat.eqb d' d then new else callers st d')
  end.
Definition history (es : list event) (st : state) : state := fold_left step es st.

(** What a call passes to da.map_blocks (expanded map_blocks_kwargs, solver_kwargs) and keyword arguments for SciPy. *)
Record settings := Settings { s_map : dict; s_solver : dict; s_kwargs : dict }.
Definition settings_of (st : state) (c : call) : option settings :=
  if negb (accepted c) then None else
  let st' := apply_all (writes st c) st in
  Some (if is_nlopt (c_method c) then Settings (class_map st') (class_solver st') []
        else Settings (class_map st')
               (set "trust_region_passed" (VBool (c_trust c)) (set "rescale" (VBool (c_rescale c))
                 (set "fixed_parameters" (VNum (c_fixed c)) [("method", VStr (name (c_method c)))])))
               (match c_kwargs c with
                | Some d => callers st' d
                | None => fold_left (fun d kv => set (fst kv) (snd kv) d) (added (c_method c) []) []
                end)).
(** With compute=False and NLopt, solver_kwargs is the class-level dictionary. If Dask keeps the reference, a later
    computation sees it as it is then. *)
Definition deferred_solver_by_reference (now : state) : dict := class_solver now.
