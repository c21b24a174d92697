(** C106: a refinement uses the optimiser and options asked for, and prints what it uses. *)
From Coq Require Import String Ascii List Arith ZArith Reals Bool Lia Lra.
From Verif Require Import Model.Binary Model.RefinementBounds Model.RefinementReport Spec.MethodNames.
From Verif Require Model.RefinementState.
Import ListNotations.
Local Open Scope string_scope.
Local Open Scope nat_scope.

(** ** Names *)

Lemma lower_char_code c : nat_of_ascii (lower_char c) = if (65 <=? nat_of_ascii c) && (nat_of_ascii c <=? 90) then nat_of_ascii c + 32 else nat_of_ascii c.
Proof.
  unfold lower_char. destruct ((65 <=? nat_of_ascii c) && (nat_of_ascii c <=? 90)) eqn:E; [|reflexivity].
  apply andb_true_iff in E as [_ E]. apply Nat.leb_le in E. apply nat_ascii_embedding. lia.
Qed.
Lemma same_letter_iff a b : same_letter a b <-> lower_char a = lower_char b.
Proof.
  assert (I : lower_char a = lower_char b <-> nat_of_ascii (lower_char a) = nat_of_ascii (lower_char b)).
  { split; [congruence|]. intros H. rewrite <- (ascii_nat_embedding (lower_char a)), H. apply ascii_nat_embedding. }
  assert (J : a = b <-> nat_of_ascii a = nat_of_ascii b).
  { split; [congruence|]. intros H. rewrite <- (ascii_nat_embedding a), H. apply ascii_nat_embedding. }
  rewrite I, !lower_char_code. unfold same_letter, capital. rewrite J.
  destruct (Nat.leb_spec 65 (nat_of_ascii a)), (Nat.leb_spec (nat_of_ascii a) 90), (Nat.leb_spec 65 (nat_of_ascii b)), (Nat.leb_spec (nat_of_ascii b) 90); cbn [andb]; lia.
Qed.
Lemma same_word_iff a : forall b, same_word a b <-> lower a = lower b.
Proof.
  induction a as [|x a IH]; intros [|y b]; cbn; try (split; [contradiction|discriminate]); [split; reflexivity|].
  rewrite same_letter_iff. fold (lower a). fold (lower b). rewrite IH. split; [intros [-> ->]; reflexivity|]. intros H. injection H as -> ->. split; reflexivity.
Qed.

Section C.
Context {V : Type}.
Variables (text : string -> V) (no_items : V) (pairs : list R * list R -> V).
Local Notation kwargs := (kwargs V).
Local Notation setup := (set_optimization_parameters text no_items).
Local Notation runs := (runs pairs).

Lemma get_has k (d : kwargs) : has k d = true <-> get k d <> None.
Proof.
  unfold has, get. induction d as [|e d IH]; cbn; [split; [discriminate|congruence]|]. destruct (String.eqb (fst e) k); cbn; [split; [discriminate|reflexivity]|exact IH].
Qed.
Lemma get_set k v (d : kwargs) k' : get k' (set k v d) = if String.eqb k k' then Some v else get k' d.
Proof.
  unfold set. destruct (has k d) eqn:H.
  - unfold get, has in *. induction d as [|e d IH]; [discriminate|]. cbn in *. destruct (String.eqb_spec (fst e) k) as [E|E]; cbn.
    + destruct (String.eqb_spec k k') as [K|K]; [reflexivity|]. destruct (String.eqb_spec (fst e) k'); [congruence|].
      clear -K. induction d as [|e d IH]; [reflexivity|]. cbn. destruct (String.eqb_spec (fst e) k) as [E|E]; cbn.
      * destruct (String.eqb_spec k k'); [contradiction|]. destruct (String.eqb_spec (fst e) k'); [congruence|]. exact IH.
      * destruct (String.eqb (fst e) k'); [reflexivity|exact IH].
    + destruct (String.eqb_spec (fst e) k') as [F|F]; [destruct (String.eqb_spec k k'); [congruence|reflexivity]|]. exact (IH H).
  - unfold get, has in *. induction d as [|e d IH]; cbn in *; [destruct (String.eqb k k'); reflexivity|].
    destruct (String.eqb_spec (fst e) k) as [E|E]; [discriminate|]. destruct (String.eqb_spec (fst e) k') as [F|F]; [destruct (String.eqb_spec k k'); [congruence|reflexivity]|].
    exact (IH H).
Qed.
Lemma absent k (d : kwargs) : has k d = false <-> get k d = None.
Proof. destruct (has k d) eqn:H; [apply get_has in H; split; [discriminate|contradiction]|]. split; [|reflexivity]. intros _. destruct (get k d) eqn:G; [|reflexivity]. exfalso. assert (X : has k d = true) by (apply get_has; congruence). congruence. Qed.

Lemma supported_cases l : match find (fun e => String.eqb (RefinementState.name (fst e)) l) supported with
  | Some (f, (ty, b, p)) => RefinementState.name f = l /\ (ty = Local <-> f = Minimize \/ f = LnNelderMead) /\ (b = false <-> f = Basinhopping) /\ (p = NLopt <-> f = LnNelderMead)
  | None => forall f, RefinementState.name f <> l end.
Proof.
  cbn [supported find fst]. do 6 (match goal with |- context [String.eqb (RefinementState.name ?f) l] => destruct (String.eqb_spec (RefinementState.name f) l) as [E|] end; [split; [exact E|]; (split; [|split]); split; try discriminate; try reflexivity; try (intros [X|X]; discriminate X); auto|]).
  intros []; assumption.
Qed.

(** Exactly the documented methods are accepted, in any case of letters, NLopt's if it is installed and the number of initial steps fits. *)
Theorem C106_accepted_iff m installed rtol method kw initial maxeval :
  setup m installed rtol method kw initial maxeval <> None <->
  (exists n, In n scipy_methods /\ same_word method n) \/
  ((exists n, In n nlopt_methods /\ same_word method n) /\ installed = true /\
   forall s, initial = Some s -> length s = match m with OriPc => 2 | _ => 1 end).
Proof.
  unfold set_optimization_parameters. cbv zeta. pose proof (supported_cases (lower method)) as S.
  assert (W : forall n, same_word method n <-> lower method = lower n) by (intros; apply same_word_iff).
  destruct (find _ supported) as [[f [[ty b] p]]|]; cbn [bind].
  - destruct S as (N & _ & _ & P). destruct p.
    + split; [intros _|intros _]; [left; exists (RefinementState.name f); split; [destruct P as [_ P]; destruct f; try discriminate (P eq_refl); cbn; tauto|apply W; rewrite <- N; destruct f; reflexivity]|].
      destruct (if String.eqb _ _ && _ then _ else _) as [nm k]. discriminate.
    + destruct P as [P _]. specialize (P eq_refl). subst f. destruct installed; cbn [negb].
      * unfold initial_steps. destruct initial as [s|]; cbn [option_map bind].
        -- destruct (Nat.eqb_spec (length s) (match m with OriPc => 2 | _ => 1 end)) as [E|E]; cbn [option_map bind].
           ++ split; [intros _|intros _; discriminate]. right. split; [exists "LN_NELDERMEAD"; split; [now left|apply W; rewrite <- N; reflexivity]|]. split; [reflexivity|]. intros s' H. injection H as <-. exact E.
           ++ split; [congruence|]. intros [(n & I & X)|(_ & _ & X)]; [|elim E; apply X; reflexivity].
              exfalso. apply W in X. rewrite <- N in X. clear -I X. cbn in I. repeat (destruct I as [<-|I]; [discriminate X|]). destruct I.
        -- split; [intros _|intros _; discriminate]. right. split; [exists "LN_NELDERMEAD"; split; [now left|apply W; rewrite <- N; reflexivity]|]. split; [reflexivity|]. discriminate.
      * split; [congruence|]. intros [(n & I & X)|(_ & X & _)]; [|discriminate].
        exfalso. apply W in X. rewrite <- N in X. clear -I X. cbn in I. repeat (destruct I as [<-|I]; [discriminate X|]). destruct I.
  - split; [congruence|]. intros [(n & I & X)|((n & I & X) & _)]; exfalso; apply W in X; cbn in I.
    + repeat (destruct I as [<-|I]; [first [exact (S Minimize (eq_sym X)) | exact (S Basinhopping (eq_sym X)) | exact (S DifferentialEvolution (eq_sym X)) | exact (S DualAnnealing (eq_sym X)) | exact (S Shgo (eq_sym X))]|]). destruct I.
    + destruct I as [<-|[]]. exact (S LnNelderMead (eq_sym X)).
Qed.
(** The case of letters makes no difference. *)
Theorem C106_letter_case m installed rtol method method' kw initial maxeval : same_word method method' ->
  setup m installed rtol method kw initial maxeval = setup m installed rtol method' kw initial maxeval.
Proof. intros W. apply same_word_iff in W. unfold set_optimization_parameters. cbv zeta. rewrite W. reflexivity. Qed.

Lemma find_name f : find (fun e => String.eqb (RefinementState.name (fst e)) (RefinementState.name f)) supported
  = Some (f, (match f with Minimize | LnNelderMead => Local | _ => Global end, match f with Basinhopping => false | _ => true end, match f with LnNelderMead => NLopt | _ => SciPy end)).
Proof. destruct f; reflexivity. Qed.
Lemma scipy_name n : In n scipy_methods -> exists f, f <> LnNelderMead /\ RefinementState.name f = n /\ lower n = n.
Proof.
  intros I. cbn in I. repeat (destruct I as [<-|I]; [first [exists Minimize; repeat split; [discriminate] | exists Basinhopping; repeat split; [discriminate] | exists DifferentialEvolution; repeat split; [discriminate] | exists DualAnnealing; repeat split; [discriminate] | exists Shgo; repeat split; [discriminate]]|]). destruct I.
Qed.
Definition given (kw : option kwargs) (k : string) : option V := match kw with Some d => get k d | None => None end.
Lemma given_get kw k : given kw k = get k (match kw with Some d => d | None => [] end).
Proof. destruct kw; reflexivity. Qed.

Lemma scipy_setup m installed rtol method kw initial maxeval n : In n scipy_methods -> same_word method n ->
  exists f kw' name, RefinementState.name f = n /\ f <> LnNelderMead /\
  setup m installed rtol method kw initial maxeval = Some (Settings name (match f with Minimize => Local | _ => Global end) (match f with Basinhopping => false | _ => true end) SciPy None None (Function f kw')) /\
  (forall k, get k kw' = if String.eqb k "method" && match f with Minimize => true | _ => false end && match given kw k with None => true | _ => false end then Some (text "Nelder-Mead")
     else if String.eqb k "minimizer_kwargs" && match f with Basinhopping => true | _ => false end && match given kw k with None => true | _ => false end then Some no_items else given kw k) /\
  name = match get "method" kw' with Some v => v | None => text n end.
Proof.
  intros I W. destruct (scipy_name n I) as (f & Nf & N & L). apply same_word_iff in W. rewrite L in W. unfold set_optimization_parameters. cbv zeta. rewrite W, <- N, find_name. cbn [bind].
  assert (P : match f with LnNelderMead => NLopt | _ => SciPy end = SciPy) by (destruct f; congruence). rewrite P.
  assert (T : match f with Minimize | LnNelderMead => Local | _ => Global end = match f with Minimize => Local | _ => Global end) by (destruct f; congruence). rewrite T.
  set (d := match kw with Some d => d | None => [] end).
  assert (M : String.eqb (RefinementState.name f) "minimize" = match f with Minimize => true | _ => false end) by (destruct f; reflexivity). rewrite M.
  assert (B : String.eqb (RefinementState.name f) "basinhopping" = match f with Basinhopping => true | _ => false end) by (destruct f; reflexivity). rewrite B.
  assert (G : forall k, given kw k = get k d) by (intros; apply given_get).
  exists f. destruct f; try (elim Nf; reflexivity); cbn [andb].
  - destruct (has "method" d) eqn:H; cbn [negb].
    + destruct (get "method" d) as [v|] eqn:Gm; [|apply get_has in H; congruence]. do 2 eexists. split; [reflexivity|]. split; [discriminate|]. split; [reflexivity|].
      split; [|rewrite Gm; reflexivity]. intros k. rewrite !andb_false_r, andb_true_r. cbn [andb]. rewrite G. destruct (String.eqb_spec k "method") as [->|]; [rewrite Gm; reflexivity|reflexivity].
    + apply absent in H. do 2 eexists. split; [reflexivity|]. split; [discriminate|]. split; [reflexivity|]. split; [|rewrite get_set; reflexivity].
      intros k. rewrite get_set, !andb_true_r, !andb_false_r. cbn [andb]. rewrite G. rewrite (String.eqb_sym k "method"). destruct (String.eqb_spec "method" k) as [<-|]; [rewrite H; reflexivity|reflexivity].
  - destruct (get "method" d) as [v|] eqn:Gm; destruct (has "minimizer_kwargs" d) eqn:H; cbn [negb].
    + do 2 eexists. split; [reflexivity|]. split; [discriminate|]. split; [reflexivity|]. split; [|rewrite Gm; reflexivity].
      intros k. rewrite !andb_false_r, !andb_true_r. cbn [andb]. rewrite G. destruct (String.eqb_spec k "minimizer_kwargs") as [->|]; [|reflexivity]. destruct (get "minimizer_kwargs" d) eqn:Q; [reflexivity|apply get_has in H; congruence].
    + apply absent in H. do 2 eexists. split; [reflexivity|]. split; [discriminate|]. split; [reflexivity|]. split; [|rewrite get_set; cbn [String.eqb Ascii.eqb Bool.eqb]; rewrite Gm; reflexivity].
      intros k. rewrite get_set, !andb_false_r, !andb_true_r. cbn [andb]. rewrite G, (String.eqb_sym k "minimizer_kwargs"). destruct (String.eqb_spec "minimizer_kwargs" k) as [<-|]; [rewrite H; reflexivity|reflexivity].
    + do 2 eexists. split; [reflexivity|]. split; [discriminate|]. split; [reflexivity|]. split; [|rewrite Gm; reflexivity].
      intros k. rewrite !andb_false_r, !andb_true_r. cbn [andb]. rewrite G. destruct (String.eqb_spec k "minimizer_kwargs") as [->|]; [|reflexivity]. destruct (get "minimizer_kwargs" d) eqn:Q; [reflexivity|apply get_has in H; congruence].
    + apply absent in H. do 2 eexists. split; [reflexivity|]. split; [discriminate|]. split; [reflexivity|]. split; [|rewrite get_set; cbn [String.eqb Ascii.eqb Bool.eqb]; rewrite Gm; reflexivity].
      intros k. rewrite get_set, !andb_false_r, !andb_true_r. cbn [andb]. rewrite G, (String.eqb_sym k "minimizer_kwargs"). destruct (String.eqb_spec "minimizer_kwargs" k) as [<-|]; [rewrite H; reflexivity|reflexivity].
  - destruct (get "method" d) as [v|] eqn:Gm; (do 2 eexists; split; [reflexivity|]; split; [discriminate|]; split; [reflexivity|]; split; [intros k; rewrite !andb_false_r; cbn [andb]; symmetry; apply G|rewrite Gm; reflexivity]).
  - destruct (get "method" d) as [v|] eqn:Gm; (do 2 eexists; split; [reflexivity|]; split; [discriminate|]; split; [reflexivity|]; split; [intros k; rewrite !andb_false_r; cbn [andb]; symmetry; apply G|rewrite Gm; reflexivity]).
  - destruct (get "method" d) as [v|] eqn:Gm; (do 2 eexists; split; [reflexivity|]; split; [discriminate|]; split; [reflexivity|]; split; [intros k; rewrite !andb_false_r; cbn [andb]; symmetry; apply G|rewrite Gm; reflexivity]).
Qed.

(** *** What is run *)

(** SciPy's function of this name is called with the keyword arguments given, "Nelder-Mead" if minimize() is used and no method is given, and
    bounds from the trust region. *)
Theorem C106_scipy m installed rtol method kw initial maxeval n s x t r : In n scipy_methods -> same_word method n ->
  setup m installed rtol method kw initial maxeval = Some s -> runs m x t s = Some r ->
  exists f kw' b, r = RunScipy f kw' b /\ RefinementState.name f = n /\ b = passed_bounds f m x t /\
    get "method" kw' = (match given kw "method" with Some v => Some v | None => if String.eqb n "minimize" then Some (text "Nelder-Mead") else None end) /\
    get "minimizer_kwargs" kw' = (match given kw "minimizer_kwargs" with Some v => Some v | None => if String.eqb n "basinhopping" then Some no_items else None end) /\
    get "bounds" kw' = (if String.eqb n "minimize" then match t with Some _ => option_map pairs b | None => given kw "bounds" end else given kw "bounds") /\
    forall k, k <> "method" -> k <> "minimizer_kwargs" -> k <> "bounds" -> get k kw' = given kw k.
Proof.
  intros I W E H. destruct (scipy_setup m installed rtol method kw initial maxeval n I W) as (f & kw' & name & N & Nf & E' & G & _). rewrite E in E'. injection E' as ->.
  unfold RefinementReport.runs in H. cbn [used_solver] in H. destruct f; try (elim Nf; reflexivity); cbn in N; subst n; cbn [String.eqb Ascii.eqb Bool.eqb].
  - destruct t as [t|]; cbn [passed_bounds] in H.
    + destruct (existsb _ _) in H; [discriminate|]. injection H as <-. do 3 eexists. split; [reflexivity|]. split; [reflexivity|]. split; [reflexivity|].
      rewrite !get_set. cbn [String.eqb Ascii.eqb Bool.eqb]. rewrite !G. cbn. split; [destruct (given kw "method"); reflexivity|]. split; [destruct (given kw "minimizer_kwargs"); reflexivity|]. split; [reflexivity|].
      intros k K1 K2 K3. rewrite get_set, G. destruct (String.eqb_spec "bounds" k); [congruence|]. destruct (String.eqb_spec k "method"); [contradiction|]. cbn [andb]. now rewrite andb_false_r.
    + destruct (existsb _ _) in H; [discriminate|]. injection H as <-. do 3 eexists. split; [reflexivity|]. split; [reflexivity|]. split; [reflexivity|].
      rewrite !G. cbn. split; [destruct (given kw "method"); reflexivity|]. split; [destruct (given kw "minimizer_kwargs"); reflexivity|]. split; [reflexivity|].
      intros k K1 K2 K3. rewrite G. destruct (String.eqb_spec k "method"); [contradiction|]. cbn [andb]. now rewrite andb_false_r.
  - destruct (existsb _ _) in H; [discriminate|]. injection H as <-. do 3 eexists. split; [reflexivity|]. split; [reflexivity|]. split; [reflexivity|].
    rewrite !G. cbn. split; [destruct (given kw "method"); reflexivity|]. split; [destruct (given kw "minimizer_kwargs"); reflexivity|]. split; [reflexivity|].
    intros k K1 K2 K3. rewrite G, !andb_false_r. destruct (String.eqb_spec k "minimizer_kwargs"); [contradiction|]. reflexivity.
  - destruct (existsb _ _) in H; [discriminate|]. injection H as <-. do 3 eexists. split; [reflexivity|]. split; [reflexivity|]. split; [reflexivity|].
    rewrite !G. cbn. split; [destruct (given kw "method"); reflexivity|]. split; [destruct (given kw "minimizer_kwargs"); reflexivity|]. split; [reflexivity|].
    intros k K1 K2 K3. rewrite G, !andb_false_r. reflexivity.
  - destruct (existsb _ _) in H; [discriminate|]. injection H as <-. do 3 eexists. split; [reflexivity|]. split; [reflexivity|]. split; [reflexivity|].
    rewrite !G. cbn. split; [destruct (given kw "method"); reflexivity|]. split; [destruct (given kw "minimizer_kwargs"); reflexivity|]. split; [reflexivity|].
    intros k K1 K2 K3. rewrite G, !andb_false_r. reflexivity.
  - destruct (existsb _ _) in H; [discriminate|]. injection H as <-. do 3 eexists. split; [reflexivity|]. split; [reflexivity|]. split; [reflexivity|].
    rewrite !G. cbn. split; [destruct (given kw "method"); reflexivity|]. split; [destruct (given kw "minimizer_kwargs"); reflexivity|]. split; [reflexivity|].
    intros k K1 K2 K3. rewrite G, !andb_false_r. reflexivity.
Qed.
Lemma nlopt_setup m installed rtol method kw initial maxeval : same_word method "LN_NELDERMEAD" ->
  setup m installed rtol method kw initial maxeval =
  if negb installed then None else
  let? st := match initial with None => Some None | Some s => option_map Some (initial_steps m s) end in
  Some (Settings (text "LN_NELDERMEAD") Local true NLopt st maxeval (Opt "LN_NELDERMEAD" (nvars m) rtol st maxeval)).
Proof. intros W. apply same_word_iff in W. unfold set_optimization_parameters. cbv zeta. rewrite W. reflexivity. Qed.
(** NLopt's algorithm is run with the tolerance, steps and number of evaluations given, and bounds from the trust region. *)
Theorem C106_nlopt m rtol method kw initial maxeval x t : same_word method "LN_NELDERMEAD" ->
  (forall s, initial = Some s -> length s = match m with OriPc => 2 | _ => 1 end) ->
  exists s, setup m true rtol method kw initial maxeval = Some s /\
  runs m x t s = Some (RunNlopt "LN_NELDERMEAD" (match m with OriPc => 6 | _ => 3 end) rtol
    (option_map (fun st => flat_map (fun a => repeat a 3) st) initial) maxeval (match t with Some t => Some (lower_bounds m x t, upper_bounds m x t) | None => None end)).
Proof.
  intros W Hs. rewrite (nlopt_setup _ _ _ _ _ _ _ W). cbn [negb].
  assert (ST : match initial with None => Some None | Some s => option_map Some (initial_steps m s) end = Some (option_map (fun st => flat_map (fun a => repeat a 3) st) initial)).
  { destruct initial as [s|]; [|reflexivity]. unfold initial_steps. rewrite (Hs s eq_refl), Nat.eqb_refl. cbn [option_map]. rewrite flat_map_concat_map. reflexivity. }
  rewrite ST. cbn [bind]. eexists. split; [reflexivity|]. unfold RefinementReport.runs. cbn [used_solver]. unfold nvars. destruct m, t; reflexivity.
Qed.
(** Options of the other library are without effect. *)
Theorem C106_other_options m installed installed' rtol rtol' method kw kw' initial initial' maxeval maxeval' :
  (forall n, In n scipy_methods -> same_word method n -> setup m installed rtol method kw initial maxeval = setup m installed' rtol' method kw initial' maxeval') /\
  (same_word method "LN_NELDERMEAD" -> setup m installed rtol method kw initial maxeval = setup m installed rtol method kw' initial maxeval).
Proof.
  split.
  - intros n I W. destruct (scipy_name n I) as (f & Nf & N & L). apply same_word_iff in W. rewrite L in W. unfold set_optimization_parameters. cbv zeta. rewrite W, <- N, find_name. cbn [bind].
    destruct f; try (elim Nf; reflexivity); reflexivity.
  - intros W. rewrite !(nlopt_setup _ _ _ _ _ _ _ W). reflexivity.
Qed.
(** Arguments that refine_*() sets itself cannot be given as keyword arguments as well: bounds not for global methods of SciPy.  The
    message is printed before. *)
Theorem C106_given_twice m installed rtol method kw initial maxeval n s x t :
  In n ["differential_evolution"; "dual_annealing"; "shgo"] -> same_word method n -> given kw "bounds" <> None ->
  setup m installed rtol method kw initial maxeval = Some s -> runs m x t s = None.
Proof.
  intros I W G E. assert (I' : In n scipy_methods) by (cbn in *; tauto).
  destruct (scipy_setup m installed rtol method kw initial maxeval n I' W) as (f & kw' & name & N & Nf & E' & Gk & _). rewrite E in E'. injection E' as ->.
  unfold RefinementReport.runs. cbn [used_solver]. specialize (Gk "bounds"). cbn in Gk. rewrite <- Gk in G.
  assert (H : has "bounds" kw' = true) by (apply get_has; exact G). cbn in I. destruct f; cbn in N; subst n; cbn [existsb]; rewrite ?H, ?orb_true_r; try reflexivity;
    exfalso; repeat (destruct I as [I|I]; [discriminate I|]); exact I.
Qed.

(** These are all the arguments that cannot be given, and no other keyword argument stops the refinement here. *)
Theorem C106_given_twice_iff m installed rtol method kw initial maxeval n s x t :
  In n scipy_methods -> same_word method n -> setup m installed rtol method kw initial maxeval = Some s ->
  runs m x t s = None <-> exists k, In k (set_by_refinement n) /\ given kw k <> None.
Proof.
  intros I W E. destruct (scipy_setup m installed rtol method kw initial maxeval n I W) as (f & kw' & name & N & Nf & E' & G & _). rewrite E in E'. injection E' as ->.
  assert (X : forall d l, (forall k, In k l -> get k d = given kw k) -> existsb (fun k => has k d) l = true <-> exists k, In k l /\ given kw k <> None).
  { intros d l A. rewrite existsb_exists. split; intros (k & K & H); exists k; (split; [exact K|]); [apply get_has in H|apply get_has]; [rewrite <- (A k K); exact H|rewrite (A k K); exact H]. }
  assert (Y : forall d l (r : run V), (forall k, In k l -> get k d = given kw k) -> (if existsb (fun k => has k d) l then None else Some r) = None <-> exists k, In k l /\ given kw k <> None).
  { intros d l r A. rewrite <- (X d l A). destruct (existsb _ l); split; congruence. }
  unfold RefinementReport.runs. cbn [used_solver].
  destruct f; try (elim Nf; reflexivity); cbn in N; subst n; cbn [set_by_refinement String.eqb Ascii.eqb Bool.eqb]; apply Y;
    intros k K; repeat (destruct K as [<-|K]; [destruct t; cbn [passed_bounds]; rewrite ?get_set, G; reflexivity|]); destruct K.
Qed.

(** *** What is printed *)

Definition states (t : option argument) (n_ops : nat) (r : run V) (l : line V) : Prop :=
  match l with
  | MethodLine v ty p =>
      match r with
      | RunNlopt a _ _ _ _ _ => v = text a /\ p = NLopt /\ ty = Local
      | RunScipy f kw _ => p = SciPy /\ (ty = Local <-> f = Minimize) /\ v = match get "method" kw with Some v => v | None => text (RefinementState.name f) end
      end
  | TrustRegionLine tr => True
  | KeywordLine kw => match r with RunNlopt _ _ _ _ _ _ => False | RunScipy f kw' _ => forall k, get k kw' <> get k kw -> f = Minimize /\ k = "bounds" /\ t <> None end
  | ToleranceLine q => match r with RunNlopt _ _ q' _ _ _ => q = q' | RunScipy _ _ _ => False end
  | InitialStepLine st => match r with RunNlopt _ _ _ st' _ _ => Some st = st' | RunScipy _ _ _ => False end
  | MaxEvaluationsLine n => match r with RunNlopt _ _ _ _ n' _ => Some n = n' | RunScipy _ _ _ => False end
  | OperatorsLine n => n = n_ops
  end.
Lemma setup_cases m installed rtol method kw initial maxeval s : setup m installed rtol method kw initial maxeval = Some s ->
  (exists n, In n scipy_methods /\ same_word method n) \/ (same_word method "LN_NELDERMEAD" /\ installed = true).
Proof.
  intros E. assert (N : setup m installed rtol method kw initial maxeval <> None) by congruence. apply C106_accepted_iff in N.
  destruct N as [N|((n & [<-|[]] & W) & I & _)]; [left; exact N|right; split; assumption].
Qed.
(** Everything printed but the trust region is what the optimiser is called with. *)
Theorem C106_reported m installed rtol method kw initial maxeval s x t n_ops r l :
  setup m installed rtol method kw initial maxeval = Some s -> runs m x t s = Some r -> In l (report m s t n_ops) -> states t n_ops r l.
Proof.
  intros E H L. destruct (setup_cases _ _ _ _ _ _ _ _ E) as [(n & I & W)|[W ->]].
  - destruct (scipy_setup m installed rtol method kw initial maxeval n I W) as (f & kw' & name & N & Nf & E' & G & Nm). rewrite E in E'. injection E' as ->.
    assert (R : exists kw'' b, r = RunScipy f kw'' b /\ forall k, get k kw'' <> get k kw' -> f = Minimize /\ k = "bounds" /\ t <> None).
    { unfold RefinementReport.runs in H. cbn [used_solver] in H. destruct f; try (elim Nf; reflexivity).
      - destruct t as [t|]; cbn [passed_bounds] in H; (destruct (existsb _ _) in H; [discriminate|]); injection H as <-; do 2 eexists; (split; [reflexivity|]).
        + intros k. rewrite get_set. destruct (String.eqb_spec "bounds" k); [|congruence]. intros _. repeat split; [congruence|discriminate].
        + congruence.
      - destruct (existsb _ _) in H; [discriminate|]; injection H as <-; do 2 eexists; (split; [reflexivity|]); congruence.
      - destruct (existsb _ _) in H; [discriminate|]; injection H as <-; do 2 eexists; (split; [reflexivity|]); congruence.
      - destruct (existsb _ _) in H; [discriminate|]; injection H as <-; do 2 eexists; (split; [reflexivity|]); congruence.
      - destruct (existsb _ _) in H; [discriminate|]; injection H as <-; do 2 eexists; (split; [reflexivity|]); congruence. }
    destruct R as (kw'' & b & -> & K). unfold report, get_info_message in L. cbn [method_name optimization_type package supports_bounds used_solver] in L.
    rewrite !in_app_iff in L. destruct L as [[<-|[]]|[L|[[<-|[]]|L]]]; cbn [states].
    + split; [reflexivity|]. split; [destruct f; split; try discriminate; try reflexivity|]. rewrite Nm, N. destruct (get "method" kw'') eqn:Q1, (get "method" kw') eqn:Q2; try reflexivity;
        (destruct (K "method") as (_ & X & _); [congruence|discriminate X]) || (destruct (K "method") as (_ & X & _); [|discriminate X]; congruence) || idtac.
      assert (D : get "method" kw'' = get "method" kw').
      { destruct t as [t0|]; unfold RefinementReport.runs in H; cbn [used_solver] in H; destruct f; try (elim Nf; reflexivity); cbn [passed_bounds] in H;
          (destruct (existsb _ _) in H; [discriminate|]); injection H as <- _ || injection H as <-; rewrite ?get_set; reflexivity. }
      congruence.
    + destruct (match f with Basinhopping => false | _ => true end); [destruct L as [<-|[]]; exact Logic.I|destruct L].
    + exact K.
    + destruct (0 <? n_ops); [destruct L as [<-|[]]; reflexivity|destruct L].
  - rewrite (nlopt_setup _ _ _ _ _ _ _ W) in E. cbn [negb] in E. destruct (match initial with None => _ | Some s => _ end) as [st|]; [|discriminate]. cbn [bind] in E. injection E as <-.
    unfold RefinementReport.runs in H. cbn [used_solver] in H. injection H as <-.
    unfold report, get_info_message in L. cbn [method_name optimization_type package supports_bounds used_solver initial_step max_evaluations] in L.
    rewrite !in_app_iff in L. destruct L as [[<-|[]]|[[<-|[]]|[[[<-|[]]|[L|L]]|L]]]; cbn [states]; auto.
    + destruct st as [[|a st]|]; [destruct L| |destruct L]. destruct L as [<-|[]]. reflexivity.
    + destruct maxeval as [k|]; [|destruct L]. destruct (k =? 0)%Z; [destruct L|]. destruct L as [<-|[]]. reflexivity.
    + destruct (0 <? n_ops); [destruct L as [<-|[]]; reflexivity|destruct L].
Qed.
(** And everything the optimiser is called with is printed; a maximum of 0 evaluations, which is none, is not. *)
Theorem C106_all_reported m installed rtol method kw initial maxeval s x t n_ops r :
  setup m installed rtol method kw initial maxeval = Some s -> runs m x t s = Some r ->
  (exists v ty p, In (MethodLine v ty p) (report m s t n_ops)) /\ (0 < n_ops -> In (OperatorsLine n_ops) (report m s t n_ops)) /\
  match r with
  | RunNlopt _ _ q st me _ => In (ToleranceLine q) (report m s t n_ops) /\ (forall l, st = Some l -> In (InitialStepLine l) (report m s t n_ops)) /\
      forall k, me = Some k -> k <> 0%Z -> In (MaxEvaluationsLine k) (report m s t n_ops)
  | RunScipy _ _ _ => exists kw', In (KeywordLine kw') (report m s t n_ops)
  end.
Proof.
  intros E H. unfold report, get_info_message. split; [do 3 eexists; apply in_or_app; left; left; reflexivity|].
  split; [intros P; rewrite !in_app_iff; do 3 right; apply Nat.ltb_lt in P; rewrite P; now left|].
  destruct (setup_cases _ _ _ _ _ _ _ _ E) as [(n & I & W)|[W ->]].
  - destruct (scipy_setup m installed rtol method kw initial maxeval n I W) as (f & kw' & name & N & Nf & E' & G & Nm). rewrite E in E'. injection E' as ->.
    assert (R : match r with RunNlopt _ _ _ _ _ _ => False | RunScipy _ _ _ => True end).
    { unfold RefinementReport.runs in H. cbn [used_solver] in H. destruct f; try (elim Nf; reflexivity); (destruct (existsb _ _) in H; [discriminate|]); injection H as <-; exact Logic.I. }
    destruct r; [contradiction|]. cbn [used_solver]. exists kw'. rewrite !in_app_iff. right. right. left. now left.
  - rewrite (nlopt_setup _ _ _ _ _ _ _ W) in E. cbn [negb] in E. destruct initial as [i|].
    + unfold initial_steps in E. destruct (Nat.eqb_spec (length i) (match m with OriPc => 2 | _ => 1 end)) as [Li|]; [|discriminate]. cbn [option_map bind] in E. injection E as <-.
      unfold RefinementReport.runs in H. cbn [used_solver] in H. injection H as <-. cbn [used_solver initial_step max_evaluations].
      split; [rewrite !in_app_iff; right; right; left; left; now left|]. split.
      * intros l Q. injection Q as <-. destruct i as [|a i]; [destruct m; discriminate|]. rewrite !in_app_iff. right. right. left. right. left. now left.
      * intros k -> K. rewrite !in_app_iff. right. right. left. right. right. destruct (Z.eqb_spec k 0); [contradiction|]. now left.
    + cbn [bind] in E. injection E as <-. unfold RefinementReport.runs in H. cbn [used_solver] in H. injection H as <-. cbn [used_solver initial_step max_evaluations].
      split; [rewrite !in_app_iff; right; right; left; left; now left|]. split; [discriminate|].
      intros k -> K. rewrite !in_app_iff. right. right. left. right. right. destruct (Z.eqb_spec k 0); [contradiction|]. now left.
Qed.

(** *** The trust region *)

Definition run_bounds (r : run V) := match r with RunNlopt _ _ _ _ _ b => b | RunScipy _ _ b => b end.
Lemma trust_line m s t n_ops tr : In (TrustRegionLine tr) (report (V := V) m s t n_ops) <-> supports_bounds s = true /\ tr = option_map values (option_map (after m) t).
Proof.
  unfold report, get_info_message. rewrite !in_app_iff. split.
  - intros [[X|[]]|[X|[X|X]]]; [discriminate| | |].
    + destruct (supports_bounds s); [|destruct X]. destruct X as [X|[]]. injection X as <-. split; reflexivity.
    + exfalso. destruct (used_solver s); [|destruct X as [X|[]]; discriminate]. rewrite !in_app_iff in X. destruct X as [[X|[]]|[X|X]]; [discriminate| |].
      * destruct (initial_step s) as [[|a l]|]; [destruct X| |destruct X]. destruct X as [X|[]]. discriminate X.
      * destruct (max_evaluations s) as [k|]; [|destruct X]. destruct (k =? 0)%Z; [destruct X|]. destruct X as [X|[]]; discriminate.
    + exfalso. destruct (0 <? n_ops); [destruct X as [X|[]]; discriminate|destruct X].
  - intros [-> ->]. right. left. now left.
Qed.
(** A trust region is printed if and only if the optimiser gets bounds from it. *)
Theorem C106_trust_region_printed_iff m installed rtol method kw initial maxeval s x t n_ops r :
  setup m installed rtol method kw initial maxeval = Some s -> runs m x (Some t) s = Some r ->
  ((exists tr, In (TrustRegionLine tr) (report m s (Some t) n_ops)) <-> run_bounds r = Some (lower_bounds m x t, upper_bounds m x t)) /\
  (~ (exists tr, In (TrustRegionLine tr) (report m s (Some t) n_ops)) <-> run_bounds r = None).
Proof.
  intros E H.
  assert (B : (supports_bounds s = true /\ run_bounds r = Some (lower_bounds m x t, upper_bounds m x t)) \/ (supports_bounds s = false /\ run_bounds r = None)).
  { destruct (setup_cases _ _ _ _ _ _ _ _ E) as [(n & I & W)|[W ->]].
    - destruct (scipy_setup m installed rtol method kw initial maxeval n I W) as (f & kw' & name & N & Nf & E' & _). rewrite E in E'. injection E' as ->.
      unfold RefinementReport.runs in H. cbn [used_solver] in H. cbn [supports_bounds]. destruct f; try (elim Nf; reflexivity); cbn [passed_bounds] in H; (destruct (existsb _ _) in H; [discriminate|]); injection H as <-; cbn; auto.
    - rewrite (nlopt_setup _ _ _ _ _ _ _ W) in E. cbn [negb] in E. destruct (match initial with None => _ | Some s => _ end) as [st|]; [|discriminate]. cbn [bind] in E. injection E as <-.
      unfold RefinementReport.runs in H. cbn [used_solver] in H. injection H as <-. left. split; reflexivity. }
  assert (X : (exists tr, In (TrustRegionLine tr) (report m s (Some t) n_ops)) <-> supports_bounds s = true).
  { split; [intros [tr Q]; apply trust_line in Q; tauto|]. intros S. eexists. apply trust_line. split; [exact S|reflexivity]. }
  rewrite X. destruct B as [[-> ->]|[-> ->]]; split; split; intros Q; congruence.
Qed.
(** It is printed as given, if it is a list or tuple or if orientations or PCs are refined, but not both. *)
Theorem C106_trust_region_as_given_partial m s t n_ops tr : m <> OriPc \/ (forall a, t = Some a -> is_array a = false) ->
  In (TrustRegionLine tr) (report (V := V) m s t n_ops) -> tr = option_map values t.
Proof.
  intros C L. apply trust_line in L as [_ ->]. destruct t as [t|]; [|reflexivity]. cbn [option_map]. f_equal.
  destruct C as [C|C]; [destruct m; try reflexivity; elim C; reflexivity|]. destruct m; try reflexivity. cbn. rewrite (C t eq_refl). reflexivity.
Qed.
(** An array with the trust region for orientations and PCs: angles are printed in radians. *)
Theorem C106_trust_region_array_refuted s t n_ops tr : is_array t = true -> is_integer t = false ->
  In (TrustRegionLine tr) (report (V := V) OriPc s (Some t) n_ops) ->
  tr = Some (map (fun d => d * PI / 180)%R (firstn 3 (values t)) ++ skipn 3 (values t))%list /\ forall d l, values t = d :: l -> d <> 0%R -> tr <> Some (values t).
Proof.
  intros A I L. apply trust_line in L as [_ ->]. cbn [option_map after]. rewrite A. cbn [values used]. rewrite I.
  assert (M : map (fun d => d * PI / 180)%R (firstn 3 (values t)) = map (fun x => deg2rad x) (firstn 3 (values t))) by (apply map_ext; intros; unfold deg2rad; field).
  rewrite M. split; [reflexivity|]. intros d l E N Q. injection Q as Q. rewrite E in Q. cbn in Q. injection Q as Q _. unfold deg2rad in Q.
  assert (P : (PI / 180 <> 1)%R) by (pose proof PI_4; lra). assert (Z : (d * (PI / 180 - 1) = 0)%R) by lra. apply Rmult_integral in Z as [Z|Z]; lra.
Qed.
(** Without a trust region "None" is printed, but the global methods with bounds are given bounds, all zero. *)
Theorem C106_bounds_without_trust_region_refuted m installed rtol method kw initial maxeval n s x n_ops r :
  In n ["differential_evolution"; "dual_annealing"; "shgo"] -> same_word method n ->
  setup m installed rtol method kw initial maxeval = Some s -> runs m x None s = Some r ->
  In (TrustRegionLine None) (report m s None n_ops) /\ exists lo hi, run_bounds r = Some (lo, hi) /\ Forall (fun b => b = 0%R) lo /\ Forall (fun b => b = 0%R) hi.
Proof.
  intros I W E H. assert (I' : In n scipy_methods) by (cbn in *; tauto).
  destruct (scipy_setup m installed rtol method kw initial maxeval n I' W) as (f & kw' & name & N & Nf & E' & _). rewrite E in E'. injection E' as ->.
  assert (Q : f = DifferentialEvolution \/ f = DualAnnealing \/ f = Shgo).
  { cbn in I. destruct f; cbn in N; subst n; auto; exfalso; repeat (destruct I as [I|I]; [discriminate I|]); exact I. }
  split; [apply trust_line; split; [destruct Q as [->|[->| ->]]|]; reflexivity|].
  assert (Z : forall k, Forall (fun b : R => b = 0%R) (repeat 0%R k)) by (intros k; apply Forall_forall; intros b B; now apply repeat_spec in B).
  unfold RefinementReport.runs in H. cbn [used_solver] in H. destruct Q as [->|[->| ->]]; (destruct (existsb _ _) in H; [discriminate|]); injection H as <-; cbn [run_bounds passed_bounds bound_constraints];
    do 2 eexists; (split; [reflexivity|split; apply Z]).
Qed.
End C.

(** ** Examples *)

Module Examples.
Definition kw : list (string * string) := [("method", "Powell"); ("tol", "0.1")].
Definition setup := set_optimization_parameters (fun s : string => s) "{}".
Example capitals : same_word "Ln_NelderMead" "LN_NELDERMEAD" /\ same_word "Minimize" "minimize" /\ same_word "SHGO" "shgo".
Proof. repeat split; cbn; unfold same_letter, capital; cbn; lia || (left; reflexivity). Qed.
Example powell : exists s, setup Ori true 1 "Minimize" (Some kw) None None = Some s /\ method_name s = "Powell"
  /\ runs (fun _ => "bounds") Ori [0%R; 0%R; 0%R] (Some (Argument [1%R; 1%R; 1%R] true false)) s <> None.
Proof. eexists. split; [reflexivity|]. split; [reflexivity|]. discriminate. Qed.
Example both : exists s, setup OriPc true 1 "LN_NELDERMEAD" None (Some [1%R; 2%R]) (Some 100%Z) = Some s /\ initial_step s = Some [1%R; 1%R; 1%R; 2%R; 2%R; 2%R]
  /\ In (MaxEvaluationsLine 100) (report OriPc s None 0) /\ exists tr, In (TrustRegionLine tr) (report OriPc s (Some (Argument [2%R; 2%R; 2%R; 1%R; 1%R; 1%R] true false)) 0).
Proof. eexists. split; [reflexivity|]. split; [reflexivity|]. split; [cbn; tauto|]. eexists. right. left. reflexivity. Qed.
Example twice : exists s, setup Pc false 1 "shgo" (Some [("bounds", "mine")]) None None = Some s /\ runs (fun _ => "bounds") Pc [] None s = None.
Proof. eexists. split; reflexivity. Qed.
Example twice_local : exists s, setup Pc false 1 "minimize" (Some [("x0", "mine")]) None None = Some s /\ runs (fun _ => "bounds") Pc [] None s = None.
Proof. eexists. split; reflexivity. Qed.
Example global : exists s, setup Pc false 1 "Shgo" None None None = Some s /\ runs (fun _ => "bounds") Pc [] None s <> None.
Proof. eexists. split; [reflexivity|discriminate]. Qed.
End Examples.

Print Assumptions C106_accepted_iff.
Print Assumptions C106_scipy.
Print Assumptions C106_given_twice_iff.
Print Assumptions C106_reported.
Print Assumptions C106_trust_region_array_refuted.
