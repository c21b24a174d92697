(** C41: refinement calls do not influence each other. *)
From Coq Require Import String List Bool Arith Lia.
From Verif Require Import Model.RefinementBounds Model.RefinementState.
Import ListNotations.
Local Open Scope string_scope.
Local Open Scope list_scope.

(** What a call's own arguments ask for. *)
Definition asked_map (c : call) (k : string) : option value :=
  if String.eqb k "opt" then (if is_nlopt (c_method c) then Some (VOpt (nvars (c_mode c)) (c_rtol c) (c_initial c) (c_maxeval c)) else None)
  else if String.eqb k "drop_axis" then Some (drop_axis (c_mode c))
  else if String.eqb k "new_axis" then Some (VNum 1)
  else if String.eqb k "dtype" then Some (VStr "float64") else None.
Definition asked_solver (c : call) (k : string) : option value :=
  if String.eqb k "fixed_parameters" then Some (VNum (c_fixed c))
  else if String.eqb k "rescale" then Some (VBool (c_rescale c))
  else if String.eqb k "trust_region_passed" then Some (VBool (c_trust c))
  else if String.eqb k "method" then (if is_nlopt (c_method c) then None else Some (VStr (name (c_method c)))) else None.
(** Keyword arguments: the caller's, with Nelder-Mead or empty minimizer arguments as default. *)
Definition asked_kwargs (c : call) (own : dict) (k : string) : option value :=
  if is_nlopt (c_method c) then None else
  match get k own, c_method c with
  | Some v, _ => Some v
  | None, Minimize => if String.eqb k "method" then Some (VStr "Nelder-Mead") else None
  | None, Basinhopping => if String.eqb k "minimizer_kwargs" then Some VEmptyDict else None
  | None, _ => None
  end.
Definition own_kwargs (st : state) (c : call) : dict := match c_kwargs c with Some d => callers st d | None => [] end.

Lemma get_del : forall k k' d, get k (del k' d) = if String.eqb k k' then None else get k d.
Proof.
  intros k k' d. induction d as [|[q v] d IH]; cbn [get del]; [now destruct (String.eqb k k')|].
  destruct (String.eqb k' q) eqn:E1.
  - rewrite IH. apply String.eqb_eq in E1. subst q. destruct (String.eqb k k'); reflexivity.
  - cbn [get]. rewrite IH. destruct (String.eqb k q) eqn:E2; [|reflexivity].
    apply String.eqb_eq in E2. subst q. rewrite String.eqb_sym, E1. reflexivity.
Qed.
Lemma get_set : forall k k' v d, get k (set k' v d) = if String.eqb k k' then Some v else get k d.
Proof. intros. unfold set. cbn [get]. rewrite get_del. destruct (String.eqb k k'); reflexivity. Qed.

Definition map_keys : list string := ["opt"; "drop_axis"; "new_axis"; "dtype"].
Definition solver_keys : list string := ["fixed_parameters"; "rescale"; "trust_region_passed"].
Definition inv (st : state) : Prop :=
  (forall k, get k (class_map st) <> None -> In k map_keys) /\ (forall k, get k (class_solver st) <> None -> In k solver_keys).
Definition write_ok (w : write) : Prop :=
  match w with ClassMap k _ => In k map_keys | ClassSolver k _ => In k solver_keys | _ => True end.
Lemma inv_apply : forall w st, inv st -> write_ok w -> inv (apply w st).
Proof.
  intros [k v|k|k v|d k v] st [A B] O; cbn [apply write_ok] in *; split; cbn [class_map class_solver]; auto; intros q.
  - rewrite get_set. destruct (String.eqb q k) eqn:E; [apply String.eqb_eq in E; now subst|auto].
  - rewrite get_del. destruct (String.eqb q k); [congruence|auto].
  - rewrite get_set. destruct (String.eqb q k) eqn:E; [apply String.eqb_eq in E; now subst|auto].
Qed.
Lemma inv_apply_all : forall ws st, inv st -> Forall write_ok ws -> inv (apply_all ws st).
Proof. induction ws as [|w ws IH]; intros st I F; [exact I|]. inversion F; subst. apply IH; [now apply inv_apply|assumption]. Qed.
Lemma writes_ok : forall st c, Forall write_ok (writes st c).
Proof.
  intros st c. unfold writes. destruct (negb (accepted c)); [constructor|].
  apply Forall_app; split.
  - destruct (is_nlopt (c_method c)); [repeat constructor|]. destruct (c_kwargs c) as [d|]; [|constructor].
    apply Forall_map, Forall_forall. intros; exact I.
  - apply Forall_app; split; [destruct (is_nlopt (c_method c)); repeat constructor; cbn; tauto|].
    apply Forall_app; split; [repeat constructor; cbn; tauto|]. destruct (is_nlopt (c_method c)); repeat constructor; cbn; tauto.
Qed.
Lemma inv_step : forall st e, inv st -> inv (step st e).
Proof.
  intros st [c s|d new] I; cbn [step]; [|exact I]. apply inv_apply_all; [exact I|]. pose proof (writes_ok st c) as W.
  destruct s as [n|]; [|exact W]. rewrite <- (firstn_skipn n) in W. now apply Forall_app in W.
Qed.
Lemma inv_history : forall es st, inv st -> inv (history es st).
Proof. induction es as [|e es IH]; intros st I; [exact I|]. apply IH. now apply inv_step. Qed.
Lemma inv_initial : forall cs, inv (initial_state cs).
Proof. intros. split; cbn; congruence. Qed.

Lemma apply_all_app : forall a b st, apply_all (a ++ b) st = apply_all b (apply_all a st).
Proof. intros. unfold apply_all. apply fold_left_app. Qed.
Lemma caller_writes : forall d l st, class_map (apply_all (map (fun kv => Caller d (fst kv) (snd kv)) l) st) = class_map st
  /\ class_solver (apply_all (map (fun kv => Caller d (fst kv) (snd kv)) l) st) = class_solver st
  /\ forall d', callers (apply_all (map (fun kv => Caller d (fst kv) (snd kv)) l) st) d' =
       if Nat.eqb d' d then fold_left (fun x kv => set (fst kv) (snd kv) x) l (callers st d') else callers st d'.
Proof.
  intros d l. induction l as [|[k v] l IH]; intros st; cbn [map apply_all fold_left].
  - repeat split. intros. now destruct (Nat.eqb d' d).
  - destruct (IH (apply (Caller d k v) st)) as (A & B & C). unfold apply_all in *. cbn [fst snd] in *.
    rewrite A, B. repeat split. intros d'. rewrite C. cbn [apply callers]. now destruct (Nat.eqb d' d).
Qed.
Lemma get_added : forall k m d, get k (fold_left (fun x kv => set (fst kv) (snd kv) x) (added m d) d) =
  match get k d, m with
  | Some v, _ => Some v
  | None, Minimize => if String.eqb k "method" then Some (VStr "Nelder-Mead") else None
  | None, Basinhopping => if String.eqb k "minimizer_kwargs" then Some VEmptyDict else None
  | None, _ => None
  end.
Proof.
  intros k m d. unfold added. destruct m; cbn [fold_left]; try (now destruct (get k d)).
  - destruct (get "method" d) as [v|] eqn:E; cbn [fold_left fst snd].
    + destruct (get k d) eqn:G; [reflexivity|]. destruct (String.eqb k "method") eqn:Q; [|reflexivity]. apply String.eqb_eq in Q. subst. congruence.
    + rewrite get_set. destruct (String.eqb k "method") eqn:Q; [|now destruct (get k d)]. apply String.eqb_eq in Q. subst. now rewrite E.
  - destruct (get "minimizer_kwargs" d) as [v|] eqn:E; cbn [fold_left fst snd].
    + destruct (get k d) eqn:G; [reflexivity|]. destruct (String.eqb k "minimizer_kwargs") eqn:Q; [|reflexivity]. apply String.eqb_eq in Q. subst. congruence.
    + rewrite get_set. destruct (String.eqb k "minimizer_kwargs") eqn:Q; [|now destruct (get k d)]. apply String.eqb_eq in Q. subst. now rewrite E.
Qed.

Ltac keys := repeat match goal with |- context [String.eqb ?k ?q] => destruct (String.eqb k q) eqn:?; [repeat match goal with H : String.eqb _ _ = true |- _ => apply String.eqb_eq in H; subst end; cbn; try reflexivity|] end.

Lemma settings_from_inv : forall st c, inv st -> accepted c = true ->
  exists s, settings_of st c = Some s /\ (forall k, get k (s_map s) = asked_map c k) /\ (forall k, get k (s_solver s) = asked_solver c k) /\
  (forall k, get k (s_kwargs s) = asked_kwargs c (own_kwargs st c) k).
Proof.
  intros st c [M S] A. unfold settings_of. rewrite A. cbn [negb]. eexists. split; [reflexivity|].
  unfold writes. rewrite A. cbn [negb].
  destruct (is_nlopt (c_method c)) eqn:N.
  - cbn [app apply_all fold_left apply class_map class_solver s_map s_solver s_kwargs]. split; [|split].
    + intros k. rewrite !get_set. unfold asked_map, opt_of. rewrite N.
      destruct (String.eqb k "dtype") eqn:K1; [apply String.eqb_eq in K1; subst; reflexivity|].
      destruct (String.eqb k "new_axis") eqn:K2; [apply String.eqb_eq in K2; subst; reflexivity|].
      destruct (String.eqb k "drop_axis") eqn:K3; [apply String.eqb_eq in K3; subst; reflexivity|].
      destruct (String.eqb k "opt") eqn:K4; [reflexivity|].
      destruct (get k (class_map st)) eqn:G; [|reflexivity]. exfalso.
      assert (I : In k map_keys) by (apply M; congruence). cbn in I.
      repeat (destruct I as [<-|I]; [cbn in *; congruence|]). exact I.
    + intros k. rewrite !get_set. unfold asked_solver. rewrite N.
      destruct (String.eqb k "trust_region_passed") eqn:K1; [apply String.eqb_eq in K1; subst; reflexivity|].
      destruct (String.eqb k "rescale") eqn:K2; [apply String.eqb_eq in K2; subst; reflexivity|].
      destruct (String.eqb k "fixed_parameters") eqn:K3; [reflexivity|].
      destruct (get k (class_solver st)) eqn:G.
      * exfalso. assert (I : In k solver_keys) by (apply S; congruence). cbn in I.
        repeat (destruct I as [<-|I]; [cbn in *; congruence|]). exact I.
      * now destruct (String.eqb k "method").
    + intros k. unfold asked_kwargs. now rewrite N.
  - cbn [s_map s_solver s_kwargs app].
    set (st1 := match c_kwargs c with Some d => apply_all (map (fun kv => Caller d (fst kv) (snd kv)) (added (c_method c) (callers st d))) st | None => st end).
    assert (E : forall ws, apply_all ((match c_kwargs c with Some d => map (fun kv => Caller d (fst kv) (snd kv)) (added (c_method c) (callers st d)) | None => [] end) ++ ws) st = apply_all ws st1).
    { intros ws. rewrite apply_all_app. unfold st1. now destruct (c_kwargs c). }
    rewrite !E.
    assert (CM : class_map st1 = class_map st).
    { unfold st1. destruct (c_kwargs c) as [d|]; [|reflexivity]. now destruct (caller_writes d (added (c_method c) (callers st d)) st). }
    cbn [apply_all fold_left apply class_map class_solver callers]. rewrite CM. split; [|split].
    + intros k. rewrite get_del, !get_set. unfold asked_map. rewrite N.
      destruct (String.eqb k "opt") eqn:K4; [reflexivity|].
      destruct (String.eqb k "dtype") eqn:K1; [apply String.eqb_eq in K1; subst; reflexivity|].
      destruct (String.eqb k "new_axis") eqn:K2; [apply String.eqb_eq in K2; subst; reflexivity|].
      destruct (String.eqb k "drop_axis") eqn:K3; [reflexivity|].
      destruct (get k (class_map st)) eqn:G; [|reflexivity]. exfalso.
      assert (I : In k map_keys) by (apply M; congruence). cbn in I.
      repeat (destruct I as [<-|I]; [cbn in *; congruence|]). exact I.
    + intros k. rewrite !get_set. unfold asked_solver. rewrite N. cbn [get].
      destruct (String.eqb k "trust_region_passed") eqn:K1; [apply String.eqb_eq in K1; subst; reflexivity|].
      destruct (String.eqb k "rescale") eqn:K2; [apply String.eqb_eq in K2; subst; reflexivity|]. reflexivity.
    + intros k. unfold asked_kwargs, own_kwargs, st1. rewrite N. destruct (c_kwargs c) as [d|].
      * destruct (caller_writes d (added (c_method c) (callers st d)) st) as (_ & _ & C). rewrite C, Nat.eqb_refl. apply get_added.
      * apply get_added.
Qed.

(** Whatever happened before in the session, a call uses exactly what its own arguments ask for. Earlier calls may have
    used other modes and optimisers and may have been stopped by an exception at any point. *)
Theorem C41_settings_of_own_arguments : forall cs es c, accepted c = true ->
  let st := history es (initial_state cs) in
  exists s, settings_of st c = Some s /\
    (forall k, get k (s_map s) = asked_map c k) /\ (forall k, get k (s_solver s) = asked_solver c k) /\
    (forall k, get k (s_kwargs s) = asked_kwargs c (own_kwargs st c) k).
Proof. intros cs es c A. apply settings_from_inv; [|exact A]. apply inv_history, inv_initial. Qed.

(** So two histories after which the caller's own keyword arguments are the same give the same settings. *)
Theorem C41_history_does_not_matter_partial : forall cs cs' es es' c,
  let st := history es (initial_state cs) in let st' := history es' (initial_state cs') in
  (forall k, get k (own_kwargs st c) = get k (own_kwargs st' c)) ->
  match settings_of st c, settings_of st' c with
  | Some s, Some s' => forall k, get k (s_map s) = get k (s_map s') /\ get k (s_solver s) = get k (s_solver s') /\ get k (s_kwargs s) = get k (s_kwargs s')
  | None, None => True
  | _, _ => False
  end.
Proof.
  intros cs cs' es es' c st st' H. destruct (accepted c) eqn:A.
  - destruct (C41_settings_of_own_arguments cs es c A) as (s & E & M & S & K).
    destruct (C41_settings_of_own_arguments cs' es' c A) as (s' & E' & M' & S' & K').
    fold st in E, K. fold st' in E', K'. rewrite E, E'. intros k. rewrite M, M', S, S', K, K'. repeat split.
    unfold asked_kwargs. now rewrite H.
  - unfold settings_of. rewrite A. exact I.
Qed.

(** The caller's dictionaries are changed by set-up only for "minimize" without a method and "basinhopping" without
    minimizer arguments. *)
Theorem C41_dictionary_kept_partial : forall st c n d,
  (c_kwargs c <> Some d \/ is_nlopt (c_method c) = true \/
   match c_method c with Minimize => get "method" (callers st d) <> None | Basinhopping => get "minimizer_kwargs" (callers st d) <> None | _ => True end) ->
  callers (step st (Refine c n)) d = callers st d.
Proof.
  intros st c n d H. cbn [step].
  assert (G : forall ws st0, Forall (fun w => match w with Caller d' _ _ => d' <> d | _ => True end) ws -> callers (apply_all ws st0) d = callers st0 d).
  { induction ws as [|w ws IH]; intros st0 F; [reflexivity|]. inversion F as [|? ? F1 F2]; subst.
    unfold apply_all in *. cbn [fold_left]. rewrite IH by exact F2. destruct w; try reflexivity. cbn [apply callers].
    destruct (Nat.eqb_spec d d0); [congruence|reflexivity]. }
  assert (F : Forall (fun w => match w with Caller d' _ _ => d' <> d | _ => True end) (writes st c)).
  { unfold writes. destruct (negb (accepted c)); [constructor|]. apply Forall_app; split.
    - destruct (is_nlopt (c_method c)) eqn:N; [repeat constructor|]. destruct (c_kwargs c) as [q|]; [|constructor].
      destruct H as [H|[H|H]]; [|congruence|].
      + apply Forall_map, Forall_forall. intros x _. cbn. congruence.
      + destruct (Nat.eq_dec q d) as [->|Q]; [|apply Forall_map, Forall_forall; intros x _; exact Q].
        unfold added. destruct (c_method c); try constructor;
        [destruct (get "method" (callers st d))|destruct (get "minimizer_kwargs" (callers st d))]; try congruence; constructor.
    - apply Forall_app; split; [destruct (is_nlopt (c_method c)); repeat constructor|].
      apply Forall_app; split; [repeat constructor|destruct (is_nlopt (c_method c)); repeat constructor]. }
  apply G. destruct n as [n|]; [|exact F]. rewrite <- (firstn_skipn n) in F. now apply Forall_app in F.
Qed.

(** Otherwise the caller's dictionary is changed, and passing it to another optimiser passes on an argument the caller
    never gave: the first call makes "method" part of the second. *)
Theorem C41_dictionary_reused_refuted : forall cs d c1 c2,
  get "method" (cs d) = None -> c_method c1 = Minimize -> c_method c2 = DualAnnealing -> c_kwargs c1 = Some d -> c_kwargs c2 = Some d ->
  exists s s', settings_of (history [Refine c1 None] (initial_state cs)) c2 = Some s /\ settings_of (initial_state cs) c2 = Some s' /\
  get "method" (s_kwargs s) = Some (VStr "Nelder-Mead") /\ get "method" (s_kwargs s') = None.
Proof.
  intros cs d c1 c2 G M1 M2 K1 K2.
  assert (A1 : accepted c1 = true) by (unfold accepted; now rewrite M1).
  assert (A2 : accepted c2 = true) by (unfold accepted; now rewrite M2).
  destruct (C41_settings_of_own_arguments cs [Refine c1 None] c2 A2) as (s & E & _ & _ & K).
  destruct (C41_settings_of_own_arguments cs [] c2 A2) as (s' & E' & _ & _ & K').
  exists s, s'. split; [exact E|]. split; [exact E'|]. rewrite K, K'. unfold asked_kwargs, own_kwargs. rewrite M2, K2. cbn [is_nlopt history fold_left step].
  cbn [initial_state callers]. rewrite G. split; [|reflexivity].
  assert (X : get "method" (callers (apply_all (writes (initial_state cs) c1) (initial_state cs)) d) = Some (VStr "Nelder-Mead")).
  { unfold writes. rewrite A1, M1, K1. cbn [negb is_nlopt added initial_state callers]. rewrite G. cbn. now rewrite Nat.eqb_refl. }
  fold (initial_state cs). rewrite X. reflexivity.
Qed.

(** A refinement with NLopt set up to be computed later: if the class-level dictionary is kept by reference, it is
    computed with the parameters of the last NLopt call set up before the computation, not with its own. *)
Theorem C41_deferred_by_reference_refuted : forall cs es c later, accepted later = true -> c_method later = LnNelderMead ->
  forall k, get k (deferred_solver_by_reference (history (es ++ [Refine c None; Refine later None]) (initial_state cs))) = asked_solver later k.
Proof.
  intros cs es c later A N k. unfold deferred_solver_by_reference, history. rewrite fold_left_app.
  set (st := fold_left step es (initial_state cs)). cbn [fold_left].
  assert (I : inv (step st (Refine c None))) by (apply inv_step, inv_history, inv_initial).
  destruct (settings_from_inv _ later I A) as (s & E & _ & S & _). unfold settings_of in E. rewrite A, N in E. cbn [negb is_nlopt] in E.
  injection E as E. rewrite <- E in S. cbn [s_solver] in S. exact (S k).
Qed.
(** If its contents are taken at set-up ([settings_of]), it does not: C41_settings_of_own_arguments. *)

Definition example_nlopt := Call Ori LnNelderMead 1 None (Some 2) true (Some 100) 7 true false.
Definition example_minimize := Call OriPc Minimize 1 (Some 0) None true None 8 false true.
Definition example_annealing := Call Pc DualAnnealing 1 (Some 0) None true None 9 false true.
Example C41_case : accepted example_nlopt = true /\ accepted example_annealing = true /\ asked_solver example_nlopt "rescale" = Some (VBool true)
  /\ get "method" ((fun _ : nat => []) 0) = None
  /\ get "opt" (class_map (history [Refine example_nlopt None; Refine example_minimize (Some 1)] (initial_state (fun _ => [])))) <> None.
Proof. repeat split. cbn. discriminate. Qed.
Print Assumptions C41_settings_of_own_arguments.
