(** C83: wrong arguments of a call are reported. *)

From Coq Require Import ZArith List String Bool PeanoNat Lia Permutation.
From Verif Require Import Base BaseProofs Value Chains Builtins ArgParser Syntax Monad Eval Runs Para CallCheck LetSpec LetProps Demo.
Import ListNotations.
Open Scope string_scope.
Open Scope list_scope.

(** ** The specification *)

(** What should be said about a call with the arguments [given] of a
    definition with the parameters [params], those in [optional] having a
    default. *)
Definition should_say (params optional given : list string) (c : complaint) : Prop :=
  match c with
  | Extra k => In k given /\ ~ In k params
  | Missing k => In k params /\ ~ In k given /\ ~ In k optional
  end.

(** The names of the parameters that have a default. *)
Definition optional_names (params : list (string * option argval)) : list string :=
  keys (param_defaults params).

(** The messages are these, and each is there once. *)
Definition says_exactly (out : list complaint) (P : complaint -> Prop) : Prop :=
  NoDup out /\ forall c, In c out <-> P c.

(** ** Proofs *)

Lemma mem_str_false k l : mem_str k l = false <-> ~ In k l.
Proof. rewrite <- mem_str_spec. destruct (mem_str k l); intuition congruence. Qed.

Lemma check_extra_spec params : forall args seen,
  fst (check_extra params args seen) = map Extra (filter (fun k => negb (mem_str k params)) args) /\
  (forall k, In k (snd (check_extra params args seen)) <-> In k args \/ In k seen) /\
  (NoDup seen -> NoDup (snd (check_extra params args seen))).
Proof.
  induction args as [|k args IH]; intros seen; cbn [check_extra filter].
  - split; [reflexivity|]. split; [|auto]. intros k. cbn. tauto.
  - specialize (IH (if mem_str k seen then seen else k :: seen)).
    destruct (check_extra params args _) as [out seen']. cbn [fst snd] in *. destruct IH as (IH1 & IH2 & IH3).
    destruct (mem_str k seen) eqn:ES.
    + apply mem_str_spec in ES. split; [|split; [|exact IH3]].
      * rewrite IH1. now destruct (mem_str k params).
      * intros x. rewrite IH2. cbn [In]. split; [tauto|]. intros [[<-|H]|H]; auto.
    + apply mem_str_false in ES. split; [|split].
      * rewrite IH1. now destruct (mem_str k params).
      * intros x. rewrite IH2. cbn [In]. tauto.
      * intros ND. apply IH3. now constructor.
Qed.

Lemma check_missing_spec seen : forall params,
  check_missing params seen = map Missing (filter (fun k => negb (mem_str k seen)) params).
Proof.
  induction params as [|k params IH]; cbn [check_missing filter]; [reflexivity|].
  rewrite IH. now destruct (mem_str k seen).
Qed.

Lemma nodup_filter {A} (f : A -> bool) l : NoDup l -> NoDup (filter f l).
Proof.
  induction 1 as [|x l NI ND IH]; cbn; [constructor|]. destruct (f x); [|exact IH].
  constructor; [|exact IH]. rewrite filter_In. tauto.
Qed.

Lemma nodup_map_inj {A B} (f : A -> B) l : (forall x y, f x = f y -> x = y) -> NoDup l -> NoDup (map f l).
Proof.
  intros I. induction 1 as [|x l NI ND IH]; cbn; constructor; [|exact IH].
  intros H. apply in_map_iff in H as (y & E & H). apply I in E as ->. contradiction.
Qed.

Lemma filter_partition {A} (f : A -> bool) l :
  List.length l = List.length (filter f l) + List.length (filter (fun x => negb (f x)) l).
Proof. induction l as [|x l IH]; cbn; [reflexivity|]. destruct (f x); cbn; lia. Qed.

(** The names common to two lists without repetitions are as many, whichever
    list they are taken from. *)
Lemma common_length (a b : list string) : NoDup a -> NoDup b ->
  List.length (filter (fun k => mem_str k b) a) = List.length (filter (fun k => mem_str k a) b).
Proof.
  intros NA NB. apply Permutation_length. apply NoDup_Permutation; try now apply nodup_filter.
  intros x. rewrite !filter_In, !mem_str_spec. tauto.
Qed.

Lemma says params given :
  params <> [] -> NoDup given ->
  exists seen, (forall k, In k seen <-> In k given) /\ NoDup seen /\
    check_calling_args params given =
    map Extra (filter (fun k => negb (mem_str k params)) given) ++
    (if Nat.ltb (List.length given) (List.length params)
     then map Missing (filter (fun k => negb (mem_str k given)) params) else []).
Proof.
  intros HP ND. unfold check_calling_args. destruct params as [|p0 ps] eqn:EP; [congruence|]. rewrite <- EP.
  destruct (check_extra_spec params given []) as (E1 & E2 & E3).
  destruct (check_extra params given []) as [out seen]. cbn [fst snd] in *. exists seen.
  assert (SG : forall k, In k seen <-> In k given) by (intros k; rewrite E2; cbn; tauto).
  specialize (E3 (NoDup_nil _)).
  split; [exact SG|]. split; [exact E3|].
  assert (LEN : List.length seen = List.length given)
    by (apply Permutation_length, NoDup_Permutation; auto).
  rewrite LEN, E1. destruct (Nat.ltb _ _); [|now rewrite app_nil_r].
  f_equal. rewrite check_missing_spec. f_equal. apply filter_ext. intros k. f_equal.
  destruct (mem_str k seen) eqn:A; symmetry.
  - apply mem_str_spec. apply mem_str_spec in A. now apply SG.
  - apply mem_str_false. apply mem_str_false in A. now rewrite <- SG.
Qed.

Lemma nodup_app {A} (a b : list A) : NoDup a -> NoDup b -> (forall x, In x a -> In x b -> False) -> NoDup (a ++ b).
Proof.
  induction 1 as [|x a NI ND IH]; cbn; intros NB D; [exact NB|]. constructor.
  - rewrite in_app_iff. intros [H|H]; [auto|]. eapply D; [now left|exact H].
  - apply IH; [exact NB|]. intros y HA HB. eapply D; [right; exact HA|exact HB].
Qed.

Lemma says_once params given : NoDup params -> NoDup given -> NoDup (check_calling_args params given).
Proof.
  intros NP ND. destruct params as [|p0 ps] eqn:EP; [constructor|]. rewrite <- EP in *.
  destruct (says params given) as (seen & _ & _ & ->); [congruence|exact ND|].
  apply nodup_app.
  - apply nodup_map_inj; [congruence|]. now apply nodup_filter.
  - destruct (Nat.ltb _ _); [|constructor]. apply nodup_map_inj; [congruence|]. now apply nodup_filter.
  - intros x H1 H2. apply in_map_iff in H1 as (y & <- & _). destruct (Nat.ltb _ _); [|contradiction].
    apply in_map_iff in H2 as (z & E & _). discriminate.
Qed.

(** Arguments that are no parameters are reported, all of them and nothing
    else. *)
Theorem C83_extra_arguments_are_reported : forall params given k,
  params <> [] -> NoDup given ->
  (In (Extra k) (check_calling_args params given) <-> In k given /\ ~ In k params).
Proof.
  intros params given k HP ND. destruct (says params given HP ND) as (seen & _ & _ & ->).
  rewrite in_app_iff, in_map_iff. split.
  - intros [(x & E & H)|H].
    + injection E as ->. apply filter_In in H as [H1 H2]. split; [exact H1|]. apply mem_str_false.
      now apply negb_true_iff.
    + destruct (Nat.ltb _ _); [|contradiction]. apply in_map_iff in H as (x & E & _). discriminate.
  - intros [H1 H2]. left. exists k. split; [reflexivity|]. apply filter_In. split; [exact H1|].
    apply negb_true_iff. now apply mem_str_false.
Qed.

(** Missing arguments are reported, all of them, exactly when there are more
    of them than arguments that are no parameters. *)
Theorem C83_missing_arguments_partial : forall params given k,
  params <> [] -> NoDup params -> NoDup given ->
  (In (Missing k) (check_calling_args params given) <->
   In k params /\ ~ In k given /\
   List.length (filter (fun x => negb (mem_str x params)) given) <
   List.length (filter (fun x => negb (mem_str x given)) params)).
Proof.
  intros params given k HP NP ND. destruct (says params given HP ND) as (seen & _ & _ & ->).
  assert (LT : Nat.ltb (List.length given) (List.length params) = true <->
    List.length (filter (fun x => negb (mem_str x params)) given) <
    List.length (filter (fun x => negb (mem_str x given)) params)).
  { rewrite Nat.ltb_lt. rewrite (filter_partition (fun k => mem_str k params) given).
    rewrite (filter_partition (fun k => mem_str k given) params). rewrite (common_length given params ND NP). lia. }
  rewrite in_app_iff. split.
  - intros [H|H]; [apply in_map_iff in H as (x & E & _); discriminate|].
    destruct (Nat.ltb _ _); [|contradiction]. apply in_map_iff in H as (x & E & H). injection E as ->.
    apply filter_In in H as [H1 H2]. split; [exact H1|]. split; [|now apply LT].
    apply mem_str_false. now apply negb_true_iff.
  - intros (H1 & H2 & H3). right. apply LT in H3. rewrite H3. apply in_map_iff. exists k. split; [reflexivity|].
    apply filter_In. split; [exact H1|]. apply negb_true_iff. now apply mem_str_false.
Qed.

(** *** With the defaults: the arguments that the check sees are those that
    were passed and the defaults of the others. *)

Lemma keys_of_dict_set {A} (k : string) (v : A) l x : In x (keys (dict_set k v l)) <-> x = k \/ In x (keys l).
Proof.
  unfold keys, dict_set. rewrite map_app, in_app_iff. cbn [map fst In].
  assert (R : In x (map fst (remove_key k l)) <-> x <> k /\ In x (map fst l)).
  { induction l as [|[y w] l IH]; cbn; [tauto|].
    destruct (String.eqb_spec k y) as [->|NE]; cbn [map fst In]; rewrite IH; [|split; intuition congruence].
    split; [tauto|]. intros [H [->|H']]; [congruence|auto]. }
  rewrite R. destruct (string_dec x k); intuition congruence.
Qed.

Lemma defaulted_keys E sc ds args s s' args' : keys_ok ds -> defaulted E sc ds args s s' args' ->
  NoDup (keys args) ->
  NoDup (keys args') /\ forall x, In x (keys args') <-> In x (keys args) \/ In x (map fst ds).
Proof.
  intros K H. revert K.
  induction H as [|y w a rest args s s' args' u HG _ IH|y w a rest args s s1 s2 u args' HN _ _ IH]; intros K ND.
  - split; [exact ND|]. intros x. cbn. tauto.
  - inversion K; subst. destruct (IH ltac:(assumption) ND) as [I1 I2]. split; [exact I1|].
    intros x. rewrite I2. cbn [map fst In].
    assert (In y (keys args)) by (apply assoc_keys; eauto).
    split; [tauto|]. intros [HH|[<-|HH]]; auto.
  - inversion K as [|? ? K1 K2]; subst. cbn [fst snd] in K1. rewrite K1 in *.
    destruct (IH K2) as [I1 I2]; [apply (LetProps.nodup_dict_set _ _ _ _ ND)|]. split; [exact I1|].
    intros x. rewrite I2, keys_of_dict_set. cbn [map fst In]. intuition.
Qed.

Lemma optional_are_parameters params k : In k (optional_names params) -> In k (parameter_names params).
Proof.
  unfold optional_names, param_defaults, parameter_names.
  assert (G : forall (l : list (string * option argval)) (d : list (string * (string * argval))),
    In k (keys (fold_left (fun ds p => match p with
       | (name, Some a) => dict_set (unquoted name) (name, a) ds | (_, None) => ds end) l d)) ->
    In k (keys d) \/ In k (map (fun p => unquoted (fst p)) l)).
  { clear. induction l as [|[n [a|]] l IH]; intros d H; cbn [fold_left map fst In] in *; [auto| |].
    - apply IH in H as [H|H]; [|auto]. apply keys_of_dict_set in H as [->|H]; auto.
    - apply IH in H as [H|H]; auto. }
  intros H. apply G in H as [[]|H]. exact H.
Qed.

(** The call of a query in FROM, whose arguments are all parameters: what is
    logged is a message for each parameter that has neither an argument nor a
    default, and nothing else; each once. *)
Theorem C83_reported_partial : forall E sc params given s s' args,
  NoDup (parameter_names params) -> NoDup (keys given) -> keys_ok (param_defaults params) ->
  defaulted E sc (param_defaults params) given s s' args ->
  (forall k, In k (keys given) -> In k (parameter_names params)) ->
  says_exactly (call_complaints FromQuery params args)
    (should_say (parameter_names params) (optional_names params) (keys given)).
Proof.
  intros E sc params given s s' args NP NG K D SUB. cbn [call_complaints].
  destruct (defaulted_keys _ _ _ _ _ _ _ K D NG) as [NA KA].
  split; [now apply says_once|].
  destruct params as [|p0 ps] eqn:EP.
  { intros c. cbn. split; [intros []|]. destruct c; cbn; [|tauto]. intros [H1 H2]. exact (SUB _ H1). }
  rewrite <- EP in *. assert (HP : parameter_names params <> []) by (rewrite EP; discriminate).
  assert (SUBA : forall k, In k (keys args) -> In k (parameter_names params)).
  { intros k H. apply KA in H as [H|H]; [auto|]. now apply optional_are_parameters. }
  intros [k|k]; cbn [should_say].
  - rewrite (C83_extra_arguments_are_reported _ _ _ HP NA). split; intros [H1 H2]; exfalso; auto.
  - rewrite (C83_missing_arguments_partial _ _ _ HP NP NA). rewrite KA.
    change (map fst (param_defaults params)) with (optional_names params).
    replace (filter (fun x => negb (mem_str x (parameter_names params))) (keys args)) with (@nil string).
    + split; [tauto|]. intros (H1 & H2 & H3). split; [exact H1|]. split; [tauto|].
      assert (IN : In k (filter (fun x => negb (mem_str x (keys args))) (parameter_names params))).
      { apply filter_In. split; [exact H1|]. apply negb_true_iff, mem_str_false. rewrite KA.
        change (map fst (param_defaults params)) with (optional_names params). tauto. }
      destruct (filter _ (parameter_names params)); [contradiction|]. cbn. lia.
    + symmetry. clear - SUBA. induction (keys args) as [|x l IH]; [reflexivity|]. cbn [filter].
      assert (mem_str x (parameter_names params) = true) as -> by (apply mem_str_spec, SUBA; now left).
      cbn. apply IH. intros y H. apply SUBA. now right.
Qed.

(** ** Where it fails *)

(** As many wrong names as missing ones hide what is missing:
    LET Q(a, b) = ..., SELECT * FROM Q(a=1, c=2) says nothing about b. *)
Theorem C83_extra_hides_missing_refuted :
  let params := [("a", None); ("b", None)] in
  let given := [("a", vint 1); ("c", vint 2)] in
  should_say (parameter_names params) (optional_names params) (keys given) (Missing "b") /\
  ~ In (Missing "b") (call_complaints FromQuery params given).
Proof.
  cbv zeta. split.
  - cbn. repeat split; [tauto| |tauto]. intros [H|[H|[]]]; discriminate.
  - vm_compute. intros [H|[]]. discriminate.
Qed.

(** Nothing is said of a definition without parameters, whatever it is called
    with. *)
Theorem C83_no_parameters_refuted :
  should_say (parameter_names []) (optional_names []) ["x"] (Extra "x") /\
  call_complaints FromQuery [] [("x", vint 1)] = [].
Proof. split; [|reflexivity]. cbn. tauto. Qed.

(** Nothing is said about calls inside of an expression, and calls of an
    expression. *)
Theorem C83_functions_are_not_checked_refuted : forall at_, at_ <> FromQuery ->
  exists params given,
    (exists c d, c <> d /\ should_say (parameter_names params) (optional_names params) (keys given) c /\
                 should_say (parameter_names params) (optional_names params) (keys given) d) /\
    call_complaints at_ params given = [].
Proof.
  intros at_ H. exists [("a", None)], [("b", vint 1)]. split; [|destruct at_; [congruence|reflexivity|reflexivity]].
  exists (Extra "b"), (Missing "a"). split; [discriminate|]. cbn. repeat split; auto; intros [J|[]]; discriminate.
Qed.

(** A call without any argument is told that it has one too many: the default
    of a parameter in backquotes, when it is a query, is bound under the name
    with the backquotes. *)
Theorem C83_quoted_default_refuted : forall E sc q s, exists s' args,
  let params := [("`a`", Some (ASelect q))] in
  defaulted E sc (param_defaults params) [] s s' args /\
  call_complaints FromQuery params args = [Extra "`a`"].
Proof.
  intros E sc q s. eexists. eexists. cbv zeta. split.
  - change (param_defaults [("`a`", Some (ASelect q))]) with [("a", ("`a`", ASelect q))].
    eapply defaulted_missing; [reflexivity|constructor|]. constructor.
  - reflexivity.
Qed.

(** LET Q(a, b, c=5) = ..., FROM Q(a=1): only b is missing. *)
Example C83_demo : forall sc s, exists s' args,
  let params := [("a", None); ("b", None); ("c", Some (AExpr (lit 5)))] in
  NoDup (parameter_names params) /\ keys_ok (param_defaults params) /\
  defaulted demo_env sc (param_defaults params) [("a", vint 1)] s s' args /\
  map (complaint_text "Q") (call_complaints FromQuery params args) =
    ["ERROR:Missing arg b when calling Q"].
Proof.
  intros sc s. do 2 eexists. cbv zeta. split; [|split; [|split]].
  - cbn. repeat constructor; cbn; intuition discriminate.
  - repeat constructor.
  - eapply defaulted_missing; [reflexivity|apply av_expr; apply (expr_enough demo_env 5); reflexivity|apply defaulted_nil].
  - reflexivity.
Qed.

Print Assumptions C83_extra_arguments_are_reported.
Print Assumptions C83_missing_arguments_partial.
Print Assumptions C83_reported_partial.
Print Assumptions C83_extra_hides_missing_refuted.
Print Assumptions C83_no_parameters_refuted.
Print Assumptions C83_functions_are_not_checked_refuted.
Print Assumptions C83_quoted_default_refuted.
