(** C51: the cache of compiled expressions changes nothing. *)

From Coq Require Import List String Bool Lia PeanoNat.
From Verif Require Import Base BaseProofs Value Monad Chains OpsProofs OpsProps Regex.
Import ListNotations.
Open Scope nat_scope.
Open Scope string_scope.
Open Scope list_scope.

(** ** Specification: what a match means, without any state *)

Section Spec.
  Variable rx : Type.
  Variable compile : string -> option rx.
  Variable match_string : rx -> string -> bool.
  Variable impls : list (val -> val -> option bool).

  (** A string matches when the expression compiles, ignoring case, and
      matches. *)
  Definition means (p t : string) : bool :=
    match compile ("(?i)" ++ p)%string with Some r => match_string r t | None => false end.

  Fixpoint target_means (p : string) (v : val) : bool :=
    match v with
    | VStr t => means p t
    | VNilArr => false
    | VArr l => existsb (target_means p) l
    | _ => match List.find (fun i => match i (VStr p) v with Some _ => true | None => false end) impls with
           | Some i => match i (VStr p) v with Some b => b | None => false end
           | None => false
           end
    end.

  (** The patterns that match everything, an array any of whose elements
      matches, implementations of the host for other values. *)
  Definition matches (pattern target : val) : bool :=
    match pattern with
    | VStr p => existsb (String.eqb p) ["."; ".*"; ""] || target_means p target
    | _ => match List.find (fun i => match i pattern target with Some _ => true | None => false end) impls with
           | Some i => match i pattern target with Some b => b | None => false end
           | None => false
           end
    end.

  Definition count_compiled (p : string) (l : list effect) : nat :=
    List.length (filter (fun e => match e with Compiled q => String.eqb q p | _ => false end) l).
  Definition count_logged (p : string) (l : list effect) : nat :=
    List.length (filter (fun e => match e with Logged q => String.eqb q p | _ => false end) l).
End Spec.

Lemma re_key_inj : forall p q, re_key p = re_key q -> p = q.
Proof. intros p q H. unfold re_key in H. cbn in H. now injection H. Qed.

Section Proofs.
  Variable rx : Type.
  Variable compile : string -> option rx.
  Variable match_string : rx -> string -> bool.
  Variable impls : list (val -> val -> option bool).
  Notation compiled_as := (compiled_as rx compile).
  Notation match_str := (match_str rx compile match_string).
  Notation match_target := (match_target rx compile match_string impls).
  Notation regex_match := (regex_match rx compile match_string impls).
  Notation means := (means rx compile match_string).
  Notation matches := (matches rx compile match_string impls).

  Record ok (s : rstate rx) : Prop := {
    ok_cache : forall p v, assoc (re_key p) (context _ s) = Some v -> v = compiled_as p;
    ok_compiled : forall p, count_compiled p (effects _ s) =
      match assoc (re_key p) (context _ s) with Some _ => 1 | None => 0 end;
    ok_logged : forall p, count_logged p (effects _ s) =
      match assoc (re_key p) (context _ s) with Some CNil => 1 | _ => 0 end
  }.

  Lemma match_str_ok : forall s p t, ok s -> ok (fst (match_str s p t)) /\ snd (match_str s p t) = means p t.
  Proof.
    intros s p t [OC OK OL]. unfold Regex.match_str, RegexProps.means.
    destruct (assoc (re_key p) (context _ s)) as [v|] eqn:A.
    - pose proof (OC _ _ A) as EV. unfold Regex.compiled_as in EV.
      destruct (compile _) as [r|]; subst v; (split; [constructor; auto|reflexivity]).
    - assert (KEY : forall q v, assoc (re_key q) (dict_set (re_key p) v (context _ s)) =
        if String.eqb q p then Some v else assoc (re_key q) (context _ s)).
      { intros q v. rewrite assoc_dict_set. destruct (String.eqb q p) eqn:EQ.
        - apply String.eqb_eq in EQ as ->. now rewrite String.eqb_refl.
        - destruct (String.eqb (re_key q) (re_key p)) eqn:EK; [|reflexivity].
          apply String.eqb_eq, re_key_inj in EK. subst. rewrite String.eqb_refl in EQ. discriminate. }
      pose proof (OK p) as OKp. pose proof (OL p) as OLp. rewrite A in OKp, OLp.
      destruct (compile ("(?i)" ++ p)%string) as [r|] eqn:C; cbn [fst snd]; (split; [|reflexivity]); constructor;
        cbn [context effects set_context note].
      + intros q v H. rewrite KEY in H. destruct (String.eqb q p) eqn:EQ; [|now apply OC].
        apply String.eqb_eq in EQ as ->. injection H as <-. unfold Regex.compiled_as. now rewrite C.
      + intros q. rewrite KEY. unfold count_compiled. rewrite filter_app, app_length. cbn [filter].
        rewrite String.eqb_sym. destruct (String.eqb q p) eqn:EQ; cbn [List.length].
        * apply String.eqb_eq in EQ as ->. fold (count_compiled p (effects _ s)). lia.
        * fold (count_compiled q (effects _ s)). rewrite OK. lia.
      + intros q. rewrite KEY. unfold count_logged. rewrite filter_app, app_length. cbn [filter List.length].
        fold (count_logged q (effects _ s)). destruct (String.eqb q p) eqn:EQ; [|rewrite OL; lia].
        apply String.eqb_eq in EQ as ->. lia.
      + intros q v H. rewrite KEY in H. destruct (String.eqb q p) eqn:EQ; [|now apply OC].
        apply String.eqb_eq in EQ as ->. injection H as <-. unfold Regex.compiled_as. now rewrite C.
      + intros q. rewrite KEY. unfold count_compiled. rewrite !filter_app, !app_length. cbn [filter List.length].
        rewrite String.eqb_sym. destruct (String.eqb q p) eqn:EQ; cbn [List.length].
        * apply String.eqb_eq in EQ as ->. fold (count_compiled p (effects _ s)). lia.
        * fold (count_compiled q (effects _ s)). rewrite OK. lia.
      + intros q. rewrite KEY. unfold count_logged. rewrite !filter_app, !app_length. cbn [filter List.length].
        fold (count_logged q (effects _ s)). rewrite String.eqb_sym. destruct (String.eqb q p) eqn:EQ; cbn [List.length].
        * apply String.eqb_eq in EQ as ->. lia.
        * rewrite OL. lia.
  Qed.

  Lemma first_impl_find : forall l p t, first_impl l p t =
    match List.find (fun i => match i p t with Some _ => true | None => false end) l with
    | Some i => match i p t with Some b => b | None => false end
    | None => false
    end.
  Proof. induction l as [|i l IH]; intros p t; cbn; [reflexivity|]. destruct (i p t) eqn:K; [now rewrite K|apply IH]. Qed.

  Lemma match_target_ok : forall p v s, match_all p = false -> ok s ->
    ok (fst (match_target p v s)) /\
    snd (match_target p v s) = target_means rx compile match_string impls p v.
  Proof.
    intros p v. induction v as [| |b|k z|f|f|str|n| |l IH|d IH|l IH|n] using val_ind'; intros s NA OK;
      cbn [Regex.match_target]; rewrite NA; try (rewrite first_impl_find; split; [exact OK|reflexivity]).
    - now apply match_str_ok.
    - split; [exact OK|reflexivity].
    - cbn [target_means]. revert s OK. induction IH as [|x l Hx _ IHl]; intros s OK; [split; [exact OK|reflexivity]|].
      destruct (Hx s NA OK) as [OK1 B1]. cbn [existsb].
      destruct (match_target p x s) as [s1 b1]. cbn [fst snd] in *. rewrite <- B1.
      destruct b1; [split; [exact OK1|reflexivity]|]. cbn [orb]. now apply IHl.
  Qed.

  Lemma match_ok : forall pattern target s, ok s ->
    ok (fst (regex_match pattern target s)) /\ snd (regex_match pattern target s) = matches pattern target.
  Proof.
    intros pattern target s OK. unfold Regex.regex_match.
    destruct pattern as [| |b|k z|f|f|p|n| |l|d|l|n]; try (cbn [fst snd]; rewrite first_impl_find; split; [exact OK|reflexivity]).
    destruct (match_all p) eqn:MA.
    - assert (EV : matches (VStr p) target = true).
      { unfold RegexProps.matches. cbn [existsb]. unfold match_all in MA. rewrite orb_false_r, orb_assoc. now rewrite MA. }
      rewrite EV. destruct target; cbn [Regex.match_target]; rewrite MA; split; auto.
    - assert (EV : matches (VStr p) target = target_means rx compile match_string impls p target).
      { unfold RegexProps.matches. cbn [existsb]. unfold match_all in MA. rewrite orb_false_r, orb_assoc. now rewrite MA. }
      rewrite EV. now apply match_target_ok.
  Qed.

  Lemma store_ok : forall s k v, (forall p, k <> re_key p) -> ok s -> ok (set_context rx k v s).
  Proof.
    intros s k v NK [OC OK OL].
    assert (KEY : forall q, assoc (re_key q) (dict_set k v (context _ s)) = assoc (re_key q) (context _ s)).
    { intros q. rewrite assoc_dict_set. destruct (String.eqb (re_key q) k) eqn:EK; [|reflexivity].
      apply String.eqb_eq in EK. now destruct (NK q). }
    constructor; cbn [context effects set_context]; intros p; rewrite KEY; auto.
  Qed.
End Proofs.

(** ** Theorems *)

(** What the host may do to the context without breaking it. *)
Definition own_keys {rx} (l : list (op rx)) : Prop :=
  forall k v, In (OpStore _ k v) l -> forall p, k <> re_key p.

(** Every match of every history has the answer it would have alone, each
    pattern is compiled at most once and a bad one is logged at most once. *)
Theorem C51_answers_do_not_depend_on_the_history : forall rx compile match_string impls (l : list (op rx)),
  own_keys l ->
  let r := run_ops rx compile match_string impls l {| context := []; effects := [] |} in
  snd r = map (fun pt => matches rx compile match_string impls (fst pt) (snd pt))
    (flat_map (fun o => match o with OpMatch _ p t => [(p, t)] | OpStore _ _ _ => [] end) l) /\
  (forall p, count_compiled p (effects _ (fst r)) <= 1) /\
  (forall p, count_logged p (effects _ (fst r)) <= 1) /\
  (forall p, compile ("(?i)" ++ p)%string <> None -> count_logged p (effects _ (fst r)) = 0).
Proof.
  intros rx compile match_string impls l OWN r.
  assert (K : forall s, ok rx compile s ->
    ok rx compile (fst (run_ops rx compile match_string impls l s)) /\
    snd (run_ops rx compile match_string impls l s) = map (fun pt => matches rx compile match_string impls (fst pt) (snd pt))
      (flat_map (fun o => match o with OpMatch _ p t => [(p, t)] | OpStore _ _ _ => [] end) l)).
  { clear r. induction l as [|o l IH]; intros s OK; [split; [exact OK|reflexivity]|].
    assert (OWN' : own_keys l) by (intros k v H; apply (OWN k v); now right). specialize (IH OWN').
    destruct o as [p t|k v]; cbn [run_ops flat_map].
    - destruct (match_ok rx compile match_string impls p t s OK) as [OK1 B1].
      destruct (regex_match rx compile match_string impls p t s) as [s1 b1]. cbn [fst snd] in *.
      destruct (IH s1 OK1) as [OK2 B2]. destruct (run_ops rx compile match_string impls l s1) as [s2 bs].
      cbn [fst snd app map] in *. split; [exact OK2|]. now rewrite B1, B2.
    - cbn [app]. apply IH. apply store_ok; [|exact OK]. apply (OWN k v). now left. }
  assert (OK0 : ok rx compile {| context := []; effects := [] |}).
  { constructor; [discriminate|reflexivity|reflexivity]. }
  destruct (K _ OK0) as [[OC OK OL] B]. split; [exact B|]. split; [|split].
  - intros p. fold r in OK. rewrite OK. destruct (assoc _ _); lia.
  - intros p. fold r in OL. rewrite OL. destruct (assoc _ _) as [[]|]; lia.
  - intros p NC. fold r in OL, OC. rewrite OL. destruct (assoc _ _) as [v|] eqn:A; [|reflexivity].
    apply OC in A. unfold compiled_as in A. destruct (compile _); [|contradiction]. now subst v.
Qed.

(** *** Several goroutines that share the context *)

Section Concurrent.
  Variable rx : Type.
  Variable compile : string -> option rx.
  Variable match_string : rx -> string -> bool.
  Notation cexec := (cexec rx compile match_string).
  Notation cstep := (cstep rx compile match_string).

  Definition count_by (i : nat) (p : string) (l : list cevent) : nat :=
    List.length (filter (fun e => match e with CCompile j q => Nat.eqb j i && String.eqb q p | _ => false end) l).

  Definition cache_ok (s : cstate rx) : Prop :=
    forall p v, assoc (re_key p) (shared _ s) = Some v -> v = compiled_as rx compile p.

  Lemma answer_means : forall p t, answer_of rx match_string (compiled_as rx compile p) t = means rx compile match_string p t.
  Proof. intros p t. unfold compiled_as, means. destruct (compile _); reflexivity. Qed.

  Lemma step_cache : forall s e s', cstep s e s' -> cache_ok s -> cache_ok s' /\
    forall p t b, In (CAnswer p t b) e -> b = means rx compile match_string p t.
  Proof.
    intros s e s' H OK. destruct H as [m a p t jobs b v A|m a p t jobs b A|m a p t jobs b]; cbn [shared] in *.
    - split; [exact OK|]. intros p' t' b' [K|[]]. injection K as <- <- <-. rewrite (OK _ _ A). apply answer_means.
    - split; [exact OK|]. intros p' t' b' [K|[]]. discriminate.
    - split.
      + intros q v. cbn [shared]. rewrite assoc_dict_set. destruct (String.eqb (re_key q) (re_key p)) eqn:EK; [|apply OK].
        apply String.eqb_eq, re_key_inj in EK as ->. intros K. now injection K.
      + intros p' t' b' [K|[K|[]]]; [discriminate|]. injection K as <- <- <-. apply answer_means.
  Qed.

  Lemma exec_answers : forall s l s', cexec s l s' -> cache_ok s ->
    forall p t b, In (CAnswer p t b) l -> b = means rx compile match_string p t.
  Proof.
    intros s l s' H. induction H as [s|s e s1 l s2 ST _ IH]; intros OK p t b K; [contradiction|].
    destruct (step_cache _ _ _ ST OK) as [OK1 A1]. apply in_app_iff in K as [K|K]; [eauto|eauto].
  Qed.

  (** A thread that already compiled a pattern finds it. *)
  Definition may_compile (s : cstate rx) (i : nat) (p : string) : nat :=
    match assoc (re_key p) (shared _ s) with
    | None => 1
    | Some _ => match nth_error (threads _ s) i with Some (TMissed q _ _) => if String.eqb q p then 1 else 0 | _ => 0 end
    end.

  Lemma nth_mid : forall A (a : list A) x b i, nth_error (a ++ x :: b) i =
    if Nat.eqb i (List.length a) then Some x else nth_error (a ++ b) (if Nat.ltb i (List.length a) then i else Nat.pred i).
  Proof.
    intros A a x b i. destruct (Nat.eqb i (List.length a)) eqn:EI.
    - apply Nat.eqb_eq in EI as ->. rewrite nth_error_app2, Nat.sub_diag by lia. reflexivity.
    - apply Nat.eqb_neq in EI. destruct (Nat.ltb i (List.length a)) eqn:EL.
      + apply Nat.ltb_lt in EL. now rewrite !nth_error_app1 by lia.
      + apply Nat.ltb_ge in EL. rewrite !nth_error_app2 by lia.
        destruct (i - List.length a) as [|k] eqn:EK; [lia|]. cbn. f_equal. lia.
  Qed.

  Lemma step_count : forall s e s' i p, cstep s e s' -> count_by i p e + may_compile s' i p <= may_compile s i p.
  Proof.
    intros s e s' i p H. destruct H as [m a q t jobs b v A|m a q t jobs b A|m a q t jobs b]; unfold may_compile, count_by;
      cbn [shared threads filter List.length].
    - destruct (assoc (re_key p) m) eqn:AP; [|lia]. rewrite !nth_mid. destruct (Nat.eqb i (List.length a)); lia.
    - destruct (assoc (re_key p) m) eqn:AP; [|lia]. rewrite !nth_mid. destruct (Nat.eqb i (List.length a)) eqn:EI; [|lia].
      destruct (String.eqb q p) eqn:EQ; [|lia]. apply String.eqb_eq in EQ as ->. congruence.
    - rewrite assoc_dict_set, !nth_mid. rewrite (Nat.eqb_sym (List.length a)).
      destruct (String.eqb (re_key p) (re_key q)) eqn:EK.
      + apply String.eqb_eq, re_key_inj in EK as ->. rewrite String.eqb_refl.
        destruct (Nat.eqb i (List.length a)); cbn [andb List.length].
        * rewrite String.eqb_refl. destruct (assoc (re_key q) m); lia.
        * destruct (assoc (re_key q) m); [lia|].
          destruct (nth_error (a ++ b) _) as [[?|q' ? ?]|]; try lia. destruct (String.eqb q' q); lia.
      + assert (NE : String.eqb q p = false).
        { destruct (String.eqb q p) eqn:EQ; [|reflexivity]. apply String.eqb_eq in EQ as ->. rewrite String.eqb_refl in EK. discriminate. }
        rewrite NE, andb_false_r. cbn [List.length]. destruct (assoc (re_key p) m); [|lia].
        destruct (Nat.eqb i (List.length a)); lia.
  Qed.

  Lemma exec_count : forall s l s' i p, cexec s l s' -> count_by i p l <= may_compile s i p.
  Proof.
    intros s l s' i p H. induction H as [s|s e s1 l s2 ST _ IH]; [cbn; lia|].
    pose proof (step_count _ _ _ i p ST). unfold count_by in *. rewrite filter_app, app_length. lia.
  Qed.
End Concurrent.

(** Whatever the interleaving, the answers are the same, and no goroutine
    compiles a pattern twice. *)
Theorem C51_answers_do_not_depend_on_the_schedule : forall rx compile match_string jobs l s',
  cexec rx compile match_string (cstate0 rx jobs) l s' ->
  (forall p t b, In (CAnswer p t b) l -> b = means rx compile match_string p t) /\
  (forall i p, count_by i p l <= 1).
Proof.
  intros rx compile match_string jobs l s' H. split.
  - eapply exec_answers; [exact H|]. intros p v K. discriminate.
  - intros i p. pose proof (exec_count rx compile match_string _ _ _ i p H) as K. unfold may_compile in K. cbn in K. exact K.
Qed.

(** ** Examples and refutations *)

(** A toy library: an expression is a string it must be equal to, one with a
    parenthesis is bad. *)
Definition toy_compile (p : string) : option string := if String.eqb p "(?i)(" then None else Some p.
Definition toy_match (r t : string) : bool := String.eqb r ("(?i)" ++ t)%string.

Example C51_demo :
  run_ops _ toy_compile toy_match []
    [OpMatch _ (VStr "a") (VStr "a"); OpMatch _ (VStr "(") (VStr "a"); OpStore _ "other" COther; OpMatch _ (VStr "(") (VStr "(");
     OpMatch _ (VStr "a") (VArr [VStr "b"; VArr [VStr "a"]]); OpMatch _ (VStr ".") VNull; OpMatch _ (VStr "b") VNull]
    {| context := []; effects := [] |}
  = ({| context := [("__rea", CRegex "(?i)a"); ("__re(", CNil); ("other", COther)];
        effects := [Compiled "a"; Compiled "("; Logged "("] |},
     [true; false; false; true; true; false]).
Proof. reflexivity. Qed.

(** The cache is in the context of the host: a value stored there under the
    key of a pattern changes the answer. *)
Theorem C51_stored_value_changes_the_answer_refuted : exists (l : list (op string)) b,
  snd (run_ops _ toy_compile toy_match [] (l ++ [OpMatch _ (VStr "a") (VStr "a")]) {| context := []; effects := [] |}) = [b] /\
  b <> matches _ toy_compile toy_match [] (VStr "a") (VStr "a").
Proof. exists [OpStore _ "__rea" COther], false. split; [reflexivity|]. discriminate. Qed.

(** Two goroutines may compile, and log, the same pattern. *)
Theorem C51_two_goroutines_compile_twice_refuted : exists jobs l s',
  cexec _ toy_compile toy_match (cstate0 _ jobs) l s' /\
  List.length (filter (fun e => match e with CCompile _ q => String.eqb q "(" | _ => false end) l) = 2.
Proof.
  exists [[("(", "x")]; [("(", "y")]]. eexists. eexists. split.
  - eapply (CECons _ _ _ _ [_]); [apply (CMiss _ _ _ _ [] "(" "x" [] [TReady [("(", "y")]]); reflexivity|].
    eapply (CECons _ _ _ _ [_]); [apply (CMiss _ _ _ _ [TMissed "(" "x" []] "(" "y" [] []); reflexivity|].
    eapply (CECons _ _ _ _ [_; _]); [apply (CFill _ _ _ _ [] "(" "x" [] [TMissed "(" "y" []])|].
    eapply (CECons _ _ _ _ [_; _]); [apply (CFill _ _ _ _ [TReady []] "(" "y" [] [])|].
    apply CENil.
  - reflexivity.
Qed.

Print Assumptions C51_answers_do_not_depend_on_the_history.
Print Assumptions C51_answers_do_not_depend_on_the_schedule.
Print Assumptions C51_stored_value_changes_the_answer_refuted.
Print Assumptions C51_two_goroutines_compile_twice_refuted.
