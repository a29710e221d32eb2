(** C100: laws of scripts. *)

From Coq Require Import ZArith List String Bool Lia PeanoNat.
From Verif Require Import Base Value Protocols Monad Flatten Syntax Eval Runs PureSpec PureEval PureSelect
  SelectProps Laws Laws2 Demo Para ScriptProps.
Import ListNotations.
Open Scope nat_scope.
Open Scope list_scope.

(** ** Specification *)

(** The variables that a statement or a script mentions (whether or not it
    assigns them). *)
Definition stmt_names (depth : nat) (q : stmt) : list string :=
  match q with
  | SLet _ _ _ (LExpr e) => names e
  | SLet _ _ _ (LSelect q) | SQuery _ q => query_names depth q
  end.
Definition script_names (depth : nat) (l : list stmt) : list string := flat_map (stmt_names depth) l.

(** Both scripts run, with these results for their queries, and no effect that
    could be observed. *)
Definition both_yield (E : env) (sc : scope) (s : st) (l l' : list stmt) (outs : list (list dict)) : Prop :=
  (exists sc1 s1, evaluates (fun n => run_stmts (ev E n) sc l) s s1 (sc1, map (map VDict) outs) /\ quiet s s1) /\
  (exists sc2 s2, evaluates (fun n => run_stmts (ev E n) sc l') s s2 (sc2, map (map VDict) outs) /\ quiet s s2).

Section C100.
  Variables (E : env) (funs : string -> option (dict -> option val)) (owner : nat -> string).
  Hypothesis FOK : funs_ok E funs.

  (** ** Proofs *)

  Lemma script_agree : forall n m, n <= m -> forall l fr fr' fr1 outs,
    agree (script_names n l) fr fr' -> script_means E funs n fr l = Some (fr1, outs) ->
    exists fr2, script_means E funs m fr' l = Some (fr2, outs).
  Proof.
    intros n m LE. induction l as [|q l IH]; intros fr fr' fr1 outs A H.
    - injection H as <- <-. exists fr'. reflexivity.
    - unfold script_names in A. cbn [flat_map] in A. apply agree_app in A as [A1 A2]. cbn [script_means] in *.
      destruct q as [x params [|] [e|q]|text q]; try discriminate; cbn [stmt_names] in A1.
      + rewrite <- (den_names E funs e fr fr' A1). destruct (den E funs fr e) as [v|]; [|discriminate]. cbn [obind] in *.
        eapply IH; [|exact H]. now apply agree_cons.
      + destruct (query_rows E funs n fr q) as [rows|] eqn:Q; [|discriminate]. cbn [obind] in H.
        rewrite (query_agree E funs n m fr fr' q rows LE A1 Q). cbn [obind]. eapply IH; [|exact H]. now apply agree_cons.
      + destruct (query_rows E funs n _ q) as [rows|] eqn:Q; [|discriminate]. cbn [obind] in H.
        match goal with |- context [query_rows E funs m ?f q] =>
          assert (Q' : query_rows E funs m f q = Some rows)
            by exact (query_agree E funs n m _ _ q rows LE (agree_cons _ _ _ _ A1) Q) end.
        rewrite Q'. cbn [obind].
        destruct (script_means E funs n fr l) as [[f o]|] eqn:SM; [|discriminate]. cbn in H. injection H as <- <-.
        destruct (IH _ fr' _ _ A2 SM) as (f2 & ->). exists f2. reflexivity.
  Qed.

  Lemma both_run : forall n m l l' sc fr fr1 fr2 outs s,
    frames sc fr -> room_for n sc -> room_for m sc -> calls_ok E owner s ->
    Forall (label_stmt owner n) l -> Forall (label_stmt owner m) l' ->
    script_means E funs n fr l = Some (fr1, outs) -> script_means E funs m fr l' = Some (fr2, outs) ->
    both_yield E sc s l l' outs.
  Proof.
    intros n m l l' sc fr fr1 fr2 outs s FR RN RM CO LL LL' H H'. split.
    - destruct (C99_script_means E funs owner FOK n l sc fr fr1 outs s FR RN CO LL H) as (sc1 & s1 & EV & _ & Q). eauto.
    - destruct (C99_script_means E funs owner FOK m l' sc fr fr2 outs s FR RM CO LL' H') as (sc1 & s1 & EV & _ & Q). eauto.
  Qed.

  Lemma lookup_other : forall x y v fr, x <> y -> lookup ([(x, v)] :: fr) y = lookup fr y.
  Proof.
    intros x y v fr N. cbn. destruct (String.eqb y x) eqn:EK; [|reflexivity].
    apply String.eqb_eq in EK. congruence.
  Qed.

  (** The second script has the results that the first one means. *)
  Let follows (n m : nat) (l l' : list stmt) : Prop :=
    forall fr fr1 outs, script_means E funs n fr l = Some (fr1, outs) ->
      exists fr2, script_means E funs m fr l' = Some (fr2, outs).

  Lemma after : forall n m pre l l', n <= m -> follows n m l l' -> follows n m (pre ++ l) (pre ++ l').
  Proof.
    intros n m pre l l' LE F. induction pre as [|q pre IH]; [exact F|]. intros fr fr1 outs H.
    cbn [app script_means] in *. destruct q as [x params [|] [e|q]|text q]; try discriminate.
    - destruct (den E funs fr e) as [v|]; [|discriminate]. cbn [obind] in *. exact (IH _ _ _ H).
    - destruct (query_rows E funs n fr q) as [rows|] eqn:Q; [|discriminate]. cbn [obind] in H.
      rewrite (query_agree E funs n m fr fr q rows LE (fun _ _ => eq_refl) Q). cbn [obind]. exact (IH _ _ _ H).
    - destruct (query_rows E funs n _ q) as [rows|] eqn:Q; [|discriminate]. cbn [obind] in H.
      match goal with |- context [query_rows E funs m ?f q] =>
        assert (Q' : query_rows E funs m f q = Some rows)
          by exact (query_agree E funs n m _ _ q rows LE (fun _ _ => eq_refl) Q) end.
      rewrite Q'. cbn [obind].
      destruct (script_means E funs n fr (pre ++ l)) as [[f o]|] eqn:SM; [|discriminate]. cbn in H. injection H as <- <-.
      destruct (IH _ _ _ SM) as (f2 & ->). exists f2. reflexivity.
  Qed.

  Let assigned (n : nat) (body : letbody) (fr : list dict) : option val :=
    match body with
    | LExpr e => den E funs fr e
    | LSelect q => option_map (fun rows => VQuery (map VDict rows)) (query_rows E funs n fr q)
    end.

  Lemma assign : forall n z p body l fr, script_means E funs n fr (SLet z p false body :: l) =
    obind (assigned n body fr) (fun v => script_means E funs n ([(z, v)] :: fr) l).
  Proof. intros n z p [e|q] l fr; cbn; [reflexivity|]. destruct (query_rows E funs n fr q); reflexivity. Qed.

  Lemma assigned_agree : forall n z p body f f' v, agree (stmt_names n (SLet z p false body)) f f' ->
    assigned n body f = Some v -> assigned n body f' = Some v.
  Proof.
    intros n z p body f f' v A V. cbn [stmt_names] in A. destruct body as [e|q]; cbn [assigned] in *.
    - now rewrite <- (den_names E funs e f f' A).
    - destruct (query_rows E funs n f q) as [r|] eqn:Q; [|discriminate].
      now rewrite (query_agree E funs n n f f' q r (le_n _) A Q).
  Qed.

  Lemma agree_without : forall (l : list string) x v fr, ~ In x l -> agree l ([(x, v)] :: fr) fr.
  Proof. intros l x v fr NI y HY. apply lookup_other. intros ->. contradiction. Qed.

  (** An assignment that no later statement mentions may be left out. *)
  Theorem C100_unused_assignment : forall depth sc fr fr1 pre x params body l outs s,
    frames sc fr -> room_for depth sc -> calls_ok E owner s ->
    Forall (label_stmt owner depth) (pre ++ SLet x params false body :: l) ->
    ~ In x (script_names depth l) ->
    script_means E funs depth fr (pre ++ SLet x params false body :: l) = Some (fr1, outs) ->
    both_yield E sc s (pre ++ SLet x params false body :: l) (pre ++ l) outs.
  Proof.
    intros depth sc fr fr1 pre x params body l outs s FR RM CO LL NI H.
    destruct (after depth depth pre (SLet x params false body :: l) l (le_n _)) with (2 := H) as (fr2 & H').
    - intros f f1 o SM. rewrite assign in SM. destruct (assigned depth body f) as [v|]; [|discriminate]. cbn [obind] in SM.
      exact (script_agree depth depth (le_n _) l _ f f1 o (agree_without _ _ _ _ NI) SM).
    - eapply both_run; eauto. apply Forall_app in LL as [L1 L2]. inversion L2; subst. now apply Forall_app.
  Qed.

  (** An assignment that is replaced at once may be left out, if the new value
      is not computed from the old one. *)
  Theorem C100_replaced_assignment : forall depth sc fr fr1 pre x params params' a b l outs s,
    frames sc fr -> room_for depth sc -> calls_ok E owner s ->
    Forall (label_stmt owner depth) (pre ++ SLet x params false a :: SLet x params' false b :: l) ->
    ~ In x (stmt_names depth (SLet x params' false b)) ->
    script_means E funs depth fr (pre ++ SLet x params false a :: SLet x params' false b :: l) = Some (fr1, outs) ->
    both_yield E sc s (pre ++ SLet x params false a :: SLet x params' false b :: l)
                      (pre ++ SLet x params' false b :: l) outs.
  Proof.
    intros depth sc fr fr1 pre x params params' a b l outs s FR RM CO LL NI H.
    destruct (after depth depth pre (SLet x params false a :: SLet x params' false b :: l) (SLet x params' false b :: l) (le_n _))
      with (2 := H) as (fr2 & H').
    - intros f f1 o SM. rewrite assign in SM. destruct (assigned depth a f) as [v|]; [|discriminate]. cbn [obind] in SM.
      rewrite assign in SM |- *. destruct (assigned depth b _) as [w|] eqn:VB; [|discriminate]. cbn [obind] in SM.
      rewrite (assigned_agree depth x params' b _ f w (agree_without _ _ _ _ NI) VB). cbn [obind].
      refine (script_agree depth depth (le_n _) l _ _ f1 o _ SM). intros z _.
      destruct (String.string_dec z x) as [->|N].
      + cbn [lookup assoc]. now rewrite String.eqb_refl.
      + rewrite !lookup_other by congruence. reflexivity.
    - eapply both_run; eauto. apply Forall_app in LL as [L1 L2]. inversion L2; subst. now apply Forall_app.
  Qed.

  (** Two assignments neither of which mentions the variable of the other may
      be exchanged. *)
  Theorem C100_exchange_assignments : forall depth sc fr fr1 pre x y params params' a b l outs s,
    frames sc fr -> room_for depth sc -> calls_ok E owner s ->
    Forall (label_stmt owner depth) (pre ++ SLet x params false a :: SLet y params' false b :: l) ->
    x <> y -> ~ In x (stmt_names depth (SLet y params' false b)) -> ~ In y (stmt_names depth (SLet x params false a)) ->
    script_means E funs depth fr (pre ++ SLet x params false a :: SLet y params' false b :: l) = Some (fr1, outs) ->
    both_yield E sc s (pre ++ SLet x params false a :: SLet y params' false b :: l)
                      (pre ++ SLet y params' false b :: SLet x params false a :: l) outs.
  Proof.
    intros depth sc fr fr1 pre x y params params' a b l outs s FR RM CO LL NE NX NY H.
    destruct (after depth depth pre (SLet x params false a :: SLet y params' false b :: l)
                (SLet y params' false b :: SLet x params false a :: l) (le_n _)) with (2 := H) as (fr2 & H').
    - intros f f1 o SM. rewrite assign in SM. destruct (assigned depth a f) as [v|] eqn:VA; [|discriminate]. cbn [obind] in SM.
      rewrite assign in SM. destruct (assigned depth b _) as [w|] eqn:VB; [|discriminate]. cbn [obind] in SM.
      rewrite assign, (assigned_agree depth y params' b _ f w (agree_without _ _ _ _ NX) VB). cbn [obind].
      rewrite assign, (assigned_agree depth x params a f ([(y, w)] :: f) v
        (fun z HZ => eq_sym (agree_without _ _ _ _ NY z HZ)) VA). cbn [obind].
      refine (script_agree depth depth (le_n _) l _ _ f1 o _ SM). intros z _.
      destruct (String.string_dec z y) as [->|Ny].
      + rewrite (lookup_other x y) by exact NE. cbn [lookup assoc]. now rewrite String.eqb_refl.
      + rewrite (lookup_other y z) by congruence. destruct (String.string_dec z x) as [->|Nx].
        * cbn [lookup assoc]. now rewrite String.eqb_refl.
        * rewrite !lookup_other by congruence. reflexivity.
    - eapply both_run; eauto. apply Forall_app in LL as [L1 L2].
      inversion L2 as [|? ? LA L3]; subst. inversion L3; subst. apply Forall_app. auto.
  Qed.

  (** A query that is assigned and used once, as the table of another query,
      may be written in its place. *)
  Theorem C100_inline_query : forall depth sc fr pre x params q tag star cols w ob lim rest chain k fr1 outs s,
    assoc chain (env_plugs E) = Some PlChain ->
    frames sc fr -> room_for (S depth) sc -> room_for (S (S depth)) sc -> calls_ok E owner s ->
    let outer from := Select star cols from w None ob lim in
    let l := pre ++ SLet x params false (LSelect q) :: SQuery tag (outer (from_var x)) :: rest in
    let l' := pre ++ SQuery tag (outer (only chain k q)) :: rest in
    Forall (label_stmt owner (S depth)) l -> Forall (label_stmt owner (S (S depth))) l' ->
    x <> "$Query"%string -> ~ In "$Query"%string (query_names (S depth) q) ->
    ~ In x (flat_map (fun c => column_names (query_names depth) (snd c)) cols ++
            match w with Some w => names w | None => [] end) ->
    ~ In x (script_names (S depth) rest) ->
    script_means E funs (S depth) fr l = Some (fr1, outs) ->
    both_yield E sc s l l' outs.
  Proof.
    intros depth sc fr pre x params q tag star cols w ob lim rest chain k fr1 outs s CH FR R1 R2 CO outer l l' LL LL' NQ NN NX NR H.
    assert (F : follows (S depth) (S (S depth)) (SLet x params false (LSelect q) :: SQuery tag (outer (from_var x)) :: rest)
                  (SQuery tag (outer (only chain k q)) :: rest)).
    2:{ destruct (after (S depth) (S (S depth)) pre _ _ ltac:(lia) F fr fr1 outs H) as (fr2 & H').
        eapply (both_run (S depth) (S (S depth))); eauto. }
    clear - CH NQ NN NX NR. intros fr fr1 outs H.
    cbn [script_means] in H.
    destruct (query_rows E funs (S depth) fr q) as [rows|] eqn:HQ; [|discriminate]. cbn [obind] in H.
    destruct (query_rows E funs (S depth) _ (outer (from_var x))) as [out|] eqn:HO; [|discriminate].
    cbn [obind] in H. destruct (script_means E funs (S depth) _ rest) as [[f o]|] eqn:SM; [|discriminate].
    cbn in H. injection H as <- <-. unfold outer in *. cbn [script_means].
    rewrite query_rows_eq in HO |- *. rewrite source_only by exact CH.
    match goal with |- context [query_rows E funs (S depth) ?f q] =>
      assert (HQ' : query_rows E funs (S depth) f q = Some rows) end.
    { eapply query_agree; [apply le_n| |exact HQ]. intros z HZ. symmetry. apply lookup_other. intros <-. contradiction. }
    rewrite HQ'.
    cbn [obind]. destruct (source E funs (query_rows E funs depth) _ (from_var x)) as [tab|] eqn:HT; [|discriminate].
    assert (tab = rows) as ->.
    { unfold from_var in HT. cbn [source] in HT. rewrite lookup_other in HT by (intros EQ; apply NQ; now rewrite EQ).
      cbn [lookup assoc] in HT. rewrite String.eqb_refl in HT. exact (SchedProps.dicts_map _ _ HT). }
    cbn [obind] in HO |- *.
    destruct (select_rows E funs (query_rows E funs depth) _ star cols w rows) as [ro|] eqn:SO; [|discriminate].
    erewrite (select_agree E funs (query_names depth) (query_rows E funs depth) (query_rows E funs (S depth)));
      [| |intros; apply agree_cons|exact SO].
    + cbn [obind] in HO |- *. rewrite HO. cbn [obind].
      destruct (script_agree (S depth) (S (S depth)) ltac:(lia) rest _ fr f o (agree_without _ _ _ _ NR) SM) as (f2 & ->).
      exists f2. reflexivity.
    + intros f' f'' q' r A Q. exact (query_agree E funs depth (S depth) f' f'' q' r ltac:(lia) A Q).
    + apply agree_cons. apply agree_without. exact NX.
  Qed.
End C100.

(** ** Concrete cases *)

Import Demo.
Open Scope string_scope.

(** LET big <= SELECT k, n + base AS m FROM t WHERE n
    LET two <= base - 8
    SELECT k, m * two AS v FROM big WHERE m > 11 ORDER BY v DESC *)
Definition big : stmt :=
  SLet "big" [] false (LSelect (Select false [("k", CExpr (sym 0 "k")); ("m", CExpr (EAdd (sym 1 "n") [("+", sym 2 "base")]))]
    (from_var "t") (Some (sym 3 "n")) None None None)).
Definition two : stmt := SLet "two" [] false (LExpr (EAdd (sym 4 "base") [("-", lit 8)])).
Definition used : select :=
  Select false [("k", CExpr (sym 5 "k")); ("v", CExpr (EMul (sym 6 "m") [("*", sym 7 "two")]))]
    (from_var "big") (Some (ECmp (sym 8 "m") Chains.OpGt (lit 11))) None (Some ("v", true)) None.
Definition used_out : list (list (string * val)) :=
  [row [("k", VStr "b"); ("v", i 26)]; row [("k", VStr "a"); ("v", i 24)]].

Lemma stmts_labelled : Forall (label_stmt demo_owner 3) [big; two; SQuery "q" used].
Proof. repeat (constructor; cbn). Qed.

Example C100_exchange_demo :
  both_yield demo_env demo_scope st0 [big; two; SQuery "q" used] [two; big; SQuery "q" used] [used_out].
Proof.
  eapply (C100_exchange_assignments demo_env demo_funs demo_owner demo_funs_ok 3) with (pre := []).
  - reflexivity.
  - unfold room_for. cbn. lia.
  - discriminate.
  - apply stmts_labelled.
  - discriminate.
  - cbn. intuition discriminate.
  - cbn. intuition discriminate.
  - vm_compute. reflexivity.
Qed.

Example C100_unused_demo :
  both_yield demo_env demo_scope st0
    [SLet "extra" [] false (LExpr (lit 5)); big; two; SQuery "q" used] [big; two; SQuery "q" used] [used_out].
Proof.
  eapply (C100_unused_assignment demo_env demo_funs demo_owner demo_funs_ok 3) with (pre := []).
  - reflexivity.
  - unfold room_for. cbn. lia.
  - discriminate.
  - constructor; [exact I|apply stmts_labelled].
  - cbn. intuition discriminate.
  - vm_compute. reflexivity.
Qed.

Example C100_replaced_demo :
  both_yield demo_env demo_scope st0
    [SLet "two" [] false (LExpr (lit 5)); two; big; SQuery "q" used] [two; big; SQuery "q" used] [used_out].
Proof.
  eapply (C100_replaced_assignment demo_env demo_funs demo_owner demo_funs_ok 3) with (pre := []).
  - reflexivity.
  - unfold room_for. cbn. lia.
  - discriminate.
  - repeat (constructor; cbn).
  - cbn. intuition discriminate.
  - vm_compute. reflexivity.
Qed.

(** LET two <= base - 8
    SELECT k, m * two AS v FROM chain(a={ SELECT k, n + base AS m … }) WHERE …
    SELECT two AS k FROM t LIMIT 1 *)
Definition used_from (from : plugin) : select :=
  Select false [("k", CExpr (sym 5 "k")); ("v", CExpr (EMul (sym 6 "m") [("*", sym 7 "two")]))]
    from (Some (ECmp (sym 8 "m") Chains.OpGt (lit 11))) None (Some ("v", true)) None.
Definition last : stmt := SQuery "r" (Select false [("k", CExpr (sym 9 "two"))] (from_var "t") None None None (Some 1%Z)).

Example C100_inline_demo :
  exists q, big = SLet "big" [] false (LSelect q) /\
  both_yield demo_env demo_scope st0
    [two; big; SQuery "q" (used_from (from_var "big")); last]
    [two; SQuery "q" (used_from (only "chain" "a" q)); last] [used_out; [row [("k", i 2)]]].
Proof.
  eexists. split; [reflexivity|].
  eapply (C100_inline_query demo_env demo_funs demo_owner demo_funs_ok 2) with (pre := [two]) (rest := [last]).
  - reflexivity.
  - reflexivity.
  - unfold room_for. cbn. lia.
  - unfold room_for. cbn. lia.
  - discriminate.
  - repeat (constructor; cbn).
  - repeat (constructor; cbn).
  - discriminate.
  - cbn. intuition discriminate.
  - cbn. intuition discriminate.
  - cbn. intuition discriminate.
  - vm_compute. reflexivity.
Qed.

(** LET big <= SELECT * FROM t LIMIT 1 SELECT big AS b FROM big: a query that
    mentions the variable elsewhere loses it. *)
Theorem C100_mentioned_variable_refuted :
  let q := Select false [("k", CExpr (sym 0 "k"))] (from_var "t") None None None (Some 1%Z) in
  let outer from := Select false [("b", CExpr (EMember (sym 1 "big") [MIndex (lit 0); MField "k"]))] from None None None None in
  exists sc1 sc2 s1 s2,
    evaluates (fun n => run_stmts (ev demo_env n) demo_scope
      [SLet "big" [] false (LSelect q); SQuery "q" (outer (from_var "big"))]) st0 s1 (sc1, [[VDict [("b", VStr "b")]]]) /\
    evaluates (fun n => run_stmts (ev demo_env n) demo_scope
      [SQuery "q" (outer (only "chain" "a" q))]) st0 s2 (sc2, [[VDict [("b", VNull)]]]).
Proof. do 4 eexists. split; apply (stmts_enough demo_env 30); vm_compute; reflexivity. Qed.

Print Assumptions C100_unused_assignment.
Print Assumptions C100_replaced_assignment.
Print Assumptions C100_exchange_assignments.
Print Assumptions C100_inline_query.
Print Assumptions C100_mentioned_variable_refuted.
