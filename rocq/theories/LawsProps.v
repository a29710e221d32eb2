(** C93: queries may be rewritten by the usual laws.

    The queries are those without side effects whose rows C14 gives
    ([query_rows], PureSpec.v): for two queries that a law makes equal, the
    evaluator yields the same rows in the same order for both.

    chain(k={q}) is how VQL selects from a nested query; [only chain k q]. *)

From Coq Require Import ZArith List String Bool Lia PeanoNat.
From Verif Require Import Base BaseProofs F64 Value Protocols OpsProofs Monad Chains Range Flatten
  ArgParser Syntax Eval Runs Para GoSort PureSpec PureEval PureSelect Demo SelectProps Laws.
Import ListNotations.
Open Scope nat_scope.
Open Scope list_scope.

(** ** Specification *)

(** Both queries yield these rows, and do nothing that the host can see. *)
Definition both_yield (E : env) (sc : scope) (s : st) (q q' : select) (out : list dict) : Prop :=
  (exists s1, query_yields E sc q s s1 (map VDict out) /\ quiet s s1) /\
  (exists s2, query_yields E sc q' s s2 (map VDict out) /\ quiet s s2).

(** The conditions a query may have in front of what follows. *)
Definition with_where (star : bool) (cols : list (string * colbody)) (p : plugin) (ob : option (string * bool))
  (lim : option Z) (w : expr) : select := Select star cols p (Some w) None ob lim.

Section Theorems.
  Variables (E : env) (funs : string -> option (dict -> option val)) (owner : nat -> string).
  Hypothesis FOK : funs_ok E funs.
  Variables (depth : nat) (sc : scope) (fr : list dict) (s : st) (chain k : string).
  Hypothesis CH : assoc chain (env_plugs E) = Some PlChain.
  Hypothesis FR : frames sc fr.
  Hypothesis RM : room_for (S (S depth)) sc.
  Hypothesis CO : calls_ok E owner s.

  Notation rows_of n q := (query_rows E funs n fr q).
  Notation well n q := (label_query owner n q).
  Notation both := (both_yield E sc s).

  Lemma yields_both : forall q q' n n' out, n <= S (S depth) -> n' <= S (S depth) -> well n q -> well n' q' ->
    rows_of n q = Some out -> rows_of n' q' = Some out -> both q q' out.
  Proof.
    intros q q' n n' out HN HN' L L' H H'. unfold room_for in RM.
    split; [apply (C14_query_yields_its_rows E funs owner FOK n sc fr)|apply (C14_query_yields_its_rows E funs owner FOK n' sc fr)];
      auto; unfold room_for; lia.
  Qed.

  (** Selecting everything from a query is that query. *)
  Theorem C93_star_of_a_query_partial : forall q out, well (S depth) q -> rows_of (S depth) q = Some out -> no_nils out ->
    both q (Select true [] (only chain k q) None None None None) out.
  Proof.
    intros q out L H N. apply (yields_both _ _ (S depth) (S (S depth))); auto.
    - cbn [label_query]. split; [constructor|split; [exact I|]]. constructor; [exact L|constructor].
    - rewrite query_rows_eq, source_only by auto. rewrite H. cbn [obind]. now rewrite star_rows.
  Qed.

  (** A condition a AND b may be asked in two steps. *)
  Theorem C93_where_in_two_steps_partial : forall p a b ob lim out,
    well (S depth) (with_where true [] p ob lim (EAnd a [("AND"%string, b)])) ->
    rows_of (S depth) (with_where true [] p ob lim (EAnd a [("AND"%string, b)])) = Some out ->
    both (with_where true [] p ob lim (EAnd a [("AND"%string, b)]))
         (with_where true [] (only chain k (with_where true [] p None None a)) ob lim b) out.
  Proof.
    intros p a b ob lim out L H. apply (yields_both _ _ (S depth) (S (S depth))); auto.
    - cbn [label_query with_where label_where labelled] in *. destruct L as (L1 & (L2 & L3 & _) & L4).
      split; [constructor|split; [exact L3|]]. constructor; [|constructor]. cbn [snd label_arg label_query].
      split; [constructor|split; [exact L2|exact L4]].
    - unfold with_where in *. rewrite query_rows_eq in H.
      rewrite query_rows_eq, source_only, query_rows_eq by auto.
      destruct (source _ _ _ fr p) as [rows|]; [|discriminate]. cbn [obind] in *.
      destruct (select_rows _ _ _ fr true [] _ rows) as [l|] eqn:SR in H; [|discriminate]. cbn [obind] in H.
      destruct (where_twice _ _ _ (query_rows E funs (S depth)) _ _ _ _ _ SR) as (mid & M1 & M2).
      rewrite M1. cbn [obind]. rewrite M2. cbn [obind]. exact H.
  Qed.

  (** Conditions that are true of the same rows. *)
  Theorem C93_equivalent_conditions_partial : forall star cols p ob lim w w' out,
    same_truth E funs w w' -> labelled owner w' ->
    well (S depth) (with_where star cols p ob lim w) ->
    rows_of (S depth) (with_where star cols p ob lim w) = Some out ->
    both (with_where star cols p ob lim w) (with_where star cols p ob lim w') out.
  Proof.
    intros star cols p ob lim w w' out HW LW L H. apply (yields_both _ _ (S depth) (S depth)); auto.
    - cbn [label_query with_where label_where] in *. tauto.
    - unfold with_where in *. rewrite query_rows_eq in *.
      destruct (source _ _ _ fr p) as [rows|]; [|discriminate]. cbn [obind] in *.
      destruct (select_rows _ _ _ fr star cols _ rows) as [l|] eqn:SR in H; [|discriminate].
      now rewrite (where_same _ _ _ _ _ _ _ _ _ _ HW SR).
  Qed.

  Theorem C93_and_commutes_partial : forall star cols p ob lim a b out,
    well (S depth) (with_where star cols p ob lim (EAnd a [("AND"%string, b)])) ->
    rows_of (S depth) (with_where star cols p ob lim (EAnd a [("AND"%string, b)])) = Some out ->
    both (with_where star cols p ob lim (EAnd a [("AND"%string, b)]))
         (with_where star cols p ob lim (EAnd b [("AND"%string, a)])) out.
  Proof.
    intros star cols p ob lim a b out L H. apply C93_equivalent_conditions_partial; auto.
    - intros fr' v D. destruct (and_defined _ _ _ _ _ _ D) as (x & y & DA & DB & T).
      destruct (and_den _ _ _ _ _ _ _ DB DA) as (v' & D' & T'). exists v'. split; [exact D'|]. rewrite T, T'. apply andb_comm.
    - cbn [label_query with_where label_where labelled] in *. tauto.
  Qed.

  Theorem C93_de_morgan_partial : forall star cols p ob lim a b out,
    well (S depth) (with_where star cols p ob lim (ENot (EAnd a [("AND"%string, b)]))) ->
    rows_of (S depth) (with_where star cols p ob lim (ENot (EAnd a [("AND"%string, b)]))) = Some out ->
    both (with_where star cols p ob lim (ENot (EAnd a [("AND"%string, b)])))
         (with_where star cols p ob lim (EOr (ENot a) [("OR"%string, ENot b)])) out.
  Proof.
    intros star cols p ob lim a b out L H. apply C93_equivalent_conditions_partial; auto.
    - intros fr' v D. change (option_map (fun v => VBool (negb (truthy E v))) (den E funs fr' (EAnd a [("AND"%string, b)])) = Some v) in D.
      destruct (den E funs fr' (EAnd a [("AND"%string, b)])) as [u|] eqn:DU; [|discriminate]. injection D as <-.
      destruct (and_defined _ _ _ _ _ _ DU) as (x & y & DA & DB & T).
      assert (NA : den E funs fr' (ENot a) = Some (VBool (negb (truthy E x)))) by (cbn [den]; now rewrite DA).
      assert (NB : den E funs fr' (ENot b) = Some (VBool (negb (truthy E y)))) by (cbn [den]; now rewrite DB).
      destruct (or_den _ _ _ _ _ _ _ NA NB) as (v' & D' & T'). exists v'. split; [exact D'|].
      rewrite T', !truthy_bool, T. now destruct (truthy E x), (truthy E y).
    - cbn [label_query with_where label_where labelled] in *. tauto.
  Qed.

  Theorem C93_double_negation_partial : forall star cols p ob lim a out,
    well (S depth) (with_where star cols p ob lim a) ->
    rows_of (S depth) (with_where star cols p ob lim a) = Some out ->
    both (with_where star cols p ob lim a) (with_where star cols p ob lim (ENot (ENot a))) out.
  Proof.
    intros star cols p ob lim a out L H. apply C93_equivalent_conditions_partial; auto.
    - intros fr' v D. exists (VBool (negb (negb (truthy E v)))). cbn [den]. rewrite D. cbn.
      rewrite ?truthy_bool. split; [reflexivity|]. apply negb_involutive.
    - cbn [label_query with_where label_where labelled] in *. tauto.
  Qed.

  (** A condition on selected columns, or on variables that the rows do not
      have, may be asked before or after the columns are selected. *)
  Theorem C93_condition_after_columns_partial : forall star cols p w ob lim rows all out,
    well (S depth) (with_where star cols p ob lim w) ->
    source E funs (query_rows E funs depth) fr p = Some rows ->
    rows_of (S depth) (Select star cols p None None None None) = Some all -> no_nils all ->
    (star = true \/ forall x, In x (names w) ->
       (In x (map fst cols) /\ x <> "*"%string) \/ (forall row, In row rows -> assoc x row = None)) ->
    rows_of (S depth) (with_where star cols p ob lim w) = Some out ->
    both (with_where star cols p ob lim w)
         (with_where true [] (only chain k (Select star cols p None None None None)) ob lim w) out.
  Proof.
    intros star cols p w ob lim rows all out L HS HA HN HC H. apply (yields_both _ _ (S depth) (S (S depth))); auto.
    - cbn [label_query with_where label_where] in *. destruct L as (L1 & L2 & L3).
      split; [constructor|split; [exact L2|]]. constructor; [|constructor]. cbn [snd label_arg label_query].
      split; [exact L1|split; [exact I|exact L3]].
    - unfold with_where in *. rewrite query_rows_eq in H, HA.
      rewrite query_rows_eq, source_only, query_rows_eq by auto. rewrite HS in *. cbn [obind] in *.
      destruct (select_rows _ _ _ fr star cols None rows) as [l0|] eqn:SA; [|discriminate]. cbn [obind] in *.
      injection HA as ->.
      destruct (select_rows _ _ _ fr star cols (Some w) rows) as [l|] eqn:SR; [|discriminate]. cbn [obind] in H.
      rewrite (where_later E funs (query_rows E funs depth) (query_rows E funs (S depth)) _ _ _ _ _ _ SR all SA HN); [exact H|].
      intros row o IR PO x IX.
      assert (KEEP : forall cs acc o', columns E funs (query_rows E funs depth) fr row cs acc = Some o' ->
        assoc x acc <> None \/ (In x (map fst cs) /\ x <> "*"%string) -> assoc x o' <> None).
      { clear. intros cs. induction cs as [|[c b] cs IH]; intros acc o' HO HX; cbn [columns] in HO.
        - injection HO as <-. destruct HX as [HX|[[] _]]. exact HX.
        - destruct (String.eqb c "*") eqn:ST.
          + apply (IH _ _ HO). destruct HX as [HX|[[HX|HX] NS]].
            * left. rewrite assoc_app. destruct (assoc x acc); [discriminate|contradiction].
            * apply String.eqb_eq in ST. cbn in HX. congruence.
            * right. now split.
          + destruct (column _ _ _ _ _ b) as [v|]; [|discriminate]. cbn [obind] in HO. apply (IH _ _ HO).
            rewrite assoc_dict_set. destruct (String.eqb x c) eqn:XC; [left; discriminate|].
            destruct HX as [HX|[[HX|HX] NS]]; [now left| |right; now split].
            cbn in HX. subst c. rewrite String.eqb_refl in XC. discriminate. }
      unfold project in PO. destruct HC as [->|HC].
      + destruct (assoc x row) eqn:AR; [|now right]. left. apply (KEEP cols _ _ PO). left.
        rewrite assoc_fields, AR. discriminate.
      + destruct (HC x IX) as [HX|HX]; [left; apply (KEEP cols _ _ PO); now right|right; auto].
  Qed.

  (** The first n of the first m rows. *)
  Theorem C93_limit_of_limit_partial : forall star cols p w ob m n mid, (1 <= m)%Z -> (1 <= n)%Z ->
    well (S depth) (Select star cols p w None ob (Some m)) ->
    rows_of (S depth) (Select star cols p w None ob (Some m)) = Some mid -> no_nils mid ->
    both (Select star cols p w None ob (Some (Z.min m n)))
         (Select true [] (only chain k (Select star cols p w None ob (Some m))) None None None (Some n))
         (firstn (Z.to_nat n) mid).
  Proof.
    intros star cols p w ob m n mid HM HN L H N. apply (yields_both _ _ (S depth) (S (S depth))); auto.
    - cbn [label_query]. split; [constructor|split; [exact I|]]. constructor; [exact L|constructor].
    - rewrite query_rows_eq in *. destruct (source _ _ _ fr p) as [rows|]; [|discriminate]. cbn [obind] in *.
      destruct (select_rows _ _ _ fr star cols w rows) as [l|]; [|discriminate]. cbn [obind] in *.
      destruct (match ob with None => Some l | Some (key, desc) => _ end) as [l'|]; [|discriminate]. cbn [obind] in *.
      destruct (1 <=? m)%Z; [|discriminate]. injection H as <-.
      replace (1 <=? Z.min m n)%Z with true by (symmetry; apply Z.leb_le; lia).
      rewrite firstn_firstn. do 2 f_equal. rewrite Z2Nat.inj_min. apply Nat.min_comm.
    - rewrite query_rows_eq, source_only by auto. rewrite H. cbn [obind]. rewrite star_rows by auto. cbn [obind].
      replace (1 <=? n)%Z with true by (symmetry; now apply Z.leb_le). reflexivity.
  Qed.

  (** A query over a chain is the chain of the query over each part. *)
  Definition over_each (star : bool) (cols : list (string * colbody)) (w : option expr)
    (args : list (string * select)) : list (string * argval) :=
    map (fun a => (fst a, ASelect (Select star cols (only chain k (snd a)) w None None None))) args.
  Definition parts_of (args : list (string * select)) : list (string * argval) :=
    map (fun a => (fst a, ASelect (snd a))) args.

  Theorem C93_select_over_chain_partial : forall star cols w args out,
    well (S depth) (Select star cols (Plugin [chain] true (parts_of args)) w None None None) ->
    rows_of (S depth) (Select star cols (Plugin [chain] true (parts_of args)) w None None None) = Some out ->
    no_nils out ->
    both (Select star cols (Plugin [chain] true (parts_of args)) w None None None)
         (Select true [] (Plugin [chain] true (over_each star cols w args)) None None None None) out.
  Proof.
    intros star cols w args out L H N. apply (yields_both _ _ (S depth) (S (S depth))); auto.
    - cbn [label_query] in *. destruct L as (L1 & L2 & L3). split; [constructor|split; [exact I|]].
      cbn [label_from] in *. unfold label_args, over_each, parts_of in *. apply Forall_map. rewrite Forall_map in L3.
      eapply Forall_impl; [|exact L3]. intros [n q] Q. cbn [fst snd label_arg label_query] in *.
      split; [exact L1|split; [exact L2|]]. constructor; [exact Q|constructor].
    - rewrite query_rows_eq in *. cbn [source] in *.
      assert (KS : keys (over_each star cols w args) = keys (parts_of args)).
      { unfold keys, over_each, parts_of. rewrite !map_map. reflexivity. }
      rewrite KS. destruct (distinct (keys (parts_of args))); [|discriminate]. cbn [negb] in *. rewrite CH in *.
      unfold all_rows in *.
      destruct (sequence (map (fun na : string * argval => match snd na with ASelect q => rows_of depth q | _ => None end) (parts_of args)))
        as [ls|] eqn:SQ; [|discriminate]. cbn [option_map obind] in H.
      assert (G : forall args ls out, sequence (map (fun na : string * argval => match snd na with ASelect q => rows_of depth q | _ => None end)
          (parts_of args)) = Some ls ->
        select_rows E funs (query_rows E funs depth) fr star cols w (List.concat ls) = Some out ->
        exists ls', sequence (map (fun na : string * argval => match snd na with ASelect q => rows_of (S depth) q | _ => None end)
          (over_each star cols w args)) = Some ls' /\ List.concat ls' = out).
      { clear - CH. intros args. induction args as [|[n q] args IH]; intros ls out SQ H.
        - cbn in SQ. injection SQ as <-. cbn in H. injection H as <-. exists []. split; reflexivity.
        - unfold parts_of in SQ. cbn [map fst snd sequence] in SQ. fold (parts_of args) in SQ.
          destruct (rows_of depth q) as [r|] eqn:RQ; [|discriminate].
          destruct (sequence (map _ (parts_of args))) as [l|] eqn:SL; [|discriminate]. cbn in SQ. injection SQ as <-.
          cbn [List.concat] in H. rewrite select_app in H.
          destruct (select_rows _ _ _ fr star cols w r) as [x|] eqn:SX; [|discriminate]. cbn [obind] in H.
          destruct (select_rows _ _ _ fr star cols w (List.concat l)) as [y|] eqn:SY; [|discriminate].
          cbn [option_map] in H. injection H as <-.
          destruct (IH l y eq_refl SY) as (ls' & S1 & S2).
          exists (x :: ls'). split; [|cbn; now rewrite S2].
          unfold over_each. cbn [map sequence fst snd]. fold (over_each star cols w args).
          rewrite query_rows_eq, source_only, RQ by auto. cbn [obind]. rewrite SX. cbn [obind]. rewrite S1. reflexivity. }
      destruct (select_rows _ _ _ fr star cols w (List.concat ls)) as [l|] eqn:SR; [|discriminate]. cbn [obind] in H.
      injection H as ->. destruct (G args ls out SQ SR) as (ls' & -> & HL). cbn [option_map obind]. rewrite HL.
      rewrite star_rows by auto. reflexivity.
  Qed.
End Theorems.

(** ** Cases that meet the hypotheses *)

Open Scope string_scope.

Definition law_cols : list (string * colbody) :=
  [("k", CExpr (sym 1 "k")); ("m", CExpr (EAdd (sym 3 "n") [("+", sym 4 "base")]))].
Definition n_over_1 : expr := ECmp (sym 5 "n") OpGt (lit 1).
Definition k_is_b : expr := ECmp (sym 6 "k") OpEq (ELit (VStr "b")).
Definition m_over_11 : expr := ECmp (sym 7 "m") OpGt (lit 11).

(** SELECT * FROM t WHERE n > 1 AND k = "b", in one query and in two. *)
Example two_steps_demo : both_yield demo_env demo_scope st0
  (with_where true [] (from_var "t") None None (EAnd n_over_1 [("AND", k_is_b)]))
  (with_where true [] (only "chain" "a" (with_where true [] (from_var "t") None None n_over_1)) None None k_is_b)
  [[("k", VStr "b"); ("n", i 3)]].
Proof.
  apply (C93_where_in_two_steps_partial demo_env demo_funs demo_owner demo_funs_ok 0 demo_scope demo_frames).
  - reflexivity.
  - reflexivity.
  - unfold room_for. cbn. lia.
  - discriminate.
  - cbn. repeat (constructor; cbn).
  - vm_compute. reflexivity.
Qed.

(** SELECT k, n + base AS m FROM t WHERE m > 11 ORDER BY m, and the condition
    outside. *)
Example after_columns_demo : both_yield demo_env demo_scope st0
  (with_where false law_cols (from_var "t") (Some ("m", false)) None m_over_11)
  (with_where true [] (only "chain" "a" (Select false law_cols (from_var "t") None None None None)) (Some ("m", false)) None m_over_11)
  [[("k", VStr "a"); ("m", i 12)]; [("k", VStr "b"); ("m", i 13)]].
Proof.
  eapply (C93_condition_after_columns_partial demo_env demo_funs demo_owner demo_funs_ok 0 demo_scope demo_frames).
  - reflexivity.
  - reflexivity.
  - unfold room_for. cbn. lia.
  - discriminate.
  - cbn. repeat (constructor; cbn).
  - vm_compute. reflexivity.
  - vm_compute. reflexivity.
  - repeat constructor.
  - right. intros x HX. left. cbn in HX. destruct HX as [<-|[]]. split; [cbn; auto|discriminate].
  - vm_compute. reflexivity.
Qed.

(** Two tables with one condition. *)
Example over_chain_demo : both_yield demo_env demo_scope st0
  (Select false law_cols (Plugin ["chain"] true (parts_of [("a", Select true [] (from_var "t") None None None (Some 1%Z));
     ("b", Select true [] (from_var "t") None None None None)])) (Some n_over_1) None None None)
  (Select true [] (Plugin ["chain"] true (over_each "chain" "z" false law_cols (Some n_over_1)
     [("a", Select true [] (from_var "t") None None None (Some 1%Z)); ("b", Select true [] (from_var "t") None None None None)]))
     None None None None)
  [[("k", VStr "b"); ("m", i 13)]; [("k", VStr "b"); ("m", i 13)]; [("k", VStr "a"); ("m", i 12)]].
Proof.
  apply (C93_select_over_chain_partial demo_env demo_funs demo_owner demo_funs_ok 1 demo_scope demo_frames).
  - reflexivity.
  - reflexivity.
  - unfold room_for. cbn. lia.
  - discriminate.
  - cbn. repeat (constructor; cbn).
  - vm_compute. reflexivity.
  - repeat constructor.
Qed.

Example limit_demo : both_yield demo_env demo_scope st0
  (Select true [] (from_var "t") (Some k_is_b) None (Some ("n", true)) (Some 1%Z))
  (Select true [] (only "chain" "a" (Select true [] (from_var "t") (Some k_is_b) None (Some ("n", true)) (Some 2%Z))) None None None (Some 1%Z))
  [[("k", VStr "b"); ("n", i 3)]].
Proof.
  apply (C93_limit_of_limit_partial demo_env demo_funs demo_owner demo_funs_ok 0 demo_scope demo_frames st0 "chain" "a" eq_refl eq_refl)
    with (m := 2%Z) (n := 1%Z) (mid := [[("k", VStr "b"); ("n", i 3)]; [("k", VStr "b"); ("n", VNull)]]); try lia.
  - unfold room_for. cbn. lia.
  - discriminate.
  - cbn. repeat (constructor; cbn).
  - vm_compute. reflexivity.
  - repeat constructor.
Qed.

(** The condition on names is needed: a column that is not selected is still
    seen by WHERE of the same query, but not from outside. *)
Definition k_only : list (string * colbody) := [("k", CExpr (sym 1 "k"))].

Theorem C93_hidden_column_refuted : exists w s1 s2 out,
  query_yields demo_env demo_scope (with_where false k_only (from_var "t") None None w) st0 s1 out /\
  query_yields demo_env demo_scope
    (with_where true [] (only "chain" "a" (Select false k_only (from_var "t") None None None None)) None None w) st0 s2 [] /\
  List.length out = 2.
Proof.
  destruct (C14_query_yields_its_rows demo_env demo_funs demo_owner demo_funs_ok 1 demo_scope demo_frames
    (with_where false k_only (from_var "t") None None n_over_1) st0 [[("k", VStr "b")]; [("k", VStr "a")]]) as (s1 & Y1 & _).
  1-3, 5 : first [reflexivity | unfold room_for; cbn; lia | vm_compute; reflexivity | cbn; repeat (constructor; cbn)].
  1: discriminate.
  destruct (C14_query_yields_its_rows demo_env demo_funs demo_owner demo_funs_ok 2 demo_scope demo_frames
    (with_where true [] (only "chain" "a" (Select false k_only (from_var "t") None None None None)) None None n_over_1) st0 [])
    as (s2 & Y2 & _).
  1-3, 5 : first [reflexivity | unfold room_for; cbn; lia | vm_compute; reflexivity | cbn; repeat (constructor; cbn)].
  1: discriminate.
  exists n_over_1, s1, s2. eexists. split; [exact Y1|]. split; [exact Y2|reflexivity].
Qed.

Print Assumptions C93_star_of_a_query_partial.
Print Assumptions C93_where_in_two_steps_partial.
Print Assumptions C93_equivalent_conditions_partial.
Print Assumptions C93_and_commutes_partial.
Print Assumptions C93_de_morgan_partial.
Print Assumptions C93_double_negation_partial.
Print Assumptions C93_condition_after_columns_partial.
Print Assumptions C93_limit_of_limit_partial.
Print Assumptions C93_select_over_chain_partial.
Print Assumptions C93_hidden_column_refuted.
