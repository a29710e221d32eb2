(** C93, second part: rewriting queries that go through foreach(), if() and
    chain(), further laws of conditions, and the law behind them, that a query
    depends on the variables it mentions only.

    As in LawsProps.v the queries are those without side effects whose rows C14
    gives ([query_rows], PureSpec.v).  [all_of p] is SELECT * FROM p, [each]
    foreach(row=.., query=..), [either] if(condition=.., then=.., else=..)
    (Laws2.v). *)

From Coq Require Import ZArith List String Bool Lia PeanoNat.
From Verif Require Import Base BaseProofs F64 Value Protocols OpsProofs Monad Chains Range Flatten
  ArgParser Syntax Eval Runs Para GoSort PureSpec PureEval PureSelect Demo SelectProps Laws LawsProps Laws2.
Import ListNotations.
Open Scope nat_scope.
Open Scope list_scope.

(** ** Specification *)

(** Every call of the query names one function, at any depth. *)
Definition marked (owner : nat -> string) (q : select) : Prop := forall n, label_query owner n q.

(** A row of an inner query hides what an outer row says about these names,
    or the outer row says nothing. *)
Definition hides (l : list string) (inner outer : dict) : Prop :=
  forall x, In x l -> assoc x inner <> None \/ assoc x outer = None.

Section Theorems.
  Variables (E : env) (funs : string -> option (dict -> option val)) (owner : nat -> string).
  Hypothesis FOK : funs_ok E funs.

  (** Variables, columns of a surrounding row and definitions that a query
      does not mention have no influence on it. *)
  Theorem C93_unused_variables_partial : forall depth q sc sc' fr fr' s s' out,
    frames sc fr -> frames sc' fr' -> room_for depth sc -> room_for depth sc' ->
    calls_ok E owner s -> calls_ok E owner s' -> label_query owner depth q ->
    (forall x, In x (query_names depth q) -> lookup fr x = lookup fr' x) ->
    query_rows E funs depth fr q = Some out ->
    (exists s1, query_yields E sc q s s1 (map VDict out) /\ quiet s s1) /\
    (exists s1, query_yields E sc' q s' s1 (map VDict out) /\ quiet s' s1).
  Proof.
    intros depth q sc sc' fr fr' s s' out F F' R R' C C' L A H. split.
    - exact (C14_query_yields_its_rows E funs owner FOK depth sc fr q s out F R L C H).
    - apply (C14_query_yields_its_rows E funs owner FOK depth sc' fr' q s' out F' R' L C').
      exact (query_agree E funs depth depth fr fr' q out (le_n _) A H).
  Qed.

  Variables (depth : nat) (sc : scope) (fr : list dict) (s : st) (foreach if_ chain k : string).
  Hypothesis FE : assoc foreach (env_plugs E) = Some PlForeach.
  Hypothesis IF : assoc if_ (env_plugs E) = Some PlIf.
  Hypothesis CH : assoc chain (env_plugs E) = Some PlChain.
  Hypothesis FR : frames sc fr.
  Hypothesis RM : room_for (depth + 3) sc.
  Hypothesis CO : calls_ok E owner s.

  Notation rows_of n fr q := (query_rows E funs n fr q).
  Notation both := (both_yield E sc s).

  Lemma marked_both : forall q q' n n' out, n <= depth + 3 -> n' <= depth + 3 -> marked owner q -> marked owner q' ->
    rows_of n fr q = Some out -> rows_of n' fr q' = Some out -> both q q' out.
  Proof.
    intros q q' n n' out HN HN' L L' H H'. unfold room_for in RM.
    split; [apply (C14_query_yields_its_rows E funs owner FOK n sc fr)|apply (C14_query_yields_its_rows E funs owner FOK n' sc fr)];
      auto; unfold room_for; lia.
  Qed.

  (** foreach() in the rows of a foreach() is foreach() in its query, if the
      inner rows hide the outer ones where the last query looks. *)
  Theorem C93_foreach_of_foreach_partial : forall a b c out,
    marked owner (all_of (each foreach (all_of (each foreach a b)) c)) ->
    marked owner (all_of (each foreach a (all_of (each foreach b c)))) ->
    (forall rowsa ra rowsb rb, rows_of depth fr a = Some rowsa -> In ra rowsa ->
       rows_of depth (ra :: fr) b = Some rowsb -> In rb rowsb -> hides (query_names (S depth) c) rb ra) ->
    rows_of (S (S depth)) fr (all_of (each foreach (all_of (each foreach a b)) c)) = Some out ->
    both (all_of (each foreach (all_of (each foreach a b)) c))
         (all_of (each foreach a (all_of (each foreach b c)))) out.
  Proof.
    intros a b c out M M' HD H.
    apply (marked_both _ _ (S (S depth)) (S (S (S depth)))); auto; try lia.
    rewrite rows_all, source_each, rows_all, source_each in H by exact FE.
    rewrite rows_all, source_each by exact FE.
    destruct (rows_of depth fr a) as [rowsa|] eqn:RA; [|discriminate].
    rewrite (query_deeper E funs depth (S (S depth)) _ _ _ ltac:(lia) RA). cbn [obind] in *.
    assert (G : forall rowsa ls out,
      (forall ra rowsb rb, In ra rowsa -> rows_of depth (ra :: fr) b = Some rowsb -> In rb rowsb ->
         hides (query_names (S depth) c) rb ra) ->
      all_rows (map (fun ra => rows_of depth (ra :: fr) b) rowsa) = Some ls ->
      all_rows (map (fun rb => rows_of (S depth) (rb :: fr) c) (map fields ls)) = Some out ->
      exists out', all_rows (map (fun ra => rows_of (S (S depth)) (ra :: fr) (all_of (each foreach b c))) rowsa) = Some out' /\
                   map fields out' = map fields out).
    { clear - FE. induction rowsa as [|ra rowsa IH]; intros ls out HD HB HC.
      - cbn in HB. injection HB as <-. cbn in HC. injection HC as <-. exists []. split; reflexivity.
      - cbn [map] in HB. rewrite all_rows_cons in HB.
        destruct (rows_of depth (ra :: fr) b) as [rowsb|] eqn:RB; [|discriminate]. cbn [obind] in HB.
        destruct (all_rows (map (fun ra => rows_of depth (ra :: fr) b) rowsa)) as [ls'|]; [|discriminate].
        cbn [option_map] in HB. injection HB as <-. rewrite !map_app, all_rows_app in HC.
        apply obind_some in HC as (o1 & HC1 & HC).
        destruct (all_rows (map (fun rb => rows_of (S depth) (rb :: fr) c) (map fields ls'))) as [o2|] eqn:HC2; [|discriminate].
        cbn [option_map] in HC. injection HC as <-.
        destruct (IH ls' o2 (fun r rs rb I => HD r rs rb (or_intror I)) eq_refl HC2) as (o2' & H1 & H2).
        exists (map fields o1 ++ o2'). split; [|now rewrite !map_app, map_fields_idem, H2].
        cbn [map]. rewrite all_rows_cons, rows_all, source_each by exact FE.
        rewrite (query_deeper E funs depth (S depth) _ _ _ ltac:(lia) RB). cbn [obind].
        erewrite (all_rows_imp _ (fun rb => rows_of (S depth) (fields rb :: fr) c)); [cbn [option_map obind]; rewrite H1; reflexivity| |].
        + intros rb o IB HO. eapply query_agree; [apply le_n| |exact HO]. intros x IX.
          rewrite <- lookup_field_row. cbn [lookup]. destruct (HD ra rowsb rb (or_introl eq_refl) RB IB x IX) as [N|N].
          * destruct (assoc x rb); [reflexivity|contradiction].
          * rewrite N. reflexivity.
        + rewrite <- HC1. now rewrite map_map. }
    destruct (all_rows (map (fun ra => rows_of depth (ra :: fr) b) rowsa)) as [ls|] eqn:RB; [|discriminate].
    cbn [option_map obind] in H. destruct (all_rows _) as [o|] eqn:RC in H; [|discriminate]. cbn [option_map] in H. injection H as <-.
    destruct (G rowsa ls o) as (out' & -> & HO); auto.
    - intros ra rowsb rb I RB' IB. exact (HD rowsa ra rowsb rb eq_refl I RB' IB).
    - cbn [option_map]. now rewrite HO.
  Qed.

  (** foreach() over a chain is the chain of foreach() over each part. *)
  Definition each_part (q : select) (args : list (string * select)) : list (string * argval) :=
    map (fun a => (fst a, ASelect (all_of (each foreach (snd a) q)))) args.

  Theorem C93_foreach_over_chain_partial : forall args q out,
    marked owner (all_of (each foreach (all_of (Plugin [chain] true (parts_of args))) q)) ->
    marked owner (all_of (Plugin [chain] true (each_part q args))) ->
    rows_of (S (S depth)) fr (all_of (each foreach (all_of (Plugin [chain] true (parts_of args))) q)) = Some out ->
    both (all_of (each foreach (all_of (Plugin [chain] true (parts_of args))) q))
         (all_of (Plugin [chain] true (each_part q args))) out.
  Proof.
    intros args q out M M' H. apply (marked_both _ _ (S (S depth)) (S (S (S depth)))); auto; try lia.
    rewrite rows_all, source_each, rows_all in H by exact FE. rewrite rows_all. cbn [source] in *.
    assert (KS : keys (each_part q args) = keys (parts_of args)).
    { unfold keys, each_part, parts_of. rewrite !map_map. reflexivity. }
    rewrite KS. destruct (distinct (keys (parts_of args))); [|discriminate]. cbn [negb] in *. rewrite CH in *.
    assert (G : forall args ls out,
      all_rows (map (fun na : string * argval => match snd na with ASelect q => rows_of depth fr q | _ => None end) (parts_of args)) = Some ls ->
      all_rows (map (fun r => rows_of (S depth) (r :: fr) q) (map fields ls)) = Some out ->
      exists out', all_rows (map (fun na : string * argval => match snd na with ASelect q => rows_of (S (S depth)) fr q | _ => None end)
                     (each_part q args)) = Some out' /\ map fields out' = map fields out).
    { clear - FE. induction args as [|[n a] args IH]; intros ls out HA HQ.
      - cbn in HA. injection HA as <-. cbn in HQ. injection HQ as <-. exists []. split; reflexivity.
      - unfold parts_of in HA. cbn [map fst snd] in HA. fold (parts_of args) in HA. rewrite all_rows_cons in HA.
        apply obind_some in HA as (r & RA & HA).
        destruct (all_rows (map _ (parts_of args))) as [ls'|] eqn:AL; [|discriminate]. cbn [option_map] in HA. injection HA as <-.
        rewrite !map_app, all_rows_app in HQ. apply obind_some in HQ as (o1 & HQ1 & HQ).
        destruct (all_rows (map _ (map fields ls'))) as [o2|] eqn:HQ2; [|discriminate]. cbn [option_map] in HQ. injection HQ as <-.
        destruct (IH ls' o2 eq_refl HQ2) as (o2' & H1 & H2).
        exists (map fields o1 ++ o2'). split; [|now rewrite !map_app, map_fields_idem, H2].
        unfold each_part. cbn [map fst snd]. fold (each_part q args). rewrite all_rows_cons, rows_all, source_each by exact FE.
        rewrite (query_deeper E funs depth (S depth) _ _ _ ltac:(lia) RA). cbn [obind].
        erewrite (all_rows_imp _ (fun r => rows_of (S depth) (fields r :: fr) q)); [cbn [option_map obind]; rewrite H1; reflexivity| |].
        + intros row o _ HO. eapply query_same; [apply le_n| |exact HO]. intros x. symmetry. apply lookup_field_row.
        + rewrite <- HQ1. now rewrite map_map. }
    destruct (all_rows _) as [ls|] eqn:RA in H; [|discriminate]. cbn [option_map obind] in H.
    destruct (all_rows _) as [o|] eqn:RQ in H; [|discriminate]. cbn [option_map] in H. injection H as <-.
    destruct (G args ls o RA RQ) as (out' & -> & HO). cbn [option_map]. now rewrite HO.
  Qed.

  (** A query over if() is if() of the query over each branch. *)
  Theorem C93_select_over_if_partial : forall star cols w ob lim c a b out,
    marked owner (Select star cols (either if_ c a b) w None ob lim) ->
    marked owner (all_of (either if_ c (Select star cols (only chain k a) w None ob lim)
                                       (Select star cols (only chain k b) w None ob lim))) ->
    rows_of (S depth) fr (Select star cols (either if_ c a b) w None ob lim) = Some out -> no_nils out ->
    both (Select star cols (either if_ c a b) w None ob lim)
         (all_of (either if_ c (Select star cols (only chain k a) w None ob lim)
                               (Select star cols (only chain k b) w None ob lim))) out.
  Proof.
    intros star cols w ob lim c a b out M M' H N. apply (marked_both _ _ (S depth) (S (S depth))); auto; try lia.
    rewrite rows_all, source_either by exact IF. rewrite query_rows_eq, source_either in H by exact IF.
    destruct (den E funs fr c) as [v|]; [|discriminate]. cbn [obind] in *.
    destruct (match v with VNil => true | _ => false end); [discriminate|].
    destruct (truthy E v).
    all: rewrite query_rows_eq, source_only by exact CH; rewrite H; cbn [option_map]; now rewrite no_nils_map.
  Qed.

  (** foreach() over the rows for which a condition holds is foreach() over all
      rows of a query with if(). *)
  Theorem C93_foreach_where_partial : forall a c q out,
    marked owner (all_of (each foreach a (all_of (only_if if_ c q)))) ->
    marked owner (all_of (each foreach (with_where true [] (only chain k a) None None c) q)) ->
    rows_of (S (S depth)) fr (all_of (each foreach a (all_of (only_if if_ c q)))) = Some out ->
    both (all_of (each foreach a (all_of (only_if if_ c q))))
         (all_of (each foreach (with_where true [] (only chain k a) None None c) q)) out.
  Proof.
    intros a c q out M M' H. apply (marked_both _ _ (S (S depth)) (S (S (S depth)))); auto; try lia.
    rewrite rows_all, source_each in H by exact FE. rewrite rows_all, source_each by exact FE.
    unfold with_where. rewrite query_rows_eq, source_only by exact CH.
    destruct (rows_of (S depth) fr a) as [rows|] eqn:RA; [|discriminate]. cbn [obind] in *.
    assert (G : forall rows o, all_rows (map (fun row => rows_of (S depth) (row :: fr) (all_of (only_if if_ c q))) rows) = Some o ->
      exists mid o', select_rows E funs (query_rows E funs (S depth)) fr true [] (Some c) rows = Some mid /\
        all_rows (map (fun row => rows_of (S (S depth)) (row :: fr) q) mid) = Some o' /\ map fields o' = map fields o).
    { clear - IF. induction rows as [|row rows IH]; intros o H.
      - injection H as <-. exists [], []. repeat split.
      - cbn [map] in H. rewrite all_rows_cons, rows_all, source_only_if in H by exact IF.
        apply obind_some in H as (o1 & H1 & H).
        destruct (all_rows (map _ rows)) as [o2|] eqn:H2; [|discriminate]. cbn [option_map] in H. injection H as <-.
        destruct (IH o2 eq_refl) as (mid & o' & S1 & S2 & S3).
        destruct (den E funs (row :: fr) c) as [v|] eqn:DV; [|discriminate]. cbn [obind] in H1.
        destruct (match v with VNil => true | _ => false end); [discriminate|].
        exists (if truthy E v then fields row :: mid else mid).
        cbn [select_rows]. rewrite project_star. cbn [obind holds].
        rewrite <- (den_same E funs c (row :: fr)), DV.
        2: { intros x. cbn [lookup]. rewrite assoc_fields. destruct (assoc x row); [cbn; now rewrite or_null_idem|reflexivity]. }
        cbn [option_map obind]. rewrite S1. cbn [option_map]. destruct (truthy E v).
        + destruct (rows_of depth (row :: fr) q) as [r|] eqn:RQ; [|discriminate]. cbn [option_map] in H1. injection H1 as <-.
          exists (r ++ o'). split; [reflexivity|]. split; [|now rewrite !map_app, map_fields_idem, S3].
          cbn [map]. rewrite all_rows_cons.
          rewrite (query_same E funs depth (S (S depth)) (row :: fr) (fields row :: fr) q r ltac:(lia) (lookup_field_row row fr) RQ).
          cbn [obind]. now rewrite S2.
        + injection H1 as <-. exists o'. split; [reflexivity|]. split; [exact S2|exact S3]. }
    destruct (all_rows _) as [o|] eqn:RQ in H; [|discriminate]. cbn [option_map] in H. injection H as <-.
    destruct (G rows o RQ) as (mid & o' & S1 & S2 & S3). rewrite S1. cbn [obind]. rewrite S2. cbn [option_map]. now rewrite S3.
  Qed.

  (** Columns and condition of a query over foreach() may move into its query,
      if the inner rows hide the outer ones where they look. *)
  Theorem C93_select_over_foreach_partial : forall star cols w a b out,
    marked owner (Select star cols (each foreach a b) w None None None) ->
    marked owner (all_of (each foreach a (Select star cols (only chain k b) w None None None))) ->
    (forall rowsa ra rowsb rb, rows_of depth fr a = Some rowsa -> In ra rowsa ->
       rows_of depth (ra :: fr) b = Some rowsb -> In rb rowsb ->
       hides (flat_map (fun c => column_names (query_names depth) (snd c)) cols ++
              match w with Some w => names w | None => [] end) rb ra) ->
    rows_of (S depth) fr (Select star cols (each foreach a b) w None None None) = Some out -> no_nils out ->
    both (Select star cols (each foreach a b) w None None None)
         (all_of (each foreach a (Select star cols (only chain k b) w None None None))) out.
  Proof.
    intros star cols w a b out M M' HD H N. apply (marked_both _ _ (S depth) (S (S (S depth)))); auto; try lia.
    rewrite rows_all, source_each by exact FE. rewrite query_rows_eq, source_each in H by exact FE.
    destruct (rows_of depth fr a) as [rowsa|] eqn:RA; [|discriminate].
    rewrite (query_deeper E funs depth (S (S depth)) _ _ _ ltac:(lia) RA). cbn [obind] in *.
    assert (G : forall rowsa ls out,
      (forall ra rowsb rb, In ra rowsa -> rows_of depth (ra :: fr) b = Some rowsb -> In rb rowsb ->
       hides (flat_map (fun c => column_names (query_names depth) (snd c)) cols ++
              match w with Some w => names w | None => [] end) rb ra) ->
      all_rows (map (fun ra => rows_of depth (ra :: fr) b) rowsa) = Some ls ->
      select_rows E funs (query_rows E funs depth) fr star cols w ls = Some out ->
      all_rows (map (fun ra => rows_of (S (S depth)) (ra :: fr) (Select star cols (only chain k b) w None None None)) rowsa) = Some out).
    { clear - CH. induction rowsa as [|ra rowsa IH]; intros ls out HD HB HS.
      - cbn in HB. injection HB as <-. exact HS.
      - cbn [map] in *. rewrite all_rows_cons in *. apply obind_some in HB as (rb & RB & HB).
        destruct (all_rows (map (fun ra => rows_of depth (ra :: fr) b) rowsa)) as [ls'|]; [|discriminate]. cbn [option_map] in HB. injection HB as <-.
        rewrite select_app in HS. apply obind_some in HS as (o1 & S1 & HS).
        destruct (select_rows _ _ _ _ _ _ _ ls') as [o2|] eqn:S2; [|discriminate]. cbn [option_map] in HS. injection HS as <-.
        rewrite (IH ls' o2 (fun r rs x I => HD r rs x (or_intror I)) eq_refl S2).
        rewrite query_rows_eq, source_only by exact CH.
        rewrite (query_deeper E funs depth (S depth) _ _ _ ltac:(lia) RB). cbn [obind].
        rewrite (select_agree E funs (query_names depth) (query_rows E funs depth) (query_rows E funs (S depth))) with (fr := fr) (out := o1);
          [reflexivity| | |exact S1].
        + intros f f' q r. apply query_agree. lia.
        + intros row I x IX. cbn [lookup]. destruct (HD ra rb row (or_introl eq_refl) RB I x IX) as [Q|Q].
          * destruct (assoc x row); [reflexivity|contradiction].
          * rewrite Q. reflexivity. }
    destruct (all_rows _) as [ls|] eqn:RB in H; [|discriminate]. cbn [obind] in H.
    destruct (select_rows _ _ _ _ _ _ _ ls) as [o|] eqn:SR in H; [|discriminate]. cbn [obind] in H. injection H as ->.
    rewrite (G rowsa ls out); auto; [cbn [option_map]; now rewrite no_nils_map|].
    intros ra rowsb rb I RB' IB. exact (HD rowsa ra rowsb rb eq_refl I RB' IB).
  Qed.
End Theorems.

(** ** Conditions *)

Section Conditions.
  Variables (E : env) (funs : string -> option (dict -> option val)) (owner : nat -> string).
  Hypothesis FOK : funs_ok E funs.
  Variables (depth : nat) (sc : scope) (fr : list dict) (s : st).
  Hypothesis FR : frames sc fr.
  Hypothesis RM : room_for (S (S depth)) sc.
  Hypothesis CO : calls_ok E owner s.

  Notation rows_of n q := (query_rows E funs n fr q).
  Notation both := (both_yield E sc s).
  Notation AND a b := (EAnd a [("AND"%string, b)]).
  Notation OR a b := (EOr a [("OR"%string, b)]).

  Lemma or_defined : forall fr a b v, den E funs fr (OR a b) = Some v ->
    exists x y, den E funs fr a = Some x /\ den E funs fr b = Some y /\ truthy E v = truthy E x || truthy E y.
  Proof.
    intros fr' a b v H. cbn [den map fst snd] in H.
    destruct (den E funs fr' a) as [x|] eqn:DA; [|discriminate]. destruct (den E funs fr' b) as [y|] eqn:DB; [|discriminate].
    exists x, y. split; [reflexivity|]. split; [reflexivity|].
    destruct (or_den _ _ _ _ _ _ _ DA DB) as (v' & D & T). cbn [den map fst snd] in D. rewrite DA, DB in D. congruence.
  Qed.

  (** OR in the other order. *)
  Theorem C93_or_commutes_partial : forall star cols p ob lim a b out,
    label_query owner (S depth) (with_where star cols p ob lim (OR a b)) ->
    rows_of (S depth) (with_where star cols p ob lim (OR a b)) = Some out ->
    both (with_where star cols p ob lim (OR a b)) (with_where star cols p ob lim (OR b a)) out.
  Proof.
    intros star cols p ob lim a b out L H.
    apply (C93_equivalent_conditions_partial E funs owner FOK depth sc fr s); auto.
    - intros fr' v D. destruct (or_defined _ _ _ _ D) as (x & y & DA & DB & T).
      destruct (or_den _ _ _ _ _ _ _ DB DA) as (v' & D' & T'). exists v'. split; [exact D'|]. rewrite T, T'. apply orb_comm.
    - cbn [label_query with_where label_where labelled] in *. tauto.
  Qed.

  (** a AND (b OR c) is (a AND b) OR (a AND c). *)
  Theorem C93_and_over_or_partial : forall star cols p ob lim a b c out,
    label_query owner (S depth) (with_where star cols p ob lim (AND a (OR b c))) ->
    rows_of (S depth) (with_where star cols p ob lim (AND a (OR b c))) = Some out ->
    both (with_where star cols p ob lim (AND a (OR b c))) (with_where star cols p ob lim (OR (AND a b) (AND a c))) out.
  Proof.
    intros star cols p ob lim a b c out L H.
    apply (C93_equivalent_conditions_partial E funs owner FOK depth sc fr s); auto.
    - intros fr' v D. destruct (and_defined _ _ _ _ _ _ D) as (x & yz & DA & DO & T).
      destruct (or_defined _ _ _ _ DO) as (y & z & DB & DC & T').
      destruct (and_den _ _ _ _ _ _ _ DA DB) as (u1 & D1 & T1). destruct (and_den _ _ _ _ _ _ _ DA DC) as (u2 & D2 & T2).
      destruct (or_den _ _ _ _ _ _ _ D1 D2) as (v' & D' & T3). exists v'. split; [exact D'|].
      rewrite T3, T1, T2, T, T'. symmetry. apply andb_orb_distrib_r.
    - cbn [label_query with_where label_where labelled] in *. tauto.
  Qed.

  (** NOT (a OR b) is NOT a AND NOT b. *)
  Theorem C93_not_or_partial : forall star cols p ob lim a b out,
    label_query owner (S depth) (with_where star cols p ob lim (ENot (OR a b))) ->
    rows_of (S depth) (with_where star cols p ob lim (ENot (OR a b))) = Some out ->
    both (with_where star cols p ob lim (ENot (OR a b))) (with_where star cols p ob lim (AND (ENot a) (ENot b))) out.
  Proof.
    intros star cols p ob lim a b out L H.
    apply (C93_equivalent_conditions_partial E funs owner FOK depth sc fr s); auto.
    - intros fr' v D. change (option_map (fun v => VBool (negb (truthy E v))) (den E funs fr' (OR a b)) = Some v) in D.
      destruct (den E funs fr' (OR a b)) as [u|] eqn:DU; [|discriminate]. injection D as <-.
      destruct (or_defined _ _ _ _ DU) as (x & y & DA & DB & T).
      assert (NA : den E funs fr' (ENot a) = Some (VBool (negb (truthy E x)))) by (cbn [den]; now rewrite DA).
      assert (NB : den E funs fr' (ENot b) = Some (VBool (negb (truthy E y)))) by (cbn [den]; now rewrite DB).
      destruct (and_den _ _ _ _ _ _ _ NA NB) as (v' & D' & T'). exists v'. split; [exact D'|].
      rewrite T', !truthy_bool, T. now destruct (truthy E x), (truthy E y).
    - cbn [label_query with_where label_where labelled] in *. tauto.
  Qed.

  (** a AND b AND c without and with brackets. *)
  Theorem C93_and_brackets_partial : forall star cols p ob lim a b c out,
    label_query owner (S depth) (with_where star cols p ob lim (EAnd a [("AND"%string, b); ("AND"%string, c)])) ->
    rows_of (S depth) (with_where star cols p ob lim (EAnd a [("AND"%string, b); ("AND"%string, c)])) = Some out ->
    both (with_where star cols p ob lim (EAnd a [("AND"%string, b); ("AND"%string, c)]))
         (with_where star cols p ob lim (AND a (AND b c))) out.
  Proof.
    intros star cols p ob lim a b c out L H.
    apply (C93_equivalent_conditions_partial E funs owner FOK depth sc fr s); auto.
    - intros fr' v D. cbn [den map fst snd] in D.
      destruct (den E funs fr' a) as [x|] eqn:DA; [|discriminate]. destruct (den E funs fr' b) as [y|] eqn:DB; [|discriminate].
      destruct (den E funs fr' c) as [z|] eqn:DC; [|discriminate].
      destruct (and_den _ _ _ _ _ _ _ DB DC) as (u & D1 & T1). destruct (and_den _ _ _ _ _ _ _ DA D1) as (v' & D2 & T2).
      exists v'. split; [exact D2|]. rewrite T2, T1. cbn in D. injection D as <-.
      destruct (truthy E x); [|now rewrite truthy_bool]. cbn [and_value].
      destruct (truthy E y); [|now rewrite truthy_bool]. destruct (truthy E z); now rewrite truthy_bool.
    - cbn [label_query with_where label_where labelled] in *. tauto.
  Qed.
End Conditions.

(** ** Cases that meet the hypotheses *)

Open Scope string_scope.

Ltac mark := intros n; do 5 (destruct n as [|n]; [cbn; repeat (constructor; cbn)|]); cbn; repeat (constructor; cbn).

Definition rng (z : Z) : plugin := Plugin ["range"] true [("end", AExpr (lit z))].
Definition col (name : string) (e : expr) : string * colbody := (name, CExpr e).
Definition picks (cols : list (string * colbody)) (p : plugin) : select := Select false cols p None None None None.

(** SELECT k, n AS na FROM t WHERE n > 1 *)
Definition qa : select :=
  Select false [col "k" (sym 1 "k"); col "na" (sym 2 "n")] (from_var "t") (Some n_over_1) None None None.
(** SELECT _value AS v, na * 10 AS nb FROM range(end=2) *)
Definition qb : select :=
  picks [col "v" (sym 3 "_value"); col "nb" (EMul (sym 4 "na") [("*", lit 10)])] (rng 2).
(** SELECT v + nb + base AS z FROM range(end=1) *)
Definition qc : select := picks [col "z" (EAdd (sym 5 "v") [("+", sym 6 "nb"); ("+", sym 7 "base")])] (rng 1).

Example foreach_of_foreach_demo : both_yield demo_env demo_scope st0
  (all_of (each "foreach" (all_of (each "foreach" qa qb)) qc))
  (all_of (each "foreach" qa (all_of (each "foreach" qb qc))))
  [[("z", i 40)]; [("z", i 41)]; [("z", i 30)]; [("z", i 31)]].
Proof.
  apply (C93_foreach_of_foreach_partial demo_env demo_funs demo_owner demo_funs_ok 2 demo_scope demo_frames st0 "foreach" eq_refl eq_refl).
  - unfold room_for. cbn. lia.
  - discriminate.
  - mark.
  - mark.
  - intros rowsa ra rowsb rb HA IA HB IB x IX. vm_compute in HA. injection HA as <-.
    vm_compute in IX. destruct IA as [<-|[<-|[]]]; vm_compute in HB; injection HB as <-;
      destruct IB as [<-|[<-|[]]]; destruct IX as [<-|[<-|[<-|[]]]]; cbn; try (left; discriminate); now right.
  - vm_compute. reflexivity.
Qed.

(** Two parts, one query for each of their rows. *)
Definition halves : list (string * select) :=
  [("a", Select true [] (from_var "t") (Some n_over_1) None None None);
   ("b", Select true [] (from_var "t") None None None (Some 2%Z))].
Example foreach_over_chain_demo : both_yield demo_env demo_scope st0
  (all_of (each "foreach" (all_of (Plugin ["chain"] true (parts_of halves))) (picks [col "m" (EAdd (sym 1 "n") [("+", sym 2 "base")])] (rng 1))))
  (all_of (Plugin ["chain"] true (each_part "foreach" (picks [col "m" (EAdd (sym 1 "n") [("+", sym 2 "base")])] (rng 1)) halves)))
  [[("m", i 13)]; [("m", i 12)]; [("m", i 13)]; [("m", i 11)]].
Proof.
  apply (C93_foreach_over_chain_partial demo_env demo_funs demo_owner demo_funs_ok 2 demo_scope demo_frames st0 "foreach" "chain" eq_refl eq_refl eq_refl).
  - unfold room_for. cbn. lia.
  - discriminate.
  - mark.
  - mark.
  - vm_compute. reflexivity.
Qed.

Example select_over_if_demo : both_yield demo_env demo_scope st0
  (Select false law_cols (either "if" (ECmp (sym 9 "base") OpGt (lit 20)) (Select true [] (from_var "t") None None None (Some 1%Z))
     (all_of (from_var "t"))) (Some n_over_1) None (Some ("m", false)) (Some 1%Z))
  (all_of (either "if" (ECmp (sym 9 "base") OpGt (lit 20))
     (Select false law_cols (only "chain" "a" (Select true [] (from_var "t") None None None (Some 1%Z))) (Some n_over_1) None (Some ("m", false)) (Some 1%Z))
     (Select false law_cols (only "chain" "a" (all_of (from_var "t"))) (Some n_over_1) None (Some ("m", false)) (Some 1%Z))))
  [[("k", VStr "a"); ("m", i 12)]].
Proof.
  apply (C93_select_over_if_partial demo_env demo_funs demo_owner demo_funs_ok 1 demo_scope demo_frames st0 "if" "chain" "a" eq_refl eq_refl eq_refl).
  - unfold room_for. cbn. lia.
  - discriminate.
  - mark.
  - mark.
  - vm_compute. reflexivity.
  - repeat constructor.
Qed.

Example foreach_where_demo : both_yield demo_env demo_scope st0
  (all_of (each "foreach" (all_of (from_var "t")) (all_of (only_if "if" n_over_1 (picks law_cols (rng 1))))))
  (all_of (each "foreach" (with_where true [] (only "chain" "a" (all_of (from_var "t"))) None None n_over_1) (picks law_cols (rng 1))))
  [[("k", VStr "b"); ("m", i 13)]; [("k", VStr "a"); ("m", i 12)]].
Proof.
  apply (C93_foreach_where_partial demo_env demo_funs demo_owner demo_funs_ok 1 demo_scope demo_frames st0 "foreach" "if" "chain" "a" eq_refl eq_refl eq_refl eq_refl).
  - unfold room_for. cbn. lia.
  - discriminate.
  - mark.
  - mark.
  - vm_compute. reflexivity.
Qed.

Example select_over_foreach_demo : both_yield demo_env demo_scope st0
  (Select false [col "s" (EAdd (sym 8 "v") [("+", sym 9 "nb")])] (each "foreach" qa qb) (Some (ECmp (sym 10 "v") OpEq (lit 1))) None None None)
  (all_of (each "foreach" qa (Select false [col "s" (EAdd (sym 8 "v") [("+", sym 9 "nb")])] (only "chain" "a" qb)
     (Some (ECmp (sym 10 "v") OpEq (lit 1))) None None None)))
  [[("s", i 31)]; [("s", i 21)]].
Proof.
  apply (C93_select_over_foreach_partial demo_env demo_funs demo_owner demo_funs_ok 1 demo_scope demo_frames st0 "foreach" "chain" "a" eq_refl eq_refl eq_refl).
  - unfold room_for. cbn. lia.
  - discriminate.
  - mark.
  - mark.
  - intros rowsa ra rowsb rb HA IA HB IB x IX. vm_compute in HA. injection HA as <-.
    vm_compute in IX. destruct IA as [<-|[<-|[]]]; vm_compute in HB; injection HB as <-;
      destruct IB as [<-|[<-|[]]]; destruct IX as [<-|[<-|[<-|[]]]]; cbn; try (left; discriminate); now right.
  - vm_compute. reflexivity.
  - repeat constructor.
Qed.

(** The scope gains a variable and a frame that the query does not mention. *)
Definition wider_frames : list dict := [("n", i 99)] :: [("t", VArr (map VDict table_rows)); ("base", i 10); ("x", i 7)] :: [].
Definition wider_scope : scope := {| sc_vars := map VDict wider_frames; sc_depth := 1; sc_cell := 0 |}.
Definition totals : select := picks [col "m" (EAdd (sym 1 "base") [("+", lit 1)])] (from_var "t").

Example unused_demo : exists s1,
  query_yields demo_env wider_scope totals st0 s1 (map VDict [[("m", i 11)]; [("m", i 11)]; [("m", i 11)]; [("m", i 11)]]).
Proof.
  destruct (C93_unused_variables_partial demo_env demo_funs demo_owner demo_funs_ok 1 totals demo_scope wider_scope
    demo_frames wider_frames st0 st0 [[("m", i 11)]; [("m", i 11)]; [("m", i 11)]; [("m", i 11)]]) as (_ & s1 & Y & _).
  - reflexivity.
  - reflexivity.
  - unfold room_for. cbn. lia.
  - unfold room_for. cbn. lia.
  - discriminate.
  - discriminate.
  - cbn. repeat (constructor; cbn).
  - intros x HX. vm_compute in HX. destruct HX as [<-|[<-|[]]]; reflexivity.
  - vm_compute. reflexivity.
  - exists s1. exact Y.
Qed.

(** n > 1 AND (k = "b" OR m > 11), and the law used. *)
Example and_over_or_demo : both_yield demo_env demo_scope st0
  (with_where false law_cols (from_var "t") None None (EAnd n_over_1 [("AND", EOr k_is_b [("OR", m_over_11)])]))
  (with_where false law_cols (from_var "t") None None
     (EOr (EAnd n_over_1 [("AND", k_is_b)]) [("OR", EAnd n_over_1 [("AND", m_over_11)])]))
  [[("k", VStr "b"); ("m", i 13)]; [("k", VStr "a"); ("m", i 12)]].
Proof.
  apply (C93_and_over_or_partial demo_env demo_funs demo_owner demo_funs_ok 0 demo_scope demo_frames).
  - reflexivity.
  - unfold room_for. cbn. lia.
  - discriminate.
  - cbn. repeat (constructor; cbn).
  - vm_compute. reflexivity.
Qed.

(** The condition on names of nested foreach() is needed: the last query sees
    the columns of the outermost rows if it runs inside, and not if it runs
    outside. *)
Theorem C93_foreach_capture_refuted : exists a b c s1 s2 out out',
  query_yields demo_env demo_scope (all_of (each "foreach" (all_of (each "foreach" a b)) c)) st0 s1 out /\
  query_yields demo_env demo_scope (all_of (each "foreach" a (all_of (each "foreach" b c)))) st0 s2 out' /\
  out <> out'.
Proof.
  destruct (C14_query_yields_its_rows demo_env demo_funs demo_owner demo_funs_ok 4 demo_scope demo_frames
    (all_of (each "foreach" (all_of (each "foreach" qa (picks [col "v" (sym 1 "_value")] (rng 1)))) (picks [col "z" (sym 2 "na")] (rng 1))))
    st0 [[("z", VNull)]; [("z", VNull)]]) as (s1 & Y1 & _).
  1-3, 5 : first [reflexivity | unfold room_for; cbn; lia | vm_compute; reflexivity | cbn; repeat (constructor; cbn)].
  1: discriminate.
  destruct (C14_query_yields_its_rows demo_env demo_funs demo_owner demo_funs_ok 4 demo_scope demo_frames
    (all_of (each "foreach" qa (all_of (each "foreach" (picks [col "v" (sym 1 "_value")] (rng 1)) (picks [col "z" (sym 2 "na")] (rng 1))))))
    st0 [[("z", i 3)]; [("z", i 2)]]) as (s2 & Y2 & _).
  1-3, 5 : first [reflexivity | unfold room_for; cbn; lia | vm_compute; reflexivity | cbn; repeat (constructor; cbn)].
  1: discriminate.
  exists qa, (picks [col "v" (sym 1 "_value")] (rng 1)), (picks [col "z" (sym 2 "na")] (rng 1)), s1, s2. do 2 eexists.
  split; [exact Y1|]. split; [exact Y2|discriminate].
Qed.

Print Assumptions C93_unused_variables_partial.
Print Assumptions C93_foreach_of_foreach_partial.
Print Assumptions C93_foreach_over_chain_partial.
Print Assumptions C93_select_over_if_partial.
Print Assumptions C93_foreach_where_partial.
Print Assumptions C93_select_over_foreach_partial.
Print Assumptions C93_or_commutes_partial.
Print Assumptions C93_and_over_or_partial.
Print Assumptions C93_not_or_partial.
Print Assumptions C93_and_brackets_partial.
Print Assumptions C93_foreach_capture_refuted.
