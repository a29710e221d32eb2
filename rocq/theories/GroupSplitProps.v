(** C98: GROUP BY with conditions, and over tables that share no group. *)

From Coq Require Import ZArith List String Bool Lia PeanoNat.
From Verif Require Import Base F64 Value Protocols Monad Chains Range Flatten ArgParser Syntax Eval
  BaseProofs Runs Para Evolve Demo PureSpec PureEval PureSelect SelectProps Laws Laws2
  GroupSpec GroupEval GroupProps GroupLaws GroupLawsProps.
Import ListNotations.
Open Scope nat_scope.
Open Scope list_scope.

(** ** Specification *)

(** The rows of a table for which a condition on its own columns holds. *)
Fixpoint accepted (E : env) (funs : string -> option (dict -> option val)) (fr : list dict) (w : expr)
  (rows : list dict) : option (list dict) :=
  match rows with
  | [] => Some []
  | row :: rest =>
      obind (den E funs (row :: fr) w) (fun v =>
      option_map (fun l => if truthy E v then row :: l else l) (accepted E funs fr w rest))
  end.

(** No column of the query goes by a name the condition uses. *)
Definition not_renamed (w : expr) (cols : list (string * colbody)) : Prop :=
  forall x, In x (names w) -> ~ In x (map fst cols).

(** No group has rows of both tables. *)
Definition apart {A} (l l' : list (string * A)) : Prop :=
  forall k, In k (map fst l) -> ~ In k (map fst l').

Section C98.
  Variable E : env.
  Variable funs : string -> option (dict -> option val).
  Variable owner : nat -> string.
  Hypothesis FOK : funs_ok E funs.

  (** ** Proofs *)

  Lemma assoc_not_in : forall A x (l : list (string * A)), ~ In x (map fst l) -> assoc x l = None.
  Proof.
    intros A x l. induction l as [|[k b] l IH]; intros H; [reflexivity|]. cbn in *.
    destruct (String.eqb x k) eqn:EK; [|apply IH; tauto]. apply String.eqb_eq in EK as ->. tauto.
  Qed.

  Lemma condition_on_row : forall fr star cols w row, no_star cols -> NoDup (keys cols) -> not_renamed w cols ->
    den E funs (shown E funs fr star cols row :: row :: fr) w = den E funs (row :: fr) w.
  Proof.
    intros fr star cols w row NS ND NR. apply den_names. intros x HX. cbn [lookup]. unfold shown.
    rewrite columns_of_assoc_gen by assumption. rewrite (assoc_not_in _ _ _ (NR x HX)).
    destruct star; [|reflexivity]. rewrite assoc_fields.
    destruct (assoc x row); cbn; [now rewrite or_null_idem|reflexivity].
  Qed.

  Lemma keyed_accepted : forall fr star cols w g, no_star cols -> NoDup (keys cols) -> not_renamed w cols ->
    forall rows l, keyed E funs fr star cols (Some w) g rows = Some l ->
    exists kept, accepted E funs fr w rows = Some kept /\ keyed E funs fr star cols None g kept = Some l.
  Proof.
    intros fr star cols w g NS ND NR rows. induction rows as [|row rows IH]; intros l H.
    - exists []. split; [reflexivity|exact H].
    - cbn [keyed holds] in H. rewrite condition_on_row in H by assumption. cbn [accepted].
      destruct (den E funs (row :: fr) w) as [v|]; [|discriminate]. cbn [option_map obind] in *.
      destruct (truthy E v).
      + destruct (den E funs (shown E funs fr star cols row :: row :: fr) g) as [x|] eqn:DG; [|discriminate].
        cbn [obind] in H. destruct (keyed E funs fr star cols (Some w) g rows) as [l'|]; [|discriminate].
        injection H as <-. destruct (IH l' eq_refl) as (kept & -> & HK). exists (row :: kept).
        split; [reflexivity|]. cbn [keyed holds obind]. rewrite DG. cbn [obind]. now rewrite HK.
      + destruct (IH l H) as (kept & -> & HK). exists kept. split; [reflexivity|exact HK].
  Qed.

  Lemma accepted_in : forall fr w rows kept, accepted E funs fr w rows = Some kept -> incl kept rows.
  Proof.
    intros fr w rows. induction rows as [|row rows IH]; intros kept H; cbn in H.
    - injection H as <-. intros x [].
    - destruct (den E funs (row :: fr) w) as [v|]; [|discriminate]. cbn in H.
      destruct (accepted E funs fr w rows) as [l|]; [|discriminate]. cbn in H. injection H as <-.
      specialize (IH l eq_refl). destruct (truthy E v).
      + intros x [->|HX]; [now left|right; auto].
      + intros x HX. right. auto.
  Qed.

  (** WHERE is applied before the groups are made: the query over all rows has
      the results of the query without WHERE over the rows for which the
      condition holds. *)
  Theorem C98_where_before_groups :
    forall sc fr star cols from from' w g s s1 s' s1' rows kept l,
    frames sc fr -> sc_depth sc + 3 < 1000 ->
    aggregate_query E owner star cols rows -> label_where owner (Some w) -> labelled owner g ->
    not_renamed w cols ->
    from_yields E sc from s s1 (map VDict rows) -> calls_ok E owner s1 -> ids_ok s ->
    accepted E funs fr w rows = Some kept ->
    from_yields E sc from' s' s1' (map VDict kept) -> calls_ok E owner s1' -> ids_ok s' ->
    Forall row_ok rows ->
    keyed E funs fr star cols (Some w) g rows = Some l -> all_defined E funs fr star cols [] l ->
    exists out s2 s2',
      query_yields E sc (Select star cols from (Some w) (Some g) None None) s s2 (map VDict out) /\
      query_yields E sc (Select star cols from' None (Some g) None None) s' s2' (map VDict out) /\
      trace s2 = trace s1 /\ trace s2' = trace s1'.
  Proof.
    intros sc fr star cols from from' w g s s1 s' s1' rows kept l FR RM AQ LW LG NR HF CO ID HA HF' CO' ID' RO HK AD.
    destruct (keyed_accepted fr star cols w g (aq_star _ _ _ _ _ AQ) (aq_names _ _ _ _ _ AQ) NR rows l HK)
      as (kept' & HA' & HK'). rewrite HA in HA'. injection HA' as <-.
    pose proof (accepted_in _ _ _ _ HA) as IN.
    destruct (C17_group_by_partial E funs owner FOK sc fr star cols from (Some w) g s s1 rows l
                FR RM AQ LW LG HF CO ID RO HK AD) as (out & s2 & G1 & Q1 & T1).
    assert (AQ' : aggregate_query E owner star cols kept).
    { destruct AQ as [? ? ? ? ? AF]. constructor; try assumption. intros ES. specialize (AF ES).
      apply Forall_forall. intros x HX. rewrite Forall_forall in AF. apply AF, IN, HX. }
    assert (RO' : Forall row_ok kept).
    { apply Forall_forall. intros x HX. rewrite Forall_forall in RO. apply RO, IN, HX. }
    destruct (C17_group_by_partial E funs owner FOK sc fr star cols from' None g s' s1' kept l
                FR RM AQ' I LG HF' CO' ID' RO' HK' AD) as (out' & s2' & G2 & Q2 & T2).
    unfold group_select in G1, G2. rewrite HK in G1. rewrite HK' in G2. rewrite G1 in G2. injection G2 as <-.
    exists out, s2, s2'. auto.
  Qed.

  Lemma keyed_app : forall fr star cols where_ g a b la lb,
    keyed E funs fr star cols where_ g a = Some la -> keyed E funs fr star cols where_ g b = Some lb ->
    keyed E funs fr star cols where_ g (a ++ b) = Some (la ++ lb).
  Proof.
    intros fr star cols where_ g a. induction a as [|row a IH]; intros b la lb HA HB; cbn [keyed app] in *.
    - injection HA as <-. exact HB.
    - destruct (holds _ _ _ _ _ _) as [keep|]; [|discriminate]. cbn [obind] in *. destruct keep; [|now apply IH].
      destruct (den _ _ _ g) as [v|]; [|discriminate]. cbn [obind] in *.
      destruct (keyed _ _ _ _ _ _ _ a) as [l|]; [|discriminate]. injection HA as <-.
      now rewrite (IH b l lb eq_refl HB).
  Qed.

  Lemma group_app : forall k (l l' : list (string * dict)), group k (l ++ l') = group k l ++ group k l'.
  Proof. intros k l l'. unfold group. now rewrite filter_app, map_app. Qed.

  Lemma group_none : forall k (l : list (string * dict)), ~ In k (map fst l) -> group k l = [].
  Proof.
    intros k l. induction l as [|[k' r] l IH]; intros H; [reflexivity|]. cbn in *. unfold group in *. cbn.
    destruct (String.eqb k k') eqn:EK; [apply String.eqb_eq in EK as ->; tauto|]. apply IH. tauto.
  Qed.

  Lemma mem_str_not : forall k l, ~ In k l -> mem_str k l = false.
  Proof.
    intros k l. induction l as [|x l IH]; intros H; [reflexivity|]. cbn in *.
    destruct (String.eqb k x) eqn:EK; [apply String.eqb_eq in EK as ->; tauto|]. apply IH. tauto.
  Qed.

  Lemma mem_str_cons : forall k x l, mem_str k (x :: l) = String.eqb k x || mem_str k l.
  Proof. intros k x l. cbn. now destruct (String.eqb k x). Qed.

  Lemma first_seen_from : forall ks seen k, In k (first_seen seen ks) -> In k ks.
  Proof.
    intros ks. induction ks as [|x ks IH]; intros seen k H; [exact H|]. cbn in H.
    destruct (mem_str x seen); [right; eauto|]. destruct H as [->|H]; [now left|right; eauto].
  Qed.

  Lemma first_seen_ext : forall ks seen seen', (forall k, In k ks -> mem_str k seen = mem_str k seen') ->
    first_seen seen ks = first_seen seen' ks.
  Proof.
    intros ks. induction ks as [|k ks IH]; intros seen seen' H; [reflexivity|]. cbn [first_seen].
    rewrite (H k (or_introl eq_refl)). destruct (mem_str k seen').
    - apply IH. intros x HX. apply H. now right.
    - f_equal. apply IH. intros x HX. rewrite !mem_str_cons. f_equal. apply H. now right.
  Qed.

  Lemma first_seen_app : forall a b seen, (forall k, In k b -> ~ In k a) ->
    first_seen seen (a ++ b) = first_seen seen a ++ first_seen seen b.
  Proof.
    intros a. induction a as [|k a IH]; intros b seen H; [reflexivity|]. cbn [first_seen app].
    assert (H' : forall x, In x b -> ~ In x a) by (intros x HX HA; apply (H x HX); now right).
    destruct (mem_str k seen); [now apply IH|]. cbn [app]. f_equal. rewrite IH by exact H'. f_equal.
    apply first_seen_ext. intros x HX. rewrite mem_str_cons.
    destruct (String.eqb x k) eqn:EK; [|reflexivity]. apply String.eqb_eq in EK as ->.
    exfalso. apply (H k HX). now left.
  Qed.

  Lemma sequence_app : forall A (a b : list (option A)) x y,
    sequence a = Some x -> sequence b = Some y -> sequence (a ++ b) = Some (x ++ y).
  Proof.
    intros A a. induction a as [|o a IH]; intros b x y HA HB; cbn in *.
    - injection HA as <-. exact HB.
    - destruct o as [v|]; [|discriminate]. cbn in *. destruct (sequence a) as [l|]; [|discriminate].
      cbn in HA. injection HA as <-. now rewrite (IH b l y eq_refl HB).
  Qed.

  Lemma all_defined_after : forall fr star cols l pre p0, apart p0 (pre ++ l) ->
    all_defined E funs fr star cols pre l -> all_defined E funs fr star cols (p0 ++ pre) l.
  Proof.
    intros fr star cols l. induction l as [|[k row] l IH]; intros pre p0 AP H; [exact I|].
    cbn [all_defined] in *. destruct H as ((out & HO) & H). split.
    - exists out. rewrite group_app, group_none; [exact HO|]. intros HI. apply (AP k HI).
      rewrite map_app. apply in_or_app. right. now left.
    - rewrite <- app_assoc. apply IH; [|exact H]. now rewrite <- app_assoc.
  Qed.

  Lemma all_defined_app : forall fr star cols a b pre,
    all_defined E funs fr star cols pre a -> all_defined E funs fr star cols (pre ++ a) b ->
    all_defined E funs fr star cols pre (a ++ b).
  Proof.
    intros fr star cols a. induction a as [|[k row] a IH]; intros b pre HA HB.
    - now rewrite app_nil_r in HB.
    - cbn [all_defined app] in *. destruct HA as (HD & HA). split; [exact HD|]. apply IH; [exact HA|].
      now rewrite <- app_assoc.
  Qed.

  Lemma groups_apart : forall fr star cols where_ g a b la lb outa outb,
    keyed E funs fr star cols where_ g a = Some la -> keyed E funs fr star cols where_ g b = Some lb ->
    apart la lb ->
    group_select E funs fr star cols where_ g a = Some outa ->
    group_select E funs fr star cols where_ g b = Some outb ->
    group_select E funs fr star cols where_ g (a ++ b) = Some (outa ++ outb).
  Proof.
    intros fr star cols where_ g a b la lb outa outb HA HB AP GA GB. unfold group_select in *.
    rewrite HA in GA. rewrite HB in GB. rewrite (keyed_app _ _ _ _ _ _ _ _ _ HA HB). cbn [obind] in *.
    rewrite map_app, first_seen_app, map_app.
    - apply sequence_app.
      + rewrite <- GA. f_equal. apply map_ext_in. intros k HK. rewrite group_app, (group_none k lb).
        * now rewrite app_nil_r.
        * apply AP. exact (first_seen_from _ _ _ HK).
      + rewrite <- GB. f_equal. apply map_ext_in. intros k HK. rewrite group_app, (group_none k la); [reflexivity|].
        intros HI. apply (AP k HI). exact (first_seen_from _ _ _ HK).
    - intros k HB' HA'. exact (AP k HA' HB').
  Qed.

  (** Two tables that share no group may be grouped together or one after the
      other. *)
  Theorem C98_tables_without_common_groups :
    forall sc fr star cols where_ g from from' from2 s s1 s' s1' s0 s01 rows rows' l l',
    frames sc fr -> sc_depth sc + 3 < 1000 ->
    aggregate_query E owner star cols (rows ++ rows') -> label_where owner where_ -> labelled owner g ->
    from_yields E sc from s s1 (map VDict rows) -> calls_ok E owner s1 -> ids_ok s ->
    from_yields E sc from' s' s1' (map VDict rows') -> calls_ok E owner s1' -> ids_ok s' ->
    from_yields E sc from2 s0 s01 (map VDict (rows ++ rows')) -> calls_ok E owner s01 -> ids_ok s0 ->
    Forall row_ok (rows ++ rows') ->
    keyed E funs fr star cols where_ g rows = Some l -> all_defined E funs fr star cols [] l ->
    keyed E funs fr star cols where_ g rows' = Some l' -> all_defined E funs fr star cols [] l' ->
    apart l l' ->
    exists out out' s2 s2' s02,
      query_yields E sc (Select star cols from where_ (Some g) None None) s s2 (map VDict out) /\
      query_yields E sc (Select star cols from' where_ (Some g) None None) s' s2' (map VDict out') /\
      query_yields E sc (Select star cols from2 where_ (Some g) None None) s0 s02 (map VDict (out ++ out')) /\
      trace s2 = trace s1 /\ trace s2' = trace s1' /\ trace s02 = trace s01.
  Proof.
    intros sc fr star cols where_ g from from' from2 s s1 s' s1' s0 s01 rows rows' l l'
      FR RM AQ LW LG HF CO ID HF' CO' ID' HF2 CO2 ID2 RO HK AD HK' AD' AP.
    assert (AQ1 : aggregate_query E owner star cols rows /\ aggregate_query E owner star cols rows').
    { destruct AQ as [? ? ? ? ? AF]. split; constructor; try assumption; intros ES; specialize (AF ES);
        apply Forall_app in AF; tauto. }
    destruct AQ1 as [AQ1 AQ2]. apply Forall_app in RO as RO12. destruct RO12 as [RO1 RO2].
    destruct (C17_group_by_partial E funs owner FOK sc fr star cols from where_ g s s1 rows l
                FR RM AQ1 LW LG HF CO ID RO1 HK AD) as (out & s2 & G1 & Q1 & T1).
    destruct (C17_group_by_partial E funs owner FOK sc fr star cols from' where_ g s' s1' rows' l'
                FR RM AQ2 LW LG HF' CO' ID' RO2 HK' AD') as (out' & s2' & G2 & Q2 & T2).
    assert (AD2 : all_defined E funs fr star cols [] (l ++ l')).
    { apply all_defined_app; [exact AD|]. cbn [app].
      rewrite <- (app_nil_r l). apply all_defined_after; [exact AP|exact AD']. }
    destruct (C17_group_by_partial E funs owner FOK sc fr star cols from2 where_ g s0 s01 (rows ++ rows') (l ++ l')
                FR RM AQ LW LG HF2 CO2 ID2 RO (keyed_app _ _ _ _ _ _ _ _ _ HK HK') AD2) as (o & s02 & G & Q & T).
    rewrite (groups_apart _ _ _ _ _ _ _ _ _ _ _ HK HK' AP G1 G2) in G. injection G as <-.
    exists out, out', s2, s2', s02. auto 6.
  Qed.
End C98.

(** ** Concrete cases *)

Import Demo.
Open Scope string_scope.

(** [FROM chain(a={SELECT * FROM t WHERE n})] *)
Definition kept_rows : plugin := only "chain" "a" (Select true [] (from_var "t") (Some (sym 21 "n")) None None None).

(** SELECT k, count() AS c, sum(item=n) AS s, max(item=n) AS m FROM t WHERE n
    GROUP BY k: the row with n = 0 is in no group. *)
Definition total_out : list (list (string * val)) :=
  [row [("k", VStr "b"); ("c", cnt 2); ("s", i 8); ("m", i 5)];
   row [("k", VStr "a"); ("c", cnt 2); ("s", i 3); ("m", i 2)]].

Example C98_where_demo :
  exists s2 s2',
    query_yields demo_env two_scope
      (Select false total_cols (from_var "t") (Some (sym 13 "n")) (Some (sym 14 "k")) None None) st0 s2
      (map VDict total_out) /\
    query_yields demo_env two_scope
      (Select false total_cols kept_rows None (Some (sym 14 "k")) None None) st0 s2' (map VDict total_out).
Proof.
  destruct (C98_where_before_groups demo_env demo_funs group_owner demo_funs_ok two_scope two_frames false total_cols
    (from_var "t") kept_rows (sym 13 "n") (sym 14 "k") st0
    (fst (plugin_eval demo_env (ev demo_env 20) 20 two_scope (from_var "t") st0)) st0
    (fst (plugin_eval demo_env (ev demo_env 20) 20 two_scope kept_rows st0))
    group_rows_demo (map snd total_keyed) total_keyed) as (out & s2 & s2' & H1 & H2 & _).
  - reflexivity.
  - cbn. lia.
  - apply total_query.
  - exact I.
  - exact I.
  - intros x HX. cbn in HX. destruct HX as [<-|[]]. cbn. intuition discriminate.
  - apply (from_enough demo_env 20). vm_compute. reflexivity.
  - intros node f id H. vm_compute in H. discriminate.
  - apply fresh_ids.
  - vm_compute. reflexivity.
  - apply (from_enough demo_env 20). vm_compute. reflexivity.
  - intros node f id H. vm_compute in H. discriminate.
  - apply fresh_ids.
  - repeat constructor; cbn; intuition discriminate.
  - vm_compute. reflexivity.
  - repeat split; eexists; vm_compute; reflexivity.
  - assert (exists s, query_yields demo_env two_scope
      (Select false total_cols (from_var "t") (Some (sym 13 "n")) (Some (sym 14 "k")) None None) st0 s
        (map VDict total_out)) as (s & HS).
    { eexists. apply (select_enough demo_env 20). vm_compute. reflexivity. }
    destruct (evaluates_unique _ _ _ _ _ _ _ H1 HS) as [<- EQ]. rewrite EQ in *. eauto.
Qed.

(** Two tables, and both in one. *)
Definition table_a : list (list (string * val)) :=
  [row [("k", VStr "x"); ("n", i 3)]; row [("k", VStr "y"); ("n", i 1)]; row [("k", VStr "x"); ("n", i 4)]].
Definition table_b : list (list (string * val)) :=
  [row [("k", VStr "z"); ("n", i 5)]; row [("k", VStr "x"); ("n", i 0)]; row [("k", VStr "z"); ("n", i 2)]].
Definition ab_frames : list (list (string * val)) :=
  [[("a", VArr (map VDict table_a)); ("b", VArr (map VDict table_b))]; [("NULL", VNull)]].
Definition ab_scope : scope := {| sc_vars := map VDict ab_frames; sc_depth := 0; sc_cell := 0 |}.
Definition both : plugin :=
  Plugin ["chain"] true [("a", ASelect (all_of (from_var "a"))); ("b", ASelect (all_of (from_var "b")))].

Example C98_tables_demo :
  exists out out' s2 s2' s02,
    query_yields demo_env ab_scope
      (Select false total_cols (from_var "a") (Some (sym 13 "n")) (Some (sym 14 "k")) None None) st0 s2 (map VDict out) /\
    query_yields demo_env ab_scope
      (Select false total_cols (from_var "b") (Some (sym 13 "n")) (Some (sym 14 "k")) None None) st0 s2' (map VDict out') /\
    query_yields demo_env ab_scope
      (Select false total_cols both (Some (sym 13 "n")) (Some (sym 14 "k")) None None) st0 s02
      (map VDict (out ++ out')).
Proof.
  destruct (C98_tables_without_common_groups demo_env demo_funs group_owner demo_funs_ok ab_scope ab_frames false
    total_cols (Some (sym 13 "n")) (sym 14 "k") (from_var "a") (from_var "b") both st0
    (fst (plugin_eval demo_env (ev demo_env 20) 20 ab_scope (from_var "a") st0)) st0
    (fst (plugin_eval demo_env (ev demo_env 20) 20 ab_scope (from_var "b") st0)) st0
    (fst (plugin_eval demo_env (ev demo_env 20) 20 ab_scope both st0)) table_a table_b
    (map (fun r => (match assoc "k" r with Some (VStr k) => k | _ => "" end, r)) table_a)
    (map (fun r => ("z", r)) [row [("k", VStr "z"); ("n", i 5)]; row [("k", VStr "z"); ("n", i 2)]]))
    as (out & out' & s2 & s2' & s02 & H1 & H2 & H3 & _).
  - reflexivity.
  - cbn. lia.
  - apply total_query.
  - exact I.
  - exact I.
  - apply (from_enough demo_env 20). vm_compute. reflexivity.
  - intros node f id H. vm_compute in H. discriminate.
  - apply fresh_ids.
  - apply (from_enough demo_env 20). vm_compute. reflexivity.
  - intros node f id H. vm_compute in H. discriminate.
  - apply fresh_ids.
  - apply (from_enough demo_env 20). vm_compute. reflexivity.
  - intros node f id H. vm_compute in H. discriminate.
  - apply fresh_ids.
  - repeat constructor; cbn; intuition discriminate.
  - vm_compute. reflexivity.
  - repeat split; eexists; vm_compute; reflexivity.
  - vm_compute. reflexivity.
  - repeat split; eexists; vm_compute; reflexivity.
  - intros k HK HK'. vm_compute in HK, HK'. intuition congruence.
  - exists out, out', s2, s2', s02. auto.
Qed.

(** SELECT k, count() AS c, n + 1 AS n FROM t WHERE n GROUP BY k: the condition
    is about the column, so the row with n = 0 is counted too. *)
Theorem C98_renamed_column_refuted :
  let cols := [("k", CExpr (sym 10 "k")); ("c", CExpr (call 1 "count" []));
               ("n", CExpr (EAdd (sym 11 "n") [("+", ELit (i 1))]))] in
  exists s2 s2',
    query_yields demo_env two_scope
      (Select false cols (from_var "t") (Some (sym 13 "n")) (Some (sym 14 "k")) None None) st0 s2
      [VDict [("k", VStr "b"); ("c", cnt 3); ("n", i 6)]; VDict [("k", VStr "a"); ("c", cnt 2); ("n", i 3)]] /\
    query_yields demo_env two_scope
      (Select false cols kept_rows None (Some (sym 14 "k")) None None) st0 s2'
      [VDict [("k", VStr "b"); ("c", cnt 2); ("n", i 6)]; VDict [("k", VStr "a"); ("c", cnt 2); ("n", i 3)]].
Proof. eexists _, _. split; apply (select_enough demo_env 20); vm_compute; reflexivity. Qed.

Print Assumptions C98_where_before_groups.
Print Assumptions C98_tables_without_common_groups.
Print Assumptions C98_renamed_column_refuted.
