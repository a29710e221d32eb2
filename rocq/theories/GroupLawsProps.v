(** C94: GROUP BY, the order of the rows and the totals. *)

From Coq Require Import ZArith List String Bool Lia PeanoNat Permutation.
From Verif Require Import Base F64 Value Protocols Monad Chains Range Flatten ArgParser Syntax Eval
  BaseProofs Runs Para Evolve Demo PureSpec PureEval PureSelect SelectProps GroupSpec GroupEval GroupProps GroupLaws.
Import ListNotations.
Open Scope nat_scope.
Open Scope list_scope.

Section C94.
  Variable E : env.
  Variable funs : string -> option (dict -> option val).
  Variable owner : nat -> string.
  Hypothesis FOK : funs_ok E funs.

  (** Two tables with the same rows in different orders give the same groups:
      the rows of one result are those of the other, in some other order. *)
  Theorem C94_order_of_rows :
    forall sc fr cols from from' where_ g s s1 s' s1' rows rows' l,
    frames sc fr -> sc_depth sc + 3 < 1000 ->
    aggregate_query E owner false cols rows -> label_where owner where_ -> labelled owner g ->
    from_yields E sc from s s1 (map VDict rows) -> calls_ok E owner s1 -> ids_ok s ->
    from_yields E sc from' s' s1' (map VDict rows') -> calls_ok E owner s1' -> ids_ok s' ->
    Forall row_ok rows ->
    Permutation rows rows' ->
    Forall (fun nc => orderless E funs fr cols g rows (snd nc)) cols ->
    keyed E funs fr false cols where_ g rows = Some l ->
    exists out s2 out' s2',
      query_yields E sc (Select false cols from where_ (Some g) None None) s s2 (map VDict out) /\
      query_yields E sc (Select false cols from' where_ (Some g) None None) s' s2' (map VDict out') /\
      Permutation out out' /\ trace s2 = trace s1 /\ trace s2' = trace s1'.
  Proof.
    intros sc fr cols from from' where_ g s s1 s' s1' rows rows' l FR RM AQ LW LG HF CO ID HF' CO' ID' RO HP HC HK.
    destruct (groups_perm E funs fr cols where_ g rows rows' l HP HC HK)
      as (l' & out & out' & HK' & HO & HO' & PO & AD & AD').
    destruct (C17_group_by_partial E funs owner FOK sc fr false cols from where_ g s s1 rows l
                FR RM AQ LW LG HF CO ID RO HK AD) as (o1 & s2 & G1 & Q1 & T1).
    assert (AQ' : aggregate_query E owner false cols rows').
    { destruct AQ. constructor; try assumption. discriminate. }
    assert (RO' : Forall row_ok rows') by (eapply Permutation_Forall; eauto).
    destruct (C17_group_by_partial E funs owner FOK sc fr false cols from' where_ g s' s1' rows' l'
                FR RM AQ' LW LG HF' CO' ID' RO' HK' AD') as (o2 & s2' & G2 & Q2 & T2).
    rewrite HO in G1. injection G1 as <-. rewrite HO' in G2. injection G2 as <-.
    exists out, s2, out', s2'. auto.
  Qed.

  Lemma map_Forall2 : forall A B C (f : B -> C) (h : A -> C) l l',
    Forall2 (fun a b => f b = h a) l l' -> map f l' = map h l.
  Proof. intros A B C f h l l' H. induction H as [|a b l l' HAB _ IH]; cbn; [reflexivity|]. now rewrite HAB, IH. Qed.

  (** The counts of the groups add up to the number of rows that pass WHERE. *)
  Theorem C94_counts_add_up :
    forall sc fr star cols from where_ g s s1 rows l name c node e,
    frames sc fr -> sc_depth sc + 3 < 1000 ->
    aggregate_query E owner star cols rows -> label_where owner where_ -> labelled owner g ->
    from_yields E sc from s s1 (map VDict rows) -> calls_ok E owner s1 -> ids_ok s ->
    Forall row_ok rows ->
    keyed E funs fr star cols where_ g rows = Some l -> all_defined E funs fr star cols [] l ->
    In (name, CExpr c) cols -> agg_call c = Some (node, Count, e) ->
    (Z.of_nat (List.length l) < 2 ^ 64)%Z ->
    exists out s2 counts,
      query_yields E sc (Select star cols from where_ (Some g) None None) s s2 (map VDict out) /\
      map (assoc name) out = map (fun n => Some (VInt KUint64 n)) counts /\
      zsum counts = Z.of_nat (List.length l).
  Proof.
    intros sc fr star cols from where_ g s s1 rows l name c node e FR RM AQ LW LG HF CO ID RO HK AD HI HA LL.
    destruct (C17_group_by_partial E funs owner FOK sc fr star cols from where_ g s s1 rows l
                FR RM AQ LW LG HF CO ID RO HK AD) as (out & s2 & HG & HQ & _).
    destruct (C17_one_row_per_key E funs fr star cols where_ g rows l out HK HG) as (ks & ND & KS & F2).
    exists out, s2, (map (fun k => zsum (map (fun _ => 1%Z) (group k l))) ks). split; [exact HQ|].
    assert (ONE : forall A (x : list A), zsum (map (fun _ => 1%Z) x) = Z.of_nat (List.length x)).
    { intros A x. induction x as [|y x IH]; [reflexivity|]. unfold zsum in *. cbn [map fold_right]. rewrite IH.
      cbn [List.length]. lia. }
    split.
    - rewrite map_map. apply map_Forall2. clear KS ND HG HQ. induction F2 as [|k o ks out HR _ IH]; constructor; [|exact IH].
      destruct (C19_aggregate_over_the_group E funs fr star cols _ _ name c node Count e
                  (aq_names _ _ _ _ _ AQ) HR HI HA) as (items & HS & ->).
      f_equal. rewrite ONE.
      assert (LI : List.length items = List.length (group k l)).
      { clear - HS. revert items HS. induction (group k l) as [|r rs IH]; intros items HS; cbn [map] in HS.
        - injection HS as <-. reflexivity.
        - apply sequence_cons in HS as (y & r' & _ & Hr & ->). cbn. now rewrite (IH _ Hr). }
      rewrite <- LI. apply C19_count. rewrite LI.
      assert (LE : List.length (group k l) <= List.length l).
      { unfold group. rewrite map_length. clear. induction l as [|x l IH]; cbn [filter List.length]; [lia|].
        destruct (String.eqb k (fst x)); cbn [List.length]; lia. }
      lia.
    - rewrite sum_of_groups; [|exact ND|].
      + rewrite ONE, map_length. reflexivity.
      + intros k row HR. apply KS. eauto.
  Qed.

  (** The sums of the groups add up to the sum over all rows that pass WHERE,
      as int64 do. *)
  Theorem C94_sums_add_up :
    forall sc fr star cols from where_ g s s1 rows l name c node e,
    frames sc fr -> sc_depth sc + 3 < 1000 ->
    aggregate_query E owner star cols rows -> label_where owner where_ -> labelled owner g ->
    from_yields E sc from s s1 (map VDict rows) -> calls_ok E owner s1 -> ids_ok s ->
    Forall row_ok rows ->
    keyed E funs fr star cols where_ g rows = Some l -> all_defined E funs fr star cols [] l ->
    In (name, CExpr c) cols -> agg_call c = Some (node, Sum, e) ->
    Forall (fun kr => exists z, is_int64 z /\ item E funs fr e (snd kr) = Some (vint z)) l ->
    exists out s2 sums zs,
      query_yields E sc (Select star cols from where_ (Some g) None None) s s2 (map VDict out) /\
      map (assoc name) out = map (fun z => Some (vint z)) sums /\
      sequence (map (fun kr => item E funs fr e (snd kr)) l) = Some (map vint zs) /\
      wrap64 (zsum sums) = wrap64 (zsum zs).
  Proof.
    intros sc fr star cols from where_ g s s1 rows l name c node e FR RM AQ LW LG HF CO ID RO HK AD HI HA HN.
    destruct (C17_group_by_partial E funs owner FOK sc fr star cols from where_ g s s1 rows l
                FR RM AQ LW LG HF CO ID RO HK AD) as (out & s2 & HG & HQ & _).
    destruct (C17_one_row_per_key E funs fr star cols where_ g rows l out HK HG) as (ks & ND & KS & F2).
    exists out, s2, (map wrap64 (map (fun k => zsum (map (number E funs fr e) (group k l))) ks)),
      (map (number E funs fr e) (map snd l)).
    split; [exact HQ|]. split; [|split].
    - rewrite !map_map. apply map_Forall2.
      assert (KS' : forall k, In k ks -> group k l <> []).
      { intros k HK0 EQ. apply KS in HK0 as (r & HR). apply in_group in HR. rewrite EQ in HR. exact HR. }
      clear KS ND HG HQ. revert KS'. induction F2 as [|k o ks out HR _ IH]; intros KS'; constructor.
      + destruct (C19_aggregate_over_the_group E funs fr star cols _ _ name c node Sum e
                    (aq_names _ _ _ _ _ AQ) HR HI HA) as (items & HS & ->).
        destruct (numbers E funs fr e (group k l)) as [N1 N2].
        { apply Forall_forall. intros r Hr. apply in_group in Hr. rewrite Forall_forall in HN. exact (HN _ Hr). }
        rewrite N1 in HS. injection HS as <-. f_equal. rewrite C19_sum; [reflexivity|exact N2|].
        intros EQ. apply map_eq_nil in EQ. apply (KS' k (or_introl eq_refl) EQ).
      + apply IH; [intros k0 H0; apply KS'; now right].
    - destruct (numbers E funs fr e (map snd l)) as [N1 _].
      { apply Forall_forall. intros r Hr. apply in_map_iff in Hr as (kr & <- & Hr).
        rewrite Forall_forall in HN. exact (HN _ Hr). }
      rewrite map_map in N1. exact N1.
    - rewrite wrap_sums, sum_of_groups; [reflexivity|exact ND|].
      intros k row HR. apply KS. eauto.
  Qed.
End C94.

(** ** Concrete cases *)

Import Demo.
Open Scope string_scope.

(** SELECT k, count() AS c, sum(item=n) AS s, max(item=n) AS m FROM t WHERE n GROUP BY k *)
Definition total_cols : list (string * colbody) :=
  [("k", CExpr (sym 10 "k")); ("c", CExpr (call 1 "count" []));
   ("s", CExpr (call 2 "sum" [("item", AExpr (sym 11 "n"))]));
   ("m", CExpr (call 3 "max" [("item", AExpr (sym 12 "n"))]))].
Definition other_order : list (list (string * val)) :=
  [row [("k", VStr "a"); ("n", i 2)];
   row [("k", VStr "b"); ("n", i 5)];
   row [("k", VStr "b"); ("n", i 0)];
   row [("k", VStr "b"); ("n", i 3)];
   row [("k", VStr "a"); ("n", i 1)]].
Definition two_frames : list (list (string * val)) :=
  [[("t", VArr (map VDict group_rows_demo)); ("u", VArr (map VDict other_order))]; [("NULL", VNull)]].
Definition two_scope : scope := {| sc_vars := map VDict two_frames; sc_depth := 0; sc_cell := 0 |}.

Lemma same_rows : Permutation group_rows_demo other_order.
Proof.
  apply NoDup_Permutation.
  - repeat constructor; cbn; intuition discriminate.
  - repeat constructor; cbn; intuition discriminate.
  - intros x. cbn. tauto.
Qed.

Lemma total_query : forall rows, aggregate_query demo_env group_owner false total_cols rows.
Proof.
  intros rows. constructor.
  - repeat constructor.
  - repeat constructor.
  - repeat constructor; cbn; intuition discriminate.
  - repeat constructor; cbn; intuition discriminate.
  - intros name b HI node a e HA. cbn in HI.
    repeat (destruct HI as [HI|HI]; [injection HI as <- <-; cbn in HA;
      repeat (destruct HA as [HA|HA]; [injection HA as <- <- <-; reflexivity|]); contradiction|]).
    contradiction.
  - discriminate.
Qed.

Lemma total_orderless :
  Forall (fun nc => orderless demo_env demo_funs two_frames total_cols (sym 14 "k") group_rows_demo (snd nc)) total_cols.
Proof.
  assert (NUM : forall n, Forall (fun r => exists z, is_int64 z /\
            item demo_env demo_funs two_frames (sym n "n") r = Some (vint z)) group_rows_demo).
  { intros n. repeat constructor; eexists; (split; [|vm_compute; reflexivity]); vm_compute; split; congruence || reflexivity. }
  constructor; [|constructor; [|constructor; [|constructor; [|constructor]]]]; cbn [snd].
  - apply OL_key; [reflexivity| |].
    + repeat constructor; eexists; vm_compute; reflexivity.
    + intros r r' HI HI' HK. cbn in HI, HI'.
      repeat (destruct HI as [<-|HI]); try contradiction;
        repeat (destruct HI' as [<-|HI']); try contradiction;
        vm_compute in HK; try discriminate; reflexivity.
  - eapply OL_count; [reflexivity|]. repeat constructor; eexists; vm_compute; reflexivity.
  - eapply OL_number; [reflexivity|cbn; tauto|apply NUM].
  - eapply OL_number; [reflexivity|cbn; tauto|apply NUM].
Qed.

Definition total_keyed : list (string * list (string * val)) :=
  [("b", row [("k", VStr "b"); ("n", i 3)]); ("a", row [("k", VStr "a"); ("n", i 1)]);
   ("a", row [("k", VStr "a"); ("n", i 2)]); ("b", row [("k", VStr "b"); ("n", i 5)])].

(** The hypotheses are met by the two tables, with two rows each. *)
Example C94_order_demo :
  exists out s2 out' s2',
    query_yields demo_env two_scope
      (Select false total_cols (from_var "t") (Some (sym 13 "n")) (Some (sym 14 "k")) None None) st0 s2 (map VDict out) /\
    query_yields demo_env two_scope
      (Select false total_cols (from_var "u") (Some (sym 13 "n")) (Some (sym 14 "k")) None None) st0 s2' (map VDict out') /\
    Permutation out out'.
Proof.
  destruct (C94_order_of_rows demo_env demo_funs group_owner demo_funs_ok two_scope two_frames total_cols
    (from_var "t") (from_var "u") (Some (sym 13 "n")) (sym 14 "k") st0
    (fst (plugin_eval demo_env (ev demo_env 20) 20 two_scope (from_var "t") st0)) st0
    (fst (plugin_eval demo_env (ev demo_env 20) 20 two_scope (from_var "u") st0))
    group_rows_demo other_order total_keyed) as (out & s2 & out' & s2' & H1 & H2 & H3 & _).
  - reflexivity.
  - cbn. lia.
  - apply total_query.
  - exact I.
  - exact I.
  - apply (from_enough demo_env 20). vm_compute. reflexivity.
  - intros node f id H. vm_compute in H. discriminate.
  - apply fresh_ids.
  - apply (from_enough demo_env 20). vm_compute. reflexivity.
  - intros node f id H. vm_compute in H. discriminate.
  - apply fresh_ids.
  - repeat constructor; cbn; intuition discriminate.
  - apply same_rows.
  - apply total_orderless.
  - vm_compute. reflexivity.
  - exists out, s2, out', s2'. auto.
Qed.

Example C94_totals_demo :
  (exists out s2 counts,
     query_yields demo_env two_scope
       (Select false total_cols (from_var "t") (Some (sym 13 "n")) (Some (sym 14 "k")) None None) st0 s2 (map VDict out) /\
     map (assoc "c") out = map (fun n => Some (VInt KUint64 n)) counts /\ zsum counts = 4%Z) /\
  (exists out s2 sums zs,
     query_yields demo_env two_scope
       (Select false total_cols (from_var "t") (Some (sym 13 "n")) (Some (sym 14 "k")) None None) st0 s2 (map VDict out) /\
     map (assoc "s") out = map (fun z => Some (vint z)) sums /\
     map vint zs = [i 3; i 1; i 2; i 5] /\ wrap64 (zsum sums) = wrap64 (zsum zs)).
Proof.
  split.
  - destruct (C94_counts_add_up demo_env demo_funs group_owner demo_funs_ok two_scope two_frames false total_cols
      (from_var "t") (Some (sym 13 "n")) (sym 14 "k") st0
      (fst (plugin_eval demo_env (ev demo_env 20) 20 two_scope (from_var "t") st0))
      group_rows_demo total_keyed "c" (call 1 "count" []) 1 (ELit VNull)) as (out & s2 & counts & H1 & H2 & H3).
    + reflexivity.
    + cbn. lia.
    + apply total_query.
    + exact I.
    + exact I.
    + apply (from_enough demo_env 20). vm_compute. reflexivity.
    + intros node f id H. vm_compute in H. discriminate.
    + apply fresh_ids.
    + repeat constructor; cbn; intuition discriminate.
    + vm_compute. reflexivity.
    + repeat split; eexists; vm_compute; reflexivity.
    + right. now left.
    + reflexivity.
    + vm_compute. reflexivity.
    + exists out, s2, counts. auto.
  - destruct (C94_sums_add_up demo_env demo_funs group_owner demo_funs_ok two_scope two_frames false total_cols
      (from_var "t") (Some (sym 13 "n")) (sym 14 "k") st0
      (fst (plugin_eval demo_env (ev demo_env 20) 20 two_scope (from_var "t") st0))
      group_rows_demo total_keyed "s" (call 2 "sum" [("item", AExpr (sym 11 "n"))]) 2 (sym 11 "n"))
      as (out & s2 & sums & zs & H1 & H2 & H3 & H4).
    + reflexivity.
    + cbn. lia.
    + apply total_query.
    + exact I.
    + exact I.
    + apply (from_enough demo_env 20). vm_compute. reflexivity.
    + intros node f id H. vm_compute in H. discriminate.
    + apply fresh_ids.
    + repeat constructor; cbn; intuition discriminate.
    + vm_compute. reflexivity.
    + repeat split; eexists; vm_compute; reflexivity.
    + right. right. now left.
    + reflexivity.
    + repeat constructor; eexists; (split; [|vm_compute; reflexivity]); vm_compute; split; congruence || reflexivity.
    + exists out, s2, sums, zs. split; [exact H1|]. split; [exact H2|]. split; [|exact H4].
      assert (HV : sequence (map (fun kr => item demo_env demo_funs two_frames (sym 11 "n") (snd kr)) total_keyed) =
                   Some [i 3; i 1; i 2; i 5]) by (vm_compute; reflexivity).
      rewrite HV in H3. injection H3 as H3. congruence.
Qed.

(** ** Where the order does matter *)

(** SELECT k, n FROM t GROUP BY k: a column that is neither an aggregate nor
    determined by the key is that of the last row. *)
Theorem C94_other_column_refuted :
  exists s2 s2',
    query_yields demo_env two_scope
      (Select false [("k", CExpr (sym 10 "k")); ("n", CExpr (sym 11 "n"))] (from_var "t") None (Some (sym 14 "k")) None None)
      st0 s2 [VDict [("k", VStr "b"); ("n", i 5)]; VDict [("k", VStr "a"); ("n", i 2)]] /\
    query_yields demo_env two_scope
      (Select false [("k", CExpr (sym 10 "k")); ("n", CExpr (sym 11 "n"))] (from_var "u") None (Some (sym 14 "k")) None None)
      st0 s2' [VDict [("k", VStr "a"); ("n", i 1)]; VDict [("k", VStr "b"); ("n", i 3)]].
Proof. eexists _, _. split; apply (select_enough demo_env 20); vm_compute; reflexivity. Qed.

(** SELECT sum(item=n) AS s, max(item=n) AS m FROM t GROUP BY "x", one item no
    number: [sum] and [max] depend on which row comes last. *)
Definition mixed (l : list val) : scope :=
  {| sc_vars := map VDict [[("t", VArr (map (fun v => VDict [("n", v)]) l))]; [("NULL", VNull)]];
     sc_depth := 0; sc_cell := 0 |}.
Theorem C94_mixed_items_refuted :
  exists s2 s2',
    query_yields demo_env (mixed [i 7; VNull])
      (Select false [("s", CExpr (call 2 "sum" [("item", AExpr (sym 11 "n"))]));
                     ("m", CExpr (call 3 "max" [("item", AExpr (sym 12 "n"))]))] (from_var "t") None
         (Some (ELit (VStr "x"))) None None) st0 s2 [VDict [("s", VNull); ("m", VNull)]] /\
    query_yields demo_env (mixed [VNull; i 7])
      (Select false [("s", CExpr (call 2 "sum" [("item", AExpr (sym 11 "n"))]));
                     ("m", CExpr (call 3 "max" [("item", AExpr (sym 12 "n"))]))] (from_var "t") None
         (Some (ELit (VStr "x"))) None None) st0 s2' [VDict [("s", i 7); ("m", i 7)]].
Proof. eexists _, _. split; apply (select_enough demo_env 20); vm_compute; reflexivity. Qed.

Print Assumptions C94_order_of_rows.
Print Assumptions C94_counts_add_up.
Print Assumptions C94_sums_add_up.
Print Assumptions C94_other_column_refuted.
Print Assumptions C94_mixed_items_refuted.
