(** C17, C18, C19: GROUP BY and the aggregate functions. *)

From Coq Require Import ZArith List String Bool Lia PeanoNat SpecFloat.
From Verif Require Import Base F64 Value Protocols Monad Chains Range Flatten ArgParser Syntax Eval
  BaseProofs Runs Para Evolve Demo PureSpec PureEval PureSelect SelectProps GroupSpec GroupEval.
Import ListNotations.
Open Scope nat_scope.
Open Scope list_scope.

(** A query whose columns are computed from aggregates or have no effect.
    Every column has its own name, also among those that a star adds; every
    call has its own place in the source.  The aggregates are those of the
    library. *)
Record aggregate_query (E : env) (owner : nat -> string) (star : bool) (cols : list (string * colbody))
  (rows : list dict) : Prop := {
  aq_label : label_cols owner cols;
  aq_star : no_star cols;
  aq_names : NoDup (keys cols);
  aq_nodes : NoDup (agg_nodes cols);
  aq_library : aggs_registered E cols;
  aq_free : star = true -> Forall (fun row => forall k b, assoc k cols = Some b -> col_aggs b <> [] ->
                                      ~ In k (keys row)) rows
}.

Section C17.
  Variable E : env.
  Variable funs : string -> option (dict -> option val).
  Variable owner : nat -> string.
  Hypothesis FOK : funs_ok E funs.

  (** The rows that pass WHERE are partitioned by the printed key; one row per
      key, in the order of first appearance; its columns are those of the last
      row of the group, its aggregates are over the rows of the group
      ([group_select] of GroupSpec.v says just that).  Nothing else is left of
      the evaluation that the host could see. *)
  Theorem C17_group_by_partial :
    forall sc fr star cols from where_ g s s1 rows l,
    frames sc fr -> sc_depth sc + 3 < 1000 ->
    aggregate_query E owner star cols rows -> label_where owner where_ -> labelled owner g ->
    from_yields E sc from s s1 (map VDict rows) -> calls_ok E owner s1 -> ids_ok s ->
    Forall row_ok rows ->
    keyed E funs fr star cols where_ g rows = Some l -> all_defined E funs fr star cols [] l ->
    exists out s2,
      group_select E funs fr star cols where_ g rows = Some out /\
      query_yields E sc (Select star cols from where_ (Some g) None None) s s2 (map VDict out) /\
      trace s2 = trace s1.
  Proof.
    intros sc fr star cols from where_ g s s1 rows l FR RM [AL AS AN AD AR AF] LW LG HF CO ID RO HK DL.
    assert (SC : scope_ok E owner no_world (copy sc) fr).
    { apply frames_scope; [exact FR|]. cbn [copy sc_depth]. lia. }
    assert (ID1 : ids_ok s1).
    { eapply evaluates_ids; [|exact HF|exact ID]. intros m.
      apply (pa_plugin_eval _ keeps_ids_closed _ _ _ _ _ (evaluation_keeps_ids E m)).
      intros a b c s0 H. destruct (range_rows m a b c); exact H. }
    destruct (group_rows_ok E funs owner FOK cols AS AN AD AL AR fr star where_ g LW LG
                no_world (copy sc) SC ltac:(unfold room; cbn [copy sc_depth]; lia) rows l RO AF HK
                no_world s1 [] [] (wle_refl _) (calls_stok _ _ _ CO) ID1)
      as (W2 & s2 & bins & _ & _ & _ & TR & HB & EV).
    { constructor; constructor. }
    { exact DL. }
    destruct (bins_out _ _ _ _ _ _ _ _ HB) as (out & HO & EO).
    exists out, s2. split; [|split; [|exact TR]].
    - unfold group_select. rewrite HK. exact HO.
    - apply ev_select. cbn [select_step]. eapply ev_bind; [exact HF|].
      eapply ev_bind; [exact EV|]. cbn zeta. rewrite EO. apply ev_ret.
  Qed.

  (** Read off the specification: one row per key. *)
  Lemma sequence_forall2 : forall A B (f : A -> option B) l out,
    sequence (map f l) = Some out -> Forall2 (fun a b => f a = Some b) l out.
  Proof.
    intros A B f l. induction l as [|a l IH]; intros out H; cbn in H.
    - injection H as <-. constructor.
    - destruct (f a) as [b|] eqn:EF; [|discriminate]. cbn in H.
      destruct (sequence (map f l)) as [bs|]; [|discriminate]. injection H as <-. constructor; auto.
  Qed.

  Theorem C17_one_row_per_key :
    forall fr star cols where_ g rows l out,
    keyed E funs fr star cols where_ g rows = Some l ->
    group_select E funs fr star cols where_ g rows = Some out ->
    exists ks, NoDup ks /\ (forall k, In k ks <-> exists row, In (k, row) l) /\
      Forall2 (fun k o => result_row E funs fr star cols (group k l) = Some o) ks out.
  Proof.
    intros fr star cols where_ g rows l out HK H. unfold group_select in H. rewrite HK in H. cbn in H.
    exists (first_seen [] (map fst l)). split; [apply first_seen_nodup|]. split.
    - intros k. rewrite <- mem_str_in, first_seen_in. cbn. rewrite mem_str_in, in_map_iff. split.
      + intros ([k' r] & <- & HI). eauto.
      + intros (r & HI). exists (k, r). auto.
    - now apply sequence_forall2.
  Qed.

  (** The keys appear in the order of their first rows. *)
  Theorem C17_first_seen_order :
    forall (l : list (string * dict)) pre k row post,
    l = pre ++ (k, row) :: post -> ~ In k (map fst pre) ->
    exists rest, first_seen [] (map fst l) = first_seen [] (map fst pre) ++ k :: rest.
  Proof.
    intros l pre k row post -> NI. rewrite map_app. cbn [map fst].
    assert (G : forall ks seen, ~ In k ks -> mem_str k seen = false ->
      exists rest, first_seen seen (ks ++ k :: map fst post) = first_seen seen ks ++ k :: rest).
    { induction ks as [|x ks IH]; intros seen N1 N2.
      - cbn. rewrite N2. eauto.
      - cbn. destruct (mem_str x seen) eqn:EX.
        + apply IH; [intros HI; apply N1; now right|exact N2].
        + destruct (IH (x :: seen)) as (rest & ER).
          * intros HI; apply N1; now right.
          * cbn. destruct (String.eqb k x) eqn:EK; [|exact N2].
            apply String.eqb_eq in EK as ->. exfalso. apply N1. now left.
          * exists rest. cbn. now rewrite ER. }
    apply G; [exact NI|reflexivity].
  Qed.
End C17.

(** ** C19: aggregates *)

Section C19.
  Variable E : env.
  Variable funs : string -> option (dict -> option val).
  Variable owner : nat -> string.
  Hypothesis FOK : funs_ok E funs.

  Lemma untouched : forall fr rows name l d o, ~ In name (map fst l) ->
    group_columns E funs fr rows l d = Some o -> assoc name o = assoc name d.
  Proof.
    intros fr rows name. induction l as [|[k b] l IH]; intros d o NI H; cbn in H.
    - congruence.
    - apply obind_some in H as (v & _ & H). rewrite (IH _ _ (fun x => NI (or_intror x)) H).
      rewrite PureEval.assoc_dict_set. destruct (String.eqb name k) eqn:EK; [|reflexivity].
      apply String.eqb_eq in EK as ->. exfalso. apply NI. now left.
  Qed.

  (** The columns of the result row of a group. *)
  Theorem C17_result_columns :
    forall fr star cols rows out name b,
    NoDup (keys cols) -> result_row E funs fr star cols rows = Some out -> In (name, b) cols ->
    assoc name out = group_value E funs fr rows b.
  Proof.
    intros fr star cols rows out name b ND HR HI. unfold result_row in HR.
    revert HR. generalize (if star then fields (last rows []) else []) as acc.
    induction cols as [|[k b'] cols IH]; intros acc HR; [contradiction|].
    cbn [group_columns] in HR. apply obind_some in HR as (v & Hv & HR).
    unfold keys in ND. cbn in ND. apply NoDup_cons_iff in ND as [NI ND].
    destruct HI as [EQ|HI].
    - injection EQ as -> ->.
      rewrite (untouched _ _ _ _ _ _ NI HR), PureEval.assoc_dict_set, String.eqb_refl. congruence.
    - eapply IH; eauto.
  Qed.

  (** A column without an aggregate is that of the last row of the group. *)
  Theorem C17_plain_column :
    forall fr star cols rows out name e,
    NoDup (keys cols) -> result_row E funs fr star cols rows = Some out ->
    In (name, CExpr e) cols -> aggs e = [] ->
    exists v, den E funs (last rows [] :: fr) e = Some v /\ assoc name out = Some (expand v).
  Proof.
    intros fr star cols rows out name e ND HR HI HA.
    pose proof (result_row_defined E funs cols fr star _ _ HR) as D.
    destruct (defined_value E funs cols fr _ _ _ D HI) as (e' & v & [= <-] & HV).
    rewrite (C17_result_columns _ _ _ _ _ _ _ ND HR HI). cbn [group_value]. rewrite HV.
    rewrite (over_pure E funs fr _ _ HA) in HV. eauto.
  Qed.

  (** In the result row of a group the aggregate column holds the aggregate of
      the items of the rows of this group, nothing else. *)
  Theorem C19_aggregate_over_the_group :
    forall fr star cols rows out name c node a e,
    NoDup (keys cols) -> result_row E funs fr star cols rows = Some out ->
    In (name, CExpr c) cols -> agg_call c = Some (node, a, e) ->
    exists items, sequence (map (item E funs fr e) rows) = Some items /\
                  assoc name out = Some (aggregate E a items).
  Proof.
    intros fr star cols rows out name c node a e ND HR HI HA.
    pose proof (result_row_defined E funs cols fr star _ _ HR) as D.
    destruct (defined_value E funs cols fr _ _ _ D HI) as (c' & v & [= <-] & HV).
    rewrite (C17_result_columns _ _ _ _ _ _ _ ND HR HI). cbn [group_value]. rewrite HV.
    destruct (agg_call_inv _ _ _ _ HA) as (ps & -> & _). cbn [over] in HV. rewrite HA in HV.
    apply omap_some in HV as (items & Hi & <-). exists items. split; [exact Hi|]. cbn [option_map]. f_equal.
    apply (aggregate_datum E). eapply sequence_datum; eauto.
  Qed.

  (** Two aggregates over the same group combined by arithmetic:
      [sum(item=x) / count()]. *)
  Theorem C19_ratio_of_aggregates :
    forall fr star cols rows out name c1 c2 n1 a1 e1 n2 a2 e2,
    NoDup (keys cols) -> result_row E funs fr star cols rows = Some out ->
    In (name, CExpr (EMul c1 [("/"%string, c2)])) cols ->
    agg_call c1 = Some (n1, a1, e1) -> agg_call c2 = Some (n2, a2, e2) ->
    exists items1 items2, sequence (map (item E funs fr e1) rows) = Some items1 /\
      sequence (map (item E funs fr e2) rows) = Some items2 /\
      assoc name out = Some (expand (div_disp (p_div (env_protos E))
                               (aggregate E a1 items1) (aggregate E a2 items2))).
  Proof.
    intros fr star cols rows out name c1 c2 n1 a1 e1 n2 a2 e2 ND HR HI H1 H2.
    pose proof (result_row_defined E funs cols fr star _ _ HR) as D.
    destruct (defined_value E funs cols fr _ _ _ D HI) as (c' & v & [= <-] & HV).
    rewrite (C17_result_columns _ _ _ _ _ _ _ ND HR HI). cbn [group_value]. rewrite HV.
    assert (AG : forall c n a e, agg_call c = Some (n, a, e) ->
      over E funs fr rows c = option_map (aggregate E a) (sequence (map (item E funs fr e) rows))).
    { intros c n a e HA. destruct (agg_call_inv _ _ _ _ HA) as (ps & -> & _). cbn [over]. now rewrite HA. }
    cbn [over agg_call map fst snd] in HV. rewrite (AG _ _ _ _ H1), (AG _ _ _ _ H2) in HV.
    apply obind_some in HV as (x & Hx & HV). apply omap_some in Hx as (items1 & Hi1 & <-).
    apply obind_some in HV as (vs & Hvs & HV). apply sequence_cons in Hvs as (y & r & Hy & Hr & ->).
    injection Hr as <-. apply omap_some in Hy as (z & Hz & <-). apply omap_some in Hz as (items2 & Hi2 & <-).
    exists items1, items2. split; [exact Hi1|]. split; [exact Hi2|]. cbn [option_map].
    cbn [mul_value] in HV. apply obind_some in HV as (w & Hw & HV). cbn in Hw.
    apply check_some in Hw as [-> _]. congruence.
  Qed.

  (** Two aggregates in a list that is given to a function:
      [format(format="%v of %v", args=[count(), max(item=x)])] and the like.
      The function is applied to the aggregates of the group, and its other
      arguments are those of the last row. *)
  Theorem C19_aggregates_in_a_list_argument :
    forall fr star cols rows out name node f q e p c1 c2 n1 a1 e1 n2 a2 e2,
    NoDup (keys cols) -> result_row E funs fr star cols rows = Some out ->
    In (name, CExpr (ESym node false [f] true [(q, AExpr e); (p, AArray (EComma c1 [Some c2]))])) cols ->
    agg_call c1 = Some (n1, a1, e1) -> agg_call c2 = Some (n2, a2, e2) ->
    exists F x items1 items2 v, funs f = Some F /\
      den E funs (last rows [] :: fr) e = Some x /\
      sequence (map (item E funs fr e1) rows) = Some items1 /\
      sequence (map (item E funs fr e2) rows) = Some items2 /\
      F (dict_of [(q, expand x); (p, VArr [aggregate E a1 items1; aggregate E a2 items2])]) = Some v /\
      assoc name out = Some (expand (or_null v)).
  Proof.
    intros fr star cols rows out name node f q e p c1 c2 n1 a1 e1 n2 a2 e2 ND HR HI H1 H2.
    pose proof (result_row_defined E funs cols fr star _ _ HR) as D.
    destruct (defined_value E funs cols fr _ _ _ D HI) as (c' & v & [= <-] & HV).
    rewrite (C17_result_columns _ _ _ _ _ _ _ ND HR HI). cbn [group_value]. rewrite HV.
    assert (AG : forall c n a e, agg_call c = Some (n, a, e) ->
      over E funs fr rows c = option_map (aggregate E a) (sequence (map (item E funs fr e) rows))).
    { intros c n a e' HA. destruct (agg_call_inv _ _ _ _ HA) as (ps & -> & _). cbn [over]. now rewrite HA. }
    rewrite over_call in HV by reflexivity.
    apply obind_some in HV as (F & HF & HV). apply obind_some in HV as (argv & Ha & HV).
    cbn [map arg_over over agg_call] in Ha. rewrite (AG _ _ _ _ H1), (AG _ _ _ _ H2) in Ha.
    apply sequence_cons in Ha as (y1 & r1 & Hy1 & Hr1 & ->). apply omap_some in Hy1 as (x & Hx & <-).
    apply sequence_cons in Hr1 as (y2 & r2 & Hy2 & Hr2 & ->). injection Hr2 as <-.
    apply omap_some in Hy2 as (w & Hw & <-).
    apply obind_some in Hw as (w1 & Hw1 & Hw). apply omap_some in Hw1 as (items1 & Hi1 & <-).
    apply obind_some in Hw as (vs & Hvs & Hw). apply sequence_cons in Hvs as (y3 & r3 & Hy3 & Hr3 & ->).
    injection Hr3 as <-. apply omap_some in Hy3 as (w2 & Hw2 & <-). apply omap_some in Hw2 as (items2 & Hi2 & <-).
    apply obind_some in HV as (u & Hu & HV). apply omap_some in HV as (u' & Hu' & <-).
    apply check_some in Hu' as [-> PU].
    assert (DA : datum (aggregate E a1 items1)) by (apply (aggregate_datum E); eapply sequence_datum; eauto).
    exists F, x, items1, items2, u. do 4 (split; [assumption|]). split; [|reflexivity].
    rewrite <- Hu. destruct (_ || _); [|discriminate]. injection Hw as <-.
    destruct DA as (P1 & P2 & P3). cbn [items].
    destruct (aggregate E a1 items1); try reflexivity. congruence.
  Qed.

  (** What the aggregates are, for int64 values. *)
  Lemma ints_vint : forall zs, Forall is_int64 zs -> ints (map vint zs) = zs.
  Proof.
    intros zs H. induction H as [|z zs Hz _ IH]; [reflexivity|]. cbn. now rewrite wrap64_id, IH.
  Qed.

  Theorem C19_count : forall items, (Z.of_nat (List.length items) < 2 ^ 64)%Z ->
    aggregate E Count items = VInt KUint64 (Z.of_nat (List.length items)).
  Proof.
    intros items H. cbn. unfold wrapu64. rewrite Z.mod_small; [reflexivity|].
    split; [lia|]. exact H.
  Qed.

  Theorem C19_sum : forall zs, Forall is_int64 zs -> zs <> [] ->
    aggregate E Sum (map vint zs) = vint (wrap64 (fold_right Z.add 0%Z zs)).
  Proof.
    intros zs HZ H. cbn [aggregate]. rewrite ints_vint by exact HZ. destruct (exists_last H) as (zs' & z & ->).
    rewrite map_app. cbn [map]. rewrite last_last. reflexivity.
  Qed.

  Lemma lt_vint : forall x y, is_int64 x -> is_int64 y ->
    lt_disp (p_lt (env_protos E)) (vint x) (vint y) = (x <? y)%Z.
  Proof.
    intros x y HX HY. unfold lt_disp, vint, lt_switch_a, to_int64, int_lt, to_int640. cbn [is_bool is_intcase orb to_int64].
    now rewrite !wrap64_id.
  Qed.

  Theorem C19_min : forall z zs, Forall is_int64 (z :: zs) ->
    aggregate E Min (map vint (z :: zs)) = vint (fold_left Z.min zs z).
  Proof.
    intros z zs H. inversion H as [|? ? HZ HS]; subst. cbn [map aggregate]. unfold least.
    clear H. revert z HZ. induction HS as [|y zs HY _ IH]; intros z HZ; [reflexivity|].
    cbn [map fold_left]. rewrite lt_vint by assumption.
    destruct (Z.ltb_spec y z).
    - rewrite IH by assumption. do 2 f_equal. lia.
    - rewrite IH by assumption. do 2 f_equal. lia.
  Qed.

  Theorem C19_max : forall z zs, Forall is_int64 (z :: zs) ->
    aggregate E Max (map vint (z :: zs)) = vint (fold_left Z.max zs z).
  Proof.
    intros z zs H. inversion H as [|? ? HZ HS]; subst. cbn [map aggregate]. unfold greatest.
    clear H. revert z HZ. induction HS as [|y zs HY _ IH]; intros z HZ; [reflexivity|].
    cbn [map fold_left]. rewrite lt_vint by assumption.
    destruct (Z.ltb_spec y z).
    - rewrite IH by assumption. do 2 f_equal. lia.
    - rewrite IH by assumption. do 2 f_equal. lia.
  Qed.

  Theorem C19_enumerate : forall items, aggregate E Enumerate items = VArr items.
  Proof. reflexivity. Qed.

  (** Without GROUP BY: the k-th row carries the aggregates of the first k
      accepted rows.  [mem0] is what other queries of the session keep in the
      same context; the calls of this query have not been made before. *)
  Theorem C19_running_aggregates_partial :
    forall sc fr star cols from where_ s s1 rows out mem0,
    frames sc fr -> room sc ->
    aggregate_query E owner star cols rows -> label_where owner where_ ->
    from_yields E sc from s s1 (map VDict rows) -> calls_ok E owner s1 -> ids_ok s ->
    ctx_holds s1 (agg_ctx sc s1) mem0 -> (forall node, In node (agg_nodes cols) -> mem0 node = None) ->
    Forall row_ok rows ->
    running_select E funs fr star cols where_ [] rows = Some out ->
    exists s2,
      query_yields E sc (Select star cols from where_ None None None) s s2 (map VDict out) /\
      trace s2 = trace s1.
  Proof.
    intros sc fr star cols from where_ s s1 rows out mem0 FR RM [AL AS AN AD AR AF] LW HF CO ID HC HN RO HO.
    assert (SC : scope_ok E owner no_world sc fr).
    { apply frames_scope; [exact FR|]. unfold room in RM. lia. }
    assert (ID1 : ids_ok s1).
    { eapply evaluates_ids; [|exact HF|exact ID]. intros m.
      apply (pa_plugin_eval _ keeps_ids_closed _ _ _ _ _ (evaluation_keeps_ids E m)).
      intros a b c s0 H. destruct (range_rows m a b c); exact H. }
    destruct (running_rows_ok E funs owner FOK cols AS AN AD AL AR fr star where_ LW mem0
                no_world sc SC RM rows [] out RO AF HO
                no_world s1 (wle_refl _) (calls_stok _ _ _ CO) ID1)
      as (W2 & s2 & outs & _ & _ & BZ & CC & EV).
    { eapply ctx_ext; [|exact HC]. intros node. unfold mem_of.
      destruct (find_agg node cols) as [[[k a] e]|] eqn:EF; [|reflexivity].
      rewrite HN; [destruct a; reflexivity|]. destruct (find_agg_in _ _ _ _ _ EF) as (b & HI & HA).
      unfold agg_nodes. apply in_flat_map. exists (k, b). split; [exact HI|]. cbn [snd]. unfold nodes.
      apply (in_map (fun x => fst (fst x))) in HA. exact HA. }
    exists s2. split; [|exact (bz_trace _ _ _ BZ)].
    apply ev_select. cbn [select_step]. eapply ev_bind; [exact HF|].
    eapply ev_bind; [exact EV|]. rewrite CC. apply ev_ret.
  Qed.
End C19.

(** ** C18: keys *)

From Coq Require DecimalString DecimalZ.

Section C18.
  Variable E : env.
  Variable funs : string -> option (dict -> option val).

  Lemma keyed_in : forall fr star cols where_ g rows l k row,
    keyed E funs fr star cols where_ g rows = Some l -> In (k, row) l ->
    exists v, den E funs (shown E funs fr star cols row :: row :: fr) g = Some v /\ k = printed E v.
  Proof.
    intros fr star cols where_ g rows. induction rows as [|r rows IH]; intros l k row H HI; cbn in H.
    - injection H as <-. contradiction.
    - apply obind_some in H as (keep & _ & H). destruct keep; [|eauto].
      apply obind_some in H as (v & Hv & H). apply omap_some in H as (l' & Hl & <-).
      destruct HI as [EQ|HI]; [|eauto]. injection EQ as <- <-. eauto.
  Qed.

  (** Two rows are in the same group iff their keys print the same. *)
  Theorem C18_same_group_iff_printed_same_partial :
    forall fr star cols where_ g rows l k1 r1 k2 r2 v1 v2,
    keyed E funs fr star cols where_ g rows = Some l ->
    In (k1, r1) l -> In (k2, r2) l ->
    den E funs (shown E funs fr star cols r1 :: r1 :: fr) g = Some v1 ->
    den E funs (shown E funs fr star cols r2 :: r2 :: fr) g = Some v2 ->
    (k1 = k2 <-> printed E v1 = printed E v2).
  Proof.
    intros fr star cols where_ g rows l k1 r1 k2 r2 v1 v2 HK H1 H2 D1 D2.
    destruct (keyed_in _ _ _ _ _ _ _ _ _ HK H1) as (w1 & E1 & ->).
    destruct (keyed_in _ _ _ _ _ _ _ _ _ HK H2) as (w2 & E2 & ->).
    rewrite D1 in E1. rewrite D2 in E2. injection E1 as <-. injection E2 as <-. reflexivity.
  Qed.

  (** Strings print as themselves, whatever the host prints for the rest. *)
  Theorem C18_string_keys : forall a b, printed E (VStr a) = printed E (VStr b) <-> a = b.
  Proof. intros a b. split; [exact (fun H => H)|congruence]. Qed.

  (** fmt.Sprintf("%v") of an integer is its decimal notation. *)
  Definition decimal (z : Z) : string := DecimalString.NilZero.string_of_int (Z.to_int z).
  Definition prints_integers : Prop := forall k z, env_sprint E (VInt k z) = decimal z.

  Lemma decimal_inj : forall a b, decimal a = decimal b -> a = b.
  Proof.
    intros a b H. unfold decimal in H.
    assert (NN : forall z, Z.to_int z <> Decimal.Pos Decimal.Nil /\ Z.to_int z <> Decimal.Neg Decimal.Nil).
    { intros [|p|p]; split; try discriminate; cbn; intros EQ; injection EQ as EQ;
        exact (DecimalPos.Unsigned.to_uint_nonnil p EQ). }
    pose proof (DecimalString.NilZero.isi _ (proj1 (NN a)) (proj2 (NN a))) as HA.
    pose proof (DecimalString.NilZero.isi _ (proj1 (NN b)) (proj2 (NN b))) as HB.
    rewrite H, HB in HA. injection HA as HA.
    rewrite <- (DecimalZ.of_to a), <- (DecimalZ.of_to b). congruence.
  Qed.

  Theorem C18_integer_keys : prints_integers -> forall k1 a k2 b,
    printed E (VInt k1 a) = printed E (VInt k2 b) <-> a = b.
  Proof.
    intros HP k1 a k2 b. unfold printed. cbn [expand]. rewrite !HP. split; [apply decimal_inj|congruence].
  Qed.

  (** But an integer and a string can print the same, and so can two lists
      ([GROUP BY a, b]): fmt.Sprintf("%v") separates the elements by blanks. *)
  Theorem C18_integer_and_string_refuted : prints_integers -> forall z,
    printed E (vint z) = printed E (VStr (decimal z)).
  Proof. intros HP z. unfold printed. cbn [expand vint]. apply HP. Qed.

  Definition prints_lists : Prop := forall l : list string,
    env_sprint E (VArr (map VStr l)) = ("[" ++ String.concat " " l ++ "]")%string.

  Theorem C18_several_columns_refuted : prints_lists ->
    printed E (VArr [VStr "x y"; VStr "z"]) = printed E (VArr [VStr "x"; VStr "y z"]).
  Proof.
    intros HP. unfold printed. cbn [expand].
    change [VStr "x y"; VStr "z"] with (map VStr ["x y"; "z"]%string).
    change [VStr "x"; VStr "y z"] with (map VStr ["x"; "y z"]%string). now rewrite !HP.
  Qed.
End C18.

(** ** Concrete cases *)

Import Demo.
Open Scope string_scope.

Definition group_owner (n : nat) : string :=
  match n with
  | 1 | 6 | 8 | 20 | 22 => "count" | 21 => "dict" | 2 | 5 => "sum" | 3 | 9 => "max" | 7 => "enumerate" | _ => "twice"
  end.

(** SELECT k, count() AS c, sum(item=twice(x=n)) AS s, n, sum(item=n) / count() + 1 AS a,
    enumerate(items=n)[0] AS f, [count(), max(item=n)] AS l, count() > 2 || n AS o,
    dict(last=n, all=[count(), n]) AS d
    FROM t WHERE n GROUP BY k *)
Definition group_cols : list (string * colbody) :=
  [("k", CExpr (sym 10 "k")); ("c", CExpr (call 1 "count" []));
   ("s", CExpr (call 2 "sum" [("item", AExpr (call 4 "twice" [("x", AExpr (sym 11 "n"))]))]));
   ("n", CExpr (sym 12 "n"));
   ("a", CExpr (EAdd (EMul (call 5 "sum" [("item", AExpr (sym 15 "n"))]) [("/", call 6 "count" [])])
                  [("+", lit 1)]));
   ("f", CExpr (EMember (call 7 "enumerate" [("items", AExpr (sym 16 "n"))]) [MIndex (lit 0)]));
   ("l", CExpr (EComma (call 8 "count" []) [Some (call 9 "max" [("item", AExpr (sym 17 "n"))])]));
   ("o", CExpr (EOr (ECmp (call 20 "count" []) OpGt (lit 2)) [("||", sym 18 "n")]));
   ("d", CExpr (call 21 "dict" [("last", AExpr (sym 19 "n")); ("all", AArray (EComma (call 22 "count" []) [Some (sym 23 "n")]))]))].
Definition group_rows_demo : list (list (string * val)) :=
  [row [("k", VStr "b"); ("n", i 3)];
   row [("k", VStr "a"); ("n", i 1)];
   row [("k", VStr "b"); ("n", i 0)];
   row [("k", VStr "a"); ("n", i 2)];
   row [("k", VStr "b"); ("n", i 5)]].
Definition group_frames : list (list (string * val)) :=
  [[("t", VArr (map VDict group_rows_demo))]; [("NULL", VNull)]].
Definition group_scope : scope :=
  {| sc_vars := map VDict group_frames; sc_depth := 0; sc_cell := 0 |}.
Definition cnt (z : Z) : val := VInt KUint64 z.

Lemma demo_aggregate_query : forall rows, aggregate_query demo_env group_owner false group_cols rows.
Proof.
  intros rows. constructor.
  - repeat constructor.
  - repeat constructor.
  - repeat constructor; cbn; intuition discriminate.
  - repeat constructor; cbn; intuition discriminate.
  - intros name b HI node a e HA. cbn in HI.
    repeat (destruct HI as [HI|HI]; [injection HI as <- <-; cbn in HA;
      repeat (destruct HA as [HA|HA]; [injection HA as <- <- <-; reflexivity|]); contradiction|]).
    contradiction.
  - discriminate.
Qed.

Lemma fresh_ids : ids_ok st0.
Proof. constructor; discriminate. Qed.

(** 8 / 2 + 1 is the float 5, 3 / 2 + 1 is 2.5. *)
Example C17_demo :
  exists s2, query_yields demo_env group_scope
    (Select false group_cols (from_var "t") (Some (sym 13 "n")) (Some (sym 14 "k")) None None) st0 s2
    (map VDict [[("k", VStr "b"); ("c", cnt 2); ("s", i 16); ("n", i 5); ("a", VF64 (S754_finite false 5629499534213120 (-50))); ("f", i 3); ("l", VArr [cnt 2; i 5]); ("o", i 5); ("d", VDict [("last", i 5); ("all", VArr [cnt 2; i 5])])];
                [("k", VStr "a"); ("c", cnt 2); ("s", i 6); ("n", i 2); ("a", VF64 (S754_finite false 5629499534213120 (-51))); ("f", i 1); ("l", VArr [cnt 2; i 2]); ("o", i 2); ("d", VDict [("last", i 2); ("all", VArr [cnt 2; i 2])])]]) /\ trace s2 = [].
Proof.
  destruct (C17_group_by_partial demo_env demo_funs group_owner demo_funs_ok group_scope group_frames
    false group_cols (from_var "t") (Some (sym 13 "n")) (sym 14 "k") st0
    (fst (plugin_eval demo_env (ev demo_env 20) 20 group_scope (from_var "t") st0))
    group_rows_demo
    [("b", row [("k", VStr "b"); ("n", i 3)]); ("a", row [("k", VStr "a"); ("n", i 1)]);
     ("a", row [("k", VStr "a"); ("n", i 2)]); ("b", row [("k", VStr "b"); ("n", i 5)])])
    as (out & s2 & HO & HQ & HT).
  - reflexivity.
  - cbn. lia.
  - apply demo_aggregate_query.
  - exact I.
  - exact I.
  - apply (from_enough demo_env 20). vm_compute. reflexivity.
  - intros node f id H. vm_compute in H. discriminate.
  - apply fresh_ids.
  - repeat constructor; cbn; intuition discriminate.
  - vm_compute. reflexivity.
  - repeat split; eexists; vm_compute; reflexivity.
  - vm_compute in HO. injection HO as <-. exists s2. split; [exact HQ|exact HT].
Qed.

(** The same query without GROUP BY counts on from row to row. *)
Example C19_running_demo :
  exists s2, query_yields demo_env group_scope
    (Select false [("c", CExpr (call 1 "count" [])); ("m", CExpr (call 3 "max" [("item", AExpr (sym 11 "n"))]))]
       (from_var "t") (Some (sym 13 "n")) None None None) st0 s2
    (map VDict [[("c", cnt 1); ("m", i 3)]; [("c", cnt 2); ("m", i 3)];
                [("c", cnt 3); ("m", i 3)]; [("c", cnt 4); ("m", i 5)]]) /\ trace s2 = [].
Proof.
  apply (C19_running_aggregates_partial demo_env demo_funs group_owner demo_funs_ok group_scope group_frames
    false _ (from_var "t") (Some (sym 13 "n")) st0
    (fst (plugin_eval demo_env (ev demo_env 20) 20 group_scope (from_var "t") st0))
    group_rows_demo _ (fun _ => None)).
  - reflexivity.
  - unfold room. cbn. lia.
  - constructor.
    + repeat constructor.
    + repeat constructor.
    + repeat constructor; cbn; intuition discriminate.
    + repeat constructor; cbn; intuition discriminate.
    + intros name b HI node a e HA. cbn in HI.
      repeat (destruct HI as [HI|HI]; [injection HI as <- <-; cbn in HA;
        repeat (destruct HA as [HA|HA]; [injection HA as <- <- <-; reflexivity|]); contradiction|]).
      contradiction.
    + discriminate.
  - exact I.
  - apply (from_enough demo_env 20). vm_compute. reflexivity.
  - intros node f id H. vm_compute in H. discriminate.
  - apply fresh_ids.
  - exists []. split; [reflexivity|]. split; [reflexivity|discriminate].
  - reflexivity.
  - repeat constructor; cbn; intuition discriminate.
  - vm_compute. reflexivity.
Qed.

(** ** Where the claims fail *)

(** SELECT count() AS c, count() AS c FROM t GROUP BY k: the columns of the
    result are read by name, once for every mention, so each row of the group
    is counted twice (vfilter.go:1088-1112 Transform keeps both names,
    lazy.go MaterializedLazyRow runs the getter of each). *)
Theorem C17_two_columns_of_one_name_refuted :
  exists s2, query_yields demo_env demo_scope
    (Select false [("c", CExpr (call 1 "count" [])); ("c", CExpr (call 2 "count" []))]
       (from_var "t") None (Some (sym 3 "k")) None None) st0 s2
    [VDict [("c", cnt 4)]; VDict [("c", cnt 4)]].
Proof. eexists. apply (select_enough demo_env 20). vm_compute. reflexivity. Qed.

(** SELECT *, count() AS n FROM t GROUP BY k, where the rows have a column n. *)
Theorem C17_overridden_star_column_refuted :
  exists s2, query_yields demo_env demo_scope
    (Select true [("n", CExpr (call 1 "count" []))] (from_var "t") None (Some (sym 3 "k")) None None) st0 s2
    [VDict [("k", VStr "b"); ("n", cnt 4)]; VDict [("k", VStr "a"); ("n", cnt 4)]].
Proof. eexists. apply (select_enough demo_env 20). vm_compute. reflexivity. Qed.

(** SELECT n && count() AS c FROM t GROUP BY k: the rows whose n is 0 are not
    counted, because the right side of the operator is not evaluated for them;
    the group of b has three rows. *)
Theorem C17_aggregate_behind_and_refuted :
  exists s2, query_yields demo_env group_scope
    (Select false [("c", CExpr (EAnd (sym 30 "n") [("&&", call 1 "count" [])]))] (from_var "t") None
       (Some (sym 3 "k")) None None) st0 s2
    [VDict [("c", cnt 2)]; VDict [("c", cnt 2)]].
Proof. eexists. apply (select_enough demo_env 20). vm_compute. reflexivity. Qed.

(** SELECT if(condition=n > 1, then=count()) AS c FROM t GROUP BY k: likewise only
    two of the three rows of b and one of the two of a. *)
Theorem C17_aggregate_in_if_refuted :
  exists s2, query_yields demo_env group_scope
    (Select false [("c", CExpr (call 31 "if" [("condition", AExpr (ECmp (sym 30 "n") OpGt (lit 1)));
                                              ("then", AExpr (call 1 "count" []))]))] (from_var "t") None
       (Some (sym 3 "k")) None None) st0 s2
    [VDict [("c", cnt 2)]; VDict [("c", cnt 1)]].
Proof. eexists. apply (select_enough demo_env 20). vm_compute. reflexivity. Qed.

(** SELECT k, count() AS c FROM t WHERE c >= 0 GROUP BY k: WHERE reads the
    column before the row has a group, so that it counts all rows. *)
Theorem C19_aggregate_in_where_refuted :
  exists s2, query_yields demo_env demo_scope
    (Select false [("k", CExpr (sym 4 "k")); ("c", CExpr (call 1 "count" []))] (from_var "t")
       (Some (ECmp (sym 5 "c") OpGe (lit 0))) (Some (sym 3 "k")) None None) st0 s2
    [VDict [("k", VStr "b"); ("c", cnt 3)]; VDict [("k", VStr "a"); ("c", cnt 4)]].
Proof. eexists. apply (select_enough demo_env 20). vm_compute. reflexivity. Qed.

(** SELECT k, n >= 2 && count() AS c FROM t GROUP BY k: behind AND and OR an
    aggregate is evaluated only for the rows that need it, so that group a of
    two rows counts one (vfilter.go:1451-1476). *)
Theorem C19_aggregate_behind_and_refuted :
  exists s2, query_yields demo_env demo_scope
    (Select false [("k", CExpr (sym 4 "k"));
                   ("c", CExpr (EAnd (ECmp (sym 5 "n") OpGe (lit 2)) [("&&", call 1 "count" [])]))]
       (from_var "t") None (Some (sym 3 "k")) None None) st0 s2
    [VDict [("k", VStr "b"); ("c", VBool false)]; VDict [("k", VStr "a"); ("c", cnt 1)]].
Proof. eexists. apply (select_enough demo_env 20). vm_compute. reflexivity. Qed.

(** LET q = SELECT count() AS c FROM t  SELECT c FROM q  SELECT c FROM q:
    the second run of the stored query counts on from the first. *)
Definition count_again : list stmt :=
  [SLet "q" [] true (LSelect (Select false [("c", CExpr (call 1 "count" []))] (from_var "t") None None None None));
   SQuery "" (Select true [] (from_var "q") None None None None);
   SQuery "" (Select true [] (from_var "q") None None None None)].

Theorem C19_second_run_refuted :
  exists s2 sc2 out1 out2, evaluates (fun n => run_stmts (ev demo_env n) demo_scope count_again) st0 s2
    (sc2, [out1; out2]) /\
    out1 = [VDict [("c", cnt 1)]; VDict [("c", cnt 2)]; VDict [("c", cnt 3)]; VDict [("c", cnt 4)]] /\
    out2 = [VDict [("c", cnt 5)]; VDict [("c", cnt 6)]; VDict [("c", cnt 7)]; VDict [("c", cnt 8)]].
Proof.
  do 4 eexists. split; [apply (stmts_enough demo_env 20); vm_compute; reflexivity|]. split; reflexivity.
Qed.

(** NULL among the items: the result depends on the order. *)
Theorem C19_max_null_refuted : forall E,
  aggregate E Max [vint 3; VNull] = VNull /\ aggregate E Max [VNull; vint 3] = vint 3 /\
  aggregate E Min [VNull; vint 3] = VNull /\ aggregate E Min [vint 3; VNull] = vint 3.
Proof. intros E. repeat split. Qed.

(** A sum is NULL whenever the last item is not a number. *)
Theorem C19_sum_null_refuted : forall E, aggregate E Sum [vint 3; VStr "x"] = VNull /\
  aggregate E Sum [VStr "x"; vint 3] = vint 3.
Proof. intros E. split; reflexivity. Qed.

(** fmt.Sprintf("%v"), for lists of strings and integers. *)
Definition fmt_v (v : val) : string :=
  let one v := match v with VStr s => s | VInt _ z => decimal z | _ => "?" end in
  match v with
  | VArr l => "[" ++ String.concat " " (map one l) ++ "]"
  | _ => one v
  end.
Definition fmt_env : env :=
  {| env_protos := env_protos demo_env; env_iter := []; env_funs := env_funs demo_env;
     env_plugs := env_plugs demo_env; env_match := env_match demo_env; env_sprint := fmt_v;
     env_sort := env_sort demo_env; env_go := demo_go |}.

Lemma fmt_prints : prints_integers fmt_env /\ prints_lists fmt_env.
Proof.
  split; [intros k z; reflexivity|]. intros l. cbn. do 3 f_equal.
  rewrite map_map. cbn. apply map_id.
Qed.

(** SELECT count() AS c FROM t GROUP BY a, b *)
Definition two_keys_scope : scope :=
  {| sc_vars := [VDict [("t", VArr [VDict [("a", VStr "x y"); ("b", VStr "z")];
                                    VDict [("a", VStr "x"); ("b", VStr "y z")]]);
                        ("u", VArr [VDict [("a", VStr "1")]; VDict [("a", i 1)]])]];
     sc_depth := 0; sc_cell := 0 |}.

Theorem C18_group_by_two_columns_refuted :
  exists s2, query_yields fmt_env two_keys_scope
    (Select false [("c", CExpr (call 1 "count" []))] (from_var "t") None
       (Some (EComma (sym 2 "a") [Some (sym 3 "b")])) None None) st0 s2 [VDict [("c", cnt 2)]].
Proof. eexists. apply (select_enough fmt_env 20). vm_compute. reflexivity. Qed.

Theorem C18_group_by_mixed_refuted :
  exists s2, query_yields fmt_env two_keys_scope
    (Select false [("c", CExpr (call 1 "count" []))] (from_var "u") None (Some (sym 2 "a")) None None)
    st0 s2 [VDict [("c", cnt 2)]].
Proof. eexists. apply (select_enough fmt_env 20). vm_compute. reflexivity. Qed.

Print Assumptions C17_group_by_partial.
Print Assumptions C17_one_row_per_key.
Print Assumptions C17_first_seen_order.
Print Assumptions C17_two_columns_of_one_name_refuted.
Print Assumptions C17_overridden_star_column_refuted.
Print Assumptions C17_aggregate_behind_and_refuted.
Print Assumptions C17_aggregate_in_if_refuted.
Print Assumptions C18_same_group_iff_printed_same_partial.
Print Assumptions C18_string_keys.
Print Assumptions C18_integer_keys.
Print Assumptions C18_several_columns_refuted.
Print Assumptions C18_group_by_two_columns_refuted.
Print Assumptions C18_group_by_mixed_refuted.
Print Assumptions C17_result_columns.
Print Assumptions C17_plain_column.
Print Assumptions C19_ratio_of_aggregates.
Print Assumptions C19_aggregates_in_a_list_argument.
Print Assumptions C19_aggregate_over_the_group.
Print Assumptions C19_count.
Print Assumptions C19_sum.
Print Assumptions C19_min.
Print Assumptions C19_max.
Print Assumptions C19_running_aggregates_partial.
Print Assumptions C19_aggregate_in_where_refuted.
Print Assumptions C19_second_run_refuted.
Print Assumptions C19_aggregate_behind_and_refuted.
