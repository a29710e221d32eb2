(** C101: choosing among the groups of a query, what other languages call
    HAVING: LET x <= SELECT … GROUP BY … and then SELECT * FROM x WHERE w. *)

From Coq Require Import ZArith List String Bool Lia PeanoNat.
From Verif Require Import Base Value Protocols Monad Range Flatten Syntax Eval Runs PureSpec PureEval PureSelect
  SelectProps Laws Demo Para GroupSpec GroupEval GroupProps ScriptProps ScriptLawsProps ScriptGroupProps ScriptGroupLawsProps.
Import ListNotations.
Open Scope nat_scope.
Open Scope list_scope.

(** ** Specification *)

Definition having (x tag : string) (params : list (string * option argval)) (q : select) (w : expr) : list stmt :=
  [SLet x params false (LSelect q); SQuery tag (Select true [] (Plugin [x] false []) (Some w) None None None)].

(** The groups first, and their order and number later; and all at once. *)
Definition later (x tag : string) (params : list (string * option argval)) (star : bool) (cols : list (string * colbody))
  (from : plugin) (w : option expr) (g : expr) (orderby : option (string * bool)) (limit : option Z) : list stmt :=
  [SLet x params false (LSelect (Select star cols from w (Some g) None None));
   SQuery tag (Select true [] (Plugin [x] false []) None None orderby limit)].
Definition at_once (tag : string) (star : bool) (cols : list (string * colbody))
  (from : plugin) (w : option expr) (g : expr) (orderby : option (string * bool)) (limit : option Z) : list stmt :=
  [SQuery tag (Select star cols from w (Some g) orderby limit)].

Section Having.
  Variables (E : env) (funs : string -> option (dict -> option val)) (owner : nat -> string).
  Hypothesis FOK : funs_ok E funs.
  Variable depth : nat.

  (** The condition sees the columns of the group, then the variables. *)
  Definition decides (fr : list dict) (x tag : string) (rows : list dict) (w : expr) (keep : dict -> bool) : Prop :=
    forall r, In r rows -> exists v,
      den E funs (r :: r :: [("$Query"%string, VStr tag)] :: [(x, VQuery (map VDict rows))] :: fr) w = Some v /\
      truthy E v = keep r.

  (** ** Proofs *)

  Lemma query_means_rows : forall fr q rows, query_means E funs owner depth fr q rows -> Forall row_ok rows.
  Proof.
    intros fr q rows H.
    destruct H as [q rows LQ HQ|star cols from where_ g orderby limit rows l groups sorted out AQ LW LG LF HS HK AD HG HO HL].
    - exact (query_rows_rows E funs depth fr q rows HQ).
    - assert (RO : Forall row_ok rows) by exact (source_rows _ _ _ (query_rows_rows E funs depth) _ _ _ HS).
      assert (GO : Forall row_ok groups) by (eapply group_rows_rows; eauto).
      assert (SO : Forall row_ok sorted).
      { destruct orderby as [[key desc]|]; cbn [in_order] in HO; [|now injection HO as <-].
        now apply dicts_inv in HO as [_ HO]. }
      destruct limit as [n|]; cbn [first_of] in HL; [|now injection HL as <-].
      destruct (Z.leb 1 n); [|discriminate]. injection HL as <-.
      rewrite <- (firstn_skipn (Z.to_nat n) sorted) in SO. now apply Forall_app in SO.
  Qed.

  Lemma chosen : forall subq fr w keep rows, no_nils rows ->
    (forall r, In r rows -> exists v, den E funs (r :: r :: fr) w = Some v /\ truthy E v = keep r) ->
    select_rows E funs subq fr true [] (Some w) rows = Some (filter keep rows).
  Proof.
    intros subq fr w keep rows NN. induction NN as [|row rows HR _ IH]; intros D; [reflexivity|].
    cbn [select_rows]. rewrite project_star, HR. cbn [obind holds].
    destruct (D row (or_introl eq_refl)) as (v & -> & T). cbn [option_map obind].
    rewrite IH by (intros r HI; apply D; now right). cbn [option_map filter]. now rewrite T.
  Qed.

  (** The second query yields exactly the rows of the first for which the
      condition holds, in their order. *)
  Theorem C101_having : forall x tag params q w keep sc fr rows s,
    x <> "$Query"%string ->
    frames sc fr -> room_for (S depth) sc -> calls_ok E owner s -> ids_ok s -> 1 <= depth ->
    query_means E funs owner depth fr q rows -> no_nils rows ->
    labelled owner w -> decides fr x tag rows w keep ->
    exists sc' s2,
      evaluates (fun n => run_stmts (ev E n) sc (having x tag params q w)) s s2 (sc', [map VDict (filter keep rows)]) /\
      trace s2 = trace s.
  Proof.
    intros x tag params q w keep sc fr rows s NX FR RM CO ID DP QM NN LW D.
    assert (RO : Forall row_ok rows) by exact (query_means_rows _ _ _ QM).
    assert (SD : script_does E funs owner depth fr (having x tag params q w) ([(x, VQuery (map VDict rows))] :: fr) [filter keep rows]).
    { eapply SD_assign; [exact QM|]. eapply SD_query; [|apply SD_end]. apply QM_plain.
      - destruct depth; [lia|]. cbn. split; [constructor|]. split; [exact LW|]. constructor.
      - destruct depth as [|d]; [lia|]. cbn [query_rows source].
        assert (LK : lookup ([("$Query"%string, VStr tag)] :: [(x, VQuery (map VDict rows))] :: fr) x = VQuery (map VDict rows)).
        { cbn [lookup assoc].
          destruct (String.eqb x "$Query") eqn:EX; [apply String.eqb_eq in EX; contradiction|].
          now rewrite String.eqb_refl. }
        rewrite LK. cbn [table].
        rewrite rows_dicts by exact RO. cbn [obind].
        rewrite (chosen _ _ _ keep); [reflexivity|exact NN|exact D]. }
    destruct (C101_script_does E funs owner FOK depth _ sc fr _ _ s SD FR RM CO ID) as (sc' & s2 & EV & _ & T).
    exists sc', s2. split; [exact EV|exact T].
  Qed.

  (** ORDER BY and LIMIT give the same rows in the query that groups and in one
      over its result. *)
  Theorem C101_order_and_limit_later : forall x tag tag' params star cols from w g orderby limit sc fr fr1 outs s,
    x <> "$Query"%string ->
    frames sc fr -> room_for (S depth) sc -> calls_ok E owner s -> ids_ok s -> 1 <= depth ->
    ~ In "$Query"%string (any_query_names depth (Select star cols from w (Some g) None None)) ->
    (forall groups, query_means E funs owner depth fr (Select star cols from w (Some g) None None) groups -> no_nils groups) ->
    script_does E funs owner depth fr (at_once tag' star cols from w g orderby limit) fr1 outs ->
    both_do E sc s (later x tag params star cols from w g orderby limit) (at_once tag' star cols from w g orderby limit) outs.
  Proof.
    intros x tag tag' params star cols from w g orderby limit sc fr fr1 outs s NX FR RM CO ID DP NQ NN H.
    pose proof H as H0. split; [|destruct (C101_script_does E funs owner FOK depth _ sc fr _ _ s H0 FR RM CO ID) as (sc' & s2 & EV & _ & T); eauto].
    unfold at_once in H. inversion H as [| | |fr0 text q rows rest fr' outs0 QM R]; subst. inversion R; subst. clear R H H0.
    inversion QM as [q rows0 LQ HQ|star0 cols0 from0 where_ g0 orderby0 limit0 srows l groups sorted out AQ LW LG LF HS HK AD HG HO HL]; subst.
    { destruct depth; discriminate. }
    assert (QG : query_means E funs owner depth fr1 (Select star cols from w (Some g) None None) groups).
    { eapply (means_agree E funs owner depth); [|eapply QM_group with (orderby := None) (limit := None); eauto; reflexivity].
      now apply agree_without. }
    assert (RO : Forall row_ok groups) by exact (query_means_rows _ _ _ QG).
    specialize (NN _ QG).
    assert (SD : script_does E funs owner depth fr1 (later x tag params star cols from w g orderby limit)
                   ([(x, VQuery (map VDict groups))] :: fr1) [rows]).
    { eapply SD_assign; [exact QG|]. eapply SD_query; [|apply SD_end]. apply QM_plain.
      - destruct depth; [lia|]. cbn. split; [constructor|]. split; [exact I|]. constructor.
      - destruct depth as [|d]; [lia|]. cbn [query_rows source].
        assert (LK : lookup ([("$Query"%string, VStr tag)] :: [(x, VQuery (map VDict groups))] :: fr1) x = VQuery (map VDict groups)).
        { cbn [lookup assoc].
          destruct (String.eqb x "$Query") eqn:EX; [apply String.eqb_eq in EX; contradiction|].
          now rewrite String.eqb_refl. }
        rewrite LK. cbn [table]. rewrite rows_dicts by exact RO. cbn [obind].
        rewrite star_rows by exact NN. cbn [obind]. unfold in_order in HO. rewrite HO. cbn [obind]. exact HL. }
    destruct (C101_script_does E funs owner FOK depth _ sc fr1 _ _ s SD FR RM CO ID) as (sc' & s2 & EV & _ & T). eauto.
  Qed.
End Having.

(** ** A concrete case *)

Import Demo.
Open Scope string_scope.

(** LET sums <= SELECT k, count() AS c, sum(item=n) AS s FROM t GROUP BY k ORDER BY s
    SELECT * FROM sums WHERE s > 3 *)
Definition sums_query : select := Select false sums_cols (from_var "t") None (Some (sym 13 "k")) (Some ("s", false)) None.

Example C101_having_demo : exists rows sc' s2,
  query_means demo_env demo_funs group_owner 3 group_frames sums_query rows /\ List.length rows = 2 /\
  evaluates (fun n => run_stmts (ev demo_env n) group_scope
                        (having "sums" "q" [] sums_query (ECmp (sym 16 "s") Chains.OpGt (lit 3)))) st0 s2
    (sc', [map VDict (filter (fun r => match assoc "k" r with Some (VStr k) => String.eqb k "b" | _ => false end) rows)]).
Proof.
  assert (QM : exists rows, query_means demo_env demo_funs group_owner 3 group_frames sums_query rows /\
     List.length rows = 2 /\ no_nils rows /\
     decides demo_env demo_funs group_frames "sums" "q" rows (ECmp (sym 16 "s") Chains.OpGt (lit 3))
       (fun r => match assoc "k" r with Some (VStr k) => String.eqb k "b" | _ => false end)).
  { eexists. split; [unfold sums_query; grouped|]. split; [reflexivity|]. split; [repeat constructor|].
    intros r HI. cbn in HI. repeat (destruct HI as [<-|HI]; [eexists; split; vm_compute; reflexivity|]). contradiction. }
  destruct QM as (rows & QM & LEN & NN & D).
  assert (LW : labelled group_owner (ECmp (sym 16 "s") Chains.OpGt (lit 3))) by (repeat (constructor; cbn)).
  destruct (C101_having demo_env demo_funs group_owner demo_funs_ok 3 "sums" "q" [] sums_query _ _ group_scope group_frames
    rows st0 ltac:(discriminate) eq_refl ltac:(unfold room_for; cbn; lia)
    ltac:(intros node f id H; vm_compute in H; discriminate) fresh_ids ltac:(lia) QM NN LW D)
    as (sc' & s2 & EV & _).
  exists rows, sc', s2. split; [exact QM|]. split; [exact LEN|exact EV].
Qed.

(** The same groups, the largest sum only. *)
Example C101_later_demo :
  both_do demo_env group_scope st0
    (later "sums" "q" [] false sums_cols (from_var "t") None (sym 13 "k") (Some ("s", true)) (Some 1%Z))
    (at_once "q" false sums_cols (from_var "t") None (sym 13 "k") (Some ("s", true)) (Some 1%Z))
    [[row [("k", VStr "b"); ("c", cnt 3); ("s", i 8)]]].
Proof.
  assert (SD : exists fr', script_does demo_env demo_funs group_owner 3 group_frames
    (at_once "q" false sums_cols (from_var "t") None (sym 13 "k") (Some ("s", true)) (Some 1%Z)) fr'
    [[row [("k", VStr "b"); ("c", cnt 3); ("s", i 8)]]]).
  { eexists. unfold at_once. eapply SD_query; [grouped|apply SD_end]. }
  destruct SD as (fr' & SD).
  apply (C101_order_and_limit_later demo_env demo_funs group_owner demo_funs_ok 3) with (fr := group_frames) (fr1 := fr'); auto.
  - discriminate.
  - reflexivity.
  - unfold room_for. cbn. lia.
  - apply demo_calls.
  - apply fresh_ids.
  - cbn. intuition discriminate.
  - intros groups QM.
    assert (G : exists gs, query_means demo_env demo_funs group_owner 3 group_frames
                  (Select false sums_cols (from_var "t") None (Some (sym 13 "k")) None None) gs /\ no_nils gs).
    { eexists. split; [grouped|repeat constructor]. }
    destruct G as (gs & G & NN). now rewrite (query_means_unique _ _ _ _ _ _ _ _ QM G).
Qed.

Print Assumptions C101_having.
Print Assumptions C101_order_and_limit_later.
