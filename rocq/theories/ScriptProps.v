(** C99: scripts of assignments and queries. *)

From Coq Require Import ZArith List String Bool Lia PeanoNat.
From Verif Require Import Response ResponseProps Pipeline PipelineProofs PipelineProps.
From Verif Require Import Base Value Protocols Monad Flatten Syntax Eval Runs PureSpec PureEval PureSelect
  SelectProps SchedProps EndProps Demo Para GroupSpec GroupEval GroupProps Parser Elab.
Import ListNotations.
Open Scope list_scope.

(** ** Specification *)

Section Spec.
  Variables (E : env) (funs : string -> option (dict -> option val)) (depth : nat).

  (** What a script of [LET x <= expression], [LET x <= SELECT …] and queries
      means, statement by statement: the variables it leaves (the newest
      first) and the rows of each query. *)
  Fixpoint script_means (fr : list dict) (l : list stmt) : option (list dict * list (list dict)) :=
    match l with
    | [] => Some (fr, [])
    | SLet x _ false (LExpr e) :: rest =>
        obind (den E funs fr e) (fun v => script_means ([(x, v)] :: fr) rest)
    | SLet x _ false (LSelect q) :: rest =>
        obind (query_rows E funs depth fr q) (fun rows =>
        script_means ([(x, VQuery (map VDict rows))] :: fr) rest)
    | SQuery text q :: rest =>
        obind (query_rows E funs depth ([("$Query"%string, VStr text)] :: fr) q) (fun rows =>
        option_map (fun r => (fst r, rows :: snd r)) (script_means fr rest))
    | _ => None
    end.
End Spec.

(** The calls of a script. *)
Definition label_stmt (owner : nat -> string) (depth : nat) (q : stmt) : Prop :=
  match q with
  | SLet _ _ _ (LExpr e) => labelled owner e
  | SLet _ _ _ (LSelect q) | SQuery _ q => label_query owner depth q
  end.

Section C99.
  Variables (E : env) (funs : string -> option (dict -> option val)) (owner : nat -> string).
  Hypothesis FOK : funs_ok E funs.
  Variable depth : nat.

  Lemma frames_append : forall sc fr d, frames sc fr -> frames (append_vars (VDict d) sc) (d :: fr).
  Proof. intros sc fr d H. unfold frames in *. cbn. now rewrite H. Qed.

  Lemma script_ok : forall l sc fr fr' outs W,
    frames sc fr -> room_for depth sc -> Forall (label_stmt owner depth) l ->
    script_means E funs depth fr l = Some (fr', outs) ->
    exists sc', frames sc' fr' /\ sc_depth sc' = sc_depth sc /\ sc_cell sc' = sc_cell sc /\
      promises E owner W (fun n => run_stmts (ev E n) sc l) (sc', map (map VDict) outs).
  Proof.
    induction l as [|q l IH]; intros sc fr fr' outs W FR RM LL H.
    - injection H as <- <-. exists sc. repeat split; auto. apply pr_ret.
    - inversion LL as [|? ? LQ LL']; subst. unfold room_for in RM.
      assert (SC : forall W sc' fr', frames sc' fr' -> sc_depth sc' <= S (sc_depth sc) -> scope_ok E owner W sc' fr').
      { intros W' sc' fr0 F D. apply frames_scope; [exact F|lia]. }
      destruct q as [x params [|] [e|q]|text q]; cbn [script_means label_stmt] in H, LQ; try discriminate.
      + destruct (den E funs fr e) as [v|] eqn:DV; [|discriminate]. cbn [obind] in H.
        destruct (IH _ _ _ _ W (frames_append sc fr [(x, v)] FR) RM LL' H) as (sc' & F' & D' & C' & P).
        exists sc'. split; [exact F'|]. split; [exact D'|]. split; [exact C'|].
        cbn [run_stmts stmt_eval].
        eapply (pr_bind E owner _ _ W _ _ (append_vars (VDict [(x, v)]) sc, [])).
        * eapply (pr_bind E owner _ _ W _ _ v); [|apply pr_ret].
          eapply (pr_bind E owner _ _ W _ _ v).
          { apply (pure_eval E funs owner FOK e W sc fr v); [|exact DV|exact LQ]. apply SC; [exact FR|lia]. }
          eapply (pr_bind E owner _ _ W _ _ None); [apply pr_obj_of; eapply den_plain; eauto|].
          rewrite is_query_none. destruct v; try apply pr_ret. unfold materialize, materialize_rows.
          eapply pr_bind; [apply pr_query_plain|apply pr_ret].
        * cbn beta iota. eapply (pr_bind E owner _ _ W _ _ (sc', map (map VDict) outs)); [exact P|apply pr_ret].
      + destruct (query_rows E funs depth fr q) as [rows|] eqn:DV; [|discriminate]. cbn [obind] in H.
        destruct (IH _ _ _ _ W (frames_append sc fr [(x, VQuery (map VDict rows))] FR) RM LL' H) as (sc' & F' & D' & C' & P).
        exists sc'. split; [exact F'|]. split; [exact D'|]. split; [exact C'|].
        cbn [run_stmts stmt_eval].
        eapply (pr_bind E owner _ _ W _ _ (append_vars (VDict [(x, VQuery (map VDict rows))]) sc, [])).
        * eapply (pr_bind E owner _ _ W _ _ (VQuery (map VDict rows))); [|apply pr_ret].
          apply pr_alloc. intros W' n HW Hn. unfold materialize, materialize_rows.
          eapply pr_bind; [|apply pr_ret]. eapply pr_query_obj; [exact Hn|].
          eapply (query_rows_ok E funs owner FOK depth); [exact DV|exact LQ| |cbn; lia].
          apply SC; [exact FR|cbn; lia].
        * cbn beta iota. eapply (pr_bind E owner _ _ W _ _ (sc', map (map VDict) outs)); [exact P|apply pr_ret].
      + destruct (query_rows E funs depth _ q) as [rows|] eqn:DV; [|discriminate]. cbn [obind] in H.
        destruct (script_means E funs depth fr l) as [[fr1 outs1]|] eqn:HS; [|discriminate].
        cbn in H. injection H as <- <-.
        destruct (IH _ _ _ _ W FR RM LL' HS) as (sc' & F' & D' & C' & P).
        exists sc'. split; [exact F'|]. split; [exact D'|]. split; [exact C'|].
        cbn [run_stmts stmt_eval].
        eapply (pr_bind E owner _ _ W _ _ (sc, map VDict rows)).
        * eapply (pr_bind E owner _ _ W _ _ (map VDict rows)); [|apply pr_ret].
          eapply (query_rows_ok E funs owner FOK depth); [exact DV|exact LQ| |cbn; lia].
          apply SC; [|cbn; lia]. apply frames_append. exact FR.
        * cbn beta iota. eapply (pr_bind E owner _ _ W _ _ (sc', map (map VDict) outs1)); [exact P|apply pr_ret].
  Qed.
  (** A script has the results and leaves the variables it means; nothing else
      of its evaluation can be observed. *)
  Theorem C99_script_means : forall l sc fr fr' outs s,
    frames sc fr -> room_for depth sc -> calls_ok E owner s -> Forall (label_stmt owner depth) l ->
    script_means E funs depth fr l = Some (fr', outs) ->
    exists sc' s2,
      evaluates (fun n => run_stmts (ev E n) sc l) s s2 (sc', map (map VDict) outs) /\
      frames sc' fr' /\ quiet s s2.
  Proof.
    intros l sc fr fr' outs s FR RM CO LL H.
    destruct (script_ok l sc fr fr' outs no_world FR RM LL H) as (sc' & F' & _ & _ & P).
    destruct (P no_world s (wle_refl _) (calls_stok _ _ _ CO)) as (W2 & s2 & _ & _ & Q & EV).
    exists sc', s2. auto.
  Qed.

  Lemma script_app : forall a b fr,
    script_means E funs depth fr (a ++ b) =
    obind (script_means E funs depth fr a) (fun r =>
    option_map (fun r' => (fst r', snd r ++ snd r')) (script_means E funs depth (fst r) b)).
  Proof.
    induction a as [|q a IH]; intros b fr.
    - cbn. destruct (script_means E funs depth fr b) as [[f o]|]; reflexivity.
    - cbn [app script_means]. destruct q as [x params [|] [e|q]|text q]; try reflexivity.
      + destruct (den E funs fr e); [|reflexivity]. cbn [obind]. apply IH.
      + destruct (query_rows E funs depth fr q); [|reflexivity]. cbn [obind]. apply IH.
      + destruct (query_rows E funs depth _ q); [|reflexivity]. cbn [obind]. rewrite IH.
        destruct (script_means E funs depth fr a) as [[f o]|]; [|reflexivity]. cbn [option_map obind fst snd].
        destruct (script_means E funs depth f b) as [[f' o']|]; reflexivity.
  Qed.

  (** Each query of the text of a script: whatever the schedule, the host is
      sent its rows, which are among the results of the script at its place. *)
  Theorem C99_text_to_results : forall text script before tag q after sc fr fr' outs s
      (Bytes : Type) (encoder : nat -> list dict -> option Bytes) members maxrows,
    frames sc fr -> room_for depth sc -> calls_ok E owner s ->
    (1 <= maxrows)%Z -> (forall n b, encoder n b <> None) ->
    parse_multi text = Some script -> elab_script script = before ++ SQuery tag q :: after ->
    Forall (label_stmt owner depth) (elab_script script) ->
    script_means E funs depth fr (elab_script script) = Some (fr', outs) ->
    (exists m sc' s2, (forall n, run_text (ev E n) sc text = Some (m n)) /\
       evaluates m s s2 (sc', map (map VDict) outs) /\ frames sc' fr') /\
    exists fr1 outs1 out outs2,
      script_means E funs depth fr before = Some (fr1, outs1) /\ outs = outs1 ++ out :: outs2 /\
      forall t done es,
        exec (started (layout E funs depth ([("$Query"%string, VStr tag)] :: fr1) q)) t done ->
        uncancelled t -> finished false done -> sees t es ->
        exists s' batches,
          respond dict Bytes encoder members maxrows (resp0 dict Bytes) es = Some s' /\
          parts dict Bytes encoder members 0 batches (sent _ _ s') /\
          List.concat batches = out /\ batches <> [] /\
          Forall (fun b => (Z.of_nat (List.length b) <= maxrows)%Z) batches.
  Proof.
    intros text script before tag q after sc fr fr' outs s Bytes encoder members maxrows
      FR RM CO POS ENC HP HE LL H. split.
    - destruct (C99_script_means _ sc fr fr' outs s FR RM CO LL H) as (sc' & s2 & EV & F' & _).
      exists (fun n => run_script (ev E n) sc script), sc', s2. split; [|split; [exact EV|exact F']].
      intros n. unfold run_text. now rewrite HP.
    - rewrite HE, script_app in H. destruct (script_means E funs depth fr before) as [[fr1 outs1]|]; [|discriminate].
      cbn [obind fst snd script_means] in H.
      destruct (query_rows E funs depth _ q) as [out|] eqn:DQ; [|discriminate]. cbn [obind] in H.
      destruct (script_means E funs depth fr1 after) as [[fr2 outs2]|]; [|discriminate]. cbn in H. injection H as <- <-.
      exists fr1, outs1, out, outs2. split; [reflexivity|]. split; [reflexivity|].
      intros t done es X U F SE.
      destruct (answer_delivers _ _ (layout_answer E funs depth _ q out DQ)) as [D _].
      destruct (D t done X U) as [_ D2]. destruct (D2 F) as [O C]. subst out.
      destruct (sees_schedule _ _ _ SE _ _ X) as (es1 & es2 & -> & S).
      { eapply C39_closed_only_by_close; eauto. }
      destruct (C41_parts_are_the_rows_partial dict Bytes encoder members maxrows _ _ POS ENC S) as (s' & b & R & P).
      exists s', b. split; [now apply respond_app|exact P].
  Qed.

  Lemma run_app : forall R a q sc st0,
    run_stmts R sc (a ++ [q]) st0 = mbind (run_stmts R sc a) (fun r =>
      mbind (run_stmts R (fst r) [q]) (fun r' => mret (fst r', snd r ++ snd r'))) st0.
  Proof.
    intros R. induction a as [|p a IH]; intros q sc s0.
    - change (run_stmts R sc [q] s0 = mbind (run_stmts R sc [q])
        (fun r' => mret (fst r', [] ++ snd r')) s0).
      generalize (run_stmts R sc [q]). intros m. unfold mbind. destruct (m s0) as [s1 [[sc1 o1]| |]]; reflexivity.
    - change ((p :: a) ++ [q]) with (p :: (a ++ [q])).
      assert (ST : forall l s, run_stmts R sc (p :: l) s =
        match stmt_eval R sc p s with
        | (s1, RVal (sc1, rows)) =>
            match run_stmts R sc1 l s1 with
            | (s2, RVal (sc2, out)) => (s2, RVal (sc2, match p with SQuery _ _ => rows :: out | _ => out end))
            | (s2, RPanic) => (s2, RPanic)
            | (s2, RFuel) => (s2, RFuel)
            end
        | (s1, RPanic) => (s1, RPanic)
        | (s1, RFuel) => (s1, RFuel)
        end).
      { intros l s. cbn [run_stmts]. unfold mbind. destruct (stmt_eval R sc p s) as [s1 [[sc1 rows]| |]]; try reflexivity.
        destruct (run_stmts R sc1 l s1) as [s2 [[sc2 o2]| |]]; reflexivity. }
      rewrite ST. unfold mbind at 1. rewrite ST.
      destruct (stmt_eval R sc p s0) as [s1 [[sc1 rows]| |]]; try reflexivity.
      rewrite IH. unfold mbind at 1.
      destruct (run_stmts R sc1 a s1) as [s2 [[sc2 o2]| |]]; try reflexivity.
      cbn [fst snd]. generalize (run_stmts R sc2 [q]). intros m. unfold mbind, mret.
      destruct (m s2) as [s3 [[sc3 o3]| |]]; try reflexivity. cbn [fst snd]. destruct p; reflexivity.
  Qed.

  (** A script that ends with a query with GROUP BY. *)
  Theorem C99_last_query_groups : forall before tag star cols from where_ g sc fr fr1 outs rows l s,
    let fr2 := [("$Query"%string, VStr tag)] :: fr1 in
    frames sc fr -> room_for (S depth) sc -> calls_ok E owner s -> ids_ok s ->
    Forall (label_stmt owner depth) before ->
    script_means E funs depth fr before = Some (fr1, outs) ->
    aggregate_query E owner star cols rows -> label_where owner where_ -> labelled owner g ->
    label_from owner (label_query owner depth) from ->
    source E funs (query_rows E funs depth) fr2 from = Some rows ->
    keyed E funs fr2 star cols where_ g rows = Some l -> all_defined E funs fr2 star cols [] l ->
    exists out sc' s2,
      group_select E funs fr2 star cols where_ g rows = Some out /\
      evaluates (fun n => run_stmts (ev E n) sc
                   (before ++ [SQuery tag (Select star cols from where_ (Some g) None None)])) s s2
        (sc', map (map VDict) (outs ++ [out])) /\
      frames sc' fr1 /\ trace s2 = trace s /\
      delivers (group_layout E funs depth fr2 star cols from where_ g) out.
  Proof.
    intros before tag star cols from where_ g sc fr fr1 outs rows l s fr2 FR RM CO ID LL H AQ LW LG LF HS HK AD.
    unfold room_for in RM.
    destruct (script_ok before sc fr fr1 outs no_world FR ltac:(unfold room_for; lia) LL H) as (sc' & F' & D' & _ & P).
    destruct (P no_world s (wle_refl _) (calls_stok _ _ _ CO)) as (W2 & s1 & _ & ST & Q & EV).
    assert (ID1 : ids_ok s1).
    { eapply evaluates_ids; [|exact EV|exact ID]. intros n.
      apply (pa_run_stmts _ keeps_ids_closed _ _ (evaluation_keeps_ids E n)). }
    set (sc2 := append_vars (VDict [("$Query"%string, VStr tag)]) (copy sc')).
    assert (F2 : frames sc2 fr2) by (apply frames_append; exact F').
    destruct (C96_every_schedule_group_by E funs owner FOK sc2 fr2 s1 F2 (so_funs _ _ _ _ ST)
                depth star cols from where_ g rows l ltac:(unfold room_for, sc2; cbn; lia) ltac:(unfold sc2; cbn; lia)
                AQ LW LG LF ID1 HS HK AD) as (out & s2 & G & Y & T & D).
    exists out, sc', s2. split; [exact G|]. split; [|split; [exact F'|split; [|exact D]]].
    - apply ev_ext with (m1 := fun n => mbind (run_stmts (ev E n) sc before) (fun r =>
        mbind (run_stmts (ev E n) (fst r) [SQuery tag (Select star cols from where_ (Some g) None None)])
              (fun r' => mret (fst r', snd r ++ snd r')))); [intros n; symmetry; apply run_app|].
      eapply ev_bind; [exact EV|]. cbn [fst snd run_stmts stmt_eval].
      eapply ev_bind with (a := (sc', [map VDict out])).
      + eapply ev_bind with (a := (sc', map VDict out)).
        * eapply ev_bind; [exact Y|apply ev_ret].
        * cbn beta iota. apply ev_ret.
      + cbn [fst snd]. rewrite map_app. apply ev_ret.
    - rewrite T. apply Q.
  Qed.
End C99.

(** * Example *)

Definition script_text : string :=
  "LET half <= SELECT k, n + base AS m FROM t WHERE n LET top <= half[0].m + 1 SELECT k, m, top FROM half WHERE m < top ORDER BY m DESC SELECT k FROM half LIMIT 1".

Definition script_results : list (list dict) :=
  [[[("k"%string, VStr "b"); ("m"%string, vint 13); ("top"%string, vint 14)];
    [("k"%string, VStr "a"); ("m"%string, vint 12); ("top"%string, vint 14)];
    [("k"%string, VStr "a"); ("m"%string, vint 11); ("top"%string, vint 14)]];
   [[("k"%string, VStr "b")]]].

(** The hypotheses are met by this script, for its first query. *)
Example C99_demo : forall (encoder : nat -> list dict -> option string) members,
  (forall n b, encoder n b <> None) ->
  (exists m sc' s2, (forall n, run_text (ev demo_env n) demo_scope script_text = Some (m n)) /\
     evaluates m st0 s2 (sc', map (map VDict) script_results)) /\
  exists script before tag q after fr1,
    parse_multi script_text = Some script /\ elab_script script = before ++ SQuery tag q :: after /\
    List.length before = 2 /\
    forall t done es,
      exec (started (layout demo_env demo_funs 4 ([("$Query"%string, VStr tag)] :: fr1) q)) t done ->
      uncancelled t -> finished false done -> sees t es ->
      exists s' batches,
        respond dict string encoder members 2 (resp0 dict string) es = Some s' /\
        parts dict string encoder members 0 batches (sent _ _ s') /\
        List.concat batches = hd [] script_results.
Proof.
  intros encoder members ENC.
  destruct (parse_multi script_text) as [script|] eqn:HP; [|vm_compute in HP; discriminate].
  assert (HE : exists before tag q after fr', elab_script script = before ++ SQuery tag q :: after /\
            List.length before = 2 /\ Forall (label_stmt demo_owner 4) (elab_script script) /\
            script_means demo_env demo_funs 4 demo_frames (elab_script script) = Some (fr', script_results) /\
            option_map snd (script_means demo_env demo_funs 4 demo_frames before) = Some []).
  { vm_compute in HP. injection HP as <-.
    match goal with |- context [elab_script ?l] =>
      let x := eval vm_compute in (elab_script l) in change (elab_script l) with x end.
    match goal with |- context [?a :: ?b :: SQuery ?c ?d :: ?e] => exists [a; b], c, d, e end.
    eexists. split; [reflexivity|]. split; [reflexivity|].
    split; [repeat (constructor; cbn)|]. split; vm_compute; reflexivity. }
  destruct HE as (before & tag & q & after & fr' & HE & LEN & LL & HM & HB).
  destruct (C99_text_to_results demo_env demo_funs demo_owner demo_funs_ok 4 script_text script before tag q after
    demo_scope demo_frames fr' script_results st0 string encoder members 2 eq_refl
    ltac:(unfold room_for; cbn; lia) ltac:(discriminate) ltac:(lia) ENC HP HE LL HM)
    as ((m & sc' & s2 & R1 & R2 & _) & fr1 & outs1 & out & outs2 & H1 & H2 & H3).
  split; [exists m, sc', s2; auto|].
  exists script, before, tag, q, after, fr1. split; [reflexivity|]. split; [exact HE|]. split; [exact LEN|].
  intros t done es X U F SE. destruct (H3 t done es X U F SE) as (s' & b & A & B & C & _).
  exists s', b. split; [exact A|]. split; [exact B|]. rewrite H1 in HB. cbn in HB. injection HB as ->.
  rewrite H2. exact C.
Qed.

(** LET kept <= SELECT * FROM t WHERE n
    SELECT … FROM kept GROUP BY k *)
Definition kept_stmt : stmt :=
  SLet "kept" [] false (LSelect (Select true [] (from_var "t") (Some (sym 30 "n")) None None None)).
Definition kept_keyed : list (string * list (string * val)) :=
  [("b", row [("k", VStr "b"); ("n", i 3)]); ("a", row [("k", VStr "a"); ("n", i 1)]);
   ("a", row [("k", VStr "a"); ("n", i 2)]); ("b", row [("k", VStr "b"); ("n", i 5)])]%string.

Example C99_group_demo : exists out sc' s2,
  List.length out = 2 /\
  evaluates (fun n => run_stmts (ev demo_env n) group_scope
    [kept_stmt; SQuery "q" (Select false group_cols (from_var "kept") None (Some (sym 14 "k")) None None)]) st0 s2
    (sc', [map VDict out]).
Proof.
  destruct (C99_last_query_groups demo_env demo_funs group_owner demo_funs_ok 3 [kept_stmt] "q" false group_cols
    (from_var "kept") None (sym 14 "k") group_scope group_frames
    ([("kept"%string, VQuery (map VDict (map snd kept_keyed)))] :: group_frames) [] (map snd kept_keyed) kept_keyed st0)
    as (out & sc' & s2 & G & EV & _).
  - reflexivity.
  - unfold room_for. cbn. lia.
  - discriminate.
  - apply fresh_ids.
  - repeat (constructor; cbn).
  - vm_compute. reflexivity.
  - apply demo_aggregate_query.
  - exact I.
  - exact I.
  - cbn. repeat constructor.
  - vm_compute. reflexivity.
  - vm_compute. reflexivity.
  - repeat split; eexists; vm_compute; reflexivity.
  - exists out, sc', s2. split; [|exact EV]. vm_compute in G. injection G as <-. reflexivity.
Qed.

(** With [LET x = y] instead of [LET x <= y] the variable is the expression,
    and it sees what is assigned later. *)
Definition eager_text : string := "LET y <= 1 LET x <= y LET y <= 2 SELECT x FROM t LIMIT 1".
Definition lazy_text : string := "LET y <= 1 LET x = y LET y <= 2 SELECT x FROM t LIMIT 1".

Theorem C99_lazy_assignment_refuted :
  exists m m' sc' sc1 s2 s2',
    (forall n, run_text (ev demo_env n) demo_scope eager_text = Some (m n)) /\
    evaluates m st0 s2 (sc', [[VDict [("x"%string, vint 1)]]]) /\
    (forall n, run_text (ev demo_env n) demo_scope lazy_text = Some (m' n)) /\
    evaluates m' st0 s2' (sc1, [[VDict [("x"%string, vint 2)]]]).
Proof.
  destruct (parse_multi eager_text) as [a|] eqn:HA; [|vm_compute in HA; discriminate].
  destruct (parse_multi lazy_text) as [b|] eqn:HB; [|vm_compute in HB; discriminate].
  exists (fun n => run_script (ev demo_env n) demo_scope a), (fun n => run_script (ev demo_env n) demo_scope b).
  do 4 eexists. split; [intros n; unfold run_text; now rewrite HA|].
  split; [|split; [intros n; unfold run_text; now rewrite HB|]].
  - vm_compute in HA. injection HA as <-. apply (stmts_enough demo_env 20). vm_compute. reflexivity.
  - vm_compute in HB. injection HB as <-. apply (stmts_enough demo_env 20). vm_compute. reflexivity.
Qed.

Print Assumptions C99_script_means.
Print Assumptions C99_text_to_results.
Print Assumptions C99_last_query_groups.
Print Assumptions C99_lazy_assignment_refuted.
