(** What the formatter writes for a whole tree. *)

From Coq Require Import ZArith List String Ascii Bool Lia.
From Verif Require Import Base F64 Text Lexer Numeral Grammar Parser Format Spelling.
From Verif Require Import LexProofs NumeralProofs FloatText ParseProofs FormatProofs.
Import ListNotations.
Open Scope nat_scope.
Open Scope string_scope.
Open Scope list_scope.

Lemma run_close_to s ts : loose s ts -> (forall r, brk (s ++ r) = true) -> run Broken (push s) ts Broken.
Proof. intros. now apply run_broken, run_close. Qed.
Lemma run_fop {A} (k : string -> token) (f : A -> visit) (t : A -> list token) o a :
  spaced o (k o) -> run Pending (f a) (t a) Broken -> run Broken (fop f (o, a)) (top k t (o, a)) Broken.
Proof.
  intros S R. cbn [fop top].
  apply (run_seq Broken Loose Broken (push " " >> push o >> push " ") (f a) [k o] (t a)).
  - now apply run_spaced.
  - now apply run_loose.
Qed.
Lemma run_break_fop {A} (k : string -> token) (f : A -> visit) (t : A -> list token) o a :
  spaced o (k o) -> run Pending (f a) (t a) Broken ->
  run Broken (line_break >> fop f (o, a)) (top k t (o, a)) Broken.
Proof.
  intros S R. cbn [fop top].
  apply (run_seq Broken Loose Broken (line_break >> (push " " >> push o >> push " ")) (f a) [k o] (t a)).
  - now apply run_break_spaced.
  - now apply run_loose.
Qed.
Lemma run_null : run Pending (push "NULL") [Tok T_NULL "NULL"] Broken.
Proof.
  apply run_token; [|discriminate|reflexivity|reflexivity].
  intros r B. now apply (word_step "N" "ULL" r).
Qed.
Lemma run_open_to s ts : loose s ts -> s <> "" -> begins_well s = true -> run Pending (push s) ts Loose.
Proof. apply run_open. Qed.

Section Ladder.
  Variable n : nat.
  Variable value_runs : forall v, ok_value v -> clean_value v = true -> List.length (tvalue v) < n ->
    run Pending (fvalue v) (tvalue v) Broken.

  Lemma opt_value_runs o : oko ok_value o -> optb clean_value o = true -> List.length (tmaybe tvalue o) < n ->
    run Loose (maybe fvalue o) (tmaybe tvalue o) Broken.
  Proof.
    destruct o as [v|]; cbn [oko optb tmaybe maybe]; intros K C L.
    - now apply run_loose, value_runs.
    - apply run_broken, run_skip.
  Qed.

  Lemma mterm_runs t : ok_mterm t -> clean_mterm t = true -> List.length (tmterm t) < n ->
    run Broken (fmterm t) (tmterm t) Broken.
  Proof.
    destruct t as [i|i j| |s]; cbn [ok_mterm clean_mterm tmterm fmterm]; intros K C L.
    - cbn [List.length] in L. rewrite app_length in L.
      change (run Broken (push "[" >> (fvalue i >> push "]")) ([op "["] ++ (tvalue i ++ [op "]"])) Broken).
      apply run_seq with (Q := Loose); [apply run_close; [lit|reflexivity]|].
      apply run_seq with (Q := Broken); [apply run_loose, value_runs; auto; lia|].
      apply run_close_to; [lit|reflexivity].
    - destruct K as (K1 & K2). apply andb_true_iff in C as (C1 & C2).
      cbn [List.length] in L. rewrite app_length in L. cbn [List.length] in L. rewrite app_length in L.
      change (run Broken (push "[" >> (maybe fvalue i >> (push ":" >> (maybe fvalue j >> push "]"))))
                ([op "["] ++ (tmaybe tvalue i ++ ([op ":"] ++ (tmaybe tvalue j ++ [op "]"])))) Broken).
      apply run_seq with (Q := Loose); [apply run_close; [lit|reflexivity]|].
      apply run_seq with (Q := Broken); [apply opt_value_runs; auto; lia|].
      apply run_seq with (Q := Loose); [apply run_close; [lit|reflexivity]|].
      apply run_seq with (Q := Broken); [apply opt_value_runs; auto; lia|].
      apply run_close_to; [lit|reflexivity].
    - discriminate.
    - now apply run_term.
  Qed.

  Lemma member_runs e : ok_member e -> clean_member e = true -> List.length (tmember e) < n ->
    run Pending (fmember e) (tmember e) Broken.
  Proof.
    destruct e as [v ts]. cbn [ok_member clean_member tmember fmember]. intros (K1 & K2 & _) C L.
    apply andb_true_iff in C as (C1 & C2). rewrite app_length in L. rewrite all_in in K2. rewrite allb_in in C2.
    apply run_seq with (Q := Broken); [apply value_runs; auto; lia|].
    apply run_each. intros t I. apply mterm_runs; auto.
    pose proof (length_flat_map_in tmterm ts t I). lia.
  Qed.

  Lemma mul_runs e : ok_mul e -> clean_mul e = true -> List.length (tmul e) < n ->
    run Pending (fmul e) (tmul e) Broken.
  Proof.
    destruct e as [m ts]. cbn [ok_mul clean_mul tmul fmul]. intros (K1 & K2) C L.
    apply andb_true_iff in C as (C1 & C2). rewrite app_length in L. rewrite all_in in K2. rewrite allb_in in C2.
    apply run_seq with (Q := Broken); [apply member_runs; auto; lia|].
    apply run_each. intros (o, v) I. destruct (K2 _ I) as (O & V).
    apply run_fop; [apply spaced_op; cbn in *; tauto|].
    apply value_runs; auto; [exact (C2 _ I)|].
    pose proof (length_flat_map_in (top op tvalue) ts _ I) as Q. cbn [top List.length] in Q. lia.
  Qed.

  Lemma add_runs e : ok_add e -> clean_add e = true -> List.length (tadd e) < n ->
    run Pending (fadd e) (tadd e) Broken.
  Proof.
    destruct e as [m ts]. cbn [ok_add clean_add tadd fadd]. intros (K1 & K2) C L.
    apply andb_true_iff in C as (C1 & C2). rewrite app_length in L. rewrite all_in in K2. rewrite allb_in in C2.
    apply run_seq with (Q := Broken); [apply mul_runs; auto; lia|].
    apply run_each. intros (o, v) I. destruct (K2 _ I) as (O & V).
    apply run_fop; [apply spaced_op; cbn in *; tauto|].
    apply mul_runs; auto; [exact (C2 _ I)|].
    pose proof (length_flat_map_in (top op tmul) ts _ I) as Q. cbn [top List.length] in Q. lia.
  Qed.

  Lemma cond_runs e : ok_cond e -> clean_cond e = true -> List.length (tcond e) < n ->
    run Pending (fcond e) (tcond e) Broken.
  Proof.
    induction e as [c IH|l r]; cbn [ok_cond clean_cond tcond fcond]; intros K C L.
    - apply (run_seq Pending Loose Broken (push "NOT ") (fcond c) [Tok T_NOT "NOT"] (tcond c)).
      + apply run_open; [word "NOT"|discriminate|reflexivity].
      + apply run_loose, IH; auto. cbn [List.length] in L. lia.
    - destruct K as (K1 & K2). apply andb_true_iff in C as (C1 & C2). rewrite app_length in L.
      apply run_seq with (Q := Broken); [apply add_runs; auto; lia|].
      apply run_maybe. intros (o, a) ->. cbn [oko ok_op optb snd tmaybe top List.length] in *.
      destruct K2 as (O & V).
      apply run_fop; [now apply spaced_cmp|]. apply add_runs; auto. lia.
  Qed.

  Lemma or_runs e : ok_or e -> clean_or e = true -> List.length (tor e) < n ->
    run Pending (for_ e) (tor e) Broken.
  Proof.
    destruct e as [m ts]. cbn [ok_or clean_or tor for_]. intros (K1 & K2) C L.
    apply andb_true_iff in C as (C1 & C2). rewrite app_length in L. rewrite all_in in K2. rewrite allb_in in C2.
    apply run_seq with (Q := Broken); [apply cond_runs; auto; lia|].
    apply run_each. intros (o, v) I. destruct (K2 _ I) as (O & V).
    apply run_fop; [now apply spaced_or|].
    apply cond_runs; auto; [exact (C2 _ I)|].
    pose proof (length_flat_map_in (top tor_op tcond) ts _ I) as Q. cbn [top List.length] in Q. lia.
  Qed.

  Lemma and_runs e : ok_and e -> clean_and e = true -> List.length (tand e) < n ->
    run Pending (fand e) (tand e) Broken.
  Proof.
    destruct e as [m ts]. cbn [ok_and clean_and tand fand]. intros (K1 & K2) C L.
    apply andb_true_iff in C as (C1 & C2). rewrite app_length in L. rewrite all_in in K2. rewrite allb_in in C2.
    apply run_seq with (Q := Broken); [apply or_runs; auto; lia|].
    apply run_each. intros (o, v) I. destruct (K2 _ I) as (O & V).
    apply run_break_fop; [now apply spaced_and|].
    apply or_runs; auto; [exact (C2 _ I)|].
    pose proof (length_flat_map_in (top tand_op tor) ts _ I) as Q. cbn [top List.length] in Q. lia.
  Qed.

  Lemma comma_runs e : ok_comma e -> clean_comma e = true -> List.length (tcomma e) < n ->
    run Pending (fcomma e) (tcomma e) Broken.
  Proof.
    destruct e as [m ts]. cbn [ok_comma clean_comma tcomma fcomma]. intros (K1 & K2) C L.
    apply andb_true_iff in C as (C1 & C2). rewrite app_length in L. rewrite all_in in K2. rewrite allb_in in C2.
    apply run_seq with (Q := Broken); [apply and_runs; auto; lia|].
    apply run_each. intros o I. specialize (K2 _ I). specialize (C2 _ I).
    pose proof (length_flat_map_in (fun t => op "," :: tmaybe tand t) ts _ I) as Q. cbn [List.length] in Q.
    apply (run_seq Broken Loose Broken (push "," >> push " ") (maybe fand o) [op ","] (tmaybe tand o));
      [apply run_comma|].
    destruct o as [e|]; cbn [oko optb tmaybe maybe] in *.
    - apply run_loose, and_runs; auto. lia.
    - apply run_broken, run_skip.
  Qed.

  Section Statements.
    Variable select_runs : forall s, ok_select s -> clean_select s = true -> List.length (tselect s) < n ->
      run Pending (fselect s) (tselect s) Broken.

    (** push "={" >> push " ", push "{" >> push " " *)
    Lemma run_brace : run Loose (push " ") [] Loose.
    Proof.
      apply run_push. intros w0 t0 l H. rewrite app_nil_r. intros r rs L. rewrite sapp_assoc.
      apply H. now apply Lexes_space.
    Qed.
    Lemma run_unbrace : run Broken (push " }") [op "}"] Loose.
    Proof.
      apply run_close; [|reflexivity]. change " }" with (" " ++ "}")%string.
      apply (loose_app " " "}" [] [op "}"] loose_space). lit.
    Qed.

    Lemma arg_runs a : ok_arg a -> clean_arg a = true -> List.length (targ a) < n ->
      run Pending (farg a) (targ a) Broken.
    Proof.
      intros K C L. unfold farg; fold farg.
      assert (B : forall f ts, run Pending f ts Broken -> run Pending (break_if_moved >> f) ts Broken).
      { intros f ts R. apply (run_seq Pending Pending Broken break_if_moved f [] ts run_break_pending R). }
      destruct a as [x e|x s|x [c|]]; cbn [ok_arg clean_arg targ farg tmaybe List.length oko optb] in *;
        destruct K as (K1 & K2); apply B;
        pose proof (run_word T_Ident x K1 eq_refl) as W; rewrite ?app_length in L; cbn [List.length] in L.
      - apply (run_seq Pending Broken Broken (push x) (push "=" >> fand e) [tident x] (op "=" :: tand e)); [exact W|].
        apply (run_seq Broken Pending Broken (push "=") (fand e) [op "="] (tand e)); [apply run_equals|].
        apply and_runs; auto. lia.
      - change (run Pending (push x >> (push "={" >> (push " " >> (fselect s >> push " }"))))
                  ([tident x] ++ ([op "="; op "{"] ++ ([] ++ (tselect s ++ [op "}"])))) Broken).
        apply run_seq with (Q := Broken); [exact W|].
        apply run_seq with (Q := Loose).
        { apply run_close; [|reflexivity]. intros r rs R.
          apply LTok with (r := ("{" ++ r)%string); [reflexivity|cbn; lia|].
          apply LTok with (r := r); [reflexivity|cbn; lia|exact R]. }
        apply run_seq with (Q := Loose); [apply run_brace|].
        apply run_seq with (Q := Broken); [apply run_loose, select_runs; auto; lia|].
        apply run_broken, run_unbrace.
      - change (run Pending (push x >> (push "=[" >> (fcomma c >> push "]")))
                  ([tident x] ++ ([op "="; op "["] ++ (tcomma c ++ [op "]"]))) Broken).
        apply run_seq with (Q := Broken); [exact W|].
        apply run_seq with (Q := Loose).
        { apply run_close; [|reflexivity]. intros r rs R.
          apply LTok with (r := ("[" ++ r)%string); [reflexivity|cbn; lia|].
          apply LTok with (r := r); [reflexivity|cbn; lia|exact R]. }
        apply run_seq with (Q := Broken); [apply run_loose, comma_runs; auto; lia|].
        apply run_close_to; [lit|reflexivity].
      - apply (run_seq Pending Broken Broken (push x) (push "=[]") [tident x] [op "="; op "["; op "]"]); [exact W|].
        apply run_close_to; [|reflexivity]. intros r rs R.
        apply LTok with (r := ("[]" ++ r)%string); [reflexivity|cbn; lia|].
        apply LTok with (r := ("]" ++ r)%string); [reflexivity|cbn; lia|].
        apply LTok with (r := r); [reflexivity|cbn; lia|exact R].
    Qed.

    Lemma args_run args : all ok_arg args -> allb clean_arg args = true -> List.length (tcall targ args) <= n ->
      run Broken (fcall farg args) (tcall targ args) Loose.
    Proof.
      intros K C L. apply run_call. intros a I. rewrite all_in in K. rewrite allb_in in C.
      apply arg_runs; auto.
      unfold tcall in L. cbn [List.length] in L. rewrite app_length in L. cbn [List.length] in L.
      pose proof (length_tsep_in targ args a I). lia.
    Qed.

    Lemma value_step v : ok_value v -> clean_value v = true -> List.length (tvalue v) <= n ->
      run Pending (fvalue v) (tvalue v) Broken.
    Proof.
      destruct v as [s called params|c|s|s|s|]; cbn [ok_value clean_value tvalue fvalue]; intros K C L.
      - destruct K as (K1 & K2 & K3). rewrite app_length in L.
        apply (run_seq Pending Broken Broken (break_if_moved >> push (dotted s)) _ (tsymbol s)).
        + destruct s as [|a l]; [contradiction|]. destruct K1 as (KA & KL).
          apply (run_seq Pending Pending Broken break_if_moved _ [] _ run_break_pending).
          cbn [tsymbol]. unfold tfirst in *. cbn [tt] in KA.
          apply run_dotted; [exact KA|now destruct (first_char _ a)|exact KL].
        + destruct (negb called && _); [apply run_skip|]. apply run_broken, args_run; auto. lia.
      - cbn [List.length] in L. rewrite app_length in L. cbn [List.length] in L.
        change (run Pending (push "(" >> (fcomma c >> push ")")) ([op "("] ++ (tcomma c ++ [op ")"])) Broken).
        apply run_seq with (Q := Loose); [apply run_open; [lit|discriminate|reflexivity]|].
        apply run_seq with (Q := Broken); [apply run_loose, comma_runs; auto; lia|].
        apply run_close_to; [lit|reflexivity].
      - unfold tstring in *. cbn [tt] in K. apply run_word; [exact K|]. now destruct (strip_prefix triple s).
      - apply run_word; [|reflexivity]. now apply fnumber_token.
      - now apply run_word.
      - apply run_null.
    Qed.

    Lemma run_alias a : ok_alias a -> run Broken (falias a) (talias a) Broken.
    Proof.
      intro K. unfold falias, talias. destruct (String.eqb_spec a "") as [->|N]; [apply run_skip|].
      destruct K as [->|K]; [contradiction|].
      apply (run_seq Broken Loose Broken (push " AS ") (push a) [Tok T_AS "AS"] [tident a]).
      - apply run_close; [|reflexivity]. change " AS " with (" " ++ ("AS" ++ " "))%string.
        apply (loose_app " " _ [] [Tok T_AS "AS"] loose_space). word "AS".
      - apply run_loose. now apply run_word.
    Qed.

    Lemma col_runs c : ok_col c -> clean_col c = true -> List.length (tcol c) < n ->
      run Pending (fcol c) (tcol c) Broken.
    Proof.
      destruct c as [a|s a|e a]; cbn [ok_col clean_col tcol fcol]; intros K C L.
      - apply String.eqb_eq in C. subst a. apply run_broken, run_open; [lit|discriminate|reflexivity].
      - destruct K as (K1 & K2). cbn [List.length] in L. rewrite app_length in L. cbn [List.length] in L.
        change (run Pending (push "{" >> (push " " >> (fselect s >> (push " }" >> falias a))))
                  ([op "{"] ++ ([] ++ (tselect s ++ ([op "}"] ++ talias a)))) Broken).
        apply run_seq with (Q := Loose); [apply run_open; [lit|discriminate|reflexivity]|].
        apply run_seq with (Q := Loose); [apply run_brace|].
        apply run_seq with (Q := Broken); [apply run_loose, select_runs; auto; lia|].
        apply run_seq with (Q := Broken); [apply run_broken, run_unbrace|]. now apply run_alias.
      - destruct K as (K1 & K2). rewrite app_length in L.
        apply run_seq with (Q := Broken); [apply and_runs; auto; lia|]. now apply run_alias.
    Qed.

    Lemma plugin_runs p : ok_plugin p -> clean_plugin p = true -> List.length (tplugin p) <= n ->
      run Pending (fplugin p) (tplugin p) Broken.
    Proof.
      destruct p as [x call args]. cbn [ok_plugin clean_plugin tplugin fplugin]. intros (K1 & K2 & K3) C L.
      rewrite app_length in L. destruct x as [|a l]; [contradiction|]. destruct K1 as (KA & KL).
      apply run_seq with (Q := Broken).
      - cbn [tname]. now apply run_dotted.
      - destruct call; [|apply run_skip]. apply run_broken, args_run; auto. lia.
    Qed.

    Lemma run_clause k t (f : visit) ts :
      loose k [t] -> (forall r, brk (String " " (k ++ r)) = true) -> run Pending f ts Broken ->
      run Broken (line_break >> push k >> f) (t :: ts) Broken.
    Proof.
      intros L B R. apply (run_seq Broken Loose Broken (line_break >> push k) f [t] ts).
      - now apply run_keyword.
      - now apply run_loose.
    Qed.

    Lemma run_limit z : run Broken (line_break >> flimit z)
      [Tok T_LIMIT "LIMIT"; Tok T_Number (print_int z)] Broken.
    Proof.
      set (p := (print_int z ++ " ")%string).
      assert (R : forall r rs, brk (String " " r) = true -> Lexes r rs ->
                  Lexes (p ++ r) (Tok T_Number (print_int z) :: rs)).
      { intros r rs B L. subst p. rewrite sapp_assoc. cbn [String.append].
        apply reads_lexes; [apply print_int_token|exact B|now apply Lexes_space]. }
      intros v w0 t0 H.
      destruct (run_keyword "LIMIT " [Tok T_LIMIT "LIMIT"] ltac:(word "LIMIT") ltac:(reflexivity) v w0 t0 H)
        as (w & E & K).
      exists (w ++ p)%string. split.
      - change (out ((line_break >> flimit z) v)) with (out (line_break v) ++ ("LIMIT " ++ p))%string.
        change (out ((line_break >> push "LIMIT ") v)) with (out (line_break v) ++ "LIMIT ")%string in E.
        now rewrite <- !sapp_assoc, E.
      - assert (ST : settled (w0 ++ (w ++ p)) (t0 ++ [Tok T_LIMIT "LIMIT"; Tok T_Number (print_int z)])).
        { intros r rs B L. rewrite !sapp_assoc. rewrite <- sapp_assoc.
          change [Tok T_LIMIT "LIMIT"; Tok T_Number (print_int z)] with ([Tok T_LIMIT "LIMIT"] ++ [Tok T_Number (print_int z)]).
          rewrite app_assoc, <- app_assoc. apply K. now apply R. }
        split; [|now left]. intros r rs B L. apply ST; [now apply brk_space|exact L].
    Qed.

    Lemma run_cols (al : bool) cols : (forall c, In c cols -> run Pending (fcol c) (tcol c) Broken) ->
      run Loose ((if al then push "*" >> (match cols with [] => skip | _ => push "," >> push " " end) else skip) >>
                 separated fcol line_break cols)
        ((if al then op "*" :: (match cols with [] => [] | _ => [op ","] end) else []) ++ tsep tcol cols) Broken.
    Proof.
      intro H.
      assert (SEP : cols <> [] -> run Loose (separated fcol line_break cols) (tsep tcol cols) Broken).
      { intro N. apply run_loose, run_separated; [apply run_line_break_loose|exact N|exact H]. }
      assert (ST : run Loose (push "*") [op "*"] Loose).
      { apply run_loose, run_open; [lit|discriminate|reflexivity]. }
      destruct al.
      - destruct cols as [|c cols].
        + apply (run_seq Loose Loose Broken (push "*" >> skip) skip [op "*"] []); [exact ST|].
          apply run_broken, run_skip.
        + apply run_seq with (Q := Loose); [|apply SEP; discriminate].
          apply (run_seq Loose Broken Loose (push "*") (push "," >> push " ") [op "*"] [op ","]);
            [now apply run_broken|apply run_comma].
      - destruct cols as [|c cols].
        + apply run_broken, (run_skip Loose).
        + apply (run_seq Loose Loose Broken skip _ []); [apply run_skip|apply SEP; discriminate].
    Qed.

    Lemma run_order o : oko (fun o : string * bool => ok_ident (fst o)) o ->
      run Broken (maybe (fun o => line_break >> push "ORDER BY " >> forder o) o)
        (tmaybe (fun o : string * bool => Tok T_ORDERBY "ORDER BY" :: tident (fst o) ::
                       (if snd o then [Tok T_DESC "DESC"] else [])) o) Broken.
    Proof.
      destruct o as [(k, d)|]; cbn [oko maybe tmaybe fst snd forder]; intro K; [|apply run_skip].
      apply run_clause.
      - apply (loose_spaced "ORDER BY"); [reflexivity|discriminate].
      - reflexivity.
      - apply (run_seq Pending Broken Broken (push k) _ [tident k]); [now apply run_word|].
        destruct d; [|apply run_skip]. apply run_close_to; [|reflexivity].
        change " DESC " with (" " ++ ("DESC" ++ " "))%string.
        apply (loose_app " " _ [] [Tok T_DESC "DESC"] loose_space). word "DESC".
    Qed.

    Lemma select_step s : ok_select s -> clean_select s = true -> List.length (tselect s) <= n ->
      run Pending (fselect s) (tselect s) Broken.
    Proof.
      destruct s as [explain al cols from w g o l]. cbn [ok_select clean_select tselect fselect].
      intros (K1 & K2 & K3 & K4 & K5 & K6 & K7) C L.
      apply andb_true_iff in C as (C & C4). apply andb_true_iff in C as (C & C3).
      apply andb_true_iff in C as (C1 & C2). rewrite all_in in K1. rewrite allb_in in C1.
      set (W := tmaybe (fun w => Tok T_WHERE "WHERE" :: tcomma w) w) in *.
      set (G := tmaybe (fun g => Tok T_GROUPBY "GROUP BY" :: tcomma g) g) in *.
      set (O := tmaybe (fun o : string * bool => Tok T_ORDERBY "ORDER BY" :: tident (fst o) ::
                       (if snd o then [Tok T_DESC "DESC"] else [])) o) in *.
      set (M := tmaybe (fun l => [Tok T_LIMIT "LIMIT"; Tok T_Number (print_int l)]) l) in *.
      set (X := if al then op "*" :: (match cols with [] => [] | _ => [op ","] end) else []) in *.
      set (E := if explain then [Tok T_EXPLAIN "EXPLAIN"] else []) in *.
      rewrite app_length in L. cbn [List.length] in L. rewrite !app_length in L. cbn [List.length] in L.
      rewrite !app_length in L.
      assert (CR : forall c, In c cols -> run Pending (fcol c) (tcol c) Broken).
      { intros c I. apply col_runs; auto. pose proof (length_tsep_in tcol cols c I). lia. }
      apply (run_tokens _ _ _ (E ++ ([Tok T_SELECT "SELECT"] ++ ((X ++ tsep tcol cols) ++
              ((Tok T_FROM "FROM" :: tplugin from) ++ (W ++ (G ++ (O ++ M)))))))).
      { cbn [app]. now rewrite <- !app_assoc. }
      change (run Pending ((if explain then push "EXPLAIN " else skip) >> (push "SELECT " >>
        (((if al then push "*" >> (match cols with [] => skip | _ => push "," >> push " " end) else skip) >>
          separated fcol line_break cols) >>
         ((line_break >> push "FROM " >> fplugin from) >>
          (maybe (fun w => line_break >> push "WHERE " >> fcomma w) w >>
           (maybe (fun g => line_break >> push "GROUP BY " >> fcomma g) g >>
            (maybe (fun o => line_break >> push "ORDER BY " >> forder o) o >>
             maybe (fun l => line_break >> flimit l) l)))))))
        (E ++ ([Tok T_SELECT "SELECT"] ++ ((X ++ tsep tcol cols) ++
              ((Tok T_FROM "FROM" :: tplugin from) ++ (W ++ (G ++ (O ++ M))))))) Broken).
      apply run_seq with (Q := Pending).
      { subst E. destruct explain; [|apply run_skip].
        apply run_post with (Q := Loose); [exact loose_pending|].
        apply run_open; [word "EXPLAIN"|discriminate|reflexivity]. }
      apply run_seq with (Q := Loose); [apply run_open; [word "SELECT"|discriminate|reflexivity]|].
      apply run_seq with (Q := Broken); [now apply run_cols|].
      apply run_seq with (Q := Broken).
      { apply run_clause; [word "FROM"|reflexivity|]. apply plugin_runs; auto. lia. }
      apply run_seq with (Q := Broken).
      { apply run_maybe. intros c ->. apply run_clause; [word "WHERE"|reflexivity|].
        apply comma_runs; auto. subst W. cbn [tmaybe List.length] in L. lia. }
      apply run_seq with (Q := Broken).
      { apply run_maybe. intros c ->. apply run_clause; [|reflexivity|].
        - apply (loose_spaced "GROUP BY"); [reflexivity|discriminate].
        - apply comma_runs; auto. subst G. cbn [tmaybe List.length] in L. lia. }
      apply run_seq with (Q := Broken); [now apply run_order|].
      apply run_maybe. intros z ->. apply run_limit.
    Qed.
  End Statements.
End Ladder.

Lemma knot_runs n :
  (forall v, ok_value v -> clean_value v = true -> List.length (tvalue v) < n ->
    run Pending (fvalue v) (tvalue v) Broken) /\
  (forall s, ok_select s -> clean_select s = true -> List.length (tselect s) < n ->
    run Pending (fselect s) (tselect s) Broken).
Proof.
  induction n as [|n (V & S)]; [split; intros; lia|].
  split; intros x K C L.
  - apply value_step with (n := n); auto. lia.
  - apply select_step with (n := n); auto. lia.
Qed.
Lemma value_runs v : ok_value v -> clean_value v = true -> run Pending (fvalue v) (tvalue v) Broken.
Proof. intros. apply (proj1 (knot_runs (S (List.length (tvalue v))))); auto. Qed.
Lemma select_runs s : ok_select s -> clean_select s = true -> run Pending (fselect s) (tselect s) Broken.
Proof. intros. apply (proj2 (knot_runs (S (List.length (tselect s))))); auto. Qed.
Lemma and_expr_runs e : ok_and e -> clean_and e = true -> run Pending (fand e) (tand e) Broken.
Proof.
  intros K C. apply and_runs with (n := S (List.length (tand e))); auto. intros; now apply value_runs.
Qed.
Lemma arg_expr_runs a : ok_arg a -> clean_arg a = true -> run Pending (farg a) (targ a) Broken.
Proof.
  intros K C. apply arg_runs with (n := S (List.length (targ a))); auto; intros;
    [now apply value_runs|now apply select_runs].
Qed.

(** ** Parameters of LET *)

Lemma default_for_none ps x : ~ In x (map param_name ps) -> forall d,
  fold_left (fun d p => match p with
                        | GDefault a => if String.eqb (unq (arg_name a)) x then Some a else d
                        | GName _ => d
                        end) ps d = d.
Proof.
  induction ps as [|p ps IH]; intros N d; [reflexivity|]. cbn [fold_left]. cbn in N.
  rewrite IH by tauto. destruct p as [a|s]; [|reflexivity]. cbn [param_name] in N.
  destruct (String.eqb_spec (unq (arg_name a)) x); [tauto|reflexivity].
Qed.
Lemma distinct_spec l : distinct l = true -> NoDup l.
Proof.
  induction l as [|a l IH]; [constructor|]. cbn [distinct]. intro H. apply andb_true_iff in H as (A & H).
  constructor; [|auto]. intro I. apply negb_true_iff in A.
  assert (existsb (String.eqb a) l = true); [|congruence]. apply existsb_exists. exists a.
  split; [exact I|apply String.eqb_refl].
Qed.
Lemma default_for_self ps p : NoDup (map param_name ps) -> In p ps ->
  default_for ps (param_name p) = match p with GDefault a => Some a | GName _ => None end.
Proof.
  unfold default_for. intros D I.
  assert (G : forall d, (match p with GDefault _ => True | GName _ => d = None end) ->
     fold_left (fun d q => match q with
                        | GDefault a => if String.eqb (unq (arg_name a)) (param_name p) then Some a else d
                        | GName _ => d
                        end) ps d = match p with GDefault a => Some a | GName _ => None end).
  { induction ps as [|q ps IH]; [contradiction|]. intros d Hd. cbn in D.
    apply NoDup_cons_iff in D as (NI & D). cbn [fold_left]. destruct I as [->|I].
    - rewrite default_for_none by exact NI. destruct p as [a|s]; [|exact Hd].
      cbn [param_name]. now rewrite String.eqb_refl.
    - apply IH; auto. destruct p as [a|s]; [exact Logic.I|]. subst d. destruct q as [b|t]; [|reflexivity].
      destruct (String.eqb_spec (unq (arg_name b)) (param_name (GName s))) as [E|]; [|reflexivity].
      exfalso. apply NI. rewrite <- E in *. cbn [param_name] in *. rewrite E.
      change (unq s) with (param_name (GName s)). now apply in_map. }
  apply G. now destruct p.
Qed.
Lemma param_runs ps p : NoDup (map param_name ps) -> In p ps -> ok_param p -> clean_param p = true ->
  run Pending (fparam ps p) (tparam p) Broken.
Proof.
  intros D I K C. unfold fparam. rewrite default_for_self by assumption.
  destruct p as [a|s]; cbn [ok_param clean_param tparam param_name] in *.
  - now apply arg_expr_runs.
  - apply String.eqb_eq in C. rewrite C. now apply run_word.
Qed.

Lemma vql_runs x : ok_vql x -> clean_vql x = true -> run Pending (fvql x) (tvql x) Broken.
Proof.
  destruct x as [name called ps o body|s]; cbn [ok_vql clean_vql tvql fvql]; intros K C.
  2:{ now apply select_runs. }
  destruct K as (K1 & K2 & K3 & K4 & K5).
  apply andb_true_iff in C as (C & C4). apply andb_true_iff in C as (C & C3).
  apply andb_true_iff in C as (C1 & C2). apply distinct_spec in C3. rewrite all_in in K3. rewrite allb_in in C2.
  apply (run_tokens _ _ _ ([Tok T_LET "LET"] ++ ([tident name] ++ ((if called then tcall tparam ps else []) ++
          ([op o] ++ (match body with inl s => tselect s | inr e => tand e end)))))); [reflexivity|].
  change (run Pending (push "LET " >> (push name >> ((match ps with
       | [] => skip
       | _ => push "(" >> separated (fparam ps) skip ps >> push ")"
       end) >> ((push " " >> push o >> push " ") >>
      (match body with inl s => fselect s | inr e => fand e end)))))
     ([Tok T_LET "LET"] ++ ([tident name] ++ ((if called then tcall tparam ps else []) ++
          ([op o] ++ (match body with inl s => tselect s | inr e => tand e end))))) Broken).
  apply run_seq with (Q := Loose); [apply run_open; [word "LET"|discriminate|reflexivity]|].
  apply run_seq with (Q := Broken); [apply run_loose; now apply run_word|].
  apply run_seq with (Q := Broken).
  - destruct ps as [|p ps].
    + destruct called; [discriminate C1|apply run_skip].
    + destruct K2 as [->|K2]; [|discriminate K2].
      apply run_broken. apply (run_call (fparam (p :: ps)) tparam (p :: ps)).
      intros q I. apply param_runs; auto.
  - apply run_seq with (Q := Loose).
    + apply run_spaced, spaced_op. destruct K4 as [->| ->]; cbn; tauto.
    + apply run_loose. destruct body as [s|e]; [now apply select_runs|now apply and_expr_runs].
Qed.
