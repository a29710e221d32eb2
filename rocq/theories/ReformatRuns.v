(** What the formatter writes with line breaks for a whole tree. *)

From Coq Require Import ZArith List String Ascii Bool Lia.
From Verif Require Import Base F64 Text Lexer Numeral Grammar Parser Format Spelling.
From Verif Require Import LexProofs NumeralProofs FloatText ParseProofs FormatProofs FormatRuns Reformat ReformatProofs.
Import ListNotations.
Open Scope nat_scope.
Open Scope string_scope.
Open Scope list_scope.

Notation run := ReformatProofs.run.
Notation loose := ReformatProofs.loose.

Lemma firms_cons t ts : firms (t :: ts) = firm (tv t) && firms ts.
Proof. reflexivity. Qed.
Lemma and_split a b : a && b = true -> a = true /\ b = true.
Proof. apply andb_true_iff. Qed.
Ltac pieces H :=
  repeat first
    [ rewrite firms_app in H
    | rewrite firms_cons in H
    | match type of H with _ && _ = true =>
        let H1 := fresh "F" in apply and_split in H as (H1 & H); pieces H1 end ].

Lemma run_seq_nil P Q R f g ts : run P f [] Q -> run Q g ts R -> run P (f >>> g) ts R.
Proof. exact (run_seq P Q R f g [] ts). Qed.
Lemma run_close_to s ts : all_blank s = false -> loose s ts -> (forall r, brk (trim (s ++ r)) = true) ->
  run Broken (rpush s) ts Broken.
Proof. intros. now apply run_broken, run_close. Qed.
Lemma run_rop {A} (k : string -> token) (f : A -> rvisit) (t : A -> list token) o a :
  kw o (k o) -> run Pending (f a) (t a) Broken -> run Broken (rop f (o, a)) (top k t (o, a)) Broken.
Proof.
  intros S R. cbn [rop top].
  apply (run_seq Broken Loose Broken (rpush " " >>> rpush o >>> rpush " ") (f a) [k o] (t a)).
  - now apply run_spaced.
  - now apply run_loose.
Qed.
Lemma run_break_rop {A} bl (k : string -> token) (f : A -> rvisit) (t : A -> list token) o a :
  kw o (k o) -> run Pending (f a) (t a) Broken ->
  run Broken (rline_break bl >>> rop (fun x => push_indent >>> f x) (o, a)) (top k t (o, a)) Broken.
Proof.
  intros S R. cbn [rop top].
  apply (run_seq Broken Loose Broken (rline_break bl >>> (rpush " " >>> rpush o >>> rpush " "))
           (push_indent >>> f a) [k o] (t a)).
  - now apply run_break_spaced.
  - apply run_after_quiet; [exact quiet_push|]. now apply run_loose.
Qed.
Lemma run_null : run Pending (rpush "NULL") [Tok T_NULL "NULL"] Broken.
Proof.
  apply ReformatProofs.run_push; [reflexivity|]. intros w0 t0 l H. split; [|now right].
  intros r rs K L. rewrite sapp_assoc, <- app_assoc.
  apply H; unfold tlexes; rewrite firm_trim by reflexivity; [reflexivity|].
  apply LTok with (r := trim r); [now apply (word_step "N" "ULL")|cbn; lia|exact L].
Qed.
Lemma run_new_line p : run Loose (new_line p) [] Loose.
Proof.
  intros v t0 (H & _). rewrite app_nil_r.
  change (frags (new_line p v)) with (repeat_space p :: String nl "" :: frags v).
  apply gapped_broken. now apply loose_gapped.
Qed.
(** push " }" where a line is not broken, and line_break, push "}". *)
Lemma run_unbrace : run Broken (rpush " }") [op "}"] Loose.
Proof.
  apply run_close; [reflexivity| |reflexivity]. change " }" with (" " ++ "}")%string.
  apply (loose_app " " "}" [] [op "}"]); [now apply loose_gap|lit].
Qed.
Lemma run_unbrace_line bl : run Broken (rline_break bl >>> rpush "}") [op "}"] Loose.
Proof. apply run_keyword; [reflexivity|reflexivity|lit|reflexivity]. Qed.
Lemma run_opened (f : rvisit) ts Q : run Loose f ts Q ->
  run Loose (new_line 2 >>> (indent_in >>> (rpush "  " >>> f))) ts Q.
Proof.
  intro H. apply run_seq_nil with (Q := Loose); [apply run_new_line|].
  apply run_after_quiet; [exact quiet_in|].
  apply run_seq_nil with (Q := Loose); [now apply run_push_gap|exact H].
Qed.
Lemma quiet_each {A} (l : list A) v : frags (reach (fun _ => pop_indent) l v) = frags v.
Proof. revert v. induction l as [|a l IH]; intro v; [reflexivity|]. exact (IH (pop_indent v)). Qed.
Lemma quiet_maybe {A} (x : option A) v : frags (rmaybe (fun _ => pop_indent) x v) = frags v.
Proof. now destruct x. Qed.
Lemma loose_two a b ta tb : loose a [ta] -> loose b [tb] -> loose (a ++ b) [ta; tb].
Proof. exact (loose_app a b [ta] [tb]). Qed.

Lemma brk_unspace y : edge y = true -> brk (String " " y) = true -> brk y = true.
Proof.
  intros G B. pose proof (brk_by _ B) as Y. destruct y as [|c y]; [reflexivity|]. cbn [edge] in G.
  apply gap_space in G. unfold brk. rewrite G.
  assert (N : by_follows (String c y) = None); [|now rewrite N].
  unfold by_follows in *. cbn [span] in *. change (is_space " ") with true in Y. rewrite G in *.
  cbv iota in *. destruct (span is_space y) as (a, b). destruct (span is_word b) as (d, e).
  change (String.eqb (String " " (String c a)) "") with false in Y. change (String.eqb (String c a) "") with false.
  cbn [negb andb] in *. now destruct (String.eqb (upper d) "BY").
Qed.
(** " AS ", " DESC " *)
Lemma run_spaced_kw k t : kw k t -> all_blank (" " ++ k ++ " ") = false ->
  run Broken (rpush (" " ++ k ++ " ")) [t] Loose.
Proof.
  intros K NB. apply run_close; [exact NB| |].
  - apply (loose_app " " _ [] [t]); [now apply loose_gap|now apply word_loose].
  - intro r. rewrite sapp_assoc.
    destruct (trim_gap_word " " (k ++ " ") r eq_refl) as (g & E & G & N).
    + pose proof (kw_nonempty k t K). destruct K as (_ & _ & F & _). destruct k; [contradiction|exact F].
    + rewrite E. apply brk_gaps; [exact G|now apply N|]. apply (kw_brk k t " " r K gap_one).
Qed.

Section Ladder.
  Variable o : options.
  Notation rvalue := (Reformat.rvalue o). Notation rmterm := (Reformat.rmterm o).
  Notation rmember := (Reformat.rmember o). Notation rmul := (Reformat.rmul o).
  Notation radd := (Reformat.radd o). Notation rcond := (Reformat.rcond o).
  Notation ror := (Reformat.ror o). Notation rand := (Reformat.rand o).
  Notation rcomma := (Reformat.rcomma o). Notation rarg := (Reformat.rarg o).
  Notation rselect := (Reformat.rselect o). Notation rcol := (Reformat.rcol o).
  Notation rplugin := (Reformat.rplugin o).
  Variable n : nat.
  Variable value_runs : forall v bl, ok_value v -> clean_value v = true -> firms (tvalue v) = true ->
    List.length (tvalue v) < n -> run Pending (rvalue v bl) (tvalue v) Broken.

  Lemma opt_value_runs x bl : oko ok_value x -> optb clean_value x = true -> firms (tmaybe tvalue x) = true ->
    List.length (tmaybe tvalue x) < n ->
    run Loose (rmaybe (fun i => rvalue i bl) x) (tmaybe tvalue x) Broken.
  Proof.
    destruct x as [v|]; cbn [oko optb tmaybe rmaybe]; intros K C F L.
    - now apply run_loose, value_runs.
    - apply run_broken, run_skip.
  Qed.

  Lemma mterm_runs t bl : ok_mterm t -> clean_mterm t = true -> firms (tmterm t) = true ->
    List.length (tmterm t) < n -> run Broken (rmterm t bl) (tmterm t) Broken.
  Proof.
    destruct t as [i|i j| |s]; cbn [ok_mterm clean_mterm tmterm Reformat.rmterm]; intros K C F L.
    - cbn [List.length] in L. rewrite app_length in L. pieces F.
      change (run Broken (rpush "[" >>> (rvalue i bl >>> rpush "]")) ([op "["] ++ (tvalue i ++ [op "]"])) Broken).
      apply run_seq with (Q := Loose); [apply run_close; [reflexivity|lit|reflexivity]|].
      apply run_seq with (Q := Broken); [apply run_loose, value_runs; auto; lia|].
      apply run_close_to; [reflexivity|lit|reflexivity].
    - destruct K as (K1 & K2). apply andb_true_iff in C as (C1 & C2).
      cbn [List.length] in L. rewrite app_length in L. cbn [List.length] in L. rewrite app_length in L. pieces F.
      change (run Broken (rpush "[" >>> (rmaybe (fun i => rvalue i bl) i >>> (rpush ":" >>>
                 (rmaybe (fun j => rvalue j bl) j >>> rpush "]"))))
                ([op "["] ++ (tmaybe tvalue i ++ ([op ":"] ++ (tmaybe tvalue j ++ [op "]"])))) Broken).
      apply run_seq with (Q := Loose); [apply run_close; [reflexivity|lit|reflexivity]|].
      apply run_seq with (Q := Broken); [apply opt_value_runs; auto; lia|].
      apply run_seq with (Q := Loose); [apply run_close; [reflexivity|lit|reflexivity]|].
      apply run_seq with (Q := Broken); [apply opt_value_runs; auto; lia|].
      apply run_close_to; [reflexivity|lit|reflexivity].
    - discriminate.
    - pieces F. now apply run_term.
  Qed.

  Lemma member_runs e bl : ok_member e -> clean_member e = true -> firms (tmember e) = true ->
    List.length (tmember e) < n -> run Pending (rmember e bl) (tmember e) Broken.
  Proof.
    destruct e as [v ts]. cbn [ok_member clean_member tmember Reformat.rmember]. intros (K1 & K2 & _) C F L.
    apply andb_true_iff in C as (C1 & C2). rewrite app_length in L. rewrite all_in in K2. rewrite allb_in in C2.
    pieces F.
    apply run_seq with (Q := Broken); [apply value_runs; auto; lia|].
    apply run_each. intros t I. apply mterm_runs; auto; [now apply (firms_in tmterm ts)|].
    pose proof (length_flat_map_in tmterm ts t I). lia.
  Qed.

  Lemma mul_runs e bl : ok_mul e -> clean_mul e = true -> firms (tmul e) = true ->
    List.length (tmul e) < n -> run Pending (rmul e bl) (tmul e) Broken.
  Proof.
    destruct e as [m ts]. cbn [ok_mul clean_mul tmul Reformat.rmul]. intros (K1 & K2) C F L.
    apply andb_true_iff in C as (C1 & C2). rewrite app_length in L. rewrite all_in in K2. rewrite allb_in in C2.
    pieces F.
    apply run_seq with (Q := Broken); [apply member_runs; auto; lia|].
    apply run_each. intros (p, v) I. destruct (K2 _ I) as (O & V).
    apply (firms_in _ ts (p, v)) in F; [|exact I]. cbn [top] in F. pieces F.
    apply (run_rop op (fun x => rvalue x bl)); [apply kw_op; cbn in *; tauto|].
    apply value_runs; auto; [exact (C2 _ I)|].
    pose proof (length_flat_map_in (top op tvalue) ts _ I) as Q. cbn [top List.length] in Q. lia.
  Qed.

  Lemma add_runs e bl : ok_add e -> clean_add e = true -> firms (tadd e) = true ->
    List.length (tadd e) < n -> run Pending (radd e bl) (tadd e) Broken.
  Proof.
    destruct e as [m ts]. cbn [ok_add clean_add tadd Reformat.radd]. intros (K1 & K2) C F L.
    apply andb_true_iff in C as (C1 & C2). rewrite app_length in L. rewrite all_in in K2. rewrite allb_in in C2.
    pieces F.
    apply run_seq with (Q := Broken); [apply mul_runs; auto; lia|].
    apply run_each. intros (p, v) I. destruct (K2 _ I) as (O & V).
    apply (firms_in _ ts (p, v)) in F; [|exact I]. cbn [top] in F. pieces F.
    apply (run_rop op (fun x => rmul x bl)); [apply kw_op; cbn in *; tauto|].
    apply mul_runs; auto; [exact (C2 _ I)|].
    pose proof (length_flat_map_in (top op tmul) ts _ I) as Q. cbn [top List.length] in Q. lia.
  Qed.

  Lemma cond_runs e bl : ok_cond e -> clean_cond e = true -> firms (tcond e) = true ->
    List.length (tcond e) < n -> run Pending (rcond e bl) (tcond e) Broken.
  Proof.
    induction e as [c IH|l r]; cbn [ok_cond clean_cond tcond Reformat.rcond]; intros K C F L; pieces F.
    - apply (run_seq Pending Loose Broken (rpush "NOT ") (rcond c bl) [Tok T_NOT "NOT"] (tcond c)).
      + apply run_open; [reflexivity| |reflexivity]. apply (word_loose "NOT"). kwd.
      + apply run_loose, IH; auto. cbn [List.length] in L. lia.
    - destruct K as (K1 & K2). apply andb_true_iff in C as (C1 & C2). rewrite app_length in L.
      apply run_seq with (Q := Broken); [apply add_runs; auto; lia|].
      apply run_maybe. intros (p, a) ->. cbn [oko ok_op optb snd tmaybe top List.length] in *.
      destruct K2 as (O & V). pieces F.
      apply (run_rop tcmp_op (fun x => radd x bl)); [now apply kw_cmp|]. apply add_runs; auto. lia.
  Qed.

  Lemma or_runs e bl : ok_or e -> clean_or e = true -> firms (tor e) = true ->
    List.length (tor e) < n -> run Pending (ror e bl) (tor e) Broken.
  Proof.
    destruct e as [m ts]. cbn [ok_or clean_or tor Reformat.ror]. intros (K1 & K2) C F L.
    apply andb_true_iff in C as (C1 & C2). rewrite app_length in L. rewrite all_in in K2. rewrite allb_in in C2.
    pieces F.
    apply run_seq with (Q := Broken); [apply cond_runs; auto; lia|].
    apply run_each. intros (p, v) I. destruct (K2 _ I) as (O & V).
    apply (firms_in _ ts (p, v)) in F; [|exact I]. cbn [top] in F. pieces F.
    apply (run_rop tor_op (fun x => rcond x bl)); [now apply kw_or|].
    apply cond_runs; auto; [exact (C2 _ I)|].
    pose proof (length_flat_map_in (top tor_op tcond) ts _ I) as Q. cbn [top List.length] in Q. lia.
  Qed.

  Lemma and_runs e bl : ok_and e -> clean_and e = true -> firms (tand e) = true ->
    List.length (tand e) < n -> run Pending (rand e bl) (tand e) Broken.
  Proof.
    destruct e as [m ts]. cbn [ok_and clean_and tand Reformat.rand]. intros (K1 & K2) C F L.
    apply andb_true_iff in C as (C1 & C2). rewrite app_length in L. rewrite all_in in K2. rewrite allb_in in C2.
    pieces F. apply run_then_quiet; [apply quiet_each|].
    apply run_seq with (Q := Broken); [apply or_runs; auto; lia|].
    apply run_each. intros (p, v) I. destruct (K2 _ I) as (O & V).
    apply (firms_in _ ts (p, v)) in F; [|exact I]. cbn [top] in F. pieces F.
    apply (run_break_rop bl tand_op (fun x => ror x bl)); [now apply kw_and|].
    apply or_runs; auto; [exact (C2 _ I)|].
    pose proof (length_flat_map_in (top tand_op tor) ts _ I) as Q. cbn [top List.length] in Q. lia.
  Qed.

  Lemma comma_runs e bl : ok_comma e -> clean_comma e = true -> firms (tcomma e) = true ->
    List.length (tcomma e) < n -> run Pending (rcomma e bl) (tcomma e) Broken.
  Proof.
    destruct e as [m ts]. cbn [ok_comma clean_comma tcomma Reformat.rcomma]. intros (K1 & K2) C F L.
    apply andb_true_iff in C as (C1 & C2). rewrite app_length in L. rewrite all_in in K2. rewrite allb_in in C2.
    pieces F.
    apply run_seq with (Q := Broken); [apply and_runs; auto; lia|].
    apply run_each. intros x I. specialize (K2 _ I). specialize (C2 _ I).
    apply (firms_in _ ts x) in F; [|exact I]. cbv beta in F. pieces F.
    pose proof (length_flat_map_in (fun t => op "," :: tmaybe tand t) ts _ I) as Q. cbn [List.length] in Q.
    apply (run_seq Broken Loose Broken (rpush "," >>> rpush " ") (rmaybe (fun e => rand e bl) x) [op ","] (tmaybe tand x));
      [apply run_comma|].
    destruct x as [e|]; cbn [oko optb tmaybe rmaybe] in *.
    - apply run_loose, and_runs; auto. lia.
    - apply run_broken, run_skip.
  Qed.

  Section Statements.
    Variable select_runs : forall s bl, ok_select s -> clean_select s = true -> firms (tselect s) = true ->
      List.length (tselect s) < n -> run Pending (rselect s bl) (tselect s) Broken.

    Lemma arg_runs a bl : ok_arg a -> clean_arg a = true -> firms (targ a) = true ->
      List.length (targ a) < n -> run Pending (rarg a bl) (targ a) Broken.
    Proof.
      intros K C F L.
      assert (B : forall f ts, run Pending f ts Broken -> run Pending (rbreak_arg o bl >>> f) ts Broken).
      { intros f ts R. apply (run_seq_nil Pending Pending); [apply run_break_arg|exact R]. }
      destruct a as [x e|x s|x [c|]]; cbn [ok_arg clean_arg targ Reformat.rarg tmaybe List.length oko optb] in *;
        destruct K as (K1 & K2); apply B; pieces F;
        match goal with H : firm (tv (tident x)) = true |- _ =>
          pose proof (run_word T_Ident x K1 eq_refl H) as W end;
        rewrite ?app_length in L; cbn [List.length] in L.
      - apply (run_seq Pending Broken Broken (rpush x) (rpush "=" >>> rand e bl) [tident x] (op "=" :: tand e)); [exact W|].
        apply (run_seq Broken Pending Broken (rpush "=") (rand e bl) [op "="] (tand e)); [apply run_equals|].
        apply and_runs; auto. lia.
      - assert (EQ : run Broken (rpush "={") [op "="; op "{"] Loose).
        { apply run_close; [reflexivity| |reflexivity]. intros r rs R. unfold tlexes in *.
          change (trim ("={" ++ r)) with (String "=" (String "{" (trim r))).
          apply LTok with (r := String "{" (trim r)); [reflexivity|cbn; lia|].
          apply LTok with (r := trim r); [reflexivity|cbn; lia|exact R]. }
        destruct bl.
        + change (run Pending (rpush x >>> (rpush "={" >>> ((new_line 2 >>> (indent_in >>> (rpush "  " >>> rselect s true))) >>>
                    (pop_indent >>> ((rline_break true >>> rpush "}") >>> pop_indent)))))
                  ([tident x] ++ ([op "="; op "{"] ++ (tselect s ++ [op "}"]))) Broken).
          apply run_seq with (Q := Broken); [exact W|].
          apply run_seq with (Q := Loose); [exact EQ|].
          apply run_seq with (Q := Broken).
          { apply run_opened, run_loose, select_runs; auto. lia. }
          apply run_after_quiet; [exact quiet_pop|]. apply run_then_quiet; [exact quiet_pop|].
          apply run_broken, run_unbrace_line.
        + change (run Pending (rpush x >>> (rpush "={" >>> (rpush " " >>> (rselect s false >>> rpush " }"))))
                  ([tident x] ++ ([op "="; op "{"] ++ ([] ++ (tselect s ++ [op "}"])))) Broken).
          apply run_seq with (Q := Broken); [exact W|].
          apply run_seq with (Q := Loose); [exact EQ|].
          apply run_seq with (Q := Loose); [now apply run_push_gap|].
          apply run_seq with (Q := Broken); [apply run_loose, select_runs; auto; lia|].
          apply run_broken, run_unbrace.
      - change (run Pending (rpush x >>> (rpush "=[" >>> (rcomma c bl >>> rpush "]")))
                  ([tident x] ++ ([op "="; op "["] ++ (tcomma c ++ [op "]"]))) Broken).
        apply run_seq with (Q := Broken); [exact W|].
        apply run_seq with (Q := Loose).
        { apply run_close; [reflexivity| |reflexivity]. intros r rs R. unfold tlexes in *.
          change (trim ("=[" ++ r)) with (String "=" (String "[" (trim r))).
          apply LTok with (r := String "[" (trim r)); [reflexivity|cbn; lia|].
          apply LTok with (r := trim r); [reflexivity|cbn; lia|exact R]. }
        apply run_seq with (Q := Broken); [apply run_loose, comma_runs; auto; lia|].
        apply run_close_to; [reflexivity|lit|reflexivity].
      - apply (run_seq Pending Broken Broken (rpush x) (rpush "=[]") [tident x] [op "="; op "["; op "]"]); [exact W|].
        apply run_close_to; [reflexivity| |reflexivity]. intros r rs R. unfold tlexes in *.
        change (trim ("=[]" ++ r)) with (String "=" (String "[" (String "]" (trim r)))).
        apply LTok with (r := String "[" (String "]" (trim r))); [reflexivity|cbn; lia|].
        apply LTok with (r := String "]" (trim r)); [reflexivity|cbn; lia|].
        apply LTok with (r := trim r); [reflexivity|cbn; lia|exact R].
    Qed.

    Lemma args_run bl args : all ok_arg args -> allb clean_arg args = true -> firms (tcall targ args) = true ->
      List.length (tcall targ args) <= n ->
      run Broken (rcall o bl (fun bl a => rarg a bl) args) (tcall targ args) Loose.
    Proof.
      intros K C F L. unfold tcall in F. pieces F. apply run_call. intros b a I. rewrite all_in in K. rewrite allb_in in C.
      apply arg_runs; auto; [now apply (firms_sep targ args)|].
      unfold tcall in L. cbn [List.length] in L. rewrite app_length in L. cbn [List.length] in L.
      pose proof (length_tsep_in targ args a I). lia.
    Qed.

    Lemma value_step v bl : ok_value v -> clean_value v = true -> firms (tvalue v) = true ->
      List.length (tvalue v) <= n -> run Pending (rvalue v bl) (tvalue v) Broken.
    Proof.
      destruct v as [s called params|c|s|s|s|]; cbn [ok_value clean_value tvalue Reformat.rvalue]; intros K C F L.
      - destruct K as (K1 & K2 & K3). rewrite app_length in L. apply run_break_sym. pieces F.
        apply (run_seq Pending Broken Broken (rpush (dotted s)) _ (tsymbol s)).
        + destruct s as [|a l]; [contradiction|]. destruct K1 as (KA & KL).
          cbn [tsymbol] in *. unfold tfirst in *. cbn [tt] in KA.
          apply run_dotted; [exact KA|now destruct (first_char _ a)|exact KL|assumption].
        + destruct (negb called && _); [apply run_skip|]. apply run_broken, args_run; auto. lia.
      - cbn [List.length] in L. rewrite app_length in L. cbn [List.length] in L. pieces F.
        change (run Pending (rpush "(" >>> (indent_in >>> (rcomma c bl >>> (rpush ")" >>> pop_indent))))
                  ([op "("] ++ (tcomma c ++ [op ")"])) Broken).
        apply run_seq with (Q := Loose); [apply run_open; [reflexivity|lit|reflexivity]|].
        apply run_after_quiet; [exact quiet_in|].
        apply run_seq with (Q := Broken); [apply run_loose, comma_runs; auto; lia|].
        apply run_then_quiet; [exact quiet_pop|].
        apply run_close_to; [reflexivity|lit|reflexivity].
      - pieces F. unfold tstring in *. cbn [tt] in K. apply run_word; [exact K| |assumption]. now destruct (strip_prefix triple s).
      - pieces F. apply run_word; [|reflexivity|assumption]. now apply fnumber_token.
      - pieces F. now apply run_word.
      - apply run_null.
    Qed.

    Lemma run_alias a : ok_alias a -> firms (talias a) = true -> run Broken (ralias a) (talias a) Broken.
    Proof.
      intros K F. unfold ralias, talias in *. destruct (String.eqb_spec a "") as [->|N]; [apply run_skip|].
      destruct K as [->|K]; [contradiction|]. pieces F.
      apply (run_seq Broken Loose Broken (rpush " AS ") (rpush a) [Tok T_AS "AS"] [tident a]).
      - apply (run_spaced_kw "AS"); [kwd|reflexivity].
      - apply run_loose. now apply run_word.
    Qed.

    Lemma col_runs c i bl : ok_col c -> clean_col c = true -> firms (tcol c) = true ->
      List.length (tcol c) < n -> run Pending (rcol c i bl) (tcol c) Broken.
    Proof.
      destruct c as [a|s a|e a]; cbn [ok_col clean_col tcol Reformat.rcol]; intros K C F L.
      - apply String.eqb_eq in C. subst a. apply run_broken, run_open; [reflexivity|lit|reflexivity].
      - destruct K as (K1 & K2). cbn [List.length] in L. rewrite app_length in L. cbn [List.length] in L. pieces F.
        destruct bl.
        + change (run Pending (rpush "{" >>> (rpush " " >>> ((new_line 2 >>> (indent_in >>> (rpush "  " >>> rselect s true))) >>>
                    ((rline_break true >>> rpush "}") >>> (ralias a >>> pop_indent >>> pop_indent)))))
                  ([op "{"] ++ ([] ++ (tselect s ++ ([op "}"] ++ talias a)))) Broken).
          apply run_seq with (Q := Loose); [apply run_open; [reflexivity|lit|reflexivity]|].
          apply run_seq with (Q := Loose); [now apply run_push_gap|].
          apply run_seq with (Q := Broken).
          { apply run_opened, run_loose, select_runs; auto. lia. }
          apply run_seq with (Q := Broken); [apply run_broken, run_unbrace_line|].
          apply run_then_quiet; [exact quiet_pop|]. apply run_then_quiet; [exact quiet_pop|]. now apply run_alias.
        + change (run Pending (rpush "{" >>> (rpush " " >>> (rselect s false >>> (rpush " }" >>> ralias a))))
                  ([op "{"] ++ ([] ++ (tselect s ++ ([op "}"] ++ talias a)))) Broken).
          apply run_seq with (Q := Loose); [apply run_open; [reflexivity|lit|reflexivity]|].
          apply run_seq with (Q := Loose); [now apply run_push_gap|].
          apply run_seq with (Q := Broken); [apply run_loose, select_runs; auto; lia|].
          apply run_seq with (Q := Broken); [apply run_broken, run_unbrace|]. now apply run_alias.
      - destruct K as (K1 & K2). rewrite app_length in L. pieces F.
        assert (R : forall b, run Pending (rand e b >>> ralias a) (tand e ++ talias a) Broken).
        { intro b. apply run_seq with (Q := Broken); [apply and_runs; auto; lia|]. now apply run_alias. }
        apply run_abtest. intros d [->|(_ & I)]; [apply R|].
        destruct I as [<-|[]]. apply run_assoc. apply run_seq_nil with (Q := Pending); [|apply R].
        intros v t0 H. destruct (_ && negb (current_line_space v)); [now apply run_break_pending|now rewrite app_nil_r].
    Qed.

    Lemma plugin_runs p bl : ok_plugin p -> clean_plugin p = true -> firms (tplugin p) = true ->
      List.length (tplugin p) <= n -> run Pending (rplugin p bl) (tplugin p) Broken.
    Proof.
      destruct p as [x call args]. cbn [ok_plugin clean_plugin tplugin Reformat.rplugin]. intros (K1 & K2 & K3) C F L.
      rewrite app_length in L. destruct x as [|a l]; [contradiction|]. destruct K1 as (KA & KL). pieces F.
      apply run_seq with (Q := Broken).
      - cbn [tname] in *. now apply run_dotted.
      - destruct call; [|apply run_skip]. apply run_broken, args_run; auto. lia.
    Qed.

    Lemma run_clause bl k t (f : rvisit) ts :
      all_blank (k ++ " ") = false -> kw k t -> run Pending f ts Broken ->
      run Broken (rline_break bl >>> rpush (k ++ " ") >>> f) (t :: ts) Broken.
    Proof.
      intros NB K R. apply (run_seq Broken Loose Broken (rline_break bl >>> rpush (k ++ " ")) f [t] ts).
      - apply run_keyword; [exact NB| |now apply word_loose|].
        + pose proof (kw_nonempty k t K). destruct K as (_ & _ & F & _). destruct k; [contradiction|exact F].
        + intro r. apply (kw_brk k t " " r K gap_one).
      - now apply run_loose.
    Qed.

    Lemma brk_trim_space r : brk (trim r) = true -> brk (trim (String " " r)) = true.
    Proof.
      intro B. cbn [trim]. change (Ascii.eqb " " " ") with true. cbn [andb].
      destruct (eol r); [exact B|now apply brk_space].
    Qed.
    Lemma run_limit bl z : firm (print_int z) = true -> run Broken (rline_break bl >>> rlimit z)
      [Tok T_LIMIT "LIMIT"; Tok T_Number (print_int z)] Broken.
    Proof.
      intros F v t0 H. unfold rthen, rlimit. cbn [rpush frags].
      assert (NB : all_blank ("LIMIT " ++ print_int z ++ " ") = false) by reflexivity.
      split; cbn [last_of]; [|congruence]. rewrite joined_cons. cbn [base].
      assert (E : forall r, trim (("LIMIT " ++ print_int z ++ " ") ++ r) =
                            ("LIMIT" ++ String " " (print_int z ++ trim (String " " r)))%string).
      { intro r. rewrite !sapp_assoc. change ("LIMIT " ++ print_int z ++ " " ++ r)%string
          with ("LIMIT" ++ (" " ++ (print_int z ++ (String " " r))))%string.
        rewrite firm_trim by reflexivity. f_equal. cbn [String.append trim].
        change (Ascii.eqb " " " ") with true. cbn [andb]. rewrite firm_trim by exact F.
        pose proof (reads_self _ _ (print_int_token z)) as RS.
        destruct (print_int z) as [|c y]; [discriminate RS|]. cbn [String.append eol].
        destruct (Ascii.eqb_spec c " ") as [->|]; [discriminate RS|].
        destruct (Ascii.eqb_spec c nl) as [->|]; [discriminate RS|]. reflexivity. }
      assert (R : forall r rs, brk (trim (String " " r)) = true -> Lexes (trim r) rs ->
        tlexes ((joined (frags (rline_break bl v)) ++ "LIMIT " ++ print_int z ++ " ") ++ r)
               ((t0 ++ [Tok T_LIMIT "LIMIT"; Tok T_Number (print_int z)]) ++ rs)).
      { intros r rs B L. rewrite sapp_assoc, <- app_assoc.
        apply (break_ended bl v t0 H); [reflexivity| |].
        - rewrite E. reflexivity.
        - unfold tlexes. rewrite E. cbn [app].
          apply LTok with (r := String " " (print_int z ++ trim (String " " r))).
          + assert (KL : kw "LIMIT" (Tok T_LIMIT "LIMIT")) by kwd. now apply KL.
          + cbn. lia.
          + apply Lexes_space. apply reads_lexes; [apply print_int_token|exact B|].
            now apply trim_space_lexes. }
      split; [|left].
      - intros r rs B L. apply R; [now apply brk_trim_space|exact L].
      - intros r rs B L. apply R; [|exact L]. cbn [trim]. change (Ascii.eqb " " " ") with true. cbn [andb].
        destruct (eol r) eqn:EO; [|exact B].
        assert (G : forall s, eol s = true -> edge (trim s) = true).
        { clear. induction s as [|c s IH]; [reflexivity|]. cbn [eol trim].
          destruct (Ascii.eqb_spec c " ") as [->|N]; intro H.
          - cbn [andb]. rewrite H. auto.
          - cbn [andb edge]. unfold is_gap. rewrite H. apply orb_true_r. }
        specialize (G r EO). clear -B G.
        now apply brk_unspace.
    Qed.

    Lemma run_cols (al : bool) bl cols : (forall i c, In c cols -> run Pending (rcol c i bl) (tcol c) Broken) ->
      run Loose ((if al then rpush "*" >>> (match cols with [] => rskip | _ => rpush "," >>> rpush " " end) else rskip) >>>
                 rseparated (fun i c => rcol c i bl) (rline_break bl) 0 cols)
        ((if al then op "*" :: (match cols with [] => [] | _ => [op ","] end) else []) ++ tsep tcol cols) Broken.
    Proof.
      intro H.
      assert (SEP : cols <> [] -> run Loose (rseparated (fun i c => rcol c i bl) (rline_break bl) 0 cols) (tsep tcol cols) Broken).
      { intro N. apply run_loose, run_separated; [apply run_break_loose|exact N|exact H]. }
      assert (ST : run Loose (rpush "*") [op "*"] Loose).
      { apply run_loose, run_open; [reflexivity|lit|reflexivity]. }
      destruct al.
      - destruct cols as [|c cols].
        + apply (run_seq Loose Loose Broken (rpush "*" >>> rskip) rskip [op "*"] []); [exact ST|].
          apply run_broken, run_skip.
        + apply run_seq with (Q := Loose); [|apply SEP; discriminate].
          apply (run_seq Loose Broken Loose (rpush "*") (rpush "," >>> rpush " ") [op "*"] [op ","]);
            [now apply run_broken|apply run_comma].
      - destruct cols as [|c cols].
        + apply run_broken, (run_skip Loose).
        + apply (run_seq Loose Loose Broken rskip _ []); [apply run_skip|apply SEP; discriminate].
    Qed.

    Lemma run_order bl x : oko (fun o : string * bool => ok_ident (fst o)) x ->
      firms (tmaybe (fun o : string * bool => Tok T_ORDERBY "ORDER BY" :: tident (fst o) ::
                       (if snd o then [Tok T_DESC "DESC"] else [])) x) = true ->
      run Broken (rmaybe (fun k => rline_break bl >>> rorder k) x)
        (tmaybe (fun o : string * bool => Tok T_ORDERBY "ORDER BY" :: tident (fst o) ::
                       (if snd o then [Tok T_DESC "DESC"] else [])) x) Broken.
    Proof.
      destruct x as [(k, d)|]; cbn [oko rmaybe tmaybe fst snd rorder]; intros K F; [|apply run_skip].
      pieces F.
      change (run Broken (rline_break bl >>> rpush ("ORDER BY" ++ " ") >>> (rpush k >>> (if d then rpush " DESC " else rskip)))
        (Tok T_ORDERBY "ORDER BY" :: ([tident k] ++ (if d then [Tok T_DESC "DESC"] else []))) Broken).
      apply run_clause; [reflexivity|kwd|].
      apply (run_seq Pending Broken Broken (rpush k) _ [tident k]); [now apply run_word|].
      destruct d; [|apply run_skip]. apply run_broken, (run_spaced_kw "DESC"); [kwd|reflexivity].
    Qed.

    Definition select_rest (s : gselect) (bl : bool) : rvisit :=
      match s with
      | GSelect explain all cols from w g k l =>
        let list_of := fun bl =>
          (if all then rpush "*" >>> (match cols with [] => rskip | _ => rpush "," >>> rpush " " end)
           else rskip) >>>
          rseparated (fun i c => rcol c i bl) (rline_break bl) 0 cols in
        abtest o bl (push_indent >>> list_of bl >>> pop_indent)
          [new_line 2 >>> indent_in >>> rpush "  " >>> list_of bl >>> pop_indent >>> pop_indent] >>>
        (rline_break bl >>> rpush "FROM " >>> rplugin from bl) >>>
        rmaybe (fun w => rline_break bl >>> rpush "WHERE " >>> rcomma w bl) w >>>
        rmaybe (fun g => rline_break bl >>> rpush "GROUP BY " >>> push_indent >>> rcomma g bl) g >>>
        rmaybe (fun k => rline_break bl >>> rorder k) k >>>
        rmaybe (fun l => rline_break bl >>> rlimit l) l >>>
        rmaybe (fun _ => pop_indent) g
      end.
    Definition select_head (s : gselect) : rvisit :=
      match s with GSelect explain _ _ _ _ _ _ _ =>
        (if explain then rpush "EXPLAIN " else rskip) >>> rpush "SELECT " end.
    Definition thead (s : gselect) : list token :=
      match s with GSelect explain _ _ _ _ _ _ _ =>
        (if explain then [Tok T_EXPLAIN "EXPLAIN"] else []) ++ [Tok T_SELECT "SELECT"] end.
    Definition trest_select (s : gselect) : list token :=
      match s with GSelect _ al cols from w g o l =>
        ((if al then op "*" :: (match cols with [] => [] | _ => [op ","] end) else []) ++ tsep tcol cols) ++
        ((Tok T_FROM "FROM" :: tplugin from) ++
         (tmaybe (fun w => Tok T_WHERE "WHERE" :: tcomma w) w ++
          (tmaybe (fun g => Tok T_GROUPBY "GROUP BY" :: tcomma g) g ++
           (tmaybe (fun o : string * bool => Tok T_ORDERBY "ORDER BY" :: tident (fst o) ::
                       (if snd o then [Tok T_DESC "DESC"] else [])) o ++
            tmaybe (fun l => [Tok T_LIMIT "LIMIT"; Tok T_Number (print_int l)]) l))))
      end.
    Lemma tselect_split s : tselect s = thead s ++ trest_select s.
    Proof. destruct s. cbn [tselect thead trest_select]. rewrite <- !app_assoc. cbn [app]. now rewrite <- ?app_assoc. Qed.
    Lemma rselect_split s bl v : rselect s bl v = (select_head s >>> select_rest s bl) v.
    Proof. now destruct s. Qed.

    Lemma rest_step s bl : ok_select s -> clean_select s = true -> firms (trest_select s) = true ->
      List.length (trest_select s) < n -> run Loose (select_rest s bl) (trest_select s) Broken.
    Proof.
      destruct s as [explain al cols from w g k l]. cbn [ok_select clean_select trest_select select_rest].
      intros (K1 & K2 & K3 & K4 & K5 & K6 & K7) C F L.
      apply andb_true_iff in C as (C & C4). apply andb_true_iff in C as (C & C3).
      apply andb_true_iff in C as (C1 & C2). rewrite all_in in K1. rewrite allb_in in C1.
      rewrite !app_length in L. cbn [List.length] in L.
      rewrite !firms_app in F. apply and_split in F as (FC & F). apply and_split in F as (FF & F).
      apply and_split in F as (FW & F). apply and_split in F as (FG & F). apply and_split in F as (FO & FL).
      apply and_split in FC as (_ & FC). rewrite firms_cons in FF. apply and_split in FF as (_ & FF).
      assert (CR : forall i c, In c cols -> run Pending (rcol c i bl) (tcol c) Broken).
      { intros i c I. apply col_runs; auto; [now apply (firms_sep tcol cols)|].
        pose proof (length_tsep_in tcol cols c I). lia. }
      pose proof (run_cols al bl cols CR) as CS.
      apply run_then_quiet; [apply quiet_maybe|].
      match goal with |- ReformatProofs.run _ (?A >>> ?B >>> ?C >>> ?D >>> ?E >>> ?G) _ _ =>
        change (run Loose (A >>> (B >>> (C >>> (D >>> (E >>> G))))) (trest_select (GSelect explain al cols from w g k l)) Broken) end.
      cbn [trest_select].
      apply run_seq with (Q := Broken).
      { apply run_abtest. intros d [->|(_ & I)].
        - apply run_then_quiet; [exact quiet_pop|]. apply run_after_quiet; [exact quiet_push|]. exact CS.
        - destruct I as [<-|[]]. do 2 (apply run_then_quiet; [exact quiet_pop|]).
          apply (run_opened _ _ _ CS). }
      apply run_seq with (Q := Broken).
      { apply (run_clause bl "FROM"); [reflexivity|kwd|]. apply plugin_runs; auto. lia. }
      apply run_seq with (Q := Broken).
      { apply run_maybe. intros c ->. cbn [tmaybe] in FW. rewrite firms_cons in FW. apply and_split in FW as (_ & FW).
        apply (run_clause bl "WHERE"); [reflexivity|kwd|].
        apply comma_runs; auto. cbn [tmaybe List.length] in L. lia. }
      apply run_seq with (Q := Broken).
      { apply run_maybe. intros c ->. cbn [tmaybe] in FG. rewrite firms_cons in FG. apply and_split in FG as (_ & FG).
        apply (run_clause bl "GROUP BY" _ (push_indent >>> rcomma c bl)); [reflexivity|kwd|].
        apply run_after_quiet; [exact quiet_push|].
        apply comma_runs; auto. cbn [tmaybe List.length] in L. lia. }
      apply run_seq with (Q := Broken); [now apply run_order|].
      apply run_maybe. intros z ->. cbn [tmaybe] in FL. rewrite !firms_cons in FL.
      apply and_split in FL as (_ & FL). apply and_split in FL as (FL & _). now apply run_limit.
    Qed.

    Lemma select_step s bl : ok_select s -> clean_select s = true -> firms (tselect s) = true ->
      List.length (tselect s) <= n -> run Pending (rselect s bl) (tselect s) Broken.
    Proof.
      intros K C F L. rewrite tselect_split in *. rewrite firms_app in F. apply and_split in F as (_ & F).
      rewrite app_length in L. intros v t0 H. rewrite rselect_split. revert v t0 H.
      change (run Pending (select_head s >>> select_rest s bl) (thead s ++ trest_select s) Broken).
      apply run_seq with (Q := Loose).
      - destruct s as [explain al cols from w g k l]. cbn [select_head thead].
        apply run_seq with (Q := Pending).
        + destruct explain; [|apply run_skip].
          apply run_post with (Q := Loose); [exact loose_pending|].
          apply run_open; [reflexivity|apply (word_loose "EXPLAIN"); kwd|reflexivity].
        + apply run_open; [reflexivity|apply (word_loose "SELECT"); kwd|reflexivity].
      - apply rest_step; auto. destruct s as [explain al cols from w g k l]. cbn [thead] in L.
        rewrite app_length in L. cbn [List.length] in L. lia.
    Qed.
  End Statements.
End Ladder.

Section Knot.
  Variable o : options.
  Lemma knot_runs n :
    (forall v bl, ok_value v -> clean_value v = true -> firms (tvalue v) = true -> List.length (tvalue v) < n ->
      run Pending (rvalue o v bl) (tvalue v) Broken) /\
    (forall s bl, ok_select s -> clean_select s = true -> firms (tselect s) = true -> List.length (tselect s) < n ->
      run Pending (rselect o s bl) (tselect s) Broken).
  Proof.
    induction n as [|n (V & S)]; [split; intros; lia|].
    split; intros x bl K C F L.
    - apply value_step with (n := n); auto. lia.
    - apply select_step with (n := n); auto. lia.
  Qed.
  Lemma value_runs v bl : ok_value v -> clean_value v = true -> firms (tvalue v) = true ->
    run Pending (rvalue o v bl) (tvalue v) Broken.
  Proof. intros. apply (proj1 (knot_runs (S (List.length (tvalue v))))); auto. Qed.
  Lemma select_runs s bl : ok_select s -> clean_select s = true -> firms (tselect s) = true ->
    run Pending (rselect o s bl) (tselect s) Broken.
  Proof. intros. apply (proj2 (knot_runs (S (List.length (tselect s))))); auto. Qed.
  Lemma and_expr_runs e bl : ok_and e -> clean_and e = true -> firms (tand e) = true ->
    run Pending (rand o e bl) (tand e) Broken.
  Proof.
    intros K C F. apply and_runs with (n := S (List.length (tand e))); auto. intros; now apply value_runs.
  Qed.
  Lemma arg_expr_runs a bl : ok_arg a -> clean_arg a = true -> firms (targ a) = true ->
    run Pending (rarg o a bl) (targ a) Broken.
  Proof.
    intros K C F. apply arg_runs with (n := S (List.length (targ a))); auto; intros;
      [now apply value_runs|now apply select_runs].
  Qed.
  Lemma rest_runs s bl : ok_select s -> clean_select s = true -> firms (trest_select s) = true ->
    run Loose (select_rest o s bl) (trest_select s) Broken.
  Proof.
    intros. apply rest_step with (n := S (List.length (trest_select s))); auto; intros;
      [now apply value_runs|now apply select_runs].
  Qed.

  Lemma param_runs ps bl p : NoDup (map param_name ps) -> In p ps -> ok_param p -> clean_param p = true ->
    firms (tparam p) = true -> run Pending (rparam o bl ps p) (tparam p) Broken.
  Proof.
    intros D I K C F. unfold rparam. rewrite default_for_self by assumption.
    destruct p as [a|s]; cbn [ok_param clean_param tparam param_name] in *.
    - now apply arg_expr_runs.
    - apply String.eqb_eq in C. rewrite C. pieces F. now apply run_word.
  Qed.

  (** ** Statements one after another *)

  (** The words a statement begins with, and all the rest of it. *)
  Definition vql_head (x : gvql) : rvisit :=
    match x with GLet _ _ _ _ _ => rpush "LET " | GQuery s => select_head s end.
  Definition tvql_head (x : gvql) : list token :=
    match x with GLet _ _ _ _ _ => [Tok T_LET "LET"] | GQuery s => thead s end.
  Definition vql_rest (bl : bool) (x : gvql) : rvisit :=
    match x with
    | GLet name called ps p body =>
        rpush name >>>
        (match ps with
         | [] => rskip
         | _ => rpush "(" >>> rseparated (fun _ => rparam o bl ps) rskip 0 ps >>> rpush ")"
         end) >>>
        (rpush " " >>> rpush p >>> rpush " ") >>> indent_in >>>
        (match body with inl s => rselect o s bl | inr e => rand o e bl end) >>> pop_indent
    | GQuery s => select_rest o s bl
    end.
  Definition tvql_rest (x : gvql) : list token :=
    match x with
    | GLet name called ps p body =>
        [tident name] ++ ((if called then tcall tparam ps else []) ++
          ([op p] ++ (match body with inl s => tselect s | inr e => tand e end)))
    | GQuery s => trest_select s
    end.
  Lemma tvql_split x : tvql x = tvql_head x ++ tvql_rest x.
  Proof. destruct x as [name called ps p body|s]; [reflexivity|]. apply tselect_split. Qed.
  Lemma rvql_split x bl v : rvql o bl x v = restart (rline_break bl (vql_rest bl x (vql_head x v))).
  Proof. destruct x as [name called ps p body|s]; [reflexivity|]. unfold rvql, rthen. now rewrite rselect_split. Qed.

  Lemma vql_rest_runs x bl : ok_vql x -> clean_vql x = true -> firms (tvql x) = true ->
    run Loose (vql_rest bl x) (tvql_rest x) Broken.
  Proof.
    intros K C F. rewrite tvql_split, firms_app in F. apply and_split in F as (_ & F). revert K C F.
    destruct x as [name called ps p body|s]; cbn [ok_vql clean_vql tvql_rest vql_rest]; intros K C F.
    2:{ now apply rest_runs. }
    destruct K as (K1 & K2 & K3 & K4 & K5).
    apply andb_true_iff in C as (C & C4). apply andb_true_iff in C as (C & C3).
    apply andb_true_iff in C as (C1 & C2). apply distinct_spec in C3. rewrite all_in in K3. rewrite allb_in in C2.
    rewrite !firms_app, firms_cons in F. apply and_split in F as (FN & F). apply and_split in FN as (FN & _).
    apply and_split in F as (FP & F). apply and_split in F as (_ & F).
    apply run_then_quiet; [exact quiet_pop|].
    match goal with |- ReformatProofs.run _ (?A >>> ?B >>> ?C >>> ?D >>> ?E) ?ts _ =>
      change (run Loose (A >>> (B >>> (C >>> (D >>> E)))) ts Broken) end.
    apply run_seq with (Q := Broken); [apply run_loose; now apply run_word|].
    apply run_seq with (Q := Broken).
    - destruct ps as [|q ps].
      + destruct called; [discriminate C1|apply run_skip].
      + destruct K2 as [->|K2]; [|discriminate K2]. unfold tcall in *.
        rewrite firms_cons, firms_app in FP. apply and_split in FP as (_ & FP). apply and_split in FP as (FP & _).
        apply run_broken.
        match goal with |- ReformatProofs.run _ (?A >>> ?B >>> ?C) (op "(" :: ?ts ++ [op ")"]) _ =>
          change (run Broken (A >>> (B >>> C)) ([op "("] ++ (ts ++ [op ")"])) Loose) end.
        apply run_seq with (Q := Loose); [apply run_close; [reflexivity|lit|reflexivity]|].
        apply run_seq with (Q := Broken); [|apply run_close; [reflexivity|lit|reflexivity]].
        apply run_loose, run_separated; [apply run_skip|discriminate|].
        intros i a I. apply param_runs; auto. now apply (firms_sep tparam (q :: ps)).
    - apply run_seq with (Q := Loose).
      + apply run_spaced, kw_op. destruct K4 as [->| ->]; cbn; tauto.
      + apply run_after_quiet; [exact quiet_in|].
        apply run_loose. destruct body as [s|e]; [now apply select_runs|now apply and_expr_runs].
  Qed.

  (** Where a statement may begin. *)
  Definition ready (l : list string) (ts : list token) : Prop := ended (joined l) ts.
  Lemma ready_word k t v ts : kw k t -> all_blank (k ++ " ") = false -> ready (frags v) ts ->
    holds Loose (frags (rpush (k ++ " ") v)) (ts ++ [t]).
  Proof.
    intros K NB R. split; cbn [rpush frags last_of]; [|congruence]. rewrite joined_cons. cbn [base].
    intros r rs L. rewrite sapp_assoc, <- app_assoc. apply R.
    - pose proof (kw_nonempty k t K). destruct K as (_ & _ & F & _). destruct k; [contradiction|exact F].
    - apply (kw_brk k t " " r K gap_one).
    - now apply word_loose.
  Qed.
  Lemma ready_head x v ts : ready (frags v) ts -> holds Loose (frags (vql_head x v)) (ts ++ tvql_head x).
  Proof.
    intro R. destruct x as [name called ps p body|s]; cbn [vql_head tvql_head].
    - apply (ready_word "LET"); [kwd|reflexivity|exact R].
    - destruct s as [explain al cols from w g k l]. cbn [select_head thead]. destruct explain; cbn [app].
      + unfold rthen. change [Tok T_EXPLAIN "EXPLAIN"; Tok T_SELECT "SELECT"]
          with ([Tok T_EXPLAIN "EXPLAIN"] ++ [Tok T_SELECT "SELECT"]). rewrite app_assoc.
        assert (H : run Loose (rpush "SELECT ") [Tok T_SELECT "SELECT"] Loose).
        { apply run_loose, run_open; [reflexivity|apply (word_loose "SELECT"); kwd|reflexivity]. }
        apply H. apply (ready_word "EXPLAIN"); [kwd|reflexivity|exact R].
      + apply (ready_word "SELECT"); [kwd|reflexivity|exact R].
  Qed.
  Lemma blank_break v : exists l z z', frags (rline_break true v) = repeat_space z :: String nl "" :: l /\
    frags (rline_break true (restart (rline_break true v))) = repeat_space z' :: String nl "" :: String nl "" :: l.
  Proof.
    destruct (break_frags v) as (l & z & E & EL). exists l, z.
    destruct (break_frags (restart (rline_break true v))) as (l2 & z2 & E2 & EL2). exists z2.
    split; [exact E|]. rewrite E2, EL2. unfold rlast. cbn [restart frags]. rewrite E.
    assert (B : all_blank (repeat_space z) = true) by (apply all_blank_gap, gap_blanks).
    now rewrite B.
  Qed.
  Lemma needs_twice v : needs (last_of (frags (rline_break false v))) = false.
  Proof. rewrite flat_break. destruct (needs (last_of (frags v))) eqn:E; [reflexivity|exact E]. Qed.
  (** ... and where the text may end. *)
  Definition done (l : list string) (ts : list token) : Prop := Lexes (trim (joined l)) ts.
  Lemma brk_blank g : sall is_gap g = true -> brk (trim g) = true /\ Lexes (trim g) [].
  Proof.
    intro G. rewrite <- (sapp_nil_r g). destruct (trim_gap g "" G) as (g' & E & G' & _). rewrite E. split.
    - destruct g' as [|c g']; [reflexivity|]. apply brk_gaps; [exact G'|discriminate|reflexivity].
    - apply Lexes_gaps; [exact G'|constructor].
  Qed.
  Lemma two_breaks bl v ts : holds Broken (frags v) ts ->
    ready (frags (rline_break bl (restart (rline_break bl v)))) ts /\
    done (frags (rline_break bl (restart (rline_break bl v)))) ts.
  Proof.
    intro H. destruct bl.
    - destruct (blank_break v) as (l & z & z' & E1 & E2). destruct (break_frags v) as (l' & z1 & E & EL).
      rewrite E1 in E. injection E as _ <-. rewrite E2. unfold ready, done.
      assert (G : gap (String nl "" ++ String nl "" ++ repeat_space z')).
      { split; [apply gap_blanks|discriminate]. }
      assert (J : joined (repeat_space z' :: String nl "" :: String nl "" :: l) =
                  (joined l ++ (String nl "" ++ String nl "" ++ repeat_space z'))%string).
      { rewrite broken_joined, joined_cons. apply sapp_assoc. }
      rewrite J. set (g := (String nl "" ++ String nl "" ++ repeat_space z')%string) in *.
      destruct H as ((H & _) & K). destruct (brk_blank g (proj1 G)) as (B & L).
      destruct (all_blank (rlast v)) eqn:BL; subst l.
      + specialize (K BL g G). split.
        * intros x r rs _ _ LX. now apply K.
        * rewrite <- (sapp_nil_r (_ ++ g)), <- (app_nil_r ts). apply K. constructor.
      + split.
        * intros x r rs X BX LX. rewrite sapp_assoc. now apply spells_gap.
        * rewrite <- (app_nil_r ts). apply H; [exact B|exact L].
    - assert (S : frags (rline_break false (restart (rline_break false v))) = frags (rline_break false v)).
      { rewrite (flat_break (restart _)). cbn [restart frags]. now rewrite needs_twice. }
      rewrite S. split; [now apply break_ended|]. unfold done. rewrite flat_break.
      destruct H as ((H & D) & _). rewrite <- (app_nil_r ts). destruct (needs _).
      + cbn [rpush frags]. rewrite joined_cons. apply H; [reflexivity|constructor].
      + rewrite <- (sapp_nil_r (joined _)). apply H; [reflexivity|constructor].
  Qed.

  Lemma all_runs bl l : Forall ok_vql l -> forallb clean_vql l = true -> firms (flat_map tvql l) = true ->
    forall v ts, ready (frags v) ts -> done (frags v) ts -> done (frags (rall o bl l v)) (ts ++ flat_map tvql l).
  Proof.
    induction l as [|x l IH]; intros K C F v ts R D; [now rewrite app_nil_r|].
    inversion K as [|? ? K1 K2]; subst. cbn [forallb] in C. apply andb_true_iff in C as (C1 & C2).
    cbn [flat_map] in F. rewrite firms_app in F. apply and_split in F as (F1 & F2).
    unfold rall. cbn [reach fold_right flat_map]. unfold rthen. fold (reach (fun x => rvql o bl x >>> rline_break bl) l).
    rewrite rvql_split, app_assoc.
    assert (H : holds Broken (frags (vql_rest bl x (vql_head x v))) (ts ++ tvql x)).
    { rewrite tvql_split, app_assoc. apply vql_rest_runs; auto. now apply ready_head. }
    destruct (two_breaks bl _ _ H) as (R' & D').
    apply IH; auto.
  Qed.

  Lemma reformat_lexes bl l : Forall ok_vql l -> forallb clean_vql l = true -> firms (flat_map tvql l) = true ->
    Lexes (reformat o bl l) (flat_map tvql l).
  Proof.
    intros K C F. unfold reformat. rewrite trim_lines_trim. unfold rtext.
    apply (all_runs bl l K C F rstate0 []).
    - intros x r rs _ _ L. exact L.
    - constructor.
  Qed.
End Knot.
