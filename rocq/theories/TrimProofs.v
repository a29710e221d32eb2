(** A space at the end of a text adds no token. *)

From Coq Require Import ZArith List String Ascii Bool Lia.
From Verif Require Import Base F64 Text Lexer Numeral Grammar Parser Format Spelling.
From Verif Require Import LexProofs NumeralProofs FloatText ParseProofs FormatProofs.
Import ListNotations.
Open Scope nat_scope.
Open Scope string_scope.
Open Scope list_scope.

Section Quiet.
  (** What strings.TrimSpace removes. *)
  Variable c : ascii.
  Hypothesis Q : is_space c || Ascii.eqb c "011" = true.
  Notation "u +c" := (u ++ String c "")%string (at level 40).

  Ltac quiet := first [apply orb_true_iff in Q as [Q'|Q']; char_dis Q' | char_dis Q].

  Definition keep (o : option (string * string)) : option (string * string) :=
    match o with Some (v, r) => Some (v, r +c) | None => None end.

  Lemma span_quiet p u : p c = false -> span p (u +c) = (fst (span p u), snd (span p u) +c).
  Proof.
    intro P. induction u as [|x u IH]; cbn [String.append span].
    - now rewrite P.
    - destruct (p x); [|reflexivity]. rewrite IH. now destruct (span p u).
  Qed.

  Fixpoint without (s : string) : bool :=
    match s with "" => true | String x r => negb (Ascii.eqb x c) && without r end.
  Lemma prefix_quiet pat : without pat = true -> forall u,
    strip_prefix pat (u +c) = option_map (fun r => r +c) (strip_prefix pat u).
  Proof.
    induction pat as [|x pat IH]; intros W u; [reflexivity|]. cbn [without] in W.
    apply andb_true_iff in W as (X & W). destruct u as [|y u]; cbn [String.append strip_prefix].
    - apply negb_true_iff in X. now rewrite X.
    - destruct (Ascii.eqb x y); [now apply IH|reflexivity].
  Qed.
  Lemma until_quiet pat : pat <> "" -> without pat = true -> forall u, until pat (u +c) = keep (until pat u).
  Proof.
    intros N W. induction u as [|y u IH]; cbn [String.append].
    - cbn [until]. pose proof (prefix_quiet pat W "") as P. cbn [String.append] in P. rewrite P.
      destruct pat as [|x pat]; [contradiction|]. reflexivity.
    - cbn [until]. pose proof (prefix_quiet pat W (String y u)) as P. cbn [String.append] in P. rewrite P.
      destruct (strip_prefix pat (String y u)) as [r|]; cbn [option_map]; [reflexivity|].
      rewrite IH. destruct (until pat u) as [(a, b)|]; reflexivity.
  Qed.
  Lemma without_chars s : sall (fun x => negb (is_space x || Ascii.eqb x "011")) s = true -> without s = true.
  Proof.
    induction s as [|x s IH]; [reflexivity|]. cbn [sall without]. intro H.
    apply andb_true_iff in H as (X & H). rewrite IH by exact H. rewrite andb_true_r.
    destruct (Ascii.eqb_spec x c) as [->|]; [|reflexivity]. rewrite Q in X. discriminate X.
  Qed.
  Ltac clean_pat := apply without_chars; reflexivity.

  Lemma quiet_word : is_word c = false.
  Proof. char_dis Q. Qed.
  Lemma quiet_digit : is_digit c = false.
  Proof. char_dis Q. Qed.
  Lemma quiet_hex : is_hex c = false.
  Proof. char_dis Q. Qed.
  Lemma quiet_bar : Ascii.eqb "|" c = false.
  Proof. rewrite Ascii.eqb_sym. char_dis Q. Qed.
  Lemma quiet_char x : (is_space x || Ascii.eqb x "011") = false -> Ascii.eqb c x = false.
  Proof. intro X. destruct (Ascii.eqb_spec c x) as [<-|]; [congruence|reflexivity]. Qed.

  Lemma mline_quiet u : mline_comment (u +c) = keep (mline_comment u).
  Proof.
    unfold mline_comment. rewrite prefix_quiet by clean_pat.
    destruct (strip_prefix "/*" u) as [r|]; cbn [option_map]; [|reflexivity].
    rewrite until_quiet; [|discriminate|clean_pat]. now destruct (until "*/" r) as [(a, b)|].
  Qed.
  (** The text of a comment may grow. *)
  Lemma line_quiet m u : without m = true ->
    line_comment m (u +c) = None -> line_comment m u = None.
  Proof.
    intro W. unfold line_comment. rewrite prefix_quiet by exact W.
    destruct (strip_prefix m u); cbn [option_map]; [|reflexivity]. now destruct (span _ _).
  Qed.
  Lemma alt_or_quiet u : alt_or (u +c) = keep (alt_or u).
  Proof.
    unfold alt_or. rewrite span_quiet by apply quiet_bar. destruct (span _ u) as (a, b). cbn [fst snd].
    now destruct (String.eqb a "").
  Qed.
  Lemma alt_and_quiet u : alt_and (u +c) = keep (alt_and u).
  Proof.
    unfold alt_and. rewrite prefix_quiet by clean_pat. now destruct (strip_prefix "&&" u).
  Qed.
  Lemma exponent_quiet u : exponent (u +c) = (fst (exponent u), snd (exponent u) +c).
  Proof.
    destruct u as [|e r]; cbn [String.append exponent].
    - rewrite !quiet_char by reflexivity. reflexivity.
    - destruct (Ascii.eqb e "e" || Ascii.eqb e "E"); [|reflexivity].
      destruct r as [|x r1]; cbn [String.append].
      + rewrite !quiet_char by reflexivity. cbn [orb]. cbv iota. cbn [span]. rewrite quiet_digit. reflexivity.
      + destruct (Ascii.eqb x "-" || Ascii.eqb x "+").
        * rewrite span_quiet by apply quiet_digit. destruct (span is_digit r1) as (d, r2). cbn [fst snd].
          now destruct (String.eqb d "").
        * change (String x (r1 +c)) with (String x r1 +c). rewrite span_quiet by apply quiet_digit.
          destruct (span is_digit (String x r1)) as (d, r2). cbn [fst snd]. now destruct (String.eqb d "").
  Qed.
  Lemma decimal_quiet u : decimal (u +c) = keep (decimal u).
  Proof.
    unfold decimal. rewrite span_quiet by apply quiet_digit. destruct (span is_digit u) as (d1, r1). cbn [fst snd].
    cbv zeta. match goal with |- match ?A with _ => _ end = keep (match ?B with _ => _ end) => set (M' := A); set (M := B) end.
    assert (E : M' = keep M).
    { subst M M'. assert (PL : (if String.eqb d1 "" then None else Some (d1, r1 +c)) =
                                keep (if String.eqb d1 "" then None else Some (d1, r1))) by now destruct (String.eqb d1 "").
      destruct r1 as [|x r2]; cbn [String.append] in *.
      - rewrite quiet_char by reflexivity. exact PL.
      - destruct (Ascii.eqb x "."); [|exact PL]. rewrite span_quiet by apply quiet_digit.
        destruct (span is_digit r2) as (d2, r3). cbn [fst snd]. destruct (String.eqb d2 ""); [exact PL|reflexivity]. }
    rewrite E. destruct M as [(m, r)|]; cbn [keep]; [|reflexivity].
    rewrite exponent_quiet. now destruct (exponent r).
  Qed.
  Lemma unsigned_quiet u : unsigned_number (u +c) = keep (unsigned_number u).
  Proof.
    unfold unsigned_number. rewrite prefix_quiet by clean_pat.
    destruct (strip_prefix "0x" u) as [r|]; cbn [option_map]; [|apply decimal_quiet].
    rewrite span_quiet by apply quiet_hex. destruct (span is_hex r) as (h, r1). cbn [fst snd].
    destruct (String.eqb h ""); [apply decimal_quiet|reflexivity].
  Qed.
  Lemma number_quiet u : number (u +c) = keep (number u).
  Proof.
    destruct u as [|x u]; cbn [String.append number].
    - rewrite quiet_char by reflexivity. apply (unsigned_quiet "").
    - destruct (Ascii.eqb x "-"); [|apply (unsigned_quiet (String x u))].
      rewrite unsigned_quiet. now destruct (unsigned_number u) as [(a, b)|].
  Qed.
  Lemma span_upto x u : x <> c ->
    span (fun y => negb (Ascii.eqb y x)) (u +c) =
    let (a, b) := span (fun y => negb (Ascii.eqb y x)) u in
    match b with "" => (a +c, "") | _ => (a, b +c) end.
  Proof.
    intro N. induction u as [|y u IH]; cbn [String.append span].
    - destruct (Ascii.eqb_spec c x); [congruence|reflexivity].
    - destruct (Ascii.eqb y x); cbn [negb]; [reflexivity|]. rewrite IH.
      destruct (span _ u) as (a, b). now destruct b.
  Qed.
  Lemma quoted_quiet u : quoted_ident (u +c) = keep (quoted_ident u).
  Proof.
    destruct u as [|x u]; cbn [String.append quoted_ident].
    - now rewrite quiet_char.
    - destruct (Ascii.eqb x bquote); [|reflexivity]. rewrite span_upto.
      + destruct (span _ u) as (a, b). destruct b as [|y b].
        * destruct (a +c) eqn:E; destruct a; reflexivity.
        * destruct a; reflexivity.
      + intros <-. discriminate Q.
  Qed.
  Lemma symbol_quiet u : symbol_ident (u +c) = keep (symbol_ident u).
  Proof.
    destruct u as [|x u]; cbn [String.append symbol_ident].
    - now rewrite quiet_char.
    - destruct (Ascii.eqb x "-"); [|reflexivity]. destruct u as [|y u]; cbn [String.append].
      + assert (is_alpha c = false) as -> by char_dis Q. cbn [quoted_ident]. now rewrite quiet_char.
      + change (String y (u +c)) with (String y u +c). destruct (is_alpha y).
        * rewrite span_quiet by apply quiet_word. now destruct (span is_word (String y u)).
        * rewrite quoted_quiet. now destruct (quoted_ident (String y u)) as [(a, b)|].
  Qed.
  Lemma operators_quiet l u : forallb without l = true -> operator_in l (u +c) = keep (operator_in l u).
  Proof.
    induction l as [|o l IH]; [reflexivity|]. cbn [forallb operator_in]. intro W.
    apply andb_true_iff in W as (O & W). rewrite prefix_quiet by exact O.
    destruct (strip_prefix o u); cbn [option_map]; [reflexivity|]. now apply IH.
  Qed.
  Lemma operators_without : forallb without operators = true.
  Proof.
    apply forallb_forall. intros o I. apply without_chars. revert o I. apply forallb_forall. reflexivity.
  Qed.
  Lemma multiline_quiet u : multiline_string (u +c) = keep (multiline_string u).
  Proof.
    unfold multiline_string. rewrite prefix_quiet by clean_pat.
    destruct (strip_prefix triple u) as [r|]; cbn [option_map]; [|reflexivity].
    rewrite until_quiet; [|discriminate|clean_pat]. now destruct (until triple r) as [(a, b)|].
  Qed.
  Lemma body_quiet q : Ascii.eqb c q = false -> forall n u, String.length u <= n ->
    string_body q (u +c) = keep (string_body q u).
  Proof.
    intro N. induction n as [|n IH]; intros u L.
    { destruct u; [|cbn in L; lia]. cbn [String.append string_body]. rewrite N.
      now rewrite quiet_char. }
    destruct u as [|x u]; cbn [String.append string_body].
    - rewrite N. now rewrite quiet_char.
    - cbn in L. destruct (Ascii.eqb x q); [reflexivity|]. destruct (Ascii.eqb x bslash).
      + destruct u as [|y u]; cbn [String.append]; [reflexivity|].
        rewrite IH by (cbn in L; lia). now destruct (string_body q u) as [(a, b)|].
      + rewrite IH by lia. now destruct (string_body q u) as [(a, b)|].
  Qed.
  Lemma string_quiet u : quoted_string (u +c) = keep (quoted_string u).
  Proof.
    destruct u as [|x u]; cbn [String.append quoted_string].
    - now rewrite !quiet_char.
    - destruct (Ascii.eqb x squote || Ascii.eqb x dquote) eqn:X; [|reflexivity].
      rewrite (body_quiet x) with (n := String.length u); [now destruct (string_body x u) as [(a, b)|]| |lia].
      apply quiet_char. apply orb_true_iff in X as [X|X]; apply Ascii.eqb_eq in X; now subst x.
  Qed.
  Lemma by_quiet u : by_follows (u +c) = keep (by_follows u).
  Proof.
    pose proof quiet_word as QW. unfold by_follows. destruct (is_space c) eqn:S.
    - (* the spaces may now go on to the end *)
      assert (SP : forall u, span is_space (u +c) =
                let (a, b) := span is_space u in match b with "" => (a +c, "") | _ => (a, b +c) end).
      { clear u. induction u as [|y u IH]; cbn [String.append span]; [now rewrite S|].
        destruct (is_space y); [|reflexivity]. rewrite IH. destruct (span is_space u) as (a, b). now destruct b. }
      rewrite SP. destruct (span is_space u) as (a, b). destruct b as [|y b].
      + cbn [span]. rewrite !andb_false_r. reflexivity.
      + rewrite span_quiet by exact QW. destruct (span is_word (String y b)) as (w, r). cbn [fst snd].
        now destruct (_ && _).
    - rewrite span_quiet by exact S. destruct (span is_space u) as (a, b). cbn [fst snd].
      rewrite span_quiet by exact QW. destruct (span is_word b) as (w, r). cbn [fst snd].
      now destruct (_ && _).
  Qed.
  Lemma word_quiet u : word_token (u +c) = (fst (word_token u), snd (word_token u) +c).
  Proof.
    unfold word_token. rewrite span_quiet by apply quiet_word. destruct (span is_word u) as (w, r). cbn [fst snd].
    destruct (keyword_of w); [reflexivity|]. rewrite by_quiet.
    destruct (by_follows r) as [(b, r2)|]; cbn [keep]; [|reflexivity].
    destruct (String.eqb (upper w) "GROUP"); [reflexivity|].
    destruct (String.eqb (upper w) "ORDER"); reflexivity.
  Qed.

  Definition keep_rule (o : option (token * string)) : option (token * string) :=
    match o with Some (t, r) => Some (t, r +c) | None => None end.
  Lemma later_quiet u : first_rule later_rules (u +c) = keep_rule (first_rule later_rules u).
  Proof.
    unfold later_rules. cbn [first_rule].
    rewrite alt_or_quiet. destruct (alt_or u) as [(v, r)|]; [reflexivity|]. cbn [keep].
    rewrite alt_and_quiet. destruct (alt_and u) as [(v, r)|]; [reflexivity|]. cbn [keep].
    rewrite number_quiet. destruct (number u) as [(v, r)|]; [reflexivity|]. cbn [keep].
    rewrite quoted_quiet. destruct (quoted_ident u) as [(v, r)|]; [reflexivity|]. cbn [keep].
    rewrite symbol_quiet. destruct (symbol_ident u) as [(v, r)|]; [reflexivity|]. cbn [keep].
    rewrite operators_quiet by apply operators_without.
    destruct (operator_in operators u) as [(v, r)|]; [reflexivity|]. cbn [keep].
    rewrite multiline_quiet. destruct (multiline_string u) as [(v, r)|]; [reflexivity|]. cbn [keep].
    rewrite string_quiet. destruct (quoted_string u) as [(v, r)|]; reflexivity.
  Qed.

  Lemma first_char_quiet p x u : first_char p (String x u +c) = first_char p (String x u).
  Proof. reflexivity. Qed.
  Lemma lex1_quiet x u t r : is_comment t = false ->
    lex1 (String x u +c) = Some (Some t, r) ->
    exists r', r = r' +c /\ lex1 (String x u) = Some (Some t, r').
  Proof.
    intro NC. unfold lex1. rewrite first_char_quiet.
    destruct (first_char is_space (String x u)) eqn:S; [discriminate|].
    cbn [first_rule]. rewrite mline_quiet.
    destruct (mline_comment (String x u)) as [(v, q)|]; cbn [keep].
    { intros [= <- <-]. discriminate NC. }
    destruct (line_comment "--" (String x u +c)) as [(v, q)|] eqn:L1.
    { intros [= <- <-]. discriminate NC. }
    rewrite (line_quiet "--" _ ltac:(clean_pat) L1).
    destruct (line_comment "//" (String x u +c)) as [(v, q)|] eqn:L2.
    { intros [= <- <-]. discriminate NC. }
    rewrite (line_quiet "//" _ ltac:(clean_pat) L2).
    rewrite first_char_quiet. destruct (first_char is_alpha (String x u)).
    - rewrite word_quiet. destruct (word_token (String x u)) as (t', r'). cbn [fst snd].
      intros [= <- <-]. now exists r'.
    - pose proof (later_quiet (String x u)) as Y. unfold later_rules in Y. cbn [first_rule] in Y. rewrite Y.
      match goal with |- context [keep_rule ?b] => destruct b as [(t', r')|] eqn:E end; cbn [keep_rule]; [|discriminate].
      intros [= <- <-]. now exists r'.
  Qed.
  Lemma span_space_quiet u :
    snd (span is_space (u +c)) = snd (span is_space u) +c \/ snd (span is_space (u +c)) = snd (span is_space u).
  Proof.
    destruct (is_space c) eqn:SC.
    - induction u as [|y u IH]; cbn [String.append span]; [rewrite SC; now right|].
      destruct (is_space y); [|now left]. destruct (span is_space (u +c)), (span is_space u). exact IH.
    - rewrite span_quiet by exact SC. now left.
  Qed.
  Lemma lex1_quiet_skip x u r :
    lex1 (String x u +c) = Some (None, r) ->
    lex1 (String x u) = Some (None, snd (span is_space (String x u))) /\
    (r = snd (span is_space (String x u)) +c \/ r = snd (span is_space (String x u))).
  Proof.
    unfold lex1. rewrite first_char_quiet. destruct (first_char is_space (String x u)) eqn:S.
    - intros [= <-]. split; [reflexivity|]. apply (span_space_quiet (String x u)).
    - destruct (first_rule _ _) as [(t, q)|]; [discriminate|].
      destruct (first_char is_alpha _); [now destruct (word_token _)|].
      destruct (first_rule _ _) as [(t, q)|]; discriminate.
  Qed.

  Lemma Lexes_quiet s ts : Lexes s ts -> forallb (fun t => negb (is_comment t)) ts = true ->
    forall u, s = u +c -> Lexes u ts.
  Proof.
    induction 1 as [|s r ts E L R IH|s t r ts E L R IH]; intros NC u EU; [destruct u; discriminate| |];
      subst s.
    - destruct u as [|x u].
      + cbn [String.append] in *. destruct r; [|cbn in L; lia]. exact R.
      + destruct (lex1_quiet_skip x u r E) as (E' & [D|D]).
        * apply LSkip with (r := snd (span is_space (String x u))); [exact E'| |now apply IH].
          unfold lex1 in E'. destruct (first_char is_space (String x u)) eqn:F.
          -- cbn [first_char] in F. cbn [span]. rewrite F. destruct (span is_space u) as (a, b) eqn:SP.
             apply span_spec in SP as (-> & _ & _). cbn [snd String.length]. rewrite sapp_length. lia.
          -- destruct (first_rule _ _) as [(t, q)|]; [discriminate|].
             destruct (first_char is_alpha _); [now destruct (word_token _)|].
             destruct (first_rule _ _) as [(t, q)|]; discriminate.
        * apply LSkip with (r := r); [now rewrite D| |exact R].
          unfold lex1 in E'. destruct (first_char is_space (String x u)) eqn:F.
          -- rewrite D. cbn [first_char] in F. cbn [span]. rewrite F. destruct (span is_space u) as (a, b) eqn:SP.
             apply span_spec in SP as (-> & _ & _). cbn [snd String.length]. rewrite sapp_length. lia.
          -- destruct (first_rule _ _) as [(t, q)|]; [discriminate|].
             destruct (first_char is_alpha _); [now destruct (word_token _)|].
             destruct (first_rule _ _) as [(t, q)|]; discriminate.
    - cbn [forallb] in NC. apply andb_true_iff in NC as (NC1 & NC2). apply negb_true_iff in NC1.
      destruct u as [|x u].
      + exfalso. cbn [String.append] in E. unfold lex1 in E. cbn [first_char] in E.
        destruct (is_space c) eqn:SC; [discriminate E|]. cbn [orb] in Q. apply Ascii.eqb_eq in Q.
        rewrite Q in E. discriminate E.
      + destruct (lex1_quiet x u t r NC1 E) as (r' & -> & E'). apply LTok with (r := r'); [exact E'| |now apply IH].
        rewrite !sapp_length in L. cbn in L. cbn. lia.
  Qed.
End Quiet.

(** ** Trimming *)

Definition blank (c : ascii) : bool := is_space c || Ascii.eqb c "011".
Lemma lex1_vt s : lex1 (String "011" s) = None.
Proof. reflexivity. Qed.
Lemma Lexes_unspace c s ts : blank c = true -> Lexes (String c s) ts -> Lexes s ts.
Proof.
  intros B L. unfold blank in B. destruct (is_space c) eqn:C.
  - inversion L as [|s' r ts' E LT R|s' t r ts' E LT R]; subst.
    + unfold lex1 in E. cbn [first_char] in E. rewrite C in E. injection E as <-. cbn [span] in *. rewrite C in *.
      destruct (first_char is_space s) eqn:F.
      * apply LSkip with (r := snd (span is_space s)).
        -- unfold lex1. now rewrite F.
        -- destruct s as [|y s]; [discriminate|]. cbn [first_char] in F. cbn [span]. rewrite F.
           destruct (span is_space s) as (a, b) eqn:SP. apply span_spec in SP as (-> & _ & _).
           cbn [snd String.length]. rewrite sapp_length. lia.
        -- now destruct (span is_space s).
      * rewrite (span_none _ _ F) in R. exact R.
    + unfold lex1 in E. cbn [first_char] in E. rewrite C in E. discriminate E.
  - cbn [orb] in B. apply Ascii.eqb_eq in B. subst c. exfalso.
    inversion L as [|s' r ts' E LT R|s' t r ts' E LT R]; subst; rewrite lex1_vt in E; discriminate.
Qed.
Lemma Lexes_trim_left s ts : Lexes s ts -> Lexes (trim_left s) ts.
Proof.
  induction s as [|c s IH]; intro L; [exact L|]. cbn [trim_left]. fold (blank c). destruct (blank c) eqn:B; [|exact L].
  apply IH. now apply (Lexes_unspace c).
Qed.

Lemma list_str_app a b : list_str (a ++ b) = (list_str a ++ list_str b)%string.
Proof. induction a as [|c a IH]; [reflexivity|]. cbn. now f_equal. Qed.
Lemma list_str_inv s : list_str (str_list s) = s.
Proof. induction s as [|c s IH]; [reflexivity|]. cbn. now f_equal. Qed.
Lemma str_list_inv l : str_list (list_str l) = l.
Proof. induction l as [|c l IH]; [reflexivity|]. cbn. now f_equal. Qed.
Lemma reverse_cons c s : reverse (String c s) = (reverse s ++ String c "")%string.
Proof. unfold reverse. cbn [str_list rev]. now rewrite list_str_app. Qed.
Lemma reverse_inv s : reverse (reverse s) = s.
Proof. unfold reverse. now rewrite str_list_inv, rev_involutive, list_str_inv. Qed.

Lemma Lexes_trim s ts : Lexes s ts -> forallb (fun t => negb (is_comment t)) ts = true -> Lexes (trim_space s) ts.
Proof.
  intros L NC. unfold trim_space. apply Lexes_trim_left in L. revert L. generalize (trim_left s). clear s. intros s L.
  rewrite <- (reverse_inv s) in L. revert L. generalize (reverse s). clear s. intros s L.
  induction s as [|c s IH]; [exact L|]. cbn [trim_left]. fold (blank c). destruct (blank c) eqn:B; [|exact L].
  apply IH. rewrite reverse_cons in L. now apply (Lexes_quiet c B _ _ L NC).
Qed.
