(** Comments above statements through ReFormatVQL: what is written for them is
    read back. *)

From Coq Require Import ZArith List String Ascii Bool Lia.
From Verif Require Import Base F64 Text Lexer Numeral Grammar Parser Format Spelling.
From Verif Require Import LexProofs NumeralProofs FloatText ParseProofs FormatProofs FormatRuns RoundTrip.
From Verif Require Import Reformat ReformatProofs ReformatRuns ReformatProps Comments CommentFormat CommentProofs CommentParse.
Import ListNotations.
Open Scope nat_scope.
Open Scope string_scope.
Open Scope list_scope.

(** ** The comments of a lexed text *)

Definition line_form (mark s : string) : Prop :=
  exists b, s = (mark ++ b)%string /\ sall (fun c => negb (Ascii.eqb c nl)) b = true.
Definition multi_form (s : string) : Prop :=
  exists b, s = ("/*" ++ b)%string /\ until "*/" b = Some (b, "").
Definition formed (c : comment) : Prop :=
  match c with CVQL s => line_form "--" s | CLine s => line_form "//" s | CMulti s => multi_form s end.
Definition tformed (t : token) : Prop := forall c, t = comment_token c -> formed c.

Lemma span_all p : forall s a b, span p s = (a, b) -> sall p a = true.
Proof.
  induction s as [|c s IH]; cbn [span]; intros a b E; [now injection E as <- <-|].
  destruct (p c) eqn:P; [|now injection E as <- <-]. destruct (span p s) as (a', b').
  injection E as <- <-. cbn [sall]. rewrite P. now apply (IH a' b').
Qed.
Lemma strip_app p : forall s r, strip_prefix p s = Some r -> s = (p ++ r)%string.
Proof.
  induction p as [|c p IH]; intros s r; cbn [strip_prefix]; [now intros [= ->]|].
  destruct s as [|d s]; [discriminate|]. destruct (Ascii.eqb_spec c d) as [->|]; [|discriminate].
  intro E. now rewrite (IH _ _ E).
Qed.
Lemma until_self p : p <> "" -> forall s a b, until p s = Some (a, b) -> until p a = Some (a, "").
Proof.
  intro NP. assert (SP : forall r, strip_prefix p (p ++ r) = Some r).
  { clear NP. induction p as [|c p IH]; intro r; [reflexivity|]. cbn. now rewrite Ascii.eqb_refl. }
  assert (SX : forall a x r, strip_prefix p (a ++ x) = None -> strip_prefix p a = Some r -> False).
  { clear. induction p as [|c p IH]; intros a x r; [discriminate|]. destruct a as [|d a]; [discriminate|].
    cbn [String.append strip_prefix]. destruct (Ascii.eqb c d); [apply IH|discriminate]. }
  induction s as [|c s IH]; intros a b; cbn [until].
  - destruct p; [contradiction|discriminate].
  - destruct (strip_prefix p (String c s)) as [r|] eqn:E.
    + intros [= <- <-]. specialize (SP ""). rewrite sapp_nil_r in SP. destruct p; [contradiction|]. cbn [until]. now rewrite SP.
    + destruct (until p s) as [(a', b')|] eqn:U; [|discriminate]. intros [= <- <-].
      cbn [until]. rewrite (IH _ _ eq_refl).
      assert (A : s = (a' ++ b')%string).
      { clear - U SP. revert a' b' U. induction s as [|c s IH]; intros a b; cbn [until].
        - destruct (strip_prefix p "") as [r|] eqn:E; [|discriminate]. intros [= <- <-]. now apply strip_app.
        - destruct (strip_prefix p (String c s)) as [r|] eqn:E; [intros [= <- <-]; now apply strip_app|].
          destruct (until p s) as [(a', b')|]; [|discriminate]. intros [= <- <-]. cbn [String.append]. now rewrite (IH a' b'). }
      rewrite A in E. change (String c (a' ++ b')) with (String c a' ++ b')%string in E.
      destruct (strip_prefix p (String c a')) eqn:X; [|reflexivity]. exfalso. now apply (SX _ _ _ E X).
Qed.

Lemma word_token_plain s : is_comment (fst (word_token s)) = false.
Proof.
  unfold word_token. destruct (span is_word s) as (w, r). unfold keyword_of.
  destruct (find _ keywords) as [k|] eqn:F.
  - apply find_some in F as (I & _). cbn [fst]. cbn in I.
    repeat (destruct I as [<-|I]; [reflexivity|]). contradiction.
  - destruct (by_follows r) as [(b, r2)|]; [|reflexivity].
    destruct (String.eqb (upper w) "GROUP"); [reflexivity|]. now destruct (String.eqb (upper w) "ORDER").
Qed.
Lemma lex1_formed s t r : lex1 s = Some (Some t, r) -> tformed t.
Proof.
  unfold lex1. destruct (first_char is_space s); [discriminate|]. cbn [first_rule].
  destruct (mline_comment s) as [(v, q)|] eqn:M.
  { intros [= <- <-] c E. destruct c; try discriminate E. injection E as ->. cbn [formed].
    unfold mline_comment in M. destruct (strip_prefix "/*" s) as [x|]; [|discriminate].
    destruct (until "*/" x) as [(a, b)|] eqn:U; [|discriminate]. injection M as <- <-.
    exists a. split; [reflexivity|]. now apply (until_self "*/") in U. }
  assert (L : forall mark v q, line_comment mark s = Some (v, q) -> line_form mark v).
  { intros mark v q. unfold line_comment. destruct (strip_prefix mark s) as [x|]; [|discriminate].
    destruct (span _ x) as (a, b) eqn:S. intros [= <- <-]. exists a. split; [reflexivity|]. now apply span_all in S. }
  destruct (line_comment "--" s) as [(v, q)|] eqn:V.
  { intros [= <- <-] c E. destruct c; try discriminate E. injection E as ->. now apply L in V. }
  destruct (line_comment "//" s) as [(v, q)|] eqn:C.
  { intros [= <- <-] c E. destruct c; try discriminate E. injection E as ->. now apply L in C. }
  intros E c ->.
  assert (N : is_comment (comment_token c) = true) by now destruct c.
  exfalso. revert E N. generalize (comment_token c). clear. intros t E N.
  destruct (first_char is_alpha s).
  - pose proof (word_token_plain s) as W. destruct (word_token s) as (u, r'). injection E as <- <-. cbn [fst] in W. congruence.
  - cbn [first_rule] in E.
    repeat match type of E with
    | context [match ?x with Some _ => _ | None => _ end] =>
        destruct x as [(?, ?)|]; [injection E as <- <-; discriminate N|]
    end.
    discriminate E.
Qed.

Lemma lex_formed : forall n s l, lex_n n s = Some l -> Forall tformed l.
Proof.
  induction n as [|n IH]; intros s l E; [discriminate|]. cbn [lex_n] in E.
  destruct s as [|c s]; [injection E as <-; constructor|].
  destruct (lex1 (String c s)) as [(t, r)|] eqn:L; [|discriminate].
  destruct (lex_n n r) as [l'|] eqn:E'; [|discriminate]. injection E as <-. apply IH in E'.
  destruct t as [t|]; [|exact E']. constructor; [|exact E']. now apply lex1_formed in L.
Qed.
Lemma upper_formed t : tformed t -> tformed (upper_token t).
Proof.
  intros F c E. apply F. rewrite <- E. unfold upper_token in *.
  destruct c; destruct (tt t) eqn:T; try reflexivity; discriminate E.
Qed.
Lemma all_formed text ts : all_tokens text = Some ts -> Forall tformed ts.
Proof.
  unfold all_tokens, lex. destruct (lex_n _ text) as [l|] eqn:E; [|discriminate]. intros [= <-].
  apply lex_formed in E. induction E as [|t l H E IH]; constructor; [now apply upper_formed|exact IH].
Qed.

(** ** Parsers leave tokens of the input *)

Section Keep.
  Variable G : token -> Prop.
  Definition keep {A} (p : parser A) : Prop := forall ts a r, Forall G ts -> p ts = POk a r -> Forall G r.

  Lemma k_ret {A} (a : A) : keep (pret a).
  Proof. intros ts b r F [= <- <-]. exact F. Qed.
  Lemma k_bind {A B} (p : parser A) (f : A -> parser B) : keep p -> (forall a, keep (f a)) -> keep (pbind p f).
  Proof.
    intros P Q ts b r F. unfold pbind. destruct (p ts) as [a q|q|] eqn:E; try discriminate.
    intro E'. apply (Q a q b r); [now apply (P ts a)|exact E'].
  Qed.
  Lemma k_alt {A} (p q : parser A) : keep p -> keep q -> keep (alt p q).
  Proof.
    intros P Q ts a r F. unfold alt. destruct (p ts) as [x y|y|] eqn:E; try discriminate.
    - intros [= <- <-]. now apply (P ts x).
    - destruct (stop _ _); [discriminate|]. destruct (q ts) as [x' y'|y'|] eqn:E'; try discriminate.
      + intros [= <- <-]. now apply (Q ts x').
      + destruct (stop _ _); discriminate.
  Qed.
  Lemma k_opt {A} (p : parser A) : keep p -> keep (popt p).
  Proof.
    intros P ts a r F. unfold popt. destruct (p ts) as [x y|y|] eqn:E; try discriminate.
    - intros [= <- <-]. now apply (P ts x).
    - destruct (stop _ _); [discriminate|]. now intros [= <- <-].
  Qed.
  Lemma k_star_n {A} (p : parser A) : keep p -> forall n, keep (pstar_n n p).
  Proof.
    intros P. induction n as [|n IH]; intros ts a r F; [discriminate|]. cbn [pstar_n].
    destruct (p ts) as [x y|y|] eqn:E; try discriminate.
    - destruct (pstar_n n p y) as [l z|z|] eqn:E'; try discriminate. intros [= <- <-].
      apply (IH y l z); [now apply (P ts x)|exact E'].
    - destruct (stop _ _); [discriminate|]. now intros [= <- <-].
  Qed.
  Lemma k_star {A} (p : parser A) : keep p -> keep (pstar p).
  Proof. intros P ts a r F. unfold pstar. now apply k_star_n. Qed.
  Lemma k_tok t : keep (ptok t).
  Proof.
    intros ts a r F. unfold ptok. destruct ts as [|x ts]; [discriminate|]. destruct (ttype_beq _ _); [|discriminate].
    intros [= <- <-]. now inversion F.
  Qed.
  Lemma k_lit t : keep (plit t).
  Proof.
    intros ts a r F. unfold plit. destruct ts as [|x ts]; [discriminate|]. destruct (String.eqb _ _); [|discriminate].
    intros [= <- <-]. now inversion F.
  Qed.
  Lemma k_list {A} (p : parser A) : keep p -> keep (plist p).
  Proof.
    intro P. unfold plist. apply k_bind; [|intro; apply k_ret]. apply k_opt. apply k_bind; [exact P|]. intro.
    apply k_bind; [|intro; apply k_ret]. apply k_star. apply k_bind; [apply k_lit|]. now intro.
  Qed.
  Ltac ks := repeat match goal with
    | |- keep (pbind _ _) => apply k_bind; [|intro]
    | |- keep (alt _ _) => apply k_alt
    | |- keep (popt _) => apply k_opt
    | |- keep (pstar _) => apply k_star
    | |- keep (plist _) => apply k_list
    | |- keep (ptok _) => apply k_tok
    | |- keep (plit _) => apply k_lit
    | |- keep (pret _) => apply k_ret
    end; auto.
  Lemma k_comment : keep pcomment.
  Proof. unfold pcomment. ks. Qed.
  Lemma k_com1 : keep pcom1.
  Proof. unfold pcom1. ks. apply k_comment. Qed.
  Lemma k_coms : keep pcoms.
  Proof. unfold pcoms. ks. apply k_comment. Qed.
  Lemma k_lits l : keep (plits l).
  Proof.
    induction l as [|a l IH]; [intros ts x r _; discriminate|]. cbn [plits]. destruct l; [apply k_lit|]. ks.
  Qed.
  Lemma k_cmpop : keep pcmpop.
  Proof. unfold pcmpop. ks. apply k_lits. Qed.
  Lemma k_path p : keep p -> keep (ppath p).
  Proof. intro. unfold ppath. ks. Qed.
  Lemma k_alias : keep palias.
  Proof. unfold palias. ks. Qed.
  Lemma k_limit : keep plimit.
  Proof.
    intros ts z r F. unfold plimit. destruct ((ptok T_LIMIT ~>> ptok T_Number) ts) as [s q|q|] eqn:E; try discriminate.
    destruct (parse_int s); [|discriminate]. intros [= <- <-].
    assert (K : keep (ptok T_LIMIT ~>> ptok T_Number)) by ks. now apply (K ts s).
  Qed.

  Section Expr.
    Variable pv : parser kvalue.
    Hypothesis PV : keep pv.
    Hint Resolve PV k_com1 k_coms k_cmpop k_path k_alias k_limit k_tok k_lit : core.
    Lemma k_mterm : keep (pkmterm pv).
    Proof. unfold pkmterm. ks. Qed.
    Hint Resolve k_mterm : core.
    Lemma k_member : keep (pkmember pv).
    Proof. unfold pkmember. ks. Qed.
    Hint Resolve k_member : core.
    Lemma k_mul : keep (pkmul pv).
    Proof. unfold pkmul. ks. Qed.
    Hint Resolve k_mul : core.
    Lemma k_add : keep (pkadd pv).
    Proof. unfold pkadd. ks. Qed.
    Hint Resolve k_add : core.
    Lemma k_cond n : keep (pkcond pv n).
    Proof. induction n as [|n IH]; [intros ts a r _; discriminate|]. cbn [pkcond]. ks. Qed.
    Hint Resolve k_cond : core.
    Lemma k_or n : keep (pkor pv n).
    Proof. unfold pkor. ks. Qed.
    Hint Resolve k_or : core.
    Lemma k_and n : keep (pkand pv n).
    Proof. unfold pkand. ks. Qed.
    Hint Resolve k_and : core.
    Lemma k_comma n : keep (pkcomma pv n).
    Proof. unfold pkcomma, pkterm. ks. Qed.
    Hint Resolve k_comma : core.
    Variable psel : parser kselect.
    Hypothesis PS : keep psel.
    Hint Resolve PS : core.
    Lemma k_arg n : keep (pkarg n pv psel).
    Proof. unfold pkarg. ks. Qed.
    Hint Resolve k_arg : core.
    Lemma k_symref n : keep (pksymref n pv psel).
    Proof. unfold pksymref. ks. apply k_path. ks. Qed.
    Hint Resolve k_symref : core.
    Lemma k_value_step n : keep (pkvalue_step n pv psel).
    Proof. unfold pkvalue_step. ks. Qed.
    Lemma k_col n : keep (pkcol n pv psel).
    Proof. unfold pkcol. ks. Qed.
    Hint Resolve k_col : core.
    Lemma k_plugin n : keep (pkplugin n pv psel).
    Proof. unfold pkplugin. ks. Qed.
    Hint Resolve k_plugin : core.
    Lemma k_select_step n : keep (pkselect_step n pv psel).
    Proof. unfold pkselect_step. ks. Qed.
    Lemma k_param n : keep (pkparam n pv psel).
    Proof. unfold pkparam. ks. Qed.
    Hint Resolve k_param : core.
    Lemma k_vql_step n : keep (pkvql_step n pv psel).
    Proof. unfold pkvql_step. ks. Qed.
  End Expr.
  Lemma k_knot n : keep (fst (pkknot n)) /\ keep (snd (pkknot n)).
  Proof.
    induction n as [|n (V & S)]; [split; intros ts a r _; discriminate|]. cbn [pkknot].
    destruct (pkknot n) as (pv, psel). split; [now apply k_value_step|now apply k_select_step].
  Qed.
  Lemma k_vql n : keep (pkvql n).
  Proof. unfold pkvql. apply k_vql_step; apply k_knot. Qed.
End Keep.

(** What pcoms takes are tokens of the input. *)
Lemma coms_formed ts c r : Forall tformed ts -> pcoms ts = POk c r -> Forall formed c.
Proof.
  unfold pcoms, pstar. generalize (S (List.length ts)). intro n. revert ts c r.
  induction n as [|n IH]; intros ts c r F; [discriminate|]. cbn [pstar_n].
  destruct (pcomment ts) as [x y|y|] eqn:E; try discriminate.
  - destruct (pstar_n n pcomment y) as [l z|z|] eqn:E'; try discriminate. intros [= <- <-].
    constructor.
    + destruct ts as [|t ts]; [discriminate E|]. inversion F as [|? ? F1 F2]; subst.
      apply F1. unfold pcomment, alt, pbind, ptok, pret in E. destruct t as [t s]. cbn [tt tv] in E.
      destruct t; cbn [ttype_beq] in E; rewrite ?CommentProofs.stop_same in E; try discriminate E; now injection E as <- <-.
    + apply (IH y l z); [|exact E']. now apply (k_comment tformed ts x).
  - destruct (stop _ _); [discriminate|]. intros [= <- <-]. constructor.
Qed.
Definition above_formed (l : list kstmt) : Prop := Forall (fun p => Forall formed (fst p)) l.
Lemma multi_formed n : forall k ts l r, Forall tformed ts -> pkmulti k n ts = POk l r -> above_formed l /\ Forall tformed r.
Proof.
  induction k as [|k IH]; intros ts l r F; [discriminate|]. cbn [pkmulti]. unfold pbind.
  destruct (pcoms ts) as [c r1|r1|] eqn:E1; try discriminate.
  pose proof (coms_formed _ _ _ F E1) as C1. apply (k_coms tformed) in E1; [|exact F].
  destruct (pkvql n r1) as [v r2|r2|] eqn:E2; try discriminate. apply (k_vql tformed) in E2; [|exact E1].
  destruct (pcoms r2) as [c2 r3|r3|] eqn:E3; try discriminate.
  pose proof (coms_formed _ _ _ E2 E3) as C2. apply (k_coms tformed) in E3; [|exact E2].
  assert (ST : forall m ts l r, Forall tformed ts -> pstar_n m (pkmulti k n) ts = POk l r ->
             Forall above_formed l /\ Forall tformed r).
  { induction m as [|m IHm]; intros ts' l' r' F'; [discriminate|]. cbn [pstar_n].
    destruct (pkmulti k n ts') as [x y|y|] eqn:E; try discriminate.
    - destruct (pstar_n m (pkmulti k n) y) as [l2 z|z|] eqn:E'; try discriminate. intros [= <- <-].
      destruct (IH _ _ _ F' E) as (X & Y). destruct (IHm _ _ _ Y E') as (L & Z). split; [now constructor|exact Z].
    - destruct (stop _ _); [discriminate|]. intros [= <- <-]. now split. }
  destruct (pstar (pkmulti k n) r3) as [ls r4|r4|] eqn:E4; try discriminate.
  unfold pstar in E4. destruct (ST _ _ _ _ E3 E4) as (L & R). unfold pret. intros [= <- <-]. split; [|exact R].
  constructor; [exact C1|]. destruct (last_opt ls) as [q|] eqn:Q; [|constructor].
  assert (I : In q ls).
  { unfold last_opt in Q. destruct (rev ls) as [|q' t] eqn:RV; [discriminate|]. injection Q as ->.
    apply in_rev. rewrite RV. now left. }
  rewrite Forall_forall in L. specialize (L q I). destruct q as [|(c3, v3) q]; [constructor|].
  inversion L as [|? ? L1 L2]; subst. constructor; [|exact L2]. cbn [fst] in *. now apply Forall_app.
Qed.
Theorem parse_comments_formed text l : parse_comments text = Some l -> above_formed l.
Proof.
  unfold parse_comments. destruct (all_tokens text) as [ts|] eqn:T; [|discriminate]. apply all_formed in T.
  unfold whole. destruct (pkmulti _ _ ts) as [a r|r|] eqn:E; try discriminate. destruct r; [|discriminate].
  intros [= <-]. exact (proj1 (multi_formed _ _ _ _ _ T E)).
Qed.

(** ** Comments once trimmed *)

Definition trimmed (c : comment) : comment :=
  match c with
  | CVQL s => CVQL (trim_lines s)
  | CLine s => CLine (trim_lines s)
  | CMulti s => CMulti (trim_lines s)
  end.

Lemma eol_break a b : eol (a ++ String nl b) = eol a.
Proof. induction a as [|c a IH]; [reflexivity|]. cbn [String.append eol]. now rewrite IH. Qed.
Lemma trim_break a b : trim (a ++ String nl b) = (trim a ++ String nl (trim b))%string.
Proof.
  induction a as [|c a IH]; [reflexivity|]. cbn [String.append trim]. rewrite eol_break, IH.
  now destruct (Ascii.eqb c " " && eol a).
Qed.
Lemma trim_free p b : sall p b = true -> sall p (trim b) = true.
Proof.
  induction b as [|c b IH]; [reflexivity|]. cbn [sall trim]. intro H. apply andb_true_iff in H as (C & H).
  destruct (Ascii.eqb c " " && eol b); [auto|]. cbn [sall]. now rewrite C, IH.
Qed.
Lemma span_stop p b c y : sall p b = true -> p c = false -> span p (b ++ String c y) = (b, String c y).
Proof.
  intros H N. induction b as [|d b IH]; cbn [String.append span]; [now rewrite N|].
  cbn [sall] in H. apply andb_true_iff in H as (D & H). now rewrite D, IH.
Qed.
Lemma until_nonempty p : p <> "" -> forall s a b, until p s = Some (a, b) -> a <> "".
Proof.
  intros NP s a b. destruct s as [|c s]; cbn [until].
  - destruct p; [contradiction|discriminate].
  - destruct (strip_prefix p _); [intros [= <- <-]; exact NP|].
    destruct (until p s) as [(a', b')|]; [|discriminate]. now intros [= <- <-].
Qed.
Lemma until_trim b : until "*/" b = Some (b, "") -> forall y, until "*/" (trim b ++ y) = Some (trim b, y).
Proof.
  induction b as [|c b IH]; [discriminate|]. intros U y. cbn [until] in U.
  destruct (strip_prefix "*/" (String c b)) as [r|] eqn:E.
  - injection U as Ec Eb Er. subst c b r. reflexivity.
  - destruct (until "*/" b) as [(a', b')|] eqn:U'; [|discriminate]. injection U as -> ->.
    specialize (IH eq_refl). cbn [trim].
    destruct (Ascii.eqb c " " && eol b); [apply IH|]. cbn [String.append until]. rewrite IH.
    assert (S : strip_prefix "*/" (String c (trim b ++ y)) = None); [|now rewrite S].
    cbn [strip_prefix] in E |- *. destruct (Ascii.eqb "*" c); [|reflexivity].
    destruct b as [|d b]; [discriminate U'|].
    destruct (trim (String d b)) as [|e t] eqn:T.
    + exfalso. specialize (IH ""). now apply (until_nonempty "*/") in IH.
    + cbn [String.append]. destruct (Ascii.eqb_spec d " ") as [->|ND].
      * pose proof (trim_edge b) as TE. rewrite T in TE. cbn [edge] in TE.
        destruct (Ascii.eqb_spec "/" e) as [<-|]; [discriminate TE|reflexivity].
      * cbn [trim] in T. destruct (Ascii.eqb_spec d " "); [contradiction|]. cbn [andb] in T. injection T as <- <-.
        destruct (Ascii.eqb "/" d); [discriminate E|reflexivity].
Qed.

Lemma formed_parts c : formed c -> exists m x b,
  comment_text c = String m (String x b) /\ trim (comment_text c) = String m (String x (trim b)) /\
  is_gap m = false /\ by_follows (String " " (String m "")) = None /\
  (forall z, by_follows (String " " (String m z)) = None).
Proof.
  destruct c as [s|s|s]; intros (b & -> & H); cbn [comment_text String.append].
  - exists "-"%char, "-"%char, b. repeat split.
  - exists "/"%char, "/"%char, b. repeat split.
  - exists "/"%char, "*"%char, b. repeat split.
Qed.
Lemma comment_lexes c y : formed c ->
  lex1 (trim (comment_text c) ++ String nl y) = Some (Some (comment_token (trimmed c)), String nl y).
Proof.
  destruct c as [s|s|s]; intros (b & -> & H); cbn [comment_text trimmed comment_token]; rewrite trim_lines_trim.
  - change (trim ("--" ++ b)) with ("--" ++ trim b)%string. unfold lex1.
    cbn [String.append first_char]. change (is_space "-") with false. cbv iota.
    cbn [first_rule]. unfold mline_comment, line_comment. cbn [strip_prefix].
    change (Ascii.eqb "/" "-") with false. change (Ascii.eqb "-" "-") with true. cbv iota.
    rewrite span_stop; [reflexivity|now apply trim_free|reflexivity].
  - change (trim ("//" ++ b)) with ("//" ++ trim b)%string. unfold lex1.
    cbn [String.append first_char]. change (is_space "/") with false. cbv iota.
    cbn [first_rule]. unfold mline_comment, line_comment. cbn [strip_prefix].
    change (Ascii.eqb "/" "/") with true. change (Ascii.eqb "-" "/") with false.
    change (Ascii.eqb "*" "/") with false. cbv iota.
    rewrite span_stop; [reflexivity|now apply trim_free|reflexivity].
  - change (trim ("/*" ++ b)) with ("/*" ++ trim b)%string. unfold lex1.
    cbn [String.append first_char]. change (is_space "/") with false. cbv iota.
    cbn [first_rule]. unfold mline_comment. cbn [strip_prefix].
    change (Ascii.eqb "/" "/") with true. change (Ascii.eqb "*" "*") with true. cbv iota.
    now rewrite until_trim.
Qed.

(** ** The visitor *)

Lemma comment_loose c z g : formed c -> sall is_gap g = true ->
  forall w ts, (forall x r rs, first_char (fun c => negb (is_gap c)) x = true ->
                  brk (String " " (trim (x ++ r))) = true -> tlexes (x ++ r) rs -> tlexes (w ++ g ++ x ++ r) (ts ++ rs)) ->
  loose (w ++ (g ++ comment_text c ++ String nl "" ++ repeat_space z)) (ts ++ [comment_token (trimmed c)]).
Proof.
  intros F G w ts R r rs L. destruct (formed_parts c F) as (m & x & b & E & T & NG & _ & NB).
  rewrite !sapp_assoc, <- app_assoc. cbn [String.append].
  assert (TR : trim (comment_text c ++ String nl (repeat_space z ++ r)) =
               (trim (comment_text c) ++ String nl (trim (repeat_space z ++ r)))%string) by apply trim_break.
  apply R.
  - rewrite E. cbn [first_char]. now rewrite NG.
  - rewrite TR, T. cbn [String.append brk]. change (is_space " ") with true. cbv iota. now rewrite NB.
  - unfold tlexes. rewrite TR. apply (LTok _ _ (String nl (trim (repeat_space z ++ r)))).
    + now apply comment_lexes.
    + rewrite T. cbn [String.append String.length]. rewrite sapp_length. cbn [String.length]. lia.
    + apply Lexes_gap; [reflexivity|].
      destruct (trim_gap (repeat_space z) r (gap_blanks _)) as (g' & E' & G' & _). rewrite E'. now apply Lexes_gaps.
Qed.

(** Where a comment or a statement may begin, after any further gap. *)
Definition open_at (l : list string) (ts : list token) : Prop :=
  forall g x r rs, sall is_gap g = true -> first_char (fun c => negb (is_gap c)) x = true ->
    brk (String " " (trim (x ++ r))) = true -> tlexes (x ++ r) rs -> tlexes (joined l ++ g ++ x ++ r) (ts ++ rs).
Lemma open_ready l ts : open_at l ts -> ready l ts.
Proof. intros H x r rs. exact (H "" x r rs eq_refl). Qed.
Lemma loose_open l ts : loose (joined l) ts -> open_at l ts /\ done l ts.
Proof.
  intro H. split.
  - intros g x r rs G X B L. apply H. unfold tlexes.
    destruct (trim_gap g (x ++ r) G) as (g' & E & G' & _). rewrite E. now apply Lexes_gaps.
  - unfold done. rewrite <- (sapp_nil_r (joined l)), <- (app_nil_r ts). apply H. constructor.
Qed.

Lemma comment_runs c v ts : formed c -> lines v = true -> open_at (frags (out v)) ts ->
  lines (kcomment c v) = true /\ loose (joined (frags (out (kcomment c v)))) (ts ++ [comment_token (trimmed c)]).
Proof.
  intros F LN R. destruct (formed_parts c F) as (m & x & b & E & _ & NG & _).
  assert (NBL : all_blank (comment_text c) = false).
  { rewrite E. cbn [all_blank]. destruct c as [s|s|s]; destruct F as (y & -> & _); injection E as <- <- _; reflexivity. }
  assert (A : forall s v, lines v = true -> all_blank s = false ->
            exists z, lines ((kpush s >=> kline_break) v) = true /\
              frags (out ((kpush s >=> kline_break) v)) = repeat_space z :: String nl "" :: s :: frags (out v)).
  { intros s w LW NB. unfold kthen, kline_break, kpush, lift. cbn [lines out]. rewrite LW.
    destruct (break_frags (rpush s (out w))) as (l & z & Ef & El). exists z. split; [reflexivity|]. rewrite Ef, El.
    unfold rlast. cbn [rpush frags]. now rewrite NB. }
  destruct c as [s|s|s]; cbn [comment_text] in *.
  - destruct (A s v LN NBL) as (z & L1 & F1). split; [exact L1|]. cbn [kcomment]. rewrite F1.
    rewrite broken_joined, joined_cons, sapp_assoc.
    apply (comment_loose (CVQL s) z "" F eq_refl). intros y r rs. exact (R "" y r rs eq_refl).
  - destruct (A s v LN NBL) as (z & L1 & F1). split; [exact L1|]. cbn [kcomment]. rewrite F1.
    rewrite broken_joined, joined_cons, sapp_assoc.
    apply (comment_loose (CLine s) z "" F eq_refl). intros y r rs. exact (R "" y r rs eq_refl).
  - set (v1 := knew_line 0 v).
    assert (L0 : lines v1 = true) by (unfold v1, knew_line; now rewrite LN).
    assert (F0 : frags (out v1) = "" :: String nl "" :: frags (out v)).
    { unfold v1, knew_line. rewrite LN. reflexivity. }
    destruct (A s v1 L0 NBL) as (z & L1 & F1).
    change (kcomment (CMulti s) v) with (lift pop_indent ((kpush s >=> kline_break) v1)).
    split; [exact L1|]. cbn [lift out]. unfold pop_indent at 1. cbn [with_indents frags]. rewrite F1, F0.
    rewrite broken_joined, joined_cons, broken_joined, !sapp_assoc. cbn [String.append].
    apply (comment_loose (CMulti s) z (String nl "") F eq_refl). intros y r rs. exact (R (String nl "") y r rs eq_refl).
Qed.
Lemma comments_run c : forall v ts, Forall formed c -> lines v = true -> open_at (frags (out v)) ts -> done (frags (out v)) ts ->
  lines (kcomments c v) = true /\ open_at (frags (out (kcomments c v))) (ts ++ map (fun c => comment_token (trimmed c)) c) /\
  done (frags (out (kcomments c v))) (ts ++ map (fun c => comment_token (trimmed c)) c).
Proof.
  induction c as [|a c IH]; intros v ts F LN R D.
  - cbn [map]. rewrite app_nil_r. now repeat split.
  - inversion F as [|? ? F1 F2]; subst. destruct (comment_runs a v ts F1 LN R) as (L1 & K).
    apply loose_open in K as (R1 & D1). change (kcomments (a :: c) v) with (kcomments c (kcomment a v)).
    cbn [map]. change (?x :: ?l) with ([x] ++ l). rewrite app_assoc. now apply IH.
Qed.
Lemma sall_both p a b : sall p (a ++ b) = sall p a && sall p b.
Proof. induction a as [|c a IH]; [reflexivity|]. cbn [String.append sall]. now rewrite IH, andb_assoc. Qed.
Lemma two_breaks_open v ts : holds Broken (frags v) ts ->
  open_at (frags (rline_break true (restart (rline_break true v)))) ts.
Proof.
  intros H g x r rs G X B L. destruct (blank_break v) as (l & z & z' & E1 & E2). destruct (break_frags v) as (l' & z1 & E & EL).
  rewrite E1 in E. injection E as _ <-. rewrite E2.
  assert (J : joined (repeat_space z' :: String nl "" :: String nl "" :: l) =
              (joined l ++ (String nl "" ++ String nl "" ++ repeat_space z'))%string).
  { rewrite broken_joined, joined_cons. apply sapp_assoc. }
  rewrite J. set (h := ((String nl "" ++ String nl "" ++ repeat_space z') ++ g)%string).
  assert (GH : gap h).
  { split; [|discriminate]. unfold h. cbn [String.append sall]. rewrite !sall_both, G.
    change (is_gap nl) with true. cbn [andb]. rewrite andb_true_r. apply gap_blanks. }
  assert (EH : ((joined l ++ (String nl "" ++ String nl "" ++ repeat_space z')) ++ g ++ x ++ r)%string =
               (joined l ++ h ++ x ++ r)%string) by (unfold h; now rewrite !sapp_assoc).
  rewrite EH. destruct H as ((H & _) & K). destruct (all_blank (rlast v)) eqn:BL; subst l.
  - rewrite <- sapp_assoc. apply (K BL h GH). exact L.
  - now apply spells_gap.
Qed.

(** ** Scripts *)

(** Statements with the comments above each. *)
Definition noted := list (cs * gvql).
Definition tstmt (p : cs * gvql) : list token :=
  match p with (c, x) => map (fun c => comment_token (trimmed c)) c ++ tvql x end.

Lemma script_runs o : forall (pl : noted) v ts,
  Forall (fun p => Forall formed (fst p)) pl ->
  Forall ok_vql (map snd pl) -> forallb clean_vql (map snd pl) = true -> firms (flat_map tvql (map snd pl)) = true ->
  lines v = true -> open_at (frags (out v)) ts -> done (frags (out v)) ts ->
  done (frags (out (vall o (map (fun p => (fst p, kvql_of (snd p))) pl) v))) (ts ++ flat_map tstmt pl).
Proof.
  induction pl as [|(c, x) pl IH]; intros v ts FC K C F LN R D; [now rewrite app_nil_r|].
  inversion FC as [|? ? FC1 FC2]; subst. cbn [map snd fst] in *.
  inversion K as [|? ? K1 K2]; subst. cbn [forallb] in C. apply andb_true_iff in C as (C1 & C2).
  cbn [flat_map] in F. rewrite firms_app in F. apply and_split in F as (F1 & F2).
  cbn [flat_map].
  match goal with |- context [vall o (?p :: ?l) v] =>
    set (v2 := (vvql o p >=> kline_break) v); change (vall o (p :: l) v) with (vall o l v2) end.
  destruct (comments_run c v ts FC1 LN R D) as (L1 & R1 & D1).
  assert (EV : exists w, kcomments c v = {| out := w; lines := true |}).
  { exists (out (kcomments c v)). rewrite <- L1. now destruct (kcomments c v). }
  destruct EV as (w & EV). rewrite EV in R1, D1. cbn [out] in R1, D1.
  assert (E2 : v2 = {| out := rline_break true (rvql o true x w); lines := true |}).
  { unfold v2, kthen. change (vvql o (c, kvql_of x) v) with (vvql o (uncommented x) (kcomments c v)).
    rewrite EV. rewrite (w_vql o true x w). reflexivity. }
  rewrite E2. cbn [tstmt]. rewrite !app_assoc.
  set (t1 := (ts ++ map (fun c => comment_token (trimmed c)) c)) in *.
  assert (H : holds Broken (frags (vql_rest o true x (vql_head x w))) (t1 ++ tvql x)).
  { rewrite tvql_split, app_assoc. apply vql_rest_runs; auto. apply ready_head. now apply open_ready. }
  rewrite rvql_split.
  apply IH; auto; cbn [out].
  - now apply two_breaks_open.
  - now apply two_breaks.
Qed.

Theorem commented_lexes o (pl : noted) :
  Forall (fun p => Forall formed (fst p)) pl ->
  Forall ok_vql (map snd pl) -> forallb clean_vql (map snd pl) = true -> firms (flat_map tvql (map snd pl)) = true ->
  Lexes (reformat_stmts o true (map (fun p => (fst p, kvql_of (snd p))) pl)) (flat_map tstmt pl).
Proof.
  intros FC K C F. unfold reformat_stmts. rewrite trim_lines_trim. unfold rtext.
  apply (script_runs o pl {| out := rstate0; lines := true |} [] FC K C F eq_refl).
  - intros g x r rs G X B L. cbn [out rstate0 frags app].
    change (joined []) with "". cbn [String.append]. unfold tlexes.
    destruct (trim_gap g (x ++ r) G) as (g' & E & G' & _). rewrite E. now apply Lexes_gaps.
  - constructor.
Qed.

(** ... and the parser with comments reads them back. *)
Lemma coms_parse c : forall ts, quiet ts -> forall n, List.length c < n ->
  pstar_n n pcomment (map comment_token c ++ ts) = POk c ts.
Proof.
  induction c as [|a c IH]; intros ts Q n L; (destruct n as [|n]; [cbn in L; lia|]); cbn [map app pstar_n].
  - rewrite comment_quiet by exact Q. now rewrite CommentProofs.stop_same.
  - assert (E : pcomment (comment_token a :: map comment_token c ++ ts) = POk a (map comment_token c ++ ts)).
    { unfold pcomment, alt, pbind, ptok. destruct a; cbn [comment_token tt tv ttype_beq]; rewrite ?CommentProofs.stop_same; reflexivity. }
    rewrite E. rewrite IH; [reflexivity|exact Q|cbn [List.length] in L; lia].
Qed.
Lemma pcoms_parse c ts : quiet ts -> pcoms (map comment_token c ++ ts) = POk c ts.
Proof. intro Q. unfold pcoms, pstar. apply coms_parse; [exact Q|]. rewrite app_length, map_length. lia. Qed.

Lemma quiet_vql x r : quiet (tvql x ++ r).
Proof.
  destruct x as [name called ps p body|s]; [reflexivity|].
  rewrite (tvql_split (GQuery s)). destruct s as [[] al cols from w g k l]; reflexivity.
Qed.

(** A statement whose query ends in a list with a comma cannot be followed by
    a comment. *)
Fixpoint lists_apart (pl : noted) : bool :=
  match pl with
  | (_, x) :: (((c, _) :: _) as r) => (match c with [] => true | _ => short_vql x end) && lists_apart r
  | _ => true
  end.

Definition kread (pl : noted) : list kstmt := map (fun p => (map trimmed (fst p), kvql_of (nvql (snd p)))) pl.

Lemma comment_token_lvl c : formed c -> lvl (comment_token (trimmed c)) = 8 /\ tv (comment_token (trimmed c)) <> "," /\
  ~ In (tt (comment_token (trimmed c))) [T_WHERE; T_GROUPBY; T_ORDERBY; T_LIMIT; T_DESC].
Proof.
  destruct c as [s|s|s]; intros (b & -> & _); cbn [trimmed comment_token tv tt]; rewrite trim_lines_trim.
  - change (trim ("--" ++ b)) with ("--" ++ trim b)%string. repeat split; [discriminate|]. cbn. intuition discriminate.
  - change (trim ("//" ++ b)) with ("//" ++ trim b)%string. repeat split; [discriminate|]. cbn. intuition discriminate.
  - change (trim ("/*" ++ b)) with ("/*" ++ trim b)%string. repeat split; [discriminate|]. cbn. intuition discriminate.
Qed.
Lemma no_comma (pl : noted) : Forall (fun p => Forall formed (fst p)) pl -> misses (plit ",") (flat_map tstmt pl).
Proof.
  intro F. destruct pl as [|(c, x) pl]; [exists []; now split|]. inversion F as [|? ? F1 F2]; subst. cbn [fst] in F1.
  cbn [flat_map tstmt]. destruct c as [|a c].
  - cbn [map app]. destruct (vql_first x) as (t & ts & -> & L & _). cbn [app]. apply plit_miss. intro E.
    unfold lvl in L. rewrite E in L. destruct (tt t); discriminate L.
  - inversion F1 as [|? ? F3 F4]; subst. cbn [map app]. apply plit_miss. now apply comment_token_lvl.
Qed.
Lemma script_follow (pl : noted) : Forall (fun p => Forall formed (fst p)) pl -> sfollow (flat_map tstmt pl).
Proof.
  intro F. destruct pl as [|(c, x) pl]; [exact I|]. inversion F as [|? ? F1 F2]; subst. cbn [fst] in F1.
  cbn [flat_map tstmt]. destruct c as [|a c].
  - cbn [map app]. destruct (vql_first x) as (t & ts & -> & L & N). now split.
  - inversion F1 as [|? ? F3 F4]; subst. cbn [map app]. split; now apply comment_token_lvl.
Qed.
Lemma script_calm (pl : noted) one : Forall (fun p => Forall formed (fst p)) pl ->
  match pl with (_ :: _, _) :: _ => one = true | _ => True end -> calm one (flat_map tstmt pl).
Proof.
  intros F S. destruct pl as [|(c, x) pl]; [now left|]. inversion F as [|? ? F1 F2]; subst. cbn [fst] in F1.
  destruct c as [|a c]; [left; cbn [flat_map tstmt map app]; rewrite <- ?app_assoc; apply quiet_vql|].
  right. split; [exact S|]. cbn [flat_map tstmt map app after]. intros _.
  inversion F1 as [|? ? F3 F4]; subst. apply (no_comma ((c, x) :: pl)). now constructor.
Qed.
Lemma stmts_parse n : forall (pl : noted) c x,
  Forall (fun p => Forall formed (fst p)) ((c, x) :: pl) ->
  Forall ok_vql (map snd ((c, x) :: pl)) -> forallb clean_vql (map snd ((c, x) :: pl)) = true ->
  lists_apart ((c, x) :: pl) = true ->
  List.length (flat_map tstmt ((c, x) :: pl)) < n ->
  forall k, S (List.length pl) < k ->
  pkmulti k n (flat_map tstmt ((c, x) :: pl)) = POk (kread ((c, x) :: pl)) [].
Proof.
  induction pl as [|(c', x') pl IH]; intros c x F K C S L k LK; (destruct k as [|k]; [lia|]);
    inversion F as [|? ? F1 F2]; subst; cbn [map snd fst] in K, C, F1; inversion K as [|? ? K1 K2]; subst;
    cbn [forallb] in C; apply andb_true_iff in C as (C1 & C2);
    cbn [flat_map tstmt] in L |- *; rewrite !app_length in L; cbn [pkmulti];
    rewrite <- app_assoc; rewrite <- map_map.
  - rewrite (bind_ok _ _ _ (map trimmed c) (tvql x ++ flat_map tstmt [])) by (apply pcoms_parse, quiet_vql).
    rewrite (bind_ok _ _ _ (kvql_of (nvql x)) []).
    2:{ apply (kvql_parses n x []); auto; [lia|exact I|now left]. }
    rewrite (bind_ok _ _ _ ([] : cs) []) by reflexivity.
    rewrite (bind_ok _ _ _ [] []); [reflexivity|].
    apply pstar_nil. destruct k as [|k]; [cbn [List.length] in LK; lia|]. cbn [pkmulti].
    assert (N : 0 < n) by lia. apply coms_misses; [exact I|]. apply bind_miss. unfold pkvql, pkvql_step.
    apply alt_miss; [apply bind_miss; exists []; now split|]. apply bind_miss.
    apply kselect_misses; [exact N|exact I| |]; (exists []; now split).
  - rewrite (bind_ok _ _ _ (map trimmed c) (tvql x ++ flat_map tstmt ((c', x') :: pl))) by (apply pcoms_parse, quiet_vql).
    cbn [lists_apart] in S. apply andb_true_iff in S as (S1 & S2).
    rewrite (bind_ok _ _ _ (kvql_of (nvql x)) (flat_map tstmt ((c', x') :: pl))).
    2:{ apply (kvql_parses n x); auto; [lia|now apply script_follow|apply script_calm; [exact F2|]].
        destruct c'; [exact I|exact S1]. }
    replace (flat_map tstmt ((c', x') :: pl)) with (map comment_token (map trimmed c') ++ tvql x' ++ flat_map tstmt pl)
      by (cbn [flat_map tstmt]; now rewrite map_map, app_assoc).
    rewrite (bind_ok _ _ _ (map trimmed c') (tvql x' ++ flat_map tstmt pl)) by (apply pcoms_parse, quiet_vql).
    rewrite (bind_ok _ _ _ [kread (([], x') :: pl)] []).
    + unfold pret, last_opt. cbn [rev app kread map fst snd]. now rewrite app_nil_r.
    + inversion F2 as [|? ? F3 F4]; subst.
      apply pstar_one.
      * apply (IH [] x'); [|exact K2|exact C2| | |].
        -- constructor; [constructor|exact F4].
        -- destruct pl as [|(c2, x2) pl]; [reflexivity|exact S2].
        -- cbn [flat_map tstmt map app]. cbn [flat_map tstmt] in L. rewrite app_length. lia.
        -- cbn [List.length] in LK. lia.
      * destruct k as [|k]; [lia|]. cbn [pkmulti].
        assert (N : 0 < n) by lia. apply coms_misses; [exact I|]. apply bind_miss. unfold pkvql, pkvql_step.
        apply alt_miss; [apply bind_miss; exists []; now split|]. apply bind_miss.
        apply kselect_misses; [exact N|exact I| |]; (exists []; now split).
      * destruct (vql_first x') as (t & ts & -> & _). discriminate.
Qed.
