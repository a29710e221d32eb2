(** The scanner loses nothing and always decides: every token is a non-empty
    piece of the text, in order, and only blanks lie between them. *)

From Coq Require Import ZArith List String Ascii Bool Lia.
From Verif Require Import Base F64 Text Lexer LexProofs.
Import ListNotations.
Open Scope nat_scope.
Open Scope string_scope.
Open Scope list_scope.

Definition cuts (rule : string -> option (string * string)) : Prop :=
  forall s v r, rule s = Some (v, r) -> s = (v ++ r)%string /\ v <> "".

Lemma app_not_nil_l (a b : string) : a <> "" -> (a ++ b)%string <> "".
Proof. destruct a; [now intros []|discriminate]. Qed.

Lemma cut_span p s a b : span p s = (a, b) -> s = (a ++ b)%string.
Proof. intro H. now apply span_spec in H as (-> & _). Qed.

Lemma cut_mline : cuts mline_comment.
Proof.
  intros s v r. unfold mline_comment. destruct (strip_prefix "/*" s) as [x|] eqn:E; [|discriminate].
  apply strip_prefix_spec in E. destruct (until "*/" x) as [(a, b)|] eqn:U; [|discriminate]. intros [= <- <-].
  apply until_spec in U as (-> & _). rewrite E. split; [reflexivity|discriminate].
Qed.
Lemma cut_line m : m <> "" -> cuts (line_comment m).
Proof.
  intros N s v r. unfold line_comment. destruct (strip_prefix m s) as [x|] eqn:E; [|discriminate].
  apply strip_prefix_spec in E. destruct (span _ x) as (a, b) eqn:P. intros [= <- <-]. apply cut_span in P.
  rewrite E, P. split; [now rewrite sapp_assoc|now apply app_not_nil_l].
Qed.
Lemma cut_alt_or : cuts alt_or.
Proof.
  intros s v r. unfold alt_or. destruct (span _ s) as (a, b) eqn:P. apply cut_span in P.
  destruct (String.eqb_spec a ""); [discriminate|]. intros [= <- <-]. now split.
Qed.
Lemma cut_alt_and : cuts alt_and.
Proof.
  intros s v r. unfold alt_and. destruct (strip_prefix "&&" s) as [x|] eqn:E; [|discriminate].
  apply strip_prefix_spec in E. intros [= <- <-]. split; [exact E|discriminate].
Qed.
Lemma cut_quoted_ident : cuts quoted_ident.
Proof.
  intros s v r. unfold quoted_ident. destruct s as [|c s]; [discriminate|].
  destruct (Ascii.eqb_spec c bquote) as [->|]; [|discriminate]. destruct (span _ s) as (a, b) eqn:P.
  pose proof (cut_span _ _ _ _ P) as E. apply span_spec in P as (_ & _ & F).
  destruct a as [|x a]; [discriminate|]. destruct b as [|y b]; [discriminate|]. intros [= <- <-].
  cbn [first_char] in F. apply negb_false_iff, Ascii.eqb_eq in F. subst y. rewrite E.
  split; [cbn [String.append]; now rewrite sapp_assoc|discriminate].
Qed.
Lemma cut_exponent s e r : exponent s = (e, r) -> s = (e ++ r)%string.
Proof.
  unfold exponent. destruct s as [|c s]; [now intros [= <- <-]|].
  destruct (Ascii.eqb c "e" || Ascii.eqb c "E"); [|now intros [= <- <-]].
  set (q := match s with String c r1 => _ | "" => _ end).
  assert (Q : s = (fst q ++ snd q)%string).
  { subst q. destruct s as [|d s]; [reflexivity|]. now destruct (Ascii.eqb d "-" || Ascii.eqb d "+"). }
  destruct q as (sg, r1). cbn [fst snd] in Q. destruct (span is_digit r1) as (d, r2) eqn:P. apply cut_span in P.
  destruct (String.eqb d ""); intros [= <- <-]; [reflexivity|].
  rewrite Q, P. cbn [String.append]. now rewrite sapp_assoc.
Qed.
Lemma cut_decimal : cuts decimal.
Proof.
  intros s v r. unfold decimal. destruct (span is_digit s) as (d1, r1) eqn:P. apply cut_span in P.
  set (mant := match r1 with String _ _ => _ | "" => _ end).
  assert (M : forall m q, mant = Some (m, q) -> s = (m ++ q)%string /\ m <> "").
  { assert (PL : forall m q, (if String.eqb d1 "" then None else Some (d1, r1)) = Some (m, q) -> s = (m ++ q)%string /\ m <> "").
    { intros m q. destruct (String.eqb_spec d1 ""); [discriminate|]. intros [= <- <-]. now split. }
    intros m q. subst mant. destruct r1 as [|c r2]; [apply PL|]. destruct (Ascii.eqb c "."); [|apply PL].
    destruct (span is_digit r2) as (d2, r3) eqn:P2. apply cut_span in P2.
    destruct (String.eqb d2 ""); [apply PL|]. intros [= <- <-]. rewrite P, P2.
    split; [now rewrite sapp_assoc|]. destruct d1; discriminate. }
  destruct mant as [(m, q)|]; [|discriminate]. destruct (M m q eq_refl) as (E & N).
  destruct (exponent q) as (e, q') eqn:X. apply cut_exponent in X. intros [= <- <-]. rewrite E, X.
  split; [now rewrite sapp_assoc|now apply app_not_nil_l].
Qed.
Lemma cut_unsigned : cuts unsigned_number.
Proof.
  intros s v r. unfold unsigned_number. destruct (strip_prefix "0x" s) as [x|] eqn:E; [|apply cut_decimal].
  apply strip_prefix_spec in E. destruct (span is_hex x) as (h, r1) eqn:P. apply cut_span in P.
  destruct (String.eqb h ""); [apply cut_decimal|]. intros [= <- <-]. rewrite E, P. split; [reflexivity|discriminate].
Qed.
Lemma cut_number : cuts number.
Proof.
  intros s v r. unfold number. destruct s as [|c s]; [discriminate|]. destruct (Ascii.eqb c "-"); [|apply cut_unsigned].
  destruct (unsigned_number s) as [(n, q)|] eqn:E; [|discriminate]. intros [= <- <-].
  apply cut_unsigned in E as (-> & _). split; [reflexivity|discriminate].
Qed.
Lemma cut_symbol_ident : cuts symbol_ident.
Proof.
  intros s v r. unfold symbol_ident. destruct s as [|c s]; [discriminate|]. destruct (Ascii.eqb c "-"); [|discriminate].
  destruct s as [|a s]; [discriminate|]. destruct (is_alpha a).
  - destruct (span is_word (String a s)) as (w, q) eqn:P. apply cut_span in P. intros [= <- <-]. rewrite P.
    split; [reflexivity|discriminate].
  - destruct (quoted_ident (String a s)) as [(w, q)|] eqn:P; [|discriminate]. apply cut_quoted_ident in P as (P & _).
    intros [= <- <-]. rewrite P. split; [reflexivity|discriminate].
Qed.
Lemma cut_operator : cuts (operator_in operators).
Proof.
  assert (N : Forall (fun o => o <> "") operators) by (repeat constructor; discriminate).
  induction N as [|o l O N IH]; intros s v r; cbn [operator_in]; [discriminate|].
  destruct (strip_prefix o s) as [x|] eqn:E; [|apply IH]. apply strip_prefix_spec in E. intros [= <- <-]. now split.
Qed.
Lemma cut_multiline : cuts multiline_string.
Proof.
  intros s v r. unfold multiline_string. destruct (strip_prefix triple s) as [x|] eqn:E; [|discriminate].
  apply strip_prefix_spec in E. destruct (until triple x) as [(a, b)|] eqn:U; [|discriminate]. intros [= <- <-].
  apply until_spec in U as (-> & _). rewrite E. split; [reflexivity|discriminate].
Qed.
Lemma cut_body q n : forall s a b, String.length s <= n -> string_body q s = Some (a, b) -> s = (a ++ b)%string.
Proof.
  induction n as [|n IH]; intros [|c s] a b L; cbn [string_body]; try discriminate; cbn [String.length] in L; [lia|].
  destruct (Ascii.eqb c q); [now intros [= <- <-]|]. destruct (Ascii.eqb c bslash).
  - destruct s as [|d s]; [discriminate|]. cbn [String.length] in L.
    destruct (string_body q s) as [(x, y)|] eqn:E; [|discriminate]. intros [= <- <-].
    apply IH in E; [|lia]. now rewrite E.
  - destruct (string_body q s) as [(x, y)|] eqn:E; [|discriminate]. intros [= <- <-].
    apply IH in E; [|lia]. now rewrite E.
Qed.
Lemma cut_quoted_string : cuts quoted_string.
Proof.
  intros s v r. unfold quoted_string. destruct s as [|c s]; [discriminate|].
  destruct (Ascii.eqb c squote || Ascii.eqb c dquote); [|discriminate].
  destruct (string_body c s) as [(a, b)|] eqn:E; [|discriminate]. intros [= <- <-].
  apply (cut_body c (String.length s)) in E; [|lia]. rewrite E. split; [reflexivity|discriminate].
Qed.
Lemma cut_rules l s t r :
  Forall (fun p : ttype * _ => cuts (snd p)) l -> first_rule l s = Some (t, r) -> s = (tv t ++ r)%string /\ tv t <> "".
Proof.
  induction 1 as [|(k, rule) l C F IH]; cbn [first_rule]; [discriminate|]. cbn [snd] in C.
  destruct (rule s) as [(v, q)|] eqn:E; [|exact IH]. intros [= <- <-]. now apply C.
Qed.
Lemma cut_word s t r : first_char is_alpha s = true -> word_token s = (t, r) -> s = (tv t ++ r)%string /\ tv t <> "".
Proof.
  intros A. unfold word_token. destruct (span is_word s) as (w, q) eqn:P. pose proof (cut_span _ _ _ _ P) as E.
  assert (N : w <> "").
  { destruct s as [|c s]; [discriminate|]. cbn [first_char] in A.
    assert (W : is_word c = true) by (unfold is_word; now rewrite A).
    destruct (span_first is_word c s W) as (w' & F). rewrite P in F. cbn [fst] in F. subst w. discriminate. }
  destruct (keyword_of w); [intros [= <- <-]; now split|].
  destruct (by_follows q) as [(b, r2)|] eqn:B; [|intros [= <- <-]; now split].
  assert (Q : q = (b ++ r2)%string).
  { unfold by_follows in B. destruct (span is_space q) as (sp, x) eqn:P1. destruct (span is_word x) as (y, z) eqn:P2.
    apply cut_span in P1. apply cut_span in P2. destruct (_ && _); [|discriminate]. injection B as <- <-.
    rewrite P1, P2. now rewrite sapp_assoc. }
  assert (G : s = ((w ++ b) ++ r2)%string /\ (w ++ b)%string <> "").
  { rewrite E, Q. split; [now rewrite sapp_assoc|now apply app_not_nil_l]. }
  destruct (String.eqb (upper w) "GROUP"); [intros [= <- <-]; exact G|].
  destruct (String.eqb (upper w) "ORDER"); [intros [= <- <-]; exact G|].
  intros [= <- <-]. now split.
Qed.

(** What one step of the scanner removes. *)
Lemma lex1_cuts s o r : lex1 s = Some (o, r) ->
  exists v, s = (v ++ r)%string /\ v <> "" /\
            match o with Some t => tv t = v | None => sall is_space v = true end.
Proof.
  unfold lex1. destruct (first_char is_space s) eqn:SP.
  - intros [= <- <-]. destruct (span is_space s) as (a, b) eqn:P. cbn [snd]. exists a.
    pose proof P as P0. apply span_spec in P as (E & A & _). split; [exact E|split; [|exact A]].
    destruct s as [|c s]; [discriminate|]. cbn [first_char] in SP.
    destruct (span_first is_space c s SP) as (w & F). rewrite P0 in F. cbn [fst] in F. subst a. discriminate.
  - destruct (first_rule _ s) as [(t, q)|] eqn:E.
    { intros [= <- <-]. exists (tv t). apply cut_rules in E as (E & N); [now repeat split|].
      repeat (apply Forall_cons; [cbn [snd]; first [apply cut_mline|now apply cut_line]|]). apply Forall_nil. }
    clear E. destruct (first_char is_alpha s) eqn:A.
    { destruct (word_token s) as (t, q) eqn:W. intros [= <- <-]. exists (tv t). apply cut_word in W; [|exact A]. tauto. }
    destruct (first_rule _ s) as [(t, q)|] eqn:E; [|discriminate]. intros [= <- <-]. exists (tv t).
    apply cut_rules in E as (E & N); [now repeat split|].
    repeat (apply Forall_cons; [cbn [snd]; first
      [apply cut_alt_or|apply cut_alt_and|apply cut_number|apply cut_quoted_ident
      |apply cut_symbol_ident|apply cut_operator|apply cut_multiline|apply cut_quoted_string]|]). apply Forall_nil.
Qed.

(** ** Specification: a text is its tokens with blanks between. *)
Inductive made_of : string -> list token -> Prop :=
| MEnd : made_of "" []
| MBlank v s ts : sall is_space v = true -> made_of s ts -> made_of (v ++ s) ts
| MToken t s ts : tv t <> "" -> made_of s ts -> made_of (tv t ++ s) (t :: ts).

(** ** Specification: the scanner stops at a place where no token starts. *)
Definition stuck (s : string) : Prop :=
  exists pre ts r, s = (pre ++ r)%string /\ made_of pre ts /\ r <> "" /\ lex1 r = None.

Lemma sapp_inv_length (a b : string) : a <> "" -> String.length b < String.length (a ++ b).
Proof. intro N. rewrite sapp_length. destruct a; [now destruct N|]. cbn [String.length]. lia. Qed.

Lemma lex_n_decides n : forall s, String.length s < n ->
  match lex_n n s with Some ts => made_of s ts | None => stuck s end.
Proof.
  induction n as [|n IH]; intros s L; [lia|]. cbn [lex_n]. destruct s as [|c s']; [constructor|].
  set (s := String c s') in *. destruct (lex1 s) as [(o, r)|] eqn:E.
  - apply lex1_cuts in E as (v & E & N & O).
    assert (LR : String.length r < n).
    { pose proof (sapp_inv_length v r N) as H. rewrite <- E in H. lia. }
    specialize (IH r LR). destruct (lex_n n r) as [ts|].
    + rewrite E. destruct o as [t|]; [subst v; now constructor|now constructor].
    + destruct IH as (pre & ts & q & Q & M & NQ & X). destruct o as [t|].
      * subst v. exists (tv t ++ pre)%string, (t :: ts), q. repeat split; auto.
        { now rewrite E, Q, sapp_assoc. } now constructor.
      * exists (v ++ pre)%string, ts, q. repeat split; auto.
        { now rewrite E, Q, sapp_assoc. } now constructor.
  - exists "", [], s. repeat split; [constructor|discriminate|exact E].
Qed.

(** C44: what the scanner returns, put together again, is the text. *)
Theorem C44_scanner_covers_text s ts : lex s = Some ts -> made_of s ts.
Proof. intro E. pose proof (lex_n_decides (S (String.length s)) s (le_n _)) as H. unfold lex in E. now rewrite E in H. Qed.
(** And it gives up only where no token starts. *)
Theorem C44_scanner_rejects s : lex s = None -> stuck s.
Proof. intro E. pose proof (lex_n_decides (S (String.length s)) s (le_n _)) as H. unfold lex in E. now rewrite E in H. Qed.

Example covers_sample :
  lex "SELECT a.b FROM  info(x='y') -- end" =
  Some [Tok T_SELECT "SELECT"; Tok T_Ident "a"; Tok T_Operators "."; Tok T_Ident "b"; Tok T_FROM "FROM";
        Tok T_Ident "info"; Tok T_Operators "("; Tok T_Ident "x"; Tok T_Operators "="; Tok T_String "'y'";
        Tok T_Operators ")"; Tok T_VQLComment "-- end"].
Proof. vm_compute. reflexivity. Qed.
Example rejects_sample : lex "a ? b" = None.
Proof. vm_compute. reflexivity. Qed.

Print Assumptions C44_scanner_covers_text.
Print Assumptions C44_scanner_rejects.
