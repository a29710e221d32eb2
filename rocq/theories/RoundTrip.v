(** Formatting and parsing again, as texts. *)

From Coq Require Import ZArith List String Ascii Bool Lia.
From Verif Require Import Base F64 Text Lexer Numeral Grammar Parser Format Spelling.
From Verif Require Import LexProofs NumeralProofs FloatText ParseProofs FormatProofs FormatRuns TrimProofs.
Import ListNotations.
Open Scope nat_scope.
Open Scope string_scope.
Open Scope list_scope.

(** ** The tokens of a tree pass the filters behind the lexer *)

Definition plain (t : token) : Prop := is_comment t = false /\ upper_token t = t.
Definition plains (l : list token) : Prop := Forall plain l.

Lemma plains_app a b : plains a -> plains b -> plains (a ++ b).
Proof. intros. now apply Forall_app. Qed.
Lemma plains_cons t l : plain t -> plains l -> plains (t :: l).
Proof. now constructor. Qed.
Lemma plains_nil : plains [].
Proof. constructor. Qed.
Lemma plains_flat {A} (f : A -> list token) (H : forall a, plains (f a)) : forall l, plains (flat_map f l).
Proof.
  fix IH 1. intros [|a l]; [exact plains_nil|]. cbn [flat_map]. apply plains_app; [apply H|apply IH].
Defined.
Lemma plains_sep {A} (f : A -> list token) (H : forall a, plains (f a)) : forall l, plains (tsep f l).
Proof.
  fix IH 1. intros [|a l]; [exact plains_nil|]. pose proof (IH l) as P. destruct l as [|b l].
  - apply H.
  - change (tsep f (a :: b :: l)) with (f a ++ op "," :: tsep f (b :: l)).
    apply plains_app; [apply H|]. apply plains_cons; [split; reflexivity|exact P].
Defined.
Lemma plains_maybe {A} (f : A -> list token) (H : forall a, plains (f a)) : forall o, plains (tmaybe f o).
Proof. intros [a|]; [apply H|exact plains_nil]. Defined.
Lemma plains_top {A} (k : string -> token) (f : A -> list token) (K : forall s, plain (k s))
  (H : forall a, plains (f a)) : forall t, plains (top k f t).
Proof. intros (o, a). cbn [top]. apply plains_cons; [apply K|apply H]. Defined.
Lemma plain_op s : plain (op s).
Proof. split; reflexivity. Qed.
Lemma plain_ident s : plain (tident s).
Proof. split; reflexivity. Qed.
Lemma plain_first s : plain (tfirst s).
Proof. unfold tfirst. destruct (first_char _ s); split; reflexivity. Qed.
Lemma plain_string s : plain (tstring s).
Proof. unfold tstring. destruct (strip_prefix _ s); split; reflexivity. Qed.
Lemma plain_and s : plain (tand_op s).
Proof. unfold tand_op. destruct (String.eqb s _); split; reflexivity. Qed.
Lemma plain_or s : plain (tor_op s).
Proof. unfold tor_op. destruct (first_char _ s); split; reflexivity. Qed.
Lemma plain_cmp s : plain (tcmp_op s).
Proof. unfold tcmp_op. destruct (String.eqb_spec s "IN") as [->|]; split; reflexivity. Qed.
Lemma plains_rest l : plains (trest l).
Proof. apply plains_flat. intro s. repeat constructor. Qed.
Lemma plains_symbol l : plains (tsymbol l).
Proof. destruct l; [exact plains_nil|]. apply plains_cons; [apply plain_first|apply plains_rest]. Qed.
Lemma plains_name l : plains (tname l).
Proof. destruct l; [exact plains_nil|]. apply plains_cons; [apply plain_ident|apply plains_rest]. Qed.
Lemma plains_call {A} (f : A -> list token) (H : forall a, plains (f a)) l : plains (tcall f l).
Proof.
  unfold tcall. apply plains_cons; [apply plain_op|]. apply plains_app; [apply (plains_sep f H)|].
  apply plains_cons; [apply plain_op|exact plains_nil].
Defined.
Lemma plains_alias a : plains (talias a).
Proof. unfold talias. destruct (String.eqb a ""); repeat constructor. Qed.
Lemma plains_one t : plain t -> plains [t].
Proof. intro. now constructor. Qed.
Lemma plains_order o : plains (tmaybe (fun o : string * bool => Tok T_ORDERBY "ORDER BY" :: tident (fst o) ::
                       (if snd o then [Tok T_DESC "DESC"] else [])) o).
Proof. destruct o as [(k, [|])|]; repeat constructor. Qed.
Lemma plains_limit o : plains (tmaybe (fun l => [Tok T_LIMIT "LIMIT"; Tok T_Number (print_int l)]) o).
Proof. destruct o; repeat constructor. Qed.
Lemma plain_lit t s : match t with T_IN | T_DESC | T_MLineComment | T_VQLComment | T_Comment => false | _ => true end = true ->
  plain (Tok t s).
Proof. destruct t; try discriminate; split; reflexivity. Qed.

Fixpoint p_value (x : gvalue) {struct x} : plains (tvalue x)
with p_mterm (x : gmterm) {struct x} : plains (tmterm x)
with p_member (x : gmember) {struct x} : plains (tmember x)
with p_mul (x : gmul) {struct x} : plains (tmul x)
with p_add (x : gadd) {struct x} : plains (tadd x)
with p_cond (x : gcond) {struct x} : plains (tcond x)
with p_or (x : gor) {struct x} : plains (tor x)
with p_and (x : gand) {struct x} : plains (tand x)
with p_comma (x : gcomma) {struct x} : plains (tcomma x)
with p_arg (x : garg) {struct x} : plains (targ x)
with p_select (x : gselect) {struct x} : plains (tselect x)
with p_col (x : gcol) {struct x} : plains (tcol x)
with p_plugin (x : gplugin) {struct x} : plains (tplugin x).
Proof.
  - destruct x as [s called params|c|s|s|s|]; cbn [tvalue].
    + apply plains_app; [apply plains_symbol|]. destruct (negb called && _); [exact plains_nil|].
      apply (plains_call targ p_arg).
    + apply plains_cons; [apply plain_op|]. apply plains_app; [apply p_comma|apply plains_one, plain_op].
    + apply plains_one, plain_string.
    + apply plains_one, plain_lit; reflexivity.
    + apply plains_one, plain_lit; reflexivity.
    + apply plains_one, plain_lit; reflexivity.
  - destruct x as [i|i j| |s]; cbn [tmterm].
    + apply plains_cons; [apply plain_op|]. apply plains_app; [apply p_value|apply plains_one, plain_op].
    + apply plains_cons; [apply plain_op|]. apply plains_app; [apply (plains_maybe tvalue p_value)|].
      apply plains_cons; [apply plain_op|]. apply plains_app; [apply (plains_maybe tvalue p_value)|].
      apply plains_one, plain_op.
    + apply plains_cons; [apply plain_op|apply plains_one, plain_op].
    + apply plains_cons; [apply plain_op|apply plains_one, plain_ident].
  - destruct x as [l r]; cbn [tmember]. apply plains_app; [apply p_value|apply (plains_flat tmterm p_mterm)].
  - destruct x as [l r]; cbn [tmul]. apply plains_app; [apply p_member|].
    apply (plains_flat (top op tvalue) (plains_top op tvalue plain_op p_value)).
  - destruct x as [l r]; cbn [tadd]. apply plains_app; [apply p_mul|].
    apply (plains_flat (top op tmul) (plains_top op tmul plain_op p_mul)).
  - destruct x as [c|l r]; cbn [tcond].
    + apply plains_cons; [apply plain_lit; reflexivity|apply p_cond].
    + apply plains_app; [apply p_add|].
      apply (plains_maybe (top tcmp_op tadd) (plains_top tcmp_op tadd plain_cmp p_add)).
  - destruct x as [l r]; cbn [tor]. apply plains_app; [apply p_cond|].
    apply (plains_flat (top tor_op tcond) (plains_top tor_op tcond plain_or p_cond)).
  - destruct x as [l r]; cbn [tand]. apply plains_app; [apply p_or|].
    apply (plains_flat (top tand_op tor) (plains_top tand_op tor plain_and p_or)).
  - destruct x as [l r]; cbn [tcomma]. apply plains_app; [apply p_and|].
    apply (plains_flat (fun t => op "," :: tmaybe tand t)
             (fun t => plains_cons (op ",") (tmaybe tand t) (plain_op ",") (plains_maybe tand p_and t))).
  - destruct x as [n e|n s|n c]; cbn [targ].
    + apply plains_cons; [apply plain_ident|]. apply plains_cons; [apply plain_op|apply p_and].
    + apply plains_cons; [apply plain_ident|]. do 2 (apply plains_cons; [apply plain_op|]).
      apply plains_app; [apply p_select|apply plains_one, plain_op].
    + apply plains_cons; [apply plain_ident|]. do 2 (apply plains_cons; [apply plain_op|]).
      apply plains_app; [apply (plains_maybe tcomma p_comma)|apply plains_one, plain_op].
  - destruct x as [explain al cols from w g o l]; cbn [tselect].
    apply plains_app; [destruct explain; [apply plains_one, plain_lit; reflexivity|exact plains_nil]|].
    apply plains_cons; [apply plain_lit; reflexivity|].
    apply plains_app; [destruct al; [destruct cols; repeat constructor|exact plains_nil]|].
    apply plains_app; [apply (plains_sep tcol p_col)|].
    apply plains_cons; [apply plain_lit; reflexivity|].
    apply plains_app; [apply p_plugin|].
    apply plains_app; [apply (plains_maybe (fun w => Tok T_WHERE "WHERE" :: tcomma w)
       (fun w => plains_cons _ _ (plain_lit T_WHERE "WHERE" eq_refl) (p_comma w)))|].
    apply plains_app; [apply (plains_maybe (fun g => Tok T_GROUPBY "GROUP BY" :: tcomma g)
       (fun g => plains_cons _ _ (plain_lit T_GROUPBY "GROUP BY" eq_refl) (p_comma g)))|].
    apply plains_app; [apply plains_order|apply plains_limit].
  - destruct x as [a|s a|e a]; cbn [tcol].
    + apply plains_cons; [apply plain_op|apply plains_alias].
    + apply plains_cons; [apply plain_op|]. apply plains_app; [apply p_select|].
      apply plains_cons; [apply plain_op|apply plains_alias].
    + apply plains_app; [apply p_and|apply plains_alias].
  - destruct x as [n call args]; cbn [tplugin]. apply plains_app; [apply plains_name|].
    destruct call; [apply (plains_call targ p_arg)|exact plains_nil].
Qed.

Lemma p_vql x : plains (tvql x).
Proof.
  destruct x as [name called ps o body|s]; cbn [tvql]; [|apply p_select].
  apply plains_cons; [apply plain_lit; reflexivity|]. apply plains_cons; [apply plain_ident|].
  apply plains_app.
  - destruct called; [|exact plains_nil]. apply plains_call. intros [a|s]; [apply p_arg|apply plains_one, plain_ident].
  - apply plains_cons; [apply plain_op|]. destruct body; [apply p_select|apply p_and].
Qed.

Lemma plains_filter ts : plains ts -> filter (fun t => negb (is_comment t)) ts = ts.
Proof. induction 1 as [|t ts (C & _) _ IH]; [reflexivity|]. cbn [filter]. rewrite C. cbn [negb]. now f_equal. Qed.
Lemma plains_upper ts : plains ts -> map upper_token ts = ts.
Proof. induction 1 as [|t ts (_ & U) _ IH]; [reflexivity|]. cbn [map]. rewrite U. now f_equal. Qed.
Lemma plains_forallb ts : plains ts -> forallb (fun t => negb (is_comment t)) ts = true.
Proof. induction 1 as [|t ts (C & _) _ IH]; [reflexivity|]. cbn [forallb]. now rewrite C, IH. Qed.

(** ** The text lexes into the tokens *)

Lemma format_lexes {A} (f : A -> visit) (x : A) ts :
  run Pending (f x) ts Broken -> plains ts -> tokens (format_with f x) = Some ts.
Proof.
  intros R P. destruct (R visitor0 "" []) as (w & E & H).
  { intros r rs _ L. exact L. }
  cbn [visitor0 out String.append] in E. destruct H as (SP & _).
  specialize (SP "" [] eq_refl LNil). rewrite sapp_nil_r, app_nil_r in SP. cbn [String.append app] in SP.
  unfold tokens, format_with. rewrite E.
  rewrite (Lexes_lex _ ts) by (apply Lexes_trim; [exact SP|now apply plains_forallb]).
  now rewrite plains_filter, plains_upper.
Qed.

Lemma vql_lexes x : ok_vql x -> clean_vql x = true -> tokens (format_vql x) = Some (tvql x).
Proof. intros K C. apply format_lexes; [now apply vql_runs|apply p_vql]. Qed.
