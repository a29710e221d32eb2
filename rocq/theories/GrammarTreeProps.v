(** C89: the tree that Parse returns is the one whose structs hold, field by
    field, what the tags of the source capture from the text.  The captures and
    the tree of a struct are in GrammarTree.v; nothing in the specification
    mentions the parser of the model. *)

From Coq Require Import ZArith List String Ascii Bool Lia.
From Verif Require Import Base F64 Text Lexer Numeral Grammar Parser ParserTotal
  GrammarText GrammarTextProofs GrammarTextProps GrammarTree GrammarTreeProofs.
Import ListNotations.
Open Scope nat_scope.
Open Scope string_scope.
Open Scope list_scope.

Lemma whole_fills {A} (p : parser A) s (t : A -> tree) ts :
  plain ts -> (forall a b, t a = t b -> a = b) -> tree_ok p s t -> p ts <> PFuel ->
  forall a, whole (p ts) = Some a <-> exists c, fills s ts c /\ tree_of s c = t a.
Proof.
  intros H J K N a. destruct (K "x") as (F & B).
  assert (D : forall b, p ts = POk b [] -> exists c, fills s ts c /\ tree_of s c = t b).
  { intros b E. destruct (B ts b [] H E) as (c & L & M). inversion L; subst; [|discriminate].
    cbn in M. injection M as M. eexists. split; [|exact M]. eexists. split; eassumption. }
  split.
  - intro E. unfold whole in E. destruct (p ts) as [b [|x r]| |] eqn:X; try discriminate. injection E as <-. now apply D.
  - intros (c & (n & G & L) & M). specialize (F ts H).
    assert (R : reads (NKeep "x" (NStruct s)) ts (Took [])).
    { apply R_keep. eapply R_struct; [exact G|]. now apply keeps_reads in L. }
    destruct (p ts) as [b r|r|] eqn:X; [| |contradiction].
    + pose proof (reads_once _ _ _ F _ R) as E. injection E as ->.
      destruct (D b eq_refl) as (c' & (n' & G' & L') & M').
      rewrite G in G'. injection G' as <-. destruct (keeps_once _ _ _ _ L _ _ L') as (<- & _).
      unfold whole. f_equal. apply J. congruence.
    + pose proof (reads_once _ _ _ F _ R). discriminate.
Qed.

(** Parse *)
Theorem C89_parse : forall text statement,
  parse_vql text = Some statement <->
  exists ts c, tokens text = Some ts /\ fills "VQL" ts c /\ tree_of "VQL" c = TVql statement.
Proof.
  intros text v. unfold parse_vql. destruct (tokens text) as [ts|] eqn:E.
  - rewrite (whole_fills (pvql (fuel_for ts)) "VQL" TVql ts (tokens_plain _ _ E)
      ltac:(now intros a b [= ->]) (t_vql _) (parse_decides ts) v).
    split.
    + intros (c & X). exists ts, c. now split.
    + intros (u & c & [= <-] & X). eauto.
  - split; [discriminate|]. intros (ts & c & X & _). discriminate.
Qed.

(** MultiParse *)
Theorem C89_multi_parse : forall text statements,
  parse_multi text = Some statements <->
  exists ts c, tokens text = Some ts /\ fills "MultiVQL" ts c /\ tree_of "MultiVQL" c = TMulti statements.
Proof.
  intros text v. unfold parse_multi. destruct (tokens text) as [ts|] eqn:E.
  - rewrite (whole_fills (pmulti (fuel_for ts) (fuel_for ts)) "MultiVQL" TMulti ts (tokens_plain _ _ E)
      ltac:(now intros a b [= ->]) (t_multi _ _) (multi_parse_decides ts) v).
    split.
    + intros (c & X). exists ts, c. now split.
    + intros (u & c & [= <-] & X). eauto.
  - split; [discriminate|]. intros (ts & c & X & _). discriminate.
Qed.

(** Of the tokens, only one thing is captured. *)
Theorem C89_one_tree : forall s ts c c', fills s ts c -> fills s ts c' -> c = c'.
Proof.
  intros s ts c c' (n & G & L) (n' & G' & L'). rewrite G in G'. injection G' as <-.
  exact (proj1 (keeps_once _ _ _ _ L _ _ L')).
Qed.
(** What is filled is what is accepted, and no statement is lost on the way
    into the tree. *)
Theorem C89_accepted_is_filled : forall text,
  (exists ts, tokens text = Some ts /\ accepts "VQL" ts) <->
  (exists ts c, tokens text = Some ts /\ fills "VQL" ts c /\ exists statement, tree_of "VQL" c = TVql statement).
Proof.
  intro text. rewrite <- C86_parse. split.
  - intros (v & E). apply C89_parse in E as (ts & c & T & F & M). eauto 6.
  - intros (ts & c & T & F & v & M). exists v. apply C89_parse. eauto.
Qed.

(** ** What is captured, and the trees *)

Definition symbol (s : string) : capture :=
  CStruct "_AndExpression" [("Left", CStruct "_OrExpression" [("Left", CStruct "_ConditionOperand"
    [("Left", CStruct "_AdditionExpression" [("Left", CStruct "_MultiplicationExpression"
      [("Left", CStruct "_MemberExpression" [("Left", CStruct "_Value"
        [("SymbolRef", CStruct "_SymbolRef" [("Symbol", CText s)])])])])])])])].
Example C89_tree : exists v,
  parse_vql "SELECT *, a AS b FROM x.y() ORDER BY a DESC LIMIT 5" = Some v /\
  tree_of "VQL" [("Query", CStruct "_Select"
    [("SelectExpression", CStruct "_SelectExpression"
       [("All", CText "*"); ("Expressions", CStruct "_AliasedExpression" [("Expression", symbol "a"); ("As", CText "b")])]);
     ("From", CStruct "_From" [("Plugin", CStruct "Plugin"
       [("Name", CText "x"); ("Name", CText "."); ("Name", CText "y"); ("Call", CText "(")])]);
     ("OrderBy", CText "a"); ("OrderByDesc", CText "DESC"); ("Limit", CText "5")])] = TVql v.
Proof. eexists. split; vm_compute; reflexivity. Qed.
Example C89_filled : exists ts c v,
  tokens "LET X(a, b=5) = SELECT *, a.b[1:2] AS c FROM info(x=[1, 2]) WHERE NOT a =~ 'x' LIMIT 5" = Some ts /\
  fills "VQL" ts c /\ tree_of "VQL" c = TVql v.
Proof.
  destruct (parse_vql "LET X(a, b=5) = SELECT *, a.b[1:2] AS c FROM info(x=[1, 2]) WHERE NOT a =~ 'x' LIMIT 5")
    as [v|] eqn:E; [|vm_compute in E; discriminate].
  apply C89_parse in E as (ts & c & X). exists ts, c, v. exact X.
Qed.
(** A reading of the grammar itself: the texts of a path. *)
Example C89_keeps_path : forall x y r, tt x = T_Ident -> tt y = T_Ident ->
  keeps (NAll [NKeep "Name" (NToken T_Ident); NKeep "Name" (NText "."); NKeep "Name" (NToken T_Ident)])
    (x :: Tok T_Operators "." :: y :: r)
    [("Name", CText (tv x)); ("Name", CText "."); ("Name", CText (tv y))] r.
Proof.
  intros x y r X Y.
  apply (K_all _ _ _ [("Name", CText (tv x))] _ _ _ (K_keep "Name" (NToken T_Ident) x [] _ eq_refl (K_token _ x _ X))).
  apply (K_all _ _ _ [("Name", CText ".")] _ _ _ (K_keep "Name" (NText ".") (Tok T_Operators ".") [] _ eq_refl (K_text (Tok T_Operators ".") _))).
  apply (K_all _ _ _ [("Name", CText (tv y))] _ [] _ (K_keep "Name" (NToken T_Ident) y [] _ eq_refl (K_token _ y _ Y))). constructor.
Qed.

Print Assumptions C89_parse.
Print Assumptions C89_multi_parse.
Print Assumptions C89_one_tree.
Print Assumptions C89_accepted_is_filled.
