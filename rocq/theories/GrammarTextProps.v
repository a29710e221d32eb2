(** C86: a text is accepted exactly when the grammar in the struct tags of the
    source reads all of it.  The tags are copied in GrammarText.v with the
    meaning that participle gives them; nothing in the specification mentions
    the parser of the model. *)

From Coq Require Import ZArith List String Ascii Bool Lia.
From Verif Require Import Base F64 Text Lexer Numeral Grammar Parser ParserTotal Comments CommentTotal
  GrammarText GrammarTextProofs.
Import ListNotations.
Open Scope nat_scope.
Open Scope string_scope.
Open Scope list_scope.

(** The grammar of a struct reads all of the tokens. *)
Definition accepts (s : string) (ts : list token) : Prop := reads (NStruct s) ts (Took []).

Lemma tokens_plain text ts : tokens text = Some ts -> plain ts.
Proof.
  unfold tokens. destruct (lex text) as [l|]; [|discriminate]. intros [= <-].
  unfold plain. apply Forall_forall. intros t I. apply in_map_iff in I as (x & <- & I).
  apply filter_In in I as (_ & I). unfold upper_token. apply negb_true_iff in I.
  destruct (tt x) eqn:E; unfold is_comment in *; rewrite ?E in *; cbn [tt]; try exact I; reflexivity.
Qed.

Lemma whole_reads {A} (Q : list token -> Prop) (p : parser A) s ts :
  Q ts -> follows Q p (NStruct s) -> p ts <> PFuel ->
  ((exists a, whole (p ts) = Some a) <-> accepts s ts).
Proof.
  intros H F N. specialize (F ts H). unfold accepts, whole. destruct (p ts) as [a r|r|]; [| |contradiction].
  - split.
    + intros (v & E). destruct r; [exact F|discriminate].
    + intro R. pose proof (reads_once _ _ _ F _ R) as E. injection E as ->. eauto.
  - split.
    + intros (v & E). discriminate.
    + intro R. pose proof (reads_once _ _ _ F _ R). discriminate.
Qed.

(** Parse *)
Theorem C86_parse : forall text,
  (exists statement, parse_vql text = Some statement) <->
  (exists ts, tokens text = Some ts /\ accepts "VQL" ts).
Proof.
  intro text. unfold parse_vql. destruct (tokens text) as [ts|] eqn:E.
  - rewrite (whole_reads plain _ "VQL" ts (tokens_plain _ _ E) (f_vql _) (parse_decides ts)).
    split; [eauto|]. now intros (u & [= <-] & R).
  - split; [intros (v & K); discriminate|intros (u & K & _); discriminate].
Qed.

(** MultiParse *)
Theorem C86_multi_parse : forall text,
  (exists statements, parse_multi text = Some statements) <->
  (exists ts, tokens text = Some ts /\ accepts "MultiVQL" ts).
Proof.
  intro text. unfold parse_multi. destruct (tokens text) as [ts|] eqn:E.
  - rewrite (whole_reads plain _ "MultiVQL" ts (tokens_plain _ _ E) (f_multi _ _) (multi_parse_decides ts)).
    split; [eauto|]. now intros (u & [= <-] & R).
  - split; [intros (v & K); discriminate|intros (u & K & _); discriminate].
Qed.

(** MultiParseWithComments *)
Theorem C86_multi_parse_with_comments : forall text,
  (exists statements, parse_comments text = Some statements) <->
  (exists ts, all_tokens text = Some ts /\ accepts "MultiVQL" ts).
Proof.
  intro text. unfold parse_comments. destruct (all_tokens text) as [ts|] eqn:E.
  - rewrite (whole_reads anything _ "MultiVQL" ts I (f_kmulti _ _) (comments_parse_decides ts)).
    split; [eauto|]. now intros (u & [= <-] & R).
  - split; [intros (v & K); discriminate|intros (u & K & _); discriminate].
Qed.

(** A grammar reads a text in at most one way, and that of a script in one
    way: no text leaves the parser without an answer. *)
Theorem C86_one_reading : forall g ts o o', reads g ts o -> reads g ts o' -> o = o'.
Proof. intros g ts o o' R R'. exact (reads_once _ _ _ R _ R'). Qed.
Theorem C86_every_script_is_read : forall ts, exists o, reads (NStruct "MultiVQL") ts o.
Proof.
  intro ts. pose proof (f_kmulti (fuel_for ts) (fuel_for ts) ts I) as F.
  destruct (pkmulti (fuel_for ts) (fuel_for ts) ts) as [a r|r|] eqn:E; eauto.
  now apply comments_parse_decides in E.
Qed.

(** Every struct that a tag captures has a grammar of its own. *)
Theorem C86_grammar_is_complete : forall s fs, In (s, fs) vql_structs -> exists n, grammar_of s = Some n.
Proof.
  assert (F : Forall (fun p => exists n, grammar_of (fst p) = Some n) vql_structs).
  { repeat constructor; eexists; vm_compute; reflexivity. }
  intros s fs I. rewrite Forall_forall in F. exact (F _ I).
Qed.

(** ** A text that meets it, and one that does not *)

Example C86_accepted : exists ts,
  tokens "LET X(a, b=5) = SELECT *, a.b[1:2] AS c FROM info(x=[1, 2]) WHERE NOT a =~ 'x' LIMIT 5" = Some ts /\
  accepts "VQL" ts.
Proof. apply C86_parse. eexists. vm_compute. reflexivity. Qed.
Example C86_rejected : forall ts, tokens "SELECT a FROM info() LIMIT x" = Some ts -> ~ accepts "VQL" ts.
Proof.
  intros ts T A. destruct (proj2 (C86_parse "SELECT a FROM info() LIMIT x")) as (v & E); [eauto|].
  vm_compute in E. discriminate.
Qed.
(** A reading of the grammar itself. *)
Example C86_read_limit : forall x r, tt x = T_Number -> parse_int (tv x) = Some 5%Z ->
  reads (NAll [NToken T_LIMIT; NInt64 T_Number]) (Tok T_LIMIT "LIMIT" :: x :: r) (Took r).
Proof. intros x r T P. eapply R_all; [now constructor|]. eapply R_all; [econstructor; eauto|constructor]. Qed.

Print Assumptions C86_parse.
Print Assumptions C86_multi_parse.
Print Assumptions C86_multi_parse_with_comments.
Print Assumptions C86_one_reading.
Print Assumptions C86_every_script_is_read.
Print Assumptions C86_grammar_is_complete.
