(** C57, C61 on the text as written: what the parser keeps of the calls of a
    text. *)

From Coq Require Import ZArith List String Ascii Bool Lia.
From Verif Require Import Base F64 Text Lexer Numeral Grammar Parser Format Spelling Outline.
From Verif Require Import LexProofs LexCover ParseProofs FormatProofs ParserSound OutlineProps.
Import ListNotations.
Open Scope nat_scope.
Open Scope string_scope.
Open Scope list_scope.

(** ** A token spelled like an operator is one *)

(** No counterpart in /repo: a notion of the proof about the lexer of
    vfilter.go:149-178. *)
Definition sharp (t : token) : Prop := In (tv t) operators -> tt t = T_Operators.

Lemma by_alpha s t r : lex1 s = Some (Some t, r) -> tt t = T_GROUPBY \/ tt t = T_ORDERBY -> first_char is_alpha s = true.
Proof.
  unfold lex1. destruct (first_char is_space s); [discriminate|].
  destruct (first_rule _ s) as [(t', r')|] eqn:E at 1.
  { intros [= <- <-] [X|X]; cbn [first_rule] in E;
      (destruct (mline_comment s) as [(v, z)|]; [injection E as <- <-; discriminate|]);
      (destruct (line_comment "--" s) as [(v, z)|]; [injection E as <- <-; discriminate|]);
      (destruct (line_comment "//" s) as [(v, z)|]; [injection E as <- <-; discriminate|discriminate]). }
  clear E. destruct (first_char is_alpha s) eqn:A; [reflexivity|].
  destruct (first_rule _ s) as [(t', r')|] eqn:E; [|discriminate]. intros [= <- <-] X. exfalso. cbn [first_rule] in E.
  repeat match type of E with
         | match ?m with _ => _ end = _ => destruct m as [(?, ?)|]; [injection E as <- <-; cbn in X; destruct X; discriminate|]
         end. discriminate.
Qed.
Lemma operator_not_alpha v r : In v operators -> first_char is_alpha (v ++ r)%string = false.
Proof. cbn [operators In]. intro I. repeat (destruct I as [<-|I]; [reflexivity|]). contradiction. Qed.
Lemma operator_lexes v o : In v operators -> lex1 v = Some (o, "") -> o = Some (Tok T_Operators v).
Proof. cbn [operators In]. intro I. repeat (destruct I as [<-|I]; [vm_compute; congruence|]). contradiction. Qed.
Lemma keyword_desc w : keyword_of w = Some T_DESC -> upper w = "DESC".
Proof.
  unfold keyword_of. destruct (find _ keywords) as [k|] eqn:F; [|discriminate]. intros [= E].
  apply find_some in F as (I & Q). apply String.eqb_eq in Q. rewrite <- Q.
  cbn in I. repeat (destruct I as [<-|I]; [first [reflexivity|discriminate E]|]). contradiction.
Qed.
Lemma lex1_sharp s t r : lex1 s = Some (Some t, r) -> is_comment t = false -> sharp (upper_token t).
Proof.
  intros E C. pose proof (lex1_lexeme s t r E) as (L & M). pose proof (lex1_cuts s (Some t) r E) as K.
  destruct t as [ty v]. unfold sharp, upper_token. cbn [tt tv] in *.
  assert (R : reads ty v -> In v operators -> ty = T_Operators).
  { intros R I. pose proof (R "" eq_refl) as X. rewrite sapp_nil_r in X. apply (operator_lexes v _ I) in X. congruence. }
  assert (B : In v operators -> ty = T_GROUPBY \/ ty = T_ORDERBY -> False).
  { intros I Y. pose proof (by_alpha s (Tok ty v) r E Y) as A. destruct K as (u & K & _ & KV). cbn [tv] in KV. subst u. rewrite K in A.
    now rewrite operator_not_alpha in A. }
  destruct ty; try discriminate C; cbn [tt tv] in *; auto;
    try (intro I; exfalso; apply (B I); auto; fail).
  - rewrite (keyword_in v M). intro I. vm_compute in I. repeat (destruct I as [I|I]; [discriminate I|]). contradiction.
  - rewrite (keyword_desc v M). intro I. vm_compute in I. repeat (destruct I as [I|I]; [discriminate I|]). contradiction.
Qed.
Lemma tokens_sharp s ts : tokens s = Some ts -> Forall sharp ts.
Proof.
  unfold tokens, lex. destruct (lex_n _ s) as [l|] eqn:E; [|discriminate]. intros [= <-].
  assert (H : forall n s l, lex_n n s = Some l -> Forall (fun t => is_comment t = false -> sharp (upper_token t)) l).
  { clear. induction n as [|n IH]; [discriminate|]. intros s l. cbn [lex_n]. destruct s as [|c s].
    - intros [= <-]. constructor.
    - destruct (lex1 (String c s)) as [(t, r)|] eqn:E; [|discriminate].
      destruct (lex_n n r) as [q|] eqn:R; [|discriminate]. intros [= <-]. apply IH in R.
      destruct t as [t|]; [|exact R]. constructor; [|exact R]. exact (lex1_sharp _ _ _ E). }
  apply H in E. rewrite Forall_map, Forall_forall in *. intros t I. apply filter_In in I as (I & N).
  apply E; [exact I|]. now destruct (is_comment t).
Qed.

(** ** What a parser reads of the calls *)

(** Started in a state of P, whatever p accepts leaves a state of Q, and the
    calls of the tokens it took, l, satisfy T. No counterpart in /repo: a
    notion of the proof: roles and names of calls. *)
Definition calls := list (role * string).
(** No counterpart in /repo: a notion of the proof about the parser. *)
Definition emits {A} (P : state) (p : parser A) (T : A -> calls -> Prop) (Q : A -> state) : Prop :=
  forall ts a r w n, Forall sharp ts -> P w n -> p ts = POk a r ->
  Forall sharp r /\ exists w' n' l, Q a w' n' /\ T a l /\ calls_from w n ts = l ++ calls_from w' n' r.
(** No counterpart in /repo: a notion of the proof about the parser. *)
Definition to {A} (Q : state) : A -> state := fun _ => Q.
(** No counterpart in /repo: a notion of the proof about the parser. *)
Definition keeps {A} (r : A -> list site) : A -> calls -> Prop := fun a l => Subseq (calls_of (r a)) l.
(** No counterpart in /repo: a notion of the proof about the parser. *)
Definition whatever {A} : A -> calls -> Prop := fun _ _ => True.

Lemma emits_weaken {A} (P P' : state) (p : parser A) (T T' : A -> calls -> Prop) (Q Q' : A -> state) :
  (forall w n, P' w n -> P w n) -> (forall a l, T a l -> T' a l) -> (forall a w n, Q a w n -> Q' a w n) ->
  emits P p T Q -> emits P' p T' Q'.
Proof.
  intros HP HT HQ H ts a r w n K X E. destruct (H ts a r w n K (HP w n X) E) as (S1 & w' & n' & l & Y & Z & R).
  split; [exact S1|]. exists w', n', l. auto.
Qed.
Lemma emits_pret {A} (P : state) (a : A) (T : A -> calls -> Prop) : T a [] -> emits P (pret a) T (to P).
Proof. intros H ts b r w n K X [= <- <-]. split; [exact K|]. exists w, n, []. auto. Qed.
Lemma emits_done {A} (P : state) (a : A) (T : A -> calls -> Prop) :
  (forall w n, P w n -> Any w n) -> T a [] -> emits P (pret a) T (to Any).
Proof. intros HQ HT ts b r w n K X [= <- <-]. split; [exact K|]. exists w, n, []. unfold to. auto. Qed.
Lemma emits_bind {A B} (P : state) (p : parser A) (f : A -> parser B) T Q (U : B -> calls -> Prop) R :
  emits P p T Q -> (forall a l, T a l -> emits (Q a) (f a) (fun b m => U b (l ++ m)) R) -> emits P (pbind p f) U R.
Proof.
  intros HP HF ts b r w n K X. unfold pbind. destruct (p ts) as [a q| |] eqn:E; try discriminate. intro E2.
  destruct (HP ts a q w n K X E) as (K1 & w1 & n1 & l1 & Q1 & T1 & R1).
  destruct (HF a l1 T1 q b r w1 n1 K1 Q1 E2) as (K2 & w2 & n2 & l2 & Q2 & U2 & R2).
  split; [exact K2|]. exists w2, n2, (l1 ++ l2). split; [exact Q2|]. split; [exact U2|]. now rewrite R1, R2, app_assoc.
Qed.
Lemma emits_alt {A} (P : state) (p q : parser A) T Q : emits P p T Q -> emits P q T Q -> emits P (alt p q) T Q.
Proof.
  intros HP HQ ts a r w n K X. unfold alt. destruct (p ts) as [b x|x|] eqn:E; [|destruct (stop ts x); [discriminate|]|discriminate].
  - intros [= <- <-]. now apply (HP ts).
  - destruct (q ts) as [b y|y|] eqn:E2; [|destruct (stop ts y); discriminate|discriminate].
    intros [= <- <-]. now apply (HQ ts).
Qed.
Lemma emits_popt {A} (P : state) (p : parser A) T : emits P p T (to Any) -> (forall w n, P w n -> Any w n) ->
  emits P (popt p) (fun o l => match o with Some a => T a l | None => l = [] end) (to Any).
Proof.
  intros H I ts a q w n K X. unfold popt. destruct (p ts) as [b x|x|] eqn:E; [|destruct (stop ts x); [discriminate|]|discriminate].
  - intros [= <- <-]. destruct (H ts b x w n K X E) as (K1 & w1 & n1 & l & Y & Z & R). split; [exact K1|].
    exists w1, n1, l. auto.
  - intros [= <- <-]. split; [exact K|]. exists w, n, []. split; [now apply I|]. split; reflexivity.
Qed.
Lemma emits_opt {A} (p : parser A) r : emits Any p (keeps r) (to Any) -> emits Any (popt p) (keeps (rmaybe r)) (to Any).
Proof.
  intro H. eapply emits_weaken; [| | |apply emits_popt; [exact H|auto]]; auto.
  intros [a|] l; [auto|intros ->; constructor].
Qed.
Lemma emits_pstar_n {A} (p : parser A) r : emits Any p (keeps r) (to Any) -> forall k,
  emits Any (pstar_n k p) (keeps (flat_map r)) (to Any).
Proof.
  intros H k. induction k as [|k IH]; intros ts l q w n K X; cbn [pstar_n]; [discriminate|].
  destruct (p ts) as [b x|x|] eqn:E; [|destruct (stop ts x); [discriminate|]|discriminate].
  - destruct (pstar_n k p x) as [m y|y|] eqn:E2; try discriminate. intros [= <- <-].
    destruct (H ts b x w n K X E) as (K1 & w1 & n1 & l1 & Y1 & Z1 & R1).
    destruct (IH x m y w1 n1 K1 Y1 E2) as (K2 & w2 & n2 & l2 & Y2 & Z2 & R2).
    split; [exact K2|]. exists w2, n2, (l1 ++ l2). split; [exact Y2|]. split.
    + unfold keeps. cbn [flat_map]. rewrite calls_of_app. now apply Subseq_app.
    + now rewrite R1, R2, app_assoc.
  - intros [= <- <-]. split; [exact K|]. exists w, n, []. split; [exact X|]. split; [constructor|reflexivity].
Qed.
Lemma emits_pstar {A} (p : parser A) r : emits Any p (keeps r) (to Any) ->
  emits Any (pstar p) (keeps (flat_map r)) (to Any).
Proof. intros H ts. apply emits_pstar_n, H. Qed.

(** *** tokens

    No counterpart in /repo: a notion of the proof about the parser. *)
Definition opening (v : string) : bool := String.eqb v "(" || String.eqb v ".".
Lemma emits_plit (P : state) v (T : string -> calls -> Prop) : In v operators -> opening v = false -> (forall a : string, T a []) ->
  emits P (plit v) T (to Fresh).
Proof.
  intros I O HT [|x ts] a r w n K X; cbn [plit]; [discriminate|].
  destruct (String.eqb_spec (tv x) v) as [E|]; [|discriminate]. intros [= <- <-]. inversion K as [|? ? Kx Kr]; subst.
  split; [exact Kr|]. exists RFunction, None, []. split; [now split|]. split; [apply HT|]. cbn [app calls_from].
  rewrite (Kx I). unfold opening in O. apply orb_false_iff in O as (O1 & O2). now rewrite O1, O2.
Qed.
Lemma emits_ptok (P : state) t (T : string -> calls -> Prop) : match t with T_Ident | T_SymbolIdent | T_LET | T_FROM | T_Operators => false | _ => true end = true ->
  (forall a : string, T a []) -> emits P (ptok t) T (to Fresh).
Proof.
  intros I HT [|x ts] a r w n K X; cbn [ptok]; [discriminate|].
  destruct (ttype_beq (tt x) t) eqn:E; [|discriminate]. intros [= <- <-]. inversion K as [|? ? Kx Kr]; subst.
  split; [exact Kr|]. exists RFunction, None, []. split; [now split|]. split; [apply HT|]. cbn [app calls_from].
  apply internal_ttype_dec_bl in E. rewrite E. destruct t; try discriminate I; reflexivity.
Qed.
Lemma emits_ident  (T : string -> calls -> Prop) : (forall a : string, T a []) ->
  emits Any (ptok T_Ident) T (fun a => At RFunction (Some a)).
Proof.
  intros HT [|x ts] a r w n K X; cbn [ptok]; [discriminate|].
  destruct (ttype_beq (tt x) T_Ident) eqn:E; [|discriminate]. intros [= <- <-]. inversion K as [|? ? Kx Kr]; subst.
  split; [exact Kr|]. exists RFunction, (Some (tv x)), []. split; [now split|]. split; [apply HT|]. cbn [app calls_from].
  apply internal_ttype_dec_bl in E. rewrite E. destruct X as [X| ->]; destruct n; try reflexivity. now destruct X.
Qed.
Lemma emits_symbol_ident  (T : string -> calls -> Prop) : (forall a : string, T a []) ->
  emits Any (ptok T_SymbolIdent) T (fun a => At RFunction (Some a)).
Proof.
  intros HT [|x ts] a r w n K X; cbn [ptok]; [discriminate|].
  destruct (ttype_beq (tt x) T_SymbolIdent) eqn:E; [|discriminate]. intros [= <- <-]. inversion K as [|? ? Kx Kr]; subst.
  split; [exact Kr|]. exists RFunction, (Some (tv x)), []. split; [now split|]. split; [apply HT|]. cbn [app calls_from].
  apply internal_ttype_dec_bl in E. rewrite E. destruct X as [X| ->]; destruct n; try reflexivity. now destruct X.
Qed.
Lemma emits_first_name w0 (T : string -> calls -> Prop) : (forall a : string, T a []) ->
  emits (At w0 None) (ptok T_Ident) T (fun a => At w0 (Some a)).
Proof.
  intros HT [|x ts] a r w n K (-> & ->); cbn [ptok]; [discriminate|].
  destruct (ttype_beq (tt x) T_Ident) eqn:E; [|discriminate]. intros [= <- <-]. inversion K as [|? ? Kx Kr]; subst.
  split; [exact Kr|]. exists w0, (Some (tv x)), []. split; [now split|]. split; [apply HT|]. cbn [app calls_from].
  apply internal_ttype_dec_bl in E. now rewrite E.
Qed.
(** a keyword that says what the next name is *)
Lemma emits_from : emits Any (ptok T_FROM) (fun _ l => l = []) (to (At RPlugin None)).
Proof.
  intros [|x ts] a r w n K X; cbn [ptok]; [discriminate|].
  destruct (ttype_beq (tt x) T_FROM) eqn:E; [|discriminate]. intros [= <- <-]. inversion K as [|? ? Kx Kr]; subst.
  split; [exact Kr|]. exists RPlugin, None, []. split; [now split|]. split; [reflexivity|]. cbn [app calls_from].
  apply internal_ttype_dec_bl in E. now rewrite E.
Qed.
Lemma emits_let : emits Any (ptok T_LET) (fun _ l => l = []) (to (At RDefinition None)).
Proof.
  intros [|x ts] a r w n K X; cbn [ptok]; [discriminate|].
  destruct (ttype_beq (tt x) T_LET) eqn:E; [|discriminate]. intros [= <- <-]. inversion K as [|? ? Kx Kr]; subst.
  split; [exact Kr|]. exists RDefinition, None, []. split; [now split|]. split; [reflexivity|]. cbn [app calls_from].
  apply internal_ttype_dec_bl in E. now rewrite E.
Qed.
(** an opening parenthesis: somewhere, after a name *)
Lemma open_step ts w n : calls_from w n (op "(" :: ts) =
  match n, w with
  | Some m, RDefinition => [] | Some m, w => [(w, m)] | None, _ => []
  end ++ calls_from RFunction None ts.
Proof. destruct n as [m|], w; reflexivity. Qed.
Lemma plit_op v ts a r : In v operators -> Forall sharp ts -> plit v ts = POk a r -> ts = op v :: r /\ Forall sharp r.
Proof.
  intros I K. destruct ts as [|x ts]; cbn [plit]; [discriminate|]. destruct (String.eqb_spec (tv x) v) as [E|]; [|discriminate].
  intros [= <- <-]. inversion K as [|? ? Kx Kr]; subst. split; [|exact Kr]. destruct x as [ty u]. unfold sharp in Kx. cbn [tt tv] in *.
  now rewrite (Kx I).
Qed.
Lemma emits_open P : emits P (plit "(") (fun _ _ => True) (to Fresh).
Proof.
  intros ts a r w n K X E. apply plit_op in E as (-> & Kr); [|cbn; tauto|exact K].
  split; [exact Kr|]. rewrite open_step. eexists RFunction, None, _. split; [now split|]. split; [exact I|reflexivity].
Qed.
Lemma emits_call w0 m : emits (At w0 (Some m)) (plit "(") (fun _ l => l = match w0 with RDefinition => [] | _ => [(w0, m)] end) (to Fresh).
Proof.
  intros ts a r w n K (-> & ->) E. apply plit_op in E as (-> & Kr); [|cbn; tauto|exact K].
  split; [exact Kr|]. rewrite open_step. eexists RFunction, None, _. split; [now split|]. split; [reflexivity|reflexivity].
Qed.

(** a dot and a name *)
Lemma dot_step ts s w m : calls_from w (Some m) (op "." :: tident s :: ts) = calls_from w (Some (m ++ "." ++ s)%string) ts.
Proof. reflexivity. Qed.
Lemma dot_ident ts a r : Forall sharp ts -> (plit "." ~>> ptok T_Ident) ts = POk a r ->
  ts = op "." :: tident a :: r /\ Forall sharp r.
Proof.
  intros K. unfold pbind. destruct (plit "." ts) as [b q|q|] eqn:E; try discriminate.
  apply plit_op in E as (-> & Kq); [|cbn; tauto|exact K]. destruct q as [|x q]; cbn [ptok]; [discriminate|].
  destruct (ttype_beq (tt x) T_Ident) eqn:E; [|discriminate]. intros [= <- <-]. apply internal_ttype_dec_bl in E.
  inversion Kq; subst. split; [|assumption]. destruct x as [ty u]. cbn [tt tv] in *. now subst ty.
Qed.
Lemma emits_dots w0 : forall k m ts l r, Forall sharp ts -> pstar_n k (plit "." ~>> ptok T_Ident) ts = POk l r ->
  Forall sharp r /\ calls_from w0 (Some m) ts = calls_from w0 (Some (List.fold_left (fun a b => a ++ "." ++ b)%string l m)) r.
Proof.
  induction k as [|k IH]; intros m ts l r K; cbn [pstar_n]; [discriminate|].
  destruct ((plit "." ~>> ptok T_Ident) ts) as [b x|x|] eqn:E; [|destruct (stop ts x); [discriminate|]|discriminate].
  - apply dot_ident in E as (-> & Kx); [|exact K].
    destruct (pstar_n k (plit "." ~>> ptok T_Ident) x) as [q y|y|] eqn:E2; try discriminate. intros [= <- <-].
    rewrite dot_step. cbn [List.fold_left]. now apply IH.
  - intros [= <- <-]. now split.
Qed.
Lemma emits_path P w0 (first : parser string) : emits P first (fun _ l => l = []) (fun a => At w0 (Some a)) ->
  emits P (ppath first) (fun _ l => l = []) (fun p => At w0 (Some (dotted p))).
Proof.
  intros H. unfold ppath. eapply emits_bind; [exact H|]. intros a l0 ->. intros ts p r w n K (-> & ->).
  unfold pbind at 1, pstar. destruct (pstar_n _ _ ts) as [l q|q|] eqn:E; try discriminate. intros [= <- <-].
  destruct (emits_dots w0 _ a ts l q K E) as (K1 & E1). split; [exact K1|].
  exists w0, (Some (dotted (a :: l))), []. rewrite dotted_fold. split; [now split|]. split; [reflexivity|exact E1].
Qed.

(** ** Subsequences *)
Lemma Subseq_trans {A} (a b c : list A) : Subseq a b -> Subseq b c -> Subseq a c.
Proof.
  intros H K. revert a H. induction K as [l|x b c K IH|x b c K IH]; intros a H.
  - inversion H. constructor.
  - inversion H; subst; constructor; auto.
  - constructor. auto.
Qed.
Lemma Subseq_nil_l {A} (a b c : list A) : Subseq a c -> Subseq a (b ++ c).
Proof. apply Subseq_skip. Qed.
Lemma Subseq_flat {A B} (f g : A -> list B) l : (forall a, Subseq (f a) (g a)) -> Subseq (flat_map f l) (flat_map g l).
Proof. intro H. induction l; [constructor|]. cbn. now apply Subseq_app. Qed.
Lemma last_sub {A} (r : A -> list site) l : Subseq (calls_of (rmaybe r (last_opt l))) (calls_of (flat_map r l)).
Proof.
  unfold last_opt. destruct (rev l) as [|a q] eqn:E; [constructor|].
  assert (l = rev q ++ [a]) as ->. { rewrite <- (rev_involutive l), E. reflexivity. }
  rewrite flat_map_app, calls_of_app. apply Subseq_skip. cbn [flat_map rmaybe]. rewrite app_nil_r. apply Subseq_refl.
Qed.

(** *** combined rules *)
Lemma emits_skip {A B} (P Q : state) (p : parser A) (f : A -> parser B) U R :
  emits P p whatever (to Q) -> (forall a l, emits Q (f a) (fun b m => U b (l ++ m)) R) -> emits P (pbind p f) U R.
Proof. intros H K. eapply emits_bind; [exact H|]. intros a l _. apply K. Qed.
(** Whatever came before is not asked for. *)
Lemma emits_after {A} P (p : parser A) r (R : A -> state) l :
  emits P p (keeps r) R -> emits P p (fun b m => keeps r b (l ++ m)) R.
Proof. apply emits_weaken; auto. intros a m H. now apply Subseq_skip. Qed.
Lemma any_at w m w' n' : At w (Some m) w' n' -> Any w' n'.
Proof. apply at_any. Qed.
Lemma emits_to_any {A} (P : state) (p : parser A) T (Q : A -> state) :
  (forall a w n, Q a w n -> Any w n) -> emits P p T Q -> emits P p T (to Any).
Proof. intros H. now apply emits_weaken. Qed.
Lemma emits_from_any {A} (P : state) (p : parser A) T Q :
  (forall w n, P w n -> Any w n) -> emits Any p T Q -> emits P p T Q.
Proof. intro H. now apply emits_weaken. Qed.

Ltac sub :=
  lazymatch goal with
  | |- Subseq [] _ => constructor
  | H : Subseq ?a ?l |- Subseq (?a ++ _) (?l ++ _) => apply Subseq_app; [exact H|sub]
  | H : Subseq ?a ?l |- Subseq ?a (?l ++ _) => apply Subseq_keep_left; exact H
  | |- Subseq _ (_ ++ _) => apply Subseq_skip; sub
  end.
Ltac anyof := let w := fresh in let n := fresh in let X := fresh in
  intros w n X; first [exact X|exact (fresh_any w n X)|exact (at_any _ _ w n X)].
(** an operator or a keyword that is not part of a name *)
Ltac lit := eapply emits_skip; [first [apply emits_plit; [cbn; tauto|reflexivity|intro; exact I]
                                       |apply emits_ptok; [reflexivity|intro; exact I]]|intros ? ?].
Ltac item H := eapply emits_bind; [apply emits_from_any; [anyof|apply H]|cbv beta; intros ? ? ?].
Ltac done := apply emits_done; [anyof|unfold keeps in *; cbn beta in *].

Lemma emits_lits (v u : string) : In v operators -> In u operators -> opening v = false -> opening u = false ->
  emits Any (alt (plit v) (plit u)) whatever (to Any).
Proof.
  intros. apply emits_alt; (eapply emits_to_any; [|apply emits_plit; auto; intro; exact I]); intros; now apply fresh_any.
Qed.
Lemma emits_toks t u : emits Any (ptok t) whatever (to Fresh) -> emits Any (ptok u) whatever (to Fresh) ->
  emits Any (alt (ptok t) (ptok u)) whatever (to Any).
Proof. intros H K. apply emits_alt; (eapply emits_to_any; [|eassumption]); intros; now apply fresh_any. Qed.

Lemma emits_ops {A} (po : parser string) (p : parser A) r :
  emits Any po whatever (to Any) -> emits Any p (keeps r) (to Any) ->
  emits Any (pstar (o <~ po ;; a <~ p ;; pret (o, a))) (keeps (flat_map (fun t => r (snd t)))) (to Any).
Proof.
  intros HO HP. apply (emits_pstar _ (fun t : string * A => r (snd t))). item HO. item HP. done. cbn [snd]. sub.
Qed.
Lemma emits_plist {A} (p : parser A) r : emits Any p (keeps r) (to Any) ->
  emits Any (plist p) (keeps (flat_map r)) (to Any).
Proof.
  intro H. unfold plist. eapply emits_bind with (T := keeps (rmaybe (flat_map r))) (Q := to Any).
  - apply emits_opt. item H.
    eapply emits_bind; [apply emits_pstar|cbv beta; intros ? ? ?].
    + lit. apply emits_after. apply emits_from_any; [anyof|exact H].
    + done. cbn [flat_map]. rewrite calls_of_app. sub.
  - intros [l|] m K; done; [|constructor]. cbn [rmaybe] in K. sub.
Qed.

Section Expressions.
  Variable pv : parser gvalue.
  Hypothesis value_calls : emits Any pv (keeps r_value) (to Any).

  Lemma dot_calls : emits Any (plit "." ~>> n <~ ptok T_Ident ;; pret (GTerm n)) (keeps r_mterm) (to Any).
  Proof.
    intros ts t r w n K X E.
    assert (exists s, t = GTerm s /\ (plit "." ~>> ptok T_Ident) ts = POk s r) as (s & -> & E').
    { revert E. unfold pbind. destruct (plit "." ts); try discriminate. destruct (ptok T_Ident rest) as [s q|q|]; try discriminate.
      intros [= <- <-]. eauto. }
    clear E. apply dot_ident in E' as (-> & Kr); [|exact K]. split; [exact Kr|].
    destruct n as [m|].
    - exists w, (Some (m ++ "." ++ s)%string), []. split; [left; discriminate|]. split; [constructor|reflexivity].
    - destruct X as [X| ->]; [now destruct X|]. exists RFunction, (Some s), []. split; [now right|]. split; [constructor|reflexivity].
  Qed.
  Lemma mterm_calls : emits Any (pmterm pv) (keeps r_mterm) (to Any).
  Proof.
    apply emits_alt; [|exact dot_calls]. lit. apply emits_after.
    item (emits_pstar pv r_value value_calls).
    eapply emits_bind with (T := whatever) (Q := to Any).
    { eapply emits_weaken; [| | |apply (emits_pstar (plit ":") (fun _ => []))]; auto; [intros; exact I|].
      eapply emits_to_any; [|apply emits_plit; [cbn; tauto|reflexivity|intro; constructor]]. intros; now apply fresh_any. }
    intros c lc _. item (emits_pstar pv r_value value_calls). lit. done.
    pose proof (Subseq_trans _ _ _ (last_sub r_value a0) H) as Li. pose proof (Subseq_trans _ _ _ (last_sub r_value a1) H0) as Lj.
    unfold mterm_of. destruct (nonempty c).
    - cbn [r_mterm]. rewrite calls_of_app. sub.
    - destruct (last_opt a0); [|constructor]. cbn [r_mterm rmaybe] in *. sub.
  Qed.
  Lemma member_calls : emits Any (pmember pv) (keeps r_member) (to Any).
  Proof.
    item value_calls. item (emits_pstar _ _ mterm_calls). done. cbn [r_member]. rewrite calls_of_app. sub.
  Qed.
  Lemma mul_calls : emits Any (pmul pv) (keeps r_mul) (to Any).
  Proof.
    item member_calls. item (emits_ops (alt (plit "*") (plit "/")) pv r_value
      (emits_lits "*" "/" ltac:(cbn; tauto) ltac:(cbn; tauto) eq_refl eq_refl) value_calls).
    done. cbn [r_mul]. rewrite calls_of_app. sub.
  Qed.
  Lemma add_calls : emits Any (padd pv) (keeps r_add) (to Any).
  Proof.
    item mul_calls. item (emits_ops (alt (plit "+") (plit "-")) (pmul pv) r_mul
      (emits_lits "+" "-" ltac:(cbn; tauto) ltac:(cbn; tauto) eq_refl eq_refl) mul_calls).
    done. cbn [r_add]. rewrite calls_of_app. sub.
  Qed.
  Lemma plits_calls l : Forall (fun v => In v operators /\ opening v = false) l -> emits Any (plits l) whatever (to Any).
  Proof.
    induction l as [|o l IH]; intro F; [intros ts a r w n _ _; discriminate|].
    inversion F as [|? ? (I1 & O1) F']; subst.
    assert (emits Any (plit o) whatever (to Any)) as HO.
    { eapply emits_to_any; [|apply emits_plit; auto; intro; exact I]. intros; now apply fresh_any. }
    destruct l as [|o' l]; [exact HO|].
    change (plits (o :: o' :: l)) with (alt (plit o) (plits (o' :: l))). apply emits_alt; [exact HO|now apply IH].
  Qed.
  Lemma cmpop_calls : emits Any pcmpop whatever (to Any).
  Proof.
    apply emits_alt; [|apply emits_alt].
    - apply plits_calls. repeat (apply Forall_cons; [split; [cbn; tauto|reflexivity]|]). apply Forall_nil.
    - eapply emits_to_any; [|apply emits_ptok; [reflexivity|intro; exact I]]. intros; now apply fresh_any.
    - eapply emits_to_any; [|apply emits_plit; [cbn; tauto|reflexivity|intro; exact I]]. intros; now apply fresh_any.
  Qed.
  Lemma cond_calls n : emits Any (pcond pv n) (keeps r_cond) (to Any).
  Proof.
    induction n as [|n IH]; cbn [pcond]; [intros ts a r w m _ _; discriminate|].
    eapply emits_bind with (T := keeps (fun x : gcond + gadd => match x with inl c => r_cond c | inr a => r_add a end)) (Q := to Any).
    - apply emits_alt.
      + lit. apply emits_after. item IH. done. sub.
      + item add_calls. done. sub.
    - intros x l1 Hx. item (emits_ops pcmpop (padd pv) r_add cmpop_calls add_calls). done.
      destruct x as [c|b].
      + cbn [r_cond]. sub.
      + pose proof (Subseq_trans _ _ _ (last_sub (fun t : string * gadd => r_add (snd t)) a) H) as L.
        cbn [r_cond]. rewrite calls_of_app. sub.
  Qed.
  Lemma or_calls n : emits Any (por pv n) (keeps r_or) (to Any).
  Proof.
    item cond_calls. item (emits_ops (alt (ptok T_OR) (ptok T_AlternativeOR)) (pcond pv n) r_cond
      (emits_toks _ _ (emits_ptok Any T_OR whatever eq_refl (fun _ => I))
                      (emits_ptok Any T_AlternativeOR whatever eq_refl (fun _ => I))) (cond_calls n)).
    done. cbn [r_or]. rewrite calls_of_app. sub.
  Qed.
  Lemma and_calls n : emits Any (pand pv n) (keeps r_and) (to Any).
  Proof.
    item or_calls. item (emits_ops (alt (ptok T_AND) (ptok T_AlternativeAND)) (por pv n) r_or
      (emits_toks _ _ (emits_ptok Any T_AND whatever eq_refl (fun _ => I))
                      (emits_ptok Any T_AlternativeAND whatever eq_refl (fun _ => I))) (or_calls n)).
    done. cbn [r_and]. rewrite calls_of_app. sub.
  Qed.
  Lemma comma_calls n : emits Any (pcomma pv n) (keeps r_comma) (to Any).
  Proof.
    item and_calls.
    eapply emits_bind; [apply (emits_pstar _ (rmaybe r_and))|cbv beta; intros ? ? ?].
    - lit. apply emits_after. item (emits_pstar _ _ (and_calls n)). done.
      apply (Subseq_trans _ _ _ (last_sub r_and a1)). sub.
    - done. cbn [r_comma]. rewrite calls_of_app. sub.
  Qed.

  Section Knot.
    Variable n : nat.
    Variable ps : parser gselect.
    Hypothesis select_calls : emits Any ps (keeps r_select) (to Any).

    Lemma ident_any : emits Any (ptok T_Ident) whatever (to Any).
    Proof. eapply emits_to_any; [|apply emits_ident; intro; exact I]. intros a w m X; exact (at_any _ _ _ _ X). Qed.
    Lemma arg_calls : emits Any (parg n pv ps) (keeps r_arg) (to Any).
    Proof.
      eapply emits_skip; [exact ident_any|]. intros a l. apply emits_after. lit. apply emits_after.
      apply emits_alt; [|apply emits_alt].
      - lit. apply emits_after. item select_calls. lit. done. cbn [r_arg]. sub.
      - lit. apply emits_after. item (emits_opt _ _ (comma_calls n)). lit. done. cbn [r_arg]. sub.
      - item and_calls. done. cbn [r_arg]. sub.
    Qed.

    (** The arguments of vfilter.go:1015-1029 _SymbolRef. *)
    Definition pcallargs : parser (list garg) := plit "(" ~>> a <~ plist (parg n pv ps) ;; plit ")" ~>> pret a.
    (** the arguments of a call, after a name and elsewhere *)
    Lemma args_calls w m : w <> RDefinition ->
      emits (At w (Some m)) pcallargs (fun a l => Subseq ((w, m) :: calls_of (flat_map r_arg a)) l) (to Any).
    Proof.
      intro W. eapply emits_bind; [apply emits_call|cbv beta; intros ? ? ->].
      item (emits_plist _ _ arg_calls). lit. done.
      destruct w; [congruence| |]; cbn [app]; constructor; sub.
    Qed.
    Lemma args_calls_any : emits Any pcallargs (keeps (flat_map r_arg)) (to Any).
    Proof.
      eapply emits_skip; [apply emits_open|]. intros a l. apply emits_after.
      item (emits_plist _ _ arg_calls). lit. done. sub.
    Qed.
    Lemma flat_concat {A B} (f : A -> list B) l : flat_map f (List.concat l) = flat_map (flat_map f) l.
    Proof. induction l as [|a l IH]; [reflexivity|]. cbn. now rewrite flat_map_app, IH. Qed.
    Lemma symref_calls : emits Any (psymref n pv ps) (keeps r_value) (to Any).
    Proof.
      eapply emits_bind.
      { apply (emits_path Any RFunction). apply emits_alt; [now apply emits_symbol_ident|now apply emits_ident]. }
      cbv beta. intros p l0 ->. cbn [app]. change (fun b : gvalue => keeps r_value b) with (keeps r_value).
      intros ts v r w m K (-> & ->). unfold pbind at 1. fold pcallargs.
      destruct (pstar pcallargs ts) as [l q|q|] eqn:E; try discriminate. intros [= <- <-].
      unfold pstar in E. cbn [pstar_n] in E. destruct (pcallargs ts) as [a x|x|] eqn:E1; [| |discriminate].
      - destruct (pstar_n (List.length ts) pcallargs x) as [q' y|y|] eqn:E2; try discriminate. injection E as <- <-.
        destruct (args_calls RFunction (dotted p) ltac:(discriminate) ts a x RFunction (Some (dotted p)) K ltac:(now split) E1)
          as (K1 & w1 & n1 & l1 & Y1 & Z1 & R1).
        destruct (emits_pstar_n _ _ args_calls_any _ x q' y w1 n1 K1 Y1 E2) as (K2 & w2 & n2 & l2 & Y2 & Z2 & R2).
        split; [exact K2|]. exists w2, n2, (l1 ++ l2). split; [exact Y2|]. split; [|now rewrite R1, R2, app_assoc].
        unfold keeps in *. cbn [nonempty r_value List.concat]. rewrite calls_of_cons, flat_map_app, calls_of_app, flat_concat.
        change ((call_of (Site KFunction (dotted p) (arg_names (a ++ List.concat q')))) ++ calls_of (flat_map r_arg a) ++ calls_of (flat_map (flat_map r_arg) q'))
          with (((RFunction, dotted p) :: calls_of (flat_map r_arg a)) ++ calls_of (flat_map (flat_map r_arg) q')).
        now apply Subseq_app.
      - destruct (stop ts x); [discriminate|]. injection E as <- <-. split; [exact K|].
        exists RFunction, (Some (dotted p)), []. split; [left; discriminate|]. split; [constructor|reflexivity].
    Qed.
    Lemma tok_calls t (f : string -> gvalue) : emits Any (ptok t) whatever (to Fresh) -> (forall s, r_value (f s) = []) ->
      emits Any (s <~ ptok t ;; pret (f s)) (keeps r_value) (to Any).
    Proof. intros H E. eapply emits_skip; [exact H|]. intros a l. done. rewrite E. constructor. Qed.
    Lemma value_step_calls : emits Any (pvalue_step n pv ps) (keeps r_value) (to Any).
    Proof.
      apply emits_alt; [exact symref_calls|].
      apply emits_alt; [|apply emits_alt; [|apply emits_alt; [|apply emits_alt]]].
      - eapply emits_skip; [apply emits_open|]. intros a l. apply emits_after. item comma_calls. lit. done. cbn [r_value]. sub.
      - eapply emits_skip.
        { apply emits_toks; (apply emits_ptok; [reflexivity|intro; exact I]). }
        intros a l. done. constructor.
      - apply tok_calls; [apply emits_ptok; [reflexivity|intro; exact I]|reflexivity].
      - apply tok_calls; [apply emits_ptok; [reflexivity|intro; exact I]|reflexivity].
      - lit. done. constructor.
    Qed.

    Lemma alias_calls : emits Any palias whatever (to Any).
    Proof.
      unfold palias. eapply emits_bind; [apply (emits_popt Any) with (T := whatever); [|auto]|].
      - lit. apply emits_from_any; [anyof|]. exact ident_any.
      - intros a l _. done. exact I.
    Qed.
    Lemma col_calls : emits Any (pcol n pv ps) (keeps r_col) (to Any).
    Proof.
      eapply emits_bind with (T := fun (f : string -> gcol) l => forall a, Subseq (calls_of (r_col (f a))) l) (Q := to Any).
      - apply emits_alt; [|apply emits_alt].
        + lit. done. intro a0. constructor.
        + lit. item select_calls. lit. done. intro b. cbn [r_col]. sub.
        + item and_calls. done. intro b. cbn [r_col]. sub.
      - intros f l Hf. eapply emits_skip; [exact alias_calls|]. intros a m. done. specialize (Hf a). sub.
    Qed.
    Lemma plugin_calls : emits (At RPlugin None) (pplugin n pv ps) (keeps r_plugin) (to Any).
    Proof.
      eapply emits_bind; [apply (emits_path _ RPlugin); now apply emits_first_name|].
      cbv beta. intros p l0 ->.
      eapply emits_bind; [apply emits_popt; [apply (args_calls RPlugin (dotted p)); discriminate|anyof]|].
      cbv beta. intros [a|] l H; done; cbn [given r_plugin]; [|constructor].
      rewrite calls_of_cons. cbn [call_of s_kind s_name app]. rewrite app_nil_r. exact H.
    Qed.
    Lemma limit_calls : emits Any plimit (keeps (fun _ => [])) (to Any).
    Proof.
      intros ts z r w m K X. unfold plimit.
      assert (G : emits Any (ptok T_LIMIT ~>> ptok T_Number) whatever (to Any)).
      { lit. eapply emits_to_any; [|apply emits_ptok; [reflexivity|intro; exact I]]. intros; now apply fresh_any. }
      destruct ((ptok T_LIMIT ~>> ptok T_Number) ts) as [s q|q|] eqn:E; try discriminate.
      destruct (parse_int s); [|discriminate]. intros [= <- <-].
      destruct (G ts s q w m K X E) as (K1 & w1 & n1 & l & Y & _ & R). split; [exact K1|]. exists w1, n1, l.
      split; [exact Y|]. split; [constructor|exact R].
    Qed.
    Lemma select_step_calls : emits Any (pselect_step n pv ps) (keeps r_select) (to Any).
    Proof.
      eapply emits_skip with (Q := Any).
      { eapply emits_weaken; [| | |apply (emits_pstar (ptok T_EXPLAIN) (fun _ => []))]; auto; [intros; exact I|].
        eapply emits_to_any; [|apply emits_ptok; [reflexivity|intro; constructor]]. intros; now apply fresh_any. }
      intros x l. apply emits_after. lit. apply emits_after.
      eapply emits_skip with (Q := Any).
      { apply emits_from_any; [anyof|].
        eapply emits_weaken; [| | |apply (emits_popt Any) with (T := whatever); [|auto]]; auto; [intros; exact I|].
        lit. eapply emits_weaken; [| | |apply (emits_popt Any) with (T := whatever); [|auto]]; try anyof; auto; [intros; exact I|].
        eapply emits_to_any; [|apply emits_plit; [cbn; tauto|reflexivity|intro; exact I]]. intros; now apply fresh_any. }
      intros al l2. apply emits_after. item (emits_plist _ _ col_calls).
      eapply emits_bind; [exact emits_from|]. cbv beta. intros y l3 ->. cbn [app].
      eapply emits_bind; [exact plugin_calls|]. intros from l4 Hf.
      eapply emits_bind; [apply (emits_opt _ r_comma)|].
      { lit. apply emits_after. apply emits_from_any; [anyof|]. apply comma_calls. }
      intros wh l5 Hw. eapply emits_bind; [apply (emits_opt _ r_comma)|].
      { lit. apply emits_after. apply emits_from_any; [anyof|]. apply comma_calls. }
      intros g l6 Hg. eapply emits_skip with (Q := Any).
      { eapply emits_weaken; [| | |apply (emits_popt Any) with (T := whatever); [|auto]]; auto; [intros; exact I|].
        lit. eapply emits_skip; [apply emits_from_any; [anyof|exact ident_any]|]. intros k l7.
        eapply emits_skip with (Q := Any).
        { eapply emits_weaken; [| | |apply (emits_popt Any) with (T := whatever); [|auto]]; auto; [intros; exact I|].
          eapply emits_to_any; [|apply emits_ptok; [reflexivity|intro; exact I]]. intros; now apply fresh_any. }
        intros d l8. done. exact I. }
      intros o l9. eapply emits_skip with (Q := Any).
      { eapply emits_weaken; [| | |apply (emits_opt _ _ limit_calls)]; auto. intros; exact I. }
      intros li l10. done. cbn [r_select]. rewrite !calls_of_app. sub.
    Qed.
    Lemma param_calls : emits Any (pparam n pv ps) (keeps r_param) (to Any).
    Proof.
      apply emits_alt.
      - item arg_calls. done. cbn [r_param]. sub.
      - eapply emits_skip; [exact ident_any|]. intros a l. done. constructor.
    Qed.
    Lemma vql_step_calls : emits Any (pvql_step n pv ps) (keeps r_vql) (to Any).
    Proof.
      apply emits_alt.
      - eapply emits_bind; [exact emits_let|]. cbv beta. intros y l0 ->.
        eapply emits_bind; [apply (emits_first_name RDefinition) with (T := fun _ l => l = []); reflexivity|].
        cbv beta. intros name l1 ->.
        eapply emits_bind; [apply emits_popt with (T := keeps (flat_map r_param)); [|anyof]|].
        { eapply emits_bind; [apply emits_call|]. cbv beta. intros y0 l2 ->.
          item (emits_plist _ _ param_calls). lit. done. cbn [app]. sub. }
        cbv beta. intros pl l3 Hp. eapply emits_skip.
        { apply emits_from_any; [anyof|]. apply (emits_lits "=" "<="); [cbn; tauto|cbn; tauto|reflexivity|reflexivity]. }
        intros o l4.
        eapply emits_bind with (T := keeps (fun b : gselect + gand => match b with inl s => r_select s | inr e => r_and e end)) (Q := to Any).
        { apply emits_alt.
          - item select_calls. done. sub.
          - item and_calls. done. sub. }
        intros b l5 Hb. done. cbn [r_vql app]. rewrite calls_of_app.
        destruct pl as [pl|]; [cbn beta in Hp; unfold keeps in Hp; sub|]. cbn [flat_map]. cbn beta in *. subst l3. cbn [app]. change (calls_of []) with (@nil (role * string)). cbn [app]. sub.
      - item select_calls. done. cbn [r_vql]. sub.
    Qed.
  End Knot.
End Expressions.

Lemma knot_calls n : emits Any (pvalue n) (keeps r_value) (to Any) /\ emits Any (pselect n) (keeps r_select) (to Any).
Proof.
  induction n as [|n (V & S)].
  - split; intros ts a r w m _ _; discriminate.
  - unfold pvalue, pselect. cbn [pknot]. unfold pvalue in V. unfold pselect in S.
    destruct (pknot n) as (pv, ps). cbn [fst snd] in *. split.
    + now apply value_step_calls.
    + now apply select_step_calls.
Qed.
Lemma parse_calls text x ts : tokens text = Some ts -> parse_vql text = Some x ->
  Subseq (calls_of (r_vql x)) (calls_in ts).
Proof.
  intros T E. unfold parse_vql in E. rewrite T in E. unfold whole in E.
  destruct (pvql (fuel_for ts) ts) as [a r|r|] eqn:P; try discriminate. destruct r; [|discriminate]. injection E as <-.
  destruct (knot_calls (fuel_for ts)) as (V & S). unfold pvql in P.
  destruct (vql_step_calls _ V _ _ S ts a [] RFunction None (tokens_sharp _ _ T) ltac:(now right) P) as (_ & w & n & l & _ & H & R).
  unfold calls_in. rewrite R. cbn [calls_from]. rewrite app_nil_r. exact H.
Qed.

(** ** C57, C61 *)

(** The functions a text calls, in the order written. No counterpart in /repo:
    what outline.go:165-169 outlineExpressionChildren is compared with. *)
Definition functions_called (l : list (role * string)) : list string :=
  flat_map (fun c => match fst c with RFunction => [snd c] | _ => [] end) l.
(** No counterpart in /repo: the same for a text. *)
Definition source_functions (text : string) : option (list string) := option_map functions_called (source_calls text).

Lemma parse_source text x : parse_vql text = Some x ->
  exists l, source_calls text = Some l /\ Subseq (calls_of (r_vql x)) l.
Proof.
  intro E. unfold source_calls. destruct (tokens text) as [ts|] eqn:T.
  - exists (calls_in ts). split; [reflexivity|]. now apply (parse_calls text).
  - unfold parse_vql in E. now rewrite T in E.
Qed.
Lemma Subseq_functions a b : Subseq a b -> Subseq (functions_called a) (functions_called b).
Proof.
  intro H. induction H as [l|x a b H IH|x a b H IH]; [constructor| |]; unfold functions_called; cbn [flat_map];
    [apply Subseq_app; [apply Subseq_refl|exact IH]|apply Subseq_skip; exact IH].
Qed.

(** The function entries of the outline are calls written in the statement,
    each a different one, in the order written. *)
Theorem C57_functions_in_source_order text x : parse_vql text = Some x ->
  exists l, source_functions text = Some l /\ Subseq (functions (outline_vql x)) l.
Proof.
  intro E. destruct (parse_source text x E) as (l & S & H). exists (functions_called l).
  unfold source_functions. rewrite S. split; [reflexivity|].
  apply (Subseq_trans _ _ _ (outline_in_tree x)). rewrite fun_names_calls. now apply Subseq_functions.
Qed.

(** No call is listed that was not written. *)
Theorem C61_nothing_invented text x : parse_vql text = Some x -> distinct_parameters x ->
  exists l, source_calls text = Some l /\ Subseq (calls_of (call_sites [x])) l.
Proof.
  intros E D. destruct (parse_source text x E) as (l & S & H). exists l. split; [exact S|].
  rewrite (C61_every_reference_once_partial [x]); [cbn [flat_map]; now rewrite app_nil_r|].
  intros y [<-|[]]. split; [now exists text|exact D].
Qed.

(** Missing: some calls that were written are not listed.  Of a chain of
    comparisons the grammar keeps the first and the last operand. *)
Theorem C61_chained_comparison_refuted : exists text x,
  parse_vql text = Some x /\ distinct_parameters x /\
  source_calls text = Some [(RFunction, "f"); (RFunction, "g"); (RFunction, "h"); (RPlugin, "scope")] /\
  calls_of (call_sites [x]) = [(RFunction, "f"); (RFunction, "h"); (RPlugin, "scope")] /\
  parse_vql text = parse_vql "SELECT f() < h() FROM scope()".
Proof.
  exists "SELECT f() < g() < h() FROM scope()". eexists. split; [vm_compute; reflexivity|].
  split; [exact I|]. split; [vm_compute; reflexivity|]. split; vm_compute; reflexivity.
Qed.

(** What the outline does not list: calls inside arguments, in WHERE, in
    plugin arguments. *)
Example outline_leaves_out :
  let text := "SELECT f(x=g()), a[h()] AS B, (k(), {SELECT m() FROM q()}) FROM p(y=r()) WHERE s()" in
  parse_vql text = None /\
  let text := "SELECT f(x=g()), a[h()] AS B, {SELECT m() FROM q()} FROM p(y=r()) WHERE s()" in
  option_map outline_vql (parse_vql text) =
    Some (OQuery "p" [OColumn "" [OFunction "f"]; OColumn "B" [OFunction "h"]; OQuery "q" [OColumn "" [OFunction "m"]]]) /\
  source_functions text = Some ["f"; "g"; "h"; "m"; "r"; "s"].
Proof. split; [|split]; vm_compute; reflexivity. Qed.

(** The project's own expectations: outline_test.go, fixtures/TestVisitor.golden. *)
Example outline_test :
  option_map (map outline_vql)
    (parse_multi ("LET Y = SELECT Foo FROM pslist(pid=1)" ++ String (ascii_of_nat 10)
       "SELECT upcase(str=X), Bar AS baz FROM Artifact.Linux.Sys.Users() WHERE Foo > 3"))
  = Some [OLet "Y" [OQuery "pslist" [OColumn "" []]];
          OQuery "Artifact.Linux.Sys.Users" [OColumn "" [OFunction "upcase"]; OColumn "baz" []]].
Proof. vm_compute. reflexivity. Qed.
Example visitor_test :
  let info text := option_map (fun l => (call_sites l, definition_sites l)) (parse_multi text) in
  info "LET X = 5 SELECT * FROM info(Foo=1, Bar='Hello')" =
    Some ([Site KPlugin "info" ["Foo"; "Bar"]], [DefSite "X" [] []]) /\
  info "LET Func(X=1) = 5" = Some ([], [DefSite "Func" ["X"] ["X"]]) /\
  info "LET X <= 1 SELECT 1 + X FROM scope()" =
    Some ([Site KSymbol "X" []; Site KPlugin "scope" []], [DefSite "X" [] []]).
Proof. split; [|split]; vm_compute; reflexivity. Qed.

Print Assumptions C57_functions_in_source_order.
Print Assumptions C57_one_entry_per_column.
Print Assumptions C61_every_reference_once_partial.
Print Assumptions C61_calls_of_the_text_partial.
Print Assumptions C61_nothing_invented.
