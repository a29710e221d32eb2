(** C85: the scanner of the model is the table of lexical rules of the source.
    For every text it finds, at each place, what the first rule of the table
    that matches there finds, by the order in which Go's regexp prefers
    matches; and it fails exactly where no rule matches. *)

From Coq Require Import ZArith List String Ascii Bool Arith Lia.
From Verif Require Import Base Text Lexer LexProofs LexCover LexRules.
Import ListNotations.
Open Scope nat_scope.
Open Scope string_scope.
Open Scope list_scope.

(** * Specification *)

(** The name that a rule of the table has. *)
Definition rule_name (t : ttype) : string :=
  match t with
  | T_MLineComment => "MLineComment" | T_VQLComment => "VQLComment" | T_Comment => "Comment"
  | T_EXPLAIN => "EXPLAIN" | T_SELECT => "SELECT" | T_WHERE => "WHERE" | T_AND => "AND" | T_OR => "OR"
  | T_AlternativeOR => "AlternativeOR" | T_AlternativeAND => "AlternativeAND"
  | T_FROM => "FROM" | T_NOT => "NOT" | T_AS => "AS" | T_IN => "IN" | T_LIMIT => "LIMIT" | T_NULL => "NULL"
  | T_DESC => "DESC" | T_GROUPBY => "GROUPBY" | T_ORDERBY => "ORDERBY" | T_BOOL => "BOOL" | T_LET => "LET"
  | T_Number => "Number" | T_Ident => "Ident" | T_SymbolIdent => "SymbolIdent" | T_Operators => "Operators"
  | T_MultilineString => "MultilineString" | T_String => "String"
  end.

(** A text is cut by the table: again and again the first rule that matches;
    white space is dropped. *)
Inductive cut_by_table : string -> list (string * string) -> Prop :=
| CutEnd : cut_by_table "" []
| CutBlank s w r l :
    first_match vql_rules s = Some ("whitespace", w, r) -> cut_by_table r l -> cut_by_table s l
| CutToken s name text r l :
    first_match vql_rules s = Some (name, text, r) -> name <> "whitespace" ->
    cut_by_table r l -> cut_by_table s ((name, text) :: l).

(** * Characters *)

Lemma all_chars (P : ascii -> bool) :
  forallb (fun n => P (ascii_of_nat n)) (seq 0 256) = true -> forall c, P c = true.
Proof.
  intros H c. rewrite <- (ascii_nat_embedding c). rewrite forallb_forall in H. apply H, in_seq.
  pose proof (nat_ascii_bounded c). lia.
Qed.
Lemma same_set neg l p :
  forallb (fun n => Bool.eqb (in_set neg l (ascii_of_nat n)) (p (ascii_of_nat n))) (seq 0 256) = true ->
  forall c, in_set neg l c = p c.
Proof. intros H c. apply Bool.eqb_prop. now apply (all_chars (fun c => Bool.eqb (in_set neg l c) (p c))). Qed.

(** * One step *)

Section Steps.
Context {A : Type}.
Implicit Types k : place -> option A.
Lemma m_empty k p : match_re REmpty k p = k p. Proof. reflexivity. Qed.
Lemma m_cat a b k p : match_re (RCat a b) k p = match_re a (match_re b k) p. Proof. reflexivity. Qed.
Lemma m_alt a b k p : match_re (RAlt a b) k p = or_else (match_re a k p) (match_re b k p). Proof. reflexivity. Qed.
Lemma m_word k p :
  match_re RWord k p = if xorb (is_word_char (before p)) (is_word_char (next_char (ahead p))) then k p else None.
Proof. reflexivity. Qed.
Lemma m_begin k s : match_re RBegin k (Place None s) = k (Place None s). Proof. reflexivity. Qed.
Lemma m_end k p : match_re REnd k p = if border_of_line (next_char (ahead p)) then k p else None. Proof. reflexivity. Qed.
Lemma m_set neg l p k b s : (forall c, in_set neg l c = p c) ->
  match_re (RSet neg l) k (Place b s) =
  match s with String c r => if p c then k (Place (Some c) r) else None | "" => None end.
Proof. intro H. cbn [match_re ahead]. destruct s as [|c r]; [reflexivity|]. now rewrite H. Qed.
Lemma set_one a c : in_set false [(a, a)] c = Ascii.eqb a c.
Proof.
  unfold in_set. cbn [existsb fst snd xorb]. rewrite orb_false_r. destruct (Ascii.eqb_spec a c) as [->|N].
  - now rewrite N.leb_refl.
  - destruct (N_of_ascii a <=? N_of_ascii c)%N eqn:L; [|reflexivity]. cbn [andb].
    destruct (N_of_ascii c <=? N_of_ascii a)%N eqn:G; [|reflexivity]. exfalso. apply N.
    apply N.leb_le in L, G. rewrite <- (ascii_N_embedding a), <- (ascii_N_embedding c). f_equal. lia.
Qed.
Lemma m_lit a k b s :
  match_re (RSet false [(a, a)]) k (Place b s) =
  match s with String c r => if Ascii.eqb a c then k (Place (Some c) r) else None | "" => None end.
Proof. apply m_set, set_one. Qed.
End Steps.

Definition finish (p : place) : option string := Some (ahead p).

(** * Repetition *)

Section Star.
Context {A : Type}.
Variables (neg : bool) (l : list (ascii * ascii)) (p : ascii -> bool).
Hypothesis set : forall c, in_set neg l c = p c.

Lemma star_step g (k : place -> option A) b s :
  match_re (RStar g (RSet neg l)) k (Place b s) =
  let more := match s with
              | String c r => if p c then match_re (RStar g (RSet neg l)) k (Place (Some c) r) else None
              | "" => None
              end in
  if g then or_else more (k (Place b s)) else or_else (k (Place b s)) more.
Proof.
  cbn [match_re ahead]. destruct s as [|c r]; [reflexivity|]. cbn [String.length ahead]. rewrite set.
  assert (L : Nat.ltb (String.length r) (S (String.length r)) = true) by (apply Nat.ltb_lt; lia).
  rewrite L. reflexivity.
Qed.
Lemma star_longest (k : place -> option A) x s : forall b,
  (forall b, k (Place b (snd (span p s))) = Some x) ->
  match_re (RStar true (RSet neg l)) k (Place b s) = Some x.
Proof.
  induction s as [|c s IH]; intros b H; rewrite star_step; cbv zeta.
  - cbn [or_else]. apply H.
  - cbn [span] in H. destruct (p c).
    + rewrite IH; [reflexivity|]. destruct (span p s). exact H.
    + apply H.
Qed.
Lemma star_only (k : place -> option A) y s : forall b,
  (forall b c r, p c = true -> k (Place b (String c r)) = None) ->
  (forall b, k (Place b (snd (span p s))) = y) ->
  match_re (RStar true (RSet neg l)) k (Place b s) = y.
Proof.
  induction s as [|c s IH]; intros b N H; rewrite star_step; cbv zeta.
  - cbn [or_else]. apply H.
  - cbn [span] in H. destruct (p c) eqn:P.
    + rewrite IH; [|exact N|]. { rewrite N; [now destruct y|exact P]. } destruct (span p s). exact H.
    + apply H.
Qed.
End Star.
Global Arguments match_re : simpl never.

Lemma star_until (k : place -> option string) pat l s : forall b,
  (forall c, in_set true l c = true) -> (forall b s, k (Place b s) = strip_prefix pat s) ->
  match_re (RStar false (RSet true l)) k (Place b s) = option_map snd (until pat s).
Proof.
  induction s as [|c s IH]; intros b T H; rewrite (star_step _ _ (fun _ => true)); try exact T; cbv zeta; rewrite H;
    cbn [until]; destruct (strip_prefix pat _); try reflexivity. cbn [or_else].
  rewrite IH; try assumption. destruct (until pat s) as [(u, v)|]; reflexivity.
Qed.
Lemma star_line s : forall b,
  match_re (RStar false (RSet true [("010", "010")]%char)) (match_re REnd finish) (Place b s) =
  Some (snd (span (fun c => negb (Ascii.eqb c nl)) s)).
Proof.
  assert (T : forall c, in_set true [("010", "010")]%char c = negb (Ascii.eqb c nl)) by (apply same_set; vm_compute; reflexivity).
  induction s as [|c s IH]; intro b; rewrite (star_step _ _ _ T); cbv zeta; rewrite m_end; cbn [ahead next_char border_of_line].
  - reflexivity.
  - cbn [span]. change (Ascii.eqb c "010") with (Ascii.eqb c nl). destruct (Ascii.eqb c nl); cbn [negb or_else].
    + reflexivity.
    + rewrite IH. now destruct (span (fun c => negb (Ascii.eqb c nl)) s).
Qed.

(** * From places to texts *)

Lemma take_app v r : take_chars (String.length (v ++ r) - String.length r) (v ++ r)%string = v.
Proof.
  assert (L : String.length (v ++ r) - String.length r = String.length v).
  { rewrite sapp_length. lia. }
  rewrite L. clear L. induction v as [|c v IH]; [now destruct r|]. cbn [String.length String.append take_chars]. now rewrite IH.
Qed.
Lemma here pat r rule s :
  pattern pat = Some r -> match_re r finish (Place None s) = option_map snd (rule s) ->
  (forall v x, rule s = Some (v, x) -> s = (v ++ x)%string) ->
  match_here pat s = rule s.
Proof.
  intros P M C. unfold match_here. rewrite P. unfold finish in M. rewrite M.
  destruct (rule s) as [(v, x)|] eqn:E; [|reflexivity]. cbn [option_map snd].
  specialize (C v x eq_refl). subst s. now rewrite take_app.
Qed.

(** ** White space and comments *)

Lemma set_space c : in_set false blanks c = is_space c.
Proof. revert c. apply same_set. vm_compute. reflexivity. Qed.
Lemma set_any c : in_set true [] c = true.
Proof. revert c. apply (same_set _ _ (fun _ => true)). vm_compute. reflexivity. Qed.

Notation lit c := (RSet false [(c%char, c%char)]).
Notation plus a := (RCat a (RStar true a)).
Ltac table r := apply (here _ r); [vm_compute; reflexivity| |].

Definition blank_rule (s : string) : option (string * string) :=
  if first_char is_space s then Some (span is_space s) else None.
Lemma table_space s : match_here "\s+" s = blank_rule s.
Proof.
  table (plus (RSet false blanks)).
  - rewrite m_cat, (m_set _ _ _ _ _ _ set_space). unfold blank_rule. destruct s as [|c s]; [reflexivity|]. cbn [first_char].
    destruct (is_space c) eqn:S; [|reflexivity]. cbn [option_map span]. rewrite S.
    rewrite (star_longest _ _ _ set_space finish (snd (span is_space s))); [now destruct (span is_space s)|reflexivity].
  - intros v x. unfold blank_rule. destruct (first_char is_space s); [|discriminate]. intros [= E]. now apply cut_span in E.
Qed.
Lemma table_mline s : match_here "(?s)/[*].*?[*]/" s = mline_comment s.
Proof.
  table (RCat (lit "/") (RCat (lit "*") (RCat (RStar false (RSet true [])) (RCat (lit "*") (lit "/"))))).
  - rewrite m_cat, m_lit. unfold mline_comment. destruct s as [|c s]; [reflexivity|]. cbn [strip_prefix].
    destruct (Ascii.eqb "/" c); [|reflexivity]. rewrite m_cat, m_lit. destruct s as [|d s]; [reflexivity|].
    destruct (Ascii.eqb "*" d); [|reflexivity]. rewrite m_cat, (star_until _ "*/").
    + now destruct (until "*/" s) as [(u, v)|].
    + apply set_any.
    + clear. intros b s. rewrite m_cat, m_lit. destruct s as [|c s]; [reflexivity|]. cbn [strip_prefix].
      destruct (Ascii.eqb "*" c); [|reflexivity]. rewrite m_lit. destruct s as [|d s]; reflexivity.
  - intros v x E. now apply cut_mline in E.
Qed.
Lemma line_rule a s :
  match_re (RCat RBegin (RCat (RSet false [(a, a)]) (RCat (RSet false [(a, a)])
     (RCat (RStar false (RSet true [("010", "010")]%char)) REnd)))) finish (Place None s) =
  option_map snd (line_comment (String a (String a "")) s).
Proof.
  rewrite m_cat, m_begin, m_cat, m_lit. unfold line_comment. destruct s as [|c s]; [reflexivity|]. cbn [strip_prefix].
  destruct (Ascii.eqb a c); [|reflexivity]. rewrite m_cat, m_lit. destruct s as [|d s]; [reflexivity|].
  destruct (Ascii.eqb a d); [|reflexivity]. rewrite m_cat, star_line. now destruct (span _ s).
Qed.
Lemma table_vql_comment s : match_here "(?m)^--.*?$" s = line_comment "--" s.
Proof.
  apply (here _ (RCat RBegin (RCat (lit "-") (RCat (lit "-") (RCat (RStar false (RSet true [("010", "010")]%char)) REnd)))));
    [vm_compute; reflexivity|apply line_rule|]. intros v x E. now apply cut_line in E.
Qed.
Lemma table_comment s : match_here "(?m)^//.*?$" s = line_comment "//" s.
Proof.
  apply (here _ (RCat RBegin (RCat (lit "/") (RCat (lit "/") (RCat (RStar false (RSet true [("010", "010")]%char)) REnd)))));
    [vm_compute; reflexivity|apply line_rule|]. intros v x E. now apply cut_line in E.
Qed.

(** ** Key words *)

Fixpoint letters (w : string) (tail : re) : re :=
  match w with String c r => RCat (literal (Flags true false false) c) (letters r tail) | "" => tail end.
Fixpoint strip_fold (w s : string) : option string :=
  match w, s with
  | "", _ => Some s
  | String c w', String d r => if Ascii.eqb (upper_char d) c then strip_fold w' r else None
  | _, _ => None
  end.

Lemma set_letter c d : is_upper c = true ->
  in_set false [(c, c); (other_case c, other_case c)] d = Ascii.eqb (upper_char d) c.
Proof.
  intro U. apply Bool.eqb_prop.
  set (P := fun c d => implb (is_upper c) (Bool.eqb (in_set false [(c, c); (other_case c, other_case c)] d) (Ascii.eqb (upper_char d) c))).
  assert (H : P c d = true).
  { revert d. apply all_chars. revert c U. intros c _. revert c.
    apply (all_chars (fun c => forallb (fun n => P c (ascii_of_nat n)) (seq 0 256))). vm_compute. reflexivity. }
  unfold P in H. rewrite U in H. exact H.
Qed.
Lemma upper_letter c : is_upper c = true -> literal (Flags true false false) c = RSet false [(c, c); (other_case c, other_case c)].
Proof.
  intro U. unfold literal. cbn [fold_case andb].
  assert (H : implb (is_upper c) (negb (Ascii.eqb (other_case c) c)) = true).
  { revert c U. intros c _. revert c. apply all_chars. vm_compute. reflexivity. }
  rewrite U in H. cbn [implb] in H. now rewrite H.
Qed.
Lemma m_letters {A} w tail (k : place -> option A) T : sall is_upper w = true ->
  (forall b s, match_re tail k (Place b s) = T s) -> forall b s,
  match_re (letters w tail) k (Place b s) = match strip_fold w s with Some r => T r | None => None end.
Proof.
  intros U H. induction w as [|c w IH]; intros b s; [apply H|]. cbn [letters strip_fold sall] in *.
  apply andb_true_iff in U as (UC & U). rewrite m_cat, (upper_letter c UC), (m_set _ _ _ _ _ _ (fun d => set_letter c d UC)).
  destruct s as [|d s]; [reflexivity|]. destruct (Ascii.eqb (upper_char d) c); [now apply IH|reflexivity].
Qed.

Lemma word_same c : word_char c = is_word c.
Proof. revert c. apply same_set. vm_compute. reflexivity. Qed.
Lemma upper_word c d : is_upper c = true -> Ascii.eqb (upper_char d) c = true -> is_word d = true.
Proof.
  intros U E. apply Ascii.eqb_eq in E. subst c.
  assert (H : implb (is_upper (upper_char d)) (is_word d) = true).
  { clear U. revert d. apply all_chars. vm_compute. reflexivity. }
  now rewrite U in H.
Qed.
Definition whole_word (w s : string) : option string :=
  let (v, r) := span is_word s in if String.eqb (upper v) w then Some r else None.
Lemma m_whole w b s : sall is_upper w = true -> (w = "" -> is_word_char b = true) ->
  match_re (letters w RWord) finish (Place b s) = whole_word w s.
Proof.
  revert b s. induction w as [|c w IH]; intros b s U B; unfold whole_word; cbn [letters].
  - rewrite m_word. cbn [before ahead]. rewrite B by reflexivity. destruct s as [|d s]; [reflexivity|].
    cbn [next_char is_word_char span]. rewrite word_same. destruct (is_word d) eqn:W; [|reflexivity].
    destruct (span is_word s). reflexivity.
  - cbn [sall] in U. apply andb_true_iff in U as (UC & U).
    rewrite m_cat, (upper_letter c UC), (m_set _ _ _ _ _ _ (fun d => set_letter c d UC)).
    destruct s as [|d s]; [reflexivity|]. cbn [span]. destruct (Ascii.eqb (upper_char d) c) eqn:E.
    + pose proof (upper_word c d UC E) as W. rewrite W. rewrite IH; [|exact U|intros _; cbn [is_word_char]; now rewrite word_same].
      unfold whole_word. destruct (span is_word s) as (v, r). cbn [upper String.eqb]. now rewrite E.
    + destruct (is_word d); [|reflexivity]. destruct (span is_word s) as (v, r). cbn [upper String.eqb]. now rewrite E.
Qed.
Lemma m_border {A} (k : place -> option A) s : (first_char is_word s = false -> k (Place None s) = None) ->
  match_re RWord k (Place None s) = k (Place None s).
Proof.
  intro N. rewrite m_word. cbn [before ahead is_word_char]. rewrite xorb_false_l. destruct s as [|c s].
  - cbn [next_char is_word_char]. symmetry. now apply N.
  - cbn [next_char is_word_char first_char] in *. rewrite word_same. destruct (is_word c); [reflexivity|symmetry; now apply N].
Qed.

Definition word_rule (w s : string) : option (string * string) :=
  let (v, r) := span is_word s in if String.eqb (upper v) w then Some (v, r) else None.
Lemma cut_word_rule w : forall s v x, word_rule w s = Some (v, x) -> s = (v ++ x)%string.
Proof.
  intros s v x. unfold word_rule. destruct (span is_word s) as (u, r) eqn:P. destruct (String.eqb (upper u) w); [|discriminate].
  intros [= <- <-]. now apply cut_span in P.
Qed.
Lemma m_keyword w s : w <> "" -> sall is_upper w = true ->
  match_re (RCat RWord (letters w RWord)) finish (Place None s) = option_map snd (word_rule w s).
Proof.
  intros N U. rewrite m_cat. rewrite m_border; rewrite m_whole; try assumption; try (intro H; now apply N in H);
    unfold whole_word, word_rule.
  - destruct (span is_word s) as (v, r). now destruct (String.eqb (upper v) w).
  - intro F. rewrite (span_none _ _ F). cbn [upper]. destruct w; [now destruct N|reflexivity].
Qed.
Lemma table_keyword pat w s :
  pattern pat = Some (RCat RWord (letters w RWord)) -> w <> "" -> sall is_upper w = true ->
  match_here pat s = word_rule w s.
Proof. intros P N U. apply (here _ _ _ _ P); [now apply m_keyword|apply cut_word_rule]. Qed.
Lemma table_bool s :
  match_here "(?i)\bTRUE\b|\bFALSE\b" s = or_else (word_rule "TRUE" s) (word_rule "FALSE" s).
Proof.
  apply (here _ (RAlt (RCat RWord (letters "TRUE" RWord)) (RCat RWord (letters "FALSE" RWord)))
    (fun s => or_else (word_rule "TRUE" s) (word_rule "FALSE" s))); [vm_compute; reflexivity| |].
  - rewrite m_alt, !m_keyword; try discriminate; try reflexivity. now destruct (word_rule "TRUE" s).
  - intros v x. pose proof (cut_word_rule "TRUE" s v x) as C. pose proof (cut_word_rule "FALSE" s v x) as D.
    destruct (word_rule "TRUE" s); [exact C|exact D].
Qed.

(** GROUP BY and ORDER BY *)
Definition by_rule (w s : string) : option (string * string) :=
  let (v, r) := span is_word s in
  if String.eqb (upper v) w then
    match by_follows r with Some (b, r2) => Some (v ++ b, r2)%string | None => None end
  else None.
Lemma space_not_word c : is_space c = true -> is_word c = false.
Proof.
  intro S. assert (H : implb (is_space c) (negb (is_word c)) = true).
  { clear S. revert c. apply all_chars. vm_compute. reflexivity. }
  rewrite S in H. now apply negb_true_iff in H.
Qed.
Lemma cut_by s b r : by_follows s = Some (b, r) -> s = (b ++ r)%string /\ first_char is_word s = false.
Proof.
  unfold by_follows. destruct (span is_space s) as (sp, x) eqn:P1. destruct (span is_word x) as (y, z) eqn:P2.
  pose proof P1 as Q. apply cut_span in P1. apply cut_span in P2. destruct (String.eqb_spec sp ""); [discriminate|]. cbn [negb andb].
  destruct (String.eqb (upper y) "BY"); [|discriminate]. intros [= <- <-]. split; [now rewrite P1, P2, sapp_assoc|].
  apply span_spec in Q as (-> & S & _). destruct sp as [|c sp]; [contradiction|]. cbn [String.append first_char sall] in *.
  apply andb_true_iff in S as (S & _).
  now apply space_not_word.
Qed.
Lemma cut_by_rule w : forall s v x, by_rule w s = Some (v, x) -> s = (v ++ x)%string.
Proof.
  intros s v x. unfold by_rule. destruct (span is_word s) as (u, r) eqn:P. destruct (String.eqb (upper u) w); [|discriminate].
  destruct (by_follows r) as [(b, r2)|] eqn:B; [|discriminate]. intros [= <- <-]. apply cut_span in P.
  apply cut_by in B as (B & _). now rewrite P, B, sapp_assoc.
Qed.
Lemma m_by b s :
  match_re (RCat (plus (RSet false blanks)) (letters "BY" RWord)) finish (Place b s) = option_map snd (by_follows s).
Proof.
  rewrite m_cat, m_cat, (m_set _ _ _ _ _ _ set_space). unfold by_follows.
  destruct s as [|c s]; [reflexivity|]. cbn [span]. destruct (is_space c) eqn:S.
  - rewrite (star_only _ _ _ set_space _ (whole_word "BY" (snd (span is_space s)))).
    + unfold whole_word. destruct (span is_space s) as (sp, r). cbn [snd]. destruct (span is_word r) as (v, x).
      cbn [String.eqb negb andb]. now destruct (String.eqb (upper v) "BY").
    + intros d e r SP. rewrite m_whole; [|reflexivity|discriminate]. unfold whole_word. cbn [span].
      assert (W : is_word e = false).
      { now apply space_not_word. }
      now rewrite W.
    + intro d. apply m_whole; [reflexivity|discriminate].
  - cbn [span]. destruct (is_word c); [destruct (span is_word s)|]; reflexivity.
Qed.
Lemma strip_span w : sall is_upper w = true -> forall s r, strip_fold w s = Some r -> first_char is_word r = false ->
  exists v, span is_word s = (v, r) /\ upper v = w.
Proof.
  intro U. induction w as [|c w IH]; intros s r; cbn [strip_fold].
  - intros [= ->] F. exists "". split; [now apply span_none|reflexivity].
  - cbn [sall] in U. apply andb_true_iff in U as (UC & U). destruct s as [|d s]; [discriminate|].
    destruct (Ascii.eqb (upper_char d) c) eqn:E; [|discriminate]. intros S F. destruct (IH U s r S F) as (v & P & V).
    exists (String d v). cbn [span upper]. rewrite (upper_word c d UC E), P, V. apply Ascii.eqb_eq in E. now subst c.
Qed.
Lemma span_strip w : forall s v r, span is_word s = (v, r) -> upper v = w -> strip_fold w s = Some r.
Proof.
  induction w as [|c w IH]; intros s v r P V; cbn [strip_fold].
  - destruct v; [|discriminate]. apply cut_span in P. now subst s.
  - destruct s as [|d s]; cbn [span] in P. { injection P as <- <-. discriminate. }
    destruct (is_word d); [|injection P as <- <-; discriminate]. destruct (span is_word s) as (v', r') eqn:Q.
    injection P as <- <-. cbn [upper] in V. injection V as E V. rewrite E, Ascii.eqb_refl. now apply (IH s v').
Qed.
Lemma table_by pat w s :
  pattern pat = Some (RCat RWord (letters w (RCat (plus (RSet false blanks)) (letters "BY" RWord)))) ->
  w <> "" -> sall is_upper w = true -> match_here pat s = by_rule w s.
Proof.
  intros P N U. apply (here _ _ _ _ P); [|apply cut_by_rule].
  assert (M : forall b, match_re (letters w (RCat (plus (RSet false blanks)) (letters "BY" RWord))) finish (Place b s) =
              option_map snd (by_rule w s)).
  { intro b. rewrite (m_letters _ _ _ (fun s => option_map snd (by_follows s)) U m_by). unfold by_rule.
    destruct (span is_word s) as (v, r) eqn:E. destruct (strip_fold w s) as [x|] eqn:S.
    - destruct (by_follows x) as [(y, z)|] eqn:B.
      + pose proof (cut_by _ _ _ B) as (_ & F). destruct (strip_span w U s x S F) as (v' & E' & V). rewrite E in E'.
        injection E' as <- <-. rewrite V, String.eqb_refl, B. reflexivity.
      + destruct (String.eqb_spec (upper v) w) as [V|V]; [|reflexivity]. rewrite (span_strip w s v r E V) in S.
        injection S as ->. now rewrite B.
    - destruct (String.eqb_spec (upper v) w) as [V|V]; [|reflexivity]. rewrite (span_strip w s v r E V) in S. discriminate. }
  rewrite m_cat, m_border; [apply M|]. intro F. rewrite M. unfold by_rule. rewrite (span_none _ _ F). cbn [upper].
  destruct w; [now destruct N|reflexivity].
Qed.

(** ** The other rules *)

Lemma table_alt_or s : match_here "(?i)\|+" s = alt_or s.
Proof.
  assert (T : forall c, in_set false [("|", "|")]%char c = Ascii.eqb "|" c) by apply set_one.
  table (plus (lit "|")).
  - rewrite m_cat, m_lit. unfold alt_or. destruct s as [|c s]; [reflexivity|]. cbn [span].
    destruct (Ascii.eqb "|" c); [|reflexivity].
    rewrite (star_longest _ _ _ T finish (snd (span (Ascii.eqb "|") s))); [now destruct (span (Ascii.eqb "|") s)|reflexivity].
  - intros v x E. now apply cut_alt_or in E.
Qed.
Lemma table_alt_and s : match_here "(?i)&&" s = alt_and s.
Proof.
  table (RCat (lit "&") (lit "&")).
  - rewrite m_cat, m_lit. unfold alt_and. destruct s as [|c s]; [reflexivity|]. cbn [strip_prefix].
    destruct (Ascii.eqb "&" c); [|reflexivity]. rewrite m_lit. destruct s as [|d s]; [reflexivity|].
    now destruct (Ascii.eqb "&" d).
  - intros v x E. now apply cut_alt_and in E.
Qed.

(** Names *)
Definition alpha_set : list (ascii * ascii) := [("a", "z"); ("A", "Z"); ("_", "_")]%char.
Definition word_set : list (ascii * ascii) := [("a", "z"); ("A", "Z"); ("0", "9"); ("_", "_")]%char.
Lemma set_alpha c : in_set false alpha_set c = is_alpha c.
Proof. revert c. apply same_set. vm_compute. reflexivity. Qed.
Lemma set_word c : in_set false word_set c = is_word c.
Proof. revert c. apply same_set. vm_compute. reflexivity. Qed.
Lemma set_not_bquote c : in_set true [("`", "`")]%char c = negb (Ascii.eqb c bquote).
Proof. revert c. apply same_set. vm_compute. reflexivity. Qed.

Definition name_re : re := RCat (RSet false alpha_set) (RStar true (RSet false word_set)).
Definition quoted_re : re := RCat (lit "`") (RCat (plus (RSet true [("`", "`")]%char)) (lit "`")).
Definition plain_name (s : string) : option (string * string) :=
  if first_char is_alpha s then Some (span is_word s) else None.
Lemma alpha_word c : is_alpha c = true -> is_word c = true.
Proof. intro A. unfold is_word. now rewrite A. Qed.
Lemma m_name b s : match_re name_re finish (Place b s) = option_map snd (plain_name s).
Proof.
  unfold name_re, plain_name. rewrite m_cat, (m_set _ _ _ _ _ _ set_alpha). destruct s as [|c s]; [reflexivity|].
  cbn [first_char]. destruct (is_alpha c) eqn:A; [|reflexivity]. cbn [span option_map]. rewrite (alpha_word c A).
  rewrite (star_longest _ _ _ set_word finish (snd (span is_word s))); [now destruct (span is_word s)|reflexivity].
Qed.
Lemma m_quoted b s : match_re quoted_re finish (Place b s) = option_map snd (quoted_ident s).
Proof.
  unfold quoted_re, quoted_ident. rewrite m_cat, m_lit. destruct s as [|c s]; [reflexivity|].
  rewrite (Ascii.eqb_sym c bquote). change (Ascii.eqb "`" c) with (Ascii.eqb bquote c).
  destruct (Ascii.eqb bquote c); [|reflexivity].
  rewrite m_cat, m_cat, (m_set _ _ _ _ _ _ set_not_bquote). destruct s as [|d s]; [reflexivity|]. cbn [span].
  destruct (Ascii.eqb d bquote) eqn:D; [reflexivity|]. cbn [negb].
  set (nb := fun c => negb (Ascii.eqb c bquote)) in *.
  rewrite (star_only _ _ _ set_not_bquote _ (match snd (span nb s) with String _ r => Some r | "" => None end)).
  - destruct (span nb s) as (u, v). now destruct v.
  - intros e f r N. rewrite m_lit. rewrite (Ascii.eqb_sym "`" f). change "`"%char with bquote.
    destruct (Ascii.eqb f bquote); [discriminate|reflexivity].
  - intro e. rewrite m_lit. fold nb. destruct (span nb s) as (u, v) eqn:P. apply span_spec in P as (_ & _ & F). cbn [snd].
    destruct v as [|f v]; [reflexivity|]. cbn [first_char] in F. unfold nb in F. apply negb_false_iff in F.
    apply Ascii.eqb_eq in F. subst f. reflexivity.
Qed.
Lemma cut_plain_name s v x : plain_name s = Some (v, x) -> s = (v ++ x)%string.
Proof. unfold plain_name. destruct (first_char is_alpha s); [|discriminate]. intros [= E]. now apply cut_span in E. Qed.
Lemma table_ident s :
  match_here ("[a-zA-Z_][a-zA-Z0-9_]*|" ++ "`[^`]+`")%string s = or_else (plain_name s) (quoted_ident s).
Proof.
  apply (here _ (RAlt name_re quoted_re) (fun s => or_else (plain_name s) (quoted_ident s))); [vm_compute; reflexivity| |].
  - rewrite m_alt, m_name, m_quoted. now destruct (plain_name s).
  - intros v x. pose proof (cut_plain_name s v x) as C. destruct (plain_name s); [exact C|]. cbn [or_else].
    intro E. now apply cut_quoted_ident in E.
Qed.
Lemma quoted_not_alpha c s : is_alpha c = true -> quoted_ident (String c s) = None.
Proof.
  intro A. unfold quoted_ident. destruct (Ascii.eqb_spec c bquote) as [->|]; [discriminate|reflexivity].
Qed.
Lemma table_symbol_ident s :
  match_here ("-[a-zA-Z_][a-zA-Z0-9_]*|-" ++ "`[^`]+`")%string s = symbol_ident s.
Proof.
  table (RAlt (RCat (lit "-") name_re) (RCat (lit "-") quoted_re)).
  - rewrite m_alt, !m_cat, !m_lit. unfold symbol_ident. destruct s as [|c s]; [reflexivity|].
    rewrite (Ascii.eqb_sym c "-"). destruct (Ascii.eqb "-" c); [|reflexivity]. rewrite m_name, m_quoted.
    destruct s as [|a s]; [reflexivity|]. unfold plain_name. cbn [first_char]. destruct (is_alpha a).
    + now destruct (span is_word (String a s)).
    + cbn [option_map or_else]. now destruct (quoted_ident (String a s)) as [(u, v)|].
  - intros v x E. now apply cut_symbol_ident in E.
Qed.

(** Numbers *)
Lemma set_digit c : in_set false [("0", "9")]%char c = is_digit c.
Proof. revert c. apply same_set. vm_compute. reflexivity. Qed.
Definition hex_set : list (ascii * ascii) := [("0", "9"); ("a", "f"); ("A", "F")]%char.
Lemma set_hex c : in_set false hex_set c = is_hex c.
Proof. revert c. apply same_set. vm_compute. reflexivity. Qed.
Lemma set_e c : in_set false [("e", "e"); ("E", "E")]%char c = Ascii.eqb c "e" || Ascii.eqb c "E".
Proof. revert c. apply (same_set _ _ (fun c => Ascii.eqb c "e" || Ascii.eqb c "E")). vm_compute. reflexivity. Qed.
Lemma set_sign c : in_set false [("-", "-"); ("+", "+")]%char c = Ascii.eqb c "-" || Ascii.eqb c "+".
Proof. revert c. apply (same_set _ _ (fun c => Ascii.eqb c "-" || Ascii.eqb c "+")). vm_compute. reflexivity. Qed.
Notation digit := (RSet false [("0"%char, "9"%char)]).
Definition exp_re : re :=
  RCat (RSet false [("e", "e"); ("E", "E")]%char)
       (RCat (RAlt (RSet false [("-", "-"); ("+", "+")]%char) REmpty) (plus digit)).
Definition decimal_re : re :=
  RCat (RStar true digit) (RCat (RAlt (lit ".") REmpty) (RCat (plus digit) (RAlt exp_re REmpty))).
Definition number_re : re :=
  RCat (RAlt (lit "-") REmpty)
       (RAlt (RCat (lit "0") (RCat (lit "x") (plus (RSet false hex_set)))) decimal_re).

Lemma m_digits {A} (k : place -> option A) x b s : (forall b, k (Place b (snd (span is_digit s))) = Some x) ->
  match_re (plus digit) k (Place b s) = if first_char is_digit s then Some x else None.
Proof.
  intro H. rewrite m_cat, (m_set _ _ _ _ _ _ set_digit). destruct s as [|c s]; [reflexivity|]. cbn [first_char span] in *.
  destruct (is_digit c); [|reflexivity]. apply (star_longest _ _ _ set_digit). destruct (span is_digit s). exact H.
Qed.
Lemma no_digit s : first_char is_digit s = false -> fst (span is_digit s) = "".
Proof. intro F. now rewrite (span_none _ _ F). Qed.
Lemma m_exp b s : match_re (RAlt exp_re REmpty) finish (Place b s) = Some (snd (exponent s)).
Proof.
  rewrite m_alt, m_empty. unfold exp_re. rewrite m_cat, (m_set _ _ _ _ _ _ set_e). unfold exponent.
  destruct s as [|e r]; [reflexivity|]. destruct (Ascii.eqb e "e" || Ascii.eqb e "E"); [|reflexivity].
  rewrite m_cat, m_alt, m_empty, (m_set _ _ _ _ _ _ set_sign).
  assert (D : forall b s, match_re (plus digit) finish (Place b s) =
                          if first_char is_digit s then Some (snd (span is_digit s)) else None).
  { intros. now apply m_digits. }
  rewrite D. destruct r as [|c r1]; [reflexivity|]. destruct (Ascii.eqb c "-" || Ascii.eqb c "+") eqn:SG.
  - rewrite D. assert (N : first_char is_digit (String c r1) = false).
    { cbn [first_char]. apply orb_true_iff in SG as [SG|SG]; apply Ascii.eqb_eq in SG; subst c; reflexivity. }
    rewrite N. destruct (first_char is_digit r1) eqn:F.
    + destruct r1 as [|d r1]; [discriminate|]. cbn [first_char span] in *. rewrite F. now destruct (span is_digit r1).
    + pose proof (no_digit _ F) as E. destruct (span is_digit r1) as (x, y). cbn [fst] in E. now subst x.
  - destruct (first_char is_digit (String c r1)) eqn:F.
    + cbn [first_char span] in *. rewrite F. now destruct (span is_digit r1).
    + pose proof (no_digit _ F) as E. destruct (span is_digit (String c r1)) as (x, y). cbn [fst] in E. now subst x.
Qed.
Definition frac (s : string) : option string :=
  if first_char is_digit s then Some (snd (exponent (snd (span is_digit s)))) else None.
Lemma m_frac b s : match_re (RCat (plus digit) (RAlt exp_re REmpty)) finish (Place b s) = frac s.
Proof. rewrite m_cat. unfold frac. apply m_digits. intro. apply m_exp. Qed.
Definition dotted (s : string) : option string :=
  match s with
  | String c r => if Ascii.eqb "." c then frac r else frac s
  | "" => None
  end.
Lemma m_dotted b s :
  match_re (RCat (RAlt (lit ".") REmpty) (RCat (plus digit) (RAlt exp_re REmpty))) finish (Place b s) = dotted s.
Proof.
  rewrite m_cat, m_alt, m_empty, m_lit, m_frac. destruct s as [|c r]; [reflexivity|]. cbn [dotted].
  destruct (Ascii.eqb_spec "." c) as [<-|]; [|reflexivity]. rewrite m_frac. now destruct (frac r).
Qed.
Lemma m_decimal b s : match_re decimal_re finish (Place b s) =
  let (d, r) := span is_digit s in
  match dotted r with
  | Some x => Some x
  | None => if String.eqb d "" then None else Some (snd (exponent r))
  end.
Proof.
  unfold decimal_re. rewrite m_cat. revert b. induction s as [|c s IH]; intro b; rewrite (star_step _ _ _ set_digit); cbv zeta.
  - cbn [or_else span]. now rewrite m_dotted.
  - rewrite m_dotted. cbn [span]. destruct (is_digit c) eqn:C.
    + rewrite IH. destruct (span is_digit s) as (d, r) eqn:P. destruct (dotted r) eqn:D; [reflexivity|].
      destruct d as [|e d]; [|reflexivity]. cbn [String.eqb or_else]. unfold dotted.
      destruct (Ascii.eqb_spec "." c) as [<-|]; [discriminate|]. unfold frac. cbn [first_char span]. now rewrite C, P.
    + cbn [or_else]. now destruct (dotted (String c s)).
Qed.
Lemma decimal_rest s : option_map snd (decimal s) =
  let (d, r) := span is_digit s in
  match dotted r with
  | Some x => Some x
  | None => if String.eqb d "" then None else Some (snd (exponent r))
  end.
Proof.
  unfold decimal. destruct (span is_digit s) as (d, r) eqn:P. apply span_spec in P as (_ & _ & F).
  assert (PL : option_map snd (match (if String.eqb d "" then None else Some (d, r)) with
                | Some (m, r0) => let (e, r') := exponent r0 in Some ((m ++ e)%string, r')
                | None => None end) = if String.eqb d "" then None else Some (snd (exponent r))).
  { destruct (String.eqb d ""); [reflexivity|]. now destruct (exponent r). }
  destruct r as [|c r]; [exact PL|]. cbn [dotted]. rewrite (Ascii.eqb_sym "." c). destruct (Ascii.eqb c ".").
  - unfold frac. destruct (first_char is_digit r) eqn:G.
    + destruct r as [|e r]; [discriminate|]. cbn [first_char span] in *. rewrite G. destruct (span is_digit r) as (u, v).
      cbn [String.eqb snd]. now destruct (exponent v).
    + pose proof (no_digit _ G) as E. destruct (span is_digit r) as (u, v). cbn [fst] in E. subst u. exact PL.
  - unfold frac. cbn [first_char] in *. rewrite F. exact PL.
Qed.
Lemma m_unsigned b s :
  match_re (RAlt (RCat (lit "0") (RCat (lit "x") (plus (RSet false hex_set)))) decimal_re) finish (Place b s) =
  option_map snd (unsigned_number s).
Proof.
  rewrite m_alt, m_decimal, <- decimal_rest, m_cat, m_lit. unfold unsigned_number. destruct s as [|c s]; [reflexivity|].
  cbn [strip_prefix]. destruct (Ascii.eqb "0" c); [|reflexivity]. rewrite m_cat, m_lit. destruct s as [|d s]; [reflexivity|].
  destruct (Ascii.eqb "x" d); [|reflexivity]. rewrite m_cat, (m_set _ _ _ _ _ _ set_hex).
  destruct s as [|h s]; [reflexivity|]. cbn [span]. destruct (is_hex h); [|reflexivity].
  rewrite (star_longest _ _ _ set_hex finish (snd (span is_hex s))); [now destruct (span is_hex s)|reflexivity].
Qed.
Lemma table_number s : match_here "-?(0x[0-9a-fA-F]+|\d*\.?\d+([eE][-+]?\d+)?)" s = number s.
Proof.
  table number_re.
  - unfold number_re. rewrite m_cat, m_alt, m_empty, m_lit, m_unsigned. unfold number.
    destruct s as [|c r]; [reflexivity|]. rewrite (Ascii.eqb_sym c "-").
    destruct (Ascii.eqb_spec "-" c) as [<-|]; [|reflexivity]. rewrite m_unsigned.
    change (unsigned_number (String "-" r)) with (@None (string * string)).
    now destruct (unsigned_number r) as [(u, v)|].
  - intros v x E. now apply cut_number in E.
Qed.

(** Operators *)
Lemma m_text {A} o (k : place -> option A) T : (forall b s, k (Place b s) = T s) -> forall b s,
  match_re (fold_right (fun c r => RCat (RSet false [(c, c)]) r) REmpty (list_ascii_of_string o)) k (Place b s) =
  match strip_prefix o s with Some r => T r | None => None end.
Proof.
  intro H. induction o as [|a o IH]; intros b s; [apply H|]. cbn [list_ascii_of_string fold_right strip_prefix].
  rewrite m_cat, m_lit. destruct s as [|c s]; [reflexivity|]. destruct (Ascii.eqb a c); [apply IH|reflexivity].
Qed.
Definition op_chars : list ascii := [":"; "*"; "/"; "%"; ","; "."; "("; ")"; "="; "<"; ">"; "{"; "}"; "["; "]"]%char.
Lemma op_single l s : option_map snd (operator_in (map (fun c => String c "") l) s) =
  match s with String c r => if existsb (Ascii.eqb c) l then Some r else None | "" => None end.
Proof.
  induction l as [|a l IH]; cbn [operator_in map existsb strip_prefix]; [now destruct s|].
  destruct s as [|c s]; [exact IH|]. rewrite (Ascii.eqb_sym c a). destruct (Ascii.eqb a c); [reflexivity|exact IH].
Qed.
Lemma table_operators s : match_here "<>|!=|<=|>=|=>|=~|[-]|[+]|[:*/%,.()=<>{}\[\]]" s = operator_in operators s.
Proof.
  table (RAlt (RCat (lit "<") (lit ">")) (RAlt (RCat (lit "!") (lit "=")) (RAlt (RCat (lit "<") (lit "="))
        (RAlt (RCat (lit ">") (lit "=")) (RAlt (RCat (lit "=") (lit ">")) (RAlt (RCat (lit "=") (lit "~"))
        (RAlt (lit "-") (RAlt (lit "+") (RSet false (map (fun c => (c, c)) op_chars)))))))))).
  - assert (S : forall c, in_set false (map (fun c => (c, c)) op_chars) c = existsb (Ascii.eqb c) op_chars).
    { apply (same_set _ _ (fun c => existsb (Ascii.eqb c) op_chars)). vm_compute. reflexivity. }
    rewrite !m_alt, !m_cat, !m_lit, (m_set _ _ _ _ _ _ S).
    change operators with (["<>"; "!="; "<="; ">="; "=>"; "=~"; "-"; "+"] ++ map (fun c => String c "") op_chars).
    change (match s with "" => None | String c r => if existsb (Ascii.eqb c) op_chars then finish (Place (Some c) r) else None end)
      with (match s with "" => None | String c r => if existsb (Ascii.eqb c) op_chars then Some r else None end).
    rewrite <- op_single. generalize (map (fun c => String c "") op_chars). intro rest.
    cbn [app operator_in].
    assert (T : forall a b, (match s with "" => None | String c r => if Ascii.eqb a c then match_re (RSet false [(b, b)]) finish (Place (Some c) r) else None end)
                  = strip_prefix (String a (String b "")) s).
    { intros a b. cbn [strip_prefix]. destruct s as [|c s]; [reflexivity|]. destruct (Ascii.eqb a c); [|reflexivity].
      rewrite m_lit. destruct s as [|d s]; reflexivity. }
    rewrite !T.
    assert (T1 : forall a, (match s with "" => None | String c r => if Ascii.eqb a c then finish (Place (Some c) r) else None end)
                  = strip_prefix (String a "") s).
    { intro a. cbn [strip_prefix]. now destruct s. }
    rewrite !T1.
    repeat match goal with |- context [strip_prefix ?o s] => destruct (strip_prefix o s); [reflexivity|] end. reflexivity.
  - intros v x E. now apply cut_operator in E.
Qed.

(** Strings *)
Lemma table_multiline s : match_here "(?s)'''.*?'''" s = multiline_string s.
Proof.
  table (RCat (lit "'") (RCat (lit "'") (RCat (lit "'") (RCat (RStar false (RSet true []))
        (RCat (lit "'") (RCat (lit "'") (lit "'"))))))).
  - unfold multiline_string, triple. rewrite m_cat, m_lit. destruct s as [|c s]; [reflexivity|]. cbn [strip_prefix].
    change "'"%char with squote. destruct (Ascii.eqb squote c); [|reflexivity]. rewrite m_cat, m_lit.
    destruct s as [|d s]; [reflexivity|]. destruct (Ascii.eqb squote d); [|reflexivity]. rewrite m_cat, m_lit.
    destruct s as [|e s]; [reflexivity|]. destruct (Ascii.eqb squote e); [|reflexivity]. fold triple.
    rewrite m_cat, (star_until _ triple).
    + now destruct (until triple s) as [(u, v)|].
    + apply set_any.
    + clear. intros b s. unfold triple. rewrite m_cat, m_lit. destruct s as [|c s]; [reflexivity|]. cbn [strip_prefix].
      destruct (Ascii.eqb squote c); [|reflexivity]. rewrite m_cat, m_lit. destruct s as [|d s]; [reflexivity|].
      destruct (Ascii.eqb squote d); [|reflexivity]. rewrite m_lit. destruct s as [|e s]; reflexivity.
  - intros v x E. now apply cut_multiline in E.
Qed.

Section Quoted.
Variables (q : ascii).
Hypothesis not_escape : Ascii.eqb q bslash = false.
Definition plain_re : re := RStar true (RSet true [(q, q); (bslash, bslash)]).
Definition escapes_re : re := RStar true (RCat (RSet false [(bslash, bslash)]) (RCat (RSet true []) plain_re)).
Definition body_re : re := RCat (RCat plain_re escapes_re) (RSet false [(q, q)]).
Definition plain_char (c : ascii) : bool := negb (Ascii.eqb c q) && negb (Ascii.eqb c bslash).
Lemma set_plain c : in_set true [(q, q); (bslash, bslash)] c = plain_char c.
Proof.
  unfold plain_char. rewrite <- negb_orb, (Ascii.eqb_sym c q), (Ascii.eqb_sym c bslash), <- !set_one.
  unfold in_set. cbn [existsb]. rewrite !orb_false_r, !xorb_true_l, !xorb_false_l. reflexivity.
Qed.
Definition body_rest (s : string) : option string := option_map snd (string_body q s).
Lemma body_skip s : body_rest (snd (span plain_char s)) = body_rest s.
Proof.
  induction s as [|c s IH]; [reflexivity|]. cbn [span]. unfold plain_char at 1. destruct (Ascii.eqb c q) eqn:Q; [reflexivity|].
  destruct (Ascii.eqb c bslash) eqn:B; [reflexivity|]. cbn [negb andb]. destruct (span plain_char s) as (u, v).
  cbn [snd] in *. rewrite IH. unfold body_rest. cbn [string_body]. rewrite Q, B. now destruct (string_body q s) as [(x, y)|].
Qed.
Definition close (p : place) : option string := match_re (RSet false [(q, q)]) finish p.

(** The loop of [escapes_re], with any sufficient number of steps. *)
Fixpoint turns (n : nat) (p : place) : option string :=
  match n with
  | O => None
  | S n =>
      or_else (match_re (RCat (RSet false [(bslash, bslash)]) (RCat (RSet true []) plain_re))
                 (fun x => if Nat.ltb (String.length (ahead x)) (String.length (ahead p)) then turns n x else None) p)
              (close p)
  end.
Lemma escapes_turns p : match_re escapes_re close p = turns (S (String.length (ahead p))) p.
Proof. reflexivity. Qed.
Lemma turns_stop n b c s : plain_char c = true -> turns n (Place b (String c s)) = None.
Proof.
  destruct n as [|n]; [reflexivity|]. intro P. cbn [turns]. rewrite m_cat, m_lit. unfold plain_char in P.
  apply andb_true_iff in P as (P1 & P2). apply negb_true_iff in P1, P2. rewrite (Ascii.eqb_sym bslash c), P2. cbn [or_else].
  unfold close. now rewrite m_lit, (Ascii.eqb_sym q c), P1.
Qed.
Lemma turns_body n : forall b s, String.length s < n ->
  first_char plain_char s = false -> turns n (Place b s) = body_rest s.
Proof.
  induction n as [|n IH]; intros b s L F; [lia|]. cbn [turns]. rewrite m_cat, m_lit.
  destruct s as [|c s]; [unfold close; now rewrite m_lit|]. cbn [String.length first_char] in *.
  rewrite (Ascii.eqb_sym bslash c). unfold body_rest. cbn [string_body]. unfold close. rewrite m_lit.
  destruct (Ascii.eqb c bslash) eqn:B.
  - apply Ascii.eqb_eq in B. subst c. rewrite (Ascii.eqb_sym bslash q), not_escape, m_cat, (m_set _ _ _ _ _ _ set_any).
    rewrite (Ascii.eqb_sym q bslash) in *.
    destruct s as [|d s]; [reflexivity|]. cbn [String.length] in L.
    unfold plain_re. rewrite (star_only _ _ _ set_plain _ (body_rest s)).
    + unfold body_rest. now destruct (string_body q s) as [(x, y)|].
    + intros e f r P. rewrite turns_stop by exact P. now destruct (Nat.ltb _ _).
    + intro e. destruct (span plain_char s) as (u, v) eqn:P. cbn [snd ahead]. pose proof (body_skip s) as K. rewrite P in K.
      cbn [snd] in K. pose proof (cut_span _ _ _ _ P) as C. apply span_spec in P as (_ & _ & G).
      assert (LV : String.length v <= String.length s) by (rewrite C, sapp_length; lia).
      assert (LT : Nat.ltb (String.length v) (String.length (String bslash (String d s))) = true).
      { apply Nat.ltb_lt. cbn [String.length]. lia. }
      rewrite LT, <- K. apply IH; [lia|exact G].
  - cbn [or_else]. unfold plain_char in F. rewrite B in F. cbn [negb andb] in F. rewrite andb_true_r in F.
    apply negb_false_iff in F. rewrite (Ascii.eqb_sym q c), F. reflexivity.
Qed.
Lemma m_body b s : match_re body_re finish (Place b s) = body_rest s.
Proof.
  unfold body_re. rewrite m_cat, m_cat. fold close. unfold plain_re.
  assert (H : forall b s, first_char plain_char s = false -> match_re escapes_re close (Place b s) = body_rest s).
  { intros b' s' F. rewrite escapes_turns. apply turns_body; [cbn [ahead]; lia|exact F]. }
  apply (star_only _ _ _ set_plain (match_re escapes_re close)).
  - intros e f r P. rewrite escapes_turns. now apply turns_stop.
  - intro e. rewrite H; [apply body_skip|]. destruct (span plain_char s) as (u, v) eqn:P. now apply span_spec in P as (_ & _ & G).
Qed.
End Quoted.

Lemma table_string s :
  match_here "(?s)'([^'\\]*(\\.[^'\\]*)*)'|""([^""\\]*(\\.[^""\\]*)*)""" s = quoted_string s.
Proof.
  table (RAlt (RCat (lit "'") (body_re squote)) (RCat (RSet false [(dquote, dquote)]) (body_re dquote))).
  - rewrite m_alt, !m_cat, !m_lit. unfold quoted_string. destruct s as [|c s]; [reflexivity|].
    change "'"%char with squote. rewrite (Ascii.eqb_sym c squote), (Ascii.eqb_sym c dquote).
    destruct (Ascii.eqb_spec squote c) as [<-|N].
    + change (Ascii.eqb dquote squote) with false. cbn [orb]. rewrite m_body by reflexivity. unfold body_rest.
      now destruct (string_body squote s) as [(x, y)|].
    + cbn [or_else orb]. destruct (Ascii.eqb_spec dquote c) as [<-|]; [|reflexivity]. rewrite m_body by reflexivity.
      unfold body_rest. now destruct (string_body dquote s) as [(x, y)|].
  - intros v x E. now apply cut_quoted_string in E.
Qed.

(** * The table as a whole *)

Definition as_table (x : option (option token * string)) (y : option (string * string * string)) : Prop :=
  match x, y with
  | Some (Some t, r), Some (name, text, r') => name = rule_name (tt t) /\ text = tv t /\ r' = r
  | Some (None, r), Some (name, _, r') => name = "whitespace" /\ r' = r
  | None, None => True
  | _, _ => False
  end.

Lemma number_not_alpha c s : is_alpha c = true -> number (String c s) = None.
Proof.
  intro A.
  assert (H : implb (is_alpha c) (negb (Ascii.eqb c "-") && negb (is_digit c) && negb (Ascii.eqb c ".") && negb (Ascii.eqb "0" c)) = true).
  { clear A. revert c. apply all_chars. vm_compute. reflexivity. }
  rewrite A in H. cbn [implb] in H. repeat (apply andb_true_iff in H as (H & ?)).
  repeat match goal with X : negb _ = true |- _ => apply negb_true_iff in X end.
  unfold number. rewrite H. unfold unsigned_number. cbn [strip_prefix]. rewrite H0. unfold decimal. cbn [span]. rewrite H2.
  cbn [String.eqb]. now rewrite H1.
Qed.
Lemma alt_or_not_alpha c s : is_alpha c = true -> alt_or (String c s) = None.
Proof.
  intro A. unfold alt_or. cbn [span]. destruct (Ascii.eqb_spec "|" c) as [<-|]; [discriminate|reflexivity].
Qed.
Lemma alt_and_not_alpha c s : is_alpha c = true -> alt_and (String c s) = None.
Proof.
  intro A. unfold alt_and. cbn [strip_prefix]. destruct (Ascii.eqb_spec "&" c) as [<-|]; [discriminate|reflexivity].
Qed.
Lemma not_a_word w s : first_char is_upper w = true -> first_char is_alpha s = false ->
  word_rule w s = None /\ by_rule w s = None.
Proof.
  intros U A. unfold word_rule, by_rule. destruct (span is_word s) as (v, r) eqn:P.
  assert (N : String.eqb (upper v) w = false).
  { destruct w as [|c w]; [discriminate|]. cbn [first_char] in U. destruct s as [|d s]; cbn [span] in P.
    { now injection P as <- <-. }
    cbn [first_char] in A. destruct (is_word d); [|now injection P as <- <-]. destruct (span is_word s) as (v', r').
    injection P as <- <-. cbn [upper String.eqb]. destruct (Ascii.eqb_spec (upper_char d) c) as [E|]; [|reflexivity].
    exfalso. subst c. assert (H : implb (is_upper (upper_char d)) (is_alpha d) = true).
    { clear. revert d. apply all_chars. vm_compute. reflexivity. }
    now rewrite U, A in H. }
  now rewrite N.
Qed.

(** C85: a step of the scanner is a step by the table. *)
Lemma scanner_step s : as_table (lex1 s) (first_match vql_rules s).
Proof.
  unfold vql_rules. cbn [first_match].
  rewrite table_space, table_mline, table_vql_comment, table_comment, table_alt_or, table_alt_and, table_bool,
    table_number, table_ident, table_symbol_ident, table_operators, table_multiline, table_string.
  rewrite (table_keyword "(?i)\bEXPLAIN\b" "EXPLAIN"), (table_keyword "(?i)\bSELECT\b" "SELECT"),
    (table_keyword "(?i)\bWHERE\b" "WHERE"), (table_keyword "(?i)\bAND\b" "AND"), (table_keyword "(?i)\bOR\b" "OR"),
    (table_keyword "(?i)\bFROM\b" "FROM"), (table_keyword "(?i)\bNOT\b" "NOT"), (table_keyword "(?i)\bAS\b" "AS"),
    (table_keyword "(?i)\bIN\b" "IN"), (table_keyword "(?i)\bLIMIT\b" "LIMIT"), (table_keyword "(?i)\bNULL\b" "NULL"),
    (table_keyword "(?i)\bDESC\b" "DESC"), (table_keyword "(?i)\bLET\b" "LET"),
    (table_by "(?i)\bGROUP\s+BY\b" "GROUP"), (table_by "(?i)\bORDER\s+BY\b" "ORDER");
    try discriminate; try (vm_compute; reflexivity).
  unfold lex1, blank_rule. destruct (first_char is_space s).
  { destruct (span is_space s). now split. }
  cbn [first_rule]. destruct (mline_comment s) as [(v, r)|]; [now repeat split|].
  destruct (line_comment "--" s) as [(v, r)|]; [now repeat split|].
  destruct (line_comment "//" s) as [(v, r)|]; [now repeat split|].
  destruct (first_char is_alpha s) eqn:A.
  - destruct s as [|c s]; [discriminate|]. cbn [first_char] in A.
    rewrite (alt_or_not_alpha c s A), (alt_and_not_alpha c s A), (number_not_alpha c s A).
    unfold plain_name. cbn [first_char]. rewrite A. cbn [or_else]. unfold word_token, word_rule, by_rule.
    destruct (span is_word (String c s)) as (v, r). unfold keyword_of. generalize (upper v). intro u.
    repeat match goal with
    | |- context [String.eqb u ?w] => destruct (String.eqb_spec u w) as [->|];
        [cbn; first [now repeat split|destruct (by_follows r) as [(b, r2)|]; now repeat split]|]
    end.
    assert (K : find (fun k => String.eqb (fst k) u) keywords = None).
    { unfold keywords. cbn [find fst].
      repeat match goal with N : u <> ?w |- context [String.eqb ?w u] =>
        destruct (String.eqb_spec w u) as [<-|]; [now destruct N|] end. reflexivity. }
    rewrite K. cbn [or_else]. destruct (by_follows r) as [(b, r2)|]; now repeat split.
  - repeat match goal with
    | |- context [word_rule ?w s] => rewrite (proj1 (not_a_word w s eq_refl A))
    | |- context [by_rule ?w s] => rewrite (proj2 (not_a_word w s eq_refl A))
    end.
    unfold plain_name. rewrite A. cbn [or_else].
    destruct (alt_or s) as [(v, r)|]; [now repeat split|].
    destruct (alt_and s) as [(v, r)|]; [now repeat split|].
    destruct (number s) as [(v, r)|]; [now repeat split|].
    destruct (quoted_ident s) as [(v, r)|]; [now repeat split|].
    destruct (symbol_ident s) as [(v, r)|]; [now repeat split|].
    destruct (operator_in operators s) as [(v, r)|]; [now repeat split|].
    destruct (multiline_string s) as [(v, r)|]; [now repeat split|].
    destruct (quoted_string s) as [(v, r)|]; [now repeat split|]. exact I.
Qed.

Lemma rule_name_blank t : rule_name t <> "whitespace".
Proof. destruct t; discriminate. Qed.
Lemma cut_step s name text r : first_match vql_rules s = Some (name, text, r) ->
  String.length r < String.length s /\
  (name = "whitespace" /\ lex1 s = Some (None, r) \/
   exists t, name = rule_name (tt t) /\ text = tv t /\ lex1 s = Some (Some t, r)).
Proof.
  intro M. pose proof (scanner_step s) as S. rewrite M in S. unfold as_table in S.
  destruct (lex1 s) as [([t|], r')|] eqn:E; [| |contradiction].
  - destruct S as (-> & -> & ->). apply lex1_cuts in E as (v & -> & N & V). split.
    + apply sapp_inv_length. exact N.
    + right. exists t. now repeat split.
  - destruct S as (-> & ->). pose proof E as E'. apply lex1_cuts in E' as (v & -> & N & V). split.
    + apply sapp_inv_length. exact N.
    + left. now split.
Qed.
Lemma cut_inv s l : cut_by_table s l ->
  match first_match vql_rules s with
  | Some (name, text, r) =>
      name = "whitespace" /\ cut_by_table r l \/
      name <> "whitespace" /\ exists l', l = (name, text) :: l' /\ cut_by_table r l'
  | None => s = "" /\ l = []
  end.
Proof.
  destruct 1 as [|s w r l M H|s name text r l M N H].
  - change (first_match vql_rules "") with (@None (string * string * string)). now split.
  - rewrite M. now left.
  - rewrite M. right. split; [exact N|]. now exists l.
Qed.
Lemma lex_n_table n : forall s, String.length s < n ->
  match lex_n n s with
  | Some ts => cut_by_table s (map (fun t => (rule_name (tt t), tv t)) ts)
  | None => forall l, ~ cut_by_table s l
  end.
Proof.
  induction n as [|n IH]; intros s L; [lia|]. cbn [lex_n]. destruct s as [|c s']; [constructor|].
  remember (String c s') as s eqn:Q. pose proof (scanner_step s) as ST.
  destruct (first_match vql_rules s) as [((name, text), r)|] eqn:M.
  - pose proof (cut_step s name text r M) as (LR & [(-> & E)|(t & -> & -> & E)]); rewrite E.
    + specialize (IH r). destruct (lex_n n r) as [l|].
      * apply (CutBlank s text r); [exact M|]. apply IH. lia.
      * intros l H. apply cut_inv in H. rewrite M in H. destruct H as [(_ & H)|(H & _)]; [|now destruct H].
        now apply (IH ltac:(lia) l).
    + specialize (IH r). destruct (lex_n n r) as [l|].
      * cbn [map]. apply (CutToken s _ _ r); [exact M|apply rule_name_blank|]. apply IH. lia.
      * intros l H. apply cut_inv in H. rewrite M in H. destruct H as [(H & _)|(_ & l' & _ & H)].
        { now apply rule_name_blank in H. } now apply (IH ltac:(lia) l').
  - unfold as_table in ST. destruct (lex1 s) as [([t|], r)|]; try contradiction.
    intros l H. apply cut_inv in H. rewrite M in H. destruct H as (H & _). subst s. discriminate.
Qed.

(** C85: the scanner cuts every text as the table of rules does. *)
Theorem C85_tokens_are_those_of_the_table s ts : lex s = Some ts ->
  cut_by_table s (map (fun t => (rule_name (tt t), tv t)) ts).
Proof. intro E. pose proof (lex_n_table (S (String.length s)) s (le_n _)) as H. unfold lex in E. now rewrite E in H. Qed.
(** The scanner fails only on texts that the table cannot cut. *)
Theorem C85_rejected_by_the_table s : lex s = None -> forall l, ~ cut_by_table s l.
Proof. intro E. pose proof (lex_n_table (S (String.length s)) s (le_n _)) as H. unfold lex in E. now rewrite E in H. Qed.
(** The table cuts a text in one way only. *)
Theorem C85_one_way s l l' : cut_by_table s l -> cut_by_table s l' -> l = l'.
Proof.
  intros H. revert l'. induction H as [|s w r l M H IH|s name text r l M N H IH]; intros l' H'; apply cut_inv in H'.
  - now destruct H' as (_ & ->).
  - rewrite M in H'. destruct H' as [(_ & H')|(H' & _)]; [now apply IH|now destruct H'].
  - rewrite M in H'. destruct H' as [(H' & _)|(_ & l'' & -> & H')]; [now destruct N|]. f_equal. now apply IH.
Qed.

Example C85_demo :
  cut_by_table "SELECT -1.5e3, 'a\'b' FROM x -- end"
    [("SELECT", "SELECT"); ("Number", "-1.5e3"); ("Operators", ","); ("String", "'a\'b'"); ("FROM", "FROM");
     ("Ident", "x"); ("VQLComment", "-- end")].
Proof.
  apply (C85_tokens_are_those_of_the_table _
    [Tok T_SELECT "SELECT"; Tok T_Number "-1.5e3"; Tok T_Operators ","; Tok T_String "'a\'b'"; Tok T_FROM "FROM";
     Tok T_Ident "x"; Tok T_VQLComment "-- end"]). vm_compute. reflexivity.
Qed.
Example C85_demo_rejected : forall l, ~ cut_by_table "SELECT 'a" l.
Proof. apply C85_rejected_by_the_table. vm_compute. reflexivity. Qed.

Print Assumptions C85_tokens_are_those_of_the_table.
Print Assumptions C85_rejected_by_the_table.
Print Assumptions C85_one_way.
