(** The tokens the lexer makes are read the same wherever a break follows. *)

From Coq Require Import ZArith List String Ascii Bool Lia.
From Verif Require Import Base F64 Text Lexer Numeral Grammar Parser Format Spelling.
Import ListNotations.
Open Scope nat_scope.
Open Scope string_scope.
Open Scope list_scope.

(** ** Strings *)

Lemma sapp_assoc (a b c : string) : ((a ++ b) ++ c)%string = (a ++ (b ++ c))%string.
Proof. induction a as [|x a IH]; cbn; [reflexivity|now rewrite IH]. Qed.
Lemma sapp_nil_r (s : string) : (s ++ "")%string = s.
Proof. induction s as [|c s IH]; cbn; [reflexivity|now rewrite IH]. Qed.
Lemma sapp_length (a b : string) : String.length (a ++ b) = String.length a + String.length b.
Proof. induction a as [|x a IH]; cbn; [reflexivity|now rewrite IH]. Qed.

Fixpoint sall (p : ascii -> bool) (s : string) : bool :=
  match s with "" => true | String c r => p c && sall p r end.

Lemma span_spec p s a b :
  span p s = (a, b) -> s = (a ++ b)%string /\ sall p a = true /\ first_char p b = false.
Proof.
  revert a b. induction s as [|c s IH]; intros a b H; cbn in H.
  - injection H as <- <-. auto.
  - destruct (p c) eqn:P.
    + destruct (span p s) as (x, y). injection H as <- <-. destruct (IH x y eq_refl) as (-> & A & F).
      cbn. now rewrite P, A.
    + injection H as <- <-. cbn. now rewrite P.
Qed.
Lemma span_app p a r : sall p a = true -> first_char p r = false -> span p (a ++ r) = (a, r).
Proof.
  induction a as [|c a IH]; cbn; intros A F.
  - destruct r as [|c r]; [reflexivity|]. cbn in *. now rewrite F.
  - apply andb_true_iff in A as (P & A). now rewrite P, IH.
Qed.
Lemma span_none p s : first_char p s = false -> span p s = ("", s).
Proof. intro F. exact (span_app p "" s eq_refl F). Qed.

Lemma strip_prefix_spec p s r : strip_prefix p s = Some r <-> s = (p ++ r)%string.
Proof.
  revert s. induction p as [|c p IH]; intros s; cbn.
  - split; [now injection 1|now intros ->].
  - destruct s as [|d s]; [split; discriminate|].
    destruct (Ascii.eqb_spec c d) as [->|N].
    + rewrite IH. split; [now intros ->|now injection 1].
    + split; [discriminate|]. injection 1. congruence.
Qed.
Lemma strip_prefix_none p s r x :
  String.length p <= String.length s -> strip_prefix p (s ++ r) = None -> strip_prefix p (s ++ x) = None.
Proof.
  revert s. induction p as [|c p IH]; intros s L H; cbn in *; [discriminate|].
  destruct s as [|d s]; cbn in *; [lia|]. destruct (Ascii.eqb c d); [|reflexivity].
  apply (IH s); [lia|assumption].
Qed.
Lemma strip_prefix_app p r : strip_prefix p (p ++ r) = Some r.
Proof. now apply strip_prefix_spec. Qed.

Lemma until_spec pat s a b :
  until pat s = Some (a, b) -> s = (a ++ b)%string /\ String.length pat <= String.length a.
Proof.
  revert a b. induction s as [|c s IH]; intros a b H; cbn in H.
  - destruct (strip_prefix pat "") as [r|] eqn:P; [|discriminate].
    injection H as <- <-. apply strip_prefix_spec in P. now rewrite <- P.
  - destruct (strip_prefix pat (String c s)) as [r|] eqn:P.
    + injection H as <- <-. apply strip_prefix_spec in P. now rewrite <- P.
    + destruct (until pat s) as [(x, y)|]; [|discriminate]. injection H as <- <-.
      destruct (IH x y eq_refl) as (-> & L). cbn. split; [reflexivity|lia].
Qed.
Lemma until_stable pat s a b r : until pat s = Some (a, b) -> until pat (a ++ r) = Some (a, r).
Proof.
  revert a b. induction s as [|c s IH]; intros a b H; cbn in H.
  - destruct (strip_prefix pat "") as [q|] eqn:P; [|discriminate].
    injection H as <- <-. destruct (pat ++ r)%string eqn:E; cbn [until]; rewrite <- E, strip_prefix_app; reflexivity.
  - destruct (strip_prefix pat (String c s)) as [q|] eqn:P.
    + injection H as <- <-. destruct (pat ++ r)%string eqn:E; cbn [until]; rewrite <- E, strip_prefix_app; reflexivity.
    + destruct (until pat s) as [(x, y)|] eqn:U; [|discriminate]. injection H as <- <-.
      specialize (IH x y eq_refl). destruct (until_spec _ _ _ _ U) as (-> & L).
      cbn [String.append until].
      change (String c (x ++ y)) with (String c x ++ y)%string in P.
      apply (strip_prefix_none _ _ _ r) in P; [|cbn; lia]. cbn [String.append] in P. rewrite P, IH. reflexivity.
Qed.

(** ** Characters *)

Lemma char_fact (P : ascii -> bool) :
  forallb P (map ascii_of_nat (seq 0 256)) = true -> forall c, P c = true.
Proof.
  intros H c. rewrite forallb_forall in H. apply H. apply in_map_iff.
  exists (nat_of_ascii c). split; [apply ascii_nat_embedding|]. apply in_seq.
  pose proof (nat_ascii_bounded c). lia.
Qed.

Definition breaker (c : ascii) : bool :=
  is_space c || Ascii.eqb c "." ||
  existsb (Ascii.eqb c) ["("%char; ")"%char; "["%char; "]"%char; "{"%char; "}"%char; ","%char; ":"%char; "="%char].
Lemma brk_first c r : brk (String c r) = true -> breaker c = true.
Proof.
  unfold brk, breaker. destruct (is_space c); [reflexivity|]. destruct (Ascii.eqb c "."); auto.
Qed.
Lemma brk_dot r : brk (String "." r) = true -> first_char (fun c => is_alpha c || Ascii.eqb c bquote) r = true.
Proof. exact (fun H => H). Qed.
Lemma brk_by r : brk r = true -> by_follows r = None.
Proof.
  destruct r as [|c r]; [reflexivity|]. unfold brk. intro H. destruct (is_space c) eqn:S.
  - now destruct (by_follows (String c r)).
  - unfold by_follows. rewrite (span_none is_space); [|exact S].
    now destruct (span is_word (String c r)).
Qed.
(** No class that extends a token holds of a breaker. *)
Lemma brk_not p r :
  forallb (fun c => negb (breaker c) || negb (p c)) (map ascii_of_nat (seq 0 256)) = true ->
  brk r = true -> first_char p r = false.
Proof.
  intros H B. destruct r as [|c r]; [reflexivity|]. cbn. apply brk_first in B.
  pose proof (char_fact _ H c) as Q. cbv beta in Q. rewrite B in Q. now destruct (p c).
Qed.
Ltac brk_not := apply brk_not; [vm_compute; reflexivity|assumption].

(** [c] implies [d]. *)
Lemma char_imp (p q : ascii -> bool) c :
  forallb (fun c => negb (p c) || q c) (map ascii_of_nat (seq 0 256)) = true -> p c = true -> q c = true.
Proof.
  intros H P. pose proof (char_fact _ H c) as Q. cbv beta in Q. rewrite P in Q. exact Q.
Qed.
Lemma char_dis (p q : ascii -> bool) c :
  forallb (fun c => negb (p c) || negb (q c)) (map ascii_of_nat (seq 0 256)) = true -> p c = true -> q c = false.
Proof.
  intros H P. pose proof (char_fact _ H c) as Q. cbv beta in Q. rewrite P in Q. now destruct (q c).
Qed.

Ltac the_char b :=
  match b with
  | context [is_alpha ?c] => c
  | context [is_digit ?c] => c
  | context [is_word ?c] => c
  | context [is_space ?c] => c
  | context [Ascii.eqb ?c _] => c
  end.
Ltac char_imp H :=
  match type of H with
  | ?b = true =>
      let c := the_char b in
      let f := eval pattern c in b in
      match goal with
      | |- ?q = true =>
          let g := eval pattern c in q in
          match f with ?f _ => match g with ?g _ =>
            apply (char_imp f g c); [vm_compute; reflexivity|exact H] end end
      end
  end.
Ltac char_dis H :=
  match type of H with
  | ?b = true =>
      let c := the_char b in
      let f := eval pattern c in b in
      match goal with
      | |- ?q = false =>
          let g := eval pattern c in q in
          match f with ?f _ => match g with ?g _ =>
            apply (char_dis f g c); [vm_compute; reflexivity|exact H] end end
      end
  end.

(** ** One step of the lexer, by the first character *)

Definition comment_free (s : string) : Prop :=
  strip_prefix "/*" s = None /\ strip_prefix "--" s = None /\ strip_prefix "//" s = None.
Lemma no_comment s :
  comment_free s ->
  first_rule [(T_MLineComment, mline_comment); (T_VQLComment, line_comment "--");
              (T_Comment, line_comment "//")] s = None.
Proof. intros (A & B & C). cbn [first_rule]. unfold mline_comment, line_comment. now rewrite A, B, C. Qed.
Lemma comment_free_char c s : Ascii.eqb c "/" = false -> Ascii.eqb c "-" = false -> comment_free (String c s).
Proof.
  intros A B. repeat split; cbn [strip_prefix]; rewrite Ascii.eqb_sym; (rewrite A || rewrite B); reflexivity.
Qed.

Lemma word_step c w r :
  is_alpha c = true -> sall is_word w = true -> brk r = true ->
  lex1 (String c w ++ r) =
  Some (Some (match keyword_of (String c w) with Some t => Tok t (String c w) | None => Tok T_Ident (String c w) end), r).
Proof.
  intros A W B. unfold lex1.
  assert (S : first_char is_space (String c w ++ r) = false).
  { cbn [String.append first_char]. char_dis A. }
  rewrite S. cbn [String.append] in *.
  rewrite no_comment.
  2:{ apply comment_free_char; char_dis A. }
  cbn [first_char]. rewrite A. unfold word_token.
  assert (E : span is_word (String c (w ++ r)) = (String c w, r)).
  { change (String c (w ++ r)) with (String c w ++ r)%string. apply span_app; [|brk_not].
    cbn [sall]. rewrite W, andb_true_r. char_imp A. }
  rewrite E. destruct (keyword_of (String c w)); [reflexivity|]. now rewrite (brk_by r B).
Qed.

(** The rules after the words, on a text that begins with c. *)
Definition later_rules : list (ttype * (string -> option (string * string))) :=
  [(T_AlternativeOR, alt_or); (T_AlternativeAND, alt_and); (T_Number, number);
   (T_Ident, quoted_ident); (T_SymbolIdent, symbol_ident);
   (T_Operators, operator_in operators); (T_MultilineString, multiline_string);
   (T_String, quoted_string)].
Lemma later_step s :
  first_char is_space s = false -> comment_free s -> first_char is_alpha s = false ->
  lex1 s = match first_rule later_rules s with Some (t, r) => Some (Some t, r) | None => None end.
Proof. intros S C A. unfold lex1. now rewrite S, no_comment, A. Qed.

Lemma alt_or_none s : first_char (Ascii.eqb "|") s = false -> alt_or s = None.
Proof. intro F. unfold alt_or. now rewrite span_none. Qed.
Lemma alt_and_none s : first_char (Ascii.eqb "&") s = false -> alt_and s = None.
Proof. unfold alt_and. destruct s as [|c s]; [reflexivity|]. cbn [first_char strip_prefix]. now intros ->. Qed.
Lemma decimal_none s :
  first_char is_digit s = false -> first_char (Ascii.eqb ".") s = false -> decimal s = None.
Proof.
  intros D P. unfold decimal. rewrite span_none by assumption. cbn [String.eqb].
  destruct s as [|c s]; [reflexivity|]. cbn [first_char] in P. rewrite Ascii.eqb_sym, P. reflexivity.
Qed.
Lemma unsigned_none s :
  first_char is_digit s = false -> first_char (Ascii.eqb ".") s = false -> unsigned_number s = None.
Proof.
  intros D P. unfold unsigned_number. destruct (strip_prefix "0x" s) as [r|] eqn:E.
  - apply strip_prefix_spec in E. subst s. discriminate D.
  - now apply decimal_none.
Qed.
Lemma number_none s :
  first_char is_digit s = false -> first_char (Ascii.eqb ".") s = false -> first_char (Ascii.eqb "-") s = false ->
  number s = None.
Proof.
  intros D P M. unfold number. destruct s as [|c s]; [reflexivity|]. cbn [first_char] in M. rewrite Ascii.eqb_sym, M.
  now apply unsigned_none.
Qed.
Lemma quoted_ident_none s : first_char (fun c => Ascii.eqb c bquote) s = false -> quoted_ident s = None.
Proof. destruct s as [|c s]; [reflexivity|]. cbn [first_char quoted_ident]. now intros ->. Qed.
Lemma symbol_ident_none s : first_char (fun c => Ascii.eqb c "-") s = false -> symbol_ident s = None.
Proof. destruct s as [|c s]; [reflexivity|]. cbn [first_char symbol_ident]. now intros ->. Qed.

Lemma quoted_ident_spec s v r :
  quoted_ident s = Some (v, r) ->
  exists a, v = String bquote (a ++ String bquote "") /\ a <> "" /\
            sall (fun c => negb (Ascii.eqb c bquote)) a = true.
Proof.
  unfold quoted_ident. destruct s as [|c s]; [discriminate|]. destruct (Ascii.eqb c bquote); [|discriminate].
  destruct (span _ s) as (a, b) eqn:E. destruct a as [|x a]; [discriminate|]. destruct b as [|y b]; [discriminate|].
  injection 1 as <- <-. apply span_spec in E as (_ & A & _). exists (String x a).
  repeat split; [discriminate|assumption].
Qed.
Lemma quoted_ident_app a r :
  a <> "" -> sall (fun c => negb (Ascii.eqb c bquote)) a = true ->
  quoted_ident (String bquote (a ++ String bquote "") ++ r) = Some (String bquote (a ++ String bquote ""), r)%string.
Proof.
  intros N A. cbn [String.append quoted_ident]. change (Ascii.eqb bquote bquote) with true. cbv iota.
  rewrite sapp_assoc. cbn [String.append].
  rewrite (span_app _ a (String bquote r)); [|assumption|reflexivity].
  destruct a; [contradiction|reflexivity].
Qed.
Lemma quoted_ident_reads s v r0 : quoted_ident s = Some (v, r0) -> reads T_Ident v.
Proof.
  intros H r B. apply quoted_ident_spec in H as (a & -> & N & A).
  rewrite later_step; [|reflexivity|apply comment_free_char; reflexivity|reflexivity].
  cbn [later_rules first_rule].
  rewrite alt_or_none, alt_and_none, number_none, quoted_ident_app by (assumption || reflexivity). reflexivity.
Qed.


Lemma span_first p c s : p c = true -> exists w, fst (span p (String c s)) = String c w.
Proof. intro P. cbn. rewrite P. destruct (span p s) as (a, b). now exists a. Qed.

Lemma symbol_ident_reads s v r0 : symbol_ident s = Some (v, r0) -> reads T_SymbolIdent v.
Proof.
  unfold symbol_ident. destruct s as [|c s]; [discriminate|].
  destruct (Ascii.eqb_spec c "-") as [->|]; [|discriminate].
  destruct s as [|a s]; [discriminate|]. destruct (is_alpha a) eqn:A.
  - destruct (span is_word (String a s)) as (w, r') eqn:E. injection 1 as <- <-.
    assert (IW : is_word a = true) by char_imp A.
    destruct (span_first is_word a s IW) as (w' & F). rewrite E in F. cbn [fst] in F. subst w.
    apply span_spec in E as (_ & W & _). intros r B. cbn [String.append].
    rewrite later_step; [|reflexivity| |reflexivity].
    2:{ repeat split; cbn [strip_prefix]; try reflexivity. change (Ascii.eqb "-" "-") with true. cbv iota.
        rewrite Ascii.eqb_sym. assert (Ascii.eqb a "-" = false) as -> by char_dis A. reflexivity. }
    cbn [later_rules first_rule].
    rewrite alt_or_none, alt_and_none by reflexivity.
    assert (number (String "-" (String a (w' ++ r))) = None) as ->.
    { cbn [number]. change (Ascii.eqb "-" "-") with true. cbv iota. rewrite unsigned_none; [reflexivity| |]; cbn [first_char]; [|rewrite Ascii.eqb_sym]; char_dis A. }
    rewrite quoted_ident_none by reflexivity.
    cbn [symbol_ident]. change (Ascii.eqb "-" "-") with true. cbv iota. rewrite A.
    change (String a (w' ++ r)) with (String a w' ++ r)%string.
    rewrite span_app; [reflexivity|assumption|brk_not].
  - destruct (quoted_ident (String a s)) as [(w, r')|] eqn:Q; [|discriminate]. injection 1 as <- <-.
    intros r B. apply quoted_ident_spec in Q as (b & -> & N & Hb).
    rewrite later_step; [|reflexivity|repeat split; reflexivity|reflexivity].
    cbn [later_rules first_rule].
    rewrite alt_or_none, alt_and_none by reflexivity.
    rewrite (quoted_ident_none (String "-" (String bquote (b ++ String bquote "")) ++ r)) by reflexivity.
    assert (number (String "-" (String bquote (b ++ String bquote "")) ++ r) = None) as ->.
    { cbn [number String.append]. change (Ascii.eqb "-" "-") with true. cbv iota. now rewrite unsigned_none. }
    cbn [String.append symbol_ident]. change (Ascii.eqb "-" "-") with true. change (is_alpha bquote) with false. cbv iota.
    change (String bquote ((b ++ String bquote "") ++ r)) with (String bquote (b ++ String bquote "") ++ r)%string.
    now rewrite quoted_ident_app.
Qed.

(** ** Numbers *)

Lemma exponent_spec s e r0 :
  exponent s = (e, r0) -> e <> "" ->
  exists c sg d, e = String c (sg ++ d) /\ (Ascii.eqb c "e" || Ascii.eqb c "E") = true /\
    (sg = "" \/ sg = "-" \/ sg = "+") /\ d <> "" /\ sall is_digit d = true.
Proof.
  unfold exponent. destruct s as [|c s]; [intros [= <- <-]; now intro|].
  destruct (Ascii.eqb c "e" || Ascii.eqb c "E") eqn:E; [|intros [= <- <-]; now intro].
  destruct (match s with String c0 r1 => _ | "" => _ end) as (sg, r1) eqn:SG.
  destruct (span is_digit r1) as (d, r2) eqn:D.
  destruct (String.eqb_spec d "") as [->|N]; [intros [= <- <-]; now intro|].
  intros [= <- <-] _. exists c, sg, d. repeat split; auto.
  - destruct s as [|x s]; [injection SG as <- <-; auto|].
    destruct (Ascii.eqb_spec x "-") as [->|]; [injection SG as <- <-; auto|].
    destruct (Ascii.eqb_spec x "+") as [->|]; injection SG as <- <-; auto.
  - now apply span_spec in D as (_ & D & _).
Qed.
Lemma exponent_app c sg d r :
  (Ascii.eqb c "e" || Ascii.eqb c "E") = true -> (sg = "" \/ sg = "-" \/ sg = "+") -> d <> "" ->
  sall is_digit d = true -> first_char is_digit r = false ->
  exponent (String c (sg ++ d) ++ r) = (String c (sg ++ d), r)%string.
Proof.
  intros C G N D R. cbn [String.append exponent]. rewrite C. destruct d as [|x d]; [contradiction|].
  cbn [sall] in D. apply andb_true_iff in D as (X & D).
  assert (SP : span is_digit ((String x d) ++ r) = (String x d, r)).
  { apply span_app; [|assumption]. cbn [sall]. now rewrite X, D. }
  cbn [String.append] in SP.
  destruct G as [->|[->| ->]]; cbn [String.append].
  - assert (Ascii.eqb x "-" = false) as -> by char_dis X.
    assert (Ascii.eqb x "+" = false) as -> by char_dis X. cbn [orb]. cbv iota. rewrite SP. reflexivity.
  - change (Ascii.eqb "-" "-" || Ascii.eqb "-" "+") with true. cbv iota. rewrite SP. reflexivity.
  - change (Ascii.eqb "+" "-" || Ascii.eqb "+" "+") with true. cbv iota. rewrite SP. reflexivity.
Qed.
Lemma exponent_none r : first_char is_alpha r = false -> exponent r = ("", r).
Proof.
  destruct r as [|c r]; [reflexivity|]. cbn [first_char exponent]. intro A.
  destruct (Ascii.eqb c "e" || Ascii.eqb c "E") eqn:E; [|reflexivity].
  assert (is_alpha c = true); [|congruence].
  apply orb_true_iff in E as [E|E]; apply Ascii.eqb_eq in E; now subst c.
Qed.

(** The shape of a decimal number: digits, perhaps a point and digits, perhaps
    an exponent. *)
Definition mantissa (m : string) : Prop :=
  (m <> "" /\ sall is_digit m = true) \/
  (exists d1 d2, m = (d1 ++ String "." d2)%string /\ sall is_digit d1 = true /\ d2 <> "" /\ sall is_digit d2 = true).
Definition exponent_text (e : string) : Prop :=
  e = "" \/
  exists c sg d, e = String c (sg ++ d) /\ (Ascii.eqb c "e" || Ascii.eqb c "E") = true /\
    (sg = "" \/ sg = "-" \/ sg = "+") /\ d <> "" /\ sall is_digit d = true.

Lemma decimal_spec s v r0 :
  decimal s = Some (v, r0) -> exists m e, v = (m ++ e)%string /\ mantissa m /\ exponent_text e.
Proof.
  unfold decimal. destruct (span is_digit s) as (d1, r1) eqn:D1.
  apply span_spec in D1 as (_ & D1 & _).
  set (mant := match r1 with String c r2 => _ | "" => _ end).
  intro H. destruct mant as [(m, r)|] eqn:M; [|discriminate].
  destruct (exponent r) as (e, r') eqn:E. injection H as <- <-. exists m, e. repeat split.
  - assert (PL : (if String.eqb d1 "" then None else Some (d1, r1)) = Some (m, r) -> mantissa m).
    { destruct (String.eqb_spec d1 "") as [|N]; [discriminate|]. intros [= <- <-]. left. auto. }
    subst mant. destruct r1 as [|c r2]; [auto|]. destruct (Ascii.eqb_spec c ".") as [->|]; [|auto].
    destruct (span is_digit r2) as (d2, r3) eqn:D2. apply span_spec in D2 as (_ & D2 & _).
    destruct (String.eqb_spec d2 "") as [|N]; [auto|]. injection M as <- <-. right. exists d1, d2. auto.
  - destruct (String.eqb_spec e "") as [->|N]; [now left|]. right. now apply (exponent_spec r e r').
Qed.

Lemma exponent_text_app e r :
  exponent_text e -> brk r = true -> exponent (e ++ r) = (e, r).
Proof.
  intros [->|(c & sg & d & -> & C & G & N & D)] B.
  - cbn [String.append]. apply exponent_none. brk_not.
  - apply exponent_app; auto. brk_not.
Qed.
(** What follows a mantissa is no digit, and no point with digits. *)
Lemma exponent_text_first e r :
  exponent_text e -> brk r = true ->
  first_char is_digit (e ++ r) = false /\
  (forall x, (e ++ r)%string = String "." x -> first_char is_digit x = false) /\
  first_char (Ascii.eqb "x") (e ++ r) = false.
Proof.
  intros [->|(c & sg & d & -> & C & G & N & D)] B; cbn [String.append first_char].
  - repeat split; [brk_not| |brk_not]. intros x ->. apply brk_dot in B.
    destruct x as [|y x]; [discriminate|]. cbn [first_char] in *.
    apply orb_true_iff in B as [B|B]; char_dis B.
  - repeat split; [char_dis C| |char_dis C]. intros x [= -> _]. discriminate C.
Qed.
Lemma decimal_app m e r :
  mantissa m -> exponent_text e -> brk r = true -> decimal ((m ++ e) ++ r) = Some (m ++ e, r)%string.
Proof.
  intros M E B. pose proof (exponent_text_app e r E B) as X.
  destruct (exponent_text_first e r E B) as (F1 & F2 & _). rewrite sapp_assoc. unfold decimal.
  destruct M as [(N & D)|(d1 & d2 & -> & D1 & N & D2)].
  - rewrite span_app by assumption.
    destruct (String.eqb_spec m "") as [|_]; [contradiction|].
    assert (PL : match (e ++ r)%string with
                 | String c r2 =>
                     if Ascii.eqb c "." then
                       let (d2, r3) := span is_digit r2 in
                       if String.eqb d2 "" then Some (m, (e ++ r)%string) else Some ((m ++ String c d2)%string, r3)
                     else Some (m, (e ++ r)%string)
                 | "" => Some (m, (e ++ r)%string)
                 end = Some (m, (e ++ r)%string)).
    { destruct (e ++ r)%string as [|c x] eqn:Q; [reflexivity|].
      destruct (Ascii.eqb_spec c ".") as [->|]; [|reflexivity].
      now rewrite (span_none _ _ (F2 x eq_refl)). }
    rewrite PL, X. reflexivity.
  - rewrite sapp_assoc. cbn [String.append]. rewrite span_app; [|assumption|reflexivity].
    change (Ascii.eqb "." ".") with true. cbv iota.
    rewrite span_app by assumption. destruct (String.eqb_spec d2 "") as [|_]; [contradiction|].
    rewrite X. rewrite sapp_assoc. reflexivity.
Qed.

(** Not 0x. *)
Lemma decimal_not_hex m e r :
  mantissa m -> exponent_text e -> brk r = true -> strip_prefix "0x" ((m ++ e) ++ r) = None.
Proof.
  intros M E B. destruct (exponent_text_first e r E B) as (_ & _ & F). rewrite sapp_assoc.
  assert (Z : forall d t, sall is_digit d = true -> first_char (Ascii.eqb "x") t = false ->
              (d = "" -> first_char (Ascii.eqb "0") t = false) ->
              strip_prefix "0x" (d ++ t) = None).
  { intros d t D T T0. destruct d as [|c d]; cbn [String.append strip_prefix].
    - destruct t as [|c t]; [reflexivity|]. cbn [first_char] in T0. now rewrite T0.
    - destruct (Ascii.eqb "0" c); [|reflexivity]. cbn [sall] in D. apply andb_true_iff in D as (_ & D).
      destruct d as [|c' d]; cbn [String.append].
      + destruct t as [|c' t]; [reflexivity|]. cbn [first_char] in T. now rewrite T.
      + cbn [sall] in D. apply andb_true_iff in D as (D & _).
        assert (Ascii.eqb "x" c' = false) as -> by char_dis D. reflexivity. }
  destruct M as [(N & D)|(d1 & d2 & -> & D1 & N & D2)].
  - apply Z; auto. intro; contradiction.
  - rewrite sapp_assoc. apply Z; auto.
Qed.

(** The shape of a number. *)
Definition number_text (s : string) : Prop :=
  (exists h, s = ("0x" ++ h)%string /\ h <> "" /\ sall is_hex h = true) \/
  (exists m e, s = (m ++ e)%string /\ mantissa m /\ exponent_text e).

Lemma unsigned_spec s v r0 : unsigned_number s = Some (v, r0) -> number_text v.
Proof.
  unfold unsigned_number. destruct (strip_prefix "0x" s) as [r|].
  - destruct (span is_hex r) as (h, r1) eqn:H. apply span_spec in H as (_ & H & _).
    destruct (String.eqb_spec h "") as [|N].
    + intro D. right. now apply decimal_spec in D.
    + intros [= <- <-]. left. exists h. auto.
  - intro D. right. now apply decimal_spec in D.
Qed.
Lemma unsigned_app v r : number_text v -> brk r = true -> unsigned_number (v ++ r) = Some (v, r).
Proof.
  intros [(h & -> & N & H)|(m & e & -> & M & E)] B; unfold unsigned_number.
  - rewrite sapp_assoc, strip_prefix_app. rewrite span_app; [|assumption|brk_not].
    destruct (String.eqb_spec h ""); [contradiction|reflexivity].
  - rewrite decimal_not_hex, decimal_app by assumption. reflexivity.
Qed.
Lemma number_text_first v r : number_text v ->
  first_char (fun c => is_digit c || Ascii.eqb c ".") (v ++ r) = true.
Proof.
  assert (Z : forall d t, d <> "" -> sall is_digit d = true ->
            first_char (fun c => is_digit c || Ascii.eqb c ".") (d ++ t) = true).
  { intros d t N D. destruct d as [|c d]; [contradiction|]. cbn [sall] in D.
    apply andb_true_iff in D as (D & _). cbn [String.append first_char]. now rewrite D. }
  intros [(h & -> & N & H)|(m & e & -> & M & E)]; [reflexivity|].
  destruct M as [(N & D)|(d1 & d2 & -> & D1 & N & D2)]; rewrite !sapp_assoc.
  - now apply Z.
  - destruct (String.eqb_spec d1 "") as [->|N1]; [reflexivity|]. now apply Z.
Qed.

Lemma number_reads_as v :
  (number_text v \/ exists u, v = String "-" u /\ number_text u) -> reads T_Number v.
Proof.
  intros K r B.
  assert (NUM : number (v ++ r) = Some (v, r)).
  { destruct K as [K|(u & -> & K)].
    - pose proof (number_text_first v r K) as F. unfold number.
      destruct (v ++ r)%string as [|c x] eqn:Q; [discriminate|]. cbn [first_char] in F.
      assert (Ascii.eqb c "-" = false) as -> by (apply orb_true_iff in F as [F|F]; char_dis F).
      rewrite <- Q. now apply unsigned_app.
    - cbn [String.append number]. change (Ascii.eqb "-" "-") with true. cbv iota.
      now rewrite unsigned_app. }
  assert (FC : exists c x, (v ++ r)%string = String c x /\
             (is_digit c || Ascii.eqb c "." || Ascii.eqb c "-") = true /\
             (Ascii.eqb c "-" = true -> first_char (Ascii.eqb "-") x = false)).
  { destruct K as [K|(u & -> & K)].
    - pose proof (number_text_first v r K) as F. destruct (v ++ r)%string as [|c x]; [discriminate|].
      exists c, x. cbn [first_char] in F. rewrite F. repeat split.
      assert (Ascii.eqb c "-" = false) as -> by (apply orb_true_iff in F as [F|F]; char_dis F). discriminate.
    - cbn [String.append]. do 2 eexists. repeat split. intros _.
      pose proof (number_text_first u r K) as F. destruct (u ++ r)%string as [|c x]; [reflexivity|].
      cbn [first_char] in *. apply orb_true_iff in F as [F|F]; char_dis F. }
  destruct FC as (c & x & Q & C & M).
  rewrite later_step.
  - cbn [later_rules first_rule]. rewrite alt_or_none, alt_and_none, NUM; [reflexivity| |];
      rewrite Q; cbn [first_char]; apply orb_true_iff in C as [C|C]; [apply orb_true_iff in C as [C|C]| |apply orb_true_iff in C as [C|C]|]; char_dis C.
  - rewrite Q. cbn [first_char]. apply orb_true_iff in C as [C|C]; [apply orb_true_iff in C as [C|C]|]; char_dis C.
  - rewrite Q. repeat split; cbn [strip_prefix].
    + assert (Ascii.eqb "/" c = false) as -> by (apply orb_true_iff in C as [C|C]; [apply orb_true_iff in C as [C|C]|]; char_dis C).
      reflexivity.
    + rewrite (Ascii.eqb_sym "-" c). destruct (Ascii.eqb c "-"); [|reflexivity].
      destruct x as [|y x]; [reflexivity|]. specialize (M eq_refl). cbn [first_char] in M. now rewrite M.
    + assert (Ascii.eqb "/" c = false) as -> by (apply orb_true_iff in C as [C|C]; [apply orb_true_iff in C as [C|C]|]; char_dis C).
      reflexivity.
  - rewrite Q. cbn [first_char]. apply orb_true_iff in C as [C|C]; [apply orb_true_iff in C as [C|C]|]; char_dis C.
Qed.
Lemma number_reads_lexed s v r0 : number s = Some (v, r0) -> reads T_Number v.
Proof.
  unfold number. destruct s as [|c s]; [discriminate|]. destruct (Ascii.eqb_spec c "-") as [->|].
  - destruct (unsigned_number s) as [(u, r)|] eqn:U; [|discriminate]. intros [= <- <-].
    apply number_reads_as. right. exists u. split; [reflexivity|]. now apply unsigned_spec in U.
  - intro U. apply number_reads_as. left. now apply unsigned_spec in U.
Qed.

(** ** Strings *)

Lemma string_body_app q : forall n s a b r,
  String.length s <= n -> string_body q s = Some (a, b) -> string_body q (a ++ r) = Some (a, r).
Proof.
  induction n as [|n IH]; intros s a b r L H.
  { destruct s; [discriminate|cbn in L; lia]. }
  destruct s as [|c s]; [discriminate|]. cbn [string_body] in H. cbn in L.
  destruct (Ascii.eqb c q) eqn:Q.
  - injection H as <- <-. cbn [String.append string_body]. now rewrite Q.
  - destruct (Ascii.eqb c bslash) eqn:B.
    + destruct s as [|d s]; [discriminate|]. destruct (string_body q s) as [(x, y)|] eqn:E; [|discriminate].
      injection H as <- <-. cbn [String.append string_body]. rewrite Q, B.
      rewrite (IH s x y r); [reflexivity|cbn in L; lia|assumption].
    + destruct (string_body q s) as [(x, y)|] eqn:E; [|discriminate].
      injection H as <- <-. cbn [String.append string_body]. rewrite Q, B.
      rewrite (IH s x y r); [reflexivity|lia|assumption].
Qed.
Lemma string_body_nonempty q s a b : string_body q s = Some (a, b) -> a <> "".
Proof.
  destruct s as [|c s]; [discriminate|]. cbn [string_body].
  destruct (Ascii.eqb c q); [intros [= <- <-]; discriminate|].
  destruct (Ascii.eqb c bslash).
  - destruct s as [|d s]; [discriminate|]. destruct (string_body q s) as [(x, y)|]; [|discriminate].
    intros [= <- <-]. discriminate.
  - destruct (string_body q s) as [(x, y)|]; [|discriminate]. intros [= <- <-]. discriminate.
Qed.

(** A quote begins a string whatever follows. *)
Lemma quote_step c s :
  (Ascii.eqb c squote || Ascii.eqb c dquote) = true ->
  lex1 (String c s) =
  match multiline_string (String c s) with
  | Some (v, r) => Some (Some (Tok T_MultilineString v), r)
  | None => match quoted_string (String c s) with
            | Some (v, r) => Some (Some (Tok T_String v), r)
            | None => None
            end
  end.
Proof.
  intro C. rewrite later_step; cbn [first_char].
  - cbn [later_rules first_rule].
    assert (alt_or (String c s) = None) as -> by (apply alt_or_none; cbn [first_char]; char_dis C).
    assert (alt_and (String c s) = None) as -> by (apply alt_and_none; cbn [first_char]; char_dis C).
    assert (number (String c s) = None) as -> by (apply number_none; cbn [first_char]; char_dis C).
    assert (quoted_ident (String c s) = None) as -> by (apply quoted_ident_none; cbn [first_char]; char_dis C).
    assert (symbol_ident (String c s) = None) as -> by (apply symbol_ident_none; cbn [first_char]; char_dis C).
    assert (operator_in operators (String c s) = None) as ->.
    { assert (Z : forall l, forallb (fun o => match o with
                                       | String x _ => negb (Ascii.eqb x squote) && negb (Ascii.eqb x dquote)
                                       | "" => false end) l = true -> operator_in l (String c s) = None).
      { induction l as [|o l IH]; cbn [operator_in forallb]; [reflexivity|].
        intro H. apply andb_true_iff in H as (H & L). destruct o as [|x o]; [discriminate|].
        cbn [strip_prefix]. destruct (Ascii.eqb_spec x c) as [->|]; [|now apply IH].
        apply orb_true_iff in C as [C|C]; rewrite C in H; [discriminate|].
        rewrite andb_false_r in H. discriminate. }
      now apply Z. }
    destruct (multiline_string (String c s)) as [(v, r)|]; [reflexivity|].
    destruct (quoted_string (String c s)) as [(v, r)|]; reflexivity.
  - char_dis C.
  - apply comment_free_char; char_dis C.
  - char_dis C.
Qed.

Lemma multiline_reads s v r0 :
  multiline_string s = Some (v, r0) -> reads T_MultilineString v /\ exists x, strip_prefix triple v = Some x.
Proof.
  unfold multiline_string. destruct (strip_prefix triple s) as [t|] eqn:P; [|discriminate].
  destruct (until triple t) as [(a, b)|] eqn:U; [|discriminate]. intros [= <- <-]. split.
  - intros r B. unfold triple. cbn [String.append].
    rewrite quote_step by reflexivity. unfold multiline_string.
    change (String squote (String squote (String squote (a ++ r)))) with (triple ++ (a ++ r))%string.
    rewrite strip_prefix_app, (until_stable triple t a b r U). reflexivity.
  - exists a. exact (strip_prefix_app triple a).
Qed.

Lemma triple_prefix c s :
  strip_prefix triple (String c s) <> None -> c = squote /\ exists s', s = String squote (String squote s').
Proof.
  intro H. destruct (strip_prefix triple (String c s)) as [x|] eqn:E; [|contradiction].
  apply strip_prefix_spec in E. unfold triple in E. cbn [String.append] in E. injection E as -> ->.
  split; [reflexivity|]. now exists x.
Qed.
Lemma string_reads s v r0 :
  quoted_string s = Some (v, r0) -> reads T_String v /\ strip_prefix triple v = None.
Proof.
  unfold quoted_string. destruct s as [|c s]; [discriminate|].
  destruct (Ascii.eqb c squote || Ascii.eqb c dquote) eqn:C; [|discriminate].
  destruct (string_body c s) as [(a, b)|] eqn:Y; [|discriminate]. intros [= <- <-].
  assert (Z : forall r, first_char (Ascii.eqb squote) r = false -> strip_prefix triple (String c (a ++ r)) = None).
  { intros r F. destruct (strip_prefix triple (String c (a ++ r))) eqn:E; [|reflexivity]. exfalso.
    assert (E' : strip_prefix triple (String c (a ++ r)) <> None) by (rewrite E; discriminate).
    apply triple_prefix in E' as (-> & s' & Q).
    destruct s as [|d s]; [discriminate|]. cbn [string_body] in Y.
    destruct (Ascii.eqb d squote) eqn:D.
    - injection Y as <- <-. cbn [String.append] in Q. injection Q as _ ->. discriminate F.
    - destruct (Ascii.eqb d bslash).
      + destruct s as [|e s]; [discriminate|]. destruct (string_body squote s) as [(x, y)|]; [|discriminate].
        injection Y as <- <-. cbn [String.append] in Q. injection Q as -> _. discriminate D.
      + destruct (string_body squote s) as [(x, y)|]; [|discriminate].
        injection Y as <- <-. cbn [String.append] in Q. injection Q as -> _. discriminate D. }
  split.
  - intros r B. cbn [String.append]. rewrite quote_step by assumption.
    unfold multiline_string. rewrite Z by brk_not. unfold quoted_string. rewrite C.
    now rewrite (string_body_app c (String.length s) s a b r).
  - rewrite <- (sapp_nil_r a). now apply Z.
Qed.

Lemma alt_or_reads s v r0 : alt_or s = Some (v, r0) -> reads T_AlternativeOR v /\ first_char (Ascii.eqb "|") v = true.
Proof.
  unfold alt_or. destruct (span (Ascii.eqb "|") s) as (a, r') eqn:E.
  destruct (String.eqb_spec a "") as [|N]; [discriminate|]. intros [= <- <-].
  apply span_spec in E as (_ & A & _). destruct a as [|c a]; [contradiction|].
  cbn [sall] in A. apply andb_true_iff in A as (C & A). apply Ascii.eqb_eq in C. subst c. split; [|reflexivity].
  intros r B. cbn [String.append].
  rewrite later_step; [|reflexivity|apply comment_free_char; reflexivity|reflexivity].
  cbn [later_rules first_rule].
  assert (alt_or (String "|" (a ++ r)) = Some (String "|" a, r)) as ->; [|reflexivity].
  unfold alt_or. change (String "|" (a ++ r)) with (String "|" a ++ r)%string.
  rewrite span_app; [reflexivity| |brk_not]. cbn [sall]. now rewrite A.
Qed.
Lemma alt_and_reads : reads T_AlternativeAND "&&".
Proof. intros r B. reflexivity. Qed.

(** ** All of it *)

Definition lexeme (t : token) : Prop :=
  match tt t with
  | T_MLineComment | T_VQLComment | T_Comment => True
  | T_GROUPBY | T_ORDERBY => True
  | T_Operators => In (tv t) operators
  | _ => reads (tt t) (tv t)
  end /\
  match tt t with
  | T_MultilineString => exists x, strip_prefix triple (tv t) = Some x
  | T_String => strip_prefix triple (tv t) = None
  | T_SymbolIdent => first_char (Ascii.eqb "-") (tv t) = true
  | T_Ident => first_char (Ascii.eqb "-") (tv t) = false
  | T_AlternativeAND => tv t = "&&"
  | T_AlternativeOR => first_char (Ascii.eqb "|") (tv t) = true
  | T_OR | T_AND | T_IN | T_DESC | T_BOOL | T_NULL => keyword_of (tv t) = Some (tt t)
  | _ => True
  end.

Lemma keyword_types w t : keyword_of w = Some t -> In t (map snd keywords).
Proof.
  unfold keyword_of. destruct (find _ keywords) as [k|] eqn:F; [|discriminate]. intros [= <-].
  apply find_some in F as (I & _). now apply in_map.
Qed.

Lemma operator_in_spec l s v r : operator_in l s = Some (v, r) -> In v l.
Proof.
  induction l as [|o l IH]; [discriminate|]. cbn [operator_in].
  destruct (strip_prefix o s); [intros [= <- <-]; now left|]. intro H. right. now apply IH.
Qed.

Lemma lex1_lexeme s t r0 : lex1 s = Some (Some t, r0) -> lexeme t.
Proof.
  unfold lex1. destruct (first_char is_space s); [discriminate|].
  set (cm := first_rule _ s).
  destruct cm as [(t', r')|] eqn:E.
  { intros [= <- <-]. subst cm. cbn [first_rule] in E.
    destruct (mline_comment s) as [(v, r)|]; [injection E as <- <-; now split|].
    destruct (line_comment "--" s) as [(v, r)|]; [injection E as <- <-; now split|].
    destruct (line_comment "//" s) as [(v, r)|]; [injection E as <- <-; now split|discriminate]. }
  clear cm E. destruct (first_char is_alpha s) eqn:A.
  - destruct (word_token s) as (t', r') eqn:W. intros [= <- <-].
    destruct s as [|c s]; [discriminate|]. cbn [first_char] in A. unfold word_token in W.
    destruct (span is_word (String c s)) as (w, r) eqn:SP.
    assert (IW : is_word c = true) by char_imp A.
    destruct (span_first is_word c s IW) as (w' & F). rewrite SP in F. cbn [fst] in F. subst w.
    apply span_spec in SP as (_ & SW & _). cbn [sall] in SW. apply andb_true_iff in SW as (_ & SW).
    assert (D : first_char (Ascii.eqb "-") (String c w') = false) by (cbn [first_char]; char_dis A).
    assert (RD : reads (match keyword_of (String c w') with Some t => t | None => T_Ident end) (String c w')).
    { intros x B. rewrite word_step by assumption. now destruct (keyword_of (String c w')). }
    destruct (keyword_of (String c w')) as [t|] eqn:K.
    + injection W as <- <-. unfold lexeme. cbn [tt tv]. rewrite K.
      pose proof (keyword_types _ _ K) as I. cbn in I.
      repeat (destruct I as [<-|I]; [now split|]). contradiction.
    + destruct (by_follows r) as [(b, r2)|].
      * destruct (String.eqb (upper (String c w')) "GROUP"); [injection W as <- <-; now split|].
        destruct (String.eqb (upper (String c w')) "ORDER"); [injection W as <- <-; now split|].
        injection W as <- <-. now split.
      * injection W as <- <-. now split.
  - cbn [first_rule].
    destruct (alt_or s) as [(v, r)|] eqn:E; [intros [= <- <-]; now apply alt_or_reads in E|].
    clear E. destruct (alt_and s) as [(v, r)|] eqn:E.
    { intros [= <- <-]. unfold alt_and in E. destruct (strip_prefix "&&" s); [|discriminate].
      injection E as <- <-. split; [apply alt_and_reads|reflexivity]. }
    clear E. destruct (number s) as [(v, r)|] eqn:E.
    { intros [= <- <-]. split; [now apply number_reads_lexed in E|exact I]. }
    clear E. destruct (quoted_ident s) as [(v, r)|] eqn:E.
    { intros [= <- <-]. split; [now apply quoted_ident_reads in E|].
      apply quoted_ident_spec in E as (a & -> & _). reflexivity. }
    clear E. destruct (symbol_ident s) as [(v, r)|] eqn:E.
    { intros [= <- <-]. split; [now apply symbol_ident_reads in E|].
      unfold symbol_ident in E. destruct s as [|c s]; [discriminate|].
      destruct (Ascii.eqb_spec c "-") as [->|]; [|discriminate]. destruct s as [|a s]; [discriminate|].
      destruct (is_alpha a); [destruct (span is_word (String a s)); injection E as <- <-; reflexivity|].
      destruct (quoted_ident (String a s)) as [(w, q)|]; [injection E as <- <-; reflexivity|discriminate]. }
    clear E. destruct (operator_in operators s) as [(v, r)|] eqn:E.
    { intros [= <- <-]. split; [now apply operator_in_spec in E|exact I]. }
    clear E. destruct (multiline_string s) as [(v, r)|] eqn:E.
    { intros [= <- <-]. now apply multiline_reads in E. }
    clear E. destruct (quoted_string s) as [(v, r)|] eqn:E; [|discriminate].
    intros [= <- <-]. now apply string_reads in E.
Qed.
