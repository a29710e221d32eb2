(** The text the formatter writes for a tree lexes into the tokens of the
    tree. *)

From Coq Require Import ZArith List String Ascii Bool Lia.
From Verif Require Import Base F64 Text Lexer Numeral Grammar Parser Format Spelling.
From Verif Require Import LexProofs NumeralProofs FloatText ParseProofs.
Import ListNotations.
Open Scope nat_scope.
Open Scope string_scope.
Open Scope list_scope.

(** ** Lexing as a relation *)

Inductive Lexes : string -> list token -> Prop :=
| LNil : Lexes "" []
| LSkip s r ts : lex1 s = Some (None, r) -> String.length r < String.length s -> Lexes r ts -> Lexes s ts
| LTok s t r ts : lex1 s = Some (Some t, r) -> String.length r < String.length s -> Lexes r ts ->
                  Lexes s (t :: ts).

Lemma Lexes_lex_n s ts : Lexes s ts -> forall n, String.length s < n -> lex_n n s = Some ts.
Proof.
  induction 1 as [|s r ts E L _ IH|s t r ts E L _ IH]; intros n N; (destruct n as [|n]; [lia|]).
  - reflexivity.
  - cbn [lex_n]. rewrite E, IH by lia. destruct s; [cbn in L; lia|reflexivity].
  - cbn [lex_n]. rewrite E, IH by lia. destruct s; [cbn in L; lia|reflexivity].
Qed.
Lemma Lexes_lex s ts : Lexes s ts -> lex s = Some ts.
Proof. intro H. apply (Lexes_lex_n s ts H). lia. Qed.

Lemma Lexes_space s ts : Lexes s ts -> Lexes (String " " s) ts.
Proof.
  intro H. destruct (first_char is_space s) eqn:F.
  - inversion H as [E|s' r ts' E L R|s' t r ts' E L R]; subst.
    + discriminate F.
    + unfold lex1 in E. rewrite F in E. injection E as <-.
      apply (LSkip _ (snd (span is_space s))); [|cbn; lia|assumption].
      unfold lex1. cbn [first_char]. change (is_space " ") with true. cbv iota. cbn [span].
      change (is_space " ") with true. cbv iota. destruct (span is_space s). reflexivity.
    + unfold lex1 in E. rewrite F in E. discriminate E.
  - apply (LSkip _ s); [|cbn; lia|assumption].
    unfold lex1. cbn [first_char]. change (is_space " ") with true. cbv iota. cbn [span].
    change (is_space " ") with true. cbv iota. rewrite (span_none _ _ F). reflexivity.
Qed.

(** ** Texts that spell tokens *)

(** ... whatever follows *)
Definition loose (w : string) (ts : list token) : Prop :=
  forall r rs, Lexes r rs -> Lexes (w ++ r) (ts ++ rs).
(** ... if a break follows *)
Definition spells (w : string) (ts : list token) : Prop :=
  forall r rs, brk r = true -> Lexes r rs -> Lexes (w ++ r) (ts ++ rs).
(** ... if the = at the end does not become => or =~ *)
Definition begins_well (r : string) : bool :=
  negb (first_char (fun c => Ascii.eqb c ">" || Ascii.eqb c "~") r).
Definition pending (w : string) (ts : list token) : Prop :=
  forall r rs, begins_well r = true -> Lexes r rs -> Lexes (w ++ r) (ts ++ rs).

(** ... if what follows would be a break after a space *)
Definition settled (w : string) (ts : list token) : Prop :=
  forall r rs, brk (String " " r) = true -> Lexes r rs -> Lexes (w ++ r) (ts ++ rs).

(** line_break writes a space after this fragment. *)
Definition needs (l : string) : bool :=
  negb (existsb (String.eqb l) [" "; "("; "{"; "="; "["; "=["] || ends_in_space l).

(** The three states of the text while it is written. *)
Inductive state := Loose | Broken | Pending.
Definition holds (st : state) (w : string) (ts : list token) (l : string) : Prop :=
  match st with
  | Loose => loose w ts
  | Broken => spells w ts /\ (settled w ts \/ needs l = true)
  | Pending => pending w ts
  end.
(** In state P visit f writes tokens ts and ends in state Q. *)
Definition run (P : state) (f : visit) (ts : list token) (Q : state) : Prop :=
  forall v w0 t0, holds P w0 t0 (last v) ->
  exists w, out (f v) = (out v ++ w)%string /\ holds Q (w0 ++ w) (t0 ++ ts) (last (f v)).

Lemma run_seq P Q R f g t1 t2 : run P f t1 Q -> run Q g t2 R -> run P (f >> g) (t1 ++ t2) R.
Proof.
  intros F G v w0 t0 H. destruct (F v w0 t0 H) as (w1 & E1 & H1).
  destruct (G (f v) _ _ H1) as (w2 & E2 & H2). exists (w1 ++ w2)%string. unfold andthen. split.
  - now rewrite E2, E1, sapp_assoc.
  - now rewrite <- sapp_assoc, app_assoc.
Qed.
Lemma run_skip P : run P skip [] P.
Proof. intros v w0 t0 H. exists "". rewrite !sapp_nil_r, app_nil_r. split; [reflexivity|exact H]. Qed.
Lemma run_pre P P' Q f ts :
  (forall w t l, holds P' w t l -> holds P w t l) -> run P f ts Q -> run P' f ts Q.
Proof. intros I F v w0 t0 H. apply F, I, H. Qed.
Lemma run_post P Q Q' f ts :
  (forall w t l, holds Q w t l -> holds Q' w t l) -> run P f ts Q -> run P f ts Q'.
Proof. intros I F v w0 t0 H. destruct (F v w0 t0 H) as (w & E & K). exists w. split; [exact E|apply I, K]. Qed.
Lemma loose_broken w t l : holds Loose w t l -> holds Broken w t l.
Proof. intro H. split; [|left]; intros r rs _; apply H. Qed.
Lemma loose_pending w t l : holds Loose w t l -> holds Pending w t l.
Proof. intros H r rs _. apply H. Qed.
Lemma run_loose Q f ts : run Pending f ts Q -> run Loose f ts Q.
Proof. apply run_pre. exact loose_pending. Qed.
Lemma run_broken P f ts : run P f ts Loose -> run P f ts Broken.
Proof. apply run_post. exact loose_broken. Qed.
Lemma run_tokens P Q f ts ts' : ts = ts' -> run P f ts Q -> run P f ts' Q.
Proof. now intros ->. Qed.

Lemma run_push P Q s ts :
  (forall w0 t0 l, holds P w0 t0 l -> holds Q (w0 ++ s) (t0 ++ ts) s) -> run P (push s) ts Q.
Proof. intros H v w0 t0 K. exists s. split; [reflexivity|]. cbn [last push]. eapply H, K. Qed.

Lemma begins_app_well s r : s <> "" -> begins_well s = true -> begins_well (s ++ r) = true.
Proof. destruct s; [contradiction|trivial]. Qed.

(** A word, number or string. *)
Lemma run_token t s :
  reads t s -> s <> "" -> needs s = true -> begins_well s = true -> run Pending (push s) [Tok t s] Broken.
Proof.
  intros R N E B. apply run_push. intros w0 t0 l H. split; [|right; exact E].
  intros r rs K L. rewrite sapp_assoc, <- app_assoc. apply H; [now apply begins_app_well|].
  apply LTok with (r := r); [now apply R| |exact L].
  rewrite sapp_length. destruct s; [contradiction|cbn; lia].
Qed.
(** Punctuation that may follow anything. *)
Lemma run_close s ts : loose s ts -> (forall r, brk (s ++ r) = true) -> run Broken (push s) ts Loose.
Proof.
  intros L B. apply run_push. intros w0 t0 l (H & _). intros r rs K.
  rewrite sapp_assoc, <- app_assoc. apply H; [apply B|]. now apply L.
Qed.
(** Punctuation where an expression may begin. *)
Lemma run_open s ts : loose s ts -> s <> "" -> begins_well s = true -> run Pending (push s) ts Loose.
Proof.
  intros L N B. apply run_push. intros w0 t0 l H. intros r rs K.
  rewrite sapp_assoc, <- app_assoc. apply H; [now apply begins_app_well|]. now apply L.
Qed.
Lemma run_equals : run Broken (push "=") [op "="] Pending.
Proof.
  apply run_push. intros w0 t0 l (H & _). intros r rs B K.
  rewrite sapp_assoc, <- app_assoc. apply H; [reflexivity|].
  apply LTok with (r := r); [|cbn; lia|exact K].
  destruct r as [|c r]; [reflexivity|]. unfold begins_well in B. cbn [first_char] in B.
  apply negb_true_iff, orb_false_iff in B as (B1 & B2).
  cbn [String.append]. rewrite later_step; [|reflexivity|apply comment_free_char; reflexivity|reflexivity].
  cbn [later_rules first_rule]. rewrite alt_or_none, alt_and_none, number_none, quoted_ident_none, symbol_ident_none by reflexivity.
  unfold operators. cbn [operator_in strip_prefix].
  cbv -[Ascii.eqb String.append].
  rewrite (Ascii.eqb_sym ">" c), (Ascii.eqb_sym "~" c), B1, B2. reflexivity.
Qed.

(** Literal texts. *)
Lemma loose_one s t : (forall r, lex1 (s ++ r) = Some (Some t, r)) -> s <> "" -> loose s [t].
Proof.
  intros H N r rs L. apply LTok with (r := r); [apply H| |exact L].
  rewrite sapp_length. destruct s; [contradiction|cbn; lia].
Qed.
Lemma loose_spaced s t :
  (forall r, lex1 (s ++ String " " r) = Some (Some t, String " " r)) -> s <> "" -> loose (s ++ " ") [t].
Proof.
  intros H N r rs L. rewrite sapp_assoc. cbn [String.append].
  apply LTok with (r := String " " r); [apply H| |now apply Lexes_space].
  rewrite sapp_length. destruct s; [contradiction|cbn; lia].
Qed.
Lemma loose_app a b ta tb : loose a ta -> loose b tb -> loose (a ++ b) (ta ++ tb).
Proof. intros A B r rs L. rewrite sapp_assoc, <- app_assoc. now apply A, B. Qed.
Lemma loose_space : loose " " [].
Proof. intros r rs L. now apply Lexes_space. Qed.
Lemma loose_nil : loose "" [].
Proof. intros r rs L. exact L. Qed.

Ltac lit := apply loose_one; [reflexivity|discriminate].
Ltac word s := apply (loose_spaced s); [reflexivity|discriminate].

Lemma brk_space r : brk r = true -> brk (String " " r) = true.
Proof.
  intro B. pose proof (brk_by r B) as Y. unfold brk. change (is_space " ") with true. cbv iota.
  unfold by_follows in *. cbn [span]. change (is_space " ") with true. cbv iota.
  destruct (span is_space r) as (sp, r') eqn:E. destruct (span is_word r') as (w, r2) eqn:W.
  change (String.eqb (String " " sp) "") with false. cbn [negb andb].
  destruct (String.eqb_spec sp "") as [->|N].
  - apply span_spec in E as (-> & _ & _). cbn [String.append] in *.
    assert (first_char is_word r' = false) as F by brk_not.
    rewrite (span_none _ _ F) in W. injection W as <- <-. reflexivity.
  - cbn [negb andb] in Y. destruct (String.eqb (upper w) "BY"); [discriminate|reflexivity].
Qed.

(** ** Breaking the line *)

Lemma line_break_needs v : line_break v = if needs (last v) then push " " v else v.
Proof. unfold line_break, needs. destruct (_ || _); reflexivity. Qed.

Lemma run_break_pending : run Pending break_if_moved [] Pending.
Proof.
  intros v w0 t0 H. unfold break_if_moved. destruct (String.eqb (out v) "").
  - apply (run_skip Pending v w0 t0 H).
  - rewrite line_break_needs. destruct (needs (last v)).
    + exists " ". split; [reflexivity|]. rewrite app_nil_r. intros r rs B L. rewrite sapp_assoc.
      apply H; [reflexivity|]. now apply Lexes_space.
    + apply (run_skip Pending v w0 t0 H).
Qed.
Lemma run_line_break_loose : run Loose line_break [] Loose.
Proof.
  intros v w0 t0 H. rewrite line_break_needs. destruct (needs (last v)).
  - exists " ". split; [reflexivity|]. rewrite app_nil_r. intros r rs L. rewrite sapp_assoc.
    apply H. now apply Lexes_space.
  - apply (run_skip Loose v w0 t0 H).
Qed.

(** A keyword after a line break. *)
Lemma run_keyword s ts :
  loose s ts -> (forall r, brk (String " " (s ++ r)) = true) -> run Broken (line_break >> push s) ts Loose.
Proof.
  intros L B v w0 t0 (H & D). unfold andthen. rewrite line_break_needs.
  destruct (needs (last v)) eqn:N.
  - exists (String " " s). cbn [out push]. split; [now rewrite sapp_assoc|].
    intros r rs K. rewrite sapp_assoc, <- app_assoc. cbn [String.append]. apply H; [apply B|].
    apply Lexes_space. now apply L.
  - destruct D as [D|D]; [|congruence]. exists s. split; [reflexivity|].
    intros r rs K. rewrite sapp_assoc, <- app_assoc. apply D; [apply B|]. now apply L.
Qed.

(** An operator with spaces around, perhaps after a line break. *)
Definition spaced (o : string) (t : token) : Prop :=
  (forall r, lex1 (o ++ String " " r) = Some (Some t, String " " r)) /\ o <> "" /\
  (forall r, brk (String " " (o ++ String " " r)) = true).
Lemma spaced_loose o t : spaced o t -> loose (String " " (o ++ " ")) [t].
Proof.
  intros (H & N & _). change (String " " (o ++ " ")) with (" " ++ (o ++ " "))%string.
  apply (loose_app " " (o ++ " ") [] [t] loose_space). now apply loose_spaced.
Qed.
Lemma spaced_brk o t r : spaced o t -> brk (String " " (o ++ " ") ++ r) = true.
Proof. intros (_ & _ & B). cbn [String.append]. rewrite sapp_assoc. apply B. Qed.

Lemma run_pushes P Q a b c ts : run P (push (a ++ b ++ c)) ts Q ->
  (forall w t l l', holds Q w t l -> holds Q w t l') ->
  run P (push a >> push b >> push c) ts Q.
Proof.
  intros H I v w0 t0 K. destruct (H v w0 t0 K) as (w & E & L). exists w. unfold andthen.
  cbn [out push] in *. split; [now rewrite !sapp_assoc|]. eapply I, L.
Qed.
Lemma loose_any w t l l' : holds Loose w t l -> holds Loose w t l'.
Proof. exact (fun H => H). Qed.

Lemma run_spaced o t : spaced o t -> run Broken (push " " >> push o >> push " ") [t] Loose.
Proof.
  intro S. apply run_pushes; [|exact loose_any].
  apply run_close; [now apply spaced_loose|]. intro r. now apply (spaced_brk o t).
Qed.
Lemma run_break_spaced o t :
  spaced o t -> run Broken (line_break >> (push " " >> push o >> push " ")) [t] Loose.
Proof.
  intro S. intros v w0 t0 H.
  assert (R : run Broken (line_break >> push (String " " (o ++ " "))) [t] Loose).
  { apply run_keyword; [now apply spaced_loose|]. intro r. apply brk_space. now apply (spaced_brk o t). }
  destruct (R v w0 t0 H) as (w & E & L). exists w. split; [|exact L].
  rewrite <- E. unfold andthen. cbn [out push]. now rewrite !sapp_assoc.
Qed.

(** ** Sequences *)

Lemma run_each {A} P (f : A -> visit) (t : A -> list token) l :
  (forall a, In a l -> run P (f a) (t a) P) -> run P (each f l) (flat_map t l) P.
Proof.
  induction l as [|a l IH]; intro H; [apply run_skip|]. cbn [each fold_right flat_map].
  apply run_seq with (Q := P); [apply H; now left|]. apply IH. intros; apply H; now right.
Qed.
Lemma run_maybe {A} P (f : A -> visit) (t : A -> list token) o :
  (forall a, o = Some a -> run P (f a) (t a) P) -> run P (maybe f o) (tmaybe t o) P.
Proof. destruct o as [a|]; intro H; [now apply H|apply run_skip]. Qed.

Lemma run_comma : run Broken (push "," >> push " ") [op ","] Loose.
Proof.
  apply (run_seq Broken Loose Loose (push ",") (push " ") [op ","] []).
  - apply run_close; [lit|reflexivity].
  - apply run_push. intros w0 t0 l H. rewrite app_nil_r. intros r rs L. rewrite sapp_assoc.
    apply H. now apply Lexes_space.
Qed.

Lemma andthen_assoc (f g h : visit) v : ((f >> g) >> h) v = (f >> (g >> h)) v.
Proof. reflexivity. Qed.
Lemma run_assoc P Q f g h ts : run P (f >> (g >> h)) ts Q -> run P ((f >> g) >> h) ts Q.
Proof. exact (fun H => H). Qed.

Lemma run_separated {A} (f : A -> visit) (t : A -> list token) sep l :
  run Loose sep [] Loose -> l <> [] ->
  (forall a, In a l -> run Pending (f a) (t a) Broken) ->
  run Pending (separated f sep l) (tsep t l) Broken.
Proof.
  intros S. induction l as [|a l IH]; intros N H; [contradiction|].
  destruct l as [|b l].
  - cbn [separated tsep]. apply H. now left.
  - change (separated f sep (a :: b :: l)) with
      (f a >> push "," >> push " " >> sep >> separated f sep (b :: l)).
    change (tsep t (a :: b :: l)) with (t a ++ op "," :: tsep t (b :: l)).
    change (run Pending (f a >> ((push "," >> push " ") >> (sep >> separated f sep (b :: l))))
                (t a ++ ([op ","] ++ ([] ++ tsep t (b :: l)))) Broken).
    apply run_seq with (Q := Broken); [apply H; now left|].
    apply run_seq with (Q := Loose); [apply run_comma|].
    apply run_seq with (Q := Loose); [exact S|].
    apply run_loose, IH; [discriminate|]. intros; apply H; now right.
Qed.

Lemma run_call {A} (f : A -> visit) (t : A -> list token) l :
  (forall a, In a l -> run Pending (f a) (t a) Broken) ->
  run Broken (fcall f l) (tcall t l) Loose.
Proof.
  intro H. unfold fcall, tcall. destruct l as [|a l].
  - cbn [tsep app]. apply run_close; [|reflexivity].
    apply (loose_app "(" ")" [op "("] [op ")"]); lit.
  - change (run Broken (push "(" >> (separated f skip (a :: l) >> push ")"))
                ([op "("] ++ (tsep t (a :: l) ++ [op ")"])) Loose).
    apply run_seq with (Q := Loose); [apply run_close; [lit|reflexivity]|].
    apply run_seq with (Q := Broken).
    + apply run_loose, run_separated; [apply run_skip|discriminate|exact H].
    + apply run_close; [lit|reflexivity].
Qed.

(** ** How tokens begin and end *)

Definition ender (c : ascii) : bool :=
  is_word c || Ascii.eqb c bquote || Ascii.eqb c squote || Ascii.eqb c dquote.
Definition ends_well (s : string) : Prop := exists a c, s = (a ++ String c "")%string /\ ender c = true.

Lemma str_list_app a b : str_list (a ++ b) = str_list a ++ str_list b.
Proof. induction a as [|c a IH]; [reflexivity|]. cbn. now f_equal. Qed.
Lemma last_char a c : rev (str_list (a ++ String c "")) = c :: rev (str_list a).
Proof. rewrite str_list_app, rev_app_distr. reflexivity. Qed.

Lemma ends_well_needs s : ends_well s -> needs s = true.
Proof.
  intros (a & c & -> & E). unfold needs. apply negb_true_iff, orb_false_iff. split.
  - destruct (existsb _ _) eqn:X; [|reflexivity]. exfalso.
    apply existsb_exists in X as (l & I & Q). apply String.eqb_eq in Q.
    assert (L : rev (str_list l) = c :: rev (str_list a)) by (rewrite <- Q; apply last_char).
    cbn in I. repeat (destruct I as [<-|I]; [cbn in L; injection L as <- _; discriminate E|]). contradiction.
  - unfold ends_in_space. rewrite last_char. revert E. clear. intro E.
    assert (Z : forallb (fun c => negb (ender c) || negb (Ascii.eqb c " ")) (map ascii_of_nat (seq 0 256)) = true)
      by (vm_compute; reflexivity).
    pose proof (char_fact _ Z c) as Q. cbv beta in Q. rewrite E in Q. now destruct (Ascii.eqb c " ").
Qed.

Lemma ends_tail x y : ends_well y -> ends_well (x ++ y).
Proof. intros (a & c & -> & E). exists (x ++ a)%string, c. split; [now rewrite sapp_assoc|exact E]. Qed.
Lemma ends_all s p : s <> "" -> sall p s = true ->
  forallb (fun c => negb (p c) || ender c) (map ascii_of_nat (seq 0 256)) = true -> ends_well s.
Proof.
  intros N A Z. induction s as [|c s IH]; [contradiction|].
  cbn [sall] in A. apply andb_true_iff in A as (C & A).
  destruct (String.eqb_spec s "") as [->|NS].
  - exists "", c. split; [reflexivity|]. pose proof (char_fact _ Z c) as Q. cbv beta in Q. now rewrite C in Q.
  - change (String c s) with (String c "" ++ s)%string. apply ends_tail. now apply IH.
Qed.
Lemma number_text_ends s : number_text s -> ends_well s.
Proof.
  intros [(h & -> & N & H)|(m & e & -> & M & E)].
  - apply ends_tail. now apply (ends_all h is_hex).
  - destruct E as [->|(c & sg & d & -> & _ & _ & N & D)].
    + rewrite sapp_nil_r. destruct M as [(N & D)|(d1 & d2 & -> & _ & N & D)].
      * now apply (ends_all m is_digit).
      * change (String "." d2) with ("." ++ d2)%string. do 2 apply ends_tail. now apply (ends_all d2 is_digit).
    + apply ends_tail. change (String c (sg ++ d)) with (String c "" ++ (sg ++ d))%string.
      do 2 apply ends_tail. now apply (ends_all d is_digit).
Qed.
Lemma number_ends s v r : number s = Some (v, r) -> ends_well v.
Proof.
  unfold number. destruct s as [|c s]; [discriminate|]. destruct (Ascii.eqb c "-").
  - destruct (unsigned_number s) as [(n, q)|] eqn:U; [|discriminate]. intros [= <- <-].
    change (String c n) with (String c "" ++ n)%string. apply ends_tail, number_text_ends.
    now apply unsigned_spec in U.
  - intro U. apply number_text_ends. now apply unsigned_spec in U.
Qed.
Lemma quoted_ident_ends s v r : quoted_ident s = Some (v, r) -> ends_well v.
Proof.
  intro Q. apply quoted_ident_spec in Q as (a & -> & _).
  exists (String bquote a), bquote. split; reflexivity.
Qed.
Lemma string_body_ends q : forall n s a b, String.length s <= n -> string_body q s = Some (a, b) ->
  exists x, a = (x ++ String q "")%string.
Proof.
  induction n as [|n IH]; intros s a b L H.
  { destruct s; [discriminate|cbn in L; lia]. }
  destruct s as [|c s]; [discriminate|]. cbn [string_body] in H. cbn in L.
  destruct (Ascii.eqb_spec c q) as [->|Q].
  - injection H as <- <-. now exists "".
  - destruct (Ascii.eqb c bslash) eqn:B.
    + destruct s as [|d s]; [discriminate|]. destruct (string_body q s) as [(x, y)|] eqn:E; [|discriminate].
      injection H as <- <-. destruct (IH s x y) as (z & ->); [cbn in L; lia|assumption|].
      exists (String c (String d z)). reflexivity.
    + destruct (string_body q s) as [(x, y)|] eqn:E; [|discriminate].
      injection H as <- <-. destruct (IH s x y) as (z & ->); [lia|assumption|]. exists (String c z). reflexivity.
Qed.
Lemma until_ends pat s a b : until pat s = Some (a, b) -> exists x, a = (x ++ pat)%string.
Proof.
  revert a b. induction s as [|c s IH]; intros a b H; cbn in H.
  - destruct (strip_prefix pat ""); [|discriminate]. injection H as <- <-. now exists "".
  - destruct (strip_prefix pat (String c s)).
    + injection H as <- <-. now exists "".
    + destruct (until pat s) as [(x, y)|]; [|discriminate]. injection H as <- <-.
      destruct (IH x y eq_refl) as (z & ->). now exists (String c z).
Qed.

Definition wordy (t : ttype) : bool :=
  match t with
  | T_Ident | T_SymbolIdent | T_Number | T_BOOL | T_MultilineString | T_String => true
  | _ => false
  end.
Lemma lex1_ends s t r : lex1 s = Some (Some t, r) -> wordy (tt t) = true -> ends_well (tv t).
Proof.
  unfold lex1. destruct (first_char is_space s); [discriminate|].
  set (cm := first_rule _ s).
  destruct cm as [(t', r')|] eqn:E.
  { intros [= <- <-]. subst cm. cbn [first_rule] in E.
    destruct (mline_comment s) as [(v, q)|]; [injection E as <- <-; discriminate|].
    destruct (line_comment "--" s) as [(v, q)|]; [injection E as <- <-; discriminate|].
    destruct (line_comment "//" s) as [(v, q)|]; [injection E as <- <-; discriminate|discriminate]. }
  clear cm E. destruct (first_char is_alpha s) eqn:A.
  - destruct (word_token s) as (t', r') eqn:W. intros [= <- <-] WT.
    destruct s as [|c s]; [discriminate|]. cbn [first_char] in A. unfold word_token in W.
    destruct (span is_word (String c s)) as (w, q) eqn:SP.
    assert (IW : is_word c = true) by char_imp A.
    destruct (span_first is_word c s IW) as (w' & F). rewrite SP in F. cbn [fst] in F. subst w.
    apply span_spec in SP as (_ & SW & _).
    assert (EW : ends_well (String c w')) by (apply (ends_all _ is_word); [discriminate|exact SW|reflexivity]).
    destruct (keyword_of (String c w')) as [t|].
    + injection W as <- <-. exact EW.
    + destruct (by_follows q) as [(b, r2)|].
      * destruct (String.eqb (upper (String c w')) "GROUP"); [injection W as <- <-; discriminate WT|].
        destruct (String.eqb (upper (String c w')) "ORDER"); [injection W as <- <-; discriminate WT|].
        injection W as <- <-. exact EW.
      * injection W as <- <-. exact EW.
  - cbn [first_rule].
    destruct (alt_or s) as [(v, q)|]; [intros [= <- <-]; discriminate|].
    destruct (alt_and s) as [(v, q)|]; [intros [= <- <-]; discriminate|].
    destruct (number s) as [(v, q)|] eqn:E; [intros [= <- <-] _; now apply number_ends in E|]. clear E.
    destruct (quoted_ident s) as [(v, q)|] eqn:E; [intros [= <- <-] _; now apply quoted_ident_ends in E|]. clear E.
    destruct (symbol_ident s) as [(v, q)|] eqn:E.
    { intros [= <- <-] _. unfold symbol_ident in E. destruct s as [|c s]; [discriminate|].
      destruct (Ascii.eqb c "-"); [|discriminate]. destruct s as [|a s]; [discriminate|].
      destruct (is_alpha a) eqn:AA.
      - destruct (span is_word (String a s)) as (w, x) eqn:SP. injection E as <- <-.
        assert (IW : is_word a = true) by char_imp AA.
        destruct (span_first is_word a s IW) as (w' & F). rewrite SP in F. cbn [fst] in F. subst w.
        apply span_spec in SP as (_ & SW & _).
        change (tv (Tok T_SymbolIdent (String c (String a w')))) with (String c "" ++ String a w')%string.
        apply ends_tail. apply (ends_all _ is_word); [discriminate|exact SW|reflexivity].
      - destruct (quoted_ident (String a s)) as [(w, x)|] eqn:Q; [|discriminate]. injection E as <- <-.
        change (tv (Tok T_SymbolIdent (String c w))) with (String c "" ++ w)%string.
        apply ends_tail. now apply quoted_ident_ends in Q. }
    clear E. destruct (operator_in operators s) as [(v, q)|]; [intros [= <- <-]; discriminate|].
    destruct (multiline_string s) as [(v, q)|] eqn:E.
    { intros [= <- <-] _. unfold multiline_string in E. destruct (strip_prefix triple s) as [x|]; [|discriminate].
      destruct (until triple x) as [(a, b)|] eqn:U; [|discriminate]. injection E as <- <-.
      apply until_ends in U as (y & ->). cbn [tv]. change (ends_well (triple ++ (y ++ triple))%string).
      do 2 apply ends_tail. exists (String squote (String squote "")), squote.
      split; reflexivity. }
    clear E. destruct (quoted_string s) as [(v, q)|] eqn:E; [|discriminate].
    intros [= <- <-] _. unfold quoted_string in E. destruct s as [|c s]; [discriminate|].
    destruct (Ascii.eqb c squote || Ascii.eqb c dquote) eqn:C; [|discriminate].
    destruct (string_body c s) as [(a, b)|] eqn:Y; [|discriminate]. injection E as <- <-.
    destruct (string_body_ends c (String.length s) s a b (le_n _) Y) as (x & ->).
    exists (String c x), c. split; [reflexivity|]. unfold ender.
    apply orb_true_iff in C as [C|C]; rewrite C; rewrite ?orb_true_r; reflexivity.
Qed.

Lemma reads_self t s : reads t s -> lex1 s = Some (Some (Tok t s), "").
Proof. intro R. specialize (R "" eq_refl). now rewrite sapp_nil_r in R. Qed.
Lemma reads_nonempty t s : reads t s -> s <> "".
Proof. intros R ->. apply reads_self in R. discriminate R. Qed.
Lemma lex1_gt x : exists v r, lex1 (String ">" x) = Some (Some (Tok T_Operators v), r).
Proof.
  destruct x as [|c x]; [now exists ">", ""|].
  rewrite later_step; [|reflexivity|apply comment_free_char; reflexivity|reflexivity].
  cbn [later_rules first_rule].
  rewrite alt_or_none, alt_and_none, number_none, quoted_ident_none, symbol_ident_none by reflexivity.
  destruct (operator_in operators (String ">" (String c x))) as [(v, q)|] eqn:E; [eauto|]. exfalso. revert E.
  unfold operators. cbn [operator_in strip_prefix].
  change (Ascii.eqb "<" ">") with false. change (Ascii.eqb ">" ">") with true. cbv iota.
  cbv -[Ascii.eqb]. destruct (Ascii.eqb "=" c); discriminate.
Qed.
Lemma reads_begins t s : reads t s -> wordy t = true -> begins_well s = true.
Proof.
  intros R W. apply reads_self in R. unfold begins_well. apply negb_true_iff.
  destruct s as [|c s]; [reflexivity|]. cbn [first_char]. apply orb_false_iff. split.
  - destruct (Ascii.eqb_spec c ">") as [->|]; [|reflexivity]. exfalso.
    destruct (lex1_gt s) as (v & r & E). rewrite E in R. injection R as <- _ _. discriminate W.
  - destruct (Ascii.eqb_spec c "~") as [->|]; [|reflexivity]. discriminate R.
Qed.
Lemma run_word t s : reads t s -> wordy t = true -> run Pending (push s) [Tok t s] Broken.
Proof.
  intros R W. apply run_token; [exact R|now apply (reads_nonempty t)| |now apply (reads_begins t)].
  apply ends_well_needs. pose proof (reads_self t s R) as L. now apply lex1_ends in L.
Qed.

(** ** Operators *)

Lemma keyword_alpha w t : keyword_of w = Some t -> w <> "" /\ sall is_alpha w = true /\ upper w <> "BY".
Proof.
  unfold keyword_of. destruct (find _ keywords) as [k|] eqn:F; [|discriminate]. intros _.
  apply find_some in F as (I & Q). apply String.eqb_eq in Q.
  assert (U : w <> "" /\ sall is_alpha (upper w) = true /\ upper w <> "BY").
  { rewrite <- Q. cbn in I.
    split; [intros ->; cbn in Q; repeat (destruct I as [<-|I]; [discriminate Q|]); contradiction|].
    repeat (destruct I as [<-|I]; [split; [reflexivity|discriminate]|]). contradiction. }
  destruct U as (N & U & B). split; [exact N|]. split; [|exact B].
  clear N B Q I. induction w as [|c w IH]; [reflexivity|]. cbn [upper sall] in *.
  apply andb_true_iff in U as (C & U). rewrite IH by exact U. rewrite andb_true_r.
  assert (Z : forallb (fun c => negb (is_alpha (upper_char c)) || is_alpha c) (map ascii_of_nat (seq 0 256)) = true)
    by (vm_compute; reflexivity).
  pose proof (char_fact _ Z c) as X. cbv beta in X. now rewrite C in X.
Qed.
Lemma sall_imp p q s :
  forallb (fun c => negb (p c) || q c) (map ascii_of_nat (seq 0 256)) = true -> sall p s = true -> sall q s = true.
Proof.
  intro Z. induction s as [|c s IH]; [reflexivity|]. cbn [sall]. intro H. apply andb_true_iff in H as (C & H).
  rewrite IH by exact H. pose proof (char_fact _ Z c) as X. cbv beta in X. rewrite C in X. cbn in X. now rewrite X.
Qed.
Lemma brk_spaced_word c w r : sall is_word (String c w) = true -> is_alpha c = true -> upper (String c w) <> "BY" ->
  brk (String " " (String c w ++ String " " r)) = true.
Proof.
  intros W A B. unfold brk. change (is_space " ") with true. cbv iota. unfold by_follows.
  cbn [span]. change (is_space " ") with true. cbv iota.
  assert (F : first_char is_space (String c w ++ String " " r) = false).
  { cbn [String.append first_char]. char_dis A. }
  rewrite (span_none _ _ F). rewrite span_app; [|exact W|reflexivity].
  destruct (String.eqb_spec (upper (String c w)) "BY"); [contradiction|]. reflexivity.
Qed.
Lemma spaced_keyword w t : keyword_of w = Some t -> spaced w (Tok t w).
Proof.
  intro K. destruct (keyword_alpha w t K) as (N & A & B). destruct w as [|c w]; [contradiction|].
  assert (W : sall is_word (String c w) = true) by (apply (sall_imp is_alpha); [reflexivity|exact A]).
  assert (AC : is_alpha c = true) by (cbn [sall] in A; now apply andb_true_iff in A).
  split; [|split; [discriminate|intro r; now apply brk_spaced_word]].
  intro r. unfold lex1.
  assert (S : first_char is_space (String c w ++ String " " r) = false).
  { cbn [String.append first_char]. char_dis AC. }
  rewrite S. cbn [String.append] in *. rewrite no_comment by (apply comment_free_char; char_dis AC).
  cbn [first_char]. rewrite AC. unfold word_token.
  change (String c (w ++ String " " r)) with (String c w ++ String " " r)%string.
  rewrite span_app; [|exact W|reflexivity]. now rewrite K.
Qed.
Lemma spaced_bars a : sall (Ascii.eqb "|") a = true -> spaced (String "|" a) (Tok T_AlternativeOR (String "|" a)).
Proof.
  intro A. split; [|split; [discriminate|reflexivity]]. intro r. cbn [String.append].
  rewrite later_step; [|reflexivity|apply comment_free_char; reflexivity|reflexivity].
  cbn [later_rules first_rule].
  assert (alt_or (String "|" (a ++ String " " r)) = Some (String "|" a, String " " r)) as ->; [|reflexivity].
  unfold alt_or. change (String "|" (a ++ String " " r)) with (String "|" a ++ String " " r)%string.
  rewrite span_app; [reflexivity| |reflexivity]. cbn [sall]. now rewrite A.
Qed.
Lemma reads_lexeme t s : reads t s -> lexeme (Tok t s).
Proof. intro R. apply reads_self in R. now apply lex1_lexeme in R. Qed.

Lemma spaced_or o : reads (tt (tor_op o)) o -> spaced o (tor_op o).
Proof.
  unfold tor_op. cbn [tt]. destruct (first_char (Ascii.eqb "|") o) eqn:F; intro R.
  - destruct o as [|c o]; [discriminate|]. cbn [first_char] in F. apply Ascii.eqb_eq in F. subst c.
    apply spaced_bars. apply reads_self in R.
    rewrite later_step in R; [|reflexivity|apply comment_free_char; reflexivity|reflexivity].
    cbn [later_rules first_rule] in R. unfold alt_or in R.
    destruct (span (Ascii.eqb "|") (String "|" o)) as (a, r) eqn:SP.
    apply span_spec in SP as (E & A & _).
    destruct (String.eqb_spec a "") as [->|N].
    + cbn [String.append] in E. subst r. change (String.eqb "" "") with true in R. cbn [first_rule] in R.
      exfalso. revert R. rewrite alt_and_none, number_none, quoted_ident_none, symbol_ident_none by reflexivity.
      discriminate.
    + injection R as -> ->. cbn [sall] in A. exact A.
  - apply reads_lexeme in R as (_ & K). cbn in K. now apply spaced_keyword.
Qed.
Lemma spaced_and o : reads (tt (tand_op o)) o -> spaced o (tand_op o).
Proof.
  unfold tand_op. cbn [tt]. destruct (String.eqb_spec o "&&") as [->|N]; intro R.
  - split; [reflexivity|split; [discriminate|reflexivity]].
  - apply reads_lexeme in R as (_ & K). cbn in K. now apply spaced_keyword.
Qed.
Lemma spaced_cmp o : In o cmp_ops -> spaced o (tcmp_op o).
Proof.
  intro I. cbn in I.
  repeat (destruct I as [<-|I]; [split; [reflexivity|split; [discriminate|reflexivity]]|]). contradiction.
Qed.
Lemma spaced_op o : In o ["*"; "/"; "+"; "-"; "="; "<="] -> spaced o (op o).
Proof.
  intro I. cbn in I.
  repeat (destruct I as [<-|I]; [split; [reflexivity|split; [discriminate|reflexivity]]|]). contradiction.
Qed.

(** ** Names *)

Definition ident_start (c : ascii) : bool := is_alpha c || Ascii.eqb c bquote.
Lemma ident_first s : reads T_Ident s -> first_char ident_start s = true.
Proof.
  intro R. apply reads_self in R. destruct s as [|c s]; [discriminate R|]. cbn [first_char].
  unfold ident_start. destruct (is_alpha c) eqn:A; [reflexivity|].
  destruct (Ascii.eqb c bquote) eqn:B; [reflexivity|]. exfalso. revert R. unfold lex1.
  destruct (first_char is_space (String c s)); [discriminate|].
  destruct (first_rule [_; _; _] (String c s)) as [(t, r)|] eqn:E.
  { intros [= -> ->]. cbn [first_rule] in E.
    destruct (mline_comment (String c s)) as [(v, q)|]; [discriminate E|].
    destruct (line_comment "--" (String c s)) as [(v, q)|]; [discriminate E|].
    destruct (line_comment "//" (String c s)) as [(v, q)|]; discriminate E. }
  cbn [first_char]. rewrite A. cbn [first_rule].
  destruct (alt_or (String c s)) as [(v, q)|]; [discriminate|].
  destruct (alt_and (String c s)) as [(v, q)|]; [discriminate|].
  destruct (number (String c s)) as [(v, q)|]; [discriminate|].
  rewrite quoted_ident_none by exact B.
  destruct (symbol_ident (String c s)) as [(v, q)|]; [discriminate|].
  destruct (operator_in operators (String c s)) as [(v, q)|]; [discriminate|].
  destruct (multiline_string (String c s)) as [(v, q)|]; [discriminate|].
  destruct (quoted_string (String c s)) as [(v, q)|]; discriminate.
Qed.
Lemma lex1_dot c x : ident_start c = true -> lex1 (String "." (String c x)) = Some (Some (op "."), String c x).
Proof.
  intro I. rewrite later_step; [|reflexivity|apply comment_free_char; reflexivity|reflexivity].
  cbn [later_rules first_rule]. rewrite alt_or_none, alt_and_none by reflexivity.
  assert (number (String "." (String c x)) = None) as ->.
  { unfold number. change (Ascii.eqb "." "-") with false. cbv iota. unfold unsigned_number.
    change (strip_prefix "0x" (String "." (String c x))) with (@None string). cbv iota.
    unfold decimal. rewrite (span_none is_digit (String "." (String c x)) eq_refl).
    change (Ascii.eqb "." ".") with true. change (String.eqb "" "") with true. cbv iota.
    assert (D : first_char is_digit (String c x) = false) by (cbn [first_char]; unfold ident_start in I; char_dis I).
    rewrite (span_none _ _ D). reflexivity. }
  rewrite quoted_ident_none, symbol_ident_none by reflexivity. reflexivity.
Qed.
Lemma dotted_cons a b l : dotted (a :: b :: l) = (a ++ "." ++ dotted (b :: l))%string.
Proof. reflexivity. Qed.
Lemma dot_brk x r : first_char ident_start x = true -> brk (String "." (x ++ r)) = true.
Proof. destruct x as [|c x]; [discriminate|]. exact (fun H => H). Qed.
Lemma dot_lexes x r ts : first_char ident_start x = true -> Lexes (x ++ r) ts ->
  Lexes (String "." (x ++ r)) (op "." :: ts).
Proof.
  intros F L. destruct x as [|c x]; [discriminate|]. cbn [first_char] in F. cbn [String.append] in *.
  apply LTok with (r := String c (x ++ r)); [now apply lex1_dot|cbn; lia|exact L].
Qed.
Lemma reads_lexes t s r rs : reads t s -> brk r = true -> Lexes r rs -> Lexes (s ++ r) (Tok t s :: rs).
Proof.
  intros R B L. apply LTok with (r := r); [now apply R| |exact L]. rewrite sapp_length.
  pose proof (reads_nonempty t s R) as N. destruct s; [contradiction|cbn; lia].
Qed.
Lemma dotted_first a l : a <> "" -> forall p, first_char p (dotted (a :: l)) = first_char p a.
Proof. intros N p. destruct l; [reflexivity|]. rewrite dotted_cons. destruct a; [contradiction|reflexivity]. Qed.
Lemma dotted_lexes l : forall t a r rs, reads t a -> all ok_ident l -> brk r = true -> Lexes r rs ->
  Lexes (dotted (a :: l) ++ r) (Tok t a :: trest l ++ rs).
Proof.
  induction l as [|b l IH]; intros t a r rs R K B L.
  - now apply reads_lexes.
  - destruct K as (Kb & K). rewrite dotted_cons, !sapp_assoc. cbn [String.append].
    pose proof (ident_first b Kb) as F. rewrite <- (dotted_first b l) in F by now apply (reads_nonempty T_Ident).
    apply reads_lexes; [exact R|now apply dot_brk|].
    cbn [trest flat_map app]. apply dot_lexes; [exact F|]. now apply IH.
Qed.
Lemma dotted_ends l : forall t a, reads t a -> wordy t = true -> all ok_ident l -> ends_well (dotted (a :: l)).
Proof.
  induction l as [|b l IH]; intros t a R W K.
  - pose proof (reads_self t a R) as L. now apply lex1_ends in L.
  - destruct K as (Kb & K). rewrite dotted_cons. do 2 apply ends_tail. now apply (IH T_Ident).
Qed.
Lemma run_dotted t a l : reads t a -> wordy t = true -> all ok_ident l ->
  run Pending (push (dotted (a :: l))) (Tok t a :: trest l) Broken.
Proof.
  intros R W K. apply run_push. intros w0 t0 la H.
  pose proof (reads_nonempty t a R) as N. split.
  - intros r rs B L. rewrite sapp_assoc, <- app_assoc. apply H.
    + pose proof (reads_begins t a R W) as Y. unfold begins_well in *.
      assert (E : forall p, first_char p (dotted (a :: l) ++ r) = first_char p a).
      { intro p. rewrite <- (dotted_first a l N p). destruct l; [destruct a; [contradiction|reflexivity]|].
        rewrite dotted_cons. destruct a; [contradiction|reflexivity]. }
      now rewrite E.
    + now apply dotted_lexes.
  - right. apply ends_well_needs. now apply (dotted_ends l t).
Qed.
Lemma run_term s : ok_ident s -> run Broken (push "." >> push s) [op "."; tident s] Broken.
Proof.
  intros K v w0 t0 (H & _). exists (String "." s). unfold andthen. cbn [out last push].
  split; [now rewrite sapp_assoc|]. split.
  - intros r rs B L. rewrite sapp_assoc, <- app_assoc. cbn [String.append app].
    pose proof (ident_first s K) as F. apply H; [now apply dot_brk|].
    apply dot_lexes; [exact F|]. now apply reads_lexes.
  - right. apply ends_well_needs. pose proof (reads_self _ s K) as L. now apply lex1_ends in L.
Qed.
