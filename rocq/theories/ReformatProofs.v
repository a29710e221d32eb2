(** What the formatter writes with line breaks lexes into the tokens of the
    tree, after the blanks at the ends of lines are trimmed.  FormatProofs.v
    with gaps of any width instead of single spaces. *)

From Coq Require Import ZArith List String Ascii Bool Lia.
From Verif Require Import Base F64 Text Lexer Numeral Grammar Parser Format Spelling.
From Verif Require Import LexProofs NumeralProofs FloatText ParseProofs FormatProofs Reformat.
Import ListNotations.
Open Scope nat_scope.
Open Scope string_scope.
Open Scope list_scope.

(** ** Trimming, from left to right *)

(** Only blanks follow on this line. *)
Fixpoint eol (s : string) : bool :=
  match s with "" => true | String c r => if Ascii.eqb c " " then eol r else Ascii.eqb c nl end.
Fixpoint trim (s : string) : string :=
  match s with
  | "" => ""
  | String c r => if Ascii.eqb c " " && eol r then trim r else String c (trim r)
  end.

Lemma split_lines_cons s : exists l ls, split_lines s = l :: ls.
Proof.
  destruct s as [|c s]; [now exists "", []|]. cbn. destruct (Ascii.eqb c nl); [eauto|].
  destruct (split_lines s); eauto.
Qed.
Lemma concat_cons sep a b l : String.concat sep (a :: b :: l) = (a ++ sep ++ String.concat sep (b :: l))%string.
Proof. reflexivity. Qed.
Lemma split_first s : exists l ls, split_lines s = l :: ls /\
  (eol s = match trim_right l with "" => true | _ => false end).
Proof.
  induction s as [|c s (l & ls & E & H)]; [now exists "", []|]. cbn [split_lines eol].
  destruct (Ascii.eqb_spec c " ") as [->|N].
  - rewrite E. change (Ascii.eqb " " nl) with false. cbv iota. exists (String " " l), ls. split; [reflexivity|].
    rewrite H. cbn [trim_right]. destruct (trim_right l); reflexivity.
  - destruct (Ascii.eqb_spec c nl) as [->|M].
    + exists "", (split_lines s). now split.
    + rewrite E. exists (String c l), ls. split; [reflexivity|]. cbn [trim_right].
      destruct (trim_right l); [|reflexivity]. destruct (Ascii.eqb_spec c " "); [contradiction|reflexivity].
Qed.
Lemma trim_lines_trim s : trim_lines s = trim s.
Proof.
  induction s as [|c s IH]; [reflexivity|]. unfold trim_lines in *. cbn [split_lines trim].
  destruct (split_first s) as (l & ls & E & H). rewrite E in IH.
  destruct (Ascii.eqb_spec c nl) as [->|N].
  - change (Ascii.eqb nl " ") with false. cbn [andb]. rewrite E, <- IH. cbn [map trim_right].
    rewrite concat_cons. reflexivity.
  - rewrite E, H, <- IH. cbn [map trim_right]. destruct (Ascii.eqb_spec c " ") as [->|M]; cbn [andb].
    + destruct (trim_right l) as [|d t].
      * reflexivity.
      * destruct (map trim_right ls); reflexivity.
    + destruct (trim_right l) as [|d t]; destruct (map trim_right ls); reflexivity.
Qed.

(** A text whose inner lines, and last line, do not end in a blank. *)
Fixpoint solid (s : string) : bool :=
  match s with "" => false | String c r => if Ascii.eqb c " " then solid r else negb (Ascii.eqb c nl) end.
Fixpoint firm (s : string) : bool :=
  match s with "" => true | String c r => (negb (Ascii.eqb c " ") || solid r) && firm r end.
Lemma solid_eol s r : solid s = true -> eol (s ++ r) = false.
Proof.
  induction s as [|c s IH]; [discriminate|]. cbn [solid String.append eol].
  destruct (Ascii.eqb c " "); [exact IH|]. now destruct (Ascii.eqb c nl).
Qed.
Lemma firm_trim s r : firm s = true -> trim (s ++ r) = (s ++ trim r)%string.
Proof.
  induction s as [|c s IH]; [reflexivity|]. cbn [firm String.append trim]. intro H.
  apply andb_true_iff in H as (H & F). rewrite IH by exact F.
  destruct (Ascii.eqb c " "); [|reflexivity]. cbn [negb orb] in H. now rewrite solid_eol.
Qed.
Lemma solid_app a b : solid a = true -> solid (a ++ b) = true.
Proof.
  induction a as [|c a IH]; [discriminate|]. cbn [solid String.append]. destruct (Ascii.eqb c " "); auto.
Qed.
Lemma firm_app a b : firm a = true -> firm b = true -> firm (a ++ b) = true.
Proof.
  intros A B. induction a as [|c a IH]; [exact B|]. cbn [firm String.append] in *.
  apply andb_true_iff in A as (A & F). rewrite IH by exact F. rewrite andb_true_r.
  destruct (Ascii.eqb c " "); [|reflexivity]. cbn [negb orb] in *. now apply solid_app.
Qed.

(** ** Gaps *)

Definition is_gap (c : ascii) : bool := Ascii.eqb c " " || Ascii.eqb c nl.
Definition gap (g : string) : Prop := sall is_gap g = true /\ g <> "".
(** Where a line ends or a gap begins. *)
Definition edge (y : string) : bool := match y with "" => true | String c _ => is_gap c end.

Lemma trim_edge r : edge (trim (String " " r)) = true.
Proof.
  induction r as [|c r IH]; [reflexivity|]. cbn [trim] in *. change (Ascii.eqb " " " ") with true in *. cbn [andb] in *.
  cbn [eol]. destruct (Ascii.eqb_spec c " ") as [->|N].
  - cbn [andb]. destruct (eol r); [exact IH|reflexivity].
  - cbn [andb]. destruct (Ascii.eqb_spec c nl) as [->|M]; reflexivity.
Qed.
Lemma edge_cases y : edge y = true -> y = "" \/ (exists z, y = String " " z) \/ (exists z, y = String nl z).
Proof.
  destruct y as [|c y]; [auto|]. cbn [edge]. unfold is_gap. intro H. apply orb_true_iff in H as [H|H];
    apply Ascii.eqb_eq in H; subst c; eauto.
Qed.
Lemma gap_space c : is_gap c = true -> is_space c = true.
Proof. unfold is_gap. intro H. apply orb_true_iff in H as [H|H]; apply Ascii.eqb_eq in H; now subst. Qed.

Lemma Lexes_gap c s ts : is_gap c = true -> Lexes s ts -> Lexes (String c s) ts.
Proof.
  intros G H. apply gap_space in G. destruct (first_char is_space s) eqn:F.
  - inversion H as [E|s' r ts' E L R|s' t r ts' E L R]; subst.
    + discriminate F.
    + unfold lex1 in E. rewrite F in E. injection E as <-.
      apply (LSkip _ (snd (span is_space s))); [|cbn; lia|assumption].
      unfold lex1. cbn [first_char]. rewrite G. cbn [span]. rewrite G. now destruct (span is_space s).
    + unfold lex1 in E. rewrite F in E. discriminate E.
  - apply (LSkip _ s); [|cbn; lia|assumption].
    unfold lex1. cbn [first_char]. rewrite G. cbn [span]. rewrite G. now rewrite (span_none _ _ F).
Qed.
Lemma Lexes_gaps g s ts : sall is_gap g = true -> Lexes s ts -> Lexes (g ++ s) ts.
Proof.
  induction g as [|c g IH]; [auto|]. cbn [sall String.append]. intros H L. apply andb_true_iff in H as (C & H).
  apply Lexes_gap; auto.
Qed.
(** Trimming leaves a smaller gap. *)
Lemma trim_gap g r : sall is_gap g = true ->
  exists g', trim (g ++ r) = (g' ++ trim r)%string /\ sall is_gap g' = true /\
             (g <> "" -> edge (trim (g ++ r)) = true).
Proof.
  induction g as [|c g IH]; intro H; [exists ""; repeat split; contradiction|].
  cbn [sall] in H. apply andb_true_iff in H as (C & H). destruct (IH H) as (g' & E & G & D).
  cbn [String.append]. destruct (Ascii.eqb_spec c " ") as [->|N].
  - pose proof (trim_edge (g ++ r)) as TE. cbn [trim] in *. change (Ascii.eqb " " " ") with true in *.
    cbn [andb] in *. destruct (eol (g ++ r)).
    + exists g'. rewrite E in *. auto.
    + exists (String " " g'). rewrite E. cbn [sall String.append]. rewrite G. auto.
  - assert (c = nl) as -> by (unfold is_gap in C; destruct (Ascii.eqb_spec c " "); [contradiction|];
      cbn [orb] in C; now apply Ascii.eqb_eq in C).
    cbn [trim]. change (Ascii.eqb nl " ") with false. cbn [andb]. exists (String nl g'). rewrite E.
    cbn [sall String.append edge]. rewrite G. auto.
Qed.
(** ... and all of it before a word. *)
Lemma trim_gap_word g x r : sall is_gap g = true -> first_char (fun c => negb (is_gap c)) x = true ->
  exists g', trim (g ++ x ++ r) = (g' ++ trim (x ++ r))%string /\ sall is_gap g' = true /\ (g <> "" -> g' <> "").
Proof.
  intros G X. induction g as [|c g IH]; [exists ""; repeat split; contradiction|].
  cbn [sall] in G. apply andb_true_iff in G as (C & G). destruct (IH G) as (g' & E & G' & N).
  cbn [String.append]. destruct (Ascii.eqb_spec c " ") as [->|NC].
  - cbn [trim]. change (Ascii.eqb " " " ") with true. cbn [andb].
    destruct (eol (g ++ x ++ r)) eqn:EO.
    + exists g'. split; [exact E|]. split; [exact G'|]. intros _. destruct g as [|d g].
      * cbn [String.append] in EO. destruct x as [|d x]; [discriminate|]. cbn [first_char] in X.
        cbn [String.append eol] in EO. unfold is_gap in X. destruct (Ascii.eqb d " "); [discriminate|].
        cbn [orb negb] in X. rewrite EO in X. discriminate.
      * apply N. discriminate.
    + exists (String " " g'). rewrite E. cbn [sall String.append]. rewrite G'. repeat split; auto. discriminate.
  - assert (c = nl) as -> by (unfold is_gap in C; destruct (Ascii.eqb_spec c " "); [contradiction|];
      cbn [orb] in C; now apply Ascii.eqb_eq in C).
    cbn [trim]. change (Ascii.eqb nl " ") with false. cbn [andb]. exists (String nl g'). rewrite E.
    cbn [sall String.append]. rewrite G'. repeat split; auto. discriminate.
Qed.
Lemma by_follows_gap g x : sall is_gap g = true -> g <> "" ->
  by_follows (String " " x) = None -> by_follows (g ++ x) = None.
Proof.
  intros G N. unfold by_follows. cbn [span]. change (is_space " ") with true. cbv iota.
  assert (S : forall g, sall is_gap g = true -> span is_space (g ++ x) = (g ++ fst (span is_space x), snd (span is_space x))%string).
  { clear. induction g as [|c g IH]; intro H; [cbn [String.append]; now destruct (span is_space x)|].
    cbn [sall] in H. apply andb_true_iff in H as (C & H). apply gap_space in C.
    cbn [String.append span]. rewrite C, IH by exact H. reflexivity. }
  rewrite S by exact G. destruct (span is_space x) as (sp, r). cbn [fst snd].
  destruct (span is_word r) as (w, r2). destruct g as [|c g]; [contradiction|].
  change (String.eqb (String " " sp) "") with false.
  change (String.eqb (String c g ++ sp) "") with false. cbn [negb andb].
  now destruct (String.eqb (upper w) "BY").
Qed.
Lemma brk_gaps g x : sall is_gap g = true -> g <> "" -> brk (String " " x) = true -> brk (g ++ x) = true.
Proof.
  intros G N B. pose proof (brk_by _ B) as Y. destruct g as [|c g]; [contradiction|].
  assert (H : by_follows (String c g ++ x) = None) by now apply by_follows_gap.
  cbn [sall] in G. apply andb_true_iff in G as (C & G). apply gap_space in C.
  cbn [String.append brk] in *. rewrite C. now rewrite H.
Qed.

(** ** Texts that spell tokens, once trimmed *)

Definition tlexes (r : string) (rs : list token) : Prop := Lexes (trim r) rs.
Definition loose (w : string) (ts : list token) : Prop :=
  forall r rs, tlexes r rs -> tlexes (w ++ r) (ts ++ rs).
Definition spells (w : string) (ts : list token) : Prop :=
  forall r rs, brk (trim r) = true -> tlexes r rs -> tlexes (w ++ r) (ts ++ rs).
Definition pending (w : string) (ts : list token) : Prop :=
  forall r rs, begins_well (trim r) = true -> tlexes r rs -> tlexes (w ++ r) (ts ++ rs).
Definition settled (w : string) (ts : list token) : Prop :=
  forall r rs, brk (String " " (trim r)) = true -> tlexes r rs -> tlexes (w ++ r) (ts ++ rs).
(** ... before any gap *)
Definition gapped (w : string) (ts : list token) : Prop :=
  forall g, gap g -> loose (w ++ g) ts.

Definition base (st : state) (w : string) (ts : list token) (l : string) : Prop :=
  match st with
  | Loose => loose w ts
  | Broken => spells w ts /\ (settled w ts \/ needs l = true)
  | Pending => pending w ts
  end.
Definition last_of (l : list string) : string := match l with s :: _ => s | [] => "" end.
(** A blank at the end may be taken back. *)
Definition holds (st : state) (l : list string) (ts : list token) : Prop :=
  base st (joined l) ts (last_of l) /\ (all_blank (last_of l) = true -> gapped (joined (tl l)) ts).

Definition run (P : state) (f : rvisit) (ts : list token) (Q : state) : Prop :=
  forall v t0, holds P (frags v) t0 -> holds Q (frags (f v)) (t0 ++ ts).

Lemma concat_app l : forall s, String.concat "" (l ++ [s]) = (String.concat "" l ++ s)%string.
Proof.
  induction l as [|a l IH]; intro s; [reflexivity|]. destruct l as [|b l].
  - reflexivity.
  - change (String.concat "" ((a :: b :: l) ++ [s])) with (a ++ "" ++ String.concat "" ((b :: l) ++ [s]))%string.
    rewrite IH, concat_cons. cbn [String.append]. now rewrite sapp_assoc.
Qed.
Lemma joined_cons s l : joined (s :: l) = (joined l ++ s)%string.
Proof. unfold joined. cbn [rev]. apply concat_app. Qed.
Lemma joined_nil : joined [] = "".
Proof. reflexivity. Qed.

Lemma run_seq P Q R f g t1 t2 : run P f t1 Q -> run Q g t2 R -> run P (f >>> g) (t1 ++ t2) R.
Proof. intros F G v t0 H. unfold rthen. rewrite app_assoc. apply G, F, H. Qed.
Lemma run_quiet P f : (forall v, frags (f v) = frags v) -> run P f [] P.
Proof. intros E v t0 H. now rewrite E, app_nil_r. Qed.
Lemma run_skip P : run P rskip [] P.
Proof. now apply run_quiet. Qed.
Lemma run_then_quiet P Q f g ts : (forall v, frags (g v) = frags v) -> run P f ts Q -> run P (f >>> g) ts Q.
Proof. intros E F v t0 H. unfold rthen. rewrite E. now apply F. Qed.
Lemma run_after_quiet P Q f g ts : (forall v, frags (g v) = frags v) -> run P f ts Q -> run P (g >>> f) ts Q.
Proof. intros E F v t0 H. unfold rthen. apply F. now rewrite E. Qed.
Lemma base_pre P P' : (forall w t l, base P' w t l -> base P w t l) -> forall l t, holds P' l t -> holds P l t.
Proof. intros I l t (H & K). split; [now apply I|exact K]. Qed.
Lemma run_pre P P' Q f ts : (forall w t l, base P' w t l -> base P w t l) -> run P f ts Q -> run P' f ts Q.
Proof. intros I F v t0 H. apply F. now apply (base_pre P P'). Qed.
Lemma run_post P Q Q' f ts : (forall w t l, base Q w t l -> base Q' w t l) -> run P f ts Q -> run P f ts Q'.
Proof. intros I F v t0 H. apply (base_pre Q' Q); [exact I|]. now apply F. Qed.
Lemma loose_broken w t l : base Loose w t l -> base Broken w t l.
Proof. intro H. split; [|left]; intros r rs _; apply H. Qed.
Lemma loose_pending w t l : base Loose w t l -> base Pending w t l.
Proof. intros H r rs _. apply H. Qed.
Lemma run_loose Q f ts : run Pending f ts Q -> run Loose f ts Q.
Proof. apply run_pre. exact loose_pending. Qed.
Lemma run_broken P f ts : run P f ts Loose -> run P f ts Broken.
Proof. apply run_post. exact loose_broken. Qed.
Lemma run_tokens P Q f ts ts' : ts = ts' -> run P f ts Q -> run P f ts' Q.
Proof. now intros ->. Qed.

(** A fragment that is not blank. *)
Lemma run_push P Q s ts : all_blank s = false ->
  (forall w0 t0 l, base P w0 t0 l -> base Q (w0 ++ s) (t0 ++ ts) s) -> run P (rpush s) ts Q.
Proof.
  intros B H v t0 (K & _). cbn [rpush frags]. split; cbn [last_of].
  - rewrite joined_cons. eapply H, K.
  - congruence.
Qed.
Lemma loose_gapped w ts : loose w ts -> gapped w ts.
Proof.
  intros H g (G & N) r rs L. rewrite sapp_assoc. apply H. unfold tlexes.
  destruct (trim_gap g r G) as (g' & E & G' & _). rewrite E. now apply Lexes_gaps.
Qed.
Lemma gap_begins g r : gap g -> begins_well (trim (g ++ r)) = true.
Proof.
  intros (G & N). destruct (trim_gap g r G) as (g' & E & G' & D). specialize (D N).
  apply edge_cases in D as [-> |[(z & ->)|(z & ->)]]; reflexivity.
Qed.
Lemma pending_gapped w ts : pending w ts -> gapped w ts.
Proof.
  intros H g GG r rs L. rewrite sapp_assoc. apply H; [now apply gap_begins|]. destruct GG as (G & N).
  unfold tlexes. destruct (trim_gap g r G) as (g' & E & G' & _). rewrite E. now apply Lexes_gaps.
Qed.
Lemma all_blank_gap s : sall is_gap s = true -> all_blank s = true.
Proof.
  induction s as [|c s IH]; [reflexivity|]. cbn [sall all_blank]. intro H. apply andb_true_iff in H as (C & H).
  apply gap_space in C. rewrite C. now apply IH.
Qed.
Lemma run_push_gap s : sall is_gap s = true -> run Loose (rpush s) [] Loose.
Proof.
  intros G v t0 (H & K). cbn [rpush frags]. rewrite app_nil_r. split; cbn [last_of tl].
  - rewrite joined_cons. cbn [base] in *. intros r rs L. rewrite sapp_assoc. apply H. unfold tlexes.
    destruct (trim_gap s r G) as (g' & E & G' & _). rewrite E. now apply Lexes_gaps.
  - intros _. now apply loose_gapped.
Qed.

(** A word, number or string. *)
Lemma blank_first s : all_blank s = true -> s <> "" -> exists c r, s = String c r /\ (is_space c || Ascii.eqb c "011") = true.
Proof. destruct s as [|c s]; [contradiction|]. cbn. intro H. apply andb_true_iff in H as (C & _). eauto. Qed.
Lemma reads_not_blank t s : reads t s -> all_blank s = false.
Proof.
  intro R. pose proof (reads_nonempty t s R) as N. apply reads_self in R.
  destruct (all_blank s) eqn:B; [|reflexivity]. exfalso.
  destruct (blank_first s B N) as (c & r & -> & C). apply orb_true_iff in C as [C|C].
  - unfold lex1 in R. cbn [first_char] in R. rewrite C in R. discriminate R.
  - apply Ascii.eqb_eq in C. subst c. discriminate R.
Qed.
Lemma run_word t s : reads t s -> wordy t = true -> firm s = true -> run Pending (rpush s) [Tok t s] Broken.
Proof.
  intros R W F. apply run_push; [now apply (reads_not_blank t)|]. intros w0 t0 l H. split.
  - intros r rs K L. rewrite sapp_assoc, <- app_assoc. apply H.
    + rewrite firm_trim by exact F. apply begins_app_well; [now apply (reads_nonempty t)|now apply (reads_begins t)].
    + unfold tlexes. rewrite firm_trim by exact F. now apply reads_lexes.
  - right. apply ends_well_needs. pose proof (reads_self t s R) as L. now apply lex1_ends in L.
Qed.

(** Punctuation that may follow anything. *)
Lemma run_close s ts : all_blank s = false -> loose s ts -> (forall r, brk (trim (s ++ r)) = true) ->
  run Broken (rpush s) ts Loose.
Proof.
  intros N L B. apply run_push; [exact N|]. intros w0 t0 l (H & _). intros r rs K.
  rewrite sapp_assoc, <- app_assoc. apply H; [apply B|]. now apply L.
Qed.
(** Punctuation where an expression may begin. *)
Lemma run_open s ts : all_blank s = false -> loose s ts -> (forall r, begins_well (trim (s ++ r)) = true) ->
  run Pending (rpush s) ts Loose.
Proof.
  intros N L B. apply run_push; [exact N|]. intros w0 t0 l H. intros r rs K.
  rewrite sapp_assoc, <- app_assoc. apply H; [apply B|]. now apply L.
Qed.
Lemma lex_equals r : begins_well r = true -> lex1 (String "=" r) = Some (Some (op "="), r).
Proof.
  intro B. destruct r as [|c r]; [reflexivity|]. unfold begins_well in B. cbn [first_char] in B.
  apply negb_true_iff, orb_false_iff in B as (B1 & B2).
  rewrite later_step; [|reflexivity|apply comment_free_char; reflexivity|reflexivity].
  cbn [later_rules first_rule]. rewrite alt_or_none, alt_and_none, number_none, quoted_ident_none, symbol_ident_none by reflexivity.
  unfold operators. cbn [operator_in strip_prefix].
  cbv -[Ascii.eqb String.append].
  rewrite (Ascii.eqb_sym ">" c), (Ascii.eqb_sym "~" c), B1, B2. reflexivity.
Qed.
Lemma run_equals : run Broken (rpush "=") [op "="] Pending.
Proof.
  apply run_push; [reflexivity|]. intros w0 t0 l (H & _). intros r rs B K.
  rewrite sapp_assoc, <- app_assoc. apply H; [reflexivity|].
  change (Lexes (String "=" (trim r)) (op "=" :: rs)).
  apply LTok with (r := trim r); [now apply lex_equals|cbn; lia|exact K].
Qed.

(** Literal texts. *)
Lemma loose_one s t : firm s = true -> (forall r, lex1 (s ++ r) = Some (Some t, r)) -> s <> "" -> loose s [t].
Proof.
  intros F H N r rs L. unfold tlexes. rewrite firm_trim by exact F.
  apply LTok with (r := trim r); [apply H| |exact L].
  rewrite sapp_length. destruct s; [contradiction|cbn; lia].
Qed.
Lemma trim_space_lexes r rs : tlexes r rs -> Lexes (trim (String " " r)) rs.
Proof.
  intro L. destruct (trim_gap " " r eq_refl) as (g & E & G & _). cbn [String.append] in E. rewrite E.
  now apply Lexes_gaps.
Qed.
(** A keyword or operator with a gap after it. *)
Definition kw (k : string) (t : token) : Prop :=
  (forall y, edge y = true -> lex1 (k ++ y) = Some (Some t, y)) /\ firm k = true /\
  first_char (fun c => negb (is_gap c)) k = true /\
  (forall y, edge y = true -> brk (String " " (k ++ y)) = true).
Lemma kw_nonempty k t : kw k t -> k <> "".
Proof. intros (_ & _ & F & _) ->. discriminate F. Qed.
Lemma kw_gap k t g r : kw k t -> gap g -> trim ((k ++ g) ++ r) = (k ++ trim (g ++ r))%string /\ edge (trim (g ++ r)) = true.
Proof.
  intros (_ & F & _) (G & N). rewrite sapp_assoc. split; [now apply firm_trim|].
  destruct (trim_gap g r G) as (g' & E & G' & D). now apply D.
Qed.
Lemma loose_kw k t g : kw k t -> gap g -> loose (k ++ g) [t].
Proof.
  intros K G r rs L. unfold tlexes. destruct (kw_gap k t g r K G) as (E & D). rewrite E.
  pose proof (kw_nonempty k t K) as N. destruct K as (K & _).
  apply LTok with (r := trim (g ++ r)); [now apply K| |].
  - rewrite sapp_length. destruct k; [contradiction|cbn; lia].
  - destruct G as (G & _). destruct (trim_gap g r G) as (g' & E' & G' & _). rewrite E'. now apply Lexes_gaps.
Qed.
Lemma gap_one : gap " ".
Proof. split; [reflexivity|discriminate]. Qed.
Lemma kw_brk k t g r : kw k t -> gap g -> brk (String " " (trim ((k ++ g) ++ r))) = true.
Proof. intros K G. destruct (kw_gap k t g r K G) as (-> & E). now apply K. Qed.
Lemma loose_app a b ta tb : loose a ta -> loose b tb -> loose (a ++ b) (ta ++ tb).
Proof. intros A B r rs L. rewrite sapp_assoc, <- app_assoc. now apply A, B. Qed.
Lemma loose_gap g : sall is_gap g = true -> loose g [].
Proof.
  intros G r rs L. unfold tlexes. destruct (trim_gap g r G) as (g' & E & G' & _). rewrite E. now apply Lexes_gaps.
Qed.

Ltac kwd := split; [let y := fresh in let E := fresh in
    intros y E; apply edge_cases in E as [->|[(? & ->)|(? & ->)]]; reflexivity|
  split; [reflexivity|split; [reflexivity|
  let y := fresh in let E := fresh in
    intros y E; apply edge_cases in E as [->|[(? & ->)|(? & ->)]]; reflexivity]]].
Ltac lit := apply loose_one; [reflexivity|reflexivity|discriminate].
Lemma word_loose k t : kw k t -> loose (k ++ " ") [t].
Proof. intro K. apply loose_kw; [exact K|exact gap_one]. Qed.

(** ** Breaking the line *)

Lemma gap_blanks n : sall is_gap (blanks n) = true.
Proof. induction n as [|n IH]; [reflexivity|exact IH]. Qed.
Definition indent_gap (z : Z) : string := String nl (repeat_space z).
Lemma indent_gap_gap z : gap (indent_gap z).
Proof. split; [apply gap_blanks|discriminate]. Qed.

Lemma joined_tl l : joined l = (joined (tl l) ++ last_of l)%string.
Proof. destruct l as [|s l]; [reflexivity|]. apply joined_cons. Qed.

(** With BreakLines: the text, without a blank at its end, and a gap. *)
Lemma break_frags v : exists l z,
  frags (rline_break true v) = repeat_space z :: String nl "" :: l /\
  l = (if all_blank (rlast v) then tl (frags v) else frags v).
Proof.
  unfold rline_break. destruct (all_blank (rlast v)) eqn:B.
  - eexists _, _. split; [reflexivity|]. unfold rpop. destruct v as [[|s l] i b p w]; reflexivity.
  - eexists _, _. split; [reflexivity|]. reflexivity.
Qed.
Lemma broken_joined a b l : joined (a :: b :: l) = (joined l ++ (b ++ a))%string.
Proof. rewrite !joined_cons. apply sapp_assoc. Qed.
Lemma flat_break v : rline_break false v = if needs (last_of (frags v)) then rpush " " v else v.
Proof. unfold rline_break, needs, rlast, last_of. destruct (_ || _); reflexivity. Qed.

(** Where the text is gapped, a line may break. *)
Lemma gapped_broken l z ts : gapped (joined l) ts -> holds Loose (repeat_space z :: String nl "" :: l) ts.
Proof.
  intro G. split; cbn [last_of tl base].
  - rewrite broken_joined. apply (G (indent_gap z)), indent_gap_gap.
  - intros _. rewrite joined_cons. intros g (GG & N). rewrite sapp_assoc. apply G. split; [exact GG|discriminate].
Qed.
Lemma run_break_from P bl : (forall w t l, base P w t l -> gapped w t) ->
  run P (rline_break true) [] Loose /\
  ((forall w t l l', base P w t l -> base P w t l') -> (bl = false -> forall w t l, base P w t l -> base P (w ++ " ") t " ") ->
   run P (rline_break bl) [] P \/ bl = true).
Proof.
  intro PG. split.
  - intros v t0 (H & K). rewrite app_nil_r. destruct (break_frags v) as (l & z & E & EL). rewrite E.
    apply gapped_broken. subst l. destruct (all_blank (rlast v)) eqn:B.
    + apply K, B.
    + now apply (PG _ _ (last_of (frags v))).
  - intros Any Sp. destruct bl; [now right|left]. intros v t0 (H & K). rewrite app_nil_r, flat_break.
    destruct (needs (last_of (frags v))).
    + split; cbn [rpush frags last_of tl].
      * rewrite joined_cons. now apply (Sp eq_refl _ _ (last_of (frags v))).
      * intros _. now apply (PG _ _ (last_of (frags v))).
    + now split.
Qed.
Lemma loose_sp w t : loose w t -> loose (w ++ " ") t.
Proof. intro H. apply (loose_gapped w t H), gap_one. Qed.
Lemma run_break_loose bl : run Loose (rline_break bl) [] Loose.
Proof.
  destruct (run_break_from Loose bl (fun w t _ => loose_gapped w t)) as (A & B).
  destruct B as [B| ->]; [auto|intros _ w t l; apply loose_sp|exact B|exact A].
Qed.
Lemma run_break_pending bl : run Pending (rline_break bl) [] Pending.
Proof.
  destruct (run_break_from Pending bl (fun w t _ => pending_gapped w t)) as (A & B).
  destruct B as [B| ->]; [auto| |exact B|].
  - intros _ w t l H. apply (loose_pending (w ++ " ") t ""). apply (pending_gapped w t H), gap_one.
  - apply (run_post _ Loose); [exact loose_pending|exact A].
Qed.
Lemma run_break_arg o bl : run Pending (rbreak_arg o bl) [] Pending.
Proof.
  intros v t0 H. unfold rbreak_arg. destruct (too_far o v).
  - now apply run_break_pending.
  - now rewrite app_nil_r.
Qed.
Lemma run_break_sym o bl f ts : run Pending f ts Broken -> run Pending (rbreak_sym o bl f) ts Broken.
Proof.
  intros F v t0 H. unfold rbreak_sym. destruct (too_far o v); [|now apply F].
  unfold rthen. cbn [pop_indent with_indents frags]. apply F.
  rewrite <- (app_nil_r t0). apply run_break_pending. exact H.
Qed.

(** A keyword after a line break. *)
Lemma spells_gap w ts g x r rs :
  spells w ts -> gap g -> first_char (fun c => negb (is_gap c)) x = true ->
  brk (String " " (trim (x ++ r))) = true -> tlexes (x ++ r) rs -> tlexes (w ++ g ++ x ++ r) (ts ++ rs).
Proof.
  intros S (G & N) X B L. destruct (trim_gap_word g x r G X) as (g' & E & G' & N').
  apply S; unfold tlexes; rewrite E.
  - apply brk_gaps; auto.
  - now apply Lexes_gaps.
Qed.
(** After a line break, anything that is not the word BY. *)
Definition ended (w : string) (ts : list token) : Prop :=
  forall x r rs, first_char (fun c => negb (is_gap c)) x = true ->
    brk (String " " (trim (x ++ r))) = true -> tlexes (x ++ r) rs -> tlexes (w ++ x ++ r) (ts ++ rs).
Lemma break_ended bl v ts : holds Broken (frags v) ts -> ended (joined (frags (rline_break bl v))) ts.
Proof.
  intros ((H & D) & K) x r rs X B L. destruct bl.
  - destruct (break_frags v) as (l & z & E & EL). rewrite E, broken_joined.
    change (String nl "" ++ repeat_space z)%string with (indent_gap z).
    destruct (all_blank (rlast v)) eqn:BL; subst l.
    + now apply (K BL (indent_gap z) (indent_gap_gap z)).
    + rewrite !sapp_assoc. apply spells_gap; auto using indent_gap_gap.
  - rewrite flat_break. destruct (needs (last_of (frags v))) eqn:ND.
    + cbn [rpush frags]. rewrite joined_cons. rewrite !sapp_assoc. apply spells_gap; auto. exact gap_one.
    + destruct D as [D|D]; [|congruence]. now apply D.
Qed.
Lemma run_keyword bl s ts :
  all_blank s = false -> first_char (fun c => negb (is_gap c)) s = true ->
  loose s ts -> (forall r, brk (String " " (trim (s ++ r))) = true) ->
  run Broken (rline_break bl >>> rpush s) ts Loose.
Proof.
  intros NB X L B v t0 H. unfold rthen. cbn [rpush frags]. split; cbn [last_of]; [|congruence].
  rewrite joined_cons. cbn [base]. intros r rs R. rewrite !sapp_assoc, <- app_assoc.
  apply (break_ended bl v t0 H); [exact X|apply B|now apply L].
Qed.

(** An operator with spaces around, perhaps after a line break. *)
Lemma holds_op w0 t0 o t l : kw o t -> loose ((w0 ++ o) ++ " ") (t0 ++ [t]) ->
  gapped (w0 ++ o) (t0 ++ [t]) -> joined l = w0 ->
  holds Loose (" " :: o :: l) (t0 ++ [t]).
Proof.
  intros K L G E. split; cbn [last_of tl base].
  - now rewrite !joined_cons, E.
  - intros _. now rewrite joined_cons, E.
Qed.
Lemma run_spaced o t : kw o t -> run Broken (rpush " " >>> rpush o >>> rpush " ") [t] Loose.
Proof.
  intros K v t0 ((H & _) & _). unfold rthen. cbn [rpush frags].
  assert (G : gapped ((joined (frags v) ++ " ") ++ o) (t0 ++ [t])).
  { intros g GG r rs R. rewrite !sapp_assoc, <- app_assoc.
    rewrite <- (sapp_assoc o g r). apply spells_gap; auto using gap_one.
    - pose proof (kw_nonempty o t K). destruct K as (_ & _ & F & _). destruct o; [contradiction|exact F].
    - now apply (kw_brk o t).
    - now apply (loose_kw o t). }
  apply (holds_op (joined (frags v) ++ " ")%string t0 o t); auto.
  - apply G, gap_one.
  - apply joined_cons.
Qed.
Lemma run_break_spaced bl o t : kw o t ->
  run Broken (rline_break bl >>> (rpush " " >>> rpush o >>> rpush " ")) [t] Loose.
Proof.
  intros K v t0 ((H & D) & KB). unfold rthen. cbn [rpush frags].
  set (u := rline_break bl v).
  assert (G : gapped ((joined (frags u) ++ " ") ++ o) (t0 ++ [t])).
  { intros g GG r rs R.
    assert (X : first_char (fun c => negb (is_gap c)) (o ++ g) = true).
    { pose proof (kw_nonempty o t K). destruct K as (_ & _ & F & _). destruct o; [contradiction|exact F]. }
    pose proof (kw_brk o t g r K GG) as B. pose proof (loose_kw o t g K GG r rs R) as L.
    assert (J : (exists g', joined (frags u) = (joined (frags v) ++ g')%string /\ sall is_gap g' = true) \/
                gapped (joined (frags u)) t0).
    { subst u. destruct bl.
      - destruct (break_frags v) as (l & z & E & EL). rewrite E, broken_joined.
        change (String nl "" ++ repeat_space z)%string with (indent_gap z).
        destruct (all_blank (rlast v)) eqn:BL.
        + right. subst l. specialize (KB BL). apply loose_gapped. apply KB, indent_gap_gap.
        + left. subst l. exists (indent_gap z). split; [reflexivity|apply indent_gap_gap].
      - rewrite flat_break. left. destruct (needs _).
        + exists " ". cbn [rpush frags]. rewrite joined_cons. now split.
        + exists "". rewrite sapp_nil_r. now split. }
    rewrite !sapp_assoc, <- app_assoc. rewrite <- (sapp_assoc o g r).
    destruct J as [(g' & E & GS)|J].
    - rewrite E, sapp_assoc. change (String " " "" ++ (o ++ g) ++ r)%string with (" " ++ (o ++ g) ++ r)%string.
      rewrite <- (sapp_assoc g' " "). apply spells_gap; auto. split.
      + clear -GS. induction g' as [|c g' IH]; [reflexivity|]. cbn [sall String.append] in *.
        apply andb_true_iff in GS as (C & GS). now rewrite C, IH.
      + now destruct g'.
    - rewrite <- sapp_assoc. apply (J " " gap_one). exact L. }
  apply (holds_op (joined (frags u) ++ " ")%string t0 o t); auto.
  - apply G, gap_one.
  - apply joined_cons.
Qed.

(** ** Sequences *)

Lemma run_each {A} P (f : A -> rvisit) (t : A -> list token) l :
  (forall a, In a l -> run P (f a) (t a) P) -> run P (reach f l) (flat_map t l) P.
Proof.
  induction l as [|a l IH]; intro H; [apply run_skip|]. cbn [reach fold_right flat_map].
  apply run_seq with (Q := P); [apply H; now left|]. apply IH. intros; apply H; now right.
Qed.
Lemma run_maybe {A} P (f : A -> rvisit) (t : A -> list token) o :
  (forall a, o = Some a -> run P (f a) (t a) P) -> run P (rmaybe f o) (tmaybe t o) P.
Proof. destruct o as [a|]; intro H; [now apply H|apply run_skip]. Qed.
Lemma run_comma : run Broken (rpush "," >>> rpush " ") [op ","] Loose.
Proof.
  apply (run_seq Broken Loose Loose (rpush ",") (rpush " ") [op ","] []).
  - apply run_close; [reflexivity|lit|reflexivity].
  - now apply run_push_gap.
Qed.
Lemma run_separated {A} (f : nat -> A -> rvisit) (t : A -> list token) sep l :
  run Loose sep [] Loose -> l <> [] ->
  (forall i a, In a l -> run Pending (f i a) (t a) Broken) ->
  forall i, run Pending (rseparated f sep i l) (tsep t l) Broken.
Proof.
  intros S. induction l as [|a l IH]; intros N H i; [contradiction|].
  destruct l as [|b l].
  - cbn [rseparated tsep]. apply H. now left.
  - change (rseparated f sep i (a :: b :: l)) with
      (f i a >>> rpush "," >>> rpush " " >>> sep >>> rseparated f sep (Datatypes.S i) (b :: l)).
    change (tsep t (a :: b :: l)) with (t a ++ op "," :: tsep t (b :: l)).
    change (run Pending (f i a >>> ((rpush "," >>> rpush " ") >>> (sep >>> rseparated f sep (Datatypes.S i) (b :: l))))
                (t a ++ ([op ","] ++ ([] ++ tsep t (b :: l)))) Broken).
    apply run_seq with (Q := Broken); [apply H; now left|].
    apply run_seq with (Q := Loose); [apply run_comma|].
    apply run_seq with (Q := Loose); [exact S|].
    apply run_loose, IH; [discriminate|]. intros; apply H; now right.
Qed.

(** One of the choices. *)
Lemma run_abtest o bl P Q c cs ts :
  (forall d, d = c \/ (bl = true /\ In d cs) -> run P d ts Q) -> run P (abtest o bl c cs) ts Q.
Proof.
  intros H v t0 K. unfold abtest. destruct bl; [|now apply H; [now left|]].
  assert (G : forall l best, (forall d, In d l -> run P d ts Q) -> holds Q (frags best) (t0 ++ ts) ->
    holds Q (frags (fold_left (fun best c => let t := c v in
       if better (width_threshold o) best t then t else best) l best)) (t0 ++ ts)).
  { induction l as [|d l IH]; intros best HL HB; [exact HB|]. cbn [fold_left]. apply IH.
    - intros; apply HL; now right.
    - cbv zeta. destruct (better _ best (d v)); [|exact HB]. apply HL; [now left|exact K]. }
  apply G.
  - intros d I. apply H. now right.
  - apply H; [now left|exact K].
Qed.

Lemma quiet_pop v : frags (pop_indent v) = frags v.
Proof. reflexivity. Qed.
Lemma quiet_push v : frags (push_indent v) = frags v.
Proof. reflexivity. Qed.
Lemma quiet_in v : frags (indent_in v) = frags v.
Proof. reflexivity. Qed.
Lemma run_assoc P Q f g h ts : run P (f >>> (g >>> h)) ts Q -> run P (f >>> g >>> h) ts Q.
Proof. exact (fun H => H). Qed.

Lemma run_call {A} o bl (f : bool -> A -> rvisit) (t : A -> list token) l :
  (forall b a, In a l -> run Pending (f b a) (t a) Broken) ->
  run Broken (rcall o bl f l) (tcall t l) Loose.
Proof.
  intro H. unfold rcall, tcall. destruct l as [|a l].
  - cbn [tsep app]. apply run_close; [reflexivity| |reflexivity].
    apply (loose_app "(" ")" [op "("] [op ")"]); lit.
  - assert (ARGS : forall b sep, run Loose sep [] Loose ->
        run Loose (rseparated (fun _ => f b) sep 0 (a :: l) >>> rpush ")") (tsep t (a :: l) ++ [op ")"]) Loose).
    { intros b sep HS. apply run_seq with (Q := Broken).
      - apply run_loose, run_separated; [exact HS|discriminate|]. intros; now apply H.
      - apply run_close; [reflexivity|lit|reflexivity]. }
    assert (OPEN : run Broken (rpush "(") [op "("] Loose) by (apply run_close; [reflexivity|lit|reflexivity]).
    change (op "(" :: tsep t (a :: l) ++ [op ")"]) with ([op "("] ++ (tsep t (a :: l) ++ [op ")"])).
    apply run_abtest. intros d [->|(_ & I)].
    + apply run_assoc. apply run_seq with (Q := Loose); [exact OPEN|]. apply ARGS, run_skip.
    + cbn [In] in I. destruct I as [<-|[<-|[]]].
      * apply run_then_quiet; [exact quiet_pop|]. apply run_assoc.
        apply run_seq with (Q := Loose); [apply run_then_quiet; [exact quiet_push|exact OPEN]|].
        apply ARGS, run_break_loose.
      * apply run_then_quiet; [exact quiet_pop|]. apply run_assoc.
        apply run_seq with (Q := Loose); [|apply ARGS, run_break_loose].
        apply (run_seq Broken Loose Loose _ (rline_break bl) [op "("] []); [|apply run_break_loose].
        apply run_then_quiet; [exact quiet_in|exact OPEN].
Qed.

(** ** Operators *)

Lemma sall_firm s : sall is_alpha s = true -> firm s = true.
Proof.
  induction s as [|c s IH]; [reflexivity|]. cbn [sall firm]. intro H. apply andb_true_iff in H as (C & H).
  rewrite IH by exact H. rewrite andb_true_r. apply orb_true_iff. left.
  destruct (Ascii.eqb_spec c " ") as [->|]; [discriminate C|reflexivity].
Qed.
Lemma kw_keyword w t : keyword_of w = Some t -> kw w (Tok t w).
Proof.
  intro K. destruct (keyword_alpha w t K) as (N & A & B). pose proof (sall_firm w A) as F.
  destruct w as [|c w]; [contradiction|].
  assert (W : sall is_word (String c w) = true) by (apply (sall_imp is_alpha); [reflexivity|exact A]).
  assert (AC : is_alpha c = true) by (cbn [sall] in A; now apply andb_true_iff in A).
  assert (EW : forall y, edge y = true -> first_char is_word y = false).
  { intros y E. apply edge_cases in E as [->|[(z & ->)|(z & ->)]]; reflexivity. }
  split; [|split; [exact F|split]].
  - intros y E. unfold lex1.
    assert (S : first_char is_space (String c w ++ y) = false).
    { cbn [String.append first_char]. char_dis AC. }
    rewrite S. cbn [String.append] in *. rewrite no_comment by (apply comment_free_char; char_dis AC).
    cbn [first_char]. rewrite AC. unfold word_token.
    change (String c (w ++ y)) with (String c w ++ y)%string.
    rewrite span_app; [|exact W|now apply EW]. now rewrite K.
  - cbn [first_char]. apply negb_true_iff. unfold is_gap. apply orb_false_iff. split.
    + destruct (Ascii.eqb_spec c " ") as [->|]; [discriminate AC|reflexivity].
    + destruct (Ascii.eqb_spec c nl) as [->|]; [discriminate AC|reflexivity].
  - intros y E. unfold brk. change (is_space " ") with true. cbv iota. unfold by_follows.
    cbn [span]. change (is_space " ") with true. cbv iota.
    assert (FS : first_char is_space (String c w ++ y) = false).
    { cbn [String.append first_char]. char_dis AC. }
    rewrite (span_none _ _ FS). rewrite span_app; [|exact W|now apply EW].
    destruct (String.eqb_spec (upper (String c w)) "BY"); [contradiction|]. reflexivity.
Qed.
Lemma sall_bars_firm s : sall (Ascii.eqb "|") s = true -> firm s = true.
Proof.
  induction s as [|c s IH]; [reflexivity|]. cbn [sall firm]. intro H. apply andb_true_iff in H as (C & H).
  rewrite IH by exact H. rewrite andb_true_r. apply orb_true_iff. left.
  apply Ascii.eqb_eq in C. subst c. reflexivity.
Qed.
Lemma kw_bars a : sall (Ascii.eqb "|") a = true -> kw (String "|" a) (Tok T_AlternativeOR (String "|" a)).
Proof.
  intro A. split; [|split; [|split; [reflexivity|]]].
  - intros y E. cbn [String.append].
    rewrite later_step; [|reflexivity|apply comment_free_char; reflexivity|reflexivity].
    cbn [later_rules first_rule].
    assert (alt_or (String "|" (a ++ y)) = Some (String "|" a, y)) as ->; [|reflexivity].
    unfold alt_or. change (String "|" (a ++ y)) with (String "|" a ++ y)%string.
    rewrite span_app; [reflexivity| |].
    + cbn [sall]. now rewrite A.
    + apply edge_cases in E as [->|[(z & ->)|(z & ->)]]; reflexivity.
  - apply (sall_bars_firm (String "|" a)). cbn [sall]. now rewrite A.
  - reflexivity.
Qed.
Lemma kw_or o : reads (tt (tor_op o)) o -> kw o (tor_op o).
Proof.
  unfold tor_op. cbn [tt]. destruct (first_char (Ascii.eqb "|") o) eqn:F; intro R.
  - destruct o as [|c o]; [discriminate|]. cbn [first_char] in F. apply Ascii.eqb_eq in F. subst c.
    apply kw_bars. apply reads_self in R.
    rewrite later_step in R; [|reflexivity|apply comment_free_char; reflexivity|reflexivity].
    cbn [later_rules first_rule] in R. unfold alt_or in R.
    destruct (span (Ascii.eqb "|") (String "|" o)) as (a, r) eqn:SP.
    apply span_spec in SP as (E & A & _).
    destruct (String.eqb_spec a "") as [->|N].
    + cbn [String.append] in E. subst r. change (String.eqb "" "") with true in R. cbn [first_rule] in R.
      exfalso. revert R. rewrite alt_and_none, number_none, quoted_ident_none, symbol_ident_none by reflexivity.
      discriminate.
    + injection R as -> ->. cbn [sall] in A. exact A.
  - apply reads_lexeme in R as (_ & K). cbn in K. now apply kw_keyword.
Qed.
Lemma kw_and o : reads (tt (tand_op o)) o -> kw o (tand_op o).
Proof.
  unfold tand_op. cbn [tt]. destruct (String.eqb_spec o "&&") as [->|N]; intro R.
  - kwd.
  - apply reads_lexeme in R as (_ & K). cbn in K. now apply kw_keyword.
Qed.
Lemma kw_cmp o : In o cmp_ops -> kw o (tcmp_op o).
Proof. intro I. cbn in I. repeat (destruct I as [<-|I]; [kwd|]). contradiction. Qed.
Lemma kw_op o : In o ["*"; "/"; "+"; "-"; "="; "<="] -> kw o (op o).
Proof. intro I. cbn in I. repeat (destruct I as [<-|I]; [kwd|]). contradiction. Qed.

(** ** Names *)

Definition firms (ts : list token) : bool := forallb (fun t => firm (tv t)) ts.
Lemma firms_app a b : firms (a ++ b) = firms a && firms b.
Proof. apply forallb_app. Qed.
Lemma firms_in {A} (f : A -> list token) l a : In a l -> firms (flat_map f l) = true -> firms (f a) = true.
Proof.
  induction l as [|b l IH]; [contradiction|]. cbn [flat_map]. rewrite firms_app. intros I H.
  apply andb_true_iff in H as (H1 & H2). destruct I as [->|I]; auto.
Qed.
Lemma firms_sep {A} (f : A -> list token) l a : In a l -> firms (tsep f l) = true -> firms (f a) = true.
Proof.
  induction l as [|b l IH]; [contradiction|]. intros I H. destruct l as [|c l].
  - destruct I as [->|[]]. exact H.
  - change (tsep f (b :: c :: l)) with (f b ++ op "," :: tsep f (c :: l)) in H. rewrite firms_app in H.
    apply andb_true_iff in H as (H1 & H2). cbn [firms forallb] in H2. apply andb_true_iff in H2 as (_ & H2).
    destruct I as [->|I]; auto.
Qed.
Lemma dotted_firm l : forall a, firm a = true -> firms (trest l) = true -> firm (dotted (a :: l)) = true.
Proof.
  induction l as [|b l IH]; intros a A H; [exact A|]. cbn [trest flat_map app firms forallb] in H.
  apply andb_true_iff in H as (_ & H). apply andb_true_iff in H as (B & H).
  rewrite dotted_cons. apply firm_app; [exact A|]. apply firm_app; [reflexivity|]. now apply IH.
Qed.
Lemma blank_dotted t a l : reads t a -> all_blank (dotted (a :: l)) = false.
Proof.
  intro R. pose proof (reads_not_blank t a R) as B. destruct l as [|b l]; [exact B|]. rewrite dotted_cons.
  clear -B. induction a as [|c a IH]; [discriminate|]. cbn [all_blank String.append] in *.
  destruct (is_space c || Ascii.eqb c "011"); [|reflexivity]. cbn [andb] in *. now apply IH.
Qed.
Lemma run_dotted t a l : reads t a -> wordy t = true -> all ok_ident l -> firms (Tok t a :: trest l) = true ->
  run Pending (rpush (dotted (a :: l))) (Tok t a :: trest l) Broken.
Proof.
  intros R W K F. cbn [firms forallb tv] in F. apply andb_true_iff in F as (FA & FL).
  pose proof (dotted_firm l a FA FL) as F. clear FA FL.
  apply run_push; [now apply (blank_dotted t)|]. intros w0 t0 la H.
  pose proof (reads_nonempty t a R) as N. split.
  - intros r rs B L. rewrite sapp_assoc, <- app_assoc. apply H; unfold tlexes; rewrite firm_trim by exact F.
    + pose proof (reads_begins t a R W) as Y. unfold begins_well in *.
      assert (E : forall p, first_char p (dotted (a :: l) ++ trim r) = first_char p a).
      { intro p. rewrite <- (dotted_first a l N p). destruct l; [destruct a; [contradiction|reflexivity]|].
        rewrite dotted_cons. destruct a; [contradiction|reflexivity]. }
      now rewrite E.
    + now apply dotted_lexes.
  - right. apply ends_well_needs. now apply (dotted_ends l t).
Qed.
Lemma run_term s : ok_ident s -> firm s = true -> run Broken (rpush "." >>> rpush s) [op "."; tident s] Broken.
Proof.
  intros K F v t0 ((H & _) & _). unfold rthen. cbn [rpush frags]. split; cbn [last_of].
  - rewrite broken_joined. cbn [base]. split.
    + intros r rs B L. rewrite sapp_assoc, <- app_assoc. cbn [String.append app].
      pose proof (ident_first s K) as FI.
      assert (E : trim (String "." (s ++ r)) = String "." (s ++ trim r)).
      { change (String "." (s ++ r)) with ("." ++ s ++ r)%string.
        rewrite firm_trim by reflexivity. now rewrite firm_trim. }
      apply H; unfold tlexes; rewrite E; [now apply dot_brk|].
      apply dot_lexes; [exact FI|]. now apply reads_lexes.
    + right. apply ends_well_needs. pose proof (reads_self _ s K) as L. now apply lex1_ends in L.
  - intro B. rewrite (reads_not_blank _ s K) in B. discriminate B.
Qed.
