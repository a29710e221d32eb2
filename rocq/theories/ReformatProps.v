(** C62: reformatting keeps every statement.

    [parse_multi] is MultiParse of a script, [reformat o bl l] the text
    ReFormatVQL writes for the statements l with options o ([bl] is
    BreakLines).  The script has no comments; CommentProps.v starts from texts. *)

From Coq Require Import ZArith List String Ascii Bool Lia.
From Verif Require Import Base F64 Text Lexer Numeral Grammar Parser Format Spelling.
From Verif Require Import LexProofs NumeralProofs FloatText ParseProofs FormatProofs FormatRuns TrimProofs RoundTrip.
From Verif Require Import ParserSound FormatProps Reformat ReformatProofs ReformatRuns ReformatTwice.
Import ListNotations.
Open Scope nat_scope.
Open Scope string_scope.
Open Scope list_scope.

(** ** Scripts *)

Lemma multi_sound k n : gives (always (Forall ok_vql)) (pmulti k n).
Proof.
  induction k as [|k IH]; [intros ts a r _; discriminate|]. cbn [pmulti].
  eapply gives_bind; [apply vql_sound|]. intros v V.
  eapply gives_bind; [apply gives_pstar, IH|]. intros l L. apply gives_pret.
  constructor; [exact V|]. pose proof (all_last _ _ L) as A. destruct (last_opt l); [exact A|constructor].
Qed.
Theorem parse_multi_ok s l : parse_multi s = Some l -> Forall ok_vql l.
Proof.
  unfold parse_multi. destruct (tokens s) as [ts|] eqn:T; [|discriminate]. apply tokens_good in T.
  unfold whole. destruct (pmulti _ _ ts) as [a r|r|] eqn:E; try discriminate. destruct r; [|discriminate].
  intros [= <-]. exact (proj1 (multi_sound _ _ ts a [] T E)).
Qed.
Lemma parse_multi_some s : parse_multi s <> Some [].
Proof.
  unfold parse_multi. destruct (tokens s) as [ts|]; [|discriminate]. unfold fuel_for at 1. cbn [pmulti].
  unfold whole, pbind. destruct (pvql _ ts) as [a r|r|]; try discriminate.
  destruct (pstar _ r) as [b q|q|]; try discriminate. unfold pret. destruct q; discriminate.
Qed.

Lemma vql_first x : exists t ts, tvql x = t :: ts /\ lvl t = 8 /\ ~ In (tt t) [T_WHERE; T_GROUPBY; T_ORDERBY; T_LIMIT; T_DESC].
Proof.
  destruct x as [name called ps p body|s].
  - cbn [tvql]. eexists _, _. split; [reflexivity|]. split; [reflexivity|]. cbn. intuition discriminate.
  - rewrite (tvql_split (GQuery s)). destruct s as [[] al cols from w g k l]; cbn [tvql_head thead app];
      (eexists _, _; split; [reflexivity|]; split; [reflexivity|]; cbn; intuition discriminate).
Qed.
Lemma multi_follow l : sfollow (flat_map tvql l).
Proof.
  destruct l as [|x l]; [exact I|]. cbn [flat_map]. destruct (vql_first x) as (t & ts & -> & L & N). now split.
Qed.
Lemma multi_misses_nil k n : 0 < k -> 0 < n -> misses (pmulti k n) [].
Proof.
  intros K N. destruct k as [|k]; [lia|]. cbn [pmulti]. apply bind_miss. unfold pvql, pvql_step.
  assert (M : misses (pselect n) []).
  { apply select_misses; [exact N| |]; exists []; split; reflexivity. }
  apply alt_miss; apply bind_miss; [exists []; split; reflexivity|exact M].
Qed.
Lemma multi_parses n l : l <> [] -> Forall ok_vql l -> forallb clean_vql l = true ->
  List.length (flat_map tvql l) < n ->
  forall k, List.length l < k -> pmulti k n (flat_map tvql l) = POk (map nvql l) [].
Proof.
  induction l as [|x l IH]; intros NE K C L k LK; [contradiction|].
  inversion K as [|? ? K1 K2]; subst. cbn [forallb] in C. apply andb_true_iff in C as (C1 & C2).
  cbn [flat_map] in L |- *. rewrite app_length in L. cbn [List.length] in LK.
  destruct k as [|k]; [lia|]. cbn [pmulti map].
  rewrite (bind_ok _ _ _ (nvql x) (flat_map tvql l)).
  2:{ apply vql_parses; auto; [lia|apply multi_follow]. }
  destruct l as [|y l].
  - cbn [flat_map map]. rewrite (bind_ok _ _ _ [] []); [reflexivity|].
    apply pstar_nil, multi_misses_nil; lia.
  - rewrite (bind_ok _ _ _ [map nvql (y :: l)] []); [reflexivity|].
    apply pstar_one.
    + apply IH; auto; [discriminate|lia|lia].
    + apply multi_misses_nil; lia.
    + cbn [flat_map]. destruct (vql_first y) as (t & ts & -> & _). discriminate.
Qed.

Lemma script_plains l : plains (flat_map tvql l).
Proof.
  induction l as [|x l IH]; [constructor|]. cbn [flat_map]. apply Forall_app. split; [apply p_vql|exact IH].
Qed.
Lemma script_length l : List.length l <= List.length (flat_map tvql l).
Proof.
  induction l as [|x l IH]; [cbn; lia|]. cbn [flat_map]. rewrite app_length.
  destruct (vql_first x) as (t & ts & -> & _). cbn [List.length]. lia.
Qed.

(** ** What is excluded *)

(** No identifier or string literal has a line that ends in a space. *)
Definition no_trailing_space (l : list gvql) : bool := firms (flat_map tvql l).
Definition clean_script (l : list gvql) : bool := forallb clean_vql l && no_trailing_space l.

(** ** The theorems *)

(** Partial: not for statements [clean_vql] excludes (C49), not for literals
    with lines that end in spaces, not for comments. *)
Theorem C62_reformat_keeps_statements_partial o bl text l :
  parse_multi text = Some l -> clean_script l = true ->
  parse_multi (reformat o bl l) = Some (map nvql l).
Proof.
  intros P C. unfold clean_script in C. apply andb_true_iff in C as (C & F).
  pose proof (parse_multi_ok _ _ P) as K. unfold no_trailing_space in F.
  assert (NE : l <> []) by (intros ->; now apply parse_multi_some in P).
  pose proof (reformat_lexes o bl l K C F) as L.
  unfold parse_multi, tokens. rewrite (Lexes_lex _ _ L).
  pose proof (script_plains l) as PL. rewrite plains_filter, plains_upper by exact PL.
  rewrite multi_parses; auto; unfold fuel_for; [lia|]. pose proof (script_length l). lia.
Qed.

(** Reformatting again, with the same options, changes nothing. *)
Theorem C62_reformat_settles_partial o bl text l :
  parse_multi text = Some l -> clean_script l = true ->
  exists l', parse_multi (reformat o bl l) = Some l' /\ reformat o bl l' = reformat o bl l.
Proof.
  intros P C. exists (map nvql l). split; [now apply (C62_reformat_keeps_statements_partial o bl text)|].
  apply andb_true_iff in C as (C & _). now apply reformat_numbers.
Qed.

(** Whatever the options, the same statements. *)
Theorem C62_options_only_lay_out_partial o bl o' bl' text l :
  parse_multi text = Some l -> clean_script l = true ->
  parse_multi (reformat o bl l) = parse_multi (reformat o' bl' l).
Proof.
  intros P C. now rewrite !(C62_reformat_keeps_statements_partial _ _ text).
Qed.

(** No line of the text ends in a space. *)
Fixpoint ends_blank (s : string) : bool :=
  match s with "" => false | String c "" => Ascii.eqb c " " | String _ r => ends_blank r end.
Definition has_nl (s : string) : bool := existsb (Ascii.eqb nl) (list_ascii_of_string s).
Lemma split_free s : Forall (fun l => has_nl l = false) (split_lines s).
Proof.
  induction s as [|c s IH]; [repeat constructor|]. cbn [split_lines]. destruct (Ascii.eqb_spec c nl) as [->|N].
  - constructor; [reflexivity|exact IH].
  - destruct (split_lines s) as [|l ls]; [repeat constructor|]; [|inversion IH as [|? ? H1 H2]; subst; constructor; [|exact H2]];
      unfold has_nl in *; cbn [list_ascii_of_string existsb] in *;
      (destruct (Ascii.eqb_spec nl c); [congruence|auto]).
Qed.
Lemma trim_right_free s : has_nl s = false -> has_nl (trim_right s) = false.
Proof.
  induction s as [|c s IH]; [reflexivity|]. unfold has_nl in *. cbn [list_ascii_of_string existsb trim_right].
  intro H. apply orb_false_iff in H as (H1 & H2). specialize (IH H2).
  destruct (trim_right s) as [|d t]; [destruct (Ascii.eqb c " "); [reflexivity|]|];
    cbn [list_ascii_of_string existsb] in *; rewrite H1; auto.
Qed.
Lemma trim_right_ends s : ends_blank (trim_right s) = false.
Proof.
  induction s as [|c s IH]; [reflexivity|]. cbn [trim_right].
  destruct (trim_right s) as [|d t]; [|exact IH]. destruct (Ascii.eqb c " ") eqn:E; [reflexivity|exact E].
Qed.
Lemma split_app a r : has_nl a = false ->
  split_lines (a ++ String nl r) = a :: split_lines r.
Proof.
  induction a as [|c a IH]; [reflexivity|]. unfold has_nl in *. cbn [list_ascii_of_string existsb String.append split_lines].
  intro H. apply orb_false_iff in H as (H1 & H2). rewrite Ascii.eqb_sym in H1. now rewrite H1, IH.
Qed.
Lemma split_one a : has_nl a = false -> split_lines a = [a].
Proof.
  induction a as [|c a IH]; [reflexivity|]. unfold has_nl in *. cbn [list_ascii_of_string existsb split_lines].
  intro H. apply orb_false_iff in H as (H1 & H2). rewrite Ascii.eqb_sym in H1. now rewrite H1, IH.
Qed.
Lemma split_joined l : l <> [] -> Forall (fun l => has_nl l = false) l ->
  split_lines (String.concat (String nl "") l) = l.
Proof.
  induction l as [|a l IH]; intros N F; [contradiction|]. inversion F as [|? ? F1 F2]; subst.
  destruct l as [|b l]; [now apply split_one|].
  rewrite concat_cons. cbn [String.append]. rewrite split_app by exact F1. f_equal. apply IH; [discriminate|exact F2].
Qed.
Theorem C62_no_line_ends_in_space o bl l :
  Forall (fun line => ends_blank line = false) (split_lines (reformat o bl l)).
Proof.
  unfold reformat, trim_lines. set (s := rtext _).
  rewrite split_joined.
  - apply Forall_map. apply Forall_forall. intros x _. apply trim_right_ends.
  - destruct (split_lines_cons s) as (x & y & ->). discriminate.
  - apply Forall_map. eapply Forall_impl; [|apply split_free]. exact trim_right_free.
Qed.

(** ** Literals are trimmed too *)

Definition trailing : string := ("SELECT '''a " ++ String nl "b''' AS X FROM info()")%string.
Theorem C62_literal_trimmed_refuted :
  exists l l', parse_multi trailing = Some l /\ forallb clean_vql l = true /\
    parse_multi (reformat default_options true l) = Some l' /\ l' <> map nvql l.
Proof.
  destruct (parse_multi trailing) as [l|] eqn:E; [|vm_compute in E; discriminate].
  exists l. destruct (parse_multi (reformat default_options true l)) as [l'|] eqn:E'.
  - exists l'. split; [reflexivity|]. vm_compute in E. injection E as <-. vm_compute in E'. injection E' as <-.
    split; [vm_compute; reflexivity|]. split; [reflexivity|]. vm_compute. discriminate.
  - vm_compute in E. injection E as <-. vm_compute in E'. discriminate.
Qed.

(** ** Examples *)

Definition script : string :=
  ("LET X(a, b=5) = a + b AND a < 0x10 OR NOT b LET Y <= SELECT * , a AS B, { SELECT * FROM info() LIMIT 1 } AS C, " ++
   "f(x=[1, 2], y={ SELECT a FROM foreach(row={ SELECT * FROM clients() }, query={ SELECT * FROM scope() }) }) AS LongColumnName " ++
   "FROM foo.bar(path='/etc/passwd', `a b`=1e3) WHERE a =~ 'x' AND b.c[1] IN (1, 2) GROUP BY a ORDER BY B DESC LIMIT 10 " ++
   "EXPLAIN SELECT * FROM Y")%string.
Example script_reformats :
  match parse_multi script with
  | Some l => clean_script l && Nat.eqb (List.length l) 3 &&
      negb (String.eqb (reformat default_options true l) (reformat default_options false l)) &&
      negb (String.eqb (reformat default_options true l)
                       (reformat {| indent_threshold := 10; width_threshold := 20 |} true l))
  | None => false
  end = true.
Proof. vm_compute. reflexivity. Qed.
Example script_lines :
  match parse_multi script with
  | Some l => Nat.ltb 10 (List.length (split_lines (reformat default_options true l)))
  | None => false
  end = true.
Proof. vm_compute. reflexivity. Qed.

Print Assumptions C62_reformat_keeps_statements_partial.
Print Assumptions C62_reformat_settles_partial.
Print Assumptions C62_options_only_lay_out_partial.
Print Assumptions C62_no_line_ends_in_space.
Print Assumptions C62_literal_trimmed_refuted.

(** ** Which layout is chosen *)

(** Where several layouts are tried, one of them is chosen, and if one stays
    below the width, so does the chosen one; one with more lines never
    replaces one that stays below. *)
Theorem C62_layout_fits o c cs v :
  In (abtest o true c cs v) (map (fun d => d v) (c :: cs)) /\
  ((exists d, In d (c :: cs) /\ (width (d v) < width_threshold o)%Z) ->
     (width (abtest o true c cs v) < width_threshold o)%Z) /\
  ((width (c v) < width_threshold o)%Z ->
   (forall d, In d cs -> List.length (line_breaks (c v)) < List.length (line_breaks (d v))) ->
     abtest o true c cs v = c v).
Proof.
  unfold abtest. set (w := width_threshold o).
  set (step := fun best d => let t := d v in if better w best t then t else best).
  assert (ONE : forall best d, step best d = best \/ step best d = d v).
  { intros. unfold step. cbv zeta. destruct (better w best (d v)); auto. }
  assert (FIT : forall best d, (width best < w)%Z \/ (width (d v) < w)%Z -> (width (step best d) < w)%Z).
  { intros best d H. unfold step, better. cbv zeta.
    destruct (Z.ltb_spec w (width (d v))), (Z.ltb_spec (width best) w), (Z.ltb_spec w (width best)),
      (Z.ltb_spec (width (d v)) w), (Z.ltb_spec (width best) (width (d v))); cbn [andb];
      try (destruct (Nat.ltb _ _)); cbn [andb]; lia. }
  split; [|split].
  - cbn [map]. assert (K : forall l best, In (fold_left step l best) (best :: map (fun d => d v) l)).
    { induction l as [|d l IH]; intro best; cbn [fold_left map]; [now left|].
      destruct (IH (step best d)) as [H|H]; [|right; right; exact H].
      rewrite <- H. destruct (ONE best d) as [->| ->]; [now left|right; now left]. }
    apply K.
  - intro H. assert (K : forall l best, (width best < w)%Z \/ (exists d, In d l /\ (width (d v) < w)%Z) -> (width (fold_left step l best) < w)%Z).
    { induction l as [|d l IH]; intros best [B|(x & I & B)]; cbn [fold_left]; try contradiction; [exact B| |].
      - apply IH. left. apply FIT. now left.
      - destruct I as [->|I]; [apply IH; left; apply FIT; now right|]. apply IH. right. now exists x. }
    apply K. destruct H as (d & [<-|I] & B); [now left|right]. now exists d.
  - intros F L. revert L. induction cs as [|d l IH]; intro L; cbn [fold_left]; [reflexivity|].
    assert (E : step (c v) d = c v).
    { unfold step, better. cbv zeta. pose proof (L d (or_introl eq_refl)) as LT. apply Nat.ltb_lt in LT. rewrite LT.
      destruct (Z.ltb_spec w (width (d v))), (Z.ltb_spec (width (c v)) w), (Z.ltb_spec w (width (c v))),
        (Z.ltb_spec (width (d v)) w), (Z.ltb_spec (width (c v)) (width (d v))); cbn [andb]; try reflexivity; lia. }
    rewrite E. apply IH. intros x I. apply L. now right.
Qed.
(** Three layouts of one call, of which one stays below the width. *)
Example layout_chosen :
  let st x n := {| frags := []; indents := []; line_breaks := repeat 0 n; pos := 0%Z; width := x |} in
  abtest default_options true (fun _ => st 100%Z 1) [(fun _ => st 60%Z 3); (fun _ => st 40%Z 7)] (st 0%Z 0) = st 60%Z 3.
Proof. reflexivity. Qed.
(** The defaults: 50 and 80 columns. *)
Example default_widths : indent_threshold default_options = 50%Z /\ width_threshold default_options = 80%Z.
Proof. now split. Qed.
Print Assumptions C62_layout_fits.
