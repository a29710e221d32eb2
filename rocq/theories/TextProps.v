(** Text handling: properties C42 to C46. *)

From Coq Require Import ZArith NArith List String Ascii Bool Lia.
From Verif Require Import Base BaseProofs Text.
Import ListNotations.
Open Scope Z_scope.

(** ** Bytes and UTF-8 *)

Lemma byte_range : forall c, 0 <= byte c < 256.
Proof.
  intros c. unfold byte. pose proof (N_ascii_bounded c). lia.
Qed.

Lemma byte_chr : forall z, 0 <= z < 256 -> byte (chr z) = z.
Proof.
  intros z H. unfold byte, chr. rewrite N_ascii_embedding; lia.
Qed.

Lemma chr_byte : forall c, chr (byte c) = c.
Proof.
  intros c. unfold byte, chr. rewrite N2Z.id. apply ascii_N_embedding.
Qed.

Ltac b2p := repeat match goal with
  | H : (_ && _) = true |- _ => apply andb_true_iff in H; destruct H
  | H : (_ || _) = true |- _ => apply orb_true_iff in H
  | H : (_ <=? _) = true |- _ => apply Z.leb_le in H
  | H : (_ <? _) = true |- _ => apply Z.ltb_lt in H
  | H : (_ <=? _) = false |- _ => apply Z.leb_gt in H
  | H : (_ <? _) = false |- _ => apply Z.ltb_ge in H
  end.

Lemma between_spec : forall lo hi x, between lo hi x = true <-> lo <= x <= hi.
Proof.
  intros. unfold between. rewrite andb_true_iff, !Z.leb_le. reflexivity.
Qed.

Lemma decode_encode : forall r t, valid_rune r = true ->
  decode1 (encode_rune r ++ t) = (r, String.length (encode_rune r)).
Proof.
  intros r t V. unfold encode_rune. rewrite V.
  unfold valid_rune in V. apply orb_true_iff in V. rewrite !between_spec in V.
  destruct (Z.ltb_spec r 128).
  - cbn [append decode1 String.length]. rewrite byte_chr by lia.
    destruct (Z.ltb_spec r 128); [reflexivity|lia].
  - destruct (Z.ltb_spec r 2048).
    + assert (D := Z.div_mod r 64 ltac:(lia)). assert (M := Z.mod_pos_bound r 64 ltac:(lia)).
      set (q := r / 64) in *. set (m := r mod 64) in *.
      cbn [append decode1 String.length]. rewrite !byte_chr by lia.
      destruct (Z.ltb_spec (192 + q) 128); [lia|].
      destruct (Z.ltb_spec (192 + q) 194); [lia|].
      destruct (Z.ltb_spec (192 + q) 224); [|lia].
      replace (between 128 191 (128 + m)) with true by (symmetry; apply between_spec; lia).
      f_equal. lia.
    + assert (D := Z.div_mod r 64 ltac:(lia)). assert (M := Z.mod_pos_bound r 64 ltac:(lia)).
      assert (D' := Z.div_mod (r / 64) 64 ltac:(lia)).
      assert (M' := Z.mod_pos_bound (r / 64) 64 ltac:(lia)).
      assert (Q : r / 4096 = r / 64 / 64) by (rewrite Z.div_div by lia; reflexivity).
      destruct (Z.ltb_spec r 65536).
      * rewrite Q.
        set (q := r / 64) in *. set (m := r mod 64) in *.
        set (q' := q / 64) in *. set (m' := q mod 64) in *.
        cbn [append decode1 String.length]. rewrite !byte_chr by lia.
        destruct (Z.ltb_spec (224 + q') 128); [lia|].
        destruct (Z.ltb_spec (224 + q') 194); [lia|].
        destruct (Z.ltb_spec (224 + q') 224); [lia|].
        destruct (Z.ltb_spec (224 + q') 240); [|lia].
        match goal with |- context [between ?lo ?hi (128 + m')] =>
          replace (between lo hi (128 + m')) with true end.
        2:{ symmetry. apply between_spec.
            destruct (Z.eqb_spec (224 + q') 224); destruct (Z.eqb_spec (224 + q') 237); lia. }
        replace (between 128 191 (128 + m)) with true by (symmetry; apply between_spec; lia).
        cbn [andb]. f_equal. lia.
      * assert (D'' := Z.div_mod (r / 64 / 64) 64 ltac:(lia)).
        assert (M'' := Z.mod_pos_bound (r / 64 / 64) 64 ltac:(lia)).
        assert (Q' : r / 262144 = r / 64 / 64 / 64) by (rewrite !Z.div_div by lia; reflexivity).
        rewrite Q', Q.
        set (q := r / 64) in *. set (m := r mod 64) in *.
        set (q' := q / 64) in *. set (m' := q mod 64) in *.
        set (q'' := q' / 64) in *. set (m'' := q' mod 64) in *.
        cbn [append decode1 String.length]. rewrite !byte_chr by lia.
        destruct (Z.ltb_spec (240 + q'') 128); [lia|].
        destruct (Z.ltb_spec (240 + q'') 194); [lia|].
        destruct (Z.ltb_spec (240 + q'') 224); [lia|].
        destruct (Z.ltb_spec (240 + q'') 240); [lia|].
        destruct (Z.ltb_spec (240 + q'') 245); [|lia].
        match goal with |- context [between ?lo ?hi (128 + m'')] =>
          replace (between lo hi (128 + m'')) with true end.
        2:{ symmetry. apply between_spec.
            destruct (Z.eqb_spec (240 + q'') 240); destruct (Z.eqb_spec (240 + q'') 244); lia. }
        replace (between 128 191 (128 + m)) with true by (symmetry; apply between_spec; lia).
        replace (between 128 191 (128 + m')) with true by (symmetry; apply between_spec; lia).
        cbn [andb]. f_equal. lia.
Qed.

Lemma encode_rune_length : forall r, exists n, String.length (encode_rune r) = S n.
Proof.
  intros r. unfold encode_rune.
  set (v := if valid_rune r then r else rune_error).
  destruct (v <? 128); [simpl; eauto|]. destruct (v <? 2048); [simpl; eauto|].
  destruct (v <? 65536); simpl; eauto.
Qed.

Lemma runes_skip_app : forall a b, runes_skip (String.length a) (a ++ b) = runes_skip 0 b.
Proof. induction a as [|c a IH]; intros b; [reflexivity|apply IH]. Qed.

Lemma runes_encode_app : forall r t, valid_rune r = true ->
  runes (encode_rune r ++ t) = r :: runes t.
Proof.
  intros r t V. pose proof (decode_encode r t V) as D.
  destruct (encode_rune_length r) as [n L].
  destruct (encode_rune r) as [|c e] eqn:E; [discriminate|].
  unfold runes. simpl append in *.
  change (runes_skip 0 (String c (e ++ t))) with
    (let (c0, n0) := decode1 (String c (e ++ t)) in c0 :: runes_skip (n0 - 1) (e ++ t)).
  rewrite D. f_equal. simpl String.length. simpl Nat.sub. rewrite Nat.sub_0_r.
  apply runes_skip_app.
Qed.

Lemma runes_encode : forall l t, Forall (fun r => valid_rune r = true) l ->
  runes (encode_runes l ++ t) = l ++ runes t.
Proof.
  induction l as [|r l IH]; intros t H; [reflexivity|].
  inversion H; subst. simpl. rewrite str_app_assoc, runes_encode_app by assumption.
  f_equal. now apply IH.
Qed.

(** ** C42: string literals denote their unescaped contents *)

(** Writing a byte string as a literal: backslashes and the quote are
    preceded by a backslash. *)
Fixpoint escape (q : ascii) (l : list ascii) : list ascii :=
  match l with
  | [] => []
  | c :: r => if Ascii.eqb c ch_bslash || Ascii.eqb c q
              then ch_bslash :: c :: escape q r
              else c :: escape q r
  end.

Definition literal (q : ascii) (s : string) : string :=
  String q (list_str (escape q (str_list s)) ++ String q "").

Definition is_quote (q : ascii) : Prop := q = ch_dquote \/ q = ch_squote.

(** The lexer's String token (vfilter.go:177):
    q [^q\]* ( \ . [^q\]* )* q, on bytes. *)
Inductive str_body (q : ascii) : list ascii -> Prop :=
| sb_nil : str_body q []
| sb_char : forall c l, c <> q -> c <> ch_bslash -> str_body q l -> str_body q (c :: l)
| sb_esc : forall c l, str_body q l -> str_body q (ch_bslash :: c :: l).

(** The lexer's MultilineString token (vfilter.go:176): ''' text ''', up to
    the first closing '''; and String tokens.  A String token cannot start
    with ''', because '' alone is already one. *)
Inductive string_token : string -> Prop :=
| tok_str : forall q l, is_quote q -> str_body q l ->
    string_token (String q (list_str l ++ String q ""))
| tok_multi : forall t, string_token (triple_quote ++ t ++ triple_quote).

Lemma unq_escape : forall q inp l out, is_quote q ->
  unq_loop inp (escape q l) out = out ++ l.
Proof.
  intros q inp l out HQ. revert out.
  induction l as [|c l IH]; intros out; [now rewrite app_nil_r|].
  simpl escape. destruct (Ascii.eqb_spec c ch_bslash) as [->|N].
  - simpl. rewrite IH, <- app_assoc. reflexivity.
  - simpl orb. destruct (Ascii.eqb_spec c q) as [->|N'].
    + simpl. destruct HQ as [-> | ->]; simpl; rewrite IH, <- app_assoc; reflexivity.
    + cbn [unq_loop]. destruct (Ascii.eqb_spec c ch_bslash); [contradiction|].
      rewrite IH, <- app_assoc. reflexivity.
Qed.

Lemma go_slice_inner : forall a s b,
  go_slice (a ++ s ++ b) (slen a) (slen (a ++ s ++ b) - slen b) = Ok s.
Proof.
  intros a s b. unfold go_slice.
  pose proof (slen_nonneg a). pose proof (slen_nonneg b). pose proof (slen_nonneg s).
  rewrite !slen_app.
  replace ((0 <=? slen a) && (slen a <=? slen a + (slen s + slen b) - slen b)
           && (slen a + (slen s + slen b) - slen b <=? slen a + (slen s + slen b))) with true.
  2:{ symmetry. rewrite !andb_true_iff, !Z.leb_le. lia. }
  f_equal.
  replace (slen a + (slen s + slen b) - slen b - slen a) with (slen s) by lia.
  unfold slen. rewrite !Nat2Z.id. clear.
  induction a as [|c a IH]; simpl.
  - induction s as [|c s IH]; simpl; [destruct b; reflexivity|]. now rewrite IH.
  - apply IH.
Qed.

(** Only a MultilineString starts and ends with three single quotes. *)
Lemma str_token_not_triple : forall q l, is_quote q -> str_body q l ->
  str_prefixb triple_quote (String q (list_str l ++ String q "")) = false.
Proof.
  intros q l HQ B. destruct HQ as [-> | ->]; [reflexivity|].
  destruct B as [|c l N1 N2 B|c l B]; [reflexivity| |reflexivity].
  change (str_prefixb triple_quote (String ch_squote (list_str (c :: l) ++ String ch_squote "")))
    with (if ascii_dec ch_squote c then
            str_prefixb (String ch_squote "") (list_str l ++ String ch_squote "") else false).
  destruct (ascii_dec ch_squote c); [congruence|reflexivity].
Qed.

Lemma unquote_str_token : forall q l, is_quote q -> str_body q l ->
  unquote (String q (list_str l ++ String q "")) = Ok (list_str (unq_loop l l [])).
Proof.
  intros q l HQ B. unfold unquote. rewrite str_token_not_triple by assumption.
  simpl andb. cbv beta iota.
  replace (Ascii.eqb q ch_dquote || Ascii.eqb q ch_squote) with true
    by (destruct HQ as [-> | ->]; reflexivity).
  change (String q (list_str l ++ String q "")) with
    ((String q "" ++ list_str l ++ String q "")%string).
  change 1 with (slen (String q "")) at 1 2.
  rewrite go_slice_inner. simpl obind. rewrite str_list_list_str. reflexivity.
Qed.

Lemma escape_body : forall q l, is_quote q -> str_body q (escape q l).
Proof.
  intros q l HQ. induction l as [|c l IH]; simpl; [constructor|].
  destruct (Ascii.eqb_spec c ch_bslash).
  - simpl. now constructor.
  - destruct (Ascii.eqb_spec c q); simpl; [now constructor|].
    constructor; assumption.
Qed.

(** Every byte string has a literal, with either quote, and it evaluates back
    to the string. *)
Theorem C42_literal_round_trip : forall q s, is_quote q ->
  string_token (literal q s) /\ unquote (literal q s) = Ok s.
Proof.
  intros q s HQ. unfold literal. split.
  - constructor; [exact HQ|]. now apply escape_body.
  - rewrite unquote_str_token by (auto using escape_body).
    rewrite unq_escape by exact HQ. simpl. now rewrite list_str_str_list.
Qed.

(** Text without backslashes and the quote stands for itself. *)
Theorem C42_plain_text : forall q s, is_quote q ->
  ~ In q (str_list s) -> ~ In ch_bslash (str_list s) ->
  unquote (String q (s ++ String q "")) = Ok s.
Proof.
  intros q s HQ N1 N2.
  rewrite <- (list_str_str_list s) at 1.
  replace (str_list s) with (escape q (str_list s)) at 1.
  - apply C42_literal_round_trip. exact HQ.
  - clear - N1 N2. induction (str_list s) as [|c l IH]; [reflexivity|]. simpl in *.
    destruct (Ascii.eqb_spec c ch_bslash); [subst; tauto|].
    destruct (Ascii.eqb_spec c q); [subst; tauto|]. simpl. f_equal. tauto.
Qed.

(** A triple quoted literal is its contents, verbatim. *)
Theorem C42_multiline_verbatim : forall s,
  unquote (triple_quote ++ s ++ triple_quote) = Ok s.
Proof.
  intros s. unfold unquote.
  assert (P1 : str_prefixb triple_quote (triple_quote ++ s ++ triple_quote) = true)
    by reflexivity.
  assert (P2 : str_suffixb triple_quote (triple_quote ++ s ++ triple_quote) = true).
  { unfold str_suffixb. rewrite !str_list_app, !rev_app_distr. reflexivity. }
  rewrite P1, P2. simpl andb. cbv beta iota.
  change 3 with (slen triple_quote). apply go_slice_inner.
Qed.

Lemma list_ind_len : forall (A : Type) (P : list A -> Prop),
  (forall l, (forall l', (List.length l' < List.length l)%nat -> P l') -> P l) ->
  forall l, P l.
Proof.
  intros A P H l. remember (List.length l) as n eqn:E.
  assert (G : forall n l, (List.length l <= n)%nat -> P l).
  { clear - H. induction n as [|n IH]; intros l L; apply H; intros l' L'.
    - lia.
    - apply IH. lia. }
  apply (G (List.length l)). lia.
Qed.

Lemma unq_loop_length : forall inp rest out,
  (List.length (unq_loop inp rest out) <= List.length out + List.length rest)%nat.
Proof.
  intros inp rest. induction rest as [rest IH] using list_ind_len. intros out.
  destruct rest as [|c r1]; simpl; [lia|].
  destruct (Ascii.eqb c ch_bslash).
  - destruct r1 as [|e r2]; [lia|].
    destruct (Ascii.eqb e "x" || Ascii.eqb e "X").
    + destruct r2 as [|h1 [|h2 r4]]; [simpl; lia|simpl; lia|].
      destruct (decode_hex h1 h2).
      * etransitivity; [apply IH; simpl; lia|]. rewrite app_length. simpl. lia.
      * etransitivity; [apply IH; simpl; lia|]. rewrite app_length. simpl. lia.
    + destruct (Ascii.eqb e "r"); [etransitivity; [apply IH; simpl; lia|]; rewrite app_length; simpl; lia|].
      destruct (Ascii.eqb e "n"); [etransitivity; [apply IH; simpl; lia|]; rewrite app_length; simpl; lia|].
      destruct (Ascii.eqb e "t"); etransitivity; try (apply IH; simpl; lia); rewrite app_length; simpl; lia.
  - etransitivity; [apply IH; simpl; lia|]. rewrite app_length. simpl. lia.
Qed.

(** Unquoting a token never panics and never lengthens it. *)
Theorem C42_total_and_bounded : forall t, string_token t ->
  exists s, unquote t = Ok s /\ slen s + 2 <= slen t.
Proof.
  intros t H. destruct H as [q l HQ B|t].
  - rewrite unquote_str_token by assumption. eexists. split; [reflexivity|].
    pose proof (unq_loop_length l l []) as L.
    change (String q (list_str l ++ String q "")) with
      ((String q "" ++ list_str l ++ String q "")%string).
    rewrite !slen_app. change (slen (String q "")) with 1.
    unfold slen. rewrite !list_str_length. cbn [List.length] in L. lia.
  - rewrite C42_multiline_verbatim. eexists. split; [reflexivity|].
    rewrite !slen_app. change (slen triple_quote) with 3. lia.
Qed.

Example C42_example :
  literal ch_dquote (String "a" (String ch_dquote (String ch_bslash "n"))) =
    String ch_dquote (String "a" (String ch_bslash (String ch_dquote
      (String ch_bslash (String ch_bslash (String "n" (String ch_dquote ""))))))) /\
  unquote (String ch_squote (String ch_bslash (String "x" (String "4" (String "1" (String ch_squote "")))))) = Ok "A"%string.
Proof. split; reflexivity. Qed.

(** ** C58: escape sequences denote their characters *)

(** The hexadecimal digits and their values. *)
Definition hex_digits : list (ascii * Z) :=
  [("0", 0); ("1", 1); ("2", 2); ("3", 3); ("4", 4); ("5", 5); ("6", 6); ("7", 7);
   ("8", 8); ("9", 9); ("a", 10); ("b", 11); ("c", 12); ("d", 13); ("e", 14); ("f", 15);
   ("A", 10); ("B", 11); ("C", 12); ("D", 13); ("E", 14); ("F", 15)]%char.

(** A literal is a sequence of pieces: a byte as it is, \n, \r, \t, \xHH or
    \XHH, and a backslash before any other byte. *)
Inductive piece : Type :=
| Plain (c : ascii)
| Newline | Return | Tab
| Hex (x h1 h2 : ascii) (v1 v2 : Z)
| Quoted (c : ascii).

Definition piece_text (p : piece) : list ascii :=
  match p with
  | Plain c => [c]
  | Newline => [ch_bslash; "n"]
  | Return => [ch_bslash; "r"]
  | Tab => [ch_bslash; "t"]
  | Hex x h1 h2 _ _ => [ch_bslash; x; h1; h2]
  | Quoted c => [ch_bslash; c]
  end%char.

(** The byte a piece stands for. *)
Definition denotes (p : piece) : ascii :=
  match p with
  | Plain c => c
  | Newline => "010"
  | Return => "013"
  | Tab => "009"
  | Hex _ _ _ v1 v2 => ascii_of_N (Z.to_N (16 * v1 + v2))
  | Quoted c => c
  end%char.

Definition good_piece (q : ascii) (p : piece) : Prop :=
  match p with
  | Plain c => c <> ch_bslash /\ c <> q
  | Hex x h1 h2 v1 v2 => In x ["x"; "X"]%char /\ In (h1, v1) hex_digits /\ In (h2, v2) hex_digits
  | Quoted c => ~ In c ["x"; "X"; "n"; "r"; "t"]%char
  | _ => True
  end.

Lemma hex_digit_value : forall h v, In (h, v) hex_digits -> hex_lookup h = v /\ 0 <= v < 16.
Proof.
  intros h v H. unfold hex_digits in H. simpl in H.
  repeat (destruct H as [E|H]; [injection E as <- <-; split; [reflexivity|lia]|]). contradiction.
Qed.

Lemma hex_lookup_digit : forall h, 0 <= hex_lookup h -> exists v, In (h, v) hex_digits.
Proof.
  intros h H. destruct h as [b0 b1 b2 b3 b4 b5 b6 b7].
  destruct b0, b1, b2, b3, b4, b5, b6, b7; vm_compute in H; try (exfalso; now apply H);
    eexists; unfold hex_digits; simpl; repeat (first [left; reflexivity | right]).
Qed.

Lemma unq_pieces : forall q inp ps out, Forall (good_piece q) ps ->
  unq_loop inp (flat_map piece_text ps) out = out ++ map denotes ps.
Proof.
  intros q inp ps out H. revert out. induction H as [|p ps G _ IH]; intros out; [now rewrite app_nil_r|].
  cbn [flat_map map]. replace (out ++ denotes p :: map denotes ps) with ((out ++ [denotes p]) ++ map denotes ps)
    by now rewrite <- app_assoc.
  rewrite <- IH. destruct p as [c| | | |x h1 h2 v1 v2|c]; cbn [good_piece] in G.
  - cbn [piece_text app unq_loop]. destruct (Ascii.eqb_spec c ch_bslash); [tauto|reflexivity].
  - reflexivity.
  - reflexivity.
  - reflexivity.
  - destruct G as (X & D1 & D2).
    apply hex_digit_value in D1. apply hex_digit_value in D2. destruct D1 as [E1 R1], D2 as [E2 R2].
    assert (D : decode_hex h1 h2 = Some (denotes (Hex x h1 h2 v1 v2))).
    { unfold decode_hex. rewrite E1, E2.
      destruct (Z.ltb_spec v1 0); [lia|]. destruct (Z.ltb_spec v2 0); [lia|].
      cbn [denotes]. unfold chr. do 3 f_equal. lia. }
    cbn [piece_text app unq_loop]. rewrite D.
    destruct X as [<- | [<- | []]]; reflexivity.
  - cbn [piece_text app unq_loop]. simpl in G.
    destruct (Ascii.eqb_spec c "x"); [subst; tauto|]. destruct (Ascii.eqb_spec c "X"); [subst; tauto|].
    destruct (Ascii.eqb_spec c "r"); [subst; tauto|]. destruct (Ascii.eqb_spec c "n"); [subst; tauto|].
    destruct (Ascii.eqb_spec c "t"); [subst; tauto|]. reflexivity.
Qed.

Lemma pieces_body : forall q ps, is_quote q -> Forall (good_piece q) ps -> str_body q (flat_map piece_text ps).
Proof.
  intros q ps HQ H. induction H as [|p ps G _ IH]; [constructor|]. cbn [flat_map].
  destruct p as [c| | | |x h1 h2 v1 v2|c]; cbn [piece_text app]; cbn [good_piece] in G.
  - constructor; tauto.
  - now constructor.
  - now constructor.
  - now constructor.
  - destruct G as (_ & D1 & D2). apply sb_esc.
    assert (N : forall h v, In (h, v) hex_digits -> h <> q /\ h <> ch_bslash).
    { intros h v D. apply hex_digit_value in D. destruct D as [E R].
      split; intros ->; [destruct HQ as [-> | ->]|]; vm_compute in E; lia. }
    destruct (N _ _ D1), (N _ _ D2). do 2 (apply sb_char; [assumption|assumption|]). exact IH.
  - now constructor.
Qed.

(** A literal made of well formed pieces is a token and denotes the bytes of
    its pieces. *)
Theorem C58_escapes : forall q ps, is_quote q -> Forall (good_piece q) ps ->
  let lit := String q (list_str (flat_map piece_text ps) ++ String q "") in
  string_token lit /\ unquote lit = Ok (list_str (map denotes ps)).
Proof.
  intros q ps HQ H. cbv zeta. split.
  - constructor; [exact HQ|now apply pieces_body].
  - rewrite unquote_str_token by (auto using pieces_body). now rewrite (unq_pieces q _ ps []).
Qed.

Lemma unq_bad_hex : forall inp x h1 h2 r out, In x ["x"; "X"]%char -> decode_hex h1 h2 = None ->
  unq_loop inp (ch_bslash :: x :: h1 :: h2 :: r) out =
  unq_loop inp (x :: h1 :: h2 :: r) (out ++ [nth (List.length out) inp zero]).
Proof.
  intros inp x h1 h2 r out X D.
  destruct X as [<- | [<- | []]]; cbn [unq_loop]; rewrite D; reflexivity.
Qed.

(** A malformed \x escape is copied verbatim, provided no escape precedes it
    in the literal. *)
Theorem C58_malformed_partial : forall q pre x ps h1 h2 r, is_quote q ->
  Forall (fun c => c <> ch_bslash /\ c <> q) pre -> In x ["x"; "X"]%char ->
  Forall (good_piece q) ps -> flat_map piece_text ps = h1 :: h2 :: r ->
  ~ ((exists v, In (h1, v) hex_digits) /\ (exists v, In (h2, v) hex_digits)) ->
  unquote (String q (list_str (pre ++ ch_bslash :: x :: flat_map piece_text ps) ++ String q "")) =
    Ok (list_str (pre ++ ch_bslash :: x :: map denotes ps)).
Proof.
  intros q pre x ps h1 h2 r HQ HP X H W N.
  assert (B : str_body q (pre ++ ch_bslash :: x :: flat_map piece_text ps)).
  { clear - HQ HP H. induction HP as [|c pre [] _ IH]; simpl.
    - apply sb_esc. now apply pieces_body.
    - now constructor. }
  rewrite unquote_str_token by assumption. do 2 f_equal.
  assert (G : forall inp out, inp = out ++ pre ++ ch_bslash :: x :: flat_map piece_text ps ->
            unq_loop inp (pre ++ ch_bslash :: x :: flat_map piece_text ps) out =
            out ++ pre ++ ch_bslash :: x :: map denotes ps).
  { clear B. induction HP as [|c pre [P1 P2] _ IH]; intros inp out E.
    - cbn [app]. rewrite W.
      assert (D : decode_hex h1 h2 = None).
      { unfold decode_hex. destruct (Z.ltb_spec (hex_lookup h1) 0); [reflexivity|].
        destruct (Z.ltb_spec (hex_lookup h2) 0); [reflexivity|].
        exfalso. apply N. split; apply hex_lookup_digit; assumption. }
      rewrite unq_bad_hex by assumption.
      rewrite E, app_nth2, Nat.sub_diag by lia. cbn [nth app]. rewrite <- W.
      change (x :: flat_map piece_text ps) with (flat_map piece_text (Plain x :: ps)).
      rewrite (unq_pieces q).
      + rewrite <- app_assoc. reflexivity.
      + constructor; [|exact H].
        destruct HQ as [-> | ->], X as [<- | [<- | []]]; split; discriminate.
    - cbn [app unq_loop]. destruct (Ascii.eqb_spec c ch_bslash); [contradiction|].
      rewrite IH; [now rewrite <- app_assoc|]. rewrite E, <- app_assoc. reflexivity. }
  now apply (G _ []).
Qed.

(** After an escape it is not: \n\xzz loses the backslash. *)
Theorem C58_malformed_refuted :
  exists q l, is_quote q /\ string_token (String q (list_str (["\"; "n"] ++ l) ++ String q ""))%char /\
    l = ["\"; "x"; "z"; "z"]%char /\
    unquote (String q (list_str (["\"; "n"] ++ l) ++ String q ""))%char <> Ok (list_str (["010"] ++ l))%char.
Proof.
  exists ch_dquote, ["\"; "x"; "z"; "z"]%char. split; [now left|]. split.
  - apply tok_str; [now left|]. repeat constructor; discriminate.
  - split; [reflexivity|]. vm_compute. discriminate.
Qed.

Example C58_example :
  Forall (good_piece ch_dquote) [Plain "a"; Newline; Hex "x" "f" "F" 15 15; Quoted ch_dquote; Quoted "q"]%char /\
  map denotes [Plain "a"; Newline; Hex "x" "f" "F" 15 15; Quoted ch_dquote; Quoted "q"]%char =
    ["a"; "010"; "255"; "034"; "q"]%char /\
  flat_map piece_text [Plain "z"; Plain "z"]%char = ["z"; "z"]%char.
Proof.
  split; [|split; reflexivity].
  repeat apply Forall_cons; try apply Forall_nil; simpl; repeat split; try discriminate; try tauto;
    intuition discriminate.
Qed.

(** ** C43: quoted and dotted identifiers *)

(** Components are sequences of Unicode scalar values without a backtick; a
    component is written between backticks, components are joined by dots. *)
Definition component (l : list Z) : Prop :=
  Forall (fun r => valid_rune r = true) l /\ ~ In 96 l.

Definition quote_component (l : list Z) : string :=
  (String ch_btick (encode_runes l ++ String ch_btick ""))%string.

Fixpoint join (l : list string) : string :=
  match l with
  | [] => EmptyString
  | [x] => x
  | x :: r => (x ++ String "." (join r))%string
  end.

Lemma runes_ascii : forall c t, byte c < 128 -> runes (String c t) = byte c :: runes t.
Proof.
  intros c t H. unfold runes.
  change (runes_skip 0 (String c t)) with
    (let (c0, n) := decode1 (String c t) in c0 :: runes_skip (n - 1) t).
  assert (D : decode1 (String c t) = (byte c, 1%nat)).
  { unfold decode1. destruct (Z.ltb_spec (byte c) 128); [reflexivity|lia]. }
  rewrite D. reflexivity.
Qed.

Lemma split_escaped : forall l t cur, ~ In 96 l ->
  split_loop true (l ++ 96 :: t) cur = split_loop false t (cur ++ l).
Proof.
  induction l as [|c l IH]; intros t cur N; simpl.
  - now rewrite app_nil_r.
  - simpl in N. destruct (Z.eqb_spec c 96); [exfalso; auto|].
    rewrite IH by tauto. now rewrite <- app_assoc.
Qed.

Lemma split_plain : forall l t cur, ~ In 96 l -> ~ In 46 l ->
  split_loop false (l ++ t) cur = split_loop false t (cur ++ l).
Proof.
  induction l as [|c l IH]; intros t cur N N'; simpl.
  - now rewrite app_nil_r.
  - simpl in N, N'. destruct (Z.eqb_spec c 96); [exfalso; auto|].
    destruct (Z.eqb_spec c 46); [exfalso; auto|].
    rewrite IH by tauto. now rewrite <- app_assoc.
Qed.

(** How a component may be written: quoted, or bare when it has no dot. *)
Inductive written : list Z -> string -> Prop :=
| w_quoted : forall l, component l -> written l (quote_component l)
| w_bare : forall l, component l -> ~ In 46 l -> written l (encode_runes l).

Lemma split_written : forall l w t cur, written l w ->
  split_loop false (runes (w ++ t)) cur = split_loop false (runes t) (cur ++ l).
Proof.
  intros l w t cur H. destruct H as [l [V N]|l [V N] N'].
  - unfold quote_component. simpl append.
    rewrite runes_ascii by (unfold byte; simpl; lia).
    replace (byte ch_btick) with 96 by reflexivity.
    rewrite str_app_assoc, runes_encode by assumption. simpl append.
    rewrite runes_ascii by (unfold byte; simpl; lia).
    replace (byte ch_btick) with 96 by reflexivity.
    cbn [split_loop]. change (96 =? 96) with true. cbv iota.
    now apply split_escaped.
  - rewrite runes_encode by assumption. now apply split_plain.
Qed.

(** Joining then splitting is the identity, however each component is
    written. *)
Theorem C43_join_split : forall cs ws, cs <> [] -> Forall2 written cs ws ->
  split_ident (join ws) = map encode_runes cs.
Proof.
  intros cs ws NE H. unfold split_ident. destruct H as [|c w cs ws Hw H]; [congruence|].
  clear NE. revert c w Hw. induction H as [|c' w' cs ws Hw' H IH]; intros c w Hw.
  - simpl join. rewrite <- (str_app_nil_r w). rewrite (split_written c) by exact Hw. reflexivity.
  - change (join (w :: w' :: ws)) with ((w ++ String "." (join (w' :: ws)))%string).
    rewrite (split_written c) by exact Hw.
    rewrite runes_ascii by (unfold byte; simpl; lia).
    replace (byte ".") with 46 by reflexivity.
    cbn [split_loop]. change (46 =? 96) with false. change (46 =? 46) with true. cbv iota.
    simpl app. rewrite (IH c' w' Hw'). reflexivity.
Qed.

Example C43_example :
  split_ident (join ["a"%string; quote_component (runes "b.c"); "d"%string])
    = ["a"; "b.c"; "d"]%string /\
  component (runes "b.c") /\ written (runes "a") "a".
Proof.
  assert (Cm : component (runes "b.c")).
  { split; [repeat constructor|]. vm_compute. intuition discriminate. }
  split; [reflexivity|]. split; [exact Cm|].
  change "a"%string with (encode_runes (runes "a")) at 2. constructor.
  - split; [repeat constructor|]. vm_compute. intuition discriminate.
  - vm_compute. intuition discriminate.
Qed.

(** Unquoting a backquoted identifier. *)
Lemma unq_ident_skip : forall a b out,
  unq_ident_loop (String.length a) (a ++ b) out = unq_ident_loop 0 b out.
Proof. induction a as [|c a IH]; intros b out; [reflexivity|apply IH]. Qed.

Lemma encode_rune_head : forall r c t, valid_rune r = true -> r <> 92 ->
  encode_rune r = String c t -> c <> ch_bslash.
Proof.
  intros r c t V N E. unfold encode_rune in E. rewrite V in E.
  unfold valid_rune in V. apply orb_true_iff in V. rewrite !between_spec in V.
  assert (G : forall z, 0 <= z < 256 -> chr z = ch_bslash -> z = 92).
  { intros z Hz Hc. apply (f_equal byte) in Hc. rewrite byte_chr in Hc by lia. exact Hc. }
  assert (SI : forall a b c d, String a b = String c d -> a = c) by congruence.
  intros ->.
  destruct (Z.ltb_spec r 128).
  - apply SI, G in E; lia.
  - destruct (Z.ltb_spec r 2048).
    + assert (0 <= r / 64) by (apply Z.div_pos; lia).
      assert (r / 64 < 32) by (apply Z.div_lt_upper_bound; lia).
      apply SI, G in E; lia.
    + destruct (Z.ltb_spec r 65536).
      * assert (0 <= r / 4096) by (apply Z.div_pos; lia).
        assert (r / 4096 < 16) by (apply Z.div_lt_upper_bound; lia).
        apply SI, G in E; lia.
      * assert (0 <= r / 262144) by (apply Z.div_pos; lia).
        assert (r / 262144 < 5) by (apply Z.div_lt_upper_bound; lia).
        apply SI, G in E; lia.
Qed.

Lemma unquote_char_encode : forall r t, valid_rune r = true -> r <> 92 ->
  unquote_char (encode_rune r ++ t) = Some (r, String.length (encode_rune r)).
Proof.
  intros r t V N. pose proof (decode_encode r t V) as D.
  destruct (encode_rune r) as [|c e] eqn:E.
  - destruct (encode_rune_length r) as [n L]. rewrite E in L. discriminate.
  - pose proof (encode_rune_head r c e V N E) as NB. simpl append in *.
    unfold unquote_char. destruct (Ascii.eqb_spec c ch_bslash); [contradiction|].
    simpl negb. cbv iota. destruct (Z.ltb_spec (byte c) 128).
    + f_equal. rewrite <- D. unfold decode1.
      destruct (Z.ltb_spec (byte c) 128); [reflexivity|lia].
    + now rewrite D.
Qed.

Lemma unq_ident_encode : forall l out,
  Forall (fun r => valid_rune r = true) l -> ~ In 92 l ->
  unq_ident_loop 0 (encode_runes l) out = (out ++ encode_runes l)%string.
Proof.
  induction l as [|r l IH]; intros out V N.
  - simpl. now rewrite str_app_nil_r.
  - inversion V; subst. simpl in N. simpl encode_runes.
    pose proof (unquote_char_encode r (encode_runes l) H1 ltac:(tauto)) as U.
    pose proof (unq_ident_skip) as SK.
    destruct (encode_rune r) as [|c e] eqn:E.
    + destruct (encode_rune_length r) as [n L]. rewrite E in L. discriminate.
    + simpl append in *. cbn [unq_ident_loop]. rewrite U.
      simpl String.length. simpl Nat.sub. rewrite Nat.sub_0_r, SK.
      rewrite IH by tauto. rewrite E. now rewrite str_app_assoc.
Qed.

(** Quoting an identifier is undone when it has no backslash, *)
Theorem C43_unquote_ident_partial : forall l, component l -> ~ In 92 l ->
  unquote_ident (quote_component l) = Ok (encode_runes l).
Proof.
  intros l [V N] NB. unfold quote_component, unquote_ident.
  change (Ascii.eqb ch_btick ch_btick) with true. cbv iota.
  change (String ch_btick (encode_runes l ++ String ch_btick ""))%string with
    ((String ch_btick "" ++ encode_runes l ++ String ch_btick "")%string).
  change 1 with (slen (String ch_btick "")) at 1 2.
  rewrite go_slice_inner. simpl obind. now rewrite unq_ident_encode.
Qed.

(** and an identifier that is not quoted is left alone. *)
Theorem C43_unquote_bare : forall s,
  (forall t, s <> String ch_btick t) -> unquote_ident s = Ok s.
Proof.
  intros s H. destruct s as [|c s]; [reflexivity|]. unfold unquote_ident.
  destruct (Ascii.eqb_spec c ch_btick); [subst; exfalso; eapply H; reflexivity|reflexivity].
Qed.

(** With a backslash the identifier is not recovered: an escape sequence is
    interpreted, and an unknown one discards everything before it, whereas
    SplitIdent keeps both. *)
Theorem C43_backslash_refuted :
  (exists l, component l /\ unquote_ident (quote_component l) <> Ok (encode_runes l)) /\
  (exists l, component l /\ split_ident (quote_component l) = [encode_runes l] /\
     exists s, unquote_ident (quote_component l) = Ok s /\ slen s < slen (encode_runes l)).
Proof.
  assert (Cm : component [97; 98; 92; 113]).
  { split; [repeat constructor|]. vm_compute. intuition discriminate. }
  split; exists [97; 98; 92; 113]; (split; [exact Cm|]).
  - vm_compute. discriminate.
  - split; [reflexivity|]. eexists. split; [reflexivity|]. vm_compute. reflexivity.
Qed.

(** ** C44: token positions *)

Definition count_nl (l : list ascii) : Z :=
  Z.of_nat (List.length (filter (fun c => Ascii.eqb c ch_nl) l)).

(** Bytes after the last newline. *)
Fixpoint after_last_nl (acc : list ascii) (l : list ascii) : list ascii :=
  match l with
  | [] => acc
  | c :: r => if Ascii.eqb c ch_nl then after_last_nl [] r else after_last_nl (acc ++ [c]) r
  end.

(** Columns count characters; on ASCII text a character is a byte. *)
Definition expected_end (start : position) (value : string) : position :=
  let l := str_list value in
  {| p_offset := p_offset start + slen value;
     p_line := p_line start + count_nl l;
     p_column :=
       if count_nl l =? 0 then p_column start + slen value
       else 1 + Z.of_nat (List.length (after_last_nl [] l)) |}.

Definition ascii_text (s : string) : Prop := Forall (fun c => byte c < 128) (str_list s).

Lemma runes_ascii_text : forall s, ascii_text s -> runes s = map byte (str_list s).
Proof.
  induction s as [|c s IH]; intros H; [reflexivity|].
  inversion H; subst. rewrite runes_ascii by assumption. simpl. f_equal. now apply IH.
Qed.

Lemma end_fold : forall l p acc base,
  p_column p = base + Z.of_nat (List.length acc) ->
  fold_left end_step (map byte l) p =
  {| p_offset := p_offset p + Z.of_nat (List.length l);
     p_line := p_line p + count_nl l;
     p_column := if count_nl l =? 0 then base + Z.of_nat (List.length acc) + Z.of_nat (List.length l)
                 else 1 + Z.of_nat (List.length (after_last_nl acc l)) |}.
Proof.
  induction l as [|c l IH]; intros p acc base H.
  - unfold count_nl. simpl. destruct p as [o ln col]. simpl in *. f_equal; lia.
  - simpl map. simpl fold_left. unfold end_step at 2.
    assert (EQ : (byte c =? 10) = Ascii.eqb c ch_nl).
    { destruct (Ascii.eqb_spec c ch_nl) as [->|N]; [reflexivity|].
      apply Z.eqb_neq. intros E. apply N. rewrite <- (chr_byte c), E. reflexivity. }
    rewrite EQ. unfold count_nl in *. simpl filter. simpl after_last_nl.
    destruct (Ascii.eqb c ch_nl).
    + rewrite (IH _ [] 1) by reflexivity. simpl.
      f_equal; try lia.
      replace (Z.pos (Pos.of_succ_nat (List.length (filter (fun c0 => Ascii.eqb c0 ch_nl) l))) =? 0)
        with false by (symmetry; apply Z.eqb_neq; lia).
      destruct (Z.eqb_spec (Z.of_nat (List.length (filter (fun c0 => Ascii.eqb c0 ch_nl) l))) 0) as [E|E];
        [|reflexivity].
      assert (A : forall acc l, List.length (filter (fun c0 => Ascii.eqb c0 ch_nl) l) = 0%nat ->
                    after_last_nl acc l = acc ++ l).
      { clear. intros acc l. revert acc. induction l as [|c l IH]; intros acc H; simpl in *.
        - now rewrite app_nil_r.
        - destruct (Ascii.eqb c ch_nl); [discriminate|].
          rewrite IH by assumption. now rewrite <- app_assoc. }
      rewrite A by lia. simpl. lia.
    + rewrite (IH _ (acc ++ [c]) base).
      * simpl. rewrite app_length. simpl. f_equal; try lia.
        destruct (Z.of_nat _ =? 0); lia.
      * simpl. rewrite app_length. simpl. lia.
Qed.

Theorem C44_token_positions_partial : forall start value, ascii_text value ->
  find_end_pos start value = expected_end start value.
Proof.
  intros start value H. unfold find_end_pos. rewrite runes_ascii_text by exact H.
  rewrite (end_fold _ _ [] (p_column start)) by (simpl; lia).
  unfold expected_end, slen. rewrite <- str_list_length. simpl.
  f_equal. destruct (count_nl (str_list value) =? 0); [lia|reflexivity].
Qed.

(** The end offset counts characters, not bytes. *)
Theorem C44_multibyte_refuted : exists start value,
  p_offset (find_end_pos start value) <> p_offset start + slen value.
Proof.
  exists {| p_offset := 0; p_line := 1; p_column := 1 |}.
  exists (encode_rune 233). vm_compute. discriminate.
Qed.

(** For every text, the offset advances by the number of characters and the
    line by the number of newlines. *)
Theorem C44_offset_counts_characters : forall start value,
  p_offset (find_end_pos start value) = p_offset start + Z.of_nat (List.length (runes value)).
Proof.
  intros start value. unfold find_end_pos. generalize (runes value) as l. intros l.
  revert start. induction l as [|c l IH]; intros start; simpl; [lia|].
  rewrite IH. unfold end_step. destruct (c =? 10); simpl; lia.
Qed.

Example C44_example :
  find_end_pos {| p_offset := 5; p_line := 2; p_column := 7 |}
    (String "a" (String ch_nl "bc")) = {| p_offset := 9; p_line := 3; p_column := 3 |} /\
  ascii_text (String "a" (String ch_nl "bc")).
Proof. split; [reflexivity|]. repeat constructor. Qed.

(** ** C45: reporting a parse error *)

(** For a position inside the expression (or at its end) the message quotes
    contiguous text with a bar at the position: up to ten bytes before it and
    up to ten after it, the last byte of the expression being left out. *)
Theorem C45_report_error : forall expression offset,
  0 <= offset < slen expression ->
  exists p before after q,
    expression = (p ++ before ++ after ++ q)%string /\
    slen p + slen before = offset /\
    slen before = Z.min 10 offset /\
    slen after = Z.min 10 (slen expression - 1 - offset) /\
    report_error offset expression = Ok (before ++ "|" ++ after)%string.
Proof.
  intros e off H.
  assert (SP : forall n s, (n <= String.length s)%nat ->
     exists a b, s = (a ++ b)%string /\ String.length a = n).
  { clear. induction n as [|n IH]; intros s L.
    - exists EmptyString, s. auto.
    - destruct s as [|c s]; simpl in L; [lia|].
      destruct (IH s ltac:(lia)) as (a & b & -> & E).
      exists (String c a), b. simpl. auto. }
  assert (SP' : forall z s, 0 <= z <= slen s -> exists a b, s = (a ++ b)%string /\ slen a = z).
  { intros z s Hz. unfold slen in *. destruct (SP (Z.to_nat z) s ltac:(lia)) as (a & b & E & L).
    exists a, b. split; [exact E|]. lia. }
  destruct (SP' off e ltac:(lia)) as (pre & post & -> & L1).
  pose proof (slen_app pre post) as LA.
  destruct (SP' (Z.max 0 (off - 10)) pre ltac:(lia)) as (p & before & -> & L2).
  destruct (SP' (Z.min 10 (slen post - 1)) post ltac:(lia)) as (after & q & -> & L3).
  rewrite slen_app in L1.
  exists p, before, after, q. split; [now rewrite !str_app_assoc|]. split; [lia|].
  split; [lia|]. split; [rewrite !slen_app in *; lia|].
  unfold report_error. rewrite !slen_app in *.
  pose proof (slen_nonneg p). pose proof (slen_nonneg before).
  pose proof (slen_nonneg after). pose proof (slen_nonneg q).
  set (en := if (if slen p + slen before + (slen after + slen q) <=? off + 10
       then slen p + slen before + (slen after + slen q) - 1 else off + 10) <? 0 then 0
       else if slen p + slen before + (slen after + slen q) <=? off + 10
       then slen p + slen before + (slen after + slen q) - 1 else off + 10).
  assert (En : en = off + slen after).
  { unfold en.
    destruct (Z.leb_spec (slen p + slen before + (slen after + slen q)) (off + 10));
    match goal with |- (if ?x <? 0 then _ else _) = _ => destruct (Z.ltb_spec x 0) end; lia. }
  set (st := if off - 10 <? 0 then 0 else off - 10).
  assert (St : st = slen p).
  { unfold st. destruct (Z.ltb_spec (off - 10) 0); lia. }
  set (o := if (if slen p + slen before + (slen after + slen q) <=? off
        then slen p + slen before + (slen after + slen q) - 1 else off) <? 0 then 0
        else if slen p + slen before + (slen after + slen q) <=? off
        then slen p + slen before + (slen after + slen q) - 1 else off).
  assert (Oo : o = off).
  { unfold o. destruct (Z.leb_spec (slen p + slen before + (slen after + slen q)) off); [lia|].
    destruct (Z.ltb_spec off 0); lia. }
  rewrite En, St, Oo. clear en En st St o Oo.
  assert (G1 : go_slice ((p ++ before) ++ after ++ q) (slen p) off = Ok before).
  { rewrite str_app_assoc.
    pose proof (go_slice_inner p before (after ++ q)) as G.
    rewrite !slen_app in G.
    replace (slen p + (slen before + (slen after + slen q)) - (slen after + slen q)) with off in G by lia.
    exact G. }
  assert (G2 : go_slice ((p ++ before) ++ after ++ q) off (off + slen after) = Ok after).
  { pose proof (go_slice_inner (p ++ before) after q) as G.
    rewrite !slen_app in G.
    replace (slen p + slen before) with off in G by lia.
    replace (off + (slen after + slen q) - slen q) with (off + slen after) in G by lia.
    exact G. }
  rewrite G1. simpl obind. rewrite G2. reflexivity.
Qed.

(** No panic up to nine bytes past the end either (participle reports the
    end of input at offset = length). *)
Theorem C45_never_panics : forall expression offset,
  0 <= offset <= slen expression + 9 -> report_error offset expression <> Panic.
Proof.
  intros e off H. unfold report_error, go_slice.
  pose proof (slen_nonneg e) as N.
  assert (forall x y : string, obind (Ok x) (fun a => obind (Ok y) (fun b => Ok (a ++ "|" ++ b)%string)) <> Panic)
    by discriminate.
  match goal with |- obind (if ?c then _ else _) _ <> _ => replace c with true end.
  2:{ symmetry. rewrite !andb_true_iff, !Z.leb_le.
      destruct (Z.ltb_spec (off - 10) 0); destruct (Z.leb_spec (slen e) off);
      match goal with |- context [if ?x <? 0 then _ else _] => destruct (Z.ltb_spec x 0) end; lia. }
  simpl obind.
  match goal with |- obind (if ?c then _ else _) _ <> _ => replace c with true end.
  2:{ symmetry. rewrite !andb_true_iff, !Z.leb_le.
      destruct (Z.leb_spec (slen e) (off + 10)); destruct (Z.leb_spec (slen e) off);
      repeat match goal with |- context [if ?x <? 0 then _ else _] => destruct (Z.ltb_spec x 0) end; lia. }
  discriminate.
Qed.

Example C45_example :
  report_error 7 "SELECT FROM foo" = Ok "SELECT |FROM fo"%string.
Proof. reflexivity. Qed.

(** ** C46: statements and comments *)

Section C46.
  Context {stmt comment : Type}.
  Implicit Types items : list (item stmt comment).

  (** The statements of a text in order. *)
  Fixpoint stmts_of items : list stmt :=
    match items with
    | [] => []
    | IComment _ :: r => stmts_of r
    | IStmt s :: r => s :: stmts_of r
    end.

  (** Each statement with the comments between the previous statement and
      it; comments after the last statement belong to nothing. *)
  Fixpoint attach (pending : list comment) items : list (list comment * stmt) :=
    match items with
    | [] => []
    | IComment c :: r => attach (pending ++ [c]) r
    | IStmt s :: r => (pending, s) :: attach [] r
    end.

  Lemma span_comments_spec : forall items cs r pre, span_comments items = (cs, r) ->
    attach pre items = attach (pre ++ cs) r /\ stmts_of items = stmts_of r /\
    (forall c r', r <> IComment c :: r').
  Proof.
    induction items as [|[c|s] items IH]; intros cs r pre H; simpl in H.
    - injection H as <- <-. rewrite app_nil_r. repeat split; discriminate.
    - destruct (span_comments items) as [cs' r'] eqn:E. injection H as <- <-.
      destruct (IH _ _ (pre ++ [c]) eq_refl) as (A & B & C).
      simpl. rewrite A, <- app_assoc. auto.
    - injection H as <- <-. rewrite app_nil_r. repeat split; discriminate.
  Qed.

  Lemma parse_none : forall fuel items, (List.length (stmts_of items) < fuel)%nat ->
    parse_multi fuel items = None -> stmts_of items = [].
  Proof.
    intros fuel items L H. destruct fuel as [|f]; [lia|].
    simpl in H. destruct (span_comments items) as [cs r] eqn:E.
    destruct (span_comments_spec _ _ _ [] E) as (_ & B & C).
    destruct r as [|[c|s] r].
    - now rewrite B.
    - exfalso. eapply C. reflexivity.
    - destruct (span_comments r) as [cs2 r'']. discriminate.
  Qed.

  Lemma attach_no_stmts : forall items pre, stmts_of items = [] -> attach pre items = [].
  Proof.
    induction items as [|[c|s] items IH]; intros pre H; simpl in *; auto. discriminate.
  Qed.

  Lemma attach_pending : forall items a b, stmts_of items <> [] ->
    attach (a ++ b) items =
    match attach b items with (cs, s) :: t => (a ++ cs, s) :: t | [] => [] end.
  Proof.
    induction items as [|[c|s] items IH]; intros a b H; simpl in *.
    - congruence.
    - rewrite <- app_assoc. now apply IH.
    - reflexivity.
  Qed.

  Lemma get_pre : forall m pre,
    @get_statements_pre stmt comment pre m =
    match get_statements m with (cs, s) :: t => (pre ++ cs, s) :: t | [] => [] end.
  Proof. intros [cs v cs2 next] pre. reflexivity. Qed.

  Lemma parse_attach : forall fuel items m, (List.length (stmts_of items) < fuel)%nat ->
    parse_multi fuel items = Some m -> get_statements m = attach [] items.
  Proof.
    induction fuel as [|f IH]; intros items m L H; [lia|].
    simpl in H. destruct (span_comments items) as [cs r] eqn:E.
    destruct (span_comments_spec _ _ _ [] E) as (A & B & _).
    destruct r as [|[c|s] r]; try discriminate.
    destruct (span_comments r) as [cs2 r''] eqn:E2.
    destruct (span_comments_spec _ _ _ [] E2) as (A2 & B2 & _).
    injection H as <-. rewrite A. unfold get_statements. simpl. f_equal.
    rewrite A2. simpl in *. rewrite B in L. simpl in L. rewrite B2 in L.
    destruct (parse_multi f r'') as [n|] eqn:E3.
    - rewrite get_pre, (IH r'' n) by (assumption || lia).
      symmetry. rewrite <- (app_nil_r cs2) at 1. apply attach_pending.
      intros Z. destruct f as [|f']; [discriminate|]. simpl in E3.
      destruct (span_comments r'') as [x y] eqn:E4.
      destruct (span_comments_spec _ _ _ [] E4) as (_ & B4 & _).
      rewrite Z in B4. destruct y as [|[]]; try discriminate. 
    - symmetry. apply attach_no_stmts. apply parse_none with (fuel := f); [lia|exact E3].
  Qed.

  Lemma parse_some : forall fuel items, (List.length (stmts_of items) < fuel)%nat ->
    stmts_of items <> [] -> exists m, parse_multi fuel items = Some m.
  Proof.
    intros fuel items L H. destruct (parse_multi fuel items) eqn:E; [eauto|].
    apply parse_none in E; [congruence|exact L].
  Qed.

  Lemma attach_stmts : forall items pre, map snd (attach pre items) = stmts_of items.
  Proof.
    induction items as [|[c|s] items IH]; intros pre; simpl; auto. now rewrite IH.
  Qed.

  (** All statements in order, each with the comments that precede it. *)
  Theorem C46_statements_partial : forall items fuel,
    stmts_of items <> [] -> (List.length (stmts_of items) < fuel)%nat ->
    exists m, parse_multi fuel items = Some m /\
      get_statements m = attach [] items /\
      map snd (get_statements m) = stmts_of items.
  Proof.
    intros items fuel H L. destruct (parse_some fuel items L H) as [m E].
    exists m. split; [exact E|].
    assert (G := parse_attach _ _ _ L E). rewrite G. split; [reflexivity|]. apply attach_stmts.
  Qed.

  (** Every comment before the last statement is attached exactly once. *)
  Fixpoint comments_of items : list comment :=
    match items with
    | [] => []
    | IComment c :: r => c :: comments_of r
    | IStmt _ :: r => comments_of r
    end.

  Theorem C46_comments_once_partial : forall items last fuel,
    (List.length (stmts_of items) + 1 < fuel)%nat ->
    exists m, parse_multi fuel (items ++ [IStmt last]) = Some m /\
      List.concat (map fst (get_statements m)) = comments_of items.
  Proof.
    intros items last fuel L.
    assert (S : stmts_of (items ++ [IStmt last]) = stmts_of items ++ [last]).
    { clear. induction items as [|[c|s] items IH]; simpl; auto. now rewrite IH. }
    assert (L' : (List.length (stmts_of (items ++ [IStmt last])) < fuel)%nat).
    { rewrite S, app_length. simpl. lia. }
    assert (N : stmts_of (items ++ [IStmt last]) <> []).
    { rewrite S. destruct (stmts_of items); discriminate. }
    destruct (parse_some fuel _ L' N) as [m E]. exists m. split; [exact E|].
    rewrite (parse_attach _ _ _ L' E).
    clear. assert (G : forall pre, List.concat (map fst (attach pre (items ++ [IStmt last]))) = pre ++ comments_of items).
    { induction items as [|[c|s] items IH]; intros pre; simpl.
      - now rewrite !app_nil_r.
      - rewrite IH, <- app_assoc. reflexivity.
      - now rewrite IH. }
    apply (G []).
  Qed.
End C46.

(** Comments after the last statement are dropped. *)
Theorem C46_trailing_comment_refuted : exists (items : list (item nat nat)) m,
  parse_multi 5 items = Some m /\
  List.concat (map fst (get_statements m)) <> comments_of items.
Proof.
  exists [IComment 1%nat; IStmt 7%nat; IComment 2%nat]. eexists. split; [reflexivity|].
  vm_compute. discriminate.
Qed.

Example C46_example :
  exists m, parse_multi 5 [IComment 1; IStmt 10; IComment 2; IComment 3; IStmt 20]%nat = Some m /\
    get_statements m = [([1], 10); ([2; 3], 20)]%nat.
Proof. eexists. split; reflexivity. Qed.

Print Assumptions C42_literal_round_trip.
Print Assumptions C42_plain_text.
Print Assumptions C42_multiline_verbatim.
Print Assumptions C42_total_and_bounded.
Print Assumptions C58_escapes.
Print Assumptions C58_malformed_partial.
Print Assumptions C58_malformed_refuted.
Print Assumptions C43_join_split.
Print Assumptions C43_unquote_ident_partial.
Print Assumptions C43_unquote_bare.
Print Assumptions C43_backslash_refuted.
Print Assumptions C44_token_positions_partial.
Print Assumptions C44_multibyte_refuted.
Print Assumptions C44_offset_counts_characters.
Print Assumptions C45_report_error.
Print Assumptions C45_never_panics.
Print Assumptions C46_statements_partial.
Print Assumptions C46_comments_once_partial.
Print Assumptions C46_trailing_comment_refuted.
