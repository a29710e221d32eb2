(** C43: escape sequences in a quoted identifier, and what Go sees in a text
    that need not be UTF-8. *)

From Coq Require Import ZArith NArith List String Ascii Bool Lia.
From Verif Require Import Base BaseProofs Text TextProps.
Import ListNotations.
Open Scope list_scope.
Open Scope string_scope.
Open Scope Z_scope.

(** ** Decoding *)

Lemma div_mod_64 : forall a b, 0 <= b < 64 -> (a * 64 + b) / 64 = a /\ (a * 64 + b) mod 64 = b.
Proof.
  intros a b H. split.
  - symmetry. apply Z.div_unique with (r := b); lia.
  - symmetry. apply Z.mod_unique with (q := a); lia.
Qed.

Lemma chr_eq : forall c z, byte c = z -> chr z = c.
Proof. intros c z <-. apply chr_byte. Qed.

(** The head of every text is the encoding of a character, which is what is
    seen; or it is no encoding, and one byte of it is seen as U+FFFD. *)
Theorem C43_decoding : forall s, s <> "" ->
  (exists r t, valid_rune r = true /\ s = encode_rune r ++ t /\
               decode1 s = (r, String.length (encode_rune r))) \/
  (decode1 s = (65533, 1%nat) /\ forall r t, valid_rune r = true -> s <> encode_rune r ++ t).
Proof.
  intros s NE.
  assert (BAD : decode1 s = (65533, 1%nat) -> forall r t, valid_rune r = true -> s <> encode_rune r ++ t).
  { intros D r t V E. rewrite E, decode_encode in D by exact V. injection D as -> D. discriminate. }
  assert (GOOD : forall r t, valid_rune r = true -> s = encode_rune r ++ t ->
    exists r t, valid_rune r = true /\ s = encode_rune r ++ t /\ decode1 s = (r, String.length (encode_rune r))).
  { intros r t V E. exists r, t. split; [exact V|]. split; [exact E|]. rewrite E. now apply decode_encode. }
  destruct s as [|c0 s1]; [congruence|]. clear NE.
  pose proof (byte_range c0) as R0.
  destruct (Z.ltb_spec (byte c0) 128) as [L0|L0].
  { left. apply (GOOD (byte c0) s1).
    - unfold valid_rune. apply orb_true_iff. left. apply between_spec. lia.
    - unfold encode_rune. replace (valid_rune (byte c0)) with true
        by (symmetry; apply orb_true_iff; left; apply between_spec; lia).
      destruct (Z.ltb_spec (byte c0) 128); [|lia]. now rewrite chr_byte. }
  destruct (Z.ltb_spec (byte c0) 194) as [L1|L1].
  { right. assert (D : decode1 (String c0 s1) = (65533, 1%nat)).
    { cbn. destruct (Z.ltb_spec (byte c0) 128); [lia|]. destruct (Z.ltb_spec (byte c0) 194); [reflexivity|lia]. }
    auto. }
  destruct s1 as [|c1 s2].
  { right. assert (D : decode1 (String c0 "") = (65533, 1%nat)).
    { cbn. destruct (Z.ltb_spec (byte c0) 128); [lia|]. destruct (Z.ltb_spec (byte c0) 194); [lia|reflexivity]. }
    auto. }
  pose proof (byte_range c1) as R1.
  destruct (Z.ltb_spec (byte c0) 224) as [L2|L2].
  { destruct (between 128 191 (byte c1)) eqn:B1.
    - left. apply between_spec in B1. set (r := (byte c0 - 192) * 64 + (byte c1 - 128)).
      destruct (div_mod_64 (byte c0 - 192) (byte c1 - 128) ltac:(lia)) as [DV MD]. fold r in DV, MD.
      assert (V : valid_rune r = true) by (apply orb_true_iff; left; apply between_spec; unfold r; lia).
      apply (GOOD r s2 V). unfold encode_rune. rewrite V.
      destruct (Z.ltb_spec r 128); [unfold r in *; lia|]. destruct (Z.ltb_spec r 2048); [|unfold r in *; lia].
      rewrite DV, MD. cbn [append]. rewrite (chr_eq c0), (chr_eq c1) by lia. reflexivity.
    - right. assert (D : decode1 (String c0 (String c1 s2)) = (65533, 1%nat)).
      { cbn. destruct (Z.ltb_spec (byte c0) 128); [lia|]. destruct (Z.ltb_spec (byte c0) 194); [lia|].
        destruct (Z.ltb_spec (byte c0) 224); [|lia]. now rewrite B1. }
      auto. }
  destruct s2 as [|c2 s3].
  { right. assert (D : decode1 (String c0 (String c1 "")) = (65533, 1%nat)).
    { cbn. destruct (Z.ltb_spec (byte c0) 128); [lia|]. destruct (Z.ltb_spec (byte c0) 194); [lia|].
      destruct (Z.ltb_spec (byte c0) 224); [lia|reflexivity]. }
    auto. }
  pose proof (byte_range c2) as R2.
  destruct (Z.ltb_spec (byte c0) 240) as [L3|L3].
  { destruct (between (if byte c0 =? 224 then 160 else 128) (if byte c0 =? 237 then 159 else 191) (byte c1) &&
              between 128 191 (byte c2)) eqn:B.
    - left. apply andb_true_iff in B. destruct B as [B1 B2]. apply between_spec in B1, B2.
      set (q := (byte c0 - 224) * 64 + (byte c1 - 128)). set (r := q * 64 + (byte c2 - 128)).
      assert (C1 : 128 <= byte c1 <= 191) by (destruct (byte c0 =? 224), (byte c0 =? 237); lia).
      destruct (div_mod_64 (byte c0 - 224) (byte c1 - 128) ltac:(lia)) as [DQ MQ]. fold q in DQ, MQ.
      destruct (div_mod_64 q (byte c2 - 128) ltac:(lia)) as [DV MD]. fold r in DV, MD.
      assert (RL : 2048 <= r < 65536 /\ (r < 55296 \/ 57344 <= r)).
      { unfold r, q. destruct (Z.eqb_spec (byte c0) 224), (Z.eqb_spec (byte c0) 237); lia. }
      assert (V : valid_rune r = true) by (apply orb_true_iff; rewrite !between_spec; lia).
      assert (D4 : r / 4096 = q / 64) by (rewrite <- DV, Z.div_div by lia; reflexivity).
      apply (GOOD r s3 V). unfold encode_rune. rewrite V.
      destruct (Z.ltb_spec r 128); [lia|]. destruct (Z.ltb_spec r 2048); [lia|]. destruct (Z.ltb_spec r 65536); [|lia].
      rewrite D4, DV, MD, DQ, MQ. cbn [append]. rewrite (chr_eq c0), (chr_eq c1), (chr_eq c2) by lia. reflexivity.
    - right. assert (D : decode1 (String c0 (String c1 (String c2 s3))) = (65533, 1%nat)).
      { cbn. destruct (Z.ltb_spec (byte c0) 128); [lia|]. destruct (Z.ltb_spec (byte c0) 194); [lia|].
        destruct (Z.ltb_spec (byte c0) 224); [lia|]. destruct (Z.ltb_spec (byte c0) 240); [|lia].
        now rewrite B. }
      auto. }
  destruct s3 as [|c3 s4].
  { right. assert (D : decode1 (String c0 (String c1 (String c2 ""))) = (65533, 1%nat)).
    { cbn. destruct (Z.ltb_spec (byte c0) 128); [lia|]. destruct (Z.ltb_spec (byte c0) 194); [lia|].
      destruct (Z.ltb_spec (byte c0) 224); [lia|]. destruct (Z.ltb_spec (byte c0) 240); [lia|reflexivity]. }
    auto. }
  pose proof (byte_range c3) as R3.
  destruct ((byte c0 <? 245) &&
            between (if byte c0 =? 240 then 144 else 128) (if byte c0 =? 244 then 143 else 191) (byte c1) &&
            between 128 191 (byte c2) && between 128 191 (byte c3)) eqn:B.
  - left. apply andb_true_iff in B. destruct B as [B B3]. apply andb_true_iff in B. destruct B as [B B2].
    apply andb_true_iff in B. destruct B as [B0 B1]. apply Z.ltb_lt in B0. apply between_spec in B1, B2, B3.
    set (p := (byte c0 - 240) * 64 + (byte c1 - 128)). set (q := p * 64 + (byte c2 - 128)).
    set (r := q * 64 + (byte c3 - 128)).
    assert (C1 : 128 <= byte c1 <= 191) by (destruct (byte c0 =? 240), (byte c0 =? 244); lia).
    destruct (div_mod_64 (byte c0 - 240) (byte c1 - 128) ltac:(lia)) as [DP MP]. fold p in DP, MP.
    destruct (div_mod_64 p (byte c2 - 128) ltac:(lia)) as [DQ MQ]. fold q in DQ, MQ.
    destruct (div_mod_64 q (byte c3 - 128) ltac:(lia)) as [DV MD]. fold r in DV, MD.
    assert (RL : 65536 <= r < 1114112).
    { unfold r, q, p. destruct (Z.eqb_spec (byte c0) 240), (Z.eqb_spec (byte c0) 244); lia. }
    assert (V : valid_rune r = true) by (apply orb_true_iff; rewrite !between_spec; lia).
    assert (D4 : r / 4096 = p).
    { rewrite <- DQ, <- DV, Z.div_div by lia. reflexivity. }
    assert (D5 : r / 262144 = byte c0 - 240).
    { change 262144 with (4096 * 64). rewrite <- Z.div_div by lia. rewrite D4. exact DP. }
    apply (GOOD r s4 V). unfold encode_rune. rewrite V.
    destruct (Z.ltb_spec r 128); [lia|]. destruct (Z.ltb_spec r 2048); [lia|]. destruct (Z.ltb_spec r 65536); [lia|].
    rewrite D5, D4, DV, MD, MQ, MP. cbn [append]. rewrite (chr_eq c0), (chr_eq c1), (chr_eq c2), (chr_eq c3) by lia. reflexivity.
  - right. assert (D : decode1 (String c0 (String c1 (String c2 (String c3 s4)))) = (65533, 1%nat)).
    { cbn -[Z.ltb Z.eqb between]. destruct (Z.ltb_spec (byte c0) 128); [lia|]. destruct (Z.ltb_spec (byte c0) 194); [lia|].
      destruct (Z.ltb_spec (byte c0) 224); [lia|]. destruct (Z.ltb_spec (byte c0) 240); [lia|].
      now rewrite B. }
    auto.
Qed.

(** ** Escape sequences *)

(** [c] is a digit of value [d]. *)
Definition digit_of (base : Z) (c : ascii) (d : Z) : Prop :=
  0 <= d < base /\
  (String.get (Z.to_nat d) "0123456789abcdef" = Some c \/
   String.get (Z.to_nat d) "0123456789ABCDEF" = Some c).

(** [s] consists of [n] digits and has the value [v]. *)
Inductive number_text (base : Z) : nat -> string -> Z -> Prop :=
| NT_nil : number_text base 0 "" 0
| NT_snoc : forall n s v c d, number_text base n s v -> digit_of base c d ->
    number_text base (S n) (s ++ String c "") (v * base + d).

Definition named_escapes : list (string * Z) :=
  [("\a", 7); ("\b", 8); ("\t", 9); ("\n", 10); ("\v", 11); ("\f", 12); ("\r", 13); ("\\", 92)].

(** A piece of a quoted identifier and the character it stands for *)
Inductive ident_piece : string -> Z -> Prop :=
| IP_itself : forall r, valid_rune r = true -> r <> 92 -> ident_piece (encode_rune r) r
| IP_named : forall p r, In (p, r) named_escapes -> ident_piece p r
| IP_x : forall s v, number_text 16 2 s v -> ident_piece ("\x" ++ s) v
| IP_u : forall s v, number_text 16 4 s v -> valid_rune v = true -> ident_piece ("\u" ++ s) v
| IP_U : forall s v, number_text 16 8 s v -> valid_rune v = true -> ident_piece ("\U" ++ s) v
| IP_octal : forall s v, number_text 8 3 s v -> v <= 255 -> ident_piece ("\" ++ s) v.

Lemma hexval_digit : forall c d, digit_of 16 c d -> hexval c = Some d.
Proof.
  intros c d [R H].
  assert (C : exists k, (k < 16)%nat /\ d = Z.of_nat k) by (exists (Z.to_nat d); lia).
  destruct C as (k & K & ->). rewrite Nat2Z.id in H.
  do 16 (destruct k as [|k]; [destruct H as [H|H]; cbn in H; injection H as <-; reflexivity|]). lia.
Qed.

Lemma octval_digit : forall c d, digit_of 8 c d -> octval c = Some d.
Proof.
  intros c d [R H].
  assert (C : exists k, (k < 8)%nat /\ d = Z.of_nat k) by (exists (Z.to_nat d); lia).
  destruct C as (k & K & ->). rewrite Nat2Z.id in H.
  do 8 (destruct k as [|k]; [destruct H as [H|H]; cbn in H; injection H as <-; reflexivity|]). lia.
Qed.

Lemma take_hex_text : forall n s v, number_text 16 n s v ->
  forall k t, take_hex (n + k) (s ++ t) 0 = take_hex k t v.
Proof.
  intros n s v H. induction H as [|n s v c d H IH D]; intros k t; [reflexivity|].
  replace (S n + k)%nat with (n + S k)%nat by lia. rewrite str_app_assoc, IH.
  cbn. now rewrite (hexval_digit c d D).
Qed.

Lemma take_hex_number : forall n s v t, number_text 16 n s v -> take_hex n (s ++ t) 0 = Some v.
Proof.
  intros n s v t H. rewrite <- (Nat.add_0_r n). now rewrite (take_hex_text n s v H).
Qed.

Lemma length_app : forall a b : string, String.length (a ++ b) = (String.length a + String.length b)%nat.
Proof. induction a as [|c a IH]; intros b; cbn; [reflexivity|]. now rewrite IH. Qed.

Lemma number_length : forall b n s v, number_text b n s v -> String.length s = n.
Proof.
  intros b n s v H. induction H as [|n s v c d H IH D]; [reflexivity|].
  rewrite length_app. cbn. lia.
Qed.

Lemma octal_shape : forall s v, number_text 8 3 s v -> exists c1 c2 c3 d1 d2 d3,
  s = String c1 (String c2 (String c3 "")) /\ octval c1 = Some d1 /\ octval c2 = Some d2 /\ octval c3 = Some d3 /\
  v = d1 * 64 + d2 * 8 + d3.
Proof.
  intros s v H. inversion H as [|? s2 v2 c3 d3 H2 D3]; subst.
  inversion H2 as [|? s1 v1 c2 d2 H1 D2]; subst. inversion H1 as [|? s0 v0 c1 d1 H0 D1]; subst.
  inversion H0; subst. exists c1, c2, c3, d1, d2, d3. cbn. repeat split; auto using octval_digit. lia.
Qed.

Lemma ident_piece_char : forall p r t, ident_piece p r ->
  unquote_char (p ++ t) = Some (r, String.length p) /\ p <> "".
Proof.
  intros p r t H. destruct H as [r V N|p r I|s v H|s v H V|s v H V|s v H L].
  - split; [now apply unquote_char_encode|]. intros E. destruct (encode_rune_length r) as [n L]. rewrite E in L. discriminate.
  - unfold named_escapes in I. cbn in I.
    repeat (destruct I as [[= <- <-]|I]; [split; [reflexivity|discriminate]|]). destruct I.
  - split; [|discriminate]. rewrite str_app_assoc.
    change (unquote_char ("\x" ++ s ++ t)) with
      (match take_hex 2 (s ++ t) 0 with Some v => Some (v, 4%nat) | None => None end).
    rewrite (take_hex_number 2 s v t H). cbn [append String.length].
    now rewrite (number_length _ _ _ _ H).
  - split; [|discriminate]. rewrite str_app_assoc.
    change (unquote_char ("\u" ++ s ++ t)) with
      (match take_hex 4 (s ++ t) 0 with
       | Some v => if valid_rune v then Some (v, 6%nat) else None
       | None => None
       end).
    rewrite (take_hex_number 4 s v t H), V. cbn [append String.length].
    now rewrite (number_length _ _ _ _ H).
  - split; [|discriminate]. rewrite str_app_assoc.
    change (unquote_char ("\U" ++ s ++ t)) with
      (match take_hex 8 (s ++ t) 0 with
       | Some v => if valid_rune v then Some (v, 10%nat) else None
       | None => None
       end).
    rewrite (take_hex_number 8 s v t H), V. cbn [append String.length].
    now rewrite (number_length _ _ _ _ H).
  - split; [|discriminate].
    destruct (octal_shape s v H) as (c1 & c2 & c3 & d1 & d2 & d3 & -> & O1 & O2 & O3 & ->).
    change (("\" ++ String c1 (String c2 (String c3 ""))) ++ t) with (String ch_bslash (String c1 (String c2 (String c3 t)))).
    unfold unquote_char. rewrite Ascii.eqb_refl. cbn [negb].
    assert (NO : forall e, octval e = None -> Ascii.eqb c1 e = false).
    { intros e E. destruct (Ascii.eqb_spec c1 e); [congruence|reflexivity]. }
    rewrite !NO by reflexivity. rewrite O1, O2, O3.
    destruct (Z.ltb_spec 255 (d1 * 64 + d2 * 8 + d3)); [lia|reflexivity].
Qed.

Lemma unq_ident_pieces : forall ps, Forall (fun p => ident_piece (fst p) (snd p)) ps -> forall out,
  unq_ident_loop 0 (String.concat "" (map fst ps)) out = out ++ encode_runes (map snd ps).
Proof.
  assert (CC : forall a (l : list string), String.concat "" (a :: l) = a ++ String.concat "" l).
  { intros a l. destruct l; cbn; [now rewrite str_app_nil_r|reflexivity]. }
  induction ps as [|[p r] ps IH]; intros F out; cbn [map fst snd].
  - cbn. now rewrite str_app_nil_r.
  - inversion F as [|? ? H1 H2]; subst. cbn [fst snd] in H1. rewrite CC.
    destruct (ident_piece_char p r (String.concat "" (map fst ps)) H1) as [U NE].
    destruct p as [|c p]; [congruence|]. cbn [append] in *. cbn [unq_ident_loop]. rewrite U.
    cbn [String.length Nat.sub]. rewrite Nat.sub_0_r, unq_ident_skip, IH by exact H2.
    cbn [encode_runes]. now rewrite str_app_assoc.
Qed.

(** An identifier in backticks is the text of the characters its pieces stand
    for: escape sequences are those of Go. *)
Theorem C43_unquote_escapes : forall ps, Forall (fun p => ident_piece (fst p) (snd p)) ps ->
  unquote_ident ("`" ++ String.concat "" (map fst ps) ++ "`") = Ok (encode_runes (map snd ps)).
Proof.
  intros ps F. set (s := String.concat "" (map fst ps)). unfold unquote_ident.
  change ("`" ++ s ++ "`") with (String ch_btick (s ++ String ch_btick "")).
  cbv iota beta. change (Ascii.eqb ch_btick ch_btick) with true. cbv iota.
  change (String ch_btick (s ++ String ch_btick "")) with (String ch_btick "" ++ s ++ String ch_btick "").
  change 1 with (slen (String ch_btick "")) at 1 2.
  rewrite go_slice_inner. simpl obind. unfold s. now rewrite unq_ident_pieces.
Qed.

(** ** Examples *)

Example ident_pieces : Forall (fun p => ident_piece (fst p) (snd p))
  [("a", 97); ("\x41", 65); ("\u00e9", 233); ("\n", 10); ("\101", 65); ("\U0001f600", 128512)] /\
  unquote_ident "`a\x41é\n\101`" = Ok ("aA" ++ encode_rune 233 ++ String "010" "A").
Proof.
  assert (D : forall c k, String.get k "0123456789abcdef" = Some c -> (k < 16)%nat -> digit_of 16 c (Z.of_nat k)).
  { intros c k H L. split; [lia|]. left. now rewrite Nat2Z.id. }
  assert (N : forall n s v c d, number_text 16 n s v -> digit_of 16 c d -> number_text 16 (S n) (s ++ String c "") (v * 16 + d))
    by (intros; now constructor).
  split; [|reflexivity].
  repeat (apply Forall_cons; [cbn [fst snd]|]); [..|apply Forall_nil].
  - apply (IP_itself 97); [reflexivity|discriminate].
  - apply (IP_x "41" 65).
    apply (N 1%nat "4" 4 "1"%char 1); [apply (N 0%nat "" 0 "4"%char 4); [constructor|]|]; [apply (D _ 4%nat)|apply (D _ 1%nat)]; try reflexivity; lia.
  - apply (IP_u "00e9" 233); [|reflexivity].
    apply (N 3%nat "00e" 14 "9"%char 9); [|apply (D _ 9%nat); try reflexivity; lia].
    apply (N 2%nat "00" 0 "e"%char 14); [|apply (D _ 14%nat); try reflexivity; lia].
    apply (N 1%nat "0" 0 "0"%char 0); [|apply (D _ 0%nat); try reflexivity; lia].
    apply (N 0%nat "" 0 "0"%char 0); [constructor|apply (D _ 0%nat); try reflexivity; lia].
  - apply IP_named. cbn. tauto.
  - apply (IP_octal "101" 65); [|lia].
    assert (M : forall n s v c k, number_text 8 n s v -> String.get k "0123456789abcdef" = Some c -> (k < 8)%nat ->
      number_text 8 (S n) (s ++ String c "") (v * 8 + Z.of_nat k)).
    { intros n s v c k H1 H2 H3. constructor; [exact H1|]. split; [lia|left; now rewrite Nat2Z.id]. }
    apply (M 2%nat "10" 8 "1"%char 1%nat); [|reflexivity|lia].
    apply (M 1%nat "1" 1 "0"%char 0%nat); [|reflexivity|lia].
    apply (M 0%nat "" 0 "1"%char 1%nat); [constructor|reflexivity|lia].
  - apply (IP_U "0001f600" 128512); [|reflexivity].
    apply (N 7%nat "0001f60" 8032 "0"%char 0); [|apply (D _ 0%nat); try reflexivity; lia].
    apply (N 6%nat "0001f6" 502 "0"%char 0); [|apply (D _ 0%nat); try reflexivity; lia].
    apply (N 5%nat "0001f" 31 "6"%char 6); [|apply (D _ 6%nat); try reflexivity; lia].
    apply (N 4%nat "0001" 1 "f"%char 15); [|apply (D _ 15%nat); try reflexivity; lia].
    apply (N 3%nat "000" 0 "1"%char 1); [|apply (D _ 1%nat); try reflexivity; lia].
    apply (N 2%nat "00" 0 "0"%char 0); [|apply (D _ 0%nat); try reflexivity; lia].
    apply (N 1%nat "0" 0 "0"%char 0); [|apply (D _ 0%nat); try reflexivity; lia].
    apply (N 0%nat "" 0 "0"%char 0); [constructor|apply (D _ 0%nat); try reflexivity; lia].
Qed.

Example decoded : decode1 (String "255" "a") = (65533, 1%nat) /\ runes (String "226" (String "130" "a")) = [65533; 65533; 97].
Proof. split; reflexivity. Qed.

Print Assumptions C43_decoding.
Print Assumptions C43_unquote_escapes.
