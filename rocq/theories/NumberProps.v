(** C63: a number literal means the number written. *)

From Coq Require Import ZArith QArith Qabs List String Ascii Bool Lia.
From Verif Require Import Base F64 F64Proofs FloatRound Lexer Numeral LexProofs NumeralProofs FloatText.
Import ListNotations.
Open Scope string_scope.
Open Scope list_scope.
Open Scope Z_scope.

(** ** Specification *)

(** The character c is the digit d. *)
Definition writes (c : ascii) (d : Z) : Prop :=
  0 <= d < 16 /\
  (String.get (Z.to_nat d) "0123456789abcdef" = Some c \/ String.get (Z.to_nat d) "0123456789ABCDEF" = Some c).
(** The text s is the digits ds. *)
Fixpoint spells (s : string) (ds : list Z) : Prop :=
  match s, ds with
  | "", [] => True
  | String c s, d :: ds => writes c d /\ spells s ds
  | _, _ => False
  end.
(** The number with these digits in base b. *)
Fixpoint number_of (b : Z) (ds : list Z) : Z :=
  match ds with
  | [] => 0
  | d :: r => d * b ^ Z.of_nat (List.length r) + number_of b r
  end.
Definition below (b : Z) (ds : list Z) : Prop := forall d, In d ds -> d < b.

(** The rational number a float is. *)
Definition Q_of (f : f64) : Q :=
  match f with
  | S754_finite s m e =>
      let z := if s then Z.neg m else Z.pos m in
      if 0 <=? e then inject_Z (z * 2 ^ e) else z # Z.to_pos (2 ^ (- e))
  | _ => 0
  end.
Definition is_finite (f : f64) : Prop :=
  valid_binary 53 1024 f = true /\ match f with S754_zero _ | S754_finite _ _ _ => True | _ => False end.
Definition even_mantissa (f : f64) : Prop :=
  match f with S754_finite _ m _ => Z.even (Z.pos m) = true | _ => True end.

(** f is the float nearest to x; if another is as near, f is the one with
    the even mantissa. *)
Definition nearest (x : Q) (f : f64) : Prop :=
  is_finite f /\
  forall g, is_finite g ->
    (Qabs (x - Q_of f) <= Qabs (x - Q_of g))%Q /\
    ((Qabs (x - Q_of f) == Qabs (x - Q_of g))%Q -> (Q_of f == Q_of g)%Q \/ even_mantissa f).

(** v * 10^k *)
Definition decimal (v k : Z) : Q :=
  if 0 <=? k then inject_Z (v * 10 ^ k) else v # Z.to_pos (10 ^ (- k)).

(** ** Digits *)

Lemma writes_val c d : writes c d -> digit_val c = d.
Proof.
  intros (B & H).
  assert (C : d = 0 \/ d = 1 \/ d = 2 \/ d = 3 \/ d = 4 \/ d = 5 \/ d = 6 \/ d = 7 \/ d = 8 \/ d = 9 \/
              d = 10 \/ d = 11 \/ d = 12 \/ d = 13 \/ d = 14 \/ d = 15) by lia.
  decompose [or] C; subst d; destruct H as [H|H]; cbn in H; injection H as <-; reflexivity.
Qed.
Lemma writes_digit c d : writes c d -> d < 10 -> is_digit c = true.
Proof.
  intros (B & H) L.
  assert (C : d = 0 \/ d = 1 \/ d = 2 \/ d = 3 \/ d = 4 \/ d = 5 \/ d = 6 \/ d = 7 \/ d = 8 \/ d = 9) by lia.
  decompose [or] C; subst d; destruct H as [H|H]; cbn in H; injection H as <-; reflexivity.
Qed.
Lemma writes_zero c : writes c 0 -> c = "0"%char.
Proof. intros (_ & [H|H]); cbn in H; now injection H. Qed.
Lemma writes_ten c d : writes c d -> d < 10 -> c = digit_char d.
Proof.
  intros (B & H) L.
  assert (C : d = 0 \/ d = 1 \/ d = 2 \/ d = 3 \/ d = 4 \/ d = 5 \/ d = 6 \/ d = 7 \/ d = 8 \/ d = 9) by lia.
  decompose [or] C; subst d; destruct H as [H|H]; cbn in H; injection H as <-; reflexivity.
Qed.

Lemma below_cons b d ds : below b (d :: ds) -> d < b /\ below b ds.
Proof. intro H. split; [apply H; now left|]. intros x I. apply H. now right. Qed.

Lemma spells_acc b : forall s ds acc, spells s ds -> below b ds ->
  digits_acc b s acc = Some (acc * b ^ Z.of_nat (List.length ds) + number_of b ds).
Proof.
  induction s as [|c s IH]; intros [|d ds] acc; cbn [spells]; try contradiction.
  - intros _ _. cbn. f_equal. lia.
  - intros (W & S) B. apply below_cons in B as (L & B). cbn [digits_acc]. rewrite (writes_val c d W).
    destruct (Z.ltb_spec d b); [|lia]. rewrite (IH ds _ S B). f_equal.
    cbn [number_of List.length]. rewrite Nat2Z.inj_succ, Z.pow_succ_r by lia. ring.
Qed.
Lemma spells_of b s ds : spells s ds -> below b ds -> ds <> [] -> digits_of b s = Some (number_of b ds).
Proof.
  intros S B N. pose proof (spells_acc b s ds 0 S B) as H. rewrite Z.mul_0_l, Z.add_0_l in H.
  destruct s as [|c s]; [destruct ds; contradiction|exact H].
Qed.
Lemma spells_digits s ds : spells s ds -> below 10 ds -> sall is_digit s = true.
Proof.
  revert ds. induction s as [|c s IH]; intros [|d ds]; cbn [spells]; try contradiction; [reflexivity|].
  intros (W & S) B. apply below_cons in B as (L & B). cbn [sall]. now rewrite (writes_digit c d W L), (IH ds S B).
Qed.
Lemma spells_app a b da db : spells a da -> spells b db -> spells (a ++ b) (da ++ db).
Proof.
  revert da. induction a as [|c a IH]; intros [|d da]; cbn [spells]; try contradiction; [now intros _|].
  intros (W & S) B. cbn. split; [exact W|now apply IH].
Qed.
Lemma spells_length s ds : spells s ds -> String.length s = List.length ds.
Proof.
  revert ds. induction s as [|c s IH]; intros [|d ds]; cbn [spells]; try contradiction; [reflexivity|].
  intros (_ & S). cbn. now rewrite (IH ds S).
Qed.
Lemma number_of_nonneg b s ds : 0 < b -> spells s ds -> 0 <= number_of b ds.
Proof.
  intro HB. revert ds. induction s as [|c s IH]; intros [|d ds]; cbn [spells]; try contradiction; [reflexivity|].
  intros (((P & _) & _) & S). cbn [number_of]. specialize (IH ds S).
  assert (0 < b ^ Z.of_nat (List.length ds)) by (apply Z.pow_pos_nonneg; lia). nia.
Qed.

(** ** Integers *)

Lemma in_range s z (neg : bool) : parse_unsigned s = Some z -> 0 <= z ->
  strip_prefix "-" s = None -> z < 2 ^ 63 + (if neg then 1 else 0) ->
  number_value (if neg then String "-" s else s) = NInt (if neg then - z else z).
Proof.
  intros P Z0 SP L. unfold number_value, parse_int.
  replace (match strip_prefix "-" (if neg then String "-" s else s) with
           | Some r => match parse_unsigned r with
                       | Some z0 => if (- two63 <=? - z0) && (- z0 <? two63) then Some (- z0) else None
                       | None => None end
           | None => match parse_unsigned (if neg then String "-" s else s) with
                     | Some z0 => if (- two63 <=? z0) && (z0 <? two63) then Some z0 else None
                     | None => None end end)
    with (Some (if neg then - z else z)); [reflexivity|].
  destruct neg.
  - cbn [strip_prefix Ascii.eqb Bool.eqb]. rewrite P.
    destruct (Z.leb_spec (- two63) (- z)), (Z.ltb_spec (- z) two63); try reflexivity; unfold two63 in *; lia.
  - rewrite SP, P. destruct (Z.leb_spec (- two63) z), (Z.ltb_spec z two63); try reflexivity; unfold two63 in *; lia.
Qed.

Lemma spells_no_minus s ds r : spells s ds -> ds <> [] -> strip_prefix "-" (s ++ r) = None.
Proof.
  destruct s as [|c s], ds as [|d ds]; cbn [spells]; try contradiction. intros (W & _) _.
  cbn [String.append strip_prefix]. destruct (Ascii.eqb_spec "-" c) as [<-|]; [|reflexivity].
  apply writes_val in W as V. destruct W as (B & _). vm_compute in V. subst d. lia.
Qed.

(** A decimal numeral without a leading zero. *)
Theorem C63_decimal s ds (neg : bool) :
  spells s ds -> below 10 ds -> ds <> [] -> (hd 0 ds <> 0 \/ ds = [0]) ->
  number_of 10 ds < 2 ^ 63 + (if neg then 1 else 0) ->
  number_value (if neg then String "-" s else s) = NInt (if neg then - number_of 10 ds else number_of 10 ds).
Proof.
  intros S B N L R. apply in_range; [|now apply (number_of_nonneg 10 s)| |exact R].
  - unfold parse_unsigned. pose proof (spells_of 10 s ds S B N) as D.
    destruct s as [|c s], ds as [|d ds]; cbn [spells] in S; try contradiction. destruct S as (W & S).
    destruct L as [L|L].
    + cbn [hd] in L. assert (NZ : c <> "0"%char).
      { intros ->. apply writes_val in W. vm_compute in W. congruence. }
      cbn [strip_prefix]. destruct (Ascii.eqb_spec "0" c) as [E|_]; [congruence|].
      destruct c as [[] [] [] [] [] [] [] []]; try exact D. congruence.
    + injection L as -> ->. destruct s; [|contradiction]. apply writes_zero in W. subst c. reflexivity.
  - rewrite <- (sapp_nil_r s). now apply (spells_no_minus s ds).
Qed.

(** Hexadecimal after 0x, in either case. *)
Theorem C63_hexadecimal s ds (neg : bool) :
  spells s ds -> ds <> [] -> number_of 16 ds < 2 ^ 63 + (if neg then 1 else 0) ->
  number_value (if neg then String "-" ("0x" ++ s) else ("0x" ++ s))%string =
  NInt (if neg then - number_of 16 ds else number_of 16 ds).
Proof.
  intros S N R. assert (B : below 16 ds).
  { clear - S. revert ds S. induction s as [|c s IH]; intros [|d ds]; cbn [spells]; try contradiction; [now intros _ x []|].
    intros (((_ & L) & _) & S) x [<-|I]; [exact L|exact (IH ds S x I)]. }
  apply in_range; [|now apply (number_of_nonneg 16 s)|reflexivity|exact R].
  unfold parse_unsigned. rewrite strip_prefix_app. now apply spells_of.
Qed.

(** A leading zero means octal. *)
Theorem C63_octal s ds (neg : bool) :
  spells s ds -> below 8 ds -> ds <> [] -> number_of 8 ds < 2 ^ 63 + (if neg then 1 else 0) ->
  number_value (if neg then String "-" (String "0" s) else String "0" s) =
  NInt (if neg then - number_of 8 ds else number_of 8 ds).
Proof.
  intros S B N R. apply in_range; [|now apply (number_of_nonneg 8 s)|reflexivity|exact R].
  pose proof (spells_of 8 s ds S B N) as D. unfold parse_unsigned.
  destruct s as [|c s], ds as [|d ds]; cbn [spells] in S; try contradiction. destruct S as (W & S).
  apply below_cons in B as (L & B). rewrite (writes_ten c d W) in * by lia. destruct W as ((P & _) & _).
  assert (C : d = 0 \/ d = 1 \/ d = 2 \/ d = 3 \/ d = 4 \/ d = 5 \/ d = 6 \/ d = 7) by lia.
  decompose [or] C; subst d; exact D.
Qed.

(** ** Floats *)

(** A float in units of 2^-1074. *)
Definition Z_of (f : f64) : Z :=
  match f with
  | S754_finite s m e => (if s then Z.neg m else Z.pos m) * 2 ^ (e + 1074)
  | _ => 0
  end.
Definition tiny : positive := Z.to_pos (2 ^ 1074).
Lemma tiny_eq : Z.pos tiny = 2 ^ 1074.
Proof. unfold tiny. apply Z2Pos.id. reflexivity. Qed.

Lemma Q_of_Z f : is_finite f -> (Q_of f == Z_of f # tiny)%Q.
Proof.
  intros (V & F). destruct f as [s| | |s m e]; try contradiction.
  - reflexivity.
  - cbn [valid_binary] in V. unfold bounded, canonical_mantissa in V. apply andb_true_iff in V as (V & _).
    apply Zeq_bool_eq in V. rewrite fexp_eq in V. cbn [Q_of Z_of].
    set (z := if s then Z.neg m else Z.pos m). unfold Qeq.
    assert (E : -1074 <= e) by lia.
    destruct (Z.leb_spec 0 e) as [L|L]; cbn [Qnum Qden inject_Z]; rewrite tiny_eq.
    + rewrite Z.pow_add_r by lia. ring.
    + rewrite Z2Pos.id by (apply pow2_pos; lia).
      replace (2 ^ 1074) with (2 ^ (e + 1074) * 2 ^ (- e)) by (rewrite <- Z.pow_add_r by lia; f_equal; lia). ring.
Qed.

Lemma finite_is f : finite_float f -> is_finite f.
Proof.
  destruct f as [s|s| |s m e]; cbn [finite_float]; try contradiction; [now split|].
  intros ((B & E & C) & L). split; [|exact I]. cbn [valid_binary]. unfold bounded, canonical_mantissa.
  apply andb_true_iff. split; [|apply Z.leb_le; exact L].
  apply Zeq_is_eq_bool. rewrite fexp_eq. change (Z.pos (digits2_pos m)) with (Zdigits2 (Z.pos m)).
  pose proof (digits_le (Z.pos m) 53 ltac:(lia) ltac:(lia)) as D.
  destruct C as [->|C]; [lia|]. pose proof (digits_ge (Z.pos m) 52 ltac:(lia) C). lia.
Qed.

Lemma finite_scaled f : is_finite f -> scaled_float (-1074) (Z_of f).
Proof.
  intros (V & F). destruct f as [s| | |s m e]; try contradiction.
  - exists 0, 0. split; [split; lia|reflexivity].
  - cbn [valid_binary] in V. unfold bounded, canonical_mantissa in V. apply andb_true_iff in V as (V & _).
    apply Zeq_bool_eq in V. rewrite fexp_eq in V. change (Z.pos (digits2_pos m)) with (Zdigits2 (Z.pos m)) in V.
    exists (Z.pos m), e. pose proof (digits_bound (Z.pos m) ltac:(lia)) as (_ & U).
    pose proof (pow2_le (Zdigits2 (Z.pos m)) 53 ltac:(cbn; lia) ltac:(lia)). split; [split; lia|].
    cbn [Z_of]. replace (e - -1074) with (e + 1074) by lia. rewrite Z.abs_mul, (Z.abs_eq (2 ^ _)) by (apply Z.pow_nonneg; lia).
    now destruct s.
Qed.

Lemma distance (A B : Z) f : 0 < B -> is_finite f ->
  (Qabs ((A # (Z.to_pos B * tiny)) - Q_of f) == Z.abs (A - Z_of f * B) # (Z.to_pos B * tiny))%Q.
Proof.
  intros HB F. rewrite (Q_of_Z f F).
  assert (E : ((A # Z.to_pos B * tiny) - (Z_of f # tiny) == (A - Z_of f * B) # (Z.to_pos B * tiny))%Q).
  { unfold Qeq, Qminus, Qplus, Qopp. cbn [Qnum Qden]. rewrite !Pos2Z.inj_mul, Z2Pos.id by exact HB. ring. }
  rewrite E. reflexivity.
Qed.

Lemma Qle_same a b d : (a # d <= b # d)%Q <-> a <= b.
Proof. unfold Qle. cbn [Qnum Qden]. rewrite <- Z.mul_le_mono_pos_r by lia. reflexivity. Qed.
Lemma Qeq_same a b d : (a # d == b # d)%Q <-> a = b.
Proof. unfold Qeq. cbn [Qnum Qden]. rewrite Z.mul_cancel_r by lia. reflexivity. Qed.

Lemma decimal_fraction (v k : Z) :
  (decimal v k == (dec_num v k * 2 ^ 1074) # (Z.to_pos (dec_den k) * tiny))%Q.
Proof.
  unfold decimal, dec_num, dec_den, Qeq. destruct (Z.leb_spec 0 k) as [L|L]; cbn [Qnum Qden inject_Z].
  - rewrite (Z.max_l k 0), (Z.max_r (- k) 0) by lia. change (10 ^ 0) with 1. rewrite Pos2Z.inj_mul, tiny_eq.
    change (Z.pos (Z.to_pos 1)) with 1. ring.
  - rewrite (Z.max_r k 0), (Z.max_l (- k) 0) by lia. change (10 ^ 0) with 1. rewrite Pos2Z.inj_mul, tiny_eq.
    rewrite Z2Pos.id by (apply pow10_pos; lia). ring.
Qed.

Definition sign (neg : bool) (z : Z) : Z := if neg then - z else z.

(** ParseFloat rounds to the nearest: or the number is too large for any. *)
Lemma f_of_decimal_nearest neg m e : 0 <= m ->
  match finite_only (f_of_decimal neg m e) with
  | Some f => nearest (decimal (sign neg m) e) f
  | None => (inject_Z (2 ^ 1024 - 2 ^ 970) <= decimal m e)%Q
  end.
Proof.
  intro HM. destruct (Z.eq_dec m 0) as [->|NZ].
  - cbn [f_of_decimal finite_only Z.eqb f_is_inf]. split; [split; [reflexivity|exact I]|].
    intros g FG. split; [|now right].
    assert (E : (decimal (sign neg 0) e - Q_of (S754_zero neg) == 0)%Q).
    { cbn [Q_of]. unfold decimal. replace (sign neg 0) with 0 by (now destruct neg).
      destruct (0 <=? e); reflexivity. }
    rewrite E. change (Qabs 0) with 0%Q. apply Qabs_nonneg.
  - destruct (f_of_decimal_rounded neg m e ltac:(lia)) as (X & E & R & ->).
    pose proof (rounded_pair _ _ _ _ _ R) as (B & B'). pose proof (rounded_canonical _ _ _ _ _ R) as C.
    pose proof (dec_den_pos e) as HD.
    unfold finite_only. destruct (f_is_inf (pack neg X E)) eqn:INF.
    + (* overflow *)
      rewrite decimal_fraction. set (A := dec_num m e * 2 ^ 1074) in *. set (D := dec_den e) in *.
      assert (G : (2 ^ 1024 - 2 ^ 970) * 2 ^ 1074 * D <= A).
      { destruct X as [|x|x]; try discriminate INF. cbn [pack] in INF. destruct (Z.leb_spec E 971) as [|L]; [discriminate INF|].
        destruct R as (n & e0 & E0 & N & NS & BD & ME). cbv zeta in ME.
        replace (e0 - -1074) with (e0 + 1074) in * by lia.
        assert (MB : forall x y, x <= y -> x * D <= y * D) by (intros; apply Z.mul_le_mono_nonneg_r; lia).
        destruct ME as [(_ & _ & ->)|(PK & _ & ->)].
        - transitivity (n * 2 ^ (e0 + 1074) * D); [|apply BD]. apply MB.
          transitivity (2 ^ 52 * 2 ^ (972 + 1074)); [vm_compute; discriminate|].
          apply Z.mul_le_mono_nonneg; [lia|lia|apply Z.pow_nonneg; lia|apply pow2_le; lia].
        - destruct (Z.eq_dec e0 971) as [->|NE].
          + set (c := 2 * A ?= _) in PK.
            assert (n = 2 ^ 53 - 1 /\ c <> Lt).
            { pose proof (pick_bounds n c). destruct c; cbn [pick] in *; split; try lia; try discriminate; intro; cbn in *; lia. }
            destruct H as (-> & NL). unfold c in NL. apply -> Z.compare_ge_iff in NL.
            assert (K : (2 ^ 1024 - 2 ^ 970) * 2 ^ 1074 * 2 = (2 * (2 ^ 53 - 1) + 1) * 2 ^ (971 + 1074)) by (vm_compute; reflexivity).
            rewrite <- K in NL. lia.
          + transitivity (n * 2 ^ (e0 + 1074) * D); [|apply BD]. apply MB.
            transitivity (2 ^ 52 * 2 ^ (972 + 1074)); [vm_compute; discriminate|].
            apply Z.mul_le_mono_nonneg; [lia|lia|apply Z.pow_nonneg; lia|apply pow2_le; lia]. }
      unfold Qle. cbn [Qnum Qden inject_Z]. rewrite Pos2Z.inj_mul, Z2Pos.id, tiny_eq by exact HD. lia.
    + assert (FF : finite_float (pack neg X E)).
      { destruct X as [|x|x]; [exact I| |lia]. cbn [pack] in *. destruct (Z.leb_spec E 971); [|discriminate INF].
        cbn [finite_float]. split; [split; [exact B|split; assumption]|assumption]. }
      apply finite_is in FF. split; [exact FF|]. intros g FG.
      assert (ED : (decimal (sign neg m) e == sign neg (dec_num m e * 2 ^ 1074) # (Z.to_pos (dec_den e) * tiny))%Q).
      { rewrite decimal_fraction. destruct neg; cbn [sign]; [|reflexivity].
        replace (dec_num (- m) e * 2 ^ 1074) with (- (dec_num m e * 2 ^ 1074)) by (unfold dec_num; ring). reflexivity. }
      rewrite ED, !distance by assumption. rewrite Qle_same, Qeq_same, (Q_of_Z _ FF), (Q_of_Z _ FG), Qeq_same.
      set (A := dec_num m e * 2 ^ 1074) in *. set (D := dec_den e) in *.
      assert (EF : Z_of (pack neg X E) = sign neg (X * 2 ^ (E - -1074))).
      { replace (E - -1074) with (E + 1074) by lia. destruct X as [|x|x]; [now destruct neg| |lia]. cbn [pack] in *.
        destruct (Z.leb_spec E 971); [|discriminate INF]. cbn [Z_of]. destruct neg; cbn [sign]; [|reflexivity].
        change (Z.neg x) with (- Z.pos x). ring. }
      assert (EV : Z.even X = true -> even_mantissa (pack neg X E)).
      { destruct X as [|x|x]; [exact (fun _ => I)| |lia]. cbn [pack]. destruct (E <=? 971); [exact (fun h => h)|exact (fun _ => I)]. }
      rewrite EF. set (F := X * 2 ^ (E - -1074)) in *.
      pose proof (finite_scaled g FG) as SG.
      assert (SG' : scaled_float (-1074) (sign neg (Z_of g))).
      { destruct SG as (a & b & P & EQ). exists a, b. split; [exact P|]. rewrite <- EQ. destruct neg; cbn [sign]; lia. }
      destruct (rounded_nearest A D (-1074) X E _ ltac:(lia) HD R SG') as (N1 & N2). fold F in N1, N2.
      assert (S1 : Z.abs (sign neg A - sign neg F * D) = Z.abs (A - F * D)) by (destruct neg; cbn [sign]; lia).
      assert (S2 : Z.abs (sign neg A - Z_of g * D) = Z.abs (A - sign neg (Z_of g) * D)) by (destruct neg; cbn [sign]; lia).
      rewrite S1, S2. split; [exact N1|]. intro EQ.
      destruct (Z.eq_dec (sign neg (Z_of g)) F) as [EG|NG].
      * left. rewrite <- EG. destruct neg; cbn [sign]; lia.
      * right. apply EV. now apply N2.
Qed.

(** ** Literals with a point or an exponent *)

(** e or E, a sign, digits; or nothing. *)
Inductive exponent : string -> Z -> Prop :=
| ExpNone : exponent "" 0
| Exp c s ds : c = "e"%char \/ c = "E"%char -> spells s ds -> below 10 ds -> ds <> [] ->
    exponent (String c s) (number_of 10 ds)
| ExpPlus c s ds : c = "e"%char \/ c = "E"%char -> spells s ds -> below 10 ds -> ds <> [] ->
    exponent (String c (String "+" s)) (number_of 10 ds)
| ExpMinus c s ds : c = "e"%char \/ c = "E"%char -> spells s ds -> below 10 ds -> ds <> [] ->
    exponent (String c (String "-" s)) (- number_of 10 ds).

(** What comes after the leading digits. *)
Definition tail_char (c : ascii) : bool := Ascii.eqb c "." || Ascii.eqb c "e" || Ascii.eqb c "E".
Definition tail (r : string) : Prop := match r with "" => True | String c _ => tail_char c = true end.

Lemma tail_not_digit r : tail r -> first_char is_digit r = false.
Proof.
  destruct r as [|c r]; [reflexivity|]. cbn [tail first_char]. intro T. unfold tail_char in T.
  apply orb_true_iff in T as [T|T]; [apply orb_true_iff in T as [T|T]|]; apply Ascii.eqb_eq in T; subst c; reflexivity.
Qed.
Lemma exponent_tail x e : exponent x e -> tail x.
Proof. intros [|c s ds H|c s ds H|c s ds H]; [exact I| | |]; cbn [tail]; destruct H as [-> | ->]; reflexivity. Qed.

Lemma no_sign_or_hex a r : sall is_digit a = true -> tail r ->
  strip_prefix "-" (a ++ r) = None /\ strip_prefix "0x" (a ++ r) = None.
Proof.
  intros D T.
  assert (K : forall p, p = "-"%char \/ p = "x"%char -> strip_prefix (String p "") r = None).
  { intros p P. destruct r as [|c r]; [reflexivity|]. cbn [tail] in T. unfold tail_char in T. cbn [strip_prefix].
    apply orb_true_iff in T as [T|T]; [apply orb_true_iff in T as [T|T]|]; apply Ascii.eqb_eq in T; subst c;
      destruct P as [-> | ->]; reflexivity. }
  destruct a as [|c a]; cbn [String.append].
  - split; [now apply K; left|]. destruct r as [|c r]; [reflexivity|]. cbn [tail] in T. unfold tail_char in T. cbn [strip_prefix].
    apply orb_true_iff in T as [T|T]; [apply orb_true_iff in T as [T|T]|]; apply Ascii.eqb_eq in T; subst c; reflexivity.
  - cbn [sall] in D. apply andb_true_iff in D as (D & D'). cbn [strip_prefix].
    assert (Ascii.eqb "-" c = false) as -> by char_dis D. split; [reflexivity|].
    destruct (Ascii.eqb "0" c); [|reflexivity].
    destruct a as [|c' a]; cbn [String.append].
    + pose proof (K "x"%char (or_intror eq_refl)) as H. destruct r; [reflexivity|]. exact H.
    + cbn [sall] in D'. apply andb_true_iff in D' as (D' & _). now assert (Ascii.eqb "x" c' = false) as -> by char_dis D'.
Qed.

Lemma spells_first s ds c : spells s ds -> below 10 ds -> ds <> [] -> is_digit c = false -> strip_prefix (String c "") s = None.
Proof.
  destruct s as [|c' s], ds as [|d ds]; cbn [spells]; try contradiction. intros (W & _) B _ N.
  apply below_cons in B as (L & _). cbn [strip_prefix]. destruct (Ascii.eqb_spec c c') as [<-|]; [|reflexivity].
  rewrite (writes_digit c d W L) in N. discriminate.
Qed.

Lemma exponent_read x e : exponent x e ->
  match x with
  | "" => Some 0
  | String c r =>
      if Ascii.eqb c "e" || Ascii.eqb c "E" then
        match strip_prefix "-" r with
        | Some r => match digits_of 10 r with Some z => Some (- z) | None => None end
        | None => match strip_prefix "+" r with Some r => digits_of 10 r | None => digits_of 10 r end
        end
      else None
  end = Some e.
Proof.
  intros [|c s ds H S B N|c s ds H S B N|c s ds H S B N]; [reflexivity| | |];
    (assert (Ascii.eqb c "e" || Ascii.eqb c "E" = true) as -> by (destruct H as [-> | ->]; reflexivity)).
  - rewrite !(spells_first s ds) by (assumption || reflexivity). now apply spells_of.
  - cbn [strip_prefix Ascii.eqb Bool.eqb]. now apply spells_of.
  - cbn [strip_prefix Ascii.eqb Bool.eqb]. now rewrite (spells_of 10 s ds S B N).
Qed.

Definition signed (neg : bool) (s : string) : string := if neg then String "-" s else s.

Lemma strip_sign neg s : strip_prefix "-" s = None ->
  match strip_prefix "-" (signed neg s) with Some r => (true, r) | None => (false, signed neg s) end = (neg, s).
Proof. intro H. destruct neg; cbn [signed]; [reflexivity|]. now rewrite H. Qed.

Lemma parse_float_text (neg pt : bool) a b x da db ex :
  spells a da -> below 10 da -> spells b db -> below 10 db -> (pt = false -> b = "") -> da ++ db <> [] ->
  exponent x ex ->
  parse_float (signed neg (a ++ (if pt then String "." b else "") ++ x)) =
  finite_only (f_of_decimal neg (number_of 10 (da ++ db)) (ex - Z.of_nat (List.length db))).
Proof.
  intros SA BA SB BB NP ND X.
  pose proof (spells_digits a da SA BA) as DA. pose proof (spells_digits b db SB BB) as DB.
  pose proof (exponent_tail x ex X) as TX.
  set (r := ((if pt then String "." b else "") ++ x)%string).
  assert (TR : tail r) by (unfold r; destruct pt; [reflexivity|exact TX]).
  destruct (no_sign_or_hex a r DA TR) as (NM & NH).
  unfold parse_float. rewrite strip_sign by exact NM. rewrite NH.
  rewrite (span_app is_digit a r DA (tail_not_digit r TR)).
  assert (R2 : match strip_prefix "." r with Some q => span is_digit q | None => ("", r) end = (b, x)).
  { unfold r. destruct pt.
    - cbn [String.append strip_prefix Ascii.eqb Bool.eqb]. apply span_app; [exact DB|now apply tail_not_digit].
    - rewrite (NP eq_refl). cbn [String.append].
      assert (strip_prefix "." x = None) as ->; [|reflexivity].
      destruct X as [|c s ds H|c s ds H|c s ds H]; [reflexivity| | |]; destruct H as [-> | ->]; reflexivity. }
  rewrite R2. cbv zeta. rewrite (exponent_read x ex X).
  rewrite (spells_of 10 (a ++ b) (da ++ db)).
  - now rewrite (spells_length b db SB).
  - now apply spells_app.
  - intros d I. apply in_app_or in I as [I|I]; auto.
  - exact ND.
Qed.

Lemma exponent_not_int (neg : bool) a da c s : spells a da -> below 10 da -> c = "e"%char \/ c = "E"%char ->
  parse_int (signed neg (a ++ String c s)) = None.
Proof.
  intros SA BA HC. pose proof (spells_digits a da SA BA) as DA.
  assert (V : digit_val c = 14) by (destruct HC as [-> | ->]; reflexivity).
  assert (TR : tail (String c s)) by (cbn [tail]; destruct HC as [-> | ->]; reflexivity).
  destruct (no_sign_or_hex a (String c s) DA TR) as (NM & NH).
  assert (K : forall b t acc, b <= 10 -> digits_acc b (t ++ String c s) acc = None).
  { intros b. induction t as [|c' t IH]; intros acc B; cbn [String.append digits_acc].
    - rewrite V. destruct (Z.ltb_spec 14 b); [lia|reflexivity].
    - destruct (digit_val c' <? b); [now apply IH|reflexivity]. }
  assert (K' : forall b t, b <= 10 -> digits_of b (t ++ String c s) = None).
  { intros b [|c' t] B; [exact (K b "" 0 B)|exact (K b (String c' t) 0 B)]. }
  assert (P : parse_unsigned (a ++ String c s) = None).
  { unfold parse_unsigned. rewrite NH. destruct a as [|c0 a]; cbn [String.append].
    - destruct HC as [-> | ->]; exact (K' 10 "" ltac:(lia)).
    - assert (D : digits_of 10 (String c0 (a ++ String c s)) = None) by exact (K' 10 (String c0 a) ltac:(lia)).
      destruct (a ++ String c s)%string as [|c1 r] eqn:Z; [destruct a; discriminate Z|].
      destruct c0 as [[] [] [] [] [] [] [] []]; try exact D. rewrite <- Z. apply K'. lia. }
  unfold parse_int. destruct neg; cbn [signed].
  - cbn [strip_prefix Ascii.eqb Bool.eqb]. now rewrite P.
  - now rewrite NM, P.
Qed.

(** What a literal that is not an integer means. *)
Definition means (v : numval) (neg : bool) (m k : Z) : Prop :=
  match v with
  | NFloat f => nearest (decimal (sign neg m) k) f
  | NBad => (inject_Z (2 ^ 1024 - 2 ^ 970) <= decimal m k)%Q
  | NInt _ => False
  end.

Lemma means_float neg m k : 0 <= m ->
  means (match finite_only (f_of_decimal neg m k) with Some f => NFloat f | None => NBad end) neg m k.
Proof. intro H. pose proof (f_of_decimal_nearest neg m k H) as K. destruct (finite_only _); exact K. Qed.

(** Digits, a point, digits, perhaps an exponent: the nearest float; no value
    only beyond the largest float. *)
Theorem C63_point (neg : bool) a b x da db ex :
  spells a da -> below 10 da -> spells b db -> below 10 db -> db <> [] -> exponent x ex ->
  means (number_value (signed neg (a ++ "." ++ b ++ x))) neg
        (number_of 10 (da ++ db)) (ex - Z.of_nat (List.length db)).
Proof.
  intros SA BA SB BB ND X. unfold number_value.
  change ("." ++ b ++ x)%string with (String "." (b ++ x)).
  replace (parse_int (signed neg (a ++ String "." (b ++ x)))) with (@None Z).
  2:{ destruct neg; cbn [signed]; symmetry; [exact (point_not_int (String "-" a) (b ++ x))|apply point_not_int]. }
  pose proof (parse_float_text neg true a b x da db ex SA BA SB BB ltac:(discriminate)) as P.
  cbv iota in P. change (String "." b ++ x)%string with (String "." (b ++ x)) in P.
  rewrite P by (try assumption; intro H; apply app_eq_nil in H as (_ & H); contradiction).
  apply means_float. apply (number_of_nonneg 10 (a ++ b)); [lia|now apply spells_app].
Qed.

(** Digits and an exponent. *)
Theorem C63_exponent (neg : bool) a x da ex :
  spells a da -> below 10 da -> da <> [] -> exponent x ex -> x <> "" ->
  means (number_value (signed neg (a ++ x))) neg (number_of 10 da) ex.
Proof.
  intros SA BA ND X NX. unfold number_value.
  assert (EC : exists c s, x = String c s /\ (c = "e"%char \/ c = "E"%char)).
  { destruct X as [|c s ds H|c s ds H|c s ds H]; [contradiction| | |]; eauto. }
  destruct EC as (c & s & -> & HC).
  rewrite (exponent_not_int neg a da c s SA BA HC).
  pose proof (parse_float_text neg false a "" (String c s) da [] ex SA BA I ltac:(intros d []) ltac:(reflexivity)) as P.
  rewrite !app_nil_r in P. cbv iota in P. change ("" ++ String c s)%string with (String c s) in P. rewrite P by assumption.
  cbn [List.length Z.of_nat]. rewrite Z.sub_0_r. apply means_float. now apply (number_of_nonneg 10 a).
Qed.

(** A decimal integer too large for 64 bits is read as a float: nothing says
    that digits were lost. *)
Theorem C63_large_integer_partial s ds (neg : bool) :
  spells s ds -> below 10 ds -> hd 0 ds <> 0 ->
  2 ^ 63 + (if neg then 1 else 0) <= number_of 10 ds ->
  means (number_value (signed neg s)) neg (number_of 10 ds) 0.
Proof.
  intros S B L R. assert (N : ds <> []) by (destruct ds; [contradiction|discriminate]).
  assert (PI : parse_int (signed neg s) = None).
  { assert (P : parse_unsigned s = Some (number_of 10 ds)).
    { unfold parse_unsigned. pose proof (spells_of 10 s ds S B N) as D.
      destruct s as [|c s], ds as [|d ds]; cbn [spells] in S; try contradiction. destruct S as (W & S).
      cbn [hd] in L. assert (NZ : c <> "0"%char).
      { intros ->. apply writes_val in W. vm_compute in W. congruence. }
      cbn [strip_prefix]. destruct (Ascii.eqb_spec "0" c) as [E|_]; [congruence|].
      destruct c as [[] [] [] [] [] [] [] []]; try exact D. congruence. }
    pose proof (spells_no_minus s ds "" S N) as NM. rewrite sapp_nil_r in NM.
    unfold parse_int. destruct neg; cbn [signed].
    - cbn [strip_prefix Ascii.eqb Bool.eqb]. rewrite P.
      destruct (Z.leb_spec (- two63) (- number_of 10 ds)); [unfold two63 in *; lia|reflexivity].
    - rewrite NM, P. destruct (Z.ltb_spec (number_of 10 ds) two63); [unfold two63 in *; lia|]. now rewrite andb_false_r. }
  unfold number_value. rewrite PI.
  pose proof (parse_float_text neg false s "" "" ds [] 0 S B I ltac:(intros d []) ltac:(reflexivity)) as P.
  rewrite !app_nil_r, sapp_nil_r in P. rewrite P by (try assumption; constructor).
  cbn [List.length Z.of_nat]. rewrite Z.sub_0_r. apply means_float. now apply (number_of_nonneg 10 s).
Qed.

(** The decimal text of a number never means another integer: only base 8
    (a leading 0) does that. *)
Theorem C63_leading_zero_float_partial s ds (neg : bool) :
  spells s ds -> below 10 ds -> (exists d, In d ds /\ 8 <= d) ->
  means (number_value (signed neg (String "0" s))) neg (number_of 10 ds) 0.
Proof.
  intros S B (d8 & I8 & G8). assert (N : ds <> []) by (destruct ds; [contradiction|discriminate]).
  assert (PU : parse_unsigned (String "0" s) = None).
  { assert (NX : strip_prefix "0x" (String "0" s) = None).
    { cbn [strip_prefix Ascii.eqb Bool.eqb].
      pose proof (spells_first s ds "x" S B N eq_refl) as H. destruct s; [reflexivity|exact H]. }
    unfold parse_unsigned. rewrite NX.
    assert (K : forall s ds acc, spells s ds -> In d8 ds -> digits_acc 8 s acc = None).
    { clear - G8. induction s as [|c s IH]; intros [|d ds] acc; cbn [spells]; intros S I; try contradiction.
      destruct S as (W & S). cbn [digits_acc]. rewrite (writes_val c d W). destruct (Z.ltb_spec d 8); [|reflexivity].
      apply IH with ds; [exact S|]. destruct I as [->|I]; [|exact I]. exfalso. lia. }
    destruct s as [|c s]; [destruct ds; contradiction|]. exact (K _ _ 0 S I8). }
  assert (PI : parse_int (signed neg (String "0" s)) = None).
  { unfold parse_int. destruct neg; cbn [signed]; cbn [strip_prefix Ascii.eqb Bool.eqb]; now rewrite PU. }
  unfold number_value. rewrite PI.
  assert (W0 : writes "0" 0) by (split; [lia|left; reflexivity]).
  pose proof (parse_float_text neg false (String "0" s) "" "" (0 :: ds) [] 0 (conj W0 S)) as P.
  rewrite !app_nil_r, sapp_nil_r in P. rewrite P.
  - cbn [List.length Z.of_nat number_of]. rewrite Z.sub_0_r, Z.mul_0_l, Z.add_0_l. apply means_float. now apply (number_of_nonneg 10 s).
  - intros d [<-|I]; [lia|now apply B].
  - exact I.
  - intros d [].
  - reflexivity.
  - discriminate.
  - constructor.
Qed.

(** ** Where the literal does not mean the number written *)

(** 2^63 + 1 is read as 2^63. *)
Theorem C63_integer_rounded_refuted :
  exists s ds f, spells s ds /\ below 10 ds /\ hd 0 ds <> 0 /\
    number_value s = NFloat f /\ ~ (Q_of f == inject_Z (number_of 10 ds))%Q.
Proof.
  exists "9223372036854775809"%string, [9;2;2;3;3;7;2;0;3;6;8;5;4;7;7;5;8;0;9],
    (S754_finite false (2 ^ 52)%positive 11).
  split; [|split; [|split; [|split]]].
  - repeat split; try lia; left; reflexivity.
  - intros d H. repeat (destruct H as [<-|H]; [lia|]). destruct H.
  - discriminate.
  - vm_compute. reflexivity.
  - vm_compute. discriminate.
Qed.

(** The same digits, with and without a leading 0, are two numbers; and with
    an 8 or a 9 among them they are one number again, but a float. *)
Theorem C63_leading_zero_refuted :
  number_value "017" = NInt 15 /\ number_value "17" = NInt 17 /\
  number_value "018" = NFloat (f_of_Z 18) /\ number_value "18" = NInt 18.
Proof. repeat split; vm_compute; reflexivity. Qed.

(** A hexadecimal number beyond 64 bits has no value, where a decimal one
    becomes a float. *)
Theorem C63_hexadecimal_lost_refuted :
  exists s ds, spells s ds /\ below 16 ds /\ (inject_Z (number_of 16 ds) < inject_Z (2 ^ 1024))%Q /\
    number_value ("0x" ++ s) = NBad.
Proof.
  exists "8000000000000000"%string, [8;0;0;0;0;0;0;0;0;0;0;0;0;0;0;0]. split; [|split; [|split]].
  - repeat split; try lia; left; reflexivity.
  - intros d H. repeat (destruct H as [<-|H]; [lia|]). destruct H.
  - vm_compute. reflexivity.
  - vm_compute. reflexivity.
Qed.

(** ** Examples *)

Example C63_example_decimal : number_value "-42" = NInt (-42) /\ number_value "9223372036854775807" = NInt (2 ^ 63 - 1)
  /\ number_value "-9223372036854775808" = NInt (- 2 ^ 63).
Proof. vm_compute. auto. Qed.
Example C63_example_hexadecimal : number_value "0x1F" = NInt 31 /\ number_value "-0xff" = NInt (-255).
Proof. vm_compute. auto. Qed.
(** 12.50e-2 is 1250 * 10^-4: the hypotheses of C63_point hold, and the float is 1/8. *)
Example C63_example_point :
  spells "12" [1;2] /\ spells "50" [5;0] /\ exponent "e-2" (-2) /\
  number_value (signed false ("12" ++ "." ++ "50" ++ "e-2")) = NFloat (S754_finite false 4503599627370496 (-55)) /\
  (Q_of (S754_finite false 4503599627370496 (-55)) == 1 # 8)%Q.
Proof.
  split; [|split; [|split; [|split]]]; try (repeat split; try lia; left; reflexivity).
  - apply (ExpMinus "e" "2" [2]); [now left|repeat split; try lia; left; reflexivity| |discriminate].
    intros d [<-|[]]. lia.
Qed.
Example C63_example_tenth : number_value ".1" = NFloat (S754_finite false 7205759403792794 (-56)).
Proof. vm_compute. reflexivity. Qed.
Example C63_example_exponent : number_value "1E3" = NFloat (f_of_Z 1000) /\ number_value "1e999" = NBad.
Proof. split; vm_compute; reflexivity. Qed.

Print Assumptions C63_decimal.
Print Assumptions C63_hexadecimal.
Print Assumptions C63_octal.
Print Assumptions C63_point.
Print Assumptions C63_exponent.
Print Assumptions C63_large_integer_partial.
Print Assumptions C63_leading_zero_float_partial.
