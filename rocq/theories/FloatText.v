(** Decimal texts and floats: a literal is read as the nearest float, and
    the text printed for a float is read back as that float. *)

From Coq Require Import ZArith List String Ascii Bool Lia.
From Verif Require Import Base F64 F64Proofs FloatRound Lexer Numeral Format Spelling LexProofs NumeralProofs.
Import ListNotations.
Open Scope string_scope.
Open Scope Z_scope.

(** m * 10^e as a fraction *)
Definition dec_num (m e : Z) : Z := m * 10 ^ Z.max e 0.
Definition dec_den (e : Z) : Z := 10 ^ Z.max (- e) 0.

Lemma pow10_pos k : 0 <= k -> 0 < 10 ^ k.
Proof. intro. now apply Z.pow_pos_nonneg. Qed.
Lemma dec_den_pos e : 0 < dec_den e.
Proof. apply pow10_pos. lia. Qed.

Lemma normalize_pos (neg : bool) m e : 0 < m ->
  binary_normalize 53 1024 (if neg then - m else m) e neg = binary_round 53 1024 neg (Z.to_pos m) e.
Proof. intro H. destruct m as [|p|p]; [lia| |lia]. now destruct neg. Qed.

Lemma f_of_decimal_rounded neg m e : 0 < m ->
  exists M E, rounded (dec_num m e * 2 ^ 1074) (dec_den e) (-1074) M E /\ f_of_decimal neg m e = pack neg M E.
Proof.
  intro HM. unfold f_of_decimal. destruct (Z.eqb_spec m 0) as [|_]; [lia|].
  unfold dec_num, dec_den. destruct (Z.leb_spec 0 e) as [HE|HE].
  - rewrite (Z.max_l e 0), (Z.max_r (- e) 0) by lia. pose proof (pow10_pos e HE).
    rewrite normalize_pos by nia. change (10 ^ 0) with 1.
    apply binary_round_rounded; [lia|lia|lia|]. left. rewrite Z2Pos.id by nia.
    change (0 - -1074) with 1074. ring.
  - rewrite (Z.max_r e 0), (Z.max_l (- e) 0) by lia. change (10 ^ 0) with 1. rewrite Z.mul_1_r.
    cbv zeta. set (d := 10 ^ (- e)). assert (HD : 0 < d) by (apply pow10_pos; lia).
    set (s := Z.max 0 (Z.log2 d - Z.log2 m + 66)). assert (HS : 0 <= s) by lia.
    rewrite Z.shiftl_mul_pow2 by exact HS.
    pose proof (Z.div_mod (m * 2 ^ s) d ltac:(lia)) as DM. pose proof (Z.mod_pos_bound (m * 2 ^ s) d HD) as RB.
    set (q := m * 2 ^ s / d) in *. set (r := (m * 2 ^ s) mod d) in *.
    assert (Q : 2 ^ 65 <= q).
    { apply Z.div_le_lower_bound; [exact HD|].
      pose proof (Z.log2_spec m HM) as (L1 & _). pose proof (Z.log2_spec d HD) as (_ & L2).
      pose proof (Z.log2_nonneg m). pose proof (Z.log2_nonneg d).
      assert (2 ^ (Z.log2 d + 66) <= m * 2 ^ s).
      { transitivity (2 ^ Z.log2 m * 2 ^ s).
        - rewrite <- Z.pow_add_r by lia. apply pow2_le; lia.
        - apply Z.mul_le_mono_nonneg_r; [|exact L1]. pose proof (pow2_pos s HS). lia. }
      replace (Z.log2 d + 66) with (Z.succ (Z.log2 d) + 65) in H1 by lia.
      rewrite Z.pow_add_r in H1 by lia.
      assert (d * 2 ^ 65 <= 2 ^ Z.succ (Z.log2 d) * 2 ^ 65) by (apply Z.mul_le_mono_nonneg_r; lia). lia. }
    set (b := if r =? 0 then 0 else 1). assert (0 <= b <= 1) by (unfold b; destruct (r =? 0); lia).
    rewrite normalize_pos by lia. set (M := 2 * q + b) in *.
    set (T := -1074 - (s + 1)).
    destruct (binary_round_rounded neg (Z.to_pos M) (- s - 1) (m * 2 ^ (- T)) d T) as (X & E & R & EQ);
      [unfold T; lia|unfold T; lia|exact HD| |].
    + rewrite Z2Pos.id by lia. replace (- s - 1 - T) with 1074 by (unfold T; lia).
      assert (PT : 2 ^ (- T) = 2 * 2 ^ s * 2 ^ 1074).
      { unfold T. replace (- (-1074 - (s + 1))) with (s + 1 + 1074) by lia. rewrite Z.pow_add_r, pow2_succ by lia. reflexivity. }
      rewrite PT. set (W := 2 ^ 1074). assert (HW : 0 < W) by reflexivity. clearbody W.
      replace (m * (2 * 2 ^ s * W)) with (2 * (m * 2 ^ s) * W) by ring. rewrite DM.
      unfold M, b. destruct (Z.eqb_spec r 0) as [->|NR].
      * left. ring.
      * right. split; [|split].
        -- rewrite Z.add_comm, Z.mul_comm, <- (Z.mul_comm 2). now rewrite Z.odd_add_mul_2.
        -- split; nia.
        -- rewrite fexp_eq.
           pose proof (digits_ge (2 * q + 1) 65 ltac:(lia) ltac:(lia)). lia.
    + exists X, E. split; [|exact EQ].
      unfold T in R. replace (m * 2 ^ - (-1074 - (s + 1))) with (m * 2 ^ 1074 * 2 ^ (s + 1)) in R.
      * now apply rounded_shift in R; [|lia|lia].
      * rewrite <- Z.mul_assoc, <- Z.pow_add_r by lia. f_equal. f_equal. lia.
Qed.

(** ** The same number gives the same float *)

Lemma dec_num_pos m e : 0 < m -> 0 < dec_num m e.
Proof. intro H. unfold dec_num. apply Z.mul_pos_pos; [exact H|apply pow10_pos; lia]. Qed.

Lemma f_of_decimal_same neg m e m' e' : 0 < m -> 0 < m' ->
  dec_num m e * dec_den e' = dec_num m' e' * dec_den e ->
  f_of_decimal neg m e = f_of_decimal neg m' e'.
Proof.
  intros H H' EQ. destruct (f_of_decimal_rounded neg m e H) as (M & E & R & ->).
  destruct (f_of_decimal_rounded neg m' e' H') as (M' & E' & R' & ->).
  pose proof (dec_den_pos e). pose proof (dec_den_pos e').
  apply (rounded_ratio _ _ (dec_num m' e' * 2 ^ 1074) (dec_den e')) in R; [|assumption|assumption|].
  - destruct (rounded_unique _ (dec_den e') (-1074) _ _ _ _ ltac:(lia) ltac:(assumption) R R') as (-> & ->). reflexivity.
  - replace (dec_num m e * 2 ^ 1074 * dec_den e') with (dec_num m e * dec_den e' * 2 ^ 1074) by ring. rewrite EQ. ring.
Qed.

(** A number that is a float is read as that float. *)
Definition canonical (m e : Z) : Prop := 0 <= m < 2 ^ 53 /\ -1074 <= e /\ (e = -1074 \/ 2 ^ 52 <= m).
Lemma rounded_exact m e : canonical m e -> rounded (m * 2 ^ (e + 1074)) 1 (-1074) m e.
Proof.
  intros (M & E & C). exists m, e. split; [exact E|]. split; [exact M|]. split; [exact C|].
  replace (e - -1074) with (e + 1074) by lia. pose proof (pow2_pos (e + 1074) ltac:(lia)) as P.
  split; [nia|]. cbv zeta. replace (_ ?= _) with Lt.
  - cbn [pick]. left. lia.
  - symmetry. apply Z.compare_lt_iff. nia.
Qed.

(** ** Reading a decimal text *)

Definition finite_only (f : f64) : option f64 := if f_is_inf f then None else Some f.

Lemma digits_first a r : sall is_digit a = true -> a <> "" ->
  strip_prefix "-" (a ++ r) = None.
Proof.
  destruct a as [|c a]; [contradiction|]. intros D _. cbn [sall] in D. apply andb_true_iff in D as (D & _).
  cbn [String.append strip_prefix]. now assert (Ascii.eqb "-" c = false) as -> by char_dis D.
Qed.
Lemma digits_not_hex a r : sall is_digit a = true -> a <> "" -> strip_prefix "0x" (a ++ String "." r) = None.
Proof.
  destruct a as [|c a]; [contradiction|]. intros D _. cbn [sall] in D. apply andb_true_iff in D as (_ & D).
  cbn [String.append strip_prefix]. destruct (Ascii.eqb "0" c); [|reflexivity].
  destruct a as [|c' a]; [reflexivity|]. cbn [sall] in D. apply andb_true_iff in D as (D & _).
  cbn [String.append]. now assert (Ascii.eqb "x" c' = false) as -> by char_dis D.
Qed.

Lemma parse_float_point (neg : bool) a b v :
  sall is_digit a = true -> a <> "" -> sall is_digit b = true ->
  digits_of 10 (a ++ b) = Some v ->
  parse_float (if neg then String "-" (a ++ String "." b) else a ++ String "." b)%string =
  finite_only (f_of_decimal neg v (- Z.of_nat (String.length b))).
Proof.
  intros DA NA DB V. unfold parse_float.
  replace (match strip_prefix "-" (if neg then String "-" (a ++ String "." b) else (a ++ String "." b)%string) with
           | Some r => (true, r) | None => (false, if neg then String "-" (a ++ String "." b) else (a ++ String "." b)%string) end)
    with (neg, (a ++ String "." b)%string).
  2:{ destruct neg; [reflexivity|]. now rewrite digits_first. }
  rewrite digits_not_hex by assumption.
  rewrite (span_app is_digit a (String "." b)) by (auto; reflexivity).
  change (strip_prefix "." (String "." b)) with (Some b). cbv iota beta.
  replace (span is_digit b) with (b, "").
  2:{ pose proof (span_app is_digit b "" DB eq_refl) as H. rewrite sapp_nil_r in H. now rewrite H. }
  cbv iota beta. rewrite V. now rewrite Z.sub_0_l.
Qed.

Lemma digits_acc_print z a : 0 <= z ->
  digits_acc 10 (print_nat z) a = Some (a * 10 ^ Z.of_nat (ndigits z) + z).
Proof.
  intro H. unfold print_nat. rewrite digits_acc_pad. cbn [digits_acc].
  destruct (ndigits_bound z H) as (B & _). rewrite Z.mod_small by lia. reflexivity.
Qed.
Lemma digits_acc_app b x y : forall acc v, digits_acc b x acc = Some v -> digits_acc b (x ++ y) acc = digits_acc b y v.
Proof.
  induction x as [|c x IH]; intros acc v; cbn [digits_acc String.append]; [now intros [= ->]|].
  destruct (digit_val c <? b); [apply IH|discriminate].
Qed.
Lemma digits_of_app b x y v : x <> "" -> digits_acc b x 0 = Some v -> digits_of b (x ++ y) = digits_acc b y v.
Proof.
  intros N V. rewrite <- (digits_acc_app b x y 0 v V). destruct x; [contradiction|reflexivity].
Qed.

(** Reading what is printed for m * 10^e. *)
Lemma parse_print_decimal neg m e : 0 <= m ->
  exists m' e', dec_num m e * dec_den e' = dec_num m' e' * dec_den e /\ (0 < m <-> 0 < m') /\ 0 <= m' /\
    parse_float (print_decimal neg m e) = finite_only (f_of_decimal neg m' e').
Proof.
  intro HM. unfold print_decimal. destruct (Z.leb_spec 0 e) as [HE|HE].
  - exists (m * 10 ^ e * 10), (-1). pose proof (pow10_pos e HE) as P.
    split. { unfold dec_num, dec_den. rewrite (Z.max_l e 0), (Z.max_r (- e) 0) by lia. cbn -[Z.mul Z.pow]. change (10 ^ 1) with 10. change (10 ^ 0) with 1. ring. }
    split; [nia|]. split; [nia|].
    destruct (print_nat_digits (m * 10 ^ e)) as (D & N).
    change ".0" with (String "." "0").
    apply (parse_float_point neg (print_nat (m * 10 ^ e)) "0" (m * 10 ^ e * 10)); [exact D|exact N|reflexivity|].
    rewrite (digits_of_app 10 _ "0" (m * 10 ^ e)); [|exact N|].
    + cbn [digits_acc]. change (digit_val "0") with 0. cbn. f_equal. lia.
    + rewrite digits_acc_print by nia. f_equal.
  - exists m, e. split; [reflexivity|]. split; [reflexivity|]. split; [exact HM|]. cbv zeta.
    set (d := 10 ^ (- e)). assert (HD : 0 < d) by (apply pow10_pos; lia).
    destruct (print_nat_digits (m / d)) as (D & N).
    set (b := pad_digits (Z.to_nat (- e)) (m mod d) "").
    assert (LB : Z.of_nat (String.length b) = - e) by (unfold b; rewrite pad_digits_length; cbn; lia).
    replace (f_of_decimal neg m e) with (f_of_decimal neg m (- Z.of_nat (String.length b))) by (f_equal; lia).
    change ("." ++ b)%string with (String "." b).
    apply parse_float_point; [exact D|exact N|now apply pad_digits_all|].
    rewrite (digits_of_app 10 _ b (m / d)); [|exact N|].
    + unfold b. rewrite digits_acc_pad. cbn [digits_acc]. f_equal. rewrite Z2Nat.id by lia. fold d.
      rewrite Z.mod_mod by lia. rewrite (Z.div_mod m d) at 3 by lia. ring.
    + rewrite digits_acc_print by (apply Z.div_pos; lia). reflexivity.
Qed.

Lemma parse_print_same neg m e : 0 < m ->
  parse_float (print_decimal neg m e) = finite_only (f_of_decimal neg m e).
Proof.
  intro H. destruct (parse_print_decimal neg m e ltac:(lia)) as (m' & e' & EQ & P & _ & ->).
  f_equal. symmetry. apply f_of_decimal_same; [exact H|now apply P|exact EQ].
Qed.

(** ** Printing *)

Definition same_number (m e m' e' : Z) : Prop := dec_num m e * dec_den e' = dec_num m' e' * dec_den e.

Lemma same_number_trans m e m1 e1 m2 e2 : same_number m e m1 e1 -> same_number m1 e1 m2 e2 -> same_number m e m2 e2.
Proof.
  unfold same_number. intros H K. apply (Z.mul_cancel_r _ _ (dec_den e1)); [pose proof (dec_den_pos e1); lia|].
  replace (dec_num m e * dec_den e2 * dec_den e1) with (dec_num m e * dec_den e1 * dec_den e2) by ring.
  rewrite H. replace (dec_num m1 e1 * dec_den e * dec_den e2) with (dec_num m1 e1 * dec_den e2 * dec_den e) by ring.
  rewrite K. ring.
Qed.

Lemma strip_zeros_same fuel : forall m e, 0 < m ->
  0 < fst (strip_zeros fuel m e) /\ same_number m e (fst (strip_zeros fuel m e)) (snd (strip_zeros fuel m e)).
Proof.
  induction fuel as [|k IH]; intros m e H; cbn [strip_zeros]; [split; [exact H|reflexivity]|].
  destruct (Z.eqb_spec (m mod 10) 0) as [Z|Z]; cbn [andb]; [|split; [exact H|reflexivity]].
  destruct (Z.ltb_spec e 0) as [L|L]; cbn [andb]; [|split; [exact H|reflexivity]].
  pose proof (Z.div_mod m 10 ltac:(lia)) as D. rewrite Z, Z.add_0_r in D.
  assert (P : 0 < m / 10) by lia. destruct (IH (m / 10) (e + 1) P) as (P' & S). split; [exact P'|].
  eapply same_number_trans; [|exact S]. unfold same_number, dec_num, dec_den.
  rewrite (Z.max_r e 0), (Z.max_l (- e) 0) by lia. rewrite (Z.max_r (e + 1) 0), (Z.max_l (- (e + 1)) 0) by lia.
  replace (- e) with (- (e + 1) + 1) by lia. rewrite Z.pow_add_r by lia. rewrite D at 1. change (10 ^ 0) with 1. change (10 ^ 1) with 10. ring.
Qed.

Lemma reads_as_spec neg m e f : reads_as neg m e f = true -> parse_float (print_decimal neg m e) = Some f.
Proof.
  unfold reads_as. destruct (parse_float _) as [g|]; [|discriminate].
  destruct g as [?|?| |s1 m1 e1]; try discriminate. destruct f as [?|?| |s2 m2 e2]; try discriminate.
  intro H. apply andb_true_iff in H as (H & E). apply andb_true_iff in H as (S & M).
  apply Bool.eqb_prop in S. apply Pos.eqb_eq in M. apply Z.eqb_eq in E. now subst.
Qed.
Lemma reads_as_pos neg m e f : 0 <= m -> reads_as neg m e f = true -> 0 < m.
Proof.
  intros H R. destruct (Z.eq_dec m 0) as [->|]; [|lia]. exfalso.
  destruct (parse_print_decimal neg 0 e ltac:(lia)) as (m' & e' & _ & P & N & E).
  assert (m' = 0) as -> by lia. unfold reads_as in R. rewrite E in R. discriminate R.
Qed.

(** The number is num / den. *)
Definition is_ratio (m e num den : Z) : Prop := dec_num m e * den = num * dec_den e.

Lemma shortest_reads fuel : forall k neg num j mag f, 0 < num -> 0 <= j ->
  let r := shortest fuel k neg num (2 ^ j) mag f in
  0 < fst r /\ (parse_float (print_decimal neg (fst r) (snd r)) = Some f \/ is_ratio (fst r) (snd r) num (2 ^ j)).
Proof.
  induction fuel as [|fuel IH]; intros k neg num j mag f HN HJ; cbv zeta; cbn [shortest];
    set (e := mag - k);
    destruct (if 0 <=? e then (num, 2 ^ j * 10 ^ e) else (num * 10 ^ (- e), 2 ^ j)) as (a, b) eqn:AB;
    assert (LO : 0 <= a / b)
      by (pose proof (pow2_pos j HJ); destruct (Z.leb_spec 0 e); injection AB as <- <-;
          apply Z.div_pos; try apply Z.mul_pos_pos; try (apply Z.mul_nonneg_nonneg);
          try (apply Z.lt_le_incl); try apply pow10_pos; lia);
    destruct (reads_as neg (a / b) e f) eqn:RL; cbn [orb].
  - match goal with |- context [if ?c then a / b + 1 else a / b] => destruct c eqn:C end; cbn [fst snd].
    + apply andb_true_iff in C as (C & _). split; [lia|]. left. now apply reads_as_spec.
    + split; [now apply (reads_as_pos neg _ e f)|]. left. now apply reads_as_spec.
  - destruct (reads_as neg (a / b + 1) e f) eqn:RH; cbn [fst snd].
    + split; [lia|]. left. now apply reads_as_spec.
    + rewrite Z.log2_pow2 by exact HJ. pose proof (pow2_pos j HJ) as P.
      assert (E : num * 10 ^ j / 2 ^ j = num * 5 ^ j).
      { replace (10 ^ j) with (5 ^ j * 2 ^ j) by (now rewrite <- Z.pow_mul_l).
        rewrite Z.mul_assoc. now apply Z.div_mul; lia. }
      rewrite E. split; [apply Z.mul_pos_pos; [exact HN|now apply Z.pow_pos_nonneg]|]. right.
      unfold is_ratio, dec_num, dec_den. rewrite (Z.max_r (- j) 0), (Z.max_l (- - j) 0) by lia. rewrite Z.opp_involutive.
      change (10 ^ 0) with 1. change 10 with (5 * 2). rewrite Z.pow_mul_l. ring.
  - match goal with |- context [if ?c then a / b + 1 else a / b] => destruct c eqn:C end; cbn [fst snd].
    + apply andb_true_iff in C as (C & _). split; [lia|]. left. now apply reads_as_spec.
    + split; [now apply (reads_as_pos neg _ e f)|]. left. now apply reads_as_spec.
  - destruct (reads_as neg (a / b + 1) e f) eqn:RH; cbn [fst snd].
    + split; [lia|]. left. now apply reads_as_spec.
    + apply IH; assumption.
Qed.

Lemma f_ratio_eq m e : -1074 <= e -> exists num j, 0 < num /\ 0 <= j /\ f_ratio m e = (num, 2 ^ j) /\
  num * 2 ^ 1074 = Z.pos m * 2 ^ (e + 1074) * 2 ^ j.
Proof.
  intro HE. unfold f_ratio. destruct (Z.leb_spec 0 e) as [L|L].
  - exists (Z.pos m * 2 ^ e), 0. pose proof (pow2_pos e L). split; [lia|]. split; [lia|]. split; [reflexivity|].
    rewrite Z.pow_add_r by lia. change (2 ^ 0) with 1. ring.
  - exists (Z.pos m), (- e). split; [lia|]. split; [lia|]. split; [reflexivity|].
    rewrite <- Z.mul_assoc, <- Z.pow_add_r by lia. do 2 f_equal. lia.
Qed.

(** Every finite float. *)
Definition finite_float (f : f64) : Prop :=
  match f with
  | S754_zero _ => True
  | S754_finite _ m e => canonical (Z.pos m) e /\ e <= 971
  | _ => False
  end.

Lemma ratio_reads neg m e d x num j :
  0 < d -> canonical (Z.pos m) e -> e <= 971 ->
  num * 2 ^ 1074 = Z.pos m * 2 ^ (e + 1074) * 2 ^ j -> 0 <= j -> is_ratio d x num (2 ^ j) ->
  f_of_decimal neg d x = S754_finite neg m e.
Proof.
  intros HD C E EQ HJ R. destruct (f_of_decimal_rounded neg d x HD) as (M & X & RD & ->).
  pose proof (dec_den_pos x) as PD. pose proof (pow2_pos j HJ) as PJ.
  pose proof (rounded_exact _ _ C) as RE.
  apply (rounded_ratio _ _ (dec_num d x * 2 ^ 1074) (dec_den x)) in RE; [|lia|exact PD|].
  - destruct (rounded_unique _ (dec_den x) (-1074) _ _ _ _ ltac:(lia) PD RD RE) as (-> & ->).
    cbn [pack]. destruct (Z.leb_spec e 971); [reflexivity|lia].
  - unfold is_ratio in R. apply (Z.mul_cancel_r _ _ (2 ^ j)); [lia|]. rewrite Z.mul_1_r.
    replace (dec_num d x * 2 ^ 1074 * 2 ^ j) with (dec_num d x * 2 ^ j * 2 ^ 1074) by ring. rewrite R.
    replace (num * dec_den x * 2 ^ 1074) with (num * 2 ^ 1074 * dec_den x) by ring. rewrite EQ. ring.
Qed.

(** What is printed for a float is read back as that float. *)
Theorem print_float_reads f : finite_float f -> parse_float (print_float f) = Some f.
Proof.
  destruct f as [neg|neg| |neg m e]; cbn [finite_float]; try contradiction.
  - intros _. destruct neg; vm_compute; reflexivity.
  - intros (C & E). unfold print_float.
    destruct (f_ratio_eq m e (proj1 (proj2 C))) as (num & j & HN & HJ & -> & EQ).
    set (f := S754_finite neg m e).
    pose proof (shortest_reads 17 1 neg num j (magnitude num (2 ^ j)) f HN HJ) as S. cbv zeta in S.
    destruct (shortest 17 1 neg num (2 ^ j) (magnitude num (2 ^ j)) f) as (d, x). cbn [fst snd] in S.
    destruct S as (HD & S).
    assert (FD : f_of_decimal neg d x = f).
    { destruct S as [S|S].
      - rewrite parse_print_same in S by exact HD. unfold finite_only in S.
        destruct (f_is_inf _); [discriminate|]. now injection S.
      - exact (ratio_reads neg m e d x num j HD C E EQ HJ S). }
    destruct (strip_zeros_same 400 d x HD) as (HD' & SN).
    destruct (strip_zeros 400 d x) as (d', x'). cbn [fst snd] in *.
    rewrite parse_print_same by exact HD'.
    rewrite <- (f_of_decimal_same neg d x d' x' HD HD' SN), FD. reflexivity.
Qed.

(** Every float read is one of those. *)
Lemma parse_float_decimal s f : parse_float s = Some f ->
  exists neg m e, 0 <= m /\ f = f_of_decimal neg m e /\ f_is_inf f = false.
Proof.
  unfold parse_float.
  destruct (match strip_prefix "-" s with Some r => (true, r) | None => (false, s) end) as (neg, s1).
  destruct (strip_prefix "0x" s1); [discriminate|].
  destruct (span is_digit s1) as (d1, r1).
  destruct (match strip_prefix "." r1 with Some r => span is_digit r | None => ("", r1) end) as (d2, r2).
  cbv zeta.
  match goal with |- context [match ?o with Some _ => _ | None => _ end] => destruct o as [ex|] end; [|discriminate].
  destruct (digits_of 10 (d1 ++ d2)) as [m|] eqn:D; [|discriminate].
  set (e := ex - Z.of_nat (String.length d2)).
  destruct (f_is_inf (f_of_decimal neg m e)) eqn:I; [discriminate|]. intros [= <-].
  exists neg, m, e. split; [|split; [reflexivity|exact I]].
  assert (K : forall t acc v, 0 <= acc -> digits_acc 10 t acc = Some v -> 0 <= v).
  { induction t as [|c t IH]; intros acc v A H; cbn [digits_acc] in H; [injection H as <-; exact A|].
    destruct (digit_val c <? 10); [|discriminate]. apply (IH (acc * 10 + digit_val c) v); [|exact H].
    assert (0 <= digit_val c).
    { unfold digit_val. destruct (is_digit c) eqn:ED; [|destruct (is_lower c) eqn:EL; [|destruct (is_upper c) eqn:EU; [|lia]]].
      all: destruct c as [[] [] [] [] [] [] [] []]; try discriminate; vm_compute; discriminate. }
    lia. }
  unfold digits_of in D. destruct (d1 ++ d2)%string; [discriminate|]. exact (K _ 0 m ltac:(lia) D).
Qed.

Lemma parse_float_finite s f : parse_float s = Some f -> finite_float f.
Proof.
  intro H. destruct (parse_float_decimal s f H) as (neg & m & e & M & EQ & I).
  destruct (Z.eq_dec m 0) as [->|NZ].
  - rewrite EQ. exact Logic.I.
  - destruct (f_of_decimal_rounded neg m e ltac:(lia)) as (X & E & R & P). rewrite P in EQ. subst f.
    pose proof (rounded_pair _ _ _ _ _ R) as (B & B'). pose proof (rounded_canonical _ _ _ _ _ R) as C.
    destruct X as [|x|x]; [exact Logic.I| |lia]. cbn [pack] in *.
    destruct (Z.leb_spec E 971); [|discriminate I]. cbn [finite_float]. split; [split; [exact B|split; assumption]|assumption].
Qed.

(** ** Every literal with a value keeps it *)

Lemma point_not_int x y : parse_int (x ++ String "." y) = None.
Proof.
  assert (K : forall b x acc, b <= 16 -> digits_acc b (x ++ String "." y) acc = None).
  { intros b. induction x0 as [|c r IH]; intros acc B; cbn [String.append digits_acc].
    - change (digit_val ".") with 99. destruct (Z.ltb_spec 99 b); [lia|reflexivity].
    - destruct (digit_val c <? b); [now apply IH|reflexivity]. }
  assert (K' : forall b x, b <= 16 -> digits_of b (x ++ String "." y) = None).
  { intros b [|c r] B; [exact (K b "" 0 B)|exact (K b (String c r) 0 B)]. }
  assert (P : forall x, parse_unsigned (x ++ String "." y) = None).
  { intro z. unfold parse_unsigned. destruct (strip_prefix "0x" (z ++ String "." y)) as [r|] eqn:E.
    - destruct z as [|c0 [|c1 z]]; cbn [String.append strip_prefix] in E; try discriminate E.
      + destruct (Ascii.eqb "0" c0); discriminate E.
      + destruct (Ascii.eqb "0" c0); [|discriminate E]. destruct (Ascii.eqb "x" c1); [|discriminate E].
        injection E as <-. now apply K'.
    - destruct z as [|c0 z]; cbn [String.append]; [reflexivity|].
      assert (D : digits_of 10 (String c0 (z ++ String "." y)) = None) by exact (K' 10 (String c0 z) ltac:(lia)).
      destruct (z ++ String "." y)%string as [|c1 r] eqn:Z; [destruct z; discriminate Z|].
      destruct c0 as [[] [] [] [] [] [] [] []]; try exact D. rewrite <- Z. now apply K'. }
  unfold parse_int. destruct (strip_prefix "-" (x ++ String "." y)) as [r|] eqn:E.
  - destruct x as [|c x]; cbn [String.append strip_prefix] in E; [discriminate E|].
    destruct (Ascii.eqb "-" c); [|discriminate E]. injection E as <-. now rewrite P.
  - now rewrite P.
Qed.

Lemma print_decimal_point neg m e : exists x y, print_decimal neg m e = (x ++ String "." y)%string.
Proof.
  unfold print_decimal. destruct (0 <=? e), neg; cbv zeta.
  - exists (String "-" (print_nat (m * 10 ^ e))), "0". reflexivity.
  - exists (print_nat (m * 10 ^ e)), "0". reflexivity.
  - eexists (String "-" _), _. reflexivity.
  - eexists _, _. reflexivity.
Qed.

(** What is printed for a number literal has its value, *)
Theorem number_kept s : clean_number s = true -> number_value (fnumber s) = number_value s.
Proof.
  unfold clean_number, fnumber. destruct (number_value s) as [z|f|] eqn:V; [| |discriminate]; intros _.
  - assert (I : is_int64 z).
    { unfold number_value in V. destruct (parse_int s) as [y|] eqn:P.
      - injection V as ->. now apply parse_int_range in P.
      - destruct (parse_float s); discriminate V. }
    unfold number_value. now rewrite (print_int_reads z I).
  - assert (PF : parse_float s = Some f).
    { unfold number_value in V. destruct (parse_int s); [discriminate|]. destruct (parse_float s); [congruence|discriminate]. }
    pose proof (parse_float_finite s f PF) as FF. pose proof (print_float_reads f FF) as R.
    assert (NI : parse_int (print_float f) = None).
    { destruct f as [n|n| |n m e]; cbn [finite_float] in FF; try contradiction.
      - destruct n; vm_compute; reflexivity.
      - unfold print_float. destruct (f_ratio m e) as (num, den). destruct (shortest _ _ _ _ _ _ _) as (d, x).
        destruct (strip_zeros 400 d x) as (d', x'). destruct (print_decimal_point n d' x') as (a & b & ->). apply point_not_int. }
    unfold number_value. now rewrite NI, R.
Qed.

(** and is read as a number. *)
Lemma fnumber_token s : clean_number s = true -> reads T_Number (fnumber s).
Proof.
  unfold clean_number, fnumber. destruct (number_value s) as [z|f|] eqn:V; [| |discriminate]; intros _.
  - apply print_int_token.
  - assert (PF : parse_float s = Some f).
    { unfold number_value in V. destruct (parse_int s); [discriminate|]. destruct (parse_float s); [congruence|discriminate]. }
    pose proof (parse_float_finite s f PF) as FF.
    unfold print_float. destruct f as [sg|sg| |sg m e]; cbn [finite_float] in FF; try contradiction.
    + destruct sg; apply number_reads_as.
      * right. exists "0.0". split; [reflexivity|]. exact (point_text "0" "0" eq_refl ltac:(discriminate) eq_refl).
      * left. exact (point_text "0" "0" eq_refl ltac:(discriminate) eq_refl).
    + destruct (f_ratio m e) as (num, den). destruct (shortest 17 1 sg num den _ _) as (d, x).
      destruct (strip_zeros 400 d x) as (d', x'). apply print_decimal_token.
Qed.
