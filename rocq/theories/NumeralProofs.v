(** Numbers: what is printed for a number is read as a number token, and
    integers read back as themselves. *)

From Coq Require Import ZArith List String Ascii Bool Lia.
From Verif Require Import Base F64 Text Lexer Numeral Grammar Parser Format Spelling LexProofs.
Import ListNotations.
Open Scope string_scope.
Open Scope Z_scope.

Lemma digit_cases (P : Z -> Prop) :
  P 0 -> P 1 -> P 2 -> P 3 -> P 4 -> P 5 -> P 6 -> P 7 -> P 8 -> P 9 -> forall d, 0 <= d < 10 -> P d.
Proof.
  intros. assert (E : d = 0 \/ d = 1 \/ d = 2 \/ d = 3 \/ d = 4 \/ d = 5 \/ d = 6 \/ d = 7 \/ d = 8 \/ d = 9) by lia.
  decompose [or] E; subst d; assumption.
Qed.
Lemma digit_char_digit : forall d, 0 <= d < 10 -> is_digit (digit_char d) = true.
Proof. apply digit_cases; reflexivity. Qed.
Lemma digit_char_val : forall d, 0 <= d < 10 -> digit_val (digit_char d) = d.
Proof. apply digit_cases; reflexivity. Qed.
Lemma mod10 z : 0 <= z mod 10 < 10.
Proof. apply Z.mod_pos_bound. lia. Qed.

Lemma pad_digits_all k : forall z acc,
  sall is_digit acc = true -> sall is_digit (pad_digits k z acc) = true.
Proof.
  induction k as [|k IH]; intros z acc A; cbn [pad_digits]; [assumption|].
  apply IH. cbn [sall]. rewrite A, andb_true_r. apply digit_char_digit, mod10.
Qed.
Lemma pad_digits_length k : forall z acc,
  String.length (pad_digits k z acc) = (k + String.length acc)%nat.
Proof. induction k as [|k IH]; intros z acc; cbn [pad_digits]; [reflexivity|]. rewrite IH. cbn. lia. Qed.
Lemma pad_digits_app k : forall z acc, pad_digits k z acc = (pad_digits k z "" ++ acc)%string.
Proof.
  induction k as [|k IH]; intros z acc; [reflexivity|]. cbn [pad_digits].
  rewrite IH, (IH _ (String _ "")), sapp_assoc. reflexivity.
Qed.
Lemma pad_digits_first k : forall z acc,
  pad_digits (S k) z acc = String (digit_char (z / 10 ^ Z.of_nat k mod 10)) (pad_digits k z acc).
Proof.
  induction k as [|k IH]; intros z acc.
  - cbn [pad_digits]. change (10 ^ Z.of_nat 0) with 1. now rewrite Z.div_1_r.
  - change (pad_digits (S (S k)) z acc) with (pad_digits (S k) (z / 10) (String (digit_char (z mod 10)) acc)).
    rewrite IH. rewrite Z.div_div by lia.
    replace (10 * 10 ^ Z.of_nat k) with (10 ^ Z.of_nat (S k)); [reflexivity|].
    rewrite Nat2Z.inj_succ, Z.pow_succ_r by lia. reflexivity.
Qed.
Lemma digits_acc_pad k : forall z acc a,
  digits_acc 10 (pad_digits k z acc) a = digits_acc 10 acc (a * 10 ^ Z.of_nat k + z mod 10 ^ Z.of_nat k).
Proof.
  induction k as [|k IH]; intros z acc a.
  - cbn [pad_digits]. change (10 ^ Z.of_nat 0) with 1. rewrite Z.mod_1_r. f_equal. lia.
  - cbn [pad_digits]. rewrite IH. cbn [digits_acc]. rewrite digit_char_val by apply mod10.
    pose proof (mod10 z) as M. destruct (Z.ltb_spec (z mod 10) 10); [|lia].
    f_equal. rewrite Nat2Z.inj_succ, Z.pow_succ_r by lia.
    rewrite (Z.rem_mul_r z 10 (10 ^ Z.of_nat k)) by lia. lia.
Qed.

Lemma ndigits_n_bound fuel : forall z, 0 <= z < 2 ^ (Z.of_nat fuel + 1) ->
  z < 10 ^ Z.of_nat (ndigits_n fuel z) /\ (0 < z -> 10 ^ (Z.of_nat (ndigits_n fuel z) - 1) <= z) /\
  (0 < ndigits_n fuel z)%nat.
Proof.
  induction fuel as [|f IH]; intros z H.
  - cbn [ndigits_n]. change (2 ^ (Z.of_nat 0 + 1)) with 2 in H. change (10 ^ Z.of_nat 1) with 10.
    change (10 ^ (Z.of_nat 1 - 1)) with 1. lia.
  - cbn [ndigits_n]. destruct (Z.ltb_spec z 10) as [L|L].
    + change (10 ^ Z.of_nat 1) with 10. change (10 ^ (Z.of_nat 1 - 1)) with 1. lia.
    + assert (Q : 0 <= z / 10 < 2 ^ (Z.of_nat f + 1)).
      { split; [apply Z.div_pos; lia|]. apply Z.div_lt_upper_bound; [lia|].
        rewrite Nat2Z.inj_succ in H. replace (Z.succ (Z.of_nat f) + 1) with (Z.succ (Z.of_nat f + 1)) in H by lia.
        rewrite Z.pow_succ_r in H by lia. lia. }
      destruct (IH _ Q) as (B1 & B2 & B3).
      assert (P : 0 < z / 10) by (apply Z.div_str_pos; lia). specialize (B2 P).
      rewrite Nat2Z.inj_succ, Z.pow_succ_r by lia.
      pose proof (Z.div_mod z 10 ltac:(lia)) as D. pose proof (mod10 z) as M.
      split; [lia|]. split; [intros _|lia].
      replace (Z.succ (Z.of_nat (ndigits_n f (z / 10))) - 1) with (Z.succ (Z.of_nat (ndigits_n f (z / 10)) - 1)) by lia.
      rewrite Z.pow_succ_r by lia. lia.
Qed.
Lemma ndigits_bound z : 0 <= z ->
  z < 10 ^ Z.of_nat (ndigits z) /\ (0 < z -> 10 ^ (Z.of_nat (ndigits z) - 1) <= z) /\ (0 < ndigits z)%nat.
Proof.
  intro H. unfold ndigits. apply ndigits_n_bound. pose proof (Z.log2_nonneg z).
  rewrite Z2Nat.id by assumption. split; [assumption|].
  destruct (Z.eq_dec z 0) as [->|N]; [reflexivity|].
  pose proof (Z.log2_spec z ltac:(lia)) as L. change (Z.log2 z + 1) with (Z.succ (Z.log2 z)). lia.
Qed.
Lemma ndigits_pos z : (0 < ndigits z)%nat.
Proof.
  destruct (Z.le_gt_cases 0 z) as [H|H]; [now apply ndigits_bound|].
  unfold ndigits. destruct (Z.to_nat (Z.log2 z)); cbn; [lia|]. destruct (z <? 10); lia.
Qed.

Lemma print_nat_digits z : sall is_digit (print_nat z) = true /\ print_nat z <> "".
Proof.
  unfold print_nat. split; [now apply pad_digits_all|]. intro E.
  pose proof (pad_digits_length (ndigits z) z "") as L. rewrite E in L. cbn in L.
  pose proof (ndigits_pos z). lia.
Qed.

(** The value, and no leading zero. *)
Lemma parse_print_nat z : 0 <= z -> parse_unsigned (print_nat z) = Some z.
Proof.
  intro H. destruct (ndigits_bound z H) as (B1 & B2 & B3). unfold print_nat.
  assert (V : digits_acc 10 (pad_digits (ndigits z) z "") 0 = Some z).
  { rewrite digits_acc_pad. cbn [digits_acc]. rewrite Z.mod_small by lia. reflexivity. }
  destruct (ndigits z) as [|k] eqn:N; [lia|].
  rewrite pad_digits_first in *.
  set (d := z / 10 ^ Z.of_nat k mod 10) in *.
  assert (D : 0 <= d < 10) by apply mod10.
  destruct (Z.eq_dec z 0) as [->|NZ].
  - (* one digit *)
    assert (k = O) as ->.
    { unfold ndigits in N. cbn in N. lia. }
    reflexivity.
  - assert (D1 : 1 <= d).
    { specialize (B2 ltac:(lia)). replace (Z.of_nat (S k) - 1) with (Z.of_nat k) in B2 by lia.
      subst d. assert (1 <= z / 10 ^ Z.of_nat k) by (apply Z.div_le_lower_bound; lia).
      rewrite Nat2Z.inj_succ, Z.pow_succ_r in B1 by lia.
      assert (z / 10 ^ Z.of_nat k < 10) by (apply Z.div_lt_upper_bound; lia).
      rewrite Z.mod_small by lia. assumption. }
    clearbody d. assert (E : 1 <= d < 10) by lia. clear D D1. generalize dependent (pad_digits k z ""). intros r V.
    assert (C : d = 1 \/ d = 2 \/ d = 3 \/ d = 4 \/ d = 5 \/ d = 6 \/ d = 7 \/ d = 8 \/ d = 9) by lia.
    decompose [or] C; subst d; exact V.
Qed.

Theorem print_int_reads z : is_int64 z -> parse_int (print_int z) = Some z.
Proof.
  unfold is_int64. intro H. unfold print_int, parse_int.
  destruct (Z.ltb_spec z 0) as [L|L].
  - change (strip_prefix "-" (String "-" (print_nat (- z)))) with (Some (print_nat (- z))). cbv iota.
    rewrite parse_print_nat by lia. rewrite Z.opp_involutive.
    destruct (Z.leb_spec (- two63) z); [|lia]. destruct (Z.ltb_spec z two63); [reflexivity|lia].
  - assert (strip_prefix "-" (print_nat z) = None) as ->.
    { destruct (print_nat_digits z) as (D & N). destruct (print_nat z) as [|c s]; [contradiction|].
      cbn [sall] in D. apply andb_true_iff in D as (D & _). cbn [strip_prefix].
      assert (Ascii.eqb "-" c = false) as -> by char_dis D. reflexivity. }
    rewrite parse_print_nat by assumption.
    destruct (Z.leb_spec (- two63) z); [|lia]. destruct (Z.ltb_spec z two63); [reflexivity|lia].
Qed.

(** ** Printed numbers are number tokens *)

Lemma print_nat_text z : number_text (print_nat z).
Proof.
  right. exists (print_nat z), "". destruct (print_nat_digits z) as (D & N).
  split; [now rewrite sapp_nil_r|]. split; [left; auto|now left].
Qed.
Lemma print_int_token z : reads T_Number (print_int z).
Proof.
  apply number_reads_as. unfold print_int. destruct (z <? 0).
  - right. exists (print_nat (- z)). split; [reflexivity|apply print_nat_text].
  - left. apply print_nat_text.
Qed.
Lemma point_text a b : sall is_digit a = true -> b <> "" -> sall is_digit b = true -> number_text (a ++ String "." b).
Proof.
  intros A N B. right. exists (a ++ String "." b)%string, "". split; [now rewrite sapp_nil_r|].
  split; [right; exists a, b; auto|now left].
Qed.
Lemma print_decimal_token neg m e : reads T_Number (print_decimal neg m e).
Proof.
  apply number_reads_as. unfold print_decimal.
  set (body := if 0 <=? e then _ else _).
  assert (T : number_text body).
  { subst body. destruct (Z.leb_spec 0 e) as [L|L].
    - change ".0" with (String "." "0"). apply point_text; [apply print_nat_digits|discriminate|reflexivity].
    - cbn [String.append]. apply point_text; [apply print_nat_digits| |now apply pad_digits_all].
      intro E. pose proof (pad_digits_length (Z.to_nat (- e)) (m mod 10 ^ (- e)) "") as Q.
      rewrite E in Q. cbn in Q. lia. }
  destruct neg; [right; now exists body|now left].
Qed.

Lemma parse_int_range s z : parse_int s = Some z -> is_int64 z.
Proof.
  unfold parse_int, is_int64. intro H.
  assert (R : forall y, (if (- two63 <=? y) && (y <? two63) then Some y else None) = Some z -> - two63 <= z < two63).
  { intros y. destruct (Z.leb_spec (- two63) y), (Z.ltb_spec y two63); cbn [andb]; try discriminate.
    intros [= <-]. lia. }
  destruct (strip_prefix "-" s); [destruct (parse_unsigned s0)|destruct (parse_unsigned s)]; try discriminate; eauto.
Qed.
