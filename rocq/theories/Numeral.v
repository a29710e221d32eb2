(** Number literals: strconv.ParseInt, ParseFloat, FormatInt and FormatFloat
    as vfilter uses them (vfilter.go:1641-1663, visitor.go:744-761). *)

From Coq Require Import ZArith List String Ascii Bool.
From Verif Require Import Base F64 Lexer.
Import ListNotations.
Open Scope string_scope.
Open Scope Z_scope.

(** ** Digits *)

(** Part of strconv.ParseInt, called by vfilter.go:1641-1663
    maybeParseStrNumber. *)
Definition digit_val (c : ascii) : Z :=
  let n := Z.of_N (N_of_ascii c) in
  if is_digit c then n - 48
  else if is_lower c then n - 87
  else if is_upper c then n - 55
  else 99.
(** Part of strconv.FormatInt, called by visitor.go:719-782 visitValue. *)
Definition digit_char (d : Z) : ascii := ascii_of_N (Z.to_N (48 + d)).

(** The value of a run of digits in base b; [None] unless all are digits of
    that base and there is at least one. Part of strconv.ParseInt, called by
    vfilter.go:1641-1663 maybeParseStrNumber. *)
Fixpoint digits_acc (b : Z) (s : string) (acc : Z) : option Z :=
  match s with
  | "" => Some acc
  | String c r => if digit_val c <? b then digits_acc b r (acc * b + digit_val c) else None
  end.
(** Part of strconv.ParseInt, called by vfilter.go:1641-1663
    maybeParseStrNumber. *)
Definition digits_of (b : Z) (s : string) : option Z :=
  match s with "" => None | _ => digits_acc b s 0 end.

(** strconv.ParseInt(s, 0, 64), on the texts the rule Number lets through: 0x
    is base 16, another leading 0 is base 8. Called by vfilter.go:1641-1663
    maybeParseStrNumber. *)
Definition parse_unsigned (s : string) : option Z :=
  match strip_prefix "0x" s with
  | Some r => digits_of 16 r
  | None =>
      match s with
      | String "0" (String _ _ as r) => digits_of 8 r
      | _ => digits_of 10 s
      end
  end.
(** Called by vfilter.go:1641-1663 maybeParseStrNumber. *)
Definition parse_int (s : string) : option Z :=
  let in64 z := if (- two63 <=? z) && (z <? two63) then Some z else None in
  match strip_prefix "-" s with
  | Some r => match parse_unsigned r with Some z => in64 (- z) | None => None end
  | None => match parse_unsigned s with Some z => in64 z | None => None end
  end.

(** ** Floats *)

(** m * 10^e rounded to nearest even. Part of strconv.ParseFloat, called by
    vfilter.go:1641-1663 maybeParseStrNumber. *)
Definition f_of_decimal (neg : bool) (m e : Z) : f64 :=
  let sg z := if neg then - z else z in
  if m =? 0 then S754_zero neg
  else if 0 <=? e then binary_normalize 53 1024 (sg (m * 10 ^ e)) 0 neg
  else
    let d := 10 ^ (- e) in
    let s := Z.max 0 (Z.log2 d - Z.log2 m + 66) in
    let q := Z.shiftl m s / d in
    let r := Z.shiftl m s mod d in
    (* the last bit says whether the quotient is exact *)
    binary_normalize 53 1024 (sg (2 * q + (if r =? 0 then 0 else 1))) (- s - 1) neg.

(** No counterpart in /repo: math.IsInf. *)
Definition f_is_inf (f : f64) : bool := match f with S754_infinity _ => true | _ => false end.

(** strconv.ParseFloat(s, 64), on the same texts: a hexadecimal number needs a
    p exponent, which the rule does not allow; beyond the largest float is an
    error. Simplified: Go stops adding digits to an exponent past 10000, which
    shows only in a literal with thousands of digits before the exponent.
    Called by vfilter.go:1641-1663 maybeParseStrNumber. *)
Definition parse_float (s : string) : option f64 :=
  let (neg, s1) := match strip_prefix "-" s with Some r => (true, r) | None => (false, s) end in
  match strip_prefix "0x" s1 with
  | Some _ => None
  | None =>
      let (d1, r1) := span is_digit s1 in
      let (d2, r2) := match strip_prefix "." r1 with Some r => span is_digit r | None => ("", r1) end in
      let e := match r2 with
               | "" => Some 0
               | String c r =>
                   if Ascii.eqb c "e" || Ascii.eqb c "E" then
                     match strip_prefix "-" r with
                     | Some r => match digits_of 10 r with Some z => Some (- z) | None => None end
                     | None =>
                         match strip_prefix "+" r with
                         | Some r => digits_of 10 r
                         | None => digits_of 10 r
                         end
                     end
                   else None
               end in
      match e, digits_of 10 (d1 ++ d2) with
      | Some e, Some m =>
          let f := f_of_decimal neg m (e - Z.of_nat (String.length d2)) in
          if f_is_inf f then None else Some f
      | _, _ => None
      end
  end.

(** _Value.maybeParseStrNumber (1641-1663) *)
Inductive numval : Type :=
| NInt (z : Z)
| NFloat (f : f64)
| NBad.                  (* logged; the literal has no value *)
(** vfilter.go:1641-1663 maybeParseStrNumber *)
Definition number_value (s : string) : numval :=
  match parse_int s with
  | Some z => NInt z
  | None => match parse_float s with Some f => NFloat f | None => NBad end
  end.

(** ** Printing *)

(** k digits of z, most significant first. Part of strconv.FormatInt, called
    by visitor.go:719-782 visitValue. *)
Fixpoint pad_digits (k : nat) (z : Z) (acc : string) : string :=
  match k with
  | O => acc
  | S k => pad_digits k (z / 10) (String (digit_char (z mod 10)) acc)
  end.
(** No counterpart in /repo: the number of decimal digits. *)
Fixpoint ndigits_n (fuel : nat) (z : Z) : nat :=
  match fuel with
  | O => 1
  | S f => if z <? 10 then 1 else S (ndigits_n f (z / 10))
  end.
(** No counterpart in /repo: the number of decimal digits. *)
Definition ndigits (z : Z) : nat := ndigits_n (Z.to_nat (Z.log2 z)) z.
(** Part of strconv.FormatInt, called by visitor.go:719-782 visitValue. *)
Definition print_nat (z : Z) : string := pad_digits (ndigits z) z "".

(** strconv.FormatInt(z, 10). Called by visitor.go:719-782 visitValue. *)
Definition print_int (z : Z) : string :=
  if z <? 0 then String "-" (print_nat (- z)) else print_nat z.

(** The decimal m * 10^e without exponent; always with a point, as visitValue
    (753-758) makes it. *)
Definition print_decimal (neg : bool) (m e : Z) : string :=
  let body :=
    if 0 <=? e then print_nat (m * 10 ^ e) ++ ".0"
    else
      let d := 10 ^ (- e) in
      print_nat (m / d) ++ "." ++ pad_digits (Z.to_nat (- e)) (m mod d) "" in
  if neg then String "-" body else body.

(** strconv.FormatFloat(f, 'f', -1, 64): the shortest decimal that reads back
    as f, and the one nearest to f of those. Tried with ever more digits, the
    nearest below and above each time; the exact value is the last resort. No
    counterpart in /repo: part of [print_float]. *)
Definition reads_as (neg : bool) (m e : Z) (f : f64) : bool :=
  match parse_float (print_decimal neg m e), f with
  | Some (S754_finite s1 m1 e1), S754_finite s2 m2 e2 => Bool.eqb s1 s2 && Pos.eqb m1 m2 && Z.eqb e1 e2
  | _, _ => false
  end.
(** No counterpart in /repo: part of [print_float]. *)
Fixpoint strip_zeros (fuel : nat) (m e : Z) : Z * Z :=
  match fuel with
  | O => (m, e)
  | S k => if (m mod 10 =? 0) && (e <? 0) then strip_zeros k (m / 10) (e + 1) else (m, e)
  end.
(** |f| = num / den. No counterpart in /repo: part of [print_float]. *)
Definition f_ratio (m : positive) (e : Z) : Z * Z :=
  if 0 <=? e then (Z.pos m * 2 ^ e, 1) else (Z.pos m, 2 ^ (- e)).
(** No counterpart in /repo: part of [print_float]. *)
Fixpoint shortest (fuel : nat) (k : Z) (neg : bool) (num den mag : Z) (f : f64) : Z * Z :=
  (* mag: the number of digits before the point, perhaps negative *)
  let e := mag - k in
  let (a, b) := if 0 <=? e then (num, den * 10 ^ e) else (num * 10 ^ (- e), den) in
  let lo := a / b in
  let hi := lo + 1 in
  let lo_ok := reads_as neg lo e f in
  let hi_ok := reads_as neg hi e f in
  let pick_hi := if lo_ok then hi_ok && (b <? 2 * (a - lo * b)) else hi_ok in
  if lo_ok || hi_ok then (if pick_hi then hi else lo, e)
  else match fuel with
       | O => (num * 10 ^ (Z.log2 den) / den, - Z.log2 den)   (* exact *)
       | S fuel => shortest fuel (k + 1) neg num den mag f
       end.
(** No counterpart in /repo: part of [print_float]. *)
Definition magnitude (num den : Z) : Z :=
  if num <? den then 1 - Z.of_nat (ndigits (den / num)) else Z.of_nat (ndigits (num / den)).
(** strconv.FormatFloat, called by visitor.go:719-782 visitValue. *)
Definition print_float (f : f64) : string :=
  match f with
  | S754_zero neg => if neg then "-0.0" else "0.0"
  | S754_finite neg m e =>
      let (num, den) := f_ratio m e in
      let (d, x) := shortest 17 1 neg num den (magnitude num den) f in
      let (d, x) := strip_zeros 400 d x in
      print_decimal neg d x
  | S754_infinity true => "-Inf.0"
  | S754_infinity false => "+Inf.0"
  | S754_nan => "NaN.0"
  end.
