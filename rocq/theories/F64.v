(** Go's float64 as the standard library's computable IEEE-754 binary64
    ([SpecFloat] at precision 53, maximal exponent 1024).  No axioms. *)

From Coq Require Import ZArith Bool Lia.
From Coq.Floats Require Export SpecFloat.
From Verif Require Import Base.
Open Scope Z_scope.

(** The float64 of utils/utils.go:85-145 ToFloat and the operators of
    protocols/*.go. *)
Definition f64 := spec_float.

(** The zero ToFloat returns for what is no number (utils/utils.go:85-145
    ToFloat). *)
Definition fzero : f64 := S754_zero false.

(** float64(z) for an integer z: rounded to nearest even. As in
    utils/utils.go:85-145 ToFloat. *)
Definition f_of_Z (z : Z) : f64 :=
  match z with
  | Z0 => fzero
  | _ => binary_normalize 53 1024 z 0 false
  end.

(** The + of protocols/protocol_add.go:50-107 Add on floats. *)
Definition f_add := SFadd 53 1024.
(** The - of protocols/protocol_sub.go:23-67 Sub on floats. *)
Definition f_sub := SFsub 53 1024.
(** The * of protocols/protocol_mul.go:25-82 Mul on floats. *)
Definition f_mul := SFmul 53 1024.
(** The / of protocols/protocol_div.go:23-77 Div on floats. *)
Definition f_div := SFdiv 53 1024.
(** No counterpart in /repo: negation of a float, used by the number parser.
    *)
Definition f_opp := SFopp.
(** The == of protocols/protocol_eq.go:26-93 Eq on floats. *)
Definition f_eqb := SFeqb.
(** The < of protocols/protocol_lt.go:57-154 Lt on floats. *)
Definition f_ltb := SFltb.
(** No counterpart in /repo: math.IsNaN, for statements. *)
Definition f_is_nan (f : f64) : bool :=
  match f with S754_nan => true | _ => false end.
(** f == 0 in Go. As in protocols/protocol_div.go:23-77 Div and
    protocols/protocol_bool.go:20-76 Bool. *)
Definition f_is_zero (f : f64) : bool := f_eqb f fzero.

(** Integer part (toward zero) of a finite float. Used by [f_to_int64]. *)
Definition f_int_part (f : f64) : option Z :=
  match f with
  | S754_zero _ => Some 0
  | S754_finite s m e =>
      let q := if 0 <=? e then Z.pos m * 2 ^ e else Z.pos m / 2 ^ (- e) in
      Some (if s then - q else q)
  | _ => None
  end.

(** int64(f). Go leaves out of range conversions implementation defined; this
    is the amd64 behaviour (0x8000000000000000). As in utils/utils.go:158-211
    ToInt64 and throttle.go:30-50 NewTimeThrottler. *)
Definition f_to_int64 (f : f64) : Z :=
  match f_int_part f with
  | Some z => if (- two63 <=? z) && (z <? two63) then z else - two63
  | None => - two63
  end.

(** math.Modf: integer part (as a float) and remainder. Used by
    protocols/protocol_lt.go:166-191 toTime. *)
Definition f_modf (f : f64) : f64 * f64 :=
  match f with
  | S754_zero s => (f, f)
  | S754_nan => (S754_nan, S754_nan)
  | S754_infinity s => (f, S754_nan)
  | S754_finite s m e =>
      if 0 <=? e then (f, S754_zero s)
      else
        let q := Z.pos m / 2 ^ (- e) in
        let r := Z.pos m mod 2 ^ (- e) in
        let sg z := if s then - z else z in
        (match q with Z0 => S754_zero s | _ => f_of_Z (sg q) end,
         match r with
         | Z0 => S754_zero s
         | _ => binary_normalize 53 1024 (sg r) e s
         end)
  end.
