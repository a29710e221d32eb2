(** Basic machine-level notions used everywhere in the model:
    two's complement 64 bit integers, byte strings and the outcome of a Go
    call that may panic.

    Nothing here models a particular line of /repo; it models the Go
    language semantics the code relies on. *)

From Coq Require Import ZArith List String Ascii Bool Lia.
Import ListNotations.
Open Scope Z_scope.

(** The bounds of Go's 64 bit integers, as in ToInt64 (utils/utils.go:158-211
    ToInt64). *)
Definition two63 : Z := 9223372036854775808.
(** See [two63]. *)
Definition two64 : Z := 18446744073709551616.

(** Go conversion of an integer to int64: reduce modulo 2^64 into [-2^63,
    2^63). Used for the int64 arithmetic of protocols/protocol_add.go:35-48
    intAdd and the other operators. *)
Definition wrap64 (z : Z) : Z := (z + two63) mod two64 - two63.

(** Go conversion of an integer to uint64. Used where utils/utils.go:158-211
    ToInt64 converts unsigned values. *)
Definition wrapu64 (z : Z) : Z := z mod two64.

(** No counterpart in /repo: the range of int64, for statements about
    utils/utils.go:158-211 ToInt64. *)
Definition is_int64 (z : Z) : Prop := - two63 <= z < two63.

(** A Go call returns a value or panics. Panics come from Go's runtime, for
    instance at the slices of utils/unquote.go:10-107 Unquote. *)
Inductive outcome (A : Type) : Type :=
| Ok (a : A)
| Panic.
Arguments Ok {A} a.
Arguments Panic {A}.

(** No counterpart in /repo: sequencing of calls that may panic. *)
Definition obind {A B} (x : outcome A) (f : A -> outcome B) : outcome B :=
  match x with Ok a => f a | Panic => Panic end.

(** Byte length of a Go string. len(s), as in utils/unquote.go:10-107 Unquote.
    *)
Definition slen (s : string) : Z := Z.of_nat (String.length s).

(** No counterpart in /repo: the bytes of a Go string. *)
Fixpoint str_list (s : string) : list ascii :=
  match s with
  | EmptyString => []
  | String c r => c :: str_list r
  end.

(** No counterpart in /repo: the Go string of some bytes. *)
Fixpoint list_str (l : list ascii) : string :=
  match l with
  | [] => EmptyString
  | c :: r => String c (list_str r)
  end.

(** Go's [<] on strings: lexicographic on bytes. The < of
    protocols/protocol_lt.go:57-154 Lt on strings. *)
Fixpoint str_ltb (a b : string) : bool :=
  match a, b with
  | EmptyString, EmptyString => false
  | EmptyString, String _ _ => true
  | String _ _, EmptyString => false
  | String x a', String y b' =>
      if (N_of_ascii x <? N_of_ascii y)%N then true
      else if (N_of_ascii y <? N_of_ascii x)%N then false
      else str_ltb a' b'
  end.

(** n-fold repetition of a string. Used by protocols/protocol_mul.go:25-82
    Mul. *)
Fixpoint str_repeat (n : nat) (s : string) : string :=
  match n with
  | O => EmptyString
  | S k => (s ++ str_repeat k s)%string
  end.

(** Go's strings.HasPrefix and strings.Contains. No counterpart in /repo:
    strings.HasPrefix. *)
Fixpoint str_prefixb (p s : string) : bool :=
  match p, s with
  | EmptyString, _ => true
  | String _ _, EmptyString => false
  | String x p', String y s' =>
      if ascii_dec x y then str_prefixb p' s' else false
  end.

(** strings.Contains, used by protocols/protocol_membership.go:26-78
    Membership. *)
Fixpoint str_containsb (sub s : string) : bool :=
  str_prefixb sub s ||
  match s with
  | EmptyString => false
  | String _ s' => str_containsb sub s'
  end.

(** First entry with a key, in an association list keyed by strings. Used
    wherever /repo calls Get of a dictionary, as scope/scope.go:648-680
    _ResolveVars does. *)
Fixpoint assoc {A} (k : string) (l : list (string * A)) : option A :=
  match l with
  | [] => None
  | (k', v) :: r => if String.eqb k k' then Some v else assoc k r
  end.

(** No counterpart in /repo: part of [dict_set]. *)
Fixpoint remove_key {A} (k : string) (l : list (string * A)) :
  list (string * A) :=
  match l with
  | [] => []
  | (k', v) :: r =>
      if String.eqb k k' then remove_key k r else (k', v) :: remove_key k r
  end.

(** Velocidex/ordereddict [Set]: an existing key is dropped and the new entry
    goes to the end. (ordereddict is a dependency whose source is not in
    /repo; this is the documented behaviour of [Set].). Used wherever /repo
    calls Set, as vfilter.go:1964-2025 callFunction does. *)
Definition dict_set {A} (k : string) (v : A) (l : list (string * A)) :
  list (string * A) := remove_key k l ++ [(k, v)].

(** Keys() of a dictionary, as in protocols/protocol_associative.go:121-148
    GetMembers. *)
Definition keys {A} (l : list (string * A)) : list string := map fst l.

(** utils/utils.go:53-61 InString *)
Definition mem_str (k : string) (l : list string) : bool :=
  existsb (String.eqb k) l.
