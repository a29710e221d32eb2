(** The text and time parts of the built in functions
    (/repo/functions/functions.go): strings.Split, strconv.Atoi,
    hex.EncodeToString, time.Unix. *)

From Coq Require Import ZArith List String Ascii Bool.
From Verif Require Import Base F64 Value ArgParser Numeral.
Import ListNotations.
Open Scope string_scope.

(** strings.Split(s, sep) for a separator that is not empty: [skip] bytes of a
    separator are still to be passed over. Called by
    functions/functions.go:90-111 Call. *)
Fixpoint split_skip (sep : string) (skip : nat) (s : string) : list string :=
  match s with
  | EmptyString => [EmptyString]
  | String c r =>
      match skip with
      | S k => split_skip sep k r
      | O =>
          if str_prefixb sep s then EmptyString :: split_skip sep (pred (String.length sep)) r
          else match split_skip sep O r with
               | w :: ws => String c w :: ws
               | [] => []
               end
      end
  end.
(** Called by functions/functions.go:90-111 Call. *)
Definition split_string (s sep : string) : list string := split_skip sep O s.

(** strconv.Atoi: an optional sign, decimal digits, in the range of int (64
    bits). Called by functions/functions.go:128-165 Call. *)
Definition atoi (s : string) : option Z :=
  let in64 z := if ((- two63 <=? z) && (z <? two63))%Z then Some z else None in
  match s with
  | String "-" r => match digits_of 10 r with Some z => in64 (- z)%Z | None => None end
  | String "+" r => match digits_of 10 r with Some z => in64 z | None => None end
  | _ => match digits_of 10 s with Some z => in64 z | None => None end
  end.

(** functions.go:140: the components of the member argument of get(). *)
Definition member_path (member : string) : list string := split_on "."%char member.

(** functions.go:141-152: one component of the member argument of get(). *)
Definition member_key (member : string) : val :=
  match atoi member with Some z => VInt KInt z | None => VStr member end.

(** hex.EncodeToString. Called by functions/functions.go:182-233 Call. *)
Definition hex_digit (n : Z) : ascii :=
  ascii_of_N (Z.to_N (if n <? 10 then 48 + n else 87 + n)%Z).
(** Called by functions/functions.go:182-233 Call. *)
Fixpoint hex_string (s : string) : string :=
  match s with
  | EmptyString => EmptyString
  | String c r =>
      let b := Z.of_N (N_of_ascii c) in
      String (hex_digit (b / 16)) (String (hex_digit (b mod 16)) (hex_string r))
  end.

(** time.Unix(sec, 0); [VTime] counts nanoseconds. Called by
    functions/functions.go:52-69 Call. *)
Definition unix (sec : Z) : val := VTime (sec * 1000000000).

(** functions.go:60-68: the result of timestamp() for its two arguments, 0 when
    not given; the division and the difference are those of int64. *)
Definition timestamp_of (epoch winfiletime : Z) : val :=
  if (0 <? epoch)%Z then unix epoch
  else if (0 <? winfiletime)%Z then unix (Z.quot winfiletime 10000000 - 11644473600)
  else VNull.
