(** Text handling: utils/unquote.go, tokenizer.go and the error reporting and
    statement splitting of vfilter.go. *)

From Coq Require Import ZArith NArith List String Ascii Bool Lia.
From Verif Require Import Base.
Import ListNotations.
Open Scope Z_scope.

(** A byte of a string as a number. Used by utils/unquote.go:165-177
    decode_hex. *)
Definition byte (c : ascii) : Z := Z.of_N (N_of_ascii c).
Definition chr (z : Z) : ascii := ascii_of_N (Z.to_N z).

(** ** Go's string iteration (unicode/utf8) *)

(** Produced by the range over a string of utils/unquote.go:135-163
    SplitIdent. *)
Definition rune_error : Z := 65533.

(** No counterpart in /repo: a range of bytes or runes. *)
Definition between (lo hi x : Z) : bool := (lo <=? x) && (x <=? hi).

(** utf8.DecodeRuneInString: the rune at the head of a non empty string and
    its width; an invalid sequence is U+FFFD of width 1. Used by the ranges
    over strings of utils/unquote.go:135-163 SplitIdent and tokenizer.go:68-81
    findEndPos. *)
Definition decode1 (s : string) : Z * nat :=
  match s with
  | EmptyString => (rune_error, 0%nat)
  | String c0 s1 =>
      let b0 := byte c0 in
      if b0 <? 128 then (b0, 1%nat)
      else if b0 <? 194 then (rune_error, 1%nat)
      else match s1 with
      | EmptyString => (rune_error, 1%nat)
      | String c1 s2 =>
          let b1 := byte c1 in
          if b0 <? 224 then
            if between 128 191 b1 then ((b0 - 192) * 64 + (b1 - 128), 2%nat)
            else (rune_error, 1%nat)
          else match s2 with
          | EmptyString => (rune_error, 1%nat)
          | String c2 s3 =>
              let b2 := byte c2 in
              if b0 <? 240 then
                let lo := if b0 =? 224 then 160 else 128 in
                let hi := if b0 =? 237 then 159 else 191 in
                if between lo hi b1 && between 128 191 b2
                then ((b0 - 224) * 4096 + (b1 - 128) * 64 + (b2 - 128), 3%nat)
                else (rune_error, 1%nat)
              else match s3 with
              | EmptyString => (rune_error, 1%nat)
              | String c3 _ =>
                  let b3 := byte c3 in
                  let lo := if b0 =? 240 then 144 else 128 in
                  let hi := if b0 =? 244 then 143 else 191 in
                  if (b0 <? 245) && between lo hi b1 && between 128 191 b2 && between 128 191 b3
                  then ((b0 - 240) * 262144 + (b1 - 128) * 4096 + (b2 - 128) * 64 + (b3 - 128), 4%nat)
                  else (rune_error, 1%nat)
              end
          end
      end
  end.

(** [for _, c := range s]: the runes of a string. See [runes]. *)
Fixpoint runes_skip (skip : nat) (s : string) : list Z :=
  match s with
  | EmptyString => []
  | String _ r =>
      match skip with
      | S k => runes_skip k r
      | O => let (c, n) := decode1 s in c :: runes_skip (n - 1) r
      end
  end.
(** The range over a string of utils/unquote.go:135-163 SplitIdent. *)
Definition runes (s : string) : list Z := runes_skip 0 s.

(** A Unicode scalar value. Used by [encode_rune]. *)
Definition valid_rune (r : Z) : bool :=
  between 0 55295 r || between 57344 1114111 r.

(** string(rune) (utf8.AppendRune). The conversion to string of
    utils/unquote.go:135-163 SplitIdent. *)
Definition encode_rune (r0 : Z) : string :=
  let r := if valid_rune r0 then r0 else rune_error in
  if r <? 128 then String (chr r) ""
  else if r <? 2048 then String (chr (192 + r / 64)) (String (chr (128 + r mod 64)) "")
  else if r <? 65536 then
    String (chr (224 + r / 4096))
      (String (chr (128 + (r / 64) mod 64)) (String (chr (128 + r mod 64)) ""))
  else
    String (chr (240 + r / 262144))
      (String (chr (128 + (r / 4096) mod 64))
        (String (chr (128 + (r / 64) mod 64)) (String (chr (128 + r mod 64)) ""))).

(** string([]rune). See [encode_rune]. *)
Fixpoint encode_runes (l : list Z) : string :=
  match l with
  | [] => EmptyString
  | r :: t => (encode_rune r ++ encode_runes t)%string
  end.

(** ** utils/unquote.go *)

Definition ch_bslash : ascii := "092"%char.
Definition ch_dquote : ascii := "034"%char.
(** The quote characters of utils/unquote.go:10-107 Unquote. *)
Definition ch_squote : ascii := "039"%char.
(** The backquote of utils/unquote.go:110-131 Unquote_ident. *)
Definition ch_btick : ascii := "096"%char.
(** An escape of utils/unquote.go:10-107 Unquote. *)
Definition ch_nl : ascii := "010"%char.
(** An escape of utils/unquote.go:10-107 Unquote. *)
Definition ch_cr : ascii := "013"%char.
(** An escape of utils/unquote.go:10-107 Unquote. *)
Definition ch_tab : ascii := "009"%char.

(** unquote.go:165-200 hex_lookup and decode_hex *)
Definition hex_lookup (c : ascii) : Z :=
  let b := byte c in
  if between 48 57 b then b - 48
  else if between 97 102 b then b - 97 + 10
  else if between 65 70 b then b - 65 + 10
  else -1.

(** utils/unquote.go:165-177 decode_hex *)
Definition decode_hex (l r : ascii) : option ascii :=
  if hex_lookup l <? 0 then None
  else if hex_lookup r <? 0 then None
  else Some (chr (hex_lookup l * 16 + hex_lookup r)).

(** unquote.go:40-106: the decoding loop.  [inp] is [in], [rest] is in[i:],
    [out] is out[:j]; j is the length of [out]. *)
Fixpoint unq_loop (inp rest out : list ascii) : list ascii :=
  match rest with
  | [] => out
  | c :: r1 =>
      if Ascii.eqb c ch_bslash then
        match r1 with
        | [] => out                                   (* line 49 *)
        | e :: r2 =>
            if Ascii.eqb e "x" || Ascii.eqb e "X" then
              match r2 with
              | h1 :: h2 :: r4 =>
                  match decode_hex h1 h2 with
                  | None => unq_loop inp r1 (out ++ [nth (List.length out) inp zero])
                                                      (* line 66: out[j] = in[j] *)
                  | Some d => unq_loop inp r4 (out ++ [d])
                  end
              | _ => out                              (* line 57 *)
              end
            else if Ascii.eqb e "r" then unq_loop inp r2 (out ++ [ch_cr])
            else if Ascii.eqb e "n" then unq_loop inp r2 (out ++ [ch_nl])
            else if Ascii.eqb e "t" then unq_loop inp r2 (out ++ [ch_tab])
            else unq_loop inp r2 (out ++ [e])
        end
      else unq_loop inp r1 (out ++ [c])
  end.

(** Go slicing s[lo:hi] of a string; out of range bounds panic. As used by
    utils/unquote.go:10-107 Unquote. *)
Definition go_slice (s : string) (lo hi : Z) : outcome string :=
  if (0 <=? lo) && (lo <=? hi) && (hi <=? slen s)
  then Ok (String.substring (Z.to_nat lo) (Z.to_nat (hi - lo)) s)
  else Panic.

(** strings.HasSuffix of utils/unquote.go:10-107 Unquote. *)
Definition str_suffixb (p s : string) : bool :=
  str_prefixb (list_str (rev (str_list p))) (list_str (rev (str_list s))).

(** The delimiter of utils/unquote.go:10-107 Unquote. *)
Definition triple_quote : string := String ch_squote (String ch_squote (String ch_squote "")).

(** unquote.go:10-107 Unquote *)
Definition unquote (s : string) : outcome string :=
  if str_prefixb triple_quote s && str_suffixb triple_quote s
  then go_slice s 3 (slen s - 3)
  else match s with
       | EmptyString => Panic                         (* s[0] *)
       | String q _ =>
           if Ascii.eqb q ch_dquote || Ascii.eqb q ch_squote then
             obind (go_slice s 1 (slen s - 1)) (fun inp =>
               let l := str_list inp in
               Ok (list_str (unq_loop l l [])))
           else Ok s
       end.

(** strconv.UnquoteChar(s, '`'), for a non empty [s]: the value and the number
    of bytes consumed, or an error. Part of strconv.Unquote, which
    utils/unquote.go:110-131 Unquote_ident calls. *)
Definition hexval (c : ascii) : option Z :=
  if hex_lookup c <? 0 then None else Some (hex_lookup c).

(** Part of strconv.Unquote, which utils/unquote.go:110-131 Unquote_ident
    calls. *)
Fixpoint take_hex (n : nat) (s : string) (v : Z) : option Z :=
  match n with
  | O => Some v
  | S k => match s with
           | EmptyString => None
           | String c r => match hexval c with
                           | Some h => take_hex k r (v * 16 + h)
                           | None => None
                           end
           end
  end.

(** Part of strconv.Unquote, which utils/unquote.go:110-131 Unquote_ident
    calls. *)
Definition octval (c : ascii) : option Z :=
  if between 48 55 (byte c) then Some (byte c - 48) else None.

(** Part of strconv.Unquote, which utils/unquote.go:110-131 Unquote_ident
    calls. *)
Definition unquote_char (s : string) : option (Z * nat) :=
  match s with
  | EmptyString => None
  | String c r =>
      if negb (Ascii.eqb c ch_bslash) then
        if byte c <? 128 then Some (byte c, 1%nat) else Some (decode1 s)
      else match r with
           | EmptyString => None
           | String e t =>
               if Ascii.eqb e "a" then Some (7, 2%nat)
               else if Ascii.eqb e "b" then Some (8, 2%nat)
               else if Ascii.eqb e "f" then Some (12, 2%nat)
               else if Ascii.eqb e "n" then Some (10, 2%nat)
               else if Ascii.eqb e "r" then Some (13, 2%nat)
               else if Ascii.eqb e "t" then Some (9, 2%nat)
               else if Ascii.eqb e "v" then Some (11, 2%nat)
               else if Ascii.eqb e "x" then
                 match take_hex 2 t 0 with Some v => Some (v, 4%nat) | None => None end
               else if Ascii.eqb e "u" then
                 match take_hex 4 t 0 with
                 | Some v => if valid_rune v then Some (v, 6%nat) else None
                 | None => None
                 end
               else if Ascii.eqb e "U" then
                 match take_hex 8 t 0 with
                 | Some v => if valid_rune v then Some (v, 10%nat) else None
                 | None => None
                 end
               else match octval e with
                    | Some o1 =>
                        match t with
                        | String c1 (String c2 _) =>
                            match octval c1, octval c2 with
                            | Some o2, Some o3 =>
                                let v := o1 * 64 + o2 * 8 + o3 in
                                if 255 <? v then None else Some (v, 4%nat)
                            | _, _ => None
                            end
                        | _ => None
                        end
                    | None =>
                        if Ascii.eqb e ch_bslash then Some (92, 2%nat)
                        else None   (* escaped quotes need a matching delimiter *)
                    end
           end
  end.

(** unquote.go:121-130: the loop; on an error the rest of the input is
    returned in place of the output.  [skip] counts the bytes of the current
    character still to be dropped. *)
Fixpoint unq_ident_loop (skip : nat) (s out : string) : string :=
  match s with
  | EmptyString => out
  | String _ r =>
      match skip with
      | S k => unq_ident_loop k r out
      | O => match unquote_char s with
             | None => s
             | Some (v, n) => unq_ident_loop (n - 1) r (out ++ encode_rune v)
             end
      end
  end.

(** unquote.go:110-131 Unquote_ident *)
Definition unquote_ident (s : string) : outcome string :=
  match s with
  | EmptyString => Ok EmptyString
  | String q _ =>
      if Ascii.eqb q ch_btick
      then obind (go_slice s 1 (slen s - 1)) (fun t => Ok (unq_ident_loop 0 t EmptyString))
      else Ok s
  end.

(** unquote.go:135-163 SplitIdent: the loop over runes. *)
Fixpoint split_loop (escaped : bool) (l current : list Z) : list string :=
  match l with
  | [] => [encode_runes current]
  | c :: r =>
      if escaped then
        if c =? 96 then split_loop false r current
        else split_loop true r (current ++ [c])
      else
        if c =? 96 then split_loop true r current
        else if c =? 46 then encode_runes current :: split_loop false r []
        else split_loop false r (current ++ [c])
  end.

(** utils/unquote.go:135-163 SplitIdent *)
Definition split_ident (s : string) : list string := split_loop false (runes s) [].

(** ** tokenizer.go:68-81 findEndPos *)

Record position : Type := { p_offset : Z; p_line : Z; p_column : Z }.

(** The body of the loop of tokenizer.go:68-81 findEndPos. *)
Definition end_step (p : position) (c : Z) : position :=
  if c =? 10
  then {| p_offset := p_offset p + 1; p_line := p_line p + 1; p_column := 1 |}
  else {| p_offset := p_offset p + 1; p_line := p_line p; p_column := p_column p + 1 |}.

(** tokenizer.go:68-81 findEndPos *)
Definition find_end_pos (start : position) (value : string) : position :=
  fold_left end_step (runes value) start.

(** ** vfilter.go:251-277 reportError: the context quoted in the message *)

Definition report_error (offset : Z) (expression : string) : outcome string :=
  let len := slen expression in
  let end_ := offset + 10 in
  let end_ := if len <=? end_ then len - 1 else end_ in
  let end_ := if end_ <? 0 then 0 else end_ in
  let start := offset - 10 in
  let start := if start <? 0 then 0 else start in
  let off := offset in
  let off := if len <=? off then len - 1 else off in
  let off := if off <? 0 then 0 else off in
  obind (go_slice expression start off) (fun a =>
  obind (go_slice expression off end_) (fun b =>
  Ok (a ++ "|" ++ b)%string)).

(** ** vfilter.go:325-347 MultiVQL *)

Section MultiVQL.
  Context {stmt comment : Type}.

  (** The parse tree; the statement's own Comments field is filled in by
      GetStatements, so it is not part of it. vfilter.go:325-330 MultiVQL *)
  Inductive multi : Type :=
  | MV (comments : list comment) (vql1 : stmt) (comments2 : list comment)
       (vql2 : option multi).

  (** vfilter.go:332-347 GetStatements; the result pairs each statement with
      its Comments.  [pre] is what the caller prepended to Comments. *)
  Fixpoint get_statements_pre (pre : list comment) (m : multi) : list (list comment * stmt) :=
    match m with
    | MV cs v cs2 next =>
        (pre ++ cs, v) ::
        match next with
        | None => []
        | Some n => get_statements_pre cs2 n
        end
    end.
  (** vfilter.go:332-347 GetStatements *)
  Definition get_statements (m : multi) := get_statements_pre [] m.

  (** What the participle grammar [{comment} stmt {comment} {MultiVQL}] reads
      (vfilter.go:325-330): comments are consumed greedily.  A source text is
      a sequence of comments and statements. *)
  Inductive item : Type := IComment (c : comment) | IStmt (s : stmt).

  (** The two comment lists of vfilter.go:325-330 MultiVQL. *)
  Fixpoint span_comments (l : list item) : list comment * list item :=
    match l with
    | IComment c :: r => let (cs, rest) := span_comments r in (c :: cs, rest)
    | _ => ([], l)
    end.

  (** [fuel] bounds the number of statements. How participle fills
      vfilter.go:325-330 MultiVQL. *)
  Fixpoint parse_multi (fuel : nat) (l : list item) : option multi :=
    match fuel with
    | O => None
    | S f =>
        let (cs, r) := span_comments l in
        match r with
        | IStmt s :: r' =>
            let (cs2, r'') := span_comments r' in
            Some (MV cs s cs2 (parse_multi f r''))
        | _ => None
        end
    end.
End MultiVQL.
Arguments multi : clear implicits.
Arguments item : clear implicits.
