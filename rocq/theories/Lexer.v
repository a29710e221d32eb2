(** The lexer of VQL: the rules of vfilter.go:149-178, applied as
    participle's simple lexer does - the first rule that matches at the
    cursor wins, each pattern sees the text from the cursor on only, tokens of
    rules with a lower case name (whitespace) are discarded.

    The patterns are written out by hand.  Simplified: the letters of keywords
    fold ASCII case only (Go's (?i) also folds U+017F and U+212A). *)

From Coq Require Import ZArith List String Ascii Bool.
From Verif Require Import Base.
Import ListNotations.
Open Scope nat_scope.
Open Scope string_scope.
Open Scope list_scope.

(** The names of the rules. vfilter.go:149-178 *)
Inductive ttype : Type :=
| T_MLineComment | T_VQLComment | T_Comment
| T_EXPLAIN | T_SELECT | T_WHERE | T_AND | T_OR | T_AlternativeOR | T_AlternativeAND
| T_FROM | T_NOT | T_AS | T_IN | T_LIMIT | T_NULL | T_DESC | T_GROUPBY | T_ORDERBY
| T_BOOL | T_LET | T_Number | T_Ident | T_SymbolIdent | T_Operators
| T_MultilineString | T_String.

Scheme Equality for ttype.

(** What the lexer of vfilter.go:149-178 yields. *)
Record token : Type := Tok { tt : ttype; tv : string }.

(** ** Characters *)

(** No counterpart in /repo: the code of a character. *)
Definition chn (c : ascii) : N := N_of_ascii c.
(** No counterpart in /repo: a range of a character class. *)
Definition in_range (lo hi c : ascii) : bool := (chn lo <=? chn c)%N && (chn c <=? chn hi)%N.
(** No counterpart in /repo: [a-z] *)
Definition is_lower (c : ascii) : bool := in_range "a" "z" c.
(** No counterpart in /repo: [A-Z] *)
Definition is_upper (c : ascii) : bool := in_range "A" "Z" c.
(** \d of vfilter.go:172 *)
Definition is_digit (c : ascii) : bool := in_range "0" "9" c.
(** [0-9a-fA-F] of vfilter.go:172 *)
Definition is_hex (c : ascii) : bool := is_digit c || in_range "a" "f" c || in_range "A" "F" c.
(** [a-zA-Z_]. vfilter.go:173 *)
Definition is_alpha (c : ascii) : bool := is_lower c || is_upper c || Ascii.eqb c "_".
(** [a-zA-Z0-9_], also what \b calls a word character. vfilter.go:173 *)
Definition is_word (c : ascii) : bool := is_alpha c || is_digit c.
(** \s. The rule for white space of vfilter.go:149-178. *)
Definition is_space (c : ascii) : bool :=
  Ascii.eqb c " " || Ascii.eqb c "009" || Ascii.eqb c "010" || Ascii.eqb c "012" || Ascii.eqb c "013".
(** No counterpart in /repo: the line feed. *)
Definition nl : ascii := "010".
(** A quote of vfilter.go:177. *)
Definition squote : ascii := "039".
(** A quote of vfilter.go:177. *)
Definition dquote : ascii := "034".
(** The backquote of vfilter.go:173. *)
Definition bquote : ascii := "096".
(** The escape character of vfilter.go:177. *)
Definition bslash : ascii := "092".

(** See [upper]. *)
Definition upper_char (c : ascii) : ascii :=
  if is_lower c then ascii_of_N (chn c - 32) else c.
(** The (?i) of the rules of vfilter.go:149-178. *)
Fixpoint upper (s : string) : string :=
  match s with "" => "" | String c r => String (upper_char c) (upper r) end.

(** The longest prefix of characters that satisfy p, and the rest. A repeated
    character class of the rules of vfilter.go:149-178. *)
Fixpoint span (p : ascii -> bool) (s : string) : string * string :=
  match s with
  | "" => ("", "")
  | String c r => if p c then let (a, b) := span p r in (String c a, b) else ("", s)
  end.

(** A literal of the rules of vfilter.go:149-178. *)
Fixpoint strip_prefix (pat s : string) : option string :=
  match pat, s with
  | "", _ => Some s
  | String a p, String b r => if Ascii.eqb a b then strip_prefix p r else None
  | _, _ => None
  end.

(** .*?pat: the text up to and including the first occurrence of pat, and the
    rest. As in vfilter.go:151 and 176. *)
Fixpoint until (pat s : string) : option (string * string) :=
  match strip_prefix pat s with
  | Some r => Some (pat, r)
  | None =>
      match s with
      | "" => None
      | String c r =>
          match until pat r with Some (a, b) => Some (String c a, b) | None => None end
      end
  end.

(** ** The rules *)

(** 151-153: comments *)
Definition mline_comment (s : string) : option (string * string) :=
  match strip_prefix "/*" s with
  | Some r => match until "*/" r with Some (a, b) => Some ("/*" ++ a, b)%string | None => None end
  | None => None
  end.
(** vfilter.go:152-153 *)
Definition line_comment (mark s : string) : option (string * string) :=
  match strip_prefix mark s with
  | Some r => let (a, b) := span (fun c => negb (Ascii.eqb c nl)) r in Some (mark ++ a, b)%string
  | None => None
  end.

(** 154-158, 161-171: keywords.  \bWORD\b at the cursor matches when WORD is the whole
    run of word characters there. *)
Definition keywords : list (string * ttype) :=
  [("EXPLAIN", T_EXPLAIN); ("SELECT", T_SELECT); ("WHERE", T_WHERE); ("AND", T_AND); ("OR", T_OR);
   ("FROM", T_FROM); ("NOT", T_NOT); ("AS", T_AS); ("IN", T_IN); ("LIMIT", T_LIMIT); ("NULL", T_NULL);
   ("DESC", T_DESC); ("TRUE", T_BOOL); ("FALSE", T_BOOL); ("LET", T_LET)].
(** vfilter.go:154-158 and 161-171 *)
Definition keyword_of (w : string) : option ttype :=
  match find (fun k => String.eqb (fst k) (upper w)) keywords with
  | Some k => Some (snd k)
  | None => None
  end.
(** \s+BY\b. In the rules for GROUP BY and ORDER BY of vfilter.go:149-178. *)
Definition by_follows (s : string) : option (string * string) :=
  let (sp, r) := span is_space s in
  let (w, r2) := span is_word r in
  if negb (String.eqb sp "") && String.eqb (upper w) "BY" then Some (sp ++ w, r2)%string else None.

(** The word at the cursor: a keyword, GROUP BY, ORDER BY, or the first half
    of the rule Ident (173). vfilter.go:154-173 *)
Definition word_token (s : string) : token * string :=
  let (w, r) := span is_word s in
  match keyword_of w with
  | Some t => (Tok t w, r)
  | None =>
      match by_follows r with
      | Some (b, r2) =>
          if String.eqb (upper w) "GROUP" then (Tok T_GROUPBY (w ++ b), r2)
          else if String.eqb (upper w) "ORDER" then (Tok T_ORDERBY (w ++ b), r2)
          else (Tok T_Ident w, r)
      | None => (Tok T_Ident w, r)
      end
  end.

(** `[^`]+`. The second half of vfilter.go:173. *)
Definition quoted_ident (s : string) : option (string * string) :=
  match s with
  | String c r =>
      if Ascii.eqb c bquote then
        let (a, b) := span (fun c => negb (Ascii.eqb c bquote)) r in
        match a, b with
        | String _ _, String _ b' => Some (String bquote (a ++ String bquote ""), b')%string
        | _, _ => None
        end
      else None
  | "" => None
  end.

(** 172: -?(0x[0-9a-fA-F]+|\d*\.?\d+([eE][-+]?\d+)?) *)
Definition exponent (s : string) : string * string :=
  match s with
  | String e r =>
      if Ascii.eqb e "e" || Ascii.eqb e "E" then
        let (sg, r1) := match r with
                        | String c r1 => if Ascii.eqb c "-" || Ascii.eqb c "+" then (String c "", r1) else ("", r)
                        | "" => ("", r)
                        end in
        let (d, r2) := span is_digit r1 in
        if String.eqb d "" then ("", s) else (String e (sg ++ d), r2)%string
      else ("", s)
  | "" => ("", s)
  end.
(** vfilter.go:172 *)
Definition decimal (s : string) : option (string * string) :=
  let (d1, r1) := span is_digit s in
  let plain := if String.eqb d1 "" then None else Some (d1, r1) in
  let mant := match r1 with
              | String c r2 =>
                  if Ascii.eqb c "." then
                    let (d2, r3) := span is_digit r2 in
                    if String.eqb d2 "" then plain else Some (d1 ++ String c d2, r3)%string
                  else plain
              | "" => plain
              end in
  match mant with
  | Some (m, r) => let (e, r') := exponent r in Some (m ++ e, r')%string
  | None => None
  end.
(** vfilter.go:172 *)
Definition unsigned_number (s : string) : option (string * string) :=
  match strip_prefix "0x" s with
  | Some r =>
      let (h, r1) := span is_hex r in
      if String.eqb h "" then decimal s else Some ("0x" ++ h, r1)%string
  | None => decimal s
  end.
(** vfilter.go:172 *)
Definition number (s : string) : option (string * string) :=
  match s with
  | String c r =>
      if Ascii.eqb c "-" then
        match unsigned_number r with Some (n, r') => Some (String c n, r') | None => None end
      else unsigned_number s
  | "" => None
  end.

(** 174: -[a-zA-Z_][a-zA-Z0-9_]*|-`[^`]+` *)
Definition symbol_ident (s : string) : option (string * string) :=
  match s with
  | String c r =>
      if Ascii.eqb c "-" then
        match r with
        | String a _ =>
            if is_alpha a then let (w, r') := span is_word r in Some (String c w, r')
            else match quoted_ident r with Some (w, r') => Some (String c w, r') | None => None end
        | "" => None
        end
      else None
  | "" => None
  end.

(** 175. vfilter.go:175 *)
Definition operators : list string :=
  ["<>"; "!="; "<="; ">="; "=>"; "=~"; "-"; "+"; ":"; "*"; "/"; "%"; ","; "."; "("; ")"; "=";
   "<"; ">"; "{"; "}"; "["; "]"].
(** vfilter.go:175 *)
Fixpoint operator_in (l : list string) (s : string) : option (string * string) :=
  match l with
  | [] => None
  | o :: l' => match strip_prefix o s with Some r => Some (o, r) | None => operator_in l' s end
  end.

(** 176: three quotes, .*?, three quotes. vfilter.go:176 *)
Definition triple : string := String squote (String squote (String squote "")).
(** vfilter.go:176 *)
Definition multiline_string (s : string) : option (string * string) :=
  match strip_prefix triple s with
  | Some r => match until triple r with Some (a, b) => Some (triple ++ a, b)%string | None => None end
  | None => None
  end.

(** 177: the inside of a string up to the closing quote q. vfilter.go:177 *)
Fixpoint string_body (q : ascii) (s : string) : option (string * string) :=
  match s with
  | "" => None
  | String c r =>
      if Ascii.eqb c q then Some (String c "", r)
      else if Ascii.eqb c bslash then
        match r with
        | String d r2 =>
            match string_body q r2 with Some (a, b) => Some (String c (String d a), b) | None => None end
        | "" => None
        end
      else match string_body q r with Some (a, b) => Some (String c a, b) | None => None end
  end.
(** vfilter.go:177 *)
Definition quoted_string (s : string) : option (string * string) :=
  match s with
  | String c r =>
      if Ascii.eqb c squote || Ascii.eqb c dquote then
        match string_body c r with Some (a, b) => Some (String c a, b) | None => None end
      else None
  | "" => None
  end.

(** 159, 160. vfilter.go:159 *)
Definition alt_or (s : string) : option (string * string) :=
  let (a, r) := span (Ascii.eqb "|") s in if String.eqb a "" then None else Some (a, r).
(** vfilter.go:160 *)
Definition alt_and (s : string) : option (string * string) :=
  match strip_prefix "&&" s with Some r => Some ("&&", r) | None => None end.

(** The first rule that matches; [None] when none does. No counterpart in
    /repo: the class of the character at the cursor. *)
Definition first_char (p : ascii -> bool) (s : string) : bool :=
  match s with String c _ => p c | "" => false end.

(** participle's simple lexer on the rules of vfilter.go:149-178. *)
Fixpoint first_rule (l : list (ttype * (string -> option (string * string)))) (s : string)
  : option (token * string) :=
  match l with
  | [] => None
  | (t, rule) :: l' =>
      match rule s with Some (v, r) => Some (Tok t v, r) | None => first_rule l' s end
  end.

(** One token of the rules of vfilter.go:149-178. *)
Definition lex1 (s : string) : option (option token * string) :=
  if first_char is_space s then Some (None, snd (span is_space s))
  else
    match first_rule [(T_MLineComment, mline_comment); (T_VQLComment, line_comment "--");
                      (T_Comment, line_comment "//")] s with
    | Some (t, r) => Some (Some t, r)
    | None =>
        if first_char is_alpha s then let (t, r) := word_token s in Some (Some t, r)
        else
          match first_rule [(T_AlternativeOR, alt_or); (T_AlternativeAND, alt_and); (T_Number, number);
                            (T_Ident, quoted_ident); (T_SymbolIdent, symbol_ident);
                            (T_Operators, operator_in operators); (T_MultilineString, multiline_string);
                            (T_String, quoted_string)] s with
          | Some (t, r) => Some (Some t, r)
          | None => None
          end
    end.

(** The whole text. Every rule takes at least one character, so that one more
    step than there are characters is enough. The rules of vfilter.go:149-178
    again and again. *)
Fixpoint lex_n (n : nat) (s : string) : option (list token) :=
  match n with
  | O => None
  | S m =>
      match s with
      | "" => Some []
      | _ =>
          match lex1 s with
          | Some (t, r) =>
              match lex_n m r with
              | Some l => Some (match t with Some t => t :: l | None => l end)
              | None => None
              end
          | None => None
          end
      end
  end.
(** The lexer of vfilter.go:149-178 on a text. *)
Definition lex (s : string) : option (list token) := lex_n (S (String.length s)) s.

(** 186-189: the lexer of Parse and MultiParse drops comments. *)
Definition is_comment (t : token) : bool :=
  match tt t with T_MLineComment | T_VQLComment | T_Comment => true | _ => false end.

(** participle.Upper("IN", "DESC") (194). vfilter.go:194 *)
Definition upper_token (t : token) : token :=
  match tt t with T_IN | T_DESC => Tok (tt t) (upper (tv t)) | _ => t end.

(** The lexer of vfilter.go:149-178 without comments (vfilter.go:239-249
    Next). *)
Definition tokens (s : string) : option (list token) :=
  match lex s with
  | Some l => Some (map upper_token (filter (fun t => negb (is_comment t)) l))
  | None => None
  end.
