(** The lexical rules of VQL as they stand in the source, vfilter.go:149-178:
    a table of names and regular expressions, copied as text.  Here is what
    that text means: the syntax of regular expressions that the table uses and
    the order in which Go's regexp prefers matches (leftmost-first, as Perl).

    Simplified: (?i) folds ASCII letters only (Go's also folds U+017F and
    U+212A), and characters are bytes, which no pattern of the table can tell
    from characters. *)

From Coq Require Import List String Ascii Bool Arith NArith.
Import ListNotations.
Open Scope nat_scope.
Open Scope string_scope.
Open Scope list_scope.

(** Regular expressions. The syntax used by vfilter.go:149-178. *)
Inductive re : Type :=
| REmpty
| RSet (neg : bool) (l : list (ascii * ascii))   (* [...], [^...], a character, . *)
| RCat (a b : re)
| RAlt (a b : re)                                (* a|b, and a? as a or nothing *)
| RStar (greedy : bool) (a : re)                 (* a*, a*? *)
| RWord                                          (* \b *)
| RBegin                                         (* ^ with (?m) *)
| REnd.                                          (* $ with (?m) *)

(** The flags (?i), (?s), (?m) in vfilter.go:149-178. *)
Record flags : Type := Flags { fold_case : bool; dot_all : bool; many_lines : bool }.

(** A letter under (?i) in vfilter.go:154-171. *)
Definition other_case (c : ascii) : ascii :=
  let n := N_of_ascii c in
  if (65 <=? n)%N && (n <=? 90)%N then ascii_of_N (n + 32)
  else if (97 <=? n)%N && (n <=? 122)%N then ascii_of_N (n - 32)
  else c.
(** A character that stands for itself in vfilter.go:149-178. *)
Definition literal (f : flags) (c : ascii) : re :=
  if fold_case f && negb (Ascii.eqb (other_case c) c) then RSet false [(c, c); (other_case c, other_case c)]
  else RSet false [(c, c)].
(** \s of vfilter.go:150. *)
Definition blanks : list (ascii * ascii) :=
  [("009", "009"); ("010", "010"); ("012", "012"); ("013", "013"); (" ", " ")]%char.
(** An escape outside of a class in vfilter.go:149-178. *)
Definition escape (f : flags) (c : ascii) : re :=
  if Ascii.eqb c "s" then RSet false blanks
  else if Ascii.eqb c "d" then RSet false [("0", "9")]%char
  else if Ascii.eqb c "b" then RWord
  else literal f c.

(** The inside of [...], up to the closing bracket. vfilter.go:149-178 *)
Fixpoint class_items (n : nat) (s : string) : option (list (ascii * ascii) * string) :=
  match n with
  | O => None
  | S n =>
      let one (c : ascii) (s : string) :=
        match s with
        | String "-" (String d s') =>
            if Ascii.eqb d "]" then
              match class_items n s with Some (l, r) => Some ((c, c) :: l, r) | None => None end
            else match class_items n s' with Some (l, r) => Some ((c, d) :: l, r) | None => None end
        | _ => match class_items n s with Some (l, r) => Some ((c, c) :: l, r) | None => None end
        end in
      match s with
      | "" => None
      | String "]" r => Some ([], r)
      | String "\" (String c r) => one c r
      | String c r => one c r
      end
  end.

(** What follows an atom: *, +, ? and their reluctant forms. vfilter.go:149-178 *)
Definition postfix (a : re) (s : string) : re * string :=
  match s with
  | String "*" (String "?" r) => (RStar false a, r)
  | String "*" r => (RStar true a, r)
  | String "+" r => (RCat a (RStar true a), r)
  | String "?" r => (RAlt a REmpty, r)
  | _ => (a, s)
  end.

(** The syntax of regular expressions, as far as vfilter.go:149-178 uses it. *)
Fixpoint p_alt (n : nat) (f : flags) (s : string) : option (re * string) :=
  match n with
  | O => None
  | S n =>
      match p_seq n f s with
      | Some (a, String "|" r) =>
          match p_alt n f r with Some (b, r') => Some (RAlt a b, r') | None => None end
      | x => x
      end
  end
with p_seq (n : nat) (f : flags) (s : string) : option (re * string) :=
  match n with
  | O => None
  | S n =>
      let more (a : re) (r : string) :=
        let (a', r1) := postfix a r in
        match p_seq n f r1 with
        | Some (REmpty, r2) => Some (a', r2)
        | Some (b, r2) => Some (RCat a' b, r2)
        | None => None
        end in
      match s with
      | "" => Some (REmpty, "")
      | String "|" _ => Some (REmpty, s)
      | String ")" _ => Some (REmpty, s)
      | String "(" r =>
          match p_alt n f r with Some (a, String ")" r') => more a r' | _ => None end
      | String "[" (String "^" r) =>
          match class_items n r with Some (l, r') => more (RSet true l) r' | None => None end
      | String "[" r =>
          match class_items n r with Some (l, r') => more (RSet false l) r' | None => None end
      | String "\" (String c r) => more (escape f c) r
      | String "." r => more (RSet true (if dot_all f then [] else [("010", "010")]%char)) r
      | String "^" r => if many_lines f then more RBegin r else None
      | String "$" r => if many_lines f then more REnd r else None
      | String c r => more (literal f c) r
      end
  end.
(** A pattern of vfilter.go:149-178. *)
Definition pattern (s : string) : option re :=
  let go f r := match p_alt (2 * S (String.length r)) f r with Some (a, "") => Some a | _ => None end in
  match s with
  | String "(" (String "?" (String c (String ")" r))) =>
      if Ascii.eqb c "i" then go (Flags true false false) r
      else if Ascii.eqb c "s" then go (Flags false true false) r
      else if Ascii.eqb c "m" then go (Flags false false true) r
      else None
  | _ => go (Flags false false false) s
  end.

(** ** Matching *)

(** Where the matcher is: the character before, and the text that follows.
    Go's regexp, used by vfilter.go:149-178. *)
Record place : Type := Place { before : option ascii; ahead : string }.

(** A class of vfilter.go:149-178. *)
Definition in_set (neg : bool) (l : list (ascii * ascii)) (c : ascii) : bool :=
  xorb neg (existsb (fun r => (N_of_ascii (fst r) <=? N_of_ascii c)%N && (N_of_ascii c <=? N_of_ascii (snd r))%N) l).
(** The characters between which \b of vfilter.go:154-171 looks for a border. *)
Definition word_char (c : ascii) : bool :=
  in_set false [("0", "9"); ("A", "Z"); ("_", "_"); ("a", "z")]%char c.
(** Is the character, if there is one, a word character? As \b of vfilter.go:154-171. *)
Definition is_word_char (o : option ascii) : bool := match o with Some c => word_char c | None => false end.
(** The character at the cursor. No counterpart in /repo. *)
Definition next_char (s : string) : option ascii := match s with String c _ => Some c | "" => None end.
(** The line feed, or nothing. As ^ and $ with (?m) of vfilter.go:152-153. *)
Definition border_of_line (o : option ascii) : bool :=
  match o with Some c => Ascii.eqb c "010" | None => true end.
(** No counterpart in /repo: the second when the first is nothing. *)
Definition or_else {A} (a b : option A) : option A := match a with Some _ => a | None => b end.

Section Matching.
Variable A : Type.
(** The match that Go's regexp prefers, tried in that order, such that k is
    satisfied with what follows. Used by vfilter.go:149-178. *)
Fixpoint match_re (r : re) (k : place -> option A) (p : place) : option A :=
  match r with
  | REmpty => k p
  | RSet neg l =>
      match ahead p with
      | String c r' => if in_set neg l c then k (Place (Some c) r') else None
      | "" => None
      end
  | RCat a b => match_re a (match_re b k) p
  | RAlt a b => or_else (match_re a k p) (match_re b k p)
  | RStar greedy a =>
      (fix loop (n : nat) (p : place) : option A :=
         match n with
         | O => None
         | S n =>
             let more := match_re a (fun q => if Nat.ltb (String.length (ahead q)) (String.length (ahead p))
                                              then loop n q else None) p in
             if greedy then or_else more (k p) else or_else (k p) more
         end) (S (String.length (ahead p))) p
  | RWord => if xorb (is_word_char (before p)) (is_word_char (next_char (ahead p))) then k p else None
  | RBegin => if border_of_line (before p) then k p else None
  | REnd => if border_of_line (next_char (ahead p)) then k p else None
  end.
End Matching.
Arguments match_re {A} r k p.

(** No counterpart in /repo: the first n characters. *)
Fixpoint take_chars (n : nat) (s : string) : string :=
  match n, s with S n, String c r => String c (take_chars n r) | _, _ => "" end.
(** The match of a pattern at the beginning of a text, which is how the rules
    of vfilter.go:149-178 are used: the text that matches, and the rest. *)
Definition match_here (pat s : string) : option (string * string) :=
  match pattern pat with
  | Some r =>
      match match_re r (fun p => Some (ahead p)) (Place None s) with
      | Some rest => Some (take_chars (String.length s - String.length rest) s, rest)
      | None => None
      end
  | None => None
  end.

(** ** The table *)

(** vfilter.go:149-178, as it stands in the source. *)
Definition vql_rules : list (string * string) :=
  [("whitespace", "\s+");
   ("MLineComment", "(?s)/[*].*?[*]/");
   ("VQLComment", "(?m)^--.*?$");
   ("Comment", "(?m)^//.*?$");
   ("EXPLAIN", "(?i)\bEXPLAIN\b");
   ("SELECT", "(?i)\bSELECT\b");
   ("WHERE", "(?i)\bWHERE\b");
   ("AND", "(?i)\bAND\b");
   ("OR", "(?i)\bOR\b");
   ("AlternativeOR", "(?i)\|+");
   ("AlternativeAND", "(?i)&&");
   ("FROM", "(?i)\bFROM\b");
   ("NOT", "(?i)\bNOT\b");
   ("AS", "(?i)\bAS\b");
   ("IN", "(?i)\bIN\b");
   ("LIMIT", "(?i)\bLIMIT\b");
   ("NULL", "(?i)\bNULL\b");
   ("DESC", "(?i)\bDESC\b");
   ("GROUPBY", "(?i)\bGROUP\s+BY\b");
   ("ORDERBY", "(?i)\bORDER\s+BY\b");
   ("BOOL", "(?i)\bTRUE\b|\bFALSE\b");
   ("LET", "(?i)\bLET\b");
   ("Number", "-?(0x[0-9a-fA-F]+|\d*\.?\d+([eE][-+]?\d+)?)");
   ("Ident", "[a-zA-Z_][a-zA-Z0-9_]*|" ++ "`[^`]+`")%string;
   ("SymbolIdent", "-[a-zA-Z_][a-zA-Z0-9_]*|-" ++ "`[^`]+`")%string;
   ("Operators", "<>|!=|<=|>=|=>|=~|[-]|[+]|[:*/%,.()=<>{}\[\]]");
   ("MultilineString", "(?s)'''.*?'''");
   ("String", "(?s)'([^'\\]*(\\.[^'\\]*)*)'|""([^""\\]*(\\.[^""\\]*)*)""")].

(** participle's simple lexer at a cursor: the first rule of the table that
    matches there. vfilter.go:149-178 *)
Fixpoint first_match (l : list (string * string)) (s : string) : option (string * string * string) :=
  match l with
  | [] => None
  | (name, pat) :: l' =>
      match match_here pat s with
      | Some (text, rest) => Some (name, text, rest)
      | None => first_match l' s
      end
  end.
