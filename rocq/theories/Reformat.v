(** ReFormatVQL (reformat/visitor.go): visitor.go with line breaks, on
    statements without comments.

    Format.v is the same visitor with ToStringOptions; here every option of
    FormatOptions (52-66) may be chosen.  The lists a parameter of NewVisitor
    collects (CallSites, Definitions, Comments) are not modelled: they do not
    influence the text. *)

From Coq Require Import ZArith List String Ascii Bool.
From Verif Require Import Base F64 Text Lexer Numeral Grammar Parser Format.
Import ListNotations.
Open Scope nat_scope.
Open Scope string_scope.
Open Scope list_scope.

(** FormatOptions (52-66): IndentWidthThreshold, MaxWidthThreshold.
    BreakLines is an argument of the visits below, since callbacks of abTest
    change it for their own copy only. *)
Record options : Type := { indent_threshold : Z; width_threshold : Z }.
(** DefaultFormatOptions (24-31). visitor.go:24-31 *)
Definition default_options : options := {| indent_threshold := 50; width_threshold := 80 |}.

(** Visitor (106-145), newest first; [line_breaks] are offsets into the
    fragments, [width] is max_width. *)
Record rstate : Type := {
  frags : list string;
  indents : list Z;
  line_breaks : list nat;
  pos : Z;
  width : Z
}.
(** NewVisitor (147-154) *)
Definition rstate0 : rstate :=
  {| frags := []; indents := [0%Z]; line_breaks := [0]; pos := 0; width := 0 |}.

(** No counterpart in /repo: a visit as a change of the visitor. *)
Definition rvisit := rstate -> rstate.

(** ToString (271-273) *)
Definition joined (l : list string) : string := String.concat "" (rev l).
Definition rtext (v : rstate) : string := joined (frags v).

(** No counterpart in /repo: len(s) *)
Definition slen (s : string) : Z := Z.of_nat (String.length s).
(** strings.Repeat(" ", n); a negative n would panic. strings.Repeat of
    visitor.go:222-257 line_break. *)
Fixpoint blanks (n : nat) : string := match n with O => "" | S m => String " " (blanks m) end.
(** strings.Repeat of visitor.go:222-257 line_break. *)
Definition repeat_space (n : Z) : string := blanks (Z.to_nat n).
(** strings.TrimSpace(s) == "", for ASCII white space. visitor.go:441-443
    isCurrentLineSpace *)
Fixpoint all_blank (s : string) : bool :=
  match s with
  | "" => true
  | String c r => (is_space c || Ascii.eqb c "011") && all_blank r
  end.

(** push (1107-1119) *)
Definition rpush (s : string) : rvisit := fun v =>
  let p := (pos v + slen s)%Z in
  {| frags := s :: frags v; indents := indents v; line_breaks := line_breaks v;
     pos := p; width := Z.max (width v) p |}.

(** pop (1121-1127) *)
Definition rpop : rvisit := fun v =>
  match frags v with
  | [] => v
  | s :: l => {| frags := l; indents := indents v; line_breaks := line_breaks v;
                 pos := (pos v - slen s)%Z; width := width v |}
  end.

(** No counterpart in /repo: assignment to the field indents. *)
Definition with_indents (l : list Z) : rvisit := fun v =>
  {| frags := frags v; indents := l; line_breaks := line_breaks v; pos := pos v; width := width v |}.
(** The end of the field indents, as in visitor.go:203-210 indent_in. *)
Definition top_indent (v : rstate) : Z := hd 0%Z (indents v).
(** push_indent (184-186), indent_in (203-210), pop_indent (212-218).
    visitor.go:184-186 push_indent *)
Definition push_indent : rvisit := fun v => with_indents (pos v :: indents v) v.
(** visitor.go:203-210 indent_in *)
Definition indent_in : rvisit := fun v => with_indents ((top_indent v + 2)%Z :: indents v) v.
(** visitor.go:212-218 pop_indent *)
Definition pop_indent : rvisit := fun v => with_indents (tl (indents v)) v.

(** The line feed itself: Fragments = append(Fragments, newline) and the
    offset after it. In visitor.go:222-257 line_break and visitor.go:189-200
    new_line. *)
Definition feed (p : Z) : rvisit := fun v =>
  let l := String nl "" :: frags v in
  {| frags := l; indents := indents v; line_breaks := List.length l :: line_breaks v;
     pos := p; width := width v |}.

(** line_break (222-257) *)
Definition rlast (v : rstate) : string := match frags v with s :: _ => s | [] => "" end.
Definition rline_break (bl : bool) : rvisit := fun v =>
  if bl then
    let v := if all_blank (rlast v) then rpop v else v in
    rpush (repeat_space (top_indent v)) (feed 0%Z v)
  else if existsb (String.eqb (rlast v)) [" "; "("; "{"; "="; "["; "=["] || ends_in_space (rlast v)
  then v else rpush " " v.

(** new_line (189-200), where BreakLines is set *)
Definition new_line (p : Z) : rvisit := fun v =>
  let v := feed p (with_indents (p :: indents v) v) in
  {| frags := repeat_space p :: frags v; indents := indents v; line_breaks := line_breaks v;
     pos := pos v; width := width v |}.

(** current_line, isCurrentLineSpace (259-269, 441-443) *)
Definition current_line_space (v : rstate) : bool :=
  let idx := hd 0 (line_breaks v) in
  forallb all_blank (firstn (List.length (frags v) - idx) (frags v)).

(** is_better (1280-1315): is [b] better than [a]? *)
Definition better (w : Z) (a b : rstate) : bool :=
  if (w <? width b)%Z && (width a <? w)%Z then false
  else if (w <? width a)%Z && (width b <? w)%Z then true
  else if (width a <? w)%Z && (width b <? w)%Z &&
          Nat.ltb (List.length (line_breaks a)) (List.length (line_breaks b)) then false
  else if (width a <? width b)%Z then false
  else true.

(** No counterpart in /repo: nothing is visited. *)
Definition rskip : rvisit := fun v => v.
(** No counterpart in /repo: one visit after the other. *)
Definition rthen (f g : rvisit) : rvisit := fun v => g (f v).
Infix ">>>" := rthen (at level 50, left associativity).
(** No counterpart in /repo: a node that may be nil (visitor.go:275-381
    Visit). *)
Definition rmaybe {A} (f : A -> rvisit) (o : option A) : rvisit :=
  match o with Some a => f a | None => rskip end.
(** No counterpart in /repo: a loop over nodes (visitor.go:275-381 Visit). *)
Definition reach {A} (f : A -> rvisit) (l : list A) : rvisit :=
  fold_right (fun a g => f a >>> g) rskip l.

(** Items with push(",", " ") and [sep] between; the visit of an item sees
    its index. *)
Section RSeparated.
  Variable A : Type.
  Variable f : nat -> A -> rvisit.
  Variable sep : rvisit.
  (** E.g. visitor.go:784-796 visitCommaExpression. *)
  Fixpoint rseparated (i : nat) (l : list A) : rvisit :=
    match l with
    | [] => rskip
    | [a] => f i a
    | a :: l' => f i a >>> rpush "," >>> rpush " " >>> sep >>> rseparated (S i) l'
    end.
End RSeparated.
Arguments rseparated {A}.

Section Options.
  Variable o : options.

  (** abTest (1230-1277): without BreakLines the first choice, otherwise the
      best. *)
  Definition abtest (bl : bool) (c : rvisit) (cs : list rvisit) : rvisit := fun v =>
    if bl then
      fold_left (fun best c => let t := c v in if better (width_threshold o) best t then t else best) cs (c v)
    else c v.

  (** The test of visitor.go:828-878 visitArgs. *)
  Definition too_far (v : rstate) : bool := (indent_threshold o <? pos v)%Z.
  (** 829-831. The start of visitor.go:828-878 visitArgs. *)
  Definition rbreak_arg (bl : bool) : rvisit := fun v => if too_far v then rline_break bl v else v.
  (** 538-543; pop_indent is deferred to the end of visitSymbolRef. The start of
      visitor.go:532-657 visitSymbolRef. *)
  Definition rbreak_sym (bl : bool) (f : rvisit) : rvisit := fun v =>
    if too_far v then (indent_in >>> rline_break bl >>> f >>> pop_indent) v else f v.

  (** E.g. visitor.go:672-681 visitOrExpression. *)
  Definition rop {A} (f : A -> rvisit) (t : string * A) : rvisit :=
    match t with (p, a) => rpush " " >>> rpush p >>> rpush " " >>> f a end.

  (** visitSymbolRef (582-655), visitPlugin (907-982): what follows the name *)
  Definition rcall {A} (bl : bool) (f : bool -> A -> rvisit) (args : list A) : rvisit :=
    match args with
    | [] => rpush "()"
    | _ =>
        abtest bl
          (rpush "(" >>> rseparated (fun _ => f false) rskip 0 args >>> rpush ")")
          [rpush "(" >>> push_indent >>>
             rseparated (fun _ => f bl) (rline_break bl) 0 args >>> rpush ")" >>> pop_indent;
           rpush "(" >>> indent_in >>> rline_break bl >>>
             rseparated (fun _ => f bl) (rline_break bl) 0 args >>> rpush ")" >>> pop_indent]
    end.

  (** The AS of visitor.go:446-530 visitAliasedExpression. *)
  Definition ralias (a : string) : rvisit :=
    if String.eqb a "" then rskip else rpush " AS " >>> rpush a.

  (** visitSelect (1067-1089) *)
  Definition rorder (k : string * bool) : rvisit :=
    match k with (k, d) => rpush "ORDER BY " >>> rpush k >>> (if d then rpush " DESC " else rskip) end.
  (** The LIMIT of visitor.go:1019-1090 visitSelect. *)
  Definition rlimit (z : Z) : rvisit := rpush ("LIMIT " ++ print_int z ++ " ")%string.

  (** visitor.go:719-782 visitValue *)
  Fixpoint rvalue (x : gvalue) (bl : bool) {struct x} : rvisit :=
    match x with
    | GSym s called params =>
        rbreak_sym bl (rpush (dotted s) >>>
          (if negb called && match params with [] => true | _ => false end then rskip
           else rcall bl (fun bl a => rarg a bl) params))
    | GSub c => rpush "(" >>> indent_in >>> rcomma c bl >>> rpush ")" >>> pop_indent
    | GString s => rpush s
    | GNumber s => rpush (fnumber s)
    | GBool s => rpush s
    | GNull => rpush "NULL"
    end
  with rmterm (t : gmterm) (bl : bool) {struct t} : rvisit :=
    match t with
    | GRange i j =>
        rpush "[" >>> rmaybe (fun i => rvalue i bl) i >>> rpush ":" >>>
        rmaybe (fun j => rvalue j bl) j >>> rpush "]"
    | GIndex i => rpush "[" >>> rvalue i bl >>> rpush "]"
    | GNone => rpush "."
    | GTerm s => rpush "." >>> rpush s
    end
  with rmember (e : gmember) (bl : bool) {struct e} : rvisit :=
    match e with GMember l r => rvalue l bl >>> reach (fun t => rmterm t bl) r end
  with rmul (e : gmul) (bl : bool) {struct e} : rvisit :=
    match e with GMul l r => rmember l bl >>> reach (rop (fun x => rvalue x bl)) r end
  with radd (e : gadd) (bl : bool) {struct e} : rvisit :=
    match e with GAdd l r => rmul l bl >>> reach (rop (fun x => rmul x bl)) r end
  with rcond (e : gcond) (bl : bool) {struct e} : rvisit :=
    match e with
    | GNot c => rpush "NOT " >>> rcond c bl
    | GCmp l r => radd l bl >>> rmaybe (rop (fun x => radd x bl)) r
    end
  with ror (e : gor) (bl : bool) {struct e} : rvisit :=
    match e with GOr l r => rcond l bl >>> reach (rop (fun x => rcond x bl)) r end
  (** 659-670: the indents of all terms are popped at the end *)
  with rand (e : gand) (bl : bool) {struct e} : rvisit :=
    match e with
    | GAnd l r =>
        ror l bl >>>
        reach (fun t => rline_break bl >>> rop (fun x => push_indent >>> ror x bl) t) r >>>
        reach (fun _ => pop_indent) r
    end
  with rcomma (e : gcomma) (bl : bool) {struct e} : rvisit :=
    match e with
    | GComma l r =>
        rand l bl >>> reach (fun t => rpush "," >>> rpush " " >>> rmaybe (fun x => rand x bl) t) r
    end
  (** 828-878 *)
  with rarg (x : garg) (bl : bool) {struct x} : rvisit :=
    rbreak_arg bl >>>
    match x with
    | GArgExpr n e => rpush n >>> rpush "=" >>> rand e bl
    | GArgSelect n s =>
        rpush n >>> rpush "={" >>>
        (if bl then
           new_line 2 >>> indent_in >>> rpush "  " >>> rselect s bl >>>
           pop_indent >>> rline_break bl >>> rpush "}" >>> pop_indent
         else rpush " " >>> rselect s bl >>> rpush " }")
    | GArgArray n (Some c) => rpush n >>> rpush "=[" >>> rcomma c bl >>> rpush "]"
    | GArgArray n None => rpush n >>> rpush "=[]"
    end
  (** 1019-1090; the indent of GROUP BY is popped at the end *)
  with rselect (x : gselect) (bl : bool) {struct x} : rvisit :=
    match x with
    | GSelect explain all cols from w g k l =>
        let list_of := fun bl =>
          (if all then rpush "*" >>> (match cols with [] => rskip | _ => rpush "," >>> rpush " " end)
           else rskip) >>>
          rseparated (fun i c => rcol c i bl) (rline_break bl) 0 cols in
        (if explain then rpush "EXPLAIN " else rskip) >>>
        rpush "SELECT " >>>
        abtest bl (push_indent >>> list_of bl >>> pop_indent)
          [new_line 2 >>> indent_in >>> rpush "  " >>> list_of bl >>> pop_indent >>> pop_indent] >>>
        (rline_break bl >>> rpush "FROM " >>> rplugin from bl) >>>
        rmaybe (fun w => rline_break bl >>> rpush "WHERE " >>> rcomma w bl) w >>>
        rmaybe (fun g => rline_break bl >>> rpush "GROUP BY " >>> push_indent >>> rcomma g bl) g >>>
        rmaybe (fun k => rline_break bl >>> rorder k) k >>>
        rmaybe (fun l => rline_break bl >>> rlimit l) l >>>
        rmaybe (fun _ => pop_indent) g
    end
  (** 446-530; [i] is node.pos, set by visitSelectExpression (997-1017) *)
  with rcol (x : gcol) (i : nat) (bl : bool) {struct x} : rvisit :=
    match x with
    | GStar _ => rpush "*"
    | GColExpr e a =>
        let unless_first := fun v =>
          if (String.eqb a "" || negb (Nat.eqb i 0)) && negb (current_line_space v)
          then rline_break bl v else v in
        abtest bl (rand e false >>> ralias a)
          [unless_first >>> rand e bl >>> ralias a]
    | GColSelect s a =>
        rpush "{" >>> rpush " " >>>
        (if bl then
           new_line 2 >>> indent_in >>> rpush "  " >>> rselect s bl >>>
           rline_break bl >>> rpush "}" >>> ralias a >>> pop_indent >>> pop_indent
         else rselect s bl >>> rpush " }" >>> ralias a)
    end
  with rplugin (x : gplugin) (bl : bool) {struct x} : rvisit :=
    match x with
    | GPlugin n call args =>
        rpush (dotted n) >>> (if call then rcall bl (fun bl a => rarg a bl) args else rskip)
    end.

  (** visitVQL (1130-1227) *)
  Definition rparam (bl : bool) (ps : list gparam) (p : gparam) : rvisit :=
    match default_for ps (param_name p) with
    | Some a => rarg a bl
    | None => rpush (param_name p)
    end.
  (** The deferred function of visitor.go:1130-1227 visitVQL. *)
  Definition restart : rvisit := fun v =>
    {| frags := frags v; indents := indents v; line_breaks := line_breaks v; pos := 0; width := 0 |}.
  (** visitor.go:1130-1227 visitVQL *)
  Definition rvql (bl : bool) (x : gvql) : rvisit :=
    match x with
    | GLet name called ps p body =>
        rpush "LET " >>> rpush name >>>
        (match ps with
         | [] => rskip
         | _ => rpush "(" >>> rseparated (fun _ => rparam bl ps) rskip 0 ps >>> rpush ")"
         end) >>>
        (rpush " " >>> rpush p >>> rpush " ") >>> indent_in >>>
        (match body with inl s => rselect s bl | inr e => rand e bl end) >>> pop_indent
    | GQuery s => rselect s bl
    end >>> rline_break bl >>> restart.

  (** Visit of []*VQL (277-283) *)
  Definition rall (bl : bool) (l : list gvql) : rvisit :=
    reach (fun x => rvql bl x >>> rline_break bl) l.
End Options.

(** strings.Split(s, newline), strings.Join(l, newline). Called by
    reformat/visitor.go:10-27 ReFormatVQL. *)
Fixpoint split_lines (s : string) : list string :=
  match s with
  | "" => [""]
  | String c r =>
      if Ascii.eqb c nl then "" :: split_lines r
      else match split_lines r with
           | l :: ls => String c l :: ls
           | [] => [String c ""]
           end
  end.
(** strings.TrimRight(l, " "). Called by reformat/visitor.go:10-27
    ReFormatVQL. *)
Fixpoint trim_right (s : string) : string :=
  match s with
  | "" => ""
  | String c r =>
      match trim_right r with
      | "" => if Ascii.eqb c " " then "" else String c ""
      | t => String c t
      end
  end.
(** The end of reformat/visitor.go:10-27 ReFormatVQL. *)
Definition trim_lines (s : string) : string :=
  String.concat (String nl "") (map trim_right (split_lines s)).

(** ReFormatVQL (reformat/visitor.go:10-28) on parsed statements without
    comments, with the BreakLines of the options. *)
Definition reformat (o : options) (bl : bool) (l : list gvql) : string :=
  trim_lines (rtext (rall o bl l rstate0)).
