(** FormatToString: visitor.go with ToStringOptions (17-22, 1317-1325), on
    statements without comments.

    With these options no line is ever broken, an abTest (1230-1278) takes its
    first choice, and both thresholds for breaking a line are 0: a symbol or an
    argument that does not stand at the very start asks for a line break, which
    is a space unless the text already leaves room (line_break, 226-239). *)

From Coq Require Import ZArith List String Ascii Bool.
From Verif Require Import Base F64 Text Lexer Numeral Grammar.
Import ListNotations.
Open Scope nat_scope.
Open Scope string_scope.
Open Scope list_scope.

(** Visitor (106-145): the fragments so far, joined, and the last of them.
    [pos] (the length of the line) is the length of the text. *)
Record visitor : Type := { out : string; last : string }.
Definition visitor0 : visitor := {| out := ""; last := "" |}.

(** push (1107-1119) *)
Definition push (s : string) (v : visitor) : visitor :=
  {| out := (out v ++ s)%string; last := s |}.

(** strings.HasSuffix(last_fragment, " ") of visitor.go:222-257 line_break. *)
Definition ends_in_space (s : string) : bool :=
  match rev (str_list s) with c :: _ => Ascii.eqb c " " | [] => false end.

(** line_break (222-239), the branch without BreakLines *)
Definition line_break (v : visitor) : visitor :=
  if existsb (String.eqb (last v)) [" "; "("; "{"; "="; "["; "=["] || ends_in_space (last v)
  then v else push " " v.

(** if self.pos > self.opts.IndentWidthThreshold (538, 829).
    visitor.go:828-878 visitArgs *)
Definition break_if_moved (v : visitor) : visitor :=
  if String.eqb (out v) "" then v else line_break v.

(** One visit after the other. No counterpart in /repo: a visit as a change of
    the visitor. *)
Definition visit := visitor -> visitor.
(** No counterpart in /repo: nothing is visited. *)
Definition skip : visit := fun v => v.
(** No counterpart in /repo: one visit after the other. *)
Definition andthen (f g : visit) : visit := fun v => g (f v).
Infix ">>" := andthen (at level 50, left associativity).

(** for ... { visit }. E.g. visitor.go:659-670 visitAndExpression. *)
Definition each {A} (f : A -> visit) (l : list A) : visit :=
  fold_right (fun a g => f a >> g) skip l.

(** No counterpart in /repo: a node that may be nil (visitor.go:275-381
    Visit). *)
Definition maybe {A} (f : A -> visit) (o : option A) : visit :=
  match o with Some a => f a | None => skip end.

(** Items with push(",", " ") and [sep] between. *)
Section Separated.
  Variable A : Type.
  Variable f : A -> visit.
  Variable sep : visit.
  (** E.g. visitor.go:784-796 visitCommaExpression. *)
  Fixpoint separated (l : list A) : visit :=
    match l with
    | [] => skip
    | [a] => f a
    | a :: l' => f a >> push "," >> push " " >> sep >> separated l'
    end.
End Separated.
Arguments separated {A}.

(** fragments around an operator: 677, 692, 701, 714. visitor.go:672-681
    visitOrExpression *)
Definition fop {A} (f : A -> visit) (t : string * A) : visit :=
  match t with (o, a) => push " " >> push o >> push " " >> f a end.

(** visitValue (750-764): a number *)
Definition fnumber (s : string) : string :=
  match number_value s with
  | NInt z => print_int z
  | NFloat f => print_float f
  | NBad => "FALSE"
  end.

(** The code's Symbol and Name: the identifiers with dots between. vfilter.go:
    how participle fills Symbol (vfilter.go:1015-1029 _SymbolRef). *)
Definition dotted (l : list string) : string := String.concat "." l.

(** visitSymbolRef (582-603), visitPlugin (907-930): what follows the name *)
Definition fcall {A} (f : A -> visit) (args : list A) : visit :=
  match args with
  | [] => push "()"
  | _ => push "(" >> separated f skip args >> push ")"
  end.

(** The AS of visitor.go:446-530 visitAliasedExpression. *)
Definition falias (a : string) : visit :=
  if String.eqb a "" then skip else push " AS " >> push a.

(** Clauses of visitSelect (1067-1089) *)
Definition forder (o : string * bool) : visit :=
  match o with (k, d) => push k >> (if d then push " DESC " else skip) end.
(** The LIMIT of visitor.go:1019-1090 visitSelect. *)
Definition flimit (z : Z) : visit := push ("LIMIT " ++ print_int z ++ " ")%string.

(** visitor.go:719-782 visitValue *)
Fixpoint fvalue (x : gvalue) {struct x} : visit :=
  match x with
  | GSym s called params =>                                (* 532-585 *)
      break_if_moved >> push (dotted s) >>
      (if negb called && match params with [] => true | _ => false end then skip
       else fcall farg params)
  | GSub c => push "(" >> fcomma c >> push ")"
  | GString s => push s
  | GNumber s => push (fnumber s)
  | GBool s => push s
  | GNull => push "NULL"
  end
(** visitMemberExpression (798-826) *)
with fmterm (t : gmterm) {struct t} : visit :=
  match t with
  | GRange i j => push "[" >> maybe fvalue i >> push ":" >> maybe fvalue j >> push "]"
  | GIndex i => push "[" >> fvalue i >> push "]"
  | GNone => push "."                    (* and Visit of a nil *string *)
  | GTerm s => push "." >> push s
  end
with fmember (e : gmember) {struct e} : visit :=
  match e with GMember l r => fvalue l >> each fmterm r end
(** visitMultiplicationExpression (706-717), visitAdditionExpression (697-704) *)
with fmul (e : gmul) {struct e} : visit :=
  match e with GMul l r => fmember l >> each (fop fvalue) r end
with fadd (e : gadd) {struct e} : visit :=
  match e with GAdd l r => fmul l >> each (fop fmul) r end
(** visitConditionOperand (683-695) *)
with fcond (e : gcond) {struct e} : visit :=
  match e with
  | GNot c => push "NOT " >> fcond c
  | GCmp l r => fadd l >> maybe (fop fadd) r
  end
(** visitOrExpression (672-681), visitAndExpression (659-670) *)
with for_ (e : gor) {struct e} : visit :=
  match e with GOr l r => fcond l >> each (fop fcond) r end
with fand (e : gand) {struct e} : visit :=
  match e with GAnd l r => for_ l >> each (fun t => line_break >> fop for_ t) r end
(** visitCommaExpression (784-796) *)
with fcomma (e : gcomma) {struct e} : visit :=
  match e with
  | GComma l r => fand l >> each (fun t => push "," >> push " " >> maybe fand t) r
  end
(** visitArgs (828-878) *)
with farg (x : garg) {struct x} : visit :=
  break_if_moved >>
  match x with
  | GArgExpr n e => push n >> push "=" >> fand e
  | GArgSelect n s => push n >> push "={" >> push " " >> fselect s >> push " }"
  | GArgArray n (Some c) => push n >> push "=[" >> fcomma c >> push "]"
  | GArgArray n None => push n >> push "=[]"
  end
(** visitSelect (1019-1090), visitSelectExpression (997-1017) *)
with fselect (x : gselect) {struct x} : visit :=
  match x with
  | GSelect explain all cols from w g o l =>
      (if explain then push "EXPLAIN " else skip) >>
      push "SELECT " >>
      (if all then push "*" >> (match cols with [] => skip | _ => push "," >> push " " end) else skip) >>
      separated fcol line_break cols >>
      line_break >> push "FROM " >> fplugin from >>
      maybe (fun w => line_break >> push "WHERE " >> fcomma w) w >>
      maybe (fun g => line_break >> push "GROUP BY " >> fcomma g) g >>
      maybe (fun o => line_break >> push "ORDER BY " >> forder o) o >>
      maybe (fun l => line_break >> flimit l) l
  end
(** visitAliasedExpression (446-530) *)
with fcol (x : gcol) {struct x} : visit :=
  match x with
  | GStar _ => push "*"
  | GColExpr e a => fand e >> falias a
  | GColSelect s a => push "{" >> push " " >> fselect s >> push " }" >> falias a
  end
with fplugin (x : gplugin) {struct x} : visit :=
  match x with
  | GPlugin n call args => push (dotted n) >> (if call then fcall farg args else skip)
  end.

(** getParameters (vfilter.go:539-581): the names, unquoted, and the defaults
    by name; a later default of the same name replaces an earlier one. *)
Definition arg_name (a : garg) : string :=
  match a with GArgExpr n _ | GArgSelect n _ | GArgArray n _ => n end.
(** utils/unquote.go:110-131 Unquote_ident *)
Definition unq (s : string) : string :=
  match unquote_ident s with Ok t => t | Panic => s end.
(** vfilter.go:539-581 getParameters *)
Definition param_name (p : gparam) : string :=
  match p with GDefault a => unq (arg_name a) | GName s => unq s end.
(** vfilter.go:539-581 getParameters *)
Definition default_for (ps : list gparam) (name : string) : option garg :=
  fold_left (fun d p => match p with
                        | GDefault a => if String.eqb (unq (arg_name a)) name then Some a else d
                        | GName _ => d
                        end) ps None.

(** visitVQL (1130-1227) *)
Definition fparam (ps : list gparam) (p : gparam) : visit :=
  match default_for ps (param_name p) with
  | Some a => farg a
  | None => push (param_name p)
  end.
(** visitor.go:1130-1227 visitVQL *)
Definition fvql (x : gvql) : visit :=
  match x with
  | GLet name called ps op body =>
      push "LET " >> push name >>
      (match ps with
       | [] => skip
       | _ => push "(" >> separated (fparam ps) skip ps >> push ")"
       end) >>
      push " " >> push op >> push " " >>
      (match body with inl s => fselect s | inr e => fand e end)
  | GQuery s => fselect s
  end.

(** strings.TrimSpace, for texts that begin and end with ASCII. Called by
    visitor.go:1317-1325 FormatToString. *)
Fixpoint trim_left (s : string) : string :=
  match s with
  | String c r => if is_space c || Ascii.eqb c "011" then trim_left r else s
  | "" => ""
  end.
(** No counterpart in /repo: part of [trim_space]. *)
Definition reverse (s : string) : string := list_str (rev (str_list s)).
(** Called by visitor.go:1317-1325 FormatToString. *)
Definition trim_space (s : string) : string := reverse (trim_left (reverse (trim_left s))).

(** FormatToString (1317-1325) *)
Definition format_with {A} (f : A -> visit) (x : A) : string :=
  trim_space (out (f x visitor0)).
(** visitor.go:1317-1325 FormatToString *)
Definition format_vql : gvql -> string := format_with fvql.
(** visitor.go:1317-1325 FormatToString *)
Definition format_expr : gand -> string := format_with fand.
(** visitor.go:1317-1325 FormatToString *)
Definition format_select : gselect -> string := format_with fselect.
