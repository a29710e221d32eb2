(** What the tags of vfilter.go:325-1048 capture: the structs that participle
    fills while it reads a text, and the tree of Grammar.v that they are.
    participle is not part of /repo: captures (nodes.go: capture, strct;
    grammar.go; context.go: Branch, Accept) are from its documentation and
    sources.  Nothing here uses the parser of Parser.v. *)

From Coq Require Import ZArith List String Ascii Bool.
From Verif Require Import Base Lexer Numeral Grammar GrammarText.
Import ListNotations.
Open Scope nat_scope.
Open Scope string_scope.
Open Scope list_scope.

(** ** Captures *)

(** What is captured into a field: the text of a token, or a struct with what
    was captured into its fields, in the order of the text.  The structs of
    vfilter.go:325-1048. *)
Inductive capture : Type :=
| CText (s : string)
| CStruct (name : string) (fields : list (string * capture)).
(** No counterpart in /repo: the captures of a reading, with their fields. *)
Definition log : Type := list (string * capture).

(** No counterpart in /repo: a captured field that is not a struct. *)
Definition is_struct (n : node) : bool := match n with NStruct _ => true | _ => false end.

(** The captures of a reading that succeeds, and what is left.  What an
    abandoned alternative or repetition captured is dropped.  participle's
    nodes.go, as the parsers of vfilter.go:192-209 use it. *)
Inductive keeps : node -> list token -> log -> list token -> Prop :=
| K_token t x r : tt x = t -> keeps (NToken t) (x :: r) [] r
| K_text x r : keeps (NText (tv x)) (x :: r) [] r
| K_int64 t x r z : tt x = t -> parse_int (tv x) = Some z -> keeps (NInt64 t) (x :: r) [] r
| K_struct f s n ts c r :
    grammar_of s = Some n -> keeps n ts c r -> keeps (NKeep f (NStruct s)) ts [(f, CStruct s c)] r
| K_keep f n x c r :
    is_struct n = false -> keeps n (x :: r) c r -> keeps (NKeep f n) (x :: r) [(f, CText (tv x))] r
| K_maybe n ts c r : keeps n ts c r -> keeps (NMaybe n) ts c r
| K_maybe_not n ts r : reads n ts (Missed r) -> ~ committed ts r -> keeps (NMaybe n) ts [] ts
| K_more n ts c r c' r' : keeps n ts c r -> keeps (NMany n) r c' r' -> keeps (NMany n) ts (c ++ c') r'
| K_no_more n ts r : reads n ts (Missed r) -> ~ committed ts r -> keeps (NMany n) ts [] ts
| K_all_done ts : keeps (NAll []) ts [] ts
| K_all n l ts c r c' r' : keeps n ts c r -> keeps (NAll l) r c' r' -> keeps (NAll (n :: l)) ts (c ++ c') r'
| K_this n l ts c r : keeps n ts c r -> keeps (NAny (n :: l)) ts c r
| K_other n l ts m c r :
    reads n ts (Missed m) -> ~ committed ts m -> keeps (NAny l) ts c r -> keeps (NAny (n :: l)) ts c r.

(** The struct [s] that all of the tokens fill. *)
Definition fills (s : string) (ts : list token) (c : log) : Prop :=
  exists n, grammar_of s = Some n /\ keeps n ts c [].

(** ** Structs as trees *)

(** No counterpart in /repo: a capture, given how a struct is made of its
    fields. *)
Section Build.
  Context {T : Type}.
  Variable text : string -> T.
  Variable make : string -> list (string * T) -> T.
  Fixpoint build (c : capture) : T :=
    match c with
    | CText s => text s
    | CStruct name fields => make name (map (fun p => (fst p, build (snd p))) fields)
    end.
  (** No counterpart in /repo: the same for the fields. *)
  Definition built (l : log) : list (string * T) := map (fun p => (fst p, build (snd p))) l.
End Build.

(** All that went into a field, for slices of structs; the fields of
    vfilter.go:325-1048. *)
Definition every {T A} (pick : T -> option A) (f : string) (l : list (string * T)) : list A :=
  flat_map (fun p => if String.eqb (fst p) f then match pick (snd p) with Some a => [a] | None => [] end else []) l.
(** What is in a field that holds one struct: the last. The fields of
    vfilter.go:325-1048. *)
Fixpoint final {A} (l : list A) : option A :=
  match l with
  | [] => None
  | a :: r => match final r with Some b => Some b | None => Some a end
  end.
(** What is in a field that holds a string: the texts, joined.  The fields of
    vfilter.go:325-1048. *)
Definition joined (l : list string) : string := fold_right String.append "" l.

(** The tree of every struct of vfilter.go:325-1048. *)
Inductive tree : Type :=
| TText (s : string)
| TValue (v : gvalue)                               (* _Value, _SymbolRef *)
| TMterm (m : gmterm)
| TMember (m : gmember)
| TFactor (x : string * gvalue)
| TMul (m : gmul)
| TAddend (x : string * gmul)
| TAdd (a : gadd)
| TComparison (x : string * gadd)
| TCond (c : gcond)
| TOrTerm (x : string * gcond)
| TOr (o : gor)
| TAndTerm (x : string * gor)
| TAnd (a : gand)
| TItem (x : option gand)
| TComma (c : gcomma)
| TArg (a : garg)
| TCol (c : gcol)
| TColumns (x : bool * list gcol)
| TPlugin (p : gplugin)                             (* Plugin, _From *)
| TSelect (s : gselect)
| TParam (p : gparam)
| TVql (v : gvql)
| TMulti (l : list gvql)
| TNone.

(** No counterpart in /repo: a tree of a kind. *)
Definition p_text (t : tree) := match t with TText x => Some x | _ => None end.
Definition p_value (t : tree) := match t with TValue x => Some x | _ => None end.
Definition p_mterm (t : tree) := match t with TMterm x => Some x | _ => None end.
Definition p_member (t : tree) := match t with TMember x => Some x | _ => None end.
Definition p_factor (t : tree) := match t with TFactor x => Some x | _ => None end.
Definition p_mul (t : tree) := match t with TMul x => Some x | _ => None end.
Definition p_addend (t : tree) := match t with TAddend x => Some x | _ => None end.
Definition p_add (t : tree) := match t with TAdd x => Some x | _ => None end.
Definition p_comparison (t : tree) := match t with TComparison x => Some x | _ => None end.
Definition p_cond (t : tree) := match t with TCond x => Some x | _ => None end.
Definition p_orterm (t : tree) := match t with TOrTerm x => Some x | _ => None end.
Definition p_or (t : tree) := match t with TOr x => Some x | _ => None end.
Definition p_andterm (t : tree) := match t with TAndTerm x => Some x | _ => None end.
Definition p_and (t : tree) := match t with TAnd x => Some x | _ => None end.
Definition p_item (t : tree) := match t with TItem x => Some x | _ => None end.
Definition p_comma (t : tree) := match t with TComma x => Some x | _ => None end.
Definition p_arg (t : tree) := match t with TArg x => Some x | _ => None end.
Definition p_col (t : tree) := match t with TCol x => Some x | _ => None end.
Definition p_columns (t : tree) := match t with TColumns x => Some x | _ => None end.
Definition p_plugin (t : tree) := match t with TPlugin x => Some x | _ => None end.
Definition p_select (t : tree) := match t with TSelect x => Some x | _ => None end.
Definition p_param (t : tree) := match t with TParam x => Some x | _ => None end.
Definition p_vql (t : tree) := match t with TVql x => Some x | _ => None end.
Definition p_multi (t : tree) := match t with TMulti x => Some x | _ => None end.

(** The names of a path a.b.c in the texts of Symbol (vfilter.go:1015-1029) or
    Name (776-788): the texts between the dots. *)
Fixpoint names (l : list string) : list string :=
  match l with
  | [] => []
  | [a] => [a]
  | a :: _ :: r => a :: names r
  end.

(** The tree of a struct, given the trees of its fields: the structs of
    vfilter.go:325-1048 as Grammar.v writes them down. *)
Definition make (name : string) (l : list (string * tree)) : tree :=
  let texts f := every p_text f l in
  let text f := joined (texts f) in
  let there f := match texts f with [] => false | _ => true end in
  let one {A} (pick : tree -> option A) f := final (every pick f l) in
  let all {A} (pick : tree -> option A) f := every pick f l in
  if String.eqb name "_SymbolRef" then                    (* 1015-1029 *)
    TValue (GSym (names (texts "Symbol")) (there "Called") (all p_arg "Parameters"))
  else if String.eqb name "_Value" then                   (* 1031-1048 *)
    match one p_value "SymbolRef", one p_comma "Subexpression" with
    | Some v, _ => TValue v
    | None, Some c => TValue (GSub c)
    | None, None =>
        if there "String" then TValue (GString (text "String"))
        else if there "StrNumber" then TValue (GNumber (text "StrNumber"))
        else if there "Boolean" then TValue (GBool (text "Boolean"))
        else if there "Null" then TValue GNull else TNone
    end
  else if String.eqb name "_OpMembershipTerm" then        (* 934-939 *)
    if there "Term" then TMterm (GTerm (text "Term"))
    else if there "Range" then TMterm (GRange (one p_value "Index") (one p_value "RangeEnd"))
    else match one p_value "Index" with
         | Some v => TMterm (GIndex v)
         | None => TMterm GNone
         end
  else if String.eqb name "_MemberExpression" then        (* 924-932 *)
    match one p_value "Left" with
    | Some v => TMember (GMember v (all p_mterm "Right"))
    | None => TNone
    end
  else if String.eqb name "_OpFactor" then                (* 917-920 *)
    match one p_value "Factor" with Some v => TFactor (text "Operator", v) | None => TNone end
  else if String.eqb name "_MultiplicationExpression" then (* 911-915 *)
    match one p_member "Left" with
    | Some m => TMul (GMul m (all p_factor "Right"))
    | None => TNone
    end
  else if String.eqb name "_OpAddTerm" then               (* 905-908 *)
    match one p_mul "Term" with Some m => TAddend (text "Operator", m) | None => TNone end
  else if String.eqb name "_AdditionExpression" then      (* 899-903 *)
    match one p_mul "Left" with
    | Some m => TAdd (GAdd m (all p_addend "Right"))
    | None => TNone
    end
  else if String.eqb name "_OpComparison" then            (* 1002-1005 *)
    match one p_add "Right" with Some a => TComparison (text "Operator", a) | None => TNone end
  else if String.eqb name "_ConditionOperand" then        (* 995-1000 *)
    match one p_cond "Not", one p_add "Left" with
    | Some c, _ => TCond (GNot c)
    | None, Some a => TCond (GCmp a (one p_comparison "Right"))
    | None, None => TNone
    end
  else if String.eqb name "_OpOrTerm" then                (* 989-992 *)
    match one p_cond "Term" with Some c => TOrTerm (text "Operator", c) | None => TNone end
  else if String.eqb name "_OrExpression" then            (* 983-987 *)
    match one p_cond "Left" with
    | Some c => TOr (GOr c (all p_orterm "Right"))
    | None => TNone
    end
  else if String.eqb name "_OpAndTerm" then               (* 977-980 *)
    match one p_or "Term" with Some o => TAndTerm (text "Operator", o) | None => TNone end
  else if String.eqb name "_AndExpression" then           (* 967-975 *)
    match one p_or "Left" with
    | Some o => TAnd (GAnd o (all p_andterm "Right"))
    | None => TNone
    end
  else if String.eqb name "_OpArrayTerm" then             (* 959-964 *)
    TItem (one p_and "Term")
  else if String.eqb name "_CommaExpression" then         (* 953-957 *)
    match one p_and "Left" with
    | Some a => TComma (GComma a (all p_item "Right"))
    | None => TNone
    end
  else if String.eqb name "_Args" then                    (* 790-802 *)
    match one p_select "SubSelect", one p_and "Right" with
    | Some s, _ => TArg (GArgSelect (text "Left") s)
    | None, Some e => TArg (GArgExpr (text "Left") e)
    | None, None =>
        if there "ArrayOpenBrace" then TArg (GArgArray (text "Left") (one p_comma "Array")) else TNone
    end
  else if String.eqb name "_AliasedExpression" then       (* 809-825 *)
    match one p_select "SubSelect", one p_and "Expression" with
    | Some s, _ => TCol (GColSelect s (text "As"))
    | None, Some e => TCol (GColExpr e (text "As"))
    | None, None => if there "Star" then TCol (GStar (text "As")) else TNone
    end
  else if String.eqb name "_SelectExpression" then        (* 804-807 *)
    TColumns (there "All", all p_col "Expressions")
  else if String.eqb name "Plugin" then                   (* 776-788 *)
    TPlugin (GPlugin (names (texts "Name")) (there "Call") (all p_arg "Args"))
  else if String.eqb name "_From" then                    (* 772-774 *)
    match one p_plugin "Plugin" with Some p => TPlugin p | None => TNone end
  else if String.eqb name "_Select" then                  (* 583-597 *)
    match one p_columns "SelectExpression", one p_plugin "From" with
    | Some (star, cols), Some p =>
        TSelect (GSelect (there "Explain") star cols p (one p_comma "Where") (one p_comma "GroupBy")
                   (if there "OrderBy" then Some (text "OrderBy", there "OrderByDesc") else None)
                   (if there "Limit" then parse_int (text "Limit") else None))
    | _, _ => TNone
    end
  else if String.eqb name "LetParameter" then             (* 355-361 *)
    match one p_arg "DefaultArg" with
    | Some a => TParam (GDefault a)
    | None => if there "Name" then TParam (GName (text "Name")) else TNone
    end
  else if String.eqb name "VQL" then                      (* 364-383 *)
    match one p_select "Query", one p_select "StoredQuery", one p_and "Expression" with
    | Some s, _, _ => TVql (GQuery s)
    | None, Some s, _ =>
        TVql (GLet (text "Let") (there "Called") (all p_param "LetParameters") (text "LetOperator") (inl s))
    | None, None, Some e =>
        TVql (GLet (text "Let") (there "Called") (all p_param "LetParameters") (text "LetOperator") (inr e))
    | _, _, _ => TNone
    end
  else if String.eqb name "MultiVQL" then                 (* 325-347 MultiVQL, GetStatements *)
    match one p_vql "VQL1" with
    | Some v => TMulti (v :: match one p_multi "VQL2" with Some l => l | None => [] end)
    | None => TNone
    end
  else TNone.

(** The tree of a struct of vfilter.go:325-1048 from what was captured. *)
Definition tree_of (name : string) (c : log) : tree := build TText make (CStruct name c).
