(** What the syntax trees of Grammar.v are made of, for the proofs about the
    parser and the formatter: the tokens of a tree ([t...]), the tree with
    every number rewritten as its value prints ([n...]), and what holds of
    every tree the parser makes ([ok...]). *)

From Coq Require Import ZArith List String Ascii Bool.
From Verif Require Import Base F64 Text Lexer Numeral Grammar Parser Format.
Import ListNotations.
Open Scope nat_scope.
Open Scope string_scope.
Open Scope list_scope.

(** ** Tokens *)

Definition op (s : string) : token := Tok T_Operators s.
Definition tident (s : string) : token := Tok T_Ident s.
(** The first identifier of a symbol may carry a minus. *)
Definition tfirst (s : string) : token :=
  Tok (if first_char (Ascii.eqb "-") s then T_SymbolIdent else T_Ident) s.
Definition trest (l : list string) : list token := flat_map (fun s => [op "."; tident s]) l.
Definition tsymbol (l : list string) : list token :=
  match l with [] => [] | a :: r => tfirst a :: trest r end.
Definition tname (l : list string) : list token :=
  match l with [] => [] | a :: r => tident a :: trest r end.

Definition tstring (s : string) : token :=
  Tok (if strip_prefix triple s then T_MultilineString else T_String) s.
Definition tand_op (s : string) : token := Tok (if String.eqb s "&&" then T_AlternativeAND else T_AND) s.
Definition tor_op (s : string) : token :=
  Tok (if first_char (Ascii.eqb "|") s then T_AlternativeOR else T_OR) s.
Definition tcmp_op (s : string) : token := Tok (if String.eqb s "IN" then T_IN else T_Operators) s.

Section Tsep.
  Variable A : Type.
  Variable f : A -> list token.
  Fixpoint tsep (l : list A) : list token :=
    match l with
    | [] => []
    | [a] => f a
    | a :: l' => f a ++ op "," :: tsep l'
    end.
End Tsep.
Arguments tsep {A}.

Definition tmaybe {A} (f : A -> list token) (o : option A) : list token :=
  match o with Some a => f a | None => [] end.
Definition top {A} (k : string -> token) (f : A -> list token) (t : string * A) : list token :=
  match t with (o, a) => k o :: f a end.
Definition tcall {A} (f : A -> list token) (args : list A) : list token :=
  op "(" :: tsep f args ++ [op ")"].
Definition talias (a : string) : list token :=
  if String.eqb a "" then [] else [Tok T_AS "AS"; tident a].

Fixpoint tvalue (x : gvalue) {struct x} : list token :=
  match x with
  | GSym s called params =>
      tsymbol s ++ (if negb called && match params with [] => true | _ => false end then []
                    else tcall targ params)
  | GSub c => op "(" :: tcomma c ++ [op ")"]
  | GString s => [tstring s]
  | GNumber s => [Tok T_Number (fnumber s)]
  | GBool s => [Tok T_BOOL s]
  | GNull => [Tok T_NULL "NULL"]
  end
with tmterm (t : gmterm) {struct t} : list token :=
  match t with
  | GRange i j => op "[" :: tmaybe tvalue i ++ op ":" :: tmaybe tvalue j ++ [op "]"]
  | GIndex i => op "[" :: tvalue i ++ [op "]"]
  | GNone => [op "["; op "]"]
  | GTerm s => [op "."; tident s]
  end
with tmember (e : gmember) {struct e} : list token :=
  match e with GMember l r => tvalue l ++ flat_map tmterm r end
with tmul (e : gmul) {struct e} : list token :=
  match e with GMul l r => tmember l ++ flat_map (top op tvalue) r end
with tadd (e : gadd) {struct e} : list token :=
  match e with GAdd l r => tmul l ++ flat_map (top op tmul) r end
with tcond (e : gcond) {struct e} : list token :=
  match e with
  | GNot c => Tok T_NOT "NOT" :: tcond c
  | GCmp l r => tadd l ++ tmaybe (top tcmp_op tadd) r
  end
with tor (e : gor) {struct e} : list token :=
  match e with GOr l r => tcond l ++ flat_map (top tor_op tcond) r end
with tand (e : gand) {struct e} : list token :=
  match e with GAnd l r => tor l ++ flat_map (top tand_op tor) r end
with tcomma (e : gcomma) {struct e} : list token :=
  match e with GComma l r => tand l ++ flat_map (fun t => op "," :: tmaybe tand t) r end
with targ (x : garg) {struct x} : list token :=
  match x with
  | GArgExpr n e => tident n :: op "=" :: tand e
  | GArgSelect n s => tident n :: op "=" :: op "{" :: tselect s ++ [op "}"]
  | GArgArray n c => tident n :: op "=" :: op "[" :: tmaybe tcomma c ++ [op "]"]
  end
with tselect (x : gselect) {struct x} : list token :=
  match x with
  | GSelect explain all cols from w g o l =>
      (if explain then [Tok T_EXPLAIN "EXPLAIN"] else []) ++
      Tok T_SELECT "SELECT" ::
      (if all then op "*" :: (match cols with [] => [] | _ => [op ","] end) else []) ++
      tsep tcol cols ++ Tok T_FROM "FROM" :: tplugin from ++
      tmaybe (fun w => Tok T_WHERE "WHERE" :: tcomma w) w ++
      tmaybe (fun g => Tok T_GROUPBY "GROUP BY" :: tcomma g) g ++
      tmaybe (fun o : string * bool => Tok T_ORDERBY "ORDER BY" :: tident (fst o) ::
                       (if snd o then [Tok T_DESC "DESC"] else [])) o ++
      tmaybe (fun l => [Tok T_LIMIT "LIMIT"; Tok T_Number (print_int l)]) l
  end
with tcol (x : gcol) {struct x} : list token :=
  match x with
  | GStar a => op "*" :: talias a
  | GColExpr e a => tand e ++ talias a
  | GColSelect s a => op "{" :: tselect s ++ op "}" :: talias a
  end
with tplugin (x : gplugin) {struct x} : list token :=
  match x with
  | GPlugin n call args => tname n ++ (if call then tcall targ args else [])
  end.

Definition tparam (p : gparam) : list token :=
  match p with GDefault a => targ a | GName s => [tident s] end.
Definition tvql (x : gvql) : list token :=
  match x with
  | GLet name called ps o body =>
      Tok T_LET "LET" :: tident name ::
      (if called then tcall tparam ps else []) ++
      op o :: (match body with inl s => tselect s | inr e => tand e end)
  | GQuery s => tselect s
  end.

(** ** The same tree with the numbers as they print *)

Fixpoint nvalue (x : gvalue) {struct x} : gvalue :=
  match x with
  | GSym s called params => GSym s called (map narg params)
  | GSub c => GSub (ncomma c)
  | GNumber s => GNumber (fnumber s)
  | x => x
  end
with nmterm (t : gmterm) {struct t} : gmterm :=
  match t with
  | GRange i j => GRange (option_map nvalue i) (option_map nvalue j)
  | GIndex i => GIndex (nvalue i)
  | t => t
  end
with nmember (e : gmember) {struct e} : gmember :=
  match e with GMember l r => GMember (nvalue l) (map nmterm r) end
with nmul (e : gmul) {struct e} : gmul :=
  match e with GMul l r => GMul (nmember l) (map (fun t => (fst t, nvalue (snd t))) r) end
with nadd (e : gadd) {struct e} : gadd :=
  match e with GAdd l r => GAdd (nmul l) (map (fun t => (fst t, nmul (snd t))) r) end
with ncond (e : gcond) {struct e} : gcond :=
  match e with
  | GNot c => GNot (ncond c)
  | GCmp l r => GCmp (nadd l) (option_map (fun t => (fst t, nadd (snd t))) r)
  end
with nor (e : gor) {struct e} : gor :=
  match e with GOr l r => GOr (ncond l) (map (fun t => (fst t, ncond (snd t))) r) end
with nand (e : gand) {struct e} : gand :=
  match e with GAnd l r => GAnd (nor l) (map (fun t => (fst t, nor (snd t))) r) end
with ncomma (e : gcomma) {struct e} : gcomma :=
  match e with GComma l r => GComma (nand l) (map (option_map nand) r) end
with narg (x : garg) {struct x} : garg :=
  match x with
  | GArgExpr n e => GArgExpr n (nand e)
  | GArgSelect n s => GArgSelect n (nselect s)
  | GArgArray n c => GArgArray n (option_map ncomma c)
  end
with nselect (x : gselect) {struct x} : gselect :=
  match x with
  | GSelect explain all cols from w g o l =>
      GSelect explain all (map ncol cols) (nplugin from)
        (option_map ncomma w) (option_map ncomma g) o l
  end
with ncol (x : gcol) {struct x} : gcol :=
  match x with
  | GStar a => GStar a
  | GColExpr e a => GColExpr (nand e) a
  | GColSelect s a => GColSelect (nselect s) a
  end
with nplugin (x : gplugin) {struct x} : gplugin :=
  match x with GPlugin n call args => GPlugin n call (map narg args) end.

Definition nparam (p : gparam) : gparam :=
  match p with GDefault a => GDefault (narg a) | GName s => GName s end.
Definition nvql (x : gvql) : gvql :=
  match x with
  | GLet name called ps o body =>
      GLet name called (map nparam ps) o
        (match body with inl s => inl (nselect s) | inr e => inr (nand e) end)
  | GQuery s => GQuery (nselect s)
  end.

(** ** What the parser guarantees *)

(** What may follow a word, number or string without a space, or after one:
    nothing, a bracket and the like, a dot before an identifier, a space that
    is not followed by the word BY. *)
Definition brk (r : string) : bool :=
  match r with
  | "" => true
  | String c r' =>
      if is_space c then match by_follows r with Some _ => false | None => true end
      else if Ascii.eqb c "." then first_char (fun c => is_alpha c || Ascii.eqb c bquote) r'
      else existsb (Ascii.eqb c) ["("%char; ")"%char; "["%char; "]"%char; "{"%char; "}"%char; ","%char;
                                  ":"%char; "="%char]
  end.

(** A text that is read as one token of type t wherever a break follows. *)
Definition reads (t : ttype) (s : string) : Prop :=
  forall r, brk r = true -> lex1 (s ++ r)%string = Some (Some (Tok t s), r).

Definition all {A} (P : A -> Prop) (l : list A) : Prop := fold_right (fun a Q => P a /\ Q) True l.
Definition oko {A} (P : A -> Prop) (o : option A) : Prop := match o with Some a => P a | None => True end.

Definition ok_ident (s : string) : Prop := reads T_Ident s.
Definition ok_symbol (l : list string) : Prop :=
  match l with [] => False | a :: r => reads (tt (tfirst a)) a /\ all ok_ident r end.
Definition ok_name (l : list string) : Prop :=
  match l with [] => False | a :: r => ok_ident a /\ all ok_ident r end.
Definition ok_alias (a : string) : Prop := a = "" \/ ok_ident a.
Definition ok_op {A} (Q : string -> Prop) (P : A -> Prop) (t : string * A) : Prop :=
  match t with (o, a) => Q o /\ P a end.
Definition cmp_ops : list string := ["<>"; "<="; ">="; "="; "<"; ">"; "!="; "IN"; "=~"].

Fixpoint ok_value (x : gvalue) {struct x} : Prop :=
  match x with
  | GSym s called params => ok_symbol s /\ (called = true \/ params = []) /\ all ok_arg params
  | GSub c => ok_comma c
  | GString s => reads (tt (tstring s)) s
  | GNumber s => reads T_Number s
  | GBool s => reads T_BOOL s
  | GNull => True
  end
with ok_mterm (t : gmterm) {struct t} : Prop :=
  match t with
  | GRange i j => oko ok_value i /\ oko ok_value j
  | GIndex i => ok_value i
  | GNone => True
  | GTerm s => ok_ident s
  end
with ok_member (e : gmember) {struct e} : Prop :=
  match e with
  | GMember l r =>
      ok_value l /\ all ok_mterm r /\
      (* x.y is one symbol *)
      match l, r with GSym _ false _, GTerm _ :: _ => False | _, _ => True end
  end
with ok_mul (e : gmul) {struct e} : Prop :=
  match e with GMul l r => ok_member l /\ all (ok_op (fun o => In o ["*"; "/"]) ok_value) r end
with ok_add (e : gadd) {struct e} : Prop :=
  match e with GAdd l r => ok_mul l /\ all (ok_op (fun o => In o ["+"; "-"]) ok_mul) r end
with ok_cond (e : gcond) {struct e} : Prop :=
  match e with
  | GNot c => ok_cond c
  | GCmp l r => ok_add l /\ oko (ok_op (fun o => In o cmp_ops) ok_add) r
  end
with ok_or (e : gor) {struct e} : Prop :=
  match e with GOr l r => ok_cond l /\ all (ok_op (fun o => reads (tt (tor_op o)) o) ok_cond) r end
with ok_and (e : gand) {struct e} : Prop :=
  match e with GAnd l r => ok_or l /\ all (ok_op (fun o => reads (tt (tand_op o)) o) ok_or) r end
with ok_comma (e : gcomma) {struct e} : Prop :=
  match e with GComma l r => ok_and l /\ all (oko ok_and) r end
with ok_arg (x : garg) {struct x} : Prop :=
  match x with
  | GArgExpr n e => ok_ident n /\ ok_and e
  | GArgSelect n s => ok_ident n /\ ok_select s
  | GArgArray n c => ok_ident n /\ oko ok_comma c
  end
with ok_select (x : gselect) {struct x} : Prop :=
  match x with
  | GSelect explain al cols from w g o l =>
      all ok_col cols /\
      (* a leading star is the star of the column list *)
      match al, cols with false, GStar _ :: _ => False | _, _ => True end /\
      ok_plugin from /\ oko ok_comma w /\ oko ok_comma g /\
      oko (fun o : string * bool => ok_ident (fst o)) o /\ oko is_int64 l
  end
with ok_col (x : gcol) {struct x} : Prop :=
  match x with
  | GStar a => ok_alias a
  | GColExpr e a => ok_and e /\ ok_alias a
  | GColSelect s a => ok_select s /\ ok_alias a
  end
with ok_plugin (x : gplugin) {struct x} : Prop :=
  match x with
  | GPlugin n call args => ok_name n /\ (call = true \/ args = []) /\ all ok_arg args
  end.

Definition ok_param (p : gparam) : Prop :=
  match p with GDefault a => ok_arg a | GName s => ok_ident s end.
Definition ok_vql (x : gvql) : Prop :=
  match x with
  | GLet name called ps o body =>
      ok_ident name /\ (called = true \/ ps = []) /\ all ok_param ps /\ (o = "=" \/ o = "<=") /\
      match body with inl s => ok_select s | inr e => ok_and e end
  | GQuery s => ok_select s
  end.

(** ** What the formatter gets right *)

(** The literal has a value: it is a number that fits. *)
Definition clean_number (s : string) : bool := match number_value s with NBad => false | _ => true end.

Definition allb {A} (P : A -> bool) (l : list A) : bool := fold_right (fun a q => P a && q) true l.
Definition optb {A} (P : A -> bool) (o : option A) : bool := match o with Some a => P a | None => true end.

Fixpoint clean_value (x : gvalue) {struct x} : bool :=
  match x with
  | GSym s called params => allb clean_arg params
  | GSub c => clean_comma c
  | GNumber s => clean_number s
  | _ => true
  end
with clean_mterm (t : gmterm) {struct t} : bool :=
  match t with
  | GRange i j => optb clean_value i && optb clean_value j
  | GIndex i => clean_value i
  | GNone => false                         (* x[] prints as x. *)
  | GTerm s => true
  end
with clean_member (e : gmember) {struct e} : bool :=
  match e with GMember l r => clean_value l && allb clean_mterm r end
with clean_mul (e : gmul) {struct e} : bool :=
  match e with GMul l r => clean_member l && allb (fun t => clean_value (snd t)) r end
with clean_add (e : gadd) {struct e} : bool :=
  match e with GAdd l r => clean_mul l && allb (fun t => clean_mul (snd t)) r end
with clean_cond (e : gcond) {struct e} : bool :=
  match e with
  | GNot c => clean_cond c
  | GCmp l r => clean_add l && optb (fun t => clean_add (snd t)) r
  end
with clean_or (e : gor) {struct e} : bool :=
  match e with GOr l r => clean_cond l && allb (fun t => clean_cond (snd t)) r end
with clean_and (e : gand) {struct e} : bool :=
  match e with GAnd l r => clean_or l && allb (fun t => clean_or (snd t)) r end
with clean_comma (e : gcomma) {struct e} : bool :=
  match e with GComma l r => clean_and l && allb (optb clean_and) r end
with clean_arg (x : garg) {struct x} : bool :=
  match x with
  | GArgExpr n e => clean_and e
  | GArgSelect n s => clean_select s
  | GArgArray n c => optb clean_comma c
  end
with clean_select (x : gselect) {struct x} : bool :=
  match x with
  | GSelect explain al cols from w g o l =>
      allb clean_col cols && clean_plugin from && optb clean_comma w && optb clean_comma g
  end
with clean_col (x : gcol) {struct x} : bool :=
  match x with
  | GStar a => String.eqb a ""             (* the alias of a star is not printed *)
  | GColExpr e a => clean_and e
  | GColSelect s a => clean_select s
  end
with clean_plugin (x : gplugin) {struct x} : bool :=
  match x with GPlugin n call args => allb clean_arg args end.

(** The parameters of a LET print unquoted, and by name: none is quoted and
    no name occurs twice.  Empty parentheses are not printed. *)
Definition clean_param (p : gparam) : bool :=
  match p with
  | GDefault a => clean_arg a
  | GName s => String.eqb (unq s) s
  end.
Fixpoint distinct (l : list string) : bool :=
  match l with [] => true | a :: r => negb (existsb (String.eqb a) r) && distinct r end.
Definition clean_vql (x : gvql) : bool :=
  match x with
  | GLet name called ps o body =>
      (negb called || match ps with [] => false | _ => true end) &&
      allb clean_param ps && distinct (map param_name ps) &&
      match body with inl s => clean_select s | inr e => clean_and e end
  | GQuery s => clean_select s
  end.
