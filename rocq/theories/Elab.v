(** From the tree the parser builds (Grammar.v) to the tree the evaluator
    walks (Syntax.v).  In the code these are the same structs: what the
    Reduce methods do with the texts in them (splitting identifiers, decoding
    literals, naming columns) is done here once, before evaluation.

    Every symbol node gets a number of its own, in the order of the text: it
    stands for the address of the node, where the code keeps its caches. *)

From Coq Require Import ZArith List String Ascii Bool.
From Verif Require Import Base F64 Value Protocols Monad Chains Text Syntax Lexer Numeral Grammar Parser Format Eval.
Import ListNotations.
Open Scope nat_scope.
Open Scope string_scope.
Open Scope list_scope.

Section Number.
  Variables A B : Type.
  Variable f : A -> nat -> B * nat.
  (** No counterpart in /repo: a list of nodes, numbered on. *)
  Fixpoint each_el (l : list A) (n : nat) : list B * nat :=
    match l with
    | [] => ([], n)
    | a :: r => let (b, n) := f a n in let (bs, n) := each_el r n in (b :: bs, n)
    end.
  (** No counterpart in /repo: a node that may be nil. *)
  Definition opt_el (o : option A) (n : nat) : option B * nat :=
    match o with None => (None, n) | Some a => let (b, n) := f a n in (Some b, n) end.
  (** No counterpart in /repo: an operator and its operand. *)
  Definition snd_el (t : string * A) (n : nat) : (string * B) * nat :=
    let (b, n) := f (snd t) n in ((fst t, b), n).
End Number.
Arguments each_el {A B}.
Arguments opt_el {A B}.
Arguments snd_el {A B}.

(** A level of the grammar without operators is its operand (vfilter.go:1411,
    1453, 1493, 1422, 1556, 1569). *)
Definition chain {A} (mk : expr -> list A -> expr) (l : expr) (rs : list A) : expr :=
  match rs with [] => l | _ => mk l rs end.

(** vfilter.go:1577-1594; what is none of them is false, as <> is. *)
Definition cmp_of (op : string) : cmpop :=
  if (String.eqb op "IN" || String.eqb op "in" || String.eqb op "In")%bool then OpIn else if String.eqb op "<" then OpLt else if String.eqb op "=" then OpEq
  else if String.eqb op "!=" then OpNe else if String.eqb op "<=" then OpLe else if String.eqb op ">" then OpGt
  else if String.eqb op ">=" then OpGe else if String.eqb op "=~" then OpMatch else OpNeAlt.

(** vfilter.go:1739-1749: the sign is a prefix of the first component. *)
Definition sym_parts (symbol : list string) : bool * list string :=
  match split_ident (dotted symbol) with
  | String "-" c :: r => (true, c :: r)
  | cs => (false, cs)
  end.

(** vfilter.go:1641-1712, the literals; a number that does not parse is
    NULL. *)
Definition lit_number (s : string) : val :=
  match number_value s with NInt z => vint z | NFloat f => VF64 f | NBad => VNull end.
(** The strings of vfilter.go:1665-1715 Reduce. *)
Definition lit_string (s : string) : val :=
  VStr match unquote s with Ok t => t | Panic => s end.       (* no panic on a literal of the lexer *)
(** The booleans of vfilter.go:1665-1715 Reduce. *)
Definition lit_bool (s : string) : val := VBool (String.eqb (upper s) "TRUE").

(** vfilter.go:826-850 GetName *)
Definition col_name (c : gcol) : string :=
  let as_ := match c with GStar a | GColSelect _ a | GColExpr _ a => a end in
  if String.eqb as_ "" then unquoted (format_with fcol c) else unquoted as_.

(** vfilter.go:1665-1715 Reduce *)
Fixpoint elab_value (x : gvalue) (n : nat) {struct x} : expr * nat :=
  match x with
  | GSym s called params =>
      let (ps, m) := each_el elab_arg params (S n) in
      (ESym n (fst (sym_parts s)) (snd (sym_parts s)) called ps, m)
  | GSub c => elab_comma c n
  | GString s => (ELit (lit_string s), n)
  | GNumber s => (ELit (lit_number s), n)
  | GBool s => (ELit (lit_bool s), n)
  | GNull => (ELit VNull, n)
  end
with elab_mterm (t : gmterm) (n : nat) {struct t} : mterm * nat :=
  match t with
  | GRange i j =>
      let (i, n) := opt_el elab_value i n in
      let (j, n) := opt_el elab_value j n in
      (MRange i j, n)
  | GIndex i => let (e, n) := elab_value i n in (MIndex e, n)
  | GNone => (MRange (Some (ELit VNull)) None, n)    (* x[] is NULL (1360, 1395-1397), as x[NULL:] is *)
  | GTerm s => (MField (unquoted s), n)
  end
with elab_member (e : gmember) (n : nat) {struct e} : expr * nat :=
  match e with
  | GMember l r =>
      let (l, n) := elab_value l n in
      let (r, n) := each_el elab_mterm r n in
      (chain EMember l r, n)
  end
with elab_mul (e : gmul) (n : nat) {struct e} : expr * nat :=
  match e with
  | GMul l r =>
      let (l, n) := elab_member l n in
      let (r, n) := each_el (snd_el elab_value) r n in
      (chain EMul l r, n)
  end
with elab_add (e : gadd) (n : nat) {struct e} : expr * nat :=
  match e with
  | GAdd l r =>
      let (l, n) := elab_mul l n in
      let (r, n) := each_el (snd_el elab_mul) r n in
      (chain EAdd l r, n)
  end
with elab_cond (e : gcond) (n : nat) {struct e} : expr * nat :=
  match e with
  | GNot c => let (c, n) := elab_cond c n in (ENot c, n)
  | GCmp l r =>
      let (l, n) := elab_add l n in
      let (r, n) := opt_el (snd_el elab_add) r n in
      (match r with None => l | Some (o, r) => ECmp l (cmp_of o) r end, n)
  end
with elab_or (e : gor) (n : nat) {struct e} : expr * nat :=
  match e with
  | GOr l r =>
      let (l, n) := elab_cond l n in
      let (r, n) := each_el (snd_el elab_cond) r n in
      (chain EOr l r, n)
  end
with elab_and (e : gand) (n : nat) {struct e} : expr * nat :=
  match e with
  | GAnd l r =>
      let (l, n) := elab_or l n in
      let (r, n) := each_el (snd_el elab_or) r n in
      (chain EAnd l r, n)
  end
with elab_comma (e : gcomma) (n : nat) {struct e} : expr * nat :=
  match e with
  | GComma l r =>
      let (l, n) := elab_and l n in
      let (r, n) := each_el (opt_el elab_and) r n in
      (EComma l r, n)
  end
with elab_arg (x : garg) (n : nat) {struct x} : (string * argval) * nat :=
  match x with
  | GArgExpr name e => let (e, n) := elab_and e n in ((unquoted name, AExpr e), n)
  | GArgSelect name s => let (s, n) := elab_select s n in ((unquoted name, ASelect s), n)
  | GArgArray name None => ((unquoted name, AEmpty), n)
  | GArgArray name (Some c) => let (e, n) := elab_comma c n in ((unquoted name, AArray e), n)
  end
with elab_select (x : gselect) (n : nat) {struct x} : select * nat :=
  match x with
  | GSelect _ all cols from w g o l =>
      let (cols, n) := each_el elab_col cols n in
      let (from, n) := elab_plugin from n in
      let (w, n) := opt_el elab_comma w n in
      let (g, n) := opt_el elab_comma g n in
      (Select all cols from w g
         (match o with None => None | Some (k, desc) => Some (unquoted k, desc) end) l, n)
  end
with elab_col (x : gcol) (n : nat) {struct x} : (string * colbody) * nat :=
  match x with
  | GStar _ => ((col_name x, CStar), n)
  | GColSelect s _ => let (s, n) := elab_select s n in ((col_name x, CSelect s), n)
  | GColExpr e _ => let (e, n) := elab_and e n in ((col_name x, CExpr e), n)
  end
with elab_plugin (x : gplugin) (n : nat) {struct x} : plugin * nat :=
  match x with
  | GPlugin name call args =>
      let (args, n) := each_el elab_arg args n in
      (Plugin (split_ident (dotted name)) call args, n)
  end.

(** LetParameter: a name, or a name with a default; as written
    (vfilter.go:551-577). *)
Definition elab_param (p : gparam) (n : nat) : (string * option argval) * nat :=
  match p with
  | GName s => ((s, None), n)
  | GDefault a => let (na, n) := elab_arg a n in ((arg_name a, Some (snd na)), n)
  end.

(** VQL; LET with = keeps the expression, with <= evaluates it (443-492). *)
Definition elab_vql (x : gvql) (n : nat) : stmt * nat :=
  match x with
  | GLet name _ params op body =>
      let (ps, n) := each_el elab_param params n in
      let (b, n) := match body with
                    | inl s => let (s, n) := elab_select s n in (LSelect s, n)
                    | inr e => let (e, n) := elab_and e n in (LExpr e, n)
                    end in
      (SLet (unquoted name) ps (String.eqb op "=") b, n)
  | GQuery s => let (q, n) := elab_select s n in (SQuery (format_vql x) q, n)
  end.

(** Parse or MultiParse, and evaluation of the statements in one scope, one
    after the other. vfilter.go:294-307 MultiParse *)
Definition elab_script (l : list gvql) : list stmt := fst (each_el elab_vql l 0).
(** vfilter.go:415-528 Eval of each statement. *)
Definition run_script (R : evals) (sc : scope) (l : list gvql) : EM (scope * list (list val)) :=
  run_stmts R sc (elab_script l).
(** vfilter.go:294-307 MultiParse and vfilter.go:415-528 Eval of each
    statement. *)
Definition run_text (R : evals) (sc : scope) (text : string) : option (EM (scope * list (list val))) :=
  option_map (run_script R sc) (parse_multi text).
