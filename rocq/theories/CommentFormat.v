(** ReFormatVQL (reformat/visitor.go:10-28) on scripts with comments:
    visitor.go on the trees of Comments.v.

    Reformat.v is the same visitor on trees without comments.  A comment above
    an argument switches BreakLines on (visitArgs, 834-842), for the rest of
    the visitor it is in, so BreakLines is part of the state here; abTest works
    on copies and does not take the option back (merge, 157-166). *)

From Coq Require Import ZArith List String Ascii Bool.
From Verif Require Import Base F64 Text Lexer Numeral Grammar Parser Format Reformat Comments.
Import ListNotations.
Open Scope nat_scope.
Open Scope string_scope.
Open Scope list_scope.

(** visitor.go:106-145 Visitor with its option BreakLines. *)
Record kstate : Type := { out : rstate; lines : bool }.
(** No counterpart in /repo: a visit as a change of the visitor. *)
Definition kvisit := kstate -> kstate.

(** No counterpart in /repo: a visit that leaves BreakLines alone. *)
Definition lift (f : rvisit) : kvisit := fun v => {| out := f (out v); lines := lines v |}.
(** self.opts.BreakLines = ..., e.g. in visitor.go:532-657 visitSymbolRef. *)
Definition set_lines (b : bool) : kvisit := fun v => {| out := out v; lines := b |}.
(** visitor.go:1107-1119 push *)
Definition kpush (s : string) : kvisit := lift (rpush s).
(** line_break (222-257). visitor.go:222-257 line_break *)
Definition kline_break : kvisit := fun v => lift (rline_break (lines v)) v.
(** new_line (189-200): without BreakLines only the indent and the position
    are set. visitor.go:189-200 new_line *)
Definition knew_line (p : Z) : kvisit := fun v =>
  if lines v then lift (new_line p) v
  else lift (fun w => {| frags := frags w; indents := p :: indents w;
                         line_breaks := line_breaks w; pos := p; width := width w |}) v.

(** No counterpart in /repo: nothing is visited. *)
Definition kskip : kvisit := fun v => v.
(** No counterpart in /repo: one visit after the other. *)
Definition kthen (f g : kvisit) : kvisit := fun v => g (f v).
Infix ">=>" := kthen (at level 50, left associativity).
(** No counterpart in /repo: a node that may be nil (visitor.go:275-381
    Visit). *)
Definition kmaybe {A} (f : A -> kvisit) (o : option A) : kvisit :=
  match o with Some a => f a | None => kskip end.
(** No counterpart in /repo: a loop over nodes (visitor.go:275-381 Visit). *)
Definition keach {A} (f : A -> kvisit) (l : list A) : kvisit :=
  fold_right (fun a g => f a >=> g) kskip l.
(** if self.opts.BreakLines. E.g. in visitor.go:388-424 visitComment. *)
Definition if_lines (f g : kvisit) : kvisit := fun v => if lines v then f v else g v.

(** visitComment (388-424); pop_indent is deferred *)
Definition kcomment (c : comment) : kvisit :=
  match c with
  | CLine s | CVQL s => kpush s >=> kline_break
  | CMulti s => knew_line 0 >=> kpush s >=> kline_break >=> lift pop_indent
  end.
(** The case of []*_Comment of visitor.go:275-381 Visit. *)
Definition kcomments (l : cs) : kvisit := keach kcomment l.

Section KSeparated.
  Variable A : Type.
  Variable f : nat -> A -> kvisit.
  Variable sep : kvisit.
  (** E.g. visitor.go:784-796 visitCommaExpression. *)
  Fixpoint kseparated (i : nat) (l : list A) : kvisit :=
    match l with
    | [] => kskip
    | [a] => f i a
    | a :: l' => f i a >=> kpush "," >=> kpush " " >=> sep >=> kseparated (S i) l'
    end.
End KSeparated.
Arguments kseparated {A}.

(** E.g. visitor.go:672-681 visitOrExpression. *)
Definition kop {A} (f : A -> kvisit) (t : string * A) : kvisit :=
  match t with (p, a) => kpush " " >=> kpush p >=> kpush " " >=> f a end.
(** The comments of vfilter.go:995-1000 _ConditionOperand. *)
Definition kcond_comments (e : kcond) : cs := match e with KNot c _ => c | KCmp c _ _ => c end.

Section Options.
  Variable o : options.

  (** abTest (1230-1277) *)
  Definition kabtest (c : kvisit) (cs : list kvisit) : kvisit := fun v =>
    {| out := if lines v then
                fold_left (fun best c => let t := out (c v) in
                                         if better (width_threshold o) best t then t else best)
                          cs (out (c v))
              else out (c v);
       lines := lines v |}.

  (** The start of visitor.go:828-878 visitArgs. *)
  Definition kbreak_arg : kvisit := fun v =>
    if too_far o (out v) then kline_break v else v.
  (** The start of visitor.go:532-657 visitSymbolRef. *)
  Definition kbreak_sym (f : kvisit) : kvisit := fun v =>
    if too_far o (out v) then (lift indent_in >=> kline_break >=> f >=> lift pop_indent) v else f v.

  (** 582-655, 907-982 *)
  Definition kcall {A} (f : A -> kvisit) (args : list A) : kvisit :=
    match args with
    | [] => kpush "()"
    | _ =>
        kabtest
          (set_lines false >=> kpush "(" >=> kseparated (fun _ => f) kskip 0 args >=> kpush ")")
          [kpush "(" >=> lift push_indent >=>
             kseparated (fun _ => f) kline_break 0 args >=> kpush ")" >=> lift pop_indent;
           kpush "(" >=> lift indent_in >=> kline_break >=>
             kseparated (fun _ => f) kline_break 0 args >=> kpush ")" >=> lift pop_indent]
    end.

  (** The AS of visitor.go:446-530 visitAliasedExpression. *)
  Definition kalias (a : string) : kvisit := lift (ralias a).
  (** The ORDER BY of visitor.go:1019-1090 visitSelect. *)
  Definition korder (k : string * bool) : kvisit := lift (rorder k).
  (** The LIMIT of visitor.go:1019-1090 visitSelect. *)
  Definition klimit (z : Z) : kvisit := lift (rlimit z).

  (** visitValue (719-782): 722 *)
  Fixpoint vvalue (x : kvalue) {struct x} : kvisit :=
    match x with KValue c a => kcomments c >=> vatom a end
  (** visitSymbolRef (532-657): 536 *)
  with vatom (x : katom) {struct x} : kvisit :=
    match x with
    | KSym c s called params =>
        kcomments c >=>
        kbreak_sym (kpush (dotted s) >=>
          (if negb called && match params with [] => true | _ => false end then kskip
           else kcall varg params))
    | KSub c => kpush "(" >=> lift indent_in >=> vcomma c >=> kpush ")" >=> lift pop_indent
    | KString s => kpush s
    | KNumber s => kpush (fnumber s)
    | KBool s => kpush s
    | KNull => kpush "NULL"
    end
  with vmterm (t : kmterm) {struct t} : kvisit :=
    match t with
    | KRange i j =>
        kpush "[" >=> kmaybe vvalue i >=> kpush ":" >=> kmaybe vvalue j >=> kpush "]"
    | KIndex i => kpush "[" >=> vvalue i >=> kpush "]"
    | KNone => kpush "."
    | KTerm s => kpush "." >=> kpush s
    end
  (** 798-826 *)
  with vmember (e : kmember) {struct e} : kvisit :=
    match e with KMember c l r => kcomments c >=> vvalue l >=> keach vmterm r end
  (** 706-717 *)
  with vmul (e : kmul) {struct e} : kvisit :=
    match e with KMul c l r => kcomments c >=> vmember l >=> keach (kop vvalue) r end
  (** 697-704 *)
  with vadd (e : kadd) {struct e} : kvisit :=
    match e with KAdd c l r => kcomments c >=> vmul l >=> keach (kop vmul) r end
  (** 683-695: its own comments are written only by visitOrExpression *)
  with vcond (e : kcond) {struct e} : kvisit :=
    match e with
    | KNot _ c => kpush "NOT " >=> vcond c
    | KCmp _ l r => vadd l >=> kmaybe (kop vadd) r
    end
  (** 672-681 *)
  with vor (e : kor) {struct e} : kvisit :=
    match e with
    | KOr c l r => kcomments c >=> vcond l >=>
        keach (kop (fun e => kcomments (kcond_comments e) >=> vcond e)) r
    end
  (** 659-670: the comments are not written *)
  with vand (e : kand) {struct e} : kvisit :=
    match e with
    | KAnd _ l r =>
        vor l >=>
        keach (fun t => kline_break >=> kop (fun x => lift push_indent >=> vor x) t) r >=>
        keach (fun _ => lift pop_indent) r
    end
  (** 784-796 *)
  with vcomma (e : kcomma) {struct e} : kvisit :=
    match e with KComma c l r => kcomments c >=> vand l >=> keach vterm r end
  with vterm (e : kterm) {struct e} : kvisit :=
    match e with
    | KItem c1 c2 t =>
        kpush "," >=> kpush " " >=> kcomments c1 >=> kcomments c2 >=> kmaybe vand t
    end
  (** visitArgs (828-878) *)
  with varg (x : karg) {struct x} : kvisit :=
    kbreak_arg >=>
    (let above := fun c : cs => match c with [] => kskip | _ => set_lines true >=> kcomments c end in
    match x with
    | KArgExpr c n e => above c >=> kpush n >=> kpush "=" >=> vand e
    | KArgSelect c n s =>
        above c >=> kpush n >=> kpush "={" >=>
        if_lines
          (knew_line 2 >=> lift indent_in >=> kpush "  " >=> vselect s >=>
           lift pop_indent >=> kline_break >=> kpush "}" >=> lift pop_indent)
          (kpush " " >=> vselect s >=> kpush " }")
    | KArgArray c n (Some e) => above c >=> kpush n >=> kpush "=[" >=> vcomma e >=> kpush "]"
    | KArgArray c n None => above c >=> kpush n >=> kpush "=[]"
    end)
  (** visitSelect (1019-1090) *)
  with vselect (x : kselect) {struct x} : kvisit :=
    match x with
    | KSelect c explain all cols from w g k l =>
        let list_of :=
          (if all then kpush "*" >=> (match cols with [] => kskip | _ => kpush "," >=> kpush " " end)
           else kskip) >=>
          kseparated (fun i c => vcol c i) kline_break 0 cols in
        kcomments c >=>
        (if explain then kpush "EXPLAIN " else kskip) >=>
        kpush "SELECT " >=>
        kabtest (lift push_indent >=> list_of >=> lift pop_indent)
          [knew_line 2 >=> lift indent_in >=> kpush "  " >=> list_of >=> lift pop_indent >=> lift pop_indent] >=>
        (kline_break >=> kpush "FROM " >=> vplugin from) >=>
        kmaybe (fun w => kline_break >=> kpush "WHERE " >=> vcomma w) w >=>
        kmaybe (fun g => kline_break >=> kpush "GROUP BY " >=> lift push_indent >=> vcomma g) g >=>
        kmaybe (fun k => kline_break >=> korder k) k >=>
        kmaybe (fun l => kline_break >=> klimit l) l >=>
        kmaybe (fun _ => lift pop_indent) g
    end
  (** visitAliasedExpression (446-530) *)
  with vcol (x : kcol) (i : nat) {struct x} : kvisit :=
    match x with
    | KStar c _ => kcomments c >=> kpush "*"
    | KColExpr c e a =>
        let unless_first := fun v =>
          if (String.eqb a "" || negb (Nat.eqb i 0)) && negb (current_line_space (out v))
          then kline_break v else v in
        kcomments c >=>
        kabtest (set_lines false >=> vand e >=> kalias a)
          [unless_first >=> vand e >=> kalias a]
    | KColSelect c s a =>
        kcomments c >=>
        kpush "{" >=> kpush " " >=>
        if_lines
          (knew_line 2 >=> lift indent_in >=> kpush "  " >=> vselect s >=>
           kline_break >=> kpush "}" >=> kalias a >=> lift pop_indent >=> lift pop_indent)
          (vselect s >=> kpush " }" >=> kalias a)
    end
  with vplugin (x : kplugin) {struct x} : kvisit :=
    match x with
    | KPlugin n call args => kpush (dotted n) >=> (if call then kcall varg args else kskip)
    end.

  (** getParameters (vfilter.go:539-581) *)
  Definition karg_name (a : karg) : string :=
    match a with KArgExpr _ n _ | KArgSelect _ n _ | KArgArray _ n _ => n end.
  (** vfilter.go:539-581 getParameters *)
  Definition kparam_name (p : kparam) : string :=
    match p with KDefault a => unq (karg_name a) | KName s => unq s end.
  (** vfilter.go:539-581 getParameters *)
  Definition kdefault_for (ps : list kparam) (name : string) : option karg :=
    fold_left (fun d p => match p with
                          | KDefault a => if String.eqb (unq (karg_name a)) name then Some a else d
                          | KName _ => d
                          end) ps None.

  (** visitVQL (1130-1227) *)
  Definition vparam (ps : list kparam) (p : kparam) : kvisit :=
    match kdefault_for ps (kparam_name p) with
    | Some a => varg a
    | None => kpush (kparam_name p)
    end.
  (** visitor.go:1130-1227 visitVQL *)
  Definition vvql (x : kstmt) : kvisit :=
    match x with (c, x) =>
      kcomments c >=>
      match x with
      | KLet name called ps p body =>
          kpush "LET " >=> kpush name >=>
          (match ps with
           | [] => kskip
           | _ => kpush "(" >=> kseparated (fun _ => vparam ps) kskip 0 ps >=> kpush ")"
           end) >=>
          (kpush " " >=> kpush p >=> kpush " ") >=> lift indent_in >=>
          (match body with inl s => vselect s | inr e => vand e end) >=> lift pop_indent
      | KQuery s => vselect s
      end >=> kline_break >=> lift restart
    end.

  (** Visit of []*VQL (277-283) *)
  Definition vall (l : list kstmt) : kvisit := keach (fun x => vvql x >=> kline_break) l.
End Options.

(** What ReFormatVQL writes for parsed statements, with the BreakLines of the
    options. reformat/visitor.go:10-27 ReFormatVQL *)
Definition reformat_stmts (o : options) (bl : bool) (l : list kstmt) : string :=
  trim_lines (rtext (out (vall o l {| out := rstate0; lines := bl |}))).

(** ReFormatVQL; [None] is an error. reformat/visitor.go:10-27 ReFormatVQL *)
Definition reformat_text (o : options) (bl : bool) (text : string) : option string :=
  match parse_comments text with
  | Some l => Some (reformat_stmts o bl l)
  | None => None
  end.
