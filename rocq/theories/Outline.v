(** What tooling sees of a statement: Outline (outline.go:71-268) and the call
    and definition sites the visitor collects (visitor.go:33-53, 526-580,
    884-995, 1130-1227), on statements without comments.  Positions are not
    modelled: entries are compared by kind, name and order. *)

From Coq Require Import ZArith List String Ascii Bool.
From Verif Require Import Base F64 Text Lexer Numeral Grammar Format.
Import ListNotations.
Open Scope nat_scope.
Open Scope string_scope.
Open Scope list_scope.

(** ** Outline *)

(** OutlineInfo (47-62) with its Kind (34-45); a function has no children. *)
Inductive outline : Type :=
| OLet (name : string) (children : list outline)
| OQuery (name : string) (children : list outline)
| OColumn (name : string) (children : list outline)
| OFunction (name : string).

(** The children accumulated by the collect... functions (171-268).  The code
    appends to a slice; here each function returns what it appends. *)
Fixpoint oc_value (x : gvalue) {struct x} : list outline :=      (* 239-254 *)
  match x with
  | GSym s true _ => [OFunction (dotted s)]
  | GSym _ false _ => []
  | GSub c => oc_comma c
  | _ => []
  end
with oc_mterm (t : gmterm) {struct t} : list outline :=          (* 224-237 *)
  match t with
  | GIndex i => oc_value i
  | GRange i j =>
      match i with Some v => oc_value v | None => [] end ++
      match j with Some v => oc_value v | None => [] end
  | GNone | GTerm _ => []
  end
with oc_member (e : gmember) {struct e} : list outline :=        (* 224-237 *)
  match e with GMember l r => oc_value l ++ flat_map oc_mterm r end
with oc_mul (e : gmul) {struct e} : list outline :=              (* 214-222 *)
  match e with GMul l r => oc_member l ++ flat_map (fun t => oc_value (snd t)) r end
with oc_add (e : gadd) {struct e} : list outline :=              (* 204-212 *)
  match e with GAdd l r => oc_mul l ++ flat_map (fun t => oc_mul (snd t)) r end
with oc_cond (e : gcond) {struct e} : list outline :=            (* 191-202 *)
  match e with
  | GNot c => oc_cond c
  | GCmp l r => oc_add l ++ match r with Some t => oc_add (snd t) | None => [] end
  end
with oc_or (e : gor) {struct e} : list outline :=                (* 181-189 *)
  match e with GOr l r => oc_cond l ++ flat_map (fun t => oc_cond (snd t)) r end
with oc_and (e : gand) {struct e} : list outline :=              (* 171-179, 266-268 *)
  match e with GAnd l r => oc_or l ++ flat_map (fun t => oc_or (snd t)) r end
with oc_comma (e : gcomma) {struct e} : list outline :=          (* 256-264 *)
  match e with
  | GComma l r => oc_and l ++ flat_map (fun t => match t with Some a => oc_and a | None => [] end) r
  end.

(** outlineSelect (98-121), outlineColumn (123-145) *)
Fixpoint outline_select (x : gselect) {struct x} : outline :=
  match x with
  | GSelect _ _ cols (GPlugin name _ _) _ _ _ _ => OQuery (dotted name) (map outline_col cols)
  end
with outline_col (x : gcol) {struct x} : outline :=
  match x with
  | GColSelect s _ => outline_select s
  | GStar a => OColumn a []
  | GColExpr e a => OColumn a (oc_and e)
  end.

(** Outline (71-96), outlineExpression (150-161) *)
Definition outline_vql (x : gvql) : outline :=
  match x with
  | GLet name _ _ _ body =>
      OLet name [match body with inl s => outline_select s | inr e => OQuery "" (oc_and e) end]
  | GQuery s => outline_select s
  end.

(** ** Call sites *)

(** CallSite (69-78): Type, Name, and the names of Args *)
Inductive skind : Type := KSymbol | KFunction | KPlugin.
Record site : Type := Site { s_kind : skind; s_name : string; s_args : list string }.

(** A visitor with CollectCallSites; BreakLines is off (33-35, 47-51). *)
Definition cvisit := list site -> list site.
Definition cskip : cvisit := fun v => v.
(** No counterpart in /repo: one visit after the other. *)
Definition cthen (f g : cvisit) : cvisit := fun v => g (f v).
(** The appends to CallSites of visitor.go:532-657 visitSymbolRef and
    visitor.go:880-995 visitPlugin. *)
Definition note (s : site) : cvisit := fun v => v ++ [s].
(** abTest (1230-1277) without BreakLines: the first choice, on a copy
    (168-181) whose CallSites are empty, then merged (157-166). *)
Definition ab (f : cvisit) : cvisit := fun v => v ++ f [].
(** No counterpart in /repo: a loop over nodes (visitor.go:275-381 Visit). *)
Definition ceach {A} (f : A -> cvisit) (l : list A) : cvisit :=
  fold_right (fun a g => cthen (f a) g) cskip l.
(** No counterpart in /repo: a node that may be nil (visitor.go:275-381
    Visit). *)
Definition cmaybe {A} (f : A -> cvisit) (o : option A) : cvisit :=
  match o with Some a => f a | None => cskip end.

(** The Args of visitor.go:532-657 visitSymbolRef. *)
Definition arg_names (l : list garg) : list string := map (fun a => unq (arg_name a)) l.

(** visitor.go:719-782 visitValue *)
Fixpoint cvalue (x : gvalue) {struct x} : cvisit :=
  match x with
  | GSym s called params =>                                (* 532-657 *)
      if negb called && match params with [] => true | _ => false end
      then note (Site KSymbol (dotted s) [])
      else cthen (if called then note (Site KFunction (dotted s) (arg_names params)) else cskip)
                 (match params with [] => cskip | _ => ab (ceach carg params) end)
  | GSub c => ccomma c
  | _ => cskip
  end
with cmterm (t : gmterm) {struct t} : cvisit :=            (* 798-826 *)
  match t with
  | GRange i j => cthen (cmaybe cvalue i) (cmaybe cvalue j)
  | GIndex i => cvalue i
  | GNone | GTerm _ => cskip
  end
with cmember (e : gmember) {struct e} : cvisit :=
  match e with GMember l r => cthen (cvalue l) (ceach cmterm r) end
with cmul (e : gmul) {struct e} : cvisit :=                (* 706-717 *)
  match e with GMul l r => cthen (cmember l) (ceach (fun t => cvalue (snd t)) r) end
with cadd (e : gadd) {struct e} : cvisit :=                (* 697-704 *)
  match e with GAdd l r => cthen (cmul l) (ceach (fun t => cmul (snd t)) r) end
with ccond (e : gcond) {struct e} : cvisit :=              (* 683-695 *)
  match e with
  | GNot c => ccond c
  | GCmp l r => cthen (cadd l) (cmaybe (fun t => cadd (snd t)) r)
  end
with cor (e : gor) {struct e} : cvisit :=                  (* 672-681 *)
  match e with GOr l r => cthen (ccond l) (ceach (fun t => ccond (snd t)) r) end
with cand (e : gand) {struct e} : cvisit :=                (* 659-670 *)
  match e with GAnd l r => cthen (cor l) (ceach (fun t => cor (snd t)) r) end
with ccomma (e : gcomma) {struct e} : cvisit :=            (* 784-796 *)
  match e with GComma l r => cthen (cand l) (ceach (cmaybe cand) r) end
with carg (x : garg) {struct x} : cvisit :=                (* 828-878 *)
  match x with
  | GArgExpr _ e => cand e
  | GArgSelect _ s => cselect s
  | GArgArray _ c => cmaybe ccomma c
  end
with cselect (x : gselect) {struct x} : cvisit :=          (* 1019-1090 *)
  match x with
  | GSelect _ _ cols from w g _ _ =>
      cthen (ab (ceach ccol cols)) (cthen (cplugin from) (cthen (cmaybe ccomma w) (cmaybe ccomma g)))
  end
with ccol (x : gcol) {struct x} : cvisit :=                (* 446-530 *)
  match x with
  | GStar _ => cskip
  | GColExpr e _ => ab (cand e)
  | GColSelect s _ => cselect s
  end
with cplugin (x : gplugin) {struct x} : cvisit :=          (* 880-995 *)
  match x with
  | GPlugin n true args =>
      cthen (note (Site KPlugin (dotted n) (arg_names args)))
            (match args with [] => cskip | _ => ab (ceach carg args) end)
  | GPlugin n false _ => note (Site KSymbol (dotted n) [])
  end.

(** visitVQL (1130-1227) *)
Definition cparam (ps : list gparam) (p : gparam) : cvisit :=
  match default_for ps (param_name p) with Some a => carg a | None => cskip end.
(** visitor.go:1130-1227 visitVQL *)
Definition cvql (x : gvql) : cvisit :=
  match x with
  | GLet _ _ ps _ body =>
      cthen (ceach (cparam ps) ps) (match body with inl s => cselect s | inr e => cand e end)
  | GQuery s => cselect s
  end.

(** NewVisitor(scope, CollectCallSites).Visit(vqls) and its CallSites.
    visitor.go:275-381 Visit *)
Definition call_sites (l : list gvql) : list site := ceach cvql l [].

(** ** Definition sites *)

(** DefinitionSite (95-104): Name, the names of Args, and the names in
    Defaults, which come out of a map in any order; here in the order they
    first occur. *)
Record defsite : Type := DefSite { d_name : string; d_args : list string; d_defaults : list string }.

(** No counterpart in /repo: a Go map has each key once. *)
Fixpoint once (l : list string) : list string :=
  match l with
  | [] => []
  | a :: r => a :: filter (fun b => negb (String.eqb a b)) (once r)
  end.
(** Part of visitor.go:1130-1227 visitVQL. *)
Definition default_names (ps : list gparam) : list string :=
  map unq (once (flat_map (fun p => match p with GDefault a => [unq (arg_name a)] | GName _ => [] end) ps)).
(** 1142-1191 *)
Definition definition_sites (l : list gvql) : list defsite :=
  flat_map (fun x => match x with
                     | GLet name _ ps _ _ => [DefSite name (map param_name ps) (default_names ps)]
                     | GQuery _ => []
                     end) l.
