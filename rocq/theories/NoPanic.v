(** When an evaluation cannot panic: what is asked of the host, of the
    program and of the state.  A panic of the evaluation is a panic of a
    goroutine of the library, which the host cannot recover from. *)

From Coq Require Import ZArith List String Bool.
From Verif Require Import Base F64 Value Protocols Monad Chains Range Flatten ArgParser Syntax Eval.
Import ListNotations.
Open Scope string_scope.
Open Scope list_scope.

(** ** Values *)

(** Go's nil does not occur in the value (NULL, types.Null, may).  No
    counterpart in /repo. *)
Fixpoint nonil (v : val) : bool :=
  match v with
  | VNil => false
  | VArr l | VQuery l => forallb nonil l
  | VDict d => forallb (fun kv => nonil (snd kv)) d
  | _ => true
  end.

(** The same for lists and dicts.  No counterpart in /repo. *)
Definition nonils (l : list val) : bool := forallb nonil l.
Definition nonild (d : list (string * val)) : bool := forallb (fun kv => nonil (snd kv)) d.

(** What a lookup gives: a value, or nothing. *)
Definition found (r : val * bool) : Prop := nonil (fst r) = true \/ (fst r = VNil /\ snd r = false).

(** A key of a lookup. *)
Definition ok_key (k : akey) : bool := match k with KVal v => nonil v | KRange _ _ => true end.

(** ** The host *)

(** A function of the host that does not panic and, as long as the library
    hands it no nil, hands none to the library. *)
Fixpoint calm_prog {A} (P : A -> Prop) (p : prog A) : Prop :=
  match p with
  | PRet a => P a
  | PPanic => False
  | PReduce v k => nonil v = true /\ forall x, nonil x = true -> calm_prog P (k x)
  | PReduceWS v k => nonil v = true /\ forall x, nonil x = true -> calm_prog P (k x)
  | PTruth v k => nonil v = true /\ forall b, calm_prog P (k b)
  | PIterate v k => nonil v = true /\ forall l, nonils l = true -> calm_prog P (k l)
  | PObserve v k => calm_prog P k
  end.

(** Functions and plugins.  functions/builtin.go, plugins/builtins.go: the built-in ones need no condition. *)
Definition calm_func (f : func) : Prop :=
  match f with
  | FHost h => forall args, nonild args = true -> calm_prog (fun v => nonil v = true) (h args)
  | _ => True
  end.
Definition calm_plug (p : plug) : Prop :=
  match p with
  | PlHost h => forall args, nonild args = true -> calm_prog (fun l => nonils l = true) (h args)
  | _ => True
  end.

(** Operators registered by the host. *)
Definition calm_ops (l : list (impl2 val)) : Prop :=
  forall i a b v, In i l -> nonil a = true -> nonil b = true -> i a b = Some v -> nonil v = true.

(** A number, or what stands for one. *)
Definition num_val (v : val) : bool :=
  match v with VNull | VBool _ | VInt _ _ | VF64 _ => true | _ => false end.

(** Of a number they make a number. *)
Definition num_ops (l : list (impl2 val)) : Prop :=
  forall i a b v, In i l -> num_val a = true -> nonil b = true -> i a b = Some v -> num_val v = true.

(** The functions, plugins and protocols of the host do not panic and hand no
    nil to the library; its sort returns rows it was given. *)
Record harmless (E : env) : Prop := {
  hl_funs : forall c f, assoc c (env_funs E) = Some f -> calm_func f;
  hl_plugs : forall c p, assoc c (env_plugs E) = Some p -> calm_plug p;
  hl_add : calm_ops (p_add (env_protos E));
  hl_sub : calm_ops (p_sub (env_protos E));
  hl_mul : calm_ops (p_mul (env_protos E));
  hl_div : calm_ops (p_div (env_protos E));
  hl_mul_num : num_ops (p_mul (env_protos E));
  hl_div_num : num_ops (p_div (env_protos E));
  hl_assoc : forall i a k r, In i (p_assoc (env_protos E)) -> nonil a = true -> ok_key k = true ->
    i a k = Some r -> found r;
  hl_iter : forall i a l, In i (env_iter E) -> a = VNil \/ nonil a = true -> i a = Some l -> nonils l = true;
  hl_sort : forall less l x, In x (env_sort E less l) -> In x l
}.

(** ** Programs *)

Section Programs.
  Variable E : env.
  (** the call sites of enumerate *)
  Variable sites : nat -> bool.

  (** An expression that gives a number, a bool or NULL: a literal number, a
      comparison, NOT, and what begins with one of these and goes on with
      factors.  vfilter.go:1648-1660, 1614-1627 *)
  Fixpoint number (e : expr) : bool :=
    match e with
    | ELit (VInt KInt64 _) | ELit (VF64 _) | ENot _ | ECmp _ _ _ => true
    | EMul l _ => number l
    | _ => false
    end.

  (** What a program must not contain: a literal nil (the parser makes none),
      a star with a name other than "*", a multiplication that
      does not begin with a number, and calls of enumerate without an
      argument or with its arguments in a dict. *)
  Fixpoint calm (e : expr) : bool :=
    match e with
    | ELit v => nonil v
    | ESym node _ path called params =>
        forallb (fun p => calm_arg (snd p)) params &&
        (if sites node then mem_str "items" (keys params) && negb (mem_str "**" (keys params))
         else match path with
              | [c] => negb called || match assoc c (env_funs E) with Some FEnumerate => false | _ => true end
              | _ => true
              end)
    | EComma l rs => calm l && forallb (fun o => match o with Some x => calm x | None => true end) rs
    | EAnd l rs | EOr l rs | EAdd l rs => calm l && forallb (fun r => calm (snd r)) rs
    | EMul l rs =>
        calm l && forallb (fun r => calm (snd r)) rs &&
        (forallb (fun r => negb (String.eqb (fst r) "*")) rs ||
         number l)
    | ENot x => calm x
    | ECmp l _ r => calm l && calm r
    | EMember l ts => calm l && forallb calm_term ts
    end
  with calm_arg (a : argval) : bool :=
    match a with
    | AExpr e | AArray e => calm e
    | ASelect s => calm_select s
    | AEmpty => true
    end
  with calm_term (t : mterm) : bool :=
    match t with
    | MIndex e => calm e
    | MRange a b => match a with Some e => calm e | None => true end &&
                    match b with Some e => calm e | None => true end
    | MField _ => true
    end
  with calm_select (s : select) : bool :=
    match s with
    | Select _ cols from w g _ _ =>
        forallb (fun c => calm_col (snd c) && match snd c with CStar => String.eqb (fst c) "*" | _ => true end) cols &&
        calm_from from &&
        match w with Some e => calm e | None => true end &&
        match g with Some e => calm e | None => true end
    end
  with calm_col (b : colbody) : bool :=
    match b with
    | CStar => true
    | CSelect s => calm_select s
    | CExpr e => calm e
    end
  with calm_from (p : plugin) : bool :=
    match p with Plugin _ _ args => forallb (fun a => calm_arg (snd a)) args end.

  (** Statements: LET with its default values, and queries. *)
  Definition calm_stmt (q : stmt) : bool :=
    match q with
    | SLet _ params _ body =>
        forallb (fun p => match snd p with Some a => calm_arg a | None => true end) params &&
        match body with LExpr e => calm e | LSelect s => calm_select s end
    | SQuery _ s => calm_select s
    end.

  (** ** The state *)

  Definition ok_scope (sc : scope) : bool := nonils (sc_vars sc).

  (** Default values of parameters. *)
  Definition ok_defaults (d : list (string * (string * argval))) : bool :=
    forallb (fun p => calm_arg (snd (snd p))) d.

  (** The ways in which a lazy row computes a column (lazy.go:22-44). *)
  Definition ok_getter (g : getter) : bool :=
    match g with
    | GConst v => nonil v
    | GCol CStar _ => false
    | GCol b sc => calm_col b && ok_scope sc
    end.

  (** What the library keeps in memory, see obj in Eval.v. *)
  Definition ok_obj (o : obj) : Prop :=
    match o with
    | OQuery d => calm_select (q_select d) = true /\ ok_defaults (q_defaults d) = true
    | OSelect s => calm_select s = true
    | OExprDef d => calm (e_expr d) = true /\ ok_defaults (e_defaults d) = true
    | OCallSite q sc => nonil q = true /\ ok_scope sc = true
    | OWrapper v | OLazyQuery v | OLazyVal v => nonil v = true
    | OLazy e sc c => calm e = true /\ ok_scope sc = true /\ (forall v, c = Some v -> nonil v = true)
    | ORow cs gs ca =>
        (forall c, In c cs -> assoc c gs <> None) /\
        (forall c g, assoc c gs = Some g -> ok_getter g = true) /\
        nonild ca = true
    | OScope sc => ok_scope sc = true
    | OHost => True
    end.

  (** Every object, every aggregate and every function object kept by the
      library is like that. *)
  Record ok_state (s : st) : Prop := {
    os_heap : forall n o, nth_error (heap s) n = Some o -> ok_obj o;
    os_ctxs : forall d id v, In d (ctxs s) -> nassoc id d = Some v -> v = VNil \/ nonil v = true;
    os_funs : forall n f id, nassoc n (node_funs s) = Some (f, id) ->
      calm_func f /\ (f = FEnumerate -> sites n = true)
  }.

  (** The computation does not panic; if it ends, it gives such a result in
      such a state. *)
  Definition safe {A} (P : A -> Prop) (m : EM A) : Prop := forall s, ok_state s ->
    match m s with
    | (s', RVal a) => ok_state s' /\ P a
    | (_, RPanic) => False
    | (_, RFuel) => True
    end.
End Programs.
