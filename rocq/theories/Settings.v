(** The settings of a scope: sorter, grouper, materializer, explainer, loggers,
    throttler, whether a scope is explained and its aggregator context.
    /repo/scope/scope.go, /repo/scope/dispatcher.go. *)

From Coq Require Import List Arith Bool.
From Verif Require Import Scope.
Import ListNotations.

(** The settings that scope/dispatcher.go:45-54 protocolDispatcher keeps. *)
Inductive setting : Type :=
  SSorter | SGrouper | SMaterializer | SExplainer | SLogger | STracer.

(** No counterpart in /repo: comparison of two settings. *)
Definition setting_eqb (a b : setting) : bool :=
  match a, b with
  | SSorter, SSorter | SGrouper, SGrouper | SMaterializer, SMaterializer
  | SExplainer, SExplainer | SLogger, SLogger | STracer, STracer => true
  | _, _ => false
  end.

(** An aggregator context (scope/aggregators.go:25-29 NewAggregatorCtx): one
    that the host passed, or the one made by a call, which is named by the
    number of that call. *)
Inductive actx (A : Type) : Type :=
| AGiven (a : A)
| AMade (call : nat).
Arguments AGiven {A} a.
Arguments AMade {A} call.

Section Settings.
  (** Values of settings, throttlers, aggregator contexts of the host. *)
  Context {V T A : Type}.

  (** What an unset setting is before the host sets one: the values in
      scope/dispatcher.go:333-345 newprotocolDispatcher, nil for the
      explainer and the loggers. *)
  Variable builtin : setting -> option V.

  (** The fields of scope/scope.go:85-113 Scope that are settings; the
      dispatcher is shared by reference. *)
  Record sscope : Type := {
    ss_disp : nat;
    ss_parent : option nat;
    ss_throttler : option T;
    ss_explain : bool;
    ss_agg : option (actx A)
  }.

  (** All scopes and dispatchers, and the number of calls so far. No
      counterpart in /repo. *)
  Record sworld : Type := {
    w_calls : nat;
    w_scopes : nat;
    w_sc : nat -> sscope;
    w_disps : nat;
    w_disp : nat -> setting -> option V
  }.

  (** No counterpart in /repo: a number that names no scope yet. *)
  Definition sscope0 : sscope :=
    {| ss_disp := 0; ss_parent := None; ss_throttler := None; ss_explain := false; ss_agg := None |}.
  (** No counterpart in /repo: before the first scope. *)
  Definition sworld0 : sworld :=
    {| w_calls := 0; w_scopes := 0; w_sc := fun _ => sscope0; w_disps := 0; w_disp := fun _ => builtin |}.

  (** The calls of the host: scope.go:572-594 NewScope, 154-171 Scope.NewScope,
      343-384 Copy, 181-190 ClearContext, 115-117 SetLogger, 145-147 SetTracer,
      600-614 SetSorter, SetGrouper, SetMaterializer and SetExplainer, 238-243
      SetThrottler, 616-621 EnableExplain, 119-128 SetAggregatorCtx. *)
  Inductive sop : Type :=
  | SRoot
  | SNewScope (s : nat)
  | SCopy (s : nat)
  | SClear (s : nat)
  | SSet (s : nat) (k : setting) (v : option V)
  | SThrottle (s : nat) (t : T)
  | SEnable (s : nat)
  | SAgg (s : nat) (a : option A).

  (** No counterpart in /repo: the scope a call is made on. *)
  Definition starget (o : sop) : option nat :=
    match o with
    | SRoot => None
    | SNewScope s | SCopy s | SClear s | SSet s _ _ | SThrottle s _ | SEnable s | SAgg s _ => Some s
    end.

  (** No counterpart in /repo: a scope is added. *)
  Definition add_scope (w : sworld) (c : sscope) : sworld :=
    {| w_calls := w_calls w; w_scopes := S (w_scopes w); w_sc := upd (w_sc w) (w_scopes w) c;
       w_disps := w_disps w; w_disp := w_disp w |}.
  (** No counterpart in /repo: a dispatcher is added. *)
  Definition add_disp (w : sworld) (d : setting -> option V) : sworld :=
    {| w_calls := w_calls w; w_scopes := w_scopes w; w_sc := w_sc w;
       w_disps := S (w_disps w); w_disp := upd (w_disp w) (w_disps w) d |}.
  (** No counterpart in /repo: a field of a scope is assigned. *)
  Definition put_scope (w : sworld) (s : nat) (c : sscope) : sworld :=
    {| w_calls := w_calls w; w_scopes := w_scopes w; w_sc := upd (w_sc w) s c;
       w_disps := w_disps w; w_disp := w_disp w |}.

  (** scope.go:572-594 NewScope, dispatcher.go:333-345 *)
  Definition s_root (w : sworld) : sworld :=
    add_scope (add_disp w builtin)
      {| ss_disp := w_disps w; ss_parent := None; ss_throttler := None; ss_explain := false;
         ss_agg := Some (AMade (w_calls w)) |}.

  (** scope.go:154-171 NewScope, dispatcher.go:169-206 Copy *)
  Definition s_new (w : sworld) (s : nat) : sworld :=
    let c := w_sc w s in
    add_scope (add_disp w (w_disp w (ss_disp c)))
      {| ss_disp := w_disps w; ss_parent := None; ss_throttler := ss_throttler c; ss_explain := false;
         ss_agg := Some (AMade (w_calls w)) |}.

  (** scope.go:343-384 Copy *)
  Definition s_copy (w : sworld) (s : nat) : sworld :=
    let c := w_sc w s in
    add_scope w
      {| ss_disp := ss_disp c; ss_parent := Some s; ss_throttler := ss_throttler c;
         ss_explain := ss_explain c; ss_agg := None |}.

  (** dispatcher.go:141-167 WithNewContext does not mention the explainer. *)
  Definition with_new_context (d : setting -> option V) : setting -> option V :=
    fun k => match k with SExplainer => None | _ => d k end.

  (** scope.go:181-190 ClearContext *)
  Definition s_clear (w : sworld) (s : nat) : sworld :=
    let c := w_sc w s in
    put_scope (add_disp w (with_new_context (w_disp w (ss_disp c)))) s
      {| ss_disp := w_disps w; ss_parent := ss_parent c; ss_throttler := ss_throttler c;
         ss_explain := ss_explain c; ss_agg := ss_agg c |}.

  (** scope.go:115-117, 145-147, 600-614; dispatcher.go:66-88 *)
  Definition s_set (w : sworld) (s : nat) (k : setting) (v : option V) : sworld :=
    let d := ss_disp (w_sc w s) in
    {| w_calls := w_calls w; w_scopes := w_scopes w; w_sc := w_sc w; w_disps := w_disps w;
       w_disp := upd (w_disp w) d (fun k' => if setting_eqb k' k then v else w_disp w d k') |}.

  (** scope.go:238-243 SetThrottler; the destructor it adds is part of the
      model in Scope.v. *)
  Definition s_throttle (w : sworld) (s : nat) (t : T) : sworld :=
    let c := w_sc w s in
    put_scope w s {| ss_disp := ss_disp c; ss_parent := ss_parent c; ss_throttler := Some t;
                     ss_explain := ss_explain c; ss_agg := ss_agg c |}.

  (** scope.go:616-621 EnableExplain *)
  Definition s_enable (w : sworld) (s : nat) : sworld :=
    let c := w_sc w s in
    put_scope w s {| ss_disp := ss_disp c; ss_parent := ss_parent c; ss_throttler := ss_throttler c;
                     ss_explain := true; ss_agg := ss_agg c |}.

  (** scope.go:119-128 SetAggregatorCtx: nil asks for a new context. *)
  Definition s_agg (w : sworld) (s : nat) (a : option A) : sworld :=
    let c := w_sc w s in
    put_scope w s {| ss_disp := ss_disp c; ss_parent := ss_parent c; ss_throttler := ss_throttler c;
                     ss_explain := ss_explain c;
                     ss_agg := Some (match a with Some x => AGiven x | None => AMade (w_calls w) end) |}.

  (** No counterpart in /repo: the calls are counted. *)
  Definition tick (w : sworld) : sworld :=
    {| w_calls := S (w_calls w); w_scopes := w_scopes w; w_sc := w_sc w;
       w_disps := w_disps w; w_disp := w_disp w |}.

  (** One call of [sop]; a call on a scope that does not exist is not made. *)
  Definition sstep (w : sworld) (o : sop) : sworld :=
    tick
      (if match starget o with Some s => Nat.ltb s (w_scopes w) | None => true end then
         match o with
         | SRoot => s_root w
         | SNewScope s => s_new w s
         | SCopy s => s_copy w s
         | SClear s => s_clear w s
         | SSet s k v => s_set w s k v
         | SThrottle s t => s_throttle w s t
         | SEnable s => s_enable w s
         | SAgg s a => s_agg w s a
         end
       else w).
  (** No counterpart in /repo: a sequence of calls. *)
  Definition srun (ops : list sop) : sworld := fold_left sstep ops sworld0.

  (** What is used when a scope sorts, groups, materialises or logs
      (scope.go:452-461 Sort and Group, 331-334 Materialize, dispatcher.go:254-270 Log and Trace). *)
  Definition get_setting (w : sworld) (s : nat) (k : setting) : option V :=
    w_disp w (ss_disp (w_sc w s)) k.

  (** scope.go:623-631 Explainer, dispatcher.go:90-99; None is NULL_EXPLAINER,
      which does nothing (scope/null_explainer.go:12-26). *)
  Definition explainer (w : sworld) (s : nat) : option V :=
    if ss_explain (w_sc w s) then get_setting w s SExplainer else None.

  (** scope.go:245-249 ChargeOp asks this throttler. *)
  Definition throttler (w : sworld) (s : nat) : option T := ss_throttler (w_sc w s).

  (** scope.go:131-143 GetAggregatorCtx; [n] bounds the parents. None is the
      case in which line 139 would make a context, or [n] was too small. *)
  Fixpoint find_agg (n : nat) (w : sworld) (s : nat) : option (actx A) :=
    match ss_agg (w_sc w s) with
    | Some c => Some c
    | None =>
        match n, ss_parent (w_sc w s) with
        | S n, Some p => find_agg n w p
        | _, _ => None
        end
    end.
  (** scope.go:131-143 GetAggregatorCtx; a scope has fewer ancestors than
      there are scopes. *)
  Definition get_agg (w : sworld) (s : nat) : option (actx A) := find_agg (w_scopes w) w s.
End Settings.
Arguments sop : clear implicits.
Arguments sworld : clear implicits.
Arguments sscope : clear implicits.
