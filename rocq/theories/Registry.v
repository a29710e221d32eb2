(** Registries: functions, plugins, protocol implementations and context
    values, and which scopes share them.  /repo/scope/scope.go,
    /repo/scope/dispatcher.go. *)

From Coq Require Import List Arith Bool String.
From Verif Require Import Scope.
Import ListNotations.

Section Registry.
  (** Functions, plugins, protocol implementations, context values. *)
  Context {F P I V : Type}.

  (** The maps functions and plugins of scope/dispatcher.go:21-56
      protocolDispatcher. *)
  Definition smap (A : Type) := string -> option A.
  (** Assignment to such a map. *)
  Definition sput {A} (m : smap A) (k : string) (v : A) : smap A :=
    fun n => if String.eqb n k then Some v else m n.
  (** An empty such map, scope/dispatcher.go:333-345 newprotocolDispatcher. *)
  Definition sempty {A} : smap A := fun _ => None.

  (** dispatcher.go:21-56; Go maps are references ([d_fun], [d_plug] name a
      map); the twelve protocol dispatchers are numbered and are values;
      stats, sorter, grouper, materializer, explainer and loggers are left
      out. *)
  Record disp : Type := {
    d_fun : nat;
    d_plug : nat;
    d_impl : nat -> list I;
    d_ctx : smap V
  }.

  (** All scopes with their dispatchers (scope/dispatcher.go:21-56
      protocolDispatcher) and the maps these share. *)
  Record reg : Type := {
    r_scopes : nat;             (* number of scopes *)
    r_sc : nat -> nat;          (* scope -> dispatcher *)
    r_disps : nat;
    r_disp : nat -> disp;
    r_maps : nat;
    r_fmap : nat -> smap F;
    r_pmap : nat -> smap P
  }.

  (** No counterpart in /repo: what a number stands for that names no
      dispatcher yet. *)
  Definition disp0 : disp := {| d_fun := 0; d_plug := 0; d_impl := fun _ => []; d_ctx := sempty |}.
  (** No counterpart in /repo: before the first scope. *)
  Definition reg0 : reg :=
    {| r_scopes := 0; r_sc := fun _ => 0; r_disps := 0; r_disp := fun _ => disp0;
       r_maps := 0; r_fmap := fun _ => sempty; r_pmap := fun _ => sempty |}.

  (** The field dispatcher of scope/scope.go:85-113 Scope. *)
  Definition disp_of (r : reg) (s : nat) : disp := r_disp r (r_sc r s).

  (** scope.go:572-594 NewScope with newprotocolDispatcher
      (dispatcher.go:333-345); the built in functions, plugins and protocol
      implementations are added by later operations. *)
  Definition root (r : reg) : reg :=
    {| r_scopes := S (r_scopes r); r_sc := upd (r_sc r) (r_scopes r) (r_disps r);
       r_disps := S (r_disps r);
       r_disp := upd (r_disp r) (r_disps r)
         {| d_fun := r_maps r; d_plug := r_maps r; d_impl := fun _ => []; d_ctx := sempty |};
       r_maps := S (r_maps r);
       r_fmap := upd (r_fmap r) (r_maps r) sempty;
       r_pmap := upd (r_pmap r) (r_maps r) sempty |}.

  (** scope.go:154-171 NewScope; dispatcher.go:169-206 Copy *)
  Definition new_from (r : reg) (s : nat) : reg :=
    let d := disp_of r s in
    {| r_scopes := S (r_scopes r); r_sc := upd (r_sc r) (r_scopes r) (r_disps r);
       r_disps := S (r_disps r);
       r_disp := upd (r_disp r) (r_disps r)
         {| d_fun := r_maps r; d_plug := r_maps r; d_impl := d_impl d; d_ctx := sempty |};
       r_maps := S (r_maps r);
       r_fmap := upd (r_fmap r) (r_maps r) (r_fmap r (d_fun d));
       r_pmap := upd (r_pmap r) (r_maps r) (r_pmap r (d_plug d)) |}.

  (** scope.go:343-363 Copy shares the dispatcher. *)
  Definition copy (r : reg) (s : nat) : reg :=
    {| r_scopes := S (r_scopes r); r_sc := upd (r_sc r) (r_scopes r) (r_sc r s);
       r_disps := r_disps r; r_disp := r_disp r; r_maps := r_maps r;
       r_fmap := r_fmap r; r_pmap := r_pmap r |}.

  (** scope.go:181-190 ClearContext; dispatcher.go:141-167 WithNewContext
      keeps the maps. *)
  Definition clear_context (r : reg) (s : nat) : reg :=
    let d := disp_of r s in
    {| r_scopes := r_scopes r; r_sc := upd (r_sc r) s (r_disps r);
       r_disps := S (r_disps r);
       r_disp := upd (r_disp r) (r_disps r)
         {| d_fun := d_fun d; d_plug := d_plug d; d_impl := d_impl d; d_ctx := sempty |};
       r_maps := r_maps r; r_fmap := r_fmap r; r_pmap := r_pmap r |}.

  (** dispatcher.go:220-230 AppendFunctions, 208-218 AppendPlugins *)
  Definition add_function (r : reg) (s : nat) (n : string) (f : F) : reg :=
    let m := d_fun (disp_of r s) in
    {| r_scopes := r_scopes r; r_sc := r_sc r; r_disps := r_disps r; r_disp := r_disp r;
       r_maps := r_maps r; r_fmap := upd (r_fmap r) m (sput (r_fmap r m) n f); r_pmap := r_pmap r |}.
  (** scope/dispatcher.go:208-218 AppendPlugins *)
  Definition add_plugin (r : reg) (s : nat) (n : string) (p : P) : reg :=
    let m := d_plug (disp_of r s) in
    {| r_scopes := r_scopes r; r_sc := r_sc r; r_disps := r_disps r; r_disp := r_disp r;
       r_maps := r_maps r; r_fmap := r_fmap r; r_pmap := upd (r_pmap r) m (sput (r_pmap r m) n p) |}.

  (** dispatcher.go:275-310 AddProtocolImpl; AddImpl (for example
      protocol_bool.go:78-82) makes a new slice with the implementation in
      front. *)
  Definition add_impl (r : reg) (s : nat) (k : nat) (i : I) : reg :=
    let d := disp_of r s in
    {| r_scopes := r_scopes r; r_sc := r_sc r; r_disps := r_disps r;
       r_disp := upd (r_disp r) (r_sc r s)
         {| d_fun := d_fun d; d_plug := d_plug d;
            d_impl := upd (d_impl d) k (i :: d_impl d k); d_ctx := d_ctx d |};
       r_maps := r_maps r; r_fmap := r_fmap r; r_pmap := r_pmap r |}.

  (** scope.go:192-197 SetContext, dispatcher.go:101-103 *)
  Definition set_context (r : reg) (s : nat) (n : string) (v : V) : reg :=
    let d := disp_of r s in
    {| r_scopes := r_scopes r; r_sc := r_sc r; r_disps := r_disps r;
       r_disp := upd (r_disp r) (r_sc r s)
         {| d_fun := d_fun d; d_plug := d_plug d; d_impl := d_impl d; d_ctx := sput (d_ctx d) n v |};
       r_maps := r_maps r; r_fmap := r_fmap r; r_pmap := r_pmap r |}.

  (** dispatcher.go:232-240, 105-112; the implementations a dispatcher tries,
      in order. *)
  Definition get_function (r : reg) (s : nat) (n : string) : option F := r_fmap r (d_fun (disp_of r s)) n.
  Definition get_plugin (r : reg) (s : nat) (n : string) : option P := r_pmap r (d_plug (disp_of r s)) n.
  (** scope/dispatcher.go:105-112 GetContext *)
  Definition get_context (r : reg) (s : nat) (n : string) : option V := d_ctx (disp_of r s) n.
  (** The implementations of one dispatcher of scope/dispatcher.go:21-56
      protocolDispatcher. *)
  Definition impls (r : reg) (s : nat) (k : nat) : list I := d_impl (disp_of r s) k.

  (** The calls a host makes: scope/scope.go:572-594 NewScope,
      scope/scope.go:343-384 Copy, scope/scope.go:408-411 AppendFunctions,
      scope/scope.go:415-418 AppendPlugins, scope/scope.go:389-392
      AddProtocolImpl, scope/scope.go:192-197 SetContext. *)
  Inductive rop : Type :=
  | RRoot
  | RNewScope (s : nat)
  | RCopy (s : nat)
  | RClear (s : nat)
  | RFun (s : nat) (n : string) (f : F)
  | RPlug (s : nat) (n : string) (p : P)
  | RImpl (s : nat) (k : nat) (i : I)
  | RCtx (s : nat) (n : string) (v : V).

  (** No counterpart in /repo: the scope a call is made on. *)
  Definition target (o : rop) : option nat :=
    match o with
    | RRoot => None
    | RNewScope s | RCopy s | RClear s | RFun s _ _ | RPlug s _ _ | RImpl s _ _ | RCtx s _ _ => Some s
    end.

  (** One call of [rop]. *)
  Definition rstep (r : reg) (o : rop) : reg :=
    if match target o with Some s => Nat.ltb s (r_scopes r) | None => true end then
      match o with
      | RRoot => root r
      | RNewScope s => new_from r s
      | RCopy s => copy r s
      | RClear s => clear_context r s
      | RFun s n f => add_function r s n f
      | RPlug s n p => add_plugin r s n p
      | RImpl s k i => add_impl r s k i
      | RCtx s n v => set_context r s n v
      end
    else r.

  (** No counterpart in /repo: a sequence of calls. *)
  Definition rrun (ops : list rop) : reg := fold_left rstep ops reg0.
End Registry.
Arguments reg : clear implicits.
Arguments rop : clear implicits.
