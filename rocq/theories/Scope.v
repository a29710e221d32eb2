(** Scopes: /repo/scope/scope.go.

    Scopes live in a heap and are named by number in creation order (the
    [id] of scope.go:112).  The variable stacks are Go slices: an array in a
    second heap plus a length, so that aliasing between scopes is visible.
    Locks are not modelled here: every operation is atomic (concurrent Close
    and AddDestructor are in CloseRace.v). *)

From Coq Require Import List Arith Bool Lia.
Import ListNotations.

(** No counterpart in /repo: update of the map from numbers to scopes. *)
Definition upd {A} (m : nat -> A) (k : nat) (v : A) : nat -> A :=
  fun i => if Nat.eqb i k then v else m i.

(** The values in the first cells of an array. The slice scope.vars
    (scope/scope.go:85-113 Scope). *)
Fixpoint somes {A} (l : list (option A)) : list A :=
  match l with
  | [] => []
  | Some x :: r => x :: somes r
  | None :: r => somes r
  end.

(** No counterpart in /repo: assignment to an element of a Go slice. *)
Fixpoint set_nth {A} (n : nat) (x : A) (l : list A) : list A :=
  match l, n with
  | [], _ => []
  | _ :: r, O => x :: r
  | y :: r, S k => y :: set_nth k x r
  end.

Section Scope.
  (** Rows of variables, and destructors. *)
  Context {row D : Type}.

  (** The capacity Go's append gives to an array that grows to the given
      length (runtime growslice); any function will do. *)
  Variable grow : nat -> nat.

  (** What a destructor does when run: the destructors it adds, with the
      scopes it adds them to. *)
  Variable beh : D -> list (nat * D).

  (** scope.go:85-113 (dispatcher, throttler and explainer left out) *)
  Record scope : Type := {
    s_arr : nat;                      (* vars: backing array *)
    s_len : nat;                      (* vars: length *)
    s_depth : nat;                    (* stack_depth *)
    s_children : list (option nat);   (* children; None is nil *)
    s_garbage : nat;                  (* children_grabage_count *)
    s_parent : option nat;
    s_destr : list D;                 (* destructors.fn *)
    s_destroyed : bool                (* destructors.is_destroyed *)
  }.

  (** All scopes (scope/scope.go:85-113 Scope) and the arrays of their slices.
      *)
  Record heap : Type := {
    h_next : nat;
    h_sc : nat -> scope;
    h_anext : nat;
    h_ar : nat -> list (option row)
  }.

  (** No counterpart in /repo: what a number stands for that names no scope
      yet. *)
  Definition dead_scope : scope :=
    {| s_arr := 0; s_len := 0; s_depth := 0; s_children := []; s_garbage := 0;
       s_parent := None; s_destr := []; s_destroyed := true |}.

  (** No counterpart in /repo: before the first call of scope/scope.go:572-594
      NewScope. *)
  Definition empty_heap : heap :=
    {| h_next := 0; h_sc := fun _ => dead_scope; h_anext := 0; h_ar := fun _ => [] |}.

  (** The rows of a scope's vars slice, oldest first. The field vars of
      scope/scope.go:85-113 Scope. *)
  Definition vars (h : heap) (s : nat) : list row :=
    somes (firstn (s_len (h_sc h s)) (h_ar h (s_arr (h_sc h s)))).

  (** Assignment to the field children of scope/scope.go:85-113 Scope. *)
  Definition set_children (sc : scope) (c : list (option nat)) (g : nat) : scope :=
    {| s_arr := s_arr sc; s_len := s_len sc; s_depth := s_depth sc;
       s_children := c; s_garbage := g; s_parent := s_parent sc;
       s_destr := s_destr sc; s_destroyed := s_destroyed sc |}.

  (** Assignment to the list of destructors, scope/scope.go:52-57
      AddDestructor. *)
  Definition set_destr (sc : scope) (ds : list D) : scope :=
    {| s_arr := s_arr sc; s_len := s_len sc; s_depth := s_depth sc;
       s_children := s_children sc; s_garbage := s_garbage sc; s_parent := s_parent sc;
       s_destr := ds; s_destroyed := s_destroyed sc |}.

  (** scope/scope.go:38-43 SetDestroyed *)
  Definition set_destroyed (sc : scope) : scope :=
    {| s_arr := s_arr sc; s_len := s_len sc; s_depth := s_depth sc;
       s_children := s_children sc; s_garbage := s_garbage sc; s_parent := s_parent sc;
       s_destr := s_destr sc; s_destroyed := true |}.

  (** Assignment to the field vars of scope/scope.go:85-113 Scope. *)
  Definition set_vars (sc : scope) (arr len : nat) : scope :=
    {| s_arr := arr; s_len := len; s_depth := s_depth sc;
       s_children := s_children sc; s_garbage := s_garbage sc; s_parent := s_parent sc;
       s_destr := s_destr sc; s_destroyed := s_destroyed sc |}.

  (** No counterpart in /repo: assignment to a scope. *)
  Definition with_sc (h : heap) (s : nat) (sc : scope) : heap :=
    {| h_next := h_next h; h_sc := upd (h_sc h) s sc; h_anext := h_anext h; h_ar := h_ar h |}.

  (** scope.go:154-171 and 572-594 NewScope: a root scope whose variables
      are the single row given. *)
  Definition new_scope (h : heap) (r : row) : heap :=
    {| h_next := S (h_next h);
       h_sc := upd (h_sc h) (h_next h)
         {| s_arr := h_anext h; s_len := 1; s_depth := 0; s_children := [];
            s_garbage := 0; s_parent := None; s_destr := []; s_destroyed := false |};
       h_anext := S (h_anext h);
       h_ar := upd (h_ar h) (h_anext h) [Some r] |}.

  (** The test for nil children of scope/scope.go:492-566 Close. *)
  Definition is_live (c : option nat) : bool :=
    match c with Some _ => true | None => false end.

  (** scope.go:343-384 Copy *)
  Definition copy_scope (h : heap) (s : nat) : heap :=
    if Nat.ltb s (h_next h) then
      let sc := h_sc h s in
      let child :=
        {| s_arr := h_anext h; s_len := s_len sc; s_depth := S (s_depth sc);
           s_children := []; s_garbage := 0; s_parent := Some s;
           s_destr := []; s_destroyed := false |} in
      let compact := Nat.ltb 10 (s_garbage sc) in               (* 365-374 *)
      let cs := if compact then filter is_live (s_children sc) else s_children sc in
      let g := if compact then 0 else s_garbage sc in
      {| h_next := S (h_next h);
         h_sc := upd (upd (h_sc h) s (set_children sc (cs ++ [Some (h_next h)]) g))
                     (h_next h) child;
         h_anext := S (h_anext h);
         h_ar := upd (h_ar h) (h_anext h)
                     (firstn (s_len sc) (h_ar h (s_arr sc))) |} (* 350-351 *)
    else h.

  (** scope.go:395-404 AppendVars: Go's append writes in place when there is
      room, and otherwise moves the slice to a larger array. *)
  Definition append_vars (h : heap) (s : nat) (r : row) : heap :=
    if Nat.ltb s (h_next h) then
      let sc := h_sc h s in
      let arr := h_ar h (s_arr sc) in
      if Nat.ltb (s_len sc) (length arr) then
        {| h_next := h_next h;
           h_sc := upd (h_sc h) s (set_vars sc (s_arr sc) (S (s_len sc)));
           h_anext := h_anext h;
           h_ar := upd (h_ar h) (s_arr sc) (set_nth (s_len sc) (Some r) arr) |}
      else
        {| h_next := h_next h;
           h_sc := upd (h_sc h) s (set_vars sc (h_anext h) (S (s_len sc)));
           h_anext := S (h_anext h);
           h_ar := upd (h_ar h) (h_anext h)
                       (firstn (s_len sc) arr ++ [Some r]
                        ++ repeat None (grow (S (s_len sc)) - S (s_len sc))) |}
    else h.

  (** scope.go:465-480 AddDestructor; the result says whether it was
      accepted. *)
  Definition add_destructor (h : heap) (s : nat) (d : D) : heap * bool :=
    let sc := h_sc h s in
    if s_destroyed sc then (h, false)
    else (with_sc h s (set_destr sc (s_destr sc ++ [d])), true).

  (** Several calls of scope/scope.go:465-480 AddDestructor. *)
  Fixpoint add_all (h : heap) (l : list (nat * D)) : heap :=
    match l with
    | [] => h
    | (s, d) :: r => add_all (fst (add_destructor h s d)) r
    end.

  (** scope.go:516-528: clear this scope's entry in its parent's list. *)
  Fixpoint clear_child (s : nat) (l : list (option nat)) : list (option nat) * nat :=
    match l with
    | [] => ([], 0)
    | c :: r =>
        let (r', n) := clear_child s r in
        match c with
        | Some x => if Nat.eqb x s then (None :: r', S n) else (Some x :: r', n)
        | None => (None :: r', n)
        end
    end.

  (** Part of scope/scope.go:492-566 Close. *)
  Definition detach (h : heap) (s : nat) : heap :=
    match s_parent (h_sc h s) with
    | None => h
    | Some p =>
        let sc := h_sc h p in
        let (cs, n) := clear_child s (s_children sc) in
        with_sc h p (set_children sc cs (s_garbage sc + n))
    end.

  (** The destructors run, in order, with the scope they belong to. What
      scope/scope.go:492-566 Close calls. *)
  Definition trace := list (nat * D).

  (** scope.go:551-564: run a batch of removed destructors, last first ([ds]
      is already reversed).  The wait of at most 60 seconds for each is not
      modelled. *)
  Fixpoint run_batch (h : heap) (s : nat) (ds : list D) : heap * trace :=
    match ds with
    | [] => (h, [])
    | d :: r =>
        let (h', t) := run_batch (add_all h (beh d)) s r in
        (h', (s, d) :: t)
    end.

  (** scope.go:543-565 *)
  Fixpoint run_rounds (tries : nat) (h : heap) (s : nat) : heap * trace :=
    match tries with
    | O => (h, [])
    | S k =>
        let sc := h_sc h s in
        match s_destr sc with
        | [] => (h, [])
        | ds =>
            let (h1, t1) := run_batch (with_sc h s (set_destr sc [])) s (rev ds) in
            let (h2, t2) := run_rounds k h1 s in
            (h2, t1 ++ t2)
        end
    end.

  (** scope.go:492-566 Close.  [fuel] bounds the nesting of scopes; the
      number of scopes is enough. *)
  Fixpoint close_scope (fuel : nat) (h : heap) (s : nat) : heap * trace :=
    match fuel with
    | O => (h, [])
    | S f =>
        let close_children :=
          fix go (l : list (option nat)) (h : heap) : heap * trace :=
            match l with
            | [] => (h, [])
            | None :: r => go r h
            | Some c :: r =>
                let (h1, t1) := close_scope f h c in
                let (h2, t2) := go r h1 in
                (h2, t1 ++ t2)
            end in
        let (h1, t1) := close_children (s_children (h_sc h s)) h in
        let h2 := detach h1 s in
        let (h3, t3) := run_rounds 10 h2 s in
        (with_sc h3 s (set_destroyed (h_sc h3 s)), t1 ++ t3)
    end.

  (** scope/scope.go:492-566 Close *)
  Definition close (h : heap) (s : nat) : heap * trace :=
    if Nat.ltb s (h_next h) then close_scope (h_next h) h s else (h, []).

  (** ** Histories *)

  (** The calls a host makes: scope/scope.go:572-594 NewScope,
      scope/scope.go:343-384 Copy, scope/scope.go:395-404 AppendVars,
      scope/scope.go:465-480 AddDestructor, scope/scope.go:492-566 Close. *)
  Inductive op : Type :=
  | ONew (r : row)
  | OCopy (s : nat)
  | OAppend (s : nat) (r : row)
  | OAddDestr (s : nat) (d : D)
  | OClose (s : nat).

  (** One call of [op]. *)
  Definition step (h : heap) (o : op) : heap * trace :=
    match o with
    | ONew r => (new_scope h r, [])
    | OCopy s => (copy_scope h s, [])
    | OAppend s r => (append_vars h s r, [])
    | OAddDestr s d => if Nat.ltb s (h_next h) then (fst (add_destructor h s d), []) else (h, [])
    | OClose s => close h s
    end.

  (** No counterpart in /repo: a sequence of calls. *)
  Fixpoint run_from (h : heap) (ops : list op) : heap :=
    match ops with
    | [] => h
    | o :: r => run_from (fst (step h o)) r
    end.
  (** No counterpart in /repo: a sequence of calls on no scopes. *)
  Definition run (ops : list op) : heap := run_from empty_heap ops.

  (** ** Resolution *)

  (** scope.Associative on a row: the element and whether it is present; a
      row that does not have the name may still offer an element, its
      default value. *)
  Context {value : Type}.
  Variable lookup : row -> option value * bool.

  (** scope.go:648-680 _ResolveVars; [rows] innermost first.  A Go nil
      element that is present is returned as NULL. *)
  Variable null : value.

  (** scope/scope.go:648-680 _ResolveVars *)
  Fixpoint resolve_rows (default_value : option value) (rows : list row) : option value :=
    match rows with
    | [] => default_value
    | r :: rest =>
        let (element, pres) := lookup r in
        if pres then Some (match element with Some v => v | None => null end)
        else resolve_rows (match element, default_value with
                           | Some v, None => Some v
                           | _, d => d
                           end) rest
    end.

  (** scope.go:634-646 Resolve with CheckForOverflow (251-265) *)
  Definition resolve (h : heap) (s : nat) : option value :=
    if Nat.leb 1000 (s_depth (h_sc h s)) then None
    else resolve_rows None (rev (vars h s)).
End Scope.
Arguments scope : clear implicits.
Arguments heap : clear implicits.
Arguments op : clear implicits.
