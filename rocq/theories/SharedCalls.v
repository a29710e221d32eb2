(** One aggregate of a query, called by several goroutines: foreach() with
    workers evaluates the same node of the query in all of them.
    /repo/vfilter.go:1964-2025 callFunction, /repo/aggregators/aggregators.go,
    /repo/functions/aggregates.go.

    Simplified: the arguments of a call are parsed before the call begins, so
    that a call is given by the value of its item; a call whose arguments do
    not parse never gets as far as Modify. *)

From Coq Require Import ZArith List String Bool.
From Verif Require Import Base Value Protocols Eval GroupSpec.
Import ListNotations.
Open Scope nat_scope.

(** What a call does to the value kept for it: functions/aggregates.go:114-142
    count, 168-195 sum, 221-243 min, 265-286 max, 312-337 enumerate; the
    function given to Modify. *)
Definition modifier (lt : val -> val -> bool) (a : agg) (item : val) (old : option val) : val :=
  match a with
  | Count => match old with
             | None => VInt KUint64 1
             | Some (VInt KUint64 n) => VInt KUint64 (wrapu64 (n + 1))
             | Some _ => VNull
             end
  | Sum => match item with
           | VInt KInt64 item =>
               match old with
               | None => vint (wrap64 (0 + item))
               | Some (VInt KInt64 n) => vint (wrap64 (n + item))
               | Some _ => VNull
               end
           | _ => VNull
           end
  | Min => match old with None => item | Some p => if lt item p then item else p end
  | Max => match old with None => item | Some p => if lt item p then p else item end
  | Enumerate => match old with
                 | None => VArr [item]
                 | Some (VArr l) => VArr (l ++ [item])
                 | Some _ => VNil
                 end
  end.

(** How far a call of the node has got; [ctx] names the AggregatorCtx of its
    scope. vfilter.go:1964-2025 callFunction *)
Inductive progress : Type :=
| Known (id : nat)                 (* it found the function of the node, line 1971 *)
| Missing                          (* it found none *)
| Copied (id : nat)                (* it made its own, line 2009 *)
| Finished (id : nat) (result : val).

(** A call in progress: vfilter.go:1964-2025 callFunction. *)
Record call : Type := { c_ctx : nat; c_item : val; c_at : progress }.

(** The field function of the node (vfilter.go:1015-1029 _SymbolRef), the
    values in every AggregatorCtx by the id of the function
    (aggregators/aggregators.go:9-12), the global id of
    functions/aggregates.go:54 and the calls made so far. *)
Record shared : Type := {
  node : option nat;
  slots : nat -> nat -> option val;
  next_id : nat;
  calls : list call
}.

(** The steps between which another goroutine may run. *)
Inductive event : Type :=
| Begin (ctx : nat) (item : val)   (* vfilter.go:1968-1971: reads the field under the lock *)
| Copy (i : nat)                   (* 2009: CopyFunction, atomic.AddUint64 *)
| Store (i : nat)                  (* 2011-2013: writes the field under the lock *)
| Apply (i : nat).                 (* 1997, 2018: the call, which is one Modify *)

(** No counterpart in /repo: the call number [i] has got further. *)
Definition moved (l : list call) (i : nat) (p : progress) : list call :=
  match nth_error l i with
  | Some c => firstn i l ++ {| c_ctx := c_ctx c; c_item := c_item c; c_at := p |} :: skipn (S i) l
  | None => l
  end.

Section Node.
  Variable f : val -> option val -> val.

  (** One step; one that the call cannot take now changes nothing.
      vfilter.go:1964-2025 callFunction, aggregators/aggregators.go:14-23
      Modify. *)
  Definition step (s : shared) (e : event) : shared :=
    match e with
    | Begin ctx item =>
        {| node := node s; slots := slots s; next_id := next_id s;
           calls := calls s ++ [{| c_ctx := ctx; c_item := item;
                                   c_at := match node s with Some id => Known id | None => Missing end |}] |}
    | Copy i =>
        match nth_error (calls s) i with
        | Some {| c_at := Missing |} =>
            {| node := node s; slots := slots s; next_id := S (next_id s);
               calls := moved (calls s) i (Copied (next_id s)) |}
        | _ => s
        end
    | Store i =>
        match nth_error (calls s) i with
        | Some {| c_at := Copied id |} =>
            {| node := Some id; slots := slots s; next_id := next_id s;
               calls := moved (calls s) i (Known id) |}
        | _ => s
        end
    | Apply i =>
        match nth_error (calls s) i with
        | Some {| c_ctx := ctx; c_item := item; c_at := Known id |} =>
            let new := f item (slots s ctx id) in
            {| node := node s;
               slots := fun c j => if Nat.eqb c ctx && Nat.eqb j id then Some new else slots s c j;
               next_id := next_id s;
               calls := moved (calls s) i (Finished id new) |}
        | _ => s
        end
    end.

  (** No counterpart in /repo: any schedule of the goroutines. *)
  Definition run (s : shared) (es : list event) : shared := fold_left step es s.
End Node.
