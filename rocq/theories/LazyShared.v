(** One column of a lazy row, or one argument passed lazily, read by several
    goroutines: the workers of foreach() share the rows and the arguments of
    the scopes around them.  /repo/lazy.go. *)

From Coq Require Import List Bool.
From Verif Require Import Value.
Import ListNotations.
Open Scope nat_scope.

(** What is read. lazy.go:60-76 LazyRowImpl.Get, lazy.go:172-178
    LazyExprImpl.Reduce. *)
Inductive lazy_kind : Type := Column | Argument.

(** How far a read has got. lazy.go:60-76, 172-178 *)
Inductive reading : Type :=
| Missed                     (* it found no value, lines 61-64 and 173 *)
| Computed (v : val)         (* it evaluated the expression, lines 72 and 176 *)
| Saved                      (* an argument: the value is written, line 176 *)
| Returned (v : val).

(** The cached value (lazy.go:32 cache for one column, lazy.go:128 Value), how
    many times the expression was evaluated, and the reads. *)
Record lazy_state : Type := {
  cached : option val;
  evaluations : nat;
  reads : list reading
}.

(** The steps between which another goroutine may run.  Simplified: the reads
    and writes of the Go variable Value are atomic. lazy.go:60-76, 172-178 *)
Inductive lazy_event : Type :=
| Look                       (* a read begins: lines 61-64, 173-175 *)
| Evaluate (i : nat)         (* lines 72, 176 *)
| Save (i : nat)             (* lines 73-75, 176 *)
| Reread (i : nat).          (* line 177 *)

(** No counterpart in /repo: the read number [i] has got further. *)
Definition moved_to (l : list reading) (i : nat) (p : reading) : list reading :=
  match nth_error l i with
  | Some _ => firstn i l ++ p :: skipn (S i) l
  | None => l
  end.

(** The test of lazy.go:173 fails for nil; a column that is nil is cached
    (lazy.go:61-64). *)
Definition found (k : lazy_kind) (c : option val) : option val :=
  match k, c with
  | Argument, Some VNil => None
  | _, c => c
  end.

Section Lazy.
  Variable k : lazy_kind.
  (** What the evaluation number [n] yields. *)
  Variable result : nat -> val.

  (** One step; one that the read cannot take now changes nothing.
      lazy.go:60-76, 172-178 *)
  Definition lazy_step (s : lazy_state) (e : lazy_event) : lazy_state :=
    match e with
    | Look =>
        {| cached := cached s; evaluations := evaluations s;
           reads := reads s ++ [match found k (cached s) with Some v => Returned v | None => Missed end] |}
    | Evaluate i =>
        match nth_error (reads s) i with
        | Some Missed =>
            {| cached := cached s; evaluations := S (evaluations s);
               reads := moved_to (reads s) i (Computed (result (evaluations s))) |}
        | _ => s
        end
    | Save i =>
        match nth_error (reads s) i with
        | Some (Computed v) =>
            {| cached := Some v; evaluations := evaluations s;
               reads := moved_to (reads s) i (match k with Column => Returned v | Argument => Saved end) |}
        | _ => s
        end
    | Reread i =>
        match nth_error (reads s) i with
        | Some Saved =>
            {| cached := cached s; evaluations := evaluations s;
               reads := moved_to (reads s) i
                          (Returned match cached s with Some v => v | None => VNil end) |}
        | _ => s
        end
    end.

  (** No counterpart in /repo: any schedule of the goroutines. *)
  Definition lazy_run (s : lazy_state) (es : list lazy_event) : lazy_state := fold_left lazy_step es s.
End Lazy.

(** A new row or a new argument. lazy.go:82-90 NewLazyRow, lazy.go:134-141
    NewLazyExpr *)
Definition lazy_start : lazy_state := {| cached := None; evaluations := 0; reads := [] |}.
