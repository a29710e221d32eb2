(** Queries used as values: the readers of a query inside of an expression.

    A stored query that an expression asks for its truth, its n-th row, one of
    its columns or all of its rows is started, read by the goroutine that
    evaluates the expression, and left when the answer is known.  The readers
    differ in when they stop, in whether the query runs under the context of
    the caller, and in whether they cancel it when they return; the record
    [reader] holds these differences.  The query itself is a tree of goroutines
    (Pipeline.v).

    Simplified: what a reader computes for a row (the member of a row) is a
    function; the scope that is copied for the query and closed on return is
    not part of this model. *)

From Coq Require Import List Bool ZArith.
From Verif Require Import Pipeline.
Import ListNotations.

(** No counterpart in /repo: what a use of a query gives. *)
Inductive result (row : Type) : Type :=
| Truth (b : bool)
| One (r : row)
| Many (l : list row).
Arguments Truth {row} b.
Arguments One {row} r.
Arguments Many {row} l.

(** The loop over the channel of a query, e.g. types/stored_query.go:14-33
    Materialize. *)
Record reader (row : Type) : Type := Reader {
  rst : Type;
  r_init : rst;
  r_row : rst -> row -> rst + result row;   (* read on, or return *)
  r_end : rst -> result row;                (* when the channel is closed *)
  detached : bool;   (* runs the query under context.Background() *)
  cancels : bool     (* cancels the query on return *)
}.
Arguments rst {row}. Arguments r_init {row}. Arguments r_row {row}. Arguments r_end {row}.
Arguments detached {row}. Arguments cancels {row}.

Section Use.
Context {row : Type}.

(** The reader at its receive, or returned. As types/stored_query.go:14-33
    Materialize. *)
Inductive rpc (R : reader row) : Type :=
| Asking (s : rst R)
| Answered (v : result row).

(** A query and its reader. No counterpart in /repo. *)
Record use (R : reader row) : Type := Use { u_pc : rpc R; u_query : sys row }.
Arguments Asking {R}. Arguments Answered {R}. Arguments Use {R}. Arguments u_pc {R}. Arguments u_query {R}.

(** Is the context of the query cancelled? protocols/stored_query.go:23-24 for
    the readers with a context of their own. *)
Definition query_ctx {R : reader row} (c : bool) (p : rpc R) : bool :=
  (negb (detached R) && c) || (cancels R && match p with Answered _ => true | _ => false end).

(** No counterpart in /repo: where a reader is after a row. *)
Definition read {R : reader row} (o : rst R + result row) : rpc R :=
  match o with inl s => Asking s | inr v => Answered v end.

(** One step of the reader or of a goroutine of the query, while the context of
    the caller is ([c = true]) or is not cancelled. No reader selects on it.
    E.g. types/stored_query.go:22-30. *)
Inductive use_step {R : reader row} (c : bool) : use R -> use R -> Prop :=
| URow : forall s q r q',
    step (query_ctx c (Asking (R:=R) s)) q (Out r) q' ->
    use_step c (Use (Asking s) q) (Use (read (r_row R s r)) q')
| UEnd : forall s q, is_closed q = true -> use_step c (Use (Asking s) q) (Use (Answered (r_end R s)) q)
| UQuery : forall p q l q', step (query_ctx c p) q l q' -> (l = Tau \/ l = Shut) ->
    use_step c (Use p q) (Use p q').

(** Executions; the list is the state of the caller's context at each step. No
    counterpart in /repo: any schedule. *)
Inductive uses {R : reader row} : use R -> list bool -> use R -> Prop :=
| UNil : forall u, uses u [] u
| UCons : forall u c u' t u'', use_step c u u' -> uses u' t u'' -> uses u (c :: t) u''.

(** The query is started and read. E.g. protocols/stored_query.go:62-65. *)
Definition use_of (R : reader row) (q : query row) : use R := Use (Asking (r_init R)) (query_sys q).

(** protocols/stored_query.go:57-77 Bool: the first row or the end. *)
Definition truth_reader : reader row :=
  Reader row unit tt (fun _ _ => inr (Truth true)) (fun _ => Truth false) false false.

(** protocols/stored_query.go:17-48 Associative: [n] is the integer that is
    looked up, if it is one; [member] is the member of a row under the same
    name. *)
Definition index_reader (n : option Z) (member : row -> option row) : reader row :=
  Reader row (Z * list row) (0%Z, [])
    (fun s r =>
       let '(i, acc) := s in
       if match n with Some k => Z.eqb i k | None => false end then inr (One r)
       else inl ((i + 1)%Z, acc ++ match member r with Some x => [x] | None => [] end))
    (fun s => Many (snd s)) true true.

(** protocols/protocol_associative.go:69-78: the column of a query; [field] is
    the member of a row, NULL when it has none. *)
Definition column_reader (field : row -> row) : reader row :=
  Reader row (list row) [] (fun acc r => inl (acc ++ [field r])) Many true false.

(** types/stored_query.go:14-33 Materialize, functions/functions.go:276-289
    Materialize, and the subselect of vfilter.go:866-894 with [f r] in place of
    a row. *)
Definition list_reader (f : row -> list row) : reader row :=
  Reader row (list row) [] (fun acc r => inl (acc ++ f r)) Many false false.

(** protocols/stored_query.go:99-112 MaterializeToArray as Add calls it
    (protocols/stored_query.go:92-97, protocols/protocol_add.go:125-132). *)
Definition sum_reader : reader row :=
  Reader row (list row) [] (fun acc r => inl (acc ++ [r])) Many true false.

End Use.
Arguments Asking {row R}. Arguments Answered {row R}. Arguments Use {row R}.
Arguments u_pc {row R}. Arguments u_query {row R}.
