(** foreach(row=..., query=..., workers=N): /repo/plugins/foreach.go.

    The producer goroutine (lines 27-96), its worker pool (114-187) and the
    reader of the output channel, as a transition system. Rows carry the
    position they have in the input, so that outputs can be attributed.

    Simplified: the input channel and the channel of each subquery always have
    their next row (or their end) available when asked; how they produce it is
    Pipeline.v. [f r] is the list of rows of the subquery for the input row [r].
    After cancellation a channel may also end early; for a worker this is the
    same step as seeing ctx.Done(), for the producer too. *)

From Coq Require Import List Bool ZArith.
From Verif Require Import Pipeline.
Import ListNotations.

Section Foreach.
Context {row out : Type}.
Variable f : row -> list out.

(** The producer: at its [select] (line 56), in RunScope (121-123), in
    pool.Close with the pool channel closed (125-128), returned with the
    output channel closed. *)
Inductive producer :=
| PRead (rs : list (nat * row))
| PHand (i : nat) (r : row) (rs : list (nat * row))
| PWait
| PDone.

(** A worker: at its [select] (157-164), in runQuery at the outer [select]
    (137-144), at the inner one (145-149), returned. *)
Inductive worker :=
| WIdle
| WRun (i : nat) (l : list out)
| WSend (i : nat) (x : out) (l : list out)
| WExit.

(** plugins/foreach.go:22-99 Call with its plugins/foreach.go:173-187
    newWorkerPool. *)
Record state := State { prod : producer; pool : list worker }.

(** No counterpart in /repo: what is seen of a step. *)
Inductive event := Internal | Handed (i : nat) | Emit (i : nat) (x : out) | Close.

(** Has the producer closed the pool channel? plugins/foreach.go:125-128 Close
    *)
Definition ch_closed (p : producer) : bool := match p with PWait | PDone => true | _ => false end.

(** One step of the producer (plugins/foreach.go:22-99 Call) or of a worker
    (plugins/foreach.go:154-171 worker, plugins/foreach.go:130-152 runQuery).
    *)
Inductive fstep : bool -> state -> event -> state -> Prop :=
(* the producer *)
| FRecv : forall c i r rs ws, fstep c (State (PRead ((i, r) :: rs)) ws) Internal (State (PHand i r rs) ws)
| FEof : forall c ws, fstep c (State (PRead []) ws) Internal (State PWait ws)
| FCancel : forall rs ws, fstep true (State (PRead rs) ws) Internal (State PWait ws)
| FHand : forall c i r rs a b,
    fstep c (State (PHand i r rs) (a ++ WIdle :: b)) (Handed i) (State (PRead rs) (a ++ WRun i (f r) :: b))
| FDone : forall c ws, Forall (fun w => w = WExit) ws -> fstep c (State PWait ws) Close (State PDone ws)
(* a worker *)
| WEnd : forall c p a b, ch_closed p = true ->
    fstep c (State p (a ++ WIdle :: b)) Internal (State p (a ++ WExit :: b))
| WCancelIdle : forall p a b, fstep true (State p (a ++ WIdle :: b)) Internal (State p (a ++ WExit :: b))
| WNext : forall c p a i x l b,
    fstep c (State p (a ++ WRun i (x :: l) :: b)) Internal (State p (a ++ WSend i x l :: b))
| WFinished : forall c p a i b, fstep c (State p (a ++ WRun i [] :: b)) Internal (State p (a ++ WIdle :: b))
| WCancelRun : forall p a i l b, fstep true (State p (a ++ WRun i l :: b)) Internal (State p (a ++ WIdle :: b))
| WEmit : forall c p a i x l b,
    fstep c (State p (a ++ WSend i x l :: b)) (Emit i x) (State p (a ++ WRun i l :: b))
| WCancelSend : forall p a i x l b, fstep true (State p (a ++ WSend i x l :: b)) Internal (State p (a ++ WIdle :: b)).

(** No counterpart in /repo: any schedule. *)
Inductive fexec : state -> list (bool * event) -> state -> Prop :=
| FNil : forall s, fexec s [] s
| FCons : forall s c e s' t s'', fstep c s e s' -> fexec s' t s'' -> fexec s ((c, e) :: t) s''.

(** Lines 41-44 and 181-184: no workers argument means one, [async] a hundred;
    the loop starts none for a negative number. *)
Definition worker_count (async : bool) (workers : Z) : nat :=
  Z.to_nat (if (workers =? 0)%Z then (if async then 100 else 1)%Z else workers).

(** The start of plugins/foreach.go:22-99 Call. *)
Definition foreach_init (n : nat) (rows : list row) : state :=
  State (PRead (combine (seq 0 (length rows)) rows)) (repeat WIdle n).

End Foreach.
Arguments producer : clear implicits.
Arguments worker : clear implicits.
Arguments state : clear implicits.
Arguments event : clear implicits.

(** Without a query the producer relays the rows, or one column of them
    (lines 68-83; [col] is [Associative] with NULL for a missing column). *)
Definition foreach_relay_stage {row} (col : row -> row) : stage row :=
  Stage unit (fun _ r => ([col r], Some tt)) (fun _ => []) (fun _ => []) true true false false.
