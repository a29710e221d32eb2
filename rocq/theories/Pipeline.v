(** Queries as trees of goroutines joined by unbuffered channels.

    Every evaluator in vfilter has the same shape: it makes an unbuffered
    channel, starts a goroutine that closes the channel when it returns, reads
    rows from the channel of the evaluator below and sends rows to its own.
    The goroutines differ in what they compute and in which of their channel
    operations also watch ctx.Done(); the record [stage] holds exactly these
    differences, so that each goroutine of the code is one value of it.

    Simplified: what a goroutine computes between two channel operations
    (reducing columns, WHERE, ...) is one function of the row and the state,
    run in one step; [cancel()] and the deferred [close] of one goroutine are
    one step. *)

From Coq Require Import List Bool ZArith.
Import ListNotations.

Section Rows.
Context {row : Type}.

(** The loop of a goroutine, e.g. vfilter.go:604-716 Eval. *)
Record stage := Stage {
  st : Type;
  on_row : st -> row -> list row * option st; (* rows to send; None: return after sending *)
  on_end : st -> list row;                    (* rows to send when the input is closed *)
  on_cancel : st -> list row;                 (* ... when ctx.Done() is chosen instead of a row *)
  sel_recv : bool;                            (* does the receive select on ctx.Done()? *)
  sel_send : bool;                            (* does the send? *)
  go_on : bool;                               (* after an abandoned send, read on (or return)? *)
  cuts : bool                                 (* is the input's context cancelled on return? *)
}.

(** Where a goroutine stands: at its receive; sending [l] and then reading on
    ([Some s]) or returning ([None]); or returned, its channel closed. As in
    vfilter.go:604-716 Eval. *)
Inductive pc (T : stage) :=
| Reading (s : st T)
| Sending (l : list row) (k : option (st T))
| Closed.
Arguments Reading {T}. Arguments Sending {T}. Arguments Closed {T}.

(** A running query, e.g. vfilter.go:604-716 Eval over vfilter.go:1152-1172
    Eval. *)
Inductive sys :=
| Source (sel : bool) (l : list row) (cl : bool)   (* a plugin sending the rows [l] *)
| Node (T : stage) (p : pc T) (child : sys)
| Chain (old : list sys) (cur : option sys) (pend : option row) (rest : list sys) (cl : bool).
                                                   (* plugins/chain.go:32-58 *)

(** No counterpart in /repo: what is seen of a step: nothing, a row for the
    reader, the channel is closed. *)
Inductive label := Tau | Out (r : row) | Shut.

(** The close of the output channel, deferred at the start of
    vfilter.go:604-716 Eval. *)
Definition is_closed (s : sys) : bool :=
  match s with
  | Source _ _ cl => cl
  | Node _ Closed _ => true
  | Node _ _ _ => false
  | Chain _ _ _ _ cl => cl
  end.

(** The child's context is cancelled with ours, or by our return when the
    goroutine holds a cancel function (vfilter.go:629-630). *)
Definition child_ctx (c : bool) {T : stage} (p : pc T) : bool :=
  c || (cuts T && match p with Closed => true | _ => false end).

(** No counterpart in /repo: the state after a row was received. *)
Definition after (T : stage) (o : list row * option (st T)) : pc T := Sending (fst o) (snd o).

(** The case of ctx.Done() in a select, e.g. plugins/range.go:19-50 Call. *)
Definition aborted (T : stage) (k : option (st T)) : pc T :=
  match k with
  | Some s => if go_on T then Reading s else Closed
  | None => Closed
  end.

(** [step c s l s']: one step of one goroutine, or of two that exchange a row,
    while the context is ([c = true]) or is not cancelled. [Out r] needs the
    reader of [s]; [Shut] closes the channel of [s]. Everything that [select]
    could choose is a possible step. Also vfilter.go:604-716 Eval. *)
Inductive step : bool -> sys -> label -> sys -> Prop :=
(* e.g. plugins/range.go:39-46 *)
| SrcSend : forall c sel r l, step c (Source sel (r :: l) false) (Out r) (Source sel l false)
| SrcEnd : forall c sel, step c (Source sel [] false) Shut (Source sel [] true)
| SrcCancel : forall l, step true (Source true l false) Shut (Source true l true)
(* a goroutine with an input *)
| NRecv : forall c T s ch r ch', step (child_ctx c (Reading (T:=T) s)) ch (Out r) ch' ->
    step c (Node T (Reading s) ch) Tau (Node T (after T (on_row T s r)) ch')
| NEof : forall c T s ch, is_closed ch = true ->
    step c (Node T (Reading s) ch) Tau (Node T (Sending (on_end T s) None) ch)
| NCancelRecv : forall T s ch, sel_recv T = true ->
    step true (Node T (Reading s) ch) Tau (Node T (Sending (on_cancel T s) None) ch)
| NSend : forall c T r l k ch,
    step c (Node T (Sending (r :: l) k) ch) (Out r) (Node T (Sending l k) ch)
| NSent : forall c T s ch, step c (Node T (Sending [] (Some s)) ch) Tau (Node T (Reading s) ch)
| NReturn : forall c T ch, step c (Node T (Sending [] None) ch) Shut (Node T Closed ch)
| NAbort : forall T r l k s ch, sel_send T = true -> aborted T k = Reading s ->
    step true (Node T (Sending (r :: l) k) ch) Tau (Node T (Reading s) ch)
| NAbortReturn : forall T r l k ch, sel_send T = true -> aborted T k = Closed ->
    step true (Node T (Sending (r :: l) k) ch) Shut (Node T Closed ch)
| NChild : forall c T p ch l ch', step (child_ctx c p) ch l ch' -> (l = Tau \/ l = Shut) ->
    step c (Node T p ch) Tau (Node T p ch')
(* plugins/chain.go:42-57 *)
| CStart : forall c old q rest,
    step c (Chain old None None (q :: rest) false) Tau (Chain old (Some q) None rest false)
| CRecv : forall c old s r s' rest, step c s (Out r) s' ->
    step c (Chain old (Some s) None rest false) Tau (Chain old (Some s') (Some r) rest false)
| CSend : forall c old cur r rest,
    step c (Chain old cur (Some r) rest false) (Out r) (Chain old cur None rest false)
| CAbort : forall old cur r rest,
    step true (Chain old cur (Some r) rest false) Shut (Chain old cur (Some r) rest true)
| CNext : forall c old s rest, is_closed s = true ->
    step c (Chain old (Some s) None rest false) Tau (Chain (s :: old) None None rest false)
| CEnd : forall c old, step c (Chain old None None [] false) Shut (Chain old None None [] true)
| CChild : forall c old s l s' pend rest cl, step c s l s' -> (l = Tau \/ l = Shut) ->
    step c (Chain old (Some s) pend rest cl) Tau (Chain old (Some s') pend rest cl)
| COld : forall c a s l s' b cur pend rest cl, step c s l s' -> (l = Tau \/ l = Shut) ->
    step c (Chain (a ++ s :: b) cur pend rest cl) Tau (Chain (a ++ s' :: b) cur pend rest cl).

(** Has every goroutine returned? (Queries of chain() that were not started
    have none.). All deferred calls of close, e.g. vfilter.go:604-716 Eval. *)
Fixpoint all_closed (s : sys) : bool :=
  match s with
  | Source _ _ cl => cl
  | Node _ Closed ch => all_closed ch
  | Node _ _ _ => false
  | Chain old cur _ _ cl =>
      cl && forallb all_closed old && match cur with Some q => all_closed q | None => true end
  end.

(** Executions: the labels with the state of the context at each step. No
    counterpart in /repo: any schedule. *)
Inductive exec : sys -> list (bool * label) -> sys -> Prop :=
| ENil : forall s, exec s [] s
| ECons : forall s c l s' t s'', step c s l s' -> exec s' t s'' -> exec s ((c, l) :: t) s''.

End Rows.

Arguments stage : clear implicits.
Arguments sys : clear implicits.
Arguments label : clear implicits.
Arguments Reading {row T}.
Arguments Sending {row T}.
Arguments Closed {row T}.
Arguments Node {row}.

(** A goroutine that was just started. E.g. vfilter.go:604-716 Eval. *)
Definition start {row} (T : stage row) (s : st T) (ch : sys row) : sys row := Node T (Reading s) ch.

(** * The goroutines of the code *)

Section Stages.
Context {row : Type}.

(** vfilter.go:688-713 and processSingleRow 718-770: [f r] is the transformed
    row when WHERE accepts it. An abandoned send returns from
    processSingleRow, not from the loop. *)
Definition select_stage (f : row -> option row) : stage row :=
  Stage unit (fun _ r => (match f r with Some x => [x] | None => [] end, Some tt))
        (fun _ => []) (fun _ => []) true true true false.

(** vfilter.go:1156-1169 (_From.Eval): [range] over the plugin's rows. *)
Definition from_stage : stage row :=
  Stage unit (fun _ r => ([r], Some tt)) (fun _ => []) (fun _ => []) false true false false.

(** vfilter.go:499-524 (VQL.Eval). *)
Definition vql_stage : stage row :=
  Stage unit (fun _ r => ([r], Some tt)) (fun _ => []) (fun _ => []) true true false false.

(** stored.go:68-83 (_StoredQuery.Eval): [range] over the input. *)
Definition stored_stage : stage row :=
  Stage unit (fun _ r => ([r], Some tt)) (fun _ => []) (fun _ => []) false true false false.

(** plugins/flatten.go:32-50: [f r] are the rows that the row [r] expands to. *)
Definition flatten_stage (f : row -> list row) : stage row :=
  Stage unit (fun _ r => (f r, Some tt)) (fun _ => []) (fun _ => []) false true false false.

(** vfilter.go:618-643: the state is [count]. *)
Definition limit_stage (limit : Z) : stage row :=
  Stage Z (fun count r => ([r], if (count + 1 >? limit)%Z then None else Some (count + 1)%Z))
        (fun _ => []) (fun _ => []) false true false true.

(** vfilter.go:667-678 and vfilter_group.go:108-119: no [select] at all. *)
Definition feeder_stage : stage row :=
  Stage unit (fun _ r => ([r], Some tt)) (fun _ => []) (fun _ => []) false false false false.

(** sort/sort.go:25-58: collects; sorts and dumps on every return, also on
    cancellation. *)
Definition sorter_stage (sort : list row -> list row) : stage row :=
  Stage (list row) (fun items r => ([], Some (items ++ [r]))) sort sort true true false false.

(** grouper/grouper.go:19-92 with GetNextRow (vfilter_group.go:26-77): [range]
    over the input; the groups are sent when it ends. *)
Definition group_stage (group : list row -> list row) : stage row :=
  Stage (list row) (fun items r => ([], Some (items ++ [r]))) group group false true false false.

(** The clauses of a SELECT that start goroutines. vfilter.go:583-597 _Select
    *)
Record clauses := Clauses {
  c_row : row -> option row;                     (* columns and WHERE *)
  c_group : option (list row -> list row);       (* GROUP BY (with columns and WHERE) *)
  c_order : option (list row -> list row);       (* ORDER BY *)
  c_limit : option Z
}.

(** _Select.Eval (vfilter.go:604-716) and EvalGroupBy (vfilter_group.go:84-122). *)
Definition select_rows (q : clauses) (from : sys row) : sys row :=
  match c_group q with
  | Some g => start (group_stage g) [] (start from_stage tt from)
  | None => start (select_stage (c_row q)) tt (start from_stage tt from)
  end.

(** The ORDER BY of vfilter.go:604-716 Eval. *)
Definition select_order (q : clauses) (from : sys row) : sys row :=
  match c_order q with
  | Some sort =>
      start (sorter_stage sort) []
        (start feeder_stage tt (select_rows q from))
  | None => select_rows q from
  end.

(** vfilter.go:604-716 Eval *)
Definition select_sys (q : clauses) (from : sys row) : sys row :=
  match c_limit q with
  | Some n => start (limit_stage n) 1%Z (select_order q from)
  | None => select_order q from
  end.

(** What a FROM clause or a caller can run: a plugin that sends the rows [l]
    and watches the context (plugins/range.go:39-46, vfilter.go:1322-1343; every
    plugin of the host that is a function returning all its rows,
    plugins/generic.go:34-53 GenericListPlugin.Call), a SELECT, a LET-defined
    query (stored.go:65-85), a statement (vfilter.go:415-528), flatten() and
    chain(). *)
Inductive query :=
| QPlugin (l : list row)
| QSelect (q : clauses) (from : query)
| QStored (q : query)
| QStatement (q : query)
| QFlatten (f : row -> list row) (q : query)
| QChain (qs : list query).

(** vfilter.go:604-716 Eval, plugins/chain.go:21-62 Call,
    plugins/range.go:19-50 Call. *)
Fixpoint query_sys (q : query) : sys row :=
  match q with
  | QPlugin l => Source true l false
  | QSelect c from => select_sys c (query_sys from)
  | QStored q' => start stored_stage tt (query_sys q')
  | QStatement q' => start vql_stage tt (query_sys q')
  | QFlatten f q' => start (flatten_stage f) tt (query_sys q')
  | QChain qs => Chain [] None None (map query_sys qs) false
  end.

End Stages.
Arguments clauses : clear implicits.
Arguments query : clear implicits.
