(** The throttler: throttle.go, with scope.ChargeOp (scope/scope.go:245-249).

    time.NewTicker, Stop and the runtime's timer belong to the Go library: a
    ticker that is not stopped may put a tick in its channel at any time, the
    channel holds one, NewTicker panics unless the period is positive. *)

From Coq Require Import ZArith List Bool.
From Verif Require Import Base F64.
Import ListNotations.

(** Where a call of Close is that saw the throttler running. throttle.go:22-28
    Close *)
Inductive closing : Type :=
| PStop      (* throttle.go:24 *)
| PSet       (* throttle.go:25 *)
| PClose.    (* throttle.go:26 *)

(** The struct TimeThrottler of throttle.go and its ticker. *)
Record throttler : Type := {
  tick : bool;             (* a tick waits in ticker.C *)
  stopped : bool;
  done_closed : bool;
  running : bool;
  closers : list closing;  (* the calls of Close under way *)
  panicked : bool          (* close of a closed channel *)
}.

(** No counterpart in /repo: the ticker's channel. *)
Definition set_tick (b : bool) (t : throttler) : throttler :=
  {| tick := b; stopped := stopped t; done_closed := done_closed t; running := running t;
     closers := closers t; panicked := panicked t |}.
(** No counterpart in /repo: the calls of throttle.go:22-28 Close in progress.
    *)
Definition set_closers (l : list closing) (t : throttler) : throttler :=
  {| tick := tick t; stopped := stopped t; done_closed := done_closed t; running := running t;
     closers := l; panicked := panicked t |}.
(** The first statement of throttle.go:22-28 Close that changes anything. *)
Definition do_stop (t : throttler) : throttler :=
  {| tick := tick t; stopped := true; done_closed := done_closed t; running := running t;
     closers := closers t; panicked := panicked t |}.
(** The assignment of throttle.go:22-28 Close. *)
Definition do_set (t : throttler) : throttler :=
  {| tick := tick t; stopped := stopped t; done_closed := done_closed t; running := false;
     closers := closers t; panicked := panicked t |}.
(** The close of throttle.go:22-28 Close. *)
Definition do_close (t : throttler) : throttler :=
  {| tick := tick t; stopped := stopped t; done_closed := true; running := running t;
     closers := closers t; panicked := panicked t || done_closed t |}.

(** throttle.go:22-28 Close, without interruption *)
Definition close (t : throttler) : throttler :=
  if running t then do_close (do_set (do_stop t)) else t.

(** throttle.go:30-50 NewTimeThrottler *)
Definition f100 : f64 := f_of_Z 100.
Definition effective_rate (rate : f64) : f64 :=
  if f_is_zero rate || f_ltb f100 rate then f100 else rate.
(** The period of throttle.go:30-50 NewTimeThrottler. *)
Definition period (rate : f64) : Z := f_to_int64 (f_div (f_of_Z 1000000000) rate).

(** throttle.go:30-50 NewTimeThrottler *)
Definition new_throttler (rate : f64) : outcome throttler :=
  let rate := effective_rate rate in
  if Z.leb (period rate) 0 then Panic      (* NewTicker *)
  else
    let t := {| tick := false; stopped := false; done_closed := false; running := true;
                closers := []; panicked := false |} in
    Ok (if f_ltb rate f100 then t else if f_is_nan rate then t else close t).

(** What goroutines may do with it; each is one statement of the code, and
    [ChargeOp] is the end of its select (throttle.go:16-19). *)
Inductive tevent : Type :=
| Fire                     (* the timer *)
| ChargeTick               (* ChargeOp returns by line 17 *)
| ChargeDone               (* ChargeOp returns by line 18 *)
| CloseNoop                (* Close saw running = false *)
| CloseEnter               (* Close saw running = true *)
| CloseStep.               (* a statement of a call under way *)

(** One statement of throttle.go:15-20 ChargeOp or throttle.go:22-28 Close, or
    the ticker. *)
Inductive tstep : throttler -> tevent -> throttler -> Prop :=
| TFire : forall t, stopped t = false -> tstep t Fire (set_tick true t)
| TChargeTick : forall t, tick t = true -> tstep t ChargeTick (set_tick false t)
| TChargeDone : forall t, done_closed t = true -> tstep t ChargeDone t
| TNoop : forall t, running t = false -> tstep t CloseNoop t
| TEnter : forall t, running t = true -> tstep t CloseEnter (set_closers (closers t ++ [PStop]) t)
| TStop : forall t a b, closers t = a ++ PStop :: b ->
    tstep t CloseStep (set_closers (a ++ PSet :: b) (do_stop t))
| TSet : forall t a b, closers t = a ++ PSet :: b ->
    tstep t CloseStep (set_closers (a ++ PClose :: b) (do_set t))
| TClose : forall t a b, closers t = a ++ PClose :: b ->
    tstep t CloseStep (set_closers (a ++ b) (do_close t)).

(** No counterpart in /repo: any interleaving. *)
Inductive texec : throttler -> list tevent -> throttler -> Prop :=
| TNil : forall t, texec t [] t
| TCons : forall t e t1 l t2, tstep t e t1 -> texec t1 l t2 -> texec t (e :: l) t2.

(** The calls of Close do not overlap. No counterpart in /repo: interleavings
    with one call of throttle.go:22-28 Close at a time. *)
Inductive texec1 : throttler -> list tevent -> throttler -> Prop :=
| T1Nil : forall t, texec1 t [] t
| T1Cons : forall t e t1 l t2, (e = CloseEnter -> closers t = []) -> tstep t e t1 -> texec1 t1 l t2 -> texec1 t (e :: l) t2.

(** A call of ChargeOp returns now. throttle.go:15-20 ChargeOp *)
Definition charge_returns (t : throttler) : Prop :=
  exists t', tstep t ChargeTick t' \/ tstep t ChargeDone t'.
