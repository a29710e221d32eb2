(** Concurrent AddDestructor and Close on one scope: /repo/scope/scope.go
    lines 33-66 (the destructor list and its mutex), 465-480 (AddDestructor)
    and 530-566 (the destructor loop of Close).

    Every step is one critical section of the code.  Any number of
    goroutines may call AddDestructor and Close; a destructor that adds
    another one is such a caller.  The closing of children is left out (it is
    in Scope.v), and so is the 60 second limit on waiting for a destructor. *)

From Coq Require Import List Arith Bool.
Import ListNotations.

Section Race.
  Context {D : Type}.

  (** Where a call of Close is. In scope/scope.go:492-566 Close. *)
  Inductive closer : Type :=
  | Removing (try : nat)                       (* top of the loop, 543 *)
  | Running (try : nat) (todo : list D)        (* 551: still to run, next first *)
  | Finishing                                  (* the deferred SetDestroyed, 539 *)
  | Done.

  (** The destructors of one scope, scope/scope.go:31-36 _destructors, and the
      calls in progress. *)
  Record state : Type := {
    fn : list D;                  (* destructors.fn *)
    destroyed : bool;             (* destructors.is_destroyed *)
    adding : option D;            (* an AddDestructor that saw the scope open:
                                     it holds the scope's lock *)
    closers : list closer;
    accepted : list D;            (* AddDestructor returned no error *)
    ran : list D                  (* run by Close *)
  }.

  (** A new scope, scope/scope.go:572-594 NewScope. *)
  Definition init : state :=
    {| fn := []; destroyed := false; adding := None; closers := []; accepted := []; ran := [] |}.

  (** The statements of scope/scope.go:465-480 AddDestructor and
      scope/scope.go:492-566 Close. *)
  Inductive event : Type :=
  | AddCheck (d : D)       (* 466-470: take the lock, read is_destroyed *)
  | AddAppend              (* 477: append, release the lock *)
  | CloseStart             (* another call of Close *)
  | CloseStep (c : nat).   (* a step of call [c] *)

  (** No counterpart in /repo: assignment to an element of a list. *)
  Fixpoint set_at {A} (n : nat) (x : A) (l : list A) : list A :=
    match l, n with
    | [], _ => []
    | _ :: r, O => x :: r
    | y :: r, S k => y :: set_at k x r
    end.

  (** No counterpart in /repo: a call of Close moves on. *)
  Definition with_closer (st : state) (c : nat) (x : closer) : state :=
    {| fn := fn st; destroyed := destroyed st; adding := adding st;
       closers := set_at c x (closers st); accepted := accepted st; ran := ran st |}.

  (** One statement of scope/scope.go:465-480 AddDestructor or
      scope/scope.go:492-566 Close. *)
  Definition next (st : state) (e : event) : option state :=
    match e with
    | AddCheck d =>
        match adding st with
        | Some _ => None                                      (* lock held *)
        | None =>
            if destroyed st then Some st                      (* error returned *)
            else Some {| fn := fn st; destroyed := destroyed st; adding := Some d;
                         closers := closers st; accepted := accepted st; ran := ran st |}
        end
    | AddAppend =>
        match adding st with
        | None => None
        | Some d =>
            Some {| fn := fn st ++ [d]; destroyed := destroyed st; adding := None;
                    closers := closers st; accepted := accepted st ++ [d]; ran := ran st |}
        end
    | CloseStart =>
        Some {| fn := fn st; destroyed := destroyed st; adding := adding st;
                closers := closers st ++ [Removing 0]; accepted := accepted st; ran := ran st |}
    | CloseStep c =>
        match nth_error (closers st) c with
        | None | Some Done => None
        | Some (Removing try) =>
            if Nat.ltb try 10 then
              match fn st with
              | [] => Some (with_closer st c Finishing)
              | _ => Some {| fn := []; destroyed := destroyed st; adding := adding st;
                             closers := set_at c (Running try (rev (fn st))) (closers st);
                             accepted := accepted st; ran := ran st |}
              end
            else Some (with_closer st c Finishing)
        | Some (Running try todo) =>
            match todo with
            | [] => Some (with_closer st c (Removing (S try)))
            | d :: r =>
                Some {| fn := fn st; destroyed := destroyed st; adding := adding st;
                        closers := set_at c (Running try r) (closers st);
                        accepted := accepted st; ran := ran st ++ [d] |}
            end
        | Some Finishing =>
            Some {| fn := fn st; destroyed := true; adding := adding st;
                    closers := set_at c Done (closers st);
                    accepted := accepted st; ran := ran st |}
        end
    end.

  (** No counterpart in /repo: any interleaving of such statements. *)
  Fixpoint exec (st : state) (es : list event) : option state :=
    match es with
    | [] => Some st
    | e :: r => match next st e with Some st' => exec st' r | None => None end
    end.
End Race.
Arguments closer : clear implicits.
Arguments state : clear implicits.
Arguments event : clear implicits.
