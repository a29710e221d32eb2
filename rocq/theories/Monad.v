(** Computations with effects: a state transformer that may also panic (Go
    panic) or run out of fuel (an artefact of the model: the Go code would
    go on). *)

From Coq Require Import List.
Import ListNotations.

(** No counterpart in /repo: a Go value, a Go panic, or no fuel left (the
    model's own bound). *)
Inductive res (A : Type) : Type :=
| RVal (a : A)
| RPanic
| RFuel.
Arguments RVal {A} a.
Arguments RPanic {A}.
Arguments RFuel {A}.

(** No counterpart in /repo: a Go function as a transformer of the state. *)
Definition M (S A : Type) : Type := S -> S * res A.

(** No counterpart in /repo: return. *)
Definition mret {S A} (a : A) : M S A := fun s => (s, RVal a).

(** No counterpart in /repo: one Go statement after the other; a panic stops.
    *)
Definition mbind {S A B} (m : M S A) (f : A -> M S B) : M S B :=
  fun s =>
    match m s with
    | (s', RVal a) => f a s'
    | (s', RPanic) => (s', RPanic)
    | (s', RFuel) => (s', RFuel)
    end.

(** No counterpart in /repo: the model ran out of fuel. *)
Definition mfuel {S A} : M S A := fun s => (s, RFuel).
(** No counterpart in /repo: a Go panic. *)
Definition mpanic {S A} : M S A := fun s => (s, RPanic).
(** No counterpart in /repo: reading the state. *)
Definition mget {S} : M S S := fun s => (s, RVal s).
(** No counterpart in /repo: writing the state. *)
Definition mput {S} (s : S) : M S unit := fun _ => (s, RVal tt).

Notation "x <- m ;; k" := (mbind m (fun x => k))
  (at level 61, m at next level, right associativity).
Notation "' p <- m ;; k" := (mbind m (fun x => let p := x in k))
  (at level 61, p pattern, m at next level, right associativity).
Notation "m ;;; k" := (mbind m (fun _ => k))
  (at level 61, right associativity).

(** No counterpart in /repo: a Go loop that appends the result of each turn to
    a slice. *)
Fixpoint mmap {S A B} (f : A -> M S B) (l : list A) : M S (list B) :=
  match l with
  | [] => mret []
  | x :: r => y <- f x ;; ys <- mmap f r ;; mret (y :: ys)
  end.

Lemma mbind_val : forall S A B (m : M S A) (f : A -> M S B) s s' b,
  mbind m f s = (s', RVal b) <->
  exists s1 a, m s = (s1, RVal a) /\ f a s1 = (s', RVal b).
Proof.
  intros. unfold mbind. destruct (m s) as [s1 [a| |]]; split.
  - intros H. exists s1, a. auto.
  - intros (s2 & a2 & H1 & H2). injection H1 as -> ->. exact H2.
  - discriminate.
  - intros (s2 & a2 & H1 & H2). discriminate.
  - discriminate.
  - intros (s2 & a2 & H1 & H2). discriminate.
Qed.
