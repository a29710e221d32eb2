(** The range() plugin: /repo/plugins/range.go. *)

From Coq Require Import List ZArith.
From Verif Require Import Base.
Import ListNotations.
Open Scope Z_scope.

(** range.go:39-46: [None] when the loop is still going after [fuel] turns. *)
Fixpoint range_loop (fuel : nat) (i stop step : Z) : option (list Z) :=
  match fuel with
  | O => None
  | S f =>
      if i <? stop then
        match range_loop f (wrap64 (i + step)) stop step with
        | Some l => Some (i :: l)
        | None => None
        end
      else Some []
  end.

(** range.go:35-46; the values of the column [_value], in order. *)
Definition range_rows (fuel : nat) (start stop step : Z) : option (list Z) :=
  range_loop fuel start stop (if step =? 0 then 1 else step).
