(** Iterating over a value, and the flatten() plugin:
    /repo/protocols/protocol_iterate.go, /repo/plugins/flatten.go.

    The channels are left out here: a query or an iteration is the list of its
    rows when the context is not cancelled (cancellation is in Pipeline.v). *)

From Coq Require Import List String Bool.
From Verif Require Import Base Value Protocols.
Import ListNotations.
Open Scope string_scope.

(** ordereddict.NewDict().Set("_value", v). As in
    protocols/protocol_iterate.go:92-123 _SliceIterator. *)
Definition value_row (v : val) : val := VDict [("_value", v)].

(** protocol_iterate.go:92-123 _SliceIterator *)
Fixpoint slice_iterator (l : list val) : list val :=
  match l with
  | [] => []
  | x :: r =>
      if is_nil x then slice_iterator r
      else match x with
           | VDict _ => x :: slice_iterator r
           | _ => value_row x :: slice_iterator r
           end
  end.

(** protocol_iterate.go:21-78 IterateDispatcher.Iterate; a lazy expression is
    assumed reduced.  [impls] are the host's implementations. *)
Definition iterate (impls : list (impl1 (list val))) (a : val) : list val :=
  match a with
  | VQuery rows => rows
  | VDict _ => [a]
  | _ =>
      match arr_elems a with
      | Some l => slice_iterator l
      | None =>
          match first1 impls a with
          | Some rows => rows
          | None => if is_nil a then [] else [value_row a]
          end
      end
  end.

(** Velocidex/ordereddict Update: like Set, but an existing key keeps its
    place. (A dependency; its documented behaviour.). Called by
    plugins/flatten.go:73-112 flatten. *)
Fixpoint dict_update {A} (k : string) (v : A) (l : list (string * A)) : list (string * A) :=
  match l with
  | [] => [(k, v)]
  | (k', x) :: r => if String.eqb k k' then (k', v) :: r else (k', x) :: dict_update k v r
  end.

(** Velocidex/ordereddict MergeFrom: Set every entry of the other dict. Called
    by plugins/flatten.go:56-70 makeDict. *)
Definition merge_from {A} (other l : list (string * A)) : list (string * A) :=
  fold_left (fun d kv => dict_set (fst kv) (snd kv) d) other l.

(** flatten.go:88-94 *)
Definition unwrap_value (m : val) : val :=
  match m with
  | VDict d => match assoc "_value" d with Some v => v | None => m end
  | _ => m
  end.

(** flatten.go:73-112; [n] is idx+1. *)
Fixpoint flatten_at (impls : list (impl1 (list val))) (item : list (string * val)) (n : nat)
  : list (list (string * val)) :=
  match n with
  | O => [item]
  | S idx =>
      let column := nth idx (keys item) "" in
      let cell := match assoc column item with Some v => v | None => VNil end in
      match iterate impls cell with
      | [] => flatten_at impls item idx
      | ms =>
          flat_map (fun m => flatten_at impls (dict_update column (unwrap_value m) (merge_from item [])) idx) ms
      end
  end.

(** flatten.go:39-42 *)
Definition flatten_row (impls : list (impl1 (list val))) (item : list (string * val))
  : list (list (string * val)) :=
  flatten_at impls item (List.length (keys item)).
