(** Results in parts: api.go.

    The goroutine of GetResponseChannel (api.go:31-99) waits in a select for
    the end of the context, a timer and the channel of rows.  Which of them is
    served is decided by the schedule, so the machine takes a list of events
    and the theorems quantify over all of them.  What the consumer does with a
    part does not flow back, so sending one is emitting it; a consumer that
    stops receiving blocks the goroutine for ever (api.go:64 has no select).
    Simplified: rows are already converted by RowToDict (api.go:93), whose
    model is row_to_dict of Eval.v; scope.Log is not modelled. *)

From Coq Require Import List String Bool ZArith.
Import ListNotations.

Section Response.
  Variables Row Bytes : Type.

  (** api.go:12-17 VFilterJsonResult *)
  Record result : Type := {
    r_part : nat;
    r_total : nat;
    r_columns : list string;      (* nil when there are no rows *)
    r_payload : Bytes
  }.

  (** The encoder belongs to the host: it may answer differently on every
      call, so it sees the number of the call.  api.go:19, 41 *)
  Variable encoder : nat -> list Row -> option Bytes.
  Variable members : Row -> list string.   (* scope.GetMembers, api.go:60 *)
  Variable maxrows : Z.

  (** What the select may receive. The select of api.go:22-102
      GetResponseChannel. *)
  Inductive event : Type :=
  | EvDone                   (* api.go:76-77 *)
  | EvDeadline               (* api.go:81-86 *)
  | EvRow (r : Row)          (* api.go:88-95 *)
  | EvClosed.                (* api.go:89-91 *)

  (** part, rows, the number of calls of the encoder, and what was sent. The
      variables of api.go:22-102 GetResponseChannel. *)
  Record resp : Type := {
    part : nat;
    rows : list Row;
    calls : nat;
    sent : list result
  }.

  (** api.go:36-38 *)
  Definition resp0 : resp := {| part := 0; rows := []; calls := 0; sent := [] |}.

  (** api.go:40-67 ship_payload: nothing changes when the encoder fails. *)
  Definition ship (s : resp) : resp :=
    match encoder (calls s) (rows s) with
    | None => {| part := part s; rows := rows s; calls := S (calls s); sent := sent s |}
    | Some bytes =>
        {| part := S (part s); rows := []; calls := S (calls s);
           sent := sent s ++ [{| r_part := part s; r_total := List.length (rows s);
                                 r_columns := match rows s with [] => [] | x :: _ => members x end;
                                 r_payload := bytes |}] |}
    end.

  (** The append of api.go:22-102 GetResponseChannel. *)
  Definition add_row (r : Row) (s : resp) : resp :=
    {| part := part s; rows := rows s ++ [r]; calls := calls s; sent := sent s |}.

  (** api.go:72-97: the loop; [None] is the return. *)
  Definition serve (s : resp) (e : event) : option resp :=
    match e with
    | EvDone | EvClosed => None
    | EvDeadline => Some (match rows s with [] => s | _ => ship s end)
    | EvRow r =>
        Some (add_row r (if Z.geb (Z.of_nat (List.length (rows s))) maxrows then ship s else s))
    end.

  (** api.go:69 the deferred ship_payload and 33 the deferred close: what the
      channel carried in all.  [None]: the goroutine is still waiting. *)
  Fixpoint respond (s : resp) (es : list event) : option resp :=
    match es with
    | [] => None
    | e :: rest => match serve s e with None => Some (ship s) | Some s' => respond s' rest end
    end.

  (** api.go:102-122 OutputJSON *)
  Definition output_json (rs : list Row) : option Bytes := encoder 0 rs.
End Response.
