(** What a scope tells about itself: suggestions for plugins that are not
    registered, versions, and the counters.  /repo/scope/dispatcher.go,
    /repo/scope/version.go, /repo/types/stats.go, /repo/vfilter.go. *)

From Coq Require Import ZArith List String Ascii Bool Lia.
From Verif Require Import Base Value ArgParser GoSort.
Import ListNotations.
Open Scope nat_scope.
Open Scope string_scope.
Open Scope list_scope.

(** ** Suggestions *)

(** scope/dispatcher.go:320-326.  The order in which Go walks over a map is
    not fixed: [order] is the order of this walk. *)
Definition similar_walk (part : string) (order : list string) (result : list string) : list string :=
  fold_left (fun result k =>
    if str_containsb part k && negb (mem_str k result) then result ++ [k] else result) order result.

(** scope/dispatcher.go:313-331 GetSimilarPlugins; [order i] is the order of
    the walk for the part number [i], sort.Strings is [sort]. *)
Definition get_similar (sort : (string -> string -> bool) -> list string -> list string)
  (order : nat -> list string) (name : string) : list string :=
  let parts := split_on "_"%char name in
  let result := snd (fold_left (fun ir part => (S (fst ir), similar_walk part (order (fst ir)) (snd ir)))
                               parts (0, [])) in
  sort str_ltb result.

(** strings.Join. Called where the suggestions are logged
    (vfilter.go:1301-1347 evalSymbol, vfilter.go:1257-1298
    evalSymbolWithArgs). *)
Fixpoint str_join (sep : string) (l : list string) : string :=
  match l with
  | [] => ""
  | [x] => x
  | x :: l => x ++ sep ++ str_join sep l
  end%string.

(** vfilter.go:1229-1245: what is logged for a plugin that is not found. *)
Definition not_found_message (name : string) (options : list string) (is_function : bool) : string :=
  let message := ("Plugin " ++ name ++ " not found. ")%string in
  let message := if Nat.ltb 0 (List.length options)
                 then (message ++ "Did you mean " ++ str_join " " options ++ "? ")%string else message in
  if is_function
  then (message ++ "There is a VQL function called " ++ String """" name ++ String """" " "
        ++ "- did you mean to call this " ++ "function instead?")%string
  else message.

(** ** Versions *)

(** scope/version.go:26-64 version() after its arguments were read; [plugins]
    and [functions] give the version of what is registered. *)
Definition version_call (plugins functions : string -> option Z) (plugin function : string) : val :=
  if negb (String.eqb plugin "") then
    match plugins plugin with Some v => VInt KInt v | None => VNull end
  else if negb (String.eqb function "") then
    match functions function with Some v => VInt KInt v | None => VNull end
  else VInt KInt 0.

(** ** Counters *)

(** types/stats.go:27-45: the counters 0 to 4 are RowsScanned, PluginsCalled,
    FunctionsCalled, ProtocolSearch and ScopeCopy; types/stats.go:47-54
    Snapshot loads them in this order.  Every step is one atomic operation of
    one goroutine; a schedule is the list of the steps. *)
Inductive stat_step : Type :=
| StatAdd (counter : nat) (n : Z)
| StatLoad (reader : nat).

(** The struct Stats of types/stats.go. *)
Record stat_state : Type := {
  counters : nat -> Z;
  loaded : nat -> list Z             (* what each Snapshot has loaded so far *)
}.

(** A new Stats of types/stats.go. *)
Definition stat0 : stat_state := {| counters := fun _ => 0%Z; loaded := fun _ => [] |}.

(** No counterpart in /repo: update of a map. *)
Definition set_at {A} (f : nat -> A) (i : nat) (x : A) : nat -> A :=
  fun j => if Nat.eqb j i then x else f j.

(** atomic.AddUint64 and atomic.LoadUint64. types/stats.go:27-29
    IncRowsScanned, types/stats.go:47-54 Snapshot *)
Definition stat_do (s : stat_state) (e : stat_step) : stat_state :=
  match e with
  | StatAdd c n => {| counters := set_at (counters s) c ((counters s c + n mod 2 ^ 64) mod 2 ^ 64)%Z; loaded := loaded s |}
  | StatLoad r => {| counters := counters s;
                     loaded := set_at (loaded s) r (loaded s r ++ [counters s (List.length (loaded s r))]) |}
  end.

(** No counterpart in /repo: any interleaving of such steps. *)
Definition stat_run (es : list stat_step) : stat_state := fold_left stat_do es stat0.

(** Snapshot returns when all five are loaded. types/stats.go:47-54 Snapshot
    *)
Definition snapshot (es : list stat_step) (reader : nat) : option (list Z) :=
  if Nat.leb 5 (List.length (loaded (stat_run es) reader)) then Some (firstn 5 (loaded (stat_run es) reader)) else None.
