(** Objects of the host program: attributes of Go structs and their methods
    (protocols/protocol_associative.go:159-362), and getters that are called
    when needed (protocols/lazy_wrapper.go).

    The reflect package belongs to the Go library: what it reports about a
    struct is data here, FieldByNameFunc is written down below. *)

From Coq Require Import List String Ascii Bool Arith.
From Verif Require Import Base Value.
Import ListNotations.
Open Scope string_scope.
Open Scope list_scope.

(** A field of a struct. [json] is the tag up to the first comma, empty if
    there is none; [nilptr] says that the value is a nil pointer. An embedded
    struct, or pointer to one, has fields of its own. A struct type that
    embeds a pointer to itself has no such description and is left out. What
    reflect tells protocols/protocol_associative.go:167-302 Associative. *)
Inductive field : Type :=
| Field (name json : string) (exported nilptr : bool) (v : val) (embedded : option (list field)).

(** No counterpart in /repo: a part of [field]. *)
Definition f_name (f : field) : string := match f with Field n _ _ _ _ _ => n end.
(** No counterpart in /repo: a part of [field]. *)
Definition f_json (f : field) : string := match f with Field _ j _ _ _ _ => j end.
(** No counterpart in /repo: a part of [field]. *)
Definition f_exported (f : field) : bool := match f with Field _ _ e _ _ _ => e end.
(** No counterpart in /repo: a part of [field]. *)
Definition f_nilptr (f : field) : bool := match f with Field _ _ _ b _ _ => b end.
(** No counterpart in /repo: a part of [field]. *)
Definition f_embedded (f : field) : list field :=
  match f with Field _ _ _ _ _ (Some fs) => fs | Field _ _ _ _ _ None => [] end.

(** What a VQL program sees of the value of a field
    (protocol_associative.go:240-244). No counterpart in /repo: a part of
    [field]. *)
Definition f_value (f : field) : val := match f with Field _ _ _ b v _ => if b then VNull else v end.

(** A result of a method. Called in protocols/protocol_associative.go:167-302
    Associative. *)
Inductive mresult : Type := MVal (v : val) | MNilPtr.
(** No counterpart in /repo: a nil pointer is returned as NULL by
    protocols/protocol_associative.go:167-302 Associative. *)
Definition result_value (r : mresult) : val := match r with MVal v => v | MNilPtr => VNull end.

(** A method of the method set; [None] if the call panics. Called in
    protocols/protocol_associative.go:167-302 Associative. *)
Record method : Type := {
  m_name : string;
  m_args : nat;
  m_results : option (list mresult)
}.

(** [o_fields] is [None] unless the object is a struct or a pointer to one.
    What reflect tells protocols/protocol_associative.go:167-302 Associative.
    *)
Record object : Type := {
  o_fields : option (list field);
  o_methods : list method
}.

(** utils/utils.go:19-33 IsExported; [same_upper] says of a name that starts
    with a character that is not ASCII whether unicode.ToUpper leaves that
    character alone. *)
Definition is_exported (same_upper : string -> bool) (name : string) : bool :=
  if String.eqb name "MarshalJSON" || String.eqb name "MarshalYAML" then false
  else match name with
       | EmptyString => false
       | String c _ =>
           let n := nat_of_ascii c in
           if Nat.eqb n 95 then false
           else if Nat.ltb n 128 then negb (Nat.leb 97 n && Nat.leb n 122)
           else same_upper name
       end.

(** utils/utils.go:35-51 IsCallable *)
Definition is_callable (same_upper : string -> bool) (m : method) : bool :=
  is_exported same_upper (m_name m) && Nat.eqb (m_args m) 0.

(** ** FieldByNameFunc of the reflect package

    One level of embedding after the other; a level with two matches has
    none.  The flag of a field says that the way to it leads through a nil
    pointer.

    reflect, called by protocols/protocol_associative.go:167-302 Associative. *)
Fixpoint height (f : field) : nat :=
  match f with
  | Field _ _ _ _ _ None => 1
  | Field _ _ _ _ _ (Some fs) => S (fold_right (fun g n => Nat.max (height g) n) 0 fs)
  end.

(** reflect, called by protocols/protocol_associative.go:167-302 Associative.
    *)
Definition next_level (level : list (bool * field)) : list (bool * field) :=
  List.concat (map (fun bf => map (pair (fst bf || f_nilptr (snd bf))) (f_embedded (snd bf))) level).

(** reflect, called by protocols/protocol_associative.go:167-302 Associative.
    *)
Fixpoint search (fuel : nat) (matches : string -> bool) (level : list (bool * field)) : option (bool * field) :=
  match fuel with
  | O => None
  | S fuel =>
      match filter (fun bf => matches (f_name (snd bf))) level with
      | [bf] => Some bf
      | _ :: _ :: _ => None
      | [] => match next_level level with
              | [] => None
              | level => search fuel matches level
              end
      end
  end.

(** reflect, called by protocols/protocol_associative.go:167-302 Associative.
    *)
Definition find_field (fs : list field) (matches : string -> bool) : option (bool * field) :=
  search (S (fold_right (fun g n => Nat.max (height g) n) 0 fs)) matches (map (pair false) fs).

(** protocol_associative.go:304-324 FieldMatchName *)
Definition field_matches (fs : list field) (name : string) (candidate : string) : bool :=
  String.eqb candidate name ||
  match find_field fs (String.eqb candidate) with
  | Some (_, f) => String.eqb (f_json f) name
  | None => false
  end.

(** protocol_associative.go:248-276: a method without arguments is called. *)
Definition call_method (same_upper : string -> bool) (ms : list method) (name : string) : option (val * bool) :=
  match find (fun m => String.eqb (m_name m) name) ms with
  | Some m =>
      if is_callable same_upper m then
        Some (match m_results m with
              | None => (VNil, false)              (* recovered, line 168-171 *)
              | Some [r] | Some [r; _] => (result_value r, true)
              | Some _ => (VNull, true)
              end)
      else None
  | None => None
  end.

(** protocol_associative.go:167-302 Associative with the name of an
    attribute *)
Definition attribute (same_upper : string -> bool) (o : object) (name : string) : val * bool :=
  let methods :=
    match call_method same_upper (o_methods o) name with
    | Some r => r
    | None => (VNull, false)
    end in
  match o_fields o with
  | None => methods
  | Some fs =>
      match find_field fs (field_matches fs name) with
      | Some (true, _) => (VNil, false)            (* FieldByIndex panics: recovered *)
      | Some (false, f) => if f_exported f then (f_value f, true) else methods
      | None => methods
      end
  end.

(** protocol_associative.go:327-363 GetMembers *)
Definition members_of_object (same_upper : string -> bool) (o : object) : list string :=
  filter (is_exported same_upper) (map f_name (match o_fields o with Some fs => fs | None => [] end)) ++
  map m_name (filter (is_callable same_upper) (o_methods o)).

(** ** Lazy getters: protocols/lazy_wrapper.go

    What a wrapper registered for the type of the object finds under a name
    (52-99): the value of a field, or a getter to be called later. *)
Inductive found : Type :=
| FoundValue (v : val)
| FoundGetter (m : method)
| FoundNothing
| FoundPanic.              (* FieldByName through a nil pointer: not recovered *)

(** protocols/lazy_wrapper.go:52-99 Associative *)
Definition lazy_attribute (same_upper : string -> bool) (attributes : list string) (o : object) (name : string) : found :=
  if negb (mem_str name attributes) then FoundNothing
  else
    let methods :=
      match find (fun m => String.eqb (m_name m) name) (o_methods o) with
      | Some m => if is_callable same_upper m then FoundGetter m else FoundNothing
      | None => FoundNothing
      end in
    match o_fields o with
    | None => FoundPanic                          (* FieldByName of a value that is no struct *)
    | Some fs =>
        match find_field fs (fun n => String.eqb n name) with
        | Some (true, _) => FoundPanic
        | Some (false, f) => if f_exported f then FoundValue (f_value f) else methods
        | None => methods
        end
    end.

(** LazyFunctionWrapper (110-142): any number of goroutines reduce the same
    getter.  [VNil] is the nil of Go. *)
Inductive phase : Type :=
| Waiting              (* before Lock *)
| Inside               (* holds the lock *)
| Called (v : val)     (* the callback has returned [v], not yet stored *)
| Leaving              (* before return self.cached and Unlock *)
| Returned (v : val).

(** protocols/lazy_wrapper.go:110-115 LazyFunctionWrapper and the goroutines
    that reduce it. *)
Record getter_state : Type := {
  cached : val;
  holder : option nat;
  calls : nat;                 (* how often the callback was called *)
  readers : list phase
}.

(** No counterpart in /repo: assignment to an element of a list. *)
Fixpoint set_nth {A} (n : nat) (x : A) (l : list A) : list A :=
  match l, n with
  | [], _ => []
  | _ :: l, O => x :: l
  | y :: l, S n => y :: set_nth n x l
  end.

(** No counterpart in /repo: a goroutine moves on. *)
Definition move (i : nat) (p : phase) (s : getter_state) : getter_state :=
  {| cached := cached s; holder := holder s; calls := calls s; readers := set_nth i p (readers s) |}.

Section Getter.
  (** The result of each call of the callback *)
  Variable callback : nat -> val.

  (** One statement of protocols/lazy_wrapper.go:132-142 ReduceWithScope. *)
  Inductive getter_step : getter_state -> getter_state -> Prop :=
  | Step_lock : forall s i, nth_error (readers s) i = Some Waiting -> holder s = None ->
      getter_step s {| cached := cached s; holder := Some i; calls := calls s;
                       readers := set_nth i Inside (readers s) |}
  | Step_call : forall s i, nth_error (readers s) i = Some Inside -> cached s = VNil ->
      getter_step s {| cached := cached s; holder := holder s; calls := S (calls s);
                       readers := set_nth i (Called (callback (calls s))) (readers s) |}
  | Step_skip : forall s i, nth_error (readers s) i = Some Inside -> cached s <> VNil ->
      getter_step s (move i Leaving s)
  | Step_store : forall s i v, nth_error (readers s) i = Some (Called v) ->
      getter_step s {| cached := v; holder := holder s; calls := calls s;
                       readers := set_nth i Leaving (readers s) |}
  | Step_return : forall s i, nth_error (readers s) i = Some Leaving ->
      getter_step s {| cached := cached s; holder := None; calls := calls s;
                       readers := set_nth i (Returned (cached s)) (readers s) |}.

  (** No counterpart in /repo: any interleaving. *)
  Inductive getter_steps : getter_state -> getter_state -> Prop :=
  | GS_refl : forall s, getter_steps s s
  | GS_step : forall s1 s2 s3, getter_steps s1 s2 -> getter_step s2 s3 -> getter_steps s1 s3.
End Getter.

(** [n] goroutines are about to reduce a new getter. A new
    protocols/lazy_wrapper.go:110-115 LazyFunctionWrapper. *)
Definition getter_start (n : nat) : getter_state :=
  {| cached := VNil; holder := None; calls := 0; readers := repeat Waiting n |}.
