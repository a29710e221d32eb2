(** Descriptions of Go types: types/introspection.go.

    The reflect package belongs to the Go library; what it reports about
    types is data here. *)

From Coq Require Import List String Ascii Bool Arith.
From Verif Require Import Base HostObject.
Import ListNotations.
Open Scope nat_scope.
Open Scope list_scope.
Open Scope string_scope.

(** A Go type. Everything that is not a pointer, slice, array or map literal
    is known by its name; this includes functions, channels and anonymous
    structs, whose name is their spelling. Two types with the same name are
    taken to be the same type. What reflect tells types/introspection.go:60-72
    addType. *)
Inductive gty : Type :=
| GNamed (name : string)
| GPtr (t : gty)
| GSlice (t : gty)
| GArray (length : string) (t : gty)
| GMap (k t : gty).

(** reflect.Type.String. Called by types/introspection.go:27-29
    canonicalTypeName. *)
Fixpoint type_string (t : gty) : string :=
  match t with
  | GNamed n => n
  | GPtr t => "*" ++ type_string t
  | GSlice t => "[]" ++ type_string t
  | GArray n t => "[" ++ n ++ "]" ++ type_string t
  | GMap k t => "map[" ++ type_string k ++ "]" ++ type_string t
  end.

(** introspection.go:27-29 canonicalTypeName: TrimLeft(s, "*[]") *)
Fixpoint trim_type (s : string) : string :=
  match s with
  | String c r => if (c =? "*")%char || (c =? "[")%char || (c =? "]")%char then trim_type r else s
  | EmptyString => EmptyString
  end.

(** types/introspection.go:27-29 canonicalTypeName *)
Definition canonical_name (t : gty) : string := trim_type (type_string t).

(** reflect.StructField; [tf_tag] is Tag.Get("vfilter"). Read by
    types/introspection.go:74-129 addFields. *)
Record tfield : Type := {
  tf_name : string;
  tf_tag : string;
  tf_embedded : bool;
  tf_type : gty
}.

(** A method; [tm_in] counts the arguments without the receiver. Read by
    types/introspection.go:131-185 addMethods. *)
Record tmethod : Type := {
  tm_name : string;
  tm_in : nat;
  tm_out : list gty
}.

(** What reflect knows about a type of a kind. Read by
    types/introspection.go:74-129 addFields. *)
Inductive kind : Type :=
| KStruct (fields : list tfield)
| KPtr (elem : gty)
| KSlice (elem : gty)
| KArray (elem : gty)
| KMap (elem : gty)
| KOther.

(** A named type: its kind and the method set of the pointer to it, in the
    order of reflect (none if it is an interface or a pointer). Read by
    types/introspection.go:131-185 addMethods. *)
Record tdef : Type := {
  td_kind : kind;
  td_methods : list tmethod
}.

(** The named types of the program. No counterpart in /repo: all types reflect
    knows. *)
Definition universe : Type := list (string * tdef).

(** reflect's Kind, read by types/introspection.go:74-129 addFields. *)
Definition kind_of (U : universe) (t : gty) : kind :=
  match t with
  | GNamed n => match assoc n U with Some d => td_kind d | None => KOther end
  | GPtr t => KPtr t
  | GSlice t => KSlice t
  | GArray _ t => KArray t
  | GMap _ t => KMap t
  end.

(** The methods that addMethods looks at (introspection.go:133-140): those of
    a pointer type, or of the pointer to the type. *)
Definition methods_of (U : universe) (t : gty) : list tmethod :=
  match t with
  | GNamed n | GPtr (GNamed n) =>
      match assoc n U with Some d => td_methods d | None => [] end
  | _ => []
  end.

(** types/functions.go:80-84 TypeReference *)
Record tref : Type := {
  tr_target : string;
  tr_repeated : bool;
  tr_tag : string
}.

(** types/functions.go:74-76, 87-89: the descriptions by type, in order *)
Definition tmap : Type := list (string * list (string * tref)).

(** [result] is shared with the map by a pointer: setting a field changes the
    entry in place. The Set of types/introspection.go:74-129 addFields and
    types/introspection.go:131-185 addMethods. *)
Definition describe (owner name : string) (r : tref) (m : tmap) : tmap :=
  map (fun kv => if String.eqb owner (fst kv) then (fst kv, dict_set name r (snd kv)) else kv) m.

(** introspection.go:106-119 and 167-180: the type that is described next *)
Definition element (k : kind) : option (bool * gty) :=
  match k with
  | KArray t | KSlice t => Some (true, t)
  | KMap t | KPtr t => Some (false, t)
  | KStruct _ | KOther => None
  end.

(** introspection.go:13 field_regex: the longest run of word characters *)
Definition word_char (c : ascii) : bool :=
  let n := nat_of_ascii c in
  (48 <=? n)%nat && (n <=? 57)%nat || (65 <=? n)%nat && (n <=? 90)%nat ||
  (97 <=? n)%nat && (n <=? 122)%nat || (n =? 95)%nat.

(** Part of types/introspection.go:74-129 addFields: types/introspection.go:13
    *)
Fixpoint take_word (s : string) : string :=
  match s with
  | String c r => if word_char c then String c (take_word r) else EmptyString
  | EmptyString => EmptyString
  end.

(** types/introspection.go:13 *)
Fixpoint strip_prefix (p s : string) : option string :=
  match p, s with
  | EmptyString, _ => Some s
  | String a p, String b s => if (a =? b)%char then strip_prefix p s else None
  | _, _ => None
  end.

(** FindStringSubmatch: the leftmost match. types/introspection.go:13, called
    by types/introspection.go:74-129 addFields. *)
Fixpoint field_match (s : string) : option string :=
  match strip_prefix "field=" s with
  | Some r =>
      match take_word r with
      | EmptyString => match s with String _ s => field_match s | EmptyString => None end
      | w => Some w
      end
  | None => match s with String _ s => field_match s | EmptyString => None end
  end.

(** introspection.go:121-125 *)
Definition described_name (f : tfield) : string :=
  match field_match (tf_tag f) with Some w => w | None => tf_name f end.

(** A loop whose body may run out of fuel. No counterpart in /repo: a Go loop.
    *)
Fixpoint fold_opt {A S} (f : A -> S -> option S) (l : list A) (s : S) : option S :=
  match l with
  | [] => Some s
  | a :: l => match f a s with Some s => fold_opt f l s | None => None end
  end.

Section Introspect.
  Variable same_upper : string -> bool.
  Variable U : universe.
  (** the members of the value that AddType was called with *)
  Variable members : list string.

  (** introspection.go:90-98 and 142-150 *)
  Definition wanted (name : string) : bool :=
    is_exported same_upper name &&
    match members with [] => true | _ => mem_str name members end.

  (** introspection.go:100-119, 127 and 162-182; [rec] is addType *)
  Definition add_reference (rec : gty -> tmap -> option tmap)
      (owner name tag : string) (t : gty) (m : tmap) : option tmap :=
    match element (kind_of U t) with
    | Some (repeated, e) =>
        match rec e m with
        | Some m => Some (describe owner name {| tr_target := canonical_name e; tr_repeated := repeated; tr_tag := tag |} m)
        | None => None
        end
    | None =>
        Some (describe owner name {| tr_target := canonical_name t; tr_repeated := false; tr_tag := tag |} m)
    end.

  (** introspection.go:80-128; [embedded] is addFields *)
  Definition add_field (rec : gty -> tmap -> option tmap) (embedded : gty -> tmap -> option tmap)
      (owner : string) (f : tfield) (m : tmap) : option tmap :=
    if tf_embedded f then embedded (tf_type f) m
    else if wanted (tf_name f) then
      add_reference rec owner (described_name f) (tf_tag f) (tf_type f) m
    else Some m.

  (** introspection.go:139-184 *)
  Definition add_method (rec : gty -> tmap -> option tmap) (owner : string) (mt : tmethod) (m : tmap) : option tmap :=
    if wanted (tm_name mt) && Nat.eqb (tm_in mt) 0 then
      match tm_out mt with
      | [t] | [t; _] => add_reference rec owner (tm_name mt) "" t m
      | _ => Some m
      end
    else Some m.

  (** introspection.go:60-72 addType and 74-129 addFields.  The recursion of
      the code is not bounded; [None] says that the fuel was used up. *)
  Fixpoint add_type (fuel : nat) (t : gty) (m : tmap) : option tmap :=
    match fuel with
    | O => None
    | S fuel =>
        let name := canonical_name t in
        if mem_str name (keys m) then Some m
        else match add_fields fuel name t (dict_set name [] m) with
             | Some m => fold_opt (add_method (add_type fuel) name) (methods_of U t) m
             | None => None
             end
    end
  with add_fields (fuel : nat) (owner : string) (t : gty) (m : tmap) : option tmap :=
    match fuel with
    | O => None
    | S fuel =>
        match kind_of U t with
        | KStruct fs => fold_opt (add_field (add_type fuel) (add_fields fuel owner) owner) fs m
        | _ => Some m
        end
    end.
End Introspect.

(** introspection.go:41-58 AddType of a value of type [t]: the name of the
    type and the new map.  A nil pointer panics and is left out. *)
Definition pointed_to (U : universe) (t : gty) : gty :=
  match kind_of U t with KPtr e => e | _ => t end.

(** types/introspection.go:41-58 AddType *)
Definition AddType (same_upper : string -> bool) (U : universe) (fuel : nat)
    (members : list string) (t : gty) (m : tmap) : option (string * tmap) :=
  match add_type same_upper U members fuel (pointed_to U t) m with
  | Some m => Some (canonical_name (pointed_to U t), m)
  | None => None
  end.

(** protocol_associative.go:327-363 GetMembers of a pointer to a struct, in
    terms of its type *)
Definition members_of_pointer (same_upper : string -> bool) (U : universe) (t : gty) : list string :=
  (match kind_of U t with
   | KStruct fs => filter (is_exported same_upper) (map tf_name fs)
   | _ => []
   end ++
   map tm_name (filter (fun mt => is_exported same_upper (tm_name mt) && Nat.eqb (tm_in mt) 0) (methods_of U t)))%list.

(** introspection.go:31-37 Get *)
Definition get_description (m : tmap) (name : string) : option (list (string * tref)) := assoc name m.
