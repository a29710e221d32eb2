(** Saving and restoring scopes: marshal/marshaller.go, marshal/unmarshal.go,
    scope/marshal.go, marshal.go.

    JSON texts are not modelled, only the trees they denote: encoding/json is
    taken to read back the tree it wrote, with every number read as the
    nearest float64. *)

From Coq Require Import ZArith List String Ascii Bool.
From Verif Require Import Base F64 Value Text Lexer Numeral Grammar Parser Format.
Import ListNotations.
Open Scope nat_scope.
Open Scope string_scope.
Open Scope list_scope.

(** ** JSON *)

(** What encoding/json reads and writes for marshal/marshaller.go:11-55
    Marshal. *)
Inductive json : Type :=
| JNull
| JBool (b : bool)
| JInt (z : Z)
| JFloat (f : f64)
| JStr (s : string)
| JArr (l : list json)
| JObj (d : list (string * json)).

(** What the host decides: how its own objects, times and float32s are
    written; [None] is an error. The json.Marshal of
    marshal/marshaller.go:11-55 Marshal. *)
Record jhost : Type := JHost {
  h_time : Z -> option json;
  h_f32 : f64 -> option json;
  h_opaque : nat -> option json
}.

(** Strings are written as UTF-8: each invalid byte becomes U+FFFD.
    json.Marshal of marshal/marshaller.go:11-55 Marshal. *)
Definition utf8_text (s : string) : string := encode_runes (runes s).

(** No counterpart in /repo: one error is an error of the whole. *)
Fixpoint collect {A} (l : list (option A)) : option (list A) :=
  match l with
  | [] => Some []
  | None :: _ => None
  | Some a :: r => match collect r with Some l => Some (a :: l) | None => None end
  end.
(** No counterpart in /repo: a value with its key. *)
Definition keyed {A} (k : string) (o : option A) : option (string * A) :=
  match o with Some a => Some (k, a) | None => None end.

(** json.Marshal.  NaN and the infinities are errors (UnsupportedValueError);
    Null encodes as null (types/null.go:10-12), a materialised query as its
    rows (materializer/in_memory.go), ordereddict in the order of its keys. *)
Section Encode.
  Variable H : jhost.
  (** The json.Marshal of marshal/marshaller.go:11-55 Marshal. *)
  Fixpoint enc (v : val) : option json :=
    match v with
    | VNil | VNull | VNilArr => Some JNull
    | VBool b => Some (JBool b)
    | VInt _ z => Some (JInt z)
    | VF64 f => match f with S754_nan | S754_infinity _ => None | _ => Some (JFloat f) end
    | VF32 f => h_f32 H f
    | VStr s => Some (JStr (utf8_text s))
    | VTime t => h_time H t
    | VArr l | VQuery l => option_map JArr (collect (map enc l))
    | VDict d => option_map JObj (collect (map (fun kv => keyed (utf8_text (fst kv)) (enc (snd kv))) d))
    | VOpaque n => h_opaque H n
    end.
End Encode.

(** What json.Unmarshal into an interface{} makes: nil, bool, float64, string,
    []interface{}, map[string]interface{}. Maps are listed here in the order
    written. The reader of ordereddict keeps that order (whether it reads
    integers as int64 or float64 is not modelled); a map read by encoding/json
    alone is a Go map, and for it the order means nothing: rows of a
    materialised query come back as Go maps and lose their order of columns.
    The json.Unmarshal of marshal/unmarshal.go:19-36 Unmarshal. *)
Inductive rval : Type :=
| RNull
| RBool (b : bool)
| RNum (f : f64)
| RStr (s : string)
| RArr (l : list rval)
| RMap (d : list (string * rval)).
(** The json.Unmarshal of marshal/unmarshal.go:19-36 Unmarshal. *)
Fixpoint dec (j : json) : rval :=
  match j with
  | JNull => RNull
  | JBool b => RBool b
  | JInt z => RNum (f_of_Z z)
  | JFloat f => RNum f
  | JStr s => RStr s
  | JArr l => RArr (map dec l)
  | JObj d => RMap (map (fun kv => (fst kv, dec (snd kv))) d)
  end.

(** ** Definitions *)

(** _StoredQuery and StoredExpression (stored.go): name, parameters (nil when
    empty), defaults by parameter, query or expression *)
Record def : Type := Def {
  f_name : string;
  f_params : list string;
  f_defaults : list (string * garg);
  f_body : gselect + gand
}.

(** VQL.Eval of LET name(ps) = body (vfilter.go:416-487), with
    getParameters (538-581) *)
Definition defaults_of (ps : list gparam) : list (string * garg) :=
  flat_map (fun p => match p with
                     | GDefault a => match default_for ps (unq (arg_name a)) with
                                     | Some d => [(unq (arg_name a), d)]
                                     | None => []
                                     end
                     | GName _ => []
                     end) ps.
(** vfilter.go:415-528 Eval *)
Definition def_of (x : gvql) : option def :=
  match x with
  | GLet name _ ps o body =>
      if String.eqb o "=" then Some (Def (unq name) (map param_name ps) (defaults_of ps) body) else None
  | GQuery _ => None
  end.

(** marshal.go:20-58 *)
Definition format_body (b : gselect + gand) : string :=
  match b with inl s => format_with fselect s | inr e => format_with fand e end.
(** marshal.go:20-38 Marshal, marshal.go:40-58 Marshal *)
Definition def_text (d : def) : string :=
  ("LET `" ++ f_name d ++ "`" ++
   (match f_params d with [] => "" | ps => "(" ++ String.concat ", " ps ++ ")" end) ++
   " = " ++ format_body (f_body d))%string.

(** ** Scopes *)

(** A variable: a value, a definition, or something read from JSON. A value in
    a row of a scope (scope/marshal.go:19-53 Marshal). *)
Inductive slot : Type :=
| SVal (v : val)
| SDef (d : def)
| SRead (r : rval).

(** MarshalItem: Type and Data. MarshalItem of types/marshal.go, as made by
    marshal/marshaller.go:11-55 Marshal. *)
Inductive item : Type :=
| IJson (j : json)              (* JSON *)
| IDict (j : json)              (* OrderedDict *)
| IReplay (text : string).      (* Replay *)

(** A JSON tree as a value, to write again what was read. No counterpart in
    /repo: a second marshal/marshaller.go:11-55 Marshal of what was read. *)
Fixpoint enc_read (r : rval) : json :=
  match r with
  | RNull => JNull
  | RBool b => JBool b
  | RNum f => JFloat f
  | RStr s => JStr s
  | RArr l => JArr (map enc_read l)
  | RMap d => JObj (map (fun kv => (fst kv, enc_read (snd kv))) d)
  end.

(** marshaller.go:11-54, marshal.go:33-37: the text of a definition is written
    as a JSON string, so bytes that are not UTF-8 are replaced.  A dictionary
    that was read is written as JSON here; OrderedDict reads the same. *)
Definition marshal_slot (H : jhost) (s : slot) : option item :=
  match s with
  | SDef d => Some (IReplay (utf8_text (def_text d)))
  | SVal (VDict d) => option_map IDict (enc H (VDict d))
  | SVal v => option_map IJson (enc H v)
  | SRead r => Some (IJson (enc_read r))
  end.

(** A scope: its frames, the newest last. Frames are dictionaries. The rows in
    vars of scope/scope.go:85-113 Scope. *)
Definition frame := list (string * slot).

(** Resolve (scope/scope.go:634-680) *)
Fixpoint find_in (k : string) (f : frame) : option slot :=
  match f with
  | [] => None
  | (n, s) :: r => if String.eqb n k then Some s else find_in k r
  end.
(** scope/scope.go:648-680 _ResolveVars *)
Fixpoint newest (k : string) (fs : list frame) : option slot :=
  match fs with
  | [] => None
  | f :: r => match find_in k f with Some s => Some s | None => newest k r end
  end.
(** scope/scope.go:634-646 Resolve *)
Definition lookup (k : string) (fs : list frame) : option slot := newest k (rev fs).

(** scope/marshal.go:28-34 *)
Definition skipped (k : string) : bool :=
  first_char (Ascii.eqb "$") k || String.eqb k "NULL" || String.eqb k "config" || String.eqb k "Artifact".

(** result.Vars[k] = ... In scope/marshal.go:19-53 Marshal. *)
Fixpoint put {A} (k : string) (a : A) (m : list (string * A)) : list (string * A) :=
  match m with
  | [] => [(k, a)]
  | (n, b) :: r => if String.eqb n k then (k, a) :: r else (n, b) :: put k a r
  end.
(** Scope.Marshal (19-53); [None] is an error.  The names are the keys of a
    JSON object, so bytes that are not UTF-8 are replaced.  (Of two names that
    become equal this keeps the later variable, JSON the greater name.) *)
Definition marshal_key (H : jhost) (fs : list frame) (m : option (list (string * item))) (k : string)
  : option (list (string * item)) :=
  match m with
  | None => None
  | Some m =>
      if skipped k then Some m
      else match lookup k fs with
           | None => Some m
           | Some s => match marshal_slot H s with Some i => Some (put (utf8_text k) i m) | None => None end
           end
  end.
(** scope/marshal.go:19-53 Marshal *)
Definition marshal_scope (H : jhost) (fs : list frame) : option (list (string * item)) :=
  fold_left (marshal_key H fs) (flat_map (fun f => map fst f) fs) (Some []).

(** ReplayUnmarshaller (marshal.go:62-82): the statement is evaluated in the
    new scope.  A text that does not parse is an error; other statements than
    LET = are not produced by Marshal. *)
Definition replay (text : string) (fs : list frame) : list frame :=
  match parse_vql text with
  | Some x => match def_of x with Some d => fs ++ [[(f_name d, SDef d)]] | None => fs end
  | None => fs
  end.
(** ScopeUnmarshaller (scope/marshal.go:59-88): [items] is the Vars map in the
    order it is ranged over; null is left out. *)
Fixpoint restore (ignore : list string) (items : list (string * item)) (fs : list frame) (env : frame) : list frame :=
  match items with
  | [] => fs ++ [env]
  | (k, i) :: r =>
      if existsb (String.eqb k) ignore then restore ignore r fs env
      else match i with
           | IReplay text => restore ignore r (replay text fs) env
           | IJson j | IDict j =>
               match dec j with
               | RNull => restore ignore r fs env
               | v => restore ignore r fs (put k (SRead v) env)
               end
           end
  end.
(** scope/marshal.go:59-88 Unmarshal *)
Definition unmarshal_scope (ignore : list string) (items : list (string * item)) (fs : list frame) : list frame :=
  restore ignore items fs [].
