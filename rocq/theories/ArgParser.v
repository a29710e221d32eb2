(** Extracting the arguments of a function or plugin into the fields of a Go
    struct: /repo/arg_parser/parser.go and args.go.

    The coercions need the scope (reducing lazy expressions, truth values,
    members of objects); these operations are parameters, so that the same
    code serves the evaluator and the theorems quantify over them. *)

From Coq Require Import ZArith List String Ascii Bool.
From Verif Require Import Base F64 Value Protocols Monad.
Import ListNotations.
Open Scope string_scope.
Open Scope list_scope.

(** Go types of struct fields that parser.go:430-485 and 492-500
    distinguishes; any other type is [TOther]. *)
Inductive ftype : Type :=
| TAny | TLazyAny | TStored | TLazy | TDict
| TStrings | TAnys | TDicts
| TString | TBool | TFloat64 | TFloat32 | TInt64 | TUint64 | TInt
| TOther.

(** parser.go:45-50 FieldParser; the coercion is determined by the type. *)
Record fieldp : Type := {
  fp_name : string;
  fp_idx : nat;
  fp_required : bool;
  fp_type : ftype
}.

(** The error of Parse. arg_parser/parser.go:56-95 Parse *)
Inductive perr : Type :=
| EMissing (field : string)
| ECoerce (field : string)
| EUnexpected (field : string).

(** A struct seen as the list of its fields' values.
    arg_parser/parser.go:56-95 Parse sets fields by their index. *)
Fixpoint set_field (i : nat) (v : val) (target : list val) : list val :=
  match target, i with
  | [], _ => []
  | _ :: r, O => v :: r
  | x :: r, S i' => x :: set_field i' v r
  end.

(** ** Declarations: BuildParser, parser.go:370-490 *)

(** strings.Split(s, sep) for a one byte separator. Called by
    arg_parser/parser.go:370-490 BuildParser. *)
Fixpoint split_on (c : ascii) (s : string) : list string :=
  match s with
  | EmptyString => [EmptyString]
  | String a r =>
      if Ascii.eqb a c then EmptyString :: split_on c r
      else match split_on c r with
           | [] => [String a EmptyString]
           | w :: ws => String a w :: ws
           end
  end.

(** A struct field: its Go name, its vfilter tag, its type, whether it is
    exported (CanSet). What arg_parser/parser.go:370-490 BuildParser reads by
    reflection. *)
Record sfield : Type := {
  sf_name : string;
  sf_tag : string;
  sf_type : ftype;
  sf_settable : bool
}.

(** parser.go:390-401; the map of options, the last directive wins. *)
Definition tag_option (options : list (string * string)) (directive : string)
  : list (string * string) :=
  match split_on "="%char directive with
  | key :: value :: _ => dict_set key value options
  | _ => dict_set directive "Y" options
  end.

(** The directives of arg_parser/parser.go:370-490 BuildParser. *)
Definition tag_options (tag : string) : list (string * string) :=
  fold_left tag_option (split_on ","%char tag) [].

(** parser.go:379-487.  [None] is an error; an empty name is a panic. *)
Fixpoint build_parser (i : nat) (fields : list sfield) : outcome (option (list fieldp)) :=
  match fields with
  | [] => Ok (Some [])
  | f :: rest =>
      if String.eqb (sf_tag f) "" || String.eqb (sf_tag f) "-" then build_parser (S i) rest
      else
        let options := tag_options (sf_tag f) in
        let name := match assoc "field" options with Some n => n | None => sf_name f end in
        if String.eqb name "" then Panic
        else if negb (sf_settable f) then Ok None
        else match sf_type f with
        | TOther => Ok None
        | t =>
            match build_parser (S i) rest with
            | Ok (Some l) =>
                Ok (Some ({| fp_name := name; fp_idx := i;
                             fp_required := match assoc "required" options with
                                            | Some _ => true | None => false end;
                             fp_type := t |} :: l))
            | other => other
            end
        end
  end.

Section Parser.
  Context {S : Type}.
  (** [lazy_arg, ok := arg.(types.LazyExpr); if ok { arg = lazy_arg.Reduce }] *)
  Variable reduce : val -> M S val.
  (** the same with ReduceWithScope *)
  Variable reduce_ws : val -> M S val.
  (** scope.Bool, scope.GetMembers, scope.Associative *)
  Variable truth : val -> M S bool.
  Variable members : val -> M S (list string).
  Variable associative : val -> string -> M S (val * bool).
  (** fmt.Sprintf("%v", x) *)
  Variable sprint : val -> string.
  (** args.go:182-193 ToStoredQuery, 246-256 ToLazyExpr *)
  Variable to_stored_query : val -> M S val.
  Variable to_lazy_expr : val -> M S val.
  (** utils/dict RowToDict *)
  Variable row_to_dict : val -> M S val.

  (** args.go:118-141: one element of a slice.  After appending the string
      of a single member the element is appended again. *)
  Definition string_elem (value : val) : M S (list string) :=
    match to_string value with
    | Some item => mret [item]
    | None =>
        ms <- members value ;;
        extra <- (match ms with
                  | [m] =>
                      '(v, ok) <- associative value m ;;
                      mret (if ok then match to_string v with Some s => [s] | None => [] end
                            else [])
                  | _ => mret []
                  end) ;;
        mret (extra ++ [sprint value])
    end.

  (** args.go:104-154 _ExtractStringArray.  reflect.ValueOf(nil).Type()
      panics. *)
  Definition extract_string_array (arg : val) : M S (list string) :=
    arg <- reduce arg ;;
    match arg with
    | VNil => mpanic
    | _ =>
        match arr_elems arg with
        | Some l => rs <- mmap string_elem l ;; mret (List.concat rs)
        | None =>
            mret [match to_string arg with Some s => s | None => sprint arg end]
        end
    end.

  (** args.go:156-179 _ExtractAnyArray *)
  Definition extract_any_array (arg : val) : M S (list val) :=
    arg <- reduce arg ;;
    match arg with
    | VNil => mpanic
    | _ => mret match arr_elems arg with Some l => l | None => [arg] end
    end.

  (** A Go slice built by append from nil. As in arg_parser/args.go:104-154
      _ExtractStringArray. *)
  Definition slice (l : list val) : val := match l with [] => VNilArr | _ => VArr l end.

  (** parser.go:147-367: the coercion of every field type, [None] is an
      error. *)
  Definition coerce (t : ftype) (arg : val) : M S (option val) :=
    match t with
    | TLazy => v <- to_lazy_expr arg ;; mret (Some v)
    | TStored => v <- to_stored_query arg ;; mret (Some v)
    | TAny => v <- reduce_ws arg ;; mret (Some v)
    | TLazyAny => mret (Some arg)
    | TStrings =>
        arg <- reduce arg ;;
        l <- extract_string_array arg ;;
        mret (Some (slice (map VStr l)))
    | TAnys =>
        arg <- reduce arg ;;
        l <- extract_any_array arg ;;
        mret (Some (slice l))
    | TDicts =>
        arg <- reduce arg ;;
        l <- extract_any_array arg ;;
        ds <- mmap row_to_dict (filter (fun x => negb (is_nil x)) l) ;;
        mret (Some (VArr ds))
    | TString =>
        arg <- reduce arg ;;
        single <- (if is_array arg then
                     l <- extract_string_array arg ;;
                     mret (match l with [x] => Some x | _ => None end)
                   else mret None) ;;
        mret (Some (VStr (match single with
                          | Some x => x
                          | None =>
                              match arg with
                              | VStr s => s
                              | VNil | VNull => ""
                              | _ => sprint arg
                              end
                          end)))
    | TBool => arg <- reduce arg ;; b <- truth arg ;; mret (Some (VBool b))
    | TFloat64 | TFloat32 =>
        arg <- reduce arg ;;
        mret (match to_float arg with Some f => Some (VF64 f) | None => None end)
    | TInt64 =>
        arg <- reduce arg ;;
        mret (match to_int64 arg with Some z => Some (vint z) | None => None end)
    | TUint64 =>
        arg <- reduce arg ;;
        mret (match to_int64 arg with Some z => Some (VInt KUint64 (wrapu64 z)) | None => None end)
    | TInt =>
        arg <- reduce arg ;;
        mret (match to_int64 arg with Some z => Some (VInt KInt z) | None => None end)
    | TDict =>
        arg <- reduce arg ;;
        match arg with
        | VDict _ => mret (Some arg)
        | VStr _ | VInt KInt64 _ | VInt KUint64 _ => mret None
        | _ =>
            if is_nil arg then mret (Some (VDict []))
            else
              ms <- members arg ;;
              kvs <- mmap (fun m => '(v, _) <- associative arg m ;; mret (m, v)) ms ;;
              mret (Some (VDict (fold_left (fun d kv => dict_set (fst kv) (snd kv) d) kvs [])))
        end
    | TOther => mret None                (* refused by BuildParser *)
    end.

  (** parser.go:79-80: reflect.Value.Set panics on a nil value and on a
      float64 stored in a float32 field. *)
  Definition set_ok (t : ftype) (v : val) : bool :=
    match t, v with
    | TFloat32, _ => false
    | _, VNil => false
    | _, _ => true
    end.

  (** parser.go:60-81; the names parsed so far, the struct, and the error if
      any. *)
  Fixpoint parse_fields (fields : list fieldp) (args : list (string * val))
    (parsed : list string) (target : list val) : M S (list string * list val * option perr) :=
    match fields with
    | [] => mret (parsed, target, None)
    | f :: rest =>
        match assoc (fp_name f) args with
        | None =>
            if fp_required f then mret (parsed, target, Some (EMissing (fp_name f)))
            else parse_fields rest args parsed target
        | Some value =>
            new_value <- coerce (fp_type f) value ;;
            match new_value with
            | None => mret (parsed, target, Some (ECoerce (fp_name f)))
            | Some v =>
                if set_ok (fp_type f) v
                then parse_fields rest args (parsed ++ [fp_name f]) (set_field (fp_idx f) v target)
                else mpanic
            end
        end
    end.

  (** parser.go:86-91 *)
  Fixpoint unexpected (parsed : list string) (names : list string) : option perr :=
    match names with
    | [] => None
    | k :: r => if mem_str k parsed then unexpected parsed r else Some (EUnexpected k)
    end.

  (** parser.go:56-95 Parse *)
  Definition parse (fields : list fieldp) (args : list (string * val)) (target : list val)
    : M S (list val * option perr) :=
    '(parsed, target, err) <- parse_fields fields args [] target ;;
    match err with
    | Some e => mret (target, Some e)
    | None =>
        if Nat.eqb (List.length parsed) (List.length args) then mret (target, None)
        else mret (target, unexpected parsed (keys args))
    end.

  (** parser.go:100-138 ParseAsFreeForm: the other arguments are returned in
      a dict. *)
  Definition parse_free_form (fields : list fieldp) (args : list (string * val)) (target : list val)
    : M S (list val * (perr + val)) :=
    '(parsed, target, err) <- parse_fields fields args [] target ;;
    match err with
    | Some e => mret (target, inl e)
    | None =>
        let kwargs :=
          if Nat.eqb (List.length parsed) (List.length args) then []
          else fold_left (fun d kv => if mem_str (fst kv) parsed then d
                                      else dict_set (fst kv) (snd kv) d) args [] in
        d <- row_to_dict (VDict kwargs) ;;
        mret (target, inr d)
    end.

  (** args.go:40-56 NormalizeArgs *)
  Definition normalize_args (args : list (string * val)) : M S (list (string * val)) :=
    match assoc "**" args with
    | None => mret args
    | Some alt =>
        alt <- reduce alt ;;
        match alt with VDict d => mret d | _ => mret args end
    end.

  (** args.go:58-78 ExtractArgsWithContext, with the parser already built. *)
  Definition extract_args (fields : list fieldp) (args : list (string * val)) (target : list val)
    : M S (list val * option perr) :=
    args <- normalize_args args ;; parse fields args target.

  (** args.go:80-100 ExtractKWArgsWithContext *)
  Definition extract_kwargs (fields : list fieldp) (args : list (string * val)) (target : list val)
    : M S (list val * (perr + val)) :=
    args <- normalize_args args ;; parse_free_form fields args target.
End Parser.
