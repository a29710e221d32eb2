(** What queries without side effects mean, written without reference to the
    evaluator: no scopes, lazy rows, heap, caches or fuel.  An environment is
    a list of frames, innermost first, each a dictionary. *)

From Coq Require Import ZArith List String Bool.
From Verif Require Import Base F64 Value Protocols Monad Chains Flatten Builtins Syntax Eval.
Import ListNotations.
Open Scope list_scope.

Definition dict : Type := list (string * val).

(** Data: no reference to an object of the evaluator or the host, and no nil
    slice. *)
Fixpoint plain (v : val) : bool :=
  match v with
  | VOpaque _ | VNilArr => false
  | VArr l | VQuery l => forallb plain l
  | VDict d => forallb (fun kv => plain (snd kv)) d
  | _ => true
  end.

Definition check (v : val) : option val := if plain v then Some v else None.

(** nil shows as NULL *)
Definition or_null (v : val) : val := if is_nil v then VNull else v.

Definition obind {A B} (o : option A) (f : A -> option B) : option B :=
  match o with Some a => f a | None => None end.

Fixpoint sequence {A} (l : list (option A)) : option (list A) :=
  match l with
  | [] => Some []
  | None :: _ => None
  | Some x :: r => option_map (cons x) (sequence r)
  end.

Definition dict_of {A} (l : list (string * A)) : list (string * A) :=
  fold_left (fun d kv => dict_set (fst kv) (snd kv) d) l [].

(** The innermost frame that has the name. *)
Fixpoint lookup (fr : list dict) (x : string) : val :=
  match fr with
  | [] => VNull
  | d :: r => match assoc x d with Some v => or_null v | None => lookup r x end
  end.

Section Spec.
  Variable E : env.

  (** What the functions compute, for those that have no side effect; the
      argument dictionary holds the values of the arguments. *)
  Variable funs : string -> option (dict -> option val).

  Notation P := (env_protos E).
  Definition truthy (v : val) : bool := bool_disp (p_bool P) v.

  Fixpoint and_value (last : val) (rs : list (string * val)) : val :=
    match rs with
    | [] => last
    | (op, v) :: r =>
        if truthy v then and_value (if String.eqb op "&&" then v else VBool true) r
        else VBool false
    end.

  Fixpoint or_value (last : val) (rs : list (string * val)) : val :=
    match rs with
    | [] => last
    | (op, v) :: r =>
        if truthy v then (if String.eqb op "||" then v else VBool true) else or_value v r
    end.

  Fixpoint add_value (acc : val) (rs : list (string * val)) : option val :=
    match rs with
    | [] => Some acc
    | (op, v) :: r =>
        obind (check (if String.eqb op "+" then add_disp (p_add P) acc v
                      else if String.eqb op "-" then sub_disp (p_sub P) acc v
                      else acc))
              (fun acc => add_value acc r)
    end.

  (** A multiplication that would panic has no value. *)
  Fixpoint mul_value (acc : val) (rs : list (string * val)) : option val :=
    match rs with
    | [] => Some acc
    | (op, v) :: r =>
        obind (if String.eqb op "*" then
                 match mul_disp (p_mul P) acc v with Ok x => check x | Panic => None end
               else check (if String.eqb op "/" then div_disp (p_div P) acc v else acc))
              (fun acc => mul_value acc r)
    end.

  (** [a.b.c]: a missing field gives NULL. *)
  Fixpoint follow (v : val) (path : list string) : option val :=
    match path with
    | [] => Some v
    | c :: r =>
        let (x, pres) := assoc_disp (p_assoc P) v (KVal (VStr c)) in
        if pres then obind (check x) (fun x => follow x r) else Some VNull
    end.

  Fixpoint index (v : val) (ks : list (option akey)) : option val :=
    match ks with
    | [] => Some v
    | None :: _ => Some VNull
    | Some k :: r =>
        let (x, pres) := assoc_disp (p_assoc P) v k in
        if pres then obind (check x) (fun x => index x r) else Some VNull
    end.

  (** A bound of a range that is not a number makes the result NULL. *)
  Definition bound (v : option val) : option (option Z) :=
    match v with
    | None => Some None
    | Some v => option_map Some (to_int64 v)
    end.

  Definition range_key (s e : option val) : option akey :=
    obind (bound s) (fun s => option_map (KRange s) (bound e)).

  (** Members of a list up to a trailing comma. *)
  Fixpoint items (l : list (option val)) : list val :=
    match l with
    | Some v :: r => v :: items r
    | _ => []
    end.

  Definition expand (v : val) : val := match v with VQuery rows => VArr rows | _ => v end.

  (** ** What the built in functions compute *)

  (** The arguments of a call: only those the function has, and all those it
      requires. *)
  Definition given {A} (allowed required : list string) (args : list (string * A)) : bool :=
    forallb (fun k => mem_str k allowed) (keys args) &&
    forallb (fun k => mem_str k (keys args)) required.

  (** An argument taken as a text, empty if missing; lists are left out. *)
  Definition text_arg (name : string) (args : dict) : option string :=
    match assoc name args with
    | Some (VStr s) => Some s
    | None | Some VNull | Some VNil => Some ""%string
    | Some (VArr _) | Some VNilArr => None
    | Some v => Some (env_sprint E v)
    end.

  (** An argument taken as an integer, 0 if missing. *)
  Definition int_arg (name : string) (args : dict) : option Z :=
    match assoc name args with None => Some 0%Z | Some v => to_int64 v end.

  (** The number of bytes of a text, of items of a list or a dictionary. *)
  Definition length_of (v : val) : Z :=
    match v with
    | VStr s => Z.of_nat (String.length s)
    | VArr l => Z.of_nat (List.length l)
    | VDict d => Z.of_nat (List.length d)
    | _ => 0
    end.

  (** What dict() stores: a query as the list of its rows, nil as NULL, also
      inside lists.  Lists nested ten deep are cut off, and left out here. *)
  Fixpoint stored (v : val) : val :=
    match v with
    | VNil => VNull
    | VQuery rows => VArr rows
    | VArr l => VArr (map stored l)
    | _ => v
    end.
  Fixpoint nesting (v : val) : nat :=
    match v with
    | VArr l => S (fold_right (fun x n => Nat.max (nesting x) n) 0 l)
    | _ => 0
    end.

  Definition if_value (args : dict) : val :=
    match assoc "condition" args with
    | None => VNull
    | Some c =>
        match assoc (if truthy c then "then" else "else")%string args with
        | Some v => v
        | None => VNull
        end
    end.

  (** Calls that pass their arguments in a dictionary ([**]) or pass nil, and
      get() of the variables in scope, are left out. *)
  Definition builtin_value (f : func) (args : dict) : option val :=
    if mem_str "**" (keys args) ||
       existsb (fun kv => match snd kv with VNil => true | _ => false end) args then None
    else match f with
    | FIf =>
        Some (if given ["condition"; "then"; "else"] ["condition"] args then if_value args else VNull)
    | FDict =>
        if forallb (fun kv => Nat.leb (nesting (snd kv)) 9) args
        then Some (VDict (map (fun kv => (fst kv, stored (snd kv))) args))
        else None
    | FLen =>
        Some (if given ["list"] ["list"] args
              then match assoc "list" args with Some v => VInt KInt (length_of v) | None => VNull end
              else VNull)
    | FGet =>
        obind (text_arg "member" args) (fun m =>
        if given ["item"; "member"] ["member"] args then
          obind (assoc "item" args) (fun item =>
          index item (map (fun c => Some (KVal (member_key c))) (member_path m)))
        else Some VNull)
    | FSplit =>
        obind (text_arg "string" args) (fun s =>
        obind (text_arg "sep" args) (fun sep =>
        obind (text_arg "sep_string" args) (fun sep_string =>
        Some (if given ["string"; "sep"; "sep_string"] ["string"] args then
                if negb (String.eqb sep "") then
                  match go_split (env_go E) sep s with
                  | Some l => VArr (map VStr l)
                  | None => VNull
                  end
                else if negb (String.eqb sep_string "") then VArr (map VStr (split_string s sep_string))
                else VNull
              else VNull))))
    | FEncode =>
        obind (text_arg "type" args) (fun type =>
        Some (match given ["string"; "type"] ["string"; "type"] args, assoc "string" args with
              | true, Some v =>
                  let s := match v with VStr s => s | _ => env_sprint E v end in
                  if String.eqb type "hex" then VStr (hex_string s)
                  else if String.eqb type "string" then VStr s
                  else if String.eqb type "utf16" then VStr (go_utf16 (env_go E) s)
                  else VNull
              | _, _ => VNull
              end))
    | FTimestamp =>
        Some (if given ["epoch"; "winfiletime"] [] args then
                match int_arg "epoch" args, int_arg "winfiletime" args with
                | Some e, Some w => timestamp_of e w
                | _, _ => VNull
                end
              else VNull)
    | FFormat =>
        obind (text_arg "format" args) (fun format =>
        Some (if given ["format"; "args"] ["format"] args then
                VStr (go_sprintf (env_go E) format
                        match assoc "args" args with
                        | None => []
                        | Some (VArr l) => l
                        | Some v => [v]
                        end)
              else VBool false))
    | _ => None
    end.

  (** The value of an expression; [None] for an expression outside the
      fragment: a call of anything but a function in [funs], a negated
      symbol, a value that is not data, a multiplication that panics. *)
  Fixpoint den (fr : list dict) (e : expr) {struct e} : option val :=
    match e with
    | ELit v => check v
    | ESym _ false (x :: path) false [] =>
        obind (check (lookup fr x)) (fun v => option_map or_null (follow v path))
    | ESym _ false [f] true params =>
        obind (funs f) (fun F =>
        obind (sequence (map (fun na =>
                 match na with
                 | (name, AExpr e) => option_map (fun v => (name, expand v)) (den fr e)
                 | (name, AArray e) => option_map (fun v => (name, v)) (den fr e)
                 | (name, AEmpty) => Some (name, VArr [])
                 | (_, ASelect _) => None
                 end) params)) (fun args =>
        obind (F (dict_of args)) (fun v => option_map or_null (check v))))
    | ESym _ _ _ _ _ => None
    | EComma l rs =>
        obind (den fr l) (fun l =>
        obind (sequence (map (fun r => match r with
                                       | Some e => option_map Some (den fr e)
                                       | None => Some None
                                       end) rs)) (fun rs =>
        Some (match l, rs with
              | VNil, _ => VNull
              | _, [] => l
              | _, _ => VArr (l :: items rs)
              end)))
    | EAnd l rs =>
        obind (den fr l) (fun l =>
        obind (sequence (map (fun oe => option_map (pair (fst oe)) (den fr (snd oe))) rs)) (fun rs =>
        Some (match rs with
              | [] => l
              | _ => if truthy l then and_value l rs else VBool false
              end)))
    | EOr l rs =>
        obind (den fr l) (fun l =>
        obind (sequence (map (fun oe => option_map (pair (fst oe)) (den fr (snd oe))) rs)) (fun rs =>
        Some (match rs with
              | [] => l
              | _ => if truthy l then l else or_value l rs
              end)))
    | EAdd l rs =>
        obind (den fr l) (fun l =>
        obind (sequence (map (fun oe => option_map (pair (fst oe)) (den fr (snd oe))) rs)) (fun rs =>
        add_value l rs))
    | EMul l rs =>
        obind (den fr l) (fun l =>
        obind (sequence (map (fun oe => option_map (pair (fst oe)) (den fr (snd oe))) rs)) (fun rs =>
        mul_value l rs))
    | ENot e => option_map (fun v => VBool (negb (truthy v))) (den fr e)
    | ECmp l op r =>
        obind (den fr l) (fun a =>
        option_map (fun b => VBool (cond_op P (env_match E) op a b)) (den fr r))
    | EMember l ts =>
        obind (den fr l) (fun v =>
        obind (sequence (map (fun t =>
                 match t with
                 | MField f => Some (Some (KVal (VStr f)))
                 | MIndex e => option_map (fun v => Some (KVal v)) (den fr e)
                 | MRange s e =>
                     obind (match s with None => Some None
                                       | Some s => option_map Some (den fr s) end) (fun s =>
                     obind (match e with None => Some None
                                       | Some e => option_map Some (den fr e) end) (fun e =>
                     Some (range_key s e)))
                 end) ts)) (fun ks =>
        index v ks))
    end.

  (** The columns of a result row: a column replaces an earlier one of the
      same name; a [*] that is not the first column adds the fields that
      are not there yet. *)
  Definition fields (row : dict) : dict := map (fun kv => (fst kv, or_null (snd kv))) row.

  (** The rows of a subquery, given the surrounding variables. *)
  Variable subq : list dict -> select -> option (list dict).

  (** What a row of a subquery contributes: its only field, or all of it. *)
  Definition cell (row : dict) : val :=
    match row with
    | [(_, v)] => or_null v
    | _ => VDict row
    end.

  (** A subquery with one row stands for that row, one with several for the
      list of them.  One without rows is a nil slice and outside of the
      fragment. *)
  Definition one_or_list (l : list val) : option val :=
    match l with
    | [] => None
    | [x] => Some x
    | _ => Some (VArr l)
    end.

  (** The value of a column that is not a star. *)
  Definition column (fr : list dict) (row : dict) (body : colbody) : option val :=
    match body with
    | CExpr e => option_map expand (den (row :: fr) e)
    | CSelect q =>
        obind (subq (row :: fr) q) (fun rows => option_map expand (one_or_list (map cell rows)))
    | CStar => None
    end.

  Fixpoint columns (fr : list dict) (row : dict) (cols : list (string * colbody)) (acc : dict)
    : option dict :=
    match cols with
    | [] => Some acc
    | (name, body) :: rest =>
        if String.eqb name "*" then
          columns fr row rest
            (acc ++ filter (fun kv => negb (mem_str (fst kv) (keys acc))) (fields row))
        else
          obind (column fr row body) (fun v => columns fr row rest (dict_set name v acc))
    end.

  (** One row of [SELECT cols FROM row]. *)
  Definition project (fr : list dict) (star : bool) (cols : list (string * colbody)) (row : dict)
    : option dict :=
    columns fr row cols (if star then fields row else []).

  (** The condition sees the columns of the result, then those of the row,
      then the surrounding variables. *)
  Definition holds (fr : list dict) (out row : dict) (where_ : option expr) : option bool :=
    match where_ with
    | None => Some true
    | Some w => option_map truthy (den (out :: row :: fr) w)
    end.

  (** [SELECT cols FROM rows WHERE w]: one result row for each row for which
      the condition holds, in order. *)
  Fixpoint select_rows (fr : list dict) (star : bool) (cols : list (string * colbody))
    (where_ : option expr) (rows : list dict) : option (list dict) :=
    match rows with
    | [] => Some []
    | row :: rest =>
        obind (project fr star cols row) (fun out =>
        obind (holds fr out row where_) (fun keep =>
        option_map (fun l => if keep then out :: l else l)
                   (select_rows fr star cols where_ rest)))
    end.
End Spec.

(** ** Queries *)

Fixpoint distinct (names : list string) : bool :=
  match names with
  | [] => true
  | x :: rest => negb (mem_str x rest) && distinct rest
  end.

(** A list of rows: dictionaries of data with different keys. *)
Fixpoint dicts (l : list val) : option (list dict) :=
  match l with
  | [] => Some []
  | VDict d :: rest =>
      if distinct (keys d) && plain (VDict d) then option_map (cons d) (dicts rest) else None
  | _ => None
  end.
Definition table (v : val) : option (list dict) :=
  match v with
  | VArr l | VQuery l => dicts l
  | VDict d => dicts [v]
  | _ => None
  end.

(** What ORDER BY finds in a row under the key. *)
Definition found_key (key : string) (row : dict) : val * bool :=
  match assoc key row with Some v => (or_null v, true) | None => (VNil, false) end.

(** ** FROM *)

Definition all_rows (l : list (option (list dict))) : option (list dict) :=
  option_map (@List.concat dict) (sequence l).

(** range(): from [start], in steps, up to but without [stop]; a step of 0 is
    1.  A step down, and a last step past the largest integer, are left
    out. *)
Definition range_values (start stop step : Z) : option (list Z) :=
  let step := if Z.eqb step 0 then 1%Z else step in
  if (0 <? step)%Z && (stop + step <=? two63)%Z && (- two63 <=? start)%Z && (start <? two63)%Z &&
     (- two63 <=? stop)%Z then
    Some (map (fun k => start + Z.of_nat k * step)%Z
              (seq 0 (Z.to_nat ((stop - start + step - 1) / step))))
  else None.

Section Source.
  Variable E : env.
  Variable funs : string -> option (dict -> option val).
  Variable subq : list dict -> select -> option (list dict).

  (** The value of an argument that is not a query. *)
  Definition arg_value (fr : list dict) (a : argval) : option val :=
    match a with
    | AExpr e | AArray e => den E funs fr e
    | AEmpty => Some (VArr [])
    | ASelect _ => None
    end.

  Definition whole_arg (fr : list dict) (name : string) (args : list (string * argval)) : option Z :=
    match assoc name args with
    | None => Some 0%Z
    | Some a => obind (arg_value fr a) to_int64
    end.

  (** The rows of a FROM clause: a list, a dictionary or a materialised query
      held in a variable, or one of the plugins. *)
  Definition source (fr : list dict) (p : plugin) : option (list dict) :=
    match p with
    | Plugin [x] false [] => table (lookup fr x)
    | Plugin [name] true args =>
        if negb (distinct (keys args)) then None
        else match assoc name (env_plugs E) with
        | Some PlForeach =>
            if given ["row"; "query"]%string ["row"]%string args then
              obind (match assoc "row" args with
                     | Some (ASelect q) => subq fr q
                     | Some a => obind (arg_value fr a) (fun v => dicts (iterate (env_iter E) v))
                     | None => None
                     end) (fun rows =>
              match assoc "query" args with
              | None => Some rows
              | Some (ASelect q) => all_rows (map (fun row => subq (row :: fr) q) rows)
              | _ => None
              end)
            else None
        | Some PlChain =>
            all_rows (map (fun na => match snd na with ASelect q => subq fr q | _ => None end) args)
        | Some PlIf =>
            if given ["condition"; "then"; "else"]%string ["condition"; "then"]%string args then
              match assoc "condition" args, assoc "then" args with
              | Some c, Some (ASelect q) =>
                  obind (arg_value fr c) (fun c =>
                  obind (match assoc "else" args with
                         | None => Some None
                         | Some (ASelect q) => Some (Some q)
                         | _ => None
                         end) (fun els =>
                  if match c with VNil => true | _ => false end then None
                  else if truthy E c then subq fr q
                  else match els with Some q => subq fr q | None => Some [] end))
              | _, _ => None
              end
            else None
        | Some PlFlatten =>
            if given ["query"]%string ["query"]%string args then
              match assoc "query" args with
              | Some (ASelect q) =>
                  obind (subq fr q) (fun rows =>
                  dicts (map VDict (List.concat (map (flatten_row (env_iter E)) rows))))
              | _ => None
              end
            else None
        | Some PlRange =>
            if given ["start"; "end"; "step"]%string ["end"]%string args then
              obind (whole_arg fr "start" args) (fun start =>
              obind (whole_arg fr "end" args) (fun stop =>
              obind (whole_arg fr "step" args) (fun step =>
              option_map (map (fun z => [("_value"%string, vint z)])) (range_values start stop step))))
            else None
        | _ => None
        end
    | _ => None
    end.
End Source.

(** [SELECT cols FROM p WHERE w ORDER BY key LIMIT n], with subqueries of the
    same form among the columns and the arguments of the plugin, nested at
    most [depth] deep.  A subquery among the columns sees the row the column
    belongs to, then what surrounds the query; the query of foreach() sees the
    row it runs for. *)
Fixpoint query_rows (E : env) (funs : string -> option (dict -> option val)) (depth : nat)
  (fr : list dict) (q : select) : option (list dict) :=
  match depth, q with
  | S depth, Select star cols from where_ None orderby limit =>
      obind (source E funs (query_rows E funs depth) fr from) (fun rows =>
      obind (select_rows E funs (query_rows E funs depth) fr star cols where_ rows) (fun out =>
      obind (match orderby with
             | None => Some out
             | Some (key, desc) =>
                 dicts (map snd (env_sort E (sort_less E desc)
                                   (map (fun r => (found_key key r, VDict r)) out)))
             end) (fun out =>
      match limit with
      | None => Some out
      | Some n => if Z.leb 1 n then Some (firstn (Z.to_nat n) out) else None
      end)))
  | _, _ => None
  end.

(** No subqueries. *)
Definition no_subq : list dict -> select -> option (list dict) := fun _ _ => None.

(** A function of the host that only looks at its arguments computes [F]:
    reducing an argument gives its value. *)
Inductive prog_den (E : env) (rho : val -> option val) : prog val -> val -> Prop :=
| PD_ret : forall v, prog_den E rho (PRet v) v
| PD_reduce : forall x k y v,
    rho x = Some y -> prog_den E rho (k y) v -> prog_den E rho (PReduce x k) v
| PD_reduce_ws : forall x k y v,
    rho x = Some y -> prog_den E rho (k y) v -> prog_den E rho (PReduceWS x k) v
| PD_truth : forall x k y v,
    rho x = Some y -> prog_den E rho (k (truthy E y)) v -> prog_den E rho (PTruth x k) v
| PD_iterate : forall x k y v,
    rho x = Some y ->
    prog_den E rho (k (match y with VQuery rows => rows | _ => iterate (env_iter E) y end)) v ->
    prog_den E rho (PIterate x k) v.

Definition computes (E : env) (h : dict -> prog val) (F : dict -> option val) : Prop :=
  forall rho args vals v,
    (forall x, plain x = true -> rho x = Some x) ->
    Forall2 (fun a b => fst a = fst b /\ rho (snd a) = Some (snd b)) args vals ->
    F vals = Some v -> prog_den E rho (h args) v.

(** A function computes [F]: a function of the host does, or [F] is what the
    built in function computes where [F] says anything. *)
Definition function_ok (E : env) (f : func) (F : dict -> option val) : Prop :=
  match f with
  | FHost h => computes E h F
  | FIf | FDict | FLen | FGet | FSplit | FEncode | FTimestamp | FFormat =>
      forall args v, F args = Some v -> builtin_value E f args = Some v
  | FScope | FCount | FSum | FMin | FMax | FEnumerate => False
  end.

(** The registered functions compute what [funs] says. *)
Definition funs_ok (E : env) (funs : string -> option (dict -> option val)) : Prop :=
  forall f F, funs f = Some F ->
    exists fn, assoc f (env_funs E) = Some fn /\ function_ok E fn F.

(** Every call node names one function; [owner] is that name. *)
Fixpoint labelled (owner : nat -> string) (e : expr) {struct e} : Prop :=
  match e with
  | ELit _ => True
  | ESym node _ [f] true params =>
      owner node = f /\
      (fix go (l : list (string * argval)) : Prop :=
         match l with
         | [] => True
         | (_, AExpr e) :: r | (_, AArray e) :: r => labelled owner e /\ go r
         | _ :: r => go r
         end) params
  | ESym _ _ _ _ _ => True
  | EComma l rs =>
      labelled owner l /\
      (fix go rs := match rs with
                    | [] => True
                    | Some e :: r => labelled owner e /\ go r
                    | None :: r => go r
                    end) rs
  | EAnd l rs | EOr l rs | EAdd l rs | EMul l rs =>
      labelled owner l /\
      (fix go (rs : list (string * expr)) := match rs with
                    | [] => True
                    | (_, e) :: r => labelled owner e /\ go r
                    end) rs
  | ENot e => labelled owner e
  | ECmp l _ r => labelled owner l /\ labelled owner r
  | EMember l ts =>
      labelled owner l /\
      (fix go (ts : list mterm) := match ts with
                    | [] => True
                    | MIndex e :: r => labelled owner e /\ go r
                    | MRange s e :: r =>
                        match s with Some s => labelled owner s | None => True end /\
                        match e with Some e => labelled owner e | None => True end /\ go r
                    | MField _ :: r => go r
                    end) ts
  end.
