(** EXPLAIN: evaluation with an explainer that reports what it sees
    (explain/logging_explainer.go).  The messages are put among the effects
    that the host sees, so that their place between the other effects is part
    of the model.

    Simplified: one explainer for all scopes; which queries are explained is a
    parameter [on] (the flag that a scope hands to its children,
    scope/scope.go:358, 616-631), so that all ways the flag may spread are
    covered; how a query and an expression are printed are parameters
    ([show_query], [show_expr]; FormatToString is Format.v); rows are read in
    the scope of the query, not in the one the explainer was made with; of a
    field only name and value are reported, not its type; the messages
    about the arguments of a call (arg_parser/args.go:71-98), which print them
    by reflection, are not modelled. *)

From Coq Require Import ZArith List String Ascii Bool.
From Verif Require Import Base F64 Value Protocols Monad Chains Range Flatten ArgParser Syntax Eval.
Import ListNotations.
Open Scope nat_scope.
Open Scope string_scope.
Open Scope list_scope.

(** No counterpart in /repo: a message of the explainer as a value of the
    trace of effects. *)
Definition message (kind : string) (what : val) : val :=
  VDict [("explain", VStr kind); ("what", what)].

(** fmt.Sprintf of a format without arguments, called by
    scope/dispatcher.go:254-263 Log: [%%] is one percent sign, any other verb
    has no argument, a percent sign at the end has no verb.  Simplified: no
    flags, widths and argument indexes. *)
Fixpoint printf0 (format : string) : string :=
  match format with
  | EmptyString => ""
  | String "%" EmptyString => "%!(NOVERB)"
  | String "%" (String c rest) =>
      if Ascii.eqb c "%" then String "%" (printf0 rest)
      else ("%!" ++ String c ("(MISSING)" ++ printf0 rest))%string
  | String c rest => String c (printf0 rest)
  end.

Section Explain.
  Variable E : env.
  Variable R : evals.
  Variable show_query : select -> string.
  Variable show_expr : expr -> string.

  (** Reading a row for a message: rows other than dictionaries may run
      queries or evaluate columns when they are read; this is marked. No
      counterpart in /repo: the mark. *)
  Definition mark (row : val) (ms : list string) : EM unit :=
    match row, ms with
    | VDict _, _ => mret tt
    | _, [] => mret tt
    | _, _ => observe (message "reads" row)
    end.

  (** The loops of logging_explainer.go:51-72 and 78-92: the members of the
      row that are present, with their values. *)
  Definition read_row (sc : scope) (row : val) : EM (list (string * val)) :=
    ms <- members row ;;
    mark row ms ;;;
    fields <- mmap (fun key => '(v, pres) <- assoc_step E R sc row (KVal (VStr key)) ;;
                               mret (if pres then [(key, v)] else [])) ms ;;
    mret (List.concat fields).

  (** logging_explainer.go:26-29 StartQuery *)
  Definition start_query (q : select) : EM unit :=
    observe (message "start" (VStr (show_query q))).

  (** logging_explainer.go:43-76 PluginOutput *)
  Definition plugin_output (sc : scope) (row : val) : EM unit :=
    fields <- read_row sc row ;; observe (message "sent" (VDict fields)).

  (** logging_explainer.go:78-95 SelectOutput *)
  Definition select_output (sc : scope) (row : val) : EM unit :=
    fields <- read_row sc row ;; observe (message "emit" (VDict fields)).

  (** logging_explainer.go:101-104 RejectRow: the text is used as a format. *)
  Definition reject_row (w : expr) : EM unit :=
    observe (message "reject" (VStr (printf0 (show_expr w)))).

  (** vfilter.go:718-770 processSingleRow *)
  Definition process_row_x (sc : scope) (star : bool) (cols : list (string * colbody))
    (where_ : option expr) (row : val) : EM (list val) :=
    let subscope := copy sc in
    t <- transform R subscope star cols row ;;
    match where_ with
    | None => r <- materialize_row R t ;; select_output sc r ;;; mret [r]
    | Some w =>
        v <- r_expr R (append_vars t (append_vars row (copy subscope))) w ;;
        b <- accepts E R sc v ;;
        if b then r <- materialize_row R t ;; select_output sc r ;;; mret [r]
        else reject_row w ;;; mret []
    end.

  (** vfilter.go:604-716 _Select.Eval with vfilter_group.go:84-122: grouping
      reports no rows, and the clauses LIMIT and ORDER BY start the query
      again without them. *)
  Definition select_x (fuel : nat) (sc : scope) (q : select) : EM (list val) :=
    start_query q ;;;
    match q with
    | Select star cols from where_ groupby orderby limit =>
        match limit with
        | Some n =>
            rows <- r_select R sc (Select star cols from where_ groupby orderby None) ;;
            mret (firstn (Z.to_nat (Z.max 1 n)) rows)
        | None =>
            match groupby with
            | Some g =>
                rows <- plugin_eval E R fuel sc from ;;
                bins <- group_rows E R (copy sc) star cols where_ g rows [] ;;
                let out := map (fun b => snd (snd b)) bins in
                match orderby with
                | None => mret out
                | Some (key, desc) => sort_rows E R sc key desc out
                end
            | None =>
                match orderby with
                | Some (key, desc) =>
                    rows <- r_select R sc (Select star cols from where_ None None None) ;;
                    sort_rows E R sc key desc rows
                | None =>
                    rows <- plugin_eval E R fuel sc from ;;
                    out <- mmap (fun row => plugin_output sc row ;;;
                                            process_row_x sc star cols where_ row) rows ;;
                    mret (List.concat out)
                end
            end
        end
    end.
End Explain.

(** No counterpart in /repo: the evaluators of Eval.v, where the queries that
    [on] selects are explained (vfilter.go:604-612). *)
Fixpoint ev_x (E : env) (on : scope -> select -> bool) (show_query : select -> string)
  (show_expr : expr -> string) (fuel : nat) : evals :=
  match fuel with
  | O => ev0
  | S f =>
      let R := ev_x E on show_query show_expr f in
      {| r_expr := expr_step E R;
         r_select := fun sc q =>
           if on sc q then select_x E R show_query show_expr f sc q else select_step E R f sc q;
         r_query := query_step R;
         r_assoc := assoc_step E R;
         r_reduce := reduce_step R;
         r_reduce_ws := reduce_ws_step R;
         r_evalsym := evalsym_step R;
         r_negate := negate_step R;
         r_normalize := normalize_step R;
         r_tostring := tostring_step E R |}
  end.

(** Statements of a session with the keyword EXPLAIN or without
    (vfilter.go:583-597 Explain): a query runs in a copy of the session's
    scope (vfilter.go:492-495), and so does LET x <= (vfilter.go:480-482,
    materializer/in_memory.go:88-93, types/stored_query.go:14-23), so the flag
    that scope/scope.go:616-621 EnableExplain sets in that copy is handed to
    everything the statement evaluates and to nothing else.  Simplified:
    EXPLAIN written inside of a query or of LET x = is not modelled. *)
Fixpoint run_stmts_x (E : env) (show_query : select -> string) (show_expr : expr -> string)
  (fuel : nat) (sc : scope) (qs : list (bool * stmt)) : EM (scope * list (list val)) :=
  match qs with
  | [] => mret (sc, [])
  | (keyword, q) :: rest =>
      '(sc, rows) <- stmt_eval (ev_x E (fun _ _ => keyword) show_query show_expr fuel) sc q ;;
      '(sc, out) <- run_stmts_x E show_query show_expr fuel sc rest ;;
      mret (sc, match q with SQuery _ _ => rows :: out | _ => out end)
  end.
