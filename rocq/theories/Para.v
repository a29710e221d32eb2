(** Every relation between computations that is closed under sequencing and
    relates each primitive operation on the state to itself, relates each
    step of the evaluator to itself.  Instances: more fuel gives the same
    result (below); quantities of the state that never decrease. *)

From Coq Require Import ZArith List String Bool Lia PeanoNat.
From Verif Require Import Base F64 Value Protocols Monad Chains Range Flatten ArgParser Syntax Eval Runs.
Import ListNotations.

(** The primitive operations on the state; updates of objects are only those
    of the caches of rows and of lazy expressions. *)
Record closed (rel : forall A : Type, EM A -> EM A -> Prop) : Prop := {
  cl_ret : forall A (a : A), rel A (mret a) (mret a);
  cl_panic : forall A, rel A mpanic mpanic;
  cl_bind : forall A B (m m' : EM A) (f f' : A -> EM B),
    rel A m m' -> (forall a, rel B (f a) (f' a)) -> rel B (mbind m f) (mbind m' f');
  cl_alloc : forall o, rel _ (alloc o) (alloc o);
  cl_obj_of : forall v, rel _ (obj_of v) (obj_of v);
  cl_row_get : forall R R' n k, (forall g, rel _ (run_getter R g) (run_getter R' g)) ->
    rel _ (row_get R n k) (row_get R' n k);
  cl_reduce : forall R R' v,
    (forall sc v, rel _ (r_reduce_ws R sc v) (r_reduce_ws R' sc v)) ->
    rel _ (reduce_step R v) (reduce_step R' v);
  cl_observe : forall v, rel _ (observe v) (observe v);
  cl_fresh_agg : forall sc, rel _ (fresh_agg sc) (fresh_agg sc);
  cl_own_cell : forall sc, rel _ (own_cell sc) (own_cell sc);
  cl_set_agg : forall sc c, rel _ (set_agg sc c) (set_agg sc c);
  cl_new_ctx : rel _ new_ctx new_ctx;
  cl_modify : forall sc id f, rel _ (modify sc id f) (modify sc id f);
  cl_members : forall v, rel _ (members v) (members v);
  cl_node_function : forall n f, rel _ (node_function n f) (node_function n f);
  cl_split_symbol : forall n b, rel _ (split_symbol n b) (split_symbol n b)
}.

Section Para.
  Variable rel : forall A : Type, EM A -> EM A -> Prop.
  Hypothesis CL : closed rel.
  Arguments rel {A}.

  Record related (R R' : evals) : Prop := {
    re_expr : forall sc e, rel (r_expr R sc e) (r_expr R' sc e);
    re_select : forall sc q, rel (r_select R sc q) (r_select R' sc q);
    re_query : forall sc q, rel (r_query R sc q) (r_query R' sc q);
    re_assoc : forall sc a k, rel (r_assoc R sc a k) (r_assoc R' sc a k);
    re_reduce : forall v, rel (r_reduce R v) (r_reduce R' v);
    re_reduce_ws : forall sc v, rel (r_reduce_ws R sc v) (r_reduce_ws R' sc v);
    re_evalsym : forall sc v, rel (r_evalsym R sc v) (r_evalsym R' sc v);
    re_negate : forall sc v, rel (r_negate R sc v) (r_negate R' sc v);
    re_normalize : forall sc d v, rel (r_normalize R sc d v) (r_normalize R' sc d v);
    re_tostring : forall sc v, rel (r_tostring R sc v) (r_tostring R' sc v)
  }.

  Variable E : env.
  Variables R R' : evals.
  Variables fuel fuel' : nat.
  Hypothesis RR : related R R'.
  (** range() counts its own fuel. *)
  Hypothesis RANGE : forall i j k,
    rel (match range_rows fuel i j k with
         | Some l => mret (map (fun z => value_row (vint z)) l) | None => mfuel end)
        (match range_rows fuel' i j k with
         | Some l => mret (map (fun z => value_row (vint z)) l) | None => mfuel end).

  Ltac prim :=
    first [ apply (cl_ret _ CL) | apply (cl_panic _ CL) | apply (cl_alloc _ CL)
          | apply (cl_obj_of _ CL) | apply (cl_observe _ CL)
          | apply (cl_fresh_agg _ CL) | apply (cl_own_cell _ CL) | apply (cl_set_agg _ CL)
          | apply (cl_new_ctx _ CL) | apply (cl_modify _ CL) | apply (cl_members _ CL)
          | apply (cl_node_function _ CL) | apply (cl_split_symbol _ CL)
          | apply (re_expr _ _ RR) | apply (re_select _ _ RR) | apply (re_query _ _ RR)
          | apply (re_assoc _ _ RR) | apply (re_reduce _ _ RR) | apply (re_reduce_ws _ _ RR)
          | apply (re_evalsym _ _ RR) | apply (re_negate _ _ RR) | apply (re_normalize _ _ RR)
          | apply (re_tostring _ _ RR) | apply RANGE | solve [auto with para] ].

  Ltac split_match :=
    match goal with
    | |- @rel _ (match ?x with _ => _ end) (match ?x with _ => _ end) => destruct x
    | |- @rel _ (if ?x then _ else _) (if ?x then _ else _) => destruct x
    | |- @rel _ (let (_, _) := ?x in _) (let (_, _) := ?x in _) => destruct x
    end.

  Ltac para :=
    intros; cbv beta;
    repeat (first [ prim
                  | apply (cl_bind _ CL); [|intros; cbv beta]
                  | split_match; cbv beta ]).

  Lemma pa_mmap : forall A B (f f' : A -> EM B) l,
    (forall a, rel (f a) (f' a)) -> rel (mmap f l) (mmap f' l).
  Proof. intros A B f f' l H. induction l as [|x l IH]; cbn [mmap]; para; [apply H|exact IH]. Qed.
  Hint Resolve pa_mmap : para.

  Ltac pmap := apply pa_mmap; intros; cbv beta.

  Lemma pa_resolve_frames : forall sc frs f d,
    rel (resolve_frames R sc frs f d) (resolve_frames R' sc frs f d).
  Proof. intros sc frs. induction frs as [|x l IH]; intros; cbn [resolve_frames]; para; apply IH. Qed.
  Hint Resolve pa_resolve_frames : para.
  Lemma pa_resolve : forall sc f, rel (resolve R sc f) (resolve R' sc f).
  Proof. intros. unfold resolve. para. Qed.
  Hint Resolve pa_resolve : para.
  Lemma pa_materialize : forall sc q, rel (materialize R sc q) (materialize R' sc q).
  Proof. intros. unfold materialize, materialize_rows. para. Qed.
  Hint Resolve pa_materialize : para.
  Lemma pa_materialize_rows : forall sc q, rel (materialize_rows R sc q) (materialize_rows R' sc q).
  Proof. intros. unfold materialize_rows. para. Qed.
  Hint Resolve pa_materialize_rows : para.
  Lemma pa_subselect_item : forall sc i, rel (subselect_item R sc i) (subselect_item R' sc i).
  Proof. intros. unfold subselect_item. para. Qed.
  Lemma pa_col_reduce : forall sc b, rel (col_reduce R sc b) (col_reduce R' sc b).
  Proof. intros. unfold col_reduce. para. pmap. apply pa_subselect_item. Qed.
  Hint Resolve pa_col_reduce : para.
  Lemma pa_run_getter : forall g, rel (run_getter R g) (run_getter R' g).
  Proof. intros. unfold run_getter. para. Qed.
  Hint Resolve pa_run_getter : para.
  Lemma pa_row_get : forall n k, rel (row_get R n k) (row_get R' n k).
  Proof. intros. apply (cl_row_get _ CL). apply pa_run_getter. Qed.
  Hint Resolve pa_row_get : para.
  Lemma pa_materialize_columns : forall n cs r,
    rel (materialize_columns R n cs r) (materialize_columns R' n cs r).
  Proof. intros n cs. induction cs as [|c cs IH]; intros; cbn [materialize_columns]; para; apply IH. Qed.
  Hint Resolve pa_materialize_columns : para.
  Lemma pa_materialize_row : forall v, rel (materialize_row R v) (materialize_row R' v).
  Proof. intros. unfold materialize_row. para. Qed.
  Hint Resolve pa_materialize_row : para.
  Lemma pa_query_index : forall sc rows i k r,
    rel (query_index R sc rows i k r) (query_index R' sc rows i k r).
  Proof. intros sc rows. induction rows as [|x l IH]; intros; cbn [query_index]; para; apply IH. Qed.
  Hint Resolve pa_query_index : para.
  Lemma pa_assoc_elems : forall sc l k, rel (assoc_elems R sc l k) (assoc_elems R' sc l k).
  Proof. intros sc l. induction l as [|x l IH]; intros; cbn [assoc_elems]; para; apply IH. Qed.
  Hint Resolve pa_assoc_elems : para.
  Lemma pa_assoc_other : forall sc a o k, rel (assoc_other E R sc a o k) (assoc_other E R' sc a o k).
  Proof. intros. unfold assoc_other. para. Qed.
  Hint Resolve pa_assoc_other : para.
  Lemma pa_assoc_step : forall sc a k, rel (assoc_step E R sc a k) (assoc_step E R' sc a k).
  Proof. intros. unfold assoc_step. para; pmap; para. Qed.
  Lemma pa_truth : forall sc v, rel (truth E R sc v) (truth E R' sc v).
  Proof. intros. unfold truth. para. Qed.
  Hint Resolve pa_truth : para.
  Lemma pa_addf : forall sc a b, rel (addf E R sc a b) (addf E R' sc a b).
  Proof. intros. unfold addf. para. Qed.
  Lemma pa_subf : forall sc a b, rel (subf E R sc a b) (subf E R' sc a b).
  Proof. intros. unfold subf. para. Qed.
  Lemma pa_mulf : forall sc a b, rel (mulf E R sc a b) (mulf E R' sc a b).
  Proof. intros. unfold mulf. para. Qed.
  Lemma pa_divf : forall sc a b, rel (divf E R sc a b) (divf E R' sc a b).
  Proof. intros. unfold divf. para. Qed.
  Lemma pa_cmpf : forall sc op a b, rel (cmpf E R sc op a b) (cmpf E R' sc op a b).
  Proof. intros. unfold cmpf. para. Qed.
  Hint Resolve pa_addf pa_subf pa_mulf pa_divf pa_cmpf : para.
  Lemma pa_arg_eager : forall sc a, rel (arg_eager R sc a) (arg_eager R' sc a).
  Proof. intros. unfold arg_eager. para. Qed.
  Hint Resolve pa_arg_eager : para.
  Lemma pa_build_args : forall sc ps a, rel (build_args R sc ps a) (build_args R' sc ps a).
  Proof. intros sc ps. induction ps as [|[n x] l IH]; intros; cbn [build_args]; para; apply IH. Qed.
  Hint Resolve pa_build_args : para.
  Lemma pa_build_lazy_args : forall sc ps a,
    rel (build_lazy_args R sc ps a) (build_lazy_args R' sc ps a).
  Proof. intros sc ps. induction ps as [|[n x] l IH]; intros; cbn [build_lazy_args]; para; apply IH. Qed.
  Hint Resolve pa_build_lazy_args : para.
  Lemma pa_apply_defaults : forall sc ds a, rel (apply_defaults R sc ds a) (apply_defaults R' sc ds a).
  Proof. intros sc ds. induction ds as [|[n [w x]] l IH]; intros; cbn [apply_defaults]; para; apply IH. Qed.
  Hint Resolve pa_apply_defaults : para.
  Lemma pa_run_prog : forall A sc (p : prog A), rel (run_prog E R sc p) (run_prog E R' sc p).
  Proof.
    intros A sc p. induction p as [a| |v k IH|v k IH|v k IH|v k IH|v k IH]; cbn [run_prog]; para; apply IH.
  Qed.
  Hint Resolve pa_run_prog : para.
  Lemma pa_to_stored_query : forall a, rel (to_stored_query R a) (to_stored_query R' a).
  Proof. intros. unfold to_stored_query. para. Qed.
  Hint Resolve pa_to_stored_query : para.
  Lemma pa_to_lazy_expr : forall a, rel (to_lazy_expr a) (to_lazy_expr a).
  Proof. intros. unfold to_lazy_expr. para. Qed.
  Hint Resolve pa_to_lazy_expr : para.
  Lemma pa_row_to_dict_loop : forall sc row cs r,
    rel (row_to_dict_loop R sc row cs r) (row_to_dict_loop R' sc row cs r).
  Proof. intros sc row cs. induction cs as [|c cs IH]; intros; cbn [row_to_dict_loop]; para; apply IH. Qed.
  Hint Resolve pa_row_to_dict_loop : para.
  Lemma pa_row_to_dict : forall sc row, rel (row_to_dict R sc row) (row_to_dict R' sc row).
  Proof. intros. unfold row_to_dict. para. Qed.
  Hint Resolve pa_row_to_dict : para.
  Lemma pa_normalize_step : forall sc d v, rel (normalize_step R sc d v) (normalize_step R' sc d v).
  Proof. intros. unfold normalize_step. para. pmap. para. Qed.
  Lemma pa_tostring_step : forall sc v, rel (tostring_step E R sc v) (tostring_step E R' sc v).
  Proof. intros. unfold tostring_step. para. Qed.

  Lemma pa_string_elem : forall sc v,
    rel (string_elem members (fun a k => r_assoc R sc a (KVal (VStr k))) (env_sprint E) v)
        (string_elem members (fun a k => r_assoc R' sc a (KVal (VStr k))) (env_sprint E) v).
  Proof. intros. unfold string_elem. para. Qed.
  Lemma pa_extract_strings : forall sc v,
    rel (extract_string_array (r_reduce R) members (fun a k => r_assoc R sc a (KVal (VStr k))) (env_sprint E) v)
        (extract_string_array (r_reduce R') members (fun a k => r_assoc R' sc a (KVal (VStr k))) (env_sprint E) v).
  Proof. intros. unfold extract_string_array. para; pmap; apply pa_string_elem. Qed.
  Lemma pa_extract_anys : forall v,
    rel (extract_any_array (r_reduce R) v) (extract_any_array (r_reduce R') v).
  Proof. intros. unfold extract_any_array. para. Qed.
  Hint Resolve pa_extract_strings pa_extract_anys : para.
  Lemma pa_coerce : forall sc t a,
    rel (coerce (r_reduce R) (r_reduce_ws R sc) (truth E R sc) members
           (fun a k => r_assoc R sc a (KVal (VStr k))) (env_sprint E)
           (to_stored_query R) to_lazy_expr (row_to_dict R sc) t a)
        (coerce (r_reduce R') (r_reduce_ws R' sc) (truth E R' sc) members
           (fun a k => r_assoc R' sc a (KVal (VStr k))) (env_sprint E)
           (to_stored_query R') to_lazy_expr (row_to_dict R' sc) t a).
  Proof. intros sc t a. destruct t; cbn [coerce]; para; pmap; para. Qed.
  Hint Resolve pa_coerce : para.
  Lemma pa_parse_fields : forall sc fs args parsed target,
    rel (parse_fields (r_reduce R) (r_reduce_ws R sc) (truth E R sc) members
           (fun a k => r_assoc R sc a (KVal (VStr k))) (env_sprint E)
           (to_stored_query R) to_lazy_expr (row_to_dict R sc) fs args parsed target)
        (parse_fields (r_reduce R') (r_reduce_ws R' sc) (truth E R' sc) members
           (fun a k => r_assoc R' sc a (KVal (VStr k))) (env_sprint E)
           (to_stored_query R') to_lazy_expr (row_to_dict R' sc) fs args parsed target).
  Proof.
    intros sc fs args. induction fs as [|f fs IH]; intros; cbn [parse_fields]; para; apply IH.
  Qed.
  Hint Resolve pa_parse_fields : para.
  Lemma pa_parse_args : forall sc fs args target,
    rel (parse_args E R sc fs args target) (parse_args E R' sc fs args target).
  Proof. intros. unfold parse_args, extract_args, normalize_args, parse. para. Qed.
  Hint Resolve pa_parse_args : para.
  Lemma pa_if_else : forall sc e, rel (if_else R sc e) (if_else R' sc e).
  Proof. intros. unfold if_else. para. Qed.
  Hint Resolve pa_if_else : para.
  Lemma pa_get_path : forall sc path v, rel (get_path R sc v path) (get_path R' sc v path).
  Proof. intros sc path. induction path as [|c path IH]; intros; cbn [get_path]; para; apply IH. Qed.
  Hint Resolve pa_get_path : para.
  Lemma pa_call_func : forall sc f id args, rel (call_func E R sc f id args) (call_func E R' sc f id args).
  Proof.
    intros sc f id args. destruct f; cbn [call_func];
      unfold if_function, len_function, get_function, split_function, encode_function,
        timestamp_function, format_function, count_function, sum_function, minmax_function,
        enumerate_function; para.
  Qed.
  Hint Resolve pa_call_func : para.
  Lemma pa_call_function : forall sc n f ps,
    rel (call_function E R sc n f ps) (call_function E R' sc n f ps).
  Proof. intros. unfold call_function. para. Qed.
  Hint Resolve pa_call_function : para.
  Lemma pa_assoc_path : forall sc path v, rel (assoc_path R sc v path) (assoc_path R' sc v path).
  Proof. intros sc path. induction path as [|c path IH]; intros; cbn [assoc_path]; para; apply IH. Qed.
  Hint Resolve pa_assoc_path : para.
  Lemma pa_lookup_path : forall sc path, rel (lookup_path R sc path) (lookup_path R' sc path).
  Proof. intros. unfold lookup_path. para. Qed.
  Hint Resolve pa_lookup_path : para.
  Lemma pa_negate_step : forall sc v, rel (negate_step R sc v) (negate_step R' sc v).
  Proof. intros. unfold negate_step. para. Qed.
  Lemma pa_maybe_negate : forall sc b v, rel (maybe_negate R sc b v) (maybe_negate R' sc b v).
  Proof. intros. unfold maybe_negate. para. Qed.
  Hint Resolve pa_maybe_negate : para.
  Lemma pa_sym_reduce : forall sc n neg path called ps,
    rel (sym_reduce E R sc n neg path called ps) (sym_reduce E R' sc n neg path called ps).
  Proof. intros. unfold sym_reduce. para. Qed.
  Hint Resolve pa_sym_reduce : para.
  Lemma pa_range_bound : forall sc e, rel (range_bound R sc e) (range_bound R' sc e).
  Proof. intros. unfold range_bound. para. Qed.
  Hint Resolve pa_range_bound : para.
  Lemma pa_member_terms : forall sc ts v, rel (member_terms R sc v ts) (member_terms R' sc v ts).
  Proof. intros sc ts. induction ts as [|t ts IH]; intros; cbn [member_terms]; para; apply IH. Qed.
  Hint Resolve pa_member_terms : para.

  Lemma pa_and_loop : forall sc rs last,
    rel (and_loop (truth E R sc) last (terms R sc rs)) (and_loop (truth E R' sc) last (terms R' sc rs)).
  Proof. intros sc rs. induction rs as [|[op e] rs IH]; intros; cbn [terms map and_loop fst snd]; para; apply IH. Qed.
  Lemma pa_or_loop : forall sc rs last,
    rel (or_loop (truth E R sc) last (terms R sc rs)) (or_loop (truth E R' sc) last (terms R' sc rs)).
  Proof. intros sc rs. induction rs as [|[op e] rs IH]; intros; cbn [terms map or_loop fst snd]; para; apply IH. Qed.
  Lemma pa_add_loop : forall sc rs last,
    rel (add_loop (addf E R sc) (subf E R sc) last (terms R sc rs))
        (add_loop (addf E R' sc) (subf E R' sc) last (terms R' sc rs)).
  Proof. intros sc rs. induction rs as [|[op e] rs IH]; intros; cbn [terms map add_loop fst snd]; para; apply IH. Qed.
  Lemma pa_mul_loop : forall sc rs last,
    rel (mul_loop (mulf E R sc) (divf E R sc) last (terms R sc rs))
        (mul_loop (mulf E R' sc) (divf E R' sc) last (terms R' sc rs)).
  Proof. intros sc rs. induction rs as [|[op e] rs IH]; intros; cbn [terms map mul_loop fst snd]; para; apply IH. Qed.
  Lemma pa_comma_loop : forall sc rs acc,
    rel (comma_loop acc (map (option_map (r_expr R sc)) rs))
        (comma_loop acc (map (option_map (r_expr R' sc)) rs)).
  Proof. intros sc rs. induction rs as [|[e|] rs IH]; intros; cbn [map option_map comma_loop]; para; apply IH. Qed.

  Lemma pa_expr_step : forall sc e, rel (expr_step E R sc e) (expr_step E R' sc e).
  Proof.
    intros sc e. destruct e; cbn [expr_step]; [para|para| | | | | |unfold not_reduce; para|para|para].
    - unfold comma_reduce. apply (cl_bind _ CL); [para|]. intros v.
      destruct rs as [|r rs]; [para|]. cbn [map]. pose proof (pa_comma_loop sc (r :: rs) [v]) as H.
      cbn [map] in H. destruct v; first [apply H|para].
    - unfold and_reduce. apply (cl_bind _ CL); [para|]. intros v.
      pose proof (pa_and_loop sc rs v) as H. destruct rs; [para|].
      cbn [terms map] in *. para.
    - unfold or_reduce. apply (cl_bind _ CL); [para|]. intros v.
      pose proof (pa_or_loop sc rs v) as H. destruct rs; [para|].
      cbn [terms map] in *. para.
    - unfold add_reduce. apply (cl_bind _ CL); [para|]. intros v. apply pa_add_loop.
    - unfold mul_reduce. apply (cl_bind _ CL); [para|]. intros v. apply pa_mul_loop.
  Qed.

  Lemma pa_reduce_ws_step : forall sc v, rel (reduce_ws_step R sc v) (reduce_ws_step R' sc v).
  Proof. intros. unfold reduce_ws_step. para. Qed.
  Lemma pa_reduce_step : forall v, rel (reduce_step R v) (reduce_step R' v).
  Proof. intros. apply (cl_reduce _ CL). apply (re_reduce_ws _ _ RR). Qed.
  Lemma pa_wrapper_rows : forall v, rel (wrapper_rows v) (wrapper_rows v).
  Proof.
    assert (W : forall v, rel (wrap_row v) (wrap_row v)) by (intros; unfold wrap_row; para).
    intros v. unfold wrapper_rows. destruct v; try apply W; para. 
  Qed.
  Hint Resolve pa_wrapper_rows : para.
  Lemma pa_query_step : forall sc q, rel (query_step R sc q) (query_step R' sc q).
  Proof. intros. unfold query_step. para. Qed.
  Lemma pa_expand_args : forall sc args vars, rel (expand_args R sc args vars) (expand_args R' sc args vars).
  Proof. intros sc args. induction args as [|[k v] l IH]; intros; cbn [expand_args]; para; apply IH. Qed.
  Hint Resolve pa_expand_args : para.
  Lemma pa_call_query : forall sc q args, rel (call_query R sc q args) (call_query R' sc q args).
  Proof. intros. unfold call_query. para. Qed.
  Hint Resolve pa_call_query : para.
  Lemma pa_call_plugin : forall sc p args,
    rel (call_plugin E R fuel sc p args) (call_plugin E R' fuel' sc p args).
  Proof.
    intros sc p args. destruct p; cbn [call_plugin];
      unfold if_plugin, chain_plugin, foreach_plugin, iterate_val, flatten_plugin, range_plugin;
      try solve [para].
    - para; pmap; para.
    - para; pmap; unfold foreach_row; para.
    - para; pmap; unfold make_dict; para; pmap; para.
  Qed.
  Hint Resolve pa_call_plugin : para.
  Lemma pa_evalsym_step : forall sc v, rel (evalsym_step R sc v) (evalsym_step R' sc v).
  Proof. intros. unfold evalsym_step. para. Qed.
  Lemma pa_plugin_eval : forall sc p, rel (plugin_eval E R fuel sc p) (plugin_eval E R' fuel' sc p).
  Proof. intros. unfold plugin_eval. para. Qed.
  Hint Resolve pa_plugin_eval : para.
  Lemma pa_star_columns : forall sc row ms r, rel (star_columns R sc row ms r) (star_columns R' sc row ms r).
  Proof. intros sc row ms. induction ms as [|m l IH]; intros; cbn [star_columns]; para; apply IH. Qed.
  Lemma pa_merge_star : forall sc row ms r, rel (merge_star R sc row ms r) (merge_star R' sc row ms r).
  Proof. intros sc row ms. induction ms as [|m l IH]; intros; cbn [merge_star]; para; apply IH. Qed.
  Hint Resolve pa_star_columns pa_merge_star : para.
  Lemma pa_expr_columns : forall sc ns row cols r,
    rel (expr_columns R sc ns row cols r) (expr_columns R' sc ns row cols r).
  Proof. intros sc ns row cols. induction cols as [|[m b] l IH]; intros; cbn [expr_columns]; para; apply IH. Qed.
  Hint Resolve pa_expr_columns : para.
  Lemma pa_transform : forall sc star cols row, rel (transform R sc star cols row) (transform R' sc star cols row).
  Proof. intros. unfold transform. para. Qed.
  Hint Resolve pa_transform : para.
  Lemma pa_accepts : forall sc v, rel (accepts E R sc v) (accepts E R' sc v).
  Proof. intros. unfold accepts. para. Qed.
  Hint Resolve pa_accepts : para.
  Lemma pa_process_row : forall sc star cols w row,
    rel (process_row E R sc star cols w row) (process_row E R' sc star cols w row).
  Proof. intros. unfold process_row. para. Qed.
  Hint Resolve pa_process_row : para.
  Lemma pa_sort_rows : forall sc key desc rows, rel (sort_rows E R sc key desc rows) (sort_rows E R' sc key desc rows).
  Proof. intros. unfold sort_rows. para. pmap. para. Qed.
  Hint Resolve pa_sort_rows : para.
  Lemma pa_group_row : forall sc star cols w g row bins,
    rel (group_row E R sc star cols w g row bins) (group_row E R' sc star cols w g row bins).
  Proof. intros. unfold group_row. para. Qed.
  Hint Resolve pa_group_row : para.
  Lemma pa_group_rows : forall sc star cols w g rows bins,
    rel (group_rows E R sc star cols w g rows bins) (group_rows E R' sc star cols w g rows bins).
  Proof. intros sc star cols w g rows. induction rows as [|r l IH]; intros; cbn [group_rows]; para; apply IH. Qed.
  Hint Resolve pa_group_rows : para.
  Lemma pa_select_step : forall sc q, rel (select_step E R fuel sc q) (select_step E R' fuel' sc q).
  Proof. intros. unfold select_step. para. Qed.

  Theorem related_step : related (step E R fuel) (step E R' fuel').
  Proof.
    constructor; intros; cbn [step r_expr r_select r_query r_assoc r_reduce r_reduce_ws r_evalsym
      r_negate r_normalize r_tostring].
    - apply pa_expr_step.
    - apply pa_select_step.
    - apply pa_query_step.
    - apply pa_assoc_step.
    - apply pa_reduce_step.
    - apply pa_reduce_ws_step.
    - apply pa_evalsym_step.
    - apply pa_negate_step.
    - apply pa_normalize_step.
    - apply pa_tostring_step.
  Qed.
End Para.

(** ** More fuel gives the same result *)

Definition mle (A : Type) (m m' : EM A) : Prop := forall s, snd (m s) <> RFuel -> m' s = m s.

Lemma mle_refl : forall A (m : EM A), mle A m m.
Proof. intros A m s _. reflexivity. Qed.

Lemma mle_bind : forall A B (m m' : EM A) (f f' : A -> EM B),
  mle A m m' -> (forall a, mle B (f a) (f' a)) -> mle B (mbind m f) (mbind m' f').
Proof.
  intros A B m m' f f' H H0 s HF. unfold mbind in *. specialize (H s).
  destruct (m s) as [s1 [a| |]] eqn:Em; cbn [snd] in *.
  - rewrite H by discriminate. apply H0. exact HF.
  - rewrite H by discriminate. reflexivity.
  - congruence.
Qed.

Lemma mle_closed : closed mle.
Proof.
  constructor; intros; try apply mle_refl; [now apply mle_bind| |].
  - unfold row_get. apply mle_bind; [apply mle_refl|]. intros [[]|]; try apply mle_refl.
    destruct (assoc k cache); [apply mle_refl|]. destruct (assoc k getters) as [g|]; [|apply mle_refl].
    apply mle_bind; [apply H|]. intros v. apply mle_refl.
  - unfold reduce_step. apply mle_bind; [apply mle_refl|]. intros o.
    destruct v; try apply mle_refl. destruct o as [[]|]; try apply mle_refl.
    destruct cache; [apply mle_refl|]. apply mle_bind; [apply H|]. intros x. apply mle_refl.
Qed.

Lemma range_loop_mono : forall n n' i j k l, n <= n' ->
  range_loop n i j k = Some l -> range_loop n' i j k = Some l.
Proof.
  induction n as [|n IH]; intros n' i j k l HL H; [discriminate|].
  destruct n' as [|n']; [lia|]. cbn [range_loop] in *.
  destruct (Z.ltb i j); [|exact H].
  destruct (range_loop n (wrap64 (i + k)) j k) as [l0|] eqn:E0; [|discriminate].
  rewrite (IH n' _ _ _ l0); [exact H|lia|exact E0].
Qed.

Theorem fuel_enough_is_enough : forall E n n', n <= n' -> related mle (ev E n) (ev E n').
Proof.
  intros E n. induction n as [|n IH]; intros n' HL.
  - constructor; intros; intros s HF; exfalso; apply HF; reflexivity.
  - destruct n' as [|n']; [lia|]. cbn [ev]. apply related_step; [apply mle_closed|apply IH; lia|].
    intros i j k s HF. unfold range_rows in *.
    destruct (range_loop n i j _) as [l|] eqn:EL; [|exfalso; apply HF; reflexivity].
    rewrite (range_loop_mono n n' _ _ _ l); [reflexivity|lia|exact EL].
Qed.

(** Running with some amount of fuel decides what a computation yields. *)
Lemma select_enough : forall E n sc q s s' rows,
  r_select (ev E n) sc q s = (s', RVal rows) ->
  evaluates (fun n => r_select (ev E n) sc q) s s' rows.
Proof.
  intros E n sc q s s' rows H. exists n. intros n' HL.
  rewrite (re_select _ _ _ (fuel_enough_is_enough E n n' HL) sc q s); [exact H|]. rewrite H. discriminate.
Qed.

Lemma expr_enough : forall E n sc e s s' v,
  r_expr (ev E n) sc e s = (s', RVal v) -> evaluates (fun n => r_expr (ev E n) sc e) s s' v.
Proof.
  intros E n sc q s s' rows H. exists n. intros n' HL.
  rewrite (re_expr _ _ _ (fuel_enough_is_enough E n n' HL) sc q s); [exact H|]. rewrite H. discriminate.
Qed.

Lemma from_enough : forall E n sc p s s' rows,
  plugin_eval E (ev E n) n sc p s = (s', RVal rows) ->
  evaluates (fun n => plugin_eval E (ev E n) n sc p) s s' rows.
Proof.
  intros E n sc p s s' rows H. exists n. intros n' HL.
  rewrite (pa_plugin_eval mle mle_closed E (ev E n) (ev E n') n n'
             (fuel_enough_is_enough E n n' HL)); [exact H| |rewrite H; discriminate].
  intros i j k s0 HF. unfold range_rows in *.
  destruct (range_loop n i j _) as [l|] eqn:EL; [|exfalso; apply HF; reflexivity].
  rewrite (range_loop_mono n n' _ _ _ l); [reflexivity|lia|exact EL].
Qed.

(** Statements too. *)
Lemma pa_stmt_eval : forall rel, closed rel -> forall R R', related rel R R' ->
  forall sc q, rel _ (stmt_eval R sc q) (stmt_eval R' sc q).
Proof.
  intros rel CL R R' RR sc q.
  assert (MA : forall sc v, rel _ (materialize R sc v) (materialize R' sc v)).
  { intros. unfold materialize, materialize_rows.
    apply (cl_bind _ CL); [apply (re_query _ _ _ RR)|]. intros. apply (cl_ret _ CL). }
  destruct q as [name params lazy body|text sel]; cbn [stmt_eval].
  - apply (cl_bind _ CL); [|intros; apply (cl_ret _ CL)].
    destruct body as [e|sel], lazy.
    + apply (cl_alloc _ CL).
    + apply (cl_bind _ CL); [apply (re_expr _ _ _ RR)|]. intros x.
      apply (cl_bind _ CL); [apply (cl_obj_of _ CL)|]. intros o.
      destruct (is_query x o); [apply MA|apply (cl_ret _ CL)].
    + apply (cl_alloc _ CL).
    + apply (cl_bind _ CL); [apply (cl_alloc _ CL)|]. intros v. apply MA.
  - apply (cl_bind _ CL); [apply (re_select _ _ _ RR)|]. intros. apply (cl_ret _ CL).
Qed.

Lemma pa_run_stmts : forall rel, closed rel -> forall R R', related rel R R' ->
  forall qs sc, rel _ (run_stmts R sc qs) (run_stmts R' sc qs).
Proof.
  intros rel CL R R' RR qs. induction qs as [|q qs IH]; intros sc; cbn [run_stmts].
  - apply (cl_ret _ CL).
  - apply (cl_bind _ CL); [apply pa_stmt_eval; assumption|]. intros [sc1 rows].
    apply (cl_bind _ CL); [apply IH|]. intros [sc2 out]. apply (cl_ret _ CL).
Qed.

Lemma stmts_enough : forall E n sc qs s s' r,
  run_stmts (ev E n) sc qs s = (s', RVal r) ->
  evaluates (fun n => run_stmts (ev E n) sc qs) s s' r.
Proof.
  intros E n sc qs s s' r H. exists n. intros n' HL.
  rewrite (pa_run_stmts mle mle_closed _ _ (fuel_enough_is_enough E n n' HL)); [exact H|].
  rewrite H. discriminate.
Qed.

(** A computation in two parts that yields something goes through the
    first. *)
Lemma ev_bind_inv : forall A B (m : nat -> EM A) (f : nat -> A -> EM B) s s2 b,
  (forall n n', n <= n' -> mle A (m n) (m n')) ->
  evaluates (fun n => mbind (m n) (f n)) s s2 b ->
  exists s1 a, evaluates m s s1 a /\ evaluates (fun n => f n a) s1 s2 b.
Proof.
  intros A B m f s s2 b MONO [N H].
  pose proof (H N ltac:(lia)) as HN. unfold mbind in HN.
  destruct (m N s) as [s1 [a| |]] eqn:Em; try discriminate.
  exists s1, a.
  assert (K : forall n, N <= n -> m n s = (s1, RVal a)).
  { intros n Hn. rewrite (MONO N n Hn s); [exact Em|rewrite Em; discriminate]. }
  split.
  - exists N. exact K.
  - exists N. intros n Hn. specialize (H n Hn). unfold mbind in H. rewrite K in H by assumption. exact H.
Qed.
