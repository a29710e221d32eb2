(** C74: a value given where a query is expected stands for rows. *)

From Coq Require Import ZArith List String Bool Lia.
From Verif Require Import Base F64 Value Protocols Monad Chains Flatten FlattenProps Builtins Syntax Eval Demo.
Import ListNotations.
Open Scope string_scope.
Open Scope list_scope.

(** ** Specification *)

(** Neither an object of the heap nor a query. *)
Definition plain_value (v : val) : Prop :=
  match v with VOpaque _ | VQuery _ => False | _ => True end.

(** The row for a value: itself when it has columns, otherwise a row with
    the value in the column [_value]. *)
Inductive stands_for : val -> val -> Prop :=
| StandsDict : forall d, d <> [] -> stands_for (VDict d) (VDict d)
| StandsValue : forall v, match v with VDict d => d = [] | VArr _ | VQuery _ | VOpaque _ => False | _ => True end ->
    stands_for v (VDict [("_value", v)]).

(** A list whose elements are neither lists nor queries. *)
Definition flat_list (l : list val) : Prop :=
  Forall (fun x => match x with VArr _ | VQuery _ | VOpaque _ => False | _ => True end) l.

(** The rows a query argument yields for the value v. *)
Definition rows_of_argument (E : env) (fuel : nat) (sc : scope) (v : val) : EM (list val) :=
  mbind (to_stored_query (ev E fuel) v) (fun q => r_query (ev E fuel) sc q).

(** ** What the wrapper does *)

Lemma argument_wrapped E n sc v s : plain_value v ->
  rows_of_argument E (S n) sc v s = wrapper_rows v (set_heap (heap s ++ [OWrapper v]) s).
Proof.
  intro P. unfold rows_of_argument, to_stored_query.
  assert (RD : r_reduce (ev E (S n)) v s = (s, RVal v)) by (destruct v; try contradiction; reflexivity).
  unfold mbind at 1. unfold mbind at 1. rewrite RD.
  assert (O : mbind (obj_of v) (fun o => if is_query v o then mret v else alloc (OWrapper v)) s =
    (set_heap (heap s ++ [OWrapper v]) s, RVal (VOpaque (List.length (heap s))))) by (destruct v; try contradiction; reflexivity).
  rewrite O.
  change (r_query (ev E (S n)) sc (VOpaque (List.length (heap s)))) with (query_step (ev E n) sc (VOpaque (List.length (heap s)))).
  unfold query_step. unfold mbind at 1. cbn [obj_of set_heap heap].
  rewrite nth_error_app2 by lia. rewrite Nat.sub_diag. reflexivity.
Qed.

Lemma wrap_row_flat x s : match x with VArr _ | VQuery _ | VOpaque _ => False | _ => True end ->
  exists rs, wrap_row x s = (s, RVal rs) /\
    (is_nil x = true -> rs = []) /\ (is_nil x = false -> exists r, rs = [r] /\ stands_for x r).
Proof.
  intro F. unfold wrap_row. destruct (is_nil x) eqn:N; [now exists []|].
  eexists. split; [reflexivity|]. split; [discriminate|]. intros _.
  destruct x; try contradiction; try discriminate N; cbn [members_of];
    try (eexists; split; [reflexivity|]; now apply StandsValue).
  destruct d as [|kv d]; cbn [keys map]; (eexists; split; [reflexivity|]).
  - now apply StandsValue.
  - now apply StandsDict.
Qed.

Lemma wrap_list l : flat_list l -> forall s,
  exists rs, mmap wrap_row l s = (s, RVal rs) /\ Forall2 stands_for (filter (fun v => negb (is_nil v)) l) (List.concat rs).
Proof.
  induction 1 as [|x l F _ IH]; intro s; [exists []; split; [reflexivity|constructor]|].
  destruct (wrap_row_flat x s F) as (r & E & A & B). destruct (IH s) as (rs & E' & C).
  exists (r :: rs). cbn [mmap]. unfold mbind. rewrite E, E'. split; [reflexivity|].
  cbn [List.concat filter]. destruct (is_nil x); cbn [negb].
  - rewrite A by reflexivity. exact C.
  - destruct B as (y & -> & SF); [reflexivity|]. now constructor.
Qed.

(** ** C74 *)

Theorem C74_argument_rows_partial E n sc v s : plain_value v -> v <> VNil ->
  exists s' rows, rows_of_argument E (S n) sc v s = (s', RVal rows) /\
    (v = VNull \/ v = VNilArr -> rows = []) /\
    (forall l, v = VArr l -> flat_list l -> Forall2 stands_for (filter (fun x => negb (is_nil x)) l) rows) /\
    (is_nil v = false -> is_array v = false -> exists r, stands_for v r /\ rows = [r]) /\
    s' = set_heap (heap s ++ [OWrapper v]) s.
Proof.
  intros P N. rewrite argument_wrapped by exact P. set (s' := set_heap _ s). exists s'.
  assert (W : forall x t, exists rs, wrap_row x t = (t, RVal rs)) by (intros; unfold wrap_row; destruct (is_nil x); eexists; reflexivity).
  assert (WM : forall l t, exists rs, mmap wrap_row l t = (t, RVal rs)).
  { induction l as [|x l IH]; intro t; [now exists []|]. destruct (W x t) as (r & E1), (IH t) as (rs & E2).
    exists (r :: rs). cbn [mmap]. unfold mbind. now rewrite E1, E2. }
  assert (K : forall x, match x with VArr _ | VQuery _ | VOpaque _ => False | _ => True end -> x <> VNilArr -> x = v ->
     wrapper_rows v s' = wrap_row v s' -> exists rows, wrapper_rows v s' = (s', RVal rows) /\
    (v = VNull \/ v = VNilArr -> rows = []) /\
    (forall l, v = VArr l -> flat_list l -> Forall2 stands_for (filter (fun x => negb (is_nil x)) l) rows) /\
    (is_nil v = false -> is_array v = false -> exists r, stands_for v r /\ rows = [r]) /\ s' = s').
  { intros x F NA -> ->. destruct (wrap_row_flat v s' F) as (rs & E1 & A & B). exists rs. split; [exact E1|].
    split; [intros [H|H]; [apply A; now rewrite H|contradiction]|].
    split; [intros l ->; contradiction|]. split; [|reflexivity]. intros NN _. destruct (B NN) as (r & -> & SF). now exists r. }
  destruct v as [| |b|k z|f|f|t|ns| |l|d|q|m]; try contradiction; try (eapply K; [| | reflexivity|reflexivity]; [exact I|discriminate]).
  - exists []. repeat split; try reflexivity; try discriminate.
  - destruct (WM l s') as (rs & E1). exists (List.concat rs). cbn [wrapper_rows]. unfold mbind. rewrite E1.
    split; [reflexivity|]. split; [intros [|]; discriminate|]. split; [|split; [discriminate|reflexivity]].
    intros l' EQ F. injection EQ as <-. destruct (wrap_list l F s') as (rs' & E2 & C). rewrite E1 in E2. injection E2 as <-. exact C.
Qed.

(** A query stands for its own rows. *)
Theorem C74_query_argument E n sc rows s : rows_of_argument E (S n) sc (VQuery rows) s = (s, RVal rows).
Proof. reflexivity. Qed.

(** It gives the rows that iterating the value gives, unless it is an empty
    dictionary or a list with lists or empty dictionaries in it. *)
Theorem C74_same_as_iterating_partial E n sc v s : plain_value v -> v <> VNil -> v <> VDict [] ->
  (forall l, v = VArr l -> flat_list l /\ ~ In (VDict []) l) ->
  exists s', rows_of_argument E (S n) sc v s = (s', RVal (iterate [] v)).
Proof.
  intros P N ND L. rewrite argument_wrapped by exact P. set (s' := set_heap _ s). exists s'. clearbody s'.
  destruct v as [| |b|k z|f|f|t|ns| |l|d|q|m]; try contradiction; try reflexivity.
  - destruct (L l eq_refl) as (F & NI). cbn [wrapper_rows]. unfold mbind.
    assert (H : exists rs, mmap wrap_row l s' = (s', RVal rs) /\ List.concat rs = slice_iterator l).
    { clear - F NI. induction F as [|x l F _ IH]; [now exists []|].
      destruct IH as (rs & E1 & E2); [intro; apply NI; now right|].
      destruct (wrap_row_flat x s' F) as (r & E3 & A & B).
      exists (r :: rs). cbn [mmap]. unfold mbind. rewrite E3, E1. split; [reflexivity|]. cbn [List.concat slice_iterator]. rewrite E2.
      destruct (is_nil x) eqn:NX; [now rewrite A|]. destruct (B eq_refl) as (y & -> & SF).
      inversion SF as [d D EX EY|w D EX EY]; subst; [reflexivity|]. destruct x; try contradiction; try reflexivity.
      subst d. exfalso. apply NI. now left. }
    destruct H as (rs & E1 & E2). rewrite E1. unfold mret. now rewrite E2.
  - destruct d as [|kv d]; [now destruct ND|]. reflexivity.
Qed.

(** Nothing at all (a Go nil) makes the process panic. *)
Theorem C74_nil_panics_refuted E n sc s : exists s', rows_of_argument E (S n) sc VNil s = (s', RPanic).
Proof. rewrite argument_wrapped by exact I. eexists. reflexivity. Qed.

(** An empty dictionary and a list in a list differ from iterating. *)
Theorem C74_differs_from_iterating_refuted :
  (exists E n sc s s' rows, rows_of_argument E n sc (VDict []) s = (s', RVal rows) /\ rows <> iterate [] (VDict [])) /\
  (exists E n sc s s' rows l, rows_of_argument E n sc (VArr l) s = (s', RVal rows) /\ rows <> iterate [] (VArr l)).
Proof.
  split.
  - exists demo_env, 1, scope0, st0. eexists. eexists. split; [reflexivity|]. discriminate.
  - exists demo_env, 1, scope0, st0. eexists. eexists. exists [VArr [VDict [("a", vint 1)]]]. split; [reflexivity|]. discriminate.
Qed.

Example C74_example sc :
  (let v := VArr [vint 1; VNull; VDict [("a", vint 2)]] in
   plain_value v /\ v <> VNil /\ flat_list [vint 1; VNull; VDict [("a", vint 2)]] /\
   exists s', rows_of_argument demo_env 1 sc v st0 = (s', RVal [VDict [("_value", vint 1)]; VDict [("a", vint 2)]])) /\
  exists s', rows_of_argument demo_env 1 sc VNull st0 = (s', RVal []).
Proof.
  split; [|eexists; reflexivity]. split; [exact I|]. split; [discriminate|]. split; [repeat constructor|]. eexists. reflexivity.
Qed.

Print Assumptions C74_argument_rows_partial.
Print Assumptions C74_query_argument.
Print Assumptions C74_same_as_iterating_partial.
Print Assumptions C74_nil_panics_refuted.
Print Assumptions C74_differs_from_iterating_refuted.
