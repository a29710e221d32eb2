(** Iteration and flatten(): properties C35 and C52. *)

From Coq Require Import List String Bool Lia Arith ZArith.
From Verif Require Import Base BaseProofs Value Protocols Pipeline PipelineProofs PipelineProps Flatten.
Import ListNotations.
Open Scope nat_scope.
Open Scope string_scope.
Open Scope list_scope.

(** ** C52: any value can be iterated as rows *)

(** The row that stands for an element: itself when it is a dict, otherwise a
    row with the element in the column [_value]. *)
Inductive row_of : val -> val -> Prop :=
| RowDict : forall d, row_of (VDict d) (VDict d)
| RowValue : forall v, (forall d, v <> VDict d) -> row_of v (VDict [("_value", v)]).

(** Neither dict, array, query nor NULL, and unknown to the host. *)
Definition scalar (impls : list (impl1 (list val))) (v : val) : Prop :=
  (forall d, v <> VDict d) /\ is_array v = false /\ (forall q, v <> VQuery q) /\ is_nil v = false /\
  Forall (fun i => i v = None) impls.

Lemma first1_none : forall {R} (impls : list (impl1 R)) v, Forall (fun i => i v = None) impls -> first1 impls v = None.
Proof. intros R impls v H. induction H as [|i r E _ IH]; simpl; auto. now rewrite E. Qed.

Lemma slice_iterator_spec : forall l, Forall2 row_of (filter (fun v => negb (is_nil v)) l) (slice_iterator l).
Proof.
  induction l as [|x l IH]; simpl; [constructor|]. destruct (is_nil x) eqn:N; simpl; auto.
  destruct x; try discriminate; constructor; auto; constructor; discriminate.
Qed.

Theorem C52_iterate : forall impls v,
  (forall d, v = VDict d -> iterate impls v = [v]) /\
  (forall l, v = VArr l -> Forall2 row_of (filter (fun x => negb (is_nil x)) l) (iterate impls v)) /\
  (forall q, v = VQuery q -> iterate impls v = q) /\
  (is_nil v = true -> Forall (fun i => i v = None) impls -> iterate impls v = []) /\
  (scalar impls v -> exists r, row_of v r /\ iterate impls v = [r]).
Proof.
  intros impls v. repeat split.
  - intros d ->. reflexivity.
  - intros l ->. apply slice_iterator_spec.
  - intros q ->. reflexivity.
  - intros N F. apply first1_none in F. destruct v; try discriminate; simpl; try rewrite F; reflexivity.
  - intros (D & A & Q & N & F). apply first1_none in F.
    exists (value_row v). split; [now constructor|]. unfold iterate, is_array in *.
    destruct (arr_elems v) eqn:E; [discriminate|].
    rewrite F, N. destruct v; try reflexivity; [edestruct D|edestruct Q]; reflexivity.
Qed.

Example C52_example :
  iterate [] (VArr [vint 1%Z; VNull; VDict [("a", vint 2%Z)]; VStr "x"]) =
    [VDict [("_value", vint 1%Z)]; VDict [("a", vint 2%Z)]; VDict [("_value", VStr "x")]] /\
  scalar [] (VStr "x") /\ iterate [] (VStr "x") = [VDict [("_value", VStr "x")]] /\ iterate [] VNull = [].
Proof. repeat split; try discriminate; constructor. Qed.

(** ** C35: flatten() *)

(** The members of a cell: those of a non empty array, otherwise the cell
    itself. *)
Definition members (c : val) : list val :=
  match c with
  | VArr (x :: l) => x :: l
  | _ => [c]
  end.

(** All rows that take one member from each cell. *)
Fixpoint combinations (row : list (string * val)) : list (list (string * val)) :=
  match row with
  | [] => [[]]
  | (k, c) :: rest => flat_map (fun tail => map (fun v => (k, v) :: tail) (members c)) (combinations rest)
  end.

Definition product (l : list nat) : nat := fold_right Nat.mul 1 l.

(** Cells that are plain data: no NULL member, no dict with a column [_value],
    no query, and not iterable by the host. *)
Definition plain_member (impls : list (impl1 (list val))) (v : val) : Prop :=
  is_nil v = false /\ (forall d, v = VDict d -> assoc "_value" d = None).
Definition plain_cell (impls : list (impl1 (list val))) (c : val) : Prop :=
  match c with
  | VArr l => Forall (plain_member impls) l
  | VQuery _ => False
  | VDict d => assoc "_value" d = None
  | _ => Forall (fun i => i c = None) impls
  end.

(** What any cell, plain or not, expands to. *)
Definition expansions (impls : list (impl1 (list val))) (c : val) : list val :=
  match iterate impls c with [] => [c] | ms => map unwrap_value ms end.

Fixpoint combinations_of (exp : val -> list val) (row : list (string * val)) : list (list (string * val)) :=
  match row with
  | [] => [[]]
  | (k, c) :: rest => flat_map (fun tail => map (fun v => (k, v) :: tail) (exp c)) (combinations_of exp rest)
  end.

Lemma merge_from_fresh : forall {A} (o l : list (string * A)), NoDup (keys (l ++ o)) -> merge_from o l = l ++ o.
Proof.
  intros A o. induction o as [|[k v] o IH]; intros l N; simpl; [now rewrite app_nil_r|].
  unfold merge_from in *. simpl.
  assert (E : remove_key k l = l).
  { unfold keys in N. rewrite map_app in N. simpl in N. apply NoDup_remove_2 in N.
    assert (N' : ~ In k (map fst l)) by (intros I; apply N; apply in_or_app; auto). clear - N'.
    induction l as [|[k' x] l IH]; simpl in *; auto.
    destruct (String.eqb_spec k k'); [subst; tauto|]. f_equal. apply IH. tauto. }
  unfold dict_set. simpl. rewrite E, IH; rewrite <- app_assoc; auto.
Qed.

Lemma merge_from_nil : forall {A} (o : list (string * A)), NoDup (keys o) -> merge_from o [] = o.
Proof. intros. now apply (merge_from_fresh o []). Qed.

Lemma keys_app : forall {A} (a b : list (string * A)), keys (a ++ b) = keys a ++ keys b.
Proof. intros. apply map_app. Qed.

Lemma dict_update_mid : forall {A} (a b : list (string * A)) k x v, ~ In k (keys a) ->
  dict_update k v (a ++ (k, x) :: b) = a ++ (k, v) :: b.
Proof.
  intros A a b k x v. induction a as [|[k' y] a IH]; simpl; intros N.
  - now rewrite String.eqb_refl.
  - destruct (String.eqb_spec k k'); [subst; tauto|]. rewrite IH; tauto.
Qed.

Lemma assoc_mid : forall {A} (a b : list (string * A)) k x, ~ In k (keys a) -> assoc k (a ++ (k, x) :: b) = Some x.
Proof.
  intros A a b k x. induction a as [|[k' y] a IH]; simpl; intros N.
  - now rewrite String.eqb_refl.
  - destruct (String.eqb_spec k k'); [subst; tauto|]. apply IH. tauto.
Qed.

Lemma combinations_app : forall exp a b,
  combinations_of exp (a ++ b) = flat_map (fun t => map (fun h => h ++ t) (combinations_of exp a)) (combinations_of exp b).
Proof.
  intros exp a b. induction a as [|[k c] a IH]; simpl.
  - induction (combinations_of exp b) as [|t l IH]; simpl; congruence.
  - rewrite IH. clear IH. induction (combinations_of exp b) as [|t l IH]; simpl; auto.
    rewrite flat_map_app, IH. f_equal. clear IH l.
    induction (combinations_of exp a) as [|h l IH]; simpl; auto.
    rewrite map_app, IH, map_map. reflexivity.
Qed.

Lemma flatten_at_spec : forall impls a b, NoDup (keys (a ++ b)) ->
  flatten_at impls (a ++ b) (List.length a) =
  map (fun h => h ++ b) (combinations_of (expansions impls) a).
Proof.
  intros impls a. induction a as [|[k c] a IH] using rev_ind; intros b N; [reflexivity|].
  rewrite app_length. simpl. replace (List.length a + 1) with (S (List.length a)) by lia.
  cbn [flatten_at].
  assert (K : nth (List.length a) (keys ((a ++ [(k, c)]) ++ b)) "" = k).
  { unfold keys. rewrite <- app_assoc, map_app, app_nth2; rewrite map_length; [|lia]. now rewrite Nat.sub_diag. }
  assert (Nk : ~ In k (keys a)).
  { rewrite <- app_assoc, keys_app in N. simpl in N. apply NoDup_remove_2 in N. intros I. apply N. apply in_or_app. auto. }
  rewrite K. replace ((a ++ [(k, c)]) ++ b)%list with (a ++ (k, c) :: b)%list in * by now rewrite <- app_assoc.
  rewrite assoc_mid by auto. rewrite merge_from_nil by auto.
  assert (N2 : forall v, NoDup (keys (a ++ (k, v) :: b))).
  { intros v. rewrite keys_app in *. exact N. }
  rewrite combinations_app. cbn [combinations_of]. rewrite flat_map_concat_map with (l := [[]]). cbn [map List.concat]. rewrite app_nil_r.
  replace (match iterate impls c with [] => flatten_at impls (a ++ (k, c) :: b) (List.length a)
    | ms => flat_map (fun m => flatten_at impls (dict_update k (unwrap_value m) (a ++ (k, c) :: b)) (List.length a)) ms end)
  with (flat_map (fun v => map (fun h => h ++ (k, v) :: b) (combinations_of (expansions impls) a)) (expansions impls c)).
  - rewrite flat_map_concat_map. induction (expansions impls c) as [|v l IHl]; simpl; auto.
    rewrite map_app, <- IHl, map_map. f_equal. apply map_ext. intros h. now rewrite <- app_assoc.
  - unfold expansions at 2. destruct (iterate impls c) as [|m ms] eqn:E.
    + simpl. now rewrite app_nil_r, IH.
    + generalize (m :: ms). intros l. induction l as [|x l IHl]; simpl; auto.
      rewrite <- IHl, dict_update_mid, IH; auto.
Qed.

(** For any row: the rows emitted are the combinations of what the cells
    expand to, the first column varying fastest. *)
Theorem C35_flatten_any : forall impls row, NoDup (keys row) ->
  flatten_row impls row = combinations_of (expansions impls) row.
Proof.
  intros impls row N. unfold flatten_row, keys. rewrite map_length.
  rewrite <- (app_nil_r row) at 1. rewrite flatten_at_spec by now rewrite app_nil_r.
  induction (combinations_of (expansions impls) row) as [|h l IH]; simpl; auto. now rewrite app_nil_r, IH.
Qed.

Lemma slice_iterator_plain : forall impls l, Forall (plain_member impls) l -> map unwrap_value (slice_iterator l) = l.
Proof.
  intros impls l H. induction H as [|x l [N D] _ IH]; simpl; auto. rewrite N.
  destruct x; simpl; try (f_equal; exact IH). rewrite (D _ eq_refl). f_equal. exact IH.
Qed.

Lemma expansions_plain : forall impls c, plain_cell impls c -> expansions impls c = members c.
Proof.
  intros impls c H. unfold expansions.
  destruct c as [| | | | | | | | |l|d|q|]; simpl in H; try contradiction;
    try (apply first1_none in H; simpl; rewrite H; reflexivity).
  - reflexivity.
  - pose proof (slice_iterator_plain impls l H) as E. simpl. destruct (slice_iterator l) eqn:S; simpl in *.
    + now subst.
    + destruct l; [discriminate|]. rewrite <- E. reflexivity.
  - simpl. now rewrite H.
Qed.

(** Rows of plain cells: exactly one row per combination of members, the
    columns and their order unchanged, and as many rows as the product of the
    cell lengths. *)
Theorem C35_flatten_partial : forall impls row, NoDup (keys row) -> Forall (fun kc => plain_cell impls (snd kc)) row ->
  flatten_row impls row = combinations row /\
  List.length (flatten_row impls row) = product (map (fun kc => List.length (members (snd kc))) row).
Proof.
  intros impls row N H. rewrite C35_flatten_any by auto.
  assert (E : combinations_of (expansions impls) row = combinations row).
  { clear N. induction H as [|[k c] r P _ IH]; simpl in *; auto. rewrite expansions_plain, IH by auto. reflexivity. }
  split; auto. rewrite E. clear. induction row as [|[k c] r IH]; simpl; auto.
  assert (G : forall (m : list val) (ls : list (list (string * val))),
    List.length (flat_map (fun tail => map (fun v => (k, v) :: tail) m) ls) = List.length m * List.length ls).
  { intros m ls. induction ls as [|t ls IHl]; simpl; [lia|]. rewrite app_length, map_length, IHl. lia. }
  rewrite G. unfold product in *. simpl. now rewrite IH.
Qed.

Lemma in_combinations : forall row r, In r (combinations row) <->
  Forall2 (fun kc kv => fst kc = fst kv /\ In (snd kv) (members (snd kc))) row r.
Proof.
  induction row as [|[k c] row IH]; intros r; simpl; split.
  - intros [<-|[]]. constructor.
  - intros H. inversion H. now left.
  - intros H. apply in_flat_map in H. destruct H as (t & It & Iv). apply in_map_iff in Iv.
    destruct Iv as (v & <- & Iv). constructor; [auto|]. now apply IH.
  - intros H. inversion H as [|? [k' v] ? t [E1 E2] Ft]; subst. simpl in *. subst k'.
    apply in_flat_map. exists t. split; [now apply IH|]. apply in_map_iff. eauto.
Qed.

(** Spelled out: the rows of flatten() are those with the same columns whose
    cells are members of the original cells. *)
Theorem C35_members_partial : forall impls row r, NoDup (keys row) -> Forall (fun kc => plain_cell impls (snd kc)) row ->
  (In r (flatten_row impls row) <->
   Forall2 (fun kc kv => fst kc = fst kv /\ In (snd kv) (members (snd kc))) row r).
Proof. intros. destruct (C35_flatten_partial impls row) as [E _]; auto. rewrite E. apply in_combinations. Qed.

(** The whole plugin: whatever the schedule, when the query has ended the
    reader has received the expansions of its rows in order. *)
Theorem C35_plugin : forall impls (q : query (list (string * val))) t s,
  exec (query_sys (QFlatten (flatten_row impls) q)) t s -> uncancelled t -> finished false s ->
  outputs t = flat_map (flatten_row impls) (answer q).
Proof. intros impls q t s E U F. now apply (C39_complete _ _ _ E U F). Qed.

Example C35_example :
  let row := [("a", VArr [vint 1%Z; vint 2%Z]); ("b", VStr "x"); ("c", VArr [VStr "p"; VDict [("k", vint 3%Z)]]); ("d", VArr [])] in
  NoDup (keys row) /\ Forall (fun kc => plain_cell [] (snd kc)) row /\
  flatten_row [] row =
    [ [("a", vint 1%Z); ("b", VStr "x"); ("c", VStr "p"); ("d", VArr [])];
      [("a", vint 2%Z); ("b", VStr "x"); ("c", VStr "p"); ("d", VArr [])];
      [("a", vint 1%Z); ("b", VStr "x"); ("c", VDict [("k", vint 3%Z)]); ("d", VArr [])];
      [("a", vint 2%Z); ("b", VStr "x"); ("c", VDict [("k", vint 3%Z)]); ("d", VArr [])] ].
Proof.
  split; [repeat constructor; simpl; intuition discriminate|]. split; [|reflexivity].
  repeat (apply Forall_cons || apply Forall_nil); simpl; auto; try discriminate;
    repeat (apply Forall_cons || apply Forall_nil); split; simpl; auto; intros; try discriminate;
    match goal with H : VDict _ = VDict _ |- _ => injection H as <-; reflexivity end.
Qed.

(** A NULL member is dropped, so the count is not the product ... *)
Theorem C35_null_member_refuted : exists row, NoDup (keys row) /\
  List.length (flatten_row [] row) <> product (map (fun kc => List.length (members (snd kc))) row).
Proof.
  exists [("a", VArr [vint 1%Z; VNull])]. split; [repeat constructor; simpl; intuition discriminate|]. vm_compute. discriminate.
Qed.

(** ... and a dict cell with a column [_value] is replaced by it. *)
Theorem C35_value_column_refuted : exists k v, ~ In v (members (VDict [("_value", v)])) /\
  flatten_row [] [(k, VDict [("_value", v)])] = [[(k, v)]].
Proof. exists "a", (vint 1%Z). split; [|reflexivity]. simpl. intros [H|[]]. discriminate. Qed.

Print Assumptions C52_iterate.
Print Assumptions C35_flatten_any.
Print Assumptions C35_flatten_partial.
Print Assumptions C35_members_partial.
Print Assumptions C35_plugin.
Print Assumptions C35_null_member_refuted.
Print Assumptions C35_value_column_refuted.
