(** C76: + joins lists and the rows of queries. *)

From Coq Require Import ZArith List String Bool Lia.
From Verif Require Import Base F64 Value Protocols Monad Chains Flatten Builtins Syntax Eval Demo.
Import ListNotations.
Open Scope string_scope.
Open Scope list_scope.

(** ** Specification *)

(** The elements a value contributes: those of a list, the rows of a query, or
    the value itself. *)
Inductive contributes : val -> list val -> Prop :=
| CList : forall l, contributes (VArr l) l
| CNilList : contributes VNilArr []
| CQuery : forall rows, contributes (VQuery rows) rows
| COther : forall v,
    match v with VArr _ | VNilArr | VQuery _ => False | _ => True end -> contributes v [v].

Definition a_list (v : val) : Prop := match v with VArr _ | VNilArr => True | _ => False end.
Definition null (v : val) : Prop := match v with VNull | VNil => True | _ => False end.

Lemma contributes_slice : forall v l, contributes v l -> convert_to_slice v = l.
Proof. intros v l H. destruct H as [l| |rows|v H]; try reflexivity. destruct v; try contradiction; reflexivity. Qed.

Lemma slice_contributes : forall v, contributes v (convert_to_slice v).
Proof. intros v. destruct v; try constructor; exact I. Qed.

(** No implementation that the host program added takes the two values. *)
Definition no_impl (impls : list (impl2 val)) (a b : val) : Prop := first2 impls a b = None.

Lemma first2_app : forall (l1 l2 : list (impl2 val)) a b,
  first2 l1 a b = None -> first2 (l1 ++ l2) a b = first2 l2 a b.
Proof.
  induction l1 as [|i l1 IH]; intros l2 a b H; cbn in *; [reflexivity|].
  destruct (i a b); [discriminate|now apply IH].
Qed.

(** ** Theorems *)

(** If one side is a list and the left is not NULL, or both are queries, the
    result is a list: what the left contributes, then what the right does. *)
Theorem C76_join : forall impls a b la lb, no_impl impls a b -> ~ null a ->
  a_list a \/ a_list b \/ (exists r1 r2, a = VQuery r1 /\ b = VQuery r2) ->
  contributes a la -> contributes b lb ->
  add_disp impls a b = VArr (la ++ lb).
Proof.
  intros impls a b la lb NI NN H CA CB.
  apply contributes_slice in CA, CB. subst la lb.
  assert (SW : add_switch a b = None).
  { destruct H as [H|[H|(r1 & r2 & -> & ->)]]; [| |reflexivity].
    - destruct a; try contradiction; reflexivity.
    - destruct b; try contradiction; destruct a as [| | |[]| | | | | | | | |]; cbn in NN; try tauto; try reflexivity;
        cbn -[to_int64 int_add]; try (destruct (to_int64 _); reflexivity); reflexivity. }
  unfold add_disp. rewrite SW, first2_app by exact NI. cbn [first2].
  destruct H as [H|[H|(r1 & r2 & -> & ->)]]; [| |reflexivity].
  - destruct a; try contradiction; reflexivity.
  - assert (SQ : stored_query_add a b = None) by (destruct b; try contradiction; destruct a; reflexivity).
    rewrite SQ. assert (AB : is_array a || is_array b = true).
    { apply orb_true_iff. right. destruct b; try contradiction; reflexivity. }
    now rewrite AB.
Qed.

(** Joining is associative, and an empty list on either side changes nothing. *)
Theorem C76_associative : forall a b c, a_list b -> ~ null a ->
  add_disp [] (add_disp [] a b) c = add_disp [] a (add_disp [] b c).
Proof.
  intros a b c B N.
  assert (NB : ~ null b) by (destruct b; cbn in *; tauto).
  rewrite (C76_join [] a b _ _ eq_refl N (or_intror (or_introl B)) (slice_contributes a) (slice_contributes b)).
  rewrite (C76_join [] b c _ _ eq_refl NB (or_introl B) (slice_contributes b) (slice_contributes c)).
  rewrite (C76_join [] (VArr _) c _ _ eq_refl (fun x => x) (or_introl I) (CList _) (slice_contributes c)).
  rewrite (C76_join [] a (VArr _) _ _ eq_refl N (or_intror (or_introl I)) (slice_contributes a) (CList _)).
  now rewrite app_assoc.
Qed.

Theorem C76_empty : forall l, add_disp [] (VArr []) (VArr l) = VArr l /\ add_disp [] (VArr l) (VArr []) = VArr l.
Proof. intros l. cbn. now rewrite app_nil_r. Qed.

(** The sum of two queries in an expression: their rows, those of the left one
    first; each query is run once, the left one before the right one. *)
Theorem C76_queries : forall E n sc i j s1 s2 s3 ra rb,
  is_query (VOpaque i) (nth_error (heap s1) i) = true -> is_query (VOpaque j) (nth_error (heap s1) j) = true ->
  no_impl (p_add (env_protos E)) (VQuery ra) (VQuery rb) ->
  r_query (ev E (S n)) (copy sc) (VOpaque i) s1 = (s2, RVal ra) ->
  r_query (ev E (S n)) (copy sc) (VOpaque j) s2 = (s3, RVal rb) ->
  addf E (ev E (S n)) sc (VOpaque i) (VOpaque j) s1 = (s3, RVal (VArr (ra ++ rb))).
Proof.
  intros E n sc i j s1 s2 s3 ra rb QA QB NI RA RB.
  assert (RED : forall k, is_query (VOpaque k) (nth_error (heap s1) k) = true ->
    r_reduce (ev E (S n)) (VOpaque k) s1 = (s1, RVal (VOpaque k))).
  { intros k Q. change (r_reduce (ev E (S n))) with (reduce_step (ev E n)). unfold reduce_step, mbind, obj_of.
    destruct (nth_error (heap s1) k) as [[]|]; try discriminate; reflexivity. }
  unfold addf. unfold mbind at 1. rewrite (RED _ QA). unfold mbind at 1. rewrite (RED _ QB).
  unfold mbind at 1. unfold obj_of at 1. unfold mbind at 1. unfold obj_of at 1. rewrite QA, QB. cbn [andb orb].
  unfold materialize, materialize_rows.
  unfold mbind at 1. unfold mbind at 1. rewrite RA. unfold mret at 1.
  unfold mbind at 1. unfold mbind at 1. rewrite RB. unfold mret at 1. unfold mret.
  assert (J : add_disp (p_add (env_protos E)) (VQuery ra) (VQuery rb) = VArr (ra ++ rb)).
  { apply C76_join; [exact NI|exact (fun x => x)| |apply CQuery|apply CQuery]. right. right. eauto. }
  now rewrite J.
Qed.

(** ** Refutations *)

(** A query and a value that is no list are not joined, although a list and
    that value are. *)
Theorem C76_query_and_value_refuted : exists rows v,
  add_disp [] (VQuery rows) v = VNull /\ add_disp [] v (VQuery rows) = VNull /\
  add_disp [] (VArr rows) v = VArr (rows ++ [v]).
Proof. exists [VDict [("a", vint 1)]], (vint 2). vm_compute. auto. Qed.

(** NULL on the left wipes out the list, NULL on the right is appended. *)
Theorem C76_null_left_refuted : exists l,
  add_disp [] VNull (VArr l) = VNull /\ add_disp [] (VArr l) VNull = VArr (l ++ [VNull]).
Proof. exists [vint 1]. vm_compute. auto. Qed.

(** ** Examples *)

Example joined_values :
  add_disp [] (VArr [vint 1; vint 2]) (VArr [vint 3]) = VArr [vint 1; vint 2; vint 3] /\
  add_disp [] (VStr "a") (VArr [VStr "b"]) = VArr [VStr "a"; VStr "b"] /\
  add_disp [] (VInt KUint 7) (VArr [vint 1]) = VArr [VInt KUint 7; vint 1] /\
  add_disp [] (VQuery [vint 1]) (VArr [vint 2]) = VArr [vint 1; vint 2].
Proof. repeat split; reflexivity. Qed.

(** Two queries on the heap *)
Example joined_queries :
  let s := set_heap [OWrapper (VArr [VDict [("a", vint 1)]; vint 5]); OWrapper (vint 2)] st0 in
  is_query (VOpaque 0) (nth_error (heap s) 0) = true /\ is_query (VOpaque 1) (nth_error (heap s) 1) = true /\
  r_query (ev demo_env 3) (copy scope0) (VOpaque 0) s = (s, RVal [VDict [("a", vint 1)]; VDict [("_value", vint 5)]]) /\
  r_query (ev demo_env 3) (copy scope0) (VOpaque 1) s = (s, RVal [VDict [("_value", vint 2)]]) /\
  addf demo_env (ev demo_env 3) scope0 (VOpaque 0) (VOpaque 1) s =
    (s, RVal (VArr [VDict [("a", vint 1)]; VDict [("_value", vint 5)]; VDict [("_value", vint 2)]])).
Proof. vm_compute. repeat split; reflexivity. Qed.

Print Assumptions C76_join.
Print Assumptions C76_associative.
Print Assumptions C76_queries.
