(** sort.Sort of the Go library (used by /repo/sort/sort.go:33): what the
    evaluator relies on, and the algorithm it uses for at most 12 elements.
    The library is not part of the repository; [sort_contract] is the
    assumption the theorems about ORDER BY make about it, and insertion sort
    satisfies it for every length. *)

From Coq Require Import List Bool Permutation Sorted.
Import ListNotations.

Section Sort.
  Context {A : Type}.
  Variable less : A -> A -> bool.

  (** Go's insertionSort: an element moves to the left past every element it is
      less than, stopping at the first it is not less than. The prefix already
      sorted is kept in reverse. Called through sort.Sort by
      sort/sort.go:12-60 Sort. *)
  Fixpoint insert_back (x : A) (sorted : list A) : list A :=
    match sorted with
    | [] => [x]
    | y :: r => if less x y then y :: insert_back x r else x :: y :: r
    end.

  (** Called through sort.Sort by sort/sort.go:12-60 Sort. *)
  Definition insertion_sort (l : list A) : list A :=
    rev (fold_left (fun acc x => insert_back x acc) l []).
End Sort.

(** A strict weak order on the elements of a list. No counterpart in /repo:
    what sort.Sort needs of sort/sort.go:74-100 Less. *)
Definition weak_order_on {A} (lt : A -> A -> bool) (l : list A) : Prop :=
  (forall x y, In x l -> In y l -> lt x y = true -> lt y x = false) /\
  (forall x y z, In x l -> In y l -> In z l -> lt x y = true -> lt x z = true \/ lt z y = true).

(** Rows are only exchanged; with a strict weak order the result is in order,
    and so it is when the comparison is the negation of one (which is how
    DESC is implemented, sort.go:95-97). *)
Record sort_contract {A} (srt : (A -> A -> bool) -> list A -> list A) : Prop := {
  sc_perm : forall less l, Permutation (srt less l) l;
  sc_asc : forall less l, weak_order_on less l ->
    StronglySorted (fun a b => less b a = false) (srt less l);
  sc_desc : forall less lt l,
    (forall a b, In a l -> In b l -> less a b = negb (lt a b)) -> weak_order_on lt l ->
    StronglySorted (fun a b => lt a b = false) (srt less l)
}.

Section Proofs.
  Context {A : Type}.
  Implicit Types (l : list A) (less lt : A -> A -> bool).

  Lemma insert_perm : forall less x l, Permutation (insert_back less x l) (x :: l).
  Proof.
    intros less x l. induction l as [|y l IH]; simpl; [reflexivity|].
    destruct (less x y); [|reflexivity]. rewrite IH. apply perm_swap.
  Qed.

  Lemma sort_fold_perm : forall less l acc,
    Permutation (fold_left (fun acc x => insert_back less x acc) l acc) (l ++ acc).
  Proof.
    intros less l. induction l as [|x l IH]; intros acc; simpl; [reflexivity|].
    rewrite IH, insert_perm. symmetry. apply Permutation_middle.
  Qed.

  Lemma insertion_perm : forall less l, Permutation (insertion_sort less l) l.
  Proof.
    intros less l. unfold insertion_sort. rewrite <- Permutation_rev, sort_fold_perm, app_nil_r.
    reflexivity.
  Qed.

  (** Sortedness, for any relation [le] such that an element that is not less
      is not smaller, and one that is less is not greater. *)
  Lemma insert_sorted : forall less (le : A -> A -> Prop) (P : A -> Prop),
    (forall x y, P x -> P y -> less x y = true -> le x y) ->
    (forall x y, P x -> P y -> less x y = false -> le y x) ->
    (forall x y z, P x -> P y -> P z -> le x y -> le y z -> le x z) ->
    forall x l, P x -> Forall P l ->
    StronglySorted (fun a b => le b a) l -> StronglySorted (fun a b => le b a) (insert_back less x l).
  Proof.
    intros less le P L1 L2 TR x l Px PL H. induction H as [|y l Hl IH Hy]; simpl.
    - constructor; constructor.
    - inversion PL as [|? ? Py Pl]; subst. destruct (less x y) eqn:EL.
      + constructor; [auto|].
        rewrite Forall_forall in *. intros z HZ.
        apply (Permutation_in _ (insert_perm less x l)) in HZ. destruct HZ as [<-|HZ]; auto.
      + constructor; [constructor; assumption|]. constructor; [auto|].
        rewrite Forall_forall in *. intros z HZ. apply (TR z y x); auto.
  Qed.

  Lemma insertion_sorted : forall less (le : A -> A -> Prop) (P : A -> Prop),
    (forall x y, P x -> P y -> less x y = true -> le x y) ->
    (forall x y, P x -> P y -> less x y = false -> le y x) ->
    (forall x y z, P x -> P y -> P z -> le x y -> le y z -> le x z) ->
    forall l, Forall P l -> StronglySorted le (insertion_sort less l).
  Proof.
    intros less le P L1 L2 TR l PL. unfold insertion_sort.
    assert (G : forall l acc, Forall P l -> Forall P acc -> StronglySorted (fun a b => le b a) acc ->
      StronglySorted (fun a b => le b a) (fold_left (fun acc x => insert_back less x acc) l acc)).
    { clear l PL. induction l as [|x l IH]; intros acc PL PA H; simpl; [exact H|].
      inversion PL; subst. apply IH; auto.
      - rewrite Forall_forall in *. intros z HZ.
        apply (Permutation_in _ (insert_perm less x acc)) in HZ. destruct HZ as [<-|HZ]; auto.
      - eapply insert_sorted; eauto. }
    specialize (G l [] PL (Forall_nil _) (SSorted_nil _)).
    revert G. generalize (fold_left (fun acc x => insert_back less x acc) l []). clear.
    induction l as [|x l IH]; intros H; simpl; [constructor|].
    inversion H as [|? ? H1 H2]; subst. specialize (IH H1).
    assert (AP : forall l, StronglySorted le l -> Forall (fun z => le z x) l -> StronglySorted le (l ++ [x])).
    { clear. intros l H. induction H as [|y l H IH HY]; intros F; simpl; [constructor; constructor|].
      inversion F; subst. constructor; [auto|]. apply Forall_app. split; [exact HY|]. constructor; auto. }
    apply AP; [exact IH|]. apply Forall_forall. intros z HZ. apply in_rev in HZ.
    rewrite Forall_forall in H2. auto.
  Qed.
End Proofs.

Theorem insertion_sort_contract : forall A, sort_contract (@insertion_sort A).
Proof.
  intros A. constructor.
  - apply insertion_perm.
  - intros less l [AS NT].
    apply (insertion_sorted less (fun a b => less b a = false) (fun x => In x l)).
    + intros x y Hx Hy H. auto.
    + auto.
    + intros x y z Hx Hy Hz H1 H2. destruct (less z x) eqn:E; [|reflexivity].
      destruct (NT z x y Hz Hx Hy E); congruence.
    + apply Forall_forall. auto.
  - intros less lt l HL [AS NT].
    apply (insertion_sorted less (fun a b => lt a b = false) (fun x => In x l)).
    + intros x y Hx Hy H. rewrite HL in H by auto. now destruct (lt x y).
    + intros x y Hx Hy H. rewrite HL in H by auto. apply negb_false_iff in H. auto.
    + intros x y z Hx Hy Hz H1 H2. destruct (lt x z) eqn:E; [|reflexivity].
      destruct (NT x z y Hx Hz Hy E); congruence.
    + apply Forall_forall. auto.
Qed.

Example insertion_sort_runs :
  insertion_sort Nat.ltb [3; 1; 2; 1] = [1; 1; 2; 3] /\
  insertion_sort (fun a b => negb (Nat.ltb a b)) [3; 1; 2; 1] = [3; 2; 1; 1].
Proof. split; reflexivity. Qed.
