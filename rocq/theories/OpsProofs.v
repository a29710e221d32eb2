(** Lemmas about the operator dispatchers. *)

From Coq Require Import ZArith List String Ascii Bool Lia.
From Verif Require Import Base BaseProofs F64 F64Proofs Value Protocols Monad Chains.
Import ListNotations.
Open Scope Z_scope.

(** ** Integers *)

Lemma intcase_inv : forall v, is_intcase v = true ->
  exists k z, v = VInt k z /\ k <> KUint /\ to_int64 v = Some (wrap64 z).
Proof.
  intros v H. destruct v as [| | |k z| | | | | | | | |]; try discriminate.
  destruct k; try discriminate;
    eexists _, _; (split; [reflexivity|split; [discriminate|reflexivity]]).
Qed.

Lemma eq_int : forall I k x k' y, k <> KUint -> k' <> KUint ->
  eq_disp I (VInt k x) (VInt k' y) = (wrap64 x =? wrap64 y).
Proof. intros I k x k' y H H'. destruct k, k'; try congruence; reflexivity. Qed.

Lemma lt_int : forall I k x k' y, k <> KUint -> k' <> KUint ->
  lt_disp I (VInt k x) (VInt k' y) = (wrap64 x <? wrap64 y).
Proof. intros I k x k' y H H'. destruct k, k'; try congruence; reflexivity. Qed.

Lemma gt_int : forall I k x k' y, k <> KUint -> k' <> KUint ->
  gt_disp I (VInt k x) (VInt k' y) = (wrap64 y <? wrap64 x).
Proof. intros I k x k' y H H'. destruct k, k'; try congruence; reflexivity. Qed.

(** ** Equality unfolding for containers *)

Fixpoint all2b {A} (f : A -> A -> bool) (l1 l2 : list A) : bool :=
  match l1, l2 with
  | x :: r1, y :: r2 => if f x y then all2b f r1 r2 else false
  | _, _ => true
  end.

Fixpoint dict_all {A} (f : A -> A -> bool) (d1 d2 : list (string * A)) : bool :=
  match d1 with
  | [] => true
  | (k, x) :: r =>
      match assoc k d2 with
      | None => false
      | Some y => if f x y then dict_all f r d2 else false
      end
  end.

Lemma eq_arr : forall I l b l2, arr_elems b = Some l2 ->
  eq_disp I (VArr l) b =
  if Nat.eqb (List.length l) (List.length l2) then all2b (eq_disp I) l l2 else false.
Proof.
  intros I l b l2 H.
  assert (G : forall b l2, arr_elems b = Some l2 ->
    eq_disp I (VArr l) b =
    if Nat.eqb (List.length l) (List.length l2) then
      (fix arr_eq (l1 l2 : list val) : bool :=
          match l1, l2 with
          | x :: r1, y :: r2 => if eq_disp I x y then arr_eq r1 r2 else false
          | _, _ => true
          end) l l2 else false).
  { clear. intros b l2 H. destruct b; try discriminate; simpl in H; injection H as <-;
      unfold eq_disp; fold (eq_disp I); reflexivity. }
  rewrite (G b l2 H). clear.
  destruct (Nat.eqb (List.length l) (List.length l2)); [|reflexivity].
  revert l2. induction l as [|x l IH]; intros [|y l2]; try reflexivity.
  simpl. destruct (eq_disp I x y); [apply IH|reflexivity].
Qed.

Lemma eq_dict : forall d1 d2,
  eq_disp [] (VDict d1) (VDict d2) =
  if Nat.eqb (List.length d1) (List.length d2) then dict_all (eq_disp []) d1 d2 else false.
Proof.
  intros d1 d2.
  assert (G : eq_disp [] (VDict d1) (VDict d2) =
    if Nat.eqb (List.length d1) (List.length d2) then
      (fix dict_eq (d1 : list (string * val)) (d2 : list (string * val)) :=
          match d1 with
          | [] => true
          | (k, x) :: r =>
              match assoc k d2 with
              | None => false
              | Some y => if eq_disp [] x y then dict_eq r d2 else false
              end
          end) d1 d2 else false) by (unfold eq_disp; fold (eq_disp []); reflexivity).
  rewrite G. clear.
  destruct (Nat.eqb (List.length d1) (List.length d2)); [|reflexivity].
  induction d1 as [|[k x] d1 IH]; [reflexivity|].
  simpl. destruct (assoc k d2) as [y|]; [|reflexivity].
  destruct (eq_disp [] x y); [exact IH|reflexivity].
Qed.

Lemma all2b_spec : forall A (f : A -> A -> bool) l1 l2,
  List.length l1 = List.length l2 ->
  (all2b f l1 l2 = true <-> Forall2 (fun x y => f x y = true) l1 l2).
Proof.
  induction l1 as [|x l1 IH]; destruct l2 as [|y l2]; simpl; intros L; try discriminate.
  - split; constructor.
  - injection L as L. destruct (f x y) eqn:E.
    + rewrite IH by exact L. split; intros H; [constructor; assumption|now inversion H].
    + split; [discriminate|]. intros H. inversion H; subst. congruence.
Qed.

Lemma dict_all_spec : forall A (f : A -> A -> bool) d1 d2,
  dict_all f d1 d2 = true <->
  (forall k x, In (k, x) d1 -> exists y, assoc k d2 = Some y /\ f x y = true).
Proof.
  induction d1 as [|[k x] d1 IH]; simpl; intros d2.
  - split; [intros _ k x []|reflexivity].
  - destruct (assoc k d2) as [y|] eqn:E.
    + destruct (f x y) eqn:F.
      * rewrite IH. split.
        -- intros H k' x' [H'|H']; [|auto]. injection H' as <- <-. eauto.
        -- intros H k' x' H'. auto.
      * split; [discriminate|]. intros H.
        destruct (H k x (or_introl eq_refl)) as (y' & H1 & H2). congruence.
    + split; [discriminate|]. intros H.
      destruct (H k x (or_introl eq_refl)) as (y' & H1 & H2). congruence.
Qed.

(** ** Chains *)

Section ChainProofs.
  Context {S : Type}.
  Variable truth : val -> M S bool.

  (** One operand is evaluated and then tested. *)
  Definition runs_to (op : M S val) (s : S) (v : val) (b : bool) (s' : S) : Prop :=
    exists s1, op s = (s1, RVal v) /\ truth v s1 = (s', RVal b).

  (** Left to right evaluation that stops at the first operand whose truth
      value is [stop]; operands after it are not evaluated.  The last two
      indices are the decisive operand's position from the end (operands not
      evaluated) and its truth value. *)
  Inductive scan (stop : bool) : S -> list (M S val) -> S -> list (M S val) -> bool -> val -> Prop :=
  | scan_stop : forall s op rest s' v,
      runs_to op s v stop s' ->
      scan stop s (op :: rest) s' rest stop v
  | scan_last : forall s op s' v,
      runs_to op s v (negb stop) s' ->
      scan stop s [op] s' [] (negb stop) v
  | scan_next : forall s op op2 rest s1 s2 unrun b v v1,
      runs_to op s v1 (negb stop) s1 ->
      scan stop s1 (op2 :: rest) s2 unrun b v ->
      scan stop s (op :: op2 :: rest) s2 unrun b v.

  Lemma and_loop_scan : forall rights last s s' v,
    rights <> [] ->
    and_loop truth last rights s = (s', RVal v) ->
    exists unrun b w, scan false s (map snd rights) s' unrun b w /\
      (b = false -> v = VBool false) /\
      (b = true -> v = VBool true \/ v = w).
  Proof.
    induction rights as [|[op term] rest IH]; intros last s s' v NE H; [congruence|].
    simpl in H. apply mbind_val in H as (s1 & right & H1 & H).
    apply mbind_val in H as (s2 & b & H2 & H).
    destruct b; simpl in H.
    - destruct rest as [|[op2 t2] rest'].
      + simpl in H. injection H as <- <-.
        exists [], true, right. split; [|split].
        * simpl. apply (scan_last false s term s2 right). exists s1. auto.
        * discriminate.
        * intros _. destruct (String.eqb op "&&"); auto.
      + apply IH in H as (unrun & b & w & HS & Hf & Ht); [|discriminate].
        exists unrun, b, w. split; [|split; assumption].
        simpl in *. eapply scan_next; [|exact HS]. exists s1. split; eassumption.
    - injection H as <- <-. exists (map snd rest), false, right. split; [|split].
      + simpl. apply scan_stop. exists s1. auto.
      + reflexivity.
      + discriminate.
  Qed.

  Lemma or_loop_scan : forall rights last s s' v,
    rights <> [] ->
    or_loop truth last rights s = (s', RVal v) ->
    exists unrun b w, scan true s (map snd rights) s' unrun b w /\
      (b = false -> v = w) /\
      (b = true -> v = VBool true \/ v = w).
  Proof.
    induction rights as [|[op term] rest IH]; intros last s s' v NE H; [congruence|].
    simpl in H. apply mbind_val in H as (s1 & right & H1 & H).
    apply mbind_val in H as (s2 & b & H2 & H).
    destruct b; simpl in H.
    - injection H as <- <-. exists (map snd rest), true, right. split; [|split].
      + simpl. apply scan_stop. exists s1. auto.
      + discriminate.
      + intros _. destruct (String.eqb op "||"); auto.
    - destruct rest as [|[op2 t2] rest'].
      + simpl in H. injection H as <- <-.
        exists [], false, right. split; [|split].
        * simpl. apply (scan_last true s term s2 right). exists s1. auto.
        * reflexivity.
        * discriminate.
      + apply IH in H as (unrun & b & w & HS & Hf & Ht); [|discriminate].
        exists unrun, b, w. split; [|split; assumption].
        simpl in *. eapply scan_next; [|exact HS]. exists s1. split; eassumption.
  Qed.

  Lemma and_reduce_scan : forall left rights s s' v,
    rights <> [] ->
    and_reduce truth left rights s = (s', RVal v) ->
    exists unrun b w, scan false s (left :: map snd rights) s' unrun b w /\
      (b = false -> v = VBool false) /\
      (b = true -> v = VBool true \/ v = w).
  Proof.
    intros left rights s s' v NE H. unfold and_reduce in H.
    apply mbind_val in H as (s1 & l & H1 & H).
    destruct rights as [|r rights]; [congruence|].
    apply mbind_val in H as (s2 & b & H2 & H).
    destruct b; simpl negb in H; cbv iota in H.
    - apply and_loop_scan in H as (unrun & b & w & HS & Hf & Ht); [|discriminate].
      exists unrun, b, w. split; [|split; assumption].
      simpl in *. eapply scan_next; [|exact HS]. exists s1. split; eassumption.
    - injection H as <- <-. eexists _, false, l. split; [|split].
      + apply scan_stop. exists s1. split; eassumption.
      + reflexivity.
      + discriminate.
  Qed.

  Lemma or_reduce_scan : forall left rights s s' v,
    rights <> [] ->
    or_reduce truth left rights s = (s', RVal v) ->
    exists unrun b w, scan true s (left :: map snd rights) s' unrun b w /\
      (b = false -> v = w) /\
      (b = true -> v = VBool true \/ v = w).
  Proof.
    intros left rights s s' v NE H. unfold or_reduce in H.
    apply mbind_val in H as (s1 & l & H1 & H).
    destruct rights as [|r rights]; [congruence|].
    apply mbind_val in H as (s2 & b & H2 & H).
    destruct b; cbv iota in H.
    - injection H as <- <-. eexists _, true, l. split; [|split].
      + apply scan_stop. exists s1. split; eassumption.
      + discriminate.
      + auto.
    - apply or_loop_scan in H as (unrun & b & w & HS & Hf & Ht); [|discriminate].
      exists unrun, b, w. split; [|split; assumption].
      simpl in *. eapply scan_next; [|exact HS]. exists s1. split; eassumption.
  Qed.

End ChainProofs.
