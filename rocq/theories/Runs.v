(** What an evaluation yields, independently of fuel: a computation indexed
    by fuel [evaluates] to a result when every sufficiently large amount of
    fuel gives that result.  Results are unique. *)

From Coq Require Import ZArith List String Bool Lia PeanoNat.
From Verif Require Import Base F64 Value Protocols Monad Chains Range Flatten ArgParser Syntax Eval.
Import ListNotations.

Definition evaluates {A} (m : nat -> EM A) (s s' : st) (a : A) : Prop :=
  exists N, forall n, N <= n -> m n s = (s', RVal a).

Lemma evaluates_unique : forall A (m : nat -> EM A) s s1 s2 a b,
  evaluates m s s1 a -> evaluates m s s2 b -> s1 = s2 /\ a = b.
Proof.
  intros A m s s1 s2 a b [N1 H1] [N2 H2].
  specialize (H1 (max N1 N2) ltac:(lia)). specialize (H2 (max N1 N2) ltac:(lia)).
  rewrite H1 in H2. injection H2 as -> ->. auto.
Qed.

Lemma ev_ret : forall A (a : A) s, evaluates (fun _ => mret a) s s a.
Proof. intros. exists 0. reflexivity. Qed.

Lemma ev_bind : forall A B (m : nat -> EM A) (f : nat -> A -> EM B) s s1 s2 a b,
  evaluates m s s1 a -> evaluates (fun n => f n a) s1 s2 b ->
  evaluates (fun n => mbind (m n) (f n)) s s2 b.
Proof.
  intros A B m f s s1 s2 a b [N1 H1] [N2 H2]. exists (max N1 N2). intros n Hn.
  unfold mbind. rewrite H1 by lia. apply H2. lia.
Qed.

(** A computation that uses no fuel. *)
Lemma ev_now : forall A (m : EM A) s s' a, m s = (s', RVal a) -> evaluates (fun _ => m) s s' a.
Proof. intros. exists 0. auto. Qed.

Lemma ev_ext : forall A (m1 m2 : nat -> EM A) s s' a,
  (forall n, m1 n s = m2 n s) -> evaluates m1 s s' a -> evaluates m2 s s' a.
Proof. intros A m1 m2 s s' a H [N HN]. exists N. intros n Hn. rewrite <- H. auto. Qed.

Lemma ev_from : forall A (m1 m2 : nat -> EM A) s s' a N0,
  (forall n, N0 <= n -> m1 n s = m2 n s) -> evaluates m1 s s' a -> evaluates m2 s s' a.
Proof.
  intros A m1 m2 s s' a N0 H [N HN]. exists (max N0 N). intros n Hn.
  rewrite <- H by lia. apply HN. lia.
Qed.

(** One unit of fuel is one step of the knot. *)
Lemma ev_shift : forall A (m : nat -> EM A) (m' : nat -> EM A) s s' a,
  (forall n, m (S n) = m' n) -> evaluates m' s s' a -> evaluates m s s' a.
Proof.
  intros A m m' s s' a H [N HN]. exists (S N). intros n Hn.
  destruct n as [|n]; [lia|]. rewrite H. apply HN. lia.
Qed.

Lemma ev_unshift : forall A (m : nat -> EM A) (m' : nat -> EM A) s s' a,
  (forall n, m (S n) = m' n) -> evaluates m s s' a -> evaluates m' s s' a.
Proof.
  intros A m m' s s' a H [N HN]. exists N. intros n Hn. rewrite <- H. apply HN. lia.
Qed.

Section Steps.
  Variable E : env.
  Notation R := (ev E).

  Lemma ev_expr : forall sc e s s' v,
    evaluates (fun n => expr_step E (R n) sc e) s s' v -> evaluates (fun n => r_expr (R n) sc e) s s' v.
  Proof. intros. apply (ev_shift _ _ (fun n => expr_step E (R n) sc e)); auto. Qed.
  Lemma ev_select : forall sc q s s' v,
    evaluates (fun n => select_step E (R n) n sc q) s s' v ->
    evaluates (fun n => r_select (R n) sc q) s s' v.
  Proof. intros. apply (ev_shift _ _ (fun n => select_step E (R n) n sc q)); auto. Qed.
  Lemma ev_query : forall sc q s s' v,
    evaluates (fun n => query_step (R n) sc q) s s' v -> evaluates (fun n => r_query (R n) sc q) s s' v.
  Proof. intros. apply (ev_shift _ _ (fun n => query_step (R n) sc q)); auto. Qed.
  Lemma ev_assoc : forall sc a k s s' v,
    evaluates (fun n => assoc_step E (R n) sc a k) s s' v -> evaluates (fun n => r_assoc (R n) sc a k) s s' v.
  Proof. intros. apply (ev_shift _ _ (fun n => assoc_step E (R n) sc a k)); auto. Qed.
  Lemma ev_reduce : forall a s s' v,
    evaluates (fun n => reduce_step (R n) a) s s' v -> evaluates (fun n => r_reduce (R n) a) s s' v.
  Proof. intros. apply (ev_shift _ _ (fun n => reduce_step (R n) a)); auto. Qed.
  Lemma ev_reduce_ws : forall sc a s s' v,
    evaluates (fun n => reduce_ws_step (R n) sc a) s s' v ->
    evaluates (fun n => r_reduce_ws (R n) sc a) s s' v.
  Proof. intros. apply (ev_shift _ _ (fun n => reduce_ws_step (R n) sc a)); auto. Qed.
  Lemma ev_evalsym : forall sc a s s' v,
    evaluates (fun n => evalsym_step (R n) sc a) s s' v ->
    evaluates (fun n => r_evalsym (R n) sc a) s s' v.
  Proof. intros. apply (ev_shift _ _ (fun n => evalsym_step (R n) sc a)); auto. Qed.
  Lemma ev_negate : forall sc a s s' v,
    evaluates (fun n => negate_step (R n) sc a) s s' v ->
    evaluates (fun n => r_negate (R n) sc a) s s' v.
  Proof. intros. apply (ev_shift _ _ (fun n => negate_step (R n) sc a)); auto. Qed.
  Lemma ev_normalize : forall sc d a s s' v,
    evaluates (fun n => normalize_step (R n) sc d a) s s' v ->
    evaluates (fun n => r_normalize (R n) sc d a) s s' v.
  Proof. intros. apply (ev_shift _ _ (fun n => normalize_step (R n) sc d a)); auto. Qed.
  Lemma ev_tostring : forall sc a s s' v,
    evaluates (fun n => tostring_step E (R n) sc a) s s' v ->
    evaluates (fun n => r_tostring (R n) sc a) s s' v.
  Proof. intros. apply (ev_shift _ _ (fun n => tostring_step E (R n) sc a)); auto. Qed.
End Steps.
