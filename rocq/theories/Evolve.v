(** What evaluation never undoes: objects keep their identity, a value once
    cached by a row or a lazy expression stays, a node keeps its function
    object and its split, effects already seen stay seen. *)

From Coq Require Import ZArith List String Bool Lia PeanoNat.
From Verif Require Import Base BaseProofs F64 Value Protocols Monad Chains Range Flatten ArgParser Syntax
  Eval Runs Para.
Import ListNotations.

Inductive same_obj : obj -> obj -> Prop :=
| so_refl : forall o, same_obj o o
| so_row : forall c g ca ca',
    (forall k v, assoc k ca = Some v -> assoc k ca' = Some v) ->
    (forall k, assoc k g = None -> assoc k ca' = assoc k ca) ->
    same_obj (ORow c g ca) (ORow c g ca')
| so_lazy : forall e sc c', same_obj (OLazy e sc None) (OLazy e sc c').

Record evolves (s s' : st) : Prop := {
  evo_heap : forall n o, nth_error (heap s) n = Some o ->
    exists o', nth_error (heap s') n = Some o' /\ same_obj o o';
  evo_trace : exists l, trace s' = l ++ trace s;
  evo_split : forall n, In n (split_nodes s) -> In n (split_nodes s');
  evo_funs : forall n f, nassoc n (node_funs s) = Some f -> nassoc n (node_funs s') = Some f;
  evo_id : next_id s <= next_id s';
  evo_cells : List.length (cells s) <= List.length (cells s');
  evo_ctxs : List.length (ctxs s) <= List.length (ctxs s')
}.

Lemma same_obj_trans : forall a b c, same_obj a b -> same_obj b c -> same_obj a c.
Proof.
  intros a b c H1 H2. inversion H1 as [|? ? ? ? K1 N1|]; subst; try exact H2.
  - inversion H2 as [|? ? ? ? K2 N2|]; subst; [exact H1|constructor; auto].
    intros k HK. rewrite N2, N1; auto.
  - inversion H2; subst; constructor.
Qed.

Lemma evolves_refl : forall s, evolves s s.
Proof.
  intros s. constructor; auto.
  - intros n o H. exists o. split; [exact H|constructor].
  - exists []. reflexivity.
Qed.

Lemma evolves_trans : forall a b c, evolves a b -> evolves b c -> evolves a c.
Proof.
  intros a b c H1 H2. constructor.
  - intros n o H. destruct (evo_heap _ _ H1 _ _ H) as (o1 & E1 & S1).
    destruct (evo_heap _ _ H2 _ _ E1) as (o2 & E2 & S2). exists o2. split; [exact E2|].
    eapply same_obj_trans; eauto.
  - destruct (evo_trace _ _ H1) as [l1 E1]. destruct (evo_trace _ _ H2) as [l2 E2].
    exists (l2 ++ l1). rewrite E2, E1. apply app_assoc.
  - intros n H. apply (evo_split _ _ H2). now apply (evo_split _ _ H1).
  - intros n f H. apply (evo_funs _ _ H2). now apply (evo_funs _ _ H1).
  - pose proof (evo_id _ _ H1). pose proof (evo_id _ _ H2). lia.
  - pose proof (evo_cells _ _ H1). pose proof (evo_cells _ _ H2). lia.
  - pose proof (evo_ctxs _ _ H1). pose proof (evo_ctxs _ _ H2). lia.
Qed.

(** The state after a computation, whatever its outcome. *)
Definition grows (A : Type) (m m' : EM A) : Prop := forall s, evolves s (fst (m s)).

Lemma nth_set_nth : forall A (l : list A) n m x,
  nth_error (set_nth n x l) m =
  if Nat.eqb n m then match nth_error l n with Some _ => Some x | None => None end
  else nth_error l m.
Proof.
  intros A l. induction l as [|y l IH]; intros n m x.
  - destruct n, m; cbn; try reflexivity; destruct (Nat.eqb n m); reflexivity.
  - destruct n as [|n], m as [|m]; cbn [set_nth nth_error Nat.eqb]; try reflexivity. apply IH.
Qed.

Lemma length_set_nth : forall A (l : list A) n x, List.length (set_nth n x l) = List.length l.
Proof. intros A l. induction l as [|y l IH]; intros [|n] x; cbn; auto. Qed.

Lemma nassoc_nset : forall A n m (v : A) l,
  nassoc m (nset n v l) = if Nat.eqb m n then Some v else nassoc m l.
Proof.
  intros A n m v l. induction l as [|[k x] l IH]; cbn.
  - reflexivity.
  - destruct (Nat.eqb n k) eqn:E1; cbn.
    + apply Nat.eqb_eq in E1 as ->. destruct (Nat.eqb m k); reflexivity.
    + destruct (Nat.eqb m k) eqn:E2; [|exact IH].
      apply Nat.eqb_eq in E2 as ->. rewrite Nat.eqb_sym, E1. reflexivity.
Qed.

(** Putting an object over one that it evolves from. *)
Lemma evolves_update : forall s n o o', nth_error (heap s) n = Some o -> same_obj o o' ->
  evolves s (set_heap (set_nth n o' (heap s)) s).
Proof.
  intros s n o o' H SO. destruct s. cbn in *. constructor; cbn; auto.
  - intros m x Hm. rewrite nth_set_nth. destruct (Nat.eqb n m) eqn:EN.
    + apply Nat.eqb_eq in EN as <-. rewrite H. exists o'. split; [reflexivity|].
      rewrite H in Hm. injection Hm as ->. exact SO.
    + exists x. split; [exact Hm|constructor].
  - exists []. reflexivity.
Qed.

Lemma grows_bind : forall A B (m m' : EM A) (f f' : A -> EM B),
  grows A m m' -> (forall a, grows B (f a) (f' a)) -> grows B (mbind m f) (mbind m' f').
Proof.
  intros A B m m' f f' H H0 s. unfold mbind. specialize (H s).
  destruct (m s) as [s1 [a| |]]; cbn [fst] in *; try exact H.
  eapply evolves_trans; [exact H|apply H0].
Qed.

Ltac evo :=
  constructor; cbn; auto; try lia;
  try (intros n' o' H'; exists o'; split; [exact H'|constructor]);
  try (exists []; reflexivity).

Lemma grows_closed : closed grows.
Proof.
  constructor.
  - intros A a s. apply evolves_refl.
  - intros A s. apply evolves_refl.
  - apply grows_bind.
  - intros o s. cbn. destruct s. evo. intros n' o' H'. exists o'. split; [|constructor].
    rewrite nth_error_app1; [exact H'|]. apply nth_error_Some. congruence.
  - intros v s. apply evolves_refl.
  - intros R R' n k H s. unfold row_get, mbind, obj_of, mret, update_obj. cbn [fst].
    destruct (nth_error (heap s) n) as [[]|] eqn:EH; try apply evolves_refl.
    destruct (assoc k cache) eqn:EC; [apply evolves_refl|].
    destruct (assoc k getters) as [g|] eqn:EG; [|apply evolves_refl].
    specialize (H g s). destruct (run_getter R g s) as [s1 [v| |]]; cbn [fst] in *; try exact H.
    destruct (evo_heap _ _ H _ _ EH) as (o1 & E1 & S1). rewrite E1.
    inversion S1 as [|? ? ? ca' HC HN|]; subst; cbn [fst].
    + (* untouched *)
      pose proof (evolves_update s1 n _ (ORow columns getters (dict_set k v cache)) E1) as U.
      eapply evolves_trans; [exact H|]. apply U. constructor; [intros k' v' HK|intros k' HK];
        rewrite assoc_dict_set; (destruct (String.eqb k' k) eqn:EN; [|auto]);
        apply String.eqb_eq in EN as ->; congruence.
    + (* other columns were cached meanwhile *)
      destruct H as [H1 H2 H3 H4 H5 H6 H7]. constructor; cbn; auto.
      intros m x Hm. rewrite nth_set_nth. destruct (Nat.eqb n m) eqn:EN.
      * apply Nat.eqb_eq in EN as <-. rewrite E1. eexists. split; [reflexivity|].
        rewrite EH in Hm. injection Hm as <-. constructor; [intros k' v' HK|intros k' HK];
          rewrite assoc_dict_set; (destruct (String.eqb k' k) eqn:EK; [|auto]);
          apply String.eqb_eq in EK as ->; congruence.
      * apply H1. exact Hm.
  - intros R R' v H s. unfold reduce_step, mbind, obj_of, mret, update_obj.
    destruct v; try apply evolves_refl.
    destruct (nth_error (heap s) n) as [[]|] eqn:EH; try apply evolves_refl.
    destruct cache; [apply evolves_refl|].
    specialize (H sc (VOpaque n) s).
    destruct (r_reduce_ws R sc (VOpaque n) s) as [s1 [x| |]]; cbn [fst] in *; try exact H.
    destruct (evo_heap _ _ H _ _ EH) as (o1 & E1 & S1).
    destruct H as [H1 H2 H3 H4 H5 H6 H7]. constructor; cbn; auto.
    intros m y Hm. rewrite nth_set_nth. destruct (Nat.eqb n m) eqn:EN.
    + apply Nat.eqb_eq in EN as <-. rewrite E1. eexists. split; [reflexivity|].
      rewrite EH in Hm. injection Hm as <-. constructor.
    + apply H1. exact Hm.
  - intros v s. cbn. destruct s. evo. exists [v]. reflexivity.
  - intros sc s. cbn. destruct s. evo; rewrite app_length; cbn; lia.
  - intros sc s. cbn. destruct s. evo; rewrite app_length; cbn; lia.
  - intros sc c s. cbn. destruct s. evo; rewrite length_set_nth; lia.
  - intros s. cbn. destruct s. evo; rewrite app_length; cbn; lia.
  - intros sc id f s. cbn. destruct s. evo; rewrite length_set_nth; lia.
  - intros v s. apply evolves_refl.
  - intros n f s. unfold node_function. destruct (nassoc n (node_funs s)) as [[f' id]|] eqn:EN; [apply evolves_refl|].
    destruct s. cbn in *. evo. intros n' f' H'. rewrite nassoc_nset.
    destruct (Nat.eqb n' n) eqn:E2; [|exact H']. apply Nat.eqb_eq in E2 as ->. congruence.
  - intros n b s. unfold split_symbol. destruct (existsb (Nat.eqb n) (split_nodes s)); [apply evolves_refl|].
    destruct s. cbn in *. evo.
Qed.

Theorem evaluation_evolves : forall E n, related grows (ev E n) (ev E n).
Proof.
  intros E n. induction n as [|n IH].
  - constructor; intros; intros s; apply evolves_refl.
  - cbn [ev]. apply related_step; [apply grows_closed|exact IH|].
    intros a b c s. destruct (range_rows n a b c); apply evolves_refl.
Qed.

Lemma evaluates_evolves : forall A (m : nat -> EM A) s s' a,
  (forall n, grows A (m n) (m n)) -> evaluates m s s' a -> evolves s s'.
Proof.
  intros A m s s' a G [N H]. specialize (G N s). rewrite (H N (le_n N)) in G. exact G.
Qed.
