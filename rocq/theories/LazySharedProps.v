(** C82: a column or an argument that several goroutines read is evaluated
    once. *)

From Coq Require Import ZArith List String Bool Lia.
From Verif Require Import Base Value LazyShared.
Import ListNotations.
Open Scope nat_scope.

(** ** The specification *)

(** The expression was evaluated once, and everybody who got an answer got
    this value. *)
Definition evaluated_once (result : nat -> val) (s : lazy_state) : Prop :=
  evaluations s <= 1 /\ forall v, In (Returned v) (reads s) -> v = result 0.

(** Nobody is on the way to evaluate the expression or to store its value. *)
Definition at_rest (s : lazy_state) : Prop :=
  forall r, In r (reads s) -> exists v, r = Returned v.

(** One read, from its beginning to its end. *)
Definition one_read (i : nat) : list lazy_event := [Look; Evaluate i; Save i; Reread i].

(** n reads, one after the other. *)
Fixpoint reads_in_turn (i n : nat) : list lazy_event :=
  match n with 0 => [] | S n => one_read i ++ reads_in_turn (S i) n end.

(** ** Proofs *)

Section Props.
  Variable k : lazy_kind.
  Variable result : nat -> val.
  Notation step := (lazy_step k result).
  Notation run := (lazy_run k result).

  Lemma in_moved_to l i p r : In r (moved_to l i p) -> In r l \/ r = p.
  Proof.
    unfold moved_to. destruct (nth_error l i) eqn:N; [|auto]. intros I. apply in_app_or in I.
    destruct I as [I|[<-|I]]; [left|auto|left].
    - rewrite <- (firstn_skipn i l). apply in_or_app. now left.
    - rewrite <- (firstn_skipn (S i) l). apply in_or_app. now right.
  Qed.

  (** A value that is kept is what everybody gets from now on, and nothing is
      evaluated any more: whatever the number of goroutines. *)
  Theorem C82_kept_partial : forall s v es,
    found k (cached s) = Some v -> at_rest s ->
    evaluations (run s es) = evaluations s /\
    forall i r, List.length (reads s) <= i -> nth_error (reads (run s es)) i = Some r -> r = Returned v.
  Proof.
    intros s v es HF HR.
    assert (G : forall es s', found k (cached s') = Some v -> at_rest s' ->
              (forall i r, List.length (reads s) <= i -> nth_error (reads s') i = Some r -> r = Returned v) ->
              evaluations (run s' es) = evaluations s' /\
              forall i r, List.length (reads s) <= i -> nth_error (reads (run s' es)) i = Some r -> r = Returned v).
    { clear - k. induction es as [|e es IH]; intros s' HF HR HL; [auto|].
      cbn [lazy_run fold_left]. destruct e as [|i|i|i]; cbn [lazy_step].
      - match goal with |- context [fold_left step es ?x] => apply (IH x) end; cbn [cached reads].
        + exact HF.
        + intros r I. apply in_app_or in I. destruct I as [I|[<-|[]]]; [auto|]. rewrite HF. eauto.
        + intros i r L N. destruct (Nat.lt_ge_cases i (List.length (reads s'))) as [H|H].
          * rewrite nth_error_app1 in N by exact H. eauto.
          * rewrite nth_error_app2 in N by exact H. destruct (i - List.length (reads s')) as [|[|?]]; try discriminate.
            cbn in N. rewrite HF in N. congruence.
      - destruct (nth_error (reads s') i) as [[]|] eqn:N; try (apply IH; assumption).
        apply nth_error_In in N. destruct (HR _ N). discriminate.
      - destruct (nth_error (reads s') i) as [[]|] eqn:N; try (apply IH; assumption).
        apply nth_error_In in N. destruct (HR _ N). discriminate.
      - destruct (nth_error (reads s') i) as [[]|] eqn:N; try (apply IH; assumption).
        apply nth_error_In in N. destruct (HR _ N). discriminate. }
    apply G; auto. intros i r L N. exfalso.
    assert (i < List.length (reads s)) by (apply nth_error_Some; congruence). lia.
  Qed.

  (** Every value that is handed out is the result of one of the
      evaluations. *)
  Theorem C82_result_of_an_evaluation : forall es v,
    In (Returned v) (reads (run lazy_start es)) -> exists n, n < evaluations (run lazy_start es) /\ v = result n.
  Proof.
    intros es v.
    assert (G : forall es s,
      (forall v, cached s = Some v -> exists n, n < evaluations s /\ v = result n) ->
      (forall r v, In r (reads s) -> r = Returned v \/ r = Computed v -> exists n, n < evaluations s /\ v = result n) ->
      (In Saved (reads s) -> cached s <> None) ->
      forall v, In (Returned v) (reads (run s es)) -> exists n, n < evaluations (run s es) /\ v = result n).
    { clear. induction es as [|e es IH]; intros s HC HR HS v I; [eapply HR; [exact I|auto]|].
      cbn [lazy_run fold_left] in *. destruct e as [|i|i|i]; cbn [lazy_step] in *.
      - eapply IH; [| | |exact I]; cbn [cached reads evaluations].
        + exact HC.
        + intros r w J K. apply in_app_or in J. destruct J as [J|[<-|[]]]; [eapply HR; eauto|].
          destruct (found k (cached s)) as [x|] eqn:F; [|destruct K; discriminate].
          assert (x = w) by (destruct K; congruence). subst x. apply HC.
          destruct k, (cached s) as [[]|]; cbn in F; congruence.
        + intros J. apply HS. apply in_app_or in J. destruct J as [J|[J|[]]]; [exact J|].
          destruct (found k (cached s)); discriminate.
      - destruct (nth_error (reads s) i) as [[]|] eqn:N; try (eapply IH; eauto; fail).
        eapply IH; [| | |exact I]; cbn [cached reads evaluations].
        + intros w J. destruct (HC w J) as (n & L & ->). eauto.
        + intros r w J K. apply in_moved_to in J. destruct J as [J| ->].
          * destruct (HR r w J K) as (n & L & ->). eauto.
          * destruct K as [K|K]; [discriminate|]. injection K as <-. eauto.
        + intros J. apply in_moved_to in J. destruct J as [J|J]; [auto|discriminate].
      - destruct (nth_error (reads s) i) as [[]|] eqn:N; try (eapply IH; eauto; fail).
        assert (HV : exists n, n < evaluations s /\ v0 = result n)
          by (eapply HR; [eapply nth_error_In; exact N|auto]).
        eapply IH; [| | |exact I]; cbn [cached reads evaluations].
        + intros w J. injection J as <-. exact HV.
        + intros r w J K. apply in_moved_to in J. destruct J as [J| ->]; [eapply HR; eauto|].
          destruct k, K as [K|K]; try discriminate. injection K as <-. exact HV.
        + discriminate.
      - destruct (nth_error (reads s) i) as [[]|] eqn:N; try (eapply IH; eauto; fail).
        assert (HV : cached s <> None) by (apply HS; eapply nth_error_In; exact N).
        eapply IH; [| | |exact I]; cbn [cached reads evaluations].
        + exact HC.
        + intros r w J K. apply in_moved_to in J. destruct J as [J| ->]; [eapply HR; eauto|].
          destruct (cached s) as [x|] eqn:EC; [|congruence]. apply HC. destruct K; congruence.
        + intros J. apply in_moved_to in J. destruct J as [J|J]; [auto|discriminate]. }
    apply G; cbn; [discriminate|intros ? ? []|intros []].
  Qed.

  (** An expression that always yields the same: everybody gets this value,
      under any schedule. *)
  Theorem C82_steady_expression_partial : forall v es w,
    (forall n, result n = v) -> In (Returned w) (reads (run lazy_start es)) -> w = v.
  Proof.
    intros v es w H I. destruct (C82_result_of_an_evaluation es w I) as (n & _ & ->). apply H.
  Qed.

  Lemma nth_last {A} (l : list A) x : nth_error (l ++ [x]) (List.length l) = Some x.
  Proof. rewrite nth_error_app2 by lia. now rewrite Nat.sub_diag. Qed.

  Lemma moved_last l r p : moved_to (l ++ [r]) (List.length l) p = l ++ [p].
  Proof.
    unfold moved_to. rewrite nth_last. rewrite firstn_app, firstn_all, Nat.sub_diag. cbn [firstn]. rewrite app_nil_r.
    rewrite skipn_all2; [reflexivity|]. rewrite app_length. cbn. lia.
  Qed.

  (** One goroutine: n reads evaluate the expression once, unless it is an
      argument that yields nil, and all of them return its value. *)
  Theorem C82_one_goroutine : forall n,
    (k = Argument -> result 0 <> VNil) ->
    let s := run lazy_start (reads_in_turn 0 n) in
    evaluations s = Nat.min n 1 /\ reads s = repeat (Returned (result 0)) n.
  Proof.
    intros n HN.
    assert (FV : found k (Some (result 0)) = Some (result 0)).
    { destruct k; [reflexivity|]. cbn. specialize (HN eq_refl). destruct (result 0); congruence. }
    assert (KEPT : forall n m s, cached s = Some (result 0) -> reads s = repeat (Returned (result 0)) m ->
              evaluations (run s (reads_in_turn m n)) = evaluations s /\
              reads (run s (reads_in_turn m n)) = repeat (Returned (result 0)) (m + n)).
    { clear n. induction n as [|n IH]; intros m s HC HR; [cbn; now rewrite Nat.add_0_r|].
      cbn [reads_in_turn]. unfold lazy_run. rewrite fold_left_app.
      set (s1 := fold_left step (one_read m) s).
      assert (ML : m = List.length (reads s)) by (rewrite HR; now rewrite repeat_length).
      assert (E1 : cached s1 = Some (result 0) /\ evaluations s1 = evaluations s /\
                   reads s1 = reads s ++ [Returned (result 0)]).
      { subst s1. cbn [one_read fold_left lazy_step]. rewrite HC, FV. cbn [reads]. rewrite ML, nth_last. cbn [reads].
        rewrite nth_last. cbn [reads]. rewrite nth_last. cbn. auto. }
      destruct E1 as (C1 & V1 & R1).
      destruct (IH (S m) s1 C1) as [A B].
      - rewrite R1, HR. rewrite <- repeat_cons. reflexivity.
      - fold (run s1 (reads_in_turn (S m) n)). rewrite A, B, V1. split; [reflexivity|]. f_equal. lia. }
    destruct n as [|n]; [cbn; auto|].
    cbn [reads_in_turn]. unfold lazy_run. rewrite fold_left_app.
    set (s1 := fold_left step (one_read 0) lazy_start).
    assert (E1 : cached s1 = Some (result 0) /\ evaluations s1 = 1 /\ reads s1 = [Returned (result 0)]).
    { subst s1. destruct k; cbn; auto. }
    destruct E1 as (C1 & V1 & R1). destruct (KEPT n 1 s1 C1 R1) as [A B].
    cbv zeta. fold (run s1 (reads_in_turn 1 n)). rewrite A, B, V1. split; [lia|reflexivity].
  Qed.

End Props.

(** Two goroutines that look at the same time both evaluate the expression,
    they get different values, and the value that the row has changes
    afterwards: the first reader got the result of the first evaluation, and
    everybody who comes later gets that of the second. *)
Definition both : list lazy_event := [Look; Look; Evaluate 0; Evaluate 1; Save 0; Reread 0; Save 1; Reread 1; Look].

Theorem C82_evaluated_twice_refuted : forall k, exists result,
  let s := lazy_run k result lazy_start both in
  evaluations s = 2 /\
  reads s = [Returned (result 0); Returned (result 1); Returned (result 1)] /\
  result 0 <> result 1 /\
  ~ evaluated_once result s.
Proof.
  intros k. exists (fun n => vint (Z.of_nat n)).
  destruct k; cbv zeta; (split; [reflexivity|]; split; [reflexivity|]; split; [discriminate|]);
    intros [H _]; vm_compute in H; lia.
Qed.

(** With n goroutines it may be evaluated n times. *)
Theorem C82_evaluated_by_all_refuted : forall k result n, exists es,
  evaluations (lazy_run k result lazy_start es) = n /\
  List.length (reads (lazy_run k result lazy_start es)) = n.
Proof.
  intros k result n. exists (repeat Look n ++ map Evaluate (seq 0 n)). unfold lazy_run. rewrite fold_left_app.
  assert (A : forall n s, cached s = None ->
            fold_left (lazy_step k result) (repeat Look n) s =
            {| cached := None; evaluations := evaluations s; reads := reads s ++ repeat Missed n |}).
  { clear. induction n as [|n IH]; intros s HC.
    - cbn. rewrite app_nil_r. destruct s; cbn in *; congruence.
    - cbn [repeat fold_left lazy_step]. rewrite IH; [|exact HC]. cbn [reads evaluations]. rewrite HC.
      replace (found k None) with (@None val) by (destruct k; reflexivity). now rewrite <- app_assoc. }
  rewrite A by reflexivity. cbn [lazy_start evaluations reads app].
  assert (B : forall m j s, reads s = firstn j (reads s) ++ repeat Missed m -> j + m = List.length (reads s) ->
            evaluations (fold_left (lazy_step k result) (map Evaluate (seq j m)) s) = evaluations s + m /\
            List.length (reads (fold_left (lazy_step k result) (map Evaluate (seq j m)) s)) = List.length (reads s)).
  { clear. induction m as [|m IH]; intros j s HR HL; [cbn; lia|].
    cbn [seq map fold_left lazy_step].
    assert (L : List.length (firstn j (reads s)) = j) by (rewrite firstn_length; lia).
    assert (N : nth_error (reads s) j = Some Missed).
    { rewrite HR. rewrite nth_error_app2 by lia. rewrite L, Nat.sub_diag. reflexivity. }
    rewrite N. set (s1 := {| cached := cached s; evaluations := _; reads := _ |}).
    assert (R1 : reads s1 = firstn j (reads s) ++ Computed (result (evaluations s)) :: repeat Missed m).
    { subst s1. cbn [reads]. unfold moved_to. rewrite N. f_equal. f_equal.
      transitivity (skipn (S j) (firstn j (reads s) ++ repeat Missed (S m))); [f_equal; exact HR|].
      rewrite skipn_app, L. rewrite skipn_all2 by lia. replace (S j - j) with 1 by lia. reflexivity. }
    assert (L1 : List.length (reads s1) = List.length (reads s)).
    { rewrite R1, app_length, L. cbn [List.length]. rewrite repeat_length. lia. }
    destruct (IH (S j) s1) as [E1 E2].
    - rewrite R1 at 1. rewrite R1. rewrite firstn_app, L.
      rewrite (firstn_all2 (firstn j (reads s))) by lia.
      replace (S j - j) with 1 by lia. cbn [firstn]. now rewrite <- app_assoc.
    - lia.
    - rewrite E1, E2. subst s1. cbn [evaluations] in *. lia. }
  destruct (B n 0 {| cached := None; evaluations := 0; reads := repeat Missed n |}) as [E1 E2].
  - reflexivity.
  - cbn. now rewrite repeat_length.
  - rewrite E1, E2. cbn. rewrite repeat_length. lia.
Qed.

(** An argument that yields nil is evaluated at every read. *)
Theorem C82_nil_again_refuted :
  evaluations (lazy_run Argument (fun _ => VNil) lazy_start (reads_in_turn 0 3)) = 3.
Proof. reflexivity. Qed.

(** Three goroutines after one that has finished. *)
Example C82_demo :
  let s := lazy_run Column (fun n => vint (Z.of_nat n)) lazy_start (one_read 0) in
  found Column (cached s) = Some (vint 0) /\ at_rest s /\
  reads (lazy_run Column (fun n => vint (Z.of_nat n)) s [Look; Look; Evaluate 1; Save 2; Look]) =
    [Returned (vint 0); Returned (vint 0); Returned (vint 0); Returned (vint 0)].
Proof. split; [reflexivity|]. split; [|reflexivity]. intros r [<-|[]]. eauto. Qed.

Print Assumptions C82_kept_partial.
Print Assumptions C82_result_of_an_evaluation.
Print Assumptions C82_steady_expression_partial.
Print Assumptions C82_one_goroutine.
Print Assumptions C82_evaluated_twice_refuted.
Print Assumptions C82_evaluated_by_all_refuted.
Print Assumptions C82_nil_again_refuted.
