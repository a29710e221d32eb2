(** Concurrent AddDestructor and Close: property C29. *)

From Coq Require Import List Arith Bool Lia Permutation.
From Verif Require Import CloseRace.
Import ListNotations.

Section Props.
  Context {D : Type}.
  Notation state := (state D).
  Notation event := (event D).

  Definition taken (c : closer D) : list D :=
    match c with Running _ todo => todo | _ => [] end.
  Definition in_flight (st : state) : list D := flat_map taken (closers st).

  Lemma set_at_flat : forall c (l : list (closer D)) x y, nth_error l c = Some x ->
    Permutation (flat_map taken (set_at c y l) ++ taken x) (flat_map taken l ++ taken y).
  Proof.
    induction c as [|c IH]; intros [|z l] x y E; simpl in *; try discriminate.
    - injection E as ->. rewrite Permutation_app_comm, <- app_assoc.
      apply Permutation_app_head, Permutation_app_comm.
    - rewrite <- !app_assoc. apply Permutation_app_head. now apply IH.
  Qed.

  Lemma set_at_other : forall A n m (x : A) l, n <> m -> nth_error (set_at n x l) m = nth_error l m.
  Proof.
    induction n as [|n IH]; intros [|m] x [|y l] N; simpl; try reflexivity; try congruence.
    apply IH. congruence.
  Qed.

  Lemma set_at_same : forall A n (x y : A) l, nth_error l n = Some y -> nth_error (set_at n x l) n = Some x.
  Proof.
    induction n as [|n IH]; intros x y [|z l] E; simpl in *; try discriminate; auto. eauto.
  Qed.

  (** Everything accepted is, exactly once, run, taken by a Close that is
      about to run it, or still on the list. *)
  Lemma accounting : forall (es : list event) st st',
    Permutation (accepted st) (ran st ++ in_flight st ++ fn st) ->
    exec st es = Some st' ->
    Permutation (accepted st') (ran st' ++ in_flight st' ++ fn st').
  Proof.
    induction es as [|e es IH]; intros st st' P X; simpl in X; [congruence|].
    destruct (next st e) as [st1|] eqn:N; [|discriminate].
    apply (IH st1 st'); [|exact X]. clear IH X es st'.
    destruct e as [d| | |c]; simpl in N.
    - destruct (adding st); [discriminate|]. destruct (destroyed st); injection N as <-; exact P.
    - destruct (adding st) as [d|]; [|discriminate]. injection N as <-. unfold in_flight in *. simpl.
      rewrite P, <- !app_assoc. reflexivity.
    - injection N as <-. unfold in_flight in *. simpl. rewrite flat_map_app. simpl. now rewrite app_nil_r.
    - destruct (nth_error (closers st) c) as [x|] eqn:E; [|discriminate].
      assert (Step : forall y, Permutation (taken y) (taken x) ->
        Permutation (flat_map taken (set_at c y (closers st))) (in_flight st)).
      { intros y Q. pose proof (set_at_flat c (closers st) x y E) as S. rewrite Q in S.
        now apply Permutation_app_inv_r in S. }
      destruct x as [try|try todo| |]; [| | |discriminate].
      + destruct (Nat.ltb try 10).
        * destruct (fn st) as [|d r] eqn:F.
          -- injection N as <-. unfold in_flight. simpl. rewrite F. rewrite Step by reflexivity. exact P.
          -- assert (N' : st1 = {| fn := []; destroyed := destroyed st; adding := adding st;
                closers := set_at c (Running try (rev (d :: r))) (closers st);
                accepted := accepted st; ran := ran st |}) by congruence. subst st1. clear N.
             unfold in_flight. cbn [accepted ran closers fn]. rewrite app_nil_r, P.
             apply Permutation_app_head.
             pose proof (set_at_flat c (closers st) _ (Running try (rev (d :: r))) E) as S.
             cbn [taken] in S. rewrite app_nil_r in S. rewrite S. apply Permutation_app_head.
             apply Permutation_rev.
        * injection N as <-. unfold in_flight. simpl. rewrite Step by reflexivity. exact P.
      + destruct todo as [|d r].
        * injection N as <-. unfold in_flight. simpl. rewrite Step by reflexivity. exact P.
        * injection N as <-. unfold in_flight. simpl. rewrite P.
          pose proof (set_at_flat c (closers st) _ (Running try r) E) as S. cbn [taken] in S.
          rewrite <- !app_assoc. apply Permutation_app_head. simpl.
          change (d :: flat_map taken (set_at c (Running try r) (closers st)) ++ fn st)
            with ((d :: flat_map taken (set_at c (Running try r) (closers st))) ++ fn st).
          apply Permutation_app_tail.
          change (d :: r) with ([d] ++ r) in S. rewrite app_assoc in S. apply Permutation_app_inv_r in S.
          unfold in_flight. rewrite <- S. symmetry. apply Permutation_cons_append.
      + injection N as <-. unfold in_flight. simpl. rewrite Step by reflexivity. exact P.
  Qed.

  (** No accepted destructor is run twice, and none is lost except by staying
      on the list of a closed scope. *)
  Theorem C29_accounting_partial : forall (es : list event) st,
    exec init es = Some st ->
    (forall c, In c (closers st) -> c = Done) ->
    Permutation (accepted st) (ran st ++ fn st).
  Proof.
    intros es st X Q.
    assert (P : Permutation (accepted st) (ran st ++ in_flight st ++ fn st))
      by (apply (accounting es init); [constructor|exact X]).
    rewrite P. apply Permutation_app_head.
    assert (E : in_flight st = []); [|now rewrite E].
    unfold in_flight. clear - Q. induction (closers st) as [|c l IH]; [reflexivity|]. simpl.
    rewrite (Q c (or_introl eq_refl)). simpl. apply IH. intros x I. apply Q. simpl. auto.
  Qed.

  Lemma closers_length : forall (es : list event) st st', exec st es = Some st' ->
    length (closers st) <= length (closers st').
  Proof.
    assert (SL : forall A n (x : A) l, length (set_at n x l) = length l).
    { induction n as [|n IH]; intros x [|y l]; simpl; auto. }
    induction es as [|e es IH]; intros st st' X; simpl in X; [injection X as ->; lia|].
    destruct (next st e) as [st1|] eqn:N; [|discriminate]. apply IH in X. etransitivity; [|exact X].
    clear X. destruct e as [d| | |c]; simpl in N.
    - destruct (adding st); [discriminate|]. destruct (destroyed st); injection N as <-; simpl; lia.
    - destruct (adding st); [|discriminate]. injection N as <-. simpl. lia.
    - injection N as <-. simpl. rewrite app_length. lia.
    - destruct (nth_error (closers st) c) as [[try|try [|d r]| |]|]; try discriminate.
      + destruct (Nat.ltb try 10); [destruct (fn st)|]; injection N as <-; simpl; rewrite SL; lia.
      + injection N as <-. simpl. rewrite SL. lia.
      + injection N as <-. simpl. rewrite SL. lia.
      + injection N as <-. simpl. rewrite SL. lia.
  Qed.

  (** While nothing is appended, an empty list stays empty. *)
  Lemma quiet_empty : forall (es : list event) st st',
    ~ In AddAppend es -> fn st = [] -> exec st es = Some st' -> fn st' = [].
  Proof.
    induction es as [|e es IH]; intros st st' Q F X; simpl in X; [congruence|].
    destruct (next st e) as [st1|] eqn:N; [|discriminate].
    apply (IH st1); [intros I; apply Q; simpl; auto| |exact X].
    destruct e as [d| | |c]; simpl in N.
    - destruct (adding st); [discriminate|]. destruct (destroyed st); injection N as <-; exact F.
    - exfalso. apply Q. simpl. auto.
    - injection N as <-. exact F.
    - destruct (nth_error (closers st) c) as [[try|try [|d r]| |]|]; try discriminate.
      + rewrite F in N. destruct (Nat.ltb try 10); injection N as <-; exact F.
      + injection N as <-. exact F.
      + injection N as <-. exact F.
      + injection N as <-. exact F.
  Qed.

  Lemma quiet_close : forall (es : list event) st st' c,
    ~ In AddAppend es -> nth_error (closers st) c = Some (Removing 0) ->
    exec st es = Some st' -> nth_error (closers st') c = Some Done -> fn st' = [].
  Proof.
    induction es as [|e es IH]; intros st st' c Q A X Z; simpl in X; [congruence|].
    destruct (next st e) as [st1|] eqn:N; [|discriminate].
    assert (Q' : ~ In AddAppend es) by (intros I; apply Q; simpl; auto).
    destruct e as [d| | |c']; simpl in N.
    - apply (IH st1 st' c); auto.
      destruct (adding st); [discriminate|]. destruct (destroyed st); injection N as <-; exact A.
    - exfalso. apply Q. simpl. auto.
    - apply (IH st1 st' c); auto. injection N as <-. simpl. rewrite nth_error_app1; [exact A|].
      apply nth_error_Some. congruence.
    - destruct (Nat.eq_dec c' c) as [->|Nc].
      + rewrite A in N. simpl in N. apply (quiet_empty es st1 st' Q'); [|exact X].
        destruct (fn st) eqn:F; injection N as <-; simpl; auto.
      + apply (IH st1 st' c); auto.
        destruct (nth_error (closers st) c') as [[try|try [|d r]| |]|]; try discriminate.
        * destruct (Nat.ltb try 10); [destruct (fn st)|]; injection N as <-; simpl; rewrite set_at_other; auto.
        * injection N as <-; simpl; rewrite set_at_other; auto.
        * injection N as <-; simpl; rewrite set_at_other; auto.
        * injection N as <-; simpl; rewrite set_at_other; auto.
  Qed.

  (** If no AddDestructor finishes while a Close is under way (it may finish
      before, and may be refused after), everything accepted has been run,
      once, when Close is done. *)
  Theorem C29_quiet_partial : forall (pre mid : list event) st st1,
    exec init pre = Some st1 ->
    exec st1 (CloseStart :: mid) = Some st ->
    ~ In AddAppend mid ->
    (forall c, In c (closers st) -> c = Done) ->
    Permutation (accepted st) (ran st).
  Proof.
    intros pre mid st st1 X1 X2 Q A.
    assert (X : exec init (pre ++ CloseStart :: mid) = Some st).
    { clear - X1 X2. revert X1. generalize (@init D). induction pre as [|e pre IH]; intros s X1.
      - simpl in X1. injection X1 as ->. exact X2.
      - simpl in *. destruct (next s e); [auto|discriminate]. }
    pose proof (C29_accounting_partial _ _ X A) as P.
    assert (F : fn st = []); [|rewrite F, app_nil_r in P; exact P].
    simpl in X2.
    set (st2 := {| fn := fn st1; destroyed := destroyed st1; adding := adding st1;
                   closers := closers st1 ++ [Removing 0]; accepted := accepted st1; ran := ran st1 |}) in X2.
    apply (quiet_close mid st2 st (length (closers st1)) Q); [|exact X2|].
    - unfold st2. simpl. rewrite nth_error_app2 by lia. now rewrite Nat.sub_diag.
    - pose proof (closers_length _ _ _ X2) as L. unfold st2 in L. simpl in L. rewrite app_length in L. simpl in L.
      destruct (nth_error (closers st) (length (closers st1))) as [c|] eqn:E.
      + f_equal. apply A. eapply nth_error_In; eauto.
      + apply nth_error_None in E. lia.
  Qed.
End Props.

(** The race: an AddDestructor that comes between the Close's last look at
    the list and the marking of the scope is accepted and never run. *)
Theorem C29_race_refuted : exists (es : list (event nat)) st,
  exec init es = Some st /\ In 1 (accepted st) /\ ~ In 1 (ran st) /\
  closers st = [Done] /\ destroyed st = true.
Proof.
  exists [CloseStart; CloseStep 0; AddCheck 1; AddAppend; CloseStep 0].
  eexists. vm_compute. split; [reflexivity|]. simpl. auto.
Qed.

(** Even one that read the flag before Close set it and appends after Close
    has returned. *)
Theorem C29_late_append_refuted : exists (es : list (event nat)) st st',
  exec init es = Some st /\ closers st = [Done] /\ destroyed st = true /\ accepted st = [] /\
  exec st [AddAppend] = Some st' /\ accepted st' = [1] /\ ran st' = [].
Proof.
  exists [CloseStart; CloseStep 0; AddCheck 1; CloseStep 0].
  eexists. eexists. vm_compute. repeat split; reflexivity.
Qed.

(** Without any race: each destructor adds another one, as the comment above
    the loop invites it to; after ten rounds the eleventh is dropped. *)
Fixpoint rounds (n k : nat) : list (event nat) :=
  match n with
  | O => [CloseStep 0; CloseStep 0]
  | S n => [CloseStep 0; CloseStep 0; AddCheck (S k); AddAppend; CloseStep 0] ++ rounds n (S k)
  end.
Theorem C29_ten_rounds_refuted : exists (es : list (event nat)) st,
  exec init es = Some st /\ closers st = [Done] /\ In 10 (accepted st) /\ ~ In 10 (ran st).
Proof.
  exists ([AddCheck 0; AddAppend; CloseStart] ++ rounds 10 0). eexists.
  split; [vm_compute; reflexivity|]. vm_compute. split; [reflexivity|]. split; [tauto|].
  intros H. repeat (destruct H as [H|H]; [discriminate|]). exact H.
Qed.

(** A quiet history with two destructors, a refused one and two closes. *)
Example C29_example : exists st,
  exec init ([AddCheck 1; AddAppend; AddCheck 2; AddAppend; CloseStart] ++
             [CloseStep 0; CloseStep 0; CloseStart; CloseStep 1; CloseStep 0; CloseStep 0; CloseStep 0;
              CloseStep 1; CloseStep 0; AddCheck 3]) = Some st
  /\ ran st = [2; 1] /\ accepted st = [1; 2] /\ closers st = [Done; Done].
Proof. eexists. vm_compute. repeat split; reflexivity. Qed.

Print Assumptions C29_accounting_partial.
Print Assumptions C29_quiet_partial.
Print Assumptions C29_race_refuted.
Print Assumptions C29_late_append_refuted.
Print Assumptions C29_ten_rounds_refuted.
