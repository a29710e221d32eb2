(** foreach(): properties C36 and C37. *)

From Coq Require Import List Bool ZArith Lia Permutation.
From Verif Require Import Pipeline PipelineProofs Foreach.
Import ListNotations.

Section F.
Context {row out : Type}.
Variable f : row -> list out.
Notation state := (state row out).
Notation fstep := (fstep f).
Notation fexec := (fexec f).

(** * Specification *)

(** What the reader sees: rows with the input row they come from. *)
Definition seen (t : list (bool * event out)) : list (nat * out) :=
  flat_map (fun e => match snd e with Emit i x => [(i, x)] | _ => [] end) t.
Definition handed (t : list (bool * event out)) : list nat :=
  flat_map (fun e => match snd e with Handed i => [i] | _ => [] end) t.
Definition uncancelled (t : list (bool * event out)) : Prop := Forall (fun e => fst e = false) t.
(** The part of an output that comes from input row [i]. *)
Definition from_row (i : nat) (l : list (nat * out)) : list out :=
  map snd (filter (fun p => Nat.eqb (fst p) i) l).
Definition finished (c : bool) (s : state) : Prop := forall e s', ~ fstep c s e s'.
(** The reader has gone away. *)
Definition finished_alone (c : bool) (s : state) : Prop :=
  forall e s', fstep c s e s' -> exists i x, e = Emit i x.
(** All goroutines returned, output closed. *)
Definition returned (s : state) : Prop := prod s = PDone /\ Forall (fun w => w = WExit) (pool s).

(** * Proofs *)

Definition w_left (i : nat) (w : worker out) : list out :=
  match w with
  | WRun j l => if Nat.eqb j i then l else []
  | WSend j x l => if Nat.eqb j i then x :: l else []
  | _ => []
  end.
Definition p_rows (p : producer row) : list (nat * row) :=
  match p with PRead rs => rs | PHand i r rs => (i, r) :: rs | _ => [] end.
Definition left_of (i : nat) (s : state) : list out :=
  flat_map (w_left i) (pool s) ++ flat_map (fun p => if Nat.eqb (fst p) i then f (snd p) else []) (p_rows (prod s)).

(** Which input rows are where. *)
Definition w_tag (w : worker out) : list nat := match w with WRun i _ | WSend i _ _ => [i] | _ => [] end.
Definition tags (s : state) : list nat := flat_map w_tag (pool s) ++ map fst (p_rows (prod s)).

Lemma flat_map_mid : forall A B (g : A -> list B) a x b,
  flat_map g (a ++ x :: b) = flat_map g a ++ g x ++ flat_map g b.
Proof. intros. now rewrite flat_map_app. Qed.

Lemma w_left_nil : forall i w, ~ In i (w_tag w) -> w_left i w = [].
Proof.
  intros i [| |j x l|] H; simpl in *; auto; destruct (Nat.eqb_spec i0 i) || destruct (Nat.eqb_spec j i); auto; tauto.
Qed.

Lemma left_none : forall i ws, ~ In i (flat_map w_tag ws) -> flat_map (w_left i) ws = [].
Proof.
  induction ws as [|w ws IH]; simpl; auto. rewrite in_app_iff. intros H.
  rewrite w_left_nil, IH by tauto. reflexivity.
Qed.

Lemma rows_none : forall i (rs : list (nat * row)), ~ In i (map fst rs) ->
  flat_map (fun p => if Nat.eqb (fst p) i then f (snd p) else []) rs = [].
Proof.
  induction rs as [|(j, r) rs IH]; simpl; auto. intros H.
  destruct (Nat.eqb_spec j i); [tauto|]. now apply IH; tauto.
Qed.

Definition emitted (e : event out) : list (nat * out) := match e with Emit i x => [(i, x)] | _ => [] end.

Lemma from_row_app : forall i a b, from_row i (a ++ b) = from_row i a ++ from_row i b.
Proof. intros. unfold from_row. now rewrite filter_app, map_app. Qed.

(** The tags only ever leave, and never repeat. *)
Lemma tags_step : forall c s e s', fstep c s e s' ->
  exists gone, Permutation (tags s) (gone ++ tags s').
Proof.
  intros c s e s' H. destruct H; unfold tags; simpl; rewrite ?flat_map_mid; simpl; rewrite ?app_nil_r;
    try (exists []; simpl; reflexivity).
  - exists (map fst rs). apply Permutation_app_comm.
  - exists []. simpl. rewrite <- !app_assoc. apply Permutation_app_head.
    simpl. apply Permutation_sym, Permutation_middle.
  - exists [i]. rewrite <- !app_assoc. simpl. apply Permutation_sym, Permutation_middle.
  - exists [i]. rewrite <- !app_assoc. simpl. apply Permutation_sym, Permutation_middle.
  - exists [i]. rewrite <- !app_assoc. simpl. apply Permutation_sym, Permutation_middle.
Qed.

Lemma NoDup_app_r : forall A (a b : list A), NoDup (a ++ b) -> NoDup b.
Proof. induction a; simpl; auto. intros b H. inversion H; auto. Qed.

Lemma tags_nodup : forall c s e s', fstep c s e s' -> NoDup (tags s) -> NoDup (tags s').
Proof.
  intros c s e s' H N. destruct (tags_step _ _ _ _ H) as (g & P).
  eapply Permutation_NoDup in N; [|exact P]. now apply NoDup_app_r in N.
Qed.

(** One step, uncancelled, keeps what each input row stands for. *)
Lemma left_step : forall s e s', fstep false s e s' -> NoDup (tags s) -> forall i,
  left_of i s = from_row i (emitted e) ++ left_of i s'.
Proof.
  intros s e s' H. remember false as c. destruct H; try discriminate; intros N j;
    unfold left_of, emitted, from_row; simpl; rewrite ?flat_map_mid; simpl; auto.
  - (* FHand *)
    destruct (Nat.eqb_spec i j) as [->|D]; simpl; [|reflexivity].
    unfold tags in N. simpl in N. rewrite flat_map_mid in N. simpl in N.
    assert (~ In j (flat_map w_tag a)).
    { intros A. apply NoDup_remove_2 in N. apply N. rewrite !in_app_iff. auto. }
    assert (~ In j (flat_map w_tag b)).
    { intros A. apply NoDup_remove_2 in N. apply N. rewrite !in_app_iff. auto. }
    rewrite !left_none by auto. simpl. now rewrite app_nil_r.
  - (* WFinished *) now destruct (Nat.eqb i j).
  - (* WEmit *)
    destruct (Nat.eqb_spec i j) as [->|D]; simpl; [|reflexivity].
    unfold tags in N. simpl in N. rewrite flat_map_mid in N. simpl in N.
    assert (~ In j (flat_map w_tag a)).
    { intros A. rewrite <- app_assoc in N. apply NoDup_remove_2 in N. apply N. rewrite !in_app_iff. auto. }
    now rewrite left_none.
Qed.

Lemma exec_left : forall s t s', fexec s t s' -> uncancelled t -> NoDup (tags s) -> forall i,
  left_of i s = from_row i (seen t) ++ left_of i s'.
Proof.
  induction 1 as [s|s c e s' t s'' A _ IH]; intros U N i; [reflexivity|].
  inversion U; subst. simpl in *. subst c.
  rewrite (left_step _ _ _ A N i), IH; auto; [|eapply tags_nodup; eauto].
  unfold seen. simpl. fold (seen t).
  rewrite (from_row_app i). rewrite app_assoc. f_equal.
Qed.

Lemma tags_init : forall n rows, tags (foreach_init n rows) = seq 0 (length rows).
Proof.
  intros n rows. unfold tags, foreach_init. simpl.
  assert (E : flat_map w_tag (repeat (@WIdle out) n) = []) by (induction n; simpl; auto).
  rewrite E. simpl. generalize 0. induction rows as [|r rows IH]; intros k; simpl; auto. now rewrite IH.
Qed.

Lemma left_init : forall n rows i r, nth_error rows i = Some r -> left_of i (foreach_init n rows) = f r.
Proof.
  intros n rows i r H. unfold left_of, foreach_init. simpl.
  assert (E : flat_map (w_left i) (repeat (@WIdle out) n) = []) by (induction n; simpl; auto).
  rewrite E. simpl.
  assert (G : forall k, flat_map (fun p => if Nat.eqb (fst p) (k + i) then f (snd p) else [])
                          (combine (seq k (length rows)) rows) = f r).
  { clear E n. revert i H. induction rows as [|x rows IH]; intros [|i] H k; simpl in *; try discriminate.
    - injection H as ->. rewrite Nat.add_0_r, Nat.eqb_refl. rewrite rows_none; [apply app_nil_r|].
      assert (C : map fst (combine (seq (S k) (length rows)) rows) = seq (S k) (length rows)).
      { clear. generalize (S k). induction rows; simpl; intros; auto. now rewrite IHrows. }
      rewrite C. intros A. apply in_seq in A. lia.
    - destruct (Nat.eqb_spec k (k + S i)); [lia|]. rewrite Nat.add_succ_r. simpl.
      now apply (IH i H (S k)). }
  exact (G 0).
Qed.

Definition done_left : forall i s, returned s -> left_of i s = [].
Proof.
  intros i s (P & W). unfold left_of. rewrite P. simpl. rewrite app_nil_r.
  induction W as [|w ws -> _ IH]; simpl; auto.
Qed.

(** Exactly the rows that were running or waiting are the ones handed. *)
Definition given (e : event out) : list nat := match e with Handed i => [i] | _ => [] end.
Lemma handed_step : forall s e s', fstep false s e s' ->
  map fst (p_rows (prod s)) = given e ++ map fst (p_rows (prod s')).
Proof. intros s e s' H. remember false as c. destruct H; try discriminate; reflexivity. Qed.

Lemma exec_handed : forall s t s', fexec s t s' -> uncancelled t ->
  map fst (p_rows (prod s)) = handed t ++ map fst (p_rows (prod s')).
Proof.
  induction 1 as [s|s c e s' t s'' A _ IH]; intros U; [reflexivity|].
  inversion U; subst. simpl in *. subst c.
  rewrite (handed_step _ _ _ A), IH by auto. apply app_assoc.
Qed.

(** ** Progress *)

Definition w_done (w : worker out) : bool := match w with WExit => true | _ => false end.

Lemma pool_cases : forall ws : list (worker out),
  Forall (fun w => w = WExit) ws \/ exists a w b, ws = a ++ w :: b /\ w <> WExit.
Proof.
  induction ws as [|w ws [IH|(a & x & b & -> & N)]].
  - now left.
  - destruct w; try (right; eexists [], _, ws; split; [reflexivity|discriminate]). left. constructor; auto.
  - right. exists (w :: a), x, b. auto.
Qed.

(** A worker that is busy can move (with its reader). *)
Lemma busy_moves : forall c p a w b, w <> WExit -> w <> WIdle -> exists e s', fstep c (State p (a ++ w :: b)) e s'.
Proof.
  intros c p a [|i [|x l]|i x l|] b N N'; try congruence; do 2 eexists; constructor.
Qed.

(** The producer only loses workers by closing or by cancellation: while it is
    still reading, uncancelled, no worker has exited. *)
Definition alive (n : nat) (s : state) : Prop :=
  length (pool s) = n /\ (ch_closed (prod s) = false -> Forall (fun w => w <> WExit) (pool s)).

Lemma alive_step : forall n s e s', fstep false s e s' -> alive n s -> alive n s'.
Proof.
  intros n s e s' H (L & A). unfold alive. inversion H; subst; clear H; simpl in *;
    rewrite ?app_length in *; simpl in *; split; auto; intros E; try discriminate; try congruence; specialize (A E);
    rewrite ?Forall_app in *; destruct A as (A1 & A2); inversion A2; subst; split; auto; constructor; auto; discriminate.
Qed.

Lemma alive_exec : forall n s t s', fexec s t s' -> uncancelled t -> alive n s -> alive n s'.
Proof.
  induction 1 as [s|s c e s' t s'' A _ IH]; intros U G; auto. inversion U; subst. simpl in *. subst.
  apply IH; auto. eapply alive_step; eauto.
Qed.

Lemma progress : forall n s, n > 0 -> alive n s -> finished false s -> returned s.
Proof.
  intros n (p, ws) Hn (L & A) F. simpl in *.
  destruct (pool_cases ws) as [E|(a & w & b & -> & N)].
  - destruct p as [[|(i, r) rs]|i r rs| |].
    + exfalso. eapply F. apply FEof.
    + exfalso. eapply F. apply FRecv.
    + exfalso. specialize (A eq_refl). destruct ws as [|w ws]; [simpl in L; lia|].
      inversion A; inversion E; subst. congruence.
    + exfalso. eapply F. now apply FDone.
    + now split.
  - exfalso. destruct w as [|i l|i x l|]; try congruence.
    + destruct p as [[|(i, r) rs]|i r rs| |].
      * eapply F. apply FEof.
      * eapply F. apply FRecv.
      * eapply F. apply FHand.
      * eapply F. now apply WEnd.
      * eapply F. now apply WEnd.
    + destruct (busy_moves false p a (WRun i l) b) as (e & s' & St); try discriminate. eapply F; eauto.
    + destruct (busy_moves false p a (WSend i x l) b) as (e & s' & St); try discriminate. eapply F; eauto.
Qed.

(** ** Every execution is finite *)

Definition w_size (w : worker out) : nat :=
  match w with
  | WIdle => 1
  | WRun _ l => 2 + 2 * length l
  | WSend _ _ l => 3 + 2 * length l
  | WExit => 0
  end.
Definition p_size (p : producer row) : nat :=
  match p with
  | PRead rs => 2 + list_sum (map (fun p => 3 + 2 * length (f (snd p))) rs)
  | PHand _ r rs => 2 + list_sum (map (fun p => 3 + 2 * length (f (snd p))) rs) + (2 + 2 * length (f r))
  | PWait => 1
  | PDone => 0
  end.
Definition size (s : state) : nat := p_size (prod s) + list_sum (map w_size (pool s)).

Lemma list_sum_mid : forall (a b : list (worker out)) w,
  list_sum (map w_size (a ++ w :: b)) = list_sum (map w_size a) + w_size w + list_sum (map w_size b).
Proof. intros. rewrite map_app. simpl. rewrite list_sum_app. simpl. lia. Qed.

Lemma size_step : forall c s e s', fstep c s e s' -> size s' < size s.
Proof.
  intros c s e s' H. unfold size. destruct H; simpl; rewrite ?list_sum_mid; simpl; try lia.
Qed.

(** ** C36 *)

(** With at least one worker and no cancellation: every schedule ends, and
    when nothing can happen any more all goroutines have returned, every input
    row was handed to a worker exactly once (in input order), and for each
    input row the rows seen by the reader are exactly the rows of its query, in
    order - whatever was interleaved between them. *)
Theorem C36_each_row_once : forall n rows t s, n > 0 ->
  fexec (foreach_init n rows) t s -> uncancelled t -> finished false s ->
  returned s /\
  handed t = seq 0 (length rows) /\
  (forall i r, nth_error rows i = Some r -> from_row i (seen t) = f r) /\
  (forall i x, In (i, x) (seen t) -> i < length rows).
Proof.
  intros n rows t s Hn E U F.
  assert (R : returned s).
  { apply (progress n); auto. eapply alive_exec; eauto. split; simpl; [apply repeat_length|].
    intros _. apply Forall_forall. intros w A. apply repeat_spec in A. subst. discriminate. }
  split; auto.
  assert (N : NoDup (tags (foreach_init n rows))) by (rewrite tags_init; apply seq_NoDup).
  split; [|split].
  - pose proof (exec_handed _ _ _ E U) as H. destruct R as (P & _). rewrite P in H. simpl in H.
    rewrite app_nil_r in H. rewrite <- H. clear. generalize 0.
    induction rows; simpl; intros; auto. now rewrite IHrows.
  - intros i r A. rewrite <- (left_init n rows i r A), (exec_left _ _ _ E U N i), (done_left i s R).
    now rewrite app_nil_r.
  - intros i x A. destruct (Nat.lt_ge_cases i (length rows)) as [|G]; auto. exfalso.
    assert (Z : left_of i (foreach_init n rows) = []).
    { unfold left_of, foreach_init. simpl.
      assert (E0 : flat_map (w_left i) (repeat (@WIdle out) n) = []) by (clear; induction n; simpl; auto).
      rewrite E0. simpl. apply rows_none.
      pose proof (tags_init n rows) as T. unfold tags, foreach_init in T. simpl in T.
      assert (E1 : flat_map w_tag (repeat (@WIdle out) n) = []) by (clear; induction n; simpl; auto).
      rewrite E1 in T. simpl in T. rewrite T. intros B. apply in_seq in B. lia. }
    rewrite (exec_left _ _ _ E U N i) in Z. apply app_eq_nil in Z. destruct Z as (Z & _).
    assert (B : In x (from_row i (seen t))).
    { unfold from_row. apply in_map_iff. exists (i, x). split; auto. apply filter_In. simpl. split; auto. apply Nat.eqb_refl. }
    rewrite Z in B. exact B.
Qed.

(** The rows seen are a permutation of all the rows of all the queries. *)
Lemma split_by_row : forall n (l : list (nat * out)), (forall i x, In (i, x) l -> i < n) ->
  Permutation (map snd l) (flat_map (fun i => from_row i l) (seq 0 n)).
Proof.
  intros n l. induction l as [|(i, x) l IH]; intros H.
  - unfold from_row. simpl. assert (E : flat_map (fun _ : nat => @nil out) (seq 0 n) = []) by (induction (seq 0 n); auto).
    now rewrite E.
  - assert (L : i < n) by (eapply H; left; reflexivity).
    simpl. rewrite IH by (intros j y A; eapply H; right; eauto). clear IH H.
    assert (Sq : seq 0 n = seq 0 i ++ i :: seq (S i) (n - S i)).
    { replace n with (i + S (n - S i)) at 1 by lia. rewrite seq_app. reflexivity. }
    rewrite Sq, !flat_map_mid.
    assert (G : forall js, ~ In i js ->
              flat_map (fun j => from_row j ((i, x) :: l)) js = flat_map (fun j => from_row j l) js).
    { induction js as [|j js IHj]; simpl; auto. intros N. rewrite IHj by tauto. f_equal.
      unfold from_row. simpl. destruct (Nat.eqb_spec i j); [subst; tauto|reflexivity]. }
    rewrite !G by (rewrite in_seq; lia).
    unfold from_row at 5. simpl. rewrite Nat.eqb_refl. simpl. fold (from_row i l).
    change (x :: from_row i l ++ flat_map (fun j => from_row j l) (seq (S i) (n - S i)))
      with ([x] ++ (from_row i l ++ flat_map (fun j => from_row j l) (seq (S i) (n - S i)))).
    apply Permutation_middle.
Qed.

Theorem C36_permutation : forall n rows t s, n > 0 ->
  fexec (foreach_init n rows) t s -> uncancelled t -> finished false s ->
  Permutation (map snd (seen t)) (flat_map f rows).
Proof.
  intros n rows t s Hn E U F. destruct (C36_each_row_once n rows t s Hn E U F) as (_ & _ & A & B).
  rewrite (split_by_row (length rows)) by exact B.
  assert (G : forall k (rs : list row), (forall i r, nth_error rs i = Some r -> from_row (k + i) (seen t) = f r) ->
            flat_map (fun i => from_row i (seen t)) (seq k (length rs)) = flat_map f rs).
  { clear. intros k rs. revert k. induction rs as [|r rs IH]; intros k H; simpl; auto. f_equal.
    - rewrite <- (H 0 r eq_refl). f_equal. lia.
    - apply IH. intros i r' A. rewrite <- (H (S i) r' A). f_equal. lia. }
  rewrite (G 0 rows) by exact A. reflexivity.
Qed.

(** No execution goes on for ever, with any number of workers, cancelled or not. *)
Theorem C36_every_execution_ends : forall n rows,
  ~ exists g : nat -> state, g 0 = foreach_init n rows /\ forall k, exists c e, fstep c (g k) e (g (S k)).
Proof.
  intros n rows (g & _ & A).
  assert (B : forall k, size (g k) + k <= size (g 0)).
  { induction k; [lia|]. destruct (A k) as (c & e & St). apply size_step in St. lia. }
  specialize (B (S (size (g 0)))). lia.
Qed.

(** One worker: the order of the rows is kept. *)
Definition one_left (s : state) : list out :=
  match pool s with
  | [WRun _ l] => l
  | [WSend _ x l] => x :: l
  | _ => []
  end ++ flat_map f (map snd (p_rows (prod s))).

Lemma one_step : forall s e s', fstep false s e s' -> length (pool s) = 1 ->
  length (pool s') = 1 /\ one_left s = map snd (emitted e) ++ one_left s'.
Proof.
  intros s e s' H L. remember false as c. destruct H; try discriminate; simpl in L; unfold one_left; simpl; auto;
    rewrite app_length in *; simpl in L;
    destruct a; simpl in *; try lia; destruct b; simpl in *; try lia; auto.
Qed.

Lemma one_exec : forall s t s', fexec s t s' -> uncancelled t -> length (pool s) = 1 ->
  length (pool s') = 1 /\ one_left s = map snd (seen t) ++ one_left s'.
Proof.
  induction 1 as [s|s c e s' t s'' A _ IH]; intros U L; [auto|].
  inversion U; subst. simpl in *. subst c. destruct (one_step _ _ _ A L) as (L' & E).
  destruct (IH H2 L') as (L'' & E'). split; auto.
  rewrite E, E'. unfold seen. simpl. fold (seen t). now rewrite map_app, app_assoc.
Qed.

Theorem C36_one_worker_in_order : forall rows t s,
  fexec (foreach_init 1 rows) t s -> uncancelled t ->
  (exists rest, flat_map f rows = map snd (seen t) ++ rest) /\
  (finished false s -> map snd (seen t) = flat_map f rows).
Proof.
  intros rows t s E U.
  destruct (one_exec _ _ _ E U eq_refl) as (L & O).
  assert (I : one_left (foreach_init 1 rows) = flat_map f rows).
  { unfold one_left, foreach_init. simpl. clear. generalize 0. induction rows; simpl; intros; auto. now rewrite IHrows. }
  rewrite I in O. split; [eauto|]. intros F.
  destruct (C36_each_row_once 1 rows t s ltac:(lia) E U F) as ((P & W) & _).
  rewrite O. unfold one_left. rewrite P. destruct (pool s) as [|w [|]]; try discriminate.
  inversion W; subst. simpl. now rewrite app_nil_r.
Qed.

(** ** C37 *)

(** After cancellation, reader gone: either everything has returned, or the
    producer is blocked in RunScope, holding a scope no worker will ever take. *)
Theorem C37_cancel_partial : forall n rows t s,
  fexec (foreach_init n rows) t s -> finished_alone true s ->
  returned s \/
  (exists i r rs, prod s = PHand i r rs) /\ Forall (fun w => w = WExit) (pool s) /\ (forall c e s', ~ fstep c s e s').
Proof.
  intros n rows t (p, ws) _ F. simpl.
  assert (W : Forall (fun w => w = WExit) ws).
  { destruct (pool_cases ws) as [|(a & w & b & -> & N)]; auto. exfalso.
    destruct w as [|i l|i x l|]; try congruence.
    - destruct (F _ _ (WCancelIdle f p a b)) as (j & y & [=]).
    - destruct (F _ _ (WCancelRun f p a i l b)) as (j & y & [=]).
    - destruct (F _ _ (WCancelSend f p a i x l b)) as (j & y & [=]). }
  destruct p as [rs|i r rs| |].
  - destruct (F _ _ (FCancel f rs ws)) as (j & y & [=]).
  - right. split; [eauto|split; auto]. intros c e s' St.
    inversion St; subst; try discriminate;
      rewrite Forall_app in W; destruct W as (_ & W); inversion W; discriminate.
  - exfalso. destruct (F _ _ (FDone f true ws W)) as (j & y & [=]).
  - left. split; auto.
Qed.

End F.

(** The second case happens: one row, one worker. *)
Theorem C37_refuted : exists t s,
  Foreach.fexec (fun z : Z => [z]) (foreach_init 1 [7%Z]) t s /\
  prod s <> PDone /\ (forall c e s', ~ Foreach.fstep (fun z : Z => [z]) c s e s').
Proof.
  exists [(false, Internal); (true, Internal)], (State (PHand 0 7%Z []) [WExit]). split; [|split].
  - eapply FCons; [apply FRecv|]. eapply FCons; [apply (WCancelIdle _ _ [] [])|]. apply FNil.
  - discriminate.
  - intros c e s' St. inversion St; subst; try discriminate; destruct a as [|? [|? ?]]; discriminate.
Qed.

(** With a negative number of workers nothing ever takes the first row, with
    no cancellation at all. *)
Theorem C36_negative_workers_refuted : forall async, exists t s,
  Foreach.fexec (fun z : Z => [z]) (foreach_init (worker_count async (-1)) [7%Z]) t s /\ uncancelled t /\
  finished (fun z : Z => [z]) false s /\ prod s <> PDone.
Proof.
  intros async. exists [(false, Internal)], (State (PHand 0 7%Z []) []). split; [|split; [|split]].
  - eapply FCons; [apply FRecv|]. apply FNil.
  - repeat constructor.
  - intros e s' St. inversion St; subst; try discriminate; destruct a; discriminate.
  - discriminate.
Qed.

(** Without a query foreach() relays its rows, as a stage of Pipeline.v. *)
Theorem C36_without_query : forall row (col : row -> row) l,
  den (start (foreach_relay_stage col) tt (Source true l false)) = map col l.
Proof. intros. cbn [start den]. induction l; simpl in *; congruence. Qed.

(** ... and when the context is cancelled it returns by itself, whatever it
    reads from: also a plugin that never looks at the context. *)
Theorem C37_without_query : forall row (col : row -> row) child t s,
  exec (start (foreach_relay_stage col) tt child) t s ->
  (forall l s', step true s l s' -> exists r, l = Out r) -> is_closed s = true.
Proof.
  intros row col child t s E F.
  assert (SH : exists p ch, s = Node (foreach_relay_stage col) p ch).
  { remember (start (foreach_relay_stage col) tt child) as s0 eqn:E0.
    assert (H0 : exists p ch, s0 = Node (foreach_relay_stage col) p ch) by (subst s0; unfold start; eauto).
    clear E0. induction E as [|s1 c l s2 t s3 A _ IH]; [exact H0|]. apply IH; [exact F|].
    destruct H0 as (p & ch & ->).
    revert A. remember (Node (foreach_relay_stage col) p ch) as n eqn:En. intros A.
    destruct A; try discriminate En; injection En as ET EP EC; subst; eauto. }
  destruct SH as (p & ch & ->). destruct p as [[]|[|r l] k|].
  - destruct (F _ _ (NCancelRecv (foreach_relay_stage col) tt ch eq_refl)) as (r & D). discriminate.
  - destruct k as [[]|].
    + destruct (F _ _ (NSent true (foreach_relay_stage col) tt ch)) as (r & D). discriminate.
    + destruct (F _ _ (NReturn true (foreach_relay_stage col) ch)) as (r & D). discriminate.
  - assert (AB : aborted (foreach_relay_stage col) k = Closed) by (destruct k; reflexivity).
    destruct (F _ _ (NAbortReturn (foreach_relay_stage col) r l k ch eq_refl AB)) as (r' & D). discriminate.
  - reflexivity.
Qed.

(** The number of workers: the one asked for, one when none is, a hundred for
    async; in all these cases at least one. *)
Theorem C36_worker_count : forall async w, (0 <= w)%Z ->
  (1 <= worker_count async w)%nat /\
  ((0 < w)%Z -> Z.of_nat (worker_count async w) = w) /\
  worker_count false 0 = 1%nat /\ worker_count true 0 = 100%nat.
Proof.
  intros async w H. unfold worker_count. repeat split; try reflexivity.
  - destruct (Z.eqb_spec w 0); [destruct async; lia | lia].
  - intros. destruct (Z.eqb_spec w 0); [lia | apply Z2Nat.id; lia].
Qed.

Example C36_example : worker_count true 0 = 100%nat /\ worker_count false 0 = 1%nat /\ worker_count false 3 = 3%nat.
Proof. repeat split. Qed.

(** A complete uncancelled run of two workers over two rows in which the
    second row overtakes the first. *)
Definition two (z : Z) : list Z := [z; (z + 1)%Z].
Example C36_two_workers : exists t s,
  Foreach.fexec two (foreach_init 2 [10; 20]%Z) t s /\ uncancelled t /\ finished two false s /\
  seen t = [(1, 20%Z); (0, 10%Z); (1, 21%Z); (0, 11%Z)].
Proof.
  eexists (map (fun e => (false, e)) [Internal; Handed 0; Internal; Handed 1; Internal; Internal; Emit 1 20%Z;
    Emit 0 10%Z; Internal; Internal; Emit 1 21%Z; Emit 0 11%Z; Internal; Internal; Internal; Internal; Internal; Close]).
  eexists. split; [|split; [|split]].
  - simpl. eapply FCons; [apply FRecv|].
    eapply FCons; [apply (FHand _ _ _ _ _ [] [WIdle])|].
    eapply FCons; [apply FRecv|].
    eapply FCons; [apply (FHand _ _ _ _ _ [WRun 0 (two 10%Z)] [])|].
    eapply FCons; [apply (WNext _ _ _ [WRun 0 (two 10%Z)] 1 _ _ [])|].
    eapply FCons; [apply (WNext _ _ _ [] 0 _ _ [WSend 1 20%Z [21%Z]])|].
    eapply FCons; [apply (WEmit _ _ _ [WSend 0 10%Z [11%Z]] 1 _ _ [])|].
    eapply FCons; [apply (WEmit _ _ _ [] 0 _ _ [WRun 1 [21%Z]])|].
    eapply FCons; [apply (WNext _ _ _ [WRun 0 [11%Z]] 1 _ _ [])|].
    eapply FCons; [apply (WNext _ _ _ [] 0 _ _ [WSend 1 21%Z []])|].
    eapply FCons; [apply (WEmit _ _ _ [WSend 0 11%Z []] 1 _ _ [])|].
    eapply FCons; [apply (WEmit _ _ _ [] 0 _ _ [WRun 1 []])|].
    eapply FCons; [apply (WFinished _ _ _ [] 0 [WRun 1 []])|].
    eapply FCons; [apply (WFinished _ _ _ [WIdle] 1 [])|].
    eapply FCons; [apply FEof|].
    eapply FCons; [apply (WEnd _ _ _ [] [WIdle]); reflexivity|].
    eapply FCons; [apply (WEnd _ _ _ [WExit] []); reflexivity|].
    eapply FCons; [apply FDone; repeat constructor|]. apply FNil.
  - repeat constructor.
  - intros e s' St. inversion St; subst; try discriminate; destruct a as [|? [|? [|? ?]]]; discriminate.
  - reflexivity.
Qed.

Print Assumptions C36_each_row_once.
Print Assumptions C36_permutation.
Print Assumptions C36_every_execution_ends.
Print Assumptions C36_one_worker_in_order.
Print Assumptions C36_negative_workers_refuted.
Print Assumptions C37_cancel_partial.
Print Assumptions C37_refuted.
