(** C95: a query takes rows from its plugin only as its reader takes results. *)

From Coq Require Import List Bool ZArith Lia.
From Verif Require Import Pipeline PipelineProofs PipelineProps Lookahead.
Import ListNotations.

Section Q.
Context {row : Type}.

(** However the goroutines are scheduled, what was taken from the plugin so
    far is worth the results that were delivered and at most one result for
    each goroutine in between. *)
Theorem C95_look_ahead : forall (q : query row) t s,
  streaming q -> exec (query_sys q) t s -> uncancelled t ->
  exists taken in_flight,
    table q = taken ++ left_over s /\
    answer (over_rows taken q) = outputs t ++ in_flight /\
    length in_flight <= goroutines q.
Proof.
  intros q t s ST E U. destruct (streaming_sys q ST) as (N & TH & L & SZ & PU).
  destruct (exec_put _ _ _ E N) as (_ & y & EY & X). destruct (exec_thin _ _ _ E TH) as (TH' & SZ').
  exists y, (den (put [] s)). split; [congruence|]. split.
  - rewrite <- den_query, <- PU. exact (exec_den _ _ _ X U).
  - pose proof (thin_den _ TH'). lia.
Qed.

(** For a query that drops no rows: no more rows are taken than were
    delivered, except one for each goroutine. *)
Fixpoint keeps_all (q : query row) : Prop :=
  match q with
  | QPlugin _ => True
  | QSelect c from => (forall r, c_row c r <> None) /\ c_limit c = None /\ keeps_all from
  | QStored q' | QStatement q' => keeps_all q'
  | QFlatten _ _ | QChain _ => False
  end.

Lemma keeps_all_length : forall q l, streaming q -> keeps_all q -> length (answer (over_rows l q)) = length l.
Proof.
  induction q as [l0|c q IH|q IH|q IH|f q IH|qs _] using query_ind'; intros l ST K; cbn [streaming keeps_all over_rows answer] in *;
    try contradiction; auto.
  destruct ST as (G & O & ST), K as (R & L & K). unfold select_answer. rewrite G, O, L. rewrite <- (IH l ST K). cbn [optional].
  induction (answer (over_rows l q)) as [|r rs IHr]; [reflexivity|]. cbn. specialize (R r).
  destruct (c_row c r); [cbn; now rewrite IHr|congruence].
Qed.

Theorem C95_rows_taken : forall (q : query row) t s,
  streaming q -> keeps_all q -> exec (query_sys q) t s -> uncancelled t ->
  length (table q) - length (left_over s) <= length (outputs t) + goroutines q.
Proof.
  intros q t s ST K E U. destruct (C95_look_ahead q t s ST E U) as (y & f & EY & EA & LF).
  pose proof (keeps_all_length q y ST K) as LY. rewrite EA, app_length in LY. rewrite EY, app_length. lia.
Qed.

(** With ORDER BY or GROUP BY, with or without a LIMIT, nothing is delivered
    before the plugin has sent its last row. *)
Theorem C95_all_before_first : forall c (from : query row) t s,
  (c_group c <> None \/ c_order c <> None) -> unlimited from ->
  exec (query_sys (QSelect c from)) t s -> uncancelled t ->
  outputs t <> [] -> left_over s = [].
Proof.
  intros c from t s B UL E U NE. pose proof (drained_sys from UL) as D. cbn [query_sys] in E.
  destruct (c_order c) as [f|] eqn:O.
  2: destruct (c_group c) as [g|] eqn:G; [|destruct B; congruence].
  all: assert (D' : drained (select_order c (query_sys from)) /\ held (select_order c (query_sys from))) by
    (unfold select_order, select_rows; rewrite ?O, ?G; try destruct (c_group c); cbn; repeat split; auto; intros; discriminate).
  all: destruct D' as [D1 H1]; unfold select_sys in E; destruct (c_limit c) as [n|].
  all: try (eapply held_exec; eauto; fail).
  all: eapply waits_exec; eauto; split; [cbn [start no_chain]; now apply drained_no_chain|]; cbn [start]; right; auto.
Qed.

End Q.

(** ** Cancellation *)

(** A reader that has cancelled may expect the plugin to be left alone. But the
    loop of SELECT goes on with the next row when it abandons one, so it may
    take all the rows of the plugin, however many, and deliver none. *)
Theorem C95_stops_when_cancelled_refuted : forall l : list Z, exists t s,
  exec (query_sys (QSelect (Clauses keep None None None) (QPlugin l))) t s /\
  Forall (fun e => fst e = true) t /\ outputs t = [] /\ left_over s = [].
Proof.
  induction l as [|r l (t & s & E & C & O & L)].
  - exists [], (query_sys (QSelect (Clauses keep None None None) (QPlugin []))). repeat split; constructor.
  - exists ((true, Tau) :: (true, Tau) :: (true, Tau) :: (true, Tau) :: t), s. split.
    + eapply ECons. { apply NChild with (l := Tau); [apply NRecv, SrcSend|now left]. }
      eapply ECons. { apply NRecv. apply NSend. }
      eapply ECons. { eapply NAbort; reflexivity. }
      eapply ECons. { apply NChild with (l := Tau); [apply NSent|now left]. }
      exact E.
    + split; [|split; [exact O|exact L]]. repeat (apply Forall_cons; [reflexivity|]). exact C.
Qed.

(** ** Examples *)

(** SELECT with WHERE over six rows: one delivered, one filtered out and three
    taken ahead of the reader by the two goroutines of the SELECT and that of
    the statement; the last row is still in the plugin. *)
Definition odd_only (r : Z) : option Z := if Z.odd r then Some (r * 10)%Z else None.
Definition q_odd : query Z := QStatement (QSelect (Clauses odd_only None None None) (QPlugin [1; 2; 3; 5; 7; 9]%Z)).

Example look_ahead_example : exists t s,
  exec (query_sys q_odd) t s /\ uncancelled t /\ streaming q_odd /\
  outputs t = [10%Z] /\ left_over s = [9%Z] /\
  answer (over_rows [1; 2; 3; 5; 7]%Z q_odd) = [10; 30; 50; 70]%Z /\ goroutines q_odd = 3.
Proof.
  exists (repeat (false, Tau) 3 ++ [(false, Out 10%Z)] ++ repeat (false, Tau) 16). eexists. split.
  - assert (TAKE : forall (T : stage Z) p ch ch', step (child_ctx false p) ch Tau ch' -> step false (Node T p ch) Tau (Node T p ch')).
    { intros. eapply NChild; [eassumption|now left]. }
    cbn [repeat app q_odd query_sys].
    (* 1 is taken and delivered *)
    eapply ECons. { apply TAKE, TAKE, NRecv, SrcSend. }
    eapply ECons. { apply TAKE, NRecv, NSend. }
    eapply ECons. { apply NRecv, NSend. }
    eapply ECons. { apply NSend. }
    (* 2 is taken and filtered out *)
    eapply ECons. { apply TAKE, TAKE, NSent. }
    eapply ECons. { apply TAKE, NSent. }
    eapply ECons. { apply TAKE, TAKE, NRecv, SrcSend. }
    eapply ECons. { apply TAKE, NRecv, NSend. }
    (* 3 *)
    eapply ECons. { apply NSent. }
    eapply ECons. { apply TAKE, TAKE, NSent. }
    eapply ECons. { apply TAKE, NSent. }
    eapply ECons. { apply TAKE, TAKE, NRecv, SrcSend. }
    eapply ECons. { apply TAKE, NRecv, NSend. }
    eapply ECons. { apply NRecv, NSend. }
    (* 5 *)
    eapply ECons. { apply TAKE, TAKE, NSent. }
    eapply ECons. { apply TAKE, NSent. }
    eapply ECons. { apply TAKE, TAKE, NRecv, SrcSend. }
    eapply ECons. { apply TAKE, NRecv, NSend. }
    (* 7 *)
    eapply ECons. { apply TAKE, TAKE, NSent. }
    eapply ECons. { apply TAKE, TAKE, NRecv, SrcSend. }
    apply ENil.
  - repeat split; try reflexivity. repeat constructor.
Qed.

(** ORDER BY over two rows, up to the first result. *)
Example order_example : exists t s,
  exec (query_sys (QSelect (Clauses odd_only None (Some (@rev Z)) None) (QPlugin [1; 3]%Z))) t s /\ uncancelled t /\
  outputs t = [30%Z].
Proof.
  exists (repeat (false, Tau) 24 ++ [(false, Out 30%Z)]). eexists. split.
  - assert (TAKE : forall (T : stage Z) p ch ch', step (child_ctx false p) ch Tau ch' -> step false (Node T p ch) Tau (Node T p ch')).
    { intros. eapply NChild; [eassumption|now left]. }
    cbn [repeat app query_sys].
    eapply ECons. { apply TAKE, TAKE, TAKE, NRecv, SrcSend. }
    eapply ECons. { apply TAKE, TAKE, NRecv, NSend. }
    eapply ECons. { apply TAKE, NRecv, NSend. }
    eapply ECons. { apply NRecv, NSend. }
    eapply ECons. { apply TAKE, TAKE, TAKE, NSent. }
    eapply ECons. { apply TAKE, TAKE, NSent. }
    eapply ECons. { apply TAKE, NSent. }
    eapply ECons. { apply NSent. }
    eapply ECons. { apply TAKE, TAKE, TAKE, NRecv, SrcSend. }
    eapply ECons. { apply TAKE, TAKE, NRecv, NSend. }
    eapply ECons. { apply TAKE, NRecv, NSend. }
    eapply ECons. { apply NRecv, NSend. }
    eapply ECons. { apply TAKE, TAKE, TAKE, NSent. }
    eapply ECons. { apply TAKE, TAKE, NSent. }
    eapply ECons. { apply TAKE, NSent. }
    eapply ECons. { apply NSent. }
    eapply ECons. { apply TAKE, TAKE, TAKE, (NChild _ _ _ _ Shut); [apply SrcEnd|now right]. }
    eapply ECons. { apply TAKE, TAKE, TAKE, NEof. reflexivity. }
    eapply ECons. { apply TAKE, TAKE, (NChild _ _ _ _ Shut); [apply NReturn|now right]. }
    eapply ECons. { apply TAKE, TAKE, NEof. reflexivity. }
    eapply ECons. { apply TAKE, (NChild _ _ _ _ Shut); [apply NReturn|now right]. }
    eapply ECons. { apply TAKE, NEof. reflexivity. }
    eapply ECons. { apply (NChild _ _ _ _ Shut); [apply NReturn|now right]. }
    eapply ECons. { apply NEof. reflexivity. }
    eapply ECons. { apply NSend. }
    apply ENil.
  - split; [repeat constructor|reflexivity].
Qed.

Print Assumptions C95_look_ahead.
Print Assumptions C95_rows_taken.
Print Assumptions C95_all_before_first.
Print Assumptions C95_stops_when_cancelled_refuted.
