(** C95: how far a query runs ahead of its reader. *)

From Coq Require Import List Bool ZArith Lia.
From Verif Require Import Pipeline PipelineProofs PipelineProps.
Import ListNotations.

(** * Specification *)

Section Spec.
Context {row : Type}.

(** Queries over one plugin whose goroutines hand rows on one by one:
    SELECT, WHERE, LIMIT, stored queries and statements. *)
Fixpoint streaming (q : query row) : Prop :=
  match q with
  | QPlugin _ => True
  | QSelect c from => c_group c = None /\ c_order c = None /\ streaming from
  | QStored q' | QStatement q' => streaming q'
  | QFlatten _ _ | QChain _ => False
  end.

(** Queries over one plugin in which no LIMIT occurs. *)
Fixpoint unlimited (q : query row) : Prop :=
  match q with
  | QPlugin _ => True
  | QSelect c from => c_limit c = None /\ unlimited from
  | QStored q' | QStatement q' | QFlatten _ q' => unlimited q'
  | QChain _ => False
  end.

(** The same query over a plugin that sends other rows. *)
Fixpoint over_rows (l : list row) (q : query row) : query row :=
  match q with
  | QPlugin _ => QPlugin l
  | QSelect c from => QSelect c (over_rows l from)
  | QStored q' => QStored (over_rows l q')
  | QStatement q' => QStatement (over_rows l q')
  | QFlatten f q' => QFlatten f (over_rows l q')
  | QChain qs => QChain qs
  end.

(** The rows of the plugin, and those it has not handed over yet. *)
Fixpoint table (q : query row) : list row :=
  match q with
  | QPlugin l => l
  | QSelect _ q' | QStored q' | QStatement q' | QFlatten _ q' => table q'
  | QChain _ => []
  end.
Fixpoint left_over (s : sys row) : list row :=
  match s with
  | Source _ l _ => l
  | Node _ _ ch => left_over ch
  | Chain _ _ _ _ _ => []
  end.

(** The goroutines between the plugin and the reader. *)
Fixpoint goroutines (q : query row) : nat :=
  match q with
  | QPlugin _ => 0
  | QSelect c from =>
      match c_limit c with Some _ => 1 | None => 0 end +
      match c_order c with Some _ => 2 | None => 0 end + 2 + goroutines from
  | QStored q' | QStatement q' | QFlatten _ q' => 1 + goroutines q'
  | QChain _ => 0
  end.
End Spec.

(** * Proofs *)

Section Proofs.
Context {row : Type}.

Fixpoint put (l : list row) (s : sys row) : sys row :=
  match s with
  | Source sel _ cl => Source sel l cl
  | Node T p ch => Node T p (put l ch)
  | Chain old cur pend rest cl => Chain old cur pend rest cl
  end.

Fixpoint no_chain (s : sys row) : Prop :=
  match s with Source _ _ _ => True | Node _ _ ch => no_chain ch | Chain _ _ _ _ _ => False end.

Lemma put_closed : forall l s, is_closed (put l s) = is_closed s.
Proof. intros l [sel l' cl|T p ch|old cur pend rest cl]; reflexivity. Qed.

Lemma put_left : forall s, no_chain s -> put (left_over s) s = s.
Proof. induction s as [sel l cl|T p ch IH|]; intros N; cbn in *; [reflexivity|now rewrite IH|contradiction]. Qed.

(** A step takes some rows of the plugin and does not look at the others. *)
Lemma step_put : forall c (s : sys row) lb s', step c s lb s' -> no_chain s ->
  no_chain s' /\ exists y, left_over s = y ++ left_over s' /\
    forall z w, left_over s' = z ++ w -> step c (put (y ++ z) s) lb (put z s').
Proof.
  intros c s lb s' H. induction H; intros N; cbn [no_chain left_over put] in *; try contradiction.
  - split; [exact I|]. exists [r]. split; [reflexivity|]. intros z w _. constructor.
  - split; [exact I|]. exists []. split; [reflexivity|]. intros z w E. symmetry in E. apply app_eq_nil in E as [-> _]. constructor.
  - split; [exact I|]. exists []. split; [reflexivity|]. intros z w _. constructor.
  - destruct (IHstep N) as (N' & y & E & G). split; [exact N'|]. exists y. split; [exact E|].
    intros z w EW. apply NRecv. eauto.
  - split; [exact N|]. exists []. split; [reflexivity|]. intros z w _. apply NEof. now rewrite put_closed.
  - split; [exact N|]. exists []. split; [reflexivity|]. intros z w _. now apply NCancelRecv.
  - split; [exact N|]. exists []. split; [reflexivity|]. intros z w _. apply NSend.
  - split; [exact N|]. exists []. split; [reflexivity|]. intros z w _. apply NSent.
  - split; [exact N|]. exists []. split; [reflexivity|]. intros z w _. apply NReturn.
  - split; [exact N|]. exists []. split; [reflexivity|]. intros z w _. now apply NAbort.
  - split; [exact N|]. exists []. split; [reflexivity|]. intros z w _. now apply NAbortReturn.
  - destruct (IHstep N) as (N' & y & E & G). split; [exact N'|]. exists y. split; [exact E|].
    intros z w EW. eapply NChild; eauto.
Qed.

Lemma exec_put : forall (s s' : sys row) t, exec s t s' -> no_chain s ->
  no_chain s' /\ exists y, left_over s = y ++ left_over s' /\ exec (put y s) t (put [] s').
Proof.
  induction 1 as [s|s c l s' t s'' St _ IH]; intros N.
  - split; [exact N|]. exists []. split; [reflexivity|constructor].
  - destruct (step_put _ _ _ _ St N) as (N' & y & E & G). destruct (IH N') as (N'' & y' & E' & X).
    split; [exact N''|]. exists (y ++ y'). split; [now rewrite E, E', app_assoc|].
    eapply ECons; [|exact X]. eapply G. exact E'.
Qed.

(** Goroutines that send at most one row for a row. *)
Definition thin_stage (T : stage row) : Prop :=
  (forall s r, length (fst (on_row T s r)) <= 1) /\ (forall s, on_end T s = []) /\ (forall s, on_cancel T s = []).
Fixpoint thin (s : sys row) : Prop :=
  match s with
  | Source _ _ _ => True
  | Node T p ch => thin_stage T /\ match p with Sending l _ => length l <= 1 | _ => True end /\ thin ch
  | Chain _ _ _ _ _ => False
  end.
Fixpoint size (s : sys row) : nat :=
  match s with Node _ _ ch => S (size ch) | _ => 0 end.

Lemma step_thin : forall c (s : sys row) lb s', step c s lb s' -> thin s -> thin s' /\ size s' = size s.
Proof.
  intros c s lb s' H. induction H; intros TH; cbn [thin size] in *; try contradiction; try (split; [exact I|reflexivity]).
  all: destruct TH as ((T1 & T2 & T3) & P & TC); try (destruct (IHstep TC) as [TC' SZ]).
  all: (split; [split; [repeat split; assumption|split]|]); cbn [after length] in *; auto; try (rewrite ?T2, ?T3; cbn; lia); try lia.
Qed.

Lemma exec_thin : forall (s s' : sys row) t, exec s t s' -> thin s -> thin s' /\ size s' = size s.
Proof.
  induction 1 as [s|s c l s' t s'' St _ IH]; intros TH; [auto|].
  destruct (step_thin _ _ _ _ St TH) as [TH' SZ]. destruct (IH TH') as [A B]. split; [exact A|congruence].
Qed.

Lemma thin_put : forall l s, thin s -> thin (put l s).
Proof. induction s as [sel l' cl|T p ch IH|]; cbn; intuition auto. Qed.
Lemma size_put : forall l s, size (put l s) = size s.
Proof. induction s as [sel l' cl|T p ch IH|]; cbn; auto. Qed.

Lemma thin_run : forall T (s : st T) (l : list row), thin_stage T -> length (run T s l) <= length l.
Proof.
  intros T s l (T1 & T2 & _). revert s. induction l as [|r l IH]; intros s; cbn [run]; [rewrite T2; auto|].
  rewrite app_length. pose proof (T1 s r) as L.
  destruct (snd (on_row T s r)) as [s'|]; [pose proof (IH s')|]; cbn [length] in *; lia.
Qed.

Lemma thin_den : forall s, thin s -> length (den (put [] s)) <= size s.
Proof.
  induction s as [sel l cl|T p ch IH|]; intros TH; cbn [thin size put den] in *.
  - destruct cl; cbn; lia.
  - destruct TH as (T0 & P & TC). specialize (IH TC). destruct p as [s|l [s|]|].
    + pose proof (thin_run T s (den (put [] ch)) T0). lia.
    + rewrite app_length. pose proof (thin_run T s (den (put [] ch)) T0). lia.
    + lia.
    + cbn. lia.
  - contradiction.
Qed.

(** ** Queries *)

Lemma streaming_sys : forall q, streaming q ->
  no_chain (query_sys q) /\ thin (query_sys q) /\ left_over (query_sys q) = table q /\ size (query_sys q) = goroutines q /\
  forall l, put l (query_sys q) = query_sys (over_rows l q).
Proof.
  assert (TS : forall f, thin_stage (select_stage f)).
  { intros f. repeat split. intros s r. cbn. destruct (f r); cbn; lia. }
  induction q as [l|c q IH|q IH|q IH|f q IH|qs _] using query_ind'; intros ST; cbn [streaming] in ST; try contradiction.
  - cbn. auto.
  - destruct ST as (G & O & ST). destruct (IH ST) as (N & TH & L & SZ & PU).
    cbn [query_sys table goroutines over_rows]. unfold select_sys, select_order, select_rows. rewrite G, O.
    destruct (c_limit c); cbn [start no_chain thin left_over size put plus];
      (split; [exact N|]); (split; [repeat split; auto; intros ? r; cbn; destruct (c_row c r); cbn; lia|]);
      (split; [exact L|]); (split; [lia|]); intros l; now rewrite <- PU.
  - destruct (IH ST) as (N & TH & L & SZ & PU). cbn [query_sys table goroutines over_rows start no_chain thin left_over size put].
    split; [exact N|]. split; [repeat split; auto|]. split; [exact L|]. split; [lia|]. intros l. now rewrite <- PU.
  - destruct (IH ST) as (N & TH & L & SZ & PU). cbn [query_sys table goroutines over_rows start no_chain thin left_over size put].
    split; [exact N|]. split; [repeat split; auto|]. split; [exact L|]. split; [lia|]. intros l. now rewrite <- PU.
Qed.

(** ** Goroutines that hold everything back *)

(** A closed goroutine has seen the end of its input. *)
Fixpoint drained (s : sys row) : Prop :=
  match s with
  | Source _ l cl => cl = true -> l = []
  | Node T p ch =>
      cuts T = false /\ (forall s r, snd (on_row T s r) <> None) /\ drained ch /\
      match p with Reading _ | Sending _ (Some _) => True | _ => left_over ch = [] end
  | Chain _ _ _ _ _ => False
  end.

Lemma drained_closed : forall s, drained s -> is_closed s = true -> left_over s = [].
Proof.
  intros [sel l cl|T [s|l k|] ch|] D C; cbn in *; auto; try discriminate; try contradiction. apply D.
Qed.

Lemma left_shrinks : forall c (s : sys row) lb s', step c s lb s' -> no_chain s -> left_over s = [] -> left_over s' = [].
Proof.
  intros c s lb s' H N E. destruct (step_put _ _ _ _ H N) as (_ & y & EY & _).
  rewrite EY in E. now apply app_eq_nil in E.
Qed.

Lemma drained_no_chain : forall s, drained s -> no_chain s.
Proof. induction s as [sel l cl|T p ch IH|]; cbn; intuition auto. Qed.

Lemma step_drained : forall c (s : sys row) lb s', step c s lb s' -> c = false -> drained s -> drained s'.
Proof.
  intros c s lb s' H. induction H; intros EC D; cbn [drained] in *; try contradiction; try discriminate; auto.
  - destruct D as (C & O & D & _). assert (CC : child_ctx c (Reading (T:=T) s) = false).
    { unfold child_ctx. now rewrite EC, C. }
    split; [exact C|]. split; [exact O|]. split; [now apply IHstep|]. unfold after.
    specialize (O s r). destruct (snd (on_row T s r)); [exact I|congruence].
  - destruct D as (C & O & D & _). repeat (split; [assumption|]). now apply drained_closed.
  - destruct D as (C & O & D & P). assert (CC : child_ctx c p = false) by (unfold child_ctx; now rewrite EC, C).
    split; [exact C|]. split; [exact O|]. split; [now apply IHstep|].
    pose proof (left_shrinks _ _ _ _ H (drained_no_chain _ D)) as LS.
    destruct p as [s|l0 [k|]|]; auto.
Qed.

(** The goroutine at the top sends nothing before the end of its input. *)
Definition held (s : sys row) : Prop :=
  match s with
  | Node T p _ => (forall s r, fst (on_row T s r) = []) /\ match p with Sending l (Some _) => l = [] | _ => True end
  | _ => False
  end.

Lemma step_held : forall c (s : sys row) lb s', step c s lb s' -> held s -> held s'.
Proof.
  intros c s lb s' H. destruct H; intros HD; cbn [held] in *; try contradiction.
  all: destruct HD as [A B]; split; [exact A|]; auto.
  - unfold after. rewrite (A s r). destruct (snd (on_row T s r)); auto.
  - destruct k as [k|]; [discriminate|exact I].
Qed.

Lemma held_out : forall c (s : sys row) r s', step c s (Out r) s' -> held s -> drained s -> left_over s = [].
Proof.
  intros c s r s' H HD D. remember (Out r) as lb eqn:EL. destruct H; try discriminate; cbn [held drained left_over] in *; try contradiction.
  - destruct HD as [_ B]. destruct k as [k|]; [discriminate|]. tauto.
Qed.

Lemma held_exec : forall (s s' : sys row) t, exec s t s' -> uncancelled t -> held s -> drained s ->
  outputs t <> [] -> left_over s' = [].
Proof.
  assert (LE : forall (s s' : sys row) t, exec s t s' -> no_chain s -> left_over s = [] -> left_over s' = []).
  { intros s s' t X N E. destruct (exec_put _ _ _ X N) as (_ & y & EY & _). rewrite EY in E. now apply app_eq_nil in E. }
  induction 1 as [s|s c l s' t s'' St X IH]; intros U HD D NE; [now elim NE|].
  inversion U as [|? ? UC U']; subst. cbn in UC. subst c.
  pose proof (step_drained _ _ _ _ St eq_refl D) as D'.
  destruct l as [|r|].
  - apply IH; auto. eapply step_held; eauto.
  - apply (LE _ _ _ X); [now apply drained_no_chain|].
    apply (left_shrinks _ _ _ _ St); [now apply drained_no_chain|]. eapply held_out; eauto.
  - apply IH; auto. eapply step_held; eauto.
Qed.

Lemma drained_sys : forall q, unlimited q -> drained (query_sys q).
Proof.
  induction q as [l|c q IH|q IH|q IH|f q IH|qs _] using query_ind'; intros UL; cbn [unlimited] in UL; try contradiction.
  - cbn. discriminate.
  - destruct UL as (L & UL). specialize (IH UL). cbn [query_sys]. unfold select_sys, select_order, select_rows. rewrite L.
    destruct (c_order c), (c_group c); cbn; repeat split; auto; intros; discriminate.
  - cbn. repeat split; auto; intros; discriminate.
  - cbn. repeat split; auto; intros; discriminate.
  - cbn. repeat split; auto; intros; discriminate.
Qed.

(** A goroutine that reads from one that holds everything back. *)
Definition waits (s : sys row) : Prop :=
  no_chain s /\
  match s with
  | Node T p ch => left_over ch = [] \/ (held ch /\ drained ch /\ match p with Reading _ => True | _ => False end)
  | _ => False
  end.

Lemma step_waits : forall (s : sys row) lb s', step false s lb s' -> waits s ->
  waits s' /\ forall r, lb = Out r -> left_over s' = [].
Proof.
  intros s lb s' H (N & W). pose proof (step_put _ _ _ _ H N) as (N' & _).
  pose proof (left_shrinks _ _ _ _ H N) as LS.
  remember false as c eqn:EC. destruct H; cbn [left_over no_chain] in *; try contradiction; try discriminate.
  all: destruct W as [E|(HD & D & P)];
    [split; [split; [exact N'|left; now apply LS]|intros ? _; now apply LS]|try contradiction].
  - split; [|discriminate]. split; [exact N'|]. left.
    apply (left_shrinks _ _ _ _ H); [now apply drained_no_chain|]. eapply held_out; eauto.
  - split; [|discriminate]. split; [exact N'|]. left. now apply drained_closed.
  - split; [|discriminate]. split; [exact N'|]. right. split; [eapply step_held; eauto|]. split; [|exact P].
    eapply step_drained; [exact H| |exact D]. unfold child_ctx. subst c. destruct p; try contradiction. apply andb_false_r.
Qed.

Lemma waits_exec : forall (s s' : sys row) t, exec s t s' -> uncancelled t -> waits s -> outputs t <> [] -> left_over s' = [].
Proof.
  induction 1 as [s|s c l s' t s'' St X IH]; intros U W NE; [now elim NE|].
  inversion U as [|? ? UC U']; subst. cbn in UC. subst c.
  destruct (step_waits _ _ _ St W) as [W' OUT]. destruct l as [|r|]; [now apply IH| |now apply IH].
  destruct (exec_put _ _ _ X (proj1 W')) as (_ & y & EY & _). rewrite (OUT r eq_refl) in EY. symmetry in EY. now apply app_eq_nil in EY.
Qed.
End Proofs.
