(** Streaming queries: properties C34, C39, C40. *)

From Coq Require Import List Bool ZArith Lia.
From Verif Require Import Pipeline PipelineProofs.
Import ListNotations.

(** * Specification *)

(** The rows a query stands for, as a list function: WHERE/columns, GROUP BY,
    ORDER BY, then LIMIT (a limit below 1 acts as 1, see C15). *)
Definition optional {A} (f : option (A -> A)) (x : A) : A := match f with Some g => g x | None => x end.

Definition select_answer {row} (q : clauses row) (rows : list row) : list row :=
  let selected :=
    match c_group q with
    | Some g => g rows
    | None => flat_map (fun r => match c_row q r with Some x => [x] | None => [] end) rows
    end in
  let ordered := optional (c_order q) selected in
  match c_limit q with
  | Some n => firstn (Z.to_nat (Z.max 1 n)) ordered
  | None => ordered
  end.

Fixpoint answer {row} (q : query row) : list row :=
  match q with
  | QPlugin l => l
  | QSelect c from => select_answer c (answer from)
  | QStored q' => answer q'
  | QStatement q' => answer q'
  | QFlatten f q' => flat_map f (answer q')
  | QChain qs => flat_map answer qs
  end.

(** What the reader sees of an execution, and whether the context stayed alive. *)
Definition outputs {row} (t : list (bool * label row)) : list row :=
  flat_map (fun e => match snd e with Out r => [r] | _ => [] end) t.
Definition uncancelled {row} (t : list (bool * label row)) : Prop := Forall (fun e => fst e = false) t.
(** Nothing can happen any more, with a reader / without a reader. *)
Definition finished {row} (c : bool) (s : sys row) : Prop := forall l s', ~ step c s l s'.
Definition finished_alone {row} (c : bool) (s : sys row) : Prop :=
  forall l s', step c s l s' -> exists r, l = Out r.

Inductive subsequence {A} : list A -> list A -> Prop :=
| SubNil : forall l, subsequence [] l
| SubTake : forall x a b, subsequence a b -> subsequence (x :: a) (x :: b)
| SubSkip : forall x a b, subsequence a b -> subsequence a (x :: b).

(** Queries in which no ORDER BY occurs. *)
Fixpoint no_order {row} (q : query row) : Prop :=
  match q with
  | QPlugin _ => True
  | QSelect c from => c_order c = None /\ no_order from
  | QStored q' | QStatement q' | QFlatten _ q' => no_order q'
  | QChain qs => fold_right (fun q P => no_order q /\ P) True qs
  end.

(** Queries that can be abandoned after their first row: ORDER BY below a
    chain() cannot, unless a blocking clause (GROUP BY, ORDER BY) is above. *)
Fixpoint abandonable {row} (q : query row) : Prop :=
  match q with
  | QPlugin _ => True
  | QSelect c from => c_order c <> None \/ c_group c <> None \/ abandonable from
  | QStored q' | QStatement q' | QFlatten _ q' => abandonable q'
  | QChain _ => no_order q
  end.

Fixpoint limits_ok {row} (q : query row) : Prop :=
  match q with
  | QPlugin _ => True
  | QSelect c from =>
      limits_ok from /\
      (c_limit c <> None -> c_order c <> None \/ c_group c <> None \/ abandonable from)
  | QStored q' | QStatement q' | QFlatten _ q' => limits_ok q'
  | QChain qs => fold_right (fun q P => limits_ok q /\ P) True qs
  end.

(** * Proofs *)

Section Q.
Context {row : Type}.

Lemma run_relay : forall T (s : st T) (l : list row),
  (forall s r, exists s', on_row T s r = ([r], Some s')) -> (forall s, on_end T s = []) -> run T s l = l.
Proof.
  intros T s l A B. revert s. induction l as [|r l IH]; intros s; simpl; auto.
  destruct (A s r) as (s' & ->). simpl. now rewrite IH.
Qed.

Lemma run_select : forall f (l : list row),
  run (select_stage f) tt l = flat_map (fun r => match f r with Some x => [x] | None => [] end) l.
Proof. intros f l. induction l; simpl; congruence. Qed.

Lemma run_flatten : forall f (l : list row), run (flatten_stage f) tt l = flat_map f l.
Proof. intros f l. induction l; simpl; congruence. Qed.

Lemma run_sorter : forall sort (l acc : list row), run (sorter_stage sort) acc l = sort (acc ++ l).
Proof.
  intros sort l. induction l; intros acc; simpl; [now rewrite app_nil_r|]. now rewrite IHl, <- app_assoc.
Qed.

Lemma run_group : forall g (l acc : list row), run (group_stage g) acc l = g (acc ++ l).
Proof.
  intros g l. induction l; intros acc; simpl; [now rewrite app_nil_r|]. now rewrite IHl, <- app_assoc.
Qed.

Lemma run_limit : forall n (l : list row) count, (1 <= count)%Z -> (count <= Z.max 1 n)%Z ->
  run (limit_stage n) count l = firstn (Z.to_nat (Z.max 1 n - count + 1)) l.
Proof.
  intros n l. induction l as [|r l IH]; intros count A B.
  - now rewrite firstn_nil.
  - cbn [run limit_stage on_row fst snd].
    replace (Z.to_nat (Z.max 1 n - count + 1)) with (S (Z.to_nat (Z.max 1 n - count))) by lia.
    simpl. f_equal. destruct (Z.gtb_spec (count + 1) n).
    + replace (Z.max 1 n - count)%Z with 0%Z by lia. reflexivity.
    + specialize (IH (count + 1)%Z). cbn [limit_stage st] in IH. rewrite IH by lia. f_equal. lia.
Qed.

Lemma den_start : forall T s (ch : sys row), den (start T s ch) = run T s (den ch).
Proof. reflexivity. Qed.

Lemma den_select : forall (c : clauses row) from, den (select_sys c from) = select_answer c (den from).
Proof.
  intros c from. unfold select_sys, select_answer, select_order, select_rows, optional.
  assert (F : forall ch : sys row, den (start from_stage tt ch) = den ch)
    by (intros; rewrite den_start; apply run_relay; [intros; eexists; reflexivity|reflexivity]).
  assert (Fe : forall ch : sys row, den (start feeder_stage tt ch) = den ch)
    by (intros; rewrite den_start; apply run_relay; [intros; eexists; reflexivity|reflexivity]).
  assert (R : den (match c_group c with
                   | Some g => start (group_stage g) [] (start from_stage tt from)
                   | None => start (select_stage (c_row c)) tt (start from_stage tt from) end) =
              match c_group c with
              | Some g => g (den from)
              | None => flat_map (fun r => match c_row c r with Some x => [x] | None => [] end) (den from) end).
  { destruct (c_group c); rewrite den_start, F; [apply run_group|apply run_select]. }
  assert (O : den (match c_order c with
                   | Some sort => start (sorter_stage sort) [] (start feeder_stage tt (select_rows c from))
                   | None => select_rows c from end) =
              match c_order c with Some g => g (match c_group c with
              | Some g => g (den from)
              | None => flat_map (fun r => match c_row c r with Some x => [x] | None => [] end) (den from) end)
              | None => match c_group c with
              | Some g => g (den from)
              | None => flat_map (fun r => match c_row c r with Some x => [x] | None => [] end) (den from) end end).
  { destruct (c_order c); [|exact R]. rewrite den_start, Fe. unfold select_rows. rewrite R. apply run_sorter. }
  destruct (c_limit c) as [n|]; [|exact O].
  rewrite den_start. unfold select_rows in O. rewrite O.
  rewrite run_limit by lia. f_equal. lia.
Qed.

Section QInd.
  Variable P : query row -> Prop.
  Hypothesis H1 : forall l, P (QPlugin l).
  Hypothesis H2 : forall c q, P q -> P (QSelect c q).
  Hypothesis H3 : forall q, P q -> P (QStored q).
  Hypothesis H4 : forall q, P q -> P (QStatement q).
  Hypothesis H6 : forall f q, P q -> P (QFlatten f q).
  Hypothesis H5 : forall qs, Forall P qs -> P (QChain qs).
  Fixpoint query_ind' (q : query row) : P q :=
    match q with
    | QPlugin l => H1 l
    | QSelect c q => H2 c q (query_ind' q)
    | QStored q => H3 q (query_ind' q)
    | QStatement q => H4 q (query_ind' q)
    | QFlatten f q => H6 f q (query_ind' q)
    | QChain qs => H5 qs ((fix all (l : list (query row)) : Forall P l :=
        match l with [] => Forall_nil _ | x :: l' => Forall_cons x (query_ind' x) (all l') end) qs)
    end.
End QInd.

Lemma den_query : forall q : query row, den (query_sys q) = answer q.
Proof.
  induction q as [l|c q IH|q IH|q IH|f q IH|qs IH] using query_ind'.
  - reflexivity.
  - cbn [query_sys answer]. now rewrite den_select, IH.
  - cbn [query_sys answer]. rewrite den_start, IH. apply run_relay; [intros; eexists; reflexivity|reflexivity].
  - cbn [query_sys answer]. rewrite den_start, IH. apply run_relay; [intros; eexists; reflexivity|reflexivity].
  - cbn [query_sys answer]. rewrite den_start, IH. apply run_flatten.
  - simpl. induction IH as [|q qs A _ IHqs]; simpl; congruence.
Qed.

Lemma exec_den : forall (s s' : sys row) t, exec s t s' -> uncancelled t -> den s = outputs t ++ den s'.
Proof.
  induction 1 as [s|s c l s' t s'' A _ IH]; intros U; [reflexivity|].
  inversion U; subst; simpl in *. subst c.
  rewrite (step_den _ _ _ _ A eq_refl), IH by auto. unfold emits. now rewrite app_assoc.
Qed.

(** Without cancellation the reader sees a prefix of the answer, whatever the
    schedule; ... *)
Theorem C39_prefix_until_cancelled : forall (q : query row) t s,
  exec (query_sys q) t s -> uncancelled t -> exists rest, answer q = outputs t ++ rest.
Proof. intros q t s E U. exists (den s). now rewrite <- den_query, (exec_den _ _ _ E U). Qed.

(** ... when nothing can happen any more the reader has seen all of it and the
    channel is closed; ... *)
Theorem C39_complete : forall (q : query row) t s,
  exec (query_sys q) t s -> uncancelled t -> finished false s ->
  outputs t = answer q /\ is_closed s = true.
Proof.
  intros q t s E U F.
  assert (C : is_closed s = true).
  { destruct (is_closed s) eqn:C; auto. destruct (progress s false C) as (l & s' & A). exfalso. eapply F; eauto. }
  split; auto. rewrite <- den_query, (exec_den _ _ _ E U), (den_closed _ C). now rewrite app_nil_r.
Qed.

(** ... and that point is always reached: no execution, cancelled or not, goes
    on for ever. *)
Theorem C39_every_execution_ends : forall q : query row,
  ~ exists f : nat -> sys row, f 0 = query_sys q /\ forall n, exists c l, step c (f n) l (f (S n)).
Proof.
  intros q (f & E & A). pose proof (all_SN (query_sys q)) as S. rewrite <- E in S.
  remember (f 0) as s eqn:Es. assert (Ex : exists n, f n = s) by (exists 0; auto). clear E Es.
  induction S as [s _ IH]. destruct Ex as (n & <-). eapply IH; [|now exists (S n)]. exact (A n).
Qed.

(** Each goroutine closes its channel once and sends nothing afterwards. This
    is for any tree, so for every channel of a query, under any cancellation. *)
Theorem C39_closed_once : forall (s s' : sys row) t1 c t2,
  exec s (t1 ++ (c, Shut) :: t2) s' -> forall c' l, In (c', l) t2 -> l = Tau.
Proof.
  intros s s' t1 c t2 E.
  assert (G : exists s1, exec s1 t2 s' /\ is_closed s1 = true).
  { revert s E. induction t1 as [|e t1 IH]; intros s E; inversion E as [|? ? ? s1 ? ? A B]; subst; eauto.
    exists s1. split; auto. now apply shut_closes in A. }
  clear E. destruct G as (s1 & E & C). revert s1 E C.
  induction t2 as [|(c2, l2) t2 IH]; intros s1 E C c' l Hin; [contradiction|].
  inversion E as [|? ? ? s2 ? ? A B]; subst. apply closed_step in A; auto. destruct A as (-> & C').
  destruct Hin as [[= <- <-]|Hin]; eauto.
Qed.

Theorem C39_closed_only_by_close : forall (s s' : sys row) t,
  exec s t s' -> is_closed s = false -> is_closed s' = true -> exists c, In (c, Shut) t.
Proof.
  induction 1 as [s|s c l s' t s'' A _ IH]; intros E E'; [congruence|].
  destruct (is_closed s') eqn:C.
  - exists c. left. f_equal. now apply (only_shut_closes _ _ _ _ A).
  - destruct (IH eq_refl E') as (c' & Hin). exists c'. now right.
Qed.

(** ** Releasing goroutines *)

Lemma forallb_map_fold : forall (P : query row -> Prop) f qs,
  Forall (fun q => P q -> f (query_sys q) = true) qs -> fold_right (fun q Q => P q /\ Q) True qs ->
  forallb f (map query_sys qs) = true.
Proof.
  intros P f qs H. induction H; simpl; intros A; auto. destruct A. apply andb_true_iff. auto.
Qed.

Lemma no_order_polite : forall q : query row, no_order q -> polite (query_sys q) = true.
Proof.
  induction q as [l|c q IH|q IH|q IH|f q IH|qs IH] using query_ind'; intros N; cbn [query_sys no_order] in *; auto.
  - destruct N as (N1 & N2). unfold select_sys, select_order, select_rows. rewrite N1.
    destruct (c_limit c), (c_group c); simpl; auto.
  - simpl. apply (forallb_map_fold no_order polite qs IH N).
Qed.

Lemma late_sorter : forall sort : list row -> list row, late (sorter_stage sort).
Proof. intros sort s r. split; [reflexivity|discriminate]. Qed.
Lemma late_group : forall g : list row -> list row, late (group_stage g).
Proof. intros g s r. split; [reflexivity|discriminate]. Qed.

Lemma ready_select : forall (c : clauses row) from,
  c_order c <> None \/ c_group c <> None \/ ready from -> ready (select_order c from).
Proof.
  intros c from H. unfold select_order, select_rows.
  destruct (c_order c); [simpl; split; auto; left; apply late_sorter|].
  destruct (c_group c); [simpl; split; auto; left; apply late_group|].
  destruct H as [|[|]]; try congruence. simpl. auto 10.
Qed.

Lemma abandonable_ready : forall q : query row, abandonable q -> ready (query_sys q).
Proof.
  induction q as [l|c q IH|q IH|q IH|f q IH|qs IH] using query_ind'; intros N; cbn [query_sys abandonable] in *.
  - reflexivity.
  - assert (R : ready (select_order c (query_sys q))) by (apply ready_select; tauto).
    unfold select_sys. destruct (c_limit c); auto. simpl. auto.
  - simpl. auto.
  - simpl. auto.
  - simpl. auto.
  - now apply (no_order_polite (QChain qs)).
Qed.

Lemma tidy_relay : forall T : stage row, (forall s r, snd (on_row T s r) <> None) -> tidy T.
Proof. intros T H. now right. Qed.

Lemma hyg_select : forall (c : clauses row) from, hyg from ->
  (c_limit c <> None -> c_order c <> None \/ c_group c <> None \/ ready from) -> hyg (select_sys c from).
Proof.
  intros c from H L.
  assert (R : hyg (select_rows c from)).
  { unfold select_rows. destruct (c_group c); simpl; repeat split; auto; try discriminate;
      apply tidy_relay; discriminate. }
  assert (O : hyg (select_order c from)).
  { unfold select_order. destruct (c_order c); auto. simpl. repeat split; auto; try discriminate;
      apply tidy_relay; discriminate. }
  unfold select_sys. destruct (c_limit c); auto. simpl. repeat split; auto; [now left|].
  intros _. apply ready_select. apply L. discriminate.
Qed.

Lemma hyg_query : forall q : query row, limits_ok q -> hyg (query_sys q).
Proof.
  induction q as [l|c q IH|q IH|q IH|f q IH|qs IH] using query_ind'; intros N; cbn [query_sys limits_ok] in *.
  - exact I.
  - destruct N as (N1 & N2). apply hyg_select; auto. intros A. specialize (N2 A).
    pose proof (abandonable_ready q). tauto.
  - simpl. repeat split; auto; try discriminate. apply tidy_relay; discriminate.
  - simpl. repeat split; auto; try discriminate. apply tidy_relay; discriminate.
  - simpl. repeat split; auto; try discriminate. apply tidy_relay; discriminate.
  - simpl. repeat split; auto. induction IH; simpl in *; auto. tauto.
Qed.

Lemma inv_fresh : forall q : query row, inv false (query_sys q).
Proof.
  assert (St : forall T s (ch : sys row), inv false ch -> inv false (start T s ch))
    by (intros; simpl; split; auto; discriminate).
  induction q as [l|c q IH|q IH|q IH|f q IH|qs IH] using query_ind'; cbn [query_sys]; auto.
  - simpl. discriminate.
  - unfold select_sys, select_order, select_rows.
    destruct (c_limit c), (c_order c), (c_group c); auto 10.
  - simpl. repeat split; auto. intros _. induction IH; simpl; auto.
Qed.

Lemma exec_inv : forall (s s' : sys row) t, exec s t s' -> forall c,
  Forall (fun e => fst e = true -> c = true) t -> hyg s -> inv c s -> inv c s'.
Proof.
  induction 1 as [s|s c l s' t s'' A _ IH]; intros c0 U G I; auto.
  inversion U; subst. apply IH; auto; [eapply hyg_step; eauto|eapply inv_step; eauto].
Qed.

(** When a query has run to its end, all of its goroutines have returned, also
    those that LIMIT abandoned. *)
Theorem C39_all_goroutines_return : forall (q : query row) t s,
  limits_ok q -> exec (query_sys q) t s -> uncancelled t -> finished false s -> all_closed s = true.
Proof.
  intros q t s L E U F.
  assert (I : inv false s).
  { eapply exec_inv; eauto; [|now apply hyg_query|apply inv_fresh].
    eapply Forall_impl; [|exact U]. simpl. intros; congruence. }
  apply (stuck_closed s false); auto.
  - right. now apply (C39_complete q t s E U F).
  - intros l s' A. exfalso. eapply F; eauto.
Qed.

Lemma no_order_limits_ok : forall q : query row, no_order q -> limits_ok q.
Proof.
  assert (AB : forall q : query row, no_order q -> abandonable q).
  { induction q as [l|c q IH|q IH|q IH|f q IH|qs IH] using query_ind'; simpl; tauto. }
  induction q as [l|c q IH|q IH|q IH|f q IH|qs IH] using query_ind'; simpl; auto.
  - intros (A & B). split; auto.
  - intros N. induction IH; simpl in *; tauto.
Qed.

(** After cancellation, without ORDER BY, every goroutine returns even if the
    reader has gone away, from whatever point the query had reached. *)
Theorem C39_cancel_releases_all : forall (q : query row) t s,
  no_order q -> exec (query_sys q) t s -> finished_alone true s -> all_closed s = true.
Proof.
  intros q t s N E F. pose proof (no_order_limits_ok q N) as L.
  assert (I : inv true s).
  { eapply exec_inv; eauto; [|now apply hyg_query|].
    - apply Forall_forall. auto.
    - apply polite_inv; [now apply no_order_polite|apply inv_fresh]. }
  apply (stuck_closed s true); auto.
  intros l s' A Q. destruct (F _ _ A) as (r & ->). destruct Q; discriminate.
Qed.

Lemma guarded_query : forall q : query row, guarded (query_sys q) /\ root_sel (query_sys q) = true.
Proof.
  induction q as [l|c q IH|q IH|q IH|f q IH|qs IH] using query_ind'; cbn [query_sys].
  - simpl. auto.
  - destruct IH as (A & B). unfold select_sys, select_order, select_rows.
    destruct (c_limit c), (c_order c), (c_group c); simpl; auto 10.
  - simpl. tauto.
  - simpl. tauto.
  - simpl. tauto.
  - simpl. repeat split; auto. induction IH; simpl; auto.
Qed.

Lemma exec_guarded : forall (s s' : sys row) t, exec s t s' -> guarded s -> guarded s'.
Proof. induction 1; auto. intros. apply IHexec. eapply guarded_step; eauto. Qed.

Lemma root_sel_exec : forall (s s' : sys row) t, exec s t s' -> root_sel s' = root_sel s.
Proof. induction 1; auto. rewrite IHexec. eapply root_sel_step; eauto. Qed.

(** After cancellation of any query, with ORDER BY or not, the reader's channel
    is closed, and the only goroutines that may be left are blocked in a send
    without [select] (the two feeders, vfilter.go:676 and vfilter_group.go:117). *)
Theorem C40_only_feeders_left_partial : forall (q : query row) t s,
  exec (query_sys q) t s -> finished_alone true s -> is_closed s = true /\ only_deaf_left s.
Proof.
  intros q t s E F. destruct (guarded_query q) as (G & R).
  destruct (stuck_deaf s) as (A & B).
  - eapply exec_guarded; eauto.
  - intros l s' St Q. destruct (F _ _ St) as (r & ->). destruct Q; discriminate.
  - split; auto. apply B. now rewrite (root_sel_exec _ _ _ E).
Qed.

(** Steps that need neither the reader nor, when the input stays the same, any
    of the goroutines below. *)
Definition own_steps (t : list (bool * label row)) : Prop :=
  Forall (fun x => fst x = true /\ forall r, snd x <> Out r) t.

Lemma prompt_stage : forall (T : stage row) p ch,
  sel_recv T = true -> sel_send T = true -> (forall s, on_cancel T s = []) ->
  exists t, own_steps t /\ exec (Node T p ch) t (Node T Closed ch).
Proof.
  intros T p ch R S C.
  assert (RD : forall s, exists t, own_steps t /\ exec (Node T (Reading s) ch) t (Node T Closed ch)).
  { intro s. exists [(true, Tau); (true, Shut)]. split; [repeat constructor; discriminate|].
    eapply ECons; [apply NCancelRecv; exact R|]. rewrite C. eapply ECons; [apply NReturn|constructor]. }
  destruct p as [s|l k|]; [apply RD| |exists []; split; constructor]. destruct l as [|r l].
  - destruct k as [s|].
    + destruct (RD s) as (t & O & E). exists ((true, Tau) :: t). split.
      * constructor; [split; [reflexivity|discriminate]|exact O].
      * eapply ECons; [apply NSent|exact E].
    + exists [(true, Shut)]. split; [repeat constructor; discriminate|]. eapply ECons; [apply NReturn|constructor].
  - destruct (aborted T k) as [s|l' k'|] eqn:A.
    + destruct (RD s) as (t & O & E). exists ((true, Tau) :: t). split.
      * constructor; [split; [reflexivity|discriminate]|exact O].
      * eapply ECons; [apply NAbort; eauto|exact E].
    + unfold aborted in A. destruct k as [s|]; [destruct (go_on T)|]; discriminate.
    + exists [(true, Shut)]. split; [repeat constructor; discriminate|].
      eapply ECons; [apply NAbortReturn; eauto|constructor].
Qed.
Lemma root_stage : forall (s s' : sys row) t T p ch, exec s t s' -> s = Node T p ch -> exists p' ch', s' = Node T p' ch'.
Proof.
  intros s s' t T p ch E. revert T p ch. induction E as [s|s c l s1 t s2 St E IH]; intros T p ch Q; [eauto|].
  subst s. assert (N : exists p1 ch1, s1 = Node T p1 ch1) by (inversion St; subst; eauto).
  destruct N as (p1 & ch1 & ->). now apply (IH T p1 ch1).
Qed.

(** A statement whose context is cancelled closes its channel by itself, from
    whatever point it had reached: it waits neither for its reader nor for any
    of the goroutines it reads from. *)
Theorem C39_statement_cancels_alone : forall (q : query row) t s,
  exec (query_sys (QStatement q)) t s ->
  exists T p ch, s = Node T p ch /\
  exists t', own_steps t' /\ exec s t' (Node T Closed ch).
Proof.
  intros q t s E. cbn [query_sys] in E. unfold start in E.
  destruct (root_stage _ _ _ _ _ _ E eq_refl) as (p & ch & ->). exists vql_stage, p, ch. split; [reflexivity|].
  now apply prompt_stage.
Qed.

(** ** Under cancellation *)

(** Row by row queries: no GROUP BY, no ORDER BY. *)
Fixpoint row_by_row (q : query row) : Prop :=
  match q with
  | QPlugin _ => True
  | QSelect c from => c_group c = None /\ c_order c = None /\ row_by_row from
  | QStored q' | QStatement q' | QFlatten _ q' => row_by_row q'
  | QChain qs => fold_right (fun q P => row_by_row q /\ P) True qs
  end.

(** The answer without any LIMIT. *)
Fixpoint unlimited_answer (q : query row) : list row :=
  match q with
  | QPlugin l => l
  | QSelect c from =>
      flat_map (fun r => match c_row c r with Some x => [x] | None => [] end) (unlimited_answer from)
  | QStored q' => unlimited_answer q'
  | QStatement q' => unlimited_answer q'
  | QFlatten f q' => flat_map f (unlimited_answer q')
  | QChain qs => flat_map unlimited_answer qs
  end.

Lemma sub_refl : forall l : list row, subsequence l l.
Proof. induction l; constructor; auto. Qed.
Lemma sub_app : forall a b c d : list row, subsequence a b -> subsequence c d -> subsequence (a ++ c) (b ++ d).
Proof.
  intros a b c d H. revert c d. induction H as [l|x a b H IH|x a b H IH]; intros c d K; simpl.
  - induction l; simpl; auto. now constructor.
  - constructor. auto.
  - constructor. auto.
Qed.
Lemma sub_trans : forall b c : list row, subsequence b c -> forall a, subsequence a b -> subsequence a c.
Proof.
  induction 1 as [l|x b c H IH|x b c H IH]; intros a K.
  - inversion K; subst; constructor.
  - inversion K; subst; constructor; auto.
  - constructor; auto.
Qed.
Lemma sub_skip : forall a b : list row, subsequence b (a ++ b).
Proof. induction a; simpl; intros; [apply sub_refl|constructor; auto]. Qed.

(** One function per row whatever the state, nothing at the end. *)
Definition pointwise (T : stage row) (f : row -> list row) : Prop :=
  (forall s r, fst (on_row T s r) = f r) /\ (forall s, on_end T s = []) /\ (forall s, on_cancel T s = []).

(** [simple s x]: [s] can at most say [x]. *)
Fixpoint simple (s : sys row) (x : list row) : Prop :=
  match s with
  | Source _ l _ => x = l
  | Node T p ch => exists f y, pointwise T f /\ simple ch y /\
      x = match p with Sending o _ => o | _ => [] end ++ flat_map f y
  | Chain _ cur pend rest _ => exists y z,
      match cur with Some q => simple q y | None => y = [] end /\
      (fix all (l : list (sys row)) (z : list row) : Prop :=
         match l with
         | [] => z = []
         | q :: l' => exists a b, simple q a /\ all l' b /\ z = a ++ b
         end) rest z /\
      x = match pend with Some r => [r] | None => [] end ++ y ++ z
  end.

Lemma flat_map_sub : forall (f : row -> list row) a b, subsequence a b -> subsequence (flat_map f a) (flat_map f b).
Proof.
  induction 1; simpl.
  - constructor.
  - apply sub_app; auto. apply sub_refl.
  - eapply sub_trans; [apply sub_skip|auto].
Qed.

Lemma step_simple : forall c (s : sys row) l (s' : sys row), step c s l s' -> forall x, simple s x ->
  exists y, simple s' y /\ subsequence (emits l ++ y) x.
Proof.
  intros c s l s' H. induction H; intros x Sx.
  - exists l. simpl in *. subst. split; auto. apply sub_refl.
  - exists []. simpl in *. subst. split; auto. apply sub_refl.
  - exists l. simpl in *. subst. split; auto. apply sub_refl.
  - destruct Sx as (f & y & P & Sy & ->). destruct (IHstep _ Sy) as (z & Sz & Z).
    exists (f r ++ flat_map f z). split.
    + exists f, z. split; [exact P|split; [exact Sz|]]. unfold after. f_equal. symmetry. apply P.
    + simpl. apply (flat_map_sub f) in Z. exact Z.
  - destruct Sx as (f & y & P & Sy & ->). exists (flat_map f y). split; [|apply sub_refl].
    exists f, y. split; [exact P|split; [exact Sy|]]. destruct P as (_ & E & _). now rewrite E.
  - destruct Sx as (f & y & P & Sy & ->). exists (flat_map f y). split; [|apply sub_refl].
    exists f, y. split; [exact P|split; [exact Sy|]]. destruct P as (_ & _ & E). now rewrite E.
  - destruct Sx as (f & y & P & Sy & ->). exists (l ++ flat_map f y). split; [|apply sub_refl].
    exists f, y. auto.
  - destruct Sx as (f & y & P & Sy & ->). exists (flat_map f y). split; [|apply sub_refl].
    exists f, y. auto.
  - destruct Sx as (f & y & P & Sy & ->). exists (flat_map f y). split; [|apply sub_refl].
    exists f, y. auto.
  - destruct Sx as (f & y & P & Sy & ->). exists (flat_map f y). split; [|apply sub_skip].
    exists f, y. auto.
  - destruct Sx as (f & y & P & Sy & ->). exists (flat_map f y). split; [|apply sub_skip].
    exists f, y. auto.
  - destruct Sx as (f & y & P & Sy & ->). destruct (IHstep _ Sy) as (z & Sz & Z).
    eexists. split; [exists f, z; eauto|]. simpl. apply sub_app; [apply sub_refl|]. apply flat_map_sub.
    destruct H0; subst; exact Z.
  - destruct Sx as (y & z & -> & (a & b & A & B & ->) & ->). exists (a ++ b). split; [|apply sub_refl].
    exists a, b. auto.
  - destruct Sx as (y & z & Sy & B & ->). destruct (IHstep _ Sy) as (y' & Sy' & Y).
    exists ([r] ++ y' ++ z). split; [exists y', z; auto|]. simpl.
    apply (sub_app (r :: y') y); auto. apply sub_refl.
  - destruct Sx as (y & z & Sy & B & ->). exists (y ++ z). split; [exists y, z; auto|apply sub_refl].
  - destruct Sx as (y & z & Sy & B & ->). exists ([r] ++ y ++ z). split; [exists y, z; auto|apply sub_refl].
  - destruct Sx as (y & z & Sy & B & ->). exists z. split; [exists [], z; auto|simpl; apply sub_skip].
  - destruct Sx as (y & z & Sy & B & ->). exists (y ++ z). split; [exists y, z; auto|apply sub_refl].
  - destruct Sx as (y & z & Sy & B & ->). destruct (IHstep _ Sy) as (y' & Sy' & Y).
    eexists. split; [exists y', z; split; [exact Sy'|split; [exact B|reflexivity]]|].
    simpl. apply sub_app; [apply sub_refl|]. apply sub_app; [destruct H0; subst; exact Y|apply sub_refl].
  - destruct Sx as (y & z & Sy & B & ->). eexists. split; [exists y, z; eauto|apply sub_refl].
Qed.

Lemma simple_start : forall T f s (ch : sys row) y, pointwise T f -> simple ch y ->
  simple (start T s ch) (flat_map f y).
Proof. intros. exists f, y. auto. Qed.

Lemma flat_map_id : forall l : list row, flat_map (fun r => [r]) l = l.
Proof. induction l; simpl; congruence. Qed.

Lemma simple_relay : forall T s (ch : sys row) y, pointwise T (fun r => [r]) -> simple ch y ->
  simple (start T s ch) y.
Proof. intros T s ch y P S. rewrite <- (flat_map_id y). now apply simple_start. Qed.

Lemma simple_query : forall q, row_by_row q -> simple (query_sys q) (unlimited_answer q).
Proof.
  induction q as [l|c q IH|q IH|q IH|f q IH|qs IH] using query_ind'; intros R;
    cbn [query_sys unlimited_answer row_by_row] in *.
  - reflexivity.
  - destruct R as (R1 & R2 & R3). unfold select_sys, select_order, select_rows. rewrite R1, R2.
    assert (simple (start (select_stage (c_row c)) tt (start from_stage tt (query_sys q)))
             (flat_map (fun r => match c_row c r with Some x => [x] | None => [] end) (unlimited_answer q))).
    { apply simple_start; [repeat split|]. apply simple_relay; [repeat split|auto]. }
    destruct (c_limit c); auto. apply simple_relay; [repeat split|auto].
  - apply simple_relay; [repeat split|auto].
  - apply simple_relay; [repeat split|auto].
  - apply simple_start; [repeat split|auto].
  - exists [], (flat_map unlimited_answer qs). split; [reflexivity|split; [|reflexivity]].
    induction IH as [|q qs A _ IHqs]; simpl in *; auto. destruct R. eexists _, _.
    split; [apply A; auto|]. split; [apply IHqs; auto|reflexivity].
Qed.

(** Whatever is cancelled and whenever, a query without GROUP BY and ORDER BY
    never repeats, invents or reorders rows: the reader sees a subsequence of
    the rows of the query without its LIMITs. *)
Theorem C39_subsequence_partial : forall q t s,
  row_by_row q -> exec (query_sys q) t s -> subsequence (outputs t) (unlimited_answer q).
Proof.
  intros q t s R E. pose proof (simple_query q R) as S. revert S. generalize (unlimited_answer q).
  induction E as [s|s c l s' t s'' A _ IH]; intros x S; [constructor|].
  destruct (step_simple _ _ _ _ A _ S) as (y & Sy & Y). specialize (IH _ Sy).
  simpl. eapply sub_trans; [exact Y|]. apply sub_app; [apply sub_refl|exact IH].
Qed.

(** ** C34: chain() *)
Theorem C34_chain : forall (qs : list (query row)) t s,
  exec (query_sys (QChain qs)) t s -> uncancelled t ->
  (exists rest, flat_map answer qs = outputs t ++ rest) /\
  (finished false s -> outputs t = flat_map answer qs).
Proof.
  intros qs t s E U. split.
  - now apply (C39_prefix_until_cancelled (QChain qs) t s).
  - intros F. now destruct (C39_complete (QChain qs) t s E U F).
Qed.

End Q.

(** ** Refutations *)

(** C39 as written asks for a prefix under every schedule. After cancellation
    the row loop of SELECT may drop a row and still deliver a later one. *)
Definition keep (c : Z) : option Z := Some c.
Definition q_select : query Z := QSelect (Clauses keep None None None) (QPlugin [1; 2]%Z).

Theorem C39_prefix_refuted : exists t s,
  exec (query_sys q_select) t s /\ outputs t = [2%Z] /\ answer q_select = [1; 2]%Z.
Proof.
  set (sel := select_stage keep).
  exists [(false, Tau); (false, Tau); (true, Tau); (true, Tau); (true, Tau); (true, Tau); (true, Out 2%Z)].
  eexists. split; [|split; reflexivity].
  eapply ECons. { apply NChild with (l := Tau); [apply NRecv, SrcSend|now left]. }
  eapply ECons. { apply NRecv. apply NSend. }
  eapply ECons. { eapply NAbort; reflexivity. }
  eapply ECons. { apply NChild with (l := Tau); [apply NSent|now left]. }
  eapply ECons. { apply NChild with (l := Tau); [apply NRecv, SrcSend|now left]. }
  eapply ECons. { apply NRecv. apply NSend. }
  eapply ECons. { apply NSend. }
  apply ENil.
Qed.

(** C40: the goroutine that feeds the sorter does not watch the context. *)
Definition q_order : query Z := QSelect (Clauses keep None (Some (fun l => l)) None) (QPlugin [1; 2]%Z).

Lemma all_closed_stuck : forall (s : sys Z) c l s', all_closed s = true -> ~ step c s l s'.
Proof.
  induction s as [sel rs cl|T p ch IH|old cur pend rest cl Ho Hc Hr] using sys_ind'; intros c l s' E A;
    apply step_inv in A; simpl in E.
  - destruct A. congruence.
  - destruct p; try discriminate. destruct A as [(l0 & ch' & A & _)|[]]. eapply IH; eauto.
  - rewrite !andb_true_iff in E. destruct E as ((-> & E1) & E2).
    destruct A as [(a & s & b & l0 & s0 & -> & A & _)|[(s & l0 & s0 & -> & A & _)|(F & _)]].
    + rewrite Forall_forall in Ho. rewrite forallb_forall in E1.
      eapply (Ho s); eauto using in_elt.
    + eapply (Hc s); eauto.
    + discriminate.
Qed.

(** After a cancelled execution one goroutine is left that can never move. *)
Theorem C40_refuted : exists t s,
  exec (query_sys q_order) t s /\ is_closed s = true /\
  all_closed s = false /\ (forall c l s', ~ step c s l s').
Proof.
  exists [(false, Tau); (false, Tau); (false, Tau);
          (true, Tau); (true, Shut);
          (true, Tau); (true, Tau); (true, Tau); (true, Tau); (true, Tau); (true, Tau); (true, Tau)].
  eexists. split; [|split; [|split]].
  - eapply ECons. { apply NChild with (l := Tau); [|now left]. apply NChild with (l := Tau); [|now left].
      apply NChild with (l := Tau); [|now left]. apply NRecv, SrcSend. }
    eapply ECons. { apply NChild with (l := Tau); [|now left]. apply NChild with (l := Tau); [|now left].
      apply NRecv. apply NSend. }
    eapply ECons. { apply NChild with (l := Tau); [|now left]. apply NRecv. apply NSend. }
    (* the context is cancelled: the sorter returns *)
    eapply ECons. { apply NCancelRecv. reflexivity. }
    eapply ECons. { apply NReturn. }
    (* and so does everything below the feeder *)
    eapply ECons. { apply NChild with (l := Tau); [|now left]. apply NChild with (l := Tau); [|now left].
      apply NSent. }
    eapply ECons. { apply NChild with (l := Tau); [|now left]. apply NChild with (l := Tau); [|now left].
      apply NCancelRecv. reflexivity. }
    eapply ECons. { apply NChild with (l := Tau); [|now left]. apply NChild with (l := Shut); [|now right].
      apply NReturn. }
    eapply ECons. { apply NChild with (l := Tau); [|now left]. apply NChild with (l := Tau); [|now left].
      apply NChild with (l := Tau); [|now left]. apply NSent. }
    eapply ECons. { apply NChild with (l := Tau); [|now left]. apply NChild with (l := Tau); [|now left].
      apply NChild with (l := Tau); [|now left]. apply NChild with (l := Shut); [|now right]. apply SrcCancel. }
    eapply ECons. { apply NChild with (l := Tau); [|now left]. apply NChild with (l := Tau); [|now left].
      apply NChild with (l := Tau); [|now left]. apply NEof. reflexivity. }
    eapply ECons. { apply NChild with (l := Tau); [|now left]. apply NChild with (l := Tau); [|now left].
      apply NChild with (l := Shut); [|now right]. apply NReturn. }
    apply ENil.
  - reflexivity.
  - reflexivity.
  - intros c l s' A. apply step_inv in A. destruct A as [(l0 & ch' & A & Q & _)|[]].
    apply step_inv in A. destruct A as [(l1 & ch1 & A & _)|[(-> & _)|[(_ & A & _)|(_ & A & _)]]].
    + revert A. now apply all_closed_stuck.
    + destruct Q; discriminate.
    + discriminate A.
    + discriminate A.
Qed.

(** What holds of C40: a query with ORDER BY that is not cancelled from
    outside - also under LIMIT, which cancels it from inside - releases all
    its goroutines. *)
Theorem C40_uncancelled_partial : forall row (q : query row) t s,
  limits_ok q -> exec (query_sys q) t s -> uncancelled t -> finished false s -> all_closed s = true.
Proof. intros row q t s. apply C39_all_goroutines_return. Qed.

(** A concrete query: ORDER BY over a filter, LIMIT 2, chained with a plugin. *)
Definition q_example : query Z :=
  QStatement (QSelect (Clauses (fun z => if (z >? 1)%Z then Some z else None) None (Some (fun l => rev l)) (Some 2%Z))
    (QChain [QPlugin [3; 1; 2]%Z; QStored (QSelect (Clauses keep None None (Some 1%Z)) (QPlugin [7; 8]%Z))])).

Example q_example_meets : limits_ok q_example /\ answer q_example = [7; 2]%Z.
Proof. split; [|reflexivity]. simpl. repeat split; auto; intros; auto; left; discriminate. Qed.

Print Assumptions C39_prefix_until_cancelled.
Print Assumptions C39_complete.
Print Assumptions C39_every_execution_ends.
Print Assumptions C39_closed_once.
Print Assumptions C39_closed_only_by_close.
Print Assumptions C39_all_goroutines_return.
Print Assumptions C39_cancel_releases_all.
Print Assumptions C39_statement_cancels_alone.
Print Assumptions C39_subsequence_partial.
Print Assumptions C39_prefix_refuted.
Print Assumptions C34_chain.
Print Assumptions C40_refuted.
Print Assumptions C40_only_feeders_left_partial.
Print Assumptions C40_uncancelled_partial.
