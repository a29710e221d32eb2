(** Queries used as values: property C91. *)

From Coq Require Import List Bool ZArith Lia.
From Verif Require Import Pipeline PipelineProofs PipelineProps QueryValue.
Import ListNotations.

(** * Specification

    [answer q] (PipelineProps.v) are the rows that [q] stands for. *)

(** Is there a row? *)
Definition some_row {row} (l : list row) : bool := match l with [] => false | _ => true end.

(** Row number [n], counted from 0; without such a row, or when what is looked
    up is not an integer, the list of the members of the rows that have one. *)
Definition row_number {row} (n : option Z) (member : row -> option row) (l : list row) : result row :=
  match (match n with
         | Some k => if (k <? 0)%Z then None else nth_error l (Z.to_nat k)
         | None => None
         end) with
  | Some r => One r
  | None => Many (flat_map (fun r => match member r with Some x => [x] | None => [] end) l)
  end.

(** The caller is never cancelled. *)
Definition never (t : list bool) : Prop := Forall (fun c => c = false) t.
(** Nothing can happen any more as long as the context of the caller stays as
    it is. *)
Definition over {row} {R : reader row} (c : bool) (u : use (row:=row) R) : Prop := forall u', ~ use_step c u u'.

(** * Proofs *)

Section Q.
Context {row : Type}.

(** What a reader makes of the rows [l]. *)
Fixpoint consume (R : reader row) (s : rst R) (l : list row) : result row :=
  match l with
  | [] => r_end R s
  | r :: l' => match r_row R s r with inl s' => consume R s' l' | inr v => v end
  end.

Definition outcome {R : reader row} (u : use R) : result row :=
  match u_pc u with Asking s => consume R s (den (u_query u)) | Answered v => v end.

Lemma query_ctx_asking : forall (R : reader row) c (s : rst R), detached R = true \/ c = false ->
  query_ctx c (Asking (R:=R) s) = false.
Proof.
  intros R c s H. unfold query_ctx. rewrite andb_false_r, orb_false_r.
  destruct H as [-> | ->]; [reflexivity|apply andb_false_r].
Qed.

Lemma step_outcome : forall (R : reader row) c (u u' : use R), use_step c u u' ->
  detached R = true \/ c = false -> outcome u' = outcome u.
Proof.
  intros R c u u' H D. destruct H as [s q r q' A|s q C|p q l q' A Q]; unfold outcome; cbn [u_pc u_query].
  - rewrite (query_ctx_asking R c s D) in A. rewrite (step_den _ _ _ _ A eq_refl). cbn [emits app consume].
    unfold read. now destruct (r_row R s r).
  - now rewrite (den_closed _ C).
  - destruct p as [s|v]; [|reflexivity]. rewrite (query_ctx_asking R c s D) in A.
    rewrite (step_den _ _ _ _ A eq_refl). destruct Q as [-> | ->]; reflexivity.
Qed.

Lemma uses_outcome : forall (R : reader row) (u u' : use R) t, uses u t u' ->
  detached R = true \/ never t -> outcome u' = outcome u.
Proof.
  intros R u u' t H. induction H as [u|u c u' t u'' A _ IH]; intros D; [reflexivity|].
  rewrite IH; [|destruct D as [D|D]; [now left|right; now inversion D]].
  apply (step_outcome R c); auto. destruct D as [D|D]; [now left|right; now inversion D].
Qed.

Lemma result_of : forall (R : reader row) q t v s, uses (use_of R q) t (Use (Answered v) s) ->
  detached R = true \/ never t -> v = consume R (r_init R) (answer q).
Proof.
  intros R q t v s H D. pose proof (uses_outcome R _ _ _ H D) as E. unfold outcome, use_of in E.
  cbn [u_pc u_query] in E. now rewrite den_query in E.
Qed.

Lemma consume_index : forall n member (l : list row) i acc, (0 <= i)%Z ->
  consume (index_reader n member) (i, acc) l =
  match (match n with
         | Some k => if (k <? i)%Z then None else nth_error l (Z.to_nat (k - i))
         | None => None
         end) with
  | Some r => One r
  | None => Many (acc ++ flat_map (fun r => match member r with Some x => [x] | None => [] end) l)
  end.
Proof.
  intros n member l. induction l as [|r l IH]; intros i acc I.
  - simpl. rewrite app_nil_r. destruct n as [k|]; [|reflexivity]. destruct (k <? i)%Z; [reflexivity|].
    now destruct (Z.to_nat (k - i)).
  - cbn [consume index_reader r_row]. destruct n as [k|].
    + destruct (Z.eqb_spec i k) as [->|N].
      * rewrite Z.ltb_irrefl, Z.sub_diag. reflexivity.
      * specialize (IH (i + 1)%Z). cbn [index_reader rst] in IH. rewrite IH by lia.
        destruct (Z.ltb_spec k (i + 1)), (Z.ltb_spec k i); try lia.
        -- cbn [flat_map]. now rewrite app_assoc.
        -- replace (Z.to_nat (k - i)) with (S (Z.to_nat (k - (i + 1)))) by lia. cbn [nth_error flat_map].
           now rewrite app_assoc.
    + specialize (IH (i + 1)%Z). cbn [index_reader rst] in IH. rewrite IH by lia. cbn [flat_map].
      now rewrite app_assoc.
Qed.

Lemma consume_column : forall (field : row -> row) l acc,
  consume (column_reader field) acc l = Many (acc ++ map field l).
Proof.
  intros field l. induction l as [|r l IH]; intros acc; cbn [consume column_reader r_row r_end map].
  - now rewrite app_nil_r.
  - specialize (IH (acc ++ [field r])). cbn [column_reader rst] in IH. now rewrite IH, <- app_assoc.
Qed.

Lemma consume_list : forall (f : row -> list row) l acc,
  consume (list_reader f) acc l = Many (acc ++ flat_map f l).
Proof.
  intros f l. induction l as [|r l IH]; intros acc; cbn [consume list_reader r_row r_end flat_map].
  - now rewrite app_nil_r.
  - specialize (IH (acc ++ f r)). cbn [list_reader rst] in IH. now rewrite IH, <- app_assoc.
Qed.

Lemma consume_sum : forall (l acc : list row), consume sum_reader acc l = Many (acc ++ l).
Proof.
  intros l. induction l as [|r l IH]; intros acc; cbn [consume sum_reader r_row r_end].
  - now rewrite app_nil_r.
  - specialize (IH (acc ++ [r])). cbn [sum_reader rst] in IH. now rewrite IH, <- app_assoc.
Qed.

(** ** The answers, whatever the schedule *)

Theorem C91_truth : forall (q : query row) t v s,
  uses (use_of truth_reader q) t (Use (Answered v) s) -> never t -> v = Truth (some_row (answer q)).
Proof.
  intros q t v s H N. rewrite (result_of _ q t v s H (or_intror N)). now destruct (answer q).
Qed.

Theorem C91_list : forall (f : row -> list row) (q : query row) t v s,
  uses (use_of (list_reader f) q) t (Use (Answered v) s) -> never t -> v = Many (flat_map f (answer q)).
Proof.
  intros f q t v s H N. rewrite (result_of _ q t v s H (or_intror N)). apply consume_list.
Qed.

(** Indexing, columns and sums run under a context of their own: cancelling the
    caller does not change them. *)
Theorem C91_index : forall n member (q : query row) t v s,
  uses (use_of (index_reader n member) q) t (Use (Answered v) s) -> v = row_number n member (answer q).
Proof.
  intros n member q t v s H. rewrite (result_of _ q t v s H (or_introl eq_refl)).
  cbn [index_reader r_init]. pose proof (consume_index n member (answer q) 0%Z [] (Z.le_refl 0)) as E.
  cbn [index_reader rst] in E. unfold row_number. etransitivity; [exact E|].
  destruct n as [k|]; [|reflexivity]. now rewrite Z.sub_0_r.
Qed.

Theorem C91_column : forall (field : row -> row) (q : query row) t v s,
  uses (use_of (column_reader field) q) t (Use (Answered v) s) -> v = Many (map field (answer q)).
Proof.
  intros field q t v s H. rewrite (result_of _ q t v s H (or_introl eq_refl)). apply consume_column.
Qed.

Theorem C91_sum : forall (q : query row) t v s,
  uses (use_of sum_reader q) t (Use (Answered v) s) -> v = Many (answer q).
Proof.
  intros q t v s H. rewrite (result_of _ q t v s H (or_introl eq_refl)). apply consume_sum.
Qed.

(** ** There is always an answer *)

Theorem C91_no_endless_use : forall (R : reader row) (q : query row),
  ~ exists f : nat -> use R, f 0 = use_of R q /\ forall n, exists c, use_step c (f n) (f (S n)).
Proof.
  intros R q (f & _ & A).
  (* the query cannot go on for ever, and the reader steps alone at most once *)
  assert (G : forall s, SN s -> forall n p, f n = Use p s -> False).
  { intros s S. induction S as [s _ IH].
    assert (An : forall n v, f n = Use (Answered v) s -> False).
    { intros n v E. destruct (A n) as (c & H). rewrite E in H. inversion H as [| |? ? l q' B Q]; subst.
      eapply IH; [|symmetry; eassumption]. now exists (query_ctx c (Answered (R:=R) v)), l. }
    intros n p E. destruct (A n) as (c & H). rewrite E in H.
    inversion H as [s0 q0 r q' B|s0 q0 C|p0 q0 l q' B Q]; subst.
    - eapply IH; [|symmetry; eassumption]. now exists (query_ctx c (Asking (R:=R) s0)), (Out r).
    - eapply An. symmetry. eassumption.
    - eapply IH; [|symmetry; eassumption]. now exists (query_ctx c p), l. }
  destruct (f 0) as [p s] eqn:E. exact (G s (all_SN s) 0 p E).
Qed.

Theorem C91_answered_in_the_end : forall (R : reader row) (q : query row) t u c,
  uses (use_of R q) t u -> over c u -> exists v, u_pc u = Answered v.
Proof.
  intros R q t [p s] c _ F. destruct p as [x|v]; [|now exists v]. exfalso.
  destruct (is_closed s) eqn:C.
  - eapply F. apply UEnd. exact C.
  - destruct (progress s (query_ctx c (Asking (R:=R) x)) C) as (l & s' & A). destruct l.
    + eapply F. eapply UQuery; [exact A|auto].
    + eapply F. eapply URow. exact A.
    + eapply F. eapply UQuery; [exact A|auto].
Qed.

(** ** What is left behind *)

Lemma uses_snoc : forall (R : reader row) (u u' : use R) t, uses u t u' ->
  forall (P : use R -> Prop), P u -> (forall c a b, use_step c a b -> In c t -> P a -> P b) -> P u'.
Proof.
  intros R u u' t H. induction H as [u|u c u' t u'' A _ IH]; intros P P0 S; [exact P0|].
  apply IH; [eapply S; [exact A|now left|exact P0]|]. intros c' a b St I. eapply S; [exact St|now right].
Qed.

(** The state of the query while its context is alive, and after. *)
Definition kept {R : reader row} (u : use R) : Prop :=
  hyg (u_query u) /\
  match u_pc u with
  | Asking _ => inv false (u_query u) /\ (cancels R = true -> ready (u_query u))
  | Answered _ => inv (cancels R) (u_query u)
  end.

Lemma kept_step : forall (R : reader row) c (a b : use R), use_step c a b ->
  detached R = true \/ c = false -> kept a -> kept b.
Proof.
  intros R c a b H D (G & K). destruct H as [s q r q' A|s q C|p q l q' A Q]; unfold kept; cbn [u_pc u_query] in *.
  - rewrite (query_ctx_asking R c s D) in A. split; [eapply hyg_step; eauto|]. destruct K as (I & Rd).
    assert (I' : inv false q') by (eapply inv_step; eauto).
    unfold read. destruct (r_row R s r) as [s'|v].
    + split; auto. intros X. eapply ready_step; eauto.
    + destruct (cancels R) eqn:X; auto. eapply out_inv; eauto.
  - split; auto. destruct K as (I & _). destruct (cancels R); auto. now apply closed_inv.
  - split; [eapply hyg_step; eauto|]. destruct p as [s|v].
    + rewrite (query_ctx_asking R c s D) in A. destruct K as (I & Rd). split; [eapply inv_step; eauto|].
      intros X. eapply ready_step; eauto.
    + eapply inv_step; eauto. unfold query_ctx. rewrite andb_true_r. intros X.
      apply orb_true_iff in X. destruct X as [X|X]; auto.
      apply andb_true_iff in X. destruct X as (X & Y). destruct D as [D|D]; [rewrite D in X; discriminate|congruence].
Qed.

Lemma kept_use : forall (R : reader row) q t u, uses (use_of R q) t u -> detached R = true \/ never t ->
  limits_ok q -> (cancels R = true -> abandonable q) -> kept u.
Proof.
  intros R q t u H D L Ab. apply (uses_snoc R _ _ _ H kept).
  - unfold kept, use_of. cbn [u_pc u_query]. split; [now apply hyg_query|]. split; [apply inv_fresh|].
    intros X. now apply abandonable_ready, Ab.
  - intros c a b St I K. eapply kept_step; eauto. destruct D as [D|D]; [now left|right].
    unfold never in D. rewrite Forall_forall in D. now apply D.
Qed.

Lemma over_alone : forall (R : reader row) c v (s : sys row), over c (Use (Answered (R:=R) v) s) ->
  forall l s', step (query_ctx c (Answered (R:=R) v)) s l s' -> ~ quiet l.
Proof. intros R c v s F l s' A Q. eapply F. eapply UQuery; eauto. Qed.

(** A use that reads to the end leaves nothing: lists, columns, sums. *)
Definition reads_all (R : reader row) : Prop := forall s r, exists s', r_row R s r = inl s'.

Lemma answered_closed : forall (R : reader row) q t v s, reads_all R ->
  uses (use_of R q) t (Use (Answered v) s) -> is_closed s = true.
Proof.
  intros R q t v s A H.
  apply (uses_snoc R _ _ _ H (fun u => match u_pc u with Answered _ => is_closed (u_query u) = true | _ => True end)).
  - exact I.
  - intros c a b St _ K. destruct St as [x q0 r q' B|x q0 C|p q0 l q' B Q]; cbn [u_pc u_query] in *.
    + destruct (A x r) as (x' & ->). exact I.
    + exact C.
    + destruct p; auto. now apply (closed_step _ _ _ _ B).
Qed.

Lemma all_read_released : forall (R : reader row) q t u, reads_all R -> cancels R = false ->
  uses (use_of R q) t u -> detached R = true \/ never t -> limits_ok q ->
  forall c, detached R = true \/ c = false -> over c u -> all_closed (u_query u) = true.
Proof.
  intros R q t u A X H D L c Dc F.
  destruct (C91_answered_in_the_end R q t u c H F) as (v & E). destruct u as [p s]. cbn [u_pc u_query] in *. subst p.
  assert (K : kept (Use (Answered (R:=R) v) s)).
  { eapply kept_use; eauto. rewrite X. discriminate. }
  destruct K as (_ & K). cbn [u_pc u_query] in K. rewrite X in K.
  apply (stuck_closed s false K).
  - right. eapply answered_closed; eauto.
  - intros l s' B. eapply over_alone; [exact F|]. unfold query_ctx. rewrite X. cbn [andb].
    rewrite orb_false_r. destruct Dc as [-> | ->]; [exact B|now rewrite andb_false_r].
Qed.

Theorem C91_list_leaves_nothing : forall (f : row -> list row) (q : query row) t u,
  limits_ok q -> uses (use_of (list_reader f) q) t u -> never t -> over false u ->
  all_closed (u_query u) = true.
Proof.
  intros f q t u L H N F. eapply (all_read_released (list_reader f)); eauto. intros s r. now eexists.
Qed.

Theorem C91_column_leaves_nothing : forall (field : row -> row) (q : query row) t u c,
  limits_ok q -> uses (use_of (column_reader field) q) t u -> over c u ->
  all_closed (u_query u) = true.
Proof.
  intros field q t u c L H F.
  apply (all_read_released (column_reader field) q t u) with (c := c); auto. intros s r. now eexists.
Qed.

Theorem C91_sum_leaves_nothing : forall (q : query row) t u c,
  limits_ok q -> uses (use_of sum_reader q) t u -> over c u -> all_closed (u_query u) = true.
Proof.
  intros q t u c L H F.
  apply (all_read_released sum_reader q t u) with (c := c); auto. intros s r. now eexists.
Qed.

(** Indexing cancels the query, which ends all of it unless an ORDER BY stands
    below a chain(). *)
Theorem C91_index_leaves_nothing_partial : forall n member (q : query row) t u c,
  limits_ok q -> abandonable q -> uses (use_of (index_reader n member) q) t u -> over c u ->
  all_closed (u_query u) = true.
Proof.
  intros n member q t u c L Ab H F.
  destruct (C91_answered_in_the_end _ q t u c H F) as (v & E). destruct u as [p s]. cbn [u_pc u_query] in *. subst p.
  assert (K : kept (Use (Answered (R:=index_reader n member) v) s)).
  { eapply kept_use; eauto. }
  destruct K as (_ & K). cbn [u_pc u_query index_reader cancels] in K.
  apply (stuck_closed s true K); [now left|]. exact (over_alone _ _ _ _ F).
Qed.

(** Asking for the truth of a query ends it only if it has no second row: the
    goroutines of any longer query are left behind, blocked until the context
    of the caller is cancelled. *)
Theorem C91_truth_leaves_goroutines : forall (q : query row) t u,
  limits_ok q -> uses (use_of truth_reader q) t u -> never t -> over false u ->
  (all_closed (u_query u) = true <-> List.length (answer q) <= 1).
Proof.
  intros q t u L H N F.
  destruct (C91_answered_in_the_end _ q t u false H F) as (v & E). destruct u as [p s]. cbn [u_pc u_query] in *. subst p.
  assert (K : kept (Use (Answered (R:=truth_reader) v) s)).
  { eapply kept_use; eauto. discriminate. }
  destruct K as (_ & K). cbn [u_pc u_query truth_reader cancels] in K.
  pose proof (over_alone _ _ _ _ F) as St. unfold query_ctx in St. cbn [truth_reader detached cancels negb andb orb] in St.
  assert (D : den s = tl (answer q)).
  { assert (P : match u_pc (Use (Answered (R:=truth_reader) v) s) with
                | Asking _ => den s = answer q
                | Answered _ => den s = tl (answer q) end); [|exact P].
    apply (uses_snoc truth_reader _ _ _ H (fun u =>
      match u_pc u with Asking _ => den (u_query u) = answer q | Answered _ => den (u_query u) = tl (answer q) end)).
    - cbn [use_of u_pc u_query]. apply den_query.
    - intros c a b B I K'. unfold never in N. rewrite Forall_forall in N. rewrite (N _ I) in B.
      destruct B as [x q0 r q' B|x q0 C|p q0 l q' B Q]; cbn [u_pc u_query truth_reader r_row read] in *.
      + unfold query_ctx in B. cbn in B. rewrite (step_den _ _ _ _ B eq_refl) in K'. now rewrite <- K'.
      + rewrite <- K', (den_closed _ C). reflexivity.
      + assert (B' : step false q0 l q') by (destruct p; exact B). pose proof (step_den _ _ _ _ B' eq_refl) as X.
        destruct Q as [-> | ->]; cbn [emits app] in X; rewrite X in K'; exact K'. }
  split.
  - intros A. apply all_closed_closed, den_closed in A. rewrite A in D.
    destruct (answer q) as [|r [|r' l]]; simpl in *; try lia. discriminate.
  - intros A. assert (Z : den s = []) by (rewrite D; destruct (answer q) as [|r [|r' l]]; simpl in *; auto; lia).
    apply (stuck_closed s false K); [right|exact St].
    destruct (is_closed s) eqn:C; auto. exfalso. destruct (progress s false C) as (l & s' & B).
    destruct l as [|r|]; [eapply St; [exact B|now left]| |eapply St; [exact B|now right]].
    rewrite (step_den _ _ _ _ B eq_refl) in Z. discriminate.
Qed.

(** Cancelling the caller ends them, if no ORDER BY is involved. *)
Theorem C91_truth_cancelled_partial : forall (q : query row) t u,
  no_order q -> uses (use_of truth_reader q) t u -> over true u -> all_closed (u_query u) = true.
Proof.
  intros q t u N H F.
  destruct (C91_answered_in_the_end _ q t u true H F) as (v & E). destruct u as [p s]. cbn [u_pc u_query] in *. subst p.
  assert (K : hyg s /\ inv true s).
  { apply (uses_snoc truth_reader _ _ _ H (fun u => hyg (u_query u) /\ inv true (u_query u))).
    - cbn [use_of u_query]. split; [now apply hyg_query, no_order_limits_ok|].
      apply polite_inv; [now apply no_order_polite|apply inv_fresh].
    - intros c a b B _ (G & I). destruct B as [x q0 r q' B|x q0 C|p q0 l q' B Q]; cbn [u_query] in *; auto;
        (split; [eapply hyg_step; eauto|eapply inv_step; eauto]). }
  apply (stuck_closed s true (proj2 K)); [now left|]. exact (over_alone _ _ _ _ F).
Qed.

End Q.

(** ** Refutations *)

(** A query of two rows is left behind by the question whether it has one. *)
Theorem C91_truth_abandons_refuted : exists (q : query Z) t u,
  limits_ok q /\ uses (use_of truth_reader q) t u /\ never t /\ over false u /\
  u_pc u = Answered (Truth true) /\ all_closed (u_query u) = false.
Proof.
  exists (QPlugin [1; 2]%Z), [false], (Use (Answered (Truth true)) (Source true [2%Z] false)).
  split; [exact I|]. split; [|split; [|split; [|split; reflexivity]]].
  - eapply UCons; [|apply UNil]. apply (URow (R:=truth_reader) false tt _ 1%Z). apply SrcSend.
  - now constructor.
  - intros u' H. inversion H as [| |? ? l q' B Q]; subst. apply step_inv in B. destruct B as (_ & B).
    destruct B as [(r & rs & E & -> & _)|[(E & _)|(E & _)]]; try discriminate. destruct Q; discriminate.
Qed.

(** An ORDER BY that a chain() has not reached yet is left behind by indexing. *)
Lemma order_cancelled : exists t s,
  exec (query_sys q_order) t s /\ Forall (fun e => fst e = true /\ quiet (snd e)) t /\ is_closed s = true /\
  all_closed s = false /\ (forall c l s', ~ step c s l s').
Proof.
  exists [(true, Tau); (true, Tau); (true, Tau);
          (true, Tau); (true, Shut);
          (true, Tau); (true, Tau); (true, Tau); (true, Tau); (true, Tau); (true, Tau); (true, Tau)].
  eexists. split; [|split; [|split; [|split]]].
  - eapply ECons. { apply NChild with (l := Tau); [|now left]. apply NChild with (l := Tau); [|now left].
      apply NChild with (l := Tau); [|now left]. apply NRecv, SrcSend. }
    eapply ECons. { apply NChild with (l := Tau); [|now left]. apply NChild with (l := Tau); [|now left].
      apply NRecv. apply NSend. }
    eapply ECons. { apply NChild with (l := Tau); [|now left]. apply NRecv. apply NSend. }
    eapply ECons. { apply NCancelRecv. reflexivity. }
    eapply ECons. { apply NReturn. }
    eapply ECons. { apply NChild with (l := Tau); [|now left]. apply NChild with (l := Tau); [|now left].
      apply NSent. }
    eapply ECons. { apply NChild with (l := Tau); [|now left]. apply NChild with (l := Tau); [|now left].
      apply NCancelRecv. reflexivity. }
    eapply ECons. { apply NChild with (l := Tau); [|now left]. apply NChild with (l := Shut); [|now right].
      apply NReturn. }
    eapply ECons. { apply NChild with (l := Tau); [|now left]. apply NChild with (l := Tau); [|now left].
      apply NChild with (l := Tau); [|now left]. apply NSent. }
    eapply ECons. { apply NChild with (l := Tau); [|now left]. apply NChild with (l := Tau); [|now left].
      apply NChild with (l := Tau); [|now left]. apply NChild with (l := Shut); [|now right]. apply SrcCancel. }
    eapply ECons. { apply NChild with (l := Tau); [|now left]. apply NChild with (l := Tau); [|now left].
      apply NChild with (l := Tau); [|now left]. apply NEof. reflexivity. }
    eapply ECons. { apply NChild with (l := Tau); [|now left]. apply NChild with (l := Tau); [|now left].
      apply NChild with (l := Shut); [|now right]. apply NReturn. }
    apply ENil.
  - repeat (constructor; [split; [reflexivity|solve [now left|now right]]|]). constructor.
  - reflexivity.
  - reflexivity.
  - intros c l s' A. apply step_inv in A. destruct A as [(l0 & ch' & A & Q & _)|[]].
    apply step_inv in A. destruct A as [(l1 & ch1 & A & _)|[(-> & _)|[(_ & A & _)|(_ & A & _)]]].
    + revert A. now apply all_closed_stuck.
    + destruct Q; discriminate.
    + discriminate A.
    + discriminate A.
Qed.

Theorem C91_index_abandons_refuted : exists (q : query Z) t u,
  limits_ok q /\ uses (use_of (index_reader (Some 0%Z) (fun _ => None)) q) t u /\ over true u /\
  u_pc u = Answered (One 0%Z) /\ all_closed (u_query u) = false.
Proof.
  set (R := index_reader (Some 0%Z) (fun _ : Z => None)).
  destruct order_cancelled as (t & s & E & Q & C & A & F).
  assert (L : forall (a b : sys Z) l v old, exec a l b -> Forall (fun e => fst e = true /\ quiet (snd e)) l ->
    forall u t', uses (Use (Answered (R:=R) v) (Chain old (Some b) None [] false)) t' u ->
    uses (Use (Answered (R:=R) v) (Chain old (Some a) None [] false)) (map (fun _ => true) l ++ t') u).
  { intros a b l v old X. induction X as [x|x c lb x' l x'' St _ IH]; intros Y u t' U; [exact U|].
    inversion Y as [|? ? (Y1 & Y2) Y3]; subst. cbn [fst snd] in *. subst c. cbn [map app].
    eapply UCons; [|apply IH; eauto]. eapply (UQuery (R:=R)) with (l := Tau); [|now left].
    eapply CChild; [|exact Y2]. exact St. }
  set (c0 := Source true ([] : list Z) true).
  exists (QChain [QPlugin [0%Z]; q_order]),
    ([true; true; true; true; true; true] ++ map (fun _ => true) t ++ [true; true]),
    (Use (Answered (One 0%Z)) (Chain [s; c0] None None [] true)).
  split; [cbn; tauto|]. split; [|split; [|split; [reflexivity|cbn; now rewrite A]]].
  - eapply UCons; [eapply (UQuery (R:=R)); [apply CStart|now left]|].
    eapply UCons; [eapply (UQuery (R:=R)); [apply CRecv, SrcSend|now left]|].
    eapply UCons; [apply (URow (R:=R) true (0%Z, []) _ 0%Z); apply CSend|].
    eapply UCons; [eapply (UQuery (R:=R)) with (l := Tau); [eapply CChild; [apply SrcEnd|now right]|now left]|].
    eapply UCons; [eapply (UQuery (R:=R)); [apply CNext; reflexivity|now left]|].
    eapply UCons; [eapply (UQuery (R:=R)); [apply CStart|now left]|].
    eapply L; [exact E|exact Q|].
    eapply UCons; [eapply (UQuery (R:=R)); [apply CNext; exact C|now left]|].
    eapply UCons; [eapply (UQuery (R:=R)); [apply CEnd|now right]|]. apply UNil.
  - intros u' H. inversion H as [| |? ? l q' B Ql]; subst. apply step_inv in B.
    destruct B as [(a & x & b & l0 & x0 & E0 & B & _)|[(x & l0 & x0 & E0 & _)|(E0 & _)]]; try discriminate.
    destruct a as [|a0 [|a1 [|]]]; injection E0 as; subst; try discriminate.
    + eapply F; eauto.
    + revert B. now apply all_closed_stuck.
Qed.

(** When the caller is cancelled a query of two rows may count as false and as
    an empty list. *)
Theorem C91_cancelled_answer_refuted : exists (q : query Z) t s t' s',
  answer q = [1; 2]%Z /\
  uses (use_of truth_reader q) t (Use (Answered (Truth false)) s) /\
  uses (use_of (list_reader (fun r => [r])) q) t' (Use (Answered (Many [])) s').
Proof.
  exists (QPlugin [1; 2]%Z), [true; true], (Source true [1; 2]%Z true), [true; true], (Source true [1; 2]%Z true).
  split; [reflexivity|]. split.
  - eapply UCons; [eapply UQuery; [apply SrcCancel|now right]|].
    eapply UCons; [|apply UNil]. apply (UEnd (R:=truth_reader) true tt). reflexivity.
  - eapply UCons; [eapply UQuery; [apply SrcCancel|now right]|].
    eapply UCons; [|apply UNil]. apply (UEnd (R:=list_reader (fun r => [r])) true []). reflexivity.
Qed.

(** ** A case *)

(** Row 1 of a filtered plugin, read under a caller that was cancelled at the
    start. *)
Definition q_case : query Z :=
  QStored (QSelect (Clauses (fun z => if (z >? 1)%Z then Some z else None) None None None) (QPlugin [1; 5; 7; 9]%Z)).

Example q_case_meets :
  limits_ok q_case /\ abandonable q_case /\ no_order q_case /\ answer q_case = [5; 7; 9]%Z /\
  row_number (Some 1%Z) (fun _ => None) (answer q_case) = One 7%Z /\
  row_number (Some 3%Z) (fun z => Some (z + 1)%Z) (answer q_case) = Many [6; 8; 10]%Z /\
  row_number (Some (-1)%Z) (fun _ => None) (answer q_case) = Many [] /\
  some_row (answer q_case) = true.
Proof. vm_compute. repeat split; auto; right; auto. Qed.

(** A run that answers: rows 0 and 1 are read, then the plugin is cancelled. *)
Example index_run : exists t s,
  uses (use_of (index_reader (Some 1%Z) (fun _ => None)) (QPlugin [4; 5; 6]%Z)) t (Use (Answered (One 5%Z)) s) /\
  all_closed s = true.
Proof.
  set (R := index_reader (Some 1%Z) (fun _ : Z => None)).
  exists [true; true; true], (Source true [6%Z] true). split; [|reflexivity].
  eapply UCons; [apply (URow (R:=R) true (0%Z, []) _ 4%Z); apply SrcSend|].
  eapply UCons; [apply (URow (R:=R) true (1%Z, []) _ 5%Z); apply SrcSend|].
  eapply UCons; [|apply UNil]. eapply (UQuery (R:=R)); [apply SrcCancel|now right].
Qed.

Print Assumptions C91_truth.
Print Assumptions C91_list.
Print Assumptions C91_index.
Print Assumptions C91_column.
Print Assumptions C91_sum.
Print Assumptions C91_no_endless_use.
Print Assumptions C91_answered_in_the_end.
Print Assumptions C91_list_leaves_nothing.
Print Assumptions C91_column_leaves_nothing.
Print Assumptions C91_sum_leaves_nothing.
Print Assumptions C91_index_leaves_nothing_partial.
Print Assumptions C91_truth_leaves_goroutines.
Print Assumptions C91_truth_cancelled_partial.
Print Assumptions C91_truth_abandons_refuted.
Print Assumptions C91_cancelled_answer_refuted.
Print Assumptions C91_index_abandons_refuted.
