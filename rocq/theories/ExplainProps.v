(** C79: EXPLAIN adds messages and changes nothing else. *)

From Coq Require Import ZArith List String Ascii Bool Lia PeanoNat.
From Verif Require Import Base BaseProofs F64 Value Protocols Monad Chains Range Flatten ArgParser Syntax
  Eval GoSort Runs Para Evolve PureSpec PureEval PureSelect SelectProps Demo Explain.
Import ListNotations.
Open Scope nat_scope.
Open Scope string_scope.
Open Scope list_scope.

(** ** Specification *)

(** [more] is [less] with messages put in between. *)
Inductive with_messages : list val -> list val -> Prop :=
| wm_nil : with_messages [] []
| wm_same : forall v less more, with_messages less more -> with_messages (v :: less) (v :: more)
| wm_message : forall kind what less more, with_messages less more ->
    with_messages less (message kind what :: more).

(** Two states that differ in messages only. *)
Record but_messages (s s' : st) : Prop := {
  bm_heap : heap s' = heap s;
  bm_split : split_nodes s' = split_nodes s;
  bm_funs : node_funs s' = node_funs s;
  bm_cells : cells s' = cells s;
  bm_ctxs : ctxs s' = ctxs s;
  bm_id : next_id s' = next_id s;
  bm_trace : with_messages (trace s) (trace s')
}.

(** The explainer read a row whose reading may evaluate something: a list, a
    query or a row of lazy columns that a plugin sent. *)
Definition read_deeply (s : st) : Prop :=
  exists row, In (message "reads" row) (trace s) /\ forall d, row <> VDict d.

(** ** Proof: an instance of Para.v *)

Lemma but_messages_refl : forall s, but_messages s s.
Proof. intros s. constructor; auto. induction (trace s); constructor; auto. Qed.

Definition obs (A : Type) (m m' : EM A) : Prop :=
  (forall s, exists l, trace (fst (m' s)) = l ++ trace s) /\
  forall s s', but_messages s s' ->
    read_deeply (fst (m' s')) \/
    (but_messages (fst (m s)) (fst (m' s')) /\ snd (m' s') = snd (m s)).

Lemma deep_grows : forall s s' l, trace s' = l ++ trace s -> read_deeply s -> read_deeply s'.
Proof.
  intros s s' l E (row & HI & HD). exists row. split; [|exact HD]. rewrite E. apply in_or_app. now right.
Qed.

Lemma obs_bind : forall A B (m m' : EM A) (f f' : A -> EM B),
  obs A m m' -> (forall a, obs B (f a) (f' a)) -> obs B (mbind m f) (mbind m' f').
Proof.
  intros A B m m' f f' [G H] H0. split.
  - intros s. unfold mbind. destruct (G s) as [l El]. destruct (m' s) as [s1 [a| |]]; cbn [fst] in *; eauto.
    destruct (proj1 (H0 a) s1) as [l2 E2]. exists (l2 ++ l). rewrite E2, El. apply app_assoc.
  - intros s s' HS. unfold mbind. specialize (H s s' HS).
    destruct (m s) as [s1 o], (m' s') as [s1' o']; cbn [fst snd] in *.
    destruct H as [H|[H HO]].
    + left. destruct o' as [a| |]; cbn [fst]; try exact H.
      destruct (proj1 (H0 a) s1') as [l2 E2]. eapply deep_grows; eauto.
    + subst o'. destruct o as [a| |]; cbn [fst snd]; [apply H0; exact H|right; auto|right; auto].
Qed.

(** Operations that read and write the state other than the trace. *)
Lemma obs_prim : forall A (m : EM A),
  (forall s, trace (fst (m s)) = trace s) ->
  (forall s s', but_messages s s' -> but_messages (fst (m s)) (fst (m s')) /\ snd (m s') = snd (m s)) ->
  obs A m m.
Proof.
  intros A m H1 H2. split.
  - intros s. exists []. rewrite H1. reflexivity.
  - intros s s' HS. right. now apply H2.
Qed.

Ltac bm := intros; match goal with H : but_messages ?s ?s' |- _ =>
  destruct H as [h1 h2 h3 h4 h5 h6 h7], s, s'; cbn in *; subst end;
  split; [constructor; cbn; auto|auto].

Lemma obs_row_get : forall R R' n k, (forall g, obs _ (run_getter R g) (run_getter R' g)) ->
  obs _ (row_get R n k) (row_get R' n k).
Proof.
  intros R R' n k H. unfold row_get.
  assert (O : forall v, obs _ (obj_of v) (obj_of v)).
  { intros v. apply obs_prim; [reflexivity|]. bm. }
  assert (U : forall n o, obs _ (update_obj n o) (update_obj n o)).
  { intros m o. apply obs_prim; [reflexivity|]. bm. }
  assert (RT : forall A (a : A), obs A (mret a) (mret a)).
  { intros. apply obs_prim; [reflexivity|]. intros. split; auto. }
  apply obs_bind; [apply O|]. intros [[]|]; try apply RT.
  destruct (assoc k cache); [apply RT|]. destruct (assoc k getters) as [g|]; [|apply RT].
  apply obs_bind; [apply H|]. intros v. apply obs_bind; [apply O|].
  intros [[]|]; try apply RT. apply obs_bind; [apply U|]. intros. apply RT.
Qed.

Lemma obs_closed : closed obs.
Proof.
  constructor.
  - intros. apply obs_prim; [reflexivity|]. intros. split; auto.
  - intros. apply obs_prim; [reflexivity|]. intros. split; auto.
  - apply obs_bind.
  - intros. apply obs_prim; [reflexivity|]. bm.
  - intros. apply obs_prim; [reflexivity|]. bm.
  - apply obs_row_get.
  - intros R R' v H. unfold reduce_step.
    assert (RT : forall A (a : A), obs A (mret a) (mret a)).
    { intros. apply obs_prim; [reflexivity|]. intros. split; auto. }
    apply obs_bind; [apply obs_prim; [reflexivity|]; bm|]. intros o.
    destruct v, o as [[]|]; try apply RT.
    destruct cache; [apply RT|]. apply obs_bind; [apply H|]. intros x.
    apply obs_bind; [apply obs_prim; [reflexivity|]; bm|]. intros. apply RT.
  - intros v. split.
    + intros s. exists [v]. reflexivity.
    + intros s s' HS. right. revert HS. bm. now constructor.
  - intros. apply obs_prim; [reflexivity|]. bm.
  - intros. apply obs_prim; [reflexivity|]. bm.
  - intros. apply obs_prim; [reflexivity|]. bm.
  - intros. apply obs_prim; [reflexivity|]. bm.
  - intros. apply obs_prim; [reflexivity|].
    intros s s' HS. destruct HS as [h1 h2 h3 h4 h5 h6 h7], s, s'. cbn in *. subst.
    unfold modify, agg_ctx. cbn. split; [constructor; cbn; auto|reflexivity].
  - intros. apply obs_prim; [reflexivity|]. bm.
  - intros n f. apply obs_prim.
    + intros s. unfold node_function. destruct (nassoc n (node_funs s)) as [[]|]; reflexivity.
    + intros s s' HS. destruct HS as [h1 h2 h3 h4 h5 h6 h7], s, s'. cbn in *. subst.
      unfold node_function. cbn. destruct (nassoc n node_funs) as [[]|]; split; try constructor; cbn; auto.
  - intros n b. apply obs_prim.
    + intros s. unfold split_symbol. destruct (existsb (Nat.eqb n) (split_nodes s)); reflexivity.
    + intros s s' HS. destruct HS as [h1 h2 h3 h4 h5 h6 h7], s, s'. cbn in *. subst.
      unfold split_symbol. cbn. destruct (existsb (Nat.eqb n) split_nodes); split; try constructor; cbn; auto.
Qed.

Lemma then_ : forall A B (m : EM A) (f : A -> EM B) s s1 a, m s = (s1, RVal a) -> mbind m f s = f a s1.
Proof. intros A B m f s s1 a H. unfold mbind. now rewrite H. Qed.

Section Proofs.
  Variable E : env.
  Variable on : scope -> select -> bool.
  Variable show_query : select -> string.
  Variable show_expr : expr -> string.

  Notation CL := obs_closed.

  (** A message more. *)
  Lemma obs_message : forall A kind what (m m' : EM A),
    obs A m m' -> obs A m (observe (message kind what) ;;; m').
  Proof.
    intros A kind what m m' [G H]. split.
    - intros s. unfold mbind, observe. cbn [fst snd]. 
      edestruct G as [l El]. exists (l ++ [message kind what]). rewrite El. cbn. rewrite <- app_assoc. reflexivity.
    - intros s s' HS. unfold mbind, observe. cbn [fst snd]. apply H.
      destruct HS as [h1 h2 h3 h4 h5 h6 h7], s, s'. cbn in *. subst. constructor; cbn; auto. now constructor.
  Qed.

  Section Read.
    Variables R R' : evals.
    Hypothesis RR : related obs R R'.

    Definition fetch (sc : scope) (row : val) (R : evals) (ms : list string) : EM (list (string * val)) :=
      fields <- mmap (fun key => '(v, pres) <- assoc_step E R sc row (KVal (VStr key)) ;;
                                 mret (if pres then [(key, v)] else [])) ms ;;
      mret (List.concat fields).

    Lemma obs_fetch : forall sc row ms, obs _ (fetch sc row R ms) (fetch sc row R' ms).
    Proof.
      intros sc row ms. unfold fetch. apply (cl_bind _ CL); [|intros; apply (cl_ret _ CL)].
      apply (pa_mmap obs CL). intros key. apply (cl_bind _ CL); [apply (pa_assoc_step obs CL E R R' RR)|].
      intros [v pres]. apply (cl_ret _ CL).
    Qed.

    Lemma fetch_dict : forall sc d ms s, exists fields, fetch sc (VDict d) R' ms s = (s, RVal fields).
    Proof.
      intros sc d ms s. unfold fetch.
      assert (H : exists fs, mmap (fun key => '(v, pres) <- assoc_step E R' sc (VDict d) (KVal (VStr key)) ;;
          mret (if pres then [(key, v)] else [])) ms s = (s, RVal fs)).
      { induction ms as [|k ms [fs IH]]; [exists []; reflexivity|].
        cbn [mmap].
        assert (EA : exists v p, assoc_step E R' sc (VDict d) (KVal (VStr k)) s = (s, RVal (v, p))).
        { unfold assoc_step, mbind, obs, mret. cbn [is_nil].
          unfold obj_of. cbn [key_string to_string].
          destruct (assoc_disp [] (VDict d) (KVal (VStr k))) as [v p] eqn:EV.
          exists v, p. reflexivity. }
        destruct EA as (v & p & EA). eexists.
        rewrite (then_ _ _ _ _ s s (if p then [(k, v)] else []));
          [|rewrite (then_ _ _ _ _ s s (v, p)); [reflexivity|exact EA]].
        rewrite (then_ _ _ _ _ s s fs); [reflexivity|exact IH]. }
      destruct H as [fs H]. exists (List.concat fs). rewrite (then_ _ _ _ _ s s fs); [reflexivity|exact H].
    Qed.

    (** Reading a dictionary changes nothing, reading something else is
        marked. *)
    Lemma obs_read : forall A sc row (m : EM A) (f : list (string * val) -> EM A),
      (forall d, obs A m (f d)) -> obs A m (mbind (read_row E R' sc row) f).
    Proof.
      intros A sc row m f H.
      assert (ER : read_row E R' sc row = (ms <- members row ;; mark row ms ;;; fetch sc row R' ms))
        by reflexivity.
      assert (GF : forall ms s, exists l, trace (fst (mbind (fetch sc row R' ms) f s)) = l ++ trace s).
      { intros ms s. unfold mbind. destruct (proj1 (obs_fetch sc row ms) s) as [l1 E1].
        destruct (fetch sc row R' ms s) as [s1 [d| |]]; cbn [fst] in *; eauto.
        destruct (proj1 (H d) s1) as [l2 E2]. exists (l2 ++ l1). rewrite E2, E1. apply app_assoc. }
      assert (FF : forall s, (exists fields, mbind (read_row E R' sc row) f s = f fields s) \/
        exists s1 ms, trace s1 = message "reads" row :: trace s /\ (forall d, row <> VDict d) /\
          mbind (read_row E R' sc row) f s = mbind (fetch sc row R' ms) f s1).
      { intros s. rewrite ER. set (ms := members_of (heap s) row).
        assert (EM : members row s = (s, RVal ms)) by reflexivity.
        assert (EE : forall s1, mark row ms s = (s1, RVal tt) ->
          mbind (ms <- members row ;; mark row ms ;;; fetch sc row R' ms) f s
          = mbind (fetch sc row R' ms) f s1).
        { intros s1 HM. unfold mbind. rewrite EM, HM. reflexivity. }
        assert (D : (exists d, row = VDict d) \/ ms = [] \/ ((forall d, row <> VDict d) /\
                    mark row ms = observe (message "reads" row))).
        { destruct ms as [|k ms']; [auto|]. destruct row; eauto; right; right; (split; [congruence|reflexivity]). }
        destruct D as [[d D]|[D|[D1 D2]]].
        - left. rewrite (EE s) by now rewrite D. 
          destruct (fetch_dict sc d ms s) as [fs EF]. rewrite <- D in EF. exists fs. unfold mbind. now rewrite EF.
        - left. exists []. rewrite (EE s); [unfold mbind; rewrite D; reflexivity|].
          rewrite D. destruct row; reflexivity.
        - right. rewrite D2 in EE. eexists. exists ms. split; [|split; [exact D1|apply EE; reflexivity]].
          reflexivity. }
      split.
      - intros s. destruct (FF s) as [[fs ->]|(s1 & ms & ET & _ & ->)]; [apply H|].
        destruct (GF ms s1) as [l El]. exists (l ++ [message "reads" row]).
        rewrite El, ET, <- app_assoc. reflexivity.
      - intros s s' HS. destruct (FF s') as [[fs ->]|(s1 & ms & ET & HD & ->)]; [now apply H|].
        left. destruct (GF ms s1) as [l El]. exists row. split; [|exact HD].
        rewrite El, ET. apply in_or_app. right. now left.
    Qed.

    Ltac oprim := first [apply (cl_ret _ CL) | apply (re_select _ _ _ RR) | apply (re_expr _ _ _ RR)
      | apply (pa_transform obs CL R R' RR) | apply (pa_accepts obs CL E R R' RR)
      | apply (pa_materialize_row obs CL R R' RR) | apply (pa_sort_rows obs CL E R R' RR)
      | apply (pa_group_rows obs CL E R R' RR)].

    Lemma obs_output : forall A sc row kind (m m' : EM A), obs A m m' ->
      obs A m ((fields <- read_row E R' sc row ;; observe (message kind (VDict fields))) ;;; m').
    Proof.
      intros A sc row kind m m' H.
      assert (K : obs A m (fields <- read_row E R' sc row ;;
                           (observe (message kind (VDict fields)) ;;; m'))).
      { apply obs_read. intros d. now apply obs_message. }
      assert (EQ : forall s, ((fields <- read_row E R' sc row ;; observe (message kind (VDict fields))) ;;; m') s
                = (fields <- read_row E R' sc row ;; (observe (message kind (VDict fields)) ;;; m')) s).
      { intros s. unfold mbind. destruct (read_row E R' sc row s) as [s1 [d| |]]; reflexivity. }
      split.
      - intros s. rewrite EQ. apply K.
      - intros s s' HS. rewrite EQ. now apply K.
    Qed.

    Lemma obs_process : forall sc star cols w row,
      obs _ (process_row E R sc star cols w row) (process_row_x E R' show_expr sc star cols w row).
    Proof.
      intros sc star cols w row. unfold process_row, process_row_x.
      apply (cl_bind _ CL); [oprim|]. intros t. destruct w as [w|].
      - apply (cl_bind _ CL); [oprim|]. intros v.
        apply (cl_bind _ CL); [oprim|]. intros [].
        + apply (cl_bind _ CL); [oprim|]. intros r. apply obs_output. oprim.
        + apply obs_message. oprim.
      - apply (cl_bind _ CL); [oprim|]. intros r. apply obs_output. oprim.
    Qed.

    Lemma obs_range : forall fuel i j k,
      obs _ (match range_rows fuel i j k with
             | Some l => mret (map (fun z => value_row (vint z)) l) | None => mfuel end)
            (match range_rows fuel i j k with
             | Some l => mret (map (fun z => value_row (vint z)) l) | None => mfuel end).
    Proof.
      intros fuel i j k. destruct (range_rows fuel i j k).
      - apply (cl_ret _ CL).
      - apply obs_prim; [reflexivity|]. intros. split; auto.
    Qed.

    Lemma obs_select : forall fuel sc q,
      obs _ (select_step E R fuel sc q) (select_x E R' show_query show_expr fuel sc q).
    Proof.
      intros fuel sc [star cols from w g o l]. unfold select_x, start_query. apply obs_message.
      unfold select_step.
      destruct l as [n|].
      { apply (cl_bind _ CL); [oprim|]. intros. oprim. }
      destruct g as [g|].
      { apply (cl_bind _ CL); [apply (pa_plugin_eval obs CL E R R' fuel fuel RR (obs_range fuel))|].
        intros rows. apply (cl_bind _ CL); [oprim|]. intros bins. cbv zeta.
        destruct o as [[key desc]|]; oprim. }
      destruct o as [[key desc]|].
      { apply (cl_bind _ CL); [oprim|]. intros. oprim. }
      apply (cl_bind _ CL); [apply (pa_plugin_eval obs CL E R R' fuel fuel RR (obs_range fuel))|].
      intros rows. apply (cl_bind _ CL); [|intros; oprim].
      apply (pa_mmap obs CL). intros row. apply obs_output. apply obs_process.
    Qed.
  End Read.

  Theorem explained_related : forall n, related obs (ev E n) (ev_x E on show_query show_expr n).
  Proof.
    induction n as [|n IH].
    - constructor; intros; (split; [intros s0; exists []; reflexivity|]);
        intros s0 s1 HS; right; split; auto.
    - pose proof (related_step obs CL E _ _ n n IH (obs_range n)) as [H1 H2 H3 H4 H5 H6 H7 H8 H9 H10].
      constructor; cbn [ev_x ev r_expr r_select r_query r_assoc r_reduce r_reduce_ws r_evalsym
        r_negate r_normalize r_tostring]; auto.
      intros sc q. destruct (on sc q); [now apply obs_select|apply H2].
      
  Qed.
End Proofs.

(** ** The results of an explained query *)

(** A query that is explained, or of which any queries inside are, whichever
    the scopes' flags select: the same outcome (rows, panic) and the same
    state, effects in the same order, and messages in between; unless the
    explainer read a row that is a list, a query or a row of lazy columns. *)
Theorem C79_explaining_changes_nothing_partial :
  forall E on show_query show_expr n sc q s,
  let '(s1, plain_outcome) := r_select (ev E n) sc q s in
  let '(s2, outcome) := r_select (ev_x E on show_query show_expr n) sc q s in
  read_deeply s2 \/ (but_messages s1 s2 /\ outcome = plain_outcome).
Proof.
  intros E on show_query show_expr n sc q s.
  pose proof (proj2 (re_select _ _ _ (explained_related E on show_query show_expr n) sc q)
                s s (but_messages_refl s)) as H.
  destruct (r_select (ev E n) sc q s) as [s1 o1].
  destruct (r_select (ev_x E on show_query show_expr n) sc q s) as [s2 o2]. exact H.
Qed.

Lemma run_stmts_x_obs : forall E show_query show_expr n qs sc,
  obs _ (run_stmts (ev E n) sc (map snd qs)) (run_stmts_x E show_query show_expr n sc qs).
Proof.
  intros E show_query show_expr n qs. induction qs as [|[k q] qs IH]; intros sc; cbn [map snd run_stmts run_stmts_x].
  - apply (cl_ret _ obs_closed).
  - apply (cl_bind _ obs_closed).
    + apply (pa_stmt_eval obs obs_closed _ _ (explained_related E (fun _ _ => k) show_query show_expr n)).
    + intros [sc1 rows]. apply (cl_bind _ obs_closed); [apply IH|].
      intros [sc2 out]. apply (cl_ret _ obs_closed).
Qed.

(** Any session, any of its statements with EXPLAIN: the rows of each
    statement and the variables afterwards are those of the session without
    the keywords. *)
Theorem C79_session_partial : forall E show_query show_expr n sc qs s,
  let '(s1, plain_outcome) := run_stmts (ev E n) sc (map snd qs) s in
  let '(s2, outcome) := run_stmts_x E show_query show_expr n sc qs s in
  read_deeply s2 \/ (but_messages s1 s2 /\ outcome = plain_outcome).
Proof.
  intros E show_query show_expr n sc qs s.
  pose proof (proj2 (run_stmts_x_obs E show_query show_expr n qs sc) s s (but_messages_refl s)) as H.
  destruct (run_stmts (ev E n) sc (map snd qs) s) as [s1 o1].
  destruct (run_stmts_x E show_query show_expr n sc qs s) as [s2 o2]. exact H.
Qed.

(** A session without EXPLAIN is the session of Eval.v: nothing is explained. *)
Lemma not_explained : forall E show_query show_expr n, ev_x E (fun _ _ => false) show_query show_expr n = ev E n.
Proof.
  intros E show_query show_expr n. induction n as [|n IH]; [reflexivity|].
  cbn [ev_x ev]. rewrite IH. reflexivity.
Qed.

Theorem C79_without_the_keyword : forall E show_query show_expr n sc qs s,
  Forall (fun kq => fst kq = false) qs ->
  run_stmts_x E show_query show_expr n sc qs s = run_stmts (ev E n) sc (map snd qs) s.
Proof.
  intros E show_query show_expr n sc qs s H. revert sc s.
  induction H as [|[k q] qs HK _ IH]; intros sc s; [reflexivity|]. cbn in HK. subst k.
  cbn [map snd run_stmts run_stmts_x]. rewrite not_explained. unfold mbind.
  destruct (stmt_eval (ev E n) sc q s) as [s1 [[sc1 rows]| |]]; try reflexivity.
  rewrite IH. reflexivity.
Qed.

(** A statement with EXPLAIN does not turn explaining on for the next one. *)
Theorem C79_ends_with_the_statement : forall E show_query show_expr n sc q qs s s1 r,
  Forall (fun kq => fst kq = false) qs ->
  stmt_eval (ev_x E (fun _ _ => true) show_query show_expr n) sc q s = (s1, RVal r) ->
  run_stmts_x E show_query show_expr n sc ((true, q) :: qs) s =
  (let '(s2, o) := run_stmts (ev E n) (fst r) (map snd qs) s1 in
   (s2, match o with
        | RVal (sc2, out) => RVal (sc2, match q with SQuery _ _ => snd r :: out | _ => out end)
        | RPanic => RPanic | RFuel => RFuel end)).
Proof.
  intros E show_query show_expr n sc q qs s s1 [sc1 rows] H HS. cbn [run_stmts_x].
  rewrite (then_ _ _ _ _ s s1 (sc1, rows)) by exact HS. cbn [fst snd].
  unfold mbind. rewrite C79_without_the_keyword by exact H.
  destruct (run_stmts (ev E n) sc1 (map snd qs) s1) as [s2 [[sc2 out]| |]]; reflexivity.
Qed.

(** ** What is reported *)

Section Report.
  Variable E : env.
  Variable funs : string -> option (dict -> option val).
  Variable owner : nat -> string.
  Hypothesis FOK : funs_ok E funs.
  Variable show_query : select -> string.
  Variable show_expr : expr -> string.

  (** The messages about the rows: what the plugin sent, then whether a row
      is emitted, and which, or which condition rejected it. *)
  Fixpoint report (subq : list dict -> select -> option (list dict)) (fr : list dict) (star : bool)
    (cols : list (string * colbody)) (where_ : option expr) (rows : list dict) : option (list val) :=
    match rows with
    | [] => Some []
    | row :: rest =>
        obind (project E funs subq fr star cols row) (fun out =>
        obind (holds E funs fr out row where_) (fun keep =>
        option_map (fun l =>
            message "sent" (VDict (fields row)) ::
            (if keep then message "emit" (VDict (fields out))
             else message "reject" (VStr (match where_ with Some w => printf0 (show_expr w) | None => "" end)))
            :: l)
          (report subq fr star cols where_ rest)))
    end.

  (** The state with one message more. *)
  Definition noted (m : val) (s : st) : st := fst (observe m s).

  Lemma fetch_fields : forall R sc d s, NoDup (keys d) ->
    read_row E R sc (VDict d) s = (s, RVal (fields d)).
  Proof.
    intros R sc d s ND.
    assert (H : forall part, (forall k v, In (k, v) part -> assoc k d = Some v) ->
      exists fs, mmap (fun key => '(v, pres) <- assoc_step E R sc (VDict d) (KVal (VStr key)) ;;
                    mret (if pres then [(key, v)] else [])) (keys part) s = (s, RVal fs) /\
                 List.concat fs = fields part).
    { induction part as [|[k v] part IH]; intros HI; [exists []; split; reflexivity|].
      destruct (IH (fun k0 v0 H => HI k0 v0 (or_intror H))) as (fs & E1 & E2).
      exists ([(k, or_null v)] :: fs). split; [|cbn; now rewrite E2].
      cbn [keys map fst mmap].
      rewrite (then_ _ _ _ _ s s [(k, or_null v)]).
      - rewrite (then_ _ _ _ _ s s fs); [reflexivity|exact E1].
      - rewrite (then_ _ _ _ _ s s (or_null v, true)); [reflexivity|].
        unfold assoc_step. cbn [is_nil key_string to_string]. unfold mbind, obj_of.
        rewrite assoc_disp_dict. rewrite (HI k v (or_introl eq_refl)). reflexivity. }
    destruct (H d (fun k v => assoc_in _ d k v ND)) as (fs & E1 & E2).
    unfold read_row.
    rewrite (then_ _ _ _ _ s s (keys d)) by reflexivity.
    rewrite (then_ _ _ _ _ s s tt) by reflexivity.
    rewrite (then_ _ _ _ _ s s fs) by exact E1. rewrite E2. reflexivity.
  Qed.

  Lemma process_x : forall R sc star cols w row s s1 l,
    process_row E R sc star cols w row s = (s1, RVal l) ->
    (forall v, In v l -> exists d, v = VDict d /\ NoDup (keys d)) ->
    process_row_x E R show_expr sc star cols w row s =
    (noted (match l with
            | VDict d :: _ => message "emit" (VDict (fields d))
            | _ => message "reject" (VStr (match w with Some w => printf0 (show_expr w) | None => "" end))
            end) s1, RVal l).
  Proof.
    intros R sc star cols w row s s1 l H HD.
    assert (OUT : forall t s, (r <- materialize_row R t ;; mret [r]) s = (s1, RVal l) ->
      (r <- materialize_row R t ;; select_output E R sc r ;;; mret [r]) s =
      (noted (match l with
            | VDict d :: _ => message "emit" (VDict (fields d))
            | _ => message "reject" (VStr (match w with Some w => printf0 (show_expr w) | None => "" end))
            end) s1, RVal l)).
    { intros t s0 HM. unfold mbind in HM. 
      destruct (materialize_row R t s0) as [s2 [r| |]] eqn:EM; try discriminate.
      injection HM as <- <-. destruct (HD r (or_introl eq_refl)) as (d & -> & ND).
      rewrite (then_ _ _ _ _ s0 s2 (VDict d)) by exact EM.
      rewrite (then_ _ _ _ _ s2 (noted (message "emit" (VDict (fields d))) s2) tt); [reflexivity|].
      unfold select_output. rewrite (then_ _ _ _ _ s2 s2 (fields d)) by now apply fetch_fields. reflexivity. }
    unfold process_row in H. unfold process_row_x. 
    apply mbind_val in H as (s2 & t & HT & H). rewrite (then_ _ _ _ _ s s2 t) by exact HT.
    destruct w as [w|]; [|now apply OUT].
    apply mbind_val in H as (s3 & v & HV & H). rewrite (then_ _ _ _ _ s2 s3 v) by exact HV.
    apply mbind_val in H as (s4 & b & HB & H). rewrite (then_ _ _ _ _ s3 s4 b) by exact HB.
    destruct b; [now apply OUT|]. injection H as <- <-. reflexivity.
  Qed.

  Lemma noted_stok : forall W m s, stok E owner W s -> stok E owner W (noted m s).
  Proof. intros W m s [H1 H2]. constructor; cbn; auto. Qed.

  Variable depth : nat.
  Notation subq := (query_rows E funs depth).

  Lemma rows_reported : forall W sc fr star cols where_,
    scope_ok E owner W sc fr -> 2 * depth + (sc_depth sc + 2) < 1000 ->
    label_columns owner (label_query owner depth) cols -> label_where owner where_ ->
    forall rows out messages, Forall row_ok rows ->
    select_rows E funs subq fr star cols where_ rows = Some out ->
    report subq fr star cols where_ rows = Some messages ->
    forall W1 s, wle W W1 -> stok E owner W1 s ->
    exists s2 outs, trace s2 = rev messages ++ trace s /\ List.concat outs = map VDict out /\
      evaluates (fun n => mmap (fun row => plugin_output E (ev E n) sc row ;;;
                                           process_row_x E (ev E n) show_expr sc star cols where_ row)
                               (map VDict rows)) s s2 outs.
  Proof.
    intros W sc fr star cols where_ SC RM LC LW rows. induction rows as [|row rows IH];
      intros out messages RO HO HM W1 s HW HS.
    - injection HO as <-. injection HM as <-. exists s, []. repeat split. apply ev_ret.
    - inversion RO as [|? ? Hr RO']; subst. cbn [select_rows report] in HO, HM.
      apply obind_some in HO as (o & Ho & HO). apply obind_some in HO as (keep & Hk & HO).
      apply omap_some in HO as (rest & Hrest & <-).
      rewrite Ho in HM. cbn [obind] in HM. rewrite Hk in HM. cbn [obind] in HM.
      apply omap_some in HM as (ms & Hms & <-).
      assert (OR : row_ok o).
      { assert (FO : Forall row_ok [o]).
        { apply (select_rows_rows E funs subq (query_rows_plain E funs depth) fr star cols None [row] [o]).
          - now constructor.
          - cbn [select_rows]. rewrite Ho. reflexivity. }
        now inversion FO. }
      set (s0 := noted (message "sent" (VDict (fields row))) s).
      destruct (process_row_ok E funs owner FOK subq (label_query owner depth) (2 * depth)
                  (query_rows_plain E funs depth) (query_rows_ok E funs owner FOK depth)
                  W sc fr star cols where_ row o keep SC RM Hr LC LW Ho Hk W1 s0 HW
                  (noted_stok _ _ _ HS)) as (W2 & s2 & HW2 & HS2 & Q & EV).
      set (m2 := if keep then message "emit" (VDict (fields o))
             else message "reject" (VStr (match where_ with Some w => printf0 (show_expr w) | None => "" end))).
      destruct (IH rest ms RO' Hrest Hms W2 (noted m2 s2) (wle_trans _ _ _ HW HW2) (noted_stok _ _ _ HS2))
        as (s3 & outs & ET & EC & EV3).
      exists s3, ((if keep then [VDict o] else []) :: outs). split; [|split].
      + rewrite ET. cbn [rev]. rewrite <- !app_assoc. f_equal. cbn. f_equal.
        rewrite (q_trace _ _ Q). reflexivity.
      + cbn. rewrite EC. destruct keep; reflexivity.
      + cbn [map mmap].
        eapply (ev_bind _ _ _ _ s (noted m2 s2) s3 (if keep then [VDict o] else [])).
        * destruct EV as [N HN]. exists N. intros n Hn. specialize (HN n Hn).
          rewrite (then_ _ _ _ _ s s0 tt).
          -- rewrite (process_x _ _ _ _ _ _ _ _ _ HN).
             ++ destruct keep; reflexivity.
             ++ intros v HI. destruct keep; [|contradiction]. destruct HI as [<-|[]]. exists o. split; [reflexivity|apply OR].
          -- unfold plugin_output. rewrite (then_ _ _ _ _ s s (fields row)) by (apply fetch_fields; apply Hr).
             reflexivity.
        * eapply ev_bind; [exact EV3|apply ev_ret].
  Qed.

  (** EXPLAIN SELECT ... FROM ... WHERE ...: one message at the start, then
      for each row of FROM, in order, the row that was sent and right after it
      what became of it; nothing else. *)
  Theorem C79_each_row_is_reported :
    forall sc fr star cols from where_ s s1 rows out messages,
    frames sc fr -> room_for depth sc ->
    label_columns owner (label_query owner depth) cols -> label_where owner where_ ->
    let q := Select star cols from where_ None None None in
    from_yields E sc from (noted (message "start" (VStr (show_query q))) s) s1 (map VDict rows) ->
    calls_ok E owner s1 -> Forall row_ok rows ->
    select_rows E funs subq fr star cols where_ rows = Some out ->
    report subq fr star cols where_ rows = Some messages ->
    exists s2, evaluates (fun n => select_x E (ev E n) show_query show_expr n sc q) s s2 (map VDict out) /\
               trace s2 = rev messages ++ trace s1.
  Proof.
    intros sc fr star cols from where_ s s1 rows out messages FR RM LC LW q HF CO RO HO HM.
    unfold room_for in RM.
    assert (SC : scope_ok E owner no_world sc fr) by (apply frames_scope; [exact FR|lia]).
    destruct (rows_reported no_world sc fr star cols where_ SC RM LC LW rows out messages RO HO HM
                no_world s1 (wle_refl _) (calls_stok _ _ _ CO)) as (s2 & outs & ET & EC & EV).
    exists s2. split; [|exact ET]. unfold q. cbn [select_x].
    eapply (ev_bind _ _ _ _ s (noted (message "start" (VStr (show_query q))) s) s2 tt);
      [apply ev_now; reflexivity|].
    eapply ev_bind; [exact HF|]. eapply ev_bind; [exact EV|]. rewrite EC. apply ev_ret.
  Qed.
End Report.

(** ** Examples *)

Definition show_q (_ : select) : string := "SELECT".
Definition show_e (_ : expr) : string := "n >= 2".

Definition explain_run (qs : list (bool * stmt)) : option (list (list val) * list val) :=
  match run_stmts_x demo_env show_q show_e 30 demo_scope qs st0 with
  | (s, RVal (_, out)) => Some (out, rev (trace s))
  | _ => None
  end.

Definition sent (d : list (string * val)) : val := message "sent" (VDict d).
Definition emitted (d : list (string * val)) : val := message "emit" (VDict d).
Definition started : val := message "start" (VStr "SELECT").
Definition rejected : val := message "reject" (VStr "n >= 2").

(** SELECT k, hit(x=n) AS h FROM t WHERE n >= 2 *)
Definition watched : select :=
  Select false [("k", CExpr (sym 4 "k")); ("h", CExpr (call 6 "hit" [("x", AExpr (sym 7 "n"))]))]
    (from_var "t") (Some (ECmp (sym 5 "n") OpGe (lit 2))) None None None.

Example C79_demo :
  explain_run [(true, SQuery "" watched); (false, SQuery "" watched)] =
  Some ([[VDict [("k", VStr "b"); ("h", Demo.i 3)]; VDict [("k", VStr "a"); ("h", Demo.i 2)]];
         [VDict [("k", VStr "b"); ("h", Demo.i 3)]; VDict [("k", VStr "a"); ("h", Demo.i 2)]]],
    [started;
     sent [("k", VStr "b"); ("n", Demo.i 3)]; Demo.i 3; emitted [("k", VStr "b"); ("h", Demo.i 3)];
     sent [("k", VStr "a"); ("n", Demo.i 1)]; rejected;
     sent [("k", VStr "b"); ("n", VNull)]; rejected;
     sent [("k", VStr "a"); ("n", Demo.i 2)]; Demo.i 2; emitted [("k", VStr "a"); ("h", Demo.i 2)];
     Demo.i 3; Demo.i 2]).
Proof. vm_compute. reflexivity. Qed.

(** The theorem about the messages is met by SELECT k FROM t WHERE n >= 2. *)
Example C79_reported_demo :
  report demo_env (fun _ => None) show_e no_subq demo_frames false [("k", CExpr (sym 4 "k"))]
    (Some (ECmp (sym 5 "n") OpGe (lit 2))) table_rows =
  Some [sent [("k", VStr "b"); ("n", Demo.i 3)]; emitted [("k", VStr "b")];
        sent [("k", VStr "a"); ("n", Demo.i 1)]; rejected;
        sent [("k", VStr "b"); ("n", VNull)]; rejected;
        sent [("k", VStr "a"); ("n", Demo.i 2)]; emitted [("k", VStr "a")]].
Proof. vm_compute. reflexivity. Qed.

(** ** Where the claim fails *)

(** LET q = SELECT hit(x=7) AS k FROM range(end=1)
    LET l = [[dict(k=1), q], 0]
    SELECT 1 AS one FROM l: the query does not look at the row [dict(k=1), q],
    but the explainer reads its member k, and this runs q: the host sees a
    call of hit() that only EXPLAIN causes. *)
Definition hidden : list stmt :=
  [SLet "q" [] true (LSelect (Select false [("k", CExpr (call 8 "hit" [("x", AExpr (lit 7))]))]
     (Plugin ["range"] true [("end", AExpr (lit 1))]) None None None None));
   SLet "l" [] true (LExpr (EComma (EComma (call 9 "dict" [("k", AExpr (lit 1))]) [Some (sym 10 "q")])
     [Some (lit 0)]))].
Definition ones : select := Select false [("one", CExpr (lit 1))] (from_var "l") None None None None.

Theorem C79_explaining_runs_a_query_refuted :
  exists rows seen seen_explained,
  explain_run (map (pair false) hidden ++ [(false, SQuery "" ones)]) = Some (rows, seen) /\
  explain_run (map (pair false) hidden ++ [(true, SQuery "" ones)]) = Some (rows, seen_explained) /\
  ~ In (Demo.i 7) seen /\ In (Demo.i 7) seen_explained.
Proof.
  exists [[VDict [("one", Demo.i 1)]; VDict [("one", Demo.i 1)]]], [],
    [started; message "reads" (VArr [VDict [("k", Demo.i 1)]; VOpaque 0]);
     started; sent [("_value", Demo.i 0)]; Demo.i 7; emitted [("k", Demo.i 7)];
     sent [("k", VArr [Demo.i 1; VArr [Demo.i 7]])]; emitted [("one", Demo.i 1)];
     sent []; emitted [("one", Demo.i 1)]].
  split; [vm_compute; reflexivity|]. split; [vm_compute; reflexivity|]. split; [auto|].
  cbn. tauto.
Qed.

(** EXPLAIN SELECT k FROM t GROUP BY k reports that it started and nothing
    about the four rows of t. *)
Theorem C79_grouped_rows_not_reported_refuted :
  explain_run [(true, SQuery "" (Select false [("k", CExpr (sym 4 "k"))] (from_var "t") None
                                   (Some (sym 5 "k")) None None))] =
  Some ([[VDict [("k", VStr "b")]; VDict [("k", VStr "a")]]], [started]).
Proof. vm_compute. reflexivity. Qed.

(** The text of a condition is used as a format: a percent sign spoils the
    message about a rejected row; without one the text is kept. *)
Fixpoint no_percent (t : string) : bool :=
  match t with
  | EmptyString => true
  | String c rest => negb (Ascii.eqb c "%") && no_percent rest
  end.

Lemma C79_reason_is_kept : forall t, no_percent t = true -> printf0 t = t.
Proof.
  induction t as [|c t IH]; [reflexivity|]. cbn [no_percent]. rewrite andb_true_iff. intros [H1 H2].
  specialize (IH H2). destruct c as [[] [] [] [] [] [] [] []]; try discriminate H1; cbn [printf0]; rewrite IH; reflexivity.
Qed.

Theorem C79_reason_is_spoilt_refuted :
  printf0 "Name =~ '%s'" = "Name =~ '%!s(MISSING)'".
Proof. reflexivity. Qed.

Print Assumptions C79_explaining_changes_nothing_partial.
Print Assumptions C79_session_partial.
Print Assumptions C79_without_the_keyword.
Print Assumptions C79_ends_with_the_statement.
Print Assumptions C79_each_row_is_reported.
Print Assumptions C79_explaining_runs_a_query_refuted.
Print Assumptions C79_grouped_rows_not_reported_refuted.
Print Assumptions C79_reason_is_kept.
Print Assumptions C79_reason_is_spoilt_refuted.
