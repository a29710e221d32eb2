(** C80: an aggregate that several goroutines call counts every call once. *)

From Coq Require Import ZArith List String Bool Lia Permutation.
From Verif Require Import Base BaseProofs Value Protocols Chains Builtins ArgParser Syntax Monad Eval GroupSpec SharedCalls.
Import ListNotations.
Open Scope nat_scope.

(** ** The specification *)

(** What calls with these items return when they are made one after the
    other. *)
Fixpoint one_by_one (f : val -> option val -> val) (old : option val) (items : list val) : list val :=
  match items with
  | [] => []
  | x :: l => let new := f x old in new :: one_by_one f (Some new) l
  end.

(** What is kept after them. *)
Fixpoint kept_after (f : val -> option val -> val) (old : option val) (items : list val) : option val :=
  match items with [] => old | x :: l => kept_after f (Some (f x old)) l end.

(** The calls that returned, in one context: the item, the id of the function
    that was called and the result. *)
Fixpoint returned (ctx : nat) (l : list call) : list (val * (nat * val)) :=
  match l with
  | [] => []
  | c :: l =>
      match c_at c with
      | Finished id r => if Nat.eqb (c_ctx c) ctx then (c_item c, (id, r)) :: returned ctx l else returned ctx l
      | _ => returned ctx l
      end
  end.

Definition items_of {A} (l : list (val * (A * val))) : list val := map fst l.
Definition results_of {A} (l : list (val * (A * val))) : list val := map (fun x => snd (snd x)) l.
Definition by_function (id : nat) (l : list (val * (nat * val))) : list (val * (nat * val)) :=
  filter (fun x => Nat.eqb (fst (snd x)) id) l.

(** These calls were made in some order, each exactly once. *)
Definition serial (f : val -> option val -> val) (old new : option val) (l : list (val * (nat * val))) : Prop :=
  exists order, Permutation order l /\
    results_of order = one_by_one f old (items_of order) /\
    new = kept_after f old (items_of order).

(** A query that was never run before. *)
Definition never_called (s : shared) : Prop :=
  node s = None /\ calls s = [] /\ forall c id, next_id s <= id -> slots s c id = None.

(** No call is about to give the node another function. *)
Definition settled (s : shared) (id : nat) : Prop :=
  node s = Some id /\
  forall c, In c (calls s) -> match c_at c with Missing | Copied _ => False | _ => True end.

(** ** Proofs *)

Lemma one_by_one_app f : forall l old x,
  one_by_one f old (l ++ [x]) = one_by_one f old l ++ [f x (kept_after f old l)].
Proof. induction l as [|y l IH]; intros; cbn; [reflexivity|]. now rewrite IH. Qed.

Lemma kept_after_app f : forall l old x,
  kept_after f old (l ++ [x]) = Some (f x (kept_after f old l)).
Proof. induction l as [|y l IH]; intros; cbn; [reflexivity|]. now rewrite IH. Qed.

Lemma serial_nil f old : serial f old old [].
Proof. exists []. repeat split. constructor. Qed.

Lemma serial_add f old new l x id l' :
  serial f old new l -> Permutation ((x, (id, f x new)) :: l) l' ->
  serial f old (Some (f x new)) l'.
Proof.
  intros (order & HP & HR & ->) HL.
  exists (order ++ [(x, (id, f x (kept_after f old (items_of order))))]). split; [|split].
  - rewrite <- HL. rewrite Permutation_app_comm. cbn [app]. now constructor.
  - unfold results_of, items_of in *. rewrite !map_app. cbn [map fst snd]. now rewrite one_by_one_app, HR.
  - unfold items_of in *. rewrite map_app. cbn [map fst]. now rewrite kept_after_app.
Qed.

Lemma serial_perm f old new l l' : serial f old new l -> Permutation l l' -> serial f old new l'.
Proof. intros (o & P & H) Q. exists o. split; [now rewrite P|exact H]. Qed.

Lemma nth_split_at : forall {A} (l : list A) i c, nth_error l i = Some c ->
  l = firstn i l ++ c :: skipn (S i) l.
Proof.
  induction l as [|x l IH]; intros [|i] c H; try discriminate; cbn in *.
  - congruence.
  - f_equal. now apply IH.
Qed.

Lemma returned_app ctx : forall a b, returned ctx (a ++ b) = returned ctx a ++ returned ctx b.
Proof.
  induction a as [|c a IH]; intros b; cbn [app returned]; [reflexivity|].
  rewrite IH. destruct (c_at c); auto. now destruct (Nat.eqb (c_ctx c) ctx).
Qed.

Lemma returned_idle ctx c : (forall id r, c_at c <> Finished id r) -> returned ctx [c] = [].
Proof. intros H. cbn. destruct (c_at c); auto. now destruct (H id result). Qed.

Lemma returned_cons ctx c l : returned ctx (c :: l) = returned ctx [c] ++ returned ctx l.
Proof. exact (returned_app ctx [c] l). Qed.

(** A call that moves without returning. *)
Lemma returned_moved ctx l i c p : nth_error l i = Some c ->
  (forall id r, c_at c <> Finished id r) -> (forall id r, p <> Finished id r) ->
  returned ctx (moved l i p) = returned ctx l.
Proof.
  intros H Hc Hp. unfold moved. rewrite H. rewrite (nth_split_at l i c H) at 3.
  rewrite !returned_app, !(returned_cons ctx _ (skipn _ _)), !returned_idle; auto.
Qed.

Lemma returned_finishes ctx l i c id r : nth_error l i = Some c ->
  (forall id r, c_at c <> Finished id r) ->
  Permutation (returned ctx (moved l i (Finished id r)))
    ((if Nat.eqb (c_ctx c) ctx then [(c_item c, (id, r))] else []) ++ returned ctx l).
Proof.
  intros H Hc. unfold moved. rewrite H. rewrite (nth_split_at l i c H) at 3.
  rewrite !returned_app, !(returned_cons ctx _ (skipn _ _)). rewrite (returned_idle ctx c Hc).
  cbn [app returned c_at c_ctx c_item]. destruct (Nat.eqb (c_ctx c) ctx); cbn [app]; [|reflexivity].
  symmetry. apply Permutation_middle.
Qed.

Lemma by_function_app id a b : by_function id (a ++ b) = by_function id a ++ by_function id b.
Proof. unfold by_function. apply filter_app. Qed.

Lemma perm_filter : forall {A} (p : A -> bool) l l', Permutation l l' -> Permutation (filter p l) (filter p l').
Proof.
  induction 1; cbn; auto.
  - destruct (p x); auto.
  - destruct (p x), (p y); auto. constructor.
  - etransitivity; eauto.
Qed.

Section Node.
  Variable f : val -> option val -> val.

  (** What is kept for each function in each context is what the calls of this
      function that returned leave there, made in some order. *)
  Lemma step_serial old s e :
    (forall c id, serial f (old c id) (slots s c id) (by_function id (returned c (calls s)))) ->
    forall c id, serial f (old c id) (slots (step f s e) c id) (by_function id (returned c (calls (step f s e)))).
  Proof.
    intros H c id. destruct e as [ctx item|i|i|i]; cbn [step].
    - cbn [slots calls]. rewrite returned_app, returned_idle; [rewrite app_nil_r; apply H|].
      cbn [c_at]. destruct (node s); discriminate.
    - destruct (nth_error (calls s) i) as [[cx it [k| |k|k r]]|] eqn:N; try apply H.
      cbn [slots calls]. rewrite (returned_moved _ _ _ _ _ N); [apply H|discriminate|discriminate].
    - destruct (nth_error (calls s) i) as [[cx it [k| |k|k r]]|] eqn:N; try apply H.
      cbn [slots calls]. rewrite (returned_moved _ _ _ _ _ N); [apply H|discriminate|discriminate].
    - destruct (nth_error (calls s) i) as [[cx it [k| |k|k r]]|] eqn:N; try apply H.
      cbn [slots calls].
      pose proof (returned_finishes c _ _ _ k (f it (slots s cx k)) N ltac:(discriminate)) as P.
      cbn [c_ctx c_item] in P. apply (perm_filter (fun x => Nat.eqb (fst (snd x)) id)) in P.
      rewrite filter_app in P.
      change (filter (fun x => Nat.eqb (fst (snd x)) id) (returned c (calls s)))
        with (by_function id (returned c (calls s))) in P.
      change (filter (fun x => Nat.eqb (fst (snd x)) id) (returned c (moved (calls s) i (Finished k (f it (slots s cx k))))))
        with (by_function id (returned c (moved (calls s) i (Finished k (f it (slots s cx k)))))) in P.
      destruct (Nat.eqb_spec c cx) as [->|NC].
      + rewrite Nat.eqb_refl in P. cbn [andb filter fst snd] in *.
        destruct (Nat.eqb_spec id k) as [->|NI].
        * rewrite Nat.eqb_refl in P. eapply serial_add; [apply H|]. symmetry. exact P.
        * replace (Nat.eqb k id) with false in P by (symmetry; apply Nat.eqb_neq; congruence).
          eapply serial_perm; [apply H|]. symmetry. exact P.
      + replace (Nat.eqb cx c) with false in P by (symmetry; apply Nat.eqb_neq; congruence).
        cbn [andb filter app] in *. eapply serial_perm; [apply H|]. symmetry. exact P.
  Qed.

  Lemma run_serial old : forall es s,
    (forall c id, serial f (old c id) (slots s c id) (by_function id (returned c (calls s)))) ->
    forall c id, serial f (old c id) (slots (run f s es) c id) (by_function id (returned c (calls (run f s es)))).
  Proof.
    induction es as [|e es IH]; intros s H c id; [apply H|].
    cbn [run fold_left]. apply IH. now apply step_serial.
  Qed.

  (** Whatever the schedule, and even when several goroutines gave the node a
      function: no call is lost and none is counted twice among the calls that
      went to the same function. *)
  Theorem C80_each_function_is_exact : forall s es,
    calls s = [] ->
    forall ctx id,
      serial f (slots s ctx id) (slots (run f s es) ctx id)
        (by_function id (returned ctx (calls (run f s es)))).
  Proof.
    intros s es H. apply run_serial. intros c id. rewrite H. cbn. apply serial_nil.
  Qed.

  Definition on (id : nat) (c : call) : Prop :=
    match c_at c with Known k => k = id | Finished k _ => k = id | _ => False end.

  Lemma in_moved l i p c : In c (moved l i p) -> In c l \/ (c_at c = p /\ exists c', nth_error l i = Some c' /\ c_ctx c' = c_ctx c /\ c_item c' = c_item c).
  Proof.
    unfold moved. destruct (nth_error l i) as [c'|] eqn:N; [|now left].
    intros I. apply in_app_or in I. destruct I as [I|[<-|I]].
    - left. rewrite (nth_split_at l i c' N). apply in_or_app. now left.
    - right. cbn. split; [reflexivity|]. exists c'. auto.
    - left. rewrite (nth_split_at l i c' N). apply in_or_app. right. now right.
  Qed.

  (** Once the node has its function it keeps it. *)
  Lemma settled_step id s e : settled s id -> settled (step f s e) id.
  Proof.
    intros [HN HC]. destruct e as [ctx item|i|i|i]; cbn [step].
    - split; [exact HN|]. cbn [calls]. intros c I. apply in_app_or in I. destruct I as [I|[<-|[]]]; [now apply HC|].
      cbn [c_at]. now rewrite HN.
    - destruct (nth_error (calls s) i) as [[cx it [k| |k|k r]]|] eqn:N; try (split; assumption).
      apply nth_error_In in N. now apply HC in N.
    - destruct (nth_error (calls s) i) as [[cx it [k| |k|k r]]|] eqn:N; try (split; assumption).
      apply nth_error_In in N. now apply HC in N.
    - destruct (nth_error (calls s) i) as [[cx it [k| |k|k r]]|] eqn:N; try (split; assumption).
      split; [exact HN|]. cbn [calls]. intros c I. apply in_moved in I. destruct I as [I|[-> _]]; [now apply HC|exact I].
  Qed.

  Lemma settled_run id : forall es s, settled s id -> settled (run f s es) id.
  Proof. induction es as [|e es IH]; intros s H; [exact H|]. cbn [run fold_left]. apply IH. now apply settled_step. Qed.

  Lemma moved_length l i p : List.length (moved l i p) = List.length l.
  Proof.
    unfold moved. destruct (nth_error l i) as [c|] eqn:N; [|reflexivity].
    rewrite (nth_split_at l i c N) at 3. rewrite !app_length. reflexivity.
  Qed.

  Lemma nth_moved l i j p c : nth_error (moved l i p) j = Some c ->
    exists c', nth_error l j = Some c' /\ (c = c' \/ (j = i /\ c_at c = p)).
  Proof.
    unfold moved. destruct (nth_error l i) as [c'|] eqn:N; [|exists c; auto].
    assert (L : i < List.length l) by (apply nth_error_Some; congruence).
    intros H. destruct (Nat.lt_trichotomy j i) as [J|[->|J]].
    - rewrite nth_error_app1 in H by (rewrite firstn_length; lia).
      exists c. split; [|now left]. rewrite (nth_split_at l i c' N). rewrite nth_error_app1; [exact H|rewrite firstn_length; lia].
    - rewrite nth_error_app2 in H by (rewrite firstn_length; lia). rewrite firstn_length in H.
      replace (i - Nat.min i (List.length l)) with 0 in H by lia. cbn in H. injection H as <-.
      exists c'. auto.
    - rewrite nth_error_app2 in H by (rewrite firstn_length; lia). rewrite firstn_length in H.
      exists c. split; [|now left]. rewrite (nth_split_at l i c' N).
      rewrite nth_error_app2 by (rewrite firstn_length; lia). rewrite firstn_length.
      destruct (j - Nat.min i (List.length l)) eqn:D; [lia|exact H].
  Qed.

  Lemma later_on_step id n s e :
    settled s id ->
    (forall j c, n <= j -> nth_error (calls s) j = Some c -> on id c) ->
    forall j c, n <= j -> nth_error (calls (step f s e)) j = Some c -> on id c.
  Proof.
    intros [HN HC] H j c J Hj. destruct e as [ctx item|i|i|i]; cbn [step] in Hj.
    - cbn [calls] in Hj. destruct (Nat.lt_ge_cases j (List.length (calls s))) as [L|L].
      + rewrite nth_error_app1 in Hj by exact L. eauto.
      + rewrite nth_error_app2 in Hj by exact L. destruct (j - List.length (calls s)) as [|[|?]]; try discriminate.
        cbn in Hj. injection Hj as <-. unfold on. cbn [c_at]. now rewrite HN.
    - destruct (nth_error (calls s) i) as [[cx it [k| |k|k r]]|] eqn:N; eauto.
      apply nth_error_In in N. now apply HC in N.
    - destruct (nth_error (calls s) i) as [[cx it [k| |k|k r]]|] eqn:N; eauto.
      apply nth_error_In in N. now apply HC in N.
    - destruct (nth_error (calls s) i) as [[cx it [k| |k|k r]]|] eqn:N; eauto.
      cbn [calls] in Hj. apply nth_moved in Hj. destruct Hj as (c' & Hj & [->|[-> E]]); [eauto|].
      unfold on. rewrite E. specialize (H i _ J N). exact H.
  Qed.

  Lemma later_on_run id n : forall es s,
    settled s id ->
    (forall j c, n <= j -> nth_error (calls s) j = Some c -> on id c) ->
    forall j c, n <= j -> nth_error (calls (run f s es)) j = Some c -> on id c.
  Proof.
    induction es as [|e es IH]; intros s HS H; [exact H|].
    cbn [run fold_left]. apply IH; [now apply settled_step|]. now apply later_on_step.
  Qed.

  (** When the first calls of the node are over, every call that begins later
      goes to one function, the same for all. *)
  Theorem C80_later_calls_share_a_function : forall s es id,
    settled s id ->
    forall j c k r, List.length (calls s) <= j ->
      nth_error (calls (run f s es)) j = Some c -> c_at c = Finished k r -> k = id.
  Proof.
    intros s es id HS j c k r J Hj E.
    assert (O : on id c).
    { apply (later_on_run id (List.length (calls s)) es s HS) with (j := j); [|exact J|exact Hj].
      intros j' c' J' H'.
      assert (j' < List.length (calls s)) by (apply nth_error_Some; congruence). lia. }
    unfold on in O. now rewrite E in O.
  Qed.

  Lemma all_by_function id ctx : forall l,
    (forall c, In c l -> match c_at c with Finished k _ => k = id | _ => True end) ->
    by_function id (returned ctx l) = returned ctx l.
  Proof.
    induction l as [|c l IH]; intros H; [reflexivity|]. cbn [returned].
    pose proof (H c (or_introl eq_refl)) as HC. specialize (IH (fun c I => H c (or_intror I))).
    destruct (c_at c); auto. destruct (Nat.eqb (c_ctx c) ctx); auto.
    subst. cbn [by_function filter fst snd]. rewrite Nat.eqb_refl. unfold by_function in IH. now rewrite IH.
  Qed.

  (** A node that was called before: under every schedule of every number of
      calls, what they return is what they return one after the other in some
      order, and all of them are counted. *)
  Theorem C80_counted_once_partial : forall s es id,
    node s = Some id -> calls s = [] ->
    forall ctx,
      serial f (slots s ctx id) (slots (run f s es) ctx id) (returned ctx (calls (run f s es))).
  Proof.
    intros s es id HN HC ctx.
    pose proof (C80_each_function_is_exact s es HC ctx id) as H.
    rewrite all_by_function in H; [exact H|]. intros c I. apply In_nth_error in I. destruct I as [j Hj].
    destruct (c_at c) eqn:E; auto.
    eapply (C80_later_calls_share_a_function s es id); [|rewrite HC; apply Nat.le_0_l|exact Hj|exact E].
    split; [exact HN|]. now rewrite HC.
  Qed.
End Node.

(** ** The aggregates *)

(** The functions of the evaluator do the same to what is kept. *)
Lemma modifier_is_the_model : forall E R sc id args,
  count_function E R sc id args =
    mbind (parse_args E R sc [field_ "items"%string 0 false TAny] args [VNil]) (fun te =>
      let '(_, err) := te in
      match err with
      | Some _ => mret VNull
      | None => modify sc id (modifier (lt_disp (p_lt (env_protos E))) Count VNull)
      end) /\
  sum_function E R sc id args =
    mbind (parse_args E R sc [field_ "item"%string 0 true TInt64] args [vint 0]) (fun te =>
      let '(target, err) := te in
      match err, target with
      | None, [VInt KInt64 item] => modify sc id (modifier (lt_disp (p_lt (env_protos E))) Sum (VInt KInt64 item))
      | _, _ => mret VNull
      end) /\
  enumerate_function E R sc id args =
    mbind (parse_args E R sc [field_ "items"%string 0 false TAny] args [VNil]) (fun te =>
      let '(target, err) := te in
      match err, target with
      | None, [item] => modify sc id (modifier (lt_disp (p_lt (env_protos E))) Enumerate item)
      | _, _ => mret VNull
      end).
Proof. intros. repeat split. Qed.

Lemma minmax_is_the_model : forall E R (is_min : bool) sc id args,
  minmax_function E R is_min sc id args =
    mbind (parse_args E R sc [field_ "item"%string 0 true TLazy] args [VNil]) (fun te =>
      let '(target, err) := te in
      match err, target with
      | None, [lazy] => mbind (r_reduce R lazy) (fun v =>
          modify sc id (fun old => modifier (lt_disp (p_lt (env_protos E))) (if is_min then Min else Max) v old))
      | _, _ => mret VNull
      end).
Proof. intros. destruct is_min; reflexivity. Qed.

(** What is kept after n calls of count(). *)
Definition counted (n : nat) : option val :=
  match n with 0 => None | S _ => Some (VInt KUint64 (wrapu64 (Z.of_nat n))) end.

Lemma wrapu64_next z : wrapu64 (wrapu64 z + 1) = wrapu64 (z + 1).
Proof. unfold wrapu64. now rewrite Z.add_mod_idemp_l by discriminate. Qed.

Lemma count_next lt x n : modifier lt Count x (counted n) = VInt KUint64 (wrapu64 (Z.of_nat (S n))).
Proof.
  destruct n as [|n]; [reflexivity|]. cbn [modifier counted]. rewrite wrapu64_next. do 2 f_equal. lia.
Qed.

Lemma count_one_by_one lt : forall l n,
  one_by_one (modifier lt Count) (counted n) l =
    map (fun k => VInt KUint64 (wrapu64 (Z.of_nat k))) (seq (S n) (List.length l)) /\
  kept_after (modifier lt Count) (counted n) l = counted (n + List.length l).
Proof.
  induction l as [|x l IH]; intros n; [cbn; now rewrite Nat.add_0_r|].
  cbn [one_by_one kept_after List.length seq map]. rewrite count_next.
  change (Some (VInt KUint64 (wrapu64 (Z.of_nat (S n))))) with (counted (S n)).
  destruct (IH (S n)) as [-> ->]. split; [reflexivity|]. f_equal. lia.
Qed.

(** count(): the calls return n+1, n+2, ... each of these once, whatever the
    schedule. *)
Theorem C80_count_partial : forall lt s es id n ctx,
  node s = Some id -> calls s = [] -> slots s ctx id = counted n ->
  let done := returned ctx (calls (run (modifier lt Count) s es)) in
  Permutation (results_of done)
    (map (fun k => VInt KUint64 (wrapu64 (Z.of_nat k))) (seq (S n) (List.length done))) /\
  slots (run (modifier lt Count) s es) ctx id = counted (n + List.length done).
Proof.
  intros lt s es id n ctx HN HC HS done.
  destruct (C80_counted_once_partial (modifier lt Count) s es id HN HC ctx) as (order & HP & HR & HK).
  rewrite HS in *. fold done in HP. rewrite HK.
  destruct (count_one_by_one lt (items_of order) n) as [E1 E2]. rewrite E1 in HR. rewrite E2.
  unfold items_of in *. rewrite map_length in *. rewrite (Permutation_length HP) in *. split; [|reflexivity].
  rewrite <- HR. symmetry. apply (Permutation_map (fun x => snd (snd x)) HP).
Qed.

(** The numbers of a sum. *)
Definition whole (v : val) : Z := match v with VInt KInt64 z => z | _ => 0%Z end.

Lemma sum_kept lt : forall l z, (forall v, In v l -> exists x, v = vint x) ->
  kept_after (modifier lt Sum) (Some (vint (wrap64 z))) l = Some (vint (wrap64 (z + zsum (map whole l)))).
Proof.
  induction l as [|v l IH]; intros z H; cbn [kept_after map].
  - cbn. now rewrite Z.add_0_r.
  - destruct (H v (or_introl eq_refl)) as [x ->]. cbn [modifier vint].
    replace (wrap64 (wrap64 z + x)) with (wrap64 (z + x)).
    + change (VInt KInt64 (wrap64 (z + x))) with (vint (wrap64 (z + x))).
      rewrite IH by (intros; apply H; now right). do 3 f_equal. cbn [whole zsum fold_right vint].
      unfold zsum. rewrite Z.add_assoc. reflexivity.
    + destruct (wrap64_eq_mod z) as [k ->]. replace (z + k * two64 + x)%Z with (z + x + k * two64)%Z by ring.
      now rewrite wrap64_shift.
Qed.

Lemma zsum_perm : forall l l', Permutation l l' -> zsum l = zsum l'.
Proof. induction 1; unfold zsum in *; cbn [fold_right]; lia. Qed.

(** sum(): what is kept in the end is the sum of all items. *)
Theorem C80_sum_partial : forall lt s es id z ctx,
  node s = Some id -> calls s = [] -> slots s ctx id = Some (vint (wrap64 z)) ->
  let done := returned ctx (calls (run (modifier lt Sum) s es)) in
  (forall v, In v (items_of done) -> exists x, v = vint x) ->
  slots (run (modifier lt Sum) s es) ctx id = Some (vint (wrap64 (z + zsum (map whole (items_of done))))).
Proof.
  intros lt s es id z ctx HN HC HS done HI.
  destruct (C80_counted_once_partial (modifier lt Sum) s es id HN HC ctx) as (order & HP & _ & HK).
  fold done in HP. rewrite HK, HS.
  assert (PI : Permutation (items_of order) (items_of done)) by (now apply Permutation_map).
  rewrite sum_kept.
  - do 4 f_equal. apply zsum_perm. now apply Permutation_map.
  - intros v I. apply HI. now rewrite <- PI.
Qed.

Lemma enumerate_kept lt : forall l xs,
  kept_after (modifier lt Enumerate) (Some (VArr xs)) l = Some (VArr (xs ++ l)).
Proof.
  induction l as [|v l IH]; intros xs; cbn [kept_after modifier]; [now rewrite app_nil_r|].
  rewrite IH, <- app_assoc. reflexivity.
Qed.

(** enumerate(): every item is in the list once. *)
Theorem C80_enumerate_partial : forall lt s es id xs ctx,
  node s = Some id -> calls s = [] -> slots s ctx id = Some (VArr xs) ->
  let done := returned ctx (calls (run (modifier lt Enumerate) s es)) in
  exists ys, slots (run (modifier lt Enumerate) s es) ctx id = Some (VArr (xs ++ ys)) /\
    Permutation ys (items_of done).
Proof.
  intros lt s es id xs ctx HN HC HS done.
  destruct (C80_counted_once_partial (modifier lt Enumerate) s es id HN HC ctx) as (order & HP & _ & HK).
  fold done in HP. exists (items_of order). rewrite HK, HS, enumerate_kept. split; [reflexivity|].
  now apply Permutation_map.
Qed.

(** ** One call after the other *)

(** The steps of the call number i, made without interruption. *)
Definition whole_call (i : nat) (ctx : nat) (item : val) : list event :=
  [Begin ctx item; Copy i; Store i; Apply i].

Fixpoint one_after_other (i : nat) (l : list (nat * val)) : list event :=
  match l with [] => [] | (c, v) :: l => whole_call i c v ++ one_after_other (S i) l end.

Lemma nth_end {A} (l : list A) x : nth_error (l ++ [x]) (List.length l) = Some x.
Proof. rewrite nth_error_app2 by lia. now rewrite Nat.sub_diag. Qed.

Lemma moved_end l c p :
  moved (l ++ [c]) (List.length l) p = l ++ [{| c_ctx := c_ctx c; c_item := c_item c; c_at := p |}].
Proof.
  unfold moved. rewrite nth_end. rewrite firstn_app, firstn_all, Nat.sub_diag. cbn [firstn]. rewrite app_nil_r.
  rewrite skipn_all2; [reflexivity|]. rewrite app_length. cbn. lia.
Qed.

Definition all_on (id : nat) (s : shared) : Prop :=
  forall c, In c (calls s) -> exists r, c_at c = Finished id r.

Lemma whole_call_known f s id ctx item : node s = Some id -> all_on id s ->
  node (run f s (whole_call (List.length (calls s)) ctx item)) = Some id /\
  all_on id (run f s (whole_call (List.length (calls s)) ctx item)) /\
  List.length (calls (run f s (whole_call (List.length (calls s)) ctx item))) = S (List.length (calls s)).
Proof.
  intros HN HA. cbn [run whole_call fold_left step]. cbn [calls]. rewrite HN, nth_end. cbn [calls].
  rewrite nth_end. cbn [calls]. rewrite nth_end. cbn [calls node]. rewrite moved_end. split; [reflexivity|]. split.
  - intros c I. cbn [calls] in I. apply in_app_or in I. destruct I as [I|[<-|[]]]; [now apply HA|]. cbn. eauto.
  - rewrite app_length. cbn. lia.
Qed.

Lemma calls_known f id : forall l s, node s = Some id -> all_on id s ->
  node (run f s (one_after_other (List.length (calls s)) l)) = Some id /\
  all_on id (run f s (one_after_other (List.length (calls s)) l)) /\
  List.length (calls (run f s (one_after_other (List.length (calls s)) l))) = List.length (calls s) + List.length l.
Proof.
  induction l as [|[c v] l IH]; intros s HN HA; [cbn; auto|].
  cbn [one_after_other]. unfold run. rewrite fold_left_app. fold (run f s (whole_call (List.length (calls s)) c v)).
  destruct (whole_call_known f s id c v HN HA) as (HN' & HA' & HL). rewrite <- HL.
  destruct (IH _ HN' HA') as (A & B & C). split; [exact A|]. split; [exact B|]. unfold run in *. rewrite C. cbn [List.length].
  unfold run in HL. lia.
Qed.

(** A query run by one goroutine from its very first row: every call returns,
    and all of them are counted in one place. *)
Theorem C80_one_goroutine : forall f s l,
  never_called s ->
  let s' := run f s (one_after_other 0 l) in
  List.length (calls s') = List.length l /\
  forall ctx, exists id, serial f None (slots s' ctx id) (returned ctx (calls s')).
Proof.
  intros f s l (HN & HC & HS) s'. destruct l as [|[c v] l].
  - split; [cbn; now rewrite HC|]. intros ctx. exists (next_id s). subst s'. cbn. rewrite HC, HS by lia.
    apply serial_nil.
  - set (s1 := run f s (whole_call 0 c v)).
    assert (E1 : node s1 = Some (next_id s) /\
                 calls s1 = [{| c_ctx := c; c_item := v; c_at := Finished (next_id s) (f v (slots s c (next_id s))) |}]).
    { subst s1. cbn [run whole_call fold_left step]. rewrite HC, HN. cbn. auto. }
    destruct E1 as [N1 C1].
    assert (A1 : all_on (next_id s) s1) by (intros x I; rewrite C1 in I; destruct I as [<-|[]]; cbn; eauto).
    pose proof (calls_known f (next_id s) l s1 N1 A1) as (NF & AF & LF).
    assert (ES : s' = run f s1 (one_after_other (List.length (calls s1)) l)).
    { subst s' s1. rewrite C1. cbn [one_after_other List.length]. unfold run. now rewrite fold_left_app. }
    rewrite <- ES in *. split.
    + rewrite LF, C1. reflexivity.
    + intros ctx. exists (next_id s).
      pose proof (C80_each_function_is_exact f s (one_after_other 0 ((c, v) :: l)) HC ctx (next_id s)) as H.
      rewrite HS in H by lia. fold s' in H. rewrite all_by_function in H; [exact H|].
      intros x I. destruct (AF x I) as [r ->]. reflexivity.
Qed.

(** ** The first calls race *)

Definition fresh_query : shared := {| node := None; slots := fun _ _ => None; next_id := 1; calls := [] |}.

(** Two workers that both make the first call count one row each: both return
    1, and a third call returns 2. *)
Definition racing : list event :=
  [Begin 0 VNull; Begin 0 VNull; Copy 0; Copy 1; Store 0; Store 1; Apply 0; Apply 1; Begin 0 VNull; Apply 2].

Theorem C80_first_calls_lost_refuted : exists es,
  let done := returned 0 (calls (run (modifier (fun _ _ => false) Count) fresh_query es)) in
  results_of done = [VInt KUint64 1; VInt KUint64 1; VInt KUint64 2] /\
  ~ exists old new, serial (modifier (fun _ _ => false) Count) old new done /\ old = None.
Proof.
  exists racing. split; [reflexivity|].
  intros (old & new & (order & HP & HR & _) & ->). change None with (counted 0) in HR.
  destruct (count_one_by_one (fun _ _ => false) (items_of order) 0) as [E _]. rewrite E in HR.
  pose proof (Permutation_map (fun x => snd (snd x)) HP) as P.
  change (map (fun x => snd (snd x)) order) with (results_of order) in P. rewrite HR in P.
  unfold items_of in P. rewrite map_length, (Permutation_length HP) in P.
  assert (I : In (VInt KUint64 3) [VInt KUint64 1; VInt KUint64 1; VInt KUint64 2]).
  { apply (Permutation_in _ P). cbn. auto. }
  cbn in I. intuition discriminate.
Qed.

(** How much is lost is not bounded by the number of workers: when one worker
    stops between reading the field and writing it, the others count n rows,
    and after it has gone on the count starts again. *)
Fixpoint busy (i n : nat) : list event :=
  match n with 0 => [] | S n => Begin 0 VNull :: Apply i :: busy (S i) n end.

Lemma busy_known f id : forall n s, node s = Some id ->
  let s' := run f s (busy (List.length (calls s)) n) in
  node s' = Some id /\ next_id s' = next_id s /\ List.length (calls s') = List.length (calls s) + n /\
  (forall i c, nth_error (calls s) i = Some c -> nth_error (calls s') i = Some c) /\
  (forall i c, List.length (calls s) <= i -> nth_error (calls s') i = Some c -> exists r, c_at c = Finished id r) /\
  (forall c j, j <> id -> slots s' c j = slots s c j).
Proof.
  induction n as [|n IH]; intros s HN.
  - cbn. repeat split; auto; try lia. intros i c L H.
    assert (i < List.length (calls s)) by (apply nth_error_Some; congruence). lia.
  - cbn [busy run fold_left]. cbn [step]. rewrite HN. cbn [calls]. rewrite nth_end, moved_end. cbn [c_ctx c_item c_at slots node next_id].
    match goal with |- context [fold_left (step f) _ ?x] => set (s1 := x) end.
    assert (L1 : List.length (calls s1) = S (List.length (calls s))) by (subst s1; cbn; rewrite app_length; cbn; lia).
    rewrite <- L1. destruct (IH s1 eq_refl) as (A & B & C & D & F & G). fold (run f s1 (busy (List.length (calls s1)) n)).
    split; [exact A|]. split; [rewrite B; reflexivity|]. split; [rewrite C, L1; lia|]. split; [|split].
    + intros i c H. apply D. subst s1. cbn [calls]. rewrite nth_error_app1; [exact H|]. apply nth_error_Some. congruence.
    + intros i c L H. destruct (Nat.eq_dec i (List.length (calls s))) as [->|NE].
      * assert (X : nth_error (calls s1) (List.length (calls s)) = Some {| c_ctx := 0; c_item := VNull; c_at := Finished id (f VNull (slots s 0 id)) |})
          by (subst s1; cbn [calls]; apply nth_end).
        apply D in X. rewrite X in H. injection H as <-. cbn. eauto.
      * apply (F i c); [lia|exact H].
    + intros c j NE. rewrite G by exact NE. subst s1. cbn [slots].
      destruct (Nat.eqb_spec j id); [contradiction|]. now rewrite andb_false_r.
Qed.

Definition stalled (n : nat) : list event :=
  [Begin 0 VNull; Begin 0 VNull; Copy 1; Store 1; Apply 1] ++ busy 2 n ++ [Copy 0; Store 0; Apply 0].

Theorem C80_count_starts_again_refuted : forall n, exists es,
  let s := run (modifier (fun _ _ => false) Count) fresh_query es in
  (* the calls number 1 to n+1 returned before the call number 0 wrote the field *)
  List.length (calls s) = n + 2 /\
  (forall c, In c (calls s) -> exists id r, c_at c = Finished id r) /\
  (* yet it returns 1 *)
  option_map c_at (nth_error (calls s) 0) = Some (Finished 2 (VInt KUint64 1)) /\
  (* and so the next call returns 2 *)
  let s' := run (modifier (fun _ _ => false) Count) s [Begin 0 VNull; Apply (n + 2)] in
  option_map c_at (nth_error (calls s') (n + 2)) = Some (Finished 2 (VInt KUint64 2)).
Proof.
  intros n. exists (stalled n). set (f := modifier (fun _ _ => false) Count).
  set (s0 := run f fresh_query [Begin 0 VNull; Begin 0 VNull; Copy 1; Store 1; Apply 1]).
  assert (E0 : calls s0 = [{| c_ctx := 0; c_item := VNull; c_at := Missing |};
                           {| c_ctx := 0; c_item := VNull; c_at := Finished 1 (VInt KUint64 1) |}]) by reflexivity.
  assert (L0 : List.length (calls s0) = 2) by reflexivity.
  destruct (busy_known f 1 n s0 eq_refl) as (A & B & C & D & F & G). rewrite L0 in *.
  set (s1 := run f s0 (busy 2 n)) in *.
  assert (ES : run f fresh_query (stalled n) = run f s1 [Copy 0; Store 0; Apply 0]).
  { unfold stalled, run. rewrite !fold_left_app. reflexivity. }
  cbv zeta. rewrite ES.
  assert (H0 : nth_error (calls s1) 0 = Some {| c_ctx := 0; c_item := VNull; c_at := Missing |}) by (apply D; now rewrite E0).
  assert (SL : slots s1 0 2 = None) by (rewrite G by discriminate; reflexivity).
  assert (HB : next_id s1 = 2) by (rewrite B; reflexivity).
  assert (HC : exists rest, calls s1 = {| c_ctx := 0; c_item := VNull; c_at := Missing |} :: rest).
  { destruct (calls s1) as [|x rest]; [discriminate|]. injection H0 as ->. eauto. }
  destruct HC as [rest HC].
  assert (E2 : calls (run f s1 [Copy 0; Store 0; Apply 0]) =
               {| c_ctx := 0; c_item := VNull; c_at := Finished 2 (VInt KUint64 1) |} :: rest).
  { cbn [run fold_left step]. rewrite HC. cbn [nth_error calls moved firstn skipn app c_ctx c_item slots].
    rewrite HB, SL. reflexivity. }
  assert (N2 : node (run f s1 [Copy 0; Store 0; Apply 0]) = Some 2 /\
               slots (run f s1 [Copy 0; Store 0; Apply 0]) 0 2 = Some (VInt KUint64 1)).
  { cbn [run fold_left step]. rewrite HC. cbn [nth_error calls moved firstn skipn app c_ctx c_item slots node].
    rewrite HB, SL. split; reflexivity. }
  destruct N2 as [N2 S2]. set (s2 := run f s1 [Copy 0; Store 0; Apply 0]) in *.
  assert (LR : List.length rest = S n) by (rewrite HC in C; cbn [List.length] in C; lia).
  assert (L2 : List.length (calls s2) = n + 2) by (rewrite E2; cbn [List.length]; lia).
  split; [exact L2|]. split; [|split].
  - rewrite E2. intros c [<-|I]; [cbn; eauto|]. apply In_nth_error in I. destruct I as [i Hi].
    destruct i as [|i].
    + assert (X : nth_error (calls s1) 1 = Some {| c_ctx := 0; c_item := VNull; c_at := Finished 1 (VInt KUint64 1) |})
        by (apply D; now rewrite E0).
      rewrite HC in X. change (nth_error rest 0 = Some {| c_ctx := 0; c_item := VNull; c_at := Finished 1 (VInt KUint64 1) |}) in X. rewrite Hi in X. injection X as ->. cbn. eauto.
    + destruct (F (S (S i)) c) as [r Hr]; [lia| |eauto]. rewrite HC. exact Hi.
  - rewrite E2. reflexivity.
  - cbn [run fold_left step]. cbn [calls]. rewrite N2, <- L2, nth_end. cbn [calls]. rewrite moved_end, nth_end.
    cbn [option_map c_at c_ctx c_item slots]. rewrite S2. reflexivity.
Qed.

(** Three workers on a query that ran before: the calls interleave, and the
    numbers 5, 6 and 7 are returned, in another order. *)
Example C80_demo :
  let s := {| node := Some 3; slots := fun c i => if Nat.eqb i 3 then counted 4 else None; next_id := 9; calls := [] |} in
  let es := [Begin 0 VNull; Begin 0 VNull; Begin 0 VNull; Apply 2; Copy 0; Apply 0; Apply 0; Store 1; Apply 1] in
  node s = Some 3 /\ calls s = [] /\ slots s 0 3 = counted 4 /\
  results_of (returned 0 (calls (run (modifier (fun _ _ => false) Count) s es))) =
    [VInt KUint64 6; VInt KUint64 7; VInt KUint64 5].
Proof. vm_compute. repeat split; reflexivity. Qed.

Example C80_goroutine_demo :
  never_called fresh_query /\
  results_of (returned 0 (calls (run (modifier (fun _ _ => false) Sum) fresh_query
    (one_after_other 0 [(0, vint 5); (1, vint 7); (0, vint (-2))])))) = [vint 5; vint 3].
Proof. split; [repeat split|vm_compute; reflexivity]. Qed.

Example C80_settled_demo :
  settled (run (modifier (fun _ _ => false) Count) fresh_query racing) 2.
Proof.
  split; [reflexivity|]. intros c I. vm_compute in I.
  repeat (destruct I as [<-|I]; [exact Logic.I|]). destruct I.
Qed.

Print Assumptions C80_each_function_is_exact.
Print Assumptions C80_later_calls_share_a_function.
Print Assumptions C80_counted_once_partial.
Print Assumptions C80_count_partial.
Print Assumptions C80_sum_partial.
Print Assumptions C80_enumerate_partial.
Print Assumptions C80_one_goroutine.
Print Assumptions C80_first_calls_lost_refuted.
Print Assumptions C80_count_starts_again_refuted.
