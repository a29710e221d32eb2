(** C84: calls do not block each other for ever. *)

From Coq Require Import List Bool PeanoNat Lia Wf_nat.
From Verif Require Import Locks.
Import ListNotations.
Open Scope nat_scope.

(** ** The specification *)

(** Any schedule: goroutines [ts] move one after the other. *)
Fixpoint schedule (s : locks_state) (ts : list nat) : option locks_state :=
  match ts with
  | [] => Some s
  | t :: ts => match lock_step s t with Some s' => schedule s' ts | None => None end
  end.

(** All calls have returned. *)
Definition all_returned (s : locks_state) : Prop := forall t r, nth_error (todo s) t = Some r -> r = [].

(** Nobody can go on. *)
Definition nobody_moves (s : locks_state) : Prop := forall t, lock_step s t = None.

(** What the host's code may call while a lock is held: [takes c] are the locks
    that a call takes; [may_call] says what is allowed under which lock. *)
Definition takes (W : scopes) (c : call) : list lock :=
  flat_map (fun a => match a with Acquire l => [l] | Release _ => [] end) (script W c).

(** Under the lock of a dispatcher: calls without locks; under that of a scope:
    those that only ask the dispatcher, e.g. to log a message; under that of an
    aggregator: all but other aggregates and lazy attributes; under that of a
    lazy attribute: all but other lazy attributes. *)
Inductive may_take : lock -> lock -> Prop :=
| MT_scope : forall s d, may_take (LScope s) (LDispatcher d)
| MT_aggregator_scope : forall a s, may_take (LAggregator a) (LScope s)
| MT_aggregator_destructors : forall a s, may_take (LAggregator a) (LDestructors s)
| MT_aggregator_dispatcher : forall a d, may_take (LAggregator a) (LDispatcher d)
| MT_aggregator_node : forall a n, may_take (LAggregator a) (LNode n)
| MT_aggregator_parsers : forall a, may_take (LAggregator a) LParsers
| MT_wrapper_aggregator : forall w a, may_take (LWrapper w) (LAggregator a)
| MT_wrapper_scope : forall w s, may_take (LWrapper w) (LScope s)
| MT_wrapper_destructors : forall w s, may_take (LWrapper w) (LDestructors s)
| MT_wrapper_dispatcher : forall w d, may_take (LWrapper w) (LDispatcher d)
| MT_wrapper_node : forall w n, may_take (LWrapper w) (LNode n)
| MT_wrapper_parsers : forall w, may_take (LWrapper w) LParsers.

(** The parts of a node have smaller numbers: it is a tree. *)
Fixpoint well_numbered (t : tree) : Prop :=
  match t with
  | Tree n _ _ parts => fold_right (fun p P => (match p with Tree m _ _ _ => m < n end /\ well_numbered p) /\ P) True parts
  end.

(** The host's code keeps to that. *)
Fixpoint polite (W : scopes) (c : call) : Prop :=
  let under l cb :=
    fold_right (fun c P => (polite W c /\ forall l', In l' (takes W c) -> may_take l l') /\ P) True cb in
  match c with
  | CPrintVars s cb => under (LScope s) cb
  | CInfo d cb => under (LDispatcher d) cb
  | CModify a cb => under (LAggregator a) cb
  | CWrapper w cb => under (LWrapper w) cb
  | CVisit t _ => well_numbered t
  | _ => True
  end.

(** A parent exists before its children. *)
Definition parents_first (W : scopes) : Prop := forall s p, parent W s = Some p -> p < s.

(** ** An order of the locks *)

Definition rank (l : lock) : nat * nat :=
  match l with
  | LDispatcher _ => (0, 0)
  | LParsers => (0, 0)
  | LDestructors _ => (1, 0)
  | LScope s => (2, s)
  | LNode n => (3, n)
  | LAggregator _ => (4, 0)
  | LWrapper _ => (5, 0)
  end.

Definition below (l l' : lock) : Prop :=
  fst (rank l) < fst (rank l') \/ fst (rank l) = fst (rank l') /\ snd (rank l) < snd (rank l').

Lemma below_trans a b c : below a b -> below b c -> below a c.
Proof. unfold below. lia. Qed.

Lemma below_wf : forall P : lock -> Prop, (forall l, (forall l', below l' l -> P l') -> P l) -> forall l, P l.
Proof.
  intros P H.
  assert (G : forall a b l, fst (rank l) = a -> snd (rank l) = b -> P l).
  { induction a as [a IHa] using lt_wf_ind. induction b as [b IHb] using lt_wf_ind. intros l EA EB.
    apply H. intros l' [L|[E L]]; [eapply IHa; eauto; lia|eapply IHb; eauto; lia]. }
  intros l. eapply G; reflexivity.
Qed.

Lemma may_take_below l l' : may_take l l' -> below l' l.
Proof. intros []; unfold below; cbn; lia. Qed.

Lemma lock_eqb_spec a b : reflect (a = b) (lock_eqb a b).
Proof.
  destruct a, b; cbn; try (constructor; congruence);
    match goal with |- reflect _ (Nat.eqb ?x ?y) => destruct (Nat.eqb_spec x y); constructor; congruence end.
Qed.

(** ** Scripts keep to the order *)

Definition acquired (l : list act) : list lock :=
  flat_map (fun a => match a with Acquire l => [l] | Release _ => [] end) l.

(** The locks are released in reverse order, and what is taken is below what
    is held. *)
Fixpoint in_order (held : list lock) (l : list act) : Prop :=
  match l with
  | [] => held = []
  | Acquire x :: l => Forall (below x) held /\ in_order (x :: held) l
  | Release x :: l => exists hs, held = x :: hs /\ in_order hs l
  end.

(** A piece of a script that can be put anywhere where its locks are below
    what is held. *)
Definition tidy (l : list act) : Prop := forall held rest,
  (forall x h, In x (acquired l) -> In h held -> below x h) -> in_order held rest -> in_order held (l ++ rest).

Lemma tidy_nil : tidy [].
Proof. intros held rest _ H. exact H. Qed.

Lemma acquired_app a b : acquired (a ++ b) = acquired a ++ acquired b.
Proof. apply flat_map_app. Qed.

Lemma tidy_app a b : tidy a -> tidy b -> tidy (a ++ b).
Proof.
  intros HA HB held rest H R. rewrite <- app_assoc. rewrite acquired_app in H.
  apply HA; [intros; apply H; auto; apply in_or_app; auto|].
  apply HB; [intros; apply H; auto; apply in_or_app; auto|exact R].
Qed.

Lemma tidy_locked l body : tidy body -> (forall x, In x (acquired body) -> below x l) -> tidy (locked l body).
Proof.
  intros HB HL held rest H R. unfold locked. cbn [app in_order]. split.
  - apply Forall_forall. intros h I. apply H; [now left|exact I].
  - rewrite <- app_assoc. apply HB.
    + intros x h I [<-|J]; [now apply HL|]. apply H; [|exact J]. right. unfold locked. cbn.
      fold (acquired (body ++ [Release l])). rewrite acquired_app. apply in_or_app. now left.
    + cbn. eauto.
Qed.

Lemma tidy_flat {A} (f : A -> list act) l : (forall x, In x l -> tidy (f x)) -> tidy (flat_map f l).
Proof.
  induction l as [|x l IH]; intros H; cbn; [apply tidy_nil|]. apply tidy_app; [apply H; now left|].
  apply IH. intros y I. apply H. now right.
Qed.

Lemma acquired_locked l body x : In x (acquired (locked l body)) <-> x = l \/ In x (acquired body).
Proof.
  unfold locked. cbn. fold (acquired (body ++ [Release l])). rewrite acquired_app, in_app_iff. cbn. intuition.
Qed.

Lemma acquired_flat {A} (f : A -> list act) l x : In x (acquired (flat_map f l)) <-> exists y, In y l /\ In x (acquired (f y)).
Proof.
  induction l as [|y l IH]; cbn; [firstorder|]. rewrite acquired_app, in_app_iff, IH. firstorder (subst; eauto).
Qed.

Ltac below := unfold below; cbn; lia.

Lemma tidy_one l : tidy (locked l []).
Proof. apply tidy_locked; [apply tidy_nil|intros x []]. Qed.

Lemma find_aggregator_tidy W : parents_first W -> forall up s,
  tidy (find_aggregator W up s) /\
  forall x, In x (acquired (find_aggregator W up s)) -> exists p, x = LScope p /\ p <= s.
Proof.
  intros PF. induction up as [|up IH]; intros s; cbn [find_aggregator].
  - split; [apply tidy_one|]. intros x I. apply acquired_locked in I as [->|[]]. eauto.
  - destruct (parent W s) as [p|] eqn:EP.
    + specialize (PF s p EP). destruct (IH p) as [T A]. split.
      * apply tidy_locked; [exact T|]. intros x I. destruct (A x I) as (q & -> & L). below.
      * intros x I. apply acquired_locked in I as [->|I]; [eauto|]. destruct (A x I) as (q & -> & L).
        exists q. split; [reflexivity|lia].
    + split; [apply tidy_one|]. intros x I. apply acquired_locked in I as [->|[]]. eauto.
Qed.

Lemma add_destructor_tidy W s b : tidy (add_destructor W s b).
Proof.
  unfold add_destructor. apply tidy_locked.
  - apply tidy_app; [apply tidy_one|]. destruct b; apply tidy_one.
  - intros x I. rewrite acquired_app in I. apply in_app_or in I as [I|I].
    + apply acquired_locked in I as [->|[]]. below.
    + destruct b; apply acquired_locked in I as [->|[]]; below.
Qed.

Fixpoint closing_ind' (P : closing -> Prop)
  (H : forall s cs r, Forall P cs -> P (Closing s cs r)) (t : closing) : P t :=
  match t with
  | Closing s cs r =>
      H s cs r ((fix go (l : list closing) : Forall P l :=
        match l with [] => Forall_nil _ | x :: l => Forall_cons _ (closing_ind' P H x) (go l) end) cs)
  end.

Fixpoint tree_ind' (P : tree -> Prop)
  (H : forall n h g ps, Forall P ps -> P (Tree n h g ps)) (t : tree) : P t :=
  match t with
  | Tree n h g ps =>
      H n h g ps ((fix go (l : list tree) : Forall P l :=
        match l with [] => Forall_nil _ | x :: l => Forall_cons _ (tree_ind' P H x) (go l) end) ps)
  end.

(** What is called back. *)
Definition callbacks (c : call) : list call :=
  match c with CPrintVars _ cb | CInfo _ cb | CModify _ cb | CWrapper _ cb => cb | _ => [] end.

Section CallInd.
  Variable P : call -> Prop.
  Variable H : forall c, Forall P (callbacks c) -> P c.

  Fixpoint call_ind' (c : call) : P c :=
    let go := (fix go (l : list call) : Forall P l :=
        match l with [] => Forall_nil _ | x :: l => Forall_cons _ (call_ind' x) (go l) end) in
    match c as c0 return P c0 with
    | CPrintVars s cb => H (CPrintVars s cb) (go cb)
    | CInfo s cb => H (CInfo s cb) (go cb)
    | CModify s cb => H (CModify s cb) (go cb)
    | CWrapper s cb => H (CWrapper s cb) (go cb)
    | c => H c (Forall_nil _)
    end.
End CallInd.

Lemma close_tidy W : forall t, tidy (close_scope W t).
Proof.
  induction t as [s cs r IH] using closing_ind'. cbn [close_scope].
  apply tidy_app; [apply tidy_one|]. apply tidy_app.
  { apply tidy_flat. rewrite Forall_forall in IH. exact IH. }
  apply tidy_app; [destruct (parent W s); [apply tidy_one|apply tidy_nil]|].
  apply tidy_app; [|apply tidy_one].
  induction r as [|r IHr]; cbn [repeat concat]; [apply tidy_nil|]. apply tidy_app; [apply tidy_one|exact IHr].
Qed.

Lemma visit_tidy d : forall t, well_numbered t ->
  tidy (visit d t) /\
  forall x, In x (acquired (visit d t)) ->
    x = LDispatcher d \/ exists m, x = LNode m /\ match t with Tree n _ _ _ => m <= n end.
Proof.
  induction t as [n h g ps IH] using tree_ind'. intros WN. cbn [well_numbered] in WN.
  assert (PARTS : forall p, In p ps -> tidy (visit d p) /\
    forall x, In x (acquired (visit d p)) -> x = LDispatcher d \/ exists m, x = LNode m /\ m < n).
  { clear - IH WN. induction ps as [|p ps IHp]; intros q I; [destruct I|].
    inversion IH as [|? ? H1 H2]; subst. destruct WN as [[L WP] WN].
    destruct I as [<-|I]; [|now apply IHp]. destruct (H1 WP) as [T A]. split; [exact T|].
    intros x J. destruct (A x J) as [->|(m & -> & M)]; [now left|]. right. exists m. split; [reflexivity|].
    destruct p. lia. }
  assert (TP : tidy (flat_map (visit d) ps)) by (apply tidy_flat; intros p I; now apply PARTS).
  assert (AP : forall x, In x (acquired (flat_map (visit d) ps)) -> x = LDispatcher d \/ exists m, x = LNode m /\ m < n).
  { intros x I. apply acquired_flat in I as (p & I & J). now apply (PARTS p I). }
  assert (TL : tidy (if g then locked (LDispatcher d) [] else [])) by (destruct g; [apply tidy_one|apply tidy_nil]).
  assert (AL : forall x, In x (acquired (if g then locked (LDispatcher d) [] else [])) -> x = LDispatcher d).
  { intros x I. destruct g; [|destruct I]. apply acquired_locked in I as [->|[]]. reflexivity. }
  cbn [visit]. destruct h; split.
  - apply tidy_locked; [now apply tidy_app|]. intros x I. rewrite acquired_app in I. apply in_app_or in I as [I|I].
    + rewrite (AL x I). below.
    + destruct (AP x I) as [->|(m & -> & L)]; below.
  - intros x I. apply acquired_locked in I as [->|I]; [right; exists n; split; [reflexivity|lia]|].
    rewrite acquired_app in I. apply in_app_or in I as [I|I]; [left; auto|].
    destruct (AP x I) as [->|(m & -> & L)]; [now left|]. right. exists m. split; [reflexivity|lia].
  - apply tidy_app; [|exact TP]. apply tidy_locked; [exact TL|]. intros x I. rewrite (AL x I). below.
  - intros x I. rewrite acquired_app in I. apply in_app_or in I as [I|I].
    + apply acquired_locked in I as [->|I]; [right; exists n; split; [reflexivity|lia]|left; auto].
    + destruct (AP x I) as [->|(m & -> & L)]; [now left|]. right. exists m. split; [reflexivity|lia].
Qed.

Lemma under_spec W l cb :
  fold_right (fun c P => (polite W c /\ forall l', In l' (takes W c) -> may_take l l') /\ P) True cb ->
  Forall (fun c => polite W c) cb /\
  forall x, In x (acquired (flat_map (script W) cb)) -> below x l.
Proof.
  intros U. induction cb as [|c cb IH]; cbn [fold_right] in U; [split; [constructor|intros x []]|].
  destruct U as [[PC TC] U]. destruct (IH U) as [I1 I2]. split; [now constructor|].
  intros x I. cbn [flat_map] in I. rewrite acquired_app in I. apply in_app_or in I as [I|I]; [|auto].
  apply may_take_below, TC. exact I.
Qed.

Lemma script_tidy W : parents_first W -> forall c, polite W c -> tidy (script W c).
Proof.
  intros PF. induction c as [c IH] using call_ind'. intros HP.
  assert (CB : forall l, fold_right (fun c P => (polite W c /\ forall l', In l' (takes W c) -> may_take l l') /\ P) True (callbacks c) ->
            tidy (locked l (flat_map (script W) (callbacks c)))).
  { intros l U. destruct (under_spec W l _ U) as [U1 U2]. apply tidy_locked; [|exact U2].
    apply tidy_flat. intros x I. rewrite Forall_forall in IH, U1. auto. }
  destruct c; cbn [script callbacks polite] in *; try apply tidy_one; try (now apply CB).
  - now apply find_aggregator_tidy.
  - apply add_destructor_tidy.
  - apply tidy_locked; [apply tidy_one|]. intros x I. apply acquired_locked in I as [->|[]]. below.
  - apply close_tidy.
  - apply tidy_app; [apply tidy_one|apply add_destructor_tidy].
  - apply tidy_locked; [destruct on; [apply tidy_one|apply tidy_nil]|]. intros x I.
    destruct on; [|destruct I]. apply acquired_locked in I as [->|[]]. below.
  - apply tidy_locked; [destruct logs; [apply tidy_one|apply tidy_nil]|]. intros x I.
    destruct logs; [|destruct I]. apply acquired_locked in I as [->|[]]. below.
  - now apply visit_tidy.
Qed.

(** ** Goroutines that keep to the order *)

Definition holds (helds : list (list lock)) (t : nat) (l : lock) : Prop :=
  exists h, nth_error helds t = Some h /\ In l h.

Record orderly (s : locks_state) (helds : list (list lock)) : Prop := {
  o_length : List.length helds = List.length (todo s);
  o_order : forall t h r, nth_error helds t = Some h -> nth_error (todo s) t = Some r -> in_order h r;
  o_once : forall t h, nth_error helds t = Some h -> NoDup h;
  o_holder : forall l t, holder s l = Some t <-> holds helds t l
}.

Lemma nth_goes_on {A} t (x : A) l t' : t < List.length l ->
  nth_error (goes_on t x l) t' = if Nat.eqb t t' then Some x else nth_error l t'.
Proof.
  intros L. unfold goes_on.
  assert (LF : List.length (firstn t l) = t) by (rewrite firstn_length; lia).
  destruct (Nat.eqb_spec t t') as [<-|NE].
  - rewrite nth_error_app2 by lia. now rewrite LF, Nat.sub_diag.
  - destruct (Nat.lt_ge_cases t' t) as [H|H].
    + rewrite nth_error_app1 by lia. rewrite <- (firstn_skipn t l) at 2. rewrite nth_error_app1 by lia. reflexivity.
    + rewrite nth_error_app2 by lia. rewrite LF. destruct (t' - t) as [|k] eqn:EK; [lia|]. cbn [nth_error].
      rewrite <- (firstn_skipn (S t) l) at 2. rewrite nth_error_app2; rewrite firstn_length; [|lia].
      f_equal. lia.
Qed.

Lemma length_goes_on {A} t (x : A) l : t < List.length l -> List.length (goes_on t x l) = List.length l.
Proof. intros L. unfold goes_on. rewrite app_length, firstn_length. cbn [List.length]. rewrite skipn_length. lia. Qed.

Lemma orderly_start W calls : parents_first W -> Forall (Forall (polite W)) calls ->
  orderly (goroutines W calls) (map (fun _ => []) calls).
Proof.
  intros PF HP. constructor; cbn [goroutines holder todo].
  - now rewrite !map_length.
  - intros t h r H1 H2. rewrite nth_error_map in H1, H2. destruct (nth_error calls t) as [cs|] eqn:EC; [|discriminate].
    injection H1 as <-. injection H2 as <-. apply nth_error_In in EC. rewrite Forall_forall in HP.
    specialize (HP cs EC). rewrite Forall_forall in HP.
    rewrite <- (app_nil_r (flat_map _ _)). apply tidy_flat; [|intros ? ? _ []|reflexivity].
    intros c I. apply script_tidy; auto.
  - intros t h H. rewrite nth_error_map in H. destruct (nth_error calls t); [|discriminate]. injection H as <-. constructor.
  - intros l t. split; [discriminate|]. intros (h & H & I). rewrite nth_error_map in H.
    destruct (nth_error calls t); [|discriminate]. injection H as <-. destruct I.
Qed.

Lemma orderly_step s helds t s' : orderly s helds -> lock_step s t = Some s' -> exists helds', orderly s' helds'.
Proof.
  intros O ST. unfold lock_step in ST. destruct (nth_error (todo s) t) as [r0|] eqn:ET; [|discriminate].
  assert (LT : t < List.length (todo s)) by (apply nth_error_Some; congruence).
  assert (LH : t < List.length helds) by (rewrite (o_length _ _ O); exact LT).
  destruct (nth_error helds t) as [h|] eqn:EH; [|apply nth_error_None in EH; lia].
  pose proof (o_order _ _ O t h r0 EH ET) as IO. pose proof (o_once _ _ O t h EH) as ND.
  destruct r0 as [|[l|l] r]; [discriminate| |].
  - destruct (holder s l) eqn:EL; [discriminate|]. injection ST as <-. destruct IO as [_ IO].
    assert (FREE : forall t', ~ holds helds t' l) by (intros t' H; apply (o_holder _ _ O) in H; congruence).
    exists (goes_on t (l :: h) helds). constructor; cbn [todo holder].
    + rewrite !length_goes_on; auto. apply (o_length _ _ O).
    + intros t' h' r'. rewrite !nth_goes_on by assumption. destruct (Nat.eqb_spec t t').
      * intros H1 H2. injection H1 as <-. injection H2 as <-. exact IO.
      * apply (o_order _ _ O).
    + intros t' h'. rewrite nth_goes_on by assumption. destruct (Nat.eqb_spec t t'); [|apply (o_once _ _ O)].
      intros H. injection H as <-. constructor; [|exact ND]. intros I. apply (FREE t). exists h. auto.
    + intros l' t'. unfold holds. rewrite nth_goes_on by assumption.
      destruct (lock_eqb_spec l l') as [<-|NE].
      * split.
        -- intros H. injection H as <-. rewrite Nat.eqb_refl. eexists. split; [reflexivity|now left].
        -- intros (h' & H & I). destruct (Nat.eqb_spec t t') as [<-|]; [reflexivity|].
           exfalso. apply (FREE t'). exists h'. auto.
      * rewrite (o_holder _ _ O). unfold holds. destruct (Nat.eqb_spec t t') as [<-|]; [|reflexivity].
        rewrite EH. split; intros (h' & H & I); injection H as <-; eexists; (split; [reflexivity|]).
        -- now right.
        -- destruct I as [->|I]; [congruence|exact I].
  - injection ST as <-. destruct IO as (hs & -> & IO). inversion ND as [|? ? NI ND']; subst.
    assert (MINE : holder s l = Some t) by (apply (o_holder _ _ O); exists (l :: hs); split; [exact EH|now left]).
    exists (goes_on t hs helds). constructor; cbn [todo holder].
    + rewrite !length_goes_on; auto. apply (o_length _ _ O).
    + intros t' h' r'. rewrite !nth_goes_on by assumption. destruct (Nat.eqb_spec t t').
      * intros H1 H2. injection H1 as <-. injection H2 as <-. exact IO.
      * apply (o_order _ _ O).
    + intros t' h'. rewrite nth_goes_on by assumption. destruct (Nat.eqb_spec t t'); [|apply (o_once _ _ O)].
      intros H. now injection H as <-.
    + intros l' t'. unfold holds. rewrite nth_goes_on by assumption.
      destruct (lock_eqb_spec l l') as [<-|NE].
      * split; [discriminate|]. intros (h' & H & I). destruct (Nat.eqb_spec t t') as [<-|NT].
        -- injection H as <-. contradiction.
        -- assert (holder s l = Some t') by (apply (o_holder _ _ O); exists h'; auto). congruence.
      * rewrite (o_holder _ _ O). unfold holds. destruct (Nat.eqb_spec t t') as [<-|]; [|reflexivity].
        rewrite EH. split; intros (h' & H & I); injection H as <-; eexists; (split; [reflexivity|]).
        -- destruct I as [->|I]; [congruence|exact I].
        -- now right.
Qed.

(** Whoever holds a lock, somebody can go on. *)
Lemma somebody_moves s helds : orderly s helds -> forall l t, holder s l = Some t -> ~ nobody_moves s.
Proof.
  intros O. induction l as [l IH] using below_wf. intros t H N.
  pose proof (proj1 (o_holder _ _ O l t) H) as (h & EH & I).
  assert (LT : t < List.length (todo s)) by (rewrite <- (o_length _ _ O); apply nth_error_Some; congruence).
  destruct (nth_error (todo s) t) as [r|] eqn:ET; [|apply nth_error_None in ET; lia].
  pose proof (o_order _ _ O t h r EH ET) as IO. specialize (N t) as NT. unfold lock_step in NT. rewrite ET in NT.
  destruct r as [|[x|x] r]; [cbn in IO; subst h; destruct I| |discriminate].
  destruct (holder s x) as [t'|] eqn:EX; [|discriminate]. destruct IO as [B _]. rewrite Forall_forall in B.
  exact (IH x (B l I) t' EX N).
Qed.

Lemma stuck_is_done s helds : orderly s helds -> nobody_moves s -> all_returned s.
Proof.
  intros O N t r ET. destruct r as [|[x|x] r]; [reflexivity| |].
  - exfalso. specialize (N t) as NT. unfold lock_step in NT. rewrite ET in NT.
    destruct (holder s x) as [t'|] eqn:EX; [|discriminate]. exact (somebody_moves s helds O x t' EX N).
  - specialize (N t) as NT. unfold lock_step in NT. rewrite ET in NT. discriminate.
Qed.

Lemma orderly_schedule : forall ts s helds s', orderly s helds -> schedule s ts = Some s' -> exists helds', orderly s' helds'.
Proof.
  induction ts as [|t ts IH]; intros s helds s' O E; cbn in E; [injection E as <-; eauto|].
  destruct (lock_step s t) as [s1|] eqn:ST; [|discriminate]. destruct (orderly_step _ _ _ _ O ST) as [h1 O1]. eauto.
Qed.

(** ** C84 *)

(** Whatever calls any number of goroutines make, and whatever the schedule:
    when nobody can go on, all calls have returned. *)
Theorem C84_no_deadlock_partial : forall W calls ts s,
  parents_first W -> Forall (Forall (polite W)) calls ->
  schedule (goroutines W calls) ts = Some s -> nobody_moves s -> all_returned s.
Proof.
  intros W calls ts s PF HP E N. pose proof (orderly_start W calls PF HP) as O.
  destruct (orderly_schedule _ _ _ _ O E) as [h O']. now apply (stuck_is_done s h).
Qed.

Lemma total_goes_on t x (l : list (list act)) y : nth_error l t = Some (y :: x) ->
  S (List.length (concat (goes_on t x l))) = List.length (concat l).
Proof.
  revert l. induction t as [|t IH]; intros [|z l] H; try discriminate.
  - injection H as ->. cbn. reflexivity.
  - cbn in H. specialize (IH l H). change (goes_on (S t) x (z :: l)) with (z :: goes_on t x l).
    cbn [concat]. rewrite !app_length. lia.
Qed.

(** No schedule goes on for ever, and every schedule can be continued until
    all calls have returned. *)
Theorem C84_all_calls_return_partial : forall W calls,
  parents_first W -> Forall (Forall (polite W)) calls ->
  exists n, forall ts s, schedule (goroutines W calls) ts = Some s ->
    List.length ts <= n /\
    exists ts' s', schedule s ts' = Some s' /\ all_returned s'.
Proof.
  intros W calls PF HP. exists (List.length (concat (todo (goroutines W calls)))).
  assert (DEC : forall s t s', lock_step s t = Some s' -> S (List.length (concat (todo s'))) = List.length (concat (todo s))).
  { intros s t s' H. unfold lock_step in H. destruct (nth_error (todo s) t) as [[|[l|l] r]|] eqn:ET; try discriminate.
    - destruct (holder s l); [discriminate|]. injection H as <-. cbn. eapply total_goes_on; eauto.
    - injection H as <-. cbn. eapply total_goes_on; eauto. }
  assert (LEN : forall ts s s', schedule s ts = Some s' ->
            List.length ts + List.length (concat (todo s')) = List.length (concat (todo s))).
  { induction ts as [|t ts IH]; intros s s' E; cbn in E; [injection E as <-; reflexivity|].
    destruct (lock_step s t) as [s1|] eqn:ST; [|discriminate]. apply DEC in ST. apply IH in E. cbn. lia. }
  intros ts s E. split; [apply LEN in E; lia|].
  destruct (orderly_schedule _ _ _ _ (orderly_start W calls PF HP) E) as [h O]. clear E.
  remember (List.length (concat (todo s))) as n eqn:EN. revert s h O EN.
  induction n as [n IH] using lt_wf_ind. intros s h O EN.
  assert (D : (exists t s1, lock_step s t = Some s1) \/ nobody_moves s).
  { assert (D : forall k, (exists t s1, lock_step s t = Some s1) \/ forall t, t < k -> lock_step s t = None).
    { induction k as [|k [D|D]]; [right; intros; lia|now left|].
      destruct (lock_step s k) eqn:EK; [left; eauto|]. right. intros t L.
      destruct (Nat.eq_dec t k) as [->|]; [exact EK|]. apply D. lia. }
    destruct (D (List.length (todo s))) as [D1|D1]; [now left|]. right. intros t.
    destruct (Nat.lt_ge_cases t (List.length (todo s))) as [L|L]; [now apply D1|].
    unfold lock_step. apply nth_error_None in L. now rewrite L. }
  destruct D as [(t & s1 & ST)|N].
  - destruct (orderly_step _ _ _ _ O ST) as [h1 O1].
    destruct (IH (List.length (concat (todo s1)))) with (s := s1) (h := h1) as (ts' & s' & E' & R); auto.
    { apply DEC in ST. lia. }
    exists (t :: ts'), s'. cbn. rewrite ST. auto.
  - exists [], s. split; [reflexivity|]. now apply (stuck_is_done s h).
Qed.

(** Calls that call no code of the host while they hold a lock are always
    allowed. *)
Theorem C84_own_calls_are_polite : forall W c, callbacks c = [] ->
  match c with CVisit t _ => well_numbered t | _ => True end -> polite W c.
Proof. intros W c E H. destruct c; cbn in *; subst; auto. Qed.

(** ** Where it fails *)

(** Blocked for ever with one goroutine: an Info method of the host that logs
    a message, members of a host object that need the scope while the variables
    are printed, a comparison of the host that evaluates an aggregate of the
    same query, a lazy attribute whose method reads the attribute. *)
Theorem C84_callback_refuted : forall W c d s a w,
  In c [CInfo d [CDispatcher d]; CPrintVars s [CScope s]; CModify a [CModify a []]; CWrapper w [CWrapper w []]] ->
  exists st, schedule (goroutines W [[c]]) [0] = Some st /\ nobody_moves st /\ ~ all_returned st.
Proof.
  intros W c d s a w I. cbn [In] in I.
  repeat (destruct I as [<-|I];
    [eexists; split; [reflexivity|]; split;
     [intros [|[|t]]; unfold lock_step; cbn; rewrite ?Nat.eqb_refl; reflexivity
     |intros R; specialize (R 0 _ eq_refl); discriminate]|]).
  destruct I.
Qed.

(** Two lazy attributes that read each other are fine for one goroutine, and
    block two. *)
Theorem C84_crossing_attributes_refuted : forall W,
  let a := CWrapper 1 [CWrapper 2 []] in
  let b := CWrapper 2 [CWrapper 1 []] in
  (exists ts s, schedule (goroutines W [[a; b]]) ts = Some s /\ all_returned s) /\
  (exists ts s, schedule (goroutines W [[a]; [b]]) ts = Some s /\ nobody_moves s /\ ~ all_returned s).
Proof.
  intros W a b. split.
  - exists (repeat 0 8). eexists. split; [reflexivity|].
    intros [|[|t]] r H; cbn in H; congruence.
  - exists [0; 1]. eexists. split; [reflexivity|]. split.
    + intros [|[|[|t]]]; reflexivity.
    + intros R. specialize (R 0 _ eq_refl). discriminate.
Qed.

(** Three goroutines: one closes a scope with two children, one looks for an
    aggregator from a grandchild upwards and counts, one adds a destructor and
    formats a query. *)
Definition family : scopes := {| parent := fun n => match n with 0 => None | S p => Some p end; dispatcher_of := fun _ => 0 |}.
Definition at_work : list (list call) :=
  [[CClose (Closing 0 [Closing 1 [Closing 2 [] 1] 0] 2)];
   [CFindAggregator 2 2; CModify 0 [CScope 1; CDispatcher 0]; CExplainer 1 true];
   [CAddDestructor 1 true; CVisit (Tree 9 true false [Tree 5 false true [Tree 3 true false []]]) 1;
    CWrapper 4 [CModify 7 []]]].

Example C84_demo : parents_first family /\ Forall (Forall (polite family)) at_work /\
  List.length (concat (todo (goroutines family at_work))) = 56.
Proof.
  split; [|split; [|reflexivity]].
  - intros [|s] p E; [discriminate|]. injection E as <-. lia.
  - repeat constructor; cbn; try lia.
    + intros l' [<-|[]]. constructor.
    + intros l' [<-|[]]. constructor.
    + intros l' [<-|[]]. constructor.
Qed.

Print Assumptions C84_no_deadlock_partial.
Print Assumptions C84_all_calls_return_partial.
Print Assumptions C84_own_calls_are_polite.
Print Assumptions C84_callback_refuted.
Print Assumptions C84_crossing_attributes_refuted.
