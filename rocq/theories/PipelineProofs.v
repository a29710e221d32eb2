(** Lemmas about the goroutine trees of Pipeline.v. *)

From Coq Require Import List Bool ZArith Lia.
From Verif Require Import Pipeline.
Import ListNotations.

Section P.
Context {row : Type}.
Notation sys := (sys row).
Notation stage := (stage row).
Notation label := (label row).

(** Induction through the lists of chain(). *)
Section Ind.
  Variable P : sys -> Prop.
  Hypothesis HS : forall sel l cl, P (Source sel l cl).
  Hypothesis HN : forall T p ch, P ch -> P (Node T p ch).
  Hypothesis HC : forall old cur pend rest cl,
    Forall P old -> (forall q, cur = Some q -> P q) -> Forall P rest -> P (Chain old cur pend rest cl).
  Fixpoint sys_ind' (s : sys) : P s :=
    match s with
    | Source sel l cl => HS sel l cl
    | Node T p ch => HN T p ch (sys_ind' ch)
    | Chain old cur pend rest cl =>
        let fix all (l : list sys) : Forall P l :=
          match l with [] => Forall_nil _ | x :: l' => Forall_cons x (sys_ind' x) (all l') end in
        HC old cur pend rest cl (all old)
           (match cur as c return forall q, c = Some q -> P q with
            | Some q0 => fun q E => match E in _ = o return match o with Some q => P q | None => True end with
                                     | eq_refl => sys_ind' q0 end
            | None => fun q E => match E in _ = o return match o with Some q => P q | None => True end with
                                     | eq_refl => I end
            end)
           (all rest)
    end.
End Ind.

(** * Inversion *)

Ltac cases := repeat match goal with
  | H : _ \/ _ |- _ => destruct H
  | H : _ /\ _ |- _ => destruct H
  | H : exists _, _ |- _ => destruct H
  | H : False |- _ => destruct H
  end; subst; try discriminate; auto.

Definition quiet (l : label) : Prop := l = Tau \/ l = Shut.

Definition child_step (c : bool) {T : stage} (p : pc T) (ch : sys) (l : label) (s' : sys) : Prop :=
  exists l0 ch', step (child_ctx c p) ch l0 ch' /\ quiet l0 /\ l = Tau /\ s' = Node T p ch'.

Definition node_step (c : bool) {T : stage} (p : pc T) (ch : sys) (l : label) (s' : sys) : Prop :=
  child_step c p ch l s' \/
  match p with
  | Reading s =>
      (exists r ch', step (child_ctx c p) ch (Out r) ch' /\ l = Tau /\
                     s' = Node T (after T (on_row T s r)) ch') \/
      (is_closed ch = true /\ l = Tau /\ s' = Node T (Sending (on_end T s) None) ch) \/
      (c = true /\ sel_recv T = true /\ l = Tau /\ s' = Node T (Sending (on_cancel T s) None) ch)
  | Sending (r :: rs) k =>
      (l = Out r /\ s' = Node T (Sending rs k) ch) \/
      (c = true /\ sel_send T = true /\ exists s, aborted T k = Reading s /\ l = Tau /\ s' = Node T (Reading s) ch) \/
      (c = true /\ sel_send T = true /\ aborted T k = Closed /\ l = Shut /\ s' = Node T Closed ch)
  | Sending [] (Some s) => l = Tau /\ s' = Node T (Reading s) ch
  | Sending [] None => l = Shut /\ s' = Node T Closed ch
  | Closed => False
  end.

Definition chain_step (c : bool) old cur pend rest cl (l : label) (s' : sys) : Prop :=
  (exists a s b l0 s0, old = a ++ s :: b /\ step c s l0 s0 /\ quiet l0 /\ l = Tau /\
      s' = Chain (a ++ s0 :: b) cur pend rest cl) \/
  (exists s l0 s0, cur = Some s /\ step c s l0 s0 /\ quiet l0 /\ l = Tau /\
      s' = Chain old (Some s0) pend rest cl) \/
  (cl = false /\
   match pend, cur, rest with
   | Some r, _, _ => (l = Out r /\ s' = Chain old cur None rest false) \/
                     (c = true /\ l = Shut /\ s' = Chain old cur (Some r) rest true)
   | None, Some s, _ =>
       (exists r s0, step c s (Out r) s0 /\ l = Tau /\ s' = Chain old (Some s0) (Some r) rest false) \/
       (is_closed s = true /\ l = Tau /\ s' = Chain (s :: old) None None rest false)
   | None, None, q :: rest' => l = Tau /\ s' = Chain old (Some q) None rest' false
   | None, None, [] => l = Shut /\ s' = Chain old None None [] true
   end).

Definition source_step (c : bool) (sel : bool) (rs : list row) (cl : bool) (l : label) (s' : sys) : Prop :=
  cl = false /\
  ((exists r rs', rs = r :: rs' /\ l = Out r /\ s' = Source sel rs' false) \/
   (rs = [] /\ l = Shut /\ s' = Source sel [] true) \/
   (c = true /\ sel = true /\ l = Shut /\ s' = Source true rs true)).

Lemma step_inv : forall c (s : sys) l (s' : sys), step c s l s' ->
  match s with
  | Source sel rs cl => source_step c sel rs cl l s'
  | Node T p ch => node_step c p ch l s'
  | Chain old cur pend rest cl => chain_step c old cur pend rest cl l s'
  end.
Proof.
  intros c s l s' H.
  destruct H; unfold source_step, node_step, chain_step, child_step, quiet.
  - split; auto. left. do 2 eexists. auto.
  - split; auto.
  - split; auto. right. right. auto.
  - right. left. do 2 eexists. split; [eassumption|auto].
  - right. right. left. auto.
  - right. right. right. auto.
  - right. left. auto.
  - right. auto.
  - right. auto.
  - right. right. left. split; auto. split; auto. eexists. eauto.
  - right. right. right. auto.
  - left. do 2 eexists. split; [eassumption|auto].
  - right. right. auto.
  - right. right. split; auto. left. do 2 eexists. split; [eassumption|auto].
  - right. right. split; auto.
  - right. right. split; auto.
  - right. right. split; auto.
  - right. right. split; auto.
  - right. left. do 3 eexists. split; [reflexivity|]. split; [eassumption|auto].
  - left. do 5 eexists. split; [reflexivity|]. split; [eassumption|auto].
Qed.

Lemma closed_step : forall c (s : sys) l (s' : sys), step c s l s' -> is_closed s = true -> l = Tau /\ is_closed s' = true.
Proof.
  intros c s l s' H E. destruct s as [sel rs cl|T p ch|old cur pend rest cl]; apply step_inv in H.
  - simpl in E. destruct H. congruence.
  - destruct p; try discriminate. destruct H as [(l0 & ch' & A & B & -> & ->)|[]]. auto.
  - simpl in E. destruct H as [(a & s & b & l0 & s0 & -> & A & B & -> & ->)|[(s & l0 & s0 & -> & A & B & -> & ->)|(F & _)]];
      auto. congruence.
Qed.

Lemma shut_closes : forall c (s s' : sys), step c s Shut s' -> is_closed s = false /\ is_closed s' = true.
Proof.
  intros c s s' H. destruct (is_closed s) eqn:E; [apply closed_step in H; auto; destruct H; discriminate|].
  split; auto.
  destruct s as [sel rs cl|T p ch|old cur pend rest cl]; apply step_inv in H.
  - destruct H as (-> & [(r & rs' & -> & A & B)|[(-> & A & ->)|(-> & -> & A & ->)]]); try discriminate; auto.
  - destruct H as [(l0 & ch' & A & B & C & D)|H]; [discriminate|].
    destruct p as [s|[|r rs] [k|]|]; cases.
  - destruct H as [(a & s & b & l0 & s0 & -> & A & B & C & D)|[(s & l0 & s0 & -> & A & B & C & D)|(F & H)]]; try discriminate.
    destruct pend, cur, rest; cases.
Qed.

Lemma only_shut_closes : forall c (s : sys) l (s' : sys), step c s l s' -> is_closed s = false -> is_closed s' = true -> l = Shut.
Proof.
  intros c s l s' H E E'.
  destruct s as [sel rs cl|T p ch|old cur pend rest cl]; apply step_inv in H.
  - destruct H as (-> & [(r & rs' & -> & A & ->)|[(-> & A & ->)|(-> & -> & A & ->)]]); try discriminate; auto.
  - destruct H as [(l0 & ch' & A & B & C & ->)|H]; [simpl in *; congruence|].
    destruct p as [s|[|r rs] [k|]|]; cases.
  - simpl in E. subst cl.
    destruct H as [(a & s & b & l0 & s0 & -> & A & B & C & ->)|[(s & l0 & s0 & -> & A & B & C & ->)|(F & H)]]; try discriminate.
    destruct pend, cur, rest; cases.
Qed.

(** * What a tree still has to say, uncancelled *)

Fixpoint run (T : stage) (s : st T) (l : list row) : list row :=
  match l with
  | [] => on_end T s
  | r :: l' => fst (on_row T s r) ++ match snd (on_row T s r) with Some s' => run T s' l' | None => [] end
  end.

Fixpoint den (s : sys) : list row :=
  match s with
  | Source _ l cl => if cl then [] else l
  | Node T p ch =>
      match p with
      | Reading s => run T s (den ch)
      | Sending l (Some s) => l ++ run T s (den ch)
      | Sending l None => l
      | Closed => []
      end
  | Chain _ cur pend rest cl =>
      if cl then []
      else match pend with Some r => [r] | None => [] end ++
           match cur with Some q => den q | None => [] end ++
           flat_map den rest
  end.

Lemma den_closed : forall (s : sys), is_closed s = true -> den s = [].
Proof. intros [sel l cl|T [ | |] ch|old cur pend rest cl] E; simpl in *; subst; try discriminate; auto. Qed.

Definition emits (l : label) : list row := match l with Out r => [r] | _ => [] end.

Lemma step_den : forall c (s : sys) l (s' : sys), step c s l s' -> c = false -> den s = emits l ++ den s'.
Proof.
  intros c s l s' H. induction H; intros Hc; try discriminate Hc; subst; simpl; auto.
  - rewrite IHstep by (unfold child_ctx; now rewrite andb_false_r). unfold after. simpl.
    destruct (on_row T s r) as [o [k|]]; simpl; auto. now rewrite app_nil_r.
  - now rewrite den_closed.
  - destruct k; reflexivity.
  - destruct p as [s|rs [s|]|]; auto; rewrite IHstep by (unfold child_ctx; now rewrite andb_false_r);
      destruct H0; subst; reflexivity.
  - rewrite IHstep by auto. reflexivity.
  - rewrite den_closed; auto.
  - destruct cl; auto. rewrite IHstep by auto. destruct H0; subst; auto.
Qed.

(** Progress: an open tree can move (with its reader). *)
Lemma progress : forall (s : sys) c, is_closed s = false -> exists l s', step c s l s'.
Proof.
  induction s as [sel l cl|T p ch IH|old cur pend rest cl _ IH _] using sys_ind'; intros c E.
  - simpl in E. subst. destruct l; do 2 eexists; constructor.
  - destruct p as [s|[|r rs] [k|]|]; try discriminate; try (do 2 eexists; constructor; fail).
    destruct (is_closed ch) eqn:Ec; [do 2 eexists; now apply NEof|].
    destruct (IH (child_ctx c (Reading s)) eq_refl) as ([|r|] & ch' & A).
    + do 2 eexists. eapply NChild; eauto.
    + do 2 eexists. eapply NRecv; eauto.
    + do 2 eexists. eapply NChild; eauto.
  - simpl in E. subst. destruct pend as [r|]; [do 2 eexists; constructor|].
    destruct cur as [q|].
    + destruct (is_closed q) eqn:Eq; [do 2 eexists; now apply CNext|].
      destruct (IH q eq_refl c Eq) as ([|r|] & q' & A).
      * do 2 eexists. eapply CChild; eauto.
      * do 2 eexists. eapply CRecv; eauto.
      * do 2 eexists. eapply CChild; eauto.
    + destruct rest; do 2 eexists; constructor.
Qed.

(** * Every execution is finite *)

Definition after_of (s' s : sys) : Prop := exists c l, step c s l s'.
Definition SN (s : sys) : Prop := Acc after_of s.

Lemma SN_step : forall s c l s', SN s -> step c s l s' -> SN s'.
Proof. intros s c l s' [H] A. apply H. now exists c, l. Qed.

Lemma SN_node_closed : forall T ch, SN ch -> SN (Node T Closed ch).
Proof.
  intros T ch H. induction H as [ch _ IH]. constructor. intros s' (c & l & A).
  apply step_inv in A. destruct A as [(l0 & ch' & A & B & -> & ->)|[]].
  apply IH. now exists (child_ctx c (@Closed row T)), l0.
Qed.

Lemma SN_node_last : forall T ch, SN ch -> forall l, SN (Node T (Sending l None) ch).
Proof.
  intros T ch H. induction H as [ch Hch IH]. induction l as [|r l IHl].
  - constructor. intros s' (c & lb & A). apply step_inv in A.
    destruct A as [(l0 & ch' & A & B & -> & ->)|(-> & ->)].
    + apply IH. eexists. eexists. exact A.
    + apply SN_node_closed. now constructor.
  - constructor. intros s' (c & lb & A). apply step_inv in A.
    destruct A as [(l0 & ch' & A & B & -> & ->)|[(-> & ->)|[(-> & S & s & A & _)|(-> & S & A & -> & ->)]]].
    + apply IH. eexists. eexists. exact A.
    + exact IHl.
    + discriminate.
    + apply SN_node_closed. now constructor.
Qed.

Lemma SN_node : forall T ch, SN ch ->
  (forall s, SN (Node T (Reading s) ch)) /\ (forall l s, SN (Node T (Sending l (Some s)) ch)).
Proof.
  intros T ch H. induction H as [ch Hch IH].
  assert (R : forall s, SN (Node T (Reading s) ch)).
  { intros s. constructor. intros s' (c & lb & A). apply step_inv in A.
    destruct A as [(l0 & ch' & A & B & -> & ->)|[(r & ch' & A & -> & ->)|[(A & -> & ->)|(-> & A & -> & ->)]]].
    - apply (IH ch'). eexists. eexists. exact A.
    - unfold after. destruct (on_row T s r) as [o [k|]]; simpl.
      + apply (IH ch'). eexists. eexists. exact A.
      + apply SN_node_last. apply Hch. eexists. eexists. exact A.
    - apply SN_node_last. now constructor.
    - apply SN_node_last. now constructor. }
  split; auto.
  induction l as [|r l IHl]; intros s.
  - constructor. intros s' (c & lb & A). apply step_inv in A.
    destruct A as [(l0 & ch' & A & B & -> & ->)|(-> & ->)]; [|apply R].
    apply (IH ch'). eexists. eexists. exact A.
  - constructor. intros s' (c & lb & A). apply step_inv in A.
    destruct A as [(l0 & ch' & A & B & -> & ->)|[(-> & ->)|[(-> & S & s0 & A & -> & ->)|(-> & S & A & -> & ->)]]].
    + apply (IH ch'). eexists. eexists. exact A.
    + apply IHl.
    + apply R.
    + apply SN_node_closed. now constructor.
Qed.

(** Lists in which one element moves. *)
Inductive list_after : list sys -> list sys -> Prop :=
| LA : forall a s s' b, after_of s' s -> list_after (a ++ s' :: b) (a ++ s :: b).

Lemma list_after_cons_inv : forall l x xs, list_after l (x :: xs) ->
  (exists x', after_of x' x /\ l = x' :: xs) \/ (exists xs', list_after xs' xs /\ l = x :: xs').
Proof.
  intros l x xs H. remember (x :: xs) as y. destruct H as [[|z a] s s' b H]; simpl in Heqy; injection Heqy as <- <-.
  - left. eauto.
  - right. eexists. split; [constructor; eauto|reflexivity].
Qed.

Lemma list_SN : forall l, Forall SN l -> Acc list_after l.
Proof.
  intros l H. induction H as [|x xs Hx Hxs IH].
  - constructor. intros y A. remember [] as z. destruct A as [[|] ? ? ? ?]; discriminate.
  - clear Hxs. revert xs IH. induction Hx as [x _ IHx]. intros xs Hxs.
    pose proof Hxs as K. induction Hxs as [xs Axs IHxs].
    constructor. intros y A. apply list_after_cons_inv in A.
    destruct A as [(x' & A & ->)|(xs' & A & ->)].
    + now apply IHx.
    + apply IHxs; auto.
Qed.

Lemma Forall_SN_step : forall a s b c l s', Forall SN (a ++ s :: b) -> step c s l s' -> Forall SN (a ++ s' :: b).
Proof.
  intros a s b c l s' F A. apply Forall_app in F. destruct F as [Fa Fb]. inversion Fb; subst.
  apply Forall_app. split; auto. constructor; auto. eapply SN_step; eauto.
Qed.

Definition opt_SN (cur : option sys) : Prop := match cur with Some q => SN q | None => True end.

Lemma SN_chain_closed : forall cur, opt_SN cur -> forall old pend rest,
  Forall SN old -> SN (Chain old cur pend rest true).
Proof.
  intros [q|] Hc.
  - induction Hc as [q _ IHq]. intros old pend rest Ho. pose proof (list_SN _ Ho) as Ha.
    revert Ho. induction Ha as [old _ IHo]. intros Ho.
    constructor. intros s' (c & l & A). apply step_inv in A.
    destruct A as [(a & s & b & l0 & s0 & -> & A & B & -> & ->)|[(s & l0 & s0 & E & A & B & -> & ->)|(F & _)]].
    + apply IHo; [constructor; now exists c, l0|eapply Forall_SN_step; eauto].
    + injection E as <-. apply IHq; [now exists c, l0|auto].
    + discriminate.
  - intros old pend rest Ho. pose proof (list_SN _ Ho) as Ha.
    revert Ho. induction Ha as [old _ IHo]. intros Ho.
    constructor. intros s' (c & l & A). apply step_inv in A.
    destruct A as [(a & s & b & l0 & s0 & -> & A & B & -> & ->)|[(s & l0 & s0 & E & A & B & -> & ->)|(F & _)]]; try discriminate.
    apply IHo; [constructor; now exists c, l0|eapply Forall_SN_step; eauto].
Qed.

(** Between two queries of the chain, no row pending. *)
Lemma SN_chain_none : forall rest,
  (forall old, Forall SN old ->
     SN (match rest with q :: rest' => Chain old (Some q) None rest' false | [] => Chain old None None [] true end)) ->
  forall old pend, Forall SN old -> SN (Chain old None pend rest false).
Proof.
  intros rest K.
  assert (N : forall old, Forall SN old -> SN (Chain old None None rest false)).
  { intros old Ho. pose proof (list_SN _ Ho) as Ha. revert Ho. induction Ha as [old _ IHo]. intros Ho.
    constructor. intros s' (c & l & A). apply step_inv in A.
    destruct A as [(a & s & b & l0 & s0 & -> & A & B & -> & ->)|[(s & l0 & s0 & E & A & B & -> & ->)|(_ & A)]].
    - apply IHo; [constructor; now exists c, l0|eapply Forall_SN_step; eauto].
    - discriminate.
    - specialize (K old Ho). destruct rest; destruct A as (-> & ->); exact K. }
  intros old [r|] Ho; auto.
  pose proof (list_SN _ Ho) as Ha. revert Ho. induction Ha as [old _ IHo]. intros Ho.
  constructor. intros s' (c & l & A). apply step_inv in A.
  destruct A as [(a & s & b & l0 & s0 & -> & A & B & -> & ->)|[(s & l0 & s0 & E & A & B & -> & ->)|(_ & [(-> & ->)|(-> & -> & ->)])]].
  - apply IHo; [constructor; now exists c, l0|eapply Forall_SN_step; eauto].
  - discriminate.
  - now apply N.
  - now apply SN_chain_closed.
Qed.

Lemma SN_chain_some : forall rest,
  (forall old pend, Forall SN old -> SN (Chain old None pend rest false)) ->
  forall q, SN q -> forall old pend, Forall SN old -> SN (Chain old (Some q) pend rest false).
Proof.
  intros rest K q Hq. induction Hq as [q Hq IHq]. intros old pend Ho.
  assert (N : forall old, Forall SN old -> SN (Chain old (Some q) None rest false)).
  { clear old Ho. intros old Ho. pose proof (list_SN _ Ho) as Ha. revert Ho. induction Ha as [old _ IHo]. intros Ho.
    constructor. intros s' (c & l & A). apply step_inv in A.
    destruct A as [(a & s & b & l0 & s0 & -> & A & B & -> & ->)|[(s & l0 & s0 & E & A & B & -> & ->)|(_ & [(r & s0 & A & -> & ->)|(A & -> & ->)])]].
    - apply IHo; [constructor; now exists c, l0|eapply Forall_SN_step; eauto].
    - injection E as <-. apply IHq; [now exists c, l0|auto].
    - apply IHq; [eexists; eexists; exact A|auto].
    - apply K. constructor; auto. now constructor. }
  destruct pend as [r|]; auto.
  pose proof (list_SN _ Ho) as Ha. revert Ho. induction Ha as [old _ IHo]. intros Ho.
  constructor. intros s' (c & l & A). apply step_inv in A.
  destruct A as [(a & s & b & l0 & s0 & -> & A & B & -> & ->)|[(s & l0 & s0 & E & A & B & -> & ->)|(_ & [(-> & ->)|(-> & -> & ->)])]].
  - apply IHo; [constructor; now exists c, l0|eapply Forall_SN_step; eauto].
  - injection E as <-. apply IHq; [now exists c, l0|auto].
  - now apply N.
  - apply SN_chain_closed; auto. now constructor.
Qed.

Lemma SN_chain : forall rest, Forall SN rest -> forall old cur pend,
  Forall SN old -> opt_SN cur -> SN (Chain old cur pend rest false).
Proof.
  induction 1 as [|q0 rest Hq0 Hrest IHrest].
  - assert (N : forall old pend, Forall SN old -> SN (Chain old None pend [] false)).
    { apply SN_chain_none. intros. now apply SN_chain_closed. }
    intros old [q|] pend Ho Hc; auto. now apply SN_chain_some.
  - assert (N : forall old pend, Forall SN old -> SN (Chain old None pend (q0 :: rest) false)).
    { apply SN_chain_none. intros. now apply IHrest. }
    intros old [q|] pend Ho Hc; auto. now apply SN_chain_some.
Qed.

Lemma all_SN : forall s, SN s.
Proof.
  induction s as [sel l cl|T p ch IH|old cur pend rest cl Ho Hc Hr] using sys_ind'.
  - revert cl. induction l as [|r l IH]; intros cl;
      constructor; intros s' (c & lb & A); apply step_inv in A;
      destruct A as (-> & [(r' & rs' & E & -> & ->)|[(E & -> & ->)|(-> & -> & -> & ->)]]); try discriminate;
      try (constructor; intros s'' (c' & lb' & A'); apply step_inv in A'; destruct A'; discriminate).
    injection E as <- <-. apply IH.
  - destruct p as [s|l [s|]|].
    + now apply SN_node.
    + now apply SN_node.
    + now apply SN_node_last.
    + now apply SN_node_closed.
  - assert (opt_SN cur) by (destruct cur; simpl; auto).
    destruct cl; [now apply SN_chain_closed|now apply SN_chain].
Qed.


(** * Who is released *)

(** Every goroutine watches the context when it sends. *)
Fixpoint polite (s : sys) : bool :=
  match s with
  | Source sel _ _ => sel
  | Node T _ ch => sel_send T && polite ch
  | Chain old cur _ rest _ =>
      forallb polite old && match cur with Some q => polite q | None => true end && forallb polite rest
  end.

(** Sends nothing before its input ends. *)
Definition late (T : stage) : Prop := forall s r, fst (on_row T s r) = [] /\ snd (on_row T s r) <> None.

(** Returns early only if it cancels its input. *)
Definition tidy (T : stage) : Prop := cuts T = true \/ forall s r, snd (on_row T s r) <> None.

(** Can be abandoned once it has sent a row. *)
Fixpoint ready (s : sys) : Prop :=
  match s with
  | Node T _ ch => sel_send T = true /\ (late T \/ ready ch)
  | _ => polite s = true
  end.

Fixpoint hyg (s : sys) : Prop :=
  match s with
  | Source _ _ _ => True
  | Node T _ ch => hyg ch /\ tidy T /\ (cuts T = true -> ready ch)
  | Chain old cur _ rest _ =>
      fold_right (fun q P => hyg q /\ P) True old /\ match cur with Some q => hyg q | None => True end /\
      fold_right (fun q P => hyg q /\ P) True rest
  end.

Fixpoint inv (c : bool) (s : sys) : Prop :=
  match s with
  | Source sel _ cl => c = true -> sel = true \/ cl = true
  | Node T p ch =>
      match p with
      | Reading _ => (c = true -> sel_send T = true) /\ inv c ch
      | Sending l (Some _) =>
          (c = true -> sel_send T = true) /\ inv c ch /\ (late T -> l = []) /\
          (l <> [] -> ready ch -> inv true ch)
      | Sending l None =>
          (c = true -> sel_send T = true) /\ inv c ch /\ inv true ch /\
          (c = false -> cuts T = false -> is_closed ch = true)
      | Closed =>
          inv (c || cuts T) ch /\ inv true ch /\ (c = false -> cuts T = false -> is_closed ch = true)
      end
  | Chain old cur _ rest cl =>
      fold_right (fun q P => inv c q /\ P) True old /\
      (c = false -> Forall (fun q => is_closed q = true) old) /\
      match cur with Some q => inv c q | None => True end /\
      (cl = false -> fold_right (fun q P => inv c q /\ P) True rest) /\
      (cl = true -> c = false -> cur = None)
  end.

Lemma fold_and : forall (P : sys -> Prop) l, fold_right (fun q Q => P q /\ Q) True l <-> Forall P l.
Proof.
  induction l; simpl; split; intros; auto.
  - destruct H. constructor; auto. now apply IHl.
  - inversion H; subst. split; auto. now apply IHl.
Qed.

Lemma Forall_mid : forall (P : sys -> Prop) a s b, Forall P (a ++ s :: b) <-> Forall P a /\ P s /\ Forall P b.
Proof.
  intros. rewrite Forall_app. split.
  - intros [A B]. inversion B; subst; auto.
  - intros (A & B & C). auto.
Qed.

Lemma polite_step : forall c (s : sys) l (s' : sys), step c s l s' -> polite s' = polite s.
Proof.
  intros c s l s' H. induction H; simpl in *; rewrite ?forallb_app in *; simpl in *; try congruence.
  - now rewrite !andb_true_r, andb_assoc.
  - destruct (forallb polite old), (polite s); reflexivity.
Qed.

Lemma ready_step_iff : forall c (s : sys) l (s' : sys), step c s l s' -> (ready s <-> ready s').
Proof.
  intros c s l s' H. pose proof (polite_step _ _ _ _ H) as E. revert E.
  induction H; intros E; simpl in *; try tauto; try (rewrite E; tauto);
    pose proof (polite_step _ _ _ _ H) as E'; specialize (IHstep E'); tauto.
Qed.

Lemma ready_step : forall c (s : sys) l (s' : sys), step c s l s' -> ready s -> ready s'.
Proof. intros c s l s' H. now apply (ready_step_iff c s l s' H). Qed.

Lemma hyg_step : forall c (s : sys) l (s' : sys), step c s l s' -> hyg s -> hyg s'.
Proof.
  intros c s l s' H. induction H; intros R; simpl in *; auto;
    try (destruct R as (R1 & R2 & R3); split; [auto|split; auto]; intros; eapply ready_step; eauto; fail).
  all: rewrite ?fold_and, ?Forall_mid in *; tauto.
Qed.

Lemma closed_inv : forall s : sys, is_closed s = true -> inv false s -> inv true s.
Proof.
  induction s as [sel l cl|T p ch IH|old cur pend rest cl Ho Hc Hr] using sys_ind'; simpl; intros E I.
  - auto.
  - destruct p; try discriminate. destruct I as (A & B & C). repeat split; auto; discriminate.
  - subst cl. destruct I as (A & B & C & D & F). rewrite (F eq_refl eq_refl).
    split; [|split; [discriminate|split; [exact I|split; [discriminate|auto]]]].
    apply fold_and. apply fold_and in A. specialize (B eq_refl). rewrite Forall_forall in *. auto.
Qed.

Lemma inv_any_true : forall c (s : sys), is_closed s = true -> inv c s -> inv true s.
Proof. intros [|] s E I; auto. now apply closed_inv. Qed.

Lemma polite_inv : forall s : sys, polite s = true -> inv false s -> inv true s.
Proof.
  induction s as [sel l cl|T p ch IH|old cur pend rest cl Ho Hc Hr] using sys_ind'; simpl; intros E I.
  - auto.
  - apply andb_true_iff in E. destruct E as [E1 E2].
    destruct p as [s|l [s|]|]; intuition discriminate.
  - rewrite !andb_true_iff in E. destruct E as ((E1 & E2) & E3). destruct I as (A & B & C & D & F).
    rewrite forallb_forall in E1, E3. rewrite Forall_forall in Ho, Hr. rewrite !fold_and in *.
    rewrite !Forall_forall in *.
    split; [auto|split; [discriminate|split; [|split; [|discriminate]]]].
    + destruct cur as [q|]; auto.
    + intros Ecl. specialize (D Ecl). auto.
Qed.

Lemma out_inv : forall (s : sys) r s', step false s (Out r) s' -> ready s -> inv false s -> inv false s' -> inv true s'.
Proof.
  intros s r s' H R I I'. destruct s as [sel l cl|T p ch|old cur pend rest cl].
  - apply step_inv in H. destruct H as (-> & [(r' & rs' & -> & E & ->)|[(-> & E & _)|(E & _)]]); try discriminate.
    simpl in *. auto.
  - apply step_inv in H. destruct H as [(l0 & ch' & _ & _ & E & _)|H]; [discriminate|].
    simpl in R. destruct R as (R1 & R2).
    revert R2. destruct p as [s|[|r' rs] k|]; [cases|destruct k; cases| |cases].
    destruct H as [(E & ->)|[(E & _)|(E & _)]]; try discriminate. intros R2.
    + simpl in *. destruct k as [s|].
      * destruct I as (I1 & I2 & I3 & I4).
        assert (ready ch) by (destruct R2 as [L|]; auto; specialize (I3 L); discriminate).
        assert (inv true ch) by (apply I4; auto; discriminate).
        repeat split; auto. intros L. specialize (I3 L). discriminate.
      * destruct I as (I1 & I2 & I3 & I4). repeat split; auto; discriminate.
  - simpl in R. apply polite_inv; auto. rewrite (polite_step _ _ _ _ H); exact R.
Qed.

Lemma inv_step : forall c' (s : sys) l (s' : sys), step c' s l s' -> forall c, (c' = true -> c = true) ->
  hyg s -> inv c s -> inv c s'.
Proof.
  intros c' s l s' H. induction H; intros c0 Hc G I; simpl in *; auto.
  - (* NRecv *)
    destruct G as (G1 & G2 & G3). destruct I as (I1 & I2).
    assert (Cx : child_ctx c (Reading s) = c) by (unfold child_ctx; now rewrite andb_false_r, orb_false_r).
    rewrite Cx in *.
    assert (I' : inv c0 ch') by (apply IHstep; auto).
    assert (O : ready ch -> inv true ch').
    { intros R. destruct c0; auto. destruct c; [discriminate (Hc eq_refl)|]. eapply out_inv; eauto. }
    unfold after. destruct (snd (on_row T s r)) as [k|] eqn:Ek.
    + repeat split; auto.
      * intros L. now destruct (L s r).
      * intros _ R. apply O. now apply (ready_step_iff _ _ _ _ H).
    + assert (Ct : cuts T = true) by (destruct G2 as [|N]; auto; exfalso; eapply N; eauto).
      repeat split; auto. congruence.
  - (* NEof *) destruct I as (I1 & I2). repeat split; auto. now apply (inv_any_true c0).
  - (* NCancelRecv *) destruct I as (I1 & I2). rewrite (Hc eq_refl) in *. repeat split; auto. discriminate.
  - (* NSend *) destruct k; [destruct I as (I1 & I2 & I3 & I4)|exact I].
    repeat split; auto.
    + intros L. specialize (I3 L). discriminate.
    + intros _. apply I4. discriminate.
  - (* NSent *) tauto.
  - (* NReturn *) destruct I as (I1 & I2 & I3 & I4). repeat split; auto. destruct c0; simpl; auto. destruct (cuts T); auto.
  - (* NAbort *) rewrite (Hc eq_refl) in *. destruct k; simpl in *; [tauto|discriminate].
  - (* NAbortReturn *) rewrite (Hc eq_refl) in *. destruct k; simpl in *; repeat split; try tauto; discriminate.
  - (* NChild *)
    destruct G as (G1 & G2 & G3).
    assert (It : inv true ch -> inv true ch') by (intros; apply IHstep; auto).
    assert (Ic : child_ctx c p = c -> inv c0 ch -> inv c0 ch')
      by (intros E ?; apply IHstep; auto; rewrite E; auto).
    pose proof (ready_step_iff _ _ _ _ H) as Rd.
    assert (Cl : is_closed ch = true -> is_closed ch' = true).
    { intros E. now apply (closed_step _ _ _ _ H). }
    destruct p as [s|rs [s|]|]; unfold child_ctx in *; rewrite ?andb_false_r, ?orb_false_r, ?andb_true_r in *.
    + intuition.
    + intuition.
    + intuition.
    + destruct I as (I1 & I2 & I3). repeat split; auto.
      apply IHstep; auto. intros E. apply orb_true_iff in E. apply orb_true_iff. tauto.
  - (* CStart *) destruct I as (A & B & C & D & F). destruct (D eq_refl). repeat split; auto. discriminate.
  - (* CRecv *) destruct G as (G1 & G2 & G3). destruct I as (A & B & C & D & F).
    repeat split; auto. discriminate.
  - (* CAbort *) rewrite (Hc eq_refl) in *. repeat split; try tauto; discriminate.
  - (* CNext *) destruct I as (A & B & C & D & F). repeat split; auto.
  - (* CEnd *) destruct I as (A & B & C & D & F). repeat split; auto.
  - (* CChild *) destruct G as (G1 & G2 & G3). destruct I as (A & B & C & D & F).
    repeat split; auto. intros E1 E2. discriminate (F E1 E2).
  - (* COld *) destruct G as (G1 & G2 & G3). destruct I as (A & B & C & D & F).
    rewrite !fold_and in *. rewrite !Forall_mid in *.
    repeat split; try tauto.
    + apply IHstep; tauto.
    + apply (closed_step _ _ _ _ H). tauto.
Qed.

Lemma all_closed_closed : forall s : sys, all_closed s = true -> is_closed s = true.
Proof.
  intros [sel l cl|T [ | |] ch|old cur pend rest cl]; simpl; auto; try discriminate.
  intros E. rewrite !andb_true_iff in E. tauto.
Qed.

(** Nothing more can happen without the reader: then everything has returned. *)
Lemma stuck_closed : forall (s : sys) c, inv c s -> (c = true \/ is_closed s = true) ->
  (forall l s', step c s l s' -> ~ quiet l) -> all_closed s = true.
Proof.
  induction s as [sel l cl|T p ch IH|old cur pend rest cl Ho Hc Hr] using sys_ind'; intros c I C N.
  - simpl in *. destruct cl; auto. destruct C as [->|]; [|discriminate].
    destruct (I eq_refl) as [->|]; [|discriminate].
    exfalso. eapply N; [apply SrcCancel|now right].
  - assert (Nc : forall l ch', step (child_ctx c p) ch l ch' -> ~ quiet l).
    { intros l ch' A Q. eapply N; [eapply NChild; eauto|now left]. }
    destruct p as [s|[|r rs] k|].
    + destruct C as [->|]; [|discriminate].
      exfalso. simpl in I. destruct I as (I1 & I2).
      assert (A : all_closed ch = true) by (eapply (IH true); eauto).
      apply all_closed_closed in A. eapply N; [now apply NEof|now left].
    + exfalso. destruct k; eapply N; try (eapply NSent || eapply NReturn); [now left|now right].
    + destruct C as [->|]; [|discriminate]. exfalso.
      assert (S : sel_send T = true) by (destruct k; simpl in I; tauto).
      destruct (aborted T k) as [s|l' k'|] eqn:Ea.
      * eapply N; [eapply NAbort; eauto|now left].
      * destruct k; simpl in Ea; [destruct (go_on T)|]; discriminate.
      * eapply N; [eapply NAbortReturn; eauto|now right].
    + simpl in *. destruct I as (I1 & I2 & I3). unfold child_ctx in Nc. rewrite andb_true_r in Nc.
      apply (IH (c || cuts T)); auto. destruct (c || cuts T) eqn:E; auto. apply orb_false_iff in E. destruct E. auto.
  - simpl in I. destruct I as (A & B & D & E & F). simpl in C.
    assert (No : forall q, In q old -> forall l s', step c q l s' -> ~ quiet l).
    { intros q Hin l s' St Q. apply in_split in Hin. destruct Hin as (a & b & ->).
      eapply N; [eapply COld; eauto|now left]. }
    assert (Nq : forall q, cur = Some q -> forall l s', step c q l s' -> ~ quiet l).
    { intros q -> l s' St Q. eapply N; [eapply CChild; eauto|now left]. }
    assert (Cl : cl = true).
    { destruct cl; auto. destruct C as [->|]; [|discriminate]. exfalso.
      destruct pend as [r|]; [eapply N; [apply CAbort|now right]|].
      destruct cur as [q|].
      - assert (all_closed q = true) by (eapply (Hc q eq_refl true); eauto).
        eapply N; [apply CNext; now apply all_closed_closed|now left].
      - destruct rest; eapply N; try (apply CEnd || apply CStart); [now right|now left]. }
    subst cl. simpl. apply andb_true_iff. split.
    + apply forallb_forall. intros q Hin. rewrite fold_and in A. rewrite Forall_forall in A, Ho.
      eapply (Ho q Hin c); eauto. destruct c; auto. right. specialize (B eq_refl).
      rewrite Forall_forall in B. auto.
    + destruct cur as [q|]; auto. destruct c; [eapply (Hc q eq_refl true); eauto|discriminate (F eq_refl eq_refl)].
Qed.


(** * What may stay behind *)

Definition root_sel (s : sys) : bool :=
  match s with Source sel _ _ => sel | Node T _ _ => sel_send T | Chain _ _ _ _ _ => true end.

(** Who ignores the context when sending is read by one who watches it. *)
Fixpoint guarded (s : sys) : Prop :=
  match s with
  | Source sel _ _ => sel = true
  | Node T _ ch => guarded ch /\ (sel_recv T = true \/ root_sel ch = true)
  | Chain old cur _ rest _ =>
      fold_right (fun q P => (guarded q /\ root_sel q = true) /\ P) True old /\
      match cur with Some q => guarded q /\ root_sel q = true | None => True end /\
      fold_right (fun q P => (guarded q /\ root_sel q = true) /\ P) True rest
  end.

Lemma root_sel_step : forall c (s : sys) l (s' : sys), step c s l s' -> root_sel s' = root_sel s.
Proof. intros c s l s' H. now destruct H. Qed.

Lemma guarded_step : forall c (s : sys) l (s' : sys), step c s l s' -> guarded s -> guarded s'.
Proof.
  intros c s l s' H. induction H; intros G; simpl in *; auto;
    try (rewrite (root_sel_step _ _ _ _ H) in *);
    rewrite ?fold_and, ?Forall_mid in *; rewrite ?(root_sel_step _ _ _ _ H) in *; tauto.
Qed.

(** All returned, but for goroutines blocked in a send that ignores the context. *)
Fixpoint only_deaf_left (s : sys) : Prop :=
  match s with
  | Source _ _ cl => cl = true
  | Node T p ch =>
      match p with
      | Closed => True
      | Sending (_ :: _) _ => sel_send T = false
      | _ => False
      end /\ only_deaf_left ch
  | Chain old cur _ _ cl =>
      cl = true /\ fold_right (fun q P => only_deaf_left q /\ P) True old /\
      match cur with Some q => only_deaf_left q | None => True end
  end.

Lemma stuck_deaf : forall (s : sys), guarded s ->
  (forall l s', step true s l s' -> ~ quiet l) ->
  only_deaf_left s /\ (root_sel s = true -> is_closed s = true).
Proof.
  induction s as [sel l cl|T p ch IH|old cur pend rest cl Ho Hc Hr] using sys_ind'; intros G N.
  - simpl in *. subst. destruct cl; auto. exfalso. eapply N; [apply SrcCancel|now right].
  - destruct G as (G1 & G2).
    assert (Nc : forall l ch', step true ch l ch' -> ~ quiet l).
    { intros l ch' A Q. eapply N; [eapply NChild; eauto|now left]. }
    destruct (IH G1 Nc) as (A & B).
    destruct p as [s|[|r rs] k|].
    + exfalso. destruct G2 as [S|S].
      * eapply N; [now apply NCancelRecv|now left].
      * eapply N; [apply NEof; auto|now left].
    + exfalso. destruct k; eapply N; try (eapply NSent || eapply NReturn); [now left|now right].
    + assert (S : sel_send T = false).
      { destruct (sel_send T) eqn:S; auto. exfalso. destruct (aborted T k) as [s|l' k'|] eqn:Ea.
        - eapply N; [eapply NAbort; eauto|now left].
        - destruct k; simpl in Ea; [destruct (go_on T)|]; discriminate.
        - eapply N; [eapply NAbortReturn; eauto|now right]. }
      simpl. split; auto. congruence.
    + simpl. auto.
  - simpl in G. destruct G as (G1 & G2 & G3). rewrite !fold_and in *.
    assert (No : forall q, In q old -> forall l s', step true q l s' -> ~ quiet l).
    { intros q Hin l s' St Q. apply in_split in Hin. destruct Hin as (a & b & ->).
      eapply N; [eapply COld; eauto|now left]. }
    assert (Nq : forall q, cur = Some q -> forall l s', step true q l s' -> ~ quiet l).
    { intros q -> l s' St Q. eapply N; [eapply CChild; eauto|now left]. }
    assert (Cl : cl = true).
    { destruct cl; auto. exfalso.
      destruct pend as [r|]; [eapply N; [apply CAbort|now right]|].
      destruct cur as [q|].
      - destruct (Hc q eq_refl (proj1 G2) (Nq q eq_refl)) as (A & B).
        eapply N; [apply CNext; apply B; tauto|now left].
      - destruct rest; eapply N; try (apply CEnd || apply CStart); [now right|now left]. }
    subst cl. simpl. repeat split; auto.
    + apply fold_and. rewrite Forall_forall in *. intros q Hin. apply (Ho q Hin); [now apply G1|now apply No].
    + destruct cur as [q|]; auto. apply (Hc q eq_refl); [tauto|now apply Nq].
Qed.

End P.
