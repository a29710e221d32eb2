(** C41: what is sent in parts is what the query returned. *)

From Coq Require Import List String Bool ZArith Lia PeanoNat.
From Verif Require Import Response.
Import ListNotations.
Open Scope nat_scope.
Open Scope list_scope.

(** ** Specification *)

Section Spec.
  Variables Row Bytes : Type.
  Variable encoder : nat -> list Row -> option Bytes.
  Variable members : Row -> list string.

  (** The rows that were taken from the query before the context ended. *)
  Fixpoint taken (es : list (event Row)) : list Row :=
    match es with
    | EvRow _ r :: rest => r :: taken rest
    | EvDeadline _ :: rest => taken rest
    | _ => []
    end.

  (** A schedule that serves the query to its end: every row in order, the
      timer firing anywhere. *)
  Inductive schedule : list Row -> list (event Row) -> Prop :=
  | sch_end : schedule [] [EvClosed Row]
  | sch_tick : forall rs es, schedule rs es -> schedule rs (EvDeadline Row :: es)
  | sch_row : forall r rs es, schedule rs es -> schedule (r :: rs) (EvRow Row r :: es).

  (** The result describes these rows as the given part. *)
  Definition describes (n : nat) (batch : list Row) (x : result Bytes) : Prop :=
    r_part _ x = n /\ r_total _ x = List.length batch /\
    (exists call, encoder call batch = Some (r_payload _ x)) /\
    r_columns _ x = match batch with [] => [] | r :: _ => members r end.

  (** One result for each batch, numbered from [n]. *)
  Fixpoint parts (n : nat) (batches : list (list Row)) (xs : list (result Bytes)) : Prop :=
    match batches, xs with
    | [], [] => True
    | b :: bs, x :: xs => describes n b x /\ parts (S n) bs xs
    | _, _ => False
    end.
End Spec.

(** ** Proof *)

Section Proofs.
  Variables Row Bytes : Type.
  Variable encoder : nat -> list Row -> option Bytes.
  Variable members : Row -> list string.
  Variable maxrows : Z.
  Notation ship := (ship Row Bytes encoder members).
  Notation serve := (serve Row Bytes encoder members maxrows).
  Notation respond := (respond Row Bytes encoder members maxrows).
  Notation parts := (parts Row Bytes encoder members).
  Notation taken := (taken Row).

  Lemma parts_app : forall bs xs n b x, parts n bs xs -> describes Row Bytes encoder members (n + List.length bs) b x ->
    parts n (bs ++ [b]) (xs ++ [x]).
  Proof.
    induction bs as [|b0 bs IH]; intros [|x0 xs] n b x H D; cbn in *; try contradiction.
    - rewrite Nat.add_0_r in D. auto.
    - destruct H as [H1 H2]. split; [exact H1|]. apply IH; [exact H2|]. now rewrite Nat.add_succ_comm.
  Qed.

  (** The batches sent and those pending. *)
  Definition inv (s : resp Row Bytes) (got : list Row) (batches : list (list Row)) : Prop :=
    parts 0 batches (sent _ _ s) /\ part _ _ s = List.length batches /\ List.concat batches ++ rows _ _ s = got.

  Lemma inv_ship : forall s got bs, inv s got bs -> exists bs', inv (ship s) got bs' /\
    ((exists n, encoder n (rows _ _ s) = None) /\ bs' = bs /\ rows _ _ (ship s) = rows _ _ s \/
     bs' = bs ++ [rows _ _ s] /\ rows _ _ (ship s) = []).
  Proof.
    intros s got bs (P & N & C). unfold Response.ship.
    destruct (encoder (calls _ _ s) (rows _ _ s)) as [bytes|] eqn:EN; cbn.
    - exists (bs ++ [rows _ _ s]). split; [|right; auto]. split; [|split]; cbn.
      + apply parts_app; [exact P|]. cbn. repeat split; auto. exists (calls _ _ s). exact EN.
      + rewrite app_length. cbn. lia.
      + rewrite concat_app. cbn. now rewrite !app_nil_r.
    - exists bs. split; [|left; eauto]. repeat split; auto.
  Qed.

  Lemma inv_add : forall s got bs r, inv s got bs -> inv (add_row Row Bytes r s) (got ++ [r]) bs.
  Proof. intros s got bs r (P & N & C). repeat split; auto. cbn. now rewrite app_assoc, C. Qed.

  Lemma respond_inv : forall es s got bs s', inv s got bs -> respond s es = Some s' ->
    exists bs', inv s' (got ++ taken es) bs' /\
      ((exists n b, encoder n b = None) \/ rows _ _ s' = [] /\ bs' <> []).
  Proof.
    induction es as [|e es IH]; intros s got bs s' I R; [discriminate|]. cbn [Response.respond] in R.
    assert (FIN : respond s (EvDone _ :: es) = Some (ship s) -> exists bs', inv (ship s) (got ++ []) bs' /\
      ((exists n b, encoder n b = None) \/ rows _ _ (ship s) = [] /\ bs' <> [])).
    { intros _. rewrite app_nil_r. destruct (inv_ship s got bs I) as (bs' & I' & [((n & K) & _ & _)|(-> & K)]).
      - exists bs'. split; [exact I'|left; eauto].
      - exists (bs ++ [rows _ _ s]). split; [exact I'|right]. split; [exact K|]. intros Z. apply app_eq_nil in Z as [_ Z]. discriminate. }
    destruct e as [| |r|]; cbn [Response.serve] in R.
    - injection R as <-. cbn [ResponseProps.taken]. now apply FIN.
    - cbn [ResponseProps.taken]. destruct (rows _ _ s) as [|x l] eqn:ER; [eapply IH; eauto|].
      destruct (inv_ship s got bs I) as (bs' & I' & _). eapply IH; eauto.
    - cbn [ResponseProps.taken]. replace (got ++ r :: taken es) with ((got ++ [r]) ++ taken es) by (now rewrite <- app_assoc).
      destruct (Z.geb _ _).
      + destruct (inv_ship s got bs I) as (bs' & I' & _). eapply IH; [|exact R]. apply inv_add. exact I'.
      + eapply IH; [|exact R]. apply inv_add. exact I.
    - injection R as <-. cbn [ResponseProps.taken]. now apply FIN.
  Qed.

  Hypothesis POS : (1 <= maxrows)%Z.
  Hypothesis ENC : forall n b, encoder n b <> None.

  Definition small (b : list Row) : Prop := (Z.of_nat (List.length b) <= maxrows)%Z.

  Lemma respond_small : forall es s s', small (rows _ _ s) -> Forall (fun x => (Z.of_nat (r_total _ x) <= maxrows)%Z) (sent _ _ s) ->
    respond s es = Some s' -> Forall (fun x => (Z.of_nat (r_total _ x) <= maxrows)%Z) (sent _ _ s').
  Proof.
    assert (SH : forall s, small (rows _ _ s) -> Forall (fun x => (Z.of_nat (r_total _ x) <= maxrows)%Z) (sent _ _ s) ->
      rows _ _ (ship s) = [] /\ Forall (fun x => (Z.of_nat (r_total _ x) <= maxrows)%Z) (sent _ _ (ship s))).
    { intros s SM F. unfold Response.ship. destruct (encoder _ _) eqn:EN; [|now apply ENC in EN]. cbn. split; [reflexivity|].
      apply Forall_app. split; [exact F|]. repeat constructor. exact SM. }
    induction es as [|e es IH]; intros s s' SM F R; [discriminate|]. cbn [Response.respond] in R.
    destruct (SH s SM F) as [SH1 SH2].
    destruct e as [| |r|]; cbn [Response.serve] in R.
    - injection R as <-. exact SH2.
    - destruct (rows _ _ s) as [|x l] eqn:ER; eapply IH; try exact R; auto.
      + rewrite ER. exact SM.
      + unfold small. rewrite SH1. cbn. lia.
    - destruct (Z.geb _ _) eqn:G; eapply IH; try exact R; cbn [add_row rows sent]; auto.
      + unfold small. rewrite SH1. cbn. lia.
      + unfold small. rewrite app_length. cbn. rewrite Z.geb_leb in G. apply Z.leb_gt in G. lia.
    - injection R as <-. exact SH2.
  Qed.
End Proofs.

Lemma schedule_taken : forall Row rs es, schedule Row rs es -> taken Row es = rs.
Proof. intros Row rs es H. induction H; cbn; congruence. Qed.

Lemma schedule_ends : forall Row Bytes encoder members maxrows rs es, schedule Row rs es ->
  forall s, exists s', respond Row Bytes encoder members maxrows s es = Some s'.
Proof.
  intros Row Bytes encoder members maxrows rs es H. induction H; intros s; cbn [respond serve]; eauto.
Qed.

Lemma parts_sizes : forall Row Bytes encoder members bs xs n, parts Row Bytes encoder members n bs xs ->
  forall P : nat -> Prop, Forall (fun x => P (r_total _ x)) xs -> Forall (fun b => P (List.length b)) bs.
Proof.
  induction bs as [|b bs IH]; intros [|x xs] n H P F; cbn in *; try contradiction; [constructor|].
  destruct H as ((_ & K & _) & H2). inversion F; subst. constructor; [now rewrite <- K|eapply IH; eauto].
Qed.

(** ** Theorems *)

(** For every sequence of rows, every firing of the timer, every positive
    maxrows and every encoder that does not fail: the results describe
    batches that are, in the order of the parts, exactly the rows of the
    query; there is at least one, none is too large. *)
Theorem C41_parts_are_the_rows_partial : forall Row Bytes encoder members maxrows rs es,
  (1 <= maxrows)%Z -> (forall n b, encoder n b <> None) -> schedule Row rs es ->
  exists s' batches,
    respond Row Bytes encoder members maxrows (resp0 Row Bytes) es = Some s' /\
    parts Row Bytes encoder members 0 batches (sent _ _ s') /\
    List.concat batches = rs /\
    batches <> [] /\
    Forall (fun b => (Z.of_nat (List.length b) <= maxrows)%Z) batches.
Proof.
  intros Row Bytes encoder members maxrows rs es POS ENC SCH.
  destruct (schedule_ends Row Bytes encoder members maxrows rs es SCH (resp0 Row Bytes)) as [s' R].
  destruct (respond_inv Row Bytes encoder members maxrows es (resp0 Row Bytes) [] [] s') as (bs & (P & N & C) & K).
  - repeat split.
  - exact R.
  - destruct K as [(n & b & K)|[K NE]]; [now apply ENC in K|].
    exists s', bs. split; [exact R|]. split; [exact P|]. rewrite K, app_nil_r in C. cbn in C.
    rewrite (schedule_taken _ _ _ SCH) in C. split; [exact C|]. split; [exact NE|].
    apply (parts_sizes _ _ _ _ _ _ _ P (fun n => (Z.of_nat n <= maxrows)%Z)).
    eapply respond_small; eauto; cbn; [|constructor]. unfold small. cbn. lia.
Qed.

(** The context may end at any time and the encoder may fail: the results
    describe, in order, a first part of the rows that were taken from the
    query, and only a failing encoder makes it a proper one. *)
Theorem C41_nothing_reordered_or_invented : forall Row Bytes encoder members maxrows es s',
  respond Row Bytes encoder members maxrows (resp0 Row Bytes) es = Some s' ->
  exists batches lost,
    parts Row Bytes encoder members 0 batches (sent _ _ s') /\
    List.concat batches ++ lost = taken Row es /\
    ((forall n b, encoder n b <> None) -> lost = [] /\ batches <> []).
Proof.
  intros Row Bytes encoder members maxrows es s' R.
  destruct (respond_inv Row Bytes encoder members maxrows es (resp0 Row Bytes) [] [] s') as (bs & (P & N & C) & K).
  - repeat split.
  - exact R.
  - exists bs, (rows _ _ s'). split; [exact P|]. split; [exact C|]. intros ENC.
    destruct K as [(n & b & K)|K]; [now apply ENC in K|exact K].
Qed.

(** ** Examples and refutations *)

Definition demo_encoder (_ : nat) (b : list nat) : option (list nat) := Some b.
Definition demo_members (_ : nat) : list string := ["n"%string].

Example C41_demo : exists s',
  schedule nat [1; 2; 3; 4; 5] [EvRow _ 1; EvRow _ 2; EvRow _ 3; EvDeadline _; EvDeadline _; EvRow _ 4; EvRow _ 5; EvClosed _] /\
  respond nat (list nat) demo_encoder demo_members 2 (resp0 _ _)
    [EvRow _ 1; EvRow _ 2; EvRow _ 3; EvDeadline _; EvDeadline _; EvRow _ 4; EvRow _ 5; EvClosed _] = Some s' /\
  map (fun x => (r_part _ x, r_total _ x, r_payload _ x)) (sent _ _ s') =
    [(0, 2, [1; 2]); (1, 1, [3]); (2, 2, [4; 5])].
Proof. eexists. split; [repeat constructor|]. split; reflexivity. Qed.

(** maxrows may not be 0: then every row is preceded by a part without rows
    and parts have one row. *)
Theorem C41_zero_maxrows_refuted : exists rs es s',
  schedule nat rs es /\
  respond nat (list nat) demo_encoder demo_members 0 (resp0 _ _) es = Some s' /\
  exists x, In x (sent _ _ s') /\ (Z.of_nat (r_total _ x) > 0)%Z.
Proof.
  exists [7], [EvRow _ 7; EvClosed _]. eexists. split; [repeat constructor|]. split; [reflexivity|].
  eexists. split; [right; left; reflexivity|]. reflexivity.
Qed.

(** When the encoder fails once, the rows stay and the next part is larger
    than maxrows. *)
Definition fails_once (n : nat) (b : list nat) : option (list nat) := match n with O => None | _ => Some b end.
Theorem C41_part_larger_than_maxrows_refuted : exists rs es s',
  schedule nat rs es /\
  respond nat (list nat) fails_once demo_members 1 (resp0 _ _) es = Some s' /\
  exists x, In x (sent _ _ s') /\ r_total _ x = 2.
Proof.
  exists [7; 8], [EvRow _ 7; EvRow _ 8; EvClosed _]. eexists. split; [repeat constructor|]. split; [reflexivity|].
  eexists. split; [left; reflexivity|]. reflexivity.
Qed.

(** When it fails at the end, the rows are lost and nothing is sent. *)
Theorem C41_final_part_not_sent_refuted : exists rs es s',
  rs <> [] /\ schedule nat rs es /\
  respond nat (list nat) (fun _ _ => None) demo_members 10 (resp0 _ _) es = Some s' /\ sent _ _ s' = [].
Proof.
  exists [7; 8], [EvRow _ 7; EvRow _ 8; EvClosed _]. eexists. split; [discriminate|]. split; [repeat constructor|].
  split; reflexivity.
Qed.

Print Assumptions C41_parts_are_the_rows_partial.
Print Assumptions C41_nothing_reordered_or_invented.
Print Assumptions C41_zero_maxrows_refuted.
Print Assumptions C41_part_larger_than_maxrows_refuted.
Print Assumptions C41_final_part_not_sent_refuted.
