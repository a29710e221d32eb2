(** C97: from the text of a query to the results a host receives. *)

From Coq Require Import ZArith List String Bool Lia PeanoNat.
From Verif Require Import Response ResponseProps Pipeline PipelineProofs PipelineProps.
From Verif Require Import Base Value Protocols Monad Flatten Syntax Eval Runs PureSpec PureEval PureSelect
  SelectProps SchedProps Demo Parser Elab.
Import ListNotations.
Open Scope list_scope.

(** What the goroutine of api.go:71-100 sees while the query runs: each row that
    is sent, and the closing of the channel; the timer may fire at any time. *)
Inductive sees {row} : list (bool * label row) -> list (event row) -> Prop :=
| sees_nothing : sees [] []
| sees_inside : forall c t es, sees t es -> sees ((c, Tau) :: t) es
| sees_row : forall c r t es, sees t es -> sees ((c, Out r) :: t) (EvRow row r :: es)
| sees_close : forall c t es, sees t es -> sees ((c, Shut) :: t) (EvClosed row :: es)
| sees_timer : forall t es, sees t es -> sees t (EvDeadline row :: es).

Section Proofs.
  Variable row : Type.

  Lemma sees_quiet : forall (t : list (bool * label row)) es, sees t es ->
    (forall c l, In (c, l) t -> l = Tau) -> outputs t = [].
  Proof.
    induction 1 as [|c t es _ IH|c r t es _ IH|c t es _ IH|t es _ IH]; intros H; cbn.
    - reflexivity.
    - apply IH. intros c' l' I. apply (H c' l'). now right.
    - discriminate (H c (Out r) (or_introl eq_refl)).
    - discriminate (H c Shut (or_introl eq_refl)).
    - now apply IH.
  Qed.

  (** Up to the closing it is a schedule of C41. *)
  Lemma sees_schedule : forall (t : list (bool * label row)) es, sees t es -> forall s s', exec s t s' ->
    (exists c, In (c, Shut) t) ->
    exists es1 es2, es = es1 ++ es2 /\ schedule row (outputs t) es1.
  Proof.
    induction 1 as [|c t es _ IH|c r t es _ IH|c t es SE IH|t es _ IH]; intros s s' E (c0 & I).
    - contradiction.
    - inversion E as [|? ? ? s1 ? ? _ E']; subst. destruct I as [I|I]; [discriminate|]. eapply IH; eauto.
    - inversion E as [|? ? ? s1 ? ? _ E']; subst. destruct I as [I|I]; [discriminate|].
      destruct (IH _ _ E' (ex_intro _ c0 I)) as (es1 & es2 & -> & S). exists (EvRow row r :: es1), es2.
      split; [reflexivity|]. change (schedule row (r :: outputs t) (EvRow row r :: es1)). now constructor.
    - exists [EvClosed row], es. split; [reflexivity|]. change (schedule row (outputs t) [EvClosed row]).
      rewrite (sees_quiet _ _ SE); [constructor|]. intros c' l'. exact (C39_closed_once s s' [] c t E c' l').
    - destruct (IH _ _ E (ex_intro _ c0 I)) as (es1 & es2 & -> & S). exists (EvDeadline row :: es1), es2.
      split; [reflexivity|]. now constructor.
  Qed.

  Lemma sees_taken : forall (t : list (bool * label row)) es, sees t es ->
    exists rest, outputs t = taken row (es ++ [EvDone row]) ++ rest.
  Proof.
    induction 1 as [|c t es _ IH|c r t es _ (rest & IH)|c t es _ _|t es _ IH]; cbn [app taken].
    - now exists [].
    - exact IH.
    - exists rest. change (r :: outputs t = r :: (taken row (es ++ [EvDone row]) ++ rest)). now rewrite IH.
    - eexists. reflexivity.
    - exact IH.
  Qed.

  Lemma respond_app : forall Bytes encoder members maxrows es1 es2 s s',
    respond row Bytes encoder members maxrows s es1 = Some s' ->
    respond row Bytes encoder members maxrows s (es1 ++ es2) = Some s'.
  Proof.
    intros Bytes encoder members maxrows. induction es1 as [|e es1 IH]; intros es2 s s' H; cbn in *; [discriminate|].
    destruct (serve row Bytes encoder members maxrows s e); auto.
  Qed.
End Proofs.

Section C97.
  Variables (E : env) (funs : string -> option (dict -> option val)) (owner : nat -> string).
  Hypothesis FOK : funs_ok E funs.
  Variables (sc : scope) (fr : list dict) (s : Eval.st).
  Hypothesis FR : frames sc fr.
  Hypothesis CO : calls_ok E owner s.
  Variables (Bytes : Type) (encoder : nat -> list dict -> option Bytes) (members : dict -> list string) (maxrows : Z).
  Hypothesis POS : (1 <= maxrows)%Z.
  Hypothesis ENC : forall n b, encoder n b <> None.

  (** The scope that the query runs in: $Query is its text. vfilter.go:494-497
      in VQL.Eval. *)
  Definition query_scope (tag : string) : scope := append_vars (VDict [("$Query"%string, VStr tag)]) (copy sc).

  Theorem C97_text_to_results : forall text script tag q depth out,
    parse_multi text = Some script -> elab_script script = [SQuery tag q] ->
    room_for depth (query_scope tag) -> label_query owner depth q ->
    query_rows E funs depth ([("$Query"%string, VStr tag)] :: fr) q = Some out ->
    (exists m s2, (forall n, run_text (ev E n) sc text = Some (m n)) /\
       evaluates m s s2 (sc, [map VDict out])) /\
    forall t done es,
      exec (started (layout E funs depth ([("$Query"%string, VStr tag)] :: fr) q)) t done ->
      uncancelled t -> finished false done -> sees t es ->
      exists s' batches,
        respond dict Bytes encoder members maxrows (resp0 dict Bytes) es = Some s' /\
        parts dict Bytes encoder members 0 batches (sent _ _ s') /\
        List.concat batches = out /\ batches <> [] /\
        Forall (fun b => (Z.of_nat (List.length b) <= maxrows)%Z) batches.
  Proof.
    intros text script tag q depth out HP HE RM LQ H.
    assert (FR' : frames (query_scope tag) ([("$Query"%string, VStr tag)] :: fr)) by (unfold frames in *; cbn; now rewrite FR).
    destruct (C96_every_schedule E funs owner FOK _ _ s FR' CO depth q out RM LQ H) as ((s2 & (N & Y) & _) & D & _).
    split.
    - exists (fun n => run_script (ev E n) sc script), s2. split.
      + intros n. unfold run_text. now rewrite HP.
      + exists N. intros n LE. specialize (Y n LE). unfold run_script. rewrite HE. cbn [run_stmts stmt_eval].
        unfold mbind. unfold query_scope in Y. rewrite Y. reflexivity.
    - intros t done es X U F SE. destruct (D t done X U) as [_ D2]. destruct (D2 F) as [O C]. subst out.
      destruct (sees_schedule _ _ _ SE _ _ X) as (es1 & es2 & -> & S).
      { eapply C39_closed_only_by_close; eauto. }
      destruct (C41_parts_are_the_rows_partial dict Bytes encoder members maxrows _ _ POS ENC S) as (s' & b & R & P).
      exists s', b. split; [now apply respond_app|exact P].
  Qed.

  (** Whenever the host gives up, and even if the encoder fails: the results it
      has been sent are those of the first rows. *)
  Theorem C97_results_so_far : forall depth q out,
    query_rows E funs depth fr q = Some out ->
    forall t now es s', exec (started (layout E funs depth fr q)) t now -> uncancelled t -> sees t es ->
      respond dict Bytes encoder members maxrows (resp0 dict Bytes) (es ++ [EvDone dict]) = Some s' ->
      exists batches rest,
        parts dict Bytes encoder members 0 batches (sent _ _ s') /\ out = List.concat batches ++ rest.
  Proof.
    intros depth q out H t now es s' X U SE R.
    destruct (proj1 (answer_delivers _ _ (layout_answer E funs depth fr q out H)) t now X U) as [(r1 & ->) _].
    destruct (sees_taken _ _ _ SE) as (r2 & ->).
    destruct (C41_nothing_reordered_or_invented _ _ _ _ _ _ _ R) as (b & lost & P & <- & _).
    exists b, (lost ++ r2 ++ r1). split; [exact P|]. now rewrite !app_assoc.
  Qed.
End C97.

(** * Example *)

Definition demo_text : string := "SELECT k, n * 2 + base AS m FROM chain(a={ SELECT * FROM t WHERE n }, b={ SELECT ""z"" AS k, _value AS n FROM range(end=2) }) WHERE m > 11 ORDER BY m DESC LIMIT 2".

Example C97_demo : forall (encoder : nat -> list dict -> option string) members,
  (forall n b, encoder n b <> None) ->
  exists script tag q out,
    parse_multi demo_text = Some script /\ elab_script script = [SQuery tag q] /\ List.length out = 2 /\
    forall t done es,
      exec (started (layout demo_env demo_funs 4 ([("$Query"%string, VStr tag)] :: demo_frames) q)) t done ->
      uncancelled t -> finished false done -> sees t es ->
      exists s' batches,
        respond dict string encoder members 10 (resp0 dict string) es = Some s' /\
        parts dict string encoder members 0 batches (sent _ _ s') /\ List.concat batches = out.
Proof.
  intros encoder members ENC.
  destruct (parse_multi demo_text) as [script|] eqn:HP; [|vm_compute in HP; discriminate].
  assert (HE : exists tag q, elab_script script = [SQuery tag q] /\
            label_query demo_owner 4 q /\ exists out, query_rows demo_env demo_funs 4 ([("$Query"%string, VStr tag)] :: demo_frames) q = Some out /\ List.length out = 2).
  { vm_compute in HP. injection HP as <-. do 2 eexists. split; [vm_compute; reflexivity|].
    split; [cbn; repeat (constructor; cbn)|]. eexists. split; [vm_compute; reflexivity|reflexivity]. }
  destruct HE as (tag & q & HE & LQ & out & HO & LEN). exists script, tag, q, out.
  split; [reflexivity|]. split; [exact HE|]. split; [exact LEN|]. intros t done es X U F SE.
  destruct (C97_text_to_results demo_env demo_funs demo_owner demo_funs_ok demo_scope demo_frames st0 eq_refl ltac:(discriminate)
    string encoder members 10 ltac:(lia) ENC demo_text script tag q 4 out HP HE) as (_ & R); auto.
  { unfold room_for. cbn. lia. }
  destruct (R t done es X U F SE) as (s' & b & A & B & C & _). eauto.
Qed.

Print Assumptions C97_text_to_results.
Print Assumptions C97_results_so_far.
