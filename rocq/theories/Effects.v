(** Expressions with effects: what the host sees while they are evaluated.

    [does W k fr e evs v]: in every scope that holds the frames [fr] and has
    [k] levels of depth left, and in every state that agrees with the world
    [W], evaluating [e] yields [v] and meanwhile the host sees exactly the
    events [evs], in this order. *)

From Coq Require Import ZArith List String Bool Lia PeanoNat.
From Verif Require Import Base BaseProofs F64 Value Protocols Monad Chains Range Flatten ArgParser Syntax
  Eval Runs PureSpec PureEval PureSelect.
Import ListNotations.
Open Scope nat_scope.
Open Scope list_scope.

Section Effects.
  Variable E : env.
  Variable funs : string -> option (dict -> option val).
  Variable owner : nat -> string.
  Hypothesis FOK : funs_ok E funs.
  Notation R := (ev E).
  Notation stok := (stok E owner).
  Notation promises := (promises E owner).
  Notation frame_ok := (frame_ok E owner).

  Definition emits {A} (W : world) (m : nat -> EM A) (evs : list val) (a : A) : Prop :=
    forall W' s, wle W W' -> stok W' s ->
      exists W'' s', wle W' W'' /\ stok W'' s' /\ trace s' = rev evs ++ trace s /\ evaluates m s s' a.

  Lemma em_promises : forall A W (m : nat -> EM A) a, promises W m a -> emits W m [] a.
  Proof.
    intros A W m a H W' s HW HS. destruct (H W' s HW HS) as (W2 & s2 & H1 & H2 & Q & H4).
    exists W2, s2. repeat (split; auto). apply (q_trace _ _ Q).
  Qed.
  Lemma em_ret : forall A W (a : A), emits W (fun _ => mret a) [] a.
  Proof. intros. apply em_promises, pr_ret. Qed.
  Lemma em_bind : forall A B W (m : nat -> EM A) (f : nat -> A -> EM B) a b evs1 evs2,
    emits W m evs1 a -> emits W (fun n => f n a) evs2 b ->
    emits W (fun n => mbind (m n) (f n)) (evs1 ++ evs2) b.
  Proof.
    intros A B W m f a b evs1 evs2 H1 H2 W1 s HW HS.
    destruct (H1 W1 s HW HS) as (W2 & s2 & HW2 & HS2 & T2 & E2).
    destruct (H2 W2 s2) as (W3 & s3 & HW3 & HS3 & T3 & E3); [eapply wle_trans; eauto|exact HS2|].
    exists W3, s3. split; [eapply wle_trans; eauto|]. split; [exact HS3|].
    split; [|eapply ev_bind; eauto]. rewrite T3, T2, rev_app_distr, app_assoc. reflexivity.
  Qed.
  Lemma em_weaken : forall A W W' (m : nat -> EM A) evs a, wle W W' -> emits W m evs a -> emits W' m evs a.
  Proof. intros A W W' m evs a HW H W1 s1 H1 HS. apply H; auto. eapply wle_trans; eauto. Qed.
  Lemma em_ext : forall A W (m m' : nat -> EM A) evs a,
    (forall n s, m n s = m' n s) -> emits W m evs a -> emits W m' evs a.
  Proof.
    intros A W m m' evs a H HP W' s HW HS. destruct (HP W' s HW HS) as (W2 & s2 & H1 & H2 & H3 & H4).
    exists W2, s2. repeat (split; auto). eapply ev_ext; [|exact H4]. auto.
  Qed.
  Lemma em_step : forall A W (m m' : nat -> EM A) evs a,
    (forall s s' x, evaluates m' s s' x -> evaluates m s s' x) -> emits W m' evs a -> emits W m evs a.
  Proof.
    intros A W m m' evs a H HP W' s HW HS. destruct (HP W' s HW HS) as (W2 & s2 & H1 & H2 & H3 & H4).
    exists W2, s2. repeat (split; auto).
  Qed.

  Definition does (W : world) (k : nat) (fr : list dict) (e : expr) (evs : list val) (v : val) : Prop :=
    forall W' sc, wle W W' -> Forall2 (frame_ok W') (sc_vars sc) fr -> sc_depth sc + k < 1000 ->
      emits W' (fun n => r_expr (R n) sc e) evs v.

  (** An expression without effects. *)
  Lemma does_pure : forall W k fr e v, den E funs fr e = Some v -> labelled owner e -> does W k fr e [] v.
  Proof.
    intros W k fr e v D L W' sc HW SC DP. apply em_promises. eapply pure_eval; eauto.
    split; [exact SC|]. unfold overflow. apply Nat.leb_gt. lia.
  Qed.

  Lemma does_weaken : forall W W' k k' fr e evs v, wle W W' -> k <= k' ->
    does W k fr e evs v -> does W' k' fr e evs v.
  Proof.
    intros W W' k k' fr e evs v HW HK H W1 sc H1 SC DP. apply H; auto; [eapply wle_trans; eauto|lia].
  Qed.

  Lemma frames_weaken : forall W W' vars fr, wle W W' ->
    Forall2 (frame_ok W) vars fr -> Forall2 (frame_ok W') vars fr.
  Proof.
    intros W W' vars fr HW H. induction H; constructor; auto. eapply frame_ok_weaken; eauto.
  Qed.

  (** ** A row of a query *)

  (** Reading out the columns of a row: the host sees the events of those
      that are not known yet, in the order of the columns. *)
  Definition column_ready (W : world) (r : lrow) (d : dict) (c : string * (list val * val)) : Prop :=
    exists g, assoc (fst c) (snd r) = Some g /\
      emits W (fun n => run_getter (R n) g) (fst (snd c)) (snd (snd c)) /\
      forall y, assoc (fst c) d = Some y -> plain y = true -> y = snd (snd c) /\ fst (snd c) = [].

  Lemma materialize_emits : forall W n r d L,
    W n = Some (WRow (fst r) (snd r) d) -> Forall (column_ready W r d) L ->
    forall d0, emits W (fun m => materialize_columns (R m) n (map fst L) d0)
      (List.concat (map (fun c => fst (snd c)) L))
      (fold_left (fun d c => dict_set (fst c) (snd (snd c)) d) L d0).
  Proof.
    intros W n r d L Hn H. induction H as [|[c [ev x]] L (g & Hg & EG & CA) _ IH]; intros d0;
      cbn [map fst snd List.concat fold_left materialize_columns] in *.
    - apply em_ret.
    - intros W1 s HW HS.
      destruct (so_heap _ _ _ _ HS n _ (HW _ _ Hn)) as (o & Ho & OO).
      destruct o; simpl in OO; try contradiction. destruct OO as (-> & -> & HC).
      assert (V : emits W (fun m => match assoc c cache with
                | Some v => mret v
                | None => match assoc c (snd r) with
                          | Some g => run_getter (R m) g | None => mpanic end
                end) ev x).
      { destruct (assoc c cache) as [v|] eqn:EC.
        - destruct (HC _ _ EC) as [D P]. destruct (CA _ D P) as [-> ->]. apply em_ret.
        - rewrite Hg. exact EG. }
      destruct (em_bind _ _ W _ (fun m v => materialize_columns (R m) n (map fst L) (dict_set c v d0))
                  x _ ev _ V (IH _) W1 s HW HS) as (W2 & s2 & H1 & H2 & H3 & H4).
      exists W2, s2. split; [exact H1|]. split; [exact H2|]. split; [exact H3|].
      eapply ev_ext; [|exact H4]. intros m. unfold mbind at 2. unfold obj_of. rewrite Ho. reflexivity.
  Qed.

  (** The columns of a row, when each is evaluated once, in order. *)
  Inductive col_events (W : world) (k : nat) (fr : list dict) (row : dict)
    : list (string * colbody) -> list val -> dict -> Prop :=
  | ce_nil : col_events W k fr row [] [] []
  | ce_cons : forall name e cols ev x evs out,
      does W k (row :: fr) e ev x -> plain x = true ->
      col_events W k fr row cols evs out ->
      col_events W k fr row ((name, CExpr e) :: cols) (ev ++ evs) ((name, expand x) :: out).

  (** What WHERE may refer to: the columns without effects, with their
      values.  The others are not data: a condition that refers to one has
      no meaning here. *)
  Definition visible (fr : list dict) (star : bool) (cols : list (string * colbody)) (row : dict) : dict :=
    columns_of (col_value E funs fr row) row cols (if star then fields row else []).

  (** The events of a query over these rows: none for a row the condition
      rejects; those of each column once, in order, for the others. *)
  Inductive events (W : world) (k : nat) (fr : list dict) (star : bool) (cols : list (string * colbody))
    (where_ : option expr) : list dict -> list dict -> list val -> Prop :=
  | evs_nil : events W k fr star cols where_ [] [] []
  | evs_rejected : forall row rows out evs,
      holds E funs fr (visible fr star cols row) row where_ = Some false ->
      events W k fr star cols where_ rows out evs ->
      events W k fr star cols where_ (row :: rows) out evs
  | evs_emitted : forall row rows out evs vals evs1,
      holds E funs fr (visible fr star cols row) row where_ = Some true ->
      col_events W k fr row cols evs1 vals ->
      events W k fr star cols where_ rows out evs ->
      events W k fr star cols where_ (row :: rows)
        (((if star then fields row else []) ++ vals) :: out) (evs1 ++ evs).

  Definition names_ok (star : bool) (cols : list (string * colbody)) (row : dict) : Prop :=
    NoDup ((if star then keys row else []) ++ map fst cols).

  Lemma star_lrow_spec : forall part r k,
    NoDup (fst r ++ keys part) ->
    (forall k, In k (keys (snd r)) -> In k (fst r)) ->
    fst (star_lrow part r) = fst r ++ keys part /\
    (forall k, In k (keys (snd (star_lrow part r))) -> In k (fst (star_lrow part r))) /\
    (forall v, In (k, v) part -> assoc k (snd (star_lrow part r)) = Some (GConst (or_null v))) /\
    (~ In k (keys part) -> assoc k (snd (star_lrow part r)) = assoc k (snd r)).
  Proof.
    unfold star_lrow, keys. intros part. induction part as [|[k0 v0] part IH]; intros r k ND KI;
      cbn [fold_left map fst snd].
    - rewrite app_nil_r. repeat split; auto. intros v [].
    - set (r1 := add_column k0 (GConst (or_null v0)) r).
      assert (ND1 : NoDup (fst r1 ++ map fst part)).
      { unfold r1, add_column. cbn [fst]. rewrite <- app_assoc. exact ND. }
      assert (KI1 : forall k, In k (map fst (snd r1)) -> In k (fst r1)).
      { intros k1 HI. unfold r1, add_column in *. cbn [fst snd] in *.
        apply in_app_iff. change (map fst) with (@keys getter) in HI.
        destruct (String.eqb k1 k0) eqn:EK; [apply String.eqb_eq in EK as ->; right; now left|].
        left. apply KI. unfold dict_set in HI. unfold keys in HI. rewrite map_app in HI.
        apply in_app_iff in HI as [HI|[HI|[]]].
        - clear - HI. induction (snd r) as [|[a b] l IHl]; [exact HI|]. cbn [remove_key] in HI.
          destruct (String.eqb k0 a); [right; auto|]. destruct HI as [HI|HI]; [now left|right; auto].
        - cbn in HI. subst. rewrite String.eqb_refl in EK. discriminate. }
      destruct (IH r1 k ND1 KI1) as (F1 & F2 & F3 & F4).
      split; [rewrite F1; unfold r1, add_column; cbn [fst]; rewrite <- app_assoc; reflexivity|].
      split; [exact F2|]. split.
      + intros v [EQ|HI]; [|auto]. injection EQ as -> ->.
        rewrite F4.
        * unfold r1, add_column. cbn [snd]. rewrite assoc_dict_set, String.eqb_refl. reflexivity.
        * apply NoDup_remove_2 in ND. intros HI. apply ND. apply in_app_iff. now right.
      + intros NI. rewrite F4 by (intros HI; apply NI; now right).
        unfold r1, add_column. cbn [snd]. rewrite assoc_dict_set.
        destruct (String.eqb k k0) eqn:EK; [|reflexivity].
        apply String.eqb_eq in EK as ->. exfalso. apply NI. now left.
  Qed.

  Lemma cols_lrow_spec : forall nsc cols r k,
    NoDup (map fst cols) ->
    fst (cols_lrow nsc cols r) = fst r ++ map fst cols /\
    (forall b, In (k, b) cols -> assoc k (snd (cols_lrow nsc cols r)) = Some (GCol b nsc)) /\
    (~ In k (map fst cols) -> assoc k (snd (cols_lrow nsc cols r)) = assoc k (snd r)).
  Proof.
    unfold cols_lrow. intros nsc cols. induction cols as [|[k0 v0] cols IH]; intros r k ND;
      cbn [fold_left map fst snd].
    - rewrite app_nil_r. repeat split; auto. intros v [].
    - cbn [map fst] in ND. inversion ND as [|? ? NI ND']; subst.
      set (r1 := add_column k0 (GCol v0 nsc) r).
      destruct (IH r1 k ND') as (F1 & F3 & F4).
      split; [rewrite F1; unfold r1, add_column; cbn [fst]; rewrite <- app_assoc; reflexivity|]. split.
      + intros v [EQ|HI]; [|auto]. injection EQ as -> ->. rewrite F4 by exact NI.
        unfold r1, add_column. cbn [snd]. rewrite assoc_dict_set, String.eqb_refl. reflexivity.
      + intros NK. rewrite F4 by (intros HI; apply NK; now right).
        unfold r1, add_column. cbn [snd]. rewrite assoc_dict_set.
        destruct (String.eqb k k0) eqn:EK; [|reflexivity].
        apply String.eqb_eq in EK as ->. exfalso. apply NK. now left.
  Qed.

  Lemma col_events_names : forall W k fr row cols evs out,
    col_events W k fr row cols evs out -> map fst out = map fst cols.
  Proof. intros W k fr row cols evs out H. induction H; cbn; congruence. Qed.

  Lemma NoDup_app_l : forall A (a b : list A), NoDup (a ++ b) -> NoDup a.
  Proof.
    intros A a b H. induction a as [|x a IH]; [constructor|]. cbn in H.
    apply NoDup_cons_iff in H as [H1 H2]. constructor; [|auto]. intros HI. apply H1, in_app_iff. now left.
  Qed.
  Lemma NoDup_app_r : forall A (a b : list A), NoDup (a ++ b) -> NoDup b.
  Proof.
    intros A a b H. induction a as [|x a IH]; [exact H|]. cbn in H.
    apply NoDup_cons_iff in H as [_ H2]. auto.
  Qed.
  Lemma NoDup_app_disj : forall A (a b : list A) x, NoDup (a ++ b) -> In x a -> In x b -> False.
  Proof.
    intros A a b x H IA IB. induction a as [|y a IH]; [exact IA|]. cbn in H.
    apply NoDup_cons_iff in H as [H1 H2]. destruct IA as [->|IA]; [|auto].
    apply H1, in_app_iff. now right.
  Qed.

  (** Distinct names: building the result row column by column. *)
  Lemma build_distinct : forall (L : list (string * (list val * val))) d0,
    NoDup (keys d0 ++ map fst L) ->
    fold_left (fun d c => dict_set (fst c) (snd (snd c)) d) L d0 =
    d0 ++ map (fun c => (fst c, snd (snd c))) L.
  Proof.
    intros L. induction L as [|[c [ev x]] L IH]; intros d0 ND; cbn [fold_left map fst snd].
    - now rewrite app_nil_r.
    - cbn [map fst] in ND. rewrite dict_set_absent.
      + rewrite IH.
        * rewrite <- app_assoc. reflexivity.
        * unfold keys in *. rewrite map_app. cbn [map fst]. rewrite <- app_assoc. exact ND.
      + apply assoc_none_keys. destruct (mem_str c (keys d0)) eqn:M; [|reflexivity].
        apply mem_str_spec in M. exfalso. apply NoDup_remove_2 in ND. apply ND, in_app_iff. now left.
  Qed.

  (** The columns of a row are ready to be read out: each runs its
      expression, and is not known in advance unless it has no effect. *)
  Lemma columns_ready : forall W0 W k fr row nsc r d s,
    wle W0 W -> stok W s ->
    Forall2 (frame_ok W) (sc_vars nsc) (row :: fr) -> sc_depth nsc + k < 1000 ->
    forall cols evs (vals : dict), col_events W0 k fr row cols evs vals -> label_cols owner cols ->
    (forall c b, In (c, b) cols -> assoc c (snd r) = Some (GCol b nsc) /\
                                   assoc c d = Some (col_value E funs fr row b)) ->
    exists L, map fst L = map fst cols /\ List.concat (map (fun c => fst (snd c)) L) = evs /\
      map (fun c => (fst c, snd (snd c))) L = vals /\ Forall (column_ready W r d) L.
  Proof.
    intros W0 W k fr row nsc r d s HW HS SC DP cols evs vals H.
    induction H as [|name e cols ev x evs out HD PX _ IH]; intros LC HR.
    - exists []. repeat split; constructor.
    - inversion LC as [|? ? LB LC']; subst. cbn [snd] in LB.
      destruct IH as (L & L1 & L2 & L3 & L4); [exact LC'|intros c b HI; apply HR; now right|].
      exists ((name, (ev, expand x)) :: L). cbn [map fst snd List.concat]. rewrite L1, L2, L3.
      repeat split. constructor; [|exact L4].
      destruct (HR name (CExpr e) (or_introl eq_refl)) as [Hg Hd].
      exists (GCol (CExpr e) nsc). cbn [fst snd]. split; [exact Hg|]. split.
      + cbn [run_getter col_reduce]. rewrite <- (app_nil_r ev).
        eapply (em_bind _ _ W _ _ x); [apply HD; auto|].
        apply em_promises.
        eapply (pr_bind E owner _ _ W (fun _ => obj_of x) _ None); [now apply pr_obj_of|].
        destruct x; apply pr_ret.
      + intros y Hy PY. rewrite Hd in Hy. injection Hy as <-. unfold col_val in *. cbn [column] in *.
        destruct (den E funs (row :: fr) e) as [v|] eqn:DE; [|discriminate]. cbn [option_map] in *.
        pose proof (does_pure W k (row :: fr) e v DE LB W nsc (wle_refl _) SC DP W s (wle_refl _) HS) as
          (_ & s1 & _ & _ & T1 & E1).
        pose proof (HD W nsc HW SC DP W s (wle_refl _) HS) as (_ & s2 & _ & _ & T2 & E2).
        destruct (evaluates_unique _ _ _ _ _ _ _ E1 E2) as [<- <-]. split; [reflexivity|].
        rewrite T1 in T2. cbn in T2. apply (f_equal (@List.length val)) in T2.
        rewrite app_length, rev_length in T2. destruct ev; [reflexivity|cbn in T2; lia].
  Qed.

  Lemma assoc_columns_of : forall cv row cols acc c,
    NoDup (map fst cols) -> no_star cols ->
    (forall b, In (c, b) cols -> assoc c (columns_of cv row cols acc) = Some (cv b)) /\
    (~ In c (map fst cols) -> assoc c (columns_of cv row cols acc) = assoc c acc).
  Proof.
    intros cv row cols. induction cols as [|[name body] cols IH]; intros acc c ND NS; cbn [columns_of map fst].
    - split; [intros b []|auto].
    - cbn [map fst] in ND. inversion ND as [|? ? NI ND']; subst. inversion NS as [|? ? N1 NS']; subst.
      cbn [fst] in N1. rewrite N1. destruct (IH (dict_set name (cv body) acc) c ND' NS') as [A B]. split.
      + intros b [EQ|HI]; [|auto]. injection EQ as -> ->. rewrite B by exact NI.
        rewrite PureEval.assoc_dict_set, String.eqb_refl. reflexivity.
      + intros NK. rewrite B by (intros HI; apply NK; now right).
        rewrite PureEval.assoc_dict_set. destruct (String.eqb c name) eqn:EK; [|reflexivity].
        apply String.eqb_eq in EK as ->. exfalso. apply NK. now left.
  Qed.

  Lemma process_row_emits : forall W k sc fr (star : bool) cols where_ row keep evs vals,
    Forall2 (frame_ok W) (sc_vars sc) fr -> sc_depth sc + 2 + k < 1000 -> row_ok row ->
    label_cols owner cols -> label_where owner where_ -> no_star cols -> names_ok star cols row ->
    holds E funs fr (visible fr star cols row) row where_ = Some keep ->
    (keep = true -> col_events W k fr row cols evs vals) -> (keep = false -> evs = []) ->
    emits W (fun n => process_row E (R n) sc star cols where_ (VDict row)) evs
      (if keep then [VDict ((if star then fields row else []) ++ vals)] else []).
  Proof.
    intros W k sc fr star cols where_ row keep evs vals FR DP RO LC LW NS NO HK CE CN W1 s HW HS.
    set (nsc := append_vars (VDict row) (copy (copy sc))).
    assert (SC1 : PureEval.scope_ok E owner W nsc (row :: fr)).
    { split; [unfold nsc; cbn [append_vars copy sc_vars]; constructor; [now left|exact FR]|].
      unfold overflow, nsc. cbn [append_vars copy sc_depth]. apply Nat.leb_gt. lia. }
    destruct (transform_ok E funs owner FOK W (copy sc) fr star cols row SC1 RO LC W1 s HW HS) as
      (W2 & s2 & n & HW2 & HS2 & Q2 & OBJ & EXPL & EV2).
    specialize (EXPL NS). cbv zeta in EXPL. fold nsc in EXPL.
    change (columns_of (col_value E funs fr row) row cols (if star then fields row else []))
      with (visible fr star cols row) in *.
    set (r0 := if star then star_lrow row ([], []) else ([], [])) in *.
    set (r := cols_lrow nsc cols r0) in *.
    assert (ND1 : NoDup (map fst cols)) by (eapply NoDup_app_r; exact NO).
    assert (R0 : fst r0 = (if star then keys row else []) /\
              forall c v, In (c, v) row -> star = true -> assoc c (snd r0) = Some (GConst (or_null v))).
    { unfold r0. destruct star; [|split; [reflexivity|discriminate]]. split.
      - destruct (star_lrow_spec row ([], []) EmptyString) as (F & _); [apply RO|intros ? []|exact F].
      - intros c v HI _. destruct (star_lrow_spec row ([], []) c) as (_ & _ & F & _); [apply RO|intros ? []|auto]. }
    destruct R0 as [RC RG].
    assert (MAT : forall W3, wle W2 W3 -> keep = true -> forall s3, stok W3 s3 ->
      emits W3 (fun m => x <- materialize_row (R m) (VOpaque n) ;; mret [x]) evs
        [VDict ((if star then fields row else []) ++ vals)]).
    { intros W3 HW3 KT s3 HS3. specialize (CE KT).
      assert (HW03 : wle W W3) by (eapply wle_trans; [exact HW|]; eapply wle_trans; eauto).
      destruct (columns_ready W W3 k fr row nsc r (visible fr star cols row) s3 HW03 HS3) with
        (3 := CE) (4 := LC) as (L & L1 & L2 & L3 & L4).
      - eapply frames_weaken; [exact HW03|]. apply SC1.
      - unfold nsc. cbn [append_vars copy sc_depth]. lia.
      - intros c b HI. destruct (cols_lrow_spec nsc cols r0 c ND1) as (_ & A & _).
        split; [apply A, HI|].
        apply (proj1 (assoc_columns_of (col_value E funs fr row) row cols _ c ND1 NS)), HI.
      - set (L0 := if star then map (fun kv => (fst kv, (@nil val, or_null (snd kv)))) row else []).
        assert (K0 : map fst L0 = if star then keys row else []).
        { unfold L0, keys. destruct star; [rewrite map_map; reflexivity|reflexivity]. }
        assert (READY : Forall (column_ready W3 r (visible fr star cols row)) (L0 ++ L)).
        { apply Forall_app. split; [|exact L4]. unfold L0. destruct star eqn:ES; [|constructor].
          apply Forall_forall. intros c HI. apply in_map_iff in HI as ([c0 v] & <- & HI). cbn [fst snd].
          assert (NC : ~ In c0 (map fst cols)).
          { intros HC. eapply NoDup_app_disj; [exact NO| |exact HC]. unfold keys.
            change c0 with (fst (c0, v)). now apply in_map. }
          exists (GConst (or_null v)). cbn [fst snd]. split; [|split].
          - unfold r. destruct (cols_lrow_spec nsc cols r0 c0 ND1) as (_ & _ & A).
            rewrite A by exact NC. now apply RG.
          - cbn [run_getter]. apply em_ret.
          - intros y Hy _. split; [|reflexivity]. unfold visible in Hy.
            rewrite (proj2 (assoc_columns_of _ row cols _ c0 ND1 NS) NC) in Hy.
            assert (ND2 : NoDup (keys (fields row))).
            { unfold keys, fields. rewrite map_map. cbn [fst]. apply RO. }
            rewrite (assoc_in _ (fields row) c0 (or_null v) ND2) in Hy; [congruence|].
            unfold fields. change (c0, or_null v) with ((fun kv : string * val => (fst kv, or_null (snd kv))) (c0, v)).
            now apply in_map. }
        pose proof (materialize_emits W3 n r _ (L0 ++ L) (HW3 _ _ EXPL) READY []) as M.
        rewrite map_app, K0, L1 in M.
        assert (FR1 : fst r = (if star then keys row else []) ++ map fst cols).
        { unfold r. destruct (cols_lrow_spec nsc cols r0 EmptyString ND1) as (A & _). now rewrite A, RC. }
        rewrite <- FR1 in M. rewrite map_app, concat_app, L2 in M.
        assert (E0 : List.concat (map (fun c : string * (list val * val) => fst (snd c)) L0) = []).
        { unfold L0. destruct star; [|reflexivity]. clear. induction row; cbn; auto. }
        rewrite E0 in M. cbn [app] in M. rewrite build_distinct in M.
        + rewrite map_app, L3 in M.
          assert (E1 : map (fun c : string * (list val * val) => (fst c, snd (snd c))) L0 =
                       if star then fields row else []).
          { unfold L0. destruct star; [|reflexivity]. rewrite map_map. reflexivity. }
          rewrite E1 in M. cbn [app] in M.
          assert (M2 : emits W3 (fun m => d <- materialize_columns (R m) n (fst r) [] ;; mret [VDict d]) (evs ++ [])
                         [VDict ((if star then fields row else []) ++ vals)]).
          { eapply em_bind; [exact M|]. apply em_ret. }
          rewrite app_nil_r in M2.
          intros W4 s4 HW4 HS4.
          destruct (so_heap _ _ _ _ HS4 n _ (HW4 _ _ (HW3 _ _ EXPL))) as (o & Ho & OO).
          destruct o; simpl in OO; try contradiction. destruct OO as (-> & -> & HC).
          destruct (M2 W4 s4 HW4 HS4) as (W5 & s5 & H1 & H2 & H3 & H4).
          exists W5, s5. split; [exact H1|]. split; [exact H2|]. split; [exact H3|].
          eapply ev_ext; [|exact H4]. intros m. unfold materialize_row, mbind, obj_of, mret. rewrite Ho.
          destruct (materialize_columns (R m) n (fst r) [] s4) as [s6 [x| |]]; reflexivity.
        + cbn [keys map app]. rewrite map_app, K0, L1. exact NO. }
    assert (TAIL : forall s3 W3, wle W2 W3 -> stok W3 s3 ->
      exists W4 s4, wle W3 W4 /\ stok W4 s4 /\ trace s4 = rev evs ++ trace s3 /\
        evaluates (fun m => if keep then x <- materialize_row (R m) (VOpaque n) ;; mret [x] else mret [])
          s3 s4 (if keep then [VDict ((if star then fields row else []) ++ vals)] else [])).
    { intros s3 W3 HW3 HS3. destruct keep.
      - apply (MAT W3 HW3 eq_refl s3 HS3 W3 s3 (wle_refl _) HS3).
      - rewrite (CN eq_refl). exists W3, s3. repeat split; auto using wle_refl, ev_ret; apply HS3. }
    assert (DONE : exists W4 s4, wle W1 W4 /\ stok W4 s4 /\ trace s4 = rev evs ++ trace s2 /\
      evaluates (fun m =>
        match where_ with
        | None => x <- materialize_row (R m) (VOpaque n) ;; mret [x]
        | Some w =>
            v <- r_expr (R m) (append_vars (VOpaque n) (append_vars (VDict row) (copy (copy sc)))) w ;;
            b <- accepts E (R m) sc v ;;
            if b : bool then x <- materialize_row (R m) (VOpaque n) ;; mret [x] else mret []
        end) s2 s4 (if keep then [VDict ((if star then fields row else []) ++ vals)] else [])).
    { destruct where_ as [w|]; cbn [holds] in HK.
      - apply omap_some in HK as (v & Hv & KV).
        assert (P1 : promises W2 (fun m => r_expr (R m) (append_vars (VOpaque n) nsc) w) v).
        { eapply pure_eval; [exact FOK| |exact Hv|exact LW]. split.
          - cbn [append_vars sc_vars]. constructor; [now apply row_obj_frame|].
            eapply frames_weaken; [|apply SC1]. eapply wle_trans; eauto.
          - apply SC1. }
        assert (P2 : promises W2 (fun m => accepts E (R m) sc v) keep).
        { rewrite <- KV. apply pr_accepts. eapply den_plain; eauto. }
        destruct (P1 W2 s2 (wle_refl _) HS2) as (W3 & s3 & HW3 & HS3 & Q3 & EV3).
        destruct (P2 W3 s3 HW3 HS3) as (W4 & s4 & HW4 & HS4 & Q4 & EV4).
        destruct (TAIL s4 W4 (wle_trans _ _ _ HW3 HW4) HS4) as (W5 & s5 & HW5 & HS5 & T5 & EV5).
        exists W5, s5. split; [eapply wle_trans; [exact HW2|]; eapply wle_trans; [exact HW3|]; eapply wle_trans; eauto|].
        split; [exact HS5|]. split; [rewrite T5, (q_trace _ _ Q4), (q_trace _ _ Q3); reflexivity|].
        eapply ev_bind; [exact EV3|]. eapply ev_bind; [exact EV4|]. exact EV5.
      - injection HK as <-.
        destruct (TAIL s2 W2 (wle_refl _) HS2) as (W5 & s5 & HW5 & HS5 & T5 & EV5).
        exists W5, s5. split; [eapply wle_trans; eauto|]. auto. }
    destruct DONE as (W4 & s4 & HW4 & HS4 & T4 & EV4).
    exists W4, s4. split; [exact HW4|]. split; [exact HS4|].
    split; [rewrite T4, (q_trace _ _ Q2); reflexivity|].
    unfold process_row. eapply ev_bind; [exact EV2|]. exact EV4.
  Qed.

  Lemma rows_emit : forall W k sc fr (star : bool) cols where_,
    Forall2 (frame_ok W) (sc_vars sc) fr -> sc_depth sc + 2 + k < 1000 ->
    label_cols owner cols -> label_where owner where_ -> no_star cols ->
    forall rows out evs, events W k fr star cols where_ rows out evs ->
    Forall row_ok rows -> Forall (names_ok star cols) rows ->
    emits W (fun n => o <- mmap (process_row E (R n) sc star cols where_) (map VDict rows) ;;
                      mret (List.concat o)) evs (map VDict out).
  Proof.
    intros W k sc fr star cols where_ FR DP LC LW NS rows out evs H RO NO.
    assert (G : exists outs, emits W (fun n => mmap (process_row E (R n) sc star cols where_) (map VDict rows))
              evs outs /\ List.concat outs = map VDict out).
    { induction H as [|row rows out evs HK _ IH|row rows out evs vals evs1 HK CE _ IH];
        [exists []; split; [apply em_ret|reflexivity]| |];
        inversion RO as [|? ? R1 RO']; subst; inversion NO as [|? ? N1 NO']; subst;
        destruct (IH RO' NO') as (outs & HM & HC).
      - exists ([] :: outs). split; [|exact HC]. cbn [map mmap].
        change evs with ([] ++ evs). eapply (em_bind _ _ W _ _ []).
        { eapply (process_row_emits W k sc fr star cols where_ row false [] []); eauto; discriminate. }
        rewrite <- (app_nil_r evs). eapply em_bind; [exact HM|]. apply em_ret.
      - exists ([VDict ((if star then fields row else []) ++ vals)] :: outs).
        split; [|cbn [List.concat map]; now rewrite HC]. cbn [map mmap].
        eapply (em_bind _ _ W _ _ [VDict ((if star then fields row else []) ++ vals)]).
        { eapply (process_row_emits W k sc fr star cols where_ row true evs1 vals); eauto; discriminate. }
        rewrite <- (app_nil_r evs). eapply em_bind; [exact HM|]. apply em_ret. }
    destruct G as (outs & HM & HC). rewrite <- (app_nil_r evs).
    eapply (em_bind _ _ W _ _ outs); [exact HM|]. rewrite HC. apply em_ret.
  Qed.

  (** ** Lazily passed arguments *)

  Lemma alloc_in_world : forall W s o x, stok W s -> wobj_ok x o ->
    exists W2, wle W W2 /\ stok W2 (set_heap (heap s ++ [o]) s) /\ W2 (List.length (heap s)) = Some x.
  Proof.
    intros W s o x HS OK. set (n0 := List.length (heap s)).
    set (W2 := fun n => if Nat.eqb n n0 then Some x else W n).
    assert (FR : W n0 = None).
    { destruct (W n0) as [y|] eqn:EW; [|reflexivity].
      destruct (so_heap _ _ _ _ HS _ _ EW) as (o' & Ho & _).
      assert (n0 < List.length (heap s)) by (apply nth_error_Some; congruence). lia. }
    exists W2. split; [|split].
    - intros n y Hn. unfold W2. destruct (Nat.eqb n n0) eqn:EN; [|exact Hn].
      apply Nat.eqb_eq in EN as ->. congruence.
    - constructor; [|apply HS]. intros n y Hn. simpl. unfold W2 in Hn.
      destruct (Nat.eqb n n0) eqn:EN.
      + apply Nat.eqb_eq in EN as ->. injection Hn as <-. exists o. split; [apply nth_error_snoc|exact OK].
      + destruct (so_heap _ _ _ _ HS _ _ Hn) as (o' & Ho & OK'). exists o'.
        split; [now apply nth_error_app_some|exact OK'].
    - unfold W2. now rewrite Nat.eqb_refl.
  Qed.

  Lemma node_function_ok : forall W s node f, stok W s -> assoc (owner node) (env_funs E) = Some f ->
    exists s3 id b, node_function node f s = (s3, RVal (f, id, b)) /\ stok W s3 /\
      heap s3 = heap s /\ trace s3 = trace s.
  Proof.
    intros W s node f HS OW. unfold node_function.
    destruct (nassoc node (node_funs s)) as [[f' id]|] eqn:EN.
    - pose proof (so_funs _ _ _ _ HS _ _ _ EN) as SF. rewrite OW in SF. injection SF as <-.
      exists s, id, false. auto.
    - eexists _, _, true. split; [reflexivity|]. split; [|auto].
      constructor; simpl; [apply HS|]. intros nd f' id'. rewrite PureEval.nassoc_nset.
      destruct (Nat.eqb nd node) eqn:ED; [|apply HS].
      apply Nat.eqb_eq in ED as ->. intros [= <- <-]. exact OW.
  Qed.

  Lemma ws_emits : forall W n e sc sc' y evs x,
    W n = Some (WLazy e sc y) -> emits W (fun m => r_expr (R m) sc e) evs x -> plain x = true ->
    emits W (fun m => r_reduce_ws (R m) sc' (VOpaque n)) evs (expand x).
  Proof.
    intros W n e sc sc' y evs x Hn HX PX. eapply em_step; [intros; apply ev_reduce_ws; eassumption|].
    unfold reduce_ws_step. intros W1 s HW HS.
    destruct (so_heap _ _ _ _ HS n _ (HW _ _ Hn)) as (o & Ho & OK).
    destruct o; simpl in OK; try contradiction. destruct OK as (-> & -> & _).
    assert (G : emits W (fun n => x <- r_expr (R n) sc e ;; ox <- obj_of x ;;
                  match x with
                  | VQuery rows => mret (VArr rows)
                  | _ => if is_lazy ox then r_reduce (R n) x else mret x
                  end) (evs ++ []) (expand x)).
    { eapply (em_bind _ _ W _ _ x); [exact HX|]. apply em_promises.
      eapply (pr_bind E owner _ _ W (fun _ => obj_of x) _ None); [now apply pr_obj_of|].
      cbn [is_lazy]. destruct x; apply pr_ret. }
    rewrite app_nil_r in G.
    destruct (G W1 s HW HS) as (W2 & s2 & H1 & H2 & H3 & H4).
    exists W2, s2. split; [exact H1|]. split; [exact H2|]. split; [exact H3|].
    eapply ev_ext; [|exact H4]. intros m. unfold mbind at 3. unfold obj_of at 2. rewrite Ho. reflexivity.
  Qed.

  Lemma if_args : forall n sc n0 n1 n2 s s' v,
    r_reduce_ws (R n) sc (VOpaque n0) s = (s', RVal v) -> v <> VNil ->
    parse_args E (R n) sc if_fields
      [("condition"%string, VOpaque n0); ("then"%string, VOpaque n1); ("else"%string, VOpaque n2)]
      [VNil; VNil; VNil] s = (s', RVal ([v; VOpaque n1; VOpaque n2], None)).
  Proof.
    intros n sc n0 n1 n2 s s' v H NV. unfold parse_args, extract_args, normalize_args.
    cbn [assoc String.eqb Ascii.eqb Bool.eqb]. unfold mbind at 1, mret at 1. unfold parse, if_fields.
    cbn [parse_fields assoc fp_name fp_type fp_idx fp_required field_ String.eqb Ascii.eqb Bool.eqb coerce].
    unfold mbind, mret. rewrite H. destruct v; try congruence; reflexivity.
  Qed.

  (** The function if: the condition, then the branch it selects. *)
  Lemma does_if : forall W k fr node c a b evs1 cv evs2 x,
    assoc "if"%string (env_funs E) = Some FIf -> owner node = "if"%string ->
    does W k fr c evs1 cv -> plain cv = true -> cv <> VNil ->
    does W k fr (if truthy E (expand cv) then a else b) evs2 x -> plain x = true ->
    does W k fr (ESym node false ["if"%string] true
                   [("condition"%string, AExpr c); ("then"%string, AExpr a); ("else"%string, AExpr b)])
      (evs1 ++ evs2) (or_null (expand x)).
  Proof.
    intros W k fr node c a b evs1 cv evs2 x IF OW HC PC NC HB PX W1 sc HW SC DP.
    eapply em_step; [intros; apply ev_expr; eassumption|]. cbn [expr_step]. unfold sym_reduce.
    change (evs1 ++ evs2) with ([] ++ (evs1 ++ evs2)).
    eapply (em_bind _ _ W1 (fun _ => split_symbol node false) _ false); [apply em_promises, pr_split|].
    cbv beta iota. rewrite IF. rewrite <- (app_nil_r (evs1 ++ evs2)).
    eapply (em_bind _ _ W1 _ _ (or_null (expand x))); [|apply em_ret].
    intros W2 s HW2 HS.
    (* the three lazy arguments *)
    set (n0 := List.length (heap s)).
    destruct (alloc_in_world W2 s (OLazy c sc None) (WLazy c sc VNull) HS) as (W3 & H3 & HS3 & E3); [simpl; auto|].
    set (s3 := set_heap (heap s ++ [OLazy c sc None]) s) in *.
    destruct (alloc_in_world W3 s3 (OLazy a sc None) (WLazy a sc VNull) HS3) as (W4 & H4 & HS4 & E4); [simpl; auto|].
    set (s4 := set_heap (heap s3 ++ [OLazy a sc None]) s3) in *.
    destruct (alloc_in_world W4 s4 (OLazy b sc None) (WLazy b sc VNull) HS4) as (W5 & H5 & HS5 & E5); [simpl; auto|].
    set (s5 := set_heap (heap s4 ++ [OLazy b sc None]) s4) in *.
    assert (L3 : List.length (heap s3) = S n0).
    { unfold s3. simpl. rewrite app_length. simpl. unfold n0. lia. }
    assert (L4 : List.length (heap s4) = S (S n0)).
    { change (heap s4) with (heap s3 ++ [OLazy a sc None]). rewrite app_length, L3. simpl. lia. }
    fold n0 in E3. rewrite L3 in E4. rewrite L4 in E5.
    destruct (node_function_ok W5 s5 node FIf HS5) as (s6 & id & fst_call & EN & HS6 & HH6 & HT6); [now rewrite OW|].
    assert (W15 : wle W W5).
    { eapply wle_trans; [exact HW|]. eapply wle_trans; [exact HW2|]. eapply wle_trans; [exact H3|].
      eapply wle_trans; eauto. }
    assert (SC5 : Forall2 (frame_ok W5) (sc_vars sc) fr).
    { eapply frames_weaken; [|exact SC]. eapply wle_trans; [exact HW2|]. eapply wle_trans; [exact H3|].
      eapply wle_trans; eauto. }
    pose proof (ws_emits W5 n0 c sc sc VNull evs1 cv (H5 _ _ (H4 _ _ E3)) (HC W5 sc W15 SC5 DP) PC) as COND.
    set (nb := if truthy E (expand cv) then S n0 else S (S n0)).
    assert (BR : emits W5 (fun m => r_reduce_ws (R m) sc (VOpaque nb)) evs2 (expand x)).
    { unfold nb. destruct (truthy E (expand cv)).
      - apply (ws_emits W5 (S n0) a sc sc VNull); auto.
      - apply (ws_emits W5 (S (S n0)) b sc sc VNull); auto. }
    destruct (COND W5 s6 (wle_refl _) HS6) as (W7 & s7 & H7 & HS7 & T7 & [N7 EV7]).
    assert (PE : plain (expand cv) = true) by now apply plain_expand.
    destruct (pr_truth E owner W7 sc (expand cv) PE W7 s7 (wle_refl _) HS7) as
      (W8 & s8 & H8 & HS8 & Q8 & [N8 EV8]).
    destruct (BR W8 s8 (wle_trans _ _ _ H7 H8) HS8) as (W9 & s9 & H9 & HS9 & T9 & [N9 EV9]).
    exists W9, s9. split.
    { eapply wle_trans; [exact H3|]. eapply wle_trans; [exact H4|]. eapply wle_trans; [exact H5|].
      eapply wle_trans; [exact H7|]. eapply wle_trans; eauto. }
    split; [exact HS9|]. split.
    { rewrite T9, (q_trace _ _ Q8), T7, HT6. unfold s5, s4, s3. simpl.
      rewrite rev_app_distr, app_assoc. reflexivity. }
    (* running it *)
    assert (NE : expand cv <> VNil) by (destruct cv; simpl; congruence).
    destruct (so_heap _ _ _ _ HS8 nb (WLazy (if truthy E (expand cv) then a else b) sc VNull)) as (o8 & Ho8 & OK8).
    { apply H8, H7. unfold nb. destruct (truthy E (expand cv)); [apply H5, E4|exact E5]. }
    destruct o8; simpl in OK8; try contradiction.
    exists (max N7 (max N8 N9)). intros n Hn. unfold call_function.
    unfold build_lazy_args. cbn [build_lazy_args]. unfold mbind at 1. unfold mbind at 1. unfold alloc at 1.
    fold s3. fold n0. unfold mbind at 1. unfold alloc at 1. rewrite L3. fold s4.
    unfold mbind at 1. unfold alloc at 1. rewrite L4. fold s5. unfold mret at 1.
    cbn [dict_set remove_key app String.eqb Ascii.eqb Bool.eqb].
    unfold mbind at 1. rewrite EN. unfold mbind at 1. cbn [call_func]. unfold if_function.
    unfold mbind at 1. rewrite (if_args n sc n0 (S n0) (S (S n0)) s6 s7 (expand cv)) by (auto; apply EV7; lia).
    cbv beta iota. unfold mbind at 1. rewrite EV8 by lia.
    unfold nb in *. destruct (truthy E (expand cv)).
    - cbn [is_nil]. unfold mbind at 1, obj_of at 1. rewrite Ho8. cbn [is_lazy].
      unfold mbind at 1. rewrite EV9 by lia. unfold mbind at 1, obj_of at 1.
      assert (PX' : plain (expand x) = true) by now apply plain_expand.
      destruct (expand x); try discriminate; destruct fst_call; reflexivity.
    - unfold if_else. cbn [is_nil]. unfold mbind at 1, obj_of at 1. rewrite Ho8. cbn [is_lazy].
      unfold mbind at 1. rewrite EV9 by lia. unfold mbind at 1, obj_of at 1.
      assert (PX' : plain (expand x) = true) by now apply plain_expand.
      destruct (expand x); try discriminate; destruct fst_call; reflexivity.
  Qed.

  Lemma if_args_two : forall n sc n0 n1 s s' v,
    r_reduce_ws (R n) sc (VOpaque n0) s = (s', RVal v) -> v <> VNil ->
    parse_args E (R n) sc if_fields
      [("condition"%string, VOpaque n0); ("then"%string, VOpaque n1)]
      [VNil; VNil; VNil] s = (s', RVal ([v; VOpaque n1; VNil], None)).
  Proof.
    intros n sc n0 n1 s s' v H NV. unfold parse_args, extract_args, normalize_args.
    cbn [assoc String.eqb Ascii.eqb Bool.eqb]. unfold mbind at 1, mret at 1. unfold parse, if_fields.
    cbn [parse_fields assoc fp_name fp_type fp_idx fp_required field_ String.eqb Ascii.eqb Bool.eqb coerce].
    unfold mbind, mret. rewrite H. destruct v; try congruence; reflexivity.
  Qed.

  (** The function if without else: NULL when the condition does not hold. *)
  Lemma does_if_no_else : forall W k fr node c a evs1 cv evs2 x,
    assoc "if"%string (env_funs E) = Some FIf -> owner node = "if"%string ->
    does W k fr c evs1 cv -> plain cv = true -> cv <> VNil ->
    (if truthy E (expand cv) then does W k fr a evs2 x else evs2 = [] /\ x = VNull) -> plain x = true ->
    does W k fr (ESym node false ["if"%string] true
                   [("condition"%string, AExpr c); ("then"%string, AExpr a)])
      (evs1 ++ evs2) (or_null (expand x)).
  Proof.
    intros W k fr node c a evs1 cv evs2 x IF OW HC PC NC HB PX W1 sc HW SC DP.
    eapply em_step; [intros; apply ev_expr; eassumption|]. cbn [expr_step]. unfold sym_reduce.
    change (evs1 ++ evs2) with ([] ++ (evs1 ++ evs2)).
    eapply (em_bind _ _ W1 (fun _ => split_symbol node false) _ false); [apply em_promises, pr_split|].
    cbv beta iota. rewrite IF. rewrite <- (app_nil_r (evs1 ++ evs2)).
    eapply (em_bind _ _ W1 _ _ (or_null (expand x))); [|apply em_ret].
    intros W2 s HW2 HS.
    set (n0 := List.length (heap s)).
    destruct (alloc_in_world W2 s (OLazy c sc None) (WLazy c sc VNull) HS) as (W3 & H3 & HS3 & E3); [simpl; auto|].
    set (s3 := set_heap (heap s ++ [OLazy c sc None]) s) in *.
    destruct (alloc_in_world W3 s3 (OLazy a sc None) (WLazy a sc VNull) HS3) as (W4 & H4 & HS4 & E4); [simpl; auto|].
    set (s4 := set_heap (heap s3 ++ [OLazy a sc None]) s3) in *.
    assert (L3 : List.length (heap s3) = S n0).
    { unfold s3. simpl. rewrite app_length. simpl. unfold n0. lia. }
    fold n0 in E3. rewrite L3 in E4.
    destruct (node_function_ok W4 s4 node FIf HS4) as (s6 & id & fst_call & EN & HS6 & HH6 & HT6); [now rewrite OW|].
    assert (W14 : wle W W4).
    { eapply wle_trans; [exact HW|]. eapply wle_trans; [exact HW2|]. eapply wle_trans; eauto. }
    assert (SC4 : Forall2 (frame_ok W4) (sc_vars sc) fr).
    { eapply frames_weaken; [|exact SC]. eapply wle_trans; [exact HW2|]. eapply wle_trans; eauto. }
    pose proof (ws_emits W4 n0 c sc sc VNull evs1 cv (H4 _ _ E3) (HC W4 sc W14 SC4 DP) PC) as COND.
    destruct (COND W4 s6 (wle_refl _) HS6) as (W7 & s7 & H7 & HS7 & T7 & [N7 EV7]).
    assert (PE : plain (expand cv) = true) by now apply plain_expand.
    destruct (pr_truth E owner W7 sc (expand cv) PE W7 s7 (wle_refl _) HS7) as
      (W8 & s8 & H8 & HS8 & Q8 & [N8 EV8]).
    assert (REST : exists W9 s9, wle W8 W9 /\ stok W9 s9 /\ trace s9 = rev evs2 ++ trace s8 /\
      exists N9, forall n, N9 <= n ->
        (if truthy E (expand cv) then r_reduce_ws (R n) sc (VOpaque (S n0)) else mret VNull) s8
        = (s9, RVal (expand x))).
    { destruct (truthy E (expand cv)).
      - pose proof (ws_emits W4 (S n0) a sc sc VNull evs2 x E4 (HB W4 sc W14 SC4 DP) PX) as BR.
        destruct (BR W8 s8 (wle_trans _ _ _ H7 H8) HS8) as (W9 & s9 & H9 & HS9 & T9 & [N9 EV9]).
        exists W9, s9. eauto 6.
      - destruct HB as [-> ->]. exists W8, s8. split; [apply wle_refl|]. split; [exact HS8|].
        split; [reflexivity|]. exists 0. reflexivity. }
    destruct REST as (W9 & s9 & H9 & HS9 & T9 & N9 & EV9).
    exists W9, s9. split.
    { eapply wle_trans; [exact H3|]. eapply wle_trans; [exact H4|].
      eapply wle_trans; [exact H7|]. eapply wle_trans; eauto. }
    split; [exact HS9|]. split.
    { rewrite T9, (q_trace _ _ Q8), T7, HT6. unfold s4, s3. simpl.
      rewrite rev_app_distr, app_assoc. reflexivity. }
    assert (NE : expand cv <> VNil) by (destruct cv; simpl; congruence).
    destruct (so_heap _ _ _ _ HS8 (S n0) _ (H8 _ _ (H7 _ _ E4))) as (o8 & Ho8 & OK8).
    destruct o8; simpl in OK8; try contradiction.
    exists (max N7 (max N8 N9)). intros n Hn. unfold call_function.
    unfold build_lazy_args. cbn [build_lazy_args]. unfold mbind at 1. unfold mbind at 1. unfold alloc at 1.
    fold s3. fold n0. unfold mbind at 1. unfold alloc at 1. rewrite L3. fold s4. unfold mret at 1.
    cbn [dict_set remove_key app String.eqb Ascii.eqb Bool.eqb].
    unfold mbind at 1. rewrite EN. unfold mbind at 1. cbn [call_func]. unfold if_function.
    unfold mbind at 1. rewrite (if_args_two n sc n0 (S n0) s6 s7 (expand cv)) by (auto; apply EV7; lia).
    cbv beta iota. unfold mbind at 1. rewrite EV8 by lia. specialize (EV9 n ltac:(lia)).
    assert (PX' : plain (expand x) = true) by now apply plain_expand.
    destruct (truthy E (expand cv)).
    - cbn [is_nil]. unfold mbind at 1, obj_of at 1. rewrite Ho8. cbn [is_lazy].
      unfold mbind at 1. rewrite EV9. unfold mbind at 1, obj_of at 1.
      destruct (expand x); try discriminate; destruct fst_call; reflexivity.
    - unfold if_else. cbn [is_nil]. unfold mret in EV9. injection EV9 as <- <-.
      destruct fst_call; reflexivity.
  Qed.

  (** A query, and a FROM clause, with what the host sees. *)
  Definition select_does (W : world) (k : nat) (fr : list dict) (q : select) (evs : list val)
    (rows : list val) : Prop :=
    forall W' sc, wle W W' -> Forall2 (frame_ok W') (sc_vars sc) fr -> sc_depth sc + k < 1000 ->
      emits W' (fun n => r_select (R n) sc q) evs rows.
  Definition from_does (W : world) (k : nat) (fr : list dict) (p : plugin) (evs : list val)
    (rows : list val) : Prop :=
    forall W' sc, wle W W' -> Forall2 (frame_ok W') (sc_vars sc) fr -> sc_depth sc + k < 1000 ->
      emits W' (fun n => plugin_eval E (R n) n sc p) evs rows.

  Lemma ifp_args : forall n sc cv n1 n2 q1 q2 s,
    plain cv = true -> cv <> VNil ->
    nth_error (heap s) n1 = Some (OSelect q1) -> nth_error (heap s) n2 = Some (OSelect q2) ->
    parse_args E (R (S n)) sc ifp_fields
      [("condition"%string, cv); ("then"%string, VOpaque n1); ("else"%string, VOpaque n2)]
      [VNil; VNil; VNil] s = (s, RVal ([cv; VOpaque n1; VOpaque n2], None)).
  Proof.
    intros n sc cv n1 n2 q1 q2 s PC NC H1 H2. unfold parse_args, extract_args, normalize_args.
    cbn [assoc String.eqb Ascii.eqb Bool.eqb]. unfold mbind at 1, mret at 1. unfold parse, ifp_fields.
    cbn [parse_fields assoc fp_name fp_type fp_idx fp_required field_ String.eqb Ascii.eqb Bool.eqb coerce].
    assert (A : r_reduce_ws (R (S n)) sc cv s = (s, RVal cv)).
    { cbn [ev step r_reduce_ws]. unfold reduce_ws_step, mbind, obj_of, mret. destruct cv; try reflexivity; discriminate. }
    assert (B : forall m q, nth_error (heap s) m = Some (OSelect q) ->
              to_stored_query (R (S n)) (VOpaque m) s = (s, RVal (VOpaque m))).
    { intros m q Hm. unfold to_stored_query. cbn [ev step r_reduce].
      unfold reduce_step, mbind, obj_of, mret. rewrite Hm. rewrite Hm. reflexivity. }
    unfold mbind, mret. rewrite A.
    assert (SO : set_ok TAny cv = true) by (destruct cv; congruence || reflexivity).
    rewrite SO, (B _ _ H1). cbn [set_ok]. rewrite (B _ _ H2). reflexivity.
  Qed.

  (** The plugin if with queries as branches. *)
  Lemma from_if : forall W k fr c q1 q2 evs1 cv evs2 rows,
    assoc "if"%string (env_plugs E) = Some PlIf ->
    does W k fr c evs1 cv -> plain cv = true -> cv <> VNil ->
    select_does W k fr (if truthy E cv then q1 else q2) evs2 rows ->
    from_does W k fr (Plugin ["if"%string] true
                   [("condition"%string, AExpr c); ("then"%string, ASelect q1); ("else"%string, ASelect q2)])
      (evs1 ++ evs2) rows.
  Proof.
    intros W k fr c q1 q2 evs1 cv evs2 rows IF HC PC NC HB W1 sc HW SC DP.
    unfold plugin_eval. cbv beta iota. rewrite IF.
    assert (OV : overflow sc = false) by (unfold overflow; apply Nat.leb_gt; lia). rewrite OV.
    intros W2 s HW2 HS.
    destruct (HC W2 sc (wle_trans _ _ _ HW HW2) (frames_weaken _ _ _ _ HW2 SC) DP W2 s (wle_refl _) HS) as
      (W3 & s3 & H3 & HS3 & T3 & [N3 EV3]).
    destruct (alloc_in_world W3 s3 (OSelect q1) (WObj (OSelect q1)) HS3) as (W4 & H4 & HS4 & E4); [reflexivity|].
    set (n1 := List.length (heap s3)) in *.
    set (s4 := set_heap (heap s3 ++ [OSelect q1]) s3) in *.
    destruct (alloc_in_world W4 s4 (OSelect q2) (WObj (OSelect q2)) HS4) as (W5 & H5 & HS5 & E5); [reflexivity|].
    set (s5 := set_heap (heap s4 ++ [OSelect q2]) s4) in *.
    assert (L4 : List.length (heap s4) = S n1).
    { change (heap s4) with (heap s3 ++ [OSelect q1]). rewrite app_length. simpl. unfold n1. lia. }
    rewrite L4 in E5.
    destruct (so_heap _ _ _ _ HS5 n1 _ (H5 _ _ E4)) as (o1 & Ho1 & OK1). simpl in OK1. subst o1.
    destruct (so_heap _ _ _ _ HS5 (S n1) _ E5) as (o2 & Ho2 & OK2). simpl in OK2. subst o2.
    destruct (pr_truth E owner W5 sc cv PC W5 s5 (wle_refl _) HS5) as (W6 & s6 & H6 & HS6 & Q6 & [N6 EV6]).
    assert (W26 : wle W1 W6).
    { eapply wle_trans; [exact HW2|]. eapply wle_trans; [exact H3|]. eapply wle_trans; [exact H4|].
      eapply wle_trans; eauto. }
    destruct (HB W6 sc (wle_trans _ _ _ HW W26) (frames_weaken _ _ _ _ W26 SC) DP W6 s6 (wle_refl _) HS6) as
      (W7 & s7 & H7 & HS7 & T7 & [N7 EV7]).
    destruct (so_heap _ _ _ _ HS6 n1 _ (H6 _ _ (H5 _ _ E4))) as (o3 & Ho3 & OK3). simpl in OK3. subst o3.
    destruct (so_heap _ _ _ _ HS6 (S n1) _ (H6 _ _ E5)) as (o4 & Ho4 & OK4). simpl in OK4. subst o4.
    exists W7, s7. split.
    { eapply wle_trans; [exact H3|]. eapply wle_trans; [exact H4|]. eapply wle_trans; [exact H5|].
      eapply wle_trans; eauto. }
    split; [exact HS7|]. split.
    { rewrite T7, (q_trace _ _ Q6). unfold s5, s4. simpl. rewrite T3, rev_app_distr, app_assoc. reflexivity. }
    exists (S (max N3 (max N6 N7))). intros n Hn. destruct n as [|n]; [lia|].
    cbn [build_args arg_eager]. unfold mbind at 1. unfold mbind at 1. rewrite EV3 by lia.
    unfold mbind at 1, alloc at 1. fold n1. fold s4. unfold mbind at 1, alloc at 1. rewrite L4. fold s5.
    unfold mret at 1. cbn [dict_set remove_key app String.eqb Ascii.eqb Bool.eqb call_plugin].
    unfold if_plugin. unfold mbind at 1.
    rewrite (ifp_args n sc cv n1 (S n1) q1 q2 s5 PC NC Ho1 Ho2). cbv beta iota.
    unfold mbind at 1. rewrite EV6 by lia.
    destruct (truthy E cv); cbn [ev step r_query]; unfold query_step, mbind at 1, obj_of at 1.
    - rewrite Ho3. apply EV7. lia.
    - rewrite Ho4. apply EV7. lia.
  Qed.

  Lemma ifp_args_two : forall n sc cv n1 q1 s,
    plain cv = true -> cv <> VNil -> nth_error (heap s) n1 = Some (OSelect q1) ->
    parse_args E (R (S n)) sc ifp_fields
      [("condition"%string, cv); ("then"%string, VOpaque n1)]
      [VNil; VNil; VNil] s = (s, RVal ([cv; VOpaque n1; VNil], None)).
  Proof.
    intros n sc cv n1 q1 s PC NC H1. unfold parse_args, extract_args, normalize_args.
    cbn [assoc String.eqb Ascii.eqb Bool.eqb]. unfold mbind at 1, mret at 1. unfold parse, ifp_fields.
    cbn [parse_fields assoc fp_name fp_type fp_idx fp_required field_ String.eqb Ascii.eqb Bool.eqb coerce].
    assert (A : r_reduce_ws (R (S n)) sc cv s = (s, RVal cv)).
    { cbn [ev step r_reduce_ws]. unfold reduce_ws_step, mbind, obj_of, mret. destruct cv; try reflexivity; discriminate. }
    assert (B : to_stored_query (R (S n)) (VOpaque n1) s = (s, RVal (VOpaque n1))).
    { unfold to_stored_query. cbn [ev step r_reduce].
      unfold reduce_step, mbind, obj_of, mret. rewrite H1. rewrite H1. reflexivity. }
    unfold mbind, mret. rewrite A.
    assert (SO : set_ok TAny cv = true) by (destruct cv; congruence || reflexivity).
    rewrite SO, B. reflexivity.
  Qed.

  (** The plugin if without else. *)
  Lemma from_if_no_else : forall W k fr c q1 evs1 cv evs2 rows,
    assoc "if"%string (env_plugs E) = Some PlIf ->
    does W k fr c evs1 cv -> plain cv = true -> cv <> VNil ->
    (if truthy E cv then select_does W k fr q1 evs2 rows else evs2 = [] /\ rows = []) ->
    from_does W k fr (Plugin ["if"%string] true [("condition"%string, AExpr c); ("then"%string, ASelect q1)])
      (evs1 ++ evs2) rows.
  Proof.
    intros W k fr c q1 evs1 cv evs2 rows IF HC PC NC HB W1 sc HW SC DP.
    unfold plugin_eval. cbv beta iota. rewrite IF.
    assert (OV : overflow sc = false) by (unfold overflow; apply Nat.leb_gt; lia). rewrite OV.
    intros W2 s HW2 HS.
    destruct (HC W2 sc (wle_trans _ _ _ HW HW2) (frames_weaken _ _ _ _ HW2 SC) DP W2 s (wle_refl _) HS) as
      (W3 & s3 & H3 & HS3 & T3 & [N3 EV3]).
    destruct (alloc_in_world W3 s3 (OSelect q1) (WObj (OSelect q1)) HS3) as (W4 & H4 & HS4 & E4); [reflexivity|].
    set (n1 := List.length (heap s3)) in *.
    set (s4 := set_heap (heap s3 ++ [OSelect q1]) s3) in *.
    destruct (so_heap _ _ _ _ HS4 n1 _ E4) as (o1 & Ho1 & OK1). simpl in OK1. subst o1.
    destruct (pr_truth E owner W4 sc cv PC W4 s4 (wle_refl _) HS4) as (W6 & s6 & H6 & HS6 & Q6 & [N6 EV6]).
    assert (W26 : wle W1 W6).
    { eapply wle_trans; [exact HW2|]. eapply wle_trans; [exact H3|]. eapply wle_trans; eauto. }
    destruct (so_heap _ _ _ _ HS6 n1 _ (H6 _ _ E4)) as (o3 & Ho3 & OK3). simpl in OK3. subst o3.
    assert (REST : exists W7 s7, wle W6 W7 /\ stok W7 s7 /\ trace s7 = rev evs2 ++ trace s6 /\
      exists N7, forall n, N7 <= n ->
        (if truthy E cv then r_select (R n) sc q1 else mret []) s6 = (s7, RVal rows)).
    { destruct (truthy E cv).
      - destruct (HB W6 sc (wle_trans _ _ _ HW W26) (frames_weaken _ _ _ _ W26 SC) DP W6 s6 (wle_refl _) HS6) as
          (W7 & s7 & H7 & HS7 & T7 & [N7 EV7]). exists W7, s7. eauto 6.
      - destruct HB as [-> ->]. exists W6, s6. split; [apply wle_refl|]. split; [exact HS6|].
        split; [reflexivity|]. exists 0. reflexivity. }
    destruct REST as (W7 & s7 & H7 & HS7 & T7 & N7 & EV7).
    exists W7, s7. split.
    { eapply wle_trans; [exact H3|]. eapply wle_trans; [exact H4|]. eapply wle_trans; eauto. }
    split; [exact HS7|]. split.
    { rewrite T7, (q_trace _ _ Q6). unfold s4. simpl. rewrite T3, rev_app_distr, app_assoc. reflexivity. }
    exists (S (max N3 (max N6 N7))). intros n Hn. destruct n as [|n]; [lia|].
    cbn [build_args arg_eager]. unfold mbind at 1. unfold mbind at 1. rewrite EV3 by lia.
    unfold mbind at 1, alloc at 1. fold n1. fold s4.
    unfold mret at 1. cbn [dict_set remove_key app String.eqb Ascii.eqb Bool.eqb call_plugin].
    unfold if_plugin. unfold mbind at 1.
    rewrite (ifp_args_two n sc cv n1 q1 s4 PC NC Ho1). cbv beta iota.
    unfold mbind at 1. rewrite EV6 by lia. specialize (EV7 n ltac:(lia)).
    destruct (truthy E cv); [|exact EV7].
    cbn [ev step r_query]; unfold query_step, mbind at 1, obj_of at 1.
    rewrite Ho3. exact EV7.
  Qed.

  (** A function of the host that reads its argument once and shows it. *)
  Lemma does_shown : forall W k fr node f p h e evs x,
    assoc f (env_funs E) = Some (FHost h) -> owner node = f ->
    (forall a, h [(p, a)] = PReduce a (fun v => PObserve v (PRet v))) ->
    does W k fr e evs x -> plain x = true ->
    does W k fr (ESym node false [f] true [(p, AExpr e)]) (evs ++ [expand x]) (or_null (expand x)).
  Proof.
    intros W k fr node f p h e evs x HF OW HH HE PX W1 sc HW SC DP.
    eapply em_step; [intros; apply ev_expr; eassumption|]. cbn [expr_step]. unfold sym_reduce.
    change (evs ++ [expand x]) with ([] ++ (evs ++ [expand x])).
    eapply (em_bind _ _ W1 (fun _ => split_symbol node false) _ false); [apply em_promises, pr_split|].
    cbv beta iota. rewrite HF. rewrite <- (app_nil_r (evs ++ _)).
    eapply (em_bind _ _ W1 _ _ (or_null (expand x))); [|apply em_ret].
    intros W2 s HW2 HS.
    destruct (alloc_in_world W2 s (OLazy e sc None) (WLazy e sc (expand x)) HS) as (W3 & H3 & HS3 & E3); [simpl; auto|].
    set (n0 := List.length (heap s)) in *.
    set (s3 := set_heap (heap s ++ [OLazy e sc None]) s) in *.
    destruct (node_function_ok W3 s3 node (FHost h) HS3) as (s4 & id & b & EN & HS4 & HH4 & HT4); [now rewrite OW|].
    assert (W13 : wle W1 W3) by (eapply wle_trans; eauto).
    pose proof (ws_emits W3 n0 e sc sc (expand x) evs x E3
                  (HE W3 sc (wle_trans _ _ _ HW W13) (frames_weaken _ _ _ _ W13 SC) DP) PX) as RED.
    destruct (RED W3 s4 (wle_refl _) HS4) as (W5 & s5 & H5 & HS5 & T5 & [N5 EV5]).
    destruct (so_heap _ _ _ _ HS5 n0 _ (H5 _ _ E3)) as (o5 & Ho5 & OK5).
    set (o6 := OLazy e sc (match expand x with VNil => None | y => Some y end)).
    set (s6 := set_heap (set_nth n0 o6 (heap s5)) s5).
    set (s7 := {| heap := heap s6; split_nodes := split_nodes s6; node_funs := node_funs s6;
                  cells := cells s6; ctxs := ctxs s6; next_id := next_id s6;
                  trace := expand x :: trace s6 |}).
    exists W5, s7. split; [eapply wle_trans; eauto|]. split; [|split].
    - constructor; [|apply HS5]. intros m y Hm. simpl. destruct (Nat.eq_dec n0 m) as [<-|NE].
      + rewrite (H5 _ _ E3) in Hm. injection Hm as <-. exists o6.
        split; [eapply set_nth_same; eauto|]. simpl. destruct (expand x); auto.
      + rewrite set_nth_other by exact NE. apply (so_heap _ _ _ _ HS5 _ _ Hm).
    - simpl. rewrite T5, HT4. rewrite rev_app_distr. reflexivity.
    - exists (S N5). intros n Hn. destruct n as [|n]; [lia|].
      unfold call_function. cbn [build_lazy_args]. unfold mbind at 1. unfold mbind at 1. unfold alloc at 1.
      fold n0. fold s3. unfold mret at 1. cbn [dict_set remove_key app].
      unfold mbind at 1. rewrite EN. unfold mbind at 1. cbn [call_func]. rewrite HH. cbn [run_prog].
      unfold mbind at 1. cbn [ev step r_reduce]. unfold reduce_step. unfold mbind at 1, obj_of at 1.
      rewrite HH4. unfold s3 at 1. cbn [heap set_heap]. unfold n0 at 1. rewrite nth_error_snoc. fold n0.
      unfold mbind at 1. rewrite EV5 by lia. unfold mbind at 1, update_obj. unfold mret at 1.
      unfold mbind at 1, observe. unfold mret.
      assert (PX' : plain (expand x) = true) by now apply plain_expand.
      fold o6. fold s6. fold s7. destruct b, (expand x); try discriminate; reflexivity.
  Qed.
End Effects.
