(** Scopes: properties C26, C27, C28, C30. *)

From Coq Require Import List Arith Bool Lia Permutation.
From Verif Require Import Scope.
Import ListNotations.

Lemma upd_same : forall A (m : nat -> A) k v, upd m k v k = v.
Proof. intros. unfold upd. now rewrite Nat.eqb_refl. Qed.

Lemma upd_other : forall A (m : nat -> A) k v i, i <> k -> upd m k v i = m i.
Proof. intros. unfold upd. destruct (Nat.eqb_spec i k); congruence. Qed.

Lemma somes_map_some : forall A (l : list A), somes (map Some l) = l.
Proof. induction l; simpl; congruence. Qed.

Lemma somes_app : forall A (a b : list (option A)), somes (a ++ b) = somes a ++ somes b.
Proof. induction a as [|[x|] a IH]; intros; simpl; rewrite ?IH; auto. Qed.

Lemma in_somes : forall A (x : A) l, In x (somes l) <-> In (Some x) l.
Proof.
  induction l as [|[y|] l IH]; simpl.
  - tauto.
  - rewrite IH. split; intros [H|H]; auto; left; congruence.
  - rewrite IH. split; auto. intros [H|H]; [discriminate|auto].
Qed.

Lemma set_nth_firstn : forall A (l : list A) n x, n < length l ->
  firstn (S n) (set_nth n x l) = firstn n l ++ [x].
Proof.
  induction l as [|y l IH]; intros n x H; simpl in H; [lia|].
  destruct n; [reflexivity|]. simpl. f_equal. apply IH. lia.
Qed.

Lemma set_nth_length : forall A (l : list A) n x, length (set_nth n x l) = length l.
Proof. induction l; intros [|n] x; simpl; auto. Qed.

Section Props.
  Context {row D : Type}.
  Variable grow : nat -> nat.
  Variable beh : D -> list (nat * D).

  Notation heap := (heap row D).
  Notation scope := (scope D).
  Notation op := (op row D).
  Implicit Types h : heap.

  (** ** C26: a child scope never leaks into its parent or siblings *)

  (** The specification: which rows a scope sees, from the history alone.
      [past] is the history with the most recent operation first; scopes are
      numbered in order of creation. *)
  Fixpoint created (past : list op) : nat :=
    match past with
    | [] => 0
    | ONew _ :: p => S (created p)
    | OCopy s :: p => if Nat.ltb s (created p) then S (created p) else created p
    | _ :: p => created p
    end.

  Fixpoint visible (past : list op) (s : nat) : list row :=
    match past with
    | [] => []
    | ONew r :: p => if Nat.eqb s (created p) then [r] else visible p s
    | OCopy q :: p =>
        if Nat.ltb q (created p) && Nat.eqb s (created p) then visible p q else visible p s
    | OAppend q r :: p =>
        if Nat.ltb q (created p) && Nat.eqb s q then visible p s ++ [r] else visible p s
    | _ :: p => visible p s
    end.

  (** Fields no destructor or Close touches. *)
  Definition same_static h h' : Prop :=
    h_next h' = h_next h /\ h_anext h' = h_anext h /\ h_ar h' = h_ar h /\
    forall s, s_arr (h_sc h' s) = s_arr (h_sc h s) /\
              s_len (h_sc h' s) = s_len (h_sc h s) /\
              s_depth (h_sc h' s) = s_depth (h_sc h s) /\
              s_parent (h_sc h' s) = s_parent (h_sc h s).

  Lemma same_refl : forall h, same_static h h.
  Proof. intros. repeat split. Qed.

  Lemma same_trans : forall h1 h2 h3,
    same_static h1 h2 -> same_static h2 h3 -> same_static h1 h3.
  Proof.
    intros h1 h2 h3 (A1 & A2 & A3 & A4) (B1 & B2 & B3 & B4).
    repeat split; try congruence;
      destruct (A4 s) as (? & ? & ? & ?); destruct (B4 s) as (? & ? & ? & ?); congruence.
  Qed.

  Lemma same_with_sc : forall h s sc,
    s_arr sc = s_arr (h_sc h s) -> s_len sc = s_len (h_sc h s) ->
    s_depth sc = s_depth (h_sc h s) -> s_parent sc = s_parent (h_sc h s) ->
    same_static h (with_sc h s sc).
  Proof.
    intros h s sc H1 H2 H3 H4. repeat split; simpl; unfold upd;
      destruct (Nat.eqb_spec s0 s); subst; auto.
  Qed.

  Lemma same_add : forall h s d, same_static h (fst (add_destructor h s d)).
  Proof.
    intros. unfold add_destructor. destruct (s_destroyed (h_sc h s)); [apply same_refl|].
    apply same_with_sc; reflexivity.
  Qed.

  Lemma same_add_all : forall l h, same_static h (add_all h l).
  Proof.
    induction l as [|[s d] l IH]; intros h; [apply same_refl|]. simpl.
    eapply same_trans; [apply same_add|apply IH].
  Qed.

  Lemma same_batch : forall ds h s, same_static h (fst (run_batch beh h s ds)).
  Proof.
    induction ds as [|d ds IH]; intros h s; [apply same_refl|]. simpl.
    specialize (IH (add_all h (beh d)) s).
    destruct (run_batch beh (add_all h (beh d)) s ds). simpl in *.
    eapply same_trans; [apply same_add_all|exact IH].
  Qed.

  Lemma same_rounds : forall n h s, same_static h (fst (run_rounds beh n h s)).
  Proof.
    induction n as [|n IH]; intros h s; [apply same_refl|]. cbn [run_rounds].
    destruct (s_destr (h_sc h s)) as [|d ds] eqn:E; [apply same_refl|].
    pose proof (same_batch (rev (d :: ds)) (with_sc h s (set_destr (h_sc h s) [])) s) as B.
    destruct (run_batch beh (with_sc h s (set_destr (h_sc h s) [])) s (rev (d :: ds))) as [h1 t1].
    specialize (IH h1 s). destruct (run_rounds beh n h1 s) as [h2 t2]. simpl in *.
    eapply same_trans; [|exact IH]. eapply same_trans; [|exact B].
    apply same_with_sc; reflexivity.
  Qed.

  Lemma same_detach : forall h s, same_static h (detach h s).
  Proof.
    intros. unfold detach. destruct (s_parent (h_sc h s)) as [p|]; [|apply same_refl].
    destruct (clear_child s (s_children (h_sc h p))). apply same_with_sc; reflexivity.
  Qed.

  Lemma same_close_scope : forall f h s, same_static h (fst (close_scope beh f h s)).
  Proof.
    induction f as [|f IH]; intros h s; [apply same_refl|]. cbn [close_scope].
    set (go := fix go (l : list (option nat)) (h : heap) : heap * trace := match l with
            | [] => (h, [])
            | None :: r => go r h
            | Some c :: r =>
                let (h1, t1) := close_scope beh f h c in
                let (h2, t2) := go r h1 in
                (h2, t1 ++ t2)
            end).
    assert (G : forall l h, same_static h (fst (go l h))).
    { induction l as [|[c|] l IHl]; intros h0; simpl.
      - apply same_refl.
      - specialize (IH h0 c). destruct (close_scope beh f h0 c) as [h1 t1].
        specialize (IHl h1). destruct (go l h1). simpl in *.
        eapply same_trans; eauto.
      - apply IHl. }
    specialize (G (s_children (h_sc h s)) h).
    destruct (go (s_children (h_sc h s)) h) as [h1 t1].
    pose proof (same_rounds 10 (detach h1 s) s) as R.
    destruct (run_rounds beh 10 (detach h1 s) s) as [h3 t3]. simpl fst in *.
    eapply same_trans; [exact G|]. eapply same_trans; [apply same_detach|].
    eapply same_trans; [exact R|]. apply same_with_sc; reflexivity.
  Qed.

  Lemma same_close : forall h s, same_static h (fst (close beh h s)).
  Proof.
    intros. unfold close. destruct (Nat.ltb s (h_next h)); [apply same_close_scope|apply same_refl].
  Qed.

  (** No two scopes share an array. *)
  Definition arrays_ok h : Prop :=
    (forall s, s < h_next h ->
       s_arr (h_sc h s) < h_anext h /\
       s_len (h_sc h s) <= length (h_ar h (s_arr (h_sc h s))) /\
       firstn (s_len (h_sc h s)) (h_ar h (s_arr (h_sc h s))) = map Some (vars h s)) /\
    (forall s s', s < h_next h -> s' < h_next h ->
       s_arr (h_sc h s) = s_arr (h_sc h s') -> s = s').

  Lemma same_vars : forall h h' s, same_static h h' -> vars h' s = vars h s.
  Proof.
    intros h h' s (A1 & A2 & A3 & A4). destruct (A4 s) as (B1 & B2 & _).
    unfold vars. now rewrite B1, B2, A3.
  Qed.

  Lemma same_arrays : forall h h', same_static h h' -> arrays_ok h -> arrays_ok h'.
  Proof.
    intros h h' S (H1 & H2). pose proof S as (A1 & A2 & A3 & A4). split.
    - intros s L. destruct (A4 s) as (B1 & B2 & _).
      rewrite (same_vars h h') by exact S. rewrite B1, B2, A3, A2. apply H1. congruence.
    - intros s s' L L'. destruct (A4 s) as (B1 & _). destruct (A4 s') as (B1' & _).
      rewrite B1, B1'. apply H2; congruence.
  Qed.

  Lemma new_scope_ok : forall h r, arrays_ok h ->
    arrays_ok (new_scope h r) /\
    forall s, s <= h_next h ->
      vars (new_scope h r) s = if Nat.eqb s (h_next h) then [r] else vars h s.
  Proof.
    intros h r (H1 & H2).
    assert (V : forall s, s <= h_next h ->
      vars (new_scope h r) s = if Nat.eqb s (h_next h) then [r] else vars h s).
    { intros s L. unfold vars, new_scope. simpl.
      destruct (Nat.eqb_spec s (h_next h)) as [->|N].
      - rewrite upd_same. simpl. now rewrite upd_same.
      - rewrite upd_other by exact N.
        destruct (H1 s ltac:(lia)) as (B & _). rewrite upd_other by lia. reflexivity. }
    split; [|exact V]. split.
    - intros s L. simpl in L. rewrite V by lia. unfold new_scope. simpl.
      destruct (Nat.eqb_spec s (h_next h)) as [->|N].
      + repeat (rewrite upd_same; simpl). repeat split; lia.
      + rewrite !(upd_other _ _ _ _ s) by exact N.
        destruct (H1 s ltac:(lia)) as (B & B2 & B3). rewrite upd_other by lia. auto.
    - intros s s' L L'. simpl in *. unfold upd.
      destruct (Nat.eqb_spec s (h_next h)); destruct (Nat.eqb_spec s' (h_next h)); subst; auto; simpl.
      + destruct (H1 s' ltac:(lia)). lia.
      + destruct (H1 s ltac:(lia)). lia.
      + apply H2; lia.
  Qed.

  Lemma copy_scope_ok : forall h q, arrays_ok h -> q < h_next h ->
    arrays_ok (copy_scope h q) /\ h_next (copy_scope h q) = S (h_next h) /\
    forall s, s <= h_next h ->
      vars (copy_scope h q) s = if Nat.eqb s (h_next h) then vars h q else vars h s.
  Proof.
    intros h q (H1 & H2) Lq. unfold copy_scope.
    destruct (Nat.ltb_spec q (h_next h)); [|lia].
    set (sc' := set_children (h_sc h q) _ _).
    set (h' := {| h_next := _; h_sc := _; h_anext := _; h_ar := _ |}).
    assert (Sold : forall s, s < h_next h ->
      s_arr (h_sc h' s) = s_arr (h_sc h s) /\ s_len (h_sc h' s) = s_len (h_sc h s)).
    { intros s L. unfold h'. simpl. rewrite upd_other by lia. unfold upd.
      destruct (Nat.eqb_spec s q); subst; split; reflexivity. }
    destruct (H1 q Lq) as (Bq & Bq2 & Bq3).
    assert (V : forall s, s <= h_next h ->
      vars h' s = if Nat.eqb s (h_next h) then vars h q else vars h s).
    { intros s L. destruct (Nat.eqb_spec s (h_next h)) as [->|N].
      - unfold vars, h'. simpl. repeat (rewrite upd_same; simpl).
        rewrite firstn_firstn, Nat.min_id. reflexivity.
      - destruct (Sold s ltac:(lia)) as (E1 & E2). unfold vars. rewrite E1, E2.
        destruct (H1 s ltac:(lia)) as (B & _). unfold h'. simpl.
        rewrite upd_other by lia. reflexivity. }
    split; [|split; [reflexivity|exact V]]. split.
    - intros s L. simpl in L. rewrite V by lia.
      destruct (Nat.eqb_spec s (h_next h)) as [->|N].
      + unfold h'. simpl. repeat (rewrite upd_same; simpl).
        rewrite firstn_length, firstn_firstn, !Nat.min_id. repeat split; auto; lia.
      + destruct (Sold s ltac:(lia)) as (E1 & E2). rewrite E1, E2.
        destruct (H1 s ltac:(lia)) as (B & B2 & B3). unfold h'. simpl.
        rewrite upd_other by lia. auto.
    - intros s s' L L' E. simpl in L, L'.
      destruct (Nat.eq_dec s (h_next h)) as [->|N]; destruct (Nat.eq_dec s' (h_next h)) as [->|N']; auto.
      + destruct (Sold s' ltac:(lia)) as (E1 & _). rewrite E1 in E.
        unfold h' in E. simpl in E. rewrite upd_same in E. simpl in E.
        destruct (H1 s' ltac:(lia)). lia.
      + destruct (Sold s ltac:(lia)) as (E1 & _). rewrite E1 in E.
        unfold h' in E. simpl in E. rewrite upd_same in E. simpl in E.
        destruct (H1 s ltac:(lia)). lia.
      + destruct (Sold s ltac:(lia)) as (E1 & _). destruct (Sold s' ltac:(lia)) as (E2 & _).
        rewrite E1, E2 in E. apply H2; lia.
  Qed.

  Lemma append_ok : forall h q r, arrays_ok h -> q < h_next h ->
    arrays_ok (append_vars grow h q r) /\ h_next (append_vars grow h q r) = h_next h /\
    forall s, s < h_next h ->
      vars (append_vars grow h q r) s = if Nat.eqb s q then vars h s ++ [r] else vars h s.
  Proof.
    intros h q r (H1 & H2) Lq. unfold append_vars.
    destruct (Nat.ltb_spec q (h_next h)); [|lia].
    destruct (H1 q Lq) as (Bq & Bq2 & Bq3).
    destruct (Nat.ltb_spec (s_len (h_sc h q)) (length (h_ar h (s_arr (h_sc h q))))) as [LT|GE].
    - set (h' := {| h_next := _; h_sc := _; h_anext := _; h_ar := _ |}).
      assert (Sold : forall s, s <> q -> s < h_next h ->
        h_sc h' s = h_sc h s /\ h_ar h' (s_arr (h_sc h s)) = h_ar h (s_arr (h_sc h s))).
      { intros s N L. unfold h'. simpl. rewrite upd_other by exact N. split; [reflexivity|].
        apply upd_other. intros E. apply N. apply H2; auto. }
      assert (Sq : h_sc h' q = set_vars (h_sc h q) (s_arr (h_sc h q)) (S (s_len (h_sc h q))))
        by (unfold h'; simpl; apply upd_same).
      assert (Aq : h_ar h' (s_arr (h_sc h q)) =
                   set_nth (s_len (h_sc h q)) (Some r) (h_ar h (s_arr (h_sc h q))))
        by (unfold h'; simpl; apply upd_same).
      assert (Fq : firstn (S (s_len (h_sc h q))) (h_ar h' (s_arr (h_sc h q))) = map Some (vars h q ++ [r])).
      { rewrite Aq, set_nth_firstn by exact LT. rewrite Bq3, map_app. reflexivity. }
      assert (V : forall s, s < h_next h ->
        vars h' s = if Nat.eqb s q then vars h s ++ [r] else vars h s).
      { intros s L. destruct (Nat.eqb_spec s q) as [->|N].
        - unfold vars at 1. rewrite Sq. cbn [set_vars s_len s_arr]. rewrite Fq. apply somes_map_some.
        - destruct (Sold s N L) as (E1 & E2). unfold vars. now rewrite E1, E2. }
      split; [|split; [reflexivity|exact V]]. split.
      + intros s L. change (h_next h') with (h_next h) in L. rewrite V by exact L.
        destruct (Nat.eqb_spec s q) as [->|N].
        * rewrite Sq. cbn [set_vars s_len s_arr]. rewrite Fq, Aq, set_nth_length. repeat split; auto.
        * destruct (Sold s N L) as (E1 & E2). rewrite E1, E2. apply H1. exact L.
      + intros s s' L L' E. change (h_next h') with (h_next h) in L, L'.
        apply H2; auto. unfold h' in E. simpl in E. unfold upd in E.
        destruct (Nat.eqb_spec s q); destruct (Nat.eqb_spec s' q); subst; auto.
    - set (h' := {| h_next := _; h_sc := _; h_anext := _; h_ar := _ |}).
      assert (Sold : forall s, s <> q -> s < h_next h ->
        h_sc h' s = h_sc h s /\ h_ar h' (s_arr (h_sc h s)) = h_ar h (s_arr (h_sc h s))).
      { intros s N L. unfold h'. simpl. rewrite upd_other by exact N. split; [reflexivity|].
        destruct (H1 s L) as (B & _). apply upd_other. lia. }
      assert (Sq : h_sc h' q = set_vars (h_sc h q) (h_anext h) (S (s_len (h_sc h q))))
        by (unfold h'; simpl; apply upd_same).
      assert (Aq : h_ar h' (h_anext h) =
                   firstn (s_len (h_sc h q)) (h_ar h (s_arr (h_sc h q))) ++ [Some r]
                   ++ repeat None (grow (S (s_len (h_sc h q))) - S (s_len (h_sc h q))))
        by (unfold h'; simpl; apply upd_same).
      assert (Lf : length (firstn (s_len (h_sc h q)) (h_ar h (s_arr (h_sc h q)))) = s_len (h_sc h q))
        by (rewrite firstn_length; lia).
      assert (Fq : firstn (S (s_len (h_sc h q))) (h_ar h' (h_anext h)) = map Some (vars h q ++ [r])).
      { rewrite Aq, app_assoc, firstn_app, app_length, Lf.
        replace (S (s_len (h_sc h q)) - (s_len (h_sc h q) + length [Some r])) with 0 by (cbn [length]; lia).
        rewrite firstn_O, app_nil_r, firstn_all2 by (rewrite app_length, Lf; simpl; lia).
        rewrite Bq3, map_app. reflexivity. }
      assert (V : forall s, s < h_next h ->
        vars h' s = if Nat.eqb s q then vars h s ++ [r] else vars h s).
      { intros s L. destruct (Nat.eqb_spec s q) as [->|N].
        - unfold vars at 1. rewrite Sq. cbn [set_vars s_len s_arr]. rewrite Fq. apply somes_map_some.
        - destruct (Sold s N L) as (E1 & E2). unfold vars. now rewrite E1, E2. }
      split; [|split; [reflexivity|exact V]]. split.
      + intros s L. change (h_next h') with (h_next h) in L. rewrite V by exact L.
        change (h_anext h') with (S (h_anext h)).
        destruct (Nat.eqb_spec s q) as [->|N].
        * rewrite Sq. cbn [set_vars s_len s_arr]. rewrite Fq, Aq, !app_length, Lf. simpl. repeat split; lia.
        * destruct (Sold s N L) as (E1 & E2). rewrite E1, E2.
          destruct (H1 s L) as (B & B2 & B3). repeat split; auto.
      + intros s s' L L' E. change (h_next h') with (h_next h) in L, L'.
        destruct (Nat.eq_dec s q) as [->|N]; destruct (Nat.eq_dec s' q) as [->|N']; auto.
        * rewrite Sq in E. destruct (Sold s' N' L') as (E1 & _). rewrite E1 in E.
          simpl in E. destruct (H1 s' L'). lia.
        * rewrite Sq in E. destruct (Sold s N L) as (E1 & _). rewrite E1 in E.
          simpl in E. destruct (H1 s L). lia.
        * destruct (Sold s N L) as (E1 & _). destruct (Sold s' N' L') as (E2 & _).
          rewrite E1, E2 in E. apply H2; auto.
  Qed.

  Notation run := (@Scope.run row D grow beh).

  Lemma run_snoc : forall (ops : list op) (o : op), run (ops ++ [o]) = fst (step grow beh (run ops) o).
  Proof.
    intros ops o. unfold Scope.run. generalize (@empty_heap row D) as h.
    induction ops as [|o' ops IH]; intros h; [reflexivity|]. simpl. apply IH.
  Qed.

  Lemma run_visible : forall ops : list op,
    arrays_ok (run ops) /\ h_next (run ops) = created (rev ops) /\
    (forall s, s < h_next (run ops) -> vars (run ops) s = visible (rev ops) s) /\
    (forall s, created (rev ops) <= s -> visible (rev ops) s = []).
  Proof.
    induction ops as [|o ops IH] using rev_ind.
    - split; [|split; [reflexivity|split]].
      + split; simpl; intros; lia.
      + simpl. intros; lia.
      + reflexivity.
    - destruct IH as (A & N & V & Z). rewrite run_snoc, rev_app_distr. simpl rev. simpl app.
      destruct o as [r|q|q r|q d|q]; simpl step; simpl fst; cbn [created visible].
      + destruct (new_scope_ok (run ops) r A) as (A' & V').
        split; [exact A'|]. split; [simpl; lia|]. split.
        * intros s L. simpl in L. rewrite V' by lia. rewrite N.
          destruct (Nat.eqb_spec s (created (rev ops))); [reflexivity|]. apply V. lia.
        * intros s L. destruct (Nat.eqb_spec s (created (rev ops))); [lia|]. apply Z. lia.
      + destruct (Nat.ltb_spec q (created (rev ops))) as [L|L].
        * destruct (copy_scope_ok (run ops) q A ltac:(lia)) as (A' & N' & V').
          split; [exact A'|]. split; [lia|]. split.
          -- intros s Ls. rewrite V' by lia. rewrite N. simpl andb.
             destruct (Nat.eqb_spec s (created (rev ops))); apply V; lia.
          -- intros s Ls. simpl andb. destruct (Nat.eqb_spec s (created (rev ops))); [lia|]. apply Z. lia.
        * unfold copy_scope. destruct (Nat.ltb_spec q (h_next (run ops))); [lia|]. auto.
      + destruct (Nat.ltb_spec q (created (rev ops))) as [L|L].
        * destruct (append_ok (run ops) q r A ltac:(lia)) as (A' & N' & V').
          split; [exact A'|]. split; [lia|]. simpl andb. split.
          -- intros s Ls. rewrite V' by lia. destruct (Nat.eqb s q); rewrite V by lia; reflexivity.
          -- intros s Ls. destruct (Nat.eqb_spec s q); [lia|]. apply Z. lia.
        * unfold append_vars. destruct (Nat.ltb_spec q (h_next (run ops))); [lia|]. auto.
      + assert (S : same_static (run ops) (fst (if Nat.ltb q (h_next (run ops))
                      then (fst (add_destructor (run ops) q d), []) else (run ops, @nil (nat * D))))).
        { destruct (Nat.ltb q (h_next (run ops))); [apply same_add|apply same_refl]. }
        destruct S as (S1 & S2). pose proof (conj S1 S2) as S.
        split; [eapply same_arrays; eauto|]. split; [etransitivity; [exact S1|exact N]|]. split; [|exact Z].
        intros s L. etransitivity; [apply (same_vars _ _ s S)|]. apply V.
        eapply Nat.lt_le_trans; [exact L|]. apply Nat.eq_le_incl. exact S1.
      + pose proof (same_close (run ops) q) as S. pose proof S as (S1 & _).
        split; [eapply same_arrays; eauto|]. split; [etransitivity; [exact S1|exact N]|]. split; [|exact Z].
        intros s L. etransitivity; [apply (same_vars _ _ s S)|]. apply V.
        eapply Nat.lt_le_trans; [exact L|]. apply Nat.eq_le_incl. exact S1.
  Qed.

  (** The rows a scope sees are the ones the specification says. *)
  Theorem C26_scope_sees_its_history : forall (ops : list op) s,
    s < created (rev ops) -> vars (run ops) s = visible (rev ops) s.
  Proof.
    intros ops s L. destruct (run_visible ops) as (_ & N & V & _). apply V. lia.
  Qed.

  Lemma run_app : forall (ops later : list op), run (ops ++ later) = run_from grow beh (run ops) later.
  Proof.
    intros ops later. unfold Scope.run. generalize (@empty_heap row D) as h.
    induction ops as [|o' ops IH]; intros h; [reflexivity|]. simpl. apply IH.
  Qed.

  (** Whatever happens to other scopes (parents, children, siblings), the
      rows of a scope change only by appending to that scope. *)
  Theorem C26_no_leak : forall (ops later : list op) s,
    s < created (rev ops) ->
    (forall r, ~ In (OAppend s r) later) ->
    vars (run (ops ++ later)) s = vars (run ops) s.
  Proof.
    intros ops later s L. induction later as [|o later IH] using rev_ind; intros H.
    - now rewrite app_nil_r.
    - assert (IH' : vars (run (ops ++ later)) s = vars (run ops) s).
      { apply IH. intros r I. apply (H r). apply in_or_app. auto. }
      assert (M : created (rev ops) <= created (rev (ops ++ later))).
      { rewrite rev_app_distr. clear. induction (rev later) as [|o l IH]; simpl; [lia|].
        destruct o; simpl; try lia. destruct (Nat.ltb s (created (l ++ rev ops))); lia. }
      rewrite C26_scope_sees_its_history in IH' by lia.
      rewrite <- IH', app_assoc, C26_scope_sees_its_history.
      + rewrite (rev_app_distr (ops ++ later)). cbn [rev app visible].
        destruct o as [r|q|q r|q d|q]; cbn [visible]; try reflexivity.
        * destruct (Nat.eqb_spec s (created (rev (ops ++ later)))); [lia|reflexivity].
        * destruct (Nat.eqb_spec s (created (rev (ops ++ later)))); [lia|].
          now rewrite andb_false_r.
        * destruct (Nat.eqb_spec s q); [|now rewrite andb_false_r].
          subst. exfalso. apply (H r). apply in_or_app. simpl. auto.
      + rewrite (rev_app_distr (ops ++ later)). cbn [rev app created].
        destruct o; simpl; try lia. destruct (Nat.ltb s0 _); lia.
  Qed.

  (** A copy starts with its parent's rows, and an append adds to the end. *)
  Theorem C26_copy_inherits : forall (ops : list op) s,
    s < created (rev ops) ->
    vars (run (ops ++ [OCopy s])) (created (rev ops)) = vars (run ops) s.
  Proof.
    intros ops s L. rewrite !C26_scope_sees_its_history; auto.
    - rewrite rev_app_distr. simpl. destruct (Nat.ltb_spec s (created (rev ops))); [|lia].
      now rewrite Nat.eqb_refl.
    - rewrite rev_app_distr. simpl. destruct (Nat.ltb_spec s (created (rev ops))); lia.
  Qed.

  Theorem C26_append_visible : forall (ops : list op) s r,
    s < created (rev ops) ->
    vars (run (ops ++ [OAppend s r])) s = vars (run ops) s ++ [r].
  Proof.
    intros ops s r L. rewrite !C26_scope_sees_its_history; auto.
    - rewrite rev_app_distr. simpl. destruct (Nat.ltb_spec s (created (rev ops))); [|lia].
      now rewrite Nat.eqb_refl.
    - now rewrite rev_app_distr.
  Qed.

  (** ** C27: name resolution *)

  (** How many copies lead from a root scope to this one. *)
  Fixpoint copies (past : list op) (s : nat) : nat :=
    match past with
    | [] => 0
    | ONew _ :: p => if Nat.eqb s (created p) then 0 else copies p s
    | OCopy q :: p =>
        if Nat.ltb q (created p) && Nat.eqb s (created p) then S (copies p q) else copies p s
    | _ :: p => copies p s
    end.

  Lemma run_depth : forall (ops : list op) s, s < created (rev ops) ->
    s_depth (h_sc (run ops) s) = copies (rev ops) s.
  Proof.
    induction ops as [|o ops IH] using rev_ind; intros s L; [simpl in L; lia|].
    destruct (run_visible ops) as (_ & N & _).
    rewrite run_snoc, rev_app_distr in *. cbn [rev app created copies] in *.
    destruct o as [r|q|q r|q d|q]; cbn [step fst created copies] in *.
    - simpl. rewrite N. unfold upd. destruct (Nat.eqb_spec s (created (rev ops))); [reflexivity|].
      apply IH. lia.
    - unfold copy_scope. rewrite N. destruct (Nat.ltb_spec q (created (rev ops))).
      + simpl. unfold upd. destruct (Nat.eqb_spec s (created (rev ops))).
        * simpl. f_equal. apply IH. lia.
        * destruct (Nat.eqb_spec s q); [subst; simpl|]; apply IH; lia.
      + apply IH. lia.
    - unfold append_vars. destruct (Nat.ltb q _); [|apply IH; lia].
      destruct (Nat.ltb _ _); simpl; unfold upd; (destruct (Nat.eqb_spec s q); [subst; simpl|]; apply IH; lia).
    - rewrite <- IH by lia. destruct (Nat.ltb q (h_next (run ops))); [|reflexivity].
      apply (same_add (run ops) q d).
    - rewrite <- IH by lia. apply (same_close (run ops) q).
  Qed.

  Section Resolution.
    Context {value : Type}.
    (** What a row says about the name: a value and whether it has it. *)
    Variable lookup : row -> option value * bool.
    Variable null : value.

    (** [rows] innermost first. *)
    Inductive resolves : list row -> option value -> Prop :=
    | res_present : forall inner r outer e,
        (forall x, In x inner -> snd (lookup x) = false) ->
        lookup r = (e, true) ->
        resolves (inner ++ r :: outer) (Some (match e with Some v => v | None => null end))
    | res_default : forall inner r outer v,
        (forall x, In x (inner ++ r :: outer) -> snd (lookup x) = false) ->
        (forall x, In x inner -> fst (lookup x) = None) ->
        lookup r = (Some v, false) ->
        resolves (inner ++ r :: outer) (Some v)
    | res_missing : forall rows,
        (forall x, In x rows -> lookup x = (None, false)) ->
        resolves rows None.

    Lemma resolve_rows_default : forall rows v,
      (forall x, In x rows -> snd (lookup x) = false) ->
      resolve_rows lookup null (Some v) rows = Some v.
    Proof.
      induction rows as [|r rows IH]; intros v H; [reflexivity|]. simpl.
      pose proof (H r (or_introl eq_refl)) as Hr. destruct (lookup r) as [e p]. simpl in Hr. subst p.
      destruct e; apply IH; intros; apply H; simpl; auto.
    Qed.

    Lemma resolve_rows_present : forall inner r outer e dv,
      (forall x, In x inner -> snd (lookup x) = false) -> lookup r = (e, true) ->
      resolve_rows lookup null dv (inner ++ r :: outer) = Some (match e with Some v => v | None => null end).
    Proof.
      induction inner as [|x inner IH]; intros r outer e dv H E; simpl.
      - now rewrite E.
      - pose proof (H x (or_introl eq_refl)) as Hx. destruct (lookup x) as [ex px]. simpl in Hx. subst px.
        apply IH; [|exact E]. intros y Hy. apply H. simpl. auto.
    Qed.

    Lemma resolves_iff : forall rows v,
      resolve_rows lookup null None rows = v <-> resolves rows v.
    Proof.
      intros rows v. split.
      - intros <-. 
        assert (G : forall rows, (exists inner r outer e, rows = inner ++ r :: outer /\
                     (forall x, In x inner -> snd (lookup x) = false) /\ lookup r = (e, true))
                  \/ (forall x, In x rows -> snd (lookup x) = false)).
        { clear rows. induction rows as [|x rows IH]; [right; intros x []|].
          destruct (lookup x) as [e p] eqn:E. destruct p.
          - left. exists [], x, rows, e. repeat split; auto. intros y [].
          - destruct IH as [(inner & r & outer & e' & -> & H & E')|H].
            + left. exists (x :: inner), r, outer, e'. repeat split; auto.
              intros y [<-|Hy]; [now rewrite E|auto].
            + right. intros y [<-|Hy]; [now rewrite E|auto]. }
        destruct (G rows) as [(inner & r & outer & e & -> & H & E)|H].
        + rewrite (resolve_rows_present inner r outer e None H E). now constructor.
        + clear G.
          assert (G : (exists inner r outer v, rows = inner ++ r :: outer /\
                       (forall x, In x inner -> fst (lookup x) = None) /\ lookup r = (Some v, false))
                    \/ (forall x, In x rows -> lookup x = (None, false))).
          { induction rows as [|x rows IH]; [right; intros x []|].
            pose proof (H x (or_introl eq_refl)) as Hx.
            destruct (lookup x) as [e p] eqn:E. simpl in Hx. subst p.
            destruct e as [v|].
            - left. exists [], x, rows, v. repeat split; auto. intros y [].
            - destruct IH as [(inner & r & outer & v & -> & H' & E')|H'].
              + intros y Hy. apply H. simpl. auto.
              + left. exists (x :: inner), r, outer, v. repeat split; auto.
                intros y [<-|Hy]; [now rewrite E|auto].
              + right. intros y [<-|Hy]; auto. }
          destruct G as [(inner & r & outer & v & -> & H' & E)|G].
          * replace (resolve_rows lookup null None (inner ++ r :: outer)) with (Some v); [now apply res_default|].
            symmetry. clear - H H' E. induction inner as [|x inner IH]; simpl.
            -- rewrite E. apply resolve_rows_default. intros y Hy. apply H. simpl. auto.
            -- pose proof (H x (or_introl eq_refl)) as Hx. pose proof (H' x (or_introl eq_refl)) as Hx'.
               destruct (lookup x) as [ex px]. simpl in Hx, Hx'. subst. apply IH.
               ++ intros y Hy. apply H. simpl. auto.
               ++ intros y Hy. apply H'. simpl. auto.
          * replace (resolve_rows lookup null None rows) with (@None value); [now constructor|].
            symmetry. clear - G. induction rows as [|x rows IH]; [reflexivity|]. simpl.
            rewrite (G x (or_introl eq_refl)). apply IH. intros y Hy. apply G. simpl. auto.
      - intros R. destruct R as [inner r outer e H E|inner r outer v H H' E|rows H].
        + now apply resolve_rows_present.
        + induction inner as [|x inner IH]; simpl.
          * rewrite E. apply resolve_rows_default. intros y Hy. apply H. simpl. auto.
          * pose proof (H x (or_introl eq_refl)) as Hx. pose proof (H' x (or_introl eq_refl)) as Hx'.
            destruct (lookup x) as [ex px]. simpl in Hx, Hx'. subst. apply IH.
            -- intros y Hy. apply H. simpl. auto.
            -- intros y Hy. apply H'. simpl. auto.
        + induction rows as [|x rows IH]; [reflexivity|]. simpl.
          rewrite (H x (or_introl eq_refl)). apply IH. intros y Hy. apply H. simpl. auto.
    Qed.

    (** The rows are searched most recently appended first; at 1000 nested
        copies resolution is refused. *)
    Theorem C27_resolution : forall (ops : list op) s v,
      s < created (rev ops) ->
      copies (rev ops) s < 1000 ->
      (resolve lookup null (run ops) s = v <-> resolves (rev (visible (rev ops) s)) v).
    Proof.
      intros ops s v L Dp. unfold resolve. rewrite run_depth by exact L.
      destruct (Nat.leb_spec 1000 (copies (rev ops) s)); [lia|].
      rewrite C26_scope_sees_its_history by exact L. apply resolves_iff.
    Qed.

    Theorem C27_stack_limit : forall (ops : list op) s,
      s < created (rev ops) ->
      1000 <= copies (rev ops) s ->
      resolve lookup null (run ops) s = None.
    Proof.
      intros ops s L Dp. unfold resolve. rewrite run_depth by exact L.
      destruct (Nat.leb_spec 1000 (copies (rev ops) s)); [reflexivity|lia].
    Qed.
  End Resolution.

  (** ** C28, C30: closing *)

  (** The scopes that are alive below [s] (with [s] itself): reached by
      following parents through scopes that are not closed. *)
  Inductive live_below (parent : nat -> option nat) (closed : nat -> bool) (s : nat) : nat -> Prop :=
  | below_self : live_below parent closed s s
  | below_child : forall u p, parent u = Some p -> closed u = false ->
      live_below parent closed s p -> live_below parent closed s u.

  Definition par h u := s_parent (h_sc h u).
  Definition dead h u := s_destroyed (h_sc h u).
  Notation below h := (live_below (par h) (dead h)).

  Definition Inv h : Prop :=
    (forall u, h_next h <= u -> par h u = None /\ dead h u = true) /\
    (forall u p, par h u = Some p -> p < u) /\
    (forall p c, In (Some c) (s_children (h_sc h p)) ->
       c < h_next h /\ par h c = Some p /\ dead h c = false) /\
    (forall c p, par h c = Some p -> dead h c = false ->
       In (Some c) (s_children (h_sc h p))).

  Lemma below_le : forall par dead s u, (forall u p, par u = Some p -> p < u) ->
    live_below par dead s u -> s <= u.
  Proof. intros par dead s u H B. induction B; [lia|]. apply H in H0. lia. Qed.

  Lemma below_trans : forall par dead s u v,
    live_below par dead s u -> live_below par dead u v -> live_below par dead s v.
  Proof. intros par dead s u v A B. induction B; auto. eapply below_child; eauto. Qed.

  Lemma below_ext : forall par dead par' dead' s u,
    (forall u, par u = par' u) -> (forall u, dead u = dead' u) ->
    live_below par dead s u -> live_below par' dead' s u.
  Proof.
    intros par dead par' dead' s u P Q B. induction B; [constructor|].
    eapply below_child; [rewrite <- P; eauto|rewrite <- Q; auto|auto].
  Qed.

  Lemma below_dec : forall par dead s, (forall u p, par u = Some p -> p < u) ->
    forall u, {live_below par dead s u} + {~ live_below par dead s u}.
  Proof.
    intros par dead s P. induction u as [u IH] using lt_wf_rec.
    destruct (Nat.eq_dec u s) as [->|N]; [left; constructor|].
    destruct (dead u) eqn:Du.
    { right. intros B. inversion B; subst; congruence. }
    destruct (par u) as [p|] eqn:E.
    - destruct (IH p (P _ _ E)) as [B|B].
      + left. eapply below_child; eauto.
      + right. intros B'. inversion B'; subst; [congruence|].
        assert (p0 = p) by congruence. subst. contradiction.
    - right. intros B. inversion B; subst; congruence.
  Qed.

  (** Scopes have died, nothing else about the tree has changed. *)
  Definition died (dead dead' : nat -> bool) (P : nat -> Prop) : Prop :=
    forall u, dead' u = true <-> dead u = true \/ P u.

  Lemma below_mono : forall par dead dead' P s u, died dead dead' P ->
    live_below par dead' s u -> live_below par dead s u.
  Proof.
    intros par dead dead' P s u H B. induction B; [constructor|].
    eapply below_child; eauto. destruct (dead u) eqn:E; [|reflexivity].
    assert (dead' u = true) by (apply H; auto). congruence.
  Qed.

  Lemma below_stable : forall par dead dead' c s u, died dead dead' (live_below par dead c) ->
    ~ live_below par dead c u -> live_below par dead s u -> live_below par dead' s u.
  Proof.
    intros par dead dead' c s u H N B. induction B; [constructor|].
    eapply below_child; eauto.
    - destruct (dead' u) eqn:E; [|reflexivity]. apply H in E. destruct E; [congruence|contradiction].
    - apply IHB. intros B'. apply N. eapply below_child; eauto.
  Qed.

  Definition same_tree h h' : Prop :=
    h_next h' = h_next h /\ forall u,
      s_children (h_sc h' u) = s_children (h_sc h u) /\ par h' u = par h u /\ dead h' u = dead h u.

  Lemma tree_refl : forall h, same_tree h h.
  Proof. intros; repeat split. Qed.

  Lemma tree_trans : forall h1 h2 h3, same_tree h1 h2 -> same_tree h2 h3 -> same_tree h1 h3.
  Proof.
    intros h1 h2 h3 (A & B) (A' & B'). split; [congruence|]. intros u.
    destruct (B u) as (? & ? & ?). destruct (B' u) as (? & ? & ?). repeat split; congruence.
  Qed.

  Lemma tree_with_sc : forall h s sc,
    s_children sc = s_children (h_sc h s) -> s_parent sc = s_parent (h_sc h s) ->
    s_destroyed sc = s_destroyed (h_sc h s) -> same_tree h (with_sc h s sc).
  Proof.
    intros. split; [reflexivity|]. intros u. unfold par, dead, with_sc. simpl. unfold upd.
    destruct (Nat.eqb_spec u s); subst; auto.
  Qed.

  Lemma tree_add : forall h s d, same_tree h (fst (add_destructor h s d)).
  Proof.
    intros. unfold add_destructor. destruct (s_destroyed (h_sc h s)) eqn:E; [apply tree_refl|].
    apply tree_with_sc; auto.
  Qed.

  Lemma tree_add_all : forall l h, same_tree h (add_all h l).
  Proof.
    induction l as [|[s d] l IH]; intros h; [apply tree_refl|]. simpl.
    eapply tree_trans; [apply tree_add|apply IH].
  Qed.

  Lemma tree_batch : forall ds h s, same_tree h (fst (run_batch beh h s ds)).
  Proof.
    induction ds as [|d ds IH]; intros h s; [apply tree_refl|]. simpl.
    specialize (IH (add_all h (beh d)) s).
    destruct (run_batch beh (add_all h (beh d)) s ds). simpl in *.
    eapply tree_trans; [apply tree_add_all|exact IH].
  Qed.

  Lemma tree_rounds : forall n h s, same_tree h (fst (run_rounds beh n h s)).
  Proof.
    induction n as [|n IH]; intros h s; [apply tree_refl|]. cbn [run_rounds].
    destruct (s_destr (h_sc h s)) as [|d ds] eqn:E; [apply tree_refl|].
    pose proof (tree_batch (rev (d :: ds)) (with_sc h s (set_destr (h_sc h s) [])) s) as B.
    destruct (run_batch beh (with_sc h s (set_destr (h_sc h s) [])) s (rev (d :: ds))) as [h1 t1].
    specialize (IH h1 s). destruct (run_rounds beh n h1 s) as [h2 t2]. simpl in *.
    eapply tree_trans; [|exact IH]. eapply tree_trans; [|exact B].
    apply tree_with_sc; reflexivity.
  Qed.

  Lemma clear_child_in : forall s l c,
    In (Some c) (fst (clear_child s l)) <-> In (Some c) l /\ c <> s.
  Proof.
    induction l as [|x l IH]; intros c; simpl; [tauto|].
    destruct (clear_child s l) as [l' n]. simpl in IH.
    destruct x as [x|].
    - destruct (Nat.eqb_spec x s) as [->|N]; simpl; rewrite IH.
      + split.
        * intros [H|[H H']]; [discriminate|auto].
        * intros [[H|H] H']; [congruence|auto].
      + split.
        * intros [H|[H H']]; [split; [auto|congruence]|auto].
        * intros [[H|H] H']; auto.
    - simpl. rewrite IH. split; [intros [H|[H H']]; [discriminate|auto]|].
      intros [[H|H] H']; [discriminate|auto].
  Qed.

  (** The loop over the children, as a function of its own. *)
  Definition close_list (f : nat) : list (option nat) -> heap -> heap * trace :=
    fix go (l : list (option nat)) (h : heap) : heap * trace :=
      match l with
      | [] => (h, [])
      | None :: r => go r h
      | Some c :: r =>
          let (h1, t1) := close_scope beh f h c in
          let (h2, t2) := go r h1 in
          (h2, t1 ++ t2)
      end.

  (** The last part of Close: the scope leaves its parent, runs its own
      destructors and is marked destroyed. *)
  Definition finish h s : heap * trace :=
    let (h3, t3) := run_rounds beh 10 (detach h s) s in
    (with_sc h3 s (set_destroyed (h_sc h3 s)), t3).

  Lemma close_scope_eq : forall f h s,
    close_scope beh (S f) h s =
    let (h1, t1) := close_list f (s_children (h_sc h s)) h in
    let (h2, t2) := finish h1 s in (h2, t1 ++ t2).
  Proof.
    intros. cbn [close_scope]. unfold finish.
    fold (close_list f).
    destruct (close_list f (s_children (h_sc h s)) h) as [h1 t1].
    destruct (run_rounds beh 10 (detach h1 s) s). reflexivity.
  Qed.

  Lemma detach_facts : forall h s, Inv h ->
    h_next (detach h s) = h_next h /\
    forall u, par (detach h s) u = par h u /\ dead (detach h s) u = dead h u /\
      s_destr (h_sc (detach h s) u) = s_destr (h_sc h u) /\
      (forall c, In (Some c) (s_children (h_sc (detach h s) u)) <->
                 In (Some c) (s_children (h_sc h u)) /\ c <> s).
  Proof.
    intros h s (I0 & I1 & I2 & I3). unfold detach.
    destruct (s_parent (h_sc h s)) as [p|] eqn:E.
    - pose proof (clear_child_in s (s_children (h_sc h p))) as CC.
      destruct (clear_child s (s_children (h_sc h p))) as [cs n]. simpl in CC.
      split; [reflexivity|]. intros u. unfold par, dead, with_sc. simpl. unfold upd.
      destruct (Nat.eqb_spec u p) as [->|N]; simpl.
      + repeat split; auto; apply CC; auto.
      + repeat split; auto; try tauto. intros ->. apply I2 in H.
        unfold par in H. destruct H as (_ & H & _). congruence.
    - split; [reflexivity|]. intros u. repeat split; auto; try tauto.
      intros ->. apply I2 in H. unfold par in H. destruct H as (_ & H & _). congruence.
  Qed.

  Lemma finish_struct : forall h s, Inv h -> s < h_next h ->
    Inv (fst (finish h s)) /\ h_next (fst (finish h s)) = h_next h /\
    (forall u, par (fst (finish h s)) u = par h u) /\
    died (dead h) (dead (fst (finish h s))) (fun u => u = s).
  Proof.
    intros h s I L. pose proof (detach_facts h s I) as (DN & DF). unfold finish.
    pose proof (tree_rounds 10 (detach h s) s) as (TN & TF).
    destruct (run_rounds beh 10 (detach h s) s) as [h3 t3]. simpl fst in *.
    destruct I as (I0 & I1 & I2 & I3).
    set (h' := with_sc h3 s (set_destroyed (h_sc h3 s))).
    assert (P : forall u, par h' u = par h u).
    { intros u. destruct (TF u) as (_ & T & _). destruct (DF u) as (F & _).
      unfold par in *. unfold h', with_sc. simpl. unfold upd.
      destruct (Nat.eqb_spec u s); subst; simpl; congruence. }
    assert (Dd : forall u, dead h' u = if Nat.eqb u s then true else dead h u).
    { intros u. destruct (TF u) as (_ & _ & T). destruct (DF u) as (_ & F & _).
      unfold dead in *. unfold h', with_sc. simpl. unfold upd.
      destruct (Nat.eqb_spec u s); subst; simpl; congruence. }
    assert (C : forall u c, In (Some c) (s_children (h_sc h' u)) <->
                            In (Some c) (s_children (h_sc h u)) /\ c <> s).
    { intros u c. destruct (TF u) as (T & _). destruct (DF u) as (_ & _ & _ & F).
      rewrite <- F, <- T. unfold h', with_sc. simpl. unfold upd.
      destruct (Nat.eqb_spec u s); subst; simpl; tauto. }
    assert (N : h_next h' = h_next h) by (unfold h', with_sc; simpl; congruence).
    split; [|split; [exact N|split; [exact P|]]].
    - split; [|split; [|split]].
      + intros u Lu. rewrite P, Dd. rewrite N in Lu. destruct (I0 u Lu) as (E1 & E2).
        split; auto. destruct (Nat.eqb u s); auto.
      + intros u p E. rewrite P in E. eauto.
      + intros p c H. apply C in H. destruct H as (H & Hc). apply I2 in H.
        rewrite N, P, Dd. destruct (Nat.eqb_spec c s); [contradiction|]. exact H.
      + intros c p E F. rewrite P in E. rewrite Dd in F.
        destruct (Nat.eqb_spec c s); [discriminate|]. apply C. auto.
    - intros u. rewrite Dd. destruct (Nat.eqb_spec u s); tauto.
  Qed.

  Definition below_any h (l : list (option nat)) (u : nat) : Prop :=
    exists c, In (Some c) l /\ below h c u.

  Definition struct_ok h h' (P : nat -> Prop) : Prop :=
    Inv h' /\ h_next h' = h_next h /\ (forall u, par h' u = par h u) /\ died (dead h) (dead h') P.

  Lemma below_any_step : forall h h1 c l u,
    (forall u, par h1 u = par h u) -> died (dead h) (dead h1) (below h c) ->
    ~ below h c u ->
    (below_any h1 l u <-> below_any h l u).
  Proof.
    intros h h1 c l u P Dd N. split; intros (c' & I & B); exists c'; split; auto.
    - eapply below_mono; [exact Dd|]. eapply below_ext; [exact P| |exact B]. auto.
    - apply below_ext with (par := par h) (dead := dead h1); [intros; symmetry; apply P|reflexivity|].
      eapply below_stable; eauto.
  Qed.

  Lemma close_list_struct : forall f, 
    (forall h s, Inv h -> s < h_next h -> h_next h - s <= f ->
       struct_ok h (fst (close_scope beh f h s)) (below h s)) ->
    forall l h, Inv h -> (forall c, In (Some c) l -> c < h_next h /\ h_next h - c <= f) ->
    struct_ok h (fst (close_list f l h)) (below_any h l).
  Proof.
    intros f IH. induction l as [|[c|] l IHl]; intros h I H.
    - simpl. split; [exact I|]. split; [reflexivity|]. split; [reflexivity|].
      intros u. split; auto. intros [E|(c & [] & _)]. exact E.
    - simpl. destruct (H c (or_introl eq_refl)) as (L & F).
      specialize (IH h c I L F). destruct (close_scope beh f h c) as [h1 t1].
      simpl fst in IH. destruct IH as (J & N & P & Dd).
      specialize (IHl h1 J).
      destruct (close_list f l h1) as [h2 t2]. simpl fst in *.
      destruct IHl as (J2 & N2 & P2 & D2).
      { intros c' I'. rewrite N. apply H. simpl. auto. }
      split; [exact J2|]. split; [congruence|]. split; [intros; rewrite P2; apply P|].
      intros u. rewrite (D2 u), (Dd u).
      destruct I as (_ & I1 & _).
      destruct (below_dec (par h) (dead h) c I1 u) as [B|B].
      + split; [|tauto]. intros _. right. exists c. simpl. auto.
      + rewrite (below_any_step h h1 c l u P Dd B). split.
        * intros [[E|E]|(c' & I' & B')]; [auto|contradiction|]. right. exists c'. simpl. auto.
        * intros [E|(c' & [I'|I'] & B')]; [auto|congruence|]. right. exists c'. auto.
    - simpl. destruct (IHl h I) as (J & N & P & Dd).
      { intros c' I'. apply H. simpl. auto. }
      split; [exact J|]. split; [exact N|]. split; [exact P|].
      intros u. rewrite (Dd u). split; (intros [E|(c' & I' & B')]; [auto|right; exists c'; split; auto]).
      + simpl. auto.
      + destruct I'; [discriminate|auto].
  Qed.

  Lemma below_children : forall h s u, Inv h ->
    (below h s u <-> u = s \/ below_any h (s_children (h_sc h s)) u).
  Proof.
    intros h s u (I0 & I1 & I2 & I3). split.
    - intros B. induction B; auto. right. destruct IHB as [->|(c & I & B')].
      + exists u. split; [apply I3; auto|constructor].
      + exists c. split; [auto|]. eapply below_child; eauto.
    - intros [->|(c & I & B)]; [constructor|]. apply I2 in I. destruct I as (_ & P & Dd).
      eapply below_trans; [|exact B]. eapply below_child; [exact P|exact Dd|constructor].
  Qed.

  Lemma close_struct : forall f h s, Inv h -> s < h_next h -> h_next h - s <= f ->
    struct_ok h (fst (close_scope beh f h s)) (below h s).
  Proof.
    induction f as [|f IH]; intros h s I L F; [lia|].
    rewrite close_scope_eq.
    pose proof (close_list_struct f IH (s_children (h_sc h s)) h I) as C.
    destruct (close_list f (s_children (h_sc h s)) h) as [h1 t1]. simpl fst in C.
    destruct C as (J & N & P & Dd).
    { intros c Ic. destruct I as (I0 & I1 & I2 & I3). apply I2 in Ic.
      destruct Ic as (Lc & Pc & _). apply I1 in Pc. lia. }
    destruct (finish_struct h1 s J ltac:(lia)) as (J2 & N2 & P2 & D2).
    destruct (finish h1 s) as [h2 t2]. simpl fst in *.
    split; [exact J2|]. split; [congruence|]. split; [intros; rewrite P2; apply P|].
    intros u. rewrite (D2 u), (Dd u), (below_children h s u I). tauto.
  Qed.

  (** *** What Close runs, whatever the destructors do *)

  Lemma add_incl : forall h s d u, incl (s_destr (h_sc h u)) (s_destr (h_sc (fst (add_destructor h s d)) u)).
  Proof.
    intros h s d u x I. unfold add_destructor. destruct (s_destroyed (h_sc h s)); [exact I|].
    simpl. unfold upd. destruct (Nat.eqb_spec u s); subst; [|exact I]. simpl. apply in_or_app. auto.
  Qed.

  Lemma add_all_incl : forall l h u, incl (s_destr (h_sc h u)) (s_destr (h_sc (add_all h l) u)).
  Proof.
    induction l as [|[s d] l IH]; intros h u x I; [exact I|]. simpl. apply IH. now apply add_incl.
  Qed.

  Lemma batch_runs : forall ds h s,
    (forall u, incl (s_destr (h_sc h u)) (s_destr (h_sc (fst (run_batch beh h s ds)) u))) /\
    (forall d, In d ds -> In (s, d) (snd (run_batch beh h s ds))).
  Proof.
    induction ds as [|d ds IH]; intros h s; [split; [intros u x I; exact I|intros d []]|]. simpl.
    destruct (IH (add_all h (beh d)) s) as (A & B).
    destruct (run_batch beh (add_all h (beh d)) s ds) as [h' t']. simpl in *. split.
    - intros u x I. apply A. now apply add_all_incl.
    - intros d' [->|I]; auto.
  Qed.

  Lemma rounds_run : forall n h s, n <> 0 ->
    (forall u, u <> s -> incl (s_destr (h_sc h u)) (s_destr (h_sc (fst (run_rounds beh n h s)) u))) /\
    (forall d, In d (s_destr (h_sc h s)) -> In (s, d) (snd (run_rounds beh n h s))).
  Proof.
    induction n as [|n IH]; intros h s Hn; [congruence|]. clear Hn. cbn [run_rounds].
    destruct (s_destr (h_sc h s)) as [|d ds] eqn:E.
    { split; [intros u N x I; exact I|intros d []]. }
    pose proof (batch_runs (rev (d :: ds)) (with_sc h s (set_destr (h_sc h s) [])) s) as (A & B).
    destruct (run_batch beh (with_sc h s (set_destr (h_sc h s) [])) s (rev (d :: ds))) as [h1 t1].
    cbn [fst snd] in *.
    assert (C : forall u, u <> s -> incl (s_destr (h_sc h u)) (s_destr (h_sc h1 u))).
    { intros u N x I. apply A. simpl. now rewrite upd_other by exact N. }
    assert (C2 : forall u, u <> s -> incl (s_destr (h_sc h1 u)) (s_destr (h_sc (fst (run_rounds beh n h1 s)) u))).
    { destruct n as [|n]; [intros u N x I; exact I|]. apply IH. congruence. }
    destruct (run_rounds beh n h1 s) as [h2 t2]. cbn [fst snd] in *. split.
    - intros u N x I. apply C2, C; auto.
    - intros d' I. apply in_or_app. left. apply B. now apply -> in_rev.
  Qed.

  Definition runs_ok h h' (t : trace) (P : nat -> Prop) : Prop :=
    (forall u, ~ P u -> incl (s_destr (h_sc h u)) (s_destr (h_sc h' u))) /\
    (forall u d, P u -> In d (s_destr (h_sc h u)) -> In (u, d) t).

  Lemma finish_runs : forall h s, Inv h ->
    runs_ok h (fst (finish h s)) (snd (finish h s)) (fun u => u = s).
  Proof.
    intros h s I. pose proof (detach_facts h s I) as (_ & DF). unfold finish.
    pose proof (rounds_run 10 (detach h s) s ltac:(congruence)) as (A & B).
    destruct (run_rounds beh 10 (detach h s) s) as [h3 t3]. cbn [fst snd] in *. split.
    - intros u N x Ix. simpl. rewrite upd_other by exact N. apply A; [exact N|].
      destruct (DF u) as (_ & _ & E & _). now rewrite E.
    - intros u d -> Id. apply B. destruct (DF s) as (_ & _ & E & _). now rewrite E.
  Qed.

  Lemma below_any_dec : forall h l u, Inv h -> {below_any h l u} + {~ below_any h l u}.
  Proof.
    intros h l u (_ & I1 & _). induction l as [|[c|] l IH].
    - right. intros (c & [] & _).
    - destruct (below_dec (par h) (dead h) c I1 u) as [B|B].
      + left. exists c. simpl. auto.
      + destruct IH as [IH|IH].
        * left. destruct IH as (c' & I & B'). exists c'. simpl. auto.
        * right. intros (c' & [I|I] & B'); [congruence|]. apply IH. exists c'. auto.
    - destruct IH as [IH|IH].
      + left. destruct IH as (c' & I & B'). exists c'. simpl. auto.
      + right. intros (c' & [I|I] & B'); [congruence|]. apply IH. exists c'. auto.
  Qed.

  Lemma below_any_cons : forall h c l u, below_any h (Some c :: l) u <-> below h c u \/ below_any h l u.
  Proof.
    intros. split.
    - intros (c' & [I|I] & B); [left; congruence|right; exists c'; auto].
    - intros [B|(c' & I & B)]; [exists c; simpl; auto|exists c'; simpl; auto].
  Qed.

  Lemma below_any_none : forall h l u, below_any h (None :: l) u <-> below_any h l u.
  Proof.
    intros. split; intros (c' & I & B); exists c'; split; auto.
    - destruct I; [discriminate|auto].
    - simpl. auto.
  Qed.

  Lemma close_list_runs : forall f,
    (forall h s, Inv h -> s < h_next h -> h_next h - s <= f ->
       runs_ok h (fst (close_scope beh f h s)) (snd (close_scope beh f h s)) (below h s)) ->
    forall l h, Inv h -> (forall c, In (Some c) l -> c < h_next h /\ h_next h - c <= f) ->
    runs_ok h (fst (close_list f l h)) (snd (close_list f l h)) (below_any h l).
  Proof.
    intros f IH. induction l as [|[c|] l IHl]; intros h I H.
    - split; [intros u _ x Ix; exact Ix|]. intros u d (c & [] & _).
    - simpl. destruct (H c (or_introl eq_refl)) as (L & F).
      destruct (IH h c I L F) as (R1 & R2).
      destruct (close_struct f h c I L F) as (J & N & P & Dd).
      destruct (close_scope beh f h c) as [h1 t1]. cbn [fst snd] in *.
      destruct (IHl h1 J) as (R3 & R4).
      { intros c' I'. rewrite N. apply H. simpl. auto. }
      destruct (close_list f l h1) as [h2 t2]. cbn [fst snd] in *. split.
      + intros u Nu x Ix. rewrite below_any_cons in Nu.
        apply R3; [|apply R1; tauto].
        rewrite (below_any_step h h1 c l u P Dd); tauto.
      + intros u d Bu Id. apply in_or_app. pose proof I as (_ & I1 & _).
        destruct (below_dec (par h) (dead h) c I1 u) as [B|B]; [left; auto|right].
        apply R4; [|apply R1; auto].
        rewrite (below_any_step h h1 c l u P Dd); [|auto].
        rewrite below_any_cons in Bu. tauto.
    - simpl. destruct (IHl h I) as (R1 & R2).
      { intros c' I'. apply H. simpl. auto. }
      split.
      + intros u Nu. rewrite below_any_none in Nu. auto.
      + intros u d Bu. rewrite below_any_none in Bu. auto.
  Qed.

  Lemma fuel_children : forall h s f, Inv h -> h_next h - s <= S f ->
    forall c, In (Some c) (s_children (h_sc h s)) -> c < h_next h /\ h_next h - c <= f.
  Proof.
    intros h s f (I0 & I1 & I2 & I3) F c Ic. apply I2 in Ic.
    destruct Ic as (Lc & Pc & _). apply I1 in Pc. lia.
  Qed.

  Lemma not_below_own : forall h s, Inv h -> ~ below_any h (s_children (h_sc h s)) s.
  Proof.
    intros h s (I0 & I1 & I2 & I3) (c & Ic & B). apply I2 in Ic. destruct Ic as (_ & Pc & _).
    apply I1 in Pc. apply below_le in B; [|exact I1]. lia.
  Qed.

  Lemma close_runs : forall f h s, Inv h -> s < h_next h -> h_next h - s <= f ->
    runs_ok h (fst (close_scope beh f h s)) (snd (close_scope beh f h s)) (below h s).
  Proof.
    induction f as [|f IH]; intros h s I L F; [lia|].
    rewrite close_scope_eq.
    pose proof (fuel_children h s f I F) as FC.
    destruct (close_list_runs f IH (s_children (h_sc h s)) h I FC) as (R1 & R2).
    destruct (close_list_struct f (close_struct f) (s_children (h_sc h s)) h I FC) as (J & N & P & Dd).
    destruct (close_list f (s_children (h_sc h s)) h) as [h1 t1]. cbn [fst snd] in *.
    destruct (finish_runs h1 s J) as (R3 & R4).
    destruct (finish h1 s) as [h2 t2]. cbn [fst snd] in *. split.
    - intros u Nu x Ix. rewrite (below_children h s u I) in Nu. apply R3; [tauto|].
      apply R1; tauto.
    - intros u d Bu Id. apply in_or_app. rewrite (below_children h s u I) in Bu.
      destruct Bu as [->|Bu]; [right|left; auto].
      apply R4; [reflexivity|]. apply R1; [|exact Id]. now apply not_below_own.
  Qed.

  (** *** Plain destructors: exactly what is run, and in which order *)

  Definition events (u : nat) (t : trace) : trace := filter (fun x : nat * D => Nat.eqb (fst x) u) t.

  (** Nothing of [u] happens after something of [v]. *)
  Definition before (t : trace) (u v : nat) : Prop :=
    forall t1 d t2, t = t1 ++ (v, d) :: t2 -> events u t2 = [].

  Lemma events_app : forall u t1 t2, events u (t1 ++ t2) = events u t1 ++ events u t2.
  Proof. intros. unfold events. apply filter_app. Qed.

  Lemma events_map_same : forall u (l : list D), events u (map (pair u) l) = map (pair u) l.
  Proof.
    intros. induction l; simpl; [reflexivity|]. rewrite Nat.eqb_refl. simpl. f_equal. exact IHl.
  Qed.

  Lemma events_map_other : forall u v (l : list D), u <> v -> events u (map (pair v) l) = [].
  Proof.
    intros u v l N. induction l; simpl; [reflexivity|].
    destruct (Nat.eqb_spec v u); [congruence|]. exact IHl.
  Qed.

  Lemma split_app : forall A (t1 t2 a b : list A) x, t1 ++ t2 = a ++ x :: b ->
    (exists m, t1 = a ++ x :: m /\ b = m ++ t2) \/ (exists m, a = t1 ++ m /\ t2 = m ++ x :: b).
  Proof.
    induction t1 as [|y t1 IH]; intros t2 a b x E.
    - right. exists a. auto.
    - destruct a as [|z a]; simpl in E; injection E as -> E.
      + left. exists t1. auto.
      + destruct (IH _ _ _ _ E) as [(m & -> & ->)|(m & -> & ->)]; [left|right]; exists m; auto.
  Qed.

  Lemma before_app_l : forall t1 t2 u v, before t1 u v -> events u t2 = [] -> before (t1 ++ t2) u v.
  Proof.
    intros t1 t2 u v B E a d b Eq. apply split_app in Eq. destruct Eq as [(m & -> & ->)|(m & -> & ->)].
    - rewrite events_app, E. rewrite (B a d m eq_refl). reflexivity.
    - rewrite events_app in E. apply app_eq_nil in E. destruct E as (_ & E).
      unfold events in E. simpl in E. destruct (Nat.eqb v u); [discriminate|]. exact E.
  Qed.

  Lemma before_app_r : forall t1 t2 u v, events v t1 = [] -> before t2 u v -> before (t1 ++ t2) u v.
  Proof.
    intros t1 t2 u v E B a d b Eq. apply split_app in Eq. destruct Eq as [(m & -> & ->)|(m & -> & ->)].
    - rewrite events_app in E. apply app_eq_nil in E. destruct E as (_ & E).
      unfold events in E. simpl in E. rewrite Nat.eqb_refl in E. discriminate.
    - now apply (B m d b).
  Qed.

  Lemma before_none : forall t u v, events u t = [] -> before t u v.
  Proof.
    intros t u v E a d b ->. rewrite events_app in E. apply app_eq_nil in E. destruct E as (_ & E).
    unfold events in E. simpl in E. destruct (Nat.eqb v u); [discriminate|]. exact E.
  Qed.

  (** Destructors that register no other destructor. *)
  Definition plain : Prop := forall d, beh d = [].

  Definition trace_ok h h' (t : trace) (P : nat -> Prop) : Prop :=
    (forall u, (P u -> s_destr (h_sc h' u) = []) /\
               (~ P u -> s_destr (h_sc h' u) = s_destr (h_sc h u))) /\
    (forall u, (P u -> events u t = map (pair u) (rev (s_destr (h_sc h u)))) /\
               (~ P u -> events u t = [])) /\
    (forall u v, P v -> below h v u -> u <> v -> before t u v).

  Lemma batch_plain : plain -> forall ds h s, run_batch beh h s ds = (h, map (pair s) ds).
  Proof.
    intros Pl. induction ds as [|d ds IH]; intros h s; [reflexivity|].
    simpl. rewrite (Pl d). simpl. now rewrite IH.
  Qed.

  Lemma rounds_plain : plain -> forall n h s,
    snd (run_rounds beh (S (S n)) h s) = map (pair s) (rev (s_destr (h_sc h s))) /\
    forall u, s_destr (h_sc (fst (run_rounds beh (S (S n)) h s)) u) =
              if Nat.eqb u s then [] else s_destr (h_sc h u).
  Proof.
    intros Pl n h s. cbn [run_rounds].
    destruct (s_destr (h_sc h s)) as [|d ds] eqn:E.
    { split; [reflexivity|]. intros u. simpl. destruct (Nat.eqb_spec u s); subst; auto. }
    rewrite (batch_plain Pl). cbn [h_sc with_sc]. rewrite upd_same.
    cbn [set_destr s_destr fst snd]. rewrite app_nil_r. split; [reflexivity|].
    intros u. cbn [h_sc with_sc]. unfold upd. destruct (Nat.eqb_spec u s); reflexivity.
  Qed.

  Lemma finish_plain : plain -> forall h s, Inv h ->
    snd (finish h s) = map (pair s) (rev (s_destr (h_sc h s))) /\
    forall u, s_destr (h_sc (fst (finish h s)) u) = if Nat.eqb u s then [] else s_destr (h_sc h u).
  Proof.
    intros Pl h s I. pose proof (detach_facts h s I) as (_ & DF). unfold finish.
    pose proof (rounds_plain Pl 8 (detach h s) s) as (A & B).
    destruct (run_rounds beh 10 (detach h s) s) as [h3 t3]. cbn [fst snd] in *.
    destruct (DF s) as (_ & _ & E & _). rewrite E in A. split; [exact A|].
    intros u. destruct (DF u) as (_ & _ & Eu & _). rewrite <- Eu, <- B.
    cbn [h_sc with_sc]. unfold upd. destruct (Nat.eqb_spec u s); subst; reflexivity.
  Qed.

  Lemma close_list_plain : plain -> forall f,
    (forall h s, Inv h -> s < h_next h -> h_next h - s <= f ->
       trace_ok h (fst (close_scope beh f h s)) (snd (close_scope beh f h s)) (below h s)) ->
    forall l h, Inv h -> (forall c, In (Some c) l -> c < h_next h /\ h_next h - c <= f) ->
    trace_ok h (fst (close_list f l h)) (snd (close_list f l h)) (below_any h l).
  Proof.
    intros Pl f IH. induction l as [|[c|] l IHl]; intros h I H.
    - split; [|split].
      + intros u. split; [intros (c & [] & _)|reflexivity].
      + intros u. split; [intros (c & [] & _)|reflexivity].
      + intros u v (c & [] & _).
    - simpl. destruct (H c (or_introl eq_refl)) as (L & F).
      destruct (IH h c I L F) as (A0 & A1 & A2).
      destruct (close_struct f h c I L F) as (J & N & P & Dd).
      destruct (close_scope beh f h c) as [h1 t1]. cbn [fst snd] in *.
      destruct (IHl h1 J) as (B0 & B1 & B2).
      { intros c' I'. rewrite N. apply H. simpl. auto. }
      destruct (close_list f l h1) as [h2 t2]. cbn [fst snd] in *.
      pose proof I as (_ & I1 & _).
      assert (Dec : forall u, {below h c u} + {~ below h c u})
        by (intros u; apply below_dec; exact I1).
      assert (Quiet : forall u, below h c u -> events u t2 = [] /\ s_destr (h_sc h2 u) = []).
      { intros u Bu. destruct (A0 u) as (E & _). specialize (E Bu).
        destruct (B1 u) as (X & Y). destruct (B0 u) as (X0 & Y0).
        destruct (below_any_dec h1 l u J) as [Z|Z].
        - rewrite (X Z), (X0 Z), E. auto.
        - rewrite (Y Z), (Y0 Z), E. auto. }
      split; [|split].
      + intros u. rewrite below_any_cons. destruct (Dec u) as [Bu|Bu].
        * split; [intros _; now apply Quiet|tauto].
        * pose proof (below_any_step h h1 c l u P Dd Bu) as St. destruct (B0 u) as (X & Y).
          destruct (A0 u) as (_ & A). split.
          -- intros [Z|Z]; [contradiction|]. apply X. now apply St.
          -- intros Z. rewrite Y by (rewrite St; tauto). auto.
      + intros u. rewrite below_any_cons, events_app. destruct (Dec u) as [Bu|Bu].
        * destruct (Quiet u Bu) as (Q & _). rewrite Q, app_nil_r. split; [intros _; now apply A1|tauto].
        * pose proof (below_any_step h h1 c l u P Dd Bu) as St. destruct (B1 u) as (X & Y).
          destruct (A1 u) as (_ & A). rewrite (A Bu). destruct (A0 u) as (_ & A'). split.
          -- intros [Z|Z]; [contradiction|]. simpl. rewrite <- (A' Bu). apply X. now apply St.
          -- intros Z. simpl. apply Y. rewrite St. tauto.
      + intros u v. rewrite below_any_cons. intros Pv Bvu Nuv.
        destruct (Dec v) as [Bv|Bv].
        * apply before_app_l; [now apply A2|]. apply Quiet. eapply below_trans; eauto.
        * apply before_app_r; [now apply A1|]. destruct (Dec u) as [Bu|Bu].
          -- apply before_none. now apply Quiet.
          -- apply B2; [|apply below_ext with (par := par h) (dead := dead h1);
                           [intros; symmetry; apply P|reflexivity|]|exact Nuv].
             ++ apply (below_any_step h h1 c l v P Dd Bv). tauto.
             ++ eapply below_stable; eauto.
    - simpl. destruct (IHl h I) as (A0 & A1 & A2).
      { intros c' I'. apply H. simpl. auto. }
      split; [|split].
      + intros u. rewrite below_any_none. apply A0.
      + intros u. rewrite below_any_none. apply A1.
      + intros u v. rewrite below_any_none. apply A2.
  Qed.

  Lemma close_plain : plain -> forall f h s, Inv h -> s < h_next h -> h_next h - s <= f ->
    trace_ok h (fst (close_scope beh f h s)) (snd (close_scope beh f h s)) (below h s).
  Proof.
    intros Pl. induction f as [|f IH]; intros h s I L F; [lia|].
    rewrite close_scope_eq.
    pose proof (fuel_children h s f I F) as FC.
    destruct (close_list_plain Pl f IH (s_children (h_sc h s)) h I FC) as (A0 & A1 & A2).
    destruct (close_list_struct f (close_struct f) (s_children (h_sc h s)) h I FC) as (J & N & P & Dd).
    destruct (close_list f (s_children (h_sc h s)) h) as [h1 t1]. cbn [fst snd] in *.
    destruct (finish_plain Pl h1 s J) as (B0 & B1).
    destruct (finish h1 s) as [h2 t2]. cbn [fst snd] in *.
    pose proof (not_below_own h s I) as NO.
    destruct (A0 s) as (_ & A0s). specialize (A0s NO).
    destruct (A1 s) as (_ & A1s). specialize (A1s NO).
    split; [|split].
    - intros u. rewrite (below_children h s u I), B1. destruct (A0 u) as (X & Y).
      destruct (Nat.eqb_spec u s); [subst; tauto|]. split; [intros [Z|Z]; [contradiction|auto]|].
      intros Z. apply Y. tauto.
    - intros u. rewrite (below_children h s u I), events_app, B0. destruct (A1 u) as (X & Y).
      destruct (Nat.eq_dec u s) as [->|Nu].
      + rewrite A1s, events_map_same, A0s. simpl. split; [reflexivity|tauto].
      + rewrite (events_map_other u s) by exact Nu. rewrite app_nil_r.
        split; [intros [Z|Z]; [contradiction|auto]|]. intros Z. apply Y. tauto.
    - intros u v Pv Bvu Nuv. rewrite (below_children h s v I) in Pv.
      destruct (Nat.eq_dec v s) as [->|Nv].
      + apply before_app_r; [exact A1s|]. apply before_none. rewrite B0. now apply events_map_other.
      + destruct Pv as [Pv|Pv]; [contradiction|].
        apply before_app_l; [now apply A2|]. rewrite B0. apply events_map_other.
        intros ->. pose proof I as (_ & I1 & I2 & _). destruct Pv as (c & Ic & Bc).
        apply I2 in Ic. destruct Ic as (_ & Pc & _). apply I1 in Pc.
        apply below_le in Bc; [|exact I1]. apply below_le in Bvu; [|exact I1]. lia.
  Qed.

  (** *** The specification: who is whose child, who is closed and which
      destructors are waiting, from the history alone *)

  Record life : Type := {
    l_n : nat;                       (* scopes made so far *)
    l_parent : nat -> option nat;
    l_closed : nat -> bool;          (* true also for scopes not made yet *)
    l_pending : nat -> list D        (* accepted and not run, oldest first *)
  }.

  (** [live_below], computed by following at most [fuel] parents. *)
  Fixpoint reaches (fuel : nat) (parent : nat -> option nat) (closed : nat -> bool) (s u : nat) : bool :=
    Nat.eqb u s ||
    match fuel with
    | O => false
    | S f => negb (closed u) && match parent u with
                                | Some p => reaches f parent closed s p
                                | None => false
                                end
    end.

  Definition life_step (o : op) (L : life) : life :=
    match o with
    | ONew _ =>
        {| l_n := S (l_n L); l_parent := upd (l_parent L) (l_n L) None;
           l_closed := upd (l_closed L) (l_n L) false; l_pending := l_pending L |}
    | OCopy s =>
        if Nat.ltb s (l_n L) then
          {| l_n := S (l_n L); l_parent := upd (l_parent L) (l_n L) (Some s);
             l_closed := upd (l_closed L) (l_n L) false; l_pending := l_pending L |}
        else L
    | OAppend _ _ => L
    | OAddDestr s d =>
        if l_closed L s then L else
          {| l_n := l_n L; l_parent := l_parent L; l_closed := l_closed L;
             l_pending := upd (l_pending L) s (l_pending L s ++ [d]) |}
    | OClose s =>
        if Nat.ltb s (l_n L) then
          let gone u := reaches u (l_parent L) (l_closed L) s u in
          {| l_n := l_n L; l_parent := l_parent L;
             l_closed := fun u => l_closed L u || gone u;
             l_pending := fun u => if gone u then [] else l_pending L u |}
        else L
    end.

  Definition life0 : life :=
    {| l_n := 0; l_parent := fun _ => None; l_closed := fun _ => true; l_pending := fun _ => [] |}.

  (** [past]: most recent operation first. *)
  Definition life_of (past : list op) : life := fold_right life_step life0 past.

  Lemma reaches_iff : forall parent closed s, (forall u p, parent u = Some p -> p < u) ->
    forall fuel u, u <= fuel -> (reaches fuel parent closed s u = true <-> live_below parent closed s u).
  Proof.
    intros parent closed s P. induction fuel as [|f IH]; intros u Lu; simpl.
    - assert (u = 0) by lia. subst. rewrite orb_false_r. rewrite Nat.eqb_eq. split.
      + intros ->. constructor.
      + intros B. apply below_le in B; [lia|exact P].
    - rewrite orb_true_iff, andb_true_iff, negb_true_iff, Nat.eqb_eq. split.
      + intros [->|(C & R)]; [constructor|]. destruct (parent u) as [p|] eqn:E; [|discriminate].
        pose proof (P _ _ E). apply IH in R; [|lia]. eapply below_child; eauto.
      + intros B. inversion B as [|u' p E C B']; subst; [auto|]. right. split; [exact C|].
        rewrite E. pose proof (P _ _ E). apply IH; [lia|exact B'].
  Qed.

  Definition step' h o := fst (step grow beh h o).

  Lemma inv_ext : forall h h', same_tree h h' -> Inv h -> Inv h'.
  Proof.
    intros h h' (N & T) (I0 & I1 & I2 & I3).
    split; [|split; [|split]].
    - intros u L. destruct (T u) as (_ & E1 & E2). rewrite E1, E2. apply I0. lia.
    - intros u p E. destruct (T u) as (_ & E1 & _). rewrite E1 in E. eauto.
    - intros p c H. destruct (T p) as (E & _). rewrite E in H.
      destruct (T c) as (_ & E1 & E2). rewrite N, E1, E2. auto.
    - intros c p E F. destruct (T c) as (_ & E1 & E2). rewrite E1 in E. rewrite E2 in F.
      destruct (T p) as (Ec & _). rewrite Ec. auto.
  Qed.

  Lemma inv_new : forall h r, Inv h ->
    Inv (new_scope h r) /\
    (forall u, par (new_scope h r) u = upd (par h) (h_next h) None u) /\
    (forall u, dead (new_scope h r) u = upd (dead h) (h_next h) false u).
  Proof.
    intros h r (I0 & I1 & I2 & I3).
    assert (P : forall u, par (new_scope h r) u = upd (par h) (h_next h) None u).
    { intros u. unfold par, new_scope. simpl. unfold upd. destruct (Nat.eqb u (h_next h)); reflexivity. }
    assert (Dd : forall u, dead (new_scope h r) u = upd (dead h) (h_next h) false u).
    { intros u. unfold dead, new_scope. simpl. unfold upd. destruct (Nat.eqb u (h_next h)); reflexivity. }
    assert (C : forall p c, In (Some c) (s_children (h_sc (new_scope h r) p)) ->
                In (Some c) (s_children (h_sc h p)) /\ p <> h_next h).
    { intros p c. unfold new_scope. simpl. unfold upd. destruct (Nat.eqb_spec p (h_next h)); simpl; tauto. }
    split; [|auto]. split; [|split; [|split]].
    - intros u L. simpl in L. rewrite P, Dd, !upd_other by lia. apply I0. lia.
    - intros u p E. rewrite P in E. unfold upd in E. destruct (Nat.eqb u (h_next h)); [discriminate|]. eauto.
    - intros p c H. apply C in H. destruct H as (H & _). apply I2 in H. destruct H as (L & E & F).
      rewrite P, Dd, !upd_other by lia. simpl. repeat split; auto.
    - intros c p E F. rewrite P in E. rewrite Dd in F. unfold upd in E, F.
      destruct (Nat.eqb_spec c (h_next h)) as [->|N]; [discriminate|].
      pose proof (I3 c p E F) as H. destruct (I2 _ _ H) as (L & _). apply I1 in E.
      unfold new_scope. simpl. rewrite upd_other by lia. exact H.
  Qed.

  Lemma filter_live_in : forall c l, In (Some c) (filter is_live l) <-> In (Some c) l.
  Proof. intros. rewrite filter_In. simpl. tauto. Qed.

  Lemma inv_copy : forall h s, Inv h -> s < h_next h ->
    Inv (copy_scope h s) /\
    (forall u, par (copy_scope h s) u = upd (par h) (h_next h) (Some s) u) /\
    (forall u, dead (copy_scope h s) u = upd (dead h) (h_next h) false u).
  Proof.
    intros h s (I0 & I1 & I2 & I3) L. unfold copy_scope.
    destruct (Nat.ltb_spec s (h_next h)); [|lia].
    set (cs := if Nat.ltb 10 (s_garbage (h_sc h s)) then filter is_live (s_children (h_sc h s)) else s_children (h_sc h s)).
    assert (CS : forall c, In (Some c) cs <-> In (Some c) (s_children (h_sc h s))).
    { intros c. unfold cs. destruct (Nat.ltb 10 (s_garbage (h_sc h s))); [apply filter_live_in|tauto]. }
    set (h' := {| h_next := _; h_sc := _; h_anext := _; h_ar := _ |}).
    assert (P : forall u, par h' u = upd (par h) (h_next h) (Some s) u).
    { intros u. unfold par, h'. simpl. unfold upd. destruct (Nat.eqb u (h_next h)); [reflexivity|].
      destruct (Nat.eqb_spec u s); subst; reflexivity. }
    assert (Dd : forall u, dead h' u = upd (dead h) (h_next h) false u).
    { intros u. unfold dead, h'. simpl. unfold upd. destruct (Nat.eqb u (h_next h)); [reflexivity|].
      destruct (Nat.eqb_spec u s); subst; reflexivity. }
    assert (C : forall p c, p <> h_next h -> (In (Some c) (s_children (h_sc h' p)) <->
                In (Some c) (s_children (h_sc h p)) \/ (p = s /\ c = h_next h))).
    { intros p c N. unfold h'. simpl. rewrite upd_other by exact N. unfold upd.
      destruct (Nat.eqb_spec p s) as [->|N']; simpl.
      - rewrite in_app_iff, CS. simpl. split.
        + intros [H0|[H0|[]]]; auto. right. split; [auto|congruence].
        + intros [H0|(_ & ->)]; auto.
      - split; [tauto|]. intros [H0|(-> & _)]; [auto|contradiction]. }
    split; [|auto]. split; [|split; [|split]].
    - intros u Lu. simpl in Lu. rewrite P, Dd, !upd_other by lia. apply I0. lia.
    - intros u p E. rewrite P in E. unfold upd in E.
      destruct (Nat.eqb_spec u (h_next h)); [injection E as <-; lia|]. eauto.
    - intros p c Hc. destruct (Nat.eq_dec p (h_next h)) as [->|N].
      + unfold h' in Hc. simpl in Hc. rewrite upd_same in Hc. destruct Hc.
      + apply C in Hc; [|exact N]. rewrite P, Dd. simpl. destruct Hc as [Hc|(-> & ->)].
        * apply I2 in Hc. destruct Hc as (Lc & E & F). rewrite !upd_other by lia. repeat split; auto.
        * rewrite !upd_same. repeat split; lia.
    - intros c p E F. rewrite P in E. rewrite Dd in F. unfold upd in E, F.
      destruct (Nat.eqb_spec c (h_next h)) as [->|N].
      + injection E as <-. apply C; [lia|]. auto.
      + pose proof (I3 c p E F) as Hc. destruct (I2 _ _ Hc) as (Lc & _). apply I1 in E.
        apply C; [lia|auto].
  Qed.

  Lemma tree_append : forall h s r, same_tree h (append_vars grow h s r).
  Proof.
    intros. unfold append_vars. destruct (Nat.ltb s (h_next h)); [|apply tree_refl].
    destruct (Nat.ltb _ _); (split; [reflexivity|]; intros u; unfold par, dead; simpl; unfold upd;
      destruct (Nat.eqb_spec u s); subst; auto).
  Qed.

  Lemma append_destr : forall h s r u, s_destr (h_sc (append_vars grow h s r) u) = s_destr (h_sc h u).
  Proof.
    intros. unfold append_vars. destruct (Nat.ltb s (h_next h)); [|reflexivity].
    destruct (Nat.ltb _ _); simpl; unfold upd; destruct (Nat.eqb_spec u s); subst; auto.
  Qed.

  (** The tree of scopes follows the history, whatever the destructors do. *)
  Lemma run_life : forall ops : list op,
    Inv (run ops) /\ h_next (run ops) = l_n (life_of (rev ops)) /\
    (forall u, par (run ops) u = l_parent (life_of (rev ops)) u) /\
    (forall u, dead (run ops) u = l_closed (life_of (rev ops)) u).
  Proof.
    induction ops as [|o ops (I & N & P & Dd)] using rev_ind.
    - split; [|auto]. split; [|split; [|split]]; unfold par, dead; simpl; auto.
      + intros; discriminate.
      + intros p c [].
      + intros; discriminate.
    - rewrite run_snoc, rev_app_distr. cbn [rev app life_of fold_right].
      fold (life_of (rev ops)). set (L := life_of (rev ops)) in *.
      destruct o as [r|q|q r|q d|q]; cbn [step fst life_step].
      + destruct (inv_new (run ops) r I) as (J & P' & D'). split; [exact J|].
        split; [simpl; congruence|]. simpl l_parent. simpl l_closed. rewrite <- N. split; intros u.
        * rewrite P'. unfold upd. now rewrite P.
        * rewrite D'. unfold upd. now rewrite Dd.
      + rewrite <- N. destruct (Nat.ltb_spec q (h_next (run ops))) as [Lq|Lq].
        * destruct (inv_copy (run ops) q I Lq) as (J & P' & D'). split; [exact J|].
          simpl l_n. simpl l_parent. simpl l_closed. split; [|split; intros u].
          -- unfold copy_scope. destruct (Nat.ltb_spec q (h_next (run ops))); [reflexivity|lia].
          -- rewrite P'. unfold upd. now rewrite P.
          -- rewrite D'. unfold upd. now rewrite Dd.
        * unfold copy_scope. destruct (Nat.ltb_spec q (h_next (run ops))); [lia|]. auto.
      + pose proof (tree_append (run ops) q r) as T. split; [eapply inv_ext; eauto|].
        destruct T as (N' & T). split; [congruence|]. split; intros u; destruct (T u) as (_ & E1 & E2); congruence.
      + assert (T : same_tree (run ops) (fst (if Nat.ltb q (h_next (run ops))
                      then (fst (add_destructor (run ops) q d), []) else (run ops, @nil (nat * D))))).
        { destruct (Nat.ltb q (h_next (run ops))); [apply tree_add|apply tree_refl]. }
        split; [eapply inv_ext; eauto|]. destruct T as (N' & T).
        assert (E : forall X : life, (if l_closed L q then X else
           {| l_n := l_n X; l_parent := l_parent X; l_closed := l_closed X;
              l_pending := upd (l_pending X) q (l_pending X q ++ [d]) |}) =
           {| l_n := l_n X; l_parent := l_parent X; l_closed := l_closed X;
              l_pending := if l_closed L q then l_pending X else upd (l_pending X) q (l_pending X q ++ [d]) |}).
        { intros [? ? ? ?]. destruct (l_closed L q); reflexivity. }
        rewrite E. simpl l_n. simpl l_parent. simpl l_closed.
        split; [etransitivity; [exact N'|exact N]|].
        split; intros u; destruct (T u) as (_ & E1 & E2); [etransitivity; [exact E1|apply P]|etransitivity; [exact E2|apply Dd]].
      + unfold close. rewrite <- N. destruct (Nat.ltb_spec q (h_next (run ops))) as [Lq|Lq]; [|auto].
        destruct (close_struct (h_next (run ops)) (run ops) q I Lq ltac:(lia)) as (J & N' & P' & D').
        split; [exact J|]. simpl l_n. simpl l_parent. simpl l_closed.
        split; [congruence|]. split; intros u.
        * rewrite P'. apply P.
        * pose proof I as (_ & I1 & _).
          assert (R : reaches u (l_parent L) (l_closed L) q u = true <->
                      live_below (par (run ops)) (dead (run ops)) q u).
          { rewrite reaches_iff; [|intros v p E; rewrite <- P in E; eauto|lia].
            split; apply below_ext; intros; auto. }
          apply eq_true_iff_eq. rewrite (D' u), orb_true_iff, R, Dd. tauto.
  Qed.

  Lemma live_below_model : forall (ops : list op) s u,
    live_below (l_parent (life_of (rev ops))) (l_closed (life_of (rev ops))) s u <->
    live_below (par (run ops)) (dead (run ops)) s u.
  Proof.
    intros. destruct (run_life ops) as (_ & _ & P & Dd).
    split; apply below_ext; intros; auto.
  Qed.

  (** ** C30 *)

  (** A child made by Copy and not closed since is closed by its parent's
      Close, and all its waiting destructors run. *)
  Theorem C30_close_reaches_live_children : forall (ops : list op) s c,
    let L := life_of (rev ops) in
    l_parent L c = Some s -> l_closed L c = false ->
    s_destroyed (h_sc (run (ops ++ [OClose s])) c) = true /\
    forall d, In d (s_destr (h_sc (run ops) c)) -> In (c, d) (snd (close beh (run ops) s)).
  Proof.
    intros ops s c L Pc Dc.
    destruct (run_life ops) as (I & N & P & Dd).
    destruct (run_life (ops ++ [OClose s])) as (_ & _ & _ & D2).
    assert (Ls : s < h_next (run ops)).
    { pose proof I as (_ & I1 & I2 & I3). unfold L in *. rewrite <- P in Pc. rewrite <- Dd in Dc.
      pose proof (I3 _ _ Pc Dc) as H. apply I2 in H. apply I1 in Pc. lia. }
    assert (B : live_below (par (run ops)) (dead (run ops)) s c).
    { eapply below_child; [rewrite P; exact Pc|rewrite Dd; exact Dc|constructor]. }
    assert (Cl : close beh (run ops) s = close_scope beh (h_next (run ops)) (run ops) s).
    { unfold close. destruct (Nat.ltb_spec s (h_next (run ops))); [reflexivity|lia]. }
    split.
    - rewrite run_snoc. cbn [step]. rewrite Cl.
      destruct (close_struct (h_next (run ops)) (run ops) s I Ls ltac:(lia)) as (_ & _ & _ & D').
      apply D'. auto.
    - intros d Id. rewrite Cl.
      destruct (close_runs (h_next (run ops)) (run ops) s I Ls ltac:(lia)) as (_ & R). auto.
  Qed.

  (** Every live descendant is closed, and nothing else. *)
  Theorem C30_close_exactly_live_descendants : forall (ops : list op) s u,
    let L := life_of (rev ops) in
    s < l_n L ->
    (s_destroyed (h_sc (run (ops ++ [OClose s])) u) = true <->
     s_destroyed (h_sc (run ops) u) = true \/ live_below (l_parent L) (l_closed L) s u).
  Proof.
    intros ops s u L Ls. destruct (run_life ops) as (I & N & P & Dd).
    rewrite run_snoc. cbn [step]. unfold close, L. rewrite live_below_model. unfold L in Ls. rewrite <- N in Ls.
    destruct (Nat.ltb_spec s (h_next (run ops))); [|lia].
    destruct (close_struct (h_next (run ops)) (run ops) s I Ls ltac:(lia)) as (_ & _ & _ & D'). apply D'.
  Qed.

  (** ** C28 *)

  (** Whatever destructors do when run (they may register others), every one
      waiting on the scope or a live descendant is run by Close. *)
  Theorem C28_close_runs_all_waiting : forall (ops : list op) s u d,
    let L := life_of (rev ops) in
    s < l_n L -> live_below (l_parent L) (l_closed L) s u ->
    In d (s_destr (h_sc (run ops) u)) -> In (u, d) (snd (close beh (run ops) s)).
  Proof.
    intros ops s u d L Ls B I. destruct (run_life ops) as (Iv & N & P & Dd).
    unfold L in *. rewrite live_below_model in B. rewrite <- N in Ls.
    unfold close. destruct (Nat.ltb_spec s (h_next (run ops))); [|lia].
    destruct (close_runs (h_next (run ops)) (run ops) s Iv Ls ltac:(lia)) as (_ & R). auto.
  Qed.

  Hypothesis plain_destructors : plain.

  Lemma run_pending : forall (ops : list op) u,
    s_destr (h_sc (run ops) u) = l_pending (life_of (rev ops)) u.
  Proof.
    induction ops as [|o ops IH] using rev_ind; intros u; [reflexivity|].
    destruct (run_life ops) as (I & N & P & Dd).
    rewrite run_snoc, rev_app_distr. cbn [rev app life_of fold_right].
    fold (life_of (rev ops)). set (L := life_of (rev ops)) in *.
    assert (New : forall v, h_next (run ops) <= v -> l_pending L v = [] ).
    { clear - N. subst L. revert N. generalize (run ops). intros h ->. clear h.
      induction (rev ops) as [|o p IHp]; intros v Lv; [reflexivity|].
      cbn [life_of fold_right] in *. fold (life_of p) in *.
      destruct o as [r|q|q r|q d|q]; cbn [life_step] in *.
      - apply IHp. simpl in Lv. lia.
      - destruct (Nat.ltb q (l_n (life_of p))); [|auto]. apply IHp. simpl in Lv. lia.
      - auto.
      - destruct (l_closed (life_of p) q) eqn:E; [auto|]. simpl in *. unfold upd.
        destruct (Nat.eqb_spec v q) as [->|Nq]; [|auto].
        exfalso. clear - E Lv. revert q E Lv. induction p as [|o p IHp]; intros q E Lv; [discriminate|].
        cbn [life_of fold_right] in *. fold (life_of p) in *.
        destruct o as [r|q'|q' r|q' d|q']; cbn [life_step] in *.
        + simpl in *. rewrite upd_other in E by lia. apply (IHp q); auto. lia.
        + destruct (Nat.ltb q' (l_n (life_of p))); simpl in *; [rewrite upd_other in E by lia|]; apply (IHp q); auto; lia.
        + eauto.
        + destruct (l_closed (life_of p) q'); simpl in *; eauto.
        + destruct (Nat.ltb q' (l_n (life_of p))); simpl in *; [|eauto].
          apply orb_false_iff in E. destruct E. eauto.
      - destruct (Nat.ltb q (l_n (life_of p))); simpl in *; [|auto].
        destruct (reaches v _ _ q v); auto. }
    destruct o as [r|q|q r|q d|q]; cbn [step fst life_step].
    - simpl. unfold upd. destruct (Nat.eqb_spec u (h_next (run ops))); [|apply IH].
      subst u. simpl. symmetry. apply New. lia.
    - rewrite <- N. unfold copy_scope. destruct (Nat.ltb_spec q (h_next (run ops))); [|apply IH].
      simpl. unfold upd. destruct (Nat.eqb_spec u (h_next (run ops))).
      + subst u. simpl. symmetry. apply New. lia.
      + destruct (Nat.eqb_spec u q); subst; simpl; apply IH.
    - rewrite append_destr. apply IH.
    - rewrite <- Dd. unfold dead, add_destructor.
      destruct (Nat.ltb_spec q (h_next (run ops))) as [Lq|Lq].
      + destruct (s_destroyed (h_sc (run ops) q)); [apply IH|].
        simpl. unfold upd. destruct (Nat.eqb_spec u q); subst; simpl; rewrite ?IH; reflexivity.
      + destruct I as (I0 & _). destruct (I0 q Lq) as (_ & E). unfold dead in E. rewrite E. apply IH.
    - unfold close. rewrite <- N. destruct (Nat.ltb_spec q (h_next (run ops))) as [Lq|Lq]; [|apply IH].
      destruct (close_plain plain_destructors (h_next (run ops)) (run ops) q I Lq ltac:(lia)) as (A & _).
      simpl l_pending. destruct (A u) as (X & Y).
      assert (R : reaches u (l_parent L) (l_closed L) q u = true <->
                      live_below (par (run ops)) (dead (run ops)) q u).
      { pose proof I as (_ & I1 & _). rewrite reaches_iff; [|intros v p E; rewrite <- P in E; eauto|lia].
        split; apply below_ext; intros; auto. }
      destruct (reaches u (l_parent L) (l_closed L) q u).
      + apply X. now apply R.
      + rewrite Y; [apply IH|]. intros B. apply R in B. discriminate.
  Qed.

  (** Close runs, for every live descendant and for the scope itself, the
      waiting destructors once each and last first; nothing of any other
      scope; and everything of a scope before anything of its ancestors. *)
  Theorem C28_close_runs_exactly_once : forall (ops : list op) s,
    let L := life_of (rev ops) in
    let t := snd (close beh (run ops) s) in
    s < l_n L ->
    (forall u, live_below (l_parent L) (l_closed L) s u ->
       events u t = map (pair u) (rev (l_pending L u))) /\
    (forall u, ~ live_below (l_parent L) (l_closed L) s u -> events u t = []) /\
    (forall u v, live_below (l_parent L) (l_closed L) s v ->
       live_below (l_parent L) (l_closed L) v u -> u <> v -> before t u v).
  Proof.
    intros ops s L t Ls. destruct (run_life ops) as (I & N & P & Dd).
    unfold L in Ls. rewrite <- N in Ls.
    assert (Cl : close beh (run ops) s = close_scope beh (h_next (run ops)) (run ops) s).
    { unfold close. destruct (Nat.ltb_spec s (h_next (run ops))); [reflexivity|lia]. }
    unfold t, L. rewrite Cl.
    destruct (close_plain plain_destructors (h_next (run ops)) (run ops) s I Ls ltac:(lia)) as (_ & A1 & A2).
    split; [|split].
    - intros u B. rewrite live_below_model in B. rewrite <- run_pending. now apply A1.
    - intros u B. rewrite live_below_model in B. now apply A1.
    - intros u v Bv Bu N'. rewrite live_below_model in Bv, Bu. now apply A2.
  Qed.

  Lemma no_events : forall t, (forall u, events u t = []) -> t = [].
  Proof.
    intros [|[u d] t] H; [reflexivity|]. specialize (H u). unfold events in H. simpl in H.
    rewrite Nat.eqb_refl in H. discriminate.
  Qed.

  Theorem C28_closing_again_runs_nothing : forall (ops : list op) s,
    snd (close beh (run (ops ++ [OClose s])) s) = [].
  Proof.
    intros ops s. destruct (Nat.lt_ge_cases s (l_n (life_of (rev ops)))) as [L|L].
    - destruct (C28_close_runs_exactly_once (ops ++ [OClose s]) s) as (A & B & _).
      { rewrite rev_app_distr. simpl. destruct (Nat.ltb s (l_n (life_of (rev ops)))); exact L. }
      apply no_events. intros u.
      destruct (run_life (ops ++ [OClose s])) as (I & N & P & Dd). pose proof I as (_ & I1 & _).
      destruct (below_dec (par (run (ops ++ [OClose s]))) (dead (run (ops ++ [OClose s]))) s I1 u) as [X|X].
      + rewrite A by now apply live_below_model.
        assert (Y : l_pending (life_of (rev (ops ++ [OClose s]))) u = []); [|now rewrite Y].
        apply live_below_model in X.
        assert (u = s).
        { inversion X as [|u' p E C X']; subst; [reflexivity|]. exfalso. clear - grow beh plain_destructors X E C L.
          rewrite rev_app_distr in *. cbn [rev app life_of fold_right] in *. fold (life_of (rev ops)) in *.
          cbn [life_step] in *. destruct (Nat.ltb_spec s (l_n (life_of (rev ops)))); [|lia].
          simpl in *. apply orb_false_iff in C. destruct C as (C1 & C2).
          destruct (run_life ops) as (I & _ & P & _). destruct I as (_ & I1 & _).
          assert (M : forall u p, l_parent (life_of (rev ops)) u = Some p -> p < u)
            by (intros v q Q; rewrite <- P in Q; eauto).
          assert (X' : live_below (l_parent (life_of (rev ops))) (l_closed (life_of (rev ops))) s u).
          { clear - X. induction X; [constructor|]. apply orb_false_iff in H0. destruct H0.
            eapply below_child; eauto. }
          apply (reaches_iff _ _ _ M u u) in X'; [|lia]. congruence. }
        subst u. rewrite rev_app_distr. simpl. destruct (Nat.ltb_spec s (l_n (life_of (rev ops)))); [|lia].
        simpl. destruct s; simpl; rewrite ?Nat.eqb_refl; reflexivity.
      + apply B. intros Y. apply X. now apply live_below_model.
    - destruct (run_life (ops ++ [OClose s])) as (_ & N & _).
      unfold close. destruct (Nat.ltb_spec s (h_next (run (ops ++ [OClose s])))) as [L'|]; [|reflexivity].
      rewrite N, rev_app_distr in L'. simpl in L'.
      destruct (Nat.ltb_spec s (l_n (life_of (rev ops)))); simpl in *; lia.
  Qed.

  (** Over a whole history: what has run, with what is still waiting, is
      exactly what was accepted. *)
  Fixpoint history_trace h (ops : list op) : trace :=
    match ops with
    | [] => []
    | o :: r => snd (step grow beh h o) ++ history_trace (fst (step grow beh h o)) r
    end.

  Fixpoint accepted (past : list op) (u : nat) : list D :=
    match past with
    | [] => []
    | OAddDestr s d :: p =>
        if negb (l_closed (life_of p) s) && Nat.eqb u s then accepted p u ++ [d] else accepted p u
    | _ :: p => accepted p u
    end.

  Lemma history_trace_snoc : forall (ops : list op) o,
    history_trace empty_heap (ops ++ [o]) =
    history_trace empty_heap ops ++ snd (step grow beh (run ops) o).
  Proof.
    intros ops o. unfold Scope.run. generalize (@empty_heap row D) as h.
    induction ops as [|o' ops IH]; intros h; simpl; [now rewrite app_nil_r|].
    now rewrite IH, app_assoc.
  Qed.

  Theorem C28_each_accepted_destructor_once : forall (ops : list op) u,
    Permutation (map snd (events u (history_trace empty_heap ops)) ++ l_pending (life_of (rev ops)) u)
                (accepted (rev ops) u).
  Proof.
    induction ops as [|o ops IH] using rev_ind; intros u; [constructor|].
    rewrite history_trace_snoc, rev_app_distr, events_app, map_app. cbn [rev app life_of fold_right accepted].
    fold (life_of (rev ops)). specialize (IH u).
    destruct (run_life ops) as (I & N & P & Dd).
    destruct o as [r|q|q r|q d|q]; cbn [step snd life_step accepted].
    - simpl. now rewrite app_nil_r.
    - simpl. rewrite app_nil_r. destruct (Nat.ltb q (l_n (life_of (rev ops)))); exact IH.
    - simpl. now rewrite app_nil_r.
    - replace (snd (if Nat.ltb q (h_next (run ops)) then _ else _)) with (@nil (nat * D))
        by (destruct (Nat.ltb q (h_next (run ops))); reflexivity).
      simpl. rewrite app_nil_r. destruct (l_closed (life_of (rev ops)) q) eqn:E; simpl; [exact IH|].
      unfold upd. destruct (Nat.eqb_spec u q); [|exact IH]. subst. rewrite app_assoc.
      apply Permutation_app_tail. exact IH.
    - rewrite <- N. destruct (Nat.ltb_spec q (h_next (run ops))) as [Lq|Lq].
      + destruct (C28_close_runs_exactly_once ops q ltac:(lia)) as (A & B & _). simpl l_pending.
        assert (M : forall u p, l_parent (life_of (rev ops)) u = Some p -> p < u)
            by (intros v w Q; rewrite <- P in Q; destruct I as (_ & I1 & _); eauto).
        destruct (reaches u (l_parent (life_of (rev ops))) (l_closed (life_of (rev ops))) q u) eqn:R.
        * apply (reaches_iff _ _ _ M u u) in R; [|lia]. rewrite (A u R), map_map. simpl.
          rewrite map_id, app_nil_r. etransitivity; [|exact IH]. apply Permutation_app_head.
          symmetry. apply Permutation_rev.
        * rewrite B; [simpl; now rewrite app_nil_r|]. intros Z.
          apply (reaches_iff _ _ _ M u u) in Z; [|lia]. congruence.
      + unfold close. destruct (Nat.ltb_spec q (h_next (run ops))); [lia|]. simpl. now rewrite app_nil_r.
  Qed.
End Props.

(** ** Concrete cases *)

(** A root (0) with a child (1) and a grandchild (2); the child gets a row
    after the grandchild is made; the grandchild is closed, then the root. *)
Definition ex_ops : list (op nat nat) :=
  [ONew 1; OCopy 0; OAppend 1 2; OCopy 1; OAppend 1 3; OAppend 2 4; OAppend 0 5;
   OAddDestr 0 10; OAddDestr 1 11; OAddDestr 1 12; OAddDestr 2 13; OCopy 1; OAddDestr 3 14].
Definition ex_run := run (fun n => 2 * n) (fun _ : nat => []) ex_ops.

Example C26_example :
  (vars ex_run 0, vars ex_run 1, vars ex_run 2, vars ex_run 3) = ([1; 5], [1; 2; 3], [1; 2; 4], [1; 2; 3]).
Proof. vm_compute. reflexivity. Qed.

(** Rows are dictionaries; the name is the odd numbers' , 4 offers a default. *)
Example C27_example :
  let look n := if Nat.odd n then (Some n, true) else if Nat.eqb n 4 then (Some 40, false) else (None, false) in
  (resolve look 0 ex_run 0, resolve look 0 ex_run 2) = (Some 5, Some 1) /\
  copies (rev ex_ops) 2 = 2.
Proof. vm_compute. auto. Qed.

Example C28_example :
  snd (close (fun _ : nat => []) ex_run 0) = [(2, 13); (3, 14); (1, 12); (1, 11); (0, 10)].
Proof. vm_compute. reflexivity. Qed.

Example C28_example_live :
  live_below (l_parent (life_of (rev ex_ops))) (l_closed (life_of (rev ex_ops))) 0 3 /\
  @plain nat (fun _ => []).
Proof.
  split; [|intros d; reflexivity].
  eapply below_child; [reflexivity|reflexivity|].
  eapply below_child; [reflexivity|reflexivity|]. constructor.
Qed.

(** Thirteen children closed one by one, so that the list of children is
    compacted, and one left. *)
Definition gc_ops : list (op nat nat) :=
  ONew 1 :: repeat (OCopy 0) 13 ++ map (fun n => OClose n) (seq 1 12) ++ [OAddDestr 13 7; OCopy 0].
Example C30_example :
  let h := run (fun n => n) (fun _ : nat => []) gc_ops in
  s_children (h_sc h 0) = [Some 13; Some 14] /\
  l_parent (life_of (rev gc_ops)) 13 = Some 0 /\ l_closed (life_of (rev gc_ops)) 13 = false /\
  snd (close (fun _ => []) h 0) = [(13, 7)].
Proof. vm_compute. auto. Qed.

Print Assumptions C26_scope_sees_its_history.
Print Assumptions C26_no_leak.
Print Assumptions C26_copy_inherits.
Print Assumptions C26_append_visible.
Print Assumptions C27_resolution.
Print Assumptions C27_stack_limit.
Print Assumptions C28_close_runs_all_waiting.
Print Assumptions C28_close_runs_exactly_once.
Print Assumptions C28_closing_again_runs_nothing.
Print Assumptions C28_each_accepted_destructor_once.
Print Assumptions C30_close_reaches_live_children.
Print Assumptions C30_close_exactly_live_descendants.
