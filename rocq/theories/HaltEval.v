(** The evaluator on the fragment of Halting.v: every evaluation ends. *)

From Coq Require Import ZArith List String Bool Lia PeanoNat.
From Verif Require Import Base BaseProofs F64 Value Protocols Monad Chains Range Flatten ArgParser Syntax
  Eval Runs Para Evolve Halting.
Import ListNotations.
Open Scope nat_scope.
Open Scope list_scope.

Lemma data_dict_set : forall k v d, data v = true -> forallb (fun kv => data (snd kv)) d = true ->
  forallb (fun kv => data (snd kv)) (dict_set k v d) = true.
Proof.
  intros k v d HV HD. unfold dict_set. rewrite forallb_app. cbn. rewrite HV, andb_true_r.
  induction d as [|[k' x] d IH]; [reflexivity|]. cbn in *. apply andb_true_iff in HD as [H1 H2].
  destruct (String.eqb k k'); cbn; rewrite ?H1; auto.
Qed.

Lemma data_assoc : forall k d v, forallb (fun kv => data (snd kv)) d = true -> assoc k d = Some v -> data v = true.
Proof.
  intros k d v. induction d as [|[k' x] d IH]; cbn; intros H A; [discriminate|].
  apply andb_true_iff in H as [H1 H2]. destruct (String.eqb k k'); [injection A as <-; exact H1|auto].
Qed.

Lemma forallb_Forall : forall A (f : A -> bool) l, forallb f l = true <-> Forall (fun x => f x = true) l.
Proof. intros. rewrite forallb_forall, Forall_forall. reflexivity. Qed.

Lemma first2_data : forall (l : list (impl2 val)) a b v,
  (forall i v, In i l -> i a b = Some v -> data v = true) -> first2 l a b = Some v -> data v = true.
Proof.
  intros l a b v. induction l as [|i l IH]; cbn; intros H F; [discriminate|].
  destruct (i a b) as [x|] eqn:EI; [injection F as <-; eapply H; [now left|exact EI]|].
  apply IH; [intros j w Hj; apply H; now right|exact F].
Qed.

Lemma first_assoc_data : forall l a k v p,
  (forall i v p, In i l -> i a k = Some (v, p) -> data v = true) -> first_assoc l a k = Some (v, p) -> data v = true.
Proof.
  intros l a k v p. induction l as [|i l IH]; cbn; intros H F; [discriminate|].
  destruct (i a k) as [[x q]|] eqn:EI; [injection F as <- <-; eapply H; [now left|exact EI]|].
  apply IH; [intros j w r Hj; apply H; now right|exact F].
Qed.

Section HaltEval.
  Variable E : env.
  Variable owner : nat -> string.
  Hypothesis CT : contained E.

  Notation halts := (halts E owner).
  Notation tidy := (tidy E owner).
  Notation later := (later E owner).
  Notation simple := (simple E owner).
  Notation simple_query := (simple_query E owner).
  Notation R := (ev E).

  Hint Resolve later_refl : core.

  (** ** Operators on data *)

  Lemma data_add : forall a b,
    (data a = true \/ exists n, a = VOpaque n) -> (data b = true \/ exists n, b = VOpaque n) ->
    (is_array a = true -> data b = true) -> (is_array b = true -> data a = true) ->
    data (add_disp (p_add (env_protos E)) a b) = true.
  Proof.
    intros a b HA HB AB BA. unfold add_disp.
    destruct (add_switch a b) as [r|] eqn:SW.
    { unfold add_switch in SW.
      destruct a as [| |x|k z|f|f|t|n| |l|d|l|n]; try discriminate; try (injection SW as <-; reflexivity).
      - destruct k; try discriminate; destruct (to_int64 _); try discriminate; unfold int_add in SW;
          destruct (is_intcase b); try (injection SW as <-; reflexivity); destruct (is_floatcase b); try discriminate;
          injection SW as <-; reflexivity.
      - destruct (to_float b); [injection SW as <-; reflexivity|discriminate].
      - destruct b; try discriminate. injection SW as <-. destruct (_ <? _)%Z; reflexivity. }
    destruct (first2 _ a b) as [r|] eqn:F2.
    { eapply first2_data; [|exact F2]. intros i v Hi Hv. apply in_app_or in Hi as [Hi|[<-|[]]].
      - eapply (ct_add E CT); eauto.
      - unfold stored_query_add in Hv. destruct a, b; try discriminate. injection Hv as <-.
        destruct HA as [HA|[? HA]]; [|discriminate]. destruct HB as [HB|[? HB]]; [|discriminate].
        cbn in *. now rewrite forallb_app, HA, HB. }
    destruct (is_array a || is_array b) eqn:AR; [|reflexivity].
    assert (D : data a = true /\ data b = true).
    { apply orb_true_iff in AR as [AR|AR].
      - split; [|auto]. destruct a; try discriminate; destruct HA as [HA|[? HA]]; auto; discriminate.
      - split; [auto|]. destruct b; try discriminate; destruct HB as [HB|[? HB]]; auto; discriminate. }
    destruct D as [DA DB].
    assert (G : forall x, data x = true -> forallb data (convert_to_slice x) = true).
    { intros x Hx. unfold convert_to_slice. destruct x; cbn in *; rewrite ?andb_true_r; auto. }
    cbn. rewrite forallb_app, (G a DA), (G b DB). reflexivity.
  Qed.

  Ltac atoms H :=
    repeat match type of H with
    | Some _ = Some _ => injection H as <-
    | None = Some _ => discriminate H
    | context [match ?x with _ => _ end] => destruct x eqn:?
    end.

  Lemma data_sub : forall a b, data (sub_disp (p_sub (env_protos E)) a b) = true.
  Proof.
    intros a b. unfold sub_disp. destruct (sub_switch a b) as [r|] eqn:SW.
    - unfold sub_switch in SW.
      destruct a; try (injection SW as <-; reflexivity);
      repeat match type of SW with context [to_float b] => destruct (to_float b); [injection SW as <-; reflexivity|] end;
      destruct b; try (injection SW as <-; reflexivity);
      repeat match type of SW with context [to_float ?x] => destruct (to_float x); [injection SW as <-; reflexivity|] end;
      repeat match type of SW with context [to_int64 ?x] => destruct (to_int64 x); [|discriminate] end;
      try discriminate; injection SW as <-; reflexivity.
    - unfold orelse. destruct (first2 _ a b) as [r|] eqn:F2; [|reflexivity].
      eapply first2_data; [|exact F2]. intros. eapply (ct_sub E CT); eauto.
  Qed.

  Lemma data_div : forall a b, data (div_disp (p_div (env_protos E)) a b) = true.
  Proof.
    intros a b. unfold div_disp. destruct (div_switch a b) as [r|] eqn:SW.
    - unfold div_switch in SW.
      destruct a; try (injection SW as <-; reflexivity);
      repeat match type of SW with context [to_float b] => destruct (to_float b); [injection SW as <-; destruct (f_is_zero _); reflexivity|] end;
      destruct b; try (injection SW as <-; reflexivity);
      repeat match type of SW with context [to_float ?x] => destruct (to_float x) end;
      try discriminate; injection SW as <-; try destruct (f_is_zero _); reflexivity.
    - unfold orelse. destruct (first2 _ a b) as [r|] eqn:F2; [|reflexivity].
      eapply first2_data; [|exact F2]. intros. eapply (ct_div E CT); eauto.
  Qed.

  Lemma data_mul : forall a b v, mul_disp (p_mul (env_protos E)) a b = Ok v -> data v = true.
  Proof.
    intros a b v H. unfold mul_disp in H. destruct (mul_switch a b) as [r|] eqn:SW.
    - subst r. unfold mul_switch in SW.
      assert (MS : forall s n w, mul_str s n = Ok w -> data w = true).
      { intros s n w. unfold mul_str. destruct (_ <? _)%Z; [intros K; injection K as <-; reflexivity|].
        destruct (go_repeat s n); cbn; [intros K; injection K as <-; reflexivity|discriminate]. }
      destruct a; try (injection SW as <-; reflexivity);
      repeat match type of SW with
        | context [mul_str ?s _] => destruct (to_int64 b); [injection SW as SW; eapply MS; exact SW|]
        | context [to_float b] => destruct (to_float b); [injection SW as <-; reflexivity|] end;
      destruct b; try (injection SW as <-; reflexivity);
      repeat match type of SW with context [to_float ?x] => destruct (to_float x); [injection SW as <-; reflexivity|] end;
      repeat match type of SW with context [to_int64 ?x] => destruct (to_int64 x); [|discriminate] end;
      try discriminate; injection SW as <-; reflexivity.
    - injection H as <-. unfold orelse. destruct (first2 _ a b) as [r|] eqn:F2; [|reflexivity].
      eapply first2_data; [|exact F2]. intros. eapply (ct_mul E CT); eauto.
  Qed.

  Lemma data_nth : forall l n v, forallb data l = true -> nth_error l n = Some v -> data v = true.
  Proof. intros l n v H N. rewrite forallb_forall in H. apply H. eapply nth_error_In; eauto. Qed.

  Lemma forallb_firstn : forall A (f : A -> bool) l n, forallb f l = true -> forallb f (firstn n l) = true.
  Proof.
    intros A f l. induction l as [|x l IH]; intros [|n] H; cbn in *; auto.
    apply andb_true_iff in H as [H1 H2]. rewrite H1. cbn. auto.
  Qed.
  Lemma forallb_skipn : forall A (f : A -> bool) l n, forallb f l = true -> forallb f (skipn n l) = true.
  Proof.
    intros A f l. induction l as [|x l IH]; intros [|n] H; cbn in *; auto.
    apply andb_true_iff in H as [H1 H2]. auto.
  Qed.

  (** Indexing data gives data. *)
  Lemma data_default_index : forall a i, data a = true -> data (fst (recovered (default_assoc_index a i))) = true.
  Proof.
    intros a i H. unfold default_assoc_index, recovered.
    destruct a; cbn [data] in H; try reflexivity;
      repeat match goal with |- context [if ?b then _ else _] => destruct b end; try reflexivity.
    all: try (destruct (String.get _ _); reflexivity).
    all: try (destruct (nth_error l _) eqn:N; [cbn; eapply data_nth; eauto|reflexivity]).
  Qed.

  Lemma data_default_range : forall a s e, data a = true -> data (fst (recovered (default_assoc_range a s e))) = true.
  Proof.
    intros a s e H. unfold default_assoc_range, recovered.
    destruct a; cbn [data] in H; try reflexivity.
    - destruct (get_ranges _ _ _). destruct (_ <=? _)%Z; reflexivity.
    - destruct (get_ranges _ _ _). destruct (_ <=? _)%Z; [reflexivity|]. cbn. now rewrite skipn_nil, firstn_nil.
    - cbn [arr_elems]. destruct (get_ranges _ _ _). destruct (_ <=? _)%Z; [reflexivity|]. cbn [fst data].
      apply forallb_firstn, forallb_skipn, H.
  Qed.

  Lemma data_assoc_disp : forall impls, (forall i a k v p, In i impls -> i a k = Some (v, p) -> data v = true) ->
    forall a k, data a = true -> data (fst (assoc_disp impls a k)) = true.
  Proof.
    intros impls HI.
    assert (FA : forall a k r, first_assoc impls a k = Some r -> data (fst r) = true).
    { intros a k [v p] H. cbn. eapply first_assoc_data; [|exact H]. intros; eapply HI; eauto. }
    intros a. induction a as [| |b|kk z|f|f|s|n| |l IH|d IH|l IH|n] using val_ind'; intros k H; try reflexivity; try discriminate.
    all: cbn [assoc_disp is_nil].
    all: try (destruct (first_assoc impls _ k) as [r|] eqn:F; [now apply FA in F|];
      destruct k as [b'|s' e']; [destruct (to_int64 b'); [now apply data_default_index|destruct b'; reflexivity]|now apply data_default_range]).
    - (* arrays *)
      assert (G : forall oe, oe = (fix on_elems (l : list val) : list val :=
          match l with [] => [] | x :: r => let (v, pres) := assoc_disp impls x k in
            if pres then v :: on_elems r else on_elems r end) -> forallb data (oe l) = true).
      { intros oe ->. cbn in H. induction IH as [|x l Hx _ IHl]; [reflexivity|]. cbn in H. apply andb_true_iff in H as [H1 H2].
        specialize (Hx k H1). destruct (assoc_disp impls x k) as [v pres]. cbn in Hx.
        destruct pres; [cbn; rewrite Hx|]; apply IHl; exact H2. }
      specialize (G _ eq_refl).
      destruct (first_assoc impls (VArr l) k) as [r|] eqn:F.
      { apply FA in F. destruct k as [[]|]; exact F. }
      destruct k as [b'|s' e']; [|now apply data_default_range].
      destruct (to_int64 b') eqn:TI; [destruct b'; now apply data_default_index|].
      destruct b'; try reflexivity. set (oe := fix on_elems (l : list val) : list val := _) in *. cbn [fst].
      destruct (oe l); [reflexivity|exact G].
    - (* dictionaries *)
      destruct k as [b'|s' e'].
      + destruct b' as [| |b'|kk z|f|f|s'|n| |l'|d'|l'|n].
        7:{ destruct (assoc s' d) as [v|] eqn:AS; [|reflexivity]. cbn [fst]. destruct (is_nil v); [reflexivity|].
            eapply data_assoc; eauto. }
        all: destruct (first_assoc impls (VDict d) _) as [r|] eqn:F; [now apply FA in F|];
          cbn [to_int64]; try (match goal with |- context [match ?x with Some _ => _ | None => _ end] => destruct x end); reflexivity.
      + destruct (first_assoc impls (VDict d) _) as [r|] eqn:F; [now apply FA in F|reflexivity].
    - (* materialised queries *)
      assert (G : forall oe, oe = (fix on_rows (l : list val) : list val :=
          match l with [] => [] | x :: r => let (v, pres) := assoc_disp impls x k in
            (if pres then v else VNull) :: on_rows r end) -> forallb data (oe l) = true).
      { intros oe ->. cbn in H. induction IH as [|x l Hx _ IHl]; [reflexivity|]. cbn in H. apply andb_true_iff in H as [H1 H2].
        specialize (Hx k H1). destruct (assoc_disp impls x k) as [v pres]. cbn in Hx.
        destruct pres; cbn; rewrite ?Hx; apply IHl; exact H2. }
      specialize (G _ eq_refl).
      assert (K : forall kk, (forall s, kk <> KVal (VStr s)) -> data (fst (match first_assoc impls (VQuery l) kk with
        | Some r => r | None => match first_assoc impls (VArr l) kk with Some r => r | None =>
            match kk with KRange s e => recovered (default_assoc_range (VArr l) s e)
            | KVal b => match to_int64 b with Some idx => recovered (default_assoc_index (VArr l) idx)
               | None => (VNull, false) end end end end)) = true).
      { intros kk NS. destruct (first_assoc impls (VQuery l) kk) as [r|] eqn:F; [now apply FA in F|].
        destruct (first_assoc impls (VArr l) kk) as [r|] eqn:F'; [now apply FA in F'|].
        destruct kk as [b|]; [destruct (to_int64 b); [now apply data_default_index|reflexivity]|now apply data_default_range]. }
      destruct k as [b'|s' e'].
      + destruct b' as [| |b'|kk z|f|f|s'|n| |l'|d'|l'|n]; try exact G;
        match goal with |- context [KVal ?b] => specialize (K (KVal b) ltac:(congruence)) end;
        destruct (first_assoc impls (VQuery l) _); auto; destruct (first_assoc impls (VArr l) _); auto;
        destruct (to_int64 _); auto.
      + exact (K (KRange s' e') ltac:(congruence)).
  Qed.

  (** ** Values, frames and scopes of the fragment *)

  Definition rows_data (_ : st) (rows : list val) : Prop := forallb data rows = true.
  Definition val_data (_ : st) (v : val) : Prop := data v = true.
  Definition fst_data (_ : st) (r : val * bool) : Prop := data (fst r) = true.

  (** A query held by reference: a definition, or a call whose evaluation
      ends whenever it is asked for. *)
  Definition query_ok (s : st) (n : nat) : Prop :=
    (exists d, nth_error (heap s) n = Some (OQuery d) /\ qdef_is E owner d) \/
    (exists t sc', nth_error (heap s) n = Some (OCallSite t sc') /\
       forall s' sc, later s s' -> halts (fun i => r_query (R i) sc (VOpaque n)) s' rows_data).

  Definition good (s : st) (v : val) : Prop :=
    data v = true \/ exists n, v = VOpaque n /\ query_ok s n.

  (** What a name may be bound to. *)
  Definition entry (s : st) (v : val) : Prop :=
    good s v \/ exists n d, v = VOpaque n /\ nth_error (heap s) n = Some (OExprDef d) /\ edef_is E owner d.

  Definition row_ok (s : st) (n : nat) : Prop :=
    (exists c g ca, nth_error (heap s) n = Some (ORow c g ca)) /\
    forall s' key, later s s' -> halts (fun i => row_get (R i) n key) s' fst_data.

  Definition frame_ok (s : st) (f : val) : Prop :=
    data f = true \/ (exists d, f = VDict d /\ Forall (fun kv => entry s (snd kv)) d) \/
    (exists n, f = VOpaque n /\ row_ok s n).

  Definition scope_ok (s : st) (sc : scope) : Prop := Forall (frame_ok s) (sc_vars sc).

  (** They stay what they are. *)
  Lemma stays : forall s s' n o, later s s' -> nth_error (heap s) n = Some o ->
    match o with ORow _ _ _ | OLazy _ _ _ => True | _ => nth_error (heap s') n = Some o end.
  Proof.
    intros s s' n o [EV _] H. destruct (evo_heap _ _ EV _ _ H) as (o' & H' & SO).
    inversion SO; subst; auto. match goal with |- match ?x with _ => _ end => destruct x; auto end.
  Qed.

  Lemma query_ok_later : forall s s' n, later s s' -> query_ok s n -> query_ok s' n.
  Proof.
    intros s s' n L [(d & H & Q)|(t & sc' & H & Q)].
    - left. exists d. split; [exact (stays _ _ _ _ L H)|exact Q].
    - right. exists t, sc'. split; [exact (stays _ _ _ _ L H)|]. intros s2 sc L2. apply Q. eapply later_trans; eauto.
  Qed.
  Lemma good_later : forall s s' v, later s s' -> good s v -> good s' v.
  Proof. intros s s' v L [H|(n & -> & H)]; [now left|]. right. exists n. split; [reflexivity|]. eapply query_ok_later; eauto. Qed.
  Lemma entry_later : forall s s' v, later s s' -> entry s v -> entry s' v.
  Proof.
    intros s s' v L [H|(n & d & -> & H & K)]; [left; eapply good_later; eauto|].
    right. exists n, d. split; [reflexivity|]. split; [exact (stays _ _ _ _ L H)|exact K].
  Qed.
  Lemma row_ok_later : forall s s' n, later s s' -> row_ok s n -> row_ok s' n.
  Proof.
    intros s s' n L [(c & g & ca & H) K]. split.
    - destruct L as [EV _]. destruct (evo_heap _ _ EV _ _ H) as (o' & H' & SO). inversion SO; subst; eauto.
    - intros s2 key L2. apply K. eapply later_trans; eauto.
  Qed.
  Lemma frame_ok_later : forall s s' f, later s s' -> frame_ok s f -> frame_ok s' f.
  Proof.
    intros s s' f L [H|[(d & -> & H)|(n & -> & H)]]; [now left|right; left|right; right].
    - exists d. split; [reflexivity|]. eapply Forall_impl; [|exact H]. intros kv. now apply entry_later.
    - exists n. split; [reflexivity|]. eapply row_ok_later; eauto.
  Qed.
  Lemma scope_ok_later : forall s s' sc, later s s' -> scope_ok s sc -> scope_ok s' sc.
  Proof. intros s s' sc L H. eapply Forall_impl; [|exact H]. intros f. now apply frame_ok_later. Qed.

  (** ** One step *)

  Lemma h_expr : forall sc e s Q, halts (fun n => expr_step E (R n) sc e) s Q -> halts (fun n => r_expr (R n) sc e) s Q.
  Proof. intros. eapply h_shift; [|eassumption]. reflexivity. Qed.
  Lemma h_select : forall sc q s Q, halts (fun n => select_step E (R n) n sc q) s Q -> halts (fun n => r_select (R n) sc q) s Q.
  Proof. intros. eapply h_shift; [|eassumption]. reflexivity. Qed.
  Lemma h_query : forall sc q s Q, halts (fun n => query_step (R n) sc q) s Q -> halts (fun n => r_query (R n) sc q) s Q.
  Proof. intros. eapply h_shift; [|eassumption]. reflexivity. Qed.
  Lemma h_assoc : forall sc a k s Q, halts (fun n => assoc_step E (R n) sc a k) s Q -> halts (fun n => r_assoc (R n) sc a k) s Q.
  Proof. intros. eapply h_shift; [|eassumption]. reflexivity. Qed.
  Lemma h_reduce_ws : forall sc a s Q, halts (fun n => reduce_ws_step (R n) sc a) s Q -> halts (fun n => r_reduce_ws (R n) sc a) s Q.
  Proof. intros. eapply h_shift; [|eassumption]. reflexivity. Qed.
  Lemma h_evalsym : forall sc a s Q, halts (fun n => evalsym_step (R n) sc a) s Q -> halts (fun n => r_evalsym (R n) sc a) s Q.
  Proof. intros. eapply h_shift; [|eassumption]. reflexivity. Qed.
  Lemma h_negate : forall sc a s Q, halts (fun n => negate_step (R n) sc a) s Q -> halts (fun n => r_negate (R n) sc a) s Q.
  Proof. intros. eapply h_shift; [|eassumption]. reflexivity. Qed.
  Lemma h_tostring : forall sc a s Q, halts (fun n => tostring_step E (R n) sc a) s Q -> halts (fun n => r_tostring (R n) sc a) s Q.
  Proof. intros. eapply h_shift; [|eassumption]. reflexivity. Qed.

  (** Looking at an object. *)
  Lemma h_obj : forall B v (f : nat -> option obj -> EM B) s Q, tidy s ->
    halts (fun n => f n (match v with VOpaque i => nth_error (heap s) i | _ => None end)) s Q ->
    halts (fun n => mbind (obj_of v) (f n)) s Q.
  Proof. intros B v f s Q TD H. eapply (h_step E owner _ _ (fun _ => obj_of v) f s s _ 0); [reflexivity|auto|exact H]. Qed.

  Definition obj_at (s : st) (v : val) : option obj :=
    match v with VOpaque i => nth_error (heap s) i | _ => None end.

  Lemma data_obj : forall s v, data v = true -> obj_at s v = None.
  Proof. intros s v H. destruct v; try reflexivity. discriminate. Qed.

  Lemma good_not_lazy : forall s v, good s v -> is_lazy (obj_at s v) = false.
  Proof.
    intros s v [H|(n & -> & [(d & H & _)|(t & sc' & H & _)])]; cbn; [now rewrite data_obj|now rewrite H|now rewrite H].
  Qed.

  (** good values do not need to be reduced *)
  Lemma good_reduce : forall s v n, good s v -> r_reduce (R (S n)) v s = (s, RVal v).
  Proof.
    intros s v n [H|(m & -> & [(d & H & _)|(t & sc' & H & _)])]; cbn [ev step r_reduce]; unfold reduce_step, mbind, obj_of, mret.
    - destruct v; try reflexivity. discriminate.
    - now rewrite H.
    - now rewrite H.
  Qed.

  Lemma h_reduced : forall B v (f : nat -> val -> EM B) s Q, tidy s -> good s v ->
    halts (fun n => f n v) s Q -> halts (fun n => mbind (r_reduce (R n) v) (f n)) s Q.
  Proof.
    intros B v f s Q TD G H. eapply (h_step E owner _ _ (fun n => r_reduce (R n) v) f s s v 1); [|auto|exact H].
    intros n Hn. destruct n as [|n]; [lia|]. now apply good_reduce.
  Qed.

  (** ** The levels of the induction *)

  Definition exp_at (sy : bool) (d : nat) : Prop := forall h e sc s,
    d <= sc_depth sc -> scope_ok s sc -> tidy s -> simple sy h e ->
    halts (fun n => r_expr (R n) sc e) s good.
  Definition sel_at (d : nat) : Prop := forall h q sc s,
    d <= sc_depth sc -> scope_ok s sc -> tidy s -> simple_query h q ->
    halts (fun n => r_select (R n) sc q) s rows_data.

  Lemma sel_at_le : forall d d', d <= d' -> sel_at d -> sel_at d'.
  Proof. intros d d' H K h q sc s HD. apply K. lia. Qed.
  Lemma exp_at_le : forall sy d d', d <= d' -> exp_at sy d -> exp_at sy d'.
  Proof. intros sy d d' H K h q sc s HD. apply K. lia. Qed.

  Lemma scope_ok_copy : forall s sc, scope_ok s sc -> scope_ok s (copy sc).
  Proof. auto. Qed.
  Lemma scope_ok_append : forall s sc f, scope_ok s sc -> frame_ok s f -> scope_ok s (append_vars f sc).
  Proof. intros s sc f H F. constructor; auto. Qed.

  (** A query value, held in memory or by reference. *)
  Lemma query_halts : forall sc s v, sel_at (S (sc_depth sc)) -> scope_ok s sc -> tidy s -> good s v ->
    is_query v (obj_at s v) = true -> halts (fun n => r_query (R n) sc v) s rows_data.
  Proof.
    intros sc s v SA SC TD G IQ. destruct G as [D|(n & -> & [(d & H & [(k & Q) _])|(t & sc' & H & Q)])].
    - apply h_query. unfold query_step. apply h_obj; [exact TD|]. destruct v; try discriminate IQ; try discriminate D.
      apply h_ret; [exact TD|exact D].
    - apply h_query. unfold query_step. apply h_obj; [exact TD|]. rewrite H.
      apply (SA k); [cbn; lia|now apply scope_ok_copy|exact TD|exact Q].
    - apply Q. auto.
  Qed.

  Lemma is_query_data : forall s v, data v = true -> is_query v (obj_at s v) = match v with VQuery _ => true | _ => false end.
  Proof. intros s v H. rewrite data_obj by exact H. destruct v; reflexivity. Qed.

  Section Level.
    Variable sc : scope.
    Hypothesis SA : sel_at (S (sc_depth sc)).

    Lemma materialize_halts : forall s v, scope_ok s sc -> tidy s -> good s v ->
      is_query v (obj_at s v) = true -> halts (fun n => materialize (R n) sc v) s val_data.
    Proof.
      intros s v SC TD G IQ. unfold materialize, materialize_rows.
      eapply h_bind; [apply query_halts; auto; eapply sel_at_le; [|exact SA]; cbn; lia|].
      intros s1 rows L HR. apply h_ret; [apply L|exact HR].
    Qed.

    Lemma truth_halts : forall s v, scope_ok s sc -> tidy s -> good s v ->
      halts (fun n => truth E (R n) sc v) s (fun _ _ => True).
    Proof.
      intros s v SC TD G. unfold truth. apply h_reduced; auto. apply h_obj; auto. fold (obj_at s v).
      assert (B : halts (fun n => if is_query v (obj_at s v) then rows <- r_query (R n) (copy sc) v ;;
          mret (match rows with [] => false | _ => true end) else mret (bool_disp (p_bool (env_protos E)) v)) s (fun _ _ => True)).
      { destruct (is_query v (obj_at s v)) eqn:IQ; [|now apply h_ret].
        eapply h_bind; [apply query_halts; auto; eapply sel_at_le; [|exact SA]; cbn; lia|].
        intros s1 rows L _. apply h_ret; [apply L|exact I]. }
      destruct v; try exact B. now apply h_ret.
    Qed.

    Lemma addf_halts : forall s a b, scope_ok s sc -> tidy s -> good s a -> good s b ->
      halts (fun n => addf E (R n) sc a b) s val_data.
    Proof.
      intros s a b SC TD GA GB. unfold addf. do 2 (apply h_reduced; auto). do 2 (apply h_obj; auto).
      fold (obj_at s a) (obj_at s b). unfold val_data.
      assert (OP : forall s v, good s v -> data v = true \/ exists n, v = VOpaque n).
      { intros s0 v [H|(n & -> & _)]; eauto. }
      assert (QO : forall s v, good s v -> data v = false -> is_query v (obj_at s v) = true).
      { intros s0 v [H|(n & -> & [(d & H & _)|(t & sc' & H & _)])] D; [congruence|cbn; now rewrite H|cbn; now rewrite H]. }
      destruct ((is_query a (obj_at s a) && (is_query b (obj_at s b) || is_array b)) || (is_array a && is_query b (obj_at s b))) eqn:C.
      - assert (K : forall s' v, later s s' -> good s v -> halts (fun n => if is_query v (obj_at s v) then materialize (R n) sc v else mret v) s' val_data).
        { intros s' v L G. destruct (is_query v (obj_at s v)) eqn:IQ.
          - apply materialize_halts; [eapply scope_ok_later; eauto|apply L|eapply good_later; eauto|].
            destruct G as [D|(n & -> & Q)].
            + rewrite is_query_data in * by exact D. exact IQ.
            + destruct Q as [(d & H & _)|(t & sc' & H & _)]; cbn; pose proof (stays _ _ _ _ L H) as K; cbn in K; now rewrite K.
          - apply h_ret; [apply L|]. unfold val_data. destruct (data v) eqn:D; [reflexivity|].
            rewrite (QO s v G D) in IQ. discriminate. }
        eapply h_bind; [apply K; auto|]. intros s1 a' L1 D1. cbv beta.
        eapply h_bind; [apply K; auto|]. intros s2 b' L2 D2. apply h_ret; [apply L2|].
        unfold val_data in *. apply data_add; auto.
      - apply h_ret; [exact TD|]. apply orb_false_iff in C as [C1 C2]. apply andb_false_iff in C1, C2.
        apply data_add; eauto.
        + intros AA. destruct (data b) eqn:D; [reflexivity|]. rewrite (QO _ _ GB D) in C2. destruct C2; congruence.
        + intros AB. destruct (data a) eqn:D; [reflexivity|]. rewrite (QO _ _ GA D), AB, orb_true_r in C1. destruct C1; congruence.
    Qed.

    Lemma subf_halts : forall s a b, tidy s -> good s a -> good s b -> halts (fun n => subf E (R n) sc a b) s val_data.
    Proof. intros s a b TD GA GB. unfold subf. do 2 (apply h_reduced; auto). apply h_ret; [exact TD|apply data_sub]. Qed.
    Lemma divf_halts : forall s a b, tidy s -> good s a -> good s b -> halts (fun n => divf E (R n) sc a b) s val_data.
    Proof. intros s a b TD GA GB. unfold divf. do 2 (apply h_reduced; auto). apply h_ret; [exact TD|apply data_div]. Qed.
    Lemma mulf_halts : forall s a b, tidy s -> good s a -> good s b -> halts (fun n => mulf E (R n) sc a b) s val_data.
    Proof.
      intros s a b TD GA GB. unfold mulf. do 2 (apply h_reduced; auto).
      destruct (mul_disp _ a b) as [v|] eqn:M; [|apply h_panic]. apply h_ret; [exact TD|]. eapply data_mul; eauto.
    Qed.
    Lemma cmpf_halts : forall s op a b, tidy s -> good s a -> good s b -> halts (fun n => cmpf E (R n) sc op a b) s val_data.
    Proof. intros s op a b TD GA GB. unfold cmpf. do 2 (apply h_reduced; auto). apply h_ret; [exact TD|reflexivity]. Qed.

    Lemma negate_halts : forall s v, tidy s -> good s v -> halts (fun n => r_negate (R n) sc v) s val_data.
    Proof.
      intros s v TD G. apply h_negate. unfold negate_step. apply h_obj; auto. fold (obj_at s v).
      pose proof (good_not_lazy s v G) as NL.
      destruct G as [D|(n & -> & [(d & H & _)|(t & sc' & H & _)])].
      - rewrite (data_obj s v D) in *. destruct v; try discriminate D; cbn [is_lazy];
          try (apply h_ret; [exact TD|reflexivity]);
          destruct (to_int64 _); (apply h_ret; [exact TD|reflexivity]).
      - cbn [obj_at] in *. rewrite H in *. cbn. apply h_ret; [exact TD|reflexivity].
      - cbn [obj_at] in *. rewrite H in *. cbn. apply h_ret; [exact TD|reflexivity].
    Qed.
  End Level.

  (** ** Associative *)

  Lemma fa_data : forall a k r, first_assoc (p_assoc (env_protos E)) a k = Some r -> data (fst r) = true.
  Proof.
    intros a k [v p] H. cbn. eapply first_assoc_data; [|exact H]. intros i v' p' Hi Hv. eapply (ct_assoc E CT); eauto.
  Qed.
  Lemma ad_data : forall a k, data a = true -> data (fst (assoc_disp (p_assoc (env_protos E)) a k)) = true.
  Proof. intros. apply data_assoc_disp; auto. intros. eapply (ct_assoc E CT); eauto. Qed.

  Lemma assoc_data_halts : forall v, data v = true -> forall sc k s, tidy s ->
    halts (fun n => r_assoc (R n) sc v k) s fst_data.
  Proof.
    intros v. induction v as [| |b|kk z|f|f|str|n| |l IH|d IH|l IH|n] using val_ind'; intros D sc k s TD;
      apply h_assoc; unfold assoc_step; cbn [is_nil]; try discriminate D.
    1,2,9: apply h_ret; [exact TD|reflexivity].
    all: apply h_obj; [exact TD|]; cbv beta iota; destruct (key_string k) as [field|] eqn:KS.
    all: try (unfold assoc_other; cbn [is_query is_lazy];
      destruct (first_assoc (p_assoc (env_protos E)) _ k) as [r|] eqn:FA;
        [apply h_ret; [exact TD|now apply fa_data in FA]|]; rewrite ?KS;
      apply h_ret; [exact TD|apply ad_data; exact D]).
    - (* array, name *)
      cbn [is_query]. unfold assoc_other; cbn [is_query is_lazy].
      destruct (first_assoc (p_assoc (env_protos E)) _ k) as [r|] eqn:FA;
        [apply h_ret; [exact TD|now apply fa_data in FA]|]. rewrite KS.
      eapply h_bind with (P := rows_data).
      + clear FA. cbn in D. revert s TD. induction IH as [|x l Hx _ IHl]; intros s TD; cbn [assoc_elems]; [apply h_ret; [exact TD|reflexivity]|].
        cbn in D. apply andb_true_iff in D as [D1 D2].
        eapply h_bind; [apply (Hx D1); exact TD|]. intros s1 [v pres] L1 H1. cbv beta iota.
        eapply h_bind; [apply (IHl D2); apply L1|]. intros s2 vs L2 H2. apply h_ret; [apply L2|].
        unfold fst_data, rows_data in *. cbn in H1. destruct pres; cbn; rewrite ?H1; auto.
      + intros s1 items L1 H1. apply h_ret; [apply L1|]. unfold fst_data, rows_data in *.
        destruct items; [reflexivity|exact H1].
    - (* dictionary, name *)
      apply h_ret; [exact TD|]. unfold fst_data. apply data_assoc_disp; [intros i ? ? ? ? []|exact D].
    - (* query, name *)
      cbn [is_query].
      eapply (h_step E owner _ _ (fun n => r_query (R n) sc (VQuery l)) _ s s l 1); [intros [|n] Hn; [lia|reflexivity]|auto|].
      cbv beta. eapply h_bind with (P := fun _ => Forall (fun v => data v = true)).
      + cbn in D. eapply (h_mmap E owner _ _ _ (fun x => data x = true /\ forall sc k s, tidy s -> halts (fun n => r_assoc (R n) sc x k) s fst_data)).
        * exact TD.
        * clear - IH D. induction IH as [|x l Hx _ IHl]; [constructor|]. cbn in D. apply andb_true_iff in D as [D1 D2].
          constructor; auto.
        * intros x s1 [_ Hx] L1. eapply h_bind; [apply Hx; apply L1|]. intros s2 [v pres] L2 H2.
          apply h_ret; [apply L2|]. unfold fst_data in H2. cbn in H2. destruct pres; [exact H2|reflexivity].
      + intros s1 fields L1 H1. apply h_ret; [apply L1|]. unfold fst_data. cbn [fst data]. now apply forallb_Forall.
  Qed.

  Section Level2.
    Variable sc : scope.
    Hypothesis SA : sel_at (S (sc_depth sc)).

    Lemma query_index_halts : forall k rows i result s, tidy s -> forallb data rows = true -> forallb data result = true ->
      halts (fun n => query_index (R n) sc rows i k result) s fst_data.
    Proof.
      intros k rows. induction rows as [|row rows IH]; intros i result s TD DR DS; cbn [query_index].
      - apply h_ret; [exact TD|]. unfold fst_data. destruct result; [reflexivity|exact DS].
      - cbn in DR. apply andb_true_iff in DR as [D1 D2].
        assert (K : halts (fun n => '(item, pres) <- r_assoc (R n) sc row k ;;
                  query_index (R n) sc rows (i + 1)%Z k (if pres then result ++ [item] else result)) s fst_data).
        { eapply h_bind; [apply assoc_data_halts; assumption|]. intros s1 [item pres] L1 H1. cbv beta iota.
          apply IH; [apply L1|exact D2|]. unfold fst_data in H1. cbn in H1.
          destruct pres; [rewrite forallb_app, DS; cbn; now rewrite H1|exact DS]. }
        destruct k as [b|]; [|exact K]. destruct (to_int64 b) as [idx|]; [|exact K].
        destruct (Z.eqb i idx); [|exact K]. apply h_ret; [exact TD|exact D1].
    Qed.

    Lemma assoc_good_halts : forall k s v, scope_ok s sc -> tidy s -> good s v ->
      halts (fun n => r_assoc (R n) sc v k) s fst_data.
    Proof.
      intros k s v SC TD G. destruct G as [D|(n & EV & Q)]; [now apply assoc_data_halts|].
      assert (G : good s v) by (right; eauto).
      assert (IQ : is_query v (obj_at s v) = true).
      { subst v. destruct Q as [(d & H & _)|(t & sc' & H & _)]; cbn; now rewrite H. }
      assert (NL : is_lazy (obj_at s v) = false) by (now apply good_not_lazy).
      assert (OA : (exists d, obj_at s v = Some (OQuery d)) \/ (exists t sc', obj_at s v = Some (OCallSite t sc'))).
      { subst v. destruct Q as [(d & H & _)|(t & sc' & H & _)]; cbn; rewrite H; eauto. }
      apply h_assoc. unfold assoc_step. replace (is_nil v) with false by (now rewrite EV). apply h_obj; [exact TD|]. fold (obj_at s v).
      assert (OTHER : halts (fun n => assoc_other E (R n) sc v (obj_at s v) k) s fst_data).
      { unfold assoc_other. destruct (first_assoc (p_assoc (env_protos E)) v k) as [r|] eqn:FA;
          [apply h_ret; [exact TD|now apply fa_data in FA]|].
        replace (match v with VQuery _ => false | _ => is_query v (obj_at s v) end) with true by (subst v; symmetry; exact IQ).
        eapply h_bind; [apply query_halts; auto; eapply sel_at_le; [|exact SA]; cbn; lia|].
        intros s1 rows L1 H1. apply query_index_halts; [apply L1|exact H1|reflexivity]. }
      destruct (key_string k) as [field|]; [|exact OTHER].
      assert (NAME : halts (fun m => if is_query v (obj_at s v) then
                rows <- r_query (R m) sc v ;;
                fields <- mmap (fun row =>
                            '(v, pres) <- r_assoc (R m) sc row (KVal (VStr field)) ;;
                            mret (if pres then v else VNull)) rows ;;
                mret (VArr fields, true)
              else assoc_other E (R m) sc v (obj_at s v) k) s fst_data).
      { rewrite IQ. eapply h_bind; [apply query_halts; auto|]. intros s1 rows L1 H1. cbv beta.
        eapply h_bind with (P := fun _ => Forall (fun v => data v = true)).
        - eapply (h_mmap E owner _ _ _ (fun x => data x = true)); [apply L1|now apply forallb_Forall|].
          intros x s2 Dx L2. eapply h_bind; [apply assoc_data_halts; [exact Dx|apply L2]|].
          intros s3 [w pres] L3 H3. apply h_ret; [apply L3|]. unfold fst_data in H3. destruct pres; [exact H3|reflexivity].
        - intros s2 fields L2 H2. apply h_ret; [apply L2|]. unfold fst_data. cbn. now apply forallb_Forall. }
      destruct OA as [(d & OA)|(t & sc' & OA)]; rewrite OA in *; subst v; exact NAME.
    Qed.

    Hypothesis EX : sc_depth sc < 1000 -> exp_at true (S (sc_depth sc)).

    Lemma assoc_entry_halts : forall field s v, sc_depth sc < 1000 -> scope_ok s sc -> tidy s -> entry s v ->
      halts (fun n => r_assoc (R n) sc v (KVal (VStr field))) s fst_data.
    Proof.
      intros field s v DP SC TD [G|(n & d & -> & H & [(h & B) _])]; [now apply assoc_good_halts|].
      apply h_assoc. unfold assoc_step. cbn [is_nil key_string]. apply h_obj; [exact TD|]. rewrite H. cbn [to_string].
      eapply h_bind; [apply (EX DP h); [cbn; lia|now apply scope_ok_copy|exact TD|exact B]|].
      intros s1 x L1 G1. apply assoc_good_halts; [eapply scope_ok_later; eauto|apply L1|exact G1].
    Qed.

    (** ** Variables *)

    Lemma frame_halts : forall x s f, tidy s -> frame_ok s f ->
      halts (fun n => r_assoc (R n) sc f (KVal (VStr x))) s (fun s1 r => entry s1 (fst r)).
    Proof.
      intros x s f TD [D|[(d & -> & H)|(n & -> & [(c & g & ca & H) K])]].
      - eapply h_conseq; [apply assoc_data_halts; assumption|]. intros s1 r _ Hr. left. left. exact Hr.
      - apply h_assoc. unfold assoc_step. cbn [is_nil key_string to_string]. apply h_obj; [exact TD|]. cbv iota.
        apply h_ret; [exact TD|]. cbn [assoc_disp is_nil]. destruct (assoc x d) as [v|] eqn:A; cbn [fst]; [|left; left; reflexivity].
        destruct (is_nil v); [left; left; reflexivity|].
        rewrite Forall_forall in H. apply assoc_in in A. exact (H _ A).
      - apply h_assoc. unfold assoc_step. cbn [is_nil key_string to_string]. apply h_obj; [exact TD|]. rewrite H.
        eapply h_conseq; [apply K; auto|]. intros s1 r _ Hr. left. left. exact Hr.
    Qed.

    Lemma resolve_frames_halts : forall x frames s df, tidy s -> Forall (frame_ok s) frames -> entry s df ->
      halts (fun n => resolve_frames (R n) sc frames x df) s (fun s1 r => entry s1 (fst r)).
    Proof.
      intros x frames. induction frames as [|f frames IH]; intros s df TD FO ED; cbn [resolve_frames].
      - apply h_ret; [exact TD|exact ED].
      - inversion FO as [|? ? FO1 FO2]; subst. eapply h_bind; [apply frame_halts; assumption|]. intros s1 [el pres] L1 H1. cbv beta iota.
        cbn [fst] in H1. destruct pres.
        + apply h_ret; [apply L1|]. cbn [fst]. destruct el; try exact H1. left; left; reflexivity.
        + apply IH; [apply L1| |].
          * eapply Forall_impl; [|eassumption]. intros g. now apply frame_ok_later.
          * destruct df; try exact H1; eapply entry_later; eauto.
    Qed.

    (** A failed look up is not present. *)
    Lemma resolve_halts : forall x s, tidy s -> scope_ok s sc ->
      halts (fun n => resolve (R n) sc x) s (fun s1 r => entry s1 (fst r) /\ (1000 <= sc_depth sc -> snd r = false)).
    Proof.
      intros x s TD SC. unfold resolve, overflow. destruct (Nat.leb 1000 (sc_depth sc)) eqn:OV.
      - apply h_ret; [exact TD|]. split; [left; left|]; reflexivity.
      - apply Nat.leb_gt in OV. eapply h_conseq; [apply resolve_frames_halts; [exact TD|exact SC|left; left; reflexivity]|].
        intros s1 r L1 H1. split; [exact H1|lia].
    Qed.

    Lemma assoc_path_halts : forall path s v, sc_depth sc < 1000 -> tidy s -> scope_ok s sc -> entry s v ->
      halts (fun n => assoc_path (R n) sc v path) s (fun s1 r => entry s1 (fst r)).
    Proof.
      intros path. induction path as [|c path IH]; intros s v DP TD SC EV; cbn [assoc_path]; [now apply h_ret|].
      eapply h_bind; [apply assoc_entry_halts; eassumption|]. intros s1 [x pres] L1 H1. cbv beta iota.
      destruct pres; [|apply h_ret; [apply L1|left; left; reflexivity]].
      apply IH; [exact DP|apply L1|eapply scope_ok_later; eauto|]. left; left; exact H1.
    Qed.

    Lemma lookup_halts : forall path s, path <> [] -> tidy s -> scope_ok s sc ->
      halts (fun n => lookup_path (R n) sc path) s
        (fun s1 r => entry s1 (fst r) /\ (1000 <= sc_depth sc -> snd r = false)).
    Proof.
      intros [|c path] s NE TD SC; [congruence|]. cbn [lookup_path].
      eapply h_bind; [apply resolve_halts; assumption|]. intros s1 [x pres] L1 [H1 H2]. cbv beta iota. cbn [fst snd] in *.
      destruct pres; [|apply h_ret; [apply L1|split; [left; left|]; reflexivity]].
      assert (DP : sc_depth sc < 1000) by (destruct (Nat.lt_ge_cases (sc_depth sc) 1000) as [|K]; [assumption|specialize (H2 K); discriminate]).
      eapply h_conseq; [apply assoc_path_halts; [exact DP|apply L1|eapply scope_ok_later; eauto|exact H1]|].
      intros s2 r L2 H3. split; [exact H3|lia].
    Qed.
  End Level2.

  (** ** Steps that only touch the state *)

  Definition unused (o : obj) : Prop :=
    match o with ORow _ _ ca => ca = [] | OLazy _ _ c => c = None | _ => True end.

  Lemma later_alloc : forall s o, tidy s -> unused o ->
    later s (set_heap (heap s ++ [o]) s).
  Proof.
    intros s o TD HO. split; [exact (cl_alloc _ grows_closed o s)|]. constructor.
    - intros n c g ca k v H A. cbn [heap set_heap] in H.
      destruct (Nat.lt_ge_cases n (List.length (heap s))) as [L|L].
      + rewrite nth_error_app1 in H by exact L. eapply (td_cache _ _ _ TD); eauto.
      + rewrite nth_error_app2 in H by exact L. destruct (n - List.length (heap s)) as [|m]; cbn in H.
        * injection H as ->. cbn in HO. subst ca. discriminate.
        * destruct m; discriminate.
    - intros n e sc v H. cbn [heap set_heap] in H.
      destruct (Nat.lt_ge_cases n (List.length (heap s))) as [L|L].
      + rewrite nth_error_app1 in H by exact L. eapply (td_lazy _ _ _ TD); eauto.
      + rewrite nth_error_app2 in H by exact L. destruct (n - List.length (heap s)) as [|m]; cbn in H.
        * injection H as ->. discriminate HO.
        * destruct m; discriminate.
    - intros node f id H. eapply (td_funs _ _ _ TD); eauto.
  Qed.

  Lemma later_same : forall s s', evolves s s' -> heap s' = heap s -> node_funs s' = node_funs s -> tidy s -> later s s'.
  Proof.
    intros s s' EV H1 H2 TD. split; [exact EV|]. constructor.
    - rewrite H1. apply (td_cache _ _ _ TD).
    - rewrite H1. apply (td_lazy _ _ _ TD).
    - rewrite H2. apply (td_funs _ _ _ TD).
  Qed.

  Lemma h_alloc : forall B o (f : nat -> val -> EM B) s Q, tidy s -> unused o ->
    (forall s1, later s s1 -> nth_error (heap s1) (List.length (heap s)) = Some o ->
       halts (fun n => f n (VOpaque (List.length (heap s)))) s1 Q) ->
    halts (fun n => mbind (alloc o) (f n)) s Q.
  Proof.
    intros B o f s Q TD HO H. pose proof (later_alloc s o TD HO) as L.
    eapply (h_step E owner _ _ (fun _ => alloc o) f s _ _ 0); [reflexivity|exact L|].
    apply H; [exact L|]. cbn [heap set_heap]. rewrite nth_error_app2, Nat.sub_diag by lia. reflexivity.
  Qed.

  Lemma h_fresh : forall B sc (f : nat -> scope -> EM B) s Q, tidy s ->
    (forall s1 c, later s s1 ->
       halts (fun n => f n {| sc_vars := sc_vars sc; sc_depth := sc_depth sc; sc_cell := c |}) s1 Q) ->
    halts (fun n => mbind (fresh_agg sc) (f n)) s Q.
  Proof.
    intros B sc f s Q TD H.
    pose proof (cl_fresh_agg _ grows_closed sc s) as EV. cbn [fresh_agg fst] in EV.
    eapply (h_step E owner _ _ (fun _ => fresh_agg sc) f s _ _ 0); [reflexivity| |].
    - apply later_same; [exact EV|reflexivity|reflexivity|exact TD].
    - apply H. apply later_same; [exact EV|reflexivity|reflexivity|exact TD].
  Qed.

  Lemma h_split : forall B node neg (f : nat -> bool -> EM B) s Q, tidy s ->
    (forall s1 b, later s s1 -> halts (fun n => f n b) s1 Q) ->
    halts (fun n => mbind (split_symbol node neg) (f n)) s Q.
  Proof.
    intros B node neg f s Q TD H.
    pose proof (cl_split_symbol _ grows_closed node neg s) as EV.
    destruct (existsb (Nat.eqb node) (split_nodes s)) eqn:EX.
    - eapply (h_step E owner _ _ (fun _ => split_symbol node neg) f s s false 0); [|auto|apply H; auto].
      intros. unfold split_symbol. now rewrite EX.
    - unfold split_symbol in EV. rewrite EX in EV. cbn [fst] in EV.
      pose proof (later_same _ _ EV eq_refl eq_refl TD) as L.
      eapply (h_step E owner _ _ (fun _ => split_symbol node neg) f s _ neg 0); [|exact L|apply H; exact L].
      intros. unfold split_symbol. now rewrite EX.
  Qed.

  Lemma h_node : forall B node fn (f : nat -> func * nat * bool -> EM B) s Q, tidy s ->
    assoc (owner node) (env_funs E) = Some fn ->
    (forall s1 id first, later s s1 -> halts (fun n => f n (fn, id, first)) s1 Q) ->
    halts (fun n => mbind (node_function node fn) (f n)) s Q.
  Proof.
    intros B node fn f s Q TD HO H.
    pose proof (cl_node_function _ grows_closed node fn s) as EV. unfold node_function in EV.
    destruct (nassoc node (node_funs s)) as [[f' id]|] eqn:EN.
    - assert (f' = fn) by (pose proof (td_funs _ _ _ TD _ _ _ EN); congruence). subst f'.
      eapply (h_step E owner _ _ (fun _ => node_function node fn) f s s (fn, id, false) 0); [|auto|apply H; auto].
      intros. unfold node_function. now rewrite EN.
    - cbn [fst] in EV.
      assert (L : later s {| heap := heap s; split_nodes := split_nodes s;
            node_funs := nset node (fn, next_id s) (node_funs s);
            cells := cells s; ctxs := ctxs s; next_id := S (next_id s); trace := trace s |}).
      { split; [exact EV|]. constructor; cbn [heap node_funs].
        - apply (td_cache _ _ _ TD).
        - apply (td_lazy _ _ _ TD).
        - intros nd g i. rewrite nassoc_nset. destruct (Nat.eqb nd node) eqn:E2.
          + apply Nat.eqb_eq in E2 as ->. intros K. injection K as <- <-. exact HO.
          + apply (td_funs _ _ _ TD). }
      eapply (h_step E owner _ _ (fun _ => node_function node fn) f s _ (fn, next_id s, true) 0); [|exact L|apply H; exact L].
      intros. unfold node_function. now rewrite EN.
  Qed.

  (** ** Arguments *)

  Definition all_good (s : st) (d : list (string * val)) : Prop := Forall (fun kv => good s (snd kv)) d.
  Lemma all_good_later : forall s s' d, later s s' -> all_good s d -> all_good s' d.
  Proof. intros s s' d L H. eapply Forall_impl; [|exact H]. intros kv. now apply good_later. Qed.
  Lemma Forall_dict_set : forall A (P : A -> Prop) k v d, P v -> Forall (fun kv => P (snd kv)) d ->
    Forall (fun kv => P (snd kv)) (dict_set k v d).
  Proof.
    intros A P k v d HV HD. unfold dict_set. apply Forall_app. split; [|repeat constructor; exact HV].
    induction HD as [|[k' x] d Hx _ IH]; cbn; [constructor|]. destruct (String.eqb k k'); cbn; auto.
  Qed.
  Lemma frame_args : forall s d, all_good s d -> frame_ok s (VDict d).
  Proof. intros s d H. right. left. exists d. split; [reflexivity|]. eapply Forall_impl; [|exact H]. intros kv G. now left. Qed.

  Section Args.
    Variable sc : scope.
    Variable P : expr -> Prop.
    Hypothesis HP : forall e s, P e -> scope_ok s sc -> tidy s -> halts (fun n => r_expr (R n) sc e) s good.

    Lemma arg_halts : forall a s, arg_is P a -> scope_ok s sc -> tidy s -> halts (fun n => arg_eager (R n) sc a) s good.
    Proof.
      intros [e|q|e|] s HA SC TD; cbn [arg_eager arg_is] in *; auto; [contradiction|].
      apply h_ret; [exact TD|left; reflexivity].
    Qed.

    Lemma build_halts : forall params args s, Forall (fun p => arg_is P (snd p)) params -> scope_ok s sc -> tidy s ->
      all_good s args -> halts (fun n => build_args (R n) sc params args) s all_good.
    Proof.
      induction params as [|[name a] params IH]; intros args s HF SC TD GA; cbn [build_args]; [now apply h_ret|].
      inversion HF; subst. eapply h_bind; [apply arg_halts; assumption|]. intros s1 v L1 G1.
      apply IH; [assumption|eapply scope_ok_later; eauto|apply L1|].
      apply Forall_dict_set; [exact G1|eapply all_good_later; eauto].
    Qed.
  End Args.

  Section Defaults.
    Variable sc : scope.
    Hypothesis HD : forall k e s, simple false k e -> scope_ok s sc -> tidy s -> halts (fun n => r_expr (R n) sc e) s good.

    Lemma defaults_halt : forall ds args s, Forall (default_is E owner) ds -> scope_ok s sc -> tidy s ->
      all_good s args -> halts (fun n => apply_defaults (R n) sc ds args) s all_good.
    Proof.
      induction ds as [|[name [written a]] ds IH]; intros args s HF SC TD GA; cbn [apply_defaults]; [now apply h_ret|].
      inversion HF as [|? ? H1 H2]; subst. destruct (assoc name args); [now apply IH|].
      eapply h_bind.
      { apply (arg_halts sc (fun e => exists k, simple false k e)); [|exact H1|exact SC|exact TD].
        intros e s0 (k & Hk). now apply (HD k). }
      intros s1 v L1 G1. apply IH; [assumption|eapply scope_ok_later; eauto|apply L1|].
      apply Forall_dict_set; [exact G1|eapply all_good_later; eauto].
    Qed.
  End Defaults.

  (** ** Lazy arguments *)

  Definition lazy_arg (s : st) (v : val) : Prop :=
    forall s' sc', later s s' -> halts (fun n => r_reduce_ws (R n) sc' v) s' good.
  Lemma lazy_arg_later : forall s s' v, later s s' -> lazy_arg s v -> lazy_arg s' v.
  Proof. intros s s' v L H s2 sc2 L2. apply H. eapply later_trans; eauto. Qed.

  Lemma good_lazy_arg : forall s v, good s v -> lazy_arg s v.
  Proof.
    intros s v G s' sc' L. apply (good_later _ _ _ L) in G. apply h_reduce_ws. unfold reduce_ws_step.
    apply h_obj; [apply L|]. fold (obj_at s' v). pose proof (good_not_lazy s' v G) as NL.
    destruct (obj_at s' v) as [[]|]; try discriminate NL; (apply h_ret; [apply L|exact G]).
  Qed.

  (** An expression that is handed over unevaluated. *)
  Lemma lazy_expr_arg : forall s sc e n c, nth_error (heap s) n = Some (OLazy e sc c) -> scope_ok s sc ->
    (forall s', scope_ok s' sc -> tidy s' -> halts (fun i => r_expr (R i) sc e) s' good) ->
    lazy_arg s (VOpaque n).
  Proof.
    intros s sc e n c H SC HE s' sc' L. apply h_reduce_ws. unfold reduce_ws_step. apply h_obj; [apply L|].
    destruct (evo_heap _ _ (proj1 L) _ _ H) as (o' & H' & SO). rewrite H'.
    assert (exists c', o' = OLazy e sc c') as [c' ->] by (inversion SO; subst; eauto).
    eapply h_bind; [apply HE; [eapply scope_ok_later; eauto|apply L]|]. intros s1 x L1 G1. cbv beta.
    apply h_obj; [apply L1|]. fold (obj_at s1 x).
    assert (K : halts (fun i => if is_lazy (obj_at s1 x) then r_reduce (R i) x else mret x) s1 good).
    { rewrite (good_not_lazy _ _ G1). apply h_ret; [apply L1|exact G1]. }
    destruct x; try exact K. apply h_ret; [apply L1|]. destruct G1 as [D|(? & ? & _)]; [left; exact D|discriminate].
  Qed.


  Lemma h_members : forall B v (f : nat -> list string -> EM B) s Q, tidy s ->
    halts (fun n => f n (members_of (heap s) v)) s Q ->
    halts (fun n => mbind (members v) (f n)) s Q.
  Proof. intros B v f s Q TD H. eapply (h_step E owner _ _ (fun _ => members v) f s s _ 0); [reflexivity|auto|exact H]. Qed.

    Lemma string_elem_halts : forall sc v s, tidy s -> data v = true ->
      halts (fun n => string_elem members (fun a k => r_assoc (R n) sc a (KVal (VStr k))) (env_sprint E) v) s (fun _ _ => True).
    Proof.
      intros sc v s TD D. unfold string_elem. destruct (to_string v); [now apply h_ret|].
      apply h_members; [exact TD|].
      eapply h_bind with (P := fun _ _ => True); [|intros s1 x L1 _; apply h_ret; [apply L1|exact I]].
      destruct (members_of (heap s) v) as [|m [|]]; try (now apply h_ret).
      eapply h_bind; [now apply assoc_data_halts|]. intros s1 [w p] L1 _. cbv beta iota. apply h_ret; [apply L1|exact I].
    Qed.

  (** What an argument that is held unevaluated may be found to be: data, or
      some query. *)
  Definition weak (_ : st) (v : val) : Prop := data v = true \/ exists m, v = VOpaque m.
  Definition lazy_red (s : st) (v : val) : Prop :=
    forall s', later s s' -> halts (fun n => r_reduce (R n) v) s' weak.
  Lemma lazy_red_later : forall s s' v, later s s' -> lazy_red s v -> lazy_red s' v.
  Proof. intros s s' v L H s2 L2. apply H. eapply later_trans; eauto. Qed.

  Lemma good_weak : forall s s' v, good s v -> weak s' v.
  Proof. intros s s' v [D|(n & -> & _)]; [now left|right; eauto]. Qed.

  Lemma good_lazy_red : forall s v, good s v -> lazy_red s v.
  Proof.
    intros s v G s' L. apply (good_later _ _ _ L) in G.
    exists 1, s', (RVal v). split; [intros n Hn; destruct n as [|n]; [lia|]; now apply good_reduce|].
    split; [apply evolves_refl|]. split; [apply L|eapply good_weak; eauto].
  Qed.

  Lemma lazy_expr_red : forall s sc e n c, nth_error (heap s) n = Some (OLazy e sc c) -> scope_ok s sc ->
    (forall s', scope_ok s' sc -> tidy s' -> halts (fun i => r_expr (R i) sc e) s' good) ->
    lazy_red s (VOpaque n).
  Proof.
    intros s sc e n c H SC HE s' L.
    pose proof (lazy_expr_arg s sc e n c H SC HE s' sc L) as WS.
    destruct (evo_heap _ _ (proj1 L) _ _ H) as (o' & H' & SO).
    assert (exists c', o' = OLazy e sc c') as [c' ->] by (inversion SO; subst; eauto).
    destruct c' as [x|].
    - exists 1, s', (RVal x). split.
      + intros i Hi. destruct i as [|i]; [lia|]. cbn [ev step r_reduce]. unfold reduce_step, mbind, obj_of, mret. now rewrite H'.
      + split; [apply evolves_refl|]. split; [apply L|]. exact (td_lazy _ _ _ (proj2 L) _ _ _ _ H').
    - destruct WS as (N & s1 & r & HN & HR). destruct r as [x| |]; [| |contradiction].
      + destruct HR as (EV & TD1 & G).
        assert (RUN : forall i, S N <= i -> r_reduce (R i) (VOpaque n) s' =
          (set_heap (set_nth n (OLazy e sc (match x with VNil => None | _ => Some x end)) (heap s1)) s1, RVal x)).
        { intros i Hi. destruct i as [|i]; [lia|]. cbn [ev step r_reduce]. unfold reduce_step, mbind, obj_of, mret, update_obj.
          rewrite H', HN by lia. reflexivity. }
        exists (S N). eexists. eexists. split; [exact RUN|]. split; [|split; [|eapply good_weak; eauto]].
        * pose proof (re_reduce _ _ _ (evaluation_evolves E (S N)) (VOpaque n) s') as K.
          rewrite (RUN (S N) (le_n _)) in K. exact K.
        * constructor.
          -- intros i c1 g1 ca k v Hi A. cbn [heap set_heap] in Hi. rewrite nth_set_nth in Hi.
             destruct (Nat.eqb n i); [destruct (nth_error (heap s1) n); discriminate|].
             exact (td_cache _ _ _ TD1 _ _ _ _ _ _ Hi A).
          -- intros i e1 sc1 v Hi. cbn [heap set_heap] in Hi. rewrite nth_set_nth in Hi.
             destruct (Nat.eqb n i); [|exact (td_lazy _ _ _ TD1 _ _ _ _ Hi)].
             destruct (nth_error (heap s1) n); [|discriminate]. injection Hi as _ _ Hv.
             assert (v = x) by (destruct x; congruence). subst v. exact (good_weak s1 s1 _ G).
          -- exact (td_funs _ _ _ TD1).
      + exists (S N), s1, RPanic. split; [|exact I]. intros i Hi. destruct i as [|i]; [lia|]. cbn [ev step r_reduce].
        unfold reduce_step, mbind, obj_of, mret. rewrite H', HN by lia. reflexivity.
  Qed.

  (** An argument of a function of the library. *)
  Definition lib_arg (s : st) (v : val) : Prop := lazy_arg s v /\ lazy_red s v.
  Lemma lib_arg_later : forall s s' v, later s s' -> lib_arg s v -> lib_arg s' v.
  Proof. intros s s' v L [H1 H2]. split; [eapply lazy_arg_later; eauto|eapply lazy_red_later; eauto]. Qed.
  Lemma good_lib_arg : forall s v, good s v -> lib_arg s v.
  Proof. intros s v G. split; [now apply good_lazy_arg|now apply good_lazy_red]. Qed.

  Definition lib_type (t : ftype) : bool := match t with TAny | TString | TInt64 => true | _ => false end.
  Definition lib_fits (s : st) (t : ftype) (v : val) : Prop := match t with TAny => good s v /\ v <> VNil | _ => True end.

  Lemma coerce_lib_halts : forall sc t v s, tidy s -> lib_arg s v -> lib_type t = true ->
    halts (fun n => coerce (r_reduce (R n)) (r_reduce_ws (R n) sc) (truth E (R n) sc) members
      (fun a k => r_assoc (R n) sc a (KVal (VStr k))) (env_sprint E) (to_stored_query (R n)) to_lazy_expr
      (row_to_dict (R n) sc) t v) s (fun s1 o => match o with Some w => t = TAny -> good s1 w | None => True end).
  Proof.
    intros sc t v s TD [LA LR] LT. destruct t; try discriminate LT; cbn [coerce].
    - eapply h_bind; [apply LA; auto|]. intros s1 w L1 H1. apply h_ret; [apply L1|auto].
    - eapply h_bind; [apply LR; auto|]. intros s1 w L1 WK. cbv beta.
      eapply h_bind with (P := fun _ _ => True); [|intros s2 x L2 _; apply h_ret; [apply L2|discriminate]].
      destruct (is_array w) eqn:AR; [|apply h_ret; [apply L1|exact I]].
      assert (D : data w = true) by (destruct WK as [D|(m & ->)]; [exact D|discriminate AR]).
      eapply h_bind with (P := fun _ _ => True); [|intros s2 x L2 _; apply h_ret; [apply L2|exact I]].
      unfold extract_string_array. apply h_reduced; [apply L1|now left|].
      destruct w; try discriminate AR; cbn [arr_elems].
      + eapply h_bind with (P := fun _ _ => True); [apply h_ret; [apply L1|exact I]|]. intros s2 x L2 _. apply h_ret; [apply L2|exact I].
      + eapply h_bind; [|intros s2 x L2 _; apply h_ret; [apply L2|exact I]].
        apply (h_mmap E owner _ _ (fun n => string_elem members (fun a k => r_assoc (R n) sc a (KVal (VStr k))) (env_sprint E))
          (fun x => data x = true) (fun _ => True)); [apply L1|now apply forallb_Forall|].
        intros x s2 Dx L2. apply string_elem_halts; [apply L2|exact Dx].
    - eapply h_bind; [apply LR; auto|]. intros s1 w L1 _. apply h_ret; [apply L1|]. destruct (to_int64 w); [discriminate|exact I].
  Qed.

  Definition lib_args (s : st) (l : list (string * val)) : Prop := Forall (fun kv => lib_arg s (snd kv)) l.
  Lemma lib_args_later : forall s s' l, later s s' -> lib_args s l -> lib_args s' l.
  Proof. intros s s' l L H. eapply Forall_impl; [|exact H]. intros kv. now apply lib_arg_later. Qed.

  Lemma fields_lib_halt : forall sc args fields parsed target s, tidy s -> lib_args s args ->
    Forall (fun f => lib_type (fp_type f) = true) fields ->
    halts (fun n => parse_fields (r_reduce (R n)) (r_reduce_ws (R n) sc) (truth E (R n) sc) members
      (fun a k => r_assoc (R n) sc a (KVal (VStr k))) (env_sprint E) (to_stored_query (R n)) to_lazy_expr
      (row_to_dict (R n) sc) fields args parsed target) s (fun _ _ => True).
  Proof.
    intros sc args fields. induction fields as [|f fields IH]; intros parsed target s TD GA HF; cbn [parse_fields];
      [now apply h_ret|].
    inversion HF as [|? ? LT HF']; subst. destruct (assoc (fp_name f) args) as [v|] eqn:AS.
    - assert (PA : lib_arg s v).
      { apply assoc_in in AS. unfold lib_args in GA. rewrite Forall_forall in GA. exact (GA _ AS). }
      eapply h_bind; [now apply coerce_lib_halts|]. intros s1 o L1 H1. cbv beta.
      destruct o as [w|]; [|apply h_ret; [apply L1|exact I]].
      destruct (set_ok (fp_type f) w); [|apply h_panic]. apply IH; [apply L1|eapply lib_args_later; eauto|exact HF'].
    - destruct (fp_required f); [now apply h_ret|]. now apply IH.
  Qed.

  Lemma parse_lib_halts : forall sc args fields target s, tidy s -> lib_args s args ->
    Forall (fun f => lib_type (fp_type f) = true) fields ->
    halts (fun n => parse_args E (R n) sc fields args target) s (fun _ _ => True).
  Proof.
    intros sc args fields target s TD GA HF. unfold parse_args, extract_args, normalize_args.
    eapply h_bind with (P := fun s1 l => lib_args s1 l).
    - destruct (assoc "**"%string args) as [alt|] eqn:AS; [|now apply h_ret].
      assert (PA : lib_arg s alt).
      { apply assoc_in in AS. unfold lib_args in GA. rewrite Forall_forall in GA. exact (GA _ AS). }
      eapply h_bind; [apply (proj2 PA); auto|]. intros s1 w L1 WK. cbv beta.
      assert (SAME : halts (fun _ => mret args) s1 (fun s1 l => lib_args s1 l))
        by (apply h_ret; [apply L1|eapply lib_args_later; eauto]).
      destruct w; try exact SAME. apply h_ret; [apply L1|].
      destruct WK as [D|(m & K)]; [|discriminate]. cbn in D. apply forallb_Forall in D.
      eapply Forall_impl; [|exact D]. intros kv Dk. apply good_lib_arg. now left.
    - intros s1 l L1 GL. unfold parse. eapply h_bind; [apply fields_lib_halt; [apply L1|exact GL|exact HF]|].
      intros s2 [[parsed tgt] err] L2 _. cbv beta iota.
      destruct err; [|destruct (Nat.eqb _ _)]; (apply h_ret; [apply L2|exact I]).
  Qed.

  Lemma h_modify : forall sc id f s, tidy s -> (forall o, data (f o) = true) -> halts (fun _ => modify sc id f) s val_data.
  Proof.
    intros sc id f s TD HF. pose proof (cl_modify _ grows_closed sc id f s) as EV. unfold modify in *. cbn [fst] in EV.
    exists 0. eexists. eexists. split; [reflexivity|]. split; [exact EV|]. split; [|apply HF].
    exact (proj2 (later_same _ _ EV eq_refl eq_refl TD)).
  Qed.

  Lemma library_halts : forall sc fn id args s, library fn = true -> tidy s -> lib_args s args ->
    halts (fun n => call_func E (R n) sc fn id args) s val_data.
  Proof.
    intros sc fn id args s LB TD GA.
    assert (NUL : forall s1, tidy s1 -> halts (fun _ => mret VNull) s1 val_data) by (intros s1 T1; now apply h_ret).
    destruct fn; try discriminate LB; cbn [call_func];
      unfold len_function, split_function, encode_function, timestamp_function, format_function, count_function, sum_function;
      (eapply h_bind; [apply parse_lib_halts; [exact TD|exact GA|repeat constructor]|]);
      intros s1 [target err] L1 _; cbv beta iota; pose proof (proj2 L1) as T1.
    - destruct err; [now apply NUL|]. destruct target as [|v [|]]; try now apply NUL.
      destruct v; first [apply h_panic|now apply h_ret].
    - destruct err; [now apply NUL|]. destruct target as [|[] [|[] [|[] [|]]]]; try now apply NUL.
      destruct (negb _); [|destruct (negb _)]; (apply h_ret; [exact T1|]); unfold val_data.
      + destruct (go_split _ _ _); [|reflexivity]. cbn. apply forallb_Forall, Forall_map. apply Forall_forall. reflexivity.
      + cbn. apply forallb_Forall, Forall_map. apply Forall_forall. reflexivity.
      + reflexivity.
    - destruct err; [now apply NUL|]. destruct target as [|v [|[] [|]]]; try now apply NUL.
      destruct (String.eqb _ _); [|destruct (String.eqb _ _); [|destruct (String.eqb _ _)]]; now apply h_ret.
    - destruct err; [now apply NUL|]. destruct target as [|[] [|[] [|]]]; try now apply NUL.
      all: repeat match goal with |- halts (fun _ => match ?k with _ => _ end) _ _ => destruct k end; try now apply NUL.
      apply h_ret; [exact T1|]. unfold val_data, Builtins.timestamp_of. destruct (0 <? _)%Z; [reflexivity|]. destruct (0 <? _)%Z; reflexivity.
    - destruct err; [now apply h_ret|]. destruct target as [|[] [|v [|]]]; now apply h_ret.
    - destruct err; [now apply NUL|]. apply h_modify; [exact T1|]. intros [[]|]; try reflexivity. destruct k; reflexivity.
    - destruct err; [now apply NUL|]. destruct target as [|[] [|]]; try now apply NUL.
      all: destruct k; try now apply NUL.
      apply h_modify; [exact T1|]. intros [[]|]; try reflexivity. destruct k; reflexivity.
  Qed.

  Section Calls.
    Variable sc : scope.
    Hypothesis SA : sel_at (S (sc_depth sc)).
    Variable P : expr -> Prop.
    Hypothesis HP : forall e s, P e -> scope_ok s sc -> tidy s -> halts (fun n => r_expr (R n) sc e) s good.

    Lemma build_lazy_halts : forall params args s, Forall (fun p => arg_is P (snd p)) params -> scope_ok s sc -> tidy s ->
      Forall (fun kv => lazy_arg s (snd kv)) args ->
      halts (fun n => build_lazy_args (R n) sc params args) s (fun s1 l => Forall (fun kv => lazy_arg s1 (snd kv)) l).
    Proof.
      induction params as [|[name a] params IH]; intros args s HF SC TD GA; cbn [build_lazy_args]; [now apply h_ret|].
      inversion HF as [|? ? H1 H2]; subst. cbn [snd] in H1.
      assert (NEXT : forall s1 v, later s s1 -> lazy_arg s1 v ->
        halts (fun n => build_lazy_args (R n) sc params (dict_set name v args)) s1
          (fun s1 l => Forall (fun kv => lazy_arg s1 (snd kv)) l)).
      { intros s1 v L1 LA. apply IH; [exact H2|eapply scope_ok_later; eauto|apply L1|].
        apply Forall_dict_set; [exact LA|]. eapply Forall_impl; [|exact GA]. intros kv. now apply lazy_arg_later. }
      destruct a as [e|q|e|].
      - apply h_alloc; [exact TD|now cbn|]. intros s1 L1 HH. apply NEXT; [exact L1|].
        eapply lazy_expr_arg; [exact HH|eapply scope_ok_later; eauto|]. intros s' SC' TD'. now apply HP.
      - contradiction.
      - eapply h_bind; [apply (arg_halts sc P HP (AArray e)); assumption|]. intros s1 v L1 G1. apply NEXT; [exact L1|now apply good_lazy_arg].
      - eapply h_bind; [apply (arg_halts sc P HP AEmpty); [exact I|assumption|assumption]|]. intros s1 v L1 G1. apply NEXT; [exact L1|now apply good_lazy_arg].
    Qed.

    Lemma build_lib_halts : forall params args s, Forall (fun p => arg_is P (snd p)) params -> scope_ok s sc -> tidy s ->
      lib_args s args -> halts (fun n => build_lazy_args (R n) sc params args) s lib_args.
    Proof.
      induction params as [|[name a] params IH]; intros args s HF SC TD GA; cbn [build_lazy_args]; [now apply h_ret|].
      inversion HF as [|? ? H1 H2]; subst. cbn [snd] in H1.
      assert (NEXT : forall s1 v, later s s1 -> lib_arg s1 v ->
        halts (fun n => build_lazy_args (R n) sc params (dict_set name v args)) s1 lib_args).
      { intros s1 v L1 LA. apply IH; [exact H2|eapply scope_ok_later; eauto|apply L1|].
        apply Forall_dict_set; [exact LA|]. eapply lib_args_later; eauto. }
      destruct a as [e|q|e|].
      - apply h_alloc; [exact TD|now cbn|]. intros s1 L1 HH. apply NEXT; [exact L1|].
        assert (SC1 : scope_ok s1 sc) by (eapply scope_ok_later; eauto).
        split; [eapply lazy_expr_arg|eapply lazy_expr_red]; try exact HH; auto; intros s' SC' TD'; now apply HP.
      - contradiction.
      - eapply h_bind; [apply (arg_halts sc P HP (AArray e)); assumption|]. intros s1 v L1 G1. apply NEXT; [exact L1|now apply good_lib_arg].
      - eapply h_bind; [apply (arg_halts sc P HP AEmpty); [exact I|assumption|assumption]|]. intros s1 v L1 G1. apply NEXT; [exact L1|now apply good_lib_arg].
    Qed.

    (** get() of a value and the path of a member. *)
    Lemma get_path_halts : forall path s v, scope_ok s sc -> tidy s -> good s v ->
      halts (fun n => get_path (R n) sc v path) s good.
    Proof.
      induction path as [|c path IH]; intros s v SC TD G; cbn [get_path]; [now apply h_ret|].
      eapply h_bind; [now apply assoc_good_halts|]. intros s1 [x pres] L1 H1. cbv beta iota.
      destruct pres; [apply IH; [eapply scope_ok_later; eauto|apply L1|left; exact H1]|apply h_ret; [apply L1|now left]].
    Qed.

    Lemma get_halts : forall s a m, scope_ok s sc -> tidy s -> lib_arg s a -> lib_arg s m ->
      halts (fun n => get_function E (R n) sc [("item"%string, a); ("member"%string, m)]) s good.
    Proof.
      intros s a m SC TD LA LM. unfold get_function, parse_args, extract_args, normalize_args.
      cbn [assoc String.eqb Ascii.eqb Bool.eqb].
      apply (h_bind E owner _ _ _ _ s (fun s1 r => forall item member, r = ([item; member], None) -> item <> VNil /\ good s1 item)).
      - eapply (h_step E owner _ _ (fun _ => mret _) _ s s _ 0); [reflexivity|auto|]. unfold parse.
        cbn [parse_fields assoc fp_name fp_type fp_idx fp_required field_ String.eqb Ascii.eqb Bool.eqb].
        apply (h_bind E owner _ _ _ _ s (fun s1 r => forall item member parsed, r = (parsed, [item; member], None) -> item <> VNil /\ good s1 item)).
        + eapply h_bind; [apply coerce_lib_halts; [exact TD|exact LA|reflexivity]|]. intros s1 o L1 H1. cbv beta.
          destruct o as [w|]; [|apply h_ret; [apply L1|discriminate]].
          assert (G1 : good s1 w) by (now apply H1).
          destruct (set_ok TAny w) eqn:SO; [|apply h_panic].
          assert (NN : w <> VNil) by (intros ->; discriminate).
          eapply h_bind; [apply coerce_lib_halts; [apply L1|eapply lib_arg_later; eauto|reflexivity]|]. intros s2 o2 L2 H2. cbv beta.
          destruct o2 as [w2|]; [|apply h_ret; [apply L2|discriminate]].
          destruct (set_ok TString w2); [|apply h_panic]. apply h_ret; [apply L2|].
          cbn [set_field]. intros item member parsed K. injection K as _ <- _. split; [exact NN|eapply good_later; eauto].
        + intros s1 [[parsed tgt] err] L1 H1. cbv beta iota.
          destruct err as [e|]; [apply h_ret; [apply L1|discriminate]|].
          destruct (Nat.eqb _ _); (apply h_ret; [apply L1|]); intros item member K.
          * injection K as ->. exact (H1 _ _ _ eq_refl).
          * injection K as -> _. exact (H1 _ _ _ eq_refl).
      - intros s1 [target err] L1 H1. cbv beta iota.
        assert (NUL : halts (fun _ => mret VNull) s1 good) by (apply h_ret; [apply L1|now left]).
        destruct err; [exact NUL|]. destruct target as [|item [|[] [|]]]; try exact NUL.
        destruct (H1 _ _ eq_refl) as [NN G].
        eapply (h_step E owner _ _ (fun _ => match item with VNil => alloc (OScope sc) | _ => mret item end) _ s1 s1 item 0);
          [intros; destruct item; try reflexivity; contradiction|apply later_refl, L1|].
        apply get_path_halts; [eapply scope_ok_later; eauto|apply L1|exact G].
    Qed.

    Lemma calm_halts : forall args got p s, calm args got p -> scope_ok s sc -> tidy s ->
      Forall (lazy_arg s) args -> Forall (good s) got -> halts (fun n => run_prog E (R n) sc p) s good.
    Proof.
      intros args got p s H. revert s. induction H as [got v H|got|got v k HI _ IH|got v k HI _ IH|got v k _ IH];
        intros s SC TD LA GG; cbn [run_prog].
      - apply h_ret; [exact TD|]. destruct H as [H|H]; [now left|]. rewrite Forall_forall in GG. auto.
      - apply h_panic.
      - rewrite Forall_forall in LA. pose proof (LA v HI) as LV. rewrite <- Forall_forall in LA.
        eapply h_bind; [apply LV; auto|]. intros s1 w L1 G1. apply IH; [eapply scope_ok_later; eauto|apply L1| |].
        + eapply Forall_impl; [|exact LA]. intros x. now apply lazy_arg_later.
        + constructor; [exact G1|]. eapply Forall_impl; [|exact GG]. intros x. now apply good_later.
      - pose proof GG as GV. rewrite Forall_forall in GV.
        eapply h_bind; [apply truth_halts; auto|]. intros s1 b L1 _. apply IH; [eapply scope_ok_later; eauto|apply L1| |].
        + eapply Forall_impl; [|exact LA]. intros x. now apply lazy_arg_later.
        + eapply Forall_impl; [|exact GG]. intros x. now apply good_later.
      - pose proof (cl_observe _ grows_closed v s) as EV. cbn [observe fst] in EV.
        pose proof (later_same _ _ EV eq_refl eq_refl TD) as L1.
        eapply (h_step E owner _ _ (fun _ => observe v) (fun n _ => run_prog E (R n) sc k) s _ tt 0); [reflexivity|exact L1|].
        apply IH; [eapply scope_ok_later; eauto|apply L1| |].
        + eapply Forall_impl; [|exact LA]. intros x. now apply lazy_arg_later.
        + eapply Forall_impl; [|exact GG]. intros x. now apply good_later.
    Qed.

    Lemma lazy_object : forall s v (f : nat -> val -> EM val) Q, tidy s -> lazy_arg s v ->
      (forall s1 x, later s s1 -> good s1 x -> halts (fun n => f n x) s1 Q) ->
      halts (fun n => mbind (r_reduce_ws (R n) sc v) (f n)) s Q.
    Proof. intros s v f Q TD LA H. eapply h_bind; [apply LA; auto|exact H]. Qed.

    (** The function if on three unevaluated arguments. *)
    Lemma if_halts : forall s n0 n1 n2 e1 c1 e2 c2, scope_ok s sc -> tidy s ->
      lazy_arg s (VOpaque n0) -> lazy_arg s (VOpaque n1) -> lazy_arg s (VOpaque n2) ->
      nth_error (heap s) n1 = Some (OLazy e1 sc c1) -> nth_error (heap s) n2 = Some (OLazy e2 sc c2) ->
      halts (fun n => if_function E (R n) sc
        [("condition"%string, VOpaque n0); ("then"%string, VOpaque n1); ("else"%string, VOpaque n2)]) s good.
    Proof.
      intros s n0 n1 n2 e1 c1 e2 c2 SC TD L0 L1 L2 H1 H2. unfold if_function.
      apply (h_bind E owner _ _ _ _ s (fun s1 r => exists v, r = ([v; VOpaque n1; VOpaque n2], None) /\ good s1 v)).
      - unfold parse_args, extract_args, normalize_args.
        cbn [assoc String.eqb Ascii.eqb Bool.eqb].
        eapply (h_step E owner _ _ (fun _ => mret _) _ s s _ 0); [reflexivity|auto|]. unfold parse, if_fields.
        cbn [parse_fields assoc fp_name fp_type fp_idx fp_required field_ String.eqb Ascii.eqb Bool.eqb coerce].
        destruct (L0 s sc (later_refl _ _ _ TD)) as (N & s1 & r & HN & HR).
        destruct r as [v| |]; [|exists N, s1, RPanic; split; [|exact I]; intros n Hn; unfold mbind; now rewrite HN|contradiction].
        destruct HR as (EV & TD1 & G1).
        destruct v; try (exists N, s1; eexists; split; [intros n' Hn; unfold mbind, mret; rewrite HN by exact Hn; reflexivity|];
          cbv iota; split; [exact EV|]; split; [exact TD1|]; eexists; split; [reflexivity|exact G1]).
        exists N, s1, RPanic. split; [|exact I]. intros n' Hn. unfold mbind, mret. rewrite HN by exact Hn. reflexivity.
      - intros s1 r LT (v & -> & G). cbv beta iota.
        eapply h_bind; [apply truth_halts; [exact SA|eapply scope_ok_later; eauto|apply LT|exact G]|]. intros s2 b LT2 _. cbv beta.
        assert (L02 : later s s2) by (eapply later_trans; eauto).
        assert (BR : forall n i e c, n = VOpaque i -> lazy_arg s n -> nth_error (heap s) i = Some (OLazy e sc c) ->
          halts (fun m => o <- obj_of n ;; x <- (if is_lazy o then r_reduce_ws (R m) sc n else mret n) ;;
                          ox <- obj_of x ;; if is_lazy ox then r_reduce_ws (R m) sc x else mret x) s2 good).
        { intros n i e c -> LA HH. apply h_obj; [apply L02|].
          destruct (evo_heap _ _ (proj1 L02) _ _ HH) as (o' & H' & SO). rewrite H'.
          assert (exists c', o' = OLazy e sc c') as [c' ->] by (inversion SO; subst; eauto). cbn [is_lazy].
          eapply h_bind; [apply LA; exact L02|]. intros s3 x L3 G3. cbv beta. apply h_obj; [apply L3|]. fold (obj_at s3 x).
          rewrite (good_not_lazy _ _ G3). apply h_ret; [apply L3|exact G3]. }
        destruct b.
        + cbn [is_nil]. apply h_obj; [apply L02|].
          destruct (evo_heap _ _ (proj1 L02) _ _ H1) as (o' & H' & SO). rewrite H'.
          assert (exists c', o' = OLazy e1 sc c') as [c' ->] by (inversion SO; subst; eauto). cbn [is_lazy].
          eapply h_bind; [apply L1; exact L02|]. intros s3 x L3 G3. cbv beta. apply h_obj; [apply L3|]. fold (obj_at s3 x).
          rewrite (good_not_lazy _ _ G3). apply h_ret; [apply L3|exact G3].
        + unfold if_else. cbn [is_nil]. eapply BR; [reflexivity|exact L2|exact H2].
    Qed.

    Lemma or_null_good : forall s v (b : bool), good s v -> good s (if b then VNull else v).
    Proof. intros s v [] G; [left; reflexivity|exact G]. Qed.

    Lemma call_function_halts : forall node c fn params s, scope_ok s sc -> tidy s ->
      assoc c (env_funs E) = Some fn -> call_is E owner P node c params ->
      halts (fun n => call_function E (R n) sc node fn params) s good.
    Proof.
      intros node c fn params s SC TD HF HC. unfold call_is in HC. rewrite HF in HC. unfold call_function.
      assert (LIB : library fn = true -> owner node = c -> Forall (fun p => arg_is P (snd p)) params ->
        halts (fun n => args <- build_lazy_args (R n) sc params [] ;; '(f, id, first) <- node_function node fn ;;
          v <- call_func E (R n) sc f id args ;;
          mret (if (if first : bool then is_nil v else match v with VNil => true | _ => false end) then VNull else v)) s good).
      { intros LB OW HA.
        eapply h_bind; [apply build_lib_halts; [exact HA|exact SC|exact TD|constructor]|]. intros s1 args L1 LA. cbv beta.
        apply h_node; [apply L1|now rewrite OW|]. intros s2 id first L2. cbv beta iota.
        eapply h_bind; [apply library_halts; [exact LB|apply L2|eapply lib_args_later; eauto]|].
        intros s3 v L3 G3. apply h_ret; [apply L3|]. apply or_null_good. now left. }
      destruct fn; try (destruct HC as (LB & _); discriminate LB); try (destruct HC as (LB & OW & HA); exact (LIB LB OW HA)).
      - destruct HC as (OW & HA & HCALM).
        eapply h_bind; [apply build_lazy_halts; [exact HA|exact SC|exact TD|constructor]|]. intros s1 args L1 LA. cbv beta.
        apply h_node; [apply L1|now rewrite OW|]. intros s2 id first L2. cbv beta iota. cbn [call_func].
        assert (L02 : later s s2) by (eapply later_trans; eauto).
        eapply h_bind; [apply (calm_halts (map snd args) []); [apply HCALM|eapply scope_ok_later; eauto|apply L2| |constructor]|].
        + rewrite Forall_map. eapply Forall_impl; [|exact LA]. intros kv. now apply lazy_arg_later.
        + intros s3 v L3 G3. apply h_ret; [apply L3|]. now apply or_null_good.
      - destruct HC as (OW & ec & et & ee & Pc & Pt & Pe & ->). cbn [build_lazy_args].
        set (g := fun n args => x <- node_function node FIf ;;
          (let '(f, id, first) := x in
           v <- call_func E (R n) sc f id args ;;
           mret (if if first then is_nil v else match v with VNil => true | _ => false end then VNull else v))).
        change (halts (fun n => mbind (v <- alloc (OLazy ec sc None) ;; v0 <- alloc (OLazy et sc None) ;;
          v1 <- alloc (OLazy ee sc None) ;;
          mret (dict_set "else"%string v1 (dict_set "then"%string v0 (dict_set "condition"%string v [])))) (g n)) s good).
        apply (h_bind E owner _ _ _ g s (fun s1 args => exists n0 n1 n2 c1 c2,
          args = [("condition"%string, VOpaque n0); ("then"%string, VOpaque n1); ("else"%string, VOpaque n2)] /\
          lazy_arg s1 (VOpaque n0) /\ lazy_arg s1 (VOpaque n1) /\ lazy_arg s1 (VOpaque n2) /\
          nth_error (heap s1) n1 = Some (OLazy et sc c1) /\ nth_error (heap s1) n2 = Some (OLazy ee sc c2))).
        + apply h_alloc; [exact TD|now cbn|]. intros s1 L1 H1.
          apply h_alloc; [apply L1|now cbn|]. intros s2 L2 H2.
          apply h_alloc; [apply L2|now cbn|]. intros s3 L3 H3.
          apply h_ret; [apply L3|]. exists (List.length (heap s)), (List.length (heap s1)), (List.length (heap s2)).
          assert (L13 : later s1 s3) by (eapply later_trans; eauto).
          assert (L03 : later s s3) by (eapply later_trans; eauto).
          destruct (evo_heap _ _ (proj1 L3) _ _ H2) as (o' & H' & SO).
          assert (exists c', o' = OLazy et sc c') as [c' ->] by (inversion SO; subst; eauto).
          exists c', None. split; [reflexivity|].
          assert (LL : forall sx nx ex, later s sx -> later sx s3 -> nth_error (heap sx) nx = Some (OLazy ex sc None) -> P ex ->
            lazy_arg s3 (VOpaque nx)).
          { intros sx nx ex La Lb Hx Px. eapply lazy_arg_later; [exact Lb|].
            eapply lazy_expr_arg; [exact Hx|eapply scope_ok_later; eauto|]. intros s' SC' TD'. now apply HP. }
          split; [exact (LL s1 _ ec L1 L13 H1 Pc)|].
          split; [exact (LL s2 _ et (later_trans _ _ _ _ _ L1 L2) L3 H2 Pt)|].
          split; [exact (LL s3 _ ee L03 (later_refl _ _ _ (proj2 L3)) H3 Pe)|]. split; [exact H'|exact H3].
        + intros s1 args L1 (n0 & n1 & n2 & c1 & c2 & -> & A0 & A1 & A2 & H1 & H2). unfold g.
          apply h_node; [apply L1|now rewrite OW|]. intros s2 id first L2. cbv beta iota. cbn [call_func].
          destruct (evo_heap _ _ (proj1 L2) _ _ H1) as (o1 & H1' & SO1).
          assert (exists c', o1 = OLazy et sc c') as [c1' ->] by (inversion SO1; subst; eauto).
          destruct (evo_heap _ _ (proj1 L2) _ _ H2) as (o2 & H2' & SO2).
          assert (exists c', o2 = OLazy ee sc c') as [c2' ->] by (inversion SO2; subst; eauto).
          eapply h_bind; [eapply if_halts; [exact (scope_ok_later _ _ _ (later_trans _ _ _ _ _ L1 L2) SC)|apply L2| | | |exact H1'|exact H2'];
            eapply lazy_arg_later; eauto|].
          intros s3 v L3 G3. apply h_ret; [apply L3|]. now apply or_null_good.
      - (* get *)
        destruct HC as (OW & ee & em & Pe & Pm & ->).
        eapply h_bind with (P := fun s1 args => exists a m, args = [("item"%string, a); ("member"%string, m)] /\ lib_arg s1 a /\ lib_arg s1 m).
        + cbn [build_lazy_args]. apply h_alloc; [exact TD|now cbn|]. intros s1 L1 H1.
          apply h_alloc; [apply L1|now cbn|]. intros s2 L2 H2. apply h_ret; [apply L2|].
          do 2 eexists. split; [reflexivity|].
          assert (LL : forall sx nx ex, later s sx -> later sx s2 -> nth_error (heap sx) nx = Some (OLazy ex sc None) -> P ex ->
            lib_arg s2 (VOpaque nx)).
          { intros sx nx ex La Lb Hx Px. eapply lib_arg_later; [exact Lb|].
            split; [eapply lazy_expr_arg|eapply lazy_expr_red]; try exact Hx; try (eapply scope_ok_later; eauto);
              intros s' SC' TD'; now apply HP. }
          split; [exact (LL s1 _ ee L1 L2 H1 Pe)|exact (LL s2 _ em (later_trans _ _ _ _ _ L1 L2) (later_refl _ _ _ (proj2 L2)) H2 Pm)].
        + intros s1 args L1 (va & vm & -> & LA & LM). cbv beta. apply h_node; [apply L1|now rewrite OW|].
          intros s2 id first L2. cbv beta iota. cbn [call_func].
          eapply h_bind; [apply get_halts; [exact (scope_ok_later _ _ _ (later_trans _ _ _ _ _ L1 L2) SC)|apply L2| |];
            eapply lib_arg_later; eauto|].
          intros s3 v L3 G3. apply h_ret; [apply L3|]. now apply or_null_good.
    Qed.

    Hypothesis EX : sc_depth sc < 1000 -> exp_at true (S (sc_depth sc)).
    Hypothesis HD : forall k e s, simple false k e -> scope_ok s sc -> tidy s -> halts (fun n => r_expr (R n) sc e) s good.

    Lemma maybe_negate_halts : forall b s v, tidy s -> good s v -> halts (fun n => maybe_negate (R n) sc b v) s good.
    Proof.
      intros [] s v TD G; unfold maybe_negate; [|now apply h_ret].
      eapply h_conseq; [now apply negate_halts|]. intros s1 x _ H. left. exact H.
    Qed.

    Lemma sym_halts : forall node neg (path : list string) (called : bool) (params : list (string * argval)) s, scope_ok s sc -> tidy s -> path <> [] ->
      (match path with
       | [c] => if called then call_is E owner P node c params else Forall (fun p => arg_is P (snd p)) params
       | _ => Forall (fun p => arg_is P (snd p)) params
       end) ->
      halts (fun n => sym_reduce E (R n) sc node neg path called params) s good.
    Proof.
      intros node neg path called params s SC TD NE HC. unfold sym_reduce.
      apply h_split; [exact TD|]. intros s1 b L1. cbv beta.
      assert (SC1 : scope_ok s1 sc) by (eapply scope_ok_later; eauto).
      assert (CALLED : forall fn c, path = [c] -> called = true -> assoc c (env_funs E) = Some fn ->
        halts (fun n => v <- call_function E (R n) sc node fn params ;; maybe_negate (R n) sc b v) s1 good).
      { intros fn c -> -> HF. eapply h_bind; [eapply call_function_halts; [exact SC1|apply L1|exact HF|exact HC]|].
        intros s2 v L2 G2. apply maybe_negate_halts; [apply L2|exact G2]. }
      assert (HA : (match path with [c] => if called then assoc c (env_funs E) else None | _ => None end) = None ->
        Forall (fun p => arg_is P (snd p)) params).
      { intros N. destruct path as [|c [|]]; try exact HC. destruct called; [|exact HC].
        unfold call_is in HC. rewrite N in HC. exact HC. }
      destruct (match path with [c] => if called then assoc c (env_funs E) else None | _ => None end) as [fn|] eqn:FN.
      { destruct path as [|c [|]]; try discriminate. destruct called; [|discriminate]. now apply (CALLED fn c). }
      clear CALLED. specialize (HA eq_refl).
      eapply h_bind; [apply lookup_halts; [exact SA|exact EX|exact NE|apply L1|exact SC1]|].
      intros s2 [value pres] L2 [EN DP]. cbn [fst snd] in *. cbv beta iota.
      assert (L02 : later s s2) by (eapply later_trans; eauto).
      assert (SC2 : scope_ok s2 sc) by (eapply scope_ok_later; eauto).
      destruct (match value with VNil => true | _ => negb pres end) eqn:NP.
      { apply h_ret; [apply L2|left; reflexivity]. }
      assert (D : sc_depth sc < 1000).
      { destruct (Nat.lt_ge_cases (sc_depth sc) 1000) as [|K]; [assumption|]. specialize (DP K). subst pres.
        destruct value; discriminate. }
      apply h_obj; [apply L2|]. fold (obj_at s2 value).
      destruct EN as [G|(n & d & -> & HN & [(h & B) DF])].
      - (* a value or a query *)
        assert (NOTE : forall d, obj_at s2 value <> Some (OExprDef d)).
        { intros d. destruct G as [G|(n & -> & [(q & H & _)|(t & sc' & H & _)])]; [rewrite data_obj by exact G; discriminate| |];
            cbn; rewrite H; discriminate. }
        assert (K : halts (fun n => match params with
              | _ :: _ =>
                  if is_query value (obj_at s2 value) then
                    subscope <- fresh_agg (copy sc) ;;
                    if overflow subscope then mret VNull
                    else
                      vars <- build_args (R n) sc params [] ;;
                      vars <- (match obj_at s2 value with
                               | Some (OQuery d) => apply_defaults (R n) sc (q_defaults d) vars
                               | _ => mret vars
                               end) ;;
                      v <- alloc (OCallSite value (append_vars (VDict vars) subscope)) ;;
                      maybe_negate (R n) sc b v
                  else if called then mret VNull
                  else maybe_negate (R n) sc b value
              | [] =>
                  if called then mret VNull
                  else maybe_negate (R n) sc b value
              end) s2 good).
        { assert (PLAIN : halts (fun n => if called then mret VNull else maybe_negate (R n) sc b value) s2 good).
          { destruct called; [apply h_ret; [apply L2|left; reflexivity]|]. apply maybe_negate_halts; [apply L2|exact G]. }
          destruct params as [|p0 ps] eqn:EP; [exact PLAIN|]. rewrite <- EP in *.
          destruct (is_query value (obj_at s2 value)) eqn:IQ; [|exact PLAIN].
          apply h_fresh; [apply L2|]. intros s3 cell L3.
          destruct (overflow _); [apply h_ret; [apply L3|left; reflexivity]|].
          assert (SC3 : scope_ok s3 sc) by (eapply scope_ok_later; eauto).
          eapply h_bind; [apply (build_halts sc P HP); [exact HA|exact SC3|apply L3|constructor]|].
          intros s4 vars L4 GV. cbv beta. assert (SC4 : scope_ok s4 sc) by (eapply scope_ok_later; eauto).
          eapply h_bind with (P := all_good).
          { destruct G as [G|(n & -> & [(q & H & QI)|(t & sc' & H & _)])].
            - rewrite (data_obj _ _ G). apply h_ret; [apply L4|exact GV].
            - cbn [obj_at]. rewrite H. apply defaults_halt; [exact HD|apply QI|exact SC4|apply L4|exact GV].
            - cbn [obj_at]. rewrite H. apply h_ret; [apply L4|exact GV]. }
          intros s5 vars' L5 GV'. cbv beta.
          assert (L25 : later s2 s5) by (eapply later_trans; [exact L3|]; eapply later_trans; eauto).
          assert (SC5 : scope_ok s5 sc) by (eapply scope_ok_later; eauto).
          apply h_alloc; [apply L5|now cbn|]. intros s6 L6 H6.
          apply maybe_negate_halts; [apply L6|]. right. eexists. split; [reflexivity|]. right. eexists; eexists. split; [exact H6|].
          intros s' sc0 L'. apply h_query. unfold query_step. apply h_obj; [apply L'|].
          pose proof (stays _ _ _ _ L' H6) as K6. cbn in K6. rewrite K6.
          assert (L2' : later s2 s') by (eapply later_trans; [exact L25|]; eapply later_trans; eauto).
          apply query_halts.
          - eapply sel_at_le; [|exact SA]. cbn. lia.
          - apply scope_ok_append; [|].
            + unfold scope_ok. cbn [sc_vars copy]. eapply scope_ok_later; [|exact SC2]. exact L2'.
            + eapply frame_ok_later; [|apply frame_args; exact GV']. eapply later_trans; eauto.
          - apply L'.
          - eapply good_later; eauto.
          - destruct G as [G|(n & -> & [(q & H & _)|(t & sc' & H & _)])].
            + rewrite is_query_data in * by exact G. exact IQ.
            + pose proof (stays _ _ _ _ L2' H) as KK. cbn in *. now rewrite KK.
            + pose proof (stays _ _ _ _ L2' H) as KK. cbn in *. now rewrite KK. }
        destruct (obj_at s2 value) as [[]|]; try exact K. exfalso. eapply NOTE; reflexivity.
      - (* an expression *)
        cbn [obj_at]. rewrite HN.
        apply (h_bind E owner _ _ (fun _ => if called then fresh_agg (copy sc) else mret (copy sc)) _ s2
          (fun _ sub => sc_vars sub = sc_vars sc /\ sc_depth sub = S (sc_depth sc))).
        { destruct called; [|apply h_ret; [apply L2|split; reflexivity]].
          eapply h_ext with (m' := fun _ => mbind (fresh_agg (copy sc)) (fun x => mret x)).
          - intros. unfold mbind, mret. destruct (fresh_agg (copy sc) s2) as [? [| |]]; reflexivity.
          - apply h_fresh; [apply L2|]. intros s3 c L3. apply h_ret; [apply L3|split; reflexivity]. }
        intros s3 sub L3 [SV SD]. cbv beta.
        destruct (overflow sub) eqn:OV; [apply h_ret; [apply L3|left; reflexivity]|].
        assert (SC3 : scope_ok s3 sc) by (eapply scope_ok_later; eauto).
        eapply h_bind with (P := all_good).
        { destruct called; [|apply h_ret; [apply L3|constructor]].
          apply (build_halts sc P HP); [exact HA|exact SC3|apply L3|constructor]. }
        intros s4 args L4 GA. cbv beta. assert (SC4 : scope_ok s4 sc) by (eapply scope_ok_later; eauto).
        eapply h_bind; [apply defaults_halt; [exact HD|exact DF|exact SC4|apply L4|exact GA]|].
        intros s5 args' L5 GA'. cbv beta. assert (SC5 : scope_ok s5 sc) by (eapply scope_ok_later; eauto).
        eapply h_bind; [apply (EX D h); [cbn; lia| |apply L5|exact B]|].
        + apply scope_ok_append; [unfold scope_ok; rewrite SV; exact SC5|now apply frame_args].
        + intros s6 v L6 G6. apply maybe_negate_halts; [apply L6|exact G6].
    Qed.
  End Calls.

  (** ** Expressions *)

  Lemma exp_level : forall sy d, sel_at (S d) -> (d < 1000 -> exp_at true (S d)) -> (sy = true -> exp_at false d) ->
    exp_at sy d.
  Proof.
    intros sy d SA0 EX0 HD0.
    assert (MAIN : forall h e sc s, d <= sc_depth sc -> scope_ok s sc -> tidy s -> simple sy h e ->
      halts (fun n => r_expr (R n) sc e) s (fun s1 v => good s1 v /\ (solid e -> data v = true))).
    2:{ intros h e sc s DP SC TD HS. eapply h_conseq; [eapply MAIN; eauto|]. intros s1 v _ [H _]. exact H. }
    intros h. induction h as [|h IH]; intros e sc s DP SC TD HS; [contradiction|].
    assert (SA : sel_at (S (sc_depth sc))) by (eapply sel_at_le; [|exact SA0]; lia).
    assert (EX : sc_depth sc < 1000 -> exp_at true (S (sc_depth sc))).
    { intros K. eapply exp_at_le; [|apply EX0; lia]. lia. }
    assert (HP : forall e s, simple sy h e -> scope_ok s sc -> tidy s -> halts (fun n => r_expr (R n) sc e) s good).
    { intros e0 s0 H0 SC0 TD0. eapply h_conseq; [now apply IH|]. intros s1 v _ [H _]. exact H. }
    assert (WEAK : forall m, ~ solid e -> halts m s good -> halts m s (fun s1 v => good s1 v /\ (solid e -> data v = true))).
    { intros m NS H. eapply h_conseq; [exact H|]. intros s1 v _ G. split; [exact G|contradiction]. }
    assert (DATA : forall m, halts m s val_data -> halts m s (fun s1 v => good s1 v /\ (solid e -> data v = true))).
    { intros m H. eapply h_conseq; [exact H|]. intros s1 v _ G. split; [left; exact G|auto]. }
    apply h_expr. destruct e as [v|node neg path called params|l rs|l rs|l rs|l rs|l rs|e|l op r|l ts]; cbn [simple expr_step] in *.
    - apply DATA. apply h_ret; [exact TD|]. exact HS.
    - apply WEAK; [auto|]. destruct HS as [-> HS]. apply (sym_halts sc SA (simple true h) HP EX); auto.
      + intros k e s0 HK SC0 TD0. now apply (HD0 eq_refl k).
      + destruct path; congruence.
      + destruct path as [|c [|]]; [contradiction|exact HS|exact HS].
    - (* lists *)
      apply WEAK; [auto|]. destruct HS as [HL HR]. unfold comma_reduce.
      destruct HR as [->|[SL HR]].
      + eapply h_bind; [apply HP; assumption|]. intros s1 v L1 G1. cbv beta. cbn [map].
        destruct v; try (apply h_ret; [apply L1|exact G1]). apply h_ret; [apply L1|left; reflexivity].
      + eapply h_bind; [apply IH; eassumption|]. intros s1 v L1 [G1 D1]. specialize (D1 SL). cbv beta.
        assert (LOOP : forall acc s2, later s1 s2 -> forallb data acc = true ->
          halts (fun n => comma_loop acc (map (option_map (r_expr (R n) sc)) rs)) s2 good).
        { clear HL WEAK DATA. revert HR. induction rs as [|[e|] rs IHr]; intros HR acc s2 L2 DA; cbn [map option_map comma_loop].
          - apply h_ret; [apply L2|left; exact DA].
          - inversion HR as [|? ? He HR']; subst. cbn [opt_is] in He. destruct He as [He1 He2].
            eapply h_bind; [apply IH; [exact DP|eapply scope_ok_later; [exact (later_trans _ _ _ _ _ L1 L2)|exact SC]|apply L2|exact He2]|].
            intros s3 w L3 [_ D3]. apply IHr; [exact HR'|eapply later_trans; eauto|].
            rewrite forallb_app, DA. cbn. now rewrite (D3 He1).
          - apply h_ret; [apply L2|left; exact DA]. }
        assert (REST : halts (fun n => match map (option_map (r_expr (R n) sc)) rs with
          | [] => mret v | _ => comma_loop [v] (map (option_map (r_expr (R n) sc)) rs) end) s1 good).
        { destruct rs as [|r rs]; [apply h_ret; [apply L1|left; exact D1]|].
          change (halts (fun n => comma_loop [v] (map (option_map (r_expr (R n) sc)) (r :: rs))) s1 good).
          apply LOOP; [apply later_refl; apply L1|cbn; now rewrite D1]. }
        destruct v; try exact REST. apply h_ret; [apply L1|left; reflexivity].
    - (* and *)
      apply WEAK; [auto|]. destruct HS as [HL HR]. unfold and_reduce, terms.
      eapply h_bind; [apply HP; assumption|]. intros s1 v L1 G1. cbv beta.
      assert (SC1 : scope_ok s1 sc) by (eapply scope_ok_later; eauto).
      assert (LOOP : forall last s2, later s1 s2 -> good s2 last ->
        halts (fun n => and_loop (truth E (R n) sc) last (map (fun oe => (fst oe, r_expr (R n) sc (snd oe))) rs)) s2 good).
      { clear HL WEAK DATA. revert HR. induction rs as [|[op e] rs IHr]; intros HR last s2 L2 GL; cbn [map and_loop fst snd];
          [apply h_ret; [apply L2|exact GL]|]. inversion HR as [|? ? He HR']; subst.
        assert (SC2 : scope_ok s2 sc) by (eapply scope_ok_later; eauto).
        eapply h_bind; [apply HP; [exact He|exact SC2|apply L2]|]. intros s3 w L3 G3. cbv beta.
        eapply h_bind; [apply truth_halts; [exact SA|eapply scope_ok_later; eauto|apply L3|exact G3]|].
        intros s4 b L4 _. cbv beta. destruct (negb b); [apply h_ret; [apply L4|left; reflexivity]|].
        apply IHr; [exact HR'|eapply later_trans; [exact L2|]; eapply later_trans; eauto|].
        destruct (String.eqb op "&&"); [eapply good_later; eauto|left; reflexivity]. }
      destruct rs as [|r rs]; [apply h_ret; [apply L1|exact G1]|].
      eapply h_ext with (m' := fun n => mbind (truth E (R n) sc v) (fun b => if negb b then mret (VBool false) else
        and_loop (truth E (R n) sc) v (map (fun oe => (fst oe, r_expr (R n) sc (snd oe))) (r :: rs)))); [reflexivity|].
      eapply h_bind; [apply truth_halts; [exact SA|exact SC1|apply L1|exact G1]|].
      intros s2 b L2 _. cbv beta. destruct (negb b); [apply h_ret; [apply L2|left; reflexivity]|].
      apply LOOP; [exact L2|eapply good_later; eauto].
    - (* or *)
      apply WEAK; [auto|]. destruct HS as [HL HR]. unfold or_reduce, terms.
      eapply h_bind; [apply HP; assumption|]. intros s1 v L1 G1. cbv beta.
      assert (SC1 : scope_ok s1 sc) by (eapply scope_ok_later; eauto).
      assert (LOOP : forall last s2, later s1 s2 -> good s2 last ->
        halts (fun n => or_loop (truth E (R n) sc) last (map (fun oe => (fst oe, r_expr (R n) sc (snd oe))) rs)) s2 good).
      { clear HL WEAK DATA. revert HR. induction rs as [|[op e] rs IHr]; intros HR last s2 L2 GL; cbn [map or_loop fst snd];
          [apply h_ret; [apply L2|exact GL]|]. inversion HR as [|? ? He HR']; subst.
        assert (SC2 : scope_ok s2 sc) by (eapply scope_ok_later; eauto).
        eapply h_bind; [apply HP; [exact He|exact SC2|apply L2]|]. intros s3 w L3 G3. cbv beta.
        eapply h_bind; [apply truth_halts; [exact SA|eapply scope_ok_later; eauto|apply L3|exact G3]|].
        intros s4 b L4 _. cbv beta. destruct b.
        - apply h_ret; [apply L4|]. destruct (String.eqb op "||"); [eapply good_later; eauto|left; reflexivity].
        - apply IHr; [exact HR'|eapply later_trans; [exact L2|]; eapply later_trans; eauto|eapply good_later; eauto]. }
      destruct rs as [|r rs]; [apply h_ret; [apply L1|exact G1]|].
      eapply h_ext with (m' := fun n => mbind (truth E (R n) sc v) (fun b => if b then mret v else
        or_loop (truth E (R n) sc) v (map (fun oe => (fst oe, r_expr (R n) sc (snd oe))) (r :: rs)))); [reflexivity|].
      eapply h_bind; [apply truth_halts; [exact SA|exact SC1|apply L1|exact G1]|].
      intros s2 b L2 _. cbv beta. destruct b; [apply h_ret; [apply L2|eapply good_later; eauto]|].
      apply LOOP; [exact L2|eapply good_later; eauto].
    - (* sums *)
      apply WEAK; [auto|]. destruct HS as [HL HR]. unfold add_reduce, terms.
      eapply h_bind; [apply HP; assumption|]. intros s1 v L1 G1. cbv beta.
      clear HL WEAK DATA. revert s1 v L1 G1 HR. induction rs as [|[op e] rs IHr]; intros s1 v L1 G1 HR; cbn [map add_loop fst snd];
          [apply h_ret; [apply L1|exact G1]|]. inversion HR as [|? ? He HR']; subst.
      assert (SC1 : scope_ok s1 sc) by (eapply scope_ok_later; eauto).
      eapply h_bind; [apply HP; [exact He|exact SC1|apply L1]|]. intros s2 w L2 G2. cbv beta.
      apply (good_later _ _ _ L2) in G1. assert (SC2 : scope_ok s2 sc) by (eapply scope_ok_later; eauto).
      eapply h_bind with (P := good).
      { destruct (String.eqb op "+"); [|destruct (String.eqb op "-")].
        - eapply h_conseq; [apply addf_halts; auto; apply L2|]. intros s3 x _ H. left. exact H.
        - eapply h_conseq; [apply subf_halts; auto; apply L2|]. intros s3 x _ H. left. exact H.
        - apply h_ret; [apply L2|exact G1]. }
      intros s3 x L3 G3. apply IHr; [|exact G3|exact HR']. eapply later_trans; [exact L1|]; eapply later_trans; eauto.
    - (* products *)
      apply WEAK; [auto|]. destruct HS as [HL HR]. unfold mul_reduce, terms.
      eapply h_bind; [apply HP; assumption|]. intros s1 v L1 G1. cbv beta.
      clear HL WEAK DATA. revert s1 v L1 G1 HR. induction rs as [|[op e] rs IHr]; intros s1 v L1 G1 HR; cbn [map mul_loop fst snd];
          [apply h_ret; [apply L1|exact G1]|]. inversion HR as [|? ? He HR']; subst.
      assert (SC1 : scope_ok s1 sc) by (eapply scope_ok_later; eauto).
      eapply h_bind; [apply HP; [exact He|exact SC1|apply L1]|]. intros s2 w L2 G2. cbv beta.
      apply (good_later _ _ _ L2) in G1. assert (SC2 : scope_ok s2 sc) by (eapply scope_ok_later; eauto).
      eapply h_bind with (P := good).
      { destruct (String.eqb op "*"); [|destruct (String.eqb op "/")].
        - eapply h_conseq; [apply mulf_halts; auto; apply L2|]. intros s3 x _ H. left. exact H.
        - eapply h_conseq; [apply divf_halts; auto; apply L2|]. intros s3 x _ H. left. exact H.
        - apply h_ret; [apply L2|exact G1]. }
      intros s3 x L3 G3. apply IHr; [|exact G3|exact HR']. eapply later_trans; [exact L1|]; eapply later_trans; eauto.
    - (* not *)
      apply DATA. unfold not_reduce. eapply h_bind; [apply HP; assumption|]. intros s1 v L1 G1. cbv beta.
      eapply h_bind; [apply truth_halts; [exact SA|eapply scope_ok_later; eauto|apply L1|exact G1]|].
      intros s2 b L2 _. apply h_ret; [apply L2|reflexivity].
    - (* comparisons *)
      apply DATA. destruct HS as [HL HR].
      eapply h_bind; [apply HP; assumption|]. intros s1 v L1 G1. cbv beta.
      assert (SC1 : scope_ok s1 sc) by (eapply scope_ok_later; eauto).
      eapply h_bind; [apply HP; [exact HR|exact SC1|apply L1]|]. intros s2 w L2 G2. cbv beta.
      apply cmpf_halts; [apply L2|eapply good_later; eauto|exact G2].
    - (* members *)
      apply WEAK; [auto|]. destruct HS as [HL HR].
      eapply h_bind; [apply HP; assumption|]. intros s1 v L1 G1. cbv beta.
      clear HL WEAK DATA. revert s1 v L1 G1 HR. induction ts as [|m ts IHt]; intros s1 v L1 G1 HR; cbn [member_terms];
        [apply h_ret; [apply L1|exact G1]|]. inversion HR as [|? ? Hm HR']; subst.
      assert (SC1 : scope_ok s1 sc) by (eapply scope_ok_later; eauto).
      assert (RB : forall o s2, opt_is (simple sy h) o -> later s1 s2 -> halts (fun n => range_bound (R n) sc o) s2 (fun _ _ => True)).
      { intros [e|] s2 Ho L2; cbn [range_bound]; [|apply h_ret; [apply L2|exact I]].
        eapply h_bind; [apply HP; [exact Ho|eapply scope_ok_later; eauto|apply L2]|]. intros s3 x L3 _.
        apply h_ret; [apply L3|exact I]. }
      eapply h_bind with (P := fun _ _ => True).
      { destruct m as [e|a b|f].
        - eapply h_bind; [apply HP; [exact Hm|exact SC1|apply L1]|]. intros s2 x L2 _. apply h_ret; [apply L2|exact I].
        - destruct Hm as [Ha Hb]. eapply h_bind; [apply RB; [exact Ha|apply later_refl; apply L1]|]. intros s2 x L2 _. cbv beta.
          destruct x as [x|]; [|apply h_ret; [apply L2|exact I]].
          eapply h_bind; [apply RB; [exact Hb|exact L2]|]. intros s3 y L3 _. apply h_ret; [apply L3|exact I].
        - apply h_ret; [apply L1|exact I]. }
      intros s2 key L2 _. cbv beta. destruct key as [k|]; [|apply h_ret; [apply L2|left; reflexivity]].
      eapply h_bind; [apply assoc_good_halts; [exact SA|eapply scope_ok_later; eauto|apply L2|eapply good_later; eauto]|].
      intros s3 [x pres] L3 H3. cbv beta iota. destruct pres; [|apply h_ret; [apply L3|left; reflexivity]].
      apply IHt; [|left; exact H3|exact HR']. eapply later_trans; [exact L1|]; eapply later_trans; eauto.
  Qed.

  (** ** Rows *)

  Definition getter_ok (s : st) (g : getter) : Prop :=
    forall s', later s s' -> halts (fun n => run_getter (R n) g) s' val_data.
  Lemma getter_ok_later : forall s s' g, later s s' -> getter_ok s g -> getter_ok s' g.
  Proof. intros s s' g L H s2 L2. apply H. eapply later_trans; eauto. Qed.

  Lemma row_stays : forall s s' n c g ca, later s s' -> nth_error (heap s) n = Some (ORow c g ca) ->
    exists ca', nth_error (heap s') n = Some (ORow c g ca').
  Proof.
    intros s s' n c g ca [EV _] H. destruct (evo_heap _ _ EV _ _ H) as (o' & H' & SO). inversion SO; subst; eauto.
  Qed.

  Lemma getters_row_ok : forall s n c g ca, tidy s -> nth_error (heap s) n = Some (ORow c g ca) ->
    (forall k x, assoc k g = Some x -> getter_ok s x) -> row_ok s n.
  Proof.
    intros s n c g ca TD H GS. split; [eauto|]. intros s' key L.
    destruct (row_stays _ _ _ _ _ _ L H) as [ca' H'].
    destruct (assoc key ca') as [v|] eqn:EC.
    { exists 0, s', (RVal (v, true)). split.
      - intros m _. unfold row_get, mbind, obj_of. rewrite H', EC. reflexivity.
      - split; [apply evolves_refl|]. split; [apply L|]. exact (td_cache _ _ _ (proj2 L) _ _ _ _ _ _ H' EC). }
    destruct (assoc key g) as [x|] eqn:EG.
    2:{ exists 0, s', (RVal (VNull, false)). split.
      - intros m _. unfold row_get, mbind, obj_of. rewrite H', EC, EG. reflexivity.
      - split; [apply evolves_refl|]. split; [apply L|]. reflexivity. }
    destruct (GS _ _ EG s' L) as (N & s1 & r & H1 & HR).
    destruct r as [v| |]; [|exists N, s1, RPanic; split; [|exact I]|contradiction].
    2:{ intros m Hm. unfold row_get, mbind, obj_of. rewrite H', EC, EG, H1 by lia. reflexivity. }
    destruct HR as (EV & TD1 & DV).
    destruct (row_stays _ _ _ _ _ _ (conj EV TD1) H') as [ca1 HH1].
    assert (RUN : forall m, N <= m -> row_get (R m) n key s' =
      (set_heap (set_nth n (ORow c g (dict_set key v ca1)) (heap s1)) s1, RVal (v, true))).
    { intros m Hm. unfold row_get, mbind, obj_of. rewrite H', EC, EG, H1 by lia. rewrite HH1. reflexivity. }
    exists N. eexists. eexists. split; [exact RUN|]. split; [|split; [|exact DV]].
    - assert (GR : forall y, grows _ (run_getter (R N) y) (run_getter (R N) y)).
      { intros y. apply (pa_run_getter grows grows_closed (ev E N) (ev E N)). apply evaluation_evolves. }
      pose proof (cl_row_get _ grows_closed (R N) (R N) n key GR s') as K.
      rewrite (RUN N (le_n N)) in K. exact K.
    - constructor.
      + intros i c' g' ca2 k w Hi A. cbn [heap set_heap] in Hi. rewrite nth_set_nth in Hi.
        destruct (Nat.eqb n i) eqn:EN.
        * apply Nat.eqb_eq in EN as <-. rewrite HH1 in Hi. injection Hi as <- <- <-.
          rewrite assoc_dict_set in A. destruct (String.eqb k key).
          -- injection A as <-. exact DV.
          -- exact (td_cache _ _ _ TD1 _ _ _ _ _ _ HH1 A).
        * exact (td_cache _ _ _ TD1 _ _ _ _ _ _ Hi A).
      + intros i e1 sc1 v1 Hi. cbn [heap set_heap] in Hi. rewrite nth_set_nth in Hi.
        destruct (Nat.eqb n i); [destruct (nth_error (heap s1) n); discriminate|].
        exact (td_lazy _ _ _ TD1 _ _ _ _ Hi).
      + exact (td_funs _ _ _ TD1).
  Qed.

  Lemma materialize_columns_halts : forall n g cols s c ca result, tidy s ->
    nth_error (heap s) n = Some (ORow c g ca) -> (forall k x, assoc k g = Some x -> getter_ok s x) ->
    forallb (fun kv => data (snd kv)) result = true ->
    halts (fun m => materialize_columns (R m) n cols result) s (fun _ d => forallb (fun kv => data (snd kv)) d = true).
  Proof.
    intros n g cols. induction cols as [|k cols IH]; intros s c ca result TD H GS DR; cbn [materialize_columns]; [now apply h_ret|].
    apply h_obj; [exact TD|]. rewrite H.
    eapply h_bind with (P := val_data).
    - destruct (assoc k ca) as [v|] eqn:EC; [apply h_ret; [exact TD|exact (td_cache _ _ _ TD _ _ _ _ _ _ H EC)]|].
      destruct (assoc k g) as [x|] eqn:EG; [|apply h_panic]. apply (GS _ _ EG). auto.
    - intros s1 v L1 DV. destruct (row_stays _ _ _ _ _ _ L1 H) as [ca1 H1].
      eapply IH; [apply L1|exact H1| |now apply data_dict_set].
      intros k' x K. eapply getter_ok_later; [exact L1|eauto].
  Qed.

  Lemma materialize_row_halts : forall n s c g ca, tidy s ->
    nth_error (heap s) n = Some (ORow c g ca) -> (forall k x, assoc k g = Some x -> getter_ok s x) ->
    halts (fun m => materialize_row (R m) (VOpaque n)) s val_data.
  Proof.
    intros n s c g ca TD H GS. unfold materialize_row. apply h_obj; [exact TD|]. rewrite H.
    eapply h_bind; [eapply materialize_columns_halts; [exact TD|exact H|exact GS|reflexivity]|].
    intros s1 d L1 D. apply h_ret; [apply L1|exact D].
  Qed.


  Definition getters_ok (s : st) (r : lrow) : Prop := forall k x, assoc k (snd r) = Some x -> getter_ok s x.
  Lemma getters_ok_later : forall s s' r, later s s' -> getters_ok s r -> getters_ok s' r.
  Proof. intros s s' r L H k x K. eapply getter_ok_later; [exact L|eauto]. Qed.
  Lemma getters_ok_add : forall s name g r, getter_ok s g -> getters_ok s r -> getters_ok s (add_column name g r).
  Proof.
    intros s name g r HG HR k x. unfold add_column. cbn [snd]. rewrite assoc_dict_set.
    destruct (String.eqb k name); [intros K; injection K as <-; exact HG|apply HR].
  Qed.
  Lemma const_ok : forall s v, data v = true -> getter_ok s (GConst v).
  Proof. intros s v D s' L. apply h_ret; [apply L|exact D]. Qed.

  Lemma data_concat : forall l, Forall (fun r => forallb data r = true) l -> forallb data (List.concat l) = true.
  Proof. intros l H. induction H as [|r l Hr _ IH]; cbn; [reflexivity|]. now rewrite forallb_app, Hr. Qed.

  (** ** One level of queries *)

  Section Query.
    Variable d : nat.
    Hypothesis SEL : sel_at (S d).
    Hypothesis EXT : exp_at true d.
    Hypothesis EXF : exp_at false d.

    Definition body_is (h : nat) (b : colbody) : Prop :=
      match b with CStar => True | CExpr e => exists k, simple true k e | CSelect s => simple_query h s end.

    Lemma subselect_halts : forall sc item s, data item = true -> tidy s ->
      halts (fun n => subselect_item (R n) sc item) s rows_data.
    Proof.
      intros sc item s D TD. unfold subselect_item. apply h_members; [exact TD|].
      assert (ONE : halts (fun _ => mret [item]) s rows_data).
      { apply h_ret; [exact TD|]. unfold rows_data. cbn. now rewrite D. }
      destruct (members_of (heap s) item) as [|m [|m' ms]]; try exact ONE.
      eapply h_bind; [apply assoc_data_halts; [exact D|exact TD]|]. intros s1 [v pres] L1 H1. cbv beta iota.
      apply h_ret; [apply L1|]. unfold rows_data, fst_data in *. cbn in H1. destruct pres; cbn; now rewrite ?H1.
    Qed.

    Lemma column_halts : forall h b sc s, S d <= sc_depth sc -> body_is h b -> scope_ok s sc -> tidy s ->
      halts (fun n => col_reduce (R n) sc b) s good.
    Proof.
      intros h b sc s DP HB SC TD. destruct b as [|q|e]; cbn [col_reduce body_is] in *.
      - apply h_ret; [exact TD|left; reflexivity].
      - eapply h_bind; [apply (SEL h); eassumption|]. intros s1 items L1 D1. cbv beta.
        eapply h_bind.
        + apply (h_mmap E owner _ _ _ (fun x => data x = true) (fun r => forallb data r = true)); [apply L1|now apply forallb_Forall|].
          intros x s2 Dx L2. apply subselect_halts; [exact Dx|apply L2].
        + intros s2 rows L2 D2. apply h_ret; [apply L2|]. left. apply data_concat in D2.
          destruct (List.concat rows) as [|x [|y l]]; [reflexivity| |exact D2]. cbn in D2. now apply andb_true_iff in D2.
      - destruct HB as (k & Hk). apply (EXT k); auto. lia.
    Qed.

    Lemma col_getter_ok : forall h b sc s, S d <= sc_depth sc -> body_is h b -> scope_ok s sc -> getter_ok s (GCol b sc).
    Proof.
      intros h b sc s DP HB SC s' L. cbn [run_getter].
      eapply h_bind; [eapply column_halts; [exact DP|exact HB|eapply scope_ok_later; eauto|apply L]|].
      intros s1 item L1 G1. cbv beta. apply h_obj; [apply L1|]. fold (obj_at s1 item).
      assert (K : halts (fun n => if is_query item (obj_at s1 item) then materialize (R n) sc item else mret item) s1 val_data).
      { destruct (is_query item (obj_at s1 item)) eqn:IQ.
        - apply materialize_halts; [eapply sel_at_le; [|exact SEL]; lia| |apply L1|exact G1|exact IQ].
          eapply scope_ok_later; [|exact SC]. eapply later_trans; eauto.
        - apply h_ret; [apply L1|]. destruct G1 as [D|(n & -> & [(q & H & _)|(t & sc' & H & _)])]; [exact D| |];
            cbn in IQ; rewrite H in IQ; discriminate. }
      destruct item; try exact K. apply h_ret; [apply L1|].
      destruct G1 as [D|(n & EQ & _)]; [exact D|discriminate].
    Qed.

    (** The columns of a row. *)
    Lemma star_halts : forall sc row ms r s, data row = true -> tidy s -> getters_ok s r ->
      halts (fun n => star_columns (R n) sc row ms r) s getters_ok.
    Proof.
      intros sc row ms. induction ms as [|m ms IH]; intros r s D TD GR; cbn [star_columns]; [now apply h_ret|].
      eapply h_bind; [apply assoc_data_halts; assumption|]. intros s1 [v pres] L1 H1. cbv beta iota.
      apply IH; [exact D|apply L1|]. destruct pres; [|eapply getters_ok_later; eauto].
      apply getters_ok_add; [apply const_ok; exact H1|eapply getters_ok_later; eauto].
    Qed.
    Lemma merge_halts : forall sc row ms r s, data row = true -> tidy s -> getters_ok s r ->
      halts (fun n => merge_star (R n) sc row ms r) s getters_ok.
    Proof.
      intros sc row ms. induction ms as [|m ms IH]; intros r s D TD GR; cbn [merge_star]; [now apply h_ret|].
      destruct (mem_str m (keys (snd r))); [now apply IH|].
      eapply h_bind; [apply assoc_data_halts; assumption|]. intros s1 [v pres] L1 H1. cbv beta iota.
      apply IH; [exact D|apply L1|]. destruct pres; [|eapply getters_ok_later; eauto].
      apply getters_ok_add; [apply const_ok; exact H1|eapply getters_ok_later; eauto].
    Qed.
    Lemma columns_halts : forall h sc new_scope row cols r s, S d <= sc_depth new_scope ->
      Forall (fun c => body_is h (snd c)) cols -> data row = true -> scope_ok s new_scope -> tidy s -> getters_ok s r ->
      halts (fun n => expr_columns (R n) sc new_scope row cols r) s getters_ok.
    Proof.
      intros h sc new_scope row cols. induction cols as [|[name b] cols IH]; intros r s DP HC D SC TD GR;
        cbn [expr_columns]; [now apply h_ret|]. inversion HC as [|? ? HB HC']; subst.
      destruct (String.eqb name "*").
      - apply h_members; [exact TD|]. eapply h_bind; [apply merge_halts; eassumption|]. intros s1 r1 L1 G1. cbv beta.
        apply IH; auto; [eapply scope_ok_later; eauto|apply L1].
      - apply IH; auto. apply getters_ok_add; [|exact GR]. now apply col_getter_ok with (h := h).
    Qed.

    Definition row_at (s : st) (t : val) : Prop :=
      exists n c g ca, t = VOpaque n /\ nth_error (heap s) n = Some (ORow c g ca) /\
        forall k x, assoc k g = Some x -> getter_ok s x.
    Lemma row_at_later : forall s s' t, later s s' -> row_at s t -> row_at s' t.
    Proof.
      intros s s' t L (n & c & g & ca & -> & H & K). destruct (row_stays _ _ _ _ _ _ L H) as [ca' H'].
      exists n, c, g, ca'. split; [reflexivity|]. split; [exact H'|]. intros k x A. eapply getter_ok_later; eauto.
    Qed.
    Lemma row_at_frame : forall s t, tidy s -> row_at s t -> frame_ok s t.
    Proof.
      intros s t TD (n & c & g & ca & -> & H & K). right. right. exists n. split; [reflexivity|].
      eapply getters_row_ok; eauto.
    Qed.
    Lemma row_at_materialize : forall s t, tidy s -> row_at s t -> halts (fun n => materialize_row (R n) t) s val_data.
    Proof. intros s t TD (n & c & g & ca & -> & H & K). eapply materialize_row_halts; eauto. Qed.

    Lemma transform_halts : forall h sc star cols row s, d <= sc_depth sc -> Forall (fun c => body_is h (snd c)) cols ->
      data row = true -> scope_ok s sc -> tidy s -> halts (fun n => transform (R n) sc star cols row) s row_at.
    Proof.
      intros h sc star cols row s DP HC D SC TD. unfold transform.
      eapply h_bind with (P := getters_ok).
      { assert (E0 : getters_ok s ([], [])) by (intros k x K; discriminate).
        destruct star; [|now apply h_ret]. apply h_members; [exact TD|]. now apply star_halts. }
      intros s1 r L1 G1. cbv beta.
      eapply h_bind; [apply columns_halts with (h := h); [cbn; lia|exact HC|exact D| |apply L1|exact G1]|].
      { apply scope_ok_append; [apply scope_ok_copy; eapply scope_ok_later; eauto|left; exact D]. }
      intros s2 r2 L2 G2. cbv beta.
      eapply h_ext with (m' := fun _ => mbind (alloc (ORow (fst r2) (snd r2) [])) mret).
      { intros n. unfold mbind, alloc, mret. reflexivity. }
      apply h_alloc; [apply L2|now cbn|]. intros s3 L3 H3.
      apply h_ret; [apply L3|]. exists (List.length (heap s2)), (fst r2), (snd r2), []. split; [reflexivity|]. split; [exact H3|].
      intros k x A. eapply getter_ok_later; [exact L3|eauto].
    Qed.

    Lemma accepts_halts : forall sc s v, d <= sc_depth sc -> scope_ok s sc -> tidy s -> good s v ->
      halts (fun n => accepts E (R n) sc v) s (fun _ _ => True).
    Proof.
      intros sc s v DP SC TD G. unfold accepts.
      assert (T : halts (fun n => truth E (R n) sc v) s (fun _ _ => True)).
      { apply truth_halts; auto. eapply sel_at_le; [|exact SEL]; lia. }
      destruct v; try exact T. apply h_ret; [exact TD|exact I].
    Qed.

    Definition clause (o : option expr) : Prop := opt_is (fun e => exists k, simple true k e) o.

    Lemma process_halts : forall h sc star cols where_ row s, d <= sc_depth sc -> Forall (fun c => body_is h (snd c)) cols ->
      clause where_ -> data row = true -> scope_ok s sc -> tidy s ->
      halts (fun n => process_row E (R n) sc star cols where_ row) s rows_data.
    Proof.
      intros h sc star cols where_ row s DP HC HW D SC TD. unfold process_row.
      eapply h_bind; [apply transform_halts with (h := h); [cbn; lia|exact HC|exact D|now apply scope_ok_copy|exact TD]|].
      intros s1 t L1 R1. cbv beta.
      assert (OUT : forall s2, later s1 s2 -> halts (fun n => r <- materialize_row (R n) t ;; mret [r]) s2 rows_data).
      { intros s2 L2. eapply h_bind; [apply row_at_materialize; [apply L2|eapply row_at_later; eauto]|].
        intros s3 r L3 DR. apply h_ret; [apply L3|]. unfold rows_data. cbn. now rewrite DR. }
      destruct where_ as [w|]; [|apply OUT; apply later_refl; apply L1].
      unfold clause in HW; cbn [opt_is] in HW; destruct HW as (k & HW).
      eapply h_bind.
      { apply (EXT k); [cbn; lia| |apply L1|exact HW].
        apply scope_ok_append; [|now apply row_at_frame; [apply L1|]].
        apply scope_ok_append; [|left; exact D]. exact (scope_ok_later _ _ _ L1 SC). }
      intros s2 v L2 G2. cbv beta.
      eapply h_bind; [apply accepts_halts; [exact DP| |apply L2|exact G2]|].
      { eapply scope_ok_later; [|exact SC]. eapply later_trans; eauto. }
      intros s3 b L3 _. cbv beta. destruct b; [|apply h_ret; [apply L3|reflexivity]].
      apply OUT. eapply later_trans; eauto.
    Qed.

    (** Sorting. *)
    Lemma sort_halts : forall sc key desc rows s, forallb data rows = true -> tidy s ->
      halts (fun n => sort_rows E (R n) sc key desc rows) s rows_data.
    Proof.
      intros sc key desc rows s D TD. unfold sort_rows.
      eapply h_bind.
      - apply (h_mmap E owner _ _ _ (fun x => data x = true) (fun r => data (fst r) = true)); [exact TD|now apply forallb_Forall|].
        intros x s1 Dx L1. apply assoc_data_halts; [exact Dx|apply L1].
      - intros s1 ks L1 _. apply h_ret; [apply L1|]. unfold rows_data. apply forallb_forall. intros x Hx.
        apply in_map_iff in Hx as ([k y] & <- & Hy). apply (ct_sort E CT) in Hy. apply in_combine_r in Hy.
        rewrite forallb_forall in D. now apply D.
    Qed.

    (** Grouping. *)
    Lemma tostring_arr : forall sc rows s, tidy s -> halts (fun n => r_tostring (R n) sc (VArr rows)) s (fun _ _ => True).
    Proof.
      intros sc rows s TD. apply h_tostring. unfold tostring_step. apply h_obj; [exact TD|]. cbn [is_lazy is_query].
      apply h_ret; [exact TD|exact I].
    Qed.
    Lemma tostring_halts : forall sc s v, d <= sc_depth sc -> scope_ok s sc -> tidy s -> good s v ->
      halts (fun n => r_tostring (R n) sc v) s (fun _ _ => True).
    Proof.
      intros sc s v DP SC TD G. apply h_tostring. unfold tostring_step. apply h_obj; [exact TD|]. fold (obj_at s v).
      rewrite (good_not_lazy s v G).
      assert (K : halts (fun n => if is_query v (obj_at s v) then rows <- materialize_rows (R n) sc v ;; r_tostring (R n) sc (VArr rows)
             else match v with VStr x => mret x | _ => mret (env_sprint E v) end) s (fun _ _ => True)).
      { destruct (is_query v (obj_at s v)) eqn:IQ.
        - unfold materialize_rows. eapply h_bind; [apply query_halts; [eapply sel_at_le; [|exact SEL]; cbn; lia|now apply scope_ok_copy|exact TD|exact G|exact IQ]|].
          intros s1 rows L1 _. apply tostring_arr. apply L1.
        - destruct v; apply h_ret; auto. }
      destruct v; try exact K. apply tostring_arr; exact TD.
    Qed.

    Definition bins_data (_ : st) (bins : list bin) : Prop := Forall (fun b => data (snd (snd b)) = true) bins.

    Lemma group_row_halts : forall h sc star cols where_ g row bins s, d <= sc_depth sc -> Forall (fun c => body_is h (snd c)) cols ->
      clause where_ -> (exists k, simple true k g) -> data row = true -> bins_data s bins -> scope_ok s sc -> tidy s ->
      halts (fun n => group_row E (R n) sc star cols where_ g row bins) s bins_data.
    Proof.
      intros h sc star cols where_ g row bins s DP HC HW (kg & HG) D HB SC TD. unfold group_row.
      pose proof (cl_own_cell _ grows_closed (copy sc) s) as EV. cbn [own_cell fst] in EV.
      pose proof (later_same _ _ EV eq_refl eq_refl TD) as L0.
      eapply (h_step E owner _ _ (fun _ => own_cell (copy sc)) _ s _ _ 0); [reflexivity|exact L0|]. cbv beta.
      set (s0 := set_cells _ s) in *. set (rs := {| sc_vars := _; sc_depth := _; sc_cell := _ |}).
      assert (SC0 : forall s2, later s0 s2 -> scope_ok s2 rs).
      { intros s2 L2. change (scope_ok s2 sc). eapply scope_ok_later; [|exact SC]. eapply later_trans; eauto. }
      eapply h_bind; [apply transform_halts with (h := h); [cbn; lia|exact HC|exact D|apply SC0; apply later_refl; apply L0|apply L0]|].
      intros s1 t L1 R1. cbv beta zeta.
      assert (NS : forall s2, later s1 s2 -> scope_ok s2 (append_vars t (append_vars row rs))).
      { intros s2 L2. apply scope_ok_append; [apply scope_ok_append; [apply SC0; eapply later_trans; eauto|left; exact D]|].
        apply row_at_frame; [apply L2|eapply row_at_later; eauto]. }
      eapply h_bind with (P := fun _ _ => True).
      { destruct where_ as [w|]; [|apply h_ret; [apply L1|exact I]].
        unfold clause in HW; cbn [opt_is] in HW; destruct HW as (k & HW).
        eapply h_bind; [apply (EXT k); [cbn; lia|apply NS; apply later_refl; apply L1|apply L1|exact HW]|].
        intros s2 v L2 G2. apply accepts_halts; [exact DP| |apply L2|exact G2].
        change (scope_ok s2 rs). apply SC0. eapply later_trans; eauto. }
      intros s2 ok L2 _. cbv beta. destruct (negb ok); [apply h_ret; [apply L2|exact HB]|].
      eapply h_bind; [apply (EXT kg); [cbn; lia|apply NS; exact L2|apply L2|exact HG]|].
      intros s3 v L3 G3. cbv beta. assert (L13 : later s1 s3) by (eapply later_trans; eauto).
      eapply h_bind; [apply tostring_halts; [cbn; lia|apply NS; exact L13|apply L3|exact G3]|].
      intros s4 key L4 _. cbv beta. assert (L14 : later s1 s4) by (eapply later_trans; eauto).
      eapply h_bind with (P := fun _ _ => True).
      { destruct (assoc key bins) as [[c r]|]; [apply h_ret; [apply L4|exact I]|].
        pose proof (cl_new_ctx _ grows_closed s4) as EV4. unfold new_ctx in EV4. cbn [fst] in EV4.
        pose proof (later_same _ _ EV4 eq_refl eq_refl (proj2 L4)) as [A B].
        exists 0. eexists. eexists. split; [reflexivity|]. split; [exact A|]. split; [exact B|exact I]. }
      intros s5 ctx L5 _. cbv beta. assert (L15 : later s1 s5) by (eapply later_trans; eauto).
      pose proof (cl_set_agg _ grows_closed rs ctx s5) as EV5. unfold set_agg in EV5. cbn [fst] in EV5.
      pose proof (later_same _ _ EV5 eq_refl eq_refl (proj2 L5)) as L6.
      eapply (h_step E owner _ _ (fun _ => set_agg rs ctx) _ s5 _ _ 0); [reflexivity|exact L6|]. cbv beta.
      eapply h_bind; [apply row_at_materialize; [apply L6|eapply row_at_later; [|exact R1]; eapply later_trans; eauto]|].
      intros s7 r L7 DR. apply h_ret; [apply L7|].
      unfold bins_data in *. clear - HB DR. induction HB as [|[k b] bins Hb HB IH]; cbn [bin_set]; [repeat constructor; exact DR|].
      destruct (String.eqb key k); constructor; auto.
    Qed.

    Lemma group_rows_halts : forall h sc star cols where_ g rows bins s, d <= sc_depth sc -> Forall (fun c => body_is h (snd c)) cols ->
      clause where_ -> (exists k, simple true k g) -> forallb data rows = true -> bins_data s bins -> scope_ok s sc -> tidy s ->
      halts (fun n => group_rows E (R n) sc star cols where_ g rows bins) s bins_data.
    Proof.
      intros h sc star cols where_ g rows. induction rows as [|row rows IH]; intros bins s DP HC HW HG D HB SC TD;
        cbn [group_rows]; [now apply h_ret|]. cbn in D. apply andb_true_iff in D as [D1 D2].
      eapply h_bind; [apply group_row_halts with (h := h); eassumption|]. intros s1 b1 L1 B1. cbv beta.
      apply IH; auto; [eapply scope_ok_later; eauto|apply L1].
    Qed.

    (** FROM. *)
    Lemma evalsym_good : forall sc s v, d <= sc_depth sc -> scope_ok s sc -> tidy s -> good s v ->
      halts (fun n => r_evalsym (R n) sc v) s rows_data.
    Proof.
      intros sc s v DP SC TD G. apply h_evalsym. unfold evalsym_step.
      destruct (overflow sc); [apply h_ret; [exact TD|reflexivity]|]. apply h_obj; [exact TD|]. fold (obj_at s v).
      assert (K : halts (fun n => if is_query v (obj_at s v) then r_query (R n) sc v
          else match arr_elems v with Some l => mret l | None => mret [v] end) s rows_data).
      { destruct (is_query v (obj_at s v)) eqn:IQ.
        - apply query_halts; auto. eapply sel_at_le; [|exact SEL]. lia.
        - destruct G as [D|(n & -> & [(q & H & _)|(t & sc' & H & _)])]; [| |];
            try (cbn in IQ; rewrite H in IQ; discriminate).
          destruct v; cbn [arr_elems]; apply h_ret; try exact TD; unfold rows_data; cbn in *; rewrite ?D; reflexivity. }
      destruct (obj_at s v) as [[]|] eqn:OA; try exact K.
      destruct G as [D|(n & -> & [(q & H & _)|(t & sc' & H & _)])].
      - rewrite data_obj in OA by exact D. discriminate.
      - cbn in OA. congruence.
      - cbn in OA. congruence.
    Qed.

    Lemma evalsym_entry : forall sc s v, d <= sc_depth sc -> scope_ok s sc -> tidy s -> entry s v ->
      halts (fun n => r_evalsym (R n) sc v) s rows_data.
    Proof.
      intros sc s v DP SC TD [G|(n & e & -> & H & [(k & B) _])]; [now apply evalsym_good|].
      apply h_evalsym. unfold evalsym_step. destruct (overflow sc); [apply h_ret; [exact TD|reflexivity]|].
      apply h_obj; [exact TD|]. rewrite H.
      eapply h_bind; [apply (EXT k); eassumption|]. intros s1 v L1 G1.
      apply evalsym_good; [exact DP|eapply scope_ok_later; eauto|apply L1|exact G1].
    Qed.

    Lemma expand_halts : forall sc args vars s, d <= sc_depth sc -> scope_ok s sc -> tidy s -> all_good s args -> all_good s vars ->
      halts (fun n => expand_args (R n) sc args vars) s all_good.
    Proof.
      intros sc args. induction args as [|[k v] args IH]; intros vars s DP SC TD GA GV; cbn [expand_args]; [now apply h_ret|].
      inversion GA as [|? ? G1 G2]; subst. cbn [snd] in G1. apply h_obj; [exact TD|]. fold (obj_at s v).
      rewrite (good_not_lazy s v G1).
      eapply h_bind with (P := good).
      - assert (K : halts (fun n => if is_query v (obj_at s v) then rows <- materialize_rows (R n) sc v ;; mret (VArr rows)
                          else mret v) s good).
        { destruct (is_query v (obj_at s v)) eqn:IQ; [|now apply h_ret]. unfold materialize_rows.
          eapply h_bind; [apply query_halts; [eapply sel_at_le; [|exact SEL]; cbn; lia|now apply scope_ok_copy|exact TD|exact G1|exact IQ]|].
          intros s1 rows L1 DR. apply h_ret; [apply L1|left; exact DR]. }
        destruct v; try exact K. apply h_ret; [exact TD|]. destruct G1 as [D|(n & EQ & _)]; [left; exact D|discriminate].
      - intros s1 w L1 GW. apply IH; [exact DP|eapply scope_ok_later; eauto|apply L1|eapply all_good_later; eauto|].
        apply Forall_dict_set; [exact GW|eapply all_good_later; eauto].
    Qed.

    (** ** Arguments of plugins: also queries, which run at the depth of the
        caller *)

    Definition runs (s : st) (v : val) : Prop := forall s' sc, later s s' -> scope_ok s' sc -> d <= sc_depth sc ->
      halts (fun n => r_query (R n) sc v) s' rows_data.
    Definition parg (s : st) (v : val) : Prop :=
      good s v \/ exists n q, v = VOpaque n /\ nth_error (heap s) n = Some (OSelect q) /\ runs s v.
    Definition lazy_ok (s : st) (v : val) : Prop :=
      forall s', later s s' -> halts (fun n => r_reduce (R n) v) s' parg.

    Lemma runs_later : forall s s' v, later s s' -> runs s v -> runs s' v.
    Proof. intros s s' v L H s2 sc2 L2. apply H. eapply later_trans; eauto. Qed.
    Lemma parg_later : forall s s' v, later s s' -> parg s v -> parg s' v.
    Proof.
      intros s s' v L [G|(n & q & -> & H & K)]; [left; eapply good_later; eauto|].
      right. exists n, q. split; [reflexivity|]. split; [exact (stays _ _ _ _ L H)|eapply runs_later; eauto].
    Qed.
    Lemma lazy_ok_later : forall s s' v, later s s' -> lazy_ok s v -> lazy_ok s' v.
    Proof. intros s s' v L H s2 L2. apply H. eapply later_trans; eauto. Qed.

    Lemma parg_not_lazy : forall s v, parg s v -> is_lazy (obj_at s v) = false.
    Proof. intros s v [G|(n & q & -> & H & _)]; [now apply good_not_lazy|]. cbn. now rewrite H. Qed.
    Lemma parg_reduce : forall s v n, parg s v -> r_reduce (R (S n)) v s = (s, RVal v).
    Proof.
      intros s v n [G|(m & q & -> & H & _)]; [now apply good_reduce|].
      cbn [ev step r_reduce]. unfold reduce_step, mbind, obj_of, mret. now rewrite H.
    Qed.
    Lemma h_preduced : forall B v (f : nat -> val -> EM B) s Q, tidy s -> parg s v ->
      halts (fun n => f n v) s Q -> halts (fun n => mbind (r_reduce (R n) v) (f n)) s Q.
    Proof.
      intros B v f s Q TD G H. eapply (h_step E owner _ _ (fun n => r_reduce (R n) v) f s s v 1); [|auto|exact H].
      intros n Hn. destruct n as [|n]; [lia|]. now apply parg_reduce.
    Qed.
    Lemma parg_query_later : forall s s' v, later s s' -> parg s v ->
      is_query v (obj_at s' v) = is_query v (obj_at s v).
    Proof.
      intros s s' v L [[D|(n & -> & [(q & H & _)|(t & sc' & H & _)])]|(n & q & -> & H & _)].
      - now rewrite !is_query_data.
      - cbn. rewrite H. pose proof (stays _ _ _ _ L H) as K. cbn in K. now rewrite K.
      - cbn. rewrite H. pose proof (stays _ _ _ _ L H) as K. cbn in K. now rewrite K.
      - cbn. rewrite H. pose proof (stays _ _ _ _ L H) as K. cbn in K. now rewrite K.
    Qed.
    Lemma parg_runs : forall s v, parg s v -> is_query v (obj_at s v) = true -> runs s v.
    Proof.
      intros s v PA IQ. destruct PA as [G|(n & q & -> & H & K)]; [|exact K].
      intros s' sc' L SC' DP. apply query_halts; [eapply sel_at_le; [|exact SEL]; lia|exact SC'|apply L|eapply good_later; eauto|].
      rewrite (parg_query_later s s' v L); [exact IQ|now left].
    Qed.
    Lemma parg_data : forall s v, parg s v -> is_query v (obj_at s v) = false -> data v = true.
    Proof.
      intros s v [[D|(n & -> & [(q & H & _)|(t & sc' & H & _)])]|(n & q & -> & H & _)] IQ; [exact D| | |];
        cbn in IQ; rewrite H in IQ; discriminate.
    Qed.
    Lemma data_parg : forall s v, data v = true -> parg s v.
    Proof. intros s v D. left. left. exact D. Qed.

    Lemma data_slice : forall l, forallb data l = true -> forallb data (slice_iterator l) = true.
    Proof.
      induction l as [|x l IH]; intros H; [reflexivity|]. cbn in H. apply andb_true_iff in H as [H1 H2].
      cbn [slice_iterator]. destruct (is_nil x); [auto|].
      destruct x; cbn [forallb data value_row snd]; rewrite ?IH by exact H2; cbn in *; rewrite ?H1; auto; discriminate.
    Qed.
    Lemma data_iterate : forall v, data v = true -> forallb data (iterate (env_iter E) v) = true.
    Proof.
      intros v D.
      assert (F : match first1 (env_iter E) v with Some rows => rows | None => if is_nil v then [] else [value_row v] end =
        match first1 (env_iter E) v with Some rows => rows | None => if is_nil v then [] else [value_row v] end ->
        forallb data (match first1 (env_iter E) v with Some rows => rows | None => if is_nil v then [] else [value_row v] end) = true).
      { intros _. destruct (first1 (env_iter E) v) as [rows|] eqn:F.
        - assert (exists i, In i (env_iter E) /\ i v = Some rows) as (i & Hi & HV).
          { revert F. generalize (env_iter E). clear. induction l as [|i l IH]; cbn; [discriminate|].
            destruct (i v) eqn:K; [intros Z; injection Z as <-; eauto|]. intros Z. destruct (IH Z) as (j & ? & ?). eauto. }
          eapply (ct_iter E CT); eauto.
        - destruct (is_nil v); [reflexivity|]. cbn. now rewrite D. }
      specialize (F eq_refl).
      destruct v; cbn [iterate arr_elems] in *; try exact F; try (now apply data_slice).
      - cbn in *. now rewrite D.
      - exact D.
    Qed.

    Lemma iterate_halts : forall B sc v (f : nat -> list val -> EM B) s Q, d <= sc_depth sc -> scope_ok s sc -> tidy s -> parg s v ->
      (forall s1 rows, later s s1 -> forallb data rows = true -> halts (fun n => f n rows) s1 Q) ->
      halts (fun n => o <- obj_of v ;; rows <- (if is_query v o then r_query (R n) sc v else mret (iterate (env_iter E) v)) ;; f n rows) s Q.
    Proof.
      intros B sc v f s Q DP SC TD PA HF. apply h_obj; [exact TD|]. fold (obj_at s v).
      eapply h_bind with (P := rows_data); [|intros s1 rows L1 D1; now apply HF].
      destruct (is_query v (obj_at s v)) eqn:IQ; [apply (parg_runs s v PA IQ); auto|].
      apply h_ret; [exact TD|]. apply data_iterate. eapply parg_data; eauto.
    Qed.

    Lemma truth_parg : forall sc s v, d <= sc_depth sc -> scope_ok s sc -> tidy s -> parg s v ->
      halts (fun n => truth E (R n) sc v) s (fun _ _ => True).
    Proof.
      intros sc s v DP SC TD PA. unfold truth. apply h_preduced; auto. apply h_obj; auto. fold (obj_at s v).
      assert (B : halts (fun n => if is_query v (obj_at s v) then rows <- r_query (R n) (copy sc) v ;;
          mret (match rows with [] => false | _ => true end) else mret (bool_disp (p_bool (env_protos E)) v)) s (fun _ _ => True)).
      { destruct (is_query v (obj_at s v)) eqn:IQ; [|now apply h_ret].
        eapply h_bind; [apply (parg_runs s v PA IQ); auto; cbn; lia|].
        intros s1 rows L _. apply h_ret; [apply L|exact I]. }
      destruct v; try exact B. now apply h_ret.
    Qed.

    Lemma reduce_ws_parg : forall sc s v, tidy s -> parg s v -> halts (fun n => r_reduce_ws (R n) sc v) s parg.
    Proof.
      intros sc s v TD PA. apply h_reduce_ws. unfold reduce_ws_step. apply h_obj; [exact TD|]. fold (obj_at s v).
      pose proof (parg_not_lazy s v PA) as NL.
      destruct (obj_at s v) as [[]|]; try discriminate NL; (apply h_ret; [exact TD|exact PA]).
    Qed.

    Lemma wrap_row_halts : forall v s, tidy s -> data v = true -> halts (fun _ => wrap_row v) s rows_data.
    Proof.
      intros v s TD D. unfold wrap_row. destruct (is_nil v); [now apply h_ret|].
      apply h_members; [exact TD|]. apply h_ret; [exact TD|]. unfold rows_data.
      destruct (members_of (heap s) v); cbn; now rewrite D.
    Qed.
    Lemma wrapper_halts : forall v s, tidy s -> data v = true -> halts (fun _ => wrapper_rows v) s rows_data.
    Proof.
      intros v s TD D. destruct v; cbn [wrapper_rows]; try (now apply wrap_row_halts).
      - apply h_panic.
      - now apply h_ret.
      - eapply (h_bind E owner _ _ (fun _ => mmap wrap_row l) (fun _ rs => mret (List.concat rs))).
        + apply (h_mmap E owner _ _ (fun _ => wrap_row) (fun x => data x = true) (fun r => forallb data r = true)); [exact TD|now apply forallb_Forall|].
          intros x s1 Dx L1. apply wrap_row_halts; [apply L1|exact Dx].
        + intros s1 rs L1 D1. apply h_ret; [apply L1|now apply data_concat].
    Qed.

    Lemma stored_halts : forall s v, tidy s -> parg s v -> halts (fun n => to_stored_query (R n) v) s runs.
    Proof.
      intros s v TD PA. unfold to_stored_query. apply h_preduced; auto. apply h_obj; auto. fold (obj_at s v).
      destruct (is_query v (obj_at s v)) eqn:IQ; [apply h_ret; [exact TD|now apply parg_runs]|].
      pose proof (parg_data s v PA IQ) as D.
      eapply h_ext with (m' := fun _ => mbind (alloc (OWrapper v)) mret); [reflexivity|].
      apply h_alloc; [exact TD|now cbn|]. intros s1 L1 H1. apply h_ret; [apply L1|].
      intros s2 sc2 L2 SC2 DP2. apply h_query. unfold query_step. apply h_obj; [apply L2|].
      pose proof (stays _ _ _ _ L2 H1) as K. cbn in K. rewrite K. apply wrapper_halts; [apply L2|exact D].
    Qed.

    Lemma to_lazy_halts : forall s v, tidy s -> parg s v -> halts (fun _ => to_lazy_expr v) s lazy_ok.
    Proof.
      intros s v TD PA. unfold to_lazy_expr. apply h_obj; auto. fold (obj_at s v). rewrite (parg_not_lazy s v PA).
      assert (K : forall o, o = OLazyQuery v \/ o = OLazyVal v -> halts (fun _ => alloc o) s lazy_ok).
      { intros o HO. eapply h_ext with (m' := fun _ => mbind (alloc o) mret); [reflexivity|].
        apply h_alloc; [exact TD|destruct HO; subst o; now cbn|]. intros s1 L1 H1. apply h_ret; [apply L1|].
        intros s2 L2. eapply (h_shift E owner _ _ (fun n => reduce_step (R n) (VOpaque (List.length (heap s))))); [reflexivity|].
        unfold reduce_step. apply h_obj; [apply L2|].
        assert (nth_error (heap s2) (List.length (heap s)) = Some o) as ->.
        { pose proof (stays _ _ _ _ L2 H1) as Z. destruct HO; subst o; exact Z. }
        assert (P2 : parg s2 v) by (eapply parg_later; [|exact PA]; eapply later_trans; eauto).
        destruct HO; subst o; (apply h_ret; [apply L2|exact P2]). }
      destruct (is_query v (obj_at s v)); apply K; auto.
    Qed.

    (** ** The argument parser on them *)

    Lemma to_int64_int64 : forall v z, to_int64 v = Some z -> is_int64 z.
    Proof.
      intros v z H. destruct v; try discriminate H; cbn [to_int64] in H.
      - injection H as <-. unfold is_int64, two63. destruct b; lia.
      - destruct k; try discriminate; injection H as <-; apply wrap64_range.
      - injection H as <-. unfold f_to_int64.
        destruct (f_int_part f) as [q|]; [|unfold is_int64, two63; lia].
        destruct (Z.leb_spec (- two63) q), (Z.ltb_spec q two63); cbn [andb]; unfold is_int64, two63 in *; lia.
    Qed.

    Definition fits (s : st) (t : ftype) (v : val) : Prop :=
      match t with
      | TAny => parg s v | TStored => runs s v | TLazy => lazy_ok s v
      | TInt64 => match v with VInt _ z => is_int64 z | _ => True end
      | _ => True
      end.
    Definition plain_type (t : ftype) : bool :=
      match t with TAny | TStored | TLazy | TBool | TInt64 | TString => true | _ => false end.

    Lemma fits_later : forall s s' t v, later s s' -> fits s t v -> fits s' t v.
    Proof.
      intros s s' t v L. destruct t; cbn [fits]; auto;
        first [now apply lazy_ok_later|now apply runs_later|now apply parg_later].
    Qed.


    Lemma coerce_halts : forall sc t v s, d <= sc_depth sc -> scope_ok s sc -> tidy s -> parg s v -> plain_type t = true ->
      halts (fun n => coerce (r_reduce (R n)) (r_reduce_ws (R n) sc) (truth E (R n) sc) members
        (fun a k => r_assoc (R n) sc a (KVal (VStr k))) (env_sprint E) (to_stored_query (R n)) to_lazy_expr
        (row_to_dict (R n) sc) t v) s (fun s1 o => match o with Some w => fits s1 t w | None => True end).
    Proof.
      intros sc t v s DP SC TD PA PT. destruct t; try discriminate PT; cbn [coerce fits].
      - eapply h_bind; [now apply reduce_ws_parg|]. intros s1 w L1 H1. apply h_ret; [apply L1|exact H1].
      - eapply h_bind; [now apply stored_halts|]. intros s1 w L1 H1. apply h_ret; [apply L1|exact H1].
      - eapply h_bind; [now apply to_lazy_halts|]. intros s1 w L1 H1. apply h_ret; [apply L1|exact H1].
      - apply h_preduced; auto.
        eapply h_bind with (P := fun _ _ => True); [|intros s1 x L1 _; apply h_ret; [apply L1|exact I]].
        destruct (is_array v) eqn:AR; [|now apply h_ret].
        assert (D : data v = true). { destruct v; try discriminate AR; eapply parg_data; eauto. }
        eapply h_bind with (P := fun _ _ => True); [|intros s1 x L1 _; apply h_ret; [apply L1|exact I]].
        unfold extract_string_array. apply h_preduced; auto.
        destruct v; try discriminate AR; cbn [arr_elems].
        + eapply h_bind with (P := fun _ _ => True); [now apply h_ret|]. intros s1 x L1 _. apply h_ret; [apply L1|exact I].
        + eapply h_bind; [|intros s1 x L1 _; apply h_ret; [apply L1|exact I]].
          apply (h_mmap E owner _ _ (fun n => string_elem members (fun a k => r_assoc (R n) sc a (KVal (VStr k))) (env_sprint E))
            (fun x => data x = true) (fun _ => True)); [exact TD|now apply forallb_Forall|].
          intros x s1 Dx L1. apply string_elem_halts; [apply L1|exact Dx].
      - apply h_preduced; auto. eapply h_bind; [now apply truth_parg|]. intros s1 b L1 _. apply h_ret; [apply L1|exact I].
      - apply h_preduced; auto. apply h_ret; [exact TD|]. destruct (to_int64 v) eqn:TI; [|exact I]. eapply to_int64_int64; eauto.
    Qed.

    Definition all_parg (s : st) (l : list (string * val)) : Prop := Forall (fun kv => parg s (snd kv)) l.
    Lemma all_parg_later : forall s s' l, later s s' -> all_parg s l -> all_parg s' l.
    Proof. intros s s' l L H. eapply Forall_impl; [|exact H]. intros kv. now apply parg_later. Qed.

    Lemma set_field_fits : forall s t v types target i, Forall2 (fits s) types target -> nth_error types i = Some t -> fits s t v ->
      Forall2 (fits s) types (set_field i v target).
    Proof.
      intros s t v types target i H. revert i. induction H as [|t0 x types target H0 H IH]; intros i HI HV; [destruct i; constructor|].
      destruct i as [|i]; cbn [set_field]; [cbn in HI; injection HI as ->; constructor; auto|constructor; auto].
    Qed.
    Lemma set_field_other : forall v target i j, i <> j -> nth_error (set_field i v target) j = nth_error target j.
    Proof.
      intros v target. induction target as [|x target IH]; intros i j NE; [destruct i; reflexivity|].
      destruct i as [|i]; destruct j as [|j]; cbn; auto. congruence.
    Qed.

    (** The struct afterwards; a field whose argument is missing is as it
        was. *)
    Definition kept (fields : list fieldp) (args : list (string * val)) (old new : list val) : Prop :=
      forall i, (forall f, In f fields -> fp_idx f = i -> assoc (fp_name f) args = None) -> nth_error new i = nth_error old i.

    Lemma fields_halt : forall sc types args fields parsed target s,
      d <= sc_depth sc -> scope_ok s sc -> tidy s -> all_parg s args ->
      Forall (fun f => plain_type (fp_type f) = true /\ nth_error types (fp_idx f) = Some (fp_type f)) fields ->
      Forall2 (fits s) types target ->
      halts (fun n => parse_fields (r_reduce (R n)) (r_reduce_ws (R n) sc) (truth E (R n) sc) members
        (fun a k => r_assoc (R n) sc a (KVal (VStr k))) (env_sprint E) (to_stored_query (R n)) to_lazy_expr
        (row_to_dict (R n) sc) fields args parsed target) s
        (fun s1 r => Forall2 (fits s1) types (snd (fst r)) /\ kept fields args target (snd (fst r))).
    Proof.
      intros sc types args fields. induction fields as [|f fields IH]; intros parsed target s DP SC TD GA HF HT; cbn [parse_fields].
      - apply h_ret; [exact TD|]. split; [exact HT|]. intros i _. reflexivity.
      - inversion HF as [|? ? [PT NT] HF']; subst. destruct (assoc (fp_name f) args) as [v|] eqn:AS.
        + assert (PA : parg s v).
          { apply assoc_in in AS. unfold all_parg in GA. rewrite Forall_forall in GA. exact (GA _ AS). }
          eapply h_bind; [now apply coerce_halts|]. intros s1 o L1 H1. cbv beta.
          assert (HT1 : Forall2 (fits s1) types target).
          { clear - L1 HT. induction HT; constructor; [eapply fits_later; eauto|assumption]. }
          destruct o as [w|].
          * destruct (set_ok (fp_type f) w); [|apply h_panic].
            eapply h_conseq; [apply IH; [exact DP|eapply scope_ok_later; eauto|apply L1|eapply all_parg_later; eauto|exact HF'|]|].
            { eapply set_field_fits; eauto. }
            intros s2 r L2 [R1 R2]. split; [exact R1|]. intros i Hi. rewrite R2; [apply set_field_other|].
            { intros E2. specialize (Hi f (or_introl eq_refl) E2). congruence. }
            { intros g Hg. apply Hi. now right. }
          * apply h_ret; [apply L1|]. split; [exact HT1|]. intros i _. reflexivity.
        + destruct (fp_required f).
          * apply h_ret; [exact TD|]. split; [exact HT|]. intros i _. reflexivity.
          * eapply h_conseq; [apply IH; auto|]. intros s2 r L2 [R1 R2]. split; [exact R1|].
            intros i Hi. apply R2. intros g Hg. apply Hi. now right.
    Qed.

    Lemma parse_halts : forall sc types args fields target s,
      d <= sc_depth sc -> scope_ok s sc -> tidy s -> all_parg s args ->
      Forall (fun f => plain_type (fp_type f) = true /\ nth_error types (fp_idx f) = Some (fp_type f)) fields ->
      Forall2 (fits s) types target ->
      halts (fun n => parse_args E (R n) sc fields args target) s
        (fun s1 r => Forall2 (fits s1) types (fst r) /\ (assoc "**"%string args = None -> kept fields args target (fst r))).
    Proof.
      intros sc types args fields target s DP SC TD GA HF HT. unfold parse_args, extract_args, normalize_args.
      assert (NEXT : forall args', all_parg s args' -> halts (fun n => parse (r_reduce (R n)) (r_reduce_ws (R n) sc) (truth E (R n) sc) members
        (fun a k => r_assoc (R n) sc a (KVal (VStr k))) (env_sprint E) (to_stored_query (R n)) to_lazy_expr
        (row_to_dict (R n) sc) fields args' target) s
        (fun s1 r => Forall2 (fits s1) types (fst r) /\ kept fields args' target (fst r))).
      { intros args' GA'. unfold parse. eapply h_bind; [apply fields_halt; eassumption|].
        intros s1 [[parsed tgt] err] L1 [H1 H2]. cbv beta iota. cbn [fst snd] in *.
        destruct err; [|destruct (Nat.eqb _ _)]; (apply h_ret; [apply L1|split; [exact H1|exact H2]]). }
      destruct (assoc "**"%string args) as [alt|] eqn:AS.
      - assert (PA : parg s alt).
        { apply assoc_in in AS. unfold all_parg in GA. rewrite Forall_forall in GA. exact (GA _ AS). }
        eapply h_bind with (P := fun s1 l => s1 = s /\ all_parg s l).
        + apply h_preduced; auto.
          assert (SAME : halts (fun _ => mret args) s (fun s1 l => s1 = s /\ all_parg s l)) by (apply h_ret; auto).
          destruct alt; try exact SAME. apply h_ret; [exact TD|]. split; [reflexivity|].
          assert (D : data (VDict d0) = true) by (eapply parg_data; [exact PA|reflexivity]).
          cbn in D. apply forallb_Forall in D. eapply Forall_impl; [|exact D]. intros kv. apply data_parg.
        + intros s1 l _ [-> GL]. eapply h_conseq; [now apply NEXT|]. intros s2 r _ [R1 _]. split; [exact R1|discriminate].
      - eapply h_bind with (P := fun s1 l => s1 = s /\ l = args); [now apply h_ret|].
        intros s1 l _ [-> ->]. eapply h_conseq; [now apply NEXT|]. intros s2 r _ [R1 R2]. auto.
    Qed.


    Section Plugins.
      Variable QS : select -> Prop.
      Hypothesis SUB : forall q sc s, QS q -> d <= sc_depth sc -> scope_ok s sc -> tidy s ->
        halts (fun n => r_select (R n) sc q) s rows_data.
      Variable sc : scope.
      Hypothesis DP : d <= sc_depth sc.
      Notation PE := (fun e => exists k, simple true k e).

      Lemma select_parg : forall s n q, QS q -> nth_error (heap s) n = Some (OSelect q) -> parg s (VOpaque n).
      Proof.
        intros s n q HQ H. right. exists n, q. split; [reflexivity|]. split; [exact H|].
        intros s' sc' L SC' DP'. apply h_query. unfold query_step. apply h_obj; [apply L|].
        pose proof (stays _ _ _ _ L H) as K. cbn in K. rewrite K. apply SUB; auto. apply L.
      Qed.

      Lemma build_plug_halts : forall params args s, Forall (fun p => plug_arg_is QS PE (snd p)) params ->
        scope_ok s sc -> tidy s -> all_parg s args ->
        halts (fun n => build_args (R n) sc params args) s (fun s1 l => all_parg s1 l /\
          forall k, assoc k args = None -> Forall (fun p => fst p <> k) params -> assoc k l = None).
      Proof.
        induction params as [|[name a] params IH]; intros args s HF SC TD GA; cbn [build_args].
        - apply h_ret; [exact TD|]. split; [exact GA|auto].
        - inversion HF as [|? ? H1 H2]; subst. cbn [snd] in H1.
          eapply h_bind with (P := parg).
          + destruct a as [e|q|e|]; cbn [plug_arg_is arg_is arg_eager] in *.
            * destruct H1 as (k & Hk). eapply h_conseq; [apply (EXT k); eassumption|]. intros; now left.
            * eapply h_ext with (m' := fun _ => mbind (alloc (OSelect q)) mret); [reflexivity|].
              apply h_alloc; [exact TD|now cbn|]. intros s1 L1 HH. apply h_ret; [apply L1|]. eapply select_parg; eauto.
            * destruct H1 as (k & Hk). eapply h_conseq; [apply (EXT k); eassumption|]. intros; now left.
            * apply h_ret; [exact TD|now apply data_parg].
          + intros s1 v L1 PV. eapply h_conseq; [apply IH; [exact H2|eapply scope_ok_later; eauto|apply L1|]|].
            { apply Forall_dict_set; [exact PV|eapply all_parg_later; eauto]. }
            intros s2 l L2 [R1 R2]. split; [exact R1|]. intros k NA HK. inversion HK; subst. cbn [fst] in *.
            apply R2; [|assumption]. rewrite assoc_dict_set. destruct (String.eqb k name) eqn:EK; [|exact NA].
            apply String.eqb_eq in EK. congruence.
      Qed.

      Lemma nil_runs : forall s, runs s VNil.
      Proof. intros s s' sc' L SC' DP'. apply h_query. unfold query_step. apply h_obj; [apply L|]. apply h_ret; [apply L|reflexivity]. Qed.
      Lemma nil_lazy_ok : forall s, lazy_ok s VNil.
      Proof.
        intros s s' L. eapply (h_shift E owner _ _ (fun n => reduce_step (R n) VNil)); [reflexivity|].
        unfold reduce_step. apply h_obj; [apply L|]. apply h_ret; [apply L|]. now apply data_parg.
      Qed.

      Lemma if_plugin_halts : forall args s, scope_ok s sc -> tidy s -> all_parg s args ->
        halts (fun n => if_plugin E (R n) sc args) s rows_data.
      Proof.
        intros args s SC TD GA. unfold if_plugin. eapply h_bind.
        { apply parse_halts with (types := [TAny; TStored; TStored]); [exact DP|exact SC|exact TD|exact GA|repeat constructor|].
          constructor; [now apply data_parg|]. constructor; [apply nil_runs|]. constructor; [apply nil_runs|constructor]. }
        intros s1 [target err] L1 [H1 _]. cbv beta iota. cbn [fst] in H1.
        inversion H1 as [|? cond ? t1 F1 H2]; subst. inversion H2 as [|? thn ? t2 F2 H3]; subst.
        inversion H3 as [|? els ? t3 F3 H4]; subst. inversion H4; subst. cbn [fits] in *.
        assert (SC1 : scope_ok s1 sc) by (eapply scope_ok_later; eauto).
        destruct err; [apply h_ret; [apply L1|reflexivity]|].
        eapply h_bind; [apply truth_parg; auto; apply L1|]. intros s2 b L2 _. cbv beta.
        assert (SC2 : scope_ok s2 sc) by (eapply scope_ok_later; eauto).
        destruct b; [apply F2; auto|].
        destruct els; try (apply F3; auto). apply h_ret; [apply L2|reflexivity].
      Qed.

      Lemma mmap_runs : forall qs sc' s, d <= sc_depth sc' -> scope_ok s sc' -> tidy s -> Forall (runs s) qs ->
        halts (fun n => mmap (r_query (R n) sc') qs) s (fun _ l => Forall (fun r => forallb data r = true) l).
      Proof.
        intros qs sc' s DP' SC TD HQ. apply (h_mmap E owner _ _ (fun n => r_query (R n) sc') (runs s)); [exact TD|exact HQ|].
        intros q s1 RQ L1. apply RQ; auto. eapply scope_ok_later; eauto.
      Qed.

      Lemma stored_all_halts : forall args s, tidy s -> all_parg s args ->
        halts (fun n => mmap (fun kv : string * val => to_stored_query (R n) (snd kv)) args) s (fun s1 l => Forall (runs s1) l).
      Proof.
        induction args as [|[k v] args IH]; intros s TD GA; cbn [mmap]; [now apply h_ret|].
        inversion GA as [|? ? G1 G2]; subst. cbn [snd] in *.
        eapply h_bind; [now apply stored_halts|]. intros s1 w L1 R1. cbv beta.
        eapply h_bind; [apply IH; [apply L1|eapply all_parg_later; eauto]|]. intros s2 l L2 R2.
        apply h_ret; [apply L2|]. constructor; [eapply runs_later; eauto|exact R2].
      Qed.

      Lemma chain_plugin_halts : forall args s, scope_ok s sc -> tidy s -> all_parg s args ->
        halts (fun n => chain_plugin (R n) sc args) s rows_data.
      Proof.
        intros args s SC TD GA. unfold chain_plugin. eapply h_bind; [now apply stored_all_halts|].
        intros s1 qs L1 HQ. cbv beta. eapply h_bind; [apply mmap_runs; [cbn; lia|apply scope_ok_copy; eapply scope_ok_later; eauto|apply L1|exact HQ]|].
        intros s2 rows L2 D2. apply h_ret; [apply L2|now apply data_concat].
      Qed.

      Lemma foreach_row_halts : forall query column row s, scope_ok s sc -> tidy s -> runs s query -> data row = true ->
        halts (fun n => foreach_row (R n) sc query column row) s rows_data.
      Proof.
        intros query column row s SC TD RQ D. unfold foreach_row.
        eapply h_bind with (P := val_data).
        - destruct (String.eqb column "")%string; [now apply h_ret|].
          eapply h_bind; [now apply assoc_data_halts|]. intros s1 [v p] L1 D1. cbv beta iota.
          apply h_ret; [apply L1|]. unfold fst_data in D1. cbn in D1. unfold val_data. destruct p; [exact D1|reflexivity].
        - intros s1 r L1 D1. cbv beta.
          assert (K : halts (fun n => r_query (R n) (append_vars r (copy sc)) query) s1 rows_data).
          { apply RQ; [exact L1| |cbn; lia]. apply scope_ok_append; [apply scope_ok_copy; eapply scope_ok_later; eauto|left; exact D1]. }
          destruct query; try exact K. apply h_ret; [apply L1|]. unfold rows_data, val_data in *. cbn. now rewrite D1.
      Qed.

      Lemma foreach_plugin_halts : forall args s, scope_ok s sc -> tidy s -> all_parg s args ->
        halts (fun n => foreach_plugin E (R n) sc args) s rows_data.
      Proof.
        intros args s SC TD GA. unfold foreach_plugin. eapply h_bind.
        { apply parse_halts with (types := [TLazy; TStored; TBool; TInt64; TString]); [exact DP|exact SC|exact TD|exact GA|repeat constructor|].
          constructor; [apply nil_lazy_ok|]. constructor; [apply nil_runs|].
            constructor; [exact I|]. constructor; [|constructor; [exact I|constructor]].
            unfold vint, fits, is_int64, two63. lia. }
        intros s1 [target err] L1 [H1 _]. cbv beta iota. cbn [fst] in H1.
        inversion H1 as [|? row ? t1 F1 H2]; subst. inversion H2 as [|? query ? t2 F2 H3]; subst.
        inversion H3 as [|? async ? t3 F3 H4]; subst. inversion H4 as [|? workers ? t4 F4 H5]; subst.
        inversion H5 as [|? column ? t5 F5 H6]; subst. inversion H6; subst. cbn [fits] in *.
        assert (SC1 : scope_ok s1 sc) by (eapply scope_ok_later; eauto).
        assert (NONE : halts (fun _ => mret []) s1 rows_data) by (apply h_ret; [apply L1|reflexivity]).
        destruct err; [exact NONE|]. destruct column as [| | | | | |column| | | | | |]; try exact NONE.
        eapply h_bind with (P := rows_data).
        - unfold iterate_val. eapply h_bind; [apply F1; apply later_refl; apply L1|]. intros s2 v L2 PV. cbv beta.
          apply h_obj; [apply L2|]. fold (obj_at s2 v). destruct (is_query v (obj_at s2 v)) eqn:IQ.
          + apply (parg_runs s2 v PV IQ); auto; [apply later_refl; apply L2|eapply scope_ok_later; eauto].
          + apply h_ret; [apply L2|]. apply data_iterate. eapply parg_data; eauto.
        - intros s2 rows L2 D2. cbv beta. eapply h_bind.
          + apply (h_mmap E owner _ _ (fun n => foreach_row (R n) sc query column) (fun x => data x = true) (fun r => forallb data r = true));
              [apply L2|now apply forallb_Forall|].
            intros x s3 Dx L3. assert (L13 : later s1 s3) by (eapply later_trans; eauto).
            apply foreach_row_halts; [eapply scope_ok_later; eauto|apply L3|eapply runs_later; eauto|exact Dx].
          + intros s3 out L3 D3. apply h_ret; [apply L3|now apply data_concat].
      Qed.

      Lemma data_dict_update : forall k v dd, data v = true -> forallb (fun kv => data (snd kv)) dd = true ->
        forallb (fun kv => data (snd kv)) (dict_update k v dd) = true.
      Proof.
        intros k v dd DV. induction dd as [|[k' x] dd IH]; cbn; intros H; [now rewrite DV|].
        apply andb_true_iff in H as [H1 H2]. destruct (String.eqb k k'); cbn; rewrite ?DV, ?H1; auto.
      Qed.
      Lemma data_fold_set : forall l acc, forallb (fun kv => data (snd kv)) l = true -> forallb (fun kv => data (snd kv)) acc = true ->
        forallb (fun kv => data (snd kv)) (fold_left (fun a kv => dict_set (fst kv) (snd kv) a) l acc) = true.
      Proof.
        induction l as [|[k v] l IH]; intros acc HL HA; [exact HA|]. cbn in HL. apply andb_true_iff in HL as [H1 H2].
        cbn [fold_left fst snd]. apply IH; [exact H2|]. now apply data_dict_set.
      Qed.
      Lemma data_flatten : forall n item, forallb (fun kv => data (snd kv)) item = true ->
        forallb data (map VDict (flatten_at (env_iter E) item n)) = true.
      Proof.
        induction n as [|n IH]; intros item D; cbn [flatten_at]; [cbn; now rewrite D|].
        set (column := nth n (keys item) ""%string).
        set (cell := match assoc column item with Some v => v | None => VNil end).
        assert (DC : data cell = true).
        { unfold cell. destruct (assoc column item) eqn:A; [|reflexivity]. eapply data_assoc; eauto. }
        pose proof (data_iterate cell DC) as DI.
        assert (ALL : forall ms, forallb data ms = true -> forallb data (map VDict (flat_map (fun m =>
          flatten_at (env_iter E) (dict_update column (unwrap_value m) (merge_from item [])) n) ms)) = true).
        { induction ms as [|m ms IHm]; intros DM; [reflexivity|]. cbn in DM. apply andb_true_iff in DM as [D1 D2].
          cbn [flat_map]. rewrite map_app, forallb_app, IHm by exact D2. rewrite IH; [reflexivity|].
          apply data_dict_update; [|now apply data_fold_set].
          unfold unwrap_value. destruct m; try exact D1. destruct (assoc "_value"%string d0) eqn:A2; [|exact D1]. eapply data_assoc; eauto. }
        destruct (iterate (env_iter E) cell) as [|m ms]; [now apply IH|]. exact (ALL _ DI).
      Qed.

      Lemma make_dict_halts : forall item s, tidy s -> data item = true ->
        halts (fun n => make_dict (R n) sc item) s (fun _ l => forallb (fun kv => data (snd kv)) l = true).
      Proof.
        intros item s TD D. unfold make_dict.
        assert (K : halts (fun n => ms <- members item ;;
          kvs <- mmap (fun m => '(v, pres) <- r_assoc (R n) sc item (KVal (VStr m)) ;;
                                mret (if pres : bool then [(m, v)] else [])) ms ;;
          mret (fold_left (fun d kv => dict_set (fst kv) (snd kv) d) (List.concat kvs) [])) s (fun _ l => forallb (fun kv => data (snd kv)) l = true)).
        { apply h_members; [exact TD|]. eapply h_bind.
          - apply (h_mmap E owner _ _ (fun n m => '(v, pres) <- r_assoc (R n) sc item (KVal (VStr m)) ;;
                                mret (if pres : bool then [(m, v)] else [])) (fun _ => True)
                (fun l => forallb (fun kv => data (snd kv)) l = true)); [exact TD|apply Forall_forall; auto|].
            intros m s1 _ L1. eapply h_bind; [apply assoc_data_halts; [exact D|apply L1]|].
            intros s2 [v p] L2 D2. cbv beta iota. apply h_ret; [apply L2|]. unfold fst_data in D2. cbn in D2.
            destruct p; cbn; now rewrite ?D2.
          - intros s1 kvs L1 D1. apply h_ret; [apply L1|]. apply data_fold_set; [|reflexivity].
            clear - D1. induction D1; cbn; [reflexivity|]. rewrite forallb_app, H. exact IHD1. }
        destruct item; try exact K. apply h_ret; [exact TD|exact D].
      Qed.

      Lemma flatten_plugin_halts : forall args s, scope_ok s sc -> tidy s -> all_parg s args ->
        halts (fun n => flatten_plugin E (R n) sc args) s rows_data.
      Proof.
        intros args s SC TD GA. unfold flatten_plugin. eapply h_bind.
        { apply parse_halts with (types := [TStored]); [exact DP|exact SC|exact TD|exact GA|repeat constructor|].
          constructor; [apply nil_runs|constructor]. }
        intros s1 [target err] L1 [H1 _]. cbv beta iota. cbn [fst] in H1.
        inversion H1 as [|? q ? t1 F1 H2]; subst. inversion H2; subst. cbn [fits] in *.
        assert (SC1 : scope_ok s1 sc) by (eapply scope_ok_later; eauto).
        destruct err; [apply h_ret; [apply L1|reflexivity]|].
        eapply h_bind; [apply F1; auto; apply later_refl; apply L1|]. intros s2 rows L2 D2. cbv beta.
        eapply h_bind.
        - apply (h_mmap E owner _ _ (fun n row => dd <- make_dict (R n) sc row ;; mret (map VDict (flatten_row (env_iter E) dd)))
            (fun x => data x = true) (fun r => forallb data r = true)); [apply L2|now apply forallb_Forall|].
          intros x s3 Dx L3. eapply h_bind; [apply make_dict_halts; [apply L3|exact Dx]|].
          intros s4 dd L4 D4. apply h_ret; [apply L4|]. now apply data_flatten.
        - intros s3 out L3 D3. apply h_ret; [apply L3|now apply data_concat].
      Qed.

      Lemma calm_rows_halts : forall vs p s, calm_rows vs p -> scope_ok s sc -> tidy s -> Forall (parg s) vs ->
        halts (fun n => run_prog E (R n) sc p) s rows_data.
      Proof.
        intros vs p s H. revert s.
        induction H as [rows D| |v k HI _ IH|v k HI _ IH|v k HI _ IH|v k _ IH]; intros s SC TD GA; cbn [run_prog].
        - now apply h_ret.
        - apply h_panic.
        - pose proof GA as GV. rewrite Forall_forall in GV. eapply h_bind; [apply reduce_ws_parg; auto|].
          intros s1 w L1 _. apply IH; [eapply scope_ok_later; eauto|apply L1|].
          eapply Forall_impl; [|exact GA]. intros x. now apply parg_later.
        - pose proof GA as GV. rewrite Forall_forall in GV. eapply h_bind; [apply truth_parg; auto|].
          intros s1 w L1 _. apply IH; [eapply scope_ok_later; eauto|apply L1|].
          eapply Forall_impl; [|exact GA]. intros x. now apply parg_later.
        - pose proof GA as GV. rewrite Forall_forall in GV. apply h_preduced; auto.
          apply iterate_halts; auto. intros s1 rows L1 D1. apply IH; [exact D1|eapply scope_ok_later; eauto|apply L1|].
          eapply Forall_impl; [|exact GA]. intros x. now apply parg_later.
        - pose proof (cl_observe _ grows_closed v s) as EV. cbn [observe fst] in EV.
          pose proof (later_same _ _ EV eq_refl eq_refl TD) as L1.
          eapply (h_step E owner _ _ (fun _ => observe v) (fun n _ => run_prog E (R n) sc k) s _ tt 0); [reflexivity|exact L1|].
          apply IH; [eapply scope_ok_later; eauto|apply L1|].
          eapply Forall_impl; [|exact GA]. intros x. now apply parg_later.
      Qed.

      (** range without a step ends: it counts by one. *)
      Lemma range_ends : forall k i stop, is_int64 i -> is_int64 stop -> (stop - i <= Z.of_nat k)%Z ->
        exists l, forall f, k < f -> range_loop f i stop 1 = Some l.
      Proof.
        induction k as [|k IH]; intros i stop HI HS HK.
        - exists []. intros f HF. destruct f as [|f]; [lia|]. cbn [range_loop].
          destruct (Z.ltb_spec i stop); [lia|reflexivity].
        - destruct (Z.ltb_spec i stop) as [LT|GE].
          + assert (N : is_int64 (i + 1)) by (unfold is_int64 in *; lia).
            destruct (IH (i + 1)%Z stop N HS) as (l & HL); [lia|].
            exists (i :: l). intros f HF. destruct f as [|f]; [lia|]. cbn [range_loop].
            destruct (Z.ltb_spec i stop); [|lia]. rewrite wrap64_id by exact N. rewrite HL by lia. reflexivity.
          + exists []. intros f HF. destruct f as [|f]; [lia|]. cbn [range_loop].
            destruct (Z.ltb_spec i stop); [lia|reflexivity].
      Qed.

      Lemma range_plugin_halts : forall args s, scope_ok s sc -> tidy s -> all_parg s args ->
        assoc "step"%string args = None -> assoc "**"%string args = None ->
        halts (fun n => range_plugin E (R n) n sc args) s rows_data.
      Proof.
        intros args s SC TD GA NS NK. unfold range_plugin. eapply h_bind.
        { apply parse_halts with (types := [TInt64; TInt64; TInt64]); [exact DP|exact SC|exact TD|exact GA|repeat constructor|].
          assert (Z0 : is_int64 0) by (unfold is_int64, two63; lia).
            constructor; [exact Z0|]. constructor; [exact Z0|]. constructor; [exact Z0|constructor]. }
        intros s1 [target err] L1 [H1 HK]. cbv beta iota. cbn [fst] in H1, HK. specialize (HK NK 2).
        inversion H1 as [|? start ? t1 F1 H2]; subst. inversion H2 as [|? stop ? t2 F2 H3]; subst.
        inversion H3 as [|? step ? t3 F3 H4]; subst. inversion H4; subst. cbn [fits] in *.
        assert (NONE : halts (fun _ => mret []) s1 rows_data) by (apply h_ret; [apply L1|reflexivity]).
        destruct err; [exact NONE|]. destruct start; try exact NONE. destruct stop; try exact NONE. destruct step as [| | |kk st| | | | | | | | |]; try exact NONE.
        assert (st = 0%Z) as ->.
        { cbn in HK. assert (Some (VInt kk st) = Some (vint 0)) as K; [|now injection K].
          apply HK. intros f [<-|[<-|[<-|[]]]] IX; cbn in IX; try discriminate. exact NS. }
        destruct (range_ends (Z.to_nat (z0 - z)) z z0) as (l & HL); [exact F1|exact F2|lia|].
        exists (S (Z.to_nat (z0 - z))), s1, (RVal (map (fun z => value_row (vint z)) l)). split.
        - intros n HN. unfold range_rows. cbn [Z.eqb]. rewrite HL by lia. reflexivity.
        - split; [apply evolves_refl|]. split; [apply L1|]. unfold rows_data. clear. induction l; cbn; auto.
      Qed.

      Lemma plugin_halts : forall c args s, scope_ok s sc -> tidy s -> overflow sc = false ->
        assoc c (env_plugs E) <> None -> from_is E QS PE [c] true args ->
        halts (fun n => plugin_eval E (R n) n sc (Plugin [c] true args)) s rows_data.
      Proof.
        intros c args s SC TD OV NN HF. unfold from_is in HF. unfold plugin_eval.
        destruct (assoc c (env_plugs E)) as [pl|]; [|congruence]. rewrite OV.
        assert (HA : Forall (fun p => plug_arg_is QS PE (snd p)) args) by (destruct pl; try exact HF; try apply HF; contradiction).
        eapply h_bind; [apply build_plug_halts; [exact HA|exact SC|exact TD|constructor]|].
        intros s1 vs L1 [GA NA]. cbv beta.
        assert (SC1 : scope_ok s1 sc) by (eapply scope_ok_later; eauto). assert (TD1 : tidy s1) by apply L1.
        destruct pl; cbn [call_plugin].
        - apply calm_rows_halts with (vs := map snd vs); auto; [apply HF|].
          unfold all_parg in GA. clear - GA. induction GA; cbn; constructor; auto.
        - now apply if_plugin_halts.
        - now apply chain_plugin_halts.
        - now apply foreach_plugin_halts.
        - now apply flatten_plugin_halts.
        - destruct HF as [_ HF]. apply range_plugin_halts; auto; (apply NA; [reflexivity|]);
            (eapply Forall_impl; [|exact HF]); intros p [A B]; assumption.
        - contradiction.
      Qed.
    End Plugins.


    Lemma from_halts : forall sc path call args s, d <= sc_depth sc -> scope_ok s sc -> tidy s -> path <> [] ->
      (call = true -> forall c, path = [c] -> assoc c (env_plugs E) = None) ->
      Forall (fun p => arg_is (fun e => exists k, simple true k e) (snd p)) args ->
      halts (fun n => plugin_eval E (R n) n sc (Plugin path call args)) s rows_data.
    Proof.
      intros sc path call args s DP SC TD NE NP HA. unfold plugin_eval.
      replace (match path with [c] => if call then assoc c (env_plugs E) else None | _ => None end) with (@None plug).
      2:{ destruct path as [|c [|]]; auto. destruct call; auto. symmetry. now apply NP. }
      assert (SA : sel_at (S (sc_depth sc))) by (eapply sel_at_le; [|exact SEL]; lia).
      assert (EX : sc_depth sc < 1000 -> exp_at true (S (sc_depth sc))) by (intros _; eapply exp_at_le; [|exact EXT]; lia).
      eapply h_bind; [apply lookup_halts; assumption|]. intros s1 [sym pres] L1 [EN _]. cbv beta iota. cbn [fst] in EN.
      assert (SC1 : scope_ok s1 sc) by (eapply scope_ok_later; eauto).
      destruct (negb pres); [apply h_ret; [apply L1|reflexivity]|].
      destruct (negb call); [apply evalsym_entry; auto; apply L1|].
      destruct (overflow sc); [apply h_ret; [apply L1|reflexivity]|].
      apply h_obj; [apply L1|]. fold (obj_at s1 sym).
      assert (BA : halts (fun n => build_args (R n) sc args []) s1 all_good).
      { apply build_halts with (P := fun e => exists k, simple true k e); [|exact HA|exact SC1|apply L1|constructor].
        intros e s2 (k & Hk) SC2 TD2. apply (EXT k); auto. }
      assert (DA : forall ds a s2, later s1 s2 -> all_good s2 a -> Forall (default_is E owner) ds ->
        halts (fun n => apply_defaults (R n) sc ds a) s2 all_good).
      { intros ds a s2 L2 GA HD. apply defaults_halt; [|exact HD|eapply scope_ok_later; eauto|apply L2|exact GA].
        intros k e s3 Hk SC3 TD3. apply (EXF k); auto. }
      assert (NONE : halts (fun _ => mret []) s1 rows_data) by (apply h_ret; [apply L1|reflexivity]).
      destruct (obj_at s1 sym) as [[q|q|e|t sc'|v|e sc' c|q|v|c g ca|sc'|]|] eqn:OA; try exact NONE.
      - (* a stored query *)
        assert (QD : qdef_is E owner q).
        { destruct EN as [[D|(n & -> & [(d' & H & K)|(t & sc' & H & _)])]|(n & d' & -> & H & _)];
            [rewrite data_obj in OA by exact D; discriminate|cbn in OA; congruence|cbn in OA; congruence|cbn in OA; congruence]. }
        assert (GS : good s1 sym).
        { destruct EN as [G|(n & d' & -> & H & _)]; [exact G|cbn in OA; congruence]. }
        eapply h_bind; [exact BA|]. intros s2 a L2 GA. cbv beta.
        eapply h_bind; [apply DA; [exact L2|exact GA|apply QD]|]. intros s3 a' L3 GA'. cbv beta. unfold call_query.
        apply h_fresh; [apply L3|]. intros s4 c L4. cbv beta.
        assert (L14 : later s1 s4) by (eapply later_trans; [exact L2|]; eapply later_trans; eauto).
        set (sub := {| sc_vars := _; sc_depth := _; sc_cell := _ |}).
        assert (SC4 : scope_ok s4 sub) by (change (scope_ok s4 sc); eapply scope_ok_later; eauto).
        eapply h_bind; [apply expand_halts; [cbn; lia|exact SC4|apply L4|exact (all_good_later _ _ _ L4 GA')|constructor]|].
        intros s5 vars L5 GV. cbv beta.
        apply query_halts; [eapply sel_at_le; [|exact SEL]; cbn; lia| |apply L5| |].
        + apply scope_ok_append; [eapply scope_ok_later; eauto|now apply frame_args].
        + eapply good_later; [|exact GS]. eapply later_trans; eauto.
        + destruct sym; try discriminate OA. cbn in OA |- *.
          pose proof (stays _ _ _ _ (later_trans _ _ _ _ _ L14 L5) OA) as Z. cbn in Z. now rewrite Z.
      - (* a function *)
        assert (ED : edef_is E owner e).
        { destruct EN as [[D|(n & -> & [(d' & H & K)|(t & sc' & H & _)])]|(n & d' & -> & H & K)];
            [rewrite data_obj in OA by exact D; discriminate|cbn in OA; congruence|cbn in OA; congruence|cbn in OA].
          rewrite H in OA. injection OA as <-. exact K. }
        eapply h_bind; [exact BA|]. intros s2 a L2 GA. cbv beta.
        eapply h_bind; [apply DA; [exact L2|exact GA|apply ED]|]. intros s3 a' L3 GA'. cbv beta.
        assert (L13 : later s1 s3) by (eapply later_trans; eauto).
        destruct ED as [(k & B) _].
        eapply h_bind; [apply (EXT k); [cbn; lia| |apply L3|exact B]|].
        { apply scope_ok_append; [change (scope_ok s3 sc); eapply scope_ok_later; eauto|now apply frame_args]. }
        intros s4 v L4 G4. apply evalsym_good; [exact DP| |apply L4|exact G4].
        eapply scope_ok_later; [|exact SC1]. eapply later_trans; eauto.
    Qed.

    Lemma sel_level : sel_at d.
    Proof.
      intros h. induction h as [|h IHh]; intros q sc s DP SC TD HQ; [contradiction|].
      destruct q as [star cols [path call args] where_ groupby orderby limit].
      cbn [simple_query] in HQ. destruct HQ as (HC & HF & HW & HG).
      assert (FROM : halts (fun n => plugin_eval E (R n) n sc (Plugin path call args)) s rows_data).
      { destruct (match path with [c] => if call then assoc c (env_plugs E) else None | _ => None end) as [pl|] eqn:PL.
        - destruct path as [|c [|]]; try discriminate. destruct call; [|discriminate].
          destruct (overflow sc) eqn:OV.
          + apply h_ext with (m' := fun _ => mret []); [|apply h_ret; [exact TD|reflexivity]].
            intros n. unfold plugin_eval. now rewrite PL, OV.
          + apply plugin_halts with (QS := simple_query h); [|exact DP|exact SC|exact TD|exact OV|congruence|exact HF].
            intros q sc' s' HQ DP' SC' TD'. now apply IHh.
        - unfold from_is in HF. rewrite PL in HF. destruct HF as [NE HA]. apply from_halts; auto.
          intros -> c ->. exact PL. }
      assert (CORE : forall g, g = None -> halts (fun n => r_select (R n) sc (Select star cols (Plugin path call args) where_ g None None)) s rows_data).
      { intros g ->. apply h_select. unfold select_step.
        eapply h_bind; [exact FROM|]. intros s1 rows L1 D1. cbv beta.
        eapply h_bind.
        - apply (h_mmap E owner _ _ _ (fun x => data x = true) (fun r => forallb data r = true)); [apply L1|now apply forallb_Forall|].
          intros x s2 Dx L2. apply process_halts with (h := h); auto; [|apply L2].
          eapply scope_ok_later; [|exact SC]. eapply later_trans; eauto.
        - intros s2 out L2 D2. apply h_ret; [apply L2|]. now apply data_concat. }
      assert (NOLIM : halts (fun n => r_select (R n) sc (Select star cols (Plugin path call args) where_ groupby orderby None)) s rows_data).
      { destruct groupby as [g|].
        - apply h_select. unfold select_step. eapply h_bind; [exact FROM|]. intros s1 rows L1 D1. cbv beta.
          eapply h_bind; [apply group_rows_halts with (h := h); [cbn; lia|exact HC|exact HW|exact HG|exact D1|constructor| |apply L1]|].
          { apply scope_ok_copy. eapply scope_ok_later; eauto. }
          intros s2 bins L2 B2. cbv beta zeta.
          assert (DO : forallb data (map (fun b : bin => snd (snd b)) bins) = true).
          { clear - B2. induction B2; cbn; [reflexivity|]. now rewrite H. }
          destruct orderby as [[key desc]|]; [apply sort_halts; [exact DO|apply L2]|apply h_ret; [apply L2|exact DO]].
        - destruct orderby as [[key desc]|]; [|now apply CORE].
          apply h_select. unfold select_step. eapply h_bind; [now apply CORE|]. intros s1 rows L1 D1.
          apply sort_halts; [exact D1|apply L1]. }
      destruct limit as [l|]; [|exact NOLIM].
      apply h_select. unfold select_step. eapply h_bind; [exact NOLIM|]. intros s1 rows L1 D1.
      apply h_ret; [apply L1|]. now apply forallb_firstn.
    Qed.
  End Query.

  (** Beyond the limit FROM yields nothing. *)
  Lemma sel_overflow : sel_at 1000.
  Proof.
    intros h q sc s DP SC TD HQ. destruct h as [|h]; [contradiction|].
    destruct q as [star cols [path call args] where_ groupby orderby limit].
    cbn [simple_query] in HQ. destruct HQ as (HC & HF & HW & HG).
    assert (FROM : forall n, plugin_eval E (R n) n sc (Plugin path call args) s = (s, RVal [])).
    { intros n. unfold plugin_eval. unfold from_is in HF.
      destruct (match path with [c] => if call then assoc c (env_plugs E) else None | _ => None end) as [pl|] eqn:PL.
      { unfold overflow. rewrite (proj2 (Nat.leb_le 1000 _) DP). reflexivity. }
      destruct HF as [NE _]. destruct path as [|c path]; [congruence|]. cbn [lookup_path]. unfold resolve, overflow.
      rewrite (proj2 (Nat.leb_le 1000 _) DP). reflexivity. }
    assert (EMPTY : forall key desc, env_sort E (sort_less E desc) (combine (@nil (val * bool)) (@nil val)) = [] /\ key = key :> string).
    { intros key desc. split; [|reflexivity]. destruct (env_sort E _ _) as [|x l] eqn:K; [reflexivity|].
      assert (I0 : In x (env_sort E (sort_less E desc) (combine (@nil (val * bool)) (@nil val)))) by (rewrite K; now left).
      apply (ct_sort E CT) in I0. contradiction. }
    assert (ONE : forall g o n, r_select (R (S (S n))) sc (Select star cols (Plugin path call args) where_ g o None) s = (s, RVal [])).
    { intros g o n. change (R (S (S n))) with (step E (R (S n)) (S n)). cbn [r_select step]. unfold select_step.
      destruct g as [g|].
      - unfold mbind. rewrite FROM. cbn [group_rows]. unfold mret. cbn [map].
        destruct o as [[key desc]|]; [|reflexivity]. unfold sort_rows, mbind, mret. cbn [mmap]. unfold mret.
        now rewrite (proj1 (EMPTY key desc)).
      - assert (B : forall m, m = n \/ m = S n -> mbind (plugin_eval E (R m) m sc (Plugin path call args)) (fun rows =>
          out <- mmap (process_row E (R m) sc star cols where_) rows ;; mret (List.concat out)) s = (s, RVal [])).
        { intros m _. unfold mbind. rewrite FROM. reflexivity. }
        destruct o as [[key desc]|]; [|apply B; auto].
        change (R (S n)) with (step E (R n) n). cbn [r_select step]. unfold select_step.
        unfold mbind at 1. rewrite (B n) by auto. unfold sort_rows, mbind, mret. cbn [mmap]. unfold mret.
        now rewrite (proj1 (EMPTY key desc)). }
    exists 4, s, (RVal []). split; [|split; [apply evolves_refl|split; [exact TD|reflexivity]]].
    intros n Hn. destruct n as [|[|[|n]]]; [lia|lia|lia|].
    destruct limit as [l|]; [|apply ONE].
    change (R (S (S (S n)))) with (step E (R (S (S n))) (S (S n))). cbn [r_select step]. unfold select_step.
    unfold mbind. rewrite ONE. unfold mret. now rewrite firstn_nil.
  Qed.

  Theorem every_level : forall k d, 1000 <= d + k -> exp_at true d /\ exp_at false d /\ sel_at d.
  Proof.
    induction k as [|k IH]; intros d HD.
    - assert (SA : sel_at d) by (eapply sel_at_le; [|exact sel_overflow]; lia).
      assert (SA' : sel_at (S d)) by (eapply sel_at_le; [|exact SA]; lia).
      assert (EF : exp_at false d) by (apply exp_level; [exact SA'|lia|discriminate]).
      split; [apply exp_level; [exact SA'|lia|auto]|split; [exact EF|exact SA]].
    - destruct (IH (S d)) as (ET1 & EF1 & SA1); [lia|].
      assert (EF : exp_at false d) by (apply exp_level; [exact SA1|auto|discriminate]).
      assert (ET : exp_at true d) by (apply exp_level; [exact SA1|auto|auto]).
      split; [exact ET|split; [exact EF|]].
      apply sel_level; assumption.
  Qed.
End HaltEval.
