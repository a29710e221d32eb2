(** The evaluator on the programs of NoPanic.v: no evaluation panics. *)

From Coq Require Import ZArith List String Bool Lia PeanoNat.
From Verif Require Import Base BaseProofs F64 Value Protocols Monad Chains Range Flatten ArgParser Syntax
  Builtins Eval Runs Para Evolve NoPanic.
Import ListNotations.
Open Scope nat_scope.
Open Scope list_scope.

(** ** Values *)

Lemma nonild_assoc : forall k d v, nonild d = true -> assoc k d = Some v -> nonil v = true.
Proof.
  intros k d v. induction d as [|[k' x] d IH]; cbn; intros H A; [discriminate|].
  apply andb_true_iff in H as [H1 H2]. destruct (String.eqb k k'); [injection A as <-; exact H1|auto].
Qed.

Lemma nonild_set : forall k v d, nonil v = true -> nonild d = true -> nonild (dict_set k v d) = true.
Proof.
  intros k v d HV HD. unfold nonild, dict_set. rewrite forallb_app. cbn. rewrite HV, andb_true_r.
  induction d as [|[k' x] d IH]; [reflexivity|]. cbn in *. apply andb_true_iff in HD as [H1 H2].
  destruct (String.eqb k k'); cbn; rewrite ?H1; auto.
Qed.

Lemma nonils_In : forall l v, nonils l = true -> In v l -> nonil v = true.
Proof. intros l v H I. unfold nonils in H. rewrite forallb_forall in H. auto. Qed.

Lemma nonils_intro : forall l, (forall v, In v l -> nonil v = true) -> nonils l = true.
Proof. intros l H. unfold nonils. now apply forallb_forall. Qed.

Lemma nonils_app : forall a b, nonils (a ++ b) = nonils a && nonils b.
Proof. intros. apply forallb_app. Qed.

Lemma nonils_concat : forall l, Forall (fun x => nonils x = true) l -> nonils (List.concat l) = true.
Proof. intros l H. induction H as [|x l Hx H IH]; [reflexivity|]. cbn [List.concat]. now rewrite nonils_app, Hx, IH. Qed.

Lemma nonils_nth : forall l n v, nonils l = true -> nth_error l n = Some v -> nonil v = true.
Proof. intros l n v H N. eapply nonils_In; eauto. eapply nth_error_In; eauto. Qed.

Lemma nonils_firstn : forall n l, nonils l = true -> nonils (firstn n l) = true.
Proof. intros n l H. apply nonils_intro. intros v I. eapply nonils_In; eauto. rewrite <- (firstn_skipn n l). apply in_or_app. now left. Qed.
Lemma nonils_skipn : forall n l, nonils l = true -> nonils (skipn n l) = true.
Proof. intros n l H. apply nonils_intro. intros v I. eapply nonils_In; eauto. rewrite <- (firstn_skipn n l). apply in_or_app. now right. Qed.

Lemma nonil_arr : forall l, nonil (VArr l) = nonils l.
Proof. reflexivity. Qed.
Lemma nonil_query : forall l, nonil (VQuery l) = nonils l.
Proof. reflexivity. Qed.
Lemma nonil_dict : forall l, nonil (VDict l) = nonild l.
Proof. reflexivity. Qed.

Lemma arr_elems_nonil : forall v l, nonil v = true -> arr_elems v = Some l -> nonils l = true.
Proof. intros v l H A; destruct v; try discriminate; injection A as <-; auto. Qed.

Lemma first2_nonil : forall (l : list (impl2 val)) a b v,
  calm_ops l -> nonil a = true -> nonil b = true -> first2 l a b = Some v -> nonil v = true.
Proof.
  intros l a b v C HA HB. induction l as [|i l IH]; cbn; intros F; [discriminate|].
  destruct (i a b) as [x|] eqn:EI.
  - injection F as <-. apply (C i a b x); auto; now left.
  - apply IH; auto. intros j a' b' v' I. apply (C j a' b' v'). now right.
Qed.

Section Ops.
  Variable E : env.
  Hypothesis HL : harmless E.

  Lemma nonil_add : forall a b, nonil a = true -> nonil b = true ->
    nonil (add_disp (p_add (env_protos E)) a b) = true.
  Proof.
    intros a b HA HB. unfold add_disp.
    destruct (add_switch a b) as [r|] eqn:SW.
    { unfold add_switch in SW.
      destruct a as [| |x|k z|f|f|t|n| |l|d|l|n]; try discriminate; try (injection SW as <-; reflexivity).
      - destruct k; try discriminate; destruct (to_int64 _); try discriminate; unfold int_add in SW;
          destruct (is_intcase b); try (injection SW as <-; reflexivity); destruct (is_floatcase b); try discriminate;
          injection SW as <-; reflexivity.
      - destruct (to_float b); [injection SW as <-; reflexivity|discriminate].
      - destruct b; try discriminate. injection SW as <-. destruct (_ <? _)%Z; reflexivity. }
    destruct (first2 _ a b) as [r|] eqn:F2.
    { eapply first2_nonil; [|exact HA|exact HB|exact F2].
      intros i a' b' v Hi HA' HB' Hv. apply in_app_or in Hi as [Hi|[<-|[]]].
      - exact (hl_add E HL i a' b' v Hi HA' HB' Hv).
      - unfold stored_query_add in Hv. destruct a', b'; try discriminate. injection Hv as <-.
        rewrite nonil_query in HA', HB'. now rewrite nonil_arr, nonils_app, HA', HB'. }
    destruct (is_array a || is_array b) eqn:AR; [|reflexivity].
    assert (G : forall x, nonil x = true -> nonils (convert_to_slice x) = true).
    { intros x Hx. unfold convert_to_slice. destruct x; cbn in *; rewrite ?andb_true_r; auto. }
    now rewrite nonil_arr, nonils_app, (G a HA), (G b HB).
  Qed.

  Lemma nonil_sub : forall a b, nonil a = true -> nonil b = true ->
    nonil (sub_disp (p_sub (env_protos E)) a b) = true.
  Proof.
    intros a b HA HB. unfold sub_disp. destruct (sub_switch a b) as [r|] eqn:SW.
    - unfold sub_switch in SW.
      destruct a; try (injection SW as <-; reflexivity);
      repeat match type of SW with context [to_float b] => destruct (to_float b); [injection SW as <-; reflexivity|] end;
      destruct b; try (injection SW as <-; reflexivity);
      repeat match type of SW with context [to_float ?x] => destruct (to_float x); [injection SW as <-; reflexivity|] end;
      repeat match type of SW with context [to_int64 ?x] => destruct (to_int64 x); [|discriminate] end;
      try discriminate; injection SW as <-; reflexivity.
    - unfold orelse. destruct (first2 _ a b) as [r|] eqn:F2; [|reflexivity].
      exact (first2_nonil _ _ _ _ (hl_sub E HL) HA HB F2).
  Qed.

  Lemma nonil_div : forall a b, nonil a = true -> nonil b = true ->
    nonil (div_disp (p_div (env_protos E)) a b) = true.
  Proof.
    intros a b HA HB. unfold div_disp. destruct (div_switch a b) as [r|] eqn:SW.
    - unfold div_switch in SW.
      destruct a; try (injection SW as <-; reflexivity);
      repeat match type of SW with context [to_float b] => destruct (to_float b); [injection SW as <-; destruct (f_is_zero _); reflexivity|] end;
      destruct b; try (injection SW as <-; reflexivity);
      repeat match type of SW with context [to_float ?x] => destruct (to_float x) end;
      try discriminate; injection SW as <-; try destruct (f_is_zero _); reflexivity.
    - unfold orelse. destruct (first2 _ a b) as [r|] eqn:F2; [|reflexivity].
      exact (first2_nonil _ _ _ _ (hl_div E HL) HA HB F2).
  Qed.

  Lemma num_nonil : forall v, num_val v = true -> nonil v = true.
  Proof. intros []; try discriminate; reflexivity. Qed.

  Lemma first2_num : forall (l : list (impl2 val)) a b v,
    num_ops l -> num_val a = true -> nonil b = true -> first2 l a b = Some v -> num_val v = true.
  Proof.
    intros l a b v C HA HB. induction l as [|i l IH]; cbn; intros F; [discriminate|].
    destruct (i a b) as [x|] eqn:EI.
    - injection F as <-. apply (C i a b x); auto; now left.
    - apply IH; auto. intros j a' b' v' I. apply (C j a' b' v'). now right.
  Qed.

  (** A number times anything does not panic and is a number. *)
  Lemma num_mul : forall a b, num_val a = true -> nonil b = true ->
    exists v, mul_disp (p_mul (env_protos E)) a b = Ok v /\ num_val v = true.
  Proof.
    intros a b N HB. unfold mul_disp. destruct (mul_switch a b) as [r|] eqn:SW.
    - unfold mul_switch in SW.
      destruct a; try discriminate; try (injection SW as <-; eexists; split; reflexivity);
      repeat match type of SW with
        | context [to_float b] => destruct (to_float b); [injection SW as <-; eexists; split; reflexivity|] end;
      destruct b; try (injection SW as <-; eexists; split; reflexivity);
      repeat match type of SW with context [to_float ?x] => destruct (to_float x); [injection SW as <-; eexists; split; reflexivity|] end;
      repeat match type of SW with context [to_int64 ?x] => destruct (to_int64 x); [|discriminate] end;
      try discriminate; injection SW as <-; eexists; split; reflexivity.
    - eexists. split; [reflexivity|]. unfold orelse. destruct (first2 _ a b) as [r|] eqn:F2; [|reflexivity].
      exact (first2_num _ _ _ _ (hl_mul_num E HL) N HB F2).
  Qed.

  Lemma num_div : forall a b, num_val a = true -> nonil b = true ->
    num_val (div_disp (p_div (env_protos E)) a b) = true.
  Proof.
    intros a b HA HB. unfold div_disp. destruct (div_switch a b) as [r|] eqn:SW.
    - unfold div_switch in SW.
      destruct a; try discriminate; try (injection SW as <-; reflexivity);
      repeat match type of SW with context [to_float b] => destruct (to_float b); [injection SW as <-; destruct (f_is_zero _); reflexivity|] end;
      destruct b; try (injection SW as <-; reflexivity);
      repeat match type of SW with context [to_float ?x] => destruct (to_float x) end;
      try discriminate; injection SW as <-; try destruct (f_is_zero _); reflexivity.
    - unfold orelse. destruct (first2 _ a b) as [r|] eqn:F2; [|reflexivity].
      exact (first2_num _ _ _ _ (hl_div_num E HL) HA HB F2).
  Qed.

  Lemma first_assoc_found : forall l a k r,
    (forall i a k r, In i l -> nonil a = true -> ok_key k = true -> i a k = Some r -> found r) ->
    nonil a = true -> ok_key k = true -> first_assoc l a k = Some r -> found r.
  Proof.
    intros l a k r C HA HK. induction l as [|i l IH]; cbn; intros F; [discriminate|].
    destruct (i a k) as [x|] eqn:EI.
    - injection F as <-. apply (C i a k x); auto; now left.
    - apply IH; auto. intros j a' k' r' I. apply (C j a' k' r'). now right.
  Qed.

  Lemma found_default_index : forall a i, nonil a = true -> found (recovered (default_assoc_index a i)).
  Proof.
    intros a i H. unfold default_assoc_index.
    destruct a as [| |x|k z|f|f|t|n| |l|d|l|n]; try (left; reflexivity); cbv zeta.
    - destruct (_ || _)%bool; [left; reflexivity|]. destruct (String.get _ t); [left; reflexivity|right; split; reflexivity].
    - destruct (_ || _)%bool; [left; reflexivity|]. right; split; reflexivity.
    - destruct (_ || _)%bool; [left; reflexivity|].
      destruct (nth_error l _) as [v|] eqn:N; [left; cbn; eapply nonils_nth; eauto|right; split; reflexivity].
  Qed.

  Lemma found_default_range : forall a s e, nonil a = true -> found (recovered (default_assoc_range a s e)).
  Proof.
    intros a s e H. unfold default_assoc_range.
    destruct a as [| |x|k z|f|f|t|n| |l|d|l|n]; try (left; reflexivity); cbn [arr_elems];
      destruct (get_ranges _ _ _) as [st en]; destruct (_ <=? _)%Z; try (left; reflexivity); left; cbn [fst recovered].
    - rewrite nonil_arr. now rewrite skipn_nil, firstn_nil.
    - rewrite nonil_arr. apply nonils_firstn, nonils_skipn. exact H.
  Qed.

  Lemma found_assoc : forall impls,
    (forall i a k r, In i impls -> nonil a = true -> ok_key k = true -> i a k = Some r -> found r) ->
    forall a k, nonil a = true -> ok_key k = true -> found (assoc_disp impls a k).
  Proof.
    intros impls C a k HA HK. revert HA.
    induction a as [| |x|kd z|f|f|t|n| |l IH|d IH|l IH|n] using val_ind'; intros HA; try discriminate;
      try (left; reflexivity).
    all: cbn [assoc_disp is_nil].
    all: assert (D : forall a', nonil a' = true ->
           found match k with
                 | KRange s e => recovered (default_assoc_range a' s e)
                 | KVal b => match to_int64 b with
                             | Some idx => recovered (default_assoc_index a' idx)
                             | None => (VNull, false)
                             end
                 end)
         by (intros a' HA'; destruct k as [b|s e]; [destruct (to_int64 b); [now apply found_default_index|left; reflexivity]
            |now apply found_default_range]).
    1-6,10: destruct (first_assoc impls _ k) as [r|] eqn:F; [exact (first_assoc_found _ _ _ _ C HA HK F)|];
         specialize (D _ HA); destruct k as [b|s e]; [|exact D]; destruct (to_int64 b); [exact D|];
         destruct b; left; reflexivity.
    - (* VArr *)
      set (on_elems := fix on_elems (l0 : list val) : list val :=
             match l0 with
             | [] => []
             | x :: r => let (v, pres) := assoc_disp impls x k in if pres then v :: on_elems r else on_elems r
             end).
      assert (OE : nonils (on_elems l) = true).
      { rewrite nonil_arr in HA. clear D. induction IH as [|x l Hx _ IHl]; [reflexivity|].
        cbn in HA. apply andb_true_iff in HA as [H1 H2]. specialize (Hx H1). specialize (IHl H2).
        cbn [on_elems]. destruct (assoc_disp impls x k) as [v pres]. destruct pres; [|exact IHl].
        cbn. destruct Hx as [Hx|[_ Hx]]; [|discriminate]. cbn in Hx. rewrite Hx. exact IHl. }
      destruct (first_assoc impls _ k) as [r|] eqn:F; [exact (first_assoc_found _ _ _ _ C HA HK F)|].
      specialize (D _ HA). destruct k as [b|s e]; [|exact D]. destruct (to_int64 b); [exact D|].
      destruct b; try (left; reflexivity). left. cbn [fst]. destruct (on_elems l) as [|y r]; [reflexivity|exact OE].
    - (* VDict *)
      destruct (first_assoc impls (VDict d) k) as [r|] eqn:F.
      + assert (FR : found r) by exact (first_assoc_found _ _ _ _ C HA HK F).
        destruct k as [b|s e]; [|exact FR]. destruct b; try exact FR.
        destruct (assoc s d) as [v|] eqn:A; [|right; split; reflexivity]. left. cbn [fst].
        destruct (is_nil v); [reflexivity|]. eapply nonild_assoc; eauto.
      + specialize (D _ HA). destruct k as [b|s e]; [|exact D].
        destruct b; try exact D.
        destruct (assoc s d) as [v|] eqn:A; [|right; split; reflexivity]. left. cbn [fst].
        destruct (is_nil v); [reflexivity|]. eapply nonild_assoc; eauto.
    - (* VQuery *)
      set (on_rows := fix on_rows (l0 : list val) : list val :=
             match l0 with
             | [] => []
             | x :: r => let (v, pres) := assoc_disp impls x k in (if pres then v else VNull) :: on_rows r
             end).
      assert (OE : nonils (on_rows l) = true).
      { rewrite nonil_query in HA. clear D. induction IH as [|x l Hx _ IHl]; [reflexivity|].
        cbn in HA. apply andb_true_iff in HA as [H1 H2]. specialize (Hx H1). specialize (IHl H2).
        cbn [on_rows]. destruct (assoc_disp impls x k) as [v pres]. destruct pres; [|exact IHl].
        cbn. destruct Hx as [Hx|[_ Hx]]; [|discriminate]. cbn in Hx. rewrite Hx. exact IHl. }
      assert (G : found match first_assoc impls (VQuery l) k with
              | Some r => r
              | None => match first_assoc impls (VArr l) k with
                        | Some r => r
                        | None => match k with
                                  | KVal b => match to_int64 b with
                                              | Some idx => recovered (default_assoc_index (VArr l) idx)
                                              | None => (VNull, false)
                                              end
                                  | KRange s e => recovered (default_assoc_range (VArr l) s e)
                                  end
                        end
              end).
      { destruct (first_assoc impls (VQuery l) k) as [r|] eqn:F; [exact (first_assoc_found _ _ _ _ C HA HK F)|].
        destruct (first_assoc impls (VArr l) k) as [r|] eqn:F2; [exact (first_assoc_found _ (VArr l) _ _ C HA HK F2)|].
        exact (D (VArr l) HA). }
      destruct k as [b|s e]; [|exact G]. destruct b; try exact G. left. exact OE.
  Qed.

  Lemma nonils_value_rows : forall l, nonils l = true -> nonils (map value_row l) = true.
  Proof.
    intros l H. apply nonils_intro. intros v I. apply in_map_iff in I as (x & <- & I).
    cbn. rewrite (nonils_In _ _ H I). reflexivity.
  Qed.

  Lemma nonils_slice_iterator : forall l, nonils l = true -> nonils (slice_iterator l) = true.
  Proof.
    induction l as [|x l IH]; [reflexivity|]. cbn [nonils forallb slice_iterator]. intros H.
    apply andb_true_iff in H as [H1 H2]. specialize (IH H2).
    destruct (is_nil x); [exact IH|]. destruct x; cbn; try discriminate H1; try exact IH; apply andb_true_iff; split; auto;
      apply andb_true_iff; auto.
  Qed.

  Lemma nonils_iterate : forall v, v = VNil \/ nonil v = true -> nonils (iterate (env_iter E) v) = true.
  Proof.
    intros v H. unfold iterate.
    assert (F : nonils match first1 (env_iter E) v with Some rows => rows | None => if is_nil v then [] else [value_row v] end = true).
    { destruct (first1 (env_iter E) v) as [rows|] eqn:F1.
      - pose proof (hl_iter E HL) as HI. revert F1. generalize (env_iter E) HI. intros l HI'.
        induction l as [|i l IH]; cbn; intros F1; [discriminate|].
        destruct (i v) eqn:EI; [injection F1 as <-; apply (HI' i v l0); auto; now left|].
        apply IH; auto. intros j a' l' I. apply (HI' j a' l'). now right.
      - destruct H as [->|H]; [reflexivity|].
        destruct (is_nil v); [reflexivity|]. cbn. now rewrite H. }
    destruct v as [| |x|k z|f|f|t|n| |l|d|l|n]; cbn [arr_elems]; try exact F;
      (destruct H as [H|H]; [discriminate|]); auto.
    - apply nonils_slice_iterator. exact H.
    - cbn. rewrite andb_true_r. exact H.
  Qed.

  Lemma nonild_update : forall k v d, nonil v = true -> nonild d = true -> nonild (dict_update k v d) = true.
  Proof.
    intros k v d HV. induction d as [|[k' x] d IH]; cbn; intros H; [now rewrite HV|].
    apply andb_true_iff in H as [H1 H2].
    destruct (String.eqb k k'); cbn; rewrite ?HV, ?H1; auto.
  Qed.

  Lemma nonild_fold : forall o d, nonild o = true -> nonild d = true ->
    nonild (fold_left (fun d kv => dict_set (fst kv) (snd kv) d) o d) = true.
  Proof.
    induction o as [|[k v] o IH]; cbn; intros d H1 H2; [exact H2|].
    apply andb_true_iff in H1 as [H1 H3]. apply IH; auto. now apply nonild_set.
  Qed.

  Lemma nonild_flatten_at : forall n item, nonild item = true ->
    Forall (fun d => nonild d = true) (flatten_at (env_iter E) item n).
  Proof.
    induction n as [|n IH]; intros item H; cbn [flatten_at]; [repeat constructor; auto|].
    set (col := nth n (keys item) ""%string).
    set (cell := match assoc col item with Some v => v | None => VNil end).
    assert (HI : nonils (iterate (env_iter E) cell) = true).
    { apply nonils_iterate. unfold cell. destruct (assoc col item) as [v|] eqn:A; [right; eapply nonild_assoc; eauto|now left]. }
    destruct (iterate (env_iter E) cell) as [|m ms]; [now apply IH|].
    apply Forall_forall. intros d I. apply in_flat_map in I as (x & IX & ID).
    refine (proj1 (Forall_forall _ _) (IH _ _) d ID). apply nonild_update; [|now apply nonild_fold].
    pose proof (nonils_In _ _ HI IX) as HX. unfold unwrap_value. destruct x; auto.
    destruct (assoc "_value"%string _) eqn:A; [eapply nonild_assoc; eauto|exact HX].
  Qed.
End Ops.

(** ** The logic *)

Section Logic.
  Variable E : env.
  Variable sites : nat -> bool.
  Notation safe := (safe E sites).
  Notation ok_state := (ok_state E sites).
  Notation ok_obj := (ok_obj E sites).

  Lemma safe_ret : forall A (P : A -> Prop) a, P a -> safe P (mret a).
  Proof. intros A P a H s I. split; auto. Qed.

  Lemma safe_fuel : forall A (P : A -> Prop), safe P mfuel.
  Proof. intros A P s I. exact Logic.I. Qed.

  Lemma safe_bind : forall A B (P : A -> Prop) (Q : B -> Prop) (m : EM A) (f : A -> EM B),
    safe P m -> (forall a, P a -> safe Q (f a)) -> safe Q (mbind m f).
  Proof.
    intros A B P Q m f HM HF s I. unfold mbind. specialize (HM s I).
    destruct (m s) as [s' [a| |]]; auto. destruct HM as [I' HP]. exact (HF a HP s' I').
  Qed.

  Lemma safe_weaken : forall A (P Q : A -> Prop) m, safe P m -> (forall a, P a -> Q a) -> safe Q m.
  Proof. intros A P Q m H PQ s I. specialize (H s I). destruct (m s) as [s' [a| |]]; auto. destruct H; auto. Qed.

  Lemma safe_mmap : forall A B (P : A -> Prop) (Q : B -> Prop) (f : A -> EM B) l,
    Forall P l -> (forall a, P a -> safe Q (f a)) -> safe (Forall Q) (mmap f l).
  Proof.
    intros A B P Q f l H HF. induction H as [|x l Hx H IH]; cbn [mmap]; [apply safe_ret; constructor|].
    eapply safe_bind; [apply HF; exact Hx|]. intros y HY.
    eapply safe_bind; [exact IH|]. intros ys HYS. apply safe_ret. now constructor.
  Qed.

  Lemma safe_alloc : forall o, ok_obj o -> safe (fun v => nonil v = true) (alloc o).
  Proof.
    intros o H s I. cbn. split; [|reflexivity]. destruct I as [H1 H2 H3]. constructor; cbn; auto.
    intros n o' N. destruct (Nat.lt_ge_cases n (List.length (heap s))) as [L|L].
    - rewrite nth_error_app1 in N by exact L. eauto.
    - rewrite nth_error_app2 in N by exact L. destruct (n - List.length (heap s)) as [|k]; cbn in N.
      + injection N as <-. exact H.
      + destruct k; discriminate.
  Qed.

  Lemma safe_obj_of : forall v, safe (fun o => forall x, o = Some x -> ok_obj x) (obj_of v).
  Proof.
    intros v s I. cbn. split; [exact I|]. intros x. destruct v; try discriminate. intros N. exact (os_heap _ _ _ I _ _ N).
  Qed.

  Lemma safe_update : forall n o, ok_obj o -> safe (fun _ => True) (update_obj n o).
  Proof.
    intros n o H s I. cbn. split; [|exact Logic.I]. destruct I as [H1 H2 H3]. constructor; cbn; auto.
    intros m o' N. rewrite nth_set_nth in N. destruct (Nat.eqb n m); [|eauto].
    destruct (nth_error (heap s) n); [injection N as <-; exact H|discriminate].
  Qed.

  Lemma safe_members : forall v, safe (fun _ => True) (members v).
  Proof. intros v s I. split; auto. Qed.

  Lemma safe_observe : forall v, safe (fun _ => True) (observe v).
  Proof. intros v s [H1 H2 H3]. cbn. split; [constructor; cbn; auto|exact Logic.I]. Qed.

  Lemma safe_fresh_agg : forall sc, ok_scope sc = true -> safe (fun sc => ok_scope sc = true) (fresh_agg sc).
  Proof.
    intros sc H s [H1 H2 H3]. cbn. split; [constructor; cbn; auto|exact H].
    intros d id v D. apply in_app_or in D as [D|[<-|[]]]; [eauto|discriminate].
  Qed.

  Lemma safe_own_cell : forall sc, ok_scope sc = true -> safe (fun sc => ok_scope sc = true) (own_cell sc).
  Proof. intros sc H s [H1 H2 H3]. cbn. split; [constructor; cbn; auto|exact H]. Qed.

  Lemma safe_set_agg : forall sc c, safe (fun _ => True) (set_agg sc c).
  Proof. intros sc c s [H1 H2 H3]. cbn. split; [constructor; cbn; auto|exact Logic.I]. Qed.

  Lemma safe_new_ctx : safe (fun _ => True) new_ctx.
  Proof.
    intros s [H1 H2 H3]. cbn. split; [constructor; cbn; auto|exact Logic.I].
    intros d id v D. apply in_app_or in D as [D|[<-|[]]]; [eauto|discriminate].
  Qed.

  Lemma In_set_nth : forall A (l : list A) n x y, In y (set_nth n x l) -> y = x \/ In y l.
  Proof.
    induction l as [|z l IH]; intros n x y I; [destruct n; contradiction|]. destruct n; cbn in I.
    - destruct I as [<-|I]; [now left|right; right; exact I].
    - destruct I as [<-|I]; [right; left; reflexivity|]. destruct (IH _ _ _ I) as [->|J]; [now left|right; right; exact J].
  Qed.

  Lemma safe_modify : forall sc id f,
    (forall o, (forall v, o = Some v -> v = VNil \/ nonil v = true) -> f o = VNil \/ nonil (f o) = true) ->
    safe (fun v => v = VNil \/ nonil v = true) (modify sc id f).
  Proof.
    intros sc id f HF s [H1 H2 H3]. unfold modify. cbv zeta.
    set (data := match nth_error (ctxs s) (agg_ctx sc s) with Some d => d | None => [] end).
    assert (HD : forall i v, nassoc i data = Some v -> v = VNil \/ nonil v = true).
    { intros i v N. unfold data in N. destruct (nth_error (ctxs s) (agg_ctx sc s)) as [d|] eqn:D; [|discriminate].
      apply nth_error_In in D. eauto. }
    assert (HV : f (nassoc id data) = VNil \/ nonil (f (nassoc id data)) = true).
    { apply HF. intros v N. eauto. }
    split; [|exact HV]. constructor; cbn; auto.
    intros d i v D N. apply In_set_nth in D as [->|D]; [|eauto].
    rewrite nassoc_nset in N. destruct (Nat.eqb i id); [injection N as <-; exact HV|eauto].
  Qed.

  Lemma safe_node_function : forall node f, calm_func f -> (f = FEnumerate -> sites node = true) ->
    safe (fun r => calm_func (fst (fst r)) /\ (fst (fst r) = FEnumerate -> sites node = true)) (node_function node f).
  Proof.
    intros node f HF HS s I. unfold node_function. destruct (nassoc node (node_funs s)) as [[f' id]|] eqn:N.
    - split; [exact I|]. exact (os_funs _ _ _ I _ _ _ N).
    - split; [|split; auto]. destruct I as [H1 H2 H3]. constructor; cbn; auto.
      intros n f' id M. rewrite nassoc_nset in M. destruct (Nat.eqb n node) eqn:EN; [|eauto].
      apply Nat.eqb_eq in EN as ->. injection M as <- <-. auto.
  Qed.

  Lemma safe_split_symbol : forall node b, safe (fun _ => True) (split_symbol node b).
  Proof.
    intros node b s I. unfold split_symbol. destruct (existsb _ _); [split; auto|].
    destruct I as [H1 H2 H3]. split; [constructor; cbn; auto|exact Logic.I].
  Qed.
End Logic.

Record safe_evals (E : env) (sites : nat -> bool) (R : evals) : Prop := {
  se_expr : forall sc e, ok_scope sc = true -> calm E sites e = true ->
    safe E sites (fun v => nonil v = true) (r_expr R sc e);
  se_select : forall sc q, ok_scope sc = true -> calm_select E sites q = true ->
    safe E sites (fun l => nonils l = true) (r_select R sc q);
  se_query : forall sc q, ok_scope sc = true -> nonil q = true ->
    safe E sites (fun l => nonils l = true) (r_query R sc q);
  se_assoc : forall sc a k, ok_scope sc = true -> nonil a = true -> ok_key k = true ->
    safe E sites found (r_assoc R sc a k);
  se_reduce : forall v, nonil v = true -> safe E sites (fun v => nonil v = true) (r_reduce R v);
  se_reduce_ws : forall sc v, ok_scope sc = true -> nonil v = true ->
    safe E sites (fun v => nonil v = true) (r_reduce_ws R sc v);
  se_evalsym : forall sc v, ok_scope sc = true -> nonil v = true ->
    safe E sites (fun l => nonils l = true) (r_evalsym R sc v);
  se_negate : forall sc v, ok_scope sc = true -> nonil v = true ->
    safe E sites (fun v => nonil v = true) (r_negate R sc v);
  se_normalize : forall sc d v, ok_scope sc = true -> nonil v = true ->
    safe E sites (fun v => nonil v = true) (r_normalize R sc d v);
  se_tostring : forall sc v, ok_scope sc = true -> nonil v = true ->
    safe E sites (fun _ => True) (r_tostring R sc v)
}.

(** ** The steps of the evaluator *)

Lemma ok_copy : forall sc, ok_scope sc = true -> ok_scope (copy sc) = true.
Proof. auto. Qed.
Lemma ok_append : forall v sc, nonil v = true -> ok_scope sc = true -> ok_scope (append_vars v sc) = true.
Proof. intros v sc HV HS. unfold ok_scope, append_vars in *. cbn. now rewrite HV. Qed.
Lemma ok_dict : forall d, nonild d = true -> nonil (VDict d) = true.
Proof. auto. Qed.
Lemma ok_arr : forall d, nonils d = true -> nonil (VArr d) = true.
Proof. auto. Qed.
Lemma ok_query : forall d, nonils d = true -> nonil (VQuery d) = true.
Proof. auto. Qed.
Lemma ok_arr' : forall d, nonil (VArr d) = true -> nonils d = true.
Proof. auto. Qed.
Lemma ok_query' : forall d, nonil (VQuery d) = true -> nonils d = true.
Proof. auto. Qed.
Lemma ok_dict' : forall d, nonil (VDict d) = true -> nonild d = true.
Proof. auto. Qed.
Lemma found_pres : forall v, found (v, true) -> nonil v = true.
Proof. intros v [H|[_ H]]; [exact H|discriminate]. Qed.
Lemma found_ok : forall v b, nonil v = true -> found (v, b).
Proof. intros v b H. now left. Qed.
Lemma found_not : found (VNil, false).
Proof. right. split; reflexivity. Qed.
Lemma Forall_nonils : forall l, nonils l = true -> Forall (fun v => nonil v = true) l.
Proof. intros l H. apply Forall_forall. intros v. exact (nonils_In _ _ H). Qed.
Lemma nonils_Forall : forall l, Forall (fun v => nonil v = true) l -> nonils l = true.
Proof. intros l H. apply nonils_intro. now apply Forall_forall. Qed.

Create HintDb np.
Global Hint Resolve ok_copy ok_append ok_dict ok_arr ok_query ok_arr' ok_query' ok_dict' found_pres found_ok found_not
  nonild_set Forall_nonils nonils_Forall nonils_concat : np.

Ltac sbind := eapply safe_bind; [|intros ? ?].
Tactic Notation "sobj" ident(o) ident(H) := eapply safe_bind; [apply safe_obj_of|intros o H].

Section Step.
  Variable E : env.
  Variable sites : nat -> bool.
  Variable R : evals.
  Variable fuel : nat.
  Hypothesis HL : harmless E.
  Hypothesis HR : safe_evals E sites R.
  Hypothesis HG : related grows R R.

  Notation safe := (safe E sites).
  Notation ok_obj := (ok_obj E sites).
  Notation calm := (calm E sites).
  Notation calm_arg := (calm_arg E sites).
  Notation calm_select := (calm_select E sites).
  Notation calm_col := (calm_col E sites).
  Notation val_ok := (fun v => nonil v = true).
  Notation vals_ok := (fun l => nonils l = true).

  Lemma sf_expr : forall sc e, ok_scope sc = true -> calm e = true -> safe val_ok (r_expr R sc e).
  Proof. apply (se_expr _ _ _ HR). Qed.
  Lemma sf_select : forall sc q, ok_scope sc = true -> calm_select q = true -> safe vals_ok (r_select R sc q).
  Proof. apply (se_select _ _ _ HR). Qed.
  Lemma sf_query : forall sc q, ok_scope sc = true -> nonil q = true -> safe vals_ok (r_query R sc q).
  Proof. apply (se_query _ _ _ HR). Qed.
  Lemma sf_assoc : forall sc a k, ok_scope sc = true -> nonil a = true -> ok_key k = true -> safe found (r_assoc R sc a k).
  Proof. apply (se_assoc _ _ _ HR). Qed.
  Lemma sf_reduce : forall v, nonil v = true -> safe val_ok (r_reduce R v).
  Proof. apply (se_reduce _ _ _ HR). Qed.
  Lemma sf_reduce_ws : forall sc v, ok_scope sc = true -> nonil v = true -> safe val_ok (r_reduce_ws R sc v).
  Proof. apply (se_reduce_ws _ _ _ HR). Qed.
  Lemma sf_evalsym : forall sc v, ok_scope sc = true -> nonil v = true -> safe vals_ok (r_evalsym R sc v).
  Proof. apply (se_evalsym _ _ _ HR). Qed.
  Lemma sf_negate : forall sc v, ok_scope sc = true -> nonil v = true -> safe val_ok (r_negate R sc v).
  Proof. apply (se_negate _ _ _ HR). Qed.
  Lemma sf_normalize : forall sc d v, ok_scope sc = true -> nonil v = true -> safe val_ok (r_normalize R sc d v).
  Proof. apply (se_normalize _ _ _ HR). Qed.
  Lemma sf_tostring : forall sc v, ok_scope sc = true -> nonil v = true -> safe (fun _ => True) (r_tostring R sc v).
  Proof. apply (se_tostring _ _ _ HR). Qed.
  Hint Resolve sf_expr sf_select sf_query sf_assoc sf_reduce sf_reduce_ws sf_evalsym sf_negate sf_normalize
    sf_tostring : np.
  Hint Resolve safe_fuel safe_members safe_observe safe_fresh_agg safe_own_cell safe_set_agg safe_new_ctx
    safe_split_symbol : np.
  Hint Extern 1 (nonil (VStr _) = true) => reflexivity : np.
  Hint Extern 1 (nonil (VOpaque _) = true) => reflexivity : np.
  Hint Extern 1 (ok_key _ = true) => solve [reflexivity | assumption] : np.

  (** One step of a proof: sequencing, reading an object, a case. *)
  Ltac np :=
    repeat first
      [ solve [eauto 4 with np]
      | match goal with
        | |- NoPanic.safe _ _ _ (mret _) => apply safe_ret; cbn [fst snd]
        | |- NoPanic.safe _ _ _ (mbind (obj_of _) _) => eapply safe_bind; [apply safe_obj_of|intros ? ?]
        | |- NoPanic.safe _ _ _ (mbind (r_assoc _ _ _ _) _) =>
            eapply safe_bind; [solve [eauto 6 with np]|intros [? ?] ?]; cbn [fst snd] in *
        | |- NoPanic.safe _ _ _ (mbind _ _) => eapply safe_bind; [solve [eauto 6 with np]|intros ? ?]
        | |- NoPanic.safe _ _ _ (if ?b then _ else _) => destruct b eqn:?
        | |- NoPanic.safe _ _ _ (match ?x with _ => _ end) => destruct x eqn:?
        end ].

  Lemma sf_resolve_frames : forall sc frames field d, ok_scope sc = true -> nonils frames = true ->
    d = VNil \/ nonil d = true -> safe found (resolve_frames R sc frames field d).
  Proof.
    intros sc frames field. induction frames as [|f rest IH]; intros d HS HF HD; cbn [resolve_frames].
    - apply safe_ret. destruct HD as [->|HD]; [apply found_not|left; exact HD].
    - cbn in HF. apply andb_true_iff in HF as [H1 H2].
      eapply safe_bind; [apply sf_assoc; auto|]. intros [x pres] F. destruct pres.
      + apply safe_ret. left. apply found_pres in F. destruct x; auto.
      + apply IH; auto. destruct HD as [->|HD].
        * destruct F as [F|[F _]]; [now right|now left].
        * right. destruct d; auto. discriminate.
  Qed.

  Lemma sf_resolve : forall sc field, ok_scope sc = true -> safe found (resolve R sc field).
  Proof.
    intros sc field HS. unfold resolve. destruct (overflow sc); [apply safe_ret; now left|].
    apply sf_resolve_frames; auto.
  Qed.

  Lemma sf_materialize_rows : forall sc q, ok_scope sc = true -> nonil q = true -> safe vals_ok (materialize_rows R sc q).
  Proof. intros. apply sf_query; auto. Qed.
  Lemma sf_materialize : forall sc q, ok_scope sc = true -> nonil q = true -> safe val_ok (materialize R sc q).
  Proof. intros sc q HS HQ. unfold materialize. eapply safe_bind; [apply sf_materialize_rows; auto|]. intros. now apply safe_ret. Qed.
  Hint Resolve sf_resolve sf_materialize sf_materialize_rows : np.

  Lemma sf_subselect_item : forall sc i, ok_scope sc = true -> nonil i = true -> safe vals_ok (subselect_item R sc i).
  Proof.
    intros sc i HS HI. unfold subselect_item. eapply safe_bind; [apply safe_members|]. intros ms _.
    assert (D : safe vals_ok (mret [i] : EM (list val))) by (apply safe_ret; cbn; now rewrite HI).
    destruct ms as [|m [|? ?]]; auto.
    eapply safe_bind; [apply sf_assoc; auto|]. intros [v pres] F. apply safe_ret.
    destruct pres; [|reflexivity]. cbn. apply found_pres in F. now rewrite F.
  Qed.

  Lemma sf_col_reduce : forall sc b, ok_scope sc = true -> calm_col b = true -> b <> CStar ->
    safe val_ok (col_reduce R sc b).
  Proof.
    intros sc b HS HC NS. destruct b as [|s|e]; [congruence| |]; cbn [col_reduce].
    - eapply safe_bind; [apply sf_select; auto|]. intros items HI.
      eapply safe_bind; [apply (safe_mmap _ _ _ _ val_ok vals_ok); [now apply Forall_nonils|intros; now apply sf_subselect_item]|].
      intros rows HRW. apply safe_ret. apply nonils_concat in HRW. cbv beta. destruct (List.concat rows) as [|x [|y r]]; auto.
      cbn in HRW. now rewrite andb_true_r in HRW.
    - apply sf_expr; auto.
  Qed.

  Lemma sf_run_getter : forall g, ok_getter E sites g = true -> safe val_ok (run_getter R g).
  Proof.
    intros [v|b sc] HG'; cbn [run_getter].
    - apply safe_ret. exact HG'.
    - assert (K : calm_col b = true /\ ok_scope sc = true /\ b <> CStar).
      { destruct b; try discriminate; cbn [ok_getter] in HG'; apply andb_true_iff in HG' as [H1 H2];
          (split; [exact H1|split; [exact H2|discriminate]]). }
      destruct K as (K1 & K2 & K3).
      eapply safe_bind; [apply sf_col_reduce; auto|]. intros item HI. sobj o HO.
      destruct item; try (destruct (is_query _ _)); try (apply safe_ret; exact HI); auto with np.
  Qed.

  Lemma sf_row_get : forall n key, safe found (row_get R n key).
  Proof.
    intros n key. unfold row_get. sobj o HO.
    destruct o as [[]|]; try (apply safe_ret; left; reflexivity).
    specialize (HO _ eq_refl) as (H1 & H2 & H3).
    destruct (assoc key cache) as [v|] eqn:A.
    - apply safe_ret. left. eapply nonild_assoc; eauto.
    - destruct (assoc key getters) as [g|] eqn:G; [|apply safe_ret; left; reflexivity].
      eapply safe_bind; [apply sf_run_getter; eauto|]. intros v HV. sobj o2 HO.
      destruct o2 as [[]|]; try (apply safe_ret; left; exact HV).
      specialize (HO _ eq_refl) as (K1 & K2 & K3).
      eapply safe_bind; [apply safe_update|].
      + split; [exact K1|split; [exact K2|]]. now apply nonild_set.
      + intros _ _. apply safe_ret. now left.
  Qed.

  (** The object of a row stays in the heap with its columns and getters. *)
  Lemma sf_materialize_columns : forall n cs gs columns result, nonild result = true ->
    (forall c, In c columns -> assoc c gs <> None) ->
    forall s, ok_state E sites s -> (exists ca, nth_error (heap s) n = Some (ORow cs gs ca)) ->
    match materialize_columns R n columns result s with
    | (s', RVal d) => ok_state E sites s' /\ nonild d = true
    | (_, RPanic) => False
    | (_, RFuel) => True
    end.
  Proof.
    intros n cs gs columns. induction columns as [|c rest IH]; intros result HRS HC s I [ca N]; cbn [materialize_columns].
    - split; auto.
    - unfold mbind at 1. cbn [obj_of]. rewrite N.
      pose proof (os_heap _ _ _ I _ _ N) as (O1 & O2 & O3).
      assert (K : forall m : EM val, safe val_ok m -> grows _ m mfuel ->
        match mbind m (fun v => materialize_columns R n rest (dict_set c v result)) s with
        | (s', RVal d) => ok_state E sites s' /\ nonild d = true
        | (_, RPanic) => False
        | (_, RFuel) => True
        end).
      { intros m G1 G2. specialize (G1 s I). specialize (G2 s). unfold mbind.
        destruct (m s) as [s1 [v| |]]; auto. destruct G1 as [I1 HV].
        apply IH; auto.
        - now apply nonild_set.
        - intros c' HC'. apply HC. now right.
        - cbn in G2. destruct (evo_heap _ _ G2 _ _ N) as (o' & N' & SO). inversion SO; subst; eauto. }
      apply K.
      + destruct (assoc c ca) as [v|] eqn:A; [apply safe_ret; eapply nonild_assoc; eauto|].
        destruct (assoc c gs) as [g|] eqn:B; [apply sf_run_getter; eauto|].
        exfalso. apply (HC c (or_introl eq_refl) B).
      + destruct (assoc c ca) as [v|] eqn:A; [intros s0; apply evolves_refl|].
        destruct (assoc c gs) as [g|] eqn:B; [|intros s0; apply evolves_refl].
        intros s0. exact (pa_run_getter _ grows_closed _ _ HG g s0).
  Qed.

  Lemma sf_materialize_row : forall v, nonil v = true -> safe val_ok (materialize_row R v).
  Proof.
    intros v HV s I. unfold materialize_row, mbind at 1. cbn [obj_of].
    destruct v; try (split; [exact I|exact HV]).
    destruct (nth_error (heap s) n) as [[]|] eqn:N; try (split; [exact I|reflexivity]).
    pose proof (os_heap _ _ _ I _ _ N) as (O1 & O2 & O3).
    pose proof (sf_materialize_columns n columns getters columns [] eq_refl O1 s I (ex_intro _ _ N)) as M.
    unfold mbind. destruct (materialize_columns R n columns [] s) as [s1 [d| |]]; auto.
  Qed.

  (** ** Associative *)

  Lemma sf_query_index : forall sc rows i k result, ok_scope sc = true -> nonils rows = true -> ok_key k = true ->
    nonils result = true -> safe found (query_index R sc rows i k result).
  Proof.
    intros sc rows. induction rows as [|row rest IH]; intros i k result HS HRW HK HRS; cbn [query_index].
    - apply safe_ret. left. cbn [fst]. destruct result; auto.
    - cbn in HRW. apply andb_true_iff in HRW as [H1 H2].
      assert (D : safe found ('(item, pres) <- r_assoc R sc row k ;;
                 query_index R sc rest (i + 1)%Z k (if pres : bool then result ++ [item] else result))).
      { eapply safe_bind; [apply sf_assoc; auto|]. intros [item pres] F. apply IH; auto.
        destruct pres; [|exact HRS]. apply found_pres in F. rewrite nonils_app, HRS. cbn. now rewrite F. }
      destruct k as [b|? ?]; [|exact D]. destruct (to_int64 b); [|exact D].
      destruct (Z.eqb _ _); [apply safe_ret; now left|exact D].
  Qed.

  Lemma sf_assoc_elems : forall sc l k, ok_scope sc = true -> nonils l = true -> ok_key k = true ->
    safe vals_ok (assoc_elems R sc l k).
  Proof.
    intros sc l. induction l as [|x l IH]; intros k HS HLS HK; cbn [assoc_elems]; [now apply safe_ret|].
    cbn in HLS. apply andb_true_iff in HLS as [H1 H2].
    eapply safe_bind; [apply sf_assoc; auto|]. intros [v pres] F.
    eapply safe_bind; [apply IH; auto|]. intros vs HVS. apply safe_ret.
    destruct pres; [|exact HVS]. apply found_pres in F. cbn. now rewrite F.
  Qed.

  Lemma sf_assoc_other : forall sc a o k, ok_scope sc = true -> nonil a = true -> ok_key k = true ->
    safe found (assoc_other E R sc a o k).
  Proof.
    intros sc a o k HS HA HK. unfold assoc_other.
    destruct (first_assoc _ a k) as [r|] eqn:F.
    { apply safe_ret. exact (first_assoc_found _ _ _ _ (hl_assoc E HL) HA HK F). }
    match goal with |- context [if ?b then _ else _] => destruct b end.
    { eapply safe_bind; [apply sf_query; auto|]. intros rows HRW. apply sf_query_index; auto. }
    destruct (is_lazy o).
    { eapply safe_bind; [apply sf_reduce; auto|]. intros v HV. apply safe_ret.
      assert (D : found (assoc_disp [] v k)) by (apply found_assoc; auto; intros; contradiction).
      destruct v; try exact D; left; reflexivity. }
    assert (D : safe found (mret (assoc_disp (p_assoc (env_protos E)) a k) : EM _)).
    { apply safe_ret. apply found_assoc; auto. exact (hl_assoc E HL). }
    destruct a; try exact D. destruct (key_string k); [|exact D].
    eapply safe_bind; [apply sf_assoc_elems; auto|]. intros items HI. apply safe_ret. left. cbn [fst].
    destruct items; auto.
  Qed.

  Lemma sf_assoc_step : forall sc a k, ok_scope sc = true -> nonil a = true -> ok_key k = true ->
    safe found (assoc_step E R sc a k).
  Proof.
    intros sc a k HS HA HK. unfold assoc_step. destruct (is_nil a); [apply safe_ret; now left|].
    sobj o HO. destruct (key_string k) as [field|] eqn:KS; [|now apply sf_assoc_other].
    assert (Q : safe found (if is_query a o then
                rows <- r_query R sc a ;;
                fields <- mmap (fun row =>
                            '(v, pres) <- r_assoc R sc row (KVal (VStr field)) ;;
                            mret (if pres : bool then v else VNull)) rows ;;
                mret (VArr fields, true)
              else assoc_other E R sc a o k)).
    { destruct (is_query a o); [|now apply sf_assoc_other].
      eapply safe_bind; [apply sf_query; auto|]. intros rows HRW.
      eapply safe_bind; [apply (safe_mmap _ _ _ _ val_ok val_ok); [now apply Forall_nonils|]|].
      - intros row HRW'. eapply safe_bind; [apply sf_assoc; auto|]. intros [v pres] F. apply safe_ret.
        destruct pres; [now apply found_pres|reflexivity].
      - intros fields HF. apply safe_ret. left. cbn [fst]. apply ok_arr. now apply nonils_Forall. }
    destruct a;
      try (destruct o as [[]|]; try exact Q;
           [ specialize (HO _ eq_refl) as (HO1 & HO2);
             eapply safe_bind; [apply sf_expr; auto|]; intros v HV; now apply sf_assoc
           | specialize (HO _ eq_refl); now apply sf_resolve ]).
    - apply safe_ret. apply found_assoc; auto. intros; contradiction.
    - destruct o as [[]|]; try exact Q.
      + specialize (HO _ eq_refl) as (HO1 & HO2).
        eapply safe_bind; [apply sf_expr; auto|]. intros v HV. now apply sf_assoc.
      + apply sf_row_get.
      + specialize (HO _ eq_refl). now apply sf_resolve.
  Qed.

  (** ** Operators *)

  Lemma sf_truth : forall sc v, ok_scope sc = true -> nonil v = true -> safe (fun _ => True) (truth E R sc v).
  Proof.
    intros sc v HS HV. unfold truth. eapply safe_bind; [apply sf_reduce; auto|]. intros x HX. sobj o HO.
    assert (D : forall b, safe (fun _ => True) (if is_query x o then
          rows <- r_query R (copy sc) x ;;
          mret (match rows with [] => false | _ => true end)
        else mret b)).
    { intros b. destruct (is_query x o); [|now apply safe_ret].
      eapply safe_bind; [apply sf_query; auto|]. intros. now apply safe_ret. }
    destruct x; try apply D. now apply safe_ret.
  Qed.

  Lemma sf_addf : forall sc a b, ok_scope sc = true -> nonil a = true -> nonil b = true -> safe val_ok (addf E R sc a b).
  Proof.
    intros sc a b HS HA HB. unfold addf.
    eapply safe_bind; [apply sf_reduce; auto|]. intros x HX.
    eapply safe_bind; [apply sf_reduce; auto|]. intros y HY. sobj o1 HO1. sobj o2 HO2.
    match goal with |- context [if ?b then _ else _] => destruct b end.
    - eapply safe_bind; [instantiate (1 := val_ok); destruct (is_query x o1); [now apply sf_materialize|now apply safe_ret]|].
      intros x' HX'.
      eapply safe_bind; [instantiate (1 := val_ok); destruct (is_query y o2); [now apply sf_materialize|now apply safe_ret]|].
      intros y' HY'. apply safe_ret. now apply nonil_add.
    - apply safe_ret. now apply nonil_add.
  Qed.

  Lemma sf_subf : forall sc a b, nonil a = true -> nonil b = true -> safe val_ok (subf E R sc a b).
  Proof.
    intros sc a b HA HB. unfold subf.
    eapply safe_bind; [apply sf_reduce; auto|]. intros x HX.
    eapply safe_bind; [apply sf_reduce; auto|]. intros y HY. apply safe_ret. now apply nonil_sub.
  Qed.

  Lemma sf_divf : forall sc a b, nonil a = true -> nonil b = true -> safe val_ok (divf E R sc a b).
  Proof.
    intros sc a b HA HB. unfold divf.
    eapply safe_bind; [apply sf_reduce; auto|]. intros x HX.
    eapply safe_bind; [apply sf_reduce; auto|]. intros y HY. apply safe_ret. now apply nonil_div.
  Qed.

  Lemma sf_cmpf : forall sc op a b, nonil a = true -> nonil b = true -> safe val_ok (cmpf E R sc op a b).
  Proof.
    intros sc op a b HA HB. unfold cmpf.
    eapply safe_bind; [apply sf_reduce; auto|]. intros x HX.
    eapply safe_bind; [apply sf_reduce; auto|]. intros y HY. now apply safe_ret.
  Qed.

  (** ** Arguments *)

  Lemma sf_arg_eager : forall sc a, ok_scope sc = true -> calm_arg a = true -> safe val_ok (arg_eager R sc a).
  Proof.
    intros sc a HS HA. destruct a; cbn [arg_eager]; cbn in HA.
    - now apply sf_expr.
    - now apply safe_alloc.
    - now apply sf_expr.
    - now apply safe_ret.
  Qed.

  Lemma sf_build_args : forall sc ps args, ok_scope sc = true -> forallb (fun p => calm_arg (snd p)) ps = true ->
    nonild args = true -> safe (fun d => nonild d = true) (build_args R sc ps args).
  Proof.
    intros sc ps. induction ps as [|[name a] ps IH]; intros args HS HP HA; cbn [build_args]; [now apply safe_ret|].
    cbn in HP. apply andb_true_iff in HP as [H1 H2].
    eapply safe_bind; [now apply sf_arg_eager|]. intros v HV. apply IH; auto. now apply nonild_set.
  Qed.

  Lemma assoc_set_none : forall A k k' (v : A) d, assoc k (dict_set k' v d) = None <-> k <> k' /\ assoc k d = None.
  Proof.
    intros A k k' v d. rewrite assoc_dict_set. destruct (String.eqb_spec k k') as [->|N].
    - split; [discriminate|intros [X _]; congruence].
    - tauto.
  Qed.

  Lemma sf_build_lazy_args : forall sc ps args, ok_scope sc = true -> forallb (fun p => calm_arg (snd p)) ps = true ->
    nonild args = true ->
    safe (fun d => nonild d = true /\ forall k, assoc k d = None <-> ~ In k (keys ps) /\ assoc k args = None)
      (build_lazy_args R sc ps args).
  Proof.
    intros sc ps. induction ps as [|[name a] ps IH]; intros args HS HP HA; cbn [build_lazy_args].
    - apply safe_ret. split; [exact HA|]. cbn. intros; tauto.
    - cbn in HP. apply andb_true_iff in HP as [H1 H2].
      eapply (safe_bind _ _ _ _ val_ok).
      + destruct a; try now apply sf_arg_eager. apply safe_alloc. split; [exact H1|split; [exact HS|discriminate]].
      + intros v HV. eapply safe_weaken; [apply IH; auto; now apply nonild_set|].
        intros d [HD HK]. split; [exact HD|]. intros k. rewrite HK, assoc_set_none. cbn.
        split; [intros (X & Y & Z)|intros (X & Z)]; repeat split; auto; intros Y'; firstorder congruence.
  Qed.

  Lemma sf_apply_defaults : forall sc ds args, ok_scope sc = true -> ok_defaults E sites ds = true ->
    nonild args = true -> safe (fun d => nonild d = true) (apply_defaults R sc ds args).
  Proof.
    intros sc ds. induction ds as [|[name [w a]] ds IH]; intros args HS HP HA; cbn [apply_defaults]; [now apply safe_ret|].
    cbn in HP. apply andb_true_iff in HP as [H1 H2]. destruct (assoc name args); [now apply IH|].
    eapply safe_bind; [now apply sf_arg_eager|]. intros v HV. apply IH; auto. now apply nonild_set.
  Qed.

  Lemma sf_run_prog : forall A (P : A -> Prop) sc (p : prog A), ok_scope sc = true -> calm_prog P p ->
    safe P (run_prog E R sc p).
  Proof.
    intros A P sc p HS. induction p as [a| |v k IH|v k IH|v k IH|v k IH|v k IH]; intros HP; cbn [run_prog]; cbn in HP.
    - now apply safe_ret.
    - contradiction.
    - destruct HP as [HV HK]. eapply safe_bind; [now apply sf_reduce|]. intros x HX. auto.
    - destruct HP as [HV HK]. eapply safe_bind; [now apply sf_reduce_ws|]. intros x HX. auto.
    - destruct HP as [HV HK]. eapply safe_bind; [now apply sf_truth|]. intros x HX. auto.
    - destruct HP as [HV HK]. eapply safe_bind; [now apply sf_reduce|]. intros x HX. sobj o HO.
      eapply (safe_bind _ _ _ _ vals_ok).
      + destruct (is_query x o); [now apply sf_query|]. apply safe_ret. apply nonils_iterate; auto.
      + intros rows HRW. auto.
    - eapply safe_bind; [apply safe_observe|]. auto.
  Qed.

  Lemma sf_to_stored_query : forall v, nonil v = true -> safe val_ok (to_stored_query R v).
  Proof.
    intros v HV. unfold to_stored_query. eapply safe_bind; [now apply sf_reduce|]. intros x HX. sobj o HO.
    destruct (is_query x o); [now apply safe_ret|now apply safe_alloc].
  Qed.

  Lemma sf_to_lazy_expr : forall v, nonil v = true -> safe val_ok (to_lazy_expr v).
  Proof.
    intros v HV. unfold to_lazy_expr. sobj o HO.
    destruct (is_lazy o); [now apply safe_ret|]. destruct (is_query v o); now apply safe_alloc.
  Qed.

  Lemma sf_row_to_dict_loop : forall sc row cs result, ok_scope sc = true -> nonil row = true -> nonild result = true ->
    safe val_ok (row_to_dict_loop R sc row cs result).
  Proof.
    intros sc row cs. induction cs as [|c cs IH]; intros result HS HRW HRS; cbn [row_to_dict_loop]; [now apply safe_ret|].
    eapply safe_bind; [apply sf_assoc; auto|]. intros [v pres] F. destruct pres; [|now apply IH].
    eapply safe_bind; [apply sf_normalize; auto; now apply found_pres|]. intros x HX. apply IH; auto. now apply nonild_set.
  Qed.

  Lemma sf_row_to_dict : forall sc row, ok_scope sc = true -> nonil row = true -> safe val_ok (row_to_dict R sc row).
  Proof.
    intros sc row HS HRW. unfold row_to_dict. eapply safe_bind; [apply safe_members|]. intros ms _.
    now apply sf_row_to_dict_loop.
  Qed.

  Lemma sf_normalize_step : forall sc d v, ok_scope sc = true -> nonil v = true -> safe val_ok (normalize_step R sc d v).
  Proof.
    intros sc d v HS HV. unfold normalize_step. destruct (Nat.ltb 10 d); [now apply safe_ret|]. sobj o HO.
    destruct (is_lazy o).
    { eapply safe_bind; [now apply sf_reduce|]. intros x HX. now apply sf_normalize. }
    destruct (is_query v o).
    { eapply safe_bind; [now apply sf_materialize_rows|]. intros rows HRW. now apply safe_ret. }
    destruct v; try (apply safe_ret; exact HV); try now apply safe_ret.
    eapply safe_bind; [apply (safe_mmap _ _ _ _ val_ok val_ok); [now apply Forall_nonils|intros; now apply sf_normalize]|].
    intros l' HL'. apply safe_ret. now apply nonils_Forall.
  Qed.

  Lemma sf_tostring_step : forall sc v, ok_scope sc = true -> nonil v = true -> safe (fun _ => True) (tostring_step E R sc v).
  Proof.
    intros sc v HS HV. unfold tostring_step. sobj o HO.
    destruct (is_lazy o).
    { eapply safe_bind; [now apply sf_reduce|]. intros x HX. now apply sf_tostring. }
    assert (D : safe (fun _ => True) (if is_query v o then rows <- materialize_rows R sc v ;; r_tostring R sc (VArr rows)
             else match v with VStr s => mret s | _ => mret (env_sprint E v) end)).
    { destruct (is_query v o).
      - eapply safe_bind; [now apply sf_materialize_rows|]. intros rows HRW. now apply sf_tostring.
      - destruct v; now apply safe_ret. }
    destruct v; try exact D. now apply sf_tostring.
  Qed.

  (** ** The argument parser *)

  (** The types of the fields of the library's own functions and plugins. *)
  Definition own_type (t : ftype) : bool :=
    match t with TAny | TLazyAny | TStored | TLazy | TString | TBool | TInt64 => true | _ => false end.

  Lemma sf_string_elem : forall sc v, ok_scope sc = true -> nonil v = true ->
    safe (fun _ => True) (string_elem members (fun a k => r_assoc R sc a (KVal (VStr k))) (env_sprint E) v).
  Proof.
    intros sc v HS HV. unfold string_elem. destruct (to_string v); [now apply safe_ret|].
    eapply safe_bind; [apply safe_members|]. intros ms _.
    eapply (safe_bind _ _ _ _ (fun _ => True)); [|intros; now apply safe_ret].
    destruct ms as [|m [|? ?]]; try now apply safe_ret.
    eapply safe_bind; [apply sf_assoc; auto|]. intros [x pres] _. now apply safe_ret.
  Qed.

  Lemma sf_extract_strings : forall sc v, ok_scope sc = true -> nonil v = true ->
    safe (fun _ => True) (extract_string_array (r_reduce R) members (fun a k => r_assoc R sc a (KVal (VStr k))) (env_sprint E) v).
  Proof.
    intros sc v HS HV. unfold extract_string_array. eapply safe_bind; [now apply sf_reduce|]. intros x HX.
    assert (D : safe (fun _ => True)
        match arr_elems x with
        | Some l => rs <- mmap (string_elem members (fun a k => r_assoc R sc a (KVal (VStr k))) (env_sprint E)) l ;; mret (List.concat rs)
        | None => mret [match to_string x with Some s => s | None => env_sprint E x end]
        end).
    { destruct (arr_elems x) as [l|] eqn:AE; [|now apply safe_ret].
      eapply safe_bind; [apply (safe_mmap _ _ _ _ val_ok (fun _ => True))|intros; now apply safe_ret].
      - apply Forall_nonils. exact (arr_elems_nonil _ _ HX AE).
      - intros. now apply sf_string_elem. }
    destruct x; try exact D. discriminate.
  Qed.

  Lemma sf_coerce : forall sc t v, ok_scope sc = true -> nonil v = true -> own_type t = true ->
    safe (fun o => forall x, o = Some x -> nonil x = true)
      (coerce (r_reduce R) (r_reduce_ws R sc) (truth E R sc) members
         (fun a k => r_assoc R sc a (KVal (VStr k))) (env_sprint E)
         (to_stored_query R) to_lazy_expr (row_to_dict R sc) t v).
  Proof.
    intros sc t v HS HV HT. destruct t; try discriminate; cbn [coerce].
    - eapply safe_bind; [now apply sf_reduce_ws|]. intros x HX. apply safe_ret. intros y Y. injection Y as <-. exact HX.
    - apply safe_ret. intros y Y. injection Y as <-. exact HV.
    - eapply safe_bind; [now apply sf_to_stored_query|]. intros x HX. apply safe_ret. intros y Y. injection Y as <-. exact HX.
    - eapply safe_bind; [now apply sf_to_lazy_expr|]. intros x HX. apply safe_ret. intros y Y. injection Y as <-. exact HX.
    - eapply safe_bind; [now apply sf_reduce|]. intros x HX.
      eapply (safe_bind _ _ _ _ (fun _ => True)).
      + destruct (is_array x); [|now apply safe_ret].
        eapply safe_bind; [now apply sf_extract_strings|]. intros. now apply safe_ret.
      + intros. apply safe_ret. intros y Y. injection Y as <-. reflexivity.
    - eapply safe_bind; [now apply sf_reduce|]. intros x HX.
      eapply safe_bind; [now apply sf_truth|]. intros b _. apply safe_ret. intros y Y. injection Y as <-. reflexivity.
    - eapply safe_bind; [now apply sf_reduce|]. intros x HX. apply safe_ret. intros y Y.
      destruct (to_int64 x); [injection Y as <-; reflexivity|discriminate].
  Qed.

  (** The struct after parsing: every field is as before or set, required
      fields and those with an argument are set. *)
  Definition parsed_ok (fields : list fieldp) (args : list (string * val)) (target target' : list val)
    (err : option perr) : Prop :=
    (forall i, nth_error target' i = nth_error target i \/
               exists v, nth_error target' i = Some v /\ nonil v = true) /\
    List.length target' = List.length target /\
    (err = None -> forall f, In f fields -> fp_required f = true \/ assoc (fp_name f) args <> None ->
       fp_idx f < List.length target -> exists v, nth_error target' (fp_idx f) = Some v /\ nonil v = true).

  Lemma nth_set_field : forall i v target j,
    nth_error (set_field i v target) j =
    if Nat.eqb i j then match nth_error target i with Some _ => Some v | None => None end else nth_error target j.
  Proof.
    intros i v target. revert i. induction target as [|x l IH]; intros i j.
    - destruct i, j; cbn; try reflexivity; destruct (Nat.eqb i j); reflexivity.
    - destruct i as [|i], j as [|j]; cbn [set_field nth_error Nat.eqb]; try reflexivity. apply IH.
  Qed.
  Lemma length_set_field : forall i v target, List.length (set_field i v target) = List.length target.
  Proof. intros i v target. revert i. induction target as [|x l IH]; intros [|i]; cbn; auto. Qed.

  Lemma sf_parse_fields : forall sc fields args parsed target, ok_scope sc = true -> nonild args = true ->
    forallb (fun f => own_type (fp_type f)) fields = true ->
    safe (fun r => parsed_ok fields args target (snd (fst r)) (snd r))
      (parse_fields (r_reduce R) (r_reduce_ws R sc) (truth E R sc) members
         (fun a k => r_assoc R sc a (KVal (VStr k))) (env_sprint E)
         (to_stored_query R) to_lazy_expr (row_to_dict R sc) fields args parsed target).
  Proof.
    intros sc fields args. induction fields as [|f fields IH]; intros parsed target HS HA HF; cbn [parse_fields].
    - apply safe_ret. split; [auto|]. split; [reflexivity|]. intros _ f [].
    - cbn in HF. apply andb_true_iff in HF as [HT HF].
      destruct (assoc (fp_name f) args) as [value|] eqn:A.
      + eapply safe_bind; [apply sf_coerce; auto; eapply nonild_assoc; eauto|]. intros o HO.
        destruct o as [v|]; [|apply safe_ret; split; [auto|split; [reflexivity|discriminate]]].
        specialize (HO _ eq_refl).
        assert (SO : set_ok (fp_type f) v = true) by (destruct (fp_type f), v; try discriminate; reflexivity).
        rewrite SO. eapply safe_weaken; [apply IH; auto|].
        intros [[ps tg] err] (K1 & K2 & K3). cbn [fst snd] in *. rewrite length_set_field in K2.
        split; [|split; [exact K2|]].
        * intros i. destruct (K1 i) as [K|K]; [|now right]. rewrite nth_set_field in K.
          destruct (Nat.eqb (fp_idx f) i); [|now left]. destruct (nth_error target (fp_idx f)) eqn:NE.
          -- right. eauto.
          -- destruct (nth_error tg i) eqn:Q; [discriminate|].
             left. symmetry. apply nth_error_None. rewrite <- K2. now apply nth_error_None.
        * intros HE g [<-|IG] HP HX; [|apply K3; auto; now rewrite length_set_field].
          destruct (K1 (fp_idx f)) as [K|K]; [|exact K].
          rewrite nth_set_field, Nat.eqb_refl in K.
          destruct (nth_error target (fp_idx f)) eqn:NE; [eauto|].
          apply nth_error_None in NE. lia.
      + destruct (fp_required f) eqn:RQ; [apply safe_ret; split; [auto|split; [reflexivity|discriminate]]|].
        eapply safe_weaken; [apply IH; auto|]. intros [[ps tg] err] (K1 & K2 & K3). cbn [fst snd] in *.
        split; [exact K1|split; [exact K2|]]. intros HE g [<-|IG] HP HX; [|now apply K3].
        destruct HP as [HP|HP]; congruence.
  Qed.

  Lemma sf_parse_args : forall sc fields args target, ok_scope sc = true -> nonild args = true ->
    forallb (fun f => own_type (fp_type f)) fields = true ->
    safe (fun r => exists args', (assoc "**"%string args = None -> args' = args) /\
                   parsed_ok fields args' target (fst r) (snd r))
      (parse_args E R sc fields args target).
  Proof.
    intros sc fields args target HS HA HF. unfold parse_args, extract_args, normalize_args.
    assert (D : forall args', nonild args' = true ->
      safe (fun r => parsed_ok fields args' target (fst r) (snd r))
        (parse (r_reduce R) (r_reduce_ws R sc) (truth E R sc) members
         (fun a k => r_assoc R sc a (KVal (VStr k))) (env_sprint E)
         (to_stored_query R) to_lazy_expr (row_to_dict R sc) fields args' target)).
    { intros args' HA'. unfold parse. eapply safe_bind; [now apply sf_parse_fields|].
      intros [[ps tg] err] K. cbn [fst snd] in *. destruct err; [now apply safe_ret|].
      destruct (Nat.eqb _ _); [now apply safe_ret|]. apply safe_ret. cbn [fst snd].
      destruct K as (K1 & K2 & K3). split; [exact K1|split; [exact K2|]]. intros _. now apply K3. }
    eapply (safe_bind _ _ _ _ (fun a => nonild a = true /\ (assoc "**"%string args = None -> a = args))).
    - destruct (assoc "**"%string args) as [alt|] eqn:A; [|now apply safe_ret].
      eapply safe_bind; [apply sf_reduce; eapply nonild_assoc; eauto|]. intros x HX.
      destruct x; apply safe_ret; (split; [|discriminate]); auto.
    - intros args' [H1 H2]. eapply safe_weaken; [apply D; exact H1|]. intros r K. exists args'. auto.
  Qed.

  (** ** Functions *)

  (** What a function may return: its caller turns nil into NULL. *)
  Notation fun_ok := (fun v => v = VNil \/ nonil v = true).

  Lemma parsed_at : forall fields args target target' err i v, parsed_ok fields args target target' err ->
    nth_error target' i = Some v -> nth_error target i = Some v \/ nonil v = true.
  Proof.
    intros fields args target target' err i v (K1 & _ & _) N. destruct (K1 i) as [K|(x & K & HX)]; [left; congruence|].
    right. congruence.
  Qed.

  Lemma parsed_set : forall fields args target target' f v, parsed_ok fields args target target' None ->
    In f fields -> fp_required f = true \/ assoc (fp_name f) args <> None -> fp_idx f < List.length target ->
    nth_error target' (fp_idx f) = Some v -> nonil v = true.
  Proof.
    intros fields args target target' f v (_ & _ & K3) I HP HX N.
    destruct (K3 eq_refl f I HP HX) as (x & NX & X). congruence.
  Qed.

  Lemma sf_if_else : forall sc v, ok_scope sc = true -> v = VNil \/ nonil v = true -> safe val_ok (if_else R sc v).
  Proof.
    intros sc v HS HV. unfold if_else. destruct HV as [->|HV]; [now apply safe_ret|].
    destruct (is_nil v); [now apply safe_ret|]. sobj o HO.
    eapply (safe_bind _ _ _ _ val_ok); [destruct (is_lazy o); [now apply sf_reduce_ws|now apply safe_ret]|].
    intros x HX. sobj o2 HO2. destruct (is_lazy o2); [now apply sf_reduce_ws|now apply safe_ret].
  Qed.

  Lemma sf_if_function : forall sc args, ok_scope sc = true -> nonild args = true -> safe val_ok (if_function E R sc args).
  Proof.
    intros sc args HS HA. unfold if_function.
    eapply safe_bind; [apply sf_parse_args; auto|]. intros [tg err] (args' & _ & K). cbn [fst snd] in K.
    destruct err; [now apply safe_ret|].
    destruct tg as [|cond [|thn [|els [|? ?]]]]; try now apply safe_ret.
    assert (HC : nonil cond = true) by (apply (parsed_set _ _ _ _ (field_ "condition" 0 true TAny) cond K); cbn; auto; lia).
    assert (HT : thn = VNil \/ nonil thn = true)
      by (destruct (parsed_at _ _ _ _ _ 1 thn K eq_refl) as [Q|Q]; [left; now injection Q|now right]).
    assert (HE : els = VNil \/ nonil els = true)
      by (destruct (parsed_at _ _ _ _ _ 2 els K eq_refl) as [Q|Q]; [left; now injection Q|now right]).
    eapply safe_bind; [now apply sf_truth|]. intros b _. destruct b; [|now apply sf_if_else].
    destruct HT as [->|HT]; [now apply safe_ret|]. destruct (is_nil thn); [now apply safe_ret|]. sobj o HO.
    eapply (safe_bind _ _ _ _ val_ok); [destruct (is_lazy o); [now apply sf_reduce_ws|now apply safe_ret]|].
    intros x HX. sobj o2 HO2. destruct (is_lazy o2); [|now apply safe_ret].
    eapply safe_bind; [now apply sf_reduce_ws|]. intros e HEX. sobj o3 HO3.
    destruct (is_query e o3); [now apply safe_ret|now apply sf_if_else].
  Qed.

  Lemma sf_len_function : forall sc args, ok_scope sc = true -> nonild args = true -> safe val_ok (len_function E R sc args).
  Proof.
    intros sc args HS HA. unfold len_function.
    eapply safe_bind; [apply sf_parse_args; auto|]. intros [tg err] (args' & _ & K). cbn [fst snd] in K.
    destruct err; [now apply safe_ret|].
    destruct tg as [|v [|? ?]]; try now apply safe_ret.
    assert (HV : nonil v = true) by (apply (parsed_set _ _ _ _ (field_ "list" 0 true TAny) v K); cbn; auto; lia).
    destruct v; try (now apply safe_ret). discriminate.
  Qed.

  Lemma sf_get_path : forall sc path v, ok_scope sc = true -> nonil v = true -> safe val_ok (get_path R sc v path).
  Proof.
    intros sc path. induction path as [|c path IH]; intros v HS HV; cbn [get_path]; [now apply safe_ret|].
    eapply safe_bind; [apply sf_assoc; auto|].
    - unfold member_key. cbn. repeat match goal with |- context [match ?x with _ => _ end] => destruct x end; reflexivity.
    - intros [x pres] F. destruct pres; [apply IH; auto; now apply found_pres|now apply safe_ret].
  Qed.

  Lemma sf_get_function : forall sc args, ok_scope sc = true -> nonild args = true -> safe val_ok (get_function E R sc args).
  Proof.
    intros sc args HS HA. unfold get_function.
    eapply safe_bind; [apply sf_parse_args; auto|]. intros [tg err] (args' & _ & K). cbn [fst snd] in K.
    destruct err; [now apply safe_ret|].
    destruct tg as [|item [|m [|? ?]]]; try (now apply safe_ret); try (destruct m; now apply safe_ret).
    assert (HI : item = VNil \/ nonil item = true)
      by (destruct (parsed_at _ _ _ _ _ 0 item K eq_refl) as [Q|Q]; [left; now injection Q|now right]).
    destruct m; try now apply safe_ret.
    eapply (safe_bind _ _ _ _ val_ok).
    - destruct HI as [->|HI]; [now apply safe_alloc|]. destruct item; try (apply safe_ret; exact HI). discriminate.
    - intros x HX. now apply sf_get_path.
  Qed.

  Lemma nonils_strs : forall l, nonils (map VStr l) = true.
  Proof. induction l; auto. Qed.

  Lemma sf_split_function : forall sc args, ok_scope sc = true -> nonild args = true -> safe val_ok (split_function E R sc args).
  Proof.
    intros sc args HS HA. unfold split_function.
    eapply safe_bind; [apply sf_parse_args; auto|]. intros [tg err] _.
    destruct err; [now apply safe_ret|].
    destruct tg as [|a [|b [|c [|? ?]]]]; try (now apply safe_ret); destruct a; try (now apply safe_ret);
      destruct b; try (now apply safe_ret); destruct c; try now apply safe_ret.
    destruct (negb _); [|destruct (negb _)]; apply safe_ret; try reflexivity; try apply nonils_strs.
    destruct (go_split _ _ _); [apply nonils_strs|reflexivity].
  Qed.

  Lemma sf_encode_function : forall sc args, ok_scope sc = true -> nonild args = true -> safe val_ok (encode_function E R sc args).
  Proof.
    intros sc args HS HA. unfold encode_function.
    eapply safe_bind; [apply sf_parse_args; auto|]. intros [tg err] _.
    destruct err; [now apply safe_ret|].
    destruct tg as [|a [|b [|? ?]]]; try (now apply safe_ret); destruct b; try now apply safe_ret.
    repeat match goal with |- context [if ?x then _ else _] => destruct x end; now apply safe_ret.
  Qed.

  Lemma nonil_timestamp : forall a b, nonil (timestamp_of a b) = true.
  Proof. intros a b. unfold timestamp_of. repeat match goal with |- context [if ?x then _ else _] => destruct x end; reflexivity. Qed.

  Lemma sf_timestamp_function : forall sc args, ok_scope sc = true -> nonild args = true -> safe val_ok (timestamp_function E R sc args).
  Proof.
    intros sc args HS HA. unfold timestamp_function.
    eapply safe_bind; [apply sf_parse_args; auto|]. intros [tg err] _.
    destruct err; [now apply safe_ret|].
    destruct tg as [|a [|b [|? ?]]]; try (now apply safe_ret); destruct a as [| | |k ?| | | | | | | | |]; try (now apply safe_ret);
      destruct k; try (now apply safe_ret); destruct b as [| | |k ?| | | | | | | | |]; try (now apply safe_ret);
      destruct k; try now apply safe_ret. apply safe_ret. apply nonil_timestamp.
  Qed.

  Lemma sf_format_function : forall sc args, ok_scope sc = true -> nonild args = true -> safe val_ok (format_function E R sc args).
  Proof.
    intros sc args HS HA. unfold format_function.
    eapply safe_bind; [apply sf_parse_args; auto|]. intros [tg err] _.
    destruct err; [now apply safe_ret|].
    destruct tg as [|a [|b [|? ?]]]; try (now apply safe_ret); destruct a; now apply safe_ret.
  Qed.

  Lemma sf_count_function : forall sc id args, ok_scope sc = true -> nonild args = true -> safe fun_ok (count_function E R sc id args).
  Proof.
    intros sc id args HS HA. unfold count_function.
    eapply safe_bind; [apply sf_parse_args; auto|]. intros [tg err] _.
    destruct err; [apply safe_ret; now right|]. apply safe_modify.
    intros [[| | |k ?| | | | | | | | |]|] _; try (right; reflexivity). destruct k; right; reflexivity.
  Qed.

  Lemma sf_sum_function : forall sc id args, ok_scope sc = true -> nonild args = true -> safe fun_ok (sum_function E R sc id args).
  Proof.
    intros sc id args HS HA. unfold sum_function.
    eapply safe_bind; [apply sf_parse_args; auto|]. intros [tg err] _.
    assert (D : safe fun_ok (mret VNull : EM val)) by (apply safe_ret; now right).
    destruct err; [exact D|].
    destruct tg as [|a [|? ?]]; try exact D; destruct a as [| | |k ?| | | | | | | | |]; try exact D; destruct k; try exact D.
    apply safe_modify. intros [[| | |k ?| | | | | | | | |]|] _; try (right; reflexivity). destruct k; right; reflexivity.
  Qed.

  Lemma sf_minmax_function : forall b sc id args, ok_scope sc = true -> nonild args = true ->
    safe fun_ok (minmax_function E R b sc id args).
  Proof.
    intros b sc id args HS HA. unfold minmax_function.
    eapply safe_bind; [apply sf_parse_args; auto|]. intros [tg err] (args' & _ & K). cbn [fst snd] in K.
    assert (D : safe fun_ok (mret VNull : EM val)) by (apply safe_ret; now right).
    destruct err; [exact D|].
    destruct tg as [|l [|? ?]]; try exact D.
    assert (HV : nonil l = true) by (apply (parsed_set _ _ _ _ (field_ "item" 0 true TLazy) l K); cbn; auto; lia).
    eapply safe_bind; [now apply sf_reduce|]. intros v HV'. apply safe_modify.
    intros [p|] HP; [|now right]. specialize (HP _ eq_refl). destruct b, (lt_disp _ _ _); auto.
  Qed.

  (** enumerate with an argument; without one it keeps nils. *)
  Lemma sf_enumerate_function : forall sc id args, ok_scope sc = true -> nonild args = true ->
    assoc "**"%string args = None -> assoc "items"%string args <> None ->
    safe fun_ok (enumerate_function E R sc id args).
  Proof.
    intros sc id args HS HA NA HI. unfold enumerate_function.
    eapply safe_bind; [apply sf_parse_args; auto|]. intros [tg err] (args' & KA & K). cbn [fst snd] in K.
    assert (D : safe fun_ok (mret VNull : EM val)) by (apply safe_ret; now right).
    destruct err; [exact D|].
    destruct tg as [|item [|? ?]]; try exact D. rewrite (KA NA) in K.
    assert (HV : nonil item = true) by (apply (parsed_set _ _ _ _ (field_ "items" 0 false TAny) item K); cbn; auto; lia).
    apply safe_modify. intros [p|] HP; [|right; cbn; now rewrite HV]. specialize (HP _ eq_refl).
    destruct p; try (now left). right. destruct HP as [HP|HP]; [discriminate|].
    rewrite nonil_arr in *. rewrite nonils_app, HP. cbn. now rewrite HV.
  Qed.

  Lemma sf_call_func : forall sc f id args, ok_scope sc = true -> nonild args = true -> calm_func f ->
    (f = FEnumerate -> assoc "**"%string args = None /\ assoc "items"%string args <> None) ->
    safe fun_ok (call_func E R sc f id args).
  Proof.
    intros sc f id args HS HA HF HE.
    assert (W : forall m : EM val, safe val_ok m -> safe fun_ok m) by (intros m HM; eapply safe_weaken; [exact HM|auto]).
    destruct f; cbn [call_func].
    - apply W. apply sf_run_prog; auto.
    - apply W. now apply sf_if_function.
    - apply W. apply sf_row_to_dict; auto.
    - apply W. now apply sf_len_function.
    - apply W. now apply safe_alloc.
    - apply W. now apply sf_get_function.
    - apply W. now apply sf_split_function.
    - apply W. now apply sf_encode_function.
    - apply W. now apply sf_timestamp_function.
    - apply W. now apply sf_format_function.
    - now apply sf_count_function.
    - now apply sf_sum_function.
    - now apply sf_minmax_function.
    - now apply sf_minmax_function.
    - destruct (HE eq_refl). now apply sf_enumerate_function.
  Qed.

  Lemma mem_str_keys : forall A k (d : list (string * A)), mem_str k (keys d) = true <-> In k (keys d).
  Proof.
    intros A k d. unfold mem_str. rewrite existsb_exists. split.
    - intros (x & I & Q). apply String.eqb_eq in Q as ->. exact I.
    - intros I. exists k. split; [exact I|apply String.eqb_refl].
  Qed.

  Lemma sf_call_function : forall sc node f ps, ok_scope sc = true -> forallb (fun p => calm_arg (snd p)) ps = true ->
    calm_func f -> (f = FEnumerate -> sites node = true) ->
    (sites node = true -> mem_str "items" (keys ps) = true /\ mem_str "**" (keys ps) = false) ->
    safe val_ok (call_function E R sc node f ps).
  Proof.
    intros sc node f ps HS HP HF HN HI. unfold call_function.
    eapply safe_bind; [apply sf_build_lazy_args; auto|]. intros args [HA HK].
    eapply safe_bind; [apply safe_node_function; auto|]. intros [[f' id] first] [HF' HE]. cbn [fst snd] in *.
    eapply safe_bind; [apply sf_call_func; auto|].
    - intros Q. destruct (HI (HE Q)) as [H1 H2]. split.
      + apply HK. split; [|reflexivity]. intros I. apply mem_str_keys in I. congruence.
      + intros N. apply HK in N as [N _]. apply N. now apply mem_str_keys.
    - intros v [->|HV]; apply safe_ret; [destruct first; reflexivity|].
      destruct (if first : bool then _ else _); auto.
  Qed.

  (** ** Symbols *)

  Lemma sf_assoc_path : forall sc path v, ok_scope sc = true -> nonil v = true -> safe found (assoc_path R sc v path).
  Proof.
    intros sc path. induction path as [|c path IH]; intros v HS HV; cbn [assoc_path]; [apply safe_ret; now left|].
    eapply safe_bind; [apply sf_assoc; auto|]. intros [x pres] F.
    destruct pres; [apply IH; auto; now apply found_pres|apply safe_ret, found_not].
  Qed.

  Lemma sf_lookup_path : forall sc path, ok_scope sc = true -> safe found (lookup_path R sc path).
  Proof.
    intros sc [|c path] HS; cbn [lookup_path].
    - eapply safe_bind; [now apply safe_alloc|]. intros v HV. apply safe_ret. now left.
    - eapply safe_bind; [now apply sf_resolve|]. intros [x pres] F.
      destruct pres; [apply sf_assoc_path; auto; now apply found_pres|apply safe_ret, found_not].
  Qed.

  Lemma sf_negate_step : forall sc v, ok_scope sc = true -> nonil v = true -> safe val_ok (negate_step R sc v).
  Proof.
    intros sc v HS HV. unfold negate_step. sobj o HO.
    assert (D : safe val_ok (if is_lazy o then x <- r_reduce_ws R sc v ;; r_negate R sc x
        else match to_int64 v with Some z => mret (vint (wrap64 (- z))) | None => mret VNull end)).
    { destruct (is_lazy o).
      - eapply safe_bind; [now apply sf_reduce_ws|]. intros x HX. now apply sf_negate.
      - destruct (to_int64 v); now apply safe_ret. }
    assert (X : forall d, o = Some (OExprDef d) -> safe val_ok (x <- r_expr R sc (e_expr d) ;; r_negate R sc x)).
    { intros d ->. destruct (HO _ eq_refl) as [H1 _]. eapply safe_bind; [now apply sf_expr|]. intros x HX. now apply sf_negate. }
    destruct o as [[]|]; try (apply X; reflexivity); destruct v; try exact D; try now apply safe_ret.
    all: apply X; reflexivity.
  Qed.

  Lemma sf_maybe_negate : forall sc b v, ok_scope sc = true -> nonil v = true -> safe val_ok (maybe_negate R sc b v).
  Proof. intros sc b v HS HV. unfold maybe_negate. destruct b; [now apply sf_negate|now apply safe_ret]. Qed.

  Lemma sf_sym_reduce : forall sc node neg path called ps, ok_scope sc = true ->
    calm (ESym node neg path called ps) = true -> safe val_ok (sym_reduce E R sc node neg path called ps).
  Proof.
    intros sc node neg path called ps HS HC. cbn [NoPanic.calm] in HC. apply andb_true_iff in HC as [HP HE].
    unfold sym_reduce. eapply safe_bind; [apply safe_split_symbol|]. intros negate _.
    destruct (match path with [c] => if called then assoc c (env_funs E) else None | _ => None end) as [f|] eqn:EF.
    { assert (HF : exists c, path = [c] /\ called = true /\ assoc c (env_funs E) = Some f).
      { destruct path as [|c [|? ?]]; try discriminate. destruct called; [|discriminate]. eauto. }
      destruct HF as (c & -> & -> & HF).
      eapply safe_bind; [apply sf_call_function; auto|].
      - exact (hl_funs E HL _ _ HF).
      - intros ->. destruct (sites node); [reflexivity|]. rewrite HF in HE. discriminate.
      - intros HN. rewrite HN in HE. apply andb_true_iff in HE as [H1 H2]. split; [exact H1|]. now apply negb_true_iff.
      - intros v HV. now apply sf_maybe_negate. }
    eapply safe_bind; [now apply sf_lookup_path|]. intros [value pres] F.
    destruct (match value with VNil => true | _ => negb pres end) eqn:NV; [now apply safe_ret|].
    assert (HV : nonil value = true) by (destruct F as [F|[F _]]; [exact F|cbn in F; subst; discriminate]).
    sobj o HO.
    assert (D : safe val_ok
              match ps with
              | _ :: _ =>
                  if is_query value o then
                    subscope <- fresh_agg (copy sc) ;;
                    if overflow subscope then mret VNull
                    else
                      vars <- build_args R sc ps [] ;;
                      vars <- (match o with
                               | Some (OQuery d) => apply_defaults R sc (q_defaults d) vars
                               | _ => mret vars
                               end) ;;
                      v <- alloc (OCallSite value (append_vars (VDict vars) subscope)) ;;
                      maybe_negate R sc negate v
                  else if called then mret VNull
                  else maybe_negate R sc negate value
              | [] =>
                  if called then mret VNull
                  else maybe_negate R sc negate value
              end).
    { assert (D2 : safe val_ok (if called then mret VNull else maybe_negate R sc negate value))
        by (destruct called; [now apply safe_ret|now apply sf_maybe_negate]).
      destruct ps as [|p0 ps]; [exact D2|]. destruct (is_query value o); [|exact D2].
      eapply safe_bind; [apply safe_fresh_agg; now apply ok_copy|]. intros sub HSUB.
      destruct (overflow sub); [now apply safe_ret|].
      eapply safe_bind; [apply sf_build_args; auto|]. intros vars HVS.
      eapply (safe_bind _ _ _ _ (fun d => nonild d = true)).
      - destruct o as [[]|]; try now apply safe_ret. destruct (HO _ eq_refl). now apply sf_apply_defaults.
      - intros vars' HVS'. eapply safe_bind; [apply safe_alloc; split; auto with np|].
        intros v HV'. now apply sf_maybe_negate. }
    destruct o as [[]|]; try exact D. destruct (HO _ eq_refl) as [H1 H2].
    eapply (safe_bind _ _ _ _ (fun sc => ok_scope sc = true)); [destruct called; [now apply safe_fresh_agg|now apply safe_ret]|].
    intros sub HSUB. destruct (overflow sub); [now apply safe_ret|].
    eapply (safe_bind _ _ _ _ (fun d => nonild d = true)); [destruct called; [now apply sf_build_args|now apply safe_ret]|].
    intros args HA. eapply safe_bind; [now apply sf_apply_defaults|]. intros args' HA'.
    eapply safe_bind; [apply sf_expr; auto with np|]. intros v HV'. now apply sf_maybe_negate.
  Qed.

  (** ** Expressions *)

  Lemma sf_range_bound : forall sc e, ok_scope sc = true -> match e with Some e => calm e | None => true end = true ->
    safe (fun _ => True) (range_bound R sc e).
  Proof.
    intros sc [e|] HS HE; cbn [range_bound]; [|now apply safe_ret].
    eapply safe_bind; [now apply sf_expr|]. intros. now apply safe_ret.
  Qed.

  Lemma sf_member_terms : forall sc ts lhs, ok_scope sc = true -> forallb (calm_term E sites) ts = true ->
    nonil lhs = true -> safe val_ok (member_terms R sc lhs ts).
  Proof.
    intros sc ts. induction ts as [|t ts IH]; intros lhs HS HT HV; cbn [member_terms]; [now apply safe_ret|].
    cbn in HT. apply andb_true_iff in HT as [H1 H2].
    eapply (safe_bind _ _ _ _ (fun o => forall k, o = Some k -> ok_key k = true)).
    - destruct t as [e|a b|f]; cbn in H1.
      + eapply safe_bind; [now apply sf_expr|]. intros v HV'. apply safe_ret. intros k K. injection K as <-. exact HV'.
      + apply andb_true_iff in H1 as [HA HB].
        eapply safe_bind; [now apply sf_range_bound|]. intros s _. destruct s; [|apply safe_ret; discriminate].
        eapply safe_bind; [now apply sf_range_bound|]. intros e _. apply safe_ret. intros k K.
        destruct e; [injection K as <-; reflexivity|discriminate].
      + apply safe_ret. intros k K. injection K as <-. reflexivity.
    - intros o HO. destruct o as [k|]; [|now apply safe_ret].
      eapply safe_bind; [apply sf_assoc; auto|]. intros [v pres] F.
      destruct pres; [apply IH; auto; now apply found_pres|now apply safe_ret].
  Qed.

  Lemma sf_and_loop : forall sc rs last, ok_scope sc = true -> forallb (fun r => calm (snd r)) rs = true -> nonil last = true ->
    safe val_ok (and_loop (truth E R sc) last (terms R sc rs)).
  Proof.
    intros sc rs. induction rs as [|[op e] rs IH]; intros last HS HR' HV; cbn [terms map and_loop fst snd]; [now apply safe_ret|].
    cbn in HR'. apply andb_true_iff in HR' as [H1 H2].
    eapply safe_bind; [now apply sf_expr|]. intros v HV'.
    eapply safe_bind; [now apply sf_truth|]. intros b _. destruct b; [|now apply safe_ret].
    cbn [negb]. apply IH; auto. destruct (String.eqb op "&&"); auto.
  Qed.

  Lemma sf_or_loop : forall sc rs last, ok_scope sc = true -> forallb (fun r => calm (snd r)) rs = true -> nonil last = true ->
    safe val_ok (or_loop (truth E R sc) last (terms R sc rs)).
  Proof.
    intros sc rs. induction rs as [|[op e] rs IH]; intros last HS HR' HV; cbn [terms map or_loop fst snd]; [now apply safe_ret|].
    cbn in HR'. apply andb_true_iff in HR' as [H1 H2].
    eapply safe_bind; [now apply sf_expr|]. intros v HV'.
    eapply safe_bind; [now apply sf_truth|]. intros b _. destruct b; [|now apply IH].
    apply safe_ret. destruct (String.eqb op "||"); auto.
  Qed.

  Lemma sf_add_loop : forall sc rs last, ok_scope sc = true -> forallb (fun r => calm (snd r)) rs = true -> nonil last = true ->
    safe val_ok (add_loop (addf E R sc) (subf E R sc) last (terms R sc rs)).
  Proof.
    intros sc rs. induction rs as [|[op e] rs IH]; intros last HS HR' HV; cbn [terms map add_loop fst snd]; [now apply safe_ret|].
    cbn in HR'. apply andb_true_iff in HR' as [H1 H2].
    eapply safe_bind; [now apply sf_expr|]. intros v HV'.
    eapply (safe_bind _ _ _ _ val_ok); [|intros r HRR; now apply IH].
    destruct (String.eqb op "+"); [now apply sf_addf|]. destruct (String.eqb op "-"); [now apply sf_subf|now apply safe_ret].
  Qed.

  Lemma sf_mul_loop : forall sc rs last, ok_scope sc = true -> forallb (fun r => calm (snd r)) rs = true -> nonil last = true ->
    forallb (fun r : string * expr => negb (String.eqb (fst r) "*")) rs = true ->
    safe val_ok (mul_loop (mulf E R sc) (divf E R sc) last (terms R sc rs)).
  Proof.
    intros sc rs. induction rs as [|[op e] rs IH]; intros last HS HR' HV HM; cbn [terms map mul_loop fst snd]; [now apply safe_ret|].
    cbn in HR', HM. apply andb_true_iff in HR' as [H1 H2]. apply andb_true_iff in HM as [H3 H4].
    eapply safe_bind; [now apply sf_expr|]. intros v HV'.
    eapply (safe_bind _ _ _ _ val_ok); [|intros r HRR; now apply IH].
    destruct (String.eqb op "*"); [discriminate|]. destruct (String.eqb op "/"); [now apply sf_divf|now apply safe_ret].
  Qed.

  (** What is a number by its syntax is one. *)
  Hypothesis HNUM : forall sc e, ok_scope sc = true -> calm e = true -> number e = true ->
    safe (fun v => num_val v = true) (r_expr R sc e).
  Hypothesis HRED : forall v, num_val v = true -> safe (fun x => x = v) (r_reduce R v).

  Lemma sf_mul_number : forall sc rs last, ok_scope sc = true -> forallb (fun r => calm (snd r)) rs = true ->
    num_val last = true ->
    safe (fun v => num_val v = true) (mul_loop (mulf E R sc) (divf E R sc) last (terms R sc rs)).
  Proof.
    intros sc rs. induction rs as [|[op e] rs IH]; intros last HS HR' HV; cbn [terms map mul_loop fst snd]; [now apply safe_ret|].
    cbn in HR'. apply andb_true_iff in HR' as [H1 H2].
    eapply safe_bind; [now apply sf_expr|]. intros v HV'.
    apply (safe_bind _ _ _ _ (fun v => num_val v = true)); [|intros r HRR; now apply IH].
    destruct (String.eqb op "*").
    - unfold mulf. eapply safe_bind; [now apply HRED|]. intros x ->.
      eapply safe_bind; [now apply sf_reduce|]. intros z HZ.
      destruct (num_mul E HL last z HV HZ) as (w & -> & HW). now apply safe_ret.
    - destruct (String.eqb op "/"); [|now apply safe_ret]. unfold divf.
      eapply safe_bind; [now apply HRED|]. intros x ->.
      eapply safe_bind; [now apply sf_reduce|]. intros z HZ. apply safe_ret. now apply num_div.
  Qed.

  Lemma sf_number_step : forall sc e, ok_scope sc = true -> calm e = true -> number e = true ->
    safe (fun v => num_val v = true) (expr_step E R sc e).
  Proof.
    intros sc e HS HC HN. destruct e; try discriminate; cbn [expr_step].
    - apply safe_ret. cbn in HN. destruct v; try discriminate; reflexivity.
    - cbn in HC, HN. apply andb_true_iff in HC as [H12 _]. apply andb_true_iff in H12 as [H1 H2].
      unfold mul_reduce. eapply safe_bind; [now apply HNUM|]. intros l HLV. now apply sf_mul_number.
    - unfold not_reduce. eapply safe_bind; [now apply sf_expr|]. intros v HV.
      eapply safe_bind; [now apply sf_truth|]. intros. now apply safe_ret.
    - cbn in HC. apply andb_true_iff in HC as [H1 H2].
      eapply safe_bind; [now apply sf_expr|]. intros a HA. eapply safe_bind; [now apply sf_expr|]. intros b HB.
      unfold cmpf. eapply safe_bind; [now apply sf_reduce|]. intros x HX.
      eapply safe_bind; [now apply sf_reduce|]. intros y HY. now apply safe_ret.
  Qed.

  Lemma sf_comma_loop : forall sc rs acc, ok_scope sc = true ->
    forallb (fun o => match o with Some x => calm x | None => true end) rs = true -> nonils acc = true ->
    safe val_ok (comma_loop acc (map (option_map (r_expr R sc)) rs)).
  Proof.
    intros sc rs. induction rs as [|[e|] rs IH]; intros acc HS HR' HV; cbn [map option_map comma_loop]; try now apply safe_ret.
    cbn in HR'. apply andb_true_iff in HR' as [H1 H2].
    eapply safe_bind; [now apply sf_expr|]. intros v HV'. apply IH; auto.
    rewrite nonils_app, HV. cbn. now rewrite HV'.
  Qed.

  Lemma sf_expr_step : forall sc e, ok_scope sc = true -> calm e = true -> safe val_ok (expr_step E R sc e).
  Proof.
    intros sc e HS HC. destruct e; cbn [expr_step].
    - apply safe_ret. exact HC.
    - now apply sf_sym_reduce.
    - cbn in HC. apply andb_true_iff in HC as [H1 H2]. unfold comma_reduce.
      eapply safe_bind; [now apply sf_expr|]. intros l HLV.
      assert (D : safe val_ok (match map (option_map (r_expr R sc)) rs with [] => mret l | _ => comma_loop [l] (map (option_map (r_expr R sc)) rs) end)).
      { assert (D2 : safe val_ok (comma_loop [l] (map (option_map (r_expr R sc)) rs))).
        { apply sf_comma_loop; auto. cbn. now rewrite HLV. }
        destruct (map (option_map (r_expr R sc)) rs); [now apply safe_ret|exact D2]. }
      destruct l; try exact D. now apply safe_ret.
    - cbn in HC. apply andb_true_iff in HC as [H1 H2]. unfold and_reduce.
      eapply safe_bind; [now apply sf_expr|]. intros l HLV.
      pose proof (sf_and_loop sc rs l HS H2 HLV) as D.
      destruct (terms R sc rs); [now apply safe_ret|].
      eapply safe_bind; [now apply sf_truth|]. intros b _. destruct b; [exact D|now apply safe_ret].
    - cbn in HC. apply andb_true_iff in HC as [H1 H2]. unfold or_reduce.
      eapply safe_bind; [now apply sf_expr|]. intros l HLV.
      pose proof (sf_or_loop sc rs l HS H2 HLV) as D.
      destruct (terms R sc rs); [now apply safe_ret|].
      eapply safe_bind; [now apply sf_truth|]. intros b _. destruct b; [now apply safe_ret|exact D].
    - cbn in HC. apply andb_true_iff in HC as [H1 H2]. unfold add_reduce.
      eapply safe_bind; [now apply sf_expr|]. intros l HLV. now apply sf_add_loop.
    - cbn in HC. apply andb_true_iff in HC as [H12 H3]. apply andb_true_iff in H12 as [H1 H2].
      apply orb_true_iff in H3 as [H3|H3].
      + unfold mul_reduce. eapply safe_bind; [now apply sf_expr|]. intros l HLV. now apply sf_mul_loop.
      + apply (safe_weaken _ _ _ (fun v => num_val v = true)); [|exact num_nonil].
        unfold mul_reduce. eapply safe_bind; [now apply HNUM|]. intros l HLV. now apply sf_mul_number.
    - unfold not_reduce. eapply safe_bind; [now apply sf_expr|]. intros v HV.
      eapply safe_bind; [now apply sf_truth|]. intros. now apply safe_ret.
    - cbn in HC. apply andb_true_iff in HC as [H1 H2].
      eapply safe_bind; [now apply sf_expr|]. intros a HA. eapply safe_bind; [now apply sf_expr|]. intros b HB.
      now apply sf_cmpf.
    - cbn in HC. apply andb_true_iff in HC as [H1 H2].
      eapply safe_bind; [now apply sf_expr|]. intros a HA. now apply sf_member_terms.
  Qed.

  (** ** Lazy expressions *)

  Lemma sf_reduce_ws_step : forall sc v, ok_scope sc = true -> nonil v = true -> safe val_ok (reduce_ws_step R sc v).
  Proof.
    intros sc v HS HV. unfold reduce_ws_step. sobj o HO.
    destruct o as [[]|]; try (apply safe_ret; exact HV); specialize (HO _ eq_refl).
    - destruct HO as (H1 & H2 & H3). eapply safe_bind; [now apply sf_expr|]. intros x HX. sobj ox HOX.
      assert (D : safe val_ok (if is_lazy ox then r_reduce R x else mret x))
        by (destruct (is_lazy ox); [now apply sf_reduce|now apply safe_ret]).
      destruct x; try exact D. now apply safe_ret.
    - now apply sf_materialize.
    - now apply safe_ret.
  Qed.

  Lemma sf_reduce_step : forall v, nonil v = true -> safe val_ok (reduce_step R v).
  Proof.
    intros v HV. unfold reduce_step. sobj o HO.
    destruct v; try (destruct o as [[]|]; try (apply safe_ret; exact HV); specialize (HO _ eq_refl); now apply safe_ret).
    destruct o as [[]|]; try (apply safe_ret; exact HV); specialize (HO _ eq_refl); try (now apply safe_ret).
    destruct HO as (H1 & H2 & H3). destruct cache as [x|]; [apply safe_ret; auto|].
    eapply safe_bind; [now apply sf_reduce_ws|]. intros x HX.
    eapply safe_bind; [apply safe_update|].
    - split; [exact H1|split; [exact H2|]]. intros y Y. destruct x; try (injection Y as <-; exact HX). discriminate.
    - intros _ _. now apply safe_ret.
  Qed.

  (** ** Queries *)

  Lemma sf_wrap_row : forall v, nonil v = true -> safe vals_ok (wrap_row v).
  Proof.
    intros v HV. unfold wrap_row. destruct (is_nil v); [now apply safe_ret|].
    eapply safe_bind; [apply safe_members|]. intros ms _. apply safe_ret. destruct ms; cbn; rewrite HV; reflexivity.
  Qed.

  Lemma sf_wrapper_rows : forall v, nonil v = true -> safe vals_ok (wrapper_rows v).
  Proof.
    intros v HV. unfold wrapper_rows. destruct v; try (now apply sf_wrap_row); try now apply safe_ret.
    - discriminate.
    - eapply safe_bind; [apply (safe_mmap _ _ _ _ val_ok vals_ok); [now apply Forall_nonils|intros; now apply sf_wrap_row]|].
      intros rs HRS. apply safe_ret. now apply nonils_concat.
  Qed.

  Lemma sf_query_step : forall sc q, ok_scope sc = true -> nonil q = true -> safe vals_ok (query_step R sc q).
  Proof.
    intros sc q HS HQ. unfold query_step. sobj o HO.
    assert (D : safe vals_ok match o with
            | Some (OSelect s) => r_select R sc s
            | Some (OQuery d) => r_select R (copy sc) (q_select d)
            | Some (OCallSite target sc') => r_query R sc' target
            | Some (OWrapper v) => wrapper_rows v
            | _ => mret []
            end).
    { destruct o as [[]|]; try (now apply safe_ret); specialize (HO _ eq_refl).
      - destruct HO. apply sf_select; auto.
      - now apply sf_select.
      - destruct HO. now apply sf_query.
      - now apply sf_wrapper_rows. }
    destruct q; try exact D. now apply safe_ret.
  Qed.

  Lemma sf_expand_args : forall sc args vars, ok_scope sc = true -> nonild args = true -> nonild vars = true ->
    safe (fun d => nonild d = true) (expand_args R sc args vars).
  Proof.
    intros sc args. induction args as [|[k v] args IH]; intros vars HS HA HV; cbn [expand_args]; [now apply safe_ret|].
    cbn in HA. apply andb_true_iff in HA as [H1 H2]. sobj o HO.
    eapply (safe_bind _ _ _ _ val_ok); [|intros x HX; apply IH; auto; now apply nonild_set].
    destruct (is_lazy o); [now apply sf_reduce|].
    assert (D : safe val_ok (if is_query v o then rows <- materialize_rows R sc v ;; mret (VArr rows) else mret v)).
    { destruct (is_query v o); [|now apply safe_ret]. eapply safe_bind; [now apply sf_materialize_rows|].
      intros rows HRW. now apply safe_ret. }
    destruct v; try exact D. now apply safe_ret.
  Qed.

  Lemma sf_call_query : forall sc q args, ok_scope sc = true -> nonil q = true -> nonild args = true ->
    safe vals_ok (call_query R sc q args).
  Proof.
    intros sc q args HS HQ HA. unfold call_query.
    eapply safe_bind; [apply safe_fresh_agg; now apply ok_copy|]. intros sub HSUB.
    eapply safe_bind; [apply sf_expand_args; auto|]. intros vars HV. apply sf_query; auto with np.
  Qed.

  (** ** Plugins *)

  Lemma sf_if_plugin : forall sc args, ok_scope sc = true -> nonild args = true -> safe vals_ok (if_plugin E R sc args).
  Proof.
    intros sc args HS HA. unfold if_plugin.
    eapply safe_bind; [apply sf_parse_args; auto|]. intros [tg err] (args' & _ & K). cbn [fst snd] in K.
    destruct err; [now apply safe_ret|].
    destruct tg as [|cond [|thn [|els [|? ?]]]]; try now apply safe_ret.
    assert (HC : nonil cond = true) by (apply (parsed_set _ _ _ _ (field_ "condition" 0 true TAny) cond K); cbn; auto; lia).
    assert (HT : nonil thn = true) by (apply (parsed_set _ _ _ _ (field_ "then" 1 true TStored) thn K); cbn; auto; lia).
    assert (HE : els = VNil \/ nonil els = true)
      by (destruct (parsed_at _ _ _ _ _ 2 els K eq_refl) as [Q|Q]; [left; now injection Q|now right]).
    eapply safe_bind; [now apply sf_truth|]. intros b _. destruct b; [now apply sf_query|].
    destruct HE as [->|HE]; [now apply safe_ret|]. destruct els; try (now apply sf_query). now apply safe_ret.
  Qed.

  Lemma sf_chain_plugin : forall sc args, ok_scope sc = true -> nonild args = true -> safe vals_ok (chain_plugin R sc args).
  Proof.
    intros sc args HS HA. unfold chain_plugin.
    eapply safe_bind; [apply (safe_mmap _ _ _ _ (fun kv => nonil (snd kv) = true) val_ok)|].
    - apply Forall_forall. unfold nonild in HA. rewrite forallb_forall in HA. auto.
    - intros [k v] HV. now apply sf_to_stored_query.
    - intros qs HQ. eapply safe_bind; [apply (safe_mmap _ _ _ _ val_ok vals_ok); [exact HQ|]|].
      + intros q HQ'. now apply sf_query.
      + intros rows HRW. apply safe_ret. now apply nonils_concat.
  Qed.

  Lemma sf_iterate_val : forall sc v, ok_scope sc = true -> nonil v = true -> safe vals_ok (iterate_val E R sc v).
  Proof.
    intros sc v HS HV. unfold iterate_val. eapply safe_bind; [now apply sf_reduce|]. intros x HX. sobj o HO.
    destruct (is_query x o); [now apply sf_query|]. apply safe_ret. apply nonils_iterate; auto.
  Qed.

  Lemma sf_foreach_row : forall sc query column row, ok_scope sc = true -> query = VNil \/ nonil query = true ->
    nonil row = true -> safe vals_ok (foreach_row R sc query column row).
  Proof.
    intros sc query column row HS HQ HRW. unfold foreach_row.
    eapply (safe_bind _ _ _ _ val_ok).
    - destruct (String.eqb column ""); [now apply safe_ret|].
      eapply safe_bind; [apply sf_assoc; auto|]. intros [v pres] F. apply safe_ret.
      destruct pres; [now apply found_pres|reflexivity].
    - intros r HRR. destruct HQ as [->|HQ]; [apply safe_ret; cbn; now rewrite HRR|].
      destruct query; try (apply sf_query; auto with np). discriminate.
  Qed.

  Lemma sf_foreach_plugin : forall sc args, ok_scope sc = true -> nonild args = true -> safe vals_ok (foreach_plugin E R sc args).
  Proof.
    intros sc args HS HA. unfold foreach_plugin.
    eapply safe_bind; [apply sf_parse_args; auto|]. intros [tg err] (args' & _ & K). cbn [fst snd] in K.
    destruct err; [now apply safe_ret|].
    destruct tg as [|row [|query [|x [|y [|c [|? ?]]]]]]; try (now apply safe_ret); destruct c; try (now apply safe_ret).
    assert (HC : nonil row = true) by (apply (parsed_set _ _ _ _ (field_ "row" 0 true TLazy) row K); cbn; auto; lia).
    assert (HE : query = VNil \/ nonil query = true)
      by (destruct (parsed_at _ _ _ _ _ 1 query K eq_refl) as [Q|Q]; [left; now injection Q|now right]).
    eapply safe_bind; [now apply sf_iterate_val|]. intros rows HRW.
    eapply safe_bind; [apply (safe_mmap _ _ _ _ val_ok vals_ok); [now apply Forall_nonils|]|].
    - intros r HRR. now apply sf_foreach_row.
    - intros out HO. apply safe_ret. now apply nonils_concat.
  Qed.

  Lemma sf_make_dict : forall sc item, ok_scope sc = true -> nonil item = true ->
    safe (fun d => nonild d = true) (make_dict R sc item).
  Proof.
    intros sc item HS HI. unfold make_dict.
    assert (D : safe (fun d => nonild d = true) (
        ms <- members item ;;
        kvs <- mmap (fun m => '(v, pres) <- r_assoc R sc item (KVal (VStr m)) ;;
                              mret (if pres : bool then [(m, v)] else [])) ms ;;
        mret (fold_left (fun d kv => dict_set (fst kv) (snd kv) d) (List.concat kvs) []))).
    { eapply safe_bind; [apply safe_members|]. intros ms _.
      eapply safe_bind; [apply (safe_mmap _ _ _ _ (fun _ => True) (fun d => nonild d = true)); [apply Forall_forall; auto|]|].
      - intros m _. eapply safe_bind; [apply sf_assoc; auto|]. intros [v pres] F. apply safe_ret.
        destruct pres; [|reflexivity]. apply found_pres in F. cbn. now rewrite F.
      - intros kvs HK. apply safe_ret. apply nonild_fold; [|reflexivity].
        induction HK as [|x l Hx _ IH]; [reflexivity|]. cbn [List.concat]. unfold nonild in *. now rewrite forallb_app, Hx, IH. }
    destruct item; try exact D. now apply safe_ret.
  Qed.

  Lemma sf_flatten_plugin : forall sc args, ok_scope sc = true -> nonild args = true -> safe vals_ok (flatten_plugin E R sc args).
  Proof.
    intros sc args HS HA. unfold flatten_plugin.
    eapply safe_bind; [apply sf_parse_args; auto|]. intros [tg err] (args' & _ & K). cbn [fst snd] in K.
    destruct err; [now apply safe_ret|].
    destruct tg as [|q [|? ?]]; try (now apply safe_ret).
    assert (HC : nonil q = true) by (apply (parsed_set _ _ _ _ (field_ "query" 0 true TStored) q K); cbn; auto; lia).
    eapply safe_bind; [now apply sf_query|]. intros rows HRW.
    eapply safe_bind; [apply (safe_mmap _ _ _ _ val_ok vals_ok); [now apply Forall_nonils|]|].
    - intros r HRR. eapply safe_bind; [now apply sf_make_dict|]. intros d HD. apply safe_ret.
      apply nonils_intro. intros v I. apply in_map_iff in I as (x & <- & I).
      exact (proj1 (Forall_forall _ _) (nonild_flatten_at E HL _ d HD) x I).
    - intros out HO. apply safe_ret. now apply nonils_concat.
  Qed.

  Lemma sf_range_plugin : forall sc args, ok_scope sc = true -> nonild args = true -> safe vals_ok (range_plugin E R fuel sc args).
  Proof.
    intros sc args HS HA. unfold range_plugin.
    eapply safe_bind; [apply sf_parse_args; auto|]. intros [tg err] _.
    destruct err; [now apply safe_ret|].
    destruct tg as [|a [|b [|c [|? ?]]]]; try (now apply safe_ret); destruct a; try (now apply safe_ret);
      destruct b; try (now apply safe_ret); destruct c; try (now apply safe_ret).
    destruct (range_rows _ _ _ _) as [l|]; [|apply safe_fuel]. apply safe_ret. clear. induction l; auto.
  Qed.

  Lemma sf_call_plugin : forall sc p args, ok_scope sc = true -> nonild args = true -> calm_plug p ->
    safe vals_ok (call_plugin E R fuel sc p args).
  Proof.
    intros sc p args HS HA HP. destruct p; cbn [call_plugin].
    - apply sf_run_prog; auto.
    - now apply sf_if_plugin.
    - now apply sf_chain_plugin.
    - now apply sf_foreach_plugin.
    - now apply sf_flatten_plugin.
    - now apply sf_range_plugin.
    - eapply safe_bind; [now apply safe_alloc|]. intros v HV. apply safe_ret. cbn. now rewrite HV.
  Qed.

  Lemma sf_evalsym_step : forall sc v, ok_scope sc = true -> nonil v = true -> safe vals_ok (evalsym_step R sc v).
  Proof.
    intros sc v HS HV. unfold evalsym_step. destruct (overflow sc); [now apply safe_ret|]. sobj o HO.
    assert (D : safe vals_ok (if is_query v o then r_query R sc v
          else match arr_elems v with Some l => mret l | None => mret [v] end)).
    { destruct (is_query v o); [now apply sf_query|]. destruct (arr_elems v) as [l|] eqn:AE.
      - apply safe_ret. exact (arr_elems_nonil _ _ HV AE).
      - apply safe_ret. cbn. now rewrite HV. }
    destruct o as [[]|]; try exact D. destruct (HO _ eq_refl) as [H1 H2].
    eapply safe_bind; [now apply sf_expr|]. intros x HX. now apply sf_evalsym.
  Qed.

  Lemma sf_plugin_eval : forall sc p, ok_scope sc = true -> calm_from E sites p = true ->
    safe vals_ok (plugin_eval E R fuel sc p).
  Proof.
    intros sc [path call args] HS HP. cbn in HP. unfold plugin_eval.
    destruct (match path with [c] => if call then assoc c (env_plugs E) else None | _ => None end) as [pl|] eqn:EP.
    { assert (HPL : calm_plug pl).
      { destruct path as [|c [|? ?]]; try discriminate. destruct call; [|discriminate]. exact (hl_plugs E HL _ _ EP). }
      destruct (overflow sc); [now apply safe_ret|].
      eapply safe_bind; [apply sf_build_args; auto|]. intros a HA. now apply sf_call_plugin. }
    eapply safe_bind; [now apply sf_lookup_path|]. intros [symbol pres] F.
    destruct pres; cbn [negb]; [|now apply safe_ret]. apply found_pres in F.
    destruct call; cbn [negb]; [|now apply sf_evalsym].
    destruct (overflow sc); [now apply safe_ret|]. sobj o HO.
    destruct o as [[]|]; try (now apply safe_ret); destruct (HO _ eq_refl) as [H1 H2];
      (eapply safe_bind; [apply sf_build_args; auto|]; intros a HA;
       eapply safe_bind; [now apply sf_apply_defaults|]; intros a' HA').
    - now apply sf_call_query.
    - eapply safe_bind; [apply sf_expr; auto with np|]. intros v HV. now apply sf_evalsym.
  Qed.

  (** ** SELECT *)

  (** A lazy row under construction. *)
  Definition lrow_ok (r : lrow) : Prop :=
    (forall c, In c (fst r) -> assoc c (snd r) <> None) /\
    (forall c g, assoc c (snd r) = Some g -> ok_getter E sites g = true).

  Lemma lrow_ok_nil : lrow_ok ([], []).
  Proof. split; [intros c []|discriminate]. Qed.

  Lemma lrow_ok_add : forall name g r, lrow_ok r -> ok_getter E sites g = true -> lrow_ok (add_column name g r).
  Proof.
    intros name g [cs gs] [H1 H2] HG'. unfold add_column. cbn [fst snd] in *. split.
    - intros c I. cbn [fst snd] in *. rewrite assoc_dict_set. destruct (String.eqb c name) eqn:Q; [discriminate|].
      apply in_app_or in I as [I|[<-|[]]]; [auto|]. rewrite String.eqb_refl in Q. discriminate.
    - intros c g' A. cbn [fst snd] in *. rewrite assoc_dict_set in A.
      destruct (String.eqb c name); [injection A as <-; exact HG'|eauto].
  Qed.

  Lemma sf_star_columns : forall sc row ms r, ok_scope sc = true -> nonil row = true -> lrow_ok r ->
    safe lrow_ok (star_columns R sc row ms r).
  Proof.
    intros sc row ms. induction ms as [|m ms IH]; intros r HS HRW HRR; cbn [star_columns]; [now apply safe_ret|].
    eapply safe_bind; [apply sf_assoc; auto|]. intros [v pres] F. apply IH; auto.
    destruct pres; [|exact HRR]. apply lrow_ok_add; auto. now apply found_pres in F.
  Qed.

  Lemma sf_merge_star : forall sc row ms r, ok_scope sc = true -> nonil row = true -> lrow_ok r ->
    safe lrow_ok (merge_star R sc row ms r).
  Proof.
    intros sc row ms. induction ms as [|m ms IH]; intros r HS HRW HRR; cbn [merge_star]; [now apply safe_ret|].
    destruct (mem_str m _); [now apply IH|].
    eapply safe_bind; [apply sf_assoc; auto|]. intros [v pres] F. apply IH; auto.
    destruct pres; [|exact HRR]. apply lrow_ok_add; auto. now apply found_pres in F.
  Qed.

  Definition cols_ok (cols : list (string * colbody)) : bool :=
    forallb (fun c => calm_col (snd c) && match snd c with CStar => String.eqb (fst c) "*" | _ => true end) cols.

  Lemma sf_expr_columns : forall sc ns row cols r, ok_scope sc = true -> ok_scope ns = true -> nonil row = true ->
    cols_ok cols = true -> lrow_ok r -> safe lrow_ok (expr_columns R sc ns row cols r).
  Proof.
    intros sc ns row cols. induction cols as [|[name b] cols IH]; intros r HS HNS HRW HC HRR; cbn [expr_columns]; [now apply safe_ret|].
    cbn in HC. apply andb_true_iff in HC as [HB HC]. apply andb_true_iff in HB as [HB HN].
    destruct (String.eqb name "*") eqn:ST.
    - eapply safe_bind; [apply safe_members|]. intros ms _.
      eapply safe_bind; [now apply sf_merge_star|]. intros r' HRR'. now apply IH.
    - apply IH; auto. apply lrow_ok_add; auto. cbn. destruct b; [congruence| |]; rewrite HNS, andb_true_r; exact HB.
  Qed.

  Lemma sf_transform : forall sc star cols row, ok_scope sc = true -> nonil row = true -> cols_ok cols = true ->
    safe val_ok (transform R sc star cols row).
  Proof.
    intros sc star cols row HS HRW HC. unfold transform.
    eapply (safe_bind _ _ _ _ lrow_ok).
    - destruct star; [|apply safe_ret, lrow_ok_nil].
      eapply safe_bind; [apply safe_members|]. intros ms _. apply sf_star_columns; auto. apply lrow_ok_nil.
    - intros r HRR. eapply safe_bind; [apply sf_expr_columns; auto with np|]. intros r' [H1 H2].
      apply safe_alloc. split; [exact H1|split; [exact H2|reflexivity]].
  Qed.

  Lemma sf_accepts : forall sc v, ok_scope sc = true -> nonil v = true -> safe (fun _ => True) (accepts E R sc v).
  Proof. intros sc v HS HV. unfold accepts. destruct v; try (now apply sf_truth). now apply safe_ret. Qed.

  Lemma sf_process_row : forall sc star cols w row, ok_scope sc = true -> cols_ok cols = true ->
    match w with Some e => calm e | None => true end = true -> nonil row = true ->
    safe vals_ok (process_row E R sc star cols w row).
  Proof.
    intros sc star cols w row HS HC HW HRW. unfold process_row. cbv zeta.
    eapply safe_bind; [apply sf_transform; auto|]. intros t HT.
    assert (D : safe vals_ok (r <- materialize_row R t ;; mret [r])).
    { eapply safe_bind; [now apply sf_materialize_row|]. intros r HRR. apply safe_ret. cbn. now rewrite HRR. }
    destruct w as [w|]; [|exact D].
    eapply safe_bind; [apply sf_expr; auto 6 with np|]. intros v HV.
    eapply safe_bind; [now apply sf_accepts|]. intros b _. destruct b; [exact D|now apply safe_ret].
  Qed.

  Lemma sf_sort_rows : forall sc key desc rows, ok_scope sc = true -> nonils rows = true ->
    safe vals_ok (sort_rows E R sc key desc rows).
  Proof.
    intros sc key desc rows HS HRW. unfold sort_rows.
    eapply safe_bind; [apply (safe_mmap _ _ _ _ val_ok found); [now apply Forall_nonils|intros; now apply sf_assoc]|].
    intros ks _. apply safe_ret. apply nonils_intro. intros v I. apply in_map_iff in I as ([k r] & <- & I).
    apply (hl_sort E HL) in I. apply in_combine_r in I. exact (nonils_In _ _ HRW I).
  Qed.

  Definition bins_ok (bins : list bin) : Prop := forall b, In b bins -> nonil (snd (snd b)) = true.

  Lemma bins_ok_set : forall key ctx row bins, nonil row = true -> bins_ok bins -> bins_ok (bin_set key ctx row bins).
  Proof.
    intros key ctx row bins HRW. induction bins as [|[k b] bins IH]; intros H; cbn [bin_set].
    - intros x [<-|[]]. exact HRW.
    - destruct (String.eqb key k).
      + intros x [<-|I]; [exact HRW|apply H; now right].
      + intros x [<-|I]; [apply H; now left|]. apply IH; [|exact I]. intros y Y. apply H. now right.
  Qed.

  Lemma sf_group_row : forall outer star cols w g row bins, ok_scope outer = true -> cols_ok cols = true ->
    match w with Some e => calm e | None => true end = true -> calm g = true -> nonil row = true -> bins_ok bins ->
    safe bins_ok (group_row E R outer star cols w g row bins).
  Proof.
    intros outer star cols w g row bins HS HC HW HGB HRW HB. unfold group_row. cbv zeta.
    eapply safe_bind; [apply safe_own_cell; now apply ok_copy|]. intros rs HRS.
    eapply safe_bind; [now apply sf_transform|]. intros t HT.
    eapply (safe_bind _ _ _ _ (fun _ => True)).
    { destruct w as [w|]; [|now apply safe_ret]. eapply safe_bind; [apply sf_expr; auto 6 with np|]. intros v HV. now apply sf_accepts. }
    intros ok _. destruct ok; cbn [negb]; [|now apply safe_ret].
    eapply safe_bind; [apply sf_expr; auto 6 with np|]. intros gv HGV.
    eapply safe_bind; [apply sf_tostring; auto 6 with np|]. intros key _.
    eapply (safe_bind _ _ _ _ (fun _ => True)).
    { destruct (assoc key bins) as [[c ?]|]; [now apply safe_ret|apply safe_new_ctx]. }
    intros ctx _. eapply safe_bind; [apply safe_set_agg|]. intros _ _.
    eapply safe_bind; [now apply sf_materialize_row|]. intros r HRR. apply safe_ret. now apply bins_ok_set.
  Qed.

  Lemma sf_group_rows : forall outer star cols w g rows bins, ok_scope outer = true -> cols_ok cols = true ->
    match w with Some e => calm e | None => true end = true -> calm g = true -> nonils rows = true -> bins_ok bins ->
    safe bins_ok (group_rows E R outer star cols w g rows bins).
  Proof.
    intros outer star cols w g rows. induction rows as [|row rows IH]; intros bins HS HC HW HGB HRW HB; cbn [group_rows]; [now apply safe_ret|].
    cbn in HRW. apply andb_true_iff in HRW as [H1 H2].
    eapply safe_bind; [now apply sf_group_row|]. intros bins' HB'. now apply IH.
  Qed.

  Lemma sf_select_step : forall sc q, ok_scope sc = true -> calm_select q = true -> safe vals_ok (select_step E R fuel sc q).
  Proof.
    intros sc [star cols from w g orderby limit] HS HC. unfold select_step.
    pose proof HC as HC'. cbn in HC. apply andb_true_iff in HC as [HC HGB]. apply andb_true_iff in HC as [HC HW].
    apply andb_true_iff in HC as [HC HF].
    destruct limit as [n|].
    { eapply safe_bind; [apply sf_select; auto|]. intros rows HRW. apply safe_ret. now apply nonils_firstn. }
    destruct g as [g|].
    - eapply safe_bind; [now apply sf_plugin_eval|]. intros rows HRW.
      eapply safe_bind; [apply sf_group_rows; auto; intros b []|]. intros bins HB. cbv zeta.
      assert (HO : nonils (map (fun b : bin => snd (snd b)) bins) = true).
      { apply nonils_intro. intros v I. apply in_map_iff in I as (b & <- & I). now apply HB. }
      destruct orderby as [[key desc]|]; [now apply sf_sort_rows|now apply safe_ret].
    - destruct orderby as [[key desc]|].
      + eapply safe_bind; [apply sf_select; auto|]. intros rows HRW. now apply sf_sort_rows.
      + eapply safe_bind; [now apply sf_plugin_eval|]. intros rows HRW.
        eapply safe_bind; [apply (safe_mmap _ _ _ _ val_ok vals_ok); [now apply Forall_nonils|intros; now apply sf_process_row]|].
        intros out HO. apply safe_ret. now apply nonils_concat.
  Qed.

  Lemma safe_step : safe_evals E sites (step E R fuel).
  Proof.
    constructor; cbn [step r_expr r_select r_query r_assoc r_reduce r_reduce_ws r_evalsym r_negate r_normalize r_tostring].
    - exact sf_expr_step.
    - exact sf_select_step.
    - exact sf_query_step.
    - exact sf_assoc_step.
    - exact sf_reduce_step.
    - exact sf_reduce_ws_step.
    - exact sf_evalsym_step.
    - exact sf_negate_step.
    - exact sf_normalize_step.
    - exact sf_tostring_step.
  Qed.
End Step.

Lemma reduce_num : forall E sites n v, num_val v = true -> safe E sites (fun x => x = v) (r_reduce (ev E n) v).
Proof.
  intros E sites [|n] v HV; [apply safe_fuel|]. destruct v; try discriminate; apply safe_ret; reflexivity.
Qed.

Theorem evaluation_safe_num : forall E sites, harmless E -> forall n,
  safe_evals E sites (ev E n) /\
  forall sc e, ok_scope sc = true -> calm E sites e = true -> number e = true ->
    safe E sites (fun v => num_val v = true) (r_expr (ev E n) sc e).
Proof.
  intros E sites HL n. induction n as [|n [IH IHN]].
  - split; [constructor; intros; apply safe_fuel|intros; apply safe_fuel].
  - cbn [ev]. split.
    + apply safe_step; auto; [apply evaluation_evolves|apply reduce_num].
    + intros sc e HS HC HN. cbn [step r_expr]. apply sf_number_step; auto. apply reduce_num.
Qed.

Theorem evaluation_safe : forall E sites, harmless E -> forall n, safe_evals E sites (ev E n).
Proof. intros E sites HL n. now apply evaluation_safe_num. Qed.

(** ** Statements *)

Section Stmts.
  Variable E : env.
  Variable sites : nat -> bool.
  Variable R : evals.
  Hypothesis HL : harmless E.
  Hypothesis HR : safe_evals E sites R.

  Lemma ok_param_defaults : forall ps,
    forallb (fun p => match snd p with Some a => calm_arg E sites a | None => true end) ps = true ->
    ok_defaults E sites (param_defaults ps) = true.
  Proof.
    intros ps. unfold param_defaults.
    assert (G : forall ds, ok_defaults E sites ds = true ->
      forallb (fun p : string * option argval => match snd p with Some a => calm_arg E sites a | None => true end) ps = true ->
      ok_defaults E sites (fold_left (fun ds p =>
        match p with
        | (name, Some a) => dict_set (unquoted name) (name, a) ds
        | (_, None) => ds
        end) ps ds) = true).
    { induction ps as [|[name [a|]] ps IH]; intros ds HD HP; cbn [fold_left]; [exact HD| |].
      - cbn in HP. apply andb_true_iff in HP as [H1 H2]. apply IH; auto.
        clear IH H2. unfold ok_defaults, dict_set in *. rewrite forallb_app. cbn. rewrite H1, andb_true_r.
        induction ds as [|[k x] ds IHd]; [reflexivity|]. cbn in *. apply andb_true_iff in HD as [D1 D2].
        destruct (String.eqb _ k); cbn; rewrite ?D1; auto.
      - apply IH; auto. }
    apply G. reflexivity.
  Qed.

  Definition after_ok (r : scope * list val) : Prop := ok_scope (fst r) = true /\ nonils (snd r) = true.

  Lemma sf_stmt : forall sc q, ok_scope sc = true -> calm_stmt E sites q = true ->
    safe E sites after_ok (stmt_eval R sc q).
  Proof.
    intros sc q HS HC. destruct q as [name params lz body|text s]; cbn [stmt_eval calm_stmt] in *.
    - apply andb_true_iff in HC as [HP HB]. apply ok_param_defaults in HP.
      eapply (safe_bind _ _ _ _ (fun v => nonil v = true)).
      + destruct body as [e|s]; destruct lz.
        * apply safe_alloc. split; auto.
        * eapply safe_bind; [now apply (se_expr _ _ _ HR)|]. intros x HX. sobj o HO.
          destruct (is_query x o); [|now apply safe_ret]. now apply sf_materialize.
        * apply safe_alloc. split; auto.
        * eapply safe_bind; [now apply safe_alloc|]. intros x HX. now apply sf_materialize.
      + intros v HV. apply safe_ret. split; [|reflexivity]. apply ok_append; auto. cbn. now rewrite HV.
    - eapply safe_bind; [apply (se_select _ _ _ HR); auto|]. intros rows HRW. apply safe_ret. split; auto.
  Qed.

  Lemma sf_run : forall qs sc, ok_scope sc = true -> forallb (calm_stmt E sites) qs = true ->
    safe E sites (fun r => ok_scope (fst r) = true /\ forallb nonils (snd r) = true) (run_stmts R sc qs).
  Proof.
    induction qs as [|q qs IH]; intros sc HS HC; cbn [run_stmts]; [apply safe_ret; auto|].
    cbn in HC. apply andb_true_iff in HC as [H1 H2].
    eapply safe_bind; [now apply sf_stmt|]. intros [sc1 rows] [K1 K2]. cbn [fst snd] in *.
    eapply safe_bind; [apply IH; auto|]. intros [sc2 out] [K3 K4]. cbn [fst snd] in *. apply safe_ret. split; [exact K3|].
    cbn [snd]. destruct q; auto. cbn. now rewrite K2.
  Qed.

  Lemma sf_lambda : forall l sc params, ok_scope sc = true -> calm E sites (l_body l) = true -> nonils params = true ->
    safe E sites (fun v => nonil v = true) (lambda_reduce R l sc params).
  Proof.
    intros l sc params HS HC HP. unfold lambda_reduce. destruct (negb _); [now apply safe_ret|]. cbv zeta.
    apply (se_expr _ _ _ HR); auto. apply ok_append; [|now apply ok_copy]. apply ok_dict. apply nonild_fold; [|reflexivity].
    unfold nonild. apply forallb_forall. intros [k v] I. apply in_combine_r in I. exact (nonils_In _ _ HP I).
  Qed.
End Stmts.
