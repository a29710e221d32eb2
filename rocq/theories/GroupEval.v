(** Aggregates and GROUP BY evaluate to what GroupSpec.v says. *)

From Coq Require Import ZArith List String Bool Lia PeanoNat.
From Verif Require Import Base BaseProofs F64 Value Protocols Monad Chains Range Flatten ArgParser Syntax
  Eval Runs Para Evolve PureSpec PureEval PureSelect GroupSpec.
Import ListNotations.
Open Scope nat_scope.
Open Scope list_scope.

(** ** Function objects have distinct identities *)

Record ids_ok (s : st) : Prop := {
  id_below : forall node f id, nassoc node (node_funs s) = Some (f, id) -> id < next_id s;
  id_once : forall n1 f1 n2 f2 id,
    nassoc n1 (node_funs s) = Some (f1, id) -> nassoc n2 (node_funs s) = Some (f2, id) -> n1 = n2
}.

Definition keeps_ids (A : Type) (m m' : EM A) : Prop := forall s, ids_ok s -> ids_ok (fst (m s)).

Lemma ids_ext : forall s s', node_funs s' = node_funs s -> next_id s' = next_id s -> ids_ok s -> ids_ok s'.
Proof. intros s s' H1 H2 [B O]. constructor; rewrite H1, ?H2; assumption. Qed.

Lemma keeps_ids_closed : closed keeps_ids.
Proof.
  constructor.
  - intros A a s H. exact H.
  - intros A s H. exact H.
  - intros A B m m' f f' H H0 s HS. unfold mbind. specialize (H s HS).
    destruct (m s) as [s1 [a| |]]; cbn [fst] in *; auto. apply H0. exact H.
  - intros o s H. cbn. eapply ids_ext; [| |exact H]; reflexivity.
  - intros v s H. exact H.
  - intros R R' n k H s HS. unfold row_get, mbind, obj_of, mret, update_obj. cbn [fst].
    destruct (nth_error (heap s) n) as [[]|]; try exact HS.
    destruct (assoc k cache); [exact HS|]. destruct (assoc k getters) as [g|]; [|exact HS].
    specialize (H g s HS). destruct (run_getter R g s) as [s1 [v| |]]; cbn [fst] in *; try exact H.
    destruct (nth_error (heap s1) n) as [[]|]; cbn [fst]; try exact H.
    eapply ids_ext; [| |exact H]; reflexivity.
  - intros R R' v H s HS. unfold reduce_step, mbind, obj_of, mret, update_obj.
    destruct v; try exact HS. destruct (nth_error (heap s) n) as [[]|]; try exact HS.
    destruct cache; [exact HS|]. specialize (H sc (VOpaque n) s HS).
    destruct (r_reduce_ws R sc (VOpaque n) s) as [s1 [x| |]]; cbn [fst] in *; try exact H.
    eapply ids_ext; [| |exact H]; reflexivity.
  - intros v s H. cbn. eapply ids_ext; [| |exact H]; reflexivity.
  - intros sc s H. cbn. eapply ids_ext; [| |exact H]; reflexivity.
  - intros sc s H. cbn. eapply ids_ext; [| |exact H]; reflexivity.
  - intros sc c s H. cbn. eapply ids_ext; [| |exact H]; reflexivity.
  - intros s H. cbn. eapply ids_ext; [| |exact H]; reflexivity.
  - intros sc id f s H. cbn. eapply ids_ext; [| |exact H]; reflexivity.
  - intros v s H. exact H.
  - intros n f s [B O]. unfold node_function.
    destruct (nassoc n (node_funs s)) as [[f' id]|] eqn:EN; [constructor; assumption|]. cbn [fst].
    constructor; cbn [node_funs next_id]; intros *; rewrite !Evolve.nassoc_nset.
    + destruct (Nat.eqb node n); [intros [= <- <-]; lia|]. intros H. specialize (B _ _ _ H). lia.
    + destruct (Nat.eqb n1 n) eqn:E1, (Nat.eqb n2 n) eqn:E2.
      * apply Nat.eqb_eq in E1, E2. congruence.
      * intros [= <- <-] H. specialize (B _ _ _ H). lia.
      * intros H [= <- <-]. specialize (B _ _ _ H). lia.
      * apply O.
  - intros n b s H. unfold split_symbol. destruct (existsb (Nat.eqb n) (split_nodes s)); [exact H|].
    cbn. eapply ids_ext; [| |exact H]; reflexivity.
Qed.

(** All evaluation keeps them distinct. *)
Theorem evaluation_keeps_ids : forall E n, related keeps_ids (ev E n) (ev E n).
Proof.
  intros E n. induction n as [|n IH].
  - constructor; intros; intros s H; exact H.
  - cbn [ev]. apply related_step; [apply keeps_ids_closed|exact IH|].
    intros a b c s H. destruct (range_rows n a b c); exact H.
Qed.

Lemma evaluates_ids : forall A (m : nat -> EM A) s s' a,
  (forall n, keeps_ids A (m n) (m n)) -> evaluates m s s' a -> ids_ok s -> ids_ok s'.
Proof.
  intros A m s s' a G [N H] HS. specialize (G N s HS). rewrite (H N (le_n N)) in G. exact G.
Qed.

(** ** The memory of an aggregate *)

Section Group.
  Variable E : env.
  Variable funs : string -> option (dict -> option val).
  Variable owner : nat -> string.
  Hypothesis FOK : funs_ok E funs.
  Notation R := (ev E).
  Notation promises := (promises E owner).
  Notation stok := (stok E owner).
  Notation frame_ok := (frame_ok E owner).
  Notation scope_ok := (scope_ok E owner).
  Notation stands := (stands E owner).
  Notation lrow_ok := (lrow_ok E owner).
  Notation aggregate := (aggregate E).

  (** What it keeps after these items. *)
  Definition memory (a : agg) (items : list val) : option val :=
    match a with
    | Sum => match ints items with [] => None | l => Some (vint (wrap64 (zsum l))) end
    | _ => match items with [] => None | _ => Some (aggregate a items) end
    end.

  (** What one more item does to it; [None] when the item is refused. *)
  Definition next (a : agg) (x : val) : option (option val -> val) :=
    match a with
    | Count => Some (fun old =>
          match old with
          | None => VInt KUint64 1
          | Some (VInt KUint64 n) => VInt KUint64 (wrapu64 (n + 1))
          | Some _ => VNull
          end)
    | Sum => option_map (fun z old =>
          match old with
          | None => vint (wrap64 (0 + z))
          | Some (VInt KInt64 n) => vint (wrap64 (n + z))
          | Some _ => VNull
          end) (to_int64 x)
    | Min => Some (fun old =>
          match old with
          | None => x
          | Some p => if lt_disp (p_lt (env_protos E)) x p then x else p
          end)
    | Max => Some (fun old =>
          match old with
          | None => x
          | Some p => if lt_disp (p_lt (env_protos E)) x p then p else x
          end)
    | Enumerate => Some (fun old =>
          match old with
          | None => VArr [x]
          | Some (VArr l) => VArr (l ++ [x])
          | Some _ => VNil
          end)
    end.

  Lemma ints_app : forall a b, ints (a ++ b) = ints a ++ ints b.
  Proof.
    induction a as [|x a IH]; intros b; cbn [ints app]; [reflexivity|].
    destruct (to_int64 x); rewrite IH; reflexivity.
  Qed.

  Lemma zsum_app : forall a b, zsum (a ++ b) = (zsum a + zsum b)%Z.
  Proof.
    induction a as [|x a IH]; intros b; unfold zsum in *; cbn [app fold_right]; [lia|]. rewrite IH. lia.
  Qed.

  Lemma next_memory : forall a x items,
    match next a x with
    | Some f => f (memory a items) = aggregate a (items ++ [x]) /\
                memory a (items ++ [x]) = Some (aggregate a (items ++ [x]))
    | None => aggregate a (items ++ [x]) = VNull /\ memory a (items ++ [x]) = memory a items
    end.
  Proof.
    intros a x items.
    assert (NE : forall A (l r : A), match items ++ [x] with [] => l | _ => r end = r)
      by (intros; destruct items; reflexivity).
    destruct a; cbn [next].
    - split; [|cbn [memory]; now rewrite NE]. cbn [memory].
      destruct items as [|y items]; [reflexivity|]. cbn [GroupSpec.aggregate app List.length].
      rewrite app_length. cbn [List.length]. f_equal. unfold wrapu64.
      rewrite Zplus_mod_idemp_l. f_equal. lia.
    - cbn [GroupSpec.aggregate memory]. rewrite last_last, ints_app, zsum_app. cbn [ints].
      destruct (to_int64 x) as [z|]; cbn [option_map].
      + assert (NI : forall k : list Z -> option val,
          match ints items ++ [z] with [] => None | p :: q => k (p :: q) end = k (ints items ++ [z]))
          by (intros; destruct (ints items); reflexivity).
        split.
        * destruct (ints items) as [|i l] eqn:EI.
          -- f_equal. f_equal. cbn. lia.
          -- cbn [vint]. f_equal. rewrite wrap64_add_l. f_equal. cbn. lia.
        * rewrite (NI (fun l => Some (vint (wrap64 (zsum l))))), zsum_app. reflexivity.
      + rewrite app_nil_r. auto.
    - cbn [memory GroupSpec.aggregate]. rewrite NE.
      destruct items as [|y items]; [auto|]. cbn [app]. unfold least. rewrite fold_left_app. auto.
    - cbn [memory GroupSpec.aggregate]. rewrite NE.
      destruct items as [|y items]; [auto|]. cbn [app]. unfold greatest. rewrite fold_left_app. auto.
    - cbn [memory GroupSpec.aggregate]. rewrite NE. destruct items as [|y items]; auto.
  Qed.

  (** Aggregates of data are data. *)
  Definition datum (v : val) : Prop := plain v = true /\ v <> VNil /\ expand v = v.

  Lemma least_among : forall (f : val -> val -> bool) l v, datum v -> Forall datum l ->
    datum (fold_left (fun m x => if f x m then x else m) l v).
  Proof.
    induction l as [|x l IH]; intros v HV H; cbn [fold_left]; [exact HV|].
    inversion H; subst. apply IH; [|assumption]. destruct (f x v); assumption.
  Qed.
  Lemma greatest_among : forall (f : val -> val -> bool) l v, datum v -> Forall datum l ->
    datum (fold_left (fun m x => if f x m then m else x) l v).
  Proof.
    induction l as [|x l IH]; intros v HV H; cbn [fold_left]; [exact HV|].
    inversion H; subst. apply IH; [|assumption]. destruct (f x v); assumption.
  Qed.

  Lemma datum_null : datum VNull.
  Proof. split; [reflexivity|]. split; [discriminate|reflexivity]. Qed.
  Lemma datum_int : forall k z, datum (VInt k z).
  Proof. intros. split; [reflexivity|]. split; [discriminate|reflexivity]. Qed.

  Lemma aggregate_datum : forall a items, Forall datum items -> datum (aggregate a items).
  Proof.
    intros a items H. destruct a; cbn [GroupSpec.aggregate].
    - apply datum_int.
    - destruct (to_int64 _); [apply datum_int|apply datum_null].
    - destruct items; [apply datum_null|]. inversion H; subst. now apply least_among.
    - destruct items; [apply datum_null|]. inversion H; subst. now apply greatest_among.
    - split; [|split; [discriminate|reflexivity]]. cbn. apply forallb_forall. intros x HI.
      rewrite Forall_forall in H. apply (H x HI).
  Qed.

  Lemma item_datum : forall fr e row x, item E funs fr e row = Some x -> datum x.
  Proof.
    intros fr e row x H. unfold item in H. apply obind_some in H as (v & Hv & H).
    apply den_plain in Hv. destruct v; try discriminate H; injection H as <-;
      (split; [try exact Hv; reflexivity|split; [discriminate|reflexivity]]).
  Qed.

  (** ** Contexts *)

  (** The context remembers this for every call node. *)
  Definition ctx_holds (s : st) (c : nat) (mem : nat -> option val) : Prop :=
    exists data, nth_error (ctxs s) c = Some data /\
      (forall node, match nassoc node (node_funs s) with
                    | None => mem node = None
                    | Some (_, id) => nassoc id data = mem node
                    end) /\
      (forall id v, nassoc id data = Some v -> exists node f, nassoc node (node_funs s) = Some (f, id)).

  Lemma ctx_kept : forall s s' c mem,
    ctx_holds s c mem -> nth_error (ctxs s') c = nth_error (ctxs s) c ->
    (forall node x, nassoc node (node_funs s) = Some x -> nassoc node (node_funs s') = Some x) ->
    ids_ok s' -> ctx_holds s' c mem.
  Proof.
    intros s s' c mem (data & HD & HM & HI) HC HF ID. exists data. split; [congruence|]. split.
    - intros node. specialize (HM node).
      destruct (nassoc node (node_funs s)) as [[f id]|] eqn:EN.
      + now rewrite (HF _ _ EN).
      + destruct (nassoc node (node_funs s')) as [[f id]|] eqn:EN'; [|exact HM].
        destruct (nassoc id data) as [v|] eqn:ED; [|congruence].
        destruct (HI _ _ ED) as (node' & f' & EN2). pose proof (HF _ _ EN2) as EN3.
        rewrite (id_once _ ID _ _ _ _ _ EN' EN3) in EN. congruence.
    - intros id v H. destruct (HI _ _ H) as (node & f & EN). eauto.
  Qed.

  Lemma ctx_ext : forall s c mem mem', (forall n, mem n = mem' n) -> ctx_holds s c mem -> ctx_holds s c mem'.
  Proof.
    intros s c mem mem' H (data & HD & HM & HI). exists data. split; [exact HD|]. split; [|exact HI].
    intros node. rewrite <- H. apply HM.
  Qed.

  (** Only the context [c] was touched. *)
  Record busy (c : nat) (s s' : st) : Prop := {
    bz_trace : trace s' = trace s;
    bz_cells : cells s' = cells s;
    bz_ctxs : forall c', c' <> c -> nth_error (ctxs s') c' = nth_error (ctxs s) c';
    bz_heap : forall n o, nth_error (heap s) n = Some o ->
              exists o', nth_error (heap s') n = Some o' /\ obj_ext o o';
    bz_funs : forall node x, nassoc node (node_funs s) = Some x -> nassoc node (node_funs s') = Some x
  }.

  Lemma quiet_busy : forall c s s', quiet s s' -> busy c s s'.
  Proof. intros c s s' [T C X H F]. constructor; auto. intros. now rewrite X. Qed.

  Lemma busy_trans : forall c s1 s2 s3, busy c s1 s2 -> busy c s2 s3 -> busy c s1 s3.
  Proof.
    intros c s1 s2 s3 [T1 C1 X1 H1 F1] [T2 C2 X2 H2 F2]. constructor; try congruence.
    - intros c' NE. rewrite X2, X1; auto.
    - intros n o H. destruct (H1 _ _ H) as (o1 & E1 & P1). destruct (H2 _ _ E1) as (o2 & E2 & P2).
      exists o2. eauto using obj_ext_trans.
    - auto.
  Qed.

  Lemma stok_ext : forall W s s', heap s' = heap s -> node_funs s' = node_funs s -> stok W s -> stok W s'.
  Proof. intros W s s' H1 H2 [A B]. constructor; rewrite ?H1, ?H2; assumption. Qed.

  (** ** Calling an aggregate *)

  Definition agg_args (a : agg) (x : val) (vals : dict) : Prop :=
    (vals = [] /\ a = Count) \/ vals = [(agg_param a, x)].

  Lemma parse_any : forall W sc p arg x, p <> "**"%string -> stands W arg x -> x <> VNil -> forall req,
    promises W (fun n => parse_args E (R n) sc [field_ p 0 req TAny] [(p, arg)] [VNil]) ([x], None).
  Proof.
    intros W sc p arg x NP ST NX req. unfold parse_args, extract_args.
    eapply (pr_bind E owner _ _ W _ _ [(p, arg)]).
    { unfold normalize_args. cbn [assoc].
      destruct (String.eqb "**" p) eqn:EP; [apply String.eqb_eq in EP; congruence|]. apply pr_ret. }
    unfold parse. eapply (pr_bind E owner _ _ W _ _ ([p], [x], None)).
    - cbn [parse_fields field_ fp_name fp_idx fp_type assoc]. rewrite String.eqb_refl.
      eapply (pr_bind E owner _ _ W _ _ (Some x)).
      + cbn [coerce]. eapply (pr_bind E owner _ _ W _ _ x); [now apply stands_ws|apply pr_ret].
      + cbv beta iota. replace (set_ok TAny x) with true by (destruct x; congruence || reflexivity).
        cbn. apply pr_ret.
    - cbv beta iota. cbn [List.length Nat.eqb]. apply pr_ret.
  Qed.

  Lemma lazy_item : forall W sc arg x, stands W arg x -> datum x ->
    forall W1 s, wle W W1 -> stok W1 s ->
    exists W2 s2, wle W1 W2 /\ stok W2 s2 /\ quiet s s2 /\ exists s1 lz,
      evaluates (fun n => parse_args E (R n) sc [field_ "item" 0 true TLazy]
                            [("item"%string, arg)] [VNil]) s s1 ([lz], None) /\
      evaluates (fun n => r_reduce (R n) lz) s1 s2 x.
  Proof.
    intros W sc arg x ST (PX & NX & EX) W1 s HW HS.
    assert (G : exists W2 s1 s2 lz, wle W1 W2 /\ stok W2 s2 /\ quiet s s2 /\
      lz <> VNil /\ to_lazy_expr arg s = (s1, RVal lz) /\ evaluates (fun n => r_reduce (R n) lz) s1 s2 x).
    { destruct ST as [[-> _]|(n & e & sc0 & -> & Hn & HL)].
      - set (n0 := List.length (heap s)).
        set (s2 := set_heap (heap s ++ [OLazyVal x]) s).
        exists W1, s2, s2, (VOpaque n0). split; [apply wle_refl|]. split; [|split; [|split; [discriminate|split]]].
        + constructor; [|apply HS]. intros n y Hn. destruct (so_heap _ _ _ _ HS _ _ Hn) as (o & Ho & OK).
          exists o. split; [now apply nth_error_app_some|exact OK].
        + constructor; simpl; auto. intros n o Hn. exists o.
          split; [now apply nth_error_app_some|apply obj_ext_refl].
        + unfold to_lazy_expr, mbind, obj_of. destruct x; try discriminate; reflexivity.
        + apply ev_reduce. exists 0. intros n _. unfold reduce_step, mbind, obj_of, s2, n0.
          cbn [heap set_heap]. rewrite nth_error_snoc. reflexivity.
      - destruct (so_heap _ _ _ _ HS n _ (HW _ _ Hn)) as (o & Ho & OK).
        destruct o; simpl in OK; try contradiction. destruct OK as (-> & -> & _).
        assert (ST : stands W (VOpaque n) x) by (right; eauto 6).
        destruct (stands_reduce E owner W _ _ ST W1 s HW HS) as (W2 & s2 & HW2 & HS2 & Q2 & EV).
        exists W2, s, s2, (VOpaque n). repeat (split; [assumption|]). split; [discriminate|]. split; [|exact EV].
        unfold to_lazy_expr, mbind, obj_of. rewrite Ho. reflexivity. }
    destruct G as (W2 & s1 & s2 & lz & HW2 & HS2 & Q2 & NL & EL & EV).
    exists W2, s2. repeat (split; [assumption|]). exists s1, lz. split; [|exact EV].
    exists 0. intros n _. unfold parse_args, extract_args, normalize_args, parse.
    unfold mbind, mret. cbn -[to_lazy_expr]. unfold mbind, mret. cbn -[to_lazy_expr].
    rewrite EL. cbn. destruct lz; try congruence; reflexivity.
  Qed.

  Lemma agg_call_ok : forall a W sc args x vals id,
    args_stand E owner W args vals -> agg_args a x vals -> datum x ->
    forall W1 s, wle W W1 -> stok W1 s ->
    exists W2 s2, wle W1 W2 /\ stok W2 s2 /\ quiet s s2 /\
      match next a x with
      | Some f => forall s' v, modify sc id f s2 = (s', RVal v) ->
                    evaluates (fun n => call_func E (R n) sc (agg_func a) id args) s s' v
      | None => evaluates (fun n => call_func E (R n) sc (agg_func a) id args) s s2 VNull
      end.
  Proof.
    intros a W sc args x vals id AS AA (PX & NX & EX) W1 s HW HS.
    assert (COUNT : a = Count -> args = [] \/ exists arg, args = [("items"%string, arg)] /\ stands W arg x).
    { intros ->. destruct AA as [[-> _]| ->].
      - left. inversion AS. reflexivity.
      - right. inversion AS as [|[p arg] ? ? ? [H1 H2] H3]; subst. inversion H3; subst.
        simpl in H1, H2. subst p. eauto. }
    assert (ONE : a <> Count -> exists arg, args = [(agg_param a, arg)] /\ stands W arg x).
    { intros NC. destruct AA as [[_ ?]| ->]; [contradiction|].
      inversion AS as [|[p arg] ? ? ? [H1 H2] H3]; subst. inversion H3; subst.
      simpl in H1, H2. subst p. eauto. }
    destruct a; cbn [next agg_func call_func].
    - (* count *)
      assert (P : exists t, promises W (fun n => parse_args E (R n) sc [field_ "items" 0 false TAny] args [VNil]) (t, None)).
      { destruct (COUNT eq_refl) as [->|(arg & -> & ST)].
        - exists [VNil]. unfold parse_args, extract_args.
          eapply pr_ext; [|apply pr_ret]. reflexivity.
        - exists [x]. apply parse_any; auto. discriminate. }
      destruct P as (t & P). destruct (P W1 s HW HS) as (W2 & s2 & HW2 & HS2 & Q2 & EV).
      exists W2, s2. repeat (split; [assumption|]). intros s' v HM.
      unfold count_function. eapply ev_bind; [exact EV|]. cbv beta iota. exists 0. intros n _. exact HM.
    - (* sum *)
      destruct ONE as (arg & -> & ST); [discriminate|]. cbn [agg_param].
      assert (P : promises W (fun n => parse_args E (R n) sc [field_ "item" 0 true TInt64] [("item"%string, arg)] [vint 0])
                    (match to_int64 x with
                     | Some z => ([vint z], None)
                     | None => ([vint 0], Some (ECoerce "item"))
                     end)).
      { unfold parse_args, extract_args.
        eapply (pr_bind E owner _ _ W _ _ [("item"%string, arg)]); [apply pr_ret|].
        unfold parse.
        eapply (pr_bind E owner _ _ W _ _
                  (match to_int64 x with
                   | Some z => (["item"%string], [vint z], None)
                   | None => ([], [vint 0], Some (ECoerce "item"))
                   end)).
        - cbn [parse_fields field_ fp_name fp_idx fp_type assoc String.eqb Ascii.eqb Bool.eqb].
          eapply (pr_bind E owner _ _ W _ _ (match to_int64 x with Some z => Some (vint z) | None => None end)).
          + cbn [coerce]. eapply (pr_bind E owner _ _ W _ _ x); [now apply stands_reduce|apply pr_ret].
          + destruct (to_int64 x) as [z|]; cbn; apply pr_ret.
        - destruct (to_int64 x) as [z|]; cbn; apply pr_ret. }
      destruct (P W1 s HW HS) as (W2 & s2 & HW2 & HS2 & Q2 & EV).
      exists W2, s2. repeat (split; [assumption|]). unfold sum_function.
      destruct (to_int64 x) as [z|]; cbn [option_map].
      + intros s' v HM. eapply ev_bind; [exact EV|]. cbv beta iota. exists 0. intros n _. exact HM.
      + eapply ev_bind; [exact EV|]. apply ev_ret.
    - (* min *)
      destruct ONE as (arg & -> & ST); [discriminate|]. cbn [agg_param].
      destruct (lazy_item W sc arg x ST (conj PX (conj NX EX)) W1 s HW HS)
        as (W2 & s2 & HW2 & HS2 & Q2 & s1 & lz & EV1 & EV2).
      exists W2, s2. repeat (split; [assumption|]). intros s' v HM.
      unfold minmax_function. eapply ev_bind; [exact EV1|]. cbv beta iota.
      eapply ev_bind; [exact EV2|]. exists 0. intros n _. exact HM.
    - (* max *)
      destruct ONE as (arg & -> & ST); [discriminate|]. cbn [agg_param].
      destruct (lazy_item W sc arg x ST (conj PX (conj NX EX)) W1 s HW HS)
        as (W2 & s2 & HW2 & HS2 & Q2 & s1 & lz & EV1 & EV2).
      exists W2, s2. repeat (split; [assumption|]). intros s' v HM.
      unfold minmax_function. eapply ev_bind; [exact EV1|]. cbv beta iota.
      eapply ev_bind; [exact EV2|]. exists 0. intros n _. exact HM.
    - (* enumerate *)
      destruct ONE as (arg & -> & ST); [discriminate|]. cbn [agg_param].
      pose proof (parse_any W sc "items" arg x ltac:(discriminate) ST NX false) as P.
      destruct (P W1 s HW HS) as (W2 & s2 & HW2 & HS2 & Q2 & EV).
      exists W2, s2. repeat (split; [assumption|]). intros s' v HM.
      unfold enumerate_function. eapply ev_bind; [exact EV|]. cbv beta iota. exists 0. intros n _. exact HM.
  Qed.
  (** ** An aggregate *)

  (** It has its usual name. *)
  Definition registered (l : list (nat * agg * expr)) : Prop :=
    forall node a e, In (node, a, e) l -> assoc (agg_name a) (env_funs E) = Some (agg_func a).
  Definition aggs_registered (cols : list (string * colbody)) : Prop :=
    forall name b, In (name, b) cols -> registered (col_aggs b).

  Lemma agg_named_name : forall f a, agg_named f = Some a -> f = agg_name a.
  Proof.
    intros f a H. unfold agg_named in H. apply find_some in H as [_ H]. now apply String.eqb_eq in H.
  Qed.

  Lemma agg_call_inv : forall e0 node a e, agg_call e0 = Some (node, a, e) ->
    exists params, e0 = ESym node false [agg_name a] true params /\
      ((params = [] /\ a = Count /\ e = ELit VNull) \/ params = [(agg_param a, AExpr e)]).
  Proof.
    intros e0 node a e H. unfold agg_call in H.
    destruct e0 as [v|nd neg path called params|l rs|l rs|l rs|l rs|l rs|e0|l op r|l ts]; try discriminate.
    destruct neg; [discriminate|].
    destruct path as [|f [|]]; try discriminate.
    - destruct called; [|discriminate].
      destruct params as [|[p [e1|q|e1|]] [|]]; try discriminate.
      + destruct (agg_named f) as [[]|] eqn:EN; try discriminate. injection H as <- <- <-.
        rewrite (agg_named_name _ _ EN). eauto 7.
      + destruct (agg_named f) as [a'|] eqn:EN; [|discriminate].
        destruct (String.eqb p (agg_param a')) eqn:EP; [|discriminate]. injection H as <- <- <-.
        apply String.eqb_eq in EP as ->. rewrite (agg_named_name _ _ EN). eauto.
  Qed.

  Lemma find_ctx_cells : forall sc s s', cells s' = cells s -> agg_ctx sc s' = agg_ctx sc s.
  Proof. intros sc s s' H. unfold agg_ctx. now rewrite H. Qed.

  Lemma agg_expr_ok : forall W nsc fr row e0 node a e x,
    scope_ok W nsc (row :: fr) -> agg_call e0 = Some (node, a, e) ->
    labelled owner e0 ->
    assoc (agg_name a) (env_funs E) = Some (agg_func a) ->
    item E funs fr e row = Some x ->
    forall W1 s mem items, wle W W1 -> stok W1 s -> ids_ok s ->
    ctx_holds s (agg_ctx nsc s) mem -> mem node = memory a items -> Forall datum items ->
    exists W2 s2, wle W1 W2 /\ stok W2 s2 /\ ids_ok s2 /\ busy (agg_ctx nsc s) s s2 /\
      ctx_holds s2 (agg_ctx nsc s) (fun n => if Nat.eqb n node then memory a (items ++ [x]) else mem n) /\
      evaluates (fun n => r_expr (R n) nsc e0) s s2 (aggregate a (items ++ [x])).
  Proof.
    intros W nsc fr row e0 node a e x SC HA LB REG HX W1 s mem items HW HS ID HC HM FD.
    destruct (agg_call_inv _ _ _ _ HA) as (params & -> & HP). cbn [labelled] in LB.
    destruct LB as [OW LB].
    assert (DX : datum x) by (eapply item_datum; eauto).
    unfold item in HX. apply obind_some in HX as (y & Hy & HX).
    assert (EY : x = expand y) by (destruct y; try discriminate; injection HX as <-; reflexivity).
    (* splitting the symbol *)
    destruct (pr_split E owner W node W1 s HW HS) as (Wa & sa & HWa & HSa & Qa & EVa).
    assert (IDa : ids_ok sa).
    { eapply (evaluates_ids _ (fun _ => split_symbol node false)); [|exact EVa|exact ID].
      intros n. apply (cl_split_symbol _ keeps_ids_closed). }
    (* the arguments *)
    assert (ARGS : exists Wb sb args vals, wle Wa Wb /\ stok Wb sb /\ quiet sa sb /\
      args_stand E owner Wb args vals /\ agg_args a x vals /\
      evaluates (fun n => build_lazy_args (R n) nsc params []) sa sb args).
    { destruct HP as [(-> & -> & ->)| ->].
      - exists Wa, sa, [], []. split; [apply wle_refl|]. split; [exact HSa|]. split; [apply quiet_refl|].
        split; [constructor|]. split; [left; auto|]. apply ev_ret.
      - assert (PE : promises W (fun n => r_expr (R n) nsc e) y).
        { eapply pure_eval; eauto. destruct LB as [LB _]. exact LB. }
        destruct (pr_alloc_lazy E owner Wa sa e nsc y) as (Wb & sb & arg & HWb & HSb & Qb & ST & AL).
        + eapply pr_weaken; [|exact PE]. eapply wle_trans; eauto.
        + eapply den_plain; eauto.
        + exact HSa.
        + exists Wb, sb, [(agg_param a, arg)], [(agg_param a, x)].
          split; [exact HWb|]. split; [exact HSb|]. split; [exact Qb|].
          split; [constructor; [split; [reflexivity|rewrite EY; exact ST]|constructor]|].
          split; [right; reflexivity|]. exists 0. intros n _. cbn [build_lazy_args].
          unfold mbind. rewrite AL. reflexivity. }
    destruct ARGS as (Wb & sb & args & vals & HWb & HSb & Qb & AS & AA & EVb).
    assert (IDb : ids_ok sb).
    { eapply (evaluates_ids _ (fun n => build_lazy_args (R n) nsc params [])); [|exact EVb|exact IDa].
      intros n. apply (pa_build_lazy_args _ keeps_ids_closed _ _ (evaluation_keeps_ids E n)). }
    (* the function object *)
    assert (NF : exists sc' id first, node_function node (agg_func a) sb = (sc', RVal (agg_func a, id, first)) /\
      stok Wb sc' /\ quiet sb sc' /\ ids_ok sc' /\ nassoc node (node_funs sc') = Some (agg_func a, id)).
    { pose proof (cl_node_function _ keeps_ids_closed node (agg_func a) sb IDb) as IDc.
      unfold node_function in *. destruct (nassoc node (node_funs sb)) as [[f' id]|] eqn:EN.
      - pose proof (so_funs _ _ _ _ HSb _ _ _ EN) as EF. rewrite OW, REG in EF. injection EF as <-.
        exists sb, id, false. split; [reflexivity|]. split; [exact HSb|]. split; [apply quiet_refl|]. auto.
      - cbn [fst] in IDc. eexists _, _, _. split; [reflexivity|]. split; [|split; [|split; [exact IDc|]]].
        + constructor; cbn [heap node_funs]; [apply HSb|]. intros nd f id. rewrite Evolve.nassoc_nset.
          destruct (Nat.eqb nd node) eqn:END; [|apply HSb].
          apply Nat.eqb_eq in END as ->. intros [= <- <-]. congruence.
        + constructor; cbn; auto.
          * intros n o H. exists o. auto using obj_ext_refl.
          * intros nd z H. rewrite Evolve.nassoc_nset. destruct (Nat.eqb nd node) eqn:END; [|exact H].
            apply Nat.eqb_eq in END as ->. congruence.
        + cbn. now rewrite Evolve.nassoc_nset, Nat.eqb_refl. }
    destruct NF as (sc' & id & first & EVc & HSc & Qc & IDc & Nc).
    (* the call *)
    destruct (agg_call_ok a Wb nsc args x vals id AS AA DX Wb sc' (wle_refl _) HSc)
      as (Wd & sd & HWd & HSd & Qd & CALL).
    assert (Q : quiet s sd) by (eapply quiet_trans; [exact Qa|]; eapply quiet_trans; [exact Qb|];
      eapply quiet_trans; eauto).
    assert (HW1d : wle W1 Wd) by (eapply wle_trans; [exact HWa|]; eapply wle_trans; eauto).
    set (c := agg_ctx nsc s) in *.
    assert (CD : agg_ctx nsc sd = c) by (apply find_ctx_cells; apply (q_cells _ _ Q)).
    clearbody c.
    pose proof (next_memory a x items) as NX.
    assert (FIN : forall s2, evaluates (fun n => call_func E (R n) nsc (agg_func a) id args) sc' s2
                     (aggregate a (items ++ [x])) ->
              ids_ok s2 /\ evaluates (fun n => r_expr (R n) nsc
                (ESym node false [agg_name a] true params)) s s2 (aggregate a (items ++ [x]))).
    { intros s2 EV.
      assert (DA : datum (aggregate a (items ++ [x]))).
      { apply aggregate_datum. apply Forall_app. split; [exact FD|]. constructor; [exact DX|constructor]. }
      split.
      - eapply (evaluates_ids _ (fun n => call_func E (R n) nsc (agg_func a) id args)); [|exact EV|exact IDc].
        intros n. apply (pa_call_func _ keeps_ids_closed _ _ _ (evaluation_keeps_ids E n)).
      - apply ev_expr. cbn [expr_step]. unfold sym_reduce. eapply ev_bind; [exact EVa|].
        cbv beta. rewrite REG.
        replace (aggregate a (items ++ [x])) with
          (if if first : bool then is_nil (aggregate a (items ++ [x]))
              else match aggregate a (items ++ [x]) with VNil => true | _ => false end
           then VNull else aggregate a (items ++ [x])).
        + eapply ev_bind; [|unfold maybe_negate; apply ev_ret].
          unfold call_function. eapply ev_bind; [exact EVb|].
          eapply ev_bind; [exists 0; intros n _; exact EVc|]. cbv beta iota.
          eapply ev_bind; [exact EV|]. apply ev_ret.
        + destruct DA as (P1 & P2 & P3).
          destruct first, (aggregate a (items ++ [x])); try discriminate; try reflexivity; congruence. }
    assert (IDd : ids_ok sd).
    { destruct (next a x) as [f|] eqn:ENX.
      - specialize (CALL (fst (modify nsc id f sd)) (f (match nth_error (ctxs sd) (agg_ctx nsc sd) with
            Some d => nassoc id d | None => nassoc id [] end))).
        assert (IDm : ids_ok (fst (modify nsc id f sd))).
        { eapply (evaluates_ids _ (fun n => call_func E (R n) nsc (agg_func a) id args)); [|apply CALL|exact IDc].
          - intros n. apply (pa_call_func _ keeps_ids_closed _ _ _ (evaluation_keeps_ids E n)).
          - unfold modify. cbn [fst]. destruct (nth_error (ctxs sd) (agg_ctx nsc sd)); reflexivity. }
        eapply ids_ext; [| |exact IDm]; reflexivity.
      - eapply (evaluates_ids _ (fun n => call_func E (R n) nsc (agg_func a) id args)); [|exact CALL|exact IDc].
        intros n. apply (pa_call_func _ keeps_ids_closed _ _ _ (evaluation_keeps_ids E n)). }
    assert (HCd : ctx_holds sd c mem).
    { eapply ctx_kept; [exact HC|now rewrite (q_ctxs _ _ Q)|apply (q_funs _ _ Q)|exact IDd]. }
    assert (Nd : nassoc node (node_funs sd) = Some (agg_func a, id)) by now apply (q_funs _ _ Qd).
    destruct (next a x) as [f|] eqn:ENX.
    - destruct NX as [NX1 NX2]. destruct HCd as (data & HD & HMem & HIds).
      set (v := aggregate a (items ++ [x])) in *.
      set (s2 := set_ctxs (set_nth c (nset id v data) (ctxs sd)) sd).
      assert (MOD : modify nsc id f sd = (s2, RVal v)).
      { unfold modify. rewrite CD, HD. pose proof (HMem node) as HN. rewrite Nd in HN.
        rewrite HN, HM, NX1. reflexivity. }
      destruct (FIN s2 (CALL _ _ MOD)) as [ID2 EV2].
      exists Wd, s2. split; [exact HW1d|]. split; [eapply stok_ext; [| |exact HSd]; reflexivity|].
      split; [exact ID2|]. split; [|split; [|exact EV2]].
      + eapply busy_trans; [apply quiet_busy; exact Q|]. constructor; cbn; auto.
        * intros c' NE. rewrite nth_set_nth. destruct (Nat.eqb c c') eqn:EC; [|reflexivity].
          apply Nat.eqb_eq in EC. congruence.
        * intros n o H. exists o. auto using obj_ext_refl.
      + exists (nset id v data). cbn [s2 ctxs set_ctxs node_funs]. split; [|split].
        * rewrite nth_set_nth, Nat.eqb_refl, HD. reflexivity.
        * intros nd. specialize (HMem nd). destruct (Nat.eqb nd node) eqn:END.
          -- apply Nat.eqb_eq in END as ->. rewrite Nd. rewrite Evolve.nassoc_nset, Nat.eqb_refl.
             now rewrite NX2.
          -- destruct (nassoc nd (node_funs sd)) as [[f' id']|] eqn:EF; [|exact HMem].
             rewrite Evolve.nassoc_nset. destruct (Nat.eqb id' id) eqn:EI; [|exact HMem].
             apply Nat.eqb_eq in EI as ->. rewrite (id_once _ IDd _ _ _ _ _ EF Nd), Nat.eqb_refl in END.
             discriminate.
        * intros i w. rewrite Evolve.nassoc_nset. destruct (Nat.eqb i id) eqn:EI; [|apply HIds].
          apply Nat.eqb_eq in EI as ->. intros _. eauto.
    - destruct NX as [NX1 NX2]. rewrite <- NX1 in CALL. destruct (FIN sd CALL) as [ID2 EV2].
      exists Wd, sd. repeat (split; [assumption|]). split; [now apply quiet_busy|]. split; [|exact EV2].
      eapply ctx_ext; [|exact HCd]. intros nd. cbv beta. destruct (Nat.eqb nd node) eqn:END; [|reflexivity].
      apply Nat.eqb_eq in END as ->. congruence.
  Qed.

  (** ** An expression with aggregates *)

  Lemma sequence_snoc_inv : forall A B (f : A -> option B) l x ys,
    sequence (map f (l ++ [x])) = Some ys ->
    exists zs y, sequence (map f l) = Some zs /\ f x = Some y /\ ys = zs ++ [y].
  Proof.
    intros A B f l x. induction l as [|z l IH]; intros ys H; cbn [app map] in H.
    - cbn in H. destruct (f x) as [y|]; [|discriminate]. injection H as <-. exists [], y. auto.
    - apply sequence_cons in H as (y & r & Hy & Hr & ->). destruct (IH _ Hr) as (zs & w & H1 & H2 & ->).
      exists (y :: zs), w. cbn. rewrite Hy, H1. auto.
  Qed.

  Definition items_for (fr : list dict) (e : expr) (rows : list dict) : list val :=
    match sequence (map (item E funs fr e) rows) with Some l => l | None => [] end.

  Lemma sequence_datum : forall fr e rows l, sequence (map (item E funs fr e) rows) = Some l -> Forall datum l.
  Proof.
    intros fr e rows. induction rows as [|row rows IH]; intros l EQ; cbn in EQ.
    - injection EQ as <-. constructor.
    - destruct (item E funs fr e row) as [x|] eqn:EX; [|discriminate]. cbn in EQ.
      destruct (sequence (map (item E funs fr e) rows)) as [w|] eqn:EW; [|discriminate].
      cbn in EQ. injection EQ as <-. constructor; [eapply item_datum; eauto|auto].
  Qed.

  Lemma items_datum : forall fr e rows, Forall datum (items_for fr e rows).
  Proof.
    intros fr e rows. unfold items_for.
    destruct (sequence (map (item E funs fr e) rows)) as [l|] eqn:EQ; [|constructor].
    eapply sequence_datum; eauto.
  Qed.

  Definition nodes (l : list (nat * agg * expr)) : list nat := map (fun x => fst (fst x)) l.

  Fixpoint find_node (node : nat) (l : list (nat * agg * expr)) : option (agg * expr) :=
    match l with
    | [] => None
    | (nd, a, e) :: r => if Nat.eqb nd node then Some (a, e) else find_node node r
    end.

  Lemma find_node_app : forall node l1 l2,
    find_node node (l1 ++ l2) = match find_node node l1 with Some x => Some x | None => find_node node l2 end.
  Proof.
    intros node l1 l2. induction l1 as [|[[nd a] e] l1 IH]; [reflexivity|]. cbn.
    destruct (Nat.eqb nd node); auto.
  Qed.
  Lemma find_node_in : forall node l a e, find_node node l = Some (a, e) -> In (node, a, e) l.
  Proof.
    intros node l a e. induction l as [|[[nd a1] e1] l IH]; cbn; [discriminate|].
    destruct (Nat.eqb nd node) eqn:EN; [|auto]. apply Nat.eqb_eq in EN as ->. intros [= -> ->]. now left.
  Qed.
  Lemma find_node_none : forall node l, find_node node l = None <-> ~ In node (nodes l).
  Proof.
    intros node l. induction l as [|[[nd a] e] l IH]; cbn; [tauto|].
    destruct (Nat.eqb nd node) eqn:EN.
    - apply Nat.eqb_eq in EN as ->. split; [discriminate|]. intros H. exfalso. auto.
    - apply Nat.eqb_neq in EN. rewrite IH. tauto.
  Qed.
  Lemma in_find_node : forall node l a e, NoDup (nodes l) -> In (node, a, e) l -> find_node node l = Some (a, e).
  Proof.
    intros node l a e. induction l as [|[[nd a1] e1] l IH]; cbn; intros ND HI; [contradiction|].
    inversion ND as [|? ? NI ND']; subst. destruct HI as [HI|HI].
    - injection HI as -> -> ->. now rewrite Nat.eqb_refl.
    - destruct (Nat.eqb nd node) eqn:EN; [|auto]. apply Nat.eqb_eq in EN as ->. exfalso. apply NI.
      unfold nodes. change node with (fst (fst (node, a, e))). now apply (in_map (fun x => fst (fst x))).
  Qed.
  Lemma nodes_app : forall l1 l2, nodes (l1 ++ l2) = nodes l1 ++ nodes l2.
  Proof. intros. apply map_app. Qed.
  Lemma nodup_app : forall A (l1 l2 : list A), NoDup (l1 ++ l2) ->
    NoDup l1 /\ NoDup l2 /\ (forall x, In x l1 -> In x l2 -> False).
  Proof.
    intros A l1 l2. induction l1 as [|x l1 IH]; cbn; intros H.
    - split; [constructor|]. split; [exact H|contradiction].
    - inversion H as [|? ? NI ND]; subst. destruct (IH ND) as (N1 & N2 & N3).
      rewrite in_app_iff in NI. split; [constructor; tauto|]. split; [exact N2|].
      intros y [->|HI] HY; [tauto|eauto].
  Qed.

  Section Over.
    Variables (fr : list dict) (row : dict) (prev : list dict) (W : world) (nsc : scope).
    Hypothesis SC : scope_ok W nsc (row :: fr).

    (** What is remembered after the row, for these aggregates. *)
    Definition told (l : list (nat * agg * expr)) (mem : nat -> option val) (node : nat) : option val :=
      match find_node node l with
      | Some (a, e) => memory a (items_for fr e (prev ++ [row]))
      | None => mem node
      end.

    (** The computation gives [v] and runs each of these aggregates once. *)
    Definition tallies {A} (m : nat -> EM A) (l : list (nat * agg * expr)) (v : A) : Prop :=
      forall W1 s mem, wle W W1 -> stok W1 s -> ids_ok s -> ctx_holds s (agg_ctx nsc s) mem ->
      (forall node a e, In (node, a, e) l -> mem node = memory a (items_for fr e prev)) ->
      exists W2 s2, wle W1 W2 /\ stok W2 s2 /\ ids_ok s2 /\ busy (agg_ctx nsc s) s s2 /\
        ctx_holds s2 (agg_ctx nsc s) (told l mem) /\ evaluates m s s2 v.

    Lemma ty_pure : forall A (m : nat -> EM A) v, promises W m v -> (forall n, keeps_ids A (m n) (m n)) ->
      tallies m [] v.
    Proof.
      intros A m v P K W1 s mem HW HS ID HC _. destruct (P W1 s HW HS) as (W2 & s2 & A1 & A2 & A3 & A4).
      assert (I2 : ids_ok s2) by (eapply evaluates_ids; eauto).
      exists W2, s2. repeat (split; [assumption|]). split; [now apply quiet_busy|]. split; [|exact A4].
      eapply ctx_kept; [exact HC|now rewrite (q_ctxs _ _ A3)|apply A3|exact I2].
    Qed.

    Lemma ty_bind : forall A B (m : nat -> EM A) (f : nat -> A -> EM B) l1 l2 a b,
      NoDup (nodes (l1 ++ l2)) -> tallies m l1 a -> tallies (fun n => f n a) l2 b ->
      tallies (fun n => mbind (m n) (f n)) (l1 ++ l2) b.
    Proof.
      intros A B m f l1 l2 a b ND H1 H2 W1 s mem HW HS ID HC HM.
      rewrite nodes_app in ND. apply nodup_app in ND as (N1 & N2 & N3).
      destruct (H1 W1 s mem HW HS ID HC) as (W2 & s2 & A1 & A2 & A3 & A4 & A5 & A6).
      { intros. apply HM, in_app_iff. now left. }
      assert (SAME : agg_ctx nsc s2 = agg_ctx nsc s) by (apply find_ctx_cells, A4).
      destruct (H2 W2 s2 (told l1 mem)) as (W3 & s3 & B1 & B2 & B3 & B4 & B5 & B6).
      { eapply wle_trans; eauto. }
      { exact A2. }
      { exact A3. }
      { now rewrite SAME. }
      { intros node x e HI. unfold told. rewrite (proj2 (find_node_none node l1)).
        - eapply HM. apply in_app_iff. right. exact HI.
        - intros HN. apply (N3 node HN). unfold nodes. change node with (fst (fst (node, x, e))).
          now apply (in_map (fun x => fst (fst x))). }
      rewrite SAME in B4, B5.
      exists W3, s3. split; [eapply wle_trans; eauto|]. split; [exact B2|]. split; [exact B3|].
      split; [eapply busy_trans; eauto|]. split; [|eapply ev_bind; eauto].
      eapply ctx_ext; [|exact B5]. intros node. unfold told. rewrite find_node_app.
      destruct (find_node node l2) as [[x e]|] eqn:F2, (find_node node l1) as [[y e']|] eqn:F1; try reflexivity.
      exfalso. apply (N3 node).
      - apply find_node_in in F1. unfold nodes. apply (in_map (fun x => fst (fst x))) in F1. exact F1.
      - apply find_node_in in F2. unfold nodes. apply (in_map (fun x => fst (fst x))) in F2. exact F2.
    Qed.

    Lemma ty_ext : forall A (m m' : nat -> EM A) l v, (forall n, m n = m' n) -> tallies m l v -> tallies m' l v.
    Proof.
      intros A m m' l v H T W1 s mem HW HS ID HC HM.
      destruct (T W1 s mem HW HS ID HC HM) as (W2 & s2 & A1 & A2 & A3 & A4 & A5 & A6).
      exists W2, s2. repeat (split; [assumption|]). destruct A6 as (N & HN). exists N. intros n Hn.
      rewrite <- H. auto.
    Qed.

    Lemma ty_expr : forall sc e l v, tallies (fun n => expr_step E (R n) sc e) l v ->
      tallies (fun n => r_expr (R n) sc e) l v.
    Proof.
      intros sc e l v T W1 s mem HW HS ID HC HM.
      destruct (T W1 s mem HW HS ID HC HM) as (W2 & s2 & A1 & A2 & A3 & A4 & A5 & A6).
      exists W2, s2. repeat (split; [assumption|]). now apply ev_expr.
    Qed.

    Lemma ty_agg : forall e node a x items, agg_call e = Some (node, a, x) -> labelled owner e ->
      assoc (agg_name a) (env_funs E) = Some (agg_func a) ->
      sequence (map (item E funs fr x) (prev ++ [row])) = Some items ->
      tallies (fun n => r_expr (R n) nsc e) [(node, a, x)] (aggregate a items).
    Proof.
      intros e node a x items HA LB REG HI W1 s mem HW HS ID HC HM.
      destruct (sequence_snoc_inv _ _ _ _ _ _ HI) as (zs & y & HZ & HY & ->).
      pose proof (HM _ _ _ (or_introl eq_refl)) as HN.
      destruct (agg_expr_ok W nsc fr row e node a x y SC HA LB REG HY W1 s mem (items_for fr x prev)
                  HW HS ID HC HN (items_datum _ _ _)) as (W2 & s2 & A1 & A2 & A3 & A4 & A5 & A6).
      assert (EI : items_for fr x prev = zs) by (unfold items_for; now rewrite HZ).
      assert (EJ : items_for fr x (prev ++ [row]) = zs ++ [y]) by (unfold items_for; now rewrite HI).
      rewrite EI in A5, A6. exists W2, s2. repeat (split; [assumption|]). split; [|exact A6].
      eapply ctx_ext; [|exact A5]. intros nd. cbv beta. unfold told. cbn [find_node].
      rewrite (Nat.eqb_sym node nd). destruct (Nat.eqb nd node); [now rewrite EJ|reflexivity].
    Qed.

    (** The arguments of a call for a group. *)
    Definition arg_over (rows : list dict) (na : string * argval) : option (string * val) :=
      match na with
      | (name, AExpr e) => option_map (fun v => (name, expand v)) (den E funs (last rows [] :: fr) e)
      | (name, AArray e) => option_map (fun v => (name, v)) (over E funs fr rows e)
      | (name, AEmpty) => Some (name, VArr [])
      | (_, ASelect _) => None
      end.

    Definition not_call (neg : bool) (path : list string) (called : bool) : Prop :=
      forall f, neg = false -> called = true -> path = [f] -> False.

    Lemma sym_shape : forall (node : nat) neg path called,
      (exists f, neg = false /\ path = [f] /\ called = true) \/ not_call neg path called.
    Proof.
      intros node neg path called. destruct neg; [right; intros f [=]|].
      destruct called; [|right; intros f _ [=]].
      destruct path as [|f [|g path]]; [right; intros f _ _ [=]|left; eauto|right; intros f0 _ _ [=]].
    Qed.

    Lemma over_call : forall rows node f params, agg_call (ESym node false [f] true params) = None ->
      over E funs fr rows (ESym node false [f] true params) =
      obind (funs f) (fun F =>
      obind (sequence (map (arg_over rows) params)) (fun args =>
      obind (F (dict_of args)) (fun v => option_map or_null (check v)))).
    Proof. intros rows node f params EA. cbn [over]. rewrite EA. reflexivity. Qed.

    Lemma over_other : forall rows node neg path called params,
      agg_call (ESym node neg path called params) = None -> not_call neg path called ->
      over E funs fr rows (ESym node neg path called params) =
      den E funs (last rows [] :: fr) (ESym node neg path called params).
    Proof.
      intros rows node neg path called params EA NC. cbn [over]. rewrite EA.
      destruct neg; [reflexivity|]. destruct path as [|f [|g path]]; [reflexivity| |reflexivity].
      destruct called; [|reflexivity]. exfalso. eapply NC; reflexivity.
    Qed.

    Lemma aggs_call : forall node f params, agg_call (ESym node false [f] true params) = None ->
      aggs (ESym node false [f] true params) = args_aggs params.
    Proof.
      intros node f params EA. cbn [aggs]. rewrite EA. unfold args_aggs. clear EA.
      induction params as [|[x [e|q|e|]] params IH]; cbn [flat_map snd app]; [reflexivity| | | |]; now rewrite IH.
    Qed.

    Lemma aggs_other : forall node neg path called params,
      agg_call (ESym node neg path called params) = None -> not_call neg path called ->
      aggs (ESym node neg path called params) = [].
    Proof.
      intros node neg path called params EA NC. cbn [aggs]. rewrite EA.
      destruct neg; [reflexivity|]. destruct path as [|f [|g path]]; [reflexivity| |reflexivity].
      destruct called; [|reflexivity]. exfalso. eapply NC; reflexivity.
    Qed.

    Lemma over_plain : forall e rows v, over E funs fr rows e = Some v -> plain v = true.
    Proof.
      intros e. induction e using expr_ind'; intros rows v0 H0.
      all: match goal with H : over _ _ _ _ ?e = Some _ |- _ => destruct (agg_call e) as [[[nd a] x]|] eqn:EA end.
      all: try (cbn [over] in H0; rewrite EA in H0; apply omap_some in H0 as (its & Hi & <-);
                apply aggregate_datum; eapply sequence_datum; eauto).
      all: try (cbn [over] in H0; rewrite EA in H0; eapply den_plain; eauto; fail).
      - destruct (sym_shape node neg path called) as [(f & -> & -> & ->)|NC].
        + rewrite over_call in H0 by exact EA. apply obind_some in H0 as (F & HF & H0).
          apply obind_some in H0 as (argv & Hargv & H0). apply obind_some in H0 as (w & Hw & H0).
          apply omap_some in H0 as (w' & Hw' & <-). apply check_some in Hw' as [-> PW].
          destruct w; try discriminate; exact PW || reflexivity.
        + rewrite over_other in H0 by assumption. eapply den_plain; eauto.
      - cbn [over agg_call] in H0. apply obind_some in H0 as (l & Hl & H0).
        apply obind_some in H0 as (vs & Hvs & H0).
        assert (PI : forallb plain (items vs) = true).
        { clear H0. revert vs Hvs. induction H as [|o rs Ho _ IH]; intros ws Hws; cbn [map] in Hws.
          - injection Hws as <-. reflexivity.
          - apply sequence_cons in Hws as (y & r & Hy & Hr & ->).
            destruct o as [e1|].
            + apply omap_some in Hy as (w & Hw & <-). simpl. rewrite (Ho _ _ Hw). simpl. auto.
            + injection Hy as <-. reflexivity. }
        specialize (IHe _ _ Hl).
        destruct (_ || _); [|discriminate]. injection H0 as <-.
        destruct l, vs; simpl in *; try rewrite IHe, PI; auto.
      - cbn [over agg_call] in H0. apply obind_some in H0 as (l & Hl & H0). eapply den_plain; eauto.
      - cbn [over agg_call] in H0. apply obind_some in H0 as (l & Hl & H0). eapply den_plain; eauto.
      - cbn [over agg_call] in H0. apply obind_some in H0 as (l & Hl & H0).
        apply obind_some in H0 as (vs & Hvs & H0). eapply add_value_plain; [|exact H0]. eauto.
      - cbn [over agg_call] in H0. apply obind_some in H0 as (l & Hl & H0).
        apply obind_some in H0 as (vs & Hvs & H0). eapply mul_value_plain; [|exact H0]. eauto.
      - cbn [over agg_call] in H0. apply omap_some in H0 as (v & Hv & <-). reflexivity.
      - cbn [over agg_call] in H0. apply obind_some in H0 as (l & Hl & H0).
        apply omap_some in H0 as (r & Hr & <-). reflexivity.
      - cbn [over agg_call] in H0. apply obind_some in H0 as (l & Hl & H0). eapply den_plain; eauto.
    Qed.

    Definition all_aggs (rs : list (string * expr)) : list (nat * agg * expr) :=
      flat_map (fun oe => aggs (snd oe)) rs.

    Definition operands_tally (rs : list (string * expr)) (vs : list (string * val)) : Prop :=
      Forall2 (fun oe ov => fst oe = fst ov /\ plain (snd ov) = true /\
                 tallies (fun n => r_expr (R n) nsc (snd oe)) (aggs (snd oe)) (snd ov)) rs vs.

    Lemma ty_add : forall rs vs, operands_tally rs vs -> NoDup (nodes (all_aggs rs)) ->
      forall acc x, plain acc = true -> add_value E acc vs = Some x ->
      tallies (fun n => add_loop (addf E (R n) nsc) (subf E (R n) nsc) acc (terms (R n) nsc rs)) (all_aggs rs) x.
    Proof.
      intros rs vs H. induction H as [|[op e] [op' v] rs vs (H1 & H2 & H3) _ IH]; intros ND acc x PA HX;
        cbn [all_aggs flat_map terms map add_loop add_value fst snd] in *.
      - injection HX as <-. apply ty_pure; [apply pr_ret|]. intros n. apply keeps_ids_closed.
      - subst op'. apply obind_some in HX as (z & Hz & HX). apply check_some in Hz as [-> PZ].
        eapply (ty_bind _ _ _ _ _ _ v); [exact ND|exact H3|].
        change (flat_map (fun oe : string * expr => aggs (snd oe)) rs) with ([] ++ all_aggs rs).
        rewrite nodes_app in ND. apply nodup_app in ND as (_ & ND & _).
        eapply ty_bind; [exact ND| |apply IH; [exact ND|exact PZ|exact HX]].
        pose proof (fun n => evaluation_keeps_ids E n) as K.
        destruct (String.eqb op "+"); [|destruct (String.eqb op "-")].
        + apply ty_pure; [now apply pr_addf|]. intros n. now apply pa_addf; [apply keeps_ids_closed|].
        + apply ty_pure; [now apply pr_subf|]. intros n. now apply pa_subf; [apply keeps_ids_closed|].
        + apply ty_pure; [apply pr_ret|]. intros n. apply keeps_ids_closed.
    Qed.

    Lemma ty_mul : forall rs vs, operands_tally rs vs -> NoDup (nodes (all_aggs rs)) ->
      forall acc x, plain acc = true -> mul_value E acc vs = Some x ->
      tallies (fun n => mul_loop (mulf E (R n) nsc) (divf E (R n) nsc) acc (terms (R n) nsc rs)) (all_aggs rs) x.
    Proof.
      intros rs vs H. induction H as [|[op e] [op' v] rs vs (H1 & H2 & H3) _ IH]; intros ND acc x PA HX;
        cbn [all_aggs flat_map terms map mul_loop mul_value fst snd] in *.
      - injection HX as <-. apply ty_pure; [apply pr_ret|]. intros n. apply keeps_ids_closed.
      - subst op'. apply obind_some in HX as (z & Hz & HX).
        eapply (ty_bind _ _ _ _ _ _ v); [exact ND|exact H3|].
        change (flat_map (fun oe : string * expr => aggs (snd oe)) rs) with ([] ++ all_aggs rs).
        rewrite nodes_app in ND. apply nodup_app in ND as (_ & ND & _).
        pose proof (fun n => evaluation_keeps_ids E n) as K.
        eapply (ty_bind _ _ _ _ _ _ z); [exact ND| |apply IH; [exact ND| |exact HX]].
        + destruct (String.eqb op "*"); [|apply check_some in Hz as [-> PZ]; destruct (String.eqb op "/")].
          * destruct (mul_disp (p_mul (env_protos E)) acc v) eqn:EM0; [|discriminate].
            apply check_some in Hz as [-> PZ].
            apply ty_pure; [now apply pr_mulf|]. intros n. now apply pa_mulf; [apply keeps_ids_closed|].
          * apply ty_pure; [now apply pr_divf|]. intros n. now apply pa_divf; [apply keeps_ids_closed|].
          * apply ty_pure; [apply pr_ret|]. intros n. apply keeps_ids_closed.
        + destruct (String.eqb op "*").
          * destruct (mul_disp (p_mul (env_protos E)) acc v); [|discriminate].
            apply check_some in Hz as [-> PZ]. exact PZ.
          * apply check_some in Hz as [-> PZ]. exact PZ.
    Qed.

    Lemma registered_app : forall l1 l2, registered (l1 ++ l2) -> registered l1 /\ registered l2.
    Proof. intros l1 l2 H. split; intros node a e HI; eapply H; apply in_app_iff; eauto. Qed.

    Lemma over_operands : forall rs vs,
      Forall (fun oe => labelled owner (snd oe) -> NoDup (nodes (aggs (snd oe))) -> registered (aggs (snd oe)) ->
        forall v, over E funs fr (prev ++ [row]) (snd oe) = Some v ->
        tallies (fun n => r_expr (R n) nsc (snd oe)) (aggs (snd oe)) v) rs ->
      Forall (fun oe => labelled owner (snd oe)) rs -> NoDup (nodes (all_aggs rs)) -> registered (all_aggs rs) ->
      sequence (map (fun oe => option_map (pair (fst oe)) (over E funs fr (prev ++ [row]) (snd oe))) rs) = Some vs ->
      operands_tally rs vs.
    Proof.
      intros rs vs H. revert vs. induction H as [|[op e] rs H0 _ IH]; intros vs LB ND RG HS; cbn [map] in HS.
      - injection HS as <-. constructor.
      - apply sequence_cons in HS as (y & r & Hy & Hr & ->). apply omap_some in Hy as (v & Hv & <-).
        cbn [all_aggs flat_map snd] in ND, RG. inversion LB; subst.
        rewrite nodes_app in ND. apply nodup_app in ND as (N1 & N2 & _).
        apply registered_app in RG as [R1 R2].
        constructor; [|apply IH; assumption]. split; [reflexivity|]. split; [eapply over_plain; eauto|auto].
    Qed.

    Lemma app_one : forall A (a : A) l, [a] ++ l = a :: l.
    Proof. reflexivity. Qed.

    Lemma aggs_comma : forall l rs, aggs (EComma l rs) = aggs l ++ list_aggs rs.
    Proof.
      intros l rs. cbn [aggs agg_call]. f_equal. unfold list_aggs.
      induction rs as [|[e|] rs IH]; cbn [flat_map]; [reflexivity|now rewrite IH|exact IH].
    Qed.

    Lemma ty_comma : forall rs vs,
      Forall2 (fun oe ov => match oe, ov with
                          | Some e, Some v => NoDup (nodes (aggs e)) -> registered (aggs e) ->
                              tallies (fun n => r_expr (R n) nsc e) (aggs e) v
                          | None, None => True
                          | _, _ => False
                          end) rs vs ->
      listed rs = true -> NoDup (nodes (list_aggs rs)) -> registered (list_aggs rs) ->
      forall acc, tallies (fun n => comma_loop acc (map (option_map (r_expr (R n) nsc)) rs)) (list_aggs rs)
                  (VArr (acc ++ items vs)).
    Proof.
      intros rs vs H. induction H as [|[e|] [v|] rs vs HX _ IH]; intros LI ND RG acc; try contradiction;
        unfold list_aggs in *; cbn [map option_map comma_loop items flat_map listed] in *.
      - rewrite app_nil_r. apply ty_pure; [apply pr_ret|intros ?; apply keeps_ids_closed].
      - pose proof ND as ND'. rewrite nodes_app in ND'. apply nodup_app in ND' as (N1 & N2 & _).
        apply registered_app in RG as [R1 R2].
        eapply (ty_bind _ _ _ _ _ _ v); [exact ND|auto|].
        replace (acc ++ v :: items vs) with ((acc ++ [v]) ++ items vs) by now rewrite <- app_assoc.
        apply IH; assumption.
      - rewrite app_nil_r. destruct rs; [|discriminate]. apply ty_pure; [apply pr_ret|intros ?; apply keeps_ids_closed].
    Qed.

    Lemma ty_comma_pure : forall rs vs,
      Forall2 (fun oe ov => match oe, ov with
                          | Some e, Some v => tallies (fun n => r_expr (R n) nsc e) [] v
                          | None, None => True
                          | _, _ => False
                          end) rs vs ->
      forall acc, tallies (fun n => comma_loop acc (map (option_map (r_expr (R n) nsc)) rs)) []
                  (VArr (acc ++ items vs)).
    Proof.
      intros rs vs H. induction H as [|[e|] [v|] rs vs HX _ IH]; intros acc; try contradiction;
        cbn [map option_map comma_loop items] in *.
      - rewrite app_nil_r. apply ty_pure; [apply pr_ret|intros ?; apply keeps_ids_closed].
      - change (@nil (nat * agg * expr)) with (@nil (nat * agg * expr) ++ []).
        eapply (ty_bind _ _ _ _ _ _ v); [constructor|exact HX|].
        replace (acc ++ v :: items vs) with ((acc ++ [v]) ++ items vs) by now rewrite <- app_assoc.
        apply IH.
      - rewrite app_nil_r. apply ty_pure; [apply pr_ret|intros ?; apply keeps_ids_closed].
    Qed.

    Lemma told_app : forall l1 l2 mem node, NoDup (nodes (l1 ++ l2)) ->
      told l2 (told l1 mem) node = told (l1 ++ l2) mem node.
    Proof.
      intros l1 l2 mem node ND. rewrite nodes_app in ND. apply nodup_app in ND as (_ & _ & N3).
      unfold told. rewrite find_node_app.
      destruct (find_node node l2) as [[x e]|] eqn:F2, (find_node node l1) as [[y e']|] eqn:F1; try reflexivity.
      exfalso. apply (N3 node).
      - apply find_node_in in F1. apply (in_map (fun x => fst (fst x))) in F1. exact F1.
      - apply find_node_in in F2. apply (in_map (fun x => fst (fst x))) in F2. exact F2.
    Qed.

    Lemma untold : forall l1 l2 mem node a e, NoDup (nodes (l1 ++ l2)) -> In (node, a, e) l2 ->
      told l1 mem node = mem node.
    Proof.
      intros l1 l2 mem node a e ND HI. rewrite nodes_app in ND. apply nodup_app in ND as (_ & _ & N3).
      unfold told. rewrite (proj2 (find_node_none node l1)); [reflexivity|].
      intros HN. apply (N3 node HN). apply (in_map (fun x => fst (fst x))) in HI. exact HI.
    Qed.

    (** The arguments of a call, with aggregates in the lists among them. *)
    Lemma ty_args : forall params,
      Forall (fun na => on_arg (fun e => labelled owner e -> NoDup (nodes (aggs e)) -> registered (aggs e) ->
        forall v, over E funs fr (prev ++ [row]) e = Some v ->
        tallies (fun n => r_expr (R n) nsc e) (aggs e) v) (snd na)) params ->
      (fix go (l : list (string * argval)) : Prop :=
         match l with
         | [] => True
         | (_, AExpr e) :: r | (_, AArray e) :: r => labelled owner e /\ go r
         | _ :: r => go r
         end) params ->
      NoDup (nodes (args_aggs params)) -> registered (args_aggs params) ->
      forall argv, sequence (map (arg_over (prev ++ [row])) params) = Some argv ->
      forall W1 s mem args vals, wle W W1 -> stok W1 s -> ids_ok s -> ctx_holds s (agg_ctx nsc s) mem ->
      (forall node a e, In (node, a, e) (args_aggs params) -> mem node = memory a (items_for fr e prev)) ->
      args_stand E owner W1 args vals ->
      exists W2 s2 args', wle W1 W2 /\ stok W2 s2 /\ ids_ok s2 /\ busy (agg_ctx nsc s) s s2 /\
        ctx_holds s2 (agg_ctx nsc s) (told (args_aggs params) mem) /\
        args_stand E owner W2 args' (fold_left (fun d kv => dict_set (fst kv) (snd kv) d) argv vals) /\
        evaluates (fun n => build_lazy_args (R n) nsc params args) s s2 args'.
    Proof.
      pose proof (fun n => evaluation_keeps_ids E n) as K.
      intros params H. induction H as [|[name a] params Ha _ IH];
        intros LB ND RG argv HA W1 s mem args vals HW HS ID HC HM ST; cbn [map build_lazy_args] in *.
      - injection HA as <-. exists W1, s, args. split; [apply wle_refl|]. split; [exact HS|]. split; [exact ID|].
        split; [apply quiet_busy, quiet_refl|]. split; [exact HC|]. split; [exact ST|]. exists 0. reflexivity.
      - apply sequence_cons in HA as (y & r & Hy & Hr & ->). cbn [snd] in Ha.
        change (args_aggs ((name, a) :: params)) with
          ((match a with AArray e => aggs e | _ => [] end) ++ args_aggs params) in *.
        set (l1 := match a with AArray e => aggs e | _ => [] end) in *.
        pose proof ND as ND'. rewrite nodes_app in ND'. apply nodup_app in ND' as (N1 & N2 & _).
        apply registered_app in RG as [R1 R2].
        assert (LB2 : (fix go (l : list (string * argval)) : Prop :=
           match l with
           | [] => True
           | (_, AExpr e) :: r | (_, AArray e) :: r => labelled owner e /\ go r
           | _ :: r => go r
           end) params) by (destruct a; tauto).
        assert (STEP : forall W2 s2 (m : nat -> EM val) b,
          wle W1 W2 -> stok W2 s2 -> ids_ok s2 -> busy (agg_ctx nsc s) s s2 ->
          ctx_holds s2 (agg_ctx nsc s) (told l1 mem) -> stands W2 b (snd y) -> fst y = name ->
          evaluates m s s2 b ->
          exists W3 s3 args', wle W1 W3 /\ stok W3 s3 /\ ids_ok s3 /\ busy (agg_ctx nsc s) s s3 /\
            ctx_holds s3 (agg_ctx nsc s) (told (l1 ++ args_aggs params) mem) /\
            args_stand E owner W3 args' (fold_left (fun d kv => dict_set (fst kv) (snd kv) d) (y :: r) vals) /\
            evaluates (fun n => v <- m n;; build_lazy_args (R n) nsc params (dict_set name v args)) s s3 args').
        { intros W2 s2 m b HW2 HS2 ID2 B2 HC2 SB FY EM0.
          assert (SAME : agg_ctx nsc s2 = agg_ctx nsc s) by (apply find_ctx_cells, B2).
          destruct (IH LB2 N2 R2 r Hr W2 s2 (told l1 mem) (dict_set name b args) (dict_set name (snd y) vals))
            as (W3 & s3 & args' & HW3 & HS3 & ID3 & B3 & HC3 & ST3 & EV3).
          - eapply wle_trans; eauto.
          - exact HS2.
          - exact ID2.
          - now rewrite SAME.
          - intros node x e HI. rewrite (untold l1 (args_aggs params) mem node x e ND HI).
            apply HM, in_app_iff. now right.
          - apply args_stand_set; [|exact SB]. eapply args_stand_weaken; eauto.
          - rewrite SAME in B3, HC3. exists W3, s3, args'. split; [eapply wle_trans; eauto|]. split; [exact HS3|].
            split; [exact ID3|]. split; [eapply busy_trans; eauto|].
            split; [eapply ctx_ext; [|exact HC3]; intros node; now apply told_app|].
            split; [cbn [fold_left]; now rewrite FY|].
            eapply ev_bind; [exact EM0|]. exact EV3. }
        destruct a as [e|sq|e|]; cbn [arg_over on_arg] in *.
        + apply omap_some in Hy as (x & Hx & <-). rewrite last_last in Hx. destruct LB as [LB1 _].
          destruct (pr_alloc_lazy E owner W1 s e nsc x) as (W2 & s2 & b & HW2 & HS2 & Q2 & SB & AL); auto.
          { eapply pr_weaken; [exact HW|]. eapply pure_eval; eauto. }
          { eapply den_plain; eauto. }
          assert (ID2 : ids_ok s2).
          { pose proof (cl_alloc _ keeps_ids_closed (OLazy e nsc None) s ID) as I2. now rewrite AL in I2. }
          eapply STEP; eauto.
          * now apply quiet_busy.
          * eapply ctx_kept; [exact HC|now rewrite (q_ctxs _ _ Q2)|apply Q2|exact ID2].
          * exists 0. intros n _. exact AL.
        + discriminate.
        + apply omap_some in Hy as (x & Hx & <-). destruct LB as [LB1 _].
          destruct (Ha LB1 N1 R1 x Hx W1 s mem HW HS ID HC) as (W2 & s2 & HW2 & HS2 & ID2 & B2 & HC2 & EV).
          { intros. apply HM, in_app_iff. now left. }
          eapply STEP; eauto. left. split; [reflexivity|]. eapply over_plain; eauto.
        + injection Hy as <-. eapply (STEP W1 s (fun _ => mret (VArr []))); eauto using wle_refl.
          * apply quiet_busy, quiet_refl.
          * left. auto.
          * exists 0. reflexivity.
    Qed.

    (** The call itself. *)
    Lemma host_call_ok : forall W2 f h F id args argv w,
      funs f = Some F -> assoc f (env_funs E) = Some h ->
      args_stand E owner W2 args (dict_of argv) -> F (dict_of argv) = Some w -> plain w = true ->
      exists w', promises W2 (fun n => call_func E (R n) nsc h id args) w' /\
                 plain w' = true /\ or_null w' = or_null w.
    Proof.
      intros W2 f h F id args argv w HF Hh ST HW PW.
      destruct (FOK _ _ HF) as (h' & Hh' & HC). rewrite Hh in Hh'. injection Hh' as <-.
      assert (BI : is_builtin h = true -> (forall args v, F args = Some v -> builtin_value E h args = Some v) ->
                exists w', promises W2 (fun n => call_func E (R n) nsc h id args) w' /\
                   plain w' = true /\ or_null w' = or_null w).
      { intros IB HB. eapply pr_builtin; [exact IB|exact ST|apply dict_of_nodup|apply HB; exact HW|exact PW]. }
      destruct h; cbn [function_ok] in HC; try contradiction; try (apply BI; [reflexivity|exact HC]).
      exists w. split; [|auto]. cbn [call_func].
      apply (run_prog_ok E owner W2 nsc _ (meaning_stands _ _ _ _ _ ST)).
      apply (HC _ args (dict_of argv)); [|eapply meaning_args; eauto|exact HW].
      intros x PX. unfold meaning. now rewrite PX.
    Qed.

    Lemma ty_call : forall node f params F argv w,
      Forall (fun na => on_arg (fun e => labelled owner e -> NoDup (nodes (aggs e)) -> registered (aggs e) ->
        forall v, over E funs fr (prev ++ [row]) e = Some v ->
        tallies (fun n => r_expr (R n) nsc e) (aggs e) v) (snd na)) params ->
      labelled owner (ESym node false [f] true params) ->
      NoDup (nodes (args_aggs params)) -> registered (args_aggs params) ->
      funs f = Some F -> sequence (map (arg_over (prev ++ [row])) params) = Some argv ->
      F (dict_of argv) = Some w -> plain w = true ->
      tallies (fun n => r_expr (R n) nsc (ESym node false [f] true params)) (args_aggs params) (or_null w).
    Proof.
      pose proof (fun n => evaluation_keeps_ids E n) as K.
      intros node f params F argv w HP LB ND RG HF HA HW PW W1 s mem HW1 HS ID HC HM.
      cbn [labelled] in LB. destruct LB as [OW LB].
      destruct (FOK _ _ HF) as (h & Hh & _).
      destruct (pr_split E owner W node W1 s HW1 HS) as (Wa & sa & HWa & HSa & Qa & EVa).
      assert (IDa : ids_ok sa).
      { eapply (evaluates_ids _ (fun _ => split_symbol node false)); [|exact EVa|exact ID].
        intros n. apply (cl_split_symbol _ keeps_ids_closed). }
      assert (SA : agg_ctx nsc sa = agg_ctx nsc s) by (apply find_ctx_cells, (q_cells _ _ Qa)).
      destruct (ty_args params HP LB ND RG argv HA Wa sa mem [] []) as
        (Wb & sb & args & HWb & HSb & IDb & Bb & HCb & AS & EVb).
      { eapply wle_trans; eauto. }
      { exact HSa. }
      { exact IDa. }
      { rewrite SA. eapply ctx_kept; [exact HC|now rewrite (q_ctxs _ _ Qa)|apply Qa|exact IDa]. }
      { exact HM. }
      { constructor. }
      rewrite SA in Bb, HCb. fold (dict_of argv) in AS.
      assert (NF : exists sc' id first, node_function node h sb = (sc', RVal (h, id, first)) /\
        stok Wb sc' /\ quiet sb sc' /\ ids_ok sc').
      { pose proof (cl_node_function _ keeps_ids_closed node h sb IDb) as IDc.
        unfold node_function in *. destruct (nassoc node (node_funs sb)) as [[f' id]|] eqn:EN.
        - pose proof (so_funs _ _ _ _ HSb _ _ _ EN) as EF. rewrite OW, Hh in EF. injection EF as <-.
          exists sb, id, false. split; [reflexivity|]. split; [exact HSb|]. split; [apply quiet_refl|exact IDb].
        - cbn [fst] in IDc. eexists _, _, _. split; [reflexivity|]. split; [|split; [|exact IDc]].
          + constructor; cbn [heap node_funs]; [apply HSb|]. intros nd f' id. rewrite Evolve.nassoc_nset.
            destruct (Nat.eqb nd node) eqn:END; [|apply HSb].
            apply Nat.eqb_eq in END as ->. intros [= <- <-]. congruence.
          + constructor; cbn; auto.
            * intros n o H. exists o. auto using obj_ext_refl.
            * intros nd z H. rewrite Evolve.nassoc_nset. destruct (Nat.eqb nd node) eqn:END; [|exact H].
              apply Nat.eqb_eq in END as ->. congruence. }
      destruct NF as (sc' & id & first & EVc & HSc & Qc & IDc).
      destruct (host_call_ok Wb f h F id args argv w HF Hh AS HW PW) as (w' & HPC & PW' & EW).
      destruct (HPC Wb sc' (wle_refl _) HSc) as (Wd & sd & HWd & HSd & Qd & EVd).
      assert (IDd : ids_ok sd).
      { eapply (evaluates_ids _ (fun n => call_func E (R n) nsc h id args)); [|exact EVd|exact IDc].
        intros n. apply (pa_call_func _ keeps_ids_closed _ _ _ (K n)). }
      assert (Q : quiet sb sd) by (eapply quiet_trans; eauto).
      exists Wd, sd. split; [eapply wle_trans; [exact HWa|]; eapply wle_trans; eauto|].
      split; [exact HSd|]. split; [exact IDd|].
      split; [eapply busy_trans; [apply quiet_busy; exact Qa|]; eapply busy_trans; [exact Bb|apply quiet_busy; exact Q]|].
      split; [eapply ctx_kept; [exact HCb|now rewrite (q_ctxs _ _ Q)|apply Q|exact IDd]|].
      apply ev_expr. cbn [expr_step]. unfold sym_reduce. eapply ev_bind; [exact EVa|].
      cbv beta. rewrite Hh. rewrite <- EW.
      replace (or_null w') with
        (if if first : bool then is_nil w' else match w' with VNil => true | _ => false end then VNull else w')
        by (destruct first, w'; try reflexivity; discriminate).
      eapply ev_bind; [|unfold maybe_negate; apply ev_ret].
      unfold call_function. eapply ev_bind; [exact EVb|].
      eapply ev_bind; [exists 0; intros n _; exact EVc|]. cbv beta iota.
      eapply ev_bind; [exact EVd|]. apply ev_ret.
    Qed.

    Lemma over_eval : forall e, labelled owner e -> NoDup (nodes (aggs e)) -> registered (aggs e) ->
      forall v, over E funs fr (prev ++ [row]) e = Some v ->
      tallies (fun n => r_expr (R n) nsc e) (aggs e) v.
    Proof.
      pose proof (fun n => evaluation_keeps_ids E n) as K.
      assert (PURE : forall e v, agg_call e = None -> labelled owner e -> den E funs (row :: fr) e = Some v ->
                tallies (fun n => r_expr (R n) nsc e) [] v).
      { intros e v _ LB HD. apply ty_pure; [eapply pure_eval; eauto|]. intros n. apply K. }
      intros e. induction e using expr_ind'; intros LB ND RG v0 H0.
      all: match goal with H : over _ _ _ _ ?e = Some _ |- _ => destruct (agg_call e) as [[[nd a] x]|] eqn:EA end.
      all: try (cbn [over aggs] in *; rewrite EA in *; apply omap_some in H0 as (its & Hi & <-);
                eapply ty_agg; eauto; eapply RG; now left).
      all: try (cbn [over aggs] in *; rewrite EA in *; rewrite last_last in H0;
                apply PURE; assumption; fail).
      - destruct (sym_shape node neg path called) as [(f & -> & -> & ->)|NC].
        + rewrite over_call in H0 by exact EA. rewrite aggs_call in * by exact EA.
          apply obind_some in H0 as (F & HF & H0).
          apply obind_some in H0 as (argv & Hargv & H0). apply obind_some in H0 as (w & Hw & H0).
          apply omap_some in H0 as (w' & Hw' & <-). apply check_some in Hw' as [-> PW].
          eapply ty_call; eauto.
        + rewrite over_other in H0 by assumption. rewrite aggs_other by assumption. rewrite last_last in H0.
          apply PURE; assumption.
      - cbn [over agg_call labelled] in *. rewrite aggs_comma in *. destruct LB as [LB1 LB2].
        apply obind_some in H0 as (l & Hl & H0). apply obind_some in H0 as (vs & Hvs & H0).
        pose proof ND as ND'. rewrite nodes_app in ND'. apply nodup_app in ND' as (N1 & N2 & _).
        apply registered_app in RG as [R1 R2].
        assert (ALL : Forall2 (fun oe ov => match oe, ov with
                          | Some e, Some v => NoDup (nodes (aggs e)) -> registered (aggs e) ->
                              tallies (fun n => r_expr (R n) nsc e) (aggs e) v
                          | None, None => True
                          | _, _ => False
                          end) rs vs).
        { clear - H LB2 Hvs. revert vs Hvs. induction H as [|o rs Ho _ IH]; intros vs Hvs; cbn [map] in Hvs.
          - injection Hvs as <-. constructor.
          - apply sequence_cons in Hvs as (y & r & Hy & Hr & ->). destruct o as [e|].
            + apply omap_some in Hy as (w & Hw & <-). simpl in Ho. destruct LB2 as [LBa LBb].
              constructor; [intros; apply Ho; auto|auto].
            + injection Hy as <-. constructor; auto. }
        apply ty_expr. cbn [expr_step]. unfold comma_reduce.
        eapply (ty_bind _ _ _ _ _ _ l); [exact ND|auto|].
        destruct (list_aggs rs) as [|z zs] eqn:LA; [rewrite orb_true_r in H0|rewrite orb_false_r in H0].
        + injection H0 as <-.
          assert (ALL' : Forall2 (fun oe ov => match oe, ov with
                          | Some e, Some v => tallies (fun n => r_expr (R n) nsc e) [] v
                          | None, None => True
                          | _, _ => False
                          end) rs vs).
          { clear - ALL LA. induction ALL as [|[x|] [v|] rs vs HX _ IH]; try contradiction; constructor; auto;
              unfold list_aggs in LA; cbn [flat_map] in LA.
            - apply app_eq_nil in LA as [L1 L2]. rewrite L1 in HX. apply HX; [constructor|intros ? ? ? []].
            - apply app_eq_nil in LA as [L1 L2]. auto. }
          destruct l; try (apply ty_pure; [apply pr_ret|intros ?; apply keeps_ids_closed]; fail);
            (destruct ALL' as [|o v rs vs HX HXS]; cbn [map];
             [apply ty_pure; [apply pr_ret|intros ?; apply keeps_ids_closed]
             |apply (ty_comma_pure (o :: rs) (v :: vs)); constructor; assumption]).
        + destruct (negb (is_nil l) && listed rs) eqn:EL; [|discriminate]. apply andb_prop in EL as [NL LI].
          injection H0 as <-. rewrite <- LA in *.
          assert (RS : rs <> []) by (intros ->; discriminate).
          replace (match l with VNil => VNull | _ => match vs with [] => l | _ :: _ => VArr (l :: items vs) end end)
            with (VArr ([l] ++ items vs)) by (destruct ALL; [congruence|]; destruct l; try reflexivity; discriminate).
          assert (T : tallies (fun n => comma_loop [l] (map (option_map (r_expr (R n) nsc)) rs)) (list_aggs rs) (VArr ([l] ++ items vs)))
            by (apply ty_comma; assumption).
          eapply ty_ext; [|exact T]. intros n. destruct rs; [congruence|]. destruct l; try reflexivity; discriminate.
      - cbn [over aggs agg_call labelled] in *. destruct LB as [LB1 LB2]. apply labelled_pairs in LB2.
        apply obind_some in H0 as (l & Hl & H0).
        apply ty_expr. cbn [expr_step]. unfold and_reduce. rewrite <- (app_nil_r (aggs e)) in ND |- *.
        eapply (ty_bind _ _ _ _ _ _ l); [exact ND|rewrite app_nil_r in ND; auto|].
        rewrite last_last in H0. cbn [den] in H0. apply obind_some in H0 as (l' & Hc & H0).
        apply check_some in Hc as [-> PL]. apply obind_some in H0 as (vs & Hvs & H0).
        assert (OK : operands_ok E owner W nsc rs vs).
        { eapply operands_all; [|exact SC|exact Hvs|exact LB2]. apply Forall_forall. intros. eapply pure_eval; eauto. }
        injection H0 as <-. apply ty_pure.
        + destruct OK as [|x y rs vs HX HXS]; [apply pr_ret|]. cbn [terms map].
          eapply (pr_bind E owner _ _ W _ _ (truthy E l)); [now apply pr_truth|]. cbv beta.
          destruct (truthy E l); cbn [negb]; [|apply pr_ret].
          apply (pr_and _ _ W nsc (x :: rs) (y :: vs)). constructor; assumption.
        + intros n. destruct rs as [|r0 rs]; [apply keeps_ids_closed|]. cbn [terms map].
          apply keeps_ids_closed; [apply pa_truth; [apply keeps_ids_closed|apply K]|].
          intros []; cbn [negb]; [|apply keeps_ids_closed].
          apply (pa_and_loop _ keeps_ids_closed _ _ _ (K n) nsc (r0 :: rs)).
      - cbn [over aggs agg_call labelled] in *. destruct LB as [LB1 LB2]. apply labelled_pairs in LB2.
        apply obind_some in H0 as (l & Hl & H0).
        apply ty_expr. cbn [expr_step]. unfold or_reduce. rewrite <- (app_nil_r (aggs e)) in ND |- *.
        eapply (ty_bind _ _ _ _ _ _ l); [exact ND|rewrite app_nil_r in ND; auto|].
        rewrite last_last in H0. cbn [den] in H0. apply obind_some in H0 as (l' & Hc & H0).
        apply check_some in Hc as [-> PL]. apply obind_some in H0 as (vs & Hvs & H0).
        assert (OK : operands_ok E owner W nsc rs vs).
        { eapply operands_all; [|exact SC|exact Hvs|exact LB2]. apply Forall_forall. intros. eapply pure_eval; eauto. }
        injection H0 as <-. apply ty_pure.
        + destruct OK as [|x y rs vs HX HXS]; [apply pr_ret|]. cbn [terms map].
          eapply (pr_bind E owner _ _ W _ _ (truthy E l)); [now apply pr_truth|]. cbv beta.
          destruct (truthy E l); [apply pr_ret|].
          apply (pr_or _ _ W nsc (x :: rs) (y :: vs)). constructor; assumption.
        + intros n. destruct rs as [|r0 rs]; [apply keeps_ids_closed|]. cbn [terms map].
          apply keeps_ids_closed; [apply pa_truth; [apply keeps_ids_closed|apply K]|].
          intros []; [apply keeps_ids_closed|].
          apply (pa_or_loop _ keeps_ids_closed _ _ _ (K n) nsc (r0 :: rs)).
      - cbn [over aggs agg_call labelled] in *. destruct LB as [LB1 LB2]. apply labelled_pairs in LB2.
        apply obind_some in H0 as (l & Hl & H0). apply obind_some in H0 as (vs & Hvs & H0).
        pose proof ND as ND'. rewrite nodes_app in ND'. apply nodup_app in ND' as (N1 & N2 & _).
        apply registered_app in RG as [R1 R2].
        apply ty_expr. cbn [expr_step]. unfold add_reduce.
        eapply (ty_bind _ _ _ _ _ _ l); [exact ND|auto|].
        eapply ty_add; [eapply over_operands; eauto|exact N2| |exact H0]. eapply over_plain; eauto.
      - cbn [over aggs agg_call labelled] in *. destruct LB as [LB1 LB2]. apply labelled_pairs in LB2.
        apply obind_some in H0 as (l & Hl & H0). apply obind_some in H0 as (vs & Hvs & H0).
        pose proof ND as ND'. rewrite nodes_app in ND'. apply nodup_app in ND' as (N1 & N2 & _).
        apply registered_app in RG as [R1 R2].
        apply ty_expr. cbn [expr_step]. unfold mul_reduce.
        eapply (ty_bind _ _ _ _ _ _ l); [exact ND|auto|].
        eapply ty_mul; [eapply over_operands; eauto|exact N2| |exact H0]. eapply over_plain; eauto.
      - cbn [over aggs agg_call labelled] in *. apply omap_some in H0 as (v & Hv & <-).
        apply ty_expr. cbn [expr_step]. unfold not_reduce. rewrite <- (app_nil_r (aggs e)) in ND |- *.
        eapply (ty_bind _ _ _ _ _ _ v); [exact ND|rewrite app_nil_r in ND; auto|].
        apply ty_pure.
        + eapply (pr_bind E owner _ _ W _ _ (truthy E v)); [apply pr_truth; eapply over_plain; eauto|apply pr_ret].
        + intros n. apply keeps_ids_closed; [apply pa_truth; [apply keeps_ids_closed|apply K]|].
          intros b. apply keeps_ids_closed.
      - cbn [over aggs agg_call labelled] in *. destruct LB as [LB1 LB2].
        apply obind_some in H0 as (l & Hl & H0). apply omap_some in H0 as (r & Hr & <-).
        pose proof ND as ND'. rewrite nodes_app in ND'. apply nodup_app in ND' as (N1 & N2 & _).
        apply registered_app in RG as [R1 R2].
        apply ty_expr. cbn [expr_step].
        eapply (ty_bind _ _ _ _ _ _ l); [exact ND|auto|].
        rewrite <- (app_nil_r (aggs e2)) in N2 |- *.
        eapply (ty_bind _ _ _ _ _ _ r); [exact N2|rewrite app_nil_r in N2; auto|].
        apply ty_pure; [apply pr_cmpf; eapply over_plain; eauto|].
        intros n. now apply pa_cmpf; [apply keeps_ids_closed|].
      - cbn [over aggs agg_call labelled] in *. destruct LB as [LB1 LB2].
        apply obind_some in H0 as (l & Hl & H0).
        apply ty_expr. cbn [expr_step]. rewrite <- (app_nil_r (aggs e)) in ND |- *.
        eapply (ty_bind _ _ _ _ _ _ l); [exact ND|rewrite app_nil_r in ND; auto|].
        rewrite last_last in H0. cbn [den] in H0. apply obind_some in H0 as (l' & Hc & H0).
        apply check_some in Hc as [-> PL]. apply obind_some in H0 as (ks & Hks & H0).
        apply ty_pure.
        + eapply pr_terms; [|exact Hks|exact PL|exact H0].
          clear - SC LB2 FOK. induction ts as [|t ts IH]; constructor.
          * destruct t as [e|s0 e0|f]; simpl in *.
            -- intros v Hv. eapply pure_eval; eauto. apply LB2.
            -- destruct LB2 as (L1 & L2 & _). split.
               ++ destruct s0; simpl in *; [|exact I]. intros; eapply pure_eval; eauto.
               ++ destruct e0; simpl in *; [|exact I]. intros; eapply pure_eval; eauto.
            -- exact I.
          * apply IH. destruct t; apply LB2.
        + intros n. now apply pa_member_terms; [apply keeps_ids_closed|].
    Qed.

    (** Without aggregates it is the value for the last row. *)
    Lemma over_pure : forall e rows, aggs e = [] -> over E funs fr rows e = den E funs (last rows [] :: fr) e.
    Proof.
      intros e. induction e using expr_ind'; intros rows HA;
        match goal with |- over _ _ _ _ ?e = _ => destruct (agg_call e) as [x|] eqn:EA end;
        try (cbn [aggs] in HA; rewrite EA in HA; discriminate);
        try (cbn [over]; rewrite EA; reflexivity).
      - destruct (sym_shape node neg path called) as [(f & -> & -> & ->)|NC]; [|now apply over_other].
        rewrite over_call by exact EA. rewrite aggs_call in HA by exact EA. cbn [den].
        destruct (funs f) as [F|]; cbn [obind]; [|reflexivity].
        f_equal. f_equal. apply map_ext_in. intros [name a] HI. rewrite Forall_forall in H.
        specialize (H _ HI). destruct a as [e|q|e|]; try reflexivity. cbn [arg_over]. cbn in H.
        rewrite H; [reflexivity|]. destruct (aggs e) as [|z zs] eqn:EE; [reflexivity|exfalso].
        assert (HZ : In z (args_aggs params)).
        { apply in_flat_map. exists (name, AArray e). split; [exact HI|]. cbn [snd]. rewrite EE. now left. }
        rewrite HA in HZ. exact HZ.
      - rewrite aggs_comma in HA. cbn [over agg_call den] in *. apply app_eq_nil in HA as [H1 H2]. rewrite (IHe rows H1).
        destruct (den E funs (last rows [] :: fr) e) as [l|]; cbn [obind]; [|reflexivity].
        replace (map (fun r => match r with Some e => option_map Some (over E funs fr rows e) | None => Some None end) rs)
          with (map (fun r => match r with Some e => option_map Some (den E funs (last rows [] :: fr) e) | None => Some None end) rs).
        + rewrite H2, orb_true_r. reflexivity.
        + clear - H H2. induction H as [|[x|] rs HX _ IH]; [reflexivity| |];
            unfold list_aggs in H2; cbn [flat_map map] in *.
          * apply app_eq_nil in H2 as [H2 H3]. simpl in HX. rewrite (HX rows H2). f_equal. auto.
          * f_equal. auto.
      - cbn [over aggs agg_call] in *. rewrite (IHe rows HA). cbn [den].
        destruct (den E funs (last rows [] :: fr) e) as [l|] eqn:EL; cbn [obind]; [|reflexivity].
        assert (PL : plain l = true) by (eapply den_plain; eauto). unfold check. now rewrite PL.
      - cbn [over aggs agg_call] in *. rewrite (IHe rows HA). cbn [den].
        destruct (den E funs (last rows [] :: fr) e) as [l|] eqn:EL; cbn [obind]; [|reflexivity].
        assert (PL : plain l = true) by (eapply den_plain; eauto). unfold check. now rewrite PL.
      - cbn [over aggs agg_call den] in *. apply app_eq_nil in HA as [H1 H2]. rewrite (IHe rows H1).
        destruct (den E funs (last rows [] :: fr) e) as [l|]; cbn [obind]; [|reflexivity].
        replace (map (fun oe => option_map (pair (fst oe)) (over E funs fr rows (snd oe))) rs)
          with (map (fun oe => option_map (pair (fst oe)) (den E funs (last rows [] :: fr) (snd oe))) rs); [reflexivity|].
        clear - H H2. induction H as [|[op x] rs HX _ IH]; [reflexivity|]. cbn [flat_map snd map fst] in *.
        apply app_eq_nil in H2 as [H2 H3]. rewrite (HX rows H2). f_equal. auto.
      - cbn [over aggs agg_call den] in *. apply app_eq_nil in HA as [H1 H2]. rewrite (IHe rows H1).
        destruct (den E funs (last rows [] :: fr) e) as [l|]; cbn [obind]; [|reflexivity].
        replace (map (fun oe => option_map (pair (fst oe)) (over E funs fr rows (snd oe))) rs)
          with (map (fun oe => option_map (pair (fst oe)) (den E funs (last rows [] :: fr) (snd oe))) rs); [reflexivity|].
        clear - H H2. induction H as [|[op x] rs HX _ IH]; [reflexivity|]. cbn [flat_map snd map fst] in *.
        apply app_eq_nil in H2 as [H2 H3]. rewrite (HX rows H2). f_equal. auto.
      - cbn [over aggs agg_call den] in *. now rewrite (IHe rows HA).
      - cbn [over aggs agg_call den] in *. apply app_eq_nil in HA as [H1 H2].
        now rewrite (IHe1 rows H1), (IHe2 rows H2).
      - cbn [over aggs agg_call] in *. rewrite (IHe rows HA). cbn [den].
        destruct (den E funs (last rows [] :: fr) e) as [l|] eqn:EL; cbn [obind]; [|reflexivity].
        assert (PL : plain l = true) by (eapply den_plain; eauto). unfold check. now rewrite PL.
    Qed.

    (** With aggregates it has no value of its own for a row. *)
    Lemma over_none : forall e frs, registered (aggs e) -> aggs e <> [] -> den E funs frs e = None.
    Proof.
      intros e. induction e using expr_ind'; intros frs RG HA;
        match goal with |- den _ _ _ ?e = _ => destruct (agg_call e) as [[[nd a] y]|] eqn:EA end;
        try discriminate;
        try (cbn [aggs] in HA; rewrite EA in HA; exfalso; apply HA; reflexivity).
      - destruct (agg_call_inv _ _ _ _ EA) as (ps & EQ & _). injection EQ as -> -> -> -> ->.
        cbn [aggs] in RG. rewrite EA in RG. pose proof (RG _ _ _ (or_introl eq_refl)) as RA.
        cbn [den]. destruct (funs (agg_name a)) as [F|] eqn:EF; [|reflexivity].
        destruct (FOK _ _ EF) as (h & Hh & HO). rewrite RA in Hh. injection Hh as <-.
        destruct a; contradiction.
      - destruct (sym_shape node neg path called) as [(f & -> & -> & ->)|NC];
          [|rewrite aggs_other in HA by assumption; congruence].
        rewrite aggs_call in RG, HA by exact EA. cbn [den].
        destruct (funs f) as [F|]; cbn [obind]; [|reflexivity].
        match goal with |- obind (sequence (map ?h params)) _ = _ =>
          assert (G : sequence (map h params) = None) end; [|now rewrite G].
        clear EA. induction H as [|[name a] params HX _ IH]; [exfalso; now apply HA|].
        unfold args_aggs in *. cbn [flat_map snd map] in *.
        destruct a as [e|q|e|]; cbn [app] in *.
        + cbn [sequence]. destruct (den E funs frs e); cbn [option_map]; [|reflexivity]. now rewrite IH.
        + reflexivity.
        + apply registered_app in RG as [R1 R2]. simpl in HX.
          destruct (aggs e) as [|z zs] eqn:EE.
          * cbn [sequence]. destruct (den E funs frs e); cbn [option_map]; [|reflexivity]. now rewrite IH.
          * rewrite HX by (rewrite ?EE; auto; discriminate). reflexivity.
        + cbn [sequence]. now rewrite IH.
      - rewrite aggs_comma in *. cbn [den agg_call] in *. apply registered_app in RG as [R1 R2].
        destruct (aggs e) as [|z zs] eqn:EE.
        + destruct (den E funs frs e); cbn [obind]; [|reflexivity].
          assert (G : sequence (map (fun r => match r with Some e => option_map Some (den E funs frs e) | None => Some None end) rs) = None).
          { cbn [app] in HA. clear - H R2 HA. unfold list_aggs in *.
            induction H as [|[x|] rs HX _ IH]; [exfalso; now apply HA| |]; cbn [flat_map map] in *.
            - apply registered_app in R2 as [R2 R3]. simpl in HX.
              destruct (aggs x) as [|w ws] eqn:EX.
              + destruct (den E funs frs x); [|reflexivity]. cbn [option_map sequence]. now rewrite IH.
              + rewrite HX by (rewrite ?EX; auto; discriminate). reflexivity.
            - cbn [app] in *. cbn [sequence]. now rewrite IH. }
          now rewrite G.
        + rewrite IHe by (auto; discriminate). reflexivity.
      - cbn [den aggs agg_call] in *. now rewrite IHe.
      - cbn [den aggs agg_call] in *. now rewrite IHe.
      - cbn [den aggs agg_call] in *. apply registered_app in RG as [R1 R2].
        destruct (aggs e) as [|z zs] eqn:EE.
        + destruct (den E funs frs e); cbn [obind]; [|reflexivity].
          assert (G : sequence (map (fun oe => option_map (pair (fst oe)) (den E funs frs (snd oe))) rs) = None).
          { cbn [app] in HA. clear - H R2 HA. induction H as [|[op x] rs HX _ IH]; [exfalso; now apply HA|].
            cbn [flat_map snd map fst] in *. apply registered_app in R2 as [R2 R3].
            destruct (aggs x) as [|w ws] eqn:EX.
            - destruct (den E funs frs x); [|reflexivity]. cbn [option_map sequence]. now rewrite IH.
            - rewrite HX by (rewrite ?EX; auto; discriminate). reflexivity. }
          now rewrite G.
        + rewrite IHe by (auto; discriminate). reflexivity.
      - cbn [den aggs agg_call] in *. apply registered_app in RG as [R1 R2].
        destruct (aggs e) as [|z zs] eqn:EE.
        + destruct (den E funs frs e); cbn [obind]; [|reflexivity].
          assert (G : sequence (map (fun oe => option_map (pair (fst oe)) (den E funs frs (snd oe))) rs) = None).
          { cbn [app] in HA. clear - H R2 HA. induction H as [|[op x] rs HX _ IH]; [exfalso; now apply HA|].
            cbn [flat_map snd map fst] in *. apply registered_app in R2 as [R2 R3].
            destruct (aggs x) as [|w ws] eqn:EX.
            - destruct (den E funs frs x); [|reflexivity]. cbn [option_map sequence]. now rewrite IH.
            - rewrite HX by (rewrite ?EX; auto; discriminate). reflexivity. }
          now rewrite G.
        + rewrite IHe by (auto; discriminate). reflexivity.
      - cbn [den aggs agg_call] in *. now rewrite IHe.
      - cbn [den aggs agg_call] in *. apply registered_app in RG as [R1 R2].
        destruct (aggs e1) as [|z zs] eqn:EE.
        + destruct (den E funs frs e1); cbn [obind]; [|reflexivity]. now rewrite IHe2.
        + rewrite IHe1 by (auto; discriminate). reflexivity.
      - cbn [den aggs agg_call] in *. now rewrite IHe.
    Qed.

    (** Every aggregate has an item for every row. *)
    Lemma over_items : forall e rows v node a x, over E funs fr rows e = Some v -> In (node, a, x) (aggs e) ->
      exists l, sequence (map (item E funs fr x) rows) = Some l.
    Proof.
      intros e. induction e using expr_ind'; intros rows v0 node0 a0 x0 H0 HI.
      all: match goal with H : over _ _ _ _ ?e = Some _ |- _ => destruct (agg_call e) as [[[nd a] y]|] eqn:EA end.
      all: try (cbn [over aggs] in *; rewrite EA in *; apply omap_some in H0 as (its & Hi & <-);
                destruct HI as [HI|[]]; injection HI as -> -> ->; eauto; fail).
      all: try (cbn [aggs] in HI; rewrite EA in HI; contradiction).
      - destruct (sym_shape node neg path called) as [(f & -> & -> & ->)|NC];
          [|rewrite aggs_other in HI by assumption; contradiction].
        rewrite over_call in H0 by exact EA. rewrite aggs_call in HI by exact EA.
        apply obind_some in H0 as (F & HF & H0). apply obind_some in H0 as (argv & Hargv & H0).
        clear H0 EA. revert argv Hargv. induction H as [|[name a] params HX _ IH]; intros argv Hargv; [contradiction|].
        unfold args_aggs in *. cbn [map flat_map snd] in *. apply sequence_cons in Hargv as (y & r & Hy & Hr & ->).
        destruct a as [e|q|e|]; cbn [app] in HI; try (eapply IH; eassumption).
        cbn [arg_over] in Hy. apply omap_some in Hy as (w & Hw & <-). simpl in HX.
        apply in_app_iff in HI as [HI|HI]; [eauto|eapply IH; eassumption].
      - rewrite aggs_comma in HI. cbn [over agg_call] in *. apply obind_some in H0 as (l & Hl & H0).
        apply obind_some in H0 as (vs & Hvs & H0). apply in_app_iff in HI as [HI|HI]; [eauto|].
        clear - H Hvs HI. unfold list_aggs in HI. revert vs Hvs.
        induction H as [|[z|] rs HX _ IH]; intros vs Hvs; [contradiction| |];
          cbn [map flat_map] in *; apply sequence_cons in Hvs as (y & r & Hy & Hr & ->).
        + simpl in HX. apply omap_some in Hy as (w & Hw & <-). apply in_app_iff in HI as [HI|HI]; eauto.
        + eauto.
      - cbn [over aggs agg_call] in *. apply obind_some in H0 as (l & Hl & H0). eauto.
      - cbn [over aggs agg_call] in *. apply obind_some in H0 as (l & Hl & H0). eauto.
      - cbn [over aggs agg_call] in *. apply obind_some in H0 as (l & Hl & H0).
        apply obind_some in H0 as (vs & Hvs & H0). apply in_app_iff in HI as [HI|HI]; [eauto|].
        clear - H Hvs HI. revert vs Hvs. induction H as [|[op z] rs HX _ IH]; intros vs Hvs; [contradiction|].
        cbn [map flat_map snd fst] in *. apply sequence_cons in Hvs as (y & r & Hy & Hr & ->).
        apply omap_some in Hy as (w & Hw & <-). apply in_app_iff in HI as [HI|HI]; eauto.
      - cbn [over aggs agg_call] in *. apply obind_some in H0 as (l & Hl & H0).
        apply obind_some in H0 as (vs & Hvs & H0). apply in_app_iff in HI as [HI|HI]; [eauto|].
        clear - H Hvs HI. revert vs Hvs. induction H as [|[op z] rs HX _ IH]; intros vs Hvs; [contradiction|].
        cbn [map flat_map snd fst] in *. apply sequence_cons in Hvs as (y & r & Hy & Hr & ->).
        apply omap_some in Hy as (w & Hw & <-). apply in_app_iff in HI as [HI|HI]; eauto.
      - cbn [over aggs agg_call] in *. apply omap_some in H0 as (v & Hv & <-). eauto.
      - cbn [over aggs agg_call] in *. apply obind_some in H0 as (l & Hl & H0).
        apply omap_some in H0 as (r & Hr & <-). apply in_app_iff in HI as [HI|HI]; eauto.
      - cbn [over aggs agg_call] in *. apply obind_some in H0 as (l & Hl & H0). eauto.
    Qed.

    (** An aggregated column of a row. *)
    Lemma ty_column : forall e v, labelled owner e -> NoDup (nodes (aggs e)) -> registered (aggs e) ->
      over E funs fr (prev ++ [row]) e = Some v ->
      tallies (fun n => run_getter (R n) (GCol (CExpr e) nsc)) (aggs e) (expand v).
    Proof.
      intros e v LB ND RG HV. cbn [run_getter col_reduce]. rewrite <- (app_nil_r (aggs e)).
      eapply (ty_bind _ _ _ _ _ _ v); [now rewrite app_nil_r|now apply over_eval|].
      pose proof (over_plain _ _ _ HV) as PV. apply ty_pure.
      - eapply (pr_bind E owner _ _ W (fun _ => obj_of v) _ None); [now apply pr_obj_of|].
        destruct v; try discriminate; apply pr_ret.
      - intros n. apply keeps_ids_closed; [intros s H; exact H|]. intros o.
        pose proof (evaluation_keeps_ids E n) as K.
        destruct v; try discriminate;
          try (destruct (is_query _ o); [apply (pa_materialize _ keeps_ids_closed _ _ K)|]);
          intros s0 H0; exact H0.
    Qed.
  End Over.

  (** ** The columns of a query with aggregates *)

  Lemma keys_dict_set : forall A B k (v : A) (w : B) d d', keys d = keys d' ->
    keys (dict_set k v d) = keys (dict_set k w d').
  Proof.
    intros A B k v w d d' H. unfold dict_set, keys in *. rewrite !map_app. f_equal.
    revert d' H. induction d as [|[k1 v1] d IH]; intros [|[k2 v2] d'] H; try discriminate; [reflexivity|].
    cbn in H. injection H as -> H. cbn. destruct (String.eqb k k2); cbn; [auto|]. f_equal. auto.
  Qed.

  Lemma same_by_assoc : forall A (r d : list (string * A)), keys r = keys d -> NoDup (keys d) ->
    (forall k v, In (k, v) r -> assoc k d = Some v) -> r = d.
  Proof.
    intros A r. unfold keys. induction r as [|[k v] r IH]; intros [|[k' w] d] H ND HA; try discriminate; [reflexivity|].
    cbn in H. injection H as -> H. cbn in ND. inversion ND as [|? ? NI ND']; subst.
    pose proof (HA k' v (or_introl eq_refl)) as HV. cbn in HV. rewrite String.eqb_refl in HV.
    injection HV as ->. f_equal. apply IH; auto. intros k0 v0 HI.
    specialize (HA k0 v0 (or_intror HI)). cbn in HA. destruct (String.eqb k0 k') eqn:EK; [|exact HA].
    apply String.eqb_eq in EK as ->. exfalso. apply NI. rewrite <- H.
    change k' with (fst (k', v0)). now apply in_map.
  Qed.

  Lemma assoc_some_keys : forall A B k (d : list (string * A)) (d' : list (string * B)) v,
    keys d = keys d' -> assoc k d = Some v -> exists w, assoc k d' = Some w.
  Proof.
    intros A B k d d' v H HA. destruct (assoc k d') as [w|] eqn:E1; [eauto|].
    apply assoc_none_keys in E1. rewrite <- H in E1. apply assoc_none_keys in E1. congruence.
  Qed.

  Lemma rebuild_same : forall d d' cs, keys d = keys d' -> NoDup (keys d') ->
    rebuild_from d cs [] = d -> rebuild_from d' cs [] = d'.
  Proof.
    intros d d' cs HK ND HR.
    assert (G : forall cs a b, keys a = keys b -> (forall k v, In (k, v) b -> assoc k d' = Some v) ->
      keys (rebuild_from d cs a) = keys (rebuild_from d' cs b) /\
      (forall k v, In (k, v) (rebuild_from d' cs b) -> assoc k d' = Some v)).
    { clear HR cs. induction cs as [|c cs IH]; intros a b HAB HB; [auto|].
      unfold rebuild_from. cbn [fold_left].
      destruct (assoc c d) as [v|] eqn:E1.
      - destruct (assoc_some_keys _ _ c d d' v HK E1) as (w & E2). rewrite E2.
        apply IH; [now apply keys_dict_set|]. intros k x HI. unfold dict_set in HI.
        apply in_app_iff in HI as [HI|[HI|[]]].
        + apply HB. clear - HI. induction b as [|[k1 v1] b IHb]; [contradiction|].
          cbn in HI. destruct (String.eqb c k1); [right; auto|]. destruct HI as [HI|HI]; [now left|right; auto].
        + injection HI as <- <-. exact E2.
      - destruct (assoc c d') as [w|] eqn:E2.
        + destruct (assoc_some_keys _ _ c d' d w (eq_sym HK) E2). congruence.
        + now apply IH. }
    destruct (G cs [] [] eq_refl) as [G1 G2]; [contradiction|]. rewrite HR in G1.
    apply same_by_assoc; [congruence|exact ND|exact G2].
  Qed.

  Lemma nodup_dict_set : forall A k (v : A) d, NoDup (keys d) -> NoDup (keys (dict_set k v d)).
  Proof.
    intros A k v d H. unfold dict_set, keys in *. rewrite map_app.
    assert (NI : ~ In k (map fst (remove_key k d))).
    { clear. induction d as [|[k1 v1] d IH]; [auto|]. cbn. destruct (String.eqb k k1) eqn:EK; [exact IH|].
      cbn. intros [->|HI]; [now rewrite String.eqb_refl in EK|auto]. }
    assert (NR : NoDup (map fst (remove_key k d))).
    { clear NI. induction d as [|[k1 v1] d IH]; [constructor|]. cbn in H. inversion H as [|? ? N1 N2]; subst.
      cbn. destruct (String.eqb k k1); [auto|]. cbn. constructor; [|auto]. intros HI. apply N1.
      clear - HI. induction d as [|[k2 v2] d IH]; [contradiction|]. cbn in HI.
      destruct (String.eqb k k2); cbn in *; tauto. }
    cbn. clear - NI NR. induction (map fst (remove_key k d)) as [|x l IH]; cbn.
    - constructor; [auto|constructor].
    - inversion NR; subst. constructor.
      + rewrite in_app_iff. intros [HI|[<-|[]]]; [contradiction|]. apply NI. now left.
      + apply IH; [intros HI; apply NI; now right|assumption].
  Qed.

  Section Cols.
    Variable cols : list (string * colbody).
    Hypothesis NOSTAR : no_star cols.
    Hypothesis NAMES : NoDup (keys cols).

    Lemma in_cols : forall k b, In (k, b) cols -> assoc k cols = Some b.
    Proof. intros k b H. now apply assoc_in. Qed.

    Lemma columns_of_assoc_gen : forall cv row l acc k, no_star l -> NoDup (keys l) ->
      assoc k (columns_of cv row l acc) =
      match assoc k l with Some b => Some (cv b) | None => assoc k acc end.
    Proof.
      intros cv row l. unfold keys. induction l as [|[name b] l IH]; intros acc k NS ND; [reflexivity|].
      cbn [columns_of]. inversion NS as [|? ? NS1 NS2]; subst. cbn [fst] in NS1. rewrite NS1.
      cbn in ND. inversion ND as [|? ? NI ND']; subst. rewrite IH by assumption. cbn [assoc].
      rewrite PureEval.assoc_dict_set. destruct (String.eqb k name) eqn:EK; [|reflexivity].
      apply String.eqb_eq in EK as ->. destruct (assoc name l) as [b'|] eqn:EL; [|reflexivity].
      exfalso. apply NI. clear - EL. induction l as [|[k1 b1] l IH]; [discriminate|]. cbn in *.
      destruct (String.eqb name k1) eqn:EK; [left; symmetry; now apply String.eqb_eq|right; auto].
    Qed.

    Lemma columns_of_keys : forall cv cv' row row' l acc acc', no_star l -> keys acc = keys acc' ->
      keys (columns_of cv row l acc) = keys (columns_of cv' row' l acc').
    Proof.
      intros cv cv' row row' l. induction l as [|[name b] l IH]; intros acc acc' NS H; [exact H|].
      cbn [columns_of]. inversion NS as [|? ? NS1 NS2]; subst. cbn [fst] in NS1. rewrite NS1.
      apply IH; [assumption|]. now apply keys_dict_set.
    Qed.

    Lemma columns_of_nodup : forall cv row l acc, no_star l -> NoDup (keys acc) ->
      NoDup (keys (columns_of cv row l acc)).
    Proof.
      intros cv row l. induction l as [|[name b] l IH]; intros acc NS H; [exact H|].
      cbn [columns_of]. inversion NS as [|? ? NS1 NS2]; subst. cbn [fst] in NS1. rewrite NS1.
      apply IH; [assumption|]. now apply nodup_dict_set.
    Qed.

    Lemma cols_lrow_getters : forall nsc l r k, NoDup (keys l) ->
      assoc k (snd (cols_lrow nsc l r)) =
      match assoc k l with Some b => Some (GCol b nsc) | None => assoc k (snd r) end.
    Proof.
      intros nsc l. unfold keys. induction l as [|[name b] l IH]; intros r k ND; [reflexivity|].
      unfold cols_lrow in *. cbn [fold_left fst snd]. cbn in ND. inversion ND as [|? ? NI ND']; subst.
      rewrite IH by assumption. cbn [assoc add_column snd].
      rewrite PureEval.assoc_dict_set. destruct (String.eqb k name) eqn:EK; [|reflexivity].
      apply String.eqb_eq in EK as ->. destruct (assoc name l) as [b'|] eqn:EL; [|reflexivity].
      exfalso. apply NI. clear - EL. induction l as [|[k1 b1] l IH]; [discriminate|]. cbn in *.
      destruct (String.eqb name k1) eqn:EK; [left; symmetry; now apply String.eqb_eq|right; auto].
    Qed.

    Lemma cols_lrow_names : forall nsc l r, fst (cols_lrow nsc l r) = fst r ++ keys l.
    Proof.
      intros nsc l. unfold keys, cols_lrow. induction l as [|[name b] l IH]; intros r; cbn.
      - now rewrite app_nil_r.
      - rewrite IH. cbn. now rewrite <- app_assoc.
    Qed.
    Lemma star_lrow_names : forall l r, fst (star_lrow l r) = fst r ++ keys l.
    Proof.
      intros l. unfold keys, star_lrow. induction l as [|[name b] l IH]; intros r; cbn.
      - now rewrite app_nil_r.
      - rewrite IH. cbn. now rewrite <- app_assoc.
    Qed.

    (** The aggregate with this call node. *)
    Fixpoint find_agg (node : nat) (l : list (string * colbody)) : option (string * agg * expr) :=
      match l with
      | [] => None
      | (k, b) :: r =>
          match find_node node (col_aggs b) with
          | Some (a, e) => Some (k, a, e)
          | None => find_agg node r
          end
      end.

    Definition agg_nodes (l : list (string * colbody)) : list nat :=
      flat_map (fun nc => nodes (col_aggs (snd nc))) l.

    Lemma find_agg_in : forall node l k a e, find_agg node l = Some (k, a, e) ->
      exists b, In (k, b) l /\ In (node, a, e) (col_aggs b).
    Proof.
      intros node l k a e. induction l as [|[k1 b1] l IH]; cbn; [discriminate|].
      destruct (find_node node (col_aggs b1)) as [[a1 e1]|] eqn:EA.
      - intros [= <- <- <-]. exists b1. split; [now left|now apply find_node_in].
      - intros H. destruct (IH H) as (b & H1 & H2). eauto.
    Qed.

    Lemma in_find_agg : forall l k b node a e, NoDup (agg_nodes l) -> In (k, b) l ->
      In (node, a, e) (col_aggs b) -> find_agg node l = Some (k, a, e).
    Proof.
      intros l k b node a e. induction l as [|[k1 b1] l IH]; intros ND HI HA; [contradiction|].
      cbn in ND |- *. apply nodup_app in ND as (N1 & N2 & N3). destruct HI as [HI|HI].
      - injection HI as -> ->. now rewrite (in_find_node _ _ _ _ N1 HA).
      - rewrite (proj2 (find_node_none node (col_aggs b1))); [auto|]. intros HN. apply (N3 node HN).
        unfold agg_nodes. apply in_flat_map. exists (k, b). split; [exact HI|]. cbn [snd].
        unfold nodes. change node with (fst (fst (node, a, e))). now apply (in_map (fun x => fst (fst x))).
    Qed.

    Lemma nodes_col : forall l k b, NoDup (agg_nodes l) -> In (k, b) l -> NoDup (nodes (col_aggs b)).
    Proof.
      intros l k b. induction l as [|[k1 b1] l IH]; intros ND HI; [contradiction|].
      cbn in ND. apply nodup_app in ND as (N1 & N2 & _). destruct HI as [HI|HI]; [|auto].
      injection HI as -> ->. exact N1.
    Qed.

    Hypothesis NODES : NoDup (agg_nodes cols).
    Hypothesis LABEL : label_cols owner cols.
    Hypothesis REG : aggs_registered cols.

    Lemma agg_col_unique : forall node k a e b',
      find_agg node cols = Some (k, a, e) -> assoc k cols = Some b' -> In (node, a, e) (col_aggs b').
    Proof.
      intros node k a e b' H1 H2. destruct (find_agg_in _ _ _ _ _ H1) as (b & HI & HA).
      apply in_cols in HI. congruence.
    Qed.

    Lemma assoc_in_cols : forall k b, assoc k cols = Some b -> In (k, b) cols.
    Proof.
      intros k b. clear. induction cols as [|[k1 b1] l IH]; cbn; [discriminate|].
      destruct (String.eqb k k1) eqn:EK; [|auto]. apply String.eqb_eq in EK as ->. intros [= ->]. now left.
    Qed.

    Variable fr : list dict.

    Notation items_of := (items_for fr).

    (** What the context of a group remembers: that of the aggregates of this
        query, and what other queries ([mem0]) left there. *)
    Definition mem_of (mem0 : nat -> option val) (rows : list dict) (node : nat) : option val :=
      match find_agg node cols with
      | Some (_, a, e) => memory a (items_of e rows)
      | None => mem0 node
      end.

    (** Every column has a value for these rows. *)
    Definition defined (rows : list dict) : Prop :=
      Forall (fun nc => exists v, group_value E funs fr rows (snd nc) = Some v) cols.

    Lemma defined_value : forall rows k b, defined rows -> In (k, b) cols ->
      exists e v, b = CExpr e /\ over E funs fr rows e = Some v.
    Proof.
      intros rows k b D HI. unfold defined in D. rewrite Forall_forall in D.
      destruct (D _ HI) as (v & HV). cbn [snd] in HV. destruct b as [|q|e]; try discriminate.
      cbn [group_value] in HV. apply omap_some in HV as (x & Hx & _). eauto.
    Qed.

    (** The result columns of a group. *)
    Definition gv (rows : list dict) (b : colbody) : val :=
      match group_value E funs fr rows b with Some v => v | None => VNull end.

    Definition once (k : string) (cs : list string) : Prop := (count_occ string_dec cs k <= 1)%nat.

    Section Row.
      Variables (star : bool) (row : dict) (prev : list dict) (nsc : scope) (W : world) (n : nat)
        (mem0 : nat -> option val).
      Let acc : dict := if star then fields row else [].
      Let r : lrow := cols_lrow nsc cols (if star then star_lrow row ([], []) else ([], [])).
      Let d : dict := columns_of (col_value E funs fr row) row cols acc.
      Let d' : dict := columns_of (gv (prev ++ [row])) row cols acc.
      Hypothesis SC : scope_ok W nsc (row :: fr).
      Hypothesis RO : row_ok row.
      Hypothesis WN : W n = Some (WRow (fst r) (snd r) d).
      Hypothesis LR : PureSelect.lrow_ok E owner W r d.
      Hypothesis DEF : defined (prev ++ [row]).

      Definition mem_at (cs : list string) (node : nat) : option val :=
        match find_agg node cols with
        | Some (k, a, e) => memory a (items_of e (if mem_str k cs then prev else prev ++ [row]))
        | None => mem0 node
        end.

      Lemma mem_str_in : forall k cs, mem_str k cs = true <-> In k cs.
      Proof.
        intros k cs. unfold mem_str. rewrite existsb_exists. split.
        - intros (x & HI & HE). apply String.eqb_eq in HE as ->. exact HI.
        - intros HI. exists k. split; [exact HI|apply String.eqb_refl].
      Qed.

      Lemma plain_column : forall c x, In c (fst r) ->
        (forall b, assoc c cols = Some b -> col_aggs b = []) ->
        assoc c d = Some x -> plain x = true /\ assoc c d' = Some x.
      Proof.
        intros c x HI PL HX. unfold d, d' in *. rewrite columns_of_assoc_gen in HX |- * by assumption.
        destruct (assoc c cols) as [b|] eqn:EB.
        - specialize (PL b eq_refl). destruct (defined_value _ _ _ DEF (assoc_in_cols _ _ EB)) as (e & v & -> & DV).
          unfold gv, group_value. rewrite DV. cbn [col_aggs] in PL.
          rewrite (over_pure fr _ _ PL), last_last in DV.
          unfold col_val in HX. cbn [column] in HX. rewrite DV in HX. injection HX as <-. cbn.
          split; [|reflexivity]. apply plain_expand. eapply den_plain; eauto.
        - split; [|exact HX]. unfold acc in HX. destruct star; [|discriminate].
          eapply plain_assoc; [|exact HX]. apply plain_fields. apply RO.
      Qed.

      Lemma agg_columns_ok : forall cs, (forall c, In c cs -> In c (fst r)) ->
        (forall k b, assoc k cols = Some b -> col_aggs b <> [] -> once k cs) ->
        forall d0 W1 s, wle W W1 -> stok W1 s -> ids_ok s ->
        ctx_holds s (agg_ctx nsc s) (mem_at cs) ->
        exists W2 s2, wle W1 W2 /\ stok W2 s2 /\ ids_ok s2 /\ busy (agg_ctx nsc s) s s2 /\
          ctx_holds s2 (agg_ctx nsc s) (mem_at []) /\
          evaluates (fun m => materialize_columns (R m) n cs d0) s s2 (rebuild_from d' cs d0).
      Proof.
        induction cs as [|c cs IH]; intros IN ONCE d0 W1 s HW HS ID HC.
        - exists W1, s. split; [apply wle_refl|]. split; [exact HS|]. split; [exact ID|].
          split; [apply quiet_busy, quiet_refl|]. split; [exact HC|]. exists 0. reflexivity.
        - destruct (lo_cols _ _ _ _ _ LR c (IN c (or_introl eq_refl))) as (g & Hg).
          pose proof (lo_get _ _ _ _ _ LR c) as G. rewrite Hg in G. destruct G as (x & Hx & _ & HP).
          destruct (so_heap _ _ _ _ HS n _ (HW _ _ WN)) as (o & Ho & OO).
          destruct o; simpl in OO; try contradiction. destruct OO as (-> & -> & HCA).
          assert (STEP : exists W2 s2 y, wle W1 W2 /\ stok W2 s2 /\ ids_ok s2 /\ busy (agg_ctx nsc s) s s2 /\
            ctx_holds s2 (agg_ctx nsc s) (mem_at cs) /\ assoc c d' = Some y /\
            evaluates (fun m => match assoc c cache with
                  | Some v => mret v
                  | None =>
                      match assoc c (snd r) with
                      | Some g => run_getter (R m) g
                      | None => mpanic
                      end
                  end) s s2 y).
          { destruct (match assoc c cols with Some b => col_aggs b | None => [] end) as [|ag0 ags0] eqn:EA.
            2: {
              destruct (assoc c cols) as [b|] eqn:EB; [|discriminate].
              pose proof (assoc_in_cols _ _ EB) as BI.
              destruct (defined_value _ _ _ DEF BI) as (e & v & -> & DV). cbn [col_aggs] in EA.
              assert (NE : aggs e <> []) by congruence.
              pose proof (REG _ _ BI) as RG. cbn [col_aggs] in RG.
              assert (Hd : assoc c d = Some (VOpaque 0)).
              { unfold d. rewrite columns_of_assoc_gen by assumption. rewrite EB. unfold col_val. cbn [column].
                now rewrite (over_none _ _ RG NE). }
              assert (EC : assoc c cache = None).
              { destruct (assoc c cache) as [w|] eqn:EC; [|reflexivity]. exfalso.
                destruct (HCA _ _ EC) as [C1 C2]. rewrite Hd in C1. injection C1 as <-. discriminate. }
              assert (EG : g = GCol (CExpr e) nsc).
              { unfold r in Hg. rewrite cols_lrow_getters, EB in Hg by assumption. congruence. }
              subst g. rewrite EC, Hg.
              assert (LB : labelled owner e).
              { unfold label_cols, label_columns in LABEL. rewrite Forall_forall in LABEL. exact (LABEL _ BI). }
              pose proof (nodes_col _ _ _ NODES BI) as NC. cbn [col_aggs] in NC.
              destruct (ty_column fr row prev W nsc SC e v LB NC RG DV W1 s (mem_at (c :: cs)) HW HS ID HC) as
                (W2 & s2 & A1 & A2 & A3 & A4 & A5 & A6).
              + intros node a x0 HI. unfold mem_at. rewrite (in_find_agg _ _ _ _ _ _ NODES BI HI).
                cbn. now rewrite String.eqb_refl.
              + exists W2, s2, (expand v).
                split; [exact A1|]. split; [exact A2|]. split; [exact A3|]. split; [exact A4|].
                split; [|split; [|exact A6]].
                * eapply ctx_ext; [|exact A5]. intros nd. unfold told, mem_at.
                  destruct (find_node nd (aggs e)) as [[a x0]|] eqn:FN.
                  -- apply find_node_in in FN. rewrite (in_find_agg _ _ _ _ _ _ NODES BI FN).
                     assert (NM : mem_str c cs = false).
                     { destruct (mem_str c cs) eqn:EM; [|reflexivity]. apply mem_str_in in EM.
                       specialize (ONCE c _ EB NE). unfold once in ONCE. cbn in ONCE.
                       destruct (string_dec c c); [|congruence].
                       apply (count_occ_In string_dec) in EM. lia. }
                     now rewrite NM.
                  -- destruct (find_agg nd cols) as [[[k' a'] e']|] eqn:EF; [|reflexivity].
                     cbn. destruct (String.eqb k' c) eqn:EK; [|reflexivity].
                     apply String.eqb_eq in EK as ->. exfalso.
                     pose proof (agg_col_unique _ _ _ _ _ EF EB) as HU. cbn [col_aggs] in HU.
                     apply find_node_none in FN. apply FN. unfold nodes.
                     apply (in_map (fun x => fst (fst x))) in HU. exact HU.
                * unfold d'. rewrite columns_of_assoc_gen by assumption. rewrite EB. unfold gv, group_value.
                  now rewrite DV. }
            - destruct (plain_column c x (IN c (or_introl eq_refl))) as [PX DX]; [|exact Hx|].
              { intros b EB. now rewrite EB in EA. }
              assert (V : promises W (fun m => match assoc c cache with
                  | Some v => mret v
                  | None =>
                      match assoc c (snd r) with
                      | Some g => run_getter (R m) g
                      | None => mpanic
                      end
                  end) x).
              { destruct (assoc c cache) as [v|] eqn:EC.
                - rewrite (proj1 (HCA _ _ EC)) in Hx. injection Hx as <-. apply pr_ret.
                - rewrite Hg. exact (HP PX). }
              destruct (V W1 s HW HS) as (W2 & s2 & A1 & A2 & A3 & A4).
              exists W2, s2, x. split; [exact A1|]. split; [exact A2|].
              assert (I2 : ids_ok s2).
              { eapply evaluates_ids; [|exact A4|exact ID]. intros m.
                destruct (assoc c cache); [apply keeps_ids_closed|].
                destruct (assoc c (snd r)); [|apply keeps_ids_closed].
                apply (pa_run_getter _ keeps_ids_closed _ _ (evaluation_keeps_ids E m)). }
              split; [exact I2|]. split; [now apply quiet_busy|]. split; [|split; [exact DX|exact A4]].
              assert (HC2 : ctx_holds s2 (agg_ctx nsc s) (mem_at (c :: cs))).
              { eapply ctx_kept; [exact HC| |apply A3|exact I2]. now rewrite (q_ctxs _ _ A3). }
              eapply ctx_ext; [|exact HC2]. intros nd. unfold mem_at.
              destruct (find_agg nd cols) as [[[k' a'] e']|] eqn:EF; [|reflexivity].
              cbn. destruct (String.eqb k' c) eqn:EK; [|reflexivity].
              apply String.eqb_eq in EK as ->. exfalso.
              destruct (find_agg_in _ _ _ _ _ EF) as (b & BI & BA). apply in_cols in BI.
              rewrite BI in EA. rewrite EA in BA. contradiction. }
          destruct STEP as (W2 & s2 & y & A1 & A2 & A3 & A4 & A5 & A6 & A7).
          assert (SAME : agg_ctx nsc s2 = agg_ctx nsc s) by (apply find_ctx_cells, A4).
          destruct (IH (fun c' H => IN c' (or_intror H))) with (d0 := dict_set c y d0) (W1 := W2) (s := s2)
            as (W3 & s3 & B1 & B2 & B3 & B4 & B5 & B6).
          + intros k b H1 H2. specialize (ONCE k b H1 H2). unfold once in *. cbn in ONCE.
            destruct (string_dec c k); lia.
          + eapply wle_trans; eauto.
          + exact A2.
          + exact A3.
          + now rewrite SAME.
          + rewrite SAME in B4, B5. exists W3, s3. split; [eapply wle_trans; eauto|]. split; [exact B2|].
            split; [exact B3|]. split; [eapply busy_trans; eauto|]. split; [exact B5|].
            unfold rebuild_from. cbn [fold_left]. rewrite A6. fold (rebuild_from d' cs (dict_set c y d0)).
            eapply ev_ext; [|eapply (ev_bind _ _ _ (fun m v => materialize_columns (R m) n cs (dict_set c v d0)));
                             [exact A7|exact B6]].
            intros m. cbn [materialize_columns]. unfold mbind at 2. unfold obj_of. rewrite Ho. reflexivity.
      Qed.

      Hypothesis FREE : star = true -> forall k b, assoc k cols = Some b -> col_aggs b <> [] ->
        ~ In k (keys row).

      Lemma agg_materialize_ok : forall W1 s, wle W W1 -> stok W1 s -> ids_ok s ->
        ctx_holds s (agg_ctx nsc s) (mem_of mem0 prev) ->
        exists W2 s2, wle W1 W2 /\ stok W2 s2 /\ ids_ok s2 /\ busy (agg_ctx nsc s) s s2 /\
          ctx_holds s2 (agg_ctx nsc s) (mem_of mem0 (prev ++ [row])) /\
          evaluates (fun m => materialize_row (R m) (VOpaque n)) s s2 (VDict d').
      Proof.
        intros W1 s HW HS ID HC.
        assert (NM : fst r = (if star then keys row else []) ++ keys cols).
        { unfold r. rewrite cols_lrow_names. destruct star; [|reflexivity]. now rewrite star_lrow_names. }
        destruct (agg_columns_ok (fst r) (fun c H => H)) with (d0 := @nil (string * val)) (W1 := W1) (s := s)
          as (W2 & s2 & A1 & A2 & A3 & A4 & A5 & A6); auto.
        - intros k b H1 H2. unfold once. rewrite NM, count_occ_app.
          assert (N1 : (count_occ string_dec (keys cols) k <= 1)%nat)
            by (apply (NoDup_count_occ string_dec); exact NAMES).
          destruct star; [|exact N1].
          assert (N2 : count_occ string_dec (keys row) k = 0%nat).
          { apply count_occ_not_In. eapply FREE; eauto. }
          rewrite N2. exact N1.
        - eapply ctx_ext; [|exact HC]. intros nd. unfold mem_of, mem_at.
          destruct (find_agg nd cols) as [[[k a] e]|] eqn:EF; [|reflexivity].
          replace (mem_str k (fst r)) with true; [reflexivity|]. symmetry. apply mem_str_in.
          rewrite NM. apply in_app_iff. right. destruct (find_agg_in _ _ _ _ _ EF) as (b & HI & _).
          unfold keys. change k with (fst (k, b)). now apply in_map.
        - exists W2, s2. split; [exact A1|]. split; [exact A2|]. split; [exact A3|]. split; [exact A4|].
          split; [exact A5|].
          assert (RB : rebuild_from d' (fst r) [] = d').
          { eapply rebuild_same; [| |exact (lo_build _ _ _ _ _ LR)].
            - apply columns_of_keys; [exact NOSTAR|reflexivity].
            - apply columns_of_nodup; [exact NOSTAR|]. unfold acc. destruct star; [|constructor].
              unfold keys, fields. rewrite map_map. cbn. apply RO. }
          rewrite RB in A6.
          destruct (so_heap _ _ _ _ HS n _ (HW _ _ WN)) as (o & Ho & OO).
          destruct o; simpl in OO; try contradiction. destruct OO as (-> & -> & HCA).
          eapply ev_ext; [|eapply (ev_bind _ _ _ (fun m d => mret (VDict d))); [exact A6|apply ev_ret]].
          intros m. unfold materialize_row. unfold mbind at 2. unfold obj_of. rewrite Ho. reflexivity.
      Qed.

      Lemma group_columns_gv : forall l a, (forall k b, In (k, b) l -> In (k, b) cols) -> no_star l ->
        group_columns E funs fr (prev ++ [row]) l a = Some (columns_of (gv (prev ++ [row])) row l a).
      Proof.
        induction l as [|[k b] l IH]; intros a IN NS; [reflexivity|]. inversion NS as [|? ? NS1 NS2]; subst.
        cbn [group_columns columns_of]. cbn in NS1. rewrite NS1.
        assert (GV : group_value E funs fr (prev ++ [row]) b = Some (gv (prev ++ [row]) b)).
        { destruct (defined_value _ _ _ DEF (IN _ _ (or_introl eq_refl))) as (e & v & -> & DV).
          unfold gv, group_value. now rewrite DV. }
        rewrite GV. cbn. apply IH; [|exact NS2]. intros; apply IN; now right.
      Qed.

      Lemma result_row_gv : result_row E funs fr star cols (prev ++ [row]) = Some d'.
      Proof.
        unfold result_row, d', acc. rewrite last_last. apply group_columns_gv; auto.
      Qed.
    End Row.

    (** ** One row, and all of them *)

    Definition nothing (node : nat) : option val := None.

    Section Rows.
      Variables (star : bool) (where_ : option expr) (g : expr).
      Hypothesis LW : label_where owner where_.
      Hypothesis LG : labelled owner g.

      Record bins_ok (s : st) (l : list (string * dict)) (bins : list bin) : Prop := {
        bo_keys : keys bins = first_seen [] (map fst l);
        bo_ctxs : NoDup (map (fun b => fst (snd b)) bins);
        bo_each : Forall (fun b => exists d, snd (snd b) = VDict d /\
                    result_row E funs fr star cols (group (fst b) l) = Some d /\
                    ctx_holds s (fst (snd b)) (mem_of nothing (group (fst b) l))) bins
      }.

      Lemma first_seen_snoc : forall ks seen k,
        first_seen seen (ks ++ [k]) =
        first_seen seen ks ++ (if mem_str k seen || mem_str k ks then [] else [k]).
      Proof.
        induction ks as [|x ks IH]; intros seen k; cbn [app first_seen].
        - cbn. rewrite orb_false_r. destruct (mem_str k seen); reflexivity.
        - cbn [mem_str existsb]. destruct (mem_str x seen) eqn:EX; rewrite IH.
          + f_equal. destruct (String.eqb k x) eqn:EK; [|reflexivity].
            apply String.eqb_eq in EK as ->. rewrite EX. reflexivity.
          + cbn [app]. do 2 f_equal. change (mem_str k (x :: seen)) with (String.eqb k x || mem_str k seen).
            change (existsb (String.eqb k) ks) with (mem_str k ks).
            destruct (String.eqb k x), (mem_str k seen); reflexivity.
      Qed.

      Lemma first_seen_in : forall ks seen k,
        mem_str k (first_seen seen ks) = negb (mem_str k seen) && mem_str k ks.
      Proof.
        induction ks as [|x ks IH]; intros seen k; cbn [first_seen].
        - cbn. now rewrite andb_false_r.
        - change (mem_str k (x :: ks)) with (String.eqb k x || mem_str k ks).
          destruct (mem_str x seen) eqn:EX.
          + rewrite IH. destruct (String.eqb k x) eqn:EK; [|reflexivity].
            apply String.eqb_eq in EK as ->. now rewrite EX.
          + cbn [mem_str existsb]. change (existsb (String.eqb k) (first_seen (x :: seen) ks))
              with (mem_str k (first_seen (x :: seen) ks)). rewrite IH.
            change (mem_str k (x :: seen)) with (String.eqb k x || mem_str k seen).
            destruct (String.eqb k x) eqn:EK; cbn; [|reflexivity].
            apply String.eqb_eq in EK as ->. now rewrite EX.
      Qed.

      Lemma first_seen_nodup : forall ks seen, NoDup (first_seen seen ks).
      Proof.
        induction ks as [|x ks IH]; intros seen; cbn; [constructor|].
        destruct (mem_str x seen); [apply IH|]. constructor; [|apply IH].
        intros HI. apply mem_str_in in HI. rewrite first_seen_in in HI. cbn in HI.
        now rewrite String.eqb_refl in HI.
      Qed.

      Lemma group_snoc : forall k l key row,
        group k (l ++ [(key, row)]) = group k l ++ (if String.eqb k key then [row] else []).
      Proof.
        intros. unfold group. rewrite filter_app, map_app. f_equal. cbn. destruct (String.eqb k key); reflexivity.
      Qed.

      Lemma group_absent : forall k l, mem_str k (map fst l) = false -> group k l = [].
      Proof.
        intros k l. unfold group. induction l as [|[k1 r] l IH]; intros H; [reflexivity|].
        cbn in H |- *. apply orb_false_iff in H as [H1 H2]. rewrite H1. auto.
      Qed.

      Lemma result_row_defined : forall rows d,
        result_row E funs fr star cols rows = Some d -> defined rows.
      Proof.
        intros rows d H. unfold result_row in H. unfold defined.
        revert H. generalize (if star then fields (last rows []) else []) as acc. generalize cols as l.
        induction l as [|[k b] l IH]; intros acc H; [constructor|].
        cbn [group_columns] in H. apply obind_some in H as (v & Hv & H).
        constructor; [|eapply IH; eauto]. cbn [snd]. eauto.
      Qed.

      Lemma bins_kept : forall s s' l bins, bins_ok s l bins -> ids_ok s' ->
        (forall c x, nth_error (ctxs s) c = Some x -> nth_error (ctxs s') c = Some x) ->
        (forall node x, nassoc node (node_funs s) = Some x -> nassoc node (node_funs s') = Some x) ->
        bins_ok s' l bins.
      Proof.
        intros s s' l bins [K C F] ID HC HF. constructor; [exact K|exact C|].
        eapply Forall_impl; [|exact F]. intros b (d & H1 & H2 & H3). exists d. split; [exact H1|].
        split; [exact H2|]. eapply ctx_kept; [exact H3| |exact HF|exact ID].
        destruct H3 as (data & HD & _). rewrite HD. now apply HC.
      Qed.

      Lemma bin_set_new : forall key c v bins, mem_str key (keys bins) = false ->
        bin_set key c v bins = bins ++ [(key, (c, v))].
      Proof.
        intros key c v bins. unfold keys. induction bins as [|[k b] bins IH]; intros H; [reflexivity|].
        cbn in H |- *. apply orb_false_iff in H as [H1 H2]. rewrite H1. now rewrite IH.
      Qed.

      Lemma bin_set_keys : forall key c v bins, mem_str key (keys bins) = true ->
        keys (bin_set key c v bins) = keys bins.
      Proof.
        intros key c v bins. unfold keys. induction bins as [|[k b] bins IH]; intros H; [discriminate|].
        cbn in H |- *. destruct (String.eqb key k) eqn:EK; [reflexivity|]. cbn in *. now rewrite IH.
      Qed.

      Lemma bin_set_ctxs : forall key c v v' bins, assoc key bins = Some (c, v') ->
        map (fun b => fst (snd b)) (bin_set key c v bins) = map (fun b => fst (snd b)) bins.
      Proof.
        intros key c v v' bins. induction bins as [|[k b] bins IH]; intros H; [discriminate|].
        cbn in H |- *. destruct (String.eqb key k) eqn:EK; [injection H as ->; reflexivity|].
        cbn. now rewrite IH.
      Qed.

      Lemma bin_set_in : forall key c v v' bins b, NoDup (keys bins) -> assoc key bins = Some (c, v') ->
        In b (bin_set key c v bins) -> b = (key, (c, v)) \/ (In b bins /\ fst b <> key).
      Proof.
        intros key c v v' bins b. unfold keys. induction bins as [|[k b0] bins IH]; intros ND H HI; [discriminate|].
        cbn in ND. inversion ND as [|? ? NI ND']; subst. cbn in H, HI.
        destruct (String.eqb key k) eqn:EK.
        - apply String.eqb_eq in EK as ->. destruct HI as [<-|HI]; [now left|]. right.
          split; [now right|]. intros <-. apply NI. now apply in_map.
        - destruct HI as [<-|HI].
          + right. split; [now left|]. cbn. intros ->. now rewrite String.eqb_refl in EK.
          + destruct (IH ND' H HI) as [->|[H1 H2]]; [now left|]. right. split; [now right|exact H2].
      Qed.

      Lemma nodup_snoc : forall A (l : list A) x, NoDup l -> ~ In x l -> NoDup (l ++ [x]).
      Proof.
        intros A l x ND NI. induction ND as [|y l NY ND IH]; cbn.
        - constructor; [auto|constructor].
        - constructor.
          + rewrite in_app_iff. intros [HI|[<-|[]]]; [contradiction|]. apply NI. now left.
          + apply IH. intros HI. apply NI. now right.
      Qed.

      Lemma pr_printed : forall W sc v, plain v = true ->
        promises W (fun m => r_tostring (R m) sc v) (printed E v).
      Proof.
        intros W sc v PV. apply pr_tostring. unfold tostring_step.
        eapply (pr_bind E owner _ _ W (fun _ => obj_of v) _ None); [now apply pr_obj_of|].
        cbn [is_lazy]. unfold printed.
        destruct v; try discriminate; try apply pr_ret.
        cbn [expand]. apply pr_tostring. unfold tostring_step.
        eapply (pr_bind E owner _ _ W (fun _ => obj_of _) _ None); [now apply pr_obj_of|].
        apply pr_ret.
      Qed.

      Lemma group_row_ok : forall W outer row keep key,
        scope_ok W outer fr -> room outer -> row_ok row ->
        (star = true -> forall k b, assoc k cols = Some b -> col_aggs b <> [] -> ~ In k (keys row)) ->
        holds E funs fr (shown E funs fr star cols row) row where_ = Some keep ->
        (keep = true -> option_map (printed E)
                          (den E funs (shown E funs fr star cols row :: row :: fr) g) = Some key) ->
        forall W1 s l bins, wle W W1 -> stok W1 s -> ids_ok s -> bins_ok s l bins ->
        (keep = true -> exists out, result_row E funs fr star cols (group key l ++ [row]) = Some out) ->
        exists W2 s2 bins', wle W1 W2 /\ stok W2 s2 /\ ids_ok s2 /\ trace s2 = trace s /\
          bins_ok s2 (if keep then l ++ [(key, row)] else l) bins' /\
          evaluates (fun m => group_row E (R m) outer star cols where_ g (VDict row) bins) s s2 bins'.
      Proof.
        intros W outer row keep key SC RM RO FREE HK HG W1 s l bins HW HS ID HB DL.
        unfold room in RM.
        set (rsc := {| sc_vars := sc_vars (copy outer); sc_depth := sc_depth (copy outer);
                       sc_cell := List.length (cells s) |}).
        set (s1 := set_cells (cells s ++ [CParent (sc_cell (copy outer))]) s).
        assert (EV1 : evaluates (fun _ => own_cell (copy outer)) s s1 rsc) by (exists 0; reflexivity).
        assert (HS1 : stok W1 s1) by (eapply stok_ext; [| |exact HS]; reflexivity).
        assert (ID1 : ids_ok s1) by (eapply ids_ext; [| |exact ID]; reflexivity).
        set (nsc := append_vars (VDict row) (copy rsc)).
        assert (SC1 : scope_ok W nsc (row :: fr)).
        { eapply scope_push; [exact SC|now left|cbn [rsc copy sc_depth]; lia|reflexivity]. }
        destruct (transform_ok E funs owner FOK W rsc fr star cols row SC1 RO LABEL W1 s1 HW HS1) as
          (W2 & s2 & n & HW2 & HS2 & Q2 & OBJ & WN & EV2).
        specialize (WN NOSTAR). cbv zeta in WN. fold nsc in WN.
        change (columns_of (col_value E funs fr row) row cols (if star then fields row else []))
          with (shown E funs fr star cols row) in WN, OBJ.
        assert (ID2 : ids_ok s2).
        { eapply evaluates_ids; [|exact EV2|exact ID1]. intros m.
          apply (pa_transform _ keeps_ids_closed _ _ (evaluation_keeps_ids E m)). }
        set (new := append_vars (VOpaque n) (append_vars (VDict row) rsc)).
        assert (SC2 : scope_ok W2 new (shown E funs fr star cols row :: row :: fr)).
        { eapply (scope_push E owner W2 (append_vars (VDict row) rsc)).
          - eapply (scope_push E owner W2 outer); [|now left| |reflexivity].
            + eapply scope_ok_weaken; [|exact SC]. eapply wle_trans; eauto.
            + cbn [rsc copy sc_depth]; lia.
          - now apply row_obj_frame.
          - cbn [rsc append_vars copy sc_depth]; lia.
          - reflexivity. }
        assert (WH : promises W2 (fun m => match where_ with
               | None => mret true
               | Some w => v <- r_expr (R m) new w ;; accepts E (R m) outer v
               end) keep).
        { destruct where_ as [w|]; cbn [holds] in HK.
          - apply omap_some in HK as (v & Hv & <-).
            eapply (pr_bind E owner _ _ W2 _ _ v).
            + eapply pure_eval; [exact FOK|exact SC2|exact Hv|exact LW].
            + apply pr_accepts. eapply den_plain; eauto.
          - injection HK as <-. apply pr_ret. }
        destruct (WH W2 s2 (wle_refl _) HS2) as (W3 & s3 & HW3 & HS3 & Q3 & EV3).
        assert (ID3 : ids_ok s3).
        { eapply evaluates_ids; [|exact EV3|exact ID2]. intros m.
          destruct where_; [|apply keeps_ids_closed].
          apply keeps_ids_closed; [apply (evaluation_keeps_ids E m)|].
          intros v. apply (pa_accepts _ keeps_ids_closed _ _ _ (evaluation_keeps_ids E m)). }
        destruct keep.
        2: { exists W3, s3, bins. split; [eapply wle_trans; eauto|]. split; [exact HS3|].
             split; [exact ID3|]. split; [rewrite (q_trace _ _ Q3), (q_trace _ _ Q2); reflexivity|].
             split.
             - eapply bins_kept; [exact HB|exact ID3| |].
               + intros c x. now rewrite (q_ctxs _ _ Q3), (q_ctxs _ _ Q2).
               + intros node x H. apply (q_funs _ _ Q3), (q_funs _ _ Q2). exact H.
             - unfold group_row. eapply ev_bind; [exact EV1|]. eapply ev_bind; [exact EV2|].
               eapply ev_bind; [exact EV3|]. apply ev_ret. }
        pose proof (HG eq_refl) as HKEY. clear HG. destruct (DL eq_refl) as (out0 & DEF).
        apply result_row_defined in DEF.
        apply omap_some in HKEY as (v & Hv & EK).
        assert (PV : plain v = true) by (eapply den_plain; eauto).
        assert (GB : promises W2 (fun m => v <- r_expr (R m) new g ;; r_tostring (R m) new v) key).
        { eapply (pr_bind E owner _ _ W2 _ _ v).
          - eapply pure_eval; [exact FOK|exact SC2|exact Hv|exact LG].
          - rewrite <- EK. now apply pr_printed. }
        destruct (GB W3 s3 HW3 HS3) as (W4 & s4 & HW4 & HS4 & Q4 & EV4).
        assert (ID4 : ids_ok s4).
        { eapply evaluates_ids; [|exact EV4|exact ID3]. intros m.
          apply keeps_ids_closed; [apply (evaluation_keeps_ids E m)|]. intros x.
          apply (evaluation_keeps_ids E m). }
        assert (Q : quiet s1 s4) by (eapply quiet_trans; [exact Q2|]; eapply quiet_trans; eauto).
        assert (HB4 : bins_ok s4 l bins).
        { eapply bins_kept; [exact HB|exact ID4| |].
          - intros c x. now rewrite (q_ctxs _ _ Q).
          - intros node x H. apply (q_funs _ _ Q). exact H. }
        assert (HW14 : wle W1 W4) by (eapply wle_trans; [exact HW2|]; eapply wle_trans; eauto).
        (* the context of the group *)
        assert (CTX : exists c s5, evaluates (fun _ => match assoc key bins with
                        | Some (c, _) => mret c | None => new_ctx end) s4 s5 c /\
            stok W4 s5 /\ ids_ok s5 /\ trace s5 = trace s4 /\ cells s5 = cells s4 /\
            bins_ok s5 l bins /\ ctx_holds s5 c (mem_of nothing (group key l)) /\
            (forall b, In b bins -> fst b <> key -> fst (snd b) <> c) /\
            match assoc key bins with Some (c', _) => c' = c | None => ~ In c (map (fun b => fst (snd b)) bins) end).
        { destruct (assoc key bins) as [[c v0]|] eqn:EB.
          - exists c, s4. split; [exists 0; reflexivity|]. split; [exact HS4|]. split; [exact ID4|].
            split; [reflexivity|]. split; [reflexivity|]. split; [exact HB4|].
            assert (IB : In (key, (c, v0)) bins).
            { clear - EB. induction bins as [|[k b] bins IH]; [discriminate|]. cbn in EB.
              destruct (String.eqb key k) eqn:EK; [|right; auto].
              apply String.eqb_eq in EK as ->. injection EB as ->. now left. }
            pose proof (bo_each _ _ _ HB4) as F. rewrite Forall_forall in F.
            destruct (F _ IB) as (d0 & _ & _ & H3). split; [exact H3|].
            split; [|reflexivity]. intros b HI NE EC. apply NE.
            pose proof (bo_ctxs _ _ _ HB4) as NC. clear - NC HI IB EC.
            induction bins as [|b0 bins IH]; [contradiction|]. cbn in NC. apply NoDup_cons_iff in NC as [N1 N2].
            destruct HI as [->|HI], IB as [IB|IB].
            + now rewrite IB.
            + exfalso. apply N1. rewrite EC. change c with (fst (snd (key, (c, v0)))).
              apply (in_map (fun b => fst (snd b)) _ _ IB).
            + exfalso. apply N1. rewrite IB. cbn. rewrite <- EC.
              apply (in_map (fun b => fst (snd b)) _ _ HI).
            + auto.
          - set (s5 := set_ctxs (ctxs s4 ++ [[]]) s4).
            assert (ID5 : ids_ok s5) by (eapply ids_ext; [| |exact ID4]; reflexivity).
            assert (HB5 : bins_ok s5 l bins).
            { eapply bins_kept; [exact HB4|exact ID5| |auto].
              intros c x H. cbn. now apply nth_error_app_some. }
            exists (List.length (ctxs s4)), s5. split; [exists 0; reflexivity|].
            split; [eapply stok_ext; [| |exact HS4]; reflexivity|]. split; [exact ID5|].
            split; [reflexivity|]. split; [reflexivity|]. split; [exact HB5|].
            assert (GE : group key l = []).
            { apply group_absent. apply assoc_none_keys in EB. rewrite (bo_keys _ _ _ HB4), first_seen_in in EB.
              exact EB. }
            assert (OLD : forall b, In b bins -> fst (snd b) < List.length (ctxs s4)).
            { intros b HI. pose proof (bo_each _ _ _ HB4) as F. rewrite Forall_forall in F.
              destruct (F _ HI) as (d0 & _ & _ & data & HD & _). apply nth_error_Some. congruence. }
            split; [|split].
            + rewrite GE. exists []. split; [cbn; apply nth_error_snoc|]. split; [|discriminate].
              intros node. assert (MN : mem_of nothing [] node = None).
              { unfold mem_of. destruct (find_agg node cols) as [[[k a] e]|]; [|reflexivity].
                destruct a; reflexivity. }
              rewrite MN. destruct (nassoc node (node_funs s5)) as [[f id]|]; reflexivity.
            + intros b HI _ EC. specialize (OLD b HI). lia.
            + intros HI. apply in_map_iff in HI as (b & EC & HI). specialize (OLD b HI). lia. }
        destruct CTX as (c & s5 & EV5 & HS5 & ID5 & T5 & C5 & HB5 & HC5 & DIFF & NEW).
        set (s6 := set_cells (set_nth (sc_cell rsc) (COwn c) (cells s5)) s5).
        assert (EV6 : evaluates (fun _ => set_agg rsc c) s5 s6 tt) by (exists 0; reflexivity).
        assert (HS6 : stok W4 s6) by (eapply stok_ext; [| |exact HS5]; reflexivity).
        assert (ID6 : ids_ok s6) by (eapply ids_ext; [| |exact ID5]; reflexivity).
        assert (AC : agg_ctx nsc s6 = c).
        { unfold agg_ctx, s6. cbn [cells set_cells nsc append_vars copy rsc sc_cell find_ctx].
          rewrite Evolve.nth_set_nth, Nat.eqb_refl.
          rewrite C5, (q_cells _ _ Q). unfold s1. cbn [cells set_cells].
          rewrite nth_error_snoc. reflexivity. }
        assert (HC6 : ctx_holds s6 c (mem_of nothing (group key l))).
        { eapply ctx_kept; [exact HC5|reflexivity|auto|exact ID6]. }
        pose proof (row_obj_weaken _ _ _ _ _ _ (wle_trans _ _ _ HW3 HW4) OBJ) as OBJ4.
        destruct OBJ4 as (r0 & WN0 & LR).
        assert (WN4 := wle_trans _ _ _ HW3 HW4 _ _ WN).
        assert (ER : r0 = cols_lrow nsc cols (if star then star_lrow row ([], []) else ([], []))).
        { rewrite WN4 in WN0. injection WN0 as E1 E2. symmetry.
          rewrite (surjective_pairing r0), (surjective_pairing (cols_lrow _ _ _)). congruence. }
        rewrite ER in LR.
        assert (SC4 : scope_ok W4 nsc (row :: fr)).
        { eapply scope_ok_weaken; [|exact SC1]. eapply wle_trans; [exact HW|exact HW14]. }
        rewrite <- AC in HC6.
        destruct (agg_materialize_ok star row (group key l) nsc W4 n nothing SC4 RO WN4 LR DEF FREE
                    W4 s6 (wle_refl _) HS6 ID6 HC6) as (W7 & s7 & A1 & A2 & A3 & A4 & A5 & A6).
        pose proof (result_row_gv star row (group key l) DEF) as RR.
        set (d' := columns_of (gv (group key l ++ [row])) row cols (if star then fields row else [])) in *.
        rewrite AC in A4, A5.
        exists W7, s7, (bin_set key c (VDict d') bins).
        split; [eapply wle_trans; eauto|]. split; [exact A2|]. split; [exact A3|].
        split. { rewrite (bz_trace _ _ _ A4). cbn. rewrite T5, (q_trace _ _ Q). reflexivity. }
        split.
        - assert (OTHER : forall b, In b bins -> fst b <> key ->
              exists d, snd (snd b) = VDict d /\
                 result_row E funs fr star cols (group (fst b) (l ++ [(key, row)])) = Some d /\
                 ctx_holds s7 (fst (snd b)) (mem_of nothing (group (fst b) (l ++ [(key, row)])))).
          { intros b HI NE. pose proof (bo_each _ _ _ HB5) as F. rewrite Forall_forall in F.
            destruct (F _ HI) as (d0 & H1 & H2 & H3). exists d0. split; [exact H1|].
            rewrite group_snoc. destruct (String.eqb (fst b) key) eqn:EQ; [apply String.eqb_eq in EQ; contradiction|].
            rewrite app_nil_r. split; [exact H2|].
            eapply ctx_kept; [exact H3| |exact (bz_funs _ _ _ A4)|exact A3].
            rewrite (bz_ctxs _ _ _ A4) by (apply DIFF; assumption). reflexivity. }
          assert (SELF : exists d, VDict d' = VDict d /\
                 result_row E funs fr star cols (group key (l ++ [(key, row)])) = Some d /\
                 ctx_holds s7 c (mem_of nothing (group key (l ++ [(key, row)])))).
          { exists d'. rewrite group_snoc, String.eqb_refl. auto. }
          assert (KS : mem_str key (keys bins) = mem_str key (map fst l)).
          { rewrite (bo_keys _ _ _ HB5), first_seen_in. reflexivity. }
          destruct (assoc key bins) as [[c' v0]|] eqn:EB.
          + subst c'.
            assert (IK : mem_str key (keys bins) = true).
            { destruct (mem_str key (keys bins)) eqn:EM; [reflexivity|]. apply assoc_none_keys in EM. congruence. }
            assert (NK : NoDup (keys bins)) by (rewrite (bo_keys _ _ _ HB5); apply first_seen_nodup).
            constructor.
            * rewrite bin_set_keys by exact IK. rewrite map_app. cbn [map fst]. rewrite first_seen_snoc, <- KS, IK.
              rewrite orb_true_r, app_nil_r. apply HB5.
            * rewrite (bin_set_ctxs _ _ _ _ _ EB). apply HB5.
            * apply Forall_forall. intros b HI.
              destruct (bin_set_in _ _ _ _ _ _ NK EB HI) as [->|[H1 H2]]; [exact SELF|]. now apply OTHER.
          + assert (IK : mem_str key (keys bins) = false) by now apply assoc_none_keys.
            rewrite bin_set_new by exact IK. constructor.
            * unfold keys. rewrite !map_app. cbn [map fst]. rewrite first_seen_snoc.
              rewrite <- KS, IK. cbn. f_equal. apply HB5.
            * rewrite map_app. cbn. apply nodup_snoc; [apply HB5|exact NEW].
            * apply Forall_app. split; [|constructor; [exact SELF|constructor]].
              apply Forall_forall. intros b HI. apply OTHER; [exact HI|].
              intros EQ. assert (IB : mem_str key (keys bins) = true); [|congruence].
              apply mem_str_in. rewrite <- EQ. unfold keys. now apply in_map.
        - unfold group_row. eapply ev_bind; [exact EV1|]. eapply ev_bind; [exact EV2|].
          eapply ev_bind; [exact EV3|]. cbn [negb].
          eapply ev_ext; [|eapply (ev_bind _ _ _ (fun m key => ctx <- (match assoc key bins with
                        | Some (c, _) => mret c | None => new_ctx end) ;;
              set_agg rsc ctx ;;;
              r <- materialize_row (R m) (VOpaque n) ;;
              mret (bin_set key ctx r bins))); [exact EV4|]].
          { intros m. cbn beta. fold new. unfold mbind.
            destruct (r_expr (R m) new g s3) as [sa [x| |]]; [|reflexivity|reflexivity].
            destruct (r_tostring (R m) new x sa) as [sb [y| |]]; reflexivity. }
          eapply ev_bind; [exact EV5|]. eapply ev_bind; [exact EV6|].
          eapply ev_bind; [exact A6|]. apply ev_ret.
      Qed.

      Lemma group_rows_ok : forall W outer, scope_ok W outer fr -> room outer ->
        forall rows l, Forall row_ok rows ->
        (star = true -> Forall (fun row => forall k b, assoc k cols = Some b -> col_aggs b <> [] ->
                                  ~ In k (keys row)) rows) ->
        keyed E funs fr star cols where_ g rows = Some l ->
        forall W1 s l0 bins, wle W W1 -> stok W1 s -> ids_ok s -> bins_ok s l0 bins ->
        all_defined E funs fr star cols l0 l ->
        exists W2 s2 bins', wle W1 W2 /\ stok W2 s2 /\ ids_ok s2 /\ trace s2 = trace s /\
          bins_ok s2 (l0 ++ l) bins' /\
          evaluates (fun m => group_rows E (R m) outer star cols where_ g (map VDict rows) bins) s s2 bins'.
      Proof.
        intros W outer SC RM rows. induction rows as [|row rows IH]; intros l RO FREE HK W1 s l0 bins HW HS ID HB DL.
        - cbn in HK. injection HK as <-. exists W1, s, bins. rewrite app_nil_r.
          split; [apply wle_refl|]. repeat (split; [assumption || reflexivity|]). apply ev_ret.
        - inversion RO as [|? ? RO1 RO2]; subst. cbn [keyed] in HK.
          apply obind_some in HK as (keep & Hk & HK).
          assert (F1 : star = true -> forall k b, assoc k cols = Some b -> col_aggs b <> [] -> ~ In k (keys row)).
          { intros HS'. specialize (FREE HS'). now inversion FREE. }
          assert (F2 : star = true -> Forall (fun row => forall k b, assoc k cols = Some b -> col_aggs b <> [] ->
                                  ~ In k (keys row)) rows).
          { intros HS'. specialize (FREE HS'). now inversion FREE. }
          destruct keep.
          + apply obind_some in HK as (v & Hv & HK). apply omap_some in HK as (l1 & Hl & <-).
            cbn [all_defined] in DL. destruct DL as [D1 D2].
            destruct (group_row_ok W outer row true (printed E v) SC RM RO1 F1 Hk) with
              (W1 := W1) (s := s) (l := l0) (bins := bins) as (W2 & s2 & bins2 & A1 & A2 & A3 & A4 & A5 & A6); auto.
            { intros _. now rewrite Hv. }
            destruct (IH l1 RO2 F2 Hl W2 s2 (l0 ++ [(printed E v, row)]) bins2)
              as (W3 & s3 & bins3 & B1 & B2 & B3 & B4 & B5 & B6); auto.
            { eapply wle_trans; eauto. }
            exists W3, s3, bins3. rewrite <- app_assoc in B5. split; [eapply wle_trans; eauto|].
            split; [exact B2|]. split; [exact B3|]. split; [congruence|]. split; [exact B5|].
            cbn [map group_rows]. eapply ev_bind; [exact A6|exact B6].
          + destruct (group_row_ok W outer row false ""%string SC RM RO1 F1 Hk) with
              (W1 := W1) (s := s) (l := l0) (bins := bins) as (W2 & s2 & bins2 & A1 & A2 & A3 & A4 & A5 & A6); auto.
            { discriminate. }
            { discriminate. }
            destruct (IH l RO2 F2 HK W2 s2 l0 bins2)
              as (W3 & s3 & bins3 & B1 & B2 & B3 & B4 & B5 & B6); auto.
            { eapply wle_trans; eauto. }
            exists W3, s3, bins3. split; [eapply wle_trans; eauto|].
            split; [exact B2|]. split; [exact B3|]. split; [congruence|]. split; [exact B5|].
            cbn [map group_rows]. eapply ev_bind; [exact A6|exact B6].
      Qed.

      Lemma bins_out : forall s l bins, bins_ok s l bins ->
        exists out, sequence (map (fun k => result_row E funs fr star cols (group k l))
                              (first_seen [] (map fst l))) = Some out /\
                    map (fun b => snd (snd b)) bins = map VDict out.
      Proof.
        intros s l bins [K _ F]. rewrite <- K. clear K. unfold keys.
        induction F as [|[k [c v]] bins (d & H1 & H2 & _) _ (out & I1 & I2)].
        - exists []. auto.
        - cbn in *. subst v. rewrite H2. cbn. rewrite I1. cbn. exists (d :: out). cbn. now rewrite I2.
      Qed.

      (** ** Without GROUP BY: running aggregates *)

      Variable mem0 : nat -> option val.

      Lemma running_row_ok : forall W sc row keep prev out,
        scope_ok W sc fr -> room sc -> row_ok row ->
        (star = true -> forall k b, assoc k cols = Some b -> col_aggs b <> [] -> ~ In k (keys row)) ->
        holds E funs fr (shown E funs fr star cols row) row where_ = Some keep ->
        (keep = true -> result_row E funs fr star cols (prev ++ [row]) = Some out) ->
        forall W1 s, wle W W1 -> stok W1 s -> ids_ok s ->
        ctx_holds s (agg_ctx sc s) (mem_of mem0 prev) ->
        exists W2 s2, wle W1 W2 /\ stok W2 s2 /\ ids_ok s2 /\ busy (agg_ctx sc s) s s2 /\
          ctx_holds s2 (agg_ctx sc s) (mem_of mem0 (if keep then prev ++ [row] else prev)) /\
          evaluates (fun m => process_row E (R m) sc star cols where_ (VDict row)) s s2
            (if keep then [VDict out] else []).
      Proof.
        intros W sc row keep prev out SC RM RO FREE HK HOUT W1 s HW HS ID HC.
        unfold room in RM.
        set (nsc := append_vars (VDict row) (copy (copy sc))).
        assert (SC1 : scope_ok W nsc (row :: fr)).
        { eapply scope_push; [exact SC|now left|cbn [copy sc_depth]; lia|reflexivity]. }
        destruct (transform_ok E funs owner FOK W (copy sc) fr star cols row SC1 RO LABEL W1 s HW HS) as
          (W2 & s2 & n & HW2 & HS2 & Q2 & OBJ & WN & EV2).
        specialize (WN NOSTAR). cbv zeta in WN. fold nsc in WN.
        change (columns_of (col_value E funs fr row) row cols (if star then fields row else []))
          with (shown E funs fr star cols row) in WN, OBJ.
        assert (ID2 : ids_ok s2).
        { eapply evaluates_ids; [|exact EV2|exact ID]. intros m.
          apply (pa_transform _ keeps_ids_closed _ _ (evaluation_keeps_ids E m)). }
        set (new := append_vars (VOpaque n) (append_vars (VDict row) (copy (copy sc)))).
        assert (SC2 : scope_ok W2 new (shown E funs fr star cols row :: row :: fr)).
        { eapply (scope_push E owner W2 (append_vars (VDict row) (copy (copy sc)))).
          - eapply (scope_push E owner W2 sc); [|now left| |reflexivity].
            + eapply scope_ok_weaken; [|exact SC]. eapply wle_trans; eauto.
            + cbn [copy sc_depth]; lia.
          - now apply row_obj_frame.
          - cbn [append_vars copy sc_depth]; lia.
          - reflexivity. }
        assert (WH : promises W2 (fun m => match where_ with
               | None => mret true
               | Some w => v <- r_expr (R m) new w ;; accepts E (R m) sc v
               end) keep).
        { destruct where_ as [w|]; cbn [holds] in HK.
          - apply omap_some in HK as (v & Hv & <-).
            eapply (pr_bind E owner _ _ W2 _ _ v).
            + eapply pure_eval; [exact FOK|exact SC2|exact Hv|exact LW].
            + apply pr_accepts. eapply den_plain; eauto.
          - injection HK as <-. apply pr_ret. }
        destruct (WH W2 s2 (wle_refl _) HS2) as (W3 & s3 & HW3 & HS3 & Q3 & EV3).
        assert (ID3 : ids_ok s3).
        { eapply evaluates_ids; [|exact EV3|exact ID2]. intros m.
          destruct where_; [|apply keeps_ids_closed].
          apply keeps_ids_closed; [apply (evaluation_keeps_ids E m)|].
          intros v. apply (pa_accepts _ keeps_ids_closed _ _ _ (evaluation_keeps_ids E m)). }
        assert (Q : quiet s s3) by (eapply quiet_trans; eauto).
        assert (HC3 : ctx_holds s3 (agg_ctx sc s) (mem_of mem0 prev)).
        { eapply ctx_kept; [exact HC| |apply Q|exact ID3]. now rewrite (q_ctxs _ _ Q). }
        assert (AC : agg_ctx nsc s3 = agg_ctx sc s).
        { unfold agg_ctx. now rewrite (q_cells _ _ Q). }
        assert (HW13 : wle W1 W3) by (eapply wle_trans; eauto).
        destruct keep.
        - specialize (HOUT eq_refl). pose proof (result_row_defined _ _ HOUT) as DEF.
          pose proof (row_obj_weaken _ _ _ _ _ _ HW3 OBJ) as (r0 & WN0 & LR).
          assert (WN3 := HW3 _ _ WN).
          assert (ER : r0 = cols_lrow nsc cols (if star then star_lrow row ([], []) else ([], []))).
          { rewrite WN3 in WN0. injection WN0 as E1 E2. symmetry.
            rewrite (surjective_pairing r0), (surjective_pairing (cols_lrow _ _ _)). congruence. }
          rewrite ER in LR.
          assert (SC3 : scope_ok W3 nsc (row :: fr)).
          { eapply scope_ok_weaken; [|exact SC1]. eapply wle_trans; [exact HW|exact HW13]. }
          rewrite <- AC in HC3.
          destruct (agg_materialize_ok star row prev nsc W3 n mem0 SC3 RO WN3 LR DEF FREE
                      W3 s3 (wle_refl _) HS3 ID3 HC3) as (W4 & s4 & A1 & A2 & A3 & A4 & A5 & A6).
          rewrite (result_row_gv star row prev DEF) in HOUT. injection HOUT as <-.
          rewrite AC in A4, A5.
          exists W4, s4. split; [eapply wle_trans; eauto|]. split; [exact A2|]. split; [exact A3|].
          split; [eapply busy_trans; [apply quiet_busy; exact Q|exact A4]|]. split; [exact A5|].
          unfold process_row. eapply ev_bind; [exact EV2|].
          eapply ev_ext; [|eapply (ev_bind _ _ _ (fun m (b : bool) =>
              if b then r <- materialize_row (R m) (VOpaque n) ;; mret [r] else mret [])); [exact EV3|]].
          { intros m. cbn beta. destruct where_ as [w|]; [|reflexivity].
            fold new. unfold mbind. destruct (r_expr (R m) new w s2) as [sa [x| |]]; [|reflexivity|reflexivity].
            destruct (accepts E (R m) sc x sa) as [sb [y| |]]; reflexivity. }
          cbn beta iota. eapply ev_bind; [exact A6|apply ev_ret].
        - exists W3, s3. split; [exact HW13|]. split; [exact HS3|]. split; [exact ID3|].
          split; [now apply quiet_busy|]. split; [exact HC3|].
          unfold process_row. eapply ev_bind; [exact EV2|].
          eapply ev_ext; [|eapply (ev_bind _ _ _ (fun m (b : bool) =>
              if b then r <- materialize_row (R m) (VOpaque n) ;; mret [r] else mret [])); [exact EV3|]].
          { intros m. cbn beta. destruct where_ as [w|]; [|reflexivity].
            fold new. unfold mbind. destruct (r_expr (R m) new w s2) as [sa [x| |]]; [|reflexivity|reflexivity].
            destruct (accepts E (R m) sc x sa) as [sb [y| |]]; reflexivity. }
          apply ev_ret.
      Qed.

      Lemma running_rows_ok : forall W sc, scope_ok W sc fr -> room sc ->
        forall rows prev out, Forall row_ok rows ->
        (star = true -> Forall (fun row => forall k b, assoc k cols = Some b -> col_aggs b <> [] ->
                                  ~ In k (keys row)) rows) ->
        running_select E funs fr star cols where_ prev rows = Some out ->
        forall W1 s, wle W W1 -> stok W1 s -> ids_ok s ->
        ctx_holds s (agg_ctx sc s) (mem_of mem0 prev) ->
        exists W2 s2 outs, wle W1 W2 /\ stok W2 s2 /\ busy (agg_ctx sc s) s s2 /\
          List.concat outs = map VDict out /\
          evaluates (fun m => mmap (process_row E (R m) sc star cols where_) (map VDict rows)) s s2 outs.
      Proof.
        intros W sc SC RM rows. induction rows as [|row rows IH]; intros prev out RO FREE HR W1 s HW HS ID HC.
        - cbn in HR. injection HR as <-. exists W1, s, [].
          split; [apply wle_refl|]. split; [exact HS|]. split; [apply quiet_busy, quiet_refl|].
          split; [reflexivity|]. apply ev_ret.
        - inversion RO as [|? ? RO1 RO2]; subst. cbn [running_select] in HR.
          apply obind_some in HR as (keep & Hk & HR).
          assert (F1 : star = true -> forall k b, assoc k cols = Some b -> col_aggs b <> [] -> ~ In k (keys row)).
          { intros HS'. specialize (FREE HS'). now inversion FREE. }
          assert (F2 : star = true -> Forall (fun row => forall k b, assoc k cols = Some b -> col_aggs b <> [] ->
                                  ~ In k (keys row)) rows).
          { intros HS'. specialize (FREE HS'). now inversion FREE. }
          destruct keep.
          + apply obind_some in HR as (o & Ho & HR). apply omap_some in HR as (rest & Hrest & <-).
            destruct (running_row_ok W sc row true prev o SC RM RO1 F1 Hk (fun _ => Ho) W1 s HW HS ID HC)
              as (W2 & s2 & A1 & A2 & A3 & A4 & A5 & A6).
            assert (SAME : agg_ctx sc s2 = agg_ctx sc s) by (apply find_ctx_cells, A4).
            destruct (IH (prev ++ [row]) rest RO2 F2 Hrest W2 s2) as (W3 & s3 & outs & B1 & B2 & B3 & B4 & B5).
            * eapply wle_trans; eauto.
            * exact A2.
            * exact A3.
            * rewrite SAME. exact A5.
            * rewrite SAME in B3. exists W3, s3, ([VDict o] :: outs). split; [eapply wle_trans; eauto|].
              split; [exact B2|]. split; [eapply busy_trans; eauto|]. split; [cbn; now rewrite B4|].
              cbn [map mmap]. eapply ev_bind; [exact A6|]. eapply ev_bind; [exact B5|apply ev_ret].
          + destruct (running_row_ok W sc row false prev [] SC RM RO1 F1 Hk (fun H : false = true => False_ind _ (diff_false_true H)) W1 s HW HS ID HC)
              as (W2 & s2 & A1 & A2 & A3 & A4 & A5 & A6).
            assert (SAME : agg_ctx sc s2 = agg_ctx sc s) by (apply find_ctx_cells, A4).
            destruct (IH prev out RO2 F2 HR W2 s2) as (W3 & s3 & outs & B1 & B2 & B3 & B4 & B5).
            * eapply wle_trans; eauto.
            * exact A2.
            * exact A3.
            * rewrite SAME. exact A5.
            * rewrite SAME in B3. exists W3, s3, ([] :: outs). split; [eapply wle_trans; eauto|].
              split; [exact B2|]. split; [eapply busy_trans; eauto|]. split; [cbn; now rewrite B4|].
              cbn [map mmap]. eapply ev_bind; [exact A6|]. eapply ev_bind; [exact B5|apply ev_ret].
      Qed.
    End Rows.
  End Cols.
End Group.
