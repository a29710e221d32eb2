(** Expressions without side effects evaluate to what PureSpec.v says, in
    every state, and leave no trace but filled caches. *)

From Coq Require Import ZArith List String Bool Lia PeanoNat.
From Verif Require Import Base F64 Value Protocols Monad Chains Range Flatten ArgParser Syntax Eval
  Runs Builtins PureSpec.
From Verif Require BaseProofs.
Import ListNotations.
Open Scope nat_scope.
Open Scope list_scope.

(** ** Induction over expressions *)

Section ExprInd.
  Variable P : expr -> Prop.
  Definition on_arg (a : argval) : Prop :=
    match a with AExpr e | AArray e => P e | _ => True end.
  Definition on_opt (o : option expr) : Prop := match o with Some e => P e | None => True end.
  Definition on_term (t : mterm) : Prop :=
    match t with MIndex e => P e | MRange s e => on_opt s /\ on_opt e | MField _ => True end.
  Hypothesis Hlit : forall v, P (ELit v).
  Hypothesis Hsym : forall node neg path called params,
    Forall (fun na => on_arg (snd na)) params -> P (ESym node neg path called params).
  Hypothesis Hcomma : forall l rs, P l -> Forall on_opt rs -> P (EComma l rs).
  Hypothesis Hand : forall l rs, P l -> Forall (fun oe => P (snd oe)) rs -> P (EAnd l rs).
  Hypothesis Hor : forall l rs, P l -> Forall (fun oe => P (snd oe)) rs -> P (EOr l rs).
  Hypothesis Hadd : forall l rs, P l -> Forall (fun oe => P (snd oe)) rs -> P (EAdd l rs).
  Hypothesis Hmul : forall l rs, P l -> Forall (fun oe => P (snd oe)) rs -> P (EMul l rs).
  Hypothesis Hnot : forall e, P e -> P (ENot e).
  Hypothesis Hcmp : forall l op r, P l -> P r -> P (ECmp l op r).
  Hypothesis Hmember : forall l ts, P l -> Forall on_term ts -> P (EMember l ts).

  Fixpoint expr_ind' (e : expr) : P e :=
    let opt (o : option expr) : on_opt o :=
      match o with Some e => expr_ind' e | None => I end in
    let pairs := fix go (l : list (string * expr)) : Forall (fun oe => P (snd oe)) l :=
      match l with
      | [] => Forall_nil _
      | x :: r => Forall_cons x (expr_ind' (snd x)) (go r)
      end in
    match e with
    | ELit v => Hlit v
    | ESym node neg path called params =>
        Hsym node neg path called params
          ((fix go (l : list (string * argval)) : Forall (fun na => on_arg (snd na)) l :=
              match l with
              | [] => Forall_nil _
              | x :: r =>
                  Forall_cons x
                    (match snd x as a return on_arg a with
                     | AExpr e => expr_ind' e
                     | AArray e => expr_ind' e
                     | ASelect _ => I
                     | AEmpty => I
                     end) (go r)
              end) params)
    | EComma l rs =>
        Hcomma l rs (expr_ind' l)
          ((fix go (l : list (option expr)) : Forall on_opt l :=
              match l with
              | [] => Forall_nil _
              | x :: r => Forall_cons x (opt x) (go r)
              end) rs)
    | EAnd l rs => Hand l rs (expr_ind' l) (pairs rs)
    | EOr l rs => Hor l rs (expr_ind' l) (pairs rs)
    | EAdd l rs => Hadd l rs (expr_ind' l) (pairs rs)
    | EMul l rs => Hmul l rs (expr_ind' l) (pairs rs)
    | ENot e => Hnot e (expr_ind' e)
    | ECmp l op r => Hcmp l op r (expr_ind' l) (expr_ind' r)
    | EMember l ts =>
        Hmember l ts (expr_ind' l)
          ((fix go (l : list mterm) : Forall on_term l :=
              match l with
              | [] => Forall_nil _
              | x :: r =>
                  Forall_cons x
                    (match x as t return on_term t with
                     | MIndex e => expr_ind' e
                     | MRange s e => conj (opt s) (opt e)
                     | MField _ => I
                     end) (go r)
              end) ts)
    end.
End ExprInd.

(** ** States and worlds *)

(** What changes in an object when caches are filled. *)
Definition obj_ext (o o' : obj) : Prop :=
  match o, o' with
  | ORow c g _, ORow c' g' _ => c = c' /\ g = g'
  | OLazy e sc _, OLazy e' sc' _ => e = e' /\ sc = sc'
  | _, _ => o = o'
  end.

Lemma obj_ext_refl : forall o, obj_ext o o.
Proof. intros []; simpl; auto. Qed.
Lemma obj_ext_trans : forall a b c, obj_ext a b -> obj_ext b c -> obj_ext a c.
Proof.
  intros a b c H1 H2. destruct a, b; simpl in H1; try discriminate; destruct c; simpl in *;
    try discriminate; intuition congruence.
Qed.

(** From [s] to [s'] nothing happened that a program can observe: no effect
    on the host, no aggregator touched, objects only gained cached values. *)
Record quiet (s s' : st) : Prop := {
  q_trace : trace s' = trace s;
  q_cells : cells s' = cells s;
  q_ctxs : ctxs s' = ctxs s;
  q_heap : forall n o, nth_error (heap s) n = Some o ->
           exists o', nth_error (heap s') n = Some o' /\ obj_ext o o';
  q_funs : forall node x, nassoc node (node_funs s) = Some x -> nassoc node (node_funs s') = Some x
}.

Lemma quiet_refl : forall s, quiet s s.
Proof. intros. constructor; auto. intros n o H. exists o. auto using obj_ext_refl. Qed.

Lemma quiet_trans : forall a b c, quiet a b -> quiet b c -> quiet a c.
Proof.
  intros a b c [T1 C1 X1 H1 F1] [T2 C2 X2 H2 F2]. constructor; try congruence.
  - intros n o H. destruct (H1 _ _ H) as (o1 & E1 & X). destruct (H2 _ _ E1) as (o2 & E2 & X').
    exists o2. eauto using obj_ext_trans.
  - auto.
Qed.

(** Heap lists *)
Lemma set_nth_same : forall A (l : list A) n x y,
  nth_error l n = Some y -> nth_error (set_nth n x l) n = Some x.
Proof.
  intros A l. induction l as [|a l IH]; intros [|n] x y H; try discriminate; simpl; auto.
  eapply IH; eauto.
Qed.
Lemma set_nth_other : forall A (l : list A) n m x,
  n <> m -> nth_error (set_nth n x l) m = nth_error l m.
Proof.
  intros A l. induction l as [|a l IH]; intros [|n] [|m] x H; simpl; auto; try lia.
Qed.
Lemma nth_error_snoc : forall A (l : list A) x, nth_error (l ++ [x]) (List.length l) = Some x.
Proof. intros. rewrite nth_error_app2, Nat.sub_diag by lia. reflexivity. Qed.
Lemma nth_error_app_some : forall A (l r : list A) n x,
  nth_error l n = Some x -> nth_error (l ++ r) n = Some x.
Proof.
  intros. rewrite nth_error_app1; auto. apply nth_error_Some. congruence.
Qed.

Lemma assoc_dict_set : forall A k k' (v : A) d,
  assoc k (dict_set k' v d) = if String.eqb k k' then Some v else assoc k d.
Proof.
  intros A k k' v d. unfold dict_set. induction d as [|[k0 v0] d IH]; simpl.
  - reflexivity.
  - destruct (String.eqb k' k0) eqn:E0.
    + rewrite IH. apply String.eqb_eq in E0 as <-. destruct (String.eqb k k'); reflexivity.
    + simpl. rewrite IH. destruct (String.eqb k k') eqn:E1; [|reflexivity].
      apply String.eqb_eq in E1 as ->. now rewrite E0.
Qed.

Lemma nassoc_nset : forall A n m (v : A) l,
  nassoc n (nset m v l) = if Nat.eqb n m then Some v else nassoc n l.
Proof.
  intros A n m v l. induction l as [|[k x] l IH]; simpl.
  - reflexivity.
  - destruct (Nat.eqb m k) eqn:E; simpl.
    + apply Nat.eqb_eq in E as <-. destruct (Nat.eqb n m); reflexivity.
    + rewrite IH. destruct (Nat.eqb n m) eqn:E2; [|reflexivity].
      apply Nat.eqb_eq in E2 as ->. now rewrite E.
Qed.

Section Pure.
  Variable E : env.
  Variable funs : string -> option (dict -> option val).
  Variable owner : nat -> string.
  Hypothesis FOK : funs_ok E funs.
  Notation R := (ev E).

  (** A world records what the lazy objects stand for. *)
  Inductive wobj : Type :=
  | WRow (cs : list string) (g : list (string * getter)) (d : dict)
  | WLazy (e : expr) (sc : scope) (v : val)
  | WObj (o : obj).                     (* an object that does not change *)

  Definition wobj_ok (x : wobj) (o : obj) : Prop :=
    match x, o with
    | WRow cs g d, ORow cs' g' cache =>
        cs' = cs /\ g' = g /\
        forall k v, assoc k cache = Some v -> assoc k d = Some v /\ plain v = true
    | WLazy e sc v, OLazy e' sc' cache => e' = e /\ sc' = sc /\ (cache = None \/ cache = Some v)
    | WObj o1, _ => o1 = o
    | _, _ => False
    end.

  Definition world : Type := nat -> option wobj.
  Definition wle (W W' : world) : Prop := forall n x, W n = Some x -> W' n = Some x.
  Lemma wle_refl : forall W, wle W W.
  Proof. intros W n x H. exact H. Qed.
  Lemma wle_trans : forall A B C, wle A B -> wle B C -> wle A C.
  Proof. intros A B C H1 H2 n x H. auto. Qed.

  Record stok (W : world) (s : st) : Prop := {
    so_heap : forall n x, W n = Some x ->
              exists o, nth_error (heap s) n = Some o /\ wobj_ok x o;
    so_funs : forall node f id, nassoc node (node_funs s) = Some (f, id) ->
              assoc (owner node) (env_funs E) = Some f
  }.

  (** In every state that agrees with the world, the computation yields this
      result and leaves a state that agrees with it too. *)
  Definition promises {A} (W : world) (m : nat -> EM A) (a : A) : Prop :=
    forall W' s, wle W W' -> stok W' s ->
      exists W'' s', wle W' W'' /\ stok W'' s' /\ quiet s s' /\ evaluates m s s' a.

  Lemma pr_weaken : forall A W W' (m : nat -> EM A) a,
    wle W W' -> promises W m a -> promises W' m a.
  Proof. intros A W W' m a HW H W1 s1 H1 HS. apply H; auto. eapply wle_trans; eauto. Qed.

  Lemma pr_ret : forall A W (a : A), promises W (fun _ => mret a) a.
  Proof.
    intros A W a W' s HW HS. exists W', s. repeat split; auto using wle_refl, quiet_refl, ev_ret.
    - apply HS.
    - apply HS.
    - intros n o H. exists o. auto using obj_ext_refl.
  Qed.

  Lemma pr_bind : forall A B W (m : nat -> EM A) (f : nat -> A -> EM B) a b,
    promises W m a -> promises W (fun n => f n a) b ->
    promises W (fun n => mbind (m n) (f n)) b.
  Proof.
    intros A B W m f a b H1 H2 W1 s HW HS.
    destruct (H1 W1 s HW HS) as (W2 & s2 & HW2 & HS2 & Q2 & E2).
    destruct (H2 W2 s2) as (W3 & s3 & HW3 & HS3 & Q3 & E3); [eapply wle_trans; eauto|exact HS2|].
    exists W3, s3. split; [eapply wle_trans; eauto|]. split; [exact HS3|].
    split; [eapply quiet_trans; eauto|]. eapply ev_bind; eauto.
  Qed.

  Lemma pr_ext : forall A W (m m' : nat -> EM A) a,
    (forall n s, m n s = m' n s) -> promises W m a -> promises W m' a.
  Proof.
    intros A W m m' a H HP W' s HW HS. destruct (HP W' s HW HS) as (W2 & s2 & H1 & H2 & H3 & H4).
    exists W2, s2. repeat (split; auto). eapply ev_ext; [|exact H4]. auto.
  Qed.

  (** Same, through one step of the knot. *)
  Lemma pr_step : forall A W (m m' : nat -> EM A) a,
    (forall s s' x, evaluates m' s s' x -> evaluates m s s' x) -> promises W m' a -> promises W m a.
  Proof.
    intros A W m m' a H HP W' s HW HS. destruct (HP W' s HW HS) as (W2 & s2 & H1 & H2 & H3 & H4).
    exists W2, s2. repeat (split; auto).
  Qed.

  Lemma pr_expr : forall W sc e v,
    promises W (fun n => expr_step E (R n) sc e) v -> promises W (fun n => r_expr (R n) sc e) v.
  Proof. intros. eapply pr_step; [|eassumption]. intros; now apply ev_expr. Qed.
  Lemma pr_assoc : forall W sc a k v,
    promises W (fun n => assoc_step E (R n) sc a k) v -> promises W (fun n => r_assoc (R n) sc a k) v.
  Proof. intros. eapply pr_step; [|eassumption]. intros; now apply ev_assoc. Qed.
  Lemma pr_query : forall W sc q v,
    promises W (fun n => query_step (R n) sc q) v -> promises W (fun n => r_query (R n) sc q) v.
  Proof. intros. eapply pr_step; [|eassumption]. intros; now apply ev_query. Qed.
  Lemma pr_reduce : forall W a v,
    promises W (fun n => reduce_step (R n) a) v -> promises W (fun n => r_reduce (R n) a) v.
  Proof. intros. eapply pr_step; [|eassumption]. intros; now apply ev_reduce. Qed.
  Lemma pr_reduce_ws : forall W sc a v,
    promises W (fun n => reduce_ws_step (R n) sc a) v -> promises W (fun n => r_reduce_ws (R n) sc a) v.
  Proof. intros. eapply pr_step; [|eassumption]. intros; now apply ev_reduce_ws. Qed.
  Lemma pr_tostring : forall W sc a v,
    promises W (fun n => tostring_step E (R n) sc a) v -> promises W (fun n => r_tostring (R n) sc a) v.
  Proof. intros. eapply pr_step; [|eassumption]. intros; now apply ev_tostring. Qed.

  Lemma pr_mmap : forall A B W (f : nat -> A -> EM B) l ys,
    Forall2 (fun x y => promises W (fun n => f n x) y) l ys ->
    promises W (fun n => mmap (f n) l) ys.
  Proof.
    intros A B W f l ys H. induction H as [|x y l ys Hx _ IH]; simpl.
    - apply pr_ret.
    - apply (pr_bind _ _ W (fun n => f n x) (fun n y => ys <- mmap (f n) l;; mret (y :: ys)) y); [exact Hx|].
      apply (pr_bind _ _ W (fun n => mmap (f n) l) (fun n ys => mret (y :: ys)) ys); [exact IH|].
      apply pr_ret.
  Qed.

  (** ** Plain values *)

  Lemma plain_not_opaque : forall v n, plain v = true -> v <> VOpaque n.
  Proof. intros v n H ->. discriminate. Qed.

  Lemma pr_obj_of : forall W v, plain v = true -> promises W (fun _ => obj_of v) None.
  Proof.
    intros W v Hv. eapply pr_ext; [|apply pr_ret].
    intros n s. destruct v; try reflexivity. discriminate.
  Qed.

  Lemma pr_reduce_plain : forall W v, plain v = true -> promises W (fun n => r_reduce (R n) v) v.
  Proof.
    intros W v Hv. apply pr_reduce. unfold reduce_step.
    apply (pr_bind _ _ W (fun _ => obj_of v) _ None); [now apply pr_obj_of|].
    destruct v; try apply pr_ret.
  Qed.

  Lemma pr_truth : forall W sc v, plain v = true ->
    promises W (fun n => truth E (R n) sc v) (truthy E v).
  Proof.
    intros W sc v Hv. unfold truth.
    apply (pr_bind _ _ W (fun n => r_reduce (R n) v) _ v); [now apply pr_reduce_plain|].
    apply (pr_bind _ _ W (fun _ => obj_of v) _ None); [now apply pr_obj_of|].
    destruct v; try apply pr_ret.
  Qed.

  Lemma is_query_none : forall v, is_query v None = match v with VQuery _ => true | _ => false end.
  Proof. intros []; reflexivity. Qed.

  Lemma pr_query_plain : forall W sc rows, promises W (fun n => r_query (R n) sc (VQuery rows)) rows.
  Proof.
    intros. apply pr_query. unfold query_step.
    apply (pr_bind _ _ W (fun _ => obj_of (VQuery rows)) _ None); [|apply pr_ret].
    eapply pr_ext; [|apply pr_ret]. reflexivity.
  Qed.

  (** ** Associative on plain values *)

  Lemma key_string_some : forall k f, key_string k = Some f -> k = KVal (VStr f).
  Proof. intros [v|s e] f H; [|discriminate]. destruct v; try discriminate. injection H as ->. reflexivity. Qed.

  Lemma assoc_disp_dict : forall impls d f,
    assoc_disp impls (VDict d) (KVal (VStr f)) =
    match assoc f d with None => (VNil, false) | Some v => (or_null v, true) end.
  Proof. intros. simpl. destruct (assoc f d) as [v|]; reflexivity. Qed.

  Lemma pr_assoc_plain : forall v, plain v = true -> forall W sc k,
    promises W (fun n => r_assoc (R n) sc v k) (assoc_disp (p_assoc (env_protos E)) v k).
  Proof.
    intros v. induction v using val_ind'; intros PL W sc key; apply pr_assoc; unfold assoc_step;
      try discriminate; cbn [is_nil].
    1,2: apply pr_ret.
    all: match goal with |- promises _ (fun n => mbind (obj_of ?v) _) _ =>
           apply (pr_bind _ _ W (fun _ => obj_of v) _ None); [now apply pr_obj_of|] end.
    all: destruct (key_string key) as [fld|] eqn:K; cbv beta iota.
    all: try (apply key_string_some in K as ->).
    (* dictionaries *)
    all: try (apply pr_ret; fail).
    all: unfold assoc_other; cbn [is_query is_lazy].
    (* scalars *)
    all: try (match goal with |- promises _ _ (assoc_disp ?i ?v ?k) =>
           cbn [assoc_disp is_nil]; destruct (first_assoc i v k) as [r|] eqn:FA; apply pr_ret; fail end).
    - (* array, string key *)
      destruct (first_assoc (p_assoc (env_protos E)) (VArr l) (KVal (VStr fld))) as [r|] eqn:FA.
      { replace (assoc_disp (p_assoc (env_protos E)) (VArr l) (KVal (VStr fld))) with r; [apply pr_ret|].
        cbn [assoc_disp is_nil]. now rewrite FA. }
      assert (G : exists ys, promises W (fun n => assoc_elems (R n) sc l (KVal (VStr fld))) ys /\
        assoc_disp (p_assoc (env_protos E)) (VArr l) (KVal (VStr fld)) =
        (match ys with [] => VNilArr | _ => VArr ys end, true)).
      { cbn [assoc_disp is_nil]. rewrite FA. cbn [to_int64]. clear FA. cbn in PL.
        induction H as [|x l Hx _ IH].
        - exists []. split; [apply pr_ret|reflexivity].
        - cbn in PL. apply andb_true_iff in PL as [P1 P2].
          destruct (IH P2) as (ys & Hys & EQ).
          destruct (assoc_disp (p_assoc (env_protos E)) x (KVal (VStr fld))) as [v pres] eqn:AX.
          exists (if pres then v :: ys else ys). split.
          + cbn [assoc_elems]. eapply (pr_bind _ _ W _ _ (v, pres)).
            { rewrite <- AX. apply Hx. exact P1. }
            cbv beta iota. eapply (pr_bind _ _ W _ _ ys); [exact Hys|apply pr_ret].
          + injection EQ as EQ.
            set (oe := (fix on_elems (l : list val) : list val :=
              match l with
              | [] => []
              | x :: r => let (v, pres) := assoc_disp (p_assoc (env_protos E)) x (KVal (VStr fld)) in
                          if pres then v :: on_elems r else on_elems r
              end)) in *.
            assert (OE : oe l = ys).
            { destruct (oe l), ys; simpl in EQ; congruence. }
            rewrite OE. destruct pres; [reflexivity|]. destruct ys; reflexivity. }
      destruct G as (ys & Hys & ->). eapply (pr_bind _ _ W _ _ ys); [exact Hys|apply pr_ret].
    - (* array, other key *)
      assert (NS : forall s, key <> KVal (VStr s)) by (intros s ->; discriminate).
      destruct (first_assoc (p_assoc (env_protos E)) (VArr l) key) as [r|] eqn:FA.
      + replace (assoc_disp (p_assoc (env_protos E)) (VArr l) key) with r; [apply pr_ret|].
        cbn [assoc_disp is_nil]. rewrite FA.
        destruct key as [[]|]; try reflexivity; exfalso; eapply NS; reflexivity.
      + rewrite K. apply pr_ret.
    - (* dictionary, other key *)
      assert (NS : forall s, key <> KVal (VStr s)) by (intros s ->; discriminate).
      destruct (first_assoc (p_assoc (env_protos E)) (VDict d) key) as [r|] eqn:FA.
      + replace (assoc_disp (p_assoc (env_protos E)) (VDict d) key) with r; [apply pr_ret|].
        cbn [assoc_disp is_nil]. rewrite FA.
        destruct key as [[]|]; try reflexivity; exfalso; eapply NS; reflexivity.
      + apply pr_ret.
    - (* query, string key *)
      apply (pr_bind _ _ W (fun n => r_query (R n) sc (VQuery l)) _ l); [apply pr_query_plain|].
      cbv beta.
      set (g := fun x => let (v, pres) := assoc_disp (p_assoc (env_protos E)) x (KVal (VStr fld)) in
                         if pres then v else VNull).
      assert (EQ : assoc_disp (p_assoc (env_protos E)) (VQuery l) (KVal (VStr fld)) =
                   (VArr (map g l), true)).
      { cbn [assoc_disp is_nil]. f_equal. f_equal. clear. induction l as [|x l IH]; [reflexivity|].
        cbn [map]. rewrite <- IH. unfold g.
        destruct (assoc_disp (p_assoc (env_protos E)) x (KVal (VStr fld))) as [v pres]. reflexivity. }
      rewrite EQ.
      eapply (pr_bind _ _ W _ _ (map g l)); [|apply pr_ret].
      apply pr_mmap. clear EQ. cbn in PL. induction H as [|x l Hx _ IH]; [constructor|].
      cbn in PL. apply andb_true_iff in PL as [P1 P2].
      constructor; [|auto].
      destruct (assoc_disp (p_assoc (env_protos E)) x (KVal (VStr fld))) as [v pres] eqn:AX.
      eapply (pr_bind _ _ W _ _ (v, pres)); [rewrite <- AX; now apply Hx|].
      unfold g. rewrite AX. apply pr_ret.
    - (* query, other key *)
      assert (NS : forall s, key <> KVal (VStr s)) by (intros s ->; discriminate).
      destruct (first_assoc (p_assoc (env_protos E)) (VQuery l) key) as [r|] eqn:FA.
      + replace (assoc_disp (p_assoc (env_protos E)) (VQuery l) key) with r; [apply pr_ret|].
        cbn [assoc_disp is_nil]. rewrite FA.
        destruct key as [[]|]; try reflexivity; exfalso; eapply NS; reflexivity.
      + apply pr_ret.
  Qed.

  (** ** Frames *)

  Definition getter_ok (W : world) (g : getter) (v : val) : Prop :=
    v <> VNilArr /\ (plain v = true -> promises W (fun n => run_getter (R n) g) v).

  Definition frame_ok (W : world) (v : val) (d : dict) : Prop :=
    v = VDict d \/
    exists n cs g, v = VOpaque n /\ W n = Some (WRow cs g d) /\
      forall k, match assoc k g with
                | None => assoc k d = None
                | Some gt => exists x, assoc k d = Some x /\ getter_ok W gt x
                end.

  Definition scope_ok (W : world) (sc : scope) (fr : list dict) : Prop :=
    Forall2 (frame_ok W) (sc_vars sc) fr /\ overflow sc = false.

  Lemma frame_ok_weaken : forall W W' v d, wle W W' -> frame_ok W v d -> frame_ok W' v d.
  Proof.
    intros W W' v d HW [->|(n & cs & g & -> & Hn & H)]; [now left|]. right. exists n, cs, g.
    split; [reflexivity|]. split; [auto|]. intros k. specialize (H k).
    destruct (assoc k g) as [gt|]; [|exact H]. destruct H as (x & Hx & NA & Hg).
    exists x. split; [exact Hx|]. split; [exact NA|]. intros HP. eapply pr_weaken; eauto.
  Qed.

  Lemma scope_ok_weaken : forall W W' sc fr, wle W W' -> scope_ok W sc fr -> scope_ok W' sc fr.
  Proof.
    intros W W' sc fr HW [H O]. split; [|exact O].
    clear O. induction H; constructor; auto. eapply frame_ok_weaken; eauto.
  Qed.

  (** Reading a lazy row *)
  Lemma p_row_get : forall W n cs g d,
    W n = Some (WRow cs g d) ->
    (forall k, match assoc k g with
               | None => assoc k d = None
               | Some gt => exists x, assoc k d = Some x /\ getter_ok W gt x
               end) ->
    forall k, (forall x, assoc k d = Some x -> plain x = true) ->
    promises W (fun m => row_get (R m) n k)
                (match assoc k d with Some x => (x, true) | None => (VNull, false) end).
  Proof.
    intros W n cs g d Hn HG k PL W1 s HW HS. unfold row_get.
    destruct (so_heap _ _ HS n _ (HW _ _ Hn)) as (o & Ho & OK).
    destruct o; simpl in OK; try contradiction. destruct OK as (-> & -> & HC).
    specialize (HG k).
    destruct (assoc k cache) as [v|] eqn:EC.
    - rewrite (proj1 (HC _ _ EC)). exists W1, s. split; [apply wle_refl|]. split; [exact HS|].
      split; [apply quiet_refl|]. exists 0. intros m _. unfold mbind, obj_of. rewrite Ho, EC. reflexivity.
    - destruct (assoc k g) as [gt|] eqn:EG.
      + destruct HG as (x & Hx & _ & HGt). specialize (HGt (PL _ Hx)). rewrite Hx.
        destruct (HGt W1 s HW HS) as (W2 & s2 & HW2 & HS2 & Q2 & [N E2]).
        destruct (so_heap _ _ HS2 n _ (HW2 _ _ (HW _ _ Hn))) as (o2 & Ho2 & OK2).
        destruct o2 as [| | | | | | | |c2 g2 ca2| |]; simpl in OK2; try contradiction.
        destruct OK2 as (-> & -> & HC2).
        set (o3 := ORow cs g (dict_set k x ca2)).
        exists W2, (set_heap (set_nth n o3 (heap s2)) s2).
        split; [exact HW2|]. split; [|split].
        * constructor; [|apply HS2]. intros m y Hm. simpl.
          destruct (Nat.eq_dec n m) as [<-|NE].
          -- rewrite (HW2 _ _ (HW _ _ Hn)) in Hm. injection Hm as <-.
             exists o3. split; [eapply set_nth_same; eauto|]. simpl. split; [reflexivity|]. split; [reflexivity|].
             intros k' v'. rewrite assoc_dict_set. destruct (String.eqb k' k) eqn:EK.
             ++ apply String.eqb_eq in EK as ->. intros [= <-]. split; [exact Hx|auto].
             ++ apply HC2.
          -- rewrite set_nth_other by exact NE. apply (so_heap _ _ HS2 _ _ Hm).
        * eapply quiet_trans; [exact Q2|]. constructor; simpl; auto.
          intros m o Hm. destruct (Nat.eq_dec n m) as [<-|NE].
          -- exists o3. split; [eapply set_nth_same; eauto|].
             rewrite Ho2 in Hm. injection Hm as <-. simpl. auto.
          -- rewrite set_nth_other by exact NE. exists o. auto using obj_ext_refl.
        * exists N. intros m Hm. unfold mbind at 1. unfold obj_of. rewrite Ho, EC, EG.
          unfold mbind at 1. rewrite E2 by lia. unfold mbind at 1. unfold obj_of. rewrite Ho2.
          unfold mbind, update_obj, mret. reflexivity.
      + rewrite HG. exists W1, s. split; [apply wle_refl|]. split; [exact HS|].
        split; [apply quiet_refl|]. exists 0. intros m _. unfold mbind, obj_of. rewrite Ho, EC, EG.
        reflexivity.
  Qed.

  Lemma p_frame : forall W sc v d x, frame_ok W v d ->
    (forall y, assoc x d = Some y -> plain (or_null y) = true) ->
    promises W (fun n => r_assoc (R n) sc v (KVal (VStr x)))
      (match assoc x d with
       | Some y => (if match v with VDict _ => true | _ => false end then or_null y else y, true)
       | None => (if match v with VDict _ => true | _ => false end then VNil else VNull, false)
       end).
  Proof.
    intros W sc v d x [->|(n & cs & g & -> & Hn & HG)] PL; apply pr_assoc; unfold assoc_step.
    - cbn [is_nil key_string to_string]. eapply pr_ext; [|apply pr_ret]. intros n s.
      unfold mbind, obj_of. rewrite assoc_disp_dict. destruct (assoc x d) as [y|]; reflexivity.
    - cbn [is_nil key_string to_string]. intros W1 s HW HS.
      destruct (so_heap _ _ HS n _ (HW _ _ Hn)) as (o & Ho & OK).
      destruct o; simpl in OK; try contradiction.
      assert (PX : forall y, assoc x d = Some y -> plain y = true).
      { intros y Hy. specialize (PL _ Hy). specialize (HG x).
        destruct (assoc x g) as [gt|]; [|congruence]. destruct HG as (y' & Hy' & NA & _).
        rewrite Hy in Hy'. injection Hy' as <-. destruct y; try exact PL. congruence. }
      destruct (p_row_get W n cs g d Hn HG x PX W1 s HW HS) as (W2 & s2 & H1 & H2 & H3 & H4).
      exists W2, s2. split; [exact H1|]. split; [exact H2|]. split; [exact H3|].
      eapply ev_ext; [|exact H4]. intros m. unfold mbind at 1. unfold obj_of. rewrite Ho. reflexivity.
  Qed.

  (** What Resolve returns for a name: the value, or "absent". *)
  Definition found (fr : list dict) (x : string) (p : val * bool) : Prop :=
    p = (lookup fr x, true) \/ (lookup fr x = VNull /\ p = (VNil, false)).

  Lemma p_resolve_frames : forall W sc frames fr x default,
    Forall2 (frame_ok W) frames fr -> plain (lookup fr x) = true ->
    default = VNil \/ default = VNull ->
    exists p, found fr x p /\
      promises W (fun n => resolve_frames (R n) sc frames x default) p.
  Proof.
    intros W sc frames fr x default H. revert default.
    induction H as [|v d frames fr Hv _ IH]; intros default PL D; cbn [resolve_frames lookup] in *.
    - destruct D as [->| ->].
      + exists (VNil, false). split; [right; auto|apply pr_ret].
      + exists (VNull, true). split; [left; auto|apply pr_ret].
    - assert (HF := p_frame W sc v d x Hv).
      destruct (assoc x d) as [y|] eqn:EX;
        (specialize (HF ltac:(intros y' [= <-]; exact PL)) || specialize (HF ltac:(discriminate))).
      + exists (or_null y, true). split; [left; simpl; now rewrite EX|].
        eapply pr_bind; [exact HF|]. cbv beta iota.
        destruct Hv as [->|(n & cs & g & -> & _ & HG)].
        * unfold or_null. destruct y; apply pr_ret.
        * specialize (HG x). destruct (assoc x g) as [gt|]; [|congruence].
          destruct HG as (y' & EY & NA & _). rewrite EX in EY. injection EY as <-.
          unfold or_null. destruct y; try apply pr_ret. congruence.
      + assert (D' : exists default', (default' = VNil \/ default' = VNull) /\
          match default with
          | VNil => if match v with VDict _ => true | _ => false end then VNil else VNull
          | _ => default end = default').
        { eexists. split; [|reflexivity]. destruct D as [->| ->]; [|auto].
          destruct Hv as [->|(n & cs & g & -> & _)]; auto. }
        destruct D' as (default' & D' & ED).
        destruct (IH default' PL D') as (p & Hp & HP).
        exists p. split.
        { destruct Hp as [->|[L ->]]; [left|right]; simpl; rewrite EX; auto. }
        eapply pr_bind; [exact HF|]. cbv beta iota. rewrite ED. exact HP.
  Qed.

  Lemma p_resolve : forall W sc fr x, scope_ok W sc fr -> plain (lookup fr x) = true ->
    exists p, found fr x p /\ promises W (fun n => resolve (R n) sc x) p.
  Proof.
    intros W sc fr x [H O] PL. unfold resolve. rewrite O. apply p_resolve_frames; auto.
  Qed.

  (** ** Results are data *)

  Lemma check_some : forall v x, check v = Some x -> x = v /\ plain v = true.
  Proof. intros v x H. unfold check in H. destruct (plain v); [|discriminate]. injection H as <-. auto. Qed.

  Lemma plain_or_null : forall v, plain v = true -> plain (or_null v) = true.
  Proof. intros []; simpl; auto. Qed.
  Lemma plain_expand : forall v, plain v = true -> plain (expand v) = true.
  Proof. intros []; simpl; auto. Qed.

  Lemma obind_some : forall A B (o : option A) (f : A -> option B) b,
    obind o f = Some b -> exists a, o = Some a /\ f a = Some b.
  Proof. intros A B [a|] f b H; [exists a; auto|discriminate]. Qed.
  Lemma omap_some : forall A B (f : A -> B) o b,
    option_map f o = Some b -> exists a, o = Some a /\ f a = b.
  Proof. intros A B f [a|] b H; [exists a; injection H; auto|discriminate]. Qed.

  Lemma sequence_cons : forall A (x : option A) l ys,
    sequence (x :: l) = Some ys -> exists y r, x = Some y /\ sequence l = Some r /\ ys = y :: r.
  Proof.
    intros A [x|] l ys H; [|discriminate]. simpl in H. apply omap_some in H as (r & H & <-).
    exists x, r. auto.
  Qed.

  Lemma follow_plain : forall path v x, plain v = true -> follow E v path = Some x -> plain x = true.
  Proof.
    induction path as [|c r IH]; intros v x PV H; simpl in H.
    - injection H as <-. exact PV.
    - destruct (assoc_disp (p_assoc (env_protos E)) v (KVal (VStr c))) as [y pres].
      destruct pres; [|injection H as <-; reflexivity].
      apply obind_some in H as (z & Hz & H). apply check_some in Hz as [-> PZ]. eauto.
  Qed.

  Lemma index_plain : forall ks v x, plain v = true -> index E v ks = Some x -> plain x = true.
  Proof.
    induction ks as [|[k|] r IH]; intros v x PV H; simpl in H.
    - injection H as <-. exact PV.
    - destruct (assoc_disp (p_assoc (env_protos E)) v k) as [y pres].
      destruct pres; [|injection H as <-; reflexivity].
      apply obind_some in H as (z & Hz & H). apply check_some in Hz as [-> PZ]. eauto.
    - injection H as <-. reflexivity.
  Qed.

  Lemma add_value_plain : forall rs v x, plain v = true -> add_value E v rs = Some x -> plain x = true.
  Proof.
    induction rs as [|[op y] rs IH]; intros v x PV H; cbn [add_value] in H.
    - injection H as <-. exact PV.
    - apply obind_some in H as (z & Hz & H). apply check_some in Hz as [-> PZ]. eauto.
  Qed.

  Lemma mul_value_plain : forall rs v x, plain v = true -> mul_value E v rs = Some x -> plain x = true.
  Proof.
    induction rs as [|[op y] rs IH]; intros v x PV H; cbn [mul_value] in H.
    - injection H as <-. exact PV.
    - apply obind_some in H as (z & Hz & H).
      destruct (String.eqb op "*").
      + destruct (mul_disp (p_mul (env_protos E)) v y); [|discriminate].
        apply check_some in Hz as [-> PZ]. eauto.
      + apply check_some in Hz as [-> PZ]. eauto.
  Qed.

  Lemma and_value_plain : forall rs v, plain v = true -> Forall (fun oe => plain (snd oe) = true) rs ->
    plain (and_value E v rs) = true.
  Proof.
    induction rs as [|[op y] rs IH]; intros v PV H; cbn [and_value]; [exact PV|].
    inversion H; subst. destruct (truthy E y); [|reflexivity].
    apply IH; [|assumption]. destruct (String.eqb op "&&"); auto.
  Qed.
  Lemma or_value_plain : forall rs v, plain v = true -> Forall (fun oe => plain (snd oe) = true) rs ->
    plain (or_value E v rs) = true.
  Proof.
    induction rs as [|[op y] rs IH]; intros v PV H; cbn [or_value]; [exact PV|].
    inversion H; subst. destruct (truthy E y).
    - destruct (String.eqb op "||"); auto.
    - apply IH; assumption.
  Qed.

  (** Chains of operands: the values of the operands, given the value of each. *)
  Lemma pairs_some : forall fr (rs : list (string * expr)) vs,
    sequence (map (fun oe => option_map (pair (fst oe)) (den E funs fr (snd oe))) rs) = Some vs ->
    Forall2 (fun oe ov => fst oe = fst ov /\ den E funs fr (snd oe) = Some (snd ov)) rs vs.
  Proof.
    induction rs as [|oe rs IH]; intros vs H; cbn [map] in H.
    - injection H as <-. constructor.
    - apply sequence_cons in H as (y & r & Hy & Hr & ->).
      apply omap_some in Hy as (v & Hv & <-). constructor; auto.
  Qed.

  Lemma den_plain : forall e fr v, den E funs fr e = Some v -> plain v = true.
  Proof.
    intros e. induction e using expr_ind'; intros fr v0 H0; cbn [den] in H0.
    - apply check_some in H0 as [-> H0]. exact H0.
    - destruct neg; [destruct path as [|x [|]]; destruct called; discriminate|].
      assert (SYM : forall x path, called = false -> params = [] ->
        obind (check (lookup fr x)) (fun v => option_map or_null (follow E v path)) = Some v0 ->
        plain v0 = true).
      { intros x path0 _ _ G. apply obind_some in G as (v & Hv & G). apply check_some in Hv as [-> PV].
        apply omap_some in G as (w & Hw & <-). apply plain_or_null. eapply follow_plain; eauto. }
      destruct path as [|x path]; [discriminate|].
      destruct called.
      + destruct path as [|]; [|discriminate].
        apply obind_some in H0 as (F & HF & H0). apply obind_some in H0 as (args & Ha & H0).
        apply obind_some in H0 as (w & Hw & H0). apply omap_some in H0 as (z & Hz & <-).
        apply check_some in Hz as [-> PZ]. now apply plain_or_null.
      + destruct params; [|destruct path; discriminate].
        destruct path; eapply SYM; eauto.
    - apply obind_some in H0 as (l & Hl & H0). apply obind_some in H0 as (ws & Hws & H0).
      assert (PI : forallb plain (items ws) = true).
      { clear H0. revert ws Hws. induction H as [|o rs Ho _ IH]; intros ws Hws; cbn [map] in Hws.
        - injection Hws as <-. reflexivity.
        - apply sequence_cons in Hws as (y & r & Hy & Hr & ->).
          destruct o as [e1|].
          + apply omap_some in Hy as (w & Hw & <-). simpl. rewrite (Ho _ _ Hw). simpl. auto.
          + injection Hy as <-. reflexivity. }
      injection H0 as <-. specialize (IHe _ _ Hl).
      destruct l, ws; simpl in *; try rewrite IHe, PI; auto.
    - apply obind_some in H0 as (l & Hl & H0). apply obind_some in H0 as (ws & Hws & H0).
      apply pairs_some in Hws.
      assert (PW : Forall (fun oe => plain (snd oe) = true) ws).
      { clear H0. induction Hws as [|x y rs ws [_ Hx] _ IH]; [constructor|].
        inversion H; subst. constructor; eauto. }
      injection H0 as <-. specialize (IHe _ _ Hl). destruct ws; [exact IHe|].
      destruct (truthy E l); [|reflexivity]. now apply and_value_plain.
    - apply obind_some in H0 as (l & Hl & H0). apply obind_some in H0 as (ws & Hws & H0).
      apply pairs_some in Hws.
      assert (PW : Forall (fun oe => plain (snd oe) = true) ws).
      { clear H0. induction Hws as [|x y rs ws [_ Hx] _ IH]; [constructor|].
        inversion H; subst. constructor; eauto. }
      injection H0 as <-. specialize (IHe _ _ Hl). destruct ws; [exact IHe|].
      destruct (truthy E l); [exact IHe|]. now apply or_value_plain.
    - apply obind_some in H0 as (l & Hl & H0). apply obind_some in H0 as (ws & Hws & H0).
      eapply add_value_plain; eauto.
    - apply obind_some in H0 as (l & Hl & H0). apply obind_some in H0 as (ws & Hws & H0).
      eapply mul_value_plain; eauto.
    - apply omap_some in H0 as (w & Hw & <-). reflexivity.
    - apply obind_some in H0 as (l & Hl & H0). apply omap_some in H0 as (w & Hw & <-). reflexivity.
    - apply obind_some in H0 as (l & Hl & H0). apply obind_some in H0 as (ks & Hks & H0).
      eapply index_plain; eauto.
  Qed.

  (** ** Operators on plain values *)

  Lemma pr_addf : forall W sc a b, plain a = true -> plain b = true ->
    promises W (fun n => addf E (R n) sc a b) (add_disp (p_add (env_protos E)) a b).
  Proof.
    intros W sc a b PA PB. unfold addf.
    apply (pr_bind _ _ W (fun n => r_reduce (R n) a) _ a); [now apply pr_reduce_plain|].
    apply (pr_bind _ _ W (fun n => r_reduce (R n) b) _ b); [now apply pr_reduce_plain|].
    apply (pr_bind _ _ W (fun _ => obj_of a) _ None); [now apply pr_obj_of|].
    apply (pr_bind _ _ W (fun _ => obj_of b) _ None); [now apply pr_obj_of|].
    cbv beta. rewrite !is_query_none.
    assert (M : forall v, promises W (fun n => if match v with VQuery _ => true | _ => false end
                                               then materialize (R n) sc v else mret v) v).
    { intros v. destruct v; try apply pr_ret. unfold materialize, materialize_rows.
      eapply (pr_bind _ _ W _ _ rows); [apply pr_query_plain|apply pr_ret]. }
    match goal with |- promises _ (fun n => if ?c then _ else _) _ => destruct c end; [|apply pr_ret].
    eapply (pr_bind _ _ W _ _ a); [apply M|]. eapply (pr_bind _ _ W _ _ b); [apply M|]. apply pr_ret.
  Qed.

  Lemma pr_subf : forall W sc a b, plain a = true -> plain b = true ->
    promises W (fun n => subf E (R n) sc a b) (sub_disp (p_sub (env_protos E)) a b).
  Proof.
    intros W sc a b PA PB. unfold subf.
    apply (pr_bind _ _ W (fun n => r_reduce (R n) a) _ a); [now apply pr_reduce_plain|].
    apply (pr_bind _ _ W (fun n => r_reduce (R n) b) _ b); [now apply pr_reduce_plain|]. apply pr_ret.
  Qed.
  Lemma pr_divf : forall W sc a b, plain a = true -> plain b = true ->
    promises W (fun n => divf E (R n) sc a b) (div_disp (p_div (env_protos E)) a b).
  Proof.
    intros W sc a b PA PB. unfold divf.
    apply (pr_bind _ _ W (fun n => r_reduce (R n) a) _ a); [now apply pr_reduce_plain|].
    apply (pr_bind _ _ W (fun n => r_reduce (R n) b) _ b); [now apply pr_reduce_plain|]. apply pr_ret.
  Qed.
  Lemma pr_mulf : forall W sc a b x, plain a = true -> plain b = true ->
    mul_disp (p_mul (env_protos E)) a b = Ok x ->
    promises W (fun n => mulf E (R n) sc a b) x.
  Proof.
    intros W sc a b x PA PB M. unfold mulf.
    apply (pr_bind _ _ W (fun n => r_reduce (R n) a) _ a); [now apply pr_reduce_plain|].
    apply (pr_bind _ _ W (fun n => r_reduce (R n) b) _ b); [now apply pr_reduce_plain|].
    rewrite M. apply pr_ret.
  Qed.
  Lemma pr_cmpf : forall W sc op a b, plain a = true -> plain b = true ->
    promises W (fun n => cmpf E (R n) sc op a b) (VBool (cond_op (env_protos E) (env_match E) op a b)).
  Proof.
    intros W sc op a b PA PB. unfold cmpf.
    apply (pr_bind _ _ W (fun n => r_reduce (R n) a) _ a); [now apply pr_reduce_plain|].
    apply (pr_bind _ _ W (fun n => r_reduce (R n) b) _ b); [now apply pr_reduce_plain|]. apply pr_ret.
  Qed.

  (** ** Symbols *)

  Lemma pr_split : forall W node, promises W (fun _ => split_symbol node false) false.
  Proof.
    intros W node W1 s HW HS. unfold split_symbol.
    destruct (existsb (Nat.eqb node) (split_nodes s)) eqn:X.
    - exists W1, s. split; [apply wle_refl|]. split; [exact HS|]. split; [apply quiet_refl|].
      exists 0. intros n _. now rewrite X.
    - eexists W1, _. split; [apply wle_refl|]. split; [|split; [|exists 0; intros n _; rewrite X; reflexivity]].
      + constructor; simpl; apply HS.
      + constructor; simpl; auto. intros n o H. exists o. auto using obj_ext_refl.
  Qed.

  Lemma pr_assoc_path : forall path W sc v x,
    plain v = true -> follow E v path = Some x ->
    exists p, promises W (fun n => assoc_path (R n) sc v path) p /\
      (p = (x, true) \/ (x = VNull /\ p = (VNil, false))).
  Proof.
    induction path as [|c r IH]; intros W sc v x PV H; cbn [follow assoc_path] in *.
    - injection H as <-. exists (v, true). split; [apply pr_ret|auto].
    - pose proof (pr_assoc_plain v PV W sc (KVal (VStr c))) as A.
      destruct (assoc_disp (p_assoc (env_protos E)) v (KVal (VStr c))) as [y pres].
      destruct pres.
      + apply obind_some in H as (z & Hz & H). apply check_some in Hz as [-> PZ].
        destruct (IH W sc y x PZ H) as (p & HP & HX). exists p. split; [|exact HX].
        eapply pr_bind; [exact A|]. exact HP.
      + injection H as <-. exists (VNil, false). split; [|right; auto].
        eapply pr_bind; [exact A|]. apply pr_ret.
  Qed.

  Lemma follow_null : forall path, follow E VNull path = Some VNull.
  Proof. induction path as [|c r IH]; simpl; auto. Qed.

  Lemma pr_symbol : forall W sc fr node x path v,
    scope_ok W sc fr -> plain (lookup fr x) = true ->
    option_map or_null (follow E (lookup fr x) path) = Some v ->
    promises W (fun n => sym_reduce E (R n) sc node false (x :: path) false []) v.
  Proof.
    intros W sc fr node x path v SC PL H. apply omap_some in H as (w & HW & <-). unfold sym_reduce.
    apply (pr_bind _ _ W (fun _ => split_symbol node false) _ false); [apply pr_split|].
    cbv beta. replace (match path with [] => None | _ :: _ => None end) with (@None func) by (destruct path; reflexivity).
    assert (L : exists p, promises W (fun n => lookup_path (R n) sc (x :: path)) p /\
        (p = (w, true) \/ (w = VNull /\ p = (VNil, false)))).
    { destruct (p_resolve W sc fr x SC PL) as (p & F & HP). unfold lookup_path.
      destruct F as [->|[LN ->]].
      - destruct (pr_assoc_path path W sc _ _ PL HW) as (q & HQ & QX).
        exists q. split; [|exact QX]. eapply pr_bind; [exact HP|]. exact HQ.
      - rewrite LN, follow_null in HW. injection HW as <-.
        exists (VNil, false). split; [|auto]. eapply pr_bind; [exact HP|]. apply pr_ret. }
    assert (PW : plain w = true) by (eapply follow_plain; eauto).
    destruct L as (p & HP & HX). eapply pr_bind; [exact HP|].
    destruct HX as [->|[-> ->]]; cbv beta iota; [|apply pr_ret].
    destruct (match w with VNil => true | _ => negb true end) eqn:NW.
    - destruct w; try discriminate. apply pr_ret.
    - apply (pr_bind _ _ W (fun _ => obj_of w) _ None); [now apply pr_obj_of|].
      cbv beta iota. unfold maybe_negate. replace (or_null w) with w; [apply pr_ret|].
      destruct w; try reflexivity; discriminate.
  Qed.


  (** ** Calls of host functions *)

  Definition lazy_ok (W : world) (e : expr) (sc : scope) (v : val) : Prop :=
    exists x, promises W (fun n => r_expr (R n) sc e) x /\ plain x = true /\ v = expand x.

  (** An argument and what it stands for. *)
  Definition stands (W : world) (a v : val) : Prop :=
    (a = v /\ plain v = true) \/
    exists n e sc, a = VOpaque n /\ W n = Some (WLazy e sc v) /\ lazy_ok W e sc v.

  Lemma stands_weaken : forall W W' a v, wle W W' -> stands W a v -> stands W' a v.
  Proof.
    intros W W' a v HW [H|(n & e & sc & -> & Hn & x & HP & PX & ->)]; [now left|].
    right. exists n, e, sc. split; [reflexivity|]. split; [auto|].
    exists x. split; [eapply pr_weaken; eauto|auto].
  Qed.

  Lemma stands_plain : forall W a v, stands W a v -> plain v = true.
  Proof.
    intros W a v [[_ H]|(n & e & sc & _ & _ & x & _ & PX & ->)]; [exact H|]. now apply plain_expand.
  Qed.

  Lemma expand_eval : forall W n0 e sc v,
    W n0 = Some (WLazy e sc v) -> lazy_ok W e sc v ->
    forall sc', promises W (fun n => r_reduce_ws (R n) sc' (VOpaque n0)) v.
  Proof.
    intros W n0 e sc v Hn (x & HP & PX & ->) sc'. apply pr_reduce_ws. unfold reduce_ws_step.
    intros W1 s HW HS. destruct (so_heap _ _ HS n0 _ (HW _ _ Hn)) as (o & Ho & OK).
    destruct o; simpl in OK; try contradiction. destruct OK as (-> & -> & _).
    assert (G : promises W (fun n => x <- r_expr (R n) sc e ;; ox <- obj_of x ;;
                  match x with
                  | VQuery rows => mret (VArr rows)
                  | _ => if is_lazy ox then r_reduce (R n) x else mret x
                  end) (expand x)).
    { eapply (pr_bind _ _ W _ _ x); [exact HP|].
      eapply (pr_bind _ _ W (fun _ => obj_of x) _ None); [now apply pr_obj_of|].
      cbn [is_lazy]. destruct x; apply pr_ret. }
    destruct (G W1 s HW HS) as (W2 & s2 & H1 & H2 & H3 & H4).
    exists W2, s2. split; [exact H1|]. split; [exact H2|]. split; [exact H3|].
    eapply ev_ext; [|exact H4]. intros n. unfold mbind at 3. unfold obj_of at 2. rewrite Ho. reflexivity.
  Qed.

  Lemma stands_ws : forall W sc a v, stands W a v -> promises W (fun n => r_reduce_ws (R n) sc a) v.
  Proof.
    intros W sc a v [[-> PV]|(n & e & sc0 & -> & Hn & HL)].
    - apply pr_reduce_ws. unfold reduce_ws_step.
      apply (pr_bind _ _ W (fun _ => obj_of v) _ None); [now apply pr_obj_of|]. apply pr_ret.
    - eapply expand_eval; eauto.
  Qed.

  Lemma stands_reduce : forall W a v, stands W a v -> promises W (fun n => r_reduce (R n) a) v.
  Proof.
    intros W a v [[-> PV]|(n0 & e & sc & -> & Hn & HL)]; [now apply pr_reduce_plain|].
    apply pr_reduce. unfold reduce_step.
    intros W1 s HW HS. destruct (so_heap _ _ HS n0 _ (HW _ _ Hn)) as (o & Ho & OK).
    destruct o; simpl in OK; try contradiction. destruct OK as (-> & -> & [->| ->]).
    - destruct (expand_eval W n0 e sc v Hn HL sc W1 s HW HS) as (W2 & s2 & HW2 & HS2 & Q2 & [N E2]).
      destruct (so_heap _ _ HS2 n0 _ (HW2 _ _ (HW _ _ Hn))) as (o2 & Ho2 & OK2).
      destruct o2; simpl in OK2; try contradiction. destruct OK2 as (-> & -> & _).
      set (o3 := OLazy e sc (match v with VNil => None | _ => Some v end)).
      assert (O3 : wobj_ok (WLazy e sc v) o3).
      { simpl. destruct v; auto. }
      exists W2, (set_heap (set_nth n0 o3 (heap s2)) s2).
      split; [exact HW2|]. split; [|split].
      + constructor; [|apply HS2]. intros m y Hm. simpl.
        destruct (Nat.eq_dec n0 m) as [<-|NE].
        * rewrite (HW2 _ _ (HW _ _ Hn)) in Hm. injection Hm as <-.
          exists o3. split; [eapply set_nth_same; eauto|]. exact O3.
        * rewrite set_nth_other by exact NE. apply (so_heap _ _ HS2 _ _ Hm).
      + eapply quiet_trans; [exact Q2|]. constructor; simpl; auto.
        intros m o Hm. destruct (Nat.eq_dec n0 m) as [<-|NE].
        * exists o3. split; [eapply set_nth_same; eauto|].
          rewrite Ho2 in Hm. injection Hm as <-. simpl. auto.
        * rewrite set_nth_other by exact NE. exists o. auto using obj_ext_refl.
      + exists N. intros m Hm. unfold mbind at 1. unfold obj_of. rewrite Ho.
        unfold mbind at 1. rewrite E2 by lia.
        unfold mbind, update_obj, mret. reflexivity.
    - exists W1, s. split; [apply wle_refl|]. split; [exact HS|]. split; [apply quiet_refl|].
      exists 0. intros m _. unfold mbind, obj_of. rewrite Ho. reflexivity.
  Qed.

  (** Building the arguments *)
  Definition args_stand (W : world) (args vals : dict) : Prop :=
    Forall2 (fun a b => fst a = fst b /\ stands W (snd a) (snd b)) args vals.

  Lemma args_stand_weaken : forall W W' args vals, wle W W' ->
    args_stand W args vals -> args_stand W' args vals.
  Proof.
    intros W W' args vals HW H. induction H as [|a b args vals [H1 H2] _ IH]; constructor; auto.
    split; [exact H1|]. eapply stands_weaken; eauto.
  Qed.

  Lemma args_stand_set : forall W args vals k a v,
    args_stand W args vals -> stands W a v ->
    args_stand W (dict_set k a args) (dict_set k v vals).
  Proof.
    intros W args vals k a v H Ha. unfold dict_set. apply Forall2_app.
    - induction H as [|x y args vals [H1 H2] _ IH]; simpl; [constructor|].
      destruct x as [kx ax], y as [ky vy]. simpl in H1, H2. subst ky. simpl.
      destruct (String.eqb k kx); [exact IH|]. constructor; auto.
    - constructor; [auto|constructor].
  Qed.

  Lemma pr_alloc_lazy : forall W1 s e sc x,
    promises W1 (fun n => r_expr (R n) sc e) x -> plain x = true -> stok W1 s ->
    exists W2 s2 a, wle W1 W2 /\ stok W2 s2 /\ quiet s s2 /\ stands W2 a (expand x) /\
      alloc (OLazy e sc None) s = (s2, RVal a).
  Proof.
    intros W1 s e sc x HP PX HS.
    set (n0 := List.length (heap s)).
    set (W2 := fun n => if Nat.eqb n n0 then Some (WLazy e sc (expand x)) else W1 n).
    assert (FR : W1 n0 = None).
    { destruct (W1 n0) as [y|] eqn:EW; [|reflexivity].
      destruct (so_heap _ _ HS _ _ EW) as (o & Ho & _).
      assert (n0 < List.length (heap s)) by (apply nth_error_Some; congruence). lia. }
    assert (HW : wle W1 W2).
    { intros n y Hn. unfold W2. destruct (Nat.eqb n n0) eqn:EN; [|exact Hn].
      apply Nat.eqb_eq in EN as ->. congruence. }
    exists W2, (set_heap (heap s ++ [OLazy e sc None]) s), (VOpaque n0).
    split; [exact HW|]. split; [|split; [|split; [|reflexivity]]].
    - constructor; [|apply HS]. intros n y Hn. simpl. unfold W2 in Hn.
      destruct (Nat.eqb n n0) eqn:EN.
      + apply Nat.eqb_eq in EN as ->. injection Hn as <-.
        exists (OLazy e sc None). split; [apply nth_error_snoc|]. simpl. auto.
      + destruct (so_heap _ _ HS _ _ Hn) as (o & Ho & OK). exists o.
        split; [now apply nth_error_app_some|exact OK].
    - constructor; simpl; auto. intros n o Hn. exists o.
      split; [now apply nth_error_app_some|apply obj_ext_refl].
    - right. exists n0, e, sc. split; [reflexivity|]. split.
      + unfold W2. now rewrite Nat.eqb_refl.
      + exists x. split; [eapply pr_weaken; eauto|auto].
  Qed.

  Definition arg_den (fr : list dict) (na : string * argval) : option (string * val) :=
    match na with
    | (name, AExpr e) => option_map (fun v => (name, expand v)) (den E funs fr e)
    | (name, AArray e) => option_map (fun v => (name, v)) (den E funs fr e)
    | (name, AEmpty) => Some (name, VArr [])
    | (_, ASelect _) => None
    end.

  Lemma build_lazy_args_ok : forall W sc fr params,
    Forall (fun na => on_arg (fun e => forall v, den E funs fr e = Some v ->
        promises W (fun n => r_expr (R n) sc e) v) (snd na)) params ->
    forall argv, sequence (map (arg_den fr) params) = Some argv ->
    forall W1 s args vals, wle W W1 -> stok W1 s -> args_stand W1 args vals ->
    exists W2 s2 args', wle W1 W2 /\ stok W2 s2 /\ quiet s s2 /\
      args_stand W2 args' (fold_left (fun d kv => dict_set (fst kv) (snd kv) d) argv vals) /\
      evaluates (fun n => build_lazy_args (R n) sc params args) s s2 args'.
  Proof.
    intros W sc fr params H. induction H as [|[name a] params Ha _ IH];
      intros argv HA W1 s args vals HW HS ST; cbn [map build_lazy_args] in *.
    - injection HA as <-. exists W1, s, args. split; [apply wle_refl|]. split; [exact HS|].
      split; [apply quiet_refl|]. split; [exact ST|]. exists 0. reflexivity.
    - apply sequence_cons in HA as (y & r & Hy & Hr & ->). simpl in Ha.
      assert (STEP : forall W2 s2 (m : nat -> EM val) b,
        wle W1 W2 -> stok W2 s2 -> quiet s s2 -> stands W2 b (snd y) -> fst y = name ->
        evaluates m s s2 b ->
        exists W3 s3 args', wle W1 W3 /\ stok W3 s3 /\ quiet s s3 /\
          args_stand W3 args' (fold_left (fun d kv => dict_set (fst kv) (snd kv) d) (y :: r) vals) /\
          evaluates (fun n => v <- m n;; build_lazy_args (R n) sc params (dict_set name v args)) s s3 args').
      { intros W2 s2 m b HW2 HS2 Q2 SB FY EM0.
        destruct (IH r Hr W2 s2 (dict_set name b args) (dict_set name (snd y) vals))
          as (W3 & s3 & args' & HW3 & HS3 & Q3 & ST3 & EV3).
        - eapply wle_trans; eauto.
        - exact HS2.
        - apply args_stand_set; [|exact SB]. eapply args_stand_weaken; eauto.
        - exists W3, s3, args'. split; [eapply wle_trans; eauto|]. split; [exact HS3|].
          split; [eapply quiet_trans; eauto|]. split; [simpl; now rewrite FY|].
          eapply ev_bind; [exact EM0|]. exact EV3. }
      destruct a as [e|sq|e|]; cbn [arg_den on_arg] in *.
      + apply omap_some in Hy as (x & Hx & <-).
        destruct (pr_alloc_lazy W1 s e sc x) as (W2 & s2 & b & HW2 & HS2 & Q2 & SB & AL); auto.
        { eapply pr_weaken; [exact HW|auto]. }
        { eapply den_plain; eauto. }
        eapply STEP; eauto. exists 0. intros n _. exact AL.
      + discriminate.
      + apply omap_some in Hy as (x & Hx & <-).
        destruct (Ha x Hx W1 s HW HS) as (W2 & s2 & HW2 & HS2 & Q2 & EV).
        eapply STEP; eauto. left. split; [reflexivity|]. eapply den_plain; eauto.
      + injection Hy as <-. eapply (STEP W1 s (fun _ => mret (VArr []))); eauto using wle_refl, quiet_refl.
        * left. auto.
        * exists 0. reflexivity.
  Qed.

  (** Running the program of a host function *)
  Lemma run_prog_ok : forall W sc rho,
    (forall x y, rho x = Some y -> stands W x y) ->
    forall p v, prog_den E rho p v -> promises W (fun n => run_prog E (R n) sc p) v.
  Proof.
    intros W sc rho HR p v H.
    induction H as [v|x k y v Hx _ IH|x k y v Hx _ IH|x k y v Hx _ IH|x k y v Hx _ IH];
      cbn [run_prog]; try (specialize (HR _ _ Hx); pose proof (stands_plain _ _ _ HR) as PY).
    - apply pr_ret.
    - eapply pr_bind; [apply stands_reduce; eauto|]. exact IH.
    - eapply pr_bind; [apply stands_ws; eauto|]. exact IH.
    - eapply (pr_bind _ _ W _ _ (truthy E y)); [|exact IH]. unfold truth.
      eapply (pr_bind _ _ W _ _ y); [apply stands_reduce; eauto|].
      eapply (pr_bind _ _ W (fun _ => obj_of y) _ None); [now apply pr_obj_of|].
      destruct y; try apply pr_ret; discriminate.
    - eapply (pr_bind _ _ W _ _ y); [apply stands_reduce; eauto|].
      eapply (pr_bind _ _ W (fun _ => obj_of y) _ None); [now apply pr_obj_of|]. cbv beta.
      rewrite is_query_none.
      eapply (pr_bind _ _ W _ _ (match y with VQuery rows => rows | _ => iterate (env_iter E) y end));
        [|exact IH].
      destruct y; try apply pr_ret. apply pr_query_plain.
  Qed.

  (** The meaning of the arguments as a function on values. *)
  Definition meaning (args vals : dict) (x : val) : option val :=
    if plain x then Some x
    else match x with
         | VOpaque n =>
             (fix go (args vals : dict) : option val :=
                match args, vals with
                | (_, VOpaque m) :: args, (_, v) :: vals => if Nat.eqb n m then Some v else go args vals
                | _ :: args, _ :: vals => go args vals
                | _, _ => None
                end) args vals
         | _ => None
         end.

  Lemma meaning_stands : forall W args vals, args_stand W args vals ->
    forall x y, meaning args vals x = Some y -> stands W x y.
  Proof.
    intros W args vals H x y M. unfold meaning in M. destruct (plain x) eqn:PX.
    - injection M as <-. left. auto.
    - destruct x; try discriminate.
      induction H as [|[k a] [k' v] args vals [H1 H2] _ IH]; [discriminate|].
      simpl in H1, H2. destruct a; auto. destruct (Nat.eqb n n0) eqn:EN; [|auto].
      apply Nat.eqb_eq in EN as ->. injection M as <-. exact H2.
  Qed.

  Lemma meaning_args : forall W args vals, args_stand W args vals ->
    Forall2 (fun a b => fst a = fst b /\ meaning args vals (snd a) = Some (snd b)) args vals.
  Proof.
    intros W args vals H.
    assert (G : forall args0 vals0,
      Forall2 (fun a b : string * val => fst a = fst b /\
        (snd a = snd b /\ plain (snd b) = true \/
         exists n e sc, snd a = VOpaque n /\ W n = Some (WLazy e sc (snd b)))) args0 vals0 ->
      forall n v e sc, In v vals0 -> True ->
      W n = Some (WLazy e sc (snd v)) -> In (VOpaque n) (map snd args0) ->
      meaning args0 vals0 (VOpaque n) = Some (snd v)).
    { clear H args vals. intros args vals H n v e sc _ _ Hn HI. unfold meaning. cbn [plain].
      induction H as [|[k a] [k' w] args vals [H1 H2] _ IH]; [contradiction|].
      simpl in HI, H2. destruct HI as [->|HI].
      - destruct H2 as [[<- PW]|(n' & e' & sc' & EQ & Hn')]; [discriminate|].
        injection EQ as <-. rewrite Nat.eqb_refl. congruence.
      - destruct a as [| | | | | | | | | | | |m]; auto. destruct (Nat.eqb n m) eqn:EN; [|auto].
        apply Nat.eqb_eq in EN as <-.
        destruct H2 as [[<- PW]|(n' & e' & sc' & EQ & Hn')]; [discriminate|].
        injection EQ as <-. congruence. }
    assert (H' : Forall2 (fun a b : string * val => fst a = fst b /\
        (snd a = snd b /\ plain (snd b) = true \/
         exists n e sc, snd a = VOpaque n /\ W n = Some (WLazy e sc (snd b)))) args vals).
    { clear G. induction H as [|a b args vals [H1 H2] _ IH]; constructor; auto.
      split; [exact H1|]. destruct H2 as [H2|(n & e & sc & A & B & _)]; [now left|right]. eauto. }
    specialize (G args vals H').
    assert (K : forall args0 vals0, Forall2 (fun a b : string * val => fst a = fst b /\
        (snd a = snd b /\ plain (snd b) = true \/
         exists n e sc, snd a = VOpaque n /\ W n = Some (WLazy e sc (snd b)))) args0 vals0 ->
        (forall x, In x args0 -> In x args) -> (forall x, In x vals0 -> In x vals) ->
        Forall2 (fun a b => fst a = fst b /\ meaning args vals (snd a) = Some (snd b)) args0 vals0).
    { intros args0 vals0 H0 I1 I2. induction H0 as [|a b args0 vals0 [H1 H2] _ IH]; constructor.
      - split; [exact H1|]. destruct H2 as [[-> PB]|(n & e & sc & EA & HN)].
        + unfold meaning. now rewrite PB.
        + rewrite EA. eapply G; eauto.
          * apply I2. now left.
          * rewrite <- EA. apply in_map. apply I1. now left.
      - apply IH; intros x Hx; [apply I1|apply I2]; now right. }
    apply K; auto.
  Qed.

  (** ** Calls of the built in functions *)

  Lemma stand_keys : forall W args vals, args_stand W args vals -> keys args = keys vals.
  Proof.
    intros W args vals H. induction H as [|a b args vals [H1 _] _ IH]; [reflexivity|].
    unfold keys in *. cbn [map]. now rewrite H1, IH.
  Qed.
  Lemma stand_assoc : forall W args vals k, args_stand W args vals ->
    match assoc k args, assoc k vals with
    | Some a, Some v => stands W a v
    | None, None => True
    | _, _ => False
    end.
  Proof.
    intros W args vals k H. induction H as [|[ka a] [kb b] args vals [H1 H2] _ IH]; cbn [assoc]; [exact I|].
    cbn in H1, H2. subst kb. destruct (String.eqb k ka); [exact H2|exact IH].
  Qed.

  (** The argument parser on arguments whose coercions are known. *)
  Section Parse.
    Variable g : fieldp -> option val.
    Fixpoint pfields (fields : list fieldp) (args : dict) (parsed : list string) (target : list val)
      : list string * list val * option perr :=
      match fields with
      | [] => (parsed, target, None)
      | f :: rest =>
          match assoc (fp_name f) args with
          | None =>
              if fp_required f then (parsed, target, Some (EMissing (fp_name f)))
              else pfields rest args parsed target
          | Some _ =>
              match g f with
              | None => (parsed, target, Some (ECoerce (fp_name f)))
              | Some v => pfields rest args (parsed ++ [fp_name f]) (set_field (fp_idx f) v target)
              end
          end
      end.
    Definition pparse (fields : list fieldp) (args : dict) (target : list val)
      : list val * option perr :=
      match pfields fields args [] target with
      | (parsed, t, Some e) => (t, Some e)
      | (parsed, t, None) =>
          (t, if Nat.eqb (List.length parsed) (List.length args) then None
              else unexpected parsed (keys args))
      end.

    Lemma pfields_parsed : forall fields args parsed target p t,
      pfields fields args parsed target = (p, t, None) ->
      p = parsed ++ filter (fun n => mem_str n (keys args)) (map fp_name fields) /\
      Forall (fun f => match assoc (fp_name f) args with
                       | Some _ => g f <> None
                       | None => fp_required f = false
                       end) fields.
    Proof.
      induction fields as [|f fields IH]; intros args parsed target p t H; cbn [pfields map filter] in *.
      - injection H as <- <-. rewrite app_nil_r. auto.
      - assert (M : mem_str (fp_name f) (keys args) =
                    match assoc (fp_name f) args with Some _ => true | None => false end).
        { clear. induction args as [|[k v] args IH]; [reflexivity|]. unfold mem_str in *. cbn.
          destruct (String.eqb (fp_name f) k); [reflexivity|exact IH]. }
        rewrite M. destruct (assoc (fp_name f) args) as [a|] eqn:EA.
        + destruct (g f) as [v|] eqn:EG; [|discriminate].
          destruct (IH _ _ _ _ _ H) as [-> HF]. rewrite <- app_assoc. split; [reflexivity|].
          constructor; [|exact HF]. rewrite EA. congruence.
        + destruct (fp_required f) eqn:ER; [discriminate|].
          destruct (IH _ _ _ _ _ H) as [-> HF]. split; [reflexivity|]. constructor; [|exact HF].
          now rewrite EA.
    Qed.
    Lemma pfields_err : forall fields args parsed target p t e,
      pfields fields args parsed target = (p, t, Some e) ->
      Exists (fun f => match assoc (fp_name f) args with
                       | Some _ => g f = None
                       | None => fp_required f = true
                       end) fields.
    Proof.
      induction fields as [|f fields IH]; intros args parsed target p t e H; cbn [pfields] in *; [discriminate|].
      destruct (assoc (fp_name f) args) as [a|] eqn:EA.
      - destruct (g f) as [v|] eqn:EG; [right; eauto|]. left. now rewrite EA.
      - destruct (fp_required f) eqn:ER; [left; now rewrite EA|right; eauto].
    Qed.
  End Parse.

  Lemma mem_keys : forall A k (d : list (string * A)),
    mem_str k (keys d) = match assoc k d with Some _ => true | None => false end.
  Proof.
    intros A k d. induction d as [|[k' v] d IH]; [reflexivity|]. unfold mem_str in *. cbn.
    destruct (String.eqb k k'); [reflexivity|exact IH].
  Qed.
  Lemma mem_str_In : forall k l, mem_str k l = true <-> In k l.
  Proof.
    intros k l. unfold mem_str. rewrite existsb_exists. split.
    - intros (x & HI & HE). apply String.eqb_eq in HE as ->. exact HI.
    - intros HI. exists k. split; [exact HI|apply String.eqb_refl].
  Qed.
  Lemma unexpected_none : forall parsed names,
    unexpected parsed names = None <-> forallb (fun k => mem_str k parsed) names = true.
  Proof.
    intros parsed names. induction names as [|k names IH]; cbn; [tauto|].
    destruct (mem_str k parsed); [exact IH|]. split; discriminate.
  Qed.

  (** No error exactly if the arguments are those the function takes and can
      be coerced. *)
  Lemma pparse_ok : forall g fields args target,
    NoDup (keys args) -> NoDup (map fp_name fields) ->
    given (map fp_name fields) (map fp_name (filter fp_required fields)) args = true ->
    Forall (fun f => assoc (fp_name f) args <> None -> g f <> None) fields ->
    snd (pparse g fields args target) = None.
  Proof.
    intros g fields args target ND NF HG HC. unfold given in HG. apply andb_true_iff in HG as [G1 G2].
    unfold pparse. destruct (pfields g fields args [] target) as [[p t] [e|]] eqn:EP.
    - exfalso. apply pfields_err in EP. apply Exists_exists in EP as (f & HI & HE).
      rewrite Forall_forall in HC. rewrite forallb_forall in G2.
      destruct (assoc (fp_name f) args) as [a|] eqn:EA.
      + apply (HC f HI); [congruence|exact HE].
      + assert (IR : In (fp_name f) (map fp_name (filter fp_required fields))).
        { apply in_map. apply filter_In. auto. }
        apply G2 in IR. rewrite mem_keys, EA in IR. discriminate.
    - apply pfields_parsed in EP as [-> _]. cbn [app snd].
      destruct (Nat.eqb _ _); [reflexivity|]. apply unexpected_none.
      rewrite forallb_forall in *. intros k Hk. apply mem_str_In. apply filter_In.
      split; [apply mem_str_In; auto|]. now apply mem_str_In.
  Qed.
  Lemma pparse_bad : forall g fields args target,
    NoDup (keys args) -> NoDup (map fp_name fields) ->
    given (map fp_name fields) (map fp_name (filter fp_required fields)) args = false \/
    Exists (fun f => assoc (fp_name f) args <> None /\ g f = None) fields ->
    snd (pparse g fields args target) <> None.
  Proof.
    intros g fields args target ND NF HB HN. unfold pparse in HN.
    destruct (pfields g fields args [] target) as [[p t] [e|]] eqn:EP; [discriminate|].
    apply pfields_parsed in EP as [-> HF]. cbn [app snd] in HN.
    assert (ALL : forallb (fun k => mem_str k (map fp_name fields)) (keys args) = true).
    { apply forallb_forall. intros k Hk. apply mem_str_In.
      set (p := filter (fun n => mem_str n (keys args)) (map fp_name fields)) in *.
      assert (IP : In k p); [|unfold p in IP; apply filter_In in IP; tauto].
      destruct (Nat.eqb (List.length p) (List.length args)) eqn:EL.
      - apply Nat.eqb_eq in EL.
        assert (INC : incl p (keys args)).
        { intros x Hx. unfold p in Hx. apply filter_In in Hx. apply mem_str_In. tauto. }
        assert (NP : NoDup p) by (apply NoDup_filter; exact NF).
        refine (NoDup_length_incl (l' := keys args) NP _ INC k Hk).
        unfold keys. rewrite map_length. lia.
      - apply unexpected_none in HN. rewrite forallb_forall in HN. apply mem_str_In. auto. }
    rewrite Forall_forall in HF. destruct HB as [HB|HB].
    - unfold given in HB. rewrite ALL in HB. cbn [andb] in HB.
      apply not_true_iff_false in HB. apply HB. apply forallb_forall. intros k Hk.
      apply in_map_iff in Hk as (f & <- & Hf). apply filter_In in Hf as [Hf HR].
      rewrite mem_keys. specialize (HF _ Hf). destruct (assoc (fp_name f) args); congruence.
    - apply Exists_exists in HB as (f & Hf & HA & HG). specialize (HF _ Hf).
      destruct (assoc (fp_name f) args); [|congruence]. contradiction.
  Qed.

  Notation coerce_in n sc := (coerce (r_reduce (R n)) (r_reduce_ws (R n) sc) (truth E (R n) sc) members
      (fun a k => r_assoc (R n) sc a (KVal (VStr k))) (env_sprint E)
      (to_stored_query (R n)) to_lazy_expr (row_to_dict (R n) sc)).
  Notation parse_in n sc := (parse_fields (r_reduce (R n)) (r_reduce_ws (R n) sc) (truth E (R n) sc) members
      (fun a k => r_assoc (R n) sc a (KVal (VStr k))) (env_sprint E)
      (to_stored_query (R n)) to_lazy_expr (row_to_dict (R n) sc)).

  Lemma pr_parse_fields : forall g W sc args fields,
    Forall (fun f => forall a, assoc (fp_name f) args = Some a ->
              promises W (fun n => coerce_in n sc (fp_type f) a) (g f) /\
              (forall v, g f = Some v -> set_ok (fp_type f) v = true)) fields ->
    forall parsed target,
      promises W (fun n => parse_in n sc fields args parsed target) (pfields g fields args parsed target).
  Proof.
    intros g W sc args fields H. induction H as [|f fields Hf _ IH]; intros parsed target;
      cbn [parse_fields pfields].
    - apply pr_ret.
    - destruct (assoc (fp_name f) args) as [a|].
      + destruct (Hf a eq_refl) as [HC HS]. eapply pr_bind; [exact HC|]. cbv beta.
        destruct (g f) as [v|]; [|apply pr_ret]. rewrite (HS v eq_refl). apply IH.
      + destruct (fp_required f); [apply pr_ret|apply IH].
  Qed.

  Lemma pr_parse_args : forall g W sc args fields target,
    assoc "**"%string args = None ->
    Forall (fun f => forall a, assoc (fp_name f) args = Some a ->
              promises W (fun n => coerce_in n sc (fp_type f) a) (g f) /\
              (forall v, g f = Some v -> set_ok (fp_type f) v = true)) fields ->
    promises W (fun n => parse_args E (R n) sc fields args target) (pparse g fields args target).
  Proof.
    intros g W sc args fields target NS H. unfold parse_args, extract_args, normalize_args, parse.
    rewrite NS. eapply (pr_bind _ _ W (fun _ => mret args) _ args); [apply pr_ret|]. cbv beta.
    eapply pr_bind; [apply pr_parse_fields; exact H|]. cbv beta. unfold pparse.
    destruct (pfields g fields args [] target) as [[p t] [e|]]; [apply pr_ret|].
    destruct (Nat.eqb _ _); apply pr_ret.
  Qed.

  Lemma pr_coerce_any : forall W sc a v, stands W a v ->
    promises W (fun n => coerce_in n sc TAny a) (Some v).
  Proof.
    intros. cbn [coerce]. eapply pr_bind; [apply stands_ws; eauto|]. apply pr_ret.
  Qed.
  Lemma pr_coerce_int : forall W sc a v, stands W a v ->
    promises W (fun n => coerce_in n sc TInt64 a) (option_map vint (to_int64 v)).
  Proof.
    intros. cbn [coerce]. eapply pr_bind; [apply stands_reduce; eauto|]. cbv beta.
    destruct (to_int64 v); apply pr_ret.
  Qed.
  Definition text_value (v : val) : string :=
    match v with VStr s => s | VNil | VNull => ""%string | _ => env_sprint E v end.
  Lemma pr_coerce_text : forall W sc a v, stands W a v -> is_array v = false ->
    promises W (fun n => coerce_in n sc TString a) (Some (VStr (text_value v))).
  Proof.
    intros W sc a v HS HA. cbn [coerce]. eapply pr_bind; [apply stands_reduce; eauto|]. cbv beta.
    rewrite HA. eapply (pr_bind _ _ W (fun _ => mret None) _ None); [apply pr_ret|]. cbv beta.
    destruct v; apply pr_ret.
  Qed.

  (** Coercions of the arguments of the built in functions. *)
  Definition coerced (args vals : dict) (f : fieldp) : option val :=
    match fp_type f with
    | TLazyAny => assoc (fp_name f) args
    | TString => option_map (fun v => VStr (text_value v)) (assoc (fp_name f) vals)
    | TInt64 => match assoc (fp_name f) vals with
                | Some v => option_map vint (to_int64 v) | None => None end
    | _ => assoc (fp_name f) vals
    end.
  Definition plain_field (vals : dict) (f : fieldp) : Prop :=
    match fp_type f with
    | TAny | TLazyAny | TInt64 => True
    | TString => match assoc (fp_name f) vals with Some v => is_array v = false | None => True end
    | _ => False
    end.

  Lemma pr_builtin_args : forall W sc args vals fields target,
    args_stand W args vals -> mem_str "**" (keys vals) = false ->
    existsb (fun kv => match snd kv with VNil => true | _ => false end) vals = false ->
    Forall (plain_field vals) fields ->
    promises W (fun n => parse_args E (R n) sc fields args target)
      (pparse (coerced args vals) fields args target).
  Proof.
    intros W sc args vals fields target ST NS NN PF. apply pr_parse_args.
    - rewrite mem_keys in NS. pose proof (stand_assoc _ _ _ "**"%string ST) as A.
      destruct (assoc "**"%string args), (assoc "**"%string vals); tauto || discriminate || reflexivity.
    - eapply Forall_impl; [|exact PF]. intros f HP a HA.
      pose proof (stand_assoc _ _ _ (fp_name f) ST) as A. rewrite HA in A.
      destruct (assoc (fp_name f) vals) as [v|] eqn:EV; [|contradiction].
      assert (NV : v <> VNil).
      { intros ->. apply not_true_iff_false in NN. apply NN. apply existsb_exists.
        apply BaseProofs.assoc_in in EV. exists (fp_name f, VNil). auto. }
      unfold coerced. unfold plain_field in HP. rewrite EV in *. rewrite ?HA.
      destruct (fp_type f); try contradiction; cbn [option_map].
      + split; [now apply pr_coerce_any|]. intros x [= <-]. destruct v; try reflexivity. congruence.
      + split; [apply pr_ret|]. intros x [= <-].
        destruct A as [[-> _]|(n & e & sc' & -> & _)]; [destruct v; try reflexivity; congruence|reflexivity].
      + split; [now apply pr_coerce_text|]. intros x [= <-]. reflexivity.
      + split; [now apply pr_coerce_int|]. intros x HX. destruct (to_int64 v); [|discriminate].
        injection HX as <-. reflexivity.
  Qed.

  Lemma pfields_target : forall g fields args parsed target p t,
    pfields g fields args parsed target = (p, t, None) ->
    t = fold_left (fun t f => match assoc (fp_name f) args, g f with
                              | Some _, Some v => set_field (fp_idx f) v t
                              | _, _ => t
                              end) fields target.
  Proof.
    intros g. induction fields as [|f fields IH]; intros args parsed target p t H; cbn [pfields fold_left] in *.
    - congruence.
    - destruct (assoc (fp_name f) args) as [a|].
      + destruct (g f) as [v|]; [|discriminate]. eauto.
      + destruct (fp_required f); [discriminate|]. eauto.
  Qed.

  Lemma given_keys : forall allowed required (a b : dict), keys a = keys b ->
    given allowed required a = given allowed required b.
  Proof. intros allowed required a b H. unfold given. now rewrite H. Qed.

  (** What the parser leaves in the struct, or an error. *)
  Lemma builtin_args : forall W sc args vals fields target,
    args_stand W args vals -> NoDup (keys vals) -> NoDup (map fp_name fields) ->
    mem_str "**" (keys vals) = false ->
    existsb (fun kv => match snd kv with VNil => true | _ => false end) vals = false ->
    Forall (plain_field vals) fields ->
    exists t err, promises W (fun n => parse_args E (R n) sc fields args target) (t, err) /\
      if given (map fp_name fields) (map fp_name (filter fp_required fields)) vals &&
         forallb (fun f => match fp_type f, assoc (fp_name f) vals with
                           | TInt64, Some v => match to_int64 v with Some _ => true | None => false end
                           | _, _ => true
                           end) fields
      then err = None /\
           t = fold_left (fun t f => match assoc (fp_name f) args, coerced args vals f with
                                     | Some _, Some v => set_field (fp_idx f) v t
                                     | _, _ => t
                                     end) fields target
      else err <> None.
  Proof.
    intros W sc args vals fields target ST ND NF NS NN PF.
    pose proof (pr_builtin_args W sc args vals fields target ST NS NN PF) as P.
    assert (NDA : NoDup (keys args)) by (now rewrite (stand_keys _ _ _ ST)).
    pose proof (given_keys (map fp_name fields) (map fp_name (filter fp_required fields)) args vals
                  (stand_keys _ _ _ ST)) as GK.
    destruct (pparse (coerced args vals) fields args target) as [t err] eqn:EP. exists t, err.
    split; [exact P|].
    match goal with |- if ?x && ?y then _ else _ => destruct x eqn:G; [destruct y eqn:C|] end; cbn [andb].
    - assert (EN : err = None).
      { replace err with (snd (pparse (coerced args vals) fields args target)) by (now rewrite EP).
        apply pparse_ok; [exact NDA|exact NF|congruence|].
        apply Forall_forall. intros f Hf HA. rewrite forallb_forall in C. specialize (C f Hf).
        rewrite Forall_forall in PF. specialize (PF f Hf). unfold coerced, plain_field in *.
        pose proof (stand_assoc _ _ _ (fp_name f) ST) as A.
        destruct (assoc (fp_name f) args) as [a|]; [|congruence].
        destruct (assoc (fp_name f) vals) as [v|]; [|contradiction].
        destruct (fp_type f); cbn [option_map]; try discriminate; try contradiction.
        destruct (to_int64 v); discriminate. }
      split; [exact EN|]. unfold pparse in EP.
      destruct (pfields (coerced args vals) fields args [] target) as [[p t'] [e|]] eqn:EF.
      + injection EP as <- <-. discriminate.
      + injection EP as <- _. eapply pfields_target; eauto.
    - replace err with (snd (pparse (coerced args vals) fields args target)) by (now rewrite EP).
      apply pparse_bad; [exact NDA|exact NF|]. right. apply Exists_exists.
      apply not_true_iff_false in C. 
      assert (X : exists f, In f fields /\ match fp_type f, assoc (fp_name f) vals with
                           | TInt64, Some v => match to_int64 v with Some _ => true | None => false end
                           | _, _ => true
                           end = false).
      { clear - C. induction fields as [|f fields IH]; [exfalso; apply C; reflexivity|]. cbn [forallb] in C.
        match type of C with (?x && _)%bool <> _ => destruct x eqn:EX end.
        - destruct IH as (f' & HI & HF); [exact C|]. exists f'. split; [now right|exact HF].
        - exists f. split; [now left|exact EX]. }
      destruct X as (f & Hf & HX). exists f. split; [exact Hf|]. unfold coerced.
      pose proof (stand_assoc _ _ _ (fp_name f) ST) as A.
      destruct (fp_type f); try discriminate.
      destruct (assoc (fp_name f) vals) as [v|]; [|discriminate].
      destruct (assoc (fp_name f) args) as [a|]; [|contradiction]. split; [discriminate|].
      now destruct (to_int64 v).
    - replace err with (snd (pparse (coerced args vals) fields args target)) by (now rewrite EP).
      apply pparse_bad; [exact NDA|exact NF|]. left. congruence.
  Qed.

  (** get(): following a path *)
  Lemma pr_get_path : forall path W sc v x, plain v = true ->
    index E v (map (fun c => Some (KVal (member_key c))) path) = Some x ->
    promises W (fun n => get_path (R n) sc v path) x.
  Proof.
    induction path as [|c path IH]; intros W sc v x PV H; cbn [get_path map index] in *.
    - injection H as <-. apply pr_ret.
    - pose proof (pr_assoc_plain v PV W sc (KVal (member_key c))) as A.
      destruct (assoc_disp (p_assoc (env_protos E)) v (KVal (member_key c))) as [y pres].
      eapply pr_bind; [exact A|]. cbv beta iota. destruct pres.
      + apply obind_some in H as (z & Hz & H). apply check_some in Hz as [-> PZ]. now apply IH.
      + injection H as <-. apply pr_ret.
  Qed.

  (** dict(): what is stored *)
  Lemma pr_normalize : forall W sc d a v,
    promises W (fun n => normalize_step (R n) sc d a) v -> promises W (fun n => r_normalize (R n) sc d a) v.
  Proof. intros. eapply pr_step; [|eassumption]. intros; now apply ev_normalize. Qed.

  Lemma pr_normalize_plain : forall v, plain v = true -> forall dp W sc, nesting v + dp <= 10 ->
    promises W (fun n => r_normalize (R n) sc dp v) (stored v).
  Proof.
    intros v. induction v using val_ind'; intros PL dp W sc DP; try discriminate;
      apply pr_normalize; unfold normalize_step;
      (replace (Nat.ltb 10 dp) with false by (symmetry; apply Nat.ltb_ge; cbn in DP; lia));
      match goal with |- promises _ (fun n => mbind (obj_of ?v) _) _ =>
        apply (pr_bind _ _ W (fun _ => obj_of v) _ None); [now apply pr_obj_of|] end;
      cbv beta iota; cbn [is_lazy is_query]; try apply pr_ret.
    - cbn [stored]. eapply (pr_bind _ _ W _ _ (map stored l)); [|apply pr_ret].
      apply pr_mmap. cbn [plain nesting] in PL, DP.
      induction H as [|x l Hx _ IH]; [constructor|]. cbn [forallb fold_right map] in *.
      apply andb_true_iff in PL as [P1 P2]. constructor; [apply Hx; [exact P1|lia]|].
      apply IH; [exact P2|lia].
    - cbn [stored]. eapply (pr_bind _ _ W _ _ l); [|apply pr_ret]. unfold materialize_rows.
      apply pr_query_plain.
  Qed.

  Lemma stored_or_null : forall v, stored (or_null v) = or_null (stored v).
  Proof. intros []; reflexivity. Qed.

  Lemma pr_normalize_arg : forall W sc a v, stands W a v -> nesting v <= 9 ->
    promises W (fun n => r_normalize (R n) sc 0 (or_null a)) (stored v).
  Proof.
    intros W sc a v [[-> PV]|(n & e & sc' & -> & HN & HL)] DP.
    - destruct (is_nil v) eqn:IN.
      + unfold or_null. rewrite IN. replace (stored v) with (stored VNull).
        * apply pr_normalize_plain; [reflexivity|cbn; lia].
        * destruct v; try discriminate; reflexivity.
      + unfold or_null. rewrite IN. apply pr_normalize_plain; [exact PV|lia].
    - cbn [or_null is_nil]. apply pr_normalize. unfold normalize_step. cbn [Nat.ltb Nat.leb].
      assert (SD : stands W (VOpaque n) v) by (right; eauto 6).
      pose proof (stands_plain _ _ _ SD) as PV.
      intros W1 s HW HS. destruct (so_heap _ _ HS n _ (HW _ _ HN)) as (o & Ho & OK).
      destruct o; simpl in OK; try contradiction. destruct OK as (-> & -> & _).
      assert (G : promises W (fun k => v' <- r_reduce (R k) (VOpaque n) ;; r_normalize (R k) sc 1 v') (stored v)).
      { eapply pr_bind; [apply stands_reduce; exact SD|]. apply pr_normalize_plain; [exact PV|lia]. }
      destruct (G W1 s HW HS) as (W2 & s2 & H1 & H2 & H3 & H4).
      exists W2, s2. split; [exact H1|]. split; [exact H2|]. split; [exact H3|].
      eapply ev_ext; [|exact H4]. intros k. unfold mbind at 2. unfold obj_of. rewrite Ho. reflexivity.
  Qed.

  Lemma pr_row_to_dict_loop : forall W sc args vals, args_stand W args vals -> NoDup (keys vals) ->
    forall part pvals result, args_stand W part pvals ->
    (forall k a, In (k, a) part -> assoc k args = Some a) ->
    NoDup (keys pvals) -> (forall k, In k (keys pvals) -> ~ In k (keys result)) ->
    Forall (fun kv => nesting (snd kv) <= 9) pvals ->
    promises W (fun n => row_to_dict_loop (R n) sc (VDict args) (keys part) result)
      (VDict (result ++ map (fun kv => (fst kv, stored (snd kv))) pvals)).
  Proof.
    intros W sc args vals ST ND part pvals result SP. revert result.
    induction SP as [|[k a] [k' v] part pvals [H1 H2] SP IH]; intros result IN NDP DIS DP.
    - cbn. rewrite app_nil_r. apply pr_ret.
    - cbn in H1, H2. subst k'. cbn [keys map row_to_dict_loop fst snd].
      eapply (pr_bind _ _ W _ _ (or_null a, true)).
      { apply pr_assoc. unfold assoc_step. cbn [is_nil].
        eapply (pr_bind _ _ W (fun _ => obj_of (VDict args)) _ None).
        { intros W1 s HW HS. exists W1, s. split; [apply wle_refl|]. split; [exact HS|].
          split; [apply quiet_refl|]. exists 0. reflexivity. }
        cbn [key_string to_string]. cbv beta iota. rewrite assoc_disp_dict.
        rewrite (IN k a) by (now left). apply pr_ret. }
      cbv beta iota. inversion DP as [|? ? D1 D2]; subst. cbn in NDP. inversion NDP as [|? ? N1 N2]; subst.
      eapply (pr_bind _ _ W _ _ (stored v)); [apply pr_normalize_arg; [exact H2|exact D1]|]. cbv beta.
      assert (RK : dict_set k (stored v) result = result ++ [(k, stored v)]).
      { assert (RM : ~ In k (keys result)) by (apply DIS; now left).
        unfold dict_set. f_equal. clear - RM. induction result as [|[k0 v0] r IH]; [reflexivity|].
        cbn in *. destruct (String.eqb k k0) eqn:EK.
        - apply String.eqb_eq in EK as ->. exfalso. apply RM. now left.
        - f_equal. apply IH. intros HI. apply RM. now right. }
      rewrite RK.
      replace (result ++ (k, stored v) :: map (fun kv => (fst kv, stored (snd kv))) pvals) with
        ((result ++ [(k, stored v)]) ++ map (fun kv : string * val => (fst kv, stored (snd kv))) pvals)
        by (now rewrite <- app_assoc).
      apply IH; [intros; apply IN; now right|exact N2| |exact D2].
      intros x HX HI. unfold keys in HI. rewrite map_app in HI. apply in_app_or in HI as [HI|[<-|[]]].
      + eapply DIS; [right; exact HX|exact HI].
      + contradiction.
  Qed.

  Lemma text_arg_some : forall name args s, text_arg E name args = Some s ->
    match assoc name args with
    | Some v => is_array v = false /\ text_value v = s
    | None => s = ""%string
    end.
  Proof.
    intros name args s H. unfold text_arg in H. destruct (assoc name args) as [v|]; [|congruence].
    destruct v; try discriminate; injection H as <-; auto.
  Qed.

  Lemma given_required : forall A allowed required (vals : list (string * A)) k,
    given allowed required vals = true -> In k required -> assoc k vals <> None.
  Proof.
    intros A allowed required vals k G HI. unfold given in G. apply andb_true_iff in G as [_ G].
    rewrite forallb_forall in G. specialize (G k HI). rewrite mem_keys in G.
    destruct (assoc k vals); [discriminate|]. discriminate.
  Qed.
  Ltac text_fields :=
    repeat constructor; unfold plain_field; cbn [field_ fp_type fp_name]; trivial;
    match goal with |- match ?x with _ => _ end => destruct x; [|exact I]; tauto end.
  Ltac nodup_names := cbn; repeat (constructor; [cbn; intuition discriminate|]); constructor.

  Definition is_builtin (f : func) : bool :=
    match f with
    | FIf | FDict | FLen | FGet | FSplit | FEncode | FTimestamp | FFormat => true
    | _ => false
    end.

  Lemma pr_force : forall W sc a v B (K : nat -> val -> EM B) x, stands W a v ->
    promises W (fun n => K n v) x ->
    promises W (fun n => o <- obj_of a ;;
      t <- (if is_lazy o then r_reduce_ws (R n) sc a else mret a) ;; K n t) x.
  Proof.
    intros W sc a v B K x ST HK. pose proof (stands_ws W sc a v ST) as WS.
    destruct ST as [[-> PV]|(n & e & sc' & -> & HN & HL)].
    - eapply (pr_bind _ _ W (fun _ => obj_of v) _ None); [now apply pr_obj_of|]. cbn [is_lazy].
      eapply (pr_bind _ _ W (fun _ => mret v) _ v); [apply pr_ret|]. exact HK.
    - assert (G : promises W (fun k => t <- r_reduce_ws (R k) sc (VOpaque n) ;; K k t) x).
      { eapply pr_bind; [exact WS|]. exact HK. }
      intros W1 s HW HS. destruct (so_heap _ _ HS n _ (HW _ _ HN)) as (o & Ho & OK).
      destruct o; simpl in OK; try contradiction.
      destruct (G W1 s HW HS) as (W2 & s2 & H1 & H2 & H3 & H4).
      exists W2, s2. split; [exact H1|]. split; [exact H2|]. split; [exact H3|].
      eapply ev_ext; [|exact H4]. intros m. unfold mbind at 2. unfold obj_of. rewrite Ho. reflexivity.
  Qed.
  Lemma pr_if_else : forall W sc a v, stands W a v ->
    exists w', promises W (fun n => if_else (R n) sc a) w' /\ plain w' = true /\ or_null w' = or_null v.
  Proof.
    intros W sc a v ST. pose proof (stands_plain _ _ _ ST) as PV. unfold if_else.
    destruct (is_nil a) eqn:IN.
    - exists VNull. split; [apply pr_ret|]. split; [reflexivity|].
      destruct ST as [[<- _]|(n & e & sc' & -> & _)]; [|discriminate]. unfold or_null. now rewrite IN.
    - exists v. split; [|auto]. eapply pr_force; [exact ST|].
      eapply (pr_bind _ _ W (fun _ => obj_of v) _ None); [now apply pr_obj_of|]. apply pr_ret.
  Qed.

  Lemma pr_builtin : forall W sc f id args vals w,
    is_builtin f = true -> args_stand W args vals -> NoDup (keys vals) ->
    builtin_value E f vals = Some w -> plain w = true ->
    exists w', promises W (fun n => call_func E (R n) sc f id args) w' /\
               plain w' = true /\ or_null w' = or_null w.
  Proof.
    intros W sc f id args vals w HB ST ND HV PW. unfold builtin_value in HV.
    destruct (mem_str "**" (keys vals)) eqn:NS; [discriminate|].
    destruct (existsb _ vals) eqn:NN; [discriminate|]. cbn [orb] in HV.
    assert (SA : forall k, match assoc k args, assoc k vals with
                 | Some a, Some v => stands W a v
                 | None, None => True
                 | _, _ => False
                 end) by (intros; now apply stand_assoc).
    assert (NOTNIL : forall k v, assoc k vals = Some v -> v <> VNil).
    { intros k v EV ->. apply not_true_iff_false in NN. apply NN. apply existsb_exists.
      apply BaseProofs.assoc_in in EV. eexists. split; [exact EV|reflexivity]. }
    assert (NUL : w = VNull -> exists w', promises W (fun _ => mret VNull) w' /\ plain w' = true /\
              or_null w' = or_null w).
    { intros ->. exists VNull. auto using pr_ret. }
    destruct f; try discriminate; cbn [call_func].
    - (* if *)
      unfold if_function.
      destruct (builtin_args W sc args vals if_fields [VNil; VNil; VNil] ST ND) as (t & err & P & H);
        [nodup_names|exact NS|exact NN|repeat constructor|].
      cbn [map filter if_fields field_ fp_name fp_required fp_type forallb andb] in H.
      rewrite andb_true_r in H. injection HV as HV.
      destruct (given _ _ vals) eqn:G.
      + destruct H as [-> ->]. unfold coerced in P. cbn [fold_left if_fields field_ fp_name fp_type fp_idx] in P.
        unfold if_value in HV. pose proof (SA "condition"%string) as A1.
        apply given_required with (k := "condition"%string) in G; [|now left].
        destruct (assoc "condition"%string vals) as [c|] eqn:EC; [|congruence].
        destruct (assoc "condition"%string args) as [ca|] eqn:ECA; [|contradiction].
        cbn [set_field] in P.
        set (br := fun k => match assoc k args with Some a => a | None => VNil end).
        assert (BR : promises W (fun n => parse_args E (R n) sc if_fields args [VNil; VNil; VNil])
                    ([c; br "then"; br "else"]%string, None)).
        { unfold br. destruct (assoc "then"%string args), (assoc "else"%string args); exact P. }
        assert (PC : plain c = true) by (eapply stands_plain; eauto).
        assert (BS : forall k, match assoc k vals with Some v => v | None => VNull end = w ->
                  br k = VNil /\ w = VNull \/ stands W (br k) w).
        { intros k EK. pose proof (SA k) as AK. unfold br.
          destruct (assoc k args), (assoc k vals); try contradiction; [right; congruence|left; auto]. }
        assert (G2 : exists w', promises W (fun n => if truthy E c then
                   if is_nil (br "then"%string) then mret VNull
                   else
                     o <- obj_of (br "then"%string) ;;
                     thn <- (if is_lazy o then r_reduce_ws (R n) sc (br "then"%string)
                             else mret (br "then"%string)) ;;
                     o <- obj_of thn ;;
                     if is_lazy o then
                       e <- r_reduce_ws (R n) sc thn ;;
                       oe <- obj_of e ;;
                       if is_query e oe then mret e else if_else (R n) sc (br "else"%string)
                     else mret thn
                 else if_else (R n) sc (br "else"%string)) w' /\ plain w' = true /\ or_null w' = or_null w).
        { destruct (truthy E c).
          - destruct (BS _ HV) as [[-> ->]|SB]; [exists VNull; split; [apply pr_ret|auto]|].
            destruct (is_nil (br "then"%string)) eqn:IN.
            + exists VNull. split; [apply pr_ret|]. split; [reflexivity|].
              destruct SB as [[EB _]|(n & e & sc' & EB & _)]; [|rewrite EB in IN; discriminate].
              rewrite <- EB. unfold or_null. now rewrite IN.
            + exists w. split; [|auto]. eapply pr_force; [exact SB|].
              eapply (pr_bind _ _ W (fun _ => obj_of w) _ None); [now apply pr_obj_of|]. apply pr_ret.
          - destruct (BS _ HV) as [[-> ->]|SB]; [exists VNull; split; [apply pr_ret|auto]|].
            now apply pr_if_else. }
        destruct G2 as (w' & HP & X). exists w'. split; [|exact X].
        eapply pr_bind; [exact BR|]. cbv beta iota.
        eapply (pr_bind _ _ W _ _ (truthy E c)); [now apply pr_truth|]. exact HP.
      + destruct err as [e|]; [|congruence].
        destruct (NUL (eq_sym HV)) as (w' & HP & X). exists w'. split; [|exact X].
        eapply pr_bind; [exact P|]. exact HP.
    - (* dict *)
      destruct (forallb _ vals) eqn:DP; [|discriminate]. injection HV as <-.
      exists (VDict (map (fun kv => (fst kv, stored (snd kv))) vals)). split; [|auto].
      unfold row_to_dict. eapply (pr_bind _ _ W (fun _ => members (VDict args)) _ (keys args)).
      { intros W1 s HW HS. exists W1, s. split; [apply wle_refl|]. split; [exact HS|].
        split; [apply quiet_refl|]. exists 0. reflexivity. }
      cbv beta. apply (pr_row_to_dict_loop W sc args vals ST ND args vals []); auto.
      + intros k a HI. apply BaseProofs.in_assoc; [|exact HI]. now rewrite (stand_keys _ _ _ ST).
      + apply Forall_forall. intros kv HI. rewrite forallb_forall in DP. apply Nat.leb_le. now apply DP.
    - (* len *)
      unfold len_function.
      destruct (builtin_args W sc args vals [field_ "list" 0 true TAny] [VNil] ST ND) as (t & err & P & H);
        [nodup_names|exact NS|exact NN|repeat constructor|].
      cbn [map filter field_ fp_name fp_required fp_type forallb andb] in H.
      rewrite andb_true_r in H. injection HV as HV.
      destruct (given _ _ vals) eqn:G.
      + destruct H as [-> ->]. pose proof (SA "list"%string) as A.
        apply given_required with (k := "list"%string) in G; [|now left].
        destruct (assoc "list"%string vals) as [v|] eqn:EV; [|congruence].
        destruct (assoc "list"%string args) as [a|] eqn:EA; [|contradiction].
        cbn [fold_left coerced fp_name fp_type fp_idx] in P. 
        unfold coerced in P. cbn [fp_type fp_name field_ fp_idx] in P. rewrite EV, EA in P. cbn [set_field] in P.
        exists w. split; [|auto]. eapply pr_bind; [exact P|]. cbv beta iota. subst w.
        pose proof (NOTNIL _ _ EV) as NV.
        destruct v; try apply pr_ret; congruence.
      + destruct err as [e|]; [|congruence].
        destruct (NUL (eq_sym HV)) as (w' & HP & X). exists w'. split; [|exact X].
        eapply pr_bind; [exact P|]. exact HP.
    - (* get *)
      unfold get_function. apply obind_some in HV as (m & Hm & HV). apply text_arg_some in Hm.
      destruct (builtin_args W sc args vals [field_ "item" 0 false TAny; field_ "member" 1 true TString]
                  [VNil; VStr ""] ST ND) as (t & err & P & H);
        [nodup_names|exact NS|exact NN|text_fields|].
      cbn [map filter field_ fp_name fp_required fp_type forallb andb] in H. rewrite andb_true_r in H.
      destruct (given _ _ vals) eqn:G.
      + destruct H as [-> ->]. apply obind_some in HV as (item & Hi & HV).
        apply given_required with (k := "member"%string) in G; [|now left].
        unfold coerced in P. cbn [fold_left field_ fp_name fp_type fp_idx] in P.
        pose proof (SA "member"%string) as A1. pose proof (SA "item"%string) as A2. rewrite Hi in *.
        destruct (assoc "member"%string vals) as [mv|] eqn:EM; [|congruence].
        destruct (assoc "member"%string args) as [ma|] eqn:EMA; [|contradiction].
        destruct (assoc "item"%string args) as [ia|] eqn:EIA; [|contradiction].
        destruct Hm as [AR TX]. cbn [set_field option_map] in P. rewrite TX in P.
        exists w. split; [|auto]. eapply pr_bind; [exact P|]. cbv beta iota.
        pose proof (NOTNIL _ _ Hi) as NV. pose proof (stands_plain _ _ _ A2) as PI.
        eapply (pr_bind _ _ W _ _ item); [|now apply pr_get_path].
        destruct item; try apply pr_ret. congruence.
      + injection HV as HV. destruct err as [e|]; [|congruence].
        destruct (NUL (eq_sym HV)) as (w' & HP & X). exists w'. split; [|exact X].
        eapply pr_bind; [exact P|]. exact HP.
    - (* split *)
      unfold split_function. apply obind_some in HV as (s1 & H1 & HV). apply text_arg_some in H1.
      apply obind_some in HV as (s2 & H2 & HV). apply text_arg_some in H2.
      apply obind_some in HV as (s3 & H3 & HV). apply text_arg_some in H3.
      destruct (builtin_args W sc args vals [field_ "string" 0 true TString; field_ "sep" 1 false TString;
                  field_ "sep_string" 2 false TString] [VStr ""; VStr ""; VStr ""] ST ND) as (t & err & P & H);
        [nodup_names|exact NS|exact NN|text_fields|].
      cbn [map filter field_ fp_name fp_required fp_type forallb andb] in H. rewrite andb_true_r in H.
      injection HV as HV. destruct (given _ _ vals) eqn:G.
      + destruct H as [-> ->].
        unfold coerced in P. cbn [fold_left field_ fp_name fp_type fp_idx] in P.
        assert (P' : promises W (fun n => parse_args E (R n) sc [field_ "string" 0 true TString; field_ "sep" 1 false TString;
                  field_ "sep_string" 2 false TString] args [VStr ""; VStr ""; VStr ""])
                  ([VStr s1; VStr s2; VStr s3], None)).
        { pose proof (SA "string"%string) as A1. pose proof (SA "sep"%string) as A2.
          pose proof (SA "sep_string"%string) as A3.
          destruct (assoc "string"%string vals), (assoc "string"%string args); try contradiction;
          destruct (assoc "sep"%string vals), (assoc "sep"%string args); try contradiction;
          destruct (assoc "sep_string"%string vals), (assoc "sep_string"%string args); try contradiction;
          repeat match goal with H : _ /\ text_value _ = _ |- _ => destruct H as [_ <-] end; subst; exact P. }
        exists w. split; [|auto]. eapply pr_bind; [exact P'|]. cbv beta iota.
        destruct (negb (String.eqb s2 "")); [subst w; apply pr_ret|].
        destruct (negb (String.eqb s3 "")); subst w; apply pr_ret.
      + destruct err as [e|]; [|congruence].
        destruct (NUL (eq_sym HV)) as (w' & HP & X). exists w'. split; [|exact X].
        eapply pr_bind; [exact P|]. exact HP.
    - (* encode *)
      unfold encode_function. apply obind_some in HV as (ty & H1 & HV). apply text_arg_some in H1.
      destruct (builtin_args W sc args vals [field_ "string" 0 true TAny; field_ "type" 1 true TString]
                  [VNil; VStr ""] ST ND) as (t & err & P & H);
        [nodup_names|exact NS|exact NN|text_fields|].
      cbn [map filter field_ fp_name fp_required fp_type forallb andb] in H. rewrite andb_true_r in H.
      injection HV as HV. destruct (given _ _ vals) eqn:G.
      + destruct H as [-> ->].
        unfold coerced in P. cbn [fold_left field_ fp_name fp_type fp_idx] in P.
        pose proof G as G'.
        apply given_required with (k := "type"%string) in G; [|right; now left].
        apply given_required with (k := "string"%string) in G'; [|now left].
        pose proof (SA "string"%string) as A1. pose proof (SA "type"%string) as A2.
        destruct (assoc "string"%string vals) as [v|]; [|congruence].
        destruct (assoc "string"%string args); [|contradiction].
        destruct (assoc "type"%string vals) as [tv|]; [|congruence].
        destruct (assoc "type"%string args); [|contradiction].
        destruct H1 as [_ TX]. cbn [set_field option_map] in P. rewrite TX in P.
        exists w. split; [|auto]. eapply pr_bind; [exact P|]. cbv beta iota. cbv zeta in *.
        destruct (String.eqb ty "hex"); [subst w; apply pr_ret|].
        destruct (String.eqb ty "string"); [subst w; apply pr_ret|].
        destruct (String.eqb ty "utf16"); subst w; apply pr_ret.
      + destruct err as [e|]; [|congruence].
        destruct (NUL (eq_sym HV)) as (w' & HP & X). exists w'. split; [|exact X].
        eapply pr_bind; [exact P|]. exact HP.
    - (* timestamp *)
      unfold timestamp_function. injection HV as HV.
      destruct (builtin_args W sc args vals [field_ "epoch" 0 false TInt64; field_ "winfiletime" 1 false TInt64]
                  [vint 0; vint 0] ST ND) as (t & err & P & H);
        [nodup_names|exact NS|exact NN|repeat constructor|].
      cbn [map filter field_ fp_name fp_required fp_type forallb andb] in H. rewrite andb_true_r in H.
      assert (BAD : err <> None -> w = VNull -> exists w', promises W (fun n =>
           '(target, err) <- parse_args E (R n) sc [field_ "epoch" 0 false TInt64; field_ "winfiletime" 1 false TInt64]
                        args [vint 0; vint 0] ;;
           match err, target with
           | None, [VInt KInt64 epoch; VInt KInt64 winfiletime] => mret (timestamp_of epoch winfiletime)
           | _, _ => mret VNull
           end) w' /\ plain w' = true /\ or_null w' = or_null w).
      { intros HE HW. destruct err as [e|]; [|congruence].
        destruct (NUL HW) as (w' & HP & X). exists w'. split; [|exact X].
        eapply pr_bind; [exact P|]. exact HP. }
      pose proof (SA "epoch"%string) as A1. pose proof (SA "winfiletime"%string) as A2.
      unfold int_arg in HV. unfold coerced in H.
      cbn [fold_left field_ fp_name fp_type fp_idx] in H.
      destruct (given _ _ vals) eqn:G; cbn [andb] in H; [|apply BAD; [exact H|now symmetry]].
      destruct (assoc "epoch"%string vals) as [ev|]; destruct (assoc "epoch"%string args); try contradiction;
      destruct (assoc "winfiletime"%string vals) as [wv|]; destruct (assoc "winfiletime"%string args); try contradiction;
      try (destruct (to_int64 ev)); try (destruct (to_int64 wv)); cbn [andb option_map set_field] in H;
      try (apply BAD; [exact H|now symmetry]);
      destruct H as [-> ->]; exists w; (split; [|auto]); (eapply pr_bind; [exact P|]); cbv beta iota;
      subst w; apply pr_ret.
    - (* format *)
      unfold format_function. apply obind_some in HV as (fm & H1 & HV). apply text_arg_some in H1.
      destruct (builtin_args W sc args vals [field_ "format" 0 true TString; field_ "args" 1 false TAny]
                  [VStr ""; VNil] ST ND) as (t & err & P & H);
        [nodup_names|exact NS|exact NN|text_fields|].
      cbn [map filter field_ fp_name fp_required fp_type forallb andb] in H. rewrite andb_true_r in H.
      injection HV as HV. destruct (given _ _ vals) eqn:G.
      + destruct H as [-> ->].
        unfold coerced in P. cbn [fold_left field_ fp_name fp_type fp_idx] in P.
        apply given_required with (k := "format"%string) in G; [|now left].
        pose proof (SA "format"%string) as A1. pose proof (SA "args"%string) as A2.
        destruct (assoc "format"%string vals) as [fv|]; [|congruence].
        destruct (assoc "format"%string args); [|contradiction].
        destruct H1 as [_ TX]. cbn [set_field option_map] in P. rewrite TX in P.
        exists w. split; [|auto].
        destruct (assoc "args"%string vals) as [av|] eqn:EA; destruct (assoc "args"%string args); try contradiction;
          cbn [set_field] in P.
        * pose proof (NOTNIL _ _ EA) as NV. pose proof (stands_plain _ _ _ A2) as PA.
          eapply pr_bind; [exact P|]. cbv beta iota. cbv zeta in *. subst w.
          destruct av; try apply pr_ret; congruence || discriminate.
        * eapply pr_bind; [exact P|]. cbv beta iota. subst w. apply pr_ret.
      + destruct err as [e|]; [|congruence]. exists w. split; [|auto].
        eapply pr_bind; [exact P|]. cbv beta iota. subst w. apply pr_ret.
  Qed.

  Lemma nodup_snoc : forall (l : list string) x, NoDup l -> ~ In x l -> NoDup (l ++ [x]).
  Proof.
    intros l x H. induction H as [|y l NI _ IH]; intros HX; cbn; [constructor; [tauto|constructor]|].
    constructor; [|apply IH; intros HI; apply HX; now right].
    rewrite in_app_iff. intros [HI|[->|[]]]; [contradiction|]. apply HX. now left.
  Qed.
  Lemma dict_of_nodup : forall A (l : list (string * A)), NoDup (keys (dict_of l)).
  Proof.
    intros A l. unfold dict_of.
    assert (G : forall l d, NoDup (keys d) ->
              NoDup (keys (fold_left (fun d kv => dict_set (fst kv) (snd kv) d) l d : list (string * A)))).
    { clear l. induction l as [|[k v] l IH]; intros d H; [exact H|]. cbn [fold_left fst snd]. apply IH.
      unfold dict_set, keys. rewrite map_app. cbn [map fst].
      assert (RK : forall x, In x (map fst (remove_key k d)) -> In x (map fst d) /\ x <> k).
      { clear. induction d as [|[k0 v0] d IH]; cbn; [tauto|]. intros x.
        destruct (String.eqb k k0) eqn:EK; cbn.
        - intros HI. apply IH in HI. tauto.
        - intros [<-|HI]; [|apply IH in HI; tauto]. split; [now left|].
          intros ->. rewrite String.eqb_refl in EK. discriminate. }
      apply nodup_snoc; [|intros HI; apply RK in HI; tauto].
      clear - H. unfold keys in H. induction d as [|[k0 v0] d IH]; cbn in *; [constructor|].
      inversion H; subst. destruct (String.eqb k k0) eqn:EK; [auto|]. cbn. constructor; [|auto].
      intros HI. assert (In k0 (map fst d)) as HD; [|contradiction].
      clear - HI. induction d as [|[k1 v1] d IH]; cbn in *; [exact HI|].
      destruct (String.eqb k k1); cbn in HI; tauto. }
    apply G. constructor.
  Qed.

  Lemma pr_call_with : forall W sc fr node f params h argv w v,
    Forall (fun na => on_arg (fun e => forall v, den E funs fr e = Some v ->
        promises W (fun n => r_expr (R n) sc e) v) (snd na)) params ->
    owner node = f -> assoc f (env_funs E) = Some h ->
    sequence (map (arg_den fr) params) = Some argv ->
    (forall W2 id args, wle W W2 -> args_stand W2 args (dict_of argv) ->
       exists w', promises W2 (fun n => call_func E (R n) sc h id args) w' /\
                  plain w' = true /\ or_null w' = or_null w) ->
    v = or_null w ->
    promises W (fun n => sym_reduce E (R n) sc node false [f] true params) v.
  Proof.
    intros W sc fr node f params h argv w v HP OW Hh HA HC ->. unfold sym_reduce.
    apply (pr_bind _ _ W (fun _ => split_symbol node false) _ false); [apply pr_split|].
    cbv beta iota. rewrite Hh.
    eapply (pr_bind _ _ W _ _ (or_null w)); [|apply pr_ret]. unfold call_function.
    intros W1 s HW1 HS.
    destruct (build_lazy_args_ok W sc fr params HP argv HA W1 s [] [] HW1 HS) as
      (W2 & s2 & args & HW2 & HS2 & Q2 & ST & [N EA]); [constructor|].
    fold (dict_of argv) in ST.
    assert (NF : exists s3 id b, node_function node h s2 = (s3, RVal (h, id, b)) /\
              stok W2 s3 /\ quiet s2 s3).
    { unfold node_function. destruct (nassoc node (node_funs s2)) as [[f' id]|] eqn:EN.
      - pose proof (so_funs _ _ HS2 _ _ _ EN) as SF. rewrite OW, Hh in SF. injection SF as <-.
        exists s2, id, false. split; [reflexivity|]. split; [exact HS2|apply quiet_refl].
      - eexists _, _, true. split; [reflexivity|]. split.
        + constructor; simpl; [apply HS2|]. intros nd f' id'. rewrite nassoc_nset.
          destruct (Nat.eqb nd node) eqn:ED.
          * apply Nat.eqb_eq in ED as ->. intros [= <- <-]. now rewrite OW.
          * apply HS2.
        + constructor; simpl; auto.
          * intros n o Hn. exists o. auto using obj_ext_refl.
          * intros nd x Hx. rewrite nassoc_nset. destruct (Nat.eqb nd node) eqn:ED; [|exact Hx].
            apply Nat.eqb_eq in ED as ->. congruence. }
    destruct NF as (s3 & id & b & EN & HS3 & Q3).
    destruct (HC W2 id args (wle_trans _ _ _ HW1 HW2) ST) as (w' & HPC & PW' & EW).
    destruct (HPC W2 s3 (wle_refl _) HS3) as (W4 & s4 & HW4 & HS4 & Q4 & [N4 E4]).
    exists W4, s4. split; [eapply wle_trans; eauto|]. split; [exact HS4|].
    split; [eapply quiet_trans; [exact Q2|]; eapply quiet_trans; eauto|].
    exists (N + N4). intros n Hn. unfold mbind at 1. rewrite EA by lia.
    unfold mbind at 1. rewrite EN. unfold mbind at 1. rewrite E4 by lia.
    unfold mret. f_equal. f_equal. rewrite <- EW. unfold or_null. destruct b, w'; try reflexivity; discriminate.
  Qed.

  Lemma pr_call : forall W sc fr node f params F argv w v,
    Forall (fun na => on_arg (fun e => forall v, den E funs fr e = Some v ->
        promises W (fun n => r_expr (R n) sc e) v) (snd na)) params ->
    owner node = f -> funs f = Some F ->
    sequence (map (arg_den fr) params) = Some argv ->
    F (dict_of argv) = Some w -> plain w = true -> v = or_null w ->
    promises W (fun n => sym_reduce E (R n) sc node false [f] true params) v.
  Proof.
    intros W sc fr node f params F argv w v HP OW HF HA HW PW EV.
    destruct (FOK _ _ HF) as (h & Hh & HC).
    eapply pr_call_with; [exact HP|exact OW|exact Hh|exact HA| |exact EV].
    intros W2 id args _ ST.
    assert (BI : is_builtin h = true -> (forall args v, F args = Some v -> builtin_value E h args = Some v) ->
              exists w', promises W2 (fun n => call_func E (R n) sc h id args) w' /\
                 plain w' = true /\ or_null w' = or_null w).
    { intros IB HB. eapply pr_builtin; [exact IB|exact ST|apply dict_of_nodup|apply HB; exact HW|exact PW]. }
    destruct h; cbn [function_ok] in HC; try contradiction; try (apply BI; [reflexivity|exact HC]).
    exists w. split; [|auto]. cbn [call_func].
    apply (run_prog_ok W2 sc _ (meaning_stands _ _ _ ST)).
    apply (HC _ args (dict_of argv)); [|eapply meaning_args; eauto|exact HW].
    intros x PX. unfold meaning. now rewrite PX.
  Qed.

  (** ** The theorem *)

  Definition operands_ok (W : world) (sc : scope) (rs : list (string * expr))
    (vs : list (string * val)) : Prop :=
    Forall2 (fun oe ov => fst oe = fst ov /\ plain (snd ov) = true /\
                          promises W (fun n => r_expr (R n) sc (snd oe)) (snd ov)) rs vs.

  Lemma pr_and : forall W sc rs vs, operands_ok W sc rs vs -> forall last,
    promises W (fun n => and_loop (truth E (R n) sc) last (terms (R n) sc rs)) (and_value E last vs).
  Proof.
    intros W sc rs vs H. induction H as [|[op e] [op' v] rs vs (H1 & H2 & H3) _ IH]; intros last;
      cbn [terms map and_loop and_value fst snd] in *.
    - apply pr_ret.
    - subst op'. eapply (pr_bind _ _ W _ _ v); [exact H3|].
      eapply (pr_bind _ _ W _ _ (truthy E v)); [now apply pr_truth|]. cbv beta.
      destruct (truthy E v); cbn [negb]; [apply IH|apply pr_ret].
  Qed.
  Lemma pr_or : forall W sc rs vs, operands_ok W sc rs vs -> forall last,
    promises W (fun n => or_loop (truth E (R n) sc) last (terms (R n) sc rs)) (or_value E last vs).
  Proof.
    intros W sc rs vs H. induction H as [|[op e] [op' v] rs vs (H1 & H2 & H3) _ IH]; intros last;
      cbn [terms map or_loop or_value fst snd] in *.
    - apply pr_ret.
    - subst op'. eapply (pr_bind _ _ W _ _ v); [exact H3|].
      eapply (pr_bind _ _ W _ _ (truthy E v)); [now apply pr_truth|]. cbv beta.
      destruct (truthy E v); [apply pr_ret|apply IH].
  Qed.
  Lemma pr_add : forall W sc rs vs, operands_ok W sc rs vs -> forall acc x, plain acc = true ->
    add_value E acc vs = Some x ->
    promises W (fun n => add_loop (addf E (R n) sc) (subf E (R n) sc) acc (terms (R n) sc rs)) x.
  Proof.
    intros W sc rs vs H. induction H as [|[op e] [op' v] rs vs (H1 & H2 & H3) _ IH]; intros acc x PA HX;
      cbn [terms map add_loop add_value fst snd] in *.
    - injection HX as <-. apply pr_ret.
    - subst op'. apply obind_some in HX as (z & Hz & HX). apply check_some in Hz as [-> PZ].
      eapply (pr_bind _ _ W _ _ v); [exact H3|].
      eapply pr_bind; [|apply IH; [exact PZ|exact HX]].
      destruct (String.eqb op "+"); [now apply pr_addf|].
      destruct (String.eqb op "-"); [now apply pr_subf|]. apply pr_ret.
  Qed.
  Lemma pr_mul : forall W sc rs vs, operands_ok W sc rs vs -> forall acc x, plain acc = true ->
    mul_value E acc vs = Some x ->
    promises W (fun n => mul_loop (mulf E (R n) sc) (divf E (R n) sc) acc (terms (R n) sc rs)) x.
  Proof.
    intros W sc rs vs H. induction H as [|[op e] [op' v] rs vs (H1 & H2 & H3) _ IH]; intros acc x PA HX;
      cbn [terms map mul_loop mul_value fst snd] in *.
    - injection HX as <-. apply pr_ret.
    - subst op'. apply obind_some in HX as (z & Hz & HX).
      eapply (pr_bind _ _ W _ _ v); [exact H3|].
      eapply (pr_bind _ _ W _ _ z); [|apply IH; [|exact HX]].
      + destruct (String.eqb op "*").
        * destruct (mul_disp (p_mul (env_protos E)) acc v) eqn:EM0; [|discriminate].
          apply check_some in Hz as [-> PZ]. now apply pr_mulf.
        * apply check_some in Hz as [-> PZ]. destruct (String.eqb op "/"); [now apply pr_divf|]. apply pr_ret.
      + destruct (String.eqb op "*").
        * destruct (mul_disp (p_mul (env_protos E)) acc v); [|discriminate].
          apply check_some in Hz as [-> PZ]. exact PZ.
        * apply check_some in Hz as [-> PZ]. exact PZ.
  Qed.

  Lemma pr_comma : forall W sc rs vs,
    Forall2 (fun oe ov => match oe, ov with
                          | Some e, Some v => promises W (fun n => r_expr (R n) sc e) v
                          | None, None => True
                          | _, _ => False
                          end) rs vs ->
    forall acc, promises W (fun n => comma_loop acc (map (option_map (r_expr (R n) sc)) rs))
                  (VArr (acc ++ items vs)).
  Proof.
    intros W sc rs vs H. induction H as [|[e|] [v|] rs vs HX _ IH]; intros acc; try contradiction;
      cbn [map option_map comma_loop items].
    - rewrite app_nil_r. apply pr_ret.
    - eapply (pr_bind _ _ W _ _ v); [exact HX|].
      replace (acc ++ v :: items vs) with ((acc ++ [v]) ++ items vs) by now rewrite <- app_assoc.
      apply IH.
    - rewrite app_nil_r. apply pr_ret.
  Qed.

  Definition term_den (fr : list dict) (t : mterm) : option (option akey) :=
    match t with
    | MField f => Some (Some (KVal (VStr f)))
    | MIndex e => option_map (fun v => Some (KVal v)) (den E funs fr e)
    | MRange s e =>
        obind (match s with None => Some None
                          | Some s => option_map Some (den E funs fr s) end) (fun s =>
        obind (match e with None => Some None
                          | Some e => option_map Some (den E funs fr e) end) (fun e =>
        Some (range_key s e)))
    end.

  Lemma pr_bound : forall W sc fr o v,
    on_opt (fun e => forall v, den E funs fr e = Some v -> promises W (fun n => r_expr (R n) sc e) v) o ->
    match o with None => Some None | Some e => option_map Some (den E funs fr e) end = Some v ->
    promises W (fun n => range_bound (R n) sc o) (bound v).
  Proof.
    intros W sc fr [e|] v Ho H; cbn [range_bound].
    - apply omap_some in H as (x & Hx & <-). simpl in Ho.
      eapply (pr_bind _ _ W _ _ x); [auto|]. unfold bound. destruct (to_int64 x); apply pr_ret.
    - injection H as <-. apply pr_ret.
  Qed.

  Lemma pr_terms : forall W sc fr ts,
    Forall (on_term (fun e => forall v, den E funs fr e = Some v ->
                                promises W (fun n => r_expr (R n) sc e) v)) ts ->
    forall ks, sequence (map (term_den fr) ts) = Some ks ->
    forall l x, plain l = true -> index E l ks = Some x ->
    promises W (fun n => member_terms (R n) sc l ts) x.
  Proof.
    intros W sc fr ts H. induction H as [|t ts Ht _ IH]; intros ks HK l x PL HX;
      cbn [map member_terms] in *.
    - injection HK as <-. injection HX as <-. apply pr_ret.
    - apply sequence_cons in HK as (k & r & Hk & Hr & ->).
      eapply (pr_bind _ _ W _ _ k).
      + destruct t as [e|s0 e0|f]; cbn [term_den on_term] in *.
        * apply omap_some in Hk as (v & Hv & <-). eapply (pr_bind _ _ W _ _ v); [auto|apply pr_ret].
        * destruct Ht as [H1 H2]. apply obind_some in Hk as (a & Ha & Hk).
          apply obind_some in Hk as (b & Hb & Hk). injection Hk as <-.
          eapply (pr_bind _ _ W _ _ (bound a)); [eapply pr_bound; eauto|].
          unfold range_key. destruct (bound a) as [a'|]; cbn [obind]; [|apply pr_ret].
          eapply (pr_bind _ _ W _ _ (bound b)); [eapply pr_bound; eauto|].
          destruct (bound b); apply pr_ret.
        * injection Hk as <-. apply pr_ret.
      + cbv beta. cbn [index] in HX. destruct k as [k|]; [|injection HX as <-; apply pr_ret].
        pose proof (pr_assoc_plain l PL W sc k) as A.
        destruct (assoc_disp (p_assoc (env_protos E)) l k) as [y pres].
        eapply (pr_bind _ _ W _ _ (y, pres)); [exact A|]. cbv beta iota.
        destruct pres; [|injection HX as <-; apply pr_ret].
        apply obind_some in HX as (z & Hz & HX). apply check_some in Hz as [-> PZ]. eauto.
  Qed.

  Lemma labelled_pairs : forall (rs : list (string * expr)),
    (fix go (rs : list (string * expr)) := match rs with
                    | [] => True
                    | (_, e) :: r => labelled owner e /\ go r
                    end) rs -> Forall (fun oe => labelled owner (snd oe)) rs.
  Proof. induction rs as [|[op e] rs IH]; intros H; constructor; [apply H|apply IH, H]. Qed.

  Lemma operands_all : forall W sc fr rs vs,
    Forall (fun oe => forall (W : world) (sc : scope) (fr : list dict) (v : val),
        scope_ok W sc fr -> den E funs fr (snd oe) = Some v -> labelled owner (snd oe) ->
        promises W (fun n => r_expr (R n) sc (snd oe)) v) rs ->
    scope_ok W sc fr ->
    sequence (map (fun oe => option_map (pair (fst oe)) (den E funs fr (snd oe))) rs) = Some vs ->
    Forall (fun oe => labelled owner (snd oe)) rs ->
    operands_ok W sc rs vs.
  Proof.
    intros W sc fr rs vs H SC HS HL. apply pairs_some in HS.
    induction HS as [|x y rs vs [H1 H2] _ IH]; [constructor|].
    inversion H; subst. inversion HL; subst. constructor; [|apply IH; assumption].
    split; [exact H1|]. split; [eapply den_plain; eauto|eauto].
  Qed.

  Theorem pure_eval : forall e W sc fr v,
    scope_ok W sc fr -> den E funs fr e = Some v -> labelled owner e ->
    promises W (fun n => r_expr (R n) sc e) v.
  Proof.
    intros e. induction e using expr_ind'; intros W sc fr v0 SC H0 LB; apply pr_expr;
      cbn [den expr_step labelled] in *.
    - apply check_some in H0 as [-> _]. apply pr_ret.
    - destruct neg; [destruct path as [|x [|]]; destruct called; discriminate|].
      destruct path as [|x path]; [discriminate|].
      destruct called.
      + destruct path; [|discriminate].
        apply obind_some in H0 as (F & HF & H0). apply obind_some in H0 as (argv & Ha & H0).
        apply obind_some in H0 as (w & Hw & H0). apply omap_some in H0 as (z & Hz & <-).
        apply check_some in Hz as [-> PZ].
        eapply pr_call; [|apply LB|exact HF|exact Ha|exact Hw|exact PZ|reflexivity].
        destruct LB as [_ LB]. clear - H SC LB.
        induction H as [|[name a] params Hp _ IH]; constructor.
        * simpl in *. destruct a; simpl in *; try exact I; intros v Hv; eapply Hp; eauto; apply LB.
        * apply IH. destruct a; apply LB.
      + destruct params; [|destruct path; discriminate].
        assert (H1 : obind (check (lookup fr x)) (fun v => option_map or_null (follow E v path)) = Some v0)
          by (destruct path; exact H0).
        apply obind_some in H1 as (v & Hv & H1). apply check_some in Hv as [-> PL].
        eapply pr_symbol; eauto.
    - destruct LB as [LB1 LB2].
      apply obind_some in H0 as (l & Hl & H0). apply obind_some in H0 as (vs & Hvs & H0).
      unfold comma_reduce. eapply (pr_bind _ _ W _ _ l); [eauto|].
      assert (ALL : Forall2 (fun oe ov => match oe, ov with
                          | Some e, Some v => promises W (fun n => r_expr (R n) sc e) v
                          | None, None => True
                          | _, _ => False
                          end) rs vs).
      { clear - H LB2 Hvs SC. revert vs Hvs. induction H as [|o rs Ho _ IH]; intros vs Hvs; cbn [map] in Hvs.
        - injection Hvs as <-. constructor.
        - apply sequence_cons in Hvs as (y & r & Hy & Hr & ->). destruct o as [e|].
          + apply omap_some in Hy as (w & Hw & <-). simpl in Ho. destruct LB2 as [LBa LBb].
            constructor; [eauto|auto].
          + injection Hy as <-. constructor; auto. }
      injection H0 as <-. destruct l; try apply pr_ret;
        (destruct ALL as [|o v rs vs HX HXS]; cbn [map];
         [apply pr_ret|apply (pr_comma W sc (o :: rs) (v :: vs)); constructor; assumption]).
    - destruct LB as [LB1 LB2]. apply labelled_pairs in LB2.
      apply obind_some in H0 as (l & Hl & H0). apply obind_some in H0 as (vs & Hvs & H0).
      assert (PL : plain l = true) by (eapply den_plain; eauto).
      pose proof (operands_all W sc fr rs vs H SC Hvs LB2) as OK.
      unfold and_reduce. eapply (pr_bind _ _ W _ _ l); [eauto|]. injection H0 as <-.
      destruct OK as [|x y rs vs HX HXS]; [apply pr_ret|].
      cbn [terms map].
      eapply (pr_bind _ _ W _ _ (truthy E l)); [now apply pr_truth|]. cbv beta.
      destruct (truthy E l); cbn [negb]; [|apply pr_ret].
      apply (pr_and W sc (x :: rs) (y :: vs)). constructor; assumption.
    - destruct LB as [LB1 LB2]. apply labelled_pairs in LB2.
      apply obind_some in H0 as (l & Hl & H0). apply obind_some in H0 as (vs & Hvs & H0).
      assert (PL : plain l = true) by (eapply den_plain; eauto).
      pose proof (operands_all W sc fr rs vs H SC Hvs LB2) as OK.
      unfold or_reduce. eapply (pr_bind _ _ W _ _ l); [eauto|]. injection H0 as <-.
      destruct OK as [|x y rs vs HX HXS]; [apply pr_ret|].
      cbn [terms map].
      eapply (pr_bind _ _ W _ _ (truthy E l)); [now apply pr_truth|]. cbv beta.
      destruct (truthy E l); [apply pr_ret|].
      apply (pr_or W sc (x :: rs) (y :: vs)). constructor; assumption.
    - destruct LB as [LB1 LB2]. apply labelled_pairs in LB2.
      apply obind_some in H0 as (l & Hl & H0). apply obind_some in H0 as (vs & Hvs & H0).
      assert (PL : plain l = true) by (eapply den_plain; eauto).
      pose proof (operands_all W sc fr rs vs H SC Hvs LB2) as OK.
      unfold add_reduce. eapply (pr_bind _ _ W _ _ l); [eauto|]. eapply pr_add; eauto.
    - destruct LB as [LB1 LB2]. apply labelled_pairs in LB2.
      apply obind_some in H0 as (l & Hl & H0). apply obind_some in H0 as (vs & Hvs & H0).
      assert (PL : plain l = true) by (eapply den_plain; eauto).
      pose proof (operands_all W sc fr rs vs H SC Hvs LB2) as OK.
      unfold mul_reduce. eapply (pr_bind _ _ W _ _ l); [eauto|]. eapply pr_mul; eauto.
    - apply omap_some in H0 as (v & Hv & <-). unfold not_reduce.
      eapply (pr_bind _ _ W _ _ v); [eauto|].
      eapply (pr_bind _ _ W _ _ (truthy E v)); [apply pr_truth; eapply den_plain; eauto|]. apply pr_ret.
    - destruct LB as [LB1 LB2].
      apply obind_some in H0 as (l & Hl & H0). apply omap_some in H0 as (r & Hr & <-).
      eapply (pr_bind _ _ W _ _ l); [eauto|]. eapply (pr_bind _ _ W _ _ r); [eauto|].
      apply pr_cmpf; eapply den_plain; eauto.
    - destruct LB as [LB1 LB2].
      apply obind_some in H0 as (l & Hl & H0). apply obind_some in H0 as (ks & Hks & H0).
      eapply (pr_bind _ _ W _ _ l); [eauto|].
      eapply pr_terms; [|exact Hks|eapply den_plain; eauto|exact H0].
      clear - H SC LB2. induction H as [|t ts Ht _ IH]; constructor.
      + destruct t as [e|s0 e0|f]; simpl in *.
        * intros v Hv. eapply Ht; eauto. apply LB2.
        * destruct Ht as [H1 H2], LB2 as (L1 & L2 & _). split.
          -- destruct s0; simpl in *; [|exact I]. intros; eapply H1; eauto.
          -- destruct e0; simpl in *; [|exact I]. intros; eapply H2; eauto.
        * exact I.
      + apply IH. destruct t; apply LB2.
  Qed.
End Pure.
