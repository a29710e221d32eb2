(** C81: what RowToDict makes of a row.  The model of RowToDict is
    [row_to_dict] of Eval.v. *)

From Coq Require Import ZArith List String Bool Lia PeanoNat.
From Verif Require Import Base BaseProofs F64 Value Protocols Monad Chains Range Flatten ArgParser Builtins Syntax
  Eval Runs Para Evolve Demo.
Import ListNotations.
Open Scope nat_scope.
Open Scope list_scope.

(** ** The specification *)

Definition object_at (s : st) (v : val) : option obj :=
  match v with VOpaque n => nth_error (heap s) n | _ => None end.

(** A value that is neither unevaluated nor a query. *)
Definition evaluated (s : st) (v : val) : Prop :=
  is_lazy (object_at s v) = false /\ is_query v (object_at s v) = false.

(** A value that was materialised some time between [s] and [s']: data, a list
    of such values, or the rows of a query that was run meanwhile. *)
Inductive materialised (E : env) (sc : scope) (s s' : st) : val -> Prop :=
| m_data : forall v s1, v <> VNil -> v <> VNilArr -> (forall l, v <> VArr l) ->
    evolves s s1 -> evolves s1 s' -> evaluated s1 v -> materialised E sc s s' v
| m_list : forall l, (forall x, In x l -> materialised E sc s s' x) -> materialised E sc s s' (VArr l)
| m_rows : forall n q rows s1 s2, evolves s s1 -> evolves s2 s' ->
    is_query q (object_at s1 q) = true -> r_query (ev E n) (copy sc) q s1 = (s2, RVal rows) ->
    materialised E sc s s' (VArr rows).

(** Data that is in its final form, in lists nested at most [n] deep. *)
Fixpoint final (n : nat) (v : val) : bool :=
  match v with
  | VNil | VNilArr | VQuery _ | VOpaque _ => false
  | VArr l => match n with O => false | S n => forallb (final n) l end
  | _ => true
  end.

(** ** Proofs *)

Lemma bind_inv : forall A B (m : EM A) (f : A -> EM B) s s' b,
  mbind m f s = (s', RVal b) -> exists s1 a, m s = (s1, RVal a) /\ f a s1 = (s', RVal b).
Proof.
  intros A B m f s s' b H. unfold mbind in H. destruct (m s) as [s1 [a| |]]; try discriminate.
  eauto.
Qed.

Lemma mmap_inv : forall A B (f : A -> EM B) l s s' bs,
  mmap f l s = (s', RVal bs) ->
  (l = [] /\ bs = [] /\ s' = s) \/
  exists x r s1 b bs', l = x :: r /\ bs = b :: bs' /\ f x s = (s1, RVal b) /\ mmap f r s1 = (s', RVal bs').
Proof.
  intros A B f [|x r] s s' bs H; cbn [mmap] in H.
  - left. injection H as <- <-. auto.
  - right. apply bind_inv in H as (s1 & b & H1 & H2). apply bind_inv in H2 as (s2 & bs' & H2 & H3).
    injection H3 as <- <-. eauto 10.
Qed.

Lemma in_remove_key : forall A k (d : list (string * A)) kv, In kv (remove_key k d) -> In kv d.
Proof.
  intros A k d kv. induction d as [|[k0 v0] d IH]; cbn; [auto|].
  destruct (String.eqb k k0); [auto|]. intros [<-|I]; auto.
Qed.

Lemma remove_key_absent : forall A k (d : list (string * A)), ~ In k (keys d) -> remove_key k d = d.
Proof.
  intros A k d. induction d as [|[k0 v0] d IH]; intros H; cbn in *; [reflexivity|].
  destruct (String.eqb_spec k k0) as [->|_]; [exfalso; apply H; now left|].
  rewrite IH; [reflexivity|]. intros HI. apply H. now right.
Qed.

Lemma in_keys_assoc : forall {A} k (d : list (string * A)), In k (keys d) -> exists v, assoc k d = Some v.
Proof. intros. now apply assoc_keys. Qed.

Section Props.
  Variable E : env.
  Notation R := (ev E).

  Lemma evolves_of : forall A (m : EM A) s s' r, grows A m m -> m s = (s', r) -> evolves s s'.
  Proof. intros A m s s' r G H. specialize (G s). now rewrite H in G. Qed.

  Lemma normalize_evolves : forall n sc d v s s' r, r_normalize (R n) sc d v s = (s', r) -> evolves s s'.
  Proof. intros. eapply evolves_of; [apply (re_normalize _ _ _ (evaluation_evolves E n))|eassumption]. Qed.
  Lemma assoc_evolves : forall n sc v k s s' r, r_assoc (R n) sc v k s = (s', r) -> evolves s s'.
  Proof. intros. eapply evolves_of; [apply (re_assoc _ _ _ (evaluation_evolves E n))|eassumption]. Qed.
  Lemma reduce_evolves : forall n v s s' r, r_reduce (R n) v s = (s', r) -> evolves s s'.
  Proof. intros. eapply evolves_of; [apply (re_reduce _ _ _ (evaluation_evolves E n))|eassumption]. Qed.

  Lemma materialised_wider : forall sc s s' t t' v, evolves t s -> evolves s' t' ->
    materialised E sc s s' v -> materialised E sc t t' v.
  Proof.
    intros sc s s' t t' v H1 H2 M. induction M as [v s1 N1 N2 N3 A B C|l _ IH|n q rows s1 s2 A B C D].
    - apply (m_data E sc t t' v s1); auto; eapply evolves_trans; eauto.
    - apply m_list. exact IH.
    - apply (m_rows E sc t t' n q rows s1 s2); auto; eapply evolves_trans; eauto.
  Qed.

  Lemma normalize_materialises : forall n sc d v s s' x,
    r_normalize (R n) sc d v s = (s', RVal x) -> materialised E sc s s' x.
  Proof.
    induction n as [|n IH]; intros sc d v s s' x H; [discriminate|].
    pose proof (normalize_evolves (S n) _ _ _ _ _ _ H) as EV.
    change (normalize_step (R n) sc d v s = (s', RVal x)) in H. unfold normalize_step in H.
    assert (DATA : forall y t, y <> VNil -> y <> VNilArr -> (forall l, y <> VArr l) -> evaluated t y ->
              materialised E sc t t y).
    { intros. apply (m_data E sc t t y t); auto using evolves_refl. }
    destruct (Nat.ltb 10 d).
    { injection H as <- <-. apply DATA; try discriminate. split; reflexivity. }
    apply bind_inv in H as (s0 & o & HO & H). unfold obj_of in HO. injection HO as <- <-.
    change (match v with VOpaque m => nth_error (heap s) m | _ => None end) with (object_at s v) in H.
    destruct (is_lazy (object_at s v)) eqn:IL.
    { apply bind_inv in H as (s1 & v' & H1 & H2). apply IH in H2.
      eapply materialised_wider; [eapply reduce_evolves; eauto|apply evolves_refl|exact H2]. }
    destruct (is_query v (object_at s v)) eqn:IQ.
    { apply bind_inv in H as (s1 & rows & H1 & H2). injection H2 as <- <-. unfold materialize_rows in H1.
      eapply (m_rows E sc s s1 n v rows s s1); auto using evolves_refl. }
    assert (OTHER : v <> VNil -> v <> VNilArr -> (forall l, v <> VArr l) -> (s, RVal v) = (s', RVal x) ->
              materialised E sc s s' x).
    { intros N1 N2 N3 K. injection K as <- <-. apply DATA; auto. split; auto. }
    destruct v; try (apply OTHER; [discriminate|discriminate|discriminate|exact H]).
    - injection H as <- <-. apply DATA; try discriminate. split; reflexivity.
    - injection H as <- <-. apply m_list. intros ? [].
    - apply bind_inv in H as (s1 & l' & H1 & H2). injection H2 as <- <-. apply m_list.
      clear - H1 IH. revert s l' H1. induction l as [|y l IHl]; intros s l' H1.
      + apply mmap_inv in H1 as [(_ & -> & _)|(? & ? & ? & ? & ? & K & _)]; [intros ? []|discriminate].
      + apply mmap_inv in H1 as [(K & _)|(x0 & r & s2 & b & bs & K & -> & H1 & H2)]; [discriminate|].
        injection K as <- <-. pose proof (IHl _ _ H2) as IHr.
        assert (EV2 : evolves s2 s1).
        { eapply (evolves_of _ (mmap (r_normalize (R n) sc (S d)) l)); [|exact H2].
          apply pa_mmap; [apply grows_closed|]. intros z. apply (re_normalize _ _ _ (evaluation_evolves E n)). }
        intros z [<-|I].
        * eapply materialised_wider; [apply evolves_refl|exact EV2|]. eapply IH. exact H1.
        * eapply materialised_wider; [eapply normalize_evolves; eauto|apply evolves_refl|]. now apply IHr.
  Qed.

  Lemma loop_materialises : forall n sc row columns result s s' d,
    row_to_dict_loop (R n) sc row columns result s = (s', RVal d) ->
    forall s0, evolves s0 s -> Forall (fun kv => materialised E sc s0 s (snd kv)) result ->
    exists kvs, d = VDict kvs /\ Forall (fun kv => materialised E sc s0 s' (snd kv)) kvs.
  Proof.
    intros n sc row. induction columns as [|c columns IH]; intros result s s' d H s0 H0 HR.
    - injection H as <- <-. eauto.
    - cbn [row_to_dict_loop] in H. apply bind_inv in H as (s1 & [v pres] & H1 & H).
      pose proof (assoc_evolves _ _ _ _ _ _ _ H1) as E1.
      assert (W : forall t t' (l : list (string * val)), evolves t t' ->
                Forall (fun kv => materialised E sc s0 t (snd kv)) l -> Forall (fun kv => materialised E sc s0 t' (snd kv)) l).
      { intros t t' l K F. eapply Forall_impl; [|exact F]. cbv beta. intros kv M.
        eapply materialised_wider; [apply evolves_refl|exact K|exact M]. }
      destruct pres.
      + apply bind_inv in H as (s2 & x & H2 & H). pose proof (normalize_evolves _ _ _ _ _ _ _ H2) as E2.
        apply (IH _ _ _ _ H s0); [eauto using evolves_trans|].
        unfold dict_set. apply Forall_app. split.
        * apply Forall_forall. intros kv I. apply in_remove_key in I.
          assert (F : Forall (fun kv => materialised E sc s0 s2 (snd kv)) result) by eauto.
          rewrite Forall_forall in F. now apply F.
        * constructor; [|constructor]. cbn [snd].
          eapply materialised_wider; [|apply evolves_refl|eapply normalize_materialises; exact H2].
          eauto using evolves_trans.
      + apply (IH _ _ _ _ H s0); [eauto using evolves_trans|]. eauto.
  Qed.

  (** What RowToDict returns is a dictionary, and every value in it was
      materialised: it is neither an expression that is still to be evaluated
      nor a query, and a query was replaced by its rows.  (The full statement
      has the same of the values inside of dictionaries, and of those inside of
      the rows of a query.) *)
  Theorem C81_materialised_partial : forall n sc row s s' d,
    row_to_dict (R n) sc row s = (s', RVal d) ->
    exists kvs, d = VDict kvs /\ Forall (fun kv => materialised E sc s s' (snd kv)) kvs.
  Proof.
    intros n sc row s s' d H. unfold row_to_dict in H. apply bind_inv in H as (s1 & ms & H1 & H).
    unfold members in H1. injection H1 as <- <-.
    apply (loop_materialises _ _ _ _ _ _ _ _ H); [apply evolves_refl|constructor].
  Qed.

  Lemma keys_set_new : forall k (v : val) d, ~ In k (keys d) -> keys (dict_set k v d) = keys d ++ [k].
  Proof.
    intros k v d H. unfold dict_set. rewrite remove_key_absent by exact H. unfold keys. now rewrite map_app.
  Qed.

  Lemma loop_keys : forall n sc row columns result s s' d,
    row_to_dict_loop (R n) sc row columns result s = (s', RVal d) ->
    NoDup (keys result ++ columns) ->
    (forall c s1 s2 v pres, In c columns -> evolves s s1 ->
       r_assoc (R n) sc row (KVal (VStr c)) s1 = (s2, RVal (v, pres)) -> pres = true) ->
    exists kvs, d = VDict kvs /\ keys kvs = keys result ++ columns.
  Proof.
    intros n sc row. induction columns as [|c columns IH]; intros result s s' d H ND HP.
    - injection H as <- <-. exists result. now rewrite app_nil_r.
    - cbn [row_to_dict_loop] in H. apply bind_inv in H as (s1 & [v pres] & H1 & H).
      pose proof (assoc_evolves _ _ _ _ _ _ _ H1) as E1.
      rewrite (HP c s s1 v pres (or_introl eq_refl) (evolves_refl s) H1) in H.
      apply bind_inv in H as (s2 & x & H2 & H). pose proof (normalize_evolves _ _ _ _ _ _ _ H2) as E2.
      assert (NI : ~ In c (keys result)).
      { intros I. apply NoDup_remove_2 in ND. apply ND. apply in_or_app. now left. }
      apply IH in H as (kvs & -> & K).
      + exists kvs. split; [reflexivity|]. rewrite K, keys_set_new by exact NI. now rewrite <- app_assoc.
      + rewrite keys_set_new by exact NI. rewrite <- app_assoc. exact ND.
      + intros c' t1 t2 w p I K. apply HP; [now right|]. eauto using evolves_trans.
  Qed.

  (** A dictionary keeps its fields, in their order. *)
  Theorem C81_fields_of_a_dictionary : forall n sc fs s s' d,
    NoDup (keys fs) ->
    row_to_dict (R n) sc (VDict fs) s = (s', RVal d) ->
    exists kvs, d = VDict kvs /\ keys kvs = keys fs.
  Proof.
    intros n sc fs s s' d ND H. unfold row_to_dict in H. apply bind_inv in H as (s1 & ms & H1 & H).
    unfold members in H1. injection H1 as <- <-. cbn [members_of] in H.
    apply (loop_keys _ _ _ _ _ _ _ _ H); [exact ND|].
    intros c t1 t2 v pres I _ K. destruct n as [|n]; [discriminate|].
    change (assoc_step E (R n) sc (VDict fs) (KVal (VStr c)) t1 = (t2, RVal (v, pres))) in K.
    unfold assoc_step in K. cbn [is_nil] in K. apply bind_inv in K as (t & o & K1 & K). unfold obj_of in K1.
    injection K1 as <- <-. cbn [key_string] in K.
    destruct (in_keys_assoc c fs I) as [w HW].
    unfold mret in K. cbn in K. rewrite HW in K. destruct w; congruence.
  Qed.

  (** A row of a query keeps its columns, in their order, and each of them is
      evaluated: the row holds its value now, and gives it to everybody who
      asks later. *)
  Theorem C81_columns_of_a_row : forall n sc r columns getters cache s s' d,
    nth_error (heap s) r = Some (ORow columns getters cache) ->
    NoDup columns -> incl columns (keys getters) ->
    row_to_dict (R n) sc (VOpaque r) s = (s', RVal d) ->
    (exists kvs, d = VDict kvs /\ keys kvs = columns) /\
    exists cache', nth_error (heap s') r = Some (ORow columns getters cache') /\
      forall c, In c columns -> exists v, assoc c cache' = Some v.
  Proof.
    intros n sc r columns getters cache s s' d HR ND HI H.
    assert (ROW : forall t, evolves s t -> exists ca, nth_error (heap t) r = Some (ORow columns getters ca)).
    { intros t K. destruct (evo_heap _ _ K _ _ HR) as (o' & HO & SO). inversion SO; subst; eauto. }
    assert (GET : forall c t1 t2 v pres, In c columns -> evolves s t1 ->
              r_assoc (R n) sc (VOpaque r) (KVal (VStr c)) t1 = (t2, RVal (v, pres)) ->
              pres = true /\ exists ca w, nth_error (heap t2) r = Some (ORow columns getters ca) /\ assoc c ca = Some w).
    { intros c t1 t2 v pres I K A. destruct n as [|n]; [discriminate|].
      pose proof (assoc_evolves (S n) _ _ _ _ _ _ A) as EA.
      change (assoc_step E (R n) sc (VOpaque r) (KVal (VStr c)) t1 = (t2, RVal (v, pres))) in A.
      unfold assoc_step in A. cbn [is_nil] in A. apply bind_inv in A as (t & o & A1 & A). unfold obj_of in A1.
      injection A1 as <- <-. destruct (ROW t1 K) as [ca HC]. rewrite HC in A. cbn [key_string] in A.
      unfold row_get in A. apply bind_inv in A as (t & o & A1 & A). unfold obj_of in A1. injection A1 as <- <-.
      rewrite HC in A. destruct (assoc c ca) as [w|] eqn:EC.
      - injection A as <- <- <-. eauto 6.
      - destruct (in_keys_assoc c getters (HI c I)) as [g HG]. rewrite HG in A.
        apply bind_inv in A as (t3 & w & A1 & A). apply bind_inv in A as (t4 & o & A2 & A). unfold obj_of in A2.
        injection A2 as <- <-.
        assert (E3 : evolves s t3).
        { eapply evolves_trans; [exact K|]. eapply (evolves_of _ (run_getter (R n) g)); [|exact A1].
          apply (pa_run_getter _ grows_closed). apply evaluation_evolves. }
        destruct (ROW t3 E3) as [ca3 HC3]. rewrite HC3 in A. apply bind_inv in A as (t5 & u & A2 & A).
        unfold update_obj in A2. injection A2 as <- _. injection A as <- <- <-. split; [reflexivity|].
        exists (dict_set c w ca3), w. cbn [heap set_heap]. rewrite nth_set_nth, Nat.eqb_refl, HC3.
        split; [reflexivity|]. rewrite assoc_dict_set, String.eqb_refl. reflexivity. }
    unfold row_to_dict in H. apply bind_inv in H as (s1 & ms & H1 & H).
    unfold members in H1. injection H1 as <- <-. cbn [members_of] in H. rewrite HR in H.
    split.
    - apply (loop_keys _ _ _ _ _ _ _ _ H); [exact ND|]. intros c t1 t2 v pres I K A.
      now destruct (GET c t1 t2 v pres I K A).
    - assert (EV : forall cols result t t' d, row_to_dict_loop (R n) sc (VOpaque r) cols result t = (t', RVal d) -> evolves t t').
      { intros cols result t t' d0 K. eapply (evolves_of _ (row_to_dict_loop (R n) sc (VOpaque r) cols result)); [|exact K].
        apply (pa_row_to_dict_loop _ grows_closed). apply evaluation_evolves. }
      assert (GEN : forall cols result t d, incl cols columns -> evolves s t ->
                row_to_dict_loop (R n) sc (VOpaque r) cols result t = (s', RVal d) ->
                exists ca, nth_error (heap s') r = Some (ORow columns getters ca) /\
                  forall c, In c cols -> exists v, assoc c ca = Some v).
      { induction cols as [|c cols IH]; intros result t d0 IC K L.
        - injection L as <- <-. destruct (ROW t K) as [ca HC]. exists ca. split; [exact HC|]. intros ? [].
        - pose proof (EV _ _ _ _ _ L) as EL. cbn [row_to_dict_loop] in L. apply bind_inv in L as (t1 & [v pres] & L1 & L).
          destruct (GET c t t1 v pres (IC c (or_introl eq_refl)) K L1) as (-> & ca1 & w & HC1 & HW).
          apply bind_inv in L as (t2 & x & L2 & L).
          assert (E1 : evolves t t1) by (eapply assoc_evolves; eauto).
          assert (E2 : evolves t1 t2) by (eapply normalize_evolves; eauto).
          destruct (IH (dict_set c x result) t2 d0) as (ca & HC & HV); [intros y I; apply IC; now right|eauto using evolves_trans|exact L|].
          exists ca. split; [exact HC|]. intros c' [<-|I]; [|auto].
          destruct (evo_heap _ _ (evolves_trans _ _ _ E2 (EV _ _ _ _ _ L)) _ _ HC1) as (o' & HO & SO).
          rewrite HC in HO. injection HO as <-. inversion SO; subst; eauto. }
      apply (GEN columns [] s d); [apply incl_refl|apply evolves_refl|exact H].
  Qed.

  Lemma normalize_final : forall k v n sc d s, final k v = true -> k + d <= 10 -> k < n ->
    r_normalize (R n) sc d v s = (s, RVal v).
  Proof.
    induction k as [|k IH]; intros v n sc d s HF HD HN; (destruct n as [|n]; [lia|]);
      change (normalize_step (R n) sc d v s = (s, RVal v)); unfold normalize_step;
      (replace (Nat.ltb 10 d) with false by (symmetry; apply Nat.ltb_ge; lia));
      destruct v; try discriminate HF; try reflexivity.
    cbn [final] in HF.
    assert (M : mmap (r_normalize (R n) sc (S d)) l s = (s, RVal l)).
    { clear - IH HF HD HN. induction l as [|x l IHl]; [reflexivity|]. cbn [forallb] in HF. apply andb_true_iff in HF as [HX HL].
      cbn [mmap]. unfold mbind at 1. rewrite (IH x n sc (S d) s HX) by lia.
      unfold mbind. rewrite IHl by exact HL. reflexivity. }
    unfold mbind at 1. cbn [obj_of is_lazy is_query]. unfold mbind. rewrite M. reflexivity.
  Qed.

  (** A dictionary of data stays as it is; nothing is evaluated.  So does what
      RowToDict returns, given to it again. *)
  Theorem C81_data_is_kept : forall n sc fs s,
    NoDup (keys fs) -> Forall (fun kv => final 10 (snd kv) = true) fs -> 11 <= n ->
    row_to_dict (R n) sc (VDict fs) s = (s, RVal (VDict fs)).
  Proof.
    intros n sc fs s ND HF HN. unfold row_to_dict, members, mbind. cbn [members_of].
    assert (GEN : forall b a, fs = a ++ b -> row_to_dict_loop (R n) sc (VDict fs) (keys b) a s = (s, RVal (VDict (a ++ b)))).
    { induction b as [|[k v] b IH]; intros a EF; [cbn; now rewrite app_nil_r|].
      cbn [keys map row_to_dict_loop fst].
      assert (I : In (k, v) fs) by (rewrite EF; apply in_or_app; right; now left).
      assert (FV : final 10 v = true) by (rewrite Forall_forall in HF; apply (HF _ I)).
      assert (A : r_assoc (R n) sc (VDict fs) (KVal (VStr k)) s = (s, RVal (v, true))).
      { destruct n as [|n]; [lia|]. change (assoc_step E (R n) sc (VDict fs) (KVal (VStr k)) s = (s, RVal (v, true))).
        unfold assoc_step. cbn [is_nil key_string]. unfold mbind, obj_of, mret. cbn.
        rewrite (in_assoc _ k v fs ND I). destruct v; reflexivity || discriminate FV. }
      unfold mbind at 1. rewrite A. unfold mbind. rewrite (normalize_final 10 v n sc 0 s FV) by lia.
      assert (NI : ~ In k (keys a)).
      { rewrite EF in ND. unfold keys in *. rewrite map_app in ND. cbn [map fst] in ND. apply NoDup_remove_2 in ND.
        intros J. apply ND. apply in_or_app. now left. }
      unfold dict_set. rewrite remove_key_absent by exact NI. fold (keys b). rewrite (IH (a ++ [(k, v)])).
      - now rewrite <- app_assoc.
      - now rewrite <- app_assoc. }
    apply (GEN fs [] eq_refl).
  Qed.
End Props.

(** ** Cases *)

Open Scope string_scope.

(** The rows of a session as dictionaries. *)
Definition session (qs : list stmt) : EM (list (list val)) :=
  '(_, out) <- run_stmts (ev demo_env 60) demo_scope qs ;;
  mmap (mmap (row_to_dict (ev demo_env 60) demo_scope)) out.

Definition first_row : select -> select := fun s =>
  match s with Select star cols from where_ g o _ => Select star cols from where_ g o (Some 1%Z) end.

(** LET inner = SELECT n FROM t
    LET q = SELECT n, inner FROM t LIMIT 1
    SELECT q FROM t LIMIT 1 *)
Definition nested : list stmt :=
  [SLet "inner" [] true (LSelect (Select false [("n", CExpr (sym 1 "n"))] (from_var "t") None None None None));
   SLet "q" [] true (LSelect (first_row (Select false [("n", CExpr (sym 2 "n")); ("inner", CExpr (sym 3 "inner"))]
                                           (from_var "t") None None None None)));
   SQuery "" (first_row (Select false [("q", CExpr (sym 4 "q"))] (from_var "t") None None None None))].

(** A query inside of the rows of a query is still a query. *)
Theorem C81_nested_query_refuted : exists qs s row inner,
  session qs st0 = (s, RVal [[VDict [("q", VArr [VDict [("n", row); ("inner", VQuery inner)]])]]]) /\
  is_query (VQuery inner) None = true.
Proof.
  exists nested. eexists. exists (vint 3), [VDict [("n", vint 3)]; VDict [("n", vint 1)]; VDict [("n", VNull)]; VDict [("n", vint 2)]].
  split; [vm_compute; reflexivity|reflexivity].
Qed.

(** A row with a column that is a query, one that calls a function of the host
    and one that is data: each is evaluated once, and the row is data. *)
Definition lazy_row : list obj :=
  [OQuery {| q_select := Select false [("n", CExpr (sym 1 "n"))] (from_var "t") None None None (Some 2%Z); q_defaults := [] |};
   ORow ["q"; "h"; "d"]
     [("q", GConst (VOpaque 0)); ("h", GCol (CExpr (call 5 "hit" [("x", AExpr (lit 7))])) demo_scope);
      ("d", GConst (VArr [vint 1; VOpaque 0]))] []].

Example C81_demo :
  let s := set_heap lazy_row st0 in
  nth_error (heap s) 1 <> None /\ NoDup ["q"; "h"; "d"] /\
  let rows := VArr [VDict [("n", vint 3)]; VDict [("n", vint 1)]] in
  snd (row_to_dict (ev demo_env 40) demo_scope (VOpaque 1) s) =
    RVal (VDict [("q", rows); ("h", vint 7); ("d", VArr [vint 1; rows])]) /\
  snd ((row_to_dict (ev demo_env 40) demo_scope (VOpaque 1) ;;;
        row_to_dict (ev demo_env 40) demo_scope (VOpaque 1)) s) =
    RVal (VDict [("q", rows); ("h", vint 7); ("d", VArr [vint 1; rows])]) /\
  trace (fst ((row_to_dict (ev demo_env 40) demo_scope (VOpaque 1) ;;;
               row_to_dict (ev demo_env 40) demo_scope (VOpaque 1)) s)) = [vint 7].
Proof.
  repeat split; try (vm_compute; reflexivity); [vm_compute; discriminate|].
  repeat constructor; cbn; intuition discriminate.
Qed.

Example C81_kept_demo : forall s,
  row_to_dict (ev demo_env 20) demo_scope (VDict [("a", VArr [vint 1; VArr []]); ("b", VNull)]) s =
    (s, RVal (VDict [("a", VArr [vint 1; VArr []]); ("b", VNull)])).
Proof.
  intros s. apply C81_data_is_kept; [|repeat constructor|lia].
  repeat constructor; cbn; intuition discriminate.
Qed.

Print Assumptions C81_materialised_partial.
Print Assumptions C81_fields_of_a_dictionary.
Print Assumptions C81_columns_of_a_row.
Print Assumptions C81_data_is_kept.
Print Assumptions C81_nested_query_refuted.
