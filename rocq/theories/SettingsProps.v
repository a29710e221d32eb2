(** Settings of scopes: property C88. *)

From Coq Require Import List Arith Bool Lia.
From Verif Require Import Scope ScopeProps Settings.
Import ListNotations.
Open Scope nat_scope.

Section Props.
  Context {V T A : Type}.
  Variable builtin : setting -> option V.
  Notation sworld := (sworld V T A).
  Notation sop := (sop V T A).
  Notation srun := (@srun V T A builtin).

  (** ** The specification: what is in force, from the history alone

      [past] has the most recent call first. *)

  (** Scopes made so far. *)
  Fixpoint made (past : list sop) : nat :=
    match past with
    | [] => 0
    | SRoot :: p => S (made p)
    | SNewScope s :: p | SCopy s :: p => if Nat.ltb s (made p) then S (made p) else made p
    | _ :: p => made p
    end.

  (** Does this call, made after [p], make the scope [s]? *)
  Definition makes (o : sop) (p : list sop) (s : nat) : bool :=
    match o with
    | SRoot => Nat.eqb s (made p)
    | SNewScope q | SCopy q => Nat.ltb q (made p) && Nat.eqb s (made p)
    | _ => false
    end.

  (** Scopes of the same circle share their settings: a copy is in the circle
      of the scope it was made from, any other new scope begins a circle, and
      so does ClearContext for its scope.  A circle is named by the time it
      began. *)
  Fixpoint circle (past : list sop) (s : nat) : nat :=
    match past with
    | [] => 0
    | o :: p =>
        match o with
        | SCopy q => if makes o p s then circle p q else circle p s
        | SClear q => if Nat.ltb q (made p) && Nat.eqb s q then S (List.length p) else circle p s
        | _ => if makes o p s then S (List.length p) else circle p s
        end
    end.

  (** Are two settings the same one? *)
  Definition same_setting (a b : setting) : {a = b} + {a <> b}.
  Proof. decide equality. Defined.

  (** The setting [k] of scope [s]: the one last set on a scope of its circle;
      a scope begins with the settings of the scope it was made from. *)
  Fixpoint in_force (past : list sop) (s : nat) (k : setting) : option V :=
    match past with
    | [] => builtin k
    | o :: p =>
        match o with
        | SRoot => if makes o p s then builtin k else in_force p s k
        | SNewScope q | SCopy q => if makes o p s then in_force p q k else in_force p s k
        | SSet q k' v =>
            if Nat.ltb q (made p) && Nat.eqb (circle p q) (circle p s) then
              if same_setting k k' then v else in_force p s k
            else in_force p s k
        | _ => in_force p s k
        end
    end.

  (** The throttler of a scope: set on the scope itself, or on the scope it
      was made from before it was made. *)
  Fixpoint throttled (past : list sop) (s : nat) : option T :=
    match past with
    | [] => None
    | o :: p =>
        match o with
        | SRoot => if makes o p s then None else throttled p s
        | SNewScope q | SCopy q => if makes o p s then throttled p q else throttled p s
        | SThrottle q t => if Nat.ltb q (made p) && Nat.eqb s q then Some t else throttled p s
        | _ => throttled p s
        end
    end.

  (** Is the scope explained?  Copies made afterwards are too. *)
  Fixpoint explained (past : list sop) (s : nat) : bool :=
    match past with
    | [] => false
    | o :: p =>
        match o with
        | SRoot | SNewScope _ => if makes o p s then false else explained p s
        | SCopy q => if makes o p s then explained p q else explained p s
        | SEnable q => if Nat.ltb q (made p) && Nat.eqb s q then true else explained p s
        | _ => explained p s
        end
    end.

  (** The aggregator context a scope was given, if it was not left to the
      scope it is a copy of. *)
  Fixpoint own_context (past : list sop) (s : nat) : option (actx A) :=
    match past with
    | [] => None
    | o :: p =>
        match o with
        | SRoot | SNewScope _ => if makes o p s then Some (AMade (List.length p)) else own_context p s
        | SCopy _ => if makes o p s then None else own_context p s
        | SAgg q a =>
            if Nat.ltb q (made p) && Nat.eqb s q
            then Some (match a with Some x => AGiven x | None => AMade (List.length p) end)
            else own_context p s
        | _ => own_context p s
        end
    end.
  Fixpoint copied_from (past : list sop) (s : nat) : option nat :=
    match past with
    | [] => None
    | o :: p =>
        match o with
        | SCopy q => if makes o p s then Some q else copied_from p s
        | _ => if makes o p s then None else copied_from p s
        end
    end.
  (** The context of a scope: its own, or that of the scope it is a copy of. *)
  Inductive counts_in (past : list sop) : nat -> actx A -> Prop :=
  | counts_own : forall s c, own_context past s = Some c -> counts_in past s c
  | counts_above : forall s q c,
      own_context past s = None -> copied_from past s = Some q -> counts_in past q c ->
      counts_in past s c.

  (** ** The model follows it *)

  (** Was ClearContext called? *)
  Fixpoint clears (past : list sop) : bool :=
    match past with
    | [] => false
    | SClear q :: p => Nat.ltb q (made p) || clears p
    | _ :: p => clears p
    end.

  Lemma srun_snoc : forall (ops : list sop) o, srun (ops ++ [o]) = sstep builtin (srun ops) o.
  Proof. intros. unfold Settings.srun. now rewrite fold_left_app. Qed.

  Lemma setting_eqb_same : forall a b (X : Type) (x y : X),
    (if setting_eqb a b then x else y) = (if same_setting a b then x else y).
  Proof. intros a b X x y. destruct a, b; reflexivity. Qed.

  Lemma circle_le : forall (past : list sop) s, circle past s <= List.length past.
  Proof.
    induction past as [|o p IH]; intros s; [simpl; lia|].
    destruct o; cbn [circle List.length];
      match goal with |- (if ?b then _ else _) <= _ => destruct b end;
      repeat match goal with |- circle p ?x <= _ => pose proof (IH x); lia end; lia.
  Qed.

  (** What is kept up with every call. *)
  Definition good (w : sworld) (past : list sop) : Prop :=
    w_calls w = List.length past /\
    w_scopes w = made past /\
    (forall s, s < made past -> ss_disp (w_sc w s) < w_disps w) /\
    (forall s t, s < made past -> t < made past ->
       (ss_disp (w_sc w s) = ss_disp (w_sc w t) <-> circle past s = circle past t)) /\
    (forall s, s < made past ->
       (forall k, k <> SExplainer \/ clears past = false -> get_setting w s k = in_force past s k) /\
       throttler w s = throttled past s /\
       ss_explain (w_sc w s) = explained past s /\
       ss_agg (w_sc w s) = own_context past s /\
       ss_parent (w_sc w s) = copied_from past s /\
       (own_context past s = None -> exists q, copied_from past s = Some q) /\
       (forall q, copied_from past s = Some q -> q < s)).

  Ltac tidy :=
    repeat match goal with
    | |- context [upd ?m ?k ?v ?k] => rewrite (upd_same _ m k v)
    | H : ?i <> ?k |- context [upd ?m ?k ?v ?i] => rewrite (upd_other _ m k v i H)
    end.

  (** A new scope [n] with a dispatcher of its own. *)
  Lemma good_fresh : forall w past d c (o : sop),
    good w past ->
    (forall s, makes o past s = Nat.eqb s (made past)) ->
    made (o :: past) = S (made past) ->
    (forall s, circle (o :: past) s = if Nat.eqb s (made past) then S (List.length past) else circle past s) ->
    clears (o :: past) = clears past ->
    (forall s, s < made past ->
       (forall k, in_force (o :: past) s k = in_force past s k) /\
       throttled (o :: past) s = throttled past s /\ explained (o :: past) s = explained past s /\
       own_context (o :: past) s = own_context past s /\ copied_from (o :: past) s = copied_from past s) ->
    ss_disp c = w_disps w ->
    (forall k, k <> SExplainer \/ clears past = false -> d k = in_force (o :: past) (made past) k) ->
    ss_throttler c = throttled (o :: past) (made past) ->
    ss_explain c = explained (o :: past) (made past) ->
    ss_agg c = own_context (o :: past) (made past) ->
    own_context (o :: past) (made past) <> None ->
    ss_parent c = copied_from (o :: past) (made past) ->
    copied_from (o :: past) (made past) = None ->
    good (tick (add_scope (add_disp w d) c)) (o :: past).
  Proof.
    intros w past d c o (G1 & G2 & G3 & G4 & G5) Mk Md Ci Cl Old Dc Dk Th Ex Ag Agn Pa Pan.
    unfold good. rewrite Md, Cl. cbn [tick add_scope add_disp w_calls w_scopes w_sc w_disps w_disp List.length].
    rewrite G2. split; [now rewrite G1|]. split; [reflexivity|].
    assert (Dold : forall s, s < made past -> ss_disp (upd (w_sc w) (made past) c s) = ss_disp (w_sc w s)).
    { intros s L. rewrite upd_other; [reflexivity|lia]. }
    split; [|split].
    - intros s L. destruct (Nat.eq_dec s (made past)) as [->|N].
      + rewrite upd_same, Dc. lia.
      + rewrite upd_other by exact N. specialize (G3 s ltac:(lia)). lia.
    - intros s t Ls Lt. rewrite !Ci.
      destruct (Nat.eqb_spec s (made past)) as [->|Ns]; destruct (Nat.eqb_spec t (made past)) as [->|Nt]; tidy.
      + tauto.
      + rewrite Dc. specialize (G3 t ltac:(lia)). pose proof (circle_le past t). lia.
      + rewrite Dc. specialize (G3 s ltac:(lia)). pose proof (circle_le past s). lia.
      + apply G4; lia.
    - intros s L. destruct (Nat.eq_dec s (made past)) as [->|N].
      + unfold get_setting, throttler. cbn [tick add_scope add_disp w_sc w_disp w_scopes]. rewrite !G2, !upd_same, !Dc, !upd_same.
        repeat split; auto; try (intro H; contradiction); try (intros q H; congruence); congruence.
      + assert (Ls : s < made past) by lia. destruct (Old s Ls) as (O1 & O2 & O3 & O4 & O5).
        destruct (G5 s Ls) as (H1 & H2 & H3 & H4 & H5 & H6 & H7).
        unfold get_setting, throttler in *. cbn [tick add_scope add_disp w_sc w_disp w_scopes]. rewrite !G2. rewrite !(upd_other _ (w_sc w)) by exact N.
        rewrite O2, O3, O4, O5. repeat split; auto. intros k Hk. rewrite O1.
        rewrite upd_other by (specialize (G3 s Ls); lia). auto.
  Qed.

  (** A call that makes no scope and changes no circle or setting. *)
  Lemma good_same : forall w w' past (o : sop),
    good w past ->
    w_calls w' = S (w_calls w) -> w_scopes w' = w_scopes w -> w_disps w' = w_disps w ->
    (forall s, s < made past -> ss_disp (w_sc w' s) = ss_disp (w_sc w s) /\
                                ss_parent (w_sc w' s) = ss_parent (w_sc w s)) ->
    made (o :: past) = made past ->
    (forall s, circle (o :: past) s = circle past s) ->
    clears (o :: past) = clears past ->
    (forall s, copied_from (o :: past) s = copied_from past s) ->
    (forall s, s < made past ->
       (forall k, k <> SExplainer \/ clears past = false ->
          get_setting w' s k = in_force (o :: past) s k) /\
       throttler w' s = throttled (o :: past) s /\
       ss_explain (w_sc w' s) = explained (o :: past) s /\
       ss_agg (w_sc w' s) = own_context (o :: past) s /\
       (own_context (o :: past) s = None -> own_context past s = None)) ->
    good w' (o :: past).
  Proof.
    intros w w' past o (G1 & G2 & G3 & G4 & G5) C1 C2 C3 Dp Md Ci Cl Cf New.
    unfold good. rewrite Md, Cl, C1, C2, C3. cbn [List.length]. split; [now rewrite G1|]. split; [exact G2|].
    split; [|split].
    - intros s L. destruct (Dp s L) as (D & _). rewrite D. auto.
    - intros s t Ls Lt. destruct (Dp s Ls) as (D & _). destruct (Dp t Lt) as (D' & _).
      rewrite D, D', !Ci. auto.
    - intros s L. destruct (Dp s L) as (_ & D). destruct (New s L) as (N1 & N2 & N3 & N4 & N5).
      destruct (G5 s L) as (_ & _ & _ & _ & H5 & H6 & H7).
      rewrite Cf, D. repeat split; auto.
  Qed.

  Lemma good_step : forall w past o, good w past -> good (sstep builtin w o) (o :: past).
  Proof.
    intros w past o G. pose proof G as (G1 & G2 & G3 & G4 & G5).
    unfold sstep.
    assert (Refused : forall s, starget o = Some s -> Nat.ltb s (made past) = false -> good (tick w) (o :: past)).
    { intros s Tg L. apply (good_same w); auto.
      - destruct o; simpl in Tg; inversion Tg; subst; simpl; rewrite ?L; reflexivity.
      - intros t. destruct o; simpl in Tg; inversion Tg; subst; cbn [circle makes]; rewrite ?L; reflexivity.
      - destruct o; simpl in Tg; inversion Tg; subst; simpl; rewrite ?L; reflexivity.
      - intros t. destruct o; simpl in Tg; inversion Tg; subst; cbn [copied_from makes]; rewrite ?L; reflexivity.
      - intros t Lt. destruct (G5 t Lt) as (H1 & H2 & H3 & H4 & _).
        destruct o; simpl in Tg; inversion Tg; subst;
          cbn [in_force throttled explained own_context makes]; rewrite ?L; simpl andb; cbn match;
          repeat split; auto. }
    destruct (starget o) as [q|] eqn:Tg.
    2: { destruct o; try discriminate. unfold s_root.
         apply good_fresh; auto; simpl; rewrite ?Nat.eqb_refl; auto; try congruence.
         - intros s L. destruct (Nat.eqb_spec s (made past)); [lia|]. auto. }
    rewrite G2. destruct (Nat.ltb q (made past)) eqn:L.
    2: { now apply (Refused q). }
    destruct o as [|s|s|s|s k v|s t|s|s a]; simpl in Tg; inversion Tg; subst s; clear Tg.
    - (* NewScope *) 
      pose proof (proj1 (Nat.ltb_lt _ _) L) as Lq. destruct (G5 q Lq) as (H1 & H2 & _).
      unfold s_new. apply good_fresh; auto; cbn [made circle makes in_force throttled explained own_context copied_from];
        rewrite ?L, ?Nat.eqb_refl; simpl; auto; try congruence.
      + intros s Ls. destruct (Nat.eqb_spec s (made past)); [lia|]. auto.
    - (* Copy *)
      pose proof (proj1 (Nat.ltb_lt _ _) L) as Lq. destruct (G5 q Lq) as (H1 & H2 & H3 & _).
      unfold s_copy, good. cbn [tick add_scope w_calls w_scopes w_sc w_disps w_disp List.length made clears].
      rewrite L, G1, G2. split; [reflexivity|]. split; [reflexivity|]. split; [|split].
      + intros s Ls. destruct (Nat.eq_dec s (made past)) as [->|N]; tidy; cbn [ss_disp]; [auto|].
        apply G3; lia.
      + intros s t Ls Lt. cbn [circle makes]. rewrite L. simpl andb.
        destruct (Nat.eqb_spec s (made past)) as [->|Ns]; destruct (Nat.eqb_spec t (made past)) as [->|Nt];
          tidy; cbn [ss_disp]; [tauto| | |]; apply G4; lia.
      + intros s Ls. unfold get_setting, throttler in *.
        cbn [tick add_scope w_sc w_disp w_scopes in_force throttled explained own_context copied_from makes].
        rewrite L, G2. simpl andb. destruct (Nat.eqb_spec s (made past)) as [->|N]; tidy;
          cbn [ss_disp ss_throttler ss_explain ss_agg ss_parent].
        * repeat split; auto; [exists q; reflexivity | intros x X; inversion X; subst; exact Lq].
        * apply G5. lia.
    - (* ClearContext *)
      pose proof (proj1 (Nat.ltb_lt _ _) L) as Lq.
      unfold s_clear, good.
      cbn [tick put_scope add_disp w_calls w_scopes w_sc w_disps w_disp List.length made clears].
      rewrite L, G1, G2. split; [reflexivity|]. split; [reflexivity|]. split; [|split].
      + intros s Ls. destruct (Nat.eq_dec s q) as [->|N]; tidy; cbn [ss_disp]; [lia|].
        specialize (G3 s Ls). lia.
      + intros s t Ls Lt. cbn [circle]. rewrite L. simpl andb.
        destruct (Nat.eqb_spec s q) as [->|Ns]; destruct (Nat.eqb_spec t q) as [->|Nt]; tidy; cbn [ss_disp].
        * tauto.
        * specialize (G3 t Lt). pose proof (circle_le past t). lia.
        * specialize (G3 s Ls). pose proof (circle_le past s). lia.
        * auto.
      + intros s Ls. destruct (G5 s Ls) as (H1 & H2 & H3 & H4 & H5 & H6 & H7).
        unfold get_setting, throttler in *.
        cbn [tick put_scope add_disp w_sc w_disp w_scopes in_force throttled explained own_context copied_from makes].
        destruct (Nat.eq_dec s q) as [->|N]; tidy; cbn [ss_disp ss_throttler ss_explain ss_agg ss_parent].
        * repeat split; auto. intros k [K|K]; [|discriminate]. rewrite upd_same. unfold with_new_context.
          destruct k; try congruence; apply H1; left; discriminate.
        * repeat split; auto. intros k [K|K]; [|discriminate].
          rewrite upd_other by (specialize (G3 s Ls); lia). apply H1. now left.
    - (* a setting *)
      pose proof (proj1 (Nat.ltb_lt _ _) L) as Lq.
      apply (good_same w); auto. intros s Ls. destruct (G5 s Ls) as (H1 & H2 & H3 & H4 & _).
      unfold s_set, get_setting, throttler in *. cbn [tick w_sc w_disp in_force throttled explained own_context].
      rewrite L. simpl andb. repeat split; auto. intros k' K.
      destruct (Nat.eqb_spec (circle past q) (circle past s)) as [E|E]; cbn [andb].
      + apply (G4 q s Lq Ls) in E. rewrite E, upd_same, setting_eqb_same. destruct (same_setting k' k); auto.
      + rewrite upd_other; [auto|]. intros X. apply E. symmetry. now apply (G4 s q Ls Lq).
    - (* SetThrottler *)
      apply (good_same w); auto.
      + intros s Ls. unfold s_throttle. cbn [tick put_scope w_sc]. destruct (Nat.eq_dec s q) as [->|N]; tidy; auto.
      + intros s Ls. destruct (G5 s Ls) as (H1 & H2 & H3 & H4 & _).
        unfold s_throttle, get_setting, throttler in *.
        cbn [tick put_scope w_sc w_disp in_force throttled explained own_context].
        rewrite L. simpl andb. destruct (Nat.eqb_spec s q) as [->|N]; tidy; auto 10.
    - (* EnableExplain *)
      apply (good_same w); auto.
      + intros s Ls. unfold s_enable. cbn [tick put_scope w_sc]. destruct (Nat.eq_dec s q) as [->|N]; tidy; auto.
      + intros s Ls. destruct (G5 s Ls) as (H1 & H2 & H3 & H4 & _).
        unfold s_enable, get_setting, throttler in *.
        cbn [tick put_scope w_sc w_disp in_force throttled explained own_context].
        rewrite L. simpl andb. destruct (Nat.eqb_spec s q) as [->|N]; tidy; auto 10.
    - (* SetAggregatorCtx *)
      apply (good_same w); auto.
      + intros s Ls. unfold s_agg. cbn [tick put_scope w_sc]. destruct (Nat.eq_dec s q) as [->|N]; tidy; auto.
      + intros s Ls. destruct (G5 s Ls) as (H1 & H2 & H3 & H4 & _).
        unfold s_agg, get_setting, throttler in *.
        cbn [tick put_scope w_sc w_disp in_force throttled explained own_context].
        rewrite L. simpl andb. destruct (Nat.eqb_spec s q) as [->|N]; tidy; cbn [ss_disp ss_throttler ss_explain ss_agg].
        * rewrite G1. repeat split; auto. discriminate.
        * auto 10.
  Qed.

  Lemma good_run : forall ops : list sop, good (srun ops) (rev ops).
  Proof.
    induction ops as [|o ops IH] using rev_ind.
    - unfold good; simpl; repeat split; intros; try lia; auto.
    - rewrite srun_snoc, rev_app_distr. simpl. now apply good_step.
  Qed.

  Lemma find_agg_spec : forall w past, good w past -> forall n s,
    s < made past -> s <= n ->
    exists c, find_agg n w s = Some c /\ counts_in past s c.
  Proof.
    intros w past (_ & _ & _ & _ & G5). induction n as [|n IH]; intros s L Le;
      destruct (G5 s L) as (_ & _ & _ & H4 & H5 & H6 & H7); cbn [find_agg]; rewrite H4;
      destruct (own_context past s) as [c|] eqn:E.
    - exists c. split; [reflexivity|]. now constructor.
    - destruct (H6 eq_refl) as (q & Q). specialize (H7 q Q). lia.
    - exists c. split; [reflexivity|]. now constructor.
    - destruct (H6 eq_refl) as (q & Q). specialize (H7 q Q). rewrite H5, Q.
      destruct (IH q ltac:(lia) ltac:(lia)) as (c & F & U). exists c. split; [exact F|].
      now apply (counts_above past s q).
  Qed.

  Lemma counts_in_one : forall past s c, counts_in past s c -> forall c', counts_in past s c' -> c = c'.
  Proof.
    intros past s c H. induction H as [s c O|s q c O Q H IH]; intros c' H'; inversion H'; subst; try congruence.
    apply IH. congruence.
  Qed.

  (** Sorter, grouper, materializer and loggers of every scope are those last
      set for its circle; so is the explainer as long as nobody calls
      ClearContext. *)
  Theorem C88_settings_partial : forall (ops : list sop) s k,
    s < made (rev ops) ->
    k <> SExplainer \/ clears (rev ops) = false ->
    get_setting (srun ops) s k = in_force (rev ops) s k.
  Proof. intros ops s k L K. destruct (good_run ops) as (_ & _ & _ & _ & G). now apply (G s L). Qed.

  (** The throttler and whether a scope is explained. *)
  Theorem C88_throttler : forall (ops : list sop) s,
    s < made (rev ops) -> throttler (srun ops) s = throttled (rev ops) s.
  Proof. intros ops s L. destruct (good_run ops) as (_ & _ & _ & _ & G). now apply (G s L). Qed.
  Theorem C88_explained_partial : forall (ops : list sop) s,
    s < made (rev ops) -> clears (rev ops) = false ->
    explainer (srun ops) s = if explained (rev ops) s then in_force (rev ops) s SExplainer else None.
  Proof.
    intros ops s L C. destruct (good_run ops) as (_ & _ & _ & _ & G). destruct (G s L) as (H1 & _ & H3 & _).
    unfold explainer. rewrite H3. destruct (explained (rev ops) s); [|reflexivity]. apply H1. now right.
  Qed.
  Theorem C88_not_explained : forall (ops : list sop) s,
    s < made (rev ops) -> explained (rev ops) s = false -> explainer (srun ops) s = None.
  Proof.
    intros ops s L C. destruct (good_run ops) as (_ & _ & _ & _ & G). destruct (G s L) as (_ & _ & H3 & _).
    unfold explainer. now rewrite H3, C.
  Qed.

  (** Every scope has exactly one aggregator context, found without making one. *)
  Theorem C88_aggregator : forall (ops : list sop) s c,
    s < made (rev ops) ->
    (get_agg (srun ops) s = Some c <-> counts_in (rev ops) s c).
  Proof.
    intros ops s c L. pose proof (good_run ops) as G. pose proof G as (_ & G2 & _).
    unfold get_agg. destruct (find_agg_spec _ _ G (w_scopes (srun ops)) s L) as (c' & F & U); [lia|].
    rewrite F. split; intros H.
    - inversion H; subst. exact U.
    - f_equal. now apply (counts_in_one (rev ops) s).
  Qed.
  Theorem C88_aggregator_exists : forall (ops : list sop) s,
    s < made (rev ops) -> exists c, get_agg (srun ops) s = Some c.
  Proof.
    intros ops s L. pose proof (good_run ops) as G. pose proof G as (_ & G2 & _).
    unfold get_agg. destruct (find_agg_spec _ _ G (w_scopes (srun ops)) s L) as (c' & F & U); [lia|]. eauto.
  Qed.

  (** Two scopes that were not made by copying count apart. *)
  Theorem C88_new_scopes_count_apart : forall (ops : list sop) s t c,
    s < made (rev ops) -> t < made (rev ops) -> s <> t ->
    (forall q a, ~ In (SAgg q (Some a)) ops) ->
    copied_from (rev ops) s = None -> copied_from (rev ops) t = None ->
    get_agg (srun ops) s = Some c -> get_agg (srun ops) t <> Some c.
  Proof.
    intros ops s t c Ls Lt N NoSet Cs Ct Hs Ht.
    apply C88_aggregator in Hs; [|exact Ls]. apply C88_aggregator in Ht; [|exact Lt].
    inversion Hs; subst; [|congruence]. inversion Ht; subst; [|congruence].
    assert (NoSet' : forall q a, ~ In (SAgg q (Some a)) (rev ops)).
    { intros q a. rewrite <- in_rev. auto. }
    clear NoSet Hs Ht Cs Ct. revert H H0 NoSet' Ls Lt. generalize (rev ops) as past.
    induction past as [|o p IH]; intros H H0 NoSet Ls Lt; [discriminate|].
    assert (NoSet' : forall q a, ~ In (SAgg q (Some a)) p).
    { intros q a Z. apply (NoSet q a). now right. }
    assert (Names : forall x c, own_context p x = Some c -> forall n, c = AMade n -> n < List.length p).
    { clear. induction p as [|o p IH]; intros x c E n ->; [discriminate|].
      specialize (IH x). cbn [List.length].
      destruct o; cbn [own_context] in E;
        try (specialize (IH _ E n eq_refl); lia);
        match type of E with (if ?b then _ else _) = _ => destruct b end;
        try (specialize (IH _ E n eq_refl); lia); try discriminate; try (inversion E; lia).
      destruct a; inversion E; lia. }
    destruct o; cbn [own_context made] in *; eauto.
    - simpl in *. destruct (Nat.eqb_spec s (made p)); destruct (Nat.eqb_spec t (made p)); try lia.
      + inversion H; subst. specialize (Names t _ H0 _ eq_refl). lia.
      + inversion H0; subst. specialize (Names s _ H _ eq_refl). lia.
      + apply IH; auto; lia.
    - simpl in *. destruct (Nat.ltb s0 (made p)); simpl in *; [|eauto].
      destruct (Nat.eqb_spec s (made p)); destruct (Nat.eqb_spec t (made p)); try lia.
      + inversion H; subst. specialize (Names t _ H0 _ eq_refl). lia.
      + inversion H0; subst. specialize (Names s _ H _ eq_refl). lia.
      + apply IH; auto; lia.
    - simpl in *. destruct (Nat.ltb s0 (made p)); simpl in *; [|eauto].
      destruct (Nat.eqb_spec s (made p)); destruct (Nat.eqb_spec t (made p)); try lia; try discriminate.
      apply IH; auto; lia.
    - destruct a as [a|]; [destruct (NoSet s0 a); now left|].
      destruct (Nat.ltb s0 (made p)); simpl in *; [|eauto].
      destruct (Nat.eqb_spec s s0); destruct (Nat.eqb_spec t s0); try congruence.
      + inversion H; subst. specialize (Names t _ H0 _ eq_refl). lia.
      + inversion H0; subst. specialize (Names s _ H _ eq_refl). lia.
      + apply IH; auto.
  Qed.

  (** ClearContext loses the explainer of its scope, whatever it was. *)
  Theorem C88_clear_context_loses_the_explainer : forall (ops : list sop) s,
    s < made (rev ops) -> explainer (srun (ops ++ [SClear s])) s = None.
  Proof.
    intros ops s L. rewrite srun_snoc. destruct (good_run ops) as (_ & G2 & _).
    unfold sstep. cbn [starget]. rewrite G2. apply Nat.ltb_lt in L. rewrite L.
    unfold explainer, get_setting, s_clear. cbn [tick put_scope add_disp w_sc w_disp].
    rewrite !upd_same. cbn [ss_disp ss_explain]. rewrite ?upd_same.
    destruct (ss_explain (w_sc (srun ops) s)); reflexivity.
  Qed.
End Props.

(** The full statement: ClearContext changes no setting. *)
Theorem C88_explainer_refuted : exists (ops : list (sop nat nat nat)) s,
  s < made (rev ops) /\
  in_force (fun _ => None) (rev ops) s SExplainer = Some 7 /\
  explained (rev ops) s = true /\
  explainer (srun (fun _ => None) ops) s = None.
Proof.
  exists [SRoot; SSet 0 SExplainer (Some 7); SEnable 0; SClear 0], 0. vm_compute. repeat split; lia.
Qed.

(** A root scope 0 with a copy 1, a copy 2 of the copy, and a scope 3 made
    from 1: the sorter set on the copy is that of 0, 1 and 2 and, because it
    was set before 3 was made, of 3; the one set on 3 is its own.  The
    throttler set on 0 after the copies reaches none of them.  The aggregator
    context given to 1 is also that of 2. *)
Definition ex_settings : list (sop nat nat nat) :=
  [SRoot; SCopy 0; SCopy 1; SSet 1 SSorter (Some 5); SNewScope 1; SSet 3 SSorter (Some 6); SThrottle 0 9;
   SAgg 1 (Some 4); SSet 2 SExplainer (Some 8); SEnable 0].
Example C88_example :
  let w := srun (fun k => match k with SSorter => Some 1 | _ => None end) ex_settings in
  map (fun s => (get_setting w s SSorter, throttler w s, get_agg w s, explainer w s)) [0; 1; 2; 3] =
  [(Some 5, Some 9, Some (AMade 0), Some 8); (Some 5, None, Some (AGiven 4), None);
   (Some 5, None, Some (AGiven 4), None); (Some 6, None, Some (AMade 4), None)].
Proof. vm_compute. reflexivity. Qed.
Example C88_example_hypotheses :
  made (rev ex_settings) = 4 /\ clears (rev ex_settings) = false /\
  copied_from (rev ex_settings) 0 = None /\ copied_from (rev ex_settings) 3 = None.
Proof. vm_compute. auto. Qed.

Print Assumptions C88_settings_partial.
Print Assumptions C88_throttler.
Print Assumptions C88_explained_partial.
Print Assumptions C88_not_explained.
Print Assumptions C88_aggregator.
Print Assumptions C88_aggregator_exists.
Print Assumptions C88_new_scopes_count_apart.
Print Assumptions C88_clear_context_loses_the_explainer.
Print Assumptions C88_explainer_refuted.
