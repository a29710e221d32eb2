(** Registries: property C31. *)

From Coq Require Import List Arith Bool String Lia.
From Verif Require Import Scope ScopeProps Registry.
Import ListNotations.
Open Scope nat_scope.

Section Props.
  Context {F P I V : Type}.
  Notation reg := (reg F P I V).
  Notation rop := (rop F P I V).
  Implicit Types r : reg.

  (** ** The specification: who shares what, from the history alone *)

  (** Scopes made so far ([past] has the most recent operation first). *)
  Fixpoint made (past : list rop) : nat :=
    match past with
    | [] => 0
    | RRoot :: p => S (made p)
    | RNewScope s :: p | RCopy s :: p => if Nat.ltb s (made p) then S (made p) else made p
    | _ :: p => made p
    end.

  (** Scopes with the same [family] are joined by Copy: they share functions
      and plugins.  A family is named by its first scope. *)
  Fixpoint family (past : list rop) (s : nat) : nat :=
    match past with
    | [] => s
    | RCopy q :: p => if Nat.ltb q (made p) && Nat.eqb s (made p) then family p q else family p s
    | _ :: p => family p s
    end.

  (** Scopes with the same [circle] also share protocol implementations and
      context values: as families, but ClearContext moves its scope to a
      circle of its own.  A circle is named by the time it began. *)
  Fixpoint circle (past : list rop) (s : nat) : nat :=
    match past with
    | [] => 0
    | RRoot :: p => if Nat.eqb s (made p) then S (List.length p) else circle p s
    | RNewScope q :: p =>
        if Nat.ltb q (made p) && Nat.eqb s (made p) then S (List.length p) else circle p s
    | RCopy q :: p => if Nat.ltb q (made p) && Nat.eqb s (made p) then circle p q else circle p s
    | RClear q :: p => if Nat.ltb q (made p) && Nat.eqb s q then S (List.length p) else circle p s
    | _ :: p => circle p s
    end.

  (** What a scope sees.  A new scope made from [q] sees what [q] sees. *)
  Definition inherits (o : rop) (n : nat) (s : nat) : option nat :=
    match o with
    | RNewScope q | RCopy q => if Nat.ltb q n && Nat.eqb s n then Some q else None
    | _ => None
    end.

  Fixpoint sees_fun (past : list rop) (s : nat) (n : string) : option F :=
    match past with
    | [] => None
    | o :: p =>
        match inherits o (made p) s with
        | Some q => sees_fun p q n
        | None =>
            match o with
            | RFun q k f =>
                if Nat.ltb q (made p) && Nat.eqb (family p q) (family p s) && String.eqb n k
                then Some f else sees_fun p s n
            | _ => sees_fun p s n
            end
        end
    end.

  Fixpoint sees_plug (past : list rop) (s : nat) (n : string) : option P :=
    match past with
    | [] => None
    | o :: p =>
        match inherits o (made p) s with
        | Some q => sees_plug p q n
        | None =>
            match o with
            | RPlug q k f =>
                if Nat.ltb q (made p) && Nat.eqb (family p q) (family p s) && String.eqb n k
                then Some f else sees_plug p s n
            | _ => sees_plug p s n
            end
        end
    end.

  (** The implementations of a protocol, most recent first. *)
  Fixpoint sees_impl (past : list rop) (s : nat) (k : nat) : list I :=
    match past with
    | [] => []
    | o :: p =>
        match inherits o (made p) s with
        | Some q => sees_impl p q k
        | None =>
            match o with
            | RImpl q k' i =>
                if Nat.ltb q (made p) && Nat.eqb (circle p q) (circle p s) && Nat.eqb k k'
                then i :: sees_impl p s k else sees_impl p s k
            | _ => sees_impl p s k
            end
        end
    end.

  (** A new scope and a cleared one start with no context values. *)
  Fixpoint sees_ctx (past : list rop) (s : nat) (n : string) : option V :=
    match past with
    | [] => None
    | RNewScope q :: p =>
        if Nat.ltb q (made p) && Nat.eqb s (made p) then None else sees_ctx p s n
    | RCopy q :: p =>
        if Nat.ltb q (made p) && Nat.eqb s (made p) then sees_ctx p q n else sees_ctx p s n
    | RClear q :: p =>
        if Nat.ltb q (made p) && Nat.eqb s q then None else sees_ctx p s n
    | RCtx q k v :: p =>
        if Nat.ltb q (made p) && Nat.eqb (circle p q) (circle p s) && String.eqb n k
        then Some v else sees_ctx p s n
    | _ :: p => sees_ctx p s n
    end.

  (** ** The model follows it *)

  Lemma rrun_snoc : forall (ops : list rop) o, rrun (ops ++ [o]) = rstep (rrun ops) o.
  Proof. intros. unfold rrun. now rewrite fold_left_app. Qed.

  Lemma family_le : forall (past : list rop) s, family past s <= s.
  Proof.
    induction past as [|o p IH]; intros s; [simpl; lia|].
    destruct o; simpl; try apply IH.
    destruct (Nat.ltb_spec s0 (made p)); simpl; [|apply IH].
    destruct (Nat.eqb_spec s (made p)); [|apply IH]. specialize (IH s0). lia.
  Qed.

  Lemma family_fresh : forall (past : list rop) s, made past <= s -> family past s = s.
  Proof.
    induction past as [|o p IH]; intros s L; [reflexivity|].
    destruct o; simpl in *; try (apply IH; lia).
    - destruct (Nat.ltb s0 (made p)); apply IH; lia.
    - destruct (Nat.ltb s0 (made p)); simpl; [|apply IH; lia].
      destruct (Nat.eqb_spec s (made p)); [lia|]. apply IH. lia.
  Qed.

  Lemma circle_le : forall (past : list rop) s, circle past s <= List.length past.
  Proof.
    induction past as [|o p IH]; intros s; [simpl; lia|].
    assert (A : forall t, circle p t <= S (List.length p)) by (intros t; specialize (IH t); lia).
    destruct o; simpl; auto.
    - destruct (Nat.eqb s (made p)); auto.
    - destruct (Nat.ltb s0 (made p) && Nat.eqb s (made p)); auto.
    - destruct (Nat.ltb s0 (made p) && Nat.eqb s (made p)); auto.
    - destruct (Nat.ltb s0 (made p) && Nat.eqb s s0); auto.
  Qed.

  Definition good r (past : list rop) : Prop :=
    r_scopes r = made past /\
    (forall s, s < made past -> r_sc r s < r_disps r /\ d_fun (disp_of r s) < r_maps r /\
               d_plug (disp_of r s) = d_fun (disp_of r s)) /\
    (forall s t, s < made past -> t < made past ->
       (r_sc r s = r_sc r t <-> circle past s = circle past t)) /\
    (forall s t, s < made past -> t < made past ->
       (d_fun (disp_of r s) = d_fun (disp_of r t) <-> family past s = family past t)) /\
    (forall s, s < made past ->
       (forall n, get_function r s n = sees_fun past s n) /\
       (forall n, get_plugin r s n = sees_plug past s n) /\
       (forall k, impls r s k = sees_impl past s k) /\
       (forall n, get_context r s n = sees_ctx past s n)).

  (** [lt_true] decides the guards of the specification. *)
  Ltac decide_lt :=
    repeat match goal with
    | H : ?a < ?b |- context [Nat.ltb ?a ?b] =>
        replace (Nat.ltb a b) with true by (symmetry; apply Nat.ltb_lt; exact H)
    end.

  (** No function was seen by a scope not made yet. *)
  Lemma sees_nothing : forall (past : list rop) s, made past <= s ->
    (forall n, sees_fun past s n = None) /\ (forall n, sees_plug past s n = None) /\
    (forall k, sees_impl past s k = []) /\ (forall n, sees_ctx past s n = None) /\ circle past s = 0.
  Proof.
    induction past as [|o p IH]; intros s L; [simpl; auto|].
    assert (Hm : made p <= made (o :: p)).
    { destruct o; simpl; try lia; destruct (Nat.ltb s0 (made p)); lia. }
    destruct (IH s ltac:(lia)) as (A & B & C & E & G).
    assert (Inh : inherits o (made p) s = None).
    { destruct o; simpl in *; auto;
        (destruct (Nat.ltb s0 (made p)); simpl; [|reflexivity];
         destruct (Nat.eqb_spec s (made p)); [lia|reflexivity]). }
    cbn [sees_fun sees_plug sees_impl]. rewrite Inh.
    assert (Fr : forall q, q < made p -> family p q <> family p s).
    { intros q Lq. rewrite (family_fresh p s) by lia. pose proof (family_le p q). lia. }
    assert (Ci : forall q, q < made p -> circle p q <> 0).
    { clear. induction p as [|o p IH]; intros q L; [simpl in L; lia|].
      destruct o; simpl in *; try (apply IH; lia).
      - destruct (Nat.eqb_spec q (made p)); [lia|apply IH; lia].
      - destruct (Nat.ltb_spec s (made p)); simpl; [|apply IH; lia].
        destruct (Nat.eqb_spec q (made p)); [lia|apply IH; lia].
      - destruct (Nat.ltb_spec s (made p)); simpl; [|apply IH; lia].
        destruct (Nat.eqb_spec q (made p)); apply IH; lia.
      - destruct (Nat.ltb s (made p) && Nat.eqb q s); [lia|apply IH; lia]. }
    repeat split.
    - intros n. destruct o; simpl; auto. destruct (Nat.ltb_spec s0 (made p)); simpl; auto.
      destruct (Nat.eqb_spec (family p s0) (family p s)); simpl; auto. now apply Fr in e.
    - intros n. destruct o; simpl; auto. destruct (Nat.ltb_spec s0 (made p)); simpl; auto.
      destruct (Nat.eqb_spec (family p s0) (family p s)); simpl; auto. now apply Fr in e.
    - intros n. destruct o; simpl; auto. destruct (Nat.ltb_spec s0 (made p)); simpl; auto.
      destruct (Nat.eqb_spec (circle p s0) (circle p s)); simpl; auto. rewrite G in e. now apply Ci in e.
    - intros n. destruct o; simpl in *; auto.
      + destruct (Nat.ltb_spec s0 (made p)); simpl; auto. destruct (Nat.eqb_spec s (made p)); auto.
      + destruct (Nat.ltb_spec s0 (made p)); simpl; auto. destruct (Nat.eqb_spec s (made p)); [lia|auto].
      + destruct (Nat.ltb_spec s0 (made p)); simpl; auto. destruct (Nat.eqb_spec s s0); auto.
      + destruct (Nat.ltb_spec s0 (made p)); simpl; auto.
        destruct (Nat.eqb_spec (circle p s0) (circle p s)); simpl; auto. rewrite G in e. now apply Ci in e.
    - destruct o; simpl in *; auto.
      + destruct (Nat.eqb_spec s (made p)); [lia|auto].
      + destruct (Nat.ltb_spec s0 (made p)); simpl; auto. destruct (Nat.eqb_spec s (made p)); [lia|auto].
      + destruct (Nat.ltb_spec s0 (made p)); simpl; auto. destruct (Nat.eqb_spec s (made p)); [lia|auto].
      + destruct (Nat.ltb_spec s0 (made p)); simpl; auto. destruct (Nat.eqb_spec s s0); [lia|auto].
  Qed.

  Lemma good_step : forall r past o, good r past -> good (rstep r o) (o :: past).
  Proof.
    intros r past o (N & B & C & M & G).
    assert (Skip : forall s, target o = Some s -> Nat.ltb s (made past) = false -> good (rstep r o) (o :: past)).
    { intros s T L. unfold rstep. rewrite T, N, L.
      destruct o; simpl in T; [discriminate| | | | | | |]; injection T as ->;
        unfold good; simpl; rewrite ?L; simpl; repeat split; auto; try apply B; try apply C; try apply M; auto;
        try (intros; apply G; auto). }
    destruct o as [|q|q|q|q n f|q n f|q k i|q n v].
    - (* root *)
      clear Skip. unfold rstep. simpl.
      assert (Dn : forall s, s < made past -> disp_of (root r) s = disp_of r s).
      { intros s L. unfold disp_of. simpl. rewrite (upd_other _ (r_sc r)) by lia.
        destruct (B s L) as (X & _). now rewrite upd_other by lia. }
      assert (Dm : disp_of (root r) (made past) =
                   {| d_fun := r_maps r; d_plug := r_maps r; d_impl := fun _ => []; d_ctx := sempty |}).
      { unfold disp_of. simpl. now rewrite <- N, !upd_same. }
      assert (Sn : forall s, s < made past -> r_sc (root r) s = r_sc r s)
        by (intros; simpl; rewrite upd_other by lia; reflexivity).
      assert (Sm : r_sc (root r) (made past) = r_disps r) by (simpl; now rewrite <- N, upd_same).
      split; [simpl; congruence|]. cbn [made circle family sees_fun sees_plug sees_impl sees_ctx inherits].
      pose proof (sees_nothing past (made past) (le_n _)) as (Z1 & Z2 & Z3 & Z4 & Z5).
      split; [|split; [|split]].
      + intros s L. destruct (Nat.eq_dec s (made past)) as [->|Ns].
        * rewrite Sm, Dm. simpl. lia.
        * destruct (B s ltac:(lia)) as (X & Y & W). rewrite Sn, Dn by lia. simpl. lia.
      + intros s t Ls Lt.
        destruct (Nat.eqb_spec s (made past)) as [->|Ns]; destruct (Nat.eqb_spec t (made past)) as [->|Nt].
        * tauto.
        * rewrite Sm, Sn by lia. destruct (B t ltac:(lia)). pose proof (circle_le past t). split; lia.
        * rewrite Sm, Sn by lia. destruct (B s ltac:(lia)). pose proof (circle_le past s). split; lia.
        * rewrite !Sn by lia. apply C; lia.
      + intros s t Ls Lt.
        destruct (Nat.eq_dec s (made past)) as [->|Ns]; destruct (Nat.eq_dec t (made past)) as [->|Nt].
        * tauto.
        * rewrite Dm, Dn by lia. simpl. destruct (B t ltac:(lia)) as (_ & ? & _).
          rewrite (family_fresh past (made past)) by lia. pose proof (family_le past t). split; lia.
        * rewrite Dm, Dn by lia. simpl. destruct (B s ltac:(lia)) as (_ & ? & _).
          rewrite (family_fresh past (made past)) by lia. pose proof (family_le past s). split; lia.
        * rewrite !Dn by lia. apply M; lia.
      + intros s L. unfold get_function, get_plugin, impls, get_context.
        destruct (Nat.eq_dec s (made past)) as [->|Ns].
        * rewrite Dm. simpl. rewrite !upd_same. repeat split; intros; unfold sempty; auto.
        * rewrite Dn by lia. destruct (B s ltac:(lia)) as (X & Y & W).
          simpl. rewrite !upd_other by lia. apply G. lia.
    - destruct (Nat.ltb q (made past)) eqn:Lq; [|now apply (Skip q)]. clear Skip.
      unfold rstep. simpl. rewrite N, Lq. pose proof Lq as Lq'. apply Nat.ltb_lt in Lq'.
      set (h := new_from r q).
      assert (Dn : forall s, s < made past -> disp_of h s = disp_of r s).
      { intros s L. unfold disp_of, h. simpl. rewrite (upd_other _ (r_sc r)) by lia.
        destruct (B s L) as (X & _). now rewrite upd_other by lia. }
      assert (Dm : disp_of h (made past) =
                   {| d_fun := r_maps r; d_plug := r_maps r; d_impl := d_impl (disp_of r q); d_ctx := sempty |}).
      { unfold disp_of, h. simpl. now rewrite <- N, !upd_same. }
      assert (Sn : forall s, s < made past -> r_sc h s = r_sc r s)
        by (intros; simpl; rewrite upd_other by lia; reflexivity).
      assert (Sm : r_sc h (made past) = r_disps r) by (simpl; now rewrite <- N, upd_same).
      split; [simpl; rewrite Lq; congruence|].
      cbn [made circle family sees_fun sees_plug sees_impl sees_ctx inherits]. rewrite Lq. simpl andb.
      split; [|split; [|split]].
      + intros s L. destruct (Nat.eq_dec s (made past)) as [->|Ns].
        * rewrite Sm, Dm. simpl. lia.
        * destruct (B s ltac:(lia)) as (X & Y & W). rewrite Sn, Dn by lia. simpl. lia.
      + intros s t Ls Lt.
        destruct (Nat.eqb_spec s (made past)) as [->|Ns]; destruct (Nat.eqb_spec t (made past)) as [->|Nt].
        * tauto.
        * rewrite Sm, Sn by lia. destruct (B t ltac:(lia)). pose proof (circle_le past t). split; lia.
        * rewrite Sm, Sn by lia. destruct (B s ltac:(lia)). pose proof (circle_le past s). split; lia.
        * rewrite !Sn by lia. apply C; lia.
      + intros s t Ls Lt.
        destruct (Nat.eq_dec s (made past)) as [->|Ns]; destruct (Nat.eq_dec t (made past)) as [->|Nt].
        * tauto.
        * rewrite Dm, Dn by lia. simpl. destruct (B t ltac:(lia)) as (_ & ? & _).
          rewrite (family_fresh past (made past)) by lia. pose proof (family_le past t). split; lia.
        * rewrite Dm, Dn by lia. simpl. destruct (B s ltac:(lia)) as (_ & ? & _).
          rewrite (family_fresh past (made past)) by lia. pose proof (family_le past s). split; lia.
        * rewrite !Dn by lia. apply M; lia.
      + intros s L. unfold get_function, get_plugin, impls, get_context.
        destruct (Nat.eqb_spec s (made past)) as [->|Ns].
        * rewrite Dm. simpl. rewrite !upd_same. destruct (G q Lq') as (G1 & G2 & G3 & G4).
          repeat split; intros; [apply G1|apply G2|apply G3].
        * rewrite Dn by lia. destruct (B s ltac:(lia)) as (X & Y & W).
          simpl. rewrite !upd_other by lia. apply G. lia.
    - destruct (Nat.ltb q (made past)) eqn:Lq; [|now apply (Skip q)]. clear Skip.
      unfold rstep. simpl. rewrite N, Lq. pose proof Lq as Lq'. apply Nat.ltb_lt in Lq'.
      set (h := copy r q).
      set (o := fun s => if Nat.eqb s (made past) then q else s).
      assert (Ol : forall s, s < S (made past) -> o s < made past).
      { intros s L. unfold o. destruct (Nat.eqb_spec s (made past)); lia. }
      assert (Sn : forall s, r_sc h s = r_sc r (o s)).
      { intros s. unfold h, o. simpl. rewrite N. unfold upd. destruct (Nat.eqb s (made past)); reflexivity. }
      assert (Dn : forall s, disp_of h s = disp_of r (o s)).
      { intros s. unfold disp_of. rewrite Sn. reflexivity. }
      assert (Cn : forall s, circle (RCopy q :: past) s = circle past (o s)).
      { intros s. unfold o. cbn [circle]. rewrite Lq. simpl. destruct (Nat.eqb s (made past)); reflexivity. }
      assert (Fn : forall s, family (RCopy q :: past) s = family past (o s)).
      { intros s. unfold o. cbn [family]. rewrite Lq. simpl. destruct (Nat.eqb s (made past)); reflexivity. }
      split; [simpl; rewrite Lq; congruence|].
      cbn [made]. rewrite Lq.
      split; [|split; [|split]].
      + intros s L. rewrite Sn, Dn. simpl. apply B. auto.
      + intros s t Ls Lt. rewrite !Sn, !Cn. apply C; auto.
      + intros s t Ls Lt. rewrite !Dn, !Fn. apply M; auto.
      + intros s L. unfold get_function, get_plugin, impls, get_context. rewrite Dn. simpl r_fmap. simpl r_pmap.
        cbn [sees_fun sees_plug sees_impl sees_ctx inherits]. rewrite Lq. simpl andb.
        pose proof (G (o s) (Ol s L)) as G'. unfold o in *. destruct (Nat.eqb s (made past)); apply G'.
    - destruct (Nat.ltb q (made past)) eqn:Lq; [|now apply (Skip q)]. clear Skip.
      unfold rstep. simpl. rewrite N, Lq. pose proof Lq as Lq'. apply Nat.ltb_lt in Lq'.
      set (h := clear_context r q).
      assert (Dn : forall s, s < made past -> s <> q -> disp_of h s = disp_of r s).
      { intros s L Ns. unfold disp_of, h. simpl. rewrite (upd_other _ (r_sc r)) by lia.
        destruct (B s L) as (X & _). now rewrite upd_other by lia. }
      assert (Dm : disp_of h q = {| d_fun := d_fun (disp_of r q); d_plug := d_plug (disp_of r q);
                                    d_impl := d_impl (disp_of r q); d_ctx := sempty |}).
      { unfold disp_of, h. simpl. now rewrite !upd_same. }
      assert (Fn : forall s, s < made past -> d_fun (disp_of h s) = d_fun (disp_of r s) /\
                             d_plug (disp_of h s) = d_plug (disp_of r s) /\
                             d_impl (disp_of h s) = d_impl (disp_of r s)).
      { intros s L. destruct (Nat.eq_dec s q) as [->|Ns]; [rewrite Dm; auto|rewrite Dn; auto]. }
      assert (Sn : forall s, s <> q -> r_sc h s = r_sc r s)
        by (intros; simpl; rewrite upd_other by lia; reflexivity).
      assert (Sm : r_sc h q = r_disps r) by (simpl; now rewrite upd_same).
      split; [simpl; congruence|].
      cbn [made circle family sees_fun sees_plug sees_impl sees_ctx inherits]. rewrite Lq. simpl andb.
      split; [|split; [|split]].
      + intros s L. destruct (Fn s L) as (F1 & F2 & _). destruct (B s L) as (X & Y & W).
        rewrite F1, F2. simpl r_disps. simpl r_maps.
        destruct (Nat.eq_dec s q) as [->|Ns]; [rewrite Sm|rewrite Sn by exact Ns]; repeat split; auto.
      + intros s t Ls Lt.
        destruct (Nat.eqb_spec s q) as [->|Ns]; destruct (Nat.eqb_spec t q) as [->|Nt].
        * tauto.
        * rewrite Sm, Sn by lia. destruct (B t ltac:(lia)). pose proof (circle_le past t). split; lia.
        * rewrite Sm, Sn by lia. destruct (B s ltac:(lia)). pose proof (circle_le past s). split; lia.
        * rewrite !Sn by lia. apply C; lia.
      + intros s t Ls Lt. destruct (Fn s Ls) as (F1 & _). destruct (Fn t Lt) as (F2 & _).
        rewrite F1, F2. now apply M.
      + intros s L. unfold get_function, get_plugin, impls, get_context.
        destruct (Fn s L) as (F1 & F2 & F3). rewrite F1, F2, F3. simpl r_fmap. simpl r_pmap.
        destruct (G s L) as (G1 & G2 & G3 & G4). repeat split; auto.
        intros n. destruct (Nat.eqb_spec s q) as [->|Ns]; [now rewrite Dm|rewrite Dn by auto; apply G4].
    - destruct (Nat.ltb q (made past)) eqn:Lq; [|now apply (Skip q)]. clear Skip.
      unfold rstep. simpl target. cbv iota. rewrite N, Lq. pose proof Lq as Lq'. apply Nat.ltb_lt in Lq'.
      split; [simpl; congruence|]. split; [exact B|]. split; [exact C|]. split; [exact M|].
      intros s L. destruct (G s L) as (G1 & G2 & G3 & G4). repeat split; auto.
      intros n'. cbn [sees_fun inherits]. rewrite Lq. unfold get_function in *. simpl.
      fold (disp_of r s). unfold upd.
      destruct (Nat.eqb_spec (family past q) (family past s)) as [E|E].
      + apply M in E; [|exact Lq'|exact L]. rewrite E, Nat.eqb_refl. unfold sput. simpl.
        destruct (String.eqb n' n); [reflexivity|apply G1].
      + simpl. destruct (Nat.eqb_spec (d_fun (disp_of r s)) (d_fun (disp_of r q))) as [E'|E'];
          [|apply G1]. exfalso. apply E. symmetry. now apply M.
    - destruct (Nat.ltb q (made past)) eqn:Lq; [|now apply (Skip q)]. clear Skip.
      unfold rstep. simpl target. cbv iota. rewrite N, Lq. pose proof Lq as Lq'. apply Nat.ltb_lt in Lq'.
      split; [simpl; congruence|]. split; [exact B|]. split; [exact C|]. split; [exact M|].
      intros s L. destruct (G s L) as (G1 & G2 & G3 & G4). repeat split; auto.
      intros n'. cbn [sees_plug inherits]. rewrite Lq. unfold get_plugin in *. simpl.
      fold (disp_of r s). unfold upd.
      destruct (B s L) as (_ & _ & Bs). destruct (B q Lq') as (_ & _ & Bq). rewrite Bs, Bq in *.
      destruct (Nat.eqb_spec (family past q) (family past s)) as [E|E].
      + apply M in E; [|exact Lq'|exact L]. rewrite E, Nat.eqb_refl. unfold sput. simpl.
        destruct (String.eqb n' n); [reflexivity|apply G2].
      + simpl. destruct (Nat.eqb_spec (d_fun (disp_of r s)) (d_fun (disp_of r q))) as [E'|E'];
          [|apply G2]. exfalso. apply E. symmetry. now apply M.
    - destruct (Nat.ltb q (made past)) eqn:Lq; [|now apply (Skip q)]. clear Skip.
      unfold rstep. simpl target. cbv iota. rewrite N, Lq. pose proof Lq as Lq'. apply Nat.ltb_lt in Lq'.
      set (h := add_impl r q k i).
      assert (Dn : forall s, s < made past -> disp_of h s =
        if Nat.eqb (circle past q) (circle past s) then
          {| d_fun := d_fun (disp_of r s); d_plug := d_plug (disp_of r s);
             d_impl := upd (d_impl (disp_of r s)) k (i :: d_impl (disp_of r s) k); d_ctx := d_ctx (disp_of r s) |}
        else disp_of r s).
      { intros s L. unfold disp_of at 1. unfold h. simpl. unfold upd at 1.
        destruct (Nat.eqb_spec (circle past q) (circle past s)) as [E|E].
        - apply C in E; [|exact Lq'|exact L]. rewrite E, Nat.eqb_refl. unfold disp_of. rewrite <- E. reflexivity.
        - destruct (Nat.eqb_spec (r_sc r s) (r_sc r q)) as [E'|E']; [|reflexivity].
          exfalso. apply E. symmetry. now apply C. }
      assert (Fn : forall s, s < made past -> d_fun (disp_of h s) = d_fun (disp_of r s) /\
                   d_plug (disp_of h s) = d_plug (disp_of r s) /\ d_ctx (disp_of h s) = d_ctx (disp_of r s)).
      { intros s L. rewrite (Dn s L). destruct (Nat.eqb _ _); auto. }
      split; [simpl; congruence|]. split; [|split; [exact C|split]].
      + intros s L. destruct (Fn s L) as (F1 & F2 & _). rewrite F1, F2. apply B. exact L.
      + intros s t Ls Lt. destruct (Fn s Ls) as (F1 & _). destruct (Fn t Lt) as (F2 & _).
        rewrite F1, F2. now apply M.
      + intros s L. destruct (Fn s L) as (F1 & F2 & F3). destruct (G s L) as (G1 & G2 & G3 & G4).
        unfold get_function, get_plugin, impls, get_context in *. rewrite F1, F2, F3.
        repeat split; auto. intros k'. cbn [sees_impl inherits]. rewrite Lq, (Dn s L).
        destruct (Nat.eqb (circle past q) (circle past s)); simpl; [|apply G3].
        unfold upd. destruct (Nat.eqb_spec k' k); [subst; now rewrite G3|apply G3].
    - destruct (Nat.ltb q (made past)) eqn:Lq; [|now apply (Skip q)]. clear Skip.
      unfold rstep. simpl target. cbv iota. rewrite N, Lq. pose proof Lq as Lq'. apply Nat.ltb_lt in Lq'.
      set (h := set_context r q n v).
      assert (Dn : forall s, s < made past -> disp_of h s =
        if Nat.eqb (circle past q) (circle past s) then
          {| d_fun := d_fun (disp_of r s); d_plug := d_plug (disp_of r s);
             d_impl := d_impl (disp_of r s); d_ctx := sput (d_ctx (disp_of r s)) n v |}
        else disp_of r s).
      { intros s L. unfold disp_of at 1. unfold h. simpl. unfold upd at 1.
        destruct (Nat.eqb_spec (circle past q) (circle past s)) as [E|E].
        - apply C in E; [|exact Lq'|exact L]. rewrite E, Nat.eqb_refl. unfold disp_of. rewrite <- E. reflexivity.
        - destruct (Nat.eqb_spec (r_sc r s) (r_sc r q)) as [E'|E']; [|reflexivity].
          exfalso. apply E. symmetry. now apply C. }
      assert (Fn : forall s, s < made past -> d_fun (disp_of h s) = d_fun (disp_of r s) /\
                   d_plug (disp_of h s) = d_plug (disp_of r s) /\ d_impl (disp_of h s) = d_impl (disp_of r s)).
      { intros s L. rewrite (Dn s L). destruct (Nat.eqb _ _); auto. }
      split; [simpl; congruence|]. split; [|split; [exact C|split]].
      + intros s L. destruct (Fn s L) as (F1 & F2 & _). rewrite F1, F2. apply B. exact L.
      + intros s t Ls Lt. destruct (Fn s Ls) as (F1 & _). destruct (Fn t Lt) as (F2 & _).
        rewrite F1, F2. now apply M.
      + intros s L. destruct (Fn s L) as (F1 & F2 & F3). destruct (G s L) as (G1 & G2 & G3 & G4).
        unfold get_function, get_plugin, impls, get_context in *. rewrite F1, F2, F3.
        repeat split; auto. intros n'. cbn [sees_ctx]. rewrite Lq, (Dn s L).
        destruct (Nat.eqb (circle past q) (circle past s)); simpl; [|apply G4].
        unfold sput. destruct (String.eqb n' n); [reflexivity|apply G4].
  Qed.

  Lemma good_run : forall ops : list rop, good (rrun ops) (rev ops).
  Proof.
    induction ops as [|o ops IH] using rev_ind.
    - unfold good; simpl; repeat split; intros; try lia; auto.
    - rewrite rrun_snoc, rev_app_distr. simpl. now apply good_step.
  Qed.

  (** What every scope sees is what the specification says. *)
  Theorem C31_registries_follow_history : forall (ops : list rop) s,
    s < made (rev ops) ->
    (forall n, get_function (rrun ops) s n = sees_fun (rev ops) s n) /\
    (forall n, get_plugin (rrun ops) s n = sees_plug (rev ops) s n) /\
    (forall k, impls (rrun ops) s k = sees_impl (rev ops) s k) /\
    (forall n, get_context (rrun ops) s n = sees_ctx (rev ops) s n).
  Proof. intros ops s L. destruct (good_run ops) as (_ & _ & _ & _ & G). auto. Qed.

  Lemma made_mono : forall (later past : list rop), made past <= made (later ++ past).
  Proof.
    induction later as [|o l IH]; intros past; [simpl; lia|]. specialize (IH past).
    destruct o; simpl; try lia; destruct (Nat.ltb s (made (l ++ past))); lia.
  Qed.

  (** Families never change, so scopes of different families stay apart for
      ever. *)
  Theorem C31_families_are_permanent : forall (ops later : list rop) s,
    s < made (rev ops) -> family (rev (ops ++ later)) s = family (rev ops) s.
  Proof.
    intros ops later s L. rewrite rev_app_distr. induction (rev later) as [|o l IH]; [reflexivity|].
    pose proof (made_mono l (rev ops)) as Mm.
    destruct o; simpl; auto. destruct (Nat.eqb_spec s (made (l ++ rev ops))); [lia|].
    now rewrite andb_false_r.
  Qed.

  (** NewScope starts a family and a circle with no other member. *)
  Theorem C31_new_scope_is_alone : forall (ops : list rop) q s,
    q < made (rev ops) -> s < made (rev ops) ->
    let past := rev (ops ++ [RNewScope q]) in
    let fresh := made (rev ops) in
    family past fresh <> family past s /\ circle past fresh <> circle past s.
  Proof.
    intros ops q s Lq Ls. rewrite rev_app_distr. simpl.
    destruct (Nat.ltb_spec q (made (rev ops))); [|lia]. simpl.
    destruct (Nat.eqb_spec s (made (rev ops))); [lia|]. rewrite Nat.eqb_refl. split.
    - rewrite (family_fresh _ (made (rev ops))) by lia. pose proof (family_le (rev ops) s). lia.
    - pose proof (circle_le (rev ops) s). lia.
  Qed.

  (** Whatever happens to scopes outside the family of [s], what [s] sees of
      functions and plugins does not change; outside its circle, nor do its
      protocol implementations and context. *)
  Fixpoint apart (past later : list rop) (s : nat) : Prop :=
    match later with
    | [] => True
    | o :: rest =>
        match o with
        | RFun q _ _ | RPlug q _ _ => family past q <> family past s
        | RImpl q _ _ | RCtx q _ _ => circle past q <> circle past s
        | RClear q => q <> s
        | _ => True
        end /\ apart (o :: past) rest s
    end.

  Theorem C31_isolated : forall (later ops : list rop) s,
    s < made (rev ops) -> apart (rev ops) later s ->
    (forall n, get_function (rrun (ops ++ later)) s n = get_function (rrun ops) s n) /\
    (forall n, get_plugin (rrun (ops ++ later)) s n = get_plugin (rrun ops) s n) /\
    (forall k, impls (rrun (ops ++ later)) s k = impls (rrun ops) s k) /\
    (forall n, get_context (rrun (ops ++ later)) s n = get_context (rrun ops) s n).
  Proof.
    induction later as [|o later IH]; intros ops s L A.
    - rewrite app_nil_r. auto.
    - destruct A as (A1 & A2).
      replace (ops ++ o :: later) with ((ops ++ [o]) ++ later) by (rewrite <- app_assoc; reflexivity).
      assert (L' : s < made (rev (ops ++ [o]))).
      { rewrite rev_app_distr. pose proof (made_mono [o] (rev ops)). simpl app in *. lia. }
      assert (A2' : apart (rev (ops ++ [o])) later s) by (rewrite rev_app_distr; exact A2).
      destruct (IH (ops ++ [o]) s L' A2') as (I1 & I2 & I3 & I4).
      destruct (C31_registries_follow_history (ops ++ [o]) s L') as (H1 & H2 & H3 & H4).
      destruct (C31_registries_follow_history ops s L) as (K1 & K2 & K3 & K4).
      assert (Inh : inherits o (made (rev ops)) s = None).
      { destruct o; simpl; auto; destruct (Nat.eqb_spec s (made (rev ops))); try lia; now rewrite andb_false_r. }
      rewrite rev_app_distr in *. cbn [rev app sees_fun sees_plug sees_impl sees_ctx] in H1, H2, H3, H4.
      rewrite Inh in *.
      repeat split; intros x; [rewrite I1, H1, K1|rewrite I2, H2, K2|rewrite I3, H3, K3|rewrite I4, H4, K4].
      + destruct o; auto. apply Nat.eqb_neq in A1. rewrite A1, andb_false_r. reflexivity.
      + destruct o; auto. apply Nat.eqb_neq in A1. rewrite A1, andb_false_r. reflexivity.
      + destruct o; auto. apply Nat.eqb_neq in A1. rewrite A1, andb_false_r. reflexivity.
      + destruct o; auto.
        * destruct (Nat.eqb_spec s (made (rev ops))); [lia|]. now rewrite andb_false_r.
        * destruct (Nat.eqb_spec s (made (rev ops))); [lia|]. now rewrite andb_false_r.
        * destruct (Nat.eqb_spec s s0); [congruence|]. now rewrite andb_false_r.
        * apply Nat.eqb_neq in A1. rewrite A1, andb_false_r. reflexivity.
  Qed.

  (** ClearContext leaves its scope alone in its circle with no context
      values; functions and plugins stay shared. *)
  Theorem C31_clear_context : forall (ops : list rop) q s,
    q < made (rev ops) -> s < made (rev ops) -> s <> q ->
    let past := rev (ops ++ [RClear q]) in
    circle past q <> circle past s /\
    (forall n, get_context (rrun (ops ++ [RClear q])) q n = None) /\
    (forall n, get_function (rrun (ops ++ [RClear q])) q n = get_function (rrun ops) q n) /\
    (forall k, impls (rrun (ops ++ [RClear q])) q k = impls (rrun ops) q k).
  Proof.
    intros ops q s Lq Ls Ns past.
    assert (L' : q < made (rev (ops ++ [RClear q]))) by (rewrite rev_app_distr; exact Lq).
    destruct (C31_registries_follow_history (ops ++ [RClear q]) q L') as (H1 & H2 & H3 & H4).
    destruct (C31_registries_follow_history ops q Lq) as (K1 & K2 & K3 & K4).
    unfold past. rewrite rev_app_distr in *. cbn [rev app sees_fun sees_impl sees_ctx circle inherits] in *.
    pose proof Lq as Lq'. apply Nat.ltb_lt in Lq'. rewrite Lq' in *. simpl andb in *.
    rewrite Nat.eqb_refl in *. apply Nat.eqb_neq in Ns. rewrite Ns.
    repeat split; auto.
    - pose proof (circle_le (rev ops) s). lia.
    - intros n. now rewrite H1, K1.
    - intros k. now rewrite H3, K3.
  Qed.
End Props.

(** A root, a scope made from it by NewScope and a copy of that; each gets
    the same function name. *)
Definition ex_reg : list (rop nat nat nat nat) :=
  [RRoot; RFun 0 "f" 1; RNewScope 0; RCopy 1; RFun 1 "f" 2; RFun 0 "g" 3; RImpl 0 5 7; RImpl 2 5 8;
   RCtx 1 "k" 4; RClear 2; RCtx 2 "k" 9].
Example C31_example :
  let r := rrun ex_reg in
  map (fun s => (get_function r s "f", get_function r s "g", impls r s 5, get_context r s "k")) [0; 1; 2] =
  [(Some 1, Some 3, [7], None); (Some 2, None, [8], Some 4); (Some 2, None, [8], Some 9)].
Proof. vm_compute. reflexivity. Qed.
Example C31_example_apart :
  apart (rev [RRoot; RFun 0 "f" 1; RNewScope 0]) [RCopy 1; RFun 1 "f" 2; RCtx 1 "k" 4; @RClear nat nat nat nat 2] 0.
Proof. vm_compute. repeat split; lia. Qed.

Print Assumptions C31_registries_follow_history.
Print Assumptions C31_families_are_permanent.
Print Assumptions C31_new_scope_is_alone.
Print Assumptions C31_isolated.
Print Assumptions C31_clear_context.
