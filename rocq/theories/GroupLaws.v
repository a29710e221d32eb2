(** GROUP BY and the order of the rows. *)

From Coq Require Import ZArith List String Bool Lia PeanoNat Permutation.
From Verif Require Import Base F64 Value Protocols Monad Chains Flatten Syntax Eval BaseProofs
  PureSpec PureEval PureSelect GroupSpec GroupEval GroupProps.
Import ListNotations.
Open Scope nat_scope.
Open Scope list_scope.

Section Laws.
  Variable E : env.
  Variable funs : string -> option (dict -> option val).
  Variables (fr : list dict) (cols : list (string * colbody)) (where_ : option expr) (g : expr).

  (** ** What is said *)

  (** The key of a row. *)
  Definition key_of (row : dict) : option string :=
    option_map (printed E) (den E funs (shown E funs fr false cols row :: row :: fr) g).

  (** A column of a group that the order of the rows cannot change: a count,
      a sum, minimum or maximum of 64 bit integers, or an expression that is
      the same for all rows with one key, such as the key itself. *)
  Inductive orderless (rows : list dict) : colbody -> Prop :=
  | OL_count : forall c node e, agg_call c = Some (node, Count, e) ->
      Forall (fun r => exists x, item E funs fr e r = Some x) rows -> orderless rows (CExpr c)
  | OL_number : forall c node a e, agg_call c = Some (node, a, e) -> In a [Sum; Min; Max] ->
      Forall (fun r => exists z, is_int64 z /\ item E funs fr e r = Some (vint z)) rows ->
      orderless rows (CExpr c)
  | OL_key : forall c, aggs c = [] ->
      Forall (fun r => exists v, den E funs (r :: fr) c = Some v) rows ->
      (forall r r', In r rows -> In r' rows -> key_of r = key_of r' ->
         den E funs (r :: fr) c = den E funs (r' :: fr) c) ->
      orderless rows (CExpr c).

  (** ** Proofs *)

  Notation keyed := (keyed E funs fr false cols where_ g).
  Notation result_row := (result_row E funs fr false cols).

  Lemma keyed_cons : forall row rest l, keyed (row :: rest) = Some l ->
    exists h t, keyed rest = Some t /\ l = h ++ t /\
      ((h = [] /\ holds E funs fr (shown E funs fr false cols row) row where_ = Some false) \/
       (exists k, h = [(k, row)] /\ key_of row = Some k /\
          holds E funs fr (shown E funs fr false cols row) row where_ = Some true)).
  Proof.
    intros row rest l H. cbn [GroupSpec.keyed] in H. apply obind_some in H as (keep & HK & H).
    destruct keep.
    - apply obind_some in H as (v & Hv & H). apply omap_some in H as (t & Ht & <-).
      exists [(printed E v, row)], t. split; [exact Ht|]. split; [reflexivity|]. right.
      exists (printed E v). unfold key_of. rewrite Hv. auto.
    - exists [], l. split; [exact H|]. split; [reflexivity|]. left. auto.
  Qed.

  Lemma keyed_put : forall row rest h t, keyed rest = Some t ->
      ((h = [] /\ holds E funs fr (shown E funs fr false cols row) row where_ = Some false) \/
       (exists k, h = [(k, row)] /\ key_of row = Some k /\
          holds E funs fr (shown E funs fr false cols row) row where_ = Some true)) ->
    keyed (row :: rest) = Some (h ++ t).
  Proof.
    intros row rest h t HT H. cbn [GroupSpec.keyed]. destruct H as [[-> HH]|(k & -> & HK & HH)]; rewrite HH; cbn [obind].
    - exact HT.
    - unfold key_of in HK. apply omap_some in HK as (v & Hv & <-). rewrite Hv. cbn [obind]. now rewrite HT.
  Qed.

  Lemma keyed_perm : forall rows rows', Permutation rows rows' -> forall l, keyed rows = Some l ->
    exists l', keyed rows' = Some l' /\ Permutation l l'.
  Proof.
    intros rows rows' H. induction H as [|row a b HP IH|x y a|a b c _ IH1 _ IH2]; intros l HL.
    - injection HL as <-. exists []. auto.
    - apply keyed_cons in HL as (h & t & HT & -> & HH). destruct (IH _ HT) as (t' & HT' & HP').
      exists (h ++ t'). split; [now apply keyed_put|]. now apply Permutation_app_head.
    - apply keyed_cons in HL as (h & t & HT & -> & HH). apply keyed_cons in HT as (h' & t' & HT' & -> & HH').
      exists (h' ++ h ++ t'). split; [apply keyed_put; [now apply keyed_put|exact HH']|].
      rewrite !app_assoc. apply Permutation_app_tail, Permutation_app_comm.
    - destruct (IH1 _ HL) as (l1 & H1 & P1). destruct (IH2 _ H1) as (l2 & H2 & P2).
      exists l2. split; [exact H2|]. eapply Permutation_trans; eauto.
  Qed.

  Lemma keyed_from : forall rows l k row, keyed rows = Some l -> In (k, row) l ->
    In row rows /\ key_of row = Some k.
  Proof.
    intros rows. induction rows as [|r rows IH]; intros l k row H HI.
    - injection H as <-. contradiction.
    - apply keyed_cons in H as (h & t & HT & -> & HH). apply in_app_iff in HI as [HI|HI].
      + destruct HH as [[-> _]|(k' & -> & HK & _)]; [contradiction|]. destruct HI as [HI|[]].
        injection HI as -> ->. split; [now left|exact HK].
      + destruct (IH _ _ _ HT HI). split; [now right|assumption].
  Qed.

  Lemma group_perm : forall k l l', Permutation l l' -> Permutation (group k l) (group k l').
  Proof.
    intros k l l' H. unfold group. apply Permutation_map.
    induction H as [|x a b _ IH|x y a|a b c _ IH1 _ IH2]; cbn [filter].
    - constructor.
    - destruct (String.eqb k (fst x)); [now constructor|exact IH].
    - destruct (String.eqb k (fst x)), (String.eqb k (fst y)); apply Permutation_refl || apply perm_swap.
    - eapply Permutation_trans; eauto.
  Qed.

  Lemma in_group : forall k (l : list (string * dict)) row, In row (group k l) <-> In (k, row) l.
  Proof.
    intros k l row. unfold group. rewrite in_map_iff. split.
    - intros ([k' r] & <- & HI). apply filter_In in HI as [HI EK]. cbn in EK. apply String.eqb_eq in EK as ->. exact HI.
    - intros HI. exists (k, row). split; [reflexivity|]. apply filter_In. split; [exact HI|]. cbn. apply String.eqb_refl.
  Qed.

  (** Extremes and sums do not depend on the order. *)
  Lemma min_list : forall zs z, In (fold_left Z.min zs z) (z :: zs) /\
    forall x, In x (z :: zs) -> (fold_left Z.min zs z <= x)%Z.
  Proof.
    induction zs as [|y zs IH]; intros z; cbn [fold_left].
    - split; [now left|]. intros x [->|[]]. lia.
    - destruct (IH (Z.min z y)) as [I1 I2]. split.
      + destruct I1 as [I1|I1]; [|now right; right]. rewrite <- I1. destruct (Z.min_spec z y) as [[_ ->]|[_ ->]]; cbn; auto.
      + pose proof (I2 _ (or_introl eq_refl)) as L.
        intros x [->|[->|HI]]; [lia|lia|]. apply I2. now right.
  Qed.
  Lemma max_list : forall zs z, In (fold_left Z.max zs z) (z :: zs) /\
    forall x, In x (z :: zs) -> (x <= fold_left Z.max zs z)%Z.
  Proof.
    induction zs as [|y zs IH]; intros z; cbn [fold_left].
    - split; [now left|]. intros x [->|[]]. lia.
    - destruct (IH (Z.max z y)) as [I1 I2]. split.
      + destruct I1 as [I1|I1]; [|now right; right]. rewrite <- I1. destruct (Z.max_spec z y) as [[_ ->]|[_ ->]]; cbn; auto.
      + pose proof (I2 _ (or_introl eq_refl)) as L.
        intros x [->|[->|HI]]; [lia|lia|]. apply I2. now right.
  Qed.
  Lemma sum_perm : forall a b, Permutation a b -> zsum a = zsum b.
  Proof. intros a b H. unfold zsum. induction H; cbn [fold_right]; lia. Qed.

  Lemma number_perm : forall a zs zs', In a [Sum; Min; Max] -> Permutation zs zs' -> zs <> [] ->
    Forall is_int64 zs -> aggregate E a (map vint zs) = aggregate E a (map vint zs').
  Proof.
    intros a zs zs' HA HP NE HZ.
    assert (HZ' : Forall is_int64 zs') by (eapply Permutation_Forall; eauto).
    assert (NE' : zs' <> []) by (intros ->; apply Permutation_sym, Permutation_nil in HP; contradiction).
    destruct HA as [<-|[<-|[<-|[]]]].
    - rewrite !C19_sum by assumption. change (fold_right Z.add 0%Z) with zsum. now rewrite (sum_perm _ _ HP).
    - destruct zs as [|z zs]; [contradiction|]. destruct zs' as [|z' zs']; [contradiction|].
      rewrite !C19_min by assumption. f_equal.
      destruct (min_list zs z) as [A1 A2], (min_list zs' z') as [B1 B2].
      apply Z.le_antisymm.
      + apply A2. eapply Permutation_in; [apply Permutation_sym; exact HP|exact B1].
      + apply B2. eapply Permutation_in; [exact HP|exact A1].
    - destruct zs as [|z zs]; [contradiction|]. destruct zs' as [|z' zs']; [contradiction|].
      rewrite !C19_max by assumption. f_equal.
      destruct (max_list zs z) as [A1 A2], (max_list zs' z') as [B1 B2].
      apply Z.le_antisymm.
      + apply B2. eapply Permutation_in; [exact HP|exact A1].
      + apply A2. eapply Permutation_in; [apply Permutation_sym; exact HP|exact B1].
  Qed.

  (** The number an aggregate is applied to, for a row that has one. *)
  Definition number (e : expr) (row : dict) : Z :=
    match item E funs fr e row with Some v => to_int640 v | None => 0%Z end.

  Lemma numbers : forall e rows,
    Forall (fun r => exists z, is_int64 z /\ item E funs fr e r = Some (vint z)) rows ->
    sequence (map (item E funs fr e) rows) = Some (map vint (map (number e) rows)) /\
    Forall is_int64 (map (number e) rows).
  Proof.
    intros e rows H. induction H as [|r rows (z & HZ & HI) _ [IH1 IH2]]; [split; [reflexivity|constructor]|].
    cbn [map]. assert (EN : number e r = z).
    { unfold number. rewrite HI. unfold to_int640, vint. cbn [to_int64]. now apply wrap64_id. }
    rewrite HI, EN. cbn [sequence]. rewrite IH1. split; [reflexivity|]. now constructor.
  Qed.

  Lemma all_items : forall e rows, Forall (fun r => exists x, item E funs fr e r = Some x) rows ->
    exists items, sequence (map (item E funs fr e) rows) = Some items /\ List.length items = List.length rows.
  Proof.
    intros e rows H. induction H as [|r rows (x & HX) _ (items & H1 & H2)]; [exists []; auto|].
    exists (x :: items). cbn [map]. rewrite HX. cbn [sequence]. rewrite H1. cbn. auto.
  Qed.

  Lemma over_agg : forall rows c n a e, agg_call c = Some (n, a, e) ->
    over E funs fr rows c = option_map (aggregate E a) (sequence (map (item E funs fr e) rows)).
  Proof.
    intros rows c n a e HA. destruct (agg_call_inv _ _ _ _ HA) as (ps & -> & _). cbn [over]. now rewrite HA.
  Qed.

  (** A column of a group is the same for any order. *)
  Lemma value_perm : forall rows b k g1 g2, orderless rows b -> Permutation g1 g2 -> g1 <> [] ->
    Forall (fun r => In r rows /\ key_of r = Some k) g1 ->
    exists v, group_value E funs fr g1 b = Some v /\ group_value E funs fr g2 b = Some v.
  Proof.
    intros rows b k g1 g2 HO HP NE F1.
    assert (F2 : Forall (fun r => In r rows /\ key_of r = Some k) g2) by (eapply Permutation_Forall; eauto).
    assert (NE2 : g2 <> []) by (intros ->; apply Permutation_sym, Permutation_nil in HP; contradiction).
    assert (SUB : forall (P : dict -> Prop) g, Forall P rows ->
              Forall (fun r => In r rows /\ key_of r = Some k) g -> Forall P g).
    { intros P gg HR HG. rewrite Forall_forall in *. intros r HI. apply HR. now apply HG. }
    destruct HO as [c node e HA HI|c node a e HA Ha HI|c HA HI HS]; cbn [group_value].
    - rewrite !(over_agg _ _ _ _ _ HA).
      destruct (all_items e g1 (SUB _ _ HI F1)) as (i1 & -> & L1).
      destruct (all_items e g2 (SUB _ _ HI F2)) as (i2 & -> & L2).
      cbn [option_map aggregate]. rewrite L1, L2, (Permutation_length HP). eauto.
    - rewrite !(over_agg _ _ _ _ _ HA).
      destruct (numbers e g1 (SUB _ _ HI F1)) as [-> N1]. destruct (numbers e g2 (SUB _ _ HI F2)) as [-> _].
      cbn [option_map]. rewrite (number_perm a (map (number e) g1) (map (number e) g2)); eauto.
      + now apply Permutation_map.
      + intros EQ. apply map_eq_nil in EQ. contradiction.
    - rewrite !(over_pure E funs fr _ _ HA).
      assert (L : forall gg, gg <> [] -> Forall (fun r => In r rows /\ key_of r = Some k) gg ->
                In (last gg []) rows /\ key_of (last gg []) = Some k).
      { intros gg N F. destruct (exists_last N) as (gg' & r & ->). rewrite last_last.
        apply Forall_app in F as [_ F]. now inversion F. }
      destruct (L g1 NE F1) as [I1 K1], (L g2 NE2 F2) as [I2 K2].
      rewrite (HS _ _ I1 I2) by congruence.
      rewrite Forall_forall in HI. destruct (HI _ I2) as (v & ->). cbn. eauto.
  Qed.

  Lemma row_perm : forall rows k g1 g2, Forall (fun nc => orderless rows (snd nc)) cols ->
    Permutation g1 g2 -> g1 <> [] -> Forall (fun r => In r rows /\ key_of r = Some k) g1 ->
    exists out, result_row g1 = Some out /\ result_row g2 = Some out.
  Proof.
    intros rows k g1 g2 HC HP NE F1. unfold GroupSpec.result_row.
    generalize (@nil (string * val)) as acc.
    induction HC as [|[name b] cs HB _ IH]; intros acc; cbn [group_columns].
    - eauto.
    - destruct (value_perm rows b k g1 g2 HB HP NE F1) as (v & -> & ->). cbn [obind]. apply IH.
  Qed.

  Lemma all_defined_of : forall rows, Forall (fun nc => orderless rows (snd nc)) cols ->
    forall l pre, (forall k row, In (k, row) (pre ++ l) -> In row rows /\ key_of row = Some k) ->
    all_defined E funs fr false cols pre l.
  Proof.
    intros rows HC l. induction l as [|[k row] l IH]; intros pre HIN; cbn [all_defined]; [exact I|].
    split.
    - destruct (row_perm rows k (group k pre ++ [row]) (group k pre ++ [row]) HC (Permutation_refl _))
        as (out & HO & _).
      + intros EQ. apply app_eq_nil in EQ as [_ EQ]. discriminate.
      + apply Forall_app. split.
        * apply Forall_forall. intros r HI. apply in_group in HI. apply HIN, in_app_iff. now left.
        * constructor; [|constructor]. apply HIN, in_app_iff. right. now left.
      + eauto.
    - apply IH. intros k0 r0 HI. apply HIN. rewrite <- app_assoc in HI. exact HI.
  Qed.

  Lemma sequence_perm : forall A (f : A -> option dict) ks ks' out, Permutation ks ks' ->
    sequence (map f ks) = Some out -> exists out', sequence (map f ks') = Some out' /\ Permutation out out'.
  Proof.
    intros A f ks ks' out HP. revert out. induction HP as [|x a b _ IH|x y a|a b c _ IH1 _ IH2]; intros out H.
    - injection H as <-. exists []. auto.
    - cbn [map] in *. apply sequence_cons in H as (u & r & Hu & Hr & ->). destruct (IH _ Hr) as (r' & Hr' & HP').
      exists (u :: r'). rewrite Hu. cbn [sequence]. rewrite Hr'. auto.
    - cbn [map] in *. apply sequence_cons in H as (u & r & Hu & Hr & ->).
      apply sequence_cons in Hr as (u' & r' & Hu' & Hr' & ->).
      exists (u' :: u :: r'). rewrite Hu', Hu. cbn [sequence]. rewrite Hr'. split; [reflexivity|constructor].
    - destruct (IH1 _ H) as (o1 & H1 & P1). destruct (IH2 _ H1) as (o2 & H2 & P2).
      exists o2. split; [exact H2|]. eapply Permutation_trans; eauto.
  Qed.

  Lemma groups_perm : forall rows rows' l, Permutation rows rows' ->
    Forall (fun nc => orderless rows (snd nc)) cols -> keyed rows = Some l ->
    exists l' out out', keyed rows' = Some l' /\
      group_select E funs fr false cols where_ g rows = Some out /\
      group_select E funs fr false cols where_ g rows' = Some out' /\ Permutation out out' /\
      all_defined E funs fr false cols [] l /\ all_defined E funs fr false cols [] l'.
  Proof.
    intros rows rows' l HP HC HL. destruct (keyed_perm _ _ HP _ HL) as (l' & HL' & HPL).
    set (ks := first_seen [] (map fst l)). set (ks' := first_seen [] (map fst l')).
    assert (IK : forall k, In k ks <-> exists row, In (k, row) l).
    { intros k. unfold ks. rewrite <- mem_str_in, first_seen_in. cbn. rewrite mem_str_in, in_map_iff. split.
      - intros ([k' r] & <- & HI). eauto.
      - intros (r & HI). exists (k, r). auto. }
    assert (HK : Permutation ks ks').
    { apply NoDup_Permutation; [apply first_seen_nodup|apply first_seen_nodup|].
      intros k. rewrite IK. unfold ks'. rewrite <- mem_str_in, first_seen_in. cbn. rewrite mem_str_in, in_map_iff. split.
      - intros (r & HI). exists (k, r). split; [reflexivity|]. eapply Permutation_in; eauto.
      - intros ([k' r] & <- & HI). exists r. eapply Permutation_in; [apply Permutation_sym; exact HPL|exact HI]. }
    assert (GR : forall k, In k ks -> exists out, result_row (group k l) = Some out /\ result_row (group k l') = Some out).
    { intros k HI. apply (row_perm rows k); [exact HC|now apply group_perm| |].
      - apply IK in HI as (r & HI). apply in_group in HI. intros EQ. rewrite EQ in HI. exact HI.
      - apply Forall_forall. intros r HR. apply in_group in HR. eapply keyed_from; eauto. }
    assert (SQ : exists out, sequence (map (fun k => result_row (group k l)) ks) = Some out /\
                   sequence (map (fun k => result_row (group k l')) ks) = Some out).
    { clearbody ks. clear IK HK. induction ks as [|k ks IH]; [exists []; auto|].
      destruct (GR k (or_introl eq_refl)) as (o & H1 & H2).
      destruct IH as (os & I1 & I2); [intros k0 H0; apply GR; now right|].
      exists (o :: os). cbn [map]. rewrite H1, H2. cbn [sequence]. rewrite I1, I2. auto. }
    destruct SQ as (out & S1 & S2). destruct (sequence_perm _ _ _ _ _ HK S2) as (out' & S3 & S4).
    exists l', out, out'. split; [exact HL'|]. unfold group_select. rewrite HL, HL'. cbn [obind].
    split; [exact S1|]. split; [exact S3|]. split; [exact S4|].
    split; apply (all_defined_of rows HC); cbn [app]; intros k row HI; eapply keyed_from; eauto.
    eapply Permutation_in; [apply Permutation_sym; exact HPL|exact HI].
  Qed.

  (** ** The groups are a partition *)

  Lemma one_key : forall (x : Z) k ks, NoDup ks -> In k ks ->
    zsum (map (fun k' => if String.eqb k' k then x else 0%Z) ks) = x.
  Proof.
    intros x k ks ND. unfold zsum. induction ND as [|k0 ks NI _ IH]; intros HI; [contradiction|]. cbn [map fold_right].
    assert (Z0 : ~ In k ks -> fold_right Z.add 0%Z (map (fun k' => if String.eqb k' k then x else 0%Z) ks) = 0%Z).
    { clear. induction ks as [|k1 ks IH]; intros NI; [reflexivity|]. cbn [map fold_right].
      destruct (String.eqb k1 k) eqn:EK; [apply String.eqb_eq in EK as ->; exfalso; apply NI; now left|].
      rewrite IH; [reflexivity|]. intros HI. apply NI. now right. }
    destruct HI as [->|HI].
    - rewrite String.eqb_refl, Z0 by exact NI. lia.
    - destruct (String.eqb k0 k) eqn:EK; [apply String.eqb_eq in EK as ->; contradiction|]. rewrite IH by exact HI. lia.
  Qed.

  Lemma sum_of_groups : forall (h : dict -> Z) ks, NoDup ks -> forall l,
    (forall k row, In (k, row) l -> In k ks) ->
    zsum (map (fun k => zsum (map h (group k l))) ks) = zsum (map h (map snd l)).
  Proof.
    intros h ks ND l. induction l as [|[k row] l IH]; intros HI.
    - cbn. unfold zsum. clear. induction ks as [|k ks IH]; [reflexivity|]. cbn [map fold_right] in *. exact IH.
    - cbn [map snd]. change (zsum (h row :: map h (map snd l))) with (h row + zsum (map h (map snd l)))%Z.
      rewrite <- IH by (intros k0 r0 H0; eapply HI; right; exact H0).
      rewrite <- (one_key (h row) k ks ND) by (eapply HI; now left).
      clear. unfold zsum. induction ks as [|k0 ks IH]; [reflexivity|]. cbn [map fold_right]. rewrite IH.
      unfold group. cbn [filter fst]. destruct (String.eqb k0 k); cbn [map snd fold_right]; lia.
  Qed.

  Lemma wrap_sums : forall l, wrap64 (zsum (map wrap64 l)) = wrap64 (zsum l).
  Proof.
    induction l as [|z l IH]; [reflexivity|]. unfold zsum in *. cbn [map fold_right].
    rewrite wrap64_add_l, <- wrap64_add_r, IH, wrap64_add_r. reflexivity.
  Qed.
End Laws.
