(** Operators: properties C01 to C12 (values side).

    [cond_op P m op a b] is the value of the VQL expression [a op b]
    (Chains.v); [P] are the implementations the host registered and [m] its
    regex matcher, both arbitrary unless stated otherwise. *)

From Coq Require Import ZArith List String Ascii Bool Lia Permutation.
From Verif Require Import Base BaseProofs F64 F64Proofs Value Protocols Monad Chains OpsProofs.
Import ListNotations.
Open Scope Z_scope.

(** ** C01: comparison operators are coherent on like-typed scalars *)

Definition exactly_one (a b c : bool) : Prop :=
  (a = true /\ b = false /\ c = false) \/
  (a = false /\ b = true /\ c = false) \/
  (a = false /\ b = false /\ c = true).

(** Go integers other than [uint], strings, or floats that are not NaN. *)
Inductive scalar_kind : Type := SInt | SString | SFloat.

Definition has_kind (s : scalar_kind) (v : val) : Prop :=
  match s, v with
  | SInt, VInt k z => k <> KUint
  | SString, VStr _ => True
  | SFloat, VF64 f => f <> S754_nan
  | _, _ => False
  end.

Lemma not_nan_b : forall f, f <> S754_nan -> f_is_nan f = false.
Proof. destruct f; simpl; congruence. Qed.

Theorem C01_trichotomy : forall P m kd a b,
  has_kind kd a -> has_kind kd b ->
  exactly_one (cond_op P m OpLt a b) (cond_op P m OpEq a b) (cond_op P m OpGt a b).
Proof.
  intros P m kd a b Ha Hb. unfold exactly_one. cbn [cond_op].
  destruct kd; destruct a as [| | |k x|f| |s| | | | | |]; simpl in Ha; try contradiction;
    destruct b as [| | |k' y|g| |t| | | | | |]; simpl in Hb; try contradiction.
  - rewrite lt_int, eq_int, gt_int by assumption.
    destruct (Z.lt_total (wrap64 x) (wrap64 y)) as [H|[H|H]].
    + left. rewrite Z.ltb_lt, Z.eqb_neq, Z.ltb_ge. lia.
    + right; left. rewrite !Z.ltb_ge, Z.eqb_eq. lia.
    + right; right. rewrite Z.ltb_lt, Z.eqb_neq, Z.ltb_ge. lia.
  - cbn. destruct (str_ltb_total s t) as [H|[H|H]].
    + left. rewrite H, (str_ltb_asym _ _ H).
      destruct (String.eqb_spec s t); [|auto].
      subst. rewrite str_ltb_irrefl in H. discriminate.
    + subst. right; left. rewrite str_ltb_irrefl, String.eqb_refl. auto.
    + right; right. rewrite H, (str_ltb_asym _ _ H).
      destruct (String.eqb_spec s t); [|auto].
      subst. rewrite str_ltb_irrefl in H. discriminate.
  - cbn. apply not_nan_b in Ha, Hb. fold (f_ltb f g) (f_ltb g f) (f_eqb f g).
    destruct (f_trichotomy f g Ha Hb) as [H|[H|H]].
    + left. rewrite H, (f_ltb_asym _ _ H). repeat split.
      destruct (f_eqb f g) eqn:E; [|reflexivity].
      apply f_eqb_ltb in E. congruence.
    + right; left. rewrite H, (f_eqb_ltb _ _ H). repeat split.
      rewrite f_eqb_sym in H. now apply f_eqb_ltb.
    + right; right. rewrite H, (f_ltb_asym _ _ H). repeat split.
      destruct (f_eqb f g) eqn:E; [|reflexivity].
      rewrite f_eqb_sym in E. apply f_eqb_ltb in E. congruence.
Qed.

Theorem C01_derived_operators : forall P m a b,
  (cond_op P m OpLe a b = true <->
     cond_op P m OpLt a b = true \/ cond_op P m OpEq a b = true) /\
  (cond_op P m OpGe a b = true <->
     cond_op P m OpGt a b = true \/ cond_op P m OpEq a b = true) /\
  (cond_op P m OpNe a b = true <-> ~ cond_op P m OpEq a b = true).
Proof.
  intros. cbn [cond_op]. rewrite !orb_true_iff, negb_true_iff.
  repeat split; auto; destruct (eq_disp _ _ _); congruence.
Qed.

Theorem C01_lt_transitive : forall P m kd a b c,
  has_kind kd a -> has_kind kd b -> has_kind kd c ->
  cond_op P m OpLt a b = true -> cond_op P m OpLt b c = true ->
  cond_op P m OpLt a c = true.
Proof.
  intros P m kd a b c Ha Hb Hc. cbn [cond_op].
  destruct kd; destruct a as [| | |k x|f| |s| | | | | |]; simpl in Ha; try contradiction;
    destruct b as [| | |k' y|g| |t| | | | | |]; simpl in Hb; try contradiction;
    destruct c as [| | |k'' z|h| |u| | | | | |]; simpl in Hc; try contradiction.
  - rewrite !lt_int by assumption. rewrite !Z.ltb_lt. lia.
  - cbn. apply str_ltb_trans.
  - cbn. apply f_ltb_trans.
Qed.

(** The order is the expected one: numeric on integers that fit int64, *)
Theorem C01_int_order_is_numeric : forall P m k x k' y,
  k <> KUint -> k' <> KUint -> is_int64 x -> is_int64 y ->
  (cond_op P m OpLt (VInt k x) (VInt k' y) = true <-> x < y) /\
  (cond_op P m OpEq (VInt k x) (VInt k' y) = true <-> x = y) /\
  (cond_op P m OpGt (VInt k x) (VInt k' y) = true <-> x > y).
Proof.
  intros. cbn [cond_op].
  rewrite lt_int, eq_int, gt_int by assumption.
  rewrite !wrap64_id by assumption.
  rewrite !Z.ltb_lt, Z.eqb_eq. lia.
Qed.

(** lexicographic by byte on strings, *)
Definition lex_lt (a b : string) : Prop :=
  exists p : string,
    (a = p /\ exists c t, b = (p ++ String c t)%string) \/
    (exists c d s t, a = (p ++ String c s)%string /\ b = (p ++ String d t)%string /\
                     (N_of_ascii c < N_of_ascii d)%N).

Lemma str_ltb_lex : forall a b, str_ltb a b = true <-> lex_lt a b.
Proof.
  induction a as [|x a IH]; destruct b as [|y b].
  - split; [discriminate|]. intros [p [[E (c & t & H)]|(c & d & s & t & H & _)]].
    + subst p. discriminate.
    + destruct p; discriminate.
  - split; [|reflexivity]. intros _. exists EmptyString. left. split; [reflexivity|].
    exists y, b. reflexivity.
  - split; [discriminate|]. intros [p [[E (c & t & H)]|(c & d & s & t & H1 & H & _)]].
    + subst p. discriminate.
    + destruct p; discriminate.
  - simpl. destruct (N_of_ascii x <? N_of_ascii y)%N eqn:L1.
    + split; [|reflexivity]. intros _. exists EmptyString. right.
      exists x, y, a, b. repeat split. now apply N.ltb_lt.
    + destruct (N_of_ascii y <? N_of_ascii x)%N eqn:L2.
      * split; [discriminate|].
        apply N.ltb_lt in L2.
        intros [p [[E (c & t & H)]|(c & d & s & t & H1 & H & L)]].
        -- subst p. simpl in H. injection H as H H'. subst. lia.
        -- destruct p; simpl in *; injection H1 as H1 ?; injection H as H ?; subst; lia.
      * apply N.ltb_ge in L1, L2.
        assert (E : x = y).
        { rewrite <- (ascii_N_embedding x), <- (ascii_N_embedding y). f_equal. lia. }
        subst y. rewrite IH. split.
        -- intros [p [[E (c & t & H)]|(c & d & s & t & H1 & H & L)]].
           ++ subst p. exists (String x a). left. split; [reflexivity|]. exists c, t. now rewrite H.
           ++ exists (String x p). right. exists c, d, s, t. simpl. rewrite H1, H. auto.
        -- intros [p [[E (c & t & H)]|(c & d & s & t & H1 & H & L)]].
           ++ subst p. simpl in H. injection H as H. exists a. left. split; [reflexivity|]. eauto.
           ++ destruct p as [|p0 p]; simpl in H1, H.
              ** injection H1 as E1 _. injection H as E2 _. subst. lia.
              ** injection H1 as E1 H1. injection H as _ H.
                 exists p. right. exists c, d, s, t. auto.
Qed.

Theorem C01_string_order_is_lexicographic : forall P m a b,
  (cond_op P m OpLt (VStr a) (VStr b) = true <-> lex_lt a b) /\
  (cond_op P m OpGt (VStr a) (VStr b) = true <-> lex_lt b a) /\
  (cond_op P m OpEq (VStr a) (VStr b) = true <-> a = b).
Proof.
  intros. cbn. rewrite !str_ltb_lex, String.eqb_eq. tauto.
Qed.

(** and numeric on (canonically represented) finite floats: [fnum f] is the
    float's value scaled by 2^1074, an integer. *)
Definition fnum (f : f64) : Z :=
  match f with
  | S754_finite s m e => (if s then - Z.pos m else Z.pos m) * 2 ^ (e + 1074)
  | _ => 0
  end.

Definition finite_valid (f : f64) : Prop :=
  match f with
  | S754_zero _ => True
  | S754_finite _ _ _ => valid_binary 53 1024 f = true
  | _ => False
  end.

Lemma canonical_mono : forall m1 e1 m2 e2,
  canonical_mantissa 53 1024 m1 e1 = true ->
  canonical_mantissa 53 1024 m2 e2 = true ->
  e1 < e2 -> Z.pos m1 * 2 ^ (e1 + 1074) < Z.pos m2 * 2 ^ (e2 + 1074).
Proof.
  intros m1 e1 m2 e2 C1 C2 L.
  unfold canonical_mantissa in *.
  apply Zeq_bool_eq in C1, C2. unfold fexp, emin in *.
  pose proof (digits2_pos_bound m1) as B1.
  pose proof (digits2_pos_bound m2) as B2.
  set (d1 := Z.pos (digits2_pos m1)) in *. set (d2 := Z.pos (digits2_pos m2)) in *.
  assert (E1 : -1074 <= e1) by lia.
  assert (D1 : d1 <= 53) by lia. assert (D2 : d2 = 53) by lia.
  assert (M1 : Z.pos m1 < 2 ^ 53).
  { apply Z.lt_le_trans with (2 ^ d1); [lia|]. apply Z.pow_le_mono_r; lia. }
  assert (M2 : 2 ^ 52 <= Z.pos m2) by (rewrite D2 in B2; lia).
  apply Z.lt_le_trans with (2 ^ 53 * 2 ^ (e1 + 1074)).
  - apply Z.mul_lt_mono_pos_r; [apply Z.pow_pos_nonneg; lia|lia].
  - apply Z.le_trans with (2 ^ 52 * 2 ^ (e2 + 1074)).
    + rewrite <- !Z.pow_add_r by lia. apply Z.pow_le_mono_r; lia.
    + apply Z.mul_le_mono_nonneg_r; [apply Z.pow_nonneg; lia|lia].
Qed.

Lemma fnum_lt : forall f g, finite_valid f -> finite_valid g ->
  (f_ltb f g = true <-> fnum f < fnum g).
Proof.
  intros f g Vf Vg.
  assert (Pp : forall e, 0 < 2 ^ (e + 1074) \/ e + 1074 < 0).
  { intros e. destruct (Z.lt_ge_cases (e + 1074) 0); [auto|].
    left. apply Z.pow_pos_nonneg; lia. }
  destruct f as [sf|sf| |sf mf ef]; try contradiction;
    destruct g as [sg|sg| |sg mg eg]; try contradiction; unfold fnum.
  - unfold f_ltb, SFltb; simpl. split; [discriminate|lia].
  - simpl in Vg. unfold bounded in Vg. apply andb_true_iff in Vg as [Cg _].
    unfold canonical_mantissa in Cg. apply Zeq_bool_eq in Cg. unfold fexp, emin in Cg.
    assert (0 < 2 ^ (eg + 1074)) by (destruct (Pp eg); lia).
    unfold f_ltb, SFltb; simpl. destruct sg; split; intros; try discriminate; try reflexivity; nia.
  - simpl in Vf. unfold bounded in Vf. apply andb_true_iff in Vf as [Cf _].
    unfold canonical_mantissa in Cf. apply Zeq_bool_eq in Cf. unfold fexp, emin in Cf.
    assert (0 < 2 ^ (ef + 1074)) by (destruct (Pp ef); lia).
    unfold f_ltb, SFltb; simpl. destruct sf; split; intros; try discriminate; try reflexivity; nia.
  - simpl in Vf, Vg. unfold bounded in Vf, Vg.
    apply andb_true_iff in Vf as [Cf _]. apply andb_true_iff in Vg as [Cg _].
    pose proof (canonical_mono mf ef mg eg Cf Cg) as M1.
    pose proof (canonical_mono mg eg mf ef Cg Cf) as M2.
    unfold canonical_mantissa in Cf, Cg. apply Zeq_bool_eq in Cf, Cg. unfold fexp, emin in Cf, Cg.
    assert (Pf : 0 < 2 ^ (ef + 1074)) by (destruct (Pp ef); lia).
    assert (Pg : 0 < 2 ^ (eg + 1074)) by (destruct (Pp eg); lia).
    clear Pp Cf Cg. rewrite ?Z.mul_opp_l.
    unfold f_ltb, SFltb, SFcompare. destruct sf, sg; rewrite ?Z.mul_opp_l.
    + destruct (Z.compare_spec ef eg) as [E|E|E].
      * subst. change (Pos.compare_cont Eq mf mg) with (Pos.compare mf mg).
        destruct (Pos.compare_spec mf mg) as [Em|Em|Em]; [subst mg| |]; split; intros Hl; try discriminate Hl; try reflexivity; try (exfalso; clear -Hl; lia); [..|] ; apply Pos2Z.pos_lt_pos in Em || idtac; nia.
      * specialize (M1 E). split; intros; try discriminate; try reflexivity; nia.
      * specialize (M2 E). split; intros; try discriminate; try reflexivity; nia.
    + split; intros; [nia|reflexivity].
    + split; intros; [discriminate|nia].
    + destruct (Z.compare_spec ef eg) as [E|E|E].
      * subst. change (Pos.compare_cont Eq mf mg) with (Pos.compare mf mg).
        destruct (Pos.compare_spec mf mg) as [Em|Em|Em]; [subst mg| |]; split; intros Hl; try discriminate Hl; try reflexivity; try (exfalso; clear -Hl; lia); [..|] ; apply Pos2Z.pos_lt_pos in Em || idtac; nia.
      * specialize (M1 E). split; intros; try discriminate; try reflexivity; nia.
      * specialize (M2 E). split; intros; try discriminate; try reflexivity; nia.
Qed.

Theorem C01_float_order_is_numeric : forall P m f g,
  finite_valid f -> finite_valid g ->
  (cond_op P m OpLt (VF64 f) (VF64 g) = true <-> fnum f < fnum g) /\
  (cond_op P m OpGt (VF64 f) (VF64 g) = true <-> fnum f > fnum g).
Proof.
  intros P m f g Vf Vg. cbn [cond_op]. cbn. fold (f_ltb f g) (f_ltb g f).
  rewrite !fnum_lt by assumption. lia.
Qed.

Definition nomatch (a b : val) : bool := false.

Example C01_example :
  has_kind SInt (vint 3) /\ has_kind SInt (VInt KUint64 (two64 - 1)) /\
  cond_op no_protos nomatch OpLt (vint 3) (vint 4) = true /\
  cond_op no_protos nomatch OpLt (VStr "abc") (VStr "abd") = true /\
  cond_op no_protos nomatch OpGt (VF64 (f_of_Z 7)) (VF64 (f_of_Z (-7))) = true /\
  finite_valid (f_of_Z 7) /\ fnum (f_of_Z 7) = 7 * 2 ^ 1074.
Proof. vm_compute. repeat split; congruence. Qed.

(** ** C02: [a > b] is the converse of [b < a] *)

(** False as stated: a string is both less and greater than an integer, and
    booleans are not ordered by [>]. *)
Theorem C02_refuted :
  (exists a b, cond_op no_protos nomatch OpGt a b = true /\
               cond_op no_protos nomatch OpLt b a = false) /\
  (exists a b, cond_op no_protos nomatch OpGt a b = true /\
               cond_op no_protos nomatch OpLt a b = true) /\
  (exists a b, cond_op no_protos nomatch OpLt a b = true /\
               cond_op no_protos nomatch OpGt b a = false).
Proof.
  split; [|split].
  - exists (VStr "abc"), (vint 5). vm_compute. auto.
  - exists (VStr "abc"), (vint 5). vm_compute. auto.
  - exists (VBool false), (VBool true). vm_compute. auto.
Qed.

(** What does hold: integers (in int64 range), floats and times in any
    combination; strings, NULL, arrays, dicts and queries among themselves;
    and NULL against anything. *)
Definition is_num (v : val) : Prop :=
  match v with
  | VInt k z => k <> KUint /\ is_int64 z
  | VF64 _ | VTime _ => True
  | _ => False
  end.
Definition is_other (v : val) : Prop :=
  match v with
  | VNil | VNull | VStr _ | VNilArr | VArr _ | VDict _ | VQuery _ => True
  | _ => False
  end.

Theorem C02_gt_converse_of_lt_partial : forall P m a b,
  p_lt P = [] -> p_gt P = [] ->
  (is_num a /\ is_num b) \/ (is_other a /\ is_other b) \/
    is_null a = true \/ is_null b = true ->
  cond_op P m OpGt a b = cond_op P m OpLt b a /\
  ~ (cond_op P m OpGt a b = true /\ cond_op P m OpLt a b = true).
Proof.
  intros P m a b H1 H2 H. cbn [cond_op]. rewrite H1, H2.
  assert (NN : forall v, is_null v = true -> v = VNil \/ v = VNull)
    by (intros []; simpl; auto; discriminate).
  assert (L : forall c, gt_disp [] VNull c = false /\ lt_disp [] c VNull = false /\
                        gt_disp [] VNil c = false /\ lt_disp [] c VNil = false /\
                        gt_disp [] c VNull = false /\ lt_disp [] VNull c = false /\
                        gt_disp [] c VNil = false /\ lt_disp [] VNil c = false).
  { intros c. repeat split; destruct c as [| | |[]| | | | | | | | |]; reflexivity. }
  destruct H as [[Na Nb]|[[Oa Ob]|[Hn|Hn]]].
  - destruct a as [| | |k x|f| | |na| | | | |]; try contradiction;
      destruct b as [| | |k' y|g| | |nb| | | | |]; try contradiction; simpl in Na, Nb.
    + rewrite gt_int, !lt_int by tauto. split; [reflexivity|]. rewrite !Z.ltb_lt. lia.
    + destruct Na as [Na Ra].
      assert (G : gt_disp [] (VInt k x) (VF64 g) = f_ltb g (f_of_Z (wrap64 x)))
        by (destruct k; try congruence; reflexivity).
      assert (L1 : lt_disp [] (VF64 g) (VInt k x) = f_ltb g (f_of_Z x))
        by (destruct k; try congruence; reflexivity).
      assert (L2 : lt_disp [] (VInt k x) (VF64 g) = f_ltb (f_of_Z (wrap64 x)) g)
        by (destruct k; try congruence; reflexivity).
      rewrite G, L1, L2, wrap64_id by assumption. split; [reflexivity|].
      intros [A B]. apply f_ltb_asym in A. congruence.
    + destruct Na as [Na Ra].
      assert (G : gt_disp [] (VInt k x) (VTime nb) = (nb <? time_unix (wrap64 x) 0))
        by (destruct k; try congruence; reflexivity).
      assert (L1 : lt_disp [] (VTime nb) (VInt k x) = (nb <? time_unix (wrap64 x) 0))
        by (destruct k; try congruence; reflexivity).
      assert (L2 : lt_disp [] (VInt k x) (VTime nb) = (time_unix (wrap64 x) 0 <? nb))
        by (destruct k; try congruence; reflexivity).
      rewrite G, L1, L2. split; [reflexivity|]. rewrite !Z.ltb_lt. lia.
    + destruct Nb as [Nb Rb].
      assert (G : gt_disp [] (VF64 f) (VInt k' y) = f_ltb (f_of_Z y) f)
        by (destruct k'; try congruence; reflexivity).
      assert (L1 : lt_disp [] (VInt k' y) (VF64 f) = f_ltb (f_of_Z (wrap64 y)) f)
        by (destruct k'; try congruence; reflexivity).
      assert (L2 : lt_disp [] (VF64 f) (VInt k' y) = f_ltb f (f_of_Z y))
        by (destruct k'; try congruence; reflexivity).
      rewrite G, L1, L2, wrap64_id by assumption. split; [reflexivity|].
      intros [A B]. apply f_ltb_asym in A. congruence.
    + change (gt_disp [] (VF64 f) (VF64 g)) with (f_ltb g f).
      change (lt_disp [] (VF64 g) (VF64 f)) with (f_ltb g f).
      change (lt_disp [] (VF64 f) (VF64 g)) with (f_ltb f g).
      split; [reflexivity|]. intros [A B]. apply f_ltb_asym in A. congruence.
    + assert (exists t, to_time (VF64 f) = Some t) as [t Ht]
        by (unfold to_time; destruct (f_modf f); eauto).
      assert (G : gt_disp [] (VF64 f) (VTime nb) = (nb <? t)).
      { unfold gt_disp. cbn [gt_switch_a to_float gt_switch_b]. rewrite Ht. reflexivity. }
      assert (L1 : lt_disp [] (VTime nb) (VF64 f) = (nb <? t)).
      { unfold lt_disp. cbn [lt_switch_a]. rewrite Ht. reflexivity. }
      assert (L2 : lt_disp [] (VF64 f) (VTime nb) = (t <? nb)).
      { unfold lt_disp. cbn [lt_switch_a to_float lt_switch_b]. rewrite Ht. reflexivity. }
      rewrite G, L1, L2. split; [reflexivity|]. rewrite !Z.ltb_lt. lia.
    + destruct Nb as [Nb Rb].
      assert (G : gt_disp [] (VTime na) (VInt k' y) = (time_unix (wrap64 y) 0 <? na))
        by (destruct k'; try congruence; reflexivity).
      assert (L1 : lt_disp [] (VInt k' y) (VTime na) = (time_unix (wrap64 y) 0 <? na))
        by (destruct k'; try congruence; reflexivity).
      assert (L2 : lt_disp [] (VTime na) (VInt k' y) = (na <? time_unix (wrap64 y) 0))
        by (destruct k'; try congruence; reflexivity).
      rewrite G, L1, L2. split; [reflexivity|]. rewrite !Z.ltb_lt. lia.
    + assert (exists t, to_time (VF64 g) = Some t) as [t Ht]
        by (unfold to_time; destruct (f_modf g); eauto).
      assert (G : gt_disp [] (VTime na) (VF64 g) = (t <? na)).
      { unfold gt_disp. cbn [gt_switch_a]. rewrite Ht. reflexivity. }
      assert (L1 : lt_disp [] (VF64 g) (VTime na) = (t <? na)).
      { unfold lt_disp. cbn [lt_switch_a to_float lt_switch_b]. rewrite Ht. reflexivity. }
      assert (L2 : lt_disp [] (VTime na) (VF64 g) = (na <? t)).
      { unfold lt_disp. cbn [lt_switch_a]. rewrite Ht. reflexivity. }
      rewrite G, L1, L2. split; [reflexivity|]. rewrite !Z.ltb_lt. lia.
    + change (gt_disp [] (VTime na) (VTime nb)) with (nb <? na).
      change (lt_disp [] (VTime nb) (VTime na)) with (nb <? na).
      change (lt_disp [] (VTime na) (VTime nb)) with (na <? nb).
      split; [reflexivity|]. rewrite !Z.ltb_lt. lia.
  - destruct a as [| | | | | |s| | | | | |]; try contradiction;
      destruct b as [| | | | | |t| | | | | |]; try contradiction;
      try (split; [reflexivity|]; intros [A B]; discriminate).
    change (gt_disp [] (VStr s) (VStr t)) with (str_ltb t s).
    change (lt_disp [] (VStr t) (VStr s)) with (str_ltb t s).
    change (lt_disp [] (VStr s) (VStr t)) with (str_ltb s t).
    split; [reflexivity|]. intros [A B]. apply str_ltb_asym in A. congruence.
  - destruct (L b) as (A1 & A2 & A3 & A4 & _).
    destruct (NN _ Hn) as [-> | ->]; rewrite ?A1, ?A2, ?A3, ?A4; split; auto; intros []; discriminate.
  - destruct (L a) as (_ & _ & _ & _ & A1 & A2 & A3 & A4).
    destruct (NN _ Hn) as [-> | ->]; rewrite ?A1, ?A2, ?A3, ?A4; split; auto; intros []; discriminate.
Qed.

Example C02_example : is_num (vint 3) /\ is_num (VF64 (f_of_Z 2)) /\
  cond_op no_protos nomatch OpGt (vint 3) (VF64 (f_of_Z 2)) = true.
Proof. vm_compute. repeat split; congruence. Qed.

(** ** C03: equality is an equivalence relation *)

(** False as stated: NaN, host types without an implementation and stored
    queries are not equal to themselves; a boolean equals a float but not
    conversely, the same with times and integers and with NULL and a nil
    array; and large integers are not transitive through floats. *)
Theorem C03_refuted :
  (exists a, cond_op no_protos nomatch OpEq a a = false) /\
  (exists a b, cond_op no_protos nomatch OpEq a b = true /\
               cond_op no_protos nomatch OpEq b a = false) /\
  (exists a b c, cond_op no_protos nomatch OpEq a b = true /\
                 cond_op no_protos nomatch OpEq b c = true /\
                 cond_op no_protos nomatch OpEq a c = false).
Proof.
  split; [|split].
  - exists (VQuery []). reflexivity.
  - exists (VBool true), (VF64 (S754_finite false 6755399441055744 (-52))). (* 1.5 *)
    vm_compute. auto.
  - exists (vint 9007199254740993), (VF64 (f_of_Z 9007199254740992)), (vint 9007199254740992).
    vm_compute. auto.
Qed.

(** What does hold: over values built from NULL, strings, arrays, dicts and
    one numeric kind (either booleans and integers in int64 range, or floats
    that are not NaN). *)
Inductive num_mode := MInts | MFloats.

Fixpoint eq_dom (md : num_mode) (v : val) : Prop :=
  match v with
  | VNil | VNull | VStr _ => True
  | VBool _ => md = MInts
  | VInt k z => md = MInts /\ k <> KUint /\ is_int64 z
  | VF64 f => md = MFloats /\ f <> S754_nan
  | VArr l => (fix go l := match l with [] => True | x :: r => eq_dom md x /\ go r end) l
  | VDict d =>
      NoDup (keys d) /\
      (fix go d := match d with [] => True | (_, x) :: r => eq_dom md x /\ go r end) d
  | _ => False
  end.

Lemma eq_dom_arr : forall md l, eq_dom md (VArr l) <-> Forall (eq_dom md) l.
Proof.
  intros md l. simpl. induction l as [|x l IH].
  - split; constructor.
  - rewrite IH. split; intros H; [constructor; tauto|inversion H; tauto].
Qed.

Lemma eq_dom_dict : forall md d, eq_dom md (VDict d) <->
  NoDup (keys d) /\ Forall (fun kv => eq_dom md (snd kv)) d.
Proof.
  intros md d. simpl.
  assert (E : (fix go d := match d with [] => True | (_, x) :: r => eq_dom md x /\ go r end) d
              <-> Forall (fun kv => eq_dom md (snd kv)) d).
  { induction d as [|[k x] d IH].
    - split; constructor.
    - rewrite IH. split; intros H; [constructor; tauto|inversion H; tauto]. }
  tauto.
Qed.

Lemma eq_refl_dom : forall md a, eq_dom md a -> eq_disp [] a a = true.
Proof.
  intros md a. induction a as [| |b|k z|f|f|s|n| |l IH|d IH|l IH|n] using val_ind';
    intros H; try contradiction; try reflexivity.
  - destruct b; reflexivity.
  - simpl in H. rewrite eq_int by tauto. apply Z.eqb_refl.
  - simpl in H. cbn. apply f_eqb_refl. apply not_nan_b. tauto.
  - cbn. apply String.eqb_refl.
  - apply eq_dom_arr in H. rewrite (eq_arr _ _ _ l) by reflexivity.
    rewrite Nat.eqb_refl. apply all2b_spec; [reflexivity|].
    induction l as [|x l IHl]; [constructor|].
    inversion IH; inversion H; subst. constructor; auto.
  - apply eq_dom_dict in H as [ND H]. rewrite eq_dict, Nat.eqb_refl.
    apply dict_all_spec. intros k x Hin. exists x. split.
    + now apply in_assoc.
    + rewrite Forall_forall in IH, H. specialize (IH _ Hin). specialize (H _ Hin). auto.
Qed.

(** The pairs on which [eq] can be true within the domain. *)
Lemma eq_sym_dom : forall md a b, eq_dom md a -> eq_dom md b ->
  eq_disp [] a b = true -> eq_disp [] b a = true.
Proof.
  intros md a. induction a as [| |ba|k z|f|f|s|n| |l IH|d IH|l IH|n] using val_ind';
    intros b Ha Hb H; try contradiction.
  - destruct b; try discriminate; try contradiction; reflexivity.
  - destruct b; try discriminate; try contradiction; reflexivity.
  - destruct b as [| |bb|k' z'|g|g|t|n'| |l'|d'|l'|n']; try contradiction; try discriminate.
    + destruct ba, bb; auto.
    + simpl in Hb. destruct k'; try (exfalso; tauto);
        cbn in H |- *; rewrite Z.eqb_sym; exact H.
    + simpl in Ha, Hb. destruct Hb. congruence.
  - simpl in Ha. destruct Ha as (Hm & Hk & Hr).
    destruct b as [| |bb|k' z'|g|g|t|n'| |l'|d'|l'|n']; try contradiction;
      try (destruct k; discriminate).
    + destruct k; try congruence; cbn in H |- *; rewrite Z.eqb_sym; exact H.
    + simpl in Hb. rewrite eq_int in * by tauto. now rewrite Z.eqb_sym.
    + simpl in Hb. destruct Hb. congruence.
  - simpl in Ha. destruct Ha as (Hm & Hn).
    destruct b as [| |bb|k' z'|g|g|t|n'| |l'|d'|l'|n']; try contradiction; try discriminate.
    + simpl in Hb. congruence.
    + simpl in Hb. destruct Hb. congruence.
    + cbn in H |- *. fold (f_eqb g f). fold (f_eqb f g) in H. now rewrite f_eqb_sym.
  - destruct b as [| |bb|k' z'|g|g|t|n'| |l'|d'|l'|n']; try contradiction; try discriminate.
    cbn in H |- *. now rewrite String.eqb_sym.
  - destruct b as [| |bb|k' z'|g|g|t|n'| |l'|d'|l'|n']; try contradiction; try discriminate.
    apply eq_dom_arr in Ha, Hb.
    rewrite (eq_arr _ _ _ l') in H by reflexivity.
    rewrite (eq_arr _ _ _ l) by reflexivity.
    destruct (Nat.eqb_spec (List.length l) (List.length l')) as [L|L]; [|discriminate].
    rewrite <- L, Nat.eqb_refl.
    apply all2b_spec in H; [|exact L]. apply all2b_spec; [auto|].
    clear L. induction H as [|x y l l' Hxy H IHf]; [constructor|].
    inversion IH; inversion Ha; inversion Hb; subst. constructor; auto.
  - destruct b as [| |bb|k' z'|g|g|t|n'| |l'|d'|l'|n']; try contradiction; try discriminate.
    apply eq_dom_dict in Ha as [NDa Ha]. apply eq_dom_dict in Hb as [NDb Hb].
    rewrite eq_dict in *.
    destruct (Nat.eqb_spec (List.length d) (List.length d')) as [L|L]; [|discriminate].
    rewrite <- L, Nat.eqb_refl.
    pose proof (proj1 (dict_all_spec _ _ _ _) H) as H'. clear H.
    apply dict_all_spec. intros k y Hin.
    assert (Incl : incl (keys d) (keys d')).
    { intros k0 Hk0. apply assoc_keys in Hk0 as [x Hx]. apply assoc_in in Hx.
      destruct (H' _ _ Hx) as (y0 & Hy & _). apply assoc_keys. eauto. }
    assert (Incl' : incl (keys d') (keys d)).
    { apply NoDup_length_incl; [exact NDa| |exact Incl].
      unfold keys. rewrite !map_length. lia. }
    assert (Hk : In k (keys d)).
    { apply Incl'. unfold keys. change k with (fst (k, y)). now apply in_map. }
    apply assoc_keys in Hk as [x Hx]. exists x. split; [exact Hx|].
    pose proof (assoc_in _ _ _ _ Hx) as Hx'.
    destruct (H' _ _ Hx') as (y' & Hy' & E).
    pose proof (in_assoc _ _ _ _ NDb Hin) as Hy''.
    rewrite Hy' in Hy''. injection Hy'' as ->.
    rewrite Forall_forall in IH, Ha, Hb.
    apply (IH _ Hx'); [exact (Ha _ Hx')|exact (Hb _ Hin)|exact E].
Qed.

Lemma eq_trans_dom : forall md a b c, eq_dom md a -> eq_dom md b -> eq_dom md c ->
  eq_disp [] a b = true -> eq_disp [] b c = true -> eq_disp [] a c = true.
Proof.
  intros md a. induction a as [| |ba|k z|f|f|s|n| |l IH|d IH|l IH|n] using val_ind';
    intros b c Ha Hb Hc H1 H2; try contradiction.
  - destruct b; try discriminate; try contradiction; destruct c; try discriminate; reflexivity.
  - destruct b; try discriminate; try contradiction; destruct c; try discriminate; reflexivity.
  - assert (Hm : md = MInts) by exact Ha. subst md.
    assert (Ib : exists x, to_int64 b = Some x).
    { destruct b as [| |bb|k' z'|g|g|t|n'| |l'|d'|l'|n']; try contradiction; try discriminate; simpl; eauto.
      simpl in Hb. destruct k'; try (exfalso; tauto); simpl; eauto. }
    assert (E1 : forall u v x y, eq_dom MInts u -> eq_dom MInts v ->
               to_int64 u = Some x -> to_int64 v = Some y -> eq_disp [] u v = (x =? y)).
    { clear. intros u v x y Hu Hv Eu Ev.
      destruct u as [| |bu|ku zu|fu|fu| | | | | | |]; try discriminate;
        destruct v as [| |bv|kv zv|fv|fv| | | | | | |]; try discriminate;
        try (simpl in Hu; destruct Hu; congruence); try (simpl in Hv; destruct Hv; congruence).
      - simpl in *. injection Eu as <-. injection Ev as <-. destruct bu, bv; reflexivity.
      - destruct kv; try discriminate; simpl in Eu, Ev; injection Eu as <-; injection Ev as <-; reflexivity.
      - destruct ku; try discriminate; simpl in Eu, Ev; injection Eu as <-; injection Ev as <-; reflexivity.
      - rewrite eq_int.
        + destruct ku, kv; try discriminate; simpl in Eu, Ev; injection Eu as <-; injection Ev as <-; reflexivity.
        + intros ->. discriminate.
        + intros ->. discriminate. }
    assert (Ic : exists y, to_int64 c = Some y).
    { destruct b as [| |bb|k' z'|g|g|t|n'| |l'|d'|l'|n']; try contradiction; try discriminate;
      destruct c as [| |bc|k'' z''|g'|g'|t'|n''| |l''|d''|l''|n'']; try contradiction; try discriminate; simpl; eauto;
      try (simpl in Hc; destruct k''; try (exfalso; tauto); simpl; eauto; fail);
      try (destruct k'; discriminate). }
    destruct Ib as [x Eb]. destruct Ic as [y Ec].
    rewrite (E1 _ _ _ _ Ha Hb eq_refl Eb) in H1.
    rewrite (E1 _ _ _ _ Hb Hc Eb Ec) in H2.
    rewrite (E1 _ _ _ _ Ha Hc eq_refl Ec).
    apply Z.eqb_eq in H1, H2. apply Z.eqb_eq. congruence.
  - simpl in Ha. destruct Ha as (Hm & Hk & Hr). subst md.
    assert (Ib : exists x, to_int64 b = Some x).
    { destruct b as [| |bb|k' z'|g|g|t|n'| |l'|d'|l'|n']; try contradiction; simpl; eauto;
        try (destruct k; discriminate).
      simpl in Hb. destruct k'; try (exfalso; tauto); simpl; eauto. }
    assert (E1 : forall u v x y, eq_dom MInts u -> eq_dom MInts v ->
               to_int64 u = Some x -> to_int64 v = Some y -> eq_disp [] u v = (x =? y)).
    { clear. intros u v x y Hu Hv Eu Ev.
      destruct u as [| |bu|ku zu|fu|fu| | | | | | |]; try discriminate;
        destruct v as [| |bv|kv zv|fv|fv| | | | | | |]; try discriminate;
        try (simpl in Hu; destruct Hu; congruence); try (simpl in Hv; destruct Hv; congruence).
      - simpl in *. injection Eu as <-. injection Ev as <-. destruct bu, bv; reflexivity.
      - destruct kv; try discriminate; simpl in Eu, Ev; injection Eu as <-; injection Ev as <-; reflexivity.
      - destruct ku; try discriminate; simpl in Eu, Ev; injection Eu as <-; injection Ev as <-; reflexivity.
      - rewrite eq_int.
        + destruct ku, kv; try discriminate; simpl in Eu, Ev; injection Eu as <-; injection Ev as <-; reflexivity.
        + intros ->. discriminate.
        + intros ->. discriminate. }
    assert (Ic : exists y, to_int64 c = Some y).
    { destruct b as [| |bb|k' z'|g|g|t|n'| |l'|d'|l'|n']; try contradiction; try discriminate;
      destruct c as [| |bc|k'' z''|g'|g'|t'|n''| |l''|d''|l''|n'']; try contradiction; try discriminate; simpl; eauto;
      try (simpl in Hc; destruct k''; try (exfalso; tauto); simpl; eauto; fail);
      try (destruct k'; discriminate). }
    destruct Ib as [x Eb]. destruct Ic as [y Ec].
    assert (Ea : to_int64 (VInt k z) = Some (wrap64 z)) by (destruct k; congruence || reflexivity).
    assert (Ha : eq_dom MInts (VInt k z)) by (simpl; tauto).
    rewrite (E1 _ _ _ _ Ha Hb Ea Eb) in H1.
    rewrite (E1 _ _ _ _ Hb Hc Eb Ec) in H2.
    rewrite (E1 _ _ _ _ Ha Hc Ea Ec).
    apply Z.eqb_eq in H1, H2. apply Z.eqb_eq. congruence.
  - simpl in Ha. destruct Ha as (Hm & Hn). subst md.
    destruct b as [| |bb|k' z'|g|g|t|n'| |l'|d'|l'|n']; try contradiction; try discriminate.
    + simpl in Hb. destruct Hb. discriminate.
    + destruct c as [| |bc|k'' z''|h|h|t'|n''| |l''|d''|l''|n'']; try contradiction; try discriminate.
      * simpl in Hc. destruct Hc; discriminate.
      * cbn in H1, H2 |- *. eapply f_eqb_trans; eassumption.
  - destruct b as [| |bb|k' z'|g|g|t|n'| |l'|d'|l'|n']; try contradiction; try discriminate.
    destruct c as [| |bc|k'' z''|h|h|t'|n''| |l''|d''|l''|n'']; try contradiction; try discriminate.
    cbn in *. apply String.eqb_eq in H1, H2. apply String.eqb_eq. congruence.
  - destruct b as [| |bb|k' z'|g|g|t|n'| |l'|d'|l'|n']; try contradiction; try discriminate.
    destruct c as [| |bc|k'' z''|h|h|t'|n''| |l''|d''|l''|n'']; try contradiction; try discriminate.
    apply eq_dom_arr in Ha, Hb, Hc.
    rewrite (eq_arr _ _ _ l') in H1 by reflexivity.
    rewrite (eq_arr _ _ _ l'') in H2 by reflexivity.
    rewrite (eq_arr _ _ _ l'') by reflexivity.
    destruct (Nat.eqb_spec (List.length l) (List.length l')) as [L|L]; [|discriminate].
    destruct (Nat.eqb_spec (List.length l') (List.length l'')) as [L'|L']; [|discriminate].
    rewrite L, L', Nat.eqb_refl.
    apply all2b_spec in H1; [|exact L]. apply all2b_spec in H2; [|exact L'].
    apply all2b_spec; [congruence|]. clear L L'.
    revert l'' H2 Hc. induction H1 as [|x y l l' Hxy H IHf]; intros l'' H2 Hc.
    + inversion H2. constructor.
    + inversion H2; inversion IH; inversion Ha; inversion Hb; subst. inversion Hc; subst.
      constructor; eauto.
  - destruct b as [| |bb|k' z'|g|g|t|n'| |l'|d'|l'|n']; try contradiction; try discriminate.
    destruct c as [| |bc|k'' z''|h|h|t'|n''| |l''|d''|l''|n'']; try contradiction; try discriminate.
    apply eq_dom_dict in Ha as [NDa Ha]. apply eq_dom_dict in Hb as [NDb Hb].
    apply eq_dom_dict in Hc as [NDc Hc].
    rewrite eq_dict in *.
    destruct (Nat.eqb_spec (List.length d) (List.length d')) as [L|L]; [|discriminate].
    destruct (Nat.eqb_spec (List.length d') (List.length d'')) as [L'|L']; [|discriminate].
    rewrite L, L', Nat.eqb_refl.
    pose proof (proj1 (dict_all_spec _ _ _ _) H1) as H1'.
    pose proof (proj1 (dict_all_spec _ _ _ _) H2) as H2'.
    apply dict_all_spec. intros k x Hin.
    destruct (H1' _ _ Hin) as (y & Hy & E1). apply assoc_in in Hy.
    destruct (H2' _ _ Hy) as (w & Hw & E2). exists w. split; [exact Hw|].
    apply assoc_in in Hw. rewrite Forall_forall in *.
    eapply (IH _ Hin); [exact (Ha _ Hin)|exact (Hb _ Hy)|exact (Hc _ Hw)|exact E1|exact E2].
Qed.

Theorem C03_equivalence_partial : forall P m md, p_eq P = [] ->
  (forall a, eq_dom md a -> cond_op P m OpEq a a = true) /\
  (forall a b, eq_dom md a -> eq_dom md b ->
     cond_op P m OpEq a b = cond_op P m OpEq b a) /\
  (forall a b c, eq_dom md a -> eq_dom md b -> eq_dom md c ->
     cond_op P m OpEq a b = true -> cond_op P m OpEq b c = true ->
     cond_op P m OpEq a c = true).
Proof.
  intros P m md E. cbn [cond_op]. rewrite E. split; [|split].
  - apply eq_refl_dom.
  - intros a b Ha Hb.
    destruct (eq_disp [] a b) eqn:A; destruct (eq_disp [] b a) eqn:B; try reflexivity.
    + apply (eq_sym_dom md) in A; [congruence|assumption|assumption].
    + apply (eq_sym_dom md) in B; [congruence|assumption|assumption].
  - intros a b c. apply eq_trans_dom.
Qed.

Example C03_example :
  let d := VDict [("a"%string, vint 1); ("b"%string, VArr [VStr "x"; VNull])] in
  let d' := VDict [("b"%string, VArr [VStr "x"; VNil]); ("a"%string, VBool true)] in
  eq_dom MInts d /\ eq_dom MInts d' /\ cond_op no_protos nomatch OpEq d d' = true.
Proof.
  split; [|split]; [| |reflexivity]; simpl;
    repeat split; try congruence; try (unfold two63; lia);
    repeat (constructor; simpl; try intuition congruence).
Qed.

(** ** C04: NULL behaves as an absorbing, incomparable value *)

Theorem C04_null_operators : forall P m a,
  bool_disp (p_bool P) VNull = false /\
  cond_op P m OpLt VNull a = false /\ cond_op P m OpLt a VNull = false /\
  cond_op P m OpGt VNull a = false /\ cond_op P m OpGt a VNull = false /\
  add_disp (p_add P) VNull a = VNull /\
  sub_disp (p_sub P) VNull a = VNull /\ sub_disp (p_sub P) a VNull = VNull /\
  mul_disp (p_mul P) VNull a = Ok VNull /\ mul_disp (p_mul P) a VNull = Ok VNull /\
  div_disp (p_div P) VNull a = VNull /\ div_disp (p_div P) a VNull = VNull.
Proof.
  intros. cbn [cond_op].
  repeat split; destruct a as [| | |[]| | | | | | | | |]; reflexivity.
Qed.

(** NULL equals exactly the nil-like values: NULL itself and a nil array. *)
Theorem C04_null_equality_partial : forall P m a,
  cond_op P m OpEq VNull a = true <-> a = VNull \/ a = VNil \/ a = VNilArr.
Proof.
  intros. simpl. destruct a; simpl; split; intros H;
    try discriminate; auto; intuition discriminate.
Qed.

(** "Equal only to NULL" is false: the nil array a subselect without rows
    evaluates to (vfilter.go:884-895) is an array, and NULL equals it. *)
Theorem C04_null_equality_refuted : exists a,
  cond_op no_protos nomatch OpEq VNull a = true /\ is_array a = true /\
  cond_op no_protos nomatch OpEq a VNull = false.
Proof. exists VNilArr. vm_compute. auto. Qed.

(** ** C05: integer arithmetic is exact modulo 2^64 *)

Definition is_go_int (v : val) : Prop :=
  match v with VInt k z => k <> KUint | _ => False end.
(** The mathematical integer a Go integer stands for. *)
Definition int_of (v : val) : Z := match v with VInt _ z => z | _ => 0 end.

Lemma go_int_inv : forall v, is_go_int v -> exists k z, v = VInt k z /\ k <> KUint.
Proof. intros []; simpl; try contradiction; eauto. Qed.

(** [v] is the int64 congruent to [z] modulo 2^64. *)
Definition is_int64_of (v : val) (z : Z) : Prop :=
  exists r, v = VInt KInt64 r /\ is_int64 r /\ exists k, r = z + k * two64.

Lemma is_int64_of_wrap : forall z, is_int64_of (vint (wrap64 z)) z.
Proof.
  intros. exists (wrap64 z). split; [reflexivity|]. split.
  - apply wrap64_range.
  - apply wrap64_eq_mod.
Qed.

Lemma add_int : forall I k x k' y, k <> KUint -> k' <> KUint ->
  add_disp I (VInt k x) (VInt k' y) = vint (wrap64 (x + y)).
Proof.
  intros I k x k' y H H'. rewrite <- wrap64_add.
  destruct k, k'; try congruence; reflexivity.
Qed.
Lemma sub_int : forall I k x k' y, k <> KUint -> k' <> KUint ->
  sub_disp I (VInt k x) (VInt k' y) = vint (wrap64 (x - y)).
Proof.
  intros I k x k' y H H'. rewrite <- wrap64_sub.
  destruct k, k'; try congruence; reflexivity.
Qed.
Lemma mul_int : forall I k x k' y, k <> KUint -> k' <> KUint ->
  mul_disp I (VInt k x) (VInt k' y) = Ok (vint (wrap64 (x * y))).
Proof.
  intros I k x k' y H H'. rewrite <- wrap64_mul.
  destruct k, k'; try congruence; reflexivity.
Qed.

Theorem C05_int_arithmetic : forall P a b, is_go_int a -> is_go_int b ->
  is_int64_of (add_disp (p_add P) a b) (int_of a + int_of b) /\
  is_int64_of (sub_disp (p_sub P) a b) (int_of a - int_of b) /\
  (exists r, mul_disp (p_mul P) a b = Ok r /\ is_int64_of r (int_of a * int_of b)) /\
  ((exists f, div_disp (p_div P) a b = VF64 f) \/ div_disp (p_div P) a b = VNull).
Proof.
  intros P a b Ha Hb.
  apply go_int_inv in Ha as (k & x & -> & Hk). apply go_int_inv in Hb as (k' & y & -> & Hk').
  simpl int_of. repeat split.
  - rewrite add_int by assumption. apply is_int64_of_wrap.
  - rewrite sub_int by assumption. apply is_int64_of_wrap.
  - exists (vint (wrap64 (x * y))). split; [now apply mul_int|apply is_int64_of_wrap].
  - assert (E : div_disp (p_div P) (VInt k x) (VInt k' y) =
                if f_is_zero (f_of_Z y) then VNull else VF64 (f_div (f_of_Z x) (f_of_Z y)))
      by (destruct k, k'; try congruence; reflexivity).
    rewrite E. destruct (f_is_zero (f_of_Z y)); eauto.
Qed.

Theorem C05_add_sub_cancel : forall P x y k, is_int64 x -> k <> KUint ->
  sub_disp (p_sub P) (add_disp (p_add P) (vint x) (VInt k y)) (VInt k y) = vint x /\
  add_disp (p_add P) (sub_disp (p_sub P) (vint x) (VInt k y)) (VInt k y) = vint x.
Proof.
  intros P x y k Hx Hk.
  pose proof (add_int (p_add P) KInt64 x k y ltac:(discriminate) Hk) as A1.
  pose proof (sub_int (p_sub P) KInt64 x k y ltac:(discriminate) Hk) as A2.
  pose proof (sub_int (p_sub P) KInt64 (wrap64 (x + y)) k y ltac:(discriminate) Hk) as A3.
  pose proof (add_int (p_add P) KInt64 (wrap64 (x - y)) k y ltac:(discriminate) Hk) as A4.
  fold (vint x) in A1, A2. fold (vint (wrap64 (x + y))) in A3. fold (vint (wrap64 (x - y))) in A4.
  rewrite A1, A2, A3, A4.
  replace (wrap64 (x + y) - y) with (wrap64 (x + y) + - y) by lia.
  rewrite !wrap64_add_l.
  replace (x + y + - y) with x by lia. replace (x - y + y) with x by lia.
  rewrite wrap64_id by assumption. auto.
Qed.

(** A chain [x0 + x1 - x2 ...] of integer operands, evaluated by
    _AdditionExpression.Reduce, is the int64 congruent to the signed sum, so
    its terms may be reordered. *)
Definition chain_sum (terms : list (string * val)) : Z :=
  fold_right (fun t acc => (if String.eqb (fst t) "-" then - int_of (snd t) else int_of (snd t)) + acc)
             0 terms.

Definition lift2 {S} (f : val -> val -> val) : val -> val -> M S val :=
  fun a b => mret (f a b).

Definition chain_value (P : protos) (x0 : val) (terms : list (string * val)) : res val :=
  snd (add_reduce (S := unit) (lift2 (add_disp (p_add P))) (lift2 (sub_disp (p_sub P)))
         (mret x0) (map (fun t => (fst t, mret (snd t))) terms) tt).

Definition int_chain (terms : list (string * val)) : Prop :=
  Forall (fun t => (fst t = "+" \/ fst t = "-")%string /\ is_go_int (snd t)) terms.

Definition term_step (P : protos) (op : string) (r v : val) : val :=
  if String.eqb op "-" then sub_disp (p_sub P) r v else add_disp (p_add P) r v.

Lemma add_loop_step : forall P op v terms r, (op = "+" \/ op = "-")%string ->
  add_loop (S := unit) (lift2 (add_disp (p_add P))) (lift2 (sub_disp (p_sub P)))
     r (map (fun t => (fst t, mret (snd t))) ((op, v) :: terms)) tt =
  add_loop (S := unit) (lift2 (add_disp (p_add P))) (lift2 (sub_disp (p_sub P)))
     (term_step P op r v) (map (fun t => (fst t, mret (snd t))) terms) tt.
Proof. intros P op v terms r [-> | ->]; reflexivity. Qed.

Lemma term_step_int : forall P op k x k' y, k <> KUint -> k' <> KUint ->
  term_step P op (VInt k x) (VInt k' y) =
  vint (wrap64 (x + (if String.eqb op "-" then - y else y))).
Proof.
  intros. unfold term_step. destruct (String.eqb op "-").
  - rewrite sub_int by assumption. reflexivity.
  - now rewrite add_int by assumption.
Qed.

Lemma add_loop_chain : forall P terms r, int_chain terms ->
  add_loop (S := unit) (lift2 (add_disp (p_add P))) (lift2 (sub_disp (p_sub P)))
     (vint (wrap64 r)) (map (fun t => (fst t, mret (snd t))) terms) tt
  = (tt, RVal (vint (wrap64 (r + chain_sum terms)))).
Proof.
  intros P terms. induction terms as [|[op v] terms IH]; intros r H.
  - simpl. unfold mret. do 4 f_equal. lia.
  - inversion H as [|? ? [Hop Hv] Hr]; subst. simpl in Hop, Hv.
    apply go_int_inv in Hv as (k & z & -> & Hk).
    rewrite add_loop_step by exact Hop. unfold vint at 1.
    rewrite term_step_int by congruence. rewrite wrap64_add_l, IH by assumption.
    do 4 f_equal. unfold chain_sum. cbn [fold_right fst snd int_of]. lia.
Qed.

Theorem C05_chain_is_sum : forall P x0 terms,
  is_go_int x0 -> int_chain terms -> terms <> [] ->
  exists v, chain_value P x0 terms = RVal v /\ is_int64_of v (int_of x0 + chain_sum terms).
Proof.
  intros P x0 terms H0 H NE. destruct terms as [|[op v] terms]; [congruence|].
  inversion H as [|? ? [Hop Hv] Hr]; subst. simpl in Hop, Hv.
  apply go_int_inv in Hv as (k & z & -> & Hk).
  apply go_int_inv in H0 as (k0 & z0 & -> & Hk0).
  unfold chain_value, add_reduce. unfold mbind at 1. cbn [mret].
  rewrite add_loop_step by exact Hop. rewrite term_step_int by assumption.
  rewrite add_loop_chain by assumption. cbn [snd]. eexists. split; [reflexivity|].
  unfold chain_sum at 2. cbn [fold_right fst snd int_of]. fold (chain_sum terms).
  rewrite Z.add_assoc. apply is_int64_of_wrap.
Qed.

Theorem C05_chain_reorder : forall P x0 terms terms',
  is_go_int x0 -> int_chain terms -> Permutation terms terms' ->
  chain_value P x0 terms = chain_value P x0 terms'.
Proof.
  intros P x0 terms terms' H0 H Perm.
  destruct terms as [|t terms].
  - apply Permutation_nil in Perm. now subst.
  - assert (H' : int_chain terms').
    { unfold int_chain in *. rewrite Forall_forall in *. intros y Hy. apply H.
      eapply Permutation_in; [symmetry; exact Perm|exact Hy]. }
    assert (NE' : terms' <> []).
    { intros ->. symmetry in Perm. now apply Permutation_nil in Perm. }
    destruct (C05_chain_is_sum P x0 (t :: terms) H0 H) as (v & -> & r & -> & R & k & E); [discriminate|].
    destruct (C05_chain_is_sum P x0 terms' H0 H' NE') as (v' & -> & r' & -> & R' & k' & E').
    assert (S : chain_sum (t :: terms) = chain_sum terms').
    { clear - Perm. induction Perm as [|x l l' Hp IH|x y l|l l' l'' H1 IH1 H2 IH2];
        unfold chain_sum in *; simpl in *; lia. }
    rewrite <- S in E'. do 2 f_equal.
    apply (wrap64_unique r r' (k - k') R R'). lia.
Qed.

Example C05_example :
  chain_value no_protos (vint (two63 - 1)) [("+"%string, vint 1); ("-"%string, VInt KUint8 1)]
    = RVal (vint (two63 - 1)) /\
  int_chain [("+"%string, vint 1); ("-"%string, VInt KUint8 1)] /\
  add_disp [] (vint (two63 - 1)) (vint 1) = vint (- two63).
Proof.
  split; [reflexivity|]. split; [|reflexivity].
  repeat constructor; simpl; auto; discriminate.
Qed.

(** ** C06: division by zero yields NULL, and only division by zero does *)

Definition numeric (v : val) : Prop :=
  match v with VBool _ | VF64 _ => True | VInt k _ => True | _ => False end.
Definition num_is_zero (v : val) : Prop :=
  match v with
  | VBool b => b = false
  | VInt _ z => z = 0
  | VF64 f => exists s, f = S754_zero s
  | _ => False
  end.

(** False as stated when an integer is divided by a float. *)
Theorem C06_refuted :
  (exists a b, numeric a /\ num_is_zero b /\ div_disp [] a b <> VNull) /\
  (exists a b, numeric a /\ numeric b /\ ~ num_is_zero b /\ div_disp [] a b = VNull).
Proof.
  split.
  - exists (vint 1), (VF64 (S754_zero false)). vm_compute. repeat split; eauto. discriminate.
  - exists (vint 0), (VF64 (f_of_Z 2)). repeat split.
    intros [s H]. vm_compute in H. discriminate.
Qed.

Lemma to_float_zero : forall b, numeric b ->
  exists g, to_float b = Some g /\ (f_is_zero g = true <-> num_is_zero b).
Proof.
  intros b Hb. destruct b as [| |bb|k z|f| | | | | | | |]; try contradiction; simpl.
  - eexists. split; [reflexivity|]. destruct bb; vm_compute; split; congruence.
  - exists (f_of_Z z). split; [reflexivity|]. rewrite f_of_Z_zero_iff, Z.eqb_eq. tauto.
  - exists f. split; [reflexivity|]. unfold f_is_zero, f_eqb, SFeqb.
    destruct f as [s|[]| |[]]; simpl; split; intros H; try discriminate; eauto;
      destruct H; discriminate.
Qed.

Theorem C06_division_partial : forall P a b, numeric a -> numeric b ->
  (exists f, a = VF64 f) \/ ~ (exists g, b = VF64 g) ->
  exists f g, to_float a = Some f /\ to_float b = Some g /\
    (num_is_zero b -> div_disp (p_div P) a b = VNull) /\
    (~ num_is_zero b -> div_disp (p_div P) a b = VF64 (f_div f g)).
Proof.
  intros P a b Ha Hb H.
  destruct (to_float_zero a Ha) as (f & Ef & _).
  destruct (to_float_zero b Hb) as (g & Eg & Z).
  exists f, g. split; [exact Ef|]. split; [exact Eg|].
  assert (D : div_disp (p_div P) a b = if f_is_zero g then VNull else VF64 (f_div f g)).
  { unfold div_disp, div_switch.
    destruct a as [| |ba|ka za|fa| | | | | | | |]; try contradiction; simpl in Ef.
    - destruct b as [| |bb|k z|fb| | | | | | | |]; try contradiction.
      + rewrite Eg. injection Ef as <-. reflexivity.
      + rewrite Eg. injection Ef as <-. reflexivity.
      + exfalso. destruct H as [[? H]|H]; [discriminate|]. eauto.
    - destruct b as [| |bb|k z|fb| | | | | | | |]; try contradiction.
      + rewrite Eg. injection Ef as <-. reflexivity.
      + rewrite Eg. injection Ef as <-. reflexivity.
      + exfalso. destruct H as [[? H]|H]; [discriminate|]. eauto.
    - rewrite Eg. injection Ef as <-. reflexivity. }
  rewrite D. split; intros Hz.
  - apply Z in Hz. now rewrite Hz.
  - destruct (f_is_zero g); [|reflexivity]. exfalso. apply Hz, Z. reflexivity.
Qed.

Example C06_example : div_disp [] (vint 1) (vint 0) = VNull /\
  div_disp [] (vint 7) (vint 2) = VF64 (f_div (f_of_Z 7) (f_of_Z 2)).
Proof. split; reflexivity. Qed.

(** ** C07: string building operators are memory bounded and never panic *)

(** False as stated: some counts make the process panic. *)
Theorem C07_refuted :
  (exists s n, mul_disp [] (VStr s) (vint n) = Panic) /\
  (exists s n, is_int64 n /\ 0 < n /\ 0 < slen s /\ mul_disp [] (VStr s) (vint n) = Panic).
Proof.
  split.
  - exists EmptyString, (-1). reflexivity.
  - exists "abcd"%string, 4611686018427387904. unfold is_int64, two63, slen. simpl.
    repeat split; lia.
Qed.

Theorem C07_add_bounded : forall P s t,
  (slen s + slen t <= mem_limit /\
     add_disp (p_add P) (VStr s) (VStr t) = VStr (s ++ t)) \/
  (slen s + slen t > mem_limit /\ add_disp (p_add P) (VStr s) (VStr t) = VNull).
Proof.
  intros. cbn. destruct (Z.ltb_spec mem_limit (slen s + slen t)).
  - right. split; [lia|reflexivity].
  - left. split; [lia|reflexivity].
Qed.

(** Whatever the operands, a string result is the n-fold repetition and is
    at most 100,000,000 bytes long; and a non negative count whose product
    with the length fits in 64 bits never panics. *)
Theorem C07_mul_bounded_partial : forall P s k n, k <> KUint -> is_int64 n ->
  (forall r, mul_disp (p_mul P) (VStr s) (VInt k n) = Ok r ->
     r = VNull \/
     (0 <= n /\ slen s * n <= mem_limit /\ r = VStr (str_repeat (Z.to_nat n) s))) /\
  (0 <= n -> slen s * n < two64 ->
     mul_disp (p_mul P) (VStr s) (VInt k n) <> Panic) /\
  (0 <= n -> slen s * n <= mem_limit ->
     mul_disp (p_mul P) (VStr s) (VInt k n) = Ok (VStr (str_repeat (Z.to_nat n) s))).
Proof.
  intros P s k n Hk Hn.
  assert (E : mul_disp (p_mul P) (VStr s) (VInt k n) = mul_str s n).
  { rewrite <- (wrap64_id n Hn) at 2. destruct k; try congruence; reflexivity. }
  rewrite E. unfold mul_str, go_repeat, wrapu64.
  pose proof (slen_nonneg s) as SL.
  assert (W : ((slen s mod two64) * (n mod two64)) mod two64 = (slen s * n) mod two64)
    by (symmetry; apply Z.mul_mod; discriminate).
  rewrite W.
  split; [|split].
  - intros r H. destruct (Z.ltb_spec mem_limit ((slen s * n) mod two64)).
    + injection H as <-. auto.
    + destruct (Z.ltb_spec n 0); [discriminate|].
      destruct (Z.leb_spec two63 (slen s * n)); [discriminate|].
      simpl in H. injection H as <-. right.
      rewrite Z.mod_small in H0 by (unfold two63, two64 in *; nia). auto.
  - intros H0 H1. destruct (Z.ltb_spec mem_limit ((slen s * n) mod two64)); [discriminate|].
    destruct (Z.ltb_spec n 0); [lia|].
    rewrite Z.mod_small in H by nia.
    destruct (Z.leb_spec two63 (slen s * n)); [|discriminate].
    unfold mem_limit, two63 in *. lia.
  - intros H0 H1. rewrite Z.mod_small by (unfold mem_limit, two64 in *; nia).
    destruct (Z.ltb_spec mem_limit (slen s * n)); [lia|].
    destruct (Z.ltb_spec n 0); [lia|].
    destruct (Z.leb_spec two63 (slen s * n)); [unfold mem_limit, two63 in *; lia|].
    reflexivity.
Qed.

(** Exactly which counts panic. *)
Theorem C07_mul_panics_iff : forall P s k n, k <> KUint -> is_int64 n ->
  (mul_disp (p_mul P) (VStr s) (VInt k n) = Panic <->
   (slen s * n) mod two64 <= mem_limit /\ (n < 0 \/ two63 <= slen s * n)).
Proof.
  intros P s k n Hk Hn.
  assert (E : mul_disp (p_mul P) (VStr s) (VInt k n) = mul_str s n).
  { rewrite <- (wrap64_id n Hn) at 2. destruct k; try congruence; reflexivity. }
  rewrite E. unfold mul_str, go_repeat, wrapu64.
  assert (W : ((slen s mod two64) * (n mod two64)) mod two64 = (slen s * n) mod two64)
    by (symmetry; apply Z.mul_mod; discriminate).
  rewrite W.
  destruct (Z.ltb_spec mem_limit ((slen s * n) mod two64)).
  - split; [discriminate|lia].
  - destruct (Z.ltb_spec n 0); [simpl; split; auto|].
    destruct (Z.leb_spec two63 (slen s * n)); simpl; split; auto; try discriminate; lia.
Qed.

Example C07_example : mul_disp [] (VStr "ab") (vint 3) = Ok (VStr "ababab") /\
  mul_disp [] (VStr "x") (vint (-1)) = Ok VNull.
Proof. split; reflexivity. Qed.

(** ** C08: truthiness *)

(** The truth table of the property. *)
Inductive truthy : val -> Prop :=
| t_true : truthy (VBool true)
| t_int : forall k z, 0 < z -> truthy (VInt k z)
| t_f64 : forall f, f_ltb fzero f = true -> truthy (VF64 f)
| t_f32 : forall f, f_ltb fzero f = true -> truthy (VF32 f)
| t_str : forall c s, truthy (VStr (String c s))
| t_arr : forall x l, truthy (VArr (x :: l))
| t_dict : forall x d, truthy (VDict (x :: d))
| t_query : forall r rows, truthy (VQuery (r :: rows)).

(** False as stated for two host number types. *)
Theorem C08_refuted :
  (exists z, 0 < z /\ bool_disp (p_bool no_protos) (VInt KUint z) = false) /\
  (exists f, f_ltb fzero f = true /\ bool_disp (p_bool no_protos) (VF32 f) = false).
Proof.
  split.
  - exists 5. vm_compute. auto.
  - exists (f_of_Z 1). vm_compute. auto.
Qed.

Theorem C08_truthiness_partial : forall v,
  (forall z, v <> VInt KUint z) -> (forall f, v <> VF32 f) ->
  (bool_disp (p_bool no_protos) v = true <-> truthy v).
Proof.
  intros v H1 H2.
  destruct v as [| |b|k z|f|f|s|n| |l|d|rows|n]; simpl;
    try (split; [discriminate|intros H; inversion H]; fail).
  - destruct b; split; intros H; try discriminate; try constructor; inversion H.
  - destruct k; try (exfalso; eapply H1; reflexivity);
      (split; [intros H; constructor; now apply Z.ltb_lt
              |intros H; inversion H; subst; now apply Z.ltb_lt]).
  - split; intros H; [now constructor|now inversion H].
  - exfalso. eapply H2. reflexivity.
  - destruct s as [|c s].
    + split; [discriminate|intros H; inversion H].
    + split; [intros _; constructor|reflexivity].
  - destruct l; simpl; split; intros H; try discriminate; try constructor; inversion H.
  - destruct d; simpl; split; intros H; try discriminate; try constructor; inversion H.
  - unfold orelse. destruct rows; simpl; split; intros H; try discriminate; try constructor; inversion H.
Qed.

Example C08_example : truthy (VStr "x") /\ ~ truthy (VInt KInt 0) /\
  bool_disp (p_bool no_protos) (VQuery [VNull]) = true.
Proof. split; [constructor|]. split; [intros H; inversion H; lia|reflexivity]. Qed.

(** ** C09: AND/OR/NOT short circuit *)

(** [S] is any state with effects; [scan stop s ops s' unrun b w]
    (OpsProofs.v) says: starting in [s], the operands [ops] are evaluated one
    by one, each once and tested once, until one has truth value [stop]; the
    operands [unrun] are not evaluated; [b] is the truth value of the last
    evaluated operand and [w] its value. *)
Theorem C09_and : forall S (truth : val -> M S bool) left rights s s' v,
  rights <> [] ->
  and_reduce truth left rights s = (s', RVal v) ->
  exists unrun b w, scan truth false s (left :: map snd rights) s' unrun b w /\
    (b = false -> v = VBool false) /\
    (b = true -> unrun = [] /\ (v = VBool true \/ v = w)).
Proof.
  intros S truth left rights s s' v NE H.
  apply and_reduce_scan in H as (unrun & b & w & HS & Hf & Ht); [|exact NE].
  exists unrun, b, w. split; [exact HS|]. split; [exact Hf|].
  intros ->. split; [|auto]. clear - HS.
  remember true as b eqn:B. remember false as st eqn:St. revert B.
  induction HS; intros B; subst; auto; discriminate.
Qed.

Theorem C09_or : forall S (truth : val -> M S bool) left rights s s' v,
  rights <> [] ->
  or_reduce truth left rights s = (s', RVal v) ->
  exists unrun b w, scan truth true s (left :: map snd rights) s' unrun b w /\
    (b = false -> unrun = [] /\ v = w) /\
    (b = true -> v = VBool true \/ v = w).
Proof.
  intros S truth left rights s s' v NE H.
  apply or_reduce_scan in H as (unrun & b & w & HS & Hf & Ht); [|exact NE].
  exists unrun, b, w. split; [exact HS|]. split; [|exact Ht].
  intros ->. split; [|auto]. clear - HS.
  remember false as b eqn:B. remember true as st eqn:St. revert B.
  induction HS; intros B; subst; auto; discriminate.
Qed.

Theorem C09_not : forall S (truth : val -> M S bool) term s s' v,
  not_reduce truth term s = (s', RVal v) <->
  exists w b, runs_to truth term s w b s' /\ v = VBool (negb b).
Proof.
  intros. unfold not_reduce, runs_to. rewrite mbind_val. split.
  - intros (s1 & w & H1 & H). apply mbind_val in H as (s2 & b & H2 & H).
    injection H as <- <-. exists w, b. split; eauto.
  - intros (w & b & (s1 & H1 & H2) & ->). exists s1, w. split; [exact H1|].
    apply mbind_val. exists s', b. auto.
Qed.

(** With pure operands: AND is truthy iff all operands are, OR iff one is. *)
Definition pure_truth (P : protos) : val -> M unit bool := fun v => mret (bool_disp (p_bool P) v).
Definition pure_ops (l : list (string * val)) : list (string * M unit val) :=
  map (fun t => (fst t, mret (snd t))) l.

Lemma and_loop_pure : forall P rights last,
  exists v, and_loop (pure_truth P) last (pure_ops rights) tt = (tt, RVal v) /\
    (bool_disp (p_bool P) last = true ->
     bool_disp (p_bool P) v = forallb (fun t => bool_disp (p_bool P) (snd t)) rights).
Proof.
  intros P rights. induction rights as [|[op x] rights IH]; intros last.
  - exists last. split; [reflexivity|]. auto.
  - simpl. unfold pure_truth, mbind, mret. simpl.
    destruct (bool_disp (p_bool P) x) eqn:E; simpl.
    + destruct (IH (if String.eqb op "&&" then x else VBool true)) as (v & Hv & Hb).
      exists v. split; [exact Hv|]. intros _. apply Hb.
      destruct (String.eqb op "&&"); [exact E|reflexivity].
    + exists (VBool false). split; reflexivity.
Qed.

Theorem C09_and_value : forall P x rights,
  exists v, and_reduce (pure_truth P) (mret x) (pure_ops rights) tt = (tt, RVal v) /\
    bool_disp (p_bool P) v =
    forallb (bool_disp (p_bool P)) (x :: map snd rights).
Proof.
  intros P x rights. unfold and_reduce.
  assert (FB : forall l : list (string * val),
    forallb (fun t => bool_disp (p_bool P) (snd t)) l = forallb (bool_disp (p_bool P)) (map snd l)).
  { induction l as [|t l IH]; [reflexivity|]. simpl. now rewrite IH. }
  destruct rights as [|r rights].
  - exists x. split; [reflexivity|]. simpl. now rewrite andb_true_r.
  - destruct (bool_disp (p_bool P) x) eqn:E.
    + destruct (and_loop_pure P (r :: rights) x) as (v & Hv & Hb). exists v. split.
      * unfold mbind, mret, pure_truth. simpl pure_ops. cbv beta iota. rewrite E. exact Hv.
      * rewrite Hb by exact E. rewrite FB. simpl. now rewrite E.
    + exists (VBool false). split.
      * unfold mbind, mret, pure_truth. simpl pure_ops. cbv beta iota. rewrite E. reflexivity.
      * simpl. now rewrite E.
Qed.

Lemma or_loop_pure : forall P rights last,
  exists v, or_loop (pure_truth P) last (pure_ops rights) tt = (tt, RVal v) /\
    (bool_disp (p_bool P) last = false ->
     bool_disp (p_bool P) v = existsb (fun t => bool_disp (p_bool P) (snd t)) rights).
Proof.
  intros P rights. induction rights as [|[op x] rights IH]; intros last.
  - exists last. split; [reflexivity|]. auto.
  - simpl. unfold pure_truth, mbind, mret. simpl.
    destruct (bool_disp (p_bool P) x) eqn:E; simpl.
    + eexists. split; [reflexivity|]. intros _. destruct (String.eqb op "||"); [exact E|reflexivity].
    + destruct (IH x) as (v & Hv & Hb). exists v. split; [exact Hv|]. intros _. now apply Hb.
Qed.

Theorem C09_or_value : forall P x rights,
  exists v, or_reduce (pure_truth P) (mret x) (pure_ops rights) tt = (tt, RVal v) /\
    bool_disp (p_bool P) v =
    existsb (bool_disp (p_bool P)) (x :: map snd rights).
Proof.
  intros P x rights. unfold or_reduce.
  assert (FB : forall l : list (string * val),
    existsb (fun t => bool_disp (p_bool P) (snd t)) l = existsb (bool_disp (p_bool P)) (map snd l)).
  { induction l as [|t l IH]; [reflexivity|]. simpl. now rewrite IH. }
  destruct rights as [|r rights].
  - exists x. split; [reflexivity|]. simpl. now rewrite orb_false_r.
  - destruct (bool_disp (p_bool P) x) eqn:E.
    + exists x. split.
      * unfold mbind, mret, pure_truth. simpl pure_ops. cbv beta iota. rewrite E. reflexivity.
      * simpl. now rewrite E.
    + destruct (or_loop_pure P (r :: rights) x) as (v & Hv & Hb). exists v. split.
      * unfold mbind, mret, pure_truth. simpl pure_ops. cbv beta iota. rewrite E. exact Hv.
      * rewrite Hb by exact E. rewrite FB. simpl. now rewrite E.
Qed.

(** A counter as the effect: the third operand is not evaluated. *)
Example C09_example :
  let op v : M nat val := fun n => (Datatypes.S n, RVal v) in
  let truth v : M nat bool := mret (bool_disp [] v) in
  and_reduce truth (op (vint 1)) [("AND"%string, op VNull); ("AND"%string, op (vint 1))] 0%nat
    = (2%nat, RVal (VBool false)) /\
  or_reduce truth (op VNull) [("OR"%string, op (vint 7)); ("OR"%string, op (vint 1))] 0%nat
    = (2%nat, RVal (VBool true)).
Proof. split; reflexivity. Qed.

(** ** C10: indexing and slicing are total with clamping semantics *)

(** The element counted from the start, or from the end if negative. *)
Definition pick {A} (l : list A) (i : Z) : option A :=
  if (0 <=? i) && (i <? Z.of_nat (List.length l)) then nth_error l (Z.to_nat i)
  else if (i <? 0) && (- Z.of_nat (List.length l) <=? i)
       then nth_error l (Z.to_nat (Z.of_nat (List.length l) + i))
       else None.

(** A bound counted from the end if negative, clamped to [0, n]. *)
Definition clamp_bound (n i : Z) : Z :=
  let j := if i <? 0 then n + i else i in Z.max 0 (Z.min n j).

Definition slice {A} (l : list A) (s e : option Z) : list A :=
  let n := Z.of_nat (List.length l) in
  let st := clamp_bound n (match s with Some x => x | None => 0 end) in
  let en := clamp_bound n (match e with Some x => x | None => n end) in
  firstn (Z.to_nat (en - st)) (skipn (Z.to_nat st) l).

Definition byte_val (c : ascii) : val := VInt KUint8 (Z.of_N (N_of_ascii c)).

Definition indexable (v : val) : option (list val) :=
  match v with
  | VArr l => Some l
  | VStr s => Some (map byte_val (str_list s))
  | _ => None
  end.

Lemma str_get_list : forall s n,
  String.get n s = nth_error (str_list s) n.
Proof. induction s; destruct n; simpl; auto. Qed.

Lemma index_core : forall len idx (get : nat -> option val) (l : list val),
  len = Z.of_nat (List.length l) -> len < two63 -> is_int64 idx ->
  (forall n, get n = nth_error l n) ->
  recovered (let idx := if idx <? 0 then wrap64 (len + idx) else idx in
    if (idx <? 0) || (len <? idx) then Ok (VNull, false)
    else match get (Z.to_nat idx) with
         | Some v => Ok (v, true)
         | None => Panic
         end) =
  match pick l idx with
  | Some v => (v, true)
  | None =>
      if (idx =? len) then (VNil, false) else (VNull, false)
  end.
Proof.
  intros len idx get l HL HB HI HG. unfold pick. rewrite <- HL.
  destruct (Z.ltb_spec idx 0).
  - rewrite wrap64_id by (unfold is_int64 in *; lia).
    replace (0 <=? idx) with false by (symmetry; apply Z.leb_gt; lia). simpl andb.
    cbv zeta. destruct (Z.leb_spec (- len) idx).
    + replace ((len + idx <? 0) || (len <? len + idx)) with false.
      2:{ symmetry. apply orb_false_iff. rewrite !Z.ltb_ge. lia. }
      rewrite HG. destruct (nth_error l (Z.to_nat (len + idx))) eqn:E; [reflexivity|].
      apply nth_error_None in E. lia.
    + replace (len + idx <? 0) with true by (symmetry; apply Z.ltb_lt; lia).
      simpl. replace (idx =? len) with false by (symmetry; apply Z.eqb_neq; lia). reflexivity.
  - replace (0 <=? idx) with true by (symmetry; apply Z.leb_le; lia).
    cbv zeta. replace (idx <? 0) with false by (symmetry; apply Z.ltb_ge; lia). simpl orb. simpl andb.
    destruct (Z.ltb_spec idx len).
    + replace (len <? idx) with false by (symmetry; apply Z.ltb_ge; lia).
      rewrite HG. destruct (nth_error l (Z.to_nat idx)) eqn:E; [reflexivity|].
      apply nth_error_None in E. lia.
    + destruct (Z.ltb_spec len idx).
      * replace (idx =? len) with false by (symmetry; apply Z.eqb_neq; lia). reflexivity.
      * replace (idx =? len) with true by (symmetry; apply Z.eqb_eq; lia).
        rewrite HG. destruct (nth_error l (Z.to_nat idx)) eqn:E; [|reflexivity].
        assert (nth_error l (Z.to_nat idx) <> None) by congruence.
        apply nth_error_Some in H2. lia.
Qed.

(** [x[i]]: the element, or NULL when out of range.  [Z.of_nat (length l) <
    two63] holds of every Go slice and string. *)
Theorem C10_index : forall P x l k i,
  p_assoc P = [] -> indexable x = Some l -> Z.of_nat (List.length l) < two63 ->
  k <> KUint -> is_int64 i ->
  member_step P x (KVal (VInt k i)) = match pick l i with Some v => v | None => VNull end.
Proof.
  intros P x l k i HP HX HL Hk Hi. unfold member_step. rewrite HP.
  assert (EI : to_int64 (VInt k i) = Some i).
  { rewrite <- (wrap64_id i Hi) at 2. destruct k; congruence || reflexivity. }
  assert (A : assoc_disp [] x (KVal (VInt k i)) = recovered (default_assoc_index x i)).
  { destruct x; try discriminate; unfold assoc_disp; fold (assoc_disp []); simpl is_nil;
      cbv beta iota; cbn [first_assoc]; rewrite EI; reflexivity. }
  rewrite A. unfold default_assoc_index.
  destruct x; try discriminate; simpl in HX; injection HX as <-.
  - rewrite map_length, str_list_length in HL.
    pose proof (index_core (slen s) i
      (fun n => match String.get n s with
                | Some c => Some (VInt KUint8 (Z.of_N (Ascii.N_of_ascii c)))
                | None => None
                end) (map byte_val (str_list s))) as IC.
    cbv beta zeta in IC |- *. rewrite IC; clear IC.
    + destruct (pick _ i); [reflexivity|]. destruct (i =? slen s); reflexivity.
    + unfold slen. now rewrite map_length, str_list_length.
    + exact HL.
    + exact Hi.
    + intros n. rewrite str_get_list, nth_error_map. destruct (nth_error (str_list s) n); reflexivity.
  - pose proof (index_core (Z.of_nat (List.length l0)) i (fun n => nth_error l0 n) l0) as IC.
    cbv beta zeta in IC |- *. rewrite IC; clear IC; auto.
    destruct (pick _ i); [reflexivity|]. destruct (i =? Z.of_nat (List.length l0)); reflexivity.
Qed.

Lemma get_ranges_spec : forall s e n, 0 <= n < two63 ->
  (forall x, s = Some x -> is_int64 x) -> (forall x, e = Some x -> is_int64 x) ->
  let (st, en) := get_ranges s e n in
  let st' := clamp_bound n (match s with Some x => x | None => 0 end) in
  let en' := clamp_bound n (match e with Some x => x | None => n end) in
  en = en' /\ 0 <= en <= n /\ 0 <= st /\ (st <= n -> st = st') /\ (n < st -> st' = n).
Proof.
  intros s e n Hn Hs He. unfold get_ranges, clamp_bound.
  set (s0 := match s with Some x => x | None => 0 end).
  set (e0 := match e with Some x => x | None => n end).
  assert (S0 : is_int64 s0).
  { unfold s0. destruct s; [now apply Hs|]. unfold is_int64, two63. lia. }
  assert (E0 : is_int64 e0).
  { unfold e0. destruct e; [now apply He|]. unfold is_int64, two63 in *. lia. }
  cbv zeta.
  destruct (Z.ltb_spec s0 0).
  - rewrite (wrap64_id (n + s0)) by (unfold is_int64 in *; lia).
    destruct (Z.ltb_spec (n + s0) 0);
    (destruct (Z.ltb_spec e0 0);
     [rewrite (wrap64_id (n + e0)) by (unfold is_int64 in *; lia);
      destruct (Z.ltb_spec (n + e0) 0); [destruct (Z.ltb_spec n 0)|destruct (Z.ltb_spec n (n + e0))]
     |destruct (Z.ltb_spec e0 0); [lia|]; destruct (Z.ltb_spec n e0)]); lia.
  - destruct (Z.ltb_spec s0 0); [lia|].
    (destruct (Z.ltb_spec e0 0);
     [rewrite (wrap64_id (n + e0)) by (unfold is_int64 in *; lia);
      destruct (Z.ltb_spec (n + e0) 0); [destruct (Z.ltb_spec n 0)|destruct (Z.ltb_spec n (n + e0))]
     |destruct (Z.ltb_spec e0 0); [lia|]; destruct (Z.ltb_spec n e0)]); lia.
Qed.

Lemma slice_core : forall A (l : list A) s e,
  Z.of_nat (List.length l) < two63 ->
  (forall x, s = Some x -> is_int64 x) -> (forall x, e = Some x -> is_int64 x) ->
  let (st, en) := get_ranges s e (Z.of_nat (List.length l)) in
  slice l s e = if en <=? st then []
                else firstn (Z.to_nat (en - st)) (skipn (Z.to_nat st) l).
Proof.
  intros A l s e HL Hs He.
  pose proof (get_ranges_spec s e (Z.of_nat (List.length l)) ltac:(lia) Hs He) as H.
  destruct (get_ranges s e (Z.of_nat (List.length l))) as [st en].
  unfold slice. cbv zeta in *.
  set (st' := clamp_bound _ (match s with Some x => x | None => 0 end)) in *.
  set (en' := clamp_bound _ (match e with Some x => x | None => _ end)) in *.
  destruct H as (E1 & E2 & E3 & E4 & E5).
  destruct (Z.leb_spec en st).
  - destruct (Z.le_gt_cases st (Z.of_nat (List.length l))).
    + rewrite <- E4, <- E1 by lia. replace (Z.to_nat (en - st)) with 0%nat by lia. reflexivity.
    + rewrite E5 by lia. rewrite skipn_all2 by lia. apply firstn_nil.
  - rewrite <- E4, <- E1 by lia. reflexivity.
Qed.

Lemma substring_slice : forall s n m,
  String.substring n m s = list_str (firstn m (skipn n (str_list s))).
Proof.
  induction s as [|c s IH]; intros n m.
  - destruct n, m; reflexivity.
  - destruct n; destruct m; simpl; try reflexivity.
    + rewrite IH. reflexivity.
    + rewrite IH. reflexivity.
    + rewrite IH. reflexivity.
Qed.

(** [x[i:j]], with either bound possibly missing. *)
Theorem C10_slice : forall P s e,
  p_assoc P = [] ->
  (forall x, s = Some x -> is_int64 x) -> (forall x, e = Some x -> is_int64 x) ->
  (forall l, Z.of_nat (List.length l) < two63 ->
     member_step P (VArr l) (KRange s e) = VArr (slice l s e)) /\
  (forall str, slen str < two63 ->
     member_step P (VStr str) (KRange s e) = VStr (list_str (slice (str_list str) s e))).
Proof.
  intros P s e HP Hs He. unfold member_step. rewrite HP. split.
  - intros l HL.
    change (assoc_disp [] (VArr l) (KRange s e)) with (recovered (default_assoc_range (VArr l) s e)).
    unfold default_assoc_range. cbn [arr_elems].
    pose proof (slice_core _ l s e HL Hs He) as H.
    destruct (get_ranges s e (Z.of_nat (List.length l))) as [st en].
    rewrite H. destruct (en <=? st); reflexivity.
  - intros str HL.
    change (assoc_disp [] (VStr str) (KRange s e)) with (recovered (default_assoc_range (VStr str) s e)).
    unfold default_assoc_range.
    assert (HL' : Z.of_nat (List.length (str_list str)) < two63) by (rewrite str_list_length; exact HL).
    pose proof (slice_core _ (str_list str) s e HL' Hs He) as H.
    rewrite str_list_length in H. fold (slen str) in H.
    destruct (get_ranges s e (slen str)) as [st en].
    rewrite H. destruct (en <=? st); [reflexivity|].
    cbn [recovered]. rewrite substring_slice. reflexivity.
Qed.

(** Indexing anything else by an integer or a range gives NULL (no panic is
    possible in the model: [member_step] is total and the only panicking
    branch of the code, index = length, is recovered). *)
Theorem C10_other_values : forall P x k i s e,
  p_assoc P = [] -> indexable x = None ->
  (forall rows, x <> VQuery rows) ->
  member_step P x (KVal (VInt k i)) = VNull /\
  member_step P x (KRange s e) = VNull.
Proof.
  intros P x k i s e HP HX HQ. unfold member_step. rewrite HP.
  split; destruct x; try discriminate; try (exfalso; eapply HQ; reflexivity); try reflexivity;
    destruct k; reflexivity.
Qed.

Example C10_example :
  member_step no_protos (VArr [vint 10; vint 20; vint 30]) (KVal (vint (-1))) = vint 30 /\
  member_step no_protos (VArr [vint 10; vint 20; vint 30]) (KVal (vint 3)) = VNull /\
  member_step no_protos (VStr "hello") (KRange (Some 1) (Some (-1))) = VStr "ell" /\
  pick [1; 2; 3] (-3) = Some 1 /\ slice [1; 2; 3] None (Some 2) = [1; 2].
Proof. vm_compute. auto. Qed.

(** ** C11: IN means membership *)

Lemma mem_elems_spec : forall f a l,
  mem_elems f a l = true <-> exists x, In x l /\ f a x = true.
Proof.
  induction l as [|y l IH]; simpl.
  - split; [discriminate|]. intros (x & [] & _).
  - destruct (f a y) eqn:E.
    + split; [eauto|reflexivity].
    + rewrite IH. split.
      * intros (x & H1 & H2). eauto.
      * intros (x & [->|H1] & H2); [congruence|eauto].
Qed.

Theorem C11_in_array : forall P m a l, p_mem P = [] ->
  (cond_op P m OpIn a (VArr l) = true <->
   exists x, In x l /\ cond_op P m OpEq a x = true).
Proof.
  intros P m a l H. cbn [cond_op]. unfold membership_disp. cbn [mem_switch].
  rewrite H. simpl first2. cbn [arr_elems]. apply mem_elems_spec.
Qed.

Theorem C11_in_string : forall P m a t, p_mem P = [] ->
  (cond_op P m OpIn a (VStr t) = true <->
   exists s p q, a = VStr s /\ t = (p ++ s ++ q)%string).
Proof.
  intros P m a t H. cbn [cond_op]. unfold membership_disp.
  destruct a as [| | | | | |s| | | | | |]; cbn [mem_switch];
    try (rewrite H; simpl; split; [discriminate|]; intros (s' & p & q & E & _); discriminate).
  rewrite str_containsb_spec. split.
  - intros (p & q & E). exists s, p, q. auto.
  - intros (s' & p & q & E1 & E2). injection E1 as ->. eauto.
Qed.

Theorem C11_in_dict : forall P m a d, p_mem P = [] ->
  (cond_op P m OpIn a (VDict d) = true <->
   exists k, a = VStr k /\ In k (keys d)).
Proof.
  intros P m a d H. cbn [cond_op]. unfold membership_disp.
  destruct a as [| | | | | |s| | | | | |]; cbn [mem_switch];
    try (rewrite H; cbn [first2 arr_elems]; split; [discriminate|];
         intros (k0 & E & _); discriminate E).
  split.
  - destruct (assoc s d) as [v|] eqn:E; [|discriminate]. intros _.
    exists s. split; [reflexivity|]. apply assoc_keys. eauto.
  - intros (k & E & Hk). injection E as ->. apply assoc_keys in Hk as [v ->]. reflexivity.
Qed.

Theorem C11_in_nothing_else : forall P m a b, p_mem P = [] ->
  (forall l, b <> VArr l) -> (forall s, b <> VStr s) -> (forall d, b <> VDict d) ->
  cond_op P m OpIn a b = false.
Proof.
  intros P m a b H H1 H2 H3. cbn [cond_op]. unfold membership_disp. rewrite H.
  destruct b; try reflexivity; exfalso; [eapply H2|eapply H1|eapply H3]; reflexivity.
Qed.

(** Nothing is IN NULL, whatever implementations are registered. *)
Theorem C11_in_null : forall P m a,
  cond_op P m OpIn a VNull = false /\ cond_op P m OpIn a VNil = false.
Proof. intros. split; reflexivity. Qed.

Example C11_example :
  cond_op no_protos nomatch OpIn (vint 2) (VArr [vint 1; vint 2]) = true /\
  cond_op no_protos nomatch OpIn (VStr "ell") (VStr "hello") = true /\
  cond_op no_protos nomatch OpIn (VStr "z") (VDict [("a"%string, VNull)]) = false.
Proof. vm_compute. auto. Qed.

(** ** C12: the not-equal operators agree *)

Theorem C12_ne_is_negation_partial : forall P m a b,
  cond_op P m OpNe a b = negb (cond_op P m OpEq a b).
Proof. reflexivity. Qed.

(** [<>] is accepted by the grammar but always false. *)
Theorem C12_refuted : forall P m a b, cond_op P m OpNeAlt a b = false.
Proof. reflexivity. Qed.

Theorem C12_disagree_refuted : exists a b,
  cond_op no_protos nomatch OpNe a b = true /\ cond_op no_protos nomatch OpNeAlt a b = false.
Proof. exists (vint 1), (vint 2). vm_compute. auto. Qed.

(** ** C32: dispatch *)

(** Implementations registered one after the other with AddImpl; the most
    recent applicable one decides (the value types are opaque host types, on
    which no built in case applies). *)
Fixpoint last_applicable {R} (registered : list (impl2 R)) (a b : val) : option R :=
  match registered with
  | [] => None
  | i :: later =>
      match last_applicable later a b with
      | Some r => Some r
      | None => i a b
      end
  end.

Lemma first2_app : forall R (l1 l2 : list (impl2 R)) a b,
  first2 (l1 ++ l2) a b = match first2 l1 a b with Some r => Some r | None => first2 l2 a b end.
Proof.
  induction l1 as [|i l1 IH]; simpl; intros; [reflexivity|].
  destruct (i a b); [reflexivity|apply IH].
Qed.

Lemma add_impl_rev : forall I (es : list I) impls, add_impl es impls = rev es ++ impls.
Proof.
  induction es as [|e es IH]; simpl; intros; [reflexivity|].
  rewrite IH, <- app_assoc. reflexivity.
Qed.

Lemma first2_add_impl : forall R (es : list (impl2 R)) a b,
  first2 (add_impl es []) a b = last_applicable es a b.
Proof.
  intros R es a b. rewrite add_impl_rev, app_nil_r.
  induction es as [|e es IH]; simpl; [reflexivity|].
  rewrite first2_app, IH. destruct (last_applicable es a b); [reflexivity|].
  simpl. destruct (e a b); reflexivity.
Qed.

Theorem C32_binary_operators : forall n b
  (es_eq es_lt es_gt es_mem : list (impl2 bool)) (es_add es_sub es_mul es_div : list (impl2 val)),
  is_null b = false -> is_array b = false -> is_intcase b = false -> is_floatcase b = false ->
  is_time b = false -> (forall s, b <> VStr s) -> (forall d, b <> VDict d) ->
  (forall d, b <> VQuery d) ->
  let a := VOpaque n in
  eq_disp (add_impl es_eq []) a b = orelse (last_applicable es_eq a b) false /\
  lt_disp (add_impl es_lt []) a b = orelse (last_applicable es_lt a b) false /\
  gt_disp (add_impl es_gt []) a b = orelse (last_applicable es_gt a b) false /\
  membership_disp [] (add_impl es_mem []) a b = orelse (last_applicable es_mem a b) false /\
  add_disp (add_impl es_add []) a b = orelse (last_applicable es_add a b) VNull /\
  sub_disp (add_impl es_sub []) a b = orelse (last_applicable es_sub a b) VNull /\
  mul_disp (add_impl es_mul []) a b = Ok (orelse (last_applicable es_mul a b) VNull) /\
  div_disp (add_impl es_div []) a b = orelse (last_applicable es_div a b) VNull.
Proof.
  intros n b e1 e2 e3 e4 e5 e6 e7 e8 H1 H2 H3 H4 H5 H6 H7 H8 a. subst a.
  rewrite <- !first2_add_impl.
  destruct b as [| |bb|k z|f|f|s|t| |l|d|q|o]; try discriminate;
    try (exfalso; eapply H6; reflexivity); try (exfalso; eapply H7; reflexivity);
    try (exfalso; eapply H8; reflexivity).
  - repeat split; try reflexivity.
    unfold add_disp; simpl. rewrite first2_app.
      destruct (first2 (add_impl e5 []) (VOpaque n) (VBool bb)); reflexivity.
  - destruct k; try discriminate. repeat split; try reflexivity.
    unfold add_disp; simpl. rewrite first2_app.
      destruct (first2 (add_impl e5 []) (VOpaque n) (VInt KUint z)); reflexivity.
  - repeat split; try reflexivity.
    unfold add_disp; simpl. rewrite first2_app.
      destruct (first2 (add_impl e5 []) (VOpaque n) (VOpaque o)); reflexivity.
Qed.

Lemma first1_app : forall R (l1 l2 : list (impl1 R)) a,
  first1 (l1 ++ l2) a = match first1 l1 a with Some r => Some r | None => first1 l2 a end.
Proof.
  induction l1 as [|i l1 IH]; simpl; intros; [reflexivity|].
  destruct (i a); [reflexivity|apply IH].
Qed.

Theorem C32_bool_newest_first : forall n older newest,
  bool_disp (add_impl [newest] (add_impl older [])) (VOpaque n) =
  match newest (VOpaque n) with
  | Some r => r
  | None => bool_disp (add_impl older []) (VOpaque n)
  end.
Proof. intros. simpl. destruct (newest (VOpaque n)); reflexivity. Qed.

Example C32_example :
  let old : impl2 val := fun a b => Some (VStr "old") in
  let new : impl2 val := fun a b => match b with VOpaque 1 => Some (VStr "new") | _ => None end in
  add_disp (add_impl [old; new] []) (VOpaque 0) (VOpaque 1) = VStr "new" /\
  add_disp (add_impl [old; new] []) (VOpaque 0) (VOpaque 2) = VStr "old".
Proof. split; reflexivity. Qed.

(** The built in cases take precedence over registered implementations:
    nothing a host registers changes arithmetic on integers. *)
Theorem C32_builtin_first : forall P P' a b, is_go_int a -> is_go_int b ->
  add_disp (p_add P) a b = add_disp (p_add P') a b /\
  eq_disp (p_eq P) a b = eq_disp (p_eq P') a b /\
  lt_disp (p_lt P) a b = lt_disp (p_lt P') a b.
Proof.
  intros P P' a b Ha Hb.
  apply go_int_inv in Ha as (k & x & -> & Hk). apply go_int_inv in Hb as (k' & y & -> & Hk').
  rewrite !add_int, !eq_int, !lt_int by assumption. auto.
Qed.

Print Assumptions C01_trichotomy.
Print Assumptions C01_derived_operators.
Print Assumptions C01_lt_transitive.
Print Assumptions C01_int_order_is_numeric.
Print Assumptions C01_string_order_is_lexicographic.
Print Assumptions C01_float_order_is_numeric.
Print Assumptions C02_refuted.
Print Assumptions C02_gt_converse_of_lt_partial.
Print Assumptions C03_refuted.
Print Assumptions C03_equivalence_partial.
Print Assumptions C04_null_operators.
Print Assumptions C04_null_equality_partial.
Print Assumptions C04_null_equality_refuted.
Print Assumptions C05_int_arithmetic.
Print Assumptions C05_add_sub_cancel.
Print Assumptions C05_chain_is_sum.
Print Assumptions C05_chain_reorder.
Print Assumptions C06_refuted.
Print Assumptions C06_division_partial.
Print Assumptions C07_refuted.
Print Assumptions C07_add_bounded.
Print Assumptions C07_mul_bounded_partial.
Print Assumptions C07_mul_panics_iff.
Print Assumptions C08_refuted.
Print Assumptions C08_truthiness_partial.
Print Assumptions C09_and.
Print Assumptions C09_or.
Print Assumptions C09_not.
Print Assumptions C09_and_value.
Print Assumptions C09_or_value.
Print Assumptions C10_index.
Print Assumptions C10_slice.
Print Assumptions C10_other_values.
Print Assumptions C11_in_array.
Print Assumptions C11_in_string.
Print Assumptions C11_in_dict.
Print Assumptions C11_in_nothing_else.
Print Assumptions C11_in_null.
Print Assumptions C12_ne_is_negation_partial.
Print Assumptions C12_refuted.
Print Assumptions C12_disagree_refuted.
Print Assumptions C32_binary_operators.
Print Assumptions C32_bool_newest_first.
Print Assumptions C32_builtin_first.
