(** Order and conversion facts for the float64 model. *)

From Coq Require Import ZArith Bool Lia.
From Verif Require Import Base F64.
Open Scope Z_scope.

(** A key into lexicographically ordered integers that represents
    [SFcompare] on everything but NaN. *)
Definition fkey (f : f64) : Z * Z * Z :=
  match f with
  | S754_nan => (0, 0, 0)
  | S754_zero _ => (0, 0, 0)
  | S754_infinity true => (-2, 0, 0)
  | S754_infinity false => (2, 0, 0)
  | S754_finite true m e => (-1, - e, Z.neg m)
  | S754_finite false m e => (1, e, Z.pos m)
  end.

Definition key_lt (a b : Z * Z * Z) : Prop :=
  let '(a1, a2, a3) := a in let '(b1, b2, b3) := b in
  a1 < b1 \/ (a1 = b1 /\ (a2 < b2 \/ (a2 = b2 /\ a3 < b3))).

Lemma f_ltb_key : forall f g, f_is_nan f = false -> f_is_nan g = false ->
  (f_ltb f g = true <-> key_lt (fkey f) (fkey g)).
Proof.
  intros f g Hf Hg. unfold f_ltb, SFltb.
  destruct f as [sf|sf| |sf mf ef]; destruct g as [sg|sg| |sg mg eg];
    try discriminate; simpl;
    try (destruct sf); try (destruct sg); simpl;
    try (split; [intros H; try discriminate; lia | intros H; try reflexivity; exfalso; lia]).
  - destruct (Z.compare_spec ef eg) as [E|E|E]; simpl.
    + subst. change (Pos.compare_cont Eq mf mg) with (Pos.compare mf mg).
      destruct (Pos.compare_spec mf mg); simpl; split; intros; try discriminate; try reflexivity; try lia.
    + split; intros; try discriminate; try reflexivity; lia.
    + split; intros; try discriminate; try reflexivity; lia.
  - destruct (Z.compare_spec ef eg) as [E|E|E]; simpl.
    + subst. change (Pos.compare_cont Eq mf mg) with (Pos.compare mf mg).
      destruct (Pos.compare_spec mf mg); simpl; split; intros; try discriminate; try reflexivity; try lia.
    + split; intros; try discriminate; try reflexivity; lia.
    + split; intros; try discriminate; try reflexivity; lia.
Qed.

Lemma f_eqb_key : forall f g, f_is_nan f = false -> f_is_nan g = false ->
  (f_eqb f g = true <-> fkey f = fkey g).
Proof.
  intros f g Hf Hg. unfold f_eqb, SFeqb.
  destruct f as [sf|sf| |sf mf ef]; destruct g as [sg|sg| |sg mg eg];
    try discriminate; simpl;
    try (destruct sf); try (destruct sg); simpl;
    try (split; [intros H; try discriminate; congruence | intros H; try reflexivity; congruence]).
  - destruct (Z.compare_spec ef eg) as [E|E|E]; simpl.
    + subst. change (Pos.compare_cont Eq mf mg) with (Pos.compare mf mg).
      destruct (Pos.compare_spec mf mg); simpl; split; intros H1; try discriminate; try reflexivity; try congruence;
        injection H1; intros; subst; lia.
    + split; intros H1; try discriminate. injection H1; lia.
    + split; intros H1; try discriminate. injection H1; lia.
  - destruct (Z.compare_spec ef eg) as [E|E|E]; simpl.
    + subst. change (Pos.compare_cont Eq mf mg) with (Pos.compare mf mg).
      destruct (Pos.compare_spec mf mg); simpl; split; intros H1; try discriminate; try reflexivity; try congruence;
        injection H1; intros; subst; lia.
    + split; intros H1; try discriminate. injection H1; lia.
    + split; intros H1; try discriminate. injection H1; lia.
Qed.

Lemma f_ltb_nan_l : forall g, f_ltb S754_nan g = false.
Proof. destruct g; reflexivity. Qed.
Lemma f_ltb_nan_r : forall g, f_ltb g S754_nan = false.
Proof. destruct g; reflexivity. Qed.
Lemma f_eqb_nan_l : forall g, f_eqb S754_nan g = false.
Proof. destruct g; reflexivity. Qed.
Lemma f_eqb_nan_r : forall g, f_eqb g S754_nan = false.
Proof. destruct g; reflexivity. Qed.

Lemma f_is_nan_true : forall f, f_is_nan f = true -> f = S754_nan.
Proof. destruct f; simpl; congruence. Qed.

Lemma f_ltb_not_nan : forall f g, f_ltb f g = true ->
  f_is_nan f = false /\ f_is_nan g = false.
Proof.
  intros f g H. split.
  - destruct (f_is_nan f) eqn:E; [|reflexivity].
    apply f_is_nan_true in E; subst. now rewrite f_ltb_nan_l in H.
  - destruct (f_is_nan g) eqn:E; [|reflexivity].
    apply f_is_nan_true in E; subst. now rewrite f_ltb_nan_r in H.
Qed.

Lemma f_eqb_not_nan : forall f g, f_eqb f g = true ->
  f_is_nan f = false /\ f_is_nan g = false.
Proof.
  intros f g H. split.
  - destruct (f_is_nan f) eqn:E; [|reflexivity].
    apply f_is_nan_true in E; subst. now rewrite f_eqb_nan_l in H.
  - destruct (f_is_nan g) eqn:E; [|reflexivity].
    apply f_is_nan_true in E; subst. now rewrite f_eqb_nan_r in H.
Qed.

Lemma f_ltb_trans : forall f g h,
  f_ltb f g = true -> f_ltb g h = true -> f_ltb f h = true.
Proof.
  intros f g h H1 H2.
  destruct (f_ltb_not_nan _ _ H1) as [Nf Ng].
  destruct (f_ltb_not_nan _ _ H2) as [_ Nh].
  apply f_ltb_key in H1; [|assumption|assumption].
  apply f_ltb_key in H2; [|assumption|assumption].
  apply f_ltb_key; [assumption|assumption|].
  destruct (fkey f) as [[a1 a2] a3], (fkey g) as [[b1 b2] b3], (fkey h) as [[c1 c2] c3].
  unfold key_lt in *. lia.
Qed.

Lemma f_ltb_irrefl : forall f, f_ltb f f = false.
Proof.
  intros f. destruct (f_is_nan f) eqn:E.
  - apply f_is_nan_true in E. subst. reflexivity.
  - destruct (f_ltb f f) eqn:L; [|reflexivity].
    apply f_ltb_key in L; [|assumption|assumption].
    destruct (fkey f) as [[a1 a2] a3]. unfold key_lt in L. lia.
Qed.

Lemma f_ltb_asym : forall f g, f_ltb f g = true -> f_ltb g f = false.
Proof.
  intros f g H. destruct (f_ltb g f) eqn:E; [|reflexivity].
  rewrite <- (f_ltb_irrefl f). symmetry. eapply f_ltb_trans; eauto.
Qed.

Lemma f_trichotomy : forall f g, f_is_nan f = false -> f_is_nan g = false ->
  f_ltb f g = true \/ f_eqb f g = true \/ f_ltb g f = true.
Proof.
  intros f g Hf Hg.
  rewrite !f_ltb_key, f_eqb_key by assumption.
  destruct (fkey f) as [[a1 a2] a3], (fkey g) as [[b1 b2] b3]. unfold key_lt.
  destruct (Z.lt_total a1 b1) as [?|[?|?]]; [lia| |lia].
  destruct (Z.lt_total a2 b2) as [?|[?|?]]; [lia| |lia].
  destruct (Z.lt_total a3 b3) as [?|[?|?]]; [lia| |lia].
  right; left. congruence.
Qed.

Lemma f_eqb_ltb : forall f g, f_eqb f g = true -> f_ltb f g = false.
Proof.
  intros f g H. destruct (f_eqb_not_nan _ _ H) as [Nf Ng].
  apply f_eqb_key in H; [|assumption|assumption].
  destruct (f_ltb f g) eqn:L; [|reflexivity].
  apply f_ltb_key in L; [|assumption|assumption].
  rewrite H in L. destruct (fkey g) as [[a1 a2] a3]. unfold key_lt in L. lia.
Qed.

Lemma f_eqb_sym : forall f g, f_eqb f g = f_eqb g f.
Proof.
  intros f g.
  destruct (f_eqb f g) eqn:A; destruct (f_eqb g f) eqn:B; try reflexivity.
  - destruct (f_eqb_not_nan _ _ A). apply f_eqb_key in A; [|assumption|assumption].
    symmetry in A. apply f_eqb_key in A; [congruence|assumption|assumption].
  - destruct (f_eqb_not_nan _ _ B). apply f_eqb_key in B; [|assumption|assumption].
    symmetry in B. apply f_eqb_key in B; [congruence|assumption|assumption].
Qed.

Lemma f_eqb_refl : forall f, f_is_nan f = false -> f_eqb f f = true.
Proof. intros. now apply f_eqb_key. Qed.

Lemma f_eqb_trans : forall f g h,
  f_eqb f g = true -> f_eqb g h = true -> f_eqb f h = true.
Proof.
  intros f g h A B.
  destruct (f_eqb_not_nan _ _ A). destruct (f_eqb_not_nan _ _ B).
  apply f_eqb_key in A; [|assumption|assumption].
  apply f_eqb_key in B; [|assumption|assumption].
  apply f_eqb_key; [assumption|assumption|congruence].
Qed.

(** ** Conversion from integers: never NaN, and zero only for zero. *)

Lemma shr_1_m : forall mrs, 0 <= shr_m mrs -> shr_m (shr_1 mrs) = shr_m mrs / 2.
Proof.
  intros [m r s] H. simpl in *. destruct m as [|p|p]; [reflexivity| |lia].
  destruct p; simpl.
  - rewrite Pos2Z.inj_xI.
    apply Z.div_unique with (r := 1); lia.
  - rewrite Pos2Z.inj_xO.
    apply Z.div_unique with (r := 0); lia.
  - reflexivity.
Qed.

Lemma iter_shr_m : forall n mrs, 0 <= shr_m mrs ->
  shr_m (iter_pos shr_1 n mrs) = shr_m mrs / 2 ^ Z.pos n.
Proof.
  induction n; intros mrs H; simpl iter_pos.
  - assert (P1 : 0 <= shr_m (shr_1 mrs)).
    { rewrite shr_1_m by assumption. apply Z.div_pos; lia. }
    assert (P2 : 0 <= shr_m (iter_pos shr_1 n (shr_1 mrs))).
    { rewrite IHn by assumption. apply Z.div_pos; [assumption|]. apply Z.pow_pos_nonneg; lia. }
    rewrite IHn by assumption. rewrite IHn by assumption. rewrite shr_1_m by assumption.
    rewrite !Z.div_div by (try apply Z.pow_nonzero; try apply Z.pow_pos_nonneg; lia).
    f_equal. replace (Z.pos n~1) with (1 + (Z.pos n + Z.pos n)) by lia.
    rewrite !Z.pow_add_r by lia. lia.
  - assert (P2 : 0 <= shr_m (iter_pos shr_1 n mrs)).
    { rewrite IHn by assumption. apply Z.div_pos; [assumption|]. apply Z.pow_pos_nonneg; lia. }
    rewrite IHn by assumption. rewrite IHn by assumption.
    rewrite !Z.div_div by (try apply Z.pow_nonzero; try apply Z.pow_pos_nonneg; lia).
    f_equal. replace (Z.pos n~0) with (Z.pos n + Z.pos n) by lia.
    rewrite !Z.pow_add_r by lia. reflexivity.
  - rewrite shr_1_m by assumption. reflexivity.
Qed.

Lemma digits2_pos_bound : forall p,
  2 ^ (Z.pos (digits2_pos p) - 1) <= Z.pos p < 2 ^ Z.pos (digits2_pos p).
Proof.
  induction p; simpl digits2_pos.
  - rewrite Pos2Z.inj_succ. replace (Z.pos p~1) with (2 * Z.pos p + 1) by lia.
    replace (Z.succ (Z.pos (digits2_pos p)) - 1) with (Z.succ (Z.pos (digits2_pos p) - 1)) by lia.
    rewrite !Z.pow_succ_r by lia. lia.
  - rewrite Pos2Z.inj_succ. replace (Z.pos p~0) with (2 * Z.pos p) by lia.
    replace (Z.succ (Z.pos (digits2_pos p)) - 1) with (Z.succ (Z.pos (digits2_pos p) - 1)) by lia.
    rewrite !Z.pow_succ_r by lia. lia.
  - simpl. lia.
Qed.

(** Shifting right to 53 digits keeps a positive mantissa positive. *)
Lemma shr_fexp_pos : forall m e l, 0 < m -> -1074 <= e ->
  0 < shr_m (fst (shr_fexp 53 1024 m e l)).
Proof.
  intros m e l Hm He. unfold shr_fexp, shr.
  destruct m as [|p|p]; [lia| |lia]. simpl Zdigits2.
  pose proof (digits2_pos_bound p) as B.
  set (d := Z.pos (digits2_pos p)) in *.
  unfold fexp, emin.
  set (k := Z.max (d + e - 53) (3 - 1024 - 53) - e).
  destruct k as [|n|n] eqn:K.
  - destruct l as [|[]]; simpl; lia.
  - change (shr_m (fst (iter_pos shr_1 n (shr_record_of_loc (Z.pos p) l), e + Z.pos n)))
      with (shr_m (iter_pos shr_1 n (shr_record_of_loc (Z.pos p) l))).
    assert (E : shr_m (shr_record_of_loc (Z.pos p) l) = Z.pos p)
      by (destruct l as [|[]]; reflexivity).
    rewrite iter_shr_m by (rewrite E; lia). rewrite E.
    apply Z.div_str_pos. split; [apply Z.pow_pos_nonneg; lia|].
    apply Z.le_trans with (2 ^ (d - 1)); [|lia].
    apply Z.pow_le_mono_r; lia.
  - destruct l as [|[]]; simpl; lia.
Qed.

Lemma shr_fexp_exp : forall m e l, e <= snd (shr_fexp 53 1024 m e l).
Proof.
  intros. unfold shr_fexp, shr.
  destruct (fexp 53 1024 (Zdigits2 m + e) - e); simpl; lia.
Qed.

Lemma binary_round_aux_nonzero : forall s m e l, 0 < m -> -1074 <= e ->
  f_is_zero (binary_round_aux 53 1024 s m e l) = false /\
  f_is_nan (binary_round_aux 53 1024 s m e l) = false.
Proof.
  intros s m e l Hm He. unfold binary_round_aux.
  destruct (shr_fexp 53 1024 m e l) as [mrs' e'] eqn:E1.
  pose proof (shr_fexp_pos m e l Hm He) as P1. rewrite E1 in P1. simpl in P1.
  pose proof (shr_fexp_exp m e l) as X1. rewrite E1 in X1. simpl in X1.
  set (m2 := round_nearest_even (shr_m mrs') (loc_of_shr_record mrs')).
  assert (P2 : 0 < m2).
  { unfold m2, round_nearest_even.
    destruct (loc_of_shr_record mrs') as [|[]]; try destruct (Z.even _); lia. }
  destruct (shr_fexp 53 1024 m2 e' loc_Exact) as [mrs'' e''] eqn:E2.
  pose proof (shr_fexp_pos m2 e' loc_Exact P2 ltac:(lia)) as P3.
  rewrite E2 in P3. simpl in P3.
  destruct (shr_m mrs'') as [|p|p]; [lia| |lia].
  destruct (e'' <=? 1024 - 53); destruct s; split; reflexivity.
Qed.

Lemma shl_align_pos : forall p e, -1074 <= e ->
  exists q e2,
    shl_align p e (fexp 53 1024 (Z.pos (digits2_pos p) + e)) = (q, e2) /\ -1074 <= e2.
Proof.
  intros p e He. unfold shl_align.
  set (ex := fexp 53 1024 (Z.pos (digits2_pos p) + e)).
  assert (X : -1074 <= ex).
  { unfold ex, fexp, emin. lia. }
  destruct (ex - e) eqn:K.
  - eexists _, _. split; [reflexivity|exact He].
  - eexists _, _. split; [reflexivity|exact He].
  - eexists _, _. split; [reflexivity|exact X].
Qed.

Lemma binary_round_nonzero : forall s p e, -1074 <= e ->
  f_is_zero (binary_round 53 1024 s p e) = false /\
  f_is_nan (binary_round 53 1024 s p e) = false.
Proof.
  intros. unfold binary_round.
  destruct (shl_align_pos p e H) as (q & e2 & E & Hb). rewrite E.
  now apply binary_round_aux_nonzero.
Qed.

Lemma f_of_Z_zero_iff : forall z, f_is_zero (f_of_Z z) = (z =? 0).
Proof.
  intros [|p|p]; [reflexivity| |].
  - change (f_of_Z (Z.pos p)) with (binary_round 53 1024 false p 0).
    apply binary_round_nonzero. lia.
  - change (f_of_Z (Z.neg p)) with (binary_round 53 1024 true p 0).
    apply binary_round_nonzero. lia.
Qed.

Lemma f_of_Z_not_nan : forall z, f_is_nan (f_of_Z z) = false.
Proof.
  intros [|p|p]; [reflexivity| |].
  - change (f_of_Z (Z.pos p)) with (binary_round 53 1024 false p 0).
    apply binary_round_nonzero. lia.
  - change (f_of_Z (Z.neg p)) with (binary_round 53 1024 true p 0).
    apply binary_round_nonzero. lia.
Qed.
