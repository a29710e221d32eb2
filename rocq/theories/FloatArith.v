(** The standard library's float operations give the nearest float. *)

From Coq Require Import ZArith QArith Qabs Bool Lia.
From Verif Require Import Base F64 F64Proofs FloatRound FloatText NumberProps.
Open Scope Z_scope.

(** ** Specification *)

(** Halfway between the largest float and the next power of two. *)
Definition overflow_bound : Q := inject_Z (2 ^ 1024 - 2 ^ 970).

(** f is x rounded: the nearest float, or infinite when x is too large. *)
Definition rounds_to (x : Q) (f : f64) : Prop :=
  ((Qabs x < overflow_bound)%Q -> nearest x f) /\
  ((overflow_bound <= x)%Q -> f = S754_infinity false) /\
  ((x <= - overflow_bound)%Q -> f = S754_infinity true).

(** ** From [rounded] to the nearest *)

Definition bound_num : Z := (2 ^ 1024 - 2 ^ 970) * 2 ^ 1074.

Lemma rounded_below A D X E : 0 < D -> rounded A D (-1074) X E ->
  (E <= 971 <-> A < bound_num * D).
Proof.
  intros HD (n & e0 & E0 & N & NS & BD & ME). cbv zeta in ME.
  replace (e0 - -1074) with (e0 + 1074) in * by lia.
  assert (MB : forall x y, x <= y -> x * D <= y * D) by (intros; apply Z.mul_le_mono_nonneg_r; lia).
  assert (K : bound_num * 2 = (2 * (2 ^ 53 - 1) + 1) * 2 ^ (971 + 1074)) by (vm_compute; reflexivity).
  assert (BIG : 972 <= e0 -> bound_num * D <= A).
  { intro L. transitivity (n * 2 ^ (e0 + 1074) * D); [|apply BD]. apply MB.
    transitivity (2 ^ 52 * 2 ^ (972 + 1074)); [vm_compute; discriminate|].
    apply Z.mul_le_mono_nonneg; [lia|lia|apply Z.pow_nonneg; lia|apply pow2_le; lia]. }
  destruct (Z.le_gt_cases 972 e0) as [L|L].
  { specialize (BIG L). split; [|lia]. intro. exfalso. destruct ME as [(_ & _ & ->)|(_ & _ & ->)]; lia. }
  destruct (Z.eq_dec e0 971) as [->|NE].
  - set (c := 2 * A ?= _) in ME. pose proof (pick_bounds n c) as PB.
    assert (U : (n + 1) * 2 ^ (971 + 1074) <= 2 ^ 53 * 2 ^ (971 + 1074)).
    { apply Z.mul_le_mono_nonneg_r; [apply Z.pow_nonneg; lia|lia]. }
    split.
    + intro LE. destruct ME as [(P53 & _ & _)|(_ & _ & ->)]; [|lia].
      destruct (Z.eq_dec n (2 ^ 53 - 1)) as [->|NN].
      * assert (C : c = Lt).
        { destruct c; cbn [pick] in P53; try reflexivity; exfalso; [|lia].
          change (Z.even (2 ^ 53 - 1)) with false in P53. lia. }
        unfold c in C. apply -> Z.compare_lt_iff in C. rewrite <- K in C. lia.
      * assert (n + 1 <= 2 ^ 53 - 1) by lia.
        assert (X1 : (n + 1) * 2 ^ (971 + 1074) <= (2 ^ 53 - 1) * 2 ^ (971 + 1074)).
        { apply Z.mul_le_mono_nonneg_r; [apply Z.pow_nonneg; lia|lia]. }
        assert (X2 : (2 ^ 53 - 1) * 2 ^ (971 + 1074) <= bound_num) by (vm_compute; discriminate).
        pose proof (MB _ _ (Z.le_trans _ _ _ X1 X2)). lia.
    + intro LT. destruct ME as [(_ & _ & ->)|(P53 & _ & ->)]; [lia|].
      exfalso. assert (n = 2 ^ 53 - 1 /\ c <> Lt) as (-> & NL).
      { destruct c; cbn [pick] in *; split; try lia; try discriminate; intro; cbn in *; lia. }
      unfold c in NL. apply -> Z.compare_ge_iff in NL. rewrite <- K in NL. lia.
  - split; [|intros _; destruct ME as [(_ & _ & ->)|(_ & _ & ->)]; lia].
    intros _. apply Z.lt_le_trans with ((n + 1) * 2 ^ (e0 + 1074) * D); [apply BD|]. apply MB.
    transitivity (2 ^ 53 * 2 ^ (970 + 1074)); [|vm_compute; discriminate].
    apply Z.mul_le_mono_nonneg; [lia|lia|apply Z.pow_nonneg; lia|apply pow2_le; lia].
Qed.

Lemma Qabs_sign neg A d : 0 <= A -> (Qabs (sign neg A # d) == A # d)%Q.
Proof. intro. unfold Qabs, Qeq. cbn. destruct neg; cbn [sign]; lia. Qed.

Lemma bound_frac D : 0 < D -> (overflow_bound == bound_num * D # (Z.to_pos D * tiny))%Q.
Proof.
  intro HD. unfold overflow_bound, bound_num, Qeq. cbn [Qnum Qden inject_Z].
  rewrite Pos2Z.inj_mul, Z2Pos.id, tiny_eq by exact HD. ring.
Qed.
Lemma Qlt_same a b d : (a # d < b # d)%Q <-> a < b.
Proof. unfold Qlt. cbn [Qnum Qden]. rewrite <- Z.mul_lt_mono_pos_r by lia. reflexivity. Qed.

Lemma pack_rounds neg A D X E x : 0 <= A -> 0 < D -> rounded A D (-1074) X E ->
  (x == sign neg A # (Z.to_pos D * tiny))%Q -> rounds_to x (pack neg X E).
Proof.
  intros HA HD R EX.
  pose proof (rounded_pair _ _ _ _ _ R) as (B & B'). pose proof (rounded_canonical _ _ _ _ _ R) as C.
  pose proof (rounded_below A D X E HD R) as BEL.
  assert (BP : 0 < bound_num * D) by (apply Z.mul_pos_pos; [vm_compute; reflexivity|exact HD]).
  unfold rounds_to.
  assert (INF : ~ (E <= 971) -> pack neg X E = S754_infinity neg).
  { intro L. destruct C as [C|C]; [lia|]. destruct X as [|p|p]; [lia| |lia]. cbn [pack].
    destruct (Z.leb_spec E 971); [lia|reflexivity]. }
  split; [|split].
  2:{ rewrite EX, (bound_frac D HD), Qle_same. intro L. rewrite INF; [|rewrite BEL; destruct neg; cbn [sign] in L; lia].
      destruct neg; [cbn [sign] in L; lia|reflexivity]. }
  2:{ assert (EO : (- (bound_num * D # Z.to_pos D * tiny) == - (bound_num * D) # Z.to_pos D * tiny)%Q) by reflexivity.
      rewrite EX, (bound_frac D HD), EO, Qle_same. intro L. rewrite INF; [|rewrite BEL; destruct neg; cbn [sign] in L; lia].
      destruct neg; [reflexivity|cbn [sign] in L; lia]. }
  intro LT. rewrite EX, (bound_frac D HD), Qabs_sign, Qlt_same in LT by exact HA. apply BEL in LT as LE.
  assert (FF : finite_float (pack neg X E)).
  { destruct X as [|p|p]; [exact I| |lia]. cbn [pack] in *. destruct (Z.leb_spec E 971); [|lia].
    cbn [finite_float]. split; [split; [exact B|split; assumption]|assumption]. }
  apply finite_is in FF. split; [exact FF|]. intros g FG.
  rewrite EX, !distance by assumption. rewrite Qle_same, Qeq_same, (Q_of_Z _ FF), (Q_of_Z _ FG), Qeq_same.
  assert (EF : Z_of (pack neg X E) = sign neg (X * 2 ^ (E - -1074))).
  { replace (E - -1074) with (E + 1074) by lia. destruct X as [|p|p]; [now destruct neg| |lia]. cbn [pack] in *.
    destruct (Z.leb_spec E 971); [|lia]. cbn [Z_of]. destruct neg; cbn [sign]; [|reflexivity].
    change (Z.neg p) with (- Z.pos p). ring. }
  assert (EV : Z.even X = true -> even_mantissa (pack neg X E)).
  { destruct X as [|p|p]; [exact (fun _ => I)| |lia]. cbn [pack]. destruct (E <=? 971); [exact (fun h => h)|exact (fun _ => I)]. }
  rewrite EF. set (F := X * 2 ^ (E - -1074)) in *.
  pose proof (finite_scaled g FG) as SG.
  assert (SG' : scaled_float (-1074) (sign neg (Z_of g))).
  { destruct SG as (a & b & P & EQ). exists a, b. split; [exact P|]. rewrite <- EQ. destruct neg; cbn [sign]; lia. }
  destruct (rounded_nearest A D (-1074) X E _ ltac:(lia) HD R SG') as (N1 & N2). fold F in N1, N2.
  assert (S1 : Z.abs (sign neg A - sign neg F * D) = Z.abs (A - F * D)) by (destruct neg; cbn [sign]; lia).
  assert (S2 : Z.abs (sign neg A - Z_of g * D) = Z.abs (A - sign neg (Z_of g) * D)) by (destruct neg; cbn [sign]; lia).
  rewrite S1, S2. split; [exact N1|]. intro EQ.
  destruct (Z.eq_dec (sign neg (Z_of g)) F) as [EG|NG].
  - left. rewrite <- EG. destruct neg; cbn [sign]; lia.
  - right. apply EV. now apply N2.
Qed.

(** The same with any scale below. *)
Lemma rounded_scale A B j X E : 0 < B -> 0 <= j ->
  rounded A B (-1074 - j) X E -> rounded A (B * 2 ^ j) (-1074) X E.
Proof.
  intros HB Hj R. pose proof (pow2_pos j Hj) as P.
  apply (rounded_shift A (B * 2 ^ j) (-1074) j X E ltac:(lia) Hj).
  revert R. apply rounded_ratio; [exact HB|nia|ring].
Qed.

(** ** Zero *)

Lemma zero_rounds s x : (x == 0)%Q -> rounds_to x (S754_zero s).
Proof.
  intro E. unfold rounds_to.
  assert (P : (0 < overflow_bound)%Q) by (vm_compute; reflexivity).
  split; [|split; intro L; exfalso].
  - intros _. split; [split; [reflexivity|exact I]|]. intros g FG. split; [|now right].
    assert (EZ : (x - Q_of (S754_zero s) == 0)%Q) by (rewrite E; reflexivity).
    rewrite EZ. change (Qabs 0) with 0%Q. apply Qabs_nonneg.
  - rewrite E in L. apply (Qlt_not_le _ _ P L).
  - rewrite E in L. revert L. vm_compute. intro H. now apply H.
Qed.

(** ** Finite floats *)

Lemma finite_fields s m e : is_finite (S754_finite s m e) ->
  -1074 <= e <= 971 /\ Zdigits2 (Z.pos m) <= 53 /\ (e = -1074 \/ Zdigits2 (Z.pos m) = 53).
Proof.
  intros (V & _). cbn [valid_binary] in V. unfold bounded, canonical_mantissa in V. apply andb_true_iff in V as (V & L).
  apply Zeq_bool_eq in V. rewrite fexp_eq in V. change (Z.pos (digits2_pos m)) with (Zdigits2 (Z.pos m)) in V.
  apply Z.leb_le in L. change (1024 - 53) with 971 in L. lia.
Qed.

Lemma digits_mul p q : 0 < p -> 0 < q -> Zdigits2 p + Zdigits2 q - 1 <= Zdigits2 (p * q) <= Zdigits2 p + Zdigits2 q.
Proof.
  intros HP HQ. destruct (digits_bound p HP) as (P1 & P2), (digits_bound q HQ) as (Q1 & Q2).
  assert (DP : 1 <= Zdigits2 p) by (destruct p; cbn; lia). assert (DQ : 1 <= Zdigits2 q) by (destruct q; cbn; lia).
  split.
  - enough (Zdigits2 p - 1 + (Zdigits2 q - 1) + 1 <= Zdigits2 (p * q)) by lia.
    apply digits_ge; [lia|]. rewrite Z.pow_add_r by lia.
    apply Z.mul_le_mono_nonneg; try lia; apply Z.pow_nonneg; lia.
  - apply digits_le; [lia|]. split; [nia|]. rewrite Z.pow_add_r by lia. apply Z.mul_lt_mono_nonneg; lia.
Qed.

(** ** Multiplication *)

Lemma Q_signed s m e : -1074 <= e ->
  forall f, f = S754_finite s m e -> is_finite f -> (Q_of f == sign s (Z.pos m) * 2 ^ (e + 1074) # tiny)%Q.
Proof. intros E f -> F. rewrite (Q_of_Z _ F). cbn [Z_of]. now destruct s. Qed.

Theorem f_mul_rounds x y : is_finite x -> is_finite y -> rounds_to (Q_of x * Q_of y) (f_mul x y).
Proof.
  intros FX FY. unfold f_mul.
  destruct x as [s|s| |s m e], y as [s'|s'| |s' m' e']; try solve [destruct FX as [_ []]]; try solve [destruct FY as [_ []]];
    cbn [SFmul]; try (apply zero_rounds; cbn [Q_of]; ring).
  destruct (finite_fields s m e FX) as (E & D & C), (finite_fields s' m' e' FY) as (E' & D' & C').
  set (M := Z.pos m * Z.pos m'). change (Z.pos (m * m')) with M.
  assert (HM : 0 < M) by (unfold M; lia).
  pose proof (digits_mul (Z.pos m) (Z.pos m') ltac:(lia) ltac:(lia)) as (DM & _). fold M in DM.
  assert (1 <= Zdigits2 (Z.pos m)) by (cbn; lia). assert (1 <= Zdigits2 (Z.pos m')) by (cbn; lia).
  set (j := 1074 + 0). set (T := -1074 - j).
  destruct (round_aux (xorb s s') M (e + e') (M * 2 ^ (e + e' - T)) 1 T ltac:(unfold T, j; lia) ltac:(unfold T, j; lia) ltac:(lia) HM)
    as (X & Y & R & ->).
  - rewrite fexp_eq. lia.
  - left. ring.
  - unfold T in R. apply (rounded_scale _ 1 j X Y) in R; [|lia|unfold j; lia]. fold T in R.
    assert (PJ : 0 < 1 * 2 ^ j) by (vm_compute; reflexivity).
    assert (AN : 0 <= M * 2 ^ (e + e' - T)) by (apply Z.mul_nonneg_nonneg; [lia|apply Z.pow_nonneg; lia]).
    apply (pack_rounds _ _ _ _ _ _ AN PJ R).
    rewrite (Q_signed s m e ltac:(lia) _ eq_refl FX), (Q_signed s' m' e' ltac:(lia) _ eq_refl FY).
    unfold Qeq, Qmult. cbn [Qnum Qden]. rewrite !Pos2Z.inj_mul, Z2Pos.id, !tiny_eq by exact PJ.
    assert (EE : 2 ^ (e + e' - T) = 2 ^ (e + 1074) * 2 ^ (e' + 1074)).
    { rewrite <- Z.pow_add_r by lia. f_equal. unfold T, j. lia. }
    rewrite EE. unfold j. rewrite Z.add_0_r. unfold M. destruct s, s'; cbn [xorb sign]; ring.
Qed.

(** ** Addition and subtraction *)

Lemma align_value m e ez : ez <= e -> Z.pos (fst (shl_align m e ez)) = Z.pos m * 2 ^ (e - ez).
Proof.
  intro L. unfold shl_align. destruct (ez - e) as [|q|q] eqn:EQ; [|lia|]; cbn [fst].
  - replace (e - ez) with 0 by lia. change (2 ^ 0) with 1. lia.
  - rewrite shift_pos_eq. f_equal. f_equal. lia.
Qed.

Lemma normalize_rounds z e sz x : -1074 <= e -> (x == z * 2 ^ (e + 1074) # tiny)%Q ->
  rounds_to x (binary_normalize 53 1024 z e sz).
Proof.
  intros E EX. pose proof (Z.pow_nonneg 2 (e + 1074) ltac:(lia)) as PN.
  assert (K : forall neg p, z = sign neg (Z.pos p) -> rounds_to x (binary_round 53 1024 neg p e)).
  { intros neg p ->.
    destruct (binary_round_rounded neg p e (Z.pos p * 2 ^ (e + 1074)) 1 (-1074) ltac:(lia) ltac:(lia) ltac:(lia)) as (X & Y & R & ->).
    { left. replace (e - -1074) with (e + 1074) by lia. ring. }
    apply (pack_rounds neg (Z.pos p * 2 ^ (e + 1074)) 1 X Y x); [nia|lia|exact R|]. rewrite EX.
    unfold Qeq. cbn [Qnum Qden]. rewrite Pos2Z.inj_mul. change (Z.pos (Z.to_pos 1)) with 1. destruct neg; cbn [sign]; ring. }
  destruct z as [|p|p]; cbn [binary_normalize].
  - apply zero_rounds. rewrite EX. reflexivity.
  - now apply (K false).
  - now apply (K true).
Qed.

Lemma cond_sign s p : cond_Zopp s (Z.pos p) = sign s (Z.pos p).
Proof. now destruct s. Qed.

Lemma finite_rounds x : is_finite x -> forall q, (q == Q_of x)%Q -> rounds_to q x.
Proof.
  intros FX q EQ. destruct x as [s|s| |s m e]; try solve [destruct FX as [_ []]].
  - apply zero_rounds. rewrite EQ. reflexivity.
  - destruct (finite_fields s m e FX) as (E & D & C).
    pose proof (digits_bound (Z.pos m) ltac:(lia)) as (L & U).
    assert (CN : canonical (Z.pos m) e).
    { split; [|split]; [|lia|].
      - split; [lia|]. eapply Z.lt_le_trans; [exact U|]. apply pow2_le; [cbn; lia|lia].
      - destruct C as [C|C]; [now left|right]. rewrite C in L. exact L. }
    pose proof (rounded_exact _ _ CN) as R.
    replace (S754_finite s m e) with (pack s (Z.pos m) e).
    2:{ cbn [pack]. destruct (Z.leb_spec e 971); [reflexivity|lia]. }
    assert (PN : 0 <= 2 ^ (e + 1074)) by (apply Z.pow_nonneg; lia).
    apply (pack_rounds s (Z.pos m * 2 ^ (e + 1074)) 1 (Z.pos m) e); [nia|lia|exact R|].
    rewrite EQ, (Q_signed s m e ltac:(lia) _ eq_refl FX). unfold Qeq. cbn [Qnum Qden]. rewrite Pos2Z.inj_mul.
    change (Z.pos (Z.to_pos 1)) with 1. destruct s; cbn [sign]; ring.
Qed.

Lemma f_opp_finite x : is_finite x -> is_finite (f_opp x) /\ (Q_of (f_opp x) == - Q_of x)%Q.
Proof.
  intros (V & F). destruct x as [s|s| |s m e]; try contradiction; cbn [f_opp SFopp].
  - split; [now split|reflexivity].
  - assert (F' : is_finite (S754_finite (negb s) m e)) by (split; [exact V|exact I]).
    split; [exact F'|].
    cbn [Q_of]. destruct (0 <=? e); destruct s; unfold Qeq, Qopp; cbn [Qnum Qden inject_Z negb]; lia.
Qed.

Theorem f_add_rounds x y : is_finite x -> is_finite y -> rounds_to (Q_of x + Q_of y) (f_add x y).
Proof.
  intros FX FY. unfold f_add.
  destruct x as [s|s| |s m e], y as [s'|s'| |s' m' e']; try solve [destruct FX as [_ []]]; try solve [destruct FY as [_ []]];
    cbn [SFadd].
  - destruct (Bool.eqb s s'); apply zero_rounds; reflexivity.
  - apply finite_rounds; [exact FY|]. change (Q_of (S754_zero s)) with 0%Q. ring.
  - apply finite_rounds; [exact FX|]. change (Q_of (S754_zero s')) with 0%Q. ring.
  - destruct (finite_fields s m e FX) as (E & _), (finite_fields s' m' e' FY) as (E' & _).
    set (ez := Z.min e e'). assert (-1074 <= ez <= e /\ ez <= e') by (unfold ez; lia).
    apply normalize_rounds; [lia|].
    rewrite !cond_sign, !align_value by lia.
    rewrite (Q_signed s m e ltac:(lia) _ eq_refl FX), (Q_signed s' m' e' ltac:(lia) _ eq_refl FY).
    assert (P1 : 2 ^ (e + 1074) = 2 ^ (e - ez) * 2 ^ (ez + 1074)) by (rewrite <- Z.pow_add_r by lia; f_equal; lia).
    assert (P2 : 2 ^ (e' + 1074) = 2 ^ (e' - ez) * 2 ^ (ez + 1074)) by (rewrite <- Z.pow_add_r by lia; f_equal; lia).
    unfold Qeq, Qplus. cbn [Qnum Qden]. rewrite Pos2Z.inj_mul, P1, P2.
    destruct s, s'; cbn [sign cond_Zopp]; ring.
Qed.

Theorem f_sub_rounds x y : is_finite x -> is_finite y -> rounds_to (Q_of x - Q_of y) (f_sub x y).
Proof.
  intros FX FY. unfold f_sub.
  destruct x as [s|s| |s m e], y as [s'|s'| |s' m' e']; try solve [destruct FX as [_ []]]; try solve [destruct FY as [_ []]];
    cbn [SFsub].
  - destruct (Bool.eqb s (negb s')); apply zero_rounds; reflexivity.
  - destruct (f_opp_finite _ FY) as (FO & EO). apply finite_rounds; [exact FO|]. cbn [f_opp SFopp] in EO. rewrite EO. change (Q_of (S754_zero s)) with 0%Q. ring.
  - apply finite_rounds; [exact FX|]. change (Q_of (S754_zero s')) with 0%Q. ring.
  - destruct (finite_fields s m e FX) as (E & _), (finite_fields s' m' e' FY) as (E' & _).
    set (ez := Z.min e e'). assert (-1074 <= ez <= e /\ ez <= e') by (unfold ez; lia).
    apply normalize_rounds; [lia|].
    rewrite !cond_sign, !align_value by lia.
    rewrite (Q_signed s m e ltac:(lia) _ eq_refl FX), (Q_signed s' m' e' ltac:(lia) _ eq_refl FY).
    assert (P1 : 2 ^ (e + 1074) = 2 ^ (e - ez) * 2 ^ (ez + 1074)) by (rewrite <- Z.pow_add_r by lia; f_equal; lia).
    assert (P2 : 2 ^ (e' + 1074) = 2 ^ (e' - ez) * 2 ^ (ez + 1074)) by (rewrite <- Z.pow_add_r by lia; f_equal; lia).
    unfold Qeq, Qminus, Qplus, Qopp. cbn [Qnum Qden]. rewrite Pos2Z.inj_mul, P1, P2.
    destruct s, s'; cbn [sign cond_Zopp]; ring.
Qed.

(** ** Integers *)

Theorem f_of_Z_rounds z : rounds_to (inject_Z z) (f_of_Z z).
Proof.
  assert (E : (inject_Z z == z * 2 ^ (0 + 1074) # tiny)%Q).
  { unfold Qeq. cbn [Qnum Qden inject_Z]. rewrite tiny_eq. change (0 + 1074) with 1074. ring. }
  unfold f_of_Z. destruct z as [|p|p]; [apply zero_rounds; reflexivity| |];
    apply normalize_rounds; try lia; exact E.
Qed.

(** ** Division *)

(** Two more bits of the quotient hold where the rest lies. *)
Definition loc_code (l : location) : Z :=
  match l with loc_Exact => 0 | loc_Inexact Lt => 1 | loc_Inexact Eq => 2 | loc_Inexact Gt => 3 end.

Lemma shr_rec_eta a b c a' b' c' : a = a' -> b = b' -> c = c' -> Build_shr_record a b c = Build_shr_record a' b' c'.
Proof. congruence. Qed.

Lemma loc_two_shifts q l : 0 <= q ->
  shr_record_of_loc q l = Nat.iter 2 shr_1 (Build_shr_record (4 * q + loc_code l) false false).
Proof.
  intro Q. destruct (Z.eq_dec (4 * q + loc_code l) 0) as [E|N].
  - assert (q = 0) by (destruct l as [|[]]; cbn [loc_code] in E; lia). subst q.
    destruct l as [|[]]; cbn [loc_code] in E; try lia. reflexivity.
  - destruct q as [|p|p]; [| |lia]; destruct l as [|[]]; reflexivity || (cbn [loc_code] in N; lia).
Qed.

Lemma loc_shifts q l e k : 0 <= q -> 0 <= k ->
  shr (shr_record_of_loc q l) e k = shr (Build_shr_record (4 * q + loc_code l) false false) (e - 2) (k + 2).
Proof.
  intros Q K. rewrite loc_two_shifts by exact Q. set (r := Build_shr_record _ _ _).
  destruct k as [|p|p]; [| |lia].
  - cbn [shr Z.add]. f_equal. lia.
  - change (Z.pos p + 2) with (Z.pos (p + 2)). cbn [shr]. rewrite !iter_pos_nat. f_equal; [|lia].
    rewrite Pos2Nat.inj_add. change (Pos.to_nat 2) with 2%nat.
    generalize (Pos.to_nat p) as n. induction n as [|n IH]; [reflexivity|].
    change (shr_1 (Nat.iter n shr_1 (Nat.iter 2 shr_1 r)) = shr_1 (Nat.iter (n + 2) shr_1 r)). now rewrite IH.
Qed.

Lemma round_loc_exact s q ez l :
  0 <= q -> 0 <= fexp 53 1024 (Zdigits2 q + ez) - ez ->
  fexp 53 1024 (Zdigits2 q + ez) = fexp 53 1024 (Zdigits2 (4 * q + loc_code l) + (ez - 2)) ->
  binary_round_aux 53 1024 s q ez l = binary_round_aux 53 1024 s (4 * q + loc_code l) (ez - 2) loc_Exact.
Proof.
  intros Q K E. unfold binary_round_aux. unfold shr_fexp at 1 3. rewrite <- E.
  rewrite loc_shifts by assumption. cbn [shr_record_of_loc].
  replace (fexp 53 1024 (Zdigits2 q + ez) - ez + 2) with (fexp 53 1024 (Zdigits2 q + ez) - (ez - 2)) by lia.
  reflexivity.
Qed.

Lemma digits_quotient a b : 0 < a -> 0 < b -> Zdigits2 a - Zdigits2 b <= Zdigits2 (a / b).
Proof.
  intros HA HB. destruct (digits_bound a HA) as (A1 & A2), (digits_bound b HB) as (B1 & B2).
  assert (DB : 1 <= Zdigits2 b) by (destruct b; cbn; lia).
  assert (DQ : 0 <= Zdigits2 (a / b)) by (destruct (a / b); cbn; lia).
  destruct (Z.le_gt_cases (Zdigits2 a) (Zdigits2 b)) as [L|L]; [lia|].
  enough (Zdigits2 a - 1 - Zdigits2 b + 1 <= Zdigits2 (a / b)) by lia.
  apply digits_ge; [lia|]. apply Z.div_le_lower_bound; [lia|].
  transitivity (2 ^ (Zdigits2 a - 1)); [|exact A1].
  rewrite (pow2_split (Zdigits2 a - 1) (Zdigits2 b)), Z.mul_comm by lia.
  apply Z.mul_le_mono_nonneg_l; [apply Z.pow_nonneg|]; lia.
Qed.

Lemma digits_four q c : 0 < q -> 0 <= c < 4 -> Zdigits2 (4 * q + c) = Zdigits2 q + 2.
Proof.
  intros Q C. destruct (digits_bound q Q) as (L & U). assert (1 <= Zdigits2 q) by (destruct q; cbn; lia).
  assert (E : forall d, 0 <= d -> 2 ^ (d + 2) = 4 * 2 ^ d) by (intros; rewrite Z.pow_add_r by lia; lia).
  apply Z.le_antisymm.
  - apply digits_le; [lia|]. rewrite E by lia. lia.
  - enough (Zdigits2 q - 1 + 2 + 1 <= Zdigits2 (4 * q + c)) by lia.
    apply digits_ge; [lia|]. rewrite E by lia. lia.
Qed.
Lemma digits_shifted a k : 0 < a -> 0 <= k -> Zdigits2 (a * 2 ^ k) = Zdigits2 a + k.
Proof.
  intros HA K. destruct (digits_bound a HA) as (L & U). pose proof (pow2_pos k K) as P.
  assert (1 <= Zdigits2 a) by (destruct a; cbn; lia).
  apply Z.le_antisymm.
  - apply digits_le; [lia|]. rewrite Z.pow_add_r by lia. nia.
  - enough (Zdigits2 a - 1 + k + 1 <= Zdigits2 (a * 2 ^ k)) by lia.
    apply digits_ge; [lia|]. rewrite Z.pow_add_r by lia. nia.
Qed.

Lemma new_location_spec nb r : 0 < nb -> 0 <= r < nb ->
  new_location nb r = if r =? 0 then loc_Exact else loc_Inexact (2 * r ?= nb).
Proof.
  intros N R. unfold new_location, new_location_even, new_location_odd.
  destruct (Z.even nb) eqn:EV.
  - destruct (Z.eqb_spec r 0) as [->|NZ]; [reflexivity|]. destruct (Zeq_bool r 0) eqn:Z; [apply Zeq_bool_eq in Z; lia|reflexivity].
  - destruct (Z.eqb_spec r 0) as [->|NZ]; [reflexivity|]. destruct (Zeq_bool r 0) eqn:Z; [apply Zeq_bool_eq in Z; lia|].
    f_equal. assert (OD : Z.odd nb = true) by (now rewrite <- Z.negb_even, EV).
    apply Z.odd_spec in OD as (c & OD).
    destruct (Z.compare_spec (2 * r) nb) as [C|C|C]; [lia| |].
    + destruct (Z.compare_spec (2 * r + 1) nb); [reflexivity|reflexivity|lia].
    + destruct (Z.compare_spec (2 * r + 1) nb); [lia|lia|reflexivity].
Qed.

Theorem f_div_rounds x y : is_finite x -> is_finite y -> f_is_zero y = false ->
  rounds_to (Q_of x / Q_of y) (f_div x y).
Proof.
  intros FX FY NZ. unfold f_div.
  destruct x as [s|s| |s m e], y as [s'|s'| |s' m' e']; try solve [destruct FX as [_ []]]; try solve [destruct FY as [_ []]];
    cbn [SFdiv]; try discriminate NZ.
  { apply zero_rounds. change (Q_of (S754_zero s)) with 0%Q. unfold Qdiv. ring. }
  destruct (finite_fields s m e FX) as (E & D & C), (finite_fields s' m' e' FY) as (E' & D' & C').
  unfold SFdiv_core_binary.
  set (d1 := Zdigits2 (Z.pos m)) in *. set (d2 := Zdigits2 (Z.pos m')) in *.
  assert (1 <= d1 /\ 1 <= d2) as (D1 & D2) by (unfold d1, d2; cbn; lia).
  set (ez := Z.min (fexp 53 1024 (d1 + e - (d2 + e'))) (e - e')).
  set (k := e - e' - ez). assert (K : 0 <= k) by (unfold k, ez; lia).
  set (n := match k with Z0 => Z.pos m | Z.pos _ => Z.shiftl (Z.pos m) k | Z.neg _ => 0 end).
  assert (EN : n = Z.pos m * 2 ^ k).
  { unfold n. destruct k as [|q|q]; [change (2 ^ 0) with 1; lia|now rewrite Z.shiftl_mul_pow2 by lia|lia]. }
  clearbody n. pose proof (pow2_pos k K) as PK. assert (HN : 0 < n) by (rewrite EN; lia).
  pose proof (Z_div_mod_full n (Z.pos m') ltac:(lia)) as DM.
  unfold Z.div_eucl. fold (Z.div_eucl n (Z.pos m')). destruct (Z.div_eucl n (Z.pos m')) as (q, r) eqn:EDE.
  destruct DM as (DM & RM). assert (R : 0 <= r < Z.pos m') by (destruct RM as [RM|RM]; lia). clear RM.
  assert (EQ : q = n / Z.pos m') by (unfold Z.div; now rewrite EDE).
  assert (HQ : 0 <= q) by (rewrite EQ; apply Z.div_pos; lia).
  rewrite new_location_spec by lia.
  set (l := if r =? 0 then loc_Exact else loc_Inexact (2 * r ?= Z.pos m')).
  assert (LC : (r = 0 /\ loc_code l = 0) \/ (2 * r = Z.pos m' /\ loc_code l = 2) \/
               (0 < r /\ 2 * r < Z.pos m' /\ loc_code l = 1) \/ (Z.pos m' < 2 * r /\ loc_code l = 3)).
  { unfold l. destruct (Z.eqb_spec r 0); [now left|right]. destruct (Z.compare_spec (2 * r) (Z.pos m')); cbn [loc_code]; lia. }
  assert (DN : Zdigits2 n = d1 + k) by (rewrite EN; apply digits_shifted; lia).
  pose proof (digits_quotient n (Z.pos m') HN ltac:(lia)) as DQ. rewrite <- EQ, DN in DQ. fold d2 in DQ.
  assert (EZ : ez = Z.min (Z.max (d1 + e - (d2 + e') - 53) (-1074)) (e - e')) by (unfold ez; now rewrite fexp_eq).
  assert (KK : 0 <= fexp 53 1024 (Zdigits2 q + ez) - ez) by (rewrite fexp_eq; unfold k in *; lia).
  assert (FE : fexp 53 1024 (Zdigits2 q + ez) = fexp 53 1024 (Zdigits2 (4 * q + loc_code l) + (ez - 2))).
  { destruct (Z.eq_dec q 0) as [Q0|Q0].
    - rewrite Q0 in *. cbn [Z.mul Z.add]. rewrite !fexp_eq. change (Zdigits2 0) with 0 in *.
      assert (NM : n < Z.pos m') by lia.
      assert (LD : Zdigits2 n <= d2).
      { apply digits_le; [lia|]. split; [lia|]. pose proof (digits_bound (Z.pos m') ltac:(lia)) as (_ & U). fold d2 in U. lia. }
      assert (0 <= Zdigits2 (loc_code l) <= 2).
      { destruct LC as [(_ & ->)|[(_ & ->)|[(_ & _ & ->)|(_ & ->)]]]; cbn; lia. }
      unfold k in *. lia.
    - rewrite digits_four by (lia || (destruct LC as [(_ & ->)|[(_ & ->)|[(_ & _ & ->)|(_ & ->)]]]; lia)).
      f_equal. lia. }
  rewrite round_loc_exact by assumption.
  set (M := 4 * q + loc_code l) in *.
  assert (HM : 0 < M).
  { unfold M. destruct (Z.eq_dec q 0) as [Q0|Q0]; [|destruct LC as [(_ & ->)|[(_ & ->)|[(_ & _ & ->)|(_ & ->)]]]; lia].
    rewrite Q0 in *. assert (r <> 0) by lia. destruct LC as [(? & ->)|[(_ & ->)|[(_ & _ & ->)|(_ & ->)]]]; lia. }
  set (T := -1074 - 1074).
  assert (HT : T <= ez - 2) by (unfold T; lia).
  set (U := 2 ^ (ez - 2 - T)). assert (PU : 0 < U) by (apply pow2_pos; lia).
  destruct (round_aux (xorb s s') M (ez - 2) (n * (4 * U)) (Z.pos m') T ltac:(unfold T; lia) HT ltac:(lia) HM) as (X & Y & RD & ->).
  - rewrite <- FE. lia.
  - fold U. rewrite <- FE. unfold stands, M.
    assert (S4 : n * (4 * U) = (4 * q * Z.pos m' + 4 * r) * U) by (rewrite DM; ring).
    rewrite S4.
    assert (MU : forall x y, x < y -> x * U < y * U) by (intros; apply Z.mul_lt_mono_pos_r; lia).
    assert (S5 : forall c, c * (U * Z.pos m') = c * Z.pos m' * U) by (intro; ring). rewrite !S5.
    destruct LC as [(R0 & ->)|[(R0 & ->)|[(R0 & R1 & ->)|(R0 & ->)]]].
    + left. f_equal. lia.
    + left. f_equal. lia.
    + right. split; [|split; [split; apply MU; lia|lia]].
      replace (4 * q + 1) with (1 + 2 * (2 * q)) by lia. now rewrite Z.odd_add_mul_2.
    + right. split; [|split; [split; apply MU; lia|lia]].
      replace (4 * q + 3) with (3 + 2 * (2 * q)) by lia. now rewrite Z.odd_add_mul_2.
  - apply (rounded_scale _ (Z.pos m') 1074 X Y) in RD; [|lia|lia].
    assert (PD : 0 < Z.pos m' * 2 ^ 1074) by (apply Z.mul_pos_pos; [lia|apply pow2_pos; lia]).
    apply (pack_rounds (xorb s s') (n * (4 * U)) (Z.pos m' * 2 ^ 1074) X Y); [nia|exact PD|exact RD|].
    rewrite (Q_signed s m e ltac:(lia) _ eq_refl FX), (Q_signed s' m' e' ltac:(lia) _ eq_refl FY).
    assert (P2 : 0 < 2 ^ (e' + 1074)) by (apply pow2_pos; lia).
    assert (NZQ : ~ (sign s' (Z.pos m') * 2 ^ (e' + 1074) # tiny == 0)%Q).
    { unfold Qeq. cbn [Qnum Qden]. destruct s'; cbn [sign]; lia. }
    apply (Qmult_inj_r _ _ _ NZQ). unfold Qdiv. rewrite <- Qmult_assoc, (Qmult_comm (/ _)), Qmult_inv_r, Qmult_1_r by exact NZQ.
    unfold Qeq, Qmult. cbn [Qnum Qden]. rewrite !Pos2Z.inj_mul, Z2Pos.id, !tiny_eq by exact PD.
    assert (EU : 4 * U * 2 ^ k * 2 ^ (e' + 1074) = 2 ^ (e + 1074) * 2 ^ 1074 * 2 ^ 1074).
    { change 4 with (2 ^ 2). unfold U. rewrite <- !Z.pow_add_r by (unfold T, k in *; lia). f_equal. unfold T, k. lia. }
    rewrite EN. replace (sign (xorb s s') (Z.pos m * 2 ^ k * (4 * U)) * (sign s' (Z.pos m') * 2 ^ (e' + 1074)) * 2 ^ 1074)
      with (sign s (Z.pos m) * Z.pos m' * (4 * U * 2 ^ k * 2 ^ (e' + 1074)) * 2 ^ 1074) by (destruct s, s'; cbn [xorb sign]; ring).
    rewrite EU. ring.
Qed.
