(** How the standard library's [binary_normalize] rounds: to the nearest
    float, ties to the even mantissa.  Integers only, no axioms. *)

From Coq Require Import ZArith List Bool Lia.
From Verif Require Import Base F64 F64Proofs.
Open Scope Z_scope.

(** ** Powers of two *)

Lemma pow2_pos k : 0 <= k -> 0 < 2 ^ k.
Proof. intro. now apply Z.pow_pos_nonneg. Qed.
Lemma pow2_succ k : 0 <= k -> 2 ^ (k + 1) = 2 * 2 ^ k.
Proof. intro. rewrite Z.pow_add_r by lia. lia. Qed.
Lemma pow2_split a b : 0 <= b -> b <= a -> 2 ^ a = 2 ^ (a - b) * 2 ^ b.
Proof. intros. rewrite <- Z.pow_add_r by lia. f_equal. lia. Qed.
Lemma pow2_le a b : 0 <= a -> a <= b -> 2 ^ a <= 2 ^ b.
Proof. intros. apply Z.pow_le_mono_r; lia. Qed.

(** ** Shifting right *)

Lemma iter_pos_nat {A} (f : A -> A) p : forall x, iter_pos f p x = Nat.iter (Pos.to_nat p) f x.
Proof.
  assert (H : forall n m x, Nat.iter (n + m) f x = Nat.iter n f (Nat.iter m f x)).
  { induction n as [|n IH]; intros; [reflexivity|].
    change (f (Nat.iter (n + m) f x) = f (Nat.iter n f (Nat.iter m f x))). now rewrite IH. }
  induction p; intro x; cbn [iter_pos].
  - rewrite !IHp. rewrite Pos2Nat.inj_xI.
    replace (S (2 * Pos.to_nat p))%nat with (Pos.to_nat p + Pos.to_nat p + 1)%nat by lia.
    rewrite !H. reflexivity.
  - rewrite !IHp. rewrite Pos2Nat.inj_xO.
    replace (2 * Pos.to_nat p)%nat with (Pos.to_nat p + Pos.to_nat p)%nat by lia. now rewrite H.
  - reflexivity.
Qed.

Lemma shr_1_eq m r s : 0 <= m ->
  shr_1 (Build_shr_record m r s) = Build_shr_record (m / 2) (Z.odd m) (r || s).
Proof.
  intro H. destruct m as [|p|p]; [reflexivity| |lia]. destruct p as [p|p|]; cbn [shr_1]; [| |reflexivity].
  - f_equal. change (Z.pos p~1) with (2 * Z.pos p + 1). now rewrite Z.mul_comm, Z.div_add_l by lia.
  - f_equal. change (Z.pos p~0) with (2 * Z.pos p). now rewrite Z.mul_comm, Z.div_mul by lia.
Qed.

Lemma mod_pow_step M k : 0 <= M -> 0 <= k ->
  M mod 2 ^ (k + 1) = (if Z.odd (M / 2 ^ k) then 2 ^ k else 0) + M mod 2 ^ k.
Proof.
  intros HM Hk. rewrite pow2_succ by lia. pose proof (pow2_pos k Hk).
  rewrite Z.mul_comm, Z.rem_mul_r by lia.
  rewrite Zmod_odd. destruct (Z.odd _); lia.
Qed.

Lemma shr_iter n : forall M, 0 <= M ->
  Nat.iter (S n) shr_1 (Build_shr_record M false false) =
  Build_shr_record (M / 2 ^ Z.of_nat (S n)) (Z.odd (M / 2 ^ Z.of_nat n)) (negb (M mod 2 ^ Z.of_nat n =? 0)).
Proof.
  induction n as [|n IH]; intros M HM.
  - cbn [Nat.iter nat_rect]. rewrite shr_1_eq by lia. change (2 ^ Z.of_nat 0) with 1. rewrite Z.div_1_r, Z.mod_1_r. reflexivity.
  - change (Nat.iter (S (S n)) shr_1 _) with (shr_1 (Nat.iter (S n) shr_1 (Build_shr_record M false false))).
    rewrite IH by exact HM. rewrite shr_1_eq by (apply Z.div_pos; [lia|apply pow2_pos; lia]).
    pose proof (pow2_pos (Z.of_nat n) ltac:(lia)).
    f_equal.
    + rewrite Z.div_div by (try lia; apply Z.neq_sym, Z.lt_neq, pow2_pos; lia).
      rewrite (Nat2Z.inj_succ (S n)), <- Z.add_1_r, pow2_succ by lia. now rewrite Z.mul_comm.
    + rewrite (Nat2Z.inj_succ n), <- Z.add_1_r, mod_pow_step by lia.
      pose proof (Z.mod_pos_bound M (2 ^ Z.of_nat n) ltac:(lia)).
      destruct (Z.odd _); cbn [orb]; destruct (Z.eqb_spec (M mod 2 ^ Z.of_nat n) 0); cbn [negb];
        symmetry; (apply negb_true_iff, Z.eqb_neq || apply negb_false_iff, Z.eqb_eq); lia.
Qed.

(** ** Rounding *)

(** Between n and n + 1, on which side of the middle. *)
Definition pick (n : Z) (c : comparison) : Z :=
  match c with Lt => n | Gt => n + 1 | Eq => if Z.even n then n else n + 1 end.

(** [rounded A B T m e]: the float m * 2^e is A / B * 2^T rounded to nearest
    even; n * 2^e0 is the float just below. *)
Definition rounded (A B T m e : Z) : Prop :=
  exists n e0,
    -1074 <= e0 /\ 0 <= n < 2 ^ 53 /\ (e0 = -1074 \/ 2 ^ 52 <= n) /\
    n * 2 ^ (e0 - T) * B <= A < (n + 1) * 2 ^ (e0 - T) * B /\
    let N := pick n (2 * A ?= (2 * n + 1) * 2 ^ (e0 - T) * B) in
    (N < 2 ^ 53 /\ m = N /\ e = e0 \/ N = 2 ^ 53 /\ m = 2 ^ 52 /\ e = e0 + 1).

(** What a mantissa and an exponent give. *)
Definition pack (s : bool) (m e : Z) : f64 :=
  match m with
  | Z0 => S754_zero s
  | Zpos p => if e <=? 971 then S754_finite s p e else S754_infinity s
  | Zneg _ => S754_nan
  end.

(** M stands for A / B: it is equal to it, or odd and next to it. *)
Definition stands (M A B k : Z) : Prop :=
  A = M * B \/ Z.odd M = true /\ (M - 1) * B < A < (M + 1) * B /\ 2 <= k.

Lemma digits_bound M : 0 < M -> 2 ^ (Zdigits2 M - 1) <= M < 2 ^ Zdigits2 M.
Proof. destruct M as [|p|p]; [lia| |lia]. intros _. apply digits2_pos_bound. Qed.
Lemma digits_ge M d : 0 <= d -> 2 ^ d <= M -> d + 1 <= Zdigits2 M.
Proof.
  intros Hd H. pose proof (pow2_pos d Hd). pose proof (digits_bound M ltac:(lia)) as (_ & B).
  destruct (Z.le_gt_cases (d + 1) (Zdigits2 M)); [assumption|]. exfalso.
  assert (0 <= Zdigits2 M) by (destruct M; cbn; lia).
  pose proof (pow2_le (Zdigits2 M) d ltac:(lia) ltac:(lia)). lia.
Qed.
Lemma digits_le M d : 0 <= d -> 0 < M < 2 ^ d -> Zdigits2 M <= d.
Proof.
  intros Hd H. pose proof (digits_bound M ltac:(lia)) as (B & _).
  destruct (Z.le_gt_cases (Zdigits2 M) d); [assumption|]. exfalso.
  pose proof (pow2_le d (Zdigits2 M - 1) ltac:(lia) ltac:(lia)). lia.
Qed.

Lemma fexp_eq x : fexp 53 1024 x = Z.max (x - 53) (-1074).
Proof. reflexivity. Qed.

Lemma second_shift N e0 m e :
  0 <= N -> -1074 <= e0 ->
  (N < 2 ^ 53 /\ m = N /\ e = e0 \/ N = 2 ^ 53 /\ m = 2 ^ 52 /\ e = e0 + 1) ->
  exists r s, shr_fexp 53 1024 N e0 loc_Exact = (Build_shr_record m r s, e).
Proof.
  intros H0 He [(L & -> & ->)|(-> & -> & ->)].
  - exists false, false. unfold shr_fexp, shr. rewrite fexp_eq. cbn [shr_record_of_loc].
    assert (Z.max (Zdigits2 N + e0 - 53) (-1074) - e0 <= 0).
    { destruct (Z.eq_dec N 0) as [->|]; [cbn; lia|]. pose proof (digits_le N 53 ltac:(lia) ltac:(lia)). lia. }
    destruct (Z.max _ _ - e0) as [|q|q]; [reflexivity|lia|reflexivity].
  - exists false, false. unfold shr_fexp, shr. rewrite fexp_eq.
    replace (Z.max (Zdigits2 (2 ^ 53) + e0 - 53) (-1074) - e0) with 1 by (change (Zdigits2 (2 ^ 53)) with 54; lia).
    cbn [iter_pos shr_record_of_loc]. reflexivity.
Qed.

Lemma round_loc M k : 0 < M -> 0 <= k ->
  forall mrs, mrs = fst (shr (Build_shr_record M false false) 0 k) ->
  shr_m mrs = M / 2 ^ k /\
  round_nearest_even (shr_m mrs) (loc_of_shr_record mrs) =
  pick (M / 2 ^ k) (2 * (M mod 2 ^ k) ?= 2 ^ k).
Proof.
  intros HM Hk mrs ->. destruct k as [|p|p]; [| |lia].
  - cbn [shr fst shr_m loc_of_shr_record round_nearest_even]. change (2 ^ 0) with 1.
    rewrite Z.div_1_r, Z.mod_1_r. split; reflexivity.
  - cbn [shr fst]. rewrite iter_pos_nat. destruct (Pos2Nat.is_succ p) as (n & E). rewrite E.
    rewrite shr_iter by lia. replace (Z.of_nat (S n)) with (Z.pos p) by lia.
    assert (EP : Z.pos p = Z.of_nat n + 1) by lia. rewrite EP.
    cbn [shr_m]. split; [reflexivity|].
    rewrite mod_pow_step by lia. rewrite pow2_succ by lia.
    pose proof (pow2_pos (Z.of_nat n) ltac:(lia)) as P.
    pose proof (Z.mod_pos_bound M (2 ^ Z.of_nat n) P) as B.
    destruct (Z.odd (M / 2 ^ Z.of_nat n)), (Z.eqb_spec (M mod 2 ^ Z.of_nat n) 0) as [Z0|Z0];
      cbn [negb loc_of_shr_record round_nearest_even].
    + rewrite Z0, Z.add_0_r, Z.compare_refl. reflexivity.
    + replace (_ ?= _) with Gt; [reflexivity|]. symmetry. apply Z.compare_gt_iff. lia.
    + rewrite Z0. replace (_ ?= _) with Lt; [reflexivity|]. symmetry. apply Z.compare_lt_iff. lia.
    + replace (_ ?= _) with Lt; [reflexivity|]. symmetry. apply Z.compare_lt_iff. lia.
Qed.

Lemma shr_exp mrs e k : 0 <= k -> shr mrs e k = (fst (shr mrs 0 k), e + k).
Proof. intro H. destruct k; [cbn; f_equal; lia|reflexivity|lia]. Qed.

Lemma compare_scale a b c : 0 < c -> (a * c ?= b * c) = (a ?= b).
Proof. intro. rewrite (Z.mul_comm a), (Z.mul_comm b). symmetry. apply Zmult_compare_compat_l. lia. Qed.

Lemma stands_bounds M A B k : 0 < B -> 0 < M -> 0 <= k -> stands M A B k ->
  (M / 2 ^ k) * 2 ^ k * B <= A < (M / 2 ^ k + 1) * 2 ^ k * B /\
  (2 * A ?= (2 * (M / 2 ^ k) + 1) * 2 ^ k * B) = (2 * (M mod 2 ^ k) ?= 2 ^ k).
Proof.
  intros HB HM Hk H. pose proof (pow2_pos k Hk) as P.
  pose proof (Z.div_mod M (2 ^ k) ltac:(lia)) as D. pose proof (Z.mod_pos_bound M (2 ^ k) P) as R.
  set (n := M / 2 ^ k) in *. set (r := M mod 2 ^ k) in *.
  destruct H as [-> | (O & L & K2)].
  - split; [nia|]. replace (2 * (M * B)) with ((2 * M) * B) by lia. rewrite compare_scale by exact HB.
    replace (2 * M) with (2 * r + 2 * n * 2 ^ k) by lia.
    replace ((2 * n + 1) * 2 ^ k) with (2 ^ k + 2 * n * 2 ^ k) by lia.
    rewrite (Z.add_comm (2 * r)), (Z.add_comm (2 ^ k)). apply Zplus_compare_compat_l || apply Zcompare_plus_compat.
  - assert (OR : Z.odd r = true).
    { rewrite D in O. replace (2 ^ k) with (2 * (2 * 2 ^ (k - 2))) in O
        by (replace k with (k - 2 + 1 + 1) at 2 by lia; rewrite !pow2_succ by lia; lia).
      rewrite <- Z.mul_assoc in O. rewrite Z.add_comm, Z.odd_add_mul_2 in O. exact O. }
    assert (EV : exists h, 2 ^ k = 4 * h /\ 0 < h).
    { exists (2 ^ (k - 2)). split; [|apply pow2_pos; lia].
      replace k with (k - 2 + 1 + 1) at 1 by lia. rewrite !pow2_succ by lia. lia. }
    destruct EV as (h & E4 & Hh). apply Z.odd_spec in OR as (c & OR).
    assert (MB : forall x y, x <= y -> x * B <= y * B) by (intros; apply Z.mul_le_mono_nonneg_r; lia).
    split.
    { pose proof (MB (n * 2 ^ k) (M - 1) ltac:(lia)). pose proof (MB (M + 1) ((n + 1) * 2 ^ k) ltac:(lia)). lia. }
    destruct (Z.compare_spec (2 * r) (2 ^ k)) as [E|E|E].
    + lia.
    + apply Z.compare_lt_iff. pose proof (MB (2 * (M + 1)) ((2 * n + 1) * 2 ^ k) ltac:(lia)). lia.
    + apply Z.compare_gt_iff. pose proof (MB ((2 * n + 1) * 2 ^ k) (2 * (M - 1)) ltac:(lia)). lia.
Qed.

Lemma pick_bounds n c : n <= pick n c <= n + 1.
Proof. destruct c; cbn; [destruct (Z.even n)| |]; lia. Qed.

Lemma round_aux s M ez A B T :
  T <= -1074 -> T <= ez -> 0 < B -> 0 < M ->
  let k := fexp 53 1024 (Zdigits2 M + ez) - ez in
  0 <= k -> stands M A (2 ^ (ez - T) * B) k ->
  exists m e, rounded A B T m e /\ binary_round_aux 53 1024 s M ez loc_Exact = pack s m e.
Proof.
  intros HT Hez HB HM k Hk ST. unfold binary_round_aux. unfold shr_fexp at 1. fold k.
  cbn [shr_record_of_loc]. rewrite shr_exp by exact Hk.
  destruct (round_loc M k HM Hk _ eq_refl) as (EM & ER). rewrite ER.
  set (n := M / 2 ^ k) in *. set (c := 2 * (M mod 2 ^ k) ?= 2 ^ k) in *.
  assert (U : 0 < 2 ^ (ez - T) * B) by (pose proof (pow2_pos (ez - T) ltac:(lia)); nia).
  destruct (stands_bounds M A _ k U HM Hk ST) as (BD & CM). fold n c in BD, CM.
  assert (E0 : -1074 <= ez + k) by (unfold k; rewrite fexp_eq; lia).
  pose proof (digits_bound M HM) as (D1 & D2). pose proof (pow2_pos k Hk) as P.
  assert (KD : Zdigits2 M <= 53 + k) by (unfold k; rewrite fexp_eq; lia).
  assert (DN : 0 <= Zdigits2 M) by (destruct M; cbn; lia).
  assert (N53 : 0 <= n < 2 ^ 53).
  { split; [apply Z.div_pos; lia|]. apply Z.div_lt_upper_bound; [lia|].
    pose proof (pow2_le (Zdigits2 M) (53 + k) DN KD). rewrite Z.pow_add_r in H by lia. lia. }
  assert (N52 : ez + k = -1074 \/ 2 ^ 52 <= n).
  { destruct (Z.eq_dec (ez + k) (-1074)) as [|NE]; [now left|right].
    assert (k = Zdigits2 M - 53) by (unfold k in *; rewrite fexp_eq in *; lia).
    apply Z.div_le_lower_bound; [lia|]. replace (Zdigits2 M - 1) with (k + 52) in D1 by lia.
    rewrite Z.pow_add_r in D1 by lia. lia. }
  assert (EK : 2 ^ (ez + k - T) = 2 ^ k * 2 ^ (ez - T)).
  { rewrite <- Z.pow_add_r by lia. f_equal. lia. }
  pose proof (pick_bounds n c) as PB.
  assert (HME : exists m e, pick n c < 2 ^ 53 /\ m = pick n c /\ e = ez + k \/
                pick n c = 2 ^ 53 /\ m = 2 ^ 52 /\ e = ez + k + 1).
  { destruct (Z.lt_ge_cases (pick n c) (2 ^ 53)); [exists (pick n c), (ez + k); left|exists (2 ^ 52), (ez + k + 1); right]; repeat split; lia. }
  destruct HME as (m & e & ME). exists m, e. split.
  - exists n, (ez + k). rewrite EK. split; [exact E0|]. split; [exact N53|]. split; [exact N52|].
    split; [nia|]. replace ((2 * n + 1) * (2 ^ k * 2 ^ (ez - T)) * B) with ((2 * n + 1) * 2 ^ k * (2 ^ (ez - T) * B)) by nia.
    rewrite CM. exact ME.
  - destruct (second_shift (pick n c) (ez + k) m e ltac:(lia) E0 ME) as (r & q & ->).
    reflexivity.
Qed.

Lemma shift_pos_eq d p : Z.pos (shift_pos d p) = Z.pos p * 2 ^ Z.pos d.
Proof. rewrite shift_pos_correct. now rewrite Zpower_pos_is_exp || (rewrite Z.mul_comm; reflexivity). Qed.

Lemma digits_shift d p : Zdigits2 (Z.pos (shift_pos d p)) = Zdigits2 (Z.pos p) + Z.pos d.
Proof.
  pose proof (digits_bound (Z.pos p) ltac:(lia)) as (L & U).
  assert (DP : 1 <= Zdigits2 (Z.pos p)) by (cbn; lia).
  assert (P : 0 < 2 ^ Z.pos d) by (apply pow2_pos; lia).
  apply Z.le_antisymm.
  - apply digits_le; [lia|]. rewrite shift_pos_eq, Z.pow_add_r by lia. split; [apply Z.mul_pos_pos; lia|]. now apply Z.mul_lt_mono_pos_r.
  - enough (Zdigits2 (Z.pos p) - 1 + Z.pos d + 1 <= Zdigits2 (Z.pos (shift_pos d p))) by lia.
    apply digits_ge; [lia|]. rewrite shift_pos_eq, Z.pow_add_r by lia.
    exact (Z.mul_le_mono_nonneg_r _ _ _ (Z.lt_le_incl _ _ P) L).
Qed.

(** The standard library's rounding is [rounded]. *)
Theorem binary_round_rounded s p ex A B T :
  T <= -1074 -> T <= ex -> 0 < B ->
  stands (Z.pos p) A (2 ^ (ex - T) * B) (fexp 53 1024 (Zdigits2 (Z.pos p) + ex) - ex) ->
  exists m e, rounded A B T m e /\ binary_round 53 1024 s p ex = pack s m e.
Proof.
  intros HT Hex HB ST. unfold binary_round, shl_align.
  change (Z.pos (digits2_pos p)) with (Zdigits2 (Z.pos p)).
  set (k := fexp 53 1024 (Zdigits2 (Z.pos p) + ex) - ex) in *.
  destruct k as [|q|q] eqn:EK.
  - apply (round_aux s (Z.pos p) ex A B T HT Hex HB ltac:(lia)); fold k; rewrite EK; [lia|exact ST].
  - apply (round_aux s (Z.pos p) ex A B T HT Hex HB ltac:(lia)); fold k; rewrite EK; [lia|exact ST].
  - destruct ST as [ST|(_ & _ & K2)]; [|lia].
    assert (EX : fexp 53 1024 (Zdigits2 (Z.pos p) + ex) = ex - Z.pos q) by (unfold k in EK; lia).
    rewrite EX.
    assert (TQ : T <= ex - Z.pos q) by (rewrite <- EX, fexp_eq; lia).
    assert (ED : fexp 53 1024 (Zdigits2 (Z.pos (shift_pos q p)) + (ex - Z.pos q)) - (ex - Z.pos q) = 0).
    { rewrite digits_shift. replace (Zdigits2 (Z.pos p) + Z.pos q + (ex - Z.pos q)) with (Zdigits2 (Z.pos p) + ex) by lia. lia. }
    apply (round_aux s (Z.pos (shift_pos q p)) (ex - Z.pos q) A B T HT TQ HB ltac:(lia)); [rewrite ED; lia|].
    left. rewrite shift_pos_eq, ST.
    rewrite (pow2_split (ex - T) (Z.pos q)) by lia.
    replace (ex - T - Z.pos q) with (ex - Z.pos q - T) by lia. lia.
Qed.

(** ** [rounded] is about the number only *)

Lemma rounded_ratio A B A' B' T m e :
  0 < B -> 0 < B' -> A * B' = A' * B -> rounded A B T m e -> rounded A' B' T m e.
Proof.
  intros HB HB' E (n & e0 & E0 & N & NS & BD & ME). exists n, e0.
  set (P := 2 ^ (e0 - T)) in *.
  split; [exact E0|]. split; [exact N|]. split; [exact NS|].
  assert (CC : forall c x, (c * A ?= x * P * B) = (c * A' ?= x * P * B')).
  { intros c x. rewrite <- (compare_scale _ _ B' HB'), <- (compare_scale (c * A') _ B HB).
    f_equal; [replace (c * A * B') with (c * (A * B')) by ring; rewrite E; ring|ring]. }
  split.
  - pose proof (CC 1 n) as C1. pose proof (CC 1 (n + 1)) as C2. rewrite !Z.mul_1_l in C1, C2.
    split.
    + rewrite Z.le_ngt, <- Z.compare_lt_iff, <- C1, Z.compare_lt_iff, <- Z.le_ngt. apply BD.
    + rewrite <- Z.compare_lt_iff, <- C2, Z.compare_lt_iff. apply BD.
  - rewrite <- CC. exact ME.
Qed.

Lemma rounded_shift A B T j m e :
  T <= -1074 -> 0 <= j -> rounded (A * 2 ^ j) B (T - j) m e <-> rounded A B T m e.
Proof.
  intros HT Hj. pose proof (pow2_pos j Hj) as P.
  assert (EE : forall e0, -1074 <= e0 -> 2 ^ (e0 - (T - j)) = 2 ^ (e0 - T) * 2 ^ j).
  { intros e0 H. rewrite <- Z.pow_add_r by lia. f_equal. lia. }
  assert (CC : forall c x e0, -1074 <= e0 ->
    (c * (A * 2 ^ j) ?= x * 2 ^ (e0 - (T - j)) * B) = (c * A ?= x * 2 ^ (e0 - T) * B)).
  { intros c x e0 H. rewrite EE by exact H. rewrite <- (compare_scale (c * A) _ _ P). f_equal; ring. }
  assert (LE : forall x e0, -1074 <= e0 ->
    (x * 2 ^ (e0 - (T - j)) * B <= A * 2 ^ j < (x + 1) * 2 ^ (e0 - (T - j)) * B) <->
    (x * 2 ^ (e0 - T) * B <= A < (x + 1) * 2 ^ (e0 - T) * B)).
  { intros x e0 H. rewrite EE by exact H.
    replace (x * (2 ^ (e0 - T) * 2 ^ j) * B) with (x * 2 ^ (e0 - T) * B * 2 ^ j) by ring.
    replace ((x + 1) * (2 ^ (e0 - T) * 2 ^ j) * B) with ((x + 1) * 2 ^ (e0 - T) * B * 2 ^ j) by ring.
    rewrite <- Z.mul_le_mono_pos_r, <- Z.mul_lt_mono_pos_r by exact P. reflexivity. }
  split; intros (n & e0 & E0 & N & NS & BD & ME); exists n, e0;
    (split; [exact E0|]); (split; [exact N|]); (split; [exact NS|]); (split; [now apply LE|]).
  - rewrite CC in ME by exact E0. exact ME.
  - rewrite CC by exact E0. exact ME.
Qed.

Lemma rounded_unique A B T m e m' e' :
  T <= -1074 -> 0 < B -> rounded A B T m e -> rounded A B T m' e' -> m = m' /\ e = e'.
Proof.
  intros HT HB (n & e0 & E0 & N & NS & BD & ME) (n' & e0' & E0' & N' & NS' & BD' & ME').
  assert (K : forall n e0 n' e0', -1074 <= e0 -> 0 <= n < 2 ^ 53 -> e0' = -1074 \/ 2 ^ 52 <= n' ->
     A < (n + 1) * 2 ^ (e0 - T) * B -> n' * 2 ^ (e0' - T) * B <= A -> e0' <= e0).
  { clear - HT HB. intros n e0 n' e0' E0 N NS U L.
    destruct (Z.le_gt_cases e0' e0) as [|G]; [assumption|]. exfalso.
    destruct NS as [->|NS]; [lia|].
    assert (X : 2 ^ 53 * 2 ^ (e0 - T) <= n' * 2 ^ (e0' - T)).
    { replace (e0' - T) with ((e0' - e0 - 1) + 1 + (e0 - T)) by lia. rewrite Z.pow_add_r, pow2_succ by lia.
      pose proof (pow2_pos (e0' - e0 - 1) ltac:(lia)). pose proof (pow2_pos (e0 - T) ltac:(lia)).
      assert (2 ^ 52 <= n' * 2 ^ (e0' - e0 - 1)) by nia.
      replace (n' * (2 * 2 ^ (e0' - e0 - 1) * 2 ^ (e0 - T))) with (2 * (n' * 2 ^ (e0' - e0 - 1)) * 2 ^ (e0 - T)) by ring.
      apply Z.mul_le_mono_nonneg_r; [lia|]. change (2 ^ 53) with (2 * 2 ^ 52). lia. }
    pose proof (pow2_pos (e0 - T) ltac:(lia)).
    assert ((n + 1) * 2 ^ (e0 - T) <= 2 ^ 53 * 2 ^ (e0 - T)) by (apply Z.mul_le_mono_nonneg_r; lia).
    assert ((n + 1) * 2 ^ (e0 - T) * B <= n' * 2 ^ (e0' - T) * B) by (apply Z.mul_le_mono_nonneg_r; lia).
    lia. }
  assert (EE : e0 = e0').
  { apply Z.le_antisymm; [eapply (K n' e0' n e0)|eapply (K n e0 n' e0')]; eauto; lia. }
  subst e0'. pose proof (pow2_pos (e0 - T) ltac:(lia)) as P.
  assert (PB : 0 < 2 ^ (e0 - T) * B) by nia.
  assert (n = n') as <-.
  { assert (n * (2 ^ (e0 - T) * B) < (n' + 1) * (2 ^ (e0 - T) * B)) by lia.
    assert (n' * (2 ^ (e0 - T) * B) < (n + 1) * (2 ^ (e0 - T) * B)) by lia.
    rewrite <- Z.mul_lt_mono_pos_r in H, H0 by exact PB. lia. }
  cbv zeta in ME, ME'. lia.
Qed.

(** ** Nothing is nearer *)

(** A float's mantissa and exponent, whatever the sign. *)
Definition float_pair (m e : Z) : Prop := 0 <= m < 2 ^ 53 /\ -1074 <= e.

Lemma rounded_pair A B T m e : rounded A B T m e -> float_pair m e.
Proof.
  intros (n & e0 & E0 & N & NS & BD & ME). cbv zeta in ME.
  pose proof (pick_bounds n (2 * A ?= (2 * n + 1) * 2 ^ (e0 - T) * B)).
  destruct ME as [(L & -> & ->)|(_ & -> & ->)]; split; lia.
Qed.
(** and written in the only way *)
Lemma rounded_canonical A B T m e : rounded A B T m e -> e = -1074 \/ 2 ^ 52 <= m.
Proof.
  intros (n & e0 & E0 & N & NS & BD & ME). cbv zeta in ME.
  pose proof (pick_bounds n (2 * A ?= (2 * n + 1) * 2 ^ (e0 - T) * B)).
  destruct ME as [(L & -> & ->)|(_ & -> & ->)]; lia.
Qed.

Lemma rounded_value A B T m e : T <= -1074 -> rounded A B T m e ->
  exists n e0, -1074 <= e0 /\ (e0 = -1074 \/ 2 ^ 52 <= n) /\ 0 <= n < 2 ^ 53 /\
    n * 2 ^ (e0 - T) * B <= A < (n + 1) * 2 ^ (e0 - T) * B /\
    m * 2 ^ (e - T) = pick n (2 * A ?= (2 * n + 1) * 2 ^ (e0 - T) * B) * 2 ^ (e0 - T) /\
    (Z.even (pick n (2 * A ?= (2 * n + 1) * 2 ^ (e0 - T) * B)) = true -> Z.even m = true).
Proof.
  intros HT (n & e0 & E0 & N & NS & BD & ME). exists n, e0. cbv zeta in ME.
  split; [exact E0|]. split; [exact NS|]. split; [exact N|]. split; [exact BD|].
  destruct ME as [(L & -> & ->)|(-> & -> & ->)]; [now split|]. split; [|reflexivity].
  replace (e0 + 1 - T) with (e0 - T + 1) by lia. rewrite pow2_succ by lia.
  change (2 ^ 53) with (2 * 2 ^ 52). ring.
Qed.

(** g and -g for every float pair *)
Definition scaled_float (T G : Z) : Prop := exists m e, float_pair m e /\ Z.abs G = m * 2 ^ (e - T).

Lemma float_gap T n e0 G : T <= -1074 -> -1074 <= e0 -> 0 <= n ->
  e0 = -1074 \/ 2 ^ 52 <= n -> scaled_float T G ->
  G <= n * 2 ^ (e0 - T) \/ (n + 1) * 2 ^ (e0 - T) <= G.
Proof.
  intros HT E0 N NS (m & e & (M & E) & EG). pose proof (pow2_pos (e0 - T) ltac:(lia)) as P.
  destruct (Z.le_gt_cases G 0) as [|GP]; [left; nia|]. rewrite Z.abs_eq in EG by lia. subst G.
  destruct (Z.le_gt_cases e0 e) as [L|L].
  - replace (e - T) with ((e - e0) + (e0 - T)) by lia. rewrite Z.pow_add_r by lia. rewrite Z.mul_assoc.
    set (q := m * 2 ^ (e - e0)). destruct (Z.le_gt_cases q n); [left|right]; apply Z.mul_le_mono_nonneg_r; lia.
  - left. destruct NS as [->|NS]; [lia|].
    replace (e0 - T) with ((e0 - e - 1) + 1 + (e - T)) by lia. rewrite Z.pow_add_r, pow2_succ by lia.
    pose proof (pow2_pos (e0 - e - 1) ltac:(lia)). pose proof (pow2_pos (e - T) ltac:(lia)).
    assert (2 ^ 52 <= n * 2 ^ (e0 - e - 1)) by nia.
    assert (m <= n * (2 * 2 ^ (e0 - e - 1))) by (change (2 ^ 53) with (2 * 2 ^ 52) in M; lia).
    rewrite Z.mul_assoc. apply Z.mul_le_mono_nonneg_r; lia.
Qed.

(** No float is nearer to A / B than the rounded one, and when another is as
    near the mantissa is even. *)
Theorem rounded_nearest A B T m e G :
  T <= -1074 -> 0 < B -> rounded A B T m e -> scaled_float T G ->
  Z.abs (A - m * 2 ^ (e - T) * B) <= Z.abs (A - G * B) /\
  (G <> m * 2 ^ (e - T) -> Z.abs (A - m * 2 ^ (e - T) * B) = Z.abs (A - G * B) -> Z.even m = true).
Proof.
  intros HT HB R SG. destruct (rounded_value A B T m e HT R) as (n & e0 & E0 & NS & N & BD & -> & EV).
  pose proof (float_gap T n e0 G HT E0 (proj1 N) NS SG) as GAP.
  set (P := 2 ^ (e0 - T)) in *. assert (PP : 0 < P) by (apply pow2_pos; lia).
  assert (MB : forall x y, x <= y -> x * B <= y * B) by (intros; apply Z.mul_le_mono_nonneg_r; lia).
  set (lo := n * P) in *. replace ((n + 1) * P) with (lo + P) in * by (unfold lo; ring).
  replace ((2 * n + 1) * P) with (lo + (lo + P)) in * by (unfold lo; ring).
  assert (EN : forall k, pick n k * P = match k with Lt => lo | Gt => lo + P | Eq => if Z.even n then lo else lo + P end).
  { intros []; cbn; [destruct (Z.even n)| |]; unfold lo; ring. }
  rewrite EN.
  assert (GB : G * B <= lo * B \/ (lo + P) * B <= G * B) by (destruct GAP; [left|right]; apply MB; lia).
  rewrite !Z.mul_add_distr_r in *.
  destruct (Z.compare_spec (2 * A) (lo * B + (lo * B + P * B))) as [C|C|C].
  - split; [destruct (Z.even n); lia|]. intros _ _. apply EV. cbn [pick].
    destruct (Z.even n) eqn:EVN; [exact EVN|]. rewrite Z.add_1_r, Z.even_succ, <- Z.negb_even, EVN. reflexivity.
  - split; [lia|]. intros NG EQ. exfalso. apply NG. apply (Z.mul_cancel_r _ _ B); lia.
  - split; [lia|]. intros NG EQ. exfalso. apply NG. apply (Z.mul_cancel_r _ _ B); lia.
Qed.
