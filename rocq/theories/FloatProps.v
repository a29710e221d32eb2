(** C73: arithmetic on floats gives the float nearest to the exact result. *)

From Coq Require Import ZArith QArith Qabs List Bool Lia.
From Verif Require Import Base BaseProofs F64 F64Proofs Value Protocols Monad Chains OpsProofs OpsProps FloatRound FloatText NumberProps FloatArith.
Import ListNotations.
Open Scope Z_scope.

(** ** Specification *)

(** The number a value is. *)
Definition number_is (v : val) (q : Q) : Prop :=
  match v with
  | VBool b => (q == if b then 1 else 0)%Q
  | VInt _ z => (q == inject_Z z)%Q
  | VF64 f => is_finite f /\ (q == Q_of f)%Q
  | _ => False
  end.
(** The float it is taken for: itself, or the float nearest to it. *)
Definition taken_for (v : val) (f : f64) : Prop :=
  match v with
  | VF64 g => f = g
  | _ => exists q, number_is v q /\ nearest q f
  end.
Definition a_float (v : val) : Prop := exists f, v = VF64 f.

(** The two operands of an operator: numbers, one of them a float. *)
Definition float_operands (a b : val) : Prop :=
  (exists q, number_is a q) /\ (exists q, number_is b q) /\ (a_float a \/ a_float b) /\ wfv a /\ wfv b.

(** ** Conversion *)

Lemma nearest_eq x y f : (x == y)%Q -> nearest x f -> nearest y f.
Proof. intros E (F & N). split; [exact F|]. intros g G. rewrite <- E. now apply N. Qed.

Lemma range64 k z : fst (ikind_range k) <= z < snd (ikind_range k) -> - two64 < z < two64.
Proof. unfold two64, two63. destruct k; cbn; unfold two64, two63; lia. Qed.

Lemma f_of_Z_nearest z : - two64 < z < two64 -> nearest (inject_Z z) (f_of_Z z).
Proof.
  intro R. apply (f_of_Z_rounds z). unfold overflow_bound, Qlt, Qabs. cbn [Qnum Qden inject_Z].
  assert (two64 < 2 ^ 1024 - 2 ^ 970) by (vm_compute; reflexivity). change (Z.pos 1) with 1.
  set (x := 2 ^ 1024 - 2 ^ 970) in *. clearbody x. lia.
Qed.

Lemma to_float_taken v q : number_is v q -> wfv v -> exists f, to_float v = Some f /\ is_finite f /\ taken_for v f.
Proof.
  destruct v as [| |b|k z|f| | | | | | | |]; cbn [number_is]; try contradiction.
  - intros E _. exists (if b then f_of_Z 1 else fzero). split; [reflexivity|].
    assert (N : nearest q (if b then f_of_Z 1 else fzero)).
    { destruct b; eapply nearest_eq; [symmetry; exact E|apply (f_of_Z_nearest 1); now cbv|
        symmetry; exact E|apply (f_of_Z_nearest 0); now cbv]. }
    split; [apply N|]. exists q. split; [exact E|exact N].
  - intros E W. cbn [wfv] in W. apply range64 in W. exists (f_of_Z z). split; [reflexivity|].
    pose proof (f_of_Z_nearest z W) as N. split; [apply N|]. exists (inject_Z z). split; [reflexivity|exact N].
  - intros (F & _) _. exists f. now repeat split; try apply F.
Qed.

Lemma rounds_eq x y f : (x == y)%Q -> rounds_to x f -> rounds_to y f.
Proof.
  intros E (A & B & C). split; [|split].
  - intro H. rewrite <- E in H. eapply nearest_eq; [exact E|]. now apply A.
  - intro H. rewrite <- E in H. now apply B.
  - intro H. rewrite <- E in H. now apply C.
Qed.

(** ** The operators *)

(** Adding. *)
Theorem C73_add_partial P a b : float_operands a b ->
  (match a with VInt k z => k <> KUint /\ is_int64 z | VBool _ => False | _ => True end) ->
  exists f g r, taken_for a f /\ taken_for b g /\
    add_disp (p_add P) a b = VF64 r /\ rounds_to (Q_of f + Q_of g) r.
Proof.
  intros ((qa & NA) & (qb & NB) & FL & WA & WB) G.
  destruct (to_float_taken a qa NA WA) as (f & TA & FA & KA), (to_float_taken b qb NB WB) as (g & TB & FB & KB).
  exists f, g, (f_add f g). split; [exact KA|]. split; [exact KB|]. split; [|now apply f_add_rounds].
  unfold add_disp, add_switch. destruct a as [| |ba|k z|fa| | | | | | | |]; try contradiction.
  - destruct FL as [(? & ?)|(fb & ->)]; [discriminate|]. destruct G as (NU & I).
    assert (E : to_int64 (VInt k z) = Some z) by (destruct k; cbn [to_int64]; try contradiction; now rewrite wrap64_id by exact I).
    cbn [to_float] in TA, TB. injection TA as <-. injection TB as <-.
    destruct k; try contradiction; rewrite E; reflexivity.
  - cbn [to_float] in TA. injection TA as <-. rewrite TB. reflexivity.
Qed.

(** Subtracting. *)
Theorem C73_subtract P a b : float_operands a b ->
  exists f g r, taken_for a f /\ taken_for b g /\
    sub_disp (p_sub P) a b = VF64 r /\ rounds_to (Q_of f - Q_of g) r.
Proof.
  intros ((qa & NA) & (qb & NB) & FL & WA & WB).
  destruct (to_float_taken a qa NA WA) as (f & TA & FA & KA), (to_float_taken b qb NB WB) as (g & TB & FB & KB).
  exists f, g, (f_sub f g). split; [exact KA|]. split; [exact KB|]. split; [|now apply f_sub_rounds].
  unfold sub_disp, sub_switch. destruct FL as [(fa & ->)|(fb & ->)].
  - cbn [to_float] in TA. injection TA as <-. rewrite TB. reflexivity.
  - rewrite TA. cbn [to_float] in *. injection TB as <-. destruct a as [| |ba|k z|fa| | | | | | | |]; try contradiction; try reflexivity.
    cbn [to_float] in TA. now injection TA as <-.
Qed.

(** Multiplying. *)
Theorem C73_multiply P a b : float_operands a b ->
  exists f g r, taken_for a f /\ taken_for b g /\
    mul_disp (p_mul P) a b = Ok (VF64 r) /\ rounds_to (Q_of f * Q_of g) r.
Proof.
  intros ((qa & NA) & (qb & NB) & FL & WA & WB).
  destruct (to_float_taken a qa NA WA) as (f & TA & FA & KA), (to_float_taken b qb NB WB) as (g & TB & FB & KB).
  assert (D : mul_disp (p_mul P) a b = Ok (VF64 (f_mul f g)) \/ mul_disp (p_mul P) a b = Ok (VF64 (f_mul g f))).
  { unfold mul_disp, mul_switch. destruct FL as [(fa & ->)|(fb & ->)].
    - left. cbn [to_float] in TA. injection TA as <-. rewrite TB. reflexivity.
    - cbn [to_float] in TB. injection TB as <-. rewrite TA. destruct a as [| |ba|k z|fa| | | | | | | |]; try contradiction; try (right; reflexivity).
      cbn [to_float] in *. injection TA as <-. now left. }
  destruct D as [D|D]; [exists f, g, (f_mul f g)|exists f, g, (f_mul g f)]; (split; [exact KA|]); (split; [exact KB|]); (split; [exact D|]).
  - now apply f_mul_rounds.
  - eapply rounds_eq; [apply Qmult_comm|]. now apply f_mul_rounds.
Qed.

(** Dividing, by what is not zero, also two integers. *)
Theorem C73_divide_partial P a b qa qb : number_is a qa -> number_is b qb -> wfv a -> wfv b -> ~ (qb == 0)%Q ->
  a_float a \/ ~ a_float b ->
  exists f g r, taken_for a f /\ taken_for b g /\
    div_disp (p_div P) a b = VF64 r /\ rounds_to (Q_of f / Q_of g) r.
Proof.
  intros NA NB WA WB NZ FL.
  destruct (to_float_taken a qa NA WA) as (f & TA & FA & KA), (to_float_taken b qb NB WB) as (g & TB & FB & KB).
  assert (HA : numeric a) by (destruct a; try contradiction; exact I).
  assert (HB : numeric b) by (destruct b; try contradiction; exact I).
  destruct (C06_division_partial P a b HA HB FL) as (f' & g' & EF & EG & _ & DV).
  rewrite TA in EF. rewrite TB in EG. injection EF as <-. injection EG as <-.
  destruct (to_float_zero b HB) as (g' & EG & Z). rewrite TB in EG. injection EG as <-.
  assert (NN : ~ num_is_zero b).
  { intro N. apply NZ. destruct b as [| |bb|k z|fb| | | | | | | |]; try contradiction; cbn [num_is_zero number_is] in *.
    - subst bb. exact NB.
    - subst z. exact NB.
    - destruct N as (s & ->). destruct NB as (_ & NB). exact NB. }
  exists f, g, (f_div f g). split; [exact KA|]. split; [exact KB|]. split; [now apply DV|].
  apply f_div_rounds; try assumption. destruct (f_is_zero g); [|reflexivity]. exfalso. now apply NN, Z.
Qed.

(** When the exact result is a float, it is the result. *)
Theorem C73_exact x r g : rounds_to x r -> is_finite g -> (Q_of g == x)%Q -> is_finite r /\ (Q_of r == x)%Q.
Proof.
  intros (N & _) FG E.
  assert (L : (Qabs x < overflow_bound)%Q).
  { rewrite <- E, (Q_of_Z g FG). destruct (finite_scaled g FG) as (m & e & _ & _).
    destruct g as [s|s| |s m' e']; try solve [destruct FG as [_ []]]; [vm_compute; reflexivity|].
    destruct (finite_fields s m' e' FG) as (B & D & _).
    pose proof (digits_bound (Z.pos m') ltac:(lia)) as (_ & U).
    pose proof (pow2_le (Zdigits2 (Z.pos m')) 53 ltac:(cbn; lia) D) as U'.
    assert (Z.abs (Z_of (S754_finite s m' e')) <= (2 ^ 53 - 1) * 2 ^ (971 + 1074)).
    { cbn [Z_of]. rewrite Z.abs_mul, (Z.abs_eq (2 ^ _)) by (apply Z.pow_nonneg; lia).
      assert (Z.abs (if s then Z.neg m' else Z.pos m') = Z.pos m') as -> by (now destruct s).
      apply Z.mul_le_mono_nonneg; [lia|lia|apply Z.pow_nonneg; lia|apply pow2_le; lia]. }
    assert (K : (2 ^ 53 - 1) * 2 ^ (971 + 1074) < (2 ^ 1024 - 2 ^ 970) * 2 ^ 1074) by (vm_compute; reflexivity).
    unfold overflow_bound, Qlt, Qabs. cbn [Qnum Qden inject_Z]. rewrite tiny_eq. lia. }
  destruct (N L) as (FR & NR). split; [exact FR|]. destruct (NR g FG) as (D & _).
  assert (Z0 : (Qabs (x - Q_of g) == 0)%Q) by (rewrite E; assert (x - x == 0)%Q as -> by ring; reflexivity).
  rewrite Z0 in D.
  assert (Z1 : (x - Q_of r == 0)%Q).
  { pose proof (Qle_Qabs (x - Q_of r)) as A1. pose proof (Qle_Qabs (- (x - Q_of r))) as A2. rewrite Qabs_opp in A2.
    apply Qle_antisym; [eapply Qle_trans; [exact A1|exact D]|].
    assert (A3 : (- (x - Q_of r) <= 0)%Q) by (eapply Qle_trans; [exact A2|exact D]).
    apply Qopp_le_compat in A3. setoid_replace (- - (x - Q_of r))%Q with (x - Q_of r)%Q in A3 by ring. exact A3. }
  setoid_replace (Q_of r) with (x - (x - Q_of r))%Q by ring. rewrite Z1. ring.
Qed.

(** Infinities and NaN. *)
Definition infinite (f : f64) : Prop := exists s, f = S754_infinity s.
Theorem C73_not_finite P f g :
  (f = S754_nan \/ g = S754_nan ->
     add_disp (p_add P) (VF64 f) (VF64 g) = VF64 S754_nan /\ sub_disp (p_sub P) (VF64 f) (VF64 g) = VF64 S754_nan /\
     mul_disp (p_mul P) (VF64 f) (VF64 g) = Ok (VF64 S754_nan)) /\
  (infinite f -> is_finite g ->
     add_disp (p_add P) (VF64 f) (VF64 g) = VF64 f /\ add_disp (p_add P) (VF64 g) (VF64 f) = VF64 f /\
     sub_disp (p_sub P) (VF64 f) (VF64 g) = VF64 f) /\
  (infinite f -> add_disp (p_add P) (VF64 f) (VF64 f) = VF64 f /\ sub_disp (p_sub P) (VF64 f) (VF64 f) = VF64 S754_nan) /\
  (infinite f -> is_finite g -> f_is_zero g = true -> mul_disp (p_mul P) (VF64 f) (VF64 g) = Ok (VF64 S754_nan)) /\
  (is_finite f -> infinite g -> exists s, div_disp (p_div P) (VF64 f) (VF64 g) = VF64 (S754_zero s)).
Proof.
  assert (A : forall x y, add_disp (p_add P) (VF64 x) (VF64 y) = VF64 (f_add x y)) by reflexivity.
  assert (S : forall x y, sub_disp (p_sub P) (VF64 x) (VF64 y) = VF64 (f_sub x y)) by reflexivity.
  assert (M : forall x y, mul_disp (p_mul P) (VF64 x) (VF64 y) = Ok (VF64 (f_mul x y))) by reflexivity.
  assert (D : forall x y, div_disp (p_div P) (VF64 x) (VF64 y) = if f_is_zero y then VNull else VF64 (f_div x y)) by reflexivity.
  split; [|split; [|split; [|split]]].
  - rewrite A, S, M. intros [->| ->]; [now repeat split|]. destruct f; now repeat split.
  - rewrite !A, S. intros (s & ->) FG. destruct g; try solve [destruct FG as [_ []]]; now repeat split.
  - rewrite A, S. intros (s & ->). destruct s; now split.
  - rewrite M. intros (s & ->) FG Z. destruct g as [s'|s'| |s' m e]; try solve [destruct FG as [_ []]]; [reflexivity|].
    destruct s'; discriminate Z.
  - rewrite D. intros FF (s & ->). destruct f as [s'|s'| |s' m e]; try solve [destruct FF as [_ []]];
      (eexists; destruct s; reflexivity).
Qed.

(** An integer is rounded before it is added: the sum of 2^53 + 1 and 1.0 is
    not the float 2^53 + 2. *)
Theorem C73_integer_rounded_first_refuted :
  exists n x g r, float_operands (vint n) (VF64 x) /\ is_finite g /\ ((Q_of g == inject_Z n + Q_of x)%Q) /\
    add_disp [] (vint n) (VF64 x) = VF64 r /\ ~ (Q_of r == Q_of g)%Q.
Proof.
  exists (2 ^ 53 + 1), (f_of_Z 1), (f_of_Z (2 ^ 53 + 2)), (f_of_Z (2 ^ 53)).
  split; [|split; [|split]].
  - split; [eexists; reflexivity|]. split; [exists 1%Q; split; [now split|reflexivity]|].
    split; [right; now eexists|]. split; [cbn; unfold two63; lia|exact I].
  - now split.
  - vm_compute. reflexivity.
  - split; [vm_compute; reflexivity|]. vm_compute. discriminate.
Qed.

(** A large uint64 on the left of + counts as negative; on the right it does not. *)
Theorem C73_large_unsigned_refuted :
  exists n x, float_operands (VInt KUint64 n) (VF64 x) /\
    (exists r, add_disp [] (VInt KUint64 n) (VF64 x) = VF64 r /\ (Q_of r < 0)%Q) /\
    (exists r, add_disp [] (VF64 x) (VInt KUint64 n) = VF64 r /\ (0 < Q_of r)%Q).
Proof.
  exists two63, (f_of_Z 1). split; [|split].
  - split; [eexists; reflexivity|]. split; [exists 1%Q; split; [now split|reflexivity]|].
    split; [right; now eexists|]. split; [cbn; unfold two63, two64; lia|exact I].
  - eexists. split; [vm_compute; reflexivity|]. vm_compute. reflexivity.
  - eexists. split; [vm_compute; reflexivity|]. vm_compute. reflexivity.
Qed.

(** A uint or a boolean plus a float is NULL; a float plus one is a float. *)
Theorem C73_left_operand_refuted :
  float_operands (VInt KUint 2) (VF64 (f_of_Z 1)) /\ float_operands (VBool true) (VF64 (f_of_Z 1)) /\
  add_disp [] (VInt KUint 2) (VF64 (f_of_Z 1)) = VNull /\ add_disp [] (VBool true) (VF64 (f_of_Z 1)) = VNull /\
  add_disp [] (VF64 (f_of_Z 1)) (VInt KUint 2) = VF64 (f_of_Z 3) /\
  add_disp [] (VF64 (f_of_Z 1)) (VBool true) = VF64 (f_of_Z 2).
Proof.
  split; [|split; [|repeat split]].
  - split; [eexists; reflexivity|]. split; [exists 1%Q; split; [now split|reflexivity]|].
    split; [right; now eexists|]. split; [cbn; unfold two64; lia|exact I].
  - split; [now exists 1%Q|]. split; [exists 1%Q; split; [now split|reflexivity]|].
    split; [right; now eexists|]. split; exact I.
Qed.

(** An integer plus a float32 leaves the float32 out. *)
Theorem C73_float32_dropped_refuted :
  exists n x r, is_finite x /\ ~ (Q_of x == 0)%Q /\
    add_disp [] (vint n) (VF32 x) = VF64 r /\ (Q_of r == inject_Z n)%Q.
Proof. exists 3, (S754_finite false 4503599627370496 (-53)), (f_of_Z 3). repeat split; vm_compute; congruence. Qed.

(** The ranges of the integer types. *)
Theorem C73_integer_types k z : wfv (VInt k z) <->
  match k with
  | KInt8 => - 2 ^ 7 <= z <= 2 ^ 7 - 1 | KInt16 => - 2 ^ 15 <= z <= 2 ^ 15 - 1
  | KInt32 => - 2 ^ 31 <= z <= 2 ^ 31 - 1 | KInt | KInt64 => - 2 ^ 63 <= z <= 2 ^ 63 - 1
  | KUint8 => 0 <= z <= 2 ^ 8 - 1 | KUint16 => 0 <= z <= 2 ^ 16 - 1
  | KUint32 => 0 <= z <= 2 ^ 32 - 1 | KUint64 | KUint => 0 <= z <= 2 ^ 64 - 1
  end.
Proof. destruct k; cbn [wfv ikind_range fst snd]; unfold two63, two64; lia. Qed.

(** 0.1 + 0.2, 0.1 * 3, 1 / 3 and 7 / 2 *)
Definition tenth : f64 := S754_finite false 7205759403792794 (-56).
Example C73_example :
  float_operands (VF64 tenth) (VF64 tenth) /\ float_operands (VF64 tenth) (vint 3) /\
  add_disp [] (VF64 tenth) (VF64 (S754_finite false 7205759403792794 (-55))) = VF64 (S754_finite false 5404319552844596 (-54)) /\
  mul_disp [] (VF64 tenth) (vint 3) = Ok (VF64 (S754_finite false 5404319552844596 (-54))) /\
  div_disp [] (vint 1) (vint 3) = VF64 (S754_finite false 6004799503160661 (-54)) /\
  div_disp [] (vint 7) (vint 2) = VF64 (S754_finite false 7881299347898368 (-51)).
Proof.
  split; [|split; [|repeat split]].
  - split; [exists (Q_of tenth); split; [now split|reflexivity]|]. split; [exists (Q_of tenth); split; [now split|reflexivity]|].
    split; [left; now eexists|]. split; exact I.
  - split; [exists (Q_of tenth); split; [now split|reflexivity]|]. split; [eexists; reflexivity|].
    split; [left; now eexists|]. split; [exact I|]. cbn. unfold two63. lia.
Qed.

Print Assumptions C73_add_partial.
Print Assumptions C73_subtract.
Print Assumptions C73_multiply.
Print Assumptions C73_divide_partial.
Print Assumptions C73_exact.
Print Assumptions C73_not_finite.
Print Assumptions C73_integer_rounded_first_refuted.
Print Assumptions C73_large_unsigned_refuted.
Print Assumptions C73_left_operand_refuted.
Print Assumptions C73_integer_types.

(** Zero, as an integer or false, is taken for +0. *)
Theorem C73_positive_zero v f : ~ a_float v -> to_float v = Some f -> f <> S754_zero true.
Proof.
  intros NF T ->. destruct v as [| |b|k z|g| | | | | | | |]; try discriminate T.
  - destruct b; discriminate T.
  - cbn [to_float] in T. injection T as T. pose proof (f_of_Z_zero_iff z) as Z. rewrite T in Z.
    change (f_is_zero (S754_zero true)) with true in Z. symmetry in Z. apply Z.eqb_eq in Z. subst z. discriminate T.
  - apply NF. now eexists.
Qed.
Print Assumptions C73_positive_zero.
