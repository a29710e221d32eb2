(** range(): property C33. *)

From Coq Require Import List ZArith Lia Bool.
From Verif Require Import Base BaseProofs Range.
Import ListNotations.
Open Scope Z_scope.

(** The specification: the terms of the progression before the first one
    that is not before [stop], in the direction of the step. *)
Definition progression (start stop step : Z) (l : list Z) : Prop :=
  exists n : nat,
    l = map (fun k => start + Z.of_nat k * step) (seq 0 n) /\
    (forall k, (k < n)%nat ->
       if step >? 0 then start + Z.of_nat k * step < stop else start + Z.of_nat k * step > stop) /\
    (if step >? 0 then stop <= start + Z.of_nat n * step else start + Z.of_nat n * step <= stop).

Lemma progression_unique : forall start stop step l l', step <> 0 ->
  progression start stop step l -> progression start stop step l' -> l = l'.
Proof.
  intros start stop step l l' H (n & -> & A & B) (m & -> & A' & B').
  assert (n = m); [|congruence].
  destruct (Nat.lt_trichotomy n m) as [L|[E|L]]; auto.
  - specialize (A' n L). destruct (step >? 0); lia.
  - specialize (A m L). destruct (step >? 0); lia.
Qed.

Lemma range_loop_forward : forall n start stop step,
  step > 0 -> is_int64 start -> stop + step <= two63 ->
  (forall k, (k < n)%nat -> start + Z.of_nat k * step < stop) ->
  stop <= start + Z.of_nat n * step ->
  range_loop (S n) start stop step = Some (map (fun k => start + Z.of_nat k * step) (seq 0 n)).
Proof.
  induction n as [|n IH]; intros start stop step Hs Hi Ho A B.
  - simpl in *. destruct (Z.ltb_spec start stop); [lia|reflexivity].
  - assert (L : start < stop) by (specialize (A 0%nat ltac:(lia)); simpl in A; lia).
    cbn [range_loop]. destruct (Z.ltb_spec start stop); [|lia].
    unfold is_int64 in Hi.
    rewrite wrap64_id by (unfold is_int64; lia).
    change (match range_loop (S n) (start + step) stop step with Some l => Some (start :: l) | None => None end
            = Some (map (fun k => start + Z.of_nat k * step) (seq 0 (S n)))).
    rewrite IH; auto.
    + cbn [seq map]. f_equal. f_equal; [lia|]. rewrite <- seq_shift, map_map.
      apply map_ext. intros k. lia.
    + unfold is_int64. lia.
    + intros k Lk. specialize (A (S k) ltac:(lia)). lia.
    + lia.
Qed.

(** With a positive (or absent) step and an end that leaves room for one more
    step, range() emits exactly the progression and stops. *)
Theorem C33_range_partial : forall start stop step,
  is_int64 start -> is_int64 stop ->
  let step' := if step =? 0 then 1 else step in
  step' > 0 -> stop + step' <= two63 ->
  exists l, progression start stop step' l /\
    exists fuel, range_rows fuel start stop step = Some l.
Proof.
  intros start stop step Hi He step' Hs Ho. unfold range_rows. fold step'.
  set (n := Z.to_nat ((stop - start + step' - 1) / step')).
  assert (D : stop - start + step' - 1 =
              step' * ((stop - start + step' - 1) / step') + (stop - start + step' - 1) mod step')
    by (apply Z.div_mod; lia).
  pose proof (Z.mod_pos_bound (stop - start + step' - 1) step' ltac:(lia)) as Mb.
  set (qz := (stop - start + step' - 1) / step') in *.
  assert (A : forall k, (k < n)%nat -> start + Z.of_nat k * step' < stop).
  { intros k L. assert (Z.of_nat k + 1 <= qz) by lia. nia. }
  assert (B : stop <= start + Z.of_nat n * step').
  { destruct (Z.le_gt_cases 0 qz).
    - unfold n. rewrite Z2Nat.id by lia. nia.
    - assert (n = 0%nat) by lia. rewrite H0. simpl. nia. }
  exists (map (fun k => start + Z.of_nat k * step') (seq 0 n)). split.
  - exists n. split; [reflexivity|]. destruct (Z.gtb_spec step' 0); [|lia]. auto.
  - exists (S n). now apply range_loop_forward.
Qed.

(** More turns of the loop do not change the result: the answer is the
    behaviour of the code and not of the fuel. *)
Theorem C33_fuel_irrelevant : forall f f' start stop step l l',
  range_rows f start stop step = Some l -> range_rows f' start stop step = Some l' -> l = l'.
Proof.
  unfold range_rows. intros f f' start stop step. generalize (if step =? 0 then 1 else step). intros st.
  revert f' start. induction f as [|f IH]; intros [|f'] start l l' H H'; simpl in *; try discriminate.
  destruct (start <? stop); [|congruence].
  destruct (range_loop f (wrap64 (start + st)) stop st) eqn:E; [|discriminate].
  destruct (range_loop f' (wrap64 (start + st)) stop st) eqn:E'; [|discriminate].
  injection H as <-. injection H' as <-. f_equal. eauto.
Qed.

(** A negative step does not count down. *)
Theorem C33_negative_step_refuted :
  progression 5 0 (-1) [5; 4; 3; 2; 1] /\ forall fuel, range_rows (S fuel) 5 0 (-1) = Some [].
Proof.
  split; [|reflexivity]. exists 5%nat. split; [reflexivity|]. split; [|simpl; lia].
  intros k L. change (-1 >? 0) with false. cbv iota. lia.
Qed.

(** Near the largest integer the loop wraps around and never ends: with an
    even start, step 2 and end 2^63-1 no value is ever at or past the end. *)
Lemma even_wrap : forall i, Z.even i = true -> Z.even (wrap64 (i + 2)) = true.
Proof.
  intros i E. destruct (wrap64_eq_mod (i + 2)) as (k & ->).
  rewrite !Z.even_add. rewrite E. rewrite Z.even_mul. replace (Z.even two64) with true by reflexivity.
  destruct (Z.even k); reflexivity.
Qed.

Theorem C33_never_ends_refuted : forall fuel, range_rows fuel (two63 - 2) (two63 - 1) 2 = None.
Proof.
  unfold range_rows. change (if 2 =? 0 then 1 else 2) with 2.
  assert (G : forall fuel i, is_int64 i -> Z.even i = true -> range_loop fuel i (two63 - 1) 2 = None).
  { induction fuel as [|f IH]; intros i R E; [reflexivity|]. cbn [range_loop].
    destruct (Z.ltb_spec i (two63 - 1)) as [L|L].
    - rewrite IH; [reflexivity|apply wrap64_range|now apply even_wrap].
    - exfalso. unfold is_int64 in R. assert (i = two63 - 1) by lia. subst i. discriminate. }
  intros fuel. apply G; [unfold is_int64, two63; lia|reflexivity].
Qed.

Example C33_example : range_rows 100 (-3) 10 4 = Some [-3; 1; 5; 9] /\ progression (-3) 10 4 [-3; 1; 5; 9].
Proof.
  split; [reflexivity|]. exists 4%nat. split; [reflexivity|]. split; [|simpl; lia].
  intros k L. change (4 >? 0) with true. cbv iota. lia.
Qed.

Print Assumptions C33_range_partial.
Print Assumptions C33_fuel_irrelevant.
Print Assumptions C33_negative_step_refuted.
Print Assumptions C33_never_ends_refuted.
