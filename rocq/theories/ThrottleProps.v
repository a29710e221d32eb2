(** C56: throttling. *)

From Coq Require Import ZArith List Bool Lia PeanoNat.
From Verif Require Import Base F64 Throttle.
Import ListNotations.

(** ** The channel done stays closed *)

Lemma step_closed : forall t e t', tstep t e t' -> done_closed t = true -> done_closed t' = true.
Proof. intros t e t' H C. destruct H; cbn; auto. Qed.
Lemma exec_closed : forall t l t', texec t l t' -> done_closed t = true -> done_closed t' = true.
Proof. intros t l t' H. induction H; eauto using step_closed. Qed.
Lemma exec1_exec : forall t l t', texec1 t l t' -> texec t l t'.
Proof. intros t l t' H. induction H; econstructor; eauto. Qed.

(** ** Theorems *)

(** With rate 0, or a rate above 100 (or 100 itself), a throttler is made and
    whatever is done with it, by any number of goroutines, every call of
    ChargeOp returns at once. *)
Theorem C56_unthrottled_never_waits : forall rate,
  f_is_zero rate = true \/ f_ltb f100 rate = true \/ f_eqb rate f100 = true ->
  exists t, new_throttler rate = Ok t /\
    forall l t', texec t l t' -> charge_returns t'.
Proof.
  intros rate H.
  assert (K : exists t, new_throttler rate = Ok t /\ done_closed t = true).
  { assert (S100 : forall r, effective_rate rate = f100 -> new_throttler rate = new_throttler r ->
      new_throttler r = Ok (close {| tick := false; stopped := false; done_closed := false; running := true; closers := []; panicked := false |}) ->
      exists t, new_throttler rate = Ok t /\ done_closed t = true).
    { intros r _ E1 E2. rewrite E1, E2. eexists. split; reflexivity. }
    assert (AT100 : new_throttler f100 = Ok (close {| tick := false; stopped := false; done_closed := false; running := true; closers := []; panicked := false |}))
      by (vm_compute; reflexivity).
    assert (EFF : f_is_zero rate || f_ltb f100 rate = true -> exists t, new_throttler rate = Ok t /\ done_closed t = true).
    { intros Z. apply (S100 f100); [unfold effective_rate; now rewrite Z| |exact AT100].
      unfold new_throttler. replace (effective_rate rate) with f100 by (unfold effective_rate; now rewrite Z).
      replace (effective_rate f100) with f100 by (vm_compute; reflexivity). reflexivity. }
    destruct H as [H|[H|H]]; [apply EFF; now rewrite H|apply EFF; rewrite H; apply orb_true_r|].
    destruct (f_is_zero rate || f_ltb f100 rate) eqn:Z; [now apply EFF|].
    assert (rate = f100) as ->.
    { clear - H. unfold f_eqb, SFeqb, f100 in H.
      change (f_of_Z 100) with (S754_finite false 7036874417766400 (-46)) in *.
      destruct rate as [s|s| |s m e]; try discriminate; [destruct s; discriminate|].
      unfold SFcompare in H. destruct s; [discriminate|].
      destruct (Z.compare e (-46)) eqn:CE; try discriminate. apply Z.compare_eq in CE. subst e.
      destruct (Pos.compare_cont Eq m 7036874417766400) eqn:CM; try discriminate.
      apply Pos.compare_eq in CM. now subst m. }
    eexists. split; [exact AT100|reflexivity]. }
  destruct K as (t & E & C). exists t. split; [exact E|]. intros l t' X. exists t'. right. constructor.
  eapply exec_closed; eauto.
Qed.

(** Close may be called any number of times, before, between and while other
    goroutines call ChargeOp: it never panics, and after one call has
    returned no ChargeOp waits, so also not one that was waiting. *)
Definition inv1 (t : throttler) : Prop :=
  panicked t = false /\
  match closers t with
  | [] => done_closed t = negb (running t)
  | [PStop] | [PSet] => running t = true /\ done_closed t = false
  | [PClose] => running t = false /\ done_closed t = false
  | _ => False
  end.

Lemma app_one : forall A (a b : list A) x y, a ++ x :: b = [y] -> a = [] /\ b = [] /\ x = y.
Proof. intros A [|z a] b x y H; cbn in H; [injection H as -> ->; auto|]. injection H as _ H. destruct a; discriminate. Qed.

Lemma step_inv1 : forall t e t', (e = CloseEnter -> closers t = []) -> tstep t e t' -> inv1 t -> inv1 t'.
Proof.
  intros t e t' CE H [P I].
  assert (ONE : forall a x b, closers t = a ++ x :: b -> a = [] /\ b = [] /\ closers t = [x]).
  { intros a x b Q. rewrite Q in I. destruct a as [|y a].
    - destruct b as [|z b]; [auto|]. cbn in I. destruct x; contradiction.
    - cbn in I. destruct a; destruct y; contradiction. }
  destruct H as [t S|t T|t C|t R|t R|t a b Q|t a b Q|t a b Q].
  - split; [exact P|exact I].
  - split; [exact P|exact I].
  - split; [exact P|exact I].
  - split; [exact P|exact I].
  - specialize (CE eq_refl). rewrite CE in *. split; [exact P|]. cbn in *. split; [exact R|]. rewrite I, R. reflexivity.
  - destruct (ONE _ _ _ Q) as (-> & -> & Q1). rewrite Q1 in I. split; [exact P|exact I].
  - destruct (ONE _ _ _ Q) as (-> & -> & Q1). rewrite Q1 in I. split; [exact P|]. split; [reflexivity|apply I].
  - destruct (ONE _ _ _ Q) as (-> & -> & Q1). rewrite Q1 in I. split; cbn; [rewrite P; apply I|]. destruct I as [-> _]. reflexivity.
Qed.

Lemma exec_inv1 : forall t l t', texec1 t l t' -> inv1 t -> inv1 t'.
Proof. intros t l t' H. induction H; eauto using step_inv1. Qed.

Lemma new_inv1 : forall rate t, new_throttler rate = Ok t -> inv1 t.
Proof.
  intros rate t H. unfold new_throttler in H. destruct (Z.leb _ 0); [discriminate|].
  injection H as <-. destruct (f_ltb _ _); [split; reflexivity|]. destruct (f_is_nan _); split; reflexivity.
Qed.

Theorem C56_close_any_number_of_times : forall rate t l t',
  new_throttler rate = Ok t -> texec1 t l t' ->
  panicked t' = false /\
  (closers t' = [] -> (exists e, In e l /\ (e = CloseEnter \/ e = CloseNoop)) -> charge_returns t').
Proof.
  intros rate t l t' E X. pose proof (exec_inv1 _ _ _ X (new_inv1 _ _ E)) as I. split; [apply I|].
  intros NC (e & HI & HE). exists t'. right. constructor.
  destruct I as [_ I]. rewrite NC in I. rewrite I.
  (* once Close was called, running is false or a call is under way *)
  assert (J : forall a b, tstep a e b -> running b = false \/ closers b <> []).
  { intros a b ST. destruct HE as [-> | ->]; inversion ST; subst; [right|left; assumption].
    cbn. intros Z. apply app_eq_nil in Z as [_ Z]. discriminate. }
  assert (K : forall a b m, texec1 a m b -> running a = false \/ closers a <> [] -> inv1 a -> running b = false \/ closers b <> []).
  { intros a b m Y. induction Y as [|a x a1 m b CE ST Y IH]; intros D IA; [exact D|].
    pose proof (step_inv1 _ _ _ CE ST IA) as IA1. apply IH; [|exact IA1].
    destruct ST as [a S|a T|a C|a R|a R|a u v Q|a u v Q|a u v Q]; cbn in *; auto.
    - right. intros Z. apply app_eq_nil in Z as [_ Z]. discriminate.
    - right. intros Z. apply app_eq_nil in Z as [_ Z]. discriminate.
    - destruct IA as [_ IA]. left. rewrite Q in IA. destruct u as [|y u].
      + destruct v; [apply IA|contradiction].
      + cbn in IA. destruct u; destruct y; contradiction. }
  assert (L : forall a b m, texec1 a m b -> In e m -> inv1 a -> running b = false \/ closers b <> []).
  { intros a b m Y. induction Y as [|a x a1 m b CE ST Y IH]; intros IE IA; [contradiction|].
    pose proof (step_inv1 _ _ _ CE ST IA) as IA1. destruct IE as [->|IE]; [|now apply IH].
    eapply K; [exact Y| |exact IA1]. eapply J; eauto. }
  destruct (L _ _ _ X HI (new_inv1 _ _ E)) as [->|Z]; [reflexivity|contradiction].
Qed.

(** Close called any number of times, one call after the other: none panics,
    and after the first one ChargeOp returns at once. *)
Theorem C56_repeated_close : forall rate t n,
  new_throttler rate = Ok t ->
  panicked (Nat.iter n close t) = false /\
  ((0 < n)%nat -> charge_returns (Nat.iter n close t)).
Proof.
  intros rate t n E.
  assert (I : forall n, panicked (Nat.iter n close t) = false /\
    (running (Nat.iter n close t) = negb (done_closed (Nat.iter n close t))) /\
    ((0 < n)%nat -> done_closed (Nat.iter n close t) = true)).
  { clear n. induction n as [|n (P & R & D)].
    - cbn [Nat.iter]. split; [|split; [|lia]].
      + unfold new_throttler in E. destruct (Z.leb _ 0); [discriminate|].
        injection E as <-. now destruct (f_ltb (effective_rate rate) f100), (f_is_nan (effective_rate rate)).
      + unfold new_throttler in E. destruct (Z.leb _ 0); [discriminate|].
        injection E as <-. now destruct (f_ltb (effective_rate rate) f100), (f_is_nan (effective_rate rate)).
    - change (Nat.iter (S n) close t) with (close (Nat.iter n close t)).
      set (u := Nat.iter n close t) in *. unfold close.
      destruct (running u) eqn:RU.
      + symmetry in R. apply negb_true_iff in R. cbn. rewrite P, R. easy.
      + symmetry in R. apply negb_false_iff in R. now rewrite P, RU, R. }
  destruct (I n) as (P & _ & D). split; [exact P|]. intro L. exists (Nat.iter n close t). right. constructor. now apply D.
Qed.

Example C56_repeated_close_example :
  exists t, new_throttler (f_of_Z 50) = Ok t /\ done_closed t = false /\ done_closed (Nat.iter 3 close t) = true.
Proof. eexists. split; [vm_compute; reflexivity|]. split; reflexivity. Qed.

(** Before Close, operations are limited to one for each tick. *)
Definition count (e : tevent) (l : list tevent) : nat :=
  List.length (filter (fun x => match e, x with
    | Fire, Fire => true
    | ChargeTick, (ChargeTick | ChargeDone) => true
    | _, _ => false end) l).

Theorem C56_one_operation_for_each_tick : forall rate t l t',
  new_throttler rate = Ok t -> f_ltb (effective_rate rate) f100 = true ->
  texec t l t' -> ~ In CloseEnter l ->
  (count ChargeTick l <= count Fire l)%nat.
Proof.
  intros rate t l t' E TH X NC.
  assert (T0 : tick t = false /\ done_closed t = false /\ closers t = []).
  { unfold new_throttler in E. destruct (Z.leb _ 0); [discriminate|]. rewrite TH in E. now injection E as <-. }
  assert (K : forall t l t', texec t l t' -> ~ In CloseEnter l -> done_closed t = false -> closers t = [] ->
    (count ChargeTick l <= count Fire l + (if tick t then 1 else 0))%nat).
  { clear. intros t l t' X. induction X as [|t e t1 l t2 ST X IH]; intros NC D C; [cbn; lia|].
    assert (NC' : ~ In CloseEnter l) by (intros Z; apply NC; now right).
    destruct ST as [t S|t T|t CL|t R|t R|t a b Q|t a b Q|t a b Q].
    - specialize (IH NC' D C). unfold count in *. cbn in *. lia.
    - specialize (IH NC' D C). unfold count in *. cbn in *. rewrite T. lia.
    - congruence.
    - specialize (IH NC' D C). unfold count in *. cbn in *. exact IH.
    - exfalso. apply NC. now left.
    - rewrite C in Q. destruct a; discriminate.
    - rewrite C in Q. destruct a; discriminate.
    - rewrite C in Q. destruct a; discriminate. }
  destruct T0 as (T0 & D0 & C0). specialize (K _ _ _ X NC D0 C0). rewrite T0 in K. lia.
Qed.

(** ** Examples *)

Example C56_rates :
  new_throttler fzero = new_throttler (f_of_Z 1000) /\
  (exists t, new_throttler (f_of_Z 1000) = Ok t /\ done_closed t = true) /\
  period (effective_rate (f_of_Z 50)) = 20000000%Z /\
  (exists t, new_throttler (f_of_Z 50) = Ok t /\ done_closed t = false /\ f_ltb (effective_rate (f_of_Z 50)) f100 = true).
Proof.
  split; [vm_compute; reflexivity|]. split; [|split; [vm_compute; reflexivity|]].
  - eexists. split; [vm_compute; reflexivity|reflexivity].
  - eexists. split; [vm_compute; reflexivity|]. split; vm_compute; reflexivity.
Qed.

Example C56_history : exists t t', new_throttler (f_of_Z 50) = Ok t /\
  texec1 t [Fire; ChargeTick; CloseEnter; CloseStep; CloseStep; CloseStep; ChargeDone; CloseNoop; ChargeDone] t'.
Proof.
  eexists. eexists. split; [vm_compute; reflexivity|].
  eapply T1Cons; [discriminate|apply TFire; reflexivity|].
  eapply T1Cons; [discriminate|apply TChargeTick; reflexivity|].
  eapply T1Cons; [reflexivity|apply TEnter; reflexivity|].
  eapply T1Cons; [discriminate|apply (TStop _ [] []); reflexivity|].
  eapply T1Cons; [discriminate|apply (TSet _ [] []); reflexivity|].
  eapply T1Cons; [discriminate|apply (TClose _ [] []); reflexivity|].
  eapply T1Cons; [discriminate|apply TChargeDone; reflexivity|].
  eapply T1Cons; [discriminate|apply TNoop; reflexivity|].
  eapply T1Cons; [discriminate|apply TChargeDone; reflexivity|].
  apply T1Nil.
Qed.

(** ** What goes wrong *)

(** Two goroutines that close at the same time: close of a closed channel. *)
Theorem C56_concurrent_close_panics_refuted : exists rate t l t',
  new_throttler rate = Ok t /\ texec t l t' /\ panicked t' = true.
Proof.
  exists (f_of_Z 50). eexists. exists [CloseEnter; CloseEnter; CloseStep; CloseStep; CloseStep; CloseStep; CloseStep; CloseStep]. eexists.
  split; [vm_compute; reflexivity|]. split.
  - eapply TCons; [apply TEnter; reflexivity|].
    eapply TCons; [apply TEnter; reflexivity|].
    eapply TCons; [apply (TStop _ [] [PStop]); reflexivity|].
    eapply TCons; [apply (TSet _ [] [PStop]); reflexivity|].
    eapply TCons; [apply (TStop _ [PClose] []); reflexivity|].
    eapply TCons; [apply (TSet _ [PClose] []); reflexivity|].
    eapply TCons; [apply (TClose _ [] [PClose]); reflexivity|].
    eapply TCons; [apply (TClose _ [] []); reflexivity|].
    apply TNil.
  - reflexivity.
Qed.

(** Rates for which making the throttler panics: negative ones, so small ones
    that the period does not fit, and NaN. *)
Theorem C56_rates_that_panic_refuted :
  new_throttler (f_of_Z (-1)) = Panic /\
  new_throttler (f_div (f_of_Z 1) (f_of_Z 10000000000)) = Panic /\
  new_throttler S754_nan = Panic.
Proof. repeat split; vm_compute; reflexivity. Qed.

Print Assumptions C56_unthrottled_never_waits.
Print Assumptions C56_close_any_number_of_times.
Print Assumptions C56_repeated_close.
Print Assumptions C56_one_operation_for_each_tick.
Print Assumptions C56_concurrent_close_panics_refuted.
Print Assumptions C56_rates_that_panic_refuted.
