(** Proofs about DataRaces.v. *)

From Coq Require Import List Bool Arith Lia FinFun.
From Verif Require Import DataRaces.
Import ListNotations.

(** ** Sections *)

Fixpoint takes (l : list step) : list lock :=
  match l with [] => [] | Take k :: r => k :: takes r | Touch _ _ :: r => takes r end.

Lemma takes_app : forall a b, takes (a ++ b) = takes a ++ takes b.
Proof. induction a as [|[k|w p] a IH]; intros b; cbn; [reflexivity| |]; rewrite IH; reflexivity. Qed.

Lemma NoDup_app_left : forall A (a b : list A), NoDup (a ++ b) -> NoDup a.
Proof.
  induction a as [|x a IH]; intros b H; [constructor|]. inversion H as [|? ? Hx H']; subst.
  constructor; [intros Hi; apply Hx; apply in_or_app; auto|eauto].
Qed.

(** The accesses of a section, each with the locks held during it. *)
Fixpoint accesses_from (h : list lock) (l : list step) : list (list lock * bool * place) :=
  match l with
  | [] => []
  | Take k :: r => accesses_from (k :: h) r
  | Touch w p :: r => (h, w, p) :: accesses_from h r
  end.

Lemma accesses_from_in : forall l h x w p,
  In (x, w, p) (accesses_from h l) <->
  exists a b, l = a ++ Touch w p :: b /\ x = rev (takes a) ++ h.
Proof.
  induction l as [|[k|v q] l IH]; intros h x w p; cbn.
  - split; [tauto|]. intros (a & b & H & _). destruct a; discriminate.
  - rewrite IH. split.
    + intros (a & b & -> & ->). exists (Take k :: a), b. cbn. rewrite <- app_assoc. auto.
    + intros (a & b & H & ->). destruct a as [|s a]; [discriminate|]. injection H as <- H.
      exists a, b. cbn. rewrite <- app_assoc. auto.
  - split.
    + intros [H|H].
      * injection H as <- <- <-. exists [], l. auto.
      * apply IH in H. destruct H as (a & b & -> & ->). exists (Touch v q :: a), b. auto.
    + intros (a & b & H & ->). destruct a as [|s a].
      * injection H as <- <- _. left. reflexivity.
      * injection H as <- H. right. apply IH. exists a, b. auto.
Qed.

(** ** Running *)

Lemma free_spec : forall l st,
  free l st = true <-> forall g, In g st -> ~ In l (held g).
Proof.
  intros l st. unfold free. rewrite forallb_forall. split; intros H g Hg.
  - specialize (H g Hg). apply negb_true_iff in H. intros Hl.
    enough (existsb (lock_beq l) (held g) = true) by congruence.
    apply existsb_exists. exists l. split; [exact Hl|]. apply internal_lock_dec_lb. reflexivity.
  - apply negb_true_iff. destruct (existsb (lock_beq l) (held g)) eqn:E; [|reflexivity].
    apply existsb_exists in E. destruct E as (k & Hk & E). apply internal_lock_dec_bl in E. subst k.
    destruct (H g Hg Hk).
Qed.

Lemma put_same : forall A t (a x : A) l, nth_error l t = Some x -> nth_error (put t a l) t = Some a.
Proof. induction t as [|t IH]; intros a x [|y l] H; cbn in *; try discriminate; eauto. Qed.
Lemma put_other : forall A t u (a : A) l, t <> u -> nth_error (put t a l) u = nth_error l u.
Proof.
  induction t as [|t IH]; intros u a [|y l] H; cbn; try reflexivity.
  - destruct u; [congruence|reflexivity].
  - destruct u; [reflexivity|]. cbn. apply IH. congruence.
Qed.
Lemma put_put : forall A t (a b : A) l, put t b (put t a l) = put t b l.
Proof. induction t as [|t IH]; intros a b [|y l]; cbn; try reflexivity. now rewrite IH. Qed.
Lemma put_id : forall A t (a : A) l, nth_error l t = Some a -> put t a l = l.
Proof. induction t as [|t IH]; intros a [|y l] H; cbn in *; try discriminate; [congruence|]. now rewrite IH. Qed.

Lemma run_app : forall s1 s2 st, run st (s1 ++ s2) = match run st s1 with Some st' => run st' s2 | None => None end.
Proof. induction s1 as [|t s1 IH]; intros s2 st; cbn; [reflexivity|]. destruct (go st t); [apply IH|reflexivity]. Qed.

(** ** From a race to two accesses *)

(** What is left of a goroutine and what it holds. *)
Definition follows (p : list (list step)) (g : goroutine) : Prop :=
  (todo g = [] /\ held g = []) \/
  exists pre a b rest, p = pre ++ (a ++ b) :: rest /\ todo g = b :: rest /\ held g = rev (takes a).

Definition good (ps : list (list (list step))) (st : list goroutine) : Prop :=
  (forall i g, nth_error st i = Some g -> exists p, nth_error ps i = Some p /\ follows p g) /\
  (forall i j g h, i <> j -> nth_error st i = Some g -> nth_error st j = Some h ->
     forall l, In l (held g) -> In l (held h) -> False).

Lemma follows_start : forall p, follows p (Gor p []).
Proof.
  intros [|s p]; [left; auto|]. right. exists [], [], s, p. auto.
Qed.

Lemma follows_act : forall p g st g', follows p g -> act g st = Some g' -> follows p g'.
Proof.
  intros p g st g' [[H1 H2]|(pre & a & b & rest & Hp & Ht & Hh)] HA; unfold act in HA.
  - rewrite H1 in HA. discriminate.
  - rewrite Ht in HA. destruct b as [|[k|w q] b].
    + injection HA as <-. rewrite app_nil_r in Hp. destruct rest as [|s rest].
      * left. auto.
      * right. exists (pre ++ [a]), [], s, rest. rewrite <- app_assoc. auto.
    + destruct (free k st); [|discriminate]. injection HA as <-.
      right. exists pre, (a ++ [Take k]), b, rest. rewrite <- app_assoc. cbn. rewrite takes_app, rev_app_distr, Hh. auto.
    + injection HA as <-. right. exists pre, (a ++ [Touch w q]), b, rest.
      rewrite <- app_assoc, takes_app, Hh. cbn. rewrite app_nil_r. auto.
Qed.

Lemma held_act : forall g st g' l, act g st = Some g' -> In l (held g') ->
  In l (held g) \/ free l st = true.
Proof.
  intros g st g' l HA Hl. unfold act in HA. destruct (todo g) as [|[|[k|w q] b] rest]; try discriminate.
  - injection HA as <-. destruct Hl.
  - destruct (free k st) eqn:E; [|discriminate]. injection HA as <-. destruct Hl as [<-|Hl]; auto.
  - injection HA as <-. auto.
Qed.

Lemma good_go : forall ps st t st', good ps st -> go st t = Some st' -> good ps st'.
Proof.
  intros ps st t st' [HF HM] H. unfold go in H.
  destruct (nth_error st t) as [g|] eqn:Et; [|discriminate].
  destruct (act g st) as [g'|] eqn:EA; [|discriminate]. injection H as <-. split.
  - intros i x Hi. destruct (Nat.eq_dec t i) as [<-|Hn].
    + rewrite (put_same _ _ _ _ _ Et) in Hi. injection Hi as <-.
      destruct (HF t g Et) as (p & Hp & Hf). exists p. split; [exact Hp|]. eapply follows_act; eauto.
    + rewrite put_other in Hi by exact Hn. apply HF. exact Hi.
  - assert (Key : forall j h, t <> j -> nth_error st j = Some h -> forall l, In l (held g') -> In l (held h) -> False).
    { intros j h Hn Hj l H1 H2. destruct (held_act _ _ _ _ EA H1) as [H3|H3].
      - exact (HM t j g h Hn Et Hj l H3 H2).
      - rewrite free_spec in H3. exact (H3 h (nth_error_In _ _ Hj) H2). }
    intros i j x y Hij Hi Hj l H1 H2.
    destruct (Nat.eq_dec t i) as [<-|Hi'].
    + rewrite (put_same _ _ _ _ _ Et) in Hi. injection Hi as <-.
      rewrite put_other in Hj by exact Hij. eauto.
    + rewrite put_other in Hi by exact Hi'. destruct (Nat.eq_dec t j) as [<-|Hj'].
      * rewrite (put_same _ _ _ _ _ Et) in Hj. injection Hj as <-. eapply Key; eauto.
      * rewrite put_other in Hj by exact Hj'. exact (HM i j x y Hij Hi Hj l H1 H2).
Qed.

Lemma good_run : forall sch ps st st', good ps st -> run st sch = Some st' -> good ps st'.
Proof.
  induction sch as [|t sch IH]; intros ps st st' HG H; cbn in H; [congruence|].
  destruct (go st t) eqn:E; [|discriminate]. eapply IH; [eapply good_go; eauto|exact H].
Qed.

Lemma good_start : forall ps, good ps (map (fun p => Gor p []) ps).
Proof.
  intros ps. split.
  - intros i g Hi. rewrite nth_error_map in Hi. destruct (nth_error ps i) as [p|]; [|discriminate].
    injection Hi as <-. exists p. split; [reflexivity|apply follows_start].
  - intros i j g h _ Hi _ l Hl _. rewrite nth_error_map in Hi. destruct (nth_error ps i); [|discriminate].
    injection Hi as <-. destruct Hl.
Qed.

(** ** From two accesses to a race *)

Definition apart (H : list lock) (t : nat) (st : list goroutine) : Prop :=
  forall j h l, j <> t -> nth_error st j = Some h -> In l (held h) -> ~ In l H.

(** Goroutine [t] runs a part of a section alone. *)
Lemma run_part : forall a b rest t st h,
  nth_error st t = Some (Gor ((a ++ b) :: rest) h) ->
  NoDup (takes a) -> (forall l, In l (takes a) -> ~ In l h) -> apart (takes a) t st ->
  exists sch, run st sch = Some (put t (Gor (b :: rest) (rev (takes a) ++ h)) st).
Proof.
  induction a as [|[k|w p] a IH]; intros b rest t st h Ht Hd Hh Ha; cbn in *.
  - exists []. cbn. rewrite put_id; auto.
  - inversion Hd as [|? ? Hk Hd']; subst.
    assert (HF : free k st = true).
    { apply free_spec. intros g Hg Hl. apply In_nth_error in Hg. destruct Hg as [j Hj].
      destruct (Nat.eq_dec j t) as [->|Hn].
      - rewrite Ht in Hj. injection Hj as <-. apply (Hh k); [left; reflexivity|exact Hl].
      - apply (Ha j g k Hn Hj Hl). left. reflexivity. }
    destruct (IH b rest t (put t (Gor ((a ++ b) :: rest) (k :: h)) st) (k :: h)) as [sch Hs].
    + eapply put_same; eauto.
    + exact Hd'.
    + intros l Hl [<-|Hl']; [exact (Hk Hl)|]. apply (Hh l); [right; exact Hl|exact Hl'].
    + intros j g l Hn Hj Hl Hin. rewrite put_other in Hj by congruence. apply (Ha j g l Hn Hj Hl). right. exact Hin.
    + exists (t :: sch). cbn. unfold go. rewrite Ht. unfold act. cbn [todo held]. rewrite HF. rewrite Hs, put_put.
      rewrite <- app_assoc. reflexivity.
  - destruct (IH b rest t (put t (Gor ((a ++ b) :: rest) h) st) h) as [sch Hs]; auto.
    + eapply put_same; eauto.
    + intros j g l Hn Hj Hl Hin. rewrite put_other in Hj by congruence. exact (Ha j g l Hn Hj Hl Hin).
    + exists (t :: sch). cbn. unfold go. rewrite Ht. unfold act. cbn [todo held]. rewrite Hs, put_put. reflexivity.
Qed.

(** Goroutine [t] runs whole sections while nobody else holds a lock. *)
Lemma run_sections : forall pre rest t st,
  nth_error st t = Some (Gor (pre ++ rest) []) ->
  Forall (fun s => NoDup (takes s)) pre ->
  (forall j h, nth_error st j = Some h -> held h = []) ->
  exists sch, run st sch = Some (put t (Gor rest []) st).
Proof.
  induction pre as [|s pre IH]; intros rest t st Ht Hd Hn; cbn in Ht.
  - exists []. cbn. rewrite put_id; auto.
  - inversion Hd as [|? ? Hs Hd']; subst.
    destruct (run_part s [] (pre ++ rest) t st []) as [s1 H1].
    + rewrite app_nil_r. exact Ht.
    + exact Hs.
    + intros l _ [].
    + intros j h l _ Hj Hl. rewrite (Hn j h Hj) in Hl. destruct Hl.
    + set (st1 := put t (Gor (pre ++ rest) []) st).
      destruct (IH rest t st1) as [s2 H2].
      * eapply put_same; eauto.
      * exact Hd'.
      * intros j h Hj. unfold st1 in Hj. destruct (Nat.eq_dec t j) as [<-|Hne].
        -- rewrite (put_same _ _ _ _ _ Ht) in Hj. injection Hj as <-. reflexivity.
        -- rewrite put_other in Hj by exact Hne. eauto.
      * exists (s1 ++ t :: s2). rewrite run_app, H1. cbn. unfold go.
        rewrite (put_same _ _ _ _ _ Ht). cbn [act todo]. rewrite put_put. fold st1. rewrite H2. unfold st1. now rewrite put_put.
Qed.

Lemma reach_pair : forall ps i j pi pj prei prej ai bi aj bj resti restj,
  i <> j ->
  nth_error ps i = Some pi -> nth_error ps j = Some pj ->
  pi = prei ++ (ai ++ bi) :: resti -> pj = prej ++ (aj ++ bj) :: restj ->
  Forall (fun s => NoDup (takes s)) pi -> Forall (fun s => NoDup (takes s)) pj ->
  (forall l, In l (takes ai) -> ~ In l (takes aj)) ->
  exists sch st, run (map (fun p => Gor p []) ps) sch = Some st /\
    nth_error st i = Some (Gor (bi :: resti) (rev (takes ai))) /\
    nth_error st j = Some (Gor (bj :: restj) (rev (takes aj))).
Proof.
  intros ps i j pi pj prei prej ai bi aj bj resti restj Hij Hi Hj -> -> Hdi Hdj Hdis.
  set (st0 := map (fun p => Gor p []) ps).
  assert (H0 : forall k h, nth_error st0 k = Some h -> held h = []).
  { intros k h Hk. unfold st0 in Hk. rewrite nth_error_map in Hk. destruct (nth_error ps k); [|discriminate].
    injection Hk as <-. reflexivity. }
  assert (Hi0 : nth_error st0 i = Some (Gor (prei ++ (ai ++ bi) :: resti) [])) by (unfold st0; rewrite nth_error_map, Hi; reflexivity).
  assert (Hj0 : nth_error st0 j = Some (Gor (prej ++ (aj ++ bj) :: restj) [])) by (unfold st0; rewrite nth_error_map, Hj; reflexivity).
  apply Forall_app in Hdi. destruct Hdi as [Hdi1 Hdi2]. inversion Hdi2 as [|? ? Hdi3 _]; subst.
  apply Forall_app in Hdj. destruct Hdj as [Hdj1 Hdj2]. inversion Hdj2 as [|? ? Hdj3 _]; subst.
  rewrite takes_app in Hdi3, Hdj3. apply NoDup_app_left in Hdi3. apply NoDup_app_left in Hdj3.
  destruct (run_sections prei _ i st0 Hi0 Hdi1 H0) as [s1 R1].
  set (st1 := put i (Gor ((ai ++ bi) :: resti) []) st0) in *.
  assert (H1 : forall k h, nth_error st1 k = Some h -> held h = []).
  { intros k h Hk. unfold st1 in Hk. destruct (Nat.eq_dec i k) as [<-|Hn].
    - rewrite (put_same _ _ _ _ _ Hi0) in Hk. injection Hk as <-. reflexivity.
    - rewrite put_other in Hk by exact Hn. eauto. }
  assert (Hj1 : nth_error st1 j = Some (Gor (prej ++ (aj ++ bj) :: restj) [])) by (unfold st1; rewrite put_other by exact Hij; exact Hj0).
  destruct (run_sections prej _ j st1 Hj1 Hdj1 H1) as [s2 R2].
  set (st2 := put j (Gor ((aj ++ bj) :: restj) []) st1) in *.
  assert (H2 : forall k h, nth_error st2 k = Some h -> held h = []).
  { intros k h Hk. unfold st2 in Hk. destruct (Nat.eq_dec j k) as [<-|Hn].
    - rewrite (put_same _ _ _ _ _ Hj1) in Hk. injection Hk as <-. reflexivity.
    - rewrite put_other in Hk by exact Hn. eauto. }
  assert (Hi2 : nth_error st2 i = Some (Gor ((ai ++ bi) :: resti) [])).
  { unfold st2. rewrite put_other by congruence. unfold st1. eapply put_same; eauto. }
  destruct (run_part ai bi resti i st2 [] Hi2 Hdi3) as [s3 R3].
  { intros l _ []. }
  { intros k h l _ Hk Hl. rewrite (H2 k h Hk) in Hl. destruct Hl. }
  rewrite app_nil_r in R3.
  set (st3 := put i (Gor (bi :: resti) (rev (takes ai))) st2) in *.
  assert (Hj3 : nth_error st3 j = Some (Gor ((aj ++ bj) :: restj) [])).
  { unfold st3. rewrite put_other by exact Hij. unfold st2. eapply put_same; eauto. }
  destruct (run_part aj bj restj j st3 [] Hj3 Hdj3) as [s4 R4].
  { intros l _ []. }
  { intros k h l _ Hk Hl Hin. unfold st3 in Hk. destruct (Nat.eq_dec i k) as [<-|Hn].
    - rewrite (put_same _ _ _ _ _ Hi2) in Hk. injection Hk as <-. cbn in Hl. apply in_rev in Hl. exact (Hdis l Hl Hin).
    - rewrite put_other in Hk by exact Hn. rewrite (H2 k h Hk) in Hl. destruct Hl. }
  rewrite app_nil_r in R4.
  exists (s1 ++ s2 ++ s3 ++ s4), (put j (Gor (bj :: restj) (rev (takes aj))) st3). repeat split.
  - rewrite run_app, R1, run_app, R2, run_app, R3. exact R4.
  - rewrite put_other by congruence. unfold st3. eapply put_same; eauto.
  - eapply put_same; eauto.
Qed.

(** ** The locks of the calls *)

Lemma sections_nodup : forall L c, (forall s, NoDup (lineage L s)) ->
  Forall (fun s => NoDup (takes s)) (sections L c).
Proof.
  intros L c HL.
  assert (HA : forall s, NoDup (takes (flat_map (fun a => [Take (LScope a); Rd (PAggregator a)]) (lineage L s) ++
         match rev (lineage L s) with a :: _ => [Wr (PAggregator a)] | [] => [] end))).
  { intros s. rewrite takes_app. replace (takes (match rev (lineage L s) with a :: _ => [Wr (PAggregator a)] | [] => [] end)) with (@nil lock)
      by (destruct (rev (lineage L s)); reflexivity).
    rewrite app_nil_r. replace (takes _) with (map LScope (lineage L s))
      by (induction (lineage L s) as [|a r IH]; cbn; [reflexivity|rewrite IH; reflexivity]).
    apply Injective_map_NoDup; [|apply HL]. intros x y H. congruence. }
  destruct c; cbn [sections]; try (destruct (up L s)); cbn; repeat (constructor; cbn);
    try (apply HA); try (intros H; cbn in H; intuition congruence).
Qed.
