(** C90: which calls on scopes may be made by several goroutines at a time. *)

From Coq Require Import List Bool Arith Lia.
From Verif Require Import DataRaces DataRacesProofs.
Import ListNotations.

(** ** Specification *)

(** The next thing that the goroutine does is to read or write the place. *)
Definition about_to (g : goroutine) (writes : bool) (p : place) : Prop :=
  exists r rest, todo g = (Touch writes p :: r) :: rest.

(** A data race (The Go Memory Model): two goroutines may now access the same
    place, and one of them writes to it. For a Go map this ends the process. *)
Definition race (st : list goroutine) : Prop :=
  exists i j g h w v p, i <> j /\ nth_error st i = Some g /\ nth_error st j = Some h /\
    about_to g w p /\ about_to h v p /\ (w = true \/ v = true).

(** Some schedule leads goroutines that make these calls into a data race. *)
Definition races (L : layout) (calls : list (list call)) : Prop :=
  exists schedule st, run (start L calls) schedule = Some st /\ race st.

(** A call reads or writes the place at a moment at which it holds exactly
    these locks. *)
Definition accesses (L : layout) (c : call) (locks : list lock) (writes : bool) (p : place) : Prop :=
  exists section before after, In section (sections L c) /\ section = before ++ Touch writes p :: after /\
    (forall l, In l locks <-> In (Take l) before).

(** Two calls reach the same place, one writes, and no lock keeps them apart. *)
Definition clash (L : layout) (a b : call) : Prop :=
  exists la lb w v p, accesses L a la w p /\ accesses L b lb v p /\ (w = true \/ v = true) /\
    (forall l, In l la -> ~ In l lb).

(** A scope is not its own ancestor. *)
Definition no_loops (L : layout) : Prop := forall s, NoDup (lineage L s).

(** The calls that change what all scopes of a query share; and the one that
    reads the variables without the lock. *)
Definition setting_up (c : call) : bool :=
  match c with
  | AppendFunctions _ | AppendPlugins _ | AddProtocolImpl _ | SetSorter _ | SetGrouper _ | SetMaterializer _
  | SetExplainer _ | SetLogger _ | SetTracer _ | SetThrottler _ | ClearContext _ | Marshal _ => true
  | _ => false
  end.

(** The calls that look up what others may set without the lock of the
    dispatcher, and the ones that set without it. *)
Definition unlocked (c : call) : bool :=
  match c with
  | Resolve _ | Operator _ | PrintVars _ | Marshal _ | NewScope _ | GetFunction _ | GetPlugin _
  | Sort _ | Group _ | Materialize _ | ChargeOp _ | SetLogger _ | SetTracer _ | ClearContext _ => true
  | _ => false
  end.

(** No two dispatchers share a map. *)
Definition own_maps (L : layout) : Prop :=
  (forall d e, funs L d = funs L e -> d = e) /\ (forall d e, plugs L d = plugs L e -> d = e).

(** ** Proofs *)

Lemma in_takes : forall a l, In l (takes a) <-> In (Take l) a.
Proof.
  induction a as [|[k|w p] a IH]; intros l; cbn; [tauto| |]; rewrite IH; split.
  - intros [H|H]; [left; congruence|auto].
  - intros [H|H]; [left; congruence|auto].
  - auto.
  - intros [H|H]; [discriminate|exact H].
Qed.

Lemma accesses_spec : forall L c w p h,
  In (h, w, p) (flat_map (accesses_from []) (sections L c)) -> accesses L c h w p.
Proof.
  intros L c w p h H. apply in_flat_map in H. destruct H as (s & Hs & H). apply accesses_from_in in H.
  destruct H as (a & b & E & ->). exists s, a, b. repeat split; auto; intros H; rewrite app_nil_r in *.
  - apply in_takes. apply in_rev. exact H.
  - apply in_rev. rewrite rev_involutive. apply in_takes. exact H.
Qed.
Lemma accesses_inv : forall L c w p h, accesses L c h w p ->
  exists h', In (h', w, p) (flat_map (accesses_from []) (sections L c)) /\ forall l, In l h <-> In l h'.
Proof.
  intros L c w p h (s & a & b & Hs & E & Hl). exists (rev (takes a)). split.
  - apply in_flat_map. exists s. split; [exact Hs|]. apply accesses_from_in. exists a, b. rewrite app_nil_r. auto.
  - intros l. rewrite Hl, <- in_takes. apply in_rev.
Qed.

(** Goroutines can race exactly when two of them make calls that clash. *)
Theorem C90_race_iff : forall L calls, no_loops L ->
  (races L calls <->
   exists i j x y a b, i <> j /\ nth_error calls i = Some x /\ nth_error calls j = Some y /\
     In a x /\ In b y /\ clash L a b).
Proof.
  intros L calls HL.
  set (ps := map (fun l => flat_map (sections L) l) calls).
  assert (Hst : start L calls = map (fun p => Gor p []) ps) by (unfold start, ps; rewrite map_map; reflexivity).
  assert (Hps : forall i p, nth_error ps i = Some p -> exists x, nth_error calls i = Some x /\ p = flat_map (sections L) x).
  { intros i p H. unfold ps in H. rewrite nth_error_map in H. destruct (nth_error calls i) as [x|]; [|discriminate].
    injection H as <-. eauto. }
  split.
  - intros (sch & st & HR & i & j & g & h & w & v & p & Hij & Hi & Hj & (ri & resti & Hg) & (rj & restj & Hh) & Hw).
    rewrite Hst in HR. destruct (good_run _ _ _ _ (good_start ps) HR) as [HF HM].
    destruct (HF i g Hi) as (pi & Hpi & Fi). destruct (HF j h Hj) as (pj & Hpj & Fj).
    destruct (Hps _ _ Hpi) as (x & Hx & Ex). destruct (Hps _ _ Hpj) as (y & Hy & Ey).
    destruct Fi as [[E _]|(prei & ai & bi & rsi & Epi & Eti & Ehi)]; [congruence|].
    destruct Fj as [[E _]|(prej & aj & bj & rsj & Epj & Etj & Ehj)]; [congruence|].
    assert (In (ai ++ bi) (flat_map (sections L) x)) as HIi by (rewrite <- Ex, Epi; apply in_or_app; right; left; reflexivity).
    assert (In (aj ++ bj) (flat_map (sections L) y)) as HIj by (rewrite <- Ey, Epj; apply in_or_app; right; left; reflexivity).
    apply in_flat_map in HIi. destruct HIi as (a & Ha & HIi). apply in_flat_map in HIj. destruct HIj as (b & Hb & HIj).
    exists i, j, x, y, a, b. repeat split; auto.
    exists (held g), (held h), w, v, p. repeat split; auto.
    + exists (ai ++ bi), ai, ri. repeat split; auto; [congruence| |].
      * intros H. apply in_takes. rewrite Ehi in H. apply in_rev in H. exact H.
      * intros H. apply in_takes in H. rewrite Ehi. apply in_rev. rewrite rev_involutive. exact H.
    + exists (aj ++ bj), aj, rj. repeat split; auto; [congruence| |].
      * intros H. apply in_takes. rewrite Ehj in H. apply in_rev in H. exact H.
      * intros H. apply in_takes in H. rewrite Ehj. apply in_rev. rewrite rev_involutive. exact H.
    + intros l H1 H2. exact (HM i j g h Hij Hi Hj l H1 H2).
  - intros (i & j & x & y & a & b & Hij & Hx & Hy & Ha & Hb & la & lb & w & v & p & HA & HB & Hw & Hd).
    destruct HA as (sa & ai & ri & Hsa & Esa & Hla). destruct HB as (sb & aj & rj & Hsb & Esb & Hlb).
    assert (Hia : In sa (flat_map (sections L) x)) by (apply in_flat_map; eauto).
    assert (Hjb : In sb (flat_map (sections L) y)) by (apply in_flat_map; eauto).
    apply in_split in Hia. destruct Hia as (prei & resti & Ei). apply in_split in Hjb. destruct Hjb as (prej & restj & Ej).
    assert (HN : forall z, Forall (fun s => NoDup (takes s)) (flat_map (sections L) z)).
    { intros z. apply Forall_forall. intros s Hs. apply in_flat_map in Hs. destruct Hs as (c & _ & Hs).
      pose proof (sections_nodup L c HL) as HN. rewrite Forall_forall in HN. auto. }
    destruct (reach_pair ps i j (flat_map (sections L) x) (flat_map (sections L) y) prei prej ai (Touch w p :: ri) aj (Touch v p :: rj) resti restj)
      as (sch & st & HR & H1 & H2); auto.
    + unfold ps. rewrite nth_error_map, Hx. reflexivity.
    + unfold ps. rewrite nth_error_map, Hy. reflexivity.
    + congruence.
    + congruence.
    + intros l Hl Hl'. apply (Hd l); [apply Hla, in_takes, Hl|apply Hlb, in_takes, Hl'].
    + exists sch, st. rewrite Hst. split; [exact HR|].
      exists i, j, (Gor ((Touch w p :: ri) :: resti) (rev (takes ai))), (Gor ((Touch v p :: rj) :: restj) (rev (takes aj))), w, v, p.
      repeat split; auto; eexists; eexists; reflexivity.
Qed.
Print Assumptions C90_race_iff.

(** A discipline: a relation between places and the locks that guard them. *)
Lemma no_clash : forall (guard : place -> option lock) L a b,
  (forall c h w p, c = a \/ c = b -> In (h, w, p) (flat_map (accesses_from []) (sections L c)) ->
     match guard p with Some l => In l h | None => w = false end) ->
  ~ clash L a b.
Proof.
  intros guard L a b H (la & lb & w & v & p & HA & HB & Hw & Hd).
  apply accesses_inv in HA. destruct HA as (ha & HA & Ea). apply accesses_inv in HB. destruct HB as (hb & HB & Eb).
  pose proof (H a ha w p (or_introl eq_refl) HA) as H1. pose proof (H b hb v p (or_intror eq_refl) HB) as H2.
  destruct (guard p) as [l|].
  - apply (Hd l); [apply Ea, H1|apply Eb, H2].
  - destruct Hw; congruence.
Qed.

Lemma agg_accesses : forall l h0 h w p,
  In (h, w, p) (accesses_from h0 (flat_map (fun a => [Take (LScope a); Rd (PAggregator a)]) l ++
     match rev l with a :: _ => [Wr (PAggregator a)] | [] => [] end)) ->
  exists a, p = PAggregator a /\ In (LScope a) h.
Proof.
  intros l h0 h w p H. apply accesses_from_in in H. destruct H as (x & y & E & ->).
  assert (Hin : In (Touch w p) (flat_map (fun a => [Take (LScope a); Rd (PAggregator a)]) l ++
     match rev l with a :: _ => [Wr (PAggregator a)] | [] => [] end)) by (rewrite E; apply in_or_app; right; left; reflexivity).
  enough (exists a, p = PAggregator a /\ In (Take (LScope a)) x) as (a & Ha & Hx).
  { exists a. split; [exact Ha|]. apply in_or_app. left. apply in_rev. rewrite rev_involutive. apply in_takes. exact Hx. }
  clear Hin.
  assert (K : forall l tail, (forall w p, In (Touch w p) tail -> exists a, p = PAggregator a /\ In a l) ->
     (forall k, ~ In (Take k) tail) ->
     forall x y, flat_map (fun a => [Take (LScope a); Rd (PAggregator a)]) l ++ tail = x ++ Touch w p :: y ->
     exists a, p = PAggregator a /\ (In (Take (LScope a)) x)).
  { clear. intros l tail HT HK.
    assert (G : forall l1 l2, l = l1 ++ l2 -> forall x y, flat_map (fun a => [Take (LScope a); Rd (PAggregator a)]) l2 ++ tail = x ++ Touch w p :: y ->
      exists a, p = PAggregator a /\ (In a l1 \/ In (Take (LScope a)) x)).
    { intros l1 l2. revert l1. induction l2 as [|a l2 IH]; intros l1 El x y E; cbn in E.
      - rewrite app_nil_r in El. subst l1. destruct (HT w p) as (a & Ha & Hi).
        + rewrite E. apply in_or_app. right. left. reflexivity.
        + exists a. auto.
      - destruct x as [|s0 x]; [discriminate|]. injection E as <- E.
        destruct x as [|s1 x].
        + injection E as <- <- _. exists a. cbn. auto.
        + injection E as <- E. destruct (IH (l1 ++ [a])) with (x := x) (y := y) as (a' & Ha' & [Hi|Hi]); auto.
          * rewrite <- app_assoc. exact El.
          * apply in_app_or in Hi. destruct Hi as [Hi|[<-|[]]]; exists a' || exists a; cbn; auto.
          * exists a'. cbn. auto. }
    intros x y E. destruct (G [] l eq_refl x y E) as (a & Ha & [[]|Hi]). eauto. }
  eapply K; [| |exact E].
  - intros w' p' Hi. destruct (rev l) as [|a r] eqn:Er; [destruct Hi|]. destruct Hi as [Hi|[]]. injection Hi as _ <-.
    exists a. split; [reflexivity|]. apply in_rev. rewrite Er. left. reflexivity.
  - intros k Hi. destruct (rev l); [destruct Hi|]. destruct Hi as [Hi|[]]. discriminate.
Qed.

Definition guard_running (p : place) : option lock :=
  match p with
  | PVars s | PAggregator s | PChildren s | PEnableExplain s => Some (LScope s)
  | PDestructors s => Some (LDestructors s)
  | _ => None
  end.

Ltac each H := repeat (destruct H as [H|H]; [injection H as <- <- <-; cbn; auto; fail|]); destruct H.

Lemma running_guarded : forall L c h w p, setting_up c = false ->
  In (h, w, p) (flat_map (accesses_from []) (sections L c)) ->
  match guard_running p with Some l => In l h | None => w = false end.
Proof.
  intros L c h w p HS H.
  destruct c; try discriminate HS; try (cbn in H; each H).
  - cbn in H. destruct (up L s); cbn in H; each H.
  - cbn [sections flat_map] in H. rewrite app_nil_r in H. apply agg_accesses in H. destruct H as (a & -> & H). exact H.
Qed.

(** Once everything is set up, scopes may be shared between goroutines: no
    schedule of calls that only use the settings leads to a data race.
    Missing: the calls that change settings; see below. *)
Theorem C90_running_partial : forall L calls, no_loops L ->
  Forall (Forall (fun c => setting_up c = false)) calls -> ~ races L calls.
Proof.
  intros L calls HL HC HR. apply C90_race_iff in HR; [|exact HL].
  destruct HR as (i & j & x & y & a & b & _ & Hx & Hy & Ha & Hb & HK). revert HK.
  rewrite Forall_forall in HC.
  pose proof (HC x (nth_error_In _ _ Hx)) as HX. pose proof (HC y (nth_error_In _ _ Hy)) as HY.
  rewrite Forall_forall in HX, HY.
  apply (no_clash guard_running). intros c h w p [->| ->] H; [apply (running_guarded L a)|apply (running_guarded L b)]; auto.
Qed.
Print Assumptions C90_running_partial.

(** The same for maps, by the dispatcher that owns them. *)
Lemma no_clash_rel : forall (guard : place -> lock -> Prop) (still : place -> bool) L a b,
  (forall p k l, guard p k -> guard p l -> k = l) ->
  (forall c h w p, c = a \/ c = b -> In (h, w, p) (flat_map (accesses_from []) (sections L c)) ->
     if still p then w = false else exists l, guard p l /\ In l h) ->
  ~ clash L a b.
Proof.
  intros guard still L a b HU H (la & lb & w & v & p & HA & HB & Hw & Hd).
  apply accesses_inv in HA. destruct HA as (ha & HA & Ea). apply accesses_inv in HB. destruct HB as (hb & HB & Eb).
  pose proof (H a ha w p (or_introl eq_refl) HA) as H1. pose proof (H b hb v p (or_intror eq_refl) HB) as H2.
  destruct (still p).
  - destruct Hw; congruence.
  - destruct H1 as (k & G1 & I1). destruct H2 as (l & G2 & I2). rewrite (HU p k l G1 G2) in I1.
    apply (Hd l); [apply Ea, I1|apply Eb, I2].
Qed.

Definition guard_setting (L : layout) (p : place) (l : lock) : Prop :=
  match p with
  | PVars s | PAggregator s | PChildren s | PEnableExplain s | PThrottler s => l = LScope s
  | PDestructors s => l = LDestructors s
  | PFunctions m => exists d, funs L d = m /\ l = LDispatcher d
  | PPlugins m => exists d, plugs L d = m /\ l = LDispatcher d
  | PImpl d | PSorter d | PGrouper d | PMaterializer d | PExplainer d => l = LDispatcher d
  | _ => False
  end.
Definition still (p : place) : bool :=
  match p with PDispatcher _ | PLogger _ | PTracer _ => true | _ => false end.

Lemma setting_guarded : forall L c h w p, unlocked c = false ->
  In (h, w, p) (flat_map (accesses_from []) (sections L c)) ->
  if still p then w = false else exists l, guard_setting L p l /\ In l h.
Proof.
  intros L c h w p HS H.
  destruct c; try discriminate HS;
    try (cbn in H; repeat (destruct H as [H|H]; [injection H as <- <- <-; cbn; eauto 10; fail|]); destruct H; fail).
  - cbn in H. destruct (up L s); cbn in H; repeat (destruct H as [H|H]; [injection H as <- <- <-; cbn; eauto 10; fail|]); destruct H.
  - cbn [sections flat_map] in H. rewrite app_nil_r in H. apply agg_accesses in H. destruct H as (a & -> & H).
    cbn. eauto.
Qed.

(** Registering functions, plugins and operators, and changing settings, is safe
    beside the calls that take the lock of the dispatcher for it, as long as
    dispatchers do not share their maps. Missing: the calls that look up
    without the lock, and the settings that are made without it. *)
Theorem C90_setting_up_partial : forall L calls, no_loops L -> own_maps L ->
  Forall (Forall (fun c => unlocked c = false)) calls -> ~ races L calls.
Proof.
  intros L calls HL [HF HP] HC HR. apply C90_race_iff in HR; [|exact HL].
  destruct HR as (i & j & x & y & a & b & _ & Hx & Hy & Ha & Hb & HK). revert HK.
  rewrite Forall_forall in HC.
  pose proof (HC x (nth_error_In _ _ Hx)) as HX. pose proof (HC y (nth_error_In _ _ Hy)) as HY.
  rewrite Forall_forall in HX, HY.
  apply (no_clash_rel (guard_setting L) still).
  - intros p k l H1 H2. destruct p; cbn in H1, H2; try congruence; try contradiction.
    + destruct H1 as (d & E1 & ->), H2 as (e & E2 & ->). f_equal. apply HF. congruence.
    + destruct H1 as (d & E1 & ->), H2 as (e & E2 & ->). f_equal. apply HP. congruence.
  - intros c h w p [->| ->] H; [apply (setting_guarded L a)|apply (setting_guarded L b)]; auto.
Qed.
Print Assumptions C90_setting_up_partial.

(** ** Calls that race *)

Lemma races_pair : forall L a b, no_loops L -> clash L a b -> races L [[a]; [b]].
Proof.
  intros L a b HL H. apply C90_race_iff; [exact HL|].
  exists 0, 1, [a], [b], a, b. cbn. repeat split; auto.
Qed.

Lemma clash_at : forall L a b la lb w v p,
  In (la, w, p) (flat_map (accesses_from []) (sections L a)) ->
  In (lb, v, p) (flat_map (accesses_from []) (sections L b)) ->
  w || v = true -> (forall l, In l la -> ~ In l lb) -> clash L a b.
Proof.
  intros L a b la lb w v p HA HB HW HD. exists la, lb, w, v, p.
  repeat split; try (apply accesses_spec; assumption); [apply orb_prop; exact HW|exact HD].
Qed.

(** The pairs of calls on scopes of one query that race. *)
Inductive hazard : (nat -> call) -> (nat -> call) -> Prop :=
| HGetFunction : hazard GetFunction AppendFunctions
| HGetPlugin : hazard GetPlugin AppendPlugins
| HNewScopeF : hazard NewScope AppendFunctions
| HNewScopeP : hazard NewScope AppendPlugins
| HNewScopeI : hazard NewScope AddProtocolImpl
| HNewScopeE : hazard NewScope SetExplainer
| HOperator : hazard Operator AddProtocolImpl
| HResolve : hazard Resolve AddProtocolImpl
| HSort : hazard Sort SetSorter
| HGroup : hazard Group SetGrouper
| HMaterialize : hazard Materialize SetMaterializer
| HLog : hazard Log SetLogger
| HGetLogger : hazard GetLogger SetLogger
| HSetLogger : hazard SetLogger SetLogger
| HTrace : hazard Trace SetTracer
| HSetTracer : hazard SetTracer SetTracer.

Ltac pick := repeat (first [left; reflexivity | right]).
(** Only the given side writes, or the write comes first in the list. *)
Ltac at_place P E :=
  eapply (clash_at _ _ _ _ _ _ _ P); [cbn; rewrite ?E; pick|cbn; rewrite ?E; pick|reflexivity|
    let l := fresh in let H1 := fresh in let H2 := fresh in
    intros l H1 H2; cbn in H1, H2; intuition (subst; discriminate)].
Ltac at_write P E :=
  eapply (clash_at _ _ _ _ _ _ true P); [cbn; rewrite ?E; pick|cbn; rewrite ?E; pick|apply orb_true_r|
    let l := fresh in let H1 := fresh in let H2 := fresh in
    intros l H1 H2; cbn in H1, H2; intuition (subst; discriminate)].

(** They race on any two scopes that have the dispatcher in common, in
    particular on a scope and its copies. *)
Theorem C90_settings_race : forall L s t f g, no_loops L -> disp L s = disp L t -> hazard f g ->
  races L [[f s]; [g t]].
Proof.
  intros L s t f g HL E H. apply races_pair; [exact HL|].
  destruct H;
    [ at_place (PFunctions (funs L (disp L t))) E
    | at_place (PPlugins (plugs L (disp L t))) E
    | at_place (PFunctions (funs L (disp L t))) E
    | at_place (PPlugins (plugs L (disp L t))) E
    | at_write (PImpl (disp L t)) E
    | at_place (PExplainer (disp L t)) E
    | at_write (PImpl (disp L t)) E
    | at_write (PImpl (disp L t)) E
    | at_place (PSorter (disp L t)) E
    | at_place (PGrouper (disp L t)) E
    | at_place (PMaterializer (disp L t)) E
    | at_place (PLogger (disp L t)) E
    | at_place (PLogger (disp L t)) E
    | at_place (PLogger (disp L t)) E
    | at_place (PTracer (disp L t)) E
    | at_place (PTracer (disp L t)) E ].
Qed.
Print Assumptions C90_settings_race.

(** ClearContext replaces the dispatcher of a scope while others read which one
    it is. *)
Theorem C90_clear_context_races : forall L s, no_loops L ->
  Forall (fun c => races L [[c s]; [ClearContext s]])
    [Resolve; Operator; GetFunction; GetPlugin; Describe; Info; Log; GetLogger; Sort; Group; Materialize;
     GetContext; AppendFunctions; AppendPlugins; AddProtocolImpl; VersionOfPlugin; Trace].
Proof.
  intros L s HL. repeat constructor; (apply races_pair; [exact HL|]); at_write (PDispatcher s) (eq_refl (disp L s)).
Qed.
Print Assumptions C90_clear_context_races.

(** After ClearContext a scope has its own dispatcher, with its own lock, but
    still the maps of the old one: then even two registrations race. *)
Theorem C90_shared_maps_race : forall L s t, no_loops L ->
  disp L s <> disp L t -> funs L (disp L s) = funs L (disp L t) ->
  races L [[AppendFunctions s]; [AppendFunctions t]] /\
  races L [[Describe s]; [AppendFunctions t]].
Proof.
  intros L s t HL Hn E. split; (apply races_pair; [exact HL|]).
  - apply (clash_at L _ _ [LDispatcher (disp L s)] [LDispatcher (disp L t)] true true (PFunctions (funs L (disp L t))));
      cbn; rewrite ?E; auto.
    intros l [<-|[]] [H|[]]. injection H. congruence.
  - apply (clash_at L _ _ [LDispatcher (disp L s)] [LDispatcher (disp L t)] false true (PFunctions (funs L (disp L t))));
      cbn; rewrite ?E; auto.
    intros l [<-|[]] [H|[]]. injection H. congruence.
Qed.
Print Assumptions C90_shared_maps_race.

(** Marshal reads the variables, and ChargeOp the throttler, without the lock of
    the scope. *)
Theorem C90_unlocked_fields_race : forall L s, no_loops L ->
  races L [[Marshal s]; [AppendVars s]] /\ races L [[ChargeOp s]; [SetThrottler s]].
Proof.
  intros L s HL. split; (apply races_pair; [exact HL|]).
  - at_write (PVars s) (eq_refl (disp L s)).
  - at_place (PThrottler s) (eq_refl (disp L s)).
Qed.
Print Assumptions C90_unlocked_fields_race.

(** ** Examples *)

(** Scope 0, its copies 1 and 2 (2 a copy of 1), and scope 3, a copy of 0 after
    ClearContext. *)
Definition family : layout := {|
  disp := fun s => if Nat.eqb s 3 then 1 else 0;
  up := fun s => match s with 1 => Some 0 | 2 => Some 1 | 3 => Some 0 | _ => None end;
  lineage := fun s => match s with 1 => [1; 0] | 2 => [2; 1; 0] | 3 => [3; 0] | _ => [s] end;
  funs := fun _ => 0;
  plugs := fun _ => 0
|}.
Definition strangers : layout := {|
  disp := fun s => s; up := fun _ => None; lineage := fun s => [s]; funs := fun d => d; plugs := fun d => d
|}.

Lemma family_no_loops : no_loops family.
Proof.
  intros [|[|[|[|s]]]]; cbn; repeat (constructor; cbn; try (intros H; intuition discriminate)).
Qed.
Lemma strangers_no_loops : no_loops strangers.
Proof. intros s. cbn. repeat constructor. intros []. Qed.

(** Scopes cannot be shared freely: looking up a function while another
    goroutine registers one, on a scope and its copy. *)
Theorem C90_shared_freely_refuted :
  exists L calls, no_loops L /\ calls = [[GetFunction 1]; [AppendFunctions 0]] /\ races L calls.
Proof.
  exists family, [[GetFunction 1]; [AppendFunctions 0]]. repeat split; [apply family_no_loops|].
  apply (C90_settings_race family 1 0 GetFunction AppendFunctions family_no_loops eq_refl). constructor.
Qed.
Print Assumptions C90_shared_freely_refuted.

(** The race itself, by a schedule: the first goroutine reads the dispatcher, the
    second does so and takes the lock; now both are at the map. *)
Example C90_a_schedule :
  option_map (map (fun g => hd [] (todo g))) (run (start family [[GetFunction 1]; [AppendFunctions 0]]) [0; 1; 1])
  = Some [[Rd (PFunctions 0)]; [Wr (PFunctions 0)]].
Proof. vm_compute. reflexivity. Qed.

(** A lock does keep the second goroutine out. *)
Example C90_a_lock :
  run (start family [[SetAggregatorCtx 1]; [GetAggregatorCtx 2]]) [0; 1; 1; 1] = None /\
  option_map (map held) (run (start family [[SetAggregatorCtx 1]; [GetAggregatorCtx 2]]) [0; 0; 0; 1; 1; 1])
  = Some [[]; [LScope 1; LScope 2]].
Proof. vm_compute. split; reflexivity. Qed.

(** Queries on copies of a scope. *)
Example C90_queries_share :
  ~ races family [[Copy 0; AppendVars 1; Resolve 1; GetFunction 1; Log 1; GetAggregatorCtx 1; Close 1];
                  [Copy 0; AppendVars 2; Resolve 2; GetPlugin 2; Sort 2; GetAggregatorCtx 2; AddDestructor 2; Close 2];
                  [AppendVars 0; NewScope 0; SetContext 0; SetAggregatorCtx 0; EnableExplain 0; Close 0]].
Proof. apply C90_running_partial; [apply family_no_loops|repeat constructor]. Qed.
Example C90_registrations_share :
  ~ races strangers [[AppendFunctions 0; AppendPlugins 1; SetSorter 0]; [AppendFunctions 0; Describe 0; SetExplainer 0; Explainer 0]].
Proof.
  apply C90_setting_up_partial; [apply strangers_no_loops| |repeat constructor].
  split; cbn; auto.
Qed.
Example C90_after_clear_context : races family [[AppendFunctions 0]; [AppendFunctions 3]].
Proof. apply C90_shared_maps_race; [apply family_no_loops|discriminate|reflexivity]. Qed.
