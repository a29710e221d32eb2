(** C77: suggestions for a plugin that is not registered, and versions.
    C78: the counters of a scope. *)

From Coq Require Import ZArith List String Ascii Bool Lia Permutation Sorted.
From Verif Require Import Base BaseProofs Value ArgParser ArgParserProps GoSort Catalogue.
Import ListNotations.
Open Scope nat_scope.
Open Scope string_scope.
Open Scope list_scope.

(** ** C77: specification *)

(** The words of a name are what stands between its underscores. *)
Definition words_of (name : string) (ws : list string) : Prop :=
  ws <> [] /\ Forall (fun w => ~ In "_"%char (str_list w)) ws /\ name = str_join "_" ws.

Definition part_of (w k : string) : Prop := exists a b, k = (a ++ w ++ b)%string.

Definition in_order (l : list string) : Prop := StronglySorted (fun a b => str_ltb a b = true) l.

(** ** C77: proofs *)

Lemma split_join : forall ws, ws <> [] -> Forall (fun w => ~ In "_"%char (str_list w)) ws ->
  split_on "_"%char (str_join "_" ws) = ws.
Proof.
  induction ws as [|w ws IH]; intros NE F; [congruence|]. inversion F as [|? ? Fw Fws]; subst.
  destruct ws as [|w' ws].
  - cbn [str_join]. now apply split_on_plain.
  - change (str_join "_" (w :: w' :: ws)) with (w ++ String "_" (str_join "_" (w' :: ws)))%string.
    rewrite split_on_app by exact Fw. f_equal. apply IH; [congruence|exact Fws].
Qed.

Lemma walk_spec : forall part order result, NoDup result ->
  NoDup (similar_walk part order result) /\
  forall k, In k (similar_walk part order result) <-> In k result \/ (In k order /\ part_of part k).
Proof.
  intros part order. induction order as [|x order IH]; intros result ND.
  - split; [exact ND|]. intros k. cbn. tauto.
  - cbn [similar_walk fold_left].
    destruct (str_containsb part x) eqn:EC; cbn [andb].
    + destruct (mem_str x result) eqn:EM; cbn [negb].
      * destruct (IH result ND) as [A B]. split; [exact A|]. intros k. rewrite (B k). cbn [In].
        apply mem_str_in in EM. split; [tauto|]. intros [H|[[<-|H] P]]; auto.
      * assert (ND' : NoDup (result ++ [x])).
        { apply (Permutation_NoDup (l := x :: result)); [apply Permutation_cons_append|].
          constructor; [|exact ND]. intros I. apply mem_str_in in I. congruence. }
        destruct (IH _ ND') as [A B]. split; [exact A|]. intros k. rewrite (B k). rewrite in_app_iff. cbn [In].
        apply str_containsb_spec in EC. split; [|tauto].
        intros [[H|[<-|[]]]|H]; [now left| |tauto]. right. split; [now left|exact EC].
    + destruct (IH result ND) as [A B]. split; [exact A|]. intros k. rewrite (B k). cbn [In].
      split; [tauto|]. intros [H|[[<-|H] P]]; auto. exfalso.
      apply str_containsb_spec in P. congruence.
Qed.

Lemma walks_spec : forall (order : nat -> list string) names parts i result,
  (forall i k, In k (order i) <-> In k names) -> NoDup result ->
  let r := snd (fold_left (fun ir part => (S (fst ir), similar_walk part (order (fst ir)) (snd ir))) parts (i, result)) in
  NoDup r /\ forall k, In k r <-> In k result \/ (In k names /\ exists w, In w parts /\ part_of w k).
Proof.
  intros order names parts. induction parts as [|w parts IH]; intros i result HO ND; cbn zeta.
  - split; [exact ND|]. intros k. cbn. split; [tauto|]. intros [H|(_ & w & [] & _)]; exact H.
  - cbn [fold_left fst snd]. destruct (walk_spec w (order i) result ND) as [A B].
    destruct (IH (S i) _ HO A) as [C D]. split; [exact C|]. intros k. rewrite (D k), (B k), HO. split.
    + intros [[H|[H P]]|(H & w' & I & P)]; auto.
      * right. split; [exact H|]. exists w. split; [now left|exact P].
      * right. split; [exact H|]. exists w'. split; [now right|exact P].
    + intros [H|(H & w' & [<-|I] & P)]; auto.
      right. split; [exact H|]. exists w'. auto.
Qed.

Lemma strings_weak_order : forall l, weak_order_on str_ltb l.
Proof.
  intros l. split.
  - intros x y _ _ H. now apply str_ltb_asym.
  - intros x y z _ _ _ H. destruct (str_ltb_total x z) as [?|[->|Z]]; auto.
    right. eapply str_ltb_trans; eauto.
Qed.

Lemma strict_sorted : forall l, NoDup l -> StronglySorted (fun a b => str_ltb b a = false) l -> in_order l.
Proof.
  intros l ND H. induction H as [|x l Hl IH Hx]; [constructor|].
  inversion ND as [|? ? NI ND']; subst. constructor; [exact (IH ND')|].
  rewrite Forall_forall in Hx. apply Forall_forall. intros y Hy. destruct (str_ltb_total x y) as [K|[K|Z]].
  - exact K.
  - subst y. contradiction.
  - rewrite (Hx y Hy) in Z. discriminate.
Qed.

Lemma in_order_unique : forall l l', in_order l -> in_order l' -> (forall k, In k l <-> In k l') -> l = l'.
Proof.
  assert (Irr : forall a l, Forall (fun b => str_ltb a b = true) l -> ~ In a l).
  { intros a l F I. rewrite Forall_forall in F. specialize (F a I). rewrite str_ltb_irrefl in F. discriminate. }
  induction l as [|x l IH]; intros l' H H' E.
  - destruct l' as [|y l']; [reflexivity|]. exfalso. apply (E y). now left.
  - destruct l' as [|y l']; [exfalso; apply (E x); now left|].
    inversion H as [|? ? Hl Hx]; inversion H' as [|? ? Hl' Hy]; subst.
    assert (x = y).
    { destruct (proj1 (E x) (or_introl eq_refl)) as [->|I]; [reflexivity|].
      destruct (proj2 (E y) (or_introl eq_refl)) as [->|I']; [reflexivity|].
      rewrite Forall_forall in Hx, Hy. specialize (Hx _ I'). specialize (Hy _ I).
      rewrite (str_ltb_asym _ _ Hx) in Hy. discriminate. }
    subst y. f_equal. apply IH; auto. intros k. split; intros I.
    + destruct (proj1 (E k) (or_intror I)) as [<-|]; auto. exfalso. now apply (Irr x l).
    + destruct (proj2 (E k) (or_intror I)) as [<-|]; auto. exfalso. now apply (Irr x l').
Qed.

(** The suggestions are the registered names that contain a word of the name,
    each once and in order, in whatever order the registry is walked over. *)
Theorem C77_suggestions : forall sort order names name ws,
  sort_contract sort ->
  (forall i, Permutation (order i) names) ->
  words_of name ws ->
  in_order (get_similar sort order name) /\
  forall k, In k (get_similar sort order name) <-> In k names /\ exists w, In w ws /\ part_of w k.
Proof.
  intros sort order names name ws SC HO (NE & F & ->). unfold get_similar. rewrite split_join by assumption.
  destruct (walks_spec order names ws 0 []) as [ND H].
  { intros i k. split; apply Permutation_in; [apply HO | symmetry; apply HO]. }
  { constructor. }
  set (r := snd _) in *. clearbody r.
  pose proof (sc_perm _ SC str_ltb r) as P. split.
  - apply strict_sorted.
    + eapply Permutation_NoDup; [symmetry; exact P|exact ND].
    + apply (sc_asc _ SC). apply strings_weak_order.
  - intros k. split.
    + intros I. apply (Permutation_in _ P) in I. apply H in I as [[]|I]. exact I.
    + intros I. apply (Permutation_in _ (Permutation_sym P)). apply H. now right.
Qed.

(** So they do not depend on the order of the registry nor on the sort. *)
Theorem C77_same_every_time : forall sort sort' order order' names name,
  sort_contract sort -> sort_contract sort' ->
  (forall i, Permutation (order i) names) -> (forall i, Permutation (order' i) names) ->
  get_similar sort order name = get_similar sort' order' name.
Proof.
  intros sort sort' order order' names name SC SC' HO HO'.
  assert (W : exists ws, words_of name ws).
  { clear. induction name as [|c name (ws & NE & F & E)].
    - exists [""]. split; [discriminate|]. split; [constructor; [intros []|constructor] | reflexivity].
    - destruct (ascii_dec c "_") as [->|NC].
      + exists ("" :: ws). split; [discriminate|]. split; [constructor; [intros []|exact F]|].
        destruct ws as [|w ws]; [congruence|]. cbn [str_join]. rewrite E. reflexivity.
      + destruct ws as [|w ws]; [congruence|]. inversion F as [|? ? Fw Fws]; subst.
        exists (String c w :: ws). split; [discriminate|]. split.
        * constructor; [|exact Fws]. cbn. intros [I|I]; [congruence|contradiction].
        * destruct ws as [|w2 ws]; reflexivity. }
  destruct W as [ws W].
  destruct (C77_suggestions sort order names name ws SC HO W) as [A B].
  destruct (C77_suggestions sort' order' names name ws SC' HO' W) as [A' B'].
  apply in_order_unique; auto. intros k. now rewrite B, B'.
Qed.

(** A name with an underscore at an end, or two in a row, has an empty word:
    every plugin is suggested. *)
Theorem C77_empty_word : exists order names name k,
  (forall i, Permutation (order i) names) /\
  get_similar (fun less => insertion_sort less) order name = names /\ In k names /\
  (forall c, In c (str_list name) -> In c (str_list k) -> False).
Proof.
  exists (fun _ => ["flatten"; "range"]), ["flatten"; "range"], "_psx", "range".
  split; [intros; apply Permutation_refl|]. split; [vm_compute; reflexivity|]. split; [right; now left|].
  cbn. intros c H1 H2. repeat (destruct H1 as [<-|H1]; [intuition discriminate|]). contradiction.
Qed.

Example suggestions_example :
  get_similar (fun less => insertion_sort less)
    (fun i => if Nat.eqb i 0 then ["stat_file"; "pslist"; "read_file"; "read"] else ["read"; "pslist"; "read_file"; "stat_file"])
    "read_files" = ["read"; "read_file"] /\
  words_of "read_files" ["read"; "files"] /\
  not_found_message "read_files" ["read"; "read_file"] true =
    "Plugin read_files not found. Did you mean read read_file? There is a VQL function called ""read_files"" - did you mean to call this function instead?".
Proof.
  split; [vm_compute; reflexivity|]. split; [|vm_compute; reflexivity].
  split; [discriminate|]. split; [|reflexivity].
  repeat constructor; cbn; intuition discriminate.
Qed.

(** The message names the plugin, all the suggestions, and a function exactly
    if one has that name. *)
Theorem C77_message : forall name options is_function,
  let m := not_found_message name options is_function in
  (exists rest, m = ("Plugin " ++ name ++ " not found. " ++ rest)%string) /\
  (forall k, In k options -> part_of k m) /\
  (is_function = true -> part_of ("There is a VQL function called """ ++ name ++ """")%string m) /\
  (options = [] -> is_function = false -> m = ("Plugin " ++ name ++ " not found. ")%string).
Proof.
  assert (AA : forall a b c : string, ((a ++ b) ++ c = a ++ b ++ c)%string).
  { induction a as [|x a IH]; intros; cbn [append]; [reflexivity|]. now rewrite IH. }
  assert (EM : forall a : string, (a ++ "" = a)%string).
  { induction a as [|x a IH]; cbn [append]; [reflexivity|]. now rewrite IH. }
  assert (J : forall k l, In k l -> exists a b, str_join " " l = (a ++ k ++ b)%string).
  { intros k l. induction l as [|x l IH]; intros I; [contradiction|]. destruct I as [->|I].
    - exists "". destruct l as [|y l]; [exists ""; cbn [str_join append]; now rewrite EM|].
      exists (" " ++ str_join " " (y :: l))%string. reflexivity.
    - destruct (IH I) as (a & b & E). destruct l as [|y l]; [contradiction|].
      exists (x ++ " " ++ a)%string, b. change (str_join " " (x :: y :: l)) with (x ++ " " ++ str_join " " (y :: l))%string.
      rewrite E, !AA. reflexivity. }
  intros name options f m. unfold m, not_found_message. split; [|split; [|split]].
  - destruct (Nat.ltb 0 (List.length options)), f; rewrite ?AA; eexists; try reflexivity.
  - intros k I. destruct (J k options I) as (a & b & E).
    destruct options as [|o options]; [contradiction|]. cbn [List.length Nat.ltb Nat.leb]. rewrite E.
    destruct f.
    + exists ("Plugin " ++ name ++ " not found. " ++ "Did you mean " ++ a)%string. eexists. rewrite !AA. reflexivity.
    + exists ("Plugin " ++ name ++ " not found. " ++ "Did you mean " ++ a)%string. eexists. rewrite !AA. reflexivity.
  - intros ->. destruct (Nat.ltb 0 (List.length options)).
    + exists (("Plugin " ++ name ++ " not found. ") ++ "Did you mean " ++ str_join " " options ++ "? ")%string.
      eexists. rewrite !AA. cbn [append]. reflexivity.
    + exists ("Plugin " ++ name ++ " not found. ")%string. eexists. rewrite !AA. cbn [append]. reflexivity.
  - intros -> ->. reflexivity.
Qed.

(** version() of a registered name is its version and NULL for any other; the
    name of a function counts only if no plugin is named. *)
Theorem C77_version : forall plugins functions name other,
  name <> "" ->
  version_call plugins functions name other = match plugins name with Some v => VInt KInt v | None => VNull end /\
  version_call plugins functions "" name = match functions name with Some v => VInt KInt v | None => VNull end.
Proof.
  intros plugins functions name other NE. unfold version_call.
  apply String.eqb_neq in NE. rewrite NE. split; reflexivity.
Qed.

Print Assumptions C77_suggestions.
Print Assumptions C77_same_every_time.
Print Assumptions C77_empty_word.
Print Assumptions C77_message.
Print Assumptions C77_version.

(** ** C78: specification *)

(** How much was added to a counter *)
Fixpoint added (c : nat) (es : list stat_step) : Z :=
  match es with
  | [] => 0
  | StatAdd c' n :: es => (if Nat.eqb c' c then n else 0) + added c es
  | StatLoad _ :: es => added c es
  end%Z.

(** How often a goroutine has loaded a counter *)
Fixpoint loads (r : nat) (es : list stat_step) : nat :=
  match es with
  | [] => 0
  | StatAdd _ _ :: es => loads r es
  | StatLoad r' :: es => (if Nat.eqb r' r then 1 else 0) + loads r es
  end.

(** ** C78: proofs *)

Lemma added_app : forall c a b, added c (a ++ b) = (added c a + added c b)%Z.
Proof. induction a as [|[c' n|r] a IH]; intros b; cbn [app added]; rewrite ?IH; lia. Qed.
Lemma loads_app : forall r a b, loads r (a ++ b) = loads r a + loads r b.
Proof. induction a as [|[c' n|r'] a IH]; intros b; cbn [app loads]; rewrite ?IH; lia. Qed.

(** A counter is the sum of what was added, whatever the schedule. *)
Theorem C78_counts : forall es c, counters (stat_run es) c = (added c es mod 2 ^ 64)%Z.
Proof.
  intros es. induction es as [|e es IH] using rev_ind; intros c; [reflexivity|].
  unfold stat_run. rewrite fold_left_app. fold (stat_run es). cbn [fold_left]. rewrite added_app.
  destruct e as [c' n|r]; cbn [stat_do counters added].
  - unfold set_at. destruct (Nat.eqb_spec c c') as [->|N].
    + rewrite Nat.eqb_refl, IH, Z.add_0_r. symmetry. rewrite Z.add_mod by (clear; lia). reflexivity.
    + destruct (Nat.eqb_spec c' c); [congruence|]. rewrite IH. f_equal. lia.
  - rewrite IH. f_equal. lia.
Qed.

Lemma loaded_length : forall es r, List.length (loaded (stat_run es) r) = loads r es.
Proof.
  intros es. induction es as [|e es IH] using rev_ind; intros r; [reflexivity|].
  unfold stat_run. rewrite fold_left_app. fold (stat_run es). cbn [fold_left]. rewrite loads_app.
  destruct e as [c' n|r']; cbn [stat_do loaded loads].
  - rewrite IH. lia.
  - unfold set_at. destruct (Nat.eqb_spec r r') as [->|N].
    + rewrite Nat.eqb_refl, app_length, IH. cbn [List.length]. lia.
    + destruct (Nat.eqb_spec r' r); [congruence|]. rewrite IH. lia.
Qed.

Lemma nth_firstn : forall A n c (l : list A), c < n -> nth_error (firstn n l) c = nth_error l c.
Proof.
  intros A n. induction n as [|n IH]; intros c l L; [lia|].
  destruct l as [|x l], c as [|c]; cbn [firstn nth_error]; try reflexivity. apply IH. lia.
Qed.

(** Each number of a snapshot is what the counter was at some moment while the
    snapshot was taken: when the goroutine had loaded the counters before it
    and no other. *)
Theorem C78_snapshot : forall es r values c v,
  snapshot es r = Some values -> nth_error values c = Some v ->
  exists before after, es = before ++ StatLoad r :: after /\ loads r before = c /\
    v = (added c before mod 2 ^ 64)%Z.
Proof.
  assert (L : forall es r c v, nth_error (loaded (stat_run es) r) c = Some v ->
    exists before after, es = before ++ StatLoad r :: after /\ loads r before = c /\
      v = (added c before mod 2 ^ 64)%Z).
  { intros es. induction es as [|e es IH] using rev_ind; intros r c v H; [now destruct c|].
    unfold stat_run in H. rewrite fold_left_app in H. fold (stat_run es) in H. cbn [fold_left] in H.
    assert (K : nth_error (loaded (stat_run es) r) c = Some v ->
      exists before after, es ++ [e] = before ++ StatLoad r :: after /\ loads r before = c /\
        v = (added c before mod 2 ^ 64)%Z).
    { intros H'. destruct (IH _ _ _ H') as (b & a & -> & R). exists b, (a ++ [e]). rewrite <- app_assoc. auto. }
    destruct e as [c' n|r']; cbn [stat_do loaded] in H; [auto|].
    unfold set_at in H. destruct (Nat.eqb_spec r r') as [<-|N]; [|auto].
    destruct (Nat.lt_ge_cases c (List.length (loaded (stat_run es) r))) as [LT|GE].
    - rewrite nth_error_app1 in H by exact LT. auto.
    - rewrite nth_error_app2 in H by exact GE.
      destruct (c - List.length (loaded (stat_run es) r)) as [|k] eqn:ED; [|now destruct k].
      cbn in H. injection H as <-. exists es, []. split; [reflexivity|].
      rewrite <- loaded_length. split; [lia|]. replace c with (List.length (loaded (stat_run es) r)) by lia.
      apply C78_counts. }
  intros es r values c v H HN. unfold snapshot in H.
  destruct (Nat.leb_spec 5 (List.length (loaded (stat_run es) r))); [|discriminate].
  assert (EV : values = firstn 5 (loaded (stat_run es) r)) by congruence. subst values. clear H. apply L.
  destruct (Nat.lt_ge_cases c 5) as [LT|GE].
  - rewrite <- HN. symmetry. now apply nth_firstn.
  - exfalso. assert (List.length (firstn 5 (loaded (stat_run es) r)) <= 5) by apply firstn_le_length.
    assert (nth_error (firstn 5 (loaded (stat_run es) r)) c <> None) by congruence.
    apply nth_error_Some in H1. lia.
Qed.

(** When nothing is added while a snapshot is taken it has all the counts. *)
Theorem C78_quiet_snapshot : forall before reads r values c v,
  (forall e, In e reads -> exists r', e = StatLoad r') -> loads r before = 0 ->
  snapshot (before ++ reads) r = Some values -> nth_error values c = Some v ->
  v = (added c before mod 2 ^ 64)%Z.
Proof.
  intros before reads r values c v HR HL HS HN.
  destruct (C78_snapshot _ _ _ _ _ HS HN) as (b & a & E & LB & ->).
  assert (N : forall l, (forall e, In e l -> exists r', e = StatLoad r') -> added c l = 0%Z).
  { induction l as [|e l IH]; intros H; [reflexivity|]. destruct (H e (or_introl eq_refl)) as [r' ->].
    cbn [added]. apply IH. intros e I. apply H. now right. }
  assert (P : exists mid, b = before ++ mid /\ incl mid reads).
  { clear - E HL. revert b E. induction before as [|x before IH]; intros b E.
    - exists b. split; [reflexivity|]. cbn [app] in E. rewrite E. intros z I. apply in_or_app. now left.
    - destruct b as [|y b].
      + cbn [app] in E. injection E as -> _. cbn [loads] in HL. rewrite Nat.eqb_refl in HL. discriminate.
      + cbn [app] in E. injection E as <- E. destruct (IH) with (b := b) as (mid & -> & I); auto.
        { destruct x as [?|r']; cbn [loads] in HL; [exact HL|]. destruct (Nat.eqb r' r); [discriminate|exact HL]. }
        exists mid. auto. }
  destruct P as (mid & -> & I). rewrite added_app, (N mid); [f_equal; lia|]. intros e Ie. apply HR. now apply I.
Qed.

(** A counter never goes back as long as it does not reach 2^64: of two
    snapshots, one after the other, no number is smaller in the second. *)
Theorem C78_later_snapshot : forall es1 es2 r1 r2 values1 values2 c v1 v2,
  (forall c n, In (StatAdd c n) (es1 ++ es2) -> (0 <= n)%Z) ->
  (added c (es1 ++ es2) < 2 ^ 64)%Z ->
  loads r2 es1 = 0 ->
  snapshot es1 r1 = Some values1 -> snapshot (es1 ++ es2) r2 = Some values2 ->
  nth_error values1 c = Some v1 -> nth_error values2 c = Some v2 -> (v1 <= v2)%Z.
Proof.
  intros es1 es2 r1 r2 values1 values2 c v1 v2 HP HB HL H1 H2 N1 N2.
  destruct (C78_snapshot _ _ _ _ _ H1 N1) as (b1 & a1 & E1 & _ & ->).
  destruct (C78_snapshot _ _ _ _ _ H2 N2) as (b2 & a2 & E2 & L2 & ->).
  assert (NN : forall l, (forall c n, In (StatAdd c n) l -> (0 <= n)%Z) -> (0 <= added c l)%Z).
  { induction l as [|[c' n|r'] l IH]; intros H; cbn [added]; [lia| |].
    - specialize (IH (fun c n I => H c n (or_intror I))). pose proof (H c' n (or_introl eq_refl)).
      destruct (Nat.eqb c' c); lia.
    - apply IH. intros c0 n0 I. apply (H c0 n0). now right. }
  assert (P : exists mid, b2 = es1 ++ mid).
  { clear - E2 HL. revert b2 E2. induction es1 as [|x es1 IH]; intros b E.
    - exists b. reflexivity.
    - destruct b as [|y b].
      + cbn [app] in E. injection E as -> _. cbn [loads] in HL. rewrite Nat.eqb_refl in HL. discriminate.
      + cbn [app] in E. injection E as <- E. destruct (IH) with (b2 := b) as (mid & ->); auto.
        { destruct x as [?|r']; cbn [loads] in HL; [exact HL|]. destruct (Nat.eqb r' r2); [discriminate|exact HL]. }
        exists mid. auto. }
  destruct P as (mid & ->).
  assert (T : added c (es1 ++ es2) = (added c (es1 ++ mid) + added c (StatLoad r2 :: a2))%Z)
    by (rewrite E2, added_app; reflexivity).
  assert (T1 : added c es1 = (added c b1 + added c (StatLoad r1 :: a1))%Z) by (rewrite E1 at 1; rewrite added_app; reflexivity).
  rewrite added_app in *.
  assert (0 <= added c b1)%Z.
  { apply NN. intros c0 n0 I. apply (HP c0 n0). rewrite E1. rewrite <- app_assoc. apply in_or_app. now left. }
  assert (0 <= added c (StatLoad r1 :: a1))%Z.
  { apply NN. intros c0 n0 I. apply (HP c0 n0). rewrite E1. rewrite <- app_assoc. apply in_or_app. right.
    apply in_or_app. now left. }
  assert (0 <= added c mid)%Z.
  { apply NN. intros c0 n0 I. apply (HP c0 n0). rewrite E2, <- app_assoc. apply in_or_app. right.
    apply in_or_app. now left. }
  assert (0 <= added c (StatLoad r2 :: a2))%Z.
  { apply NN. intros c0 n0 I. apply (HP c0 n0). rewrite E2. apply in_or_app. now right. }
  rewrite added_app in T. rewrite !Z.mod_small by lia. lia.
Qed.

(** A snapshot need not be what the counters were at any one moment. *)
Theorem C78_not_one_moment_refuted : exists es r values,
  snapshot es r = Some values /\
  forall before after, es = before ++ after ->
    map (fun c => added c before) [0; 1; 2; 3; 4] <> values.
Proof.
  exists [StatLoad 0; StatAdd 0 1%Z; StatAdd 1 1%Z; StatLoad 0; StatLoad 0; StatLoad 0; StatLoad 0], 0, [0; 1; 0; 0; 0]%Z.
  split; [vm_compute; reflexivity|]. intros before after E.
  do 8 (destruct before as [|? before]; [discriminate || (cbn [app] in E; injection E as <-; discriminate)
    || (intros K; vm_compute in K; discriminate) |
    cbn [app] in E; try (injection E as <- E)]); discriminate.
Qed.

Example snapshot_example :
  let es := [StatAdd 0 1; StatAdd 3 2; StatLoad 7; StatAdd 0 1; StatLoad 7; StatLoad 7; StatLoad 7; StatAdd 4 1; StatLoad 7]%Z in
  snapshot es 7 = Some [1; 0; 0; 2; 1]%Z /\ counters (stat_run es) 0 = 2%Z.
Proof. vm_compute. split; reflexivity. Qed.

Print Assumptions C78_counts.
Print Assumptions C78_snapshot.
Print Assumptions C78_quiet_snapshot.
Print Assumptions C78_later_snapshot.
Print Assumptions C78_not_one_moment_refuted.
