(** The parser always decides: the fuel never runs out. *)

From Coq Require Import ZArith List String Ascii Bool Lia.
From Verif Require Import Base F64 Text Lexer Numeral Grammar Parser LexProofs LexCover.
Import ListNotations.
Open Scope nat_scope.
Open Scope string_scope.
Open Scope list_scope.

(** p takes at least d tokens when it succeeds *)
Definition takes {A} (d : nat) (p : parser A) : Prop :=
  forall ts a r, p ts = POk a r -> List.length r + d <= List.length ts.
(** p decides on fewer than k tokens *)
Definition ends {A} (k : nat) (p : parser A) : Prop :=
  forall ts, List.length ts < k -> p ts <> PFuel.

Lemma takes_le {A} d d' (p : parser A) : d' <= d -> takes d p -> takes d' p.
Proof. intros L T ts a r E. specialize (T ts a r E). lia. Qed.
Lemma ends_le {A} k k' (p : parser A) : k' <= k -> ends k p -> ends k' p.
Proof. intros L E ts H. apply E. lia. Qed.
Lemma ends_zero {A} (p : parser A) : ends 0 p.
Proof. intros ts H. lia. Qed.

Lemma takes_pret {A} (a : A) : takes 0 (pret a).
Proof. intros ts b r [= <- <-]. lia. Qed.
Lemma ends_pret {A} k (a : A) : ends k (pret a).
Proof. intros ts _. discriminate. Qed.
Lemma takes_bind {A B} d e (p : parser A) (f : A -> parser B) :
  takes d p -> (forall a, takes e (f a)) -> takes (d + e) (pbind p f).
Proof.
  intros P F ts b r. unfold pbind. destruct (p ts) as [a q|q|] eqn:E; try discriminate. intro E2.
  specialize (P ts a q E). specialize (F a q b r E2). lia.
Qed.
Lemma ends_bind {A B} d k (p : parser A) (f : A -> parser B) :
  ends k p -> takes d p -> (forall a, ends (k - d) (f a)) -> ends k (pbind p f).
Proof.
  intros E T F ts L. unfold pbind. specialize (E ts L). destruct (p ts) as [a q|q|] eqn:H; try discriminate; [|contradiction].
  apply F. specialize (T ts a q H). lia.
Qed.
Lemma takes_ptok t : takes 1 (ptok t).
Proof.
  intros [|x ts] a r; cbn [ptok]; [discriminate|]. destruct (ttype_beq _ _); [|discriminate].
  intros [= _ <-]. cbn. lia.
Qed.
Lemma ends_ptok k t : ends k (ptok t).
Proof. intros [|x ts] _; cbn [ptok]; [discriminate|]. destruct (ttype_beq _ _); discriminate. Qed.
Lemma takes_plit v : takes 1 (plit v).
Proof.
  intros [|x ts] a r; cbn [plit]; [discriminate|]. destruct (String.eqb _ _); [|discriminate].
  intros [= _ <-]. cbn. lia.
Qed.
Lemma ends_plit k v : ends k (plit v).
Proof. intros [|x ts] _; cbn [plit]; [discriminate|]. destruct (String.eqb _ _); discriminate. Qed.
Lemma takes_alt {A} d (p q : parser A) : takes d p -> takes d q -> takes d (alt p q).
Proof.
  intros P Q ts a r. unfold alt. destruct (p ts) as [b x|x|] eqn:E; [|destruct (stop ts x); [discriminate|]|discriminate].
  - intros [= <- <-]. now apply (P ts b).
  - destruct (q ts) as [b y|y|] eqn:E2; [|destruct (stop ts y); discriminate|discriminate].
    intros [= <- <-]. now apply (Q ts b).
Qed.
Lemma ends_alt {A} k (p q : parser A) : ends k p -> ends k q -> ends k (alt p q).
Proof.
  intros P Q ts L. unfold alt. specialize (P ts L). specialize (Q ts L).
  destruct (p ts) as [b x|x|]; [discriminate| |contradiction]. destruct (stop ts x); [discriminate|].
  destruct (q ts) as [b y|y|]; [discriminate| |contradiction]. destruct (stop ts y); discriminate.
Qed.
Lemma takes_popt {A} d (p : parser A) : takes d p -> takes 0 (popt p).
Proof.
  intros P ts a r. unfold popt. destruct (p ts) as [b x|x|] eqn:E; [|destruct (stop ts x); [discriminate|]|discriminate].
  - intros [= <- <-]. specialize (P ts b x E). lia.
  - intros [= <- <-]. lia.
Qed.
Lemma ends_popt {A} k (p : parser A) : ends k p -> ends k (popt p).
Proof.
  intros P ts L. unfold popt. specialize (P ts L).
  destruct (p ts) as [b x|x|]; [discriminate| |contradiction]. destruct (stop ts x); discriminate.
Qed.
Lemma takes_pstar_n {A} d (p : parser A) : takes d p -> forall n, takes 0 (pstar_n n p).
Proof.
  intros P n. induction n as [|n IH]; intros ts l r; cbn [pstar_n]; [discriminate|].
  destruct (p ts) as [b x|x|] eqn:E; [|destruct (stop ts x); [discriminate|]|discriminate].
  - destruct (pstar_n n p x) as [l' y|y|] eqn:E2; try discriminate. intros [= <- <-].
    specialize (P ts b x E). specialize (IH x l' y E2). lia.
  - intros [= <- <-]. lia.
Qed.
Lemma takes_pstar {A} d (p : parser A) : takes d p -> takes 0 (pstar p).
Proof. intros P ts. now apply (takes_pstar_n d). Qed.
Lemma ends_pstar {A} k (p : parser A) : ends k p -> takes 1 p -> ends k (pstar p).
Proof.
  intros P T.
  assert (G : forall n ts, List.length ts < n -> List.length ts < k -> pstar_n n p ts <> PFuel).
  { induction n as [|n IH]; intros ts Ln Lk; [lia|]. cbn [pstar_n]. specialize (P ts Lk).
    destruct (p ts) as [b x|x|] eqn:E; [| |contradiction].
    - specialize (T ts b x E). specialize (IH x ltac:(lia) ltac:(lia)).
      destruct (pstar_n n p x); [discriminate|discriminate|contradiction].
    - destruct (stop ts x); discriminate. }
  intros ts L. apply G; lia.
Qed.
Lemma takes_plist {A} d (p : parser A) : takes d p -> takes 0 (plist p).
Proof.
  intro P. apply (takes_bind 0 0).
  - apply (takes_popt 0). apply (takes_bind 0 0); [now apply (takes_le d); [lia|]|]. intro a.
    apply (takes_bind 0 0); [|intro; apply takes_pret].
    apply (takes_pstar (1 + d)). apply (takes_bind 1 d); [apply takes_plit|now intros].
  - intro o. apply takes_pret.
Qed.
Lemma ends_plist {A} k (p : parser A) : ends k p -> takes 1 p -> ends k (plist p).
Proof.
  intros E T. apply (ends_bind 0).
  - apply ends_popt. apply (ends_bind 1); [exact E|exact T|]. intro a. apply (ends_bind 0).
    + apply ends_pstar.
      * apply (ends_bind 1); [apply ends_plit|apply takes_plit|]. intros _. apply (ends_le k); [lia|exact E].
      * apply (takes_bind 1 0); [apply takes_plit|]. intros _. now apply (takes_le 1); [lia|].
    + apply (takes_pstar 1). apply (takes_bind 1 0); [apply takes_plit|]. intros _. now apply (takes_le 1); [lia|].
    + intro. apply ends_pret.
  - apply (takes_popt 1). apply (takes_bind 1 0); [exact T|]. intro a. apply (takes_bind 0 0).
    + apply (takes_pstar 1). apply (takes_bind 1 0); [apply takes_plit|]. intros _. now apply (takes_le 1); [lia|].
    + intro. apply takes_pret.
  - intro o. apply ends_pret.
Qed.

(** Closing a chain. *)
Ltac tk :=
  match goal with
  | |- takes _ (pret _) => apply (takes_le 0); [lia|apply takes_pret]
  | |- takes ?d (ptok _) => apply (takes_le 1); [lia|apply takes_ptok]
  | |- takes ?d (plit _) => apply (takes_le 1); [lia|apply takes_plit]
  | |- takes _ (alt _ _) => apply takes_alt
  | |- takes 0 (popt _) => apply (takes_popt 0)
  | |- takes 0 (pstar _) => apply (takes_pstar 0)
  | |- takes 0 (plist _) => apply (takes_plist 0)
  | |- takes 1 (pbind _ _) => apply (takes_bind 1 0); [|intro]
  | |- takes 0 (pbind _ _) => apply (takes_bind 0 0); [|intro]
  | H : takes _ ?p |- takes _ ?p => refine (takes_le _ _ _ _ H); lia
  end.
Ltac en :=
  match goal with
  | |- ends _ (pret _) => apply ends_pret
  | |- ends _ (ptok _) => apply ends_ptok
  | |- ends _ (plit _) => apply ends_plit
  | |- ends _ (alt _ _) => apply ends_alt
  | |- ends _ (popt _) => apply ends_popt
  | |- ends _ (pstar _) => apply ends_pstar
  | |- ends _ (plist _) => apply ends_plist
  | |- ends _ (pbind (ptok _) _) => apply (ends_bind 1); [| |intro]
  | |- ends _ (pbind (plit _) _) => apply (ends_bind 1); [| |intro]
  | |- ends _ (pbind _ _) => apply (ends_bind 0); [| |intro]
  | |- takes _ _ => tk
  | H : ends _ ?p |- ends _ ?p => refine (ends_le _ _ _ _ H); lia
  end.

Section Expressions.
  Variable pv : parser gvalue.
  Variable k : nat.
  Hypothesis TV : takes 1 pv.
  Hypothesis EV : ends k pv.

  Lemma takes_member : takes 1 (pmember pv).
  Proof. unfold pmember, pmterm. repeat tk. Qed.
  Lemma ends_mterm : ends k (pmterm pv).
  Proof. unfold pmterm. repeat en. Qed.
  Lemma takes_mterm : takes 1 (pmterm pv).
  Proof. unfold pmterm. repeat tk. Qed.
  Lemma ends_member : ends k (pmember pv).
  Proof. pose proof ends_mterm. pose proof takes_mterm. unfold pmember. repeat en. Qed.
  Lemma takes_mul : takes 1 (pmul pv).
  Proof. pose proof takes_member. unfold pmul. repeat tk. Qed.
  Lemma ends_mul : ends k (pmul pv).
  Proof. pose proof takes_member. pose proof ends_member. unfold pmul. repeat en. Qed.
  Lemma takes_add : takes 1 (padd pv).
  Proof. pose proof takes_mul. unfold padd. repeat tk. Qed.
  Lemma ends_add : ends k (padd pv).
  Proof. pose proof takes_mul. pose proof ends_mul. unfold padd. repeat en. Qed.

  Lemma takes_plits l : takes 1 (plits l).
  Proof.
    induction l as [|o l IH]; [intros ts a r; discriminate|]. destruct l; [apply takes_plit|].
    apply takes_alt; [apply takes_plit|exact IH].
  Qed.
  Lemma ends_plits j l : ends j (plits l).
  Proof.
    induction l as [|o l IH]; [intros ts _; discriminate|]. destruct l; [apply ends_plit|].
    apply ends_alt; [apply ends_plit|exact IH].
  Qed.
  Lemma takes_cmpop : takes 1 pcmpop.
  Proof. unfold pcmpop. apply takes_alt; [apply takes_plits|]. repeat tk. Qed.
  Lemma ends_cmpop j : ends j pcmpop.
  Proof. unfold pcmpop. apply ends_alt; [apply ends_plits|]. repeat en. Qed.

  Lemma takes_cond n : takes 1 (pcond pv n).
  Proof.
    pose proof takes_add as TA. pose proof takes_cmpop as TC.
    induction n as [|n IH]; cbn [pcond]; [intros ts a r; discriminate|].
    apply (takes_bind 1 0); [repeat tk|]. intro x. repeat tk.
  Qed.
  Lemma ends_cond n : forall j, j <= k -> j <= n -> ends j (pcond pv n).
  Proof.
    pose proof takes_add as TA. pose proof ends_add as EA. pose proof takes_cmpop as TC.
    induction n as [|n IH]; intros j Jk Jn; [replace j with 0 by lia; apply ends_zero|]. cbn [pcond].
    pose proof (takes_cond n) as TN.
    pose proof (ends_cmpop j) as EC.
    apply (ends_bind 0).
    - apply ends_alt.
      + apply (ends_bind 1); [apply ends_ptok|apply takes_ptok|]. intros _.
        pose proof (IH (j - 1) ltac:(lia) ltac:(lia)) as EN. repeat en.
      + repeat en.
    - repeat tk.
    - intro x. repeat en.
  Qed.
  Lemma takes_or n : takes 1 (por pv n).
  Proof. pose proof (takes_cond n). unfold por. repeat tk. Qed.
  Lemma ends_or n : k <= n -> ends k (por pv n).
  Proof. intro L. pose proof (takes_cond n). pose proof (ends_cond n k (le_n _) L). unfold por. repeat en. Qed.
  Lemma takes_and n : takes 1 (pand pv n).
  Proof. pose proof (takes_or n). unfold pand. repeat tk. Qed.
  Lemma ends_and n : k <= n -> ends k (pand pv n).
  Proof. intro L. pose proof (takes_or n). pose proof (ends_or n L). unfold pand. repeat en. Qed.
  Lemma takes_comma n : takes 1 (pcomma pv n).
  Proof. pose proof (takes_and n). unfold pcomma. repeat tk. Qed.
  Lemma ends_comma n : k <= n -> ends k (pcomma pv n).
  Proof. intro L. pose proof (takes_and n). pose proof (ends_and n L). unfold pcomma. repeat en. Qed.
End Expressions.

Section Knot.
  Variable n k : nat.
  Variable pv : parser gvalue.
  Variable ps : parser gselect.
  Hypothesis KN : k <= n.
  Hypothesis TV : takes 1 pv.
  Hypothesis EV : ends k pv.
  Hypothesis TS : takes 1 ps.
  Hypothesis ES : ends k ps.

  Lemma takes_arg : takes 1 (parg n pv ps).
  Proof.
    pose proof (takes_and pv TV n). pose proof (takes_comma pv TV n). unfold parg. repeat tk.
  Qed.
  Lemma ends_arg : ends (S k) (parg n pv ps).
  Proof.
    pose proof (takes_and pv TV n). pose proof (takes_comma pv TV n).
    pose proof (ends_and pv k TV EV n KN). pose proof (ends_comma pv k TV EV n KN). unfold parg. repeat en.
  Qed.
  Lemma takes_path first : takes 1 first -> takes 1 (ppath first).
  Proof. intro. unfold ppath. repeat tk. Qed.
  Lemma ends_path j first : takes 1 first -> ends j first -> ends j (ppath first).
  Proof. intros. unfold ppath. repeat en. Qed.

  Lemma takes_value_step : takes 1 (pvalue_step n pv ps).
  Proof.
    pose proof (takes_path (alt (ptok T_SymbolIdent) (ptok T_Ident)) ltac:(repeat tk)).
    pose proof takes_arg. pose proof (takes_comma pv TV n).
    unfold pvalue_step, psymref. repeat tk.
  Qed.
  Lemma ends_value_step : ends (S k) (pvalue_step n pv ps).
  Proof.
    pose proof (takes_path (alt (ptok T_SymbolIdent) (ptok T_Ident)) ltac:(repeat tk)).
    pose proof (ends_path (S k) (alt (ptok T_SymbolIdent) (ptok T_Ident)) ltac:(repeat tk) ltac:(repeat en)).
    pose proof takes_arg. pose proof ends_arg. pose proof (takes_comma pv TV n). pose proof (ends_comma pv k TV EV n KN).
    unfold pvalue_step, psymref. repeat en.
  Qed.

  Lemma takes_alias : takes 0 palias.
  Proof. unfold palias. repeat tk. Qed.
  Lemma ends_alias j : ends j palias.
  Proof. unfold palias. repeat en. Qed.
  Lemma takes_col : takes 1 (pcol n pv ps).
  Proof. pose proof takes_alias. pose proof (takes_and pv TV n). unfold pcol. repeat tk. Qed.
  Lemma ends_col : ends k (pcol n pv ps).
  Proof.
    pose proof takes_alias. pose proof (ends_alias k). pose proof (takes_and pv TV n).
    pose proof (ends_and pv k TV EV n KN). unfold pcol. repeat en.
  Qed.
  Lemma takes_plugin : takes 1 (pplugin n pv ps).
  Proof.
    pose proof (takes_path (ptok T_Ident) (takes_ptok _)). pose proof takes_arg. unfold pplugin. repeat tk.
  Qed.
  Lemma ends_plugin : ends (S k) (pplugin n pv ps).
  Proof.
    pose proof (takes_path (ptok T_Ident) (takes_ptok _)). pose proof takes_arg.
    pose proof (ends_path (S k) (ptok T_Ident) (takes_ptok _) (ends_ptok _ _)). pose proof ends_arg.
    unfold pplugin. repeat en.
  Qed.
  Lemma takes_limit : takes 1 plimit.
  Proof.
    intros ts z r. unfold plimit. assert (T : takes 1 (ptok T_LIMIT ~>> ptok T_Number)) by repeat tk.
    destruct ((ptok T_LIMIT ~>> ptok T_Number) ts) as [s q|q|] eqn:E; try discriminate.
    destruct (parse_int s); [|discriminate]. intros [= _ <-]. exact (T ts s q E).
  Qed.
  Lemma ends_limit j : ends j plimit.
  Proof.
    intros ts L. unfold plimit. assert (T : ends j (ptok T_LIMIT ~>> ptok T_Number)) by repeat en.
    specialize (T ts L). destruct ((ptok T_LIMIT ~>> ptok T_Number) ts) as [s q|q|]; [|discriminate|contradiction].
    destruct (parse_int s); discriminate.
  Qed.
  Lemma takes_select_step : takes 1 (pselect_step n pv ps).
  Proof.
    unfold pselect_step. apply (takes_bind 0 1); [repeat tk|]. intro x.
    pose proof takes_col. pose proof takes_plugin. pose proof (takes_comma pv TV n). pose proof takes_limit.
    repeat tk.
  Qed.
  Lemma ends_select_step : ends (S k) (pselect_step n pv ps).
  Proof.
    pose proof takes_col. pose proof ends_col. pose proof takes_plugin. pose proof ends_plugin.
    pose proof (takes_comma pv TV n). pose proof (ends_comma pv k TV EV n KN).
    pose proof takes_limit. pose proof (ends_limit (S k)).
    unfold pselect_step. repeat en.
  Qed.
  Lemma takes_param : takes 1 (pparam n pv ps).
  Proof. pose proof takes_arg. unfold pparam. repeat tk. Qed.
  Lemma ends_param : ends (S k) (pparam n pv ps).
  Proof. pose proof takes_arg. pose proof ends_arg. unfold pparam. repeat en. Qed.
  Lemma takes_vql_step : takes 1 (pvql_step n pv ps).
  Proof. pose proof takes_param. pose proof (takes_and pv TV n). unfold pvql_step. repeat tk. Qed.
  Lemma ends_vql_step : ends k (pvql_step n pv ps).
  Proof.
    pose proof takes_param. pose proof ends_param. pose proof (takes_and pv TV n).
    pose proof (ends_and pv k TV EV n KN). unfold pvql_step. repeat en.
  Qed.
End Knot.

Lemma knot_total n : takes 1 (pvalue n) /\ takes 1 (pselect n) /\ ends n (pvalue n) /\ ends n (pselect n).
Proof.
  induction n as [|n (TV & TS & EV & ES)].
  - repeat split; try (intros ts a r; discriminate); apply ends_zero.
  - unfold pvalue, pselect in *. cbn [pknot]. destruct (pknot n) as (pv, ps). cbn [fst snd] in *. repeat split.
    + apply (takes_value_step _ n); auto; lia.
    + apply (takes_select_step _ n); auto; lia.
    + apply ends_value_step; auto; lia.
    + apply ends_select_step; auto; lia.
Qed.
Lemma vql_total n : takes 1 (pvql n) /\ ends n (pvql n).
Proof.
  destruct (knot_total n) as (TV & TS & EV & ES). split.
  - unfold pvql. apply (takes_vql_step n n); auto.
  - unfold pvql. apply ends_vql_step; auto.
Qed.
(** Parse always decides. *)
Theorem parse_decides ts : pvql (fuel_for ts) ts <> PFuel.
Proof. apply (proj2 (vql_total (fuel_for ts))). unfold fuel_for. lia. Qed.

Lemma multi_total k n : takes 1 (pmulti k n) /\ forall j, j <= k -> j <= n -> ends j (pmulti k n).
Proof.
  destruct (vql_total n) as (TV & EV).
  induction k as [|k (TM & EM)]; cbn [pmulti]; split; try (intros ts a r; discriminate).
  - intros j J _. replace j with 0 by lia. apply ends_zero.
  - repeat tk.
  - intros j J1 J2. apply (ends_bind 1); [exact (ends_le _ _ _ J2 EV)|exact TV|]. intro v.
    pose proof (EM (j - 1) ltac:(lia) ltac:(lia)). repeat en.
Qed.
(** MultiParse always decides. *)
Theorem multi_parse_decides ts : pmulti (fuel_for ts) (fuel_for ts) ts <> PFuel.
Proof. apply (proj2 (multi_total _ _) (fuel_for ts)); unfold fuel_for; lia. Qed.

(** ** The fuel makes no difference

    [more p q]: q answers as p does wherever p has fuel enough. *)
Definition more {A} (p q : parser A) : Prop := forall ts, p ts <> PFuel -> q ts = p ts.

Lemma more_refl {A} (p : parser A) : more p p.
Proof. intros ts _. reflexivity. Qed.
Lemma more_bind {A B} (p p' : parser A) (f f' : A -> parser B) :
  more p p' -> (forall a, more (f a) (f' a)) -> more (pbind p f) (pbind p' f').
Proof.
  intros P F ts. unfold pbind. specialize (P ts). destruct (p ts) as [a q|q|]; intro N.
  - rewrite P by discriminate. now apply F.
  - now rewrite P by discriminate.
  - contradiction.
Qed.
Lemma more_alt {A} (p p' q q' : parser A) : more p p' -> more q q' -> more (alt p q) (alt p' q').
Proof.
  intros P Q ts. unfold alt. specialize (P ts). specialize (Q ts). destruct (p ts) as [a x|x|]; intro N.
  - now rewrite P by discriminate.
  - rewrite P by discriminate. destruct (stop ts x); [reflexivity|].
    destruct (q ts) as [b y|y|]; [now rewrite Q by discriminate..|contradiction].
  - contradiction.
Qed.
Lemma more_popt {A} (p p' : parser A) : more p p' -> more (popt p) (popt p').
Proof.
  intros P ts. unfold popt. specialize (P ts). destruct (p ts) as [a x|x|]; intro N; [now rewrite P by discriminate..|contradiction].
Qed.
Lemma more_pstar {A} (p p' : parser A) : more p p' -> more (pstar p) (pstar p').
Proof.
  intros P ts. unfold pstar. generalize (S (List.length ts)) as n. intro n. revert ts.
  induction n as [|n IH]; intros ts; cbn [pstar_n]; [reflexivity|]. specialize (P ts).
  destruct (p ts) as [a x|x|]; intro N; [|now rewrite P by discriminate|contradiction].
  rewrite P by discriminate. specialize (IH x). destruct (pstar_n n p x) as [l y|y|]; [now rewrite IH by discriminate..|contradiction].
Qed.
Lemma more_plist {A} (p p' : parser A) : more p p' -> more (plist p) (plist p').
Proof.
  intro P. apply more_bind; [|intro; apply more_refl]. apply more_popt. apply more_bind; [exact P|]. intro a.
  apply more_bind; [|intro; apply more_refl]. apply more_pstar. apply more_bind; [apply more_refl|]. now intros.
Qed.

Ltac mo :=
  match goal with
  | |- more ?p ?p => apply more_refl
  | H : more ?p ?q |- more ?p ?q => exact H
  | |- more (pbind _ _) (pbind _ _) => apply more_bind; [|intro]
  | |- more (alt _ _) (alt _ _) => apply more_alt
  | |- more (popt _) (popt _) => apply more_popt
  | |- more (pstar _) (pstar _) => apply more_pstar
  | |- more (plist _) (plist _) => apply more_plist
  end.

Section More.
  Variable pv pv' : parser gvalue.
  Variable ps ps' : parser gselect.
  Hypothesis MV : more pv pv'.
  Hypothesis MS : more ps ps'.

  Lemma more_member : more (pmember pv) (pmember pv').
  Proof. unfold pmember, pmterm. repeat mo. Qed.
  Lemma more_mul : more (pmul pv) (pmul pv').
  Proof. pose proof more_member. unfold pmul. repeat mo. Qed.
  Lemma more_add : more (padd pv) (padd pv').
  Proof. pose proof more_mul. unfold padd. repeat mo. Qed.
  Lemma more_cond n n' : n <= n' -> more (pcond pv n) (pcond pv' n').
  Proof.
    pose proof more_add. revert n'. induction n as [|n IH]; intros n' L.
    - intros ts N. now contradiction N.
    - destruct n' as [|n']; [lia|]. pose proof (IH n' ltac:(lia)). cbn [pcond]. repeat mo.
  Qed.
  Variable n n' : nat.
  Hypothesis NN : n <= n'.
  Lemma more_and : more (pand pv n) (pand pv' n').
  Proof. pose proof (more_cond n n' NN). unfold pand, por. repeat mo. Qed.
  Lemma more_comma : more (pcomma pv n) (pcomma pv' n').
  Proof. pose proof more_and. unfold pcomma. repeat mo. Qed.
  Lemma more_arg : more (parg n pv ps) (parg n' pv' ps').
  Proof. pose proof more_and. pose proof more_comma. unfold parg. repeat mo. Qed.
  Lemma more_value_step : more (pvalue_step n pv ps) (pvalue_step n' pv' ps').
  Proof. pose proof more_arg. pose proof more_comma. unfold pvalue_step, psymref. repeat mo. Qed.
  Lemma more_select_step : more (pselect_step n pv ps) (pselect_step n' pv' ps').
  Proof.
    pose proof more_arg. pose proof more_comma. pose proof more_and.
    unfold pselect_step, pcol, pplugin. repeat mo.
  Qed.
  Lemma more_vql_step : more (pvql_step n pv ps) (pvql_step n' pv' ps').
  Proof. pose proof more_arg. pose proof more_and. unfold pvql_step, pparam. repeat mo. Qed.
End More.

Lemma more_knot n : forall n', n <= n' -> more (pvalue n) (pvalue n') /\ more (pselect n) (pselect n').
Proof.
  induction n as [|n IH]; intros n' L.
  - split; intros ts N; now contradiction N.
  - destruct n' as [|n']; [lia|]. specialize (IH n' ltac:(lia)). unfold pvalue, pselect in *. cbn [pknot].
    destruct (pknot n) as (pv, ps), (pknot n') as (pv', ps'). cbn [fst snd] in *. destruct IH.
    split; [apply more_value_step|apply more_select_step]; auto; lia.
Qed.
Lemma more_vql n n' : n <= n' -> more (pvql n) (pvql n').
Proof. intro L. destruct (more_knot n n' L). unfold pvql. apply more_vql_step; auto. Qed.
Lemma more_multi k n : forall k' n', k <= k' -> n <= n' -> more (pmulti k n) (pmulti k' n').
Proof.
  induction k as [|k IH]; intros k' n' LK LN.
  - intros ts N. now contradiction N.
  - destruct k' as [|k']; [lia|]. pose proof (IH k' n' ltac:(lia) LN). pose proof (more_vql n n' LN).
    cbn [pmulti]. repeat mo.
Qed.

(** ** Parse and MultiParse answer for every text

    The bound on the nesting is never what rejects a text: with any larger
    bound the answer is the same. *)
Theorem C59_parse_any_bound text n :
  parse_vql text =
  match tokens text with
  | Some ts => whole (pvql (n + fuel_for ts) ts)
  | None => None
  end.
Proof.
  unfold parse_vql. destruct (tokens text) as [ts|]; [|reflexivity].
  rewrite (more_vql (fuel_for ts) (n + fuel_for ts)); [reflexivity|lia|apply parse_decides].
Qed.
Theorem C59_multi_parse_any_bound text n :
  parse_multi text =
  match tokens text with
  | Some ts => whole (pmulti (n + fuel_for ts) (n + fuel_for ts) ts)
  | None => None
  end.
Proof.
  unfold parse_multi. destruct (tokens text) as [ts|]; [|reflexivity].
  rewrite (more_multi (fuel_for ts) (fuel_for ts) (n + fuel_for ts) (n + fuel_for ts));
    [reflexivity|lia|lia|apply multi_parse_decides].
Qed.
(** A rejected text has a place where no token starts, or tokens the grammar
    refuses or does not use up. *)
Theorem C59_parse_rejects_for_a_reason text :
  parse_vql text = None ->
  stuck text \/
  exists ts, tokens text = Some ts /\ forall n,
    (exists r, pvql (n + fuel_for ts) ts = PFail r) \/
    (exists x t r, pvql (n + fuel_for ts) ts = POk x (t :: r)).
Proof.
  unfold parse_vql, tokens. destruct (lex text) as [l|] eqn:L; [|intros _; left; now apply C44_scanner_rejects].
  intro W. right. eexists. split; [reflexivity|]. intro n.
  set (ts := map _ _) in *. pose proof (parse_decides ts) as D.
  rewrite (more_vql (fuel_for ts) (n + fuel_for ts)); [|lia|exact D].
  destruct (pvql (fuel_for ts) ts) as [x [|t r]|r|]; [discriminate|eauto|eauto|contradiction].
Qed.

Example deep_nesting_parses :
  parse_vql "LET X = ((((((((((1))))))))))" <> None /\ parse_vql "LET X = ((1)" = None.
Proof. split; [vm_compute; discriminate|vm_compute; reflexivity]. Qed.

Print Assumptions C59_parse_any_bound.
Print Assumptions C59_multi_parse_any_bound.
Print Assumptions C59_parse_rejects_for_a_reason.
