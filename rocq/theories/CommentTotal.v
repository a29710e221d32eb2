(** The parser that keeps comments always decides: the fuel never runs out.
    ParserTotal.v for the parsers of Comments.v. *)

From Coq Require Import ZArith List String Ascii Bool Lia.
From Verif Require Import Base F64 Text Lexer Numeral Grammar Parser LexProofs LexCover ParserTotal Comments.
Import ListNotations.
Open Scope nat_scope.
Open Scope string_scope.
Open Scope list_scope.

Lemma takes_comment : takes 1 pcomment.
Proof. unfold pcomment. repeat tk. Qed.
Lemma ends_comment j : ends j pcomment.
Proof. unfold pcomment. repeat en. Qed.
Lemma takes_com1 : takes 0 pcom1.
Proof. pose proof takes_comment. unfold pcom1. repeat tk. Qed.
Lemma ends_com1 j : ends j pcom1.
Proof. pose proof takes_comment. pose proof (ends_comment j). unfold pcom1. repeat en. Qed.
Lemma takes_coms : takes 0 pcoms.
Proof. pose proof takes_comment. unfold pcoms. repeat tk. Qed.
Lemma ends_coms j : ends j pcoms.
Proof. pose proof takes_comment. pose proof (ends_comment j). unfold pcoms. repeat en. Qed.

Ltac tk0 :=
  match goal with
  | |- takes ?d (pbind pcom1 _) => apply (takes_bind 0 d); [exact takes_com1|intro]
  | |- takes ?d (pbind pcoms _) => apply (takes_bind 0 d); [exact takes_coms|intro]
  | _ => tk
  end.
Ltac en0 :=
  match goal with
  | |- ends _ (pbind pcom1 _) => apply (ends_bind 0); [apply ends_com1|exact takes_com1|intro]
  | |- ends _ (pbind pcoms _) => apply (ends_bind 0); [apply ends_coms|exact takes_coms|intro]
  | |- takes _ _ => tk0
  | _ => en
  end.

Section Expressions.
  Variable pv : parser kvalue.
  Variable k : nat.
  Hypothesis TV : takes 1 pv.
  Hypothesis EV : ends k pv.

  Lemma takes_kmterm : takes 1 (pkmterm pv).
  Proof. unfold pkmterm. repeat tk0. Qed.
  Lemma ends_kmterm : ends k (pkmterm pv).
  Proof. unfold pkmterm. repeat en0. Qed.
  Lemma takes_kmember : takes 1 (pkmember pv).
  Proof. pose proof takes_kmterm. unfold pkmember. repeat tk0. Qed.
  Lemma ends_kmember : ends k (pkmember pv).
  Proof. pose proof ends_kmterm. pose proof takes_kmterm. unfold pkmember. repeat en0. Qed.
  Lemma takes_kmul : takes 1 (pkmul pv).
  Proof. pose proof takes_kmember. unfold pkmul. repeat tk0. Qed.
  Lemma ends_kmul : ends k (pkmul pv).
  Proof. pose proof takes_kmember. pose proof ends_kmember. unfold pkmul. repeat en0. Qed.
  Lemma takes_kadd : takes 1 (pkadd pv).
  Proof. pose proof takes_kmul. unfold pkadd. repeat tk0. Qed.
  Lemma ends_kadd : ends k (pkadd pv).
  Proof. pose proof takes_kmul. pose proof ends_kmul. unfold pkadd. repeat en0. Qed.
  Lemma takes_kcond n : takes 1 (pkcond pv n).
  Proof.
    pose proof takes_kadd as TA. pose proof takes_cmpop as TC.
    induction n as [|n IH]; cbn [pkcond]; [intros ts a r; discriminate|]. repeat tk0.
  Qed.
  Lemma ends_kcond n : forall j, j <= k -> j <= n -> ends j (pkcond pv n).
  Proof.
    pose proof takes_kadd as TA. pose proof ends_kadd as EA. pose proof takes_cmpop as TC.
    induction n as [|n IH]; intros j Jk Jn; [replace j with 0 by lia; apply ends_zero|]. cbn [pkcond].
    pose proof (takes_kcond n) as TN. pose proof (ends_cmpop j) as EC. en0.
    apply (ends_bind 0).
    - apply ends_alt.
      + apply (ends_bind 1); [apply ends_ptok|apply takes_ptok|]. intros _.
        pose proof (IH (j - 1) ltac:(lia) ltac:(lia)) as EN. repeat en0.
      + repeat en0.
    - repeat tk0.
    - intro x. repeat en0.
  Qed.
  Lemma takes_kor n : takes 1 (pkor pv n).
  Proof. pose proof (takes_kcond n). unfold pkor. repeat tk0. Qed.
  Lemma ends_kor n : k <= n -> ends k (pkor pv n).
  Proof. intro L. pose proof (takes_kcond n). pose proof (ends_kcond n k (le_n _) L). unfold pkor. repeat en0. Qed.
  Lemma takes_kand n : takes 1 (pkand pv n).
  Proof. pose proof (takes_kor n). unfold pkand. repeat tk0. Qed.
  Lemma ends_kand n : k <= n -> ends k (pkand pv n).
  Proof. intro L. pose proof (takes_kor n). pose proof (ends_kor n L). unfold pkand. repeat en0. Qed.
  Lemma takes_kterm n : takes 1 (pkterm pv n).
  Proof. pose proof (takes_kand n). unfold pkterm. repeat tk0. Qed.
  Lemma ends_kterm n : k <= n -> ends k (pkterm pv n).
  Proof. intro L. pose proof (takes_kand n). pose proof (ends_kand n L). unfold pkterm. repeat en0. Qed.
  Lemma takes_kcomma n : takes 1 (pkcomma pv n).
  Proof. pose proof (takes_kand n). pose proof (takes_kterm n). unfold pkcomma. repeat tk0. Qed.
  Lemma ends_kcomma n : k <= n -> ends k (pkcomma pv n).
  Proof.
    intro L. pose proof (takes_kand n). pose proof (ends_kand n L). pose proof (takes_kterm n).
    pose proof (ends_kterm n L). unfold pkcomma. repeat en0.
  Qed.
End Expressions.

Section Knot.
  Variable n k : nat.
  Variable pv : parser kvalue.
  Variable ps : parser kselect.
  Hypothesis KN : k <= n.
  Hypothesis TV : takes 1 pv.
  Hypothesis EV : ends k pv.
  Hypothesis TS : takes 1 ps.
  Hypothesis ES : ends k ps.

  Lemma takes_karg : takes 1 (pkarg n pv ps).
  Proof. pose proof (takes_kand pv TV n). pose proof (takes_kcomma pv TV n). unfold pkarg. repeat tk0. Qed.
  Lemma ends_karg : ends (S k) (pkarg n pv ps).
  Proof.
    pose proof (takes_kand pv TV n). pose proof (takes_kcomma pv TV n).
    pose proof (ends_kand pv k TV EV n KN). pose proof (ends_kcomma pv k TV EV n KN). unfold pkarg. repeat en0.
  Qed.
  Lemma takes_kvalue_step : takes 1 (pkvalue_step n pv ps).
  Proof.
    pose proof (takes_path n k KN (alt (ptok T_SymbolIdent) (ptok T_Ident)) ltac:(repeat tk)).
    pose proof takes_karg. pose proof (takes_kcomma pv TV n).
    unfold pkvalue_step, pksymref. repeat tk0.
  Qed.
  Lemma ends_kvalue_step : ends (S k) (pkvalue_step n pv ps).
  Proof.
    pose proof (takes_path n k KN (alt (ptok T_SymbolIdent) (ptok T_Ident)) ltac:(repeat tk)).
    pose proof (ends_path n k KN (S k) (alt (ptok T_SymbolIdent) (ptok T_Ident)) ltac:(repeat tk) ltac:(repeat en)).
    pose proof takes_karg. pose proof ends_karg. pose proof (takes_kcomma pv TV n).
    pose proof (ends_kcomma pv k TV EV n KN).
    unfold pkvalue_step, pksymref. repeat en0.
  Qed.
  Lemma takes_kcol : takes 1 (pkcol n pv ps).
  Proof. pose proof (takes_alias n k KN). pose proof (takes_kand pv TV n). unfold pkcol. repeat tk0. Qed.
  Lemma ends_kcol : ends k (pkcol n pv ps).
  Proof.
    pose proof (takes_alias n k KN). pose proof (ends_alias n k KN k). pose proof (takes_kand pv TV n).
    pose proof (ends_kand pv k TV EV n KN). unfold pkcol. repeat en0.
  Qed.
  Lemma takes_kplugin : takes 1 (pkplugin n pv ps).
  Proof.
    pose proof (takes_path n k KN (ptok T_Ident) (takes_ptok _)). pose proof takes_karg. unfold pkplugin. repeat tk0.
  Qed.
  Lemma ends_kplugin : ends (S k) (pkplugin n pv ps).
  Proof.
    pose proof (takes_path n k KN (ptok T_Ident) (takes_ptok _)). pose proof takes_karg.
    pose proof (ends_path n k KN (S k) (ptok T_Ident) (takes_ptok _) (ends_ptok _ _)). pose proof ends_karg.
    unfold pkplugin. repeat en0.
  Qed.
  Lemma takes_kselect_step : takes 1 (pkselect_step n pv ps).
  Proof.
    unfold pkselect_step. tk0. apply (takes_bind 0 1); [repeat tk0|]. intro x.
    pose proof takes_kcol. pose proof takes_kplugin. pose proof (takes_kcomma pv TV n). pose proof (takes_limit n k KN).
    repeat tk0.
  Qed.
  Lemma ends_kselect_step : ends (S k) (pkselect_step n pv ps).
  Proof.
    pose proof takes_kcol. pose proof ends_kcol. pose proof takes_kplugin. pose proof ends_kplugin.
    pose proof (takes_kcomma pv TV n). pose proof (ends_kcomma pv k TV EV n KN).
    pose proof (takes_limit n k KN). pose proof (ends_limit n k KN (S k)).
    unfold pkselect_step. repeat en0.
  Qed.
  Lemma takes_kparam : takes 1 (pkparam n pv ps).
  Proof. pose proof takes_karg. unfold pkparam. repeat tk0. Qed.
  Lemma ends_kparam : ends (S k) (pkparam n pv ps).
  Proof. pose proof takes_karg. pose proof ends_karg. unfold pkparam. repeat en0. Qed.
  Lemma takes_kvql_step : takes 1 (pkvql_step n pv ps).
  Proof. pose proof takes_kparam. pose proof (takes_kand pv TV n). unfold pkvql_step. repeat tk0. Qed.
  Lemma ends_kvql_step : ends k (pkvql_step n pv ps).
  Proof.
    pose proof takes_kparam. pose proof ends_kparam. pose proof (takes_kand pv TV n).
    pose proof (ends_kand pv k TV EV n KN). unfold pkvql_step. repeat en0.
  Qed.
End Knot.

Lemma kknot_total n : takes 1 (pkvalue n) /\ takes 1 (pkselect n) /\ ends n (pkvalue n) /\ ends n (pkselect n).
Proof.
  induction n as [|n (TV & TS & EV & ES)].
  - repeat split; try (intros ts a r; discriminate); apply ends_zero.
  - unfold pkvalue, pkselect in *. cbn [pkknot]. destruct (pkknot n) as (pv, ps). cbn [fst snd] in *. repeat split.
    + apply (takes_kvalue_step _ n); auto; lia.
    + apply (takes_kselect_step _ n); auto; lia.
    + apply ends_kvalue_step; auto; lia.
    + apply ends_kselect_step; auto; lia.
Qed.
Lemma kvql_total n : takes 1 (pkvql n) /\ ends n (pkvql n).
Proof.
  destruct (kknot_total n) as (TV & TS & EV & ES). split.
  - unfold pkvql. apply (takes_kvql_step n n); auto.
  - unfold pkvql. apply ends_kvql_step; auto.
Qed.
Lemma kmulti_total k n : takes 1 (pkmulti k n) /\ forall j, j <= k -> j <= n -> ends j (pkmulti k n).
Proof.
  destruct (kvql_total n) as (TV & EV).
  induction k as [|k (TM & EM)]; cbn [pkmulti]; split; try (intros ts a r; discriminate).
  - intros j J _. replace j with 0 by lia. apply ends_zero.
  - repeat tk0.
  - intros j J1 J2. en0. apply (ends_bind 1); [refine (ends_le n _ _ _ EV); lia|exact TV|]. intro v. en0.
    pose proof (EM (j - 1) ltac:(lia) ltac:(lia)). repeat en0.
Qed.
(** MultiParseWithComments always decides. *)
Theorem comments_parse_decides ts : pkmulti (fuel_for ts) (fuel_for ts) ts <> PFuel.
Proof. apply (proj2 (kmulti_total _ _) (fuel_for ts)); unfold fuel_for; lia. Qed.
