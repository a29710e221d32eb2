(** Every tree the parser makes is [ok]. *)

From Coq Require Import ZArith List String Ascii Bool Lia.
From Verif Require Import Base F64 Text Lexer Numeral Grammar Parser Format Spelling.
From Verif Require Import LexProofs NumeralProofs FloatText ParseProofs FormatProofs.
Import ListNotations.
Open Scope nat_scope.
Open Scope string_scope.
Open Scope list_scope.

(** ** Tokens as the parser sees them *)

Definition good (t : token) : Prop :=
  match tt t with
  | T_IN => tv t = "IN"
  | T_DESC => True
  | _ => lexeme t
  end.
Definition goods : list token -> Prop := Forall good.

Lemma keyword_in w : keyword_of w = Some T_IN -> upper w = "IN".
Proof.
  unfold keyword_of. destruct (find _ keywords) as [k|] eqn:F; [|discriminate]. intros [= E].
  apply find_some in F as (I & Q). apply String.eqb_eq in Q. rewrite <- Q.
  cbn in I. repeat (destruct I as [<-|I]; [first [reflexivity|discriminate E]|]). contradiction.
Qed.
Lemma upper_good t : lexeme t -> good (upper_token t).
Proof.
  intro L. unfold good, upper_token. destruct t as [ty v]. cbn [tt tv].
  destruct ty; cbn [tt tv]; try exact L; try exact I.
  apply keyword_in. exact (proj2 L).
Qed.
Lemma lex_n_lexemes n : forall s ts, lex_n n s = Some ts -> Forall lexeme ts.
Proof.
  induction n as [|n IH]; [discriminate|]. intros s ts. cbn [lex_n]. destruct s as [|c s].
  - intros [= <-]. constructor.
  - destruct (lex1 (String c s)) as [(t, r)|] eqn:E; [|discriminate].
    destruct (lex_n n r) as [l|] eqn:R; [|discriminate]. intros [= <-]. apply IH in R.
    destruct t as [t|]; [|exact R]. constructor; [now apply lex1_lexeme in E|exact R].
Qed.
Lemma tokens_good s ts : tokens s = Some ts -> goods ts.
Proof.
  unfold tokens, lex. destruct (lex_n _ s) as [l|] eqn:E; [|discriminate]. intros [= <-].
  apply lex_n_lexemes in E. unfold goods. rewrite Forall_map. rewrite Forall_forall in *.
  intros t I. apply filter_In in I as (I & _). now apply upper_good, E.
Qed.

(** ** Parsers that give something *)

(** Whatever p accepts satisfies P with what is left. *)
Definition gives {A} (P : A -> list token -> Prop) (p : parser A) : Prop :=
  forall ts a r, goods ts -> p ts = POk a r -> P a r /\ goods r.
Definition always {A} (P : A -> Prop) : A -> list token -> Prop := fun a _ => P a.

Lemma gives_imp {A} (P Q : A -> list token -> Prop) p :
  (forall a r, P a r -> Q a r) -> gives P p -> gives Q p.
Proof. intros I G ts a r K E. destruct (G ts a r K E) as (H & R). split; [now apply I|exact R]. Qed.
Lemma gives_pret {A} (P : A -> Prop) a : P a -> gives (always P) (pret a).
Proof. intros H ts b r K [= <- <-]. now split. Qed.
Lemma gives_bind {A B} (P : A -> Prop) (Q : B -> list token -> Prop) (p : parser A) (f : A -> parser B) :
  gives (always P) p -> (forall a, P a -> gives Q (f a)) -> gives Q (pbind p f).
Proof.
  intros G F ts b r K. unfold pbind. destruct (p ts) as [a q| |] eqn:E; try discriminate. intro E2.
  destruct (G ts a q K E) as (H & KQ). exact (F a H q b r KQ E2).
Qed.
Lemma gives_alt {A} (P : A -> list token -> Prop) (p q : parser A) : gives P p -> gives P q -> gives P (alt p q).
Proof.
  intros G1 G2 ts a r K. unfold alt. destruct (p ts) as [b x|x|] eqn:E; [|destruct (stop ts x); [discriminate|]|discriminate].
  - intros [= <- <-]. now apply (G1 ts).
  - destruct (q ts) as [b y|y|] eqn:E2; [|destruct (stop ts y); discriminate|discriminate].
    intros [= <- <-]. now apply (G2 ts).
Qed.
Lemma gives_popt {A} (P : A -> Prop) (p : parser A) : gives (always P) p -> gives (always (oko P)) (popt p).
Proof.
  intros G ts a r K. unfold popt. destruct (p ts) as [b x|x|] eqn:E; [|destruct (stop ts x); [discriminate|]|discriminate].
  - intros [= <- <-]. now apply (G ts).
  - intros [= <- <-]. now split.
Qed.
Lemma gives_pstar_n {A} (P : A -> Prop) (p : parser A) : gives (always P) p ->
  forall n, gives (fun l r => all P l /\ exists x, p r = PFail x) (pstar_n n p).
Proof.
  intros G n. induction n as [|n IH]; intros ts l r K; cbn [pstar_n]; [discriminate|].
  destruct (p ts) as [b x|x|] eqn:E; [|destruct (stop ts x) eqn:S; [discriminate|]|discriminate].
  - destruct (pstar_n n p x) as [l' y|y|] eqn:E2; try discriminate. intros [= <- <-].
    destruct (G ts b x K E) as (H & KX). destruct (IH x l' y KX E2) as ((A1 & A2) & KY).
    split; [|exact KY]. split; [now split|exact A2].
  - intros [= <- <-]. split; [|exact K]. split; [exact I|]. now exists x.
Qed.
Lemma gives_pstar' {A} (P : A -> Prop) (p : parser A) : gives (always P) p ->
  gives (fun l r => all P l /\ exists x, p r = PFail x) (pstar p).
Proof. intros G ts. apply gives_pstar_n, G. Qed.
Lemma gives_pstar {A} (P : A -> Prop) (p : parser A) : gives (always P) p -> gives (always (all P)) (pstar p).
Proof. intro G. eapply gives_imp; [|apply gives_pstar', G]. intros a r H. apply H. Qed.
Lemma gives_ptok t : gives (always (fun s => good (Tok t s))) (ptok t).
Proof.
  intros [|x ts] a r K; cbn [ptok]; [discriminate|]. destruct (ttype_beq (tt x) t) eqn:E; [|discriminate].
  intros [= <- <-]. apply internal_ttype_dec_bl in E. inversion K as [|? ? Kx Kr]; subst. split; [|exact Kr].
  unfold always. now destruct x.
Qed.
Lemma gives_plit v : gives (always (fun s => s = v)) (plit v).
Proof.
  intros [|x ts] a r K; cbn [plit]; [discriminate|]. destruct (String.eqb (tv x) v); [|discriminate].
  intros [= <- <-]. inversion K; subst. now split.
Qed.
Lemma gives_plits l : gives (always (fun s => In s l)) (plits l).
Proof.
  induction l as [|o l IH]; [intros ts a r _; discriminate|]. destruct l as [|o' l].
  - eapply gives_imp; [|apply gives_plit]. intros a r ->. now left.
  - change (plits (o :: o' :: l)) with (alt (plit o) (plits (o' :: l))). apply gives_alt.
    + eapply gives_imp; [|apply gives_plit]. intros a r ->. now left.
    + eapply gives_imp; [|apply IH]. intros a r H. now right.
Qed.
Lemma gives_plist {A} (P : A -> Prop) (p : parser A) : gives (always P) p -> gives (always (all P)) (plist p).
Proof.
  intro G. unfold plist. eapply gives_bind with (P := oko (all P)).
  - apply gives_popt. eapply gives_bind; [exact G|]. intros a H.
    eapply gives_bind with (P := all P).
    + apply gives_pstar. eapply gives_bind; [apply gives_plit|]. intros _ _. exact G.
    + intros l HL. apply gives_pret. now split.
  - intros [l|] H; apply gives_pret; [exact H|exact I].
Qed.

Lemma all_last {A} (P : A -> Prop) l : all P l -> oko P (last_opt l).
Proof.
  intro H. unfold last_opt. destruct (rev l) as [|a r] eqn:E; [exact I|]. rewrite all_in in H. apply H.
  apply in_rev. rewrite E. now left.
Qed.
Lemma all_concat {A} (P : A -> Prop) (l : list (list A)) : all (all P) l -> all P (List.concat l).
Proof.
  intro H. rewrite all_in. intros a I. apply in_concat in I as (x & IX & IA).
  rewrite all_in in H. specialize (H x IX). rewrite all_in in H. now apply H.
Qed.

(** ** The text of a token *)

Lemma good_ident s : good (Tok T_Ident s) -> ok_ident s.
Proof. intro G. exact (proj1 G). Qed.
Lemma good_first s : good (Tok T_Ident s) \/ good (Tok T_SymbolIdent s) -> reads (tt (tfirst s)) s.
Proof.
  unfold tfirst. cbn [tt]. intros [(R & F)|(R & F)]; cbn [tt tv] in *; rewrite F; exact R.
Qed.
Lemma good_string s : good (Tok T_MultilineString s) \/ good (Tok T_String s) -> reads (tt (tstring s)) s.
Proof.
  unfold tstring. cbn [tt]. intros [(R & (x & F))|(R & F)]; cbn [tt tv] in *; rewrite F; exact R.
Qed.
Lemma good_or o : good (Tok T_OR o) \/ good (Tok T_AlternativeOR o) -> reads (tt (tor_op o)) o.
Proof.
  unfold tor_op. cbn [tt]. intros [(R & F)|(R & F)]; cbn [tt tv] in *.
  - destruct (keyword_alpha _ _ F) as (N & A & _). destruct o as [|c o]; [contradiction|].
    cbn [sall] in A. apply andb_true_iff in A as (A & _). cbn [first_char].
    assert (Ascii.eqb c "|" = false) as Z by char_dis A. rewrite Ascii.eqb_sym, Z. exact R.
  - rewrite F. exact R.
Qed.
Lemma good_and o : good (Tok T_AND o) \/ good (Tok T_AlternativeAND o) -> reads (tt (tand_op o)) o.
Proof.
  unfold tand_op. cbn [tt]. intros [(R & F)|(R & F)]; cbn [tt tv] in *.
  - destruct (String.eqb_spec o "&&") as [->|]; [discriminate F|exact R].
  - rewrite F. exact alt_and_reads.
Qed.

Ltac gbind X := apply (gives_bind X).
Ltac glit := first [apply gives_plit | apply gives_ptok].
Ltac gskip := eapply gives_bind; [glit|let x := fresh "tok" in intros x _; clear x].

(** ** Expressions *)

(** A name without call takes all the dots. *)
Definition no_dot (r : list token) : Prop :=
  forall x y q, r = x :: y :: q -> tv x = "." -> tt y <> T_Ident.
Definition val_post (v : gvalue) (r : list token) : Prop :=
  ok_value v /\ match v with GSym _ false _ => no_dot r | _ => True end.

Section Expressions.
  Variable pv : parser gvalue.
  Hypothesis value_sound : gives val_post pv.
  Lemma value_sound' : gives (always ok_value) pv.
  Proof. eapply gives_imp; [|exact value_sound]. intros a r H. apply H. Qed.

  Lemma mterm_sound : gives (always ok_mterm) (pmterm pv).
  Proof.
    apply gives_alt.
    - gskip. gbind (all ok_value); [apply gives_pstar, value_sound'|]. intros i Hi.
      gbind (fun _ : list string => True).
      { eapply gives_imp; [|apply gives_pstar, gives_plit]. intros; exact I. }
      intros c _. gbind (all ok_value); [apply gives_pstar, value_sound'|]. intros j Hj.
      gskip. apply gives_pret. unfold mterm_of.
      pose proof (all_last _ _ Hi) as Li. pose proof (all_last _ _ Hj) as Lj.
      destruct (nonempty c); [now split|]. destruct (last_opt i); [exact Li|exact I].
    - gskip. eapply gives_bind; [apply gives_ptok|]. intros s G. apply gives_pret. now apply good_ident.
  Qed.
  (** .name begins with a dot and an identifier *)
  Lemma mterm_dot ts s r : pmterm pv ts = POk (GTerm s) r ->
    exists x y q, ts = x :: y :: q /\ tv x = "." /\ tt y = T_Ident.
  Proof.
    unfold pmterm, alt. set (p1 := plit "[" ~>> _). destruct (p1 ts) as [a q|q|] eqn:E1; [| |discriminate].
    - intros [= -> ->]. exfalso. subst p1. revert E1. unfold pbind.
      repeat match goal with
             | |- match ?m with _ => _ end = _ -> _ => destruct m; try discriminate
             end.
      unfold pret. intros [= E _]. revert E. unfold mterm_of.
      destruct (nonempty _); [discriminate|]. destruct (last_opt _); discriminate.
    - destruct (stop ts q); [discriminate|]. unfold pbind.
      destruct ts as [|x ts]; cbn [plit].
      { destruct (stop [] []); discriminate. }
      destruct (String.eqb_spec (tv x) ".") as [Ex|].
      2:{ destruct (stop _ _); discriminate. }
      destruct ts as [|y ts]; cbn [ptok].
      { destruct (stop _ _); discriminate. }
      destruct (ttype_beq (tt y) T_Ident) eqn:Ey.
      2:{ destruct (stop _ _); discriminate. }
      intros _. exists x, y, ts. apply internal_ttype_dec_bl in Ey. auto.
  Qed.
  Lemma member_sound : gives (always ok_member) (pmember pv).
  Proof.
    intros ts m r K. unfold pmember, pbind. destruct (pv ts) as [v q|q|] eqn:E; try discriminate.
    destruct (value_sound ts v q K E) as ((V1 & V2) & KQ).
    destruct (pstar (pmterm pv) q) as [l y|y|] eqn:E2; try discriminate.
    destruct (gives_pstar ok_mterm (pmterm pv) mterm_sound q l y KQ E2) as (HL & KY).
    unfold pret. intros [= <- <-]. split; [|exact KY]. split; [exact V1|]. split; [exact HL|].
    destruct v as [s called ps| | | | |]; try exact I. destruct called; [exact I|].
    destruct l as [|t l]; [exact I|]. destruct t as [| | |s']; try exact I.
    unfold pstar in E2. cbn [pstar_n] in E2. destruct (pmterm pv q) as [t x|x|] eqn:E3.
    - destruct (pstar_n _ (pmterm pv) x); try discriminate. injection E2 as -> _ _.
      destruct (mterm_dot q s' x E3) as (a1 & b1 & c1 & -> & Da & Db). exact (V2 a1 b1 c1 eq_refl Da Db).
    - destruct (stop q x); discriminate.
    - discriminate.
  Qed.

  Lemma ops_sound {A} (P : A -> Prop) (Q : string -> Prop) (po : parser string) (p : parser A) :
    gives (always Q) po -> gives (always P) p ->
    gives (always (all (ok_op Q P))) (pstar (o <~ po ;; a <~ p ;; pret (o, a))).
  Proof.
    intros GO GP. apply gives_pstar. eapply gives_bind; [exact GO|]. intros o HO.
    eapply gives_bind; [exact GP|]. intros a HA. apply gives_pret. now split.
  Qed.
  Lemma two_lits a b : gives (always (fun o => In o [a; b])) (alt (plit a) (plit b)).
  Proof. exact (gives_plits [a; b]). Qed.

  Lemma mul_sound : gives (always ok_mul) (pmul pv).
  Proof.
    eapply gives_bind; [exact member_sound|]. intros m Hm.
    eapply gives_bind; [apply (ops_sound ok_value _ _ _ (two_lits "*" "/") value_sound')|].
    intros l Hl. apply gives_pret. now split.
  Qed.
  Lemma add_sound : gives (always ok_add) (padd pv).
  Proof.
    eapply gives_bind; [exact mul_sound|]. intros m Hm.
    eapply gives_bind; [apply (ops_sound ok_mul _ _ _ (two_lits "+" "-") mul_sound)|].
    intros l Hl. apply gives_pret. now split.
  Qed.
  Lemma cmpop_sound : gives (always (fun o => In o cmp_ops)) pcmpop.
  Proof.
    apply gives_alt; [|apply gives_alt].
    - eapply gives_imp; [|apply gives_plits]. intros a r H. unfold always in *. cbn in *. tauto.
    - eapply gives_imp; [|apply gives_ptok]. intros a r H. unfold always in *. cbn in H. subst a. cbn. tauto.
    - eapply gives_imp; [|apply gives_plit]. intros a r ->. unfold always. cbn. tauto.
  Qed.
  Lemma cond_sound n : gives (always ok_cond) (pcond pv n).
  Proof.
    induction n as [|n IH]; cbn [pcond]; [intros ts a r _; discriminate|].
    gbind (fun x : gcond + gadd => match x with inl c => ok_cond c | inr a => ok_add a end).
    - apply gives_alt.
      + gskip. eapply gives_bind; [exact IH|]. intros c H. now apply gives_pret.
      + eapply gives_bind; [exact add_sound|]. intros a H. now apply gives_pret.
    - intros x Hx. eapply gives_bind; [apply (ops_sound ok_add _ _ _ cmpop_sound add_sound)|].
      intros l Hl. apply gives_pret. destruct x as [c|a]; [exact Hx|]. split; [exact Hx|].
      now apply all_last.
  Qed.
  Lemma or_sound n : gives (always ok_or) (por pv n).
  Proof.
    eapply gives_bind; [apply cond_sound|]. intros m Hm.
    eapply gives_bind; [apply (ops_sound ok_cond (fun o => reads (tt (tor_op o)) o)); [|apply cond_sound]|].
    - apply gives_alt; (eapply gives_imp; [|apply gives_ptok]); intros a r H; apply good_or; auto.
    - intros l Hl. apply gives_pret. now split.
  Qed.
  Lemma and_sound n : gives (always ok_and) (pand pv n).
  Proof.
    eapply gives_bind; [apply or_sound|]. intros m Hm.
    eapply gives_bind; [apply (ops_sound ok_or (fun o => reads (tt (tand_op o)) o)); [|apply or_sound]|].
    - apply gives_alt; (eapply gives_imp; [|apply gives_ptok]); intros a r H; apply good_and; auto.
    - intros l Hl. apply gives_pret. now split.
  Qed.
  Lemma comma_sound n : gives (always ok_comma) (pcomma pv n).
  Proof.
    eapply gives_bind; [apply and_sound|]. intros m Hm.
    gbind (all (oko ok_and)).
    - apply gives_pstar. gskip. eapply gives_bind; [apply gives_pstar, and_sound|].
      intros l Hl. apply gives_pret. now apply all_last.
    - intros l Hl. apply gives_pret. now split.
  Qed.

  (** ** Arguments and queries *)

  Section Knot.
    Variable n : nat.
    Variable ps : parser gselect.
    Hypothesis select_sound : gives (always ok_select) ps.

    Lemma arg_sound : gives (always ok_arg) (parg n pv ps).
    Proof.
      eapply gives_bind; [apply gives_ptok|]. intros a G. apply good_ident in G. gskip.
      apply gives_alt; [|apply gives_alt].
      - gskip. eapply gives_bind; [exact select_sound|]. intros s Hs. gskip. apply gives_pret. now split.
      - gskip. eapply gives_bind; [apply gives_popt, comma_sound|]. intros c Hc. gskip. apply gives_pret. now split.
      - eapply gives_bind; [apply and_sound|]. intros e He. apply gives_pret. now split.
    Qed.

    Lemma path_sound first (P : string -> Prop) : gives (always P) first ->
      gives (fun l r => match l with [] => False | a :: q => P a /\ all ok_ident q end /\ no_dot r) (ppath first).
    Proof.
      intros G ts l r K. unfold ppath, pbind. destruct (first ts) as [a q|q|] eqn:E; try discriminate.
      destruct (G ts a q K E) as (Ha & KQ).
      destruct (pstar (fun ts0 => match plit "." ts0 with POk _ r0 => ptok T_Ident r0 | PFail r0 => PFail r0 | PFuel => PFuel end) q)
        as [x y|y|] eqn:E2; try discriminate.
      assert (GI : gives (always ok_ident) (plit "." ~>> ptok T_Ident)).
      { gskip. eapply gives_imp; [|apply gives_ptok]. intros s q' H. now apply good_ident. }
      destruct (gives_pstar' ok_ident _ GI q x y KQ E2) as ((HX & (z & F)) & KY).
      unfold pret. intros [= <- <-]. split; [|exact KY]. split; [now split|].
      intros u v w -> Du Dv. revert F. unfold pbind, plit, ptok. rewrite Du. change (String.eqb "." ".") with true. cbv iota beta. rewrite Dv. discriminate.
    Qed.

    Lemma symref_sound : gives val_post (psymref n pv ps).
    Proof.
      intros ts v r K. unfold psymref, pbind at 1.
      destruct (ppath (alt (ptok T_SymbolIdent) (ptok T_Ident)) ts) as [p q|q|] eqn:E; try discriminate.
      assert (G1 : gives (always (fun s => reads (tt (tfirst s)) s)) (alt (ptok T_SymbolIdent) (ptok T_Ident))).
      { apply gives_alt; (eapply gives_imp; [|apply gives_ptok]); intros a x H; apply good_first; auto. }
      destruct (path_sound _ _ G1 ts p q K E) as ((HP & ND) & KQ).
      unfold pbind at 1.
      destruct (pstar (plit "(" ~>> a <~ plist (parg n pv ps);; plit ")" ~>> pret a) q) as [l y|y|] eqn:E2; try discriminate.
      assert (G2 : gives (always (all ok_arg)) (plit "(" ~>> a <~ plist (parg n pv ps);; plit ")" ~>> pret a)).
      { gskip. eapply gives_bind; [apply gives_plist, arg_sound|]. intros a Ha. gskip. now apply gives_pret. }
      destruct (gives_pstar _ _ G2 q l y KQ E2) as (HL & KY).
      unfold pret. intros [= <- <-]. split; [|exact KY]. split.
      - cbn [ok_value]. split; [|split].
        + destruct p as [|a p]; [contradiction|exact HP].
        + destruct l; [now right|now left].
        + now apply all_concat.
      - destruct l as [|x l]; cbn [nonempty]; [|exact I].
        unfold pstar in E2. cbn [pstar_n] in E2.
        destruct ((plit "(" ~>> a <~ plist (parg n pv ps);; plit ")" ~>> pret a) q) as [x z|z|].
        * destruct (pstar_n _ _ z); discriminate.
        * destruct (stop q z); [discriminate|]. injection E2 as <-. exact ND.
        * discriminate.
    Qed.

    Lemma always_val (p : parser gvalue) : gives (always (fun v => ok_value v /\ match v with GSym _ _ _ => False | _ => True end)) p ->
      gives val_post p.
    Proof. apply gives_imp. intros v r (H & N). split; [exact H|]. destruct v; [contradiction| | | | |]; exact I. Qed.

    Lemma value_step_sound : gives val_post (pvalue_step n pv ps).
    Proof.
      apply gives_alt; [exact symref_sound|]. apply always_val.
      apply gives_alt; [|apply gives_alt; [|apply gives_alt; [|apply gives_alt]]].
      - gskip. eapply gives_bind; [apply comma_sound|]. intros c Hc. gskip. apply gives_pret. now split.
      - gbind (fun s => reads (tt (tstring s)) s).
        + apply gives_alt; (eapply gives_imp; [|apply gives_ptok]); intros a x H; apply good_string; auto.
        + intros s Hs. apply gives_pret. now split.
      - eapply gives_bind; [apply gives_ptok|]. intros s G. apply gives_pret. split; [exact (proj1 G)|exact I].
      - eapply gives_bind; [apply gives_ptok|]. intros s G. apply gives_pret. split; [exact (proj1 G)|exact I].
      - gskip. apply gives_pret. split; exact I.
    Qed.

    Lemma alias_sound : gives (always ok_alias) palias.
    Proof.
      gbind (oko ok_ident).
      - apply gives_popt. gskip. eapply gives_imp; [|apply gives_ptok]. intros s r H. now apply good_ident.
      - intros [s|] H; apply gives_pret; [now right|now left].
    Qed.
    Lemma col_sound : gives (always ok_col) (pcol n pv ps).
    Proof.
      gbind (fun f : string -> gcol => forall a, ok_alias a -> ok_col (f a)).
      - apply gives_alt; [|apply gives_alt].
        + gskip. apply gives_pret. now intros a H.
        + gskip. eapply gives_bind; [exact select_sound|]. intros s Hs. gskip. apply gives_pret. intros a H. now split.
        + eapply gives_bind; [apply and_sound|]. intros e He. apply gives_pret. intros a H. now split.
      - intros f Hf. eapply gives_bind; [exact alias_sound|]. intros a Ha. apply gives_pret. now apply Hf.
    Qed.
    Lemma plugin_sound : gives (always ok_plugin) (pplugin n pv ps).
    Proof.
      gbind ok_name.
      - eapply gives_imp; [|apply (path_sound _ ok_ident); eapply gives_imp; [|apply gives_ptok]].
        + intros l r (H & _). destruct l; [contradiction|exact H].
        + intros s r H. now apply good_ident.
      - intros p Hp. gbind (oko (all ok_arg)).
        + apply gives_popt. gskip. eapply gives_bind; [apply gives_plist, arg_sound|]. intros a Ha. gskip.
          now apply gives_pret.
        + intros [a|] Ha; apply gives_pret; cbn [given]; (split; [exact Hp|]; split); auto.
    Qed.
    Lemma limit_sound : gives (always is_int64) plimit.
    Proof.
      intros ts z r K. unfold plimit.
      assert (G : gives (always (fun _ : string => True)) (ptok T_LIMIT ~>> ptok T_Number)).
      { gskip. eapply gives_imp; [|apply gives_ptok]. intros; exact I. }
      destruct ((ptok T_LIMIT ~>> ptok T_Number) ts) as [s q|q|] eqn:E; try discriminate.
      destruct (parse_int s) as [i|] eqn:P; [|discriminate]. intros [= <- <-].
      split; [|exact (proj2 (G ts s q K E))]. now apply parse_int_range in P.
    Qed.

    Lemma star_first ts c r : pcol n pv ps ts = POk c r -> forall a, c = GStar a ->
      exists x q, ts = x :: q /\ tv x = "*".
    Proof.
      intros E a ->. revert E. unfold pcol, pbind at 1.
      destruct (alt _ _ ts) as [f q|q|] eqn:F; try discriminate. intro E.
      assert (S : forall ts0 f0 q0 b, alt (plit "{" ~>> s <~ ps;; plit "}" ~>> pret (GColSelect s)) (e <~ pand pv n;; pret (GColExpr e)) ts0
                   = POk f0 q0 -> f0 b <> GStar a).
      { intros ts0 f0 q0 b. unfold alt. destruct ((plit "{" ~>> s <~ ps;; plit "}" ~>> pret (GColSelect s)) ts0) as [g x|x|] eqn:E1.
        - intros [= -> ->]. revert E1. unfold pbind.
          repeat match goal with |- match ?m with _ => _ end = _ -> _ => destruct m; try discriminate end.
          unfold pret. intros [= <- <-]. discriminate.
        - destruct (stop ts0 x); [discriminate|].
          destruct ((e <~ pand pv n;; pret (GColExpr e)) ts0) as [g y|y|] eqn:E2.
          + intros [= -> ->]. revert E2. unfold pbind. destruct (pand pv n ts0); try discriminate.
            unfold pret. intros [= <- <-]. discriminate.
          + destruct (stop ts0 y); discriminate.
          + discriminate.
        - discriminate. }
      revert E. unfold pbind. destruct (palias q) as [b y|y|]; try discriminate. unfold pret. intros [= E ->].
      revert F. unfold alt at 1. destruct ((plit "*" ~>> pret GStar) ts) as [g x|x|] eqn:E1.
      - intros _. revert E1. unfold pbind. destruct ts as [|t ts]; cbn [plit]; [discriminate|].
        destruct (String.eqb_spec (tv t) "*"); [|discriminate]. intros _. eauto.
      - destruct (stop ts x); [discriminate|].
        destruct (alt _ _ ts) as [g z|z|] eqn:E2; [|destruct (stop ts z); discriminate|discriminate].
        intros [= -> ->]. exfalso. exact (S ts f q b E2 E).
      - discriminate.
    Qed.
    (** Columns after a list that does not begin with a star. *)
    Lemma cols_sound ts l r : goods ts -> plist (pcol n pv ps) ts = POk l r ->
      (forall x q, ts = x :: q -> tv x <> "*") ->
      match l with GStar _ :: _ => False | _ => True end.
    Proof.
      intros K E N. destruct l as [|c l]; [exact I|]. destruct c as [a| |]; try exact I.
      revert E. unfold plist, pbind at 1, popt.
      destruct ((a0 <~ pcol n pv ps;; l0 <~ pstar (plit "," ~>> pcol n pv ps);; pret (a0 :: l0)) ts) as [x q|q|] eqn:E1.
      - unfold pret at 1. intros [= -> ->]. revert E1. unfold pbind at 1.
        destruct (pcol n pv ps ts) as [c q|q|] eqn:E2; try discriminate. unfold pbind at 1.
        destruct (pstar _ q) as [l' y|y|]; try discriminate. unfold pret. intros [= -> _ _].
        destruct (star_first ts (GStar a) q E2 a eq_refl) as (t & w & -> & T). exact (N t w eq_refl T).
      - destruct (stop ts q); discriminate.
      - discriminate.
    Qed.

    Lemma select_step_sound : gives (always ok_select) (pselect_step n pv ps).
    Proof.
      eapply gives_bind with (P := fun _ : list string => True).
      { eapply gives_imp; [|apply gives_pstar, gives_ptok]. intros; exact I. }
      intros x _. gskip.
      intros ts s r K. unfold pbind at 1.
      destruct (popt (plit "*" ~>> popt (plit ",")) ts) as [al q|q|] eqn:E; try discriminate.
      assert (GA : gives (always (oko (fun _ : option string => True))) (popt (plit "*" ~>> popt (plit ",")))).
      { apply gives_popt. gskip. eapply gives_imp; [|apply gives_popt, gives_plit]. intros; exact I. }
      destruct (GA ts al q K E) as (_ & KQ).
      assert (NS : al = None -> forall y z, q = y :: z -> tv y <> "*").
      { intros -> y z -> T. revert E. unfold popt at 1. unfold pbind.
        destruct ts as [|t ts]; cbn [plit].
        - cbn. discriminate.
        - destruct (String.eqb_spec (tv t) "*") as [Et|Et].
          + unfold popt. destruct ts as [|t2 ts]; cbn [plit].
            * cbn. discriminate.
            * destruct (String.eqb (tv t2) ","); [discriminate|].
              destruct (stop (t2 :: ts) (t2 :: ts)) eqn:ST; [|discriminate].
              unfold stop in ST. rewrite Nat.sub_diag in ST. discriminate ST.
          + destruct (stop (t :: ts) (t :: ts)); [discriminate|]. intros [= -> _]. contradiction. }
      unfold pbind at 1. destruct (plist (pcol n pv ps) q) as [cols q2|q2|] eqn:E2; try discriminate.
      pose proof (gives_plist _ _ col_sound q cols q2 KQ E2) as (HC & KQ2).
      assert (FIRST : match given al, cols with false, GStar _ :: _ => False | _, _ => True end).
      { destruct al; [exact I|]. cbn [given]. now apply (cols_sound q cols q2 KQ E2 (NS eq_refl)). }
      revert s r. 
      assert (REST : gives (always ok_select)
        (ptok T_FROM ~>> from <~ pplugin n pv ps ;;
         w <~ popt (ptok T_WHERE ~>> pcomma pv n) ;;
         g <~ popt (ptok T_GROUPBY ~>> pcomma pv n) ;;
         o <~ popt (ptok T_ORDERBY ~>> k <~ ptok T_Ident ;; d <~ popt (ptok T_DESC) ;; pret (k, given d)) ;;
         l <~ popt plimit ;;
         pret (GSelect (nonempty x) (given al) cols from w g o l))).
      { gskip. eapply gives_bind; [exact plugin_sound|]. intros from Hf.
        gbind (oko ok_comma); [apply gives_popt; gskip; apply comma_sound|]. intros w Hw.
        gbind (oko ok_comma); [apply gives_popt; gskip; apply comma_sound|]. intros g Hg.
        gbind (oko (fun o : string * bool => ok_ident (fst o))).
        { apply gives_popt. gskip. eapply gives_bind; [apply gives_ptok|]. intros k Hk.
          gbind (fun _ : option string => True).
          { eapply gives_imp; [|apply gives_popt, gives_ptok]. intros; exact I. }
          intros d _. apply gives_pret. now apply good_ident. }
        intros o Ho. gbind (oko is_int64); [apply gives_popt, limit_sound|]. intros l Hl.
        apply gives_pret. cbn [ok_select]. auto 10. }
      intros s r E3. exact (REST q2 s r KQ2 E3).
    Qed.

    Lemma param_sound : gives (always ok_param) (pparam n pv ps).
    Proof.
      apply gives_alt.
      - eapply gives_bind; [exact arg_sound|]. intros a Ha. now apply gives_pret.
      - eapply gives_bind; [apply gives_ptok|]. intros s G. apply gives_pret. now apply good_ident.
    Qed.
    Lemma vql_step_sound : gives (always ok_vql) (pvql_step n pv ps).
    Proof.
      apply gives_alt.
      - gskip. eapply gives_bind; [apply gives_ptok|]. intros name Hn. apply good_ident in Hn.
        gbind (oko (all ok_param)).
        { apply gives_popt. gskip. eapply gives_bind; [apply gives_plist, param_sound|]. intros l Hl. gskip.
          now apply gives_pret. }
        intros l Hl. eapply gives_bind; [apply (two_lits "=" "<=")|]. intros o Ho.
        gbind (fun b : gselect + gand => match b with inl s => ok_select s | inr e => ok_and e end).
        { apply gives_alt.
          - eapply gives_bind; [exact select_sound|]. intros s Hs. now apply gives_pret.
          - eapply gives_bind; [apply and_sound|]. intros e He. now apply gives_pret. }
        intros b Hb. apply gives_pret. cbn [ok_vql]. repeat split; auto.
        + destruct l; [now left|now right].
        + destruct l; [exact Hl|exact I].
        + cbn in Ho. destruct Ho as [<-|[<-|[]]]; auto.
      - eapply gives_bind; [exact select_sound|]. intros s Hs. now apply gives_pret.
    Qed.
  End Knot.
End Expressions.

Lemma knot_sound n : gives val_post (pvalue n) /\ gives (always ok_select) (pselect n).
Proof.
  induction n as [|n (V & S)].
  - split; intros ts a r _; discriminate.
  - unfold pvalue, pselect. cbn [pknot]. unfold pvalue in V. unfold pselect in S.
    destruct (pknot n) as (pv, ps). cbn [fst snd] in *. split.
    + now apply value_step_sound.
    + now apply select_step_sound.
Qed.
Lemma vql_sound n : gives (always ok_vql) (pvql n).
Proof. destruct (knot_sound n) as (V & S). now apply vql_step_sound. Qed.

Theorem parse_vql_ok s x : parse_vql s = Some x -> ok_vql x.
Proof.
  unfold parse_vql. destruct (tokens s) as [ts|] eqn:T; [|discriminate]. apply tokens_good in T.
  unfold whole. destruct (pvql _ ts) as [a r|r|] eqn:E; try discriminate. destruct r; [|discriminate].
  intros [= <-]. exact (proj1 (vql_sound _ ts a [] T E)).
Qed.
