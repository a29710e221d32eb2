(** The trees of Parser.v are what the tags capture (GrammarTree.v). *)

From Coq Require Import ZArith List String Ascii Bool Lia.
From Verif Require Import Base F64 Text Lexer Numeral Grammar Parser Comments GrammarText GrammarTextProofs GrammarTree.
Import ListNotations.
Open Scope nat_scope.
Open Scope string_scope.
Open Scope list_scope.

(** ** Readings with captures *)

Lemma keeps_reads g ts c r : keeps g ts c r -> reads g ts (Took r).
Proof.
  induction 1; try (now econstructor; eauto).
  - apply R_keep. econstructor; eauto.
Qed.

Lemma keeps_once g ts c r : keeps g ts c r -> forall c' r', keeps g ts c' r' -> c = c' /\ r = r'.
Proof.
  induction 1; intros c9 r9 K; inversion K; subst; try (now split); try discriminate;
    repeat match goal with
    | E : grammar_of ?s = Some ?n, E' : grammar_of ?s = Some ?m |- _ =>
        first [constr_eq n m; fail 1 | assert (n = m) by congruence; subst]
    | A : keeps ?g ?ts _ _, B : reads ?g ?ts (Missed _) |- _ =>
        apply keeps_reads in A; pose proof (reads_once _ _ _ A _ B); discriminate
    end;
    repeat match goal with
    | IH : forall c r, keeps ?g ?ts c r -> _, A : keeps ?g ?ts _ _ |- _ =>
        apply IH in A as (? & ?); subst; clear IH
    end; try (now split); try discriminate.
Qed.

Section Trees.
  Context {T : Type}.
  Variable text : string -> T.
  Variable make : string -> list (string * T) -> T.
  Variable Q : list token -> Prop.
  Hypothesis ends_too : forall p ts, Q (p ++ ts) -> Q ts.
  Notation built := (built text make).

  (** p follows the grammar, and what it returns and what is captured are
      related. *)
  Definition fills_in {A} (p : parser A) (g : node) (D : A -> list (string * T) -> Prop) : Prop :=
    follows Q p g /\
    forall ts a r, Q ts -> p ts = POk a r -> exists c, keeps g ts c r /\ D a (built c).

  Lemma built_app a b : built (a ++ b) = built a ++ built b.
  Proof. apply map_app. Qed.

  Lemma i_weaken {A} (p : parser A) g (D D' : A -> list (string * T) -> Prop) :
    (forall a l, D a l -> D' a l) -> fills_in p g D -> fills_in p g D'.
  Proof. intros W (F & B). split; [exact F|]. intros ts a r H E. destruct (B ts a r H E) as (c & K & d). eauto. Qed.
  Lemma i_ext {A} (p q : parser A) g D : (forall ts, p ts = q ts) -> fills_in q g D -> fills_in p g D.
  Proof.
    intros E (F & B). split.
    - intros ts H. rewrite E. now apply F.
    - intros ts a r H. rewrite E. now apply B.
  Qed.

  Lemma i_tok t : fills_in (ptok t) (NToken t) (fun _ l => l = []).
  Proof.
    split; [apply f_tok|]. intros ts a r _ E. exists []. split; [|reflexivity].
    unfold ptok in E. destruct ts as [|x s]; [discriminate|].
    destruct (ttype_beq (tt x) t) eqn:X; [|discriminate]. injection E as <- <-.
    constructor. now apply internal_ttype_dec_bl.
  Qed.
  Lemma i_lit v : fills_in (plit v) (NText v) (fun _ l => l = []).
  Proof.
    split; [apply f_lit|]. intros ts a r _ E. exists []. split; [|reflexivity].
    unfold plit in E. destruct ts as [|x s]; [discriminate|].
    destruct (String.eqb_spec (tv x) v) as [<-|]; [|discriminate]. injection E as <- <-. constructor.
  Qed.

  (** p takes one token and returns its text. *)
  Definition texty (p : parser string) : Prop :=
    forall ts a r, p ts = POk a r -> exists x, ts = x :: r /\ a = tv x.
  Lemma texty_tok t : texty (ptok t).
  Proof.
    intros ts a r E. unfold ptok in E. destruct ts as [|x s]; [discriminate|].
    destruct (ttype_beq (tt x) t); [|discriminate]. injection E as <- <-. eauto.
  Qed.
  Lemma texty_lit v : texty (plit v).
  Proof.
    intros ts a r E. unfold plit in E. destruct ts as [|x s]; [discriminate|].
    destruct (String.eqb_spec (tv x) v) as [<-|]; [|discriminate]. injection E as <- <-. eauto.
  Qed.
  Lemma texty_alt p q : texty p -> texty q -> texty (alt p q).
  Proof.
    intros P P' ts a r E. unfold alt in E. destruct (p ts) as [b s|s|] eqn:X; [|  |discriminate].
    - injection E as <- <-. now apply P.
    - destruct (stop ts s); [discriminate|]. destruct (q ts) as [b u|u|] eqn:Y; try discriminate.
      + injection E as <- <-. now apply P'.
      + destruct (stop ts u); discriminate.
  Qed.
  Lemma i_text (p : parser string) f n (D : string -> list (string * T) -> Prop) :
    is_struct n = false -> texty p -> fills_in p n D ->
    fills_in p (NKeep f n) (fun s l => l = [(f, text s)]).
  Proof.
    intros N X (F & B). split; [now apply f_keep|]. intros ts a r H E.
    destruct (B ts a r H E) as (c & K & _). destruct (X ts a r E) as (x & -> & ->).
    exists [(f, CText (tv x))]. split; [now apply (K_keep f n x c)|reflexivity].
  Qed.
  Lemma i_lit_text f v : fills_in (plit v) (NKeep f (NText v)) (fun _ l => l = [(f, text v)]).
  Proof.
    split; [apply f_keep, f_lit|]. intros ts a r _ E. unfold plit in E. destruct ts as [|x s]; [discriminate|].
    destruct (String.eqb_spec (tv x) v) as [<-|]; [|discriminate]. injection E as <- <-.
    exists [(f, CText (tv x))]. split; [|reflexivity]. apply (K_keep f _ x []); [reflexivity|constructor].
  Qed.
  Lemma i_struct {A} (p : parser A) f s n (t : A -> T) :
    grammar_of s = Some n -> fills_in p n (fun a l => make s l = t a) ->
    fills_in p (NKeep f (NStruct s)) (fun a l => l = [(f, t a)]).
  Proof.
    intros G (F & B). split; [apply f_keep; now apply (f_struct _ _ s n)|]. intros ts a r H E.
    destruct (B ts a r H E) as (c & K & M). exists [(f, CStruct s c)]. split; [now apply (K_struct f s n)|].
    cbn. f_equal. f_equal. exact M.
  Qed.

  Lemma i_ret {A} (a : A) (D : A -> list (string * T) -> Prop) : D a [] -> fills_in (pret a) (NAll []) D.
  Proof.
    intro d. split; [apply f_ret|]. intros ts b r _ [= <- <-]. exists []. split; [constructor|exact d].
  Qed.
  Lemma i_bind {A B} (p : parser A) (f : A -> parser B) g gs D1 (D : B -> list (string * T) -> Prop) :
    fills_in p g D1 ->
    (forall a, follows Q (f a) (NAll gs)) ->
    (forall a l1, D1 a l1 -> fills_in (f a) (NAll gs) (fun b l2 => D b (l1 ++ l2))) ->
    fills_in (pbind p f) (NAll (g :: gs)) D.
  Proof.
    intros (F & B1) G H. split; [now apply f_bind|]. intros ts b r q E. unfold pbind in E.
    destruct (p ts) as [a s|s|] eqn:X; [|discriminate|discriminate].
    destruct (B1 ts a s q X) as (c & K & d). destruct (H a _ d) as (_ & B2).
    destruct (B2 s b r) as (c' & K' & d'); [|exact E|].
    - pose proof (F ts q) as R. rewrite X in R. exact (took_too Q ends_too _ _ _ R q).
    - exists (c ++ c'). split; [now apply (K_all g gs ts c s)|]. now rewrite built_app.
  Qed.
  Lemma i_last {A} (p : parser A) g D : fills_in p g D -> fills_in p (NAll [g]) D.
  Proof.
    intros (F & B). split; [now apply f_last|]. intros ts a r H E. destruct (B ts a r H E) as (c & K & d).
    exists (c ++ []). split; [apply (K_all g [] ts c r); [exact K|constructor]|now rewrite app_nil_r].
  Qed.
  Lemma i_map {A B} (p : parser A) (h : A -> B) g (D : B -> list (string * T) -> Prop) :
    fills_in p g (fun a l => D (h a) l) -> fills_in (pbind p (fun a => pret (h a))) g D.
  Proof.
    intros (F & B1). split; [now apply f_map|]. intros ts b r H E. unfold pbind in E.
    destruct (p ts) as [a s|s|] eqn:X; [|discriminate|discriminate]. injection E as <- <-. now apply B1.
  Qed.
  Lemma i_opt {A} (p : parser A) g D : fills_in p g D ->
    fills_in (popt p) (NMaybe g) (fun o l => match o with Some a => D a l | None => l = [] end).
  Proof.
    intros (F & B). split; [now apply f_opt|]. intros ts o r H E. unfold popt in E. pose proof (F ts H) as R.
    destruct (p ts) as [a s|s|] eqn:X; [| |discriminate].
    - injection E as <- <-. destruct (B ts a s H X) as (c & K & d). exists c. split; [now constructor|exact d].
    - destruct (stop ts s) eqn:S; [discriminate|]. injection E as <- <-. exists []. split; [|reflexivity].
      apply (K_maybe_not g ts s R). now apply not_committed.
  Qed.
  Lemma i_star {A} (p : parser A) g (h : A -> list (string * T)) : fills_in p g (fun a l => l = h a) ->
    fills_in (pstar p) (NMany g) (fun la l => l = flat_map h la).
  Proof.
    intros (F & B). split; [now apply f_star|]. unfold pstar. intros ts. generalize (S (List.length ts)).
    intro n. revert ts. induction n as [|n IH]; intros ts la r H E; [discriminate|]. cbn [pstar_n] in E.
    pose proof (F ts H) as R. destruct (p ts) as [a s|s|] eqn:X; [| |discriminate].
    - pose proof (took_too Q ends_too _ _ _ R H) as H'.
      destruct (pstar_n n p s) as [l u|u|] eqn:Y; [|discriminate|discriminate]. injection E as <- <-.
      destruct (B ts a s H X) as (c & K & d). destruct (IH s l u H' Y) as (c' & K' & d').
      exists (c ++ c'). split; [now apply (K_more g ts c s)|]. rewrite built_app, d, d'. reflexivity.
    - destruct (stop ts s) eqn:S; [discriminate|]. injection E as <- <-. exists []. split; [|reflexivity].
      apply (K_no_more g ts s R). now apply not_committed.
  Qed.
  Lemma i_opt_star {A} (p : parser A) g D : fills_in p (NMany g) D -> fills_in p (NMaybe (NMany g)) D.
  Proof.
    intros (F & B). split; [now apply f_opt_star|]. intros ts a r H E. destruct (B ts a r H E) as (c & K & d).
    exists c. split; [now constructor|exact d].
  Qed.
  Lemma i_inline {A} (p : parser A) hs gs D : fills_in p (NAll (hs ++ gs)) D -> fills_in p (NAll (NAll hs :: gs)) D.
  Proof.
    intros (F & B). split; [now apply f_inline|]. intros ts a r H E. destruct (B ts a r H E) as (c & K & d).
    exists c. split; [|exact d]. clear - K. revert ts c K. 
    assert (X : forall ts c, keeps (NAll (hs ++ gs)) ts c r ->
      exists c1 c2 s, c = c1 ++ c2 /\ keeps (NAll hs) ts c1 s /\ keeps (NAll gs) s c2 r).
    { induction hs as [|n hs IH]; intros ts c K.
      - exists [], c, ts. repeat split; [constructor|exact K].
      - cbn [app] in K. inversion K; subst.
        match goal with G : keeps (NAll (hs ++ gs)) _ _ _ |- _ => apply IH in G as (c1 & c2 & s & -> & X & Y) end.
        eexists _, c2, s. split; [apply app_assoc|]. split; [|exact Y]. eapply K_all; eauto. }
    intros ts c K. apply X in K as (c1 & c2 & s & -> & A1 & A2). eapply K_all; eauto.
  Qed.

  (** Alternatives. *)
  Definition fills_among {A} (p : parser A) (gs : list node) (D : A -> list (string * T) -> Prop) : Prop :=
    among Q p gs /\
    forall ts a r, Q ts -> p ts = POk a r -> exists c, keeps (NAny gs) ts c r /\ D a (built c).
  Lemma ia_one {A} (p : parser A) g D : fills_in p g D -> fills_among p [g] D.
  Proof.
    intros (F & B). split; [now apply a_one|]. intros ts a r H E. destruct (B ts a r H E) as (c & K & d).
    exists c. split; [now constructor|exact d].
  Qed.
  Lemma ia_cons {A} (p q : parser A) g hs D : fills_in p g D -> fills_among q hs D -> fills_among (alt p q) (g :: hs) D.
  Proof.
    intros (F & B) (F' & B'). split; [now apply a_cons|]. intros ts a r H E. unfold alt in E.
    pose proof (F ts H) as R. destruct (p ts) as [b s|s|] eqn:X; [| |discriminate].
    - injection E as <- <-. destruct (B ts b s H X) as (c & K & d). exists c. split; [now constructor|exact d].
    - destruct (stop ts s) eqn:S; [discriminate|]. destruct (q ts) as [b u|u|] eqn:Y; try discriminate.
      + injection E as <- <-. destruct (B' ts b u H Y) as (c & K & d). exists c. split; [|exact d].
        apply (K_other g hs ts s); [exact R|now apply not_committed|exact K].
      + destruct (stop ts u); discriminate.
  Qed.
  Lemma i_alt {A} (p q : parser A) gs D : fills_among (alt p q) gs D -> fills_in (alt p q) (NAny gs) D.
  Proof. intros (F & B). split; [now apply f_alt|exact B]. Qed.

  Lemma i_list {A} (p : parser A) f n (t : A -> T) :
    fills_in p (NKeep f n) (fun a l => l = [(f, t a)]) ->
    fills_in (plist p) (NMaybe (NAll [NKeep f n; NMany (NAll [NText ","; NKeep f n])]))
      (fun la l => l = flat_map (fun a => [(f, t a)]) la).
  Proof.
    intros P. pose proof (proj1 P) as F. unfold plist. apply i_map.
    eapply i_weaken; [|apply (i_opt _ _ (fun la l => l = flat_map (fun a => [(f, t a)]) la))].
    - intros [la|] l; cbn; auto.
    - eapply i_bind; [exact P| |].
      + intro a. apply f_bind; [exact ends_too| |intro; apply f_ret]. apply f_star; [exact ends_too|].
        apply f_bind; [exact ends_too|apply f_lit|]. intros _. now apply f_last.
      + intros a l1 ->. eapply i_bind.
        * apply (i_star _ _ (fun a => [(f, t a)])). eapply i_bind; [apply i_lit| |].
          -- intros _. now apply f_last.
          -- intros x l1 ->. cbn [app]. now apply i_last.
        * intro. apply f_ret.
        * intros la l1 ->. apply i_ret. rewrite app_nil_r. reflexivity.
  Qed.
  (** LIMIT *)
  Lemma i_limit : fills_in plimit (NAll [NToken T_LIMIT; NKeep "Limit" (NInt64 T_Number)])
    (fun z l => exists s, l = [("Limit", text s)] /\ parse_int s = Some z).
  Proof.
    split; [now apply f_limit|]. intros ts z r H E. unfold plimit, pbind in E.
    destruct (ptok T_LIMIT ts) as [a s|s|] eqn:X; [|discriminate|discriminate].
    destruct (ptok T_Number s) as [b u|u|] eqn:Y; [|discriminate|discriminate].
    destruct (parse_int b) as [i|] eqn:Z; [|discriminate]. injection E as <- <-.
    unfold ptok in X, Y. destruct ts as [|x ts]; [discriminate|].
    destruct (ttype_beq (tt x) T_LIMIT) eqn:E1; [|discriminate]. injection X as <- <-.
    destruct ts as [|y ts]; [discriminate|].
    destruct (ttype_beq (tt y) T_Number) eqn:E2; [|discriminate]. injection Y as <- <-.
    apply internal_ttype_dec_bl in E1, E2.
    exists ([] ++ ([("Limit", CText (tv y))] ++ [])). split; [|exists (tv y); split; [reflexivity|exact Z]].
    eapply K_all; [now constructor|]. eapply K_all; [|constructor]. apply K_keep with (c := []); [reflexivity|].
    now apply (K_int64 _ _ _ i).
  Qed.
End Trees.

Lemma i_assoc {T A B C} text make Q (p : parser A) (f : A -> parser B) (h : B -> parser C) g D :
  @fills_in T text make Q _ (a <~ p ;; b <~ f a ;; h b) g D -> fills_in text make Q (pbind (pbind p f) h) g D.
Proof. apply i_ext. intro ts. unfold pbind. now destruct (p ts). Qed.
Lemma i_ret_bind {T A B} text make Q (a : A) (f : A -> parser B) g D :
  @fills_in T text make Q _ (f a) g D -> fills_in text make Q (pbind (pret a) f) g D.
Proof. now apply i_ext. Qed.

(** ** Fields *)

Lemma every_app {T A} (pick : T -> option A) f a b : every pick f (a ++ b) = every pick f a ++ every pick f b.
Proof. apply flat_map_app. Qed.
Lemma every_nil {T A} (pick : T -> option A) f : every pick f [] = [].
Proof. reflexivity. Qed.
Lemma every_cons {T A} (pick : T -> option A) f g t l :
  every pick f ((g, t) :: l) =
  (if String.eqb g f then match pick t with Some a => [a] | None => [] end else []) ++ every pick f l.
Proof. reflexivity. Qed.
Lemma flat_map_self {A} (l : list A) : flat_map (fun a => [a]) l = l.
Proof. induction l as [|a l IH]; cbn; [reflexivity|]. now rewrite IH. Qed.
Lemma flat_map_none {A B} (l : list A) : flat_map (fun _ => @nil B) l = [].
Proof. now induction l. Qed.
Lemma every_cells {T A B} (pick : T -> option A) f g (t : B -> T) l :
  every pick f (flat_map (fun a => [(g, t a)]) l) =
  if String.eqb g f then flat_map (fun a => match pick (t a) with Some b => [b] | None => [] end) l else [].
Proof.
  induction l as [|a l IH]; [now destruct (String.eqb g f)|].
  cbn [flat_map app]. rewrite every_cons, IH. destruct (String.eqb g f); [|reflexivity].
  now destruct (pick (t a)).
Qed.
Definition opt_log {T A} (f : string) (t : A -> T) (o : option A) : list (string * T) :=
  match o with Some a => [(f, t a)] | None => [] end.
Lemma every_opt {T A B} (pick : T -> option A) f g (t : B -> T) o :
  every pick f (opt_log g t o) =
  if String.eqb g f then match o with Some a => match pick (t a) with Some b => [b] | None => [] end | None => [] end
  else [].
Proof.
  destruct o as [a|]; cbn [opt_log]; [rewrite every_cons, every_nil|rewrite every_nil];
    destruct (String.eqb g f); try reflexivity. now destruct (pick (t a)).
Qed.
Lemma final_last {A} (l : list A) : final l = last_opt l.
Proof.
  unfold last_opt. induction l as [|a l IH]; [reflexivity|]. cbn [final rev]. rewrite IH.
  destruct (rev l) as [|b r]; reflexivity.
Qed.
Lemma joined_one s : joined [s] = s.
Proof. cbn. induction s as [|c s IH]; [reflexivity|]. cbn. now rewrite IH. Qed.

(** ** Without comments *)

Section Plain.
  Context {T : Type}.
  Variable text : string -> T.
  Variable make : string -> list (string * T) -> T.
  Lemma i_skip {A} (p : parser A) f gs D :
    fills_in text make plain p (NAll gs) D ->
    fills_in text make plain p (NAll (NMaybe (NKeep f (NStruct "_Comment")) :: gs)) D.
  Proof.
    intros (F & B). split; [now apply f_skip|]. intros ts a r H E. destruct (B ts a r H E) as (c & K & d).
    exists c. split; [|exact d]. change c with ([] ++ c). eapply K_all; [|exact K].
    eapply K_maybe_not; [now apply R_keep, no_comment|apply committed_same].
  Qed.
  Lemma i_skips {A} (p : parser A) f gs D :
    fills_in text make plain p (NAll gs) D ->
    fills_in text make plain p (NAll (NMany (NKeep f (NStruct "_Comment")) :: gs)) D.
  Proof.
    intros (F & B). split; [now apply f_skips|]. intros ts a r H E. destruct (B ts a r H E) as (c & K & d).
    exists c. split; [|exact d]. change c with ([] ++ c). eapply K_all; [|exact K].
    eapply K_no_more; [now apply R_keep, no_comment|apply committed_same].
  Qed.
End Plain.

Notation fills_g := (fills_in TText make plain).
(** The parser makes the tree of the struct. *)
Definition tree_ok {A} (p : parser A) (s : string) (t : A -> tree) : Prop :=
  forall f, fills_g p (NKeep f (NStruct s)) (fun a l => l = [(f, t a)]).

Ltac struct_is s :=
  let f := fresh in intro f;
  let b := eval vm_compute in (grammar_of s) in
  lazymatch b with
  | Some ?n => apply (i_struct _ _ _ _ f s n); [vm_compute; reflexivity|]
  end.

Ltac texts := first [apply texty_tok | apply texty_lit | apply texty_alt; texts].
(** A piece with its captures. *)
Ltac piece :=
  lazymatch goal with
  | |- fills_in _ _ _ (ptok _) (NToken _) _ => apply i_tok
  | |- fills_in _ _ _ (plit _) (NText _) _ => apply i_lit
  | |- fills_in _ _ _ (alt _ _) (NAny _) _ => apply i_alt; pieces
  | |- fills_in _ _ _ _ (NKeep _ (NStruct _)) _ =>
      match goal with H : tree_ok ?p ?s _ |- fills_in _ _ _ ?p (NKeep _ (NStruct ?s)) _ => apply H end
  | |- fills_in _ _ _ _ (NKeep _ _) _ => eapply i_text; [reflexivity|texts|piece]
  | |- fills_in _ _ _ (popt _) (NMaybe _) _ => eapply i_opt; piece
  | |- fills_in _ _ _ (plist _) (NMaybe _) _ => eapply i_list; [exact plain_ends|piece]
  | |- fills_in _ _ _ (pstar _) (NMany _) _ => eapply i_star; [exact plain_ends|piece]
  | |- fills_in _ _ _ (pstar _) (NMaybe (NMany _)) _ => eapply i_opt_star, i_star; [exact plain_ends|piece]
  end
with pieces :=
  lazymatch goal with
  | |- fills_among _ _ _ (alt _ _) (_ :: _) _ => eapply ia_cons; [piece|pieces]
  | |- fills_among _ _ _ _ [_] _ => eapply ia_one; piece
  end.
Ltac tidy_log :=
  unfold make; cbn -[every final joined names parse_int flat_map app];
  repeat (rewrite every_app || rewrite every_cells || rewrite every_cons || rewrite every_nil);
  cbn -[joined]; rewrite ?app_nil_r, ?flat_map_self, ?joined_one, ?final_last; cbn -[joined];
  rewrite ?joined_one.
Ltac fin := cbn beta in *; subst; tidy_log; try reflexivity.
Ltac step :=
  lazymatch goal with
  | |- fills_in _ _ _ (pbind (pbind _ _) _) _ _ => apply i_assoc
  | |- fills_in _ _ _ (pbind (pret _) _) _ _ => apply i_ret_bind
  | |- fills_in _ _ _ _ (NAll (NMaybe (NKeep _ (NStruct "_Comment")) :: _)) _ => apply i_skip
  | |- fills_in _ _ _ _ (NAll (NMany (NKeep _ (NStruct "_Comment")) :: _)) _ => apply i_skips
  | |- fills_in _ _ _ _ (NAll (NAll _ :: _)) _ => apply i_inline; cbn [app]
  | |- fills_in _ _ _ (pret _) (NAll []) _ => apply i_ret
  | |- fills_in _ _ _ (pbind _ _) (NAll (_ :: _)) _ =>
      eapply i_bind; [exact plain_ends|piece|intro; repeat fw plain_ends|intros ? ? ?]
  end.

Section Expressions.
  Variable pv : parser gvalue.
  Hypothesis PV : tree_ok pv "_Value" TValue.
  Hypothesis FV : follows plain pv (NStruct "_Value").

  Lemma t_factor : tree_ok (o <~ alt (plit "*") (plit "/") ;; v <~ pv ;; pret (o, v)) "_OpFactor" TFactor.
  Proof. struct_is "_OpFactor". repeat step. fin. Qed.
  Lemma t_mterm : tree_ok (pmterm pv) "_OpMembershipTerm" TMterm.
  Proof.
    unfold pmterm. struct_is "_OpMembershipTerm". apply i_alt. apply ia_cons.
    - repeat step. fin. unfold mterm_of. destruct a1, (last_opt a0); reflexivity.
    - apply ia_one. repeat step. fin.
  Qed.
  Lemma t_member : tree_ok (pmember pv) "_MemberExpression" TMember.
  Proof. pose proof t_mterm. pose proof (f_mterm pv FV). unfold pmember. struct_is "_MemberExpression". repeat step. fin. Qed.
  Lemma t_mul : tree_ok (pmul pv) "_MultiplicationExpression" TMul.
  Proof.
    pose proof t_member. pose proof t_factor. pose proof (f_member pv FV). unfold pmul.
    struct_is "_MultiplicationExpression". repeat step. fin.
  Qed.
  Lemma t_addend : tree_ok (o <~ alt (plit "+") (plit "-") ;; m <~ pmul pv ;; pret (o, m)) "_OpAddTerm" TAddend.
  Proof. pose proof t_mul. pose proof (f_mul pv FV). struct_is "_OpAddTerm". repeat step. fin. Qed.
  Lemma t_add : tree_ok (padd pv) "_AdditionExpression" TAdd.
  Proof.
    pose proof t_mul. pose proof t_addend. pose proof (f_mul pv FV). unfold padd.
    struct_is "_AdditionExpression". repeat step. fin.
  Qed.
  Lemma texty_cmpop : texty pcmpop.
  Proof. unfold pcmpop. cbn [plits]. texts. Qed.
  Lemma t_comparison : tree_ok (o <~ pcmpop ;; a <~ padd pv ;; pret (o, a)) "_OpComparison" TComparison.
  Proof.
    pose proof t_add. pose proof (f_add pv FV). pose proof (f_cmpop plain). struct_is "_OpComparison".
    eapply i_bind; [exact plain_ends| |intro; repeat fw plain_ends|].
    - eapply (i_text _ _ _ _ _ _ (fun _ l => l = [])); [reflexivity|apply texty_cmpop|]. split; [apply f_cmpop|].
      intros ts a r P E. pose proof (f_cmpop plain ts P) as R. rewrite E in R. exists []. split; [|reflexivity].
      clear - R. revert R.
      assert (K : forall l ts, Forall (fun n => (exists v, n = NText v) \/ exists t, n = NToken t) l ->
                  reads (NAny l) ts (Took r) -> keeps (NAny l) ts [] r).
      { clear. induction l as [|n l IH]; intros ts F R; inversion R; subst; inversion F; subst.
        - apply K_this.
          match goal with K : _ \/ _ |- _ => destruct K as [(v & ->)|(t & ->)] end;
          match goal with K : reads n _ _ |- _ => idtac | K : reads _ _ (Took _) |- _ => inversion K; subst; now constructor end.
        - eapply K_other; eauto. }
      apply K.
      repeat (apply Forall_cons; [first [left; eexists; reflexivity | right; eexists; reflexivity]|]); constructor.
    - intros a l1 ->. repeat step. fin.
  Qed.
  Lemma t_cond n : tree_ok (pcond pv n) "_ConditionOperand" TCond.
  Proof.
    pose proof t_add. pose proof t_comparison. pose proof (f_add pv FV). pose proof (f_cmpop plain).
    induction n as [|n IH].
    { intro f. split; [intros ts _; exact I|discriminate]. }
    pose proof (f_cond pv FV n). cbn [pcond]. struct_is "_ConditionOperand". step.
    eapply (i_bind _ _ _ plain_ends _ _ _ _
      (fun x l => l = match x with inl c => [("Not", TCond c)] | inr a => [("Left", TAdd a)] end));
      [| intro; repeat fw plain_ends |].
    - apply i_alt. apply ia_cons.
      + eapply i_bind; [exact plain_ends|piece|intro; repeat fw plain_ends|]. intros a l1 ->. cbn [app].
        apply i_last, i_map. apply IH.
      + apply ia_one, i_map. apply t_add.
    - intros x l1 ->. eapply i_bind; [exact plain_ends|piece|intro; repeat fw plain_ends|]. intros r l1 ->.
      apply i_ret. destruct x; fin.
  Qed.
  Lemma t_orterm n : tree_ok (o <~ alt (ptok T_OR) (ptok T_AlternativeOR) ;; c <~ pcond pv n ;; pret (o, c)) "_OpOrTerm" TOrTerm.
  Proof. pose proof (t_cond n). pose proof (f_cond pv FV n). struct_is "_OpOrTerm". repeat step. fin. Qed.
  Lemma t_or n : tree_ok (por pv n) "_OrExpression" TOr.
  Proof.
    pose proof (t_cond n). pose proof (t_orterm n). pose proof (f_cond pv FV n). unfold por.
    struct_is "_OrExpression". repeat step. fin.
  Qed.
  Lemma t_andterm n : tree_ok (o <~ alt (ptok T_AND) (ptok T_AlternativeAND) ;; c <~ por pv n ;; pret (o, c)) "_OpAndTerm" TAndTerm.
  Proof. pose proof (t_or n). pose proof (f_or pv FV n). struct_is "_OpAndTerm". repeat step. fin. Qed.
  Lemma t_and n : tree_ok (pand pv n) "_AndExpression" TAnd.
  Proof.
    pose proof (t_or n). pose proof (t_andterm n). pose proof (f_or pv FV n). unfold pand.
    struct_is "_AndExpression". repeat step. fin.
  Qed.
  Lemma t_item n : tree_ok (plit "," ~>> t <~ pstar (pand pv n) ;; pret (last_opt t)) "_OpArrayTerm" TItem.
  Proof.
    pose proof (t_and n). pose proof (f_and pv FV n). struct_is "_OpArrayTerm". repeat step. fin.
  Qed.
  Lemma t_comma n : tree_ok (pcomma pv n) "_CommaExpression" TComma.
  Proof.
    pose proof (t_and n). pose proof (t_item n). pose proof (f_and pv FV n). unfold pcomma.
    struct_is "_CommaExpression". repeat step. fin.
  Qed.
End Expressions.

Section Knot.
  Variable n : nat.
  Variable pv : parser gvalue.
  Variable ps : parser gselect.
  Hypothesis PV : tree_ok pv "_Value" TValue.
  Hypothesis PS : tree_ok ps "_Select" TSelect.
  Hypothesis FV : follows plain pv (NStruct "_Value").
  Hypothesis FS : follows plain ps (NStruct "_Select").
  Local Ltac known :=
    pose proof (t_and pv PV FV n); pose proof (t_comma pv PV FV n);
    pose proof (f_and pv FV n); pose proof (f_comma pv FV n).

  Lemma t_arg : tree_ok (parg n pv ps) "_Args" TArg.
  Proof.
    known. unfold parg. struct_is "_Args". repeat step. apply i_last, i_alt.
    apply ia_cons; [|apply ia_cons; [|apply ia_one]].
    - repeat step. fin.
    - repeat step. destruct a2 as [x|]; fin.
    - apply i_map. eapply i_weaken; [|apply (t_and pv PV FV n)]. intros. fin.
  Qed.
  Lemma texty_symbol : texty (alt (ptok T_SymbolIdent) (ptok T_Ident)).
  Proof. texts. Qed.

  (** a.b.c *)
  Lemma names_path (l : list string) : forall a,
    names (a :: flat_map (fun x => ["."; x]) l) = a :: l.
  Proof. induction l as [|b l IH]; intro a; [reflexivity|]. cbn [flat_map app names]. f_equal. apply IH. Qed.
  Lemma path_texts f l : every p_text f (flat_map (fun x => [(f, TText "."); (f, TText x)]) l) = flat_map (fun x => ["."; x]) l.
  Proof.
    induction l as [|b l IH]; [reflexivity|]. cbn [flat_map app]. rewrite !every_cons, IH, String.eqb_refl. reflexivity.
  Qed.
  Lemma path_other {A} (pick : tree -> option A) f g l : String.eqb g f = false ->
    every pick f (flat_map (fun x => [(g, TText "."); (g, TText x)]) l) = [].
  Proof.
    intro N. induction l as [|b l IH]; [reflexivity|]. cbn [flat_map app]. now rewrite !every_cons, IH, N.
  Qed.
  Lemma i_dots f :
    fills_g (pstar (plit "." ~>> ptok T_Ident)) (NMany (NAll [NKeep f (NText "."); NKeep f (NToken T_Ident)]))
      (fun la l => l = flat_map (fun x => [(f, TText "."); (f, TText x)]) la).
  Proof.
    apply i_star; [exact plain_ends|].
    eapply i_bind; [exact plain_ends| |intro; apply f_last, f_keep, f_tok|].
    - apply i_lit_text.
    - intros a l1 ->. apply i_last. eapply i_weaken; [|eapply i_text; [reflexivity|apply texty_tok|apply i_tok]].
      intros b l ->. reflexivity.
  Qed.

  (** "(" arguments ")" *)
  Definition call_log (f g : string) (a : list garg) : list (string * tree) :=
    (f, TText "(") :: flat_map (fun x => [(g, TArg x)]) a.
  Lemma i_call f g :
    fills_g (plit "(" ~>> a <~ plist (parg n pv ps) ;; plit ")" ~>> pret a)
      (NAll [NKeep f (NText "("); NMaybe (NAll [NKeep g (NStruct "_Args");
               NMany (NAll [NText ","; NKeep g (NStruct "_Args")])]); NText ")"])
      (fun a l => l = call_log f g a).
  Proof.
    pose proof t_arg. pose proof (f_arg n pv ps FV FS).
    eapply i_bind; [exact plain_ends|apply i_lit_text|intro; repeat fw plain_ends|]. intros x l1 ->.
    eapply i_bind; [exact plain_ends|piece|intro; repeat fw plain_ends|]. intros a l1 ->.
    eapply i_bind; [exact plain_ends|piece|intro; repeat fw plain_ends|]. intros y l1 ->.
    apply i_ret. rewrite !app_nil_r. reflexivity.
  Qed.
  Lemma call_args f g l : String.eqb f g = false ->
    every p_arg g (flat_map (call_log f g) l) = List.concat l.
  Proof.
    intro N. induction l as [|a l IH]; [reflexivity|]. cbn [flat_map List.concat]. rewrite every_app, IH.
    unfold call_log. rewrite every_cons, N, every_cells, String.eqb_refl. cbn. now rewrite flat_map_self.
  Qed.
  Lemma call_there f g l : String.eqb g f = false ->
    match every p_text f (flat_map (call_log f g) l) with [] => false | _ => true end = nonempty l.
  Proof.
    intro N. destruct l as [|a l]; [reflexivity|]. cbn [flat_map]. rewrite every_app.
    unfold call_log at 1. rewrite every_cons, String.eqb_refl. reflexivity.
  Qed.
  Lemma call_other {A} (pick : tree -> option A) f g h l : String.eqb f h = false -> String.eqb g h = false ->
    every pick h (flat_map (call_log f g) l) = [].
  Proof.
    intros N N'. induction l as [|a l IH]; [reflexivity|]. cbn [flat_map]. rewrite every_app, IH.
    unfold call_log. now rewrite every_cons, N, every_cells, N'.
  Qed.

  Lemma t_symref : tree_ok (psymref n pv ps) "_SymbolRef" TValue.
  Proof.
    pose proof t_arg. pose proof (f_arg n pv ps FV FS). unfold psymref, ppath. struct_is "_SymbolRef".
    apply i_skip. apply i_assoc. step. apply i_assoc.
    eapply i_bind; [exact plain_ends|apply i_dots|intro; repeat fw plain_ends|]. intros la l2 ->. apply i_ret_bind.
    eapply i_bind; [exact plain_ends|eapply i_star; [exact plain_ends|apply i_call]|intro; repeat fw plain_ends|].
    intros lc l3 ->. apply i_ret. cbn beta in *.
    subst. unfold make. cbn -[every flat_map names app nonempty List.concat].
    rewrite app_nil_r, !every_app, path_texts, (call_other p_text), (path_other p_text "Called"), (path_other p_arg),
      (call_args "Called" "Parameters") by reflexivity.
    rewrite !every_cons, !every_nil. cbn [String.eqb Ascii.eqb Bool.eqb p_text app]. rewrite !app_nil_r, names_path.
    do 2 f_equal. exact (call_there "Called" "Parameters" lc eq_refl).
  Qed.

  Lemma t_value_step : tree_ok (pvalue_step n pv ps) "_Value" TValue.
  Proof.
    known. pose proof t_symref. pose proof (f_symref n pv ps FV FS). unfold pvalue_step. struct_is "_Value".
    apply i_skip. apply i_last, i_alt.
    apply ia_cons; [|apply ia_cons; [|apply ia_cons; [|apply ia_cons; [|apply ia_cons; [|apply ia_one]]]]].
    - eapply i_weaken; [|apply H3]. intros. fin.
    - repeat step. fin.
    - apply i_map. eapply i_weaken; [|piece]. intros. fin.
    - apply i_map. eapply i_weaken; [|piece]. intros. fin.
    - apply i_map. eapply i_weaken; [|piece]. intros. fin.
    - apply i_map. eapply i_weaken; [|piece]. intros. fin.
  Qed.

  Definition col_log (h : string -> gcol) (l : list (string * tree)) : Prop :=
    (h = GStar /\ l = [("Star", TText "*")]) \/
    (exists s, h = GColSelect s /\ l = [("SubSelect", TSelect s)]) \/
    (exists e, h = GColExpr e /\ l = [("Expression", TAnd e)]).
  Lemma t_col : tree_ok (pcol n pv ps) "_AliasedExpression" TCol.
  Proof.
    known. unfold pcol, palias. struct_is "_AliasedExpression". apply i_skips.
    eapply (i_bind _ _ _ plain_ends _ _ _ _ col_log); [|intro; repeat fw plain_ends|].
    - apply i_alt. apply ia_cons; [|apply ia_cons; [|apply ia_one]].
      + apply i_map. eapply i_weaken; [|apply i_lit_text]. intros. left. auto.
      + repeat step. fin. right. left. eauto.
      + apply i_map. eapply i_weaken; [|apply H]. intros. subst. right. right. eauto.
    - intros h l1 L. apply i_assoc. apply i_last.
      apply (i_ext _ _ _ _ (o <~ popt (ptok T_AS ~>> ptok T_Ident);; pret (h (match o with Some s => s | None => "" end)))).
      { intro ts. unfold pbind. destruct (popt _ ts); reflexivity. }
      assert (X : fills_g (ptok T_AS ~>> ptok T_Ident) (NAll [NToken T_AS; NKeep "As" (NToken T_Ident)])
                    (fun x l => l = [("As", TText x)])).
      { eapply i_bind; [exact plain_ends|piece|intro; repeat fw plain_ends|]. intros a l ->. apply i_last.
        eapply i_weaken; [|piece]. intros b l ->. reflexivity. }
      apply i_map. eapply i_weaken; [|eapply i_opt, X].
      intros o l2 E. cbn beta in E.
      destruct L as [(-> & ->)|[(s & -> & ->)|(e & -> & ->)]]; destruct o; cbn [app] in *; subst; tidy_log; reflexivity.
  Qed.

  Lemma t_plugin : tree_ok (pplugin n pv ps) "Plugin" TPlugin.
  Proof.
    pose proof t_arg. pose proof (f_arg n pv ps FV FS). unfold pplugin, ppath. struct_is "Plugin".
    apply i_assoc. step. apply i_assoc.
    eapply i_bind; [exact plain_ends|apply i_dots|intro; repeat fw plain_ends|]. intros la l2 ->. apply i_ret_bind.
    eapply i_bind; [exact plain_ends|eapply i_opt; apply i_call|intro; repeat fw plain_ends|].
    intros lc l3 E. apply i_ret. cbn beta in *. subst.
    assert (X : l3 = flat_map (call_log "Call" "Args") (match lc with Some a => [a] | None => [] end)).
    { destruct lc; cbn [flat_map]; now rewrite ?app_nil_r. }
    rewrite X. clear E X.
    unfold make. cbn -[every flat_map names app nonempty List.concat].
    rewrite app_nil_r, !every_app, path_texts, (call_other p_text), (path_other p_text "Call"), (path_other p_arg),
      (call_args "Call" "Args") by reflexivity.
    rewrite !every_cons, !every_nil. cbn [String.eqb Ascii.eqb Bool.eqb p_text app]. rewrite !app_nil_r, names_path.
    replace (given lc) with (nonempty (match lc with Some a => [a] | None => [] end)) by now destruct lc.
    do 2 f_equal; [exact (call_there "Call" "Args" _ eq_refl)|].
    destruct lc; cbn; now rewrite ?app_nil_r.
  Qed.

  Lemma t_from : tree_ok (pplugin n pv ps) "_From" TPlugin.
  Proof.
    pose proof t_plugin. struct_is "_From". eapply i_weaken; [|apply H]. intros. fin.
  Qed.

  Definition pcolumns : parser (bool * list gcol) :=
    all <~ popt (plit "*" ~>> popt (plit ",")) ;; cols <~ plist (pcol n pv ps) ;; pret (given all, cols).
  Lemma t_columns : tree_ok pcolumns "_SelectExpression" TColumns.
  Proof.
    pose proof t_col. pose proof (f_col n pv ps FV FS). unfold pcolumns. struct_is "_SelectExpression".
    assert (X : fills_g (plit "*" ~>> popt (plit ",")) (NAll [NKeep "All" (NText "*"); NMaybe (NText ",")])
                  (fun _ l => l = [("All", TText "*")])).
    { eapply i_bind; [exact plain_ends|apply i_lit_text|intro; repeat fw plain_ends|]. intros a l ->. apply i_last.
      eapply i_weaken; [|piece]. intros [b|] l ->; reflexivity. }
    eapply i_bind; [exact plain_ends|eapply i_opt, X|intro; repeat fw plain_ends|]. intros a l1 E.
    step. step. destruct a; fin.
  Qed.
  Lemma f_columns : follows plain pcolumns (NStruct "_SelectExpression").
  Proof. pose proof (f_col n pv ps FV FS). unfold pcolumns. repeat fw plain_ends. Qed.

  Lemma t_select_step : tree_ok (pselect_step n pv ps) "_Select" TSelect.
  Proof.
    known. pose proof t_columns. pose proof f_columns. pose proof t_from. pose proof (f_plugin n pv ps FV FS).
    unfold pselect_step. struct_is "_Select".
    apply (i_ext _ _ _ _ (
      x <~ pstar (ptok T_EXPLAIN) ;;
      ptok T_SELECT ~>>
      ac <~ pcolumns ;;
      ptok T_FROM ~>>
      from <~ pplugin n pv ps ;;
      w <~ popt (ptok T_WHERE ~>> pcomma pv n) ;;
      g <~ popt (ptok T_GROUPBY ~>> pcomma pv n) ;;
      o <~ popt (ptok T_ORDERBY ~>> k <~ ptok T_Ident ;; d <~ popt (ptok T_DESC) ;; pret (k, given d)) ;;
      l <~ popt plimit ;;
      pret (GSelect (nonempty x) (fst ac) (snd ac) from w g o l))).
    { intro ts. unfold pcolumns, pbind. destruct (pstar (ptok T_EXPLAIN) ts) as [x r| |]; [|reflexivity|reflexivity].
      destruct (ptok T_SELECT r) as [y r1| |]; [|reflexivity|reflexivity].
      destruct (popt _ r1) as [z r2| |]; [|reflexivity|reflexivity].
      now destruct (plist (pcol n pv ps) r2) as [u r3| |]. }
    assert (X1 : forall f, follows plain pcolumns (NKeep f (NStruct "_SelectExpression"))) by (intro; apply t_columns).
    assert (X2 : forall f, follows plain (pplugin n pv ps) (NKeep f (NStruct "_From"))) by (intro; apply t_from).
    Local Ltac fsel :=
      match goal with
      | H : forall f, follows _ ?p (NKeep f (NStruct ?s)) |- follows _ (pbind ?p _) (NAll (NKeep ?g (NStruct ?s) :: _)) =>
          apply f_bind; [exact plain_ends|apply H|intro]
      | _ => fw plain_ends
      end.
    Local Ltac sel := eapply i_bind; [exact plain_ends|first [piece|idtac]|intro; repeat fsel|intros ? ? ?].
    assert (Y1 : forall t f, fills_g (ptok t ~>> pcomma pv n) (NAll [NToken t; NKeep f (NStruct "_CommaExpression")])
                  (fun x l => l = [(f, TComma x)])).
    { intros t f. eapply i_bind; [exact plain_ends|piece|intro; repeat fw plain_ends|]. intros a l ->. apply i_last.
      eapply i_weaken; [|apply H0]. intros b l ->. reflexivity. }
    assert (Y2 : fills_g (ptok T_ORDERBY ~>> k <~ ptok T_Ident ;; d <~ popt (ptok T_DESC) ;; pret (k, given d))
                   (NAll [NToken T_ORDERBY; NKeep "OrderBy" (NToken T_Ident); NMaybe (NKeep "OrderByDesc" (NToken T_DESC))])
                   (fun x l => exists o, given o = snd x /\ l = ("OrderBy", TText (fst x)) ::
                      match o with Some d => [("OrderByDesc", TText d)] | None => [] end)).
    { repeat step. exists a1. cbn beta in *. subst. split; [reflexivity|]. destruct a1; subst; reflexivity. }
    apply i_skips. sel. sel. sel. sel. sel.
    eapply i_bind; [exact plain_ends|apply i_opt, Y1|intro; repeat fsel|intros w lw Ew].
    eapply i_bind; [exact plain_ends|apply i_opt, Y1|intro; repeat fsel|intros g lg Eg].
    eapply i_bind; [exact plain_ends|apply i_opt, Y2|intro; repeat fsel|intros o lo Eo].
    eapply i_bind; [exact plain_ends|apply i_opt, i_limit; exact plain_ends|intro; repeat fsel|intros z lz Ez].
    apply i_ret. cbn beta in *. subst.
    assert (Z : every p_text "Explain" (flat_map (fun s => [("Explain", TText s)]) a) = a).
    { rewrite every_cells. cbn. apply flat_map_self. }
    assert (Ew' : lw = opt_log "Where" TComma w) by now destruct w.
    assert (Eg' : lg = opt_log "GroupBy" TComma g) by now destruct g.
    assert (Eo' : exists od, lo = opt_log "OrderBy" TText (option_map fst o) ++ opt_log "OrderByDesc" TText od /\
                    match o with Some x => given od = snd x | None => od = None end).
    { destruct o as [x|].
      - destruct Eo as (od & G & ->). exists od. split; [destruct od; reflexivity|exact G].
      - exists None. now subst. }
    assert (Ez' : exists os, lz = opt_log "Limit" TText os /\ z = match os with Some s => parse_int s | None => None end).
    { destruct z as [z|].
      - destruct Ez as (s & -> & P). exists (Some s). now split.
      - exists None. now subst. }
    clear Ew Eg Eo Ez. destruct Eo' as (od & -> & Eo), Ez' as (os & -> & Ez). subst lw lg.
    destruct a1 as (star, cols). cbn [fst snd].
    unfold make. cbn [String.eqb Ascii.eqb Bool.eqb].
    rewrite !every_app, !every_opt, !every_cells, !every_cons, !every_nil.
    cbn [String.eqb Ascii.eqb Bool.eqb].
    cbn [app p_columns p_plugin p_comma p_text]. rewrite !app_nil_r, flat_map_self. cbn [app final].
    f_equal. f_equal.
    - now destruct w.
    - now destruct g.
    - destruct o as [(k & d)|]; cbn [option_map fst snd app] in *; [|reflexivity]. rewrite joined_one. do 2 f_equal.
      rewrite <- Eo. now destruct od.
    - rewrite Ez. destruct os; cbn [app]; rewrite ?joined_one; reflexivity.
  Qed.

  Lemma t_param : tree_ok (pparam n pv ps) "LetParameter" TParam.
  Proof.
    pose proof t_arg. pose proof (f_arg n pv ps FV FS). unfold pparam. struct_is "LetParameter". apply i_alt.
    apply ia_cons; [|apply ia_one]; apply i_map.
    - eapply i_weaken; [|apply H]. intros. fin.
    - eapply i_weaken; [|piece]. intros. fin.
  Qed.

  Definition body_log (b : gselect + gand) (l : list (string * tree)) : Prop :=
    match b with
    | inl s => l = [("StoredQuery", TSelect s)]
    | inr e => l = [("Expression", TAnd e)]
    end.
  Lemma t_vql_step : tree_ok (pvql_step n pv ps) "VQL" TVql.
  Proof.
    known. pose proof t_param. pose proof (f_param n pv ps FV FS). unfold pvql_step. struct_is "VQL". apply i_alt.
    apply ia_cons; [|apply ia_one].
    - step. step.
      assert (X : fills_g (plit "(" ~>> l <~ plist (pparam n pv ps) ;; plit ")" ~>> pret l)
                   (NAll [NKeep "Called" (NText "("); NMaybe (NAll [NKeep "LetParameters" (NStruct "LetParameter");
                      NMany (NAll [NText ","; NKeep "LetParameters" (NStruct "LetParameter")])]); NText ")"])
                   (fun la l => l = ("Called", TText "(") :: flat_map (fun x => [("LetParameters", TParam x)]) la)).
      { eapply i_bind; [exact plain_ends|apply i_lit_text|intro; repeat fw plain_ends|]. intros x l2 ->.
        repeat step. cbn beta in *. subst. now rewrite !app_nil_r. }
      eapply i_bind; [exact plain_ends|apply i_opt, X|intro; repeat fw plain_ends|]. intros o lo Eo.
      step.
      eapply (i_bind _ _ _ plain_ends _ _ _ _ body_log); [|intro; repeat fw plain_ends|].
      { apply i_alt. apply ia_cons; [|apply ia_one]; apply i_map.
        - eapply i_weaken; [|apply PS]. intros s ls ->. reflexivity.
        - eapply i_weaken; [|apply H]. intros s ls ->. reflexivity. }
      intros b lb Eb. apply i_ret. cbn beta in *. subst.
      assert (Eo' : lo = opt_log "Called" TText (option_map (fun _ => "(") o) ++
                flat_map (fun x => [("LetParameters", TParam x)]) (match o with Some l => l | None => [] end))
        by now destruct o.
      rewrite Eo'. clear Eo Eo'. unfold body_log in Eb.
      unfold make. cbn [String.eqb Ascii.eqb Bool.eqb].
      destruct b; subst lb; rewrite !every_app, !every_opt, !every_cells, !every_cons, !every_nil;
        cbn [String.eqb Ascii.eqb Bool.eqb p_select p_and p_text p_param app];
        rewrite ?app_nil_r, ?flat_map_self; cbn [app final]; rewrite !joined_one;
        do 2 f_equal; now destruct o.
    - apply i_map. eapply i_weaken; [|apply PS]. intros. fin.
  Qed.
End Knot.

(** ** The trees of values, selects, statements and lists of statements *)

Lemma t_knot n : tree_ok (pvalue n) "_Value" TValue /\ tree_ok (pselect n) "_Select" TSelect.
Proof.
  unfold pvalue, pselect. induction n as [|n (V & S)].
  { split; intro f; (split; [intros ts _; exact I|discriminate]). }
  pose proof (f_knot n) as (FV & FS). unfold pvalue, pselect in FV, FS.
  cbn [pknot]. destruct (pknot n) as (pv, ps). cbn [fst snd] in *.
  split; [now apply t_value_step|now apply t_select_step].
Qed.
Lemma t_vql n : tree_ok (pvql n) "VQL" TVql.
Proof. unfold pvql. apply t_vql_step; apply t_knot || apply f_knot. Qed.
Lemma t_multi n k : tree_ok (pmulti k n) "MultiVQL" TMulti.
Proof.
  pose proof (t_vql n). pose proof (f_vql n). induction k as [|k IH].
  { intro f. split; [intros ts _; exact I|discriminate]. }
  pose proof (f_multi n k). cbn [pmulti]. struct_is "MultiVQL". apply i_skips. step. apply i_skips. step. step.
  fin.
Qed.
