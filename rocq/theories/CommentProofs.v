(** Without comments, MultiParseWithComments is MultiParse and the visitor of
    CommentFormat.v is that of Reformat.v. *)

From Coq Require Import ZArith List String Ascii Bool Lia.
From Verif Require Import Base F64 Text Lexer Numeral Grammar Parser Format Reformat Comments CommentFormat.
Import ListNotations.
Open Scope nat_scope.
Open Scope string_scope.
Open Scope list_scope.

(** ** A tree without comments *)

Fixpoint kvalue_of (x : gvalue) : kvalue :=
  KValue []
    match x with
    | GSym s called ps => KSym [] s called (map karg_of ps)
    | GSub c => KSub (kcomma_of c)
    | GString s => KString s
    | GNumber s => KNumber s
    | GBool s => KBool s
    | GNull => KNull
    end
with kmterm_of' (x : gmterm) : kmterm :=
  match x with
  | GIndex i => KIndex (kvalue_of i)
  | GRange i j => KRange (option_map kvalue_of i) (option_map kvalue_of j)
  | GNone => KNone
  | GTerm s => KTerm s
  end
with kmember_of (x : gmember) : kmember :=
  match x with GMember l r => KMember [] (kvalue_of l) (map kmterm_of' r) end
with kmul_of (x : gmul) : kmul :=
  match x with GMul l r => KMul [] (kmember_of l) (map (fun t => (fst t, kvalue_of (snd t))) r) end
with kadd_of (x : gadd) : kadd :=
  match x with GAdd l r => KAdd [] (kmul_of l) (map (fun t => (fst t, kmul_of (snd t))) r) end
with kcond_of (x : gcond) : kcond :=
  match x with
  | GNot c => KNot [] (kcond_of c)
  | GCmp l r => KCmp [] (kadd_of l) (option_map (fun t => (fst t, kadd_of (snd t))) r)
  end
with kor_of (x : gor) : kor :=
  match x with GOr l r => KOr [] (kcond_of l) (map (fun t => (fst t, kcond_of (snd t))) r) end
with kand_of (x : gand) : kand :=
  match x with GAnd l r => KAnd [] (kor_of l) (map (fun t => (fst t, kor_of (snd t))) r) end
with kcomma_of (x : gcomma) : kcomma :=
  match x with
  | GComma l r => KComma [] (kand_of l) (map (fun t => KItem [] [] (option_map kand_of t)) r)
  end
with karg_of (x : garg) : karg :=
  match x with
  | GArgExpr n e => KArgExpr [] n (kand_of e)
  | GArgSelect n s => KArgSelect [] n (kselect_of s)
  | GArgArray n a => KArgArray [] n (option_map kcomma_of a)
  end
with kselect_of (x : gselect) : kselect :=
  match x with
  | GSelect e a cols from w g o l =>
      KSelect [] e a (map kcol_of cols) (kplugin_of from) (option_map kcomma_of w) (option_map kcomma_of g) o l
  end
with kcol_of (x : gcol) : kcol :=
  match x with
  | GStar a => KStar [] a
  | GColSelect s a => KColSelect [] (kselect_of s) a
  | GColExpr e a => KColExpr [] (kand_of e) a
  end
with kplugin_of (x : gplugin) : kplugin :=
  match x with GPlugin n call args => KPlugin n call (map karg_of args) end.

Definition kparam_of (p : gparam) : kparam :=
  match p with GDefault a => KDefault (karg_of a) | GName s => KName s end.
Definition kvql_of (x : gvql) : kvql :=
  match x with
  | GLet n c ps p body =>
      KLet n c (map kparam_of ps) p (match body with inl s => inl (kselect_of s) | inr e => inr (kand_of e) end)
  | GQuery s => KQuery (kselect_of s)
  end.
Definition uncommented (x : gvql) : kstmt := ([], kvql_of x).

(** ** The parsers *)

Definition free (ts : list token) : Prop := Forall (fun t => is_comment t = false) ts.

Definition sim {A B} (f : A -> B) (p : parser A) (q : parser B) : Prop :=
  forall ts, free ts ->
  match p ts with
  | POk a r => q ts = POk (f a) r /\ free r
  | PFail r => q ts = PFail r
  | PFuel => q ts = PFuel
  end.

Lemma sim_ret {A B} (f : A -> B) a b : f a = b -> sim f (pret a) (pret b).
Proof. intros <- ts F. cbn. auto. Qed.
Lemma sim_bind {A B A' B'} (f : A -> B) (g : A' -> B') p q k k' :
  sim f p q -> (forall a, sim g (k a) (k' (f a))) -> sim g (pbind p k) (pbind q k').
Proof.
  intros H K ts F. specialize (H ts F). unfold pbind. destruct (p ts) as [a r|r|].
  - destruct H as (-> & R). apply K, R.
  - now rewrite H.
  - now rewrite H.
Qed.
Lemma sim_tok t : sim (fun s => s) (ptok t) (ptok t).
Proof.
  intros ts F. unfold ptok. destruct ts as [|x r]; [reflexivity|].
  destruct (ttype_beq (tt x) t); [|reflexivity]. inversion F; auto.
Qed.
Lemma sim_lit v : sim (fun s => s) (plit v) (plit v).
Proof.
  intros ts F. unfold plit. destruct ts as [|x r]; [reflexivity|].
  destruct (String.eqb (tv x) v); [|reflexivity]. inversion F; auto.
Qed.
Lemma sim_alt {A B} (f : A -> B) p p' q q' : sim f p p' -> sim f q q' -> sim f (alt p q) (alt p' q').
Proof.
  intros P Q ts F. specialize (P ts F). specialize (Q ts F). unfold alt.
  destruct (p ts) as [a r|r|].
  - destruct P as (-> & R). auto.
  - rewrite P. destruct (stop ts r); [reflexivity|].
    destruct (q ts) as [a r'|r'|].
    + destruct Q as (-> & R). auto.
    + rewrite Q. now destruct (stop ts r').
    + now rewrite Q.
  - now rewrite P.
Qed.
Lemma sim_opt {A B} (f : A -> B) p q : sim f p q -> sim (option_map f) (popt p) (popt q).
Proof.
  intros P ts F. specialize (P ts F). unfold popt. destruct (p ts) as [a r|r|].
  - destruct P as (-> & R). auto.
  - rewrite P. destruct (stop ts r); auto.
  - now rewrite P.
Qed.
Lemma sim_star_n {A B} (f : A -> B) p q : sim f p q -> forall n, sim (map f) (pstar_n n p) (pstar_n n q).
Proof.
  intros P. induction n as [|n IH]; intros ts F; cbn [pstar_n]; [reflexivity|].
  specialize (P ts F). destruct (p ts) as [a r|r|].
  - destruct P as (-> & R). specialize (IH r R). destruct (pstar_n n p r) as [l r'|r'|].
    + destruct IH as (-> & R'). auto.
    + now rewrite IH.
    + now rewrite IH.
  - rewrite P. destruct (stop ts r); auto.
  - now rewrite P.
Qed.
Lemma sim_star {A B} (f : A -> B) p q : sim f p q -> sim (map f) (pstar p) (pstar q).
Proof. intros P ts F. unfold pstar. now apply sim_star_n. Qed.
Lemma sim_list {A B} (f : A -> B) p q : sim f p q -> sim (map f) (plist p) (plist q).
Proof.
  intro P. unfold plist. eapply sim_bind; [apply sim_opt|].
  - eapply sim_bind; [exact P|]. intro a. eapply sim_bind; [apply sim_star|].
    + eapply sim_bind; [apply sim_lit|]. intros _. exact P.
    + intro l. now apply sim_ret with (f := map f).
  - intros [l|]; now apply sim_ret.
Qed.
Lemma sim_last {A B} (f : A -> B) l : last_opt (map f l) = option_map f (last_opt l).
Proof. unfold last_opt. rewrite <- map_rev. now destruct (rev l). Qed.
Lemma nonempty_map {A B} (f : A -> B) l : nonempty (map f l) = nonempty l.
Proof. now destruct l. Qed.
Lemma given_map {A B} (f : A -> B) o : given (option_map f o) = given o.
Proof. now destruct o. Qed.

Lemma stop_same ts : stop ts ts = false.
Proof. unfold stop. now rewrite Nat.sub_diag. Qed.
Lemma comment_misses ts : free ts -> pcomment ts = PFail ts.
Proof.
  intro F. unfold pcomment, alt, pbind, ptok. destruct ts as [|x r].
  - reflexivity.
  - inversion F as [|? ? N _]; subst. unfold is_comment in N.
    destruct (tt x) eqn:E; try discriminate N; cbn [ttype_beq ttype_eq_dec]; rewrite ?stop_same; reflexivity.
Qed.
Lemma sim_com1 {A B} (g : A -> B) p k : sim g p (k []) -> sim g p (pbind pcom1 k).
Proof.
  intros H ts F. specialize (H ts F). unfold pcom1, pbind, popt. rewrite comment_misses by exact F.
  rewrite stop_same. exact H.
Qed.
Lemma sim_coms {A B} (g : A -> B) p k : sim g p (k []) -> sim g p (pbind pcoms k).
Proof.
  intros H ts F. specialize (H ts F). unfold pcoms, pstar, pbind. cbn [pstar_n].
  rewrite comment_misses by exact F. rewrite stop_same. exact H.
Qed.
Lemma sim_fuel {A B} (f : A -> B) : sim f (fun _ => PFuel) (fun _ => PFuel).
Proof. intros ts _. reflexivity. Qed.
Lemma sim_fail {A B} (f : A -> B) : sim f (fun ts => PFail ts) (fun ts => PFail ts).
Proof. intros ts _. reflexivity. Qed.

Lemma id_map {A} (l : list A) : map (fun x => x) l = l.
Proof. induction l; cbn; congruence. Qed.
Lemma sim_id_map {A} p q : sim (map (fun x : A => x)) p q -> sim (fun x => x) p q.
Proof. intros H ts F. specialize (H ts F). destruct (p ts); auto. now rewrite id_map in H. Qed.

(** Shared parsers *)
Definition same {A} (p : parser A) : Prop := sim (fun x => x) p p.
Lemma same_bind {A B} (p : parser A) (k : A -> parser B) : same p -> (forall a, same (k a)) -> same (pbind p k).
Proof. intros P K. eapply sim_bind; eauto. Qed.
Lemma same_ret {A} (a : A) : same (pret a). Proof. now apply sim_ret. Qed.
Lemma same_star {A} (p : parser A) : same p -> same (pstar p).
Proof. intro P. apply sim_id_map. now apply sim_star. Qed.
Lemma same_opt {A} (p : parser A) : same p -> same (popt p).
Proof.
  intros P ts F. pose proof (sim_opt _ _ _ P ts F) as H. destruct (popt p ts) as [[a|] r|r|]; exact H.
Qed.
Lemma same_path p : same p -> same (ppath p).
Proof.
  intro P. unfold ppath. apply same_bind; [exact P|]. intro a. apply same_bind; [|intro; apply same_ret].
  apply same_star, same_bind; [apply sim_lit|]. intros _. apply sim_tok.
Qed.
Lemma same_lits l : same (plits l).
Proof.
  induction l as [|a l IH]; [apply sim_fail|]. cbn [plits]. destruct l as [|b l]; [apply sim_lit|].
  apply sim_alt; [apply sim_lit|exact IH].
Qed.
Lemma same_cmpop : same pcmpop.
Proof. unfold pcmpop. repeat apply sim_alt; try apply same_lits; try apply sim_tok; apply sim_lit. Qed.
Lemma same_limit : same plimit.
Proof.
  intros ts F. unfold plimit.
  assert (H : same (ptok T_LIMIT ~>> ptok T_Number)) by (apply same_bind; [apply sim_tok|intros _; apply sim_tok]).
  specialize (H ts F). destruct ((ptok T_LIMIT ~>> ptok T_Number) ts) as [s r|r|]; [|reflexivity|reflexivity].
  destruct H as (_ & R). now destruct (parse_int s).
Qed.
Lemma same_alias : same palias.
Proof.
  unfold palias. apply same_bind; [|intro; apply same_ret]. apply same_opt, same_bind; [apply sim_tok|intros _; apply sim_tok].
Qed.

Section Expressions.
  Variable pv : parser gvalue.
  Variable kv : parser kvalue.
  Hypothesis V : sim kvalue_of pv kv.

  Lemma sim_mterm : sim kmterm_of' (pmterm pv) (pkmterm kv).
  Proof.
    unfold pmterm, pkmterm. apply sim_alt.
    - eapply sim_bind; [apply sim_lit|]. intros _.
      eapply sim_bind; [apply sim_star, V|]. intro i.
      eapply sim_bind; [apply same_star, sim_lit|]. intro c.
      eapply sim_bind; [apply sim_star, V|]. intro j.
      eapply sim_bind; [apply sim_lit|]. intros _. apply sim_ret.
      unfold mterm_of, kmterm_of. rewrite !sim_last. destruct (nonempty c); [reflexivity|].
      now destruct (last_opt i).
    - eapply sim_bind; [apply sim_lit|]. intros _. eapply sim_bind; [apply sim_tok|]. intro n. now apply sim_ret.
  Qed.
  Lemma sim_member : sim kmember_of (pmember pv) (pkmember kv).
  Proof.
    unfold pmember, pkmember. apply sim_com1. eapply sim_bind; [exact V|]. intro l.
    eapply sim_bind; [apply sim_star, sim_mterm|]. intro r. now apply sim_ret.
  Qed.
  Lemma sim_term {A B C} (f : B -> C) (po : parser A) pb kb : same po -> sim f pb kb ->
    sim (fun t => (fst t, f (snd t))) (o <~ po ;; b <~ pb ;; pret (o, b)) (o <~ po ;; b <~ kb ;; pret (o, b)).
  Proof.
    intros P Q. eapply sim_bind; [exact P|]. intro o. eapply sim_bind; [exact Q|]. intro b. now apply sim_ret.
  Qed.
  Lemma sim_mul : sim kmul_of (pmul pv) (pkmul kv).
  Proof.
    unfold pmul, pkmul. apply sim_com1. eapply sim_bind; [apply sim_member|]. intro l.
    eapply sim_bind; [apply sim_star, sim_term; [apply sim_alt; apply sim_lit|exact V]|]. intro r. now apply sim_ret.
  Qed.
  Lemma sim_add : sim kadd_of (padd pv) (pkadd kv).
  Proof.
    unfold padd, pkadd. apply sim_com1. eapply sim_bind; [apply sim_mul|]. intro l.
    eapply sim_bind; [apply sim_star, sim_term; [apply sim_alt; apply sim_lit|apply sim_mul]|]. intro r. now apply sim_ret.
  Qed.
  Lemma sim_cond n : sim kcond_of (pcond pv n) (pkcond kv n).
  Proof.
    induction n as [|n IH]; [apply sim_fuel|]. cbn [pcond pkcond]. apply sim_com1.
    eapply sim_bind with (f := fun x => match x with inl c => inl (kcond_of c) | inr a => inr (kadd_of a) end).
    - apply sim_alt.
      + eapply sim_bind; [apply sim_tok|]. intros _. eapply sim_bind; [exact IH|]. intro c. now apply sim_ret.
      + eapply sim_bind; [apply sim_add|]. intro a. now apply sim_ret.
    - intro x. eapply sim_bind; [apply sim_star, sim_term; [apply same_cmpop|apply sim_add]|]. intro r.
      destruct x as [c|a]; apply sim_ret; [reflexivity|]. cbn [kcond_of]. now rewrite sim_last.
  Qed.
  Lemma sim_or n : sim kor_of (por pv n) (pkor kv n).
  Proof.
    unfold por, pkor. apply sim_com1. eapply sim_bind; [apply sim_cond|]. intro l.
    eapply sim_bind; [apply sim_star, sim_term; [apply sim_alt; apply sim_tok|apply sim_cond]|]. intro r. now apply sim_ret.
  Qed.
  Lemma sim_and n : sim kand_of (pand pv n) (pkand kv n).
  Proof.
    unfold pand, pkand. apply sim_com1. eapply sim_bind; [apply sim_or|]. intro l.
    eapply sim_bind; [apply sim_star, sim_term; [apply sim_alt; apply sim_tok|apply sim_or]|]. intro r. now apply sim_ret.
  Qed.
  Lemma sim_comma n : sim kcomma_of (pcomma pv n) (pkcomma kv n).
  Proof.
    unfold pcomma, pkcomma. apply sim_com1. eapply sim_bind; [apply sim_and|]. intro l.
    eapply sim_bind with (f := map (fun t => KItem [] [] (option_map kand_of t))).
    - apply sim_star. unfold pkterm. apply sim_com1. eapply sim_bind; [apply sim_lit|]. intros _.
      apply sim_com1. eapply sim_bind; [apply sim_star, sim_and|]. intro t. apply sim_ret. now rewrite sim_last.
    - intro r. now apply sim_ret.
  Qed.
End Expressions.

Section Knot.
  Variable n : nat.
  Variable pv : parser gvalue.
  Variable kv : parser kvalue.
  Variable ps : parser gselect.
  Variable ks : parser kselect.
  Hypothesis V : sim kvalue_of pv kv.
  Hypothesis Q : sim kselect_of ps ks.

  Lemma sim_arg : sim karg_of (parg n pv ps) (pkarg n kv ks).
  Proof.
    unfold parg, pkarg. apply sim_com1. eapply sim_bind; [apply sim_tok|]. intro a.
    eapply sim_bind; [apply sim_lit|]. intros _. apply sim_alt; [|apply sim_alt].
    - eapply sim_bind; [apply sim_lit|]. intros _. eapply sim_bind; [exact Q|]. intro s.
      eapply sim_bind; [apply sim_lit|]. intros _. now apply sim_ret.
    - eapply sim_bind; [apply sim_lit|]. intros _. eapply sim_bind; [apply sim_opt, sim_comma, V|]. intro c.
      eapply sim_bind; [apply sim_lit|]. intros _. now apply sim_ret.
    - eapply sim_bind; [apply sim_and, V|]. intro e. now apply sim_ret.
  Qed.
  Lemma sim_args : sim (map karg_of) (plit "(" ~>> a <~ plist (parg n pv ps) ;; plit ")" ~>> pret a)
                                     (plit "(" ~>> a <~ plist (pkarg n kv ks) ;; plit ")" ~>> pret a).
  Proof.
    eapply sim_bind; [apply sim_lit|]. intros _. eapply sim_bind; [apply sim_list, sim_arg|]. intro a.
    eapply sim_bind; [apply sim_lit|]. intros _. now apply sim_ret.
  Qed.
  Definition katom_of (x : gvalue) : katom := match kvalue_of x with KValue _ a => a end.
  Lemma kvalue_atom x : kvalue_of x = KValue [] (katom_of x).
  Proof. now destruct x. Qed.
  Lemma sim_symref : sim katom_of (psymref n pv ps) (pksymref n kv ks).
  Proof.
    unfold psymref, pksymref. apply sim_com1.
    eapply sim_bind; [apply same_path, sim_alt; apply sim_tok|]. intro p.
    eapply sim_bind; [apply sim_star, sim_args|]. intro l. apply sim_ret.
    unfold katom_of. cbn [kvalue_of]. now rewrite nonempty_map, concat_map.
  Qed.
  Lemma pbind_eq {A B} (p : parser A) (k : A -> parser B) ts :
    pbind p k ts = match p ts with POk a r => k a r | PFail r => PFail r | PFuel => PFuel end.
  Proof. reflexivity. Qed.
  Lemma sim_value : sim kvalue_of (pvalue_step n pv ps) (pkvalue_step n kv ks).
  Proof.
    assert (H : sim katom_of (pvalue_step n pv ps)
      (alt (pksymref n kv ks)
      (alt (plit "(" ~>> e <~ pkcomma kv n ;; plit ")" ~>> pret (KSub e))
      (alt (s <~ alt (ptok T_MultilineString) (ptok T_String) ;; pret (KString s))
      (alt (s <~ ptok T_Number ;; pret (KNumber s))
      (alt (s <~ ptok T_BOOL ;; pret (KBool s))
           (ptok T_NULL ~>> pret KNull))))))).
    { unfold pvalue_step. apply sim_alt; [apply sim_symref|]. repeat apply sim_alt.
      - eapply sim_bind; [apply sim_lit|]. intros _. eapply sim_bind; [apply sim_comma, V|]. intro c.
        eapply sim_bind; [apply sim_lit|]. intros _. now apply sim_ret.
      - eapply sim_bind; [apply sim_alt; apply sim_tok|]. intro s. now apply sim_ret.
      - eapply sim_bind; [apply sim_tok|]. intro s. now apply sim_ret.
      - eapply sim_bind; [apply sim_tok|]. intro s. now apply sim_ret.
      - eapply sim_bind; [apply sim_tok|]. intro s. now apply sim_ret. }
    unfold pkvalue_step. apply sim_com1. intros ts F. specialize (H ts F).
    rewrite pbind_eq. destruct (pvalue_step n pv ps ts) as [a r|r|].
    - destruct H as (-> & R). split; [|exact R]. unfold pret. now rewrite kvalue_atom.
    - now rewrite H.
    - now rewrite H.
  Qed.
  Lemma sim_col : sim kcol_of (pcol n pv ps) (pkcol n kv ks).
  Proof.
    unfold pcol, pkcol. apply sim_coms.
    intros ts F.
    assert (H : sim (fun f a => kcol_of (f a))
      (alt (plit "*" ~>> pret GStar)
           (alt (plit "{" ~>> s <~ ps ;; plit "}" ~>> pret (GColSelect s))
                (e <~ pand pv n ;; pret (GColExpr e))))
      (alt (plit "*" ~>> pret (KStar []))
           (alt (plit "{" ~>> s <~ ks ;; plit "}" ~>> pret (KColSelect [] s))
                (e <~ pkand kv n ;; pret (KColExpr [] e))))).
    { apply sim_alt; [|apply sim_alt].
      - eapply sim_bind; [apply sim_lit|]. intros _. now apply sim_ret.
      - eapply sim_bind; [apply sim_lit|]. intros _. eapply sim_bind; [exact Q|]. intro s.
        eapply sim_bind; [apply sim_lit|]. intros _. now apply sim_ret.
      - eapply sim_bind; [apply sim_and, V|]. intro e. now apply sim_ret. }
    revert ts F. eapply sim_bind; [exact H|]. intro f. eapply sim_bind; [apply same_alias|]. intro a. now apply sim_ret.
  Qed.
  Lemma sim_plugin : sim kplugin_of (pplugin n pv ps) (pkplugin n kv ks).
  Proof.
    unfold pplugin, pkplugin. eapply sim_bind; [apply same_path, sim_tok|]. intro p.
    eapply sim_bind; [apply sim_opt, sim_args|]. intro o. apply sim_ret. rewrite given_map. now destruct o.
  Qed.
  Lemma sim_clause t : sim (option_map kcomma_of) (popt (ptok t ~>> pcomma pv n)) (popt (ptok t ~>> pkcomma kv n)).
  Proof. apply sim_opt. eapply sim_bind; [apply sim_tok|]. intros _. apply sim_comma, V. Qed.
  Lemma sim_select : sim kselect_of (pselect_step n pv ps) (pkselect_step n kv ks).
  Proof.
    unfold pselect_step, pkselect_step. apply sim_coms.
    eapply sim_bind; [apply same_star, sim_tok|]. intro x.
    eapply sim_bind; [apply sim_tok|]. intros _.
    eapply sim_bind; [apply same_opt, same_bind; [apply sim_lit|intros _; apply same_opt, sim_lit]|]. intro all.
    eapply sim_bind; [apply sim_list, sim_col|]. intro cols.
    eapply sim_bind; [apply sim_tok|]. intros _.
    eapply sim_bind; [apply sim_plugin|]. intro from.
    eapply sim_bind; [apply sim_clause|]. intro w.
    eapply sim_bind; [apply sim_clause|]. intro g.
    eapply sim_bind; [apply same_opt, same_bind; [apply sim_tok|]; intros _; apply same_bind; [apply sim_tok|];
                      intro k; apply same_bind; [apply same_opt, sim_tok|intro; apply same_ret]|]. intro o.
    eapply sim_bind; [apply same_opt, same_limit|]. intro l. now apply sim_ret.
  Qed.
  Lemma sim_param : sim kparam_of (pparam n pv ps) (pkparam n kv ks).
  Proof.
    unfold pparam, pkparam. apply sim_alt.
    - eapply sim_bind; [apply sim_arg|]. intro a. now apply sim_ret.
    - eapply sim_bind; [apply sim_tok|]. intro s. now apply sim_ret.
  Qed.
  Lemma sim_vql : sim kvql_of (pvql_step n pv ps) (pkvql_step n kv ks).
  Proof.
    unfold pvql_step, pkvql_step. apply sim_alt.
    - eapply sim_bind; [apply sim_tok|]. intros _. eapply sim_bind; [apply sim_tok|]. intro name.
      eapply sim_bind with (f := option_map (map kparam_of)).
      { apply sim_opt. eapply sim_bind; [apply sim_lit|]. intros _. eapply sim_bind; [apply sim_list, sim_param|].
        intro l. eapply sim_bind; [apply sim_lit|]. intros _. now apply sim_ret. }
      intro l. eapply sim_bind; [apply sim_alt; apply sim_lit|]. intro op.
      eapply sim_bind with (f := fun b => match b with inl s => inl (kselect_of s) | inr e => inr (kand_of e) end).
      { apply sim_alt.
        - eapply sim_bind; [exact Q|]. intro s. now apply sim_ret.
        - eapply sim_bind; [apply sim_and, V|]. intro e. now apply sim_ret. }
      intro body. apply sim_ret. cbn [kvql_of]. rewrite given_map. now destruct l.
    - eapply sim_bind; [exact Q|]. intro s. now apply sim_ret.
  Qed.
End Knot.

Lemma sim_knot n : sim kvalue_of (pvalue n) (pkvalue n) /\ sim kselect_of (pselect n) (pkselect n).
Proof.
  unfold pvalue, pkvalue, pselect, pkselect. induction n as [|n (V & Q)]; [split; apply sim_fuel|].
  cbn [pknot pkknot]. destruct (pknot n) as (pv, ps), (pkknot n) as (kv, ks). cbn [fst snd] in *.
  split; [now apply sim_value|now apply sim_select].
Qed.
Lemma sim_multi k n : sim (map uncommented) (pmulti k n) (pkmulti k n).
Proof.
  induction k as [|k IH]; [apply sim_fuel|]. cbn [pmulti pkmulti]. apply sim_coms.
  eapply sim_bind with (f := kvql_of); [apply sim_vql; apply sim_knot|]. intro v. apply sim_coms.
  eapply sim_bind; [apply sim_star, IH|]. intro l. apply sim_ret. rewrite sim_last. cbn [map].
  f_equal. now destruct (last_opt l) as [[|x r]|].
Qed.

(** The text has no comments. *)
Definition no_comments (text : string) : Prop :=
  match lex text with Some l => forallb (fun t => negb (is_comment t)) l = true | None => True end.

Lemma free_upper l : forallb (fun t => negb (is_comment t)) l = true -> free (map upper_token l).
Proof.
  intro H. apply Forall_map, Forall_forall. intros t I.
  apply (proj1 (forallb_forall _ _) H) in I. apply negb_true_iff in I.
  unfold upper_token, is_comment in *. destruct (tt t) eqn:E; cbn; rewrite ?E; auto.
Qed.
Lemma filter_all {A} (f : A -> bool) l : forallb f l = true -> filter f l = l.
Proof.
  induction l as [|a l IH]; [reflexivity|]. cbn. intro H. apply andb_true_iff in H as (-> & H). now rewrite IH.
Qed.
Theorem parse_without_comments text : no_comments text ->
  parse_comments text = option_map (map uncommented) (parse_multi text).
Proof.
  unfold no_comments, parse_comments, parse_multi, all_tokens, tokens.
  destruct (lex text) as [l|]; [|reflexivity]. intro H. rewrite filter_all by exact H.
  pose proof (sim_multi (fuel_for (map upper_token l)) (fuel_for (map upper_token l)) _ (free_upper _ H)) as S.
  unfold whole. destruct (pmulti _ _ _) as [a r|r|].
  - destruct S as (-> & _). now destruct r.
  - now rewrite S.
  - now rewrite S.
Qed.

(** ** The visitor *)

(** With BreakLines [b], the two visits write the same. *)
Definition writes (b : bool) (f : rvisit) (g : kvisit) : Prop :=
  forall w, g {| out := w; lines := b |} = {| out := f w; lines := b |}.
Definition ends (b : bool) (f : rvisit) (g : kvisit) : Prop :=
  forall w, out (g {| out := w; lines := b |}) = f w.

Lemma w_ends b f g : writes b f g -> ends b f g.
Proof. intros H w. now rewrite H. Qed.
Lemma w_lift b f : writes b f (lift f).
Proof. intro w. reflexivity. Qed.
Lemma w_push b s : writes b (rpush s) (kpush s).
Proof. apply w_lift. Qed.
Lemma w_skip b : writes b rskip kskip.
Proof. intro w. reflexivity. Qed.
Lemma w_then b f g f' g' : writes b f g -> writes b f' g' -> writes b (f >>> f') (g >=> g').
Proof. intros H H' w. unfold kthen, rthen. now rewrite H, H'. Qed.
Lemma w_break b : writes b (rline_break b) kline_break.
Proof. intro w. reflexivity. Qed.
Lemma w_new_line p : writes true (new_line p) (knew_line p).
Proof. intro w. reflexivity. Qed.
Lemma w_maybe {A B} b (f : A -> rvisit) (g : B -> kvisit) (k : A -> B) (H : forall a, writes b (f a) (g (k a))) o :
  writes b (rmaybe f o) (kmaybe g (option_map k o)).
Proof. destruct o; [apply H|apply w_skip]. Defined.
Lemma w_maybe_id {A} b (f : A -> rvisit) (g : A -> kvisit) (H : forall a, writes b (f a) (g a)) o :
  writes b (rmaybe f o) (kmaybe g o).
Proof. destruct o; [apply H|apply w_skip]. Qed.
Lemma w_each {A B} b (f : A -> rvisit) (g : B -> kvisit) (k : A -> B) (H : forall a, writes b (f a) (g (k a))) :
  forall l, writes b (reach f l) (keach g (map k l)).
Proof.
  induction l as [|a l IH]; [apply w_skip|]. cbn [reach keach map fold_right]. apply w_then; [apply H|exact IH].
Defined.
Lemma w_sep {A B} b (f : nat -> A -> rvisit) (g : nat -> B -> kvisit) (k : A -> B) s s'
  (H : forall a i, writes b (f i a) (g i (k a))) (S : writes b s s') :
  forall l i, writes b (rseparated f s i l) (kseparated g s' i (map k l)).
Proof.
  induction l as [|a l IH]; intro i; [apply w_skip|]. destruct l as [|c l]; [apply H|].
  exact (w_then _ _ _ _ _ (w_then _ _ _ _ _ (w_then _ _ _ _ _ (w_then _ _ _ _ _ (H a i) (w_push b ",")) (w_push b " ")) S) (IH (Datatypes.S i))).
Defined.
Lemma w_abtest o b c c' cs cs' : ends b c c' -> (b = true -> Forall2 (ends b) cs cs') ->
  writes b (abtest o b c cs) (kabtest o c' cs').
Proof.
  intros H L w. unfold kabtest, abtest. cbn [lines out]. rewrite (H w). destruct b; [|reflexivity]. f_equal.
  specialize (L eq_refl).
  generalize (c w). induction L as [|x y xs ys E L IH]; intro best; [reflexivity|].
  cbn [fold_left]. rewrite (E w). apply IH.
Qed.
Ltac ws :=
  repeat match goal with
    | |- writes _ (_ >>> _) (_ >=> _) => apply w_then
    | |- writes _ _ (kpush _) => apply w_push
    | |- writes _ _ (lift _) => apply w_lift
    | |- writes _ _ (korder _) => apply w_lift
    | |- writes _ _ (klimit _) => apply w_lift
    | |- writes _ _ (kalias _) => apply w_lift
    | |- writes _ _ kline_break => apply w_break
    | |- writes _ _ (knew_line _) => apply w_new_line
    | |- writes _ _ kskip => apply w_skip
    end.
Lemma w_call_aux {A B} o b (f : bool -> A -> rvisit) (g : B -> kvisit) (k : A -> B) l :
  writes false (rseparated (fun _ => f false) rskip 0 l) (kseparated (fun _ => g) kskip 0 (map k l)) ->
  writes b (rseparated (fun _ => f b) (rline_break b) 0 l) (kseparated (fun _ => g) kline_break 0 (map k l)) ->
  writes b (rcall o b f l) (kcall o g (map k l)).
Proof.
  intros F S. unfold rcall, kcall. destruct l as [|a l]; [apply w_push|].
  cbn [map]. change (k a :: map k l) with (map k (a :: l)).
  apply w_abtest; [|intros _; constructor; [|constructor; [|constructor]]].
  - intro w.
    assert (X : writes false (rpush "(" >>> rseparated (fun _ => f false) rskip 0 (a :: l) >>> rpush ")")
                       (kpush "(" >=> kseparated (fun _ => g) kskip 0 (map k (a :: l)) >=> kpush ")")).
    { ws. exact F. }
    exact (f_equal out (X w)).
  - apply w_ends. ws. exact S.
  - apply w_ends. ws. exact S.
Qed.
Lemma w_call {A B} o b (f : bool -> A -> rvisit) (g : B -> kvisit) (k : A -> B)
  (H : forall a b, writes b (f b a) (g (k a))) l :
  writes b (rcall o b f l) (kcall o g (map k l)).
Proof.
  apply w_call_aux.
  - apply w_sep; [intros a i; apply H|apply w_skip].
  - apply w_sep; [intros a i; apply H|apply w_break].
Defined.
Lemma w_op {A B} b (f : A -> rvisit) (g : B -> kvisit) (k : A -> B) (H : forall a, writes b (f a) (g (k a))) t :
  writes b (rop f t) (kop g (fst t, k (snd t))).
Proof. destruct t as (p, a). cbn [rop kop fst snd]. ws. apply H. Defined.
Lemma w_break_sym o b f g : writes b f g -> writes b (rbreak_sym o b f) (kbreak_sym o g).
Proof.
  intros H w. unfold kbreak_sym, rbreak_sym. cbn [out]. destruct (too_far o w); [|apply H].
  assert (X : writes b (indent_in >>> rline_break b >>> f >>> pop_indent)
                       (lift indent_in >=> kline_break >=> g >=> lift pop_indent)).
  { ws. exact H. }
  exact (X w).
Qed.
Lemma w_break_arg o b : writes b (rbreak_arg o b) (kbreak_arg o).
Proof. intro w. unfold kbreak_arg, rbreak_arg. cbn [out]. now destruct (too_far o w). Qed.
Lemma w_if b (f g : rvisit) f' g' : (b = true -> writes b f f') -> (b = false -> writes b g g') ->
  writes b (if b then f else g) (if_lines f' g').
Proof. intros F G w. unfold if_lines. cbn [lines]. destruct b; [now apply F|now apply G]. Qed.
Lemma w_none b f g : writes b f g -> writes b f (kcomments [] >=> g).
Proof. intros H w. apply H. Qed.
Lemma w_none' b f g : writes b f g -> writes b f (kskip >=> g).
Proof. intros H w. apply H. Qed.
Lemma w_assoc b f g h k : writes b f (g >=> (h >=> k)) -> writes b f (g >=> h >=> k).
Proof. intros H w. apply H. Qed.

Lemma w_assoc' b f g h k : writes b f (g >=> h >=> k) -> writes b f (g >=> (h >=> k)).
Proof. intros H w. apply H. Qed.
Lemma cond_comments a : kcond_comments (kcond_of a) = [].
Proof. now destruct a. Qed.
Lemma w_star_of b (all : bool) (cols : list gcol) :
  writes b (if all then rpush "*" >>> match cols with [] => rskip | _ => rpush "," >>> rpush " " end else rskip)
    (if all then kpush "*" >=> match map kcol_of cols with [] => kskip | _ => kpush "," >=> kpush " " end else kskip).
Proof. destruct all; [|apply w_skip]. destruct cols; cbn [map]; ws. Qed.
Section Trees.
  Variable o : options.

  Ltac step := ws;
    repeat match goal with
    | |- writes _ _ (kbreak_arg _) => apply w_break_arg
    | |- writes _ (rmaybe _ _) (kmaybe _ (option_map _ _)) => apply w_maybe; intro
    | |- writes _ (reach _ _) (keach _ (map _ _)) => apply w_each; intro
    | |- writes _ (rop _ _) (kop _ (_, _)) => apply w_op; intro
    | |- writes _ (rseparated _ _ _ _) (kseparated _ _ _ (map _ _)) => apply w_sep; [intros|]
    | |- writes _ (if ?b then _ else _) (if_lines _ _) => apply w_if; intros ->
    | |- _ => progress ws
    end.

  Fixpoint w_value (x : gvalue) {struct x} : forall b, writes b (rvalue o x b) (vvalue o (kvalue_of x))
  with w_mterm (x : gmterm) {struct x} : forall b, writes b (rmterm o x b) (vmterm o (kmterm_of' x))
  with w_member (x : gmember) {struct x} : forall b, writes b (rmember o x b) (vmember o (kmember_of x))
  with w_mul (x : gmul) {struct x} : forall b, writes b (rmul o x b) (vmul o (kmul_of x))
  with w_add (x : gadd) {struct x} : forall b, writes b (radd o x b) (vadd o (kadd_of x))
  with w_cond (x : gcond) {struct x} : forall b, writes b (rcond o x b) (vcond o (kcond_of x))
  with w_or (x : gor) {struct x} : forall b, writes b (ror o x b) (vor o (kor_of x))
  with w_and (x : gand) {struct x} : forall b, writes b (rand o x b) (vand o (kand_of x))
  with w_comma (x : gcomma) {struct x} : forall b, writes b (rcomma o x b) (vcomma o (kcomma_of x))
  with w_arg (x : garg) {struct x} : forall b, writes b (rarg o x b) (varg o (karg_of x))
  with w_select (x : gselect) {struct x} : forall b, writes b (rselect o x b) (vselect o (kselect_of x))
  with w_col (x : gcol) {struct x} : forall i b, writes b (rcol o x i b) (vcol o (kcol_of x) i)
  with w_plugin (x : gplugin) {struct x} : forall b, writes b (rplugin o x b) (vplugin o (kplugin_of x)).
  Proof.
    - destruct x; intro b; cbn [rvalue vvalue kvalue_of vatom].
      + apply w_none, w_none, w_break_sym. step.
        replace (match map karg_of params with [] => true | _ => false end)
          with (match params with [] => true | _ => false end) by (now destruct params).
        destruct (negb called && _); [apply w_skip|].
        apply (w_call o b (fun bl a => rarg o a bl) (varg o) karg_of (fun a b => w_arg a b)).
      + apply w_none. step. apply w_comma.
      + apply w_none. step.
      + apply w_none. step.
      + apply w_none. step.
      + apply w_none. step.
    - destruct x; intro b; cbn [rmterm vmterm kmterm_of']; step; apply w_value.
    - destruct x as [l r]; intro b; cbn [rmember vmember kmember_of]. apply w_assoc, w_none. step; [apply w_value|].
      apply w_mterm.
    - destruct x as [l r]; intro b; cbn [rmul vmul kmul_of]. apply w_assoc, w_none. step; [apply w_member|].
      apply w_value.
    - destruct x as [l r]; intro b; cbn [radd vadd kadd_of]. apply w_assoc, w_none. step; [apply w_mul|].
      apply w_mul.
    - destruct x as [c|l r]; intro b; cbn [rcond vcond kcond_of].
      + step. apply w_cond.
      + step; apply w_add.
    - destruct x as [l r]; intro b; cbn [ror vor kor_of]. apply w_assoc, w_none. step; [apply w_cond|].
      cbv beta. rewrite cond_comments. apply w_none, w_cond.
    - destruct x as [l r]; intro b; cbn [rand vand kand_of]. step; apply w_or.
    - destruct x as [l r]; intro b; cbn [rcomma vcomma kcomma_of]. apply w_assoc, w_none.
      apply w_then; [apply w_and|]. apply w_each. intro t. cbn [vterm].
      destruct t as [x|]; cbn [option_map rmaybe kmaybe]; intro w; unfold kthen; cbn [kcomments keach fold_right kskip].
      + exact (w_and x b _).
      + reflexivity.
    - destruct x as [n e|n s|n [e|]]; intro b; cbn [rarg varg karg_of option_map].
      + apply w_then; [apply w_break_arg|]. apply w_assoc, w_assoc, w_none', w_assoc'. step. apply w_and.
      + apply w_then; [apply w_break_arg|]. apply w_assoc, w_assoc, w_none', w_assoc'. step; apply w_select.
      + apply w_then; [apply w_break_arg|]. apply w_assoc, w_assoc, w_assoc, w_none'. apply w_assoc', w_assoc'. step. apply w_comma.
      + apply w_then; [apply w_break_arg|]. apply w_assoc, w_none'. step.
    - destruct x as [e all cols from wh g k l]; intro b; cbn [rselect vselect kselect_of].
      match goal with |- context [kcomments [] >=> ?E] => change (kcomments [] >=> E) with E end.
      repeat match goal with |- writes _ (_ >>> _) (_ >=> _) => apply w_then end.
      + destruct e; [apply w_push|apply w_skip].
      + apply w_push.
      + apply w_abtest.
        * apply w_ends. ws; [apply w_star_of|apply w_sep; [intros a i; apply w_col|apply w_break]].
        * intros ->. constructor; [|constructor]. apply w_ends. ws; [apply w_star_of|apply w_sep; [intros a i; apply w_col|apply w_break]].
      + apply w_break.
      + apply w_push.
      + apply w_plugin.
      + apply w_maybe; intro. ws. apply w_comma.
      + apply w_maybe; intro. ws. apply w_comma.
      + apply w_maybe_id; intro. ws.
      + apply w_maybe_id; intro. ws.
      + apply w_maybe; intro. ws.
    - destruct x as [a|s a|e a]; intros i b; cbn [rcol vcol kcol_of].
      + apply w_none. ws.
      + match goal with |- context [kcomments [] >=> ?E] => change (kcomments [] >=> E) with E end. step; apply w_select.
      + apply w_none, w_abtest.
        * intro w. exact (f_equal (fun v => out (kalias a v)) (w_and e false w)).
        * intros ->. constructor; [|constructor]. apply w_ends. apply w_then; [apply w_then|].
          -- intro w. cbn [out]. now destruct (_ && _).
          -- apply w_and.
          -- ws.
    - destruct x as [n call args]; intro b; cbn [rplugin vplugin kplugin_of]. apply w_then; [apply w_push|].
      destruct call; [|apply w_skip].
      apply (w_call o b (fun bl a => rarg o a bl) (varg o) karg_of (fun a b => w_arg a b)).
  Qed.

  Lemma default_of ps n : kdefault_for (map kparam_of ps) n = option_map karg_of (default_for ps n).
  Proof.
    unfold kdefault_for, default_for. change None with (option_map karg_of None) at 1.
    generalize (None : option garg). induction ps as [|p ps IH]; intro d; [reflexivity|].
    cbn [map fold_left]. rewrite <- IH. f_equal. destruct p as [a|s]; [|reflexivity]. cbn [kparam_of].
    replace (karg_name (karg_of a)) with (arg_name a) by (now destruct a).
    now destruct (String.eqb (unq (arg_name a)) n).
  Qed.
  Lemma param_name_of p : kparam_name (kparam_of p) = param_name p.
  Proof. destruct p as [[]|]; reflexivity. Qed.
  Lemma w_param b ps p : writes b (rparam o b ps p) (vparam o (map kparam_of ps) (kparam_of p)).
  Proof.
    unfold rparam, vparam. rewrite default_of, param_name_of. destruct (default_for ps (param_name p)); cbn [option_map].
    - apply w_arg.
    - apply w_push.
  Qed.
  Lemma w_vql b x : writes b (rvql o b x) (vvql o (uncommented x)).
  Proof.
    unfold uncommented, vvql, rvql.
    match goal with |- context [kcomments [] >=> ?E] => change (kcomments [] >=> E) with E end.
    destruct x as [n c ps p body|s]; cbn [kvql_of].
    - ws.
      + destruct ps as [|q ps]; [apply w_skip|]. cbn [map].
        change (kparam_of q :: map kparam_of ps) with (map kparam_of (q :: ps)). ws.
        apply w_sep; [intros a i; apply w_param|apply w_skip].
      + destruct body; [apply w_select|apply w_and].
    - ws. apply w_select.
  Qed.
  Lemma w_all b l : writes b (rall o b l) (vall o (map uncommented l)).
  Proof. unfold rall, vall. apply w_each. intro x. apply w_then; [apply w_vql|apply w_break]. Qed.

  (** On statements without comments the visitor of CommentFormat.v writes what
      that of Reformat.v writes. *)
  Theorem reformat_uncommented b l : reformat_stmts o b (map uncommented l) = reformat o b l.
  Proof. unfold reformat_stmts, reformat. now rewrite w_all. Qed.
End Trees.
