(** Laws of queries without side effects, for what they mean by PureSpec.v:
    the groundwork of C93 (LawsProps.v). *)

From Coq Require Import ZArith List String Bool Lia.
From Verif Require Import Base BaseProofs F64 Value Protocols Monad Chains Flatten Builtins Syntax Eval
  PureSpec PureEval PureSelect.
Import ListNotations.
Open Scope nat_scope.
Open Scope list_scope.

(** ** Vocabulary *)

(** The variables that an expression mentions.  No counterpart in /repo. *)
Fixpoint names (e : expr) : list string :=
  match e with
  | ELit _ => []
  | ESym _ _ path called params =>
      match path with x :: _ => if called then [] else [x] | [] => [] end ++
      flat_map (fun na => match na with
                          | (_, AExpr e) | (_, AArray e) => names e
                          | _ => []
                          end) params
  | EComma l rs => names l ++ flat_map (fun o => match o with Some e => names e | None => [] end) rs
  | EAnd l rs | EOr l rs | EAdd l rs | EMul l rs => names l ++ flat_map (fun oe => names (snd oe)) rs
  | ENot e => names e
  | ECmp l _ r => names l ++ names r
  | EMember l ts =>
      names l ++
      flat_map (fun t => match t with
                         | MIndex e => names e
                         | MRange s e => match s with Some s => names s | None => [] end ++
                                         match e with Some e => names e | None => [] end
                         | MField _ => []
                         end) ts
  end.

(** The rows of one query as a source: [chain(k={q})]; plugins/chain.go:21-60 *)
Definition only (chain k : string) (q : select) : plugin := Plugin [chain] true [(k, ASelect q)].

(** No nil among the fields of the rows. *)
Definition no_nils (rows : list dict) : Prop := Forall (fun row => fields row = row) rows.

(** ** Expressions *)

Section Laws.
  Variable E : env.
  Variable funs : string -> option (dict -> option val).

  Lemma map_same : forall A B (f g : A -> B) (P : A -> Prop) l,
    Forall P l -> (forall a, In a l -> P a -> f a = g a) -> map f l = map g l.
  Proof.
    intros A B f g P l H. induction H as [|a l HP _ IH]; intros HF; [reflexivity|]. cbn.
    rewrite (HF a (or_introl eq_refl) HP), IH; [reflexivity|]. intros b I. apply HF. now right.
  Qed.

  (** The value of an expression depends on the variables it mentions only. *)
  Lemma den_names : forall e fr fr', (forall x, In x (names e) -> lookup fr x = lookup fr' x) ->
    den E funs fr e = den E funs fr' e.
  Proof.
    intros e. induction e using expr_ind'; intros fr fr' H0.
    - reflexivity.
    - cbn [names] in H0.
      assert (HA : called = true -> map (fun na =>
                 match na with
                 | (name, AExpr e) => option_map (fun v => (name, expand v)) (den E funs fr e)
                 | (name, AArray e) => option_map (fun v => (name, v)) (den E funs fr e)
                 | (name, AEmpty) => Some (name, VArr [])
                 | (_, ASelect _) => None
                 end) params = map (fun na =>
                 match na with
                 | (name, AExpr e) => option_map (fun v => (name, expand v)) (den E funs fr' e)
                 | (name, AArray e) => option_map (fun v => (name, v)) (den E funs fr' e)
                 | (name, AEmpty) => Some (name, VArr [])
                 | (_, ASelect _) => None
                 end) params).
      { intros _. eapply map_same; [exact H|]. intros [name a] I HP. cbn [snd on_arg] in HP.
        assert (S : forall e, a = AExpr e \/ a = AArray e -> forall x, In x (names e) -> lookup fr x = lookup fr' x).
        { intros e HE x IX. apply H0. apply in_or_app. right. apply in_flat_map. exists (name, a).
          split; [exact I|]. destruct HE; subst a; exact IX. }
        destruct a; cbn in HP; try reflexivity; f_equal; apply HP, S; auto. }
      destruct neg.
      { cbn [den]. destruct path as [|x [|? ?]]; reflexivity. }
      destruct called.
      + destruct path as [|f [|? ?]]; cbn [den]; try reflexivity. now rewrite (HA eq_refl).
      + destruct path as [|x path]; [reflexivity|]. destruct params; [|destruct path; reflexivity].
        assert (L : lookup fr x = lookup fr' x) by (apply H0; now left).
        destruct path; cbn [den]; now rewrite L.
    - cbn [den names] in *. rewrite (IHe fr fr') by (intros; apply H0; apply in_or_app; now left).
      replace (map (fun r => match r with Some e => option_map Some (den E funs fr e) | None => Some None end) rs)
        with (map (fun r => match r with Some e => option_map Some (den E funs fr' e) | None => Some None end) rs); [reflexivity|].
      symmetry. eapply map_same; [exact H|]. intros [e'|] I HP; [|reflexivity]. f_equal. apply HP.
      intros x IX. apply H0. apply in_or_app. right. apply in_flat_map. eexists. split; [exact I|exact IX].
    - cbn [den names] in *. rewrite (IHe fr fr') by (intros; apply H0; apply in_or_app; now left).
      replace (map (fun oe => option_map (pair (fst oe)) (den E funs fr (snd oe))) rs)
        with (map (fun oe => option_map (pair (fst oe)) (den E funs fr' (snd oe))) rs); [reflexivity|].
      symmetry. eapply map_same; [exact H|]. intros oe I HP. f_equal. apply HP.
      intros x IX. apply H0. apply in_or_app. right. apply in_flat_map. eexists. split; [exact I|exact IX].
    - cbn [den names] in *. rewrite (IHe fr fr') by (intros; apply H0; apply in_or_app; now left).
      replace (map (fun oe => option_map (pair (fst oe)) (den E funs fr (snd oe))) rs)
        with (map (fun oe => option_map (pair (fst oe)) (den E funs fr' (snd oe))) rs); [reflexivity|].
      symmetry. eapply map_same; [exact H|]. intros oe I HP. f_equal. apply HP.
      intros x IX. apply H0. apply in_or_app. right. apply in_flat_map. eexists. split; [exact I|exact IX].
    - cbn [den names] in *. rewrite (IHe fr fr') by (intros; apply H0; apply in_or_app; now left).
      replace (map (fun oe => option_map (pair (fst oe)) (den E funs fr (snd oe))) rs)
        with (map (fun oe => option_map (pair (fst oe)) (den E funs fr' (snd oe))) rs); [reflexivity|].
      symmetry. eapply map_same; [exact H|]. intros oe I HP. f_equal. apply HP.
      intros x IX. apply H0. apply in_or_app. right. apply in_flat_map. eexists. split; [exact I|exact IX].
    - cbn [den names] in *. rewrite (IHe fr fr') by (intros; apply H0; apply in_or_app; now left).
      replace (map (fun oe => option_map (pair (fst oe)) (den E funs fr (snd oe))) rs)
        with (map (fun oe => option_map (pair (fst oe)) (den E funs fr' (snd oe))) rs); [reflexivity|].
      symmetry. eapply map_same; [exact H|]. intros oe I HP. f_equal. apply HP.
      intros x IX. apply H0. apply in_or_app. right. apply in_flat_map. eexists. split; [exact I|exact IX].
    - cbn [den names] in *. now rewrite (IHe fr fr').
    - cbn [den names] in *. rewrite (IHe1 fr fr') by (intros; apply H0; apply in_or_app; now left).
      now rewrite (IHe2 fr fr') by (intros; apply H0; apply in_or_app; now right).
    - cbn [den names] in *. rewrite (IHe fr fr') by (intros; apply H0; apply in_or_app; now left).
      assert (O : forall (o : option expr), on_opt (fun e => forall fr fr', (forall x, In x (names e) -> lookup fr x = lookup fr' x) ->
        den E funs fr e = den E funs fr' e) o ->
        (forall x, In x (match o with Some s => names s | None => [] end) -> lookup fr x = lookup fr' x) ->
        match o with None => Some None | Some s => option_map Some (den E funs fr s) end =
        match o with None => Some None | Some s => option_map Some (den E funs fr' s) end).
      { intros [o|] HO HX; [|reflexivity]. f_equal. now apply HO. }
      match goal with |- context [map ?f ts] => match goal with |- _ = ?r => match r with context [map ?g ts] =>
        replace (map f ts) with (map g ts); [reflexivity|] end end end.
      symmetry. eapply map_same; [exact H|]. intros t I HP.
      assert (S : forall x, In x (match t with
                         | MIndex e => names e
                         | MRange s e => match s with Some s => names s | None => [] end ++
                                         match e with Some e => names e | None => [] end
                         | MField _ => []
                         end) -> lookup fr x = lookup fr' x).
      { intros x IX. apply H0. apply in_or_app. right. apply in_flat_map. eexists. split; [exact I|exact IX]. }
      destruct t as [e'|a b|f]; cbn [on_term] in HP; [f_equal; now apply HP| |reflexivity].
      destruct HP as [HP1 HP2].
      rewrite (O a HP1) by (intros; apply S; apply in_or_app; now left).
      now rewrite (O b HP2) by (intros; apply S; apply in_or_app; now right).
  Qed.

  Lemma den_same : forall e fr fr', (forall x, lookup fr x = lookup fr' x) -> den E funs fr e = den E funs fr' e.
  Proof. intros e fr fr' H. apply den_names. auto. Qed.

  (** The truth of AND, OR and NOT. *)
  Lemma truthy_bool : forall b, truthy E (VBool b) = b.
  Proof. intros b. unfold truthy, bool_disp. cbn. destruct b; reflexivity. Qed.

  Lemma and_defined : forall fr a b v, den E funs fr (EAnd a [("AND"%string, b)]) = Some v ->
    exists x y, den E funs fr a = Some x /\ den E funs fr b = Some y /\ truthy E v = truthy E x && truthy E y.
  Proof.
    intros fr a b v H. cbn [den map fst snd] in H.
    destruct (den E funs fr a) as [x|]; [|discriminate]. destruct (den E funs fr b) as [y|]; [|discriminate].
    cbn in H. injection H as <-. exists x, y. split; [reflexivity|]. split; [reflexivity|].
    destruct (truthy E x); [|apply truthy_bool]. cbn [and_value]. destruct (truthy E y); apply truthy_bool.
  Qed.

  Lemma and_den : forall fr a b x y, den E funs fr a = Some x -> den E funs fr b = Some y ->
    exists v, den E funs fr (EAnd a [("AND"%string, b)]) = Some v /\ truthy E v = truthy E x && truthy E y.
  Proof.
    intros fr a b x y HA HB. cbn [den map fst snd]. rewrite HA, HB. cbn. eexists. split; [reflexivity|].
    destruct (truthy E x); [|apply truthy_bool]. cbn [and_value]. destruct (truthy E y); apply truthy_bool.
  Qed.

  Lemma or_den : forall fr a b x y, den E funs fr a = Some x -> den E funs fr b = Some y ->
    exists v, den E funs fr (EOr a [("OR"%string, b)]) = Some v /\ truthy E v = truthy E x || truthy E y.
  Proof.
    intros fr a b x y HA HB. cbn [den map fst snd]. rewrite HA, HB. cbn. eexists. split; [reflexivity|].
    destruct (truthy E x) eqn:TX; [exact TX|]. cbn [or_value]. destruct (truthy E y) eqn:TY; [apply truthy_bool|exact TY].
  Qed.

  (** ** Rows *)

  Lemma assoc_fields : forall x row, assoc x (fields row) = option_map or_null (assoc x row).
  Proof.
    intros x row. unfold fields. induction row as [|[k v] row IH]; [reflexivity|]. cbn.
    destruct (String.eqb x k); [reflexivity|exact IH].
  Qed.

  Lemma or_null_idem : forall v, or_null (or_null v) = or_null v.
  Proof. intros v. unfold or_null. destruct (is_nil v) eqn:N; [reflexivity|now rewrite N]. Qed.

  Lemma fields_idem : forall row, fields (fields row) = fields row.
  Proof.
    intros row. unfold fields. rewrite map_map. apply map_ext. intros [k v]. cbn. now rewrite or_null_idem.
  Qed.

  Lemma lookup_fields : forall row fr x, lookup (fields row :: row :: fr) x = lookup (fields row :: fields row :: fr) x.
  Proof.
    intros row fr x. cbn [lookup]. rewrite assoc_fields. destruct (assoc x row); reflexivity.
  Qed.

  Section Rows.
    Variable subq subq' : list dict -> select -> option (list dict).

    Lemma project_star : forall fr row, project E funs subq fr true [] row = Some (fields row).
    Proof. reflexivity. Qed.

    (** SELECT * without a condition copies the rows. *)
    Lemma star_rows : forall fr rows, no_nils rows -> select_rows E funs subq fr true [] None rows = Some rows.
    Proof.
      intros fr rows H. induction H as [|row rows HR _ IH]; [reflexivity|].
      cbn [select_rows]. rewrite project_star. cbn [obind holds]. rewrite IH. cbn. now rewrite HR.
    Qed.

    Lemma star_no_nils : forall fr w rows out, select_rows E funs subq fr true [] w rows = Some out -> no_nils out.
    Proof.
      intros fr w rows. induction rows as [|row rows IH]; intros out H; cbn [select_rows] in H.
      - injection H as <-. constructor.
      - rewrite project_star in H. cbn [obind] in H. destruct (holds _ _ _ _ _ w) as [k|]; [|discriminate]. cbn [obind] in H.
        destruct (select_rows _ _ _ _ _ _ _ rows) as [l|]; [|discriminate]. cbn in H. injection H as <-.
        specialize (IH l eq_refl). destruct k; [constructor; [apply fields_idem|exact IH]|exact IH].
    Qed.

    (** A condition in two steps. *)
    Lemma where_twice : forall fr a b rows out,
      select_rows E funs subq fr true [] (Some (EAnd a [("AND"%string, b)])) rows = Some out ->
      exists mid, select_rows E funs subq fr true [] (Some a) rows = Some mid /\
                  select_rows E funs subq' fr true [] (Some b) mid = Some out.
    Proof.
      intros fr a b rows. induction rows as [|row rows IH]; intros out H; cbn [select_rows] in H.
      - injection H as <-. now exists [].
      - rewrite project_star in H. cbn [obind holds] in H.
        destruct (den E funs (fields row :: row :: fr) (EAnd a [("AND"%string, b)])) as [v|] eqn:DV; [|discriminate].
        cbn [option_map obind] in H.
        destruct (select_rows _ _ _ _ _ _ _ rows) as [l|] eqn:SR; [|discriminate]. cbn in H. injection H as <-.
        destruct (IH l eq_refl) as (mid & M1 & M2).
        destruct (and_defined _ _ _ _ DV) as (x & y & DA & DB & T).
        exists (if truthy E x then fields row :: mid else mid). split.
        + cbn [select_rows]. rewrite project_star. cbn [obind holds]. rewrite DA. cbn [option_map obind]. now rewrite M1.
        + rewrite T. destruct (truthy E x); [|exact M2].
          cbn [select_rows]. unfold project. cbn [columns obind holds]. rewrite fields_idem.
          rewrite <- (den_same b (fields row :: row :: fr)) by (intros; apply lookup_fields).
          rewrite DB. cbn [option_map obind]. rewrite M2. reflexivity.
    Qed.

    (** Conditions with the same truth select the same rows. *)
    Definition same_truth (w w' : expr) : Prop := forall fr v, den E funs fr w = Some v ->
      exists v', den E funs fr w' = Some v' /\ truthy E v' = truthy E v.

    Lemma where_same : forall fr star cols w w' rows out, same_truth w w' ->
      select_rows E funs subq fr star cols (Some w) rows = Some out ->
      select_rows E funs subq fr star cols (Some w') rows = Some out.
    Proof.
      intros fr star cols w w' rows out HW. revert out. induction rows as [|row rows IH]; intros out H; cbn [select_rows] in *; [exact H|].
      destruct (project _ _ _ _ _ _ row) as [o|]; [|discriminate]. cbn [obind holds] in *.
      destruct (den E funs (o :: row :: fr) w) as [v|] eqn:DV; [|discriminate]. cbn [option_map obind] in H.
      destruct (HW _ _ DV) as (v' & -> & T). cbn [option_map obind].
      destruct (select_rows _ _ _ _ _ _ _ rows) as [l|]; [|discriminate]. rewrite (IH l eq_refl). cbn in *. now rewrite T.
    Qed.

    Lemma select_app : forall fr star cols w a b,
      select_rows E funs subq fr star cols w (a ++ b) =
      obind (select_rows E funs subq fr star cols w a) (fun x =>
      option_map (app x) (select_rows E funs subq fr star cols w b)).
    Proof.
      intros fr star cols w a b. induction a as [|row a IH]; cbn [app select_rows].
      - cbn. destruct (select_rows _ _ _ _ _ _ _ b); reflexivity.
      - destruct (project _ _ _ _ _ _ row) as [o|]; [|reflexivity]. cbn [obind].
        destruct (holds _ _ _ _ _ w) as [k|]; [|reflexivity]. cbn [obind]. rewrite IH.
        destruct (select_rows _ _ _ _ _ _ _ a) as [x|]; [|reflexivity]. cbn [obind option_map].
        destruct (select_rows _ _ _ _ _ _ _ b) as [y|]; [|reflexivity]. cbn. now destruct k.
    Qed.

    (** A condition on the columns may be asked before or after the selection
        of the columns. *)
    Definition selected_names (w : expr) (row out : dict) : Prop :=
      forall x, In x (names w) -> assoc x out <> None \/ assoc x row = None.

    Lemma where_later : forall fr star cols w rows out,
      select_rows E funs subq fr star cols (Some w) rows = Some out ->
      forall all, select_rows E funs subq fr star cols None rows = Some all -> no_nils all ->
      (forall row o, In row rows -> project E funs subq fr star cols row = Some o -> selected_names w row o) ->
      select_rows E funs subq' fr true [] (Some w) all = Some out.
    Proof.
      intros fr star cols w rows. induction rows as [|row rows IH]; intros out H all HA HN HS; cbn [select_rows] in *.
      - injection HA as <-. exact H.
      - destruct (project _ _ _ _ _ _ row) as [o|] eqn:PO; [|discriminate]. cbn [obind holds] in *.
        destruct (den E funs (o :: row :: fr) w) as [v|] eqn:DV; [|discriminate]. cbn [option_map obind] in H.
        destruct (select_rows _ _ _ _ _ _ (Some w) rows) as [l|] eqn:SL; [|discriminate].
        destruct (select_rows _ _ _ _ _ _ None rows) as [l'|] eqn:SA; [|discriminate].
        cbn in H, HA. injection H as <-. injection HA as <-. inversion HN as [|? ? N1 N2]; subst.
        specialize (IH l eq_refl l' eq_refl N2 (fun r o' I => HS r o' (or_intror I))).
        cbn [select_rows]. unfold project at 1. cbn [columns obind holds]. rewrite N1.
        rewrite (den_names w (o :: o :: fr) (o :: row :: fr)).
        + rewrite DV. cbn [option_map obind]. rewrite IH. reflexivity.
        + intros x IX. cbn [lookup]. destruct (HS row o (or_introl eq_refl) PO x IX) as [Q|Q].
          * destruct (assoc x o); [reflexivity|contradiction].
          * rewrite Q. destruct (assoc x o); reflexivity.
    Qed.
  End Rows.

  (** ** Queries *)

  Lemma source_only : forall depth fr chain k q, assoc chain (env_plugs E) = Some PlChain ->
    source E funs (query_rows E funs depth) fr (only chain k q) = query_rows E funs depth fr q.
  Proof.
    intros depth fr chain k q H. unfold only. cbn [source keys map fst distinct mem_str]. rewrite H. cbn.
    unfold all_rows. cbn. destruct (query_rows E funs depth fr q) as [rows|]; [|reflexivity]. cbn. now rewrite app_nil_r.
  Qed.

  Lemma query_rows_eq : forall depth fr star cols from w ob lim,
    query_rows E funs (S depth) fr (Select star cols from w None ob lim) =
      obind (source E funs (query_rows E funs depth) fr from) (fun rows =>
      obind (select_rows E funs (query_rows E funs depth) fr star cols w rows) (fun out =>
      obind (match ob with
             | None => Some out
             | Some (key, desc) =>
                 dicts (map snd (env_sort E (sort_less E desc)
                                   (map (fun r => (found_key key r, VDict r)) out)))
             end) (fun out =>
      match lim with
      | None => Some out
      | Some n => if Z.leb 1 n then Some (firstn (Z.to_nat n) out) else None
      end))).
  Proof. reflexivity. Qed.
End Laws.
