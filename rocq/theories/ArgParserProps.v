(** C47, C48: argument extraction. *)

From Coq Require Import ZArith List String Ascii Bool Lia Permutation.
From Verif Require Import Base F64 BaseProofs Value Protocols Monad ArgParser.
Import ListNotations.
Open Scope nat_scope.
Open Scope string_scope.
Open Scope list_scope.

(** * Small facts *)

Lemma assoc_in : forall A k (l : list (string * A)) v, assoc k l = Some v -> In k (keys l).
Proof.
  induction l as [|[k' x] r IH]; simpl; intros v H; [discriminate|].
  destruct (String.eqb_spec k k'); [left; auto | right; eauto].
Qed.

Lemma assoc_none : forall A k (l : list (string * A)), assoc k l = None <-> ~ In k (keys l).
Proof.
  induction l as [|[k' x] r IH]; simpl; [tauto|].
  destruct (String.eqb_spec k k').
  - split; [discriminate | intros H; exfalso; auto].
  - rewrite IH. intuition congruence.
Qed.

Lemma in_assoc : forall A k (l : list (string * A)), In k (keys l) -> exists v, assoc k l = Some v.
Proof.
  intros A k l H. destruct (assoc k l) eqn:E; [eauto|].
  apply assoc_none in E. contradiction.
Qed.

Lemma mem_str_in : forall k l, mem_str k l = true <-> In k l.
Proof.
  unfold mem_str. intros. rewrite existsb_exists. split.
  - intros (x & H & E). apply String.eqb_eq in E. subst; auto.
  - intros H. exists k. split; auto. apply String.eqb_refl.
Qed.

Lemma set_field_length : forall i v t, List.length (set_field i v t) = List.length t.
Proof. induction i; destruct t; simpl; auto. Qed.

Lemma nth_set_same : forall i v t d, i < List.length t -> nth i (set_field i v t) d = v.
Proof. induction i; destruct t; simpl; intros; try lia; auto. apply IHi. lia. Qed.

Lemma nth_set_other : forall i j v t d, i <> j -> nth j (set_field i v t) d = nth j t d.
Proof. induction i; destruct t, j; simpl; intros; try lia; auto. Qed.

(** * Declarations *)

(** A tag directive that is a plain word. *)
Definition plain_word (s : string) : Prop :=
  ~ In ","%char (str_list s) /\ ~ In "="%char (str_list s).

Lemma split_on_plain : forall c s, ~ In c (str_list s) -> split_on c s = [s].
Proof.
  induction s as [|a s IH]; simpl; intros H; auto.
  destruct (Ascii.eqb_spec a c); [exfalso; auto|].
  rewrite IH by tauto. reflexivity.
Qed.

Lemma split_on_app : forall c a b, ~ In c (str_list a) ->
  split_on c (a ++ String c b)%string = a :: split_on c b.
Proof.
  induction a as [|x a IH]; simpl; intros b H.
  - rewrite Ascii.eqb_refl. reflexivity.
  - destruct (Ascii.eqb_spec x c); [exfalso; auto|].
    rewrite IH by tauto. reflexivity.
Qed.

(** The usual tags: [`vfilter:"required,field=name"`] and
    [`vfilter:"optional,field=name"`]. *)
Theorem C47_tags : forall name t settable go rest l i (req : bool),
  plain_word name -> name <> "" -> t <> TOther -> settable = true ->
  build_parser (S i) rest = Ok (Some l) ->
  build_parser i ({| sf_name := go;
                     sf_tag := ((if req then "required" else "optional") ++ ",field=" ++ name)%string;
                     sf_type := t; sf_settable := settable |} :: rest) =
  Ok (Some ({| fp_name := name; fp_idx := i; fp_required := req; fp_type := t |} :: l)).
Proof.
  intros name t settable go rest l i req [Hc He] Hn Ht -> Hr.
  assert (Hc' : ~ In ","%char (str_list ("field=" ++ name)%string)).
  { simpl. intuition discriminate. }
  assert (E : forall w, plain_word w ->
     tag_options (w ++ ",field=" ++ name)%string =
     tag_option (tag_option [] w) ("field=" ++ name)%string).
  { intros w [Hw _]. unfold tag_options.
    change (",field=" ++ name)%string with (String "," ("field=" ++ name)%string).
    rewrite split_on_app by auto. rewrite split_on_plain by auto. reflexivity. }
  assert (Ef : split_on "="%char ("field=" ++ name)%string = ["field"; name]).
  { change ("field=" ++ name)%string with ("field" ++ String "=" name)%string.
    rewrite split_on_app by (simpl; intuition discriminate).
    rewrite split_on_plain by auto. reflexivity. }
  assert (Hopt : tag_options ((if req then "required" else "optional") ++ ",field=" ++ name)%string
                 = [(if req then "required" else "optional", "Y"); ("field", name)]).
  { rewrite E by (destruct req; unfold plain_word; simpl; intuition discriminate).
    unfold tag_option at 1. rewrite Ef. destruct req; reflexivity. }
  cbn [build_parser sf_tag sf_name sf_type sf_settable].
  rewrite Hopt.
  replace (String.eqb ((if req then "required" else "optional") ++ ",field=" ++ name)%string "" ||
     String.eqb ((if req then "required" else "optional") ++ ",field=" ++ name)%string "-")
    with false by (destruct req; reflexivity).
  replace (assoc "field" [(if req then "required" else "optional", "Y"); ("field", name)])
    with (Some name) by (destruct req; reflexivity).
  replace (match assoc "required" [(if req then "required" else "optional", "Y"); ("field", name)] with
           | Some _ => true | None => false end) with req by (destruct req; reflexivity).
  destruct (String.eqb_spec name ""); [contradiction|].
  rewrite Hr. cbn [negb]. destruct t; try reflexivity. congruence.
Qed.

Lemma build_parser_idx : forall decl i fields,
  build_parser i decl = Ok (Some fields) ->
  NoDup (map fp_idx fields) /\
  Forall (fun f => i <= fp_idx f < i + List.length decl) fields.
Proof.
  induction decl as [|f decl IH]; simpl; intros i fields H.
  - injection H as <-. split; constructor.
  - destruct (String.eqb (sf_tag f) "" || String.eqb (sf_tag f) "-").
    + destruct (IH _ _ H) as [Hn Hf]. split; auto.
      eapply Forall_impl; [|exact Hf]. simpl; intros; lia.
    + set (name := match assoc "field" (tag_options (sf_tag f)) with Some n => n | None => sf_name f end) in H.
      destruct (String.eqb name ""); [discriminate|].
      destruct (negb (sf_settable f)); [discriminate|].
      destruct (build_parser (S i) decl) as [[l|]|] eqn:E;
        try (destruct (sf_type f); discriminate).
      destruct (IH _ _ E) as [Hn Hf].
      assert (fields = {| fp_name := name; fp_idx := i;
                 fp_required := match assoc "required" (tag_options (sf_tag f)) with
                                | Some _ => true | None => false end;
                 fp_type := sf_type f |} :: l).
      { destruct (sf_type f); congruence. }
      subst fields. split.
      * simpl. constructor; auto. intros Hin. apply in_map_iff in Hin.
        destruct Hin as (g & Eg & Hg). rewrite Forall_forall in Hf. specialize (Hf g Hg). lia.
      * constructor; [simpl; lia|].
        eapply Forall_impl; [|exact Hf]. simpl; intros; lia.
Qed.

Section Parser.
  Context {S : Type}.
  Variable reduce reduce_ws : val -> M S val.
  Variable truth : val -> M S bool.
  Variable members : val -> M S (list string).
  Variable associative : val -> string -> M S (val * bool).
  Variable sprint : val -> string.
  Variable to_stored_query to_lazy_expr row_to_dict : val -> M S val.

  Notation coerce := (coerce reduce reduce_ws truth members associative sprint
                        to_stored_query to_lazy_expr row_to_dict).
  Notation parse_fields := (parse_fields reduce reduce_ws truth members associative sprint
                        to_stored_query to_lazy_expr row_to_dict).
  Notation parse := (parse reduce reduce_ws truth members associative sprint
                        to_stored_query to_lazy_expr row_to_dict).

  (** What a successful run of the loop establishes. *)
  Lemma parse_fields_ok : forall fields args parsed target s s' parsed' target',
    NoDup (map fp_idx fields) ->
    Forall (fun f => fp_idx f < List.length target) fields ->
    parse_fields fields args parsed target s = (s', RVal (parsed', target', None)) ->
    parsed' = parsed ++ map fp_name (filter (fun f => mem_str (fp_name f) (keys args)) fields) /\
    List.length target' = List.length target /\
    (forall f, In f fields -> fp_required f = true -> In (fp_name f) (keys args)) /\
    (forall f v, In f fields -> assoc (fp_name f) args = Some v ->
       exists s1 s2 w, coerce (fp_type f) v s1 = (s2, RVal (Some w)) /\
                       nth (fp_idx f) target' VNil = w) /\
    (forall i d, (forall f, In f fields -> In (fp_name f) (keys args) -> fp_idx f <> i) ->
       nth i target' d = nth i target d).
  Proof.
    induction fields as [|f fields IH]; intros args parsed target s s' parsed' target' Hn Hb H.
    - cbn in H. injection H as <- <- <-. simpl. rewrite app_nil_r.
      repeat split; auto; intros; contradiction.
    - cbn [ArgParser.parse_fields] in H.
      inversion Hn as [|? ? Hni Hn']; subst. inversion Hb as [|? ? Hbi Hb']; subst.
      destruct (assoc (fp_name f) args) as [v|] eqn:Ea.
      + unfold mbind in H. destruct (coerce (fp_type f) v s) as [s1 [[w|]| |]] eqn:Ec; try discriminate.
        destruct (set_ok (fp_type f) w); [|discriminate].
        apply IH in H; auto.
        2:{ eapply Forall_impl; [|exact Hb']. intros; rewrite set_field_length; auto. }
        destruct H as (Hp & Hl & Hr & Hs & Ho).
        assert (Hm : mem_str (fp_name f) (keys args) = true) by (apply mem_str_in; eapply assoc_in; eauto).
        repeat split.
        * rewrite Hp. simpl. rewrite Hm. simpl. rewrite <- app_assoc. reflexivity.
        * rewrite Hl. apply set_field_length.
        * intros g [<-|Hg] Hreq; [eapply assoc_in; eauto | eauto].
        * intros g v' [<-|Hg] Hv'; [|eauto].
          rewrite Ea in Hv'. injection Hv' as <-.
          exists s, s1, w. split; [exact Ec|].
          rewrite Ho.
          -- apply nth_set_same. auto.
          -- intros g Hg _ E. apply Hni. apply in_map_iff. exists g. auto.
        * intros i d Hi. rewrite Ho; [|intros g Hg; apply Hi; right; auto].
          apply nth_set_other. apply Hi; [left; auto | eapply assoc_in; eauto].
      + destruct (fp_required f) eqn:Er; [discriminate|].
        apply IH in H; auto. destruct H as (Hp & Hl & Hr & Hs & Ho).
        assert (Hm : mem_str (fp_name f) (keys args) = false).
        { destruct (mem_str (fp_name f) (keys args)) eqn:Em; auto.
          apply mem_str_in in Em. apply assoc_none in Ea. contradiction. }
        repeat split; auto.
        * rewrite Hp. simpl. rewrite Hm. reflexivity.
        * intros g [<-|Hg] Hreq; [congruence | eauto].
        * intros g v' [<-|Hg] Hv'; [congruence | eauto].
        * intros i d Hi. apply Ho. intros; apply Hi; auto. right; auto.
  Qed.

  Lemma unexpected_none : forall parsed names,
    unexpected parsed names = None -> forall k, In k names -> In k parsed.
  Proof.
    induction names as [|n names IH]; simpl; intros H k Hk; [contradiction|].
    destruct (mem_str n parsed) eqn:E; [|discriminate].
    destruct Hk as [<-|Hk]; auto. apply mem_str_in; auto.
  Qed.

  (** Success means: every required field was supplied, every supplied name
      is declared, every supplied value was coerced, the corresponding field
      holds the coerced value and all other fields are untouched.  The names
      of the declared fields are distinct. *)
  Theorem C47_success_partial : forall decl fields args target s s' target',
    build_parser 0 decl = Ok (Some fields) ->
    List.length target = List.length decl ->
    NoDup (map fp_name fields) ->
    NoDup (keys args) ->
    parse fields args target s = (s', RVal (target', None)) ->
    (forall f, In f fields -> fp_required f = true -> In (fp_name f) (keys args)) /\
    (forall k, In k (keys args) -> exists f, In f fields /\ fp_name f = k) /\
    (forall f v, In f fields -> assoc (fp_name f) args = Some v ->
       exists s1 s2 w, coerce (fp_type f) v s1 = (s2, RVal (Some w)) /\
                       nth (fp_idx f) target' VNil = w) /\
    (forall i, (forall f, In f fields -> In (fp_name f) (keys args) -> fp_idx f <> i) ->
       nth i target' VNil = nth i target VNil) /\
    List.length target' = List.length target.
  Proof.
    intros decl fields args target s s' target' Hd Hlen Hnames Hkeys H.
    destruct (build_parser_idx _ _ _ Hd) as [Hidx Hbound].
    unfold ArgParser.parse, mbind in H.
    destruct (parse_fields fields args [] target s) as [s1 [[[parsed t1] err]| |]] eqn:E; try discriminate.
    destruct err as [e|]; [discriminate|].
    assert (Hb : Forall (fun f => fp_idx f < List.length target) fields).
    { eapply Forall_impl; [|exact Hbound]. simpl; intros; lia. }
    destruct (parse_fields_ok _ _ _ _ _ _ _ _ Hidx Hb E) as (Hp & Hl & Hr & Hs & Ho).
    simpl in Hp.
    assert (Ht : t1 = target').
    { destruct (Nat.eqb (List.length parsed) (List.length args)); injection H; auto. }
    subst t1.
    assert (Hsub : incl parsed (keys args)).
    { intros k Hk. rewrite Hp in Hk. apply in_map_iff in Hk. destruct Hk as (f & <- & Hf).
      apply filter_In in Hf. apply mem_str_in. tauto. }
    assert (Hnd : NoDup parsed).
    { rewrite Hp. clear -Hnames. induction fields as [|f fields IH]; simpl; [constructor|].
      inversion Hnames; subst. destruct (mem_str (fp_name f) (keys args)); auto.
      simpl. constructor; auto. intros Hin. apply in_map_iff in Hin.
      destruct Hin as (g & Eg & Hg). apply filter_In in Hg. apply H1. apply in_map_iff. exists g. tauto. }
    assert (Hdecl : forall k, In k parsed -> exists f, In f fields /\ fp_name f = k).
    { intros k Hk. rewrite Hp in Hk. apply in_map_iff in Hk. destruct Hk as (f & <- & Hf).
      apply filter_In in Hf. exists f. tauto. }
    repeat split; auto.
    - intros k Hk. apply Hdecl.
      destruct (Nat.eqb_spec (List.length parsed) (List.length args)) as [El|El].
      + apply (NoDup_length_incl (l' := keys args) Hnd); auto. unfold keys. rewrite map_length. lia.
      + injection H as <- Hu. eapply unexpected_none; eauto.
  Qed.

  (** An error names a real problem. *)
  Theorem C47_errors : forall fields args target s s' target' e,
    parse fields args target s = (s', RVal (target', Some e)) ->
    match e with
    | EMissing k => exists f, In f fields /\ fp_name f = k /\ fp_required f = true /\ ~ In k (keys args)
    | ECoerce k => exists f v s1 s2, In f fields /\ fp_name f = k /\ assoc k args = Some v /\
                     coerce (fp_type f) v s1 = (s2, RVal None)
    | EUnexpected k => In k (keys args) /\ forall f, In f fields -> fp_name f <> k
    end.
  Proof.
    intros fields args target s s' target' e H.
    assert (L : forall fields parsed target s s' parsed' target' err,
      parse_fields fields args parsed target s = (s', RVal (parsed', target', err)) ->
      match err with
      | Some (EMissing k) =>
          exists f, In f fields /\ fp_name f = k /\ fp_required f = true /\ ~ In k (keys args)
      | Some (ECoerce k) =>
          exists f v s1 s2, In f fields /\ fp_name f = k /\ assoc k args = Some v /\
                     coerce (fp_type f) v s1 = (s2, RVal None)
      | Some (EUnexpected _) => False
      | None => incl parsed parsed' /\
                forall f, In f fields -> In (fp_name f) (keys args) -> In (fp_name f) parsed'
      end).
    { clear. induction fields as [|f fields IH]; intros parsed target s s' parsed' target' err H.
      - cbn in H. injection H as <- <- <- <-. split; [apply incl_refl | intros ? []].
      - cbn [ArgParser.parse_fields] in H.
        destruct (assoc (fp_name f) args) as [v|] eqn:Ea.
        + unfold mbind in H. destruct (coerce (fp_type f) v s) as [s1 [[w|]| |]] eqn:Ec; try discriminate.
          * destruct (set_ok (fp_type f) w); [|discriminate].
            apply IH in H. destruct err as [[k|k|k]|].
            -- destruct H as (g & Hg & R). exists g. split; [right|]; auto.
            -- destruct H as (g & v' & s2 & s3 & Hg & R). exists g, v', s2, s3. split; [right|]; auto.
            -- auto.
            -- destruct H as [Hi Hf]. split.
               ++ intros x Hx. apply Hi. apply in_or_app. auto.
               ++ intros g [<-|Hg] Hin; auto. apply Hi. apply in_or_app. right; left; auto.
          * injection H as <- <- <- <-. exists f, v, s, s1. split; [left|]; auto.
        + destruct (fp_required f) eqn:Er.
          * injection H as <- <- <- <-. exists f. split; [left; auto|]. repeat split; auto.
            apply assoc_none; auto.
          * apply IH in H. destruct err as [[k|k|k]|].
            -- destruct H as (g & Hg & R). exists g. split; [right|]; auto.
            -- destruct H as (g & v' & s2 & s3 & Hg & R). exists g, v', s2, s3. split; [right|]; auto.
            -- auto.
            -- destruct H as [Hi Hf]. split; auto.
               intros g [<-|Hg] Hin; auto. exfalso. apply assoc_none in Ea. auto. }
    unfold ArgParser.parse, mbind in H.
    destruct (parse_fields fields args [] target s) as [s1 [[[parsed t1] err]| |]] eqn:E; try discriminate.
    apply L in E. destruct err as [e'|].
    - injection H as <- <- <-. destruct e'; auto. contradiction.
    - destruct (Nat.eqb (List.length parsed) (List.length args)); [discriminate|].
      destruct E as [_ Hf].
      assert (U : forall names, unexpected parsed names = Some e ->
                  exists k, e = EUnexpected k /\ In k names /\ ~ In k parsed).
      { induction names as [|n names IH]; simpl; [discriminate|].
        destruct (mem_str n parsed) eqn:Em; intros Hu.
        - destruct (IH Hu) as (k & -> & ? & ?). exists k. auto.
        - injection Hu as <-. exists n. repeat split; auto.
          intros Hin. apply mem_str_in in Hin. congruence. }
      injection H as <- <- Hu. destruct (U _ Hu) as (k & -> & Hin & Hnp).
      split; auto. intros f Hff <-. apply Hnp. auto.
  Qed.

  (** Conversely, when nothing is missing or undeclared and the coercions
      cannot fail, extraction succeeds. *)
  Theorem C47_complete : forall fields args target s,
    (forall f, In f fields -> fp_required f = true -> In (fp_name f) (keys args)) ->
    (forall k, In k (keys args) -> exists f, In f fields /\ fp_name f = k) ->
    (forall f v s, In f fields -> assoc (fp_name f) args = Some v ->
       exists s' w, coerce (fp_type f) v s = (s', RVal (Some w)) /\ set_ok (fp_type f) w = true) ->
    exists s' target', parse fields args target s = (s', RVal (target', None)).
  Proof.
    intros fields args target s Hreq Hdecl Hco.
    assert (L : forall fields parsed target s,
      (forall f, In f fields -> fp_required f = true -> In (fp_name f) (keys args)) ->
      (forall f v s, In f fields -> assoc (fp_name f) args = Some v ->
         exists s' w, coerce (fp_type f) v s = (s', RVal (Some w)) /\ set_ok (fp_type f) w = true) ->
      exists s' parsed' target', parse_fields fields args parsed target s = (s', RVal (parsed', target', None)) /\
        incl parsed parsed' /\
        forall f, In f fields -> In (fp_name f) (keys args) -> In (fp_name f) parsed').
    { clear. induction fields as [|f fields IH]; intros parsed target s Hreq Hco.
      - exists s, parsed, target. repeat split; [apply incl_refl | intros ? []].
      - cbn [ArgParser.parse_fields]. destruct (assoc (fp_name f) args) as [v|] eqn:Ea.
        + destruct (Hco f v s (or_introl eq_refl) Ea) as (s1 & w & Ec & Es).
          unfold mbind. rewrite Ec, Es.
          destruct (IH (parsed ++ [fp_name f]) (set_field (fp_idx f) w target) s1) as (s2 & p2 & t2 & E & Hi & Hf).
          { intros; apply Hreq; auto. right; auto. }
          { intros; eapply Hco; eauto. right; auto. }
          exists s2, p2, t2. split; [exact E|]. split.
          * intros x Hx. apply Hi. apply in_or_app. auto.
          * intros g [<-|Hg] Hin; auto. apply Hi. apply in_or_app. right; left; auto.
        + destruct (fp_required f) eqn:Er.
          * exfalso. apply assoc_none in Ea. apply Ea. apply Hreq; auto. left; auto.
          * destruct (IH parsed target s) as (s2 & p2 & t2 & E & Hi & Hf).
            { intros; apply Hreq; auto. right; auto. }
            { intros; eapply Hco; eauto. right; auto. }
            exists s2, p2, t2. split; [exact E|]. split; auto.
            intros g [<-|Hg] Hin; auto. exfalso. apply assoc_none in Ea. auto. }
    destruct (L fields [] target s Hreq Hco) as (s' & parsed & t & E & _ & Hf).
    unfold ArgParser.parse, mbind. rewrite E.
    assert (U : unexpected parsed (keys args) = None).
    { assert (forall names, (forall k, In k names -> In k parsed) -> unexpected parsed names = None).
      { induction names as [|n names IH]; simpl; intros Hn; auto.
        replace (mem_str n parsed) with true by (symmetry; apply mem_str_in; auto). auto. }
      apply H. intros k Hk. destruct (Hdecl k Hk) as (f & Hin & <-). apply Hf; auto. }
    destruct (Nat.eqb (List.length parsed) (List.length args)); [|rewrite U];
      exists s', t; reflexivity.
  Qed.

  (** With the `**` argument, the dictionary passed there is what is parsed. *)
  Theorem C47_double_star : forall fields args target d s,
    assoc "**" args = Some (VDict d) ->
    (forall s, reduce (VDict d) s = (s, RVal (VDict d))) ->
    extract_args reduce reduce_ws truth members associative sprint
      to_stored_query to_lazy_expr row_to_dict fields args target s
    = parse fields d target s.
  Proof.
    intros fields args target d s Ha Hr.
    unfold extract_args, normalize_args, mbind. rewrite Ha. rewrite Hr. reflexivity.
  Qed.

  (** What a field of each type may hold: a value of that Go type. *)
  Definition field_holds (t : ftype) (w : val) : Prop :=
    match t with
    | TString => exists x, w = VStr x
    | TBool => exists b, w = VBool b
    | TFloat64 | TFloat32 => exists f, w = VF64 f
    | TInt64 => exists z, w = VInt KInt64 z /\ (- 2 ^ 63 <= z < 2 ^ 63)%Z
    | TInt => exists z, w = VInt KInt z /\ (- 2 ^ 63 <= z < 2 ^ 63)%Z
    | TUint64 => exists z, w = VInt KUint64 z /\ (0 <= z < 2 ^ 64)%Z
    | TStrings => exists l, (w = VNilArr /\ l = [] \/ w = VArr (map VStr l))
    | TAnys | TDicts => w = VNilArr \/ exists l, w = VArr l
    | TDict => exists d, w = VDict d
    | TOther => False
    | TAny | TLazyAny | TStored | TLazy => True
    end.

  Lemma to_int64_range : forall v z, to_int64 v = Some z -> (- 2 ^ 63 <= z < 2 ^ 63)%Z.
  Proof.
    intros v z H. destruct v; try discriminate H.
    - injection H as <-. destruct b; lia.
    - assert (z = wrap64 z0) as -> by (destruct k; cbn in H; congruence). apply wrap64_range.
    - injection H as <-. unfold f_to_int64. change (2 ^ 63)%Z with two63.
      destruct (f_int_part f) as [q|]; [|unfold two63; lia].
      destruct (Z.leb_spec (- two63) q), (Z.ltb_spec q two63); cbn [andb]; unfold two63 in *; lia.
  Qed.

  (** Whatever the argument, what is stored has the type of the field. *)
  Theorem C47_stored_type : forall t v s s' w,
    coerce t v s = (s', RVal (Some w)) -> field_holds t w.
  Proof.
    intros t v s s' w H.
    assert (K : forall A (m : M S A) (f : A -> M S (option val)) s0,
      mbind m f s0 = (s', RVal (Some w)) -> exists a s1, f a s1 = (s', RVal (Some w))).
    { intros A m f s0 E. unfold mbind in E. destruct (m s0) as [s1 [a| |]]; try discriminate E. eauto. }
    destruct t; cbn [field_holds]; auto; cbn [ArgParser.coerce] in H;
      try (apply K in H as (a & s1 & H)).
    - destruct a; try (injection H as <- <-; eauto; fail);
        try (destruct k; try discriminate H);
        try discriminate H; cbn [is_nil] in H;
        try (injection H as <- <-; eauto; fail);
        apply K in H as (ms & s2 & H); apply K in H as (kvs & s3 & H); injection H as <- <-; eauto.
    - apply K in H as (l & s2 & H). injection H as <- <-. exists l. destruct l; [left|right]; auto.
    - apply K in H as (l & s2 & H). injection H as <- <-. destruct l; [left|right]; cbn; eauto.
    - apply K in H as (l & s2 & H). apply K in H as (ds & s3 & H). injection H as <- <-. right; eauto.
    - apply K in H as (x & s2 & H). injection H as <- <-. eauto.
    - apply K in H as (b & s2 & H). injection H as <- <-. eauto.
    - destruct (to_float a); [injection H as <- <-; eauto|discriminate H].
    - destruct (to_float a); [injection H as <- <-; eauto|discriminate H].
    - destruct (to_int64 a) as [z|] eqn:E; [|discriminate H]. injection H as <- <-.
      exists z. split; [reflexivity|now apply to_int64_range in E].
    - destruct (to_int64 a) as [z|] eqn:E; [|discriminate H]. injection H as <- <-.
      exists (wrapu64 z). split; [reflexivity|]. apply Z.mod_pos_bound. reflexivity.
    - destruct (to_int64 a) as [z|] eqn:E; [|discriminate H]. injection H as <- <-.
      exists z. split; [reflexivity|now apply to_int64_range in E].
    - discriminate H.
  Qed.

  (** [stores t v w]: an argument that is [v] leaves [w] in a field of type
      [t].  A negative number given for an unsigned field is not refused. *)
  Inductive stores : ftype -> val -> val -> Prop :=
  | St_string x : stores TString (VStr x) (VStr x)
  | St_none v : v = VNil \/ v = VNull -> stores TString v (VStr "")
  | St_bool b : stores TBool (VBool b) (VBool b)
  | St_float f : stores TFloat64 (VF64 f) (VF64 f)
  | St_int64 k z : k <> KUint -> (- 2 ^ 63 <= z < 2 ^ 63)%Z -> stores TInt64 (VInt k z) (VInt KInt64 z)
  | St_int k z : k <> KUint -> (- 2 ^ 63 <= z < 2 ^ 63)%Z -> stores TInt (VInt k z) (VInt KInt z)
  | St_uint64 k z : k <> KUint -> (0 <= z < 2 ^ 63)%Z -> stores TUint64 (VInt k z) (VInt KUint64 z)
  | St_negative k z : k <> KUint -> (- 2 ^ 63 <= z < 0)%Z -> stores TUint64 (VInt k z) (VInt KUint64 (z + 2 ^ 64))
  | St_large z : (2 ^ 63 <= z < 2 ^ 64)%Z -> stores TUint64 (VInt KUint64 z) (VInt KUint64 z)
  | St_dict d : stores TDict (VDict d) (VDict d)
  | St_strings l : l <> [] -> stores TStrings (VArr (map VStr l)) (VArr (map VStr l))
  | St_one_string x : stores TStrings (VStr x) (VArr [VStr x])
  | St_anys l : l <> [] -> stores TAnys (VArr l) (VArr l)
  | St_empty v : v = VNilArr \/ v = VArr [] -> stores TAnys v VNilArr
  | St_one v : v <> VNil -> v <> VNilArr -> (forall l, v <> VArr l) -> stores TAnys v (VArr [v]).

  (** An argument of the type of the field, or one of the usual neighbours,
      is stored without change: integers keep their value, text its bytes, a
      list its elements, and a single value given for a list is a list of
      one. *)
  Theorem C47_stored_value : forall t v w s,
    (forall v s, reduce v s = (s, RVal v)) ->
    (forall b s, truth (VBool b) s = (s, RVal b)) ->
    stores t v w -> coerce t v s = (s, RVal (Some w)).
  Proof.
    intros t v w s R T H.
    assert (W : forall z, (- 2 ^ 63 <= z < 2 ^ 63)%Z -> wrap64 z = z).
    { intros z B. apply wrap64_id. exact B. }
    destruct H; cbn [ArgParser.coerce]; unfold mbind; rewrite R; cbv [mret];
      unfold ArgParser.extract_any_array, ArgParser.extract_string_array, mbind; try rewrite R; cbn [is_array arr_elems to_int64 to_float].
    - reflexivity.
    - now destruct H as [-> | ->].
    - now rewrite T.
    - reflexivity.
    - destruct k; try contradiction; cbn [to_int64]; now rewrite W.
    - destruct k; try contradiction; cbn [to_int64]; now rewrite W.
    - destruct k; try contradiction; cbn [to_int64]; rewrite W by lia; unfold wrapu64;
        rewrite Z.mod_small by (unfold two64; lia); reflexivity.
    - destruct k; try contradiction; cbn [to_int64]; rewrite W by lia; unfold wrapu64;
        (replace (z mod two64)%Z with (z + 2 ^ 64)%Z; [reflexivity|];
         apply Z.mod_unique_pos with (q := (-1)%Z); unfold two64; lia).
    - cbn [to_int64]. replace (wrap64 z) with (z - 2 ^ 64)%Z.
      + unfold wrapu64. replace ((z - 2 ^ 64) mod two64)%Z with z; [reflexivity|].
        apply Z.mod_unique_pos with (q := (-1)%Z); unfold two64; lia.
      + unfold wrap64. replace ((z + two63) mod two64)%Z with (z - two63)%Z; [unfold two63; lia|].
        apply Z.mod_unique_pos with (q := 1%Z); unfold two64, two63; lia.
    - reflexivity.
    - assert (E : mmap (string_elem members associative sprint) (map VStr l) s = (s, RVal (map (fun x => [x]) l))).
      { clear H. induction l as [|x l IH]; [reflexivity|]. cbn [map mmap]. unfold mbind at 1.
        cbn [string_elem to_string mret]. unfold mbind. now rewrite IH. }
      rewrite E. cbv [mret]. replace (List.concat (map (fun x => [x]) l)) with l by (clear; induction l; cbn; congruence).
      now destruct l.
    - reflexivity.
    - now destruct l.
    - now destruct H as [-> | ->].
    - destruct v; try contradiction; try reflexivity; now edestruct H1.
  Qed.

  (** * C48 *)

  Notation extract_string_array := (extract_string_array reduce members associative sprint).

  (** What each element of the list should become. *)
  Definition elem_string (v : val) : string :=
    match v with VStr s => s | _ => sprint v end.

  (** Every element that is a string, or an object whose number of members is
      not one, gives exactly one string, in order. *)
  Theorem C48_one_string_per_element_partial : forall l s,
    (forall v s, reduce v s = (s, RVal v)) ->
    (forall x s, In x l -> (exists str, x = VStr str) \/
       exists ms, members x s = (s, RVal ms) /\ List.length ms <> 1) ->
    extract_string_array (VArr l) s = (s, RVal (map elem_string l)).
  Proof.
    intros l s Hred Hl.
    unfold ArgParser.extract_string_array, mbind. rewrite Hred. cbn [arr_elems].
    assert (E : mmap (string_elem members associative sprint) l s =
                (s, RVal (map (fun v => [elem_string v]) l))).
    { clear Hred. induction l as [|x l IH]; [reflexivity|].
      cbn [mmap map]. unfold mbind at 1.
      assert (Ex : string_elem members associative sprint x s = (s, RVal [elem_string x])).
      { destruct (Hl x s (or_introl eq_refl)) as [[str ->]|(ms & Hm & Hn)]; [reflexivity|].
        unfold string_elem. destruct x; try reflexivity;
          cbn [to_string]; unfold mbind; rewrite Hm;
          destruct ms as [|? [|? ?]]; try reflexivity; simpl in Hn; lia. }
      rewrite Ex. unfold mbind. rewrite IH; [reflexivity|].
      intros; apply Hl; right; auto. }
    rewrite E. unfold mret. f_equal. f_equal.
    clear. induction l; simpl; congruence.
  Qed.
  (** A single value given for a list of strings gives one string. *)
  Theorem C48_single_value_is_one_string : forall v s,
    (forall v s, reduce v s = (s, RVal v)) ->
    v <> VNil -> is_array v = false ->
    extract_string_array v s = (s, RVal [elem_string v]).
  Proof.
    intros v s R N A. unfold ArgParser.extract_string_array, mbind. rewrite R.
    destruct v; try contradiction; try reflexivity; discriminate A.
  Qed.

  (** A list argument of any values keeps its elements, in order; a single
      value is a list of one. *)
  Theorem C48_elements_kept : forall v s,
    (forall v s, reduce v s = (s, RVal v)) -> v <> VNil ->
    ArgParser.extract_any_array reduce v s =
    (s, RVal (match v with VArr l => l | VNilArr => [] | _ => [v] end)).
  Proof.
    intros v s R N. unfold ArgParser.extract_any_array, mbind. rewrite R.
    destruct v; try contradiction; reflexivity.
  Qed.
End Parser.

(** * Concrete operations, for the examples *)

Definition pure_members (v : val) : M unit (list string) :=
  mret (match v with VDict d => keys d | _ => [] end).
Definition pure_assoc (v : val) (k : string) : M unit (val * bool) :=
  mret (assoc_disp [] v (KVal (VStr k))).
Definition pure_print (v : val) : string :=
  match v with VStr s => s | VNull => "Null" | VDict _ => "{...}" | _ => "?" end.
Definition pure_parse :=
  parse (S := unit) mret mret (fun v => mret (bool_disp [] v)) pure_members pure_assoc pure_print
        mret mret mret.
Definition pure_strings (v : val) : res (list string) :=
  snd (extract_string_array (S := unit) mret pure_members pure_assoc pure_print v tt).

(** plugins/range.go:13-17 *)
Definition range_struct : list sfield :=
  [ {| sf_name := "Start"; sf_tag := "optional,field=start"; sf_type := TInt64; sf_settable := true |};
    {| sf_name := "End"; sf_tag := "required,field=end"; sf_type := TInt64; sf_settable := true |};
    {| sf_name := "Step"; sf_tag := "optional,field=step"; sf_type := TInt64; sf_settable := true |} ].
Definition range_fields : list fieldp :=
  [ {| fp_name := "start"; fp_idx := 0; fp_required := false; fp_type := TInt64 |};
    {| fp_name := "end"; fp_idx := 1; fp_required := true; fp_type := TInt64 |};
    {| fp_name := "step"; fp_idx := 2; fp_required := false; fp_type := TInt64 |} ].

Example C47_example_build : build_parser 0 range_struct = Ok (Some range_fields).
Proof. vm_compute. reflexivity. Qed.

Example C47_example_success :
  pure_parse range_fields [("end", vint 5); ("step", vint 2)] [vint 0; vint 0; vint 0] tt =
  (tt, RVal ([vint 0; vint 5; vint 2], None)).
Proof. vm_compute. reflexivity. Qed.

Example C47_example_errors :
  snd (pure_parse range_fields [("step", vint 2)] [vint 0; vint 0; vint 0] tt)
    = RVal ([vint 0; vint 0; vint 0], Some (EMissing "end")) /\
  snd (pure_parse range_fields [("end", VStr "x")] [vint 0; vint 0; vint 0] tt)
    = RVal ([vint 0; vint 0; vint 0], Some (ECoerce "end")) /\
  snd (pure_parse range_fields [("end", vint 1); ("foo", vint 1)] [vint 0; vint 0; vint 0] tt)
    = RVal ([vint 0; vint 1; vint 0], Some (EUnexpected "foo")).
Proof. vm_compute. auto. Qed.

(** An argument of each kind, for the operations above. *)
Example C47_example_stored :
  snd (pure_parse
    [ {| fp_name := "a"; fp_idx := 0; fp_required := true; fp_type := TInt64 |};
      {| fp_name := "b"; fp_idx := 1; fp_required := true; fp_type := TUint64 |};
      {| fp_name := "c"; fp_idx := 2; fp_required := true; fp_type := TAnys |};
      {| fp_name := "d"; fp_idx := 3; fp_required := true; fp_type := TStrings |};
      {| fp_name := "e"; fp_idx := 4; fp_required := true; fp_type := TString |} ]
    [("a", VInt KInt32 (-7)); ("b", vint (-1)); ("c", VBool true);
     ("d", VArr [VStr "x"; VStr "y"]); ("e", VNull)]
    [VNull; VNull; VNull; VNull; VNull] tt)
  = RVal ([vint (-7); VInt KUint64 18446744073709551615; VArr [VBool true];
           VArr [VStr "x"; VStr "y"]; VStr ""], None).
Proof. vm_compute. reflexivity. Qed.

(** Finding: two fields declared with the same name let an undeclared
    argument through, because only the numbers are compared. *)
Theorem C47_duplicate_fields_refuted :
  exists decl fields args target',
    build_parser 0 decl = Ok (Some fields) /\
    pure_parse fields args [VNull; VNull] tt = (tt, RVal (target', None)) /\
    exists k, In k (keys args) /\ forall f, In f fields -> fp_name f <> k.
Proof.
  exists [ {| sf_name := "A"; sf_tag := "field=x"; sf_type := TAny; sf_settable := true |};
           {| sf_name := "B"; sf_tag := "field=x"; sf_type := TAny; sf_settable := true |} ].
  eexists. exists [("x", vint 1); ("y", vint 2)]. eexists.
  split; [vm_compute; reflexivity|]. split; [vm_compute; reflexivity|].
  exists "y". split; [simpl; auto|].
  intros f [<-|[<-|[]]]; discriminate.
Qed.

(** Finding: any number passed to a float32 field makes the extraction
    panic. *)
Theorem C47_float32_field_refuted :
  exists decl fields,
    build_parser 0 decl = Ok (Some fields) /\
    snd (pure_parse fields [("x", vint 1)] [VNull] tt) = RPanic.
Proof.
  exists [ {| sf_name := "X"; sf_tag := "field=x"; sf_type := TFloat32; sf_settable := true |} ].
  eexists. split; [vm_compute; reflexivity|]. vm_compute. reflexivity.
Qed.

(** Finding: a one member dictionary whose member is a string yields two
    strings. *)
Theorem C48_single_member_refuted :
  exists l strings, pure_strings (VArr l) = RVal strings /\ List.length strings <> List.length l.
Proof.
  exists [VDict [("Name", VStr "a")]]. eexists. split; [vm_compute; reflexivity|]. simpl. lia.
Qed.

Example C48_example :
  pure_strings (VArr [VStr "a"; VNull; VDict [("x", VStr "1"); ("y", VStr "2")]; VStr ""]) =
  RVal ["a"; "Null"; "{...}"; ""].
Proof. vm_compute. reflexivity. Qed.

Example C48_example_hyp : forall x s,
  In x [VStr "a"; VNull; VDict [("x", VStr "1"); ("y", VStr "2")]; VStr ""] ->
  (exists str, x = VStr str) \/
  exists ms, pure_members x s = (s, RVal ms) /\ List.length ms <> 1.
Proof.
  intros x s [<-|[<-|[<-|[<-|[]]]]]; eauto; right; eexists; (split; [reflexivity | simpl; lia]).
Qed.

Print Assumptions C47_tags.
Print Assumptions C47_success_partial.
Print Assumptions C47_errors.
Print Assumptions C47_complete.
Print Assumptions C47_double_star.
Print Assumptions C47_stored_type.
Print Assumptions C47_stored_value.
Print Assumptions C48_one_string_per_element_partial.
Print Assumptions C48_single_value_is_one_string.
Print Assumptions C48_elements_kept.
