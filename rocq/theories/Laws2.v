(** Laws of queries that go through foreach(), if() and chain(), for what they
    mean by PureSpec.v: the second part of the groundwork of C93
    (Laws2Props.v). *)

From Coq Require Import ZArith List String Bool Lia PeanoNat.
From Verif Require Import Base BaseProofs F64 Value Protocols Monad Chains Flatten Builtins Syntax Eval
  PureSpec PureEval PureSelect Laws.
Import ListNotations.
Open Scope nat_scope.
Open Scope list_scope.

(** ** Vocabulary *)

(** The variables that a query mentions, with its subqueries up to [depth]
    deep.  No counterpart in /repo. *)
Section Names.
  Variable inner : select -> list string.

  Definition arg_names (a : argval) : list string :=
    match a with
    | AExpr e | AArray e => names e
    | ASelect q => inner q
    | AEmpty => []
    end.
  Definition column_names (b : colbody) : list string :=
    match b with
    | CExpr e => names e
    | CSelect q => inner q
    | CStar => []
    end.
  Definition from_names (p : plugin) : list string :=
    match p with
    | Plugin (x :: _) false _ => [x]
    | Plugin _ _ args => flat_map (fun na => arg_names (snd na)) args
    end.
End Names.

Fixpoint query_names (depth : nat) (q : select) : list string :=
  match depth, q with
  | S depth, Select _ cols from w _ _ _ =>
      from_names (query_names depth) from ++
      flat_map (fun c => column_names (query_names depth) (snd c)) cols ++
      match w with Some w => names w | None => [] end
  | O, _ => []
  end.

(** Two environments give these variables the same values. *)
Definition agree (l : list string) (fr fr' : list dict) : Prop :=
  forall x, In x l -> lookup fr x = lookup fr' x.

(** foreach(row={r}, query={q}); plugins/foreach.go:125-187 *)
Definition each (foreach : string) (r q : select) : plugin :=
  Plugin [foreach] true [("row"%string, ASelect r); ("query"%string, ASelect q)].

(** if(condition=c, then={a}, else={b}); plugins/if.go:14-41 *)
Definition either (if_ : string) (c : expr) (a b : select) : plugin :=
  Plugin [if_] true [("condition"%string, AExpr c); ("then"%string, ASelect a); ("else"%string, ASelect b)].
Definition only_if (if_ : string) (c : expr) (a : select) : plugin :=
  Plugin [if_] true [("condition"%string, AExpr c); ("then"%string, ASelect a)].

(** SELECT * FROM p *)
Definition all_of (p : plugin) : select := Select true [] p None None None None.

Section Laws2.
  Variable E : env.
  Variable funs : string -> option (dict -> option val).

  Lemma agree_app : forall a b fr fr', agree (a ++ b) fr fr' <-> agree a fr fr' /\ agree b fr fr'.
  Proof.
    intros a b fr fr'. unfold agree. split.
    - intros H. split; intros x I; apply H, in_or_app; auto.
    - intros [A B] x I. apply in_app_or in I as [I|I]; auto.
  Qed.

  Lemma agree_cons : forall l d fr fr', agree l fr fr' -> agree l (d :: fr) (d :: fr').
  Proof. intros l d fr fr' H x I. cbn. rewrite (H x I). reflexivity. Qed.

  Lemma agree_flat : forall A (f : A -> list string) l fr fr', agree (flat_map f l) fr fr' ->
    forall a, In a l -> agree (f a) fr fr'.
  Proof. intros A f l fr fr' H a I x IX. apply H, in_flat_map. eauto. Qed.

  Lemma agree_same : forall l fr fr', (forall x, lookup fr x = lookup fr' x) -> agree l fr fr'.
  Proof. intros l fr fr' H x _. apply H. Qed.

  (** The rows of a query depend on the variables it mentions only, and on no
      more depth than it needs. *)
  Section Step.
    Variable inner : select -> list string.
    Variables subq subq' : list dict -> select -> option (list dict).
    Hypothesis SUB : forall fr fr' q r, agree (inner q) fr fr' -> subq fr q = Some r -> subq' fr' q = Some r.

    Lemma sequence_imp : forall A B (f g : A -> option B) l r,
      (forall a b, In a l -> f a = Some b -> g a = Some b) ->
      sequence (map f l) = Some r -> sequence (map g l) = Some r.
    Proof.
      intros A B f g l. induction l as [|a l IH]; intros r H S; [exact S|]. cbn in *.
      destruct (f a) as [b|] eqn:FA; [|discriminate]. rewrite (H a b (or_introl eq_refl) FA).
      destruct (sequence (map f l)) as [bs|]; [|discriminate].
      rewrite (IH bs (fun a b I => H a b (or_intror I)) eq_refl). exact S.
    Qed.

    Lemma columns_agree : forall fr fr' row cols acc out,
      agree (flat_map (fun c => column_names inner (snd c)) cols) (row :: fr) (row :: fr') ->
      columns E funs subq fr row cols acc = Some out -> columns E funs subq' fr' row cols acc = Some out.
    Proof.
      intros fr fr' row cols. induction cols as [|[n b] cols IH]; intros acc out A H; cbn [columns] in *; [exact H|].
      cbn [flat_map snd] in A. apply agree_app in A as [A1 A2].
      destruct (String.eqb n "*"); [now apply IH|].
      destruct (column E funs subq fr row b) as [v|] eqn:CV; [|discriminate]. cbn [obind] in H.
      assert (CV' : column E funs subq' fr' row b = Some v).
      { destruct b as [|q|e]; cbn [column column_names] in *; [exact CV| |].
        - destruct (subq (row :: fr) q) as [rs|] eqn:SQ; [|discriminate].
          rewrite (SUB _ (row :: fr') _ _ A1 SQ). exact CV.
        - now rewrite <- (den_names E funs e (row :: fr)) by exact A1. }
      rewrite CV'. cbn [obind]. now apply IH.
    Qed.

    Lemma select_agree : forall fr fr' star cols w rows out,
      (forall row, In row rows -> agree (flat_map (fun c => column_names inner (snd c)) cols ++
         match w with Some w => names w | None => [] end) (row :: fr) (row :: fr')) ->
      select_rows E funs subq fr star cols w rows = Some out -> select_rows E funs subq' fr' star cols w rows = Some out.
    Proof.
      intros fr fr' star cols w rows. 
      induction rows as [|row rows IH]; intros out A H; cbn [select_rows] in *; [exact H|].
      destruct (proj1 (agree_app _ _ _ _) (A row (or_introl eq_refl))) as [AC AW].
      unfold project in *. destruct (columns E funs subq fr row cols _) as [o|] eqn:CO; [|discriminate].
      rewrite (columns_agree _ _ _ _ _ _ AC CO). cbn [obind] in *.
      assert (HW : holds E funs fr o row w = holds E funs fr' o row w).
      { destruct w as [w|]; [|reflexivity]. cbn [holds]. f_equal. apply den_names. now apply agree_cons. }
      rewrite <- HW. destruct (holds E funs fr o row w) as [kp|]; [|discriminate]. cbn [obind] in *.
      destruct (select_rows E funs subq _ _ _ _ rows) as [l|]; [|discriminate].
      now rewrite (IH l (fun r I => A r (or_intror I)) eq_refl).
    Qed.

    Lemma arg_agree : forall fr fr' a, agree (arg_names inner a) fr fr' ->
      arg_value E funs fr a = arg_value E funs fr' a.
    Proof. intros fr fr' [e|q|e|] A; cbn [arg_value arg_names] in *; try reflexivity; now apply den_names. Qed.

    Lemma source_agree : forall fr fr' p rows, agree (from_names inner p) fr fr' ->
      source E funs subq fr p = Some rows -> source E funs subq' fr' p = Some rows.
    Proof.
      intros fr fr' [path called args] rows A H. destruct path as [|name [|? ?]]; cbn [source] in *; try (destruct called; discriminate).
      destruct called.
      2: { destruct args; [|discriminate]. cbn [from_names] in A. now rewrite <- (A name (or_introl eq_refl)). }
      cbn [from_names] in A. destruct (negb (distinct (keys args))); [discriminate|].
      assert (ARG : forall n a, assoc n args = Some a -> agree (arg_names inner a) fr fr').
      { intros n a AN. apply BaseProofs.assoc_in in AN. exact (agree_flat _ _ _ _ _ A _ AN). }
      assert (VAL : forall n a, assoc n args = Some a -> arg_value E funs fr a = arg_value E funs fr' a).
      { intros n a AN. apply arg_agree, (ARG _ _ AN). }
      assert (INT : forall n, whole_arg E funs fr n args = whole_arg E funs fr' n args).
      { intros n. unfold whole_arg. destruct (assoc n args) as [a|] eqn:AN; [|reflexivity]. now rewrite (VAL _ _ AN). }
      destruct (assoc name (env_plugs E)) as [[ | | | | | | ]|]; try discriminate.
      all: try (destruct (given _ _ args); [|discriminate]).
      - (* if *)
        destruct (assoc "condition" args) as [c|] eqn:AC; [|discriminate].
        destruct (assoc "then" args) as [[e|q|e|]|] eqn:AT; try discriminate.
        rewrite <- (VAL _ _ AC). destruct (arg_value E funs fr c) as [v|]; [|discriminate]. cbn [obind] in *.
        destruct (assoc "else" args) as [[e|q'|e|]|] eqn:AE; try discriminate; cbn [obind] in *.
        all: destruct (match v with VNil => true | _ => false end); [discriminate|].
        all: destruct (truthy E v); [eapply SUB; [exact (ARG _ _ AT)|exact H]|]; try exact H.
        eapply SUB; [exact (ARG _ _ AE)|exact H].
      - (* chain *)
        unfold all_rows in *. destruct (sequence _) as [ls|] eqn:SQ in H; [|discriminate].
        erewrite sequence_imp; [exact H| |exact SQ]. intros [n a] b I HB. cbn [snd] in *.
        destruct a as [e|q|e|]; try discriminate. eapply SUB; [|exact HB].
        exact (agree_flat _ _ _ _ _ A _ I).
      - (* foreach *)
        destruct (assoc "row" args) as [r|] eqn:AR; [|discriminate].
        assert (HR : forall l, match r with
                     | ASelect q => subq fr q
                     | _ => obind (arg_value E funs fr r) (fun v => dicts (iterate (env_iter E) v)) end = Some l ->
                   match r with
                     | ASelect q => subq' fr' q
                     | _ => obind (arg_value E funs fr' r) (fun v => dicts (iterate (env_iter E) v)) end = Some l).
        { intros l HL. pose proof (VAL _ _ AR) as V. pose proof (ARG _ _ AR) as AG.
          destruct r as [e|q|e|]; cbn [arg_names] in *; try (rewrite <- V; exact HL). now apply (SUB fr). }
        apply obind_some in H as (l & HL & H). rewrite (HR l HL). cbn [obind].
        destruct (assoc "query" args) as [[e|q|e|]|] eqn:AQ; try discriminate; [|exact H].
        unfold all_rows in *. destruct (sequence (map (fun row => subq (row :: fr) q) l)) as [ls|] eqn:SQ; [|discriminate].
        erewrite sequence_imp; [exact H| |exact SQ]. intros row b _ HB. cbn beta in *.
        eapply SUB; [|exact HB]. apply agree_cons. exact (ARG _ _ AQ).
      - (* flatten *)
        destruct (assoc "query" args) as [[e|q|e|]|] eqn:AQ; try discriminate.
        apply obind_some in H as (l & HL & H). rewrite (SUB _ fr' _ _ (ARG _ _ AQ) HL). exact H.
      - (* range *)
        rewrite <- !INT. exact H.
    Qed.
  End Step.

  Theorem query_agree : forall n m fr fr' q rows, n <= m -> agree (query_names n q) fr fr' ->
    query_rows E funs n fr q = Some rows -> query_rows E funs m fr' q = Some rows.
  Proof.
    induction n as [|n IH]; intros m fr fr' [star cols from w g ob lim] rows LE A H; [discriminate|].
    destruct m as [|m]; [lia|]. cbn [query_rows query_names] in *. destruct g; [discriminate|].
    apply agree_app in A as [A1 A2].
    assert (SUB : forall fr fr' q r, agree (query_names n q) fr fr' -> query_rows E funs n fr q = Some r ->
      query_rows E funs m fr' q = Some r) by (intros; eapply IH; eauto; lia).
    apply obind_some in H as (tab & HT & H). rewrite (source_agree _ _ _ SUB _ _ _ _ A1 HT). cbn [obind].
    apply obind_some in H as (out & HO & H). rewrite (select_agree _ _ _ SUB _ fr' _ _ _ _ _ (fun row _ => agree_cons _ row _ _ A2) HO). exact H.
  Qed.

  Lemma query_deeper : forall n m fr q rows, n <= m -> query_rows E funs n fr q = Some rows ->
    query_rows E funs m fr q = Some rows.
  Proof. intros n m fr q rows LE. apply query_agree; [exact LE|]. intros x _. reflexivity. Qed.

  Lemma query_same : forall n m fr fr' q rows, n <= m -> (forall x, lookup fr x = lookup fr' x) ->
    query_rows E funs n fr q = Some rows -> query_rows E funs m fr' q = Some rows.
  Proof. intros n m fr fr' q rows LE A. apply query_agree; [exact LE|]. now apply agree_same. Qed.

  (** ** The plugins *)

  Lemma star_all : forall subq fr rows, select_rows E funs subq fr true [] None rows = Some (map fields rows).
  Proof.
    intros subq fr rows. induction rows as [|row rows IH]; [reflexivity|].
    cbn [select_rows]. rewrite project_star. cbn [obind holds]. rewrite IH. reflexivity.
  Qed.

  Lemma rows_all : forall n fr p, query_rows E funs (S n) fr (all_of p) =
    option_map (map fields) (source E funs (query_rows E funs n) fr p).
  Proof.
    intros n fr p. unfold all_of. rewrite query_rows_eq.
    destruct (source E funs (query_rows E funs n) fr p) as [rows|]; [|reflexivity]. cbn [obind]. rewrite star_all. reflexivity.
  Qed.

  Lemma map_fields_idem : forall rows, map fields (map fields rows) = map fields rows.
  Proof. intros rows. rewrite map_map. apply map_ext. apply fields_idem. Qed.

  Lemma no_nils_map : forall rows, no_nils rows -> map fields rows = rows.
  Proof. intros rows H. induction H as [|row rows HR _ IH]; [reflexivity|]. cbn. now rewrite HR, IH. Qed.

  Lemma source_each : forall subq fr fe r q, assoc fe (env_plugs E) = Some PlForeach ->
    source E funs subq fr (each fe r q) =
    obind (subq fr r) (fun rows => all_rows (map (fun row => subq (row :: fr) q) rows)).
  Proof. intros subq fr fe r q H. unfold each. cbn [source keys map fst]. rewrite H. reflexivity. Qed.

  Lemma source_either : forall subq fr i c a b, assoc i (env_plugs E) = Some PlIf ->
    source E funs subq fr (either i c a b) =
    obind (den E funs fr c) (fun v =>
    if match v with VNil => true | _ => false end then None
    else if truthy E v then subq fr a else subq fr b).
  Proof. intros subq fr i c a b H. unfold either. cbn [source keys map fst]. rewrite H. reflexivity. Qed.

  Lemma source_only_if : forall subq fr i c a, assoc i (env_plugs E) = Some PlIf ->
    source E funs subq fr (only_if i c a) =
    obind (den E funs fr c) (fun v =>
    if match v with VNil => true | _ => false end then None
    else if truthy E v then subq fr a else Some []).
  Proof. intros subq fr i c a H. unfold only_if. cbn [source keys map fst]. rewrite H. reflexivity. Qed.

  Lemma all_rows_cons : forall o l, all_rows (o :: l) = obind o (fun a => option_map (app a) (all_rows l)).
  Proof. intros [a|] l; [|reflexivity]. unfold all_rows. cbn. destruct (sequence l); reflexivity. Qed.

  Lemma all_rows_app : forall l l', all_rows (l ++ l') = obind (all_rows l) (fun a => option_map (app a) (all_rows l')).
  Proof.
    intros l l'. induction l as [|o l IH]; cbn [app].
    - unfold all_rows at 2. cbn. destruct (all_rows l'); reflexivity.
    - rewrite !all_rows_cons, IH. destruct o as [a|]; [|reflexivity]. cbn [obind].
      destruct (all_rows l) as [b|]; [|reflexivity]. cbn [obind option_map].
      destruct (all_rows l') as [c|]; [|reflexivity]. cbn. now rewrite app_assoc.
  Qed.

  Lemma all_rows_imp : forall A (f g : A -> option (list dict)) l r,
    (forall a b, In a l -> f a = Some b -> g a = Some b) ->
    all_rows (map f l) = Some r -> all_rows (map g l) = Some r.
  Proof.
    intros A f g l r H HA. unfold all_rows in *. destruct (sequence (map f l)) as [ls|] eqn:SQ; [|discriminate].
    now rewrite (sequence_imp _ _ f g l ls H SQ).
  Qed.

  Lemma lookup_field_row : forall row fr x, lookup (row :: fr) x = lookup (fields row :: fr) x.
  Proof. intros row fr x. cbn. rewrite assoc_fields. destruct (assoc x row); [cbn; now rewrite or_null_idem|reflexivity]. Qed.
End Laws2.
