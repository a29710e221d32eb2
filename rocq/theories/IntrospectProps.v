(** C75: the descriptions of Go types that a host program shows to users.

    Specification: [attribute_of], [refers], [describes] and [closed] in
    IntrospectProofs. *)

From Coq Require Import List String Ascii Bool Arith Lia.
From Verif Require Import Base BaseProofs HostObject Introspect IntrospectProofs ArgParser.
Import ListNotations.
Open Scope nat_scope.
Open Scope list_scope.
Open Scope string_scope.

(** Go does not let a struct contain itself by value: embedding is well
    founded. *)
Definition embedding_founded (U : universe) : Prop :=
  exists rank : string -> nat, forall n fs f n' fs',
    kind_of U (GNamed n) = KStruct fs -> In f fs -> tf_embedded f = true ->
    tf_type f = GNamed n' -> kind_of U (GNamed n') = KStruct fs' -> rank n' < rank n.

(** ** The types that can come up are finitely many *)

Fixpoint subterms (t : gty) : list gty :=
  t :: match t with
       | GNamed _ => []
       | GPtr t | GSlice t | GArray _ t => subterms t
       | GMap k t => (subterms k ++ subterms t)%list
       end.

Definition types_of_kind (k : kind) : list gty :=
  match k with
  | KStruct fs => flat_map (fun f => subterms (tf_type f)) fs
  | KPtr t | KSlice t | KArray t | KMap t => subterms t
  | KOther => []
  end.

Definition types_of_def (d : tdef) : list gty :=
  (types_of_kind (td_kind d) ++ flat_map (fun mt => flat_map subterms (tm_out mt)) (td_methods d))%list.

Definition all_types (U : universe) (t : gty) : list gty :=
  (subterms t ++ flat_map (fun d => types_of_def (snd d)) U)%list.

Lemma subterms_refl : forall t, In t (subterms t).
Proof. destruct t; cbn; auto. Qed.

Lemma subterms_trans : forall t u v, In u (subterms t) -> In v (subterms u) -> In v (subterms t).
Proof.
  induction t as [n|t IH|t IH|n t IH|k IHk t IH]; intros u v I J; cbn in I;
    destruct I as [<-|I]; try exact J; cbn; right; try (eauto; fail).
  - apply in_or_app. apply in_app_or in I.
    destruct I; [left; eauto|right; eauto].
Qed.

Lemma in_flat : forall A (f : A -> list gty) l t u,
  (forall x t u, In t (f x) -> In u (subterms t) -> In u (f x)) ->
  In t (flat_map f l) -> In u (subterms t) -> In u (flat_map f l).
Proof.
  intros A f l t u H I J. apply in_flat_map in I. destruct I as (x & X & I).
  apply in_flat_map. exists x. split; eauto.
Qed.

Lemma types_of_def_closed : forall d t u, In t (types_of_def d) -> In u (subterms t) -> In u (types_of_def d).
Proof.
  intros d t u I J. unfold types_of_def in *. apply in_app_or in I. apply in_or_app. destruct I as [I|I].
  - left. destruct (td_kind d); cbn in *; try (eapply subterms_trans; eauto; fail); [|destruct I].
    eapply in_flat; eauto. intros. eapply subterms_trans; eauto.
  - right. eapply in_flat; eauto. intros mt t' u' I' J'. eapply in_flat; eauto.
    intros. eapply subterms_trans; eauto.
Qed.

Lemma all_types_closed : forall U t0 t u, In t (all_types U t0) -> In u (subterms t) -> In u (all_types U t0).
Proof.
  intros U t0 t u I J. unfold all_types in *. apply in_app_or in I. apply in_or_app. destruct I as [I|I].
  - left. eapply subterms_trans; eauto.
  - right. eapply in_flat; eauto. intros. eapply types_of_def_closed; eauto.
Qed.

Lemma def_types : forall U t0 n d t, assoc n U = Some d -> In t (types_of_def d) -> In t (all_types U t0).
Proof.
  intros U t0 n d t E I. apply in_or_app. right. apply in_flat_map. exists (n, d).
  split; [now apply assoc_in|exact I].
Qed.

Lemma all_types_element : forall U t0 t rep e, In t (all_types U t0) ->
  element (kind_of U t) = Some (rep, e) -> In e (all_types U t0).
Proof.
  intros U t0 t rep e I E. destruct t as [n|t|t|k t|k t]; cbn in E.
  - destruct (assoc n U) as [d|] eqn:A; [|discriminate].
    eapply def_types; eauto. apply in_or_app. left. unfold types_of_kind.
    destruct (td_kind d); cbn in E; try discriminate; injection E as _ <-; apply subterms_refl.
  - injection E as _ <-. eapply all_types_closed; eauto. cbn. right. apply subterms_refl.
  - injection E as _ <-. eapply all_types_closed; eauto. cbn. right. apply subterms_refl.
  - injection E as _ <-. eapply all_types_closed; eauto. cbn. right. apply subterms_refl.
  - injection E as _ <-. eapply all_types_closed; eauto. cbn. right. apply in_or_app. right. apply subterms_refl.
Qed.

Lemma all_types_field : forall U t0 t fs f, kind_of U t = KStruct fs -> In f fs -> In (tf_type f) (all_types U t0).
Proof.
  intros U t0 [n| | | |] fs f E I; try discriminate. cbn in E.
  destruct (assoc n U) as [d|] eqn:A; [|discriminate].
  eapply def_types; eauto. apply in_or_app. left. rewrite E. cbn. apply in_flat_map.
  exists f. split; [exact I|apply subterms_refl].
Qed.

Lemma all_types_method : forall U t0 t mt ty, In mt (methods_of U t) -> In ty (tm_out mt) -> In ty (all_types U t0).
Proof.
  intros U t0 t mt ty I J.
  assert (D : exists n d, assoc n U = Some d /\ In mt (td_methods d)).
  { destruct t as [n|[n| | | |]| | |]; cbn in I; try (destruct I; fail);
      (destruct (assoc n U) as [d|] eqn:A; [|destruct I]); exists n, d; auto. }
  destruct D as (n & d & A & M). eapply def_types; eauto. apply in_or_app. right.
  apply in_flat_map. exists mt. split; [exact M|]. apply in_flat_map. exists ty. split; [exact J|apply subterms_refl].
Qed.

(** ** Theorems *)

(** Describing a type ends whatever types it refers to, itself included. *)
Theorem C75_ends : forall same_upper U members t m, embedding_founded U ->
  exists bound m', forall fuel, bound <= fuel ->
    AddType same_upper U fuel members t m = Some (canonical_name (pointed_to U t), m').
Proof.
  intros su U mb t m [rank R]. set (t0 := pointed_to U t). set (L := all_types U t0).
  destruct (proj1 (add_ends su U mb rank R L
    (all_types_element U t0) (all_types_field U t0) (all_types_method U t0)
    (fuel_type U rank (undone L m))) t0 m) as [m' E].
  - apply in_or_app. left. apply subterms_refl.
  - apply le_n.
  - exists (fuel_type U rank (undone L m)), m'. intros fuel LE. unfold AddType.
    fold t0. now rewrite (add_type_mono su U mb _ _ _ _ _ LE E).
Qed.

(** Types described before stay as they are. *)
Theorem C75_earlier_kept : forall same_upper U fuel members t m name m' k entry,
  AddType same_upper U fuel members t m = Some (name, m') ->
  get_description m k = Some entry -> get_description m' k = Some entry.
Proof.
  intros su U fuel mb t m name m' k e E G. unfold AddType in E.
  destruct (add_type su U mb fuel (pointed_to U t) m) as [m1|] eqn:E1; [|discriminate].
  injection E as <- <-. apply add_grows in E1. unfold get_description in *.
  rewrite (gr_kept _ _ _ _ _ _ E1); [exact G|]. apply assoc_keys. eauto.
Qed.

(** The type is described under the name that is returned, by its attributes
    and nothing else. *)
Theorem C75_described : forall same_upper U fuel members t m name m',
  AddType same_upper U fuel members t m = Some (name, m') ->
  get_description m name = None ->
  exists entry, get_description m' name = Some entry /\
                describes same_upper U members (pointed_to U t) entry.
Proof.
  intros su U fuel mb t m name m' E G. unfold AddType in E.
  destruct (add_type su U mb fuel (pointed_to U t) m) as [m1|] eqn:E1; [|discriminate].
  injection E as <- <-. apply add_grows in E1. unfold get_description in *.
  apply (gr_own _ _ _ _ _ _ E1). now apply assoc_none.
Qed.

(** What a pointer, slice, array or map leads to is described as well.
    Missing: a field that is a struct (C75_struct_value_refuted). *)
Theorem C75_targets_described_partial : forall same_upper U fuel members t m name m',
  AddType same_upper U fuel members t m = Some (name, m') ->
  closed U m -> closed U m'.
Proof.
  intros su U fuel mb t m name m' E C. unfold AddType in E.
  destruct (add_type su U mb fuel (pointed_to U t) m) as [m1|] eqn:E1; [|discriminate].
  injection E as <- <-. apply add_grows in E1. now apply (gr_closed _ _ _ _ _ _ E1).
Qed.

(** Every new description is the description of some type of that name, with
    the members of the value that was given. *)
Theorem C75_new_descriptions : forall same_upper U fuel members t m name m' k,
  AddType same_upper U fuel members t m = Some (name, m') ->
  In k (keys m') -> ~ In k (keys m) ->
  exists t' entry, canonical_name t' = k /\ get_description m' k = Some entry /\
                   describes same_upper U members t' entry.
Proof.
  intros su U fuel mb t m name m' k E I N. unfold AddType in E.
  destruct (add_type su U mb fuel (pointed_to U t) m) as [m1|] eqn:E1; [|discriminate].
  injection E as <- <-. apply add_grows in E1. now apply (gr_added _ _ _ _ _ _ E1).
Qed.

(** *** Names of types *)

(** How Go writes a type. *)
Inductive spelled : gty -> string -> Prop :=
| SpNamed : forall n, spelled (GNamed n) n
| SpPointer : forall t s, spelled t s -> spelled (GPtr t) (String "*" s)
| SpSlice : forall t s, spelled t s -> spelled (GSlice t) (String "[" (String "]" s))
| SpArray : forall n t s, spelled t s -> spelled (GArray n t) (String "[" (n ++ String "]" s))
| SpMap : forall k t s s', spelled k s -> spelled t s' ->
    spelled (GMap k t) (String "m" (String "a" (String "p" (String "[" (s ++ String "]" s'))))).
Definition decoration (c : ascii) : Prop := c = "*"%char \/ c = "["%char \/ c = "]"%char.
Fixpoint only_decoration (s : string) : Prop :=
  match s with String c r => decoration c /\ only_decoration r | EmptyString => True end.

Lemma spelled_string t : spelled t (type_string t).
Proof.
  induction t; cbn [type_string]; cbn [String.append]; constructor; auto.
Qed.
Lemma spelled_fun t s : spelled t s -> s = type_string t.
Proof. induction 1; cbn [type_string String.append]; subst; reflexivity. Qed.

(** A type is known by what Go writes without the stars and brackets in front. *)
Theorem C75_names : forall t s, spelled t s ->
  exists front, s = (front ++ canonical_name t)%string /\ only_decoration front /\
    match canonical_name t with String c _ => ~ decoration c | EmptyString => True end.
Proof.
  intros t s SP. unfold canonical_name. rewrite <- (spelled_fun t s SP). clear SP t.
  induction s as [|c s (front & E & D & N)]; [exists ""; repeat split|]. cbn [trim_type].
  destruct ((c =? "*")%char || (c =? "[")%char || (c =? "]")%char) eqn:C.
  - exists (String c front). split; [cbn [String.append]; now rewrite <- E|]. split; [|exact N]. split; [|exact D].
    apply orb_true_iff in C as [C|C]; [apply orb_true_iff in C as [C|C]|]; apply Ascii.eqb_eq in C; subst c; unfold decoration; auto.
  - exists "". repeat split. intros [->|[->| ->]]; discriminate.
Qed.
Example C75_names_demo : canonical_name (GPtr (GSlice (GMap (GNamed "string") (GPtr (GNamed "p.File"))))) = "map[string]*p.File".
Proof. reflexivity. Qed.

(** *** A pointer to a struct, with its own members *)

(** The exported fields of the struct itself and the methods without
    arguments that return one or two values are described. *)
Theorem C75_own_attributes : forall same_upper U fuel n fs m name m',
  kind_of U (GNamed n) = KStruct fs ->
  AddType same_upper U fuel (members_of_pointer same_upper U (GNamed n)) (GPtr (GNamed n)) m = Some (name, m') ->
  get_description m name = None ->
  exists entry, get_description m' name = Some entry /\
    (forall f k, In f fs -> tf_embedded f = false -> is_exported same_upper (tf_name f) = true ->
       named f k -> In k (keys entry)) /\
    (forall mt, In mt (methods_of U (GNamed n)) -> is_exported same_upper (tm_name mt) = true ->
       tm_in mt = 0 -> (1 <= List.length (tm_out mt) <= 2) -> In (tm_name mt) (keys entry)).
Proof.
  intros su U fuel n fs m name m' K E G.
  destruct (C75_described _ _ _ _ _ _ _ _ E G) as (e & D & [_ C]).
  exists e. split; [exact D|]. cbn [pointed_to kind_of] in C. split.
  - intros f k I EM EX NM. eapply C. apply AO_field; [| |exact NM].
    + eapply SF_own; eauto.
    + split; [exact EX|right]. unfold members_of_pointer. rewrite K. apply in_or_app. left.
      apply filter_In. split; [now apply in_map|exact EX].
  - intros mt I EX Z OUT.
    assert (TY : exists ty, tm_out mt = [ty] \/ exists ty', tm_out mt = [ty; ty']).
    { destruct (tm_out mt) as [|ty [|ty' [|x l]]]; cbn in OUT; try lia; eauto. }
    destruct TY as [ty TY]. eapply C. apply AO_method with (ty := ty); auto.
    split; [exact EX|right]. unfold members_of_pointer. apply in_or_app. right.
    apply in_map_iff. exists mt. split; [reflexivity|]. apply filter_In. split; [exact I|].
    rewrite EX, Z. reflexivity.
Qed.

(** *** The arguments of a plugin or function

    The struct that the arguments are parsed into (ArgParser.v) and the type
    that is described are the same Go struct. *)
Definition same_field (s : sfield) (f : tfield) : Prop :=
  sf_name s = tf_name f /\ sf_tag s = tf_tag f /\ tf_embedded f = false.

Fixpoint char_free (c : ascii) (s : string) : bool :=
  match s with
  | EmptyString => true
  | String a r => negb (a =? c)%char && char_free c r
  end.

Fixpoint all_word (s : string) : bool :=
  match s with
  | EmptyString => true
  | String a r => word_char a && all_word r
  end.

(** A directive without a value, such as required or optional *)
Definition bare (d : string) : Prop :=
  char_free "," d = true /\ char_free "=" d = true /\ d <> "field".

(** A tag as it is usually written: words, and at most one field=NAME, the
    name made of ASCII letters, digits and underscores *)
Definition plain_tag (tag : string) : Prop :=
  exists a b, Forall bare a /\ Forall bare b /\
    (tag = String.concat "," (a ++ b) /\ (a ++ b)%list <> [] \/
     exists n, all_word n = true /\ n <> "" /\ tag = String.concat "," (a ++ ("field=" ++ n) :: b)).

Lemma split_on_free : forall c s, char_free c s = true -> split_on c s = [s].
Proof.
  intros c s. induction s as [|a s IH]; cbn; [reflexivity|]. intros H.
  apply andb_true_iff in H. destruct H as [H1 H2]. destruct (a =? c)%char; [discriminate|].
  now rewrite IH.
Qed.

Lemma split_on_app : forall c s r, char_free c s = true ->
  split_on c (s ++ String c r) = s :: split_on c r.
Proof.
  intros c s r. induction s as [|a s IH]; cbn; intros H.
  - now rewrite Ascii.eqb_refl.
  - apply andb_true_iff in H. destruct H as [H1 H2]. destruct (a =? c)%char; [discriminate|].
    now rewrite IH.
Qed.

Lemma concat_cons : forall sep a b l, String.concat sep (a :: b :: l) = a ++ sep ++ String.concat sep (b :: l).
Proof. reflexivity. Qed.

Lemma split_concat : forall ds, ds <> [] -> Forall (fun d => char_free "," d = true) ds ->
  split_on "," (String.concat "," ds) = ds.
Proof.
  induction ds as [|d ds IH]; intros NE F; [congruence|]. inversion F as [|? ? H1 H2]; subst.
  destruct ds as [|d' ds]; [now apply split_on_free|].
  rewrite concat_cons. change ("," ++ String.concat "," (d' :: ds)) with (String "," (String.concat "," (d' :: ds))).
  rewrite split_on_app by exact H1. now rewrite IH by (auto; discriminate).
Qed.

Lemma char_free_app : forall c a b, char_free c (a ++ b) = char_free c a && char_free c b.
Proof. intros c a b. induction a as [|x a IH]; cbn; [reflexivity|]. now rewrite IH, andb_assoc. Qed.

Lemma word_free : forall c s, word_char c = false -> all_word s = true -> char_free c s = true.
Proof.
  intros c s W. induction s as [|a s IH]; cbn; [reflexivity|]. intros H.
  apply andb_true_iff in H. destruct H as [H1 H2]. rewrite (IH H2), andb_true_r.
  destruct (Ascii.eqb_spec a c); [congruence|reflexivity].
Qed.

Lemma bare_option : forall l opts, Forall bare l ->
  assoc "field" (fold_left tag_option l opts) = assoc "field" opts.
Proof.
  induction l as [|d l IH]; intros opts F; cbn [fold_left]; [reflexivity|].
  inversion F as [|? ? (H1 & H2 & H3) H4]; subst. rewrite IH by assumption.
  unfold tag_option. rewrite split_on_free by assumption. rewrite assoc_dict_set.
  destruct (String.eqb_spec "field" d); congruence.
Qed.

Lemma bare_commas : forall l, Forall bare l -> Forall (fun d => char_free "," d = true) l.
Proof. intros l F. eapply Forall_impl; [|exact F]. now intros d (H & _). Qed.

Lemma strip_prefix_some : forall p s r, strip_prefix p s = Some r -> s = p ++ r.
Proof.
  induction p as [|a p IH]; intros s r H; cbn in *; [congruence|].
  destruct s as [|b s]; [discriminate|]. destruct (Ascii.eqb_spec a b) as [->|]; [|discriminate].
  f_equal. now apply IH.
Qed.

Lemma field_match_none : forall s, char_free "=" s = true -> field_match s = None.
Proof.
  induction s as [|a s IH]; intros H; [reflexivity|].
  cbn [field_match]. destruct (strip_prefix "field=" (String a s)) as [r|] eqn:E.
  - apply strip_prefix_some in E. rewrite E, char_free_app in H. discriminate.
  - apply IH. cbn in H. apply andb_true_iff in H. apply H.
Qed.

Lemma take_word_all : forall n q, all_word n = true -> take_word q = "" -> take_word (n ++ q) = n.
Proof.
  induction n as [|c n IH]; cbn; intros q H Q; [exact Q|].
  apply andb_true_iff in H. destruct H as [-> H]. now rewrite IH.
Qed.

Lemma field_match_found : forall p n q, char_free "=" p = true -> all_word n = true -> n <> "" ->
  take_word q = "" -> field_match (p ++ "field=" ++ n ++ q) = Some n.
Proof.
  induction p as [|a p IH]; intros n q F W NE Q.
  - cbn [append]. change (String "f" _) with ("field=" ++ (n ++ q)).
    assert (T : take_word (n ++ q) = n) by (now apply take_word_all).
    cbn. rewrite T. destruct n; [congruence|reflexivity].
  - assert (SP : strip_prefix "field=" (String a p ++ "field=" ++ n ++ q) = None).
    { clear IH. revert F. generalize (n ++ q). clear. intros r F.
      destruct (strip_prefix "field=" (String a p ++ "field=" ++ r)) as [s|] eqn:E; [|reflexivity]. exfalso.
      apply strip_prefix_some in E. cbn in E. injection E as -> E.
      destruct p as [|c1 p]; cbn in E; [discriminate|]. injection E as -> E.
      destruct p as [|c2 p]; cbn in E; [discriminate|]. injection E as -> E.
      destruct p as [|c3 p]; cbn in E; [discriminate|]. injection E as -> E.
      destruct p as [|c4 p]; cbn in E; [discriminate|]. injection E as -> E.
      destruct p as [|c5 p]; cbn in E; [discriminate|]. injection E as -> E.
      cbn in F. discriminate. }
    change (String a p ++ "field=" ++ n ++ q) with (String a (p ++ "field=" ++ n ++ q)) in *.
    cbn [field_match]. rewrite SP. apply IH; auto. cbn in F. apply andb_true_iff in F. apply F.
Qed.

Lemma concat_free : forall c l, char_free c "," = true -> Forall (fun d => char_free c d = true) l ->
  char_free c (String.concat "," l) = true.
Proof.
  intros c l C. induction l as [|d [|d' l] IH]; intros F; inversion F; subst; [reflexivity|assumption|].
  rewrite concat_cons, !char_free_app, C, IH by assumption. now rewrite H1.
Qed.

Lemma concat_app : forall d b a, Forall (fun d => char_free "=" d = true) a -> exists p q,
  String.concat "," (a ++ d :: b) = p ++ d ++ q /\ char_free "=" p = true /\ take_word q = "".
Proof.
  intros d b. induction a as [|x a IH]; intros F.
  - exists "". destruct b as [|d' b].
    + exists "". repeat split. cbn. clear. induction d; cbn; congruence.
    + eexists. cbn [List.app]. rewrite concat_cons. repeat split; reflexivity.
  - inversion F as [|? ? H1 H2]; subst. destruct (IH H2) as (p & q & E & P & Q).
    exists (x ++ "," ++ p), q. split; [|split; [|exact Q]].
    + cbn [List.app]. destruct (a ++ d :: b)%list as [|y l] eqn:L; [now destruct a|].
      rewrite concat_cons, E. now rewrite !str_app_assoc.
    + rewrite !char_free_app, H1, P. reflexivity.
Qed.

(** The name that callers use and the name that is described *)
Lemma plain_tag_names : forall tag, plain_tag tag ->
  tag <> "" -> assoc "field" (tag_options tag) = field_match tag.
Proof.
  intros tag (a & b & FA & FB & [[-> NE]|(n & W & N & ->)]) _.
  - unfold tag_options. rewrite split_concat.
    + rewrite bare_option by (apply Forall_app; auto). cbn. symmetry. apply field_match_none.
      apply concat_free; [reflexivity|]. apply Forall_app.
      split; [eapply Forall_impl; [|exact FA]|eapply Forall_impl; [|exact FB]]; now intros d (_ & H & _).
    + exact NE.
    + apply bare_commas, Forall_app. auto.
  - unfold tag_options. rewrite split_concat.
    + rewrite fold_left_app. cbn [fold_left]. rewrite bare_option by assumption.
      unfold tag_option at 1. change ("field=" ++ n) with ("field" ++ String "=" n).
      rewrite split_on_app by reflexivity.
      rewrite (split_on_free "=" n) by (apply word_free; auto). rewrite assoc_dict_set. cbn [String.eqb].
      assert (FA' : Forall (fun d => char_free "=" d = true) a)
        by (eapply Forall_impl; [|exact FA]; now intros d (_ & H & _)).
      destruct (concat_app ("field" ++ String "=" n) b a FA') as (p & q & -> & P & Q).
      change ("field" ++ String "=" n) with ("field=" ++ n). rewrite str_app_assoc.
      symmetry. now apply field_match_found.
    + now destruct a.
    + apply Forall_app. split; [now apply bare_commas|]. constructor; [|now apply bare_commas].
      rewrite char_free_app. cbn. apply word_free; auto.
Qed.

(** A plugin's description lists every argument it accepts, under the name
    that callers use, if its tags are plain. *)
Theorem C75_argument_names_partial : forall same_upper U fuel n fs sfs parsers m name m',
  kind_of U (GNamed n) = KStruct fs -> Forall2 same_field sfs fs ->
  (forall s, In s sfs -> sf_settable s = true -> is_exported same_upper (sf_name s) = true) ->
  (forall s, In s sfs -> sf_tag s <> "" -> sf_tag s <> "-" -> plain_tag (sf_tag s)) ->
  build_parser 0 sfs = Ok (Some parsers) ->
  AddType same_upper U fuel (members_of_pointer same_upper U (GNamed n)) (GPtr (GNamed n)) m = Some (name, m') ->
  get_description m name = None ->
  exists entry, get_description m' name = Some entry /\
    forall p, In p parsers -> In (fp_name p) (keys entry).
Proof.
  intros su U fuel n fs sfs ps m name m' K F2 EX PT B E G.
  destruct (C75_own_attributes su U fuel n fs m name m' K E G) as (e & D & OWN & _).
  exists e. split; [exact D|].
  assert (Q : forall p, In p ps -> exists s f, In s sfs /\ In f fs /\ same_field s f /\
    sf_tag s <> "" /\ sf_tag s <> "-" /\ sf_settable s = true /\
    fp_name p = match assoc "field" (tag_options (sf_tag s)) with Some n => n | None => sf_name s end).
  { clear - F2 B. revert ps B. generalize 0. induction F2 as [|s f sfs fs SF F2 IH]; intros i ps B p I; cbn [build_parser] in B.
    - injection B as <-. destruct I.
    - destruct (String.eqb_spec (sf_tag s) "") as [T1|T1]; cbn [orb] in B.
      { destruct (IH _ _ B p I) as (s' & f' & H1 & H2 & H3). exists s', f'. cbn. auto. }
      destruct (String.eqb_spec (sf_tag s) "-") as [T2|T2]; cbn [orb] in B.
      { destruct (IH _ _ B p I) as (s' & f' & H1 & H2 & H3). exists s', f'. cbn. auto. }
      set (nm := match assoc "field" (tag_options (sf_tag s)) with Some n => n | None => sf_name s end) in *.
      destruct (nm =? ""); [discriminate|]. destruct (sf_settable s) eqn:ST; [cbn in B|discriminate].
      assert (B' : exists l r t, build_parser (S i) sfs = Ok (Some l) /\
        ps = {| fp_name := nm; fp_idx := i; fp_required := r; fp_type := t |} :: l).
      { destruct (sf_type s); try discriminate; destruct (build_parser (S i) sfs) as [[l|]|]; try discriminate;
          injection B as <-; eauto. }
      destruct B' as (l & r & t & B' & ->). destruct I as [<-|I].
      + exists s, f. cbn. repeat split; auto; apply SF.
      + destruct (IH _ _ B' p I) as (s' & f' & H1 & H2 & H3). exists s', f'. cbn. auto. }
  intros p I. destruct (Q p I) as (s & f & IS & IF & (S1 & S2 & S3) & T1 & T2 & ST & ->).
  rewrite plain_tag_names by auto. rewrite S2, S1.
  apply (OWN f); auto; [rewrite <- S1; now apply EX|]. now apply named_described.
Qed.

(** ** Refutations *)

Definition upper (_ : string) : bool := true.
Definition fld (name tag : string) (t : gty) : tfield :=
  {| tf_name := name; tf_tag := tag; tf_embedded := false; tf_type := t |}.
Definition emb (name : string) (t : gty) : tfield :=
  {| tf_name := name; tf_tag := ""; tf_embedded := true; tf_type := t |}.
Definition str (fs : list tfield) : tdef := {| td_kind := KStruct fs; td_methods := [] |}.

(** Describes a pointer to the named type with its own members. *)
Definition describe_pointer (U : universe) (n : string) (m : tmap) : option (string * tmap) :=
  AddType upper U 100 (members_of_pointer upper U (GNamed n)) (GPtr (GNamed n)) m.

(** The map afterwards, and an entry of it *)
Definition after (U : universe) (n : string) (m : tmap) : tmap :=
  match describe_pointer U n m with Some (_, m') => m' | None => [] end.
Definition entry_of (m : tmap) (n : string) : list (string * tref) :=
  match get_description m n with Some e => e | None => [] end.
Definition reference_to (target : string) : tref := {| tr_target := target; tr_repeated := false; tr_tag := "" |}.

Definition by_value : universe :=
  [("p.Outer", str [fld "Inner" "" (GNamed "p.Inner")]); ("p.Inner", str [fld "Size" "" (GNamed "int")])].

(** A field that holds a struct names a type that is not described. *)
Theorem C75_struct_value_refuted : exists U n m' entry r,
  embedding_founded U /\ describe_pointer U n [] = Some (n, m') /\
  get_description m' n = Some entry /\ assoc "Inner" entry = Some r /\
  assoc (tr_target r) U <> None /\ get_description m' (tr_target r) = None.
Proof.
  exists by_value, "p.Outer", (after by_value "p.Outer" []),
    (entry_of (after by_value "p.Outer" []) "p.Outer"), (reference_to "p.Inner").
  split.
  - exists (fun _ => 0). intros n fs f n' fs' K I E. exfalso. unfold by_value in K. cbn in K.
    destruct (n =? "p.Outer"); [injection K as <-; destruct I as [<-|[]]; discriminate|].
    destruct (n =? "p.Inner"); [injection K as <-; destruct I as [<-|[]]; discriminate|discriminate].
  - vm_compute. repeat split; try reflexivity; discriminate.
Qed.

Definition by_pointer : universe :=
  [("p.Outer", str [fld "Inner" "" (GPtr (GNamed "p.Inner"))]); ("p.Inner", str [fld "Size" "" (GNamed "int")])].

(** The attributes of the types referred to are left out unless the outer
    type has a member of that name. *)
Theorem C75_nested_filtered_refuted : exists U n m' f fs,
  describe_pointer U n [] = Some (n, m') /\
  kind_of U (GNamed "p.Inner") = KStruct fs /\ In f fs /\ is_exported upper (tf_name f) = true /\
  get_description m' "p.Inner" = Some [].
Proof.
  exists by_pointer, "p.Outer", (after by_pointer "p.Outer" []), (fld "Size" "" (GNamed "int")), [fld "Size" "" (GNamed "int")].
  vm_compute. auto.
Qed.

Definition list_of_pointers : universe :=
  [("p.List", str [fld "Size" "" (GSlice (GPtr (GNamed "p.Inner")))]); ("p.Inner", str [fld "Size" "" (GNamed "int")])].

(** What is described depends on what was described before: after a slice of
    pointers to it, a struct is described without fields for good. *)
Theorem C75_order_refuted : exists U m1 m2 m3 entry,
  describe_pointer U "p.Inner" [] = Some ("p.Inner", m1) /\
  get_description m1 "p.Inner" = Some entry /\ entry <> [] /\
  describe_pointer U "p.List" [] = Some ("p.List", m2) /\
  describe_pointer U "p.Inner" m2 = Some ("p.Inner", m3) /\
  get_description m3 "p.Inner" = Some [].
Proof.
  exists list_of_pointers, (after list_of_pointers "p.Inner" []), (after list_of_pointers "p.List" []),
    (after list_of_pointers "p.Inner" (after list_of_pointers "p.List" [])), [("Size", reference_to "int")].
  vm_compute. repeat split; discriminate.
Qed.

Definition embedding : universe :=
  [("p.Outer", str [emb "Base" (GNamed "p.Base")]); ("p.Base", str [fld "Id" "" (GNamed "int")])].

(** The fields of an embedded struct are attributes of the outer one for
    queries, but they are not described. *)
Theorem C75_embedded_refuted : exists U n m' f entry,
  describe_pointer U n [] = Some (n, m') /\
  struct_field U (GNamed n) f /\ is_exported upper (tf_name f) = true /\
  get_description m' n = Some entry /\ ~ In (described_name f) (keys entry).
Proof.
  exists embedding, "p.Outer", (after embedding "p.Outer" []), (fld "Id" "" (GNamed "int")), [].
  split; [vm_compute; reflexivity|]. split.
  - eapply SF_embedded; [reflexivity|left; reflexivity|reflexivity|].
    eapply SF_own; [reflexivity|left; reflexivity|reflexivity].
  - split; [reflexivity|]. split; [vm_compute; reflexivity|]. cbn. tauto.
Qed.

Definition arrays : universe := [("p.T", str [fld "Sums" "" (GPtr (GArray "5" (GNamed "int")))])].

(** The element of an array inside another type is given a name that no type
    has. *)
Theorem C75_array_name_refuted : exists U m' entry r,
  describe_pointer U "p.T" [] = Some ("p.T", m') /\
  get_description m' "p.T" = Some entry /\ assoc "Sums" entry = Some r /\
  tr_target r = "5]int".
Proof.
  exists arrays, (after arrays "p.T" []), [("Sums", reference_to "5]int")], (reference_to "5]int").
  vm_compute. auto.
Qed.

Definition dashed : list tfield := [fld "Foo" "required,field=foo-bar" (GNamed "string")].

(** A tag that is not plain: the argument is called foo-bar by callers and
    foo in the description. *)
Theorem C75_argument_name_refuted : exists U fs sfs parsers m' entry,
  kind_of U (GNamed "p.Args") = KStruct fs /\ Forall2 same_field sfs fs /\
  build_parser 0 sfs = Ok (Some parsers) /\ map fp_name parsers = ["foo-bar"] /\
  describe_pointer U "p.Args" [] = Some ("p.Args", m') /\
  get_description m' "p.Args" = Some entry /\ keys entry = ["foo"].
Proof.
  exists [("p.Args", str dashed)], dashed,
    [{| sf_name := "Foo"; sf_tag := "required,field=foo-bar"; sf_type := TString; sf_settable := true |}],
    [{| fp_name := "foo-bar"; fp_idx := 0; fp_required := true; fp_type := TString |}],
    (after [("p.Args", str dashed)] "p.Args" []), (entry_of (after [("p.Args", str dashed)] "p.Args" []) "p.Args").
  split; [reflexivity|]. split; [repeat constructor|]. vm_compute. auto.
Qed.

Definition untagged : list tfield := [fld "Cache" "" (GNamed "string")].

(** A field without a tag is described although it is no argument. *)
Theorem C75_untagged_refuted : exists U fs sfs m' entry,
  kind_of U (GNamed "p.Args") = KStruct fs /\ Forall2 same_field sfs fs /\
  build_parser 0 sfs = Ok (Some []) /\
  describe_pointer U "p.Args" [] = Some ("p.Args", m') /\
  get_description m' "p.Args" = Some entry /\ keys entry = ["Cache"].
Proof.
  exists [("p.Args", str untagged)], untagged,
    [{| sf_name := "Cache"; sf_tag := ""; sf_type := TString; sf_settable := true |}],
    (after [("p.Args", str untagged)] "p.Args" []), (entry_of (after [("p.Args", str untagged)] "p.Args" []) "p.Args").
  split; [reflexivity|]. split; [repeat constructor|]. vm_compute. auto.
Qed.

(** ** Examples *)

(** Two types that refer to each other, a method, a tag *)
Definition demo_universe : universe :=
  [("p.Node", {| td_kind := KStruct [fld "Name" "required,field=name" (GNamed "string");
                                      fld "Next" "" (GPtr (GNamed "p.Node"));
                                      fld "Edges" "optional,field=edges" (GSlice (GNamed "p.Edge"));
                                      fld "hidden" "" (GNamed "int");
                                      emb "Base" (GNamed "p.Base")];
                 td_methods := [{| tm_name := "Path"; tm_in := 0; tm_out := [GSlice (GNamed "string"); GNamed "error"] |};
                                {| tm_name := "Walk"; tm_in := 1; tm_out := [GNamed "string"] |}] |});
   ("p.Edge", str [fld "Name" "" (GNamed "string"); fld "Target" "" (GPtr (GNamed "p.Node"))]);
   ("p.Base", str [fld "Name" "" (GNamed "string")])].

Lemma demo_founded : embedding_founded demo_universe.
Proof.
  exists (fun n => if n =? "p.Node" then 1 else 0). intros n fs f n' fs' K I E T K'. cbn in K.
  destruct (n =? "p.Node") eqn:N.
  - injection K as <-. repeat (destruct I as [<-|I]; [try discriminate|]); [|destruct I].
    injection T as <-. cbn. lia.
  - destruct (n =? "p.Edge"); [injection K as <-; repeat (destruct I as [<-|I]; [discriminate|]); destruct I|].
    destruct (n =? "p.Base"); [injection K as <-; repeat (destruct I as [<-|I]; [discriminate|]); destruct I|discriminate].
Qed.

Example demo_described : exists m',
  describe_pointer demo_universe "p.Node" [] = Some ("p.Node", m') /\
  keys m' = ["p.Node"; "p.Edge"; "string"] /\
  get_description m' "p.Edge" = Some [("Name", {| tr_target := "string"; tr_repeated := false; tr_tag := "" |})] /\
  get_description m' "p.Node" = Some
    [("name", {| tr_target := "string"; tr_repeated := false; tr_tag := "required,field=name" |});
     ("Next", {| tr_target := "p.Node"; tr_repeated := false; tr_tag := "" |});
     ("edges", {| tr_target := "p.Edge"; tr_repeated := true; tr_tag := "optional,field=edges" |});
     ("Name", {| tr_target := "string"; tr_repeated := false; tr_tag := "" |});
     ("Path", {| tr_target := "string"; tr_repeated := true; tr_tag := "" |})].
Proof. exists (after demo_universe "p.Node" []). vm_compute. auto. Qed.

Example demo_tags : plain_tag "required,field=name" /\ plain_tag "optional" /\
  field_match "required,field=name,x" = Some "name" /\ field_match "field=,field=b" = Some "b" /\
  assoc "field" (tag_options "required,field=name") = Some "name".
Proof.
  split; [exists ["required"], []|split; [exists ["optional"], []|vm_compute; auto]].
  - split; [repeat constructor; discriminate|]. split; [constructor|]. right. exists "name". repeat split; discriminate.
  - split; [repeat constructor; discriminate|]. split; [constructor|]. left. split; [reflexivity|discriminate].
Qed.

Print Assumptions C75_ends.
Print Assumptions C75_described.
Print Assumptions C75_names.
Print Assumptions C75_targets_described_partial.
Print Assumptions C75_argument_names_partial.
Print Assumptions C75_order_refuted.
