(** Proofs about the descriptions of types: what one call adds, and that it
    ends. *)

From Coq Require Import List String Ascii Bool Arith Lia.
From Verif Require Import Base BaseProofs Lexer LexRules LexProofs LexRulesProps HostObject Introspect.
Import ListNotations.
Open Scope string_scope.
Open Scope nat_scope.
Open Scope list_scope.

(** ** Specification *)

(** The fields of a struct and of the structs embedded in it *)
Inductive struct_field (U : universe) : gty -> tfield -> Prop :=
| SF_own : forall t fs f,
    kind_of U t = KStruct fs -> In f fs -> tf_embedded f = false -> struct_field U t f
| SF_embedded : forall t fs g f,
    kind_of U t = KStruct fs -> In g fs -> tf_embedded g = true ->
    struct_field U (tf_type g) f -> struct_field U t f.

(** What a regular expression finds in a text: the leftmost match. *)
Inductive found (pat : string) : string -> string -> Prop :=
| F_here : forall s text rest, match_here pat s = Some (text, rest) -> found pat s text
| F_later : forall c s text, match_here pat (String c s) = None -> found pat s text -> found pat (String c s) text.

(** The name under which a field is described: the tag can give one. *)
Definition named (f : tfield) (n : string) : Prop :=
  found "field=([a-zA-Z0-9_]+)" (tf_tag f) ("field=" ++ n) \/
  (forall text, ~ found "field=([a-zA-Z0-9_]+)" (tf_tag f) text) /\ n = tf_name f.

Lemma take_word_span s : Introspect.take_word s = fst (span is_word s).
Proof.
  induction s as [|c s IH]; [reflexivity|]. cbn [Introspect.take_word span].
  assert (W : Introspect.word_char c = is_word c).
  { apply Bool.eqb_prop. revert c. clear. apply all_chars. vm_compute. reflexivity. }
  rewrite W. destruct (is_word c); [|reflexivity]. rewrite IH. now destruct (span is_word s).
Qed.
Lemma strip_same p s : Introspect.strip_prefix p s = Lexer.strip_prefix p s.
Proof. reflexivity. Qed.
Definition field_rule (s : string) : option (string * string) :=
  match Lexer.strip_prefix "field=" s with
  | Some r => if first_char is_word r then let (w, x) := span is_word r in Some ("field=" ++ w, x)%string else None
  | None => None
  end.
Lemma tag_rule s : match_here "field=([a-zA-Z0-9_]+)" s = field_rule s.
Proof.
  assert (W : forall c, in_set false [("a", "z"); ("A", "Z"); ("0", "9"); ("_", "_")]%char c = is_word c)
    by (apply same_set; vm_compute; reflexivity).
  apply (here _ (fold_right (fun c r => RCat (RSet false [(c, c)]) r)
                   (RCat (RSet false [("a", "z"); ("A", "Z"); ("0", "9"); ("_", "_")]%char)
                         (RStar true (RSet false [("a", "z"); ("A", "Z"); ("0", "9"); ("_", "_")]%char)))
                   (list_ascii_of_string "field="))); [vm_compute; reflexivity| |].
  - unfold field_rule. generalize "field=" at 1 2 as p. generalize (@None ascii).
    intros b p. revert b s. induction p as [|a p IH]; intros b s; cbn [list_ascii_of_string fold_right Lexer.strip_prefix].
    + rewrite m_cat, (m_set _ _ _ _ _ _ W). destruct s as [|c s]; [reflexivity|]. cbn [first_char].
      destruct (is_word c) eqn:C; [|reflexivity]. cbn [span]. rewrite C.
      rewrite (star_longest _ _ _ W finish (snd (span is_word s))); [now destruct (span is_word s)|reflexivity].
    + rewrite m_cat, m_lit. destruct s as [|c s]; [reflexivity|]. destruct (Ascii.eqb a c); [apply IH|reflexivity].
  - intros v x. unfold field_rule. destruct (Lexer.strip_prefix "field=" s) as [r|] eqn:E; [|discriminate].
    apply strip_prefix_spec in E. destruct (first_char is_word r); [|discriminate]. destruct (span is_word r) as (w, y) eqn:P.
    apply span_spec in P as (P & _). intros [= <- <-]. now rewrite E, P.
Qed.
Lemma field_match_found s : match field_match s with
  | Some w => forall text, found "field=([a-zA-Z0-9_]+)" s text <-> text = ("field=" ++ w)%string
  | None => forall text, ~ found "field=([a-zA-Z0-9_]+)" s text
  end.
Proof.
  induction s as [|c s IH].
  - cbn. intros text H. inversion H; subst. rewrite tag_rule in H0. discriminate.
  - assert (LATER : match_here "field=([a-zA-Z0-9_]+)" (String c s) = None ->
      match field_match s with
      | Some w => forall text, found "field=([a-zA-Z0-9_]+)" (String c s) text <-> text = ("field=" ++ w)%string
      | None => forall text, ~ found "field=([a-zA-Z0-9_]+)" (String c s) text
      end).
    { intro N. destruct (field_match s) as [w|]; intro text.
      - rewrite <- IH. split; [|now apply F_later]. intro H. inversion H; subst; [rewrite N in H0; discriminate|assumption].
      - intro H. inversion H; subst; [rewrite N in H0; discriminate|]. now apply (IH text). }
    cbn [field_match]. rewrite tag_rule in LATER. unfold field_rule in LATER. rewrite strip_same.
    destruct (Lexer.strip_prefix "field=" (String c s)) as [r|] eqn:E; [|now apply LATER].
    rewrite take_word_span. destruct r as [|d r]; [now apply LATER|]. cbn [first_char span] in *.
    destruct (is_word d) eqn:D; [|now apply LATER]. clear LATER. destruct (span is_word r) as (w, x) eqn:P. cbn [fst].
    assert (M : match_here "field=([a-zA-Z0-9_]+)" (String c s) = Some ("field=" ++ String d w, x)%string).
    { rewrite tag_rule. unfold field_rule. rewrite E. cbn [first_char span]. now rewrite D, P. }
    intro text. split.
    + intro H. inversion H; subst; [|congruence]. rewrite M in H0. now injection H0 as <- _.
    + intros ->. now apply (F_here _ _ _ x).
Qed.
Lemma named_described f n : named f n <-> n = described_name f.
Proof.
  unfold named, described_name. pose proof (field_match_found (tf_tag f)) as H.
  destruct (field_match (tf_tag f)) as [w|].
  - rewrite H. split.
    + intros [E|(N & _)]; [now injection E as ->|]. exfalso. apply (N ("field=" ++ w)%string). now apply H.
    + intros ->. now left.
  - split.
    + intros [F|(_ & ->)]; [now apply H in F|reflexivity].
    + intros ->. right. now split.
Qed.

Section Spec.
  Variable same_upper : string -> bool.
  Variable U : universe.
  Variable members : list string.

  (** A name is described if it is exported and, unless there are no members,
      one of the members. *)
  Definition admitted (name : string) : Prop :=
    is_exported same_upper name = true /\ (members = [] \/ In name members).

  (** The attributes of a type: name, tag, and Go type *)
  Inductive attribute_of (t : gty) : string -> string -> gty -> Prop :=
  | AO_field : forall f n, struct_field U t f -> admitted (tf_name f) -> named f n ->
      attribute_of t n (tf_tag f) (tf_type f)
  | AO_method : forall mt ty, In mt (methods_of U t) -> admitted (tm_name mt) ->
      tm_in mt = 0 -> (tm_out mt = [ty] \/ exists ty', tm_out mt = [ty; ty']) ->
      attribute_of t (tm_name mt) "" ty.

  (** What an attribute of this type leads to, and whether to several of them:
      the elements of an array or slice, the values of a map, what a pointer
      points to. *)
  Inductive leads_to (ty : gty) : gty -> bool -> Prop :=
  | LT_array : forall e, kind_of U ty = KArray e -> leads_to ty e true
  | LT_slice : forall e, kind_of U ty = KSlice e -> leads_to ty e true
  | LT_map : forall e, kind_of U ty = KMap e -> leads_to ty e false
  | LT_pointer : forall e, kind_of U ty = KPtr e -> leads_to ty e false.

  (** A reference to a type names what it consists of. *)
  Definition refers (tag : string) (ty : gty) (r : tref) : Prop :=
    tr_tag r = tag /\
    ((exists e repeated, leads_to ty e repeated /\ tr_target r = canonical_name e /\ tr_repeated r = repeated) \/
     ((forall e repeated, ~ leads_to ty e repeated) /\ tr_target r = canonical_name ty /\ tr_repeated r = false)).

  Lemma leads_to_element ty e rep : leads_to ty e rep <-> element (kind_of U ty) = Some (rep, e).
  Proof.
    split.
    - intros []; now rewrite H.
    - destruct (kind_of U ty) eqn:K; cbn; intros H; try discriminate; injection H as <- <-;
        first [apply LT_array; exact K|apply LT_slice; exact K|apply LT_map; exact K|apply LT_pointer; exact K].
  Qed.

  Lemma refers_element tag ty r : refers tag ty r <->
    tr_tag r = tag /\
    match element (kind_of U ty) with
    | Some (repeated, e) => tr_target r = canonical_name e /\ tr_repeated r = repeated
    | None => tr_target r = canonical_name ty /\ tr_repeated r = false
    end.
  Proof.
    unfold refers. destruct (element (kind_of U ty)) as [[rep e]|] eqn:EL.
    - assert (L := EL). apply leads_to_element in L. split.
      + intros [A [(e' & rep' & L' & B & C)|(N & _)]]; [|now destruct (N e rep)].
        apply leads_to_element in L'. rewrite EL in L'. injection L' as <- <-. auto.
      + intros (A & B & C). split; [exact A|]. left. eauto.
    - split.
      + intros [A [(e' & rep' & L' & B & C)|(N & B)]]; [|tauto]. apply leads_to_element in L'. congruence.
      + intros (A & B). split; [exact A|]. right. split; [|exact B].
        intros e rep L. apply leads_to_element in L. congruence.
  Qed.

  (** An entry describes the attributes of a type and nothing else. *)
  Definition describes (t : gty) (entry : list (string * tref)) : Prop :=
    (forall n r, In (n, r) entry -> exists tag ty, attribute_of t n tag ty /\ refers tag ty r) /\
    (forall n tag ty, attribute_of t n tag ty -> In n (keys entry)).

  (** Following a pointer, slice, array or map leads to a description. *)
  Definition closed (m : tmap) : Prop :=
    forall k entry n r, assoc k m = Some entry -> In (n, r) entry ->
      exists tag ty, refers tag ty r /\
        forall e repeated, leads_to ty e repeated -> In (canonical_name e) (keys m).

  Definition added (m m' : tmap) : Prop :=
    forall k, In k (keys m') -> ~ In k (keys m) ->
      exists t entry, canonical_name t = k /\ assoc k m' = Some entry /\ describes t entry.
End Spec.

(** ** Association lists *)

Lemma keys_dict_set : forall A k (v : A) l k',
  In k' (keys (dict_set k v l)) <-> k' = k \/ In k' (keys l).
Proof.
  intros. rewrite <- !assoc_keys. rewrite assoc_dict_set.
  destruct (String.eqb_spec k' k) as [->|N].
  - split; [now left|]. intros _. eauto.
  - split; [now right|]. intros [H|H]; [contradiction|exact H].
Qed.

Lemma keys_describe : forall owner n r m, keys (describe owner n r m) = keys m.
Proof.
  intros. unfold keys, describe. rewrite map_map. apply map_ext.
  intros [k e]. cbn. now destruct (owner =? k)%string.
Qed.

Lemma assoc_describe : forall owner n r m k,
  assoc k (describe owner n r m) =
  if String.eqb k owner then option_map (dict_set n r) (assoc k m) else assoc k m.
Proof.
  intros. induction m as [|[k' e] m IH]; cbn.
  - now destruct (k =? owner)%string.
  - change (map _ m) with (describe owner n r m).
    destruct (String.eqb_spec owner k') as [->|N]; cbn; rewrite IH.
    + now destruct (String.eqb_spec k k').
    + destruct (String.eqb_spec k k') as [->|]; [|reflexivity].
      destruct (String.eqb_spec k' owner); [congruence|reflexivity].
Qed.

Lemma in_remove_key : forall A k (l : list (string * A)) x, In x (remove_key k l) -> In x l.
Proof.
  induction l as [|[k0 v] l IH]; cbn; [tauto|]. intros x.
  destruct (k =? k0)%string; cbn; intuition.
Qed.

Lemma in_dict_set : forall A k (v : A) l x, In x (dict_set k v l) -> x = (k, v) \/ In x l.
Proof.
  intros A k v l x H. unfold dict_set in H. apply in_app_or in H.
  destruct H as [H|[H|[]]]; [right; eapply in_remove_key; eauto|now left].
Qed.

(** ** The code, one call at a time *)

Lemma add_type_S : forall su U mb fuel t m, add_type su U mb (S fuel) t m =
  if mem_str (canonical_name t) (keys m) then Some m
  else match add_fields su U mb fuel (canonical_name t) t (dict_set (canonical_name t) [] m) with
       | Some m => fold_opt (add_method su U mb (add_type su U mb fuel) (canonical_name t)) (methods_of U t) m
       | None => None
       end.
Proof. reflexivity. Qed.

Lemma add_fields_S : forall su U mb fuel owner t m, add_fields su U mb (S fuel) owner t m =
  match kind_of U t with
  | KStruct fs => fold_opt (add_field su U mb (add_type su U mb fuel) (add_fields su U mb fuel owner) owner) fs m
  | _ => Some m
  end.
Proof. reflexivity. Qed.

(** ** One step

    What part of the work for the entry [owner] does to the map: [A] are the
    references it may add to the entry, [R] the names it must add. *)
Record step (su : string -> bool) (U : universe) (members : list string)
  (owner : string) (A : string -> tref -> Prop) (R : string -> Prop) (m m' : tmap) : Prop := {
  st_others : forall k, k <> owner -> In k (keys m) -> assoc k m' = assoc k m;
  st_added : added su U members m m';
  st_closed : closed U m -> closed U m';
  st_entry : forall e, assoc owner m = Some e ->
    exists e', assoc owner m' = Some e' /\
      (forall n r, In (n, r) e' -> In (n, r) e \/ A n r) /\
      (forall n, In n (keys e) -> In n (keys e')) /\
      (forall n, R n -> In n (keys e'))
}.

Lemma step_keys : forall su U mb owner A R m m', step su U mb owner A R m m' ->
  In owner (keys m) -> forall k, In k (keys m) -> In k (keys m').
Proof.
  intros su U mb owner A R m m' ST O k K. destruct (String.eqb_spec k owner) as [->|N].
  - apply assoc_keys in O. destruct O as [e E]. apply (st_entry _ _ _ _ _ _ _ _ ST) in E.
    destruct E as (e' & E' & _). apply assoc_keys. eauto.
  - apply assoc_keys. rewrite (st_others _ _ _ _ _ _ _ _ ST k N K). now apply assoc_keys.
Qed.

Lemma step_weaken : forall su U mb owner (A B : string -> tref -> Prop) (R Q : string -> Prop) m m',
  step su U mb owner A R m m' -> (forall n r, A n r -> B n r) -> (forall n, Q n -> R n) ->
  step su U mb owner B Q m m'.
Proof.
  intros su U mb owner A B R Q m m' [O N C E] AB QR. constructor; auto.
  intros e H. destruct (E e H) as (e' & H1 & H2 & H3 & H4). exists e'. repeat split; auto.
  intros n r I. destruct (H2 n r I); auto.
Qed.

Lemma step_none : forall su U mb owner A (Q : string -> Prop) m,
  (forall n, Q n -> False) -> step su U mb owner A Q m m.
Proof.
  intros su U mb owner A Q m H. constructor; auto.
  - intros k H1 H2. contradiction.
  - intros e E. exists e. repeat split; auto. intros n q. destruct (H n q).
Qed.

Lemma step_trans : forall su U mb owner A R Q m1 m2 m3, In owner (keys m1) ->
  step su U mb owner A R m1 m2 -> step su U mb owner A Q m2 m3 ->
  step su U mb owner A (fun n => R n \/ Q n) m1 m3.
Proof.
  intros su U mb owner A R Q m1 m2 m3 O S1 S2.
  pose proof (step_keys _ _ _ _ _ _ _ _ S1 O) as K.
  pose proof (step_keys _ _ _ _ _ _ _ _ S2 (K _ O)) as K2.
  constructor.
  - intros k N I. rewrite (st_others _ _ _ _ _ _ _ _ S2 k N (K _ I)). now apply (st_others _ _ _ _ _ _ _ _ S1).
  - intros k I N. destruct (in_dec string_dec k (keys m2)) as [I2|N2].
    + destruct (st_added _ _ _ _ _ _ _ _ S1 k I2 N) as (t & e & H1 & H2 & H3).
      exists t, e. repeat split; try apply H3; auto. rewrite <- H2. apply (st_others _ _ _ _ _ _ _ _ S2); auto.
      intros ->. contradiction.
    + now apply (st_added _ _ _ _ _ _ _ _ S2).
  - intros C. apply (st_closed _ _ _ _ _ _ _ _ S2), (st_closed _ _ _ _ _ _ _ _ S1), C.
  - intros e E. destruct (st_entry _ _ _ _ _ _ _ _ S1 e E) as (e2 & E2 & A2 & B2 & C2).
    destruct (st_entry _ _ _ _ _ _ _ _ S2 e2 E2) as (e3 & E3 & A3 & B3 & C3).
    exists e3. repeat split; auto.
    + intros n r I. destruct (A3 n r I) as [I2|]; auto.
    + intros n [H|H]; auto.
Qed.

(** What a whole call of addType does *)
Record grown (su : string -> bool) (U : universe) (members : list string) (t : gty) (m m' : tmap) : Prop := {
  gr_kept : forall k, In k (keys m) -> assoc k m' = assoc k m;
  gr_there : In (canonical_name t) (keys m');
  gr_own : ~ In (canonical_name t) (keys m) ->
    exists e, assoc (canonical_name t) m' = Some e /\ describes su U members t e;
  gr_added : added su U members m m';
  gr_closed : closed U m -> closed U m'
}.

Lemma grown_keys : forall su U mb t m m', grown su U mb t m m' -> forall k, In k (keys m) -> In k (keys m').
Proof.
  intros su U mb t m m' G k K. apply assoc_keys. rewrite (gr_kept _ _ _ _ _ _ G k K). now apply assoc_keys.
Qed.

(** ** The loops *)

Lemma fold_step : forall su U mb owner X (f : X -> tmap -> option tmap) A (R : X -> string -> Prop) l m m',
  (forall x m m', In x l -> In owner (keys m) -> f x m = Some m' -> step su U mb owner A (R x) m m') ->
  In owner (keys m) -> fold_opt f l m = Some m' ->
  step su U mb owner A (fun n => exists x, In x l /\ R x n) m m'.
Proof.
  intros su U mb owner X f A R l. induction l as [|x l IH]; intros m m' F O E; cbn in E.
  - injection E as <-. apply step_none. now intros n (x & [] & _).
  - destruct (f x m) as [m1|] eqn:E1; [|discriminate].
    assert (S1 : step su U mb owner A (R x) m m1) by (apply F; cbn; auto).
    assert (O1 : In owner (keys m1)) by (eapply step_keys; eauto).
    assert (S2 : step su U mb owner A (fun n => exists x, In x l /\ R x n) m1 m').
    { apply IH; auto. intros y ma mb0 I. apply F. now right. }
    eapply step_weaken; [eapply step_trans; eauto|auto|].
    intros n (y & [->|I] & Q); [now left|right; eauto].
Qed.

Section Loops.
  Variable su : string -> bool.
  Variable U : universe.
  Variable mb : list string.

  Lemma describe_step : forall owner name tag ty r m,
    refers U tag ty r ->
    (forall repeated e, element (kind_of U ty) = Some (repeated, e) -> In (canonical_name e) (keys m)) ->
    step su U mb owner (fun n r => n = name /\ refers U tag ty r) (fun n => n = name) m (describe owner name r m).
  Proof.
    intros owner name tag ty r m RF EL. constructor.
    - intros k N _. rewrite assoc_describe. destruct (String.eqb_spec k owner); congruence.
    - intros k I N. rewrite keys_describe in I. contradiction.
    - intros C k e n r0 E I. rewrite keys_describe. rewrite assoc_describe in E.
      destruct (String.eqb_spec k owner) as [->|N]; [|now apply (C k e n r0)].
      destruct (assoc owner m) as [e0|] eqn:E0; [|discriminate]. injection E as <-.
      apply in_dict_set in I. destruct I as [[= -> ->]|I]; [|now apply (C owner e0 n r0)].
      exists tag, ty. split; [exact RF|]. intros e rep LT. eapply EL, leads_to_element, LT.
    - intros e E. exists (dict_set name r e). rewrite assoc_describe, String.eqb_refl, E.
      repeat split; auto.
      + intros n r0 I. apply in_dict_set in I. destruct I as [[= -> ->]|I]; auto.
      + intros n I. apply keys_dict_set. auto.
      + intros n ->. apply keys_dict_set. auto.
  Qed.

  (** the recursive call does not touch the entry being made *)
  Lemma grown_step : forall owner A t m m', In owner (keys m) -> grown su U mb t m m' ->
    step su U mb owner A (fun _ => False) m m'.
  Proof.
    intros owner A t m m' O G. constructor.
    - intros k _ I. now apply (gr_kept _ _ _ _ _ _ G).
    - apply (gr_added _ _ _ _ _ _ G).
    - apply (gr_closed _ _ _ _ _ _ G).
    - intros e E. exists e. rewrite (gr_kept _ _ _ _ _ _ G owner O). repeat split; auto. tauto.
  Qed.

  Lemma add_reference_step : forall rec owner name tag ty m m',
    (forall t m m', rec t m = Some m' -> grown su U mb t m m') ->
    In owner (keys m) -> add_reference U rec owner name tag ty m = Some m' ->
    step su U mb owner (fun n r => n = name /\ refers U tag ty r) (fun n => n = name) m m'.
  Proof.
    intros rec owner name tag ty m m' REC O E. unfold add_reference in E.
    destruct (element (kind_of U ty)) as [[rep e]|] eqn:EL.
    - destruct (rec e m) as [m1|] eqn:E1; [|discriminate]. injection E as <-.
      apply REC in E1. eapply step_weaken with (R := fun n => False \/ n = name).
      + eapply step_trans with (m2 := m1); auto.
        * eapply grown_step; eauto.
        * apply describe_step.
          -- apply (proj2 (refers_element su U _ _ _)). split; [reflexivity|]. rewrite EL. auto.
          -- intros rep' e' EL'. rewrite EL in EL'. injection EL' as <- <-. apply (gr_there _ _ _ _ _ _ E1).
      + auto.
      + auto.
    - injection E as <-. apply describe_step.
      + apply (proj2 (refers_element su U _ _ _)). split; [reflexivity|]. rewrite EL. auto.
      + rewrite EL. discriminate.
  Qed.

  Lemma wanted_admitted : forall n, wanted su mb n = true <-> admitted su mb n.
  Proof.
    intros n. unfold wanted, admitted. rewrite andb_true_iff. destruct mb as [|x l].
    - intuition.
    - rewrite mem_str_spec. split; intros [H1 H2]; split; auto.
      destruct H2 as [H2|H2]; [discriminate|exact H2].
  Qed.

  (** References for fields of [t] *)
  Definition of_field (t : gty) (n : string) (r : tref) : Prop :=
    exists f, struct_field U t f /\ admitted su mb (tf_name f) /\ n = described_name f /\
              refers U (tf_tag f) (tf_type f) r.
  Definition field_name (t : gty) (n : string) : Prop :=
    exists f, struct_field U t f /\ admitted su mb (tf_name f) /\ n = described_name f.
  Definition of_method (t : gty) (n : string) (r : tref) : Prop :=
    exists mt ty, In mt (methods_of U t) /\ admitted su mb (tm_name mt) /\ tm_in mt = 0 /\
      (tm_out mt = [ty] \/ exists ty', tm_out mt = [ty; ty']) /\ n = tm_name mt /\ refers U "" ty r.
  Definition method_name (t : gty) (n : string) : Prop :=
    exists mt ty, In mt (methods_of U t) /\ admitted su mb (tm_name mt) /\ tm_in mt = 0 /\
      (tm_out mt = [ty] \/ exists ty', tm_out mt = [ty; ty']) /\ n = tm_name mt.

  Lemma add_grows : forall fuel,
    (forall t m m', add_type su U mb fuel t m = Some m' -> grown su U mb t m m') /\
    (forall owner t m m', In owner (keys m) -> add_fields su U mb fuel owner t m = Some m' ->
       step su U mb owner (of_field t) (field_name t) m m').
  Proof.
    induction fuel as [|fuel [IHT IHF]]; [split; intros; discriminate|]. split.
    - intros t m m' E. rewrite add_type_S in E.
      destruct (mem_str (canonical_name t) (keys m)) eqn:P.
      { injection E as <-. apply mem_str_spec in P. constructor; auto.
        - intros NP. contradiction.
        - intros k H1 H2. contradiction. }
      assert (NP : ~ In (canonical_name t) (keys m)) by (rewrite <- mem_str_spec, P; discriminate).
      set (name := canonical_name t) in *.
      destruct (add_fields su U mb fuel name t (dict_set name [] m)) as [m1|] eqn:E1; [|discriminate].
      assert (O0 : In name (keys (dict_set name [] m))) by (apply keys_dict_set; auto).
      pose proof (IHF _ _ _ _ O0 E1) as S1.
      pose proof (step_keys _ _ _ _ _ _ _ _ S1 O0) as K1.
      assert (S2 : step su U mb name (of_method t) (method_name t) m1 m').
      { eapply step_weaken with (A := of_method t)
          (R := fun n => exists mt, In mt (methods_of U t) /\
                  (admitted su mb (tm_name mt) /\ tm_in mt = 0 /\
                   (exists ty, tm_out mt = [ty] \/ exists ty', tm_out mt = [ty; ty']) /\ n = tm_name mt)); auto.
        - eapply (fold_step su U mb name tmethod (add_method su U mb (add_type su U mb fuel) name) _
                   (fun mt n => admitted su mb (tm_name mt) /\ tm_in mt = 0 /\
                      (exists ty, tm_out mt = [ty] \/ exists ty', tm_out mt = [ty; ty']) /\ n = tm_name mt)); eauto.
          intros mt ma mb0 I O F. unfold add_method in F.
          destruct (wanted su mb (tm_name mt)) eqn:W; cbn [andb] in F.
          2:{ injection F as <-. apply step_none.
              intros n (AD & _). apply wanted_admitted in AD. congruence. }
          apply wanted_admitted in W.
          destruct (Nat.eqb_spec (tm_in mt) 0) as [Z|NZ].
          2:{ injection F as <-. apply step_none. intros n (_ & Z & _). contradiction. }
          destruct (tm_out mt) as [|ty [|ty' [|x l]]] eqn:OUT.
          + injection F as <-. apply step_none.
            now intros n (_ & _ & (y & [H|[y' H]]) & _).
          + eapply add_reference_step in F; auto. eapply step_weaken; [exact F| |].
            * intros n r [-> RF]. exists mt, ty. repeat split; auto; apply W || apply RF.
            * now intros n (_ & _ & _ & ->).
          + eapply add_reference_step in F; auto. eapply step_weaken; [exact F| |].
            * intros n r [-> RF]. exists mt, ty. repeat split; auto; try apply W; try apply RF. right. eauto.
            * now intros n (_ & _ & _ & ->).
          + injection F as <-. apply step_none.
            now intros n (_ & _ & (y & [H|[y' H]]) & _).
        - intros n (mt & ty & H1 & H2 & H3 & H4 & H5). exists mt. repeat split; auto; try apply H2. now exists ty. }
      pose proof (step_keys _ _ _ _ _ _ _ _ S2 (K1 _ O0)) as K2.
      assert (D0 : assoc name (dict_set name [] m) = Some ([] : list (string * tref)))
        by (now rewrite assoc_dict_set, String.eqb_refl).
      destruct (st_entry _ _ _ _ _ _ _ _ S1 _ D0) as (e1 & EN1 & A1 & B1 & C1).
      destruct (st_entry _ _ _ _ _ _ _ _ S2 _ EN1) as (e2 & EN2 & A2 & B2 & C2).
      assert (DE : describes su U mb t e2).
      { split.
        - intros n r I. destruct (A2 n r I) as [I1|(mt & ty & H1 & H2 & H3 & H4 & -> & H6)].
          + destruct (A1 n r I1) as [[]|(f & H1 & H2 & -> & H4)].
            exists (tf_tag f), (tf_type f). split; [|exact H4]. constructor; auto. now apply named_described.
          + exists "", ty. split; [|exact H6]. now constructor.
        - intros n tag ty [f n' H1 H2 NM|mt ty0 H1 H2 H3 H4].
          + apply B2, C1. exists f. repeat split; auto; try apply H2. now apply named_described.
          + apply C2. now exists mt, ty0. }
      constructor.
      + intros k K. assert (N : k <> name) by (intros ->; contradiction).
        rewrite (st_others _ _ _ _ _ _ _ _ S2 k N), (st_others _ _ _ _ _ _ _ _ S1 k N).
        * rewrite assoc_dict_set. destruct (String.eqb_spec k name); congruence.
        * apply keys_dict_set. auto.
        * apply K1. apply keys_dict_set. auto.
      + apply K2, K1, O0.
      + intros _. exists e2. auto.
      + intros k I N. destruct (String.eqb_spec k name) as [->|NE].
        { exists t, e2. auto. }
        destruct (in_dec string_dec k (keys m1)) as [I1|N1].
        * destruct (st_added _ _ _ _ _ _ _ _ S1 k I1) as (t' & e' & H1 & H2 & H3).
          { rewrite keys_dict_set. tauto. }
          exists t', e'. repeat split; try apply H3; auto. rewrite <- H2. now apply (st_others _ _ _ _ _ _ _ _ S2).
        * now apply (st_added _ _ _ _ _ _ _ _ S2).
      + intros C. apply (st_closed _ _ _ _ _ _ _ _ S2), (st_closed _ _ _ _ _ _ _ _ S1).
        intros k e n r E0 I. rewrite assoc_dict_set in E0.
        destruct (String.eqb_spec k name) as [->|NE]; [injection E0 as <-; destruct I|].
        destruct (C k e n r E0 I) as (tag & ty & RF & EL). exists tag, ty. split; [exact RF|].
        intros rep el H. apply keys_dict_set. right. eauto.
    - intros owner t m m' O E. rewrite add_fields_S in E.
      assert (NOT : (forall fs, kind_of U t <> KStruct fs) -> m' = m -> step su U mb owner (of_field t) (field_name t) m m').
      { intros NS ->. apply step_none.
        intros n (f & SF & _). destruct SF; eapply NS; eauto. }
      destruct (kind_of U t) as [fs| | | | |] eqn:KT; try (apply NOT; [discriminate|congruence]).
      set (req := fun f n => if tf_embedded f then field_name (tf_type f) n
                             else admitted su mb (tf_name f) /\ n = described_name f).
      eapply step_weaken with (A := of_field t) (R := fun n => exists f, In f fs /\ req f n); auto.
      + eapply (fold_step su U mb owner tfield (add_field su U mb (add_type su U mb fuel) (add_fields su U mb fuel owner) owner) _ req); eauto.
        intros f ma mb0 I OA F. unfold add_field in F. unfold req. destruct (tf_embedded f) eqn:EM.
        * eapply step_weaken; [apply IHF; eauto| |auto].
          intros n r (g & H1 & H2 & H3 & H4). exists g. repeat split; auto; try apply H2; try apply H4.
          eapply SF_embedded; eauto.
        * destruct (wanted su mb (tf_name f)) eqn:W.
          -- eapply add_reference_step in F; auto. eapply step_weaken; [exact F| |].
             ++ intros n r [-> RF]. apply wanted_admitted in W. exists f. repeat split; try apply W; try apply RF.
                eapply SF_own; eauto.
             ++ now intros n (_ & ->).
          -- injection F as <-. apply step_none.
             intros n (AD & _). apply wanted_admitted in AD. congruence.
      + intros n (f & SF & AD & ->). destruct SF as [t fs' f KT' I EM|t fs' g f KT' I EM SF].
        * rewrite KT in KT'. injection KT' as <-. exists f. unfold req. rewrite EM. auto.
        * rewrite KT in KT'. injection KT' as <-. exists g. unfold req. rewrite EM. split; [exact I|].
          exists f. auto.
  Qed.
End Loops.

(** ** More fuel does not matter *)

Lemma fold_opt_mono : forall A S (f g : A -> S -> option S) l,
  (forall a s s', f a s = Some s' -> g a s = Some s') ->
  forall s s', fold_opt f l s = Some s' -> fold_opt g l s = Some s'.
Proof.
  intros A S f g l H. induction l as [|a l IH]; intros s s' E; cbn in *; [exact E|].
  destruct (f a s) as [s1|] eqn:E1; [|discriminate]. rewrite (H _ _ _ E1). auto.
Qed.

Section Fuel.
  Variable su : string -> bool.
  Variable U : universe.
  Variable mb : list string.

  Lemma add_reference_mono : forall (rec rec' : gty -> tmap -> option tmap),
    (forall t m m', rec t m = Some m' -> rec' t m = Some m') ->
    forall owner name tag ty m m', add_reference U rec owner name tag ty m = Some m' ->
    add_reference U rec' owner name tag ty m = Some m'.
  Proof.
    intros rec rec' H owner name tag ty m m' E. unfold add_reference in *.
    destruct (element (kind_of U ty)) as [[rep e]|]; [|exact E].
    destruct (rec e m) as [m1|] eqn:E1; [|discriminate]. now rewrite (H _ _ _ E1).
  Qed.

  Lemma fuel_step : forall fuel,
    (forall t m m', add_type su U mb fuel t m = Some m' -> add_type su U mb (S fuel) t m = Some m') /\
    (forall o t m m', add_fields su U mb fuel o t m = Some m' -> add_fields su U mb (S fuel) o t m = Some m').
  Proof.
    induction fuel as [|fuel [IHT IHF]]; [split; intros; discriminate|]. split.
    - intros t m m' E. rewrite add_type_S in E.
      rewrite add_type_S.
      destruct (mem_str (canonical_name t) (keys m)); [exact E|].
      destruct (add_fields su U mb fuel (canonical_name t) t (dict_set (canonical_name t) [] m)) as [m1|] eqn:E1; [|discriminate].
      rewrite (IHF _ _ _ _ E1). eapply fold_opt_mono; [|exact E].
      intros mt s s' F. unfold add_method in *.
      destruct (wanted su mb (tm_name mt) && Nat.eqb (tm_in mt) 0); [|exact F].
      destruct (tm_out mt) as [|ty [|ty' [|x l]]]; auto; eapply add_reference_mono; eauto.
    - intros o t m m' E. rewrite add_fields_S in E.
      rewrite add_fields_S.
      destruct (kind_of U t); try exact E.
      eapply fold_opt_mono; [|exact E]. intros f s s' F. unfold add_field in *.
      destruct (tf_embedded f); [now apply IHF|]. destruct (wanted su mb (tf_name f)); [|exact F].
      eapply add_reference_mono; eauto.
  Qed.

  Lemma add_type_mono : forall fuel fuel' t m m', fuel <= fuel' ->
    add_type su U mb fuel t m = Some m' -> add_type su U mb fuel' t m = Some m'.
  Proof.
    intros fuel fuel' t m m' L. induction L as [|fuel' L IH]; [auto|].
    intros E. apply fuel_step, IH, E.
  Qed.

  (** ** It ends *)

  Variable rank : string -> nat.
  Hypothesis ranked : forall n fs f n' fs', kind_of U (GNamed n) = KStruct fs -> In f fs ->
    tf_embedded f = true -> tf_type f = GNamed n' -> kind_of U (GNamed n') = KStruct fs' -> rank n' < rank n.

  (** the types that can come up *)
  Variable L : list gty.
  Hypothesis L_element : forall t rep e, In t L -> element (kind_of U t) = Some (rep, e) -> In e L.
  Hypothesis L_field : forall t fs f, kind_of U t = KStruct fs -> In f fs -> In (tf_type f) L.
  Hypothesis L_method : forall t mt ty, In mt (methods_of U t) -> In ty (tm_out mt) -> In ty L.

  Definition undone (m : tmap) : nat :=
    List.length (filter (fun t => negb (mem_str (canonical_name t) (keys m))) L).

  Definition top : nat := fold_right (fun d n => Nat.max (rank (fst d)) n) 0 U.

  Lemma struct_named : forall t fs, kind_of U t = KStruct fs -> exists n, t = GNamed n /\ rank n <= top.
  Proof.
    intros [n| | | |] fs H; try discriminate. exists n. split; [reflexivity|]. cbn in H.
    destruct (assoc n U) as [d|] eqn:E; [|discriminate]. apply assoc_in in E. unfold top. clear - E.
    induction U as [|d' l IH]; cbn in *; [tauto|]. destruct E as [->|E]; cbn; [lia|].
    specialize (IH E). lia.
  Qed.

  Lemma filter_le : forall A (p q : A -> bool) l, (forall x, In x l -> p x = true -> q x = true) ->
    List.length (filter p l) <= List.length (filter q l).
  Proof.
    intros A p q l. induction l as [|x l IH]; intros H; cbn; [lia|].
    assert (IH' : List.length (filter p l) <= List.length (filter q l)) by (apply IH; intros; apply H; cbn; auto).
    destruct (p x) eqn:P; [rewrite (H x) by (cbn; auto); cbn; lia|].
    destruct (q x); cbn; lia.
  Qed.

  Lemma filter_lt : forall A (p q : A -> bool) l x0, (forall x, In x l -> p x = true -> q x = true) ->
    In x0 l -> p x0 = false -> q x0 = true -> List.length (filter p l) < List.length (filter q l).
  Proof.
    intros A p q l x0. induction l as [|x l IH]; intros H I P Q; [destruct I|].
    assert (LE : List.length (filter p l) <= List.length (filter q l)) by (apply filter_le; intros; apply H; cbn; auto).
    cbn. destruct I as [->|I].
    - rewrite P, Q. cbn. lia.
    - assert (LT : List.length (filter p l) < List.length (filter q l)) by (apply IH; auto; intros; apply H; cbn; auto).
      destruct (p x) eqn:PX; [rewrite (H x) by (cbn; auto); cbn; lia|].
      destruct (q x); cbn; lia.
  Qed.

  Lemma undone_mono : forall m m', (forall k, In k (keys m) -> In k (keys m')) -> undone m' <= undone m.
  Proof.
    intros m m' K. apply filter_le. intros t _ H. apply negb_true_iff in H. apply negb_true_iff.
    destruct (mem_str (canonical_name t) (keys m)) eqn:E; [|reflexivity].
    apply mem_str_spec, K, mem_str_spec in E. congruence.
  Qed.

  Lemma undone_set : forall t m, In t L -> ~ In (canonical_name t) (keys m) ->
    undone (dict_set (canonical_name t) [] m) < undone m.
  Proof.
    intros t m I N. apply filter_lt with (x0 := t); auto.
    - intros x _ H. apply negb_true_iff in H. apply negb_true_iff.
      destruct (mem_str (canonical_name x) (keys m)) eqn:E; [|reflexivity].
      apply mem_str_spec in E. exfalso. enough (mem_str (canonical_name x) (keys (dict_set (canonical_name t) [] m)) = true) by congruence.
      apply mem_str_spec, keys_dict_set. auto.
    - apply negb_false_iff, mem_str_spec, keys_dict_set. auto.
    - apply negb_true_iff. destruct (mem_str (canonical_name t) (keys m)) eqn:E; [|reflexivity].
      apply mem_str_spec in E. contradiction.
  Qed.

  Definition fuel_type (u : nat) : nat := 1 + u * (top + 3).

  Lemma fuel_type_mono : forall u v, u <= v -> fuel_type u <= fuel_type v.
  Proof. intros u v H. unfold fuel_type. nia. Qed.

  Lemma fold_ends : forall X (f : X -> tmap -> option tmap) l owner (u : nat),
    (forall x m, In x l -> In owner (keys m) -> undone m <= u ->
       exists m', f x m = Some m' /\ (forall k, In k (keys m) -> In k (keys m'))) ->
    forall m, In owner (keys m) -> undone m <= u -> exists m', fold_opt f l m = Some m'.
  Proof.
    intros X f l owner u. induction l as [|x l IH]; intros H m O UN; cbn; [eauto|].
    destruct (H x m) as (m1 & E1 & K1); cbn; auto. rewrite E1.
    apply IH; auto.
    - intros y ma I. apply H. now right.
    - pose proof (undone_mono _ _ K1). lia.
  Qed.

  Lemma add_reference_ends : forall rec owner name tag ty m u, In ty L -> undone m <= u ->
    (forall t m, In t L -> undone m <= u -> exists m', rec t m = Some m' /\ (forall k, In k (keys m) -> In k (keys m'))) ->
    exists m', add_reference U rec owner name tag ty m = Some m' /\ (forall k, In k (keys m) -> In k (keys m')).
  Proof.
    intros rec owner name tag ty m u I UN REC. unfold add_reference.
    destruct (element (kind_of U ty)) as [[rep e]|] eqn:EL.
    - destruct (REC e m) as (m1 & E1 & K1); [eapply L_element; eauto|auto|]. rewrite E1.
      eexists. split; [reflexivity|]. intros k. rewrite keys_describe. auto.
    - eexists. split; [reflexivity|]. intros k. rewrite keys_describe. auto.
  Qed.

  Lemma add_ends : forall fuel,
    (forall t m, In t L -> fuel_type (undone m) <= fuel -> exists m', add_type su U mb fuel t m = Some m') /\
    (forall owner n fs m, kind_of U (GNamed n) = KStruct fs -> In owner (keys m) ->
       1 + fuel_type (undone m) + rank n <= fuel -> exists m', add_fields su U mb fuel owner (GNamed n) m = Some m').
  Proof.
    induction fuel as [|fuel [IHT IHF]].
    { split; intros; unfold fuel_type in *; exfalso; lia. }
    assert (REC : forall u, fuel_type u <= fuel -> forall t m, In t L -> undone m <= u ->
      exists m', add_type su U mb fuel t m = Some m' /\ (forall k, In k (keys m) -> In k (keys m'))).
    { intros u F t m I UN. destruct (IHT t m I) as [m' E].
      { pose proof (fuel_type_mono _ _ UN). lia. }
      exists m'. split; [exact E|]. apply add_grows in E. eapply grown_keys; eauto. }
    split.
    - intros t m I F. rewrite add_type_S.
      destruct (mem_str (canonical_name t) (keys m)) eqn:P; [eauto|].
      assert (NP : ~ In (canonical_name t) (keys m)) by (rewrite <- mem_str_spec, P; discriminate).
      pose proof (undone_set t m I NP) as US.
      set (m0 := dict_set (canonical_name t) [] m) in *.
      assert (O0 : In (canonical_name t) (keys m0)) by (apply keys_dict_set; auto).
      assert (FU : fuel_type (undone m0) + top + 2 <= fuel).
      { unfold fuel_type in *. nia. }
      assert (E1 : exists m1, add_fields su U mb fuel (canonical_name t) t m0 = Some m1).
      { destruct (kind_of U t) as [fs| | | | |] eqn:KT;
          try (destruct fuel; [lia|]; rewrite add_fields_S, KT; solve [eauto]).
        destruct (struct_named _ _ KT) as (n & -> & RK).
        eapply IHF; eauto. lia. }
      destruct E1 as [m1 E1]. rewrite E1.
      pose proof (proj2 (add_grows su U mb fuel) _ _ _ _ O0 E1) as S1.
      pose proof (step_keys _ _ _ _ _ _ _ _ S1 O0) as K1.
      pose proof (undone_mono _ _ K1) as U1.
      eapply fold_ends with (u := undone m0); eauto.
      intros mt ma IM O UN. unfold add_method.
      destruct (wanted su mb (tm_name mt) && Nat.eqb (tm_in mt) 0); [|eauto].
      assert (RR := REC (undone m0) ltac:(lia)).
      destruct (tm_out mt) as [|ty [|ty' [|x l]]] eqn:OUT; eauto;
        eapply add_reference_ends with (u := undone m0); eauto; eapply L_method; eauto; rewrite OUT; cbn; auto.
    - intros owner n fs m KT O F. rewrite add_fields_S. rewrite KT.
      eapply fold_ends with (u := undone m); eauto.
      intros f ma IF OA UN. unfold add_field.
      destruct (tf_embedded f) eqn:EM.
      + assert (E1 : exists m1, add_fields su U mb fuel owner (tf_type f) ma = Some m1).
        { destruct (kind_of U (tf_type f)) as [fs'| | | | |] eqn:KF;
            try (destruct fuel; [unfold fuel_type in *; lia|]; rewrite add_fields_S, KF; solve [eauto]).
          destruct (struct_named _ _ KF) as (n' & EQ & _). rewrite EQ in *.
          pose proof (ranked _ _ _ _ _ KT IF EM EQ KF) as RK.
          pose proof (fuel_type_mono _ _ UN).
          eapply IHF; eauto. lia. }
        destruct E1 as [m1 E1]. exists m1. split; [exact E1|].
        pose proof (proj2 (add_grows su U mb fuel) _ _ _ _ OA E1) as S1.
        exact (step_keys _ _ _ _ _ _ _ _ S1 OA).
      + destruct (wanted su mb (tf_name f)); [|eauto].
        eapply add_reference_ends with (u := undone m); eauto.
        apply REC. lia.
  Qed.
End Fuel.
