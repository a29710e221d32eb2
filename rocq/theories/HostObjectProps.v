(** C70: attributes of host objects.  C71: lazy getters. *)

From Coq Require Import List String Ascii Bool Arith Lia ZArith.
From Verif Require Import Base BaseProofs Value HostObject.
Import ListNotations.
Open Scope nat_scope.
Open Scope string_scope.
Open Scope list_scope.

Lemma nodup_app_l : forall A (a b : list A), NoDup (a ++ b) -> NoDup a.
Proof.
  intros A a b H. induction a as [|x a IH]; [constructor|]. cbn in H. inversion H as [|? ? NI ND]; subst.
  constructor; [|auto]. intros HI. apply NI. apply in_or_app. now left.
Qed.
Lemma nodup_app_r : forall A (a b : list A), NoDup (a ++ b) -> NoDup b.
Proof. intros A a b H. induction a as [|x a IH]; [exact H|]. cbn in H. inversion H; subst. auto. Qed.

Lemma mem_str_In : forall k l, mem_str k l = true <-> In k l.
Proof.
  intros k l. unfold mem_str. rewrite existsb_exists. split.
  - intros (x & HI & HE). apply String.eqb_eq in HE as ->. exact HI.
  - intros HI. exists k. split; [exact HI|apply String.eqb_refl].
Qed.

(** ** Searching for fields *)

(** A field of the struct or of a struct embedded in it at any depth. *)
Inductive in_struct (f : field) : list field -> Prop :=
| IS_here : forall fs, In f fs -> in_struct f fs
| IS_deeper : forall g fs, In g fs -> in_struct f (f_embedded g) -> in_struct f fs.

Lemma search_found : forall matches fs fuel level b f,
  (forall bf, In bf level -> in_struct (snd bf) fs) ->
  search fuel matches level = Some (b, f) -> matches (f_name f) = true /\ in_struct f fs.
Proof.
  intros matches fs fuel. induction fuel as [|fuel IH]; intros level b f HL H; [discriminate|].
  cbn [search] in H. destruct (filter (fun bf => matches (f_name (snd bf))) level) as [|bf [|]] eqn:EF; try discriminate.
  - destruct (next_level level) as [|x l] eqn:EN; [discriminate|]. apply IH in H; [exact H|].
    intros bf HI. rewrite <- EN in HI. unfold next_level in HI. apply in_concat in HI as (part & HP & HI).
    apply in_map_iff in HP as (bg & <- & HG). apply in_map_iff in HI as (g & <- & HI). cbn [snd].
    specialize (HL bg HG). clear - HL HI. induction HL as [fs HF|h fs HH _ IH].
    + eapply IS_deeper; [exact HF|]. now constructor.
    + eapply IS_deeper; [exact HH|exact IH].
  - injection H as ->. assert (HI : In (b, f) (filter (fun bf => matches (f_name (snd bf))) level)) by (rewrite EF; now left).
    apply filter_In in HI as [HI HM]. split; [exact HM|]. apply (HL _ HI).
Qed.

Lemma find_field_found : forall matches fs b f, find_field fs matches = Some (b, f) ->
  matches (f_name f) = true /\ in_struct f fs.
Proof.
  intros matches fs b f H. eapply search_found; [|exact H]. intros bf HI.
  apply in_map_iff in HI as (g & <- & HI). now constructor.
Qed.

Lemma filter_unique : forall A (p : A -> bool) (l : list A) x, NoDup l -> In x l -> p x = true ->
  (forall y, In y l -> p y = true -> y = x) -> filter p l = [x].
Proof.
  intros A p l x ND. induction ND as [|y l NI ND IH]; intros HI HP HU; [contradiction|].
  cbn [filter]. destruct (p y) eqn:EP.
  - assert (y = x) by (apply HU; [now left|exact EP]). subst y. f_equal.
    destruct (filter p l) as [|z r] eqn:EF; [reflexivity|].
    assert (HZ : In z (filter p l)) by (rewrite EF; now left). apply filter_In in HZ as [HZ PZ].
    assert (z = x) by (apply HU; [now right|exact PZ]). subst z. contradiction.
  - destruct HI as [->|HI]; [congruence|]. apply IH; auto. intros z HZ. apply HU. now right.
Qed.

Lemma find_field_top : forall matches fs f, NoDup (map f_name fs) -> In f fs -> matches (f_name f) = true ->
  (forall g, In g fs -> matches (f_name g) = true -> g = f) -> find_field fs matches = Some (false, f).
Proof.
  intros matches fs f ND HI HM HU. unfold find_field. cbn [search].
  assert (F : filter (fun bf : bool * field => matches (f_name (snd bf))) (map (pair false) fs) =
              map (pair false) (filter (fun g => matches (f_name g)) fs)).
  { clear. induction fs as [|g fs IH]; [reflexivity|]. cbn [map filter snd].
    destruct (matches (f_name g)); cbn [map]; now rewrite IH. }
  rewrite F, (filter_unique _ _ fs f); auto. eapply NoDup_map_inv; eauto.
Qed.

Lemma same_name : forall fs f g, NoDup (map f_name fs) -> In f fs -> In g fs -> f_name f = f_name g -> f = g.
Proof.
  intros fs f g ND. induction fs as [|h fs IH]; intros HF HG HE; [contradiction|].
  cbn [map] in ND. inversion ND as [|? ? NI ND']; subst.
  destruct HF as [->|HF], HG as [->|HG]; auto.
  - exfalso. apply NI. rewrite HE. now apply in_map.
  - exfalso. apply NI. rewrite <- HE. now apply in_map.
Qed.

Lemma matches_top : forall fs name g, NoDup (map f_name fs) -> In g fs ->
  field_matches fs name (f_name g) = (String.eqb (f_name g) name || String.eqb (f_json g) name)%bool.
Proof.
  intros fs name g ND HI. unfold field_matches.
  rewrite (find_field_top (String.eqb (f_name g)) fs g ND HI); [reflexivity|apply String.eqb_refl|].
  intros h HH HE. apply String.eqb_eq in HE. symmetry. now apply (same_name fs).
Qed.

(** ** C70 *)

Section C70.
  Variable same_upper : string -> bool.

  (** The rules of the Go language: the fields and methods of one type have
      different names. *)
  Definition well_named (o : object) : Prop :=
    NoDup (map f_name (match o_fields o with Some fs => fs | None => [] end) ++ map m_name (o_methods o)).

  (** A field is read under its name. *)
  Theorem C70_field_is_read_by_its_name_partial : forall o fs f,
    well_named o -> o_fields o = Some fs -> In f fs -> f_exported f = true ->
    (forall g, In g fs -> f_json g = f_name f -> g = f) ->
    attribute same_upper o (f_name f) = (f_value f, true).
  Proof.
    intros o fs f WN HF HI HE HJ. unfold well_named in WN. rewrite HF in WN.
    assert (ND : NoDup (map f_name fs)) by (eapply nodup_app_l; exact WN).
    unfold attribute. rewrite HF.
    rewrite (find_field_top (field_matches fs (f_name f)) fs f ND HI); [now rewrite HE| |].
    - rewrite (matches_top _ _ _ ND HI), String.eqb_refl. reflexivity.
    - intros g HG HM. rewrite (matches_top _ _ _ ND HG) in HM. apply orb_true_iff in HM as [HM|HM];
        apply String.eqb_eq in HM; [now apply (same_name fs)|auto].
  Qed.

  (** A field is read under the name it has in JSON. *)
  Theorem C70_field_is_read_by_its_json_name_partial : forall o fs f name,
    well_named o -> o_fields o = Some fs -> In f fs -> f_exported f = true -> f_json f = name ->
    (forall g, In g fs -> f_json g = name \/ f_name g = name -> g = f) ->
    attribute same_upper o name = (f_value f, true).
  Proof.
    intros o fs f name WN HF HI HE HN HJ. unfold well_named in WN. rewrite HF in WN.
    assert (ND : NoDup (map f_name fs)) by (eapply nodup_app_l; exact WN).
    unfold attribute. rewrite HF.
    rewrite (find_field_top (field_matches fs name) fs f ND HI); [now rewrite HE| |].
    - rewrite (matches_top _ _ _ ND HI), HN, String.eqb_refl. apply orb_true_r.
    - intros g HG HM. rewrite (matches_top _ _ _ ND HG) in HM. apply orb_true_iff in HM as [HM|HM];
        apply String.eqb_eq in HM; auto.
  Qed.

  Lemma no_field : forall fs name, (forall f, in_struct f fs -> f_name f <> name /\ f_json f <> name) ->
    find_field fs (field_matches fs name) = None.
  Proof.
    intros fs name H. destruct (find_field fs (field_matches fs name)) as [[b f]|] eqn:EF; [|reflexivity].
    apply find_field_found in EF as [HM HI]. unfold field_matches in HM.
    apply orb_true_iff in HM as [HM|HM].
    - apply String.eqb_eq in HM. now destruct (H f HI).
    - destruct (find_field fs (String.eqb (f_name f))) as [[b' g]|] eqn:EG; [|discriminate].
      apply find_field_found in EG as [_ HG]. apply String.eqb_eq in HM. now destruct (H g HG).
  Qed.

  (** What a getter gives: its first result, NULL in place of a nil pointer,
      and NULL if there are none, or more than a value and an error. *)
  Definition first_result (rs : list mresult) : val :=
    match rs with
    | [r] | [r; _] => result_value r
    | _ => VNull
    end.

  Lemma find_method : forall (ms : list method) m, NoDup (map m_name ms) -> In m ms ->
    find (fun x => String.eqb (m_name x) (m_name m)) ms = Some m.
  Proof.
    intros ms m ND. induction ms as [|x ms IH]; intros HI; [contradiction|]. cbn [map] in ND.
    inversion ND as [|? ? NI ND']; subst. cbn [find]. destruct HI as [->|HI].
    - now rewrite String.eqb_refl.
    - destruct (String.eqb (m_name x) (m_name m)) eqn:EM; [|auto].
      apply String.eqb_eq in EM. exfalso. apply NI. rewrite EM. now apply in_map.
  Qed.

  (** A method without arguments is called and gives its first result. *)
  Theorem C70_getter_is_called_partial : forall o m rs,
    well_named o -> In m (o_methods o) -> is_callable same_upper m = true -> m_results m = Some rs ->
    (forall fs f, o_fields o = Some fs -> in_struct f fs -> f_name f <> m_name m /\ f_json f <> m_name m) ->
    attribute same_upper o (m_name m) = (first_result rs, true).
  Proof.
    intros o m rs WN HI HC HR HN. unfold attribute.
    assert (CM : call_method same_upper (o_methods o) (m_name m) = Some (first_result rs, true)).
    { unfold call_method. unfold well_named in WN. rewrite (find_method _ m); [|eapply nodup_app_r; exact WN|exact HI].
      rewrite HC, HR. destruct rs as [|r [|r2 [|]]]; reflexivity. }
    rewrite CM. destruct (o_fields o) as [fs|] eqn:EF; [|reflexivity].
    rewrite no_field; [reflexivity|]. intros f Hf. exact (HN fs f eq_refl Hf).
  Qed.

  (** A name that is neither a field, nor a name in JSON, nor a method is
      reported as missing. *)
  Theorem C70_other_names_are_missing_partial : forall o name,
    (forall fs f, o_fields o = Some fs -> in_struct f fs -> f_name f <> name /\ f_json f <> name) ->
    (forall m, In m (o_methods o) -> m_name m <> name) ->
    attribute same_upper o name = (VNull, false).
  Proof.
    intros o name HN HM. unfold attribute.
    assert (CM : call_method same_upper (o_methods o) name = None).
    { unfold call_method. destruct (find _ (o_methods o)) as [m|] eqn:EM; [|reflexivity].
      apply find_some in EM as [HI HE]. apply String.eqb_eq in HE. now destruct (HM m HI). }
    rewrite CM. destruct (o_fields o) as [fs|] eqn:EF; [|reflexivity].
    rewrite no_field; [reflexivity|]. intros f Hf. exact (HN fs f eq_refl Hf).
  Qed.

  (** A method that takes arguments, or whose name starts with a small letter
      or an underscore, is neither listed nor called; a method that panics is
      reported as missing. *)
  Definition small_letter (name : string) : Prop :=
    exists c rest, name = String c rest /\ (97 <= nat_of_ascii c <= 122 \/ nat_of_ascii c = 95).
  Theorem C70_hidden_methods : forall o m,
    well_named o -> In m (o_methods o) ->
    (forall fs f, o_fields o = Some fs -> in_struct f fs -> f_name f <> m_name m /\ f_json f <> m_name m) ->
    (m_args m <> 0 \/ small_letter (m_name m) ->
       ~ In (m_name m) (members_of_object same_upper o) /\ attribute same_upper o (m_name m) = (VNull, false)) /\
    (m_results m = None -> snd (attribute same_upper o (m_name m)) = false).
  Proof.
    intros o m WN HI HN. unfold well_named in WN.
    assert (FM : find (fun x => String.eqb (m_name x) (m_name m)) (o_methods o) = Some m)
      by (apply find_method; [eapply nodup_app_r; exact WN|exact HI]).
    assert (AT : attribute same_upper o (m_name m) =
      match call_method same_upper (o_methods o) (m_name m) with Some r => r | None => (VNull, false) end).
    { unfold attribute. destruct (o_fields o) as [fs|] eqn:EF; [|reflexivity].
      rewrite no_field; [reflexivity|]. intros f Hf. exact (HN fs f eq_refl Hf). }
    rewrite AT. unfold call_method. rewrite FM. split.
    - intro H. assert (NC : is_callable same_upper m = false).
      { unfold is_callable. destruct H as [H|(c & rest & E & H)].
        - apply Nat.eqb_neq in H. rewrite H. apply andb_false_r.
        - apply andb_false_iff. left. unfold is_exported. rewrite E.
          destruct (String.eqb _ _ || String.eqb _ _); [reflexivity|]. cbv zeta.
          destruct (Nat.eqb_spec (nat_of_ascii c) 95); [reflexivity|].
          destruct (Nat.ltb_spec (nat_of_ascii c) 128); [|lia].
          destruct (Nat.leb_spec 97 (nat_of_ascii c)), (Nat.leb_spec (nat_of_ascii c) 122); cbn; try reflexivity; lia. }
      rewrite NC. split; [|reflexivity]. unfold members_of_object. intro IM. apply in_app_or in IM as [IM|IM].
      + apply filter_In in IM as [IM _]. destruct (o_fields o) as [fs|] eqn:EF; [|contradiction].
        apply in_map_iff in IM as (f & E & IF). destruct (HN fs f eq_refl (IS_here _ _ IF)) as (NE & _). now apply NE.
      + apply in_map_iff in IM as (m' & E & IM). apply filter_In in IM as [IM C'].
        assert (FM' : find (fun x => String.eqb (m_name x) (m_name m')) (o_methods o) = Some m')
          by (apply find_method; [eapply nodup_app_r; exact WN|exact IM]).
        rewrite E in FM'. rewrite FM in FM'. injection FM' as <-. congruence.
    - intros R. rewrite R. destruct (is_callable same_upper m); reflexivity.
  Qed.

  (** Every name reported as a member can be read, and gives the field or the
      result of the method of that name. *)
  Definition member_value (o : object) (name : string) (v : val) : Prop :=
    (exists fs f, o_fields o = Some fs /\ In f fs /\ f_name f = name /\ v = f_value f) \/
    (exists m rs, In m (o_methods o) /\ m_name m = name /\ m_results m = Some rs /\ v = first_result rs).

  Theorem C70_members_can_be_read_partial : forall o,
    well_named o ->
    (forall fs f, o_fields o = Some fs -> In f fs -> is_exported same_upper (f_name f) = true -> f_exported f = true) ->
    (forall fs f g, o_fields o = Some fs -> In f fs -> In g fs -> f_json g = f_name f -> g = f) ->
    (forall fs f m, o_fields o = Some fs -> In m (o_methods o) -> in_struct f fs ->
       f_name f <> m_name m /\ f_json f <> m_name m) ->
    (forall m, In m (o_methods o) -> m_results m <> None) ->
    forall name, In name (members_of_object same_upper o) ->
    exists v, attribute same_upper o name = (v, true) /\ member_value o name v.
  Proof.
    intros o WN HE HJ HM HP name HI. unfold members_of_object in HI. apply in_app_or in HI as [HI|HI].
    - apply filter_In in HI as [HI HX]. destruct (o_fields o) as [fs|] eqn:EF; [|contradiction].
      apply in_map_iff in HI as (f & <- & HI). exists (f_value f). split.
      + eapply C70_field_is_read_by_its_name_partial; eauto.
      + left. exists fs, f. auto.
    - apply in_map_iff in HI as (m & <- & HI). apply filter_In in HI as [HI HC].
      destruct (m_results m) as [rs|] eqn:ER; [|now destruct (HP m HI)].
      exists (first_result rs). split.
      + eapply C70_getter_is_called_partial; eauto.
      + right. exists m, rs. auto.
  Qed.
End C70.

(** *** The statement does not hold in general *)

Definition plain_field (name json : string) (v : val) : field := Field name json true false v None.
Definition getter (name : string) (v : val) : method := {| m_name := name; m_args := 0; m_results := Some [MVal v] |}.
Definition never : string -> bool := fun _ => false.

(** A field is not found under its own name because the tag of another says
    the same: [struct { Name string; Other string `json:"Name"` }]. *)
Definition two_names : object :=
  {| o_fields := Some [plain_field "Name" "" (VStr "a"); plain_field "Other" "Name" (VStr "b")]; o_methods := [] |}.
Theorem C70_two_fields_one_name_refuted : exists o name,
  well_named o /\ In name (members_of_object never o) /\ attribute never o name = (VNull, false).
Proof.
  exists two_names, "Name". split; [|split].
  - unfold well_named. cbn. repeat (constructor; [cbn; intuition discriminate|]). constructor.
  - vm_compute. auto.
  - vm_compute. reflexivity.
Qed.

(** The member listed is a method, the value read is that of a field with
    that name in its tag, or of a field of an embedded struct. *)
Definition hidden_method : object :=
  {| o_fields := Some [plain_field "Count" "Size" (vint 1)]; o_methods := [getter "Size" (vint 2)] |}.
Definition hidden_by_embedded : object :=
  {| o_fields := Some [Field "Base" "" true false (VStr "base") (Some [plain_field "Size" "" (vint 1)])];
     o_methods := [getter "Size" (vint 2)] |}.
Theorem C70_method_hidden_refuted : exists o m,
  well_named o /\ In m (o_methods o) /\ is_callable never m = true /\ m_results m = Some [MVal (vint 2)] /\
  attribute never o (m_name m) = (vint 1, true).
Proof.
  exists hidden_method, (getter "Size" (vint 2)). split; [|split; [|split; [|split]]]; try (vm_compute; auto; fail).
  unfold well_named. cbn. repeat (constructor; [cbn; intuition discriminate|]). constructor.
Qed.
Theorem C70_method_hidden_by_embedded_field_refuted : exists o m,
  well_named o /\ In m (o_methods o) /\ is_callable never m = true /\ m_results m = Some [MVal (vint 2)] /\
  attribute never o (m_name m) = (vint 1, true).
Proof.
  exists hidden_by_embedded, (getter "Size" (vint 2)). split; [|split; [|split; [|split]]]; try (vm_compute; auto; fail).
  unfold well_named. cbn. repeat (constructor; [cbn; intuition discriminate|]). constructor.
Qed.

(** The empty name finds the only field without a tag. *)
Theorem C70_empty_name_refuted : exists o v,
  well_named o /\ (forall fs f, o_fields o = Some fs -> in_struct f fs -> f_name f <> "") /\
  (forall m, In m (o_methods o) -> m_name m <> "") /\ attribute never o "" = (v, true).
Proof.
  exists {| o_fields := Some [plain_field "Name" "" (VStr "a")]; o_methods := [] |}, (VStr "a").
  split; [|split; [|split]].
  - unfold well_named. cbn. repeat (constructor; [cbn; intuition discriminate|]). constructor.
  - intros fs f [= <-] H. inversion H as [? HI|g ? HI H1]; subst; destruct HI as [<-|[]]; [discriminate|].
    cbn in H1. inversion H1 as [? HI|? ? HI]; contradiction HI.
  - intros m [].
  - vm_compute. reflexivity.
Qed.

(** A field whose name starts with a letter that has no upper case is not
    exported, but is listed.  The bytes are those of U+65E5. *)
Definition caseless : string := String (ascii_of_nat 230) (String (ascii_of_nat 151) (String (ascii_of_nat 165) "")).
Theorem C70_caseless_name_refuted : exists o name,
  well_named o /\ In name (members_of_object (fun _ => true) o) /\ attribute (fun _ => true) o name = (VNull, false).
Proof.
  exists {| o_fields := Some [Field caseless "" false false (VStr "a") None]; o_methods := [] |}, caseless.
  split; [|split].
  - unfold well_named. cbn. repeat (constructor; [cbn; intuition discriminate|]). constructor.
  - vm_compute. auto.
  - vm_compute. reflexivity.
Qed.

(** Fields of an embedded struct can be read, but are not listed. *)
Theorem C70_promoted_fields_are_not_listed : exists o name v,
  well_named o /\ attribute never o name = (v, true) /\ v <> VNull /\ ~ In name (members_of_object never o).
Proof.
  exists {| o_fields := Some [Field "Base" "" true false (VStr "base") (Some [plain_field "Size" "" (vint 1)])];
            o_methods := [] |}, "Size", (vint 1).
  split; [|split; [|split]].
  - unfold well_named. cbn. repeat (constructor; [cbn; intuition discriminate|]). constructor.
  - vm_compute. reflexivity.
  - discriminate.
  - vm_compute. intuition discriminate.
Qed.

(** *** A case that meets the hypotheses *)
Definition file_info : object :=
  {| o_fields := Some [plain_field "Path" "path" (VStr "/tmp"); Field "Parent" "" true true VNil None;
                       Field "cache" "" false false (vint 9) None];
     o_methods := [getter "Size" (vint 42);
                   {| m_name := "Stat"; m_args := 0; m_results := Some [MNilPtr; MVal (VStr "error")] |};
                   {| m_name := "Open"; m_args := 1; m_results := Some [MVal VNull] |};
                   getter "MarshalJSON" (VStr "{}")] |}.
Example C70_demo_members : members_of_object never file_info = ["Path"; "Parent"; "Size"; "Stat"].
Proof. vm_compute. reflexivity. Qed.
Example C70_demo : forall name, In name (members_of_object never file_info) ->
  exists v, attribute never file_info name = (v, true) /\ member_value file_info name v.
Proof.
  apply C70_members_can_be_read_partial.
  - unfold well_named. cbn. repeat (constructor; [cbn; intuition discriminate|]). constructor.
  - intros fs f [= <-] [<-|[<-|[<-|[]]]]; vm_compute; congruence.
  - intros fs f g [= <-] [<-|[<-|[<-|[]]]] [<-|[<-|[<-|[]]]]; vm_compute; congruence.
  - intros fs f m [= <-] HM HF. assert (HI : In f [plain_field "Path" "path" (VStr "/tmp"); Field "Parent" "" true true VNil None;
                       Field "cache" "" false false (vint 9) None]).
    { inversion HF as [? H|g ? H H1]; subst; [exact H|]. destruct H as [<-|[<-|[<-|[]]]]; inversion H1 as [? HI|? ? HI]; contradiction HI. }
    destruct HI as [<-|[<-|[<-|[]]]]; destruct HM as [<-|[<-|[<-|[<-|[]]]]]; vm_compute; split; discriminate.
  - intros m [<-|[<-|[<-|[<-|[]]]]]; discriminate.
Qed.
Example C70_demo_values :
  map (attribute never file_info) ["Path"; "path"; "Parent"; "Size"; "Stat"; "cache"; "Open"; "MarshalJSON"; "nothing"] =
  [(VStr "/tmp", true); (VStr "/tmp", true); (VNull, true); (vint 42, true); (VNull, true); (VNull, false);
   (VNull, false); (VNull, false); (VNull, false)].
Proof. vm_compute. reflexivity. Qed.

(** ** C71: lazy getters *)

(** Only the listed attributes are shown. *)
Theorem C71_only_listed_attributes : forall su attributes o name,
  ~ In name attributes -> lazy_attribute su attributes o name = FoundNothing.
Proof.
  intros su attributes o name H. unfold lazy_attribute.
  replace (mem_str name attributes) with false; [reflexivity|]. symmetry. apply not_true_iff_false.
  intros HM. apply H. now apply mem_str_In.
Qed.

Lemma search_ext : forall p q fs fuel level,
  (forall bf, In bf level -> in_struct (snd bf) fs) ->
  (forall f, in_struct f fs -> p (f_name f) = q (f_name f)) -> search fuel p level = search fuel q level.
Proof.
  intros p q fs fuel. induction fuel as [|fuel IH]; intros level HL HE; [reflexivity|]. cbn [search].
  assert (F : filter (fun bf : bool * field => p (f_name (snd bf))) level =
              filter (fun bf => q (f_name (snd bf))) level).
  { clear - HL HE. induction level as [|bf level IH]; [reflexivity|]. cbn [filter].
    rewrite (HE (snd bf)) by (apply HL; now left). rewrite IH; [reflexivity|]. intros x HX. apply HL. now right. }
  rewrite F. destruct (filter (fun bf => q (f_name (snd bf))) level) as [|bf [|]]; auto.
  destruct (next_level level) as [|x l] eqn:EN; [reflexivity|]. apply IH; [|exact HE].
  intros bf HI. rewrite <- EN in HI. unfold next_level in HI. apply in_concat in HI as (part & HP & HI).
  apply in_map_iff in HP as (bg & <- & HG). apply in_map_iff in HI as (g & <- & HI). cbn [snd].
  specialize (HL bg HG). clear - HL HI. induction HL as [fs HF|h fs HH _ IH].
  - eapply IS_deeper; [exact HF|]. now constructor.
  - eapply IS_deeper; [exact HH|exact IH].
Qed.

(** What a listed attribute gives is what the object gives without the
    wrapper; only the call of a method is put off. *)
Theorem C71_same_attribute_as_without_wrapper : forall su attributes o fs name,
  o_fields o = Some fs -> In name attributes -> (forall f, in_struct f fs -> f_json f <> name) ->
  match lazy_attribute su attributes o name with
  | FoundValue v => attribute su o name = (v, true)
  | FoundGetter m => forall rs, m_results m = Some rs -> attribute su o name = (first_result rs, true)
  | FoundNothing => attribute su o name = (VNull, false)
  | FoundPanic => attribute su o name = (VNil, false)
  end.
Proof.
  intros su attributes o fs name HF HI HJ. unfold lazy_attribute.
  assert (HM : mem_str name attributes = true) by now apply mem_str_In. rewrite HM, HF. cbn [negb].
  unfold attribute. rewrite HF.
  assert (EQ : find_field fs (fun n => String.eqb n name) = find_field fs (field_matches fs name)).
  { unfold find_field at 1 2. apply (search_ext _ _ fs).
    - intros bf HB. apply in_map_iff in HB as (g & <- & HB). now constructor.
    - intros f Hf. unfold field_matches. destruct (String.eqb (f_name f) name); [reflexivity|]. cbn [orb].
      destruct (find_field fs (String.eqb (f_name f))) as [[b g]|] eqn:EG; [|reflexivity].
      apply find_field_found in EG as [_ HG]. symmetry. apply String.eqb_neq. now apply HJ. }
  rewrite EQ.
  assert (METH : match (match find (fun m => String.eqb (m_name m) name) (o_methods o) with
                        | Some m => if is_callable su m then FoundGetter m else FoundNothing
                        | None => FoundNothing
                        end) with
                 | FoundValue v => False
                 | FoundGetter m => forall rs, m_results m = Some rs ->
                     match call_method su (o_methods o) name with Some r => r | None => (VNull, false) end
                     = (first_result rs, true)
                 | FoundNothing =>
                     match call_method su (o_methods o) name with Some r => r | None => (VNull, false) end
                     = (VNull, false)
                 | FoundPanic => False
                 end).
  { unfold call_method. destruct (find _ (o_methods o)) as [m|]; [|reflexivity].
    destruct (is_callable su m); [|reflexivity]. intros rs ->. destruct rs as [|r [|r2 [|]]]; reflexivity. }
  destruct (find_field fs (field_matches fs name)) as [[[] f]|].
  - reflexivity.
  - destruct (f_exported f); [reflexivity|].
    destruct (find _ (o_methods o)) as [m|]; [destruct (is_callable su m)|]; exact METH.
  - destruct (find _ (o_methods o)) as [m|]; [destruct (is_callable su m)|]; exact METH.
Qed.

(** *** Any number of goroutines reduce the getter *)

Section C71.
  Variable callback : nat -> val.
  Notation steps := (getter_steps callback).

  Lemma nth_set_same : forall A (l : list A) i x y, nth_error l i = Some x -> nth_error (set_nth i y l) i = Some y.
  Proof. induction l as [|a l IH]; intros [|i] x y H; try discriminate; [reflexivity|]. cbn in *. eauto. Qed.
  Lemma nth_set_other : forall A (l : list A) i j y, i <> j -> nth_error (set_nth i y l) j = nth_error l j.
  Proof. induction l as [|a l IH]; intros [|i] [|j] y H; try reflexivity; [congruence|]. cbn. apply IH. congruence. Qed.

  (** Who holds the lock is between Lock and Unlock, and nobody else. *)
  Definition busy (p : phase) : bool :=
    match p with Inside | Called _ | Leaving => true | _ => false end.
  Record tidy (s : getter_state) : Prop := {
    ti_holder : forall i p, nth_error (readers s) i = Some p -> busy p = true -> holder s = Some i;
    ti_held : forall i, holder s = Some i -> exists p, nth_error (readers s) i = Some p /\ busy p = true;
    (* after the first call somebody is about to store, or the value is there *)
    ti_calls : calls s = 0 -> cached s = VNil;
    ti_none : forall i p, nth_error (readers s) i = Some p -> calls s = 0 -> p = Waiting \/ p = Inside;
    ti_first : callback 0 <> VNil ->
      calls s <= 1 /\
      (calls s = 1 -> cached s = callback 0 \/ (cached s = VNil /\ exists i, nth_error (readers s) i = Some (Called (callback 0)))) /\
      (forall i v, nth_error (readers s) i = Some (Called v) -> v = callback 0 /\ calls s = 1) /\
      (forall i, nth_error (readers s) i = Some Leaving -> cached s = callback 0) /\
      (forall i v, nth_error (readers s) i = Some (Returned v) -> v = callback 0 /\ cached s = callback 0)
  }.

  Lemma start_tidy : forall n, tidy (getter_start n).
  Proof.
    intros n. assert (R : forall i p, nth_error (repeat Waiting n) i = Some p -> p = Waiting).
    { intros i p H. apply nth_error_In in H. now apply repeat_spec in H. }
    constructor; cbn [getter_start holder readers cached calls].
    - intros i p H B. rewrite (R _ _ H) in B. discriminate.
    - discriminate.
    - reflexivity.
    - intros i p H _. left. eauto.
    - intros _. split; [lia|]. split; [lia|]. split; [|split]; intros; match goal with H : nth_error _ _ = _ |- _ =>
        apply R in H; discriminate end.
  Qed.

  Ltac at_index i j :=
    let NE := fresh in destruct (Nat.eq_dec i j) as [<-|NE];
    [erewrite nth_set_same in * by eassumption|rewrite nth_set_other in * by exact NE].

  Lemma step_tidy : forall s s', tidy s -> getter_step callback s s' -> tidy s'.
  Proof.
    intros s s' [H1 H2 H3 H4 H5] ST.
    destruct ST as [s i HI HH|s i HI HC|s i HI HC|s i v HI|s i HI]; cbn [move holder readers cached calls] in *.
    - (* lock *)
      assert (NB : forall j p, nth_error (readers s) j = Some p -> busy p = false).
      { intros j p Hj. destruct (busy p) eqn:EB; [|reflexivity]. rewrite (H1 j p Hj EB) in HH. discriminate. }
      constructor; cbn [move holder readers cached calls].
      + intros j p Hj B. at_index i j; [reflexivity|]. rewrite (NB j p Hj) in B. discriminate.
      + intros j [= <-]. exists Inside. split; [eapply nth_set_same; eauto|reflexivity].
      + exact H3.
      + intros j p Hj C0. at_index i j; [injection Hj as <-; auto|eauto].
      + intros NN. destruct (H5 NN) as (A & B & C & D & F). split; [exact A|]. split; [|split; [|split]].
        * intros C1. destruct (B C1) as [B1|(B1 & j & B2)]; [auto|right]. split; [exact B1|]. exists j.
          at_index i j; [congruence|exact B2].
        * intros j v Hj. at_index i j; [discriminate|eauto].
        * intros j Hj. at_index i j; [discriminate|eauto].
        * intros j v Hj. at_index i j; [discriminate|eauto].
    - (* call *)
      assert (HO : holder s = Some i) by (eapply H1; eauto).
      assert (ONLY : forall j p, nth_error (readers s) j = Some p -> busy p = true -> j = i).
      { intros j p Hj B. rewrite (H1 j p Hj B) in HO. congruence. }
      constructor; cbn [move holder readers cached calls].
      + intros j p Hj B. at_index i j; [exact HO|eauto].
      + intros j Hj. assert (j = i) by congruence. subst j. eexists. split; [eapply nth_set_same; eauto|reflexivity].
      + discriminate.
      + discriminate.
      + intros NN. destruct (H5 NN) as (A & B & C & D & F).
        assert (C0 : calls s = 0).
        { destruct (calls s) as [|[|k]] eqn:EC; [reflexivity| |lia]. exfalso.
          destruct (B eq_refl) as [B1|(_ & j & B2)]; [congruence|].
          rewrite (ONLY j _ B2 eq_refl) in B2. congruence. }
        rewrite C0. split; [lia|]. split; [|split; [|split]].
        * intros _. right. split; [exact HC|]. exists i. eapply nth_set_same; eauto.
        * intros j v Hj. at_index i j; [injection Hj as <-; auto|]. destruct (C j v Hj). lia.
        * intros j Hj. at_index i j; [discriminate|]. rewrite (D j Hj) in HC. contradiction.
        * intros j v Hj. at_index i j; [discriminate|]. destruct (F j v Hj) as [_ F2]. congruence.
    - (* skip *)
      assert (HO : holder s = Some i) by (eapply H1; eauto).
      constructor; cbn [move holder readers cached calls].
      + intros j p Hj B. at_index i j; [exact HO|eauto].
      + intros j Hj. assert (j = i) by congruence. subst j. exists Leaving. split; [eapply nth_set_same; eauto|reflexivity].
      + exact H3.
      + intros j p Hj C0. exfalso. apply HC. auto.
      + intros NN. destruct (H5 NN) as (A & B & C & D & F).
        assert (CC : cached s = callback 0).
        { destruct (calls s) as [|[|k]] eqn:EC; [exfalso; apply HC; auto| |lia].
          destruct (B eq_refl) as [B1|(B1 & _)]; [exact B1|contradiction]. }
        split; [exact A|]. split; [auto|]. split; [|split].
        * intros j v Hj. at_index i j; [discriminate|eauto].
        * intros j Hj. exact CC.
        * intros j v Hj. at_index i j; [discriminate|eauto].
    - (* store *)
      assert (HO : holder s = Some i) by (eapply H1; eauto).
      constructor; cbn [move holder readers cached calls].
      + intros j p Hj B. at_index i j; [exact HO|eauto].
      + intros j Hj. assert (j = i) by congruence. subst j. exists Leaving. split; [eapply nth_set_same; eauto|reflexivity].
      + intros C0. destruct (H4 i _ HI C0); discriminate.
      + intros j p Hj C0. destruct (H4 i _ HI C0); discriminate.
      + intros NN. destruct (H5 NN) as (A & B & C & D & F). destruct (C i v HI) as [-> C1].
        split; [exact A|]. split; [auto|]. split; [|split].
        * intros j v Hj. at_index i j; [discriminate|eauto].
        * reflexivity.
        * intros j v Hj. at_index i j; [discriminate|]. destruct (F j v Hj). auto.
    - (* return *)
      assert (HO : holder s = Some i) by (eapply H1; eauto).
      constructor; cbn [move holder readers cached calls].
      + intros j p Hj B. at_index i j; [injection Hj as <-; discriminate|].
        rewrite (H1 j p Hj B) in HO. congruence.
      + discriminate.
      + exact H3.
      + intros j p Hj C0. destruct (H4 i _ HI C0); discriminate.
      + intros NN. destruct (H5 NN) as (A & B & C & D & F). pose proof (D i HI) as CC.
        split; [exact A|]. split; [auto|]. split; [|split].
        * intros j v Hj. at_index i j; [discriminate|eauto].
        * intros j Hj. exact CC.
        * intros j v Hj. at_index i j; [injection Hj as <-; auto|eauto].
  Qed.

  Lemma steps_tidy : forall n s, steps (getter_start n) s -> tidy s.
  Proof.
    intros n s H. remember (getter_start n) as s0 eqn:E0. induction H as [s|s1 s2 s3 _ IH ST]; subst.
    - apply start_tidy.
    - eapply step_tidy; eauto.
  Qed.

  (** The getter is called at most once, and everybody gets its result,
      whatever the schedule. *)
  Theorem C71_called_once_partial : forall n s, callback 0 <> VNil -> steps (getter_start n) s ->
    calls s <= 1 /\ (forall i v, nth_error (readers s) i = Some (Returned v) -> v = callback 0).
  Proof.
    intros n s NN H. destruct (ti_first _ (steps_tidy n s H) NN) as (A & _ & _ & _ & F).
    split; [exact A|]. intros i v Hi. now destruct (F i v Hi).
  Qed.

  (** Nobody waits for ever: while somebody has not returned there is a step,
      and there are at most four for each. *)
  Definition left_of (p : phase) : nat :=
    match p with Waiting => 4 | Inside => 3 | Called _ => 2 | Leaving => 1 | Returned _ => 0 end.
  Definition left_over (s : getter_state) : nat := list_sum (map left_of (readers s)).

  Lemma sum_set : forall l i p q, nth_error l i = Some p -> left_of q < left_of p ->
    list_sum (map left_of (set_nth i q l)) < list_sum (map left_of l).
  Proof.
    induction l as [|x l IH]; intros [|i] p q H L; try discriminate; cbn [set_nth map].
    - injection H as ->. unfold list_sum. cbn [fold_right]. lia.
    - specialize (IH i p q H L). unfold list_sum in *. cbn [fold_right]. lia.
  Qed.

  Theorem C71_everybody_returns : forall n s, steps (getter_start n) s ->
    ((exists s', getter_step callback s s') \/ forall i p, nth_error (readers s) i = Some p -> exists v, p = Returned v) /\
    (forall s', getter_step callback s s' -> left_over s' < left_over s).
  Proof.
    intros n s H. pose proof (steps_tidy n s H) as T. split.
    - destruct (holder s) as [i|] eqn:EH.
      + left. destruct (ti_held _ T i EH) as (p & Hp & B). destruct p; try discriminate.
        * destruct (cached s) eqn:EC; try (eexists; apply Step_skip with (i := i); [exact Hp|congruence]).
          eexists. apply Step_call with (i := i); assumption.
        * eexists. eapply Step_store; eauto.
        * eexists. eapply Step_return; eauto.
      + destruct (existsb (fun p => match p with Waiting => true | _ => false end) (readers s)) eqn:EX.
        * left. apply existsb_exists in EX as (p & HI & HP). destruct p; try discriminate.
          apply In_nth_error in HI as (i & HI). eexists. eapply Step_lock; eauto.
        * right. intros i p Hi. destruct p as [| | | |v]; [| | | |eauto]; exfalso.
          -- assert (existsb (fun p => match p with Waiting => true | _ => false end) (readers s) = true); [|congruence].
             apply existsb_exists. exists Waiting. split; [eapply nth_error_In; eauto|reflexivity].
          -- rewrite (ti_holder _ T i _ Hi eq_refl) in EH. discriminate.
          -- rewrite (ti_holder _ T i _ Hi eq_refl) in EH. discriminate.
          -- rewrite (ti_holder _ T i _ Hi eq_refl) in EH. discriminate.
    - intros s' ST. unfold left_over.
      destruct ST; cbn [move readers]; eapply sum_set; eauto; cbn [left_of]; lia.
  Qed.
End C71.

(** A getter whose result is nil (of an interface type) is called again. *)
Theorem C71_nil_result_called_again_refuted : exists callback s,
  getter_steps callback (getter_start 2) s /\ calls s = 2 /\
  (forall i p, nth_error (readers s) i = Some p -> p = Returned VNil).
Proof.
  exists (fun _ => VNil), {| cached := VNil; holder := None; calls := 2; readers := [Returned VNil; Returned VNil] |}.
  split; [|split; [reflexivity|]].
  - eapply GS_step; [|apply (Step_return _ {| cached := VNil; holder := Some 1; calls := 2; readers := [Returned VNil; Leaving] |} 1); reflexivity].
    eapply GS_step; [|apply (Step_store _ {| cached := VNil; holder := Some 1; calls := 2; readers := [Returned VNil; Called VNil] |} 1 VNil); reflexivity].
    eapply GS_step; [|apply (Step_call (fun _ => VNil) {| cached := VNil; holder := Some 1; calls := 1; readers := [Returned VNil; Inside] |} 1); reflexivity].
    eapply GS_step; [|apply (Step_lock _ {| cached := VNil; holder := None; calls := 1; readers := [Returned VNil; Waiting] |} 1); reflexivity].
    eapply GS_step; [|apply (Step_return _ {| cached := VNil; holder := Some 0; calls := 1; readers := [Leaving; Waiting] |} 0); reflexivity].
    eapply GS_step; [|apply (Step_store _ {| cached := VNil; holder := Some 0; calls := 1; readers := [Called VNil; Waiting] |} 0 VNil); reflexivity].
    eapply GS_step; [|apply (Step_call (fun _ => VNil) {| cached := VNil; holder := Some 0; calls := 0; readers := [Inside; Waiting] |} 0); reflexivity].
    eapply GS_step; [|apply (Step_lock _ (getter_start 2) 0); reflexivity].
    apply GS_refl.
  - intros [|[|i]] p H; cbn in H; try congruence. destruct i; discriminate.
Qed.

Example C71_demo : exists s, getter_steps (fun k => vint (Z.of_nat k)) (getter_start 2) s /\ calls s = 1 /\
  readers s = [Returned (vint 0); Returned (vint 0)].
Proof.
  exists {| cached := vint 0; holder := None; calls := 1; readers := [Returned (vint 0); Returned (vint 0)] |}.
  split; [|split; reflexivity].
  eapply GS_step; [|apply (Step_return _ {| cached := vint 0; holder := Some 0; calls := 1; readers := [Leaving; Returned (vint 0)] |} 0); reflexivity].
  eapply GS_step; [|apply (Step_skip _ {| cached := vint 0; holder := Some 0; calls := 1; readers := [Inside; Returned (vint 0)] |} 0); [reflexivity|discriminate]].
  eapply GS_step; [|apply (Step_lock _ {| cached := vint 0; holder := None; calls := 1; readers := [Waiting; Returned (vint 0)] |} 0); reflexivity].
  eapply GS_step; [|apply (Step_return _ {| cached := vint 0; holder := Some 1; calls := 1; readers := [Waiting; Leaving] |} 1); reflexivity].
  eapply GS_step; [|apply (Step_store _ {| cached := VNil; holder := Some 1; calls := 1; readers := [Waiting; Called (vint 0)] |} 1 (vint 0)); reflexivity].
  eapply GS_step; [|apply (Step_call (fun k => vint (Z.of_nat k)) {| cached := VNil; holder := Some 1; calls := 0; readers := [Waiting; Inside] |} 1); reflexivity].
  eapply GS_step; [|apply (Step_lock _ (getter_start 2) 1); reflexivity].
  apply GS_refl.
Qed.

Print Assumptions C70_field_is_read_by_its_name_partial.
Print Assumptions C70_field_is_read_by_its_json_name_partial.
Print Assumptions C70_getter_is_called_partial.
Print Assumptions C70_other_names_are_missing_partial.
Print Assumptions C70_members_can_be_read_partial.
Print Assumptions C70_two_fields_one_name_refuted.
Print Assumptions C70_method_hidden_refuted.
Print Assumptions C71_only_listed_attributes.
Print Assumptions C71_same_attribute_as_without_wrapper.
Print Assumptions C71_called_once_partial.
Print Assumptions C71_everybody_returns.
Print Assumptions C71_nil_result_called_again_refuted.

Example C70_hidden_example :
  let o := {| o_fields := None; o_methods := [{| m_name := "Get"; m_args := 1; m_results := Some [MVal (vint 2)] |};
                                              {| m_name := "get"; m_args := 0; m_results := Some [MVal (vint 2)] |}] |} in
  members_of_object never o = [] /\ attribute never o "Get" = (VNull, false) /\ attribute never o "get" = (VNull, false).
Proof. repeat split. Qed.
Print Assumptions C70_hidden_methods.
