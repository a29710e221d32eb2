(** C70: the fields of embedded structs. *)

From Coq Require Import ZArith List String Ascii Bool Lia Permutation.
From Verif Require Import Base Value HostObject HostObjectProps.
Import ListNotations.
Open Scope nat_scope.
Open Scope string_scope.
Open Scope list_scope.

(** ** Specification *)

(** [reached fs b f]: [f] is a field of the struct or of a struct embedded in
    it; [b] says whether the way there follows a nil pointer. *)
Inductive reached (fs : list field) : bool -> field -> Prop :=
| Reached_top : forall f, In f fs -> reached fs false f
| Reached_embedded : forall b g f, reached fs b g -> In f (f_embedded g) -> reached fs (b || f_nilptr g) f.

(** All of them, each as often as there are ways to it *)
Fixpoint ways (b : bool) (f : field) : list (bool * field) :=
  (b, f) :: match f with
            | Field _ _ _ _ _ None => []
            | Field _ _ _ np _ (Some fs) => List.concat (map (ways (b || f_nilptr f)) fs)
            end.
Definition all_ways (fs : list field) : list (bool * field) := List.concat (map (ways false) fs).

(** ** What is found exists *)

Lemma search_reached : forall matches fs fuel level b f,
  (forall bf, In bf level -> reached fs (fst bf) (snd bf)) ->
  search fuel matches level = Some (b, f) -> matches (f_name f) = true /\ reached fs b f.
Proof.
  intros matches fs fuel. induction fuel as [|fuel IH]; intros level b f HL H; [discriminate|].
  cbn [search] in H. destruct (filter (fun bf => matches (f_name (snd bf))) level) as [|bf [|]] eqn:EF; try discriminate.
  - destruct (next_level level) as [|x l] eqn:EN; [discriminate|]. apply IH in H; [exact H|].
    intros bf HI. rewrite <- EN in HI. unfold next_level in HI. apply in_concat in HI as (part & HP & HI).
    apply in_map_iff in HP as (bg & <- & HG). apply in_map_iff in HI as (g & <- & HI). cbn [fst snd].
    specialize (HL bg HG). apply Reached_embedded; assumption.
  - injection H as ->. assert (HI : In (b, f) (filter (fun bf => matches (f_name (snd bf))) level)) by (rewrite EF; now left).
    apply filter_In in HI as [HI HM]. split; [exact HM|]. apply (HL _ HI).
Qed.

Lemma find_reached : forall matches fs b f, find_field fs matches = Some (b, f) ->
  matches (f_name f) = true /\ reached fs b f.
Proof.
  intros matches fs b f H. eapply search_reached; [|exact H]. intros bf HI.
  apply in_map_iff in HI as (g & <- & HI). cbn. now constructor.
Qed.

(** Whatever an attribute gives is the value of an exported field of that name
    or with that name in JSON, not behind a nil pointer, or the result of a
    method of that name. *)
Theorem C70_found : forall su o name v, attribute su o name = (v, true) ->
  (exists fs f g b, o_fields o = Some fs /\ reached fs false f /\ f_exported f = true /\ v = f_value f /\
     reached fs b g /\ f_name g = f_name f /\ (f_name g = name \/ f_json g = name)) \/
  (exists m rs, In m (o_methods o) /\ m_name m = name /\ m_args m = 0 /\ m_results m = Some rs /\ v = first_result rs).
Proof.
  intros su o name v H. unfold attribute in H.
  assert (M : match call_method su (o_methods o) name with Some r => r | None => (VNull, false) end = (v, true) ->
    exists m rs, In m (o_methods o) /\ m_name m = name /\ m_args m = 0 /\ m_results m = Some rs /\ v = first_result rs).
  { unfold call_method. destruct (find _ (o_methods o)) as [m|] eqn:EM; [|discriminate].
    apply find_some in EM as [HI HE]. apply String.eqb_eq in HE.
    unfold is_callable. destruct (is_exported su (m_name m)); cbn [andb]; [|discriminate].
    destruct (Nat.eqb_spec (m_args m) 0) as [A|]; [|discriminate].
    destruct (m_results m) as [rs|] eqn:ER; [|discriminate].
    intros E. exists m, rs. repeat split; auto.
    destruct rs as [|r [|r2 [|]]]; cbn in *; congruence. }
  destruct (o_fields o) as [fs|] eqn:EF; [|right; auto].
  destruct (find_field fs (field_matches fs name)) as [[[|] f]|] eqn:EX; [discriminate| |right; auto].
  destruct (f_exported f) eqn:EE; [|right; auto].
  left. injection H as <-. apply find_reached in EX as [HM HR]. unfold field_matches in HM.
  apply orb_true_iff in HM as [HM|HM].
  - apply String.eqb_eq in HM. exists fs, f, f, false. repeat split; auto.
  - destruct (find_field fs (String.eqb (f_name f))) as [[b g]|] eqn:EG; [|discriminate].
    apply find_reached in EG as [HN HG]. apply String.eqb_eq in HM, HN.
    exists fs, f, g, b. repeat split; auto.
Qed.

(** ** What is unambiguous is found *)

Definition levels_ways (level : list (bool * field)) : list (bool * field) :=
  List.concat (map (fun bf => ways (fst bf) (snd bf)) level).

Lemma ways_unfold : forall b f, ways b f = (b, f) :: levels_ways (map (pair (b || f_nilptr f)) (f_embedded f)).
Proof.
  intros b f. destruct f as [n j e np v [fs|]]; cbn [ways f_embedded].
  - unfold levels_ways. rewrite map_map. reflexivity.
  - reflexivity.
Qed.

Lemma ways_level : forall level, Permutation (levels_ways level) (level ++ levels_ways (next_level level)).
Proof.
  induction level as [|[b f] level IH]; [apply perm_nil|].
  unfold levels_ways, next_level in *. cbn [map List.concat fst snd]. rewrite ways_unfold.
  rewrite map_app, concat_app. cbn [app]. constructor.
  fold (levels_ways (map (pair (b || f_nilptr f)) (f_embedded f))).
  rewrite IH. rewrite !app_assoc. apply Permutation_app_tail. apply Permutation_app_comm.
Qed.

Lemma filter_perm : forall A (p : A -> bool) l l', Permutation l l' -> Permutation (filter p l) (filter p l').
Proof.
  intros A p l l' H. induction H; cbn; try (destruct (p x); try destruct (p y)); eauto using Permutation.
Qed.

Definition heights (level : list (bool * field)) : nat :=
  fold_right (fun bf n => Nat.max (height (snd bf)) n) 0 level.

Lemma heights_in : forall level bf, In bf level -> height (snd bf) <= heights level.
Proof.
  induction level as [|x level IH]; intros bf []; cbn [heights fold_right].
  - subst. lia.
  - specialize (IH _ H). unfold heights in IH. lia.
Qed.

Lemma height_embedded : forall f g, In g (f_embedded f) -> height g < height f.
Proof.
  intros [n j e np v [fs|]] g I; cbn [f_embedded] in I; [|contradiction]. cbn [height].
  assert (L : height g <= fold_right (fun g n => Nat.max (height g) n) 0 fs); [|lia].
  induction fs as [|x fs IH]; [contradiction|]. cbn [fold_right]. destruct I as [->|I]; [lia|].
  specialize (IH I). lia.
Qed.

Lemma heights_next : forall level n, heights level <= n -> next_level level <> [] -> heights (next_level level) < n.
Proof.
  intros level n H NE.
  assert (A : forall bf, In bf (next_level level) -> height (snd bf) < n).
  { intros bf HI. unfold next_level in HI. apply in_concat in HI as (part & HP & HI).
    apply in_map_iff in HP as (bg & <- & HG). apply in_map_iff in HI as (g & <- & HI). cbn [snd].
    apply height_embedded in HI. apply heights_in in HG. lia. }
  destruct (next_level level) as [|x l]; [congruence|]. clear - A. 
  assert (P : 0 < n) by (specialize (A x (or_introl eq_refl)); lia).
  revert A. generalize (x :: l). clear x l. intros l. induction l as [|y l IH]; intros A; cbn [heights fold_right]; [exact P|].
  assert (height (snd y) < n) by (apply A; now left).
  assert (heights l < n) by (apply IH; intros bf I; apply A; now right). unfold heights in *. lia.
Qed.

Lemma search_unique : forall matches fuel level bf, heights level < fuel ->
  filter (fun bf => matches (f_name (snd bf))) (levels_ways level) = [bf] ->
  search fuel matches level = Some bf.
Proof.
  intros matches. induction fuel as [|fuel IH]; intros level bf HH H; [lia|].
  pose proof (filter_perm _ (fun bf => matches (f_name (snd bf))) _ _ (ways_level level)) as P.
  rewrite H, filter_app in P. cbn [search].
  destruct (filter (fun bf => matches (f_name (snd bf))) level) as [|x [|y r]].
  - cbn [app] in P. apply Permutation_length_1_inv in P.
    destruct (next_level level) as [|z l] eqn:EN; [discriminate|].
    rewrite <- EN in P |- *. apply IH; [|exact P].
    assert (heights (next_level level) < fuel); [|assumption].
    apply heights_next; [lia|]. rewrite EN. discriminate.
  - cbn [app] in P. apply Permutation_length_1_inv in P. injection P as -> _. reflexivity.
  - apply Permutation_length in P. cbn in P. lia.
Qed.

Lemma find_unique : forall matches fs bf,
  filter (fun bf => matches (f_name (snd bf))) (all_ways fs) = [bf] -> find_field fs matches = Some bf.
Proof.
  intros matches fs bf H. unfold find_field. apply search_unique.
  - assert (E : heights (map (pair false) fs) = fold_right (fun g n => Nat.max (height g) n) 0 fs).
    { clear. induction fs as [|f fs IH]; [reflexivity|]. cbn [map heights fold_right snd]. f_equal. exact IH. }
    rewrite E. lia.
  - unfold levels_ways. rewrite map_map. exact H.
Qed.

(** A field with one way to it, at any depth, that no name in JSON competes
    with, is read by its name; it is missing if the way follows a nil
    pointer. *)
Theorem C70_promoted_field_partial : forall su o fs name b f,
  o_fields o = Some fs ->
  filter (fun bf => String.eqb (f_name (snd bf)) name) (all_ways fs) = [(b, f)] ->
  (forall g, in_struct g fs -> f_json g <> name) ->
  f_exported f = true ->
  attribute su o name = if b then (VNil, false) else (f_value f, true).
Proof.
  intros su o fs name b f EF H HJ HE. unfold attribute. rewrite EF.
  rewrite (find_unique (field_matches fs name) fs (b, f)).
  - destruct b; [reflexivity|]. now rewrite HE.
  - rewrite <- H. apply filter_ext. intros [b' g]. cbn [snd]. unfold field_matches.
    destruct (find_field fs (String.eqb (f_name g))) as [[b2 h]|] eqn:EG.
    + apply find_field_found in EG as [_ HG]. apply HJ in HG. apply String.eqb_neq in HG. rewrite HG. apply orb_false_r.
    + apply orb_false_r.
Qed.

(** [struct { A; *B; Top int }] with [type A struct { C }], [type C struct {
    Deep int }], [type B struct { D }], [type D struct { Lost int }] and a nil
    pointer. *)
Definition nested_fields : list field :=
  [Field "A" "" true false VNull (Some [Field "C" "" true false VNull (Some [plain_field "Deep" "" (vint 3)])]);
   Field "B" "" true true VNil (Some [Field "D" "" true false VNull (Some [plain_field "Lost" "" (vint 0)])]);
   plain_field "Top" "" (vint 1)].
Example promoted_fields :
  let o := {| o_fields := Some nested_fields; o_methods := [] |} in
  filter (fun bf => String.eqb (f_name (snd bf)) "Deep") (all_ways nested_fields) =
    [(false, plain_field "Deep" "" (vint 3))] /\
  filter (fun bf => String.eqb (f_name (snd bf)) "Lost") (all_ways nested_fields) =
    [(true, plain_field "Lost" "" (vint 0))] /\
  map (attribute never o) ["Deep"; "Lost"; "Top"] = [(vint 3, true); (VNil, false); (vint 1, true)].
Proof. vm_compute. repeat split. Qed.

Print Assumptions C70_found.
Print Assumptions C70_promoted_field_partial.
