(** Facts about two's complement wrapping, byte strings and association
    lists. *)

From Coq Require Import ZArith List String Ascii Bool Lia Permutation.
From Verif Require Import Base.
Import ListNotations.
Open Scope Z_scope.

Lemma wrap64_range : forall z, is_int64 (wrap64 z).
Proof.
  intros z. unfold wrap64, is_int64.
  pose proof (Z.mod_pos_bound (z + two63) two64 ltac:(reflexivity)).
  unfold two63, two64 in *. lia.
Qed.

Lemma wrap64_id : forall z, is_int64 z -> wrap64 z = z.
Proof.
  intros z H. unfold wrap64, is_int64 in *.
  rewrite Z.mod_small by (unfold two63, two64 in *; lia). lia.
Qed.

Lemma wrap64_eq_mod : forall z, exists k, wrap64 z = z + k * two64.
Proof.
  intros z. unfold wrap64.
  exists (- ((z + two63) / two64)).
  pose proof (Z.div_mod (z + two63) two64 ltac:(discriminate)). lia.
Qed.

Lemma wrap64_shift : forall z k, wrap64 (z + k * two64) = wrap64 z.
Proof.
  intros. unfold wrap64.
  replace (z + k * two64 + two63) with (z + two63 + k * two64) by lia.
  rewrite Z.mod_add by discriminate. reflexivity.
Qed.

Lemma wrap64_unique : forall x y k, is_int64 x -> is_int64 y ->
  x = y + k * two64 -> x = y.
Proof.
  intros. rewrite <- (wrap64_id x), <- (wrap64_id y) by assumption.
  subst x. apply wrap64_shift.
Qed.

Lemma wrap64_idem : forall z, wrap64 (wrap64 z) = wrap64 z.
Proof. intros. apply wrap64_id, wrap64_range. Qed.

Lemma wrap64_add : forall x y, wrap64 (wrap64 x + wrap64 y) = wrap64 (x + y).
Proof.
  intros. destruct (wrap64_eq_mod x) as [k1 H1]. destruct (wrap64_eq_mod y) as [k2 H2].
  rewrite H1, H2.
  replace (x + k1 * two64 + (y + k2 * two64)) with (x + y + (k1 + k2) * two64) by lia.
  apply wrap64_shift.
Qed.

Lemma wrap64_add_l : forall x y, wrap64 (wrap64 x + y) = wrap64 (x + y).
Proof.
  intros. destruct (wrap64_eq_mod x) as [k1 H1]. rewrite H1.
  replace (x + k1 * two64 + y) with (x + y + k1 * two64) by lia.
  apply wrap64_shift.
Qed.

Lemma wrap64_add_r : forall x y, wrap64 (x + wrap64 y) = wrap64 (x + y).
Proof. intros. rewrite Z.add_comm, wrap64_add_l. f_equal. lia. Qed.

Lemma wrap64_sub : forall x y, wrap64 (wrap64 x - wrap64 y) = wrap64 (x - y).
Proof.
  intros. destruct (wrap64_eq_mod x) as [k1 H1]. destruct (wrap64_eq_mod y) as [k2 H2].
  rewrite H1, H2.
  replace (x + k1 * two64 - (y + k2 * two64)) with (x - y + (k1 - k2) * two64) by lia.
  apply wrap64_shift.
Qed.

Lemma wrap64_mul : forall x y, wrap64 (wrap64 x * wrap64 y) = wrap64 (x * y).
Proof.
  intros. destruct (wrap64_eq_mod x) as [k1 H1]. destruct (wrap64_eq_mod y) as [k2 H2].
  rewrite H1, H2.
  replace ((x + k1 * two64) * (y + k2 * two64))
    with (x * y + (x * k2 + k1 * y + k1 * k2 * two64) * two64) by ring.
  apply wrap64_shift.
Qed.

(** ** Strings *)

Lemma str_ltb_irrefl : forall s, str_ltb s s = false.
Proof.
  induction s as [|c s IH]; simpl; [reflexivity|].
  rewrite N.ltb_irrefl. exact IH.
Qed.

Lemma str_ltb_trans : forall a b c,
  str_ltb a b = true -> str_ltb b c = true -> str_ltb a c = true.
Proof.
  induction a as [|x a IH]; destruct b as [|y b]; destruct c as [|z c];
    simpl; try discriminate; try reflexivity.
  destruct (N_of_ascii x <? N_of_ascii y)%N eqn:Hxy.
  - intros _. destruct (N_of_ascii y <? N_of_ascii z)%N eqn:Hyz.
    + intros _. apply N.ltb_lt in Hxy, Hyz.
      replace (N_of_ascii x <? N_of_ascii z)%N with true; [reflexivity|].
      symmetry. apply N.ltb_lt. lia.
    + destruct (N_of_ascii z <? N_of_ascii y)%N eqn:Hzy; [discriminate|].
      intros _. apply N.ltb_lt in Hxy. apply N.ltb_ge in Hyz, Hzy.
      replace (N_of_ascii x <? N_of_ascii z)%N with true; [reflexivity|].
      symmetry. apply N.ltb_lt. lia.
  - destruct (N_of_ascii y <? N_of_ascii x)%N eqn:Hyx; [discriminate|].
    intros Hab. apply N.ltb_ge in Hxy, Hyx.
    assert (E : N_of_ascii x = N_of_ascii y) by lia. rewrite E.
    destruct (N_of_ascii y <? N_of_ascii z)%N; [reflexivity|].
    destruct (N_of_ascii z <? N_of_ascii y)%N; [discriminate|].
    apply IH; exact Hab.
Qed.

Lemma N_of_ascii_inj : forall x y, N_of_ascii x = N_of_ascii y -> x = y.
Proof.
  intros x y H. rewrite <- (ascii_N_embedding x), <- (ascii_N_embedding y).
  now rewrite H.
Qed.

Lemma str_ltb_total : forall a b,
  str_ltb a b = true \/ a = b \/ str_ltb b a = true.
Proof.
  induction a as [|x a IH]; destruct b as [|y b]; simpl; auto.
  destruct (N_of_ascii x <? N_of_ascii y)%N eqn:Hxy; auto.
  destruct (N_of_ascii y <? N_of_ascii x)%N eqn:Hyx; auto.
  apply N.ltb_ge in Hxy, Hyx.
  assert (E : x = y) by (apply N_of_ascii_inj; lia). subst y.
  destruct (IH b) as [H|[H|H]]; subst; auto.
Qed.

Lemma str_ltb_asym : forall a b, str_ltb a b = true -> str_ltb b a = false.
Proof.
  intros a b H. destruct (str_ltb b a) eqn:E; [|reflexivity].
  rewrite <- (str_ltb_irrefl a). symmetry. eapply str_ltb_trans; eauto.
Qed.

Lemma slen_app : forall s t, slen (s ++ t)%string = slen s + slen t.
Proof.
  intros. unfold slen. rewrite <- Nat2Z.inj_add. f_equal.
  induction s; simpl; [reflexivity|]. now rewrite IHs.
Qed.

Lemma slen_nonneg : forall s, 0 <= slen s.
Proof. intros. unfold slen. lia. Qed.

Lemma slen_repeat : forall n s, slen (str_repeat n s) = Z.of_nat n * slen s.
Proof.
  induction n; intros s; [reflexivity|].
  simpl str_repeat. rewrite slen_app, IHn. lia.
Qed.

Lemma str_prefixb_spec : forall p s,
  str_prefixb p s = true <-> exists t, s = (p ++ t)%string.
Proof.
  induction p as [|x p IH]; intros s.
  - simpl. split; eauto.
  - destruct s as [|y s]; simpl.
    + split; [discriminate|]. intros [t Ht]. discriminate.
    + destruct (ascii_dec x y) as [->|N].
      * rewrite IH. split; intros [t Ht]; exists t; congruence.
      * split; [discriminate|]. intros [t Ht]. congruence.
Qed.

Lemma str_containsb_spec : forall sub s,
  str_containsb sub s = true <-> exists p t, s = (p ++ sub ++ t)%string.
Proof.
  intros sub s. induction s as [|c s IH].
  - simpl. rewrite orb_false_r, str_prefixb_spec. split.
    + intros [t Ht]. exists EmptyString, t. exact Ht.
    + intros (p & t & H). destruct p; [|discriminate]. eauto.
  - simpl. rewrite orb_true_iff. rewrite str_prefixb_spec, IH. split.
    + intros [[t Ht]|(p & t & Ht)].
      * exists EmptyString, t. exact Ht.
      * exists (String c p), t. simpl. now rewrite Ht.
    + intros (p & t & H). destruct p as [|c' p].
      * left. eauto.
      * right. simpl in H. injection H as -> H. eauto.
Qed.

Lemma str_list_app : forall a b, str_list (a ++ b)%string = str_list a ++ str_list b.
Proof. induction a; simpl; intros; [reflexivity|]. now rewrite IHa. Qed.

Lemma list_str_str_list : forall s, list_str (str_list s) = s.
Proof. induction s; simpl; congruence. Qed.

Lemma str_list_list_str : forall l, str_list (list_str l) = l.
Proof. induction l; simpl; congruence. Qed.

Lemma str_list_length : forall s, List.length (str_list s) = String.length s.
Proof. induction s; simpl; congruence. Qed.

(** ** Association lists *)

Lemma assoc_in : forall A k (l : list (string * A)) v,
  assoc k l = Some v -> In (k, v) l.
Proof.
  induction l as [|[k' x] l IH]; simpl; [discriminate|].
  intros v. destruct (String.eqb_spec k k').
  - intros [= ->]. subst. auto.
  - intros H. right. auto.
Qed.

Lemma assoc_keys : forall A k (l : list (string * A)),
  (exists v, assoc k l = Some v) <-> In k (keys l).
Proof.
  induction l as [|[k' x] l IH]; simpl.
  - split; [intros [v H]; discriminate|tauto].
  - destruct (String.eqb_spec k k').
    + subst. split; eauto.
    + rewrite IH. split; [auto|]. intros [H|H]; [congruence|exact H].
Qed.

Lemma assoc_none : forall A k (l : list (string * A)),
  assoc k l = None <-> ~ In k (keys l).
Proof.
  intros. rewrite <- assoc_keys. destruct (assoc k l) eqn:E.
  - split; [discriminate|]. intros H. exfalso. apply H. eauto.
  - split; [|reflexivity]. intros _ [v H]. discriminate.
Qed.

Lemma in_assoc : forall A k v (l : list (string * A)),
  NoDup (keys l) -> In (k, v) l -> assoc k l = Some v.
Proof.
  induction l as [|[k' x] l IH]; simpl; [tauto|].
  intros ND [H|H]; inversion ND; subst.
  - injection H as -> ->. now rewrite String.eqb_refl.
  - destruct (String.eqb_spec k k').
    + subst. exfalso. apply H2. unfold keys.
      change k' with (fst (k', v)). now apply in_map.
    + auto.
Qed.

Lemma remove_key_keys : forall A k (l : list (string * A)) k',
  In k' (keys (remove_key k l)) <-> In k' (keys l) /\ k' <> k.
Proof.
  induction l as [|[k0 x] l IH]; simpl; intros k'; [tauto|].
  destruct (String.eqb_spec k k0).
  - subst. rewrite IH. intuition congruence.
  - simpl. rewrite IH. intuition congruence.
Qed.

Lemma assoc_remove_key : forall A k k' (l : list (string * A)),
  assoc k' (remove_key k l) = if String.eqb k' k then None else assoc k' l.
Proof.
  induction l as [|[k0 x] l IH]; simpl.
  - now destruct (String.eqb k' k).
  - destruct (String.eqb_spec k k0).
    + subst. rewrite IH. destruct (String.eqb_spec k' k0); reflexivity.
    + simpl. rewrite IH. destruct (String.eqb_spec k' k0); [|reflexivity].
      subst. destruct (String.eqb_spec k0 k); congruence.
Qed.

Lemma assoc_app : forall A k (l1 l2 : list (string * A)),
  assoc k (l1 ++ l2) = match assoc k l1 with Some v => Some v | None => assoc k l2 end.
Proof.
  induction l1 as [|[k0 x] l IH]; simpl; intros; [reflexivity|].
  destruct (String.eqb k k0); [reflexivity|apply IH].
Qed.

Lemma assoc_dict_set : forall A k k' (v : A) l,
  assoc k' (dict_set k v l) = if String.eqb k' k then Some v else assoc k' l.
Proof.
  intros. unfold dict_set. rewrite assoc_app, assoc_remove_key. simpl.
  destruct (String.eqb_spec k' k); [reflexivity|].
  now destruct (assoc k' l).
Qed.

Lemma mem_str_spec : forall k l, mem_str k l = true <-> In k l.
Proof.
  intros. unfold mem_str. rewrite existsb_exists. split.
  - intros (x & H & E). apply String.eqb_eq in E. now subst.
  - intros H. exists k. split; [exact H|apply String.eqb_refl].
Qed.

Lemma list_str_length : forall l, String.length (list_str l) = List.length l.
Proof. induction l; simpl; auto. Qed.

Lemma str_app_assoc : forall a b c : string, ((a ++ b) ++ c = a ++ (b ++ c))%string.
Proof. induction a as [|x a IH]; intros; simpl; [reflexivity|]. now rewrite IH. Qed.

Lemma str_app_nil_r : forall a : string, (a ++ "" = a)%string.
Proof. induction a as [|x a IH]; simpl; [reflexivity|]. now rewrite IH. Qed.
