(** SELECT: rows, lazy columns and conditions evaluate to what PureSpec.v
    says. *)

From Coq Require Import ZArith List String Bool Lia PeanoNat.
From Verif Require Import Base F64 Value Protocols Monad Chains Range RangeProps Flatten ArgParser Syntax Eval
  Runs PureSpec PureEval.
Import ListNotations.
Open Scope nat_scope.
Open Scope list_scope.

(** ** Dictionaries *)

Lemma assoc_none_keys : forall A k (d : list (string * A)), assoc k d = None <-> mem_str k (keys d) = false.
Proof.
  intros A k d. unfold keys. induction d as [|[k' v] d IH]; simpl; [tauto|].
  destruct (String.eqb k k') eqn:EK; simpl; [split; discriminate|exact IH].
Qed.

Lemma remove_absent : forall A k (d : list (string * A)), assoc k d = None -> remove_key k d = d.
Proof.
  intros A k d. induction d as [|[k' v] d IH]; simpl; intros H; [reflexivity|].
  destruct (String.eqb k k') eqn:EK; [discriminate|]. simpl. now rewrite IH.
Qed.

Lemma dict_set_absent : forall A k (v : A) d, assoc k d = None -> dict_set k v d = d ++ [(k, v)].
Proof. intros. unfold dict_set. now rewrite remove_absent. Qed.

Lemma remove_key_app : forall A k (a b : list (string * A)),
  remove_key k (a ++ b) = remove_key k a ++ remove_key k b.
Proof.
  intros A k a b. induction a as [|[k' v] a IH]; simpl; [reflexivity|].
  destruct (String.eqb k k'); simpl; now rewrite IH.
Qed.

Lemma remove_key_comm : forall A k k' (d : list (string * A)),
  remove_key k (remove_key k' d) = remove_key k' (remove_key k d).
Proof.
  intros A k k' d. induction d as [|[k0 v] d IH]; simpl; [reflexivity|].
  destruct (String.eqb k' k0) eqn:E1, (String.eqb k k0) eqn:E2; simpl; rewrite ?E1, ?E2, ?IH; reflexivity.
Qed.

Lemma remove_key_idem : forall A k (d : list (string * A)),
  remove_key k (remove_key k d) = remove_key k d.
Proof.
  intros A k d. induction d as [|[k0 v] d IH]; simpl; [reflexivity|].
  destruct (String.eqb k k0) eqn:E1; simpl; rewrite ?E1, IH; reflexivity.
Qed.

Lemma remove_dict_set : forall A k k' (v : A) d,
  remove_key k (dict_set k' v d) =
  if String.eqb k k' then remove_key k d else dict_set k' v (remove_key k d).
Proof.
  intros A k k' v d. unfold dict_set. rewrite remove_key_app. simpl.
  destruct (String.eqb k k') eqn:EK.
  - apply String.eqb_eq in EK as ->. rewrite remove_key_idem, app_nil_r. reflexivity.
  - now rewrite remove_key_comm.
Qed.

(** The dictionary obtained by storing the columns one after the other. *)
Definition rebuild_from (acc : dict) (cs : list string) (d : dict) : dict :=
  fold_left (fun d c => match assoc c acc with Some v => dict_set c v d | None => d end) cs d.

Lemma rebuild_snoc : forall acc cs c d,
  rebuild_from acc (cs ++ [c]) d =
  match assoc c acc with
  | Some v => dict_set c v (rebuild_from acc cs d)
  | None => rebuild_from acc cs d
  end.
Proof. intros. unfold rebuild_from. rewrite fold_left_app. reflexivity. Qed.

Lemma rebuild_remove : forall k v acc cs d d',
  remove_key k d = remove_key k d' ->
  remove_key k (rebuild_from (dict_set k v acc) cs d) = remove_key k (rebuild_from acc cs d').
Proof.
  intros k v acc cs. induction cs as [|c cs IH]; intros d d' H; simpl; [exact H|].
  apply IH. rewrite assoc_dict_set. destruct (String.eqb c k) eqn:EC.
  - apply String.eqb_eq in EC as ->. rewrite remove_dict_set, String.eqb_refl.
    destruct (assoc k acc); [|exact H]. now rewrite remove_dict_set, String.eqb_refl.
  - assert (EC' : String.eqb k c = false) by now rewrite String.eqb_sym.
    destruct (assoc c acc); [|exact H]. rewrite !remove_dict_set, EC'. now rewrite H.
Qed.

(** Every column of a query result, by name. *)
Section Columns.
  (** The value of a column. *)
  Variable cv : colbody -> val.

  Fixpoint columns_of (row : dict) (cols : list (string * colbody)) (acc : dict) : dict :=
    match cols with
    | [] => acc
    | (name, body) :: rest =>
        columns_of row rest
          (if String.eqb name "*" then
             acc ++ filter (fun kv => negb (mem_str (fst kv) (keys acc))) (fields row)
           else dict_set name (cv body) acc)
    end.
End Columns.

Section Select.
  Variable E : env.
  Variable funs : string -> option (dict -> option val).
  Variable owner : nat -> string.
  Hypothesis FOK : funs_ok E funs.
  Notation R := (ev E).
  Notation promises := (promises E owner).
  Notation stok := (stok E owner).
  Notation frame_ok := (frame_ok E owner).
  Notation scope_ok := (scope_ok E owner).
  Notation getter_ok := (getter_ok E owner).

  (** Subqueries among the columns: what they yield, which of them, and how
      many scopes they nest. *)
  Variable subq : list dict -> select -> option (list dict).
  Variable lab_q : select -> Prop.
  Variable need : nat.
  Hypothesis SUBP : forall fr q rows, subq fr q = Some rows -> forallb plain (map VDict rows) = true.
  Hypothesis SUBQ : forall W sc fr q rows, subq fr q = Some rows -> lab_q q ->
    scope_ok W sc fr -> need + sc_depth sc < 1000 ->
    promises W (fun n => r_select (R n) sc q) (map VDict rows).

  (** The value of a column, or something that is not data when the column is
      outside of the fragment. *)
  Definition col_val (fr : list dict) (row : dict) (body : colbody) : val :=
    match column E funs subq fr row body with Some v => v | None => VOpaque 0 end.

  Lemma columns_columns_of : forall fr row cols acc out,
    columns E funs subq fr row cols acc = Some out -> columns_of (col_val fr row) row cols acc = out.
  Proof.
    intros fr row cols. induction cols as [|[name body] cols IH]; intros acc out H; cbn [columns columns_of] in *.
    - congruence.
    - destruct (String.eqb name "*"); [auto|]. apply obind_some in H as (v & Hv & H). 
      replace (col_val fr row body) with v by (unfold col_val; now rewrite Hv). auto.
  Qed.

  (** A lazy row under construction stands for a dictionary. *)
  Record lrow_ok (W : world) (r : lrow) (acc : dict) : Prop := {
    lo_get : forall k, match assoc k (snd r) with
                       | None => assoc k acc = None
                       | Some gt => exists x, assoc k acc = Some x /\ getter_ok W gt x
                       end;
    lo_cols : forall c, In c (fst r) -> exists g, assoc c (snd r) = Some g;
    lo_build : rebuild_from acc (fst r) [] = acc
  }.

  Lemma lrow_nil : forall W, lrow_ok W ([], []) [].
  Proof. intros. constructor; simpl; auto. contradiction. Qed.

  Lemma lrow_add : forall W r acc name g v,
    lrow_ok W r acc -> getter_ok W g v -> lrow_ok W (add_column name g r) (dict_set name v acc).
  Proof.
    intros W [cs gs] acc name g v [HG HC HB] Hg. unfold add_column. constructor; simpl in *.
    - intros k. rewrite !assoc_dict_set. destruct (String.eqb k name); [|apply HG].
      exists v. auto.
    - intros c HI. rewrite assoc_dict_set. destruct (String.eqb c name) eqn:EC; [eauto|].
      apply in_app_iff in HI as [HI|[<-|[]]]; [auto|]. now rewrite String.eqb_refl in EC.
    - rewrite rebuild_snoc, assoc_dict_set, String.eqb_refl. unfold dict_set at 1 3.
      f_equal. rewrite (rebuild_remove name v acc cs [] []) by reflexivity. now rewrite HB.
  Qed.

  Lemma lrow_keys : forall W r acc m, lrow_ok W r acc ->
    mem_str m (keys (snd r)) = mem_str m (keys acc).
  Proof.
    intros W r acc m [HG _ _]. specialize (HG m).
    destruct (mem_str m (keys acc)) eqn:E2.
    - destruct (mem_str m (keys (snd r))) eqn:E1; [reflexivity|]. apply assoc_none_keys in E1.
      rewrite E1 in HG. apply assoc_none_keys in HG. congruence.
    - apply assoc_none_keys in E2. apply assoc_none_keys. destruct (assoc m (snd r)); [|reflexivity].
      destruct HG as (x & Hx & _). congruence.
  Qed.

  Definition row_ok (row : dict) : Prop := NoDup (keys row) /\ plain (VDict row) = true.

  Lemma plain_assoc : forall row k v, plain (VDict row) = true -> assoc k row = Some v -> plain v = true.
  Proof.
    intros row k v H. simpl in H. induction row as [|[k' v'] row IH]; simpl; [discriminate|].
    simpl in H. apply andb_true_iff in H as [H1 H2]. destruct (String.eqb k k'); [|auto].
    intros [= <-]. exact H1.
  Qed.

  Lemma getter_const : forall W v, plain v = true -> getter_ok W (GConst v) v.
  Proof.
    intros W v H. split; [intros ->; discriminate|]. intros _. apply pr_ret.
  Qed.

  Lemma assoc_in : forall A (d : list (string * A)) k v, NoDup (keys d) -> In (k, v) d -> assoc k d = Some v.
  Proof.
    intros A d k v ND. unfold keys in ND. induction d as [|[k' v'] d IH]; simpl; [contradiction|].
    inversion ND as [|? ? NI ND']; subst. intros [EQ|HI].
    - injection EQ as -> ->. now rewrite String.eqb_refl.
    - destruct (String.eqb k k') eqn:EK; [|auto]. apply String.eqb_eq in EK as ->.
      exfalso. apply NI. change k' with (fst (k', v)). now apply in_map.
  Qed.

  Lemma pr_members : forall W row, promises W (fun _ => members (VDict row)) (keys row).
  Proof. intros W row. eapply pr_ext; [|apply pr_ret]. reflexivity. Qed.

  (** The row under construction, explicitly: a leading star, and columns
      that are not stars. *)
  Definition star_lrow (part : dict) (r : lrow) : lrow :=
    fold_left (fun r kv => add_column (fst kv) (GConst (or_null (snd kv))) r) part r.
  Definition cols_lrow (nsc : scope) (cols : list (string * colbody)) (r : lrow) : lrow :=
    fold_left (fun r nc => add_column (fst nc) (GCol (snd nc) nsc) r) cols r.

  (** A leading star *)
  Lemma star_ok : forall W sc row, plain (VDict row) = true ->
    forall part, (forall k v, In (k, v) part -> assoc k row = Some v) -> NoDup (keys part) ->
    forall r acc, lrow_ok W r acc -> (forall k, In k (keys part) -> assoc k acc = None) ->
    exists r', promises W (fun n => star_columns (R n) sc (VDict row) (keys part) r) r' /\
               lrow_ok W r' (acc ++ fields part) /\ r' = star_lrow part r.
  Proof.
    intros W sc row PL part. unfold keys. induction part as [|[k v] part IH]; intros IN ND r acc OK AB;
      cbn [map star_columns fields fst snd].
    - exists r. rewrite app_nil_r. split; [apply pr_ret|]. split; [exact OK|reflexivity].
    - assert (KV : assoc k row = Some v) by (apply IN; now left).
      assert (PV : plain (or_null v) = true) by (apply plain_or_null; eapply plain_assoc; eauto).
      inversion ND as [|? ? NI ND']; subst.
      destruct (IH (fun k0 v0 H => IN k0 v0 (or_intror H)) ND'
                  (add_column k (GConst (or_null v)) r) (acc ++ [(k, or_null v)])) as (r' & HP & OK' & ER).
      + rewrite <- dict_set_absent by (apply AB; now left).
        apply lrow_add; [exact OK|now apply getter_const].
      + intros k' HI. rewrite <- dict_set_absent by (apply AB; now left).
        rewrite assoc_dict_set. destruct (String.eqb k' k) eqn:EK; [|apply AB; now right].
        apply String.eqb_eq in EK as ->. contradiction.
      + exists r'. split.
        * eapply (pr_bind E owner _ _ W _ _ (or_null v, true)); [|exact HP].
          pose proof (p_frame E owner W sc (VDict row) row k (or_introl eq_refl)) as A.
          rewrite KV in A. apply A. intros y [= <-]. exact PV.
        * rewrite <- app_assoc in OK'. split; [exact OK'|exact ER].
  Qed.

  (** A star further on *)
  Lemma merge_ok : forall W sc row, plain (VDict row) = true ->
    forall part, (forall k v, In (k, v) part -> assoc k row = Some v) -> NoDup (keys part) ->
    forall r acc, lrow_ok W r acc ->
    exists r', promises W (fun n => merge_star (R n) sc (VDict row) (keys part) r) r' /\
      lrow_ok W r' (acc ++ filter (fun kv => negb (mem_str (fst kv) (keys acc))) (fields part)).
  Proof.
    intros W sc row PL part. unfold keys at 1 2. induction part as [|[k v] part IH]; intros IN ND r acc OK;
      cbn [map merge_star fields fst snd filter].
    - exists r. rewrite app_nil_r. split; [apply pr_ret|exact OK].
    - inversion ND as [|? ? NI ND']; subst.
      rewrite (lrow_keys W r acc k OK).
      destruct (mem_str k (keys acc)) eqn:EK; cbn [negb].
      + apply IH; auto. intros; apply IN; now right.
      + assert (KV : assoc k row = Some v) by (apply IN; now left).
        assert (PV : plain (or_null v) = true) by (apply plain_or_null; eapply plain_assoc; eauto).
        apply assoc_none_keys in EK.
        destruct (IH (fun k0 v0 H => IN k0 v0 (or_intror H)) ND'
                    (add_column k (GConst (or_null v)) r) (acc ++ [(k, or_null v)])) as (r' & HP & OK').
        * rewrite <- dict_set_absent by exact EK.
          apply lrow_add; [exact OK|now apply getter_const].
        * exists r'. split.
          -- eapply (pr_bind E owner _ _ W _ _ (or_null v, true)); [|exact HP].
             pose proof (p_frame E owner W sc (VDict row) row k (or_introl eq_refl)) as A.
             rewrite KV in A. apply A. intros y [= <-]. exact PV.
          -- rewrite <- app_assoc in OK'. simpl in OK'.
             change (map (fun kv : string * val => (fst kv, or_null (snd kv))) part) with (fields part).
             replace (filter (fun kv => negb (mem_str (fst kv) (keys acc))) (fields part))
               with (filter (fun kv => negb (mem_str (fst kv) (keys (acc ++ [(k, or_null v)])))) (fields part));
               [exact OK'|].
             apply filter_ext_in. intros [k' v'] HI. f_equal. unfold keys. rewrite map_app. simpl.
             unfold mem_str. rewrite existsb_app. simpl. rewrite orb_false_r.
             destruct (String.eqb k' k) eqn:EQ; [|now rewrite orb_false_r].
             apply String.eqb_eq in EQ as ->. exfalso. apply NI.
             unfold fields in HI. apply in_map_iff in HI as ([k2 v2] & EQ2 & HI).
             injection EQ2 as <- <-. change k2 with (fst (k2, v2)). now apply in_map.
  Qed.

  Definition label_col (body : colbody) : Prop :=
    match body with
    | CExpr e => labelled owner e
    | CSelect q => lab_q q
    | CStar => True
    end.

  Definition label_columns (cols : list (string * colbody)) : Prop :=
    Forall (fun nc => label_col (snd nc)) cols.

  Lemma plain_cells : forall rows, forallb plain (map VDict rows) = true ->
    forallb plain (map cell rows) = true.
  Proof.
    intros rows H. rewrite forallb_forall in *. intros v HI. apply in_map_iff in HI as (row & <- & HI).
    assert (PR : plain (VDict row) = true) by (apply H; now apply in_map).
    destruct row as [|[k v] [|]]; try exact PR. cbn [cell]. apply plain_or_null.
    cbn in PR. now rewrite andb_true_r in PR.
  Qed.

  Lemma plain_one_or_list : forall l v, forallb plain l = true -> one_or_list l = Some v -> plain v = true.
  Proof.
    intros [|x [|y l]] v H HV; try discriminate; injection HV as <-; [|exact H].
    cbn in H. now rewrite andb_true_r in H.
  Qed.

  Lemma pr_items : forall W sc rows, forallb plain (map VDict rows) = true ->
    promises W (fun n => mmap (subselect_item (R n) sc) (map VDict rows)) (map (fun r => [cell r]) rows).
  Proof.
    intros W sc rows H. apply pr_mmap. induction rows as [|row rows IH]; [constructor|].
    cbn [map forallb] in H. apply andb_true_iff in H as [PR H]. cbn [map]. constructor; [|auto].
    unfold subselect_item. eapply (pr_bind E owner _ _ W _ _ (keys row)).
    { eapply pr_ext; [|apply pr_ret]. reflexivity. }
    destruct row as [|[k v] [|kv row]]; cbn [keys map fst cell]; try apply pr_ret.
    assert (PV : plain (or_null v) = true).
    { apply plain_or_null. cbn in PR. now rewrite andb_true_r in PR. }
    eapply (pr_bind E owner _ _ W _ _ (or_null v, true)); [|apply pr_ret].
    pose proof (p_frame E owner W sc (VDict [(k, v)]) [(k, v)] k (or_introl eq_refl)) as A.
    cbn [assoc] in A. rewrite String.eqb_refl in A. apply A. intros y [= <-]. exact PV.
  Qed.

  Lemma getter_col : forall W sc fr row body,
    scope_ok W sc (row :: fr) -> need + sc_depth sc < 1000 -> label_col body ->
    getter_ok W (GCol body sc) (col_val fr row body).
  Proof.
    intros W sc fr row body SC ND LB. unfold col_val.
    destruct (column E funs subq fr row body) as [w|] eqn:CE; [|split; [discriminate|intros H; discriminate H]].
    assert (V : exists v, w = expand v /\ plain v = true /\
      promises W (fun n => col_reduce (R n) sc body) v).
    { destruct body as [|q|e]; [discriminate| |]; cbn [column] in CE.
      - apply obind_some in CE as (rows & SQ & CE). apply omap_some in CE as (v & OL & <-).
        pose proof (SUBP _ _ _ SQ) as PR. exists v. split; [reflexivity|]. split.
        + eapply plain_one_or_list; [apply plain_cells, PR|exact OL].
        + cbn [col_reduce].
          eapply (pr_bind E owner _ _ W _ _ (map VDict rows)); [eapply SUBQ; eauto|].
          eapply (pr_bind E owner _ _ W _ _ (map (fun r => [cell r]) rows)); [now apply pr_items|].
          replace (List.concat (map (fun r => [cell r]) rows)) with (map cell rows)
            by (clear; induction rows as [|r rows IH]; [reflexivity|]; cbn; now rewrite IH).
          destruct (map cell rows) as [|x [|y l]]; try discriminate; injection OL as <-; apply pr_ret.
      - apply omap_some in CE as (v & D & <-). exists v. split; [reflexivity|]. split.
        + eapply den_plain; eauto.
        + cbn [col_reduce]. eapply pure_eval; eauto. }
    destruct V as (v & -> & PV & HV). split.
    - intros H. destruct v; simpl in H, PV; try discriminate.
    - intros _. cbn [run_getter].
      eapply (pr_bind E owner _ _ W _ _ v); [exact HV|].
      eapply (pr_bind E owner _ _ W (fun _ => obj_of v) _ None); [now apply pr_obj_of|].
      destruct v; try apply pr_ret.
  Qed.

  (** Columns, none of them a star. *)
  Definition no_star (cols : list (string * colbody)) : Prop :=
    Forall (fun nc => String.eqb (fst nc) "*" = false) cols.

  Lemma expr_columns_ok : forall W sc nsc fr row,
    scope_ok W nsc (row :: fr) -> need + sc_depth nsc < 1000 -> row_ok row ->
    forall cols, label_columns cols -> forall r acc, lrow_ok W r acc ->
    exists r', promises W (fun n => expr_columns (R n) sc nsc (VDict row) cols r) r' /\
               lrow_ok W r' (columns_of (col_val fr row) row cols acc) /\
               (no_star cols -> r' = cols_lrow nsc cols r).
  Proof.
    intros W sc nsc fr row SC DP [ND PL] cols LC. induction LC as [|[name body] cols Hb _ IH];
      intros r acc OK; cbn [expr_columns columns_of].
    - exists r. split; [apply pr_ret|]. split; [exact OK|reflexivity].
    - destruct (String.eqb name "*") eqn:ES.
      + destruct (merge_ok W sc row PL row (fun k v => assoc_in _ row k v ND) ND r acc OK) as (r1 & HP1 & OK1).
        destruct (IH r1 _ OK1) as (r2 & HP2 & OK2 & _). exists r2. split; [|split; [exact OK2|]].
        * eapply (pr_bind E owner _ _ W _ _ (keys row)); [apply pr_members|].
          eapply pr_bind; [exact HP1|]. exact HP2.
        * intros NS. inversion NS; subst. simpl in *. congruence.
      + destruct (IH (add_column name (GCol body nsc) r) (dict_set name (col_val fr row body) acc))
          as (r2 & HP2 & OK2 & ER).
        * apply lrow_add; [exact OK|]. now apply getter_col.
        * exists r2. split; [exact HP2|]. split; [exact OK2|].
          intros NS. inversion NS; subst. now apply ER.
  Qed.

  (** A row object in the world. *)
  Definition row_obj (W : world) (n : nat) (d : dict) : Prop :=
    exists r, W n = Some (WRow (fst r) (snd r) d) /\ lrow_ok W r d.

  Lemma getter_weaken : forall W W' g v, wle W W' -> getter_ok W g v -> getter_ok W' g v.
  Proof. intros W W' g v H [H1 H2]. split; [exact H1|]. intros P. eapply pr_weaken; eauto. Qed.

  Lemma lrow_weaken : forall W W' r d, wle W W' -> lrow_ok W r d -> lrow_ok W' r d.
  Proof.
    intros W W' r d HW [HG HC HB]. constructor; auto.
    intros k. specialize (HG k). destruct (assoc k (snd r)); [|exact HG].
    destruct HG as (x & Hx & Hg). exists x. split; [exact Hx|]. eapply getter_weaken; eauto.
  Qed.

  Lemma row_obj_weaken : forall W W' n d, wle W W' -> row_obj W n d -> row_obj W' n d.
  Proof. intros W W' n d HW (r & H1 & H2). exists r. split; [auto|]. eapply lrow_weaken; eauto. Qed.

  Lemma row_obj_frame : forall W n d, row_obj W n d -> frame_ok W (VOpaque n) d.
  Proof.
    intros W n d (r & H1 & [HG _ _]). right. exists n, (fst r), (snd r). auto.
  Qed.

  (** Transform makes a row that stands for the specified columns. *)
  Lemma transform_sub_ok : forall W sc fr (star : bool) cols row,
    scope_ok W (append_vars (VDict row) (copy sc)) (row :: fr) -> need + (sc_depth sc + 1) < 1000 ->
    row_ok row -> label_columns cols ->
    forall W1 s, wle W W1 -> stok W1 s ->
    exists W2 s2 n, wle W1 W2 /\ stok W2 s2 /\ quiet s s2 /\
      row_obj W2 n (columns_of (col_val fr row) row cols (if star then fields row else [])) /\
      (no_star cols -> let r := cols_lrow (append_vars (VDict row) (copy sc)) cols
                                  (if star then star_lrow row ([], []) else ([], [])) in
         W2 n = Some (WRow (fst r) (snd r)
                       (columns_of (col_val fr row) row cols (if star then fields row else [])))) /\
      evaluates (fun m => transform (R m) sc star cols (VDict row)) s s2 (VOpaque n).
  Proof.
    intros W sc fr star cols row SC DP RO LC W1 s HW HS.
    assert (ST : exists r : lrow, promises W (fun m =>
        if star then ms <- members (VDict row) ;; star_columns (R m) sc (VDict row) ms ([], [])
        else mret (([], []) : lrow)) r /\ lrow_ok W r (if star then fields row else []) /\
        r = (if star then star_lrow row ([], []) else ([], []))).
    { destruct star.
      - destruct RO as [ND PL].
        destruct (star_ok W sc row PL row (fun k v => assoc_in _ row k v ND) ND ([], []) [] (lrow_nil W))
          as (r & HP & OK & ER); [reflexivity|].
        exists r. split; [|split; [exact OK|exact ER]].
        eapply (pr_bind E owner _ _ W _ _ (keys row)); [apply pr_members|exact HP].
      - exists ([], []). split; [apply pr_ret|]. split; [apply lrow_nil|reflexivity]. }
    destruct ST as (r1 & HP1 & OK1 & ER1).
    assert (DP' : need + sc_depth (append_vars (VDict row) (copy sc)) < 1000)
      by (cbn [append_vars copy sc_depth]; lia).
    destruct (expr_columns_ok W sc _ fr row SC DP' RO cols LC r1 _ OK1) as (r2 & HP2 & OK2 & ER2).
    destruct (HP1 W1 s HW HS) as (W2 & s2 & HW2 & HS2 & Q2 & EV2).
    destruct (HP2 W2 s2 (wle_trans _ _ _ HW HW2) HS2) as (W3 & s3 & HW3 & HS3 & Q3 & EV3).
    set (d := columns_of (col_val fr row) row cols (if star then fields row else [])) in *.
    set (o := ORow (fst r2) (snd r2) []).
    set (n0 := List.length (heap s3)).
    set (W4 := fun n => if Nat.eqb n n0 then Some (WRow (fst r2) (snd r2) d) else W3 n).
    assert (FR : W3 n0 = None).
    { destruct (W3 n0) as [y|] eqn:EW; [|reflexivity].
      destruct (so_heap _ _ _ _ HS3 _ _ EW) as (o' & Ho & _).
      assert (n0 < List.length (heap s3)) by (apply nth_error_Some; congruence). lia. }
    assert (HW4 : wle W3 W4).
    { intros n y Hn. unfold W4. destruct (Nat.eqb n n0) eqn:EN; [|exact Hn].
      apply Nat.eqb_eq in EN as ->. congruence. }
    exists W4, (set_heap (heap s3 ++ [o]) s3), n0.
    assert (HW14 : wle W1 W4) by (eapply wle_trans; [exact HW2|]; eapply wle_trans; eauto).
    split; [exact HW14|]. split; [|split; [|split; [|split]]].
    - constructor; [|apply HS3]. intros n y Hn. simpl. unfold W4 in Hn.
      destruct (Nat.eqb n n0) eqn:EN.
      + apply Nat.eqb_eq in EN as ->. injection Hn as <-.
        exists o. split; [apply nth_error_snoc|]. simpl. split; [reflexivity|]. split; [reflexivity|].
        discriminate.
      + destruct (so_heap _ _ _ _ HS3 _ _ Hn) as (o' & Ho & OK). exists o'.
        split; [now apply nth_error_app_some|exact OK].
    - eapply quiet_trans; [exact Q2|]. eapply quiet_trans; [exact Q3|].
      constructor; simpl; auto. intros n o' Hn. exists o'.
      split; [now apply nth_error_app_some|apply obj_ext_refl].
    - exists r2. split; [unfold W4; now rewrite Nat.eqb_refl|].
      eapply lrow_weaken; [|exact OK2]. eapply wle_trans; eauto.
    - intros NS. rewrite <- ER1, <- (ER2 NS). unfold W4. now rewrite Nat.eqb_refl.
    - unfold transform. eapply ev_bind; [exact EV2|]. eapply ev_bind; [exact EV3|].
      exists 0. reflexivity.
  Qed.

  (** Reading out all columns *)
  Lemma materialize_ok : forall W n d, row_obj W n d -> plain (VDict d) = true ->
    promises W (fun m => materialize_row (R m) (VOpaque n)) (VDict d).
  Proof.
    intros W n d (r & Hn & OK) PD. unfold materialize_row.
    assert (COLS : forall cs d0, (forall c, In c cs -> In c (fst r)) ->
      promises W (fun m => materialize_columns (R m) n cs d0) (rebuild_from d cs d0)).
    { induction cs as [|c cs IH]; intros d0 IN; cbn [materialize_columns].
      - apply pr_ret.
      - destruct (lo_cols _ _ _ OK c (IN c (or_introl eq_refl))) as (g & Hg).
        pose proof (lo_get _ _ _ OK c) as G. rewrite Hg in G. destruct G as (x & Hx & _ & HP).
        specialize (HP (plain_assoc _ _ _ PD Hx)).
        unfold rebuild_from. cbn [fold_left]. rewrite Hx. fold (rebuild_from d cs (dict_set c x d0)).
        intros W1 s HW HS.
        destruct (so_heap _ _ _ _ HS n _ (HW _ _ Hn)) as (o & Ho & OO).
        destruct o; simpl in OO; try contradiction. destruct OO as (-> & -> & HC).
        assert (V : promises W (fun m => match assoc c cache with
                  | Some v => mret v
                  | None =>
                      match assoc c (snd r) with
                      | Some g => run_getter (R m) g
                      | None => mpanic
                      end
                  end) x).
        { destruct (assoc c cache) as [v|] eqn:EC.
          - rewrite (proj1 (HC _ _ EC)) in Hx. injection Hx as <-. apply pr_ret.
          - rewrite Hg. exact HP. }
        assert (ALL : promises W (fun m => v <- match assoc c cache with
                  | Some v => mret v
                  | None =>
                      match assoc c (snd r) with
                      | Some g => run_getter (R m) g
                      | None => mpanic
                      end
                  end ;; materialize_columns (R m) n cs (dict_set c v d0)) (rebuild_from d cs (dict_set c x d0))).
        { eapply (pr_bind E owner _ _ W _ _ x); [exact V|]. apply IH. intros; apply IN; now right. }
        destruct (ALL W1 s HW HS) as (W2 & s2 & H1 & H2 & H3 & H4).
        exists W2, s2. split; [exact H1|]. split; [exact H2|]. split; [exact H3|].
        eapply ev_ext; [|exact H4]. intros m. unfold mbind at 2. unfold obj_of. rewrite Ho. reflexivity. }
    intros W1 s HW HS.
    destruct (so_heap _ _ _ _ HS n _ (HW _ _ Hn)) as (o & Ho & OO).
    destruct o; simpl in OO; try contradiction. destruct OO as (-> & -> & HC).
    assert (ALL : promises W (fun m => d <- materialize_columns (R m) n (fst r) [] ;; mret (VDict d)) (VDict d)).
    { eapply (pr_bind E owner _ _ W _ _ d); [|apply pr_ret].
      pose proof (COLS (fst r) [] (fun c H => H)) as C. rewrite (lo_build _ _ _ OK) in C. exact C. }
    destruct (ALL W1 s HW HS) as (W2 & s2 & H1 & H2 & H3 & H4).
    exists W2, s2. split; [exact H1|]. split; [exact H2|]. split; [exact H3|].
    eapply ev_ext; [|exact H4]. intros m. unfold mbind at 2. unfold obj_of. rewrite Ho. reflexivity.
  Qed.

  Lemma forallb_remove : forall k d, forallb (fun kv : string * val => plain (snd kv)) d = true ->
    forallb (fun kv : string * val => plain (snd kv)) (remove_key k d) = true.
  Proof.
    intros k d. induction d as [|[k' v] d IH]; simpl; intros H; [reflexivity|].
    apply andb_true_iff in H as [H1 H2]. destruct (String.eqb k k'); [auto|]. simpl. rewrite H1. auto.
  Qed.

  Lemma plain_dict_set : forall k v d, plain v = true -> plain (VDict d) = true ->
    plain (VDict (dict_set k v d)) = true.
  Proof.
    intros k v d PV PD. unfold dict_set. simpl in *. rewrite forallb_app. simpl.
    rewrite PV, forallb_remove by exact PD. reflexivity.
  Qed.

  Lemma plain_fields : forall row, plain (VDict row) = true -> plain (VDict (fields row)) = true.
  Proof.
    intros row H. simpl in *. unfold fields. rewrite forallb_forall in *. intros kv HI.
    apply in_map_iff in HI as (kv' & <- & HI). simpl. apply plain_or_null. apply (H _ HI).
  Qed.

  Lemma column_plain : forall fr row body v, column E funs subq fr row body = Some v -> plain v = true.
  Proof.
    intros fr row body v H. destruct body as [|q|e]; [discriminate| |]; cbn [column] in H.
    - apply obind_some in H as (rows & Hr & H). apply omap_some in H as (x & Hx & <-). apply plain_expand.
      eapply plain_one_or_list; [apply plain_cells; eapply SUBP; eauto|exact Hx].
    - apply omap_some in H as (x & Hx & <-). apply plain_expand. eapply den_plain; eauto.
  Qed.

  Lemma columns_plain : forall fr row, plain (VDict row) = true ->
    forall cols acc out, plain (VDict acc) = true ->
    columns E funs subq fr row cols acc = Some out -> plain (VDict out) = true.
  Proof.
    intros fr row PR cols. induction cols as [|[name body] cols IH]; intros acc out PA H; cbn [columns] in H.
    - congruence.
    - destruct (String.eqb name "*").
      + eapply IH; [|exact H]. pose proof (plain_fields row PR) as PF. simpl in *.
        rewrite forallb_app, PA. simpl. rewrite forallb_forall in *. intros kv HI.
        apply filter_In in HI as [HI _]. auto.
      + apply obind_some in H as (v & Hv & H). eapply IH; [|exact H].
        apply plain_dict_set; [|exact PA]. eapply column_plain; eauto.
  Qed.

  Lemma project_plain : forall fr star cols row out, plain (VDict row) = true ->
    project E funs subq fr star cols row = Some out -> plain (VDict out) = true.
  Proof.
    intros fr star cols row out PR H. unfold project in H. eapply columns_plain; [exact PR| |exact H].
    destruct star; [now apply plain_fields|reflexivity].
  Qed.

  (** ** One row *)

  Lemma scope_push : forall W sc fr v d k,
    scope_ok W sc fr -> frame_ok W v d -> sc_depth k < 1000 -> sc_vars k = sc_vars sc ->
    scope_ok W (append_vars v k) (d :: fr).
  Proof.
    intros W sc fr v d k [H _] HV HD HK. split.
    - simpl. rewrite HK. constructor; assumption.
    - unfold overflow. cbn [append_vars sc_depth]. apply Nat.leb_gt. exact HD.
  Qed.

  Lemma pr_accepts : forall W sc v, plain v = true ->
    promises W (fun n => accepts E (R n) sc v) (truthy E v).
  Proof.
    intros W sc v PV. unfold accepts. destruct v; try (apply pr_truth; exact PV). apply pr_ret.
  Qed.

  Definition label_where (w : option expr) : Prop :=
    match w with Some w => labelled owner w | None => True end.

  Lemma process_row_ok : forall W sc fr star cols where_ row out keep,
    scope_ok W sc fr -> need + (sc_depth sc + 2) < 1000 -> row_ok row -> label_columns cols -> label_where where_ ->
    project E funs subq fr star cols row = Some out -> holds E funs fr out row where_ = Some keep ->
    promises W (fun n => process_row E (R n) sc star cols where_ (VDict row))
      (if keep then [VDict out] else []).
  Proof.
    intros W sc fr star cols where_ row out keep SC RM RO LC LW HO HK W1 s HW HS.
    assert (SC1 : scope_ok W (append_vars (VDict row) (copy (copy sc))) (row :: fr)).
    { eapply scope_push; [exact SC|now left|cbn [copy sc_depth]; lia|reflexivity]. }
    assert (DP1 : need + (sc_depth (copy sc) + 1) < 1000) by (cbn [copy sc_depth]; lia).
    destruct (transform_sub_ok W (copy sc) fr star cols row SC1 DP1 RO LC W1 s HW HS) as
      (W2 & s2 & n & HW2 & HS2 & Q2 & OBJ & _ & EV2).
    assert (EQ : columns_of (col_val fr row) row cols (if star then fields row else []) = out).
    { unfold project in HO. now apply columns_columns_of. }
    rewrite EQ in OBJ. clear EQ.
    assert (PO : plain (VDict out) = true) by (eapply project_plain; [apply RO|exact HO]).
    assert (REST : promises W2 (fun m =>
        match where_ with
        | None => r <- materialize_row (R m) (VOpaque n) ;; mret [r]
        | Some w =>
            v <- r_expr (R m) (append_vars (VOpaque n) (append_vars (VDict row) (copy (copy sc)))) w ;;
            b <- accepts E (R m) sc v ;;
            if b then r <- materialize_row (R m) (VOpaque n) ;; mret [r] else mret []
        end) (if keep then [VDict out] else [])).
    { pose proof (materialize_ok _ _ _ OBJ PO) as MAT.
      assert (ROW : promises W2 (fun m => r <- materialize_row (R m) (VOpaque n) ;; mret [r]) [VDict out]).
      { eapply (pr_bind E owner _ _ W2 _ _ (VDict out)); [exact MAT|apply pr_ret]. }
      destruct where_ as [w|]; cbn [holds] in HK.
      - apply omap_some in HK as (v & Hv & <-).
        eapply (pr_bind E owner _ _ W2 _ _ v).
        { eapply pure_eval; [exact FOK| |exact Hv|exact LW].
          eapply (scope_push W2 (append_vars (VDict row) (copy (copy sc)))).
          - eapply scope_ok_weaken; [|exact SC1]. eapply wle_trans; eauto.
          - now apply row_obj_frame.
          - cbn [append_vars copy sc_depth]; lia.
          - reflexivity. }
        eapply (pr_bind E owner _ _ W2 _ _ (truthy E v)).
        { apply pr_accepts. eapply den_plain; eauto. }
        cbv beta. destruct (truthy E v); [exact ROW|apply pr_ret].
      - injection HK as <-. exact ROW. }
    destruct (REST W2 s2 (wle_refl _) HS2) as (W3 & s3 & HW3 & HS3 & Q3 & EV3).
    exists W3, s3. split; [eapply wle_trans; eauto|]. split; [exact HS3|].
    split; [eapply quiet_trans; eauto|]. unfold process_row.
    eapply ev_bind; [exact EV2|]. exact EV3.
  Qed.

  (** ** All rows *)

  Lemma rows_ok : forall W sc fr star cols where_,
    scope_ok W sc fr -> need + (sc_depth sc + 2) < 1000 -> label_columns cols -> label_where where_ ->
    forall rows out, Forall row_ok rows ->
    select_rows E funs subq fr star cols where_ rows = Some out ->
    promises W (fun n => out <- mmap (process_row E (R n) sc star cols where_) (map VDict rows) ;;
                         mret (List.concat out)) (map VDict out).
  Proof.
    intros W sc fr star cols where_ SC RM LC LW rows out RO HO.
    assert (G : exists outs, Forall2 (fun row o => promises W
        (fun n => process_row E (R n) sc star cols where_ row) o) (map VDict rows) outs /\
        List.concat outs = map VDict out).
    { revert out HO. induction RO as [|row rows Hr _ IH]; intros out HO; cbn [select_rows] in HO.
      - injection HO as <-. exists []. split; [constructor|reflexivity].
      - apply obind_some in HO as (o & Ho & HO). apply obind_some in HO as (keep & Hk & HO).
        apply omap_some in HO as (rest & Hrest & <-).
        destruct (IH rest Hrest) as (outs & F & C).
        exists ((if keep then [VDict o] else []) :: outs). split.
        + simpl. constructor; [|exact F]. eapply process_row_ok; eauto.
        + simpl. rewrite C. destruct keep; reflexivity. }
    destruct G as (outs & F & C). eapply (pr_bind E owner _ _ W _ _ outs).
    - apply pr_mmap. exact F.
    - rewrite C. apply pr_ret.
  Qed.
End Select.

(** ** Without subqueries *)

Notation col_value E funs := (col_val E funs no_subq).

Definition label_cols (owner : nat -> string) (cols : list (string * colbody)) : Prop :=
  label_columns owner (fun _ => True) cols.

Definition room (sc : scope) : Prop := sc_depth sc + 2 < 1000.

Lemma no_subq_plain : forall fr q rows, no_subq fr q = Some rows -> forallb plain (map VDict rows) = true.
Proof. discriminate. Qed.

Lemma no_subq_ok : forall E owner W sc fr q rows, no_subq fr q = Some rows -> True ->
  scope_ok E owner W sc fr -> 0 + sc_depth sc < 1000 ->
  promises E owner W (fun n => r_select (ev E n) sc q) (map VDict rows).
Proof. discriminate. Qed.

Lemma transform_ok : forall E funs owner, funs_ok E funs -> forall W sc fr (star : bool) cols row,
  scope_ok E owner W (append_vars (VDict row) (copy sc)) (row :: fr) -> row_ok row -> label_cols owner cols ->
  forall W1 s, wle W W1 -> stok E owner W1 s ->
  exists W2 s2 n, wle W1 W2 /\ stok E owner W2 s2 /\ quiet s s2 /\
    row_obj E owner W2 n (columns_of (col_value E funs fr row) row cols (if star then fields row else [])) /\
    (no_star cols -> let r := cols_lrow (append_vars (VDict row) (copy sc)) cols
                                (if star then star_lrow row ([], []) else ([], [])) in
       W2 n = Some (WRow (fst r) (snd r)
                     (columns_of (col_value E funs fr row) row cols (if star then fields row else [])))) /\
    evaluates (fun m => transform (ev E m) sc star cols (VDict row)) s s2 (VOpaque n).
Proof.
  intros E funs owner FOK W sc fr star cols row SC RO LC W1 s HW HS.
  apply (transform_sub_ok E funs owner FOK no_subq (fun _ => True) 0 no_subq_plain (no_subq_ok E owner)
           W sc fr star cols row SC); auto.
  destruct SC as [_ OV]. unfold overflow in OV. apply Nat.leb_gt in OV. cbn [append_vars copy sc_depth] in OV.
  cbn. rewrite Nat.add_1_r. exact OV.
Qed.

(** ** Queries with subqueries *)

Lemma distinct_nodup : forall l, distinct l = true -> NoDup l.
Proof.
  induction l as [|x l IH]; intros H; [constructor|]. cbn in H. apply andb_true_iff in H as [H1 H2].
  constructor; [|auto]. intros HI. apply negb_true_iff in H1.
  assert (mem_str x l = true); [|congruence]. apply existsb_exists. exists x. split; [exact HI|apply String.eqb_refl].
Qed.

Lemma dicts_inv : forall l rows, dicts l = Some rows -> l = map VDict rows /\ Forall row_ok rows.
Proof.
  induction l as [|v l IH]; intros rows H; cbn [dicts] in H.
  - injection H as <-. split; [reflexivity|constructor].
  - destruct v; try discriminate.
    match type of H with (if ?b then _ else _) = _ => destruct b eqn:EB; [|discriminate] end.
    apply andb_true_iff in EB as [E1 E2].
    destruct (dicts l) as [rest|]; [|discriminate]. injection H as <-.
    destruct (IH rest eq_refl) as [-> F]. split; [reflexivity|].
    constructor; [|exact F]. split; [now apply distinct_nodup|exact E2].
Qed.

Lemma table_inv : forall v rows, table v = Some rows ->
  (v = VArr (map VDict rows) \/ v = VQuery (map VDict rows) \/ exists d, v = VDict d /\ rows = [d]) /\
  Forall row_ok rows.
Proof.
  intros v rows H. destruct v; try discriminate; cbn [table] in H; pose proof H as H'; apply dicts_inv in H' as [EQ F];
    split; auto; try (rewrite EQ; auto; fail).
  right. right. exists d. split; [reflexivity|]. destruct rows as [|r [|]]; try discriminate.
  injection EQ as ->. reflexivity.
Qed.

Lemma rows_plain : forall rows, Forall row_ok rows -> forallb plain (map VDict rows) = true.
Proof.
  intros rows H. apply forallb_forall. intros v HI. apply in_map_iff in HI as (r & <- & HI).
  rewrite Forall_forall in H. apply (H _ HI).
Qed.

Lemma rows_dicts : forall rows, Forall row_ok rows -> dicts (map VDict rows) = Some rows.
Proof.
  intros rows H. induction H as [|r rows [ND PL] _ IH]; [reflexivity|]. cbn [map dicts].
  replace (distinct (keys r)) with true; [rewrite PL, IH; reflexivity|]. symmetry. clear - ND.
  induction ND as [|x l NI _ IH]; [reflexivity|]. cbn [distinct]. rewrite IH, andb_true_r.
  apply negb_true_iff, not_true_iff_false. intros HM. apply NI. now apply mem_str_In.
Qed.

(** ** FROM *)

Lemma mbind_assoc : forall A B C (m : EM A) (f : A -> EM B) (g : B -> EM C) s,
  mbind (mbind m f) g s = mbind m (fun a => mbind (f a) g) s.
Proof. intros A B C m f g s. unfold mbind. destruct (m s) as [s' [a| |]]; reflexivity. Qed.

Section From.
  Variable E : env.
  Variable funs : string -> option (dict -> option val).
  Variable owner : nat -> string.
  Hypothesis FOK : funs_ok E funs.
  Notation R := (ev E).
  Notation promises := (promises E owner).
  Notation stok := (stok E owner).
  Notation scope_ok := (scope_ok E owner).

  Variable subq : list dict -> select -> option (list dict).
  Variable lab_q : select -> Prop.
  Variable need : nat.
  Hypothesis SUBR : forall fr q rows, subq fr q = Some rows -> Forall row_ok rows.
  Hypothesis SUBQ : forall W sc fr q rows, subq fr q = Some rows -> lab_q q ->
    scope_ok W sc fr -> need + sc_depth sc < 1000 ->
    promises W (fun n => r_select (R n) sc q) (map VDict rows).

  Lemma pr_alloc : forall A W o (K : nat -> val -> EM A) b,
    (forall W' n, wle W W' -> W' n = Some (WObj o) -> promises W' (fun m => K m (VOpaque n)) b) ->
    promises W (fun m => v <- alloc o ;; K m v) b.
  Proof.
    intros A W o K b H W1 s HW HS. set (n0 := List.length (heap s)).
    set (W2 := fun n => if Nat.eqb n n0 then Some (WObj o) else W1 n).
    assert (FR : W1 n0 = None).
    { destruct (W1 n0) as [y|] eqn:EW; [|reflexivity].
      destruct (so_heap _ _ _ _ HS _ _ EW) as (o' & Ho & _).
      assert (n0 < List.length (heap s)) by (apply nth_error_Some; congruence). lia. }
    assert (HW2 : wle W1 W2).
    { intros n y Hn. unfold W2. destruct (Nat.eqb n n0) eqn:EN; [|exact Hn].
      apply Nat.eqb_eq in EN as ->. congruence. }
    assert (HS2 : stok W2 (set_heap (heap s ++ [o]) s)).
    { constructor; [|apply HS]. intros n y Hn. simpl. unfold W2 in Hn.
      destruct (Nat.eqb n n0) eqn:EN.
      + apply Nat.eqb_eq in EN as ->. injection Hn as <-. exists o. split; [apply nth_error_snoc|reflexivity].
      + destruct (so_heap _ _ _ _ HS _ _ Hn) as (o' & Ho & OK'). exists o'.
        split; [now apply nth_error_app_some|exact OK']. }
    assert (E2 : W2 n0 = Some (WObj o)) by (unfold W2; now rewrite Nat.eqb_refl).
    destruct (H W2 n0 (wle_trans _ _ _ HW HW2) E2 W2 _ (wle_refl _) HS2) as (W3 & s3 & HW3 & HS3 & Q3 & EV3).
    exists W3, s3. split; [eapply wle_trans; eauto|]. split; [exact HS3|]. split.
    - eapply quiet_trans; [|exact Q3]. constructor; simpl; auto. intros n o' Hn. exists o'.
      split; [now apply nth_error_app_some|apply obj_ext_refl].
    - destruct EV3 as [N EV3]. exists N. exact EV3.
  Qed.

  Lemma pr_obj_world : forall W n o, W n = Some (WObj o) ->
    promises W (fun _ => obj_of (VOpaque n)) (Some o).
  Proof.
    intros W n o Hn W1 s HW HS. exists W1, s. split; [apply wle_refl|]. split; [exact HS|].
    split; [apply quiet_refl|]. exists 0. intros m _. unfold obj_of.
    destruct (so_heap _ _ _ _ HS _ _ (HW _ _ Hn)) as (o' & -> & OK). simpl in OK. now subst.
  Qed.

  Lemma pr_query_obj : forall W sc n q rows, W n = Some (WObj (OSelect q)) ->
    promises W (fun m => r_select (R m) sc q) rows ->
    promises W (fun m => r_query (R m) sc (VOpaque n)) rows.
  Proof.
    intros W sc n q rows Hn HP. apply pr_query. unfold query_step.
    eapply (pr_bind E owner _ _ W (fun _ => obj_of (VOpaque n)) _ (Some (OSelect q))); [now apply pr_obj_world|]. exact HP.
  Qed.

  Lemma pr_stored_obj : forall W n q, W n = Some (WObj (OSelect q)) ->
    promises W (fun m => to_stored_query (R m) (VOpaque n)) (VOpaque n).
  Proof.
    intros W n q Hn. unfold to_stored_query.
    eapply (pr_bind E owner _ _ W _ _ (VOpaque n)).
    - apply pr_reduce. unfold reduce_step. eapply (pr_bind E owner _ _ W (fun _ => obj_of (VOpaque n)) _ (Some (OSelect q))); [now apply pr_obj_world|]. apply pr_ret.
    - cbv beta. eapply (pr_bind E owner _ _ W (fun _ => obj_of (VOpaque n)) _ (Some (OSelect q))); [now apply pr_obj_world|]. apply pr_ret.
  Qed.

  (** The argument that is passed for a parameter. *)
  Definition passed (W : world) (fr : list dict) (a : argval) (v : val) : Prop :=
    match a with
    | ASelect q => exists n, v = VOpaque n /\ W n = Some (WObj (OSelect q))
    | _ => arg_value E funs fr a = Some v
    end.
  Definition all_passed (W : world) (fr : list dict) (params : list (string * argval)) (args : dict) : Prop :=
    Forall2 (fun na nv => fst na = fst nv /\ passed W fr (snd na) (snd nv)) params args.

  Definition label_arg (a : argval) : Prop :=
    match a with
    | AExpr e | AArray e => labelled owner e
    | ASelect q => lab_q q
    | AEmpty => True
    end.
  Definition label_args (params : list (string * argval)) : Prop :=
    Forall (fun na => label_arg (snd na)) params.

  Lemma passed_weaken : forall W W' fr a v, wle W W' -> passed W fr a v -> passed W' fr a v.
  Proof.
    intros W W' fr [e|q|e|] v HW H; cbn [passed] in *; auto. destruct H as (n & -> & Hn). eauto.
  Qed.

  Lemma pr_build : forall A fr sc params,
    label_args params ->
    Forall (fun na => match snd na with ASelect _ => True | a => arg_value E funs fr a <> None end) params ->
    forall W (acc0 : list (string * argval)) acc (K : nat -> dict -> EM A) b,
    scope_ok W sc fr -> all_passed W fr acc0 acc -> NoDup (keys acc ++ keys params) ->
    (forall W' args, wle W W' -> all_passed W' fr (acc0 ++ params) args -> promises W' (fun m => K m args) b) ->
    promises W (fun m => a <- build_args (R m) sc params acc ;; K m a) b.
  Proof.
    intros A fr sc params LA DA. induction DA as [|[name a] params Ha _ IH]; intros W acc0 acc K b SC HA ND HK.
    - cbn [build_args]. eapply pr_ext; [|apply (HK W acc (wle_refl _))]; [reflexivity|].
      now rewrite app_nil_r.
    - inversion LA as [|? ? L1 L2]; subst. cbn [fst snd] in *.
      assert (NA : assoc name acc = None).
      { apply assoc_none_keys. apply not_true_iff_false. intros HM. apply mem_str_In in HM.
        cbn [keys map fst] in ND. apply NoDup_remove_2 in ND. apply ND. apply in_or_app. now left. }
      assert (STEP : forall W' v, wle W W' -> passed W' fr a v ->
        promises W' (fun m => x <- build_args (R m) sc params (dict_set name v acc) ;; K m x) b).
      { intros W' v HW PV. rewrite dict_set_absent by exact NA.
        apply (IH L2 W' (acc0 ++ [(name, a)])).
        - eapply scope_ok_weaken; eauto.
        - apply Forall2_app; [|repeat constructor; auto].
          clear - HA HW. induction HA as [|? ? ? ? [? ?] _ IHA]; constructor; auto.
          split; [auto|eapply passed_weaken; eauto].
        - unfold keys in *. rewrite map_app, <- app_assoc. exact ND.
        - intros W2 args HW2. rewrite <- app_assoc. apply HK. eapply wle_trans; eauto. }
      eapply pr_ext; [intros n s; symmetry; cbn [build_args]; apply mbind_assoc|].
      assert (EXPR : forall e, arg_value E funs fr a <> None -> arg_value E funs fr a = den E funs fr e ->
          labelled owner e -> (forall v, den E funs fr e = Some v -> passed W fr a v) ->
          promises W (fun m => v <- r_expr (R m) sc e ;;
                               (x <- build_args (R m) sc params (dict_set name v acc) ;; K m x)) b).
      { intros e NN EQ LE PS. destruct (den E funs fr e) as [v|] eqn:HV; [|congruence].
        eapply (pr_bind E owner _ _ W _ _ v); [eapply pure_eval; eauto|].
        apply STEP; [apply wle_refl|auto]. }
      destruct a as [e|q|e|]; cbn [arg_eager label_arg] in *.
      + apply (EXPR e Ha eq_refl L1). auto.
      + apply pr_alloc. intros W' n HW Hn. apply STEP; [exact HW|]. exists n. auto.
      + apply (EXPR e Ha eq_refl L1). auto.
      + eapply (pr_bind E owner _ _ W (fun _ => mret (VArr [])) _ (VArr [])); [apply pr_ret|].
        apply STEP; [apply wle_refl|reflexivity].
  Qed.

  Lemma passed_keys : forall W fr params args, all_passed W fr params args -> keys args = keys params.
  Proof.
    intros W fr params args H. induction H as [|? ? ? ? [H1 _] _ IH]; [reflexivity|].
    cbn [keys map]. unfold keys in IH. now rewrite IH, H1.
  Qed.
  Lemma passed_assoc : forall W fr params args k, all_passed W fr params args ->
    match assoc k params, assoc k args with
    | Some a, Some v => passed W fr a v
    | None, None => True
    | _, _ => False
    end.
  Proof.
    intros W fr params args k H. induction H as [|[n a] [n' v] ? ? [H1 H2] _ IH]; [exact I|].
    cbn [fst snd] in *. subst n'. cbn [assoc]. destruct (String.eqb k n); [exact H2|exact IH].
  Qed.

  Lemma given_args : forall allowed required (params : list (string * argval)) (args : dict),
    keys args = keys params -> given allowed required params = given allowed required args.
  Proof. intros allowed required params args H. unfold given. now rewrite H. Qed.

  Lemma given_only : forall A allowed required (params : list (string * A)) k,
    given allowed required params = true -> mem_str k allowed = false -> assoc k params = None.
  Proof.
    intros A allowed required params k G NM. unfold given in G. apply andb_true_iff in G as [G _].
    apply assoc_none_keys. apply not_true_iff_false. intros HM. apply mem_str_In in HM.
    rewrite forallb_forall in G. specialize (G _ HM). congruence.
  Qed.

  (** The struct the parser fills, without an error. *)
  Lemma parsed_args : forall g fields args target,
    NoDup (keys args) -> NoDup (map fp_name fields) ->
    given (map fp_name fields) (map fp_name (filter fp_required fields)) args = true ->
    (forall f, In f fields -> assoc (fp_name f) args <> None -> g f <> None) ->
    pparse g fields args target =
    (fold_left (fun t f => match assoc (fp_name f) args, g f with
                           | Some _, Some v => set_field (fp_idx f) v t
                           | _, _ => t
                           end) fields target, None).
  Proof.
    intros g fields args target ND NF G HG.
    assert (S : snd (pparse g fields args target) = None).
    { apply pparse_ok; auto. apply Forall_forall. exact HG. }
    unfold pparse in *. destruct (pfields g fields args [] target) as [[p t] [e|]] eqn:EP.
    - discriminate.
    - apply pfields_target in EP as ->. cbn [snd] in S. now rewrite S.
  Qed.

  Lemma sequence_all : forall A B (f : A -> option B) l ys, sequence (map f l) = Some ys ->
    Forall2 (fun x y => f x = Some y) l ys.
  Proof.
    intros A B f l. induction l as [|x l IH]; intros ys H; cbn [map sequence] in H.
    - injection H as <-. constructor.
    - destruct (f x) as [y|] eqn:EF; [|discriminate]. apply omap_some in H as (r & Hr & <-).
      constructor; auto.
  Qed.

  Lemma all_rows_inv : forall A (f : A -> option (list dict)) l rows, all_rows (map f l) = Some rows ->
    exists ls, Forall2 (fun x y => f x = Some y) l ls /\ rows = List.concat ls.
  Proof.
    intros A f l rows H. unfold all_rows in H. apply omap_some in H as (ls & HS & <-).
    exists ls. split; [now apply sequence_all|reflexivity].
  Qed.

  Lemma concat_dicts : forall ls, List.concat (map (map VDict) ls) = map VDict (List.concat ls).
  Proof. intros ls. induction ls as [|l ls IH]; [reflexivity|]. cbn. now rewrite map_app, IH. Qed.

  Lemma scope_copy : forall W sc fr, scope_ok W sc fr -> S (sc_depth sc) < 1000 -> scope_ok W (copy sc) fr.
  Proof.
    intros W sc fr [H _] D. split; [exact H|]. unfold overflow. cbn [copy sc_depth]. apply Nat.leb_gt. lia.
  Qed.

  Lemma label_assoc : forall params k a, label_args params -> assoc k params = Some a -> label_arg a.
  Proof.
    intros params k a H HA. apply BaseProofs.assoc_in in HA. unfold label_args in H.
    rewrite Forall_forall in H. apply (H _ HA).
  Qed.

  (** chain() *)
  Lemma pr_chain : forall W sc fr params args rows,
    scope_ok W sc fr -> need + S (sc_depth sc) < 1000 -> label_args params -> all_passed W fr params args ->
    all_rows (map (fun na => match snd na with ASelect q => subq fr q | _ => None end) params) = Some rows ->
    promises W (fun m => chain_plugin (R m) sc args) (map VDict rows).
  Proof.
    intros W sc fr params args rows SC DP LA HA HR.
    destruct (all_rows_inv _ _ _ _ HR) as (ls & HL & ->).
    assert (SC' : scope_ok W (copy sc) fr) by (apply scope_copy; [exact SC|lia]).
    unfold chain_plugin.
    eapply (pr_bind E owner _ _ W _ _ (map snd args)).
    - apply pr_mmap. clear - HA HL. revert ls HL.
      induction HA as [|[n a] [n' v] params args [_ PV] _ IH]; intros ls HL; inversion HL; subst; [constructor|].
      cbn [snd map] in *. destruct a as [e|q|e|]; try discriminate. destruct PV as (k & -> & Hk).
      constructor; [|eauto]. now apply pr_stored_obj with (q := q).
    - cbv beta. eapply (pr_bind E owner _ _ W _ _ (map (map VDict) ls)).
      + apply pr_mmap. clear - HA HL LA SC' DP SUBQ. revert ls HL.
        induction HA as [|[n a] [n' v] params args [_ PV] _ IH]; intros ls HL; inversion HL; subst; [constructor|].
        inversion LA; subst. cbn [snd map] in *. destruct a as [e|q|e|]; try discriminate.
        destruct PV as (k & -> & Hk). constructor; [|eauto].
        eapply pr_query_obj; [exact Hk|]. eapply SUBQ; eauto.
      + rewrite concat_dicts. apply pr_ret.
  Qed.

  Lemma pr_stored_coerce : forall W sc n q, W n = Some (WObj (OSelect q)) ->
    promises W (fun m => coerce (r_reduce (R m)) (r_reduce_ws (R m) sc) (truth E (R m) sc) members
      (fun a k => r_assoc (R m) sc a (KVal (VStr k))) (env_sprint E)
      (to_stored_query (R m)) to_lazy_expr (row_to_dict (R m) sc) TStored (VOpaque n)) (Some (VOpaque n)).
  Proof.
    intros W sc n q Hn. cbn [coerce].
    eapply (pr_bind E owner _ _ W _ _ (VOpaque n)); [now apply pr_stored_obj with (q := q)|apply pr_ret].
  Qed.

  Lemma arg_value_plain : forall fr a v, arg_value E funs fr a = Some v -> plain v = true.
  Proof.
    intros fr [e|q|e|] v H; cbn [arg_value] in H; try discriminate; try (eapply den_plain; eauto; fail).
    now injection H as <-.
  Qed.

  Lemma no_star_args : forall (args : dict) allowed required, given allowed required args = true ->
    mem_str "**" allowed = false -> assoc "**"%string args = None.
  Proof. intros. eapply given_only; eauto. Qed.

  (** if() *)
  Lemma pr_if : forall W sc fr params args c q els cv rows,
    scope_ok W sc fr -> need + S (sc_depth sc) < 1000 -> label_args params -> all_passed W fr params args ->
    NoDup (keys params) ->
    given ["condition"; "then"; "else"]%string ["condition"; "then"]%string params = true ->
    assoc "condition"%string params = Some c -> assoc "then"%string params = Some (ASelect q) ->
    match assoc "else"%string params with
    | None => Some None
    | Some (ASelect q) => Some (Some q)
    | _ => None
    end = Some els ->
    arg_value E funs fr c = Some cv -> cv <> VNil ->
    (if truthy E cv then subq fr q else match els with Some q => subq fr q | None => Some [] end) = Some rows ->
    promises W (fun m => if_plugin E (R m) sc args) (map VDict rows).
  Proof.
    intros W sc fr params args c q els cv rows SC DP LA HA ND G HC HT HE HV NV HR.
    pose proof (passed_keys _ _ _ _ HA) as KE.
    pose proof (passed_assoc _ _ _ _ "condition"%string HA) as AC. rewrite HC in AC.
    pose proof (passed_assoc _ _ _ _ "then"%string HA) as AT. rewrite HT in AT.
    pose proof (passed_assoc _ _ _ _ "else"%string HA) as AE.
    destruct (assoc "condition"%string args) as [cv'|] eqn:EC; [|contradiction].
    destruct (assoc "then"%string args) as [tv|] eqn:ET; [|contradiction].
    destruct AT as (n1 & -> & Hn1).
    assert (CV : cv' = cv). { destruct c; cbn [passed] in AC; congruence || discriminate. }
    subst cv'. pose proof (arg_value_plain _ _ _ HV) as PV.
    rewrite (given_args _ _ _ _ KE) in G.
    assert (SUB : forall n q rows, W n = Some (WObj (OSelect q)) -> lab_q q -> subq fr q = Some rows ->
              promises W (fun m => r_query (R m) sc (VOpaque n)) (map VDict rows)).
    { intros n q' rows' Hn LQ HQ. eapply pr_query_obj; [exact Hn|]. eapply SUBQ; eauto. lia. }
    assert (EV : exists ev, assoc "else"%string args = ev /\
              match els with
              | None => ev = None
              | Some q => exists n, ev = Some (VOpaque n) /\ W n = Some (WObj (OSelect q)) /\ lab_q q
              end).
    { exists (assoc "else"%string args). split; [reflexivity|].
      destruct (assoc "else"%string params) as [[e|q2|e|]|] eqn:EP; try discriminate; injection HE as <-.
      - destruct (assoc "else"%string args); [|contradiction]. destruct AE as (n & -> & Hn).
        exists n. split; [reflexivity|]. split; [exact Hn|]. apply (label_assoc _ _ _ LA EP).
      - destruct (assoc "else"%string args); [contradiction|reflexivity]. }
    destruct EV as (ev & EEV & HEV). clear AE HE.
    unfold if_plugin.
    eapply (pr_bind E owner _ _ W _ _ ([cv; VOpaque n1; match ev with Some v => v | None => VNil end], None)).
    - replace ([cv; VOpaque n1; match ev with Some v => v | None => VNil end], None)
        with (pparse (fun f => assoc (fp_name f) args) ifp_fields args [VNil; VNil; VNil]).
      + apply pr_parse_args; [eapply no_star_args; [exact G|reflexivity]|].
        unfold ifp_fields. constructor; [|constructor; [|constructor; [|constructor]]];
          cbn [field_ fp_name fp_type]; intros a Ha.
        * assert (a = cv) by congruence. subst a. rewrite Ha. split; [apply pr_coerce_any; now left|].
          intros v [= <-]. destruct cv; reflexivity || congruence.
        * assert (a = VOpaque n1) by congruence. subst a. rewrite Ha.
          split; [now apply pr_stored_coerce with (q := q)|]. now intros v [= <-].
        * destruct els as [q2|]; [|congruence]. destruct HEV as (n2 & -> & Hn2 & _).
          assert (a = VOpaque n2) by congruence. subst a. rewrite Ha.
          split; [now apply pr_stored_coerce with (q := q2)|]. now intros v [= <-].
      + rewrite parsed_args.
        * unfold ifp_fields. cbn [fold_left field_ fp_name fp_idx]. rewrite EC, ET, EEV.
          destruct ev; reflexivity.
        * now rewrite KE.
        * cbn. repeat (constructor; [cbn; intuition discriminate|]). constructor.
        * exact G.
        * auto.
    - cbv beta iota. eapply (pr_bind E owner _ _ W _ _ (truthy E cv)); [now apply pr_truth|]. cbv beta.
      destruct (truthy E cv).
      + eapply SUB; [exact Hn1| |exact HR]. apply (label_assoc _ _ _ LA HT).
      + destruct els as [q2|].
        * destruct HEV as (n2 & -> & Hn2 & LQ). eapply SUB; eauto.
        * rewrite HEV. injection HR as <-. apply pr_ret.
  Qed.

  (** flatten() *)
  Lemma pr_flatten : forall W sc fr params args q rows0 rows,
    scope_ok W sc fr -> need + S (sc_depth sc) < 1000 -> label_args params -> all_passed W fr params args ->
    NoDup (keys params) -> given ["query"]%string ["query"]%string params = true ->
    assoc "query"%string params = Some (ASelect q) -> subq fr q = Some rows0 ->
    rows = List.concat (map (flatten_row (env_iter E)) rows0) ->
    promises W (fun m => flatten_plugin E (R m) sc args) (map VDict rows).
  Proof.
    intros W sc fr params args q rows0 rows SC DP LA HA ND G HQ HS ->.
    pose proof (passed_keys _ _ _ _ HA) as KE.
    pose proof (passed_assoc _ _ _ _ "query"%string HA) as AQ. rewrite HQ in AQ.
    destruct (assoc "query"%string args) as [qv|] eqn:EQ; [|contradiction].
    destruct AQ as (n1 & -> & Hn1).
    rewrite (given_args _ _ _ _ KE) in G.
    unfold flatten_plugin.
    eapply (pr_bind E owner _ _ W _ _ ([VOpaque n1], None)).
    - replace ([VOpaque n1], None)
        with (pparse (fun f => assoc (fp_name f) args) [field_ "query" 0 true TStored] args [VNil]).
      + apply pr_parse_args; [eapply no_star_args; [exact G|reflexivity]|].
        constructor; [|constructor]. cbn [field_ fp_name fp_type]; intros a Ha.
        assert (a = VOpaque n1) by congruence. subst a. rewrite Ha.
        split; [now apply pr_stored_coerce with (q := q)|]. now intros v [= <-].
      + rewrite parsed_args.
        * cbn [fold_left field_ fp_name fp_idx]. now rewrite EQ.
        * now rewrite KE.
        * cbn. repeat (constructor; [cbn; intuition discriminate|]). constructor.
        * exact G.
        * auto.
    - cbv beta iota. eapply (pr_bind E owner _ _ W _ _ (map VDict rows0)).
      { eapply pr_query_obj; [exact Hn1|]. eapply SUBQ; eauto; [apply (label_assoc _ _ _ LA HQ)|lia]. }
      cbv beta. eapply (pr_bind E owner _ _ W _ _ (map (fun r => map VDict (flatten_row (env_iter E) r)) rows0)).
      + apply pr_mmap. clear. induction rows0 as [|r rows IH]; [constructor|]. cbn [map]. constructor; [|exact IH].
        cbn [make_dict]. eapply (pr_bind E owner _ _ W (fun _ => mret r) _ r); apply pr_ret.
      + replace (List.concat (map (fun r => map VDict (flatten_row (env_iter E) r)) rows0))
          with (map VDict (List.concat (map (flatten_row (env_iter E)) rows0))); [apply pr_ret|].
        rewrite <- concat_dicts, map_map. reflexivity.
  Qed.

  (** range() *)
  Lemma range_values_loop : forall start stop step l, range_values start stop step = Some l ->
    exists fuel, forall n, fuel <= n -> range_rows n start stop step = Some l.
  Proof.
    intros start stop step l H. unfold range_values in H. unfold range_rows.
    set (st := if Z.eqb step 0 then 1%Z else step) in *.
    match type of H with (if ?b then _ else _) = _ => destruct b eqn:EB; [|discriminate] end.
    injection H as <-. repeat (apply andb_true_iff in EB as [EB ?]).
    rewrite ?Z.ltb_lt, ?Z.leb_le in *.
    set (n := Z.to_nat ((stop - start + st - 1) / st)).
    assert (NEG : (stop <= start -> n = 0%nat)%Z).
    { intros L. unfold n. destruct (Z.eq_dec stop start) as [->|].
      - rewrite Z.sub_diag, Z.add_0_l. rewrite Z.div_small by lia. reflexivity.
      - assert ((stop - start + st - 1) / st < 1)%Z by (apply Z.div_lt_upper_bound; lia). lia. }
    assert (LOOP : range_loop (S n) start stop st = Some (map (fun k => start + Z.of_nat k * st)%Z (seq 0 n))).
    { apply RangeProps.range_loop_forward; try (unfold is_int64; lia).
      - intros k L. destruct (Z.le_gt_cases stop start) as [C|C]; [rewrite (NEG C) in L; lia|].
        unfold n in L. assert (A : (Z.of_nat k < (stop - start + st - 1) / st)%Z) by lia.
        assert (B : (Z.of_nat k + 1 <= (stop - start + st - 1) / st)%Z) by lia.
        pose proof (Z.mul_div_le (stop - start + st - 1) st ltac:(lia)). nia.
      - destruct (Z.le_gt_cases stop start) as [C|C]; [rewrite (NEG C); lia|].
        unfold n. rewrite Z2Nat.id by (apply Z.div_pos; lia).
        pose proof (Z.mul_succ_div_gt (stop - start + st - 1) st ltac:(lia)). nia. }
    exists (S n). intros m Hm.
    assert (MONO : forall f f' i v, f <= f' -> range_loop f i stop st = Some v -> range_loop f' i stop st = Some v).
    { clear. induction f as [|f IH]; intros [|f'] i v L H; try discriminate; [lia|].
      cbn [range_loop] in *. destruct (Z.ltb i stop); [|exact H].
      destruct (range_loop f (wrap64 (i + st)) stop st) as [r|] eqn:ER; [|discriminate].
      rewrite (IH f' _ r) by (lia || exact ER). exact H. }
    eapply MONO; eauto.
  Qed.

  Lemma pr_range : forall W sc fr params args start stop step l,
    all_passed W fr params args -> NoDup (keys params) ->
    given ["start"; "end"; "step"]%string ["end"]%string params = true ->
    whole_arg E funs fr "start" params = Some start -> whole_arg E funs fr "end" params = Some stop ->
    whole_arg E funs fr "step" params = Some step -> range_values start stop step = Some l ->
    promises W (fun m => range_plugin E (R m) m sc args) (map VDict (map (fun z => [("_value"%string, vint z)]) l)).
  Proof.
    intros W sc fr params args start stop step l HA ND G H1 H2 H3 HR.
    pose proof (passed_keys _ _ _ _ HA) as KE. rewrite (given_args _ _ _ _ KE) in G.
    set (g := fun f => obind (assoc (fp_name f) args) (fun v => option_map vint (to_int64 v))).
    assert (ARG : forall k z, whole_arg E funs fr k params = Some z ->
      match assoc k args with
      | None => z = 0%Z
      | Some v => plain v = true /\ to_int64 v = Some z
      end).
    { intros k z H. unfold whole_arg in H. pose proof (passed_assoc _ _ _ _ k HA) as A.
      destruct (assoc k params) as [a|], (assoc k args) as [v|]; try contradiction; [|congruence].
      apply obind_some in H as (x & Hx & H). pose proof (arg_value_plain _ _ _ Hx) as P.
      destruct a as [e|q|e|]; cbn [passed] in A; try discriminate;
        rewrite Hx in A; injection A as <-; auto. }
    pose proof (ARG _ _ H1) as A1. pose proof (ARG _ _ H2) as A2. pose proof (ARG _ _ H3) as A3. clear ARG.
    unfold range_plugin.
    eapply (pr_bind E owner _ _ W _ _ ([vint start; vint stop; vint step], None)).
    - replace ([vint start; vint stop; vint step], None)
        with (pparse g range_fields args [vint 0; vint 0; vint 0]).
      + apply pr_parse_args; [eapply no_star_args; [exact G|reflexivity]|].
        assert (COE : forall x z, plain x = true -> to_int64 x = Some z ->
                  promises W (fun m => coerce (r_reduce (R m)) (r_reduce_ws (R m) sc) (truth E (R m) sc) members
                    (fun a k => r_assoc (R m) sc a (KVal (VStr k))) (env_sprint E)
                    (to_stored_query (R m)) to_lazy_expr (row_to_dict (R m) sc) TInt64 x) (Some (vint z))).
        { intros x z PX Hx. replace (Some (vint z)) with (option_map vint (to_int64 x)) by now rewrite Hx.
          apply pr_coerce_int. now left. }
        unfold range_fields. constructor; [|constructor; [|constructor; [|constructor]]];
          cbn [field_ fp_name fp_type]; intros a Ha; unfold g; cbn [fp_name field_]; rewrite Ha; cbn [obind].
        * rewrite Ha in A1. destruct A1 as [P1 T1]. rewrite T1. cbn [option_map].
          split; [now apply COE|]. now intros v [= <-].
        * rewrite Ha in A2. destruct A2 as [P1 T1]. rewrite T1. cbn [option_map].
          split; [now apply COE|]. now intros v [= <-].
        * rewrite Ha in A3. destruct A3 as [P1 T1]. rewrite T1. cbn [option_map].
          split; [now apply COE|]. now intros v [= <-].
      + rewrite parsed_args.
        * unfold range_fields, g. cbn [fold_left field_ fp_name fp_idx].
          destruct (assoc "start"%string args) as [v1|], (assoc "end"%string args) as [v2|],
            (assoc "step"%string args) as [v3|]; cbn [obind];
            repeat match goal with H : _ /\ _ |- _ => destruct H as [_ ->] end; subst; reflexivity.
        * now rewrite KE.
        * cbn. repeat (constructor; [cbn; intuition discriminate|]). constructor.
        * exact G.
        * intros f HF. unfold range_fields in HF. unfold g.
          cbn in HF. destruct HF as [<-|[<-|[<-|[]]]]; cbn [fp_name field_]; intros HN.
          -- destruct (assoc "start"%string args); [|congruence]. destruct A1 as [_ A1]. cbn [obind]. now rewrite A1.
          -- destruct (assoc "end"%string args); [|congruence]. destruct A2 as [_ A2]. cbn [obind]. now rewrite A2.
          -- destruct (assoc "step"%string args); [|congruence]. destruct A3 as [_ A3]. cbn [obind]. now rewrite A3.
    - cbv beta iota. unfold vint at 1 2 3. cbv beta iota.
      destruct (range_values_loop _ _ _ _ HR) as (fuel & HF).
      intros W1 s HW HS. destruct (pr_ret E owner _ W (map VDict (map (fun z => [("_value"%string, vint z)]) l)) W1 s HW HS)
        as (W2 & s2 & X1 & X2 & X3 & N & X4).
      exists W2, s2. split; [exact X1|]. split; [exact X2|]. split; [exact X3|].
      exists (Nat.max fuel N). intros m Hm. rewrite (HF m) by lia. rewrite map_map. rewrite map_map in X4. apply (X4 m). lia.
  Qed.

  (** foreach() *)
  Lemma pr_to_lazy : forall A W v o (K : nat -> val -> EM A) b,
    promises W (fun _ => obj_of v) o -> is_lazy o = false ->
    (forall W' n, wle W W' -> W' n = Some (WObj (if is_query v o then OLazyQuery v else OLazyVal v)) ->
       promises W' (fun m => K m (VOpaque n)) b) ->
    promises W (fun m => x <- to_lazy_expr v ;; K m x) b.
  Proof.
    intros A W v o K b HO NL HK. unfold to_lazy_expr.
    eapply pr_ext; [intros m s; symmetry; apply mbind_assoc|].
    eapply (pr_bind E owner _ _ W (fun _ => obj_of v) _ o); [exact HO|]. cbv beta. rewrite NL.
    destruct (is_query v o); apply pr_alloc; exact HK.
  Qed.

  Lemma foreach_parse : forall m sc args v rest target s,
    assoc "**"%string args = None -> assoc "row"%string args = Some v ->
    parse_args E (R m) sc (field_ "row" 0 true TLazy :: rest) args target s =
    (x <- to_lazy_expr v ;;
     ('(parsed, target, err) <- parse_fields (r_reduce (R m)) (r_reduce_ws (R m) sc) (truth E (R m) sc) members
        (fun a k => r_assoc (R m) sc a (KVal (VStr k))) (env_sprint E)
        (to_stored_query (R m)) to_lazy_expr (row_to_dict (R m) sc) rest args ["row"%string] (set_field 0 x target) ;;
      match err with
      | Some e => mret (target, Some e)
      | None =>
          if Nat.eqb (List.length parsed) (List.length args) then mret (target, None)
          else mret (target, unexpected parsed (keys args))
      end)) s.
  Proof.
    intros m sc args v rest target s HS HR. unfold parse_args, extract_args, normalize_args. rewrite HS.
    match goal with |- mbind (mret args) ?k s = ?r => change (k args s = r) end. cbv beta.
    unfold parse. cbn [parse_fields field_ fp_name fp_type fp_idx fp_required]. rewrite HR. cbn [coerce app].
    unfold mbind, mret, to_lazy_expr, alloc, mbind, obj_of.
    destruct v as [| |b|k z|f|f|t|t| |l|d|l|n]; try reflexivity.
    destruct (nth_error (heap s) n) as [[]|]; reflexivity.
  Qed.

  Lemma pr_foreach : forall W sc fr params args a rows0 rows,
    scope_ok W sc fr -> need + S (sc_depth sc) < 1000 -> label_args params -> all_passed W fr params args ->
    NoDup (keys params) -> given ["row"; "query"]%string ["row"]%string params = true ->
    assoc "row"%string params = Some a ->
    match a with
    | ASelect q => subq fr q = Some rows0
    | _ => exists v, arg_value E funs fr a = Some v /\ iterate (env_iter E) v = map VDict rows0
    end ->
    match assoc "query"%string params with
    | None => Some rows0
    | Some (ASelect q) => all_rows (map (fun row => subq (row :: fr) q) rows0)
    | _ => None
    end = Some rows ->
    promises W (fun m => foreach_plugin E (R m) sc args) (map VDict rows).
  Proof.
    intros W sc fr params args a rows0 rows SC DP LA HA ND G HR HR0 HQ.
    pose proof (passed_keys _ _ _ _ HA) as KE. rewrite (given_args _ _ _ _ KE) in G.
    pose proof (passed_assoc _ _ _ _ "row"%string HA) as AR. rewrite HR in AR.
    pose proof (passed_assoc _ _ _ _ "query"%string HA) as AQ.
    destruct (assoc "row"%string args) as [rv|] eqn:ER; [|contradiction].
    pose proof (no_star_args _ _ _ G eq_refl) as NSA.
    assert (N3 : assoc "async"%string args = None) by (eapply given_only; [exact G|reflexivity]).
    assert (N4 : assoc "workers"%string args = None) by (eapply given_only; [exact G|reflexivity]).
    assert (N5 : assoc "column"%string args = None) by (eapply given_only; [exact G|reflexivity]).
    set (qv := match assoc "query"%string args with Some v => v | None => VNil end).
    (* the rows *)
    assert (ITER : exists o, promises W (fun _ => obj_of rv) o /\ is_lazy o = false /\
      forall W' n, wle W W' -> W' n = Some (WObj (if is_query rv o then OLazyQuery rv else OLazyVal rv)) ->
        promises W' (fun m => iterate_val E (R m) sc (VOpaque n)) (map VDict rows0)).
    { assert (RED : forall o W' n, W' n = Some (WObj (if is_query rv o then OLazyQuery rv else OLazyVal rv)) ->
                promises W' (fun m => r_reduce (R m) (VOpaque n)) rv).
      { intros o W' n Hn. apply pr_reduce. unfold reduce_step.
        eapply (pr_bind E owner _ _ W' (fun _ => obj_of (VOpaque n)) _ (Some _)); [apply pr_obj_world; exact Hn|].
        cbv beta iota. destruct (is_query rv o); apply pr_ret. }
      assert (PLAIN : forall v, arg_value E funs fr a = Some v -> rv = v -> iterate (env_iter E) v = map VDict rows0 ->
        exists o, promises W (fun _ => obj_of rv) o /\ is_lazy o = false /\
          forall W' n, wle W W' -> W' n = Some (WObj (if is_query rv o then OLazyQuery rv else OLazyVal rv)) ->
            promises W' (fun m => iterate_val E (R m) sc (VOpaque n)) (map VDict rows0)).
      { intros v HV -> IT. pose proof (arg_value_plain _ _ _ HV) as PV. exists None.
        split; [now apply pr_obj_of|]. split; [reflexivity|]. intros W' n HW Hn. unfold iterate_val.
        eapply (pr_bind E owner _ _ W' _ _ v); [exact (RED None W' n Hn)|]. cbv beta.
        eapply (pr_bind E owner _ _ W' (fun _ => obj_of v) _ None); [now apply pr_obj_of|]. cbv beta.
        rewrite is_query_none. destruct v; try (rewrite IT; apply pr_ret).
        cbn [iterate] in IT. rewrite IT. apply pr_query_plain. }
      destruct a as [e|q|e|].
      - destruct HR0 as (v & HV & IT). apply (PLAIN v HV); [cbn [passed] in AR; congruence|exact IT].
      - destruct AR as (n0 & -> & Hn0). exists (Some (OSelect q)).
        split; [now apply pr_obj_world|]. split; [reflexivity|]. intros W' n HW Hn.
        unfold iterate_val. eapply (pr_bind E owner _ _ W' _ _ (VOpaque n0)); [exact (RED (Some (OSelect q)) W' n Hn)|]. cbv beta.
        eapply (pr_bind E owner _ _ W' (fun _ => obj_of (VOpaque n0)) _ (Some (OSelect q)));
          [apply pr_obj_world; auto|]. cbn [is_query].
        eapply pr_query_obj; [exact (HW _ _ Hn0)|]. eapply SUBQ; eauto.
        + apply (label_assoc _ _ _ LA HR).
        + eapply scope_ok_weaken; eauto.
        + lia.
      - destruct HR0 as (v & HV & IT). apply (PLAIN v HV); [cbn [passed] in AR; congruence|exact IT].
      - destruct HR0 as (v & HV & IT). apply (PLAIN v HV); [cbn [passed] in AR; congruence|exact IT]. }
    destruct ITER as (o & HO & NL & ITER).
    unfold foreach_plugin, foreach_fields.
    eapply pr_ext.
    { intros m s. unfold mbind at 1. symmetry. rewrite (foreach_parse m sc args rv _ _ s NSA ER).
      apply (mbind_assoc _ _ _ (to_lazy_expr rv)). }
    apply (pr_to_lazy _ W rv o _ _ HO NL). intros W' n HW Hn. cbv beta.
    assert (QV : match assoc "query"%string params with
                 | Some (ASelect q) => exists n1, assoc "query"%string args = Some (VOpaque n1) /\
                                         W n1 = Some (WObj (OSelect q)) /\ lab_q q
                 | Some _ => False
                 | None => assoc "query"%string args = None
                 end).
    { destruct (assoc "query"%string params) as [[e|q|e|]|] eqn:EP; try discriminate.
      - destruct (assoc "query"%string args) as [v|]; [|contradiction]. destruct AQ as (n1 & -> & Hn1).
        exists n1. split; [reflexivity|]. split; [exact Hn1|]. apply (label_assoc _ _ _ LA EP).
      - destruct (assoc "query"%string args); [contradiction|reflexivity]. }
    eapply (pr_bind E owner _ _ W' _ _ ([VOpaque n; qv; VBool false; vint 0; VStr ""], None)).
    - eapply (pr_bind E owner _ _ W' _ _
               (pfields (fun f => assoc (fp_name f) args)
                  [field_ "query" 1 false TStored; field_ "async" 2 false TBool;
                   field_ "workers" 3 false TInt64; field_ "column" 4 false TString] args ["row"%string]
                  (set_field 0 (VOpaque n) [VNil; VNil; VBool false; vint 0; VStr ""]))).
      + apply pr_parse_fields.
        constructor; [|constructor; [|constructor; [|constructor; [|constructor]]]];
          cbn [field_ fp_name fp_type]; intros x Hx; try congruence.
        destruct (assoc "query"%string params) as [[e|q|e|]|]; try contradiction; [|congruence].
        destruct QV as (n1 & HQ1 & Hn1 & _). assert (x = VOpaque n1) by congruence. subst x. rewrite Hx.
        split; [apply pr_stored_coerce with (q := q); auto|]. now intros v [= <-].
      + cbv beta. cbn [pfields field_ fp_name fp_idx fp_required]. rewrite N3, N4, N5.
        assert (ONLY : forall parsed, (forall k, assoc k args <> None -> mem_str k parsed = true) ->
                  unexpected parsed (keys args) = None).
        { intros parsed H. apply unexpected_none. apply forallb_forall. intros k Hk. apply H.
          intros HN. apply assoc_none_keys in HN. apply mem_str_In in Hk. congruence. }
        assert (IN : forall k, assoc k args <> None -> k = "row"%string \/ k = "query"%string).
        { intros k Hk. destruct (mem_str k ["row"; "query"]%string) eqn:EM.
          - apply mem_str_In in EM. cbn in EM. intuition congruence.
          - exfalso. apply Hk. eapply given_only; [exact G|exact EM]. }
        unfold qv. destruct (assoc "query"%string args) as [v|] eqn:EQ; cbn [app set_field].
        * destruct (Nat.eqb _ _); [apply pr_ret|]. rewrite ONLY; [apply pr_ret|].
          intros k Hk. destruct (IN k Hk) as [-> | ->]; reflexivity.
        * destruct (Nat.eqb _ _); [apply pr_ret|]. rewrite ONLY; [apply pr_ret|].
          intros k Hk. destruct (IN k Hk) as [-> | ->]; [reflexivity|congruence].
    - cbv beta iota. eapply (pr_bind E owner _ _ W' _ _ (map VDict rows0)); [now apply ITER|]. cbv beta.
      unfold foreach_row. change (String.eqb "" "") with true. cbv iota.
      destruct (assoc "query"%string params) as [[e|q|e|]|] eqn:EP; try contradiction; try discriminate.
      + destruct QV as (n1 & HQ1 & Hn1 & LQ). unfold qv. rewrite HQ1.
        destruct (all_rows_inv _ _ _ _ HQ) as (ls & HL & ->).
        eapply (pr_bind E owner _ _ W' _ _ (map (map VDict) ls)).
        * apply pr_mmap. clear - HL SC DP HW Hn1 LQ SUBQ.
          induction HL as [|row l rows0 ls Hl _ IH]; [constructor|]. cbn [map]. constructor; [|exact IH].
          eapply (pr_bind E owner _ _ W' (fun _ => mret (VDict row)) _ (VDict row)); [apply pr_ret|]. cbv beta.
          eapply pr_query_obj; [exact (HW _ _ Hn1)|]. eapply SUBQ; [exact Hl|exact LQ| |].
          -- eapply scope_ok_weaken; [exact HW|].
             eapply (scope_push E owner W sc fr (VDict row) row (copy sc)); [exact SC|now left| |reflexivity].
             cbn [copy sc_depth]. lia.
          -- cbn [append_vars copy sc_depth]. lia.
        * rewrite concat_dicts. apply pr_ret.
      + unfold qv. rewrite QV. injection HQ as <-.
        eapply (pr_bind E owner _ _ W' _ _ (map (fun r => [VDict r]) rows0)).
        * apply pr_mmap. clear. induction rows0 as [|r rows IH]; [constructor|]. cbn [map]. constructor; [|exact IH].
          eapply (pr_bind E owner _ _ W' (fun _ => mret (VDict r)) _ (VDict r)); apply pr_ret.
        * replace (List.concat (map (fun r => [VDict r]) rows0)) with (map VDict rows0); [apply pr_ret|].
          clear. induction rows0 as [|r rows IH]; [reflexivity|]. cbn. now rewrite <- IH.
  Qed.

  (** FROM a variable *)
  Lemma from_var_ok : forall W sc fr x rows, scope_ok W sc fr -> Forall row_ok rows ->
    lookup fr x = VArr (map VDict rows) \/ lookup fr x = VQuery (map VDict rows) \/
    (exists d, lookup fr x = VDict d /\ rows = [d]) ->
    promises W (fun n => plugin_eval E (R n) n sc (Plugin [x] false [])) (map VDict rows).
  Proof.
    intros W sc fr x rows SC RO HX. pose proof (rows_plain rows RO) as PR.
    assert (PL : plain (lookup fr x) = true).
    { destruct HX as [-> | [-> | (d & -> & ->)]]; [exact PR|exact PR|].
      cbn [map forallb] in PR. now apply andb_true_iff in PR as [PR _]. }
    unfold plugin_eval. eapply (pr_bind E owner _ _ W _ _ (lookup fr x, true)).
    - unfold lookup_path. destruct (p_resolve E owner W sc fr x SC PL) as (p & F & HP).
      destruct F as [-> | [LN _]]; [|destruct HX as [HX | [HX | (d & HX & _)]]; congruence].
      eapply pr_bind; [exact HP|]. apply pr_ret.
    - cbv beta iota. cbn [negb].
      eapply pr_step; [intros; apply ev_evalsym; eassumption|]. unfold evalsym_step.
      destruct SC as [_ OV]. rewrite OV.
      eapply (pr_bind E owner _ _ W (fun _ => obj_of (lookup fr x)) _ None); [now apply pr_obj_of|].
      destruct HX as [-> | [-> | (d & -> & ->)]]; cbn [is_query arr_elems];
        [apply pr_ret|apply pr_query_plain|apply pr_ret].
  Qed.

  Definition label_from (p : plugin) : Prop := match p with Plugin _ _ args => label_args args end.

  Lemma all_rows_ok : forall A (f : A -> option (list dict)) l rows,
    (forall x r, f x = Some r -> Forall row_ok r) -> all_rows (map f l) = Some rows -> Forall row_ok rows.
  Proof.
    intros A f l rows HF H. apply all_rows_inv in H as (ls & HL & ->).
    induction HL; cbn [List.concat]; [constructor|]. apply Forall_app. split; eauto.
  Qed.

  Lemma source_rows : forall fr p rows, source E funs subq fr p = Some rows -> Forall row_ok rows.
  Proof.
    intros fr [names called params] rows H. cbn [source] in H.
    destruct names as [|name [|]]; try discriminate. destruct called.
    2:{ destruct params; [|discriminate]. now apply table_inv in H. }
    destruct (distinct (keys params)); [|discriminate]. cbn [negb] in H.
    destruct (assoc name (env_plugs E)) as [[| | | | | |]|]; try discriminate.
    - destruct (given _ _ params); [|discriminate].
      destruct (assoc "condition"%string params) as [c|]; [|discriminate].
      destruct (assoc "then"%string params) as [[| q | |]|]; try discriminate.
      apply obind_some in H as (cv & _ & H). apply obind_some in H as (els & _ & H).
      destruct (match cv with VNil => true | _ => false end); [discriminate|].
      destruct (truthy E cv); [eauto|]. destruct els as [q'|]; [eauto|]. injection H as <-. constructor.
    - eapply all_rows_ok; [|exact H]. intros [k [e|q|e|]] r Hr; try discriminate. cbn [snd] in Hr. eauto.
    - destruct (given _ _ params); [|discriminate]. apply obind_some in H as (rows0 & H0 & H).
      destruct (assoc "query"%string params) as [[e|q|e|]|]; try discriminate.
      + eapply all_rows_ok; [|exact H]. intros x r Hr. cbv beta in Hr. eauto.
      + injection H as <-. destruct (assoc "row"%string params) as [[e|q|e|]|]; try discriminate; eauto;
          apply obind_some in H0 as (v & _ & H0); now apply dicts_inv in H0.
    - destruct (given _ _ params); [|discriminate].
      destruct (assoc "query"%string params) as [[e|q|e|]|]; try discriminate.
      apply obind_some in H as (rows0 & _ & H). now apply dicts_inv in H.
    - destruct (given _ _ params); [|discriminate].
      apply obind_some in H as (start & _ & H). apply obind_some in H as (stop & _ & H).
      apply obind_some in H as (step & _ & H). apply omap_some in H as (l & _ & <-).
      apply Forall_forall. intros r HI. apply in_map_iff in HI as (z & <- & _).
      split; [|reflexivity]. constructor; [intros []|constructor].
  Qed.

  (** The arguments of the call are defined. *)
  Lemma args_defined : forall fr allowed required (params : list (string * argval)),
    NoDup (keys params) -> given allowed required params = true ->
    (forall k, In k allowed -> match assoc k params with
                               | Some (ASelect _) | None => True
                               | Some a => arg_value E funs fr a <> None
                               end) ->
    Forall (fun na => match snd na with ASelect _ => True | a => arg_value E funs fr a <> None end) params.
  Proof.
    intros fr allowed required params ND G H. apply Forall_forall. intros [k a] HI.
    pose proof (BaseProofs.in_assoc _ _ _ _ ND HI) as HA. cbn [snd].
    specialize (H k). rewrite HA in H.
    assert (IN : In k allowed).
    { destruct (mem_str k allowed) eqn:EM; [now apply mem_str_In|].
      rewrite (given_only _ _ _ _ _ G EM) in HA. discriminate. }
    specialize (H IN). destruct a; auto.
  Qed.

  Lemma source_ok : forall W sc fr p rows,
    source E funs subq fr p = Some rows -> label_from p -> scope_ok W sc fr -> need + S (sc_depth sc) < 1000 ->
    promises W (fun n => plugin_eval E (R n) n sc p) (map VDict rows).
  Proof.
    intros W sc fr p rows H LF SC DP. pose proof (source_rows _ _ _ H) as RO.
    destruct p as [names called params]. cbn [source label_from] in *.
    destruct names as [|name [|]]; try discriminate. destruct called.
    2:{ destruct params; [|discriminate]. apply table_inv in H as [HX _]. now apply from_var_ok with (fr := fr). }
    destruct (distinct (keys params)) eqn:ND; [|discriminate]. cbn [negb] in H. apply distinct_nodup in ND.
    destruct (assoc name (env_plugs E)) as [pl|] eqn:EP; [|discriminate].
    assert (CALL : Forall (fun na => match snd na with ASelect _ => True | a => arg_value E funs fr a <> None end) params ->
              (forall W' args, wle W W' -> all_passed W' fr params args ->
                 promises W' (fun m => call_plugin E (R m) m sc pl args) (map VDict rows)) ->
              promises W (fun n => plugin_eval E (R n) n sc (Plugin [name] true params)) (map VDict rows)).
    { intros DA HK. unfold plugin_eval. rewrite EP. destruct SC as [SV OV]. rewrite OV.
      apply (pr_build _ fr sc params LF DA W [] []).
      - split; assumption.
      - constructor.
      - exact ND.
      - exact HK. }
    destruct pl; try discriminate.
    - (* if *)
      destruct (given _ _ params) eqn:G; [|discriminate].
      destruct (assoc "condition"%string params) as [c|] eqn:EC; [|discriminate].
      destruct (assoc "then"%string params) as [[| q | |]|] eqn:ET; try discriminate.
      apply obind_some in H as (cv & HV & H). apply obind_some in H as (els & HE & H).
      assert (NV : cv <> VNil) by (intros ->; discriminate).
      replace (match cv with VNil => true | _ => false end) with false in H by (destruct cv; congruence).
      apply CALL.
      + eapply args_defined; [exact ND|exact G|]. intros k [<-|[<-|[<-|[]]]].
        * rewrite EC. destruct c; auto; congruence.
        * now rewrite ET.
        * destruct (assoc "else"%string params) as [[| | |]|]; auto; discriminate.
      + intros W' args HW HA. cbn [call_plugin].
        eapply pr_if; eauto. eapply scope_ok_weaken; eauto.
    - (* chain *)
      apply CALL.
      + destruct (all_rows_inv _ _ _ _ H) as (ls & HL & _).
        clear - HL. induction HL as [|[k a] r params ls Hx _ IH]; constructor; [|exact IH].
        cbn [snd] in *. destruct a; auto; discriminate.
      + intros W' args HW HA. cbn [call_plugin]. eapply pr_chain; eauto. eapply scope_ok_weaken; eauto.
    - (* foreach *)
      destruct (given _ _ params) eqn:G; [|discriminate].
      apply obind_some in H as (rows0 & H0 & H).
      destruct (assoc "row"%string params) as [a|] eqn:ER; [|discriminate].
      apply CALL.
      + eapply args_defined; [exact ND|exact G|]. intros k [<-|[<-|[]]].
        * rewrite ER. destruct a; auto; apply obind_some in H0 as (v & HV & _); congruence.
        * destruct (assoc "query"%string params) as [[| | |]|]; auto; discriminate.
      + intros W' args HW HA. cbn [call_plugin]. eapply (pr_foreach W' sc fr params args a rows0 rows); eauto.
        * eapply scope_ok_weaken; eauto.
        * destruct a as [e|q|e|]; [|exact H0| |];
            (apply obind_some in H0 as (v & HV & H0); exists v; split; [exact HV|]; now apply dicts_inv in H0).
    - (* flatten *)
      destruct (given _ _ params) eqn:G; [|discriminate].
      destruct (assoc "query"%string params) as [[e|q|e|]|] eqn:EQ; try discriminate.
      apply obind_some in H as (rows0 & H0 & H). apply dicts_inv in H as [H _].
      apply CALL.
      + eapply args_defined; [exact ND|exact G|]. intros k [<-|[]]. now rewrite EQ.
      + intros W' args HW HA. cbn [call_plugin].
        rewrite <- H. eapply pr_flatten; eauto. eapply scope_ok_weaken; eauto.
    - (* range *)
      destruct (given _ _ params) eqn:G; [|discriminate].
      apply obind_some in H as (start & H1 & H). apply obind_some in H as (stop & H2 & H).
      apply obind_some in H as (step & H3 & H). apply omap_some in H as (l & HL & <-).
      apply CALL.
      + eapply args_defined; [exact ND|exact G|].
        assert (W0 : forall k z, whole_arg E funs fr k params = Some z ->
                  match assoc k params with
                  | Some (ASelect _) | None => True
                  | Some a => arg_value E funs fr a <> None
                  end).
        { intros k z HZ. unfold whole_arg in HZ. destruct (assoc k params) as [a|]; [|exact I].
          apply obind_some in HZ as (v & HV & _). destruct a; auto; congruence. }
        intros k [<-|[<-|[<-|[]]]]; [exact (W0 _ _ H1)|exact (W0 _ _ H2)|exact (W0 _ _ H3)].
      + intros W' args HW HA. cbn [call_plugin]. eapply pr_range; eauto.
  Qed.
End From.

Section Queries.
  Variable E : env.
  Variable funs : string -> option (dict -> option val).
  Variable owner : nat -> string.
  Hypothesis FOK : funs_ok E funs.
  Notation R := (ev E).
  Notation promises := (promises E owner).
  Notation scope_ok := (scope_ok E owner).

  (** The call nodes of the query are labelled with the functions they call. *)
  Fixpoint label_query (depth : nat) (q : select) : Prop :=
    match depth, q with
    | S depth, Select _ cols from where_ _ _ _ =>
        label_columns owner (label_query depth) cols /\ label_where owner where_ /\
        label_from owner (label_query depth) from
    | O, _ => True
    end.

  Lemma nodup_set : forall A k (v : A) d, NoDup (keys d) -> NoDup (keys (dict_set k v d)).
  Proof.
    intros A k v d H. unfold dict_set, keys in *. rewrite map_app.
    assert (NI : ~ In k (map fst (remove_key k d))).
    { clear. induction d as [|[k1 v1] d IH]; [auto|]. cbn. destruct (String.eqb k k1) eqn:EK; [exact IH|].
      cbn. intros [->|HI]; [now rewrite String.eqb_refl in EK|auto]. }
    assert (NR : NoDup (map fst (remove_key k d))).
    { clear NI. induction d as [|[k1 v1] d IH]; [constructor|]. cbn in H. inversion H as [|? ? N1 N2]; subst.
      cbn. destruct (String.eqb k k1); [auto|]. cbn. constructor; [|auto]. intros HI. apply N1.
      clear - HI. induction d as [|[k2 v2] d IH]; [contradiction|]. cbn in HI.
      destruct (String.eqb k k2); cbn in *; tauto. }
    cbn. clear - NI NR. induction (map fst (remove_key k d)) as [|x l IH]; cbn.
    - constructor; [auto|constructor].
    - inversion NR; subst. constructor.
      + rewrite in_app_iff. intros [HI|[<-|[]]]; [contradiction|]. apply NI. now left.
      + apply IH; [intros HI; apply NI; now right|assumption].
  Qed.

  Lemma keys_fields : forall row, keys (fields row) = keys row.
  Proof. intros row. unfold keys, fields. rewrite map_map. reflexivity. Qed.

  Lemma columns_nodup : forall subq fr row, NoDup (keys row) ->
    forall cols acc out, NoDup (keys acc) ->
    columns E funs subq fr row cols acc = Some out -> NoDup (keys out).
  Proof.
    intros subq fr row NR cols. induction cols as [|[name body] cols IH]; intros acc out NA H; cbn [columns] in H.
    - congruence.
    - destruct (String.eqb name "*").
      + eapply IH; [|exact H]. unfold keys. rewrite map_app. fold (keys acc).
        rewrite <- (keys_fields row) in NR. clear - NR NA. induction (fields row) as [|[k v] d IHd].
        * cbn. now rewrite app_nil_r.
        * cbn [keys map fst] in NR. inversion NR as [|? ? NI ND]; subst. specialize (IHd ND).
          cbn [filter fst]. destruct (mem_str k (keys acc)) eqn:EM; cbn [negb]; [exact IHd|].
          cbn [map fst]. apply (NoDup_Add (Add_app k _ _)). split; [exact IHd|].
          intros HI. apply in_app_or in HI as [HI|HI].
          -- apply mem_str_In in HI. congruence.
          -- apply NI. apply in_map_iff in HI as (kv & HK & HI). apply filter_In in HI as [HI _].
             unfold keys. apply in_map_iff. eauto.
      + apply obind_some in H as (v & Hv & H). eapply IH; [|exact H]. now apply nodup_set.
  Qed.

  Lemma select_rows_rows : forall subq,
    (forall fr q rows, subq fr q = Some rows -> forallb plain (map VDict rows) = true) ->
    forall fr star cols where_ rows out, Forall row_ok rows ->
    select_rows E funs subq fr star cols where_ rows = Some out -> Forall row_ok out.
  Proof.
    intros subq SP fr star cols where_ rows out RO. revert out.
    induction RO as [|row rows Hr _ IH]; intros out HO; cbn [select_rows] in HO.
    - injection HO as <-. constructor.
    - apply obind_some in HO as (o & Ho & HO). apply obind_some in HO as (keep & Hk & HO).
      apply omap_some in HO as (rest & Hrest & <-). specialize (IH rest Hrest).
      destruct keep; [|exact IH]. constructor; [|exact IH]. split.
      + unfold project in Ho. eapply columns_nodup; [apply Hr| |exact Ho].
        destruct star; [rewrite keys_fields; apply Hr|constructor].
      + eapply project_plain; [exact SP|apply Hr|exact Ho].
  Qed.

  Lemma query_rows_rows : forall depth fr q rows,
    query_rows E funs depth fr q = Some rows -> Forall row_ok rows.
  Proof.
    induction depth as [|depth IH]; intros fr [star cols from where_ groupby orderby limit] rows H; [discriminate|].
    cbn [query_rows] in H. destruct groupby; try discriminate.
    apply obind_some in H as (tab & HT & H). apply obind_some in H as (out & HO & H).
    apply obind_some in H as (out2 & HB & H). apply (source_rows E funs _ IH) in HT.
    assert (P : Forall row_ok out).
    { eapply select_rows_rows; [|exact HT|exact HO]. intros. apply rows_plain. eauto. }
    assert (P2 : Forall row_ok out2).
    { destruct orderby as [[key desc]|]; [|injection HB as <-; exact P]. now apply dicts_inv in HB. }
    destruct limit as [n|]; [|injection H as <-; exact P2].
    destruct (Z.leb 1 n); [|discriminate]. injection H as <-.
    clear - P2. generalize (Z.to_nat n). intros k. revert k. induction P2; intros [|k]; cbn [firstn]; constructor; auto.
  Qed.

  Lemma query_rows_plain : forall depth fr q rows,
    query_rows E funs depth fr q = Some rows -> forallb plain (map VDict rows) = true.
  Proof. intros depth fr q rows H. apply rows_plain. eapply query_rows_rows; eauto. Qed.

  Lemma pr_found_keys : forall W sc key rows, forallb plain (map VDict rows) = true ->
    promises W (fun n => mmap (fun r => r_assoc (R n) sc r (KVal (VStr key))) (map VDict rows))
      (map (found_key key) rows).
  Proof.
    intros W sc key rows H. apply pr_mmap. induction rows as [|row rows IH]; [constructor|].
    cbn [map forallb] in H. apply andb_true_iff in H as [PR H]. cbn [map]. constructor; [|auto].
    pose proof (p_frame E owner W sc (VDict row) row key (or_introl eq_refl)) as A.
    unfold found_key. destruct (assoc key row) as [v|] eqn:EK; apply A; [|discriminate].
    intros y [= <-]. apply plain_or_null. eapply plain_assoc; eauto.
  Qed.

  Lemma query_rows_ok : forall depth W sc fr q rows,
    query_rows E funs depth fr q = Some rows -> label_query depth q ->
    scope_ok W sc fr -> 2 * depth + sc_depth sc < 1000 ->
    promises W (fun n => r_select (R n) sc q) (map VDict rows).
  Proof.
    induction depth as [|depth IH];
      intros W sc fr [star cols from where_ groupby orderby limit] rows H LQ SC RM;
      [discriminate|].
    cbn [query_rows] in H. destruct groupby; try discriminate.
    apply obind_some in H as (tab & HT & H). apply obind_some in H as (out & HO & H).
    apply obind_some in H as (out2 & HB & H).
    pose proof (source_rows E funs _ (query_rows_rows depth) _ _ _ HT) as RO.
    cbn [label_query] in LQ. destruct LQ as (LC & LW & LF).
    assert (PO : forallb plain (map VDict out) = true).
    { apply rows_plain. eapply select_rows_rows; [apply query_rows_plain|exact RO|exact HO]. }
    assert (P1 : promises W (fun n => r_select (R n) sc
                    (Select star cols from where_ None None None)) (map VDict out)).
    { eapply pr_step; [intros; apply ev_select; eassumption|]. cbn [select_step].
      eapply pr_bind.
      { eapply (source_ok E funs owner FOK (query_rows E funs depth) (label_query depth) (2 * depth)
                  (query_rows_rows depth) IH); eauto. lia. }
      eapply (rows_ok E funs owner FOK (query_rows E funs depth) (label_query depth) (2 * depth)
                (query_rows_plain depth) IH); eauto. lia. }
    assert (P2 : promises W (fun n => r_select (R n) sc
                    (Select star cols from where_ None orderby None)) (map VDict out2)).
    { destruct orderby as [[key desc]|]; [|injection HB as <-; exact P1].
      eapply pr_step; [intros; apply ev_select; eassumption|]. cbn [select_step].
      eapply pr_bind; [exact P1|]. unfold sort_rows.
      eapply (pr_bind E owner _ _ W _ _ (map (found_key key) out)); [now apply pr_found_keys|].
      replace (combine (map (found_key key) out) (map VDict out))
        with (map (fun r => (found_key key r, VDict r)) out)
        by (clear; induction out as [|r out IH]; [reflexivity|]; cbn; now rewrite IH).
      apply dicts_inv in HB as [-> _]. apply pr_ret. }
    destruct limit as [n|]; [|injection H as <-; exact P2].
    destruct (Z.leb 1 n) eqn:EN; [|discriminate]. injection H as <-. apply Z.leb_le in EN.
    eapply pr_step; [intros; apply ev_select; eassumption|]. cbn [select_step].
    eapply pr_bind; [exact P2|]. replace (Z.max 1 n) with n by lia.
    rewrite firstn_map. apply pr_ret.
  Qed.
End Queries.
