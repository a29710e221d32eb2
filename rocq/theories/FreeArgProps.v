(** C47, functions that take declared and any other arguments: what remains
    after the declared ones were extracted. *)

From Coq Require Import ZArith List String Ascii Bool Lia.
From Verif Require Import Base F64 BaseProofs Value Protocols Monad ArgParser ArgParserProps.
Import ListNotations.
Open Scope nat_scope.
Open Scope string_scope.
Open Scope list_scope.

Lemma collect_filter : forall (p : string -> bool) (args d : list (string * val)),
  NoDup (keys d ++ keys args) ->
  fold_left (fun d kv => if p (fst kv) then d else dict_set (fst kv) (snd kv) d) args d =
  d ++ filter (fun kv => negb (p (fst kv))) args.
Proof.
  intros p args. induction args as [|[k v] args IH]; intros d N; [cbn; now rewrite app_nil_r|].
  cbn [fold_left filter fst snd keys map] in *.
  destruct (p k); cbn [negb].
  - apply IH. change (k :: map fst args) with ([k] ++ keys args) in N. apply NoDup_remove_1 in N. exact N.
  - rewrite IH.
    + unfold dict_set. replace (remove_key k d) with d.
      * now rewrite <- app_assoc.
      * symmetry. apply NoDup_remove_2 in N. clear -N. induction d as [|[k' w] d IH]; [reflexivity|].
        cbn [remove_key filter keys map fst app] in *. unfold remove_key in *. cbn [filter fst].
        destruct (String.eqb_spec k k') as [->|E]; [exfalso; apply N; now left|].
        cbn [negb]. f_equal. apply IH. intros I. apply N. now right.
    + unfold dict_set. replace (keys (remove_key k d ++ [(k, v)])) with (keys d ++ [k]).
      * rewrite <- app_assoc. exact N.
      * unfold keys. rewrite map_app. cbn [map fst]. f_equal.
        apply NoDup_remove_2 in N. clear -N. unfold keys in N. induction d as [|[k' w] d IH]; [reflexivity|].
        unfold remove_key in *. cbn [filter map fst app] in *.
        destruct (String.eqb_spec k k') as [->|E]; [exfalso; apply N; now left|].
        cbn [negb map fst]. f_equal. apply IH. intros I. apply N. now right.
Qed.

Section Parser.
  Context {S : Type}.
  Variable reduce reduce_ws : val -> M S val.
  Variable truth : val -> M S bool.
  Variable members : val -> M S (list string).
  Variable associative : val -> string -> M S (val * bool).
  Variable sprint : val -> string.
  Variable to_stored_query to_lazy_expr row_to_dict : val -> M S val.

  Notation coerce := (coerce reduce reduce_ws truth members associative sprint
                        to_stored_query to_lazy_expr row_to_dict).
  Notation parse_fields := (parse_fields reduce reduce_ws truth members associative sprint
                        to_stored_query to_lazy_expr row_to_dict).
  Notation parse_free_form := (parse_free_form reduce reduce_ws truth members associative sprint
                        to_stored_query to_lazy_expr row_to_dict).

  (** Success means: every required field was supplied and holds its coerced
      value, other fields are untouched, and the other dict is made of exactly
      the arguments whose names are not declared, in the order given. *)
  Theorem C47_free_form : forall decl fields args target s s' target' d,
    build_parser 0 decl = Ok (Some fields) ->
    List.length target = List.length decl ->
    NoDup (map fp_name fields) ->
    NoDup (keys args) ->
    parse_free_form fields args target s = (s', RVal (target', inr d)) ->
    (forall f, In f fields -> fp_required f = true -> In (fp_name f) (keys args)) /\
    (forall f v, In f fields -> assoc (fp_name f) args = Some v ->
       exists s1 s2 w, coerce (fp_type f) v s1 = (s2, RVal (Some w)) /\
                       nth (fp_idx f) target' VNil = w) /\
    (forall i, (forall f, In f fields -> In (fp_name f) (keys args) -> fp_idx f <> i) ->
       nth i target' VNil = nth i target VNil) /\
    exists s1,
      row_to_dict (VDict (filter (fun kv => negb (existsb (String.eqb (fst kv)) (map fp_name fields))) args)) s1
      = (s', RVal d).
  Proof.
    intros decl fields args target s s' target' d Hd Hlen Hnames Hkeys H.
    destruct (build_parser_idx _ _ _ Hd) as [Hidx Hbound].
    unfold ArgParser.parse_free_form, mbind in H.
    destruct (parse_fields fields args [] target s) as [s1 [[[parsed t1] err]| |]] eqn:E; try discriminate.
    destruct err as [e|]; [discriminate|].
    assert (Hb : Forall (fun f => fp_idx f < List.length target) fields).
    { eapply Forall_impl; [|exact Hbound]. simpl; intros; lia. }
    destruct (parse_fields_ok _ _ _ _ _ _ _ _ _ _ _ _ _ _ _ _ _ Hidx Hb E) as (Hp & Hl & Hr & Hs & Ho).
    simpl in Hp.
    assert (Hdecl : forall k, In k (keys args) -> mem_str k parsed = existsb (String.eqb k) (map fp_name fields)).
    { intros k Hk. apply Bool.eq_true_iff_eq. rewrite mem_str_in, existsb_exists. rewrite Hp. split.
      - intros I. apply in_map_iff in I. destruct I as (f & <- & I). apply filter_In in I.
        exists (fp_name f). split; [apply in_map; tauto | apply String.eqb_refl].
      - intros (x & I & Ex). apply String.eqb_eq in Ex. subst x. apply in_map_iff in I.
        destruct I as (f & <- & I). apply in_map_iff. exists f. split; [reflexivity|].
        apply filter_In. split; [exact I|]. now apply mem_str_in. }
    assert (K : (if Nat.eqb (List.length parsed) (List.length args) then []
          else fold_left (fun d kv => if mem_str (fst kv) parsed then d
                                      else dict_set (fst kv) (snd kv) d) args [])
        = filter (fun kv => negb (existsb (String.eqb (fst kv)) (map fp_name fields))) args).
    { assert (F : filter (fun kv => negb (mem_str (fst kv) parsed)) args =
                  filter (fun kv => negb (existsb (String.eqb (fst kv)) (map fp_name fields))) args).
      { apply filter_ext_in. intros kv I. f_equal. apply Hdecl. now apply in_map. }
      rewrite <- F. destruct (Nat.eqb_spec (List.length parsed) (List.length args)) as [El|El].
      - assert (Hnd : NoDup parsed).
        { rewrite Hp. clear -Hnames. induction fields as [|f fields IH]; simpl; [constructor|].
          inversion Hnames; subst. destruct (mem_str (fp_name f) (keys args)); auto.
          simpl. constructor; auto. intros Hin. apply in_map_iff in Hin.
          destruct Hin as (g & Eg & Hg). apply filter_In in Hg. apply H1. apply in_map_iff. exists g. tauto. }
        assert (Hsub : incl parsed (keys args)).
        { intros k Hk. rewrite Hp in Hk. apply in_map_iff in Hk. destruct Hk as (f & <- & Hf).
          apply filter_In in Hf. apply mem_str_in. tauto. }
        assert (All : incl (keys args) parsed).
        { apply (NoDup_length_incl Hnd); auto. unfold keys. rewrite map_length. lia. }
        assert (G : forall l, incl l args -> filter (fun kv : string * val => negb (mem_str (fst kv) parsed)) l = []).
        { induction l as [|kv l IH]; intros I; [reflexivity|]. cbn [filter].
          replace (mem_str (fst kv) parsed) with true.
          - cbn [negb]. apply IH. intros x Hx. apply I. now right.
          - symmetry. apply mem_str_in. apply All. apply in_map. apply I. now left. }
        symmetry. apply G. apply incl_refl.
      - rewrite (collect_filter (fun k => mem_str k parsed)); [reflexivity | exact Hkeys]. }
    rewrite K in H.
    match type of H with match ?X with _ => _ end = _ => destruct X as [s2 [d2| |]] eqn:Er; try discriminate end.
    injection H as <- <- <-.
    repeat split; auto. exists s1. exact Er.
  Qed.
End Parser.

Example free_form_example :
  parse_free_form (S := unit) mret mret (fun v => mret (bool_disp [] v)) pure_members pure_assoc pure_print
        mret mret mret range_fields
        [("x", vint 7); ("end", vint 5); ("y", VStr "b"); ("step", vint 2)] [vint 0; vint 0; vint 0] tt =
  (tt, RVal ([vint 0; vint 5; vint 2], inr (VDict [("x", vint 7); ("y", VStr "b")]))).
Proof. vm_compute. reflexivity. Qed.

Print Assumptions C47_free_form.
