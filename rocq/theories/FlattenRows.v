(** C35: rows that are not dictionaries are flattened as the dictionary of
    their members. *)

From Coq Require Import ZArith List String Ascii Bool Lia.
From Verif Require Import Base BaseProofs F64 Value Protocols Monad Syntax Scope ArgParser Builtins Flatten Eval Demo.
Import ListNotations.
Open Scope nat_scope.
Open Scope string_scope.
Open Scope list_scope.

Lemma set_all_absent : forall (l d : list (string * val)), NoDup (keys d ++ keys l) ->
  fold_left (fun d kv => dict_set (fst kv) (snd kv) d) l d = d ++ l.
Proof.
  induction l as [|[k v] l IH]; intros d N; [cbn; now rewrite app_nil_r|].
  cbn [fold_left fst snd keys map] in *.
  assert (R : remove_key k d = d).
  { apply NoDup_remove_2 in N. clear -N. induction d as [|[k' w] d IH]; [reflexivity|].
    unfold remove_key in *. cbn [filter keys map fst app] in *.
    destruct (String.eqb_spec k k') as [->|E]; [exfalso; apply N; now left|].
    cbn [negb]. f_equal. apply IH. intros I. apply N. now right. }
  rewrite IH; unfold dict_set; rewrite R; [now rewrite <- app_assoc|].
  unfold keys. rewrite map_app. cbn [map fst]. rewrite <- app_assoc. exact N.
Qed.

Theorem C35_object_rows : forall R sc item (member : string -> val * bool) ms s,
  (forall d, item <> VDict d) ->
  members_of (heap s) item = ms ->
  NoDup ms ->
  (forall m, In m ms -> r_assoc R sc item (KVal (VStr m)) s = (s, RVal (member m))) ->
  make_dict R sc item s =
  (s, RVal (map (fun m => (m, fst (member m))) (filter (fun m => snd (member m)) ms))).
Proof.
  intros R sc item member ms s ND EM N H.
  assert (L : forall l, incl l ms ->
    mmap (fun m => mbind (r_assoc R sc item (KVal (VStr m)))
                     (fun '(v, pres) => mret (if pres then [(m, v)] else []))) l s =
    (s, RVal (map (fun m => if snd (member m) then [(m, fst (member m))] else []) l))).
  { induction l as [|m l IH]; intros I; [reflexivity|].
    cbn [mmap map]. unfold mbind at 1 2. rewrite H by (apply I; now left).
    destruct (member m) as [v pres]. cbn [fst snd]. unfold mret at 1. unfold mbind.
    unfold mbind in IH. rewrite IH by (intros x Hx; apply I; now right). reflexivity. }
  assert (C : forall l, List.concat (map (fun m => if snd (member m) then [(m, fst (member m))] else []) l) =
                        map (fun m => (m, fst (member m))) (filter (fun m => snd (member m)) l)).
  { induction l as [|m l IH]; [reflexivity|]. cbn [map List.concat filter].
    destruct (snd (member m)); cbn [map app]; now rewrite IH. }
  unfold make_dict. destruct item eqn:Ei;
    try (exfalso; eapply ND; reflexivity);
    (unfold members, mbind at 1; rewrite EM; unfold mbind at 1; rewrite (L ms (incl_refl _));
     unfold mret; rewrite C, set_all_absent;
     [reflexivity
     | cbn [keys app]; unfold keys; rewrite map_map; cbn [fst]; rewrite map_id; apply NoDup_filter; exact N]).
Qed.

(** A lazy row, of which one column cannot be computed; the list of rows. *)
Example object_row :
  let s := set_heap [ORow ["a"; "b"; "c"] [] [("a", vint 1); ("c", VArr [vint 2; vint 3])]] st0 in
  let member m := if String.eqb m "a" then (vint 1, true)
                  else if String.eqb m "c" then (VArr [vint 2; vint 3], true) else (VNull, false) in
  (forall m, In m ["a"; "b"; "c"] ->
     r_assoc (ev demo_env 3) (copy scope0) (VOpaque 0) (KVal (VStr m)) s = (s, RVal (member m))) /\
  make_dict (ev demo_env 3) (copy scope0) (VOpaque 0) s =
    (s, RVal [("a", vint 1); ("c", VArr [vint 2; vint 3])]) /\
  make_dict (ev demo_env 3) (copy scope0) (VArr [VDict [("x", vint 1)]; VDict [("x", vint 2)]]) s =
    (s, RVal [("x", VArr [vint 1; vint 2])]).
Proof.
  split; [intros m [<-|[<-|[<-|[]]]]; vm_compute; reflexivity|]. vm_compute. split; reflexivity.
Qed.

Print Assumptions C35_object_rows.
