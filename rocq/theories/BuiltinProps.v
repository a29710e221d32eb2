(** The built in functions: get() (C65), split() (C66), timestamp() (C67),
    encode() (C68), dict() (C69).

    Arguments are expressions of the pure fragment ([den], PureSpec.v); the
    calls are run by the evaluator of Eval.v in any state. *)

From Coq Require Import ZArith List String Ascii Bool Lia PeanoNat.
From Verif Require Import Base BaseProofs F64 Value Protocols OpsProofs Monad Chains Range Flatten
  ArgParser Numeral Builtins Syntax Eval Runs Para GoSort PureSpec PureEval PureSelect SelectProps Effects Demo.
Import ListNotations.
Open Scope nat_scope.
Open Scope list_scope.
Open Scope string_scope.

(** The expression, evaluated in this scope and state, has this value. *)
Definition reads (E : env) (sc : scope) (e : expr) (s s' : st) (v : val) : Prop :=
  evaluates (fun n => r_expr (ev E n) sc e) s s' v.

(** ** Texts *)

Lemma sapp_assoc : forall a b c : string, (a ++ b) ++ c = a ++ b ++ c.
Proof. induction a as [|x a IH]; intros b c; cbn; [reflexivity|]. now rewrite IH. Qed.
Lemma sapp_nil : forall a : string, a ++ "" = a.
Proof. induction a as [|x a IH]; cbn; [reflexivity|]. now rewrite IH. Qed.
Lemma slen_app : forall a b : string, String.length (a ++ b) = String.length a + String.length b.
Proof. induction a as [|x a IH]; intros b; cbn; [reflexivity|]. now rewrite IH. Qed.
Lemma slen_zero : forall a, String.length a = 0 -> a = "".
Proof. destruct a; [reflexivity|discriminate]. Qed.
Lemma sapp_inv : forall a b c d : string, a ++ b = c ++ d -> String.length a <= String.length c ->
  exists e, c = a ++ e /\ b = e ++ d.
Proof.
  induction a as [|x a IH]; intros b c d H L; cbn in *; [exists c; auto|].
  destruct c as [|y c]; [cbn in L; lia|]. cbn in *. injection H as -> H.
  destruct (IH b c d H ltac:(lia)) as (e & -> & ->). exists e. auto.
Qed.
Lemma sapp_cancel : forall a b c : string, a ++ b = a ++ c -> b = c.
Proof. induction a as [|x a IH]; intros b c H; cbn in H; [exact H|]. injection H as H. auto. Qed.

Notation prefixb_iff := str_prefixb_spec.

(** ** C66: split() *)

(** The pieces [l], one after the other with the separator between them. *)
Fixpoint joined (sep : string) (l : list string) : string :=
  match l with
  | [] => ""
  | [p] => p
  | p :: rest => p ++ sep ++ joined sep rest
  end.

(** The separator is nowhere in the text. *)
Definition absent (sep s : string) : Prop := forall a b, s <> a ++ sep ++ b.

(** The first separator of [s ++ sep] is the one at its end. *)
Definition first_at_end (sep s : string) : Prop := forall a b, s ++ sep = a ++ sep ++ b -> b = "".

(** Pieces of a text cut at each separator, from the left. *)
Fixpoint pieces (sep : string) (l : list string) : Prop :=
  match l with
  | [] => False
  | [p] => absent sep p
  | p :: rest => first_at_end sep p /\ pieces sep rest
  end.

Lemma first_absent : forall sep p, first_at_end sep p -> sep <> "" -> absent sep p.
Proof.
  intros sep p H NE a b ->. specialize (H a (b ++ sep)). rewrite !sapp_assoc in H.
  specialize (H eq_refl). apply (f_equal String.length) in H. rewrite slen_app in H. cbn in H.
  apply NE. apply slen_zero. lia.
Qed.

(** No piece contains the separator. *)
Lemma pieces_absent : forall sep l, sep <> "" -> pieces sep l -> Forall (absent sep) l.
Proof.
  intros sep l NE. induction l as [|p l IH]; [intros []|]. intros H.
  destruct l as [|q l]; cbn [pieces] in H.
  - constructor; [exact H|constructor].
  - destruct H as [H1 H2]. constructor; [now apply first_absent|now apply IH].
Qed.

Lemma first_unique : forall sep p p' x y, first_at_end sep p' ->
  p ++ sep ++ x = p' ++ sep ++ y -> String.length p <= String.length p' -> p = p'.
Proof.
  intros sep p p' x y H EQ L. destruct (sapp_inv _ _ _ _ EQ L) as (d & -> & EX).
  rewrite <- sapp_assoc in EX.
  destruct (sapp_inv sep x (d ++ sep) y EX) as (b & EB & _); [rewrite slen_app; lia|].
  assert (b = "") as ->; [apply (H p b); now rewrite sapp_assoc, EB|].
  apply (f_equal String.length) in EB. rewrite !slen_app in EB. cbn in EB.
  assert (d = "") as -> by (apply slen_zero; lia). now rewrite sapp_nil.
Qed.

Lemma pieces_unique : forall sep l l', pieces sep l -> pieces sep l' ->
  joined sep l = joined sep l' -> l = l'.
Proof.
  intros sep l. induction l as [|p l IH]; [intros l' []|]. intros l' H H' J.
  destruct l' as [|p' l']; [destruct H'|].
  destruct l as [|q l]; destruct l' as [|q' l'].
  - cbn in J. now subst.
  - exfalso. change (p = p' ++ sep ++ joined sep (q' :: l')) in J. exact (H _ _ J).
  - exfalso. change (p ++ sep ++ joined sep (q :: l) = p') in J. symmetry in J. exact (H' _ _ J).
  - change (p ++ sep ++ joined sep (q :: l) = p' ++ sep ++ joined sep (q' :: l')) in J.
    destruct H as [H1 H2]. destruct H' as [H1' H2'].
    assert (p = p') as ->.
    { destruct (Nat.le_ge_cases (String.length p) (String.length p')) as [L|L].
      - eapply first_unique; eauto.
      - symmetry. eapply first_unique; [exact H1|symmetry; exact J|exact L]. }
    f_equal. apply IH; [exact H2|exact H2'|]. apply sapp_cancel in J. now apply sapp_cancel in J.
Qed.

Lemma skip_over : forall sep a r, split_skip sep (String.length a) (a ++ r) = split_skip sep 0 r.
Proof. intros sep a r. induction a as [|c a IH]; [reflexivity|]. exact IH. Qed.

Lemma split_hit : forall sep r, sep <> "" -> split_string (sep ++ r) sep = "" :: split_string r sep.
Proof.
  intros [|c sep] r NE; [congruence|]. unfold split_string. cbn [String.append split_skip].
  assert (P : str_prefixb (String c sep) (String c (sep ++ r)) = true) by (apply prefixb_iff; now exists r).
  rewrite P. cbn [String.length pred]. now rewrite skip_over.
Qed.

Lemma split_pieces : forall sep, sep <> "" -> forall n s, String.length s <= n ->
  joined sep (split_string s sep) = s /\ pieces sep (split_string s sep).
Proof.
  intros sep NE n. induction n as [|n IH]; intros s L.
  - assert (s = "") as -> by (apply slen_zero; lia). split; [reflexivity|].
    intros a b H. destruct a; [|discriminate]. destruct sep; [congruence|discriminate].
  - destruct s as [|c s]; [apply IH; cbn; lia|].
    destruct (str_prefixb sep (String c s)) eqn:P.
    + apply prefixb_iff in P as (r & EQ). rewrite EQ. rewrite split_hit by exact NE.
      assert (LR : String.length r <= n).
      { apply (f_equal String.length) in EQ. rewrite slen_app in EQ. cbn in EQ, L.
        destruct sep; [congruence|]. cbn in EQ. lia. }
      destruct (IH r LR) as [J PC]. destruct (split_string r sep) as [|w ws]; [destruct PC|]. split.
      * change ("" ++ sep ++ joined sep (w :: ws) = sep ++ r). now rewrite J.
      * split; [|exact PC]. intros a b H. apply slen_zero.
        apply (f_equal String.length) in H. rewrite !slen_app in H. cbn in H. lia.
    + unfold split_string. cbn [split_skip]. rewrite P. fold (split_string s sep).
      cbn in L. destruct (IH s ltac:(lia)) as [J PC].
      destruct (split_string s sep) as [|w ws]; [destruct PC|].
      assert (NP : forall r, String c s <> sep ++ r).
      { intros r H. assert (str_prefixb sep (String c s) = true) by (apply prefixb_iff; eauto). congruence. }
      destruct ws as [|w' ws].
      * cbn in J. subst w. split; [reflexivity|]. intros a b H. destruct a as [|d a].
        -- exact (NP _ H).
        -- injection H as _ H. exact (PC _ _ H).
      * split.
        -- change (String c (w ++ sep ++ joined sep (w' :: ws)) = String c s).
           change (w ++ sep ++ joined sep (w' :: ws) = s) in J. now rewrite J.
        -- destruct PC as [F PC]. split; [|exact PC]. intros a b H. destruct a as [|d a].
           ++ exfalso. change (w ++ sep ++ joined sep (w' :: ws) = s) in J.
              apply (NP (b ++ joined sep (w' :: ws))). rewrite <- J.
              transitivity ((String c w ++ sep) ++ joined sep (w' :: ws)); [now rewrite sapp_assoc|].
              rewrite H. apply (sapp_assoc sep b).
           ++ injection H as _ H. exact (F _ _ H).
Qed.

Section Calls.
  Variables (E : env) (funs : string -> option (dict -> option val)) (owner : nat -> string).
  Hypothesis FOK : funs_ok E funs.

  Lemma den_reads : forall sc fr e v s,
    frames sc fr -> sc_depth sc < 1000 -> calls_ok E owner s ->
    den E funs fr e = Some v -> labelled owner e ->
    exists s', reads E sc e s s' v /\ quiet s s'.
  Proof.
    intros sc fr e v s FR DP CO D L.
    destruct (pure_eval E funs owner FOK e no_world sc fr v (frames_scope _ _ _ _ _ FR DP) D L
                no_world s (wle_refl _) (calls_stok _ _ _ CO)) as (W & s' & _ & _ & Q & EV).
    exists s'. split; [exact EV|exact Q].
  Qed.

  (** [split(string=text, sep_string=sep)] is the one list of pieces that,
      joined with the separator, gives the text back and whose pieces end at
      the first separator. *)
  Theorem C66_split_cuts_at_the_separator : forall sc fr node e1 e2 text sep s,
    funs "split" = Some (builtin_value E FSplit) -> owner node = "split" ->
    frames sc fr -> sc_depth sc < 1000 -> calls_ok E owner s ->
    labelled owner e1 -> labelled owner e2 ->
    den E funs fr e1 = Some (VStr text) -> den E funs fr e2 = Some (VStr sep) -> sep <> "" ->
    exists s' l,
      reads E sc (call node "split" [("string", AExpr e1); ("sep_string", AExpr e2)]) s s'
        (VArr (map VStr l)) /\ quiet s s' /\
      joined sep l = text /\ pieces sep l /\ Forall (absent sep) l /\
      (forall l', joined sep l' = text -> pieces sep l' -> l' = l).
  Proof.
    intros sc fr node e1 e2 text sep s F O FR DP CO L1 L2 D1 D2 NE.
    assert (NB : negb (String.eqb sep "") = true) by (apply negb_true_iff, String.eqb_neq; exact NE).
    destruct (split_pieces sep NE _ text (Nat.le_refl _)) as [J P].
    destruct (den_reads sc fr (call node "split" [("string", AExpr e1); ("sep_string", AExpr e2)])
                (VArr (map VStr (split_string text sep))) s FR DP CO) as (s' & R & Q).
    - unfold call. cbn [den]. rewrite F. cbn [obind map sequence option_map]. rewrite D1, D2.
      cbn. rewrite NB. unfold check. cbn [plain forallb map].
      replace (forallb plain (map VStr (split_string text sep))) with true; [reflexivity|].
      symmetry. apply forallb_forall. intros v HI. apply in_map_iff in HI as (x & <- & _). reflexivity.
    - unfold call. cbn. rewrite O. auto.
    - exists s', (split_string text sep). split; [exact R|]. split; [exact Q|]. split; [exact J|].
      split; [exact P|]. split; [now apply pieces_absent|].
      intros l' J' P'. apply (pieces_unique sep); auto. now rewrite J'.
  Qed.

  (** Without a separator there is nothing to cut at: NULL. *)
  Theorem C66_no_separator_is_null : forall sc fr node e1 e2 text s,
    funs "split" = Some (builtin_value E FSplit) -> owner node = "split" ->
    frames sc fr -> sc_depth sc < 1000 -> calls_ok E owner s ->
    labelled owner e1 -> labelled owner e2 ->
    den E funs fr e1 = Some (VStr text) -> den E funs fr e2 = Some (VStr "") ->
    exists s', reads E sc (call node "split" [("string", AExpr e1); ("sep_string", AExpr e2)]) s s' VNull
               /\ quiet s s'.
  Proof.
    intros sc fr node e1 e2 text s F O FR DP CO L1 L2 D1 D2.
    apply (den_reads sc fr _ VNull s FR DP CO).
    - unfold call. cbn [den]. rewrite F. cbn [obind map sequence option_map]. rewrite D1, D2. reflexivity.
    - unfold call. cbn. rewrite O. auto.
  Qed.

  (** ** C65: get() *)

  Lemma path_keys : forall path, (forall c, In c path -> atoi c = None) ->
    map (fun c => Some (KVal (member_key c))) path = map (fun c => Some (KVal (VStr c))) path.
  Proof.
    intros path H. apply map_ext_in. intros c HI. unfold member_key. now rewrite (H _ HI).
  Qed.
  Lemma field_terms : forall fr path,
    sequence (map (fun t => match t with
                 | MField f => Some (Some (KVal (VStr f)))
                 | MIndex e => option_map (fun v => Some (KVal v)) (den E funs fr e)
                 | MRange s e =>
                     obind (match s with None => Some None
                                       | Some s => option_map Some (den E funs fr s) end) (fun s =>
                     obind (match e with None => Some None
                                       | Some e => option_map Some (den E funs fr e) end) (fun e =>
                     Some (range_key s e)))
                 end) (map MField path)) = Some (map (fun c => Some (KVal (VStr c))) path).
  Proof. intros fr path. induction path as [|c r IH]; [reflexivity|]. cbn. now rewrite IH. Qed.

  (** [get(item=x, member="a.b.c")] is [x.a.b.c]: for every value that is not
      a query, and every path without a component that looks like a number. *)
  Theorem C65_get_follows_the_path_partial : forall sc fr node e e2 v member w s,
    funs "get" = Some (builtin_value E FGet) -> owner node = "get" ->
    frames sc fr -> sc_depth sc < 1000 -> calls_ok E owner s ->
    labelled owner e -> labelled owner e2 ->
    den E funs fr e = Some v -> v <> VNil -> (forall rows, v <> VQuery rows) ->
    den E funs fr e2 = Some (VStr member) ->
    (forall c, In c (split_on "."%char member) -> atoi c = None) ->
    den E funs fr (EMember e (map MField (split_on "."%char member))) = Some w -> plain w = true ->
    exists s1 s2,
      reads E sc (EMember e (map MField (split_on "."%char member))) s s1 w /\ quiet s s1 /\
      reads E sc (call node "get" [("item", AExpr e); ("member", AExpr e2)]) s s2 (or_null w) /\
      quiet s s2.
  Proof.
    intros sc fr node e e2 v member w s F O FR DP CO L L2 D NV NQ D2 AT DM PW.
    destruct (den_reads sc fr _ w s FR DP CO DM) as (s1 & R1 & Q1).
    { cbn. split; [exact L|]. clear. induction (split_on "."%char member); cbn; auto. }
    destruct (den_reads sc fr (call node "get" [("item", AExpr e); ("member", AExpr e2)]) (or_null w) s FR DP CO)
      as (s2 & R2 & Q2).
    - cbn [den] in DM. rewrite D in DM. cbn [obind] in DM. rewrite field_terms in DM. cbn [obind] in DM.
      assert (XV : expand v = v) by (destruct v; try reflexivity; now destruct (NQ rows)).
      unfold call. cbn [den]. rewrite F. cbn [obind map sequence option_map]. rewrite D, D2.
      cbn [option_map obind expand]. rewrite XV. unfold builtin_value, dict_of.
      cbn [fold_left fst snd dict_set remove_key String.eqb Ascii.eqb Bool.eqb List.app keys map].
      replace (mem_str "**" ["item"; "member"] ||
         existsb (fun kv => match snd kv with VNil => true | _ => false end) [("item", v); ("member", VStr member)])
        with false by (destruct v; try reflexivity; congruence).
      unfold text_arg. cbn [assoc String.eqb Ascii.eqb Bool.eqb obind].
      replace (given ["item"; "member"] ["member"] [("item", v); ("member", VStr member)]) with true by reflexivity.
      cbn [obind]. unfold member_path. rewrite path_keys by exact AT. rewrite DM. cbn [obind].
      unfold check. rewrite PW. reflexivity.
    - unfold call. cbn. rewrite O. auto.
    - exists s1, s2. auto.
  Qed.

  Lemma pr_alloc_scope : forall W sc,
    forall W' s, wle W W' -> stok E owner W' s ->
    exists W2 s2 n0, wle W' W2 /\ stok E owner W2 s2 /\ quiet s s2 /\ W2 n0 = Some (WObj (OScope sc)) /\
      alloc (OScope sc) s = (s2, RVal (VOpaque n0)).
  Proof.
    intros W sc W' s HW HS.
    destruct (alloc_in_world E owner W' s (OScope sc) (WObj (OScope sc)) HS eq_refl) as (W2 & H2 & HS2 & EW).
    exists W2, (set_heap (heap s ++ [OScope sc])%list s), (List.length (heap s)).
    split; [exact H2|]. split; [exact HS2|]. split; [|split; [exact EW|reflexivity]].
    constructor; cbn; auto. intros n o Hn. exists o. split; [now apply nth_error_app_some|apply obj_ext_refl].
  Qed.

  (** [get(member="x.a.b")], without an item, is [x.a.b]. *)
  Theorem C65_get_of_a_variable_partial : forall sc fr node node' e2 member x path w s,
    assoc "get" (env_funs E) = Some FGet -> owner node = "get" ->
    frames sc fr -> sc_depth sc < 1000 -> calls_ok E owner s ->
    labelled owner e2 -> den E funs fr e2 = Some (VStr member) ->
    split_on "."%char member = x :: path ->
    (forall c, In c (x :: path) -> atoi c = None) ->
    den E funs fr (ESym node' false (x :: path) false []) = Some w ->
    exists s1 s2,
      reads E sc (ESym node' false (x :: path) false []) s s1 w /\ quiet s s1 /\
      reads E sc (call node "get" [("member", AExpr e2)]) s s2 w /\ quiet s s2.
  Proof.
    intros sc fr node node' e2 member x path w s F O FR DP CO L2 D2 MP AT DS.
    pose proof (frames_scope E owner no_world sc fr FR DP) as SC.
    destruct (den_reads sc fr _ w s FR DP CO DS) as (s1 & R1 & Q1).
    { cbn. destruct path; exact I. }
    assert (PR : promises E owner no_world
              (fun n => sym_reduce E (ev E n) sc node false ["get"] true [("member", AExpr e2)]) w).
    { assert (DS' : obind (check (lookup fr x)) (fun v => option_map or_null (follow E v path)) = Some w)
        by (destruct path; exact DS).
      apply obind_some in DS' as (v0 & Hv & DS'). apply check_some in Hv as [-> PL].
      apply omap_some in DS' as (w0 & HW0 & <-).
      eapply (pr_call_with E funs owner no_world sc fr node "get" _ FGet [("member", VStr member)] w0).
      - constructor; [|constructor]. cbn. intros v Dv. eapply pure_eval; eauto.
      - exact O.
      - exact F.
      - cbn. unfold arg_den. rewrite D2. reflexivity.
      - intros W2 id args HW ST. cbn [call_func].
        change (dict_of [("member", VStr member)]) with [("member", VStr member)] in ST.
        pose proof (pr_builtin_args E owner W2 sc args [("member", VStr member)]
                      [field_ "item" 0 false TAny; field_ "member" 1 true TString] [VNil; VStr ""] ST
                      eq_refl eq_refl) as P.
        assert (PF : Forall (plain_field [("member", VStr member)])
                       [field_ "item" 0 false TAny; field_ "member" 1 true TString])
          by (repeat constructor).
        specialize (P PF).
        inversion ST as [|[k a] [k' b'] args' vals' [HK HA] HT]; subst. inversion HT; subst.
        cbn in HK. subst k.
        replace (pparse (coerced E [("member", a)] [("member", VStr member)])
                   [field_ "item" 0 false TAny; field_ "member" 1 true TString] [("member", a)] [VNil; VStr ""])
          with ([VNil; VStr member], @None perr) in P by reflexivity.
        assert (RES : exists p, (p = (lookup fr x, true) \/ (lookup fr x = VNull /\ p = (VNil, false))) /\
                  promises E owner W2 (fun n => resolve (ev E n) sc x) p).
        { assert (SC2 : scope_ok E owner W2 sc fr) by (apply frames_scope; assumption).
          destruct (p_resolve E owner W2 sc fr x SC2 PL) as (p & FP & HP). exists p. split; [|exact HP].
          destruct FP as [->|[LN ->]]; auto. }
        assert (HG : promises E owner W2
                  (fun n => item <- alloc (OScope sc) ;; get_path (ev E n) sc item (member_path member)) w0).
        { intros W3 s3 H3 HS3.
          destruct (pr_alloc_scope W2 sc W3 s3 H3 HS3) as (W4 & s4 & n0 & H4 & HS4 & Q4 & EW & EA).
          assert (PG : promises E owner W4 (fun n => get_path (ev E n) sc (VOpaque n0) (member_path member)) w0).
          { unfold member_path. rewrite MP. cbn [get_path].
            assert (MK : member_key x = VStr x) by (unfold member_key; now rewrite (AT x (or_introl eq_refl))).
            rewrite MK. destruct RES as (p & FP & HP).
            eapply (pr_bind E owner _ _ W4 _ _ p).
            - eapply pr_step; [intros; apply ev_assoc; eassumption|]. unfold assoc_step. cbn [is_nil].
              eapply (pr_bind E owner _ _ W4 (fun _ => obj_of (VOpaque n0)) _ (Some (OScope sc))).
              { intros W5 s5 H5 HS5. exists W5, s5. split; [apply wle_refl|]. split; [exact HS5|].
                split; [apply quiet_refl|]. exists 0. intros n _. unfold obj_of, mret.
                destruct (so_heap _ _ _ _ HS5 n0 _ (H5 _ _ EW)) as (o & Ho & OK). cbn in OK. subst o.
                cbn. rewrite Ho. reflexivity. }
              cbn [key_string]. eapply pr_weaken; [|exact HP]. eapply wle_trans; eauto.
            - destruct FP as [->|[LN ->]]; cbv beta iota.
              + apply pr_get_path; [exact PL|]. rewrite path_keys by (intros c HI; apply AT; now right).
                clear - HW0. revert HW0. generalize (lookup fr x). intros v HW0. revert v HW0.
                induction path as [|c r IH]; intros v HW0; cbn [follow map index] in *; [exact HW0|].
                destruct (assoc_disp (p_assoc (env_protos E)) v (KVal (VStr c))) as [y pres].
                destruct pres; [|exact HW0]. destruct (check y); [|discriminate]. cbn [obind] in *. auto.
              + rewrite LN, follow_null in HW0. injection HW0 as <-. apply pr_ret. }
          destruct (PG W4 s4 (wle_refl _) HS4) as (W5 & s5 & H5 & HS5 & Q5 & [N EV]).
          exists W5, s5. split; [eapply wle_trans; eauto|]. split; [exact HS5|].
          split; [eapply quiet_trans; eauto|]. exists N. intros n Hn. unfold mbind at 1. rewrite EA. now apply EV. }
        exists w0. split; [|split; [|reflexivity]].
        + unfold get_function. eapply pr_bind; [exact P|]. cbv beta iota. exact HG.
        + eapply follow_plain; eauto.
      - reflexivity. }
    destruct (PR no_world s (wle_refl _) (calls_stok _ _ _ CO)) as (W & s2 & _ & _ & Q2 & EV).
    exists s1, s2. split; [exact R1|]. split; [exact Q1|]. split; [|exact Q2].
    unfold reads, call. apply ev_expr. exact EV.
  Qed.

  (** ** C67: timestamp() *)

  (** [timestamp(epoch=n)] is the instant n seconds after the start of 1970
      ([VTime] counts nanoseconds): for n > 0. *)
  Theorem C67_epoch_is_the_instant_partial : forall sc fr node e v n s,
    funs "timestamp" = Some (builtin_value E FTimestamp) -> owner node = "timestamp" ->
    frames sc fr -> sc_depth sc < 1000 -> calls_ok E owner s -> labelled owner e ->
    den E funs fr e = Some v -> to_int64 v = Some n -> (0 < n)%Z ->
    exists s', reads E sc (call node "timestamp" [("epoch", AExpr e)]) s s' (VTime (n * 1000000000))
               /\ quiet s s'.
  Proof.
    intros sc fr node e v n s F O FR DP CO L D I P. apply (den_reads sc fr _ _ s FR DP CO).
    - unfold call. cbn [den]. rewrite F. cbn [obind map sequence option_map]. rewrite D. cbn [option_map obind].
      assert (X : expand v = v) by (destruct v; try reflexivity; discriminate). rewrite X.
      assert (NN : v <> VNil) by (intros ->; discriminate).
      unfold builtin_value, dict_of. cbn [fold_left fst snd dict_set remove_key List.app keys map].
      replace (mem_str "**" ["epoch"] ||
         existsb (fun kv => match snd kv with VNil => true | _ => false end) [("epoch", v)])
        with false by (destruct v; try reflexivity; congruence).
      replace (given ["epoch"; "winfiletime"] [] [("epoch", v)]) with true by reflexivity.
      unfold int_arg. cbn [assoc String.eqb Ascii.eqb Bool.eqb]. rewrite I. unfold timestamp_of.
      replace (0 <? n)%Z with true by (symmetry; now apply Z.ltb_lt). reflexivity.
    - unfold call. cbn. rewrite O. auto.
  Qed.

  (** [timestamp(winfiletime=w)] is the instant w units of 100 ns after the
      start of 1601, rounded down to a second: for w after 1970.  The same
      instant as [timestamp(epoch=n)] for every w within that second. *)
  Theorem C67_winfiletime_is_the_instant_partial : forall sc fr node e v w n r s,
    funs "timestamp" = Some (builtin_value E FTimestamp) -> owner node = "timestamp" ->
    frames sc fr -> sc_depth sc < 1000 -> calls_ok E owner s -> labelled owner e ->
    den E funs fr e = Some v -> to_int64 v = Some w ->
    (0 < w)%Z -> (w = 10000000 * (n + 11644473600) + r)%Z -> (0 <= r < 10000000)%Z ->
    exists s', reads E sc (call node "timestamp" [("winfiletime", AExpr e)]) s s' (VTime (n * 1000000000))
               /\ quiet s s'.
  Proof.
    intros sc fr node e v w n r s F O FR DP CO L D I P W R. apply (den_reads sc fr _ _ s FR DP CO).
    - unfold call. cbn [den]. rewrite F. cbn [obind map sequence option_map]. rewrite D. cbn [option_map obind].
      assert (X : expand v = v) by (destruct v; try reflexivity; discriminate). rewrite X.
      assert (NN : v <> VNil) by (intros ->; discriminate).
      unfold builtin_value, dict_of. cbn [fold_left fst snd dict_set remove_key List.app keys map].
      replace (mem_str "**" ["winfiletime"] ||
         existsb (fun kv => match snd kv with VNil => true | _ => false end) [("winfiletime", v)])
        with false by (destruct v; try reflexivity; congruence).
      replace (given ["epoch"; "winfiletime"] [] [("winfiletime", v)]) with true by reflexivity.
      unfold int_arg. cbn [assoc String.eqb Ascii.eqb Bool.eqb]. rewrite I. unfold timestamp_of.
      replace (0 <? 0)%Z with false by reflexivity.
      replace (0 <? w)%Z with true by (symmetry; now apply Z.ltb_lt).
      assert (Q : Z.quot w 10000000 = (n + 11644473600)%Z).
      { rewrite Z.quot_div_nonneg by lia. symmetry. apply (Z.div_unique w 10000000 _ r); lia. }
      rewrite Q. unfold unix. replace (n + 11644473600 - 11644473600)%Z with n by lia. reflexivity.
    - unfold call. cbn. rewrite O. auto.
  Qed.

  (** Two timestamps compare as their epochs. *)
  Theorem C67_timestamps_compare_as_epochs_partial : forall sc fr n1 n2 e1 e2 v1 v2 a b s,
    funs "timestamp" = Some (builtin_value E FTimestamp) ->
    owner n1 = "timestamp" -> owner n2 = "timestamp" ->
    frames sc fr -> sc_depth sc < 1000 -> calls_ok E owner s -> labelled owner e1 -> labelled owner e2 ->
    den E funs fr e1 = Some v1 -> to_int64 v1 = Some a -> (0 < a)%Z ->
    den E funs fr e2 = Some v2 -> to_int64 v2 = Some b -> (0 < b)%Z ->
    exists s', reads E sc (ECmp (call n1 "timestamp" [("epoch", AExpr e1)]) OpLt
                                (call n2 "timestamp" [("epoch", AExpr e2)])) s s' (VBool (a <? b)%Z)
               /\ quiet s s'.
  Proof.
    intros sc fr n1 n2 e1 e2 v1 v2 a b s F O1 O2 FR DP CO L1 L2 D1 I1 P1 D2 I2 P2.
    assert (T : forall node e v n, den E funs fr e = Some v -> to_int64 v = Some n -> (0 < n)%Z ->
              den E funs fr (call node "timestamp" [("epoch", AExpr e)]) = Some (VTime (n * 1000000000))).
    { intros node e v n D I P. unfold call. cbn [den]. rewrite F. cbn [obind map sequence option_map].
      rewrite D. cbn [option_map obind].
      assert (X : expand v = v) by (destruct v; try reflexivity; discriminate). rewrite X.
      assert (NN : v <> VNil) by (intros ->; discriminate).
      unfold builtin_value, dict_of. cbn [fold_left fst snd dict_set remove_key List.app keys map].
      replace (mem_str "**" ["epoch"] ||
         existsb (fun kv => match snd kv with VNil => true | _ => false end) [("epoch", v)])
        with false by (destruct v; try reflexivity; congruence).
      replace (given ["epoch"; "winfiletime"] [] [("epoch", v)]) with true by reflexivity.
      unfold int_arg. cbn [assoc String.eqb Ascii.eqb Bool.eqb]. rewrite I. unfold timestamp_of.
      replace (0 <? n)%Z with true by (symmetry; now apply Z.ltb_lt). reflexivity. }
    apply (den_reads sc fr _ _ s FR DP CO).
    - cbn [den]. change (ESym n1 false ["timestamp"] true [("epoch", AExpr e1)]) with
        (call n1 "timestamp" [("epoch", AExpr e1)]).
      rewrite (T n1 e1 v1 a D1 I1 P1), (T n2 e2 v2 b D2 I2 P2). cbn [obind option_map].
      f_equal. f_equal. cbn [cond_op]. unfold lt_disp, lt_switch_a, to_time.
      destruct (a <? b)%Z eqn:C.
      + apply Z.ltb_lt in C. apply Z.ltb_lt. lia.
      + apply Z.ltb_ge in C. apply Z.ltb_ge. lia.
    - unfold call. cbn. rewrite O1, O2. auto.
  Qed.

  (** ** C68: encode(type="hex") *)

  (** The value of a hexadecimal digit. *)
  Definition hex_digits : string := "0123456789abcdef".
  Fixpoint position (c : ascii) (s : string) (n : N) : option N :=
    match s with
    | EmptyString => None
    | String d r => if Ascii.eqb c d then Some n else position c r (n + 1)
    end.
  (** Reading pairs of digits back, the first digit being the higher one. *)
  Fixpoint unhex (s : string) : option string :=
    match s with
    | EmptyString => Some ""
    | String a (String b r) =>
        match position a hex_digits 0, position b hex_digits 0, unhex r with
        | Some x, Some y, Some t => Some (String (ascii_of_N (16 * x + y)) t)
        | _, _, _ => None
        end
    | _ => None
    end.

  Lemma hex_byte : forall c,
    match position (hex_digit (Z.of_N (N_of_ascii c) / 16)) hex_digits 0,
          position (hex_digit (Z.of_N (N_of_ascii c) mod 16)) hex_digits 0 with
    | Some x, Some y => ascii_of_N (16 * x + y) = c
    | _, _ => False
    end.
  Proof. intros [[] [] [] [] [] [] [] []]; vm_compute; reflexivity. Qed.

  Lemma hex_reads_back : forall s, unhex (hex_string s) = Some s.
  Proof.
    induction s as [|c s IH]; [reflexivity|]. cbn [hex_string unhex]. rewrite IH.
    pose proof (hex_byte c) as H.
    destruct (position (hex_digit (Z.of_N (N_of_ascii c) / 16)) hex_digits 0); [|contradiction].
    destruct (position (hex_digit (Z.of_N (N_of_ascii c) mod 16)) hex_digits 0); [|contradiction].
    now rewrite H.
  Qed.
  Lemma hex_length : forall s, String.length (hex_string s) = 2 * String.length s.
  Proof. induction s as [|c s IH]; [reflexivity|]. cbn [hex_string String.length]. rewrite IH. lia. Qed.

  Theorem C68_hex_writes_every_byte : forall sc fr node e1 e2 text s,
    funs "encode" = Some (builtin_value E FEncode) -> owner node = "encode" ->
    frames sc fr -> sc_depth sc < 1000 -> calls_ok E owner s -> labelled owner e1 -> labelled owner e2 ->
    den E funs fr e1 = Some (VStr text) -> den E funs fr e2 = Some (VStr "hex") ->
    exists s' h,
      reads E sc (call node "encode" [("string", AExpr e1); ("type", AExpr e2)]) s s' (VStr h) /\
      quiet s s' /\ String.length h = 2 * String.length text /\ unhex h = Some text.
  Proof.
    intros sc fr node e1 e2 text s F O FR DP CO L1 L2 D1 D2.
    destruct (den_reads sc fr (call node "encode" [("string", AExpr e1); ("type", AExpr e2)])
                (VStr (hex_string text)) s FR DP CO) as (s' & R & Q).
    - unfold call. cbn [den]. rewrite F. cbn [obind map sequence option_map]. rewrite D1, D2. reflexivity.
    - unfold call. cbn. rewrite O. auto.
    - exists s', (hex_string text). auto using hex_length, hex_reads_back.
  Qed.

  (** Different texts have different encodings, whatever else is evaluated. *)
  Theorem C68_hex_is_injective : forall text text', hex_string text = hex_string text' -> text = text'.
  Proof.
    intros text text' H. apply (f_equal unhex) in H. rewrite !hex_reads_back in H. now injection H.
  Qed.

  (** ** C69: dict() *)

  (** Data without nil and without a query in it, in lists nested at most
      [n] deep. *)
  Fixpoint shallow (n : nat) (v : val) : bool :=
    match v with
    | VNil | VQuery _ => false
    | VArr l => match n with O => false | S n => forallb (shallow n) l end
    | _ => true
    end.

  Lemma shallow_nesting : forall n v, shallow n v = true -> nesting v <= n.
  Proof.
    induction n as [|n IH]; intros v H; destruct v; cbn in *; try lia; try discriminate.
    apply le_n_S. induction l as [|x l IHl]; cbn in *; [lia|]. apply andb_true_iff in H as [H1 H2].
    apply IH in H1. apply IHl in H2. lia.
  Qed.
  Lemma shallow_stored : forall n v, shallow n v = true -> stored v = v.
  Proof.
    induction n as [|n IH]; intros v H; destruct v; cbn in *; try reflexivity; try discriminate.
    f_equal. induction l as [|x l IHl]; cbn in *; [reflexivity|]. apply andb_true_iff in H as [H1 H2].
    rewrite IH by exact H1. now rewrite IHl.
  Qed.

  Lemma remove_absent : forall A k (d : list (string * A)), ~ In k (keys d) -> remove_key k d = d.
  Proof.
    intros A k d. induction d as [|[k0 v0] d IH]; intros H; cbn in *; [reflexivity|].
    destruct (String.eqb_spec k k0) as [->|_]; [exfalso; apply H; now left|].
    rewrite IH; [reflexivity|]. intros HI. apply H. now right.
  Qed.
  Lemma dict_of_distinct : forall A (l : list (string * A)), NoDup (keys l) -> dict_of l = l.
  Proof.
    intros A l H. unfold dict_of.
    assert (G : forall l d, NoDup (keys (d ++ l)%list) ->
              fold_left (fun d kv => dict_set (fst kv) (snd kv) d) l d = (d ++ l : list (string * A))%list).
    { clear. induction l as [|[k v] l IH]; intros d H; cbn [fold_left fst snd].
      - now rewrite app_nil_r.
      - assert (NI : ~ In k (keys d)).
        { unfold keys in *. rewrite map_app in H. cbn in H. apply NoDup_remove_2 in H.
          intros HI. apply H. apply in_or_app. now left. }
        unfold dict_set. rewrite remove_absent by exact NI.
        rewrite IH by (rewrite <- app_assoc; exact H). now rewrite <- app_assoc. }
    now rewrite G.
  Qed.

  (** [dict(..., k=e, ...).k] is the value of e. *)
  Theorem C69_dict_gives_back_partial : forall sc fr node (params : list (string * expr)) vals k v s,
    funs "dict" = Some (builtin_value E FDict) -> owner node = "dict" ->
    frames sc fr -> sc_depth sc < 1000 -> calls_ok E owner s ->
    Forall (fun p => labelled owner (snd p)) params ->
    Forall2 (fun p kv => fst p = fst kv /\ den E funs fr (snd p) = Some (snd kv)) params vals ->
    NoDup (keys vals) -> ~ In "**" (keys vals) ->
    Forall (fun kv => plain (snd kv) = true /\ shallow 9 (snd kv) = true) vals ->
    In (k, v) vals ->
    exists s', reads E sc (EMember (call node "dict" (map (fun p => (fst p, AExpr (snd p))) params)) [MField k])
                 s s' v /\ quiet s s'.
  Proof.
    intros sc fr node params vals k v s F O FR DP CO LB D ND NS SH HI.
    assert (DEN : den E funs fr (call node "dict" (map (fun p => (fst p, AExpr (snd p))) params)) =
                  Some (VDict vals)).
    { unfold call. cbn [den]. rewrite F. cbn [obind].
      assert (SQ : sequence (map (fun na =>
                 match na with
                 | (name, AExpr e) => option_map (fun v => (name, expand v)) (den E funs fr e)
                 | (name, AArray e) => option_map (fun v => (name, v)) (den E funs fr e)
                 | (name, AEmpty) => Some (name, VArr [])
                 | (_, ASelect _) => None
                 end) (map (fun p => (fst p, AExpr (snd p))) params)) = Some vals).
      { clear - D SH. induction D as [|[n e] [n' w] params vals [H1 H2] _ IH]; [reflexivity|].
        cbn in H1, H2. subst n'. inversion SH as [|? ? [_ S1] SH']; subst. cbn in S1.
        specialize (IH SH'). cbn [map sequence fst snd]. rewrite H2. cbn [option_map]. rewrite IH.
        replace (expand w) with w by (destruct w; try reflexivity; discriminate). reflexivity. }
      rewrite SQ. cbn [obind]. rewrite dict_of_distinct by exact ND.
      unfold builtin_value.
      replace (mem_str "**" (keys vals)) with false
        by (symmetry; apply not_true_iff_false; intros H; apply mem_str_In in H; contradiction).
      replace (existsb (fun kv => match snd kv with VNil => true | _ => false end) vals) with false.
      2:{ symmetry. apply not_true_iff_false. intros H. apply existsb_exists in H as (x & HX & HN).
          rewrite Forall_forall in SH. destruct (SH _ HX) as [_ S1]. destruct (snd x); discriminate. }
      replace (forallb (fun kv => Nat.leb (nesting (snd kv)) 9) vals) with true.
      2:{ symmetry. apply forallb_forall. intros x HX. rewrite Forall_forall in SH.
          apply Nat.leb_le, shallow_nesting. now apply SH. }
      cbn [orb obind].
      replace (map (fun kv => (fst kv, stored (snd kv))) vals) with vals.
      2:{ rewrite Forall_forall in SH. symmetry. transitivity (map (fun x => x) vals); [|apply map_id].
          apply map_ext_in. intros [n w] HX. destruct (SH _ HX) as [_ S1]. cbn in *.
          now rewrite (shallow_stored 9). }
      unfold check. replace (plain (VDict vals)) with true; [reflexivity|].
      symmetry. cbn [plain]. apply forallb_forall. intros x HX. rewrite Forall_forall in SH. now apply SH. }
    apply (den_reads sc fr _ v s FR DP CO).
    - cbn [den]. change (ESym node false ["dict"] true (map (fun p => (fst p, AExpr (snd p))) params)) with
        (call node "dict" (map (fun p => (fst p, AExpr (snd p))) params)).
      rewrite DEN. cbn [obind map sequence option_map index].
      assert (AS : assoc_disp (p_assoc (env_protos E)) (VDict vals) (KVal (VStr k)) = (v, true)).
      { cbn. rewrite (BaseProofs.in_assoc _ k v vals ND HI). rewrite Forall_forall in SH.
        destruct (SH _ HI) as [P1 S1]. cbn [snd] in S1, P1. destruct v; reflexivity || discriminate. }
      rewrite AS. cbn [obind]. unfold check. rewrite Forall_forall in SH. destruct (SH _ HI) as [P1 _]. cbn [snd] in P1. now rewrite P1.
    - cbn. split; [|auto]. split; [exact O|]. clear - LB.
      induction LB as [|[n e] params H _ IH]; cbn; auto.
  Qed.
End Calls.

(** ** Cases that meet the hypotheses *)

Definition text (s : string) : expr := ELit (VStr s).
Definition owners (f : string) (n : nat) : string := f.

(** split(string="a--b---", sep_string="--"): ["a", "b", "-"] *)
Example C66_demo : exists s' l,
  reads demo_env demo_scope (call 0 "split" [("string", AExpr (text "a--b---")); ("sep_string", AExpr (text "--"))])
    st0 s' (VArr (map VStr l)) /\ l = ["a"; "b"; "-"].
Proof.
  destruct (C66_split_cuts_at_the_separator demo_env demo_funs (owners "split") demo_funs_ok demo_scope demo_frames
              0 (text "a--b---") (text "--") "a--b---" "--" st0) as (s' & l & R & Q & J & P & A & U);
    try reflexivity; try discriminate; try exact I; [cbn; lia|].
  exists s', l. split; [exact R|]. symmetry. apply U; [reflexivity|].
  destruct (split_pieces "--" ltac:(discriminate) _ "a--b---" (Nat.le_refl _)) as [_ H]. exact H.
Qed.

Definition nested : val := VDict [("a", VDict [("b", vint 7); ("1", vint 5)])].

(** get(item=x, member="a.b") is x.a.b *)
Example C65_demo : exists s1 s2,
  reads demo_env demo_scope (EMember (ELit nested) [MField "a"; MField "b"]) st0 s1 (vint 7) /\
  reads demo_env demo_scope (call 0 "get" [("item", AExpr (ELit nested)); ("member", AExpr (text "a.b"))])
    st0 s2 (vint 7).
Proof.
  destruct (C65_get_follows_the_path_partial demo_env demo_funs (owners "get") demo_funs_ok demo_scope demo_frames
              0 (ELit nested) (text "a.b") nested "a.b" (vint 7) st0) as (s1 & s2 & R1 & _ & R2 & _);
    try reflexivity; try discriminate; try exact I; [cbn; lia| |].
  - intros c [<-|[<-|[]]]; reflexivity.
  - exists s1, s2. split; [exact R1|exact R2].
Qed.

(** get(member="base") is base *)
Example C65_variable_demo : exists s2,
  reads demo_env demo_scope (call 0 "get" [("member", AExpr (text "base"))]) st0 s2 (i 10).
Proof.
  destruct (C65_get_of_a_variable_partial demo_env demo_funs (owners "get") demo_funs_ok demo_scope demo_frames
              0 1 (text "base") "base" "base" [] (i 10) st0) as (s1 & s2 & _ & _ & R2 & _);
    try reflexivity; try discriminate; try exact I; [cbn; lia| |].
  - intros c [<-|[]]; reflexivity.
  - exists s2. exact R2.
Qed.

(** timestamp(epoch=5) < timestamp(epoch=7) *)
Example C67_demo : exists s',
  reads demo_env demo_scope (ECmp (call 0 "timestamp" [("epoch", AExpr (lit 5))]) OpLt
                                  (call 1 "timestamp" [("epoch", AExpr (lit 7))])) st0 s' (VBool true).
Proof.
  destruct (C67_timestamps_compare_as_epochs_partial demo_env demo_funs (owners "timestamp") demo_funs_ok
              demo_scope demo_frames 0 1 (lit 5) (lit 7) (i 5) (i 7) 5 7 st0) as (s' & R & _);
    try reflexivity; try discriminate; try exact I; [cbn; lia|]. exists s'. exact R.
Qed.
(** timestamp(winfiletime=132514414600000000) is 2020-12-03 17:37:40 UTC. *)
Example C67_winfiletime_demo : exists s',
  reads demo_env demo_scope (call 0 "timestamp" [("winfiletime", AExpr (lit 132514414600000000))]) st0 s'
    (VTime (1606967860 * 1000000000)).
Proof.
  destruct (C67_winfiletime_is_the_instant_partial demo_env demo_funs (owners "timestamp") demo_funs_ok
              demo_scope demo_frames 0 (lit 132514414600000000) (i 132514414600000000) 132514414600000000
              1606967860 0 st0) as (s' & R & _);
    try reflexivity; try discriminate; try exact I; try lia; try (cbn; lia). exists s'. exact R.
Qed.

(** encode(string="\xffA", type="hex") is "ff41" *)
Example C68_demo : exists s' h,
  reads demo_env demo_scope (call 0 "encode" [("string", AExpr (text (String "255" "A"))); ("type", AExpr (text "hex"))])
    st0 s' (VStr h) /\ unhex h = Some (String "255" "A") /\ unhex "ff41" = Some (String "255" "A").
Proof.
  destruct (C68_hex_writes_every_byte demo_env demo_funs (owners "encode") demo_funs_ok demo_scope demo_frames
              0 (text (String "255" "A")) (text "hex") (String "255" "A") st0) as (s' & h & R & _ & L & U);
    try reflexivity; try discriminate; try exact I; [cbn; lia|].
  exists s', h. auto.
Qed.

(** dict(a=[1, [2]], b="x").a *)
Example C69_demo : exists s',
  reads demo_env demo_scope
    (EMember (call 0 "dict" [("a", AExpr (ELit (VArr [i 1; VArr [i 2]]))); ("b", AExpr (text "x"))]) [MField "a"])
    st0 s' (VArr [i 1; VArr [i 2]]).
Proof.
  destruct (C69_dict_gives_back_partial demo_env demo_funs (owners "dict") demo_funs_ok demo_scope demo_frames
              0 [("a", ELit (VArr [i 1; VArr [i 2]])); ("b", text "x")]
              [("a", VArr [i 1; VArr [i 2]]); ("b", VStr "x")] "a" (VArr [i 1; VArr [i 2]]) st0) as (s' & R & _);
    try reflexivity; try discriminate.
  - cbn. lia.
  - repeat constructor.
  - repeat constructor.
  - repeat constructor; cbn; intuition discriminate.
  - cbn. intuition discriminate.
  - repeat constructor.
  - now left.
  - exists s'. exact R.
Qed.

(** ** What does not hold *)

(** A member whose name is a number is not found: get() looks for an index
    instead (functions.go:141-148). *)
Theorem C65_number_like_member_refuted : exists s1 s2,
  reads demo_env demo_scope (EMember (ELit nested) [MField "a"; MField "1"]) st0 s1 (vint 5) /\
  reads demo_env demo_scope (call 0 "get" [("item", AExpr (ELit nested)); ("member", AExpr (text "a.1"))])
    st0 s2 VNull.
Proof.
  eexists. eexists. split; apply (expr_enough demo_env 20); vm_compute; reflexivity.
Qed.

(** A member with a dot in its name cannot be reached. *)
Theorem C65_dotted_member_refuted : exists s1 s2,
  reads demo_env demo_scope (EMember (ELit (VDict [("a.b", vint 5)])) [MField "a.b"]) st0 s1 (vint 5) /\
  reads demo_env demo_scope
    (call 0 "get" [("item", AExpr (ELit (VDict [("a.b", vint 5)]))); ("member", AExpr (text "a.b"))])
    st0 s2 VNull.
Proof.
  eexists. eexists. split; apply (expr_enough demo_env 20); vm_compute; reflexivity.
Qed.

(** A column of a query: [q.a] has an entry for each row, [get(item=q,
    member="a")] only for the rows with that column. *)
Theorem C65_column_of_a_query_refuted : exists s1 s2,
  reads demo_env demo_scope (EMember (ELit (VQuery [VDict [("a", i 1)]; VDict [("b", i 2)]])) [MField "a"])
    st0 s1 (VArr [i 1; VNull]) /\
  reads demo_env demo_scope
    (call 0 "get" [("item", AExpr (ELit (VQuery [VDict [("a", i 1)]; VDict [("b", i 2)]])));
                   ("member", AExpr (text "a"))]) st0 s2 (VArr [i 1]).
Proof.
  eexists. eexists. split; apply (expr_enough demo_env 20); vm_compute; reflexivity.
Qed.

(** timestamp(epoch=0), the start of 1970, is NULL; so is every earlier one
    (functions.go:60), although winfiletime can denote it. *)
Theorem C67_epoch_zero_refuted : exists s1 s2,
  reads demo_env demo_scope (call 0 "timestamp" [("epoch", AExpr (lit 0))]) st0 s1 VNull /\
  reads demo_env demo_scope (call 0 "timestamp" [("winfiletime", AExpr (lit 116444736000000000))]) st0 s2
    (VTime 0).
Proof.
  eexists. eexists. split; apply (expr_enough demo_env 20); vm_compute; reflexivity.
Qed.

(** Two file times half a second apart, in this order, are not in order as
    timestamps: the fraction is lost. *)
Theorem C67_file_times_lose_the_fraction_refuted : exists s',
  reads demo_env demo_scope
    (ECmp (call 0 "timestamp" [("winfiletime", AExpr (lit 132514414600000000))]) OpLt
          (call 1 "timestamp" [("winfiletime", AExpr (lit 132514414605000000))])) st0 s' (VBool false).
Proof. eexists. apply (expr_enough demo_env 20). vm_compute. reflexivity. Qed.

(** A list inside of ten lists becomes NULL in a dict() (dict.go:36). *)
Fixpoint wrapped (n : nat) (v : val) : val :=
  match n with O => v | S n => VArr [wrapped n v] end.
Theorem C69_deep_list_refuted : exists s',
  reads demo_env demo_scope
    (EMember (call 0 "dict" [("a", AExpr (ELit (wrapped 11 (i 1))))]) [MField "a"])
    st0 s' (wrapped 10 VNull).
Proof. eexists. apply (expr_enough demo_env 40). vm_compute. reflexivity. Qed.

Print Assumptions C65_get_follows_the_path_partial.
Print Assumptions C65_get_of_a_variable_partial.
Print Assumptions C65_number_like_member_refuted.
Print Assumptions C65_dotted_member_refuted.
Print Assumptions C65_column_of_a_query_refuted.
Print Assumptions C66_split_cuts_at_the_separator.
Print Assumptions C66_no_separator_is_null.
Print Assumptions C67_epoch_is_the_instant_partial.
Print Assumptions C67_winfiletime_is_the_instant_partial.
Print Assumptions C67_timestamps_compare_as_epochs_partial.
Print Assumptions C67_epoch_zero_refuted.
Print Assumptions C67_file_times_lose_the_fraction_refuted.
Print Assumptions C68_hex_writes_every_byte.
Print Assumptions C68_hex_is_injective.
Print Assumptions C69_dict_gives_back_partial.
Print Assumptions C69_deep_list_refuted.
