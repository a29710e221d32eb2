(** The parser that keeps comments reads back the tokens of a tree without
    comments, whatever comments come after (token level).  ParseProofs.v for
    the parsers of Comments.v. *)

From Coq Require Import ZArith List String Ascii Bool Lia.
From Verif Require Import Base F64 Text Lexer Numeral Grammar Parser Format Spelling LexProofs NumeralProofs FloatText.
From Verif Require Import ParseProofs Comments CommentFormat CommentProofs.
Import ListNotations.
Open Scope nat_scope.
Open Scope string_scope.
Open Scope list_scope.

(** No comment comes next. *)
Definition quiet (ts : list token) : Prop :=
  match ts with [] => True | x :: _ => is_comment x = false end.

Lemma comment_quiet ts : quiet ts -> pcomment ts = PFail ts.
Proof.
  intro F. destruct ts as [|x r]; [reflexivity|]. cbn [quiet] in F.
  pose proof (comment_misses [x]) as M. unfold pcomment, alt, pbind, ptok in *.
  unfold is_comment in F. destruct (tt x) eqn:E; try discriminate F; cbn [ttype_beq]; rewrite ?CommentProofs.stop_same; reflexivity.
Qed.
Lemma com1_ok {B} (f : cs -> parser B) ts : quiet ts -> pbind pcom1 f ts = f [] ts.
Proof.
  intro Q. unfold pcom1, pbind, popt. rewrite comment_quiet by exact Q. now rewrite CommentProofs.stop_same.
Qed.
Lemma coms_ok {B} (f : cs -> parser B) ts : quiet ts -> pbind pcoms f ts = f [] ts.
Proof.
  intro Q. unfold pcoms, pstar, pbind. cbn [pstar_n]. rewrite comment_quiet by exact Q. now rewrite CommentProofs.stop_same.
Qed.
Lemma com1_misses {B} (f : cs -> parser B) ts : quiet ts -> misses (f []) ts -> misses (pbind pcom1 f) ts.
Proof. intros Q (r & H & S). exists r. now rewrite com1_ok. Qed.
Lemma coms_misses {B} (f : cs -> parser B) ts : quiet ts -> misses (f []) ts -> misses (pbind pcoms f) ts.
Proof. intros Q (r & H & S). exists r. now rewrite coms_ok. Qed.
Lemma quiet_app a r : quiet a -> a <> [] -> quiet (a ++ r).
Proof. destruct a; [contradiction|auto]. Qed.
Lemma quiet_begins ts : begins ts -> quiet ts.
Proof.
  destruct ts as [|x ts]; [contradiction|]. intros [(L & _)| ->]; [|reflexivity].
  cbn [quiet]. unfold is_comment. unfold lvl in L.
  destruct (tt x); try reflexivity;
    (exfalso; revert L; unfold text_level; repeat match goal with |- context [if ?b then _ else _] => destruct b end; discriminate).
Qed.
Lemma quiet_begins' ts : begins' ts -> quiet ts.
Proof.
  intros [B|B]; [now apply quiet_begins|]. destruct ts as [|x ts]; [contradiction|]. now subst x.
Qed.
Lemma quiet_value v r : ok_value v -> clean_value v = true -> quiet (tvalue v ++ r).
Proof. intros K C. apply quiet_begins, begins_app, (value_begins fnumber_token); auto. Qed.
Lemma quiet_member v r : ok_member v -> clean_member v = true -> quiet (tmember v ++ r).
Proof. intros K C. apply quiet_begins, begins_app, (member_begins fnumber_token); auto. Qed.
Lemma quiet_mul v r : ok_mul v -> clean_mul v = true -> quiet (tmul v ++ r).
Proof. intros K C. apply quiet_begins, begins_app, (mul_begins fnumber_token); auto. Qed.
Lemma quiet_add v r : ok_add v -> clean_add v = true -> quiet (tadd v ++ r).
Proof. intros K C. apply quiet_begins, begins_app, (add_begins fnumber_token); auto. Qed.
Lemma quiet_cond v r : ok_cond v -> clean_cond v = true -> quiet (tcond v ++ r).
Proof. intros K C. apply quiet_begins', begins'_app, (cond_begins fnumber_token); auto. Qed.
Lemma quiet_or v r : ok_or v -> clean_or v = true -> quiet (tor v ++ r).
Proof. intros K C. apply quiet_begins', begins'_app, (or_begins fnumber_token); auto. Qed.
Lemma quiet_and v r : ok_and v -> clean_and v = true -> quiet (tand v ++ r).
Proof. intros K C. apply quiet_begins', begins'_app, (and_begins fnumber_token); auto. Qed.
Lemma quiet_comma v r : ok_comma v -> clean_comma v = true -> quiet (tcomma v ++ r).
Proof.
  destruct v as [c ts]. cbn [ok_comma clean_comma tcomma]. intros (K & _) C. apply andb_true_iff in C as (C & _).
  rewrite <- app_assoc. now apply quiet_and.
Qed.

(** A list with no comma. *)
Definition short (e : gcomma) : bool := match e with GComma _ [] => true | _ => false end.
(** After a comment, no comma. *)
Definition after (ts : list token) : Prop :=
  match ts with [] => True | x :: r => is_comment x = true -> misses (plit ",") r end.

Definition calm (one : bool) (rest : list token) : Prop := quiet rest \/ (one = true /\ after rest).
Lemma calm_after one rest : calm one rest -> after rest.
Proof.
  intros [Q|(_ & A)]; [|exact A]. destruct rest as [|x r]; [exact I|]. cbn in *. rewrite Q. discriminate.
Qed.

  Section Ladder.
    Variable n : nat.
    Variable pv : parser kvalue.
    Variable kvalue_parses : forall v rest,
      ok_value v -> clean_value v = true -> List.length (tvalue v) < n -> vfollow v rest ->
      pv (tvalue v ++ rest) = POk (kvalue_of (nvalue v)) rest.
    Variable kvalue_misses : forall ts, nostart ts -> quiet ts -> misses pv ts.

    Lemma kopt_value_parses o rest t v :
      oko ok_value o -> optb clean_value o = true -> List.length (tmaybe tvalue o) < n ->
      In v [":"; "]"] -> rest = Tok t v :: List.tl rest -> t = T_Operators ->
      pstar pv (tmaybe tvalue o ++ rest) = POk (match o with Some v => [kvalue_of (nvalue v)] | None => [] end) rest.
    Proof.
      intros K C L I -> ->.
      assert (N : nostart (Tok T_Operators v :: List.tl rest)).
      { destruct I as [<-|[<-|[]]]; cbn; lia. }
      assert (A : above 0 (Tok T_Operators v :: List.tl rest)).
      { destruct I as [<-|[<-|[]]]; cbn; lia. }
      destruct o as [x|]; cbn [oko optb tmaybe] in *.
      - apply pstar_one.
        + apply kvalue_parses; auto. now apply vfollow_above.
        + now apply kvalue_misses.
        + apply begins_nonempty, begins_app, (value_begins fnumber_token); auto.
      - apply pstar_nil. now apply kvalue_misses.
    Qed.

    Lemma kmterm_parses t rest :
      ok_mterm t -> clean_mterm t = true -> List.length (tmterm t) < n ->
      pkmterm pv (tmterm t ++ rest) = POk (kmterm_of' (nmterm t)) rest.
    Proof.
      destruct t as [i|i j| |s]; cbn [ok_mterm clean_mterm tmterm nmterm]; intros K C L; unfold pkmterm.
      - apply alt_left. cbn [app]. rewrite (bind_ok _ _ _ "[" (tvalue i ++ [op "]"] ++ rest)).
        2:{ rewrite app_assoc. apply plit_hit. }
        rewrite (bind_ok _ _ _ [kvalue_of (nvalue i)] (op "]" :: rest)).
        2:{ apply (kopt_value_parses (Some i) (op "]" :: rest) T_Operators "]"); cbn [oko optb tmaybe]; auto.
            - cbn [List.length] in L. rewrite app_length in L. lia.
            - cbn. auto. }
        rewrite (bind_ok _ _ _ [] (op "]" :: rest)) by (apply pstar_nil, plit_miss; discriminate).
        rewrite (bind_ok _ _ _ [] (op "]" :: rest)) by (apply pstar_nil, kvalue_misses; [cbn; lia|reflexivity]).
        rewrite (bind_ok _ _ _ "]" rest) by apply plit_hit. reflexivity.
      - apply alt_left. cbn [app]. rewrite <- app_assoc.
        rewrite (bind_ok _ _ _ "[" _) by apply plit_hit.
        cbn [List.length] in L. rewrite app_length in L. cbn [List.length] in L. rewrite app_length in L.
        apply andb_true_iff in C as (C1 & C2). destruct K as (K1 & K2).
        cbn [app]. rewrite <- app_assoc. cbn [app].
        erewrite bind_ok.
        2:{ eapply (kopt_value_parses i _ T_Operators ":"); auto; [lia|cbn; auto]. }
        rewrite (bind_ok _ _ _ [":"] (tmaybe tvalue j ++ op "]" :: rest)).
        2:{ apply pstar_one; [apply plit_hit| |discriminate].
            destruct j as [j|]; cbn [tmaybe app].
            - apply begins_not_lit; [|vm_compute; tauto|discriminate].
              apply begins_app, (value_begins fnumber_token); auto.
            - apply plit_miss. discriminate. }
        erewrite bind_ok.
        2:{ eapply (kopt_value_parses j _ T_Operators "]"); auto; [lia|cbn; auto]. }
        rewrite (bind_ok _ _ _ "]" rest) by apply plit_hit.
        destruct i, j; reflexivity.
      - discriminate.
      - apply alt_right.
        + apply bind_miss, plit_miss. discriminate.
        + cbn [app]. rewrite (bind_ok _ _ _ "." (tident s :: rest)) by apply plit_hit.
          rewrite (bind_ok _ _ _ s rest) by apply ptok_hit. reflexivity.
    Qed.

    Lemma kmember_parses e rest :
      ok_member e -> clean_member e = true -> List.length (tmember e) < n -> above 0 rest ->
      pkmember pv (tmember e ++ rest) = POk (kmember_of (nmember e)) rest.
    Proof.
      destruct e as [v ts]. cbn [ok_member clean_member tmember nmember]. intros (K1 & K2 & K3) C L A.
      apply andb_true_iff in C as (C1 & C2). rewrite app_length in L.
      unfold pkmember. rewrite <- app_assoc. rewrite com1_ok by now apply quiet_value.
      rewrite (bind_ok _ _ _ (kvalue_of (nvalue v)) (flat_map tmterm ts ++ rest)).
      - rewrite (bind_ok _ _ _ (map (fun x => kmterm_of' (nmterm x)) ts) rest); [cbn [kmember_of]; now rewrite map_map|].
        apply pstar_list with (F := fun _ => True); auto.
        + intros t r I _. apply kmterm_parses.
          * rewrite all_in in K2. auto.
          * rewrite allb_in in C2. auto.
          * pose proof (length_flat_map_in tmterm ts t I). lia.
        + intros t I. destruct t; discriminate.
        + unfold pkmterm. apply alt_miss; apply bind_miss;
            (apply (plit_above 0); [assumption|vm_compute; tauto|cbn; lia]).
      - apply kvalue_parses; auto; [lia|].
        destruct ts as [|t ts]; [now apply vfollow_above|].
        destruct v; cbn; auto. cbn in K3.
        destruct t; try (split; [|intros _]; apply plit_miss; discriminate).
        destruct called; [|contradiction]. split; [apply plit_miss; discriminate|discriminate].
    Qed.

    Lemma kmul_parses e rest :
      ok_mul e -> clean_mul e = true -> List.length (tmul e) < n -> above 1 rest ->
      pkmul pv (tmul e ++ rest) = POk (kmul_of (nmul e)) rest.
    Proof.
      destruct e as [m ts]. cbn [ok_mul clean_mul tmul nmul]. intros (K1 & K2) C L A.
      apply andb_true_iff in C as (C1 & C2). rewrite app_length in L. rewrite all_in in K2. rewrite allb_in in C2.
      unfold pkmul. rewrite <- app_assoc. rewrite com1_ok by now apply quiet_member.
      rewrite (bind_ok _ _ _ (kmember_of (nmember m)) (flat_map (top op tvalue) ts ++ rest)).
      - rewrite (bind_ok _ _ _ (map (fun t => (fst t, kvalue_of (nvalue (snd t)))) ts) rest); [cbn [kmul_of]; now rewrite map_map|].
        apply pstar_list with (F := above 0); auto.
        + intros (o, v) r I F. cbn [top app fst snd].
          destruct (K2 _ I) as (O & V).
          rewrite (bind_ok _ _ _ o (tvalue v ++ r)).
          * rewrite (bind_ok _ _ _ (kvalue_of (nvalue v)) r); [reflexivity|].
            apply kvalue_parses; auto; [apply (C2 _ I)| |now apply vfollow_above].
            pose proof (length_flat_map_in (top op tvalue) ts _ I) as Q. cbn [top List.length] in Q. lia.
          * destruct O as [<-|[<-|[]]]; [apply alt_left, plit_hit|].
            apply alt_right; [apply plit_miss; discriminate|apply plit_hit].
        + intros (o, v) r I. apply above_op_1. apply (K2 _ I).
        + intros (o, v) I. discriminate.
        + now apply (above_le 1); [lia|].
        + apply bind_miss. apply alt_miss; (apply (plit_above 1); [assumption|vm_compute; tauto|cbn; lia]).
      - apply kmember_parses; auto; [lia|].
        destruct ts as [|(o, v) ts]; [now apply (above_le 1); [lia|]|].
        cbn [flat_map top app]. apply above_op_1. apply (K2 (o, v)). now left.
    Qed.

    Lemma kadd_parses e rest :
      ok_add e -> clean_add e = true -> List.length (tadd e) < n -> above 2 rest ->
      pkadd pv (tadd e ++ rest) = POk (kadd_of (nadd e)) rest.
    Proof.
      destruct e as [m ts]. cbn [ok_add clean_add tadd nadd]. intros (K1 & K2) C L A.
      apply andb_true_iff in C as (C1 & C2). rewrite app_length in L. rewrite all_in in K2. rewrite allb_in in C2.
      unfold pkadd. rewrite <- app_assoc. rewrite com1_ok by now apply quiet_mul.
      rewrite (bind_ok _ _ _ (kmul_of (nmul m)) (flat_map (top op tmul) ts ++ rest)).
      - rewrite (bind_ok _ _ _ (map (fun t => (fst t, kmul_of (nmul (snd t)))) ts) rest); [cbn [kadd_of]; now rewrite map_map|].
        apply pstar_list with (F := above 1); auto.
        + intros (o, v) r I F. cbn [top app fst snd].
          destruct (K2 _ I) as (O & V).
          rewrite (bind_ok _ _ _ o (tmul v ++ r)).
          * rewrite (bind_ok _ _ _ (kmul_of (nmul v)) r); [reflexivity|].
            apply kmul_parses; auto; [apply (C2 _ I)|].
            pose proof (length_flat_map_in (top op tmul) ts _ I) as Q. cbn [top List.length] in Q. lia.
          * destruct O as [<-|[<-|[]]]; [apply alt_left, plit_hit|].
            apply alt_right; [apply plit_miss; discriminate|apply plit_hit].
        + intros (o, v) r I. apply above_op_2. apply (K2 _ I).
        + intros (o, v) I. discriminate.
        + now apply (above_le 2); [lia|].
        + apply bind_miss. apply alt_miss; (apply (plit_above 2); [assumption|vm_compute; tauto|cbn; lia]).
      - apply kmul_parses; auto; [lia|].
        destruct ts as [|(o, v) ts]; [now apply (above_le 2); [lia|]|].
        cbn [flat_map top app]. apply above_op_2. apply (K2 (o, v)). now left.
    Qed.

    Lemma kcond_parses : forall m e rest,
      ok_cond e -> clean_cond e = true -> List.length (tcond e) < n -> List.length (tcond e) < m ->
      above 3 rest ->
      pkcond pv m (tcond e ++ rest) = POk (kcond_of (ncond e)) rest.
    Proof.
      induction m as [|m IH]; intros e rest K C L M A; [lia|].
      cbn [pkcond]. rewrite com1_ok by now apply quiet_cond. destruct e as [c|a r]; cbn [ok_cond clean_cond tcond ncond] in *.
      - rewrite (bind_ok _ _ _ (inl (kcond_of (ncond c))) rest).
        + rewrite (bind_ok _ _ _ [] rest); [reflexivity|].
          apply pstar_nil, bind_miss. now apply cmpop_misses.
        + apply alt_left. cbn [app]. rewrite (bind_ok _ _ _ "NOT" (tcond c ++ rest)) by apply ptok_hit.
          rewrite (bind_ok _ _ _ (kcond_of (ncond c)) rest); [reflexivity|].
          apply IH; auto; cbn in L, M; lia.
      - destruct K as (K1 & K2). apply andb_true_iff in C as (C1 & C2). rewrite app_length in L.
        rewrite <- app_assoc.
        rewrite (bind_ok _ _ _ (inr (kadd_of (nadd a))) (tmaybe (top tcmp_op tadd) r ++ rest)).
        + rewrite (bind_ok _ _ _ (match r with Some t => [(fst t, kadd_of (nadd (snd t)))] | None => [] end) rest);
            [destruct r; reflexivity|].
          destruct r as [(o, b)|]; cbn [tmaybe top app oko ok_op optb fst snd] in *.
          * apply pstar_one; [|apply bind_miss; now apply cmpop_misses|discriminate].
            rewrite (bind_ok _ _ _ o (tadd b ++ rest)) by (apply cmpop_parses, K2).
            rewrite (bind_ok _ _ _ (kadd_of (nadd b)) rest); [reflexivity|].
            apply kadd_parses; auto; [apply K2|cbn [List.length] in L; lia|now apply (above_le 3); [lia|]].
          * apply pstar_nil, bind_miss. now apply cmpop_misses.
        + apply alt_right.
          * apply bind_miss. apply begins_not_not. apply begins_app. apply (add_begins fnumber_token); auto.
          * rewrite (bind_ok _ _ _ (kadd_of (nadd a)) (tmaybe (top tcmp_op tadd) r ++ rest)); [reflexivity|].
            apply kadd_parses; auto; [lia|].
            destruct r as [(o, b)|]; cbn [tmaybe top app oko ok_op] in *.
            -- apply cmpop_above, K2.
            -- now apply (above_le 3); [lia|].
    Qed.

    Variable m : nat.
    Variable n_le_m : n <= m.

    Lemma kor_parses e rest :
      ok_or e -> clean_or e = true -> List.length (tor e) < n -> above 4 rest ->
      pkor pv m (tor e ++ rest) = POk (kor_of (nor e)) rest.
    Proof.
      destruct e as [c ts]. cbn [ok_or clean_or tor nor]. intros (K1 & K2) C L A.
      apply andb_true_iff in C as (C1 & C2). rewrite app_length in L. rewrite all_in in K2. rewrite allb_in in C2.
      unfold pkor. rewrite <- app_assoc. rewrite com1_ok by now apply quiet_cond.
      rewrite (bind_ok _ _ _ (kcond_of (ncond c)) (flat_map (top tor_op tcond) ts ++ rest)).
      - rewrite (bind_ok _ _ _ (map (fun t => (fst t, kcond_of (ncond (snd t)))) ts) rest); [cbn [kor_of]; now rewrite map_map|].
        apply pstar_list with (F := above 3); auto.
        + intros (o, v) r I F. cbn [top app fst snd].
          destruct (K2 _ I) as (O & V).
          rewrite (bind_ok _ _ _ o (tcond v ++ r)).
          * pose proof (length_flat_map_in (top tor_op tcond) ts _ I) as Q. cbn [top List.length] in Q.
            rewrite (bind_ok _ _ _ (kcond_of (ncond v)) r); [reflexivity|].
            apply kcond_parses; auto; [apply (C2 _ I)|lia|lia].
          * unfold tor_op. destruct (first_char _ o).
            -- apply alt_right; [apply ptok_miss; discriminate|apply ptok_hit].
            -- apply alt_left, ptok_hit.
        + intros (o, v) r I. cbn. rewrite (or_op_cases 0 0 (le_n 0) o); [lia|apply (K2 _ I)].
        + intros (o, v) I. discriminate.
        + now apply (above_le 4); [lia|].
        + apply bind_miss. apply alt_miss; (apply (ptok_above 4); [assumption|cbn; lia]).
      - apply kcond_parses; auto; [lia|lia|].
        destruct ts as [|(o, v) ts]; [now apply (above_le 4); [lia|]|].
        cbn [flat_map top app above]. rewrite (or_op_cases 0 0 (le_n 0) o); [lia|apply (K2 (o, v)); now left].
    Qed.

    Lemma kand_parses e rest :
      ok_and e -> clean_and e = true -> List.length (tand e) < n -> above 5 rest ->
      pkand pv m (tand e ++ rest) = POk (kand_of (nand e)) rest.
    Proof.
      destruct e as [c ts]. cbn [ok_and clean_and tand nand]. intros (K1 & K2) C L A.
      apply andb_true_iff in C as (C1 & C2). rewrite app_length in L. rewrite all_in in K2. rewrite allb_in in C2.
      unfold pkand. rewrite <- app_assoc. rewrite com1_ok by now apply quiet_or.
      rewrite (bind_ok _ _ _ (kor_of (nor c)) (flat_map (top tand_op tor) ts ++ rest)).
      - rewrite (bind_ok _ _ _ (map (fun t => (fst t, kor_of (nor (snd t)))) ts) rest); [cbn [kand_of]; now rewrite map_map|].
        apply pstar_list with (F := above 4); auto.
        + intros (o, v) r I F. cbn [top app fst snd].
          destruct (K2 _ I) as (O & V).
          rewrite (bind_ok _ _ _ o (tor v ++ r)).
          * pose proof (length_flat_map_in (top tand_op tor) ts _ I) as Q. cbn [top List.length] in Q.
            rewrite (bind_ok _ _ _ (kor_of (nor v)) r); [reflexivity|].
            apply kor_parses; auto; [apply (C2 _ I)|lia].
          * unfold tand_op. destruct (String.eqb o "&&").
            -- apply alt_right; [apply ptok_miss; discriminate|apply ptok_hit].
            -- apply alt_left, ptok_hit.
        + intros (o, v) r I. cbn. rewrite (and_op_cases 0 0 (le_n 0) o); [lia|apply (K2 _ I)].
        + intros (o, v) I. discriminate.
        + now apply (above_le 5); [lia|].
        + apply bind_miss. apply alt_miss; (apply (ptok_above 5); [assumption|cbn; lia]).
      - apply kor_parses; auto; [lia|].
        destruct ts as [|(o, v) ts]; [now apply (above_le 5); [lia|]|].
        cbn [flat_map top app above]. rewrite (and_op_cases 0 0 (le_n 0) o); [lia|apply (K2 (o, v)); now left].
    Qed.

    Variable m_pos : 0 < m.
    Lemma kand_misses ts : nostart ts -> quiet ts -> misses (pkand pv m) ts.
    Proof.
      intros N Q. unfold pkand, pkor. apply com1_misses; [exact Q|]. apply bind_miss.
      apply com1_misses; [exact Q|]. apply bind_miss. destruct m as [|k]; [lia|]. cbn [pkcond].
      apply com1_misses; [exact Q|].
      apply bind_miss, alt_miss.
      - apply bind_miss. now apply ptok_nostart.
      - unfold pkadd, pkmul, pkmember. do 3 (apply bind_miss; apply com1_misses; [exact Q|]).
        apply bind_miss. now apply kvalue_misses.
    Qed.
    Lemma kcomma_misses ts : nostart ts -> quiet ts -> misses (pkcomma pv m) ts.
    Proof. intros N Q. unfold pkcomma. apply com1_misses; [exact Q|]. now apply bind_miss, kand_misses. Qed.
    Lemma kterm_misses ts : above 7 ts -> after ts -> misses (pkterm pv m) ts.
    Proof.
      intros A F. unfold pkterm. destruct ts as [|x r].
      - apply com1_misses; [exact I|]. apply bind_miss, plit_miss_nil.
      - cbn [after] in F. destruct (is_comment x) eqn:E.
        + destruct (F eq_refl) as (r' & H & S). clear F.
          assert (R : exists c, pcomment (x :: r) = POk c r).
          { unfold pcomment, alt, pbind, ptok. unfold is_comment in E.
            destruct (tt x); try discriminate E; cbn [ttype_beq]; rewrite ?CommentProofs.stop_same; eexists; reflexivity. }
          destruct R as (c & R).
          assert (r' = r).
          { unfold plit in H. destruct r as [|y r]; [now injection H|]. destruct (String.eqb _ _); [discriminate|now injection H]. }
          subst r'. exists r. split; [|apply stop_one].
          unfold pcom1. rewrite (bind_ok _ _ _ [c] r).
          * now apply bind_fail.
          * rewrite (bind_ok _ _ _ (Some c) r); [reflexivity|]. now apply popt_some.
        + apply com1_misses; [exact E|]. apply bind_miss. apply (plit_above 7); [assumption|vm_compute; tauto|cbn; lia].
    Qed.

    Lemma kcomma_parses e rest :
      ok_comma e -> clean_comma e = true -> List.length (tcomma e) < n -> above 7 rest -> calm (short e) rest ->
      pkcomma pv m (tcomma e ++ rest) = POk (kcomma_of (ncomma e)) rest.
    Proof.
      destruct e as [c ts]. cbn [ok_comma clean_comma tcomma ncomma]. intros (K1 & K2) C L A Q.
      apply andb_true_iff in C as (C1 & C2). rewrite app_length in L. rewrite all_in in K2. rewrite allb_in in C2.
      unfold pkcomma. rewrite <- app_assoc. rewrite com1_ok by now apply quiet_and.
      rewrite (bind_ok _ _ _ (kand_of (nand c)) (flat_map (fun t => op "," :: tmaybe tand t) ts ++ rest)).
      - rewrite (bind_ok _ _ _ (map (fun t => KItem [] [] (option_map (fun a => kand_of (nand a)) t)) ts) rest).
        { cbn [kcomma_of]. rewrite map_map. unfold pret. do 2 f_equal. apply map_ext. intros [a|]; reflexivity. }
        pose proof (calm_after _ _ Q) as Qa.
        destruct ts as [|t ts]; [apply pstar_nil; now apply kterm_misses|].
        destruct Q as [Q|(Q & _)]; [|discriminate Q].
        set (us := t :: ts) in *.
        apply pstar_list with (F := fun r => above 5 r /\ nostart r /\ quiet r); auto.
        + intros o r I (F & N & Qr). cbn [app].
          pose proof (length_flat_map_in (fun t => op "," :: tmaybe tand t) us _ I) as Ql.
          cbn [List.length] in Ql. unfold pkterm. rewrite com1_ok by reflexivity.
          rewrite (bind_ok _ _ _ "," (tmaybe tand o ++ r)) by apply plit_hit.
          destruct o as [a|]; cbn [tmaybe] in *.
          * assert (Ka : ok_and a) by (apply (K2 (Some a)); assumption).
            assert (Ca : clean_and a = true) by (apply (C2 (Some a)); assumption).
            rewrite com1_ok by now apply quiet_and.
            rewrite (bind_ok _ _ _ [kand_of (nand a)] r); [reflexivity|].
            apply pstar_one.
            -- apply kand_parses; auto. lia.
            -- now apply kand_misses.
            -- pose proof ((and_begins fnumber_token) a Ka Ca) as B. destruct (tand a); [|discriminate].
               destruct B as [B|B]; contradiction.
          * cbn [app]. rewrite com1_ok by assumption.
            rewrite (bind_ok _ _ _ [] r); [reflexivity|].
            apply pstar_nil. now apply kand_misses.
        + intros o r I. cbn. repeat split; lia.
        + intros o I. discriminate.
        + split; [now apply (above_le 7); [lia|]|]. split; [now apply above_nostart|assumption].
        + now apply kterm_misses.
      - apply kand_parses; auto; [lia|].
        destruct ts as [|o ts]; [now apply (above_le 7); [lia|]|].
        cbn. lia.
    Qed.
  End Ladder.

  (** ** Values, arguments and queries *)

  (** What may come after a query. *)
  Definition short_select (s : gselect) : bool :=
    match s with GSelect _ _ _ _ w g _ _ => optb short w && optb short g end.

  Section Knot.
    Variable n : nat.
    Variable pv : parser kvalue.
    Variable ps : parser kselect.
    Variable kvalue_parses : forall v rest,
      ok_value v -> clean_value v = true -> List.length (tvalue v) < n -> vfollow v rest ->
      pv (tvalue v ++ rest) = POk (kvalue_of (nvalue v)) rest.
    Variable kvalue_misses : 0 < n -> forall ts, nostart ts -> quiet ts -> misses pv ts.
    Variable kselect_parses : forall s rest,
      ok_select s -> clean_select s = true -> List.length (tselect s) < n -> sfollow rest ->
      calm (short_select s) rest ->
      ps (tselect s ++ rest) = POk (kselect_of (nselect s)) rest.
    Variable m : nat.
    Variable n_le_m : n <= m.
    Variable m_pos : 0 < m.

    Lemma karg_parses a rest :
      ok_arg a -> clean_arg a = true -> List.length (targ a) < S n -> above 5 rest ->
      pkarg m pv ps (targ a ++ rest) = POk (karg_of (narg a)) rest.
    Proof.
      intros K C L A. unfold pkarg.
      destruct a as [x e|x s|x c]; cbn [ok_arg clean_arg targ narg] in *; cbn [app];
        (rewrite com1_ok by reflexivity); (rewrite (bind_ok _ _ _ x _) by apply ptok_hit);
        (rewrite (bind_ok _ _ _ "=" _) by apply plit_hit); destruct K as (K1 & K2); cbn [List.length] in L.
      - assert (B : begins' (tand e ++ rest)) by now apply begins'_app, (and_begins fnumber_token).
        apply alt_right; [apply bind_miss; apply begins'_not_lit; auto; [vm_compute; tauto|discriminate]|].
        apply alt_right; [apply bind_miss; apply begins'_not_lit; auto; [vm_compute; tauto|discriminate]|].
        rewrite (bind_ok _ _ _ (kand_of (nand e)) rest); [reflexivity|].
        apply kand_parses with (n := n); auto; [apply kvalue_misses|]; lia.
      - apply alt_left. rewrite <- app_assoc. rewrite (bind_ok _ _ _ "{" _) by apply plit_hit.
        rewrite (bind_ok _ _ _ (kselect_of (nselect s)) (op "}" :: rest)).
        + rewrite (bind_ok _ _ _ "}" rest) by apply plit_hit. reflexivity.
        + apply kselect_parses; auto.
          * rewrite app_length in L. lia.
          * cbn. split; [reflexivity|]. intros [I|[I|[I|[I|[I|[]]]]]]; discriminate I.
          * now left.
      - apply alt_right; [apply bind_miss, plit_miss; discriminate|].
        apply alt_left. rewrite <- app_assoc. rewrite (bind_ok _ _ _ "[" _) by apply plit_hit.
        rewrite (bind_ok _ _ _ (option_map (fun x => kcomma_of (ncomma x)) c) (op "]" :: rest)).
        + rewrite (bind_ok _ _ _ "]" rest) by apply plit_hit. destruct c; reflexivity.
        + rewrite app_length in L. cbn [List.length] in L.
          destruct c as [c|]; cbn [tmaybe option_map oko optb] in *.
          * apply popt_some. apply kcomma_parses with (n := n); auto; [apply kvalue_misses; lia|lia|cbn; lia|now left].
          * apply popt_none. apply kcomma_misses with (n := n); auto; [apply kvalue_misses; lia|cbn; lia|reflexivity].
    Qed.

    Lemma kargs_parse args rest :
      all ok_arg args -> allb clean_arg args = true ->
      List.length (tcall targ args) < S n ->
      (plit "(" ~>> a <~ plist (pkarg m pv ps) ;; plit ")" ~>> pret a) (tcall targ args ++ rest) =
      POk (map (fun x => karg_of (narg x)) args) rest.
    Proof.
      intros K C L. unfold tcall in *. cbn [app]. rewrite <- app_assoc.
      rewrite (bind_ok _ _ _ "(" _) by apply plit_hit.
      rewrite (bind_ok _ _ _ (map (fun x => karg_of (narg x)) args) (op ")" :: rest)).
      - rewrite (bind_ok _ _ _ ")" rest) by apply plit_hit. reflexivity.
      - apply plist_sep with (F := above 5).
        + intros a r I F. apply karg_parses; auto.
          * rewrite all_in in K. auto.
          * rewrite allb_in in C. auto.
          * pose proof (length_tsep_in targ args a I). cbn [List.length] in L.
            rewrite app_length in L. lia.
        + intro r. cbn. lia.
        + cbn. lia.
        + apply plit_miss. discriminate.
        + intros _. apply com1_misses; [reflexivity|]. apply bind_miss, ptok_miss. discriminate.
    Qed.

    Lemma kvalue_step_parses v rest :
      ok_value v -> clean_value v = true -> List.length (tvalue v) < S n -> vfollow v rest ->
      pkvalue_step m pv ps (tvalue v ++ rest) = POk (kvalue_of (nvalue v)) rest.
    Proof.
      intros K C L V. pose proof ((value_begins fnumber_token) v K C) as B. unfold pkvalue_step.
      assert (Q : quiet (tvalue v ++ rest)) by now apply quiet_value.
      rewrite com1_ok by exact Q.
      assert (V1 : forall a, alt (pksymref m pv ps)
        (alt (plit "(" ~>> e <~ pkcomma pv m ;; plit ")" ~>> pret (KSub e))
        (alt (s <~ alt (ptok T_MultilineString) (ptok T_String) ;; pret (KString s))
        (alt (s <~ ptok T_Number ;; pret (KNumber s))
        (alt (s <~ ptok T_BOOL ;; pret (KBool s))
             (ptok T_NULL ~>> pret KNull))))) (tvalue v ++ rest) = POk a rest ->
        kvalue_of (nvalue v) = KValue [] a ->
        pbind (alt (pksymref m pv ps)
        (alt (plit "(" ~>> e <~ pkcomma pv m ;; plit ")" ~>> pret (KSub e))
        (alt (s <~ alt (ptok T_MultilineString) (ptok T_String) ;; pret (KString s))
        (alt (s <~ ptok T_Number ;; pret (KNumber s))
        (alt (s <~ ptok T_BOOL ;; pret (KBool s))
             (ptok T_NULL ~>> pret KNull)))))) (fun a => pret (KValue [] a)) (tvalue v ++ rest) = POk (kvalue_of (nvalue v)) rest).
      { intros a H ->. now rewrite (bind_ok _ _ _ a rest). }
      assert (exists a, kvalue_of (nvalue v) = KValue [] a) as (a & Ea) by (destruct v; cbn; eauto).
      apply (V1 a); [clear V1|exact Ea].
      assert (NS : forall ts, quiet ts -> misses (ptok T_SymbolIdent) ts -> misses (ptok T_Ident) ts ->
                              misses (pksymref m pv ps) ts).
      { intros ts Q0 H1 H2. unfold pksymref, ppath. apply com1_misses; [exact Q0|]. do 2 apply bind_miss. now apply alt_miss. }
      destruct v as [s called args|c|s|s|s|]; cbn [ok_value clean_value tvalue nvalue vfollow kvalue_of] in *;
        injection Ea as <-.
      - apply alt_left. destruct K as (K1 & K2 & K3). unfold pksymref. rewrite com1_ok by exact Q. rewrite <- app_assoc.
        destruct V as (V1 & V2). rewrite app_length in L.
        destruct called.
        + cbn [negb andb] in *.
          rewrite (bind_ok _ _ _ s (tcall targ args ++ rest)).
          * rewrite (bind_ok _ _ _ [map (fun x => karg_of (narg x)) args] rest).
            -- cbn [nonempty List.concat]. rewrite app_nil_r. cbn [pret]. unfold pret. now rewrite map_map.
            -- apply pstar_one; [apply kargs_parse; auto; lia| |discriminate]. now apply bind_miss.
          * apply symbol_parses; auto. apply plit_miss. discriminate.
        + destruct K2 as [E0|E0]; [discriminate|subst args]. cbn [negb andb app].
          rewrite (bind_ok _ _ _ s rest) by (apply symbol_parses; auto).
          rewrite (bind_ok _ _ _ [] rest); [reflexivity|]. now apply pstar_nil, bind_miss.
      - cbn [app]. apply alt_right; [apply NS; [exact Q| |]; apply ptok_miss; discriminate|]. apply alt_left.
        rewrite <- app_assoc. rewrite (bind_ok _ _ _ "(" _) by apply plit_hit.
        rewrite (bind_ok _ _ _ (kcomma_of (ncomma c)) (op ")" :: rest)).
        + rewrite (bind_ok _ _ _ ")" rest) by apply plit_hit. reflexivity.
        + cbn [List.length] in L. rewrite app_length in L. cbn [List.length] in L.
          apply kcomma_parses with (n := n); auto; [apply kvalue_misses; lia|lia|cbn; lia|now left].
      - cbn [app]. unfold tstring in *.
        assert (tv (Tok (if strip_prefix triple s then T_MultilineString else T_String) s) <> "(") as N.
        { cbn. intros ->. cbn in K. specialize (K "" eq_refl). discriminate K. }
        apply alt_right; [apply NS; [exact Q| |]; apply ptok_miss; cbn [tt]; (destruct (strip_prefix triple s); let Q := fresh in intro Q; discriminate Q)|].
        apply alt_right; [apply bind_miss, plit_miss; exact N|]. apply alt_left.
        rewrite (bind_ok _ _ _ s rest); [reflexivity|].
        destruct (strip_prefix triple s); [apply alt_left, ptok_hit|].
        apply alt_right; [apply ptok_miss; discriminate|apply ptok_hit].
      - cbn [app]. pose proof (fnumber_token s C) as R.
        apply alt_right; [apply NS; [exact Q| |]; apply ptok_miss; discriminate|].
        apply alt_right. { apply bind_miss, plit_miss. cbn. intro E. rewrite E in R.
                           specialize (R "" eq_refl). discriminate R. }
        apply alt_right; [apply bind_miss, alt_miss; apply ptok_miss; discriminate|]. apply alt_left.
        rewrite (bind_ok _ _ _ (fnumber s) rest) by apply ptok_hit. reflexivity.
      - cbn [app].
        apply alt_right; [apply NS; [exact Q| |]; apply ptok_miss; discriminate|].
        apply alt_right. { apply bind_miss, plit_miss. cbn. intros ->.
                           specialize (K "" eq_refl). discriminate K. }
        apply alt_right; [apply bind_miss, alt_miss; apply ptok_miss; discriminate|].
        apply alt_right; [apply bind_miss, ptok_miss; discriminate|]. apply alt_left.
        rewrite (bind_ok _ _ _ s rest) by apply ptok_hit. reflexivity.
      - cbn [app].
        apply alt_right; [apply NS; [exact Q| |]; apply ptok_miss; discriminate|].
        apply alt_right; [apply bind_miss, plit_miss; discriminate|].
        apply alt_right; [apply bind_miss, alt_miss; apply ptok_miss; discriminate|].
        apply alt_right; [apply bind_miss, ptok_miss; discriminate|].
        apply alt_right; [apply bind_miss, ptok_miss; discriminate|].
        rewrite (bind_ok _ _ _ "NULL" rest) by apply ptok_hit. reflexivity.
    Qed.

    Lemma kvalue_step_misses ts : nostart ts -> quiet ts -> misses (pkvalue_step m pv ps) ts.
    Proof.
      intros N Q. unfold pkvalue_step, pksymref, ppath. apply com1_misses; [exact Q|]. apply bind_miss.
      apply alt_miss; [apply com1_misses; [exact Q|]|].
      { apply bind_miss, bind_miss, alt_miss; (apply ptok_nostart; [assumption|reflexivity]). }
      repeat apply alt_miss; repeat apply bind_miss; try apply alt_miss;
        try (apply ptok_nostart; [assumption|reflexivity]).
      apply plit_nostart; [assumption|vm_compute; tauto|reflexivity].
    Qed.

    Lemma kplugin_parses f rest :
      ok_plugin f -> clean_plugin f = true -> List.length (tplugin f) < S n -> above 0 rest ->
      pkplugin m pv ps (tplugin f ++ rest) = POk (kplugin_of (nplugin f)) rest.
    Proof.
      destruct f as [s call args]. cbn [ok_plugin clean_plugin tplugin nplugin]. intros (K1 & K2 & K3) C L A.
      unfold pkplugin. rewrite <- app_assoc. rewrite app_length in L. destruct call.
      - rewrite (bind_ok _ _ _ s (tcall targ args ++ rest)).
        + rewrite (bind_ok _ _ _ (Some (map (fun x => karg_of (narg x)) args)) rest); [cbn [kplugin_of]; unfold pret; now rewrite map_map|].
          apply popt_some. apply kargs_parse; auto. lia.
        + apply name_parses; auto. apply plit_miss. discriminate.
      - destruct K2 as [E0|E0]; [discriminate|subst args]. cbn [app].
        rewrite (bind_ok _ _ _ s rest).
        + rewrite (bind_ok _ _ _ None rest); [reflexivity|].
          apply popt_none, bind_miss. apply (plit_above 0); [assumption|vm_compute; tauto|cbn; lia].
        + apply name_parses; auto. apply (plit_above 0); [assumption|vm_compute; tauto|cbn; lia].
    Qed.

    Lemma kalias_above a rest : above 5 rest -> above 5 (talias a ++ rest).
    Proof.
      apply (alias_above 0 (fun _ => PFuel)) with (m := 1); try lia.
    Qed.
    Lemma kkeyword_tail {A} (f : A -> list token) o rest t k :
      (forall a, List.hd_error (f a) = Some (Tok t k)) -> lvl (Tok t k) = 8 ->
      above 7 rest -> above 7 (tmaybe f o ++ rest).
    Proof.
      apply (keyword_tail 0 (fun _ => PFuel)) with (m := 1); try lia.
    Qed.

    Lemma kcol_parses c rest :
      ok_col c -> clean_col c = true -> List.length (tcol c) < n -> cfollow rest ->
      pkcol m pv ps (tcol c ++ rest) = POk (kcol_of (ncol c)) rest.
    Proof.
      intros K C L (F1 & F2). unfold pkcol.
      rewrite coms_ok.
      2:{ destruct c; cbn [ok_col clean_col tcol] in *; try reflexivity. rewrite <- app_assoc. apply quiet_and; tauto. }
      destruct c as [a|s a|e a]; cbn [ok_col clean_col tcol ncol] in *.
      - cbn [app]. rewrite (bind_ok _ _ _ (KStar []) (talias a ++ rest)).
        + rewrite (bind_ok _ _ _ a rest) by now apply alias_parses. reflexivity.
        + apply alt_left. rewrite (bind_ok _ _ _ "*" (talias a ++ rest)) by apply plit_hit. reflexivity.
      - destruct K as (K1 & K2). cbn [List.length] in L. rewrite app_length in L. cbn [List.length] in L.
        cbn [app]. rewrite <- app_assoc. cbn [app].
        rewrite (bind_ok _ _ _ (KColSelect [] (kselect_of (nselect s))) (talias a ++ rest)).
        + rewrite (bind_ok _ _ _ a rest) by now apply alias_parses. reflexivity.
        + apply alt_right; [apply bind_miss, plit_miss; discriminate|]. apply alt_left.
          rewrite (bind_ok _ _ _ "{" _) by apply plit_hit.
          rewrite (bind_ok _ _ _ (kselect_of (nselect s)) (op "}" :: talias a ++ rest)).
          * rewrite (bind_ok _ _ _ "}" _) by apply plit_hit. reflexivity.
          * apply kselect_parses; auto; [lia| |now left].
            cbn. split; [reflexivity|]. intros [I|[I|[I|[I|[I|[]]]]]]; discriminate I.
      - destruct K as (K1 & K2). rewrite app_length in L. rewrite <- app_assoc.
        assert (B : begins' (tand e ++ talias a ++ rest)) by now apply begins'_app, (and_begins fnumber_token).
        rewrite (bind_ok _ _ _ (KColExpr [] (kand_of (nand e))) (talias a ++ rest)).
        + rewrite (bind_ok _ _ _ a rest) by now apply alias_parses. reflexivity.
        + apply alt_right; [apply bind_miss; apply begins'_not_lit; auto; [vm_compute; tauto|discriminate]|].
          apply alt_right; [apply bind_miss; apply begins'_not_lit; auto; [vm_compute; tauto|discriminate]|].
          rewrite (bind_ok _ _ _ (kand_of (nand e)) (talias a ++ rest)); [reflexivity|].
          apply kand_parses with (n := n); auto; [apply kvalue_misses; lia|lia|now apply kalias_above].
    Qed.

    Lemma keyword_calm {A} (f : A -> list token) o one rest :
      (forall x, match f x with y :: _ => is_comment y = false | [] => False end) ->
      calm one rest -> calm one (tmaybe f o ++ rest).
    Proof.
      intros Hf Q. destruct o as [x|]; [|exact Q]. left. cbn [tmaybe]. specialize (Hf x). destruct (f x); [contradiction|exact Hf].
    Qed.
    Lemma calm_weak (a b : bool) rest : (a = true -> b = true) -> calm a rest -> calm b rest.
    Proof. intros H [Q|(E & A)]; [now left|right; auto]. Qed.

    (** The clauses after FROM, from the last. *)
    Lemma kselect_step_parses s rest :
      ok_select s -> clean_select s = true -> List.length (tselect s) < S n -> sfollow rest ->
      calm (short_select s) rest ->
      pkselect_step m pv ps (tselect s ++ rest) = POk (kselect_of (nselect s)) rest.
    Proof.
      destruct s as [explain al cols from w g o l]. cbn [ok_select clean_select tselect nselect].
      intros (K1 & K2 & K3 & K4 & K5 & K6 & K7) C L F Q.
      apply andb_true_iff in C as (C & C4). apply andb_true_iff in C as (C & C3).
      apply andb_true_iff in C as (C1 & C2).
      fold (twhere w) in *. fold (tgroup g) in *. fold (torder o) in *. fold (tlimit l) in *.
      rewrite !app_length in L. cbn [List.length] in L. rewrite !app_length in L. cbn [List.length] in L.
      rewrite !app_length in L.
      (* the tails *)
      set (T4 := tlimit l ++ rest). set (T3 := torder o ++ T4). set (T2 := tgroup g ++ T3).
      set (T1 := twhere w ++ T2).
      assert (A4 : above 7 T4) by (eapply kkeyword_tail; [reflexivity|reflexivity|now apply sfollow_above]).
      assert (A3 : above 7 T3) by (eapply kkeyword_tail; [reflexivity|reflexivity|assumption]).
      assert (A2 : above 7 T2) by (eapply kkeyword_tail; [reflexivity|reflexivity|assumption]).
      assert (A1 : above 7 T1) by (eapply kkeyword_tail; [reflexivity|reflexivity|assumption]).
      assert (M4 : forall u, In u [T_WHERE; T_GROUPBY; T_ORDERBY; T_DESC] -> misses (ptok u) T4).
      { intros u I. eapply keyword_tail_tok; [reflexivity| |].
        - intros <-. cbn in I. intuition discriminate.
        - apply sfollow_tok; auto. cbn in *. tauto. }
      assert (M3 : forall u, In u [T_WHERE; T_GROUPBY] -> misses (ptok u) T3).
      { intros u I. eapply keyword_tail_tok; [reflexivity| |].
        - intros <-. cbn in I. intuition discriminate.
        - apply M4. cbn in *. tauto. }
      assert (M2 : misses (ptok T_WHERE) T2).
      { eapply keyword_tail_tok; [reflexivity|discriminate|]. apply M3. cbn. tauto. }
      assert (Q4 : calm (optb short w && optb short g) T4) by (apply keyword_calm; [reflexivity|exact Q]).
      assert (Q3 : calm (optb short w && optb short g) T3) by (apply keyword_calm; [reflexivity|exact Q4]).
      assert (Q2 : calm (optb short w && optb short g) T2) by (apply keyword_calm; [reflexivity|exact Q3]).
      unfold pkselect_step.
      replace (_ ++ rest) with
        ((if explain then [Tok T_EXPLAIN "EXPLAIN"] else []) ++
         Tok T_SELECT "SELECT" ::
         (if al then op "*" :: match cols with [] => [] | _ :: _ => [op ","] end else []) ++
         tsep tcol cols ++ Tok T_FROM "FROM" :: tplugin from ++ T1).
      2:{ subst T1 T2 T3 T4. repeat (rewrite <- app_assoc; cbn [app]). reflexivity. }
      set (F1 := Tok T_FROM "FROM" :: tplugin from ++ T1).
      set (C0 := tsep tcol cols ++ F1).
      rewrite coms_ok by (destruct explain; reflexivity).
      rewrite (bind_ok _ _ _ (if explain then ["EXPLAIN"] else [])
                 (Tok T_SELECT "SELECT" ::
                  (if al then op "*" :: match cols with [] => [] | _ :: _ => [op ","] end else []) ++ C0)).
      2:{ destruct explain; cbn [app].
          - apply pstar_one; [apply ptok_hit|apply ptok_miss; discriminate|discriminate].
          - apply pstar_nil, ptok_miss. discriminate. }
      rewrite (bind_ok _ _ _ "SELECT" _) by apply ptok_hit.
      assert (CB : forall c, In c cols -> begins' (tcol c) \/ exists r, tcol c = op "{" :: r \/ tcol c = op "*" :: r).
      { intros c I. rewrite all_in in K1. rewrite allb_in in C1. specialize (K1 c I). specialize (C1 c I).
        destruct c; cbn [ok_col clean_col tcol] in *.
        - right. eexists. right. reflexivity.
        - right. eexists. left. reflexivity.
        - left. apply begins'_app, (and_begins fnumber_token); tauto. }
      rewrite (bind_ok _ _ _ (if al then Some (match cols with [] => None | _ :: _ => Some "," end) else None) C0).
      2:{ destruct al; cbn [app].
          - apply popt_some. rewrite (bind_ok _ _ _ "*" (match cols with [] => [] | _ :: _ => [op ","] end ++ C0))
              by apply plit_hit.
            destruct cols as [|c cols]; cbn [app].
            + apply popt_none. subst C0. cbn [tsep app]. apply plit_miss. discriminate.
            + apply popt_some, plit_hit.
          - apply popt_none, bind_miss. subst C0. destruct cols as [|c cols].
            + cbn [tsep app]. apply plit_miss. discriminate.
            + rewrite tsep_cons. rewrite <- app_assoc.
              destruct c as [a|s a|e a]; [contradiction| |].
              * apply plit_miss. discriminate.
              * apply begins'_not_lit; [|vm_compute; tauto|discriminate].
                apply begins'_app. cbn [tcol]. apply begins'_app.
                cbn in K1, C1. apply andb_true_iff in C1 as (C1 & _). apply (and_begins fnumber_token); tauto. }
      rewrite (bind_ok _ _ _ (map (fun x => kcol_of (ncol x)) cols) F1).
      2:{ subst C0. apply plist_sep with (F := cfollow).
          - intros c r I FF. rewrite all_in in K1. rewrite allb_in in C1. apply kcol_parses; auto.
            pose proof (length_tsep_in tcol cols c I). lia.
          - intro r. split; [cbn; lia|apply ptok_miss; discriminate].
          - split; [cbn; lia|apply ptok_miss; discriminate].
          - apply plit_miss. discriminate.
          - intros _. unfold pkcol. apply coms_misses; [reflexivity|]. apply bind_miss. repeat apply alt_miss; apply bind_miss.
            + apply plit_miss. discriminate.
            + apply plit_miss. discriminate.
            + apply kand_misses with (n := n); auto; [apply kvalue_misses; lia|cbn; lia|reflexivity]. }
      subst F1. rewrite (bind_ok _ _ _ "FROM" _) by apply ptok_hit.
      rewrite (bind_ok _ _ _ (kplugin_of (nplugin from)) T1).
      2:{ apply kplugin_parses; auto; [lia|now apply (above_le 7); [lia|]]. }
      rewrite (bind_ok _ _ _ (option_map (fun x => kcomma_of (ncomma x)) w) T2).
      2:{ subst T1. destruct w as [w|]; cbn [twhere tmaybe app option_map oko optb] in *.
          - apply popt_some. rewrite (bind_ok _ _ _ "WHERE" _) by apply ptok_hit.
            apply kcomma_parses with (n := n); auto; [apply kvalue_misses; lia| |].
            + cbn [List.length] in L. lia.
            + eapply calm_weak; [|exact Q2]. intro E. now apply andb_true_iff in E.
          - now apply popt_none, bind_miss. }
      rewrite (bind_ok _ _ _ (option_map (fun x => kcomma_of (ncomma x)) g) T3).
      2:{ subst T2. destruct g as [g|]; cbn [tgroup tmaybe app option_map oko optb] in *.
          - apply popt_some. rewrite (bind_ok _ _ _ "GROUP BY" _) by apply ptok_hit.
            apply kcomma_parses with (n := n); auto; [apply kvalue_misses; lia| |].
            + cbn [List.length] in L. lia.
            + eapply calm_weak; [|exact Q3]. intro E. now apply andb_true_iff in E.
          - apply popt_none, bind_miss, M3. cbn. tauto. }
      rewrite (bind_ok _ _ _ o T4).
      2:{ subst T3. destruct o as [(k, d)|]; cbn [torder tmaybe app oko fst snd] in *.
          - apply popt_some. rewrite (bind_ok _ _ _ "ORDER BY" _) by apply ptok_hit.
            rewrite (bind_ok _ _ _ k _) by apply ptok_hit.
            rewrite (bind_ok _ _ _ (if d then Some "DESC" else None) T4); [destruct d; reflexivity|].
            destruct d; cbn [app].
            + apply popt_some, ptok_hit.
            + apply popt_none, M4. cbn. tauto.
          - apply popt_none, bind_miss, M4. cbn. tauto. }
      rewrite (bind_ok _ _ _ l rest) by now apply limit_parses.
      unfold pret. cbn [kselect_of]. rewrite map_map. destruct explain, al, cols, w, g; reflexivity.
    Qed.

    Lemma kselect_step_misses ts : quiet ts -> misses (ptok T_EXPLAIN) ts -> misses (ptok T_SELECT) ts ->
      misses (pkselect_step m pv ps) ts.
    Proof.
      intros Q H1 H2. unfold pkselect_step. apply coms_misses; [exact Q|]. destruct H2 as (r & H2 & S). exists r.
      rewrite (bind_ok _ _ _ [] ts) by now apply pstar_nil.
      split; [now apply bind_fail|exact S].
    Qed.
  End Knot.

  Lemma kknot_parses : forall n,
    (forall v rest, ok_value v -> clean_value v = true -> List.length (tvalue v) < n -> vfollow v rest ->
       pkvalue n (tvalue v ++ rest) = POk (kvalue_of (nvalue v)) rest) /\
    (forall s rest, ok_select s -> clean_select s = true -> List.length (tselect s) < n -> sfollow rest ->
       calm (short_select s) rest ->
       pkselect n (tselect s ++ rest) = POk (kselect_of (nselect s)) rest) /\
    (0 < n -> forall ts, nostart ts -> quiet ts -> misses (pkvalue n) ts).
  Proof.
    induction n as [|n (IV & IS & IM)].
    - repeat split; intros; lia.
    - assert (EV : pkvalue (S n) = pkvalue_step (S n) (pkvalue n) (pkselect n)).
      { unfold pkvalue, pkselect. cbn [pkknot]. now destruct (pkknot n). }
      assert (ES : pkselect (S n) = pkselect_step (S n) (pkvalue n) (pkselect n)).
      { unfold pkvalue, pkselect. cbn [pkknot]. now destruct (pkknot n). }
      rewrite EV, ES. repeat split.
      + intros. eapply kvalue_step_parses with (n := n); eauto. lia.
      + intros. eapply kselect_step_parses with (n := n); eauto; lia.
      + intros _ ts N Q. now apply kvalue_step_misses.
  Qed.

(** ** Statements *)

Lemma kvalue_parses n v rest :
  ok_value v -> clean_value v = true -> List.length (tvalue v) < n -> vfollow v rest ->
  pkvalue n (tvalue v ++ rest) = POk (kvalue_of (nvalue v)) rest.
Proof. apply (kknot_parses n). Qed.
Lemma kselect_parses n s rest :
  ok_select s -> clean_select s = true -> List.length (tselect s) < n -> sfollow rest ->
  calm (short_select s) rest ->
  pkselect n (tselect s ++ rest) = POk (kselect_of (nselect s)) rest.
Proof. apply (kknot_parses n). Qed.
Lemma kvalue_misses n : 0 < n -> forall ts, nostart ts -> quiet ts -> misses (pkvalue n) ts.
Proof. apply (kknot_parses n). Qed.
Lemma kselect_misses n ts :
  0 < n -> quiet ts -> misses (ptok T_EXPLAIN) ts -> misses (ptok T_SELECT) ts -> misses (pkselect n) ts.
Proof.
  intros L Q H1 H2. destruct n as [|n]; [lia|].
  assert (ES : pkselect (S n) = pkselect_step (S n) (pkvalue n) (pkselect n)).
  { unfold pkvalue, pkselect. cbn [pkknot]. now destruct (pkknot n). }
  rewrite ES. now apply kselect_step_misses.
Qed.
Lemma kand_expr_parses n e rest :
  ok_and e -> clean_and e = true -> List.length (tand e) < n -> above 5 rest ->
  pkand (pkvalue n) n (tand e ++ rest) = POk (kand_of (nand e)) rest.
Proof.
  intros K C L A. apply (kand_parses n); auto.
  - intros. now apply kvalue_parses.
  - apply kvalue_misses. lia.
Qed.

Lemma kparam_parses n p rest :
  ok_param p -> clean_param p = true -> List.length (tparam p) < S n -> above 5 rest ->
  pkparam n (pkvalue n) (pkselect n) (tparam p ++ rest) = POk (kparam_of (nparam p)) rest.
Proof.
  intros K C L A. unfold pkparam. destruct p as [a|s]; cbn [ok_param clean_param tparam nparam] in *.
  - apply alt_left. rewrite (bind_ok _ _ _ (karg_of (narg a)) rest); [reflexivity|].
    destruct n as [|n]; [destruct a; cbn in L; lia|].
    eapply (karg_parses (S n)); auto; try lia.
    + intros. now apply kvalue_parses.
    + intros. now apply kvalue_misses.
    + intros. now apply kselect_parses.
  - apply alt_right.
    + exists rest. cbn [app]. split; [|apply stop_one].
      apply bind_fail. unfold pkarg. rewrite com1_ok by reflexivity. rewrite (bind_ok _ _ _ s rest) by apply ptok_hit. apply bind_fail.
      assert (Q : misses (plit "=") rest) by (apply (plit_above 5); [assumption|vm_compute; tauto|cbn; lia]).
      destruct rest as [|x rest]; [reflexivity|].
      cbn [plit]. destruct Q as (r & Q & _). cbn [plit] in Q.
      destruct (String.eqb (tv x) "="); [discriminate|]. injection Q as <-. reflexivity.
    + cbn [app]. rewrite (bind_ok _ _ _ s rest) by apply ptok_hit. reflexivity.
Qed.

Definition short_vql (x : gvql) : bool :=
  match x with GLet _ _ _ _ (inl s) => short_select s | GLet _ _ _ _ (inr _) => true | GQuery s => short_select s end.

Lemma kvql_parses n x rest :
  ok_vql x -> clean_vql x = true -> List.length (tvql x) < n -> sfollow rest -> calm (short_vql x) rest ->
  pkvql n (tvql x ++ rest) = POk (kvql_of (nvql x)) rest.
Proof.
  intros K C L F Q. unfold pkvql, pkvql_step. destruct x as [name called ps o body|s].
  - apply alt_left. cbn [ok_vql clean_vql tvql nvql] in *. destruct K as (K1 & K2 & K3 & K4 & K5).
    apply andb_true_iff in C as (C & C4). apply andb_true_iff in C as (C & C3). apply andb_true_iff in C as (C1 & C2).
    cbn [app List.length] in *. rewrite app_length in L. cbn [List.length] in L.
    rewrite (bind_ok _ _ _ "LET" _) by apply ptok_hit.
    rewrite (bind_ok _ _ _ name _) by apply ptok_hit.
    rewrite <- app_assoc. cbn [app].
    set (B := match body with inl s => tselect s | inr e => tand e end) in *.
    rewrite (bind_ok _ _ _ (if called then Some (map (fun x => kparam_of (nparam x)) ps) else None) (op o :: B ++ rest)).
    2:{ destruct called; cbn [app].
        - apply popt_some. unfold tcall. cbn [app]. rewrite <- app_assoc.
          rewrite (bind_ok _ _ _ "(" _) by apply plit_hit. cbn [app].
          rewrite (bind_ok _ _ _ (map (fun x => kparam_of (nparam x)) ps) (op ")" :: op o :: B ++ rest)).
          + rewrite (bind_ok _ _ _ ")" (op o :: B ++ rest)) by apply plit_hit. reflexivity.
          + apply plist_sep with (F := above 5).
            * intros p r I A. apply kparam_parses; auto.
              -- rewrite all_in in K3. auto.
              -- rewrite allb_in in C2. auto.
              -- pose proof (length_tsep_in tparam ps p I). unfold tcall in L. cbn [List.length] in L.
                 rewrite app_length in L. lia.
            * intro. cbn. lia.
            * cbn. lia.
            * apply plit_miss. discriminate.
            * intros ->. discriminate C1.
        - apply popt_none, bind_miss, plit_miss. destruct K4 as [->| ->]; discriminate. }
    rewrite (bind_ok _ _ _ o (B ++ rest)).
    2:{ destruct K4 as [->| ->]; [apply alt_left, plit_hit|].
        apply alt_right; [apply plit_miss; discriminate|apply plit_hit]. }
    rewrite (bind_ok _ _ _ (match body with inl s => inl (kselect_of (nselect s)) | inr e => inr (kand_of (nand e)) end) rest).
    + destruct called; [unfold pret; cbn [kvql_of given]; rewrite map_map; destruct body; reflexivity|]. destruct K2 as [E|E]; [discriminate|subst ps]. destruct body; reflexivity.
    + subst B. destruct body as [s|e].
      * apply alt_left. rewrite (bind_ok _ _ _ (kselect_of (nselect s)) rest); [reflexivity|].
        apply kselect_parses; auto. lia.
      * apply alt_right.
        -- apply bind_miss. pose proof ((and_begins fnumber_token) e K5 C4) as Bg.
           apply kselect_misses; [lia|now apply quiet_and| |]; apply begins'_not_tok; try discriminate; now apply begins'_app.
        -- rewrite (bind_ok _ _ _ (kand_of (nand e)) rest); [reflexivity|].
           apply kand_expr_parses; auto; [lia|]. apply (above_le 7); [lia|]. now apply sfollow_above.
  - cbn [ok_vql clean_vql tvql nvql] in *. apply alt_right.
    + apply bind_miss. destruct s as [[] ? ? ? ? ? ? ?]; apply ptok_miss; discriminate.
    + rewrite (bind_ok _ _ _ (kselect_of (nselect s)) rest); [reflexivity|]. now apply kselect_parses.
Qed.