(** C50: what is restored of a saved scope. *)

From Coq Require Import ZArith List String Ascii Bool Lia Permutation.
From Verif Require Import Base F64 Value Text TextProps Lexer Numeral Grammar Parser Format Spelling Marshal.
From Verif Require Import BaseProofs F64Proofs Protocols LexProofs NumeralProofs FloatText ParseProofs FormatProofs FormatRuns TrimProofs RoundTrip ParserSound FormatProps.
Import ListNotations.
Open Scope nat_scope.
Open Scope string_scope.
Open Scope list_scope.

(** ** Specification: values *)

(** A text: the UTF-8 of some code points. *)
Definition is_text (s : string) : Prop :=
  exists l, Forall (fun r => valid_rune r = true) l /\ s = encode_runes l.

(** What was read is what was written: integers come back as the nearest
    float64, everything else as itself. *)
Section Same.
  Fixpoint same (v : val) (r : rval) {struct v} : Prop :=
    match v, r with
    | (VNil | VNull | VNilArr), RNull => True
    | VBool b, RBool c => b = c
    | VInt _ z, RNum f => f = f_of_Z z
    | VF64 g, RNum f => f = g
    | VStr s, RStr t => s = t
    | (VArr l | VQuery l), RArr m =>
        (fix go l m := match l, m with
                       | [], [] => True
                       | a :: l', b :: m' => same a b /\ go l' m'
                       | _, _ => False
                       end) l m
    | VDict d, RMap m =>
        (fix go d m := match d, m with
                       | [], [] => True
                       | (k, a) :: d', (n, b) :: m' => k = n /\ same a b /\ go d' m'
                       | _, _ => False
                       end) d m
    | _, _ => False
    end.
End Same.

(** Values made of booleans, integers, finite floats, texts, arrays, rows and
    dictionaries; NULL inside them, not NULL itself. *)
Fixpoint portable (v : val) : Prop :=
  match v with
  | VNil | VNull | VNilArr | VBool _ | VInt _ _ => True
  | VF64 f => match f with S754_nan | S754_infinity _ => False | _ => True end
  | VStr s => is_text s
  | VArr l | VQuery l => (fix go l := match l with [] => True | a :: r => portable a /\ go r end) l
  | VDict d => (fix go d := match d with [] => True | (k, a) :: r => is_text k /\ portable a /\ go r end) d
  | VF32 _ | VTime _ | VOpaque _ => False
  end.
Definition is_null (v : val) : bool :=
  match v with VNil | VNull | VNilArr => true | _ => false end.

Lemma text_kept s : is_text s -> utf8_text s = s.
Proof.
  intros (l & V & ->). unfold utf8_text. pose proof (runes_encode l "" V) as E.
  rewrite sapp_nil_r in E. change (runes "") with (@nil Z) in E. now rewrite E, app_nil_r.
Qed.

Theorem written_is_read H : forall v, portable v -> exists j, enc H v = Some j /\ same v (dec j).
Proof.
  fix IH 1. intros [| |b|k z|f|f|s|t| |l|d|l|n]; cbn [portable enc]; intro P; try contradiction.
  - now exists JNull.
  - now exists JNull.
  - now exists (JBool b).
  - now exists (JInt z).
  - destruct f; try contradiction; eexists; split; reflexivity.
  - rewrite text_kept by exact P. now exists (JStr s).
  - now exists JNull.
  - assert (exists js, collect (map (enc H) l) = Some js /\ same (VArr l) (RArr (map dec js))) as (js & E & S).
    { clear - IH P. revert l P. fix IL 1. intros [|a l]; [now exists []|]. intros (Pa & Pl).
      destruct (IH a Pa) as (j & E & S). destruct (IL l Pl) as (js & El & Sl). cbn [map collect]. rewrite E, El.
      exists (j :: js). split; [reflexivity|]. cbn [map same]. now split. }
    rewrite E. now exists (JArr js).
  - assert (exists js, collect (map (fun kv => keyed (utf8_text (fst kv)) (enc H (snd kv))) d) = Some js /\
              same (VDict d) (RMap (map (fun kv => (fst kv, dec (snd kv))) js))) as (js & E & S).
    { clear - IH P. revert d P. fix IL 1. intros [|(k, a) d]; [now exists []|]. intros (Pk & Pa & Pd).
      destruct (IH a Pa) as (j & E & S). destruct (IL d Pd) as (js & El & Sl). cbn [map collect fst snd]. rewrite E, El.
      rewrite text_kept by exact Pk. cbn [keyed]. exists ((k, j) :: js). split; [reflexivity|]. cbn [map same fst snd]. now split. }
    rewrite E. now exists (JObj js).
  - assert (exists js, collect (map (enc H) l) = Some js /\ same (VQuery l) (RArr (map dec js))) as (js & E & S).
    { clear - IH P. revert l P. fix IL 1. intros [|a l]; [now exists []|]. intros (Pa & Pl).
      destruct (IH a Pa) as (j & E & S). destruct (IL l Pl) as (js & El & Sl). cbn [map collect]. rewrite E, El.
      exists (j :: js). split; [reflexivity|]. cbn [map same]. now split. }
    rewrite E. now exists (JArr js).
Qed.

(** ** Specification: definitions *)

(** A definition some statement makes. *)
Definition definable (d : def) : Prop := exists text x, parse_vql text = Some x /\ def_of x = Some d.
(** A name of letters, digits or other characters, but no backslash and no
    backquote. *)
Definition easy_name (s : string) : Prop :=
  exists l, l <> [] /\ component l /\ ~ In 92%Z l /\ s = encode_runes l.
(** A parameter that needs no quotes. *)
Definition word (s : string) : Prop := ok_ident s /\ unq s = s.
Definition clean_body (b : gselect + gand) : bool :=
  match b with inl s => clean_select s | inr e => clean_and e end.
(** The body with its numbers respelled, of the same value
    ([C49_number_value]). *)
Definition respelled (b : gselect + gand) : gselect + gand :=
  match b with inl s => inl (nselect s) | inr e => inr (nand e) end.

Lemma encoded_no_bquote l : component l -> sall (fun c => negb (Ascii.eqb c bquote)) (encode_runes l) = true.
Proof.
  intros (V & N). induction V as [|r l V _ IH]; [reflexivity|]. cbn [encode_runes].
  assert (D : forall a b, sall (fun c => negb (Ascii.eqb c bquote)) a = true ->
              sall (fun c => negb (Ascii.eqb c bquote)) b = true ->
              sall (fun c => negb (Ascii.eqb c bquote)) (a ++ b)%string = true).
  { intros a b A B. induction a as [|c a I]; [exact B|]. cbn [String.append sall] in *.
    apply andb_true_iff in A as (-> & A). now rewrite I. }
  apply D; [|apply IH; intro H; apply N; now right].
  assert (C : forall z, (0 <= z < 256)%Z -> z <> 96%Z -> Ascii.eqb (chr z) bquote = false).
  { intros z B NE. destruct (Ascii.eqb_spec (chr z) bquote) as [E|]; [|reflexivity].
    exfalso. apply NE. rewrite <- (byte_chr z B), E. reflexivity. }
  assert (R : r <> 96%Z) by (intro; apply N; now left).
  unfold encode_rune. rewrite V. unfold valid_rune in V.
  assert (B : (0 <= r < 1114112)%Z).
  { apply orb_true_iff in V as [V|V]; apply andb_true_iff in V as (V1 & V2);
      apply Z.leb_le in V1 || apply Z.ltb_lt in V1; apply Z.leb_le in V2 || apply Z.ltb_lt in V2; lia. }
  pose proof (Z.mod_pos_bound r 64 ltac:(lia)). pose proof (Z.mod_pos_bound (r / 64) 64 ltac:(lia)).
  pose proof (Z.mod_pos_bound (r / 4096) 64 ltac:(lia)).
  destruct (Z.ltb_spec r 128); [cbn [sall]; rewrite C; [reflexivity|lia|lia]|].
  destruct (Z.ltb_spec r 2048).
  { assert (2 <= r / 64 < 32)%Z by (split; [apply Z.div_le_lower_bound|apply Z.div_lt_upper_bound]; lia).
    cbn [sall]. rewrite !C by lia. reflexivity. }
  destruct (Z.ltb_spec r 65536).
  { assert (0 <= r / 4096 < 16)%Z by (split; [apply Z.div_le_lower_bound|apply Z.div_lt_upper_bound]; lia).
    cbn [sall]. rewrite !C by lia. reflexivity. }
  assert (0 <= r / 262144 < 5)%Z by (split; [apply Z.div_le_lower_bound|apply Z.div_lt_upper_bound]; lia).
  cbn [sall]. rewrite !C by lia. reflexivity.
Qed.
Definition bquoted (s : string) : string := String bquote (s ++ String bquote "").
Lemma easy_name_reads s : easy_name s -> ok_ident (bquoted s) /\ unq (bquoted s) = s.
Proof.
  intros (l & NE & C & B & ->). split.
  - apply (quoted_ident_reads (bquoted (encode_runes l) ++ "") _ "").
    apply quoted_ident_app; [|now apply encoded_no_bquote].
    destruct l as [|r l]; [congruence|]. cbn [encode_runes]. destruct (encode_rune_length r) as (n & L).
    destruct (encode_rune r); [discriminate|discriminate].
  - unfold unq. pose proof (C43_unquote_ident_partial l C B) as E. unfold quote_component in E.
    change (bquoted (encode_runes l)) with (String ch_btick (encode_runes l ++ String ch_btick ""))%string.
    now rewrite E.
Qed.

Lemma lexes_params ps : forall p r rs,
  Forall ok_ident (p :: ps) -> Lexes r rs ->
  Lexes (String.concat ", " (p :: ps) ++ String ")" r) (tsep tparam (map GName (p :: ps)) ++ op ")" :: rs).
Proof.
  induction ps as [|q ps IH]; intros p r rs F L.
  - apply Forall_inv in F. cbn [String.concat map tsep tparam app].
    apply reads_lexes; [exact F|reflexivity|].
    apply LTok with (r := r); [reflexivity|cbn; lia|exact L].
  - pose proof (Forall_inv F) as K. apply Forall_inv_tail in F.
    change (String.concat ", " (p :: q :: ps)) with (p ++ ", " ++ String.concat ", " (q :: ps))%string.
    rewrite !sapp_assoc.
    change (tsep tparam (map GName (p :: q :: ps))) with
      (tident p :: op "," :: tsep tparam (map GName (q :: ps))).
    apply reads_lexes; [exact K|reflexivity|]. cbn [String.append].
    eapply LTok with (r := String " " _); [reflexivity|cbn; lia|].
    apply Lexes_space. now apply IH.
Qed.

Definition again (d : def) : gvql :=
  GLet (bquoted (f_name d)) (match f_params d with [] => false | _ => true end)
    (map GName (f_params d)) "=" (f_body d).

Definition tbody (b : gselect + gand) : list token :=
  match b with inl s => tselect s | inr e => tand e end.
Definition ok_body (b : gselect + gand) : Prop :=
  match b with inl s => ok_select s | inr e => ok_and e end.
Lemma lexes_body b : ok_body b -> clean_body b = true -> Lexes (format_body b) (tbody b).
Proof.
  intros K C.
  assert (R : run Pending (match b with inl s => fselect s | inr e => fand e end) (tbody b) Broken).
  { destruct b; [now apply select_runs|now apply and_expr_runs]. }
  destruct (R visitor0 "" []) as (w & E & H); [intros r rs _ L; exact L|].
  cbn [visitor0 out String.append] in E. destruct H as (SP & _).
  specialize (SP "" [] eq_refl LNil). rewrite sapp_nil_r, app_nil_r in SP. cbn [String.append app] in SP.
  replace (format_body b) with (format_with (fun b => match b with inl s => fselect s | inr e => fand e end) b)
    by (destruct b; reflexivity).
  unfold format_with. rewrite E. apply Lexes_trim; [exact SP|].
  apply plains_forallb. destruct b; [apply p_select|apply p_and].
Qed.
Lemma lexes_def_text d :
  easy_name (f_name d) -> Forall ok_ident (f_params d) -> ok_body (f_body d) -> clean_body (f_body d) = true ->
  Lexes (def_text d) (tvql (again d)).
Proof.
  intros N F K C. apply easy_name_reads in N as (N & _).
  pose proof (lexes_body _ K C) as L. unfold def_text.
  assert (W : loose "LET " [Tok T_LET "LET"]) by word "LET".
  set (tail := (" = " ++ format_body (f_body d))%string).
  assert (LT : Lexes tail (op "=" :: tbody (f_body d))).
  { unfold tail. cbn [String.append]. apply Lexes_space.
    apply LTok with (r := String " " (format_body (f_body d))); [reflexivity|cbn; lia|now apply Lexes_space]. }
  replace ("LET `" ++ f_name d ++ "`" ++ _ ++ tail)%string with
    ("LET " ++ bquoted (f_name d) ++
     (match f_params d with [] => "" | ps => "(" ++ String.concat ", " ps ++ ")" end) ++ tail)%string
    by (unfold bquoted; cbn [String.append]; rewrite sapp_assoc; reflexivity).
  cbn [again tvql]. apply (W _ (tident _ :: _)). unfold tcall.
  destruct (f_params d) as [|p ps].
  - apply reads_lexes; [exact N|reflexivity|exact LT].
  - apply reads_lexes; [exact N|reflexivity|]. cbn [String.append]. rewrite !sapp_assoc.
    apply LTok with (r := (String.concat ", " (p :: ps) ++ ")" ++ tail)%string); [reflexivity|cbn; lia|].
    pose proof (lexes_params ps p tail _ F LT) as LP.
    change (Lexes (String.concat ", " (p :: ps) ++ String ")" tail)
              ((tsep tparam (map GName (p :: ps)) ++ [op ")"]) ++ op "=" :: tbody (f_body d))).
    now rewrite <- app_assoc.
Qed.

Lemma NoDup_distinct l : NoDup l -> distinct l = true.
Proof.
  induction 1 as [|a l N _ IH]; [reflexivity|]. cbn [distinct]. rewrite IH, andb_true_r. apply negb_true_iff.
  destruct (existsb (String.eqb a) l) eqn:E; [|reflexivity]. apply existsb_exists in E as (b & I & E).
  apply String.eqb_eq in E. now subst.
Qed.
Lemma words_names ps : Forall word ps -> map param_name (map GName ps) = ps.
Proof. induction 1 as [|p ps (_ & U) _ IH]; [reflexivity|]. cbn [map param_name]. now rewrite U, IH. Qed.
Lemma no_defaults ps : defaults_of (map GName ps) = [].
Proof.
  unfold defaults_of. generalize (default_for (map GName ps)) as g. intro g.
  induction ps as [|p ps IH]; [reflexivity|exact IH].
Qed.

(** A definition without defaults, of an easy name, with distinct parameters
    that need no quotes and a body the formatter is right about
    ([clean_body]). *)
Record plain_def (d : def) : Prop := {
  pd_made : definable d;
  pd_name : easy_name (f_name d);
  pd_defaults : f_defaults d = [];
  pd_words : Forall word (f_params d);
  pd_distinct : NoDup (f_params d);
  pd_clean : clean_body (f_body d) = true
}.

(** Partial: not for other definitions. *)
Theorem C50_definition_partial d :
  plain_def d ->
  exists x, parse_vql (def_text d) = Some x /\
    def_of x = Some (Def (f_name d) (f_params d) (f_defaults d) (respelled (f_body d))).
Proof.
  intros [(text & y & P & D) N DF W ND C].
  assert (K : ok_body (f_body d)).
  { apply parse_vql_ok in P. destruct y as [name called ps o body|s]; cbn [def_of] in D; [|discriminate].
    destruct (String.eqb o "="); [|discriminate]. injection D as <-. cbn [ok_vql f_body] in *.
    destruct P as (_ & _ & _ & _ & K). destruct body; exact K. }
  pose proof (easy_name_reads _ N) as (NI & NU).
  assert (F : Forall ok_ident (f_params d)) by (eapply Forall_impl; [|exact W]; now intros a []).
  assert (KX : ok_vql (again d)).
  { cbn [again ok_vql]. split; [exact NI|]. split; [destruct (f_params d); auto|].
    split; [|split; [now left|destruct (f_body d); exact K]].
    clear - F. induction F as [|p ps H _ IH]; cbn; auto. }
  assert (CX : clean_vql (again d) = true).
  { cbn [again clean_vql]. rewrite words_names by exact W. rewrite (NoDup_distinct _ ND).
    replace (match f_body d with inl s => clean_select s | inr e => clean_and e end) with true
      by (symmetry; destruct (f_body d); exact C).
    rewrite !andb_true_r. apply andb_true_iff. split; [destruct (f_params d); reflexivity|].
    clear - W. induction W as [|p ps (_ & U) _ IH]; [reflexivity|].
    change (String.eqb (unq p) p && allb clean_param (map GName ps) = true).
    now rewrite U, String.eqb_refl, IH. }
  exists (nvql (again d)). split.
  - assert (T : tokens (def_text d) = Some (tvql (again d))).
    { unfold tokens. rewrite (Lexes_lex _ _ (lexes_def_text d N F K C)).
      pose proof (p_vql (again d)) as PX. now rewrite plains_filter, plains_upper. }
    unfold parse_vql. rewrite T.
    pose proof (vql_parses (fuel_for (tvql (again d))) (again d) [] KX CX) as Q. rewrite app_nil_r in Q.
    rewrite Q; [reflexivity|unfold fuel_for; lia|exact I].
  - cbn [again nvql def_of]. change (String.eqb "=" "=") with true. cbv iota. rewrite NU, DF.
    replace (map nparam (map GName (f_params d))) with (map GName (f_params d))
      by (rewrite map_map; reflexivity).
    rewrite words_names by exact W. rewrite no_defaults. reflexivity.
Qed.

(** ** Specification: scopes *)

(** What can be saved under the name [k]. *)
Definition keeps (k : string) (s : slot) : Prop :=
  match s with
  | SVal v => portable v /\ is_null v = false
  | SDef d => plain_def d /\ f_name d = k /\ is_text (def_text d)
  | SRead r => r <> RNull
  end.
(** What it is restored to. *)
Definition restored (s s' : slot) : Prop :=
  match s, s' with
  | SVal v, SRead r => same v r
  | SDef d, SDef e => e = Def (f_name d) (f_params d) (f_defaults d) (respelled (f_body d))
  | SRead r, SRead q => q = r
  | _, _ => False
  end.
(** The variables of a scope that are saved, as the newest frame has them. *)
Definition saved (fs : list frame) (k : string) (s : slot) : Prop :=
  skipped k = false /\ lookup k fs = Some s.

Lemma dec_enc_read : forall r, dec (enc_read r) = r.
Proof.
  fix IH 1. intros [|b|f|s|l|d]; cbn [enc_read dec]; try reflexivity; f_equal.
  - revert l. fix IL 1. intros [|a l]; [reflexivity|]. cbn [map]. now rewrite IH, IL.
  - revert d. fix IL 1. intros [|(k, a) d]; [reflexivity|]. cbn [map fst snd]. now rewrite IH, IL.
Qed.
Lemma same_null v r : same v r -> is_null v = false -> r <> RNull.
Proof. destruct v; cbn; intros S N ->; cbn in S; try discriminate; contradiction. Qed.

(** What an item puts back. *)
Definition item_gives (k : string) (i : item) (s' : slot) : Prop :=
  match i with
  | IJson j | IDict j => s' = SRead (dec j) /\ dec j <> RNull
  | IReplay t => exists x d, parse_vql t = Some x /\ def_of x = Some d /\ f_name d = k /\ s' = SDef d
  end.
Lemma slot_item H k s : keeps k s ->
  exists i s', marshal_slot H s = Some i /\ item_gives k i s' /\ restored s s'.
Proof.
  destruct s as [v|d|r]; cbn [keeps].
  - intros (P & N). destruct (written_is_read H v P) as (j & E & S).
    pose proof (same_null _ _ S N) as NN.
    destruct v; cbn [marshal_slot]; rewrite E; cbn [option_map];
      eexists _, (SRead (dec j)); (split; [reflexivity|split; [split; [reflexivity|exact NN]|exact S]]).
  - intros (P & <- & T). destruct (C50_definition_partial d P) as (x & E & D).
    eexists _, (SDef (Def (f_name d) (f_params d) (f_defaults d) (respelled (f_body d)))).
    cbn [marshal_slot]. split; [reflexivity|]. rewrite text_kept by exact T.
    split; [|reflexivity]. exists x. eexists. split; [exact E|]. split; [exact D|]. split; reflexivity.
  - intro N. exists (IJson (enc_read r)), (SRead r). split; [reflexivity|]. cbn [item_gives]. rewrite dec_enc_read.
    split; [split; [reflexivity|exact N]|reflexivity].
Qed.

(** *** The saved map *)
Lemma put_keys {A} k (a : A) m n : In n (map fst (put k a m)) <-> n = k \/ In n (map fst m).
Proof.
  induction m as [|(x, b) m IH]; cbn [put map fst]; [cbn; intuition congruence|].
  destruct (String.eqb_spec x k) as [->|D]; cbn [map fst In]; [intuition congruence|]. rewrite IH. intuition congruence.
Qed.
Lemma put_nodup {A} k (a : A) m : NoDup (map fst m) -> NoDup (map fst (put k a m)).
Proof.
  induction m as [|(x, b) m IH]; cbn [put map fst]; intro N; [constructor; [now intros []|constructor]|].
  inversion N as [|? ? X Y]; subst. destruct (String.eqb_spec x k) as [->|D]; cbn [map fst].
  - constructor; assumption.
  - constructor; [|now apply IH]. intro I. apply put_keys in I as [->|I]; [congruence|contradiction].
Qed.
Lemma put_in {A} k (a : A) m n b : NoDup (map fst m) ->
  In (n, b) (put k a m) <-> (n = k /\ b = a) \/ (n <> k /\ In (n, b) m).
Proof.
  induction m as [|(x, c) m IH]; cbn [put map fst]; intro N.
  - cbn. split; [intros [E|[]]; injection E as <- <-; now left|]. intros [(-> & ->)|(_ & [])]. now left.
  - inversion N as [|? ? X Y]; subst. destruct (String.eqb_spec x k) as [->|D]; cbn [In].
    + split.
      * intros [E|I]; [injection E as <- <-; now left|]. right. split; [|now right].
        intros ->. apply X. now apply in_map with (f := fst) in I.
      * intros [(-> & ->)|(NE & [E|I])]; [now left|injection E as <- <-; congruence|now right].
    + rewrite (IH Y). split.
      * intros [E|[(-> & ->)|(NE & I)]]; [injection E as <- <-; right; split; [exact D|now left]|now left|].
        right. split; [exact NE|now right].
      * intros [(-> & ->)|(NE & [E|I])]; [right; now left|now left|right; right; auto].
Qed.

Lemma find_in_key k f s : find_in k f = Some s -> In k (map fst f).
Proof.
  induction f as [|(n, t) f IH]; cbn [find_in map fst]; [discriminate|].
  destruct (String.eqb_spec n k); [now left|]. right. now apply IH.
Qed.
Lemma newest_key k fs s : newest k fs = Some s -> exists f, In f fs /\ In k (map fst f).
Proof.
  induction fs as [|f fs IH]; cbn [newest]; [discriminate|]. destruct (find_in k f) eqn:E.
  - intros _. exists f. split; [now left|]. eapply find_in_key, E.
  - intro N. destruct (IH N) as (g & I & K). exists g. split; [now right|exact K].
Qed.
Lemma lookup_key k fs s : lookup k fs = Some s -> In k (flat_map (fun f => map fst f) fs).
Proof.
  intro L. apply newest_key in L as (f & I & K). apply in_flat_map. exists f. split; [now apply in_rev|exact K].
Qed.

Definition covers (H : jhost) (fs : list frame) (ks : list string) (m : list (string * item)) : Prop :=
  NoDup (map fst m) /\
  forall k i, In (k, i) m <-> In k ks /\ exists s, saved fs k s /\ marshal_slot H s = Some i.
Lemma marshal_fold H fs : forall ks0 ks m m', (forall k, In k ks -> is_text k) ->
  covers H fs ks0 m -> fold_left (marshal_key H fs) ks (Some m) = Some m' -> covers H fs (ks0 ++ ks) m'.
Proof.
  intros ks0 ks. revert ks0. induction ks as [|k ks IH]; intros ks0 m m' T (N & C) E; cbn [fold_left] in E.
  - injection E as <-. rewrite app_nil_r. now split.
  - replace (ks0 ++ k :: ks) with ((ks0 ++ [k]) ++ ks) by now rewrite <- app_assoc.
    assert (Fold : forall l, fold_left (marshal_key H fs) l None = None) by (induction l; auto).
    assert (Tk : utf8_text k = k) by (apply text_kept, T; now left).
    assert (TT : forall n, In n ks -> is_text n) by (intros; apply T; now right).
    cbn [marshal_key] in E. destruct (skipped k) eqn:SK.
    + eapply IH; [exact TT| |exact E]. split; [exact N|]. intros n i. rewrite C, in_app_iff. cbn [In].
      split; [tauto|]. intros ([I|[<-|[]]] & s & (S & L) & M); [|congruence].
      split; [exact I|]. exists s. repeat split; assumption.
    + destruct (lookup k fs) as [s|] eqn:L.
      * destruct (marshal_slot H s) as [i|] eqn:M; [|now rewrite Fold in E].
        rewrite Tk in E. eapply IH; [exact TT| |exact E]. split; [now apply put_nodup|].
        intros n j. rewrite put_in by exact N. rewrite C, in_app_iff. cbn [In]. split.
        -- intros [(-> & ->)|(NE & I & W)]; [|tauto]. split; [auto|]. exists s. repeat split; assumption.
        -- intros (I & t & (S & L') & M'). destruct (String.eqb_spec n k) as [->|NE].
           ++ left. split; [reflexivity|]. congruence.
           ++ right. split; [exact NE|]. destruct I as [I|[<-|[]]]; [|congruence]. split; [exact I|].
              exists t. repeat split; assumption.
      * eapply IH; [exact TT| |exact E]. split; [exact N|]. intros n i. rewrite C, in_app_iff. cbn [In].
        split; [tauto|]. intros ([I|[<-|[]]] & s & (S & L') & M); [|congruence].
        split; [exact I|]. exists s. repeat split; assumption.
Qed.
Lemma marshal_total H fs : forall ks m,
  (forall k s, In k ks -> saved fs k s -> exists i, marshal_slot H s = Some i) ->
  exists m', fold_left (marshal_key H fs) ks (Some m) = Some m'.
Proof.
  induction ks as [|k ks IH]; intros m A; [now exists m|]. cbn [fold_left marshal_key].
  assert (A' : forall n s, In n ks -> saved fs n s -> exists i, marshal_slot H s = Some i)
    by (intros n s I; apply A; now right).
  destruct (skipped k) eqn:SK; [now apply IH|]. destruct (lookup k fs) as [s|] eqn:L; [|now apply IH].
  destruct (A k s (or_introl eq_refl) (conj SK L)) as (i & ->). now apply IH.
Qed.

(** *** Restoring *)
Lemma find_put k s n f : find_in n (put k s f) = if String.eqb k n then Some s else find_in n f.
Proof.
  induction f as [|(x, t) f IH]; cbn [put find_in]; [reflexivity|].
  destruct (String.eqb_spec x k) as [->|D]; cbn [find_in].
  - destruct (String.eqb k n); reflexivity.
  - rewrite IH. destruct (String.eqb_spec x n) as [->|]; [|reflexivity].
    destruct (String.eqb_spec k n); [congruence|reflexivity].
Qed.
Lemma lookup_push k fs f :
  lookup k (fs ++ [f]) = match find_in k f with Some s => Some s | None => lookup k fs end.
Proof. unfold lookup. rewrite rev_app_distr. reflexivity. Qed.

(** Every definition restores its own name. *)
Definition own (items : list (string * item)) : Prop :=
  forall k t, In (k, IReplay t) items -> exists s', item_gives k (IReplay t) s'.
Lemma restore_other ig : forall items fs env k,
  own items -> (In k (map fst items) -> existsb (String.eqb k) ig = true) ->
  lookup k (restore ig items fs env) = match find_in k env with Some s => Some s | None => lookup k fs end.
Proof.
  induction items as [|(n, i) items IH]; intros fs env k O N; cbn [restore]; [apply lookup_push|].
  assert (O' : own items) by (intros a t I; apply O; now right).
  cbn [map fst In] in N. assert (N' : In k (map fst items) -> existsb (String.eqb k) ig = true) by tauto.
  destruct (existsb (String.eqb n) ig) eqn:G; [now apply IH|].
  assert (D : n <> k) by (intros ->; rewrite N in G; [discriminate|now left]).
  assert (J : forall j, lookup k (match dec j with
                        | RNull => restore ig items fs env
                        | v => restore ig items fs (put n (SRead v) env)
                        end) = match find_in k env with Some s => Some s | None => lookup k fs end).
  { intro j. destruct (dec j); rewrite IH by assumption; rewrite ?find_put; try reflexivity;
      (destruct (String.eqb_spec n k); [contradiction|reflexivity]). }
  destruct i as [j|j|t]; [apply J|apply J|].
  destruct (O n t (or_introl eq_refl)) as (s' & x & d & P & E & F & _).
  rewrite IH by assumption. unfold replay. rewrite P, E, lookup_push. cbn [find_in].
  destruct (String.eqb_spec (f_name d) k); [congruence|reflexivity].
Qed.
Lemma restore_one ig : forall items fs env k i s',
  own items -> NoDup (map fst items) -> ~ In k (map fst env) -> In (k, i) items -> existsb (String.eqb k) ig = false ->
  item_gives k i s' -> lookup k (restore ig items fs env) = Some s'.
Proof.
  induction items as [|(n, a) items IH]; intros fs env k i s' O N NE I G W; [contradiction|].
  assert (O' : own items) by (intros b t B; apply O; now right).
  inversion N as [|? ? X Y]; subst. cbn [restore]. destruct I as [E|I].
  - injection E as -> ->. rewrite G.
    assert (J : forall j, s' = SRead (dec j) -> dec j <> RNull ->
      lookup k (match dec j with
                | RNull => restore ig items fs env
                | v => restore ig items fs (put k (SRead v) env)
                end) = Some s').
    { intros j -> Z. destruct (dec j); try congruence; rewrite restore_other by (assumption || contradiction);
        rewrite find_put, String.eqb_refl; reflexivity. }
    destruct i as [j|j|t]; cbn [item_gives] in W.
    + destruct W. now apply J.
    + destruct W. now apply J.
    + destruct W as (x & d & P & E & F & ->). rewrite restore_other by (assumption || contradiction).
      destruct (find_in k env) eqn:Q; [exfalso; apply NE; eapply find_in_key, Q|].
      unfold replay. rewrite P, E, lookup_push. cbn [find_in]. now rewrite F, String.eqb_refl.
  - assert (D : n <> k) by (intros ->; apply X; now apply in_map with (f := fst) in I).
    assert (J : forall j, lookup k (match dec j with
                | RNull => restore ig items fs env
                | v => restore ig items fs (put n (SRead v) env)
                end) = Some s').
    { intro j. destruct (dec j); eapply IH; eauto; intro B; apply put_keys in B as [B|B]; congruence || auto. }
    destruct (existsb (String.eqb n) ig); [now apply (IH fs env k i)|].
    destruct a as [j|j|t]; [apply J|apply J|now apply (IH _ env k i)].
Qed.

(** ** The theorems *)

Definition ignored (ignore : list string) (k : string) : Prop := In k ignore.
Lemma not_ignored ig k : ~ ignored ig k -> existsb (String.eqb k) ig = false.
Proof.
  intro N. destruct (existsb (String.eqb k) ig) eqn:E; [|reflexivity]. apply existsb_exists in E as (x & I & E).
  apply String.eqb_eq in E. now subst.
Qed.
Definition names_are_texts (fs : list frame) : Prop :=
  forall k, In k (flat_map (fun f => map fst f) fs) -> is_text k.

(** A scope all of whose saved variables can be saved is saved; and restored
    over any scope, in whatever order the variables come, each saved variable
    that is not to be ignored has its saved value.  Partial: only for
    variables that [keeps] allows, see the refutations. *)
Theorem C50_scope_partial H fs :
  names_are_texts fs ->
  (forall k s, saved fs k s -> keeps k s) ->
  exists m, marshal_scope H fs = Some m /\
    forall items ignore base, Permutation m items ->
      forall k s, saved fs k s -> ~ ignored ignore k ->
      exists s', lookup k (unmarshal_scope ignore items base) = Some s' /\ restored s s'.
Proof.
  intros T A.
  destruct (marshal_total H fs (flat_map (fun f => map fst f) fs) []) as (m & E).
  { intros k s _ S. destruct (slot_item H k s (A k s S)) as (i & _ & M & _). now exists i. }
  exists m. split; [exact E|]. intros items ignore base P k s S G.
  assert (C : covers H fs (flat_map (fun f => map fst f) fs) m).
  { apply (marshal_fold H fs [] _ [] m T); [|exact E]. split; [constructor|]. intros n i. cbn. tauto. }
  destruct C as (N & C).
  destruct (slot_item H k s (A k s S)) as (i & s' & M & W & R). exists s'. split; [|exact R].
  apply restore_one with (i := i).
  - intros n t I. apply (Permutation_in _ (Permutation_sym P)) in I. apply C in I as (_ & u & U & MU).
    destruct (slot_item H n u (A n u U)) as (j & v & MJ & WJ & _). exists v. congruence.
  - eapply Permutation_NoDup; [|exact N]. now apply Permutation_map.
  - intros [].
  - apply (Permutation_in _ P), C. split; [|exists s; now split]. destruct S as (_ & L). eapply lookup_key, L.
  - now apply not_ignored.
  - exact W.
Qed.

(** Variables that were not saved, or are to be ignored, are those of the scope
    restored into. *)
Theorem C50_nothing_else_changes H fs m items ignore base k :
  names_are_texts fs -> (forall k s, saved fs k s -> keeps k s) ->
  marshal_scope H fs = Some m -> Permutation m items ->
  (forall s, ~ saved fs k s) \/ ignored ignore k ->
  lookup k (unmarshal_scope ignore items base) = lookup k base.
Proof.
  intros T A E P NS.
  assert (C : covers H fs (flat_map (fun f => map fst f) fs) m).
  { apply (marshal_fold H fs [] _ [] m T); [|exact E]. split; [constructor|]. intros n i. cbn. tauto. }
  destruct C as (N & C). unfold unmarshal_scope. rewrite restore_other; [reflexivity| |].
  - intros n t I. apply (Permutation_in _ (Permutation_sym P)) in I. apply C in I as (_ & u & U & MU).
    destruct (slot_item H n u (A n u U)) as (j & v & MJ & WJ & _). exists v. congruence.
  - intro I. apply in_map_iff in I as ((n & i) & <- & I). apply (Permutation_in _ (Permutation_sym P)) in I.
    apply C in I as (_ & u & U & _). destruct NS as [NS|NS]; [now destruct (NS u)|].
    apply existsb_exists. exists n. split; [exact NS|apply String.eqb_refl].
Qed.

(** ** Equal in VQL *)

Fixpoint as_val (r : rval) : val :=
  match r with
  | RNull => VNil
  | RBool b => VBool b
  | RNum f => VF64 f
  | RStr s => VStr s
  | RArr l => VArr (map as_val l)
  | RMap d => VDict (map (fun kv => (fst kv, as_val (snd kv))) d)
  end.
(** Scalars and arrays of them; integers that are int64. *)
Fixpoint comparable (v : val) : Prop :=
  match v with
  | VNil | VNull | VBool _ | VStr _ | VF64 _ => True
  | VInt k z => k <> KUint /\ is_int64 z
  | VArr l => (fix go l := match l with [] => True | a :: r => comparable a /\ go r end) l
  | _ => False
  end.

Lemma eq_disp_kept impls : forall v r, portable v -> comparable v -> same v r ->
  eq_disp impls v (as_val r) = true.
Proof.
  fix IH 1. intros v r P C S.
  destruct v as [| |b|k z|f|f|s|t| |l|d|l|n]; try contradiction; destruct r as [|c|g|u|m|m]; cbn [same] in S; try contradiction.
  - reflexivity.
  - reflexivity.
  - subst. cbn. apply Bool.eqb_reflx.
  - destruct C as (K & R). subst. cbn [as_val eq_disp].
    replace (eq_switch (VInt k z) (VF64 (f_of_Z z))) with (Some true); [reflexivity|].
    symmetry. assert (E : to_int64 (VInt k z) = Some z).
    { destruct k; try congruence; cbn [to_int64]; now rewrite wrap64_id. }
    destruct k; try congruence; cbn [eq_switch]; rewrite E; cbn [int_eq is_bool is_intcase is_floatcase orb];
      unfold to_float0; cbn [to_float]; rewrite f_eqb_refl by apply f_of_Z_not_nan; reflexivity.
  - subst. cbn. apply f_eqb_refl. destruct f; try contradiction; reflexivity.
  - subst. cbn. apply String.eqb_refl.
  - cbn [as_val eq_disp eq_switch]. cbn [eq_ints to_int64 arr_elems].
    assert (L : List.length l = List.length (map as_val m)).
    { clear - S. rewrite map_length. revert m S. induction l as [|a l I]; intros [|b m]; try contradiction; [reflexivity|].
      intros (_ & S). cbn. f_equal. now apply I. }
    rewrite L, Nat.eqb_refl. clear L. revert l m P C S. fix IL 1. intros [|a l] [|b m]; try contradiction; [reflexivity|].
    intros (Pa & Pl) (Ca & Cl) (Sa & Sl). cbn [map]. rewrite (IH a b Pa Ca Sa). now apply IL.
Qed.

(** Scalars and arrays of scalars are equal, for VQL's =, to what is restored. *)
Theorem C50_equal_value H impls v : portable v -> comparable v ->
  exists j, enc H v = Some j /\ eq_disp impls v (as_val (dec j)) = true.
Proof.
  intros P C. destruct (written_is_read H v P) as (j & E & S). exists j. split; [exact E|].
  now apply eq_disp_kept.
Qed.

(** ** The hypotheses hold of real scopes: the project's fixtures
    (marshal/marshal_test.go, marshal/fixtures/Serialization.golden) *)

Definition definition_of (text : string) : option def :=
  match parse_vql text with Some x => def_of x | None => None end.
Definition saved_as (text : string) : option string := option_map def_text (definition_of text).
Example golden_query :
  saved_as "LET X = SELECT _value FROM range(start=0, end=5, step=1)" =
  Some "LET `X` = SELECT _value FROM range(start=0, end=5, step=1)".
Proof. vm_compute. reflexivity. Qed.
Example golden_expression : saved_as "LET X = 1 + 2" = Some "LET `X` = 1 + 2".
Proof. vm_compute. reflexivity. Qed.
Example golden_function : saved_as "LET X(Y) = 1 + Y" = Some "LET `X`(Y) = 1 + Y".
Proof. vm_compute. reflexivity. Qed.
Example golden_parameterised : saved_as "LET X(Y) = SELECT Y FROM scope()" = Some "LET `X`(Y) = SELECT Y FROM scope()".
Proof. vm_compute. reflexivity. Qed.

Lemma ascii_is_text s : forallb (fun c => (byte c <? 128)%Z) (list_ascii_of_string s) = true -> is_text s.
Proof.
  induction s as [|c s IH]; cbn [list_ascii_of_string forallb]; intro A.
  - exists []. split; [constructor|reflexivity].
  - apply andb_true_iff in A as (C & A). apply Z.ltb_lt in C. destruct (IH A) as (l & V & ->).
    pose proof (byte_range c) as B.
    assert (VR : valid_rune (byte c) = true) by (unfold valid_rune; apply orb_true_iff; left; apply between_spec; lia).
    exists (byte c :: l). split; [constructor; assumption|]. cbn [encode_runes]. unfold encode_rune. rewrite VR.
    destruct (Z.ltb_spec (byte c) 128); [|lia]. rewrite chr_byte. reflexivity.
Qed.
Lemma reads_word s : ok_ident s -> first_char (fun c => Ascii.eqb c ch_btick) s = false -> word s.
Proof.
  intros K F. split; [exact K|]. unfold unq. rewrite C43_unquote_bare; [reflexivity|].
  intros t ->. discriminate F.
Qed.

Definition demo_text : string := "LET Add(Left, Right) = Left + Right * 0x10 + len(list=[1, 2])".

Example demo_plain : exists d, definition_of demo_text = Some d /\ plain_def d /\ f_params d = ["Left"; "Right"].
Proof.
  destruct (parse_vql demo_text) as [x|] eqn:P; [|vm_compute in P; discriminate].
  pose proof (parse_vql_ok _ _ P) as K.
  assert (D : definition_of demo_text = def_of x) by (unfold definition_of; now rewrite P).
  rewrite D. destruct (def_of x) as [d|] eqn:E; [|pose proof P as Q; vm_compute in Q; injection Q as <-; discriminate E].
  exists d. split; [reflexivity|].
  assert (M : definable d) by (exists demo_text, x; auto).
  vm_compute in P. injection P as <-. cbv [def_of] in E. change (String.eqb "=" "=") with true in E. cbv iota in E.
  injection E as <-. cbn [ok_vql all ok_param] in K. destruct K as (_ & _ & (K1 & K2 & _) & _).
  split; [|vm_compute; reflexivity]. constructor; [exact M| | | | |].
  - exists (map byte (list_ascii_of_string "Add")). split; [discriminate|]. split.
    + split; [|cbn; intros [H|[H|[H|[]]]]; discriminate H].
      repeat (apply Forall_cons; [reflexivity|]). apply Forall_nil.
    + split; [cbn; intros [H|[H|[H|[]]]]; discriminate H|reflexivity].
  - reflexivity.
  - change (Forall word ["Left"; "Right"]).
    repeat (apply Forall_cons; [apply reads_word; [assumption|reflexivity]|]). apply Forall_nil.
  - change (NoDup ["Left"; "Right"]). constructor; [intros [H|[]]; discriminate H|].
    constructor; [intros []|constructor].
  - vm_compute. reflexivity.
Qed.

(** A scope with a definition, a number shadowing another, a dictionary and an
    array; [config] is not saved. *)
Definition no_host : jhost := JHost (fun _ => None) (fun _ => None) (fun _ => None).
Definition demo_scope (d : def) : list frame :=
  [[("config", SVal (VTime 0)); ("A", SVal (VInt KInt64 1))];
   [(f_name d, SDef d)];
   [("A", SVal (VInt KInt64 2)); ("D", SVal (VDict [("x", VStr "y"); ("z", VNull)]))];
   [("L", SVal (VArr [VInt KInt64 3; VBool true; VF64 (f_of_Z 4)]))]].
Lemma demo_saved d k s : f_name d = "Add" -> saved (demo_scope d) k s ->
  (k, s) = ("A", SVal (VInt KInt64 2)) \/ (k, s) = ("Add", SDef d) \/
  (k, s) = ("D", SVal (VDict [("x", VStr "y"); ("z", VNull)])) \/
  (k, s) = ("L", SVal (VArr [VInt KInt64 3; VBool true; VF64 (f_of_Z 4)])).
Proof.
  intros N (S & L). unfold lookup, demo_scope in L. rewrite N in L. cbn [rev app newest find_in] in L.
  destruct (String.eqb_spec "L" k) as [<-|_]; [injection L as <-; auto|].
  destruct (String.eqb_spec "A" k) as [<-|_]; [injection L as <-; auto|].
  destruct (String.eqb_spec "D" k) as [<-|_]; [injection L as <-; auto|].
  destruct (String.eqb_spec "Add" k) as [<-|_]; [injection L as <-; auto|].
  destruct (String.eqb_spec "config" k) as [<-|_]; [discriminate S|discriminate L].
Qed.
Example demo_scope_kept : exists d, definition_of demo_text = Some d /\
  names_are_texts (demo_scope d) /\ (forall k s, saved (demo_scope d) k s -> keeps k s) /\
  exists s, saved (demo_scope d) "Add" s.
Proof.
  destruct demo_plain as (d & E & P & _). exists d. split; [exact E|].
  assert (N : f_name d = "Add") by (vm_compute in E; injection E as <-; reflexivity).
  assert (T : is_text (def_text d)).
  { apply ascii_is_text. vm_compute in E. injection E as <-. vm_compute. reflexivity. }
  split; [|split].
  - intros k I. unfold demo_scope in I. rewrite N in I. cbn [flat_map map fst app In] in I.
    apply ascii_is_text. repeat (destruct I as [<-|I]; [reflexivity|]). contradiction.
  - intros k s S. apply (demo_saved d k s N) in S as [S|[S|[S|S]]]; injection S as -> ->; cbn.
    + auto.
    + auto.
    + repeat split; apply ascii_is_text; reflexivity.
    + repeat split.
  - exists (SDef d). split; [reflexivity|]. unfold lookup, demo_scope. rewrite N. reflexivity.
Qed.

(** ** What is lost

    The full statement is false: each theorem has a variable that is saved and
    what becomes of it. *)

(** [None]: the text written for the definition is not VQL. *)
Definition read_again (text : string) : option def :=
  match definition_of text with Some d => definition_of (utf8_text (def_text d)) | None => None end.

(** Defaults of parameters are not written. *)
Theorem C50_defaults_refuted : exists text d e,
  definition_of text = Some d /\ read_again text = Some e /\
  f_params d = ["a"] /\ List.length (f_defaults d) = 1 /\ f_params e = ["a"] /\ f_defaults e = [].
Proof.
  exists "LET F(a=1) = a".
  destruct (definition_of "LET F(a=1) = a") as [d|] eqn:D; [|vm_compute in D; discriminate].
  destruct (read_again "LET F(a=1) = a") as [e|] eqn:E; [|vm_compute in E; discriminate].
  exists d, e. vm_compute in D, E. injection D as <-. injection E as <-. repeat split; reflexivity.
Qed.
(** Parameters are written without their quotes: the definition is lost. *)
Theorem C50_quoted_parameter_refuted : exists text d,
  definition_of text = Some d /\ f_params d = ["my arg"] /\ read_again text = None.
Proof.
  exists "LET F(`my arg`) = 1 + `my arg`".
  destruct (definition_of "LET F(`my arg`) = 1 + `my arg`") as [d|] eqn:D; [|vm_compute in D; discriminate].
  exists d. split; [reflexivity|]. split; [vm_compute in D; injection D as <-; reflexivity|].
  vm_compute. reflexivity.
Qed.
(** A backslash in the name is read as an escape again: the definition comes
    back under another name. *)
Theorem C50_backslash_name_refuted : exists text d e,
  definition_of text = Some d /\ read_again text = Some e /\ f_name d <> f_name e.
Proof.
  exists "LET `a\\n` = 1".
  destruct (definition_of "LET `a\\n` = 1") as [d|] eqn:D; [|vm_compute in D; discriminate].
  destruct (read_again "LET `a\\n` = 1") as [e|] eqn:E; [|vm_compute in E; discriminate].
  exists d, e. vm_compute in D, E. injection D as <-. injection E as <-. repeat split; discriminate.
Qed.
(** What the formatter gets wrong is lost: here x[]. *)
Theorem C50_unclean_body_refuted : exists text d,
  definition_of text = Some d /\ clean_body (f_body d) = false /\ read_again text <> Some d.
Proof.
  exists "LET F = x[]".
  destruct (definition_of "LET F = x[]") as [d|] eqn:D; [|vm_compute in D; discriminate].
  exists d. split; [reflexivity|]. split; [vm_compute in D; injection D as <-; reflexivity|].
  vm_compute in D. injection D as <-. vm_compute. discriminate.
Qed.
(** A variable that holds NULL is not restored. *)
Theorem C50_null_variable_refuted : exists fs m,
  saved fs "X" (SVal VNull) /\ marshal_scope no_host fs = Some m /\
  lookup "X" (unmarshal_scope [] m []) = None.
Proof. exists [[("X", SVal VNull)]], [("X", IJson JNull)]. repeat split; vm_compute; reflexivity. Qed.
(** One variable that JSON cannot write, and nothing is saved. *)
Theorem C50_one_bad_variable_refuted : exists fs,
  saved fs "X" (SVal (VInt KInt64 1)) /\ saved fs "Y" (SVal (VF64 S754_nan)) /\ marshal_scope no_host fs = None.
Proof. exists [[("X", SVal (VInt KInt64 1)); ("Y", SVal (VF64 S754_nan))]]. vm_compute. repeat split; reflexivity. Qed.
(** A definition held under another name comes back under its own only. *)
Theorem C50_alias_refuted : exists d fs m,
  definition_of "LET X = 1" = Some d /\ saved fs "Y" (SDef d) /\ marshal_scope no_host fs = Some m /\
  lookup "Y" (unmarshal_scope [] m []) = None /\ lookup "X" (unmarshal_scope [] m []) = Some (SDef d).
Proof.
  destruct (definition_of "LET X = 1") as [d|] eqn:D; [|vm_compute in D; discriminate]. exists d.
  vm_compute in D. injection D as <-.
  match goal with |- context [Some ?d = Some _] => exists [[("Y", SDef d)]] end.
  exists [("Y", IReplay "LET `X` = 1")]. repeat split; vm_compute; reflexivity.
Qed.
(** Bytes that are not UTF-8 are replaced, and different strings become one. *)
Theorem C50_bytes_refuted : exists s t,
  s <> t /\ enc no_host (VStr s) = enc no_host (VStr t) /\ enc no_host (VStr s) <> None.
Proof. exists (String "255" ""), (String "254" ""). repeat split; [discriminate|vm_compute; discriminate]. Qed.
(** Integers come back as floats: different integers become one. *)
Theorem C50_integers_refuted : exists y z,
  y <> z /\ is_int64 y /\ is_int64 z /\
  option_map dec (enc no_host (VInt KInt64 y)) = option_map dec (enc no_host (VInt KInt64 z)).
Proof.
  exists 9007199254740992%Z, 9007199254740993%Z. unfold is_int64, two63.
  split; [lia|]. split; [lia|]. split; [lia|]. vm_compute. reflexivity.
Qed.

Print Assumptions C50_scope_partial.
Print Assumptions C50_nothing_else_changes.
Print Assumptions C50_definition_partial.
Print Assumptions C50_equal_value.
Print Assumptions C50_defaults_refuted.
Print Assumptions C50_quoted_parameter_refuted.
Print Assumptions C50_null_variable_refuted.
Print Assumptions C50_integers_refuted.
