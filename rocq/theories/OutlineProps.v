(** C57, C61: what tooling is told about a statement. *)

From Coq Require Import ZArith List String Ascii Bool Lia.
From Verif Require Import Base F64 Text Lexer Numeral Grammar Parser Format Spelling Outline.
From Verif Require Import LexProofs ParseProofs FormatProofs FormatRuns RoundTrip ParserSound FormatProps.
Import ListNotations.
Open Scope nat_scope.
Open Scope string_scope.
Open Scope list_scope.

(** ** Specification: the calls of a text

    A call is a dotted name with an opening parenthesis after it.  After FROM
    it calls a plugin, after LET it is the name being defined, and not a call,
    anywhere else it calls a function.  [what] is what a name read next would
    be, [name] the dotted name read so far. *)
Inductive role : Type := RDefinition | RFunction | RPlugin.

Fixpoint calls_from (what : role) (name : option string) (ts : list token) : list (role * string) :=
  match ts with
  | [] => []
  | t :: r =>
      match tt t with
      | T_Ident | T_SymbolIdent =>
          calls_from (match name with None => what | Some _ => RFunction end) (Some (tv t)) r
      | T_LET => calls_from RDefinition None r
      | T_FROM => calls_from RPlugin None r
      | T_Operators =>
          if String.eqb (tv t) "." then
            match name, r with
            | Some n, u :: r' =>
                match tt u with
                | T_Ident => calls_from what (Some (n ++ "." ++ tv u)%string) r'
                | _ => calls_from RFunction None r
                end
            | _, _ => calls_from RFunction None r
            end
          else if String.eqb (tv t) "(" then
            match name, what with
            | Some n, RDefinition => calls_from RFunction None r
            | Some n, w => (w, n) :: calls_from RFunction None r
            | None, _ => calls_from RFunction None r
            end
          else calls_from RFunction None r
      | _ => calls_from RFunction None r
      end
  end.
Definition calls_in (ts : list token) : list (role * string) := calls_from RFunction None ts.
Definition source_calls (text : string) : option (list (role * string)) := option_map calls_in (tokens text).

Example source_calls_example :
  source_calls "SELECT f(x=g.h()).y, (a) FROM p.q(z=a.b) WHERE c IN (1,2) and k() " =
  Some [(RFunction, "f"); (RFunction, "g.h"); (RPlugin, "p.q"); (RFunction, "k")] /\
  source_calls "LET F(a=g()) = SELECT * FROM x" = Some [(RFunction, "g")].
Proof. split; vm_compute; reflexivity. Qed.

(** ** Specification: the references of a statement, in the order written *)

Section Refs.
  Definition rmaybe {A} (f : A -> list site) (o : option A) : list site :=
    match o with Some a => f a | None => [] end.
End Refs.

Fixpoint r_value (x : gvalue) {struct x} : list site :=
  match x with
  | GSym s false _ => [Site KSymbol (dotted s) []]
  | GSym s true args => Site KFunction (dotted s) (arg_names args) :: flat_map r_arg args
  | GSub c => r_comma c
  | GString _ | GNumber _ | GBool _ | GNull => []
  end
with r_mterm (t : gmterm) {struct t} : list site :=
  match t with
  | GRange i j => rmaybe r_value i ++ rmaybe r_value j
  | GIndex i => r_value i
  | GNone | GTerm _ => []
  end
with r_member (e : gmember) {struct e} : list site :=
  match e with GMember l r => r_value l ++ flat_map r_mterm r end
with r_mul (e : gmul) {struct e} : list site :=
  match e with GMul l r => r_member l ++ flat_map (fun t => r_value (snd t)) r end
with r_add (e : gadd) {struct e} : list site :=
  match e with GAdd l r => r_mul l ++ flat_map (fun t => r_mul (snd t)) r end
with r_cond (e : gcond) {struct e} : list site :=
  match e with
  | GNot c => r_cond c
  | GCmp l r => r_add l ++ rmaybe (fun t => r_add (snd t)) r
  end
with r_or (e : gor) {struct e} : list site :=
  match e with GOr l r => r_cond l ++ flat_map (fun t => r_cond (snd t)) r end
with r_and (e : gand) {struct e} : list site :=
  match e with GAnd l r => r_or l ++ flat_map (fun t => r_or (snd t)) r end
with r_comma (e : gcomma) {struct e} : list site :=
  match e with GComma l r => r_and l ++ flat_map (rmaybe r_and) r end
with r_arg (x : garg) {struct x} : list site :=
  match x with
  | GArgExpr _ e => r_and e
  | GArgSelect _ s => r_select s
  | GArgArray _ c => rmaybe r_comma c
  end
with r_select (x : gselect) {struct x} : list site :=
  match x with
  | GSelect _ _ cols from w g _ _ => flat_map r_col cols ++ r_plugin from ++ rmaybe r_comma w ++ rmaybe r_comma g
  end
with r_col (x : gcol) {struct x} : list site :=
  match x with
  | GStar _ => []
  | GColExpr e _ => r_and e
  | GColSelect s _ => r_select s
  end
with r_plugin (x : gplugin) {struct x} : list site :=
  match x with
  | GPlugin n true args => Site KPlugin (dotted n) (arg_names args) :: flat_map r_arg args
  | GPlugin n false _ => [Site KSymbol (dotted n) []]
  end.
Definition r_param (p : gparam) : list site :=
  match p with GDefault a => r_arg a | GName _ => [] end.
Definition r_vql (x : gvql) : list site :=
  match x with
  | GLet _ _ ps _ body => flat_map r_param ps ++ match body with inl s => r_select s | inr e => r_and e end
  | GQuery s => r_select s
  end.

(** ** The visitor notes every reference once, in order *)

Definition notes (f : cvisit) (l : list site) : Prop := forall v, f v = v ++ l.

Lemma notes_skip : notes cskip [].
Proof. intro v. now rewrite app_nil_r. Qed.
Lemma notes_then f g a b : notes f a -> notes g b -> notes (cthen f g) (a ++ b).
Proof. intros F G v. unfold cthen. now rewrite F, G, app_assoc. Qed.
Lemma notes_note s : notes (note s) [s].
Proof. now intro. Qed.
Lemma notes_ab f l : notes f l -> notes (ab f) l.
Proof. intros F v. unfold ab. now rewrite F. Qed.
Section Notes.
  Variable A : Type.
  Variable f : A -> cvisit.
  Variable r : A -> list site.
  Variable P : A -> Prop.
  Hypothesis H : forall a, P a -> notes (f a) (r a).
  Definition notes_each : forall l, all P l -> notes (ceach f l) (flat_map r l).
  Proof.
    fix IH 1. intros [|a l]; [intros _; exact notes_skip|]. pose proof (IH l) as IHl.
    cbn [all fold_right ceach flat_map]. intros (Pa & Pl). apply notes_then; [now apply H|now apply IHl].
  Defined.
  Definition notes_maybe : forall o, oko P o -> notes (cmaybe f o) (rmaybe r o).
  Proof. intros [a|]; [apply H|intros _; exact notes_skip]. Defined.
End Notes.
Arguments notes_each {A}.
Arguments notes_maybe {A}.

(** The references of well formed trees (every tree of the parser). *)
Definition snd_notes {A} (f : A -> cvisit) (r : A -> list site) (Q : string -> Prop) (P : A -> Prop)
  (H : forall a, P a -> notes (f a) (r a)) :
  forall t : string * A, ok_op Q P t -> notes (f (snd t)) (r (snd t)).
Proof. intros (o, a) (_ & K). now apply H. Defined.

Fixpoint v_value (x : gvalue) {struct x} : ok_value x -> notes (cvalue x) (r_value x)
with v_mterm (x : gmterm) {struct x} : ok_mterm x -> notes (cmterm x) (r_mterm x)
with v_member (x : gmember) {struct x} : ok_member x -> notes (cmember x) (r_member x)
with v_mul (x : gmul) {struct x} : ok_mul x -> notes (cmul x) (r_mul x)
with v_add (x : gadd) {struct x} : ok_add x -> notes (cadd x) (r_add x)
with v_cond (x : gcond) {struct x} : ok_cond x -> notes (ccond x) (r_cond x)
with v_or (x : gor) {struct x} : ok_or x -> notes (cor x) (r_or x)
with v_and (x : gand) {struct x} : ok_and x -> notes (cand x) (r_and x)
with v_comma (x : gcomma) {struct x} : ok_comma x -> notes (ccomma x) (r_comma x)
with v_arg (x : garg) {struct x} : ok_arg x -> notes (carg x) (r_arg x)
with v_select (x : gselect) {struct x} : ok_select x -> notes (cselect x) (r_select x)
with v_col (x : gcol) {struct x} : ok_col x -> notes (ccol x) (r_col x)
with v_plugin (x : gplugin) {struct x} : ok_plugin x -> notes (cplugin x) (r_plugin x).
Proof.
  - destruct x as [s called params|c|s|s|s|]; cbn [ok_value cvalue r_value]; intro K; try exact notes_skip.
    + destruct K as (_ & K & KA).
      pose proof (notes_each carg r_arg ok_arg v_arg params KA) as N.
      destruct called; cbn [negb andb].
      * change (?a :: ?l) with ([a] ++ l) at 1. apply (notes_then _ _ [_] _); [apply notes_note|].
        destruct params; [exact notes_skip|now apply notes_ab].
      * destruct K as [K|K]; [discriminate|]. subst params. apply notes_note.
    + apply (v_comma c K).
  - destruct x as [i|i j| |s]; cbn [ok_mterm cmterm r_mterm]; intro K; try exact notes_skip.
    + apply (v_value i K).
    + destruct K as (K1 & K2). apply notes_then.
      * apply (notes_maybe cvalue r_value ok_value v_value i K1).
      * apply (notes_maybe cvalue r_value ok_value v_value j K2).
  - destruct x as [l r]; cbn [ok_member cmember r_member]. intros (K1 & K2 & _).
    apply notes_then; [apply (v_value l K1)|apply (notes_each cmterm r_mterm ok_mterm v_mterm r K2)].
  - destruct x as [l r]; cbn [ok_mul cmul r_mul]. intros (K1 & K2).
    apply notes_then; [apply (v_member l K1)|].
    apply (notes_each (fun t => cvalue (snd t)) (fun t => r_value (snd t)) _
             (snd_notes cvalue r_value (fun o => In o ["*"; "/"]) ok_value v_value) r K2).
  - destruct x as [l r]; cbn [ok_add cadd r_add]. intros (K1 & K2).
    apply notes_then; [apply (v_mul l K1)|].
    apply (notes_each (fun t => cmul (snd t)) (fun t => r_mul (snd t)) _
             (snd_notes cmul r_mul (fun o => In o ["+"; "-"]) ok_mul v_mul) r K2).
  - destruct x as [c|l r]; cbn [ok_cond ccond r_cond]; intro K; [apply (v_cond c K)|]. destruct K as (K1 & K2).
    apply notes_then; [apply (v_add l K1)|].
    apply (notes_maybe (fun t => cadd (snd t)) (fun t => r_add (snd t)) _
             (snd_notes cadd r_add (fun o => In o cmp_ops) ok_add v_add) r K2).
  - destruct x as [l r]; cbn [ok_or cor r_or]. intros (K1 & K2).
    apply notes_then; [apply (v_cond l K1)|].
    apply (notes_each (fun t => ccond (snd t)) (fun t => r_cond (snd t)) _
             (snd_notes ccond r_cond (fun o => reads (tt (tor_op o)) o) ok_cond v_cond) r K2).
  - destruct x as [l r]; cbn [ok_and cand r_and]. intros (K1 & K2).
    apply notes_then; [apply (v_or l K1)|].
    apply (notes_each (fun t => cor (snd t)) (fun t => r_or (snd t)) _
             (snd_notes cor r_or (fun o => reads (tt (tand_op o)) o) ok_or v_or) r K2).
  - destruct x as [l r]; cbn [ok_comma ccomma r_comma]. intros (K1 & K2).
    apply notes_then; [apply (v_and l K1)|].
    apply (notes_each (cmaybe cand) (rmaybe r_and) (oko ok_and) (notes_maybe cand r_and ok_and v_and) r K2).
  - destruct x as [n e|n s|n c]; cbn [ok_arg carg r_arg]; intros (_ & K).
    + apply (v_and e K).
    + apply (v_select s K).
    + apply (notes_maybe ccomma r_comma ok_comma v_comma c K).
  - destruct x as [explain al cols from w g o l]; cbn [ok_select cselect r_select].
    intros (K1 & _ & K2 & K3 & K4 & _).
    apply notes_then; [apply notes_ab, (notes_each ccol r_col ok_col v_col cols K1)|].
    apply notes_then; [apply (v_plugin from K2)|].
    apply notes_then; [apply (notes_maybe ccomma r_comma ok_comma v_comma w K3)|].
    apply (notes_maybe ccomma r_comma ok_comma v_comma g K4).
  - destruct x as [a|s a|e a]; cbn [ok_col ccol r_col]; intro K; [exact notes_skip| |]; destruct K as (K & _).
    + apply (v_select s K).
    + apply notes_ab, (v_and e K).
  - destruct x as [n call args]; cbn [ok_plugin cplugin r_plugin]. intros (_ & _ & KA).
    pose proof (notes_each carg r_arg ok_arg v_arg args KA) as N.
    destruct call; [|apply notes_note].
    apply (notes_then _ _ [_] _); [apply notes_note|]. destruct args; [exact notes_skip|now apply notes_ab].
Qed.

(** No parameter of a LET occurs twice. *)
Definition distinct_parameters (x : gvql) : Prop :=
  match x with GLet _ _ ps _ _ => NoDup (map param_name ps) | GQuery _ => True end.

Lemma v_vql x : ok_vql x -> distinct_parameters x -> notes (cvql x) (r_vql x).
Proof.
  destruct x as [name called ps o body|s]; cbn [ok_vql distinct_parameters cvql r_vql]; intros K D.
  2:{ now apply v_select. }
  destruct K as (_ & _ & KP & _ & KB). apply notes_then.
  - assert (G : forall qs, incl qs ps -> notes (ceach (cparam ps) qs) (flat_map r_param qs)).
    { induction qs as [|q qs IH]; intro I; [exact notes_skip|]. cbn [ceach fold_right flat_map].
      assert (Iq : In q ps) by (apply I; now left).
      apply notes_then; [|apply IH; intros z Z; apply I; now right].
      unfold cparam. rewrite default_for_self by assumption.
      rewrite all_in in KP. specialize (KP q Iq).
      destruct q as [a|s]; [now apply v_arg|exact notes_skip]. }
    apply G. apply incl_refl.
  - destruct body; [now apply v_select|now apply v_and].
Qed.

(** C61: the call sites of a list of statements are its references, each
    once, in the order written. *)
Theorem C61_every_reference_once_partial (xs : list gvql) :
  (forall x, In x xs -> (exists text, parse_vql text = Some x) /\ distinct_parameters x) ->
  call_sites xs = flat_map r_vql xs.
Proof.
  intro H. assert (N : notes (ceach cvql xs) (flat_map r_vql xs)).
  { apply notes_each with (P := fun x => ok_vql x /\ distinct_parameters x).
    - intros x (K & D). now apply v_vql.
    - apply all_in. intros x I. destruct (H x I) as ((text & E) & D). split; [now apply (parse_vql_ok text)|exact D]. }
  exact (N []).
Qed.

(** Missing: with a parameter twice, the reference in the first default is
    left out and the one in the last is listed twice. *)
Theorem C61_repeated_parameter_refuted : exists text x,
  parse_vql text = Some x /\
  call_sites [x] = [Site KFunction "h" []; Site KFunction "h" []] /\
  source_calls text = Some [(RFunction, "g"); (RFunction, "h")].
Proof. exists "LET F(a=g(), a=h()) = 1". eexists. split; [vm_compute; reflexivity|]. split; vm_compute; reflexivity. Qed.

(** ** The calls among the references are the calls of the text *)

Definition call_of (s : site) : list (role * string) :=
  match s_kind s with
  | KFunction => [(RFunction, s_name s)]
  | KPlugin => [(RPlugin, s_name s)]
  | KSymbol => []
  end.
Definition calls_of (l : list site) : list (role * string) := flat_map call_of l.

Lemma calls_of_app a b : calls_of (a ++ b) = calls_of a ++ calls_of b.
Proof. unfold calls_of. now rewrite flat_map_app. Qed.

(** What the scan may hold between two tokens. *)
Definition state := role -> option string -> Prop.
Definition Fresh : state := fun w n => w = RFunction /\ n = None.
Definition Any : state := fun w n => n <> None \/ w = RFunction.
Definition At (w0 : role) (n0 : option string) : state := fun w n => w = w0 /\ n = n0.
Definition scan (P : state) (ts : list token) (l : list (role * string)) (Q : state) : Prop :=
  forall w n rest, P w n -> exists w' n', Q w' n' /\ calls_from w n (ts ++ rest) = l ++ calls_from w' n' rest.

Lemma scan_nil P : scan P [] [] P.
Proof. intros w n rest H. exists w, n. now split. Qed.
Lemma scan_app P Q R a b la lb : scan P a la Q -> scan Q b lb R -> scan P (a ++ b) (la ++ lb) R.
Proof.
  intros A B w n rest H. rewrite <- app_assoc. destruct (A w n (b ++ rest) H) as (w1 & n1 & Q1 & E1).
  destruct (B w1 n1 rest Q1) as (w2 & n2 & R2 & E2). exists w2, n2. split; [exact R2|].
  now rewrite E1, E2, app_assoc.
Qed.
Lemma scan_cons P Q R t b lb : scan P [t] [] Q -> scan Q b lb R -> scan P (t :: b) lb R.
Proof. intros A B. exact (scan_app P Q R [t] b [] lb A B). Qed.
Lemma scan_weaken (P P' Q Q' : state) ts l :
  (forall w n, P' w n -> P w n) -> (forall w n, Q w n -> Q' w n) -> scan P ts l Q -> scan P' ts l Q'.
Proof.
  intros I O H w n rest X. destruct (H w n rest (I w n X)) as (w' & n' & Y & E). exists w', n'. split; [now apply O|exact E].
Qed.
Lemma fresh_any w n : Fresh w n -> Any w n.
Proof. intros (-> & ->). now right. Qed.
Lemma scan_fresh (P : state) ts l Q : scan Any ts l Q -> (forall w n, P w n -> Any w n) -> scan P ts l Q.
Proof. intros H I. now apply (scan_weaken Any P Q Q). Qed.
Lemma scan_to_any P ts l : scan P ts l Fresh -> scan P ts l Any.
Proof. apply scan_weaken; [auto|apply fresh_any]. Qed.

(** Tokens that end a name. *)
Definition plain_token (t : token) : bool :=
  match tt t with
  | T_Ident | T_SymbolIdent | T_LET | T_FROM => false
  | T_Operators => negb (String.eqb (tv t) ".") && negb (String.eqb (tv t) "(")
  | _ => true
  end.
Lemma scan_plain P t : plain_token t = true -> scan P [t] [] Fresh.
Proof.
  intros T w n rest _. exists RFunction, None. split; [now split|]. cbn [app calls_from].
  unfold plain_token in T. destruct (tt t); try discriminate T; try reflexivity.
  apply andb_true_iff in T as (D & O). apply negb_true_iff in D, O. now rewrite D, O.
Qed.
Lemma scan_ident s : scan Fresh [tident s] [] Any.
Proof. intros w n rest (-> & ->). exists RFunction, (Some s). split; [now right|reflexivity]. Qed.
Lemma scan_open : scan Fresh [op "("] [] Fresh.
Proof. intros w n rest (-> & ->). exists RFunction, None. split; [now split|reflexivity]. Qed.

Lemma scan_rest w l : forall n, scan (At w (Some n)) (trest l) [] (At w (Some (List.fold_left (fun a b => a ++ "." ++ b)%string l n))).
Proof.
  induction l as [|a l IH]; intro n; [apply scan_nil|]. cbn [trest flat_map List.fold_left app].
  apply (scan_app _ (At w (Some (n ++ "." ++ a)%string)) _ [op "."; tident a] _ [] []); [|apply IH].
  intros w' n' rest (-> & ->). eexists _, _. split; [now split|reflexivity].
Qed.
Lemma dotted_fold a l : dotted (a :: l) = List.fold_left (fun a b => a ++ "." ++ b)%string l a.
Proof.
  unfold dotted. revert a. induction l as [|b l IH]; intro a; [reflexivity|].
  cbn [List.fold_left]. rewrite <- IH. change (String.concat "." (a :: b :: l)) with (a ++ "." ++ String.concat "." (b :: l))%string.
  destruct l as [|c l]; [reflexivity|].
  change (String.concat "." (b :: c :: l)) with (b ++ "." ++ String.concat "." (c :: l))%string.
  change (String.concat "." ((a ++ "." ++ b)%string :: c :: l)) with ((a ++ "." ++ b) ++ "." ++ String.concat "." (c :: l))%string.
  now rewrite !sapp_assoc.
Qed.
Lemma scan_symbol s : s <> [] -> scan Fresh (tsymbol s) [] (At RFunction (Some (dotted s))).
Proof.
  destruct s as [|a l]; [now intros []|]. intros _. cbn [tsymbol].
  apply scan_cons with (Q := At RFunction (Some a)); [|rewrite dotted_fold; apply scan_rest].
  intros w n rest (-> & ->). exists RFunction, (Some a). split; [now split|]. cbn [app calls_from tfirst tt tv].
  now destruct (first_char (Ascii.eqb "-") a).
Qed.
Lemma scan_name w s : s <> [] -> scan (At w None) (tname s) [] (At w (Some (dotted s))).
Proof.
  destruct s as [|a l]; [now intros []|]. intros _. cbn [tname].
  apply scan_cons with (Q := At w (Some a)); [|rewrite dotted_fold; apply scan_rest].
  intros w' n rest (-> & ->). exists w, (Some a). now split.
Qed.

Section Scans.
  Variable A : Type.
  Variable f : A -> list token.
  Variable r : A -> list site.
  Variable P : A -> Prop.
  (** items from Any to Any *)
  Section Flat.
    Hypothesis H : forall a, P a -> scan Any (f a) (calls_of (r a)) Any.
    Definition scan_flat : forall l, all P l -> scan Any (flat_map f l) (calls_of (flat_map r l)) Any.
    Proof.
      fix IH 1. intros [|a l]; [intros _; exact (scan_nil Any)|]. pose proof (IH l) as IHl.
      cbn [all fold_right flat_map]. intros (Pa & Pl). rewrite calls_of_app.
      apply scan_app with (Q := Any); [now apply H|now apply IHl].
    Defined.
    Definition scan_some : forall o, oko P o -> scan Any (tmaybe f o) (calls_of (rmaybe r o)) Any.
    Proof. intros [a|]; [apply H|intros _; exact (scan_nil Any)]. Defined.
  End Flat.
  (** items read from a fresh start *)
  Section Sep.
    Hypothesis H : forall a, P a -> scan Fresh (f a) (calls_of (r a)) Any.
    Definition scan_sep : forall l, all P l -> scan Fresh (tsep f l) (calls_of (flat_map r l)) Any.
    Proof.
      fix IH 1. intros [|a l]; [intros _; exact (scan_to_any _ _ _ (scan_nil Fresh))|]. pose proof (IH l) as IHl.
      cbn [all fold_right flat_map]. intros (Pa & Pl). specialize (IHl Pl). rewrite calls_of_app.
      destruct l as [|b l].
      - cbn [tsep flat_map calls_of]. rewrite app_nil_r. now apply H.
      - change (tsep f (a :: b :: l)) with (f a ++ op "," :: tsep f (b :: l)).
        apply scan_app with (Q := Any); [now apply H|].
        apply scan_cons with (Q := Fresh); [now apply scan_plain|exact IHl].
    Defined.
    Definition scan_opt : forall o, oko P o -> scan Fresh (tmaybe f o) (calls_of (rmaybe r o)) Any.
    Proof. intros [a|]; [apply H|intros _; exact (scan_to_any _ _ _ (scan_nil Fresh))]. Defined.
    Definition scan_call w n (W : w <> RDefinition) : forall l, all P l ->
      scan (At w (Some n)) (tcall f l) ((w, n) :: calls_of (flat_map r l)) Fresh.
    Proof.
      intros l K. unfold tcall.
      apply (scan_app _ Fresh _ [op "("] _ [(w, n)] _).
      - intros w' n' rest (-> & ->). exists RFunction, None. split; [now split|]. now destruct w.
      - rewrite <- (app_nil_r (calls_of _)). apply scan_app with (Q := Any); [now apply scan_sep|now apply scan_plain].
    Defined.
  End Sep.
End Scans.
Arguments scan_flat {A}.
Arguments scan_some {A}.
Arguments scan_sep {A}.
Arguments scan_opt {A}.
Arguments scan_call {A}.

(** an operator or keyword, then an operand *)
Definition scan_top {A} (k : string -> token) (f : A -> list token) (r : A -> list site)
  (Q : string -> Prop) (P : A -> Prop)
  (T : forall o, Q o -> plain_token (k o) = true)
  (H : forall a, P a -> scan Fresh (f a) (calls_of (r a)) Any) :
  forall t : string * A, ok_op Q P t -> scan Any (top k f t) (calls_of (r (snd t))) Any.
Proof.
  intros (o, a) (K & Pa). cbn [top snd]. apply scan_cons with (Q := Fresh); [now apply scan_plain, T|now apply H].
Defined.
Lemma plain_in (l : list string) : forallb (fun o => plain_token (op o)) l = true ->
  forall o, In o l -> plain_token (op o) = true.
Proof. intros F o I. rewrite forallb_forall in F. now apply F. Qed.
Lemma plain_cmp o : In o cmp_ops -> plain_token (tcmp_op o) = true.
Proof. cbn. intro I. repeat (destruct I as [<-|I]; [reflexivity|]). contradiction. Qed.
Lemma plain_or o : reads (tt (tor_op o)) o -> plain_token (tor_op o) = true.
Proof. intros _. unfold tor_op. now destruct (first_char (Ascii.eqb "|") o). Qed.
Lemma plain_and o : reads (tt (tand_op o)) o -> plain_token (tand_op o) = true.
Proof. intros _. unfold tand_op. now destruct (String.eqb o "&&"). Qed.
Lemma plain_string s : plain_token (tstring s) = true.
Proof. unfold tstring. now destruct (strip_prefix triple s). Qed.
Lemma ok_symbol_some s : ok_symbol s -> s <> [].
Proof. now destruct s. Qed.
Lemma ok_name_some s : ok_name s -> s <> [].
Proof. now destruct s. Qed.
Lemma scan_alias a : scan Any (talias a) [] Any.
Proof.
  unfold talias. destruct (String.eqb a ""); [apply scan_nil|].
  apply scan_cons with (Q := Fresh); [now apply scan_plain|apply scan_ident].
Qed.
Lemma scan_from : scan Any [Tok T_FROM "FROM"] [] (At RPlugin None).
Proof. intros w n rest _. exists RPlugin, None. now split. Qed.
Lemma calls_of_cons s l : calls_of (s :: l) = call_of s ++ calls_of l.
Proof. reflexivity. Qed.
Lemma at_any w n w' n' : At w (Some n) w' n' -> Any w' n'.
Proof. intros (_ & ->). left. discriminate. Qed.
Lemma at_function n w' n' : At RFunction n w' n' -> Any w' n'.
Proof. intros (-> & _). now right. Qed.

Ltac one st := apply scan_cons with (Q := st); [now apply scan_plain|].

Fixpoint q_value (x : gvalue) {struct x} : ok_value x -> scan Fresh (tvalue x) (calls_of (r_value x)) Any
with q_mterm (x : gmterm) {struct x} : ok_mterm x -> scan Any (tmterm x) (calls_of (r_mterm x)) Any
with q_member (x : gmember) {struct x} : ok_member x -> scan Fresh (tmember x) (calls_of (r_member x)) Any
with q_mul (x : gmul) {struct x} : ok_mul x -> scan Fresh (tmul x) (calls_of (r_mul x)) Any
with q_add (x : gadd) {struct x} : ok_add x -> scan Fresh (tadd x) (calls_of (r_add x)) Any
with q_cond (x : gcond) {struct x} : ok_cond x -> scan Fresh (tcond x) (calls_of (r_cond x)) Any
with q_or (x : gor) {struct x} : ok_or x -> scan Fresh (tor x) (calls_of (r_or x)) Any
with q_and (x : gand) {struct x} : ok_and x -> scan Fresh (tand x) (calls_of (r_and x)) Any
with q_comma (x : gcomma) {struct x} : ok_comma x -> scan Fresh (tcomma x) (calls_of (r_comma x)) Any
with q_arg (x : garg) {struct x} : ok_arg x -> scan Fresh (targ x) (calls_of (r_arg x)) Any
with q_select (x : gselect) {struct x} : ok_select x -> scan Any (tselect x) (calls_of (r_select x)) Any
with q_col (x : gcol) {struct x} : ok_col x -> scan Fresh (tcol x) (calls_of (r_col x)) Any
with q_plugin (x : gplugin) {struct x} : ok_plugin x -> scan (At RPlugin None) (tplugin x) (calls_of (r_plugin x)) Any.
Proof.
  - destruct x as [s called params|c|s|s|s|]; cbn [ok_value tvalue r_value]; intro K;
      try (refine (scan_to_any Fresh [_] [] (scan_plain Fresh _ _)); first [apply plain_string|reflexivity]).
    + destruct K as (KS & KC & KA).
      pose proof (scan_call targ r_arg ok_arg q_arg RFunction (dotted s) ltac:(discriminate) params KA) as N.
      apply ok_symbol_some in KS. destruct called; cbn [negb andb].
      * rewrite calls_of_cons. apply (scan_app _ (At RFunction (Some (dotted s))) _ _ _ [] _); [now apply scan_symbol|].
        now apply scan_to_any.
      * destruct KC as [KC|KC]; [discriminate|]. subst params. rewrite app_nil_r.
        apply (scan_weaken Fresh _ (At RFunction (Some (dotted s))) _); [auto|apply at_any|now apply scan_symbol].
    + apply scan_cons with (Q := Fresh); [apply scan_open|].
      rewrite <- (app_nil_r (calls_of _)). apply scan_app with (Q := Any); [apply (q_comma c K)|].
      now apply scan_to_any, scan_plain.
  - destruct x as [i|i j| |s]; cbn [ok_mterm tmterm r_mterm]; intro K.
    + one Fresh. rewrite <- (app_nil_r (calls_of _)). apply scan_app with (Q := Any); [apply (q_value i K)|].
      now apply scan_to_any, scan_plain.
    + destruct K as (K1 & K2). one Fresh. rewrite calls_of_app.
      apply scan_app with (Q := Any); [apply (scan_opt tvalue r_value ok_value q_value i K1)|].
      one Fresh. rewrite <- (app_nil_r (calls_of _)).
      apply scan_app with (Q := Any); [apply (scan_opt tvalue r_value ok_value q_value j K2)|].
      now apply scan_to_any, scan_plain.
    + one Fresh. now apply scan_to_any, scan_plain.
    + intros w n rest N. destruct n as [n|].
      * exists w, (Some (n ++ "." ++ s)%string). split; [left; discriminate|reflexivity].
      * destruct N as [N| ->]; [now destruct N|]. exists RFunction, (Some s). split; [now right|reflexivity].
  - destruct x as [l r]; cbn [ok_member tmember r_member]. intros (K1 & K2 & _). rewrite calls_of_app.
    apply scan_app with (Q := Any); [apply (q_value l K1)|apply (scan_flat tmterm r_mterm ok_mterm q_mterm r K2)].
  - destruct x as [l r]; cbn [ok_mul tmul r_mul]. intros (K1 & K2). rewrite calls_of_app.
    apply scan_app with (Q := Any); [apply (q_member l K1)|].
    apply (scan_flat (top op tvalue) (fun t => r_value (snd t)) _
       (scan_top op tvalue r_value (fun o => In o ["*"; "/"]) ok_value (plain_in ["*"; "/"] eq_refl) q_value) r K2).
  - destruct x as [l r]; cbn [ok_add tadd r_add]. intros (K1 & K2). rewrite calls_of_app.
    apply scan_app with (Q := Any); [apply (q_mul l K1)|].
    apply (scan_flat (top op tmul) (fun t => r_mul (snd t)) _
       (scan_top op tmul r_mul (fun o => In o ["+"; "-"]) ok_mul (plain_in ["+"; "-"] eq_refl) q_mul) r K2).
  - destruct x as [c|l r]; cbn [ok_cond tcond r_cond]; intro K.
    + apply scan_cons with (Q := Fresh); [now apply scan_plain|apply (q_cond c K)].
    + destruct K as (K1 & K2). rewrite calls_of_app. apply scan_app with (Q := Any); [apply (q_add l K1)|].
      apply (scan_some (top tcmp_op tadd) (fun t => r_add (snd t)) _
        (scan_top tcmp_op tadd r_add (fun o => In o cmp_ops) ok_add plain_cmp q_add) r K2).
  - destruct x as [l r]; cbn [ok_or tor r_or]. intros (K1 & K2). rewrite calls_of_app.
    apply scan_app with (Q := Any); [apply (q_cond l K1)|].
    apply (scan_flat (top tor_op tcond) (fun t => r_cond (snd t)) _
       (scan_top tor_op tcond r_cond (fun o => reads (tt (tor_op o)) o) ok_cond plain_or q_cond) r K2).
  - destruct x as [l r]; cbn [ok_and tand r_and]. intros (K1 & K2). rewrite calls_of_app.
    apply scan_app with (Q := Any); [apply (q_or l K1)|].
    apply (scan_flat (top tand_op tor) (fun t => r_or (snd t)) _
       (scan_top tand_op tor r_or (fun o => reads (tt (tand_op o)) o) ok_or plain_and q_or) r K2).
  - destruct x as [l r]; cbn [ok_comma tcomma r_comma]. intros (K1 & K2). rewrite calls_of_app.
    apply scan_app with (Q := Any); [apply (q_and l K1)|].
    apply (scan_flat (fun t => op "," :: tmaybe tand t) (rmaybe r_and) (oko ok_and)
      (fun t k => scan_cons Any Fresh Any (op ",") (tmaybe tand t) _ (scan_plain Any (op ",") eq_refl)
                    (scan_opt tand r_and ok_and q_and t k)) r K2).
  - destruct x as [n e|n s|n c]; cbn [ok_arg targ r_arg]; intros (_ & K);
      (apply scan_cons with (Q := Any); [apply scan_ident|]); one Fresh.
    + apply (q_and e K).
    + one Fresh. rewrite <- (app_nil_r (calls_of _)).
      apply scan_app with (Q := Any); [apply (scan_fresh _ _ _ _ (q_select s K)), fresh_any|].
      now apply scan_to_any, scan_plain.
    + one Fresh. rewrite <- (app_nil_r (calls_of _)).
      apply scan_app with (Q := Any); [apply (scan_opt tcomma r_comma ok_comma q_comma c K)|].
      now apply scan_to_any, scan_plain.
  - destruct x as [explain al cols from w g o l]; cbn [ok_select tselect r_select].
    intros (K1 & _ & K2 & K3 & K4 & _).
    apply (scan_app _ Any _ _ _ [] _).
    { destruct explain; [apply scan_to_any; now apply scan_plain|apply scan_nil]. }
    one Fresh.
    apply (scan_app _ Fresh _ _ _ [] _).
    { destruct al; [|apply scan_nil]. destruct cols; [now apply scan_plain|]. one Fresh. now apply scan_plain. }
    rewrite !calls_of_app.
    apply scan_app with (Q := Any); [apply (scan_sep tcol r_col ok_col q_col cols K1)|].
    apply scan_cons with (Q := At RPlugin None); [apply scan_from|].
    apply scan_app with (Q := Any); [apply (q_plugin from K2)|].
    apply scan_app with (Q := Any).
    { apply (scan_some (fun w => Tok T_WHERE "WHERE" :: tcomma w) r_comma ok_comma
        (fun w k => scan_cons Any Fresh Any (Tok T_WHERE "WHERE") (tcomma w) _
                      (scan_plain Any (Tok T_WHERE "WHERE") eq_refl) (q_comma w k)) w K3). }
    rewrite <- (app_nil_r (calls_of (rmaybe r_comma g))).
    apply scan_app with (Q := Any).
    { apply (scan_some (fun w => Tok T_GROUPBY "GROUP BY" :: tcomma w) r_comma ok_comma
        (fun w k => scan_cons Any Fresh Any (Tok T_GROUPBY "GROUP BY") (tcomma w) _
                      (scan_plain Any (Tok T_GROUPBY "GROUP BY") eq_refl) (q_comma w k)) g K4). }
    apply (scan_app _ Any _ _ _ [] []).
    { destruct o as [(k, d)|]; [|apply scan_nil]. cbn [tmaybe fst snd]. one Fresh.
      apply scan_cons with (Q := Any); [apply scan_ident|].
      destruct d; [apply scan_to_any; now apply scan_plain|apply scan_nil]. }
    destruct l as [z|]; [|apply scan_nil]. cbn [tmaybe]. one Fresh. now apply scan_to_any, scan_plain.
  - destruct x as [a|s a|e a]; cbn [ok_col tcol r_col]; intro K.
    + one Fresh. apply (scan_fresh _ _ _ _ (scan_alias a)), fresh_any.
    + destruct K as (K & _). one Fresh. rewrite <- (app_nil_r (calls_of _)).
      apply scan_app with (Q := Any); [apply (scan_fresh _ _ _ _ (q_select s K)), fresh_any|].
      one Fresh. apply (scan_fresh _ _ _ _ (scan_alias a)), fresh_any.
    + destruct K as (K & _). rewrite <- (app_nil_r (calls_of _)).
      apply scan_app with (Q := Any); [apply (q_and e K)|apply scan_alias].
  - destruct x as [n call args]; cbn [ok_plugin tplugin r_plugin]. intros (KN & KC & KA).
    pose proof (scan_call targ r_arg ok_arg q_arg RPlugin (dotted n) ltac:(discriminate) args KA) as N.
    apply ok_name_some in KN. destruct call.
    + rewrite calls_of_cons. apply (scan_app _ (At RPlugin (Some (dotted n))) _ _ _ [] _); [now apply scan_name|].
      now apply scan_to_any.
    + rewrite app_nil_r.
      apply (scan_weaken (At RPlugin None) _ (At RPlugin (Some (dotted n))) _); [auto|apply at_any|now apply scan_name].
Qed.

Lemma q_param p : ok_param p -> scan Fresh (tparam p) (calls_of (r_param p)) Any.
Proof. destruct p as [a|s]; [apply q_arg|intros _; apply scan_ident]. Qed.
Lemma q_vql x : ok_vql x -> scan Any (tvql x) (calls_of (r_vql x)) Any.
Proof.
  destruct x as [name called ps o body|s]; cbn [ok_vql tvql r_vql]; [|apply q_select].
  intros (K1 & K2 & K3 & K4 & K5). rewrite calls_of_app.
  apply scan_cons with (Q := At RDefinition None).
  { intros w n rest _. exists RDefinition, None. now split. }
  apply scan_cons with (Q := At RDefinition (Some name)).
  { intros w n rest (-> & ->). exists RDefinition, (Some name). now split. }
  apply scan_app with (Q := Any).
  - destruct called.
    + unfold tcall. apply scan_cons with (Q := Fresh).
      { intros w n rest (-> & ->). exists RFunction, None. split; [now split|reflexivity]. }
      rewrite <- (app_nil_r (calls_of _)).
      apply scan_app with (Q := Any); [apply (scan_sep tparam r_param ok_param q_param ps K3)|].
      now apply scan_to_any, scan_plain.
    + destruct K2 as [K2|K2]; [discriminate|]. subst ps. cbn [flat_map calls_of].
      apply (scan_weaken (At RDefinition (Some name)) _ (At RDefinition (Some name)) _); [auto|apply at_any|apply scan_nil].
  - apply scan_cons with (Q := Fresh).
    + apply scan_plain. destruct K4 as [->| ->]; reflexivity.
    + destruct body; [apply (scan_fresh _ _ _ _ (q_select g K5)), fresh_any|now apply q_and].
Qed.

Lemma calls_of_tree x : ok_vql x -> calls_in (tvql x) = calls_of (r_vql x).
Proof.
  intro K. destruct (q_vql x K RFunction None []) as (w & n & _ & E); [now right|].
  rewrite app_nil_r in E. unfold calls_in. rewrite E. cbn. now rewrite app_nil_r.
Qed.

(** C61: the functions and plugins among the call sites of a statement are
    the calls of its text, one for one and in order. *)
Theorem C61_calls_of_the_text_partial text x :
  parse_vql text = Some x -> clean_vql x = true ->
  source_calls (format_vql x) = Some (calls_of (call_sites [x])).
Proof.
  intros E C. pose proof (parse_vql_ok text x E) as K. unfold source_calls. rewrite (vql_lexes x K C). cbn [option_map].
  rewrite calls_of_tree by exact K. f_equal. f_equal.
  rewrite (C61_every_reference_once_partial [x]); [cbn; now rewrite app_nil_r|].
  intros y [<-|[]]. split; [now exists text|]. destruct x as [name called ps o body|s]; [|exact I]. cbn.
  cbn [clean_vql] in C. apply andb_true_iff in C as (C & _). apply andb_true_iff in C as (_ & C). now apply distinct_spec.
Qed.

(** C61: one definition site for each LET, with its parameters in order. *)
Theorem C61_definitions (xs : list gvql) :
  map (fun d => (d_name d, d_args d)) (definition_sites xs) =
  flat_map (fun x => match x with GLet n _ ps _ _ => [(n, map param_name ps)] | GQuery _ => [] end) xs.
Proof.
  unfold definition_sites. induction xs as [|x xs IH]; [reflexivity|]. cbn [flat_map]. rewrite map_app, IH. now destruct x.
Qed.

(** The names of the parameters with a default, in the order written. *)
Definition with_default (ps : list gparam) : list string :=
  flat_map (fun p => match p with GDefault a => [unq (arg_name a)] | GName _ => [] end) ps.

Lemma once_in l s : In s (once l) <-> In s l.
Proof.
  induction l as [|a l IH]; [easy|]. cbn [once In]. rewrite filter_In, IH. split; [tauto|].
  intros [->|H]; [now left|]. destruct (String.eqb_spec a s); [now left|]. now right.
Qed.
Lemma once_nodup l : NoDup (once l).
Proof.
  induction l as [|a l IH]; [constructor|]. cbn [once]. constructor.
  - rewrite filter_In. intros (_ & H). now rewrite String.eqb_refl in H.
  - now apply NoDup_filter.
Qed.
Lemma map_same (f : string -> string) l : (forall s, In s l -> f s = s) -> map f l = l.
Proof. induction l as [|a l IH]; intro H; [reflexivity|]. cbn. rewrite H by now left. f_equal. apply IH. intros; apply H; now right. Qed.

(** C61: the defaults of the definition site of a LET are the names of its
    parameters with a default and nothing else, each listed once.  (A name is
    unquoted twice, hence the hypothesis: only a name with a backquote in it
    can differ.) *)
Theorem C61_definition_defaults (n : string) (c : bool) ps o b :
  (forall s, In s (with_default ps) -> unq s = s) ->
  exists d, definition_sites [GLet n c ps o b] = [d] /\
    NoDup (d_defaults d) /\
    (forall s, In s (d_defaults d) <-> exists a, In (GDefault a) ps /\ s = unq (arg_name a)).
Proof.
  intro U. eexists. split; [reflexivity|]. cbn [d_defaults]. unfold default_names. fold (with_default ps).
  rewrite map_same by (intros s H; apply U; now apply once_in). split; [apply once_nodup|].
  intro s. rewrite once_in. unfold with_default. rewrite in_flat_map. split.
  - intros ([a|x] & H & K); [|easy]. destruct K as [<-|[]]. now exists a.
  - intros (a & H & ->). exists (GDefault a). split; [exact H|now left].
Qed.

(** A definition with two defaults, one of them given twice. *)
Example C61_defaults_example :
  exists x d, parse_vql "LET f(a, b=1, c=2, b=3) = a" = Some x /\
    definition_sites [x] = [d] /\ d_defaults d = ["b"; "c"] /\
    match x with GLet _ _ ps _ _ => with_default ps = ["b"; "c"; "b"] | _ => False end.
Proof. do 2 eexists. split; [vm_compute; reflexivity|]. split; [vm_compute; reflexivity|]. split; reflexivity. Qed.

(** ** C57 *)

(** The function entries of an outline, in the order they are listed. *)
Fixpoint functions (o : outline) : list string :=
  match o with
  | OFunction n => [n]
  | OLet _ l | OQuery _ l | OColumn _ l => flat_map functions l
  end.

(** [Subseq a b]: a is b with some elements left out. *)
Inductive Subseq {A} : list A -> list A -> Prop :=
| SubNil l : Subseq [] l
| SubKeep x a b : Subseq a b -> Subseq (x :: a) (x :: b)
| SubSkip x a b : Subseq a b -> Subseq a (x :: b).

Lemma Subseq_refl {A} (l : list A) : Subseq l l.
Proof. induction l; constructor; auto. Qed.
Lemma Subseq_skip {A} (p a b : list A) : Subseq a b -> Subseq a (p ++ b).
Proof. intro H. induction p; [exact H|]. cbn. now constructor. Qed.
Lemma Subseq_app {A} (a b a' b' : list A) : Subseq a b -> Subseq a' b' -> Subseq (a ++ a') (b ++ b').
Proof.
  intros H H'. induction H as [l|x a b H IH|x a b H IH]; cbn.
  - now apply Subseq_skip.
  - now constructor.
  - now constructor.
Qed.
Lemma Subseq_keep_left {A} (a b c : list A) : Subseq a b -> Subseq a (b ++ c).
Proof. intro H. rewrite <- (app_nil_r a). apply Subseq_app; [exact H|constructor]. Qed.

Definition fun_names (l : list site) : list string :=
  flat_map (fun s => match s_kind s with KFunction => [s_name s] | _ => [] end) l.
Lemma fun_names_app a b : fun_names (a ++ b) = fun_names a ++ fun_names b.
Proof. unfold fun_names. now rewrite flat_map_app. Qed.

Definition listed (o : list outline) (l : list site) : Prop := Subseq (flat_map functions o) (fun_names l).
Lemma listed_nil l : listed [] l.
Proof. constructor. Qed.
Lemma listed_app a b la lb : listed a la -> listed b lb -> listed (a ++ b) (la ++ lb).
Proof. unfold listed. rewrite flat_map_app, fun_names_app. apply Subseq_app. Qed.
Section Listed.
  Variable A : Type.
  Variable f : A -> list outline.
  Variable r : A -> list site.
  Hypothesis H : forall a, listed (f a) (r a).
  Definition listed_flat : forall l, listed (flat_map f l) (flat_map r l).
  Proof. fix IH 1. intros [|a l]; [apply listed_nil|]. pose proof (IH l). cbn [flat_map]. apply listed_app; [apply H|assumption]. Defined.
  Definition listed_maybe : forall o, listed (match o with Some a => f a | None => [] end) (rmaybe r o).
  Proof. intros [a|]; [apply H|apply listed_nil]. Defined.
End Listed.
Arguments listed_flat {A}.
Arguments listed_maybe {A}.

Fixpoint l_value (x : gvalue) {struct x} : listed (oc_value x) (r_value x)
with l_mterm (x : gmterm) {struct x} : listed (oc_mterm x) (r_mterm x)
with l_member (x : gmember) {struct x} : listed (oc_member x) (r_member x)
with l_mul (x : gmul) {struct x} : listed (oc_mul x) (r_mul x)
with l_add (x : gadd) {struct x} : listed (oc_add x) (r_add x)
with l_cond (x : gcond) {struct x} : listed (oc_cond x) (r_cond x)
with l_or (x : gor) {struct x} : listed (oc_or x) (r_or x)
with l_and (x : gand) {struct x} : listed (oc_and x) (r_and x)
with l_comma (x : gcomma) {struct x} : listed (oc_comma x) (r_comma x).
Proof.
  - destruct x as [s [] params|c|s|s|s|]; cbn [oc_value r_value]; try apply listed_nil.
    + unfold listed. cbn [flat_map functions fun_names s_kind s_name app]. constructor. constructor.
    + apply l_comma.
  - destruct x as [i|i j| |s]; cbn [oc_mterm r_mterm]; try apply listed_nil.
    + apply l_value.
    + apply listed_app; apply (listed_maybe oc_value r_value l_value).
  - destruct x as [l r]; cbn [oc_member r_member]. apply listed_app; [apply l_value|apply (listed_flat oc_mterm r_mterm l_mterm)].
  - destruct x as [l r]; cbn [oc_mul r_mul]. apply listed_app; [apply l_member|].
    apply (listed_flat (fun t => oc_value (snd t)) (fun t => r_value (snd t)) (fun t => match t with (_, v) => l_value v end)).
  - destruct x as [l r]; cbn [oc_add r_add]. apply listed_app; [apply l_mul|].
    apply (listed_flat (fun t => oc_mul (snd t)) (fun t => r_mul (snd t)) (fun t => match t with (_, v) => l_mul v end)).
  - destruct x as [c|l r]; cbn [oc_cond r_cond]; [apply l_cond|]. apply listed_app; [apply l_add|].
    apply (listed_maybe (fun t => oc_add (snd t)) (fun t => r_add (snd t)) (fun t => match t with (_, v) => l_add v end)).
  - destruct x as [l r]; cbn [oc_or r_or]. apply listed_app; [apply l_cond|].
    apply (listed_flat (fun t => oc_cond (snd t)) (fun t => r_cond (snd t)) (fun t => match t with (_, v) => l_cond v end)).
  - destruct x as [l r]; cbn [oc_and r_and]. apply listed_app; [apply l_or|].
    apply (listed_flat (fun t => oc_or (snd t)) (fun t => r_or (snd t)) (fun t => match t with (_, v) => l_or v end)).
  - destruct x as [l r]; cbn [oc_comma r_comma]. apply listed_app; [apply l_and|].
    apply (listed_flat _ (rmaybe r_and) (listed_maybe oc_and r_and l_and)).
Qed.

Fixpoint l_select (x : gselect) {struct x} : Subseq (functions (outline_select x)) (fun_names (r_select x))
with l_col (x : gcol) {struct x} : Subseq (functions (outline_col x)) (fun_names (r_col x)).
Proof.
  - destruct x as [explain al cols [n call args] w g o l]. cbn [outline_select functions r_select].
    rewrite fun_names_app. apply Subseq_keep_left. clear - l_col.
    assert (G : forall cols, Subseq (flat_map functions (map outline_col cols)) (fun_names (flat_map r_col cols))).
    { fix IH 1. intros [|c cs]; [constructor|]. pose proof (IH cs) as IHc. cbn [map flat_map].
      rewrite fun_names_app. apply Subseq_app; [apply l_col|exact IHc]. }
    apply G.
  - destruct x as [a|s a|e a]; cbn [outline_col r_col].
    + constructor.
    + apply l_select.
    + cbn [functions]. apply l_and.
Qed.

Lemma fun_names_calls l :
  fun_names l = flat_map (fun c => match fst c with RFunction => [snd c] | _ => [] end) (calls_of l).
Proof. induction l as [|s l IH]; [reflexivity|]. rewrite calls_of_cons. cbn [fun_names flat_map]. rewrite flat_map_app, <- IH. now destruct (s_kind s) eqn:E; unfold call_of; rewrite E. Qed.

Lemma outline_in_tree x : Subseq (functions (outline_vql x)) (fun_names (r_vql x)).
Proof.
  destruct x as [name called ps o body|s]; cbn [outline_vql r_vql]; [|apply l_select].
  rewrite fun_names_app. apply Subseq_skip. cbn [functions flat_map]. rewrite app_nil_r.
  destruct body as [s|e]; [apply l_select|]. cbn [functions]. apply l_and.
Qed.

(** C57: a statement's outline is one entry: a LET with its name holding
    what it is bound to, or the query.  A query has one entry per column, in
    order, named by the alias. *)
Definition column_name (c : gcol) : string :=
  match c with
  | GStar a | GColExpr _ a => a
  | GColSelect (GSelect _ _ _ (GPlugin n _ _) _ _ _ _) _ => dotted n
  end.
Definition entry_name (o : outline) : string :=
  match o with OLet n _ | OQuery n _ | OColumn n _ | OFunction n => n end.
Definition entries (o : outline) : list outline :=
  match o with OLet _ l | OQuery _ l | OColumn _ l => l | OFunction _ => [] end.

Theorem C57_one_entry_per_column explain al cols name called args w g o l :
  let q := outline_select (GSelect explain al cols (GPlugin name called args) w g o l) in
  entry_name q = dotted name /\ map entry_name (entries q) = map column_name cols.
Proof.
  cbn. split; [reflexivity|]. induction cols as [|c cols IH]; [reflexivity|]. cbn [map]. rewrite IH. f_equal.
  destruct c as [a|[e2 a2 c2 [n2 k2 g2] w2 h2 o2 l2] a|e a]; reflexivity.
Qed.
