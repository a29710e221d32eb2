(** The parser reads back the tokens of a tree (token level). *)

From Coq Require Import ZArith List String Ascii Bool Lia.
From Verif Require Import Base F64 Text Lexer Numeral Grammar Parser Format Spelling LexProofs NumeralProofs FloatText.
Import ListNotations.
Open Scope nat_scope.
Open Scope string_scope.
Open Scope list_scope.

(** ** Combinators *)

Definition misses {A} (p : parser A) (ts : list token) : Prop :=
  exists r, p ts = PFail r /\ stop ts r = false.

Lemma stop_same ts : stop ts ts = false.
Proof. unfold stop. rewrite Nat.sub_diag. reflexivity. Qed.
Lemma stop_one x ts : stop (x :: ts) ts = false.
Proof.
  unfold stop. cbn [List.length]. rewrite Nat.sub_succ_l, Nat.sub_diag by apply Nat.le_refl. reflexivity.
Qed.

Lemma ttype_eqb t u : ttype_beq t u = true <-> t = u.
Proof. split; [apply internal_ttype_dec_bl | apply internal_ttype_dec_lb]. Qed.
Lemma ttype_refl t : ttype_beq t t = true.
Proof. now apply ttype_eqb. Qed.

Lemma ptok_hit t s r : ptok t (Tok t s :: r) = POk s r.
Proof. cbn. now rewrite ttype_refl. Qed.
Lemma plit_hit v t r : plit v (Tok t v :: r) = POk v r.
Proof. cbn. now rewrite String.eqb_refl. Qed.

Lemma ptok_miss t x r : tt x <> t -> misses (ptok t) (x :: r).
Proof.
  intro H. exists (x :: r). split; [|apply stop_same]. cbn.
  destruct (ttype_beq (tt x) t) eqn:E; [|reflexivity]. now apply ttype_eqb in E.
Qed.
Lemma ptok_miss_nil t : misses (ptok t) [].
Proof. exists []. split; reflexivity. Qed.
Lemma plit_miss v x r : tv x <> v -> misses (plit v) (x :: r).
Proof.
  intro H. exists (x :: r). split; [|apply stop_same]. cbn.
  destruct (String.eqb_spec (tv x) v); [contradiction|reflexivity].
Qed.
Lemma plit_miss_nil v : misses (plit v) [].
Proof. exists []. split; reflexivity. Qed.

Lemma bind_ok {A B} (p : parser A) (f : A -> parser B) ts a r :
  p ts = POk a r -> pbind p f ts = f a r.
Proof. intro H. unfold pbind. now rewrite H. Qed.
Lemma bind_miss {A B} (p : parser A) (f : A -> parser B) ts :
  misses p ts -> misses (pbind p f) ts.
Proof. intros (r & H & S). exists r. unfold pbind. now rewrite H. Qed.

Lemma bind_fail {A B} (p : parser A) (f : A -> parser B) ts r :
  p ts = PFail r -> pbind p f ts = PFail r.
Proof. intro H. unfold pbind. now rewrite H. Qed.

Lemma alt_left {A} (p q : parser A) ts a r : p ts = POk a r -> alt p q ts = POk a r.
Proof. intro H. unfold alt. now rewrite H. Qed.
Lemma alt_right {A} (p q : parser A) ts a r :
  misses p ts -> q ts = POk a r -> alt p q ts = POk a r.
Proof. intros (r' & H & S) Q. unfold alt. now rewrite H, S, Q. Qed.
Lemma alt_miss {A} (p q : parser A) ts : misses p ts -> misses q ts -> misses (alt p q) ts.
Proof.
  intros (r & H & S) (r' & H' & S'). exists ts. unfold alt. rewrite H, S, H', S'.
  split; [reflexivity|apply stop_same].
Qed.

Lemma popt_some {A} (p : parser A) ts a r : p ts = POk a r -> popt p ts = POk (Some a) r.
Proof. intro H. unfold popt. now rewrite H. Qed.
Lemma popt_none {A} (p : parser A) ts : misses p ts -> popt p ts = POk None ts.
Proof. intros (r & H & S). unfold popt. now rewrite H, S. Qed.

Lemma pstar_n_list {A B} (p : parser B) (t : A -> list token) (g : A -> B) (F : list token -> Prop) rest :
  forall l n,
  List.length l < n ->
  (forall a r, In a l -> F r -> p (t a ++ r) = POk (g a) r) ->
  (forall a r, In a l -> F (t a ++ r)) ->
  F rest -> misses p rest ->
  pstar_n n p (flat_map t l ++ rest) = POk (map g l) rest.
Proof.
  induction l as [|a l IH]; intros n L H1 H2 H3 M.
  - destruct n as [|n]; [cbn in L; lia|]. cbn [flat_map app map pstar_n]. destruct M as (r & M & S). now rewrite M, S.
  - destruct n as [|n]; [cbn in L; lia|]. cbn [flat_map map pstar_n]. rewrite <- app_assoc.
    rewrite H1; [|now left|].
    + rewrite IH; [reflexivity|cbn in L; lia| | |assumption|assumption].
      * intros b r I. apply H1. now right.
      * intros b r I. apply H2. now right.
    + destruct l as [|b l']; [assumption|]. cbn [flat_map]. rewrite <- app_assoc.
      apply H2. right. now left.
Qed.

Lemma flat_map_length_ge {A} (t : A -> list token) l :
  (forall a, In a l -> t a <> []) -> List.length l <= List.length (flat_map t l).
Proof.
  induction l as [|a l IH]; cbn; intro H; [lia|]. rewrite app_length.
  assert (t a <> []) by (apply H; now left).
  assert (List.length l <= List.length (flat_map t l)) by (apply IH; intros; apply H; now right).
  destruct (t a) as [|x y]; [contradiction|cbn; lia].
Qed.

Lemma pstar_list {A B} (p : parser B) (t : A -> list token) (g : A -> B) (F : list token -> Prop) l rest :
  (forall a r, In a l -> F r -> p (t a ++ r) = POk (g a) r) ->
  (forall a r, In a l -> F (t a ++ r)) ->
  (forall a, In a l -> t a <> []) ->
  F rest -> misses p rest ->
  pstar p (flat_map t l ++ rest) = POk (map g l) rest.
Proof.
  intros H1 H2 H0 H3 M. unfold pstar. apply pstar_n_list with (F := F); auto.
  rewrite app_length. pose proof (flat_map_length_ge t l H0). lia.
Qed.

Lemma pstar_nil {A} (p : parser A) ts : misses p ts -> pstar p ts = POk [] ts.
Proof. intros (r & H & S). unfold pstar. cbn [pstar_n]. now rewrite H, S. Qed.

Lemma pstar_one {A} (p : parser A) ts a rest :
  p ts = POk a rest -> misses p rest -> ts <> [] -> pstar p ts = POk [a] rest.
Proof.
  intros H (r & M & S) N. unfold pstar. destruct ts as [|x ts]; [contradiction|].
  cbn [List.length pstar_n]. now rewrite H, M, S.
Qed.

Lemma tsep_cons {A} (f : A -> list token) a l :
  tsep f (a :: l) = f a ++ flat_map (fun x => op "," :: f x) l.
Proof.
  revert a. induction l as [|b l IH]; intro a; cbn [tsep flat_map].
  - now rewrite app_nil_r.
  - change (f a ++ op "," :: tsep f (b :: l) =
            f a ++ (op "," :: f b) ++ flat_map (fun x => op "," :: f x) l).
    now rewrite IH.
Qed.

Lemma plist_sep {A B} (p : parser B) (f : A -> list token) (g : A -> B) (F : list token -> Prop) l rest :
  (forall a r, In a l -> F r -> p (f a ++ r) = POk (g a) r) ->
  (forall r, F (op "," :: r)) ->
  F rest -> misses (plit ",") rest -> (l = [] -> misses p rest) ->
  plist p (tsep f l ++ rest) = POk (map g l) rest.
Proof.
  intros H1 H2 H3 M N. unfold plist. destruct l as [|a l].
  - cbn [tsep app map]. rewrite (bind_ok _ _ rest None rest); [reflexivity|].
    apply popt_none. apply bind_miss. now apply N.
  - rewrite tsep_cons, <- app_assoc.
    rewrite (bind_ok _ _ _ (Some (map g (a :: l))) rest); [reflexivity|].
    apply popt_some.
    rewrite (bind_ok _ _ _ (g a) (flat_map (fun x => op "," :: f x) l ++ rest)).
    + rewrite (bind_ok _ _ _ (map g l) rest); [reflexivity|].
      apply pstar_list with (F := F); auto.
      * intros b r I R. cbn [app]. rewrite (bind_ok _ _ _ "," (f b ++ r)) by apply plit_hit.
        apply H1; [now right|assumption].
      * intros b r I. cbn [app]. apply H2.
      * intros b I. discriminate.
      * now apply bind_miss.
    + apply H1; [now left|]. destruct l as [|b l']; [assumption|apply H2].
Qed.

(** ** What a token continues

    0: the value before it; 1: a product; 2: a sum; 3: a comparison; 4: OR;
    5: AND; 6: a list; 7 begins an expression; 8 does neither. *)

Definition text_level (s : string) : nat :=
  let is l := existsb (String.eqb s) l in
  if is ["("; "["; "."] then 0
  else if is ["*"; "/"] then 1
  else if is ["+"; "-"] then 2
  else if is ["<>"; "<="; ">="; "="; "<"; ">"; "!="; "=~"] then 3
  else if is [","] then 6
  else 8.
Definition lits : list string := operators.
Definition lvl (x : token) : nat :=
  match tt x with
  | T_SymbolIdent | T_Ident | T_MultilineString | T_String | T_Number | T_BOOL | T_NULL | T_NOT =>
      if existsb (String.eqb (tv x)) lits then 0 else 7
  | T_OR | T_AlternativeOR => if existsb (String.eqb (tv x)) lits then 0 else 4
  | T_AND | T_AlternativeAND => if existsb (String.eqb (tv x)) lits then 0 else 5
  | T_IN => if existsb (String.eqb (tv x)) lits then 0 else 3
  | _ => text_level (tv x)
  end.
Definition above (k : nat) (ts : list token) : Prop :=
  match ts with [] => True | x :: _ => k < lvl x end.
Definition nostart (ts : list token) : Prop :=
  match ts with [] => True | x :: _ => lvl x <> 7 /\ lvl x <> 0 end.

Lemma above_le k k' ts : k' <= k -> above k ts -> above k' ts.
Proof. destruct ts; cbn; lia. Qed.
Lemma above_nostart ts : above 7 ts -> nostart ts.
Proof. destruct ts; cbn; lia. Qed.

Lemma in_lits v : In v lits -> existsb (String.eqb v) lits = true.
Proof. intro H. apply existsb_exists. exists v. split; [assumption|apply String.eqb_refl]. Qed.

Lemma lvl_text x v : tv x = v -> In v lits -> lvl x <= text_level v.
Proof.
  intros <- I. apply in_lits in I. unfold lvl. rewrite I. destruct (tt x); lia.
Qed.
Lemma plit_above k v ts : above k ts -> In v lits -> text_level v <= k -> misses (plit v) ts.
Proof.
  destruct ts as [|x ts]; intros A I L; [apply plit_miss_nil|].
  apply plit_miss. intro E. pose proof (lvl_text x v E I). cbn in A. lia.
Qed.
Lemma plit_nostart v ts : nostart ts -> In v lits -> text_level v = 0 -> misses (plit v) ts.
Proof.
  destruct ts as [|x ts]; intros A I L; [apply plit_miss_nil|].
  apply plit_miss. intro E. pose proof (lvl_text x v E I). cbn in A. lia.
Qed.

Definition type_level (t : ttype) : nat :=
  match t with
  | T_SymbolIdent | T_Ident | T_MultilineString | T_String | T_Number | T_BOOL | T_NULL | T_NOT => 7
  | T_OR | T_AlternativeOR => 4
  | T_AND | T_AlternativeAND => 5
  | T_IN => 3
  | _ => 8
  end.
Lemma text_level_le s : text_level s <= 8.
Proof.
  unfold text_level. repeat match goal with |- context [if ?b then _ else _] => destruct b end; lia.
Qed.
Lemma lvl_type x : lvl x <= type_level (tt x).
Proof.
  unfold lvl, type_level. pose proof (text_level_le (tv x)).
  destruct (tt x); try assumption; destruct (existsb _ _); lia.
Qed.
Lemma ptok_above k t ts : above k ts -> type_level t <= k -> misses (ptok t) ts.
Proof.
  destruct ts as [|x ts]; intros A L; [apply ptok_miss_nil|].
  apply ptok_miss. intros <-. pose proof (lvl_type x). cbn in A. lia.
Qed.
Lemma ptok_nostart t ts : nostart ts -> type_level t = 7 -> misses (ptok t) ts.
Proof.
  destruct ts as [|x ts]; intros A L; [apply ptok_miss_nil|].
  apply ptok_miss. intros <-. cbn in A. unfold lvl in A.
  destruct (tt x); try discriminate; destruct (existsb _ _); lia.
Qed.

(** ** Where expressions begin *)

Lemma operators_read : forallb (fun o => match lex1 o with
                                         | Some (Some t, "") => ttype_beq (tt t) T_Operators
                                         | _ => false
                                         end) operators = true.
Proof. reflexivity. Qed.

Lemma append_nil_r (s : string) : (s ++ "")%string = s.
Proof. induction s as [|c s IH]; cbn; [reflexivity|now rewrite IH]. Qed.

Lemma reads_not_lit t s : reads t s -> t <> T_Operators -> existsb (String.eqb s) lits = false.
Proof.
  intros R N. destruct (existsb (String.eqb s) lits) eqn:E; [|reflexivity]. exfalso.
  apply existsb_exists in E as (o & I & E). apply String.eqb_eq in E. subst o.
  pose proof (proj1 (forallb_forall _ _) operators_read s I) as H. cbv beta in H.
  specialize (R "" eq_refl). rewrite append_nil_r in R. rewrite R in H.
  apply ttype_eqb in H. now cbn in H.
Qed.
Lemma reads_lvl t s : reads t s -> t <> T_Operators -> type_level t < 8 -> lvl (Tok t s) = type_level t.
Proof.
  intros R N L. pose proof (reads_not_lit t s R N) as E. unfold lvl. cbn [tt tv]. rewrite E.
  destruct t; try reflexivity; cbn in L; lia.
Qed.

Definition begins (ts : list token) : Prop :=
  match ts with
  | [] => False
  | x :: _ => (lvl x = 7 /\ tt x <> T_NOT) \/ x = op "("
  end.
Lemma begins_app ts r : begins ts -> begins (ts ++ r).
Proof. destruct ts; cbn; [contradiction|trivial]. Qed.
Lemma begins_not_lit ts v : begins ts -> In v lits -> v <> "(" -> misses (plit v) ts.
Proof.
  destruct ts as [|x ts]; cbn; [contradiction|]. intros [[L _]| ->] I N.
  - apply plit_miss. intro E. pose proof (lvl_text x v E I).
    assert (lvl x = 7 -> existsb (String.eqb (tv x)) lits = false).
    { unfold lvl. destruct (tt x), (existsb _ _); try discriminate; auto.
      all: unfold text_level; repeat match goal with |- context [if ?b then _ else _] => destruct b end; discriminate. }
    specialize (H0 L). rewrite E, (in_lits v I) in H0. discriminate.
  - apply plit_miss. cbn. auto.
Qed.
Lemma begins_not_tok ts t : begins ts -> type_level t <> 7 -> t <> T_Operators -> misses (ptok t) ts.
Proof.
  destruct ts as [|x ts]; cbn; [contradiction|]. intros [[L _]| ->] N O.
  - apply ptok_miss. intros <-. apply N. pose proof (lvl_type x). rewrite L in H.
    unfold lvl in L. destruct (tt x); try discriminate L; try reflexivity.
    all: try (destruct (existsb _ _); discriminate L).
    all: exfalso; revert L; unfold text_level;
         repeat match goal with |- context [if ?b then _ else _] => destruct b end; discriminate.
  - apply ptok_miss. cbn. auto.
Qed.
Lemma begins_not_not ts : begins ts -> misses (ptok T_NOT) ts.
Proof.
  destruct ts as [|x ts]; cbn; [contradiction|]. intros [[_ L]| ->]; apply ptok_miss; [assumption|discriminate].
Qed.
Lemma begins_nonempty ts : begins ts -> ts <> [].
Proof. destruct ts; [contradiction|discriminate]. Qed.

Lemma all_in {A} (P : A -> Prop) l : all P l <-> (forall a, In a l -> P a).
Proof.
  induction l as [|a l IH]; cbn; [intuition|]. split.
  - intros [H L] b [<-|I]; [assumption|]. now apply IH.
  - intro H. split; [apply H; now left|]. apply IH. intros; apply H; now right.
Qed.
Lemma allb_in {A} (P : A -> bool) l : allb P l = true <-> (forall a, In a l -> P a = true).
Proof.
  induction l as [|a l IH]; cbn; [intuition|]. rewrite andb_true_iff. split.
  - intros [H L] b [<-|I]; [assumption|]. now apply IH.
  - intro H. split; [apply H; now left|]. apply IH. intros; apply H; now right.
Qed.

Lemma length_flat_map_in {A} (f : A -> list token) l a :
  In a l -> List.length (f a) <= List.length (flat_map f l).
Proof.
  induction l as [|b l IH]; cbn; [contradiction|]. rewrite app_length.
  intros [<-|I]; [lia|]. specialize (IH I). lia.
Qed.
Lemma length_tsep_in {A} (f : A -> list token) l a :
  In a l -> List.length (f a) <= List.length (tsep f l).
Proof.
  destruct l as [|b l]; [contradiction|]. rewrite tsep_cons, app_length. intros [<-|I]; [lia|].
  pose proof (length_flat_map_in (fun x => op "," :: f x) l a I). cbn [List.length] in H. lia.
Qed.

(** ** Expressions *)

(** What may come after a value: a symbol would take a call, and, if not
    called, a field. *)
Definition vfollow (v : gvalue) (rest : list token) : Prop :=
  match v with
  | GSym _ called _ =>
      misses (plit "(") rest /\ (called = false -> misses (plit ".") rest)
  | _ => True
  end.

Lemma vfollow_above v rest : above 0 rest -> vfollow v rest.
Proof.
  intro A. destruct v; cbn; auto. split; [|intros _];
    apply (plit_above 0); auto; cbn; tauto.
Qed.

Section Numbers.
  (** How numbers print is the subject of NumeralProofs.v. *)
  Variable number_reads : forall s, clean_number s = true -> reads T_Number (fnumber s).

  Lemma tfirst_lvl a : reads (tt (tfirst a)) a -> lvl (tfirst a) = 7 /\ tt (tfirst a) <> T_NOT.
  Proof.
    unfold tfirst. intro R. split.
    - destruct (first_char _ a); (rewrite reads_lvl; [reflexivity|exact R|discriminate|cbn; lia]).
    - destruct (first_char _ a); discriminate.
  Qed.

  Lemma value_begins v : ok_value v -> clean_value v = true -> begins (tvalue v).
  Proof.
    destruct v as [s called ps|c|s|s|s|]; cbn [ok_value clean_value tvalue]; intros K C.
    - destruct s as [|a r]; [now destruct K|]. cbn [tsymbol app begins]. left. apply tfirst_lvl, K.
    - right. reflexivity.
    - left. unfold tstring in *. split; [|destruct (strip_prefix triple s); discriminate].
      rewrite reads_lvl; [| exact K| |]; destruct (strip_prefix triple s); cbn; try discriminate; lia.
    - left. split; [|discriminate]. rewrite reads_lvl; [reflexivity|now apply number_reads|discriminate|cbn; lia].
    - left. split; [|discriminate]. rewrite reads_lvl; [reflexivity|assumption|discriminate|cbn; lia].
    - left. split; [reflexivity|discriminate].
  Qed.

  Lemma member_begins e : ok_member e -> clean_member e = true -> begins (tmember e).
  Proof.
    destruct e as [v r]. cbn [ok_member clean_member tmember]. intros (K & _) C.
    apply andb_true_iff in C as (C & _). now apply begins_app, value_begins.
  Qed.
  Lemma mul_begins e : ok_mul e -> clean_mul e = true -> begins (tmul e).
  Proof.
    destruct e as [v r]. cbn [ok_mul clean_mul tmul]. intros (K & _) C.
    apply andb_true_iff in C as (C & _). now apply begins_app, member_begins.
  Qed.
  Lemma add_begins e : ok_add e -> clean_add e = true -> begins (tadd e).
  Proof.
    destruct e as [v r]. cbn [ok_add clean_add tadd]. intros (K & _) C.
    apply andb_true_iff in C as (C & _). now apply begins_app, mul_begins.
  Qed.

  (** NOT is the other way to begin. *)
  Definition begins' (ts : list token) : Prop :=
    begins ts \/ match ts with x :: _ => x = Tok T_NOT "NOT" | [] => False end.
  Lemma begins'_app ts r : begins' ts -> begins' (ts ++ r).
  Proof.
    intros [H|H]; [left; now apply begins_app|right]. destruct ts; [contradiction|assumption].
  Qed.
  Lemma cond_begins e : ok_cond e -> clean_cond e = true -> begins' (tcond e).
  Proof.
    destruct e as [c|l r]; cbn [ok_cond clean_cond tcond]; [right; reflexivity|].
    intros (K & _) C. apply andb_true_iff in C as (C & _). left. now apply begins_app, add_begins.
  Qed.
  Lemma or_begins e : ok_or e -> clean_or e = true -> begins' (tor e).
  Proof.
    destruct e as [v r]. cbn [ok_or clean_or tor]. intros (K & _) C.
    apply andb_true_iff in C as (C & _). now apply begins'_app, cond_begins.
  Qed.
  Lemma and_begins e : ok_and e -> clean_and e = true -> begins' (tand e).
  Proof.
    destruct e as [v r]. cbn [ok_and clean_and tand]. intros (K & _) C.
    apply andb_true_iff in C as (C & _). now apply begins'_app, or_begins.
  Qed.
  Lemma begins'_not_lit ts v : begins' ts -> In v lits -> v <> "(" -> misses (plit v) ts.
  Proof.
    intros [H|H] I N; [now apply begins_not_lit|]. destruct ts as [|x ts]; [contradiction|].
    subst x. apply plit_miss. cbn. intros <-. vm_compute in I.
    repeat (destruct I as [I|I]; [discriminate|]). contradiction.
  Qed.
  Lemma begins'_not_tok ts t : begins' ts -> type_level t <> 7 -> t <> T_Operators -> misses (ptok t) ts.
  Proof.
    intros [H|H] I N; [now apply begins_not_tok|]. destruct ts as [|x ts]; [contradiction|].
    subst x. apply ptok_miss. cbn. intros <-. now apply I.
  Qed.

  Section Ladder.
    Variable n : nat.
    Variable pv : parser gvalue.
    Variable value_parses : forall v rest,
      ok_value v -> clean_value v = true -> List.length (tvalue v) < n -> vfollow v rest ->
      pv (tvalue v ++ rest) = POk (nvalue v) rest.
    Variable value_misses : forall ts, nostart ts -> misses pv ts.

    Lemma opt_value_parses o rest t v :
      oko ok_value o -> optb clean_value o = true -> List.length (tmaybe tvalue o) < n ->
      In v [":"; "]"] -> rest = Tok t v :: List.tl rest -> t = T_Operators ->
      pstar pv (tmaybe tvalue o ++ rest) = POk (match o with Some v => [nvalue v] | None => [] end) rest.
    Proof.
      intros K C L I -> ->.
      assert (N : nostart (Tok T_Operators v :: List.tl rest)).
      { destruct I as [<-|[<-|[]]]; cbn; lia. }
      assert (A : above 0 (Tok T_Operators v :: List.tl rest)).
      { destruct I as [<-|[<-|[]]]; cbn; lia. }
      destruct o as [x|]; cbn [oko optb tmaybe] in *.
      - apply pstar_one.
        + apply value_parses; auto. now apply vfollow_above.
        + now apply value_misses.
        + apply begins_nonempty, begins_app, value_begins; auto.
      - apply pstar_nil. now apply value_misses.
    Qed.

    Lemma mterm_parses t rest :
      ok_mterm t -> clean_mterm t = true -> List.length (tmterm t) < n ->
      pmterm pv (tmterm t ++ rest) = POk (nmterm t) rest.
    Proof.
      destruct t as [i|i j| |s]; cbn [ok_mterm clean_mterm tmterm nmterm]; intros K C L; unfold pmterm.
      - apply alt_left. cbn [app]. rewrite (bind_ok _ _ _ "[" (tvalue i ++ [op "]"] ++ rest)).
        2:{ rewrite app_assoc. apply plit_hit. }
        rewrite (bind_ok _ _ _ [nvalue i] (op "]" :: rest)).
        2:{ apply (opt_value_parses (Some i) (op "]" :: rest) T_Operators "]"); cbn [oko optb tmaybe]; auto.
            - cbn [List.length] in L. rewrite app_length in L. lia.
            - cbn. auto. }
        rewrite (bind_ok _ _ _ [] (op "]" :: rest)) by (apply pstar_nil, plit_miss; discriminate).
        rewrite (bind_ok _ _ _ [] (op "]" :: rest)) by (apply pstar_nil, value_misses; cbn; lia).
        rewrite (bind_ok _ _ _ "]" rest) by apply plit_hit. reflexivity.
      - apply alt_left. cbn [app]. rewrite <- app_assoc.
        rewrite (bind_ok _ _ _ "[" _) by apply plit_hit.
        cbn [List.length] in L. rewrite app_length in L. cbn [List.length] in L. rewrite app_length in L.
        apply andb_true_iff in C as (C1 & C2). destruct K as (K1 & K2).
        cbn [app]. rewrite <- app_assoc. cbn [app].
        erewrite bind_ok.
        2:{ eapply (opt_value_parses i _ T_Operators ":"); auto; [lia|cbn; auto]. }
        rewrite (bind_ok _ _ _ [":"] (tmaybe tvalue j ++ op "]" :: rest)).
        2:{ apply pstar_one; [apply plit_hit| |discriminate].
            destruct j as [j|]; cbn [tmaybe app].
            - apply begins_not_lit; [|vm_compute; tauto|discriminate].
              apply begins_app, value_begins; auto.
            - apply plit_miss. discriminate. }
        erewrite bind_ok.
        2:{ eapply (opt_value_parses j _ T_Operators "]"); auto; [lia|cbn; auto]. }
        rewrite (bind_ok _ _ _ "]" rest) by apply plit_hit.
        destruct i, j; reflexivity.
      - discriminate.
      - apply alt_right.
        + apply bind_miss, plit_miss. discriminate.
        + cbn [app]. rewrite (bind_ok _ _ _ "." (tident s :: rest)) by apply plit_hit.
          rewrite (bind_ok _ _ _ s rest) by apply ptok_hit. reflexivity.
    Qed.

    Lemma member_parses e rest :
      ok_member e -> clean_member e = true -> List.length (tmember e) < n -> above 0 rest ->
      pmember pv (tmember e ++ rest) = POk (nmember e) rest.
    Proof.
      destruct e as [v ts]. cbn [ok_member clean_member tmember nmember]. intros (K1 & K2 & K3) C L A.
      apply andb_true_iff in C as (C1 & C2). rewrite app_length in L.
      unfold pmember. rewrite <- app_assoc.
      rewrite (bind_ok _ _ _ (nvalue v) (flat_map tmterm ts ++ rest)).
      - rewrite (bind_ok _ _ _ (map nmterm ts) rest); [reflexivity|].
        apply pstar_list with (F := fun _ => True); auto.
        + intros t r I _. apply mterm_parses.
          * rewrite all_in in K2. auto.
          * rewrite allb_in in C2. auto.
          * pose proof (length_flat_map_in tmterm ts t I). lia.
        + intros t I. destruct t; discriminate.
        + unfold pmterm. apply alt_miss; apply bind_miss;
            (apply (plit_above 0); [assumption|vm_compute; tauto|cbn; lia]).
      - apply value_parses; auto; [lia|].
        destruct ts as [|t ts]; [now apply vfollow_above|].
        destruct v; cbn; auto. cbn in K3.
        destruct t; try (split; [|intros _]; apply plit_miss; discriminate).
        destruct called; [|contradiction]. split; [apply plit_miss; discriminate|discriminate].
    Qed.

    Lemma above_op_1 r o : In o ["*"; "/"] -> above 0 (op o :: r).
    Proof. intros [<-|[<-|[]]]; cbn; lia. Qed.
    Lemma above_op_2 r o : In o ["+"; "-"] -> above 1 (op o :: r).
    Proof. intros [<-|[<-|[]]]; cbn; lia. Qed.

    Lemma mul_parses e rest :
      ok_mul e -> clean_mul e = true -> List.length (tmul e) < n -> above 1 rest ->
      pmul pv (tmul e ++ rest) = POk (nmul e) rest.
    Proof.
      destruct e as [m ts]. cbn [ok_mul clean_mul tmul nmul]. intros (K1 & K2) C L A.
      apply andb_true_iff in C as (C1 & C2). rewrite app_length in L. rewrite all_in in K2. rewrite allb_in in C2.
      unfold pmul. rewrite <- app_assoc.
      rewrite (bind_ok _ _ _ (nmember m) (flat_map (top op tvalue) ts ++ rest)).
      - rewrite (bind_ok _ _ _ (map (fun t => (fst t, nvalue (snd t))) ts) rest); [reflexivity|].
        apply pstar_list with (F := above 0); auto.
        + intros (o, v) r I F. cbn [top app fst snd].
          destruct (K2 _ I) as (O & V).
          rewrite (bind_ok _ _ _ o (tvalue v ++ r)).
          * rewrite (bind_ok _ _ _ (nvalue v) r); [reflexivity|].
            apply value_parses; auto; [apply (C2 _ I)| |now apply vfollow_above].
            pose proof (length_flat_map_in (top op tvalue) ts _ I) as Q. cbn [top List.length] in Q. lia.
          * destruct O as [<-|[<-|[]]]; [apply alt_left, plit_hit|].
            apply alt_right; [apply plit_miss; discriminate|apply plit_hit].
        + intros (o, v) r I. apply above_op_1. apply (K2 _ I).
        + intros (o, v) I. discriminate.
        + now apply (above_le 1); [lia|].
        + apply bind_miss. apply alt_miss; (apply (plit_above 1); [assumption|vm_compute; tauto|cbn; lia]).
      - apply member_parses; auto; [lia|].
        destruct ts as [|(o, v) ts]; [now apply (above_le 1); [lia|]|].
        cbn [flat_map top app]. apply above_op_1. apply (K2 (o, v)). now left.
    Qed.

    Lemma add_parses e rest :
      ok_add e -> clean_add e = true -> List.length (tadd e) < n -> above 2 rest ->
      padd pv (tadd e ++ rest) = POk (nadd e) rest.
    Proof.
      destruct e as [m ts]. cbn [ok_add clean_add tadd nadd]. intros (K1 & K2) C L A.
      apply andb_true_iff in C as (C1 & C2). rewrite app_length in L. rewrite all_in in K2. rewrite allb_in in C2.
      unfold padd. rewrite <- app_assoc.
      rewrite (bind_ok _ _ _ (nmul m) (flat_map (top op tmul) ts ++ rest)).
      - rewrite (bind_ok _ _ _ (map (fun t => (fst t, nmul (snd t))) ts) rest); [reflexivity|].
        apply pstar_list with (F := above 1); auto.
        + intros (o, v) r I F. cbn [top app fst snd].
          destruct (K2 _ I) as (O & V).
          rewrite (bind_ok _ _ _ o (tmul v ++ r)).
          * rewrite (bind_ok _ _ _ (nmul v) r); [reflexivity|].
            apply mul_parses; auto; [apply (C2 _ I)|].
            pose proof (length_flat_map_in (top op tmul) ts _ I) as Q. cbn [top List.length] in Q. lia.
          * destruct O as [<-|[<-|[]]]; [apply alt_left, plit_hit|].
            apply alt_right; [apply plit_miss; discriminate|apply plit_hit].
        + intros (o, v) r I. apply above_op_2. apply (K2 _ I).
        + intros (o, v) I. discriminate.
        + now apply (above_le 2); [lia|].
        + apply bind_miss. apply alt_miss; (apply (plit_above 2); [assumption|vm_compute; tauto|cbn; lia]).
      - apply mul_parses; auto; [lia|].
        destruct ts as [|(o, v) ts]; [now apply (above_le 2); [lia|]|].
        cbn [flat_map top app]. apply above_op_2. apply (K2 (o, v)). now left.
    Qed.

    Lemma cmpop_parses o r : In o cmp_ops -> pcmpop (tcmp_op o :: r) = POk o r.
    Proof.
      intro I. unfold pcmpop, cmp_ops in *. cbn [In] in I.
      repeat (destruct I as [<-|I];
              [first [solve [apply alt_left; cbn [plits];
                             repeat first [apply plit_hit | apply alt_left, plit_hit
                                          |apply alt_right; [apply plit_miss; discriminate|]]]
                     |solve [apply alt_right;
                             [cbn [plits]; repeat apply alt_miss; apply plit_miss; discriminate
                             |first [apply alt_left, ptok_hit
                                    |apply alt_right; [apply ptok_miss; discriminate|apply plit_hit]]]]]
              |]).
      contradiction.
    Qed.

    Lemma cmpop_above r o : In o cmp_ops -> above 2 (tcmp_op o :: r).
    Proof.
      unfold cmp_ops. cbn [In]. intro I.
      repeat (destruct I as [<-|I]; [vm_compute; lia|]). contradiction.
    Qed.
    Lemma cmpop_misses r : above 3 r -> misses pcmpop r.
    Proof.
      intro A. unfold pcmpop, plits.
      repeat apply alt_miss; try (apply (plit_above 3); [assumption|vm_compute; tauto|cbn; lia]).
      apply (ptok_above 3); [assumption|cbn; lia].
    Qed.

    Lemma cond_parses : forall m e rest,
      ok_cond e -> clean_cond e = true -> List.length (tcond e) < n -> List.length (tcond e) < m ->
      above 3 rest ->
      pcond pv m (tcond e ++ rest) = POk (ncond e) rest.
    Proof.
      induction m as [|m IH]; intros e rest K C L M A; [lia|].
      cbn [pcond]. destruct e as [c|a r]; cbn [ok_cond clean_cond tcond ncond] in *.
      - rewrite (bind_ok _ _ _ (inl (ncond c)) rest).
        + rewrite (bind_ok _ _ _ [] rest); [reflexivity|].
          apply pstar_nil, bind_miss. now apply cmpop_misses.
        + apply alt_left. cbn [app]. rewrite (bind_ok _ _ _ "NOT" (tcond c ++ rest)) by apply ptok_hit.
          rewrite (bind_ok _ _ _ (ncond c) rest); [reflexivity|].
          apply IH; auto; cbn in L, M; lia.
      - destruct K as (K1 & K2). apply andb_true_iff in C as (C1 & C2). rewrite app_length in L.
        rewrite <- app_assoc.
        rewrite (bind_ok _ _ _ (inr (nadd a)) (tmaybe (top tcmp_op tadd) r ++ rest)).
        + rewrite (bind_ok _ _ _ (match r with Some t => [(fst t, nadd (snd t))] | None => [] end) rest);
            [destruct r; reflexivity|].
          destruct r as [(o, b)|]; cbn [tmaybe top app oko ok_op optb fst snd] in *.
          * apply pstar_one; [|apply bind_miss; now apply cmpop_misses|discriminate].
            rewrite (bind_ok _ _ _ o (tadd b ++ rest)) by (apply cmpop_parses, K2).
            rewrite (bind_ok _ _ _ (nadd b) rest); [reflexivity|].
            apply add_parses; auto; [apply K2|cbn [List.length] in L; lia|now apply (above_le 3); [lia|]].
          * apply pstar_nil, bind_miss. now apply cmpop_misses.
        + apply alt_right.
          * apply bind_miss. apply begins_not_not. apply begins_app. apply add_begins; auto.
          * rewrite (bind_ok _ _ _ (nadd a) (tmaybe (top tcmp_op tadd) r ++ rest)); [reflexivity|].
            apply add_parses; auto; [lia|].
            destruct r as [(o, b)|]; cbn [tmaybe top app oko ok_op] in *.
            -- apply cmpop_above, K2.
            -- now apply (above_le 3); [lia|].
    Qed.

    Variable m : nat.
    Variable n_le_m : n <= m.

    Lemma or_op_cases o : reads (tt (tor_op o)) o -> lvl (tor_op o) = 4.
    Proof.
      unfold tor_op. intro R. destruct (first_char _ o);
        (rewrite reads_lvl; [reflexivity|exact R|discriminate|cbn; lia]).
    Qed.
    Lemma and_op_cases o : reads (tt (tand_op o)) o -> lvl (tand_op o) = 5.
    Proof.
      unfold tand_op. intro R. destruct (String.eqb o "&&");
        (rewrite reads_lvl; [reflexivity|exact R|discriminate|cbn; lia]).
    Qed.

    Lemma or_parses e rest :
      ok_or e -> clean_or e = true -> List.length (tor e) < n -> above 4 rest ->
      por pv m (tor e ++ rest) = POk (nor e) rest.
    Proof.
      destruct e as [c ts]. cbn [ok_or clean_or tor nor]. intros (K1 & K2) C L A.
      apply andb_true_iff in C as (C1 & C2). rewrite app_length in L. rewrite all_in in K2. rewrite allb_in in C2.
      unfold por. rewrite <- app_assoc.
      rewrite (bind_ok _ _ _ (ncond c) (flat_map (top tor_op tcond) ts ++ rest)).
      - rewrite (bind_ok _ _ _ (map (fun t => (fst t, ncond (snd t))) ts) rest); [reflexivity|].
        apply pstar_list with (F := above 3); auto.
        + intros (o, v) r I F. cbn [top app fst snd].
          destruct (K2 _ I) as (O & V).
          rewrite (bind_ok _ _ _ o (tcond v ++ r)).
          * pose proof (length_flat_map_in (top tor_op tcond) ts _ I) as Q. cbn [top List.length] in Q.
            rewrite (bind_ok _ _ _ (ncond v) r); [reflexivity|].
            apply cond_parses; auto; [apply (C2 _ I)|lia|lia].
          * unfold tor_op. destruct (first_char _ o).
            -- apply alt_right; [apply ptok_miss; discriminate|apply ptok_hit].
            -- apply alt_left, ptok_hit.
        + intros (o, v) r I. cbn. rewrite (or_op_cases o); [lia|apply (K2 _ I)].
        + intros (o, v) I. discriminate.
        + now apply (above_le 4); [lia|].
        + apply bind_miss. apply alt_miss; (apply (ptok_above 4); [assumption|cbn; lia]).
      - apply cond_parses; auto; [lia|lia|].
        destruct ts as [|(o, v) ts]; [now apply (above_le 4); [lia|]|].
        cbn [flat_map top app above]. rewrite (or_op_cases o); [lia|apply (K2 (o, v)); now left].
    Qed.

    Lemma and_parses e rest :
      ok_and e -> clean_and e = true -> List.length (tand e) < n -> above 5 rest ->
      pand pv m (tand e ++ rest) = POk (nand e) rest.
    Proof.
      destruct e as [c ts]. cbn [ok_and clean_and tand nand]. intros (K1 & K2) C L A.
      apply andb_true_iff in C as (C1 & C2). rewrite app_length in L. rewrite all_in in K2. rewrite allb_in in C2.
      unfold pand. rewrite <- app_assoc.
      rewrite (bind_ok _ _ _ (nor c) (flat_map (top tand_op tor) ts ++ rest)).
      - rewrite (bind_ok _ _ _ (map (fun t => (fst t, nor (snd t))) ts) rest); [reflexivity|].
        apply pstar_list with (F := above 4); auto.
        + intros (o, v) r I F. cbn [top app fst snd].
          destruct (K2 _ I) as (O & V).
          rewrite (bind_ok _ _ _ o (tor v ++ r)).
          * pose proof (length_flat_map_in (top tand_op tor) ts _ I) as Q. cbn [top List.length] in Q.
            rewrite (bind_ok _ _ _ (nor v) r); [reflexivity|].
            apply or_parses; auto; [apply (C2 _ I)|lia].
          * unfold tand_op. destruct (String.eqb o "&&").
            -- apply alt_right; [apply ptok_miss; discriminate|apply ptok_hit].
            -- apply alt_left, ptok_hit.
        + intros (o, v) r I. cbn. rewrite (and_op_cases o); [lia|apply (K2 _ I)].
        + intros (o, v) I. discriminate.
        + now apply (above_le 5); [lia|].
        + apply bind_miss. apply alt_miss; (apply (ptok_above 5); [assumption|cbn; lia]).
      - apply or_parses; auto; [lia|].
        destruct ts as [|(o, v) ts]; [now apply (above_le 5); [lia|]|].
        cbn [flat_map top app above]. rewrite (and_op_cases o); [lia|apply (K2 (o, v)); now left].
    Qed.

    Variable m_pos : 0 < m.
    Lemma and_misses ts : nostart ts -> misses (pand pv m) ts.
    Proof.
      intro N. unfold pand, por. do 2 apply bind_miss. destruct m as [|k]; [lia|]. cbn [pcond].
      apply bind_miss, alt_miss.
      - apply bind_miss. now apply ptok_nostart.
      - unfold padd, pmul, pmember. do 4 apply bind_miss. now apply value_misses.
    Qed.
    Lemma comma_misses ts : nostart ts -> misses (pcomma pv m) ts.
    Proof. intro N. unfold pcomma. now apply bind_miss, and_misses. Qed.

    Lemma comma_parses e rest :
      ok_comma e -> clean_comma e = true -> List.length (tcomma e) < n -> above 7 rest ->
      pcomma pv m (tcomma e ++ rest) = POk (ncomma e) rest.
    Proof.
      destruct e as [c ts]. cbn [ok_comma clean_comma tcomma ncomma]. intros (K1 & K2) C L A.
      apply andb_true_iff in C as (C1 & C2). rewrite app_length in L. rewrite all_in in K2. rewrite allb_in in C2.
      unfold pcomma. rewrite <- app_assoc.
      rewrite (bind_ok _ _ _ (nand c) (flat_map (fun t => op "," :: tmaybe tand t) ts ++ rest)).
      - rewrite (bind_ok _ _ _ (map (option_map nand) ts) rest); [reflexivity|].
        apply pstar_list with (F := fun r => above 5 r /\ nostart r); auto.
        + intros o r I (F & N). cbn [app].
          pose proof (length_flat_map_in (fun t => op "," :: tmaybe tand t) ts _ I) as Q.
          cbn [List.length] in Q.
          rewrite (bind_ok _ _ _ "," (tmaybe tand o ++ r)) by apply plit_hit.
          rewrite (bind_ok _ _ _ (match o with Some a => [nand a] | None => [] end) r);
            [destruct o; reflexivity|].
          destruct o as [a|]; cbn [tmaybe] in *.
          * assert (Ka : ok_and a) by (apply (K2 (Some a)); assumption).
            assert (Ca : clean_and a = true) by (apply (C2 (Some a)); assumption).
            apply pstar_one.
            -- apply and_parses; auto. lia.
            -- now apply and_misses.
            -- pose proof (and_begins a Ka Ca) as B. destruct (tand a); [|discriminate].
               destruct B as [B|B]; contradiction.
          * apply pstar_nil. now apply and_misses.
        + intros o r I. cbn. lia.
        + intros o I. discriminate.
        + split; [now apply (above_le 7); [lia|]|now apply above_nostart].
        + apply bind_miss. apply (plit_above 7); [assumption|vm_compute; tauto|cbn; lia].
      - apply and_parses; auto; [lia|].
        destruct ts as [|o ts]; [now apply (above_le 7); [lia|]|].
        cbn. lia.
    Qed.
  End Ladder.

  (** ** Values, arguments and queries *)

  (** What may come after a query. *)
  Definition sfollow (ts : list token) : Prop :=
    match ts with
    | [] => True
    | x :: _ => lvl x = 8 /\ ~ In (tt x) [T_WHERE; T_GROUPBY; T_ORDERBY; T_LIMIT; T_DESC]
    end.
  Lemma sfollow_above ts : sfollow ts -> above 7 ts.
  Proof. destruct ts; cbn; lia. Qed.
  Lemma sfollow_tok ts t :
    sfollow ts -> In t [T_WHERE; T_GROUPBY; T_ORDERBY; T_LIMIT; T_DESC] -> misses (ptok t) ts.
  Proof.
    destruct ts as [|x ts]; [intros; apply ptok_miss_nil|]. intros (_ & N) I.
    apply ptok_miss. intros <-. contradiction.
  Qed.

  Lemma rest_parses r rest :
    misses (plit ".") rest -> pstar (plit "." ~>> ptok T_Ident) (trest r ++ rest) = POk r rest.
  Proof.
    intro M. replace (POk r rest) with (POk (map (fun x => x) r) rest) by now rewrite map_id.
    apply pstar_list with (F := fun _ => True); auto.
    - intros. discriminate.
    - now apply bind_miss.
  Qed.
  Lemma symbol_parses s rest :
    ok_symbol s -> misses (plit ".") rest ->
    ppath (alt (ptok T_SymbolIdent) (ptok T_Ident)) (tsymbol s ++ rest) = POk s rest.
  Proof.
    destruct s as [|a r]; [contradiction|]. intros K M. unfold ppath. cbn [tsymbol app].
    rewrite (bind_ok _ _ _ a (trest r ++ rest)).
    - rewrite (bind_ok _ _ _ r rest); [reflexivity|now apply rest_parses].
    - unfold tfirst. destruct (first_char _ a); [apply alt_left, ptok_hit|].
      apply alt_right; [apply ptok_miss; discriminate|apply ptok_hit].
  Qed.
  Lemma name_parses s rest :
    ok_name s -> misses (plit ".") rest -> ppath (ptok T_Ident) (tname s ++ rest) = POk s rest.
  Proof.
    destruct s as [|a r]; [contradiction|]. intros K M. unfold ppath. cbn [tname app].
    rewrite (bind_ok _ _ _ a (trest r ++ rest)) by apply ptok_hit.
    rewrite (bind_ok _ _ _ r rest); [reflexivity|now apply rest_parses].
  Qed.

  Section Knot.
    Variable n : nat.
    Variable pv : parser gvalue.
    Variable ps : parser gselect.
    Variable value_parses : forall v rest,
      ok_value v -> clean_value v = true -> List.length (tvalue v) < n -> vfollow v rest ->
      pv (tvalue v ++ rest) = POk (nvalue v) rest.
    Variable value_misses : 0 < n -> forall ts, nostart ts -> misses pv ts.
    Variable select_parses : forall s rest,
      ok_select s -> clean_select s = true -> List.length (tselect s) < n -> sfollow rest ->
      ps (tselect s ++ rest) = POk (nselect s) rest.
    Variable m : nat.
    Variable n_le_m : n <= m.
    Variable m_pos : 0 < m.

    Lemma arg_parses a rest :
      ok_arg a -> clean_arg a = true -> List.length (targ a) < S n -> above 5 rest ->
      parg m pv ps (targ a ++ rest) = POk (narg a) rest.
    Proof.
      intros K C L A. unfold parg.
      destruct a as [x e|x s|x c]; cbn [ok_arg clean_arg targ narg] in *; cbn [app];
        (rewrite (bind_ok _ _ _ x _) by apply ptok_hit);
        (rewrite (bind_ok _ _ _ "=" _) by apply plit_hit); destruct K as (K1 & K2); cbn [List.length] in L.
      - assert (B : begins' (tand e ++ rest)) by now apply begins'_app, and_begins.
        apply alt_right; [apply bind_miss; apply begins'_not_lit; auto; [vm_compute; tauto|discriminate]|].
        apply alt_right; [apply bind_miss; apply begins'_not_lit; auto; [vm_compute; tauto|discriminate]|].
        rewrite (bind_ok _ _ _ (nand e) rest); [reflexivity|].
        apply and_parses with (n := n); auto; [apply value_misses|]; lia.
      - apply alt_left. rewrite <- app_assoc. rewrite (bind_ok _ _ _ "{" _) by apply plit_hit.
        rewrite (bind_ok _ _ _ (nselect s) (op "}" :: rest)).
        + rewrite (bind_ok _ _ _ "}" rest) by apply plit_hit. reflexivity.
        + apply select_parses; auto.
          * rewrite app_length in L. lia.
          * cbn. split; [reflexivity|]. intros [I|[I|[I|[I|[I|[]]]]]]; discriminate I.
      - apply alt_right; [apply bind_miss, plit_miss; discriminate|].
        apply alt_left. rewrite <- app_assoc. rewrite (bind_ok _ _ _ "[" _) by apply plit_hit.
        rewrite (bind_ok _ _ _ (option_map ncomma c) (op "]" :: rest)).
        + rewrite (bind_ok _ _ _ "]" rest) by apply plit_hit. reflexivity.
        + rewrite app_length in L. cbn [List.length] in L.
          destruct c as [c|]; cbn [tmaybe option_map oko optb] in *.
          * apply popt_some. apply comma_parses with (n := n); auto; [apply value_misses; lia|lia|cbn; lia].
          * apply popt_none. apply comma_misses with (n := n); auto; [apply value_misses; lia|cbn; lia].
    Qed.

    Lemma args_parse args rest :
      all ok_arg args -> allb clean_arg args = true ->
      List.length (tcall targ args) < S n ->
      (plit "(" ~>> a <~ plist (parg m pv ps) ;; plit ")" ~>> pret a) (tcall targ args ++ rest) =
      POk (map narg args) rest.
    Proof.
      intros K C L. unfold tcall in *. cbn [app]. rewrite <- app_assoc.
      rewrite (bind_ok _ _ _ "(" _) by apply plit_hit.
      rewrite (bind_ok _ _ _ (map narg args) (op ")" :: rest)).
      - rewrite (bind_ok _ _ _ ")" rest) by apply plit_hit. reflexivity.
      - apply plist_sep with (F := above 5).
        + intros a r I F. apply arg_parses; auto.
          * rewrite all_in in K. auto.
          * rewrite allb_in in C. auto.
          * pose proof (length_tsep_in targ args a I). cbn [List.length] in L.
            rewrite app_length in L. lia.
        + intro r. cbn. lia.
        + cbn. lia.
        + apply plit_miss. discriminate.
        + intros _. apply bind_miss, ptok_miss. discriminate.
    Qed.

    Lemma value_step_parses v rest :
      ok_value v -> clean_value v = true -> List.length (tvalue v) < S n -> vfollow v rest ->
      pvalue_step m pv ps (tvalue v ++ rest) = POk (nvalue v) rest.
    Proof.
      intros K C L V. pose proof (value_begins v K C) as B. unfold pvalue_step.
      assert (NS : forall ts, misses (ptok T_SymbolIdent) ts -> misses (ptok T_Ident) ts ->
                              misses (psymref m pv ps) ts).
      { intros ts H1 H2. unfold psymref, ppath. do 2 apply bind_miss. now apply alt_miss. }
      destruct v as [s called args|c|s|s|s|]; cbn [ok_value clean_value tvalue nvalue vfollow] in *.
      - apply alt_left. destruct K as (K1 & K2 & K3). unfold psymref. rewrite <- app_assoc.
        destruct V as (V1 & V2). rewrite app_length in L.
        destruct called.
        + cbn [negb andb] in *.
          rewrite (bind_ok _ _ _ s (tcall targ args ++ rest)).
          * rewrite (bind_ok _ _ _ [map narg args] rest).
            -- cbn [nonempty List.concat]. now rewrite app_nil_r.
            -- apply pstar_one; [apply args_parse; auto; lia| |discriminate]. now apply bind_miss.
          * apply symbol_parses; auto. apply plit_miss. discriminate.
        + destruct K2 as [E0|E0]; [discriminate|subst args]. cbn [negb andb app].
          rewrite (bind_ok _ _ _ s rest) by (apply symbol_parses; auto).
          rewrite (bind_ok _ _ _ [] rest); [reflexivity|]. now apply pstar_nil, bind_miss.
      - cbn [app]. apply alt_right; [apply NS; apply ptok_miss; discriminate|]. apply alt_left.
        rewrite <- app_assoc. rewrite (bind_ok _ _ _ "(" _) by apply plit_hit.
        rewrite (bind_ok _ _ _ (ncomma c) (op ")" :: rest)).
        + rewrite (bind_ok _ _ _ ")" rest) by apply plit_hit. reflexivity.
        + cbn [List.length] in L. rewrite app_length in L. cbn [List.length] in L.
          apply comma_parses with (n := n); auto; [apply value_misses; lia|lia|cbn; lia].
      - cbn [app]. unfold tstring in *.
        assert (tv (Tok (if strip_prefix triple s then T_MultilineString else T_String) s) <> "(") as N.
        { cbn. intros ->. cbn in K. specialize (K "" eq_refl). discriminate K. }
        apply alt_right; [apply NS; apply ptok_miss; cbn [tt]; (destruct (strip_prefix triple s); let Q := fresh in intro Q; discriminate Q)|].
        apply alt_right; [apply bind_miss, plit_miss; exact N|]. apply alt_left.
        rewrite (bind_ok _ _ _ s rest); [reflexivity|].
        destruct (strip_prefix triple s); [apply alt_left, ptok_hit|].
        apply alt_right; [apply ptok_miss; discriminate|apply ptok_hit].
      - cbn [app]. pose proof (number_reads s C) as R.
        apply alt_right; [apply NS; apply ptok_miss; discriminate|].
        apply alt_right. { apply bind_miss, plit_miss. cbn. intro E. rewrite E in R.
                           specialize (R "" eq_refl). discriminate R. }
        apply alt_right; [apply bind_miss, alt_miss; apply ptok_miss; discriminate|]. apply alt_left.
        rewrite (bind_ok _ _ _ (fnumber s) rest) by apply ptok_hit. reflexivity.
      - cbn [app].
        apply alt_right; [apply NS; apply ptok_miss; discriminate|].
        apply alt_right. { apply bind_miss, plit_miss. cbn. intros ->.
                           specialize (K "" eq_refl). discriminate K. }
        apply alt_right; [apply bind_miss, alt_miss; apply ptok_miss; discriminate|].
        apply alt_right; [apply bind_miss, ptok_miss; discriminate|]. apply alt_left.
        rewrite (bind_ok _ _ _ s rest) by apply ptok_hit. reflexivity.
      - cbn [app].
        apply alt_right; [apply NS; apply ptok_miss; discriminate|].
        apply alt_right; [apply bind_miss, plit_miss; discriminate|].
        apply alt_right; [apply bind_miss, alt_miss; apply ptok_miss; discriminate|].
        apply alt_right; [apply bind_miss, ptok_miss; discriminate|].
        apply alt_right; [apply bind_miss, ptok_miss; discriminate|].
        rewrite (bind_ok _ _ _ "NULL" rest) by apply ptok_hit. reflexivity.
    Qed.

    Lemma value_step_misses ts : nostart ts -> misses (pvalue_step m pv ps) ts.
    Proof.
      intro N. unfold pvalue_step, psymref, ppath.
      repeat apply alt_miss; repeat apply bind_miss; try apply alt_miss;
        try (apply ptok_nostart; [assumption|reflexivity]).
      apply plit_nostart; [assumption|vm_compute; tauto|reflexivity].
    Qed.

    Lemma plugin_parses f rest :
      ok_plugin f -> clean_plugin f = true -> List.length (tplugin f) < S n -> above 0 rest ->
      pplugin m pv ps (tplugin f ++ rest) = POk (nplugin f) rest.
    Proof.
      destruct f as [s call args]. cbn [ok_plugin clean_plugin tplugin nplugin]. intros (K1 & K2 & K3) C L A.
      unfold pplugin. rewrite <- app_assoc. rewrite app_length in L. destruct call.
      - rewrite (bind_ok _ _ _ s (tcall targ args ++ rest)).
        + rewrite (bind_ok _ _ _ (Some (map narg args)) rest); [reflexivity|].
          apply popt_some. apply args_parse; auto. lia.
        + apply name_parses; auto. apply plit_miss. discriminate.
      - destruct K2 as [E0|E0]; [discriminate|subst args]. cbn [app].
        rewrite (bind_ok _ _ _ s rest).
        + rewrite (bind_ok _ _ _ None rest); [reflexivity|].
          apply popt_none, bind_miss. apply (plit_above 0); [assumption|vm_compute; tauto|cbn; lia].
        + apply name_parses; auto. apply (plit_above 0); [assumption|vm_compute; tauto|cbn; lia].
    Qed.

    Definition cfollow (ts : list token) : Prop := above 5 ts /\ misses (ptok T_AS) ts.
    Lemma alias_parses a rest : ok_alias a -> misses (ptok T_AS) rest -> palias (talias a ++ rest) = POk a rest.
    Proof.
      intros K M. unfold palias, talias. destruct (String.eqb_spec a "") as [->|N]; cbn [app].
      - rewrite (bind_ok _ _ _ None rest); [reflexivity|]. now apply popt_none, bind_miss.
      - rewrite (bind_ok _ _ _ (Some a) rest); [reflexivity|]. apply popt_some.
        rewrite (bind_ok _ _ _ "AS" (tident a :: rest)) by apply ptok_hit. apply ptok_hit.
    Qed.
    Lemma alias_above a rest : above 5 rest -> above 5 (talias a ++ rest).
    Proof. unfold talias. destruct (String.eqb a ""); [auto|]. intros _. cbn. lia. Qed.

    Lemma col_parses c rest :
      ok_col c -> clean_col c = true -> List.length (tcol c) < n -> cfollow rest ->
      pcol m pv ps (tcol c ++ rest) = POk (ncol c) rest.
    Proof.
      intros K C L (F1 & F2). unfold pcol.
      destruct c as [a|s a|e a]; cbn [ok_col clean_col tcol ncol] in *.
      - cbn [app]. rewrite (bind_ok _ _ _ GStar (talias a ++ rest)).
        + rewrite (bind_ok _ _ _ a rest) by now apply alias_parses. reflexivity.
        + apply alt_left. rewrite (bind_ok _ _ _ "*" (talias a ++ rest)) by apply plit_hit. reflexivity.
      - destruct K as (K1 & K2). cbn [List.length] in L. rewrite app_length in L. cbn [List.length] in L.
        cbn [app]. rewrite <- app_assoc. cbn [app].
        rewrite (bind_ok _ _ _ (GColSelect (nselect s)) (talias a ++ rest)).
        + rewrite (bind_ok _ _ _ a rest) by now apply alias_parses. reflexivity.
        + apply alt_right; [apply bind_miss, plit_miss; discriminate|]. apply alt_left.
          rewrite (bind_ok _ _ _ "{" _) by apply plit_hit.
          rewrite (bind_ok _ _ _ (nselect s) (op "}" :: talias a ++ rest)).
          * rewrite (bind_ok _ _ _ "}" _) by apply plit_hit. reflexivity.
          * apply select_parses; auto; [lia|].
            cbn. split; [reflexivity|]. intros [I|[I|[I|[I|[I|[]]]]]]; discriminate I.
      - destruct K as (K1 & K2). rewrite app_length in L. rewrite <- app_assoc.
        assert (B : begins' (tand e ++ talias a ++ rest)) by now apply begins'_app, and_begins.
        rewrite (bind_ok _ _ _ (GColExpr (nand e)) (talias a ++ rest)).
        + rewrite (bind_ok _ _ _ a rest) by now apply alias_parses. reflexivity.
        + apply alt_right; [apply bind_miss; apply begins'_not_lit; auto; [vm_compute; tauto|discriminate]|].
          apply alt_right; [apply bind_miss; apply begins'_not_lit; auto; [vm_compute; tauto|discriminate]|].
          rewrite (bind_ok _ _ _ (nand e) (talias a ++ rest)); [reflexivity|].
          apply and_parses with (n := n); auto; [apply value_misses; lia|lia|now apply alias_above].
    Qed.

    (** The clauses after FROM, from the last. *)
    Definition tlimit (l : option Z) : list token :=
      tmaybe (fun l => [Tok T_LIMIT "LIMIT"; Tok T_Number (print_int l)]) l.
    Definition torder (o : option (string * bool)) : list token :=
      tmaybe (fun o : string * bool => Tok T_ORDERBY "ORDER BY" :: tident (fst o) ::
                       (if snd o then [Tok T_DESC "DESC"] else [])) o.
    Definition tgroup (g : option gcomma) : list token :=
      tmaybe (fun g => Tok T_GROUPBY "GROUP BY" :: tcomma g) g.
    Definition twhere (w : option gcomma) : list token :=
      tmaybe (fun w => Tok T_WHERE "WHERE" :: tcomma w) w.

    Lemma keyword_tail {A} (f : A -> list token) o rest t k :
      (forall a, List.hd_error (f a) = Some (Tok t k)) -> lvl (Tok t k) = 8 ->
      above 7 rest -> above 7 (tmaybe f o ++ rest).
    Proof.
      intros H L A0. destruct o as [a|]; cbn [tmaybe app]; [|assumption].
      specialize (H a). destruct (f a); [discriminate|]. injection H as ->. cbn. rewrite L. lia.
    Qed.
    Lemma keyword_tail_tok {A} (f : A -> list token) o rest t k u :
      (forall a, List.hd_error (f a) = Some (Tok t k)) -> t <> u ->
      misses (ptok u) rest -> misses (ptok u) (tmaybe f o ++ rest).
    Proof.
      intros H L A0. destruct o as [a|]; cbn [tmaybe app]; [|assumption].
      specialize (H a). destruct (f a); [discriminate|]. injection H as ->. cbn. now apply ptok_miss.
    Qed.

    Lemma limit_parses l rest :
      oko is_int64 l -> sfollow rest ->
      popt plimit (tlimit l ++ rest) = POk l rest.
    Proof.
      intros K F. destruct l as [z|]; cbn [tlimit tmaybe oko app] in *.
      - apply popt_some. unfold plimit. unfold pbind. rewrite ptok_hit, ptok_hit.
        now rewrite (print_int_reads z K).
      - apply popt_none. assert (misses (ptok T_LIMIT) rest) as (r & M & S) by (apply sfollow_tok; cbn; tauto).
        exists r. unfold plimit, pbind. now rewrite M.
    Qed.

    Lemma select_step_parses s rest :
      ok_select s -> clean_select s = true -> List.length (tselect s) < S n -> sfollow rest ->
      pselect_step m pv ps (tselect s ++ rest) = POk (nselect s) rest.
    Proof.
      destruct s as [explain al cols from w g o l]. cbn [ok_select clean_select tselect nselect].
      intros (K1 & K2 & K3 & K4 & K5 & K6 & K7) C L F.
      apply andb_true_iff in C as (C & C4). apply andb_true_iff in C as (C & C3).
      apply andb_true_iff in C as (C1 & C2).
      fold (twhere w) in *. fold (tgroup g) in *. fold (torder o) in *. fold (tlimit l) in *.
      rewrite !app_length in L. cbn [List.length] in L. rewrite !app_length in L. cbn [List.length] in L.
      rewrite !app_length in L.
      (* the tails *)
      set (T4 := tlimit l ++ rest). set (T3 := torder o ++ T4). set (T2 := tgroup g ++ T3).
      set (T1 := twhere w ++ T2).
      assert (A4 : above 7 T4) by (eapply keyword_tail; [reflexivity|reflexivity|now apply sfollow_above]).
      assert (A3 : above 7 T3) by (eapply keyword_tail; [reflexivity|reflexivity|assumption]).
      assert (A2 : above 7 T2) by (eapply keyword_tail; [reflexivity|reflexivity|assumption]).
      assert (A1 : above 7 T1) by (eapply keyword_tail; [reflexivity|reflexivity|assumption]).
      assert (M4 : forall u, In u [T_WHERE; T_GROUPBY; T_ORDERBY; T_DESC] -> misses (ptok u) T4).
      { intros u I. eapply keyword_tail_tok; [reflexivity| |].
        - intros <-. cbn in I. intuition discriminate.
        - apply sfollow_tok; auto. cbn in *. tauto. }
      assert (M3 : forall u, In u [T_WHERE; T_GROUPBY] -> misses (ptok u) T3).
      { intros u I. eapply keyword_tail_tok; [reflexivity| |].
        - intros <-. cbn in I. intuition discriminate.
        - apply M4. cbn in *. tauto. }
      assert (M2 : misses (ptok T_WHERE) T2).
      { eapply keyword_tail_tok; [reflexivity|discriminate|]. apply M3. cbn. tauto. }
      unfold pselect_step.
      replace (_ ++ rest) with
        ((if explain then [Tok T_EXPLAIN "EXPLAIN"] else []) ++
         Tok T_SELECT "SELECT" ::
         (if al then op "*" :: match cols with [] => [] | _ :: _ => [op ","] end else []) ++
         tsep tcol cols ++ Tok T_FROM "FROM" :: tplugin from ++ T1).
      2:{ subst T1 T2 T3 T4. repeat (rewrite <- app_assoc; cbn [app]). reflexivity. }
      set (F1 := Tok T_FROM "FROM" :: tplugin from ++ T1).
      set (C0 := tsep tcol cols ++ F1).
      rewrite (bind_ok _ _ _ (if explain then ["EXPLAIN"] else [])
                 (Tok T_SELECT "SELECT" ::
                  (if al then op "*" :: match cols with [] => [] | _ :: _ => [op ","] end else []) ++ C0)).
      2:{ destruct explain; cbn [app].
          - apply pstar_one; [apply ptok_hit|apply ptok_miss; discriminate|discriminate].
          - apply pstar_nil, ptok_miss. discriminate. }
      rewrite (bind_ok _ _ _ "SELECT" _) by apply ptok_hit.
      assert (CB : forall c, In c cols -> begins' (tcol c) \/ exists r, tcol c = op "{" :: r \/ tcol c = op "*" :: r).
      { intros c I. rewrite all_in in K1. rewrite allb_in in C1. specialize (K1 c I). specialize (C1 c I).
        destruct c; cbn [ok_col clean_col tcol] in *.
        - right. eexists. right. reflexivity.
        - right. eexists. left. reflexivity.
        - left. apply begins'_app, and_begins; tauto. }
      rewrite (bind_ok _ _ _ (if al then Some (match cols with [] => None | _ :: _ => Some "," end) else None) C0).
      2:{ destruct al; cbn [app].
          - apply popt_some. rewrite (bind_ok _ _ _ "*" (match cols with [] => [] | _ :: _ => [op ","] end ++ C0))
              by apply plit_hit.
            destruct cols as [|c cols]; cbn [app].
            + apply popt_none. subst C0. cbn [tsep app]. apply plit_miss. discriminate.
            + apply popt_some, plit_hit.
          - apply popt_none, bind_miss. subst C0. destruct cols as [|c cols].
            + cbn [tsep app]. apply plit_miss. discriminate.
            + rewrite tsep_cons. rewrite <- app_assoc.
              destruct c as [a|s a|e a]; [contradiction| |].
              * apply plit_miss. discriminate.
              * apply begins'_not_lit; [|vm_compute; tauto|discriminate].
                apply begins'_app. cbn [tcol]. apply begins'_app.
                cbn in K1, C1. apply andb_true_iff in C1 as (C1 & _). apply and_begins; tauto. }
      rewrite (bind_ok _ _ _ (map ncol cols) F1).
      2:{ subst C0. apply plist_sep with (F := cfollow).
          - intros c r I FF. rewrite all_in in K1. rewrite allb_in in C1. apply col_parses; auto.
            pose proof (length_tsep_in tcol cols c I). lia.
          - intro r. split; [cbn; lia|apply ptok_miss; discriminate].
          - split; [cbn; lia|apply ptok_miss; discriminate].
          - apply plit_miss. discriminate.
          - intros _. unfold pcol. apply bind_miss. repeat apply alt_miss; apply bind_miss.
            + apply plit_miss. discriminate.
            + apply plit_miss. discriminate.
            + apply and_misses with (n := n); auto; [apply value_misses; lia|cbn; lia]. }
      subst F1. rewrite (bind_ok _ _ _ "FROM" _) by apply ptok_hit.
      rewrite (bind_ok _ _ _ (nplugin from) T1).
      2:{ apply plugin_parses; auto; [lia|now apply (above_le 7); [lia|]]. }
      rewrite (bind_ok _ _ _ (option_map ncomma w) T2).
      2:{ subst T1. destruct w as [w|]; cbn [twhere tmaybe app option_map oko optb] in *.
          - apply popt_some. rewrite (bind_ok _ _ _ "WHERE" _) by apply ptok_hit.
            apply comma_parses with (n := n); auto; [apply value_misses; lia|]. cbn [List.length] in L. lia.
          - now apply popt_none, bind_miss. }
      rewrite (bind_ok _ _ _ (option_map ncomma g) T3).
      2:{ subst T2. destruct g as [g|]; cbn [tgroup tmaybe app option_map oko optb] in *.
          - apply popt_some. rewrite (bind_ok _ _ _ "GROUP BY" _) by apply ptok_hit.
            apply comma_parses with (n := n); auto; [apply value_misses; lia|]. cbn [List.length] in L. lia.
          - apply popt_none, bind_miss, M3. cbn. tauto. }
      rewrite (bind_ok _ _ _ o T4).
      2:{ subst T3. destruct o as [(k, d)|]; cbn [torder tmaybe app oko fst snd] in *.
          - apply popt_some. rewrite (bind_ok _ _ _ "ORDER BY" _) by apply ptok_hit.
            rewrite (bind_ok _ _ _ k _) by apply ptok_hit.
            rewrite (bind_ok _ _ _ (if d then Some "DESC" else None) T4); [destruct d; reflexivity|].
            destruct d; cbn [app].
            + apply popt_some, ptok_hit.
            + apply popt_none, M4. cbn. tauto.
          - apply popt_none, bind_miss, M4. cbn. tauto. }
      rewrite (bind_ok _ _ _ l rest) by now apply limit_parses.
      destruct explain, al, cols; reflexivity.
    Qed.

    Lemma select_step_misses ts : misses (ptok T_EXPLAIN) ts -> misses (ptok T_SELECT) ts ->
      misses (pselect_step m pv ps) ts.
    Proof.
      intros H1 (r & H2 & S). exists r. unfold pselect_step.
      rewrite (bind_ok _ _ _ [] ts) by now apply pstar_nil.
      unfold pbind at 1. now rewrite H2.
    Qed.
  End Knot.

  Lemma knot_parses : forall n,
    (forall v rest, ok_value v -> clean_value v = true -> List.length (tvalue v) < n -> vfollow v rest ->
       pvalue n (tvalue v ++ rest) = POk (nvalue v) rest) /\
    (forall s rest, ok_select s -> clean_select s = true -> List.length (tselect s) < n -> sfollow rest ->
       pselect n (tselect s ++ rest) = POk (nselect s) rest) /\
    (0 < n -> forall ts, nostart ts -> misses (pvalue n) ts).
  Proof.
    induction n as [|n (IV & IS & IM)].
    - repeat split; intros; lia.
    - assert (EV : pvalue (S n) = pvalue_step (S n) (pvalue n) (pselect n)).
      { unfold pvalue, pselect. cbn [pknot]. now destruct (pknot n). }
      assert (ES : pselect (S n) = pselect_step (S n) (pvalue n) (pselect n)).
      { unfold pvalue, pselect. cbn [pknot]. now destruct (pknot n). }
      rewrite EV, ES. repeat split.
      + intros. eapply value_step_parses with (n := n); eauto. lia.
      + intros. eapply select_step_parses with (n := n); eauto; lia.
      + intros _ ts N. now apply value_step_misses.
  Qed.
End Numbers.

(** ** Statements *)

Lemma value_parses n v rest :
  ok_value v -> clean_value v = true -> List.length (tvalue v) < n -> vfollow v rest ->
  pvalue n (tvalue v ++ rest) = POk (nvalue v) rest.
Proof. apply (knot_parses fnumber_token n). Qed.
Lemma select_parses n s rest :
  ok_select s -> clean_select s = true -> List.length (tselect s) < n -> sfollow rest ->
  pselect n (tselect s ++ rest) = POk (nselect s) rest.
Proof. apply (knot_parses fnumber_token n). Qed.
Lemma value_misses n : 0 < n -> forall ts, nostart ts -> misses (pvalue n) ts.
Proof. apply (knot_parses fnumber_token n). Qed.
Lemma select_misses n ts :
  0 < n -> misses (ptok T_EXPLAIN) ts -> misses (ptok T_SELECT) ts -> misses (pselect n) ts.
Proof.
  intros L H1 H2. destruct n as [|n]; [lia|].
  assert (ES : pselect (S n) = pselect_step (S n) (pvalue n) (pselect n)).
  { unfold pvalue, pselect. cbn [pknot]. now destruct (pknot n). }
  rewrite ES. now apply select_step_misses.
Qed.
Lemma and_expr_parses n e rest :
  ok_and e -> clean_and e = true -> List.length (tand e) < n -> above 5 rest ->
  pand (pvalue n) n (tand e ++ rest) = POk (nand e) rest.
Proof.
  intros K C L A. apply (and_parses fnumber_token n); auto.
  - intros. now apply value_parses.
  - apply value_misses. lia.
Qed.

Lemma param_parses n p rest :
  ok_param p -> clean_param p = true -> List.length (tparam p) < S n -> above 5 rest ->
  pparam n (pvalue n) (pselect n) (tparam p ++ rest) = POk (nparam p) rest.
Proof.
  intros K C L A. unfold pparam. destruct p as [a|s]; cbn [ok_param clean_param tparam nparam] in *.
  - apply alt_left. rewrite (bind_ok _ _ _ (narg a) rest); [reflexivity|].
    destruct n as [|n]; [destruct a; cbn in L; lia|].
    eapply (arg_parses fnumber_token (S n)); auto; try lia.
    + intros. now apply value_parses.
    + intros. now apply value_misses.
    + intros. now apply select_parses.
  - apply alt_right.
    + exists rest. cbn [app]. split; [|apply stop_one].
      apply bind_fail. unfold parg. rewrite (bind_ok _ _ _ s rest) by apply ptok_hit. apply bind_fail.
      assert (Q : misses (plit "=") rest) by (apply (plit_above 5); [assumption|vm_compute; tauto|cbn; lia]).
      destruct rest as [|x rest]; [reflexivity|].
      cbn [plit]. destruct Q as (r & Q & _). cbn [plit] in Q.
      destruct (String.eqb (tv x) "="); [discriminate|]. injection Q as <-. reflexivity.
    + cbn [app]. rewrite (bind_ok _ _ _ s rest) by apply ptok_hit. reflexivity.
Qed.

Lemma vql_parses n x rest :
  ok_vql x -> clean_vql x = true -> List.length (tvql x) < n -> sfollow rest ->
  pvql n (tvql x ++ rest) = POk (nvql x) rest.
Proof.
  intros K C L F. unfold pvql, pvql_step. destruct x as [name called ps o body|s].
  - apply alt_left. cbn [ok_vql clean_vql tvql nvql] in *. destruct K as (K1 & K2 & K3 & K4 & K5).
    apply andb_true_iff in C as (C & C4). apply andb_true_iff in C as (C & C3). apply andb_true_iff in C as (C1 & C2).
    cbn [app List.length] in *. rewrite app_length in L. cbn [List.length] in L.
    rewrite (bind_ok _ _ _ "LET" _) by apply ptok_hit.
    rewrite (bind_ok _ _ _ name _) by apply ptok_hit.
    rewrite <- app_assoc. cbn [app].
    set (B := match body with inl s => tselect s | inr e => tand e end) in *.
    rewrite (bind_ok _ _ _ (if called then Some (map nparam ps) else None) (op o :: B ++ rest)).
    2:{ destruct called; cbn [app].
        - apply popt_some. unfold tcall. cbn [app]. rewrite <- app_assoc.
          rewrite (bind_ok _ _ _ "(" _) by apply plit_hit. cbn [app].
          rewrite (bind_ok _ _ _ (map nparam ps) (op ")" :: op o :: B ++ rest)).
          + rewrite (bind_ok _ _ _ ")" (op o :: B ++ rest)) by apply plit_hit. reflexivity.
          + apply plist_sep with (F := above 5).
            * intros p r I A. apply param_parses; auto.
              -- rewrite all_in in K3. auto.
              -- rewrite allb_in in C2. auto.
              -- pose proof (length_tsep_in tparam ps p I). unfold tcall in L. cbn [List.length] in L.
                 rewrite app_length in L. lia.
            * intro. cbn. lia.
            * cbn. lia.
            * apply plit_miss. discriminate.
            * intros ->. discriminate C1.
        - apply popt_none, bind_miss, plit_miss. destruct K4 as [->| ->]; discriminate. }
    rewrite (bind_ok _ _ _ o (B ++ rest)).
    2:{ destruct K4 as [->| ->]; [apply alt_left, plit_hit|].
        apply alt_right; [apply plit_miss; discriminate|apply plit_hit]. }
    rewrite (bind_ok _ _ _ (match body with inl s => inl (nselect s) | inr e => inr (nand e) end) rest).
    + destruct called; [reflexivity|]. destruct K2 as [E|E]; [discriminate|subst ps]. reflexivity.
    + subst B. destruct body as [s|e].
      * apply alt_left. rewrite (bind_ok _ _ _ (nselect s) rest); [reflexivity|].
        apply select_parses; auto. lia.
      * apply alt_right.
        -- apply bind_miss. pose proof (and_begins fnumber_token e K5 C4) as Bg.
           apply select_misses; [lia| |]; apply begins'_not_tok; try discriminate; now apply begins'_app.
        -- rewrite (bind_ok _ _ _ (nand e) rest); [reflexivity|].
           apply and_expr_parses; auto; [lia|]. apply (above_le 7); [lia|]. now apply sfollow_above.
  - cbn [ok_vql clean_vql tvql nvql] in *. apply alt_right.
    + apply bind_miss. destruct s as [[] ? ? ? ? ? ? ?]; apply ptok_miss; discriminate.
    + rewrite (bind_ok _ _ _ (nselect s) rest); [reflexivity|]. now apply select_parses.
Qed.
