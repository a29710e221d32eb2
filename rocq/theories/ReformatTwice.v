(** The layout does not depend on how the numbers were written. *)

From Coq Require Import ZArith List String Ascii Bool Lia.
From Verif Require Import Base F64 Text Lexer Numeral Grammar Parser Format Spelling.
From Verif Require Import LexProofs NumeralProofs FloatText ParseProofs FormatTwice Reformat.
Import ListNotations.
Open Scope nat_scope.
Open Scope string_scope.
Open Scope list_scope.

Definition rsame (f g : rvisit) : Prop := forall v, f v = g v.
Lemma rsame_refl f : rsame f f.
Proof. now intro. Qed.
Lemma rsame_then f f' g g' : rsame f f' -> rsame g g' -> rsame (f >>> g) (f' >>> g').
Proof. intros F G v. unfold rthen. now rewrite F, G. Qed.
Ltac rst := repeat (match goal with |- rsame (_ >>> _) (_ >>> _) => apply rsame_then end); try apply rsame_refl.

Section Lists.
  Variable A : Type.
  Variable f : A -> rvisit.
  Variable g : A -> A.
  Variable c : A -> bool.
  Hypothesis H : forall a, c a = true -> rsame (f (g a)) (f a).
  Definition reach_same : forall l, allb c l = true -> rsame (reach f (map g l)) (reach f l).
  Proof.
    fix IH 1. intros [|a l]; [intros _; apply rsame_refl|]. pose proof (IH l) as IHl. cbn [allb fold_right map reach].
    intro C. apply andb_true_iff in C as (C1 & C2). apply rsame_then; [now apply H|now apply IHl].
  Defined.
  Definition rmaybe_same : forall o, optb c o = true -> rsame (rmaybe f (option_map g o)) (rmaybe f o).
  Proof. intros [a|]; [apply H|intros _; apply rsame_refl]. Defined.
End Lists.
Arguments reach_same {A}.
Arguments rmaybe_same {A}.
Section Indexed.
  Variable A : Type.
  Variable f : nat -> A -> rvisit.
  Variable g : A -> A.
  Variable c : A -> bool.
  Hypothesis H : forall a i, c a = true -> rsame (f i (g a)) (f i a).
  Definition rseparated_same (sep : rvisit) : forall l, allb c l = true -> forall i, rsame (rseparated f sep i (map g l)) (rseparated f sep i l).
  Proof.
    fix IH 1. intros [|a l]; [intros _ i; apply rsame_refl|]. pose proof (IH l) as IHl. cbn [allb fold_right].
    intros C i. apply andb_true_iff in C as (C1 & C2). specialize (IHl C2 (S i)). cbn [map rseparated].
    destruct l as [|b l]; [now apply H|]. cbn [map] in *. cbn [rseparated] in IHl |- *.
    apply rsame_then; [|exact IHl]. rst. now apply H.
  Defined.
End Indexed.
Arguments rseparated_same {A}.

Lemma reach_pops {A} (g : A -> A) l : rsame (reach (fun _ => pop_indent) (map g l)) (reach (fun _ => pop_indent) l).
Proof. induction l as [|a l IH]; [apply rsame_refl|]. cbn [map reach fold_right]. apply rsame_then; [apply rsame_refl|exact IH]. Qed.
Definition rop_same {A} (f : A -> rvisit) (g : A -> A) (c : A -> bool)
  (H : forall a, c a = true -> rsame (f (g a)) (f a)) :
  forall t : string * A, c (snd t) = true -> rsame (rop f (fst t, g (snd t))) (rop f t).
Proof. intros (o, a) C. cbn [fst snd rop] in *. apply rsame_then; [apply rsame_refl|now apply H]. Defined.

Section Same.
  Variable o : options.

  Lemma abtest_same bl c c' cs cs' : rsame c c' -> Forall2 rsame cs cs' -> rsame (abtest o bl c cs) (abtest o bl c' cs').
  Proof.
    intros C L v. unfold abtest. destruct bl; [|apply C]. rewrite C. generalize (c' v) as best.
    induction L as [|d d' cs cs' D L IH]; intro best; [reflexivity|]. cbn [fold_left]. cbv zeta. rewrite D. apply IH.
  Qed.
  Lemma break_sym_same bl f f' : rsame f f' -> rsame (rbreak_sym o bl f) (rbreak_sym o bl f').
  Proof. intros F v. unfold rbreak_sym. destruct (too_far o v); [|apply F]. unfold rthen. now rewrite F. Qed.
  Definition rcall_same {A} (f : bool -> A -> rvisit) (g : A -> A) (c : A -> bool)
    (H : forall a bl, c a = true -> rsame (f bl (g a)) (f bl a)) bl :
    forall l, allb c l = true -> rsame (rcall o bl f (map g l)) (rcall o bl f l).
  Proof.
    intros l C.
    pose proof (rseparated_same (fun _ => f false) g c (fun a _ => H a false) rskip l C 0) as S0.
    pose proof (rseparated_same (fun _ => f bl) g c (fun a _ => H a bl) (rline_break bl) l C 0) as S1.
    unfold rcall. destruct l as [|a l]; [apply rsame_refl|]. cbn [map] in *.
    apply abtest_same; [rst; exact S0|]. repeat constructor; rst; exact S1.
  Defined.

  Fixpoint t_value (x : gvalue) (bl : bool) {struct x} : clean_value x = true -> rsame (rvalue o (nvalue x) bl) (rvalue o x bl)
  with t_mterm (x : gmterm) (bl : bool) {struct x} : clean_mterm x = true -> rsame (rmterm o (nmterm x) bl) (rmterm o x bl)
  with t_member (x : gmember) (bl : bool) {struct x} : clean_member x = true -> rsame (rmember o (nmember x) bl) (rmember o x bl)
  with t_mul (x : gmul) (bl : bool) {struct x} : clean_mul x = true -> rsame (rmul o (nmul x) bl) (rmul o x bl)
  with t_add (x : gadd) (bl : bool) {struct x} : clean_add x = true -> rsame (radd o (nadd x) bl) (radd o x bl)
  with t_cond (x : gcond) (bl : bool) {struct x} : clean_cond x = true -> rsame (rcond o (ncond x) bl) (rcond o x bl)
  with t_or (x : gor) (bl : bool) {struct x} : clean_or x = true -> rsame (ror o (nor x) bl) (ror o x bl)
  with t_and (x : gand) (bl : bool) {struct x} : clean_and x = true -> rsame (rand o (nand x) bl) (rand o x bl)
  with t_comma (x : gcomma) (bl : bool) {struct x} : clean_comma x = true -> rsame (rcomma o (ncomma x) bl) (rcomma o x bl)
  with t_arg (x : garg) (bl : bool) {struct x} : clean_arg x = true -> rsame (rarg o (narg x) bl) (rarg o x bl)
  with t_select (x : gselect) (bl : bool) {struct x} : clean_select x = true -> rsame (rselect o (nselect x) bl) (rselect o x bl)
  with t_col (x : gcol) (i : nat) (bl : bool) {struct x} : clean_col x = true -> rsame (rcol o (ncol x) i bl) (rcol o x i bl)
  with t_plugin (x : gplugin) (bl : bool) {struct x} : clean_plugin x = true -> rsame (rplugin o (nplugin x) bl) (rplugin o x bl).
  Proof.
    - destruct x as [s called params|c|s|s|s|]; cbn [clean_value nvalue rvalue]; intro C; try apply rsame_refl.
      + apply break_sym_same. apply rsame_then; [apply rsame_refl|].
        pose proof (rcall_same (fun bl a => rarg o a bl) narg clean_arg t_arg bl params C) as F.
        destruct params; cbn [map] in *; [apply rsame_refl|]. rewrite andb_false_r. exact F.
      + rst. apply (t_comma c bl C).
      + rewrite (fnumber_twice s C). apply rsame_refl.
    - destruct x as [i|i j| |s]; cbn [clean_mterm nmterm rmterm]; intro C; try apply rsame_refl.
      + rst. apply (t_value i bl C).
      + apply andb_true_iff in C as (C1 & C2).
        pose proof (rmaybe_same (fun i => rvalue o i bl) nvalue clean_value (fun a => t_value a bl) i C1).
        pose proof (rmaybe_same (fun i => rvalue o i bl) nvalue clean_value (fun a => t_value a bl) j C2).
        rst; assumption.
    - destruct x as [l r]; cbn [clean_member nmember rmember]. intro C. apply andb_true_iff in C as (C1 & C2).
      apply rsame_then; [apply (t_value l bl C1)|].
      apply (reach_same (fun t => rmterm o t bl) nmterm clean_mterm (fun a => t_mterm a bl) r C2).
    - destruct x as [l r]; cbn [clean_mul nmul rmul]. intro C. apply andb_true_iff in C as (C1 & C2).
      apply rsame_then; [apply (t_member l bl C1)|].
      apply (reach_same (rop (fun x => rvalue o x bl)) _ _ (rop_same _ nvalue clean_value (fun a => t_value a bl)) r C2).
    - destruct x as [l r]; cbn [clean_add nadd radd]. intro C. apply andb_true_iff in C as (C1 & C2).
      apply rsame_then; [apply (t_mul l bl C1)|].
      apply (reach_same (rop (fun x => rmul o x bl)) _ _ (rop_same _ nmul clean_mul (fun a => t_mul a bl)) r C2).
    - destruct x as [c|l r]; cbn [clean_cond ncond rcond]; intro C.
      + apply rsame_then; [apply rsame_refl|apply (t_cond c bl C)].
      + apply andb_true_iff in C as (C1 & C2).
        apply rsame_then; [apply (t_add l bl C1)|].
        apply (rmaybe_same (rop (fun x => radd o x bl)) _ _ (rop_same _ nadd clean_add (fun a => t_add a bl)) r C2).
    - destruct x as [l r]; cbn [clean_or nor ror]. intro C. apply andb_true_iff in C as (C1 & C2).
      apply rsame_then; [apply (t_cond l bl C1)|].
      apply (reach_same (rop (fun x => rcond o x bl)) _ _ (rop_same _ ncond clean_cond (fun a => t_cond a bl)) r C2).
    - destruct x as [l r]; cbn [clean_and nand rand]. intro C. apply andb_true_iff in C as (C1 & C2).
      apply rsame_then; [|apply reach_pops].
      apply rsame_then; [apply (t_or l bl C1)|].
      apply (reach_same (fun t => rline_break bl >>> rop (fun x => push_indent >>> ror o x bl) t)
        (fun t => (fst t, nor (snd t))) (fun t => clean_or (snd t))
        (fun t c => rsame_then _ _ _ _ (rsame_refl _)
           (rop_same (fun x => push_indent >>> ror o x bl) nor clean_or
              (fun a c => rsame_then _ _ _ _ (rsame_refl _) (t_or a bl c)) t c)) r C2).
    - destruct x as [l r]; cbn [clean_comma ncomma rcomma]. intro C. apply andb_true_iff in C as (C1 & C2).
      apply rsame_then; [apply (t_and l bl C1)|].
      apply (reach_same (fun t => rpush "," >>> rpush " " >>> rmaybe (fun x => rand o x bl) t) (option_map nand) (optb clean_and)
        (fun t c => rsame_then _ _ _ _ (rsame_refl _) (rmaybe_same (fun x => rand o x bl) nand clean_and (fun a => t_and a bl) t c)) r C2).
    - destruct x as [n e|n s|n [c|]]; cbn [clean_arg narg rarg optb option_map]; intro C; (apply rsame_then; [apply rsame_refl|]).
      + rst. apply (t_and e bl C).
      + apply rsame_then; [apply rsame_refl|]. destruct bl; rst; apply (t_select s _ C).
      + rst. apply (t_comma c bl C).
      + apply rsame_refl.
    - destruct x as [explain al cols from w g k l]; cbn [clean_select nselect rselect]. intro C.
      apply andb_true_iff in C as (C & C4). apply andb_true_iff in C as (C & C3). apply andb_true_iff in C as (C1 & C2).
      pose proof (rseparated_same (fun i c => rcol o c i bl) ncol clean_col (fun c i => t_col c i bl) (rline_break bl) cols C1 0) as S0.
      assert (SL : rsame
        ((if al then rpush "*" >>> (match map ncol cols with [] => rskip | _ => rpush "," >>> rpush " " end) else rskip) >>>
          rseparated (fun i c => rcol o c i bl) (rline_break bl) 0 (map ncol cols))
        ((if al then rpush "*" >>> (match cols with [] => rskip | _ => rpush "," >>> rpush " " end) else rskip) >>>
          rseparated (fun i c => rcol o c i bl) (rline_break bl) 0 cols)).
      { apply rsame_then; [|exact S0]. destruct al; [|apply rsame_refl]. destruct cols; apply rsame_refl. }
      apply rsame_then; [|destruct g; apply rsame_refl]. apply rsame_then; [|apply rsame_refl].
      apply rsame_then; [|apply rsame_refl].
      apply rsame_then.
      2:{ apply (rmaybe_same (fun g => rline_break bl >>> rpush "GROUP BY " >>> push_indent >>> rcomma o g bl) ncomma clean_comma
           (fun g c => rsame_then _ _ _ _ (rsame_refl _) (t_comma g bl c)) g C4). }
      apply rsame_then.
      2:{ apply (rmaybe_same (fun g => rline_break bl >>> rpush "WHERE " >>> rcomma o g bl) ncomma clean_comma
           (fun g c => rsame_then _ _ _ _ (rsame_refl _) (t_comma g bl c)) w C3). }
      apply rsame_then; [|rst; apply (t_plugin from bl C2)].
      apply rsame_then; [apply rsame_refl|].
      apply abtest_same; [|constructor; [|constructor]];
        repeat (first [exact SL|apply rsame_refl|match goal with |- rsame (_ >>> _) (_ >>> _) => apply rsame_then end]).
    - destruct x as [a|s a|e a]; cbn [clean_col ncol rcol]; intro C; [apply rsame_refl| |].
      + apply rsame_then; [apply rsame_refl|]. destruct bl; rst; apply (t_select s _ C).
      + apply abtest_same; [|constructor; [|constructor]]; rst; apply (t_and e _ C).
    - destruct x as [n call args]; cbn [clean_plugin nplugin rplugin]. intro C.
      apply rsame_then; [apply rsame_refl|]. destruct call; [|apply rsame_refl].
      apply (rcall_same (fun bl a => rarg o a bl) narg clean_arg t_arg bl args C).
  Qed.
End Same.

Section Statements.
  Variable o : options.
  Variable bl : bool.
  Lemma rparam_same ps p : allb clean_param ps = true -> rsame (rparam o bl (map nparam ps) (nparam p)) (rparam o bl ps p).
  Proof.
    intro C. unfold rparam. rewrite nparam_name, default_for_n.
    destruct (default_for ps (param_name p)) as [a|] eqn:D; cbn [option_map]; [|apply rsame_refl].
    apply t_arg. now apply (default_for_clean ps (param_name p)).
  Qed.
  Lemma separated_rparams qs : allb clean_param qs = true -> forall ps i,
    rsame (rseparated (fun _ => rparam o bl (map nparam qs)) rskip i (map nparam ps))
          (rseparated (fun _ => rparam o bl qs) rskip i ps).
  Proof.
    intros C ps. induction ps as [|a l IH]; intro i; [apply rsame_refl|]. cbn [map rseparated].
    destruct l as [|b l]; [now apply rparam_same|]. specialize (IH (S i)). cbn [map] in *. cbn [rseparated] in IH |- *.
    apply rsame_then; [|exact IH]. rst. now apply rparam_same.
  Qed.
  Lemma t_vql x : clean_vql x = true -> rsame (rvql o bl (nvql x)) (rvql o bl x).
  Proof.
    destruct x as [name called ps p body|s]; cbn [clean_vql nvql]; unfold rvql; intro C.
    2:{ rst. now apply t_select. }
    apply andb_true_iff in C as (C & C4). apply andb_true_iff in C as (C & C3). apply andb_true_iff in C as (C1 & C2).
    do 3 (apply rsame_then; [|apply rsame_refl]).
    apply rsame_then.
    - do 2 (apply rsame_then; [|apply rsame_refl]). apply rsame_then; [apply rsame_refl|].
      pose proof (separated_rparams ps C2 ps 0) as G. destruct ps as [|q ps]; [apply rsame_refl|]. cbn [map] in *.
      apply rsame_then; [|apply rsame_refl]. apply rsame_then; [apply rsame_refl|exact G].
    - destruct body; [now apply t_select|now apply t_and].
  Qed.
  Lemma reformat_numbers l : forallb clean_vql l = true -> reformat o bl (map nvql l) = reformat o bl l.
  Proof.
    intro C. unfold reformat, rtext. f_equal. f_equal. f_equal.
    assert (G : forall v, rall o bl (map nvql l) v = rall o bl l v); [|apply G].
    induction l as [|x l IH]; intro v; [reflexivity|]. cbn [forallb] in C. apply andb_true_iff in C as (C1 & C2).
    unfold rall in *. cbn [map reach fold_right]. unfold rthen at 1 3. unfold rthen at 2.
    unfold rthen at 1. rewrite (t_vql x C1). apply IH, C2.
  Qed.
End Statements.
