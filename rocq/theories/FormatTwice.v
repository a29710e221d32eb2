(** C60: formatting a second time changes nothing. *)

From Coq Require Import ZArith List String Ascii Bool Lia.
From Verif Require Import Base F64 Text Lexer Numeral Grammar Parser Format Spelling.
From Verif Require Import LexProofs NumeralProofs FloatText ParseProofs FormatProofs FormatRuns RoundTrip ParserSound FormatProps.
Import ListNotations.
Open Scope nat_scope.
Open Scope string_scope.
Open Scope list_scope.

(** The same effect on every visitor. *)
Definition same (f g : visit) : Prop := forall v, f v = g v.

Lemma same_refl f : same f f.
Proof. now intro. Qed.
Lemma same_then f f' g g' : same f f' -> same g g' -> same (f >> g) (f' >> g').
Proof. intros F G v. unfold andthen. now rewrite F, G. Qed.

Ltac st := match goal with |- same (_ >> _) (_ >> _) => apply same_then end.

Lemma fnumber_twice s : clean_number s = true -> fnumber (fnumber s) = fnumber s.
Proof.
  assert (G : forall a b, number_value a = number_value b -> fnumber a = fnumber b).
  { intros a b E. unfold fnumber. rewrite E. reflexivity. }
  intro C. apply G. now apply number_kept.
Qed.

Section Lists.
  Variable A : Type.
  Variable f : A -> visit.
  Variable g : A -> A.
  Variable c : A -> bool.
  Hypothesis H : forall a, c a = true -> same (f (g a)) (f a).
  Definition each_same : forall l, allb c l = true -> same (each f (map g l)) (each f l).
  Proof.
    fix IH 1. intros [|a l]; [intros _; apply same_refl|]. pose proof (IH l) as IHl. cbn [allb fold_right map each].
    intro C. apply andb_true_iff in C as (C1 & C2). apply same_then; [now apply H|now apply IHl].
  Defined.
  Definition separated_same (sep : visit) : forall l, allb c l = true -> same (separated f sep (map g l)) (separated f sep l).
  Proof.
    fix IH 1. intros [|a l]; [intros _; apply same_refl|]. pose proof (IH l) as IHl. cbn [allb fold_right].
    intro C. apply andb_true_iff in C as (C1 & C2). specialize (IHl C2). cbn [map separated].
    destruct l as [|b l]; [now apply H|]. cbn [map] in *. cbn [separated] in IHl |- *.
    apply same_then; [|exact IHl]. repeat st; try apply same_refl. now apply H.
  Defined.
  Definition maybe_same : forall o, optb c o = true -> same (maybe f (option_map g o)) (maybe f o).
  Proof. intros [a|]; [apply H|intros _; apply same_refl]. Defined.
  Definition fcall_same : forall l, allb c l = true -> same (fcall f (map g l)) (fcall f l).
  Proof.
    intros l C. pose proof (separated_same skip l C) as S0. unfold fcall. destruct l as [|a l]; [apply same_refl|]. cbn [map].
    apply same_then; [|apply same_refl]. apply same_then; [apply same_refl|exact S0].
  Defined.
End Lists.
Arguments each_same {A}.
Arguments separated_same {A}.
Arguments maybe_same {A}.
Arguments fcall_same {A}.

Definition fop_same {A} (f : A -> visit) (g : A -> A) (c : A -> bool)
  (H : forall a, c a = true -> same (f (g a)) (f a)) :
  forall t : string * A, c (snd t) = true -> same (fop f (fst t, g (snd t))) (fop f t).
Proof. intros (o, a) C. cbn [fst snd fop] in *. apply same_then; [apply same_refl|now apply H]. Defined.

Fixpoint s_value (x : gvalue) {struct x} : clean_value x = true -> same (fvalue (nvalue x)) (fvalue x)
with s_mterm (x : gmterm) {struct x} : clean_mterm x = true -> same (fmterm (nmterm x)) (fmterm x)
with s_member (x : gmember) {struct x} : clean_member x = true -> same (fmember (nmember x)) (fmember x)
with s_mul (x : gmul) {struct x} : clean_mul x = true -> same (fmul (nmul x)) (fmul x)
with s_add (x : gadd) {struct x} : clean_add x = true -> same (fadd (nadd x)) (fadd x)
with s_cond (x : gcond) {struct x} : clean_cond x = true -> same (fcond (ncond x)) (fcond x)
with s_or (x : gor) {struct x} : clean_or x = true -> same (for_ (nor x)) (for_ x)
with s_and (x : gand) {struct x} : clean_and x = true -> same (fand (nand x)) (fand x)
with s_comma (x : gcomma) {struct x} : clean_comma x = true -> same (fcomma (ncomma x)) (fcomma x)
with s_arg (x : garg) {struct x} : clean_arg x = true -> same (farg (narg x)) (farg x)
with s_select (x : gselect) {struct x} : clean_select x = true -> same (fselect (nselect x)) (fselect x)
with s_col (x : gcol) {struct x} : clean_col x = true -> same (fcol (ncol x)) (fcol x)
with s_plugin (x : gplugin) {struct x} : clean_plugin x = true -> same (fplugin (nplugin x)) (fplugin x).
Proof.
  - destruct x as [s called params|c|s|s|s|]; cbn [clean_value nvalue fvalue]; intro C; try apply same_refl.
    + apply same_then; [apply same_refl|].
      pose proof (fcall_same farg narg clean_arg s_arg params C) as F.
      destruct params; cbn [map] in *; [apply same_refl|]. rewrite andb_false_r. exact F.
    + apply same_then; [|apply same_refl]. apply same_then; [apply same_refl|]. apply (s_comma c C).
    + rewrite (fnumber_twice s C). apply same_refl.
  - destruct x as [i|i j| |s]; cbn [clean_mterm nmterm fmterm]; intro C; try apply same_refl.
    + apply same_then; [|apply same_refl]. apply same_then; [apply same_refl|]. apply (s_value i C).
    + apply andb_true_iff in C as (C1 & C2).
      pose proof (maybe_same fvalue nvalue clean_value s_value i C1).
      pose proof (maybe_same fvalue nvalue clean_value s_value j C2).
      repeat st; try apply same_refl; assumption.
  - destruct x as [l r]; cbn [clean_member nmember fmember]. intro C. apply andb_true_iff in C as (C1 & C2).
    apply same_then; [apply (s_value l C1)|apply (each_same fmterm nmterm clean_mterm s_mterm r C2)].
  - destruct x as [l r]; cbn [clean_mul nmul fmul]. intro C. apply andb_true_iff in C as (C1 & C2).
    apply same_then; [apply (s_member l C1)|].
    apply (each_same (fop fvalue) _ _ (fop_same fvalue nvalue clean_value s_value) r C2).
  - destruct x as [l r]; cbn [clean_add nadd fadd]. intro C. apply andb_true_iff in C as (C1 & C2).
    apply same_then; [apply (s_mul l C1)|].
    apply (each_same (fop fmul) _ _ (fop_same fmul nmul clean_mul s_mul) r C2).
  - destruct x as [c|l r]; cbn [clean_cond ncond fcond]; intro C.
    + apply same_then; [apply same_refl|apply (s_cond c C)].
    + apply andb_true_iff in C as (C1 & C2).
      apply same_then; [apply (s_add l C1)|].
      apply (maybe_same (fop fadd) _ _ (fop_same fadd nadd clean_add s_add) r C2).
  - destruct x as [l r]; cbn [clean_or nor for_]. intro C. apply andb_true_iff in C as (C1 & C2).
    apply same_then; [apply (s_cond l C1)|].
    apply (each_same (fop fcond) _ _ (fop_same fcond ncond clean_cond s_cond) r C2).
  - destruct x as [l r]; cbn [clean_and nand fand]. intro C. apply andb_true_iff in C as (C1 & C2).
    apply same_then; [apply (s_or l C1)|].
    apply (each_same (fun t => line_break >> fop for_ t) (fun t => (fst t, nor (snd t))) (fun t => clean_or (snd t))
      (fun t c => same_then _ _ _ _ (same_refl _) (fop_same for_ nor clean_or s_or t c)) r C2).
  - destruct x as [l r]; cbn [clean_comma ncomma fcomma]. intro C. apply andb_true_iff in C as (C1 & C2).
    apply same_then; [apply (s_and l C1)|].
    apply (each_same (fun t => push "," >> push " " >> maybe fand t) (option_map nand) (optb clean_and)
      (fun t c => same_then _ _ _ _ (same_refl _) (maybe_same fand nand clean_and s_and t c)) r C2).
  - destruct x as [n e|n s|n [c|]]; cbn [clean_arg narg farg optb option_map]; intro C; (apply same_then; [apply same_refl|]).
    + apply same_then; [apply same_refl|apply (s_and e C)].
    + apply same_then; [|apply same_refl]. apply same_then; [apply same_refl|apply (s_select s C)].
    + apply same_then; [|apply same_refl]. apply same_then; [apply same_refl|apply (s_comma c C)].
    + apply same_refl.
  - destruct x as [explain al cols from w g o l]; cbn [clean_select nselect fselect]. intro C.
    apply andb_true_iff in C as (C & C4). apply andb_true_iff in C as (C & C3). apply andb_true_iff in C as (C1 & C2).
    apply same_then; [|apply same_refl]. apply same_then; [|apply same_refl].
    apply same_then.
    2:{ apply (maybe_same (fun g => line_break >> push "GROUP BY " >> fcomma g) ncomma clean_comma
         (fun g c => same_then _ _ _ _ (same_refl _) (s_comma g c)) g C4). }
    apply same_then.
    2:{ apply (maybe_same (fun g => line_break >> push "WHERE " >> fcomma g) ncomma clean_comma
         (fun g c => same_then _ _ _ _ (same_refl _) (s_comma g c)) w C3). }
    apply same_then; [|apply (s_plugin from C2)].
    apply same_then; [|apply same_refl]. apply same_then; [|apply same_refl].
    apply same_then; [|apply (separated_same fcol ncol clean_col s_col line_break cols C1)].
    apply same_then; [apply same_refl|]. destruct al; [|apply same_refl]. destruct cols; apply same_refl.
  - destruct x as [a|s a|e a]; cbn [clean_col ncol fcol]; intro C; [apply same_refl| |].
    + apply same_then; [|apply same_refl]. apply same_then; [|apply same_refl].
      apply same_then; [apply same_refl|apply (s_select s C)].
    + apply same_then; [apply (s_and e C)|apply same_refl].
  - destruct x as [n call args]; cbn [clean_plugin nplugin fplugin]. intro C.
    apply same_then; [apply same_refl|]. destruct call; [|apply same_refl].
    apply (fcall_same farg narg clean_arg s_arg args C).
Qed.

Lemma narg_name a : arg_name (narg a) = arg_name a.
Proof. now destruct a. Qed.
Lemma nparam_name p : param_name (nparam p) = param_name p.
Proof. destruct p as [a|s]; [|reflexivity]. cbn [nparam param_name]. now rewrite narg_name. Qed.
Lemma default_for_n ps name : default_for (map nparam ps) name = option_map narg (default_for ps name).
Proof.
  unfold default_for. change (@None garg) with (option_map narg None) at 1. generalize (@None garg) as d.
  induction ps as [|p ps IH]; intro d; [reflexivity|]. cbn [map fold_left].
  destruct p as [a|s]; cbn [nparam]; [|apply IH]. rewrite narg_name.
  destruct (String.eqb (unq (arg_name a)) name); [|apply IH]. apply (IH (Some a)).
Qed.
Lemma default_for_clean ps name a : allb clean_param ps = true -> default_for ps name = Some a -> clean_arg a = true.
Proof.
  intro C. unfold default_for.
  assert (G : forall d, (forall a, d = Some a -> clean_arg a = true) ->
    forall a, fold_left (fun d p => match p with
      | GDefault a => if String.eqb (unq (arg_name a)) name then Some a else d
      | GName _ => d end) ps d = Some a -> clean_arg a = true).
  { induction ps as [|p ps IH]; intros d D b; [apply D|]. cbn [allb fold_right] in C.
    apply andb_true_iff in C as (C1 & C2). cbn [fold_left]. apply (IH C2).
    destruct p as [c|s]; [|exact D]. destruct (String.eqb _ _); [|exact D]. intros ? [= <-]. exact C1. }
  apply G. discriminate.
Qed.
Lemma fparam_same ps p : allb clean_param ps = true -> same (fparam (map nparam ps) (nparam p)) (fparam ps p).
Proof.
  intro C. unfold fparam. rewrite nparam_name, default_for_n.
  destruct (default_for ps (param_name p)) as [a|] eqn:D; cbn [option_map]; [|apply same_refl].
  apply s_arg. now apply (default_for_clean ps (param_name p)).
Qed.
Lemma separated_params qs : allb clean_param qs = true -> forall ps,
  same (separated (fparam (map nparam qs)) skip (map nparam ps)) (separated (fparam qs) skip ps).
Proof.
  intros C ps. induction ps as [|a l IH]; [apply same_refl|]. cbn [map separated].
  destruct l as [|b l]; [now apply fparam_same|]. cbn [map] in *. cbn [separated] in IH |- *.
  apply same_then; [|exact IH]. repeat st; try apply same_refl. now apply fparam_same.
Qed.
Lemma s_vql x : clean_vql x = true -> same (fvql (nvql x)) (fvql x).
Proof.
  destruct x as [name called ps o body|s]; cbn [clean_vql nvql fvql]; [|apply s_select]. intro C.
  apply andb_true_iff in C as (C & C4). apply andb_true_iff in C as (C & C3). apply andb_true_iff in C as (C1 & C2).
  apply same_then.
  - do 3 (apply same_then; [|apply same_refl]). apply same_then; [apply same_refl|].
    pose proof (separated_params ps C2 ps) as G. destruct ps as [|p ps]; [apply same_refl|]. cbn [map] in *.
    apply same_then; [|apply same_refl]. apply same_then; [apply same_refl|exact G].
  - destruct body; [now apply s_select|now apply s_and].
Qed.

(** A statement, formatted, parsed and formatted again, is the same text. *)
Theorem C60_format_settles_partial text x :
  parse_vql text = Some x -> clean_vql x = true ->
  exists y, parse_vql (format_vql x) = Some y /\ format_vql y = format_vql x.
Proof.
  intros P C. exists (nvql x). split; [now apply (C49_statement_round_trip_partial text)|].
  unfold format_vql, format_with. now rewrite (s_vql x C).
Qed.

(** The same of an expression. *)
Theorem C60_expression_settles_partial e : clean_and e = true -> format_expr (nand e) = format_expr e.
Proof. intro C. unfold format_expr, format_with. now rewrite (s_and e C). Qed.

(** Without the side condition the first formatting may leave nothing to
    format: an empty index, a quoted parameter. *)
Theorem C60_format_unsettled_refuted :
  (exists text x, parse_vql text = Some x /\ parse_vql (format_vql x) = None) /\
  exists text x, parse_vql text = Some x /\ format_vql x = "LET F(a b) = 1" /\ parse_vql (format_vql x) = None.
Proof.
  split.
  - exists "LET X = x[]". eexists. split; [vm_compute; reflexivity|]. vm_compute. reflexivity.
  - exists "LET F(`a b`) = 1". eexists. split; [vm_compute; reflexivity|]. split; vm_compute; reflexivity.
Qed.

Example settles_sample :
  match parse_vql sample with
  | Some x => clean_vql x && negb (String.eqb (format_vql x) sample)
  | None => false
  end = true.
Proof. vm_compute. reflexivity. Qed.

Print Assumptions C60_format_settles_partial.
Print Assumptions C60_expression_settles_partial.
Print Assumptions C60_format_unsettled_refuted.
