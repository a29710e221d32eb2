(** Evaluation of definitions that may refer to each other in any way ends:
    the fragment of the language, and a logic for "this evaluation ends".
    C25. *)

From Coq Require Import ZArith List String Bool Lia PeanoNat.
From Verif Require Import Base BaseProofs F64 Value Protocols Monad Chains Range Flatten ArgParser Syntax
  Eval Runs Para Evolve.
Import ListNotations.
Open Scope nat_scope.
Open Scope list_scope.

(** A value without references to queries, functions or host objects. *)
Fixpoint data (v : val) : bool :=
  match v with
  | VOpaque _ => false
  | VArr l | VQuery l => forallb data l
  | VDict d => forallb (fun kv => data (snd kv)) d
  | _ => true
  end.

(** A program of the host that only looks at what its arguments evaluate to
    and returns data or one of those values. *)
Inductive calm (args got : list val) : prog val -> Prop :=
| calm_ret : forall v, data v = true \/ In v got -> calm args got (PRet v)
| calm_panic : calm args got PPanic
| calm_ws : forall v k, In v args -> (forall w, calm args (w :: got) (k w)) -> calm args got (PReduceWS v k)
| calm_truth : forall v k, In v got -> (forall b, calm args got (k b)) -> calm args got (PTruth v k)
| calm_observe : forall v k, calm args got k -> calm args got (PObserve v k).

(** A plugin of the host that looks at its arguments, reads the rows of some
    of them, and returns rows of data. *)
Inductive calm_rows (args : list val) : prog (list val) -> Prop :=
| cr_ret : forall rows, forallb data rows = true -> calm_rows args (PRet rows)
| cr_panic : calm_rows args PPanic
| cr_ws : forall v k, In v args -> (forall w, calm_rows args (k w)) -> calm_rows args (PReduceWS v k)
| cr_truth : forall v k, In v args -> (forall b, calm_rows args (k b)) -> calm_rows args (PTruth v k)
| cr_iterate : forall v k, In v args -> (forall rows, forallb data rows = true -> calm_rows args (k rows)) ->
    calm_rows args (PIterate v k)
| cr_observe : forall v k, calm_rows args k -> calm_rows args (PObserve v k).

(** What the host registered: operators that return data, iterators that
    yield data, a sort that invents no rows. *)
Record contained (E : env) : Prop := {
  ct_add : forall i a b v, In i (p_add (env_protos E)) -> i a b = Some v -> data v = true;
  ct_sub : forall i a b v, In i (p_sub (env_protos E)) -> i a b = Some v -> data v = true;
  ct_mul : forall i a b v, In i (p_mul (env_protos E)) -> i a b = Some v -> data v = true;
  ct_div : forall i a b v, In i (p_div (env_protos E)) -> i a b = Some v -> data v = true;
  ct_assoc : forall i a k v p, In i (p_assoc (env_protos E)) -> i a k = Some (v, p) -> data v = true;
  ct_iter : forall i a rows, In i (env_iter E) -> i a = Some rows -> forallb data rows = true;
  ct_sort : forall f l x, In x (env_sort E f l) -> In x l
}.

Section Fragment.
  Variable E : env.
  Variable owner : nat -> string.   (* the name written at each call *)

  (** An expression whose value cannot be a query. *)
  Definition solid (e : expr) : Prop :=
    match e with ELit _ | ECmp _ _ _ | ENot _ => True | _ => False end.

  Definition arg_is (P : expr -> Prop) (a : argval) : Prop :=
    match a with AExpr e | AArray e => P e | AEmpty => True | ASelect _ => False end.

  Definition opt_is {A} (P : A -> Prop) (o : option A) : Prop :=
    match o with Some x => P x | None => True end.

  (** The functions of the library that compute something from what their
      arguments evaluate to. *)
  Definition library (f : func) : bool :=
    match f with FLen | FSplit | FEncode | FTimestamp | FFormat | FCount | FSum => true | _ => false end.

  (** The calls: of definitions with any arguments, of the functions if and
      get, of those functions of the library, and of functions of the
      host. *)
  Definition call_is (P : expr -> Prop) (node : nat) (c : string) (params : list (string * argval)) : Prop :=
    match assoc c (env_funs E) with
    | None => Forall (fun p => arg_is P (snd p)) params
    | Some FIf =>
        owner node = c /\ exists c t e, P c /\ P t /\ P e /\
          params = [("condition", AExpr c); ("then", AExpr t); ("else", AExpr e)]%string
    | Some FGet =>
        owner node = c /\ exists e m, P e /\ P m /\ params = [("item", AExpr e); ("member", AExpr m)]%string
    | Some (FHost f) =>
        owner node = c /\ Forall (fun p => arg_is P (snd p)) params /\
        forall args, calm (map snd args) [] (f args)
    | Some f => library f = true /\ owner node = c /\ Forall (fun p => arg_is P (snd p)) params
    end.

  (** Expressions of height at most h; with [sy = false] without symbols. *)
  Fixpoint simple (sy : bool) (h : nat) (e : expr) : Prop :=
    match h with
    | O => False
    | S h =>
        match e with
        | ELit v => data v = true
        | ESym node _ path called params =>
            sy = true /\
            match path with
            | [] => False
            | [c] => if called then call_is (simple sy h) node c params
                     else Forall (fun p => arg_is (simple sy h) (snd p)) params
            | _ => Forall (fun p => arg_is (simple sy h) (snd p)) params
            end
        | EComma l rs =>
            simple sy h l /\ (rs = [] \/ solid l /\ Forall (opt_is (fun e => solid e /\ simple sy h e)) rs)
        | EAnd l rs | EOr l rs | EAdd l rs | EMul l rs =>
            simple sy h l /\ Forall (fun r => simple sy h (snd r)) rs
        | ENot e => simple sy h e
        | ECmp l _ r => simple sy h l /\ simple sy h r
        | EMember l ts =>
            simple sy h l /\
            Forall (fun t => match t with
                             | MIndex e => simple sy h e
                             | MRange a b => opt_is (simple sy h) a /\ opt_is (simple sy h) b
                             | MField _ => True
                             end) ts
        end
    end.

  (** A registered plugin may be given queries. *)
  Definition plug_arg_is (Q : select -> Prop) (P : expr -> Prop) (a : argval) : Prop :=
    match a with ASelect q => Q q | _ => arg_is P a end.

  (** What FROM reads: a variable or a call of a definition, without queries
      as arguments; or the plugins if, foreach, chain and flatten, with any
      arguments; range without a step; a plugin of the host. *)
  Definition from_is (Q : select -> Prop) (P : expr -> Prop) (path : list string) (call : bool)
    (args : list (string * argval)) : Prop :=
    match (match path with [c] => if call then assoc c (env_plugs E) else None | _ => None end) with
    | None => path <> [] /\ Forall (fun p => arg_is P (snd p)) args
    | Some PlIf | Some PlForeach | Some PlChain | Some PlFlatten => Forall (fun p => plug_arg_is Q P (snd p)) args
    | Some PlRange =>
        Forall (fun p => plug_arg_is Q P (snd p)) args /\
        Forall (fun p => fst p <> "step" /\ fst p <> "**")%string args
    | Some (PlHost f) =>
        Forall (fun p => plug_arg_is Q P (snd p)) args /\ forall vs, calm_rows (map snd vs) (f vs)
    | Some PlScope => False
    end.

  (** Queries over variables, calls of stored queries and plugins. *)
  Fixpoint simple_query (h : nat) (q : select) : Prop :=
    match h with
    | O => False
    | S h =>
        match q with
        | Select _ cols (Plugin path call args) where_ groupby _ _ =>
            Forall (fun c => match snd c with
                             | CStar => True
                             | CExpr e => exists k, simple true k e
                             | CSelect s => simple_query h s
                             end) cols /\
            from_is (simple_query h) (fun e => exists k, simple true k e) path call args /\
            opt_is (fun e => exists k, simple true k e) where_ /\
            opt_is (fun e => exists k, simple true k e) groupby
        end
    end.

  (** Definitions: the defaults contain no symbols. *)
  Definition default_is (p : string * (string * argval)) : Prop :=
    arg_is (fun e => exists k, simple false k e) (snd (snd p)).
  Definition edef_is (d : edef) : Prop :=
    (exists k, simple true k (e_expr d)) /\ Forall default_is (e_defaults d).
  Definition qdef_is (d : qdef) : Prop :=
    (exists k, simple_query k (q_select d)) /\ Forall default_is (q_defaults d).

  (** ** Ending *)

  Record tidy (s : st) : Prop := {
    td_cache : forall n c g ca k v, nth_error (heap s) n = Some (ORow c g ca) -> assoc k ca = Some v ->
      data v = true;
    td_lazy : forall n e sc v, nth_error (heap s) n = Some (OLazy e sc (Some v)) ->
      data v = true \/ exists m, v = VOpaque m;
    td_funs : forall node f id, nassoc node (node_funs s) = Some (f, id) ->
      assoc (owner node) (env_funs E) = Some f
  }.

  (** With enough fuel the outcome is always the same, and it is a value with
      the property, or a panic. *)
  Definition halts {A} (m : nat -> EM A) (s : st) (Q : st -> A -> Prop) : Prop :=
    exists N s' r, (forall n, N <= n -> m n s = (s', r)) /\
      match r with
      | RVal a => evolves s s' /\ tidy s' /\ Q s' a
      | RPanic => True
      | RFuel => False
      end.

  Definition later (s s' : st) : Prop := evolves s s' /\ tidy s'.
  Lemma later_refl : forall s, tidy s -> later s s.
  Proof. intros s H. split; [apply evolves_refl|exact H]. Qed.
  Lemma later_trans : forall a b c, later a b -> later b c -> later a c.
  Proof. intros a b c [H1 _] [H2 H3]. split; [eapply evolves_trans; eauto|exact H3]. Qed.

  Lemma h_bind : forall A B (m : nat -> EM A) (f : nat -> A -> EM B) s P Q,
    halts m s P ->
    (forall s1 a, later s s1 -> P s1 a -> halts (fun n => f n a) s1 Q) ->
    halts (fun n => mbind (m n) (f n)) s Q.
  Proof.
    intros A B m f s P Q (N & s1 & r & H1 & HR) HF. destruct r as [a| |]; [|exists N, s1, RPanic|contradiction].
    - destruct HR as (EV & TD & HP). destruct (HF s1 a (conj EV TD) HP) as (N2 & s2 & r2 & H2 & HR2).
      exists (max N N2), s2, r2. split.
      + intros n Hn. unfold mbind. rewrite H1 by lia. apply H2. lia.
      + destruct r2; auto. destruct HR2 as (E2 & T2 & Q2). split; [eapply evolves_trans; eauto|auto].
    - split; [|exact I]. intros n Hn. unfold mbind. now rewrite H1.
  Qed.

  Lemma h_ret : forall A (a : A) s (Q : st -> A -> Prop), tidy s -> Q s a -> halts (fun _ => mret a) s Q.
  Proof. intros. exists 0, s, (RVal a). split; [reflexivity|]. split; [apply evolves_refl|auto]. Qed.

  Lemma h_panic : forall A s (Q : st -> A -> Prop), halts (fun _ => mpanic) s Q.
  Proof. intros. exists 0, s, RPanic. split; [reflexivity|exact I]. Qed.

  Lemma h_conseq : forall A (m : nat -> EM A) s (P Q : st -> A -> Prop),
    halts m s P -> (forall s1 a, later s s1 -> P s1 a -> Q s1 a) -> halts m s Q.
  Proof.
    intros A m s P Q (N & s1 & r & H1 & HR) H. exists N, s1, r. split; [exact H1|].
    destruct r; auto. destruct HR as (E1 & T1 & P1). split; [exact E1|split; [exact T1|]]. apply H; [split; auto|exact P1].
  Qed.

  (** A first step with a known outcome. *)
  Lemma h_step : forall A B (m : nat -> EM A) (f : nat -> A -> EM B) s s1 a N Q,
    (forall n, N <= n -> m n s = (s1, RVal a)) -> later s s1 ->
    halts (fun n => f n a) s1 Q -> halts (fun n => mbind (m n) (f n)) s Q.
  Proof.
    intros A B m f s s1 a N Q H1 HL H2.
    apply (h_bind A B m f s (fun s' b => s' = s1 /\ b = a) Q).
    - exists N, s1, (RVal a). split; [exact H1|]. destruct HL. auto.
    - intros s2 b _ [-> ->]. exact H2.
  Qed.

  Lemma h_ext : forall A (m m' : nat -> EM A) s Q, (forall n, m n s = m' n s) -> halts m' s Q -> halts m s Q.
  Proof.
    intros A m m' s Q H (N & s1 & r & H1 & HR). exists N, s1, r. split; [|exact HR]. intros n Hn. rewrite H. auto.
  Qed.

  Lemma h_shift : forall A (m m' : nat -> EM A) s Q,
    (forall n, m (S n) = m' n) -> halts m' s Q -> halts m s Q.
  Proof.
    intros A m m' s Q H (N & s1 & r & H1 & HR). exists (S N), s1, r. split; [|exact HR].
    intros n Hn. destruct n as [|n]; [lia|]. rewrite H. apply H1. lia.
  Qed.

  Lemma h_mmap : forall A B (f : nat -> A -> EM B) (P : A -> Prop) (Q : B -> Prop) l s,
    tidy s -> Forall P l -> (forall x s1, P x -> later s s1 -> halts (fun n => f n x) s1 (fun _ => Q)) ->
    halts (fun n => mmap (f n) l) s (fun _ ys => Forall Q ys).
  Proof.
    intros A B f P Q l. induction l as [|x l IH]; intros s TD FP H; cbn [mmap]; [now apply h_ret|].
    inversion FP; subst.
    eapply h_bind; [apply H; [assumption|apply later_refl; exact TD]|]. intros s1 y L1 Q1. cbv beta.
    eapply h_bind; [apply IH; [apply L1|assumption|]|].
    { intros z s2 Pz L2. apply H; [exact Pz|eapply later_trans; eauto]. }
    intros s2 ys L2 Q2. apply h_ret; [apply L2|]. constructor; auto.
  Qed.
End Fragment.
