(** Regular expression matching and its cache: protocols/protocol_regex.go,
    with the context of the scope (scope/dispatcher.go:55-64, 101-112, a
    sync.Map shared by a scope and its children).

    regexp.Compile and MatchString belong to the Go library: they are
    parameters, functions of their arguments.  Simplified: the target is
    already reduced (line 26); a target of type []byte is not a value of the
    model. *)

From Coq Require Import List String Bool PeanoNat.
From Verif Require Import Base Value.
Import ListNotations.
Open Scope string_scope.
Open Scope list_scope.

Section Regex.
  Variable rx : Type.
  Variable compile : string -> option rx.          (* regexp.Compile *)
  Variable match_string : rx -> string -> bool.    (* MatchString *)

  (** What the context may hold under a key: the host shares it.
      scope/dispatcher.go:101-103 SetContextValue *)
  Inductive cval : Type :=
  | CRegex (r : rx)
  | CNil                   (* the cached error, line 90 *)
  | COther.                (* anything else the host put there *)

  (** No counterpart in /repo: what is seen of
      protocols/protocol_regex.go:73-99 Match. *)
  Inductive effect : Type :=
  | Compiled (pattern : string)       (* line 86 *)
  | Logged (pattern : string).        (* line 88 *)

  (** No counterpart in /repo: the context and what was seen. *)
  Record rstate : Type := { context : list (string * cval); effects : list effect }.

  (** scope/scope.go:192-197 SetContext *)
  Definition set_context (k : string) (v : cval) (s : rstate) : rstate :=
    {| context := dict_set k v (context s); effects := effects s |}.
  (** No counterpart in /repo: recording an effect. *)
  Definition note (e : effect) (s : rstate) : rstate :=
    {| context := context s; effects := effects s ++ [e] |}.

  (** The key of protocols/protocol_regex.go:73-99 Match. *)
  Definition re_key (pattern : string) : string := ("__re" ++ pattern)%string.

  (** protocol_regex.go:73-99 Match *)
  Definition match_str (s : rstate) (pattern target : string) : rstate * bool :=
    match assoc (re_key pattern) (context s) with
    | Some (CRegex r) => (s, match_string r target)
    | Some _ => (s, false)
    | None =>
        match compile ("(?i)" ++ pattern)%string with
        | None => (set_context (re_key pattern) CNil (note (Logged pattern) (note (Compiled pattern) s)), false)
        | Some r => (set_context (re_key pattern) (CRegex r) (note (Compiled pattern) s), match_string r target)
        end
    end.

  (** The registered implementations (line 54): Applicable and Match. *)
  Variable impls : list (val -> val -> option bool).

  (** The loop of protocols/protocol_regex.go:25-65 Match. *)
  Fixpoint first_impl (l : list (val -> val -> option bool)) (pattern target : val) : bool :=
    match l with
    | [] => false
    | i :: rest => match i pattern target with Some b => b | None => first_impl rest pattern target end
    end.

  (** Lines 33-36 *)
  Definition match_all (p : string) : bool :=
    String.eqb p "." || String.eqb p ".*" || String.eqb p "".

  (** Lines 25-64 for a pattern that is a string; the elements of an array
      until one matches. *)
  Fixpoint match_target (p : string) (target : val) (s : rstate) : rstate * bool :=
    if match_all p then (s, true)
    else match target with
         | VStr t => match_str s p t
         | VNilArr => (s, false)
         | VArr l =>
             (fix any (l : list val) (s : rstate) : rstate * bool :=
                match l with
                | [] => (s, false)
                | x :: rest => let '(s, b) := match_target p x s in if b then (s, true) else any rest s
                end) l s
         | _ => (s, first_impl impls (VStr p) target)
         end.

  (** protocols/protocol_regex.go:25-65 Match *)
  Definition regex_match (pattern target : val) (s : rstate) : rstate * bool :=
    match pattern with
    | VStr p => match_target p target s
    | _ => (s, first_impl impls pattern target)
    end.

  (** A history of one context: matches, and what the host stores. Calls of
      scope/scope.go:323-325 Match and scope/scope.go:192-197 SetContext. *)
  Inductive op : Type :=
  | OpMatch (pattern target : val)
  | OpStore (key : string) (v : cval).

  (** No counterpart in /repo: a sequence of such calls. *)
  Fixpoint run_ops (l : list op) (s : rstate) : rstate * list bool :=
    match l with
    | [] => (s, [])
    | OpMatch p t :: rest =>
        let '(s, b) := regex_match p t s in
        let '(s, bs) := run_ops rest s in (s, b :: bs)
    | OpStore k v :: rest => run_ops rest (set_context k v s)
    end.

  (** ** Several goroutines

      GetContext and SetContext are atomic, what is between them is not.

      A goroutine in protocols/protocol_regex.go:73-99 Match. *)
  Inductive thread : Type :=
  | TReady (jobs : list (string * string))                          (* at line 77 *)
  | TMissed (pattern target : string) (jobs : list (string * string)). (* at line 86 *)

  (** No counterpart in /repo: what a step does. *)
  Inductive cevent : Type :=
  | CLoad
  | CCompile (i : nat) (pattern : string)
  | CAnswer (pattern target : string) (b : bool).

  (** No counterpart in /repo: the shared context and the goroutines. *)
  Record cstate : Type := { shared : list (string * cval); threads : list thread }.

  (** The end of protocols/protocol_regex.go:73-99 Match. *)
  Definition answer_of (v : cval) (t : string) : bool :=
    match v with CRegex r => match_string r t | _ => false end.

  (** The compilation in protocols/protocol_regex.go:73-99 Match. *)
  Definition compiled_as (p : string) : cval :=
    match compile ("(?i)" ++ p)%string with Some r => CRegex r | None => CNil end.

  (** One step of protocols/protocol_regex.go:73-99 Match. *)
  Inductive cstep : cstate -> list cevent -> cstate -> Prop :=
  | CHit : forall m a p t jobs b v, assoc (re_key p) m = Some v ->
      cstep {| shared := m; threads := a ++ TReady ((p, t) :: jobs) :: b |} [CAnswer p t (answer_of v t)]
        {| shared := m; threads := a ++ TReady jobs :: b |}
  | CMiss : forall m a p t jobs b, assoc (re_key p) m = None ->
      cstep {| shared := m; threads := a ++ TReady ((p, t) :: jobs) :: b |} [CLoad]
        {| shared := m; threads := a ++ TMissed p t jobs :: b |}
  | CFill : forall m a p t jobs b,
      cstep {| shared := m; threads := a ++ TMissed p t jobs :: b |}
        [CCompile (List.length a) p; CAnswer p t (answer_of (compiled_as p) t)]
        {| shared := dict_set (re_key p) (compiled_as p) m; threads := a ++ TReady jobs :: b |}.

  (** No counterpart in /repo: any interleaving. *)
  Inductive cexec : cstate -> list cevent -> cstate -> Prop :=
  | CENil : forall s, cexec s [] s
  | CECons : forall s e s1 l s2, cstep s e s1 -> cexec s1 l s2 -> cexec s (e ++ l) s2.

  (** No counterpart in /repo: goroutines about to match, with nothing cached.
      *)
  Definition cstate0 (jobs : list (list (string * string))) : cstate :=
    {| shared := []; threads := map TReady jobs |}.
End Regex.

Arguments CRegex {rx} r.
Arguments CNil {rx}.
Arguments COther {rx}.
