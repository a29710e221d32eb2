(** A small host program for the examples beside the theorems: two tables,
    a function without effects and one whose calls can be seen. *)

From Coq Require Import ZArith List String Bool.
From Verif Require Import Base F64 Value Protocols Monad Chains Range Flatten ArgParser Syntax Eval
  GoSort Runs Para.
Import ListNotations.
Open Scope nat_scope.
Open Scope string_scope.
Open Scope list_scope.

Definition arg (args : list (string * val)) (name : string) : val :=
  match assoc name args with Some v => v | None => VNil end.

(** twice(x=...) *)
Definition twice_of (v : val) : val :=
  match to_int64 v with Some z => vint (wrap64 (2 * z)) | None => VNull end.
Definition twice_host (args : list (string * val)) : prog val :=
  PReduce (arg args "x") (fun v => PRet (twice_of v)).

(** hit(x=...): the host sees the value *)
Definition hit_host (args : list (string * val)) : prog val :=
  PReduce (arg args "x") (fun v => PObserve v (PRet v)).

(** probe(x=...): a plugin with one row; the host sees the value *)
Definition probe_host (args : list (string * val)) : prog (list val) :=
  PReduce (arg args "x") (fun v => PObserve v (PRet [VDict [("p", v)]])).

(** How values are printed, as far as the examples need it. *)
Definition demo_sprint (v : val) : string :=
  match v with
  | VInt _ 1 => "1" | VInt _ 2 => "2" | VInt _ 3 => "3"
  | VNil | VNull => "null"
  | VBool true => "true" | VBool false => "false"
  | _ => "?"
  end%Z.

Definition demo_go : golib :=
  {| go_split := fun sep s => Some (Builtins.split_string s sep);
     go_sprintf := fun format _ => format; go_utf16 := fun s => s |}.

Definition demo_env : env :=
  {| env_protos := no_protos; env_iter := [];
     env_funs := builtin_funs ++ [("twice", FHost twice_host); ("hit", FHost hit_host)];
     env_plugs := builtin_plugs ++ [("probe", PlHost probe_host)];
     env_match := fun _ _ => false; env_sprint := demo_sprint;
     env_sort := fun less l => insertion_sort less l; env_go := demo_go |}.

Definition row (kvs : list (string * val)) : list (string * val) := kvs.
Definition i (z : Z) : val := vint z.

Definition table_rows : list (list (string * val)) :=
  [row [("k", VStr "b"); ("n", i 3)];
   row [("k", VStr "a"); ("n", i 1)];
   row [("k", VStr "b"); ("n", VNull)];
   row [("k", VStr "a"); ("n", i 2)]].

Definition demo_frames : list (list (string * val)) :=
  [[("t", VArr (map VDict table_rows)); ("base", i 10)]; [("NULL", VNull)]].
Definition demo_scope : scope :=
  {| sc_vars := map VDict demo_frames; sc_depth := 0; sc_cell := 0 |}.

(** Expressions *)
Definition sym (node : nat) (x : string) : expr := ESym node false [x] false [].
Definition call (node : nat) (f : string) (args : list (string * argval)) : expr :=
  ESym node false [f] true args.
Definition from_var (x : string) : plugin := Plugin [x] false [].
Definition lit (z : Z) : expr := ELit (i z).

(** Running a program of several statements. *)
Definition demo_run (n : nat) (qs : list stmt) : option (list (list val) * list val) :=
  match run_stmts (ev demo_env n) demo_scope qs st0 with
  | (s, RVal (_, out)) => Some (out, rev (trace s))
  | _ => None
  end.

Lemma demo_sort : sort_contract (env_sort demo_env).
Proof. apply insertion_sort_contract. Qed.
