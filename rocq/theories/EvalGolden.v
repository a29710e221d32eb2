(** The evaluator run on the project's own fixtures
    (/repo/fixtures/vql_queries.golden and multi_vql_queries.golden): every
    query below, translated from its text, gives the rows recorded there.
    These are tests of the model, not theorems.

    Left out: queries that use objects of the test program (set_env, objects
    with methods, struct values), functions that are not modelled (format,
    get, timestamp), EXPLAIN, and the queries that must stop a running plugin
    early (Pipeline.v models that). *)

From Coq Require Import ZArith List String Ascii Bool.
From Verif Require Import Base F64 Value Protocols Monad Chains Range Flatten ArgParser Syntax Eval GoSort.
Import ListNotations.
Open Scope nat_scope.
Open Scope string_scope.
Open Scope list_scope.

Inductive json : Type :=
| JNull | JBool (b : bool) | JInt (z : Z) | JFloat (f : f64) | JStr (s : string)
| JArr (l : list json) | JObj (d : list (string * json)).

(** How a value prints: integers and floats with an integral value look the
    same. *)
Fixpoint prints (v : val) (j : json) {struct v} : bool :=
  match v, j with
  | VNil, JNull | VNull, JNull => true
  | VBool a, JBool b => Bool.eqb a b
  | VInt _ a, JInt b => Z.eqb a b
  | VF64 a, JInt b => f_eqb a (f_of_Z b)
  | VF64 a, JFloat b => f_eqb a b
  | VStr a, JStr b => String.eqb a b
  | VNilArr, JNull => true
  | VArr l, JArr r | VQuery l, JArr r =>
      (fix go (l : list val) (r : list json) : bool :=
         match l, r with
         | [], [] => true
         | a :: l, b :: r => prints a b && go l r
         | _, _ => false
         end) l r
  | VDict d, JObj e =>
      (fix go (d : list (string * val)) (e : list (string * json)) : bool :=
         match d, e with
         | [], [] => true
         | (k, a) :: d, (m, b) :: e => String.eqb k m && prints a b && go d e
         | _, _ => false
         end) d e
  | _, _ => false
  end.

(** ** The scope of the tests (vfilter_test.go:419-451, 1395-1482) *)

Definition arg_float (args : list (string * val)) (k : string) : f64 :=
  match assoc k args with
  | Some v => match to_float v with Some f => f | None => fzero end
  | None => fzero
  end.

Fixpoint float_range (n : nat) (i stop : f64) : list val :=
  match n with
  | O => []
  | S m => if f_ltb stop i then []
           else VDict [("value", VF64 i)] :: float_range m (f_add i (f_of_Z 1)) stop
  end.

Definition gostr (n : Z) : string :=
  let d z := String (ascii_of_nat (48 + Z.to_nat z)) EmptyString in
  if (n <? 0)%Z then "-" ++ d (Z.modulo (- n) 10)
  else if (n <? 10)%Z then d n else d (n / 10)%Z ++ d (n mod 10)%Z.

Definition sprint (v : val) : string :=
  match v with
  | VStr s => s
  | VInt _ z => gostr z
  | VF64 f => match f_int_part f with Some z => gostr z | None => "float" end
  | VBool true => "true" | VBool false => "false"
  | VDict _ => "dict" | VArr _ => "array"
  | _ => "null"
  end.

(** protocols/protocol_regex.go:24-60, with regular expressions that are
    plain text, found in any case; and the one other expression that the tests
    use, he[lo]+, which finds what "hel" or "heo" finds. *)
Definition low (c : ascii) : ascii :=
  let n := N_of_ascii c in
  if (65 <=? n)%N && (n <=? 90)%N then ascii_of_N (n + 32) else c.
Fixpoint starts (p s : string) : bool :=
  match p, s with
  | EmptyString, _ => true
  | String a p, String b s => Ascii.eqb (low a) (low b) && starts p s
  | _, _ => false
  end.
Fixpoint finds (p s : string) : bool :=
  starts p s || match s with EmptyString => false | String _ s => finds p s end.
Definition plain (p s : string) : bool :=
  if String.eqb p "he[lo]+" then finds "hel" s || finds "heo" s else finds p s.
Fixpoint test_match (pattern target : val) {struct target} : bool :=
  match pattern with
  | VStr p =>
      mem_str p ["."; ".*"; ""] ||
      match target with
      | VStr s => plain p s
      | VArr l => existsb (test_match pattern) l
      | _ => false
      end
  | _ => false
  end.

(** The formats that occur in the tests. *)
Definition test_sprintf (format : string) (args : list val) : string :=
  match args with
  | [v] =>
      if String.eqb format "%v" then sprint v
      else if mem_str format ["%x"; "%02x"] then
        match v with VStr s => Builtins.hex_string s | _ => "?" end
      else "?"
  | _ => "?"
  end.

Definition test_env : env :=
  {| env_protos := no_protos; env_iter := [];
     env_funs := builtin_funs ++
       [("func_foo", FHost (fun args =>
           match assoc "return" args with
           | Some v => PReduce v (fun x => PRet x)
           | None => PRet (vint 1)
           end));
        ("panic", FHost (fun args =>
           if existsb (fun kv => negb (mem_str (fst kv) ["column"; "value"])) args then PRet VNull
           else
             PReduce (match assoc "column" args with Some v => v | None => VNil end) (fun c =>
             PReduce (match assoc "value" args with Some v => v | None => VNil end) (fun v =>
             if eq_disp [] v c then PPanic else PRet v))))];
     env_plugs :=
       [("test", PlHost (fun _ => PRet (map (fun i =>
            VDict [("foo", VInt KInt (i * 2)); ("bar", VInt KInt i)]) [0; 1; 2]%Z)));
        ("range", PlHost (fun args =>
            PRet (float_range 50 (arg_float args "start") (arg_float args "end"))));
        ("info", PlHost (fun _ => PRet []));
        ("dict", PlHost (fun args => PRet [VDict args]));
        ("groupbytest", PlHost (fun _ => PRet (map (fun '(f, b, z) =>
            VDict [("foo", VInt KInt f); ("bar", VInt KInt b); ("baz", VStr z)])
            [(1, 5, "a"); (2, 5, "b"); (3, 2, "c"); (4, 2, "d")]%Z)))]
       ++ builtin_plugs;
     env_match := test_match; env_sprint := sprint; env_sort := fun less l => insertion_sort less l;
     env_go := {| go_split := fun sep s => Some (Builtins.split_string s sep);
                  go_sprintf := test_sprintf; go_utf16 := fun s => s |} |}.

Definition test_frame : val :=
  VDict [("const_foo", VInt KInt 1); ("three_int64", vint 3);
         ("my_list_obj", VDict [("my_list", VArr [VInt KInt 1; VInt KInt 2; VInt KInt 3;
                                                  VDict [("Foo", VStr "Bar")]])]);
         ("env_var", VStr "EnvironmentData");
         ("foo", VDict [("bar", VDict [("baz", VInt KInt 5)]); ("bar2", VInt KInt 7)])].
Definition test_scope : scope :=
  append_vars (VDict [("ArrayValue", VArr [VInt KInt 1; VInt KInt 2; VInt KInt 3])])
    (append_vars test_frame scope0).

Definition golden_fuel : nat := 60 * 100.

(** Run the statements, convert each row with RowToDict, compare. *)
Definition golden (qs : list stmt) (expected : list (list json)) : Prop :=
  match (
    '(_, out) <- run_stmts (ev test_env golden_fuel) test_scope qs ;;
    mmap (fun rows => mmap (row_to_dict (ev test_env golden_fuel) test_scope) rows) out) st0
  with
  | (_, RVal out) =>
      Nat.eqb (List.length out) (List.length expected) &&
      forallb (fun re => Nat.eqb (List.length (fst re)) (List.length (snd re)) &&
                         forallb (fun vj => prints (fst vj) (snd vj)) (combine (fst re) (snd re)))
              (combine out expected)
  | _ => false
  end = true.

(** Query with LET: LET X = SELECT * FROM test() SELECT * FROM X *)
Example golden_m000 : golden
  [SLet "X" [] true (LSelect (Select true [] (Plugin ["test"] true []) None None None None));
   SQuery "" (Select true [] (Plugin ["X"] false []) None None None None)]
  [[(JObj [("foo", (JInt (0))); ("bar", (JInt (0)))]); (JObj [("foo", (JInt (2))); ("bar", (JInt (1)))]); (JObj [("foo", (JInt (4))); ("bar", (JInt (2)))])]].
Proof. vm_compute. reflexivity. Qed.

(** MultiSelect: SELECT 'Bar' AS Foo FROM scope() SELECT 'Foo' AS Foo FROM scope() *)
Example golden_m001 : golden
  [SQuery "" (Select false [("Foo", (CExpr (ELit (VStr "Bar"))))] (Plugin ["scope"] true []) None None None None);
   SQuery "" (Select false [("Foo", (CExpr (ELit (VStr "Foo"))))] (Plugin ["scope"] true []) None None None None)]
  [[(JObj [("Foo", (JStr "Bar"))])];
   [(JObj [("Foo", (JStr "Foo"))])]].
Proof. vm_compute. reflexivity. Qed.

(** LET with index: LET X = SELECT * FROM test() SELECT X[0], X[1].bar FROM scope() *)
Example golden_m002 : golden
  [SLet "X" [] true (LSelect (Select true [] (Plugin ["test"] true []) None None None None));
   SQuery "" (Select false [("X[0]", (CExpr (EMember (ESym 1 false ["X"] false []) [MIndex (ELit (vint (0)))]))); ("X[1].bar", (CExpr (EMember (ESym 2 false ["X"] false []) [MIndex (ELit (vint (1))); MField "bar"])))] (Plugin ["scope"] true []) None None None None)]
  [[(JObj [("X[0]", (JObj [("foo", (JInt (0))); ("bar", (JInt (0)))])); ("X[1].bar", (JInt (1)))])]].
Proof. vm_compute. reflexivity. Qed.

(** LET with extra columns: LET X = SELECT * FROM test() SELECT *, 1 FROM X *)
Example golden_m003 : golden
  [SLet "X" [] true (LSelect (Select true [] (Plugin ["test"] true []) None None None None));
   SQuery "" (Select true [("1", (CExpr (ELit (vint (1)))))] (Plugin ["X"] false []) None None None None)]
  [[(JObj [("foo", (JInt (0))); ("bar", (JInt (0))); ("1", (JInt (1)))]); (JObj [("foo", (JInt (2))); ("bar", (JInt (1))); ("1", (JInt (1)))]); (JObj [("foo", (JInt (4))); ("bar", (JInt (2))); ("1", (JInt (1)))])]].
Proof. vm_compute. reflexivity. Qed.

(** LET with extra columns before *: LET X = SELECT * FROM test() SELECT 1, *, 2 FROM X *)
Example golden_m004 : golden
  [SLet "X" [] true (LSelect (Select true [] (Plugin ["test"] true []) None None None None));
   SQuery "" (Select false [("1", (CExpr (ELit (vint (1))))); ("*", CStar); ("2", (CExpr (ELit (vint (2)))))] (Plugin ["X"] false []) None None None None)]
  [[(JObj [("1", (JInt (1))); ("foo", (JInt (0))); ("bar", (JInt (0))); ("2", (JInt (2)))]); (JObj [("1", (JInt (1))); ("foo", (JInt (2))); ("bar", (JInt (1))); ("2", (JInt (2)))]); (JObj [("1", (JInt (1))); ("foo", (JInt (4))); ("bar", (JInt (2))); ("2", (JInt (2)))])]].
Proof. vm_compute. reflexivity. Qed.

(** LET with extra columns before * and override: LET X = SELECT * FROM test() SELECT 1000 + foo AS foo, *, 2 FROM X *)
Example golden_m005 : golden
  [SLet "X" [] true (LSelect (Select true [] (Plugin ["test"] true []) None None None None));
   SQuery "" (Select false [("foo", (CExpr (EAdd (ELit (vint (1000))) [("+", (ESym 1 false ["foo"] false []))]))); ("*", CStar); ("2", (CExpr (ELit (vint (2)))))] (Plugin ["X"] false []) None None None None)]
  [[(JObj [("foo", (JInt (1000))); ("bar", (JInt (0))); ("2", (JInt (2)))]); (JObj [("foo", (JInt (1002))); ("bar", (JInt (1))); ("2", (JInt (2)))]); (JObj [("foo", (JInt (1004))); ("bar", (JInt (2))); ("2", (JInt (2)))])]].
Proof. vm_compute. reflexivity. Qed.

(** LET materialized with extra columns: LET X <= SELECT * FROM test() SELECT *, 1 FROM X *)
Example golden_m006 : golden
  [SLet "X" [] false (LSelect (Select true [] (Plugin ["test"] true []) None None None None));
   SQuery "" (Select true [("1", (CExpr (ELit (vint (1)))))] (Plugin ["X"] false []) None None None None)]
  [[(JObj [("foo", (JInt (0))); ("bar", (JInt (0))); ("1", (JInt (1)))]); (JObj [("foo", (JInt (2))); ("bar", (JInt (1))); ("1", (JInt (1)))]); (JObj [("foo", (JInt (4))); ("bar", (JInt (2))); ("1", (JInt (1)))])]].
Proof. vm_compute. reflexivity. Qed.

(** Column name with space: LET X <= SELECT 2 AS `Hello World` FROM scope() SELECT `Hello World`, `Hello World` + 4 AS Foo, X.`Hello World` FROM X *)
Example golden_m007 : golden
  [SLet "X" [] false (LSelect (Select false [("Hello World", (CExpr (ELit (vint (2)))))] (Plugin ["scope"] true []) None None None None));
   SQuery "" (Select false [("Hello World", (CExpr (ESym 1 false ["Hello World"] false []))); ("Foo", (CExpr (EAdd (ESym 2 false ["Hello World"] false []) [("+", (ELit (vint (4))))]))); ("X.`Hello World`", (CExpr (ESym 3 false ["X"; "Hello World"] false [])))] (Plugin ["X"] false []) None None None None)]
  [[(JObj [("Hello World", (JInt (2))); ("Foo", (JInt (6))); ("X.`Hello World`", (JArr [(JInt (2))]))])]].
Proof. vm_compute. reflexivity. Qed.

(** Group by with columns with spaces: LET X = SELECT foo, bar AS `Foo Bar` FROM groupbytest() SELECT * FROM X GROUP BY `Foo Bar` *)
Example golden_m008 : golden
  [SLet "X" [] true (LSelect (Select false [("foo", (CExpr (ESym 1 false ["foo"] false []))); ("Foo Bar", (CExpr (ESym 2 false ["bar"] false [])))] (Plugin ["groupbytest"] true []) None None None None));
   SQuery "" (Select true [] (Plugin ["X"] false []) None (Some (ESym 3 false ["Foo Bar"] false [])) None None)]
  [[(JObj [("foo", (JInt (2))); ("Foo Bar", (JInt (5)))]); (JObj [("foo", (JInt (4))); ("Foo Bar", (JInt (2)))])]].
Proof. vm_compute. reflexivity. Qed.

(** Order by with columns with spaces: LET X = SELECT foo AS `Foo Bar` FROM groupbytest() SELECT * FROM X ORDER BY `Foo Bar` DESC *)
Example golden_m009 : golden
  [SLet "X" [] true (LSelect (Select false [("Foo Bar", (CExpr (ESym 1 false ["foo"] false [])))] (Plugin ["groupbytest"] true []) None None None None));
   SQuery "" (Select true [] (Plugin ["X"] false []) None None (Some ("Foo Bar", true)) None)]
  [[(JObj [("Foo Bar", (JInt (4)))]); (JObj [("Foo Bar", (JInt (3)))]); (JObj [("Foo Bar", (JInt (2)))]); (JObj [("Foo Bar", (JInt (1)))])]].
Proof. vm_compute. reflexivity. Qed.

(** LET with expression: LET X = 'Hello world' SELECT X FROM scope() *)
Example golden_m010 : golden
  [SLet "X" [] true (LExpr (ELit (VStr "Hello world")));
   SQuery "" (Select false [("X", (CExpr (ESym 1 false ["X"] false [])))] (Plugin ["scope"] true []) None None None None)]
  [[(JObj [("X", (JStr "Hello world"))])]].
Proof. vm_compute. reflexivity. Qed.

(** LET with expression lazy: LET X = panic() SELECT 1 + 1 FROM scope() *)
Example golden_m011 : golden
  [SLet "X" [] true (LExpr (ESym 1 false ["panic"] true []));
   SQuery "" (Select false [("1 + 1", (CExpr (EAdd (ELit (vint (1))) [("+", (ELit (vint (1))))])))] (Plugin ["scope"] true []) None None None None)]
  [[(JObj [("1 + 1", (JInt (2)))])]].
Proof. vm_compute. reflexivity. Qed.

(** LET materialize with expression: LET X <= 'Hello world' SELECT X FROM scope() *)
Example golden_m012 : golden
  [SLet "X" [] false (LExpr (ELit (VStr "Hello world")));
   SQuery "" (Select false [("X", (CExpr (ESym 1 false ["X"] false [])))] (Plugin ["scope"] true []) None None None None)]
  [[(JObj [("X", (JStr "Hello world"))])]].
Proof. vm_compute. reflexivity. Qed.

(** Serialization (Unexpected arg aborts parsing): SELECT panic(value=1, column=1, colume='X'), func_foo() FROM scope() *)
Example golden_m013 : golden
  [SQuery "" (Select false [("panic(value=1, column=1, colume='X')", (CExpr (ESym 1 false ["panic"] true [("value", (AExpr (ELit (vint (1))))); ("column", (AExpr (ELit (vint (1))))); ("colume", (AExpr (ELit (VStr "X"))))]))); ("func_foo()", (CExpr (ESym 2 false ["func_foo"] true [])))] (Plugin ["scope"] true []) None None None None)]
  [[(JObj [("panic(value=1, column=1, colume='X')", JNull); ("func_foo()", (JInt (1)))])]].
Proof. vm_compute. reflexivity. Qed.

(** LET with expression lazy - string concat: LET X = 'hello' SELECT X + 'world', 'world' + X, 'hello world' =~ X FROM scope() *)
Example golden_m014 : golden
  [SLet "X" [] true (LExpr (ELit (VStr "hello")));
   SQuery "" (Select false [("X + 'world'", (CExpr (EAdd (ESym 1 false ["X"] false []) [("+", (ELit (VStr "world")))]))); ("'world' + X", (CExpr (EAdd (ELit (VStr "world")) [("+", (ESym 2 false ["X"] false []))]))); ("'hello world' =~ X", (CExpr (ECmp (ELit (VStr "hello world")) OpMatch (ESym 3 false ["X"] false []))))] (Plugin ["scope"] true []) None None None None)]
  [[(JObj [("X + 'world'", (JStr "helloworld")); ("'world' + X", (JStr "worldhello")); ("'hello world' =~ X", (JBool true))])]].
Proof. vm_compute. reflexivity. Qed.

(** Lazy expression in arrays: LET X = count() SELECT (1, X), dict(foo=X, bar=[1, X]) FROM scope() *)
Example golden_m015 : golden
  [SLet "X" [] true (LExpr (ESym 1 false ["count"] true []));
   SQuery "" (Select false [("(1, X)", (CExpr (EComma (ELit (vint (1))) [Some (ESym 2 false ["X"] false [])]))); ("dict(foo=X, bar=[1, X])", (CExpr (ESym 5 false ["dict"] true [("foo", (AExpr (ESym 3 false ["X"] false []))); ("bar", (AArray (EComma (ELit (vint (1))) [Some (ESym 4 false ["X"] false [])])))])))] (Plugin ["scope"] true []) None None None None)]
  [[(JObj [("(1, X)", (JArr [(JInt (1)); (JInt (1))])); ("dict(foo=X, bar=[1, X])", (JObj [("foo", (JInt (3))); ("bar", (JArr [(JInt (1)); (JInt (2))]))]))])]].
Proof. vm_compute. reflexivity. Qed.

(** Calling stored queries as plugins: LET X = SELECT Foo FROM scope() SELECT * FROM X(Foo=1) *)
Example golden_m016 : golden
  [SLet "X" [] true (LSelect (Select false [("Foo", (CExpr (ESym 1 false ["Foo"] false [])))] (Plugin ["scope"] true []) None None None None));
   SQuery "" (Select true [] (Plugin ["X"] true [("Foo", (AExpr (ELit (vint (1)))))]) None None None None)]
  [[(JObj [("Foo", (JInt (1)))])]].
Proof. vm_compute. reflexivity. Qed.

(** Defining functions with args: LET X(Foo, Bar) = Foo + Bar SELECT X(Foo=5, Bar=2) FROM scope() *)
Example golden_m017 : golden
  [SLet "X" [("Foo", None); ("Bar", None)] true (LExpr (EAdd (ESym 1 false ["Foo"] false []) [("+", (ESym 2 false ["Bar"] false []))]));
   SQuery "" (Select false [("X(Foo=5, Bar=2)", (CExpr (ESym 3 false ["X"] true [("Foo", (AExpr (ELit (vint (5))))); ("Bar", (AExpr (ELit (vint (2)))))])))] (Plugin ["scope"] true []) None None None None)]
  [[(JObj [("X(Foo=5, Bar=2)", (JInt (7)))])]].
Proof. vm_compute. reflexivity. Qed.

(** Defining stored queries with args: LET X(Foo, Bar) = SELECT Foo + Bar FROM scope() SELECT * FROM X(Foo=5, Bar=2) *)
Example golden_m018 : golden
  [SLet "X" [("Foo", None); ("Bar", None)] true (LSelect (Select false [("Foo + Bar", (CExpr (EAdd (ESym 1 false ["Foo"] false []) [("+", (ESym 2 false ["Bar"] false []))])))] (Plugin ["scope"] true []) None None None None));
   SQuery "" (Select true [] (Plugin ["X"] true [("Foo", (AExpr (ELit (vint (5))))); ("Bar", (AExpr (ELit (vint (2)))))]) None None None None)]
  [[(JObj [("Foo + Bar", (JInt (7)))])]].
Proof. vm_compute. reflexivity. Qed.

(** Defining functions masking variable name: LET X(foo) = foo + 2 SELECT X(foo=foo), foo FROM test() *)
Example golden_m019 : golden
  [SLet "X" [("foo", None)] true (LExpr (EAdd (ESym 1 false ["foo"] false []) [("+", (ELit (vint (2))))]));
   SQuery "" (Select false [("X(foo=foo)", (CExpr (ESym 3 false ["X"] true [("foo", (AExpr (ESym 2 false ["foo"] false [])))]))); ("foo", (CExpr (ESym 4 false ["foo"] false [])))] (Plugin ["test"] true []) None None None None)]
  [[(JObj [("X(foo=foo)", (JInt (2))); ("foo", (JInt (0)))]); (JObj [("X(foo=foo)", (JInt (4))); ("foo", (JInt (2)))]); (JObj [("X(foo=foo)", (JInt (6))); ("foo", (JInt (4)))])]].
Proof. vm_compute. reflexivity. Qed.

(** Defining stored queries masking variable name: LET X(foo) = SELECT *, foo FROM range(start=foo, end=foo + 2) LET foo = 2 SELECT * FROM X(foo=foo) *)
Example golden_m020 : golden
  [SLet "X" [("foo", None)] true (LSelect (Select true [("foo", (CExpr (ESym 1 false ["foo"] false [])))] (Plugin ["range"] true [("start", (AExpr (ESym 2 false ["foo"] false []))); ("end", (AExpr (EAdd (ESym 3 false ["foo"] false []) [("+", (ELit (vint (2))))])))]) None None None None));
   SLet "foo" [] true (LExpr (ELit (vint (2))));
   SQuery "" (Select true [] (Plugin ["X"] true [("foo", (AExpr (ESym 4 false ["foo"] false [])))]) None None None None)]
  [[(JObj [("value", (JInt (2))); ("foo", (JInt (2)))]); (JObj [("value", (JInt (3))); ("foo", (JInt (2)))]); (JObj [("value", (JInt (4))); ("foo", (JInt (2)))])]].
Proof. vm_compute. reflexivity. Qed.

(** Calling stored query in function context: LET X(foo) = SELECT *, foo FROM range(start=foo, end=foo + 2) SELECT X(foo=5).value, X(foo=10) FROM scope() *)
Example golden_m021 : golden
  [SLet "X" [("foo", None)] true (LSelect (Select true [("foo", (CExpr (ESym 1 false ["foo"] false [])))] (Plugin ["range"] true [("start", (AExpr (ESym 2 false ["foo"] false []))); ("end", (AExpr (EAdd (ESym 3 false ["foo"] false []) [("+", (ELit (vint (2))))])))]) None None None None));
   SQuery "" (Select false [("X(foo=5).value", (CExpr (EMember (ESym 4 false ["X"] true [("foo", (AExpr (ELit (vint (5)))))]) [MField "value"]))); ("X(foo=10)", (CExpr (ESym 5 false ["X"] true [("foo", (AExpr (ELit (vint (10)))))])))] (Plugin ["scope"] true []) None None None None)]
  [[(JObj [("X(foo=5).value", (JArr [(JInt (5)); (JInt (6)); (JInt (7))])); ("X(foo=10)", (JArr [(JObj [("value", (JInt (10))); ("foo", (JInt (10)))]); (JObj [("value", (JInt (11))); ("foo", (JInt (10)))]); (JObj [("value", (JInt (12))); ("foo", (JInt (10)))])]))])]].
Proof. vm_compute. reflexivity. Qed.

(** Calling stored query with args: LET X(foo) = SELECT *, foo FROM range(start=foo, end=foo + 2) LET foo = 8 SELECT * FROM foreach(row=X, query={ SELECT *, value FROM X(foo=value) }) *)
Example golden_m022 : golden
  [SLet "X" [("foo", None)] true (LSelect (Select true [("foo", (CExpr (ESym 1 false ["foo"] false [])))] (Plugin ["range"] true [("start", (AExpr (ESym 2 false ["foo"] false []))); ("end", (AExpr (EAdd (ESym 3 false ["foo"] false []) [("+", (ELit (vint (2))))])))]) None None None None));
   SLet "foo" [] true (LExpr (ELit (vint (8))));
   SQuery "" (Select true [] (Plugin ["foreach"] true [("row", (AExpr (ESym 4 false ["X"] false []))); ("query", (ASelect (Select true [("value", (CExpr (ESym 5 false ["value"] false [])))] (Plugin ["X"] true [("foo", (AExpr (ESym 6 false ["value"] false [])))]) None None None None)))]) None None None None)]
  [[(JObj [("foo", (JInt (8))); ("value", (JInt (8)))]); (JObj [("foo", (JInt (8))); ("value", (JInt (9)))]); (JObj [("foo", (JInt (8))); ("value", (JInt (10)))]); (JObj [("foo", (JInt (9))); ("value", (JInt (9)))]); (JObj [("foo", (JInt (9))); ("value", (JInt (10)))]); (JObj [("foo", (JInt (9))); ("value", (JInt (11)))]); (JObj [("foo", (JInt (10))); ("value", (JInt (10)))]); (JObj [("foo", (JInt (10))); ("value", (JInt (11)))]); (JObj [("foo", (JInt (10))); ("value", (JInt (12)))])]].
Proof. vm_compute. reflexivity. Qed.

(** Lazy expression evaluates in caller's scope: LET X(foo) = 1 + foo SELECT X(foo=foo + 1), foo FROM test() *)
Example golden_m023 : golden
  [SLet "X" [("foo", None)] true (LExpr (EAdd (ELit (vint (1))) [("+", (ESym 1 false ["foo"] false []))]));
   SQuery "" (Select false [("X(foo=foo + 1)", (CExpr (ESym 3 false ["X"] true [("foo", (AExpr (EAdd (ESym 2 false ["foo"] false []) [("+", (ELit (vint (1))))])))]))); ("foo", (CExpr (ESym 4 false ["foo"] false [])))] (Plugin ["test"] true []) None None None None)]
  [[(JObj [("X(foo=foo + 1)", (JInt (2))); ("foo", (JInt (0)))]); (JObj [("X(foo=foo + 1)", (JInt (4))); ("foo", (JInt (2)))]); (JObj [("X(foo=foo + 1)", (JInt (6))); ("foo", (JInt (4)))])]].
Proof. vm_compute. reflexivity. Qed.

(** Calling lazy expressions as functions allows access to global scope: LET Xk = 5 LET Y = Xk + count() SELECT Y AS Y1, Y AS Y2, Y() AS Y3 FROM scope() *)
Example golden_m024 : golden
  [SLet "Xk" [] true (LExpr (ELit (vint (5))));
   SLet "Y" [] true (LExpr (EAdd (ESym 1 false ["Xk"] false []) [("+", (ESym 2 false ["count"] true []))]));
   SQuery "" (Select false [("Y1", (CExpr (ESym 3 false ["Y"] false []))); ("Y2", (CExpr (ESym 4 false ["Y"] false []))); ("Y3", (CExpr (ESym 5 false ["Y"] true [])))] (Plugin ["scope"] true []) None None None None)]
  [[(JObj [("Y1", (JInt (6))); ("Y2", (JInt (7))); ("Y3", (JInt (6)))])]].
Proof. vm_compute. reflexivity. Qed.

(** Overflow condition - should not get stuck: LET X = 1 + X SELECT X(X=1), X FROM test() *)
Example golden_m025 : golden
  [SLet "X" [] true (LExpr (EAdd (ELit (vint (1))) [("+", (ESym 1 false ["X"] false []))]));
   SQuery "" (Select false [("X(X=1)", (CExpr (ESym 2 false ["X"] true [("X", (AExpr (ELit (vint (1)))))]))); ("X", (CExpr (ESym 3 false ["X"] false [])))] (Plugin ["test"] true []) None None None None)]
  [[(JObj [("X(X=1)", (JInt (2))); ("X", JNull)]); (JObj [("X(X=1)", (JInt (2))); ("X", JNull)]); (JObj [("X(X=1)", (JInt (2))); ("X", JNull)])]].
Proof. vm_compute. reflexivity. Qed.

(** Overflow condition - https://github.com/Velocidex/velociraptor/issues/2845: LET X = X.ID SELECT * FROM X *)
Example golden_m026 : golden
  [SLet "X" [] true (LExpr (ESym 1 false ["X"; "ID"] false []));
   SQuery "" (Select true [] (Plugin ["X"] false []) None None None None)]
  [[(JObj [])]].
Proof. vm_compute. reflexivity. Qed.

(** Overflow condition - should not get stuck: LET X = 1 + X LET Y = 1 + Y SELECT X, Y FROM scope() *)
Example golden_m027 : golden
  [SLet "X" [] true (LExpr (EAdd (ELit (vint (1))) [("+", (ESym 1 false ["X"] false []))]));
   SLet "Y" [] true (LExpr (EAdd (ELit (vint (1))) [("+", (ESym 2 false ["Y"] false []))]));
   SQuery "" (Select false [("X", (CExpr (ESym 3 false ["X"] false []))); ("Y", (CExpr (ESym 4 false ["Y"] false [])))] (Plugin ["scope"] true []) None None None None)]
  [[(JObj [("X", JNull); ("Y", JNull)])]].
Proof. vm_compute. reflexivity. Qed.

(** Overflow condition materialized - should not get stuck: LET X <= 1 + X LET Y = 1 + Y SELECT X, Y FROM scope() *)
Example golden_m028 : golden
  [SLet "X" [] false (LExpr (EAdd (ELit (vint (1))) [("+", (ESym 1 false ["X"] false []))]));
   SLet "Y" [] true (LExpr (EAdd (ELit (vint (1))) [("+", (ESym 2 false ["Y"] false []))]));
   SQuery "" (Select false [("X", (CExpr (ESym 3 false ["X"] false []))); ("Y", (CExpr (ESym 4 false ["Y"] false [])))] (Plugin ["scope"] true []) None None None None)]
  [[(JObj [("X", JNull); ("Y", JNull)])]].
Proof. vm_compute. reflexivity. Qed.

(** Overflow with plugins: LET foo_plugin(X) = SELECT * FROM chain(a={ SELECT * FROM foo_plugin(X=1) }) SELECT * FROM foo_plugin(X=1) *)
Example golden_m029 : golden
  [SLet "foo_plugin" [("X", None)] true (LSelect (Select true [] (Plugin ["chain"] true [("a", (ASelect (Select true [] (Plugin ["foo_plugin"] true [("X", (AExpr (ELit (vint (1)))))]) None None None None)))]) None None None None));
   SQuery "" (Select true [] (Plugin ["foo_plugin"] true [("X", (AExpr (ELit (vint (1)))))]) None None None None)]
  [[]].
Proof. vm_compute. reflexivity. Qed.

(** Escaped identifiers for arg parameters: SELECT dict(`arg-with-special chars`=TRUE) FROM scope() *)
Example golden_m030 : golden
  [SQuery "" (Select false [("dict(`arg-with-special chars`=TRUE)", (CExpr (ESym 1 false ["dict"] true [("arg-with-special chars", (AExpr (ELit (VBool true))))])))] (Plugin ["scope"] true []) None None None None)]
  [[(JObj [("dict(`arg-with-special chars`=TRUE)", (JObj [("arg-with-special chars", (JBool true))]))])]].
Proof. vm_compute. reflexivity. Qed.

(** Group by hidden column: SELECT bar, baz FROM groupbytest() GROUP BY bar SELECT baz FROM groupbytest() GROUP BY bar *)
Example golden_m031 : golden
  [SQuery "" (Select false [("bar", (CExpr (ESym 1 false ["bar"] false []))); ("baz", (CExpr (ESym 2 false ["baz"] false [])))] (Plugin ["groupbytest"] true []) None (Some (ESym 3 false ["bar"] false [])) None None);
   SQuery "" (Select false [("baz", (CExpr (ESym 4 false ["baz"] false [])))] (Plugin ["groupbytest"] true []) None (Some (ESym 5 false ["bar"] false [])) None None)]
  [[(JObj [("bar", (JInt (5))); ("baz", (JStr "b"))]); (JObj [("bar", (JInt (2))); ("baz", (JStr "d"))])];
   [(JObj [("baz", (JStr "b"))]); (JObj [("baz", (JStr "d"))])]].
Proof. vm_compute. reflexivity. Qed.

(** Group by expression: SELECT *, bar + bar FROM groupbytest() GROUP BY bar + bar *)
Example golden_m032 : golden
  [SQuery "" (Select true [("bar + bar", (CExpr (EAdd (ESym 1 false ["bar"] false []) [("+", (ESym 2 false ["bar"] false []))])))] (Plugin ["groupbytest"] true []) None (Some (EAdd (ESym 3 false ["bar"] false []) [("+", (ESym 4 false ["bar"] false []))])) None None)]
  [[(JObj [("foo", (JInt (2))); ("bar", (JInt (5))); ("baz", (JStr "b")); ("bar + bar", (JInt (10)))]); (JObj [("foo", (JInt (4))); ("bar", (JInt (2))); ("baz", (JStr "d")); ("bar + bar", (JInt (4)))])]].
Proof. vm_compute. reflexivity. Qed.

(** Variable can not mask a function.: LET dict(x) = 1 SELECT 1 AS dict, dict(foo=1) FROM scope() WHERE dict *)
Example golden_m033 : golden
  [SLet "dict" [("x", None)] true (LExpr (ELit (vint (1))));
   SQuery "" (Select false [("dict", (CExpr (ELit (vint (1))))); ("dict(foo=1)", (CExpr (ESym 1 false ["dict"] true [("foo", (AExpr (ELit (vint (1)))))])))] (Plugin ["scope"] true []) (Some (ESym 2 false ["dict"] false [])) None None None)]
  [[(JObj [("dict", (JInt (1))); ("dict(foo=1)", (JObj [("foo", (JInt (1)))]))])]].
Proof. vm_compute. reflexivity. Qed.

(** Foreach evals query in row scope (both queries should be same): LET row_query = SELECT 1 AS ColumnName123 FROM scope() LET foreach_query = SELECT ColumnName123 FROM scope() SELECT * FROM foreach(row=row_query, query=foreach_query) SELECT * FROM foreach(row=row_query, query={ SELECT ColumnName123 FROM scope() }) *)
Example golden_m034 : golden
  [SLet "row_query" [] true (LSelect (Select false [("ColumnName123", (CExpr (ELit (vint (1)))))] (Plugin ["scope"] true []) None None None None));
   SLet "foreach_query" [] true (LSelect (Select false [("ColumnName123", (CExpr (ESym 1 false ["ColumnName123"] false [])))] (Plugin ["scope"] true []) None None None None));
   SQuery "" (Select true [] (Plugin ["foreach"] true [("row", (AExpr (ESym 2 false ["row_query"] false []))); ("query", (AExpr (ESym 3 false ["foreach_query"] false [])))]) None None None None);
   SQuery "" (Select true [] (Plugin ["foreach"] true [("row", (AExpr (ESym 4 false ["row_query"] false []))); ("query", (ASelect (Select false [("ColumnName123", (CExpr (ESym 5 false ["ColumnName123"] false [])))] (Plugin ["scope"] true []) None None None None)))]) None None None None)]
  [[(JObj [("ColumnName123", (JInt (1)))])];
   [(JObj [("ColumnName123", (JInt (1)))])]].
Proof. vm_compute. reflexivity. Qed.

(** Aggregate functions with multiple evaluations: SELECT count() AS Count FROM foreach(row=[0, 1, 2]) WHERE Count <= 2 AND Count AND Count AND Count AND count() and count() *)
Example golden_m035 : golden
  [SQuery "" (Select false [("Count", (CExpr (ESym 1 false ["count"] true [])))] (Plugin ["foreach"] true [("row", (AArray (EComma (ELit (vint (0))) [Some (ELit (vint (1))); Some (ELit (vint (2)))])))]) (Some (EAnd (ECmp (ESym 2 false ["Count"] false []) OpLe (ELit (vint (2)))) [("AND", (ESym 3 false ["Count"] false [])); ("AND", (ESym 4 false ["Count"] false [])); ("AND", (ESym 5 false ["Count"] false [])); ("AND", (ESym 6 false ["count"] true [])); ("and", (ESym 7 false ["count"] true []))])) None None None)]
  [[(JObj [("Count", (JInt (1)))]); (JObj [("Count", (JInt (2)))])]].
Proof. vm_compute. reflexivity. Qed.

(** Aggregate functions: min max: SELECT min(item=_value) AS Min, max(item=_value) AS Max, count() AS Count FROM foreach(row=[0, 1, 2]) GROUP BY 1 *)
Example golden_m036 : golden
  [SQuery "" (Select false [("Min", (CExpr (ESym 2 false ["min"] true [("item", (AExpr (ESym 1 false ["_value"] false [])))]))); ("Max", (CExpr (ESym 4 false ["max"] true [("item", (AExpr (ESym 3 false ["_value"] false [])))]))); ("Count", (CExpr (ESym 5 false ["count"] true [])))] (Plugin ["foreach"] true [("row", (AArray (EComma (ELit (vint (0))) [Some (ELit (vint (1))); Some (ELit (vint (2)))])))]) None (Some (ELit (vint (1)))) None None)]
  [[(JObj [("Min", (JInt (0))); ("Max", (JInt (2))); ("Count", (JInt (3)))])]].
Proof. vm_compute. reflexivity. Qed.

(** Aggregate functions: min max on strings: SELECT min(item=_value) AS Min, max(item=_value) AS Max, count() AS Count FROM foreach(row=["AAA", "BBBB", "CCC"]) GROUP BY 1 *)
Example golden_m037 : golden
  [SQuery "" (Select false [("Min", (CExpr (ESym 2 false ["min"] true [("item", (AExpr (ESym 1 false ["_value"] false [])))]))); ("Max", (CExpr (ESym 4 false ["max"] true [("item", (AExpr (ESym 3 false ["_value"] false [])))]))); ("Count", (CExpr (ESym 5 false ["count"] true [])))] (Plugin ["foreach"] true [("row", (AArray (EComma (ELit (VStr "AAA")) [Some (ELit (VStr "BBBB")); Some (ELit (VStr "CCC"))])))]) None (Some (ELit (vint (1)))) None None)]
  [[(JObj [("Min", (JStr "AAA")); ("Max", (JStr "CCC")); ("Count", (JInt (3)))])]].
Proof. vm_compute. reflexivity. Qed.

(** Aggregate functions keep state per unique instance: SELECT count() AS A, count() AS B FROM foreach(row=[0, 1, 2]) *)
Example golden_m038 : golden
  [SQuery "" (Select false [("A", (CExpr (ESym 1 false ["count"] true []))); ("B", (CExpr (ESym 2 false ["count"] true [])))] (Plugin ["foreach"] true [("row", (AArray (EComma (ELit (vint (0))) [Some (ELit (vint (1))); Some (ELit (vint (2)))])))]) None None None None)]
  [[(JObj [("A", (JInt (1))); ("B", (JInt (1)))]); (JObj [("A", (JInt (2))); ("B", (JInt (2)))]); (JObj [("A", (JInt (3))); ("B", (JInt (3)))])]].
Proof. vm_compute. reflexivity. Qed.

(** Aggregate functions within a VQL function have their own state: LET Adder(X) = SELECT *, count() AS Count FROM range(start=10, end=10 + X, step=1) SELECT Adder(X=4), Adder(X=2) FROM scope() *)
Example golden_m039 : golden
  [SLet "Adder" [("X", None)] true (LSelect (Select true [("Count", (CExpr (ESym 1 false ["count"] true [])))] (Plugin ["range"] true [("start", (AExpr (ELit (vint (10))))); ("end", (AExpr (EAdd (ELit (vint (10))) [("+", (ESym 2 false ["X"] false []))]))); ("step", (AExpr (ELit (vint (1)))))]) None None None None));
   SQuery "" (Select false [("Adder(X=4)", (CExpr (ESym 3 false ["Adder"] true [("X", (AExpr (ELit (vint (4)))))]))); ("Adder(X=2)", (CExpr (ESym 4 false ["Adder"] true [("X", (AExpr (ELit (vint (2)))))])))] (Plugin ["scope"] true []) None None None None)]
  [[(JObj [("Adder(X=4)", (JArr [(JObj [("value", (JInt (10))); ("Count", (JInt (1)))]); (JObj [("value", (JInt (11))); ("Count", (JInt (2)))]); (JObj [("value", (JInt (12))); ("Count", (JInt (3)))]); (JObj [("value", (JInt (13))); ("Count", (JInt (4)))]); (JObj [("value", (JInt (14))); ("Count", (JInt (5)))])])); ("Adder(X=2)", (JArr [(JObj [("value", (JInt (10))); ("Count", (JInt (1)))]); (JObj [("value", (JInt (11))); ("Count", (JInt (2)))]); (JObj [("value", (JInt (12))); ("Count", (JInt (3)))])]))])]].
Proof. vm_compute. reflexivity. Qed.

(** Aggregate functions within a VQL function have their own state: LET Adder(X) = SELECT *, count() AS Count FROM range(start=10, end=10 + X, step=1) SELECT * FROM foreach(row={ SELECT value FROM range(start=0, end=2, step=1) }, query={ SELECT * FROM Adder(X=value) }) *)
Example golden_m040 : golden
  [SLet "Adder" [("X", None)] true (LSelect (Select true [("Count", (CExpr (ESym 1 false ["count"] true [])))] (Plugin ["range"] true [("start", (AExpr (ELit (vint (10))))); ("end", (AExpr (EAdd (ELit (vint (10))) [("+", (ESym 2 false ["X"] false []))]))); ("step", (AExpr (ELit (vint (1)))))]) None None None None));
   SQuery "" (Select true [] (Plugin ["foreach"] true [("row", (ASelect (Select false [("value", (CExpr (ESym 3 false ["value"] false [])))] (Plugin ["range"] true [("start", (AExpr (ELit (vint (0))))); ("end", (AExpr (ELit (vint (2))))); ("step", (AExpr (ELit (vint (1)))))]) None None None None))); ("query", (ASelect (Select true [] (Plugin ["Adder"] true [("X", (AExpr (ESym 4 false ["value"] false [])))]) None None None None)))]) None None None None)]
  [[(JObj [("value", (JInt (10))); ("Count", (JInt (1)))]); (JObj [("value", (JInt (10))); ("Count", (JInt (1)))]); (JObj [("value", (JInt (11))); ("Count", (JInt (2)))]); (JObj [("value", (JInt (10))); ("Count", (JInt (1)))]); (JObj [("value", (JInt (11))); ("Count", (JInt (2)))]); (JObj [("value", (JInt (12))); ("Count", (JInt (3)))])]].
Proof. vm_compute. reflexivity. Qed.

(** Aggregate functions: Sum and Count together: LET MyValue <= "Hello" SELECT * FROM foreach(row=[2, 3, 4], query={ SELECT count() AS Count, sum(item=_value) AS Sum, MyValue FROM scope() }) *)
Example golden_m041 : golden
  [SLet "MyValue" [] false (LExpr (ELit (VStr "Hello")));
   SQuery "" (Select true [] (Plugin ["foreach"] true [("row", (AArray (EComma (ELit (vint (2))) [Some (ELit (vint (3))); Some (ELit (vint (4)))]))); ("query", (ASelect (Select false [("Count", (CExpr (ESym 1 false ["count"] true []))); ("Sum", (CExpr (ESym 3 false ["sum"] true [("item", (AExpr (ESym 2 false ["_value"] false [])))]))); ("MyValue", (CExpr (ESym 4 false ["MyValue"] false [])))] (Plugin ["scope"] true []) None None None None)))]) None None None None)]
  [[(JObj [("Count", (JInt (1))); ("Sum", (JInt (2))); ("MyValue", (JStr "Hello"))]); (JObj [("Count", (JInt (2))); ("Sum", (JInt (5))); ("MyValue", (JStr "Hello"))]); (JObj [("Count", (JInt (3))); ("Sum", (JInt (9))); ("MyValue", (JStr "Hello"))])]].
Proof. vm_compute. reflexivity. Qed.

(** Aggregate functions: Sum and Count in stored query definition: LET MyValue <= "Hello" LET CountMe(Value) = SELECT count() AS Count, Value, sum(item=Value) AS Sum, MyValue FROM scope() LET _value = 10 SELECT * FROM foreach(row=[2, 3, 4], query={ SELECT * FROM CountMe(Value=_value) }) *)
Example golden_m042 : golden
  [SLet "MyValue" [] false (LExpr (ELit (VStr "Hello")));
   SLet "CountMe" [("Value", None)] true (LSelect (Select false [("Count", (CExpr (ESym 1 false ["count"] true []))); ("Value", (CExpr (ESym 2 false ["Value"] false []))); ("Sum", (CExpr (ESym 4 false ["sum"] true [("item", (AExpr (ESym 3 false ["Value"] false [])))]))); ("MyValue", (CExpr (ESym 5 false ["MyValue"] false [])))] (Plugin ["scope"] true []) None None None None));
   SLet "_value" [] true (LExpr (ELit (vint (10))));
   SQuery "" (Select true [] (Plugin ["foreach"] true [("row", (AArray (EComma (ELit (vint (2))) [Some (ELit (vint (3))); Some (ELit (vint (4)))]))); ("query", (ASelect (Select true [] (Plugin ["CountMe"] true [("Value", (AExpr (ESym 6 false ["_value"] false [])))]) None None None None)))]) None None None None)]
  [[(JObj [("Count", (JInt (1))); ("Value", (JInt (2))); ("Sum", (JInt (2))); ("MyValue", (JStr "Hello"))]); (JObj [("Count", (JInt (1))); ("Value", (JInt (3))); ("Sum", (JInt (3))); ("MyValue", (JStr "Hello"))]); (JObj [("Count", (JInt (1))); ("Value", (JInt (4))); ("Sum", (JInt (4))); ("MyValue", (JStr "Hello"))])]].
Proof. vm_compute. reflexivity. Qed.

(** Aggregate functions: Sum and Count in stored query definition: LET MyValue <= "Hello" LET CountMe(Value) = SELECT count() AS Count, Value, sum(item=Value) AS Sum, MyValue FROM scope() LET _value = 10 SELECT * FROM foreach(row=[2, 3, 4], query=CountMe(Value=_value)) *)
Example golden_m043 : golden
  [SLet "MyValue" [] false (LExpr (ELit (VStr "Hello")));
   SLet "CountMe" [("Value", None)] true (LSelect (Select false [("Count", (CExpr (ESym 1 false ["count"] true []))); ("Value", (CExpr (ESym 2 false ["Value"] false []))); ("Sum", (CExpr (ESym 4 false ["sum"] true [("item", (AExpr (ESym 3 false ["Value"] false [])))]))); ("MyValue", (CExpr (ESym 5 false ["MyValue"] false [])))] (Plugin ["scope"] true []) None None None None));
   SLet "_value" [] true (LExpr (ELit (vint (10))));
   SQuery "" (Select true [] (Plugin ["foreach"] true [("row", (AArray (EComma (ELit (vint (2))) [Some (ELit (vint (3))); Some (ELit (vint (4)))]))); ("query", (AExpr (ESym 7 false ["CountMe"] true [("Value", (AExpr (ESym 6 false ["_value"] false [])))])))]) None None None None)]
  [[(JObj [("Count", (JInt (1))); ("Value", (JInt (10))); ("Sum", (JInt (10))); ("MyValue", (JStr "Hello"))]); (JObj [("Count", (JInt (2))); ("Value", (JInt (10))); ("Sum", (JInt (20))); ("MyValue", (JStr "Hello"))]); (JObj [("Count", (JInt (3))); ("Value", (JInt (10))); ("Sum", (JInt (30))); ("MyValue", (JStr "Hello"))])]].
Proof. vm_compute. reflexivity. Qed.

(** Aggregate functions: Sum all rows: SELECT sum(item=_value) AS Total, sum(item=_value * 2) AS TotalDouble FROM foreach(row=[2, 3, 4]) GROUP BY 1 *)
Example golden_m044 : golden
  [SQuery "" (Select false [("Total", (CExpr (ESym 2 false ["sum"] true [("item", (AExpr (ESym 1 false ["_value"] false [])))]))); ("TotalDouble", (CExpr (ESym 4 false ["sum"] true [("item", (AExpr (EMul (ESym 3 false ["_value"] false []) [("*", (ELit (vint (2))))])))])))] (Plugin ["foreach"] true [("row", (AArray (EComma (ELit (vint (2))) [Some (ELit (vint (3))); Some (ELit (vint (4)))])))]) None (Some (ELit (vint (1)))) None None)]
  [[(JObj [("Total", (JInt (9))); ("TotalDouble", (JInt (18)))])]].
Proof. vm_compute. reflexivity. Qed.

(** If function with subqueries: LET abc(a) = if(condition=a, then={ SELECT a AS Pass FROM scope() }, else={ SELECT false AS Pass FROM scope() }) SELECT abc(a=TRUE) AS Pass FROM scope() *)
Example golden_m046 : golden
  [SLet "abc" [("a", None)] true (LExpr (ESym 3 false ["if"] true [("condition", (AExpr (ESym 1 false ["a"] false []))); ("then", (ASelect (Select false [("Pass", (CExpr (ESym 2 false ["a"] false [])))] (Plugin ["scope"] true []) None None None None))); ("else", (ASelect (Select false [("Pass", (CExpr (ELit (VBool false))))] (Plugin ["scope"] true []) None None None None)))]));
   SQuery "" (Select false [("Pass", (CExpr (ESym 4 false ["abc"] true [("a", (AExpr (ELit (VBool true))))])))] (Plugin ["scope"] true []) None None None None)]
  [[(JObj [("Pass", (JArr [(JObj [("Pass", JNull)])]))])]].
Proof. vm_compute. reflexivity. Qed.

(** If function with conditions as subqueries: LET abc(a) = if(condition={ SELECT * FROM scope() }, then={ SELECT a AS Pass FROM scope() }, else={ SELECT false AS Pass FROM scope() }) SELECT abc(a=TRUE) AS Pass FROM scope() *)
Example golden_m049 : golden
  [SLet "abc" [("a", None)] true (LExpr (ESym 2 false ["if"] true [("condition", (ASelect (Select true [] (Plugin ["scope"] true []) None None None None))); ("then", (ASelect (Select false [("Pass", (CExpr (ESym 1 false ["a"] false [])))] (Plugin ["scope"] true []) None None None None))); ("else", (ASelect (Select false [("Pass", (CExpr (ELit (VBool false))))] (Plugin ["scope"] true []) None None None None)))]));
   SQuery "" (Select false [("Pass", (CExpr (ESym 3 false ["abc"] true [("a", (AExpr (ELit (VBool true))))])))] (Plugin ["scope"] true []) None None None None)]
  [[(JObj [("Pass", (JArr [(JObj [("Pass", JNull)])]))])]].
Proof. vm_compute. reflexivity. Qed.

(** If function with conditions as stored query: LET stored_query = SELECT * FROM scope() LET abc(a) = if(condition=stored_query, then={ SELECT a AS Pass FROM scope() }, else={ SELECT false AS Pass FROM scope() }) SELECT abc(a=TRUE) AS Pass FROM scope() *)
Example golden_m050 : golden
  [SLet "stored_query" [] true (LSelect (Select true [] (Plugin ["scope"] true []) None None None None));
   SLet "abc" [("a", None)] true (LExpr (ESym 3 false ["if"] true [("condition", (AExpr (ESym 1 false ["stored_query"] false []))); ("then", (ASelect (Select false [("Pass", (CExpr (ESym 2 false ["a"] false [])))] (Plugin ["scope"] true []) None None None None))); ("else", (ASelect (Select false [("Pass", (CExpr (ELit (VBool false))))] (Plugin ["scope"] true []) None None None None)))]));
   SQuery "" (Select false [("Pass", (CExpr (ESym 4 false ["abc"] true [("a", (AExpr (ELit (VBool true))))])))] (Plugin ["scope"] true []) None None None None)]
  [[(JObj [("Pass", (JArr [(JObj [("Pass", JNull)])]))])]].
Proof. vm_compute. reflexivity. Qed.

(** If function with conditions as vql functions: LET adder(a) = a =~ "Foo" LET abc(a) = if(condition=adder(a="Foobar"), then={ SELECT a AS Pass FROM scope() }, else={ SELECT false AS Pass FROM scope() }) SELECT abc(a=TRUE) AS Pass FROM scope() *)
Example golden_m051 : golden
  [SLet "adder" [("a", None)] true (LExpr (ECmp (ESym 1 false ["a"] false []) OpMatch (ELit (VStr "Foo"))));
   SLet "abc" [("a", None)] true (LExpr (ESym 4 false ["if"] true [("condition", (AExpr (ESym 2 false ["adder"] true [("a", (AExpr (ELit (VStr "Foobar"))))]))); ("then", (ASelect (Select false [("Pass", (CExpr (ESym 3 false ["a"] false [])))] (Plugin ["scope"] true []) None None None None))); ("else", (ASelect (Select false [("Pass", (CExpr (ELit (VBool false))))] (Plugin ["scope"] true []) None None None None)))]));
   SQuery "" (Select false [("Pass", (CExpr (ESym 5 false ["abc"] true [("a", (AExpr (ELit (VBool true))))])))] (Plugin ["scope"] true []) None None None None)]
  [[(JObj [("Pass", (JArr [(JObj [("Pass", JNull)])]))])]].
Proof. vm_compute. reflexivity. Qed.

(** Multiline string constants: LET X = '''This is a multiline with 'quotes' and "double quotes" and \ backslashes ''' + "A string" SELECT X FROM scope() *)
Example golden_m052 : golden
  [SLet "X" [] true (LExpr (EAdd (ELit (VStr "This
is
a
multiline with 'quotes' and ""double quotes"" and \ backslashes
")) [("+", (ELit (VStr "A string")))]));
   SQuery "" (Select false [("X", (CExpr (ESym 1 false ["X"] false [])))] (Plugin ["scope"] true []) None None None None)]
  [[(JObj [("X", (JStr "This
is
a
multiline with 'quotes' and ""double quotes"" and \ backslashes
A string"))])]].
Proof. vm_compute. reflexivity. Qed.

(** Expand stored query with parameters on associative: LET X(Y) = SELECT Y + 5 + value AS Foo FROM range(start=1, end=2) SELECT X(Y=2).Foo FROM scope() *)
Example golden_m056 : golden
  [SLet "X" [("Y", None)] true (LSelect (Select false [("Foo", (CExpr (EAdd (ESym 1 false ["Y"] false []) [("+", (ELit (vint (5)))); ("+", (ESym 2 false ["value"] false []))])))] (Plugin ["range"] true [("start", (AExpr (ELit (vint (1))))); ("end", (AExpr (ELit (vint (2)))))]) None None None None));
   SQuery "" (Select false [("X(Y=2).Foo", (CExpr (EMember (ESym 3 false ["X"] true [("Y", (AExpr (ELit (vint (2)))))]) [MField "Foo"])))] (Plugin ["scope"] true []) None None None None)]
  [[(JObj [("X(Y=2).Foo", (JArr [(JInt (8)); (JInt (9))]))])]].
Proof. vm_compute. reflexivity. Qed.

(** Order by: SELECT * FROM foreach(row=(1, 8, 3, 2), query={ SELECT _value AS X FROM scope() }) ORDER BY X *)
Example golden_m057 : golden
  [SQuery "" (Select true [] (Plugin ["foreach"] true [("row", (AExpr (EComma (ELit (vint (1))) [Some (ELit (vint (8))); Some (ELit (vint (3))); Some (ELit (vint (2)))]))); ("query", (ASelect (Select false [("X", (CExpr (ESym 1 false ["_value"] false [])))] (Plugin ["scope"] true []) None None None None)))]) None None (Some ("X", false)) None)]
  [[(JObj [("X", (JInt (1)))]); (JObj [("X", (JInt (2)))]); (JObj [("X", (JInt (3)))]); (JObj [("X", (JInt (8)))])]].
Proof. vm_compute. reflexivity. Qed.

(** Group by also orders: SELECT * FROM foreach(row=(1, 1, 1, 1, 8, 3, 3, 3, 2), query={ SELECT _value AS X FROM scope() }) GROUP BY X *)
Example golden_m058 : golden
  [SQuery "" (Select true [] (Plugin ["foreach"] true [("row", (AExpr (EComma (ELit (vint (1))) [Some (ELit (vint (1))); Some (ELit (vint (1))); Some (ELit (vint (1))); Some (ELit (vint (8))); Some (ELit (vint (3))); Some (ELit (vint (3))); Some (ELit (vint (3))); Some (ELit (vint (2)))]))); ("query", (ASelect (Select false [("X", (CExpr (ESym 1 false ["_value"] false [])))] (Plugin ["scope"] true []) None None None None)))]) None (Some (ESym 2 false ["X"] false [])) None None)]
  [[(JObj [("X", (JInt (1)))]); (JObj [("X", (JInt (8)))]); (JObj [("X", (JInt (3)))]); (JObj [("X", (JInt (2)))])]].
Proof. vm_compute. reflexivity. Qed.

(** Group by with explicit order by: SELECT * FROM foreach(row=(1, 1, 1, 1, 8, 3, 3, 3, 2), query={ SELECT _value AS X, 10 - _value AS Y FROM scope() }) GROUP BY X ORDER BY Y *)
Example golden_m059 : golden
  [SQuery "" (Select true [] (Plugin ["foreach"] true [("row", (AExpr (EComma (ELit (vint (1))) [Some (ELit (vint (1))); Some (ELit (vint (1))); Some (ELit (vint (1))); Some (ELit (vint (8))); Some (ELit (vint (3))); Some (ELit (vint (3))); Some (ELit (vint (3))); Some (ELit (vint (2)))]))); ("query", (ASelect (Select false [("X", (CExpr (ESym 1 false ["_value"] false []))); ("Y", (CExpr (EAdd (ELit (vint (10))) [("-", (ESym 2 false ["_value"] false []))])))] (Plugin ["scope"] true []) None None None None)))]) None (Some (ESym 3 false ["X"] false [])) (Some ("Y", false)) None)]
  [[(JObj [("X", (JInt (8))); ("Y", (JInt (2)))]); (JObj [("X", (JInt (3))); ("Y", (JInt (7)))]); (JObj [("X", (JInt (2))); ("Y", (JInt (8)))]); (JObj [("X", (JInt (1))); ("Y", (JInt (9)))])]].
Proof. vm_compute. reflexivity. Qed.

(** Test array index: LET BIN <= SELECT * FROM test() SELECT BIN, BIN[0] FROM scope() *)
Example golden_m060 : golden
  [SLet "BIN" [] false (LSelect (Select true [] (Plugin ["test"] true []) None None None None));
   SQuery "" (Select false [("BIN", (CExpr (ESym 1 false ["BIN"] false []))); ("BIN[0]", (CExpr (EMember (ESym 2 false ["BIN"] false []) [MIndex (ELit (vint (0)))])))] (Plugin ["scope"] true []) None None None None)]
  [[(JObj [("BIN", (JArr [(JObj [("foo", (JInt (0))); ("bar", (JInt (0)))]); (JObj [("foo", (JInt (2))); ("bar", (JInt (1)))]); (JObj [("foo", (JInt (4))); ("bar", (JInt (2)))])])); ("BIN[0]", (JObj [("foo", (JInt (0))); ("bar", (JInt (0)))]))])]].
Proof. vm_compute. reflexivity. Qed.

(** Test array index with expression: LET Index(X) = X - 1 LET BIN <= SELECT * FROM test() SELECT BIN, BIN[Index(X=2)] FROM scope() SELECT BIN, BIN[Index(X=0)] FROM scope() *)
Example golden_m061 : golden
  [SLet "Index" [("X", None)] true (LExpr (EAdd (ESym 1 false ["X"] false []) [("-", (ELit (vint (1))))]));
   SLet "BIN" [] false (LSelect (Select true [] (Plugin ["test"] true []) None None None None));
   SQuery "" (Select false [("BIN", (CExpr (ESym 2 false ["BIN"] false []))); ("BIN[Index(X=2)]", (CExpr (EMember (ESym 3 false ["BIN"] false []) [MIndex (ESym 4 false ["Index"] true [("X", (AExpr (ELit (vint (2)))))])])))] (Plugin ["scope"] true []) None None None None);
   SQuery "" (Select false [("BIN", (CExpr (ESym 5 false ["BIN"] false []))); ("BIN[Index(X=0)]", (CExpr (EMember (ESym 6 false ["BIN"] false []) [MIndex (ESym 7 false ["Index"] true [("X", (AExpr (ELit (vint (0)))))])])))] (Plugin ["scope"] true []) None None None None)]
  [[(JObj [("BIN", (JArr [(JObj [("foo", (JInt (0))); ("bar", (JInt (0)))]); (JObj [("foo", (JInt (2))); ("bar", (JInt (1)))]); (JObj [("foo", (JInt (4))); ("bar", (JInt (2)))])])); ("BIN[Index(X=2)]", (JObj [("foo", (JInt (2))); ("bar", (JInt (1)))]))])];
   [(JObj [("BIN", (JArr [(JObj [("foo", (JInt (0))); ("bar", (JInt (0)))]); (JObj [("foo", (JInt (2))); ("bar", (JInt (1)))]); (JObj [("foo", (JInt (4))); ("bar", (JInt (2)))])])); ("BIN[Index(X=0)]", (JObj [("foo", (JInt (4))); ("bar", (JInt (2)))]))])]].
Proof. vm_compute. reflexivity. Qed.

(** Create Let expression: LET result = SELECT * FROM test() LET result <= SELECT * FROM test() SELECT * FROM result SELECT * FROM no_such_result SELECT foobar FROM no_such_result *)
Example golden_m062 : golden
  [SLet "result" [] true (LSelect (Select true [] (Plugin ["test"] true []) None None None None));
   SLet "result" [] false (LSelect (Select true [] (Plugin ["test"] true []) None None None None));
   SQuery "" (Select true [] (Plugin ["result"] false []) None None None None);
   SQuery "" (Select true [] (Plugin ["no_such_result"] false []) None None None None);
   SQuery "" (Select false [("foobar", (CExpr (ESym 1 false ["foobar"] false [])))] (Plugin ["no_such_result"] false []) None None None None)]
  [[(JObj [("foo", (JInt (0))); ("bar", (JInt (0)))]); (JObj [("foo", (JInt (2))); ("bar", (JInt (1)))]); (JObj [("foo", (JInt (4))); ("bar", (JInt (2)))])];
   [];
   []].
Proof. vm_compute. reflexivity. Qed.

(** Stored Expressions as plugins: LET Foo = (dict(X=1), dict(X=2), dict(X=3)) SELECT * FROM Foo *)
Example golden_m064 : golden
  [SLet "Foo" [] true (LExpr (EComma (ESym 1 false ["dict"] true [("X", (AExpr (ELit (vint (1)))))]) [Some (ESym 2 false ["dict"] true [("X", (AExpr (ELit (vint (2)))))]); Some (ESym 3 false ["dict"] true [("X", (AExpr (ELit (vint (3)))))])]));
   SQuery "" (Select true [] (Plugin ["Foo"] false []) None None None None)]
  [[(JObj [("X", (JInt (1)))]); (JObj [("X", (JInt (2)))]); (JObj [("X", (JInt (3)))])]].
Proof. vm_compute. reflexivity. Qed.

(** Materialized Expressions as plugins: LET Foo <= (dict(X=1), dict(X=2), dict(X=3)) SELECT * FROM Foo *)
Example golden_m065 : golden
  [SLet "Foo" [] false (LExpr (EComma (ESym 1 false ["dict"] true [("X", (AExpr (ELit (vint (1)))))]) [Some (ESym 2 false ["dict"] true [("X", (AExpr (ELit (vint (2)))))]); Some (ESym 3 false ["dict"] true [("X", (AExpr (ELit (vint (3)))))])]));
   SQuery "" (Select true [] (Plugin ["Foo"] false []) None None None None)]
  [[(JObj [("X", (JInt (1)))]); (JObj [("X", (JInt (2)))]); (JObj [("X", (JInt (3)))])]].
Proof. vm_compute. reflexivity. Qed.

(** Stored Expressions as plugins with args: LET Foo(X) = (dict(X=1 + X), dict(X=2 + X), dict(X=3 + X)) SELECT * FROM Foo(X=1) *)
Example golden_m066 : golden
  [SLet "Foo" [("X", None)] true (LExpr (EComma (ESym 2 false ["dict"] true [("X", (AExpr (EAdd (ELit (vint (1))) [("+", (ESym 1 false ["X"] false []))])))]) [Some (ESym 4 false ["dict"] true [("X", (AExpr (EAdd (ELit (vint (2))) [("+", (ESym 3 false ["X"] false []))])))]); Some (ESym 6 false ["dict"] true [("X", (AExpr (EAdd (ELit (vint (3))) [("+", (ESym 5 false ["X"] false []))])))])]));
   SQuery "" (Select true [] (Plugin ["Foo"] true [("X", (AExpr (ELit (vint (1)))))]) None None None None)]
  [[(JObj [("X", (JInt (2)))]); (JObj [("X", (JInt (3)))]); (JObj [("X", (JInt (4)))])]].
Proof. vm_compute. reflexivity. Qed.

(** Slice Range: LET X <= (0, 1, 2, 3, 4, 5, 6, 7) SELECT X[2:], X[2:4], X[:2], X[-1], X[-2], X[-2:], X[2:-1] FROM scope() *)
Example golden_m067 : golden
  [SLet "X" [] false (LExpr (EComma (ELit (vint (0))) [Some (ELit (vint (1))); Some (ELit (vint (2))); Some (ELit (vint (3))); Some (ELit (vint (4))); Some (ELit (vint (5))); Some (ELit (vint (6))); Some (ELit (vint (7)))]));
   SQuery "" (Select false [("X[2:]", (CExpr (EMember (ESym 1 false ["X"] false []) [MRange (Some (ELit (vint (2)))) None]))); ("X[2:4]", (CExpr (EMember (ESym 2 false ["X"] false []) [MRange (Some (ELit (vint (2)))) (Some (ELit (vint (4))))]))); ("X[:2]", (CExpr (EMember (ESym 3 false ["X"] false []) [MRange None (Some (ELit (vint (2))))]))); ("X[-1]", (CExpr (EMember (ESym 4 false ["X"] false []) [MIndex (ELit (vint (-1)))]))); ("X[-2]", (CExpr (EMember (ESym 5 false ["X"] false []) [MIndex (ELit (vint (-2)))]))); ("X[-2:]", (CExpr (EMember (ESym 6 false ["X"] false []) [MRange (Some (ELit (vint (-2)))) None]))); ("X[2:-1]", (CExpr (EMember (ESym 7 false ["X"] false []) [MRange (Some (ELit (vint (2)))) (Some (ELit (vint (-1))))])))] (Plugin ["scope"] true []) None None None None)]
  [[(JObj [("X[2:]", (JArr [(JInt (2)); (JInt (3)); (JInt (4)); (JInt (5)); (JInt (6)); (JInt (7))])); ("X[2:4]", (JArr [(JInt (2)); (JInt (3))])); ("X[:2]", (JArr [(JInt (0)); (JInt (1))])); ("X[-1]", (JInt (7))); ("X[-2]", (JInt (6))); ("X[-2:]", (JArr [(JInt (6)); (JInt (7))])); ("X[2:-1]", (JArr [(JInt (2)); (JInt (3)); (JInt (4)); (JInt (5)); (JInt (6))]))])]].
Proof. vm_compute. reflexivity. Qed.

(** Slice Strings: LET X = "Hello World" SELECT X[1:5], X[-5:], X[:5], X[5:2], X[5:5] FROM scope() *)
Example golden_m068 : golden
  [SLet "X" [] true (LExpr (ELit (VStr "Hello World")));
   SQuery "" (Select false [("X[1:5]", (CExpr (EMember (ESym 1 false ["X"] false []) [MRange (Some (ELit (vint (1)))) (Some (ELit (vint (5))))]))); ("X[-5:]", (CExpr (EMember (ESym 2 false ["X"] false []) [MRange (Some (ELit (vint (-5)))) None]))); ("X[:5]", (CExpr (EMember (ESym 3 false ["X"] false []) [MRange None (Some (ELit (vint (5))))]))); ("X[5:2]", (CExpr (EMember (ESym 4 false ["X"] false []) [MRange (Some (ELit (vint (5)))) (Some (ELit (vint (2))))]))); ("X[5:5]", (CExpr (EMember (ESym 5 false ["X"] false []) [MRange (Some (ELit (vint (5)))) (Some (ELit (vint (5))))])))] (Plugin ["scope"] true []) None None None None)]
  [[(JObj [("X[1:5]", (JStr "ello")); ("X[-5:]", (JStr "World")); ("X[:5]", (JStr "Hello")); ("X[5:2]", (JStr "")); ("X[5:5]", (JStr ""))])]].
Proof. vm_compute. reflexivity. Qed.

(** VQL Functions can access global scope: LET Foo = "Hello" LET MyFunc(X) = SELECT X, Foo FROM scope() SELECT * FROM MyFunc(X=1) *)
Example golden_m072 : golden
  [SLet "Foo" [] true (LExpr (ELit (VStr "Hello")));
   SLet "MyFunc" [("X", None)] true (LSelect (Select false [("X", (CExpr (ESym 1 false ["X"] false []))); ("Foo", (CExpr (ESym 2 false ["Foo"] false [])))] (Plugin ["scope"] true []) None None None None));
   SQuery "" (Select true [] (Plugin ["MyFunc"] true [("X", (AExpr (ELit (vint (1)))))]) None None None None)]
  [[(JObj [("X", (JInt (1))); ("Foo", (JStr "Hello"))])]].
Proof. vm_compute. reflexivity. Qed.

(** Function returning array: SELECT func_foo(return=ArrayValue) FROM scope() *)
Example golden_m073 : golden
  [SQuery "" (Select false [("func_foo(return=ArrayValue)", (CExpr (ESym 2 false ["func_foo"] true [("return", (AExpr (ESym 1 false ["ArrayValue"] false [])))])))] (Plugin ["scope"] true []) None None None None)]
  [[(JObj [("func_foo(return=ArrayValue)", (JArr [(JInt (1)); (JInt (2)); (JInt (3))]))])]].
Proof. vm_compute. reflexivity. Qed.

(** If function with stored query: LET FooBar = SELECT "A" FROM scope() LET B = SELECT if(condition=TRUE, then=FooBar) AS Item FROM scope() SELECT B, FooBar FROM scope() *)
Example golden_m074 : golden
  [SLet "FooBar" [] true (LSelect (Select false [("""A""", (CExpr (ELit (VStr "A"))))] (Plugin ["scope"] true []) None None None None));
   SLet "B" [] true (LSelect (Select false [("Item", (CExpr (ESym 2 false ["if"] true [("condition", (AExpr (ELit (VBool true)))); ("then", (AExpr (ESym 1 false ["FooBar"] false [])))])))] (Plugin ["scope"] true []) None None None None));
   SQuery "" (Select false [("B", (CExpr (ESym 3 false ["B"] false []))); ("FooBar", (CExpr (ESym 4 false ["FooBar"] false [])))] (Plugin ["scope"] true []) None None None None)]
  [[(JObj [("B", (JArr [(JObj [("Item", (JArr [(JObj [("""A""", (JStr "A"))])]))])])); ("FooBar", (JArr [(JObj [("""A""", (JStr "A"))])]))])]].
Proof. vm_compute. reflexivity. Qed.

(** Flatten query: SELECT * FROM flatten(query={ SELECT 1 AS A, (1, 2) AS B FROM scope() }) *)
Example golden_m076 : golden
  [SQuery "" (Select true [] (Plugin ["flatten"] true [("query", (ASelect (Select false [("A", (CExpr (ELit (vint (1))))); ("B", (CExpr (EComma (ELit (vint (1))) [Some (ELit (vint (2)))])))] (Plugin ["scope"] true []) None None None None)))]) None None None None)]
  [[(JObj [("A", (JInt (1))); ("B", (JInt (1)))]); (JObj [("A", (JInt (1))); ("B", (JInt (2)))])]].
Proof. vm_compute. reflexivity. Qed.

(** Flatten query cartesian with 2 lists: SELECT * FROM flatten(query={ SELECT (3, 4) AS A, (1, 2) AS B FROM scope() }) *)
Example golden_m077 : golden
  [SQuery "" (Select true [] (Plugin ["flatten"] true [("query", (ASelect (Select false [("A", (CExpr (EComma (ELit (vint (3))) [Some (ELit (vint (4)))]))); ("B", (CExpr (EComma (ELit (vint (1))) [Some (ELit (vint (2)))])))] (Plugin ["scope"] true []) None None None None)))]) None None None None)]
  [[(JObj [("A", (JInt (3))); ("B", (JInt (1)))]); (JObj [("A", (JInt (4))); ("B", (JInt (1)))]); (JObj [("A", (JInt (3))); ("B", (JInt (2)))]); (JObj [("A", (JInt (4))); ("B", (JInt (2)))])]].
Proof. vm_compute. reflexivity. Qed.

(** Flatten query empty list: LET FOO <= SELECT * FROM scope() WHERE FALSE SELECT * FROM flatten(query={ SELECT 1 AS A, FOO, (1, 2) AS B FROM scope() }) *)
Example golden_m078 : golden
  [SLet "FOO" [] false (LSelect (Select true [] (Plugin ["scope"] true []) (Some (ELit (VBool false))) None None None));
   SQuery "" (Select true [] (Plugin ["flatten"] true [("query", (ASelect (Select false [("A", (CExpr (ELit (vint (1))))); ("FOO", (CExpr (ESym 1 false ["FOO"] false []))); ("B", (CExpr (EComma (ELit (vint (1))) [Some (ELit (vint (2)))])))] (Plugin ["scope"] true []) None None None None)))]) None None None None)]
  [[(JObj [("A", (JInt (1))); ("FOO", (JArr [])); ("B", (JInt (1)))]); (JObj [("A", (JInt (1))); ("FOO", (JArr [])); ("B", (JInt (2)))])]].
Proof. vm_compute. reflexivity. Qed.

(** Flatten dict query: SELECT * FROM flatten(query={ SELECT 1 AS A, dict(E=1, F=2) AS B FROM scope() }) *)
Example golden_m079 : golden
  [SQuery "" (Select true [] (Plugin ["flatten"] true [("query", (ASelect (Select false [("A", (CExpr (ELit (vint (1))))); ("B", (CExpr (ESym 1 false ["dict"] true [("E", (AExpr (ELit (vint (1))))); ("F", (AExpr (ELit (vint (2)))))])))] (Plugin ["scope"] true []) None None None None)))]) None None None None)]
  [[(JObj [("A", (JInt (1))); ("B", (JObj [("E", (JInt (1))); ("F", (JInt (2)))]))])]].
Proof. vm_compute. reflexivity. Qed.

(** Flatten subquery: SELECT * FROM flatten(query={ SELECT *, { SELECT * FROM range(start=1, end=3) } AS Count FROM foreach(row=[dict(A=1)]) }) *)
Example golden_m080 : golden
  [SQuery "" (Select true [] (Plugin ["flatten"] true [("query", (ASelect (Select true [("Count", (CSelect (Select true [] (Plugin ["range"] true [("start", (AExpr (ELit (vint (1))))); ("end", (AExpr (ELit (vint (3)))))]) None None None None)))] (Plugin ["foreach"] true [("row", (AArray (ESym 1 false ["dict"] true [("A", (AExpr (ELit (vint (1)))))])))]) None None None None)))]) None None None None)]
  [[(JObj [("A", (JInt (1))); ("Count", (JInt (1)))]); (JObj [("A", (JInt (1))); ("Count", (JInt (2)))]); (JObj [("A", (JInt (1))); ("Count", (JInt (3)))])]].
Proof. vm_compute. reflexivity. Qed.

(** Flatten stored query: LET SQ = SELECT * FROM range(start=1, end=3) SELECT * FROM flatten(query={ SELECT *, SQ FROM foreach(row=[dict(A=1)]) }) *)
Example golden_m081 : golden
  [SLet "SQ" [] true (LSelect (Select true [] (Plugin ["range"] true [("start", (AExpr (ELit (vint (1))))); ("end", (AExpr (ELit (vint (3)))))]) None None None None));
   SQuery "" (Select true [] (Plugin ["flatten"] true [("query", (ASelect (Select true [("SQ", (CExpr (ESym 1 false ["SQ"] false [])))] (Plugin ["foreach"] true [("row", (AArray (ESym 2 false ["dict"] true [("A", (AExpr (ELit (vint (1)))))])))]) None None None None)))]) None None None None)]
  [[(JObj [("A", (JInt (1))); ("SQ", (JObj [("value", (JInt (1)))]))]); (JObj [("A", (JInt (1))); ("SQ", (JObj [("value", (JInt (2)))]))]); (JObj [("A", (JInt (1))); ("SQ", (JObj [("value", (JInt (3)))]))])]].
Proof. vm_compute. reflexivity. Qed.

(** Foreach query with multiple count(): SELECT * FROM foreach(row={ SELECT count() AS RowCount FROM range(start=1, end=3) }, query={ SELECT RowCount, count() AS QueryCount, count() AS SecondQueryCount FROM range(start=1, step=1, end=3) }) *)
Example golden_m082 : golden
  [SQuery "" (Select true [] (Plugin ["foreach"] true [("row", (ASelect (Select false [("RowCount", (CExpr (ESym 1 false ["count"] true [])))] (Plugin ["range"] true [("start", (AExpr (ELit (vint (1))))); ("end", (AExpr (ELit (vint (3)))))]) None None None None))); ("query", (ASelect (Select false [("RowCount", (CExpr (ESym 2 false ["RowCount"] false []))); ("QueryCount", (CExpr (ESym 3 false ["count"] true []))); ("SecondQueryCount", (CExpr (ESym 4 false ["count"] true [])))] (Plugin ["range"] true [("start", (AExpr (ELit (vint (1))))); ("step", (AExpr (ELit (vint (1))))); ("end", (AExpr (ELit (vint (3)))))]) None None None None)))]) None None None None)]
  [[(JObj [("RowCount", (JInt (1))); ("QueryCount", (JInt (1))); ("SecondQueryCount", (JInt (1)))]); (JObj [("RowCount", (JInt (1))); ("QueryCount", (JInt (2))); ("SecondQueryCount", (JInt (2)))]); (JObj [("RowCount", (JInt (1))); ("QueryCount", (JInt (3))); ("SecondQueryCount", (JInt (3)))]); (JObj [("RowCount", (JInt (2))); ("QueryCount", (JInt (4))); ("SecondQueryCount", (JInt (4)))]); (JObj [("RowCount", (JInt (2))); ("QueryCount", (JInt (5))); ("SecondQueryCount", (JInt (5)))]); (JObj [("RowCount", (JInt (2))); ("QueryCount", (JInt (6))); ("SecondQueryCount", (JInt (6)))]); (JObj [("RowCount", (JInt (3))); ("QueryCount", (JInt (7))); ("SecondQueryCount", (JInt (7)))]); (JObj [("RowCount", (JInt (3))); ("QueryCount", (JInt (8))); ("SecondQueryCount", (JInt (8)))]); (JObj [("RowCount", (JInt (3))); ("QueryCount", (JInt (9))); ("SecondQueryCount", (JInt (9)))])]].
Proof. vm_compute. reflexivity. Qed.

(** Calling stored query with aggregators: LET Counter(Start) = SELECT count() AS Count, Start FROM range(start=1, step=1, end=3) SELECT * FROM foreach(row={ SELECT count() AS RowCount FROM range(start=1, end=3) }, query={ SELECT * FROM Counter(Start=RowCount) }) *)
Example golden_m083 : golden
  [SLet "Counter" [("Start", None)] true (LSelect (Select false [("Count", (CExpr (ESym 1 false ["count"] true []))); ("Start", (CExpr (ESym 2 false ["Start"] false [])))] (Plugin ["range"] true [("start", (AExpr (ELit (vint (1))))); ("step", (AExpr (ELit (vint (1))))); ("end", (AExpr (ELit (vint (3)))))]) None None None None));
   SQuery "" (Select true [] (Plugin ["foreach"] true [("row", (ASelect (Select false [("RowCount", (CExpr (ESym 3 false ["count"] true [])))] (Plugin ["range"] true [("start", (AExpr (ELit (vint (1))))); ("end", (AExpr (ELit (vint (3)))))]) None None None None))); ("query", (ASelect (Select true [] (Plugin ["Counter"] true [("Start", (AExpr (ESym 4 false ["RowCount"] false [])))]) None None None None)))]) None None None None)]
  [[(JObj [("Count", (JInt (1))); ("Start", (JInt (1)))]); (JObj [("Count", (JInt (2))); ("Start", (JInt (1)))]); (JObj [("Count", (JInt (3))); ("Start", (JInt (1)))]); (JObj [("Count", (JInt (1))); ("Start", (JInt (2)))]); (JObj [("Count", (JInt (2))); ("Start", (JInt (2)))]); (JObj [("Count", (JInt (3))); ("Start", (JInt (2)))]); (JObj [("Count", (JInt (1))); ("Start", (JInt (3)))]); (JObj [("Count", (JInt (2))); ("Start", (JInt (3)))]); (JObj [("Count", (JInt (3))); ("Start", (JInt (3)))])]].
Proof. vm_compute. reflexivity. Qed.

(** Test Scope Clearing: LET Data <= (dict(A=1), dict(B=2)) LET s = scope() SELECT s.A, A, s.B, B FROM Data *)
Example golden_m085 : golden
  [SLet "Data" [] false (LExpr (EComma (ESym 1 false ["dict"] true [("A", (AExpr (ELit (vint (1)))))]) [Some (ESym 2 false ["dict"] true [("B", (AExpr (ELit (vint (2)))))])]));
   SLet "s" [] true (LExpr (ESym 3 false ["scope"] true []));
   SQuery "" (Select false [("s.A", (CExpr (ESym 4 false ["s"; "A"] false []))); ("A", (CExpr (ESym 5 false ["A"] false []))); ("s.B", (CExpr (ESym 6 false ["s"; "B"] false []))); ("B", (CExpr (ESym 7 false ["B"] false [])))] (Plugin ["Data"] false []) None None None None)]
  [[(JObj [("s.A", (JInt (1))); ("A", (JInt (1))); ("s.B", JNull); ("B", JNull)]); (JObj [("s.A", JNull); ("A", JNull); ("s.B", (JInt (2))); ("B", (JInt (2)))])]].
Proof. vm_compute. reflexivity. Qed.

(** Adding Stored Query: LET X = SELECT value AS Foo FROM range(start=1, end=4) SELECT (dict(Foo=12), ) + X, X + (dict(Foo=12), ) FROM scope() *)
Example golden_m088 : golden
  [SLet "X" [] true (LSelect (Select false [("Foo", (CExpr (ESym 1 false ["value"] false [])))] (Plugin ["range"] true [("start", (AExpr (ELit (vint (1))))); ("end", (AExpr (ELit (vint (4)))))]) None None None None));
   SQuery "" (Select false [("(dict(Foo=12), ) + X", (CExpr (EAdd (EComma (ESym 2 false ["dict"] true [("Foo", (AExpr (ELit (vint (12)))))]) [None]) [("+", (ESym 3 false ["X"] false []))]))); ("X + (dict(Foo=12), )", (CExpr (EAdd (ESym 4 false ["X"] false []) [("+", (EComma (ESym 5 false ["dict"] true [("Foo", (AExpr (ELit (vint (12)))))]) [None]))])))] (Plugin ["scope"] true []) None None None None)]
  [[(JObj [("(dict(Foo=12), ) + X", (JArr [(JObj [("Foo", (JInt (12)))]); (JObj [("Foo", (JInt (1)))]); (JObj [("Foo", (JInt (2)))]); (JObj [("Foo", (JInt (3)))]); (JObj [("Foo", (JInt (4)))])])); ("X + (dict(Foo=12), )", (JArr [(JObj [("Foo", (JInt (1)))]); (JObj [("Foo", (JInt (2)))]); (JObj [("Foo", (JInt (3)))]); (JObj [("Foo", (JInt (4)))]); (JObj [("Foo", (JInt (12)))])]))])]].
Proof. vm_compute. reflexivity. Qed.

(** Adding Materialized Stored Query: LET X <= SELECT value AS Foo FROM range(start=1, end=4) SELECT (dict(Foo=12), ) + X, X + (dict(Foo=12), ) FROM scope() *)
Example golden_m089 : golden
  [SLet "X" [] false (LSelect (Select false [("Foo", (CExpr (ESym 1 false ["value"] false [])))] (Plugin ["range"] true [("start", (AExpr (ELit (vint (1))))); ("end", (AExpr (ELit (vint (4)))))]) None None None None));
   SQuery "" (Select false [("(dict(Foo=12), ) + X", (CExpr (EAdd (EComma (ESym 2 false ["dict"] true [("Foo", (AExpr (ELit (vint (12)))))]) [None]) [("+", (ESym 3 false ["X"] false []))]))); ("X + (dict(Foo=12), )", (CExpr (EAdd (ESym 4 false ["X"] false []) [("+", (EComma (ESym 5 false ["dict"] true [("Foo", (AExpr (ELit (vint (12)))))]) [None]))])))] (Plugin ["scope"] true []) None None None None)]
  [[(JObj [("(dict(Foo=12), ) + X", (JArr [(JObj [("Foo", (JInt (12)))]); (JObj [("Foo", (JInt (1)))]); (JObj [("Foo", (JInt (2)))]); (JObj [("Foo", (JInt (3)))]); (JObj [("Foo", (JInt (4)))])])); ("X + (dict(Foo=12), )", (JArr [(JObj [("Foo", (JInt (1)))]); (JObj [("Foo", (JInt (2)))]); (JObj [("Foo", (JInt (3)))]); (JObj [("Foo", (JInt (4)))]); (JObj [("Foo", (JInt (12)))])]))])]].
Proof. vm_compute. reflexivity. Qed.

(** Function definition with defaults: LET Y <= 7 LET F(X=2, Y) = X + Y SELECT F(Y=1), F(), F(X=1, Y=4) FROM scope() *)
Example golden_m090 : golden
  [SLet "Y" [] false (LExpr (ELit (vint (7))));
   SLet "F" [("X", (Some (AExpr (ELit (vint (2)))))); ("Y", None)] true (LExpr (EAdd (ESym 1 false ["X"] false []) [("+", (ESym 2 false ["Y"] false []))]));
   SQuery "" (Select false [("F(Y=1)", (CExpr (ESym 3 false ["F"] true [("Y", (AExpr (ELit (vint (1)))))]))); ("F()", (CExpr (ESym 4 false ["F"] true []))); ("F(X=1, Y=4)", (CExpr (ESym 5 false ["F"] true [("X", (AExpr (ELit (vint (1))))); ("Y", (AExpr (ELit (vint (4)))))])))] (Plugin ["scope"] true []) None None None None)]
  [[(JObj [("F(Y=1)", (JInt (3))); ("F()", (JInt (9))); ("F(X=1, Y=4)", (JInt (5)))])]].
Proof. vm_compute. reflexivity. Qed.

(** Stored Query definition with defaults: LET F(X=2, Y) = SELECT X + Y AS Total FROM scope() SELECT * FROM F(Y=1) *)
Example golden_m091 : golden
  [SLet "F" [("X", (Some (AExpr (ELit (vint (2)))))); ("Y", None)] true (LSelect (Select false [("Total", (CExpr (EAdd (ESym 1 false ["X"] false []) [("+", (ESym 2 false ["Y"] false []))])))] (Plugin ["scope"] true []) None None None None));
   SQuery "" (Select true [] (Plugin ["F"] true [("Y", (AExpr (ELit (vint (1)))))]) None None None None)]
  [[(JObj [("Total", (JInt (3)))])]].
Proof. vm_compute. reflexivity. Qed.

(** Negative: LET X <= 1 + -2 SELECT X FROM scope() *)
Example golden_m092 : golden
  [SLet "X" [] false (LExpr (EAdd (ELit (vint (1))) [("+", (ELit (vint (-2))))]));
   SQuery "" (Select false [("X", (CExpr (ESym 1 false ["X"] false [])))] (Plugin ["scope"] true []) None None None None)]
  [[(JObj [("X", (JInt (-1)))])]].
Proof. vm_compute. reflexivity. Qed.

(** Negative index: LET X <= 2 LET Bar(X) = X + 3 LET Foo <= (1, 2 + X, 3, 4 + -5) LET Float <= 12.232 LET StoredQuery = SELECT * FROM info() SELECT Foo[-2], Foo[-X], -X, -`X`, -Bar(X=3), -Float, -StoredQuery, Foo[-2:], Foo[-X:], Foo[-Bar(X=-1):] FROM scope() *)
Example golden_m093 : golden
  [SLet "X" [] false (LExpr (ELit (vint (2))));
   SLet "Bar" [("X", None)] true (LExpr (EAdd (ESym 1 false ["X"] false []) [("+", (ELit (vint (3))))]));
   SLet "Foo" [] false (LExpr (EComma (ELit (vint (1))) [Some (EAdd (ELit (vint (2))) [("+", (ESym 2 false ["X"] false []))]); Some (ELit (vint (3))); Some (EAdd (ELit (vint (4))) [("+", (ELit (vint (-5))))])]));
   SLet "Float" [] false (LExpr (ELit (VF64 (S754_finite false 6886003830249488 (-49)))));
   SLet "StoredQuery" [] true (LSelect (Select true [] (Plugin ["info"] true []) None None None None));
   SQuery "" (Select false [("Foo[-2]", (CExpr (EMember (ESym 3 false ["Foo"] false []) [MIndex (ELit (vint (-2)))]))); ("Foo[-X]", (CExpr (EMember (ESym 4 false ["Foo"] false []) [MIndex (ESym 5 true ["X"] false [])]))); ("-X", (CExpr (ESym 6 true ["X"] false []))); ("-`X`", (CExpr (ESym 7 true ["X"] false []))); ("-Bar(X=3)", (CExpr (ESym 8 true ["Bar"] true [("X", (AExpr (ELit (vint (3)))))]))); ("-Float", (CExpr (ESym 9 true ["Float"] false []))); ("-StoredQuery", (CExpr (ESym 10 true ["StoredQuery"] false []))); ("Foo[-2:]", (CExpr (EMember (ESym 11 false ["Foo"] false []) [MRange (Some (ELit (vint (-2)))) None]))); ("Foo[-X:]", (CExpr (EMember (ESym 12 false ["Foo"] false []) [MRange (Some (ESym 13 true ["X"] false [])) None]))); ("Foo[-Bar(X=-1):]", (CExpr (EMember (ESym 14 false ["Foo"] false []) [MRange (Some (ESym 15 true ["Bar"] true [("X", (AExpr (ELit (vint (-1)))))])) None])))] (Plugin ["scope"] true []) None None None None)]
  [[(JObj [("Foo[-2]", (JInt (3))); ("Foo[-X]", (JInt (3))); ("-X", (JInt (-2))); ("-`X`", (JInt (-2))); ("-Bar(X=3)", (JInt (-6))); ("-Float", (JFloat (S754_finite true 6886003830249488 (-49)))); ("-StoredQuery", JNull); ("Foo[-2:]", (JArr [(JInt (3)); (JInt (-1))])); ("Foo[-X:]", (JArr [(JInt (3)); (JInt (-1))])); ("Foo[-Bar(X=-1):]", (JArr [(JInt (3)); (JInt (-1))]))])]].
Proof. vm_compute. reflexivity. Qed.

(** query with dicts: SELECT * FROM test() *)
Example golden_s000 : golden
  [SQuery "" (Select true [] (Plugin ["test"] true []) None None None None)]
  [[(JObj [("foo", (JInt (0))); ("bar", (JInt (0)))]); (JObj [("foo", (JInt (2))); ("bar", (JInt (1)))]); (JObj [("foo", (JInt (4))); ("bar", (JInt (2)))])]].
Proof. vm_compute. reflexivity. Qed.

(** query with ints: SELECT * FROM range(start=10, end=12) *)
Example golden_s001 : golden
  [SQuery "" (Select true [] (Plugin ["range"] true [("start", (AExpr (ELit (vint (10))))); ("end", (AExpr (ELit (vint (12)))))]) None None None None)]
  [[(JObj [("value", (JInt (10)))]); (JObj [("value", (JInt (11)))]); (JObj [("value", (JInt (12)))])]].
Proof. vm_compute. reflexivity. Qed.

(** query with wild card followed by comma: SELECT *, 1 AS Extra FROM test() *)
Example golden_s002 : golden
  [SQuery "" (Select true [("Extra", (CExpr (ELit (vint (1)))))] (Plugin ["test"] true []) None None None None)]
  [[(JObj [("foo", (JInt (0))); ("bar", (JInt (0))); ("Extra", (JInt (1)))]); (JObj [("foo", (JInt (2))); ("bar", (JInt (1))); ("Extra", (JInt (1)))]); (JObj [("foo", (JInt (4))); ("bar", (JInt (2))); ("Extra", (JInt (1)))])]].
Proof. vm_compute. reflexivity. Qed.

(** aliases with shadowed var: SELECT env_var AS EnvVar, foo AS FooColumn FROM test() *)
Example golden_s003 : golden
  [SQuery "" (Select false [("EnvVar", (CExpr (ESym 1 false ["env_var"] false []))); ("FooColumn", (CExpr (ESym 2 false ["foo"] false [])))] (Plugin ["test"] true []) None None None None)]
  [[(JObj [("EnvVar", (JStr "EnvironmentData")); ("FooColumn", (JInt (0)))]); (JObj [("EnvVar", (JStr "EnvironmentData")); ("FooColumn", (JInt (2)))]); (JObj [("EnvVar", (JStr "EnvironmentData")); ("FooColumn", (JInt (4)))])]].
Proof. vm_compute. reflexivity. Qed.

(** aliases with non-shadowed var: SELECT foo AS FooColumn FROM range(start=1, end=2) *)
Example golden_s004 : golden
  [SQuery "" (Select false [("FooColumn", (CExpr (ESym 1 false ["foo"] false [])))] (Plugin ["range"] true [("start", (AExpr (ELit (vint (1))))); ("end", (AExpr (ELit (vint (2)))))]) None None None None)]
  [[(JObj [("FooColumn", (JObj [("bar", (JObj [("baz", (JInt (5)))])); ("bar2", (JInt (7)))]))]); (JObj [("FooColumn", (JObj [("bar", (JObj [("baz", (JInt (5)))])); ("bar2", (JInt (7)))]))])]].
Proof. vm_compute. reflexivity. Qed.

(** condition on aliases: SELECT foo AS FooColumn FROM test() WHERE FooColumn = 2 *)
Example golden_s005 : golden
  [SQuery "" (Select false [("FooColumn", (CExpr (ESym 1 false ["foo"] false [])))] (Plugin ["test"] true []) (Some (ECmp (ESym 2 false ["FooColumn"] false []) OpEq (ELit (vint (2))))) None None None)]
  [[(JObj [("FooColumn", (JInt (2)))])]].
Proof. vm_compute. reflexivity. Qed.

(** condition on aliases with not: SELECT foo AS FooColumn FROM test() WHERE NOT FooColumn = 2 *)
Example golden_s006 : golden
  [SQuery "" (Select false [("FooColumn", (CExpr (ESym 1 false ["foo"] false [])))] (Plugin ["test"] true []) (Some (ENot (ECmp (ESym 2 false ["FooColumn"] false []) OpEq (ELit (vint (2)))))) None None None)]
  [[(JObj [("FooColumn", (JInt (0)))]); (JObj [("FooColumn", (JInt (4)))])]].
Proof. vm_compute. reflexivity. Qed.

(** condition on non aliases: SELECT foo AS FooColumn FROM test() WHERE foo = 4 *)
Example golden_s007 : golden
  [SQuery "" (Select false [("FooColumn", (CExpr (ESym 1 false ["foo"] false [])))] (Plugin ["test"] true []) (Some (ECmp (ESym 2 false ["foo"] false []) OpEq (ELit (vint (4))))) None None None)]
  [[(JObj [("FooColumn", (JInt (4)))])]].
Proof. vm_compute. reflexivity. Qed.

(** dict plugin: SELECT * FROM dict(env_var=15, foo=5, `field with space`='value') *)
Example golden_s008 : golden
  [SQuery "" (Select true [] (Plugin ["dict"] true [("env_var", (AExpr (ELit (vint (15))))); ("foo", (AExpr (ELit (vint (5))))); ("field with space", (AExpr (ELit (VStr "value"))))]) None None None None)]
  [[(JObj [("env_var", (JInt (15))); ("foo", (JInt (5))); ("field with space", (JStr "value"))])]].
Proof. vm_compute. reflexivity. Qed.

(** dict plugin with invalid column: SELECT no_such_column FROM dict(env_var=15, foo=5) *)
Example golden_s009 : golden
  [SQuery "" (Select false [("no_such_column", (CExpr (ESym 1 false ["no_such_column"] false [])))] (Plugin ["dict"] true [("env_var", (AExpr (ELit (vint (15))))); ("foo", (AExpr (ELit (vint (5)))))]) None None None None)]
  [[(JObj [("no_such_column", JNull)])]].
Proof. vm_compute. reflexivity. Qed.

(** dict plugin with invalid column in expression: SELECT no_such_column + 'foo' FROM dict(env_var=15, foo=5) *)
Example golden_s010 : golden
  [SQuery "" (Select false [("no_such_column + 'foo'", (CExpr (EAdd (ESym 1 false ["no_such_column"] false []) [("+", (ELit (VStr "foo")))])))] (Plugin ["dict"] true [("env_var", (AExpr (ELit (vint (15))))); ("foo", (AExpr (ELit (vint (5)))))]) None None None None)]
  [[(JObj [("no_such_column + 'foo'", JNull)])]].
Proof. vm_compute. reflexivity. Qed.

(** mix from env and plugin: SELECT env_var + param AS ConCat FROM dict(param='param') *)
Example golden_s011 : golden
  [SQuery "" (Select false [("ConCat", (CExpr (EAdd (ESym 1 false ["env_var"] false []) [("+", (ESym 2 false ["param"] false []))])))] (Plugin ["dict"] true [("param", (AExpr (ELit (VStr "param"))))]) None None None None)]
  [[(JObj [("ConCat", (JStr "EnvironmentDataparam"))])]].
Proof. vm_compute. reflexivity. Qed.

(** subselects: SELECT param FROM dict(param={ SELECT * FROM range(start=3, end=5) }) *)
Example golden_s012 : golden
  [SQuery "" (Select false [("param", (CExpr (ESym 1 false ["param"] false [])))] (Plugin ["dict"] true [("param", (ASelect (Select true [] (Plugin ["range"] true [("start", (AExpr (ELit (vint (3))))); ("end", (AExpr (ELit (vint (5)))))]) None None None None)))]) None None None None)]
  [[(JObj [("param", (JArr [(JObj [("value", (JInt (3)))]); (JObj [("value", (JInt (4)))]); (JObj [("value", (JInt (5)))])]))])]].
Proof. vm_compute. reflexivity. Qed.

(** empty subselects should produce null: SELECT { SELECT * FROM range(start=3, end=5) WHERE 0 } AS Value FROM scope() *)
Example golden_s013 : golden
  [SQuery "" (Select false [("Value", (CSelect (Select true [] (Plugin ["range"] true [("start", (AExpr (ELit (vint (3))))); ("end", (AExpr (ELit (vint (5)))))]) (Some (ELit (vint (0)))) None None None)))] (Plugin ["scope"] true []) None None None None)]
  [[(JObj [("Value", JNull)])]].
Proof. vm_compute. reflexivity. Qed.

(** subselects addition: SELECT q1.value + q2.value AS Sum FROM dict(q1={ SELECT * FROM range(start=3, end=5) }, q2={ SELECT * FROM range(start=10, end=14) }) *)
Example golden_s014 : golden
  [SQuery "" (Select false [("Sum", (CExpr (EAdd (ESym 1 false ["q1"; "value"] false []) [("+", (ESym 2 false ["q2"; "value"] false []))])))] (Plugin ["dict"] true [("q1", (ASelect (Select true [] (Plugin ["range"] true [("start", (AExpr (ELit (vint (3))))); ("end", (AExpr (ELit (vint (5)))))]) None None None None))); ("q2", (ASelect (Select true [] (Plugin ["range"] true [("start", (AExpr (ELit (vint (10))))); ("end", (AExpr (ELit (vint (14)))))]) None None None None)))]) None None None None)]
  [[(JObj [("Sum", (JArr [(JInt (3)); (JInt (4)); (JInt (5)); (JInt (10)); (JInt (11)); (JInt (12)); (JInt (13)); (JInt (14))]))])]].
Proof. vm_compute. reflexivity. Qed.

(** Functions in select expression: SELECT func_foo(return=q1 + 4) FROM dict(q1=3) *)
Example golden_s015 : golden
  [SQuery "" (Select false [("func_foo(return=q1 + 4)", (CExpr (ESym 2 false ["func_foo"] true [("return", (AExpr (EAdd (ESym 1 false ["q1"] false []) [("+", (ELit (vint (4))))])))])))] (Plugin ["dict"] true [("q1", (AExpr (ELit (vint (3)))))]) None None None None)]
  [[(JObj [("func_foo(return=q1 + 4)", (JInt (7)))])]].
Proof. vm_compute. reflexivity. Qed.

(** Subselect in column.: SELECT bar, { SELECT * FROM dict(column=bar) } AS Query FROM test() *)
Example golden_s016 : golden
  [SQuery "" (Select false [("bar", (CExpr (ESym 1 false ["bar"] false []))); ("Query", (CSelect (Select true [] (Plugin ["dict"] true [("column", (AExpr (ESym 2 false ["bar"] false [])))]) None None None None)))] (Plugin ["test"] true []) None None None None)]
  [[(JObj [("bar", (JInt (0))); ("Query", (JInt (0)))]); (JObj [("bar", (JInt (1))); ("Query", (JInt (1)))]); (JObj [("bar", (JInt (2))); ("Query", (JInt (2)))])]].
Proof. vm_compute. reflexivity. Qed.

(** Subselect functions in filter.: SELECT bar, { SELECT * FROM dict(column=bar) } AS Query FROM test() WHERE 1 IN Query.column *)
Example golden_s017 : golden
  [SQuery "" (Select false [("bar", (CExpr (ESym 1 false ["bar"] false []))); ("Query", (CSelect (Select true [] (Plugin ["dict"] true [("column", (AExpr (ESym 2 false ["bar"] false [])))]) None None None None)))] (Plugin ["test"] true []) (Some (ECmp (ELit (vint (1))) OpIn (ESym 3 false ["Query"; "column"] false []))) None None None)]
  [[]].
Proof. vm_compute. reflexivity. Qed.

(** Subselect in columns: SELECT bar, { SELECT column FROM dict(column=bar) } AS subquery FROM test() *)
Example golden_s018 : golden
  [SQuery "" (Select false [("bar", (CExpr (ESym 1 false ["bar"] false []))); ("subquery", (CSelect (Select false [("column", (CExpr (ESym 2 false ["column"] false [])))] (Plugin ["dict"] true [("column", (AExpr (ESym 3 false ["bar"] false [])))]) None None None None)))] (Plugin ["test"] true []) None None None None)]
  [[(JObj [("bar", (JInt (0))); ("subquery", (JInt (0)))]); (JObj [("bar", (JInt (1))); ("subquery", (JInt (1)))]); (JObj [("bar", (JInt (2))); ("subquery", (JInt (2)))])]].
Proof. vm_compute. reflexivity. Qed.

(** Foreach plugin: SELECT * FROM foreach(row={ SELECT * FROM test() }, query={ SELECT bar, foo, value FROM range(start=bar, end=foo) }) *)
Example golden_s019 : golden
  [SQuery "" (Select true [] (Plugin ["foreach"] true [("row", (ASelect (Select true [] (Plugin ["test"] true []) None None None None))); ("query", (ASelect (Select false [("bar", (CExpr (ESym 1 false ["bar"] false []))); ("foo", (CExpr (ESym 2 false ["foo"] false []))); ("value", (CExpr (ESym 3 false ["value"] false [])))] (Plugin ["range"] true [("start", (AExpr (ESym 4 false ["bar"] false []))); ("end", (AExpr (ESym 5 false ["foo"] false [])))]) None None None None)))]) None None None None)]
  [[(JObj [("bar", (JInt (0))); ("foo", (JInt (0))); ("value", (JInt (0)))]); (JObj [("bar", (JInt (1))); ("foo", (JInt (2))); ("value", (JInt (1)))]); (JObj [("bar", (JInt (1))); ("foo", (JInt (2))); ("value", (JInt (2)))]); (JObj [("bar", (JInt (2))); ("foo", (JInt (4))); ("value", (JInt (2)))]); (JObj [("bar", (JInt (2))); ("foo", (JInt (4))); ("value", (JInt (3)))]); (JObj [("bar", (JInt (2))); ("foo", (JInt (4))); ("value", (JInt (4)))])]].
Proof. vm_compute. reflexivity. Qed.

(** Foreach plugin with array: SELECT * FROM foreach(row=[dict(bar=1, foo=2), dict(foo=1, bar=2)], query={ SELECT bar, foo FROM scope() }) *)
Example golden_s020 : golden
  [SQuery "" (Select true [] (Plugin ["foreach"] true [("row", (AArray (EComma (ESym 1 false ["dict"] true [("bar", (AExpr (ELit (vint (1))))); ("foo", (AExpr (ELit (vint (2)))))]) [Some (ESym 2 false ["dict"] true [("foo", (AExpr (ELit (vint (1))))); ("bar", (AExpr (ELit (vint (2)))))])]))); ("query", (ASelect (Select false [("bar", (CExpr (ESym 3 false ["bar"] false []))); ("foo", (CExpr (ESym 4 false ["foo"] false [])))] (Plugin ["scope"] true []) None None None None)))]) None None None None)]
  [[(JObj [("bar", (JInt (1))); ("foo", (JInt (2)))]); (JObj [("bar", (JInt (2))); ("foo", (JInt (1)))])]].
Proof. vm_compute. reflexivity. Qed.

(** Foreach plugin with single object: SELECT * FROM foreach(row=dict(bar=1, foo=2), query={ SELECT bar, foo FROM scope() }) *)
Example golden_s021 : golden
  [SQuery "" (Select true [] (Plugin ["foreach"] true [("row", (AExpr (ESym 1 false ["dict"] true [("bar", (AExpr (ELit (vint (1))))); ("foo", (AExpr (ELit (vint (2)))))]))); ("query", (ASelect (Select false [("bar", (CExpr (ESym 2 false ["bar"] false []))); ("foo", (CExpr (ESym 3 false ["foo"] false [])))] (Plugin ["scope"] true []) None None None None)))]) None None None None)]
  [[(JObj [("bar", (JInt (1))); ("foo", (JInt (2)))])]].
Proof. vm_compute. reflexivity. Qed.

(** Foreach with non row elements: SELECT * FROM foreach(row=1, query='hello') *)
Example golden_s023 : golden
  [SQuery "" (Select true [] (Plugin ["foreach"] true [("row", (AExpr (ELit (vint (1))))); ("query", (AExpr (ELit (VStr "hello"))))]) None None None None)]
  [[(JObj [("_value", (JStr "hello"))])]].
Proof. vm_compute. reflexivity. Qed.

(** Foreach with non row elements: SELECT * FROM foreach(row=1, query=[1, 2, 3, 4]) *)
Example golden_s024 : golden
  [SQuery "" (Select true [] (Plugin ["foreach"] true [("row", (AExpr (ELit (vint (1))))); ("query", (AArray (EComma (ELit (vint (1))) [Some (ELit (vint (2))); Some (ELit (vint (3))); Some (ELit (vint (4)))])))]) None None None None)]
  [[(JObj [("_value", (JInt (1)))]); (JObj [("_value", (JInt (2)))]); (JObj [("_value", (JInt (3)))]); (JObj [("_value", (JInt (4)))])]].
Proof. vm_compute. reflexivity. Qed.

(** Foreach with non row elements: SELECT * FROM foreach(row=[1, 2, 3], query={ SELECT _value FROM scope() }) *)
Example golden_s025 : golden
  [SQuery "" (Select true [] (Plugin ["foreach"] true [("row", (AArray (EComma (ELit (vint (1))) [Some (ELit (vint (2))); Some (ELit (vint (3)))]))); ("query", (ASelect (Select false [("_value", (CExpr (ESym 1 false ["_value"] false [])))] (Plugin ["scope"] true []) None None None None)))]) None None None None)]
  [[(JObj [("_value", (JInt (1)))]); (JObj [("_value", (JInt (2)))]); (JObj [("_value", (JInt (3)))])]].
Proof. vm_compute. reflexivity. Qed.

(** Foreach with no query - single object: SELECT * FROM foreach(row=dict(X=1)) *)
Example golden_s026 : golden
  [SQuery "" (Select true [] (Plugin ["foreach"] true [("row", (AExpr (ESym 1 false ["dict"] true [("X", (AExpr (ELit (vint (1)))))])))]) None None None None)]
  [[(JObj [("X", (JInt (1)))])]].
Proof. vm_compute. reflexivity. Qed.

(** Foreach with no query - array of objects: SELECT * FROM foreach(row=[dict(X=1), dict(X=2)]) *)
Example golden_s027 : golden
  [SQuery "" (Select true [] (Plugin ["foreach"] true [("row", (AArray (EComma (ESym 1 false ["dict"] true [("X", (AExpr (ELit (vint (1)))))]) [Some (ESym 2 false ["dict"] true [("X", (AExpr (ELit (vint (2)))))])])))]) None None None None)]
  [[(JObj [("X", (JInt (1)))]); (JObj [("X", (JInt (2)))])]].
Proof. vm_compute. reflexivity. Qed.

(** Foreach with no query - select with column: SELECT * FROM foreach(row={ SELECT dict(X=1) AS X FROM scope() }, column='X') *)
Example golden_s028 : golden
  [SQuery "" (Select true [] (Plugin ["foreach"] true [("row", (ASelect (Select false [("X", (CExpr (ESym 1 false ["dict"] true [("X", (AExpr (ELit (vint (1)))))])))] (Plugin ["scope"] true []) None None None None))); ("column", (AExpr (ELit (VStr "X"))))]) None None None None)]
  [[(JObj [("X", (JInt (1)))])]].
Proof. vm_compute. reflexivity. Qed.

(** Foreach with no query - with null: SELECT * FROM foreach(row=NULL) *)
Example golden_s029 : golden
  [SQuery "" (Select true [] (Plugin ["foreach"] true [("row", (AExpr (ELit VNull)))]) None None None None)]
  [[]].
Proof. vm_compute. reflexivity. Qed.

(** Foreach with no query - with null in array: SELECT * FROM foreach(row=[NULL, NULL, dict(X=1)]) *)
Example golden_s030 : golden
  [SQuery "" (Select true [] (Plugin ["foreach"] true [("row", (AArray (EComma (ELit VNull) [Some (ELit VNull); Some (ESym 1 false ["dict"] true [("X", (AExpr (ELit (vint (1)))))])])))]) None None None None)]
  [[(JObj [("X", (JInt (1)))])]].
Proof. vm_compute. reflexivity. Qed.

(** Order by: SELECT * FROM test() ORDER BY foo *)
Example golden_s032 : golden
  [SQuery "" (Select true [] (Plugin ["test"] true []) None None (Some ("foo", false)) None)]
  [[(JObj [("foo", (JInt (0))); ("bar", (JInt (0)))]); (JObj [("foo", (JInt (2))); ("bar", (JInt (1)))]); (JObj [("foo", (JInt (4))); ("bar", (JInt (2)))])]].
Proof. vm_compute. reflexivity. Qed.

(** Order by desc: SELECT * FROM test() ORDER BY foo DESC *)
Example golden_s033 : golden
  [SQuery "" (Select true [] (Plugin ["test"] true []) None None (Some ("foo", true)) None)]
  [[(JObj [("foo", (JInt (4))); ("bar", (JInt (2)))]); (JObj [("foo", (JInt (2))); ("bar", (JInt (1)))]); (JObj [("foo", (JInt (0))); ("bar", (JInt (0)))])]].
Proof. vm_compute. reflexivity. Qed.

(** Limit: SELECT * FROM test() LIMIT 1 *)
Example golden_s034 : golden
  [SQuery "" (Select true [] (Plugin ["test"] true []) None None None (Some 1%Z))]
  [[(JObj [("foo", (JInt (0))); ("bar", (JInt (0)))])]].
Proof. vm_compute. reflexivity. Qed.

(** Limit and order: SELECT * FROM test() ORDER BY foo DESC LIMIT 1 *)
Example golden_s035 : golden
  [SQuery "" (Select true [] (Plugin ["test"] true []) None None (Some ("foo", true)) (Some 1%Z))]
  [[(JObj [("foo", (JInt (4))); ("bar", (JInt (2)))])]].
Proof. vm_compute. reflexivity. Qed.

(** Comments Simple: SELECT * FROM test() LIMIT 1 *)
Example golden_s036 : golden
  [SQuery "" (Select true [] (Plugin ["test"] true []) None None None (Some 1%Z))]
  [[(JObj [("foo", (JInt (0))); ("bar", (JInt (0)))])]].
Proof. vm_compute. reflexivity. Qed.

(** Comments SQL Style: SELECT * FROM test() LIMIT 1 *)
Example golden_s037 : golden
  [SQuery "" (Select true [] (Plugin ["test"] true []) None None None (Some 1%Z))]
  [[(JObj [("foo", (JInt (0))); ("bar", (JInt (0)))])]].
Proof. vm_compute. reflexivity. Qed.

(** Comments Multiline: SELECT * FROM test() LIMIT 1 *)
Example golden_s038 : golden
  [SQuery "" (Select true [] (Plugin ["test"] true []) None None None (Some 1%Z))]
  [[(JObj [("foo", (JInt (0))); ("bar", (JInt (0)))])]].
Proof. vm_compute. reflexivity. Qed.

(** Not combined with AND: SELECT * FROM test() WHERE 1 and NOT foo = 2 *)
Example golden_s039 : golden
  [SQuery "" (Select true [] (Plugin ["test"] true []) (Some (EAnd (ELit (vint (1))) [("and", (ENot (ECmp (ESym 1 false ["foo"] false []) OpEq (ELit (vint (2))))))])) None None None)]
  [[(JObj [("foo", (JInt (0))); ("bar", (JInt (0)))]); (JObj [("foo", (JInt (4))); ("bar", (JInt (2)))])]].
Proof. vm_compute. reflexivity. Qed.

(** Not combined with AND 2: SELECT * FROM test() WHERE 0 and NOT foo = 2 *)
Example golden_s040 : golden
  [SQuery "" (Select true [] (Plugin ["test"] true []) (Some (EAnd (ELit (vint (0))) [("and", (ENot (ECmp (ESym 1 false ["foo"] false []) OpEq (ELit (vint (2))))))])) None None None)]
  [[]].
Proof. vm_compute. reflexivity. Qed.

(** Not combined with OR: SELECT * FROM test() WHERE 1 or NOT foo = 20 *)
Example golden_s041 : golden
  [SQuery "" (Select true [] (Plugin ["test"] true []) (Some (EOr (ELit (vint (1))) [("or", (ENot (ECmp (ESym 1 false ["foo"] false []) OpEq (ELit (vint (20))))))])) None None None)]
  [[(JObj [("foo", (JInt (0))); ("bar", (JInt (0)))]); (JObj [("foo", (JInt (2))); ("bar", (JInt (1)))]); (JObj [("foo", (JInt (4))); ("bar", (JInt (2)))])]].
Proof. vm_compute. reflexivity. Qed.

(** Not combined with OR 2: SELECT * FROM test() WHERE 0 or NOT foo = 20 *)
Example golden_s042 : golden
  [SQuery "" (Select true [] (Plugin ["test"] true []) (Some (EOr (ELit (vint (0))) [("or", (ENot (ECmp (ESym 1 false ["foo"] false []) OpEq (ELit (vint (20))))))])) None None None)]
  [[(JObj [("foo", (JInt (0))); ("bar", (JInt (0)))]); (JObj [("foo", (JInt (2))); ("bar", (JInt (1)))]); (JObj [("foo", (JInt (4))); ("bar", (JInt (2)))])]].
Proof. vm_compute. reflexivity. Qed.

(** Group by 1: SELECT foo, bar FROM groupbytest() GROUP BY bar *)
Example golden_s043 : golden
  [SQuery "" (Select false [("foo", (CExpr (ESym 1 false ["foo"] false []))); ("bar", (CExpr (ESym 2 false ["bar"] false [])))] (Plugin ["groupbytest"] true []) None (Some (ESym 3 false ["bar"] false [])) None None)]
  [[(JObj [("foo", (JInt (2))); ("bar", (JInt (5)))]); (JObj [("foo", (JInt (4))); ("bar", (JInt (2)))])]].
Proof. vm_compute. reflexivity. Qed.

(** Group by *: SELECT * FROM groupbytest() GROUP BY bar *)
Example golden_s044 : golden
  [SQuery "" (Select true [] (Plugin ["groupbytest"] true []) None (Some (ESym 1 false ["bar"] false [])) None None)]
  [[(JObj [("foo", (JInt (2))); ("bar", (JInt (5))); ("baz", (JStr "b"))]); (JObj [("foo", (JInt (4))); ("bar", (JInt (2))); ("baz", (JStr "d"))])]].
Proof. vm_compute. reflexivity. Qed.

(** Group by count: SELECT foo, bar, count(items=bar) FROM groupbytest() GROUP BY bar *)
Example golden_s045 : golden
  [SQuery "" (Select false [("foo", (CExpr (ESym 1 false ["foo"] false []))); ("bar", (CExpr (ESym 2 false ["bar"] false []))); ("count(items=bar)", (CExpr (ESym 4 false ["count"] true [("items", (AExpr (ESym 3 false ["bar"] false [])))])))] (Plugin ["groupbytest"] true []) None (Some (ESym 5 false ["bar"] false [])) None None)]
  [[(JObj [("foo", (JInt (2))); ("bar", (JInt (5))); ("count(items=bar)", (JInt (2)))]); (JObj [("foo", (JInt (4))); ("bar", (JInt (2))); ("count(items=bar)", (JInt (2)))])]].
Proof. vm_compute. reflexivity. Qed.

(** Group by count with *: SELECT *, count(items=bar) FROM groupbytest() GROUP BY bar *)
Example golden_s046 : golden
  [SQuery "" (Select true [("count(items=bar)", (CExpr (ESym 2 false ["count"] true [("items", (AExpr (ESym 1 false ["bar"] false [])))])))] (Plugin ["groupbytest"] true []) None (Some (ESym 3 false ["bar"] false [])) None None)]
  [[(JObj [("foo", (JInt (2))); ("bar", (JInt (5))); ("baz", (JStr "b")); ("count(items=bar)", (JInt (2)))]); (JObj [("foo", (JInt (4))); ("bar", (JInt (2))); ("baz", (JStr "d")); ("count(items=bar)", (JInt (2)))])]].
Proof. vm_compute. reflexivity. Qed.

(** Group by count with where: SELECT foo, bar, count(items=bar) FROM groupbytest() WHERE foo < 4 GROUP BY bar *)
Example golden_s047 : golden
  [SQuery "" (Select false [("foo", (CExpr (ESym 1 false ["foo"] false []))); ("bar", (CExpr (ESym 2 false ["bar"] false []))); ("count(items=bar)", (CExpr (ESym 4 false ["count"] true [("items", (AExpr (ESym 3 false ["bar"] false [])))])))] (Plugin ["groupbytest"] true []) (Some (ECmp (ESym 5 false ["foo"] false []) OpLt (ELit (vint (4))))) (Some (ESym 6 false ["bar"] false [])) None None)]
  [[(JObj [("foo", (JInt (2))); ("bar", (JInt (5))); ("count(items=bar)", (JInt (2)))]); (JObj [("foo", (JInt (3))); ("bar", (JInt (2))); ("count(items=bar)", (JInt (1)))])]].
Proof. vm_compute. reflexivity. Qed.

(** Group by min: SELECT foo, bar, min(item=foo) FROM groupbytest() GROUP BY bar *)
Example golden_s048 : golden
  [SQuery "" (Select false [("foo", (CExpr (ESym 1 false ["foo"] false []))); ("bar", (CExpr (ESym 2 false ["bar"] false []))); ("min(item=foo)", (CExpr (ESym 4 false ["min"] true [("item", (AExpr (ESym 3 false ["foo"] false [])))])))] (Plugin ["groupbytest"] true []) None (Some (ESym 5 false ["bar"] false [])) None None)]
  [[(JObj [("foo", (JInt (2))); ("bar", (JInt (5))); ("min(item=foo)", (JInt (1)))]); (JObj [("foo", (JInt (4))); ("bar", (JInt (2))); ("min(item=foo)", (JInt (3)))])]].
Proof. vm_compute. reflexivity. Qed.

(** Group by max: SELECT foo, bar, max(item=foo) FROM groupbytest() GROUP BY bar *)
Example golden_s049 : golden
  [SQuery "" (Select false [("foo", (CExpr (ESym 1 false ["foo"] false []))); ("bar", (CExpr (ESym 2 false ["bar"] false []))); ("max(item=foo)", (CExpr (ESym 4 false ["max"] true [("item", (AExpr (ESym 3 false ["foo"] false [])))])))] (Plugin ["groupbytest"] true []) None (Some (ESym 5 false ["bar"] false [])) None None)]
  [[(JObj [("foo", (JInt (2))); ("bar", (JInt (5))); ("max(item=foo)", (JInt (2)))]); (JObj [("foo", (JInt (4))); ("bar", (JInt (2))); ("max(item=foo)", (JInt (4)))])]].
Proof. vm_compute. reflexivity. Qed.

(** Group by enumrate of string: SELECT baz, bar, enumerate(items=baz) FROM groupbytest() GROUP BY bar *)
Example golden_s050 : golden
  [SQuery "" (Select false [("baz", (CExpr (ESym 1 false ["baz"] false []))); ("bar", (CExpr (ESym 2 false ["bar"] false []))); ("enumerate(items=baz)", (CExpr (ESym 4 false ["enumerate"] true [("items", (AExpr (ESym 3 false ["baz"] false [])))])))] (Plugin ["groupbytest"] true []) None (Some (ESym 5 false ["bar"] false [])) None None)]
  [[(JObj [("baz", (JStr "b")); ("bar", (JInt (5))); ("enumerate(items=baz)", (JArr [(JStr "a"); (JStr "b")]))]); (JObj [("baz", (JStr "d")); ("bar", (JInt (2))); ("enumerate(items=baz)", (JArr [(JStr "c"); (JStr "d")]))])]].
Proof. vm_compute. reflexivity. Qed.

(** Groupby evaluates each row twice: SELECT * FROM chain(a={ SELECT count() FROM scope() }, b={ SELECT count(), count(items=bar), bar FROM groupbytest() GROUP BY bar }) *)
Example golden_s051 : golden
  [SQuery "" (Select true [] (Plugin ["chain"] true [("a", (ASelect (Select false [("count()", (CExpr (ESym 1 false ["count"] true [])))] (Plugin ["scope"] true []) None None None None))); ("b", (ASelect (Select false [("count()", (CExpr (ESym 2 false ["count"] true []))); ("count(items=bar)", (CExpr (ESym 4 false ["count"] true [("items", (AExpr (ESym 3 false ["bar"] false [])))]))); ("bar", (CExpr (ESym 5 false ["bar"] false [])))] (Plugin ["groupbytest"] true []) None (Some (ESym 6 false ["bar"] false [])) None None)))]) None None None None)]
  [[(JObj [("count()", (JInt (1)))]); (JObj [("count()", (JInt (2))); ("count(items=bar)", (JInt (2))); ("bar", (JInt (5)))]); (JObj [("count()", (JInt (2))); ("count(items=bar)", (JInt (2))); ("bar", (JInt (2)))])]].
Proof. vm_compute. reflexivity. Qed.

(** Lazy row evaluation (Shoud panic if foo=2: SELECT foo, panic(column=foo, value=2) FROM test() WHERE foo = 4 *)
Example golden_s052 : golden
  [SQuery "" (Select false [("foo", (CExpr (ESym 1 false ["foo"] false []))); ("panic(column=foo, value=2)", (CExpr (ESym 3 false ["panic"] true [("column", (AExpr (ESym 2 false ["foo"] false []))); ("value", (AExpr (ELit (vint (2)))))])))] (Plugin ["test"] true []) (Some (ECmp (ESym 4 false ["foo"] false []) OpEq (ELit (vint (4))))) None None None)]
  [[(JObj [("foo", (JInt (4))); ("panic(column=foo, value=2)", (JInt (2)))])]].
Proof. vm_compute. reflexivity. Qed.

(** Quotes strings: SELECT 'foo\'s quote' FROM scope() *)
Example golden_s053 : golden
  [SQuery "" (Select false [("'foo\'s quote'", (CExpr (ELit (VStr "foo's quote"))))] (Plugin ["scope"] true []) None None None None)]
  [[(JObj [("'foo\'s quote'", (JStr "foo's quote"))])]].
Proof. vm_compute. reflexivity. Qed.

(** Array concatenation: SELECT (1, 2) + (3, 4) FROM scope() *)
Example golden_s056 : golden
  [SQuery "" (Select false [("(1, 2) + (3, 4)", (CExpr (EAdd (EComma (ELit (vint (1))) [Some (ELit (vint (2)))]) [("+", (EComma (ELit (vint (3))) [Some (ELit (vint (4)))]))])))] (Plugin ["scope"] true []) None None None None)]
  [[(JObj [("(1, 2) + (3, 4)", (JArr [(JInt (1)); (JInt (2)); (JInt (3)); (JInt (4))]))])]].
Proof. vm_compute. reflexivity. Qed.

(** Array concatenation to any: SELECT (1, 2) + 4 FROM scope() *)
Example golden_s057 : golden
  [SQuery "" (Select false [("(1, 2) + 4", (CExpr (EAdd (EComma (ELit (vint (1))) [Some (ELit (vint (2)))]) [("+", (ELit (vint (4))))])))] (Plugin ["scope"] true []) None None None None)]
  [[(JObj [("(1, 2) + 4", (JArr [(JInt (1)); (JInt (2)); (JInt (4))]))])]].
Proof. vm_compute. reflexivity. Qed.

(** Array concatenation with if: SELECT (1, 2) + if(condition=1, then=(3, 4)) AS Field FROM scope() *)
Example golden_s058 : golden
  [SQuery "" (Select false [("Field", (CExpr (EAdd (EComma (ELit (vint (1))) [Some (ELit (vint (2)))]) [("+", (ESym 1 false ["if"] true [("condition", (AExpr (ELit (vint (1))))); ("then", (AExpr (EComma (ELit (vint (3))) [Some (ELit (vint (4)))])))]))])))] (Plugin ["scope"] true []) None None None None)]
  [[(JObj [("Field", (JArr [(JInt (1)); (JInt (2)); (JInt (3)); (JInt (4))]))])]].
Proof. vm_compute. reflexivity. Qed.

(** Array empty with if: SELECT if(condition=1, then=[]) AS Field FROM scope() *)
Example golden_s059 : golden
  [SQuery "" (Select false [("Field", (CExpr (ESym 1 false ["if"] true [("condition", (AExpr (ELit (vint (1))))); ("then", AEmpty)])))] (Plugin ["scope"] true []) None None None None)]
  [[(JObj [("Field", (JArr []))])]].
Proof. vm_compute. reflexivity. Qed.

(** Array concatenation with Null: SELECT (1, 2) + if(condition=0, then=(3, 4)) AS Field FROM scope() *)
Example golden_s060 : golden
  [SQuery "" (Select false [("Field", (CExpr (EAdd (EComma (ELit (vint (1))) [Some (ELit (vint (2)))]) [("+", (ESym 1 false ["if"] true [("condition", (AExpr (ELit (vint (0))))); ("then", (AExpr (EComma (ELit (vint (3))) [Some (ELit (vint (4)))])))]))])))] (Plugin ["scope"] true []) None None None None)]
  [[(JObj [("Field", (JArr [(JInt (1)); (JInt (2)); JNull]))])]].
Proof. vm_compute. reflexivity. Qed.

(** Spurious line feeds and tabs: SELECT 1 + 2 AS FooBar FROM scope() WHERE FooBar > 1 AND TRUE *)
Example golden_s061 : golden
  [SQuery "" (Select false [("FooBar", (CExpr (EAdd (ELit (vint (1))) [("+", (ELit (vint (2))))])))] (Plugin ["scope"] true []) (Some (EAnd (ECmp (ESym 1 false ["FooBar"] false []) OpGt (ELit (vint (1)))) [("AND", (ELit (VBool true)))])) None None None)]
  [[(JObj [("FooBar", (JInt (3)))])]].
Proof. vm_compute. reflexivity. Qed.

(** If function and comparison expression: SELECT if(condition=1 + 1 = 2, then=2, else=3), if(condition=1 + 2 = 2, then=2, else=3) FROM scope() *)
Example golden_s062 : golden
  [SQuery "" (Select false [("if(condition=1 + 1 = 2, then=2, else=3)", (CExpr (ESym 1 false ["if"] true [("condition", (AExpr (ECmp (EAdd (ELit (vint (1))) [("+", (ELit (vint (1))))]) OpEq (ELit (vint (2)))))); ("then", (AExpr (ELit (vint (2))))); ("else", (AExpr (ELit (vint (3)))))]))); ("if(condition=1 + 2 = 2, then=2, else=3)", (CExpr (ESym 2 false ["if"] true [("condition", (AExpr (ECmp (EAdd (ELit (vint (1))) [("+", (ELit (vint (2))))]) OpEq (ELit (vint (2)))))); ("then", (AExpr (ELit (vint (2))))); ("else", (AExpr (ELit (vint (3)))))])))] (Plugin ["scope"] true []) None None None None)]
  [[(JObj [("if(condition=1 + 1 = 2, then=2, else=3)", (JInt (2))); ("if(condition=1 + 2 = 2, then=2, else=3)", (JInt (3)))])]].
Proof. vm_compute. reflexivity. Qed.

(** If function and subselects: SELECT if(condition=1, then={ SELECT * FROM test() }) FROM scope() *)
Example golden_s063 : golden
  [SQuery "" (Select false [("if(condition=1, then={ SELECT * FROM test() })", (CExpr (ESym 1 false ["if"] true [("condition", (AExpr (ELit (vint (1))))); ("then", (ASelect (Select true [] (Plugin ["test"] true []) None None None None)))])))] (Plugin ["scope"] true []) None None None None)]
  [[(JObj [("if(condition=1, then={ SELECT * FROM test() })", (JArr [(JObj [("foo", (JInt (0))); ("bar", (JInt (0)))]); (JObj [("foo", (JInt (2))); ("bar", (JInt (1)))]); (JObj [("foo", (JInt (4))); ("bar", (JInt (2)))])]))])]].
Proof. vm_compute. reflexivity. Qed.

(** If function should be lazy: SELECT if(condition=FALSE, then=panic(column=3, value=3)) FROM scope() *)
Example golden_s064 : golden
  [SQuery "" (Select false [("if(condition=FALSE, then=panic(column=3, value=3))", (CExpr (ESym 2 false ["if"] true [("condition", (AExpr (ELit (VBool false)))); ("then", (AExpr (ESym 1 false ["panic"] true [("column", (AExpr (ELit (vint (3))))); ("value", (AExpr (ELit (vint (3)))))])))])))] (Plugin ["scope"] true []) None None None None)]
  [[(JObj [("if(condition=FALSE, then=panic(column=3, value=3))", JNull)])]].
Proof. vm_compute. reflexivity. Qed.

(** If function should be lazy: SELECT if(condition=TRUE, else=panic(column=7, value=7)) FROM scope() *)
Example golden_s065 : golden
  [SQuery "" (Select false [("if(condition=TRUE, else=panic(column=7, value=7))", (CExpr (ESym 2 false ["if"] true [("condition", (AExpr (ELit (VBool true)))); ("else", (AExpr (ESym 1 false ["panic"] true [("column", (AExpr (ELit (vint (7))))); ("value", (AExpr (ELit (vint (7)))))])))])))] (Plugin ["scope"] true []) None None None None)]
  [[(JObj [("if(condition=TRUE, else=panic(column=7, value=7))", JNull)])]].
Proof. vm_compute. reflexivity. Qed.

(** If function should be lazy with sub query: SELECT if(condition=TRUE, then={ SELECT * FROM test() LIMIT 1 }) FROM scope() *)
Example golden_s066 : golden
  [SQuery "" (Select false [("if(condition=TRUE, then={ SELECT * FROM test() LIMIT 1  })", (CExpr (ESym 1 false ["if"] true [("condition", (AExpr (ELit (VBool true)))); ("then", (ASelect (Select true [] (Plugin ["test"] true []) None None None (Some 1%Z))))])))] (Plugin ["scope"] true []) None None None None)]
  [[(JObj [("if(condition=TRUE, then={ SELECT * FROM test() LIMIT 1  })", (JArr [(JObj [("foo", (JInt (0))); ("bar", (JInt (0)))])]))])]].
Proof. vm_compute. reflexivity. Qed.

(** If function should be lazy with sub query: SELECT if(condition=FALSE, then={ SELECT panic(column=8, value=8) FROM test() }) FROM scope() *)
Example golden_s067 : golden
  [SQuery "" (Select false [("if(condition=FALSE, then={ SELECT panic(column=8, value=8) FROM test() })", (CExpr (ESym 2 false ["if"] true [("condition", (AExpr (ELit (VBool false)))); ("then", (ASelect (Select false [("panic(column=8, value=8)", (CExpr (ESym 1 false ["panic"] true [("column", (AExpr (ELit (vint (8))))); ("value", (AExpr (ELit (vint (8)))))])))] (Plugin ["test"] true []) None None None None)))])))] (Plugin ["scope"] true []) None None None None)]
  [[(JObj [("if(condition=FALSE, then={ SELECT panic(column=8, value=8) FROM test() })", JNull)])]].
Proof. vm_compute. reflexivity. Qed.

(** If function should be lazy: SELECT if(condition=TRUE, else={ SELECT panic(column=9, value=9) FROM test() }) FROM scope() *)
Example golden_s068 : golden
  [SQuery "" (Select false [("if(condition=TRUE, else={ SELECT panic(column=9, value=9) FROM test() })", (CExpr (ESym 2 false ["if"] true [("condition", (AExpr (ELit (VBool true)))); ("else", (ASelect (Select false [("panic(column=9, value=9)", (CExpr (ESym 1 false ["panic"] true [("column", (AExpr (ELit (vint (9))))); ("value", (AExpr (ELit (vint (9)))))])))] (Plugin ["test"] true []) None None None None)))])))] (Plugin ["scope"] true []) None None None None)]
  [[(JObj [("if(condition=TRUE, else={ SELECT panic(column=9, value=9) FROM test() })", JNull)])]].
Proof. vm_compute. reflexivity. Qed.

(** If function should be lazy WRT stored query 1/2: LET bomb = SELECT panic(column=1, value=1) FROM scope() *)
Example golden_s069 : golden
  [SLet "bomb" [] true (LSelect (Select false [("panic(column=1, value=1)", (CExpr (ESym 1 false ["panic"] true [("column", (AExpr (ELit (vint (1))))); ("value", (AExpr (ELit (vint (1)))))])))] (Plugin ["scope"] true []) None None None None))]
  [].
Proof. vm_compute. reflexivity. Qed.

(** If function should be lazy WRT stored query 2/2: SELECT if(condition=FALSE, then=bomb) FROM scope() *)
Example golden_s070 : golden
  [SQuery "" (Select false [("if(condition=FALSE, then=bomb)", (CExpr (ESym 2 false ["if"] true [("condition", (AExpr (ELit (VBool false)))); ("then", (AExpr (ESym 1 false ["bomb"] false [])))])))] (Plugin ["scope"] true []) None None None None)]
  [[(JObj [("if(condition=FALSE, then=bomb)", JNull)])]].
Proof. vm_compute. reflexivity. Qed.

(** If plugin and arrays: SELECT * FROM if(condition=1, then=[dict(Foo=1), dict(Foo=2)]) *)
Example golden_s071 : golden
  [SQuery "" (Select true [] (Plugin ["if"] true [("condition", (AExpr (ELit (vint (1))))); ("then", (AArray (EComma (ESym 1 false ["dict"] true [("Foo", (AExpr (ELit (vint (1)))))]) [Some (ESym 2 false ["dict"] true [("Foo", (AExpr (ELit (vint (2)))))])])))]) None None None None)]
  [[(JObj [("Foo", (JInt (1)))]); (JObj [("Foo", (JInt (2)))])]].
Proof. vm_compute. reflexivity. Qed.

(** If plugin and dict: SELECT * FROM if(condition=1, then=dict(Foo=2)) *)
Example golden_s072 : golden
  [SQuery "" (Select true [] (Plugin ["if"] true [("condition", (AExpr (ELit (vint (1))))); ("then", (AExpr (ESym 1 false ["dict"] true [("Foo", (AExpr (ELit (vint (2)))))])))]) None None None None)]
  [[(JObj [("Foo", (JInt (2)))])]].
Proof. vm_compute. reflexivity. Qed.

(** Columns with space in them: SELECT foo AS `column with space` FROM dict(foo='hello world') *)
Example golden_s073 : golden
  [SQuery "" (Select false [("column with space", (CExpr (ESym 1 false ["foo"] false [])))] (Plugin ["dict"] true [("foo", (AExpr (ELit (VStr "hello world"))))]) None None None None)]
  [[(JObj [("column with space", (JStr "hello world"))])]].
Proof. vm_compute. reflexivity. Qed.

(** Alternatives with the OR shortcut operator false: SELECT NULL || '', NULL || FALSE, NULL || 'X', 'A' || 'B', 'A' || FALSE, 'A' || '' || 'B' FROM scope() *)
Example golden_s075 : golden
  [SQuery "" (Select false [("NULL || ''", (CExpr (EOr (ELit VNull) [("||", (ELit (VStr "")))]))); ("NULL || FALSE", (CExpr (EOr (ELit VNull) [("||", (ELit (VBool false)))]))); ("NULL || 'X'", (CExpr (EOr (ELit VNull) [("||", (ELit (VStr "X")))]))); ("'A' || 'B'", (CExpr (EOr (ELit (VStr "A")) [("||", (ELit (VStr "B")))]))); ("'A' || FALSE", (CExpr (EOr (ELit (VStr "A")) [("||", (ELit (VBool false)))]))); ("'A' || '' || 'B'", (CExpr (EOr (ELit (VStr "A")) [("||", (ELit (VStr ""))); ("||", (ELit (VStr "B")))])))] (Plugin ["scope"] true []) None None None None)]
  [[(JObj [("NULL || ''", (JStr "")); ("NULL || FALSE", (JBool false)); ("NULL || 'X'", (JStr "X")); ("'A' || 'B'", (JStr "A")); ("'A' || FALSE", (JStr "A")); ("'A' || '' || 'B'", (JStr "A"))])]].
Proof. vm_compute. reflexivity. Qed.

(** Alternatives with AND shortcut operator: SELECT NULL && '', TRUE && 'XX', 'A' && 'B', 'A' && FALSE, ((FALSE && 1) || 2), TRUE && 1 || 2 FROM scope() *)
Example golden_s076 : golden
  [SQuery "" (Select false [("NULL  && ''", (CExpr (EAnd (ELit VNull) [("&&", (ELit (VStr "")))]))); ("TRUE  && 'XX'", (CExpr (EAnd (ELit (VBool true)) [("&&", (ELit (VStr "XX")))]))); ("'A'  && 'B'", (CExpr (EAnd (ELit (VStr "A")) [("&&", (ELit (VStr "B")))]))); ("'A'  && FALSE", (CExpr (EAnd (ELit (VStr "A")) [("&&", (ELit (VBool false)))]))); ("((FALSE  && 1) || 2)", (CExpr (EOr (EAnd (ELit (VBool false)) [("&&", (ELit (vint (1))))]) [("||", (ELit (vint (2))))]))); ("TRUE  && 1 || 2", (CExpr (EAnd (ELit (VBool true)) [("&&", (EOr (ELit (vint (1))) [("||", (ELit (vint (2))))]))])))] (Plugin ["scope"] true []) None None None None)]
  [[(JObj [("NULL  && ''", (JBool false)); ("TRUE  && 'XX'", (JStr "XX")); ("'A'  && 'B'", (JStr "B")); ("'A'  && FALSE", (JBool false)); ("((FALSE  && 1) || 2)", (JInt (2))); ("TRUE  && 1 || 2", (JInt (1)))])]].
Proof. vm_compute. reflexivity. Qed.

(** Whitespace in the query: SELECT * FROM test() *)
Example golden_s077 : golden
  [SQuery "" (Select true [] (Plugin ["test"] true []) None None None None)]
  [[(JObj [("foo", (JInt (0))); ("bar", (JInt (0)))]); (JObj [("foo", (JInt (2))); ("bar", (JInt (1)))]); (JObj [("foo", (JInt (4))); ("bar", (JInt (2)))])]].
Proof. vm_compute. reflexivity. Qed.

