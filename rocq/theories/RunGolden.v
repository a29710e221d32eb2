(** The whole model on the project's own tests, from text to rows: the text
    is lexed and parsed (Lexer.v, Parser.v), elaborated (Elab.v) and evaluated
    (Eval.v), and must give what the project records for it.

    [runs]: the queries of vfilter_test.go (vqlTests, multiVQLTest) against
    /repo/fixtures/vql_queries.golden and multi_vql_queries.golden.
    [where_value]: the clauses of execTests, each evaluated as the WHERE clause of
    a query (vfilter_test.go:466-489 TestEvalWhereClause), against the value
    written beside it.  These are tests of the model, not theorems.

    Left out: the queries that use objects of the test program, that rely on
    rows not being computed after a LIMIT, and EXPLAIN. *)

From Coq Require Import ZArith List String Ascii Bool.
From Verif Require Import Base F64 Value Protocols Monad Chains Syntax Lexer Grammar Parser Eval EvalGolden Elab.
Import ListNotations.
Open Scope nat_scope.
Open Scope string_scope.
Open Scope list_scope.

Definition runs (text : string) (expected : list (list json)) : Prop :=
  match parse_multi text with
  | Some l => golden (elab_script l) expected
  | None => False
  end.

Definition where_value (clause : string) (expected : val) : Prop :=
  match parse_vql ("select * from plugin() where 
" ++ clause) with
  | Some (GQuery (GSelect _ _ _ _ (Some w) _ _ _)) =>
      let R := ev test_env golden_fuel in
      match r_expr R test_scope (fst (elab_comma w 0)) st0 with
      | (_, RVal v) => eq_disp [] v expected = true
      | _ => False
      end
  | _ => False
  end.

(** query with dicts *)
Example run_s000 : runs "select * from test()"
  [[(JObj [("foo", (JInt (0))); ("bar", (JInt (0)))]); (JObj [("foo", (JInt (2))); ("bar", (JInt (1)))]); (JObj [("foo", (JInt (4))); ("bar", (JInt (2)))])]].
Proof. vm_compute. reflexivity. Qed.

(** query with ints *)
Example run_s001 : runs "select * from range(start=10, end=12)"
  [[(JObj [("value", (JInt (10)))]); (JObj [("value", (JInt (11)))]); (JObj [("value", (JInt (12)))])]].
Proof. vm_compute. reflexivity. Qed.

(** query with wild card followed by comma *)
Example run_s002 : runs "select *, 1 AS Extra from test()"
  [[(JObj [("foo", (JInt (0))); ("bar", (JInt (0))); ("Extra", (JInt (1)))]); (JObj [("foo", (JInt (2))); ("bar", (JInt (1))); ("Extra", (JInt (1)))]); (JObj [("foo", (JInt (4))); ("bar", (JInt (2))); ("Extra", (JInt (1)))])]].
Proof. vm_compute. reflexivity. Qed.

(** aliases with shadowed var *)
Example run_s003 : runs "select env_var as EnvVar, foo as FooColumn from test()"
  [[(JObj [("EnvVar", (JStr "EnvironmentData")); ("FooColumn", (JInt (0)))]); (JObj [("EnvVar", (JStr "EnvironmentData")); ("FooColumn", (JInt (2)))]); (JObj [("EnvVar", (JStr "EnvironmentData")); ("FooColumn", (JInt (4)))])]].
Proof. vm_compute. reflexivity. Qed.

(** aliases with non-shadowed var *)
Example run_s004 : runs "select foo as FooColumn from range(start=1, end=2)"
  [[(JObj [("FooColumn", (JObj [("bar", (JObj [("baz", (JInt (5)))])); ("bar2", (JInt (7)))]))]); (JObj [("FooColumn", (JObj [("bar", (JObj [("baz", (JInt (5)))])); ("bar2", (JInt (7)))]))])]].
Proof. vm_compute. reflexivity. Qed.

(** condition on aliases *)
Example run_s005 : runs "select foo as FooColumn from test() where FooColumn = 2"
  [[(JObj [("FooColumn", (JInt (2)))])]].
Proof. vm_compute. reflexivity. Qed.

(** condition on aliases with not *)
Example run_s006 : runs "select foo as FooColumn from test() where NOT FooColumn = 2"
  [[(JObj [("FooColumn", (JInt (0)))]); (JObj [("FooColumn", (JInt (4)))])]].
Proof. vm_compute. reflexivity. Qed.

(** condition on non aliases *)
Example run_s007 : runs "select foo as FooColumn from test() where foo = 4"
  [[(JObj [("FooColumn", (JInt (4)))])]].
Proof. vm_compute. reflexivity. Qed.

(** dict plugin *)
Example run_s008 : runs "select * from dict(env_var=15, foo=5, `field with space`='value')"
  [[(JObj [("env_var", (JInt (15))); ("foo", (JInt (5))); ("field with space", (JStr "value"))])]].
Proof. vm_compute. reflexivity. Qed.

(** dict plugin with invalid column *)
Example run_s009 : runs "select no_such_column from dict(env_var=15, foo=5)"
  [[(JObj [("no_such_column", JNull)])]].
Proof. vm_compute. reflexivity. Qed.

(** dict plugin with invalid column in expression *)
Example run_s010 : runs "select no_such_column + 'foo' from dict(env_var=15, foo=5)"
  [[(JObj [("no_such_column + 'foo'", JNull)])]].
Proof. vm_compute. reflexivity. Qed.

(** mix from env and plugin *)
Example run_s011 : runs "select env_var + param as ConCat from dict(param='param')"
  [[(JObj [("ConCat", (JStr "EnvironmentDataparam"))])]].
Proof. vm_compute. reflexivity. Qed.

(** subselects *)
Example run_s012 : runs "select param from dict(param={select * from range(start=3, end=5)})"
  [[(JObj [("param", (JArr [(JObj [("value", (JInt (3)))]); (JObj [("value", (JInt (4)))]); (JObj [("value", (JInt (5)))])]))])]].
Proof. vm_compute. reflexivity. Qed.

(** empty subselects should produce null *)
Example run_s013 : runs "select {select * from range(start=3, end=5) WHERE 0} AS Value FROM scope()"
  [[(JObj [("Value", JNull)])]].
Proof. vm_compute. reflexivity. Qed.

(** subselects addition *)
Example run_s014 : runs "select q1.value + q2.value as Sum from
                         dict(q1={select * from range(start=3, end=5)},
                              q2={select * from range(start=10, end=14)})"
  [[(JObj [("Sum", (JArr [(JInt (3)); (JInt (4)); (JInt (5)); (JInt (10)); (JInt (11)); (JInt (12)); (JInt (13)); (JInt (14))]))])]].
Proof. vm_compute. reflexivity. Qed.

(** Functions in select expression *)
Example run_s015 : runs "select func_foo(return=q1 + 4) from dict(q1=3)"
  [[(JObj [("func_foo(return=q1 + 4)", (JInt (7)))])]].
Proof. vm_compute. reflexivity. Qed.

(** Subselect in column. *)
Example run_s016 : runs "select bar, {select * from dict(column=bar)} as Query
                 from test()"
  [[(JObj [("bar", (JInt (0))); ("Query", (JInt (0)))]); (JObj [("bar", (JInt (1))); ("Query", (JInt (1)))]); (JObj [("bar", (JInt (2))); ("Query", (JInt (2)))])]].
Proof. vm_compute. reflexivity. Qed.

(** Subselect functions in filter. *)
Example run_s017 : runs "select bar, {select * from dict(column=bar)} as Query
                 from test() where 1 in Query.column"
  [[]].
Proof. vm_compute. reflexivity. Qed.

(** Subselect in columns *)
Example run_s018 : runs "select bar, { select column from dict(column=bar) } AS subquery from test()
                        "
  [[(JObj [("bar", (JInt (0))); ("subquery", (JInt (0)))]); (JObj [("bar", (JInt (1))); ("subquery", (JInt (1)))]); (JObj [("bar", (JInt (2))); ("subquery", (JInt (2)))])]].
Proof. vm_compute. reflexivity. Qed.

(** Foreach plugin *)
Example run_s019 : runs "
            select * from foreach(
                row={
                   select * from test()
                }, query={
                   select bar, foo, value from range(start=bar, end=foo)
                })"
  [[(JObj [("bar", (JInt (0))); ("foo", (JInt (0))); ("value", (JInt (0)))]); (JObj [("bar", (JInt (1))); ("foo", (JInt (2))); ("value", (JInt (1)))]); (JObj [("bar", (JInt (1))); ("foo", (JInt (2))); ("value", (JInt (2)))]); (JObj [("bar", (JInt (2))); ("foo", (JInt (4))); ("value", (JInt (2)))]); (JObj [("bar", (JInt (2))); ("foo", (JInt (4))); ("value", (JInt (3)))]); (JObj [("bar", (JInt (2))); ("foo", (JInt (4))); ("value", (JInt (4)))])]].
Proof. vm_compute. reflexivity. Qed.

(** Foreach plugin with array *)
Example run_s020 : runs "
            select * from foreach(
                row=[dict(bar=1, foo=2), dict(foo=1, bar=2)],
                query={
                   select bar, foo from scope()
                })"
  [[(JObj [("bar", (JInt (1))); ("foo", (JInt (2)))]); (JObj [("bar", (JInt (2))); ("foo", (JInt (1)))])]].
Proof. vm_compute. reflexivity. Qed.

(** Foreach plugin with single object *)
Example run_s021 : runs "
            select * from foreach(
                row=dict(bar=1, foo=2),
                query={
                   select bar, foo from scope()
                })"
  [[(JObj [("bar", (JInt (1))); ("foo", (JInt (2)))])]].
Proof. vm_compute. reflexivity. Qed.

(** Foreach with non row elements *)
Example run_s023 : runs "SELECT * FROM foreach(row=1, query='hello')"
  [[(JObj [("_value", (JStr "hello"))])]].
Proof. vm_compute. reflexivity. Qed.

(** Foreach with non row elements *)
Example run_s024 : runs "SELECT * FROM foreach(row=1, query=[1,2,3,4])"
  [[(JObj [("_value", (JInt (1)))]); (JObj [("_value", (JInt (2)))]); (JObj [("_value", (JInt (3)))]); (JObj [("_value", (JInt (4)))])]].
Proof. vm_compute. reflexivity. Qed.

(** Foreach with non row elements *)
Example run_s025 : runs "SELECT * FROM foreach(row=[1,2,3], query={SELECT _value FROM scope()})"
  [[(JObj [("_value", (JInt (1)))]); (JObj [("_value", (JInt (2)))]); (JObj [("_value", (JInt (3)))])]].
Proof. vm_compute. reflexivity. Qed.

(** Foreach with no query - single object *)
Example run_s026 : runs "SELECT * FROM foreach(row=dict(X=1))"
  [[(JObj [("X", (JInt (1)))])]].
Proof. vm_compute. reflexivity. Qed.

(** Foreach with no query - array of objects *)
Example run_s027 : runs "SELECT * FROM foreach(row=[dict(X=1), dict(X=2)])"
  [[(JObj [("X", (JInt (1)))]); (JObj [("X", (JInt (2)))])]].
Proof. vm_compute. reflexivity. Qed.

(** Foreach with no query - select with column *)
Example run_s028 : runs "SELECT * FROM foreach(row={ SELECT dict(X=1) AS X FROM scope()}, column='X')"
  [[(JObj [("X", (JInt (1)))])]].
Proof. vm_compute. reflexivity. Qed.

(** Foreach with no query - with null *)
Example run_s029 : runs "SELECT * FROM foreach(row=NULL)"
  [[]].
Proof. vm_compute. reflexivity. Qed.

(** Foreach with no query - with null in array *)
Example run_s030 : runs "SELECT * FROM foreach(row=[NULL, NULL, dict(X=1)])"
  [[(JObj [("X", (JInt (1)))])]].
Proof. vm_compute. reflexivity. Qed.

(** Query plugin with dots *)
Example run_s031 : runs "Select * from Artifact.Linux.Sys()"
  [[]].
Proof. vm_compute. reflexivity. Qed.

(** Order by *)
Example run_s032 : runs "select * from test() order by foo"
  [[(JObj [("foo", (JInt (0))); ("bar", (JInt (0)))]); (JObj [("foo", (JInt (2))); ("bar", (JInt (1)))]); (JObj [("foo", (JInt (4))); ("bar", (JInt (2)))])]].
Proof. vm_compute. reflexivity. Qed.

(** Order by desc *)
Example run_s033 : runs "select * from test() order by foo DESC"
  [[(JObj [("foo", (JInt (4))); ("bar", (JInt (2)))]); (JObj [("foo", (JInt (2))); ("bar", (JInt (1)))]); (JObj [("foo", (JInt (0))); ("bar", (JInt (0)))])]].
Proof. vm_compute. reflexivity. Qed.

(** Limit *)
Example run_s034 : runs "select * from test() limit 1"
  [[(JObj [("foo", (JInt (0))); ("bar", (JInt (0)))])]].
Proof. vm_compute. reflexivity. Qed.

(** Limit and order *)
Example run_s035 : runs "select * from test() order by foo desc limit 1"
  [[(JObj [("foo", (JInt (4))); ("bar", (JInt (2)))])]].
Proof. vm_compute. reflexivity. Qed.

(** Comments Simple *)
Example run_s036 : runs "// This is a single line comment
select * from test() limit 1"
  [[(JObj [("foo", (JInt (0))); ("bar", (JInt (0)))])]].
Proof. vm_compute. reflexivity. Qed.

(** Comments SQL Style *)
Example run_s037 : runs "-- This is a single line comment in sql style
select * from test() limit 1"
  [[(JObj [("foo", (JInt (0))); ("bar", (JInt (0)))])]].
Proof. vm_compute. reflexivity. Qed.

(** Comments Multiline *)
Example run_s038 : runs "/* This is a multiline comment
this is the rest of the comment */
select * from test() limit 1"
  [[(JObj [("foo", (JInt (0))); ("bar", (JInt (0)))])]].
Proof. vm_compute. reflexivity. Qed.

(** Not combined with AND *)
Example run_s039 : runs "select * from test() WHERE 1 and not foo = 2"
  [[(JObj [("foo", (JInt (0))); ("bar", (JInt (0)))]); (JObj [("foo", (JInt (4))); ("bar", (JInt (2)))])]].
Proof. vm_compute. reflexivity. Qed.

(** Not combined with AND 2 *)
Example run_s040 : runs "select * from test() WHERE 0 and not foo = 2"
  [[]].
Proof. vm_compute. reflexivity. Qed.

(** Not combined with OR *)
Example run_s041 : runs "select * from test() WHERE 1 or not foo = 20"
  [[(JObj [("foo", (JInt (0))); ("bar", (JInt (0)))]); (JObj [("foo", (JInt (2))); ("bar", (JInt (1)))]); (JObj [("foo", (JInt (4))); ("bar", (JInt (2)))])]].
Proof. vm_compute. reflexivity. Qed.

(** Not combined with OR 2 *)
Example run_s042 : runs "select * from test() WHERE 0 or not foo = 20"
  [[(JObj [("foo", (JInt (0))); ("bar", (JInt (0)))]); (JObj [("foo", (JInt (2))); ("bar", (JInt (1)))]); (JObj [("foo", (JInt (4))); ("bar", (JInt (2)))])]].
Proof. vm_compute. reflexivity. Qed.

(** Group by 1 *)
Example run_s043 : runs "select foo, bar from groupbytest() GROUP BY bar"
  [[(JObj [("foo", (JInt (2))); ("bar", (JInt (5)))]); (JObj [("foo", (JInt (4))); ("bar", (JInt (2)))])]].
Proof. vm_compute. reflexivity. Qed.

(** Group by * *)
Example run_s044 : runs "select * from groupbytest() GROUP BY bar"
  [[(JObj [("foo", (JInt (2))); ("bar", (JInt (5))); ("baz", (JStr "b"))]); (JObj [("foo", (JInt (4))); ("bar", (JInt (2))); ("baz", (JStr "d"))])]].
Proof. vm_compute. reflexivity. Qed.

(** Group by count *)
Example run_s045 : runs "select foo, bar, count(items=bar) from groupbytest() GROUP BY bar"
  [[(JObj [("foo", (JInt (2))); ("bar", (JInt (5))); ("count(items=bar)", (JInt (2)))]); (JObj [("foo", (JInt (4))); ("bar", (JInt (2))); ("count(items=bar)", (JInt (2)))])]].
Proof. vm_compute. reflexivity. Qed.

(** Group by count with * *)
Example run_s046 : runs "select *, count(items=bar) from groupbytest() GROUP BY bar"
  [[(JObj [("foo", (JInt (2))); ("bar", (JInt (5))); ("baz", (JStr "b")); ("count(items=bar)", (JInt (2)))]); (JObj [("foo", (JInt (4))); ("bar", (JInt (2))); ("baz", (JStr "d")); ("count(items=bar)", (JInt (2)))])]].
Proof. vm_compute. reflexivity. Qed.

(** Group by count with where *)
Example run_s047 : runs "select foo, bar, count(items=bar) from groupbytest() WHERE foo < 4 GROUP BY bar"
  [[(JObj [("foo", (JInt (2))); ("bar", (JInt (5))); ("count(items=bar)", (JInt (2)))]); (JObj [("foo", (JInt (3))); ("bar", (JInt (2))); ("count(items=bar)", (JInt (1)))])]].
Proof. vm_compute. reflexivity. Qed.

(** Group by min *)
Example run_s048 : runs "select foo, bar, min(item=foo) from groupbytest() GROUP BY bar"
  [[(JObj [("foo", (JInt (2))); ("bar", (JInt (5))); ("min(item=foo)", (JInt (1)))]); (JObj [("foo", (JInt (4))); ("bar", (JInt (2))); ("min(item=foo)", (JInt (3)))])]].
Proof. vm_compute. reflexivity. Qed.

(** Group by max *)
Example run_s049 : runs "select foo, bar, max(item=foo) from groupbytest() GROUP BY bar"
  [[(JObj [("foo", (JInt (2))); ("bar", (JInt (5))); ("max(item=foo)", (JInt (2)))]); (JObj [("foo", (JInt (4))); ("bar", (JInt (2))); ("max(item=foo)", (JInt (4)))])]].
Proof. vm_compute. reflexivity. Qed.

(** Group by enumrate of string *)
Example run_s050 : runs "select baz, bar, enumerate(items=baz) from groupbytest() GROUP BY bar"
  [[(JObj [("baz", (JStr "b")); ("bar", (JInt (5))); ("enumerate(items=baz)", (JArr [(JStr "a"); (JStr "b")]))]); (JObj [("baz", (JStr "d")); ("bar", (JInt (2))); ("enumerate(items=baz)", (JArr [(JStr "c"); (JStr "d")]))])]].
Proof. vm_compute. reflexivity. Qed.

(** Groupby evaluates each row twice *)
Example run_s051 : runs "SELECT * FROM chain(
a={ SELECT count() FROM scope()},
b={
     SELECT count(), count(items=bar), bar FROM groupbytest() GROUP BY bar
})"
  [[(JObj [("count()", (JInt (1)))]); (JObj [("count()", (JInt (2))); ("count(items=bar)", (JInt (2))); ("bar", (JInt (5)))]); (JObj [("count()", (JInt (2))); ("count(items=bar)", (JInt (2))); ("bar", (JInt (2)))])]].
Proof. vm_compute. reflexivity. Qed.

(** Lazy row evaluation (Shoud panic if foo=2 *)
Example run_s052 : runs "select foo, panic(column=foo, value=2) from test() where foo = 4"
  [[(JObj [("foo", (JInt (4))); ("panic(column=foo, value=2)", (JInt (2)))])]].
Proof. vm_compute. reflexivity. Qed.

(** Quotes strings *)
Example run_s053 : runs "select 'foo\'s quote' from scope()"
  [[(JObj [("'foo\'s quote'", (JStr "foo's quote"))])]].
Proof. vm_compute. reflexivity. Qed.

(** Hex quotes *)
Example run_s054 : runs "SELECT format(format='%x', args=""\x01\x02\xf0\xf1"") FROM scope()"
  [[(JObj [("format(format='%x', args=""\x01\x02\xf0\xf1"")", (JStr "0102f0f1"))])]].
Proof. vm_compute. reflexivity. Qed.

(** Test get() *)
Example run_s055 : runs "select get(item=[dict(foo=3), 2, 3, 4], member='0.foo') AS Foo from scope()"
  [[(JObj [("Foo", (JInt (3)))])]].
Proof. vm_compute. reflexivity. Qed.

(** Array concatenation *)
Example run_s056 : runs "SELECT (1,2) + (3,4) FROM scope()"
  [[(JObj [("(1, 2) + (3, 4)", (JArr [(JInt (1)); (JInt (2)); (JInt (3)); (JInt (4))]))])]].
Proof. vm_compute. reflexivity. Qed.

(** Array concatenation to any *)
Example run_s057 : runs "SELECT (1,2) + 4 FROM scope()"
  [[(JObj [("(1, 2) + 4", (JArr [(JInt (1)); (JInt (2)); (JInt (4))]))])]].
Proof. vm_compute. reflexivity. Qed.

(** Array concatenation with if *)
Example run_s058 : runs "SELECT (1,2) + if(condition=1, then=(3,4)) AS Field FROM scope()"
  [[(JObj [("Field", (JArr [(JInt (1)); (JInt (2)); (JInt (3)); (JInt (4))]))])]].
Proof. vm_compute. reflexivity. Qed.

(** Array empty with if *)
Example run_s059 : runs "SELECT if(condition=1, then=[]) AS Field FROM scope()"
  [[(JObj [("Field", (JArr []))])]].
Proof. vm_compute. reflexivity. Qed.

(** Array concatenation with Null *)
Example run_s060 : runs "SELECT (1,2) + if(condition=0, then=(3,4)) AS Field FROM scope()"
  [[(JObj [("Field", (JArr [(JInt (1)); (JInt (2)); JNull]))])]].
Proof. vm_compute. reflexivity. Qed.

(** Spurious line feeds and tabs *)
Example run_s061 : runs "SELECT  
1
+
2	AS
FooBar	
 FROM
 scope(
)
WHERE
 FooBar >
1
AND
TRUE
"
  [[(JObj [("FooBar", (JInt (3)))])]].
Proof. vm_compute. reflexivity. Qed.

(** If function and comparison expression *)
Example run_s062 : runs "SELECT if(condition=1 + 1 = 2, then=2, else=3), if(condition=1 + 2 = 2, then=2, else=3) FROM scope()"
  [[(JObj [("if(condition=1 + 1 = 2, then=2, else=3)", (JInt (2))); ("if(condition=1 + 2 = 2, then=2, else=3)", (JInt (3)))])]].
Proof. vm_compute. reflexivity. Qed.

(** If function and subselects *)
Example run_s063 : runs "SELECT if(condition=1, then={ SELECT * FROM test() }) FROM scope()"
  [[(JObj [("if(condition=1, then={ SELECT * FROM test() })", (JArr [(JObj [("foo", (JInt (0))); ("bar", (JInt (0)))]); (JObj [("foo", (JInt (2))); ("bar", (JInt (1)))]); (JObj [("foo", (JInt (4))); ("bar", (JInt (2)))])]))])]].
Proof. vm_compute. reflexivity. Qed.

(** If function should be lazy *)
Example run_s064 : runs "SELECT if(condition=FALSE, then=panic(column=3, value=3)) from scope()"
  [[(JObj [("if(condition=FALSE, then=panic(column=3, value=3))", JNull)])]].
Proof. vm_compute. reflexivity. Qed.

(** If function should be lazy *)
Example run_s065 : runs "SELECT if(condition=TRUE, else=panic(column=7, value=7)) from scope()"
  [[(JObj [("if(condition=TRUE, else=panic(column=7, value=7))", JNull)])]].
Proof. vm_compute. reflexivity. Qed.

(** If function should be lazy with sub query *)
Example run_s066 : runs "SELECT if(condition=TRUE, then={ SELECT * FROM test() LIMIT 1}) from scope()"
  [[(JObj [("if(condition=TRUE, then={ SELECT * FROM test() LIMIT 1  })", (JArr [(JObj [("foo", (JInt (0))); ("bar", (JInt (0)))])]))])]].
Proof. vm_compute. reflexivity. Qed.

(** If function should be lazy with sub query *)
Example run_s067 : runs "SELECT if(condition=FALSE, then={ SELECT panic(column=8, value=8) FROM test()}) from scope()"
  [[(JObj [("if(condition=FALSE, then={ SELECT panic(column=8, value=8) FROM test() })", JNull)])]].
Proof. vm_compute. reflexivity. Qed.

(** If function should be lazy *)
Example run_s068 : runs "SELECT if(condition=TRUE, else={ SELECT panic(column=9, value=9) FROM test()}) from scope()"
  [[(JObj [("if(condition=TRUE, else={ SELECT panic(column=9, value=9) FROM test() })", JNull)])]].
Proof. vm_compute. reflexivity. Qed.

(** If function should be lazy WRT stored query 1/2 *)
Example run_s069 : runs "LET bomb = SELECT panic(column=1, value=1) FROM scope()"
  [].
Proof. vm_compute. reflexivity. Qed.

(** If function should be lazy WRT stored query 2/2 *)
Example run_s070 : runs "SELECT if(condition=FALSE, then=bomb) FROM scope()"
  [[(JObj [("if(condition=FALSE, then=bomb)", JNull)])]].
Proof. vm_compute. reflexivity. Qed.

(** If plugin and arrays *)
Example run_s071 : runs "SELECT * FROM if(condition=1, then=[dict(Foo=1), dict(Foo=2)])"
  [[(JObj [("Foo", (JInt (1)))]); (JObj [("Foo", (JInt (2)))])]].
Proof. vm_compute. reflexivity. Qed.

(** If plugin and dict *)
Example run_s072 : runs "SELECT * FROM if(condition=1, then=dict(Foo=2))"
  [[(JObj [("Foo", (JInt (2)))])]].
Proof. vm_compute. reflexivity. Qed.

(** Columns with space in them *)
Example run_s073 : runs "SELECT foo as `column with space` FROM dict(foo='hello world')"
  [[(JObj [("column with space", (JStr "hello world"))])]].
Proof. vm_compute. reflexivity. Qed.

(** Alternatives with the OR shortcut operator *)
Example run_s074 : runs "SELECT get(member='Foo') || get(member='Bar') || 'Hello' FROM scope()"
  [[(JObj [("get(member='Foo') || get(member='Bar') || 'Hello'", (JStr "Hello"))])]].
Proof. vm_compute. reflexivity. Qed.

(** Alternatives with the OR shortcut operator false *)
Example run_s075 : runs "SELECT NULL || '', NULL || FALSE, NULL || 'X', 'A' || 'B', 'A' || FALSE, 'A' || '' || 'B' FROM scope()"
  [[(JObj [("NULL || ''", (JStr "")); ("NULL || FALSE", (JBool false)); ("NULL || 'X'", (JStr "X")); ("'A' || 'B'", (JStr "A")); ("'A' || FALSE", (JStr "A")); ("'A' || '' || 'B'", (JStr "A"))])]].
Proof. vm_compute. reflexivity. Qed.

(** Alternatives with AND shortcut operator *)
Example run_s076 : runs "SELECT NULL && '', TRUE && 'XX', 'A' && 'B', 'A' && FALSE, ((FALSE && 1) || 2), TRUE && 1 || 2 FROM scope()"
  [[(JObj [("NULL  && ''", (JBool false)); ("TRUE  && 'XX'", (JStr "XX")); ("'A'  && 'B'", (JStr "B")); ("'A'  && FALSE", (JBool false)); ("((FALSE  && 1) || 2)", (JInt (2))); ("TRUE  && 1 || 2", (JInt (1)))])]].
Proof. vm_compute. reflexivity. Qed.

(** Whitespace in the query *)
Example run_s077 : runs "SELECT * FROM
test()"
  [[(JObj [("foo", (JInt (0))); ("bar", (JInt (0)))]); (JObj [("foo", (JInt (2))); ("bar", (JInt (1)))]); (JObj [("foo", (JInt (4))); ("bar", (JInt (2)))])]].
Proof. vm_compute. reflexivity. Qed.

(** Query with LET *)
Example run_m000 : runs "LET X = SELECT * FROM test()  SELECT * FROM X"
  [[(JObj [("foo", (JInt (0))); ("bar", (JInt (0)))]); (JObj [("foo", (JInt (2))); ("bar", (JInt (1)))]); (JObj [("foo", (JInt (4))); ("bar", (JInt (2)))])]].
Proof. vm_compute. reflexivity. Qed.

(** MultiSelect *)
Example run_m001 : runs "SELECT 'Bar' AS Foo FROM scope() SELECT 'Foo' AS Foo FROM scope()"
  [[(JObj [("Foo", (JStr "Bar"))])];
   [(JObj [("Foo", (JStr "Foo"))])]].
Proof. vm_compute. reflexivity. Qed.

(** LET with index *)
Example run_m002 : runs "LET X = SELECT * FROM test() SELECT X[0], X[1].bar FROM scope()"
  [[(JObj [("X[0]", (JObj [("foo", (JInt (0))); ("bar", (JInt (0)))])); ("X[1].bar", (JInt (1)))])]].
Proof. vm_compute. reflexivity. Qed.

(** LET with extra columns *)
Example run_m003 : runs "LET X = SELECT * FROM test() SELECT *, 1 FROM X"
  [[(JObj [("foo", (JInt (0))); ("bar", (JInt (0))); ("1", (JInt (1)))]); (JObj [("foo", (JInt (2))); ("bar", (JInt (1))); ("1", (JInt (1)))]); (JObj [("foo", (JInt (4))); ("bar", (JInt (2))); ("1", (JInt (1)))])]].
Proof. vm_compute. reflexivity. Qed.

(** LET with extra columns before * *)
Example run_m004 : runs "LET X = SELECT * FROM test() SELECT 1, *, 2 FROM X"
  [[(JObj [("1", (JInt (1))); ("foo", (JInt (0))); ("bar", (JInt (0))); ("2", (JInt (2)))]); (JObj [("1", (JInt (1))); ("foo", (JInt (2))); ("bar", (JInt (1))); ("2", (JInt (2)))]); (JObj [("1", (JInt (1))); ("foo", (JInt (4))); ("bar", (JInt (2))); ("2", (JInt (2)))])]].
Proof. vm_compute. reflexivity. Qed.

(** LET with extra columns before * and override *)
Example run_m005 : runs "LET X = SELECT * FROM test() SELECT 1000 + foo as foo, *, 2 FROM X"
  [[(JObj [("foo", (JInt (1000))); ("bar", (JInt (0))); ("2", (JInt (2)))]); (JObj [("foo", (JInt (1002))); ("bar", (JInt (1))); ("2", (JInt (2)))]); (JObj [("foo", (JInt (1004))); ("bar", (JInt (2))); ("2", (JInt (2)))])]].
Proof. vm_compute. reflexivity. Qed.

(** LET materialized with extra columns *)
Example run_m006 : runs "LET X <= SELECT * FROM test() SELECT *, 1 FROM X"
  [[(JObj [("foo", (JInt (0))); ("bar", (JInt (0))); ("1", (JInt (1)))]); (JObj [("foo", (JInt (2))); ("bar", (JInt (1))); ("1", (JInt (1)))]); (JObj [("foo", (JInt (4))); ("bar", (JInt (2))); ("1", (JInt (1)))])]].
Proof. vm_compute. reflexivity. Qed.

(** Column name with space *)
Example run_m007 : runs "LET X <= SELECT 2 AS `Hello World` FROM scope() SELECT `Hello World`, `Hello World` + 4 AS Foo, X.`Hello World` FROM X"
  [[(JObj [("Hello World", (JInt (2))); ("Foo", (JInt (6))); ("X.`Hello World`", (JArr [(JInt (2))]))])]].
Proof. vm_compute. reflexivity. Qed.

(** Group by with columns with spaces *)
Example run_m008 : runs "LET X = SELECT foo, bar AS `Foo Bar` FROM groupbytest() SELECT * FROM X GROUP BY `Foo Bar`"
  [[(JObj [("foo", (JInt (2))); ("Foo Bar", (JInt (5)))]); (JObj [("foo", (JInt (4))); ("Foo Bar", (JInt (2)))])]].
Proof. vm_compute. reflexivity. Qed.

(** Order by with columns with spaces *)
Example run_m009 : runs "LET X = SELECT foo AS `Foo Bar` FROM groupbytest() SELECT * FROM X ORDER BY `Foo Bar` DESC"
  [[(JObj [("Foo Bar", (JInt (4)))]); (JObj [("Foo Bar", (JInt (3)))]); (JObj [("Foo Bar", (JInt (2)))]); (JObj [("Foo Bar", (JInt (1)))])]].
Proof. vm_compute. reflexivity. Qed.

(** LET with expression *)
Example run_m010 : runs "LET X = 'Hello world' SELECT X FROM scope()"
  [[(JObj [("X", (JStr "Hello world"))])]].
Proof. vm_compute. reflexivity. Qed.

(** LET with expression lazy *)
Example run_m011 : runs "LET X = panic() SELECT 1 + 1 FROM scope()"
  [[(JObj [("1 + 1", (JInt (2)))])]].
Proof. vm_compute. reflexivity. Qed.

(** LET materialize with expression *)
Example run_m012 : runs "LET X <= 'Hello world' SELECT X FROM scope()"
  [[(JObj [("X", (JStr "Hello world"))])]].
Proof. vm_compute. reflexivity. Qed.

(** Serialization (Unexpected arg aborts parsing) *)
Example run_m013 : runs "SELECT panic(value=1, column=1, colume='X'), func_foo() FROM scope()"
  [[(JObj [("panic(value=1, column=1, colume='X')", JNull); ("func_foo()", (JInt (1)))])]].
Proof. vm_compute. reflexivity. Qed.

(** LET with expression lazy - string concat *)
Example run_m014 : runs "LET X = 'hello' SELECT X + 'world', 'world' + X, 'hello world' =~ X FROM scope()"
  [[(JObj [("X + 'world'", (JStr "helloworld")); ("'world' + X", (JStr "worldhello")); ("'hello world' =~ X", (JBool true))])]].
Proof. vm_compute. reflexivity. Qed.

(** Lazy expression in arrays *)
Example run_m015 : runs "LET X = count() SELECT (1, X), dict(foo=X, bar=[1,X]) FROM scope()"
  [[(JObj [("(1, X)", (JArr [(JInt (1)); (JInt (1))])); ("dict(foo=X, bar=[1, X])", (JObj [("foo", (JInt (3))); ("bar", (JArr [(JInt (1)); (JInt (2))]))]))])]].
Proof. vm_compute. reflexivity. Qed.

(** Calling stored queries as plugins *)
Example run_m016 : runs "LET X = SELECT Foo FROM scope() SELECT * FROM X(Foo=1)"
  [[(JObj [("Foo", (JInt (1)))])]].
Proof. vm_compute. reflexivity. Qed.

(** Defining functions with args *)
Example run_m017 : runs "LET X(Foo, Bar) = Foo + Bar SELECT X(Foo=5, Bar=2) FROM scope()"
  [[(JObj [("X(Foo=5, Bar=2)", (JInt (7)))])]].
Proof. vm_compute. reflexivity. Qed.

(** Defining stored queries with args *)
Example run_m018 : runs "LET X(Foo, Bar) = SELECT Foo + Bar FROM scope() SELECT * FROM X(Foo=5, Bar=2)"
  [[(JObj [("Foo + Bar", (JInt (7)))])]].
Proof. vm_compute. reflexivity. Qed.

(** Defining functions masking variable name *)
Example run_m019 : runs "LET X(foo) = foo + 2 SELECT X(foo=foo), foo FROM test()"
  [[(JObj [("X(foo=foo)", (JInt (2))); ("foo", (JInt (0)))]); (JObj [("X(foo=foo)", (JInt (4))); ("foo", (JInt (2)))]); (JObj [("X(foo=foo)", (JInt (6))); ("foo", (JInt (4)))])]].
Proof. vm_compute. reflexivity. Qed.

(** Defining stored queries masking variable name *)
Example run_m020 : runs "LET X(foo) = SELECT *, foo FROM range(start=foo, end=foo + 2) LET foo=2 SELECT * FROM X(foo=foo)"
  [[(JObj [("value", (JInt (2))); ("foo", (JInt (2)))]); (JObj [("value", (JInt (3))); ("foo", (JInt (2)))]); (JObj [("value", (JInt (4))); ("foo", (JInt (2)))])]].
Proof. vm_compute. reflexivity. Qed.

(** Calling stored query in function context *)
Example run_m021 : runs "LET X(foo) = SELECT *, foo FROM range(start=foo, end=foo + 2) SELECT X(foo=5).value, X(foo=10) FROM scope()"
  [[(JObj [("X(foo=5).value", (JArr [(JInt (5)); (JInt (6)); (JInt (7))])); ("X(foo=10)", (JArr [(JObj [("value", (JInt (10))); ("foo", (JInt (10)))]); (JObj [("value", (JInt (11))); ("foo", (JInt (10)))]); (JObj [("value", (JInt (12))); ("foo", (JInt (10)))])]))])]].
Proof. vm_compute. reflexivity. Qed.

(** Calling stored query with args *)
Example run_m022 : runs "LET X(foo) = SELECT *, foo FROM range(start=foo, end=foo + 2) LET foo = 8 SELECT * FROM foreach(row=X, query={ SELECT *, value FROM X(foo=value) })"
  [[(JObj [("foo", (JInt (8))); ("value", (JInt (8)))]); (JObj [("foo", (JInt (8))); ("value", (JInt (9)))]); (JObj [("foo", (JInt (8))); ("value", (JInt (10)))]); (JObj [("foo", (JInt (9))); ("value", (JInt (9)))]); (JObj [("foo", (JInt (9))); ("value", (JInt (10)))]); (JObj [("foo", (JInt (9))); ("value", (JInt (11)))]); (JObj [("foo", (JInt (10))); ("value", (JInt (10)))]); (JObj [("foo", (JInt (10))); ("value", (JInt (11)))]); (JObj [("foo", (JInt (10))); ("value", (JInt (12)))])]].
Proof. vm_compute. reflexivity. Qed.

(** Lazy expression evaluates in caller's scope *)
Example run_m023 : runs "LET X(foo) = 1 + foo SELECT X(foo= foo + 1 ), foo FROM test()"
  [[(JObj [("X(foo=foo + 1)", (JInt (2))); ("foo", (JInt (0)))]); (JObj [("X(foo=foo + 1)", (JInt (4))); ("foo", (JInt (2)))]); (JObj [("X(foo=foo + 1)", (JInt (6))); ("foo", (JInt (4)))])]].
Proof. vm_compute. reflexivity. Qed.

(** Calling lazy expressions as functions allows access to global scope *)
Example run_m024 : runs "
LET Xk = 5
LET Y = Xk + count()
SELECT Y AS Y1, Y AS Y2, Y() AS Y3 FROM scope()
"
  [[(JObj [("Y1", (JInt (6))); ("Y2", (JInt (7))); ("Y3", (JInt (6)))])]].
Proof. vm_compute. reflexivity. Qed.

(** Overflow condition - should not get stuck *)
Example run_m025 : runs "LET X = 1 + X SELECT X(X=1), X FROM test()"
  [[(JObj [("X(X=1)", (JInt (2))); ("X", JNull)]); (JObj [("X(X=1)", (JInt (2))); ("X", JNull)]); (JObj [("X(X=1)", (JInt (2))); ("X", JNull)])]].
Proof. vm_compute. reflexivity. Qed.

(** Overflow condition - https://github.com/Velocidex/velociraptor/issues/2845 *)
Example run_m026 : runs "LET X = X.ID SELECT * FROM X"
  [[(JObj [])]].
Proof. vm_compute. reflexivity. Qed.

(** Overflow condition - should not get stuck *)
Example run_m027 : runs "LET X = 1 + X  LET Y = 1 + Y SELECT X, Y FROM scope()"
  [[(JObj [("X", JNull); ("Y", JNull)])]].
Proof. vm_compute. reflexivity. Qed.

(** Overflow condition materialized - should not get stuck *)
Example run_m028 : runs "LET X <= 1 + X  LET Y = 1 + Y SELECT X, Y FROM scope()"
  [[(JObj [("X", JNull); ("Y", JNull)])]].
Proof. vm_compute. reflexivity. Qed.

(** Overflow with plugins *)
Example run_m029 : runs "LET foo_plugin(X) = SELECT * FROM chain(a={SELECT * FROM foo_plugin(X=1)}) SELECT * FROM foo_plugin(X=1)"
  [[]].
Proof. vm_compute. reflexivity. Qed.

(** Escaped identifiers for arg parameters *)
Example run_m030 : runs "SELECT dict(`arg-with-special chars`=TRUE) FROM scope()"
  [[(JObj [("dict(`arg-with-special chars`=TRUE)", (JObj [("arg-with-special chars", (JBool true))]))])]].
Proof. vm_compute. reflexivity. Qed.

(** Group by hidden column *)
Example run_m031 : runs "select bar, baz from groupbytest() GROUP BY bar select baz from groupbytest() GROUP BY bar "
  [[(JObj [("bar", (JInt (5))); ("baz", (JStr "b"))]); (JObj [("bar", (JInt (2))); ("baz", (JStr "d"))])];
   [(JObj [("baz", (JStr "b"))]); (JObj [("baz", (JStr "d"))])]].
Proof. vm_compute. reflexivity. Qed.

(** Group by expression *)
Example run_m032 : runs "select *, bar + bar from groupbytest() GROUP BY bar + bar"
  [[(JObj [("foo", (JInt (2))); ("bar", (JInt (5))); ("baz", (JStr "b")); ("bar + bar", (JInt (10)))]); (JObj [("foo", (JInt (4))); ("bar", (JInt (2))); ("baz", (JStr "d")); ("bar + bar", (JInt (4)))])]].
Proof. vm_compute. reflexivity. Qed.

(** Variable can not mask a function. *)
Example run_m033 : runs "LET dict(x) = 1 SELECT 1 AS dict, dict(foo=1) FROM scope() WHERE dict"
  [[(JObj [("dict", (JInt (1))); ("dict(foo=1)", (JObj [("foo", (JInt (1)))]))])]].
Proof. vm_compute. reflexivity. Qed.

(** Foreach evals query in row scope (both queries should be same) *)
Example run_m034 : runs "
LET row_query = SELECT 1 AS ColumnName123 FROM scope()
LET foreach_query = SELECT ColumnName123 FROM scope()
SELECT * FROM foreach(row=row_query, query=foreach_query)
SELECT * FROM foreach(row=row_query, query={SELECT ColumnName123 FROM scope()})
"
  [[(JObj [("ColumnName123", (JInt (1)))])];
   [(JObj [("ColumnName123", (JInt (1)))])]].
Proof. vm_compute. reflexivity. Qed.

(** Aggregate functions with multiple evaluations *)
Example run_m035 : runs "
SELECT count() AS Count FROM foreach(row=[0, 1, 2])
WHERE Count <= 2  AND Count AND Count AND Count
   AND count() and count()  -- Each count() instance is unique and has unique state
"
  [[(JObj [("Count", (JInt (1)))]); (JObj [("Count", (JInt (2)))])]].
Proof. vm_compute. reflexivity. Qed.

(** Aggregate functions: min max *)
Example run_m036 : runs "
SELECT min(item=_value) AS Min,
       max(item=_value) AS Max,
       count() AS Count
FROM foreach(row=[0, 1, 2])
GROUP BY 1
"
  [[(JObj [("Min", (JInt (0))); ("Max", (JInt (2))); ("Count", (JInt (3)))])]].
Proof. vm_compute. reflexivity. Qed.

(** Aggregate functions: min max on strings *)
Example run_m037 : runs "
SELECT min(item=_value) AS Min,
       max(item=_value) AS Max,
       count() AS Count
FROM foreach(row=[""AAA"", ""BBBB"", ""CCC""])
GROUP BY 1
"
  [[(JObj [("Min", (JStr "AAA")); ("Max", (JStr "CCC")); ("Count", (JInt (3)))])]].
Proof. vm_compute. reflexivity. Qed.

(** Aggregate functions keep state per unique instance *)
Example run_m038 : runs "
SELECT count() AS A, count() AS B FROM foreach(row=[0, 1, 2])
"
  [[(JObj [("A", (JInt (1))); ("B", (JInt (1)))]); (JObj [("A", (JInt (2))); ("B", (JInt (2)))]); (JObj [("A", (JInt (3))); ("B", (JInt (3)))])]].
Proof. vm_compute. reflexivity. Qed.

(** Aggregate functions within a VQL function have their own state *)
Example run_m039 : runs "
LET Adder(X) = SELECT *, count() AS Count FROM range(start=10, end=10 + X, step=1)

SELECT Adder(X=4), Adder(X=2) FROM scope()
"
  [[(JObj [("Adder(X=4)", (JArr [(JObj [("value", (JInt (10))); ("Count", (JInt (1)))]); (JObj [("value", (JInt (11))); ("Count", (JInt (2)))]); (JObj [("value", (JInt (12))); ("Count", (JInt (3)))]); (JObj [("value", (JInt (13))); ("Count", (JInt (4)))]); (JObj [("value", (JInt (14))); ("Count", (JInt (5)))])])); ("Adder(X=2)", (JArr [(JObj [("value", (JInt (10))); ("Count", (JInt (1)))]); (JObj [("value", (JInt (11))); ("Count", (JInt (2)))]); (JObj [("value", (JInt (12))); ("Count", (JInt (3)))])]))])]].
Proof. vm_compute. reflexivity. Qed.

(** Aggregate functions within a VQL function have their own state *)
Example run_m040 : runs "
LET Adder(X) = SELECT *, count() AS Count FROM range(start=10, end=10 + X, step=1)

SELECT * FROM foreach(row={ SELECT value FROM range(start=0, end=2, step=1)},
query={
   SELECT * FROM Adder(X=value)
})
"
  [[(JObj [("value", (JInt (10))); ("Count", (JInt (1)))]); (JObj [("value", (JInt (10))); ("Count", (JInt (1)))]); (JObj [("value", (JInt (11))); ("Count", (JInt (2)))]); (JObj [("value", (JInt (10))); ("Count", (JInt (1)))]); (JObj [("value", (JInt (11))); ("Count", (JInt (2)))]); (JObj [("value", (JInt (12))); ("Count", (JInt (3)))])]].
Proof. vm_compute. reflexivity. Qed.

(** Aggregate functions: Sum and Count together *)
Example run_m041 : runs "
LET MyValue <= ""Hello""

SELECT * FROM foreach(row=[2, 3, 4],
  query={
    SELECT count() AS Count,
       sum(item=_value) AS Sum,
       MyValue
    FROM scope()
})"
  [[(JObj [("Count", (JInt (1))); ("Sum", (JInt (2))); ("MyValue", (JStr "Hello"))]); (JObj [("Count", (JInt (2))); ("Sum", (JInt (5))); ("MyValue", (JStr "Hello"))]); (JObj [("Count", (JInt (3))); ("Sum", (JInt (9))); ("MyValue", (JStr "Hello"))])]].
Proof. vm_compute. reflexivity. Qed.

(** Aggregate functions: Sum and Count in stored query definition *)
Example run_m042 : runs "
LET MyValue <= ""Hello""
LET CountMe(Value) = SELECT count() AS Count,
    Value,
    sum(item=Value) AS Sum,
    MyValue
    FROM scope()

LET _value = 10

SELECT * FROM foreach(row=[2, 3, 4],
  query={
    SELECT * FROM CountMe(Value=_value)
})"
  [[(JObj [("Count", (JInt (1))); ("Value", (JInt (2))); ("Sum", (JInt (2))); ("MyValue", (JStr "Hello"))]); (JObj [("Count", (JInt (1))); ("Value", (JInt (3))); ("Sum", (JInt (3))); ("MyValue", (JStr "Hello"))]); (JObj [("Count", (JInt (1))); ("Value", (JInt (4))); ("Sum", (JInt (4))); ("MyValue", (JStr "Hello"))])]].
Proof. vm_compute. reflexivity. Qed.

(** Aggregate functions: Sum and Count in stored query definition *)
Example run_m043 : runs "
LET MyValue <= ""Hello""
LET CountMe(Value) = SELECT count() AS Count,
    Value,
    sum(item=Value) AS Sum,
    MyValue
    FROM scope()

LET _value = 10

-- CountMe is evaluated at point of definition to return a stored query.
SELECT * FROM foreach(row=[2, 3, 4],
  query=CountMe(Value=_value))"
  [[(JObj [("Count", (JInt (1))); ("Value", (JInt (10))); ("Sum", (JInt (10))); ("MyValue", (JStr "Hello"))]); (JObj [("Count", (JInt (2))); ("Value", (JInt (10))); ("Sum", (JInt (20))); ("MyValue", (JStr "Hello"))]); (JObj [("Count", (JInt (3))); ("Value", (JInt (10))); ("Sum", (JInt (30))); ("MyValue", (JStr "Hello"))])]].
Proof. vm_compute. reflexivity. Qed.

(** Aggregate functions: Sum all rows *)
Example run_m044 : runs "
SELECT sum(item=_value) AS Total,
       sum(item=_value * 2) AS TotalDouble
FROM foreach(row=[2, 3, 4])
GROUP BY 1
"
  [[(JObj [("Total", (JInt (9))); ("TotalDouble", (JInt (18)))])]].
Proof. vm_compute. reflexivity. Qed.

(** If function with subqueries *)
Example run_m046 : runs "
LET abc(a) = if(
  condition=a,
  then={SELECT a AS Pass FROM scope()},
  else={SELECT false AS Pass from scope()})

SELECT abc(a=TRUE) AS Pass FROM scope()
"
  [[(JObj [("Pass", (JArr [(JObj [("Pass", JNull)])]))])]].
Proof. vm_compute. reflexivity. Qed.

(** If function with conditions as subqueries *)
Example run_m049 : runs "
LET abc(a) = if(
  condition={SELECT * FROM scope()},  -- returns TRUE
  then={SELECT a AS Pass FROM scope()},
  else={SELECT false AS Pass from scope()})

SELECT abc(a=TRUE) AS Pass FROM scope()
"
  [[(JObj [("Pass", (JArr [(JObj [("Pass", JNull)])]))])]].
Proof. vm_compute. reflexivity. Qed.

(** If function with conditions as stored query *)
Example run_m050 : runs "
LET stored_query = SELECT * FROM scope()

LET abc(a) = if(
  condition=stored_query,
  then={SELECT a AS Pass FROM scope()},
  else={SELECT false AS Pass from scope()})

SELECT abc(a=TRUE) AS Pass FROM scope()
"
  [[(JObj [("Pass", (JArr [(JObj [("Pass", JNull)])]))])]].
Proof. vm_compute. reflexivity. Qed.

(** If function with conditions as vql functions *)
Example run_m051 : runs "
LET adder(a) = a =~ ""Foo""

LET abc(a) = if(
  condition=adder(a=""Foobar""),
  then={SELECT a AS Pass FROM scope()},
  else={SELECT false AS Pass from scope()})

SELECT abc(a=TRUE) AS Pass FROM scope()
"
  [[(JObj [("Pass", (JArr [(JObj [("Pass", JNull)])]))])]].
Proof. vm_compute. reflexivity. Qed.

(** Multiline string constants *)
Example run_m052 : runs "LET X = '''This
is
a
multiline with 'quotes' and ""double quotes"" and \ backslashes
''' + ""A string""

SELECT X FROM scope()
"
  [[(JObj [("X", (JStr "This
is
a
multiline with 'quotes' and ""double quotes"" and \ backslashes
A string"))])]].
Proof. vm_compute. reflexivity. Qed.

(** Expand stored query with parameters on associative *)
Example run_m056 : runs "
LET X(Y) = SELECT Y + 5 + value AS Foo FROM range(start=1, end=2)

SELECT X(Y=2).Foo FROM scope()"
  [[(JObj [("X(Y=2).Foo", (JArr [(JInt (8)); (JInt (9))]))])]].
Proof. vm_compute. reflexivity. Qed.

(** Order by *)
Example run_m057 : runs "
SELECT * FROM foreach(row=(1,8,3,2),
   query={SELECT _value AS X FROM scope()}) ORDER BY X"
  [[(JObj [("X", (JInt (1)))]); (JObj [("X", (JInt (2)))]); (JObj [("X", (JInt (3)))]); (JObj [("X", (JInt (8)))])]].
Proof. vm_compute. reflexivity. Qed.

(** Group by also orders *)
Example run_m058 : runs "
SELECT * FROM foreach(row=(1,1,1,1,8,3,3,3,2),
   query={SELECT _value AS X FROM scope()}) GROUP BY X"
  [[(JObj [("X", (JInt (1)))]); (JObj [("X", (JInt (8)))]); (JObj [("X", (JInt (3)))]); (JObj [("X", (JInt (2)))])]].
Proof. vm_compute. reflexivity. Qed.

(** Group by with explicit order by *)
Example run_m059 : runs "
SELECT * FROM foreach(row=(1,1,1,1,8,3,3,3,2),
   query={
       SELECT _value AS X, 10 - _value AS Y FROM scope()
   }) GROUP BY X ORDER BY Y"
  [[(JObj [("X", (JInt (8))); ("Y", (JInt (2)))]); (JObj [("X", (JInt (3))); ("Y", (JInt (7)))]); (JObj [("X", (JInt (2))); ("Y", (JInt (8)))]); (JObj [("X", (JInt (1))); ("Y", (JInt (9)))])]].
Proof. vm_compute. reflexivity. Qed.

(** Test array index *)
Example run_m060 : runs "
LET BIN <= SELECT * FROM test()
SELECT BIN, BIN[0] FROM scope()
"
  [[(JObj [("BIN", (JArr [(JObj [("foo", (JInt (0))); ("bar", (JInt (0)))]); (JObj [("foo", (JInt (2))); ("bar", (JInt (1)))]); (JObj [("foo", (JInt (4))); ("bar", (JInt (2)))])])); ("BIN[0]", (JObj [("foo", (JInt (0))); ("bar", (JInt (0)))]))])]].
Proof. vm_compute. reflexivity. Qed.

(** Test array index with expression *)
Example run_m061 : runs "
LET Index(X) = X - 1
LET BIN <= SELECT * FROM test()
SELECT BIN, BIN[ Index(X=2) ] FROM scope()
SELECT BIN, BIN[ Index(X=0) ] FROM scope()
"
  [[(JObj [("BIN", (JArr [(JObj [("foo", (JInt (0))); ("bar", (JInt (0)))]); (JObj [("foo", (JInt (2))); ("bar", (JInt (1)))]); (JObj [("foo", (JInt (4))); ("bar", (JInt (2)))])])); ("BIN[Index(X=2)]", (JObj [("foo", (JInt (2))); ("bar", (JInt (1)))]))])];
   [(JObj [("BIN", (JArr [(JObj [("foo", (JInt (0))); ("bar", (JInt (0)))]); (JObj [("foo", (JInt (2))); ("bar", (JInt (1)))]); (JObj [("foo", (JInt (4))); ("bar", (JInt (2)))])])); ("BIN[Index(X=0)]", (JObj [("foo", (JInt (4))); ("bar", (JInt (2)))]))])]].
Proof. vm_compute. reflexivity. Qed.

(** Create Let expression *)
Example run_m062 : runs "
let result = select  * from test()
// Create Let materialized expression
let result <= select  * from test()

//Refer to Let expression
select * from result

//Refer to non existent Let expression returns no rows
select * from no_such_result
// Refer to non existent Let expression by column returns no rows
select foobar from no_such_result"
  [[(JObj [("foo", (JInt (0))); ("bar", (JInt (0)))]); (JObj [("foo", (JInt (2))); ("bar", (JInt (1)))]); (JObj [("foo", (JInt (4))); ("bar", (JInt (2)))])];
   [];
   []].
Proof. vm_compute. reflexivity. Qed.

(** Override function with a variable *)
Example run_m063 : runs "LET format = 5 SELECT format, format(format='%v', args=1) AS A FROM scope()"
  [[(JObj [("format", (JInt (5))); ("A", (JStr "1"))])]].
Proof. vm_compute. reflexivity. Qed.

(** Stored Expressions as plugins *)
Example run_m064 : runs "LET Foo = (dict(X=1),dict(X=2),dict(X=3))   SELECT * FROM Foo"
  [[(JObj [("X", (JInt (1)))]); (JObj [("X", (JInt (2)))]); (JObj [("X", (JInt (3)))])]].
Proof. vm_compute. reflexivity. Qed.

(** Materialized Expressions as plugins *)
Example run_m065 : runs "LET Foo <= (dict(X=1),dict(X=2),dict(X=3))   SELECT * FROM Foo"
  [[(JObj [("X", (JInt (1)))]); (JObj [("X", (JInt (2)))]); (JObj [("X", (JInt (3)))])]].
Proof. vm_compute. reflexivity. Qed.

(** Stored Expressions as plugins with args *)
Example run_m066 : runs "LET Foo(X) = (dict(X=1+X),dict(X=2+X),dict(X=3+X))   SELECT * FROM Foo(X=1)"
  [[(JObj [("X", (JInt (2)))]); (JObj [("X", (JInt (3)))]); (JObj [("X", (JInt (4)))])]].
Proof. vm_compute. reflexivity. Qed.

(** Slice Range *)
Example run_m067 : runs "
LET X <= (0,1,2,3,4,5,6,7)
SELECT X[2:], X[2:4], X[:2], X[-1], X[-2], X[-2:], X[2:-1] FROM scope()
"
  [[(JObj [("X[2:]", (JArr [(JInt (2)); (JInt (3)); (JInt (4)); (JInt (5)); (JInt (6)); (JInt (7))])); ("X[2:4]", (JArr [(JInt (2)); (JInt (3))])); ("X[:2]", (JArr [(JInt (0)); (JInt (1))])); ("X[-1]", (JInt (7))); ("X[-2]", (JInt (6))); ("X[-2:]", (JArr [(JInt (6)); (JInt (7))])); ("X[2:-1]", (JArr [(JInt (2)); (JInt (3)); (JInt (4)); (JInt (5)); (JInt (6))]))])]].
Proof. vm_compute. reflexivity. Qed.

(** Slice Strings *)
Example run_m068 : runs "
LET X = ""Hello World""
SELECT X[1:5], X[-5:], X[:5], X[5:2], X[5:5] FROM scope()
"
  [[(JObj [("X[1:5]", (JStr "ello")); ("X[-5:]", (JStr "World")); ("X[:5]", (JStr "Hello")); ("X[5:2]", (JStr "")); ("X[5:5]", (JStr ""))])]].
Proof. vm_compute. reflexivity. Qed.

(** Slice Strings Binary *)
Example run_m069 : runs "
LET X = ""\x00\xff\xfe\xfc\xd0\x01""
SELECT X[1], X[2], format(format=""%02x"", args=X[2:5]), X[5:2], X[2:2]
FROM scope()
"
  [[(JObj [("X[1]", (JInt (255))); ("X[2]", (JInt (254))); ("format(format=""%02x"", args=X[2:5])", (JStr "fefcd0")); ("X[5:2]", (JStr "")); ("X[2:2]", (JStr ""))])]].
Proof. vm_compute. reflexivity. Qed.

(** VQL Functions can access global scope *)
Example run_m072 : runs "
LET Foo = ""Hello""
LET MyFunc(X) = SELECT X, Foo FROM scope()

SELECT * FROM MyFunc(X=1)"
  [[(JObj [("X", (JInt (1))); ("Foo", (JStr "Hello"))])]].
Proof. vm_compute. reflexivity. Qed.

(** Function returning array *)
Example run_m073 : runs "
SELECT func_foo(return=ArrayValue) FROM scope()
"
  [[(JObj [("func_foo(return=ArrayValue)", (JArr [(JInt (1)); (JInt (2)); (JInt (3))]))])]].
Proof. vm_compute. reflexivity. Qed.

(** If function with stored query *)
Example run_m074 : runs "
LET FooBar = SELECT ""A"" FROM scope()
LET B = SELECT if(condition=TRUE, then=FooBar) AS Item
FROM scope()
SELECT B, FooBar FROM scope()
"
  [[(JObj [("B", (JArr [(JObj [("Item", (JArr [(JObj [("""A""", (JStr "A"))])]))])])); ("FooBar", (JArr [(JObj [("""A""", (JStr "A"))])]))])]].
Proof. vm_compute. reflexivity. Qed.

(** Flatten query *)
Example run_m076 : runs "
SELECT * FROM flatten(query={
   SELECT 1 AS A, (1,2) AS B FROM scope()
})"
  [[(JObj [("A", (JInt (1))); ("B", (JInt (1)))]); (JObj [("A", (JInt (1))); ("B", (JInt (2)))])]].
Proof. vm_compute. reflexivity. Qed.

(** Flatten query cartesian with 2 lists *)
Example run_m077 : runs "
SELECT * FROM flatten(query={
   SELECT (3, 4) AS A, (1,2) AS B FROM scope()
})"
  [[(JObj [("A", (JInt (3))); ("B", (JInt (1)))]); (JObj [("A", (JInt (4))); ("B", (JInt (1)))]); (JObj [("A", (JInt (3))); ("B", (JInt (2)))]); (JObj [("A", (JInt (4))); ("B", (JInt (2)))])]].
Proof. vm_compute. reflexivity. Qed.

(** Flatten query empty list *)
Example run_m078 : runs "
LET FOO <= SELECT * FROM scope() WHERE FALSE
SELECT * FROM flatten(query={
   SELECT 1 AS A, FOO, (1, 2) AS B FROM scope()
})"
  [[(JObj [("A", (JInt (1))); ("FOO", (JArr [])); ("B", (JInt (1)))]); (JObj [("A", (JInt (1))); ("FOO", (JArr [])); ("B", (JInt (2)))])]].
Proof. vm_compute. reflexivity. Qed.

(** Flatten dict query *)
Example run_m079 : runs "
SELECT * FROM flatten(query={
   SELECT 1 AS A, dict(E=1,F=2) AS B FROM scope()
})"
  [[(JObj [("A", (JInt (1))); ("B", (JObj [("E", (JInt (1))); ("F", (JInt (2)))]))])]].
Proof. vm_compute. reflexivity. Qed.

(** Flatten subquery *)
Example run_m080 : runs "
SELECT * FROM flatten(query={
   SELECT *, { SELECT * FROM range(start=1, end=3) } AS Count
   FROM foreach(row=[dict(A=1)])
})"
  [[(JObj [("A", (JInt (1))); ("Count", (JInt (1)))]); (JObj [("A", (JInt (1))); ("Count", (JInt (2)))]); (JObj [("A", (JInt (1))); ("Count", (JInt (3)))])]].
Proof. vm_compute. reflexivity. Qed.

(** Flatten stored query *)
Example run_m081 : runs "
LET SQ = SELECT * FROM range(start=1, end=3)
SELECT * FROM flatten(query={
   SELECT *, SQ
   FROM foreach(row=[dict(A=1)])
})"
  [[(JObj [("A", (JInt (1))); ("SQ", (JObj [("value", (JInt (1)))]))]); (JObj [("A", (JInt (1))); ("SQ", (JObj [("value", (JInt (2)))]))]); (JObj [("A", (JInt (1))); ("SQ", (JObj [("value", (JInt (3)))]))])]].
Proof. vm_compute. reflexivity. Qed.

(** Foreach query with multiple count() *)
Example run_m082 : runs "
SELECT * FROM foreach(row={
   SELECT count() AS RowCount
   FROM range(start=1, end=3)
}, query={
   SELECT RowCount, count() AS QueryCount, count() AS SecondQueryCount
   FROM range(start=1, step=1, end=3)
})
"
  [[(JObj [("RowCount", (JInt (1))); ("QueryCount", (JInt (1))); ("SecondQueryCount", (JInt (1)))]); (JObj [("RowCount", (JInt (1))); ("QueryCount", (JInt (2))); ("SecondQueryCount", (JInt (2)))]); (JObj [("RowCount", (JInt (1))); ("QueryCount", (JInt (3))); ("SecondQueryCount", (JInt (3)))]); (JObj [("RowCount", (JInt (2))); ("QueryCount", (JInt (4))); ("SecondQueryCount", (JInt (4)))]); (JObj [("RowCount", (JInt (2))); ("QueryCount", (JInt (5))); ("SecondQueryCount", (JInt (5)))]); (JObj [("RowCount", (JInt (2))); ("QueryCount", (JInt (6))); ("SecondQueryCount", (JInt (6)))]); (JObj [("RowCount", (JInt (3))); ("QueryCount", (JInt (7))); ("SecondQueryCount", (JInt (7)))]); (JObj [("RowCount", (JInt (3))); ("QueryCount", (JInt (8))); ("SecondQueryCount", (JInt (8)))]); (JObj [("RowCount", (JInt (3))); ("QueryCount", (JInt (9))); ("SecondQueryCount", (JInt (9)))])]].
Proof. vm_compute. reflexivity. Qed.

(** Calling stored query with aggregators *)
Example run_m083 : runs "
LET Counter(Start) = SELECT count() AS Count, Start
  FROM range(start=1, step=1, end=3)

SELECT * FROM foreach(row={
   SELECT count() AS RowCount
   FROM range(start=1, end=3)
}, query={
   SELECT * FROM Counter(Start=RowCount)
})
"
  [[(JObj [("Count", (JInt (1))); ("Start", (JInt (1)))]); (JObj [("Count", (JInt (2))); ("Start", (JInt (1)))]); (JObj [("Count", (JInt (3))); ("Start", (JInt (1)))]); (JObj [("Count", (JInt (1))); ("Start", (JInt (2)))]); (JObj [("Count", (JInt (2))); ("Start", (JInt (2)))]); (JObj [("Count", (JInt (3))); ("Start", (JInt (2)))]); (JObj [("Count", (JInt (1))); ("Start", (JInt (3)))]); (JObj [("Count", (JInt (2))); ("Start", (JInt (3)))]); (JObj [("Count", (JInt (3))); ("Start", (JInt (3)))])]].
Proof. vm_compute. reflexivity. Qed.

(** Test Scope Clearing *)
Example run_m085 : runs "
LET Data <= (dict(A=1), dict(B=2))
LET s = scope()

SELECT s.A, A, s.B, B FROM Data
"
  [[(JObj [("s.A", (JInt (1))); ("A", (JInt (1))); ("s.B", JNull); ("B", JNull)]); (JObj [("s.A", JNull); ("A", JNull); ("s.B", (JInt (2))); ("B", (JInt (2)))])]].
Proof. vm_compute. reflexivity. Qed.

(** Test timestamp comparisons *)
Example run_m086 : runs "
SELECT timestamp(epoch=1723428985) < 1118628985,
       1118628985 < timestamp(epoch=1723428985),
       timestamp(epoch=1723428985) < timestamp(epoch=1118628985),
       timestamp(epoch=1118628985) < timestamp(epoch=1723428985),
       timestamp(epoch=1723428985) > 1118628985,
       1118628985 > timestamp(epoch=1723428985),
       timestamp(epoch=1723428985) > timestamp(epoch=1118628985),
       timestamp(epoch=1118628985) > timestamp(epoch=1723428985),
       timestamp(epoch=1723428985) < 1118628985.0,
       1118628985.0 < timestamp(epoch=1723428985),
       timestamp(epoch=1723428985) > 1118628985.0,
       1118628985.0 > timestamp(epoch=1723428985),
       timestamp(epoch=1723428985) < ""2024-08-12T02:15:25.176Z"",
       ""2024-08-12T02:15:25.176Z"" < timestamp(epoch=1723428985),
       timestamp(epoch=1723428985) > ""2024-08-12T02:15:25.176Z"",
       ""2024-08-12T02:15:25.176Z"" > timestamp(epoch=1723428985)
FROM scope()
"
  [[(JObj [("timestamp(epoch=1723428985) < 1118628985", (JBool false)); ("1118628985 < timestamp(epoch=1723428985)", (JBool true)); ("timestamp(epoch=1723428985) < timestamp(epoch=1118628985)", (JBool false)); ("timestamp(epoch=1118628985) < timestamp(epoch=1723428985)", (JBool true)); ("timestamp(epoch=1723428985) > 1118628985", (JBool true)); ("1118628985 > timestamp(epoch=1723428985)", (JBool false)); ("timestamp(epoch=1723428985) > timestamp(epoch=1118628985)", (JBool true)); ("timestamp(epoch=1118628985) > timestamp(epoch=1723428985)", (JBool false)); ("timestamp(epoch=1723428985) < 1118628985.0", (JBool false)); ("1118628985.0 < timestamp(epoch=1723428985)", (JBool true)); ("timestamp(epoch=1723428985) > 1118628985.0", (JBool true)); ("1118628985.0 > timestamp(epoch=1723428985)", (JBool false)); ("timestamp(epoch=1723428985) < ""2024-08-12T02:15:25.176Z""", (JBool false)); ("""2024-08-12T02:15:25.176Z"" < timestamp(epoch=1723428985)", (JBool false)); ("timestamp(epoch=1723428985) > ""2024-08-12T02:15:25.176Z""", (JBool false)); ("""2024-08-12T02:15:25.176Z"" > timestamp(epoch=1723428985)", (JBool false))])]].
Proof. vm_compute. reflexivity. Qed.

(** Adding Stored Query *)
Example run_m088 : runs "
LET X = SELECT value AS Foo FROM range(start=1, end=4)

SELECT (dict(Foo=12), ) + X, X + (dict(Foo=12),) FROM scope()
"
  [[(JObj [("(dict(Foo=12), ) + X", (JArr [(JObj [("Foo", (JInt (12)))]); (JObj [("Foo", (JInt (1)))]); (JObj [("Foo", (JInt (2)))]); (JObj [("Foo", (JInt (3)))]); (JObj [("Foo", (JInt (4)))])])); ("X + (dict(Foo=12), )", (JArr [(JObj [("Foo", (JInt (1)))]); (JObj [("Foo", (JInt (2)))]); (JObj [("Foo", (JInt (3)))]); (JObj [("Foo", (JInt (4)))]); (JObj [("Foo", (JInt (12)))])]))])]].
Proof. vm_compute. reflexivity. Qed.

(** Adding Materialized Stored Query *)
Example run_m089 : runs "
LET X <= SELECT value AS Foo FROM range(start=1, end=4)

SELECT (dict(Foo=12), ) + X, X + (dict(Foo=12),) FROM scope()
"
  [[(JObj [("(dict(Foo=12), ) + X", (JArr [(JObj [("Foo", (JInt (12)))]); (JObj [("Foo", (JInt (1)))]); (JObj [("Foo", (JInt (2)))]); (JObj [("Foo", (JInt (3)))]); (JObj [("Foo", (JInt (4)))])])); ("X + (dict(Foo=12), )", (JArr [(JObj [("Foo", (JInt (1)))]); (JObj [("Foo", (JInt (2)))]); (JObj [("Foo", (JInt (3)))]); (JObj [("Foo", (JInt (4)))]); (JObj [("Foo", (JInt (12)))])]))])]].
Proof. vm_compute. reflexivity. Qed.

(** Function definition with defaults *)
Example run_m090 : runs "
LET Y <= 7

LET F(X = 2, Y ) = X+Y
SELECT F(Y=1), F(), F(X=1, Y=4) FROM scope()
"
  [[(JObj [("F(Y=1)", (JInt (3))); ("F()", (JInt (9))); ("F(X=1, Y=4)", (JInt (5)))])]].
Proof. vm_compute. reflexivity. Qed.

(** Stored Query definition with defaults *)
Example run_m091 : runs "
LET F(X = 2, Y ) =
    SELECT X + Y AS Total
    FROM scope()

SELECT * FROM F(Y=1)
"
  [[(JObj [("Total", (JInt (3)))])]].
Proof. vm_compute. reflexivity. Qed.

(** Negative *)
Example run_m092 : runs "LET X <= 1 + -2 SELECT X FROM scope()"
  [[(JObj [("X", (JInt (-1)))])]].
Proof. vm_compute. reflexivity. Qed.

(** Negative index *)
Example run_m093 : runs "
LET X <= 2
LET Bar(X) = X + 3
LET Foo <= (1, 2+X, 3, 4+ -5)
LET Float <= 12.232
LET StoredQuery = SELECT * FROM info()

SELECT Foo[ -2 ], Foo[ -X ], -X, -`X`, 
       -Bar(X=3), -Float, -StoredQuery,
       Foo[-2:],
       Foo[-X:],
       Foo[-Bar(X=-1):]
FROM scope()
"
  [[(JObj [("Foo[-2]", (JInt (3))); ("Foo[-X]", (JInt (3))); ("-X", (JInt (-2))); ("-`X`", (JInt (-2))); ("-Bar(X=3)", (JInt (-6))); ("-Float", (JFloat (S754_finite true 6886003830249488 (-49)))); ("-StoredQuery", JNull); ("Foo[-2:]", (JArr [(JInt (3)); (JInt (-1))])); ("Foo[-X:]", (JArr [(JInt (3)); (JInt (-1))])); ("Foo[-Bar(X=-1):]", (JArr [(JInt (3)); (JInt (-1))]))])]].
Proof. vm_compute. reflexivity. Qed.

Example where_000 : where_value "1 or sleep(a=100)" (VBool true).
Proof. vm_compute. reflexivity. Qed.
Example where_001 : where_value "1" (vint (1)).
Proof. vm_compute. reflexivity. Qed.
Example where_002 : where_value "0 or 3" (VBool true).
Proof. vm_compute. reflexivity. Qed.
Example where_003 : where_value "1 and 3" (VBool true).
Proof. vm_compute. reflexivity. Qed.
Example where_004 : where_value "1 = TRUE" (VBool true).
Proof. vm_compute. reflexivity. Qed.
Example where_005 : where_value "0 = FALSE" (VBool true).
Proof. vm_compute. reflexivity. Qed.
Example where_006 : where_value "1.5" (VF64 (S754_finite false 6755399441055744 (-52))).
Proof. vm_compute. reflexivity. Qed.
Example where_007 : where_value "2 - 1" (vint (1)).
Proof. vm_compute. reflexivity. Qed.
Example where_008 : where_value "1 + 2" (vint (3)).
Proof. vm_compute. reflexivity. Qed.
Example where_009 : where_value "1 + 2.0" (vint (3)).
Proof. vm_compute. reflexivity. Qed.
Example where_010 : where_value "1 + 2.5" (VF64 (S754_finite false 7881299347898368 (-51))).
Proof. vm_compute. reflexivity. Qed.
Example where_011 : where_value "2.5 + 1" (VF64 (S754_finite false 7881299347898368 (-51))).
Proof. vm_compute. reflexivity. Qed.
Example where_012 : where_value "1 + -2" (vint (-1)).
Proof. vm_compute. reflexivity. Qed.
Example where_013 : where_value "1 + (1 + 2) * 5" (vint (16)).
Proof. vm_compute. reflexivity. Qed.
Example where_014 : where_value "1 + (2 + 2) / 2" (vint (3)).
Proof. vm_compute. reflexivity. Qed.
Example where_015 : where_value "(1 + 2 + 3) + 1" (vint (7)).
Proof. vm_compute. reflexivity. Qed.
Example where_016 : where_value "(1 + 2 - 3) + 1" (vint (1)).
Proof. vm_compute. reflexivity. Qed.
Example where_017 : where_value "4 - 2" (vint (2)).
Proof. vm_compute. reflexivity. Qed.
Example where_018 : where_value "4 - 2.0" (VF64 (S754_finite false 4503599627370496 (-51))).
Proof. vm_compute. reflexivity. Qed.
Example where_019 : where_value "4 - 2.1" (VF64 (S754_finite false 8556839292003942 (-52))).
Proof. vm_compute. reflexivity. Qed.
Example where_020 : where_value "4.0 - 2" (vint (2)).
Proof. vm_compute. reflexivity. Qed.
Example where_021 : where_value "4.0 - 2.0" (VF64 (S754_finite false 4503599627370496 (-51))).
Proof. vm_compute. reflexivity. Qed.
Example where_022 : where_value "4 / 2" (vint (2)).
Proof. vm_compute. reflexivity. Qed.
Example where_023 : where_value "4 / 2.0" (VF64 (S754_finite false 4503599627370496 (-51))).
Proof. vm_compute. reflexivity. Qed.
Example where_024 : where_value "4.0 / 2" (VF64 (S754_finite false 4503599627370496 (-51))).
Proof. vm_compute. reflexivity. Qed.
Example where_025 : where_value "4.0 / 2.0" (VF64 (S754_finite false 4503599627370496 (-51))).
Proof. vm_compute. reflexivity. Qed.
Example where_026 : where_value "4.0 / 0" VNull.
Proof. vm_compute. reflexivity. Qed.
Example where_027 : where_value "4 / 3" (VF64 (S754_finite false 6004799503160661 (-52))).
Proof. vm_compute. reflexivity. Qed.
Example where_028 : where_value "1 + 2 * 4" (vint (9)).
Proof. vm_compute. reflexivity. Qed.
Example where_029 : where_value "1 and 2 * 4" (VBool true).
Proof. vm_compute. reflexivity. Qed.
Example where_030 : where_value "1 and 2 * 0" (VBool false).
Proof. vm_compute. reflexivity. Qed.
Example where_031 : where_value "false and 5 or 4" (VBool false).
Proof. vm_compute. reflexivity. Qed.
Example where_032 : where_value "(false and 5) or 4" (VBool true).
Proof. vm_compute. reflexivity. Qed.
Example where_033 : where_value "10 / 0" VNull.
Proof. vm_compute. reflexivity. Qed.
Example where_034 : where_value "1 + 'foo'" VNull.
Proof. vm_compute. reflexivity. Qed.
Example where_035 : where_value "'foo' - 'bar'" VNull.
Proof. vm_compute. reflexivity. Qed.
Example where_036 : where_value "1 and 2 and 3 and 4" (VBool true).
Proof. vm_compute. reflexivity. Qed.
Example where_037 : where_value "1 and (2 = 1 + 1) and 3" (VBool true).
Proof. vm_compute. reflexivity. Qed.
Example where_038 : where_value "1 and (2 = 1 + 2) and 3" (VBool false).
Proof. vm_compute. reflexivity. Qed.
Example where_039 : where_value "1 and func_foo(return=FALSE) and 3" (VBool false).
Proof. vm_compute. reflexivity. Qed.
Example where_040 : where_value "func_foo(return=FALSE) or func_foo(return=2) or func_foo(return=FALSE)" (VBool true).
Proof. vm_compute. reflexivity. Qed.
Example where_041 : where_value "'foo' + 'bar'" (VStr "foobar").
Proof. vm_compute. reflexivity. Qed.
Example where_042 : where_value "'foo' + 'bar' = 'foobar'" (VBool true).
Proof. vm_compute. reflexivity. Qed.
Example where_043 : where_value "5 * func_foo()" (vint (5)).
Proof. vm_compute. reflexivity. Qed.
Example where_044 : where_value "const_foo = 1" (VBool true).
Proof. vm_compute. reflexivity. Qed.
Example where_045 : where_value "const_foo != 2" (VBool true).
Proof. vm_compute. reflexivity. Qed.
Example where_046 : where_value "func_foo() = 1" (VBool true).
Proof. vm_compute. reflexivity. Qed.
Example where_047 : where_value "func_foo() = func_foo()" (VBool true).
Proof. vm_compute. reflexivity. Qed.
Example where_048 : where_value "1 = const_foo" (VBool true).
Proof. vm_compute. reflexivity. Qed.
Example where_049 : where_value "1 = TRUE" (VBool true).
Proof. vm_compute. reflexivity. Qed.
Example where_050 : where_value "dict(X=1, Y=2) = dict(Y=2, X=1)" (VBool true).
Proof. vm_compute. reflexivity. Qed.
Example where_051 : where_value "1 = 1.0" (VBool true).
Proof. vm_compute. reflexivity. Qed.
Example where_052 : where_value "1.0 = 1" (VBool true).
Proof. vm_compute. reflexivity. Qed.
Example where_053 : where_value "1.1 = 1" (VBool false).
Proof. vm_compute. reflexivity. Qed.
Example where_054 : where_value "1 = 1.1" (VBool false).
Proof. vm_compute. reflexivity. Qed.
Example where_055 : where_value "1 = 'foo'" (VBool false).
Proof. vm_compute. reflexivity. Qed.
Example where_056 : where_value "281462092005375 = 65535 * 65535 * 65535" (VBool true).
Proof. vm_compute. reflexivity. Qed.
Example where_057 : where_value "const_foo > 1" (VBool false).
Proof. vm_compute. reflexivity. Qed.
Example where_058 : where_value "const_foo < 2" (VBool true).
Proof. vm_compute. reflexivity. Qed.
Example where_059 : where_value "func_foo() >= 1" (VBool true).
Proof. vm_compute. reflexivity. Qed.
Example where_060 : where_value "func_foo() > 1" (VBool false).
Proof. vm_compute. reflexivity. Qed.
Example where_061 : where_value "func_foo() < func_foo()" (VBool false).
Proof. vm_compute. reflexivity. Qed.
Example where_062 : where_value "1 <= const_foo" (VBool true).
Proof. vm_compute. reflexivity. Qed.
Example where_063 : where_value "1 >= TRUE" (VBool true).
Proof. vm_compute. reflexivity. Qed.
Example where_064 : where_value "2 > 1" (VBool true).
Proof. vm_compute. reflexivity. Qed.
Example where_065 : where_value "2 > 1.5" (VBool true).
Proof. vm_compute. reflexivity. Qed.
Example where_066 : where_value "2 > 2.5" (VBool false).
Proof. vm_compute. reflexivity. Qed.
Example where_067 : where_value "2 < 1" (VBool false).
Proof. vm_compute. reflexivity. Qed.
Example where_068 : where_value "2 < 1.5" (VBool false).
Proof. vm_compute. reflexivity. Qed.
Example where_069 : where_value "2.1 < three_int64" (VBool true).
Proof. vm_compute. reflexivity. Qed.
Example where_070 : where_value "2.1 < 2.5" (VBool true).
Proof. vm_compute. reflexivity. Qed.
Example where_071 : where_value "3.5 < three_int64" (VBool false).
Proof. vm_compute. reflexivity. Qed.
Example where_072 : where_value "three_int64 < 3.6" (VBool true).
Proof. vm_compute. reflexivity. Qed.
Example where_073 : where_value "three_int64 < 2.1" (VBool false).
Proof. vm_compute. reflexivity. Qed.
Example where_074 : where_value "2.1 > three_int64" (VBool false).
Proof. vm_compute. reflexivity. Qed.
Example where_075 : where_value "2.1 > 2.5" (VBool false).
Proof. vm_compute. reflexivity. Qed.
Example where_076 : where_value "3.5 > three_int64" (VBool true).
Proof. vm_compute. reflexivity. Qed.
Example where_077 : where_value "three_int64 > 3.6" (VBool false).
Proof. vm_compute. reflexivity. Qed.
Example where_078 : where_value "three_int64 > 2.1" (VBool true).
Proof. vm_compute. reflexivity. Qed.
Example where_079 : where_value "2 > 'hello'" (VBool false).
Proof. vm_compute. reflexivity. Qed.
Example where_080 : where_value "2 < 'hello'" (VBool false).
Proof. vm_compute. reflexivity. Qed.
Example where_081 : where_value "func_foo(return =1)" (vint (1)).
Proof. vm_compute. reflexivity. Qed.
Example where_082 : where_value "func_foo(return =1) = 1" (VBool true).
Proof. vm_compute. reflexivity. Qed.
Example where_083 : where_value "func_foo(return =1 + 2)" (vint (3)).
Proof. vm_compute. reflexivity. Qed.
Example where_084 : where_value "func_foo(return = (1 + (2 + 3) * 3))" (vint (16)).
Proof. vm_compute. reflexivity. Qed.
Example where_085 : where_value "func_foo(return='-')" (VStr "-").
Proof. vm_compute. reflexivity. Qed.
Example where_086 : where_value "func_foo(return = (1 + func_foo(return=2 + 3)))" (vint (6)).
Proof. vm_compute. reflexivity. Qed.
Example where_087 : where_value "(1, 2, 3, 4)" (VArr [(vint (1)); (vint (2)); (vint (3)); (vint (4))]).
Proof. vm_compute. reflexivity. Qed.
Example where_088 : where_value "(1, 2.2, 3, 4)" (VArr [(vint (1)); (VF64 (S754_finite false 4953959590107546 (-51))); (vint (3)); (vint (4))]).
Proof. vm_compute. reflexivity. Qed.
Example where_089 : where_value "2 in (1, 2, 3, 4)" (VBool true).
Proof. vm_compute. reflexivity. Qed.
Example where_090 : where_value "(1, 2, 3) = (1, 2, 3)" (VBool true).
Proof. vm_compute. reflexivity. Qed.
Example where_091 : where_value "(1, 2, 3) != (2, 3)" (VBool true).
Proof. vm_compute. reflexivity. Qed.
Example where_092 : where_value "(1, 2) + (3, 4)" (VArr [(vint (1)); (vint (2)); (vint (3)); (vint (4))]).
Proof. vm_compute. reflexivity. Qed.
Example where_093 : where_value "1 + (3, 4)" (VArr [(vint (1)); (vint (3)); (vint (4))]).
Proof. vm_compute. reflexivity. Qed.
Example where_094 : where_value "(1, 2) + 3" (VArr [(vint (1)); (vint (2)); (vint (3))]).
Proof. vm_compute. reflexivity. Qed.
Example where_095 : where_value "1 + NULL" VNull.
Proof. vm_compute. reflexivity. Qed.
Example where_096 : where_value "NULL + 1" VNull.
Proof. vm_compute. reflexivity. Qed.
Example where_097 : where_value "1 - NULL" VNull.
Proof. vm_compute. reflexivity. Qed.
Example where_098 : where_value "NULL - 1" VNull.
Proof. vm_compute. reflexivity. Qed.
Example where_099 : where_value "1 * NULL" VNull.
Proof. vm_compute. reflexivity. Qed.
Example where_100 : where_value "NULL * 1" VNull.
Proof. vm_compute. reflexivity. Qed.
Example where_101 : where_value "1 / NULL" VNull.
Proof. vm_compute. reflexivity. Qed.
Example where_102 : where_value "NULL / 1" VNull.
Proof. vm_compute. reflexivity. Qed.
Example where_103 : where_value "1 =~ NULL" (VBool false).
Proof. vm_compute. reflexivity. Qed.
Example where_104 : where_value "NULL =~ 1" (VBool false).
Proof. vm_compute. reflexivity. Qed.
Example where_105 : where_value "1 in NULL" (VBool false).
Proof. vm_compute. reflexivity. Qed.
Example where_106 : where_value "NULL in 1" (VBool false).
Proof. vm_compute. reflexivity. Qed.
Example where_107 : where_value "dict(foo=1) = dict(foo=1)" (VBool true).
Proof. vm_compute. reflexivity. Qed.
Example where_108 : where_value "dict(foo=1)" (VDict [("foo", (vint (1)))]).
Proof. vm_compute. reflexivity. Qed.
Example where_109 : where_value "dict(foo=1.0)" (VDict [("foo", (VF64 (S754_finite false 4503599627370496 (-52))))]).
Proof. vm_compute. reflexivity. Qed.
Example where_110 : where_value "dict(foo=1, bar=2)" (VDict [("foo", (vint (1))); ("bar", (vint (2)))]).
Proof. vm_compute. reflexivity. Qed.
Example where_111 : where_value "dict(foo=1, bar=2, baz=3)" (VDict [("foo", (vint (1))); ("bar", (vint (2))); ("baz", (vint (3)))]).
Proof. vm_compute. reflexivity. Qed.
Example where_112 : where_value "dict(foo=[1, 2])" (VDict [("foo", (VArr [(vint (1)); (vint (2))]))]).
Proof. vm_compute. reflexivity. Qed.
Example where_113 : where_value "dict(`key with spaces`='Value')" (VDict [("key with spaces", (VStr "Value"))]).
Proof. vm_compute. reflexivity. Qed.
Example where_114 : where_value "dict(foo=[1,])" (VDict [("foo", (VArr [(vint (1))]))]).
Proof. vm_compute. reflexivity. Qed.
Example where_115 : where_value "dict(foo=(1,))" (VDict [("foo", (VArr [(vint (1))]))]).
Proof. vm_compute. reflexivity. Qed.
Example where_116 : where_value "dict(foo=len(list=[1,]))" (VDict [("foo", (vint (1)))]).
Proof. vm_compute. reflexivity. Qed.
Example where_117 : where_value "dict(foo=[1])" (VDict [("foo", (vint (1)))]).
Proof. vm_compute. reflexivity. Qed.
Example where_118 : where_value "dict(foo=1, bar=( 2 + 3 ))" (VDict [("foo", (vint (1))); ("bar", (vint (5)))]).
Proof. vm_compute. reflexivity. Qed.
Example where_119 : where_value "dict(foo=1.0, bar=( 2.1 + 3 ))" (VDict [("foo", (vint (1))); ("bar", (VF64 (S754_finite false 5742089524897382 (-50))))]).
Proof. vm_compute. reflexivity. Qed.
Example where_120 : where_value "dict(foo=1, bar= [2 , 3] )" (VDict [("foo", (vint (1))); ("bar", (VArr [(vint (2)); (vint (3))]))]).
Proof. vm_compute. reflexivity. Qed.
Example where_121 : where_value "'foo' IN dict(foo=0)" (VBool true).
Proof. vm_compute. reflexivity. Qed.
Example where_122 : where_value "foo.bar.baz, foo.bar2" (VArr [(vint (5)); (vint (7))]).
Proof. vm_compute. reflexivity. Qed.
Example where_123 : where_value "dict(foo=dict(bar=5)).foo.bar" (vint (5)).
Proof. vm_compute. reflexivity. Qed.
Example where_124 : where_value "1, dict(foo=5).foo" (VArr [(vint (1)); (vint (5))]).
Proof. vm_compute. reflexivity. Qed.
Example where_125 : where_value "my_list_obj.my_list[2]" (vint (3)).
Proof. vm_compute. reflexivity. Qed.
Example where_126 : where_value "my_list_obj.my_list[1]" (vint (2)).
Proof. vm_compute. reflexivity. Qed.
Example where_127 : where_value "(my_list_obj.my_list[3]).Foo" (VStr "Bar").
Proof. vm_compute. reflexivity. Qed.
Example where_128 : where_value "dict(x=(my_list_obj.my_list[3]).Foo + 'a')" (VDict [("x", (VStr "Bara"))]).
Proof. vm_compute. reflexivity. Qed.
Example where_129 : where_value "'Hello'[1]" (vint (101)).
Proof. vm_compute. reflexivity. Qed.
Example where_130 : where_value "'Hello'[-1]" (vint (111)).
Proof. vm_compute. reflexivity. Qed.
Example where_131 : where_value "'Hello'[:3]" (VStr "Hel").
Proof. vm_compute. reflexivity. Qed.
Example where_132 : where_value "'Hello'[2:300]" (VStr "llo").
Proof. vm_compute. reflexivity. Qed.
Example where_133 : where_value "'Hello'[-2:300]" (VStr "lo").
Proof. vm_compute. reflexivity. Qed.
Example where_134 : where_value "'Hello'[-3:]" (VStr "llo").
Proof. vm_compute. reflexivity. Qed.
Example where_135 : where_value "'Hello' =~ '.'" (VBool true).
Proof. vm_compute. reflexivity. Qed.
Example where_136 : where_value "'' =~ '.'" (VBool true).
Proof. vm_compute. reflexivity. Qed.
Example where_137 : where_value "'Hello' =~ 'he[lo]+'" (VBool true).
Proof. vm_compute. reflexivity. Qed.
Example where_138 : where_value "NULL =~ '.'" (VBool true).
Proof. vm_compute. reflexivity. Qed.
Example where_139 : where_value "NULL =~ '.*'" (VBool true).
Proof. vm_compute. reflexivity. Qed.
Example where_140 : where_value "NULL =~ ''" (VBool true).
Proof. vm_compute. reflexivity. Qed.
Example where_141 : where_value "('Hello', 'World') =~ 'he'" (VBool true).
Proof. vm_compute. reflexivity. Qed.
Example where_142 : where_value "('Hello', 'World') =~ 'xx'" (VBool false).
Proof. vm_compute. reflexivity. Qed.
Example where_143 : where_value "dict(x='Hello', y='World') =~ 'he'" (VBool false).
Proof. vm_compute. reflexivity. Qed.
Example where_144 : where_value "(0x10, 0x20, 070, 0xea, -4)" (VArr [(vint (16)); (vint (32)); (vint (56)); (vint (234)); (vint (-4))]).
Proof. vm_compute. reflexivity. Qed.
Example where_145 : where_value "1 +
2" (vint (3)).
Proof. vm_compute. reflexivity. Qed.
Example where_146 : where_value "1 AND
 2" (VBool true).
Proof. vm_compute. reflexivity. Qed.
Example where_147 : where_value "NOT
TRUE" (VBool false).
Proof. vm_compute. reflexivity. Qed.
Example where_148 : where_value "2 IN
(1,2)" (VBool true).
Proof. vm_compute. reflexivity. Qed.
