(** The parser and the formatter run on the project's own tests: every query
    of vfilter_test.go:531-753 and 754-1392 parses, and formats as recorded in
    /repo/fixtures/vql_queries.golden and multi_vql_queries.golden; every
    clause of execTestsSerialization and execTests (45-418) parses or fails to
    parse as the test expects, and its formatted text formats the same again.
    These are tests of the model, not theorems. *)

From Coq Require Import ZArith List String Ascii Bool.
From Verif Require Import Base F64 Lexer Numeral Grammar Parser Format.
Import ListNotations.
Open Scope string_scope.
Open Scope list_scope.

Definition formats (text : string) (expected : list string) : Prop :=
  match parse_multi text with
  | Some l => map format_vql l
  | None => []
  end = expected.
Definition rejects (text : string) : Prop := parse_vql text = None.
Definition again (text : string) : Prop :=
  match parse_vql text with
  | Some v =>
      match parse_vql (format_vql v) with
      | Some w => String.eqb (format_vql w) (format_vql v)
      | None => false
      end
  | None => false
  end = true.

Example format_s000 : formats "select * from test()"
  ["SELECT * FROM test()"].
Proof. vm_compute. reflexivity. Qed.

Example format_s001 : formats "select * from range(start=10, end=12)"
  ["SELECT * FROM range(start=10, end=12)"].
Proof. vm_compute. reflexivity. Qed.

Example format_s002 : formats "select *, 1 AS Extra from test()"
  ["SELECT *, 1 AS Extra FROM test()"].
Proof. vm_compute. reflexivity. Qed.

Example format_s003 : formats "select env_var as EnvVar, foo as FooColumn from test()"
  ["SELECT env_var AS EnvVar, foo AS FooColumn FROM test()"].
Proof. vm_compute. reflexivity. Qed.

Example format_s004 : formats "select foo as FooColumn from range(start=1, end=2)"
  ["SELECT foo AS FooColumn FROM range(start=1, end=2)"].
Proof. vm_compute. reflexivity. Qed.

Example format_s005 : formats "select foo as FooColumn from test() where FooColumn = 2"
  ["SELECT foo AS FooColumn FROM test() WHERE FooColumn = 2"].
Proof. vm_compute. reflexivity. Qed.

Example format_s006 : formats "select foo as FooColumn from test() where NOT FooColumn = 2"
  ["SELECT foo AS FooColumn FROM test() WHERE NOT FooColumn = 2"].
Proof. vm_compute. reflexivity. Qed.

Example format_s007 : formats "select foo as FooColumn from test() where foo = 4"
  ["SELECT foo AS FooColumn FROM test() WHERE foo = 4"].
Proof. vm_compute. reflexivity. Qed.

Example format_s008 : formats "select * from dict(env_var=15, foo=5, `field with space`='value')"
  ["SELECT * FROM dict(env_var=15, foo=5, `field with space`='value')"].
Proof. vm_compute. reflexivity. Qed.

Example format_s009 : formats "select no_such_column from dict(env_var=15, foo=5)"
  ["SELECT no_such_column FROM dict(env_var=15, foo=5)"].
Proof. vm_compute. reflexivity. Qed.

Example format_s010 : formats "select no_such_column + 'foo' from dict(env_var=15, foo=5)"
  ["SELECT no_such_column + 'foo' FROM dict(env_var=15, foo=5)"].
Proof. vm_compute. reflexivity. Qed.

Example format_s011 : formats "select env_var + param as ConCat from dict(param='param')"
  ["SELECT env_var + param AS ConCat FROM dict(param='param')"].
Proof. vm_compute. reflexivity. Qed.

Example format_s012 : formats "select param from dict(param={select * from range(start=3, end=5)})"
  ["SELECT param FROM dict(param={ SELECT * FROM range(start=3, end=5) })"].
Proof. vm_compute. reflexivity. Qed.

Example format_s013 : formats "select {select * from range(start=3, end=5) WHERE 0} AS Value FROM scope()"
  ["SELECT { SELECT * FROM range(start=3, end=5) WHERE 0 } AS Value FROM scope()"].
Proof. vm_compute. reflexivity. Qed.

Example format_s014 : formats "select q1.value + q2.value as Sum from
                         dict(q1={select * from range(start=3, end=5)},
                              q2={select * from range(start=10, end=14)})"
  ["SELECT q1.value + q2.value AS Sum FROM dict(q1={ SELECT * FROM range(start=3, end=5) }, q2={ SELECT * FROM range(start=10, end=14) })"].
Proof. vm_compute. reflexivity. Qed.

Example format_s015 : formats "select func_foo(return=q1 + 4) from dict(q1=3)"
  ["SELECT func_foo(return=q1 + 4) FROM dict(q1=3)"].
Proof. vm_compute. reflexivity. Qed.

Example format_s016 : formats "select bar, {select * from dict(column=bar)} as Query
                 from test()"
  ["SELECT bar, { SELECT * FROM dict(column=bar) } AS Query FROM test()"].
Proof. vm_compute. reflexivity. Qed.

Example format_s017 : formats "select bar, {select * from dict(column=bar)} as Query
                 from test() where 1 in Query.column"
  ["SELECT bar, { SELECT * FROM dict(column=bar) } AS Query FROM test() WHERE 1 IN Query.column"].
Proof. vm_compute. reflexivity. Qed.

Example format_s018 : formats "select bar, { select column from dict(column=bar) } AS subquery from test()
                        "
  ["SELECT bar, { SELECT column FROM dict(column=bar) } AS subquery FROM test()"].
Proof. vm_compute. reflexivity. Qed.

Example format_s019 : formats "
            select * from foreach(
                row={
                   select * from test()
                }, query={
                   select bar, foo, value from range(start=bar, end=foo)
                })"
  ["SELECT * FROM foreach(row={ SELECT * FROM test() }, query={ SELECT bar, foo, value FROM range(start=bar, end=foo) })"].
Proof. vm_compute. reflexivity. Qed.

Example format_s020 : formats "
            select * from foreach(
                row=[dict(bar=1, foo=2), dict(foo=1, bar=2)],
                query={
                   select bar, foo from scope()
                })"
  ["SELECT * FROM foreach(row=[dict(bar=1, foo=2), dict(foo=1, bar=2)], query={ SELECT bar, foo FROM scope() })"].
Proof. vm_compute. reflexivity. Qed.

Example format_s021 : formats "
            select * from foreach(
                row=dict(bar=1, foo=2),
                query={
                   select bar, foo from scope()
                })"
  ["SELECT * FROM foreach(row=dict(bar=1, foo=2), query={ SELECT bar, foo FROM scope() })"].
Proof. vm_compute. reflexivity. Qed.

Example format_s022 : formats "
           SELECT Evaluated FROM foreach(row={
                SELECT value,
                       set_env(column=""Evaluated"", value=TRUE)
                FROM range(start=1, end=10)
           },
              query={
                SELECT value from scope()
              }) LIMIT 1
        "
  ["SELECT Evaluated FROM foreach(row={ SELECT value, set_env(column=""Evaluated"", value=TRUE) FROM range(start=1, end=10) }, query={ SELECT value FROM scope() }) LIMIT 1"].
Proof. vm_compute. reflexivity. Qed.

Example format_s023 : formats "SELECT * FROM foreach(row=1, query='hello')"
  ["SELECT * FROM foreach(row=1, query='hello')"].
Proof. vm_compute. reflexivity. Qed.

Example format_s024 : formats "SELECT * FROM foreach(row=1, query=[1,2,3,4])"
  ["SELECT * FROM foreach(row=1, query=[1, 2, 3, 4])"].
Proof. vm_compute. reflexivity. Qed.

Example format_s025 : formats "SELECT * FROM foreach(row=[1,2,3], query={SELECT _value FROM scope()})"
  ["SELECT * FROM foreach(row=[1, 2, 3], query={ SELECT _value FROM scope() })"].
Proof. vm_compute. reflexivity. Qed.

Example format_s026 : formats "SELECT * FROM foreach(row=dict(X=1))"
  ["SELECT * FROM foreach(row=dict(X=1))"].
Proof. vm_compute. reflexivity. Qed.

Example format_s027 : formats "SELECT * FROM foreach(row=[dict(X=1), dict(X=2)])"
  ["SELECT * FROM foreach(row=[dict(X=1), dict(X=2)])"].
Proof. vm_compute. reflexivity. Qed.

Example format_s028 : formats "SELECT * FROM foreach(row={ SELECT dict(X=1) AS X FROM scope()}, column='X')"
  ["SELECT * FROM foreach(row={ SELECT dict(X=1) AS X FROM scope() }, column='X')"].
Proof. vm_compute. reflexivity. Qed.

Example format_s029 : formats "SELECT * FROM foreach(row=NULL)"
  ["SELECT * FROM foreach(row=NULL)"].
Proof. vm_compute. reflexivity. Qed.

Example format_s030 : formats "SELECT * FROM foreach(row=[NULL, NULL, dict(X=1)])"
  ["SELECT * FROM foreach(row=[NULL, NULL, dict(X=1)])"].
Proof. vm_compute. reflexivity. Qed.

Example format_s031 : formats "Select * from Artifact.Linux.Sys()"
  ["SELECT * FROM Artifact.Linux.Sys()"].
Proof. vm_compute. reflexivity. Qed.

Example format_s032 : formats "select * from test() order by foo"
  ["SELECT * FROM test() ORDER BY foo"].
Proof. vm_compute. reflexivity. Qed.

Example format_s033 : formats "select * from test() order by foo DESC"
  ["SELECT * FROM test() ORDER BY foo DESC"].
Proof. vm_compute. reflexivity. Qed.

Example format_s034 : formats "select * from test() limit 1"
  ["SELECT * FROM test() LIMIT 1"].
Proof. vm_compute. reflexivity. Qed.

Example format_s035 : formats "select * from test() order by foo desc limit 1"
  ["SELECT * FROM test() ORDER BY foo DESC LIMIT 1"].
Proof. vm_compute. reflexivity. Qed.

Example format_s036 : formats "// This is a single line comment
select * from test() limit 1"
  ["SELECT * FROM test() LIMIT 1"].
Proof. vm_compute. reflexivity. Qed.

Example format_s037 : formats "-- This is a single line comment in sql style
select * from test() limit 1"
  ["SELECT * FROM test() LIMIT 1"].
Proof. vm_compute. reflexivity. Qed.

Example format_s038 : formats "/* This is a multiline comment
this is the rest of the comment */
select * from test() limit 1"
  ["SELECT * FROM test() LIMIT 1"].
Proof. vm_compute. reflexivity. Qed.

Example format_s039 : formats "select * from test() WHERE 1 and not foo = 2"
  ["SELECT * FROM test() WHERE 1  and NOT foo = 2"].
Proof. vm_compute. reflexivity. Qed.

Example format_s040 : formats "select * from test() WHERE 0 and not foo = 2"
  ["SELECT * FROM test() WHERE 0  and NOT foo = 2"].
Proof. vm_compute. reflexivity. Qed.

Example format_s041 : formats "select * from test() WHERE 1 or not foo = 20"
  ["SELECT * FROM test() WHERE 1 or NOT foo = 20"].
Proof. vm_compute. reflexivity. Qed.

Example format_s042 : formats "select * from test() WHERE 0 or not foo = 20"
  ["SELECT * FROM test() WHERE 0 or NOT foo = 20"].
Proof. vm_compute. reflexivity. Qed.

Example format_s043 : formats "select foo, bar from groupbytest() GROUP BY bar"
  ["SELECT foo, bar FROM groupbytest() GROUP BY bar"].
Proof. vm_compute. reflexivity. Qed.

Example format_s044 : formats "select * from groupbytest() GROUP BY bar"
  ["SELECT * FROM groupbytest() GROUP BY bar"].
Proof. vm_compute. reflexivity. Qed.

Example format_s045 : formats "select foo, bar, count(items=bar) from groupbytest() GROUP BY bar"
  ["SELECT foo, bar, count(items=bar) FROM groupbytest() GROUP BY bar"].
Proof. vm_compute. reflexivity. Qed.

Example format_s046 : formats "select *, count(items=bar) from groupbytest() GROUP BY bar"
  ["SELECT *, count(items=bar) FROM groupbytest() GROUP BY bar"].
Proof. vm_compute. reflexivity. Qed.

Example format_s047 : formats "select foo, bar, count(items=bar) from groupbytest() WHERE foo < 4 GROUP BY bar"
  ["SELECT foo, bar, count(items=bar) FROM groupbytest() WHERE foo < 4 GROUP BY bar"].
Proof. vm_compute. reflexivity. Qed.

Example format_s048 : formats "select foo, bar, min(item=foo) from groupbytest() GROUP BY bar"
  ["SELECT foo, bar, min(item=foo) FROM groupbytest() GROUP BY bar"].
Proof. vm_compute. reflexivity. Qed.

Example format_s049 : formats "select foo, bar, max(item=foo) from groupbytest() GROUP BY bar"
  ["SELECT foo, bar, max(item=foo) FROM groupbytest() GROUP BY bar"].
Proof. vm_compute. reflexivity. Qed.

Example format_s050 : formats "select baz, bar, enumerate(items=baz) from groupbytest() GROUP BY bar"
  ["SELECT baz, bar, enumerate(items=baz) FROM groupbytest() GROUP BY bar"].
Proof. vm_compute. reflexivity. Qed.

Example format_s051 : formats "SELECT * FROM chain(
a={ SELECT count() FROM scope()},
b={
     SELECT count(), count(items=bar), bar FROM groupbytest() GROUP BY bar
})"
  ["SELECT * FROM chain(a={ SELECT count() FROM scope() }, b={ SELECT count(), count(items=bar), bar FROM groupbytest() GROUP BY bar })"].
Proof. vm_compute. reflexivity. Qed.

Example format_s052 : formats "select foo, panic(column=foo, value=2) from test() where foo = 4"
  ["SELECT foo, panic(column=foo, value=2) FROM test() WHERE foo = 4"].
Proof. vm_compute. reflexivity. Qed.

Example format_s053 : formats "select 'foo\'s quote' from scope()"
  ["SELECT 'foo\'s quote' FROM scope()"].
Proof. vm_compute. reflexivity. Qed.

Example format_s054 : formats "SELECT format(format='%x', args=""\x01\x02\xf0\xf1"") FROM scope()"
  ["SELECT format(format='%x', args=""\x01\x02\xf0\xf1"") FROM scope()"].
Proof. vm_compute. reflexivity. Qed.

Example format_s055 : formats "select get(item=[dict(foo=3), 2, 3, 4], member='0.foo') AS Foo from scope()"
  ["SELECT get(item=[dict(foo=3), 2, 3, 4], member='0.foo') AS Foo FROM scope()"].
Proof. vm_compute. reflexivity. Qed.

Example format_s056 : formats "SELECT (1,2) + (3,4) FROM scope()"
  ["SELECT (1, 2) + (3, 4) FROM scope()"].
Proof. vm_compute. reflexivity. Qed.

Example format_s057 : formats "SELECT (1,2) + 4 FROM scope()"
  ["SELECT (1, 2) + 4 FROM scope()"].
Proof. vm_compute. reflexivity. Qed.

Example format_s058 : formats "SELECT (1,2) + if(condition=1, then=(3,4)) AS Field FROM scope()"
  ["SELECT (1, 2) + if(condition=1, then=(3, 4)) AS Field FROM scope()"].
Proof. vm_compute. reflexivity. Qed.

Example format_s059 : formats "SELECT if(condition=1, then=[]) AS Field FROM scope()"
  ["SELECT if(condition=1, then=[]) AS Field FROM scope()"].
Proof. vm_compute. reflexivity. Qed.

Example format_s060 : formats "SELECT (1,2) + if(condition=0, then=(3,4)) AS Field FROM scope()"
  ["SELECT (1, 2) + if(condition=0, then=(3, 4)) AS Field FROM scope()"].
Proof. vm_compute. reflexivity. Qed.

Example format_s061 : formats "SELECT  
1
+
2	AS
FooBar	
 FROM
 scope(
)
WHERE
 FooBar >
1
AND
TRUE
"
  ["SELECT 1 + 2 AS FooBar FROM scope() WHERE FooBar > 1  AND TRUE"].
Proof. vm_compute. reflexivity. Qed.

Example format_s062 : formats "SELECT if(condition=1 + 1 = 2, then=2, else=3), if(condition=1 + 2 = 2, then=2, else=3) FROM scope()"
  ["SELECT if(condition=1 + 1 = 2, then=2, else=3), if(condition=1 + 2 = 2, then=2, else=3) FROM scope()"].
Proof. vm_compute. reflexivity. Qed.

Example format_s063 : formats "SELECT if(condition=1, then={ SELECT * FROM test() }) FROM scope()"
  ["SELECT if(condition=1, then={ SELECT * FROM test() }) FROM scope()"].
Proof. vm_compute. reflexivity. Qed.

Example format_s064 : formats "SELECT if(condition=FALSE, then=panic(column=3, value=3)) from scope()"
  ["SELECT if(condition=FALSE, then=panic(column=3, value=3)) FROM scope()"].
Proof. vm_compute. reflexivity. Qed.

Example format_s065 : formats "SELECT if(condition=TRUE, else=panic(column=7, value=7)) from scope()"
  ["SELECT if(condition=TRUE, else=panic(column=7, value=7)) FROM scope()"].
Proof. vm_compute. reflexivity. Qed.

Example format_s066 : formats "SELECT if(condition=TRUE, then={ SELECT * FROM test() LIMIT 1}) from scope()"
  ["SELECT if(condition=TRUE, then={ SELECT * FROM test() LIMIT 1  }) FROM scope()"].
Proof. vm_compute. reflexivity. Qed.

Example format_s067 : formats "SELECT if(condition=FALSE, then={ SELECT panic(column=8, value=8) FROM test()}) from scope()"
  ["SELECT if(condition=FALSE, then={ SELECT panic(column=8, value=8) FROM test() }) FROM scope()"].
Proof. vm_compute. reflexivity. Qed.

Example format_s068 : formats "SELECT if(condition=TRUE, else={ SELECT panic(column=9, value=9) FROM test()}) from scope()"
  ["SELECT if(condition=TRUE, else={ SELECT panic(column=9, value=9) FROM test() }) FROM scope()"].
Proof. vm_compute. reflexivity. Qed.

Example format_s069 : formats "LET bomb = SELECT panic(column=1, value=1) FROM scope()"
  ["LET bomb = SELECT panic(column=1, value=1) FROM scope()"].
Proof. vm_compute. reflexivity. Qed.

Example format_s070 : formats "SELECT if(condition=FALSE, then=bomb) FROM scope()"
  ["SELECT if(condition=FALSE, then=bomb) FROM scope()"].
Proof. vm_compute. reflexivity. Qed.

Example format_s071 : formats "SELECT * FROM if(condition=1, then=[dict(Foo=1), dict(Foo=2)])"
  ["SELECT * FROM if(condition=1, then=[dict(Foo=1), dict(Foo=2)])"].
Proof. vm_compute. reflexivity. Qed.

Example format_s072 : formats "SELECT * FROM if(condition=1, then=dict(Foo=2))"
  ["SELECT * FROM if(condition=1, then=dict(Foo=2))"].
Proof. vm_compute. reflexivity. Qed.

Example format_s073 : formats "SELECT foo as `column with space` FROM dict(foo='hello world')"
  ["SELECT foo AS `column with space` FROM dict(foo='hello world')"].
Proof. vm_compute. reflexivity. Qed.

Example format_s074 : formats "SELECT get(member='Foo') || get(member='Bar') || 'Hello' FROM scope()"
  ["SELECT get(member='Foo') || get(member='Bar') || 'Hello' FROM scope()"].
Proof. vm_compute. reflexivity. Qed.

Example format_s075 : formats "SELECT NULL || '', NULL || FALSE, NULL || 'X', 'A' || 'B', 'A' || FALSE, 'A' || '' || 'B' FROM scope()"
  ["SELECT NULL || '', NULL || FALSE, NULL || 'X', 'A' || 'B', 'A' || FALSE, 'A' || '' || 'B' FROM scope()"].
Proof. vm_compute. reflexivity. Qed.

Example format_s076 : formats "SELECT NULL && '', TRUE && 'XX', 'A' && 'B', 'A' && FALSE, ((FALSE && 1) || 2), TRUE && 1 || 2 FROM scope()"
  ["SELECT NULL  && '', TRUE  && 'XX', 'A'  && 'B', 'A'  && FALSE, ((FALSE  && 1) || 2), TRUE  && 1 || 2 FROM scope()"].
Proof. vm_compute. reflexivity. Qed.

Example format_s077 : formats "SELECT * FROM
test()"
  ["SELECT * FROM test()"].
Proof. vm_compute. reflexivity. Qed.

Example format_m000 : formats "LET X = SELECT * FROM test()  SELECT * FROM X"
  ["LET X = SELECT * FROM test()";
   "SELECT * FROM X"].
Proof. vm_compute. reflexivity. Qed.

Example format_m001 : formats "SELECT 'Bar' AS Foo FROM scope() SELECT 'Foo' AS Foo FROM scope()"
  ["SELECT 'Bar' AS Foo FROM scope()";
   "SELECT 'Foo' AS Foo FROM scope()"].
Proof. vm_compute. reflexivity. Qed.

Example format_m002 : formats "LET X = SELECT * FROM test() SELECT X[0], X[1].bar FROM scope()"
  ["LET X = SELECT * FROM test()";
   "SELECT X[0], X[1].bar FROM scope()"].
Proof. vm_compute. reflexivity. Qed.

Example format_m003 : formats "LET X = SELECT * FROM test() SELECT *, 1 FROM X"
  ["LET X = SELECT * FROM test()";
   "SELECT *, 1 FROM X"].
Proof. vm_compute. reflexivity. Qed.

Example format_m004 : formats "LET X = SELECT * FROM test() SELECT 1, *, 2 FROM X"
  ["LET X = SELECT * FROM test()";
   "SELECT 1, *, 2 FROM X"].
Proof. vm_compute. reflexivity. Qed.

Example format_m005 : formats "LET X = SELECT * FROM test() SELECT 1000 + foo as foo, *, 2 FROM X"
  ["LET X = SELECT * FROM test()";
   "SELECT 1000 + foo AS foo, *, 2 FROM X"].
Proof. vm_compute. reflexivity. Qed.

Example format_m006 : formats "LET X <= SELECT * FROM test() SELECT *, 1 FROM X"
  ["LET X <= SELECT * FROM test()";
   "SELECT *, 1 FROM X"].
Proof. vm_compute. reflexivity. Qed.

Example format_m007 : formats "LET X <= SELECT 2 AS `Hello World` FROM scope() SELECT `Hello World`, `Hello World` + 4 AS Foo, X.`Hello World` FROM X"
  ["LET X <= SELECT 2 AS `Hello World` FROM scope()";
   "SELECT `Hello World`, `Hello World` + 4 AS Foo, X.`Hello World` FROM X"].
Proof. vm_compute. reflexivity. Qed.

Example format_m008 : formats "LET X = SELECT foo, bar AS `Foo Bar` FROM groupbytest() SELECT * FROM X GROUP BY `Foo Bar`"
  ["LET X = SELECT foo, bar AS `Foo Bar` FROM groupbytest()";
   "SELECT * FROM X GROUP BY `Foo Bar`"].
Proof. vm_compute. reflexivity. Qed.

Example format_m009 : formats "LET X = SELECT foo AS `Foo Bar` FROM groupbytest() SELECT * FROM X ORDER BY `Foo Bar` DESC"
  ["LET X = SELECT foo AS `Foo Bar` FROM groupbytest()";
   "SELECT * FROM X ORDER BY `Foo Bar` DESC"].
Proof. vm_compute. reflexivity. Qed.

Example format_m010 : formats "LET X = 'Hello world' SELECT X FROM scope()"
  ["LET X = 'Hello world'";
   "SELECT X FROM scope()"].
Proof. vm_compute. reflexivity. Qed.

Example format_m011 : formats "LET X = panic() SELECT 1 + 1 FROM scope()"
  ["LET X = panic()";
   "SELECT 1 + 1 FROM scope()"].
Proof. vm_compute. reflexivity. Qed.

Example format_m012 : formats "LET X <= 'Hello world' SELECT X FROM scope()"
  ["LET X <= 'Hello world'";
   "SELECT X FROM scope()"].
Proof. vm_compute. reflexivity. Qed.

Example format_m013 : formats "SELECT panic(value=1, column=1, colume='X'), func_foo() FROM scope()"
  ["SELECT panic(value=1, column=1, colume='X'), func_foo() FROM scope()"].
Proof. vm_compute. reflexivity. Qed.

Example format_m014 : formats "LET X = 'hello' SELECT X + 'world', 'world' + X, 'hello world' =~ X FROM scope()"
  ["LET X = 'hello'";
   "SELECT X + 'world', 'world' + X, 'hello world' =~ X FROM scope()"].
Proof. vm_compute. reflexivity. Qed.

Example format_m015 : formats "LET X = count() SELECT (1, X), dict(foo=X, bar=[1,X]) FROM scope()"
  ["LET X = count()";
   "SELECT (1, X), dict(foo=X, bar=[1, X]) FROM scope()"].
Proof. vm_compute. reflexivity. Qed.

Example format_m016 : formats "LET X = SELECT Foo FROM scope() SELECT * FROM X(Foo=1)"
  ["LET X = SELECT Foo FROM scope()";
   "SELECT * FROM X(Foo=1)"].
Proof. vm_compute. reflexivity. Qed.

Example format_m017 : formats "LET X(Foo, Bar) = Foo + Bar SELECT X(Foo=5, Bar=2) FROM scope()"
  ["LET X(Foo, Bar) = Foo + Bar";
   "SELECT X(Foo=5, Bar=2) FROM scope()"].
Proof. vm_compute. reflexivity. Qed.

Example format_m018 : formats "LET X(Foo, Bar) = SELECT Foo + Bar FROM scope() SELECT * FROM X(Foo=5, Bar=2)"
  ["LET X(Foo, Bar) = SELECT Foo + Bar FROM scope()";
   "SELECT * FROM X(Foo=5, Bar=2)"].
Proof. vm_compute. reflexivity. Qed.

Example format_m019 : formats "LET X(foo) = foo + 2 SELECT X(foo=foo), foo FROM test()"
  ["LET X(foo) = foo + 2";
   "SELECT X(foo=foo), foo FROM test()"].
Proof. vm_compute. reflexivity. Qed.

Example format_m020 : formats "LET X(foo) = SELECT *, foo FROM range(start=foo, end=foo + 2) LET foo=2 SELECT * FROM X(foo=foo)"
  ["LET X(foo) = SELECT *, foo FROM range(start=foo, end=foo + 2)";
   "LET foo = 2";
   "SELECT * FROM X(foo=foo)"].
Proof. vm_compute. reflexivity. Qed.

Example format_m021 : formats "LET X(foo) = SELECT *, foo FROM range(start=foo, end=foo + 2) SELECT X(foo=5).value, X(foo=10) FROM scope()"
  ["LET X(foo) = SELECT *, foo FROM range(start=foo, end=foo + 2)";
   "SELECT X(foo=5).value, X(foo=10) FROM scope()"].
Proof. vm_compute. reflexivity. Qed.

Example format_m022 : formats "LET X(foo) = SELECT *, foo FROM range(start=foo, end=foo + 2) LET foo = 8 SELECT * FROM foreach(row=X, query={ SELECT *, value FROM X(foo=value) })"
  ["LET X(foo) = SELECT *, foo FROM range(start=foo, end=foo + 2)";
   "LET foo = 8";
   "SELECT * FROM foreach(row=X, query={ SELECT *, value FROM X(foo=value) })"].
Proof. vm_compute. reflexivity. Qed.

Example format_m023 : formats "LET X(foo) = 1 + foo SELECT X(foo= foo + 1 ), foo FROM test()"
  ["LET X(foo) = 1 + foo";
   "SELECT X(foo=foo + 1), foo FROM test()"].
Proof. vm_compute. reflexivity. Qed.

Example format_m024 : formats "
LET Xk = 5
LET Y = Xk + count()
SELECT Y AS Y1, Y AS Y2, Y() AS Y3 FROM scope()
"
  ["LET Xk = 5";
   "LET Y = Xk + count()";
   "SELECT Y AS Y1, Y AS Y2, Y() AS Y3 FROM scope()"].
Proof. vm_compute. reflexivity. Qed.

Example format_m025 : formats "LET X = 1 + X SELECT X(X=1), X FROM test()"
  ["LET X = 1 + X";
   "SELECT X(X=1), X FROM test()"].
Proof. vm_compute. reflexivity. Qed.

Example format_m026 : formats "LET X = X.ID SELECT * FROM X"
  ["LET X = X.ID";
   "SELECT * FROM X"].
Proof. vm_compute. reflexivity. Qed.

Example format_m027 : formats "LET X = 1 + X  LET Y = 1 + Y SELECT X, Y FROM scope()"
  ["LET X = 1 + X";
   "LET Y = 1 + Y";
   "SELECT X, Y FROM scope()"].
Proof. vm_compute. reflexivity. Qed.

Example format_m028 : formats "LET X <= 1 + X  LET Y = 1 + Y SELECT X, Y FROM scope()"
  ["LET X <= 1 + X";
   "LET Y = 1 + Y";
   "SELECT X, Y FROM scope()"].
Proof. vm_compute. reflexivity. Qed.

Example format_m029 : formats "LET foo_plugin(X) = SELECT * FROM chain(a={SELECT * FROM foo_plugin(X=1)}) SELECT * FROM foo_plugin(X=1)"
  ["LET foo_plugin(X) = SELECT * FROM chain(a={ SELECT * FROM foo_plugin(X=1) })";
   "SELECT * FROM foo_plugin(X=1)"].
Proof. vm_compute. reflexivity. Qed.

Example format_m030 : formats "SELECT dict(`arg-with-special chars`=TRUE) FROM scope()"
  ["SELECT dict(`arg-with-special chars`=TRUE) FROM scope()"].
Proof. vm_compute. reflexivity. Qed.

Example format_m031 : formats "select bar, baz from groupbytest() GROUP BY bar select baz from groupbytest() GROUP BY bar "
  ["SELECT bar, baz FROM groupbytest() GROUP BY bar";
   "SELECT baz FROM groupbytest() GROUP BY bar"].
Proof. vm_compute. reflexivity. Qed.

Example format_m032 : formats "select *, bar + bar from groupbytest() GROUP BY bar + bar"
  ["SELECT *, bar + bar FROM groupbytest() GROUP BY bar + bar"].
Proof. vm_compute. reflexivity. Qed.

Example format_m033 : formats "LET dict(x) = 1 SELECT 1 AS dict, dict(foo=1) FROM scope() WHERE dict"
  ["LET dict(x) = 1";
   "SELECT 1 AS dict, dict(foo=1) FROM scope() WHERE dict"].
Proof. vm_compute. reflexivity. Qed.

Example format_m034 : formats "
LET row_query = SELECT 1 AS ColumnName123 FROM scope()
LET foreach_query = SELECT ColumnName123 FROM scope()
SELECT * FROM foreach(row=row_query, query=foreach_query)
SELECT * FROM foreach(row=row_query, query={SELECT ColumnName123 FROM scope()})
"
  ["LET row_query = SELECT 1 AS ColumnName123 FROM scope()";
   "LET foreach_query = SELECT ColumnName123 FROM scope()";
   "SELECT * FROM foreach(row=row_query, query=foreach_query)";
   "SELECT * FROM foreach(row=row_query, query={ SELECT ColumnName123 FROM scope() })"].
Proof. vm_compute. reflexivity. Qed.

Example format_m035 : formats "
SELECT count() AS Count FROM foreach(row=[0, 1, 2])
WHERE Count <= 2  AND Count AND Count AND Count
   AND count() and count()  -- Each count() instance is unique and has unique state
"
  ["SELECT count() AS Count FROM foreach(row=[0, 1, 2]) WHERE Count <= 2  AND Count  AND Count  AND Count  AND count()  and count()"].
Proof. vm_compute. reflexivity. Qed.

Example format_m036 : formats "
SELECT min(item=_value) AS Min,
       max(item=_value) AS Max,
       count() AS Count
FROM foreach(row=[0, 1, 2])
GROUP BY 1
"
  ["SELECT min(item=_value) AS Min, max(item=_value) AS Max, count() AS Count FROM foreach(row=[0, 1, 2]) GROUP BY 1"].
Proof. vm_compute. reflexivity. Qed.

Example format_m037 : formats "
SELECT min(item=_value) AS Min,
       max(item=_value) AS Max,
       count() AS Count
FROM foreach(row=[""AAA"", ""BBBB"", ""CCC""])
GROUP BY 1
"
  ["SELECT min(item=_value) AS Min, max(item=_value) AS Max, count() AS Count FROM foreach(row=[""AAA"", ""BBBB"", ""CCC""]) GROUP BY 1"].
Proof. vm_compute. reflexivity. Qed.

Example format_m038 : formats "
SELECT count() AS A, count() AS B FROM foreach(row=[0, 1, 2])
"
  ["SELECT count() AS A, count() AS B FROM foreach(row=[0, 1, 2])"].
Proof. vm_compute. reflexivity. Qed.

Example format_m039 : formats "
LET Adder(X) = SELECT *, count() AS Count FROM range(start=10, end=10 + X, step=1)

SELECT Adder(X=4), Adder(X=2) FROM scope()
"
  ["LET Adder(X) = SELECT *, count() AS Count FROM range(start=10, end=10 + X, step=1)";
   "SELECT Adder(X=4), Adder(X=2) FROM scope()"].
Proof. vm_compute. reflexivity. Qed.

Example format_m040 : formats "
LET Adder(X) = SELECT *, count() AS Count FROM range(start=10, end=10 + X, step=1)

SELECT * FROM foreach(row={ SELECT value FROM range(start=0, end=2, step=1)},
query={
   SELECT * FROM Adder(X=value)
})
"
  ["LET Adder(X) = SELECT *, count() AS Count FROM range(start=10, end=10 + X, step=1)";
   "SELECT * FROM foreach(row={ SELECT value FROM range(start=0, end=2, step=1) }, query={ SELECT * FROM Adder(X=value) })"].
Proof. vm_compute. reflexivity. Qed.

Example format_m041 : formats "
LET MyValue <= ""Hello""

SELECT * FROM foreach(row=[2, 3, 4],
  query={
    SELECT count() AS Count,
       sum(item=_value) AS Sum,
       MyValue
    FROM scope()
})"
  ["LET MyValue <= ""Hello""";
   "SELECT * FROM foreach(row=[2, 3, 4], query={ SELECT count() AS Count, sum(item=_value) AS Sum, MyValue FROM scope() })"].
Proof. vm_compute. reflexivity. Qed.

Example format_m042 : formats "
LET MyValue <= ""Hello""
LET CountMe(Value) = SELECT count() AS Count,
    Value,
    sum(item=Value) AS Sum,
    MyValue
    FROM scope()

LET _value = 10

SELECT * FROM foreach(row=[2, 3, 4],
  query={
    SELECT * FROM CountMe(Value=_value)
})"
  ["LET MyValue <= ""Hello""";
   "LET CountMe(Value) = SELECT count() AS Count, Value, sum(item=Value) AS Sum, MyValue FROM scope()";
   "LET _value = 10";
   "SELECT * FROM foreach(row=[2, 3, 4], query={ SELECT * FROM CountMe(Value=_value) })"].
Proof. vm_compute. reflexivity. Qed.

Example format_m043 : formats "
LET MyValue <= ""Hello""
LET CountMe(Value) = SELECT count() AS Count,
    Value,
    sum(item=Value) AS Sum,
    MyValue
    FROM scope()

LET _value = 10

-- CountMe is evaluated at point of definition to return a stored query.
SELECT * FROM foreach(row=[2, 3, 4],
  query=CountMe(Value=_value))"
  ["LET MyValue <= ""Hello""";
   "LET CountMe(Value) = SELECT count() AS Count, Value, sum(item=Value) AS Sum, MyValue FROM scope()";
   "LET _value = 10";
   "SELECT * FROM foreach(row=[2, 3, 4], query=CountMe(Value=_value))"].
Proof. vm_compute. reflexivity. Qed.

Example format_m044 : formats "
SELECT sum(item=_value) AS Total,
       sum(item=_value * 2) AS TotalDouble
FROM foreach(row=[2, 3, 4])
GROUP BY 1
"
  ["SELECT sum(item=_value) AS Total, sum(item=_value * 2) AS TotalDouble FROM foreach(row=[2, 3, 4]) GROUP BY 1"].
Proof. vm_compute. reflexivity. Qed.

Example format_m045 : formats "
-- Prove that stored query was evaluated
LET Foo = SELECT 2 FROM scope() WHERE set_env(column=""Eval"", value=TRUE)

-- Materialize an expression
LET result <= if(condition=TRUE, then=Foo) -- should materialize
SELECT RootEnv.Eval AS Pass FROM scope()  -- should be set
"
  ["LET Foo = SELECT 2 FROM scope() WHERE set_env(column=""Eval"", value=TRUE)";
   "LET result <= if(condition=TRUE, then=Foo)";
   "SELECT RootEnv.Eval AS Pass FROM scope()"].
Proof. vm_compute. reflexivity. Qed.

Example format_m046 : formats "
LET abc(a) = if(
  condition=a,
  then={SELECT a AS Pass FROM scope()},
  else={SELECT false AS Pass from scope()})

SELECT abc(a=TRUE) AS Pass FROM scope()
"
  ["LET abc(a) = if(condition=a, then={ SELECT a AS Pass FROM scope() }, else={ SELECT false AS Pass FROM scope() })";
   "SELECT abc(a=TRUE) AS Pass FROM scope()"].
Proof. vm_compute. reflexivity. Qed.

Example format_m047 : formats "
LET _ <= SELECT * FROM reset_objectwithmethods()

LET MyCounter(Length) =
   SELECT * FROM foreach(row={
    SELECT value
    FROM range(start=0, end=Length, step=1)
   }, query={
      SELECT Value2 FROM objectwithmethods()
      WHERE Value2
   })

-- The if plugin calls the if function directly here.
-- In previous versions this would cause it to materialize
-- the stored query. In current version the if() function
-- returns the stored query directly so it is not materialized.
SELECT * FROM if(condition=TRUE,
then=if(condition=TRUE,
  then=MyCounter(Length=1000)
))
LIMIT 3

SELECT * FROM if(condition=TRUE,
then=if(condition=TRUE,
  then={
   SELECT VarIsObjectWithMethods.Counter < 20,
       Value2 =~ ""called"" FROM MyCounter(Length=100) }
))
LIMIT 3


// Just prove we did not materialize the MyCounter() query
SELECT Counter < 20 FROM objectwithmethods()
LIMIT 1
"
  ["LET _ <= SELECT * FROM reset_objectwithmethods()";
   "LET MyCounter(Length) = SELECT * FROM foreach(row={ SELECT value FROM range(start=0, end=Length, step=1) }, query={ SELECT Value2 FROM objectwithmethods() WHERE Value2 })";
   "SELECT * FROM if(condition=TRUE, then=if(condition=TRUE, then=MyCounter(Length=1000))) LIMIT 3";
   "SELECT * FROM if(condition=TRUE, then=if(condition=TRUE, then={ SELECT VarIsObjectWithMethods.Counter < 20, Value2 =~ ""called"" FROM MyCounter(Length=100) })) LIMIT 3";
   "SELECT Counter < 20 FROM objectwithmethods() LIMIT 1"].
Proof. vm_compute. reflexivity. Qed.

Example format_m048 : formats "
LET abc(a) = if(
  condition=a,
  then=set_env(column=""EvalFunc"", value=TRUE))

LET _ <= SELECT abc(a=TRUE) FROM scope()
SELECT RootEnv.EvalFunc AS Pass FROM scope()
"
  ["LET abc(a) = if(condition=a, then=set_env(column=""EvalFunc"", value=TRUE))";
   "LET _ <= SELECT abc(a=TRUE) FROM scope()";
   "SELECT RootEnv.EvalFunc AS Pass FROM scope()"].
Proof. vm_compute. reflexivity. Qed.

Example format_m049 : formats "
LET abc(a) = if(
  condition={SELECT * FROM scope()},  -- returns TRUE
  then={SELECT a AS Pass FROM scope()},
  else={SELECT false AS Pass from scope()})

SELECT abc(a=TRUE) AS Pass FROM scope()
"
  ["LET abc(a) = if(condition={ SELECT * FROM scope() }, then={ SELECT a AS Pass FROM scope() }, else={ SELECT false AS Pass FROM scope() })";
   "SELECT abc(a=TRUE) AS Pass FROM scope()"].
Proof. vm_compute. reflexivity. Qed.

Example format_m050 : formats "
LET stored_query = SELECT * FROM scope()

LET abc(a) = if(
  condition=stored_query,
  then={SELECT a AS Pass FROM scope()},
  else={SELECT false AS Pass from scope()})

SELECT abc(a=TRUE) AS Pass FROM scope()
"
  ["LET stored_query = SELECT * FROM scope()";
   "LET abc(a) = if(condition=stored_query, then={ SELECT a AS Pass FROM scope() }, else={ SELECT false AS Pass FROM scope() })";
   "SELECT abc(a=TRUE) AS Pass FROM scope()"].
Proof. vm_compute. reflexivity. Qed.

Example format_m051 : formats "
LET adder(a) = a =~ ""Foo""

LET abc(a) = if(
  condition=adder(a=""Foobar""),
  then={SELECT a AS Pass FROM scope()},
  else={SELECT false AS Pass from scope()})

SELECT abc(a=TRUE) AS Pass FROM scope()
"
  ["LET adder(a) = a =~ ""Foo""";
   "LET abc(a) = if(condition=adder(a=""Foobar""), then={ SELECT a AS Pass FROM scope() }, else={ SELECT false AS Pass FROM scope() })";
   "SELECT abc(a=TRUE) AS Pass FROM scope()"].
Proof. vm_compute. reflexivity. Qed.

Example format_m052 : formats "LET X = '''This
is
a
multiline with 'quotes' and ""double quotes"" and \ backslashes
''' + ""A string""

SELECT X FROM scope()
"
  ["LET X = '''This
is
a
multiline with 'quotes' and ""double quotes"" and \ backslashes
''' + ""A string""";
   "SELECT X FROM scope()"].
Proof. vm_compute. reflexivity. Qed.

Example format_m053 : formats "
SELECT * FROM foreach(row={
  SELECT count() AS Count FROM range(start=1, end=20)
  WHERE panic(column=Count, value=5)    -- Should trigger panic if we reach 5
},
query={
  SELECT Count FROM scope()
})
LIMIT 1"
  ["SELECT * FROM foreach(row={ SELECT count() AS Count FROM range(start=1, end=20) WHERE panic(column=Count, value=5) }, query={ SELECT Count FROM scope() }) LIMIT 1"].
Proof. vm_compute. reflexivity. Qed.

Example format_m054 : formats "
LET X =   SELECT count() AS Count FROM range(start=1, end=20)
  WHERE panic(column=Count, value=6)    -- Should trigger panic if we reach 6

SELECT * FROM foreach(row=X,
query={
  SELECT Count FROM scope()
})
LIMIT 1"
  ["LET X = SELECT count() AS Count FROM range(start=1, end=20) WHERE panic(column=Count, value=6)";
   "SELECT * FROM foreach(row=X, query={ SELECT Count FROM scope() }) LIMIT 1"].
Proof. vm_compute. reflexivity. Qed.

Example format_m055 : formats "
LET X(Y) =   SELECT Y, count() AS Count FROM range(start=1, end=20)
  WHERE panic(column=Count, value=7)    -- Should trigger panic if we reach 7

SELECT * FROM foreach(row=X(Y=23),
query={
  SELECT Y, Count FROM scope()
})
LIMIT 1"
  ["LET X(Y) = SELECT Y, count() AS Count FROM range(start=1, end=20) WHERE panic(column=Count, value=7)";
   "SELECT * FROM foreach(row=X(Y=23), query={ SELECT Y, Count FROM scope() }) LIMIT 1"].
Proof. vm_compute. reflexivity. Qed.

Example format_m056 : formats "
LET X(Y) = SELECT Y + 5 + value AS Foo FROM range(start=1, end=2)

SELECT X(Y=2).Foo FROM scope()"
  ["LET X(Y) = SELECT Y + 5 + value AS Foo FROM range(start=1, end=2)";
   "SELECT X(Y=2).Foo FROM scope()"].
Proof. vm_compute. reflexivity. Qed.

Example format_m057 : formats "
SELECT * FROM foreach(row=(1,8,3,2),
   query={SELECT _value AS X FROM scope()}) ORDER BY X"
  ["SELECT * FROM foreach(row=(1, 8, 3, 2), query={ SELECT _value AS X FROM scope() }) ORDER BY X"].
Proof. vm_compute. reflexivity. Qed.

Example format_m058 : formats "
SELECT * FROM foreach(row=(1,1,1,1,8,3,3,3,2),
   query={SELECT _value AS X FROM scope()}) GROUP BY X"
  ["SELECT * FROM foreach(row=(1, 1, 1, 1, 8, 3, 3, 3, 2), query={ SELECT _value AS X FROM scope() }) GROUP BY X"].
Proof. vm_compute. reflexivity. Qed.

Example format_m059 : formats "
SELECT * FROM foreach(row=(1,1,1,1,8,3,3,3,2),
   query={
       SELECT _value AS X, 10 - _value AS Y FROM scope()
   }) GROUP BY X ORDER BY Y"
  ["SELECT * FROM foreach(row=(1, 1, 1, 1, 8, 3, 3, 3, 2), query={ SELECT _value AS X, 10 - _value AS Y FROM scope() }) GROUP BY X ORDER BY Y"].
Proof. vm_compute. reflexivity. Qed.

Example format_m060 : formats "
LET BIN <= SELECT * FROM test()
SELECT BIN, BIN[0] FROM scope()
"
  ["LET BIN <= SELECT * FROM test()";
   "SELECT BIN, BIN[0] FROM scope()"].
Proof. vm_compute. reflexivity. Qed.

Example format_m061 : formats "
LET Index(X) = X - 1
LET BIN <= SELECT * FROM test()
SELECT BIN, BIN[ Index(X=2) ] FROM scope()
SELECT BIN, BIN[ Index(X=0) ] FROM scope()
"
  ["LET Index(X) = X - 1";
   "LET BIN <= SELECT * FROM test()";
   "SELECT BIN, BIN[Index(X=2)] FROM scope()";
   "SELECT BIN, BIN[Index(X=0)] FROM scope()"].
Proof. vm_compute. reflexivity. Qed.

Example format_m062 : formats "
let result = select  * from test()
// Create Let materialized expression
let result <= select  * from test()

//Refer to Let expression
select * from result

//Refer to non existent Let expression returns no rows
select * from no_such_result
// Refer to non existent Let expression by column returns no rows
select foobar from no_such_result"
  ["LET result = SELECT * FROM test()";
   "LET result <= SELECT * FROM test()";
   "SELECT * FROM result";
   "SELECT * FROM no_such_result";
   "SELECT foobar FROM no_such_result"].
Proof. vm_compute. reflexivity. Qed.

Example format_m063 : formats "LET format = 5 SELECT format, format(format='%v', args=1) AS A FROM scope()"
  ["LET format = 5";
   "SELECT format, format(format='%v', args=1) AS A FROM scope()"].
Proof. vm_compute. reflexivity. Qed.

Example format_m064 : formats "LET Foo = (dict(X=1),dict(X=2),dict(X=3))   SELECT * FROM Foo"
  ["LET Foo = (dict(X=1), dict(X=2), dict(X=3))";
   "SELECT * FROM Foo"].
Proof. vm_compute. reflexivity. Qed.

Example format_m065 : formats "LET Foo <= (dict(X=1),dict(X=2),dict(X=3))   SELECT * FROM Foo"
  ["LET Foo <= (dict(X=1), dict(X=2), dict(X=3))";
   "SELECT * FROM Foo"].
Proof. vm_compute. reflexivity. Qed.

Example format_m066 : formats "LET Foo(X) = (dict(X=1+X),dict(X=2+X),dict(X=3+X))   SELECT * FROM Foo(X=1)"
  ["LET Foo(X) = (dict(X=1 + X), dict(X=2 + X), dict(X=3 + X))";
   "SELECT * FROM Foo(X=1)"].
Proof. vm_compute. reflexivity. Qed.

Example format_m067 : formats "
LET X <= (0,1,2,3,4,5,6,7)
SELECT X[2:], X[2:4], X[:2], X[-1], X[-2], X[-2:], X[2:-1] FROM scope()
"
  ["LET X <= (0, 1, 2, 3, 4, 5, 6, 7)";
   "SELECT X[2:], X[2:4], X[:2], X[-1], X[-2], X[-2:], X[2:-1] FROM scope()"].
Proof. vm_compute. reflexivity. Qed.

Example format_m068 : formats "
LET X = ""Hello World""
SELECT X[1:5], X[-5:], X[:5], X[5:2], X[5:5] FROM scope()
"
  ["LET X = ""Hello World""";
   "SELECT X[1:5], X[-5:], X[:5], X[5:2], X[5:5] FROM scope()"].
Proof. vm_compute. reflexivity. Qed.

Example format_m069 : formats "
LET X = ""\x00\xff\xfe\xfc\xd0\x01""
SELECT X[1], X[2], format(format=""%02x"", args=X[2:5]), X[5:2], X[2:2]
FROM scope()
"
  ["LET X = ""\x00\xff\xfe\xfc\xd0\x01""";
   "SELECT X[1], X[2], format(format=""%02x"", args=X[2:5]), X[5:2], X[2:2] FROM scope()"].
Proof. vm_compute. reflexivity. Qed.

Example format_m070 : formats "
LET _ <= SELECT * FROM reset_objectwithmethods()

-- Should increment Value2 count 1-2
SELECT * FROM objectwithmethods()

-- Should also increment Value2 count 3-4
SELECT Value1, Value2 + ""X"" FROM objectwithmethods()

-- Value2 is lazy so should **not** increment Value2 count
SELECT Value1 FROM objectwithmethods()

-- Value2 is evaluated lazily - no rows are emitted so Value2 is not called.
SELECT Value2 + ""X"" FROM objectwithmethods()
WHERE False

-- Value2 is **not** evaluated in an if() clause when not needed
SELECT if(condition=1, then=2, else=Value2)
FROM objectwithmethods()

-- Should resume value2 from previous query 5-6.
-- Reusing Value2 in the WHERE clause should not re-evalute it as it is cached.
SELECT Value2 FROM objectwithmethods()
WHERE Value2 =~ ""method""

"
  ["LET _ <= SELECT * FROM reset_objectwithmethods()";
   "SELECT * FROM objectwithmethods()";
   "SELECT Value1, Value2 + ""X"" FROM objectwithmethods()";
   "SELECT Value1 FROM objectwithmethods()";
   "SELECT Value2 + ""X"" FROM objectwithmethods() WHERE False";
   "SELECT if(condition=1, then=2, else=Value2) FROM objectwithmethods()";
   "SELECT Value2 FROM objectwithmethods() WHERE Value2 =~ ""method"""].
Proof. vm_compute. reflexivity. Qed.

Example format_m071 : formats "
LET _ <= SELECT * FROM reset_objectwithmethods()

-- Access another field should not increment
SELECT VarIsObjectWithMethods.Value1 FROM scope()

-- Access method - should increment to 1
SELECT VarIsObjectWithMethods.Value2 FROM scope()

-- Access another field should not increment
SELECT VarIsObjectWithMethods.Value1 FROM scope()

-- Value2 is **not** evaluated in an if() clause when not needed
SELECT if(condition=1, then=2, else=VarIsObjectWithMethods.Value2)
FROM scope()

-- Access method - should increment to 2
SELECT VarIsObjectWithMethods.Value2 FROM scope()

-- Value2 is evaluated in an if() clause when needed
-- Each associative dereference re-evaluates the property - so these are 3, 4, 5
SELECT if(condition=FALSE, then=2, else=VarIsObjectWithMethods.Value2) + ""X"",
       VarIsObjectWithMethods.Value2 =~ ""I am a method"",
       VarIsObjectWithMethods.Value2
FROM scope()

"
  ["LET _ <= SELECT * FROM reset_objectwithmethods()";
   "SELECT VarIsObjectWithMethods.Value1 FROM scope()";
   "SELECT VarIsObjectWithMethods.Value2 FROM scope()";
   "SELECT VarIsObjectWithMethods.Value1 FROM scope()";
   "SELECT if(condition=1, then=2, else=VarIsObjectWithMethods.Value2) FROM scope()";
   "SELECT VarIsObjectWithMethods.Value2 FROM scope()";
   "SELECT if(condition=FALSE, then=2, else=VarIsObjectWithMethods.Value2) + ""X"", VarIsObjectWithMethods.Value2 =~ ""I am a method"", VarIsObjectWithMethods.Value2 FROM scope()"].
Proof. vm_compute. reflexivity. Qed.

Example format_m072 : formats "
LET Foo = ""Hello""
LET MyFunc(X) = SELECT X, Foo FROM scope()

SELECT * FROM MyFunc(X=1)"
  ["LET Foo = ""Hello""";
   "LET MyFunc(X) = SELECT X, Foo FROM scope()";
   "SELECT * FROM MyFunc(X=1)"].
Proof. vm_compute. reflexivity. Qed.

Example format_m073 : formats "
SELECT func_foo(return=ArrayValue) FROM scope()
"
  ["SELECT func_foo(return=ArrayValue) FROM scope()"].
Proof. vm_compute. reflexivity. Qed.

Example format_m074 : formats "
LET FooBar = SELECT ""A"" FROM scope()
LET B = SELECT if(condition=TRUE, then=FooBar) AS Item
FROM scope()
SELECT B, FooBar FROM scope()
"
  ["LET FooBar = SELECT ""A"" FROM scope()";
   "LET B = SELECT if(condition=TRUE, then=FooBar) AS Item FROM scope()";
   "SELECT B, FooBar FROM scope()"].
Proof. vm_compute. reflexivity. Qed.

Example format_m075 : formats "
EXPLAIN SELECT ""A"" FROM scope()
"
  ["EXPLAIN SELECT ""A"" FROM scope()"].
Proof. vm_compute. reflexivity. Qed.

Example format_m076 : formats "
SELECT * FROM flatten(query={
   SELECT 1 AS A, (1,2) AS B FROM scope()
})"
  ["SELECT * FROM flatten(query={ SELECT 1 AS A, (1, 2) AS B FROM scope() })"].
Proof. vm_compute. reflexivity. Qed.

Example format_m077 : formats "
SELECT * FROM flatten(query={
   SELECT (3, 4) AS A, (1,2) AS B FROM scope()
})"
  ["SELECT * FROM flatten(query={ SELECT (3, 4) AS A, (1, 2) AS B FROM scope() })"].
Proof. vm_compute. reflexivity. Qed.

Example format_m078 : formats "
LET FOO <= SELECT * FROM scope() WHERE FALSE
SELECT * FROM flatten(query={
   SELECT 1 AS A, FOO, (1, 2) AS B FROM scope()
})"
  ["LET FOO <= SELECT * FROM scope() WHERE FALSE";
   "SELECT * FROM flatten(query={ SELECT 1 AS A, FOO, (1, 2) AS B FROM scope() })"].
Proof. vm_compute. reflexivity. Qed.

Example format_m079 : formats "
SELECT * FROM flatten(query={
   SELECT 1 AS A, dict(E=1,F=2) AS B FROM scope()
})"
  ["SELECT * FROM flatten(query={ SELECT 1 AS A, dict(E=1, F=2) AS B FROM scope() })"].
Proof. vm_compute. reflexivity. Qed.

Example format_m080 : formats "
SELECT * FROM flatten(query={
   SELECT *, { SELECT * FROM range(start=1, end=3) } AS Count
   FROM foreach(row=[dict(A=1)])
})"
  ["SELECT * FROM flatten(query={ SELECT *, { SELECT * FROM range(start=1, end=3) } AS Count FROM foreach(row=[dict(A=1)]) })"].
Proof. vm_compute. reflexivity. Qed.

Example format_m081 : formats "
LET SQ = SELECT * FROM range(start=1, end=3)
SELECT * FROM flatten(query={
   SELECT *, SQ
   FROM foreach(row=[dict(A=1)])
})"
  ["LET SQ = SELECT * FROM range(start=1, end=3)";
   "SELECT * FROM flatten(query={ SELECT *, SQ FROM foreach(row=[dict(A=1)]) })"].
Proof. vm_compute. reflexivity. Qed.

Example format_m082 : formats "
SELECT * FROM foreach(row={
   SELECT count() AS RowCount
   FROM range(start=1, end=3)
}, query={
   SELECT RowCount, count() AS QueryCount, count() AS SecondQueryCount
   FROM range(start=1, step=1, end=3)
})
"
  ["SELECT * FROM foreach(row={ SELECT count() AS RowCount FROM range(start=1, end=3) }, query={ SELECT RowCount, count() AS QueryCount, count() AS SecondQueryCount FROM range(start=1, step=1, end=3) })"].
Proof. vm_compute. reflexivity. Qed.

Example format_m083 : formats "
LET Counter(Start) = SELECT count() AS Count, Start
  FROM range(start=1, step=1, end=3)

SELECT * FROM foreach(row={
   SELECT count() AS RowCount
   FROM range(start=1, end=3)
}, query={
   SELECT * FROM Counter(Start=RowCount)
})
"
  ["LET Counter(Start) = SELECT count() AS Count, Start FROM range(start=1, step=1, end=3)";
   "SELECT * FROM foreach(row={ SELECT count() AS RowCount FROM range(start=1, end=3) }, query={ SELECT * FROM Counter(Start=RowCount) })"].
Proof. vm_compute. reflexivity. Qed.

Example format_m084 : formats "
LET Counter(Start) = SELECT count() AS Count, Start
  FROM range(start=1, step=1, end=3)

LET CountFunc(Start) = dict(A=count(), B=Start)

SELECT set_env(column=""Eval"", value=Counter(Start=""First Call"")),
       set_env(column=""Eval2"", value=Counter(Start=""Second Call"")),
       set_env(column=""Eval3"", value=CountFunc(Start=""First Func Call"")),
       set_env(column=""Eval4"", value=CountFunc(Start=""Second Func Call""))
FROM scope()

SELECT RootEnv.Eval AS FirstCall, RootEnv.Eval2 AS SecondCall,
       RootEnv.Eval3 AS FirstFuncCall, RootEnv.Eval4 AS SecondFuncCall
FROM scope()
"
  ["LET Counter(Start) = SELECT count() AS Count, Start FROM range(start=1, step=1, end=3)";
   "LET CountFunc(Start) = dict(A=count(), B=Start)";
   "SELECT set_env(column=""Eval"", value=Counter(Start=""First Call"")), set_env(column=""Eval2"", value=Counter(Start=""Second Call"")), set_env(column=""Eval3"", value=CountFunc(Start=""First Func Call"")), set_env(column=""Eval4"", value=CountFunc(Start=""Second Func Call"")) FROM scope()";
   "SELECT RootEnv.Eval AS FirstCall, RootEnv.Eval2 AS SecondCall, RootEnv.Eval3 AS FirstFuncCall, RootEnv.Eval4 AS SecondFuncCall FROM scope()"].
Proof. vm_compute. reflexivity. Qed.

Example format_m085 : formats "
LET Data <= (dict(A=1), dict(B=2))
LET s = scope()

SELECT s.A, A, s.B, B FROM Data
"
  ["LET Data <= (dict(A=1), dict(B=2))";
   "LET s = scope()";
   "SELECT s.A, A, s.B, B FROM Data"].
Proof. vm_compute. reflexivity. Qed.

Example format_m086 : formats "
SELECT timestamp(epoch=1723428985) < 1118628985,
       1118628985 < timestamp(epoch=1723428985),
       timestamp(epoch=1723428985) < timestamp(epoch=1118628985),
       timestamp(epoch=1118628985) < timestamp(epoch=1723428985),
       timestamp(epoch=1723428985) > 1118628985,
       1118628985 > timestamp(epoch=1723428985),
       timestamp(epoch=1723428985) > timestamp(epoch=1118628985),
       timestamp(epoch=1118628985) > timestamp(epoch=1723428985),
       timestamp(epoch=1723428985) < 1118628985.0,
       1118628985.0 < timestamp(epoch=1723428985),
       timestamp(epoch=1723428985) > 1118628985.0,
       1118628985.0 > timestamp(epoch=1723428985),
       timestamp(epoch=1723428985) < ""2024-08-12T02:15:25.176Z"",
       ""2024-08-12T02:15:25.176Z"" < timestamp(epoch=1723428985),
       timestamp(epoch=1723428985) > ""2024-08-12T02:15:25.176Z"",
       ""2024-08-12T02:15:25.176Z"" > timestamp(epoch=1723428985)
FROM scope()
"
  ["SELECT timestamp(epoch=1723428985) < 1118628985, 1118628985 < timestamp(epoch=1723428985), timestamp(epoch=1723428985) < timestamp(epoch=1118628985), timestamp(epoch=1118628985) < timestamp(epoch=1723428985), timestamp(epoch=1723428985) > 1118628985, 1118628985 > timestamp(epoch=1723428985), timestamp(epoch=1723428985) > timestamp(epoch=1118628985), timestamp(epoch=1118628985) > timestamp(epoch=1723428985), timestamp(epoch=1723428985) < 1118628985.0, 1118628985.0 < timestamp(epoch=1723428985), timestamp(epoch=1723428985) > 1118628985.0, 1118628985.0 > timestamp(epoch=1723428985), timestamp(epoch=1723428985) < ""2024-08-12T02:15:25.176Z"", ""2024-08-12T02:15:25.176Z"" < timestamp(epoch=1723428985), timestamp(epoch=1723428985) > ""2024-08-12T02:15:25.176Z"", ""2024-08-12T02:15:25.176Z"" > timestamp(epoch=1723428985) FROM scope()"].
Proof. vm_compute. reflexivity. Qed.

Example format_m087 : formats "
SELECT StructValue.SrcIP, StructValue.src_ip, StructValue.SrcIp
FROM scope()"
  ["SELECT StructValue.SrcIP, StructValue.src_ip, StructValue.SrcIp FROM scope()"].
Proof. vm_compute. reflexivity. Qed.

Example format_m088 : formats "
LET X = SELECT value AS Foo FROM range(start=1, end=4)

SELECT (dict(Foo=12), ) + X, X + (dict(Foo=12),) FROM scope()
"
  ["LET X = SELECT value AS Foo FROM range(start=1, end=4)";
   "SELECT (dict(Foo=12), ) + X, X + (dict(Foo=12), ) FROM scope()"].
Proof. vm_compute. reflexivity. Qed.

Example format_m089 : formats "
LET X <= SELECT value AS Foo FROM range(start=1, end=4)

SELECT (dict(Foo=12), ) + X, X + (dict(Foo=12),) FROM scope()
"
  ["LET X <= SELECT value AS Foo FROM range(start=1, end=4)";
   "SELECT (dict(Foo=12), ) + X, X + (dict(Foo=12), ) FROM scope()"].
Proof. vm_compute. reflexivity. Qed.

Example format_m090 : formats "
LET Y <= 7

LET F(X = 2, Y ) = X+Y
SELECT F(Y=1), F(), F(X=1, Y=4) FROM scope()
"
  ["LET Y <= 7";
   "LET F(X=2, Y) = X + Y";
   "SELECT F(Y=1), F(), F(X=1, Y=4) FROM scope()"].
Proof. vm_compute. reflexivity. Qed.

Example format_m091 : formats "
LET F(X = 2, Y ) =
    SELECT X + Y AS Total
    FROM scope()

SELECT * FROM F(Y=1)
"
  ["LET F(X=2, Y) = SELECT X + Y AS Total FROM scope()";
   "SELECT * FROM F(Y=1)"].
Proof. vm_compute. reflexivity. Qed.

Example format_m092 : formats "LET X <= 1 + -2 SELECT X FROM scope()"
  ["LET X <= 1 + -2";
   "SELECT X FROM scope()"].
Proof. vm_compute. reflexivity. Qed.

Example format_m093 : formats "
LET X <= 2
LET Bar(X) = X + 3
LET Foo <= (1, 2+X, 3, 4+ -5)
LET Float <= 12.232
LET StoredQuery = SELECT * FROM info()

SELECT Foo[ -2 ], Foo[ -X ], -X, -`X`, 
       -Bar(X=3), -Float, -StoredQuery,
       Foo[-2:],
       Foo[-X:],
       Foo[-Bar(X=-1):]
FROM scope()
"
  ["LET X <= 2";
   "LET Bar(X) = X + 3";
   "LET Foo <= (1, 2 + X, 3, 4 + -5)";
   "LET Float <= 12.232";
   "LET StoredQuery = SELECT * FROM info()";
   "SELECT Foo[-2], Foo[-X], -X, -`X`, -Bar(X=3), -Float, -StoredQuery, Foo[-2:], Foo[-X:], Foo[-Bar(X=-1):] FROM scope()"].
Proof. vm_compute. reflexivity. Qed.

Example clause_000 : again "select * from plugin() where 1 or sleep(a=100)".
Proof. vm_compute. reflexivity. Qed.
Example clause_001 : again "select * from plugin() where 1".
Proof. vm_compute. reflexivity. Qed.
Example clause_002 : again "select * from plugin() where 0 or 3".
Proof. vm_compute. reflexivity. Qed.
Example clause_003 : again "select * from plugin() where 1 and 3".
Proof. vm_compute. reflexivity. Qed.
Example clause_004 : again "select * from plugin() where 1 = TRUE".
Proof. vm_compute. reflexivity. Qed.
Example clause_005 : again "select * from plugin() where 0 = FALSE".
Proof. vm_compute. reflexivity. Qed.
Example clause_006 : rejects "select * from plugin() where '-' 2".
Proof. vm_compute. reflexivity. Qed.
Example clause_007 : again "select * from plugin() where 1.5".
Proof. vm_compute. reflexivity. Qed.
Example clause_008 : again "select * from plugin() where 2 - 1".
Proof. vm_compute. reflexivity. Qed.
Example clause_009 : again "select * from plugin() where 1 + 2".
Proof. vm_compute. reflexivity. Qed.
Example clause_010 : again "select * from plugin() where 1 + 2.0".
Proof. vm_compute. reflexivity. Qed.
Example clause_011 : again "select * from plugin() where 1 + 2.5".
Proof. vm_compute. reflexivity. Qed.
Example clause_012 : again "select * from plugin() where 2.5 + 1".
Proof. vm_compute. reflexivity. Qed.
Example clause_013 : again "select * from plugin() where 1 + -2".
Proof. vm_compute. reflexivity. Qed.
Example clause_014 : again "select * from plugin() where 1 + (1 + 2) * 5".
Proof. vm_compute. reflexivity. Qed.
Example clause_015 : again "select * from plugin() where 1 + (2 + 2) / 2".
Proof. vm_compute. reflexivity. Qed.
Example clause_016 : again "select * from plugin() where (1 + 2 + 3) + 1".
Proof. vm_compute. reflexivity. Qed.
Example clause_017 : again "select * from plugin() where (1 + 2 - 3) + 1".
Proof. vm_compute. reflexivity. Qed.
Example clause_018 : again "select * from plugin() where 4 - 2".
Proof. vm_compute. reflexivity. Qed.
Example clause_019 : again "select * from plugin() where 4 - 2.0".
Proof. vm_compute. reflexivity. Qed.
Example clause_020 : again "select * from plugin() where 4 - 2.1".
Proof. vm_compute. reflexivity. Qed.
Example clause_021 : again "select * from plugin() where 4.0 - 2".
Proof. vm_compute. reflexivity. Qed.
Example clause_022 : again "select * from plugin() where 4.0 - 2.0".
Proof. vm_compute. reflexivity. Qed.
Example clause_023 : again "select * from plugin() where 4 / 2".
Proof. vm_compute. reflexivity. Qed.
Example clause_024 : again "select * from plugin() where 4 / 2.0".
Proof. vm_compute. reflexivity. Qed.
Example clause_025 : again "select * from plugin() where 4.0 / 2".
Proof. vm_compute. reflexivity. Qed.
Example clause_026 : again "select * from plugin() where 4.0 / 2.0".
Proof. vm_compute. reflexivity. Qed.
Example clause_027 : again "select * from plugin() where 4.0 / 0".
Proof. vm_compute. reflexivity. Qed.
Example clause_028 : again "select * from plugin() where 4 / 3".
Proof. vm_compute. reflexivity. Qed.
Example clause_029 : again "select * from plugin() where 1 + 2 * 4".
Proof. vm_compute. reflexivity. Qed.
Example clause_030 : again "select * from plugin() where 1 and 2 * 4".
Proof. vm_compute. reflexivity. Qed.
Example clause_031 : again "select * from plugin() where 1 and 2 * 0".
Proof. vm_compute. reflexivity. Qed.
Example clause_032 : again "select * from plugin() where false and 5 or 4".
Proof. vm_compute. reflexivity. Qed.
Example clause_033 : again "select * from plugin() where (false and 5) or 4".
Proof. vm_compute. reflexivity. Qed.
Example clause_034 : again "select * from plugin() where 10 / 0".
Proof. vm_compute. reflexivity. Qed.
Example clause_035 : again "select * from plugin() where 1 + 'foo'".
Proof. vm_compute. reflexivity. Qed.
Example clause_036 : again "select * from plugin() where 'foo' - 'bar'".
Proof. vm_compute. reflexivity. Qed.
Example clause_037 : again "select * from plugin() where 1 and 2 and 3 and 4".
Proof. vm_compute. reflexivity. Qed.
Example clause_038 : again "select * from plugin() where 1 and (2 = 1 + 1) and 3".
Proof. vm_compute. reflexivity. Qed.
Example clause_039 : again "select * from plugin() where 1 and (2 = 1 + 2) and 3".
Proof. vm_compute. reflexivity. Qed.
Example clause_040 : again "select * from plugin() where 1 and func_foo(return=FALSE) and 3".
Proof. vm_compute. reflexivity. Qed.
Example clause_041 : again "select * from plugin() where func_foo(return=FALSE) or func_foo(return=2) or func_foo(return=FALSE)".
Proof. vm_compute. reflexivity. Qed.
Example clause_042 : again "select * from plugin() where 'foo' + 'bar'".
Proof. vm_compute. reflexivity. Qed.
Example clause_043 : again "select * from plugin() where 'foo' + 'bar' = 'foobar'".
Proof. vm_compute. reflexivity. Qed.
Example clause_044 : again "select * from plugin() where 5 * func_foo()".
Proof. vm_compute. reflexivity. Qed.
Example clause_045 : again "select * from plugin() where const_foo = 1".
Proof. vm_compute. reflexivity. Qed.
Example clause_046 : again "select * from plugin() where const_foo != 2".
Proof. vm_compute. reflexivity. Qed.
Example clause_047 : again "select * from plugin() where func_foo() = 1".
Proof. vm_compute. reflexivity. Qed.
Example clause_048 : again "select * from plugin() where func_foo() = func_foo()".
Proof. vm_compute. reflexivity. Qed.
Example clause_049 : again "select * from plugin() where 1 = const_foo".
Proof. vm_compute. reflexivity. Qed.
Example clause_050 : again "select * from plugin() where 1 = TRUE".
Proof. vm_compute. reflexivity. Qed.
Example clause_051 : again "select * from plugin() where dict(X=1, Y=2) = dict(Y=2, X=1)".
Proof. vm_compute. reflexivity. Qed.
Example clause_052 : again "select * from plugin() where 1 = 1.0".
Proof. vm_compute. reflexivity. Qed.
Example clause_053 : again "select * from plugin() where 1.0 = 1".
Proof. vm_compute. reflexivity. Qed.
Example clause_054 : again "select * from plugin() where 1.1 = 1".
Proof. vm_compute. reflexivity. Qed.
Example clause_055 : again "select * from plugin() where 1 = 1.1".
Proof. vm_compute. reflexivity. Qed.
Example clause_056 : again "select * from plugin() where 1 = 'foo'".
Proof. vm_compute. reflexivity. Qed.
Example clause_057 : again "select * from plugin() where 281462092005375 = 65535 * 65535 * 65535".
Proof. vm_compute. reflexivity. Qed.
Example clause_058 : again "select * from plugin() where const_foo > 1".
Proof. vm_compute. reflexivity. Qed.
Example clause_059 : again "select * from plugin() where const_foo < 2".
Proof. vm_compute. reflexivity. Qed.
Example clause_060 : again "select * from plugin() where func_foo() >= 1".
Proof. vm_compute. reflexivity. Qed.
Example clause_061 : again "select * from plugin() where func_foo() > 1".
Proof. vm_compute. reflexivity. Qed.
Example clause_062 : again "select * from plugin() where func_foo() < func_foo()".
Proof. vm_compute. reflexivity. Qed.
Example clause_063 : again "select * from plugin() where 1 <= const_foo".
Proof. vm_compute. reflexivity. Qed.
Example clause_064 : again "select * from plugin() where 1 >= TRUE".
Proof. vm_compute. reflexivity. Qed.
Example clause_065 : again "select * from plugin() where 2 > 1".
Proof. vm_compute. reflexivity. Qed.
Example clause_066 : again "select * from plugin() where 2 > 1.5".
Proof. vm_compute. reflexivity. Qed.
Example clause_067 : again "select * from plugin() where 2 > 2.5".
Proof. vm_compute. reflexivity. Qed.
Example clause_068 : again "select * from plugin() where 2 < 1".
Proof. vm_compute. reflexivity. Qed.
Example clause_069 : again "select * from plugin() where 2 < 1.5".
Proof. vm_compute. reflexivity. Qed.
Example clause_070 : again "select * from plugin() where 2.1 < three_int64".
Proof. vm_compute. reflexivity. Qed.
Example clause_071 : again "select * from plugin() where 2.1 < 2.5".
Proof. vm_compute. reflexivity. Qed.
Example clause_072 : again "select * from plugin() where 3.5 < three_int64".
Proof. vm_compute. reflexivity. Qed.
Example clause_073 : again "select * from plugin() where three_int64 < 3.6".
Proof. vm_compute. reflexivity. Qed.
Example clause_074 : again "select * from plugin() where three_int64 < 2.1".
Proof. vm_compute. reflexivity. Qed.
Example clause_075 : again "select * from plugin() where 2.1 > three_int64".
Proof. vm_compute. reflexivity. Qed.
Example clause_076 : again "select * from plugin() where 2.1 > 2.5".
Proof. vm_compute. reflexivity. Qed.
Example clause_077 : again "select * from plugin() where 3.5 > three_int64".
Proof. vm_compute. reflexivity. Qed.
Example clause_078 : again "select * from plugin() where three_int64 > 3.6".
Proof. vm_compute. reflexivity. Qed.
Example clause_079 : again "select * from plugin() where three_int64 > 2.1".
Proof. vm_compute. reflexivity. Qed.
Example clause_080 : again "select * from plugin() where 2 > 'hello'".
Proof. vm_compute. reflexivity. Qed.
Example clause_081 : again "select * from plugin() where 2 < 'hello'".
Proof. vm_compute. reflexivity. Qed.
Example clause_082 : again "select * from plugin() where func_foo(return =1)".
Proof. vm_compute. reflexivity. Qed.
Example clause_083 : again "select * from plugin() where func_foo(return =1) = 1".
Proof. vm_compute. reflexivity. Qed.
Example clause_084 : again "select * from plugin() where func_foo(return =1 + 2)".
Proof. vm_compute. reflexivity. Qed.
Example clause_085 : again "select * from plugin() where func_foo(return = (1 + (2 + 3) * 3))".
Proof. vm_compute. reflexivity. Qed.
Example clause_086 : again "select * from plugin() where func_foo(return='-')".
Proof. vm_compute. reflexivity. Qed.
Example clause_087 : again "select * from plugin() where func_foo(return = (1 + func_foo(return=2 + 3)))".
Proof. vm_compute. reflexivity. Qed.
Example clause_088 : again "select * from plugin() where (1, 2, 3, 4)".
Proof. vm_compute. reflexivity. Qed.
Example clause_089 : again "select * from plugin() where (1, 2.2, 3, 4)".
Proof. vm_compute. reflexivity. Qed.
Example clause_090 : again "select * from plugin() where 2 in (1, 2, 3, 4)".
Proof. vm_compute. reflexivity. Qed.
Example clause_091 : again "select * from plugin() where (1, 2, 3) = (1, 2, 3)".
Proof. vm_compute. reflexivity. Qed.
Example clause_092 : again "select * from plugin() where (1, 2, 3) != (2, 3)".
Proof. vm_compute. reflexivity. Qed.
Example clause_093 : again "select * from plugin() where (1, 2) + (3, 4)".
Proof. vm_compute. reflexivity. Qed.
Example clause_094 : again "select * from plugin() where 1 + (3, 4)".
Proof. vm_compute. reflexivity. Qed.
Example clause_095 : again "select * from plugin() where (1, 2) + 3".
Proof. vm_compute. reflexivity. Qed.
Example clause_096 : again "select * from plugin() where 1 + NULL".
Proof. vm_compute. reflexivity. Qed.
Example clause_097 : again "select * from plugin() where NULL + 1".
Proof. vm_compute. reflexivity. Qed.
Example clause_098 : again "select * from plugin() where 1 - NULL".
Proof. vm_compute. reflexivity. Qed.
Example clause_099 : again "select * from plugin() where NULL - 1".
Proof. vm_compute. reflexivity. Qed.
Example clause_100 : again "select * from plugin() where 1 * NULL".
Proof. vm_compute. reflexivity. Qed.
Example clause_101 : again "select * from plugin() where NULL * 1".
Proof. vm_compute. reflexivity. Qed.
Example clause_102 : again "select * from plugin() where 1 / NULL".
Proof. vm_compute. reflexivity. Qed.
Example clause_103 : again "select * from plugin() where NULL / 1".
Proof. vm_compute. reflexivity. Qed.
Example clause_104 : again "select * from plugin() where 1 =~ NULL".
Proof. vm_compute. reflexivity. Qed.
Example clause_105 : again "select * from plugin() where NULL =~ 1".
Proof. vm_compute. reflexivity. Qed.
Example clause_106 : again "select * from plugin() where 1 in NULL".
Proof. vm_compute. reflexivity. Qed.
Example clause_107 : again "select * from plugin() where NULL in 1".
Proof. vm_compute. reflexivity. Qed.
Example clause_108 : again "select * from plugin() where dict(foo=1) = dict(foo=1)".
Proof. vm_compute. reflexivity. Qed.
Example clause_109 : again "select * from plugin() where dict(foo=1)".
Proof. vm_compute. reflexivity. Qed.
Example clause_110 : again "select * from plugin() where dict(foo=1.0)".
Proof. vm_compute. reflexivity. Qed.
Example clause_111 : again "select * from plugin() where dict(foo=1, bar=2)".
Proof. vm_compute. reflexivity. Qed.
Example clause_112 : again "select * from plugin() where dict(foo=1, bar=2, baz=3)".
Proof. vm_compute. reflexivity. Qed.
Example clause_113 : again "select * from plugin() where dict(foo=[1, 2])".
Proof. vm_compute. reflexivity. Qed.
Example clause_114 : again "select * from plugin() where dict(`key with spaces`='Value')".
Proof. vm_compute. reflexivity. Qed.
Example clause_115 : again "select * from plugin() where dict(foo=[1,])".
Proof. vm_compute. reflexivity. Qed.
Example clause_116 : again "select * from plugin() where dict(foo=(1,))".
Proof. vm_compute. reflexivity. Qed.
Example clause_117 : again "select * from plugin() where dict(foo=len(list=[1,]))".
Proof. vm_compute. reflexivity. Qed.
Example clause_118 : again "select * from plugin() where dict(foo=[1])".
Proof. vm_compute. reflexivity. Qed.
Example clause_119 : again "select * from plugin() where dict(foo=1, bar=( 2 + 3 ))".
Proof. vm_compute. reflexivity. Qed.
Example clause_120 : again "select * from plugin() where dict(foo=1.0, bar=( 2.1 + 3 ))".
Proof. vm_compute. reflexivity. Qed.
Example clause_121 : again "select * from plugin() where dict(foo=1, bar= [2 , 3] )".
Proof. vm_compute. reflexivity. Qed.
Example clause_122 : again "select * from plugin() where 'foo' IN dict(foo=0)".
Proof. vm_compute. reflexivity. Qed.
Example clause_123 : again "select * from plugin() where foo.bar.baz, foo.bar2".
Proof. vm_compute. reflexivity. Qed.
Example clause_124 : again "select * from plugin() where dict(foo=dict(bar=5)).foo.bar".
Proof. vm_compute. reflexivity. Qed.
Example clause_125 : again "select * from plugin() where 1, dict(foo=5).foo".
Proof. vm_compute. reflexivity. Qed.
Example clause_126 : again "select * from plugin() where my_list_obj.my_list[2]".
Proof. vm_compute. reflexivity. Qed.
Example clause_127 : again "select * from plugin() where my_list_obj.my_list[1]".
Proof. vm_compute. reflexivity. Qed.
Example clause_128 : again "select * from plugin() where (my_list_obj.my_list[3]).Foo".
Proof. vm_compute. reflexivity. Qed.
Example clause_129 : again "select * from plugin() where dict(x=(my_list_obj.my_list[3]).Foo + 'a')".
Proof. vm_compute. reflexivity. Qed.
Example clause_130 : again "select * from plugin() where 'Hello'[1]".
Proof. vm_compute. reflexivity. Qed.
Example clause_131 : again "select * from plugin() where 'Hello'[-1]".
Proof. vm_compute. reflexivity. Qed.
Example clause_132 : again "select * from plugin() where 'Hello'[:3]".
Proof. vm_compute. reflexivity. Qed.
Example clause_133 : again "select * from plugin() where 'Hello'[2:300]".
Proof. vm_compute. reflexivity. Qed.
Example clause_134 : again "select * from plugin() where 'Hello'[-2:300]".
Proof. vm_compute. reflexivity. Qed.
Example clause_135 : again "select * from plugin() where 'Hello'[-3:]".
Proof. vm_compute. reflexivity. Qed.
Example clause_136 : again "select * from plugin() where 'Hello' =~ '.'".
Proof. vm_compute. reflexivity. Qed.
Example clause_137 : again "select * from plugin() where '' =~ '.'".
Proof. vm_compute. reflexivity. Qed.
Example clause_138 : again "select * from plugin() where 'Hello' =~ 'he[lo]+'".
Proof. vm_compute. reflexivity. Qed.
Example clause_139 : again "select * from plugin() where NULL =~ '.'".
Proof. vm_compute. reflexivity. Qed.
Example clause_140 : again "select * from plugin() where NULL =~ '.*'".
Proof. vm_compute. reflexivity. Qed.
Example clause_141 : again "select * from plugin() where NULL =~ ''".
Proof. vm_compute. reflexivity. Qed.
Example clause_142 : again "select * from plugin() where ('Hello', 'World') =~ 'he'".
Proof. vm_compute. reflexivity. Qed.
Example clause_143 : again "select * from plugin() where ('Hello', 'World') =~ 'xx'".
Proof. vm_compute. reflexivity. Qed.
Example clause_144 : again "select * from plugin() where dict(x='Hello', y='World') =~ 'he'".
Proof. vm_compute. reflexivity. Qed.
Example clause_145 : again "select * from plugin() where (0x10, 0x20, 070, 0xea, -4)".
Proof. vm_compute. reflexivity. Qed.
Example clause_146 : again "select * from plugin() where 1 +
2".
Proof. vm_compute. reflexivity. Qed.
Example clause_147 : again "select * from plugin() where 1 AND
 2".
Proof. vm_compute. reflexivity. Qed.
Example clause_148 : again "select * from plugin() where NOT
TRUE".
Proof. vm_compute. reflexivity. Qed.
Example clause_149 : again "select * from plugin() where 2 IN
(1,2)".
Proof. vm_compute. reflexivity. Qed.
