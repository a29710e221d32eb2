(** All the project's own fixtures for ReFormatVQL, those with comments too:
    reformat/visitor_test.go with the outputs of
    reformat/fixtures/formatting.golden. *)

From Coq Require Import ZArith List String Ascii Bool.
From Verif Require Import Base Lexer Grammar Parser Format Reformat Comments CommentFormat.
Import ListNotations.
Open Scope string_scope.
Open Scope list_scope.

Definition reformats (s expected : string) : bool :=
  match reformat_text default_options true s with
  | Some t => String.eqb t expected
  | None => false
  end.

(* case 0 *)
Example reformat_0 : reformats
  "

SELECT *, upload_directory(accessor=""collector"",
                           file=RootPathSpec + ""hello world "" + _Components) AS UploadedFile
FROM ALLUploads
"
  "SELECT *, upload_directory(
         accessor=""collector"",
         file=RootPathSpec + ""hello world "" + _Components) AS UploadedFile
FROM ALLUploads

" = true.
Proof. vm_compute. reflexivity. Qed.
(* case 1 *)
Example reformat_1 : reformats
  "
/*
   This is a multiline comment
*/
SELECT Foo FROM plugin()
"
  "
/*
   This is a multiline comment
*/
SELECT Foo
FROM plugin()

" = true.
Proof. vm_compute. reflexivity. Qed.
(* case 2 *)
Example reformat_2 : reformats
  "
SELECT Foo,
       -- This is a comment on Bar
       Bar
FROM plugin()
"
  "SELECT Foo,
       -- This is a comment on Bar
       Bar
FROM plugin()

" = true.
Proof. vm_compute. reflexivity. Qed.
(* case 3 *)
Example reformat_3 : reformats
  "
    LET LocalDeviceMajor <= (
       253,
       7,   -- loop
       8,   -- sd
    )
"
  "LET LocalDeviceMajor <= (253, 7, -- loop
    8, -- sd
    )

" = true.
Proof. vm_compute. reflexivity. Qed.
(* case 4 *)
Example reformat_4 : reformats
  "
SELECT * FROM info(
     -- This is a comment for Foo
     Foo = 1,
 Bar =2
)
"
  "SELECT *
FROM info(-- This is a comment for Foo
Foo=1, Bar=2)

" = true.
Proof. vm_compute. reflexivity. Qed.
(* case 5 *)
Example reformat_5 : reformats
  "
// This is a comment
-- Another type of comment
LET X = SELECT * FROM info()
"
  "// This is a comment
-- Another type of comment
LET X = SELECT *
  FROM info()

" = true.
Proof. vm_compute. reflexivity. Qed.
(* case 6 *)
Example reformat_6 : reformats
  "
// This is a comment
-- Another type of comment
SELECT * FROM info()
"
  "// This is a comment
-- Another type of comment
SELECT *
FROM info()

" = true.
Proof. vm_compute. reflexivity. Qed.
(* case 7 *)
Example reformat_7 : reformats
  "select * from plugin() where dict(foo=[1,])"
  "SELECT *
FROM plugin()
WHERE dict(foo=[1, ])

" = true.
Proof. vm_compute. reflexivity. Qed.
(* case 8 *)
Example reformat_8 : reformats
  "select * from plugin() where (1, 2, 3, 4)"
  "SELECT *
FROM plugin()
WHERE (1, 2, 3, 4)

" = true.
Proof. vm_compute. reflexivity. Qed.
(* case 9 *)
Example reformat_9 : reformats
  "SELECT min(item=EventTime) AS EarliestTime
FROM source(artifact=""Exchange.Windows.Detection.ISOMount"") GROUP BY Computer, Username, EventID, Filename"
  "SELECT min(item=EventTime) AS EarliestTime
FROM source(artifact=""Exchange.Windows.Detection.ISOMount"")
GROUP BY Computer, Username, EventID, Filename

" = true.
Proof. vm_compute. reflexivity. Qed.
(* case 10 *)
Example reformat_10 : reformats
  "SELECT *
FROM Artifact.Windows.EventLogs.EvtxHunter(EvtxGlob='''%SystemRoot%\System32\Winevt\Logs\*Sysmon*.evtx''')"
  "SELECT *
FROM Artifact.Windows.EventLogs.EvtxHunter(
  EvtxGlob='''%SystemRoot%\System32\Winevt\Logs\*Sysmon*.evtx''')

" = true.
Proof. vm_compute. reflexivity. Qed.
(* case 11 *)
Example reformat_11 : reformats
  "LET DateAfterTime <= if(condition=TargetTime, then=timestamp(epoch=TargetTime.Unix - TargetTimeBox), else=timestamp(epoch=now() - TargetTimeBox))"
  "LET DateAfterTime <= if(condition=TargetTime,
                        then=timestamp(epoch=TargetTime.Unix - TargetTimeBox),
                        else=timestamp(epoch=now() - TargetTimeBox))

" = true.
Proof. vm_compute. reflexivity. Qed.
(* case 12 *)
Example reformat_12 : reformats
  "LET DateAfterTime <= if(condition=TargetTime, then=timestamp(epoch=TargetTime.Unix - TargetTimeBox + SomeConstant), else=timestamp(epoch=now() - TargetTimeBox))"
  "LET DateAfterTime <= if(condition=TargetTime,
                        then=timestamp(epoch=TargetTime.Unix -
                                         TargetTimeBox +
                                         SomeConstant),
                        else=timestamp(epoch=now() - TargetTimeBox))

" = true.
Proof. vm_compute. reflexivity. Qed.
(* case 13 *)
Example reformat_13 : reformats
  "LET CacheList = SELECT FullPath FROM glob(globs=GlobPath, root=RootPath)"
  "LET CacheList = SELECT FullPath
  FROM glob(globs=GlobPath, root=RootPath)

" = true.
Proof. vm_compute. reflexivity. Qed.
(* case 14 *)
Example reformat_14 : reformats
  "LET CacheList = SELECT FullPath FROM glob(globs=GlobPath, follow_symlinks=TRUE, another_long_arg=54,  root=""C:/Windows/System32/"")"
  "LET CacheList = SELECT FullPath
  FROM glob(globs=GlobPath,
            follow_symlinks=TRUE,
            another_long_arg=54,
            root=""C:/Windows/System32/"")

" = true.
Proof. vm_compute. reflexivity. Qed.
(* case 15 *)
Example reformat_15 : reformats
  "LET CacheList = SELECT FullPath FROM glob(globs=Glob, follow_symlinks=TRUE, another_long_arg=54,  root=""C:/Windows/System32/Foobar/Config/Registry/Some/Long/Path/And/Along/Path"")"
  "LET CacheList = SELECT FullPath
  FROM glob(
    globs=Glob,
    follow_symlinks=TRUE,
    another_long_arg=54,
    root=""C:/Windows/System32/Foobar/Config/Registry/Some/Long/Path/And/Along/Path"")

" = true.
Proof. vm_compute. reflexivity. Qed.
(* case 16 *)
Example reformat_16 : reformats
  "LET CacheList = SELECT FullPath FROM glob(globs=split(string=CacheGlob, sep="",""), root=RootPath)"
  "LET CacheList = SELECT FullPath
  FROM glob(globs=split(string=CacheGlob, sep="",""), root=RootPath)

" = true.
Proof. vm_compute. reflexivity. Qed.
(* case 17 *)
Example reformat_17 : reformats
  "LET CacheList = SELECT FullPath FROM glob(globs=Glob, root=RootPath)"
  "LET CacheList = SELECT FullPath
  FROM glob(globs=Glob, root=RootPath)

" = true.
Proof. vm_compute. reflexivity. Qed.
(* case 18 *)
Example reformat_18 : reformats
  "LET Foo = SELECT * FROM info() WHERE Foo GROUP BY 1"
  "LET Foo = SELECT *
  FROM info()
  WHERE Foo
  GROUP BY 1

" = true.
Proof. vm_compute. reflexivity. Qed.
(* case 19 *)
Example reformat_19 : reformats
  "LET Foo(x,y,z) = SELECT * FROM info() WHERE Foo GROUP BY 1"
  "LET Foo(x, y, z) = SELECT *
  FROM info()
  WHERE Foo
  GROUP BY 1

" = true.
Proof. vm_compute. reflexivity. Qed.
(* case 20 *)
Example reformat_20 : reformats
  "SELECT * FROM foreach(row={SELECT * FROM foreach(row={SELECT * FROM info}, query={SELECT * FROM info()})}, query=ForeachQuery(X=1))"
  "SELECT *
FROM foreach(row={
    SELECT *
    FROM foreach(row={ SELECT * FROM info }, query={ SELECT * FROM info() })
  },
             query=ForeachQuery(X=1))

" = true.
Proof. vm_compute. reflexivity. Qed.
(* case 21 *)
Example reformat_21 : reformats
  "SELECT * FROM foreach(row={SELECT * FROM clients() LIMIT 5}, query={SELECT client_info(client_id=client_id) FROM glob(globs=AGlob)})"
  "SELECT *
FROM foreach(row={
    SELECT *
    FROM clients()
    LIMIT 5
  },
             query={
    SELECT client_info(client_id=client_id)
    FROM glob(globs=AGlob)
  })

" = true.
Proof. vm_compute. reflexivity. Qed.
(* case 22 *)
Example reformat_22 : reformats
  "SELECT {SELECT * FROM info()} AS Foo, Bar FROM scope()"
  "SELECT {
    SELECT *
    FROM info()
    } AS Foo,
       Bar
FROM scope()

" = true.
Proof. vm_compute. reflexivity. Qed.
(* case 23 *)
Example reformat_23 : reformats
  "SELECT A AS First, B AS Second, C, D FROM info(arg=1, arg2=3) WHERE 1 ORDER BY C LIMIT 1"
  "SELECT A AS First,
       B AS Second,
       C,
       D
FROM info(arg=1, arg2=3)
WHERE 1
ORDER BY C
LIMIT 1

" = true.
Proof. vm_compute. reflexivity. Qed.
(* case 24 *)
Example reformat_24 : reformats
  "EXPLAIN SELECT 'A' FROM scope()"
  "EXPLAIN SELECT 'A'
FROM scope()

" = true.
Proof. vm_compute. reflexivity. Qed.
(* case 25 *)
Example reformat_25 : reformats
  "
LET this_is_a_long_name = SELECT *, upload_directory(accessor=""collector"", file=RootPathSpec + ""hello world "" + _Components) AS UploadedFile FROM ALLUploads
"
  "LET this_is_a_long_name = SELECT
    *, upload_directory(
      accessor=""collector"",
      file=RootPathSpec + ""hello world "" + _Components) AS UploadedFile
  FROM ALLUploads

" = true.
Proof. vm_compute. reflexivity. Qed.
(* case 26 *)
Example reformat_26 : reformats
  "
 LET enumerate_path = SELECT
 regex_replace(source=TargetPath,
 re='''\%USERPROFILE\%''',
 replace=Dir) AS TargetPath,
 *,
 check_exist(path=regex_replace(source=TargetPath,
 re='''\%USERPROFILE\%''',
 replace=Directory))[0] AS Exists,
 MaxSize - rand(range=(MaxSize - MinSize)) - len(
 list=unhex(string=MagicBytes)) - 7 AS _PaddingSize
 FROM Honeyfiles
"
  "LET enumerate_path = SELECT regex_replace(source=TargetPath,
                                          re='''\%USERPROFILE\%''',
                                          replace=Dir) AS TargetPath,
                            *,
                            check_exist(path=regex_replace(
                                          source=TargetPath,
                                          re='''\%USERPROFILE\%''',
                                          replace=Directory))[0] AS Exists,
                            MaxSize - rand(range=(MaxSize - MinSize)) -
                              len(list=unhex(string=MagicBytes)) - 7 AS _PaddingSize
  FROM Honeyfiles

" = true.
Proof. vm_compute. reflexivity. Qed.
