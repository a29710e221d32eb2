(** The operator dispatchers of /repo/protocols.

    Host-registered implementations are lists of partial functions, newest
    first; [None] means [Applicable] returned false. *)

From Coq Require Import ZArith List String Bool Lia.
From Verif Require Import Base F64 Value.
Import ListNotations.
Open Scope Z_scope.

(** A registered implementation, e.g. BoolProtocol of
    protocols/protocol_bool.go: [None] when Applicable says no. *)
Definition impl1 (R : Type) := val -> option R.
(** The same with two operands, e.g. LtProtocol of protocols/protocol_lt.go.
    *)
Definition impl2 (R : Type) := val -> val -> option R.

(** The loop [for i, impl := range self.impl { if impl.Applicable ... }],
    e.g. protocols/protocol_add.go:89-94. *)
Fixpoint first2 {R} (impls : list (impl2 R)) (a b : val) : option R :=
  match impls with
  | [] => None
  | i :: r => match i a b with Some x => Some x | None => first2 r a b end
  end.

(** The loop over registered implementations at the end of
    protocols/protocol_bool.go:20-76 Bool. *)
Fixpoint first1 {R} (impls : list (impl1 R)) (a : val) : option R :=
  match impls with
  | [] => None
  | i :: r => match i a with Some x => Some x | None => first1 r a end
  end.

(** protocols/protocol_add.go:109-113 AddImpl, the same in every
    dispatcher: prepend each element in turn. *)
Fixpoint add_impl {I} (elements : list I) (impls : list I) : list I :=
  match elements with
  | [] => impls
  | e :: r => add_impl r (e :: impls)
  end.

(** No counterpart in /repo: the value found, or the one returned after the
    loop. *)
Definition orelse {A} (o : option A) (d : A) : A :=
  match o with Some a => a | None => d end.

(** ** Bool: protocols/protocol_bool.go:20-76 *)

(** protocols/stored_query.go:57-77 _StoredQueryBool: true as soon as the
    query yields a row. *)
Definition stored_query_bool : impl1 bool := fun a =>
  match a with
  | VQuery rows => Some (match rows with [] => false | _ => true end)
  | _ => None
  end.

(** protocols/protocol_bool.go:20-76 Bool *)
Definition bool_disp (impls : list (impl1 bool)) (a : val) : bool :=
  match a with
  | VNil | VNull => false
  | VBool b => b
  | VInt KUint _ => orelse (first1 impls a) false
  | VInt _ z => 0 <? z
  | VF64 f => f_ltb fzero f
  | VStr s => 0 <? slen s
  | VDict d => negb (Nat.eqb (List.length d) 0)
  | _ =>
      match arr_elems a with
      | Some l => negb (Nat.eqb (List.length l) 0)
      | None => orelse (first1 impls a) false
      end
  end.

(** ** Integer helpers: protocols/protocol_lt.go:33-55,
    protocols/protocol_gt.go:25-35 *)

Definition is_bool (v : val) : bool :=
  match v with VBool _ => true | _ => false end.

(** protocols/protocol_lt.go:33-43 intLt *)
Definition int_lt (lhs : Z) (b : val) : bool :=
  if is_bool b || is_intcase b then lhs <? to_int640 b
  else if is_floatcase b then f_ltb (f_of_Z lhs) (to_float0 b)
  else false.

(** protocols/protocol_lt.go:45-55 intEq *)
Definition int_eq (lhs : Z) (b : val) : bool :=
  if is_bool b || is_intcase b then lhs =? to_int640 b
  else if is_floatcase b then f_eqb (f_of_Z lhs) (to_float0 b)
  else false.

(** protocols/protocol_gt.go:25-35 intGt *)
Definition int_gt (lhs : Z) (b : val) : bool :=
  if is_intcase b then to_int640 b <? lhs
  else if is_floatcase b then f_ltb (to_float0 b) (f_of_Z lhs)
  else false.

(** ** Eq: protocols/protocol_eq.go:26-93 *)

(** The type switch at lines 30-69; [None] means it falls through. *)
Definition eq_switch (a b : val) : option bool :=
  match a with
  | VNil | VNull => Some (is_nil b)
  | VStr s => match b with VStr t => Some (String.eqb s t) | _ => None end
  | VInt KUint _ => None
  | VInt _ _ =>
      match to_int64 a with Some lhs => Some (int_eq lhs b) | None => None end
  | VBool x => match b with VBool y => Some (Bool.eqb x y) | _ => None end
  | VF64 f => match to_float b with Some g => Some (f_eqb f g) | None => None end
  | VTime ns =>
      match to_time b with
      | Some ns' => Some (wrap64 ns =? wrap64 ns')   (* UnixNano() == *)
      | None => None
      end
  | _ => None
  end.

(** Lines 71-77. *)
Definition eq_ints (a b : val) : option bool :=
  match to_int64 a, to_int64 b with
  | Some x, Some y => Some (x =? y)
  | _, _ => None
  end.

Section EqSection.
  (** Host Eq implementations; [_DictEq] (protocols/ordereddict.go:11-36,
      registered first, hence consulted last) is built in below. *)
  Variable impls : list (impl2 bool).

  (** Lines 26-93 with [_ArrayEq] (101-117) and [_DictEq] inlined. *)
  Fixpoint eq_disp (a b : val) {struct a} : bool :=
    match eq_switch a b with
    | Some r => r
    | None =>
    match eq_ints a b with
    | Some r => r
    | None =>
      let arr_eq :=
        fix arr_eq (l1 l2 : list val) : bool :=
          match l1, l2 with
          | x :: r1, y :: r2 => if eq_disp x y then arr_eq r1 r2 else false
          | _, _ => true
          end in
      let dict_eq :=
        fix dict_eq (d1 : list (string * val)) (d2 : list (string * val)) :=
          match d1 with
          | [] => true
          | (k, x) :: r =>
              match assoc k d2 with
              | None => false
              | Some y => if eq_disp x y then dict_eq r d2 else false
              end
          end in
      match a, arr_elems b with
      | VArr l1, Some l2 =>
          if Nat.eqb (List.length l1) (List.length l2) then arr_eq l1 l2 else false
      | VNilArr, Some l2 => Nat.eqb 0 (List.length l2)
      | _, _ =>
        match first2 impls a b with
        | Some r => r
        | None =>
          match a, b with
          | VDict d1, VDict d2 =>
              if Nat.eqb (List.length d1) (List.length d2) then dict_eq d1 d2
              else false
          | _, _ => false
          end
        end
      end
    end end.
End EqSection.

(** ** Lt: protocols/protocol_lt.go:57-154 *)

Definition lt_switch_a (a b : val) : option bool :=
  match a with
  | VNil | VNull => Some false
  | VStr s => match b with VStr t => Some (str_ltb s t) | _ => None end
  | VInt KUint _ => None
  | VBool _ | VInt _ _ =>
      match to_int64 a with
      | Some lhs =>
          match b with
          | VTime ns => Some (time_unix lhs 0 <? ns)
          | _ => Some (int_lt lhs b)
          end
      | None => None
      end
  | VF64 f => match to_float b with Some g => Some (f_ltb f g) | None => None end
  | VTime ns => match to_time b with Some ns' => Some (ns <? ns') | None => None end
  | _ => None
  end.

(** The second type switch of protocols/protocol_lt.go:57-154 Lt. *)
Definition lt_switch_b (a b : val) : option bool :=
  match b with
  | VNil | VNull => Some false
  | VInt KUint _ => None
  | VInt _ _ =>
      match to_int64 b with
      | Some rhs =>
          Some (if int_gt rhs a then false
                else if int_eq rhs a then false else true)
      | None => None
      end
  | VF64 g => match to_float a with Some f => Some (f_ltb f g) | None => None end
  | VTime ns => match to_time a with Some ns' => Some (ns' <? ns) | None => None end
  | _ => None
  end.

(** protocols/protocol_lt.go:57-154 Lt *)
Definition lt_disp (impls : list (impl2 bool)) (a b : val) : bool :=
  match lt_switch_a a b with
  | Some r => r
  | None =>
  match lt_switch_b a b with
  | Some r => r
  | None => orelse (first2 impls a b) false
  end end.

(** ** Gt: protocols/protocol_gt.go:37-146 *)

Definition gt_switch_a (a b : val) : option bool :=
  match a with
  | VNil | VNull => Some false
  | VStr s => match b with VStr t => Some (str_ltb t s) | _ => None end
  | VInt KUint _ => None
  | VInt _ _ =>
      match to_int64 a with
      | Some lhs =>
          match b with
          | VTime ns => Some (ns <? time_unix lhs 0)
          | _ => Some (int_gt lhs b)
          end
      | None => None
      end
  | VF64 f => match to_float b with Some g => Some (f_ltb g f) | None => None end
  | VTime ns => match to_time b with Some ns' => Some (ns' <? ns) | None => None end
  | _ => None
  end.

(** The second type switch of protocols/protocol_gt.go:37-146 Gt. *)
Definition gt_switch_b (a b : val) : option bool :=
  match b with
  | VNil | VNull => Some false
  | VStr t => match a with VStr s => Some (str_ltb t s) | _ => None end
  | VInt KUint _ => None
  | VInt _ _ =>
      match to_int64 b with
      | Some rhs =>
          Some (if int_lt rhs a then false
                else if int_eq rhs a then false else true)
      | None => None
      end
  | VF64 g => match to_float a with Some f => Some (f_ltb g f) | None => None end
  | VTime ns => match to_time a with Some ns' => Some (ns <? ns') | None => None end
  | _ => None
  end.

(** protocols/protocol_gt.go:37-146 Gt *)
Definition gt_disp (impls : list (impl2 bool)) (a b : val) : bool :=
  match gt_switch_a a b with
  | Some r => r
  | None =>
  match gt_switch_b a b with
  | Some r => r
  | None => orelse (first2 impls a b) false
  end end.

(** ** Add: protocols/protocol_add.go *)

Definition mem_limit : Z := 100000000.

(** Lines 35-48 intAdd. *)
Definition int_add (lhs : Z) (b : val) : option val :=
  if is_intcase b then Some (vint (wrap64 (lhs + to_int640 b)))
  else if is_floatcase b then Some (VF64 (f_add (f_of_Z lhs) (to_float0 b)))
  else None.

(** Lines 115-135 convertToSlice. *)
Definition convert_to_slice (a : val) : list val :=
  match arr_elems a with
  | Some l => l
  | None => match a with VQuery rows => rows | _ => [a] end
  end.

(** protocols/stored_query.go:84-97 _StoredQueryAdd. *)
Definition stored_query_add : impl2 val := fun a b =>
  match a, b with
  | VQuery r1, VQuery r2 => Some (VArr (r1 ++ r2))
  | _, _ => None
  end.

(** Lines 54-87: the type switch; [None] means it falls through. *)
Definition add_switch (a b : val) : option val :=
  match a with
  | VStr s =>
      match b with
      | VStr t =>
          Some (if mem_limit <? slen s + slen t then VNull
                else VStr (s ++ t)%string)
      | _ => None
      end
  | VNil | VNull => Some VNull
  | VInt KUint _ => None
  | VInt _ _ =>
      match to_int64 a with Some lhs => int_add lhs b | None => None end
  | VF64 f =>
      match to_float b with Some g => Some (VF64 (f_add f g)) | None => None end
  | _ => None
  end.

(** Lines 50-107. *)
Definition add_disp (impls : list (impl2 val)) (a b : val) : val :=
  match add_switch a b with
  | Some r => r
  | None =>
  match first2 (impls ++ [stored_query_add]) a b with
  | Some r => r
  | None =>
      if is_array a || is_array b
      then VArr (convert_to_slice a ++ convert_to_slice b)
      else VNull
  end end.

(** ** Sub: protocols/protocol_sub.go:23-67 *)

Definition sub_switch (a b : val) : option val :=
  match a with
  | VNil | VNull => Some VNull
  | _ =>
  match
    match a with
    | VF64 f => match to_float b with Some g => Some (VF64 (f_sub f g)) | None => None end
    | _ => None
    end
  with
  | Some r => Some r
  | None =>
  match b with
  | VNil | VNull => Some VNull
  | _ =>
  match
    match b with
    | VF64 g => match to_float a with Some f => Some (VF64 (f_sub f g)) | None => None end
    | _ => None
    end
  with
  | Some r => Some r
  | None =>
      match to_int64 a, to_int64 b with
      | Some x, Some y => Some (vint (wrap64 (x - y)))
      | _, _ => None
      end
  end end end end.

(** protocols/protocol_sub.go:23-67 Sub *)
Definition sub_disp (impls : list (impl2 val)) (a b : val) : val :=
  match sub_switch a b with
  | Some r => r
  | None => orelse (first2 impls a b) VNull
  end.

(** ** Mul: protocols/protocol_mul.go:25-82 *)

(** Go's strings.Repeat: panics on a negative count and when the length of the
    result overflows an int. Called by protocols/protocol_mul.go:25-82 Mul. *)
Definition go_repeat (s : string) (count : Z) : outcome string :=
  if count <? 0 then Panic
  else if two63 <=? slen s * count then Panic
  else Ok (str_repeat (Z.to_nat count) s).

(** Lines 36-43. *)
Definition mul_str (s : string) (n : Z) : outcome val :=
  let memory := wrapu64 (wrapu64 (slen s) * wrapu64 n) in
  if mem_limit <? memory then Ok VNull
  else obind (go_repeat s n) (fun r => Ok (VStr r)).

(** Lines 29-70; [None] falls through to the implementations. *)
Definition mul_switch (a b : val) : option (outcome val) :=
  match a with
  | VNil | VNull => Some (Ok VNull)
  | _ =>
  match
    match a with
    | VStr s => match to_int64 b with Some n => Some (mul_str s n) | None => None end
    | VF64 f => match to_float b with Some g => Some (Ok (VF64 (f_mul f g))) | None => None end
    | _ => None
    end
  with
  | Some r => Some r
  | None =>
  match b with
  | VNil | VNull => Some (Ok VNull)
  | _ =>
  match
    match b with
    | VF64 g => match to_float a with Some f => Some (Ok (VF64 (f_mul g f))) | None => None end
    | _ => None
    end
  with
  | Some r => Some r
  | None =>
      match to_int64 a, to_int64 b with
      | Some x, Some y => Some (Ok (vint (wrap64 (x * y))))
      | _, _ => None
      end
  end end end end.

(** protocols/protocol_mul.go:25-82 Mul *)
Definition mul_disp (impls : list (impl2 val)) (a b : val) : outcome val :=
  match mul_switch a b with
  | Some r => r
  | None => Ok (orelse (first2 impls a b) VNull)
  end.

(** ** Div: protocols/protocol_div.go:23-77 *)

Definition div_switch (a b : val) : option val :=
  match a with
  | VNil | VNull => Some VNull
  | _ =>
  match
    match a with
    | VF64 f =>
        match to_float b with
        | Some g => Some (if f_is_zero g then VNull else VF64 (f_div f g))
        | None => None
        end
    | _ => None
    end
  with
  | Some r => Some r
  | None =>
  match b with
  | VNil | VNull => Some VNull
  | _ =>
  match
    match b with
    | VF64 g =>
        match to_float a with
        | Some f => Some (if f_is_zero f then VNull else VF64 (f_div f g))
        | None => None
        end
    | _ => None
    end
  with
  | Some r => Some r
  | None =>
      match to_float a, to_float b with
      | Some f, Some g => Some (if f_is_zero g then VNull else VF64 (f_div f g))
      | _, _ => None
      end
  end end end end.

(** protocols/protocol_div.go:23-77 Div *)
Definition div_disp (impls : list (impl2 val)) (a b : val) : val :=
  match div_switch a b with
  | Some r => r
  | None => orelse (first2 impls a b) VNull
  end.

(** ** Membership: protocols/protocol_membership.go:26-78 *)

Definition mem_switch (a b : val) : option bool :=
  match b with
  | VNil | VNull => Some false
  | VDict d =>
      match a with
      | VStr k => Some (match assoc k d with Some _ => true | None => false end)
      | _ => None
      end
  | VStr t => match a with VStr s => Some (str_containsb s t) | _ => None end
  | _ => None
  end.

(** Lines 65-71. *)
Fixpoint mem_elems (eqf : val -> val -> bool) (a : val) (l : list val) : bool :=
  match l with
  | [] => false
  | x :: r => if eqf a x then true else mem_elems eqf a r
  end.

(** protocols/protocol_membership.go:26-78 Membership *)
Definition membership_disp (eqi : list (impl2 bool)) (impls : list (impl2 bool))
  (a b : val) : bool :=
  match mem_switch a b with
  | Some r => r
  | None =>
  match first2 impls a b with
  | Some r => r
  | None =>
      match arr_elems b with
      | Some l => mem_elems (eq_disp eqi) a l
      | None => false
      end
  end end.

(** ** Associative: protocols/protocol_associative.go *)

(** protocols/utils.go:3-34 getRanges. *)
Definition get_ranges (s e : option Z) (len : Z) : Z * Z :=
  let start := match s with Some x => x | None => 0 end in
  let start := if start <? 0 then wrap64 (len + start) else start in
  let start := if start <? 0 then 0 else start in
  let end_ := match e with Some x => x | None => len end in
  let end_ := if end_ <? 0 then wrap64 (len + end_) else end_ in
  let end_ := if end_ <? 0 then 0 else end_ in
  let end_ := if len <? end_ then len else end_ in
  (start, end_).

(** The key of an Associative call: an ordinary value, or the [[]*int64]
    pair built for x[i:j] (vfilter.go:1372-1385). *)
Inductive akey : Type :=
| KVal (v : val)
| KRange (s e : option Z).

(** The result of the body of DefaultAssociative.Associative before the
    deferred recover() is taken into account. The integer case of
    protocols/protocol_associative.go:45-119 Associative and
    DefaultAssociative.Associative. *)
Definition default_assoc_index (a : val) (idx : Z) : outcome (val * bool) :=
  let at_ (len : Z) (get : nat -> option val) :=
    let idx := if idx <? 0 then wrap64 (len + idx) else idx in
    if (idx <? 0) || (len <? idx) then Ok (VNull, false)
    else match get (Z.to_nat idx) with
         | Some v => Ok (v, true)
         | None => Panic              (* reflect: index out of range *)
         end in
  match a with
  | VStr s =>
      at_ (slen s)
          (fun n => match String.get n s with
                    | Some c => Some (VInt KUint8 (Z.of_N (Ascii.N_of_ascii c)))
                    | None => None
                    end)
  | VArr l => at_ (Z.of_nat (List.length l)) (fun n => nth_error l n)
  | VNilArr => at_ 0 (fun _ => None)
  | _ => Ok (VNull, false)
  end.

(** Lines 208-243. *)
Definition default_assoc_range (a : val) (s e : option Z) : outcome (val * bool) :=
  match a with
  | VStr str =>
      let (st, en) := get_ranges s e (slen str) in
      if en <=? st then Ok (VStr "", true)
      else Ok (VStr (String.substring (Z.to_nat st) (Z.to_nat (en - st)) str), true)
  | VArr _ | VNilArr =>
      let l := match arr_elems a with Some l => l | None => [] end in
      let (st, en) := get_ranges s e (Z.of_nat (List.length l)) in
      if en <=? st then Ok (VArr [], true)
      else Ok (VArr (firstn (Z.to_nat (en - st)) (skipn (Z.to_nat st) l)), true)
  | _ => Ok (VNull, false)
  end.

(** Lines 168-171: [defer recover()] turns a panic into the zero values of
    the named results. *)
Definition recovered (o : outcome (val * bool)) : val * bool :=
  match o with Ok r => r | Panic => (VNil, false) end.

Section AssocSection.
  (** Host implementations, consulted before the built-in ones. *)
  Variable impls : list (val -> akey -> option (val * bool)).

  (** The loop over registered implementations of
      protocols/protocol_associative.go:45-119 Associative. *)
  Fixpoint first_assoc (l : list (val -> akey -> option (val * bool)))
    (a : val) (k : akey) : option (val * bool) :=
    match l with
    | [] => None
    | i :: r => match i a k with Some x => Some x | None => first_assoc r a k end
    end.

  (** Lines 45-119 Associative, with the case bodies for the modelled types:
      dict (81-103, without exported @ methods and default values),
      stored query (69-79), and DefaultAssociative (167-302) for slices and
      strings.  For other host objects (struct fields, methods) the result
      is "not found".  A stored query indexed by a non string goes to
      materializer/in_memory.go:126-133. *)
  Fixpoint assoc_disp (a : val) (k : akey) {struct a} : val * bool :=
    if is_nil a then (VNull, true)
    else
      let on_rows :=
        fix on_rows (l : list val) : list val :=
          match l with
          | [] => []
          | x :: r =>
              let (v, pres) := assoc_disp x k in
              (if pres then v else VNull) :: on_rows r
          end in
      let on_elems :=
        fix on_elems (l : list val) : list val :=
          match l with
          | [] => []
          | x :: r =>
              let (v, pres) := assoc_disp x k in
              if pres then v :: on_elems r else on_elems r
          end in
      match a, k with
      | VQuery rows, KVal (VStr _) => (VArr (on_rows rows), true)
      | VDict d, KVal (VStr f) =>
          match assoc f d with
          | None => (VNil, false)
          | Some v => (if is_nil v then VNull else v, true)
          end
      | _, _ =>
        match first_assoc impls a k with
        | Some r => r
        | None =>
          (* InMemoryMatrializer delegates to its rows, which go through the
             dispatcher again. *)
          let a' := match a with VQuery rows => VArr rows | _ => a end in
          match (match a with VQuery _ => first_assoc impls a' k | _ => None end) with
          | Some r => r
          | None =>
          match k with
          | KRange s e => recovered (default_assoc_range a' s e)
          | KVal b =>
              match to_int64 b with
              | Some idx => recovered (default_assoc_index a' idx)
              | None =>
                  match b, a with
                  | VStr _, VArr l =>
                      (match on_elems l with [] => VNilArr | r => VArr r end, true)
                  | _, _ => (VNull, false)
                  end
              end
          end
          end
        end
      end.
End AssocSection.
