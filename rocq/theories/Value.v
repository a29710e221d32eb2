(** Run-time values of VQL: the Go dynamic types that the protocol
    dispatchers in /repo/protocols distinguish. *)

From Coq Require Import ZArith List String Bool Lia.
From Verif Require Import Base F64.
Import ListNotations.
Open Scope Z_scope.

(** The Go integer types listed in the type switches
    (e.g. protocols/protocol_lt.go:35).  [KUint] is the Go type [uint],
    which ToFloat knows (utils/utils.go:97) but ToInt64 and the type
    switches do not. *)
Inductive ikind : Type :=
| KInt | KInt8 | KInt16 | KInt32 | KInt64
| KUint8 | KUint16 | KUint32 | KUint64
| KUint.

(** The integer types of the type switch of utils/utils.go:158-211 ToInt64. *)
Definition ikind_range (k : ikind) : Z * Z :=
  match k with
  | KInt | KInt64 => (- two63, two63)
  | KInt8 => (-128, 128)
  | KInt16 => (-32768, 32768)
  | KInt32 => (-2147483648, 2147483648)
  | KUint8 => (0, 256)
  | KUint16 => (0, 65536)
  | KUint32 => (0, 4294967296)
  | KUint64 | KUint => (0, two64)
  end.

(** Values.  Pointers to scalars ([*string], [*int64], ...), structs and
    other host types are represented only by [VOpaque]; lazily evaluated
    arguments are assumed already reduced ([maybeReduce]).

    [VQuery rows] is a stored query, seen through the rows its [Eval]
    yields (materializer/in_memory.go:78-104). *)
Inductive val : Type :=
| VNil                                  (* Go's untyped nil *)
| VNull                                 (* types.Null{} or &types.Null{} *)
| VBool (b : bool)
| VInt (k : ikind) (z : Z)
| VF64 (f : f64)
| VF32 (f : f64)                        (* a float32, by its exact value *)
| VStr (s : string)
| VTime (ns : Z)                        (* time.Time: nanoseconds since epoch *)
| VNilArr                               (* a nil slice *)
| VArr (l : list val)                   (* a non nil slice *)
| VDict (d : list (string * val))       (* *ordereddict.Dict *)
| VQuery (rows : list val)              (* types.StoredQuery *)
| VOpaque (n : nat).                    (* any other host object *)

(** No counterpart in /repo: an int64, the type integer operators return
    (protocols/protocol_add.go:35-48 intAdd). *)
Definition vint (z : Z) : val := VInt KInt64 z.

(** Well formed values: integers in the range of their Go type, dictionaries
    with distinct keys. No counterpart in /repo: what every Go integer
    satisfies by its type. *)
Fixpoint wfv (v : val) : Prop :=
  match v with
  | VInt k z => fst (ikind_range k) <= z < snd (ikind_range k)
  | VArr l | VQuery l => (fix go l := match l with [] => True | x :: r => wfv x /\ go r end) l
  | VDict d =>
      NoDup (keys d) /\
      (fix go d := match d with [] => True | (_, x) :: r => wfv x /\ go r end) d
  | _ => True
  end.

(** Induction over values, with hypotheses for the members. *)
Section ValInd.
  Variable P : val -> Prop.
  Hypothesis Hnil : P VNil.
  Hypothesis Hnull : P VNull.
  Hypothesis Hbool : forall b, P (VBool b).
  Hypothesis Hint : forall k z, P (VInt k z).
  Hypothesis Hf64 : forall f, P (VF64 f).
  Hypothesis Hf32 : forall f, P (VF32 f).
  Hypothesis Hstr : forall s, P (VStr s).
  Hypothesis Htime : forall n, P (VTime n).
  Hypothesis Hnilarr : P VNilArr.
  Hypothesis Harr : forall l, Forall P l -> P (VArr l).
  Hypothesis Hdict : forall d, Forall (fun kv => P (snd kv)) d -> P (VDict d).
  Hypothesis Hquery : forall l, Forall P l -> P (VQuery l).
  Hypothesis Hopaque : forall n, P (VOpaque n).

  (** No counterpart in /repo: the induction principle of [val]. *)
  Fixpoint val_ind' (v : val) : P v :=
    match v with
    | VNil => Hnil
    | VNull => Hnull
    | VBool b => Hbool b
    | VInt k z => Hint k z
    | VF64 f => Hf64 f
    | VF32 f => Hf32 f
    | VStr s => Hstr s
    | VTime n => Htime n
    | VNilArr => Hnilarr
    | VArr l =>
        Harr l ((fix go l : Forall P l :=
                   match l with
                   | [] => Forall_nil _
                   | x :: r => Forall_cons x (val_ind' x) (go r)
                   end) l)
    | VDict d =>
        Hdict d ((fix go d : Forall (fun kv => P (snd kv)) d :=
                    match d with
                    | [] => Forall_nil _
                    | x :: r => Forall_cons x (val_ind' (snd x)) (go r)
                    end) d)
    | VQuery l =>
        Hquery l ((fix go l : Forall P l :=
                     match l with
                     | [] => Forall_nil _
                     | x :: r => Forall_cons x (val_ind' x) (go r)
                     end) l)
    | VOpaque n => Hopaque n
    end.
End ValInd.

(** types/null.go:18-34 IsNil (nil slices count as nil). *)
Definition is_nil (v : val) : bool :=
  match v with VNil | VNull | VNilArr => true | _ => false end.

(** The type-switch case [types.Null, *types.Null, nil]. The Null case of the
    type switches, as in protocols/protocol_eq.go:26-93 Eq. *)
Definition is_null (v : val) : bool :=
  match v with VNil | VNull => true | _ => false end.

(** protocols/protocol_eq.go:119-125 is_array together with the elements
    read by reflection. *)
Definition arr_elems (v : val) : option (list val) :=
  match v with
  | VNilArr => Some []
  | VArr l => Some l
  | _ => None
  end.

(** protocols/protocol_eq.go:119-125 is_array *)
Definition is_array (v : val) : bool :=
  match arr_elems v with Some _ => true | None => false end.

(** The type-switch case [int, int8, int16, int32, int64, uint8, uint16,
    uint32, uint64]. The integer types listed by the switch of
    protocols/protocol_lt.go:33-43 intLt. *)
Definition is_intcase (v : val) : bool :=
  match v with VInt KUint _ => false | VInt _ _ => true | _ => false end.

(** The type-switch case [float64, float32]. The float types listed by the
    switches of protocols/protocol_lt.go:57-154 Lt. *)
Definition is_floatcase (v : val) : bool :=
  match v with VF64 _ | VF32 _ => true | _ => false end.

(** utils/utils.go:158-211 ToInt64. *)
Definition to_int64 (v : val) : option Z :=
  match v with
  | VBool b => Some (if b then 1 else 0)
  | VInt KUint _ => None
  | VInt _ z => Some (wrap64 z)
  | VF64 f => Some (f_to_int64 f)
  | _ => None
  end.

(** utils/utils.go:85-145 ToFloat (float32 is not handled). *)
Definition to_float (v : val) : option f64 :=
  match v with
  | VBool b => Some (if b then f_of_Z 1 else fzero)
  | VF64 f => Some f
  | VInt _ z => Some (f_of_Z z)
  | _ => None
  end.

(** [rhs, _ := utils.ToFloat(b)] ignoring the ok flag. The first result of
    utils/utils.go:85-145 ToFloat. *)
Definition to_float0 (v : val) : f64 :=
  match to_float v with Some f => f | None => fzero end.
(** The first result of utils/utils.go:158-211 ToInt64. *)
Definition to_int640 (v : val) : Z :=
  match to_int64 v with Some f => f | None => 0 end.

(** utils/utils.go:72-83 ToString (byte slices and *string not modelled). *)
Definition to_string (v : val) : option string :=
  match v with VStr s => Some s | _ => None end.

(** protocols/protocol_lt.go:156-164 isTime. *)
Definition is_time (v : val) : bool :=
  match v with VTime _ => true | _ => false end.

(** time.Unix(sec, nsec) in nanoseconds since the epoch. Used by
    protocols/protocol_lt.go:166-191 toTime. *)
Definition time_unix (sec nsec : Z) : Z := sec * 1000000000 + nsec.

(** protocols/protocol_lt.go:166-191 toTime. *)
Definition to_time (v : val) : option Z :=
  match v with
  | VTime ns => Some ns
  | VF64 f =>
      let (sec_f, dec_f) := f_modf f in
      Some (time_unix (f_to_int64 sec_f)
                      (f_to_int64 (f_mul dec_f (f_of_Z 1000000000))))
  | _ =>
      match to_int64 v with
      | Some sec => Some (time_unix sec 0)
      | None => None
      end
  end.
