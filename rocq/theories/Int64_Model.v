(** Model of the sized integers of src/arti/internal/utils.py (lines 87-203) and
    of src/arti/fingerprints/__init__.py (lines 18-59). Definitions only. *)
From Coq Require Import ZArith List Bool String.
From Verif Require Import Base.
Import ListNotations.
Open Scope Z_scope.

(** The class of a Python integer object that matters to the constructors:
    a plain [int], [int64], [uint64] or [Fingerprint] (a subclass of int64,
    fingerprints/__init__.py:19). *)
Inductive ikind := KInt | KInt64 | KUint64 | KFingerprint.

(** A Python integer object: its class and its value. *)
Record pyint := PyInt { ik : ikind; iv : Z }.

(** utils.py:179 and utils.py:193, the class attributes [_min], [_max]. *)
Definition int64_min : Z := - (2 ^ 63).
Definition int64_max : Z := 2 ^ 63 - 1.
Definition uint64_min : Z := 0.
Definition uint64_max : Z := 2 ^ 64 - 1.

(** [isinstance(i, int64)] and [isinstance(i, uint64)]. *)
Definition is_int64 (i : pyint) : bool :=
  match ik i with KInt64 | KFingerprint => true | _ => false end.
Definition is_uint64 (i : pyint) : bool :=
  match ik i with KUint64 => true | _ => false end.

(** utils.py:181-189, [int64.__new__]; [cls] is [KInt64] or [KFingerprint]. *)
Definition int64_new (cls : ikind) (i : pyint) : result pyint :=
  let checked :=
    if iv i >? int64_max then
      if is_uint64 i then Ok (iv i - uint64_max - 1) else Err ValueError
    else Ok (iv i) in
  match checked with
  | Err e => Err e
  | Ok z => if z <? int64_min then Err ValueError else Ok (PyInt cls z)
  end.

(** utils.py:195-203, [uint64.__new__]. *)
Definition uint64_new (i : pyint) : result pyint :=
  if iv i >? uint64_max then Err ValueError
  else if iv i <? uint64_min then
    if is_int64 i then Ok (PyInt KUint64 (iv i + uint64_max + 1)) else Err ValueError
  else Ok (PyInt KUint64 (iv i)).

(** [type(self)(x)] as used by every operator (utils.py:96-175). *)
Definition new (cls : ikind) (i : pyint) : result pyint :=
  match cls with
  | KInt => Ok (PyInt KInt (iv i))
  | KInt64 | KFingerprint => int64_new cls i
  | KUint64 => uint64_new i
  end.

(** The operators overridden in utils.py:96-175. *)
Inductive binop :=
| Add | Sub | Mul | FloorDiv | Mod | BitAnd | BitOr | BitXor | LShift | RShift.
Inductive unop := Neg | Pos | Invert | Ceil | Floor | Trunc | Round (ndigits : Z).

(** The inherited [int] operators, on mathematical integers. Python's [//] and
    [%] round towards minus infinity like [Z.div]/[Z.modulo]; negative shift
    counts raise ValueError. *)
Definition int_binop (op : binop) (x y : Z) : result Z :=
  match op with
  | Add => Ok (x + y)
  | Sub => Ok (x - y)
  | Mul => Ok (x * y)
  | FloorDiv => if y =? 0 then Err ZeroDivisionError else Ok (x / y)
  | Mod => if y =? 0 then Err ZeroDivisionError else Ok (x mod y)
  | BitAnd => Ok (Z.land x y)
  | BitOr => Ok (Z.lor x y)
  | BitXor => Ok (Z.lxor x y)
  | LShift => if y <? 0 then Err ValueError else Ok (Z.shiftl x y)
  | RShift => if y <? 0 then Err ValueError else Ok (Z.shiftr x y)
  end.

(** [int.__round__(ndigits)]: unchanged for non-negative [ndigits], otherwise
    the nearest multiple of a power of ten, ties to the even quotient. *)
Definition int_round (x nd : Z) : Z :=
  if 0 <=? nd then x
  else
    let d := 10 ^ (- nd) in
    let q := x / d in
    let r := x mod d in
    let q' := if 2 * r <? d then q
              else if d <? 2 * r then q + 1
              else if Z.even q then q else q + 1 in
    q' * d.

Definition int_unop (op : unop) (x : Z) : Z :=
  match op with
  | Neg => - x
  | Pos | Ceil | Floor | Trunc => x
  | Invert => Z.lnot x
  | Round nd => int_round x nd
  end.

(** utils.py:96-175, [a op b] with Python's operator protocol: the left operand's
    method runs if it is a sized integer; a plain [int] on the left defers to the
    reflected method of a sized right operand ([__radd__] and friends); the
    result is re-wrapped as [type(self)(int result)]. *)
Definition py_binop (op : binop) (a b : pyint) : result pyint :=
  let cls := match ik a with KInt => ik b | k => k end in
  match int_binop op (iv a) (iv b) with
  | Err e => Err e
  | Ok z => new cls (PyInt KInt z)
  end.

Definition py_unop (op : unop) (a : pyint) : result pyint :=
  new (ik a) (PyInt KInt (int_unop op (iv a))).

(** fingerprints/__init__.py:29-30, [reduce(operator.xor, others, self)]. *)
Definition combine (self : pyint) (others : list pyint) : result pyint :=
  fold_left (fun acc o => bind acc (fun a => py_binop BitXor a o)) others (Ok self).

(** fingerprints/__init__.py:32-59. *)
Definition fp_from_int64 (x : pyint) : result pyint := int64_new KFingerprint x.
Definition fp_from_int (x : pyint) : result pyint :=
  bind (int64_new KInt64 x) fp_from_int64.
Definition fp_from_uint64 (x : pyint) : result pyint :=
  bind (int64_new KInt64 x) fp_from_int64.
Definition fp_identity : result pyint := int64_new KFingerprint (PyInt KInt 0).
Definition is_identity (x : pyint) : bool := iv x =? 0.

(** fingerprints/__init__.py:40-46, [from_string]; farmhash is a parameter
    returning an unsigned 64-bit number. *)
Definition fp_from_string (farmhash : string -> Z) (x : string) : result pyint :=
  bind (uint64_new (PyInt KInt (farmhash x))) fp_from_uint64.

(** fingerprints/__init__.py:61-66: pydantic validation of a Fingerprint field,
    [cls(int)] on a validated plain integer. *)
Definition fp_validate (x : Z) : result pyint := int64_new KFingerprint (PyInt KInt x).
