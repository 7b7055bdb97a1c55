(** What Python's integer operators mean, stated without computing them. *)
From Coq Require Import ZArith.
From Verif Require Import Base Int64_Model.
Open Scope Z_scope.

(** [q] and [r] are the quotient, rounded towards minus infinity, and the remainder, which has the
    sign of the divisor. *)
Definition floored (x y q r : Z) : Prop :=
  x = y * q + r /\ (0 <= r < y \/ y < r <= 0).

(** Bit by bit, negative numbers having infinitely many leading ones. *)
Definition bitwise (f : bool -> bool -> bool) (x y z : Z) : Prop :=
  forall n, 0 <= n -> Z.testbit z n = f (Z.testbit x n) (Z.testbit y n).

Definition binary_means (op : binop) (x y z : Z) : Prop :=
  match op with
  | Add => z - y = x
  | Sub => z + y = x
  | Mul => z = x * y
  | FloorDiv => exists r, floored x y z r
  | Mod => exists q, floored x y q z
  | BitAnd => bitwise andb x y z
  | BitOr => bitwise orb x y z
  | BitXor => bitwise xorb x y z
  | LShift => 0 <= y /\ z = x * 2 ^ y
  | RShift => 0 <= y /\ exists r, floored x (2 ^ y) z r
  end.

(** When an operator is not defined, and what is raised then. *)
Definition undefined (op : binop) (y : Z) (e : exn) : Prop :=
  match op with
  | FloorDiv | Mod => y = 0 /\ e = ZeroDivisionError
  | LShift | RShift => y < 0 /\ e = ValueError
  | _ => False
  end.

(** [z] is a multiple of [10 ^ n] no other multiple is closer to [x] than, and of two that are
    equally close the even one. *)
Definition nearest (x n z : Z) : Prop :=
  exists k, z = k * 10 ^ n /\
    forall j, j <> k -> Z.abs (x - z) < Z.abs (x - j * 10 ^ n) \/
                        (Z.abs (x - z) = Z.abs (x - j * 10 ^ n) /\ Z.Even k).

Definition unary_means (op : unop) (x z : Z) : Prop :=
  match op with
  | Neg => z + x = 0
  | Pos | Ceil | Floor | Trunc => z = x
  | Invert => z + x = -1
  | Round nd => (0 <= nd -> z = x) /\ (nd < 0 -> nearest x (- nd) z)
  end.
