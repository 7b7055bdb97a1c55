(** Independent vocabulary for the sized-integer and fingerprint properties. *)
From Coq Require Import ZArith List.
From Verif Require Import Base Int64_Model.
Open Scope Z_scope.

(** The numbers a class can hold. *)
Definition fits (k : ikind) (z : Z) : Prop :=
  match k with
  | KInt => True
  | KInt64 | KFingerprint => - 2 ^ 63 <= z < 2 ^ 63
  | KUint64 => 0 <= z < 2 ^ 64
  end.

(** An object that can exist: its value fits its class. *)
Definition valid (i : pyint) : Prop := fits (ik i) (iv i).

Definition sized (k : ikind) : Prop := k <> KInt.

(** The 64-bit sibling class whose values are converted by two's complement. *)
Definition sibling (k k' : ikind) : Prop :=
  match k, k' with
  | (KInt64 | KFingerprint), KUint64 => True
  | KUint64, (KInt64 | KFingerprint) => True
  | _, _ => False
  end.

Definition same_bits (x y : Z) : Prop := (x - y) mod 2 ^ 64 = 0.

(** A mathematically written n-ary xor. *)
Definition xor_all (l : list Z) : Z := fold_right Z.lxor 0 l.

(** The class of [a op b]: the left operand's, unless that is a plain [int]. *)
Definition result_class (a b : pyint) : ikind :=
  match ik a with KInt => ik b | k => k end.

(** A Fingerprint object that can exist. *)
Definition is_fp (x : pyint) : Prop := ik x = KFingerprint /\ valid x.
