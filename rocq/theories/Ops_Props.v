(** C01, C02, C03 (continued): the operators' values stated without the model's own arithmetic. *)
From Coq Require Import ZArith List Bool.
From Verif Require Import Base Int64_Model Int64_Spec Ops_Spec Ops_Proofs.
Import ListNotations.
Open Scope Z_scope.

(** C02. [a op b]: Python's exact result if it fits the class, and otherwise ValueError. Division
    rounds down, the bitwise operators work on infinite two's complement. *)
Theorem C02_binary_value : forall op a b z, binary_means op (iv a) (iv b) z ->
  (fits (result_class a b) z -> py_binop op a b = Ok (PyInt (result_class a b) z)) /\
  (~ fits (result_class a b) z -> py_binop op a b = Err ValueError).
Proof. exact binary_value. Qed.
Print Assumptions C02_binary_value.

Theorem C02_binary_result : forall op a b r, py_binop op a b = Ok r ->
  binary_means op (iv a) (iv b) (iv r) /\ ik r = result_class a b /\ fits (result_class a b) (iv r).
Proof. exact binary_result. Qed.
Print Assumptions C02_binary_result.

(** C02. Every operator has a result or is undefined - divisions by zero and shifts by negative
    numbers - and then raises the error of the plain integers. *)
Theorem C02_undefined_raises : forall op a b e, undefined op (iv b) e -> py_binop op a b = Err e.
Proof. exact binary_undefined. Qed.
Print Assumptions C02_undefined_raises.

Theorem C02_defined_or_not : forall op x y,
  (exists z, binary_means op x y z) \/ (exists e, undefined op y e).
Proof. exact binary_cases. Qed.
Print Assumptions C02_defined_or_not.

(** C02. The same for the unary operators; rounding to tens and so on is to the nearest, ties to
    the even. *)
Theorem C02_unary_value : forall op a z, unary_means op (iv a) z ->
  (fits (ik a) z -> py_unop op a = Ok (PyInt (ik a) z)) /\
  (~ fits (ik a) z -> py_unop op a = Err ValueError).
Proof. exact unary_value. Qed.
Print Assumptions C02_unary_value.

Theorem C02_unary_defined : forall op x, exists z, unary_means op x z.
Proof. exact unary_defined. Qed.
Print Assumptions C02_unary_defined.

Example C02_value_nonvacuous :
  binary_means FloorDiv (-7) 2 (-4) /\ binary_means Mod (-7) 2 1 /\
  py_binop FloorDiv (PyInt KInt64 (-7)) (PyInt KInt 2) = Ok (PyInt KInt64 (-4)) /\
  py_binop Mod (PyInt KInt64 7) (PyInt KInt (-2)) = Ok (PyInt KInt64 (-1)) /\
  undefined RShift (-1) ValueError /\
  unary_means (Round (-1)) 25 20 /\ unary_means Invert 5 (-6).
Proof.
  split. { exists 1. split; [reflexivity | left; split; reflexivity || discriminate]. }
  split. { exists (-4). split; [reflexivity | left; split; reflexivity || discriminate]. }
  split; [vm_compute; reflexivity |]. split; [vm_compute; reflexivity |].
  split; [split; reflexivity |]. split; [| reflexivity].
  split; intro H; [exfalso; apply H; reflexivity | exact (rounded 25 (-1) eq_refl)].
Qed.

(** C01. A fingerprint made from an integer is that integer; integers that do not fit are refused. *)
Theorem C01_from_int : forall x,
  (fits KFingerprint x -> fp_from_int (PyInt KInt x) = Ok (PyInt KFingerprint x)) /\
  (~ fits KFingerprint x -> fp_from_int (PyInt KInt x) = Err ValueError).
Proof. exact from_int_value. Qed.
Print Assumptions C01_from_int.

(** C03. A fingerprint [is_identity] exactly when it is the identity, and exactly when combining it
    changes nothing. *)
Theorem C03_is_identity : forall f, is_fp f -> (is_identity f = true <-> fp_identity = Ok f) /\
  (is_identity f = true <-> forall a, is_fp a -> combine a [f] = Ok a).
Proof. exact identity_only. Qed.
Print Assumptions C03_is_identity.

Example C03_is_identity_nonvacuous :
  is_fp (PyInt KFingerprint 0) /\ is_identity (PyInt KFingerprint 0) = true /\
  is_fp (PyInt KFingerprint 1) /\ is_identity (PyInt KFingerprint 1) = false /\
  fp_from_int (PyInt KInt (-9223372036854775808)) = Ok (PyInt KFingerprint (-9223372036854775808)) /\
  fp_from_int (PyInt KInt 9223372036854775808) = Err ValueError.
Proof. unfold is_fp, valid, fits; repeat split; vm_compute; congruence. Qed.
