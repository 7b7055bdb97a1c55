(** C01, C02, C03: sized integers and fingerprint combination. *)
From Coq Require Import ZArith List Bool String Permutation.
From Verif Require Import Base Int64_Model Int64_Spec Int64_Proofs.
Import ListNotations.
Open Scope Z_scope.

(** C01. [cls(i)] succeeds exactly when the value fits the class or comes from
    the 64-bit sibling class. *)
Theorem C01_conversion_succeeds_iff : forall cls i, valid i ->
  (exists r, new cls i = Ok r) <-> (fits cls (iv i) \/ sibling cls (ik i)).
Proof. exact new_total. Qed.
Print Assumptions C01_conversion_succeeds_iff.

(** C01. What it returns: an object of the class whose value fits it and is the
    argument itself, or - only when the argument does not fit - the number with
    the same 64 bits. *)
Theorem C01_conversion_value : forall cls i r, valid i ->
  new cls i = Ok r <->
  (ik r = cls /\ fits cls (iv r) /\
   (iv r = iv i \/ (sibling cls (ik i) /\ ~ fits cls (iv i) /\ same_bits (iv r) (iv i)))).
Proof. exact new_iff. Qed.
Print Assumptions C01_conversion_value.

(** C01. The only failure is ValueError, and only for values that do not fit. *)
Theorem C01_conversion_error : forall cls i e, valid i ->
  new cls i = Err e -> e = ValueError /\ ~ fits cls (iv i).
Proof. exact new_err. Qed.
Print Assumptions C01_conversion_error.

(** C01. Converting to the sibling class and back is the identity. *)
Theorem C01_roundtrip_from_unsigned : forall x, valid x -> ik x = KUint64 ->
  exists y, int64_new KInt64 x = Ok y /\ uint64_new y = Ok x.
Proof. exact roundtrip_uint. Qed.
Print Assumptions C01_roundtrip_from_unsigned.

Theorem C01_roundtrip_from_signed : forall k x, valid x -> ik x = k ->
  k = KInt64 \/ k = KFingerprint ->
  exists y, uint64_new x = Ok y /\ int64_new k y = Ok x.
Proof. exact roundtrip_int. Qed.
Print Assumptions C01_roundtrip_from_signed.

(** C01. Fingerprinting a string never fails, whatever 64-bit hash is used, and
    keeps all 64 bits of the hash. *)
Theorem C01_from_string_total : forall farmhash s, (0 <= farmhash s < 2 ^ 64) ->
  exists f, fp_from_string farmhash s = Ok f /\ is_fp f /\ same_bits (iv f) (farmhash s).
Proof. exact from_string_ok. Qed.
Print Assumptions C01_from_string_total.

(** C01. A Fingerprint field takes exactly the integers that fit and keeps their value. *)
Theorem C01_field : forall z, (fits KFingerprint z -> fp_validate z = Ok (PyInt KFingerprint z)) /\
  (~ fits KFingerprint z -> fp_validate z = Err ValueError).
Proof. exact validated. Qed.
Print Assumptions C01_field.

Example C01_instance :
  int64_new KInt64 (PyInt KUint64 18446744073709551615) = Ok (PyInt KInt64 (-1)) /\
  uint64_new (PyInt KInt64 (-1)) = Ok (PyInt KUint64 18446744073709551615) /\
  int64_new KInt64 (PyInt KInt 18446744073709551615) = Err ValueError /\
  fp_validate (-5) = Ok (PyInt KFingerprint (-5)) /\ fp_validate 9223372036854775808 = Err ValueError /\
  valid (PyInt KUint64 18446744073709551615).
Proof. repeat split; vm_compute; congruence. Qed.

(** C02. [a op b] where the integer operation is defined: the class is that of
    the left operand (of the right one if the left is a plain int); the value is
    the exact integer result when it fits, and otherwise ValueError is raised. *)
Theorem C02_binary_exact_or_error : forall op a b z,
  int_binop op (iv a) (iv b) = Ok z ->
  (fits (result_class a b) z -> py_binop op a b = Ok (PyInt (result_class a b) z)) /\
  (~ fits (result_class a b) z -> py_binop op a b = Err ValueError).
Proof. exact binop_exact. Qed.
Print Assumptions C02_binary_exact_or_error.

(** C02. Where the integer operation itself is undefined the same error is raised. *)
Theorem C02_binary_undefined : forall op a b e,
  int_binop op (iv a) (iv b) = Err e -> py_binop op a b = Err e.
Proof. exact binop_undefined. Qed.
Print Assumptions C02_binary_undefined.

Theorem C02_unary_exact_or_error : forall op a,
  (fits (ik a) (int_unop op (iv a)) ->
     py_unop op a = Ok (PyInt (ik a) (int_unop op (iv a)))) /\
  (~ fits (ik a) (int_unop op (iv a)) -> py_unop op a = Err ValueError).
Proof. exact unop_exact. Qed.
Print Assumptions C02_unary_exact_or_error.

Example C02_instance :
  py_binop Add (PyInt KInt64 9223372036854775807) (PyInt KInt 1) = Err ValueError /\
  py_binop Add (PyInt KInt 1) (PyInt KUint64 9223372036854775807)
    = Ok (PyInt KUint64 9223372036854775808) /\
  py_binop Mod (PyInt KFingerprint (-7)) (PyInt KInt 3) = Ok (PyInt KFingerprint 2) /\
  py_unop Neg (PyInt KInt64 (-9223372036854775808)) = Err ValueError /\
  py_unop (Round (-1)) (PyInt KInt64 25) = Ok (PyInt KInt64 20).
Proof. repeat split; vm_compute; congruence. Qed.

(** C03. Combining fingerprints always succeeds, stays a valid fingerprint and is
    the mathematical xor of all values. *)
Theorem C03_combine_total : forall l a, is_fp a -> Forall is_fp l ->
  combine a l = Ok (PyInt KFingerprint (Z.lxor (iv a) (xor_all (map iv l)))) /\
  fits KFingerprint (Z.lxor (iv a) (xor_all (map iv l))).
Proof. exact combine_value. Qed.
Print Assumptions C03_combine_total.

(** C03. The receiver and the arguments can be given in any order. *)
Theorem C03_combine_any_order : forall a l b l',
  is_fp a -> is_fp b -> Forall is_fp l -> Forall is_fp l' ->
  Permutation (a :: l) (b :: l') -> combine a l = combine b l'.
Proof. exact combine_perm. Qed.
Print Assumptions C03_combine_any_order.

(** C03. Combining in two steps is the same as at once. *)
Theorem C03_combine_any_grouping : forall a l l' c,
  is_fp a -> Forall is_fp l -> Forall is_fp l' ->
  combine a l = Ok c -> combine a (l ++ l') = combine c l'.
Proof. exact combine_group. Qed.
Print Assumptions C03_combine_any_grouping.

Theorem C03_identity_neutral : forall a l i,
  is_fp a -> Forall is_fp l -> fp_identity = Ok i ->
  combine a (i :: l) = combine a l /\ combine i (a :: l) = combine a l.
Proof. exact combine_identity. Qed.
Print Assumptions C03_identity_neutral.

Theorem C03_twice_cancels : forall a b l, is_fp a -> is_fp b -> Forall is_fp l ->
  combine a (b :: b :: l) = combine a l.
Proof. exact combine_cancel. Qed.
Print Assumptions C03_twice_cancels.

(** C03. Replacing one argument by a different fingerprint changes the result. *)
Theorem C03_combine_sensitive : forall a l1 x y l2, is_fp a -> is_fp x -> is_fp y ->
  Forall is_fp l1 -> Forall is_fp l2 -> iv x <> iv y ->
  combine a (l1 ++ x :: l2) <> combine a (l1 ++ y :: l2).
Proof. exact combine_sensitive. Qed.
Print Assumptions C03_combine_sensitive.

Example C03_instance :
  let f z := PyInt KFingerprint z in
  is_fp (f (-9223372036854775808)) /\ is_fp (f 9223372036854775807) /\
  combine (f (-9223372036854775808)) [f 9223372036854775807; f 5] = Ok (f (-6)) /\
  combine (f 5) [f (-9223372036854775808); f 9223372036854775807] = Ok (f (-6)).
Proof. unfold is_fp, valid, fits; repeat split; vm_compute; congruence. Qed.
