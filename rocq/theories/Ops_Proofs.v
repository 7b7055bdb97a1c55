(** Lemmas: the modelled integer operators mean what Python's mean. *)
From Coq Require Import ZArith List Bool String Lia.
From Verif Require Import Base Int64_Model Int64_Spec Int64_Proofs Ops_Spec.
Import ListNotations.
Open Scope Z_scope.

Lemma floored_unique : forall x y q r q' r', floored x y q r -> floored x y q' r' -> q = q' /\ r = r'.
Proof.
  intros x y q r q' r' [E B] [E' B'].
  assert (y * (q - q') = r' - r) by lia.
  assert (q - q' = 0) by nia. split; nia.
Qed.

Lemma floored_div : forall x y, y <> 0 -> floored x y (x / y) (x mod y).
Proof.
  intros x y N. split. { exact (Z.div_mod x y N). }
  destruct (Z.lt_trichotomy y 0) as [L | [L | L]]; [right | congruence | left].
  - pose proof (Z.mod_neg_bound x y L). lia.
  - pose proof (Z.mod_pos_bound x y L). lia.
Qed.

Lemma shifted : forall x y, 0 <= y -> floored x (2 ^ y) (Z.shiftr x y) (x mod 2 ^ y).
Proof.
  intros x y H. rewrite Z.shiftr_div_pow2 by exact H. apply floored_div.
  pose proof (Z.pow_pos_nonneg 2 y). lia.
Qed.

Lemma bitwise_unique : forall f x y z z', f false false = false \/ True ->
  bitwise f x y z -> bitwise f x y z' -> z = z'.
Proof.
  intros f x y z z' _ A B. apply Z.bits_inj'. intros n H. rewrite A, B by exact H. reflexivity.
Qed.

Lemma means_unique : forall op x y z z', binary_means op x y z -> binary_means op x y z' -> z = z'.
Proof.
  intros op x y z z' A B. destruct op; cbn in A, B; try lia.
  - destruct A as [r A], B as [r' B]. exact (proj1 (floored_unique _ _ _ _ _ _ A B)).
  - destruct A as [q A], B as [q' B]. exact (proj2 (floored_unique _ _ _ _ _ _ A B)).
  - exact (bitwise_unique _ _ _ _ _ (or_intror I) A B).
  - exact (bitwise_unique _ _ _ _ _ (or_intror I) A B).
  - exact (bitwise_unique _ _ _ _ _ (or_intror I) A B).
  - destruct A as [_ [r A]], B as [_ [r' B]]. exact (proj1 (floored_unique _ _ _ _ _ _ A B)).
Qed.

Lemma int_means : forall op x y z, int_binop op x y = Ok z -> binary_means op x y z.
Proof.
  intros op x y z H. destruct op; cbn in H |- *.
  - injection H as <-. lia.
  - injection H as <-. lia.
  - injection H as <-. reflexivity.
  - destruct (Z.eqb_spec y 0); inversion H; subst. exists (x mod y). apply floored_div. assumption.
  - destruct (Z.eqb_spec y 0); inversion H; subst. exists (x / y). apply floored_div. assumption.
  - injection H as <-. intros n L. apply Z.land_spec.
  - injection H as <-. intros n L. apply Z.lor_spec.
  - injection H as <-. intros n L. apply Z.lxor_spec.
  - destruct (Z.ltb_spec y 0); inversion H; subst. split; [lia |]. apply Z.shiftl_mul_pow2. lia.
  - destruct (Z.ltb_spec y 0); inversion H; subst. split; [lia |]. exists (x mod 2 ^ y). apply shifted. lia.
Qed.

Lemma int_undefined : forall op x y e, int_binop op x y = Err e <-> undefined op y e.
Proof.
  assert (D : forall (b : bool) (P : Prop) (z : Z) e0 e, reflect P b ->
            ((if b then Err e0 else Ok z) = Err e <-> P /\ e = e0)).
  { intros b P z e0 e R. destruct R as [p | n]; split.
    - intro H. injection H as <-. auto.
    - intros [_ ->]. reflexivity.
    - discriminate.
    - intros [p _]. contradiction. }
  intros op x y e. destruct op; cbn; try (split; [discriminate | contradiction]).
  - apply D. apply Z.eqb_spec.
  - apply D. apply Z.eqb_spec.
  - apply D. apply Z.ltb_spec0.
  - apply D. apply Z.ltb_spec0.
Qed.

Lemma int_defined : forall op x y z, binary_means op x y z -> int_binop op x y = Ok z.
Proof.
  intros op x y z H. destruct (int_binop op x y) as [z' | e] eqn:E.
  - f_equal. exact (means_unique op x y z' z (int_means _ _ _ _ E) H).
  - apply int_undefined in E. destruct op; cbn in E, H; try contradiction.
    + destruct E as [E _], H as [r [_ H]]. lia.
    + destruct E as [E _], H as [q [_ H]]. lia.
    + lia.
    + destruct E as [E _], H as [H _]. lia.
Qed.

Lemma binary_value : forall op a b z, binary_means op (iv a) (iv b) z ->
  (fits (result_class a b) z -> py_binop op a b = Ok (PyInt (result_class a b) z)) /\
  (~ fits (result_class a b) z -> py_binop op a b = Err ValueError).
Proof. intros op a b z H. apply binop_exact. apply int_defined. exact H. Qed.

Lemma binary_result : forall op a b r, py_binop op a b = Ok r ->
  binary_means op (iv a) (iv b) (iv r) /\ ik r = result_class a b /\ fits (result_class a b) (iv r).
Proof.
  intros op a b r H. destruct (int_binop op (iv a) (iv b)) as [z | e] eqn:E.
  - destruct (binop_exact op a b z E) as [P Q]. destruct (fits_dec (result_class a b) z) as [F | F].
    + rewrite (P F) in H. injection H as <-. cbn. split; [exact (int_means _ _ _ _ E) | auto].
    + rewrite (Q F) in H. discriminate.
  - rewrite (binop_undefined op a b e E) in H. discriminate.
Qed.

Lemma binary_undefined : forall op a b e, undefined op (iv b) e -> py_binop op a b = Err e.
Proof. intros op a b e H. apply binop_undefined. apply int_undefined. exact H. Qed.

Lemma binary_cases : forall op x y, (exists z, binary_means op x y z) \/ (exists e, undefined op y e).
Proof.
  intros op x y. destruct (int_binop op x y) as [z | e] eqn:E.
  - left. exists z. exact (int_means _ _ _ _ E).
  - right. exists e. exact (proj1 (int_undefined _ _ _ _) E).
Qed.

Lemma rounded : forall x nd, nd < 0 -> nearest x (- nd) (int_round x nd).
Proof.
  intros x nd H. unfold int_round. destruct (Z.leb_spec 0 nd) as [L | _]; [lia |].
  set (d := 10 ^ (- nd)).
  assert (D : 0 < d) by (apply Z.pow_pos_nonneg; lia).
  pose proof (Z.div_mod x d ltac:(lia)) as E. pose proof (Z.mod_pos_bound x d D) as B.
  set (q := x / d) in *. set (r := x mod d) in *. cbv zeta.
  assert (near : forall k j, j <> k -> (x - k * d = r \/ x - k * d = r - d) -> k = q \/ k = q + 1 ->
           (k = q -> 2 * r < d) -> (k = q + 1 -> d < 2 * r) ->
           Z.abs (x - k * d) < Z.abs (x - j * d)).
  { intros k j N _ [-> | ->] L1 L2.
    - specialize (L1 eq_refl). clear L2. replace (x - q * d) with r by lia.
      replace (x - j * d) with (r + (q - j) * d) by lia.
      assert (q - j <= -1 \/ 1 <= q - j) as [S | S] by lia; nia.
    - specialize (L2 eq_refl). clear L1. replace (x - (q + 1) * d) with (r - d) by lia.
      replace (x - j * d) with (r - d + (q + 1 - j) * d) by lia.
      assert (q + 1 - j <= -1 \/ 1 <= q + 1 - j) as [S | S] by lia; nia. }
  assert (tie : forall k j, 2 * r = d -> j <> k -> k = q \/ k = q + 1 ->
           Z.abs (x - k * d) <= Z.abs (x - j * d)).
  { intros k j T N [-> | ->].
    - replace (x - q * d) with r by lia. replace (x - j * d) with (r + (q - j) * d) by lia.
      assert (q - j <= -1 \/ 1 <= q - j) as [S | S] by lia; nia.
    - replace (x - (q + 1) * d) with (r - d) by lia.
      replace (x - j * d) with (r - d + (q + 1 - j) * d) by lia.
      assert (q + 1 - j <= -1 \/ 1 <= q + 1 - j) as [S | S] by lia; nia. }
  destruct (Z.ltb_spec (2 * r) d) as [L | L].
  { exists q. split; [reflexivity |]. intros j N. left. apply near; try lia. }
  destruct (Z.ltb_spec d (2 * r)) as [L' | L'].
  { exists (q + 1). split; [reflexivity |]. intros j N. left. apply near; try lia. }
  assert (T : 2 * r = d) by lia.
  destruct (Z.even q) eqn:V.
  - exists q. split; [reflexivity |]. intros j N. pose proof (tie q j T N (or_introl eq_refl)) as LE.
    apply Z.even_spec in V. apply Z.le_lteq in LE. destruct LE as [LT | EQ]; [left | right]; auto.
  - exists (q + 1). split; [reflexivity |]. intros j N. pose proof (tie (q + 1) j T N (or_intror eq_refl)) as LE.
    assert (W : Z.Even (q + 1)).
    { apply Z.even_spec. replace (q + 1) with (Z.succ q) by lia. rewrite Z.even_succ.
      rewrite <- Z.negb_even. rewrite V. reflexivity. }
    apply Z.le_lteq in LE. destruct LE as [LT | EQ]; [left | right]; auto.
Qed.

Lemma nearest_unique : forall x n z z', nearest x n z -> nearest x n z' -> 0 <= n -> z = z'.
Proof.
  intros x n z z' [k [-> A]] [k' [-> B]] H.
  destruct (Z.eq_dec k k') as [-> | N]; [reflexivity | exfalso].
  assert (D : 0 < 10 ^ n) by (apply Z.pow_pos_nonneg; lia). set (d := 10 ^ n) in *.
  destruct (A k' ltac:(congruence)) as [LA | [EA VA]], (B k ltac:(congruence)) as [LB | [EB VB]]; try lia.
  destruct VA as [a ->], VB as [b ->].
  assert (a - b <= -1 \/ 1 <= a - b) as [S | S] by lia.
  - pose proof (A (2 * a + 1) ltac:(lia)). nia.
  - pose proof (B (2 * b + 1) ltac:(lia)). nia.
Qed.

Lemma unary_int : forall op x, unary_means op x (int_unop op x).
Proof.
  intros [] x; cbn; try reflexivity; try lia.
  - unfold Z.lnot. lia.
  - split; intro H.
    + unfold int_round. destruct (Z.leb_spec 0 ndigits); [reflexivity | lia].
    + apply rounded. exact H.
Qed.

Lemma unary_unique : forall op x z z', unary_means op x z -> unary_means op x z' -> z = z'.
Proof.
  intros [] x z z' A B; cbn in A, B; try lia.
  destruct A as [A1 A2], B as [B1 B2]. destruct (Z.lt_ge_cases ndigits 0) as [L | L].
  - exact (nearest_unique _ _ _ _ (A2 L) (B2 L) ltac:(lia)).
  - rewrite (A1 L), (B1 L). reflexivity.
Qed.

Lemma unary_value : forall op a z, unary_means op (iv a) z ->
  (fits (ik a) z -> py_unop op a = Ok (PyInt (ik a) z)) /\
  (~ fits (ik a) z -> py_unop op a = Err ValueError).
Proof.
  intros op a z H. rewrite (unary_unique op _ _ _ H (unary_int op (iv a))). apply unop_exact.
Qed.

Lemma unary_defined : forall op x, exists z, unary_means op x z.
Proof. intros op x. exists (int_unop op x). apply unary_int. Qed.

Lemma from_int_value : forall x,
  (fits KFingerprint x -> fp_from_int (PyInt KInt x) = Ok (PyInt KFingerprint x)) /\
  (~ fits KFingerprint x -> fp_from_int (PyInt KInt x) = Err ValueError).
Proof.
  intro x. unfold fp_from_int, fp_from_int64, int64_new, fits, int64_max, int64_min. cbn [iv is_uint64 ik].
  rewrite Z.gtb_ltb. split; intro H.
  - destruct (Z.ltb_spec (2 ^ 63 - 1) x); [lia |]. destruct (Z.ltb_spec x (- 2 ^ 63)); [lia |].
    cbn [bind iv ik]. rewrite Z.gtb_ltb. destruct (Z.ltb_spec (2 ^ 63 - 1) x); [lia |].
    destruct (Z.ltb_spec x (- 2 ^ 63)); [lia |]. reflexivity.
  - destruct (Z.ltb_spec (2 ^ 63 - 1) x); [reflexivity |]. destruct (Z.ltb_spec x (- 2 ^ 63)); [reflexivity | lia].
Qed.

Lemma identity_only : forall f, is_fp f -> (is_identity f = true <-> fp_identity = Ok f) /\
  (is_identity f = true <-> forall a, is_fp a -> combine a [f] = Ok a).
Proof.
  intros [k z] [K V]. cbn in K. subst k. unfold is_identity. cbn [iv].
  assert (I : fp_identity = Ok (PyInt KFingerprint 0)) by (vm_compute; reflexivity).
  split; rewrite Z.eqb_eq.
  - rewrite I. split; [intros ->; reflexivity | intro H; injection H as H; congruence].
  - split.
    + intros -> [k a] [K A]. cbn in K. subst k.
      assert (Z0 : is_fp (PyInt KFingerprint 0)) by (split; [reflexivity | vm_compute; split; congruence]).
      destruct (combine_value [PyInt KFingerprint 0] (PyInt KFingerprint a)) as [C _].
      { split; [reflexivity | exact A]. } { repeat constructor; apply Z0. }
      rewrite C. cbn. rewrite Z.lxor_0_r. reflexivity.
    + intro H.
      assert (Z0 : is_fp (PyInt KFingerprint 0)) by (split; [reflexivity | vm_compute; split; congruence]).
      specialize (H (PyInt KFingerprint 0) Z0).
      destruct (combine_value [PyInt KFingerprint z] (PyInt KFingerprint 0) Z0) as [C _].
      { constructor; [split; [reflexivity | exact V] | constructor]. }
      rewrite C in H. injection H as H. cbn in H. rewrite Z.lxor_0_r in H. exact H.
Qed.
