(** Lemmas about the sized integers and fingerprints. *)
From Coq Require Import ZArith List Bool String Lia Permutation.
From Verif Require Import Base Int64_Model Int64_Spec.
Import ListNotations.
Open Scope Z_scope.

Ltac consts := unfold int64_min, int64_max, uint64_min, uint64_max in *;
  change (2 ^ 63) with 9223372036854775808 in *;
  change (2 ^ 64) with 18446744073709551616 in *.

Ltac zcase :=
  match goal with
  | |- context [Z.gtb ?a ?b] => rewrite (Z.gtb_ltb a b) in *
  | |- context [Z.ltb ?a ?b] => let C := fresh "C" in destruct (Z.ltb_spec a b) as [C|C]
  | |- context [Z.eqb ?a ?b] => let C := fresh "C" in destruct (Z.eqb_spec a b) as [C|C]
  end.

(** ** Conversions *)

Lemma new_iff : forall k i r, valid i ->
  new k i = Ok r <->
  (ik r = k /\ fits k (iv r) /\
   (iv r = iv i \/ (sibling k (ik i) /\ ~ fits k (iv i) /\ same_bits (iv r) (iv i)))).
Proof.
  intros k [ki z] [kr r] V. unfold valid in V; cbn [ik iv] in *.
  unfold new, int64_new, uint64_new, same_bits, is_uint64, is_int64; cbn [ik iv] in *.
  destruct k, ki; cbn [sibling fits] in *; consts;
  repeat zcase;
  (split;
   [ let E := fresh in intro E; try discriminate E; injection E as <- <-;
     (split; [reflexivity|split; [lia|]]);
     first [ left; lia | right; split; [exact I|split; [lia|]] ];
     try (replace (z - 18446744073709551615 - 1 - z) with (-1 * 18446744073709551616) by lia;
          apply Z_mod_mult);
     try (replace (z + 18446744073709551615 + 1 - z) with (1 * 18446744073709551616) by lia;
          apply Z_mod_mult)
   | intros (E1 & F & [E2 | (S & NF & M)]);
     try contradiction; try congruence;
     try (exfalso; lia); subst;
     try reflexivity;
     try (apply Z_div_exact_full_2 in M; [|lia];
          do 2 f_equal;
          assert (r - z = 18446744073709551616 * ((r - z) / 18446744073709551616)) by lia;
          lia)
   ]).
Qed.

Lemma new_err : forall k i e, valid i ->
  new k i = Err e -> e = ValueError /\ ~ fits k (iv i).
Proof.
  intros k [ki z] e V H. unfold valid in V; cbn [ik iv] in *.
  unfold new, int64_new, uint64_new, is_uint64, is_int64 in H; cbn [ik iv] in *.
  destruct k, ki; cbn [fits] in *; consts; revert H;
  repeat zcase; intro H; try discriminate H; (injection H as <-; split; [reflexivity|lia]).
Qed.

Lemma new_total : forall k i, valid i ->
  (exists r, new k i = Ok r) <-> (fits k (iv i) \/ sibling k (ik i)).
Proof.
  intros k [ki z] V. unfold valid in V; cbn [ik iv] in *.
  unfold new, int64_new, uint64_new, is_uint64, is_int64; cbn [ik iv] in *.
  destruct k, ki; cbn [fits sibling] in *; consts;
  repeat zcase; split; intro H; try (eexists; reflexivity);
  try (destruct H as [r H]; discriminate H); try (left; lia); try (right; exact I);
  destruct H; try contradiction; lia.
Qed.

Lemma roundtrip_uint : forall x, valid x -> ik x = KUint64 ->
  exists y, int64_new KInt64 x = Ok y /\ uint64_new y = Ok x.
Proof.
  intros [k z] V E; cbn in E; subst. unfold valid in V; cbn [ik iv fits] in V.
  unfold int64_new, uint64_new, is_uint64, is_int64; cbn [ik iv]. consts.
  repeat zcase; try (exfalso; lia).
  - eexists; split; [reflexivity|]. cbn [ik iv]. repeat zcase; try (exfalso; lia).
    do 2 f_equal. lia.
  - eexists; split; [reflexivity|]. cbn [ik iv]. repeat zcase; try (exfalso; lia).
    reflexivity.
Qed.

Lemma roundtrip_int : forall k x, valid x -> ik x = k -> k = KInt64 \/ k = KFingerprint ->
  exists y, uint64_new x = Ok y /\ int64_new k y = Ok x.
Proof.
  intros k [ki z] V E K; cbn in E; subst ki. unfold valid in V; cbn [ik iv] in V.
  unfold int64_new, uint64_new, is_uint64, is_int64; cbn [ik iv].
  destruct K; subst k; cbn [fits] in V; consts;
  repeat zcase; try (exfalso; lia);
  (eexists; split; [reflexivity|]; cbn [ik iv]; repeat zcase; try (exfalso; lia);
   do 2 f_equal; lia).
Qed.

(** ** Operators *)

Lemma new_plain : forall k z,
  (fits k z -> new k (PyInt KInt z) = Ok (PyInt k z)) /\
  (~ fits k z -> new k (PyInt KInt z) = Err ValueError).
Proof.
  intros k z. unfold new, int64_new, uint64_new, is_uint64, is_int64; cbn [ik iv].
  destruct k; cbn [fits]; consts; repeat zcase; split; intro;
    try reflexivity; try (exfalso; tauto); exfalso; lia.
Qed.

Lemma fits_dec : forall k z, fits k z \/ ~ fits k z.
Proof. intros [] z; cbn; lia. Qed.

Lemma binop_exact : forall op a b z,
  int_binop op (iv a) (iv b) = Ok z ->
  (fits (result_class a b) z -> py_binop op a b = Ok (PyInt (result_class a b) z)) /\
  (~ fits (result_class a b) z -> py_binop op a b = Err ValueError).
Proof.
  intros op a b z H. unfold py_binop. rewrite H.
  fold (result_class a b). split; intro; apply new_plain; assumption.
Qed.

Lemma binop_undefined : forall op a b e,
  int_binop op (iv a) (iv b) = Err e -> py_binop op a b = Err e.
Proof. intros op a b e H. unfold py_binop. rewrite H. reflexivity. Qed.

Lemma unop_exact : forall op a,
  (fits (ik a) (int_unop op (iv a)) ->
     py_unop op a = Ok (PyInt (ik a) (int_unop op (iv a)))) /\
  (~ fits (ik a) (int_unop op (iv a)) -> py_unop op a = Err ValueError).
Proof. intros. unfold py_unop. apply new_plain. Qed.

(** ** Combination *)

Lemma range_shift : forall z, fits KFingerprint z <-> (Z.shiftr z 63 = 0 \/ Z.shiftr z 63 = -1).
Proof.
  intro z. unfold fits. rewrite Z.shiftr_div_pow2 by lia. consts.
  pose proof (Z.div_mod z 9223372036854775808 ltac:(lia)) as D.
  pose proof (Z.mod_pos_bound z 9223372036854775808 ltac:(lia)) as B.
  split; intro H.
  - assert (-1 <= z / 9223372036854775808 < 1) by lia. lia.
  - destruct H as [H|H]; rewrite H in D; lia.
Qed.

Lemma fits_lxor : forall x y, fits KFingerprint x -> fits KFingerprint y ->
  fits KFingerprint (Z.lxor x y).
Proof.
  intros x y Hx Hy. apply range_shift in Hx, Hy. apply range_shift.
  rewrite Z.shiftr_lxor.
  destruct Hx as [-> | ->], Hy as [-> | ->]; cbn; auto.
Qed.

Lemma is_fp_fits : forall x, is_fp x -> fits KFingerprint (iv x).
Proof. intros [k z] [E V]; cbn in *; subst; exact V. Qed.

Lemma xor_step : forall a b, is_fp a -> is_fp b ->
  py_binop BitXor a b = Ok (PyInt KFingerprint (Z.lxor (iv a) (iv b))).
Proof.
  intros a b Ha Hb.
  assert (R : result_class a b = KFingerprint)
    by (unfold result_class; destruct Ha as [-> _]; reflexivity).
  pose proof (binop_exact BitXor a b _ eq_refl) as [H _]. rewrite R in H. apply H.
  apply fits_lxor; apply is_fp_fits; assumption.
Qed.

Lemma xor_all_app_l : forall l x, fold_left Z.lxor l x = Z.lxor x (xor_all l).
Proof.
  induction l as [|a l IH]; intro x; cbn.
  - now rewrite Z.lxor_0_r.
  - rewrite IH, Z.lxor_assoc. reflexivity.
Qed.

Lemma combine_value : forall l a, is_fp a -> Forall is_fp l ->
  combine a l = Ok (PyInt KFingerprint (Z.lxor (iv a) (xor_all (map iv l)))) /\
  fits KFingerprint (Z.lxor (iv a) (xor_all (map iv l))).
Proof.
  induction l as [|b l IH]; intros a Ha Hl; unfold combine; cbn [fold_left map xor_all fold_right].
  - rewrite Z.lxor_0_r. destruct a as [k z], Ha as [E V]; cbn in *; subst. auto.
  - inversion Hl as [|? ? Hb Hl']; subst. cbn [bind].
    rewrite xor_step by assumption.
    assert (F : is_fp (PyInt KFingerprint (Z.lxor (iv a) (iv b)))).
    { split; [reflexivity|]. unfold valid; cbn [ik iv].
      apply fits_lxor; apply is_fp_fits; assumption. }
    destruct (IH _ F Hl') as [E1 E2]. unfold combine in E1.
    change (fold_right Z.lxor 0 (map iv l)) with (xor_all (map iv l)).
    rewrite E1. cbn [iv] in *. rewrite Z.lxor_assoc in *. auto.
Qed.

Lemma xor_all_perm : forall l l', Permutation l l' -> xor_all l = xor_all l'.
Proof.
  induction 1; cbn; auto.
  - unfold xor_all in *. now rewrite IHPermutation.
  - rewrite <- !Z.lxor_assoc, (Z.lxor_comm y x). reflexivity.
  - etransitivity; eassumption.
Qed.

Lemma xor_all_app : forall l l', xor_all (l ++ l') = Z.lxor (xor_all l) (xor_all l').
Proof.
  induction l as [|a l IH]; intro l'; cbn.
  - reflexivity.
  - unfold xor_all in *. rewrite IH, Z.lxor_assoc. reflexivity.
Qed.

Lemma lxor_cancel_l : forall a x y, Z.lxor a x = Z.lxor a y -> x = y.
Proof.
  intros a x y H. apply (f_equal (Z.lxor a)) in H.
  rewrite <- !Z.lxor_assoc, Z.lxor_nilpotent, !Z.lxor_0_l in H. exact H.
Qed.

Lemma combine_perm : forall a l b l', is_fp a -> is_fp b -> Forall is_fp l -> Forall is_fp l' ->
  Permutation (a :: l) (b :: l') -> combine a l = combine b l'.
Proof.
  intros a l b l' Ha Hb Hl Hl' P.
  rewrite (proj1 (combine_value l a Ha Hl)), (proj1 (combine_value l' b Hb Hl')).
  do 2 f_equal. apply (Permutation_map iv) in P. apply xor_all_perm in P. exact P.
Qed.

Lemma combine_group : forall a l l' c, is_fp a -> Forall is_fp l -> Forall is_fp l' ->
  combine a l = Ok c -> combine a (l ++ l') = combine c l'.
Proof.
  intros a l l' c _ _ _ H. unfold combine in *. rewrite fold_left_app, H. reflexivity.
Qed.

Lemma combine_identity : forall a l i, is_fp a -> Forall is_fp l -> fp_identity = Ok i ->
  combine a (i :: l) = combine a l /\ combine i (a :: l) = combine a l.
Proof.
  intros a l i Ha Hl Hi.
  assert (I : is_fp i /\ iv i = 0).
  { unfold fp_identity, int64_new in Hi. cbn in Hi. injection Hi as <-.
    split; [split; [reflexivity|unfold valid; cbn; lia]|reflexivity]. }
  destruct I as [I I0].
  rewrite (proj1 (combine_value (i :: l) a Ha ltac:(auto))),
    (proj1 (combine_value l a Ha Hl)), (proj1 (combine_value (a :: l) i I ltac:(auto))).
  cbn [map xor_all fold_right]. rewrite I0, !Z.lxor_0_l. auto.
Qed.

Lemma combine_cancel : forall a b l, is_fp a -> is_fp b -> Forall is_fp l ->
  combine a (b :: b :: l) = combine a l.
Proof.
  intros a b l Ha Hb Hl.
  rewrite (proj1 (combine_value (b :: b :: l) a Ha ltac:(auto))),
    (proj1 (combine_value l a Ha Hl)).
  cbn [map xor_all fold_right]. rewrite <- (Z.lxor_assoc (iv b)), Z.lxor_nilpotent, Z.lxor_0_l.
  reflexivity.
Qed.

Lemma combine_sensitive : forall a l1 x y l2, is_fp a -> is_fp x -> is_fp y ->
  Forall is_fp l1 -> Forall is_fp l2 -> iv x <> iv y ->
  combine a (l1 ++ x :: l2) <> combine a (l1 ++ y :: l2).
Proof.
  intros a l1 x y l2 Ha Hx Hy H1 H2 N E.
  rewrite (proj1 (combine_value (l1 ++ x :: l2) a Ha ltac:(apply Forall_app; auto))),
    (proj1 (combine_value (l1 ++ y :: l2) a Ha ltac:(apply Forall_app; auto))) in E.
  injection E as E. apply lxor_cancel_l in E.
  rewrite !map_app, !xor_all_app in E. cbn [map xor_all fold_right] in E.
  apply lxor_cancel_l in E.
  rewrite (Z.lxor_comm (iv x)), (Z.lxor_comm (iv y)) in E.
  apply lxor_cancel_l in E. contradiction.
Qed.

Lemma from_string_ok : forall farmhash s, (0 <= farmhash s < 2 ^ 64) ->
  exists f, fp_from_string farmhash s = Ok f /\ is_fp f /\ same_bits (iv f) (farmhash s).
Proof.
  intros h s R. unfold fp_from_string.
  pose proof (new_plain KUint64 (h s)) as [H _]. cbn [fits new] in H. rewrite (H R). cbn [bind].
  unfold fp_from_uint64, fp_from_int64, int64_new, is_uint64; cbn [ik iv bind]. consts.
  repeat zcase; try (exfalso; lia); cbn [bind ik iv]; repeat zcase; try (exfalso; lia);
  (eexists; split; [reflexivity|]); unfold is_fp, valid, same_bits; cbn [ik iv fits]; consts;
  (split; [split; [reflexivity|lia]|]).
  - replace (h s - (18446744073709551616 - 1) - 1 - h s) with (-1 * 18446744073709551616) by lia.
    apply Z_mod_mult.
  - rewrite Z.sub_diag. reflexivity.
Qed.

Theorem validated : forall z, (fits KFingerprint z -> fp_validate z = Ok (PyInt KFingerprint z)) /\
  (~ fits KFingerprint z -> fp_validate z = Err ValueError).
Proof.
  intro z. unfold fp_validate, int64_new, fits, is_uint64. cbn [ik iv].
  destruct (z >? int64_max) eqn:G; [|destruct (z <? int64_min) eqn:L];
    unfold int64_min, int64_max in *; split; intro F; try reflexivity; exfalso; lia.
Qed.
