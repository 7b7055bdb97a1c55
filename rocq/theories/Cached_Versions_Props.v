(** C72: copies compared with instances made anew, in particular of versions. *)
From Coq Require Import ZArith List Ascii String Bool.
From Verif Require Import Base Str Models_Model Cached_Model Cached_Versions_Spec Cached_Versions_Proofs.
Import ListNotations.
Open Scope list_scope.

(** C72, copies: a copy of an instance that was not asked for its fingerprint is what construction
    with the updated values gives, unless it is a version whose major number moves across 0. *)
Theorem C72_copy_is_new : forall c f u x y, create c f = Ok x -> create c (dupdate str_eqb f u) = Ok y ->
  c_kind c = Plain \/ positive f = positive (dupdate str_eqb f u) -> model_copy x u = y.
Proof. exact copy_is_new. Qed.
Print Assumptions C72_copy_is_new.
Example C72_copy_is_new_nonvacuous : exists x y,
  create semver (numbers 1 2 3) = Ok x /\ create semver (dupdate str_eqb (numbers 1 2 3) [($"major", VInt 2)]) = Ok y /\
  positive (numbers 1 2 3) = positive (dupdate str_eqb (numbers 1 2 3) [($"major", VInt 2)]) /\ x <> y.
Proof.
  eexists _, _. split; [apply create_version|]. split; [apply (create_version 2 2 3)|]. split; [reflexivity|discriminate].
Qed.

(** C72, copied versions: whether the minor and patch numbers of a copy count is decided by the
    major number of the instance that was constructed, not by that of the copy. *)
Theorem C72_copied_versions : forall a b p m b1 p1 b2 p2 x, create semver (numbers a b p) = Ok x ->
  (dump_json (state_of (model_copy x (numbers m b1 p1))) = dump_json (state_of (model_copy x (numbers m b2 p2))) <->
   ((a <= 0)%Z -> b1 = b2 /\ p1 = p2)).
Proof. exact copies_alike. Qed.
Print Assumptions C72_copied_versions.
Example C72_copied_versions_nonvacuous : forall a b p, exists x, create semver (numbers a b p) = Ok x.
Proof. intros. eexists. apply create_version. Qed.

(** C72, refuted for copied versions: copies of 1.0.0 that say 0.5.0 and 0.6.0 have one fingerprint,
    under every hash, although their fields are those of constructed instances whose texts differ. *)
Theorem C72_versions_refuted : exists x y z,
  create semver (numbers 1 0 0) = Ok x /\ create semver (numbers 0 5 0) = Ok y /\ create semver (numbers 0 6 0) = Ok z /\
  fields_of (o_dict (model_copy x (numbers 0 5 0))) = fields_of (o_dict y) /\
  fields_of (o_dict (model_copy x (numbers 0 6 0))) = fields_of (o_dict z) /\
  dump_json (state_of y) <> dump_json (state_of z) /\
  forall farmhash, fingerprint farmhash (state_of (model_copy x (numbers 0 5 0))) =
                   fingerprint farmhash (state_of (model_copy x (numbers 0 6 0))).
Proof. exact versions_refuted. Qed.
Print Assumptions C72_versions_refuted.
