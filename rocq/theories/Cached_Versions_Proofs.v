(** Copies compared with instances made anew, in particular of versions. *)
From Coq Require Import ZArith List Ascii String Bool.
From Verif Require Import Base Str Models_Model Models_Proofs Cached_Model Cached_Versions_Spec.
Import ListNotations.
Open Scope list_scope.

Lemma dset_map : forall (V W : Type) (f : V -> W) d k v,
  map (fun nv => (fst nv, f (snd nv))) (dset str_eqb d k v) =
  dset str_eqb (map (fun nv => (fst nv, f (snd nv))) d) k (f v).
Proof.
  intros V W f d k v. induction d as [|[k' v'] d IH]; cbn [dset map fst snd]; auto.
  destruct (str_eqb k' k); cbn [map fst snd]; congruence.
Qed.

Lemma dupdate_map : forall (V W : Type) (f : V -> W) u d,
  map (fun nv => (fst nv, f (snd nv))) (dupdate str_eqb d u) =
  dupdate str_eqb (map (fun nv => (fst nv, f (snd nv))) d) (map (fun nv => (fst nv, f (snd nv))) u).
Proof.
  intros V W f u. unfold dupdate. induction u as [|[k v] u IH]; intros d; cbn [fold_left map fst snd]; auto.
  rewrite IH, dset_map. reflexivity.
Qed.

Lemma names_by_sign : forall c f g, c_kind c = Plain \/ positive f = positive g ->
  instance_fp_fields c f = instance_fp_fields c g.
Proof.
  intros c f g H. unfold instance_fp_fields. destruct (class_fp_fields c) as [names|e]; cbn [bind]; auto.
  destruct (c_kind c); auto. destruct (forallb _ names); auto. destruct H as [H|H]; [discriminate|].
  unfold positive in H.
  destruct (dget str_eqb f $"major") as [[]|]; destruct (dget str_eqb g $"major") as [[]|];
    try reflexivity; try rewrite H; try rewrite <- H; reflexivity.
Qed.

Lemma create_cases : forall c f x, create c f = Ok x ->
  exists names, instance_fp_fields c f = Ok names /\ x = Object c names (map (fun nv => (fst nv, Field (snd nv))) f).
Proof.
  intros c f x E. unfold create in E. destruct (existsb (str_eqb attr) (map fst f)); [discriminate|].
  unfold instantiate in E. destruct (c_abstract c); [discriminate|].
  destruct (instance_fp_fields c f) as [names|e]; cbn [rmap bind] in E; [|discriminate].
  injection E as <-. exists names. auto.
Qed.

Lemma copy_is_new : forall c f u x y, create c f = Ok x -> create c (dupdate str_eqb f u) = Ok y ->
  c_kind c = Plain \/ positive f = positive (dupdate str_eqb f u) -> model_copy x u = y.
Proof.
  intros c f u x y X Y H. destruct (create_cases _ _ _ X) as (n & N & ->). destruct (create_cases _ _ _ Y) as (m & M & ->).
  rewrite (names_by_sign c f (dupdate str_eqb f u) H) in N. assert (n = m) by congruence. subst.
  unfold model_copy. cbn [o_class o_names o_dict]. rewrite dupdate_map. reflexivity.
Qed.

Definition short (m : Z) : json := JObj [($"_arti_type_", JStr $"SemVer"); ($"major", JInt m)].
Definition long (m b p : Z) : json :=
  JObj [($"_arti_type_", JStr $"SemVer"); ($"major", JInt m); ($"minor", JInt b); ($"patch", JInt p)].

Definition made_version (a b p : Z) : object :=
  Object semver (if (0 <? a)%Z then [$"_arti_type_"; $"major"] else [$"_arti_type_"; $"major"; $"minor"; $"patch"])
    (map (fun nv => (fst nv, Field (snd nv))) (numbers a b p)).

Lemma create_version : forall a b p, create semver (numbers a b p) = Ok (made_version a b p).
Proof.
  intros a b p. unfold create. replace (existsb (str_eqb attr) (map fst (numbers a b p))) with false by reflexivity.
  unfold instantiate. replace (c_abstract semver) with false by reflexivity.
  unfold instance_fp_fields.
  replace (class_fp_fields semver) with (Ok [$"_arti_type_"; $"major"; $"minor"; $"patch"]) by (vm_compute; reflexivity).
  cbn [bind]. replace (c_kind semver) with SemVer by reflexivity.
  replace (forallb _ [$"_arti_type_"; $"major"; $"minor"; $"patch"]) with true by (vm_compute; reflexivity).
  replace (dget str_eqb (numbers a b p) $"major") with (Some (VInt a)) by reflexivity.
  unfold made_version. destruct (0 <? a)%Z; vm_compute; reflexivity.
Qed.

Lemma copied_version : forall a b p m b' p',
  serialize (state_of (model_copy (made_version a b p) (numbers m b' p'))) = if (0 <? a)%Z then short m else long m b' p'.
Proof. intros. unfold made_version. destruct (0 <? a)%Z; reflexivity. Qed.

Lemma fresh_version : forall a b p, serialize (state_of (made_version a b p)) = if (0 <? a)%Z then short a else long a b p.
Proof. intros. unfold made_version. destruct (0 <? a)%Z; reflexivity. Qed.

Lemma copied_alike : forall a b p m b1 p1 b2 p2,
  dump_json (state_of (model_copy (made_version a b p) (numbers m b1 p1))) =
  dump_json (state_of (model_copy (made_version a b p) (numbers m b2 p2))) <-> ((a <= 0)%Z -> b1 = b2 /\ p1 = p2).
Proof.
  intros. rewrite dump_iff, !copied_version. destruct (0 <? a)%Z eqn:E.
  - apply Z.ltb_lt in E. split; auto. intros _ L. destruct (Z.lt_irrefl a). eapply Z.le_lt_trans; eauto.
  - apply Z.ltb_ge in E. unfold long. split.
    + intros H _. injection H as -> ->. auto.
    + intros H. destruct (H E) as [-> ->]. reflexivity.
Qed.

Lemma fresh_alike : forall m b1 p1 b2 p2,
  dump_json (state_of (made_version m b1 p1)) = dump_json (state_of (made_version m b2 p2)) <-> ((m <= 0)%Z -> b1 = b2 /\ p1 = p2).
Proof.
  intros. rewrite dump_iff, !fresh_version. destruct (0 <? m)%Z eqn:E.
  - apply Z.ltb_lt in E. split; auto. intros _ L. destruct (Z.lt_irrefl m). eapply Z.le_lt_trans; eauto.
  - apply Z.ltb_ge in E. unfold long. split.
    + intros H _. injection H as -> ->. auto.
    + intros H. destruct (H E) as [-> ->]. reflexivity.
Qed.

Lemma copies_alike : forall a b p m b1 p1 b2 p2 x, create semver (numbers a b p) = Ok x ->
  (dump_json (state_of (model_copy x (numbers m b1 p1))) = dump_json (state_of (model_copy x (numbers m b2 p2))) <->
   ((a <= 0)%Z -> b1 = b2 /\ p1 = p2)).
Proof. intros a b p m b1 p1 b2 p2 x E. rewrite create_version in E. injection E as <-. apply copied_alike. Qed.

Lemma versions_refuted : exists x y z,
  create semver (numbers 1 0 0) = Ok x /\ create semver (numbers 0 5 0) = Ok y /\ create semver (numbers 0 6 0) = Ok z /\
  fields_of (o_dict (model_copy x (numbers 0 5 0))) = fields_of (o_dict y) /\
  fields_of (o_dict (model_copy x (numbers 0 6 0))) = fields_of (o_dict z) /\
  dump_json (state_of y) <> dump_json (state_of z) /\
  forall farmhash, fingerprint farmhash (state_of (model_copy x (numbers 0 5 0))) =
                   fingerprint farmhash (state_of (model_copy x (numbers 0 6 0))).
Proof.
  exists (made_version 1 0 0), (made_version 0 5 0), (made_version 0 6 0). rewrite !create_version.
  do 5 (split; [reflexivity|]). split.
  - intros H. apply fresh_alike in H; [destruct H; discriminate|]. apply Z.le_refl.
  - intros farmhash. unfold fingerprint.
    replace (dump_json (state_of (model_copy (made_version 1 0 0) (numbers 0 5 0))))
      with (dump_json (state_of (model_copy (made_version 1 0 0) (numbers 0 6 0)))); [reflexivity|].
    apply copied_alike. intros L. exfalso. apply L. reflexivity.
Qed.
