(** C22 to C24: model serialization, fingerprints and versions. *)
From Coq Require Import ZArith List Ascii String Bool Permutation Sorted Lia.
From Verif Require Import Base Str Models_Model Models_Spec Models_Proofs.
Import ListNotations.
Open Scope list_scope.

(** C22. Two models have the same serialized text exactly when their classes have the same
    name and they show the same serialized values under the same fingerprinted fields. *)
Theorem C22_content : forall c1 f1 v1 c2 f2 v2, instance c1 f1 v1 -> instance c2 f2 v2 ->
  (dump_json v1 = dump_json v2 <->
   c_name c1 = c_name c2 /\ forall n j, shows c1 f1 n j <-> shows c2 f2 n j).
Proof. exact model_content. Qed.
Print Assumptions C22_content.

(** C22. The text determines the JSON tree, for every value. *)
Theorem C22_text : forall v w, dump_json v = dump_json w <-> serialize v = serialize w.
Proof. exact dump_iff. Qed.
Print Assumptions C22_text.

(** C22. Values without models and sets can be read back from their text. *)
Theorem C22_values : forall v w, simple v -> simple w -> (dump_json v = dump_json w <-> v = w).
Proof. exact simple_content. Qed.
Print Assumptions C22_values.

(** C22. Excluded and skipped fields do not matter. *)
Theorem C22_skipped : forall c f g v w, instance c f v -> instance c g w ->
  (forall n x, fingerprinted c n -> (In (n, x) f <-> In (n, x) g)) ->
  (c_kind c = SemVer -> fingerprinted c $"major") -> dump_json v = dump_json w.
Proof. exact skipped_irrelevant. Qed.
Print Assumptions C22_skipped.

(** C22. The order of the declarations does not matter. *)
Theorem C22_declaration_order : forall c d f g v w, instance c f v -> instance d g w ->
  c_name c = c_name d -> c_kind c = c_kind d -> Permutation (c_decls c) (c_decls d) -> Permutation f g ->
  dump_json v = dump_json w.
Proof. exact order_irrelevant. Qed.
Print Assumptions C22_declaration_order.

Definition plain_decl (n : str) : decl := {| d_name := n; d_exclude := false; d_skips := [] |}.
Definition type_class : class :=
  {| c_name := $"Struct"; c_abstract := false; c_kind := Plain;
     c_decls := [plain_decl $"name"; {| d_name := $"description"; d_exclude := false; d_skips := [true] |};
                 {| d_name := $"backend"; d_exclude := true; d_skips := [] |}; plain_decl $"fields"] |}.
Lemma type_class_ok : class_ok type_class.
Proof. repeat split; [|cbn; intuition discriminate|repeat constructor]. repeat constructor; cbn; intuition discriminate. Qed.
Example C22_instance :
  let f d := [($"name", VStr $"a""b"); ($"description", d); ($"backend", VNone); ($"fields", VMap [($"x", VInt 1)])] in
  let t := $"{""_arti_type_"":""Struct"",""fields"":{""x"":1},""name"":""a\""b""}" in
  exists v w, instance type_class (f VNone) v /\ instance type_class (f (VStr $"text")) w /\
    dump_json v = t /\ dump_json w = t.
Proof.
  cbv zeta. eexists; eexists. repeat split; try apply type_class_ok; try (cbn; reflexivity); vm_compute; reflexivity.
Qed.

(** C23 refuted. Models that compare equal: a field holds the same mapping filled in another
    order, the same set iterated in another order, or [True] and [1] ... *)
Definition holder : class :=
  {| c_name := $"Holder"; c_abstract := false; c_kind := Plain; c_decls := [plain_decl $"x"] |}.
Theorem C23_equal_models_refuted :
  let hold x := VModel holder [$"_arti_type_"; $"x"] [($"x", x)] in
  let differs x y := instantiate holder [($"x", x)] = Ok (hold x) /\ instantiate holder [($"x", y)] = Ok (hold y) /\
    py_eq true (hold x) (hold y) /\ dump_json (hold x) <> dump_json (hold y) /\
    exists farmhash, fingerprint farmhash (hold x) <> fingerprint farmhash (hold y) in
  differs (VMap [($"a", VInt 1); ($"b", VInt 2)]) (VMap [($"b", VInt 2); ($"a", VInt 1)]) /\
  differs (VSet [VInt 1; VInt 2]) (VSet [VInt 2; VInt 1]) /\
  differs (VBool true) (VInt 1).
Proof.
  cbv zeta. split; [|split];
    (split; [vm_compute; reflexivity|split; [vm_compute; reflexivity|split; [|split; [vm_compute; discriminate|]]]]).
  - constructor. constructor; [|constructor]. split; [reflexivity|]. eapply eq_map; [apply perm_swap|]. repeat constructor.
  - exists (fun s => Z.of_nat (List.length (filter (Ascii.eqb "b") (firstn 31 (list_ascii_of_string s)))) + 1)%Z.
    vm_compute. discriminate.
  - constructor. constructor; [|constructor]. split; [reflexivity|]. eapply eq_set; [apply perm_swap|]. repeat constructor.
  - exists (fun s => Z.of_nat (List.length (filter (Ascii.eqb "2") (firstn 31 (list_ascii_of_string s)))) + 1)%Z.
    vm_compute. discriminate.
  - constructor. constructor; [|constructor]. split; [reflexivity|]. now apply (eq_bool_int true true).
  - exists (fun s => Z.of_nat (String.length s)). vm_compute. discriminate.
Qed.
Print Assumptions C23_equal_models_refuted.

(** ... and these are the only causes: equal values with mappings in key order, sets of at
    most one element and no mix of booleans and integers have the same fingerprint. *)
Theorem C23_equal_models_partial : forall farmhash v w, py_eq false v w -> ordered v -> ordered w ->
  fingerprint farmhash v = fingerprint farmhash w.
Proof. exact equal_fingerprint. Qed.
Print Assumptions C23_equal_models_partial.

Example C23_instance :
  let v := VModel holder [$"_arti_type_"; $"x"] [($"x", VMap [($"a", VInt 1); ($"b", VTuple [VBool true; VNone])])] in
  py_eq false v v /\ ordered v.
Proof.
  cbv zeta. split.
  - constructor. constructor; [|constructor]. split; [reflexivity|]. eapply eq_map; [reflexivity|]. repeat constructor.
  - constructor; [vm_compute; reflexivity|]. repeat constructor; cbn; congruence.
Qed.

(** C24. Two versions serialize alike exactly when their major numbers agree and, unless that
    number is above 0, the others agree as well. For SemVer and every subclass without
    further fingerprinted fields ... *)
Theorem C24_semver : forall c a b p x y z u w, version_class c -> version c a b p u -> version c x y z w ->
  (dump_json u = dump_json w <-> a = x /\ ((a <= 0)%Z -> b = y /\ p = z)).
Proof. exact versions. Qed.
Print Assumptions C24_semver.

(** ... and a subclass with such a field cannot be instantiated. *)
Theorem C24_subclass : forall c n fields, class_ok c -> c_abstract c = false -> c_kind c = SemVer -> fingerprinted c n ->
  ~ In n [$"major"; $"minor"; $"patch"] -> instantiate c fields = Err NotImplementedError.
Proof. exact version_extra. Qed.
Print Assumptions C24_subclass.

Definition semver_class : class :=
  {| c_name := $"SemVer"; c_abstract := false; c_kind := SemVer; c_decls := map plain_decl [$"major"; $"minor"; $"patch"] |}.
Lemma semver_class_ok : class_ok semver_class.
Proof. repeat split; [|cbn; intuition discriminate|repeat constructor]. repeat constructor; cbn; intuition discriminate. Qed.
Example C24_instance : version_class semver_class /\ forall a b p, exists v, version semver_class a b p v.
Proof.
  split.
  - split; [reflexivity|]. intro n. unfold fingerprinted. split.
    + intros (d & Hd & <- & _). cbn in Hd. destruct Hd as [<-|[<-|[<-|[]]]]; cbn; tauto.
    + intro H. exists (plain_decl n). repeat split; try (cbn; tauto). cbn [In] in H.
      destruct H as [<-|[<-|[<-|[]]]]; cbn [semver_class c_decls map In]; tauto.
  - intros a b p. eexists. exists [($"major", VInt a); ($"minor", VInt b); ($"patch", VInt p)].
    split; [|cbn; tauto]. split; [apply semver_class_ok|]. split; [reflexivity|].
    unfold instantiate. cbn [semver_class c_abstract]. unfold instance_fp_fields.
    replace (class_fp_fields semver_class) with (Ok [$"_arti_type_"; $"major"; $"minor"; $"patch"]) by (vm_compute; reflexivity).
    reflexivity.
Qed.
