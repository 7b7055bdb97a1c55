(** The classes of the examples can be made. *)
From Coq Require Import ZArith List Ascii String Bool Arith.
From Verif Require Import Base Str Partitions_Model Storage_Model StorageClass_Model StorageClass_Spec StorageClass_Cases.
Import ListNotations.
Open Scope list_scope.

Lemma hint_spec : forall a b, hint_eqb a b = true <-> a = b.
Proof. intros [] []; cbn; split; congruence. Qed.
Lemma suits_any_text : any_text suits.
Proof. intros [] s s'; reflexivity. Qed.

Lemma made_of : forall p b c, partition_class root p ->
  subscript hint_eqb storage_class (ItemClass p) =
    Ok {| c_model := {| m_fields := []; m_abstract := true; m_missing := true |}; c_item := Some (ItemClass p); c_params := false |} ->
  define_storage hint_eqb [Stores {| c_model := {| m_fields := []; m_abstract := true; m_missing := true |}; c_item := Some (ItemClass p); c_params := false |}] b None = Ok c ->
  storage_made hint_eqb root c.
Proof.
  intros p b c P I D. eapply made_class; [| | |exact D].
  - intros m [E|[]]. discriminate E.
  - intros s [E|[]]. injection E as <-. apply (made_item _ _ storage_class (ItemClass p)); [apply made_storage|exact P|exact I].
  - discriminate.
Qed.
Lemma under_root : forall b, partition_class root (define_model [root] b).
Proof. intro b. apply (part_made root [] root []); [intros x []|apply part_root]. Qed.
Lemma file_made : storage_made hint_eqb root file_class.
Proof. apply (made_of file_partition file_body); [apply under_root|vm_compute; reflexivity|vm_compute; reflexivity]. Qed.
Lemma short_made : storage_made hint_eqb root short_class.
Proof. apply (made_of short_partition file_body); [apply under_root|vm_compute; reflexivity|vm_compute; reflexivity]. Qed.
Lemma other_made : storage_made hint_eqb root other_class.
Proof. apply (made_of other_partition file_body); [apply under_root|vm_compute; reflexivity|vm_compute; reflexivity]. Qed.
Lemma mixin_made : mixin gcs_mixin.
Proof. apply made_model. intros m [<-|[]]. apply made_given. Qed.
Lemma gcs_part : partition_class root gcs_partition.
Proof. apply (part_made root [gcs_mixin] root []); [intros x [<-|[]]; left; apply mixin_made|apply part_root]. Qed.
Lemma gcs_made : storage_made hint_eqb root gcs_class.
Proof.
  eapply (made_class _ _ [Mixin gcs_mixin; Stores gcs_item] file_body None).
  - intros m [E|[E|[]]]; [injection E as <-; apply mixin_made|discriminate E].
  - intros s [E|[E|[]]]; [discriminate E|]. injection E as <-. apply (made_item _ _ storage_class (ItemClass gcs_partition)); [apply made_storage|apply gcs_part|vm_compute; reflexivity].
  - discriminate.
  - vm_compute. reflexivity.
Qed.
Lemma loose_made : storage_made hint_eqb root loose_class.
Proof.
  eapply (made_class _ _ [Stores storage_class] file_body None); [| | |vm_compute; reflexivity].
  - intros m [E|[]]. discriminate E.
  - intros s [E|[]]. injection E as <-. apply made_storage.
  - discriminate.
Qed.
Lemma generic_made : storage_made hint_eqb root generic_class.
Proof.
  eapply (made_class _ _ [Stores var_item] (Body [] (Some true) false) None); [| | |vm_compute; reflexivity].
  - intros m [E|[]]. discriminate E.
  - intros s [E|[]]. injection E as <-. apply (made_item _ _ storage_class ItemVar); [apply made_storage|exact I|vm_compute; reflexivity].
  - discriminate.
Qed.
