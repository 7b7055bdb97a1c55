(** Snapshots of partitions in a bucket. *)
From Coq Require Import ZArith List Ascii String Bool.
From Verif Require Import Base Str Partitions_Model Partitions_Spec Format_Model Template_Spec Storage_Model Paths_Spec
  Discovery_Proofs Layout_Proofs Gcs_Model Gcs_Spec Gcs_Proofs.
Import ListNotations.
Open Scope list_scope.

Theorem snapshots : forall other content from_string (info : content -> object_info) objects bucket path kts fp key p,
  generate_partition other (gcs_file bucket path kts) fp key = Ok p ->
  exists b o, p_fields p = [($"bucket", Some b); ($"path", Some o)] /\
    (forall c h, dget str_eqb objects (b ++ $"/" ++ o) = Some c -> known_by (info c) h ->
       gcs_snapshot from_string info objects p = Ok (from_string h, p)) /\
    (dget str_eqb objects (b ++ $"/" ++ o) = None -> gcs_snapshot from_string info objects p = Err FileNotFoundError).
Proof.
  intros other content from_string info objects bucket path kts fp key p G.
  destruct (gcs_inv other _ _ _ _ _ _ G) as (b & o & _ & _ & _ & _ & F & Q). exists b, o. split; [exact F|].
  unfold gcs_snapshot. rewrite Q. cbn [bind]. split.
  - intros c h D K. rewrite D. unfold object_fp. destruct K as [h M|M]; rewrite M; reflexivity.
  - intros D. rewrite D. reflexivity.
Qed.
