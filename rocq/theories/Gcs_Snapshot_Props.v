(** C60: snapshots of partitions in a bucket. *)
From Coq Require Import ZArith List Ascii String Bool.
From Verif Require Import Base Str Partitions_Model Storage_Model Gcs_Model Gcs_Spec Gcs_Snapshot_Proofs.
Import ListNotations.
Open Scope list_scope.

(** Every generated partition can be asked for its fingerprint: it is that of the md5 hash (or
    crc32c) of its object, or there is no such object. *)
Theorem C60_snapshot : forall other content from_string (info : content -> object_info) objects bucket path kts fp key p,
  generate_partition other (gcs_file bucket path kts) fp key = Ok p ->
  exists b o, p_fields p = [($"bucket", Some b); ($"path", Some o)] /\
    (forall c h, dget str_eqb objects (b ++ $"/" ++ o) = Some c -> known_by (info c) h ->
       gcs_snapshot from_string info objects p = Ok (from_string h, p)) /\
    (dget str_eqb objects (b ++ $"/" ++ o) = None -> gcs_snapshot from_string info objects p = Err FileNotFoundError).
Proof. exact snapshots. Qed.
Print Assumptions C60_snapshot.
Example C60_snapshot_nonvacuous : forall other (from_string : str -> Z),
  let info (c : str) := {| md5_hash := match c with [_] => None | _ => Some c end; crc32c := $"crc-" ++ c |} in
  let objects := [($"b/j=7/17.json", $"AA"); ($"b/j=8/17.json", $"B")] in
  let kts := Some [($"j", IntField W64)] in
  let st := gcs_file $"b" $"j={j.value}/{input_fingerprint}.json" kts in
  let at_key n := bind (generate_partition other st (Some 17%Z) [($"j", FInt W64 n)]) (gcs_snapshot from_string info objects) in
  rmap fst (at_key 7%Z) = Ok (from_string $"AA") /\ rmap fst (at_key 8%Z) = Ok (from_string $"crc-B") /\ at_key 9%Z = Err FileNotFoundError.
Proof. intros other from_string. cbv zeta. repeat split; vm_compute; reflexivity. Qed.
