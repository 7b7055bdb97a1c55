(** C31: Collections only accept valid partition and cluster fields. *)
From Coq Require Import List Ascii String Bool.
From Verif Require Import Base Str Types_Model Types_Spec Types_Proofs.
Import ListNotations.
Open Scope list_scope.

Definition ex_struct : ty :=
  Struct $"row" [($"day", Scalar Date plain); ($"n", Scalar (Int B64) plain); ($"s", Scalar String plain)] plain.

(** A Collection is created exactly if it is valid, and it holds what it was given. *)
Theorem C31_created : forall name element partition_by cluster_by m x,
  mk_collection name element partition_by cluster_by m = Ok x <->
  valid_collection element partition_by cluster_by /\ x = Collection name element partition_by cluster_by m.
Proof. exact collection_created. Qed.
Print Assumptions C31_created.
Example C31_created_nonvacuous :
  mk_collection anon ex_struct [$"day"] [$"s"] plain = Ok (Collection anon ex_struct [$"day"] [$"s"] plain).
Proof. reflexivity. Qed.

(** Everything else is refused with a ValueError. *)
Theorem C31_refused : forall name element partition_by cluster_by m,
  ~ valid_collection element partition_by cluster_by ->
  mk_collection name element partition_by cluster_by m = Err ValueError.
Proof. exact collection_refused. Qed.
Print Assumptions C31_refused.
Example C31_refused_nonvacuous :
  ~ valid_collection ex_struct [$"day"] [$"n"; $"day"] /\ ~ valid_collection ex_struct [$"hour"] [] /\
  ~ valid_collection (Scalar Date plain) [] [].
Proof.
  repeat split; intros (name & fields & m & E & P & C & D); [|injection E as <- <- <-|discriminate E].
  - apply (D $"day"); cbn; auto.
  - specialize (P $"hour" (or_introl eq_refl)). cbn in P. intuition discriminate.
Qed.

(** The partition and cluster fields of a Collection are those declared on its Struct, whose
    field names are the keys of a dict. *)
Theorem C31_fields : forall name element partition_by cluster_by m x,
  mk_collection name element partition_by cluster_by m = Ok x -> NoDup (map fst (fields_of element)) ->
  (exists l, partition_fields x = Ok l /\ declared (fields_of element) partition_by l) /\
  (exists l, cluster_fields x = Ok l /\ declared (fields_of element) cluster_by l).
Proof.
  intros name e p c m x H ND. apply collection_created in H. destruct H as [(sn & fs & sm & -> & P & C & _) ->].
  exact (conj (picked (Struct sn fs sm) p ND P) (picked (Struct sn fs sm) c ND C)).
Qed.
Print Assumptions C31_fields.
(** A name may be repeated: the field is there once. *)
Example C31_fields_nonvacuous :
  let x := Collection anon ex_struct [$"n"; $"day"; $"n"] [$"s"] plain in
  mk_collection anon ex_struct [$"n"; $"day"; $"n"] [$"s"] plain = Ok x /\
  partition_fields x = Ok [($"n", Scalar (Int B64) plain); ($"day", Scalar Date plain)] /\
  cluster_fields x = Ok [($"s", Scalar String plain)].
Proof. repeat split; reflexivity. Qed.

(** A type is partitioned exactly if it is a Collection with partition fields. *)
Theorem C31_partitioned : forall name element partition_by cluster_by m x,
  mk_collection name element partition_by cluster_by m = Ok x -> NoDup (map fst (fields_of element)) ->
  is_partitioned x = Ok (match partition_by with [] => false | _ => true end).
Proof. exact partitioned_iff. Qed.
Print Assumptions C31_partitioned.
Example C31_partitioned_nonvacuous :
  is_partitioned (Collection anon ex_struct [$"day"] [] plain) = Ok true /\
  is_partitioned (Collection anon ex_struct [] [$"day"] plain) = Ok false.
Proof. split; reflexivity. Qed.

Theorem C31_others_unpartitioned : forall t, (forall name e p c m, t <> Collection name e p c m) -> is_partitioned t = Ok false.
Proof. intros t H. destruct t; try reflexivity. destruct (H _ _ _ _ _ eq_refl). Qed.
Print Assumptions C31_others_unpartitioned.
Example C31_others_unpartitioned_nonvacuous : is_partitioned (List ex_struct plain) = Ok false.
Proof. reflexivity. Qed.
