(** Reading from and writing to a snapshot itself: C62. *)
From Coq Require Import ZArith List Ascii String Bool Arith.
From Verif Require Import Base Str Graph_Model Backend_Model Executor_Model Executor_Spec Executor_Cases.
From Verif Require Import Access_Model Access_Spec Access_Snapshot_Proofs Access_Cases.
Import ListNotations.
Open Scope list_scope.

(** C62. [GraphSnapshot.read] gives the view the partitions linked to that snapshot, for the artifacts of its graph. *)
Theorem C62_snapshot_read : forall V W N (E : env V) (X : views V W N), iterates E -> forall sn a w s s' r, fuel s = None -> In a (map snd (g_arts (s_graph sn))) ->
  snapshot_read E X sn a None (Some w) None s = (s', r) ->
  files s' = files s /\ (forall sn' k y, linked s' sn' k y <-> linked s sn' k y) /\ (forall t y, recorded s' t y <-> recorded s t y) /\
  exists key, last_key (g_arts (s_graph sn)) a key /\ ((forall y, ~ linked s sn key y) -> r = Err FileNotFoundError) /\
    forall v, r = Ok v -> exists parts, (forall y, In y parts <-> linked s sn key y) /\ gives X s w a parts v.
Proof. exact @snapshot_reads. Qed.
Print Assumptions C62_snapshot_read.
(** C62. [GraphSnapshot.write] takes outputs only, and links the partition to that snapshot. *)
Theorem C62_snapshot_write : forall V W N (E : env V) (X : views V W N) sn v a f k view s s' x, fuel s = None ->
  snapshot_write E X sn v a f k view s = (s', Ok x) -> a_output a <> None /\
  exists w d key, last_key (g_arts (s_graph sn)) a key /\ writes_with X v a view w /\ encode X w a v = Ok d /\ well_addressed a f k /\
    pt_storage (ps_part x) = a_storage a /\ ps_key x = k /\ ps_fp x = f /\ holds_data s' x d /\
    (forall l, l <> place a f k -> dget location_eqb (files s') l = dget location_eqb (files s) l) /\
    (forall t y, recorded s' t y <-> recorded s t y \/ (t = a_storage a /\ y = x)) /\
    (forall sn' key' y, linked s' sn' key' y <-> linked s sn' key' y \/ (sn' = sn /\ key' = key /\ y = x)).
Proof. exact @snapshot_writes. Qed.
Print Assumptions C62_snapshot_write.
Example C62_snapshot_nonvacuous : let s := run g1 ex1 in let s' := fst (snapshot_write demo plain sn1 $"new" b1 (Some 5%Z) [] None s) in
  snd (snapshot_read demo plain sn1 b1 None (Some 0) None s) = Ok $"11" /\
  texts s' sn1 "b" = [Some $"11"; Some $"new"] /\ snd (snapshot_write demo plain sn1 $"new" (raw "a") None [] None s) = Err ValueError.
Proof. cbv zeta. repeat split; vm_compute; reflexivity. Qed.
