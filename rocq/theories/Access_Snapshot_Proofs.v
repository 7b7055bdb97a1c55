From Coq Require Import ZArith List Ascii String Bool Arith.
From Verif Require Import Base Str Graph_Model Backend_Model Executor_Model Executor_Spec.
From Verif Require Import Access_Model Access_Spec Access_Proofs.
Import ListNotations.
Open Scope list_scope.

Theorem snapshot_reads : forall V W N (E : env V) (X : views V W N), iterates E -> forall sn a w s s' r, fuel s = None -> In a (map snd (g_arts (s_graph sn))) ->
  snapshot_read E X sn a None (Some w) None s = (s', r) ->
  files s' = files s /\ (forall sn' k y, linked s' sn' k y <-> linked s sn' k y) /\ (forall t y, recorded s' t y <-> recorded s t y) /\
  exists key, last_key (g_arts (s_graph sn)) a key /\ ((forall y, ~ linked s sn key y) -> r = Err FileNotFoundError) /\
    forall v, r = Ok v -> exists parts, (forall y, In y parts <-> linked s sn key y) /\ gives X s w a parts v.
Proof. intros V W N E X IT sn a w s s' r. exact (read_linked E X IT (s_graph sn) a w sn s s' r). Qed.
Theorem snapshot_writes : forall V W N (E : env V) (X : views V W N) sn v a f k view s s' x, fuel s = None ->
  snapshot_write E X sn v a f k view s = (s', Ok x) -> a_output a <> None /\
  exists w d key, last_key (g_arts (s_graph sn)) a key /\ writes_with X v a view w /\ encode X w a v = Ok d /\ well_addressed a f k /\
    pt_storage (ps_part x) = a_storage a /\ ps_key x = k /\ ps_fp x = f /\ holds_data s' x d /\
    (forall l, l <> place a f k -> dget location_eqb (files s') l = dget location_eqb (files s) l) /\
    (forall t y, recorded s' t y <-> recorded s t y \/ (t = a_storage a /\ y = x)) /\
    (forall sn' key' y, linked s' sn' key' y <-> linked s sn' key' y \/ (sn' = sn /\ key' = key /\ y = x)).
Proof.
  intros V W N E X sn v a f k view s s' x F H.
  destruct (write_ok E X (s_graph sn) v a f k view (Some sn) s s' x F H) as (w & d & key & H1 & H2 & H3 & H4 & H5 & H6 & H7 & H8 & H9 & H10 & H11 & H12).
  split; [now apply H5|]. exists w, d, key. repeat (split; [assumption|]). intros sn' key' y. rewrite H12. intuition congruence.
Qed.
