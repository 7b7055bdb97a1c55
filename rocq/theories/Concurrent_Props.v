(** C61: processes that build at the same time over the same files. *)
From Coq Require Import ZArith List Ascii String Bool Arith.
From Verif Require Import Base Str Graph_Model Graph_Spec Backend_Model Executor_Model Executor_Spec Executor_Cases Executor_Cases_Proofs
  Concurrent_Model Concurrent_Proofs Concurrent_Spec Concurrent_Independent_Proofs Concurrent_Right_Proofs Concurrent_Cases Concurrent_Cases_Proofs.
Import ListNotations.
Open Scope list_scope.

(** A process without others does what Executor_Model says. *)
Theorem C61_alone : forall V (E : env V) g s, fuel s = None -> finish (graph_build_p E g) s = graph_build E g s.
Proof. intros V E g s F. exact (proj1 (graph_build_alone E g s F)). Qed.
Print Assumptions C61_alone.
Example C61_alone_nonvacuous : match finish (graph_build_p demo g13) ex1 with
  | (s, Ok sn) => map snd (files s) = [$"1"; $"11"; $"1111"] /\ texts s sn "c" = [Some $"1111"] | _ => False end.
Proof. vm_compute. split; reflexivity. Qed.

(** Every run ends, and no process ever waits for another. *)
Theorem C61_ends : forall V (S : system V), Acc (fun S2 S1 => moves S1 S2) S.
Proof. exact moves_end. Qed.
Print Assumptions C61_ends.
Theorem C61_no_waiting : forall V (S : system V) i P, nth_error (running S) i = Some P -> through P \/
  exists S' P', moves S S' /\ nth_error (running S') i = Some P' /\ forall j, j <> i -> nth_error (running S') j = nth_error (running S) j.
Proof. exact moves_on. Qed.
Print Assumptions C61_no_waiting.
(** The first process stands still halfway, the second goes on to its end. *)
Example C61_no_waiting_nonvacuous : outcomes (schedule [(0, 15)] (twice strict)) = [None; None] /\
  outcomes (schedule [(0, 15); (1, 40)] (twice strict)) = [None; Some (Err ValueError)].
Proof. vm_compute. split; reflexivity. Qed.

(** Processes that do not write where others read or write end as if they had been alone: with the
    same result, the same backend, the same calls and the same data. *)
Theorem C61_independent : forall V (jobs : list (env V * graph_def)) fs, proper jobs -> independent jobs ->
  forall S i E g P r, evolves (started fs jobs) S -> nth_error jobs i = Some (E, g) -> nth_error (running S) i = Some P -> rest P = Done r ->
  exists s', graph_build E g (State fs empty_backend [] None) = (s', r) /\ own_db P = db s' /\ own_log P = log s' /\
    forall l, uses g (fst (fst l)) -> dget location_eqb (shared S) l = dget location_eqb (files s') l.
Proof. exact (fun V jobs fs => independent_ends jobs fs). Qed.
Print Assumptions C61_independent.
Example C61_independent_nonvacuous : proper strangers /\ independent strangers /\ apart = started files13 strangers /\
  let S := schedule [(0, 15); (1, 16); (0, 2); (1, 100); (0, 100)] apart in evolves apart S /\
  map (fun o => match o with Some (Ok _) => true | _ => false end) (outcomes S) = [true; true] /\
  contents S = [($"a", $"1"); ($"b", $"11"); ($"z", $"11"); ($"c", $"1111")].
Proof.
  split; [exact strangers_proper|]. split; [exact strangers_independent|]. split; [reflexivity|]. cbn zeta. split; [apply schedule_evolves|].
  vm_compute. split; reflexivity.
Qed.

(** Processes that may write the same files: whatever the interleaving, a file is right, or it is
    empty and some process is about to write it. *)
Theorem C61_right_partial : forall V (jobs : list (env V * graph_def)) fs (R : location -> str -> Prop), orderly jobs ->
  (forall l d, dget location_eqb fs l = Some d -> R l d) -> (forall E g, In (E, g) jobs -> closed R E g) ->
  forall S, evolves (started fs jobs) S -> forall l d, dget location_eqb (shared S) l = Some d ->
  R l d \/ (d = [] /\ exists P, In P (running S) /\ halfway l P).
Proof. exact (fun V jobs fs R => right_always jobs fs R). Qed.
Print Assumptions C61_right_partial.
(** When all are through, every file is right and so is what each process has recorded. *)
Theorem C61_right_end_partial : forall V (jobs : list (env V * graph_def)) fs (R : location -> str -> Prop), orderly jobs ->
  (forall l d, dget location_eqb fs l = Some d -> R l d) -> (forall E g, In (E, g) jobs -> closed R E g) ->
  forall S, evolves (started fs jobs) S -> (forall P, In P (running S) -> through P) -> forall l d, dget location_eqb (shared S) l = Some d -> R l d.
Proof. exact right_end. Qed.
Print Assumptions C61_right_end_partial.
Theorem C61_recorded_partial : forall V (jobs : list (env V * graph_def)) fs (R : location -> str -> Prop), orderly jobs ->
  (forall l d, dget location_eqb fs l = Some d -> R l d) -> (forall E g, In (E, g) jobs -> closed R E g) ->
  forall S i E g P sn key a x, evolves (started fs jobs) S -> (forall P, In P (running S) -> through P) ->
  nth_error jobs i = Some (E, g) -> nth_error (running S) i = Some P -> last_key (g_arts g) a key -> st_kind (a_storage a) = SFile ->
  In x (snd (read_snapshot_partitions (own_db P) sn key)) ->
  pt_storage (ps_part x) = a_storage a /\
  exists d, dget location_eqb (shared S) (st_id (a_storage a), ps_key x, ps_fp x) = Some d /\ R (st_id (a_storage a), ps_key x, ps_fp x) d.
Proof. exact right_recorded. Qed.
Print Assumptions C61_recorded_partial.
(** If there is only one right text for each file, any two complete runs agree on what they both
    have. *)
Theorem C61_agree_partial : forall V (jobs : list (env V * graph_def)) fs (R : location -> str -> Prop), orderly jobs ->
  (forall l d, dget location_eqb fs l = Some d -> R l d) -> (forall E g, In (E, g) jobs -> closed R E g) -> (forall l d d', R l d -> R l d' -> d = d') ->
  forall S1 S2, evolves (started fs jobs) S1 -> evolves (started fs jobs) S2 -> (forall P, In P (running S1) \/ In P (running S2) -> through P) ->
  forall l d1 d2, dget location_eqb (shared S1) l = Some d1 -> dget location_eqb (shared S2) l = Some d2 -> d1 = d2.
Proof. exact right_agree. Qed.
Print Assumptions C61_agree_partial.
Example C61_right_nonvacuous : orderly twins /\ (forall l d, dget location_eqb files13 l = Some d -> truth13 l d) /\
  (forall E g, In (E, g) twins -> closed truth13 E g) /\ (forall l d d', truth13 l d -> truth13 l d' -> d = d') /\ twice strict = started files13 twins /\
  let S := schedule [(0, 15); (1, 12)] (twice strict) in let S' := schedule [(0, 15); (1, 12); (0, 1); (1, 100); (0, 100)] (twice strict) in
  evolves (twice strict) S /\ contents S = [($"a", $"1"); ($"b", [])] /\
  evolves (twice strict) S' /\ (forall P, In P (running S') -> through P) /\ contents S' = [($"a", $"1"); ($"b", $"11"); ($"c", $"1111"); ($"c", $"1111")].
Proof.
  split; [exact twins_orderly|]. split; [exact truth13_start|]. split; [intros E g [Q|[Q|[]]]; injection Q as <- <-; exact truth13_closed|].
  split; [exact truth13_one|]. split; [reflexivity|]. cbn zeta. split; [apply schedule_evolves|]. split; [vm_compute; reflexivity|]. split.
  - apply schedule_evolves.
  - split; [apply all_through; vm_compute; reflexivity|vm_compute; reflexivity].
Qed.

(** But a process may fail that would not fail alone: it takes a file for built that another has
    just opened, and reads it while it is empty. *)
Theorem C61_fails_refuted : exists S, evolves (twice strict) S /\ nth_error (outcomes S) 1 = Some (Some (Err ValueError)) /\
  match graph_build strict g13 (State files13 empty_backend [] None) with (_, Ok _) => True | _ => False end.
Proof. exists (schedule [(0, 15); (1, 100)] (twice strict)). split; [apply schedule_evolves|]. vm_compute. split; reflexivity. Qed.
Print Assumptions C61_fails_refuted.
(** It may also end well with an empty file linked to its snapshot, which stays so if the other is
    killed. *)
Theorem C61_half_written_refuted : exists S, evolves (started files13 [(strict, g1); (strict, g1)]) S /\
  match nth_error (outcomes S) 1 with Some (Some (Ok _)) => True | _ => False end /\ noted strict S 1 "b" = [(Some [], true)].
Proof.
  exists (schedule [(0, 15); (1, 100)] (started files13 [(strict, g1); (strict, g1)])). split; [apply schedule_evolves|]. vm_compute. split; reflexivity.
Qed.
Print Assumptions C61_half_written_refuted.
(** All may end well, and yet a process has recorded the fingerprint of the empty file; what it
    builds from it is stored apart from what the other builds from the same data. *)
Theorem C61_stale_refuted : exists S, evolves (twice strict) S /\
  map (fun o => match o with Some (Ok _) => true | _ => false end) (outcomes S) = [true; true] /\
  noted strict S 0 "b" = [(Some $"11", true)] /\ noted strict S 1 "b" = [(Some $"11", false)] /\
  contents S = [($"a", $"1"); ($"b", $"11"); ($"c", $"1111"); ($"c", $"1111")].
Proof.
  exists (schedule [(0, 15); (1, 12); (0, 1); (1, 100); (0, 100)] (twice strict)). split; [apply schedule_evolves|]. vm_compute. repeat split; reflexivity.
Qed.
Print Assumptions C61_stale_refuted.
(** With a format that reads an empty file as data, wrong data is stored and stays: two complete
    runs differ in the same file. *)
Theorem C61_lenient_refuted : exists S1 S2 l, evolves (twice demo) S1 /\ evolves (twice demo) S2 /\
  (forall P, In P (running S1) \/ In P (running S2) -> exists sn, rest P = Done (Ok sn)) /\
  dget location_eqb (shared S1) l = Some [] /\ dget location_eqb (shared S2) l = Some $"1111".
Proof.
  exists (schedule [(0, 15); (1, 100); (0, 100)] (twice demo)), (schedule [(0, 15); (1, 12); (0, 1); (1, 100); (0, 100)] (twice demo)).
  exists (nth 2 (map fst (shared (schedule [(0, 15); (1, 100); (0, 100)] (twice demo)))) ([], [], None)).
  split; [apply schedule_evolves|]. split; [apply schedule_evolves|]. split; [|vm_compute; split; reflexivity].
  intros P [I|I]; revert P I; apply all_well; vm_compute; reflexivity.
Qed.
Print Assumptions C61_lenient_refuted.
