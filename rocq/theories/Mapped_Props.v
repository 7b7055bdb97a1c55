(** What is read after a build is what the functions compute: producers with a [map] (C64). *)
From Coq Require Import ZArith List Ascii String Bool Arith Permutation.
From Verif Require Import Base Str Graph_Model Graph_Spec Backend_Model Executor_Model Executor_Spec Executor_Cases Executor_Cases_Proofs.
From Verif Require Import Executor_Tidy_Proofs Json_Model Json_Spec Json_Cases Json_Cases_Proofs Access_Model Access_Cases.
From Verif Require Import Whole_Model Whole_Spec Whole_Cases Whole_Cases_Proofs Mapped_Spec Mapped_Proofs Mapped_Order_Proofs Mapped_Cases Mapped_Cases_Proofs.
Import ListNotations.
Open Scope list_scope.

(** Producers may have a [map] that goes by the keys of the partitions, and artifacts several
    partitions. The graph is built where nothing has been built. Then each produced artifact has a
    table: the partitions its producer's [map] asks for, each with what the functions compute from
    the partitions chosen for it, one from the other, down to the raw data. What is read, from the
    snapshot or now, are the rows of the table joined. *)
Theorem C64_mapped : forall V W N (E : env V) (X : views V W N) K J, iterates E -> iterates_once E -> forall g s s' sn w,
  in_order E (g_arts g) -> by_keys E K (g_arts g) -> joins E J -> distinct_paths (g_arts g) -> no_gaps (g_arts g) -> templated (g_arts g) -> rows_survive E K J s (g_arts g) ->
  unbuilt (g_arts g) s -> graph_build E g s = (s', Ok sn) ->
  forall p i a, produces (g_arts g) p i a -> (forall ds, decode X w a ds = load E a ds) ->
  exists T, table E K J s a T /\ NoDup (map fst T) /\ (forall k r, In (k, r) T -> exists v, r = Ok v) /\
    snd (read E X g a None (Some w) (Some sn) None s') = joined J a T /\
    (NoDup (map fst (files s)) -> snd (read E X g a None (Some w) None None s') = joined J a T).
Proof. exact mapped_computed. Qed.
Print Assumptions C64_mapped.
(** To each partition of a a "!" is appended; both together are doubled. *)
Example C64_mapped_nonvacuous :
  iterates tidy /\ iterates_once tidy /\ in_order tidy (g_arts g14) /\ by_keys tidy keys14 (g_arts g14) /\ joins tidy glue /\ distinct_paths (g_arts g14) /\
  no_gaps (g_arts g14) /\ templated (g_arts g14) /\ rows_survive tidy keys14 glue start14 (g_arts g14) /\ unbuilt (g_arts g14) start14 /\
  (exists s', graph_build tidy g14 start14 = (s', Ok sn14) /\ snd (read tidy plain g14 b14 None (Some 0) (Some sn14) None s') = Ok $"x!y!" /\
    snd (read tidy plain g14 c14 None (Some 0) (Some sn14) None s') = Ok $"x!y!x!y!") /\
  produces (g_arts g14) each 0 b14 /\ produces (g_arts g14) double14 0 c14 /\ (forall a ds, decode plain 0 a ds = load tidy a ds) /\
  table tidy keys14 glue start14 b14 [($"1", Ok $"x!"); ($"2", Ok $"y!")] /\ table tidy keys14 glue start14 c14 [([], Ok $"x!y!x!y!")] /\
  NoDup (map fst (files start14)).
Proof.
  split; [exact tidy_iterates|]. split; [exact paper_iterates_once|]. split; [exact g14_in_order|]. split; [exact g14_by_keys|]. split; [exact tidy_glues|].
  split; [exact g14_distinct|]. split; [exact g14_no_gaps|]. split; [exact g14_templated|]. split; [apply tidy_rows|]. split; [exact g14_unbuilt|].
  split; [eexists; split; [vm_compute; reflexivity|split; vm_compute; reflexivity]|].
  split; [exists $"b"; split; [right; now left|reflexivity]|]. split; [exists $"c"; split; [right; right; now left|reflexivity]|]. split; [reflexivity|].
  split; [exact b14_table|]. split; [exact c14_table|]. repeat constructor; cbn; intuition discriminate.
Qed.
(** If the maps do not depend on the order of the partitions, an artifact has one table at most, up
    to the order of its rows. *)
Theorem C64_one_table : forall V (E : env V) K J s, orderly K -> forall a T T', table E K J s a T -> table E K J s a T' -> Permutation T T'.
Proof. exact one_table. Qed.
Print Assumptions C64_one_table.
Example C64_one_table_nonvacuous : orderly (fun _ => each_keys) /\
  table counter (fun _ => each_keys) json_join ex21 b21 [($"1", Ok (VList [VInt 1])); ($"2", Ok (VList [VInt 3]))].
Proof. split; [exact each_orderly|exact b21_table]. Qed.
(** The default [map] is one that goes by the keys. *)
Theorem C64_default_map : forall V (E : env V) g, whole E g -> by_keys E (fun _ => default_keys) g.
Proof. exact whole_by_keys. Qed.
Print Assumptions C64_default_map.
Example C64_default_map_nonvacuous : whole demo (g_arts g3).
Proof. exact g3_whole. Qed.
(** Artifacts that are stored as JSON, a partitioned artifact as one list per partition: reading all
    of it gives the lists one after the other. *)
Theorem C64_mapped_json : forall fl (E : env (Json_Model.value fl)), float_laws fl -> stores_json E -> iterates E -> iterates_once E ->
  forall W N (X : views (Json_Model.value fl) W N) K g s s' sn w,
  in_order E (g_arts g) -> by_keys E K (g_arts g) -> distinct_paths (g_arts g) -> no_gaps (g_arts g) -> templated (g_arts g) ->
  rows_json E K s (g_arts g) -> unbuilt (g_arts g) s -> graph_build E g s = (s', Ok sn) ->
  forall p i a, produces (g_arts g) p i a -> (forall ds, decode X w a ds = json_load a ds) ->
  exists T, table E K json_join s a T /\ NoDup (map fst T) /\ snd (read E X g a None (Some w) (Some sn) None s') = joined json_join a T.
Proof. exact mapped_json. Qed.
Print Assumptions C64_mapped_json.
(** The lengths of [7] and of [7, [], 8]. *)
Example C64_mapped_json_nonvacuous :
  float_laws halves /\ stores_json counter /\ iterates counter /\ iterates_once counter /\ in_order counter (g_arts g2) /\ by_keys counter (fun _ => each_keys) (g_arts g2) /\
  distinct_paths (g_arts g2) /\ no_gaps (g_arts g2) /\ templated (g_arts g2) /\ rows_json counter (fun _ => each_keys) ex21 (g_arts g2) /\ unbuilt (g_arts g2) ex21 /\
  (exists s' sn, graph_build counter g2 ex21 = (s', Ok sn) /\
    snd (read counter look g2 b21 None (Some tt) (Some sn) None s') = Ok (VList [VInt 1; VInt 3])) /\
  joined json_join b21 [($"1", Ok (VList [VInt 1] : obj)); ($"2", Ok (VList [VInt 3]))] = Ok (VList [VInt 1; VInt 3]).
Proof.
  split; [exact halves_laws|]. split; [exact counter_json|]. split; [exact tidy_iterates|]. split; [exact paper_iterates_once|]. split; [exact g2_in_order_counter|].
  split; [exact g2_by_keys|]. split; [exact g2_distinct'|]. split; [exact g2_no_gaps'|]. split; [exact g2_templated'|]. split; [exact counter_rows|]. split; [exact g2_unbuilt|].
  split; [|reflexivity]. assert (H := read21_done). unfold read21 in H. destruct (graph_build counter g2 ex21) as [s [sn|e]]; [|discriminate]. exists s, sn. split; [reflexivity|exact H].
Qed.
