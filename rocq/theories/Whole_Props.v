(** What is read after a build is what the functions compute (C64). *)
From Coq Require Import ZArith List Ascii String Bool Arith.
From Verif Require Import Base Str Graph_Model Graph_Spec Backend_Model Executor_Model Executor_Spec Executor_Cases Executor_Cases_Proofs.
From Verif Require Import Executor_Tidy_Proofs Json_Model Json_Spec Json_Cases Json_Cases_Proofs Access_Model Access_Cases.
From Verif Require Import Whole_Model Whole_Spec Whole_Proofs Whole_Reused_Proofs Whole_Total_Proofs Whole_Cases Whole_Cases_Proofs.
From Verif Require Types_Model IO_Model Whole_Reader_Proofs.
Import ListNotations.
Open Scope list_scope.

(** * C64: from raw data to what is read *)

(** A graph of producers without a [map] of their own is built where nothing has been built. Then
    each of its produced artifacts has a value: what the functions compute, one from the other,
    from the raw data. It is what is read from the snapshot, and what is read now. *)
Theorem C64_computed : forall V W N (E : env V) (X : views V W N), iterates E -> iterates_once E -> forall g s s' sn w,
  in_order E (g_arts g) -> whole E (g_arts g) -> distinct_paths (g_arts g) -> no_gaps (g_arts g) -> templated (g_arts g) -> survives E s (g_arts g) ->
  unbuilt (g_arts g) s -> graph_build E g s = (s', Ok sn) ->
  forall p i a, produces (g_arts g) p i a -> (forall ds, decode X w a ds = load E a ds) ->
  exists v, value E s a v /\ snd (read E X g a None (Some w) (Some sn) None s') = Ok v /\
    (NoDup (map fst (files s)) -> snd (read E X g a None (Some w) None None s') = Ok v).
Proof. exact computed. Qed.
Print Assumptions C64_computed.
(** "1" is doubled, and 0 and 1 are appended. *)
Example C64_computed_nonvacuous :
  iterates demo /\ iterates_once demo /\ in_order demo (g_arts g3) /\ whole demo (g_arts g3) /\ distinct_paths (g_arts g3) /\ no_gaps (g_arts g3) /\
  templated (g_arts g3) /\ survives demo ex1 (g_arts g3) /\ unbuilt (g_arts g3) ex1 /\
  (exists s', graph_build demo g3 ex1 = (s', Ok sn3) /\ snd (read demo plain g3 (out "d" split2 1) None (Some 0) (Some sn3) None s') = Ok $"111") /\
  produces (g_arts g3) split2 1 (out "d" split2 1) /\ (forall ds, decode plain 0 (out "d" split2 1) ds = load demo (out "d" split2 1) ds) /\
  value demo ex1 (out "d" split2 1) $"111".
Proof.
  split; [exact demo_iterates|]. split; [exact demo_iterates_once|]. split; [exact g3_in_order|]. split; [exact g3_whole|]. split; [exact g3_distinct|].
  split; [exact g3_no_gaps|]. split; [exact g3_templated|]. split; [exact g3_survives|]. split; [exact g3_unbuilt|].
  split; [eexists; split; vm_compute; reflexivity|]. split; [exists $"d"; split; [right; right; right; now left|reflexivity]|]. split; [reflexivity|].
  eapply value_built with (args := [($"x", $"11")]) (vs := [$"110"; $"111"]); [reflexivity|eapply arguments_more; [reflexivity| |eapply arguments_none]|reflexivity|reflexivity].
  eapply value_built with (args := [($"x", $"1")]) (vs := [$"11"]); [reflexivity|eapply arguments_more; [reflexivity| |eapply arguments_none]|reflexivity|reflexivity].
  now apply (file_value _ demo ex1 (raw "a") $"1"); [exact demo_iterates|..].
Qed.
(** Such a build succeeds if, and only if, there is data for each raw artifact and each producer can
    be built from the values of its inputs. Nothing else can fail. *)
Theorem C64_succeeds : forall V (E : env V), iterates E -> iterates_once E -> settled E -> forall g s,
  in_order E (g_arts g) -> whole E (g_arts g) -> distinct_paths (g_arts g) -> no_gaps (g_arts g) -> templated (g_arts g) -> complete E (g_arts g) ->
  survives E s (g_arts g) -> unbuilt (g_arts g) s ->
  ((exists s' sn, graph_build E g s = (s', Ok sn)) <->
   (forall k a, In (k, a) (g_arts g) -> a_output a = None -> exists x, raw_found E s (a_storage a) x) /\
   (forall p i a, produces (g_arts g) p i a -> makes E s (g_arts g) p)).
Proof. exact succeeds. Qed.
Print Assumptions C64_succeeds.
(** With the file of a, and without it. *)
Example C64_succeeds_nonvacuous : iterates tidy /\ iterates_once tidy /\ settled tidy /\ in_order tidy (g_arts g1) /\ whole tidy (g_arts g1) /\
  distinct_paths (g_arts g1) /\ no_gaps (g_arts g1) /\ templated (g_arts g1) /\ complete tidy (g_arts g1) /\
  (forall s, survives tidy s (g_arts g1)) /\ unbuilt (g_arts g1) ex1 /\ unbuilt (g_arts g1) (start []) /\
  (exists s' sn, graph_build tidy g1 ex1 = (s', Ok sn)) /\ makes tidy ex1 (g_arts g1) double /\
  (exists s', graph_build tidy g1 (start []) = (s', Err ValueError)).
Proof.
  split; [exact tidy_iterates|]. split; [exact paper_iterates_once|]. split; [exact tidy_settled|]. split; [exact g1_in_order_tidy|]. split; [exact g1_whole|].
  split; [exact g1_distinct|]. split; [exact g1_no_gaps|]. split; [exact g1_templated|]. split; [exact g1_complete|]. split; [intro s; apply tidy_survives|].
  split; [apply g1_unbuilt; reflexivity|]. split; [apply g1_unbuilt; reflexivity|]. split; [eexists _, _; vm_compute; reflexivity|].
  split; [|eexists; vm_compute; reflexivity].
  exists [($"x", $"1")], [$"11"]. split; [|split; [reflexivity|split; [reflexivity|]]].
  - eapply arguments_more; [reflexivity| |eapply arguments_none].
    eapply (file_value _ tidy); [exact tidy_iterates|reflexivity|reflexivity|reflexivity|reflexivity|reflexivity|vm_compute; reflexivity|reflexivity].
  - intros i a v P N. split; [reflexivity|]. eexists. reflexivity.
Qed.
(** An artifact has one value at most. *)
Theorem C64_one_value : forall V (E : env V) s, settled E -> forall a v v', value E s a v -> value E s a v' -> v = v'.
Proof. exact one_value. Qed.
Print Assumptions C64_one_value.
Example C64_one_value_nonvacuous : settled paper /\ value paper ex20 (raw "a") (VList [VInt 7] : obj).
Proof. split; [exact paper_settled|exact ex20_a]. Qed.

(** Artifacts that are stored as JSON: the functions return None, booleans, numbers, strings, lists
    and dicts from strings. *)
Theorem C64_json : forall fl (E : env (Json_Model.value fl)), float_laws fl -> stores_json E -> iterates E -> iterates_once E ->
  forall W N (X : views (Json_Model.value fl) W N) g s s' sn w,
  in_order E (g_arts g) -> whole E (g_arts g) -> distinct_paths (g_arts g) -> no_gaps (g_arts g) -> templated (g_arts g) ->
  (forall p i a, produces (g_arts g) p i a -> st_partitioned (a_storage a) = false) -> returns_json E s (g_arts g) ->
  unbuilt (g_arts g) s -> graph_build E g s = (s', Ok sn) ->
  forall p i a, produces (g_arts g) p i a -> (forall ds, decode X w a ds = json_load a ds) ->
  exists v, value E s a v /\ snd (read E X g a None (Some w) (Some sn) None s') = Ok v.
Proof. exact computed_json. Qed.
Print Assumptions C64_json.
Example C64_json_nonvacuous :
  float_laws halves /\ stores_json paper /\ iterates paper /\ iterates_once paper /\ in_order paper (g_arts (g20 "list")) /\ whole paper (g_arts (g20 "list")) /\
  distinct_paths (g_arts (g20 "list")) /\ no_gaps (g_arts (g20 "list")) /\ templated (g_arts (g20 "list")) /\
  (forall p i a, produces (g_arts (g20 "list")) p i a -> st_partitioned (a_storage a) = false) /\ returns_json paper ex20 (g_arts (g20 "list")) /\
  unbuilt (g_arts (g20 "list")) ex20 /\
  exists s' sn, graph_build paper (g20 "list") ex20 = (s', Ok sn) /\
    snd (read paper look (g20 "list") (of_a "list") None (Some tt) (Some sn) None s') = Ok (VList pair20).
Proof.
  split; [exact halves_laws|]. split; [exact paper_json|]. split; [exact paper_iterates|]. split; [exact paper_iterates_once|].
  split; [apply g20_in_order; now left|]. split; [apply g20_whole|]. split; [apply g20_distinct|]. split; [apply g20_no_gaps|]. split; [apply g20_templated|].
  split; [apply g20_unpartitioned|]. split; [exact list_returns|]. split; [apply g20_unbuilt|]. exact (read20_done _ _ read20_list).
Qed.
(** [json_load] is what the readers of C47 make of the contents they find. *)
Theorem C64_reader : forall fl (w : IO_Model.world) t (a : artifact) ps ds, Types_Model.is_partitioned t = Ok (st_partitioned (a_storage a)) ->
  Forall2 (fun p d => IO_Model.stored w p = Ok d) ps ds ->
  IO_Model.reader (V := Json_Model.value fl) (fun _ => loads) elements VList w t IO_Model.JSON ps = json_load a ds.
Proof. exact Whole_Reader_Proofs.json_reader. Qed.
Print Assumptions C64_reader.
Example C64_reader_nonvacuous :
  let t := Types_Model.Collection [] (Types_Model.Struct [] [($"k", Types_Model.Scalar Types_Model.Date Types_Model.plain)] Types_Model.plain) [$"k"] [] Types_Model.plain in
  let w := {| IO_Model.local := [($"x", $"[1]"); ($"y", $"[2]")]; IO_Model.gcs := [] |} in
  Types_Model.is_partitioned t = Ok (st_partitioned (a_storage (raw_parts "a"))) /\
  Forall2 (fun p d => IO_Model.stored w p = Ok d) [IO_Model.LocalPart $"y"; IO_Model.LocalPart $"x"] [$"[2]"; $"[1]"] /\
  json_load (raw_parts "a") [$"[2]"; $"[1]"] = Ok (VList [VInt 2; VInt 1] : obj).
Proof. split; [reflexivity|]. split; [repeat constructor|vm_compute; reflexivity]. Qed.
(** A function that returns a tuple: all else holds, but what is read is a list, not the value; and
    that list is what producers further on are given. *)
Theorem C64_tuple_refuted : exists (E : env obj) g s s' sn p a v v',
  stores_json E /\ iterates E /\ iterates_once E /\ settled E /\ in_order E (g_arts g) /\ whole E (g_arts g) /\ distinct_paths (g_arts g) /\
  no_gaps (g_arts g) /\ templated (g_arts g) /\ unbuilt (g_arts g) s /\ graph_build E g s = (s', Ok sn) /\ produces (g_arts g) p 0 a /\
  value E s a v /\ snd (read E look g a None (Some tt) (Some sn) None s') = Ok v' /\ v <> v'.
Proof.
  destruct (read20_done _ _ read20_pair) as (s' & sn & D & R).
  exists paper, (g20 "pair"), ex20, s', sn, (of_x "pair" (raw "a")), (of_a "pair"), (VTuple pair20), (VList pair20).
  split; [exact paper_json|]. split; [exact paper_iterates|]. split; [exact paper_iterates_once|]. split; [exact paper_settled|].
  split; [apply g20_in_order; right; now left|]. split; [apply g20_whole|]. split; [apply g20_distinct|]. split; [apply g20_no_gaps|]. split; [apply g20_templated|].
  split; [apply g20_unbuilt|]. split; [exact D|]. split; [exists $"b"; split; [right; now left|reflexivity]|].
  split; [|split; [exact R|discriminate]].
  eapply value_built with (args := [($"x", VList [VInt 7] : obj)]) (vs := [VTuple pair20]); [reflexivity|eapply arguments_more; [reflexivity|exact ex20_a|eapply arguments_none]|reflexivity|reflexivity].
Qed.
Print Assumptions C64_tuple_refuted.
(** Where something has been built: after any history in which requests for the same partition and
    fingerprint agree (C42), a new snapshot is built, and whatever is built or reused on the way,
    what is read is the value, from what the raw data is now. *)
Theorem C64_reused_partial : forall V W N (E : env V) (X : views V W N), iterates E -> iterates_once E -> settled E -> writable E -> forall R, agree E R ->
  forall g s s1 s' sn w, in_order E (g_arts g) -> whole E (g_arts g) -> distinct_paths (g_arts g) -> no_gaps (g_arts g) -> templated (g_arts g) ->
  history E R s -> (forall key x, ~ linked s sn key x) -> from_graph E g s = (s1, Ok sn) -> all_or_none s1 (g_arts g) -> build E sn s1 = (s', Ok tt) -> covers E R sn s1 s' ->
  kept_exactly E s (g_arts g) ->
  forall p i a v, produces (g_arts g) p i a -> (forall ds, decode X w a ds = load E a ds) -> value E s a v ->
  snd (read E X g a None (Some w) (Some sn) None s') = Ok v.
Proof. exact reused. Qed.
Print Assumptions C64_reused_partial.
(** With "1", a new process with "2", and a new one with "1" again: b is not built but found, and read. *)
Example C64_reused_nonvacuous : let s := told3_tidy in let s1 := fst (snap_tidy g1 s) in let sn := snd (snap_tidy g1 s) in let s' := run_tidy g1 s in
  iterates tidy /\ iterates_once tidy /\ settled tidy /\ writable tidy /\ agree tidy ask_double /\ in_order tidy (g_arts g1) /\ whole tidy (g_arts g1) /\
  distinct_paths (g_arts g1) /\ no_gaps (g_arts g1) /\ templated (g_arts g1) /\ history tidy ask_double s /\ (forall key x, ~ linked s sn key x) /\
  from_graph tidy g1 s = (s1, Ok sn) /\ all_or_none s1 (g_arts g1) /\ build tidy sn s1 = (s', Ok tt) /\ covers tidy ask_double sn s1 s' /\ kept_exactly tidy s (g_arts g1) /\
  value tidy s b1 $"11" /\ log s' = log s1 /\ List.length (log s) = 6 /\ snd (read tidy plain g1 b1 None (Some 0) (Some sn) None s') = Ok $"11".
Proof.
  cbn zeta. split; [exact tidy_iterates|]. split; [exact paper_iterates_once|]. split; [exact tidy_settled|]. split; [exact tidy_writable|].
  split; [exact ask_double_agree_tidy|]. split; [exact g1_in_order_tidy|]. split; [exact g1_whole|]. split; [exact g1_distinct|]. split; [exact g1_no_gaps|].
  split; [exact g1_templated|]. split; [exact told3_history_tidy|]. split; [apply restart_new|]. split; [vm_compute; reflexivity|]. split; [apply g1_all_or_none|].
  split; [vm_compute; reflexivity|]. split; [exact told_covers|]. split; [apply tidy_kept_exactly|].
  split; [|split; [vm_compute; reflexivity|split; vm_compute; reflexivity]].
  eapply value_built with (args := [($"x", $"1")]) (vs := [$"11"]); [reflexivity|eapply arguments_more; [reflexivity| |eapply arguments_none]|reflexivity|reflexivity].
  eapply (file_value _ tidy); [exact tidy_iterates|reflexivity|reflexivity|reflexivity|reflexivity|reflexivity|vm_compute; reflexivity|reflexivity].
Qed.
(** Where requests do not agree, a build can succeed although what is read is not the value: the
    contents of two files have been exchanged. *)
Theorem C64_exchanged_refuted : exists s s' sn, arises demo s /\ graph_build demo g4 s = (s', Ok sn) /\
  value demo s c4 $"21" /\ snd (read demo plain g4 c4 None (Some 0) (Some sn) None s') = Ok $"12".
Proof.
  exists (with_raw (run g4 (start [file "x" "" "1"; file "y" "" "2"])) [file "x" "" "2"; file "y" "" "1"]). eexists _, _.
  split; [eapply arises_then; [|apply raw_happens]; apply arises_run, arises_start|]. split; [vm_compute; reflexivity|]. split; [|vm_compute; reflexivity].
  eapply value_built with (args := [($"x", $"2"); ($"y", $"1")]) (vs := [$"21"]); [reflexivity| |reflexivity|reflexivity].
  eapply arguments_more; [reflexivity| |eapply arguments_more; [reflexivity| |eapply arguments_none]];
    (eapply (file_value _ demo); [exact demo_iterates|reflexivity|reflexivity|reflexivity|reflexivity|reflexivity|vm_compute; reflexivity|reflexivity]).
Qed.
Print Assumptions C64_exchanged_refuted.
