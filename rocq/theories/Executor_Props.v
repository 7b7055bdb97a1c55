(** Fingerprints, snapshots and builds: C32, C37 and C40-C46. *)
From Coq Require Import ZArith List Ascii String Bool Arith Lia Permutation.
From Verif Require Import Base Str Graph_Model Graph_Spec Backend_Model Executor_Model Executor_Spec.
From Verif Require Import Executor_Top_Proofs Executor_Resumed_Proofs Executor_Id_Proofs Executor_Store_Proofs Executor_Truth_Proofs Executor_Stop_Proofs Executor_Cases Executor_Cases_Proofs Executor_Tidy_Proofs.
Import ListNotations.
Open Scope list_scope.

(** * C32: input fingerprints *)

(** There is an input fingerprint exactly for the arguments of [build], and it is the xor of the
    producer's name, its version and the contents of all partitions. Nothing else, in particular
    no path and no argument name, has an influence. *)
Theorem C32_input_fingerprint : forall V (E : env V) p deps f, input_fingerprint E p deps = Ok f <->
  (forall n, In n (map fst deps) <-> In n (c_build_inputs (classes E (p_class p)))) /\ f = fingerprint_for E p deps.
Proof. exact @input_fingerprint_iff. Qed.
Print Assumptions C32_input_fingerprint.
Definition at_x (v : string) : psnapshot := PSnapshot (Partition (a_storage (raw "x")) [] None None) (hash $v).
Definition at_y (v : string) : psnapshot := PSnapshot (Partition (a_storage (raw "y")) [] None None) (hash $v).
Example C32_input_fingerprint_nonvacuous :
  exists f, input_fingerprint demo join [($"x", [at_x "1"]); ($"y", [at_y "2"])] = Ok f /\ f <> 0%Z /\
            input_fingerprint demo join [($"x", [at_x "1"])] = Err ValueError.
Proof. eexists. split; [vm_compute; reflexivity|]. split; [discriminate|reflexivity]. Qed.

(** The order of arguments, partitions and storages does not matter. *)
Theorem C32_order : forall V (E : env V) p q deps deps' f f', input_fingerprint E p deps = Ok f -> input_fingerprint E q deps' = Ok f' ->
  p_class p = p_class q -> p_version p = p_version q ->
  Permutation (map ps_content (flat_map snd deps)) (map ps_content (flat_map snd deps')) -> f = f'.
Proof. exact @input_fingerprint_order. Qed.
Print Assumptions C32_order.
Example C32_order_nonvacuous :
  let deps := [($"x", [at_x "1"]); ($"y", [at_y "2"])] in let deps' := [($"y", [at_x "2"]); ($"x", [at_y "1"])] in
  (exists f, input_fingerprint demo join deps = Ok f /\ input_fingerprint demo join deps' = Ok f) /\
  Permutation (map ps_content (flat_map snd deps)) (map ps_content (flat_map snd deps')).
Proof. cbn zeta. split; [eexists; split; vm_compute; reflexivity|]. apply perm_swap. Qed.

(** Changing exactly one of name, version and contents changes the fingerprint. *)
Theorem C32_change : forall V (E : env V) p q deps deps' f f', input_fingerprint E p deps = Ok f -> input_fingerprint E q deps' = Ok f' ->
  one_change (from_string E (p_class p) :: p_version p :: map ps_content (flat_map snd deps))
             (from_string E (p_class q) :: p_version q :: map ps_content (flat_map snd deps')) -> f <> f'.
Proof. exact @input_fingerprint_change. Qed.
Print Assumptions C32_change.
Example C32_change_nonvacuous :
  (exists f f', input_fingerprint demo join [($"x", [at_x "1"]); ($"y", [at_y "2"])] = Ok f /\
                input_fingerprint demo join [($"x", [at_x "1"]); ($"y", [at_y "3"])] = Ok f') /\
  one_change (hash $"join" :: 1%Z :: [hash $"1"; hash $"2"]) (hash $"join" :: 1%Z :: [hash $"1"; hash $"3"]).
Proof.
  split; [eexists _, _; split; vm_compute; reflexivity|].
  apply (change_one [hash $"join"; 1%Z; hash $"1"] (hash $"2") (hash $"3") []). discriminate.
Qed.

(** Distinct inputs need not give distinct fingerprints, whatever the hash: exchanging the
    contents of two arguments, or two arguments with equal contents, cannot be seen. *)
Theorem C32_distinct_refuted : forall V (E : env V) p m n (x y : psnapshot), m <> n -> ps_content x <> ps_content y ->
  (forall k, In k (c_build_inputs (classes E (p_class p))) <-> k = m \/ k = n) ->
  exists f, input_fingerprint E p [(m, [x]); (n, [y])] = Ok f /\ input_fingerprint E p [(m, [y]); (n, [x])] = Ok f.
Proof. exact @fingerprints_collide. Qed.
Print Assumptions C32_distinct_refuted.
Theorem C32_equal_contents_refuted : forall V (E : env V) p m n (x y x' y' : psnapshot), m <> n -> ps_content x = ps_content y -> ps_content x' = ps_content y' ->
  (forall k, In k (c_build_inputs (classes E (p_class p))) <-> k = m \/ k = n) ->
  exists f, input_fingerprint E p [(m, [x]); (n, [y])] = Ok f /\ input_fingerprint E p [(m, [x']); (n, [y'])] = Ok f.
Proof. exact @equal_contents_cancel. Qed.
Print Assumptions C32_equal_contents_refuted.
Example C32_refuted_nonvacuous :
  ps_content (at_x "1") <> ps_content (at_y "2") /\ ps_content (at_x "1") = ps_content (at_y "1") /\
  (forall k, In k (c_build_inputs (classes demo (p_class join))) <-> k = $"x" \/ k = $"y").
Proof. split; [discriminate|]. split; [reflexivity|]. intro k. cbn. intuition. Qed.

(** * C37: snapshots *)

(** A raw artifact without data: no snapshot, and nothing at all is recorded. *)
Theorem C37_missing_data : forall V (E : env V) g (s : state V) k a, In (k, a) (g_arts g) -> a_output a = None ->
  (forall x, ~ raw_found E s (a_storage a) x) -> from_graph E g s = (s, Err ValueError).
Proof. exact @snapshot_missing. Qed.
Print Assumptions C37_missing_data.
Example C37_missing_data_nonvacuous :
  (forall x, ~ raw_found demo (start [file "x" "" "1"]) (a_storage (raw "y")) x) /\
  from_graph demo g4 (start [file "x" "" "1"]) = (start [file "x" "" "1"], Err ValueError).
Proof.
  split; [|vm_compute; reflexivity]. intros x (_ & k & d & D & _). change (dget location_eqb [file "x" "" "1"] ($"y", k, None) = Some d) in D.
  unfold file in D. cbn in D. discriminate.
Qed.
(** With data for each there is one. *)
Theorem C37_snapshots : forall V (E : env V) g (s : state V), fuel s = None ->
  (forall k a, In (k, a) (g_arts g) -> a_output a = None -> exists x, raw_found E s (a_storage a) x) ->
  exists s' sn, from_graph E g s = (s', Ok sn).
Proof. exact @snapshot_total. Qed.
Print Assumptions C37_snapshots.
Example C37_snapshots_nonvacuous : forall k a, In (k, a) (g_arts g1) -> a_output a = None -> exists x, raw_found demo ex1 (a_storage a) x.
Proof.
  intros k a [Q|[Q|[]]] O; injection Q as <- <-; [|discriminate]. exists (PSnapshot (Partition (a_storage (raw "a")) [] None None) (hash $"1")).
  split; [reflexivity|]. exists [], $"1". split; [reflexivity|]. split; reflexivity.
Qed.
(** A snapshot records the raw data as it is and nothing else. *)
Theorem C37_records : forall V (E : env V) g (s s' : state V) sn, from_graph E g s = (s', Ok sn) ->
  s_graph sn = g /\ files s' = files s /\
  (forall k a, In (k, a) (g_arts g) -> a_output a = None -> exists x, raw_found E s (a_storage a) x) /\
  (forall sn' key x, linked s' sn' key x <-> linked s sn' key x \/
     (sn' = sn /\ exists a, last_key (g_arts g) a key /\ a_output a = None /\ raw_found E s (a_storage a) x)) /\
  (forall t x, recorded s' t x <-> recorded s t x \/
     (exists k a, In (k, a) (g_arts g) /\ a_output a = None /\ a_storage a = t /\ raw_found E s t x)).
Proof. exact @snapshot_links. Qed.
Print Assumptions C37_records.
Example C37_records_nonvacuous :
  from_graph demo g3 ex1 = (fst (snap g3 ex1), Ok sn3) /\ texts (fst (snap g3 ex1)) sn3 "a" = [Some $"1"] /\ texts (fst (snap g3 ex1)) sn3 "b" = [].
Proof. split; [|split]; vm_compute; reflexivity. Qed.

(** The id does not depend on the order of the artifacts, as far as the graph's own fingerprint
    does not, nor on the order of discovery. *)
Theorem C37_order_partial : forall V (E : env V) g g' (s s1 s' s1' : state V) sn sn', from_graph E g s = (s1, Ok sn) -> from_graph E g' s' = (s1', Ok sn') ->
  graph_fp E g = graph_fp E g' -> Permutation (g_arts g) (g_arts g') -> NoDup (map snd (g_arts g)) ->
  Permutation (files s) (files s') -> NoDup (map fst (files s)) -> s_id sn = s_id sn'.
Proof. exact @snapshot_order. Qed.
Print Assumptions C37_order_partial.
(** The same with a graph fingerprint that ignores the order. *)
Definition lenient : env str := Env str producers hash hash (fun g => hash (g_name g)) (node_fp demo) (part_fp demo) s_id (dump demo) (load demo) (check demo) (iter_set demo).
Example C37_order_nonvacuous :
  let fs := [file "x" "" "1"; file "y" "" "2"] in let fs' := [file "y" "" "2"; file "x" "" "1"] in
  (exists s1 s1' sn sn', from_graph lenient g4 (start fs) = (s1, Ok sn) /\ from_graph lenient g4' (start fs') = (s1', Ok sn') /\ sn <> sn') /\
  graph_fp lenient g4 = graph_fp lenient g4' /\ Permutation (g_arts g4) (g_arts g4') /\ NoDup (map snd (g_arts g4)) /\
  Permutation fs fs' /\ NoDup (map fst fs).
Proof.
  cbn zeta. split; [|split; [reflexivity|]].
  - eexists _, _, _, _. split; [vm_compute; reflexivity|]. split; [vm_compute; reflexivity|]. intro Q. discriminate Q.
  - split; [apply perm_swap|]. split; [repeat constructor; cbn; intuition discriminate|]. split; [apply perm_swap|]. repeat constructor; cbn; intuition discriminate.
Qed.
(** [Graph.fingerprint] hashes the artifacts in order of definition (C23), so that the id does
    depend on it. *)
Theorem C37_definition_order_refuted : exists s s1 s1' sn sn',
  from_graph demo g4 s = (s1, Ok sn) /\ from_graph demo g4' s = (s1', Ok sn') /\ Permutation (g_arts g4) (g_arts g4') /\ s_id sn <> s_id sn'.
Proof.
  exists (start [file "x" "" "1"; file "y" "" "2"]). eexists _, _, _, _. split; [vm_compute; reflexivity|]. split; [vm_compute; reflexivity|].
  split; [apply perm_swap|]. discriminate.
Qed.
Print Assumptions C37_definition_order_refuted.

(** Changing the content of one raw file changes the id, provided no other artifact reads the
    same files. *)
Theorem C37_change_partial : forall V (E : env V) g (s s1 s' s1' : state V) sn sn' key a k d d', from_graph E g s = (s1, Ok sn) -> from_graph E g s' = (s1', Ok sn') ->
  In (key, a) (g_arts g) -> a_output a = None -> st_kind (a_storage a) = SFile -> st_templated (a_storage a) = false ->
  st_partitioned (a_storage a) = negb (is_nil k) -> (forall key' b, In (key', b) (g_arts g) -> a_output b = None -> st_id (a_storage b) = st_id (a_storage a) -> b = a) ->
  NoDup (map fst (files s)) -> dget location_eqb (files s) (st_id (a_storage a), k, None) = Some d ->
  files s' = dset location_eqb (files s) (st_id (a_storage a), k, None) d' ->
  part_fp E (PSnapshot (Partition (a_storage a) k None None) (file_fp E d)) <> part_fp E (PSnapshot (Partition (a_storage a) k None None) (file_fp E d')) ->
  s_id sn <> s_id sn'.
Proof. exact @snapshot_change. Qed.
Print Assumptions C37_change_partial.
Example C37_change_nonvacuous :
  let s := start [file "x" "" "1"; file "y" "" "2"] in let s' := with_raw s [file "y" "" "3"] in
  (exists s1 s1' sn sn', from_graph demo g4 s = (s1, Ok sn) /\ from_graph demo g4 s' = (s1', Ok sn')) /\
  (forall key' b, In (key', b) (g_arts g4) -> a_output b = None -> st_id (a_storage b) = $"y" -> b = raw "y") /\
  dget location_eqb (files s) ($"y", [], None) = Some $"2" /\ files s' = dset location_eqb (files s) ($"y", [], None) $"3" /\
  part_fp demo (PSnapshot (Partition (a_storage (raw "y")) [] None None) (hash $"2")) <> part_fp demo (PSnapshot (Partition (a_storage (raw "y")) [] None None) (hash $"3")).
Proof.
  cbn zeta. split; [eexists _, _, _, _; split; vm_compute; reflexivity|]. split; [|split; [reflexivity|split; [reflexivity|discriminate]]].
  intros key' b [Q|[Q|[Q|[]]]] O S; injection Q as <- <-; first [reflexivity|discriminate].
Qed.
(** Two artifacts reading the same file: its content cancels out and a change is not noticed. *)
Theorem C37_shared_file_refuted : exists s1 s2 sn,
  from_graph demo g12 (start [file "a" "" "1"]) = (s1, Ok sn) /\ from_graph demo g12 (start [file "a" "" "2"]) = (s2, Ok sn) /\
  texts s1 sn "a" = [Some $"1"] /\ texts s2 sn "a" = [Some $"2"].
Proof. eexists _, _, _. split; [vm_compute; reflexivity|]. split; [vm_compute; reflexivity|]. split; reflexivity. Qed.
Print Assumptions C37_shared_file_refuted.

(** * C40: what a finished build leaves *)

(** In a graph in order, if no partition is available for only some outputs of its producer, a
    build that finishes has linked a partition for each output and each partition asked for. *)
Theorem C40_outputs_linked_partial : forall V (E : env V), iterates E -> forall sn s s' r,
  in_order E (g_arts (s_graph sn)) -> distinct_paths (g_arts (s_graph sn)) -> all_or_none s (g_arts (s_graph sn)) -> build E sn s = (s', Ok r) ->
  forall p i a key k d, produces (g_arts (s_graph sn)) p i a -> last_key (g_arts (s_graph sn)) a key -> asks E s' sn p k d ->
  exists x, linked s' sn key x /\ ps_key x = k /\ ps_fp x = Some (fingerprint_for E p d).
Proof. exact @build_done. Qed.
Print Assumptions C40_outputs_linked_partial.
Example C40_outputs_linked_nonvacuous :
  let s := fst (snap g3 ex1) in
  iterates demo /\ in_order demo (g_arts g3) /\ distinct_paths (g_arts g3) /\ all_or_none s (g_arts g3) /\ snd (build demo sn3 s) = Ok tt /\
  produces (g_arts g3) split2 1 (out "d" split2 1) /\ (exists d, asks demo (built s sn3) sn3 split2 [] d) /\ texts (built s sn3) sn3 "d" = [Some $"111"].
Proof.
  cbn zeta. split; [exact demo_iterates|]. split; [exact g3_in_order|]. split; [exact g3_distinct|]. split; [|split; [vm_compute; reflexivity|]].
  - intros p i a j b k f P Q A. unfold available in A. cases3 P; vm_compute in A; destruct A as (_ & _ & _ & A); destruct k; cbn in A; now destruct A.
  - split; [exists $"d"; split; [do 3 right; now left|reflexivity]|]. split; [|vm_compute; reflexivity]. eexists.
    apply (x_asks $"split" eq_refl eq_refl _ _ split2 b1 $"b" eq_refl). apply last. vm_compute. reflexivity.
Qed.
(** With one output per producer in the graph, no condition on what was there before. *)
Theorem C40_single_outputs_linked : forall V (E : env V), iterates E -> forall sn s s' r, in_order E (g_arts (s_graph sn)) -> build E sn s = (s', Ok r) ->
  forall p i a key k d, produces (g_arts (s_graph sn)) p i a -> (forall j b, produces (g_arts (s_graph sn)) p j b -> b = a) ->
  last_key (g_arts (s_graph sn)) a key -> asks E s' sn p k d ->
  exists x, linked s' sn key x /\ ps_key x = k /\ ps_fp x = Some (fingerprint_for E p d).
Proof. exact @build_done_single. Qed.
Print Assumptions C40_single_outputs_linked.
Example C40_single_outputs_linked_nonvacuous :
  in_order demo (g_arts g1) /\ (forall j b, produces (g_arts g1) double j b -> b = b1) /\
  let s := fst (snap g1 crashed1) in snd (build demo sn1 s) = Ok tt /\ texts (built s sn1) sn1 "b" = [Some []].
Proof.
  split; [exact g1_in_order|]. split; [intros j b P; now apply g1_produces in P|]. split; vm_compute; reflexivity.
Qed.
(** A finished build could compute all maps, so that everything they returned is asked for. *)
Theorem C40_asked : forall V (E : env V), iterates E -> forall sn s s' r, in_order E (g_arts (s_graph sn)) -> build E sn s = (s', Ok r) ->
  forall p i a, produces (g_arts (s_graph sn)) p i a -> exists inputs m, input_partitions E s' sn p inputs /\
    c_map (classes E (p_class p)) (filter (fun i => existsb (str_eqb (fst i)) (c_map_inputs (classes E (p_class p)))) inputs) = Ok m /\
    forall k, In k (map fst m) -> exists d, asks E s' sn p k d.
Proof. exact @build_asks. Qed.
Print Assumptions C40_asked.
Example C40_asked_nonvacuous : exists d, asks demo (run g1 ex1) sn1 double [] d /\ d <> [].
Proof.
  eexists. split; [|]. { apply (x_asks $"double" eq_refl eq_refl _ _ double (raw "a") $"a" eq_refl). apply last. vm_compute. reflexivity. } discriminate.
Qed.
(** A storage without produced data meets the condition. *)
Theorem C40_fresh : forall V (fs : list (location * str)) l n g, (forall i k f, ~ In (i, k, Some f) (map fst fs)) -> all_or_none (State fs empty_backend l n : state V) g.
Proof. exact @fresh_all_or_none. Qed.
Print Assumptions C40_fresh.
Example C40_fresh_nonvacuous : forall i k f, ~ In (i, k, Some f) (map fst (files ex1)).
Proof. intros i k f [Q|[]]. discriminate. Qed.

(** A partition available for one of two outputs: the build succeeds without the other. *)
Theorem C40_other_output_refuted : exists sn s, arises demo s /\ in_order demo (g_arts (s_graph sn)) /\ distinct_paths (g_arts (s_graph sn)) /\
  snd (build demo sn s) = Ok tt /\ produces (g_arts (s_graph sn)) split2 1 (out "d" split2 1) /\ last_key (g_arts (s_graph sn)) (out "d" split2 1) $"d" /\
  (exists d, asks demo (built s sn) sn split2 [] d) /\ forall x, ~ linked (built s sn) sn $"d" x.
Proof.
  exists sn3, crashed3. split; [exact crashed3_arises|]. split; [exact g3_in_order|]. split; [exact g3_distinct|]. split; [vm_compute; reflexivity|].
  split; [exists $"d"; split; [do 3 right; now left|reflexivity]|]. split; [apply last; vm_compute; reflexivity|].
  split; [|intros x L; vm_compute in L; destruct L].
  eexists. apply (x_asks $"split" eq_refl eq_refl _ _ split2 b1 $"b" eq_refl). apply last. vm_compute. reflexivity.
Qed.
Print Assumptions C40_other_output_refuted.
(** One output in a file and one as a literal: a new process finds the file and never records
    the literal. *)
Theorem C40_literal_refuted : exists s, arises demo s /\ s = restart (run g5 ex1) /\ snd (graph_build demo g5 s) = Ok (snd (snap g5 s)) /\
  texts (run g5 s) (snd (snap g5 s)) "c" = [Some $"10"] /\ forall x, ~ linked (run g5 s) (snd (snap g5 s)) $"d" x.
Proof.
  exists (restart (run g5 ex1)). split; [eapply arises_then; [|apply restart_happens]; apply arises_run, arises_start|]. split; [reflexivity|].
  split; [vm_compute; reflexivity|]. split; [vm_compute; reflexivity|]. intros x L. vm_compute in L. destruct L.
Qed.
Print Assumptions C40_literal_refuted.
(** [build] returning fewer values than declared is not noticed. *)
Theorem C40_too_few_refuted : exists s, arises demo s /\ snd (graph_build demo g6 s) = Ok (snd (snap g6 s)) /\
  produces (g_arts g6) short6 1 (out "d" short6 1) /\ forall x, ~ linked (run g6 s) (snd (snap g6 s)) $"d" x.
Proof.
  exists ex1. split; [apply arises_start|]. split; [vm_compute; reflexivity|]. split; [exists $"d"; split; [do 2 right; now left|reflexivity]|].
  intros x L. vm_compute in L. destruct L.
Qed.
Print Assumptions C40_too_few_refuted.

(** * C41: building again *)

(** Building again right away changes nothing at all: no call of a producer, no write, no
    metadata. *)
Theorem C41_rebuild_partial : forall V (E : env V), iterates E -> forall sn s s' r, in_order E (g_arts (s_graph sn)) ->
  build E sn s = (s', Ok r) -> fuel s' = None -> build E sn s' = (s', Ok tt).
Proof. exact @rebuild. Qed.
Print Assumptions C41_rebuild_partial.
Example C41_rebuild_nonvacuous :
  in_order demo (g_arts g3) /\ let s := fst (snap g3 ex1) in
  snd (build demo sn3 s) = Ok tt /\ fuel (built s sn3) = None /\ List.length (log (built s sn3)) = 7 /\ build demo sn3 (built s sn3) = (built s sn3, Ok tt).
Proof. split; [exact g3_in_order|]. cbn zeta. split; [vm_compute; reflexivity|]. split; [vm_compute; reflexivity|]. split; vm_compute; reflexivity. Qed.
(** [build] returning no value for a declared output is called again each time. *)
Theorem C41_no_values_refuted : exists s, arises demo s /\ let sn := snd (snap g7 s) in let s1 := fst (snap g7 s) in
  snd (build demo sn s1) = Ok tt /\ log (built (built s1 sn) sn) <> log (built s1 sn).
Proof. exists ex1. split; [apply arises_start|]. cbn zeta. split; [vm_compute; reflexivity|]. vm_compute. discriminate. Qed.
Print Assumptions C41_no_values_refuted.

(** * C42: reused data *)

(** In any history in which requests with the same path, key and fingerprint compute the same,
    whatever a build links holds data, and holds what the producer computes from the data its
    inputs have then. *)
Theorem C42_data_computed_partial : forall V (E : env V), iterates E -> writable E -> forall R, agree E R -> forall s sn s' r,
  history E R s -> build E sn s = (s', r) ->
  NoDup (map fst (g_arts (s_graph sn))) -> templated (g_arts (s_graph sn)) -> no_gaps (g_arts (s_graph sn)) -> covers E R sn s s' ->
  forall key x, linked s' sn key x -> ~ linked s sn key x ->
  exists p i a, produces (g_arts (s_graph sn)) p i a /\ last_key (g_arts (s_graph sn)) a key /\ pt_storage (ps_part x) = a_storage a /\
    (exists data, holds_data s' x data) /\
    forall d args data, asks E s' sn p (ps_key x) d -> ps_fp x = Some (fingerprint_for E p d) -> reads E s' p d args -> computes E a args data -> holds_data s' x data.
Proof. exact @build_true. Qed.
Print Assumptions C42_data_computed_partial.
(** And it keeps that data, whatever else happens. *)
Theorem C42_data_stays : forall V (E : env V), iterates E -> writable E -> forall R, agree E R -> forall s s', history E R s -> follows E R s s' ->
  forall sn key x data f, linked s sn key x -> ps_fp x = Some f -> holds_data s x data -> holds_data s' x data.
Proof. exact @data_stays. Qed.
Print Assumptions C42_data_stays.
(** With "1", a new process with "2", and a new one with "1" again: b is found, not built, and is what the
    producer computes. *)
Example C42_nonvacuous :
  iterates demo /\ writable demo /\ agree demo ask_double /\ history demo ask_double told3 /\
  let s := fst (snap g1 told3) in
  log (built s sn1) = log s /\ texts s sn1 "b" = [] /\ texts (built s sn1) sn1 "b" = [Some $"11"].
Proof.
  split; [exact demo_iterates|]. split; [exact demo_writable|]. split; [exact ask_double_agree|]. split; [exact told3_history|].
  cbn zeta. split; [vm_compute; reflexivity|]. split; vm_compute; reflexivity.
Qed.
(** Requests that differ but have the same fingerprint: after the two inputs of [join] have been
    exchanged, the result of before is reused. *)
Theorem C42_exchanged_inputs_refuted : exists s, arises demo s /\ let sn := snd (snap g4 s) in let s' := run g4 s in
  snd (graph_build demo g4 s) = Ok sn /\ texts s' sn "x" = [Some $"2"] /\ texts s' sn "y" = [Some $"1"] /\
  texts s' sn "c" = [Some $"12"] /\ computes demo c4 [($"x", $"2"); ($"y", $"1")] $"21".
Proof.
  exists (with_raw (run g4 (start [file "x" "" "1"; file "y" "" "2"])) [file "x" "" "2"; file "y" "" "1"]).
  split; [eapply arises_then; [|apply raw_happens]; apply arises_run, arises_start|]. cbn zeta. split; [vm_compute; reflexivity|]. split; [vm_compute; reflexivity|].
  split; [vm_compute; reflexivity|]. split; [vm_compute; reflexivity|]. exists join, 0, [$"21"], $"21". repeat split.
Qed.
Print Assumptions C42_exchanged_inputs_refuted.
(** Raw data that changes between snapshot and build: data computed from "2" is recorded under
    the fingerprint of "1", and reused when "1" is back. *)
Theorem C42_changed_meanwhile_refuted : exists s, arises demo s /\ snd (graph_build demo g1 s) = Ok sn1 /\
  texts (run g1 s) sn1 "a" = [Some $"1"] /\ texts (run g1 s) sn1 "b" = [Some $"22"] /\ computes demo b1 [($"x", $"1")] $"11".
Proof.
  exists (with_raw (built (with_raw (fst (snap g1 ex1)) [file "a" "" "2"]) sn1) [file "a" "" "1"]). split.
  - eapply arises_then; [|apply raw_happens]. eapply arises_then; [|apply built_happens]. eapply arises_then; [|apply raw_happens]. eapply arises_then; [|apply snap_happens]. apply arises_start.
  - split; [vm_compute; reflexivity|]. split; [vm_compute; reflexivity|]. split; [vm_compute; reflexivity|]. exists double, 0, [$"11"], $"11". repeat split.
Qed.
Print Assumptions C42_changed_meanwhile_refuted.
(** An output that cannot be written leaves an empty file, which a new process takes for the
    output. *)
Theorem C42_failed_write_refuted : exists s1 s2 sn, graph_build fussy g11 ex1 = (s1, Err TypeError) /\ graph_build fussy g11 (restart s1) = (s2, Ok sn) /\
  texts s2 sn "b" = [Some []] /\ forall args data, ~ computes fussy (out "b" bad11 0) args data.
Proof.
  eexists _, _, _. split; [vm_compute; reflexivity|]. split; [vm_compute; reflexivity|]. split; [vm_compute; reflexivity|].
  intros args data (p & i & vs & v & O & R & N & D). injection O as <- <-. cbn in R. injection R as ->. cbn in N. injection N as <-. cbn in D. discriminate.
Qed.
Print Assumptions C42_failed_write_refuted.

(** * C43: rejected outputs *)

(** If outputs are rejected the build raises [ValueError] there and then: storage and backend are
    as they were before this partition was looked at, and everything recorded is kept. *)
Theorem C43_rejected : forall V (E : env V) sn s s' r new p k vs, build E sn s = (s', r) -> log s' = new ++ log s ->
  In (Validated p k vs) new -> c_validate (classes E (p_class p)) vs = Ok false ->
  r = Err ValueError /\ kept s s' /\
  exists args existing f deps s1, build_producer_partition E sn p existing f deps k s1 = (s', Err ValueError) /\
    files s' = files s1 /\ db s' = db s1 /\ log s' = Validated p k vs :: Built p k args :: log s1.
Proof. exact @rejected_build. Qed.
Print Assumptions C43_rejected.
Example C43_rejected_nonvacuous :
  let sn := snd (snap g8 ex1) in let s := fst (snap g8 ex1) in
  snd (build demo sn s) = Err ValueError /\ (exists new, log (built s sn) = new ++ log s /\ In (Validated (of_x "picky" b1) [] [$"11"]) new) /\
  texts (built s sn) sn "b" = [Some $"11"] /\ texts (built s sn) sn "c" = [] /\ List.length (files (built s sn)) = 2.
Proof.
  cbn zeta. split; [vm_compute; reflexivity|]. split; [exists (log (built (fst (snap g8 ex1)) (snd (snap g8 ex1)))); split; [vm_compute; reflexivity|vm_compute; now left]|]. split; [vm_compute; reflexivity|]. split; vm_compute; reflexivity.
Qed.
(** Nothing of a partition is written or recorded before its outputs have been accepted, however
    the partition ends. *)
Theorem C43_not_accepted : forall V (E : env V) sn p existing f deps k s s' r, build_producer_partition E sn p existing f deps k s = (s', r) ->
  (forall vs, In (Validated p k vs) (log s') -> ~ In (Validated p k vs) (log s) -> c_validate (classes E (p_class p)) vs <> Ok true) ->
  (forall vs, c_validate (classes E (p_class p)) vs = Ok true -> ~ In (Validated p k vs) (log s)) ->
  db s' = db s /\ files s' = files s.
Proof. exact @not_accepted. Qed.
Print Assumptions C43_not_accepted.
Example C43_not_accepted_nonvacuous :
  let x := PSnapshot (Partition (a_storage (raw "a")) [] None None) (hash $"1") in
  let p := of_x "picky" (raw "a") in
  exists s', build_producer_partition demo (Snapshot 0 (GraphDef [] [($"a", raw "a"); ($"c", out "c" p 0)])) p [] 5 [($"x", [x])] [] ex1 = (s', Err ValueError) /\
    log s' = [Validated p [] [$"1"]; Built p [] [($"x", $"1")]] /\ (forall vs, c_validate (classes demo (p_class p)) vs <> Ok true).
Proof. cbn zeta. eexists. split; [vm_compute; reflexivity|]. split; [reflexivity|]. intros vs. cbn. discriminate. Qed.
(** No build, failing or not, forgets anything. *)
Theorem C43_kept : forall V (E : env V) sn (s s' : state V) r, build E sn s = (s', r) -> kept s s'.
Proof. exact @build_keeps. Qed.
Print Assumptions C43_kept.
Example C43_kept_nonvacuous : texts told1 sn1 "b" = [Some $"11"] /\ texts (built told1 (snd (snap g8 ex1))) sn1 "b" = [Some $"11"].
Proof. split; vm_compute; reflexivity. Qed.

(** * C44: builds that were stopped *)

(** Whatever state a stopped build has left, a build that finishes has linked everything that is
    asked for, for producers with one output in the graph. This is the theorem of C40, with
    crashes before. *)
Theorem C44_resume_partial : forall V (E : env V), iterates E -> forall sn s0 n s s' r0 r, build E sn (State (files s0) (db s0) (log s0) (Some n)) = (s, r0) ->
  in_order E (g_arts (s_graph sn)) -> build E sn (State (files s) (db s) (log s) None) = (s', Ok r) ->
  forall p i a key k d, produces (g_arts (s_graph sn)) p i a -> (forall j b, produces (g_arts (s_graph sn)) p j b -> b = a) ->
  last_key (g_arts (s_graph sn)) a key -> asks E s' sn p k d ->
  exists x, linked s' sn key x /\ ps_key x = k /\ ps_fp x = Some (fingerprint_for E p d).
Proof. exact @resume. Qed.
Print Assumptions C44_resume_partial.
Example C44_resume_nonvacuous :
  let s0 := fst (snap g1 ex1) in let s := built (limit s0 (Some 6)) sn1 in
  snd (build demo sn1 (limit s0 (Some 6))) = Err Crash /\ snd (build demo sn1 (limit s None)) = Ok tt /\
  map snd (files s) = [$"1"; []] /\ texts (built (limit s None) sn1) sn1 "b" = [Some $"11"].
Proof. cbn zeta. split; [vm_compute; reflexivity|]. split; [vm_compute; reflexivity|]. split; vm_compute; reflexivity. Qed.
(** If a build from here would succeed, then one that is stopped after any number of effects and
    run again succeeds as well, and ends with the same files and the same backend as if it had never
    been stopped. For graphs whose producers have one output each, in the same process; the two
    theorems below show that neither can be dropped. *)
Theorem C44_resumed_partial : forall V (E : env V), iterates E -> picks E -> forall sn,
  in_order E (g_arts (s_graph sn)) -> distinct_paths (g_arts (s_graph sn)) ->
  (forall p i a j b, produces (g_arts (s_graph sn)) p i a -> produces (g_arts (s_graph sn)) p j b -> b = a) ->
  forall s n s1 r1 s2 r2, arises E s -> build E sn (State (files s) (db s) (log s) None) = (s1, Ok r1) ->
  build E sn (State (files s) (db s) (log s) (Some n)) = (s2, r2) ->
  exists l, build E sn (State (files s2) (db s2) (log s2) None) = (State (files s1) (db s1) l None, Ok tt).
Proof. exact @resumed. Qed.
Print Assumptions C44_resumed_partial.
Example C44_resumed_nonvacuous : let s0 := fst (snap g13 ex1) in
  iterates demo /\ picks demo /\ in_order demo (g_arts (s_graph sn13)) /\ distinct_paths (g_arts (s_graph sn13)) /\
  (forall p i a j b, produces (g_arts (s_graph sn13)) p i a -> produces (g_arts (s_graph sn13)) p j b -> b = a) /\ arises demo s0 /\
  snd (build demo sn13 (limit s0 None)) = Ok tt /\ snd (build demo sn13 (limit s0 (Some 15))) = Err Crash /\
  map snd (files (built (limit s0 (Some 15)) sn13)) = [$"1"; $"11"; []] /\ map snd (files (built (limit s0 None) sn13)) = [$"1"; $"11"; $"1111"].
Proof.
  cbn zeta. split; [exact demo_iterates|]. split; [exact demo_picks|]. split; [exact g13_in_order|]. split; [exact g13_distinct|]. split; [exact g13_one|].
  split; [eapply arises_then; [apply arises_start|apply snap_happens]|]. repeat split; vm_compute; reflexivity.
Qed.
(** Stopped between two outputs, the second is never built. *)
Theorem C44_several_outputs_refuted : exists n, let s0 := fst (snap g3 ex1) in let s := built (limit s0 (Some n)) sn3 in let s' := built (limit s None) sn3 in
  in_order demo (g_arts g3) /\ distinct_paths (g_arts g3) /\ snd (build demo sn3 (limit s0 (Some n))) = Err Crash /\
  snd (build demo sn3 (limit s None)) = Ok tt /\ texts s' sn3 "c" = [Some $"110"] /\ forall x, ~ linked s' sn3 $"d" x.
Proof.
  exists 20. cbn zeta. split; [exact g3_in_order|]. split; [exact g3_distinct|]. split; [vm_compute; reflexivity|]. split; [vm_compute; reflexivity|].
  split; [vm_compute; reflexivity|]. intros x L. vm_compute in L. destruct L.
Qed.
Print Assumptions C44_several_outputs_refuted.
(** Stopped while a file is being written, a new process takes the empty file for the output. *)
Theorem C44_half_written_refuted : exists n, let s0 := fst (snap g1 ex1) in let s := restart (limit (built (limit s0 (Some n)) sn1) None) in
  in_order demo (g_arts g1) /\ snd (build demo sn1 (limit s0 (Some n))) = Err Crash /\
  snd (graph_build demo g1 s) = Ok sn1 /\ texts (run g1 s) sn1 "b" = [Some []] /\ computes demo b1 [($"x", $"1")] $"11".
Proof.
  exists 6. cbn zeta. split; [exact g1_in_order|]. split; [vm_compute; reflexivity|]. split; [vm_compute; reflexivity|]. split; [vm_compute; reflexivity|].
  exists double, 0, [$"11"], $"11". repeat split.
Qed.
Print Assumptions C44_half_written_refuted.

(** What a stopped build leaves behind: everything that was there before, nothing new without
    fingerprint, and new files that are what the build would have left had it not been stopped,
    except for at most one, which is empty. *)
Theorem C44_left_behind_partial : forall V (E : env V), iterates E -> picks E -> forall g,
  in_order E (g_arts g) -> distinct_paths (g_arts g) -> templated (g_arts g) ->
  (forall p i a j b, produces (g_arts g) p i a -> produces (g_arts g) p j b -> b = a) ->
  forall fs n s1 sn s r, graph_build E g (State fs empty_backend [] None) = (s1, Ok sn) ->
  graph_build E g (State fs empty_backend [] (Some n)) = (s, r) ->
  (forall l d, dget location_eqb fs l = Some d -> dget location_eqb (files s) l = Some d) /\
  (forall i k, dget location_eqb (files s) (i, k, None) = dget location_eqb fs (i, k, None)) /\
  exists l0, forall l d, dget location_eqb (files s) l = Some d ->
    dget location_eqb (files s1) l = Some d \/ (l = l0 /\ d = [] /\ dget location_eqb fs l = None /\ snd l <> None).
Proof. exact @left_behind. Qed.
Print Assumptions C44_left_behind_partial.
Example C44_left_behind_nonvacuous : iterates tidy /\ picks tidy /\ in_order tidy (g_arts g14) /\ distinct_paths (g_arts g14) /\ templated (g_arts g14) /\
  (forall p i a j b, produces (g_arts g14) p i a -> produces (g_arts g14) p j b -> b = a) /\
  map snd (files (fst (run14 None ex14))) = [$"x"; $"y"; $"x!"; $"y!"; $"x!y!x!y!"] /\ snd (run14 (Some 16) ex14) = Err Crash /\
  map snd (files (fst (run14 (Some 16) ex14))) = [$"x"; $"y"; $"x!"; []].
Proof.
  split; [exact tidy_iterates|]. split; [exact tidy_picks|]. split; [exact g14_in_order|]. split; [exact g14_distinct|]. split; [exact g14_templated|]. split; [exact g14_one|].
  repeat split; vm_compute; reflexivity.
Qed.
(** Once the half-written file is removed (or any others; outputs that are as they should be may
    stay) a new process ends with the same snapshot, files and links as one that had never been
    stopped. This holds after any number of stopped processes. It needs the order in which a set
    is listed to depend on its elements only: python does not promise it, as
    [read_snapshot_partitions] returns sets and hashes of strings differ between processes. *)
Theorem C44_new_process_partial : forall V (E : env V), iterates E -> settled E -> picks E -> forall g,
  in_order E (g_arts g) -> distinct_paths (g_arts g) -> templated (g_arts g) ->
  (forall p i a j b, produces (g_arts g) p i a -> produces (g_arts g) p j b -> b = a) ->
  forall fs s1 sn fs2, NoDup (map fst fs) -> graph_build E g (State fs empty_backend [] None) = (s1, Ok sn) ->
  attempts E g (files s1) fs fs2 ->
  exists s2, graph_build E g (State fs2 empty_backend [] None) = (s2, Ok sn) /\
    (forall l, dget location_eqb (files s2) l = dget location_eqb (files s1) l) /\ (forall sn' key x, linked s2 sn' key x <-> linked s1 sn' key x).
Proof. exact @stopped_again. Qed.
Print Assumptions C44_new_process_partial.
Example C44_new_process_nonvacuous : settled tidy /\ NoDup (map fst ex14) /\ attempts tidy g14 (files (fst (run14 None ex14))) ex14 left14' /\
  map snd left14 = [$"x"; $"y"; $"x!"] /\ snd (run14 (Some 19) left14) = Err Crash /\ map snd (files (fst (run14 (Some 19) left14))) = [$"x"; $"y"; $"x!"; $"y!"; []] /\
  map snd left14' = [$"x"; $"y"; $"x!"; $"y!"] /\ map snd (files (fst (run14 None left14'))) = [$"x"; $"y"; $"x!"; $"y!"; $"x!y!x!y!"].
Proof.
  split; [exact tidy_settled|]. split; [vm_compute; repeat constructor; cbn; intuition discriminate|]. split; [exact left14_attempts|]. repeat split; vm_compute; reflexivity.
Qed.
(** If the order of a set depends on the order in which its elements were added, then the new
    process may build something else: c is built from the partitions of b in another order. *)
Theorem C44_order_refuted : iterates demo /\ picks demo /\ in_order demo (g_arts g14) /\ distinct_paths (g_arts g14) /\ templated (g_arts g14) /\
  (forall p i a j b, produces (g_arts g14) p i a -> produces (g_arts g14) p j b -> b = a) /\ NoDup (map fst ex14) /\
  attempts demo g14 (files (fst (plain14 None ex14))) ex14 other14 /\ exists sn, snd (plain14 None ex14) = Ok sn /\ snd (plain14 None other14) = Ok sn /\
  texts (fst (plain14 None ex14)) sn "c" = [Some $"x!y!x!y!"] /\ texts (fst (plain14 None other14)) sn "c" = [Some $"y!x!y!x!"].
Proof.
  split; [exact demo_iterates|]. split; [exact demo_picks|]. split; [exact g14_in_order'|]. split; [exact g14_distinct|]. split; [exact g14_templated|]. split; [exact g14_one|].
  split; [vm_compute; repeat constructor; cbn; intuition discriminate|]. split; [exact other14_attempts|].
  destruct (plain14 None ex14) as [s [sn|e]] eqn:R; [|vm_compute in R; discriminate]. exists sn. assert (Q : (s, Ok sn) = plain14 None ex14) by now rewrite R.
  split; [reflexivity|]. assert (Q1 : Ok sn = snd (plain14 None ex14)) by now rewrite <- Q. assert (Q2 : s = fst (plain14 None ex14)) by now rewrite <- Q.
  clear R Q. subst s. assert (Q3 : sn = snd (snap g14 (State ex14 empty_backend [] None))) by (vm_compute in Q1; injection Q1 as ->; vm_compute; reflexivity). subst sn.
  repeat split; vm_compute; reflexivity.
Qed.
Print Assumptions C44_order_refuted.

(** * C45: only what is asked for *)

(** In any state that can arise, what a build adds to a snapshot was asked for by a producer of
    the graph, with the fingerprint of its inputs; or the producer's map asked for nothing. *)
Theorem C45_only_asked_partial : forall V (E : env V), iterates E -> forall sn s s' r, arises E s -> NoDup (map fst (g_arts (s_graph sn))) -> templated (g_arts (s_graph sn)) ->
  build E sn s = (s', r) -> forall sn' key x, linked s' sn' key x -> linked s sn' key x \/
  (sn' = sn /\ exists p i a, produces (g_arts (s_graph sn)) p i a /\ last_key (g_arts (s_graph sn)) a key /\ pt_storage (ps_part x) = a_storage a /\
    ((exists d, asks E s' sn p (ps_key x) d /\ ps_fp x = Some (fingerprint_for E p d)) \/
     (exists inputs, input_partitions E s' sn p inputs /\
        c_map (classes E (p_class p)) (filter (fun i => existsb (str_eqb (fst i)) (c_map_inputs (classes E (p_class p)))) inputs) = Ok []))).
Proof. exact @links_asked. Qed.
Print Assumptions C45_only_asked_partial.
Example C45_only_asked_nonvacuous :
  let s1 := run g1 ex1 in let s2 := fst (snap g1 (with_raw s1 [file "a" "" "2"])) in let sn := snd (snap g1 (with_raw s1 [file "a" "" "2"])) in
  arises demo s2 /\ templated (g_arts g1) /\ texts (built s2 sn) sn "b" = [Some $"22"] /\ texts (built s2 sn) sn1 "b" = [Some $"11"].
Proof.
  cbn zeta. split; [|split; [exact g1_templated|split; vm_compute; reflexivity]].
  eapply arises_then; [|apply snap_happens]. eapply arises_then; [|apply raw_happens]. apply arises_run, arises_start.
Qed.
(** A map asking for nothing: everything known of the output's storage is linked. *)
Theorem C45_empty_map_refuted : exists s, arises demo s /\ let sn := snd (snap g9 s) in snd (graph_build demo g9 s) = Ok sn /\
  texts (run g9 s) sn "b" = [Some $"11"] /\ forall k d, ~ asks demo (run g9 s) sn none9 k d.
Proof.
  exists (run g1 ex1). split; [apply arises_run, arises_start|]. cbn zeta. split; [vm_compute; reflexivity|]. split; [vm_compute; reflexivity|].
  intros k d (inputs & m & l1 & l2 & d0 & _ & M & -> & _). cbn in M. injection M as M. now destruct l1.
Qed.
Print Assumptions C45_empty_map_refuted.

(** * C46: each output in its own artifact *)

(** Building a partition reads the inputs, calls [build] and records value [i] as the partition of
    the artifact assigned from output [i], if no earlier output is left out. *)
Theorem C46_outputs_stored_partial : forall V (E : env V) sn p existing f deps k s s' r, distinct_paths (g_arts (s_graph sn)) -> no_gaps (g_arts (s_graph sn)) ->
  ~ In k existing -> build_producer_partition E sn p existing f deps k s = (s', Ok r) ->
  exists args vs writes, reads E s p deps args /\ runs (classes E (p_class p)) args (Ok vs) /\
    log s' = writes ++ Validated p k vs :: Built p k args :: log s /\
    forall i v, nth_error vs i = Some v -> exists a d, produces (g_arts (s_graph sn)) p i a /\ dump E a v = Ok d /\ stored s' sn a k f d.
Proof. exact @outputs_stored. Qed.
Print Assumptions C46_outputs_stored_partial.
Example C46_outputs_stored_nonvacuous :
  distinct_paths (g_arts g3) /\ no_gaps (g_arts g3) /\ let s := fst (snap g3 ex1) in
  texts (built s sn3) sn3 "c" = [Some $"110"] /\ texts (built s sn3) sn3 "d" = [Some $"111"].
Proof. split; [exact g3_distinct|]. split; [exact g3_no_gaps|]. split; vm_compute; reflexivity. Qed.
(** Only output 1 in the graph: it gets value 0, the build raises [IndexError], and the next build
    succeeds with the wrong value. *)
Theorem C46_left_out_refuted : exists s1 s2 sn, graph_build demo g10 ex1 = (s1, Err IndexError) /\ graph_build demo g10 s1 = (s2, Ok sn) /\
  texts s2 sn "d" = [Some $"10"] /\ computes demo (out "d" split10 1) [($"x", $"1")] $"11".
Proof.
  eexists _, _, _. split; [vm_compute; reflexivity|]. split; [vm_compute; reflexivity|]. split; [vm_compute; reflexivity|].
  exists split10, 1, [$"10"; $"11"], $"11". repeat split.
Qed.
Print Assumptions C46_left_out_refuted.
