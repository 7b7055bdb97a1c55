(** C37: exactly what the id of a snapshot is made of. *)
From Coq Require Import ZArith List Ascii String Bool.
From Verif Require Import Base Str Int64_Spec Graph_Model Graph_Spec Backend_Model Executor_Model Executor_Spec Executor_Cases Ids_Spec Ids_Proofs.
Import ListNotations.
Open Scope list_scope.

(** The id is the xor of the fingerprints of the graph, of each artifact and producer, of each artifact's name and of each partition of raw
    data, each once and in any order; of nothing else. *)
Theorem C37_exact : forall V (E : env V) g s s' sn, NoDup (map fst (files s)) -> from_graph E g s = (s', Ok sn) ->
  (exists l, lists_pieces E g s l) /\ forall l, lists_pieces E g s l -> s_id sn = xor_all (map snd l).
Proof. exact @id_exact. Qed.
Print Assumptions C37_exact.
Example C37_exact_nonvacuous : NoDup (map fst (files ex1)) /\ from_graph demo g1 ex1 = (fst (snap g1 ex1), Ok sn1) /\
  has_piece demo g1 ex1 (PNode (NProducer double)) (node_fp demo (NProducer double)) /\
  has_piece demo g1 ex1 (PData (raw "a") (PSnapshot (Partition (a_storage (raw "a")) [] None None) (hash $"1")))
    (part_fp demo (PSnapshot (Partition (a_storage (raw "a")) [] None None) (hash $"1"))).
Proof.
  split; [repeat constructor; cbn; tauto|]. split; [vm_compute; reflexivity|]. split.
  - apply (has_producer _ _ _ $"b" b1 double 0); [right; now left|reflexivity].
  - apply (has_data _ _ _ $"a" (raw "a")); [now left|reflexivity|]. split; [reflexivity|]. exists [], $"1". repeat split.
Qed.

(** So ids tell two graphs, or one graph at two times, apart unless the fingerprints of what only one has xor to those of what only the other has. *)
Theorem C37_differs : forall V (E : env V) g g' s s1 s' s1' sn sn' common d d', NoDup (map fst (files s)) -> NoDup (map fst (files s')) ->
  from_graph E g s = (s1, Ok sn) -> from_graph E g' s' = (s1', Ok sn') ->
  lists_pieces E g s (common ++ d) -> lists_pieces E g' s' (common ++ d') ->
  (s_id sn = s_id sn' <-> xor_all (map snd d) = xor_all (map snd d')).
Proof. exact @id_differs. Qed.
Print Assumptions C37_differs.
(** One raw artifact whose file changes. *)
Definition one : graph_def := GraphDef $"one" [($"a", raw "a")].
Definition data_is (t : string) : psnapshot := PSnapshot (Partition (a_storage (raw "a")) [] None None) (hash $t).
Definition unchanged : list (piece * Z) :=
  [(PGraph, graph_fp demo one); (PNode (NArtifact (raw "a")), node_fp demo (NArtifact (raw "a"))); (PName (raw "a"), hash $"a")].
Lemma one_pieces : forall t, lists_pieces demo one (start [file "a" "" t]) (unchanged ++ [(PData (raw "a") (data_is t), part_fp demo (data_is t))]).
Proof.
  intro t. split; [repeat constructor; cbn; intuition discriminate|]. intros p z. split.
  - intros [H|[H|[H|[H|[]]]]]; apply pair_equal_spec in H; destruct H as [<- <-].
    + constructor.
    + apply (has_artifact _ _ _ $"a"). now left.
    + apply (has_name demo one _ $"a"). exists [], []. split; [reflexivity|intros []].
    + apply (has_data _ _ _ $"a"); [now left|reflexivity|]. split; [reflexivity|]. exists [], $t. repeat split.
  - intro H. destruct H as [|k a I|k a q i I O|key a (l1 & l2 & Q & N)|k a x I O (_ & F)].
    + now left.
    + destruct I as [I|[]]. injection I as <- <-. right. now left.
    + destruct I as [I|[]]. injection I as <- <-. discriminate.
    + destruct l1 as [|y l1]; [|destruct l1; discriminate]. cbn in Q. injection Q as <- <- <-. right. right. now left.
    + destruct I as [I|[]]. injection I as <- <-. do 3 right. left. cbn [raw a_storage st_kind] in F. destruct F as (k & d & D & P & ->).
      destruct k as [|c k]; [|discriminate]. change (dget location_eqb [file "a" "" t] ($"a", [], None) = Some d) in D.
      change (dget location_eqb [file "a" "" t] ($"a", [], None)) with (Some $t) in D. injection D as <-. reflexivity.
Qed.
Example C37_differs_nonvacuous : (exists s1 s2 sn sn', from_graph demo one (start [file "a" "" "1"]) = (s1, Ok sn) /\
    from_graph demo one (start [file "a" "" "2"]) = (s2, Ok sn') /\ s_id sn <> s_id sn') /\
  lists_pieces demo one (start [file "a" "" "1"]) (unchanged ++ [(PData (raw "a") (data_is "1"), part_fp demo (data_is "1"))]) /\
  lists_pieces demo one (start [file "a" "" "2"]) (unchanged ++ [(PData (raw "a") (data_is "2"), part_fp demo (data_is "2"))]).
Proof.
  split; [do 4 eexists; split; [vm_compute; reflexivity|split; [vm_compute; reflexivity|discriminate]]|]. split; apply one_pieces.
Qed.
