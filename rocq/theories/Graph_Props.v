(** C33-C36: producer outputs, graph definitions, dependencies and build orders. *)
From Coq Require Import ZArith List Ascii String Bool Arith.
From Verif Require Import Base Str Graph_Model Graph_Spec Graph_Proofs.
Import ListNotations.
Open Scope list_scope.

Definition file (n : string) (templated : bool) : storage := Storage $n SFile false templated.
Definition raw_a : artifact := Artifact $"int64 json" (file "a.json" false) None.
Definition raw_b : artifact := Artifact $"int64 json" (file "b.json" false) None.
Definition divide : producer := Producer $"Divide" 1 [($"a", raw_a); ($"b", raw_b)].
Definition quot : artifact := Artifact $"int64 json" (file "q/{input_fingerprint}.json" true) (Some (divide, 0)).
Definition rest : artifact := Artifact $"int64 json" (file "r/{input_fingerprint}.json" true) (Some (divide, 1)).
Definition square : producer := Producer $"Square" 1 [($"x", quot)].
Definition squared : artifact := Artifact $"int64 json" (file "s/{input_fingerprint}.json" true) (Some (square, 0)).
Definition example_graph : artifacts :=
  [($"squared", squared); ($"q", quot); ($"r", rest); ($"a", raw_a); ($"b", raw_b)].

(** [out] accepts exactly the lists of the right length whose artifacts suit their position and
    are not produced yet; it links the i-th to output i of the producer and changes nothing else. *)
Theorem C33_out : forall n_outputs defaults compatible p l l', l <> [] ->
  (out n_outputs defaults compatible p l = Ok l' <->
    List.length l = n_outputs /\ List.length l' = List.length l /\
    (forall i a, nth_error l i = Some a -> compatible i a = Ok tt /\ a_output a = None) /\
    (forall i s t, nth_error l i = Some (Artifact s t None) -> nth_error l' i = Some (Artifact s t (Some (p, i))))).
Proof. exact out_spec. Qed.
Print Assumptions C33_out.
Example C33_out_nonvacuous :
  let fresh n := Artifact $"int64 json" (file n true) None in
  out 2 [] (fun _ _ => Ok tt) divide [fresh "q/{input_fingerprint}.json"%string; fresh "r/{input_fingerprint}.json"%string]
    = Ok [quot; rest] /\
  out 2 [] (fun _ _ => Ok tt) divide [fresh "q"%string] = Err ValueError /\
  out 2 [] (fun _ _ => Ok tt) divide [fresh "q"%string; quot] = Err ValueError /\
  out 2 [] (fun i _ => if i =? 1 then Err TypeError else Ok tt) divide [fresh "q"%string; fresh "r"%string] = Err TypeError.
Proof. repeat split; reflexivity. Qed.

(** Without arguments the artifacts are those derived from the outputs' types. *)
Theorem C33_out_defaults : forall n_outputs defaults compatible p,
  out n_outputs defaults compatible p [] = out n_outputs defaults compatible p defaults.
Proof. exact out_defaults. Qed.
Print Assumptions C33_out_defaults.
Example C33_out_defaults_nonvacuous :
  out 1 [Artifact $"int64 json" (file "s/{input_fingerprint}.json" true) None] (fun _ _ => Ok tt) square [] = Ok [squared].
Proof. reflexivity. Qed.

(** In every history of definitions at most one graph is open. *)
Theorem C34_one_open : forall c pending g h, reachable (c, pending) -> open_in c g -> open_in c h -> g = h.
Proof. exact one_open. Qed.
Print Assumptions C34_one_open.
Definition start : context := Context None (fun _ => fresh_graph []).
Definition opened : context := fst (enter start 7).
Lemma opened_reachable : reachable (opened, [7]).
Proof. eapply reach_step; [apply (reach_start (fun _ => []))|apply step_enter; reflexivity]. Qed.
(** Graph 7 is being defined; graph 8 cannot be entered. *)
Example C34_one_open_nonvacuous : reachable (opened, [7]) /\ open_in opened 7 /\ ~ open_in opened 8 /\
  snd (enter opened 8) = Err ValueError /\ snd (enter opened 7) = Err ValueError.
Proof. split; [exact opened_reachable|]. repeat split; try reflexivity. discriminate. Qed.

(** Artifacts can be assigned exactly while their graph is open; anything else raises and
    changes nothing. *)
Theorem C34_window : forall c pending g k a c' r, reachable (c, pending) -> assign c g k a = (c', r) ->
  match r with
  | Ok _ => open_in c g /\ ctx c = Some g /\ arts (graph c' g) = arts (graph c g) ++ [(k, a)] /\
            (forall h, h <> g -> graph c' h = graph c h)
  | Err e => e = ValueError /\ c' = c /\ (~ open_in c g \/ In k (map fst (arts (graph c g))))
  end.
Proof. exact assign_window. Qed.
Print Assumptions C34_window.
Example C34_window_nonvacuous : reachable (opened, [7]) /\ snd (assign opened 7 $"a" raw_a) = Ok tt /\
  snd (assign opened 8 $"a" raw_a) = Err ValueError /\
  snd (assign (fst (assign opened 7 $"a" raw_a)) 7 $"a" raw_b) = Err ValueError /\
  snd (assign (fst (exit opened 7)) 7 $"a" raw_a) = Err ValueError.
Proof. split; [exact opened_reachable|]. repeat split; reflexivity. Qed.

(** Building, snapshotting, reading and writing fail while the graph is open; leaving the
    definition always succeeds, closes it and touches no other graph. *)
Theorem C34_open_not_sealed : forall c g, open_in c g -> sealed c g = Err ValueError.
Proof. exact open_not_sealed. Qed.
Print Assumptions C34_open_not_sealed.
Example C34_open_not_sealed_nonvacuous : open_in opened 7 /\ sealed opened 7 = Err ValueError.
Proof. split; reflexivity. Qed.
Theorem C34_exit : forall c pending g c' r, reachable (c, pending) -> exit c g = (c', r) ->
  r = Ok tt /\ ctx c' = None /\ sealed c' g = Ok tt /\ forall h, h <> g -> graph c' h = graph c h.
Proof. intros c pending g c' r R H. split; [exact (exit_accepts c pending g c' r R H)|exact (exit_closes c g c' r H)]. Qed.
Print Assumptions C34_exit.
Example C34_exit_nonvacuous : reachable (opened, [7]) /\ snd (exit opened 7) = Ok tt /\
  sealed (fst (exit opened 7)) 7 = Ok tt /\ ~ open_in (fst (exit opened 7)) 7.
Proof. split; [exact opened_reachable|]. repeat split; try reflexivity. discriminate. Qed.

(** [Graph.dependencies], which needs a finished graph, still answers once the graph has been
    reopened: the cached value is returned before the status is looked at. *)
Definition reopened : context := fst (enter (fst (exit opened 7)) 7).
Lemma reopened_reachable : reachable (reopened, [7]).
Proof.
  eapply reach_step; [eapply reach_step; [apply opened_reachable|]|].
  - apply (step_exit _ [] [] 7). reflexivity.
  - apply step_enter. reflexivity.
Qed.
Theorem C34_cached_dependencies_refuted : exists c pending g d, reachable (c, pending) /\ open_in c g /\
  snd (get_dependencies (graph c g)) = Ok d.
Proof. exists reopened, [7], 7, []. split; [exact reopened_reachable|]. split; reflexivity. Qed.
Print Assumptions C34_cached_dependencies_refuted.

(** The edges are exactly those from produced artifacts to their producer and from producers to
    their inputs, and every artifact and producer of the graph is listed. *)
Theorem C35_dependencies : forall g x y, depends (dependencies g) x y <-> needs g x y.
Proof. exact dependencies_needs. Qed.
Print Assumptions C35_dependencies.
Example C35_dependencies_nonvacuous :
  predecessors (dependencies example_graph) (NProducer divide) = [NArtifact raw_a; NArtifact raw_b] /\
  predecessors (dependencies example_graph) (NArtifact rest) = [NProducer divide] /\
  needs example_graph (NProducer square) (NArtifact quot).
Proof. repeat split; try reflexivity. eapply needs_input; [now left|reflexivity|now left]. Qed.
Theorem C35_nodes : forall g n, In n (map fst (dependencies g)) <-> defines g n.
Proof. exact dependencies_defines. Qed.
Print Assumptions C35_nodes.
Example C35_nodes_nonvacuous : defines example_graph (NProducer square) /\ defines example_graph (NArtifact raw_b) /\
  List.length (dependencies example_graph) = 7.
Proof.
  split; [eapply defines_producer; [now left|reflexivity]|]. split; [|reflexivity].
  apply (defines_artifact _ $"b"). do 4 right. now left.
Qed.

(** The topological sorter, on any dependency table: without a cycle every vertex comes once,
    after everything it depends on; with one it raises CycleError. *)
Theorem C35_order : forall deps l, static_order deps = Ok l -> build_order deps l.
Proof. exact static_order_ok. Qed.
Print Assumptions C35_order.
Example C35_order_nonvacuous : static_order (dependencies example_graph) =
  Ok [NArtifact raw_a; NArtifact raw_b; NProducer divide; NArtifact quot; NArtifact rest; NProducer square; NArtifact squared].
Proof. vm_compute. reflexivity. Qed.
Theorem C35_order_iff_acyclic : forall deps, (exists l, static_order deps = Ok l) <-> ~ cyclic (depends deps).
Proof. exact static_order_iff. Qed.
Print Assumptions C35_order_iff_acyclic.
Example C35_order_iff_acyclic_nonvacuous :
  let deps := [(NArtifact raw_a, [NArtifact raw_b]); (NArtifact raw_b, [NArtifact raw_a])] in
  cyclic (depends deps) /\ static_order deps = Err CycleError.
Proof.
  split; [|vm_compute; reflexivity]. exists (NArtifact raw_a). apply (path_more _ _ (NArtifact raw_b)); [|apply path_step]; vm_compute; now left.
Qed.
Theorem C35_cycle_raises : forall deps e, static_order deps = Err e -> e = CycleError /\ cyclic (depends deps).
Proof. exact static_order_err. Qed.
Print Assumptions C35_cycle_raises.
Example C35_cycle_raises_nonvacuous :
  static_order [(NArtifact raw_a, [NArtifact raw_a])] = Err CycleError.
Proof. vm_compute. reflexivity. Qed.

(** Artifacts are values holding their producer, so the dependencies of a graph never have a
    cycle and leaving a definition never raises. *)
Theorem C35_graphs_are_acyclic : forall g, exists l, static_order (dependencies g) = Ok l /\ build_order (dependencies g) l.
Proof. exact dependencies_order. Qed.
Print Assumptions C35_graphs_are_acyclic.
Example C35_graphs_are_acyclic_nonvacuous : List.length (all_nodes (dependencies example_graph)) = 7.
Proof. reflexivity. Qed.

(** C36 fails: after reopening, adding an artifact and closing, the dependencies (and with them
    every build) do not know it. *)
Definition added : context := fst (exit (fst (assign reopened 7 $"late" squared)) 7).
Lemma added_reachable : reachable (added, []).
Proof.
  eapply reach_step; [eapply reach_step; [apply reopened_reachable|]|].
  - apply (step_assign _ _ 7 $"late" squared). reflexivity.
  - apply (step_exit _ [] [] 7). reflexivity.
Qed.
Theorem C36_reopened_refuted : exists c g k a d, reachable (c, []) /\ sealed c g = Ok tt /\
  In (k, a) (arts (graph c g)) /\ snd (get_dependencies (graph c g)) = Ok d /\ ~ vertex d (NArtifact a).
Proof.
  exists added, 7, $"late", squared, []. split; [exact added_reachable|]. repeat split; try reflexivity; [now left|].
  intros (n & ps & [] & _).
Qed.
Print Assumptions C36_reopened_refuted.

(** What holds: the first closing covers every artifact. Afterwards the value never changes,
    whatever is done to the graph. *)
Theorem C36_first_closing_partial : forall c g c' r, cached (graph c g) = None -> exit c g = (c', r) ->
  snd (get_dependencies (graph c' g)) = Ok (dependencies (arts (graph c' g))).
Proof. exact first_closing. Qed.
Print Assumptions C36_first_closing_partial.
Example C36_first_closing_partial_nonvacuous :
  let c := fst (assign opened 7 $"late" squared) in
  cached (graph c 7) = None /\ arts (graph (fst (exit c 7)) 7) = [($"late", squared)].
Proof. split; reflexivity. Qed.
Theorem C36_stale : forall s s' g d, steps s s' -> cached (graph (fst s) g) = Some d ->
  snd (get_dependencies (graph (fst s') g)) = Ok d.
Proof. exact stale. Qed.
Print Assumptions C36_stale.
Example C36_stale_nonvacuous : cached (graph reopened 7) = Some [] /\ steps (reopened, [7]) (added, []).
Proof.
  split; [reflexivity|]. eapply steps_step; [apply (step_assign _ _ 7 $"late" squared); reflexivity|].
  eapply steps_step; [apply (step_exit _ [] [] 7); reflexivity|apply steps_refl].
Qed.
