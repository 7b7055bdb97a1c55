(** C68: producers whose inputs are not in the graph. *)
From Coq Require Import ZArith List Ascii String Bool.
From Verif Require Import Base Str Graph_Model Graph_Spec Graph_Props Backend_Model Executor_Model Executor_Cases Dangling_Spec Dangling_Proofs.
From Verif Require Template_Spec Storage_Model Placement_Model Placement_Spec Placement_Props.
Import ListNotations.
Open Scope list_scope.

(** If all inputs of all producers are in the graph, a build finds the partitions of each, whatever the backend holds. *)
Theorem C68_complete : forall V (E : env V) sn p k x i s, complete (g_arts (s_graph sn)) ->
  In (k, x) (g_arts (s_graph sn)) -> a_output x = Some (p, i) -> fuel s = None ->
  exists s' l, get_producer_inputs E sn p s = (s', Ok l) /\ map fst l = map fst (p_inputs p) /\ files s' = files s /\ log s' = log s.
Proof. exact @complete_inputs. Qed.
Print Assumptions C68_complete.
Example C68_complete_nonvacuous : complete (g_arts g1) /\ fuel ex1 = None /\ exists k x p i, In (k, x) (g_arts g1) /\ a_output x = Some (p, i).
Proof.
  split; [|split; [reflexivity|do 4 eexists; split; [right; left; reflexivity|reflexivity]]].
  intros p a ((k & x & i & I & O) & D & N). cbn in I. destruct I as [I|[I|[]]]; injection I as <- <-; [discriminate|].
  injection O as <- <-. cbn in D. destruct D as [<-|[]]. apply N. now left.
Qed.

(** A graph with a producer whose input is not in it, be it that the artifact was never assigned or that the producer was made from the
    artifact as it was before, can be closed and snapshotted, but no build of it ever succeeds, and the producer's code is never called. *)
Theorem C68_never_built : forall V (E : env V) sn p a s, dangling (g_arts (s_graph sn)) p a -> snd (build E sn s) <> Ok tt.
Proof. exact @build_fails. Qed.
Print Assumptions C68_never_built.
Theorem C68_never_called : forall V (E : env V) sn p a s s' r, dangling (g_arts (s_graph sn)) p a -> build E sn s = (s', r) ->
  exists new, log s' = new ++ log s /\ forall x, In x new -> ~ called p x.
Proof. exact @never_called. Qed.
Print Assumptions C68_never_called.
(** When it is the producer's turn there is a KeyError, and no data has been touched by it. *)
Theorem C68_key_error : forall V (E : env V) sn p a s, dangling (g_arts (s_graph sn)) p a -> fuel s = None ->
  exists s', build_producer E sn p s = (s', Err KeyError) /\ files s' = files s /\ log s' = log s.
Proof. exact @producer_fails. Qed.
Print Assumptions C68_key_error.
(** a -> double -> b, where double was given the artifact before it was assigned. *)
Definition early : producer := of_x "double" (raw "{graph_name}/a").
Definition g_early := GraphDef $"early" [($"a", raw "a"); ($"b", out "b" early 0)].
Example C68_never_built_nonvacuous : dangling (g_arts g_early) early (raw "{graph_name}/a") /\
  (exists s' sn, from_graph demo g_early ex1 = (s', Ok sn) /\ snd (build demo sn s') = Err KeyError).
Proof.
  split.
  - split; [do 3 eexists; split; [right; left; reflexivity|reflexivity]|]. split; [now left|]. cbn. intuition discriminate.
  - do 2 eexists. split; vm_compute; reflexivity.
Qed.

(** Nothing keeps such a graph from being defined: closed graphs need not be complete. *)
Definition early_defined : context := fst (exit (fst (assign opened 7 $"s" squared)) 7).
Theorem C68_closed_refuted : exists c g p a, reachable (c, []) /\ sealed c g = Ok tt /\ dangling (arts (graph c g)) p a.
Proof.
  exists early_defined, 7, square, quot. split.
  - eapply reach_step; [eapply reach_step; [apply opened_reachable|]|].
    + apply (step_assign _ _ 7 $"s" squared). reflexivity.
    + apply (step_exit _ [] [] 7). reflexivity.
  - split; [reflexivity|]. split; [do 3 eexists; split; [left; reflexivity|reflexivity]|]. split; [now left|]. cbn. intuition discriminate.
Qed.
Print Assumptions C68_closed_refuted.

(** Assigning an artifact with the default storage always puts another one into the graph: one with its place filled in. A producer made
    before has an input that is not in the graph. *)
Theorem C68_replaced : forall other root g names x st a, Template_Spec.avoids $"{}" root -> Placement_Spec.context_ok g ->
  Placement_Spec.names_in_graph names -> Placement_Spec.defaulted_ok x ->
  Placement_Model.artifact_storage other (Placement_Model.rooted_at root) (Placement_Model.d_key_types x) (Placement_Model.d_extension x) = Ok st ->
  Placement_Model.place_default other root g names x = Ok a -> Placement_Model.a_storage a <> st.
Proof. exact replaced. Qed.
Print Assumptions C68_replaced.
Example C68_replaced_nonvacuous : forall other, exists st a, Template_Spec.avoids $"{}" $"/data" /\
  Placement_Spec.context_ok Placement_Props.example_graph /\ Placement_Spec.names_in_graph [$"eu"; $"orders"] /\
  Placement_Spec.defaulted_ok Placement_Props.raw /\
  Placement_Model.artifact_storage other (Placement_Model.rooted_at $"/data") (Placement_Model.d_key_types Placement_Props.raw)
    (Placement_Model.d_extension Placement_Props.raw) = Ok st /\
  Placement_Model.place_default other $"/data" Placement_Props.example_graph [$"eu"; $"orders"] Placement_Props.raw = Ok a /\
  Storage_Model.s_fields (Placement_Model.a_storage a) = [($"path",
    Some $"/data/sales/env=test/eu/orders/day_Y={day.Y}/day_m={day.m:02}/day_d={day.d:02}/orders.json")].
Proof.
  intro other. destruct Placement_Props.C53_path_nonvacuous as (A & B & C & D & _). do 2 eexists.
  split; [exact A|]. split; [exact B|]. split; [exact C|]. split; [exact D|].
  split; [vm_compute; reflexivity|]. split; [vm_compute; reflexivity|reflexivity].
Qed.
