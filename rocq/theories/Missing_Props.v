(** What a build computes: C69. *)
From Coq Require Import ZArith List Ascii String Bool Arith Lia.
From Verif Require Import Base Str Graph_Model Backend_Model Executor_Model Executor_Spec Missing_Spec Missing_Proofs.
From Verif Require Import Executor_Cases Executor_Cases_Proofs.
Import ListNotations.
Open Scope list_scope.

(** A build that succeeds calls the producers for exactly the partitions they ask for of which no
    output is available, each of them once. *)
Theorem C69_exact : forall V (E : env V), iterates E -> forall sn, in_order E (g_arts (s_graph sn)) -> distinct_paths (g_arts (s_graph sn)) ->
  forall s s' u, build E sn s = (s', Ok u) ->
  exists new, log s' = new ++ log s /\ NoDup (calls new) /\
    forall p k, In (p, k) (calls new) <->
      exists i a d, produces (g_arts (s_graph sn)) p i a /\ asks E s' sn p k d /\ missing s (g_arts (s_graph sn)) p k (fingerprint_for E p d).
Proof. exact @exactly_missing. Qed.
Print Assumptions C69_exact.
(** Everything is computed the first time. *)
Example C69_exact_nonvacuous :
  iterates demo /\ in_order demo (g_arts g3) /\ distinct_paths (g_arts g3) /\
  let s := fst (snap g3 ex1) in snd (build demo sn3 s) = Ok tt /\ log s = [] /\ calls (log (built s sn3)) = [(split2, []); (double, [])].
Proof.
  split; [exact demo_iterates|]. split; [exact g3_in_order|]. split; [exact g3_distinct|]. cbn zeta.
  split; [vm_compute; reflexivity|]. split; vm_compute; reflexivity.
Qed.

(** However a build ends, also if it is stopped: nothing else was computed, and nothing twice. *)
Theorem C69_only : forall V (E : env V), iterates E -> forall sn, in_order E (g_arts (s_graph sn)) -> distinct_paths (g_arts (s_graph sn)) ->
  forall s s' r, build E sn s = (s', r) -> exists new, log s' = new ++ log s /\ NoDup (calls new) /\
    forall p k, In (p, k) (calls new) ->
      exists i a d, produces (g_arts (s_graph sn)) p i a /\ asks E s' sn p k d /\ missing s (g_arts (s_graph sn)) p k (fingerprint_for E p d).
Proof. exact @nothing_else. Qed.
Print Assumptions C69_only.
(** Stopped before the second producer is called. *)
Example C69_only_nonvacuous :
  let s := limit (fst (snap g3 ex1)) (Some 12) in
  (exists e, snd (build demo sn3 s) = Err e) /\ log s = [] /\ calls (log (built s sn3)) = [(double, [])].
Proof. cbn zeta. split; [eexists; vm_compute; reflexivity|]. split; vm_compute; reflexivity. Qed.

(** What one build has computed or found, a later one of any graph with the producer and its outputs
    does not compute again: same inputs, same call, never made. *)
Theorem C69_reused : forall V (E : env V), iterates E -> forall sn sn',
  in_order E (g_arts (s_graph sn)) -> in_order E (g_arts (s_graph sn')) -> distinct_paths (g_arts (s_graph sn')) ->
  forall s0 s1 u s2 s3 r new, build E sn s0 = (s1, Ok u) -> (forall t x, recorded s1 t x -> recorded s2 t x) ->
  build E sn' s2 = (s3, r) -> log s3 = new ++ log s2 ->
  forall p i a k d, produces (g_arts (s_graph sn)) p i a ->
  (forall j b, produces (g_arts (s_graph sn)) p j b -> produces (g_arts (s_graph sn')) p j b) ->
  asks E s1 sn p k d -> asks E s3 sn' p k d -> ~ In (p, k) (calls new).
Proof. exact @reused. Qed.
Print Assumptions C69_reused.
(** The smaller graph is built first: the larger one takes over b. *)
Example C69_reused_nonvacuous :
  let s1 := run g1 ex1 in let s2 := fst (snap g3 s1) in let sn := snd (snap g3 s1) in
  snd (build demo sn1 (fst (snap g1 ex1))) = Ok tt /\ snd (build demo sn s2) = Ok tt /\
  in_order demo (g_arts g1) /\ in_order demo (g_arts g3) /\ (forall j b, produces (g_arts g1) double j b -> produces (g_arts g3) double j b) /\
  calls (log s1) = [(double, [])] /\ calls (log (built s2 sn)) = [(split2, []); (double, [])].
Proof.
  cbn zeta. split; [vm_compute; reflexivity|]. split; [vm_compute; reflexivity|]. split; [exact g1_in_order|]. split; [exact g3_in_order|].
  split; [|split; vm_compute; reflexivity]. intros j b P. apply g1_produces in P. destruct P as (_ & -> & ->). exists $"b". split; [right; now left|reflexivity].
Qed.

(** Of producers of one name, those of one version share what they compute from the same inputs, and
    those of different versions never do. *)
Theorem C69_versions : forall V (E : env V) p q d, p_class p = p_class q ->
  (fingerprint_for E p d = fingerprint_for E q d <-> p_version p = p_version q).
Proof. exact @other_version. Qed.
Print Assumptions C69_versions.
Definition double2 := Producer $"double" 2 [($"x", raw "a")].
Definition b2 := out "b" double2 0.
Definition g1v := GraphDef $"g1" [($"a", raw "a"); ($"b", b2)].
Example C69_versions_nonvacuous : p_class double = p_class double2 /\ p_version double <> p_version double2.
Proof. split; [reflexivity|discriminate]. Qed.

(** A new version is computed, whatever older versions have left at its outputs. *)
Theorem C69_new_version : forall V (E : env V), iterates E -> forall sn, in_order E (g_arts (s_graph sn)) -> distinct_paths (g_arts (s_graph sn)) ->
  forall s s' u new, build E sn s = (s', Ok u) -> log s' = new ++ log s ->
  forall p i a k d, produces (g_arts (s_graph sn)) p i a -> asks E s' sn p k d ->
  (forall j b f, produces (g_arts (s_graph sn)) p j b -> available s (a_storage b) k f ->
     exists q, p_class q = p_class p /\ p_version q <> p_version p /\ f = fingerprint_for E q d) ->
  In (p, k) (calls new).
Proof. exact @recomputed. Qed.
Print Assumptions C69_new_version.
(** b is there from version 1, in the same storage; the same graph with version 2 computes it again. *)
Example C69_new_version_nonvacuous :
  let s := run g1 ex1 in let s2 := fst (snap g1v s) in let sn := snd (snap g1v s) in
  a_storage b1 = a_storage b2 /\ snd (build demo sn s2) = Ok tt /\ (exists f, available s2 (a_storage b2) [] f) /\
  calls (log s2) = [(double, [])] /\ calls (log (built s2 sn)) = [(double2, []); (double, [])].
Proof.
  cbn zeta. split; [reflexivity|]. split; [vm_compute; reflexivity|]. split; [|split; vm_compute; reflexivity].
  eexists. unfold available. vm_compute. eexists. split; [now left|]. split; reflexivity.
Qed.
