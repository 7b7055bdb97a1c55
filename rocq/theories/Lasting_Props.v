(** C71: results stay readable through their tags. *)
From Coq Require Import ZArith List Ascii String Bool Arith.
From Verif Require Import Base Str Graph_Model Backend_Model Executor_Model Executor_Spec Executor_Cases Executor_Cases_Proofs.
From Verif Require Import Lasting_Model Lasting_Spec Lasting_Proofs Lasting_Cases Lasting_Cases_Proofs.
Import ListNotations.
Open Scope list_scope.

(** Whatever a process does next - raw data changes, graphs are snapshotted and built, with any outcome,
    builds are stopped, snapshots are tagged - the data of every produced partition that is recorded
    stays as it is, if no two storages of produced artifacts share a path. *)
Theorem C71_data : forall V (E : env V), iterates E -> forall U, one_each U -> forall es s s' t x f, in_process E U s -> steps E U es s s' ->
  recorded s t x -> ps_fp x = Some f -> forall d, holds_data s' x d <-> holds_data s x d.
Proof. exact @data_stays. Qed.
Print Assumptions C71_data.
(** The partition built first, after the raw data has changed and the graph has been built again. *)
Example C71_data_nonvacuous : iterates demo /\ one_each storage_of_b /\ in_process demo storage_of_b first /\ steps demo storage_of_b after_first first third /\
  exists x f, recorded first (a_storage b1) x /\ ps_fp x = Some f /\ holds_data third x $"11" /\
    exists y f', recorded third (a_storage b1) y /\ ps_fp y = Some f' /\ holds_data third y $"22" /\ f' <> f.
Proof.
  split; [exact demo_iterates|]. split; [exact one_b|]. split; [exact first_process|]. split; [exact third_steps|]. eexists. eexists.
  split; [eexists; split; [vm_compute; reflexivity|left; reflexivity]|]. split; [vm_compute; reflexivity|]. split; [vm_compute; reflexivity|].
  eexists. eexists. split; [eexists; split; [vm_compute; reflexivity|right; left; reflexivity]|]. split; [vm_compute; reflexivity|]. split; [vm_compute; reflexivity|discriminate].
Qed.

(** A tag gives the snapshot it was put on, until it is overwritten. *)
Theorem C71_tag : forall V (E : env V), forall U, forall es s s' n t sn, steps E U es s s' -> leaves_tag n t es ->
  snd (from_tag n t (unlimited s)) = Ok sn -> snd (from_tag n t (unlimited s')) = Ok sn.
Proof. exact @tag_stays. Qed.
Print Assumptions C71_tag.
(** "v1" is still on the first snapshot, although it was tried to move it. *)
Example C71_tag_nonvacuous : steps demo storage_of_b after_first first third /\ leaves_tag $"g1" $"v1" after_first /\
  snd (from_tag (V := str) $"g1" $"v1" (unlimited first)) = Ok sn1 /\ snd (from_tag (V := str) $"g1" $"v2" (unlimited third)) = Ok sn2 /\ s_id sn1 <> s_id sn2 /\
  snd (from_tag (V := str) $"g1" $"v3" (unlimited third)) = Err ValueError.
Proof. split; [exact third_steps|]. split; [exact v1_left|]. repeat split; try (vm_compute; reflexivity). vm_compute. discriminate. Qed.

(** So produced artifacts read through a tag are what they were when it was put there, unless the tag is
    overwritten or its snapshot built again (which [C71_rebuilt] treats). *)
Theorem C71_read_partial : forall V (E : env V), iterates E -> forall U, one_each U -> forall es s s' n t sn p i a, in_process E U s -> steps E U es s s' ->
  ~ In (BuiltAt sn) es -> leaves_tag n t es -> snd (from_tag n t (unlimited s)) = Ok sn ->
  NoDup (map fst (g_arts (s_graph sn))) -> templated (g_arts (s_graph sn)) -> produces (g_arts (s_graph sn)) p i a ->
  snd (read_tagged E n t a (unlimited s')) = snd (read_at E sn a (unlimited s)).
Proof. exact @tagged_stays. Qed.
Print Assumptions C71_read_partial.
Example C71_read_partial_nonvacuous : in_process demo storage_of_b first /\ steps demo storage_of_b after_first first third /\ ~ In (BuiltAt sn1) after_first /\
  leaves_tag $"g1" $"v1" after_first /\ snd (from_tag (V := str) $"g1" $"v1" (unlimited first)) = Ok sn1 /\ NoDup (map fst (g_arts (s_graph sn1))) /\
  templated (g_arts (s_graph sn1)) /\ produces (g_arts (s_graph sn1)) double 0 b1 /\
  text_of (snd (read_tagged demo $"g1" $"v1" b1 (unlimited third))) = "11"%string /\ text_of (snd (read_tagged demo $"g1" $"v2" b1 (unlimited third))) = "22"%string.
Proof.
  split; [exact first_process|]. split; [exact third_steps|]. split; [exact sn1_not_built|]. split; [exact v1_left|]. split; [vm_compute; reflexivity|].
  split; [repeat constructor; cbn; intros H; repeat (destruct H as [H|H]; [discriminate|]); exact H|]. split; [exact g1_templated|]. split; [exact b1_produced|].
  split; vm_compute; reflexivity.
Qed.

(** Raw artifacts read through a tag are what they are now: their data may have been replaced since. *)
Theorem C71_raw_refuted : exists s s' es a, in_process demo storage_of_b s /\ steps demo storage_of_b es s s' /\ ~ In (BuiltAt sn1) es /\ leaves_tag $"g1" $"v1" es /\
  snd (from_tag (V := str) $"g1" $"v1" (unlimited s)) = Ok sn1 /\ In ($"a", a) (g_arts (s_graph sn1)) /\
  snd (read_tagged demo $"g1" $"v1" a (unlimited s)) = Ok $"1" /\ snd (read_tagged demo $"g1" $"v1" a (unlimited s')) = Ok $"2".
Proof. exact raw_changes. Qed.
Print Assumptions C71_raw_refuted.
