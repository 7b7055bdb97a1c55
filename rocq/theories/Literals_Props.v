(** C48: the default ids of literals. *)
From Coq Require Import ZArith List Ascii String Bool.
From Verif Require Import Base Str Partitions_Model Format_Model Template_Spec Storage_Model IO_Model IO_Spec Placement_Model Placement_Spec
  Literals_Spec Literals_Proofs.
Import ListNotations.
Open Scope list_scope.

(** An artifact in a literal with the default id gets, in a graph, the id made of its names, its key and, if it is produced, its input
    fingerprint; a value it has stays. *)
Theorem C48_default_id : forall other value g names x, preset_ok value -> context_ok g -> names_in_graph names -> defaulted_ok x ->
  bind (artifact_storage other (string_literal default_id value None) (d_key_types x) (d_extension x)) (fun st =>
    place other (Some g) names {| a_storage := st; a_produced := d_produced x |}) =
  Ok {| a_storage := string_literal (literal_id g names x) value (Some (d_key_types x)); a_produced := d_produced x |}.
Proof. exact default_id_placed. Qed.
Print Assumptions C48_default_id.
Theorem C48_raw_id : forall other value g names x, preset_ok value -> context_ok g -> names_in_graph names -> defaulted_ok x ->
  d_produced x = false ->
  into_graph other (string_literal default_id value None) (d_key_types x) (d_extension x) (g_name g) (g_tags g) names =
  Ok (string_literal (literal_id g names x) value (Some (d_key_types x))).
Proof. exact into_graph_id. Qed.
Print Assumptions C48_raw_id.
Definition lit_graph : context := {| g_name := $"shop"; g_tags := [($"env", $"test")] |}.
Definition daily : defaulted := {| d_key_types := [($"d", DateField)]; d_extension := $".json"; d_produced := true |}.
Definition whole : defaulted := {| d_key_types := []; d_extension := $".json"; d_produced := false |}.
Example C48_default_id_nonvacuous : preset_ok (Some $"[1]") /\ context_ok lit_graph /\ names_in_graph [$"a"; $"b"] /\
  defaulted_ok daily /\ defaulted_ok whole /\
  literal_id lit_graph [$"a"; $"b"] daily = $"shop/env=test/a/b/d_Y={d.Y}/d_m={d.m:02}/d_d={d.d:02}/{input_fingerprint}/b.json" /\
  literal_id lit_graph [$"a"; $"b"] whole = $"shop/env=test/a/b/b.json".
Proof.
  split; [intros v E; injection E as <-; repeat split; [repeat constructor; cbn; intuition discriminate|discriminate|discriminate]|].
  split; [split; [repeat constructor; cbn; intuition discriminate|]; intros t v [E|[]]; injection E as <- <-; split; repeat constructor; cbn; intuition discriminate|].
  split; [split; [discriminate|]; repeat constructor; try discriminate; cbn; intuition discriminate|].
  split; [split; [split; [repeat constructor; cbn; tauto|]; intros n c [E|[]]; injection E as <- <-; repeat constructor; try discriminate; cbn; intuition discriminate|]|].
  { split; [intros n [<-|[]]; cbn; intuition discriminate|repeat constructor; cbn; intuition discriminate]. }
  split; [split; [split; [constructor|intros n c []]|split; [intros n []|repeat constructor; cbn; intuition discriminate]]|].
  split; vm_compute; reflexivity.
Qed.
