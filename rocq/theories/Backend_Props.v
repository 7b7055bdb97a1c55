(** C38, C39: tags and partition metadata of the in-memory backend. *)
From Coq Require Import ZArith List Ascii String Bool Arith.
From Verif Require Import Base Str Graph_Model Graph_Props Backend_Model Backend_Spec Backend_Proofs.
Import ListNotations.
Open Scope list_scope.

Definition shop : graph_def := GraphDef $"shop" example_graph.
Definition monday : snapshot := Snapshot 11 shop.
Definition tuesday : snapshot := Snapshot 12 shop.
Definition elsewhere : snapshot := Snapshot 11 (GraphDef $"other" []).
Definition gfp (g : graph_def) : Z := Z.of_nat (List.length (g_arts g)).
Definition sfp (s : snapshot) : Z := s_id s.

(** Reading a tag gives the snapshot of the latest successful tagging under that graph name;
    unknown tags raise. *)
Theorem C38_read_tag : forall graph_fp snapshot_fp h b n t b' r, history graph_fp snapshot_fp h b ->
  read_snapshot_tag b n t = (b', r) ->
  r = match tagged h n t with Some s => Ok s | None => Err ValueError end.
Proof. exact read_tag. Qed.
Print Assumptions C38_read_tag.
(** [monday] is tagged, tagging [tuesday] fails, a graph of another name uses the same tag. *)
Definition tagging : list event :=
  [WroteTag elsewhere $"latest" false (Ok tt); WroteTag tuesday $"latest" false (Err ValueError);
   WroteTag monday $"latest" false (Ok tt)].
Lemma tagging_history : exists b, history gfp sfp tagging b /\
  snd (read_snapshot_tag b $"shop" $"latest") = Ok monday /\ snd (read_snapshot_tag b $"other" $"latest") = Ok elsewhere /\
  snd (read_snapshot_tag b $"shop" $"newest") = Err ValueError.
Proof.
  eexists. split.
  - eapply h_event; [eapply h_event; [eapply h_event; [apply h_empty|]|]|]; apply do_wt; reflexivity.
  - repeat split; vm_compute; reflexivity.
Qed.
Example C38_read_tag_nonvacuous : tagged tagging $"shop" $"latest" = Some monday /\
  tagged tagging $"other" $"latest" = Some elsewhere /\ tagged tagging $"shop" $"newest" = None.
Proof. repeat split; vm_compute; reflexivity. Qed.

(** Tagging works unless the tag is taken and may not be overwritten; then it raises and changes
    nothing at all. *)
Theorem C38_write_tag : forall graph_fp snapshot_fp h b s t o b' r, history graph_fp snapshot_fp h b ->
  write_snapshot_tag b s t o = (b', r) ->
  match tagged h (g_name (s_graph s)) t with
  | Some _ => if o then r = Ok tt else r = Err ValueError /\ b' = b
  | None => r = Ok tt
  end.
Proof. exact write_tag. Qed.
Print Assumptions C38_write_tag.
Example C38_write_tag_nonvacuous : exists b, history gfp sfp tagging b /\
  snd (write_snapshot_tag b tuesday $"latest" false) = Err ValueError /\
  snd (write_snapshot_tag b tuesday $"latest" true) = Ok tt /\
  snd (write_snapshot_tag b tuesday $"newest" false) = Ok tt.
Proof.
  eexists. split.
  - eapply h_event; [eapply h_event; [eapply h_event; [apply h_empty|]|]|]; apply do_wt; reflexivity.
  - repeat split; vm_compute; reflexivity.
Qed.

(** Reading the partitions of a snapshot and key gives each of those written for exactly this
    snapshot and key once, whatever else happened. *)
Theorem C39_links : forall graph_fp snapshot_fp h b s k b' l, history graph_fp snapshot_fp h b ->
  read_snapshot_partitions b s k = (b', l) -> NoDup l /\ forall p, In p l <-> linked_by h s k p.
Proof. exact read_links. Qed.
Print Assumptions C39_links.
Definition part (k : string) (f : option Z) (c : Z) : psnapshot :=
  PSnapshot (Partition (file "q/{d}/{input_fingerprint}.json" true) $k f None) c.
Definition linking : list event :=
  [WroteLinks monday $"q" [part "d=3" (Some 7%Z) 30; part "d=1" (Some 5%Z) 10];
   WroteLinks monday $"r" [part "d=9" (Some 9%Z) 90]; WroteLinks tuesday $"q" [part "d=8" (Some 8%Z) 80];
   WroteLinks monday $"q" [part "d=1" (Some 5%Z) 10; part "d=2" (Some 6%Z) 20]].
Example C39_links_nonvacuous : exists b, history gfp sfp linking b /\
  snd (read_snapshot_partitions b monday $"q") =
    [part "d=1" (Some 5%Z) 10; part "d=2" (Some 6%Z) 20; part "d=3" (Some 7%Z) 30] /\
  linked_by linking monday $"q" (part "d=2" (Some 6%Z) 20).
Proof.
  eexists. split; [|split].
  - eapply h_event; [eapply h_event; [eapply h_event; [eapply h_event; [apply h_empty|]|]|]|]; apply do_wl.
  - vm_compute. reflexivity.
  - eexists. split; [do 3 right; now left|]. right. now left.
Qed.

(** Reading the partitions of a storage gives those ever written to it or discovered when it was
    read for the first time, filtered by what is asked for. *)
Theorem C39_known : forall graph_fp snapshot_fp h b st fps disc b' l, history graph_fp snapshot_fp h b ->
  read_artifact_partitions b st fps disc = (b', Ok l) ->
  forall p, In p l <-> recorded (ReadArtifact st fps disc (Ok l) :: h) st p /\ wanted fps p.
Proof. exact read_known. Qed.
Print Assumptions C39_known.
(** What is discovered the first time is kept; later discoveries are never asked for. *)
Example C39_known_nonvacuous :
  let st := file "q/{d}/{input_fingerprint}.json" true in
  let b1 := fst (read_artifact_partitions empty_backend st [($"d=1", Some 5%Z)] (Ok [part "d=1" (Some 5%Z) 10])) in
  let b2 := write_artifact_partitions b1 st [part "d=2" (Some 6%Z) 20; part "d=1" (Some 4%Z) 9] in
  (exists h, history gfp sfp h b2 /\ recorded h st (part "d=1" (Some 5%Z) 10)) /\
  snd (read_artifact_partitions b2 st [($"d=1", Some 5%Z); ($"d=2", Some 6%Z)] (Ok [part "d=3" (Some 7%Z) 30])) =
    Ok [part "d=1" (Some 5%Z) 10; part "d=2" (Some 6%Z) 20].
Proof.
  cbn zeta. split; [|vm_compute; reflexivity].
  set (st := file "q/{d}/{input_fingerprint}.json" true).
  exists [WroteArtifact st [part "d=2" (Some 6%Z) 20; part "d=1" (Some 4%Z) 9];
          ReadArtifact st [($"d=1", Some 5%Z)] (Ok [part "d=1" (Some 5%Z) 10]) (Ok [part "d=1" (Some 5%Z) 10])]. split.
  - eapply h_event; [eapply h_event; [apply h_empty|]|apply do_wa]. apply do_ra. vm_compute. reflexivity.
  - apply rec_later. eapply rec_warmed; [|now left]. intros [(new & [])|(fps & disc & r & [])].
Qed.

(** So nothing recorded is lost: whatever happens next, it stays recorded (a discovery that
    raises is the only failure, and leaves the backend as it was). *)
Theorem C39_nothing_lost : forall graph_fp snapshot_fp h b e b' st s k, history graph_fp snapshot_fp h b ->
  does graph_fp snapshot_fp b e b' ->
  (forall p, In p (known_of b st) -> In p (known_of b' st)) /\ (forall p, In p (links_of b s k) -> In p (links_of b' s k)).
Proof. exact nothing_lost. Qed.
Print Assumptions C39_nothing_lost.
Example C39_nothing_lost_nonvacuous :
  In (part "d=1" (Some 5%Z) 10) (links_of (write_snapshot_partitions empty_backend monday $"q" [part "d=1" (Some 5%Z) 10]) monday $"q").
Proof. now left. Qed.

(** Partitions that are written for a storage and a snapshot at once are recorded for both. *)
Theorem C39_both : forall graph_fp snapshot_fp h b s k st new, history graph_fp snapshot_fp h b ->
  let b' := write_artifact_and_graph_partitions b s k st new in
  (forall p, In p (links_of b' s k) <-> linked_by h s k p \/ In p new) /\
  (forall p, In p (known_of b' st) <-> recorded h st p \/ In p new) /\
  history graph_fp snapshot_fp (WroteLinks s k new :: WroteArtifact st new :: h) b'.
Proof. exact both_written. Qed.
Print Assumptions C39_both.
Example C39_both_nonvacuous :
  let p := part "d=1" (Some 5%Z) 10 in
  let b := write_artifact_and_graph_partitions empty_backend monday $"q" (file "q/{d}/{input_fingerprint}.json" true) [p] in
  snd (read_snapshot_partitions b monday $"q") = [p] /\
  snd (read_artifact_partitions b (file "q/{d}/{input_fingerprint}.json" true) [] (Err FileNotFoundError)) = Ok [p].
Proof. split; vm_compute; reflexivity. Qed.

Theorem C39_failed_discovery : forall b st fps disc b' e, read_artifact_partitions b st fps disc = (b', Err e) ->
  b' = b /\ disc = Err e.
Proof. exact failed_discovery. Qed.
Print Assumptions C39_failed_discovery.
Example C39_failed_discovery_nonvacuous :
  read_artifact_partitions empty_backend (file "q" true) [] (Err FileNotFoundError) = (empty_backend, Err FileNotFoundError).
Proof. reflexivity. Qed.

(** Graphs and snapshots read back as last written under their name and fingerprint. *)
Theorem C39_graphs : forall graph_fp snapshot_fp h b n f b' r, history graph_fp snapshot_fp h b ->
  read_graph b n f = (b', r) -> r = match saved_graph graph_fp h n f with Some g => Ok g | None => Err KeyError end.
Proof. exact read_graph_saved. Qed.
Print Assumptions C39_graphs.
Example C39_graphs_nonvacuous :
  snd (read_graph (write_graph gfp empty_backend shop) $"shop" 5) = Ok shop /\ saved_graph gfp [WroteGraph shop] $"shop" 5 = Some shop.
Proof. split; vm_compute; reflexivity. Qed.
Theorem C39_snapshots : forall graph_fp snapshot_fp h b n f b' r, history graph_fp snapshot_fp h b ->
  read_snapshot b n f = (b', r) -> r = match saved_snapshot snapshot_fp h n f with Some s => Ok s | None => Err KeyError end.
Proof. exact read_snapshot_saved. Qed.
Print Assumptions C39_snapshots.
Example C39_snapshots_nonvacuous :
  snd (read_snapshot (write_snapshot sfp empty_backend monday) $"shop" 11) = Ok monday /\
  snd (read_snapshot (write_snapshot sfp empty_backend monday) $"shop" 12) = Err KeyError.
Proof. split; vm_compute; reflexivity. Qed.
