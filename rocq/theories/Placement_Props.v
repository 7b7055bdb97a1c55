(** C53, C54 and C55: where the artifacts of a graph are stored. [other] is Python's [format] on
    the specs that are not modelled. *)
From Coq Require Import ZArith List Ascii String Bool.
From Verif Require Import Base Str Partitions_Model TypedBox_Model TypedBox_Spec Format_Model Template_Spec Storage_Model
  Paths_Spec Placement_Model Placement_Spec Placement_Proofs Places_Proofs.
Import ListNotations.
Open Scope list_scope.

(** C53. An artifact with the default LocalFile storage assigned in a graph: its path is
    root/graph/tag=value/.../names/.../key=component/.../[fingerprint/]name.extension, the levels
    without content left out; the fingerprint stays open for produced artifacts only. *)
Theorem C53_path : forall other root g names x, avoids $"{}" root -> context_ok g -> names_in_graph names -> defaulted_ok x ->
  place_default other root g names x =
  Ok {| a_storage := local_file (default_place root g names x) (d_key_types x); a_produced := d_produced x |}.
Proof. exact placed_exactly. Qed.
Print Assumptions C53_path.

(** C53. Once placed, the storage does not change: assigned again, in whatever graph and under
    whatever names, the artifact stays where it is (and then has two names for its files). *)
Theorem C53_placed_for_good : forall other root, avoids $"{}" root ->
  forall g names x g' names' a, context_ok g -> names_in_graph names -> defaulted_ok x ->
  place_default other root g names x = Ok a -> place other g' names' a = Ok a.
Proof. exact placed_again. Qed.
Print Assumptions C53_placed_for_good.

(** C53. The restriction on the names of key fields is needed: partitioned by a field called
    "name" or "names", no artifact can be assigned in any graph. *)
Theorem C53_name_field_refuted : forall other root, avoids $"{}" root ->
  forall g names x, context_ok g -> names_in_graph names -> plain_names (d_key_types x) ->
  avoids $"{}/" (d_extension x) ->
  In $"name" (map fst (d_key_types x)) \/ In $"names" (map fst (d_key_types x)) ->
  (forall n, In n [$"extension"; $"graph_name"; $"path_tags"] -> ~ In n (map fst (d_key_types x))) ->
  place_default other root g names x = Err AttributeError.
Proof. exact name_captured. Qed.
Print Assumptions C53_name_field_refuted.

(** C54. In every box of artifacts, after any operations, whatever the casts: what is found
    under a path of names was cast in the namespace, and under the key, of exactly this path. *)
Theorem C54_cast_where_found : forall V R (cast : list str -> str -> R -> result V) s, reachable cast s ->
  forall path v, find (Sub (st_data s)) path = Some (Leaf v) ->
  exists x, cast (removelast path) (last path []) x = Ok v.
Proof. intros V R cast s H. exact (here_reachable cast s H). Qed.
Print Assumptions C54_cast_where_found.

(** C54. Whatever the storages and the graphs being defined: each artifact in a box was placed
    under exactly the names it is found under. *)
Theorem C54_placed_where_found : forall other s names a, reachable (cast_artifact other) s -> has_artifact s names a ->
  exists ctx a0, place other ctx names a0 = Ok a.
Proof. exact placed_where_found. Qed.
Print Assumptions C54_placed_where_found.

(** C54. Two artifacts of a graph never share a file: no path is that of a partition of one and
    of a partition of the other, whatever fingerprints and keys. *)
Theorem C54_no_shared_file : forall other root, avoids $"{}" root ->
  forall g s names names' a a' path, context_ok g -> reachable (cast_ok other root g) s ->
  has_artifact s names a -> has_artifact s names' a' -> names <> names' -> Forall segment names -> Forall segment names' ->
  file_of other a path -> ~ file_of other a' path.
Proof. exact files_different. Qed.
Print Assumptions C54_no_shared_file.

(** C54. Nor do artifacts of two graphs with different names. *)
Theorem C54_no_shared_file_between_graphs : forall other root, avoids $"{}" root ->
  forall g g' s s' names names' a a' path,
  context_ok g -> context_ok g' -> reachable (cast_ok other root g) s -> reachable (cast_ok other root g') s' ->
  segment (g_name g) -> segment (g_name g') -> g_name g <> g_name g' ->
  has_artifact s names a -> has_artifact s' names' a' -> Forall segment names -> Forall segment names' ->
  file_of other a path -> ~ file_of other a' path.
Proof. exact graphs_different. Qed.
Print Assumptions C54_no_shared_file_between_graphs.

(** C55. What is discovered for an artifact does not change when files of other artifacts of the
    graph are written, however many and whatever their contents. *)
Theorem C55_undisturbed : forall other root, avoids $"{}" root ->
  forall content (content_fp : content -> Z) g s names a fps writes fs,
  context_ok g -> reachable (cast_ok other root g) s -> has_artifact s names a ->
  Forall segment names -> Forall no_wildcard names ->
  Forall (fun w : str * content => exists names' a', has_artifact s names' a' /\ names' <> names /\
            Forall segment names' /\ file_of other a' (fst w)) writes ->
  discover other content_fp (dupdate str_eqb fs writes) a fps = discover other content_fp fs a fps.
Proof. exact discovery_same. Qed.
Print Assumptions C55_undisturbed.

(** A graph with a raw and a produced artifact, partitioned by a date. *)
Definition no_format : cvalue -> str -> result str := fun _ _ => Err ValueError.
Definition example_graph : context := {| g_name := $"sales"; g_tags := [($"env", $"test")] |}.
Definition raw : defaulted := {| d_key_types := [($"day", DateField)]; d_extension := $".json"; d_produced := false |}.
Definition made : defaulted := {| d_key_types := [($"day", DateField)]; d_extension := $".json"; d_produced := true |}.
Definition plain : defaulted := {| d_key_types := []; d_extension := $".json"; d_produced := false |}.

Ltac chars := repeat constructor; cbn; intuition discriminate.
Lemma example_context : context_ok example_graph.
Proof. split; [chars|]. intros t v [E|[]]. injection E as <- <-. split; chars. Qed.
Lemma example_keys : forall e p, avoids $"{}/" e ->
  defaulted_ok {| d_key_types := [($"day", DateField)]; d_extension := e; d_produced := p |}.
Proof.
  intros e p A. split; [split|split; [|exact A]].
  - constructor; [intros []|constructor].
  - intros n c [E|[]]. injection E as <- <-. split; [split; [discriminate|]; chars|reflexivity].
  - intros n [<-|[]] I. cbn in I. intuition discriminate.
Qed.
Lemma raw_ok : defaulted_ok raw.
Proof. apply example_keys. chars. Qed.
Lemma made_ok : defaulted_ok made.
Proof. apply example_keys. chars. Qed.
Lemma plain_ok : defaulted_ok plain.
Proof. split; [split; [constructor|intros n c []]|]. split; [intros n []|chars]. Qed.

Example C53_path_nonvacuous : avoids $"{}" $"/data" /\ context_ok example_graph /\ names_in_graph [$"eu"; $"orders"] /\
  defaulted_ok raw /\ defaulted_ok made /\
  default_place $"/data" example_graph [$"eu"; $"orders"] raw =
    $"/data/sales/env=test/eu/orders/day_Y={day.Y}/day_m={day.m:02}/day_d={day.d:02}/orders.json" /\
  default_place $"/data" example_graph [$"eu"; $"orders"] made =
    $"/data/sales/env=test/eu/orders/day_Y={day.Y}/day_m={day.m:02}/day_d={day.d:02}/{input_fingerprint}/orders.json".
Proof.
  split; [chars|]. split; [exact example_context|]. split; [split; [discriminate|repeat constructor; try discriminate; cbn; intuition discriminate]|].
  split; [exact raw_ok|]. split; [exact made_ok|]. split; reflexivity.
Qed.

Example C53_placed_for_good_nonvacuous : exists a,
  place_default no_format $"/data" example_graph [$"eu"; $"orders"] made = Ok a /\
  place no_format (Some {| g_name := []; g_tags := [] |}) [] a = Ok a /\ place no_format None [$"us"] a = Ok a.
Proof. eexists. split; [vm_compute; reflexivity|]. split; vm_compute; reflexivity. Qed.

Example C53_name_field_nonvacuous :
  let x := {| d_key_types := [($"name", IntField W64)]; d_extension := $".json"; d_produced := false |} in
  plain_names (d_key_types x) /\ In $"name" (map fst (d_key_types x)) /\
  place_default no_format $"/data" example_graph [$"orders"] x = Err AttributeError.
Proof.
  cbv zeta. split; [split|].
  - constructor; [intros []|constructor].
  - intros n c [E|[]]. injection E as <- <-. split; [split; [discriminate|]; chars|reflexivity].
  - split; [now left|vm_compute; reflexivity].
Qed.

(** A box in use: artifacts assigned at creation, one more under a nested name later. *)
Definition example_items : list (str * input {x | defaulted_ok x}) :=
  [($"orders", IVal (exist _ raw raw_ok)); ($"all", IVal (exist _ plain plain_ok))].
Definition example_box : state artifact :=
  run (cast_ok no_format $"/data" example_graph)
    {| st_status := Open;
       st_data := match box_new (cast_ok no_format $"/data" example_graph) example_items with Ok d => d | Err _ => [] end |}
    [EOp [] (OSet $"eu.orders" (IVal (exist _ made made_ok)))].
Lemma example_reachable : reachable (cast_ok no_format $"/data" example_graph) example_box.
Proof.
  exists example_items. eexists. exists [EOp [] (OSet $"eu.orders" (IVal (exist _ made made_ok)))].
  split; [|reflexivity]. vm_compute. reflexivity.
Qed.
Definition artifact_at (s : state artifact) (names : list str) : artifact :=
  match find (Sub (st_data s)) names with
  | Some (Leaf a) => a
  | _ => {| a_storage := {| s_fields := []; s_key_types := None |}; a_produced := false |}
  end.
Definition a_day : pkey := [($"day", FDate 2024 3 9)].

Example C54_nonvacuous :
  reachable (cast_ok no_format $"/data" example_graph) example_box /\
  (exists a, has_artifact example_box [$"orders"] a /\
     file_of no_format a $"/data/sales/env=test/orders/day_Y=2024/day_m=03/day_d=09/orders.json") /\
  (exists a, has_artifact example_box [$"eu"; $"orders"] a /\
     file_of no_format a $"/data/sales/env=test/eu/orders/day_Y=2024/day_m=03/day_d=09/77/orders.json").
Proof.
  split; [exact example_reachable|]. split.
  - exists (artifact_at example_box [$"orders"]). split; [vm_compute; reflexivity|].
    exists None, a_day. eexists. split; vm_compute; reflexivity.
  - exists (artifact_at example_box [$"eu"; $"orders"]). split; [vm_compute; reflexivity|].
    exists (Some 77%Z), a_day. eexists. split; vm_compute; reflexivity.
Qed.

Example C54_placed_where_found_nonvacuous :
  let st t := {| s_fields := [($"path", Some t)]; s_key_types := Some [] |} in
  let items := [($"x", IMap [($"y", IVal (Some example_graph, {| a_storage := st $"{names}/{name}.txt"; a_produced := false |}))])] in
  exists d, box_new (cast_artifact no_format) items = Ok d /\
    has_artifact {| st_status := Open; st_data := d |} [$"x"; $"y"] {| a_storage := st $"x/y/y.txt"; a_produced := false |}.
Proof. cbv zeta. eexists. split; vm_compute; reflexivity. Qed.

Example C55_nonvacuous :
  let a := artifact_at example_box [$"all"] in
  let own := $"/data/sales/env=test/all/all.json" in
  let others := $"/data/sales/env=test/eu/orders/day_Y=2024/day_m=03/day_d=09/77/orders.json" in
  has_artifact example_box [$"all"] a /\ Forall no_wildcard [$"all"] /\
  (exists found, discover no_format (fun c : Z => c) [(own, 5%Z)] a [] = Ok [found] /\ fst found = 5%Z) /\
  discover no_format (fun c : Z => c) (dupdate str_eqb [(own, 5%Z)] [(others, 6%Z)]) a [] =
  discover no_format (fun c : Z => c) [(own, 5%Z)] a [].
Proof.
  cbv zeta. split; [vm_compute; reflexivity|]. split; [chars|]. split; [|vm_compute; reflexivity].
  eexists. split; vm_compute; reflexivity.
Qed.

(** C54. A separator in a name: the artifacts "a/a" and "a.a.a" of one graph have the same file. *)
Definition clash_items : list (str * input {x | defaulted_ok x}) :=
  [($"a/a", IVal (exist _ plain plain_ok)); ($"a.a.a", IVal (exist _ plain plain_ok))].
Definition clash_box : state artifact :=
  {| st_status := Open;
     st_data := match box_new (cast_ok no_format $"/data" example_graph) clash_items with Ok d => d | Err _ => [] end |}.
Theorem C54_separator_refuted : exists s a a' path,
  reachable (cast_ok no_format $"/data" example_graph) s /\
  has_artifact s [$"a/a"] a /\ has_artifact s [$"a"; $"a"; $"a"] a' /\ file_of no_format a path /\ file_of no_format a' path.
Proof.
  exists clash_box, (artifact_at clash_box [$"a/a"]), (artifact_at clash_box [$"a"; $"a"; $"a"]),
    $"/data/sales/env=test/a/a/a/a.json".
  split; [|split; [vm_compute; reflexivity|split; [vm_compute; reflexivity|]]].
  - exists clash_items. eexists. exists []. split; [|reflexivity]. vm_compute. reflexivity.
  - split; exists None, []; eexists; split; vm_compute; reflexivity.
Qed.
Print Assumptions C54_separator_refuted.

(** C54. A separator in the name of a graph: "a" with an artifact "b.c", "a/b" with an artifact "c". *)
Theorem C54_graph_separator_refuted : exists a a' path,
  place_default no_format $"/data" {| g_name := $"a"; g_tags := [] |} [$"b"; $"c"] plain = Ok a /\
  place_default no_format $"/data" {| g_name := $"a/b"; g_tags := [] |} [$"c"] plain = Ok a' /\
  file_of no_format a path /\ file_of no_format a' path.
Proof.
  do 2 eexists. exists $"/data/a/b/c/c.json". split; [vm_compute; reflexivity|]. split; [vm_compute; reflexivity|].
  split; exists None, []; eexists; split; vm_compute; reflexivity.
Qed.
Print Assumptions C54_graph_separator_refuted.

(** C55. A wildcard in a name: discovery of the artifact "*" fails once "b" has been written. *)
Theorem C55_wildcard_refuted : exists a a' path,
  place_default no_format $"/data" example_graph [$"*"] plain = Ok a /\
  place_default no_format $"/data" example_graph [$"b"] plain = Ok a' /\ file_of no_format a' path /\
  discover no_format (fun c : Z => c) [] a [] = Ok [] /\
  discover no_format (fun c : Z => c) (dupdate str_eqb [] [(path, 6%Z)]) a [] = Err ValueError.
Proof.
  do 2 eexists. exists $"/data/sales/env=test/b/b.json". split; [vm_compute; reflexivity|]. split; [vm_compute; reflexivity|].
  split; [exists None, []; eexists; split; vm_compute; reflexivity|]. split; vm_compute; reflexivity.
Qed.
Print Assumptions C55_wildcard_refuted.
