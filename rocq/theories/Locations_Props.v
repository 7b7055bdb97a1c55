(** C58: the files of the executor's model (Executor_Model), which are at locations, behave as
    files at paths that are generated, globbed and parsed (Storage_Model). [other] is Python's
    [format] on the specs that are not modelled, [enc] how keys are told apart by the executor. *)
From Coq Require Import ZArith List Ascii String Bool Permutation.
From Verif Require Import Base Str Str_Proofs Numerals_Model Partitions_Model Partitions_Spec Format_Model Template_Spec
  Storage_Model Paths_Spec Locations_Spec Locations_Proofs.
From Verif Require Graph_Model Backend_Model Executor_Model.
Import ListNotations.
Open Scope list_scope.

(** C58. Asking for a partition succeeds on both sides or on none; its file has a path. *)
Theorem C58_generated : forall other enc S, (forall kts t, In (kts, t) S -> discoverable kts t) -> encodes enc S ->
  forall kts t fp key, In (kts, t) S -> key_ok kts key -> fp_ok fp ->
  (asks_fp t <-> fp <> None) /\
    Executor_Model.generate_partition (seen (kts, t)) fp (enc kts key) =
      Ok (Backend_Model.Partition (seen (kts, t)) (enc kts key) fp None) /\
    (exists p path, generate_partition other (local_file (print t) kts) fp key = Ok p /\
      p_fields p = [($"path", Some path)] /\ written other kts t fp key path)
  \/ ~ (asks_fp t <-> fp <> None) /\
    Executor_Model.generate_partition (seen (kts, t)) fp (enc kts key) = Err ValueError /\
    generate_partition other (local_file (print t) kts) fp key = Err ValueError.
Proof. exact same_generate. Qed.
Print Assumptions C58_generated.

(** C58. Different locations have different paths, also across storages. *)
Theorem C58_paths : forall other enc S, (forall kts t, In (kts, t) S -> discoverable kts t) -> apart other S ->
  encodes enc S -> forall kts t fp key path kts' t' fp' key' path', In (kts, t) S -> In (kts', t') S ->
  written other kts t fp key path -> written other kts' t' fp' key' path' ->
  ((print t, enc kts key, fp) = (print t', enc kts' key', fp') <-> path = path').
Proof. exact path_location. Qed.
Print Assumptions C58_paths.

(** C58. Without files both sides agree, and they still do after a write, which goes to the
    location on one side and to its path on the other ... *)
Theorem C58_written : forall other enc S, (forall kts t, In (kts, t) S -> discoverable kts t) -> apart other S ->
  encodes enc S ->
  same_files other enc S [] [] /\
  forall fs ps kts t fp key path d, same_files other enc S fs ps -> In (kts, t) S -> written other kts t fp key path ->
  same_files other enc S (dset Executor_Model.location_eqb fs (print t, enc kts key, fp) d) (dset str_eqb ps path d).
Proof. exact (fun other enc S D A N => conj (same_files_nil other enc S) (same_files_write other enc S D A N)). Qed.
Print Assumptions C58_written.

(** ... and after somebody wrote a file no storage would look at. *)
Theorem C58_stranger : forall other enc S, (forall kts t, In (kts, t) S -> discoverable kts t) ->
  forall fs ps path d, same_files other enc S fs ps ->
  (forall kts t w, In (kts, t) S -> spec_to_wildcard other (print t) kts = Ok w -> glob_match w path = false) ->
  same_files other enc S fs (dset str_eqb ps path d).
Proof. exact same_files_stranger. Qed.
Print Assumptions C58_stranger.

(** C58. Reading: the executor gets what is at the path. *)
Theorem C58_read : forall other enc S fs ps kts t fp key path, same_files other enc S fs ps -> In (kts, t) S ->
  written other kts t fp key path ->
  Executor_Model.content fs (Backend_Model.Partition (seen (kts, t)) (enc kts key) fp None) = dget str_eqb ps path.
Proof. exact same_content. Qed.
Print Assumptions C58_read.

(** C58. Discovery succeeds on both sides, with the same partitions, input fingerprints and
    content fingerprints, each once; only the order may differ. *)
Theorem C58_discovered : forall other enc S, (forall kts t, In (kts, t) S -> discoverable kts t) -> apart other S ->
  encodes enc S -> forall (V : Type) (E : Executor_Model.env V) fs ps, same_files other enc S fs ps ->
  forall kts t, In (kts, t) S -> forall fps, dict_keys fps -> Forall (fun kf => key_ok kts (fst kf)) fps ->
  exists l l',
    Executor_Model.discover E fs (seen (kts, t)) (map (fun kf => (enc kts (fst kf), snd kf)) fps) = Ok l /\
    discover_partitions other (Executor_Model.file_fp E) ps (print t) kts fps = Ok l' /\
    Permutation (map said l) (map (says (enc kts)) l').
Proof. exact (fun other enc S D A N V => @same_discovery other enc S D A N V). Qed.
Print Assumptions C58_discovered.

(** C58. Keys can be told apart this way ... *)
Theorem C58_encoded : forall S, encodes key_text S.
Proof. exact key_text_encodes. Qed.
Print Assumptions C58_encoded.

(** ... and storages are apart if their directories differ somewhere. *)
Theorem C58_directories : forall other S dirs,
  (forall x, In x S -> discoverable (fst x) (snd x) /\ in_directory (dirs x) (snd x)) ->
  (forall x y, In x S -> In y S -> x = y \/ differ (dirs x) (dirs y)) -> apart other S.
Proof. exact apart_directories. Qed.
Print Assumptions C58_directories.

(** C58 needs them to be apart: the files of one storage are found in the other. *)
Theorem C58_apart_refuted : forall other (content_fp : str -> Z),
  let kts := [($"i", IntField W64)] in let kts' := [($"j", IntField W64)] in
  let t := [TLit $"/d/"; THole (Hole $"i" [Attr $"value"] [])] in
  let t' := [TLit $"/d/"; THole (Hole $"j" [Attr $"value"] [])] in
  written other kts t None [($"i", FInt W64 5)] $"/d/5" /\ print t <> print t' /\
  exists p, discover_partitions other content_fp [($"/d/5", $"x")] (print t') kts' [] = Ok [(content_fp $"x", p)] /\
    p_key p = [($"j", FInt W64 5)].
Proof.
  intros other cf kts kts' t t'. split; [|split].
  - split; [|split; [exact I|split; [|reflexivity]]].
    + split.
      * intro n. unfold dmem, kts. cbn [dget]. now destruct (str_eqb $"i" n).
      * intros n f. unfold kts. cbn [dget]. destruct (str_eqb $"i" n); [|discriminate].
        intro E. inversion E. split; [exact I|reflexivity].
    + split; [|congruence]. intros [E|[E|[]]]; discriminate.
  - discriminate.
  - eexists. split; reflexivity.
Qed.
Print Assumptions C58_apart_refuted.

(** Raw files in /in, outputs in /out, with a fingerprint. *)
Definition raw_layout : layout := ([($"i", IntField W64)], [TLit $"/in/"; THole (Hole $"i" [Attr $"value"] [])]).
Definition out_layout : layout :=
  ([($"i", IntField W64)], [TLit $"/out/"; THole (Hole $"i" [Attr $"value"] []); TLit $"/"; THole fp_hole]).

Lemma int_key_ok : forall z, key_ok [($"i", IntField W64)] [($"i", FInt W64 z)].
Proof.
  intro z. split.
  - intro n. unfold dmem. cbn [dget]. now destruct (str_eqb $"i" n).
  - intros n f. cbn [dget]. destruct (str_eqb $"i" n); [|discriminate].
    intro E. inversion E. split; [exact I|reflexivity].
Qed.

Example C58_discoverable : forall kts t, In (kts, t) [raw_layout; out_layout] -> discoverable kts t.
Proof.
  assert (Hi : path_hole [($"i", IntField W64)] (Hole $"i" [Attr $"value"] [])).
  { right. exists (IntField W64), $"value". cbn [h_accs h_name h_spec].
    repeat (split; [reflexivity || (cbn; tauto) || (left; reflexivity) || (split; [discriminate|repeat constructor])|]).
    discriminate. }
  assert (U : one_class [($"i", IntField W64)]).
  { intros n n' c c'. cbn [dget]. destruct (str_eqb $"i" n), (str_eqb $"i" n'); congruence. }
  intros kts t [E|[E|[]]]; inversion E; subst; clear E.
  - split; [|split; [|split; [|split; [|split; [|exact U]]]]].
    + repeat (constructor; [|]); try exact Hi; try (cbn; repeat constructor; cbn; intuition discriminate).
    + cbn. intuition discriminate.
    + intros n cls. cbn [dget]. destruct (str_eqb _ n) eqn:E; [|discriminate]. apply str_eqb_spec in E. subst n.
      intro E. inversion E; subst. exists [$"value"]. split; [constructor|]. intro c. split.
      * intros [<-|[]]. exists []. right; left. reflexivity.
      * intros [spec H]. cbn [In] in H. destruct H as [H|[H|[]]]; try discriminate H. inversion H. now left.
    + intros h [H|[H|[]]]; inversion H; reflexivity.
    + intros s [H|[H|[]]]; inversion H. repeat constructor; cbn; intuition discriminate.
  - split; [|split; [|split; [|split; [|split; [|exact U]]]]].
    + repeat (constructor; [|]); try exact Hi; try (left; reflexivity); try (cbn; repeat constructor; cbn; intuition discriminate).
    + cbn. intuition discriminate.
    + intros n cls. cbn [dget]. destruct (str_eqb _ n) eqn:E; [|discriminate]. apply str_eqb_spec in E. subst n.
      intro E. inversion E; subst. exists [$"value"]. split; [constructor|]. intro c. split.
      * intros [<-|[]]. exists []. right; left. reflexivity.
      * intros [spec H]. cbn [In] in H. destruct H as [H|[H|[H|[H|[]]]]]; try discriminate H. inversion H. now left.
    + intros h [H|[H|[H|[H|[]]]]]; inversion H; reflexivity.
    + intros s [H|[H|[H|[H|[]]]]]; inversion H; repeat constructor; cbn; intuition discriminate.
Qed.

Example C58_apart : forall other, apart other [raw_layout; out_layout].
Proof.
  intro other. apply (C58_directories other [raw_layout; out_layout]
    (fun x => if contains_sub fp_template (print (snd x)) then [[]; $"out"] else [[]; $"in"])).
  - intros [kts t] H. split; [now apply C58_discoverable|].
    destruct H as [E|[E|[]]]; inversion E; subst.
    + split; [repeat constructor; cbn; intuition discriminate|]. eexists. reflexivity.
    + split; [repeat constructor; cbn; intuition discriminate|]. eexists. reflexivity.
  - intros x y [<-|[<-|[]]] [<-|[<-|[]]]; try (now left); right.
    + exists 1, $"in", $"out". repeat split. discriminate.
    + exists 1, $"out", $"in". repeat split. discriminate.
Qed.

(** A raw file, an output, another output under a fingerprint nobody asks for, and a stranger. *)
Definition some_locations : list (Executor_Model.location * str) :=
  [(($"/in/{i.value}", $"i5;", None), $"A"); (($"/out/{i.value}/{input_fingerprint}", $"i5;", Some 17%Z), $"B");
   (($"/out/{i.value}/{input_fingerprint}", $"i6;", Some 18%Z), $"C")].
Definition some_paths : list (str * str) :=
  [($"/in/5", $"A"); ($"/out/5/17", $"B"); ($"/out/6/18", $"C"); ($"/in/x/y", $"D")].

Lemma out_written : forall other z f path, fp_ok (Some f) ->
  generate_path other (Some f) [($"i", FInt W64 z)] (print (snd out_layout)) = Ok path ->
  written other (fst out_layout) (snd out_layout) (Some f) [($"i", FInt W64 z)] path.
Proof.
  intros other z f path F G. split; [apply int_key_ok|]. split; [exact F|]. split; [|exact G].
  split; [discriminate|]. intros _. cbn. tauto.
Qed.

Example C58_same_files : forall other, same_files other key_text [raw_layout; out_layout] some_locations some_paths.
Proof.
  intro other. pose proof (C58_written other key_text _ C58_discoverable (C58_apart other) (C58_encoded _)) as [W0 W].
  apply (C58_stranger other key_text _ C58_discoverable some_locations
           [($"/in/5", $"A"); ($"/out/5/17", $"B"); ($"/out/6/18", $"C")] $"/in/x/y" $"D").
  - apply (W [(($"/in/{i.value}", $"i5;", None), $"A"); (($"/out/{i.value}/{input_fingerprint}", $"i5;", Some 17%Z), $"B")]
             [($"/in/5", $"A"); ($"/out/5/17", $"B")] (fst out_layout) (snd out_layout) (Some 18%Z) [($"i", FInt W64 6)] $"/out/6/18" $"C").
    + apply (W [(($"/in/{i.value}", $"i5;", None), $"A")]
               [($"/in/5", $"A")] (fst out_layout) (snd out_layout) (Some 17%Z) [($"i", FInt W64 5)] $"/out/5/17" $"B").
      * apply (W [] [] (fst raw_layout) (snd raw_layout) None [($"i", FInt W64 5)] $"/in/5" $"A"); [exact W0|now left|].
        split; [apply int_key_ok|]. split; [exact I|]. split; [|reflexivity].
        split; [|congruence]. intros [E|[E|[]]]; discriminate.
      * right; now left.
      * apply out_written; [split; reflexivity || (intro; discriminate)|reflexivity].
    + right; now left.
    + apply out_written; [split; reflexivity || (intro; discriminate)|reflexivity].
  - intros kts t w [E|[E|[]]] Ew; inversion E; subst; vm_compute in Ew; inversion Ew; reflexivity.
Qed.

Example C58_nonvacuous : forall other (V : Type) (E : Executor_Model.env V),
  let fps := [([($"i", FInt W64 5)], Some 17%Z); ([($"i", FInt W64 6)], Some 19%Z)] in
  dict_keys fps /\ Forall (fun kf => key_ok (fst out_layout) (fst kf)) fps /\
  Executor_Model.discover E some_locations (seen out_layout) (map (fun kf => (key_text (fst out_layout) (fst kf), snd kf)) fps) =
    Ok [Backend_Model.PSnapshot (Backend_Model.Partition (seen out_layout) $"i5;" (Some 17%Z) None) (Executor_Model.file_fp E $"B")] /\
  exists p, discover_partitions other (Executor_Model.file_fp E) some_paths (print (snd out_layout)) (fst out_layout) fps =
    Ok [(Executor_Model.file_fp E $"B", p)] /\ p_key p = [($"i", FInt W64 5)] /\ p_fp p = Some 17%Z.
Proof.
  intros other V E fps. split; [repeat constructor; intros []|]. split; [constructor; [apply int_key_ok|constructor; [apply int_key_ok|constructor]]|].
  split; [reflexivity|]. eexists. split; [reflexivity|]. split; reflexivity.
Qed.
