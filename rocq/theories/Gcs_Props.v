(** C60: storage in a bucket. [other] is Python's [format] on the specs that are not modelled,
    [listed] what is listed for a wildcard, [info] what is reported about an object. *)
From Coq Require Import ZArith List Ascii String Bool.
From Verif Require Import Base Str Partitions_Model Partitions_Spec Format_Model Template_Spec Storage_Model Paths_Spec
  Discovery_Proofs Layout_Proofs IO_Model Placement_Model Placement_Spec Gcs_Model Gcs_Spec Gcs_Proofs Gcs_Place_Proofs.
Import ListNotations.
Open Scope list_scope.

(** The object of a partition is the text its key gives for "bucket/path", although bucket and path
    are filled in one by one. For all texts. *)
Theorem C60_located : forall other bucket path kts fp key p,
  generate_partition other (gcs_file bucket path kts) fp key = Ok p ->
  exists object, qualified_path p = Ok object /\ generate_path other fp key (bucket ++ $"/" ++ path) = Ok object.
Proof. exact located. Qed.
Print Assumptions C60_located.

(** Every discovered partition is at an existing object, has the fingerprint of its md5 hash (or
    crc32c) and the input fingerprint requested for its key, and is where its key is written to. For
    all texts and whatever is listed. *)
Theorem C60_sound : forall other content from_string (info : content -> object_info) listed objects bucket path kts fps l,
  gcs_discover other from_string info listed objects bucket path kts fps = Ok l -> dict_keys fps ->
  forall z p, In (z, p) l -> exists b o c h, p_fields p = [($"bucket", Some b); ($"path", Some o)] /\
    dget str_eqb objects (b ++ $"/" ++ o) = Some c /\ known_by (info c) h /\ z = from_string h /\
    asked fps (p_key p) (p_fp p) /\
    generate_path other (p_fp p) (p_key p) bucket = Ok b /\ generate_path other (p_fp p) (p_key p) path = Ok o.
Proof. exact gcs_exists. Qed.
Print Assumptions C60_sound.

(** A partition whose object is there is discovered. Partial: for the templates of C17 and C19. *)
Theorem C60_rediscovered_partial : forall other content from_string (info : content -> object_info) listed objects kts tb tp fps l,
  discoverable kts (in_bucket tb tp) -> lists_all listed objects ->
  gcs_discover other from_string info listed objects (print tb) (print tp) kts fps = Ok l -> dict_keys fps ->
  forall fp key p object c h, key_ok kts key -> fp_ok fp ->
  generate_partition other (gcs_file (print tb) (print tp) (Some kts)) fp key = Ok p -> qualified_path p = Ok object ->
  dget str_eqb objects object = Some c -> known_by (info c) h -> asked fps key fp ->
  exists p', In (from_string h, p') l /\ p_fp p' = fp /\ same_key (p_key p') key /\ p_fields p' = p_fields p.
Proof. exact gcs_again. Qed.
Print Assumptions C60_rediscovered_partial.

(** Discovery succeeds when everything listed exists and was written with this template. *)
Theorem C60_succeeds_partial : forall other content from_string (info : content -> object_info) listed objects kts tb tp fps,
  discoverable kts (in_bucket tb tp) ->
  (forall w object, spec_to_wildcard other (print (in_bucket tb tp)) kts = Ok w -> In object (listed w) ->
     In object (map fst objects) /\ exists fp key, written other kts (in_bucket tb tp) fp key object) ->
  exists l, gcs_discover other from_string info listed objects (print tb) (print tp) kts fps = Ok l.
Proof. exact (fun other content => @gcs_succeeds other content). Qed.
Print Assumptions C60_succeeds_partial.

(** Partitions with different keys or fingerprints never share an object. *)
Theorem C60_apart_partial : forall other kts tb tp fp key p fp' key' p' object, discoverable kts (in_bucket tb tp) ->
  key_ok kts key -> fp_ok fp -> key_ok kts key' -> fp_ok fp' ->
  generate_partition other (gcs_file (print tb) (print tp) (Some kts)) fp key = Ok p ->
  generate_partition other (gcs_file (print tb) (print tp) (Some kts)) fp' key' = Ok p' ->
  qualified_path p = Ok object -> qualified_path p' = Ok object -> fp = fp' /\ same_key key key'.
Proof. exact gcs_apart. Qed.
Print Assumptions C60_apart_partial.

(** What was just written is discovered, under the fingerprint [write] returned. *)
Theorem C60_written_found_partial : forall other V dumps (written_before : format -> V -> str) content_fp from_string info listed,
  (forall object c, content_fp (GCSPart object) c = object_fp from_string info c) ->
  forall w d f object v w' z q, io_write dumps written_before content_fp w d f (GCSPart object) v = (w', Ok (z, q)) ->
  forall kts tb tp fps l, discoverable kts (in_bucket tb tp) -> lists_all listed (gcs w') ->
  gcs_discover other from_string info listed (gcs w') (print tb) (print tp) kts fps = Ok l -> dict_keys fps ->
  forall fp key p, key_ok kts key -> fp_ok fp ->
  generate_partition other (gcs_file (print tb) (print tp) (Some kts)) fp key = Ok p -> qualified_path p = Ok object ->
  asked fps key fp ->
  exists p', In (z, p') l /\ p_fp p' = fp /\ same_key (p_key p') key /\ p_fields p' = p_fields p.
Proof. exact written_discovered. Qed.
Print Assumptions C60_written_found_partial.

(** A bucket per value of "i", objects per value of "j": one written under another fingerprint, one
    with a crc32c only. *)
Example C60_instance : forall other (from_string : str -> Z),
  let kts := [($"i", IntField W64); ($"j", IntField W64)] in
  let tb := [TLit $"b"; THole (Hole $"i" [Attr $"value"] [])] in
  let tp := [TLit $"j="; THole (Hole $"j" [Attr $"value"] []); TLit $"/"; THole fp_hole; TLit $".json"] in
  let info (c : str) := {| md5_hash := match c with [_] => None | _ => Some c end; crc32c := $"crc-" ++ c |} in
  let objects := [($"b5/j=7/17.json", $"AA"); ($"b5/j=8/18.json", $"B"); ($"b5/j=8/19.json", $"CC"); ($"other/x", $"D")] in
  let listed w := filter (glob_match w) (map fst objects) in
  let k7 := [($"i", FInt W64 5); ($"j", FInt W64 7)] in
  let k8 := [($"i", FInt W64 5); ($"j", FInt W64 8)] in
  let fps := [(k7, Some 17%Z); (k8, Some 18%Z)] in
  discoverable kts (in_bucket tb tp) /\ lists_all listed objects /\ dict_keys fps /\ key_ok kts k8 /\
  print tb = $"b{i.value}" /\ print tp = $"j={j.value}/{input_fingerprint}.json" /\
  (exists p, generate_partition other (gcs_file (print tb) (print tp) (Some kts)) (Some 18%Z) k8 = Ok p /\
     qualified_path p = Ok $"b5/j=8/18.json") /\
  asked fps k8 (Some 18%Z) /\
  exists p q, gcs_discover other from_string info listed objects (print tb) (print tp) kts fps =
    Ok [(from_string $"AA", p); (from_string $"crc-B", q)] /\ p_key p = k7 /\ p_key q = k8.
Proof.
  intros other from_string kts tb tp info objects listed k7 k8 fps.
  assert (Kn : forall n, dget str_eqb kts n = if str_eqb $"i" n then Some (IntField W64) else if str_eqb $"j" n then Some (IntField W64) else None)
    by reflexivity.
  split; [|split; [|split; [|split; [|split; [reflexivity|split; [reflexivity|split; [|split]]]]]]].
  - assert (Hi : component_hole kts (Hole $"i" [Attr $"value"] [])).
    { exists (IntField W64), $"value". repeat split; try discriminate; try reflexivity; try (cbn; tauto).
      - now left.
      - repeat constructor. }
    assert (Hj : component_hole kts (Hole $"j" [Attr $"value"] [])).
    { exists (IntField W64), $"value". repeat split; try discriminate; try reflexivity; try (cbn; tauto).
      - now left.
      - repeat constructor. }
    split; [|split; [|split; [|split; [|split]]]].
    + apply Forall_forall. intros x I. cbn in I.
      repeat (destruct I as [<-|I]; [first [right; assumption|left; reflexivity|repeat constructor; cbn; intuition discriminate]|]). destruct I.
    + cbn. intuition discriminate.
    + intros n cls E. rewrite Kn in E. exists [$"value"].
      destruct (str_eqb $"i" n) eqn:En; [apply Str_Proofs.str_eqb_spec in En|
        destruct (str_eqb $"j" n) eqn:Ej; [apply Str_Proofs.str_eqb_spec in Ej|discriminate]]; injection E as <-; subst n.
      * split; [constructor|]. intro c. cbn. split.
        -- intros [<-|[]]. exists []. tauto.
        -- intros (spec & H). intuition try discriminate; left; congruence.
      * split; [constructor|]. intro c. cbn. split.
        -- intros [<-|[]]. exists []. tauto.
        -- intros (spec & H). intuition try discriminate; left; congruence.
    + intros h I. cbn in I. intuition try discriminate;
        match goal with H : THole _ = THole _ |- _ => injection H as <- end; reflexivity.
    + intros s I. cbn in I. intuition try discriminate;
        match goal with H : TLit _ = TLit _ |- _ => injection H as <- end; repeat constructor; cbn; intuition discriminate.
    + intros n n' c c'. rewrite !Kn. destruct (str_eqb $"i" n), (str_eqb $"j" n), (str_eqb $"i" n'), (str_eqb $"j" n'); congruence.
  - intros w object I M. unfold listed. apply filter_In. auto.
  - repeat constructor; cbn; intuition discriminate.
  - split.
    + intro n. unfold dmem, k8. rewrite Kn. cbn [dget]. destruct (str_eqb $"i" n), (str_eqb $"j" n); reflexivity.
    + intros n f. unfold k8. rewrite Kn. cbn [dget]. destruct (str_eqb $"i" n), (str_eqb $"j" n); intro E; try discriminate;
        inversion E; split; (exact I || reflexivity).
  - eexists. split; reflexivity.
  - constructor; [intro S; specialize (S $"j"); discriminate|]. constructor. intro n. reflexivity.
  - eexists _, _. split; [vm_compute; reflexivity|]. split; reflexivity.
Qed.

(** The default path in a graph: as in a LocalFile (C53), except that there is a dot between the
    artifact's name and the extension. *)
Theorem C60_path : forall other bucket g names x, segment bucket -> context_ok g -> names_in_graph names -> defaulted_ok x ->
  gcs_place_default other bucket g names x =
  Ok {| a_storage := gcs_file bucket (gcs_place g names x) (Some (d_key_types x)); a_produced := d_produced x |}.
Proof. exact gcs_path. Qed.
Print Assumptions C60_path.

(** Refuted: the file is not called like the artifact with its extension. Extensions start with a
    dot, so there are two. *)
Theorem C60_extension_refuted : forall other bucket g names x e, segment bucket -> context_ok g -> names_in_graph names ->
  defaulted_ok x -> d_extension x = $"." ++ e ->
  exists dir, gcs_place_default other bucket g names x =
    Ok {| a_storage := gcs_file bucket (dir ++ last names [] ++ $".." ++ e) (Some (d_key_types x)); a_produced := d_produced x |}.
Proof. exact doubled. Qed.
Print Assumptions C60_extension_refuted.
Example C60_path_nonvacuous : forall other,
  let g := {| g_name := $"shop"; g_tags := [($"env", $"dev")] |} in
  let x := {| d_key_types := [($"i", IntField W64)]; d_extension := $".json"; d_produced := true |} in
  segment $"bucket" /\ context_ok g /\ names_in_graph [$"a"; $"b"] /\ defaulted_ok x /\
  gcs_place_default other $"bucket" g [$"a"; $"b"] x =
    Ok {| a_storage := gcs_file $"bucket" $"shop/env=dev/a/b/i_value={i.value}/{input_fingerprint}/b..json" (Some [($"i", IntField W64)]);
          a_produced := true |}.
Proof.
  intros other g x. split; [|split; [|split; [|split]]].
  - split; [discriminate|]. repeat constructor; cbn; intuition discriminate.
  - split; [repeat constructor; cbn; intuition discriminate|]. intros t v [E|[]]. inversion E.
    split; repeat constructor; cbn; intuition discriminate.
  - split; [discriminate|]. repeat constructor; cbn; try discriminate; intuition discriminate.
  - split; [|split].
    + split; [repeat constructor; cbn; tauto|]. intros n c [E|[]]. inversion E. repeat split; try discriminate. repeat constructor.
    + intros n [<-|[]]. cbn. intuition discriminate.
    + repeat constructor; cbn; intuition discriminate.
  - vm_compute. reflexivity.
Qed.
