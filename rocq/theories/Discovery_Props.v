(** C17 to C20: discovering partitions. [other] is Python's [format] on the specs that are not
    modelled. *)
From Coq Require Import ZArith List Ascii String Bool.
From Verif Require Import Base Str Str_Proofs Partitions_Model Partitions_Spec Format_Model Template_Spec Storage_Model
  Paths_Spec Paths_Proofs Discovery_Proofs Layout_Proofs Parts_Spec Wild_Spec Wild_Proofs.
Import ListNotations.
Open Scope list_scope.

(** C17. Parsing a generated path with its template gives back key and fingerprint.
    Partial: for fields of one class, see C18. *)
Theorem C17_parsed_back_partial : forall other kts t fp key path, path_template kts t -> separated kts t ->
  consistent t -> covers kts t -> one_class kts -> key_ok kts key -> fp_ok fp ->
  (asks_fp t <-> fp <> None) -> generate_path other fp key (print t) = Ok path ->
  exists key', extract_placeholders kts path (print t) = Ok (fp, key') /\ same_key key' key.
Proof. exact extract_generated. Qed.
Print Assumptions C17_parsed_back_partial.

(** C17. The default layout is such a template (dates included). *)
Theorem C17_default_layout : forall dir kts file, names_ok kts -> avoids $"{}" dir -> avoids $"{}" file ->
  let t := default_file dir kts file in
  print (default_layout kts) = partition_key_spec kts /\
  path_template kts t /\ separated kts t /\ consistent t /\ covers kts t /\ asks_fp t.
Proof.
  exact (fun dir kts file N Hd Hf => conj (layout_text kts (proj1 N)) (conj (default_path_template kts dir file N Hd Hf)
    (conj (default_separated kts dir file N) (conj (default_consistent kts dir file N)
    (conj (default_covers kts dir file N) (default_asks kts dir file)))))).
Qed.
Print Assumptions C17_default_layout.

(** C17. So a partition written to a discoverable storage is found by discovery. *)
Theorem C17_rediscovered_partial : forall other (content : Type) (content_fp : content -> Z) fs kts t fps l,
  discoverable kts t -> discover_partitions other content_fp fs (print t) kts fps = Ok l -> dict_keys fps ->
  forall fp key path c, written other kts t fp key path -> dget str_eqb fs path = Some c ->
  asked fps key fp ->
  exists p, In (content_fp c, p) l /\ p_fp p = fp /\ same_key (p_key p) key /\ p_fields p = [($"path", Some path)].
Proof. exact (fun other content => @discovered_all other content). Qed.
Print Assumptions C17_rediscovered_partial.

(** C17 refuted for fields of different classes: a date and an integer. *)
Theorem C17_mixed_refuted : forall other,
  let kts := [($"n", IntField W64); ($"d", DateField)] in
  let key := [($"n", FInt W64 3%Z); ($"d", FDate 2020 1 2)] in
  generate_path other None key $"{n.value}/{d.iso}" = Ok $"3/2020-01-02" /\
  extract_placeholders kts $"3/2020-01-02" $"{n.value}/{d.iso}" = Err ValueError.
Proof. intros other kts key. split; reflexivity. Qed.
Print Assumptions C17_mixed_refuted.

(** C18. If all declared fields have one class, every parsed field has its declared class. *)
Theorem C18_one_class_partial : forall kts path spec fp key, one_class kts ->
  extract_placeholders kts path spec = Ok (fp, key) ->
  forall n f, dget str_eqb key n = Some f -> field_ok f /\ dget str_eqb kts n = Some (class_of f).
Proof. exact one_class_typed. Qed.
Print Assumptions C18_one_class_partial.

(** C18 refuted, and not just for a witness: as soon as two declared classes differ, no path
    is ever parsed to a key of the declared types. *)
Theorem C18_mixed_classes_refuted : forall kts path spec fp key n n' c c',
  dget str_eqb kts n = Some c -> dget str_eqb kts n' = Some c' -> c <> c' ->
  extract_placeholders kts path spec = Ok (fp, key) ->
  exists m f, dget str_eqb key m = Some f /\ dget str_eqb kts m <> Some (class_of f).
Proof. exact mixed_never_typed. Qed.
Print Assumptions C18_mixed_classes_refuted.

(** The wrong class silently: "a" is declared Int8, the last field parsed is an Int64. *)
Example C18_instance :
  let kts := [($"a", IntField W8); ($"b", IntField W64)] in
  extract_placeholders kts $"5/7" $"{a.value}/{b.value}" =
    Ok (None, [($"a", FInt W64 5); ($"b", FInt W64 7)]).
Proof. reflexivity. Qed.

(** C19. Every discovered partition points at an existing file, carries that file's content
    fingerprint and the fingerprint requested for its key, and its path is the one its key is
    written to. For all templates and file systems. *)
Theorem C19_sound : forall other (content : Type) (content_fp : content -> Z) fs path kts fps l,
  discover_partitions other content_fp fs path kts fps = Ok l -> dict_keys fps ->
  forall z p, In (z, p) l -> exists file c, p_fields p = [($"path", Some file)] /\
    dget str_eqb fs file = Some c /\ z = content_fp c /\ asked fps (p_key p) (p_fp p) /\
    generate_path other (p_fp p) (p_key p) path = Ok file.
Proof. exact (fun other content => @discovered_exists other content). Qed.
Print Assumptions C19_sound.

(** C19. Conversely (C17_rediscovered_partial) no such file is missed, and discovery succeeds
    when every file matching the wildcard was written with this template. *)
Theorem C19_succeeds_partial : forall other (content : Type) (content_fp : content -> Z) fs kts t fps, discoverable kts t ->
  (forall path, In path (map fst fs) ->
     (forall w, spec_to_wildcard other (print t) kts = Ok w -> glob_match w path = true) ->
     exists fp key, written other kts t fp key path) ->
  exists l, discover_partitions other content_fp fs (print t) kts fps = Ok l.
Proof. exact (fun other content => @discovery_succeeds other content). Qed.
Print Assumptions C19_succeeds_partial.

(** C19 refuted: a stray file "i=05" makes discovery look for "i=5", which does not exist; the
    good file "i=7" is not found either. *)
Theorem C19_stray_file_refuted : forall other (content_fp : str -> Z),
  let kts := [($"i", IntField W64)] in
  discover_partitions other content_fp [($"i=7", $"x"); ($"i=05", $"y")] $"i={i.value}" kts [] = Err FileNotFoundError /\
  exists p, discover_partitions other content_fp [($"i=7", $"x")] $"i={i.value}" kts [] = Ok [(content_fp $"x", p)].
Proof. intros other cf kts. split; [reflexivity|]. eexists. reflexivity. Qed.
Print Assumptions C19_stray_file_refuted.

(** C19 refuted: with both "i=5" and "i=05" there, one partition is returned twice. *)
Theorem C19_twice_refuted : forall other (content_fp : str -> Z),
  let kts := [($"i", IntField W64)] in
  exists p, discover_partitions other content_fp [($"i=5", $"x"); ($"i=05", $"y")] $"i={i.value}" kts [] =
    Ok [(content_fp $"x", p); (content_fp $"x", p)].
Proof. intros other cf kts. eexists. reflexivity. Qed.
Print Assumptions C19_twice_refuted.

(** C19. The default layout without dates is discoverable ... *)
Theorem C19_default_layout : forall kts dir file, names_ok kts -> avoids $"{}" dir -> avoids $"{}" file ->
  avoids $"[" dir -> avoids $"[" file -> one_class kts -> (forall n, ~ In (n, DateField) kts) ->
  discoverable kts (default_file dir kts file).
Proof. exact default_discoverable. Qed.
Print Assumptions C19_default_layout.

(** ... a written file, another one asked for under a different fingerprint, and a stranger. *)
Example C19_instance : forall other (content_fp : str -> Z),
  let kts := [($"i", IntField W64)] in
  let t := default_file $"/d/" kts $"x.json" in
  let fs := [($"/d/i_value=5/17/x.json", $"A"); ($"/d/i_value=6/18/x.json", $"B"); ($"/e/f", $"C")] in
  names_ok kts /\ discoverable kts t /\ dict_keys [([($"i", FInt W64 5)], Some 17%Z); ([($"i", FInt W64 6)], Some 19%Z)] /\
  asked [([($"i", FInt W64 5)], Some 17%Z); ([($"i", FInt W64 6)], Some 19%Z)] [($"i", FInt W64 6)] (Some 19%Z) /\
  print t = $"/d/i_value={i.value}/{input_fingerprint}/x.json" /\
  written other kts t (Some 17%Z) [($"i", FInt W64 5)] $"/d/i_value=5/17/x.json" /\
  exists p, discover_partitions other content_fp fs (print t) kts
    [([($"i", FInt W64 5)], Some 17%Z); ([($"i", FInt W64 6)], Some 19%Z)] = Ok [(content_fp $"A", p)] /\
    p_key p = [($"i", FInt W64 5)] /\ p_fp p = Some 17%Z.
Proof.
  intros other cf kts t fs.
  assert (N : names_ok kts).
  { split; [repeat constructor; intros []|]. intros n c [E|[]]. inversion E; subst.
    repeat split; try discriminate; try reflexivity. repeat constructor. }
  assert (D : discoverable kts t).
  { apply default_discoverable.
    - exact N.
    - repeat constructor; cbn; intuition discriminate.
    - repeat constructor; cbn; intuition discriminate.
    - repeat constructor; cbn; intuition discriminate.
    - repeat constructor; cbn; intuition discriminate.
    - intros n n' c c'. unfold kts. cbn [dget]. destruct (str_eqb $"i" n), (str_eqb $"i" n'); congruence.
    - intros n [E|[]]. discriminate. }
  split; [exact N|]. split; [exact D|].
  split; [repeat constructor; intros []|].
  split; [constructor; [intro S; specialize (S $"i"); discriminate|constructor; intro n; reflexivity]|].
  split; [reflexivity|]. split.
  - split; [|split; [|split; [|reflexivity]]].
    + split.
      * intro n. unfold dmem, kts. cbn [dget]. now destruct (str_eqb $"i" n).
      * intros n f. unfold kts. cbn [dget]. destruct (str_eqb $"i" n); [|discriminate].
        intro E. inversion E. split; [exact I|reflexivity].
    + split; [discriminate|reflexivity].
    + split; [intros _; discriminate|intros _; apply default_asks].
  - eexists. split; [reflexivity|]. split; reflexivity.
Qed.

(** C20. The wildcard of a template matches the paths generated from it. Partial: for
    placeholders without format spec and index, and literal text without "[" (character classes
    are not modelled). *)
Theorem C20_matches_partial : forall other kts t fp key path, path_template kts t -> plain_specs t -> glob_plain t ->
  key_ok kts key -> (asks_fp t -> fp <> None) ->
  generate_path other fp key (print t) = Ok path ->
  exists w, spec_to_wildcard other (print t) kts = Ok w /\ glob_match w path = true.
Proof. exact (fun other kts t fp key path P N _ => generated_matches other kts t fp key path P N). Qed.
Print Assumptions C20_matches_partial.

(** C20, for every text. It has a wildcard exactly if, the fingerprint placeholder taken as a star, it
    only contains components of declared key fields without format spec, and hard coded values. *)
Theorem C20_wildcard : forall other kts s w, spec_to_wildcard other s kts = Ok w <->
  exists t, template_of (replace $"{input_fingerprint}" $"*" s) t /\ wild other kts t w.
Proof. exact wildcard_iff. Qed.
Print Assumptions C20_wildcard.

(** C20. Of every text without escapes a path that can be generated matches the wildcard, if the key
    has the values that are hard coded in the text (and the wildcard has no "[": character classes
    are not modelled). *)
Theorem C20_matches : forall other kts s t fp key w path, template_of s t -> Forall unescaped t ->
  Forall (settled key) t -> key_ok kts key -> avoids $"[" w ->
  spec_to_wildcard other s kts = Ok w -> generate_path other fp key s = Ok path -> glob_match w path = true.
Proof. exact (fun other kts s t fp key w path R U S K _ => path_matches other kts s t fp key w path R U S K). Qed.
Print Assumptions C20_matches.

(** Hard coded values are dropped from generated paths, whatever the text. *)
Theorem C20_hard_coded_dropped : forall other s r, strip_partition_indexes other s = Ok r <->
  exists t, template_of s t /\ Forall ordinary t /\ r = print_parts (map unindexed t).
Proof. exact stripped. Qed.
Print Assumptions C20_hard_coded_dropped.

(** C20. Which files a wildcard lists: those with as many names, each fitting its part of the
    wildcard, where hidden files are only listed if the wildcard has the dot. Every text is of this
    form. *)
Theorem C20_listed : forall pats names, pats <> [] -> names <> [] ->
  Forall (fun n => ~ In "/"%char n) pats -> Forall (fun n => ~ In "/"%char n) names ->
  (glob_match (slashed pats) (slashed names) = true <-> listed pats names).
Proof. exact glob_listed. Qed.
Print Assumptions C20_listed.
Theorem C20_every_path : forall s, exists names, names <> [] /\ Forall (fun n => ~ In "/"%char n) names /\ s = slashed names.
Proof. exact every_slashed. Qed.
Print Assumptions C20_every_path.
Example C20_listed_nonvacuous :
  listed [$"a"; $"*"; $"x.?s*n"] [$"a"; $"n=1"; $"x.json"] /\ slashed [$"a"; $"n=1"; $"x.json"] = $"a/n=1/x.json" /\
  ~ listed [$"a"; $"*"] [$"a"; $".n=1"] /\ listed [$"a"; $".*"] [$"a"; $".n=1"].
Proof.
  split; [apply match_segments_listed; reflexivity|]. split; [reflexivity|]. split; [|apply match_segments_listed; reflexivity].
  intro H. apply match_segments_listed in H. discriminate.
Qed.

(** C20 refuted for escapes, which are unescaped once in the wildcard and twice in the path. *)
Theorem C20_escapes_refuted : forall other kts,
  spec_to_wildcard other $"a{{{{b" kts = Ok $"a{{b" /\ generate_path other None [] $"a{{{{b" = Ok $"a{b" /\
  glob_match $"a{{b" $"a{b" = false.
Proof. intros other kts. repeat split. Qed.
Print Assumptions C20_escapes_refuted.

(** C20 refuted for format specs, which the default layout of dates has: there is no wildcard
    at all, so these storages can never be discovered. *)
Theorem C20_default_dates_refuted : forall other (content : Type) (content_fp : content -> Z) fs fps,
  let kts := [($"date", DateField)] in
  let path := $"/d/" ++ partition_key_spec kts ++ $"/x.json" in
  spec_to_wildcard other path kts = Err TypeError /\
  discover_partitions other content_fp fs path kts fps = Err TypeError /\
  generate_path other None [($"date", FDate 2020 1 2)] path = Ok $"/d/date_Y=2020/date_m=01/date_d=02/x.json".
Proof. intros other content cf fs fps kts path. repeat split; reflexivity. Qed.
Print Assumptions C20_default_dates_refuted.

(** C20 refuted for hard coded indexes: the wildcard only has the indexed value. *)
Theorem C20_index_refuted : forall other,
  let kts := [($"i", IntField W64)] in
  exists w, spec_to_wildcard other $"i={i.value[5]}" kts = Ok w /\
    generate_path other None [($"i", FInt W64 7)] $"i={i.value[5]}" = Ok $"i=7" /\
    glob_match w $"i=7" = false.
Proof. intros other kts. eexists. repeat split; reflexivity. Qed.
Print Assumptions C20_index_refuted.

Example C20_instance : forall other,
  let kts := [($"n", IntField W64); ($"d", DateField)] in
  let t := [TLit $"a/n="; THole (Hole $"n" [Attr $"hex"] []); TLit $"/"; THole (Hole $"d" [Attr $"iso"] []);
            TLit $"/"; THole fp_hole] in
  let key := [($"n", FInt W64 31); ($"d", FDate 2020 1 2)] in
  path_template kts t /\ plain_specs t /\ glob_plain t /\ key_ok kts key /\
  generate_path other (Some 4%Z) key (print t) = Ok $"a/n=0x1f/2020-01-02/4" /\
  spec_to_wildcard other (print t) kts = Ok $"a/n=*/*/*".
Proof.
  intros other kts t key. split.
  { unfold t. repeat (constructor; [|]); try (cbn; repeat constructor; cbn; intuition discriminate).
    - right. exists (IntField W64), $"hex". cbn [h_accs h_name h_spec].
      repeat (split; [reflexivity || (cbn; tauto) || (left; reflexivity) || (split; [discriminate|repeat constructor])|]).
      discriminate.
    - right. exists DateField, $"iso". cbn [h_accs h_name h_spec].
      repeat (split; [reflexivity || (cbn; tauto) || (left; reflexivity) || (split; [discriminate|repeat constructor])|]).
      discriminate. }
  split. { intros h H. cbn in H. destruct H as [H|[H|[H|[H|[H|[H|[]]]]]]]; inversion H; reflexivity. }
  split. { intros s H. cbn in H. destruct H as [H|[H|[H|[H|[H|[H|[]]]]]]]; inversion H; repeat constructor; cbn; intuition discriminate. }
  split; [|split; reflexivity].
  split.
  - intro n. unfold dmem, kts, key. cbn [dget]. destruct (str_eqb $"n" n); [reflexivity|]. now destruct (str_eqb $"d" n).
  - intros n f. unfold kts, key. cbn [dget]. destruct (str_eqb $"n" n); [intro E; inversion E; split; [exact I|reflexivity]|].
    destruct (str_eqb $"d" n); [intro E; inversion E; split; reflexivity|discriminate].
Qed.

(** A component, a hard coded value with a format spec and the fingerprint. *)
Example C20_instance_every : forall other,
  let kts := [($"n", IntField W64); ($"d", DateField)] in
  let key := [($"n", FInt W64 31); ($"d", FDate 2020 7 2)] in
  let s := $"n={n.hex:}/{d.m[07]:02}/{input_fingerprint}" in
  let t := map Text $"n=" ++ [Field $"n" [Attr $"hex"] []; Text "/"%char;
            Field $"d" [Attr $"m"; Idx $"07"] (map Text $"02"); Text "/"%char; Field $"input_fingerprint" [] []] in
  template_of s t /\ Forall unescaped t /\ Forall (settled key) t /\ key_ok kts key /\
  spec_to_wildcard other s kts = Ok $"n=*/07/*" /\
  generate_path other (Some 4%Z) key s = Ok $"n=0x1f/07/4".
Proof.
  intros other kts key s t.
  assert (Q : forall n, forallb (fun c => negb (existsb (fun d => c =c d) $"{}[.:!")) n = true -> avoids $"{}[.:!" n).
  { intros n A. apply Forall_forall. intros c I J. rewrite forallb_forall in A. specialize (A c I).
    apply negb_true_iff in A. assert (T : existsb (fun d => c =c d) $"{}[.:!" = true); [|congruence].
    apply existsb_exists. exists c. split; [exact J|]. apply Ascii.eqb_refl. }
  assert (N : forall n, n <> [] -> all_digits n = false -> forallb (fun c => negb (existsb (fun d => c =c d) $"{}[.:!")) n = true -> name_fine n).
  { intros n NE D A. split; [exact NE|]. split; [exact D|]. now apply Q. }
  split; [|split; [|split; [|split; [|split; reflexivity]]]].
  - do 2 (apply reads_text; [cbn; intuition discriminate|]).
    apply (reads_field 1 $"n" [Attr $"hex"] $":" [] $"/{d.m[07]:02}/{input_fingerprint}").
    + now apply N.
    + repeat constructor; try discriminate; cbn; intuition discriminate.
    + apply (some_spec 1 [] []); [reflexivity|constructor].
    + apply reads_text; [cbn; intuition discriminate|].
      apply (reads_field 1 $"d" [Attr $"m"; Idx $"07"] $":02" (map Text $"02") $"/{input_fingerprint}").
      * now apply N.
      * repeat constructor; try discriminate; cbn; intuition discriminate.
      * apply (some_spec 1 $"02"); [reflexivity|]. do 2 (apply reads_text; [cbn; intuition discriminate|]). constructor.
      * apply reads_text; [cbn; intuition discriminate|].
        apply (reads_field 1 $"input_fingerprint" [] [] [] []); [now apply N|constructor|constructor|constructor].
  - repeat constructor; cbn; intuition discriminate.
  - cbn [t app map S_ list_ascii_of_string]. do 2 (constructor; [constructor|]). constructor; [apply (settled_field key $"n" [$"hex"]); constructor|].
    constructor; [constructor|]. constructor; [apply (settled_index key $"d" $"m" $"07" $"02" (FDate 2020 7 2)); [repeat constructor; cbn; intuition discriminate|reflexivity|reflexivity]|].
    constructor; [constructor|]. constructor; [apply (settled_field key $"input_fingerprint" []); constructor|constructor].
  - split.
    + intro n. unfold dmem, kts, key. cbn [dget]. destruct (str_eqb $"n" n); [reflexivity|]. now destruct (str_eqb $"d" n).
    + intros n f. unfold kts, key. cbn [dget]. destruct (str_eqb $"n" n); [intro E; inversion E; split; [exact I|reflexivity]|].
      destruct (str_eqb $"d" n); [intro E; inversion E; split; reflexivity|discriminate].
Qed.
