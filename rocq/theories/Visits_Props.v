(** C14, C15 and C21: what templates become, exactly. [other] is Python's [format] on the specs
    that are not modelled. *)
From Coq Require Import ZArith NArith List Ascii String Bool.
From Verif Require Import Base Str Partitions_Model Partitions_Spec Format_Model Template_Spec Storage_Model
  Paths_Spec Fields_Spec Visits_Spec Visits_Proofs.
Import ListNotations.
Open Scope list_scope.

(** C14. A value is a text: attributes texts do not have are errors ... *)
Theorem C14_attribute : forall other values a b name n accs spec v,
  template_ok (a ++ THole (Hole name (Attr n :: accs) spec) :: b) -> fillable values a ->
  dget str_eqb values name = Some v -> not_of_strings n ->
  partial_format other (print (a ++ THole (Hole name (Attr n :: accs) spec) :: b)) values = Err AttributeError.
Proof. exact attribute_refused. Qed.
Print Assumptions C14_attribute.
(** ... a number picks a character, if there are so many ... *)
Theorem C14_index : forall other values a b name n k v,
  template_ok (a ++ THole (Hole name [Idx k] []) :: b) -> fillable values a -> fillable values b ->
  dget str_eqb values name = Some v -> shortest 10 k (N.of_nat n) ->
  partial_format other (print (a ++ THole (Hole name [Idx k] []) :: b)) values =
  match nth_error v n with
  | Some c => Ok (print (fill values a) ++ c :: print (fill values b))
  | None => Err IndexError
  end.
Proof. exact index_exact. Qed.
Print Assumptions C14_index.
(** ... and nothing else is an index. *)
Theorem C14_text_index : forall other values a b name k v,
  template_ok (a ++ THole (Hole name [Idx k] []) :: b) -> fillable values a ->
  dget str_eqb values name = Some v -> (exists c, In c k /\ forall d, ~ reads_digit 10 c d) ->
  partial_format other (print (a ++ THole (Hole name [Idx k] []) :: b)) values = Err TypeError.
Proof. exact text_index_refused. Qed.
Print Assumptions C14_text_index.

(** C15. The text of a path: the template's literal text, the fingerprint, and the components
    of the key's fields in their formats. *)
Theorem C15_path_text : forall other kts fp key t path, typed_key kts key -> template_ok t ->
  path_template kts (unindex t) ->
  (generate_path other fp key (print t) = Ok path <-> path_shown fp key (unindex t) path).
Proof. exact path_exact. Qed.
Print Assumptions C15_path_text.

(** C15. A key that lacks a field some template names is refused with a KeyError. *)
Theorem C15_missing_field : forall other st kts fp key n t, path_storage st kts -> typed_key kts key -> key <> [] ->
  (storage_asks_fp st <-> fp <> None) ->
  In (n, Some (print t)) (s_fields st) -> template_ok t -> path_template kts (unindex t) ->
  fillable [($"input_fingerprint", [])] t -> lacks key (unindex t) ->
  generate_partition other st fp key = Err KeyError.
Proof. exact missing_refused. Qed.
Print Assumptions C15_missing_field.

(** C21. What each visitor resolves in every text of the storage; everything else, the key types
    included, is kept, except that visiting the type sets the key types. *)
Theorem C21_format_visit : forall other st ext st',
  visit_format other st ext = Ok st' <-> each_resolved other [($"extension", ext)] st st'.
Proof. exact visit_format_exact. Qed.
Print Assumptions C21_format_visit.
Theorem C21_graph_visit : forall other st name tags st', visit_graph other st name tags = Ok st' <->
  each_resolved other [($"graph_name", name); ($"path_tags", slashed (map tag_text tags))] st st'.
Proof. exact visit_graph_exact. Qed.
Print Assumptions C21_graph_visit.
Theorem C21_fingerprint_visit : forall other st fp s st',
  match fp with Some z => decimal z s | None => s = [] end ->
  (visit_input_fingerprint other st fp = Ok st' <-> each_resolved other [($"input_fingerprint", s)] st st').
Proof. exact visit_fp_exact. Qed.
Print Assumptions C21_fingerprint_visit.
Theorem C21_names_visit : forall other st before name st', visit_names other st (before ++ [name]) = Ok st' <->
  each_resolved other [($"name", name); ($"names", slashed (before ++ [name]))] st st'.
Proof. exact visit_names_exact. Qed.
Print Assumptions C21_names_visit.
Theorem C21_type_visit : forall other st kts st', NoDup (map fst kts) ->
  (visit_type other st kts = Ok st' <->
   each_resolved other [($"partition_key_spec", print (default_layout kts))]
     {| s_fields := s_fields st; s_key_types := Some kts |} st').
Proof. exact visit_type_exact. Qed.
Print Assumptions C21_type_visit.

(** C21. So, with something to put there, the visitors fill the placeholders with these texts. *)
Theorem C21_format_fills : forall other fs kts ext, ext <> [] -> takes [($"extension", ext)] fs ->
  visit_format other (storage_of fs kts) ext = Ok (storage_of (filled [($"extension", ext)] fs) kts).
Proof. exact fills_extension. Qed.
Print Assumptions C21_format_fills.
Theorem C21_graph_fills : forall other fs kts name tags, name <> [] -> tags <> [] ->
  let values := [($"graph_name", name); ($"path_tags", slashed (map tag_text tags))] in
  takes values fs ->
  visit_graph other (storage_of fs kts) name tags = Ok (storage_of (filled values fs) kts).
Proof. exact fills_graph. Qed.
Print Assumptions C21_graph_fills.
Theorem C21_fingerprint_fills : forall other fs kts z s, decimal z s -> takes [($"input_fingerprint", s)] fs ->
  visit_input_fingerprint other (storage_of fs kts) (Some z) =
  Ok (storage_of (filled [($"input_fingerprint", s)] fs) kts).
Proof. exact fills_fp. Qed.
Print Assumptions C21_fingerprint_fills.
Theorem C21_names_fill : forall other fs kts before name, name <> [] ->
  let values := [($"name", name); ($"names", slashed (before ++ [name]))] in takes values fs ->
  visit_names other (storage_of fs kts) (before ++ [name]) = Ok (storage_of (filled values fs) kts).
Proof. exact fills_names. Qed.
Print Assumptions C21_names_fill.
Theorem C21_type_fills : forall other fs old kts, NoDup (map fst kts) -> kts <> [] ->
  let values := [($"partition_key_spec", print (default_layout kts))] in takes values fs ->
  visit_type other (storage_of fs old) kts = Ok (storage_of (filled values fs) (Some kts)).
Proof. exact fills_type. Qed.
Print Assumptions C21_type_fills.

(** The storage "/d/{names}/{name}{extension}" with another field, in a box "a.b". *)
Example C21_visits : forall other,
  let t := [TLit $"/d/"; THole (Hole $"names" [] []); TLit $"/"; THole (Hole $"name" [] []); THole (Hole $"extension" [] [])] in
  let fs := [($"path", Some t); ($"bucket", None)] in
  let values := [($"name", $"b"); ($"names", slashed ([$"a"] ++ [$"b"]))] in
  takes values fs /\ takes [($"extension", $".json")] fs /\
  visit_names other (storage_of fs None) [$"a"; $"b"] = Ok (storage_of (filled values fs) None) /\
  s_fields (storage_of (filled values fs) None) = [($"path", Some $"/d/a/b/b{extension}"); ($"bucket", None)].
Proof.
  intros other t fs values.
  assert (OK : template_ok t) by (unfold t; repeat constructor; cbn; try congruence; intuition discriminate).
  assert (F : forall vs, fillable vs t).
  { intros vs h H M. cbn in H. destruct H as [H|[H|[H|[H|[H|[]]]]]]; inversion H; split; reflexivity. }
  assert (T : forall vs, takes vs fs) by (intro vs; constructor; [split; [exact OK|apply F]|constructor; [exact I|constructor]]).
  split; [apply T|]. split; [apply T|]. split; [|reflexivity].
  change [$"a"; $"b"] with ([$"a"] ++ [$"b"]). apply C21_names_fill; [discriminate|apply T].
Qed.

(** A key without the field "b", which the path names. *)
Example C15_missing : forall other,
  let kts := [($"a", IntField W64); ($"b", IntField W64)] in
  let t := [THole (Hole $"a" [Attr $"value"] $"03"); TLit $"/"; THole (Hole $"b" [Attr $"hex"] [])] in
  let key := [($"a", FInt W64 7)] in
  path_storage (local_file (print t) kts) kts /\ typed_key kts key /\ lacks key (unindex t) /\
  generate_partition other (local_file (print t) kts) None key = Err KeyError /\
  path_shown None [($"a", FInt W64 7); ($"b", FInt W64 255)] t $"007/0xff".
Proof.
  intros other kts t key.
  assert (O : template_ok t) by (unfold t; repeat constructor; cbn; try congruence; intuition discriminate).
  assert (P : path_template kts (unindex t)).
  { unfold t, unindex; cbn [map]. repeat (constructor; [|]); try (cbn; repeat constructor; cbn; intuition discriminate).
    - right. exists (IntField W64), $"value". cbn [unindex_hole h_accs h_name h_spec filter].
      repeat (split; [reflexivity || (cbn; tauto) || (right; split; [reflexivity|eexists; reflexivity]) ||
                      (split; [discriminate|repeat constructor])|]).
      discriminate.
    - right. exists (IntField W64), $"hex". cbn [unindex_hole h_accs h_name h_spec filter].
      repeat (split; [reflexivity || (cbn; tauto) || (left; reflexivity) || (split; [discriminate|repeat constructor])|]).
      discriminate. }
  assert (F : fillable [($"input_fingerprint", [])] t).
  { intros h H M. cbn in H. destruct H as [H|[H|[H|[]]]]; inversion H; subst; discriminate. }
  split. { split; [reflexivity|]. intros n s [E|[]]. injection E as _ Es. exists t. rewrite <- Es. auto. }
  split. { intros n f. unfold key, kts. cbn [dget]. destruct (str_eqb $"a" n); [|discriminate].
           intro E. injection E as <-. split; [exact I|reflexivity]. }
  split. { exists (Hole $"b" [Attr $"hex"] []). split; [unfold t, unindex; cbn; tauto|]. split; [discriminate|reflexivity]. }
  split; [reflexivity|].
  apply (C15_path_text other kts None [($"a", FInt W64 7); ($"b", FInt W64 255)] t); [|exact O|exact P|reflexivity].
  intros n f. unfold kts. cbn [dget]. destruct (str_eqb $"a" n); [intro E; injection E as <-; split; [exact I|reflexivity]|].
  destruct (str_eqb $"b" n); [intro E; injection E as <-; split; [exact I|reflexivity]|discriminate].
Qed.

(** "{x[1]}", "{x[9]}" and "{x.Y}" with the text "abc". *)
Example C14_items : forall other,
  partial_format other $"{x[1]}" [($"x", $"abc")] = Ok $"b" /\
  partial_format other $"{x[9]}" [($"x", $"abc")] = Err IndexError /\
  partial_format other $"{x.Y}" [($"x", $"abc")] = Err AttributeError /\
  not_of_strings $"Y" /\ shortest 10 $"1" 1.
Proof.
  intro other. repeat (split; [reflexivity|]). split; [split; [reflexivity|cbn; tauto]|].
  exists [1%N]. split; [repeat constructor|]. split; [discriminate|]. split; [reflexivity|]. right. discriminate.
Qed.
