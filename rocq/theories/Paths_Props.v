(** C15 and C16: generating partitions. [other] is Python's [format] on the specs that are not
    modelled. *)
From Coq Require Import ZArith List Ascii String Bool.
From Verif Require Import Base Str Partitions_Model Partitions_Spec Format_Model Template_Spec Storage_Model
  Paths_Spec Paths_Proofs Discovery_Proofs Layout_Proofs.
Import ListNotations.
Open Scope list_scope.

(** C15. A generated partition was given a key iff the type is partitioned, and a fingerprint
    iff the storage asks for one; it records key, fingerprint and storage, and each of its
    fields is the storage's field with the placeholders filled in. *)
Theorem C15_recorded : forall other st fp key p, generate_partition other st fp key = Ok p ->
  exists kts, s_key_types st = Some kts /\ (key <> [] <-> kts <> []) /\ (fp <> None <-> includes_fp st = true) /\
    p_fp p = fp /\ p_key p = key /\ p_storage p = st /\
    Forall2 (fun nv nv' => fst nv' = fst nv /\
      match snd nv with
      | Some t => exists s, generate_path other fp key t = Ok s /\ snd nv' = Some s
      | None => snd nv' = None
      end) (s_fields st) (p_fields p).
Proof. exact generate_inv. Qed.
Print Assumptions C15_recorded.

(** C15. A key without partitioning, partitioning without a key, a fingerprint nobody asked
    for, a missing fingerprint: each is a ValueError, whatever the other arguments. *)
Theorem C15_refused : forall other st kts fp key, s_key_types st = Some kts ->
  (key <> [] <-> kts = []) \/ (fp <> None <-> includes_fp st = false) ->
  generate_partition other st fp key = Err ValueError.
Proof. exact generate_refuses. Qed.
Print Assumptions C15_refused.

(** C15. "Asks for one": some text field of the storage has the placeholder. *)
Theorem C15_asks : forall st,
  (forall n s, In (n, Some s) (s_fields st) -> exists t, s = print t /\ template_ok t) ->
  (includes_fp st = true <-> storage_asks_fp st).
Proof. exact includes_fp_asks. Qed.
Print Assumptions C15_asks.

(** C15. Complete arguments are accepted. *)
Theorem C15_accepted : forall other st kts fp key, path_storage st kts -> key_ok kts key ->
  (storage_asks_fp st <-> fp <> None) -> exists p, generate_partition other st fp key = Ok p.
Proof. exact generate_complete. Qed.
Print Assumptions C15_accepted.

(** C15. The key's names are not checked: a key without "b", and with an undeclared "z". *)
Theorem C15_incomplete_key_refuted : forall other,
  let kts := [($"a", IntField W64); ($"b", IntField W64)] in
  let key := [($"a", FInt W64 1%Z); ($"z", FNull)] in
  exists p, generate_partition other (local_file $"{a.value}" kts) None key = Ok p /\
    p_key p = key /\ ~ key_ok kts key.
Proof.
  intros other kts key. eexists. split; [reflexivity|]. split; [reflexivity|].
  intros [N _]. specialize (N $"b"). discriminate.
Qed.
Print Assumptions C15_incomplete_key_refuted.

(** C16. Two partitions of a storage with the same text in a field that names the components
    of every key field (and the fingerprint, if the storage asks for it), placeholders being
    separated by text they cannot contain: same fingerprint, same key. Hard coded indexes
    ("{x.value[3]}") are allowed. *)
Theorem C16_path_determines_partition : forall other st kts n t fp1 key1 p1 fp2 key2 p2,
  s_key_types st = Some kts -> dget str_eqb (s_fields st) n = Some (Some (print t)) ->
  template_ok t -> fillable [($"input_fingerprint", [])] t ->
  path_template kts (unindex t) -> separated kts (unindex t) -> covers kts (unindex t) ->
  (includes_fp st = true -> asks_fp t) -> key_ok kts key1 -> key_ok kts key2 ->
  generate_partition other st fp1 key1 = Ok p1 -> generate_partition other st fp2 key2 = Ok p2 ->
  dget str_eqb (p_fields p1) n = dget str_eqb (p_fields p2) n ->
  fp1 = fp2 /\ same_key key1 key2.
Proof. exact partition_injective. Qed.
Print Assumptions C16_path_determines_partition.

(** C16. The default layout is such a template, for all key types. *)
Theorem C16_default_layout : forall other dir kts file fp1 key1 p1 fp2 key2 p2, names_ok kts ->
  avoids $"{}" dir -> avoids $"{}" file -> key_ok kts key1 -> key_ok kts key2 ->
  let st := local_file (dir ++ partition_key_spec kts ++ $"/{input_fingerprint}/" ++ file) kts in
  generate_partition other st fp1 key1 = Ok p1 -> generate_partition other st fp2 key2 = Ok p2 ->
  dget str_eqb (p_fields p1) $"path" = dget str_eqb (p_fields p2) $"path" ->
  fp1 = fp2 /\ same_key key1 key2.
Proof. exact default_injective. Qed.
Print Assumptions C16_default_layout.

(** C16. Separation is needed: 1,23 and 12,3 share a path. *)
Theorem C16_adjacent_refuted : forall other,
  let kts := [($"a", IntField W64); ($"b", IntField W64)] in
  let st := local_file $"{a.value}{b.value}" kts in
  let key1 := [($"a", FInt W64 1%Z); ($"b", FInt W64 23%Z)] in
  let key2 := [($"a", FInt W64 12%Z); ($"b", FInt W64 3%Z)] in
  exists p1 p2, generate_partition other st None key1 = Ok p1 /\ generate_partition other st None key2 = Ok p2 /\
    dget str_eqb (p_fields p1) $"path" = dget str_eqb (p_fields p2) $"path" /\
    key_ok kts key1 /\ key_ok kts key2 /\ ~ same_key key1 key2.
Proof.
  intros other kts st key1 key2. eexists; eexists. split; [reflexivity|]. split; [reflexivity|].
  split; [reflexivity|].
  assert (Q : forall x y : Z, key_ok kts [($"a", FInt W64 x); ($"b", FInt W64 y)]).
  { intros x y. split.
    - intro n. unfold dmem, kts. cbn [dget]. destruct (str_eqb $"a" n); [reflexivity|]. now destruct (str_eqb $"b" n).
    - intros n f. unfold kts. cbn [dget]. destruct (str_eqb $"a" n); [intro E; inversion E; split; exact I || reflexivity|].
      destruct (str_eqb $"b" n); [intro E; inversion E; split; exact I || reflexivity|discriminate]. }
  split; [apply Q|]. split; [apply Q|]. intro S. specialize (S $"a"). discriminate S.
Qed.
Print Assumptions C16_adjacent_refuted.

(** The storage "/d/{day.iso[0]}/{n.value:03}/{input_fingerprint}.json" with a hard coded index. *)
Example C16_instance :
  let kts := [($"day", DateField); ($"n", IntField W32)] in
  let t := [TLit $"/d/"; THole (Hole $"day" [Attr $"iso"; Idx $"0"] []); TLit $"/";
            THole (Hole $"n" [Attr $"value"] $"03"); TLit $"/"; THole fp_hole; TLit $".json"] in
  let st := local_file (print t) kts in
  let key := [($"day", FDate 2021 2 28); ($"n", FInt W32 7)] in
  print t = $"/d/{day.iso[0]}/{n.value:03}/{input_fingerprint}.json" /\
  s_key_types st = Some kts /\ dget str_eqb (s_fields st) $"path" = Some (Some (print t)) /\
  template_ok t /\ fillable [($"input_fingerprint", [])] t /\ path_storage st kts /\
  path_template kts (unindex t) /\ separated kts (unindex t) /\ covers kts (unindex t) /\
  asks_fp t /\ key_ok kts key /\
  forall other, exists p, generate_partition other st (Some 5%Z) key = Ok p /\
    dget str_eqb (p_fields p) $"path" = Some (Some $"/d/2021-02-28/007/5.json").
Proof.
  intros kts t st key.
  assert (O : template_ok t) by (unfold t; repeat constructor; cbn; try congruence; intuition discriminate).
  assert (F : fillable [($"input_fingerprint", [])] t).
  { intros h H M. cbn in H. destruct H as [H|[H|[H|[H|[H|[H|[H|[]]]]]]]]; inversion H; subst; try discriminate. split; reflexivity. }
  assert (P : path_template kts (unindex t)).
  { unfold t, unindex; cbn [map]. repeat (constructor; [|]); try (cbn; repeat constructor; cbn; intuition discriminate).
    - right. exists DateField, $"iso". cbn [unindex_hole h_accs h_name h_spec filter].
      repeat (split; [reflexivity || (cbn; tauto) || (left; reflexivity) || (split; [discriminate|repeat constructor])|]).
      discriminate.
    - right. exists (IntField W32), $"value". cbn [unindex_hole h_accs h_name h_spec filter].
      repeat (split; [reflexivity || (cbn; tauto) || (right; split; [reflexivity|eexists; reflexivity]) ||
                      (split; [discriminate|repeat constructor])|]).
      discriminate. }
  split; [reflexivity|]. split; [reflexivity|]. split; [reflexivity|]. split; [exact O|]. split; [exact F|].
  split. { split; [reflexivity|]. intros n s [E|[]]. injection E as _ Es. exists t. rewrite <- Es. auto. }
  split; [exact P|].
  split; [cbn; intuition discriminate|].
  split.
  { intros n cls. unfold kts. cbn [dget]. destruct (str_eqb $"day" n) eqn:E1.
    - apply Str_Proofs.str_eqb_spec in E1. subst n. intro E. inversion E; subst. exists [$"iso"]. split; [constructor|].
      intro c. split.
      + intros [<-|[]]. exists []. unfold t, unindex. cbn [map]. right; left. reflexivity.
      + intros [spec I]. unfold t, unindex in I. cbn [map In] in I.
        destruct I as [I|[I|[I|[I|[I|[I|[I|[]]]]]]]]; try discriminate I; inversion I; now left.
    - destruct (str_eqb $"n" n) eqn:E2; [|discriminate].
      apply Str_Proofs.str_eqb_spec in E2. subst n. intro E. inversion E; subst. exists [$"value"]. split; [constructor|].
      intro c. split.
      + intros [<-|[]]. exists $"03". unfold t, unindex. cbn [map]. right; right; right; left. reflexivity.
      + intros [spec I]. unfold t, unindex in I. cbn [map In] in I.
        destruct I as [I|[I|[I|[I|[I|[I|[I|[]]]]]]]]; try discriminate I; inversion I; now left. }
  split; [unfold asks_fp, t; cbn; tauto|].
  split.
  { split.
    - intro n. unfold dmem, kts, key. cbn [dget]. destruct (str_eqb $"day" n); [reflexivity|]. now destruct (str_eqb $"n" n).
    - intros n f. unfold kts, key. cbn [dget]. destruct (str_eqb $"day" n); [intro E; inversion E; split; reflexivity|].
      destruct (str_eqb $"n" n); [intro E; inversion E; split; [exact I|reflexivity]|discriminate]. }
  intro other. eexists. split; reflexivity.
Qed.
