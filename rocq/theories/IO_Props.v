(** C47: reading concatenates exactly the given partitions. C48: literal storage. *)
From Coq Require Import ZArith List Ascii String Bool.
From Verif Require Import Base Str Partitions_Model Format_Model Template_Spec Storage_Model Types_Model Types_Props
  IO_Model IO_Spec IO_Proofs.
Import ListNotations.
Open Scope list_scope.

(** For the examples: data is a list of words, stored with commas between them. *)
Definition words_loads (_ : format) (c : str) : result (list str) := Ok (split_char ","%char c).
Definition words_dumps (_ : format) (l : list str) : result str :=
  match l with [] => Err TypeError | _ => Ok (join $"," l) end.
Definition words_elements (l : list str) : result (list (list str)) := Ok (map (fun x => [x]) l).
Definition words_of (l : list (list str)) : list str := List.concat l.
Definition ex_fp (_ : place) (c : str) : Z := Z.of_nat (List.length c).
Definition by_day : ty := Collection anon ex_struct [$"day"] [] plain.
Definition disk : world := {| local := [($"1.json", $"a,b"); ($"2.json", $"c"); ($"3.json", $"d")]; gcs := [] |}.

(** Reading no partitions raises FileNotFoundError. *)
Theorem C47_no_data : forall V loads elements (of_list : list V -> V) w t f v,
  io_read loads elements of_list w t f [] v = Err FileNotFoundError.
Proof. exact @read_nothing. Qed.
Print Assumptions C47_no_data.

(** Reading several partitions of an unpartitioned type raises ValueError. *)
Theorem C47_several : forall V loads elements (of_list : list V -> V) w t f p q ps v, is_partitioned t = Ok false ->
  io_read loads elements of_list w t f (p :: q :: ps) v = Err ValueError.
Proof. exact @read_several. Qed.
Print Assumptions C47_several.
Example C47_several_nonvacuous : is_partitioned (List ex_struct plain) = Ok false.
Proof. reflexivity. Qed.

(** Reading the partitions of a partitioned type gives the elements of all of them, in the order
    given, and fails if one of them cannot be read or iterated over. *)
Theorem C47_concatenated : forall V loads elements (of_list : list V -> V) w t f ps v x,
  is_partitioned t = Ok true -> readable f v ps ->
  (io_read loads elements of_list w t f ps v = Ok x <->
   exists vss, Forall2 (fun p vs => exists d, holds loads w f p d /\ elements d = Ok vs) ps vss /\ x = of_list (List.concat vss)).
Proof. exact @read_partitions. Qed.
Print Assumptions C47_concatenated.
Example C47_concatenated_nonvacuous :
  let ps := [LocalPart $"3.json"; LocalPart $"1.json"; LocalPart $"1.json"] in
  is_partitioned by_day = Ok true /\ readable JSON PythonBuiltin ps /\
  io_read words_loads words_elements words_of disk by_day JSON ps PythonBuiltin = Ok [$"d"; $"a"; $"b"; $"a"; $"b"] /\
  io_read words_loads words_elements words_of disk by_day JSON [LocalPart $"4.json"] PythonBuiltin = Err FileNotFoundError.
Proof.
  cbn zeta. split; [reflexivity|]. split; [split; [reflexivity|]|split; reflexivity].
  intros q [<-|[<-|[]]]; reflexivity.
Qed.

(** Reading the one partition of an unpartitioned type gives its data. *)
Theorem C47_single : forall V loads elements (of_list : list V -> V) w t f p v x,
  is_partitioned t = Ok false -> implemented f p v = true ->
  (io_read loads elements of_list w t f [p] v = Ok x <-> holds loads w f p x).
Proof. exact @read_single. Qed.
Print Assumptions C47_single.
Example C47_single_nonvacuous :
  io_read words_loads words_elements words_of disk (List ex_struct plain) Pickle [LocalPart $"1.json"] PythonBuiltin = Ok [$"a"; $"b"].
Proof. reflexivity. Qed.

(** There is nothing to read pickled literals, other formats or other views with. *)
Theorem C47_unimplemented : forall V loads elements (of_list : list V -> V) w t f p ps v,
  (ps = [] \/ is_partitioned t = Ok true) -> (forall q, In q ps -> same_kind p q = true) -> implemented f p v = false ->
  io_read loads elements of_list w t f (p :: ps) v = Err NotImplementedError.
Proof. exact @read_unimplemented. Qed.
Print Assumptions C47_unimplemented.
Example C47_unimplemented_nonvacuous : implemented Pickle (LiteralPart $"x" (Some $"y")) PythonBuiltin = false.
Proof. reflexivity. Qed.

(** What was written is stored in the place asked for under its content fingerprint and read back,
    if decoding undoes encoding; nothing else changes, even if the writer raises. *)
Theorem C47_written : forall V loads dumps (written_before : format -> V -> str) content_fp w d f p v w' z q,
  io_write dumps written_before content_fp w d f p v = (w', Ok (z, q)) ->
  exists c, dumps f d = Ok c /\ contains w' q c /\ z = content_fp q c /\ same_place p q /\
    (loads f c = Ok d -> holds loads w' f q d).
Proof. exact @written_read. Qed.
Print Assumptions C47_written.
Theorem C47_writable : forall V dumps (written_before : format -> V -> str) content_fp w d f p v c,
  implemented f p v = true -> dumps f d = Ok c -> (forall id x, p <> LiteralPart id (Some x)) ->
  exists w' z q, io_write dumps written_before content_fp w d f p v = (w', Ok (z, q)).
Proof. exact @written_ok. Qed.
Print Assumptions C47_writable.
Theorem C47_others_kept : forall V dumps (written_before : format -> V -> str) content_fp w d f p v w' r q,
  io_write dumps written_before content_fp w d f p v = (w', r) -> apart p q ->
  forall c, contains w' q c <-> contains w q c.
Proof. exact @others_kept. Qed.
Print Assumptions C47_others_kept.
Example C47_written_nonvacuous :
  let '(w, r) := io_write words_dumps (fun _ _ => $"oops") ex_fp disk [$"x"; $"y"] JSON (LocalPart $"2.json") PythonBuiltin in
  r = Ok (3%Z, LocalPart $"2.json") /\ words_loads JSON $"x,y" = Ok [$"x"; $"y"] /\
  io_read words_loads words_elements words_of w by_day JSON [LocalPart $"2.json"; LocalPart $"1.json"] PythonBuiltin =
    Ok [$"x"; $"y"; $"a"; $"b"] /\ apart (LocalPart $"2.json") (LocalPart $"1.json").
Proof. cbn. repeat split; discriminate. Qed.

(** A literal with a value is found as one partition with that value ... *)
Theorem C48_preset : forall other content_fp id v, avoids $"{}" id -> avoids $"{}" v ->
  exists p, discover_literal other content_fp (string_literal id (Some v) (Some [])) [] =
      Ok [(content_fp (LiteralPart id (Some v)) v, p)] /\
    place_of p = LiteralPart id (Some v) /\ p_key p = [] /\ p_fp p = None.
Proof. exact preset_discovered. Qed.
Print Assumptions C48_preset.
Example C48_preset_nonvacuous : avoids $"{}" $"shop/a.json" /\ avoids $"{}" $"[1, 2, 3]".
Proof. split; repeat constructor; cbn; intuition discriminate. Qed.

(** ... also after it went into a graph: values that are no templates stay as they are. *)
Theorem C48_value_kept_partial : forall other id v kts extension name tags names st, plain_text v ->
  into_graph other (string_literal id (Some v) None) kts extension name tags names = Ok st ->
  exists id', st = string_literal id' (Some v) (Some kts).
Proof. exact value_kept. Qed.
Print Assumptions C48_value_kept_partial.
Example C48_value_kept_nonvacuous : forall other,
  plain_text $"[1, 2, 3]" /\
  into_graph other (string_literal default_id (Some $"[1, 2, 3]") None) [] $".json" $"shop" [] [$"a"; $"b"] =
    Ok (string_literal $"shop/a/b/b.json" (Some $"[1, 2, 3]") (Some [])).
Proof.
  intro other. split; [|vm_compute; reflexivity].
  repeat split; [repeat constructor; cbn; intuition discriminate|discriminate|discriminate].
Qed.

(** It is refused as the output of a producer, whichever partitions are asked for. *)
Theorem C48_refused : forall other content_fp st v fp fps, literal_value st = Some v ->
  discover_literal other content_fp st (fp :: fps) = Err ValueError.
Proof. exact preset_refused. Qed.
Print Assumptions C48_refused.
Theorem C48_not_overwritten : forall V dumps (written_before : format -> V -> str) content_fp w d f id x v,
  implemented f (LiteralPart id (Some x)) v = true ->
  io_write dumps written_before content_fp w d f (LiteralPart id (Some x)) v = (w, Err ValueError).
Proof. exact @preset_not_written. Qed.
Print Assumptions C48_not_overwritten.
Example C48_refused_nonvacuous :
  literal_value (string_literal $"x" (Some $"1") (Some [])) = Some $"1" /\
  implemented JSON (LiteralPart $"x" (Some $"1")) PythonBuiltin = true.
Proof. split; reflexivity. Qed.

(** A literal without a value has no partitions, unless it is partitioned and not said which. *)
Theorem C48_unset : forall other content_fp st kts fps, literal_value st = None -> s_key_types st = Some kts ->
  (kts = [] \/ fps <> []) -> discover_literal other content_fp st fps = Ok [].
Proof. exact unset_nothing. Qed.
Print Assumptions C48_unset.
Theorem C48_partitioned_raw : forall other content_fp st kt kts, s_key_types st = Some (kt :: kts) ->
  discover_literal other content_fp st [] = Err ValueError.
Proof. exact partitioned_raw_refused. Qed.
Print Assumptions C48_partitioned_raw.
Example C48_unset_nonvacuous :
  literal_value (string_literal $"x/{d.iso}" None (Some [($"d", DateField)])) = None /\
  s_key_types (string_literal $"x/{d.iso}" None (Some [($"d", DateField)])) = Some [($"d", DateField)].
Proof. split; reflexivity. Qed.

(** Its partitions can be written once; what was written is read (C47_written, C47_writable). *)
Theorem C48_written : forall other V loads dumps (written_before : format -> V -> str) content_fp elements of_list
    id kts fp key p w d c t, generate_partition other (string_literal id None kts) fp key = Ok p ->
  dumps JSON d = Ok c -> loads JSON c = Ok d -> is_partitioned t = Ok false ->
  exists id', generate_path other fp key id = Ok id' /\
    io_write dumps written_before content_fp w d JSON (place_of p) PythonBuiltin =
      (w, Ok (content_fp (LiteralPart id' (Some c)) c, LiteralPart id' (Some c))) /\
    io_read loads elements of_list w t JSON [LiteralPart id' (Some c)] PythonBuiltin = Ok d.
Proof. exact literal_written_read. Qed.
Print Assumptions C48_written.
Example C48_written_nonvacuous : forall other,
  exists p, generate_partition other (string_literal $"x/{d.Y}/{input_fingerprint}" None (Some [($"d", DateField)])) (Some 7%Z)
      [($"d", FDate 2020 1 2)] = Ok p /\
    words_dumps JSON [$"a"; $"b"] = Ok $"a,b" /\ words_loads JSON $"a,b" = Ok [$"a"; $"b"].
Proof. intro other. eexists. split; [vm_compute; reflexivity|split; reflexivity]. Qed.

(** The full claim is false: values are treated as templates. A literal JSON object cannot be
    found, and the name of the artifact replaces "{name}" in a literal string. *)
Theorem C48_template_refuted : forall other content_fp,
  (exists st, into_graph other (string_literal default_id (Some $"{""a"": 1}") None) [] $".json" $"shop" [] [$"x"] = Ok st /\
    discover_literal other content_fp st [] = Err KeyError) /\
  (exists st p, into_graph other (string_literal default_id (Some $"""{name}""") None) [] $".json" $"shop" [] [$"x"] = Ok st /\
    discover_literal other content_fp st [] = Ok [p] /\
    place_of (snd p) = LiteralPart $"shop/x/x.json" (Some $"""x""")).
Proof. exact literal_templates. Qed.
Print Assumptions C48_template_refuted.
