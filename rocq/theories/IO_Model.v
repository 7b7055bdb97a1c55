(** Model of src/arti/io/__init__.py lines 30-82, of the readers and writers in
    src/arti/io/{json,pickle}_{localfile,gcsfile,stringliteral}_python.py and of
    src/arti/storage/literal.py lines 13-52. Definitions only.

    Files and blobs are mappings from paths to contents; directories always exist and cannot get
    in the way. Contents, also those of pickles, are texts. *)
From Coq Require Import ZArith List Ascii String Bool.
From Verif Require Import Base Str Partitions_Model Format_Model Storage_Model Types_Model.
Import ListNotations.
Open Scope list_scope.

(** The formats and views there are readers and writers for, and any other. *)
Inductive format := JSON | Pickle | OtherFormat.
Inductive view := PythonBuiltin | OtherView.

(** A partition to read or write, by storage: the path of a LocalFilePartition, the
    [qualified_path] of a GCSFilePartition, the id and value of a StringLiteralPartition. *)
Inductive place :=
| LocalPart (path : str)
| GCSPart (qualified_path : str)
| LiteralPart (id : str) (value : option str).
Record world := { local : list (str * str); gcs : list (str * str) }.

(** The registered readers, which are also the writers: there is none for pickled literals. *)
Definition implemented (f : format) (p : place) (v : view) : bool :=
  match f, p, v with
  | JSON, _, PythonBuiltin => true
  | Pickle, LiteralPart _ _, PythonBuiltin => false
  | Pickle, _, PythonBuiltin => true
  | _, _, _ => false
  end.
Definition same_kind (p q : place) : bool :=
  match p, q with
  | LocalPart _, LocalPart _ | GCSPart _, GCSPart _ | LiteralPart _ _, LiteralPart _ _ => true
  | _, _ => false
  end.

Section IO.
  (** Data, and the codecs [json] and [pickle] with what they leave in a file when they raise;
      iterating over data and making a list; the content fingerprint of a stored text. *)
  Context {V : Type} (loads : format -> str -> result V) (dumps : format -> V -> result str)
          (written_before : format -> V -> str)
          (elements : V -> result (list V)) (of_list : list V -> V) (content_fp : place -> str -> Z).

  (** [_read_json_file], [_read_pickle_file], [_read_json_literal]. *)
  Definition stored (w : world) (p : place) : result str :=
    match p with
    | LocalPart path => match dget str_eqb (local w) path with Some c => Ok c | None => Err FileNotFoundError end
    | GCSPart path => match dget str_eqb (gcs w) path with Some c => Ok c | None => Err FileNotFoundError end
    | LiteralPart _ (Some c) => Ok c
    | LiteralPart _ None => Err AssertionError
    end.
  Definition read_one (w : world) (f : format) (p : place) : result V := bind (stored w p) (loads f).

  (** The readers, which are alike: [chain.from_iterable] reads and iterates partition by
      partition. *)
  Definition reader (w : world) (t : ty) (f : format) (ps : list place) : result V :=
    bind (is_partitioned t) (fun partitioned =>
    if partitioned : bool then rmap (fun l => of_list (List.concat l)) (mapM (fun p => bind (read_one w f p) elements) ps)
    else match ps with [p] => read_one w f p | _ => Err AssertionError end).

  (** [read] (42-62) and the dispatch of [_read] (30-36) by format, storage and view. An artifact
      has partitions of one storage only; how the multimethod library dispatches on others is
      not modelled. *)
  Definition io_read (w : world) (t : ty) (f : format) (ps : list place) (v : view) : result V :=
    match ps with
    | [] => Err FileNotFoundError
    | p :: others =>
        bind (match others with [] => Ok true | _ => is_partitioned t end) (fun fine =>
        if negb fine then Err ValueError
        else if forallb (same_kind p) others
        then if implemented f p v then reader w t f ps else Err NotImplementedError
        else Err (UserError 0))
    end.

  (** The writers. Files are emptied before the data is encoded into them, so that a failure
      leaves what was written before it. *)
  Definition set_local (w : world) (path c : str) : world := {| local := dset str_eqb (local w) path c; gcs := gcs w |}.
  Definition set_gcs (w : world) (path c : str) : world := {| local := local w; gcs := dset str_eqb (gcs w) path c |}.
  Definition writer (w : world) (data : V) (f : format) (p : place) : world * result place :=
    match p with
    | LocalPart path => match dumps f data with
                        | Ok c => (set_local w path c, Ok p)
                        | Err e => (set_local w path (written_before f data), Err e)
                        end
    | GCSPart path => match dumps f data with
                      | Ok c => (set_gcs w path c, Ok p)
                      | Err e => (set_gcs w path (written_before f data), Err e)
                      end
    | LiteralPart id (Some _) => (w, Err ValueError)
    | LiteralPart id None => (w, rmap (fun c => LiteralPart id (Some c)) (dumps f data))
    end.

  (** [snapshot] (storage/__init__.py 35-38) with the [compute_content_fingerprint] of the
      storage: literals raise FileNotFoundError as long as they have no value (literal.py
      19-22). *)
  Definition take_snapshot (w : world) (p : place) : result (Z * place) :=
    match p with
    | LiteralPart _ None => Err FileNotFoundError
    | _ => rmap (fun c => (content_fp p c, p)) (stored w p)
    end.

  (** [write] (77-82) and the dispatch of [_write] (65-71). *)
  Definition io_write (w : world) (data : V) (f : format) (p : place) (v : view) : world * result (Z * place) :=
    if implemented f p v then
      let '(w', r) := writer w data f p in (w', bind r (take_snapshot w'))
    else (w, Err NotImplementedError).
End IO.

(** * StringLiteral (storage/literal.py 25-52) *)

(** Its fields are [id] and [value], both templates as far as [Storage] is concerned. *)
Definition string_literal (id : str) (value : option str) (kts : option key_types) : storage :=
  {| s_fields := [($"id", Some id); ($"value", value)]; s_key_types := kts |}.
Definition default_id : str :=
  $"{graph_name}/{path_tags}/{names}/{partition_key_spec}/{input_fingerprint}/{name}{extension}".
Definition literal_value (st : storage) : option str :=
  match dget str_eqb (s_fields st) $"value" with Some v => v | None => None end.
Definition place_of (p : partition) : place :=
  match dget str_eqb (p_fields p) $"id", dget str_eqb (p_fields p) $"value" with
  | Some (Some id), Some v => LiteralPart id v
  | _, _ => LiteralPart [] None
  end.

Section Literal.
  Context (other : cvalue -> str -> result str) (content_fp : place -> str -> Z).

  (** [snapshot] of a StringLiteralPartition (15-22). *)
  Definition literal_snapshot (p : partition) : result (Z * partition) :=
    match place_of p with
    | LiteralPart id (Some v) => Ok (content_fp (LiteralPart id (Some v)) v, p)
    | _ => Err FileNotFoundError
    end.

  (** [discover_partitions] (31-52) *)
  Definition discover_literal (st : storage) (fps : list (pkey * option Z)) : result (list (Z * partition)) :=
    match fps, literal_value st with
    | _ :: _, Some _ => Err ValueError                                    (* 34-37 *)
    | _, _ =>
        bind (get_key_types st) (fun kts =>
        match kts, fps with
        | _ :: _, [] => Err ValueError                                    (* 38-40 *)
        | _, _ =>
            match literal_value st with
            | None => Ok []                                               (* 43-44 *)
            | Some _ =>
                mapM (fun kf => bind (generate_partition other st (snd kf) (fst kf)) literal_snapshot)
                  (match fps with [] => [([], None)] | _ => fps end)      (* 45-52 *)
            end
        end)
    end.

  (** A storage on its way into a graph as that of a raw artifact: Artifact._validate_storage
      (artifacts/__init__.py 65-72), then [ArtifactBox._cast_value] (graphs/__init__.py 57-72). *)
  Definition into_graph (st : storage) (kts : key_types) (extension graph_name : str) (path_tags : list (str * str))
      (names : list str) : result storage :=
    bind (visit_type other st kts) (fun st =>
    bind (visit_format other st extension) (fun st =>
    bind (visit_graph other st graph_name path_tags) (fun st =>
    bind (visit_names other st names) (fun st =>
    visit_input_fingerprint other st None)))).
End Literal.
