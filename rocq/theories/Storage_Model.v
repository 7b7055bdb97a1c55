(** Model of src/arti/storage/__init__.py lines 65-246, src/arti/storage/_internal.py lines
    122-183 and src/arti/storage/local.py lines 19-63. Definitions only.

    A storage is its model fields (text fields are templates, anything else is opaque) and
    its key types. Separators are the class defaults on POSIX: "=", "_" and "/".
    Fingerprints are their integer value. The third-party [parse] library is modelled by
    its documented behaviour for untyped fields; file system access by a list of files. *)
From Coq Require Import ZArith NArith List Ascii String Bool Arith.
From Verif Require Import Base Str Numerals_Model Partitions_Model Format_Model Int64_Model.
Import ListNotations.
Open Scope nat_scope.
Open Scope list_scope.

Definition key_types := list (str * fclass).
Definition pkey := list (str * field).

Section Storage.
  Context (other : cvalue -> str -> result str).
  Notation partial_format := (partial_format other).
  Notation strip_partition_indexes := (strip_partition_indexes other).

  (** storage/__init__.py:65-84. A field holds a template text ([Some]) or another value. *)
  Record storage := { s_fields : list (str * option str); s_key_types : option key_types }.

  (** [key_types] (163-167) *)
  Definition get_key_types (st : storage) : result key_types :=
    match s_key_types st with Some k => Ok k | None => Err ValueError end.

  (** [includes_input_fingerprint_template] (159-161) *)
  Definition fp_template : str := $"{input_fingerprint}".
  Definition includes_fp (st : storage) : bool :=
    existsb (fun nv => match snd nv with Some t => contains_sub fp_template t | None => false end)
            (s_fields st).

  (** [_resolve_field] (224-235) *)
  Definition trim_empty (spec : str) (placeholder : str) : result str :=
    let ph := $"{" ++ placeholder ++ $"}" in
    let trim := if contains_sub (ph ++ $"/") spec then ph ++ $"/" else ph in
    match rstrip_char "/"%char (replace trim [] spec) with
    | [] => Err ValueError
    | s => Ok s
    end.
  Definition resolve_field (spec : str) (values : list (str * str)) : result str :=
    bind (fold_left (fun acc pv => match snd pv with
                                   | [] => bind acc (fun s => trim_empty s (fst pv))
                                   | _ => acc
                                   end) values (Ok spec))
         (fun s => partial_format s values).

  (** [resolve] (237-246) *)
  Definition resolve (st : storage) (values : list (str * str)) : result storage :=
    rmap (fun fs => {| s_fields := fs; s_key_types := s_key_types st |})
      (mapM (fun nv => match snd nv with
                       | Some t => rmap (fun t' => (fst nv, Some t')) (resolve_field t values)
                       | None => Ok nv
                       end) (s_fields st)).

  (** [_visit_type] (124-138): the default "name_component={name.component}" segments. *)
  Definition partition_key_spec (kts : key_types) : str :=
    join $"/" (map (fun ns => fst ns ++ $"=" ++ snd ns)
      (dict_of str_eqb
        (flat_map (fun nc => map (fun cs => (fst nc ++ $"_" ++ fst cs, $"{" ++ fst nc ++ $"." ++ snd cs ++ $"}"))
                               (default_components (snd nc))) kts))).
  Definition visit_type (st : storage) (kts : key_types) : result storage :=
    resolve {| s_fields := s_fields st; s_key_types := Some kts |}
            [($"partition_key_spec", partition_key_spec kts)].
  (** [_visit_format] (140-141) *)
  Definition visit_format (st : storage) (extension : str) : result storage :=
    resolve st [($"extension", extension)].
  (** [_visit_graph] (143-149) *)
  Definition visit_graph (st : storage) (graph_name : str) (path_tags : list (str * str)) : result storage :=
    resolve st [($"graph_name", graph_name);
                ($"path_tags", join $"/" (map (fun tv => fst tv ++ $"=" ++ snd tv) path_tags))].
  (** [_visit_input_fingerprint] (151-154) *)
  Definition visit_input_fingerprint (st : storage) (fp : option Z) : result storage :=
    resolve st [($"input_fingerprint", match fp with None => [] | Some z => py_str z end)].
  (** [_visit_names] (156-157) *)
  Definition visit_names (st : storage) (names : list str) : result storage :=
    resolve st [($"name", last names []); ($"names", join $"/" names)].

  (** * generate_partition (193-222) *)

  (** Rendering with the final arguments: [str.format( **kwargs )]. The input fingerprint is
      set last and wins over a key field of that name (207). A key field is reached through
      one of its components; its other attributes and its own text are not modelled. *)
  Definition format_final (fp : option Z) (key : pkey) : renderer := fun first accs conv spec =>
    match (if str_eqb first $"input_fingerprint" then fp else None) with
    | Some z => format_str other (py_str z) accs conv spec
    | None =>
        match dget str_eqb key first with
        | None => Err KeyError
        | Some f =>
            match conv, accs with
            | None, [Attr n] => bind (component f n) (fun v => format_value other v spec)
            | _, _ => Err (UserError 0)
            end
        end
    end.

  Record partition := {
    p_fp : option Z; p_key : pkey; p_storage : storage; p_fields : list (str * option str) }.

  (** [_check_key] (179-185) *)
  Definition check_key (kts : key_types) (key : pkey) : result unit :=
    match kts, key with
    | _ :: _, [] => Err ValueError
    | [], _ :: _ => Err ValueError
    | _, _ => Ok tt
    end.

  Definition generate_path (fp : option Z) (key : pkey) (template : str) : result str :=
    bind (strip_partition_indexes template) (fun t => vformat (format_final fp key) t).

  (** The partition class has the same fields as the storage class (103-116), so every field
      is carried over. *)
  Definition generate_partition (st : storage) (fp : option Z) (key : pkey) : result partition :=
    bind (get_key_types st) (fun kts =>
    bind (check_key kts key) (fun _ =>
    if Bool.eqb (match fp with None => false | Some _ => true end) (includes_fp st) then
      rmap (fun fs => {| p_fp := fp; p_key := key; p_storage := st; p_fields := fs |})
        (mapM (fun nv => match snd nv with
                         | Some t => rmap (fun t' => (fst nv, Some t')) (generate_path fp key t)
                         | None => Ok nv
                         end) (s_fields st))
    else Err ValueError)).                                                 (* 201-206 *)

  (** * The [parse] library: [parse.compile(spec, case_sensitive=True)]

      Fields are braces around word characters, [".word"] and ["[...]"] accessors and an
      optional [":format"]; "{{" and "}}" are braces; any other text is literal. A field
      matches one or more characters, as few as possible; a width in the format is the least
      length; a repeated field must repeat the text. Field types are not modelled, nor are
      fields whose name does not start with a letter. *)
  Definition is_word (c : ascii) : bool :=
    let n := N_of_ascii c in
    ((48 <=? n) && (n <=? 57) || (65 <=? n) && (n <=? 90) || (97 <=? n) && (n <=? 122) || (n =? 95))%N.

  Fixpoint take_while (p : ascii -> bool) (s : str) : str * str :=
    match s with
    | [] => ([], [])
    | c :: s' => if p c then let '(a, b) := take_while p s' in (c :: a, b) else ([], s)
    end.

  (** The accessors after the name: as text, with the remaining input. *)
  Fixpoint take_accessors (fuel : nat) (s : str) : str * str :=
    match fuel with
    | O => ([], s)
    | S n =>
        match s with
        | c :: s' =>
            if c =c "." then
              match take_while is_word s' with
              | ([], _) => ([], s)
              | (w, r) => let '(a, b) := take_accessors n r in (c :: w ++ a, b)
              end
            else if c =c "[" then
              match take_while (fun c => negb (c =c "]")) s' with
              | ([], _) => ([], s)
              | (w, e :: r) => let '(a, b) := take_accessors n r in (c :: w ++ e :: a, b)
              | (_, []) => ([], s)
              end
            else ([], s)
        | [] => ([], s)
        end
    end.

  (** A field at the start of the text (after its opening brace): name, format, rest. *)
  Definition take_field (s : str) : option (str * str * str) :=
    let '(w, r) := take_while is_word s in
    let '(a, r1) := take_accessors (List.length r) r in
    match r1 with
    | c :: r2 =>
        if c =c "}" then Some (w ++ a, [], r2)
        else if c =c ":" then
          match take_while (fun c => negb (c =c "}")) r2 with
          | ([], _) => None
          | (f, e :: r3) => Some (w ++ a, f, r3)
          | (_, []) => None
          end
        else None
    | [] => None
    end.

  Inductive ptok := PLit (c : ascii) | PField (name format : str).
  Fixpoint ptokens (fuel : nat) (s : str) : list ptok :=
    match fuel, s with
    | S n, c :: s' =>
        let field := if c =c "{" then take_field s' else None in
        match field, s' with
        | _, d :: s'' =>
            if ((c =c "{") && (d =c "{")) || ((c =c "}") && (d =c "}"))
            then PLit c :: ptokens n s''
            else match field with
                 | Some (name, f, r) => PField name f :: ptokens n r
                 | None => PLit c :: ptokens n s'
                 end
        | _, [] => [PLit c]
        end
    | _, _ => []
    end.

  (** The least number of characters a field with this format takes. *)
  Definition min_length (format : str) : nat :=
    Nat.max 1 (if all_digits format then Z.to_nat (digits_value format) else 0).

  Fixpoint strip_prefix (p s : str) : option str :=
    match p, s with
    | [], _ => Some s
    | a :: p', b :: s' => if a =c b then strip_prefix p' s' else None
    | _ :: _, [] => None
    end.

  (** RepeatedNameError: a repeated name with another format. *)
  Fixpoint compile_ok (seen : list (str * str)) (toks : list ptok) : bool :=
    match toks with
    | [] => true
    | PLit _ :: r => compile_ok seen r
    | PField n f :: r =>
        match dget str_eqb seen n with
        | Some f' => str_eqb f f' && compile_ok seen r
        | None => compile_ok (seen ++ [(n, f)]) r
        end
    end.

  (** A field takes as few characters as let the rest match; [acc] is what it took so far. *)
  Definition grow (least : nat) (rest : str -> str -> option (list (str * str)))
      : str -> str -> option (list (str * str)) :=
    fix grow (acc s : str) : option (list (str * str)) :=
      match (if least <=? List.length acc then rest (rev acc) s else None) with
      | Some e => Some e
      | None => match s with [] => None | c :: s' => grow (c :: acc) s' end
      end.
  Fixpoint pmatch (toks : list ptok) (env : list (str * str)) (s : str) : option (list (str * str)) :=
    match toks with
    | [] => match s with [] => Some env | _ => None end
    | PLit c :: r => match s with
                     | d :: s' => if c =c d then pmatch r env s' else None
                     | [] => None
                     end
    | PField n f :: r =>
        match dget str_eqb env n with
        | Some v => match strip_prefix v s with Some s' => pmatch r env s' | None => None end
        | None => grow (min_length f) (fun taken s' => pmatch r (env ++ [(n, taken)]) s') [] s
        end
    end.

  (** * extract_placeholders (storage/_internal.py:122-158) *)

  (** A name with indexes: its base and first index (the library returns a dict for these,
      of which the code takes the key, 143-145). *)
  Definition base_index (name : str) : str * option str :=
    let '(b, r) := take_while (fun c => negb (c =c "[")) name in
    match r with
    | _ :: r' => (b, Some (fst (take_while (fun c => negb (c =c "]")) r')))
    | [] => (b, None)
    end.

  Definition fp_of_int (z : Z) : result Z := rmap iv (fp_from_int (PyInt KInt z)).

  (** The loop (137-146): fingerprint, components per field, and the loop variable [key]. *)
  Record extracted := {
    x_fp : option Z; x_comps : list (str * list (str * str)); x_last : str }.
  Definition extract_step (acc : result extracted) (nv : str * str) : result extracted :=
    bind acc (fun x =>
    let '(k, idx) := base_index (fst nv) in
    let v := match idx with Some i => i | None => snd nv end in
    if str_eqb k $"input_fingerprint" then
      match idx with
      | Some _ => Err AssertionError                                      (* 139 *)
      | None => bind (py_int 10 v) (fun z => rmap (fun fp =>
                  {| x_fp := Some fp; x_comps := x_comps x; x_last := x_last x |}) (fp_of_int z))
      end
    else
      match split_char "."%char k with
      | [key; component] =>
          let comps := match dget str_eqb (x_comps x) key with Some c => c | None => [] end in
          Ok {| x_fp := x_fp x;
                x_comps := dset str_eqb (x_comps x) key (dset str_eqb comps component v);
                x_last := key |}
      | _ => Err ValueError                                               (* 142 *)
      end).

  (** The key is built with the class of the field the loop ended with: line 150 reads
      [key_types[key]], not [key_types[field_name]]. *)
  Definition build_key (kts : key_types) (x : extracted) : result pkey :=
    mapM (fun fc => match dget str_eqb kts (x_last x) with
                    | None => Err KeyError
                    | Some cls => rmap (fun f => (fst fc, f)) (from_components cls (snd fc))
                    end) (x_comps x).
  Definition same_names (key : pkey) (kts : key_types) : bool :=
    forallb (fun kv => dmem str_eqb kts (fst kv)) key && forallb (fun kv => dmem str_eqb key (fst kv)) kts.

  Definition extract_placeholders (kts : key_types) (path spec : str) : result (option Z * pkey) :=
    let toks := ptokens (List.length spec) spec in
    if compile_ok [] toks then
      match pmatch toks [] path with
      | None => Err ValueError                                            (* 131-133 *)
      | Some named =>
          bind (fold_left extract_step named (Ok {| x_fp := None; x_comps := []; x_last := [] |})) (fun x =>
          bind (build_key kts x) (fun key =>
          if same_names key kts then Ok (x_fp x, key) else Err ValueError))  (* 154-157 *)
      end
    else Err ValueError.

  (** * parse_spec (161-183) *)
  Definition key_eqb (a b : pkey) : bool :=
    forallb (fun kv => match dget str_eqb b (fst kv) with Some f => field_eqb (snd kv) f | None => false end) a &&
    forallb (fun kv => dmem str_eqb a (fst kv)) b.
  Definition opt_eqb (a b : option Z) : bool :=
    match a, b with Some x, Some y => (x =? y)%Z | None, None => true | _, _ => false end.
  (** [InputFingerprints]: keys to optional fingerprints; [.get(key, None)]. *)
  Definition requested (fps : list (pkey * option Z)) (key : pkey) : option Z :=
    match dget key_eqb fps key with Some fp => fp | None => None end.
  Definition parse_spec (paths : list str) (fps : list (pkey * option Z)) (kts : key_types) (spec : str)
      : result (list (str * (option Z * pkey))) :=
    rmap (filter (fun pm => opt_eqb (requested fps (snd (snd pm))) (fst (snd pm))))
      (mapM (fun path => rmap (pair path) (extract_placeholders kts path spec)) paths).

  (** * LocalFile (storage/local.py:19-57) *)

  (** [glob.glob]: segment by segment; "*" any text, "?" any character, a name starting with
      a dot only matched by a pattern starting with one. Character classes ("[...]") are not
      modelled: "[" stands for itself. *)
  Fixpoint fnmatch (pat s : str) : bool :=
    match pat with
    | [] => match s with [] => true | _ => false end
    | p :: pat' =>
        if p =c "*" then
          (fix star (s : str) : bool :=
             fnmatch pat' s || match s with [] => false | _ :: s' => star s' end) s
        else match s with
             | c :: s' => ((p =c "?") || (p =c c)) && fnmatch pat' s'
             | [] => false
             end
    end.
  Definition hidden (s : str) : bool := starts_with $"." s.
  Definition match_segment (pat s : str) : bool := fnmatch pat s && (negb (hidden s) || hidden pat).
  Fixpoint match_segments (pats ss : list str) : bool :=
    match pats, ss with
    | [], [] => true
    | p :: ps, s :: ss' => match_segment p s && match_segments ps ss'
    | _, _ => false
    end.
  Definition glob_match (pat path : str) : bool :=
    match_segments (split_char "/"%char pat) (split_char "/"%char path).

  (** The existing files with their contents; [glob] lists matching ones. *)
  Context {content : Type}.
  Definition files := list (str * content).
  Definition glob (fs : files) (pat : str) : list str := filter (glob_match pat) (map fst fs).

  (** [LocalFilePartition.compute_content_fingerprint] (22-27), [snapshot] (35-38): reads the
      file at the partition's path. *)
  Context (content_fp : content -> Z).
  Definition snapshot (fs : files) (p : partition) : result (Z * partition) :=
    match dget str_eqb (p_fields p) $"path" with
    | Some (Some path) => match dget str_eqb fs path with
                          | Some c => Ok (content_fp c, p)
                          | None => Err FileNotFoundError
                          end
    | _ => Err AttributeError
    end.

  Definition local_file (path : str) (kts : key_types) : storage :=
    {| s_fields := [($"path", Some path)]; s_key_types := Some kts |}.

  (** [discover_partitions] (45-58) of a LocalFile with key types [kts]. *)
  Definition discover_partitions (fs : files) (path : str) (kts : key_types) (fps : list (pkey * option Z))
      : result (list (Z * partition)) :=
    bind (spec_to_wildcard other path kts) (fun wildcard =>
    bind (parse_spec (glob fs wildcard) fps kts path) (fun metadata =>
    mapM (fun pm => bind (generate_partition (local_file path kts) (fst (snd pm)) (snd (snd pm)))
                         (snapshot fs)) metadata)).
End Storage.
