# Formal model of artigraph in Rocq/Coq 8.16.1

## Method

The code in `/repo` is read as text and modelled function by function as total
Gallina functions. Exceptions are values (`Err kind`), stateful objects are
records threaded through `step` functions, loops are structural recursion or
folds. Python dicts and frozendicts are insertion-ordered association lists,
sets are lists whose order the theorems never depend on (or that is an explicit
argument). Calls that leave the code base (hash functions, `issubclass` on user
classes, user supplied `map`/`build`/`validate_outputs`, file contents) are
function arguments of the model: every theorem is quantified over them.

Layout of `rocq/theories`, per area `X`:

* `X_Model.v`  definitions only, each with a comment citing the `/repo` lines,
* `X_Spec.v`   the small independent vocabulary used by theorem statements,
* `X_Proofs.v` lemmas,
* `X_Props.v`  property theorems, each closed by `exact lemma`, followed by
  `Print Assumptions` and an `Example` showing a concrete non-trivial instance.

Where the property is false of the faithful model, a theorem named `.._refuted`
gives a concrete witness and a guarded `.._partial` theorem states what does hold.

## Plan per property

| id | modelled | proof |
|----|----------|-------|
| C01, C02, C03 | `int64`/`uint64` constructors, operator wrappers, `Fingerprint.combine` over Z | arithmetic with lia; xor laws by bit extensionality; permutation induction |
| C04 | `register` on association lists | induction over call sequences, characterisation as argmax |
| C05 | `ordinal`, `one_or_none` | case analysis against an English-suffix spec |
| C06 | `wrap_exc` as a function on outcomes | induction on the nesting list |
| C07, C08 | `frozendict` | association list laws; C08 expected refuted (`__ror__ = __or__`) |
| C09-C12 | `TypedBox` as a tree with shared status; ops as a step function returning result and new box | invariants by induction over histories; C12 expected refuted (merge and auto-created boxes are not rolled back) |
| C13 | decimal, padded, hex and ISO date codecs, `from_components`, `types_from` | digit induction, round trip; the accepted texts, the calendar, the components and the key types are also characterised exactly (`Fields_Spec.v`: grammar of `int`, ISO forms, divisibility) |
| C14, C15, C21 | format-string parser, `partial_format`, `strip_partition_indexes`, `resolve`, `generate_partition` | parser/printer round trip on template tokens, then fold laws; for every string the relation `reads` between strings and templates (`Parts_Spec.v`), shown sound and complete for the parser; for C21 texts are cut at the occurrences of a placeholder (`Cut_Spec.v`); generated paths and the storages the visitors leave behind are characterised exactly (`Visits_Spec.v`) |
| C16, C17, C18, C20 | path generation, the `parse` matcher (non greedy holes), `extract_placeholders`, wildcard and glob matching | separator argument: a hole's text cannot contain the first character of the next literal; C18 expected refuted |
| C19 | `parse_spec` filter and `LocalFile.discover_partitions` over a finite file map | list filtering; existence of the file expected refuted (`05` vs `5`) |
| C22, C23, C24 | JSON rendering of models, fingerprint field selection, SemVer | injectivity of the printer by structural induction; C23 expected refuted (mapping order) |
| C25 | generic adapters, stable priority sort, `extends` | sorting lemmas |
| C26-C29 | `Type` as an inductive, each external type language as an inductive, adapters branch by branch | structural induction against a normalisation function; for Python hints also an inductive relation of what a hint means (`PyMeaning_Spec.v`), sound and complete |
| C30 | hint language and `lenient_issubclass` over an arbitrary class preorder | induction on hints; limits recorded |
| C31 | Collection validators | list membership reasoning |
| C32 | `compute_input_fingerprint` | xor laws; distinctness expected refuted |
| C33 | `Producer.out` | list induction |
| C34, C36 | the graph definition state machine with cached properties | invariant over histories; C36 expected refuted |
| C35 | `Graph.dependencies`, `TopologicalSorter.static_order` | induction on the sorter state |
| C37 | `GraphSnapshot.from_graph` | xor/permutation laws; the id written out over the visited nodes (`Ids_*`) |
| C38, C39 | `MemoryBackend` state and operations | refinement to "last write"/"union of writes" over histories |
| C40-C46 | executor over backend, storage and user producers | invariants over builds; C42, C44, C45, C46 expected to need guards, with refutations |
| C47, C48 | `io.read`/`io.write`, JSON/pickle readers for partition lists, StringLiteral | list laws |
| C49 | `get_annotation_from_value`, `Artifact.cast` | structural |
| C56 | pydantic's model classes as hints with fields, `create_model`, one more adapter before the Python system | as C26; agreement with the Python system by case analysis on hints |
| C57 | class bodies with field declarations, pydantic's order of validation and collection of errors, the three validators of `Artifact` | characterisation by case analysis; for JSON, Pickle and the default templates via C26 and the stages of C53 |
| C58 | no new code: `Executor_Model`'s files against `Storage_Model`'s | a relation between the two, preserved by writes and under which discovery agrees, from C16, C17, C19 and C20 |
| C59 | `import_submodules`, `find_namespace_packages`, `_discover` on finite directory trees (`Modules_Model`) | induction over trees for the walk; the dictionary of paths has exactly the pairs added when no directory lies below another; induction over the names for the imports |
| C60 | `GCSFile` and its partitions, discovery over a mapping of objects (`Gcs_Model`) | formatting distributes over "/" for every text, so bucket and path together are one template; then C16, C17, C19 |
| C61 | the same build as a program of single accesses, several processes over shared files (`Concurrent_Model`) | a logic of accesses: what each access meets, the build meets; for independent processes each access commutes with restricting the files to the graph's storages, for the others every access keeps "right, or empty and about to be written" |
| C62 | `Graph.read`, `Graph.write`, `GraphSnapshot.read`, `GraphSnapshot.write` over the states of the executor model (`Access_Model`) | evaluation without crashes; what links and records a write adds; builds leave files without a fingerprint alone, so the snapshot taken after a build is the one built |
| C63 | Python's objects, the encoder and the decoder of `json` (`Json_Model`), and the readers and writers of `IO_Model` with them | induction over objects: the scanner reads the text of an object whatever follows; what it reads is not changed by more text, so no proper prefix is a text itself; an object with what cannot be encoded replaced is written with the left text as a prefix; strings in any ASCII spelling JSON has for them (`spells`) by induction over the spelling |
| C64 | the whole path from raw data to `read`: `Executor_Model`, `Access_Model` and the `map` of producers that define none (`Whole_Model`) | an inductive definition of values without storage or backend; an invariant over the nodes built so far: what each produced artifact has recorded and stored is the dump of its value; with data from earlier builds, `history_truth` (C42) instead of the invariant; completeness by running each step forward from the invariant; producers with a `map` (`Mapped_Spec`): tables of partitions instead of values, up to the order in which a set lists them |
| C65 | class statements and subscriptions over records of fields (`StorageClass_Model`), pydantic's call of the partition class | an inductive definition of the classes a program can have; the check is dict equality (`dict_eqb_spec`), which holds for every class that is not abstract; refinement: generating through the classes is `Storage_Model.generate_partition` |
| C66 | tables of signatures; multimethod's choice as the minimal ones among those that accept the arguments (`Handlers_Model`) | in a finite preorder every element is above a minimal one, so one minimal element is the least; lookups for lists and calls with tuples accept the same signatures; the package's tables over all subclasses of its classes, refining `IO_Model.implemented` |
| C67 | artifacts and producers as a mutual inductive type: class, type, rest and producer output; class and named inputs (`Instances_Model`), over the classes of `Producers_Model`, views of `Views_Model` and lookups of `Handlers_Model` | exact conditions for `create`, `out` and `iter` by induction on fields and outputs; soundness of everything made by induction on how it was made; the readers and writers by C66 |
| C68 | no new code: `Executor_Model`, `Graph_Model` and `Placement_Model` | lookups in `artifact_to_key` fail for what is not in the graph; the build visits every producer or fails before; the default template keeps its placeholders until assignment (C53) |
| C69 | no new code: `Executor_Model`; the calls of a build are read off its log (`Missing_Spec.calls`) | one partition, one producer, then induction over the build order: availability of an output is as in the first state until its producer's turn, and inputs do not change after it |
| C70 | `Versions_Model` on top of `Models_Model`; with `Executor_Model` for what a build does | the JSON documents of the versions written out and compared; then C69 |
| C71 | `Lasting_Model` on top of `Executor_Model` and `Backend_Model` | what an action writes and records, composed over a build; a producer finds recorded partitions before it writes; induction over the events of a process; partitions are only recorded where none is, so that what a built snapshot asks for stays the one thing there |
| C72 | `Cached_Model` on top of `Models_Model` | invariant over histories: what is kept under the name of the property is the fingerprint of the present text, and only instances that were asked (or their copies) keep anything |
| C73 | `Shared_Model` | invariant of the recursion of `deepcopy` with its memo: entries made by a call are complete when it returns, those of its callers are untouched; then induction on paths and on histories |
| C74 | `FieldClass_Model` on top of `Utils_Model` | invariant over histories of class statements: the registry lists exactly the classes that can be instantiated; `C74_built_in` ties the table in `Partitions_Model` to it |
| C50, C51, C52 | class/handler/view validation as decision functions | soundness and completeness against declarative specs |

## Modelled code

| model | code | simplified or left out |
|-------|------|------------------------|
| `Int64_Model` | `internal/utils.py` int64/uint64, `fingerprints/__init__.py` | the hash functions are arguments |
| `Utils_Model`, `WrapExc_Model`, `FrozenDict_Model` | `internal/utils.py` | messages of exceptions |
| `Modules_Model` | `internal/utils.py` 50-83, `internal/vendored/setuptools.py` 46-127, `io/__init__.py` 21-27 | directories are finite trees with links followed; paths are absolute and without ".."; listings are not sorted; `pkgutil.iter_modules` and `importlib.import_module` are written out after CPython: modules that import others and the search for a module's file are not modelled, and the lock is not |
| `TypedBox_Model` | `internal/mappings.py` 94-257 | python-box's conversions of keys to attribute names |
| `Partitions_Model` | `partitions/__init__.py` | calendar of `date` is modelled, time zones do not occur |
| `Format_Model`, `Numerals_Model`, `Storage_Model` | `storage/__init__.py`, `storage/_internal.py`, `storage/local.py`, `storage/google/cloud/storage.py` paths | `str.format` for the field kinds that occur; the `parse` library as non greedy matching; the file system as a finite map; glob without character classes |
| `Models_Model` | `internal/models.py`, `versions/__init__.py` (SemVer) | pydantic validation; JSON text of floats |
| `Versions_Model` | `versions/__init__.py` | git, the decoding of its output, `inspect.getsource`, the clock and the text of datetimes are arguments; `strip` of whitespace outside ASCII |
| `Lasting_Model` | `GraphSnapshot.tag`, `from_tag`, `read` (`graphs/__init__.py` 370-403) | `connect` gives the same container; views and types are part of `load` |
| `Cached_Model` | `Model.fingerprint` as a cached property (`internal/models.py` 154-168), pydantic's `model_copy` as used by `ArtifactBox._cast_value`, `Producer.out` and `Storage.resolve`, the fingerprints read by `GraphSnapshot.from_graph` (`graphs/__init__.py` 329-351) | `model_copy` and `cached_property` by their documented behaviour (pydantic 2.7.3 copies the whole `__dict__`, `cached_property` keeps its value there); classes with a field called `fingerprint` are left out. The other models take the fingerprint of a node as a function of the node, which C72 shows to hold if nothing is read before it is copied |
| `Shared_Model` | `NoCopyMixin`, `NoCopyDict` (`internal/utils.py` 248-263), as used by `_NoCopyContainer` (`backends/memory.py` 33-60, 133-138) and `TypeSystem._adapter_by_key` (`types/__init__.py` 345-354); `copy.copy` and `copy.deepcopy` of the standard library and pydantic's methods for them as they are documented | objects are cells of a heap; keys and names of attributes are a number; a tuple counts as an instance (the real `deepcopy` returns the same tuple if nothing in it changed); the dictionary of attributes of a model is no object of its own, so deep copies of models that contain themselves are not described; that `dict` defines neither `__copy__` nor `__deepcopy__`, so that those of the mixin are found although it comes second, is taken from the standard library |
| `FieldClass_Model` | `PartitionField.__pydantic_init_subclass__`, `components`, `get_class_for` (`partitions/__init__.py` 21-55), the default of `_abstract_` (`internal/models.py` 88-92), `classproperty` (`internal/utils.py` 25-28) | a class has one base; names of fields and components are only added in subclasses; whether `classmethod` passes access on to a property is an argument (true up to Python 3.12, taken from the documentation of Python) |
| `TypeSystem_Model` | `types/__init__.py` 284-391 | adapters are arguments |
| `Hints_Model` | `internal/type_hints.py` 29-126 | classes are an arbitrary preorder |
| `Types_Model` | `types/__init__.py` 18-276 | `friendly_key`, user defined types; pydantic's class checks hold by construction |
| `PyTypes_Model` | `types/python.py`, `types/__init__.py` 102-124 | equal items of different classes (`1`, `True`) of an Enum are not merged; the stack is a depth |
| `ModelTypes_Model` | `types/pydantic.py` | `create_model` is taken from pydantic 2.7: fields without annotation, private names, refused names (an argument); Annotated models are not modelled |
| `Graph_Model` | `graphs/__init__.py` 46-291, `producers/__init__.py` 384-415, `graphlib` | annotations of artifacts and producers |
| `Backend_Model` | `backends/memory.py` | the connection context manager |
| `IO_Model` | `io/`, `storage/literal.py` | contents are texts; `json`/`pickle` are arguments; directories cannot be in the way |
| `Json_Model` | `io/json_*_python.py` 1-45, CPython's `json/encoder.py`, `json/decoder.py`, `json/scanner.py` with the arguments used here | floats are given by their `repr` and `float` (assumed to be inverse, `float_laws`); no cyclic objects, no limit of recursion or of the digits of integers, no subclasses of str, int, float, list and dict; an Enum's objects are those of its type; the text is ASCII, so the file's encoding does not matter; the depth of the scanner is bounded by the length of the text (`loads_fuel`: no text needs more) |
| `Whole_Model` | `producers/__init__.py` 271-297, `io/json_*_python.py` | maps are covered if they go by the keys of the partitions they are given (`by_keys`), choose among them and return dicts; a storage is partitioned if the type is |
| `StorageClass_Model` | `storage/__init__.py` 24-41, 65-116, 193-222, `internal/models.py` 87-92, 126-129 | fields are inherited as in pydantic 2.7; class attributes are looked up base by base instead of along the MRO; whether a value suits a hint and a field's metadata is an argument; a generic class is not subscripted with its own variable |
| `Gcs_Model` | `storage/google/cloud/storage.py` 18-64 | what a wildcard lists and which hashes are reported are arguments; missing objects raise FileNotFoundError; every object has a crc32c |
| `Concurrent_Model` | as `Executor_Model`; `storage/local.py` 44-58, `io/*_localfile_python.py` | listing with its filter is one access, reading a file, opening it (which empties it), writing it and reading it for the fingerprint one each; a file is written at once, so no reader sees a part of it; every process has a MemoryBackend of its own, one thread; files are not deleted; run alone it is `Executor_Model` (`C61_alone`) |
| `Access_Model` | `graphs/__init__.py` 203-291, 384-423 | as `Executor_Model`; sealed graphs; a connection passed in leads to the graph's own backend (with another one, a snapshot taken by `read` is still recorded in the graph's own); views and annotations are opaque |
| `Cast_Model` | `internal/type_hints.py` 143-163, `artifacts/__init__.py` 80-116 | values are integers, sequences, dicts and opaque objects of a class; single inheritance; equal JSON keys |
| `Dispatch_Model` | `internal/dispatch.py`, `internal/type_hints.py` 180-208 | multimethod's choice among the registered handlers is an argument (see `Handlers_Model`) |
| `Handlers_Model` | `internal/dispatch.py` 35-56, `views/__init__.py` 131-145, `io/__init__.py` 24-82, the handlers in `io/` | multimethod's choice is written out: ties are an error (some versions break them by distance in the MRO); hints are Any, classes and aliases of one class; no two handlers of the same signature; in the theorems about the package's own handlers classes have one base |
| `Instances_Model` | `producers/__init__.py` 309-324, 369-415, 464-466, `graphs/__init__.py` 57-78 | `annotations` and `version` are left at their defaults; what templates become when assigning to a graph is an argument that leaves the classes of format and storage (see `Storage_Model`); values of fields are artifacts or not; artifacts whose `producer_output` is set by hand are not made |
| `Views_Model` | `views/__init__.py` 20-145, `views/python.py`, `internal/type_hints.py` 129-140 | Annotated is one level deep; the lookups of io handlers are arguments |
| `Producers_Model` | `producers/__init__.py` 108-307, 433-469 | signatures are given with their resolved hints; field hints are a class of artifacts, optional, or other; `View.from_annotation` is an argument |
| `ArrowTypes_Model` | `types/pyarrow.py` 12-368 | PyArrow types are values with the attributes read here; the checks of `pa.field`, `pa.list_`, `pa.map_` and `pa.binary` are taken from PyArrow 16.1; the JSON of the metadata is structured, other keys than the three written are not modelled |
| `BigQueryTypes_Model` | `types/bigquery.py` 19-279 | SchemaFields and Tables are values with the attributes read here; `TableReference.from_string` is an argument (assumed to split the name); `Table.schema` is read again as google-cloud-bigquery 3.25 does; the legacy values of `SqlTypeNames` are written out; no warnings, labels, or partition filters |
| `FrameTypes_Model` | `types/numpy.py` 16-95, `types/pandas.py` 13-105 | arrays, Series and DataFrames are values: shape and scalar class or dtype (with a size or not), the first object of object arrays and columns, the labels of columns; rows are not modelled; `np.array([x])` and `pd.Series([x()])` are written out as NumPy 2.0 and pandas 2.2 (locked) do it for the examples made here; NumPy's limit of 64 dimensions (32 before 2.0) is a constant; a stack depth stands for Python's recursion limit |
| `Placement_Model` | `artifacts/__init__.py` 65-72, `graphs/__init__.py` 56-83, `storage/local.py` 30-63 | of an artifact only the storage and whether it is produced; `os.sep` is "/"; the root is the text of a Path |
| `Artifacts_Model` | `artifacts/__init__.py` 37-78, `internal/models.py` 202-210, `formats/`, `storage/__init__.py` 124-141 | pydantic validates the fields in order, defaults included, collects ValueErrors and AssertionErrors and passes on everything else; single inheritance; `producer_output` |
| `Executor_Model` | `executors/`, `graphs/__init__.py` 197-423, `io/__init__.py`, `storage/*` as used by builds | files are at (template, key, fingerprint) instead of paths (justified by C58 for discoverable templates in different directories); user code is deterministic; one process at a time (several: `Concurrent_Model`); a crash happens between effects |

## Trusted base

Coq's kernel, the modelling choices cited in the model files, and what
`Print Assumptions` lists for each theorem (expected: closed under the global
context). No axioms are added. Not modelled: pydantic's own validation engine,
the third-party libraries (farmhash, sha256, `parse`'s regular expression
engine beyond the documented non-greedy field semantics, multimethod's
dispatch beyond `Handlers_Model`, pyarrow/BigQuery/numpy/pandas objects beyond the attributes
the adapters touch), Google Cloud Storage beyond a mapping of objects, pickling, logging.

## Findings

Properties that are false of the faithful model, with the theorem giving the witness.

| id | finding | theorem |
|----|---------|---------|
| C05 | `ordinal` uses Python's `%` on negative numbers: `ordinal(-9)` is `-9st` | `C05_ordinal_negative_refuted` |
| C08 | `frozendict.__ror__ = __or__`: in `dict | frozendict` the left operand wins | `C08_reflected_union_refuted` |
| C12 | a failing TypedBox assignment leaves auto-created boxes behind | `C12_failed_assignment_refuted` |
| C12 | a failing merge keeps the items merged before the failure | `C12_failed_merge_refuted` |
| C14 | `{{`/`}}` escapes are lost at each resolve; values with braces are interpreted again at the next; index `[01]` becomes `[1]`; `{a:}` becomes `{a}`; nothing else changes (`C14_identity_iff`) | see `Format_Props.v` |
| C15 | key names are not checked: incomplete keys and undeclared names are accepted when the template does not use them | `C15_incomplete_key_refuted` |
| C16 | adjacent placeholders: different keys share a path | `C16_adjacent_refuted` |
| C18 | `extract_placeholders` reads `key_types[key]` with the variable left over from the loop: all fields get the class of the last placeholder. With two declared classes no path is ever parsed to a key of the declared types | `C18_mixed_classes_refuted` |
| C17 | so partitions with fields of different classes are not rediscovered | `C17_mixed_refuted` |
| C19 | a file spelling a value differently (`i=05`) aborts the whole discovery with FileNotFoundError | `C19_stray_file_refuted` |
| C19 | ... or, with `i=5` present, the partition is returned twice | `C19_twice_refuted` |
| C20 | WildcardPlaceholder has no `__format__`: any format spec raises TypeError, so storages with the default layout of date partitions can never be discovered | `C20_default_dates_refuted` |
| C20 | escaped braces are unescaped twice in generated paths and once in the wildcard | `C20_escapes_refuted` |
| C20 | a hard coded index stays in the wildcard but is dropped from generated paths | `C20_index_refuted` |
| C21 | a placeholder occurring twice, once before a separator and once not, leaves a trailing separator or an empty path | `C21_trailing_separator_refuted`, `C21_empty_path_refuted` |
| C21 | an escaped placeholder is taken for one when it is resolved to nothing, and the text cannot be formatted any more | `C21_escape_refuted` |
| C23 | equal models with different fingerprints: a mapping filled in another order, a set iterated in another order, `True` against `1` | `C23_equal_models_refuted` |
| C23 | Timestamps of one moment in two timezones compare equal and are different versions: the producer is run again | `C70_equal_times_refuted` |
| C71 | A raw artifact read through a tagged snapshot gives the data that is there now, not the data that was snapshotted: nothing compares the content with the recorded fingerprint | `C71_raw_refuted` |
| C72 | `fingerprint` is a `cached_property`, kept in `__dict__`, and `model_copy` copies `__dict__`: an artifact whose fingerprint was read before it is assigned to a graph keeps the fingerprint it had with the unresolved storage, and the id of the snapshot changes with it although all definitions are the same | `C72_fingerprint_refuted`, `C72_copied_stale`, `C72_snapshot_refuted` |
| C72 | the fingerprint of a graph read inside its `with` block stays that of the unfinished graph | `C72_refilled_stale` |
| C72 | which fields of a SemVer count is decided on construction and kept in `__dict__` (`object.__setattr__`, `versions/__init__.py` 55-58), so `model_copy` takes it over: copies of 1.0.0 with major 0 ignore minor and patch, and copies of 0.x with a positive major do not (the package itself copies no versions) | `C72_versions_refuted`, `C72_copied_versions` |
| C74 | `classproperty` is `classmethod(property(...))`, which Python 3.13 no longer supports, but `pyproject.toml` admits it (`^3.12`): there `cls.components` is a bound method, the definition of `DateField` raises a TypeError, and `arti.partitions` cannot be imported (the behaviour of 3.13 is taken from its documentation) | `C74_newer_python_refuted` |
| C74 | A partition field class that can be instantiated, as `DateField`, cannot be extended by another for the same type: the inherited `matching_type` is already registered, a ValueError in the class statement | `C74_extended` |
| C26 | Structs with a Null field and nullable Nulls have hints (with `NoneType`) that no adapter takes back | `C26_null_refuted` |
| C26 | an Enum takes the type of its items: `Enum(Int64, {True})` becomes one of Boolean; one of a nullable type with None cannot be converted back | `C26_enum_refuted` |
| C30 | `Annotated[int \| str, ...]` as target: `int` is not below it (or TypeError for `Union[...]`), while it is below `int \| str` | `C30_annotated_union_refuted` |
| C30 | a TypedDict against itself raises TypeError; a union against itself, and `list[int \| str]` against an equal but distinct object, are False | `C30_reflexive_refuted` |
| C30 | `tuple[int, int]` against `tuple[int, ...]` raises TypeError | `C30_total_refuted` |
| C34 | `Graph.dependencies` answers (from its cache) while the graph is open again | `C34_cached_dependencies_refuted` |
| C36 | artifacts added after reopening a graph are unknown to `dependencies`, hence to snapshots and builds | `C36_reopened_refuted` |
| C32 | input fingerprints are xors: exchanging the contents of two inputs, or two inputs with equal contents, is invisible | `C32_distinct_refuted`, `C32_equal_contents_refuted` |
| C37 | the snapshot id depends on the order in which artifacts were defined | `C37_definition_order_refuted` |
| C37 | two raw artifacts reading the same file cancel out of the id: changed data gets the id (and the partition links) of the old snapshot | `C37_shared_file_refuted` |
| C40 | a partition found for one of two outputs: the build succeeds and never builds the other | `C40_other_output_refuted`, `C40_literal_refuted` |
| C40, C41 | `build` returning too few values is not noticed; the missing outputs are rebuilt each time | `C40_too_few_refuted`, `C41_no_values_refuted` |
| C42 | wrong data is reused after two inputs exchanged their contents | `C42_exchanged_inputs_refuted` |
| C42 | raw data that changes between snapshot and build is recorded under the old fingerprint and reused later | `C42_changed_meanwhile_refuted` |
| C42 | an output that cannot be serialised leaves an empty file, which a new process links as the output | `C42_failed_write_refuted` |
| C44 | a build stopped between two outputs is never completed; one stopped while writing leaves an empty file that a new process accepts; a new process may read partitions in another order and build something else under the same fingerprint | `C44_several_outputs_refuted`, `C44_half_written_refuted`, `C44_order_refuted` |
| C45 | a map that asks for no partition links every known partition of the output's storage | `C45_empty_map_refuted` |
| C48 | literal values are resolved as templates: a JSON object literal cannot be discovered (KeyError), `{name}` in a value is replaced | `C48_template_refuted` |
| C49 | `[1, True]` gets a type, `[True, 1]` raises NotImplementedError | `C49_order_refuted` |
| C49 | any int is typed Int64 (2**70 too); the int keys of a dict come back as strings; an empty dict raises StopIteration; sets, bytes and dates get a type and then fail in `json.dumps` | `C49_large_int_refuted`, `C49_keys_refuted`, `C49_errors`, `C49_stored_refuted` |
| C46 | with only output 1 of 2 in the graph, value 0 is stored in it; the build raises IndexError once, and the next one succeeds | `C46_left_out_refuted` |
| C50 | a subclass inherits the generated `map`: it misses new inputs of `build` (so the producer can never be built) and stands in for the map required with partitioned outputs | `C50_inherited_map_refuted` |
| C58 | two storages whose templates differ only in the name of the key field share their files | `C58_apart_refuted` |
| C59 | with two given directories, one below the other, the modules of the inner one are not imported under the given name (one dictionary maps each path to one name); a directory called `x.py` counts as a module `x` | `C59_overlap_refuted` |
| C60 | objects at the default path of a GCSFile are called `name..json`: the template has a dot before `{extension}`, and extensions start with one | `C60_extension_refuted` |
| C61 | a process takes a file for built as soon as another has opened it to write: it fails when it reads it, or ends well with the empty file linked to its snapshot | `C61_fails_refuted`, `C61_half_written_refuted` |
| C61 | a process may record the fingerprint of a file that was empty at that moment; what it builds from it is stored under another fingerprint than what others build from the same data | `C61_stale_refuted` |
| C61 | with a format that reads an empty file as data (none of those in the repository) wrong data would be stored and found again | `C61_lenient_refuted` |
| C62 | a write that fails because the view cannot write the data has emptied the file: the previous data is lost | `C62_emptied_refuted` |
| C62 | what is written to a raw `StringLiteral` cannot be read back: discovery does not ask the backend | `C62_literal_refuted` |
| C62 | `snapshot.read` of a raw artifact returns whatever the file has now, also if it is not what the snapshot recorded | `C62_changed_refuted` |
| C62 | in a new process, writing one partition by hand hides the existing files of the storage from builds: the others are built again | `C62_hidden_refuted` |
| C62 | `read` does not check a view that is passed (an annotation's view is checked; `write` checks either) | noted in `Access_Model` |
| C63 | types with dates, timestamps, binary data or sets are accepted with the JSON format and cannot be written (TypeError); in particular no Collection partitioned by a Date can store rows that have the date | `C63_dated_rows_refuted`, `C63_types` |
| C63 | such a write has emptied the file and left the beginning of the text: the previous data is lost | `C63_failed_write`, `C63_old_data_refuted` |
| C63 | maps from numbers come back as maps from strings, tuples as lists, two keys with the same text as one entry, two surrogates as one character, without an error | `C63_keys_refuted`, `C63_read_back`, `C63_surrogates_refuted` |
| C63 | a partition that is a dict (or a string) is read as its keys (characters) | `C63_dict_partition_refuted` |
| C63 | a number that was cut off is read as another number; anything else cut off is refused | `C63_cut_number_refuted` |
| C64 | a function that returns a tuple (with the JSON format) hands a list to the producers that take its output: a build is not the composition of its functions | `C64_tuple_refuted` |
| C64 | after two inputs have exchanged their contents, the build succeeds and what is read is the value from before (C42) | `C64_exchanged_refuted` |
| C65 | a storage class that names no partition type can be defined and instantiated; making a partition is then an AttributeError | `C65_without_type_refuted` |
| C65 | the check compares hints without their metadata and leaves out the fields of StoragePartition: a partition class with a constraint, or with another hint for `storage`, is accepted and its partitions cannot be made | `C65_metadata_refuted`, `C65_overridden_refuted` |
| C65 | a generic base class for storages, `class Base[SP](Storage[SP])`, can be defined but never be subscripted: `__pydantic_init_subclass__` looks for the fields of the type variable (AttributeError) | `C65_generic_refuted` |
| C66 | compatibility is looked up for a list of partitions, reading is called with a tuple: a reader registered for `list[...]` passes `register` and every check and is never called (NotImplementedError in the build) | `C66_list_refuted` |
| C66 | writers are looked up for the Python type of the view, called with the class of the data: one registered for a class of data is not used for other data, which is only noticed in the build | `C66_data_refuted` |
| C66 | registering a reader for a subclass of a format and any storage makes reading it from files fail, which worked before: neither of the two refines the other (TypeError, at definition a ValueError saying there is no implementation) | `C66_draw_refuted` |
| C68 | assigning an artifact stores a changed copy, and references to the original are not replaced (a TODO in `_cast_value`): a producer created from the original is accepted, the graph closes and snapshots, and every build ends in a KeyError without having called it | `C68_closed_refuted`, `C68_never_built`, `C68_replaced` |
| C50 | `map` need not take the inputs of `build` | `C50_map_lacks_refuted` |
| C50 | an input named `kwargs` is refused without a `map`, since the hint of the generated `**kwargs` replaces the one of the parameter | `C50_kwargs_refuted` |
| C50 | parameters named `self` or `cls` of static methods are overlooked | `C50_self_refuted` |
| C51 | parameters of a handler may be in another order than those of the spec, although dispatch goes by position | `C51_order_refuted` |
| C51 | a handler returning a union of allowed hints is refused | `C51_union_return_refuted` |
| C52 | `get_class_for` of a view class may return a view that is no subclass of it | `C52_subclass_refuted` |
| C52 | the Python type of an explicitly chosen view is not compared with the annotation: `Annotated[int, Float]` is accepted | `C52_python_type_refuted` |
| C52 | None has a view but NoneType, which `get_type_hints` makes of it, has none; neither has bool | `C52_none_refuted` |
| C27 | a Null field of a Struct is refused by PyArrow unless nullable; a Collection inside of another type is a TypeError, not a NotImplementedError | `C27_accepted` (`refused`) |
| C27 | objects PyArrow does not know raise an AttributeError instead of a NotImplementedError | `C27_foreign_refuted` |
| C27 | of several struct fields of one name all but the last are dropped | `C27_repeated_refuted` |
| C28 | the description of a List is replaced by the one of its element | `C28_list_description_refuted` |
| C28 | a Collection within a Struct is converted, but cannot be read back (AttributeError or KeyError) | `C28_nested_collection_refuted`, `C28_untidy` |
| C28 | a Collection whose first partition column is repeated is converted, but cannot be read back | `C28_repeated_partition_refuted`, `C28_untidy` |
| C28 | fields of type INT64, FLOAT64, BOOL and STRUCT (the standard names, accepted by BigQuery) are not understood | `C28_standard_names_refuted` |
| C28 | tables partitioned by day of ingestion are refused by pydantic's ValueError instead of a NotImplementedError | `C28_ingestion_time_refuted` |
| C28 | Collections need a name with project and dataset (unless anonymous), or there is a ValueError | `C28_accepted` (`refused_bq`) |
| C29 | Lists and columns of bytes are converted to a Series of dtype `S0`/`S1` that cannot be read back | `C29_bytes_refuted`, `C29_lost` |
| C29 | a DataFrame in which a label is repeated is read forever (RecursionError) | `C29_repeated_labels_refuted` |
| C29 | Lists of Lists in pandas give a TypeError, Structs within Structs a ValueError, instead of a NotImplementedError | `C29_frames` (`pd_refused`) |
| C53 | partitioned by a field called `name` or `names`, no artifact with the default storage can be assigned in a graph: `{name.value}` is filled with the artifact's name (AttributeError) | `C53_name_field_refuted` |
| C53 | an artifact assigned under a second name keeps the path of the first: both names share the files | `C53_placed_for_good` |
| C54 | "/" in a name: the artifacts `a/a` and `a.a.a` of a graph have the same file; so have `b.c` in a graph `a` and `c` in a graph `a/b` | `C54_separator_refuted`, `C54_graph_separator_refuted` |
| C55 | an artifact named `*`: its discovery raises ValueError once another artifact of the graph has been written | `C55_wildcard_refuted` |
| C56 | a nullable Struct becomes a required model, since the adapter for models is asked before the one for Optional: `Optional[Model]` does not survive | `C56_nullable_refuted` |
| C56 | fields with a leading underscore are dropped by the conversion to a model (with a warning only), and a Null field gives a TypeError | `C56_fields_refuted` |
| C56 | the names of Structs in fields are replaced by the names of the fields | `C56_round_trip_partial` (`modelled`) |
| C57 | the default annotations and statistics of a class go through the validator that puts them in front of the value: an artifact created without any has each of the class's twice | `C57_annotations_refuted`, `C57_statistics_refuted` |
| C57 | an artifact whose class has annotations cannot be created again from its own values: they grow | `C57_again_refuted` |
| C57 | a type the format does not support, or partitioning by an unsupported field, is no ValidationError: NotImplementedError and KeyError are passed on, hiding all other errors | `C57_no_hint`, `C57_no_keys` |
| C29 | an empty Series of objects gives an IndexError | `C29_series_readable` |
| C29 | `numpy_type_system` fails with a ValueError on a Series or DataFrame instead of saying that there is no conversion | `C29_array_system_on_frames_refuted` |

Also noted, without contradicting a property: the type in a serialized model is only the class `__name__`, so
classes of the same name in different modules collide, and a mapping with a key `_arti_type_` looks like a model.

## Seeded bugs

`seeded/LOG.jsonl` records edits of the model made in a scratch copy. There, every
proof that stops compiling is admitted so that the build goes on. `failed` lists the
property theorems that then rest on an admitted lemma, `failed_lemmas` the proofs that
stopped compiling. A failure shows that the recorded proof no longer goes through; a
theorem in `failed` other than those of the broken claim may still be true of the edited
model with another proof. A mutant is logged as caught only if a theorem of the claim it
breaks is in `failed`. A line without `outcome` was caught in this sense. Lines with
`outcome: survived` were not: no theorem of the claim failed (theorems of other claims in
`failed` may have). Lines with `outcome: inconclusive` broke off, because the edit made a
definition or a statement ill-typed, a proof ran out of time, or the theorems of the claim
do not rest on the edited file; they count neither way. `status` says whether the same
edit was caught for the claim in another run. The lines with an `outcome` were added to the
log afterwards, at its end or after the runs they belong to, so its order is not that of
the attempts; until then the log held the edits that were caught only.

Survivors never caught for their claim are not all explained. Some name the wrong claim
and are caught for another one, or leave the claim true. The others have not been
analysed one by one and may be gaps in the theorems: they are to be read as such. Lemmas that merely unfold an edited definition are edited with it
(`adapted`), since they would reject any edit.
