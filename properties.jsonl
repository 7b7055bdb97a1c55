{"id": "C01", "title": "64-bit conversions are a lossless two's complement bijection", "statement": "int64(uint64(x)) and uint64(int64(y)) are mutually inverse; a conversion succeeds exactly when the value fits (or is the 64-bit sibling type), and then is congruent to its argument modulo 2^64; anything else raises ValueError and is never truncated.", "quantifier": "every integer and every int64/uint64 value", "why_tests_cant": "2^64 values per type and unbounded integers; tests sample the edges", "anchors": ["src/arti/internal/utils.py: int64.__new__, uint64.__new__", "src/arti/fingerprints/__init__.py: Fingerprint.from_uint64, from_int"]}
{"id": "C02", "title": "Sized-integer arithmetic is exact or fails", "statement": "Every arithmetic or bitwise operator on int64/uint64/Fingerprint returns a value of the left operand's type equal to the exact mathematical result when that fits, and otherwise raises ValueError; it never wraps.", "quantifier": "every operator, every operand pair", "why_tests_cant": "the operand space is 2^128 pairs per operator", "anchors": ["src/arti/internal/utils.py: _int.__add__ ... __xor__"]}
{"id": "C03", "title": "Combining fingerprints is order-independent", "statement": "Fingerprint.combine never fails or leaves the 64-bit range, does not depend on the order or grouping of its arguments, leaves a fingerprint unchanged when combined with the identity, and combining the same fingerprint twice cancels out.", "quantifier": "every fingerprint and every finite list of fingerprints, in every order", "why_tests_cant": "lists and permutations are unbounded", "anchors": ["src/arti/fingerprints/__init__.py: Fingerprint.combine, identity, is_identity"]}
{"id": "C04", "title": "Registries keep the highest priority entry whatever the registration order", "statement": "With a priority function, any sequence of registrations for which no two same-key values share a priority ends with each key mapped to its highest-priority value, independent of order. A registration that raises leaves the registry untouched; without a priority function a key is never replaced.", "quantifier": "every sequence of register calls (any keys, values, priorities)", "why_tests_cant": "registration order is import order, so all permutations matter", "anchors": ["src/arti/internal/utils.py: register", "src/arti/views/__init__.py: View.__pydantic_init_subclass__"]}
{"id": "C05", "title": "ordinal and one_or_none", "statement": "ordinal(n) is the English ordinal of every integer n (11th-13th style exceptions at every hundred); one_or_none returns the only element, the default when there is none, and raises when there are several.", "quantifier": "every integer; every list", "why_tests_cant": "unbounded integers and lists", "anchors": ["src/arti/internal/utils.py: ordinal, one_or_none"]}
{"id": "C06", "title": "Nested error prefixes compose", "statement": "An error crossing any number of nested wrap_exc contexts of its type carries the prefixes outermost first, then ' - ', then the original message, with the original error as its direct cause; errors of other types pass through unchanged.", "quantifier": "every nesting depth, prefixes and messages", "why_tests_cant": "nesting depth is unbounded", "anchors": ["src/arti/internal/__init__.py: wrap_exc"]}
{"id": "C07", "title": "frozendict behaves as an immutable mapping", "statement": "A frozendict looks up exactly the last value given for each key; equality and hash do not depend on insertion order; `a | b` contains the keys of both with b winning and changes neither operand.", "quantifier": "every sequence of key/value pairs", "why_tests_cant": "unbounded contents and orders", "anchors": ["src/arti/internal/mappings.py: frozendict"]}
{"id": "C08", "title": "dict | frozendict prefers the right operand", "statement": "For a plain mapping m and a frozendict f, `m | f` gives f's values on common keys, as Python's dict union does.", "quantifier": "every mapping and frozendict", "why_tests_cant": "needs every overlap pattern", "anchors": ["src/arti/internal/mappings.py: frozendict.__ror__"]}
{"id": "C09", "title": "A TypedBox never overwrites a value", "statement": "Once a dotted key of a TypedBox holds a value, no later sequence of operations (assignments, nested merges, look-ups, membership tests), failing or not, changes or removes it; an assignment to it raises ValueError.", "quantifier": "every history of operations on a box", "why_tests_cant": "histories are unbounded", "anchors": ["src/arti/internal/mappings.py: TypedBox.__setitem__, __getitem__, __contains__"]}
{"id": "C10", "title": "A closed TypedBox is immutable", "statement": "While closed, no operation on the box or any nested box changes its contents: assignments raise and missing look-ups raise instead of creating nested boxes. While open a look-up of a missing key yields an empty nested box. Only a closed box can be hashed, and equal closed boxes hash alike.", "quantifier": "every box, key and history while closed", "why_tests_cant": "histories are unbounded", "anchors": ["src/arti/internal/mappings.py: TypedBox", "src/arti/graphs/__init__.py: Graph._toggle"]}
{"id": "C11", "title": "TypedBox membership, look-up and walk agree", "statement": "Membership tests never change a box. A key set successfully is found by membership and look-up; walk() yields exactly the leaf values, each once, under the dotted key that looks it up.", "quantifier": "every box built by any history of assignments", "why_tests_cant": "arbitrary nesting and histories", "anchors": ["src/arti/internal/mappings.py: TypedBox.__contains__, __getitem__, walk"]}
{"id": "C12", "title": "A failed TypedBox assignment has no effect", "statement": "If an assignment to a box raises, the box is unchanged.", "quantifier": "every box, key and value for which the assignment raises", "why_tests_cant": "needs every failure point inside nested merges", "anchors": ["src/arti/internal/mappings.py: TypedBox.__setitem__, _get_leaf_and_key"]}
{"id": "C13", "title": "Partition fields survive formatting into text and back", "statement": "For every partition field, rendering its default components (or any supported component set, with any zero-padded width) to text and parsing that text with from_components gives back an equal field. Components parse to a field exactly when they stand for it (ISO dates of the Gregorian calendar, Python integer texts, \"None\"), other component sets raise NotImplementedError and bad texts ValueError; the key types of a collection give each partition field the class of its type.", "quantifier": "every date in years 1-9999, every integer, every supported component set and width", "why_tests_cant": "the value space is unbounded", "anchors": ["src/arti/partitions/__init__.py: DateField, _IntField, NullField, from_components, default_components"]}
{"id": "C14", "title": "Partial formatting only fills what it is given", "statement": "Resolving a template substitutes exactly the given placeholders and leaves every other placeholder (with its attributes, indexes and format spec) textually unchanged; with nothing to fill it is the identity; resolving disjoint placeholder sets in either order gives the same template.", "quantifier": "every template and every set of values", "why_tests_cant": "unbounded templates", "anchors": ["src/arti/storage/_internal.py: partial_format, FormatPlaceholder", "src/arti/storage/__init__.py: Storage.resolve"]}
{"id": "C15", "title": "generate_partition accepts exactly complete arguments", "statement": "generate_partition fails unless a partition key is given iff the type is partitioned and an input fingerprint is given iff the template asks for one; on success the resulting partition records precisely the key, fingerprint and storage given.", "quantifier": "every storage template, key and fingerprint", "why_tests_cant": "every combination of template and arguments", "anchors": ["src/arti/storage/__init__.py: Storage.generate_partition, _check_key, includes_input_fingerprint_template"]}
{"id": "C16", "title": "Different partitions never share a path", "statement": "For a storage template naming all key components (and the fingerprint), two generated partitions have the same path only if their keys and input fingerprints are equal.", "quantifier": "every well separated template, every pair of keys and fingerprints", "why_tests_cant": "pairs of unbounded keys", "anchors": ["src/arti/storage/__init__.py: Storage.generate_partition", "src/arti/storage/_internal.py: strip_partition_indexes"]}
{"id": "C17", "title": "Every written partition is discovered again", "statement": "Parsing a generated path with the storage template returns exactly the key and input fingerprint it was generated from, so a later discovery finds the partition.", "quantifier": "every well separated template, key and fingerprint (also several fields)", "why_tests_cant": "unbounded keys and templates", "anchors": ["src/arti/storage/_internal.py: extract_placeholders, parse_spec", "src/arti/storage/__init__.py: Storage.generate_partition"]}
{"id": "C18", "title": "Keys with fields of different types are parsed per field", "statement": "With several partition fields, each discovered field is built with the class declared for that field.", "quantifier": "every set of declared key types", "why_tests_cant": "existing tests use one type for all fields", "anchors": ["src/arti/storage/_internal.py: extract_placeholders"]}
{"id": "C19", "title": "Discovery returns exactly the matching existing files", "statement": "discover_partitions returns a partition iff a file matching the template exists whose fingerprint equals the requested one for its key; every returned partition points at an existing file.", "quantifier": "every file system content, template and requested fingerprint mapping", "why_tests_cant": "file system contents are unbounded", "anchors": ["src/arti/storage/local.py: LocalFile.discover_partitions", "src/arti/storage/_internal.py: parse_spec, spec_to_wildcard"]}
{"id": "C20", "title": "A generated path matches its own wildcard", "statement": "The glob pattern derived from a template matches every path generated from it.", "quantifier": "every template, key and fingerprint", "why_tests_cant": "unbounded", "anchors": ["src/arti/storage/_internal.py: spec_to_wildcard, WildcardPlaceholder"]}
{"id": "C21", "title": "Unused placeholders disappear with their separator", "statement": "Resolving a placeholder to the empty string removes it and one following separator and leaves no trailing separator, changes nothing else, and fails rather than produce an empty path; raw artifacts thereby never contain an input fingerprint placeholder.", "quantifier": "every template", "why_tests_cant": "unbounded templates", "anchors": ["src/arti/storage/__init__.py: Storage._resolve_field, _visit_input_fingerprint", "src/arti/graphs/__init__.py: ArtifactBox._cast_value"]}
{"id": "C22", "title": "Model serialization determines the fingerprinted content", "statement": "Two models have the same serialized form (the text that is fingerprinted) iff they have the same type name and the same serialized values of all fingerprinted fields; fields marked SkipFingerprint or excluded never influence it, and field declaration order does not matter.", "quantifier": "every pair of models, arbitrarily nested", "why_tests_cant": "arbitrary nesting and contents", "anchors": ["src/arti/internal/models.py: Model._arti_serialize_model, fingerprint, __pydantic_init_subclass__"]}
{"id": "C23", "title": "Equal models have equal fingerprints", "statement": "Models that compare equal have the same fingerprint.", "quantifier": "every pair of equal models", "why_tests_cant": "needs every way two equal values can differ in representation", "anchors": ["src/arti/internal/models.py: Model.fingerprint", "src/arti/internal/mappings.py: frozendict serializer, TypedBox serializer"]}
{"id": "C24", "title": "SemVer fingerprints track only breaking versions", "statement": "SemVer(a,b,c) and SemVer(x,y,z) serialize alike iff a = x and, when a <= 0, also b = y and c = z.", "quantifier": "every pair of integer triples", "why_tests_cant": "unbounded", "anchors": ["src/arti/versions/__init__.py: SemVer.model_post_init"]}
{"id": "C25", "title": "Type adapters are chosen by priority", "statement": "A type system converts with the matching adapter of highest priority (first registered on ties), consults extended systems in order only when none of its own match, and otherwise raises NotImplementedError; results do not depend on registration order when priorities of matching adapters differ.", "quantifier": "every set of adapters, priorities and extension chain", "why_tests_cant": "all registration orders and extension depths", "anchors": ["src/arti/types/__init__.py: TypeSystem.to_artigraph, to_system, _priority_sorted_adapters"]}
{"id": "C26", "title": "Python types round trip", "statement": "Every Artigraph type that the Python type system can express converts to a Python hint and back to the same type up to the documented widening (integer and float width to 64, timestamps to microseconds, collections to lists, names and descriptions of anonymous types dropped), and converting again changes nothing. A hint is converted to a type exactly when it means that type, and an Enum takes exactly the items its type has.", "quantifier": "every type of any nesting depth", "why_tests_cant": "unbounded nesting", "anchors": ["src/arti/types/python.py: all adapters"]}
{"id": "C27", "title": "PyArrow types round trip", "statement": "Every Artigraph type accepted by the PyArrow type system converts back to an equal type except for the stated losses (descriptions, struct names, nullability outside struct fields, Geography).", "quantifier": "every type of any nesting depth", "why_tests_cant": "unbounded nesting", "anchors": ["src/arti/types/pyarrow.py: all adapters"]}
{"id": "C28", "title": "BigQuery types round trip", "statement": "Every Artigraph type accepted by the BigQuery type system converts back to an equal type up to widening (64-bit numbers, microseconds), non-nullable arrays; nested arrays are always rejected.", "quantifier": "every type of any nesting depth", "why_tests_cant": "unbounded nesting", "anchors": ["src/arti/types/bigquery.py: all adapters"]}
{"id": "C29", "title": "NumPy and pandas types round trip", "statement": "Every Artigraph type accepted by the NumPy/pandas type systems converts to an example array/series/frame and back to an equal type (descriptions and nullability aside).", "quantifier": "every type of any nesting depth", "why_tests_cant": "unbounded nesting", "anchors": ["src/arti/types/numpy.py", "src/arti/types/pandas.py"]}
{"id": "C30", "title": "lenient_issubclass is a sound subtype test", "statement": "It is reflexive and transitive on plain and subscripted classes, has Any as top, treats a Union target as a disjunction, ignores Annotated on either side, and is covariant in type arguments.", "quantifier": "every hint of any nesting depth and every class hierarchy", "why_tests_cant": "unbounded hints", "anchors": ["src/arti/internal/type_hints.py: lenient_issubclass, _check_issubclass"]}
{"id": "C31", "title": "Collections only accept valid partition and cluster fields", "statement": "A Collection can be created iff every partition_by and cluster_by name is a field and no name is in both; then partition_fields and cluster_fields give exactly the declared types.", "quantifier": "every struct and name tuples", "why_tests_cant": "unbounded", "anchors": ["src/arti/types/__init__.py: Collection validators, partition_fields, is_partitioned"]}
{"id": "C32", "title": "Input fingerprints reflect inputs and code", "statement": "A producer partition's input fingerprint does not depend on argument order, partition order, storage paths or argument names; changing exactly one input content, the version fingerprint or the producer name always changes it; and distinct inputs give distinct fingerprints.", "quantifier": "every producer, version and input partition contents", "why_tests_cant": "2^64 fingerprints and unbounded partition lists", "anchors": ["src/arti/producers/__init__.py: Producer.compute_input_fingerprint"]}
{"id": "C33", "title": "out() ties each artifact to its position", "statement": "Producer.out accepts exactly as many artifacts as build returns, each compatible with the matching output and not already produced, and links the i-th artifact to output i of this producer, changing nothing else.", "quantifier": "every producer and list of artifacts", "why_tests_cant": "unbounded lists", "anchors": ["src/arti/producers/__init__.py: Producer.out"]}
{"id": "C34", "title": "At most one graph is being defined", "statement": "In any interleaving of entering and leaving graph definitions, at most one graph is open, its artifacts are mutable only in that window, and operations that need a finished graph fail while it is open.", "quantifier": "every history of enter/exit/assign/build operations on any number of graphs", "why_tests_cant": "histories are unbounded", "anchors": ["src/arti/graphs/__init__.py: Graph.__enter__, __exit__, _toggle, requires_sealed"]}
{"id": "C35", "title": "Graph dependencies and build order are right", "statement": "The dependency relation contains exactly the artifact->producer and producer->inputs edges; if it is acyclic every node is visited once, after everything it depends on; if cyclic, leaving the definition raises.", "quantifier": "every graph", "why_tests_cant": "unbounded graphs", "anchors": ["src/arti/graphs/__init__.py: Graph.dependencies, __exit__", "src/arti/executors/local.py: LocalExecutor.build"]}
{"id": "C36", "title": "A reopened graph sees its new artifacts", "statement": "After reopening a graph, adding artifacts and leaving again, dependencies and snapshots cover the added artifacts.", "quantifier": "every graph and added artifact", "why_tests_cant": "caching interplay over histories", "anchors": ["src/arti/graphs/__init__.py: Graph.dependencies (cached_property), __enter__, __exit__"]}
{"id": "C37", "title": "Snapshot ids depend on exactly structure and raw contents", "statement": "A snapshot id does not depend on artifact definition order or discovery order; changing one artifact, producer, key or raw content fingerprint changes it; a graph with a raw artifact without data cannot be snapshotted and then nothing is recorded.", "quantifier": "every graph and raw data", "why_tests_cant": "unbounded graphs, orders", "anchors": ["src/arti/graphs/__init__.py: GraphSnapshot.from_graph"]}
{"id": "C38", "title": "Tags name a snapshot until explicitly moved", "statement": "A tag reads back the snapshot of the last successful tagging under that graph name; tagging again without overwrite raises and changes nothing; tags of other names are never affected; unknown tags raise.", "quantifier": "every history of tag operations", "why_tests_cant": "histories are unbounded", "anchors": ["src/arti/backends/memory.py: write_snapshot_tag, read_snapshot_tag", "src/arti/graphs/__init__.py: GraphSnapshot.tag, from_tag"]}
{"id": "C39", "title": "Partition metadata only grows and stays with its snapshot", "statement": "Partitions linked to a snapshot and key are exactly those written for it; operations on other snapshots, keys or storages never change them; nothing recorded is lost.", "quantifier": "every history of backend operations", "why_tests_cant": "histories are unbounded", "anchors": ["src/arti/backends/memory.py: write_artifact_partitions, write_snapshot_partitions, read_snapshot_partitions, read_artifact_partitions"]}
{"id": "C40", "title": "A successful build leaves every output partition available", "statement": "When a build finishes, for every producer, output in the graph and partition its map asked for, the snapshot has a partition with that key and the producer's input fingerprint.", "quantifier": "every graph, producers, prior storage state", "why_tests_cant": "unbounded graphs and histories", "anchors": ["src/arti/executors/__init__.py: Executor", "src/arti/executors/local.py"]}
{"id": "C41", "title": "Rebuilding does no work", "statement": "Building again right after a successful build of the same snapshot calls no producer, writes no data and changes no metadata.", "quantifier": "every graph and prior state", "why_tests_cant": "unbounded", "anchors": ["src/arti/executors/__init__.py: discover_producer_partitions, build_producer_partition"]}
{"id": "C42", "title": "Reused outputs equal freshly built outputs", "statement": "After any sequence of builds of any graphs sharing storage and backend, the data linked to a snapshot is what the producers compute from that snapshot's inputs.", "quantifier": "every history of raw data changes and builds", "why_tests_cant": "histories are unbounded", "anchors": ["src/arti/executors/__init__.py: Executor", "src/arti/producers/__init__.py: compute_input_fingerprint"]}
{"id": "C43", "title": "Failed validation writes nothing", "statement": "If validate_outputs rejects a partition, the build raises, and none of that partition's outputs are written to storage or linked to the snapshot, while everything recorded earlier is kept.", "quantifier": "every producer, partition and prior state", "why_tests_cant": "every failure point", "anchors": ["src/arti/executors/__init__.py: build_producer_partition"]}
{"id": "C44", "title": "A crashed build can be resumed", "statement": "If a build stops at any point, running it again completes all outputs of all producers.", "quantifier": "every crash point", "why_tests_cant": "every crash point of every graph", "anchors": ["src/arti/executors/__init__.py: build_producer_partition, discover_producer_partitions"]}
{"id": "C45", "title": "Only requested partitions are linked to a snapshot", "statement": "A build links to its snapshot only output partitions whose key was asked for by the producer's map with the current input fingerprint.", "quantifier": "every graph, map result and storage history", "why_tests_cant": "unbounded histories", "anchors": ["src/arti/executors/__init__.py: discover_producer_partitions", "src/arti/backends/memory.py: read_artifact_partitions"]}
{"id": "C46", "title": "Each output is stored in its own artifact", "statement": "build's i-th return value is written to the artifact assigned from output i, also when only some outputs are assigned to the graph.", "quantifier": "every producer and assignment of outputs", "why_tests_cant": "every subset of outputs", "anchors": ["src/arti/executors/__init__.py: build_producer_partition", "src/arti/graphs/__init__.py: Graph.producer_outputs"]}
{"id": "C47", "title": "Reading concatenates exactly the given partitions", "statement": "Reading no partitions raises FileNotFoundError, several partitions of an unpartitioned type raise ValueError, and otherwise the data of all given partitions is returned in the given order, each once.", "quantifier": "every list of partitions", "why_tests_cant": "unbounded lists", "anchors": ["src/arti/io/__init__.py: read", "src/arti/io/json_localfile_python.py"]}
{"id": "C48", "title": "Literal storage", "statement": "A literal with a preset value is discovered as one partition with that content and is refused as a producer output; a literal without value has no partitions until written, and what is written is what is read.", "quantifier": "every value, key and fingerprint mapping", "why_tests_cant": "unbounded", "anchors": ["src/arti/storage/literal.py"]}
{"id": "C49", "title": "Cast values get a type that describes them", "statement": "Artifact.cast of a Python value infers a type all its elements belong to, or raises; the inferred type does not depend on element order.", "quantifier": "every (nested) value", "why_tests_cant": "unbounded values", "anchors": ["src/arti/internal/type_hints.py: get_annotation_from_value", "src/arti/artifacts/__init__.py: Artifact.cast"]}
{"id": "C50", "title": "Producer definitions are validated completely", "statement": "A producer class is accepted iff every field is a required artifact, build parameters are hinted keyword parameters naming fields, outputs are viewable and share one partitioning, map and validate_outputs fit, and no field is unused.", "quantifier": "every class signature", "why_tests_cant": "unbounded signatures", "anchors": ["src/arti/producers/__init__.py: Producer.__pydantic_init_subclass__"]}
{"id": "C51", "title": "Dispatch handlers must refine the spec", "statement": "Registering an io handler succeeds iff it has the same parameter names and kinds as the spec and each annotation and the return refine the spec's.", "quantifier": "every signature", "why_tests_cant": "unbounded signatures", "anchors": ["src/arti/internal/dispatch.py: _multipledispatch.register"]}
{"id": "C52", "title": "Views match annotations", "statement": "The view chosen for an annotation is the explicitly annotated one, else the highest-priority view registered for the type or its origin, else an error; a view accepts an annotation only if it can represent its type.", "quantifier": "every annotation", "why_tests_cant": "unbounded annotations", "anchors": ["src/arti/views/__init__.py: View"]}
{"id": "C53", "title": "Default storage path", "statement": "An artifact with the default LocalFile storage, assigned in a graph, is stored at root/graph name/path tags/names/partition key components/[input fingerprint/]name.extension, levels without content left out, the fingerprint being kept open exactly for produced artifacts; assigning it again moves nothing.", "quantifier": "every root, graph, list of names, key types and extension", "why_tests_cant": "unbounded texts, tags, names and key fields", "anchors": ["src/arti/storage/__init__.py: Storage._visit_type, _visit_format, _visit_graph, _visit_names, _visit_input_fingerprint", "src/arti/graphs/__init__.py: ArtifactBox._cast_value", "src/arti/storage/local.py: LocalFile"]}
{"id": "C54", "title": "Artifacts never share a file", "statement": "After any operations on the artifact box of a graph, partitions of artifacts with different names have different paths, whatever their keys and fingerprints; so do those of graphs with different names.", "quantifier": "every reachable box, every pair of artifacts and partitions", "why_tests_cant": "unbounded histories, names and keys", "anchors": ["src/arti/graphs/__init__.py: ArtifactBox", "src/arti/internal/mappings.py: TypedBox", "src/arti/storage/__init__.py: Storage.generate_partition"]}
{"id": "C55", "title": "Discovery is not disturbed by other artifacts", "statement": "The partitions discovered for an artifact of a graph do not change when files of other artifacts of the graph are written.", "quantifier": "every reachable box, every set of files and sequence of writes", "why_tests_cant": "unbounded file systems and writes", "anchors": ["src/arti/storage/local.py: LocalFile.discover_partitions", "src/arti/graphs/__init__.py: ArtifactBox._cast_value"]}
{"id": "C56", "title": "Pydantic models round trip types", "statement": "Converting a type to a pydantic model and back gives the type again, up to a documented normalisation; the pydantic type system agrees with the Python one where no Struct or model is involved.", "quantifier": "every type, every model class and every nesting depth", "why_tests_cant": "the types and models nest without bound; the tests convert a few flat models", "anchors": ["src/arti/types/pydantic.py: BaseModelAdapter", "src/arti/types/pydantic.py: pydantic_type_system"]}
{"id": "C57", "title": "Artifacts are made of what they are given and what their class declares", "statement": "An artifact is created exactly if type, format, storage, annotations and statistics are supplied, by argument or by the nearest class declaring them, with instances of their classes, the format accepts the type and the storage accepts both; it has these values, with the annotations and statistics of the class in front of those given.", "quantifier": "every class hierarchy, every set of arguments, every format, storage and type", "why_tests_cant": "class hierarchies, arguments and types are unbounded; the tests cover a few classes and never create an artifact with class annotations without giving some", "anchors": ["src/arti/artifacts/__init__.py: Artifact", "src/arti/internal/models.py: get_field_default", "src/arti/formats/__init__.py: Format._visit_type", "src/arti/storage/__init__.py: Storage._visit_type"]}
{"id": "C58", "title": "Files at paths behave as the builds assume", "statement": "A build may treat its files as being at (storage, key, input fingerprint): different partitions, also of different storages, have different paths, a partition is generated for exactly the keys and fingerprints its storage asks for, reading returns what was last written for that partition, and discovering finds exactly the partitions that were written, each once, with their keys and fingerprints.", "quantifier": "every set of local file storages with discoverable templates in different directories, every history of writes, every set of other files none of them would look at, every request", "why_tests_cant": "templates, keys, fingerprints and sets of files are unbounded; collisions of paths between storages only show for particular templates", "anchors": ["src/arti/storage/__init__.py: Storage.generate_partition", "src/arti/storage/local.py: LocalFile.discover_partitions", "src/arti/storage/_internal.py: spec_to_wildcard, parse_spec, extract_placeholders", "src/arti/executors/__init__.py: Executor.discover_producer_partitions"]}
{"id": "C59", "title": "Importing submodules finds and loads exactly what is there", "statement": "Importing the submodules of a package returns exactly the modules in the given directories and in all directories below them that can be packages (namespace packages included; names with dots, ez_setup at the top and names ending in __pycache__ are skipped), each under the name of the place where it is. Afterwards all of them are loaded; every module that was not loaded is run once, after the packages it belongs to; an exception is that of the last module run, which is not loaded, while those before it stay loaded. Importing again returns the same and runs nothing; the discovery of io handlers is remembered once it succeeded and tried again if it failed.", "quantifier": "every finite directory tree, every set of given directories, every set of module suffixes, every behaviour of the modules' code, every set of modules loaded before", "why_tests_cant": "directory trees are unbounded; failures at any module and overlapping directories are not tested", "anchors": ["src/arti/internal/utils.py: import_submodules", "src/arti/internal/vendored/setuptools.py: PackageFinder.find, PEP420PackageFinder", "src/arti/io/__init__.py: _discover", "src/arti/views/__init__.py: View.get_class_for"]}
{"id": "C60", "title": "Partitions in a bucket are found where they are written", "statement": "The object of a partition of a GCSFile is what its key gives for \"bucket/path\", although bucket and path are filled in separately. Every partition discovered in a bucket is at an existing object, carries the fingerprint of its md5 hash (of its crc32c if it has none) and the input fingerprint requested for its key; every partition whose object is there, in particular the one just written, is discovered; discovery succeeds when every listed object was written with the template; different keys or fingerprints have different objects. At the default path an artifact is in the directory of its names, key and input fingerprint, in an object called like the artifact with the extension of its format.", "quantifier": "every template of a bucket and of a path (discoverable ones for completeness), every content of the buckets, every listing that finds all matching objects, every reported hash, every set of requested keys, every artifact with the default path", "why_tests_cant": "the tests need a bucket and use two or three keys of one template; objects without md5, keys in the bucket's name and names of default objects are not tested", "anchors": ["src/arti/storage/google/cloud/storage.py: GCSFile, GCSFilePartition, _GCSMixin", "src/arti/storage/_internal.py: parse_spec, spec_to_wildcard"]}
{"id": "C61", "title": "Builds at the same time over the same files", "statement": "Processes that build graphs at the same time, each with a backend of its own, over shared files: without others a process does what a build does; every run ends and no process waits for another. Processes that do not write where others read or write end as if they were alone, with the same result, backend, calls and data. Processes that write the same files store nothing but right data: at any time every file is right (built from right data) or empty with some process about to write it; when all are through every file is right, every recorded partition is there and right, and two complete runs agree on every file both have.", "quantifier": "every number of processes, every graph, environment and initial content of the files, every interleaving of single accesses (listing, reading, opening, writing, fingerprinting, backend), every place at which a process stops moving", "why_tests_cant": "the tests run one process; the number of interleavings is exponential in the number of accesses", "anchors": ["src/arti/executors/__init__.py", "src/arti/executors/local.py", "src/arti/graphs/__init__.py: GraphSnapshot.from_graph, Graph.build, write", "src/arti/storage/local.py", "src/arti/io/json_localfile_python.py"]}
{"id": "C62", "title": "Reading and writing by hand", "statement": "graph.read and snapshot.read give the view exactly the partitions that are meant: of a raw artifact without a snapshot those in the storage now, whatever else is missing or recorded; with a snapshot those linked to it; of a produced artifact without a snapshot those of the snapshot of the current raw data, after a build those of the build. graph.write and snapshot.write store the data in one place, record that partition and link it to the snapshot given and to nothing else; a failing write records nothing. What was written to a file is read back and takes the place of the partition with its key; a recorded partition with the fingerprint asked for is used by builds instead of being built.", "quantifier": "every graph, artifact, view, annotation, data, key, fingerprint, snapshot and state of files and backend", "why_tests_cant": "the tests read and write single values of a few types; what must not change or be returned is in the rest of the state", "anchors": ["src/arti/graphs/__init__.py:203-291 read, write", "src/arti/graphs/__init__.py:384-423 GraphSnapshot.read, write", "src/arti/io/__init__.py"]}
{"id": "C63", "title": "What is stored as JSON is read back", "statement": "Encoding an object as JSON and decoding the text gives the same object exactly if it consists of None, booleans, numbers, strings, lists and dicts from strings; different objects of this kind have different texts. Everything else that can be encoded is decoded as the list, dict or string it was turned into; everything that cannot be encoded raises TypeError. The types all of whose objects survive are those without dates, timestamps, binary data, sets and maps from anything but strings. What was written to a file, a blob or a literal is read from there, lists written to several partitions are read one after the other. Text that was cut off, or left behind by a failed write, is never taken for data.", "quantifier": "every object (any nesting, any strings of code points, any integers, any floats that repr writes so that float reads them), every type with a Python hint, every place, every sequence of writes, every prefix of the text", "why_tests_cant": "the tests write a few integers and strings; the text of nested objects with arbitrary strings is read by a recursive scanner, where a wrong escape or separator shows only for some strings", "anchors": ["src/arti/io/json_localfile_python.py", "src/arti/io/json_gcsfile_python.py", "src/arti/io/json_stringliteral_python.py", "src/arti/formats/json.py", "src/arti/types/python.py"]}
{"id": "C64", "title": "What is read after a build is what the functions compute", "statement": "After a graph has been built, reading a produced artifact, from the snapshot or as it is now, gives what its functions compute from the raw data, one from the other, whatever the storages, formats, fingerprints and the backend do in between. Without a map the artifact has one value. With maps that go by partition keys it has one value for each partition the map asks for, computed from the partitions chosen for it, and reading the artifact joins them; if the maps do not depend on an order there is one such table, up to the order of its rows. It needs no more than that what the functions return is read back as it was written and that reading several partitions is joining them; for JSON that is so for None, booleans, numbers, strings, lists and dicts from strings, and lists of rows.", "quantifier": "every graph, every environment of producers, formats and fingerprints, every initial storage and every execution of Graph.build that succeeds", "why_tests_cant": "the tests build a few graphs and compare one value; that nothing between the raw data and the read changes a value for any graph, any sequence of writes and any order of nodes is a statement about all of them together", "anchors": ["src/arti/producers/__init__.py", "src/arti/executors/local.py", "src/arti/executors/__init__.py", "src/arti/graphs/__init__.py", "src/arti/io/__init__.py", "src/arti/backends/memory.py"]}
{"id": "C65", "title": "Storages can make their partitions", "statement": "Whatever storage classes and partition classes a program defines or gets by subscripting Storage, a storage class that can have instances declares the same fields with the same hints as its class of partitions. A class statement is refused exactly if that would not be so. Hence generating a partition hands its class every field exactly once and nothing else, and fails only where formatting the templates fails.", "quantifier": "every sequence of class statements and subscriptions, with any number of mixins and bases, any fields, hints and metadata; every instance, key and input fingerprint", "why_tests_cant": "the tests define three classes; that no way of defining, inheriting and subscripting leads to a storage whose partitions cannot be made is about all hierarchies of classes", "anchors": ["src/arti/storage/__init__.py", "src/arti/storage/local.py", "src/arti/storage/google/cloud/storage.py", "src/arti/internal/models.py"]}
{"id": "C66", "title": "Handlers found at definition are used in builds", "statement": "The reader or writer for given arguments is the registered one that accepts their classes and refines all others that do, whatever the order of registration, whether the package's modules are imported before or at the first lookup, and whatever is registered for other arguments. If a view has been found compatible with an artifact, reading the artifact's partitions into the view and writing data from it find a handler. With the handlers of the package, and any subclasses of types, formats, partitions and views, one is found exactly for JSON in files, buckets and literals and for pickles in files and buckets, with Python views.", "quantifier": "every table of handlers, every hierarchy of classes, every artifact, view and data", "why_tests_cant": "the tests look up a few handlers; which one is chosen among any number of overlapping signatures, and that the choice at definition and in the build agree, is about all tables and classes", "anchors": ["src/arti/internal/dispatch.py", "src/arti/views/__init__.py", "src/arti/io/__init__.py", "src/arti/io/json_localfile_python.py"]}
{"id": "C67", "title": "Producers only take inputs and outputs that suit them", "statement": "A producer is created iff each of its fields, and nothing else, is given an artifact of the field's class that also suits the view build reads it with. Artifacts become its outputs iff there is one for each output of the class, each suits the view of its output and none is an output yet; they keep everything else and get their positions; without arguments they are made of each view's artifact class and type, and iterating yields the same. Hence, however artifacts and producers are made and assigned to graphs, every producer behind an artifact has exactly its declared inputs, what it reads is of the type its producer writes, and every read and write in a build finds a handler.", "quantifier": "every set of producer classes, every program that creates artifacts and producers, every chain of producers", "why_tests_cant": "the tests connect a few producers; chains of producers, classes and arguments are unbounded, and what is checked when a pipeline is defined has to carry over to what is called when it is built", "anchors": ["src/arti/producers/__init__.py: Producer._validate_instance_artifact_args, Producer.out, Producer.__iter__, Producer.inputs", "src/arti/views/__init__.py: View.check_artifact_compatibility", "src/arti/graphs/__init__.py: ArtifactBox._cast_value"]}
{"id": "C68", "title": "A graph can only be built if it holds the inputs of its producers", "statement": "If every input of every producer behind an artifact of a graph is itself in the graph, a build finds the partitions of each producer's inputs. If one is not, the graph can still be closed and snapshotted, but no build of it succeeds, the code of the producer is never called, and at its turn there is a KeyError that leaves all data as it was. Assigning an artifact with the default storage always stores a different artifact, with its place filled in, so producers created from the artifact before it was assigned are such producers.", "quantifier": "every graph, backend, set of files and history; every root, graph context, name and artifact with the default storage", "why_tests_cant": "the tests build graphs whose producers were created from the assigned artifacts; the failure shows only when building, in graphs of any size", "anchors": ["src/arti/executors/__init__.py: Executor.get_producer_inputs", "src/arti/graphs/__init__.py: ArtifactBox._cast_value, Graph._toggle, Graph.artifact_to_key, Graph.dependencies, GraphSnapshot.from_graph"]}
{"id": "C69", "title": "A build computes exactly what is missing, once", "statement": "A build that succeeds calls each producer for exactly those partitions its map asks for of which no output is available under their input fingerprint, and for each of them once. However it ends, it calls no producer for anything else and for nothing twice. What one build has computed or found, a later build of any graph with the same producer and outputs does not compute again from the same input partitions. Producers of one name share what they compute from the same inputs exactly if their versions are equal, so a new version is computed whatever older versions left at its outputs.", "quantifier": "every graph whose outputs have storages and paths of their own, every backend, set of files, history and outcome; every producer class, version and map", "why_tests_cant": "the tests count the calls of one producer in single builds of small graphs; which calls are left out depends on every earlier build and on all files", "anchors": ["src/arti/executors/local.py: LocalExecutor.build", "src/arti/executors/__init__.py: Executor.discover_producer_partitions, Executor.build_producer_partition", "src/arti/producers/__init__.py: Producer.compute_input_fingerprint, Producer.compute_dependencies"]}
{"id": "C70", "title": "Which version changes cause recomputation", "statement": "Two versions (GitCommit, SemVer, String, source, Timestamp) of a producer lead to the same input fingerprints exactly when they are the same version, or SemVers of one major number above 0; a producer with any other version is called again. A default commit is the trimmed output of git, a Timestamp always has a timezone.", "quantifier": "every two versions, all inputs of a producer and all executions of a build, unless the hash confuses the two texts", "why_tests_cant": "versions, inputs and stored data are unbounded", "anchors": ["src/arti/versions/__init__.py: GitCommit, SemVer, String, _SourceDescriptor, Timestamp", "src/arti/producers/__init__.py: Producer.compute_input_fingerprint"]}
{"id": "C71", "title": "Tagged results stay readable", "statement": "Within one process, whatever is changed, snapshotted, built (successfully, failing or stopped) or tagged next, the data of every recorded produced partition stays as it is, a tag gives the snapshot it was put on until it is overwritten, and produced artifacts read through the tag are what they were.", "quantifier": "every sequence of raw changes, snapshots, builds and tags of any graphs, all producers and data, if no two storages of produced artifacts share a path", "why_tests_cant": "sequences of events, graphs and data are unbounded", "anchors": ["src/arti/graphs/__init__.py: GraphSnapshot.tag, GraphSnapshot.from_tag, GraphSnapshot.read, Graph.read", "src/arti/backends/memory.py: MemoryConnection, MemoryBackend.connect", "src/arti/executors/local.py: LocalExecutor.build"]}
{"id": "C72", "title": "A fingerprint describes the instance it is read from", "statement": "Reading the fingerprint of a model instance gives the fingerprint of its present field values, whatever was copied, changed or read before; in particular the id of a snapshot does not depend on who looked at a fingerprint earlier.", "quantifier": "every history of creating, copying (model_copy with any update), changing in place and reading fingerprints of any instances, every hash function", "why_tests_cant": "histories are unbounded; the tests read each fingerprint after the last copy", "anchors": ["src/arti/internal/models.py: Model.fingerprint (cached_property)", "src/arti/graphs/__init__.py: ArtifactBox._cast_value, GraphSnapshot.from_graph", "src/arti/producers/__init__.py: Producer.out"]}
{"id": "C73", "title": "State meant to be shared survives copying, and nothing else is shared", "statement": "However often a model is copied (shallow or deep, copies of copies), the original and the copy lead to the same container of a memory backend and to the same adapters of a type system, also after changes of these; everything else that can change is a separate object in a deep copy, with the same structure and the same aliasing, and the original objects are untouched.", "quantifier": "every heap of objects, every object, every path and every history of copies and changes", "why_tests_cant": "object graphs and histories are unbounded; the methods are marked as not covered by the tests", "anchors": ["src/arti/internal/utils.py: NoCopyMixin, NoCopyDict", "src/arti/backends/memory.py: _NoCopyContainer, MemoryBackend", "src/arti/types/__init__.py: TypeSystem._adapter_by_key"]}
{"id": "C74", "title": "A type has at most one partition field class, and it stays the same", "statement": "After any sequence of class statements, whether they succeed or raise, get_class_for finds for a type exactly the one instantiable subclass of PartitionField for it; what was found once is found forever; its default components are components of it; a class statement that raises registers nothing. This holds for every interpreter version that pyproject.toml admits.", "quantifier": "every sequence of class statements with any bases, attributes and components; every type; every interpreter", "why_tests_cant": "sequences of definitions by plugins are unbounded; the tests run on one interpreter", "anchors": ["src/arti/partitions/__init__.py: PartitionField.__pydantic_init_subclass__, components, get_class_for", "src/arti/internal/utils.py: register, classproperty", "src/arti/internal/models.py: Model.__pydantic_init_subclass__"]}
