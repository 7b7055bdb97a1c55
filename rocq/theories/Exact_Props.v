(** C34: which graphs are finished. C47, C48: which readers and writers there are, and what failures leave behind. C50: what
    producers return. *)
From Coq Require Import ZArith List Ascii String Bool.
From Verif Require Import Base Str Types_Model Types_Props Hints_Model Partitions_Model PyTypes_Model Dispatch_Model Views_Model Producers_Model
  Producers_Proofs Producers_Props.
From Verif Require Import Exact_Spec Exact_Proofs.
From Verif Require Graph_Model Graph_Spec Graph_Props IO_Model IO_Spec IO_Props Storage_Model.
Import ListNotations.
Open Scope list_scope.

(** In every history the methods that need a finished graph work iff the graph was closed and not opened since; otherwise, also for graphs
    never opened, they raise ValueError. *)
Theorem C34_finished : forall l c p g, history l (c, p) ->
  (Graph_Model.sealed c g = Ok tt <-> finished g l) /\ (Graph_Model.sealed c g = Err ValueError <-> ~ finished g l).
Proof. exact sealed_exactly. Qed.
Print Assumptions C34_finished.
(** [Graph.dependencies] answers iff the graph was ever closed. *)
Theorem C34_dependencies_known : forall l c p g, history l (c, p) ->
  ((exists d, snd (Graph_Model.get_dependencies (Graph_Model.graph c g)) = Ok d) <-> exists r, In (Graph_Spec.Exit g, r) l) /\
  (snd (Graph_Model.get_dependencies (Graph_Model.graph c g)) = Err ValueError <-> forall r, ~ In (Graph_Spec.Exit g, r) l).
Proof. exact dependencies_exactly. Qed.
Print Assumptions C34_dependencies_known.
Example C34_finished_nonvacuous : exists c p, history [(Graph_Spec.Exit 7, Ok tt); (Graph_Spec.Enter 7, Ok tt)] (c, p) /\
  Graph_Model.sealed c 7 = Ok tt /\ Graph_Model.sealed c 8 = Err ValueError.
Proof.
  exists (fst (Graph_Model.exit Graph_Props.opened 7)), []. split; [|split; reflexivity].
  eapply one_more; [eapply one_more; [apply (no_history (fun _ => []))|apply Graph_Spec.step_enter; reflexivity]|].
  apply (Graph_Spec.step_exit _ [] [] 7). reflexivity.
Qed.

(** Data in one kind of storage can be read iff its format has a reader for it, which reads every partition; without one, reading and
    writing raise NotImplementedError and write nothing. *)
Theorem C47_codecs : forall V loads elements (of_list : list V -> V) w t f ps k v x,
  is_partitioned t = Ok true -> ps <> [] -> in_one k ps -> has_codec f k v ->
  (IO_Model.io_read loads elements of_list w t f ps v = Ok x <->
   exists vss, Forall2 (fun p vs => exists d, IO_Spec.holds loads w f p d /\ elements d = Ok vs) ps vss /\ x = of_list (List.concat vss)).
Proof. exact @partitions_read. Qed.
Print Assumptions C47_codecs.
Theorem C47_codec_single : forall V loads elements (of_list : list V -> V) w t f p v x,
  is_partitioned t = Ok false -> has_codec f (kind_of p) v ->
  (IO_Model.io_read loads elements of_list w t f [p] v = Ok x <-> IO_Spec.holds loads w f p x).
Proof. exact @single_read. Qed.
Print Assumptions C47_codec_single.
Theorem C47_no_codec : forall V loads dumps (written_before : IO_Model.format -> V -> str) elements (of_list : list V -> V) content_fp w t f ps k v d,
  ps <> [] -> in_one k ps -> ~ has_codec f k v -> (is_partitioned t = Ok true \/ exists p, ps = [p]) ->
  IO_Model.io_read loads elements of_list w t f ps v = Err NotImplementedError /\
  forall p, In p ps -> IO_Model.io_write dumps written_before content_fp w d f p v = (w, Err NotImplementedError).
Proof. exact @no_codec. Qed.
Print Assumptions C47_no_codec.
Example C47_codecs_nonvacuous :
  let ps := [IO_Model.LocalPart $"3.json"; IO_Model.LocalPart $"1.json"] in
  is_partitioned IO_Props.by_day = Ok true /\ in_one OnDisk ps /\ has_codec IO_Model.Pickle OnDisk IO_Model.PythonBuiltin /\
  ~ has_codec IO_Model.Pickle InGraph IO_Model.PythonBuiltin /\ ~ has_codec IO_Model.JSON OnDisk IO_Model.OtherView.
Proof.
  split; [reflexivity|]. split; [intros p [<-|[<-|[]]]; reflexivity|]. split; [constructor|]. split; intro H; inversion H.
Qed.

(** A file or blob is emptied before its data is encoded: if that fails, what was written so far is left in it. Literals stay as they are. *)
Theorem C47_failed_write : forall V dumps (written_before : IO_Model.format -> V -> str) content_fp w d f p v e,
  has_codec f (kind_of p) v -> dumps f d = Err e -> kind_of p <> InGraph ->
  exists w', IO_Model.io_write dumps written_before content_fp w d f p v = (w', Err e) /\ IO_Spec.contains w' p (written_before f d).
Proof. exact @failed_write. Qed.
Print Assumptions C47_failed_write.
Theorem C48_failed_write : forall V dumps (written_before : IO_Model.format -> V -> str) content_fp w d f i v e,
  has_codec f InGraph v -> dumps f d = Err e ->
  IO_Model.io_write dumps written_before content_fp w d f (IO_Model.LiteralPart i None) v = (w, Err e).
Proof. exact @failed_literal. Qed.
Print Assumptions C48_failed_write.
Example C47_failed_write_nonvacuous : IO_Props.words_dumps IO_Model.JSON [] = Err TypeError /\
  IO_Spec.contains (fst (IO_Model.io_write IO_Props.words_dumps (fun _ _ => $"oops") IO_Props.ex_fp IO_Props.disk [] IO_Model.JSON
    (IO_Model.LocalPart $"2.json") IO_Model.PythonBuiltin)) (IO_Model.LocalPart $"2.json") $"oops".
Proof. split; [reflexivity|]. constructor. reflexivity. Qed.

(** A snapshot has the fingerprint of the content; where there is none, FileNotFoundError is raised. *)
Theorem C48_snapshot : forall content_fp w p z q,
  (IO_Model.take_snapshot content_fp w p = Ok (z, q) <-> q = p /\ exists c, IO_Spec.contains w p c /\ z = content_fp p c) /\
  (IO_Model.take_snapshot content_fp w p = Err FileNotFoundError <-> forall c, ~ IO_Spec.contains w p c).
Proof. exact snapshot_exactly. Qed.
Print Assumptions C48_snapshot.
Theorem C48_literal_snapshot : forall content_fp (p : Storage_Model.partition) i v,
  dget str_eqb (Storage_Model.p_fields p) $"id" = Some (Some i) -> dget str_eqb (Storage_Model.p_fields p) $"value" = Some v ->
  IO_Model.literal_snapshot content_fp p =
    match v with Some x => Ok (content_fp (IO_Model.LiteralPart i (Some x)) x, p) | None => Err FileNotFoundError end.
Proof. exact literal_snapshot_exactly. Qed.
Print Assumptions C48_literal_snapshot.
Example C48_snapshot_nonvacuous :
  IO_Model.take_snapshot IO_Props.ex_fp IO_Props.disk (IO_Model.LocalPart $"1.json") = Ok (3%Z, IO_Model.LocalPart $"1.json") /\
  IO_Model.take_snapshot IO_Props.ex_fp IO_Props.disk (IO_Model.LiteralPart $"x" None) = Err FileNotFoundError.
Proof. split; reflexivity. Qed.

(** A producer returning a tuple has one output per item, any other exactly one; a missing return hint is refused. *)
Theorem C50_returns : forall (V A : Type) (from_annotation : annotation V A -> mode -> result (view V A)) (aeqb : A -> A -> bool),
  (forall a b, aeqb a b = true <-> a = b) -> forall same d b r c, NoDup (map fst (d_fields d)) -> d_build d = Some b -> m_return b = Some r ->
  define from_annotation aeqb same d = Ok c ->
  match r with
  | RTuple l => Forall2 (fun ann v => from_annotation ann WRITE = Ok v) l (outputs c)
  | ROne a => exists v, from_annotation a WRITE = Ok v /\ outputs c = [v]
  end.
Proof. exact @returns_each. Qed.
Print Assumptions C50_returns.
Example C50_returns_nonvacuous : exists c v w, ex_define ex_producer = Ok c /\ outputs c = [v; w] /\
  d_build ex_producer = Some ex_build /\ m_return ex_build = Some (RTuple [ann PyInt []; ann PyStr []]).
Proof. do 3 eexists. split; [reflexivity|]. split; [reflexivity|]. split; reflexivity. Qed.

(** Dates, datetimes, dicts, floats, ints, lists, None and strings, and no other types, have a view. *)
From Verif Require Import Views_Spec.
Theorem C52_builtin_types : forall priority, exists reg, define_views builtin_abstract builtin_type priority [] builtin_views = Ok reg /\
  forall A (h : phint) v, get_class_for builtin_sub PythonBuiltin reg (Annotation (A := A) h []) = Ok v <->
    exists k, python_type_of h = Some k /\ builtin_view_of k v.
Proof. exact builtin_registered. Qed.
Print Assumptions C52_builtin_types.
Example C52_builtin_types_nonvacuous : python_type_of (HAlias PyList [HClass PyInt]) = Some (Some PyList) /\ builtin_view_of (Some PyList) VList /\
  python_type_of HNone = Some None /\ builtin_view_of None VNull /\ forall v, ~ builtin_view_of (Some PyBool) v.
Proof. repeat split; try constructor. intros v H. inversion H. Qed.

(** None, "...", unions and literals are below nothing, not even Any; everything else is below Any. *)
Theorem C30_no_types : forall (C : Type) (issub : C -> C -> bool) is_none dict_class union_class same k, no_type k ->
  (forall c, lenient_issubclass issub is_none dict_class union_class same k c = Ok false) /\
  (forall cs, lenient_issubclass_any issub is_none dict_class union_class same k cs = Ok false).
Proof. exact @no_type_below. Qed.
Print Assumptions C30_no_types.
Theorem C30_types : forall (C : Type) (issub : C -> C -> bool) is_none dict_class union_class same k, ~ no_type k ->
  lenient_issubclass issub is_none dict_class union_class same k HAny = Ok true.
Proof. exact @type_below_any. Qed.
Print Assumptions C30_types.
Example C30_no_types_nonvacuous : no_type (C := pyclass) (HUnion true [HClass PyInt]) /\ ~ no_type (C := pyclass) (HAlias PyList [HNone]).
Proof. split; [constructor|]. intro H. inversion H. Qed.
