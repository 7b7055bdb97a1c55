(** C66: the handlers found when producers are defined are those used when they are built. *)
From Coq Require Import ZArith List Ascii String Bool Permutation.
From Verif Require Import Base Str Hints_Model Dispatch_Model Types_Model Views_Model IO_Model Handlers_Model Handlers_Spec Handlers_Proofs.
Import ListNotations.
Open Scope list_scope.

(** For the examples: a view, a format and types of a program's own. *)
Definition of (k : known) (n : str) : cls := Sub (Known k) n.
Definition ex_int_view : cls := of KBuiltin $"Int".
Definition ex_lines : cls := of KJSON $"JSONLines".
Definition ex_classes : classes cls := Classes (of KType $"Int64") ex_lines (Known KLocal).
Definition lines_key : list (hint cls) :=
  [HClass (Known KType); HClass ex_lines; HAlias (Known KSequence) [HClass (Known KPartition)]; HClass (Known KView)].
Definition local_lines_key : list (hint cls) :=
  [HClass (Known KType); HClass ex_lines; HAlias (Known KSequence) [HClass (Known KLocal)]; HClass (Known KBuiltin)].

(** The handler is the one that fits and refines all others that fit; if there is none, also because
    of a draw, there is a TypeError. *)
Theorem C66_chosen : forall (C H : Type) (issub : C -> C -> bool), ordered issub -> forall (t : list (list (hint C) * H)) args h,
  separate issub t -> (resolve issub t args = Ok h <-> chosen issub t args h).
Proof. exact (fun C H issub O => @resolve_chosen C issub O H). Qed.
Print Assumptions C66_chosen.
Theorem C66_none : forall (C H : Type) (issub : C -> C -> bool), ordered issub -> forall (t : list (list (hint C) * H)) args,
  separate issub t -> (resolve issub t args = Err TypeError <-> forall h, ~ chosen issub t args h).
Proof. exact (fun C H issub O => @resolve_none C issub O H). Qed.
Print Assumptions C66_none.
(** It makes no difference in which order handlers are registered ... *)
Theorem C66_order : forall (C H : Type) (issub : C -> C -> bool), ordered issub -> forall (t t' : list (list (hint C) * H)) args,
  separate issub t -> Permutation t t' -> resolve issub t args = resolve issub t' args.
Proof. exact (fun C H issub O => @resolve_perm C issub O H). Qed.
Print Assumptions C66_order.
(** ... nor that the modules with handlers are only imported when nothing is registered for just the
    classes at hand, and handlers for other arguments make none. *)
Theorem C66_discovery : forall (C H : Type) (issub : C -> C -> bool), ordered issub -> forall c_eqb : C -> C -> bool,
  (forall a b, c_eqb a b = true <-> a = b) -> forall (t submodules : list (list (hint C) * H)) args, separate issub (t ++ submodules) ->
  find_handler c_eqb issub t submodules args = resolve issub (t ++ submodules) args.
Proof. exact (fun C H issub O c_eqb E => @found_lazily C issub O H c_eqb E). Qed.
Print Assumptions C66_discovery.
Theorem C66_added : forall (C H : Type) (issub : C -> C -> bool) (t more : list (list (hint C) * H)) args,
  (forall k h, In (k, h) more -> ~ handles issub k args) -> resolve issub (t ++ more) args = resolve issub t args.
Proof. exact (fun C H issub => @resolve_added C issub H). Qed.
Print Assumptions C66_added.
Example C66_chosen_nonvacuous :
  let args := called_read (Known KTuple) ex_classes ex_int_view in
  let mine := [(local_lines_key, Handler KJSON KPartition)] in
  ordered subclass /\ separate subclass builtin_readers /\ separate subclass (builtin_readers ++ mine) /\
  resolve subclass builtin_readers args = Ok (Handler KJSON KLocal) /\
  resolve subclass (builtin_readers ++ mine) args = Ok (Handler KJSON KPartition) /\
  find_handler cls_eqb subclass mine builtin_readers args = Ok (Handler KJSON KPartition) /\
  resolve subclass (builtin_readers ++ mine) (called_read (Known KTuple) (Classes (of KType $"Int64") (Known KJSON) (Known KGCS)) ex_int_view) = Ok (Handler KJSON KGCS).
Proof.
  split; [exact subclass_ordered|]. split; [exact readers_separate|]. split.
  - split; [|split].
    + intros k h I. cbn in I. repeat destruct I as [E|I]; try contradiction; injection E as <- <-; repeat constructor.
    + cbn. repeat constructor; cbn; intuition discriminate.
    + intros k h k' h' I I' A B. cbn in I, I'.
      repeat destruct I as [E|I]; try contradiction; injection E as <- <-; repeat destruct I' as [E'|I']; try contradiction; injection E' as <- <-;
        try reflexivity; apply accepts_handles in A, B; discriminate.
  - repeat split; reflexivity.
Qed.

(** Whatever a view has been found compatible with can be read and written with it, if no reader
    tells lists from tuples, as the lookup is for a list and the call with a tuple, and no writer
    depends on the class of the data, of which the lookup only knows what the view says. *)
Theorem C66_same_reader : forall (C H : Type) (issub : C -> C -> bool) list_class tuple_class (t : list (list (hint C) * H)) k view,
  sequences issub list_class tuple_class t ->
  resolve issub t (checked_read list_class k view) = resolve issub t (called_read tuple_class k view).
Proof. exact (fun C H issub => @read_alike C issub H). Qed.
Print Assumptions C66_same_reader.
Theorem C66_same_writer : forall (C H : Type) (issub : C -> C -> bool) (t : list (list (hint C) * H)) k view a b, any_data t ->
  resolve issub t (called_write a k view) = resolve issub t (checked_write b k view).
Proof. exact (fun C H issub => @write_alike C issub H). Qed.
Print Assumptions C66_same_writer.
Theorem C66_accepted_partial : forall (C H : Type) (issub : C -> C -> bool) list_class tuple_class (abstract : H -> bool) A (asub : A -> A -> bool) type_eqb
  (readers writers : list (list (hint C) * H)) python_type (v : Views_Model.view C A) a ty k,
  sequences issub list_class tuple_class readers -> any_data writers ->
  check_artifact asub type_eqb (can_read issub list_class abstract readers) (can_write issub abstract writers python_type) v a ty k = Ok tt ->
  (v_mode v <> WRITE -> exists h, call issub abstract readers (called_read tuple_class k (v_class v)) = Ok h) /\
  (v_mode v <> READ -> forall data, exists h, call issub abstract writers (called_write data k (v_class v)) = Ok h).
Proof. exact (fun C H issub l t abstract => @accepted C issub H l t abstract). Qed.
Print Assumptions C66_accepted_partial.
(** The handlers of the package are so. *)
Theorem C66_builtin_alike : sequences subclass (Known KList) (Known KTuple) builtin_readers /\ any_data builtin_writers.
Proof. exact (conj readers_sequences writers_any). Qed.
Print Assumptions C66_builtin_alike.
Example C66_accepted_nonvacuous :
  let v := View ex_int_view READWRITE tt (Scalar (Int B64) plain) in
  let check := check_artifact (fun _ _ : unit => true) (fun _ _ => true) (can_read subclass (Known KList) is_spec builtin_readers)
                 (can_write subclass is_spec builtin_writers (fun _ => of KObject $"int")) in
  check v tt (Scalar (Int B64) plain) ex_classes = Ok tt /\
  call subclass is_spec builtin_readers (called_read (Known KTuple) ex_classes ex_int_view) = Ok (Handler KJSON KLocal) /\
  call subclass is_spec builtin_writers (called_write (of KObject $"float") ex_classes ex_int_view) = Ok (Handler KJSON KLocal) /\
  check v tt (Scalar (Int B64) plain) (Classes (of KType $"Int64") (Known KPickle) (Known KLiteral)) = Err ValueError.
Proof. repeat split; reflexivity. Qed.

(** With the handlers of the package and any subclasses, found is what there is a module for; ... *)
Theorem C66_builtin_readers : forall k v h,
  lookup is_spec (resolve subclass builtin_readers) (checked_read (Known KList) k v) = Ok h <->
  exists f p, h = Handler f p /\ supported f p /\ subclass (type_class k) (Known KType) = true /\
    subclass (format_class k) (Known f) = true /\ subclass (partition_class k) (Known p) = true /\ subclass v (Known KBuiltin) = true.
Proof. exact builtin_readers_found. Qed.
Print Assumptions C66_builtin_readers.
Theorem C66_builtin_writers : forall data k v h,
  lookup is_spec (resolve subclass builtin_writers) (checked_write data k v) = Ok h <->
  exists f p, h = Handler f p /\ supported f p /\ subclass (type_class k) (Known KType) = true /\
    subclass (format_class k) (Known f) = true /\ subclass (partition_class k) (Known p) = true /\ subclass v (Known KBuiltin) = true.
Proof. exact builtin_writers_found. Qed.
Print Assumptions C66_builtin_writers.
(** ... and this is what IO_Model (C47) takes to be implemented. *)
Theorem C66_reads : forall f p v k vc, format_of f (format_class k) -> place_of p (partition_class k) -> view_of v vc ->
  subclass (type_class k) (Known KType) = true ->
  ((exists h, lookup is_spec (resolve subclass builtin_readers) (checked_read (Known KList) k vc) = Ok h) <-> implemented f p v = true).
Proof. exact reader_implemented. Qed.
Print Assumptions C66_reads.
Theorem C66_writes : forall f p v k vc data, format_of f (format_class k) -> place_of p (partition_class k) -> view_of v vc ->
  subclass (type_class k) (Known KType) = true ->
  ((exists h, lookup is_spec (resolve subclass builtin_writers) (checked_write data k vc) = Ok h) <-> implemented f p v = true).
Proof. exact writer_implemented. Qed.
Print Assumptions C66_writes.
Example C66_builtin_nonvacuous :
  lookup is_spec (resolve subclass builtin_readers) (checked_read (Known KList) ex_classes ex_int_view) = Ok (Handler KJSON KLocal) /\
  lookup is_spec (resolve subclass builtin_writers) (checked_write (of KObject $"int") ex_classes (of KView $"Mine")) = Err ValueError /\
  format_of JSON (format_class ex_classes) /\ place_of (LocalPart $"a.json") (partition_class ex_classes) /\
  view_of PythonBuiltin ex_int_view /\ view_of OtherView (of KView $"Mine") /\
  implemented JSON (LocalPart $"a.json") PythonBuiltin = true.
Proof. repeat split; reflexivity. Qed.

(** Handlers of a program's own can break this. A reader for lists of partitions is accepted and
    found, but calls are with a tuple. *)
Definition read_param (n : str) (h : hint cls) : param cls := Param n PositionalOrKeyword h false.
Definition read_signature (key : list (hint cls)) : signature cls :=
  Signature (map (fun nh => read_param (fst nh) (snd nh)) (combine [$"type_"; $"format"; $"storage_partitions"; $"view"] key)) HAny.
Definition register_reader (key : list (hint cls)) (h : handler) :=
  register subclass (fun _ => false) (of KObject $"dict") (of KObject $"UnionType") (fun _ _ => false)
    (read_signature (reader_key KFormat KPartition KView)) builtin_readers (read_signature key) h.
Theorem C66_list_refuted : exists key readers, let k := Classes (of KType $"Int64") (of KFormat $"CSV") (Known KLocal) in
  register_reader key (Handler KFormat KLocal) = Ok readers /\ separate subclass readers /\
  lookup is_spec (resolve subclass readers) (checked_read (Known KList) k ex_int_view) = Ok (Handler KFormat KLocal) /\
  call subclass is_spec readers (called_read (Known KTuple) k ex_int_view) = Err NotImplementedError.
Proof.
  exists [HClass (Known KType); HClass (of KFormat $"CSV"); HAlias (Known KList) [HClass (Known KLocal)]; HClass (Known KBuiltin)]. eexists.
  cbn zeta. split; [reflexivity|]. split; [|split; reflexivity]. split; [|split].
  - intros k h I. cbn in I. repeat destruct I as [E|I]; try contradiction; injection E as <- <-; repeat constructor.
  - cbn. repeat constructor; cbn; intuition discriminate.
  - intros k h k' h' I I' A B. cbn in I, I'.
    repeat destruct I as [E|I]; try contradiction; injection E as <- <-; repeat destruct I' as [E'|I']; try contradiction; injection E' as <- <-;
      try reflexivity; apply accepts_handles in A, B; discriminate.
Qed.
Print Assumptions C66_list_refuted.
(** A writer for the Python type of a view is found, but the data may be something else. *)
Theorem C66_data_refuted : exists key, let k := Classes (of KType $"Int64") (of KFormat $"CSV") (Known KLocal) in
  let writers := builtin_writers ++ [(key, Handler KFormat KLocal)] in
  lookup is_spec (resolve subclass writers) (checked_write (of KObject $"int") k ex_int_view) = Ok (Handler KFormat KLocal) /\
  call subclass is_spec writers (called_write (of KObject $"float") k ex_int_view) = Err NotImplementedError.
Proof.
  exists [HClass (of KObject $"int"); HClass (Known KType); HClass (of KFormat $"CSV"); HClass (Known KLocal); HClass (Known KBuiltin)].
  split; reflexivity.
Qed.
Print Assumptions C66_data_refuted.
(** One for a subclass of JSON in any storage makes reading it from files, which worked, fail: neither
    refines the other. *)
Theorem C66_draw_refuted : exists readers,
  register_reader lines_key (Handler KJSON KPartition) = Ok readers /\
  lookup is_spec (resolve subclass builtin_readers) (checked_read (Known KList) ex_classes ex_int_view) = Ok (Handler KJSON KLocal) /\
  lookup is_spec (resolve subclass readers) (checked_read (Known KList) ex_classes ex_int_view) = Err ValueError /\
  call subclass is_spec readers (called_read (Known KTuple) ex_classes ex_int_view) = Err TypeError.
Proof. eexists. split; [reflexivity|]. split; [reflexivity|]. split; reflexivity. Qed.
Print Assumptions C66_draw_refuted.
