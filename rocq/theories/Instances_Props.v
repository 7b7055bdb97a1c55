(** C67: producers only take inputs and outputs that suit them, so what producers pass to each other
    can be written and read. *)
From Coq Require Import ZArith List Ascii String Bool Lia.
From Verif Require Import Base Str Hints_Model Types_Model PyTypes_Model Dispatch_Model Views_Model Producers_Model Artifacts_Model Artifacts_Spec
  Handlers_Model Handlers_Spec Handlers_Proofs Instances_Model Instances_Spec Instances_Proofs.
Import ListNotations.
Open Scope list_scope.

(** For the examples: classes of views and data are those of Handlers_Model, there is one class of
    artifacts, and an artifact is in a format and a storage. [load] makes a number of a number, [split] a
    number and a text of a number, [join] a text of a text and a number it does not look at. *)
Definition of (k : known) (n : str) : cls := Sub (Known k) n.
Inductive ex_class := Load | Split | Join.
Definition ex_int := Scalar (Int B64) plain.
Definition ex_text := Scalar String plain.
Definition ex_code (t : ty) : nat := match t with Scalar (Int B64) _ => 0 | Scalar String _ => 1 | _ => 2 end.
Definition ex_type_eqb (a b : ty) : bool := Nat.eqb (ex_code a) (ex_code b).
Definition ex_from (ann : annotation cls unit) (m : mode) : result (view cls unit) :=
  match Views_Model.root ann with
  | HClass PyInt => Ok (View (of KBuiltin $"Int") m tt ex_int)
  | HClass PyStr => Ok (View (of KBuiltin $"Str") m tt ex_text)
  | _ => Err ValueError
  end.
Definition ex_aeqb (_ _ : unit) := true.
Definition ex_arg (n : str) (c : pyclass) : parameter (annotation cls unit) := Par n PositionalOrKeyword (Some (Annotation (HClass c) [])) false.
Definition ex_map (names : list str) : method bool unit := Method true (map (fun n => Par n KeywordOnly (Some true) false) names) tt.
Definition ex_definition (k : ex_class) : definition cls unit :=
  let field n := (n, Field (FArtifact tt) true) in
  let hint c := Annotation (HClass c) [] in
  match k with
  | Load => Definition_ [field $"x"] (Some (Method true [ex_arg $"x" PyInt] (Some (ROne (hint PyInt))))) any_outputs None
  | Split => Definition_ [field $"x"] (Some (Method true [ex_arg $"x" PyInt] (Some (RTuple [hint PyInt; hint PyStr])))) any_outputs None
  | Join => Definition_ [field $"s"; field $"n"] (Some (Method true [ex_arg $"s" PyStr] (Some (ROne (hint PyStr))))) any_outputs
              (Some (ex_map [$"s"; $"n"]))
  end.
Definition ex_class_of (k : ex_class) : producer_class cls unit :=
  match define ex_from ex_aeqb (fun _ _ => false) (ex_definition k) with Ok c => c | Err _ => ProducerClass [] [] [] (ex_map []) [] end.
Definition ex_rest : Type := cls * cls.
Definition ex_classes_of (x : ty * ex_rest) : classes cls :=
  Classes (if ex_type_eqb (fst x) ex_int then of KType $"Int64" else of KType $"String") (fst (snd x)) (snd (snd x)).
Definition ex_read (x : ty * ex_rest) := can_read subclass (Known KList) is_spec builtin_readers (ex_classes_of x).
Definition ex_write (x : ty * ex_rest) := can_write subclass is_spec builtin_writers (fun _ => of KObject $"int") (ex_classes_of x).
Definition ex_make (_ : unit) (_ : ty) : result ex_rest := Ok (Known KJSON, Known KLiteral).
Definition ex_resolve (produced : bool) (r : ex_rest) : result ex_rest :=
  if produced && cls_eqb (snd r) (of KPartition $"Fixed") then Err ValueError else Ok r.
Definition ex_asub (_ _ : unit) := true.
Definition ex_create := create ex_class_of ex_asub ex_type_eqb ex_read ex_write.
Definition ex_out := out ex_class_of ex_asub ex_type_eqb ex_read ex_write ex_make.
Definition ex_iter := iter ex_class_of ex_asub ex_type_eqb ex_read ex_write ex_make.
Definition ex_json : ex_rest := (Known KJSON, Known KLocal).
Definition raw (t : ty) (r : ex_rest) : artifact unit ex_rest ex_class := Art tt t r None.
Definition ex_number := raw ex_int ex_json.
Definition ex_load : producer unit ex_rest ex_class := Prod Load [($"x", ex_number)].
Definition ex_loaded := Art tt ex_int ex_json (Some (ex_load, 0)).
Definition ex_split : producer unit ex_rest ex_class := Prod Split [($"x", ex_loaded)].
Definition ex_pickle : ex_rest := (Known KPickle, Known KLocal).
Definition ex_words := Art tt ex_text ex_pickle (Some (ex_split, 1)).

(** Accepted classes have fields and inputs of different names; views of inputs are for reading, those
    of outputs for writing, and there is an output. *)
Theorem C67_classes : forall (V A : Type) (from_annotation : annotation V A -> mode -> result (view V A)) aeqb same,
  (forall ann m v, from_annotation ann m = Ok v -> v_mode v = m) -> forall d c,
  NoDup (map fst (d_fields d)) -> (forall m, d_build d = Some m -> NoDup (map par_name (m_params m))) ->
  define from_annotation aeqb same d = Ok c ->
  named_apart c /\ (forall n v, In (n, v) (build_inputs c) -> v_mode v = READ) /\ (forall v, In v (outputs c) -> v_mode v = WRITE) /\ outputs c <> [].
Proof. exact @class_made. Qed.
Print Assumptions C67_classes.
Theorem C67_view_mode : forall (V A : Type) vsub view_artifact artifact_type to_system infer type_eqb same cls reg (ann : annotation V A) m v,
  from_annotation vsub view_artifact artifact_type to_system infer type_eqb same cls reg ann m = Ok v -> v_mode v = m.
Proof. exact view_mode. Qed.
Print Assumptions C67_view_mode.
Lemma ex_mode : forall ann m v, ex_from ann m = Ok v -> v_mode v = m.
Proof. intros [[] xs] m v; cbn; try discriminate. destruct c; try discriminate; intros [= <-]; reflexivity. Qed.
Lemma ex_defined : forall k, exists d, NoDup (map fst (d_fields d)) /\ (forall m, d_build d = Some m -> NoDup (map par_name (m_params m))) /\
  define ex_from ex_aeqb (fun _ _ => false) d = Ok (ex_class_of k).
Proof.
  intros k. exists (ex_definition k). destruct k; (split; [|split; [|reflexivity]]); cbn; try (intros m [= <-]; cbn);
    repeat constructor; cbn; intuition discriminate.
Qed.
Example C67_classes_nonvacuous : build_inputs (ex_class_of Join) = [($"s", View (of KBuiltin $"Str") READ tt ex_text)] /\
  map fst (inputs (ex_class_of Join)) = [$"s"; $"n"] /\ List.length (outputs (ex_class_of Split)) = 2.
Proof. repeat split; reflexivity. Qed.

(** A producer can be created iff each of its fields, and nothing else, is given an artifact of the field's
    class which also suits the view that [build] reads it with, if it does; its inputs are these. *)
Theorem C67_created : forall (V A T P : Type) (class_of : P -> producer_class V A) asub type_eqb (can_read can_write : ty * T -> V -> result unit) k args p,
  named_apart (class_of k) -> NoDup (map fst args) ->
  (create class_of asub type_eqb can_read can_write k args = Ok p <->
   exists l, p = Prod k l /\ map fst l = map fst (inputs (class_of k)) /\
     (forall n x, In (n, x) args <-> exists a, x = Some a /\ In (n, a) l) /\
     forall n a, In (n, a) l -> takes_input asub type_eqb can_read can_write (class_of k) n a).
Proof. exact @created. Qed.
Print Assumptions C67_created.
Theorem C67_creation_fails : forall (V A T P : Type) (class_of : P -> producer_class V A) asub type_eqb (can_read can_write : ty * T -> V -> result unit) k args e,
  create class_of asub type_eqb can_read can_write k args = Err e ->
  e = ValueError \/ (~ reported e /\ exists x w, can_read x w = Err e \/ can_write x w = Err e).
Proof. exact @creation_fails. Qed.
Print Assumptions C67_creation_fails.
Theorem C67_inputs : forall (V A T P : Type) (class_of : P -> producer_class V A) asub type_eqb (can_read can_write : ty * T -> V -> result unit) k args p,
  named_apart (class_of k) -> NoDup (map fst args) -> create class_of asub type_eqb can_read can_write k args = Ok p ->
  map fst (producer_inputs p) = map fst (inputs (class_of k)) /\ forall n x, In (n, x) args <-> exists a, x = Some a /\ In (n, a) (producer_inputs p).
Proof. exact @inputs_given. Qed.
Print Assumptions C67_inputs.
Example C67_created_nonvacuous :
  named_apart (ex_class_of Join) /\
  ex_create Load [($"x", Some ex_number)] = Ok ex_load /\
  ex_create Split [($"x", Some ex_loaded)] = Ok ex_split /\
  ex_create Join [($"n", Some ex_words); ($"s", Some ex_words)] = Ok (Prod Join [($"s", ex_words); ($"n", ex_words)]) /\
  ex_create Join [($"n", Some ex_words); ($"s", Some ex_number)] = Err ValueError /\
  ex_create Join [($"s", Some ex_words)] = Err ValueError /\
  ex_create Load [($"x", Some ex_number); ($"y", Some ex_number)] = Err ValueError /\
  ex_create Load [($"x", None)] = Err ValueError /\
  ex_create Load [($"x", Some (raw ex_int (Known KPickle, Known KLiteral)))] = Err ValueError.
Proof. split; [split; cbn; repeat constructor; cbn; intuition discriminate|]. repeat split; reflexivity. Qed.

(** Artifacts can be made the outputs of a producer iff there is one for each output of its class, each suits
    the view of its output, and none is the output of a producer yet. They are returned as outputs of this
    producer, in their positions and otherwise unchanged; a single one bare. *)
Theorem C67_out : forall (V A T P : Type) (class_of : P -> producer_class V A) asub type_eqb (can_read can_write : ty * T -> V -> result unit) make p given r,
  given <> [] ->
  (out class_of asub type_eqb can_read can_write make p given = Ok r <->
   exists bs, each (fitting asub type_eqb can_read can_write p) (outputs (class_of (p_class p))) given bs /\ shaped bs r).
Proof. exact @out_given. Qed.
Print Assumptions C67_out.
(** With none given, these are made of the artifact class and type of each view. *)
Theorem C67_out_default : forall (V A T P : Type) (class_of : P -> producer_class V A) asub type_eqb (can_read can_write : ty * T -> V -> result unit) make p r,
  out class_of asub type_eqb can_read can_write make p [] = Ok r <->
  exists defaults bs, Forall2 (fresh make) (outputs (class_of (p_class p))) defaults /\
    each (fitting asub type_eqb can_read can_write p) (outputs (class_of (p_class p))) defaults bs /\ shaped bs r.
Proof. exact @out_default. Qed.
Print Assumptions C67_out_default.
Theorem C67_iter : forall (V A T P : Type) (class_of : P -> producer_class V A) asub type_eqb (can_read can_write : ty * T -> V -> result unit) make p l,
  iter class_of asub type_eqb can_read can_write make p = Ok l <->
  exists defaults, Forall2 (fresh make) (outputs (class_of (p_class p))) defaults /\
    each (fitting asub type_eqb can_read can_write p) (outputs (class_of (p_class p))) defaults l.
Proof. exact @iterated. Qed.
Print Assumptions C67_iter.
(** ... as described for artifacts by C57. *)
Theorem C67_fresh : forall F S N M A P V (format_visit : F -> ty -> result F) (storage_visit_type : S -> ty -> result S)
    (storage_visit_format : S -> F -> result S) f0 s0 (bodies : A -> list (body ty F S N M)) (v : view V A) a,
  fresh (P := P) (fun a t => construct format_visit storage_visit_type storage_visit_format f0 s0 (bodies a) (only_type t)) v a <->
  exists i, Artifacts_Spec.made format_visit storage_visit_type storage_visit_format f0 s0 (bodies (v_artifact v)) (only_type (v_type v)) i /\
    i_type i = v_type v /\ a = Art (v_artifact v) (v_type v) i None.
Proof. exact made_of_type. Qed.
Print Assumptions C67_fresh.
Theorem C67_out_fails : forall (V A T P : Type) (class_of : P -> producer_class V A) asub type_eqb (can_read can_write : ty * T -> V -> result unit) make p l e,
  out class_of asub type_eqb can_read can_write make p l = Err e ->
  e = ValueError \/ (exists x w, can_read x w = Err e \/ can_write x w = Err e) \/ (l = [] /\ exists a t, make a t = Err e).
Proof. exact @out_fails. Qed.
Print Assumptions C67_out_fails.
(** What has been made an output is not made one again, of any producer. *)
Theorem C67_once : forall (V A T P : Type) (class_of : P -> producer_class V A) asub type_eqb (can_read can_write : ty * T -> V -> result unit) make p l r b q given,
  out class_of asub type_eqb can_read can_write make p l = Ok r -> In b (items r) -> In b given ->
  exists e, out class_of asub type_eqb can_read can_write make q given = Err e.
Proof. exact @used_once. Qed.
Print Assumptions C67_once.
Example C67_out_nonvacuous :
  ex_out ex_load [ex_number] = Ok (One ex_loaded) /\
  ex_out ex_split [ex_number; raw ex_text ex_pickle] = Ok (Several [Art tt ex_int ex_json (Some (ex_split, 0)); ex_words]) /\
  ex_out ex_split [raw ex_text ex_pickle; ex_number] = Err ValueError /\
  ex_out ex_split [ex_number] = Err ValueError /\
  ex_out ex_load [ex_loaded] = Err ValueError /\
  ex_out ex_split [] = Ok (Several [Art tt ex_int (Known KJSON, Known KLiteral) (Some (ex_split, 0));
                                    Art tt ex_text (Known KJSON, Known KLiteral) (Some (ex_split, 1))]) /\
  ex_iter ex_load = Ok [Art tt ex_int (Known KJSON, Known KLiteral) (Some (ex_load, 0))].
Proof. repeat split; reflexivity. Qed.

(** However artifacts and producers are made and assigned to graphs, all producers behind an artifact have just
    the inputs they declare, and all their inputs and outputs suit their views. *)
Theorem C67_sound : forall (V A T P : Type) (class_of : P -> producer_class V A) asub type_eqb (can_read can_write : ty * T -> V -> result unit) make resolve_storage,
  (forall k, named_apart (class_of k)) ->
  (forall b r r', resolve_storage b r = Ok r' -> forall t w, can_read (t, r') w = can_read (t, r) w /\ can_write (t, r') w = can_write (t, r) w) ->
  forall a, made class_of asub type_eqb can_read can_write make resolve_storage a -> sound class_of asub type_eqb can_read can_write a.
Proof. exact @all_sound. Qed.
Print Assumptions C67_sound.
(** So what a producer reads is of the type that the producer of it writes. *)
Theorem C67_ends_agree : forall (V A T P : Type) (class_of : P -> producer_class V A) asub type_eqb (can_read can_write : ty * T -> V -> result unit) make resolve_storage,
  (forall k, named_apart (class_of k)) ->
  (forall b r r', resolve_storage b r = Ok r' -> forall t w, can_read (t, r') w = can_read (t, r) w /\ can_write (t, r') w = can_write (t, r) w) ->
  (forall s t, type_eqb s t = true -> type_eqb t s = true) -> (forall s t u, type_eqb s t = true -> type_eqb t u = true -> type_eqb s u = true) ->
  forall a k args n b v, made class_of asub type_eqb can_read can_write make resolve_storage a ->
  behind (Prod k args) a -> In (n, b) args -> In (n, v) (build_inputs (class_of k)) ->
  suits asub type_eqb can_read can_write v b /\
  forall c t r k' args' i, b = Art c t r (Some (Prod k' args', i)) ->
    exists w, nth_error (outputs (class_of k')) i = Some w /\ suits asub type_eqb can_read can_write w b /\ type_eqb (v_type v) (v_type w) = true.
Proof. exact @ends_agree. Qed.
Print Assumptions C67_ends_agree.
(** And whatever a build reads or writes, for whichever producer behind an artifact, there is a handler for it. *)
Theorem C67_handled_partial : forall (C H A T P : Type) (issub : C -> C -> bool) list_class tuple_class (abstract : H -> bool) (readers writers : table C H) python_type
    (classes_of : ty * T -> classes C) (class_of : P -> producer_class C A) asub type_eqb make resolve_storage
    (from_annotation : annotation C A -> mode -> result (view C A)) aeqb same,
  (forall ann m v, from_annotation ann m = Ok v -> v_mode v = m) ->
  (forall k, exists d, NoDup (map fst (d_fields d)) /\ (forall m, d_build d = Some m -> NoDup (map par_name (m_params m))) /\
     define from_annotation aeqb same d = Ok (class_of k)) ->
  (forall b r r', resolve_storage b r = Ok r' -> forall t, classes_of (t, r') = classes_of (t, r)) ->
  sequences issub list_class tuple_class readers -> any_data writers ->
  forall a k args,
  made class_of asub type_eqb (fun x => can_read issub list_class abstract readers (classes_of x))
    (fun x => can_write issub abstract writers python_type (classes_of x)) make resolve_storage a ->
  behind (Prod k args) a ->
  (forall n c t r o v, In (n, Art c t r o) args -> In (n, v) (build_inputs (class_of k)) ->
     exists h, call issub abstract readers (called_read tuple_class (classes_of (t, r)) (v_class v)) = Ok h) /\
  (forall c t r i, reached (Art c t r (Some (Prod k args, i))) a -> exists v, nth_error (outputs (class_of k)) i = Some v /\
     forall data, exists h, call issub abstract writers (called_write data (classes_of (t, r)) (v_class v)) = Ok h).
Proof. exact @handled_classes. Qed.
Print Assumptions C67_handled_partial.
Lemma ex_made : made ex_class_of ex_asub ex_type_eqb ex_read ex_write ex_make ex_resolve ex_words.
Proof.
  apply made_assigned with ex_words; [|reflexivity].
  apply (made_output _ _ _ _ _ _ _ ex_split [ex_number; raw ex_text ex_pickle] (Several [Art tt ex_int ex_json (Some (ex_split, 0)); ex_words]));
    [|intros b [<-|[<-|[]]]; constructor|reflexivity|right; left; reflexivity].
  apply made_created with Split [($"x", Some ex_loaded)]; [|reflexivity]. intros n a [[= <- <-]|[]].
  apply (made_output _ _ _ _ _ _ _ ex_load [ex_number] (One ex_loaded)); [|intros b [<-|[]]; constructor|reflexivity|left; reflexivity].
  apply made_created with Load [($"x", Some ex_number)]; [|reflexivity]. intros n a [[= <- <-]|[]]. constructor.
Qed.
Example C67_handled_nonvacuous :
  (forall ann m v, ex_from ann m = Ok v -> v_mode v = m) /\
  (forall k, exists d, NoDup (map fst (d_fields d)) /\ (forall m, d_build d = Some m -> NoDup (map par_name (m_params m))) /\
     define ex_from ex_aeqb (fun _ _ => false) d = Ok (ex_class_of k)) /\
  (forall b r r', ex_resolve b r = Ok r' -> forall t, ex_classes_of (t, r') = ex_classes_of (t, r)) /\
  sequences subclass (Known KList) (Known KTuple) builtin_readers /\ any_data builtin_writers /\
  made ex_class_of ex_asub ex_type_eqb ex_read ex_write ex_make ex_resolve ex_words /\
  behind ex_load ex_words /\ behind ex_split ex_words /\ reached ex_loaded ex_words /\
  assign ex_resolve (Art tt ex_int (Known KJSON, of KPartition $"Fixed") (Some (ex_load, 0))) = Err ValueError.
Proof.
  split; [exact ex_mode|]. split; [exact ex_defined|]. split; [|split; [exact readers_sequences|split; [exact writers_any|split; [exact ex_made|]]]].
  - intros b r r'. unfold ex_resolve. destruct (b && _); [discriminate|]. intros [= <-] t. reflexivity.
  - split; [apply behind_input with $"x" ex_loaded; [left; reflexivity|constructor]|]. split; [constructor|].
    split; [right; exists Split, [($"x", ex_loaded)], $"x"; split; [constructor|left; reflexivity]|reflexivity].
Qed.
