(** What an artifact is: the data it was given, or what its producer's [build] makes of its inputs.
    No storage, backend, snapshot or fingerprint comes into it. *)
From Coq Require Import ZArith List Ascii String Bool Arith.
From Verif Require Import Base Str Graph_Model Graph_Spec Backend_Model Executor_Model Executor_Spec Json_Model Json_Spec Whole_Model.
Import ListNotations.
Open Scope list_scope.

Section Value.
  Context {V : Type} (E : env V) (s : state V).
  (** The value of a raw artifact is read from what there is of it in [s]; that of a produced one is
      computed. *)
  Inductive value : artifact -> V -> Prop :=
  | value_raw : forall a parts ds v, a_output a = None -> (forall x, In x parts <-> raw_found E s (a_storage a) x) ->
      Forall2 (holds_data s) (iter_set E parts) ds -> load E a ds = Ok v -> value a v
  | value_built : forall a p i args vs v, a_output a = Some (p, i) -> arguments (p_inputs p) (c_build_inputs (classes E (p_class p))) args ->
      runs (classes E (p_class p)) args (Ok vs) -> nth_error vs i = Some v -> value a v
  with arguments : list (str * artifact) -> list str -> list (str * V) -> Prop :=
  | arguments_none : forall inputs, arguments inputs [] []
  | arguments_more : forall inputs n names a v args, dget str_eqb inputs n = Some a -> value a v -> arguments inputs names args ->
      arguments inputs (n :: names) ((n, v) :: args).
End Value.

Section Graphs.
  Context {V : Type} (E : env V).
  (** No producer of the graph has a [map] of its own; an input has one value. *)
  Record whole (g : artifacts) : Prop := {
    wh_map : forall p i a, produces g p i a -> c_map (classes E (p_class p)) = default_map;
    wh_map_inputs : forall p i a, produces g p i a ->
      c_map_inputs (classes E (p_class p)) = default_map_inputs (map fst (p_inputs p)) (c_build_inputs (classes E (p_class p)));
    wh_inputs : forall p i a, produces g p i a -> NoDup (map fst (p_inputs p)) }.
  (** What the producers of the graph return for their arguments is read back as it was written. *)
  Definition survives (s : state V) (g : artifacts) : Prop := forall p i a args vs v d, produces g p i a ->
    arguments E s (p_inputs p) (c_build_inputs (classes E (p_class p))) args ->
    runs (classes E (p_class p)) args (Ok vs) -> nth_error vs i = Some v -> dump E a v = Ok d -> load E a [d] = Ok v.
  (** It can be written, too. *)
  Definition kept_exactly (s : state V) (g : artifacts) : Prop := forall p i a args vs v, produces g p i a ->
    arguments E s (p_inputs p) (c_build_inputs (classes E (p_class p))) args ->
    runs (classes E (p_class p)) args (Ok vs) -> nth_error vs i = Some v -> exists d, dump E a v = Ok d /\ load E a [d] = Ok v.
  (** A producer can be built: with its arguments [build] returns outputs that are valid, of the right
      type, and can be written. *)
  Definition makes (s : state V) (g : artifacts) (p : producer) : Prop := exists args vs,
    arguments E s (p_inputs p) (c_build_inputs (classes E (p_class p))) args /\ runs (classes E (p_class p)) args (Ok vs) /\
    c_validate (classes E (p_class p)) vs = Ok true /\
    forall i a v, produces g p i a -> nth_error vs i = Some v -> check E p i a v = Ok tt /\ exists d, dump E a v = Ok d.
  (** The graph has the inputs of its producers, which are those that [build] takes, and all their
      outputs, each on a storage that can be written and is not partitioned. *)
  Record complete (g : artifacts) : Prop := {
    cp_inputs : forall p i a n b, produces g p i a -> In (n, b) (p_inputs p) -> In b (map snd g);
    cp_takes : forall p i a n, produces g p i a -> In n (c_build_inputs (classes E (p_class p))) -> In n (map fst (p_inputs p));
    cp_outputs : forall p i a j, produces g p i a -> j < outputs_declared (classes E (p_class p)) -> exists b, produces g p j b;
    cp_single : forall p i a, produces g p i a -> st_partitioned (a_storage a) = false;
    cp_free : forall p i a d, produces g p i a -> st_kind (a_storage a) <> SLiteral (Some d) }.
  (** [tuple(a_set)] repeats nothing. *)
  Definition iterates_once : Prop := forall l, NoDup l -> NoDup (iter_set E l).
  (** Nothing has been built: no files where the graph's producers put theirs, and a new backend. *)
  Definition unbuilt (g : artifacts) (s : state V) : Prop :=
    db s = empty_backend /\ fuel s = None /\
    forall p i a k f, produces g p i a -> dget location_eqb (files s) (st_id (a_storage a), k, Some f) = None.
End Graphs.

(** Artifacts are stored as JSON, and what the producers of the graph return is what JSON can say. *)
Definition stores_json {fl} (E : env (Json_Model.value fl)) : Prop := forall a v, dump E a v = dumps v /\ load E a = json_load a.
Definition returns_json {fl} (E : env (Json_Model.value fl)) (s : state _) (g : artifacts) : Prop := forall p i a args vs v, produces g p i a ->
  arguments E s (p_inputs p) (c_build_inputs (classes E (p_class p))) args ->
  runs (classes E (p_class p)) args (Ok vs) -> nth_error vs i = Some v -> faithful v /\ all_texts unicode v.
