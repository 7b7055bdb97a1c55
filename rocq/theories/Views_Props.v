(** C52: views match annotations. *)
From Coq Require Import ZArith List Ascii String Bool Lia.
From Verif Require Import Base Str Hints_Model Hints_Spec Types_Model PyTypes_Model Views_Model Views_Spec Views_Proofs.
Import ListNotations.
Open Scope list_scope.

(** For the examples: the views of views/python.py, and two classes of artifacts, the second of
    which has a default type. *)
Inductive ex_artifact := Plain | Typed.
Definition ex_artifact_of (_ : builtin_view) := Plain.
Definition ex_artifact_type (a : ex_artifact) : option ty := match a with Plain => None | Typed => Some (Scalar (Int B64) plain) end.
Definition ex_type_eqb (a b : ty) : bool :=
  match a, b with
  | Scalar (Int B64) _, Scalar (Int B64) _ | Scalar (Float F64) _, Scalar (Float F64) _ | Scalar Null _, Scalar Null _ => true
  | _, _ => false
  end.
Definition ex_asub (a b : ex_artifact) : bool := match a, b with Typed, Typed => true | _, Plain => true | _, _ => false end.
Definition ex_same (_ _ : phint) : bool := false.
Definition ex_reg : list (pykey * builtin_view) :=
  [(Some PyDate, VDate); (Some PyDatetime, VDatetime); (Some PyDict, VDict); (Some PyFloat, VFloat); (Some PyInt, VInt); (Some PyList, VList); (None, VNull); (Some PyStr, VStr)].
Definition ex_from (cls : builtin_view) (h : phint) (xs : list (extra builtin_view ex_artifact)) (m : mode) :=
  from_annotation builtin_sub ex_artifact_of ex_artifact_type (builtin_system 5) (of_hint 5) ex_type_eqb ex_same cls ex_reg (Annotation h xs) m.

(** A single view among the extra arguments is the one. *)
Theorem C52_explicit : forall (V A : Type) (vsub : V -> V -> bool) cls reg (ann : annotation V A) v,
  only (a_view vsub cls) (extras ann) (XView v) -> get_class_for vsub cls reg ann = Ok v.
Proof. exact @class_explicit. Qed.
Print Assumptions C52_explicit.
(** Several are an error. *)
Theorem C52_ambiguous : forall (V A : Type) (vsub : V -> V -> bool) cls reg (ann : annotation V A),
  several (a_view vsub cls) (extras ann) -> get_class_for vsub cls reg ann = Err ValueError.
Proof. exact @class_several. Qed.
Print Assumptions C52_ambiguous.
Example C52_explicit_nonvacuous :
  only (a_view builtin_sub PythonBuiltin) [XOther; XView VFloat; XArtifact Plain] (XView VFloat) /\
  get_class_for builtin_sub PythonBuiltin ex_reg (Annotation (HClass PyInt) [XOther; XView VFloat; XArtifact Plain]) = Ok VFloat /\
  several (a_view builtin_sub PythonBuiltin) ([XView VInt; XOther; XView VInt] : list (extra builtin_view ex_artifact)).
Proof.
  split; [|split; [reflexivity|]].
  - exists [XOther], [XArtifact Plain]. split; [reflexivity|]. split; [exists VFloat; auto|].
    intros e [<-|[<-|[]]] (v & E & _); discriminate E.
  - exists [], (XView VInt), [XOther], (XView VInt), []. split; [reflexivity|]. split; exists VInt; auto.
Qed.

(** Without one, it is the view of the Python type with the highest priority of all that were
    defined, and an error if there is none. *)
Theorem C52_registered : forall (V A : Type) (vsub : V -> V -> bool) abstract python_type priority vs reg cls (ann : annotation V A),
  define_views abstract python_type priority [] vs = Ok reg -> nothing (a_view vsub cls) (extras ann) ->
  (forall v, get_class_for vsub cls reg ann = Ok v <->
     exists k, python_type_of (root ann) = Some k /\ preferred abstract python_type priority vs k v) /\
  ((forall k v, python_type_of (root ann) = Some k -> In v vs -> abstract v = false -> python_type v <> k) <->
   get_class_for vsub cls reg ann = Err ValueError).
Proof. exact @class_registered. Qed.
Print Assumptions C52_registered.
(** Defining views fails only if two of them are for the same type with the same priority. *)
Theorem C52_definable : forall (V : Type) abstract python_type priority (vs : list V) e,
  define_views abstract python_type priority [] vs = Err e -> e = ValueError /\
  exists l1 v l2 w l3, vs = l1 ++ v :: l2 ++ w :: l3 /\ abstract v = false /\ abstract w = false /\ python_type v = python_type w /\ priority v = priority w.
Proof. exact @define_error. Qed.
Print Assumptions C52_definable.
Example C52_registered_nonvacuous :
  define_views builtin_abstract builtin_type (fun _ => 0%Z) [] builtin_views = Ok ex_reg /\
  get_class_for builtin_sub PythonBuiltin ex_reg (Annotation (HAlias PyList [HClass PyInt]) [XArtifact Plain]) = Ok VList /\
  get_class_for builtin_sub PythonBuiltin ex_reg (Annotation (HAlias PySet [HClass PyInt]) [XArtifact Plain]) = Err ValueError /\
  define_views (fun _ : bool => false) (fun _ => Some PyInt) (fun b : bool => if b then 1%Z else 0%Z) [] [false; true; false] = Ok [(Some PyInt, true)] /\
  define_views (fun _ : bool => false) (fun _ => Some PyInt) (fun _ => 0%Z) [] [false; true] = Err ValueError.
Proof. repeat split; reflexivity. Qed.

(** The view made of an annotation has the artifact class and the type the annotation says: those
    given explicitly, else the default of the view and of the artifact class, else the type
    inferred from the hint; and the type is the default of the artifact class, if there is one. *)
Theorem C52_says : forall (V A : Type) (vsub : V -> V -> bool) view_artifact (artifact_type : A -> option ty) to_system infer type_eqb same cls reg ann m v,
  from_annotation vsub view_artifact artifact_type to_system infer type_eqb same cls reg ann m = Ok v ->
  get_class_for vsub cls reg ann = Ok (v_class v) /\ v_mode v = m /\
  says (view_artifact (v_class v)) artifact_type infer ann (v_artifact v) (v_type v) /\
  (forall t, artifact_type (v_artifact v) = Some t -> type_eqb (v_type v) t = true) /\
  exists h c, to_system (v_class v) (v_type v) = Ok (h, c) /\
    (issubclass_hint same h (root ann) = Ok true \/ issubclass_hint same (HClass c) (root ann) = Ok true).
Proof. exact @from_annotation_spec. Qed.
Print Assumptions C52_says.
(** A view accepts an annotation only if what its type system makes of its type, or the class of
    that, is a subtype of the hint. *)
Theorem C52_represents : forall (V A : Type) (vsub : V -> V -> bool) view_artifact (artifact_type : A -> option ty) to_system infer type_eqb same cls reg ann m v,
  target true (root ann) -> from_annotation vsub view_artifact artifact_type to_system infer type_eqb same cls reg ann m = Ok v ->
  exists h c, to_system (v_class v) (v_type v) = Ok (h, c) /\
    ((accepted h = true -> source h) -> sub issub is_none PyDict same h (root ann) \/ sub issub is_none PyDict same (HClass c) (root ann)).
Proof. exact @from_annotation_sub. Qed.
Print Assumptions C52_represents.
Example C52_says_nonvacuous :
  ex_from PythonBuiltin (HClass PyInt) [XArtifact Typed] READ = Ok (View VInt READ Typed (Scalar (Int B64) plain)) /\
  ex_from PythonBuiltin (HClass PyFloat) [XArtifact Typed] READ = Err ValueError /\
  ex_from PythonBuiltin (HClass PyInt) [XType (Scalar (Int B8) plain)] READ = Ok (View VInt READ Plain (Scalar (Int B8) plain)) /\
  ex_from PythonBuiltin (HClass PyInt) [XType (Scalar String plain)] READ = Err ValueError /\
  ex_from PythonBuiltin (HAlias PyList [HClass PyInt]) [] WRITE = Ok (View VList WRITE Plain (List (Scalar (Int B64) plain) plain)) /\
  target (C := pyclass) true (HAlias PyList [HClass PyInt]).
Proof. repeat split; try reflexivity. repeat constructor. Qed.

(** Hints of plain classes, lists, sets and dicts whose outermost class has a view are accepted. *)
Theorem C52_builtin : forall A (artifact_of : builtin_view -> A) (artifact_type : A -> option ty) type_eqb same priority reg n h k v m,
  define_views builtin_abstract builtin_type priority [] builtin_views = Ok reg ->
  canonical h -> hint_levels h <= n -> python_type_of h = Some k -> preferred builtin_abstract builtin_type priority builtin_views k v ->
  artifact_type (artifact_of v) = None ->
  exists t, to_hint n t = Ok h /\
    from_annotation builtin_sub artifact_of artifact_type (builtin_system n) (of_hint n) type_eqb same PythonBuiltin reg (Annotation h []) m =
      Ok (View v m (artifact_of v) t).
Proof. exact builtin_complete. Qed.
Print Assumptions C52_builtin.
Example C52_builtin_nonvacuous :
  let h := HAlias PyDict [HClass PyStr; HAlias PySet [HClass PyBytes]] in
  canonical h /\ hint_levels h <= 5 /\ preferred builtin_abstract builtin_type (fun _ => 0%Z) builtin_views (Some PyDict) VDict.
Proof.
  split; [|split; [cbn; lia|]].
  - apply can_dict; [apply can_class; cbn; tauto|]. apply can_set, can_class. cbn. tauto.
  - exists [PythonBuiltin; VDate; VDatetime], [VFloat; VInt; VList; VNull; VStr]. split; [reflexivity|]. split; [reflexivity|]. split; [reflexivity|].
    intros w I F K. cbn in I. repeat destruct I as [<-|I]; try discriminate; destruct I.
Qed.

(** An artifact is accepted iff it is of the view's artifact class and type and there are handlers
    for what the mode asks for. *)
Theorem C52_artifact : forall (V A : Type) (asub : A -> A -> bool) type_eqb T (can_read can_write : T -> V -> result unit) (v : view V A) a t rest,
  check_artifact asub type_eqb can_read can_write v a t rest = Ok tt <->
  asub a (v_artifact v) = true /\ type_eqb (v_type v) t = true /\
  (v_mode v <> WRITE -> can_read rest (v_class v) = Ok tt) /\ (v_mode v <> READ -> can_write rest (v_class v) = Ok tt).
Proof. exact @artifact_spec. Qed.
Print Assumptions C52_artifact.
Example C52_artifact_nonvacuous :
  let none (_ : unit) (_ : builtin_view) := Err NotImplementedError in
  let some (_ : unit) (_ : builtin_view) := Ok tt in
  let v m := View VInt m Plain (Scalar (Int B64) plain) in
  check_artifact ex_asub ex_type_eqb some none (v READ) Typed (Scalar (Int B64) plain) tt = Ok tt /\
  check_artifact ex_asub ex_type_eqb some none (v READWRITE) Typed (Scalar (Int B64) plain) tt = Err NotImplementedError /\
  check_artifact ex_asub ex_type_eqb some some (v WRITE) Typed (Scalar (Float F64) plain) tt = Err ValueError.
Proof. repeat split; reflexivity. Qed.

(** Asking a view class for the view of an annotation may give one that is no subclass of it. *)
Theorem C52_subclass_refuted : exists v,
  get_class_for builtin_sub VList ex_reg (Annotation (A := ex_artifact) (HClass PyInt) []) = Ok v /\ builtin_sub v VList = false.
Proof. exists VInt. split; reflexivity. Qed.
Print Assumptions C52_subclass_refuted.
(** The Python type of an explicitly chosen view is never compared with the annotation. *)
Theorem C52_python_type_refuted : exists v,
  ex_from PythonBuiltin (HClass PyInt) [XView VFloat] READ = Ok v /\ builtin_type (v_class v) <> Some PyInt.
Proof. eexists. split; [reflexivity|discriminate]. Qed.
Print Assumptions C52_python_type_refuted.
(** There is a view for None, but none for its class, which is what [get_type_hints] makes of None;
    and none for bool, although bools are ints. *)
Theorem C52_none_refuted :
  ex_from PythonBuiltin HNone [] READ = Ok (View VNull READ Plain (Scalar Null plain)) /\
  ex_from PythonBuiltin (HClass PyNoneType) [] READ = Err ValueError /\
  ex_from PythonBuiltin (HClass PyBool) [] READ = Err ValueError.
Proof. repeat split; reflexivity. Qed.
Print Assumptions C52_none_refuted.
