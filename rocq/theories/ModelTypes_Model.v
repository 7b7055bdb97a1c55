(** Model of src/arti/types/pydantic.py lines 12-51: pydantic models as types. Definitions only.

    The hints are those of PyTypes_Model. A model class is [HModel] with the hints of
    [model_fields]; those have no outer Annotated, which pydantic takes off. An Annotated model,
    which has the attribute [model_fields] too, raises an AttributeError here. *)
From Coq Require Import ZArith List Ascii String Bool.
From Verif Require Import Base Str Hints_Model TypeSystem_Model Types_Model PyTypes_Model.
Import ListNotations.
Open Scope list_scope.

(** [pydantic.BaseModel], and [__name__] of a class. A model without fields may also be given as
    [HClass]. *)
Definition base_model : pyclass := PySub PyObject $"BaseModel".
Definition class_name (c : pyclass) : str := match c with PySub _ n => n | _ => [] end.

(** [subtype.model_copy(update={"name": name})] for the subclasses of [_NamedMixin] (24-26). *)
Definition renamed (name : str) (t : ty) : ty :=
  match t with
  | Enum _ t' items m => Enum name t' items m
  | Collection _ e p c m => Collection name e p c m
  | Struct _ fields m => Struct name fields m
  | t => t
  end.

Section Models.
  (** The names of fields that pydantic refuses: members of BaseModel with the prefix "model_". *)
  Context (reserved : str -> bool).

  (** [create_model(name, **{n: (hint, ...)})] of pydantic 2.7.3 (locked). A hint that is None
      counts as missing, which is an error (PydanticUserError, a TypeError) for public names;
      names with a leading underscore become private attributes of the model, with a warning.
      Refused names raise a NameError ([UserError 1]). Names that are parameters of [create_model]
      itself ([__base__], ...) are treated like other private ones, and the empty Literal, which
      Enum rules out and pydantic refuses, is accepted. *)
  Definition private (name : str) : bool := match name with "_"%char :: _ => true | _ => false end.
  Definition create_model (name : str) (fields : list (str * phint)) : result phint :=
    let public := filter (fun nh => negb (private (fst nh))) fields in
    if existsb (fun nh => match snd nh with HNone => true | _ => false end) public then Err TypeError
    else if existsb (fun nh => reserved (fst nh)) public then Err (UserError 1)
    else Ok (HModel (PySub base_model name) public).

  (** BaseModelAdapter (15-51). *)
  Definition base_model_adapter : py_adapter :=
    {| a_key := $"BaseModelAdapter"; a_priority := 0;
       matches_artigraph := fun t _ => Ok (is_struct t);
       adapt_to_system := fun conv t h =>
         match t with
         | Struct name fields _ => bind (convert_fields conv fields h) (create_model name)
         | _ => Err AssertionError
         end;
       matches_system := fun x _ => py_issubclass x (HClass base_model);
       adapt_to_artigraph := fun conv x h =>
         match x with
         | HModel c fields =>
             rmap (fun fs => Struct (class_name c) fs plain)
               (mapM (fun nf => rmap (fun t => (fst nf, renamed (fst nf) t)) (conv (snd nf) h)) fields)
         | HClass c => Ok (Struct (class_name c) [] plain)
         | _ => Err AttributeError
         end |}.

  (** [pydantic_type_system] (12): one adapter, and those of the Python type system. *)
  Definition model_system (hint_of : ty -> result phint) : system ty phint unit :=
    TypeSystem [(a_key base_model_adapter, base_model_adapter)] [system_of (python_adapters hint_of)].
  Definition to_model (depth : nat) (t : ty) : result phint :=
    to_system depth (model_system (fun _ => Err RecursionError)) t tt.
  Definition of_model (depth : nat) (h : phint) : result ty :=
    to_artigraph depth (model_system (to_hint depth)) h tt.
End Models.
