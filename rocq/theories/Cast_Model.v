(** Model of [get_annotation_from_value] (src/arti/internal/type_hints.py lines 143-163) and of
    [Artifact.cast] (src/arti/artifacts/__init__.py lines 80-116). Definitions only. *)
From Coq Require Import ZArith List Ascii String Bool.
From Verif Require Import Base Str Numerals_Model Hints_Model Types_Model PyTypes_Model.
Import ListNotations.
Open Scope list_scope.

(** Python values: integers (and booleans), tuples, lists and sets, dicts, and any other object,
    each of a class of its kind. The items of a set are listed as it iterates. *)
Inductive value :=
| VInt (c : pyclass) (z : Z)
| VSeq (c : pyclass) (items : list value)
| VDict (c : pyclass) (items : list (value * value))
| VObj (c : pyclass) (text : str).
Definition type_of (v : value) : pyclass :=
  match v with VInt c _ | VSeq c _ | VDict c _ | VObj c _ => c end.
Definition isinstance (v : value) (c : pyclass) : bool := issub (type_of v) c.
Definition items_of (v : value) : list value := match v with VSeq _ l => l | _ => [] end.
Definition pairs_of (v : value) : list (value * value) := match v with VDict _ l => l | _ => [] end.

Definition annotation_of (v : value) : result phint :=
  if isinstance v PyNoneType then Ok HNone                                           (* 144-145 *)
  else if existsb (isinstance v) [PyBool; PyBytes; PyDate; PyDatetime; PyFloat; PyInt; PyStr]
  then Ok (HClass (type_of v))                                                       (* 146-147 *)
  else
    let otherwise :=                                                                 (* 155-163 *)
      if isinstance v PyDict then
        match pairs_of v with
        | [] => Err StopIteration
        | (k, x) :: _ =>
            if forallb (fun kx => isinstance (fst kx) (type_of k) && isinstance (snd kx) (type_of x)) (pairs_of v)
            then Ok (HAlias PyDict [HClass (type_of k); HClass (type_of x)])
            else Err NotImplementedError
        end
      else Err NotImplementedError in
    if existsb (isinstance v) [PyTuple; PyList; PySet; PyFrozenset] then             (* 148-154 *)
      match items_of v with
      | [] => Err ValueError
      | first :: tail =>
          if forallb (fun x => isinstance x (type_of first)) tail
          then if isinstance v PyTuple then Ok (HAlias PyTuple [HClass (type_of first); HEllipsis])
               else Ok (HAlias (type_of v) [HClass (type_of first)])
          else otherwise
      end
    else otherwise.

(** What [json.dumps] accepts, and what [json.loads] makes of its text: tuples become lists,
    subclasses are lost, the keys of dicts become strings. *)
Fixpoint jsonable (v : value) : bool :=
  match v with
  | VInt _ _ => true
  | VSeq c items => (issub c PyList || issub c PyTuple) && forallb jsonable items
  | VDict _ items => forallb (fun kx => existsb (isinstance (fst kx)) [PyStr; PyInt; PyFloat; PyNoneType] && jsonable (snd kx)) items
  | VObj c _ => existsb (issub c) [PyStr; PyFloat; PyNoneType]
  end.
Section Json.
  (** The text of a key: an integer's digits, "true", "false", "null" or [float.__repr__]. *)
  Context (float_text : str -> str).
  Definition key_text (v : value) : str :=
    match v with
    | VInt c z => if issub c PyBool then (if (z =? 0)%Z then $"false" else $"true") else py_str z
    | VObj c text => if issub c PyNoneType then $"null" else if issub c PyFloat then float_text text else text
    | _ => []
    end.
  Definition base_class (bases : list pyclass) (c : pyclass) : pyclass :=
    match filter (issub c) bases with b :: _ => b | [] => c end.
  (** Equal keys are merged by [loads], the last one counting. *)
  Fixpoint read_back (v : value) : value :=
    match v with
    | VInt c z => VInt (base_class [PyBool; PyInt] c) z
    | VSeq _ items => VSeq PyList (map read_back items)
    | VDict _ items => VDict PyDict (map (fun kx => (VObj PyStr (fst kx), snd kx))
                         (dict_of str_eqb (map (fun kx => (key_text (fst kx), read_back (snd kx))) items)))
    | VObj c text => VObj (base_class [PyStr; PyFloat; PyNoneType] c) text
    end.
End Json.

(** [Artifact.cast] (97-116) of a value that is neither an Artifact nor a Producer: the type of
    the artifact, and the value its literal storage was given (as JSON). *)
Definition cast_type (depth : nat) (v : value) : result ty := bind (annotation_of v) (of_hint depth).
Definition cast (depth : nat) (v : value) : result (ty * value) :=
  bind (cast_type depth v) (fun t => if jsonable v then Ok (t, v) else Err TypeError).
