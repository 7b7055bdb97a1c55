(** Model of the cached [Model.fingerprint] (src/arti/internal/models.py 154-168), of pydantic's
    [model_copy] as the code uses it ([ArtifactBox._cast_value], src/arti/graphs/__init__.py
    56-78; [Producer.out], src/arti/producers/__init__.py 408-410; [Storage.resolve],
    src/arti/storage/__init__.py 237-246), and of the reads of fingerprints in
    [GraphSnapshot.from_graph] (src/arti/graphs/__init__.py 329-351). Definitions only.

    The instances of a process are numbered in the order they are made. Values inside fields are
    those of Models_Model: what a nested model has cached does not show in the text of the outer
    one, so it is left out. *)
From Coq Require Import ZArith NArith List Ascii String Bool.
From Verif Require Import Base Str Int64_Model Models_Model.
Import ListNotations.
Open Scope list_scope.

(** The [__dict__] of an instance: field values, and what [functools.cached_property] keeps
    under the name of the property. *)
Inductive entry := Field (v : value) | Kept (z : Z).
Record object := Object { o_class : class; o_names : list str; o_dict : list (str * entry) }.
Definition attr : str := $"fingerprint".

(** The instance as pydantic serializes it: entries that are no fields are ignored. *)
Definition fields_of (d : list (str * entry)) : list (str * value) :=
  flat_map (fun ke => match snd ke with Field v => [(fst ke, v)] | Kept _ => [] end) d.
Definition state_of (o : object) : value := VModel (o_class o) (o_names o) (fields_of (o_dict o)).

(** Construction with validated values (124-136). Classes with a field of that name, which
    would hide the property, are not modelled: none in the code has one. *)
Definition create (c : class) (fields : list (str * value)) : result object :=
  if existsb (str_eqb attr) (map fst fields) then Err NotImplementedError
  else bind (instantiate c fields) (fun v =>
    match v with
    | VModel c' names fields' => Ok (Object c' names (map (fun nv => (fst nv, Field (snd nv))) fields'))
    | _ => Err TypeError
    end).

(** [fingerprint] (162-168) through [cached_property]: the entry of [__dict__] if there is one,
    otherwise the computed value, which is kept; an error is not kept. *)
Definition get_fingerprint (farmhash : string -> Z) (o : object) : object * result Z :=
  match dget str_eqb (o_dict o) attr with
  | Some (Kept z) => (o, Ok z)
  | Some (Field _) => (o, Err NotImplementedError)
  | None =>
      match fingerprint farmhash (state_of o) with
      | Ok z => (Object (o_class o) (o_names o) (dset str_eqb (o_dict o) attr (Kept z)), Ok z)
      | Err e => (o, Err e)
      end
  end.

(** [BaseModel.model_copy(update=...)] (pydantic 2.7): a shallow copy of [__dict__], updated
    without validation; private attributes ([_arti_fingerprint_fields_]) are copied. *)
Definition model_copy (o : object) (update : list (str * value)) : object :=
  Object (o_class o) (o_names o)
    (dupdate str_eqb (o_dict o) (map (fun nv => (fst nv, Field (snd nv))) update)).

(** A mutable field value changed in place: the [ArtifactBox] of an open graph
    (src/arti/graphs/__init__.py 98, 110-123). *)
Definition refill (o : object) (name : str) (v : value) : object :=
  Object (o_class o) (o_names o) (dset str_eqb (o_dict o) name (Field v)).

(** * Processes *)

Inductive op :=
| New (c : class) (fields : list (str * value))
| Read (i : nat)
| Copy (i : nat) (update : list (str * value))
| Refill (i : nat) (name : str) (v : value).

Fixpoint replace {A} (l : list A) (i : nat) (x : A) : list A :=
  match l, i with
  | [], _ => []
  | _ :: l', O => x :: l'
  | y :: l', S i' => y :: replace l' i' x
  end.

(** One operation; those that raise change nothing. *)
Definition step (farmhash : string -> Z) (l : list object) (o : op) : list object :=
  match o with
  | New c fields => match create c fields with Ok x => l ++ [x] | Err _ => l end
  | Read i => match nth_error l i with Some x => replace l i (fst (get_fingerprint farmhash x)) | None => l end
  | Copy i u => match nth_error l i with Some x => l ++ [model_copy x u] | None => l end
  | Refill i n v => match nth_error l i with Some x => replace l i (refill x n v) | None => l end
  end.
Definition objects (farmhash : string -> Z) (h : list op) : list object := fold_left (step farmhash) h [].

(** * Snapshot ids *)

(** The nodes [from_graph] visits; a raw artifact with its discovered partitions. *)
Inductive visited :=
| AProducer (o : object)
| AnArtifact (o : object) (key : str) (partitions : list object).

(** [from_graph] (329-351): the fingerprints of the graph, of every node, of the keys and of the
    partitions, combined. *)
Definition from_string (farmhash : string -> Z) (s : str) : result Z :=
  rmap iv (fp_from_string farmhash (string_of_list_ascii s)).
Definition parts_of (farmhash : string -> Z) (v : visited) : list (result Z) :=
  match v with
  | AProducer o => [snd (get_fingerprint farmhash o)]
  | AnArtifact o key ps =>
      snd (get_fingerprint farmhash o) :: from_string farmhash key :: map (fun p => snd (get_fingerprint farmhash p)) ps
  end.
Definition snapshot_id (farmhash : string -> Z) (graph : object) (nodes : list visited) : result Z :=
  rmap (fun l => fold_left Z.lxor (tl l) (hd 0%Z l))
    (mapM (fun r => r) (snd (get_fingerprint farmhash graph) :: flat_map (parts_of farmhash) nodes)).
