(** Model of the construction of an [Artifact]: src/arti/artifacts/__init__.py lines 37-78,
    [get_field_default] (src/arti/internal/models.py 202-210), [Format._visit_type] and
    [Format.get_default] (src/arti/formats/__init__.py 23-32), [Storage._visit_type] and
    [Storage._visit_format] (src/arti/storage/__init__.py 124-141). Definitions only.

    What pydantic does is modelled too: the fields are validated in their order, defaults like
    values given ([validate_default=True], models.py 85); a validator that raises a ValueError or
    an AssertionError only makes its field fail, the failures being reported together in a
    ValidationError (a ValueError); a failed field is missing from [info.data]; anything else a
    validator raises is passed on at once. [producer_output] is left at None. Classes are given by
    their bodies, one base class each; abstract ones cannot be instantiated anyway. *)
From Coq Require Import ZArith List Ascii String Bool.
From Verif Require Import Base Str Partitions_Model Format_Model Storage_Model Types_Model PyTypes_Model Producers_Model
  Placement_Model.
Import ListNotations.
Open Scope list_scope.

(** A field as declared by a class: the instances its annotation admits, among those of the
    annotation in [Artifact], and its default. *)
Record declared (X D : Type) := Declared { admits : X -> bool; default : option D }.
Arguments Declared {X D}. Arguments admits {X D}. Arguments default {X D}.
(** The nearest declaration counts. *)
Fixpoint nearest {B X D} (field : B -> option (declared X D)) (base : declared X D) (bodies : list B) : declared X D :=
  match bodies with
  | [] => base
  | b :: bodies => match field b with Some d => d | None => nearest field base bodies end
  end.

(** The argument for a field: [Wrong] is no instance of the class [Artifact] asks for. *)
Inductive argument (X : Type) := Absent | Wrong | Given (x : X).
Arguments Absent {X}. Arguments Wrong {X}. Arguments Given {X}.
(** The argument for annotations or statistics; [None] among the items is an instance of another
    class. *)
Inductive arguments (X : Type) := NoItems | NotIterable | Items (l : list (option X)).
Arguments NoItems {X}. Arguments NotIterable {X}. Arguments Items {X}.

(** What becomes of a field. *)
Inductive outcome (X : Type) := Valid (x : X) | Failed | Raised (e : exn).
Arguments Valid {X}. Arguments Failed {X}. Arguments Raised {X}.
Definition collected (e : exn) : bool := match e with ValueError | CycleError | AssertionError => true | _ => false end.
Definition outcome_of {X} (r : result X) : outcome X :=
  match r with Ok x => Valid x | Err e => if collected e then Failed else Raised e end.
Definition data {X} (o : outcome X) : option X := match o with Valid x => Some x | _ => None end.
Definition passed_on {X} (o : outcome X) : option exn := match o with Raised e => Some e | _ => None end.

(** A field with a validator run on the instance (mode "after"). *)
Definition validate {X} (d : declared X X) (arg : argument X) (after : X -> result X) : outcome X :=
  let check x := if admits d x then outcome_of (after x) else Failed in
  match arg with
  | Given x => check x
  | Wrong => Failed
  | Absent => match default d with Some x => check x | None => Failed end
  end.

(** [get_field_default(cls, name, fallback=())] *)
Definition class_default {X} (d : declared X (list X)) : list X := match default d with Some l => l | None => [] end.
(** [_merge_class_defaults] (74-78), then the validation of the items. *)
Definition merge {X} (d : declared X (list X)) (value : list (option X)) : list (option X) :=
  map Some (class_default d) ++ value.
Fixpoint check_items {X} (ok : X -> bool) (l : list (option X)) : outcome (list X) :=
  match l with
  | [] => Valid []
  | i :: l => match i, check_items ok l with
              | Some x, Valid l => if ok x then Valid (x :: l) else Failed
              | _, _ => Failed
              end
  end.
Definition validate_items {X} (d : declared X (list X)) (arg : arguments X) : outcome (list X) :=
  let merged value := check_items (admits d) (merge d value) in
  match arg with
  | Items l => merged l
  | NotIterable => Raised TypeError                                       (* chain(..., value) *)
  | NoItems => match default d with Some l => merged (map Some l) | None => Failed end
  end.

Section Artifacts.
  Context {T F S N M : Type}.
  (** [Format._visit_type], [Storage._visit_type] and [Storage._visit_format]. *)
  Context (format_visit : F -> T -> result F).
  Context (storage_visit_type : S -> T -> result S) (storage_visit_format : S -> F -> result S).

  Record body := Body { b_type : option (declared T T); b_format : option (declared F F); b_storage : option (declared S S);
    b_annotations : option (declared N (list N)); b_statistics : option (declared M (list M)) }.
  Record instance := { i_type : T; i_format : F; i_storage : S; i_annotations : list N; i_statistics : list M }.
  (** The arguments; [k_unknown]: there are others, too. *)
  Record keywords := { k_type : argument T; k_format : argument F; k_storage : argument S;
    k_annotations : arguments N; k_statistics : arguments M; k_unknown : bool }.

  (** The fields of [Artifact] itself (37-42), given the default format and storage. *)
  Definition anything {X} (_ : X) : bool := true.
  Definition type_field (bodies : list body) : declared T T := nearest b_type (Declared anything None) bodies.
  Definition format_field (f : F) (bodies : list body) : declared F F := nearest b_format (Declared anything (Some f)) bodies.
  Definition storage_field (s : S) (bodies : list body) : declared S S := nearest b_storage (Declared anything (Some s)) bodies.
  Definition annotations_field (bodies : list body) : declared N (list N) := nearest b_annotations (Declared anything (Some [])) bodies.
  Definition statistics_field (bodies : list body) : declared M (list M) := nearest b_statistics (Declared anything (Some [])) bodies.

  (** [_validate_format] (58-63), [_validate_storage] (65-72) *)
  Definition validate_format (t : option T) (f : F) : result F :=
    match t with Some t => format_visit f t | None => Ok f end.
  Definition validate_storage (t : option T) (f : option F) (s : S) : result S :=
    bind (match t with Some t => storage_visit_type s t | None => Ok s end) (fun s =>
    match f with Some f => storage_visit_format s f | None => Ok s end).

  Definition first_of (es : list (option exn)) : option exn :=
    fold_right (fun e rest => match e with Some e => Some e | None => rest end) None es.
  Definition construct (f0 : F) (s0 : S) (bodies : list body) (k : keywords) : result instance :=
    let t := validate (type_field bodies) (k_type k) Ok in
    let f := validate (format_field f0 bodies) (k_format k) (validate_format (data t)) in
    let s := validate (storage_field s0 bodies) (k_storage k) (validate_storage (data t) (data f)) in
    let n := validate_items (annotations_field bodies) (k_annotations k) in
    let m := validate_items (statistics_field bodies) (k_statistics k) in
    match first_of [passed_on t; passed_on f; passed_on s; passed_on n; passed_on m] with
    | Some e => Err e
    | None =>
        match data t, data f, data s, data n, data m, k_unknown k with
        | Some t, Some f, Some s, Some n, Some m, false =>
            Ok {| i_type := t; i_format := f; i_storage := s; i_annotations := n; i_statistics := m |}
        | _, _, _, _, _, _ => Err ValueError
        end
    end.
End Artifacts.
Arguments body : clear implicits.
Arguments instance : clear implicits.
Arguments keywords : clear implicits.

(** The formats JSON and Pickle (formats/json.py, formats/pickle.py): their extension; both have
    the type system of Python. *)
Definition python_format := str.
Definition python_format_visit (depth : nat) (f : python_format) (t : ty) : result python_format :=
  rmap (fun _ => f) (to_hint depth t).
(** [Storage._visit_type] from the type on (storage/__init__.py 127). *)
Definition visit_artifact_type (other : cvalue -> str -> result str) (s : storage) (t : ty) : result storage :=
  bind (Producers_Model.key_types t) (visit_type other s).
Definition json_format : python_format := $".json".
(** [StringLiteral()] (storage/literal.py 26-30) *)
Definition string_literal : storage :=
  {| s_fields := [($"id", Some default_template); ($"value", None)]; s_key_types := None |}.
Definition construct_artifact {N M} (other : cvalue -> str -> result str) (depth : nat) :
    list (body ty python_format storage N M) -> keywords ty python_format storage N M -> result (instance ty python_format storage N M) :=
  construct (python_format_visit depth) (visit_artifact_type other) (visit_format other) json_format string_literal.
