(** Which handler should be used. *)
From Coq Require Import ZArith List Ascii String Bool.
From Verif Require Import Base Str Hints_Model Handlers_Model IO_Model.
Import ListNotations.
Open Scope list_scope.

Section Spec.
  Context {C : Type} (issub : C -> C -> bool).
  Notation hint := (hint C).

  (** An argument of a class (or a sequence of one) may be passed for a hint; a hint refines another. *)
  Inductive fits : hint -> hint -> Prop :=
  | fits_any : forall a, fits a HAny
  | fits_class : forall a b, issub a b = true -> fits (HClass a) (HClass b)
  | fits_origin : forall o l b, issub o b = true -> fits (HAlias o l) (HClass b)
  | fits_alias : forall o p a b, issub o p = true -> issub a b = true -> fits (HAlias o [HClass a]) (HAlias p [HClass b]).
  Definition handles (key args : list hint) : Prop := Forall2 fits args key.

  (** The handler that fits and refines all others that do. *)
  Definition chosen {H} (t : list (list hint * H)) (args : list hint) (h : H) : Prop :=
    exists key, In (key, h) t /\ handles key args /\ forall key' h', In (key', h') t -> handles key' args -> handles key' key.

  (** Classes are ordered, hints are Any, classes and aliases of one class, and no two handlers have
      the same hints, or hints that fit each other. *)
  Definition ordered : Prop := (forall c, issub c c = true) /\ (forall a b c, issub a b = true -> issub b c = true -> issub a c = true).
  Inductive simple : hint -> Prop :=
  | simple_any : simple HAny
  | simple_class : forall c, simple (HClass c)
  | simple_alias : forall o c, simple (HAlias o [HClass c]).
  Definition separate {H} (t : list (list hint * H)) : Prop :=
    (forall key h, In (key, h) t -> Forall simple key) /\ NoDup (map fst t) /\
    (forall key h key' h', In (key, h) t -> In (key', h') t -> handles key key' -> handles key' key -> key = key').

  (** No reader tells lists of partitions from tuples, no writer looks at the class of the data. *)
  Definition sequences {H} (list_class tuple_class : C) (t : list (list hint * H)) : Prop :=
    forall key h x, In (key, h) t -> nth_error key 2 = Some x ->
      x = HAny \/ exists o, ((exists l, x = HAlias o l) \/ x = HClass o) /\ issub list_class o = issub tuple_class o.
  Definition any_data {H} (t : list (list hint * H)) : Prop :=
    forall key h x, In (key, h) t -> nth_error key 0 = Some x -> x = HAny.
End Spec.

(** The combinations the package has handlers for. *)
Inductive supported : known -> known -> Prop :=
| json_local : supported KJSON KLocal
| json_gcs : supported KJSON KGCS
| json_literal : supported KJSON KLiteral
| pickle_local : supported KPickle KLocal
| pickle_gcs : supported KPickle KGCS.

(** What the formats, places and views of IO_Model stand for. *)
Definition format_of (f : format) (c : cls) : Prop :=
  match f with
  | JSON => subclass c (Known KJSON) = true
  | Pickle => subclass c (Known KPickle) = true
  | OtherFormat => subclass c (Known KJSON) = false /\ subclass c (Known KPickle) = false
  end.
Definition place_of (p : place) (c : cls) : Prop :=
  match p with
  | LocalPart _ => subclass c (Known KLocal) = true
  | GCSPart _ => subclass c (Known KGCS) = true
  | LiteralPart _ _ => subclass c (Known KLiteral) = true
  end.
Definition view_of (v : view) (c : cls) : Prop :=
  match v with PythonBuiltin => subclass c (Known KBuiltin) = true | OtherView => subclass c (Known KBuiltin) = false end.
