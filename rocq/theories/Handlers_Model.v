(** Model of which reader or writer is used: [_multipledispatch.__missing__] and [lookup]
    (src/arti/internal/dispatch.py 35-56), the lookups of [View.check_artifact_compatibility]
    (src/arti/views/__init__.py 131-145), the calls in [io.read] and [io.write]
    (src/arti/io/__init__.py 24-82) and the handlers registered by the modules in src/arti/io.
    Definitions only.

    The choice itself is that of the multimethod library: of the registered signatures that accept
    the classes of the arguments, those that no other one of them refines; if that is only one, it
    is taken, otherwise there is a DispatchError, which is a TypeError. Simplifications: some
    versions of the library break such ties by the distances in the MRO; hints are [Any], classes
    and aliases of one class; the handlers have signatures of their own (registering one again
    would replace it). *)
From Coq Require Import ZArith List Ascii String Bool.
From Verif Require Import Base Str Hints_Model Dispatch_Model Types_Model Views_Model.
Import ListNotations.
Open Scope list_scope.

Section Handlers.
  Context {C : Type} (c_eqb issub : C -> C -> bool) (list_class tuple_class : C).
  Notation hint := (hint C).

  (** [issubclass] on what multimethod's [subtype] makes of hints: [Any] is [object]. *)
  Definition below (a h : hint) : bool :=
    match a, h with
    | _, HAny => true
    | HClass a, HClass b => issub a b
    | HAlias o _, HClass b => issub o b
    | HAlias o [HClass a], HAlias p [HClass b] => issub o p && issub a b
    | _, _ => false
    end.
  Fixpoint accepts (key args : list hint) : bool :=
    match key, args with
    | [], [] => true
    | h :: key', a :: args' => below a h && accepts key' args'
    | _, _ => false
    end.
  (** [a] refines [b], but not the other way round. *)
  Definition refines_strictly (a b : list hint) : bool := accepts b a && negb (accepts a b).

  Section Tables.
  Context {H : Type}.
  Definition table := list (list hint * H).
  Definition applicable (t : table) (args : list hint) : table := filter (fun kh => accepts (fst kh) args) t.
  Definition most_specific (t : table) : table :=
    filter (fun kh => negb (existsb (fun kh' => refines_strictly (fst kh') (fst kh)) t)) t.
  Definition resolve (t : table) (args : list hint) : result H :=
    match most_specific (applicable t args) with
    | [(_, h)] => Ok h
    | _ => Err TypeError
    end.

  (** [self[args]]: what is there for just these classes, else [__missing__] (35-38), which first
      imports the modules with further handlers ([_discover], io/__init__.py 24-27). *)
  Definition hint_eqb (a b : hint) : bool :=
    match a, b with
    | HAny, HAny => true
    | HClass a, HClass b => c_eqb a b
    | HAlias o [HClass a], HAlias p [HClass b] => c_eqb o p && c_eqb a b
    | _, _ => false
    end.
  Fixpoint key_eqb (a b : list hint) : bool :=
    match a, b with
    | [], [] => true
    | x :: a', y :: b' => hint_eqb x y && key_eqb a' b'
    | _, _ => false
    end.
  Definition find_handler (t submodules : table) (args : list hint) : result H :=
    match dget key_eqb t args with
    | Some h => Ok h
    | None => resolve (t ++ submodules) args
    end.

  (** Calling the function: the one that defines the spec raises NotImplementedError. *)
  Definition call (abstract : H -> bool) (t : table) (args : list hint) : result H :=
    bind (resolve t args) (fun h => if abstract h then Err NotImplementedError else Ok h).

  (** The classes of an artifact's type and format and of its storage's partitions. *)
  Record classes := Classes { type_class : C; format_class : C; partition_class : C }.
  (** What is looked up when a view is compared with an artifact (views/__init__.py 136-151) ... *)
  Definition checked_read (k : classes) (view : C) : list hint :=
    [HClass (type_class k); HClass (format_class k); HAlias list_class [HClass (partition_class k)]; HClass view].
  Definition checked_write (python_type : C) (k : classes) (view : C) : list hint :=
    [HClass python_type; HClass (type_class k); HClass (format_class k); HClass (partition_class k); HClass view].
  (** ... and what is called: with a tuple of partitions (io/__init__.py 57-62), and with the data
      (line 79). *)
  Definition called_read (k : classes) (view : C) : list hint :=
    [HClass (type_class k); HClass (format_class k); HAlias tuple_class [HClass (partition_class k)]; HClass view].
  Definition called_write (data : C) (k : classes) (view : C) : list hint :=
    [HClass data; HClass (type_class k); HClass (format_class k); HClass (partition_class k); HClass view].
  Definition can_read (abstract : H -> bool) (readers : table) (k : classes) (view : C) : result unit :=
    rmap (fun _ => tt) (lookup abstract (resolve readers) (checked_read k view)).
  Definition can_write (abstract : H -> bool) (writers : table) (python_type : C -> C) (k : classes) (view : C) : result unit :=
    rmap (fun _ => tt) (lookup abstract (resolve writers) (checked_write (python_type view) k view)).
  End Tables.
End Handlers.
Arguments table C H : clear implicits.
Arguments classes C : clear implicits.
Arguments Classes {C}.

(** * The handlers that come with the package *)

(** The classes they are about, and any subclasses of these a program may define (with one base each). *)
Inductive known := KObject | KSequence | KList | KTuple | KType | KFormat | KJSON | KPickle | KPartition | KLocal | KGCS | KLiteral
                 | KView | KBuiltin.
Definition known_eqb (a b : known) : bool :=
  match a, b with
  | KObject, KObject | KSequence, KSequence | KList, KList | KTuple, KTuple | KType, KType | KFormat, KFormat | KJSON, KJSON
  | KPickle, KPickle | KPartition, KPartition | KLocal, KLocal | KGCS, KGCS | KLiteral, KLiteral | KView, KView | KBuiltin, KBuiltin => true
  | _, _ => false
  end.
Definition known_base (k : known) : known :=
  match k with
  | KJSON | KPickle => KFormat
  | KLocal | KGCS | KLiteral => KPartition
  | KBuiltin => KView
  | KList | KTuple => KSequence
  | _ => KObject
  end.
Inductive cls := Known (k : known) | Sub (base : cls) (name : str).
Fixpoint cls_eqb (a b : cls) : bool :=
  match a, b with
  | Known k, Known l => known_eqb k l
  | Sub a n, Sub b m => cls_eqb a b && str_eqb n m
  | _, _ => false
  end.
Fixpoint subclass (a b : cls) : bool :=
  cls_eqb a b ||
  match a with
  | Known k => cls_eqb (Known (known_base k)) b || cls_eqb (Known KObject) b
  | Sub base _ => subclass base b
  end.

(** The handlers: that of the spec and those in io/{json,pickle}_{localfile,gcsfile,stringliteral}_python.py
    with the hints they are declared with. *)
Inductive handler := Spec | Handler (format place : known).
Definition is_spec (h : handler) : bool := match h with Spec => true | _ => false end.
Definition reader_key (f p v : known) : list (hint cls) :=
  [HClass (Known KType); HClass (Known f); HAlias (Known KSequence) [HClass (Known p)]; HClass (Known v)].
Definition writer_key (f p v : known) : list (hint cls) :=
  [HAny; HClass (Known KType); HClass (Known f); HClass (Known p); HClass (Known v)].
Definition provided : list (known * known) :=
  [(KJSON, KGCS); (KJSON, KLocal); (KJSON, KLiteral); (KPickle, KGCS); (KPickle, KLocal)].
Definition builtin_readers : table cls handler :=
  (reader_key KFormat KPartition KView, Spec) :: map (fun fp => (reader_key (fst fp) (snd fp) KBuiltin, Handler (fst fp) (snd fp))) provided.
Definition builtin_writers : table cls handler :=
  (writer_key KFormat KPartition KView, Spec) :: map (fun fp => (writer_key (fst fp) (snd fp) KBuiltin, Handler (fst fp) (snd fp))) provided.
