(** Model of the definition of partition field classes: [PartitionField.__pydantic_init_subclass__],
    [components] and [get_class_for] (src/arti/partitions/__init__.py 21-55) with the part of
    [Model.__pydantic_init_subclass__] on [_abstract_] (src/arti/internal/models.py 88-92) and
    [classproperty] (src/arti/internal/utils.py 25-28). Definitions only.

    Simplified: a class has one base; names of fields and components are only added in subclasses,
    not replaced by something else; fields are well formed for pydantic. *)
From Coq Require Import List Bool.
From Verif Require Import Base Str Utils_Model.
Import ListNotations.
Open Scope list_scope.

Section FieldClass.
  Context {T : Type} (eqb : T -> T -> bool).
  (** Whether [classmethod] passes access on to the property it wraps: it does in Python 3.9 to 3.12
      and no longer does from 3.13 on ("Class methods can no longer wrap other descriptors such as
      property()"). *)
  Variable wraps : bool.

  (** What the body of a class statement sets. *)
  Record body := {
    b_base : nat;                                (* which class is extended *)
    b_abstract : option bool;                    (* [_abstract_] *)
    b_defaults : option (list str);              (* names in [default_components] *)
    b_type : option T;                           (* [matching_type] *)
    b_components : list str                      (* fields and [field_component]s *)
  }.
  (** A class as seen through its attributes, also the inherited ones. *)
  Record class := {
    c_abstract : bool;
    c_defaults : option (list str);
    c_type : option T;
    c_components : list str
  }.
  (** The classes that exist, in the order of their definition, and [PartitionField._by_type_]. *)
  Record state := { classes : list class; by_type : list (T * nat) }.

  (** [PartitionField] itself (21-26). *)
  Definition partition_field : class :=
    {| c_abstract := true; c_defaults := None; c_type := None; c_components := [] |}.
  Definition initial : state := {| classes := [partition_field]; by_type := [] |}.

  (** Lookup of attributes in the class and then in its base; [_abstract_] is False unless the class
      sets it itself (models.py 92). *)
  Definition own {A} (o : option A) (inherited : option A) : option A :=
    match o with Some _ => o | None => inherited end.
  Definition inherit (base : class) (b : body) : class :=
    {| c_abstract := match b_abstract b with Some a => a | None => false end;
       c_defaults := own (b_defaults b) (c_defaults base);
       c_type := own (b_type b) (c_type base);
       c_components := c_components base ++ b_components b |}.

  (** [cls.components] (41-45) as an operand of [-]: without access to the property this is a bound
      method, and [set - method] a TypeError. *)
  Definition components (c : class) : result (list str) :=
    if wraps then Ok (c_components c) else Err TypeError.

  (** [__pydantic_init_subclass__] (28-38) for the class that would be number [n]. *)
  Definition init_subclass (c : class) (n : nat) (reg : list (T * nat)) : result unit * list (T * nat) :=
    if c_abstract c then (Ok tt, reg)
    else match c_defaults c, c_type c with
         | None, _ | _, None => (Err TypeError, reg)
         | Some defaults, Some t =>
             match components c with
             | Err e => (Err e, reg)
             | Ok names =>
                 if forallb (fun d => existsb (str_eqb d) names) defaults
                 then let (r, reg') := register eqb reg t n None in (rmap (fun _ => tt) r, reg')
                 else (Err TypeError, reg)
             end
         end.

  (** A class statement. If it raises, there is no class. *)
  Definition define (s : state) (b : body) : result nat * state :=
    match nth_error (classes s) (b_base b) with
    | None => (Err AttributeError, s)                   (* no such class *)
    | Some base =>
        let c := inherit base b in
        let n := List.length (classes s) in
        match init_subclass c n (by_type s) with
        | (Ok _, reg) => (Ok n, {| classes := classes s ++ [c]; by_type := reg |})
        | (Err e, reg) => (Err e, {| classes := classes s; by_type := reg |})
        end
    end.
  (** Class statements one after the other; whoever imports the modules catches the errors. *)
  Definition defines (s : state) (bs : list body) : state := fold_left (fun s b => snd (define s b)) bs s.

  (** [get_class_for] (53-55), for an instance of the type class [t]. *)
  Definition get_class_for (s : state) (t : T) : result nat :=
    match dget eqb (by_type s) t with Some n => Ok n | None => Err KeyError end.
End FieldClass.
Arguments body : clear implicits.
Arguments class : clear implicits.
Arguments state : clear implicits.
