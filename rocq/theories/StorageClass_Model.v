(** Model of src/arti/storage/__init__.py lines 24-41, 65-116 and 193-222: how storage classes and
    the classes of their partitions are defined, and how a storage makes a partition. Definitions
    only.

    Pydantic's part follows its documented behaviour (pydantic 2.7.3): the fields of a class are
    those of its bases, the leftmost base first, and its own; a generic class that is subscripted
    gets a new subclass, for which [__pydantic_init_subclass__] runs before [__class_getitem__]
    goes on; unknown, missing and unsuitable arguments are a ValidationError, which is a ValueError.
    Simplifications: class attributes are looked up base by base from the left rather than along
    the MRO; config, private attributes and methods are left out, apart from whether the abstract
    methods are implemented; a generic class is not subscripted with its own type variable (which
    would change the class itself). *)
From Coq Require Import ZArith List Ascii String Bool.
From Verif Require Import Base Str FrozenDict_Model Partitions_Model Storage_Model.
Import ListNotations.
Open Scope list_scope.

Section Classes.
  (** Hints as [FieldInfo.annotation] and their equality, and what pydantic keeps apart from them
      as [FieldInfo.metadata] (models.py 96-97): constraints, validators. *)
  Context {A M : Type} (ann_eqb : A -> A -> bool).

  Record finfo := Field { f_ann : A; f_meta : M; f_required : bool }.
  (** A model class: [model_fields], [_abstract_] (models.py 90-92), and whether it has abstract
      methods. *)
  Record mclass := Model { m_fields : list (str * finfo); m_abstract : bool; m_missing : bool }.
  (** What a class body says: its fields, [_abstract_] and whether it has all methods. *)
  Record body := Body { b_fields : list (str * finfo); b_abstract : option bool; b_implements : bool }.

  (** [class C( *bases ): body] for a Model (models.py 87-92) *)
  Definition define_model (bases : list mclass) (b : body) : mclass :=
    {| m_fields := dupdate str_eqb (fold_left (fun d c => dupdate str_eqb d (m_fields c)) (rev bases) []) (b_fields b);
       m_abstract := match b_abstract b with Some a => a | None => false end;
       m_missing := negb (b_implements b) && existsb m_missing bases |}.

  (** The argument of [Storage[...]]: a partition class or a type variable. *)
  Inductive item := ItemClass (p : mclass) | ItemVar.
  (** A storage class: [storage_partition_type], if it has one, and whether it still has type
      parameters. *)
  Record sclass := { c_model : mclass; c_item : option item; c_params : bool }.
  Inductive base := Mixin (m : mclass) | Stores (c : sclass).
  Definition model_of (b : base) : mclass := match b with Mixin m => m | Stores c => c_model c end.
  Definition item_of (b : base) : option item := match b with Mixin _ => None | Stores c => c_item c end.
  Definition params_of (b : base) : bool := match b with Mixin _ => false | Stores c => c_params c end.
  Fixpoint first_item (bs : list base) : option item :=
    match bs with
    | [] => None
    | b :: bs' => match item_of b with Some i => Some i | None => first_item bs' end
    end.

  (** [StoragePartition.model_fields] (24-27); [Storage.model_fields] is empty (65-84). *)
  Definition partition_names : list str := [$"input_fingerprint"; $"partition_key"; $"storage"].
  Definition storage_names : list str := [].
  Definition annotations_but (names : list str) (fields : list (str * finfo)) : list (str * A) :=
    map (fun nf => (fst nf, f_ann (snd nf))) (filter (fun nf => negb (existsb (str_eqb (fst nf)) names)) fields).

  (** [Storage.__pydantic_init_subclass__] (92-116) *)
  Definition init_subclass (m : mclass) (i : option item) : result unit :=
    if m_abstract m then Ok tt else
    match i with
    | None => Ok tt
    | Some ItemVar => Err AttributeError
    | Some (ItemClass p) =>
        if dict_eqb str_eqb ann_eqb (annotations_but storage_names (m_fields m)) (annotations_but partition_names (m_fields p))
        then Ok tt else Err TypeError
    end.

  (** [class C( *bases ): body], where one of the bases is a storage class; [own] is a
      [storage_partition_type] set in the body. *)
  Definition define_storage (bases : list base) (b : body) (own : option item) : result sclass :=
    let m := define_model (map model_of bases) b in
    let i := match own with Some x => Some x | None => first_item bases end in
    rmap (fun _ => {| c_model := m; c_item := i; c_params := existsb params_of bases |}) (init_subclass m i).

  (** [Storage.__class_getitem__] (86-90); classes without type parameters cannot be subscripted. *)
  Definition subscript (c : sclass) (i : item) : result sclass :=
    if c_params c then
      rmap (fun s => {| c_model := {| m_fields := m_fields (c_model s); m_abstract := true; m_missing := m_missing (c_model s) |};
                        c_item := Some i; c_params := match i with ItemVar => true | ItemClass _ => false end |})
        (define_storage [Stores c] (Body [] None false) None)
    else Err TypeError.

  (** [Storage] itself (65-84) *)
  Definition storage_class : sclass :=
    {| c_model := {| m_fields := []; m_abstract := true; m_missing := true |}; c_item := None; c_params := true |}.

  (** * Making partitions *)
  Context (other : cvalue -> str -> result str).
  (** What a partition is made of, whether a value suits a hint and the metadata of a field. *)
  Inductive arg := AFingerprint (fp : option Z) | AKey (key : pkey) | AStorage (st : storage) | AField (v : option str).
  Context (suits : A -> arg -> bool) (holds : M -> arg -> bool).

  (** Calling a model class with keyword arguments (models.py 126-129 and pydantic); an argument
      given twice is a TypeError. *)
  Fixpoint distinct (l : list str) : bool :=
    match l with [] => true | x :: l' => negb (existsb (str_eqb x) l') && distinct l' end.
  Definition call (p : mclass) (kwargs : list (str * arg)) : result unit :=
    if negb (distinct (map fst kwargs)) then Err TypeError
    else if m_abstract p || m_missing p then Err TypeError
    else if forallb (fun nv => match dget str_eqb (m_fields p) (fst nv) with
                               | Some f => suits (f_ann f) (snd nv) && holds (f_meta f) (snd nv)
                               | None => false
                               end) kwargs
            && forallb (fun nf => negb (f_required (snd nf)) || existsb (str_eqb (fst nf)) (map fst kwargs)) (m_fields p)
    then Ok tt else Err ValueError.

  (** [generate_partition] (193-222). [st] is an instance of [c]: a value for each field. *)
  Definition generate (c : sclass) (st : storage) (fp : option Z) (key : pkey) : result partition :=
    bind (get_key_types st) (fun kts =>
    bind (check_key kts key) (fun _ =>
    if Bool.eqb (match fp with None => false | Some _ => true end) (includes_fp st) then
      match c_item c with
      | Some (ItemClass p) =>
          bind (mapM (fun nv => match snd nv with
                                | Some t => rmap (fun t' => (fst nv, Some t')) (generate_path other fp key t)
                                | None => Ok nv
                                end)
                     (filter (fun nv => dmem str_eqb (m_fields p) (fst nv)) (s_fields st))) (fun values =>
          rmap (fun _ => {| p_fp := fp; p_key := key; p_storage := st; p_fields := values |})
            (call p ([($"input_fingerprint", AFingerprint fp); ($"partition_key", AKey key); ($"storage", AStorage st)]
                     ++ map (fun nv => (fst nv, AField (snd nv))) values)))
      | _ => Err AttributeError
      end
    else Err ValueError)).
End Classes.
Arguments finfo : clear implicits.
Arguments mclass : clear implicits.
Arguments body : clear implicits.
Arguments item : clear implicits.
Arguments sclass : clear implicits.
Arguments base : clear implicits.
