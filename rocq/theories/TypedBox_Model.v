(** Model of [TypedBox], src/arti/internal/mappings.py lines 69-257. Definitions only.

    A box is a tree; nested boxes share one status object with their parent
    (line 148), so a single status is kept for the whole tree. Python mutates nested
    boxes in place; here the updated child is written back under its key. Mapping
    arguments are represented by their items at call time. Values of the target type
    are assumed to offer neither subscripting nor [in] nor the private attributes of a
    box, and not to be mappings themselves. *)
From Coq Require Import ZArith List Bool Ascii String.
From Verif Require Import Base Str FrozenDict_Model.
Import ListNotations.

Section TypedBox.
  (** [V]: instances of [__target_type__]; [R]: any other non-mapping Python object or
      value handed in. *)
  Context {V R : Type}.
  (** [_cast_value(key, value)] (133-143) of a box with the given [_namespace]. *)
  Context (cast : list str -> str -> R -> result V).

  Inductive node := Leaf (v : V) | Sub (data : list (str * node)).
  Inductive input := IVal (x : R) | IMap (items : list (str * input)).
  Notation data := (list (str * node)).

  (** mappings.py:69-73 *)
  Inductive status := Open | Closed.

  (** [tail.startswith("_")] *)
  Definition private (k : str) : bool := starts_with ["_"%char] k.

  (** [*head, tail = key.split(".")] (153) *)
  Definition parts (key : str) : list str := split_char "."%char key.
  Definition head_of (key : str) : list str := removelast (parts key).
  Definition tail_of (key : str) : str := last (parts key) [].

  (** [self[part]] for an undotted [part] (170-174): a missing key of an open box is
      created as an empty nested box ([self[key] = {}]). *)
  Definition getitem1 (st : status) (d : data) (p : str) : data * result node :=
    if private p then (d, Err InvalidKeyError)                  (* 158-159 *)
    else match dget str_eqb d p with
         | Some n => (d, Ok n)
         | None => match st with
                   | Open => (dset str_eqb d p (Sub []), Ok (Sub []))
                   | Closed => (d, Err KeyError)
                   end
         end.

  (** [_get_leaf_and_key] (150-160) without short-circuiting, then [k] on the box found.
      Reaching a value instead of a box: subscripting it raises TypeError (157), reading
      [_status]/[_data] of it raises AttributeError (172, 191). *)
  Fixpoint descend {A} (st : status) (ns : list str) (d : data) (heads : list str) (tail : str)
      (k : list str -> data -> data * result A) : data * result A :=
    match heads with
    | [] => if private tail then (d, Err InvalidKeyError) else k ns d
    | p :: rest =>
        match getitem1 st d p with
        | (d1, Err e) => (d1, Err e)
        | (d1, Ok (Sub sd)) =>
            let '(sd', r) := descend st (ns ++ [p]) sd rest tail k in
            (dset str_eqb d1 p (Sub sd'), r)
        | (d1, Ok (Leaf _)) =>
            (d1, Err (match rest with
                      | [] => if private tail then InvalidKeyError else AttributeError
                      | _ => TypeError
                      end))
        end
    end.

  (** [__getitem__] (170-174) *)
  Definition getitem (st : status) (d : data) (key : str) : data * result node :=
    descend st [] d (head_of key) (tail_of key) (fun _ d' => getitem1 st d' (tail_of key)).

  (** [__contains__] (162-168): every head is tested before it is looked up. *)
  Fixpoint contains_in (st : status) (d : data) (heads : list str) (tail : str)
      : data * result bool :=
    match heads with
    | [] => if private tail then (d, Err InvalidKeyError) else (d, Ok (dmem str_eqb d tail))
    | p :: rest =>
        if private p then (d, Err InvalidKeyError)              (* part not in self: 155, 158 *)
        else if negb (dmem str_eqb d p) then (d, Ok false)      (* 155-156, 168 *)
        else match getitem1 st d p with                         (* 157 *)
             | (d1, Err e) => (d1, Err e)
             | (d1, Ok (Sub sd)) =>
                 let '(sd', r) := contains_in st sd rest tail in
                 (dset str_eqb d1 p (Sub sd'), r)
             | (d1, Ok (Leaf _)) =>
                 (d1, Err (match rest with
                           | [] => if private tail then InvalidKeyError else AttributeError
                           | _ => TypeError
                           end))
             end
    end.
  Definition contains (st : status) (d : data) (key : str) : data * result bool :=
    contains_in st d (head_of key) (tail_of key).

  (** [__setitem__] (189-201) with [_cast] (145-148) and the loop of [__init__]
      (128-131); [ns] is the [_namespace] of the box [d]. *)
  Fixpoint setitem (st : status) (i : input) (ns : list str) (d : data) (key : str)
      : data * result unit :=
    let tail := tail_of key in
    descend st ns d (head_of key) tail (fun ns' d' =>
      match st with
      | Closed => (d', Err ValueError)                          (* 191-192 *)
      | Open =>
          let fill :=
            fix fill (items : list (str * input)) (sd : data) : data * result unit :=
              match items with
              | [] => (sd, Ok tt)
              | (k, v) :: rest =>
                  match setitem st v (ns' ++ [tail]) sd k with
                  | (sd', Ok _) => fill rest sd'
                  | (sd', Err e) => (sd', Err e)
                  end
              end in
          match dget str_eqb d' tail with
          | Some existing =>                                    (* 193-200 *)
              match i, existing with
              | IMap items, Sub sd =>
                  let '(sd', r) := fill items sd in (dset str_eqb d' tail (Sub sd'), r)
              | _, _ => (d', Err ValueError)
              end
          | None =>                                             (* 201 *)
              match i with
              | IVal x => match cast ns' tail x with
                          | Ok v => (dset str_eqb d' tail (Leaf v), Ok tt)
                          | Err e => (d', Err e)
                          end
              | IMap items => match fill items [] with
                              | (sd', Ok _) => (dset str_eqb d' tail (Sub sd'), Ok tt)
                              | (_, Err e) => (d', Err e)
                              end
              end
          end
      end).

  (** The same loop at top level: [fill] over a box with namespace [ns]. *)
  Definition fill (st : status) (ns : list str) : list (str * input) -> data -> data * result unit :=
    fix fill (items : list (str * input)) (sd : data) : data * result unit :=
      match items with
      | [] => (sd, Ok tt)
      | (k, v) :: rest =>
          match setitem st v ns sd k with
          | (sd', Ok _) => fill rest sd'
          | (sd', Err e) => (sd', Err e)
          end
      end.

  (** [TypedBox(arg)] (113-131): a new open box; [dict(arg)] keeps the last of equal keys. *)
  Definition box_new (items : list (str * input)) : result data :=
    match fill Open [] (dict_of str_eqb items) [] with
    | (d, Ok _) => Ok d
    | (_, Err e) => Err e
    end.

  (** [walk] (233-240) *)
  Fixpoint walk_node (root : list str) (n : node) : list (str * V) :=
    match n with
    | Leaf v => [(join ["."%char] root, v)]
    | Sub d => (fix go (d : data) : list (str * V) :=
                  match d with
                  | [] => []
                  | (k, n') :: rest => walk_node (root ++ [k]) n' ++ go rest
                  end) d
    end.
  Definition walk (d : data) : list (str * V) := walk_node [] (Sub d).

  (** [__hash__] (224-231): [hash(frozenset(items))], nested boxes hashed the same way.
      [vhash] is the hash of a value ([None] when unhashable), [phash] combines the hash
      of a key and of its value. *)
  Section Hash.
    Context (vhash : V -> option Z) (phash : str -> Z -> Z) (shuffle : Z -> Z) (finish : nat -> Z -> Z).
    Fixpoint hash_node (n : node) : option Z :=
      match n with
      | Leaf v => vhash v
      | Sub d =>
          match (fix go (d : data) : option Z :=
                   match d with
                   | [] => Some 0%Z
                   | (k, n') :: rest =>
                       match hash_node n', go rest with
                       | Some h, Some acc => Some (Z.lxor (shuffle (phash k h)) acc)
                       | _, _ => None
                       end
                   end) d with
          | Some h => Some (finish (List.length d) h)
          | None => None
          end
      end.
    Definition box_hash (st : status) (d : data) : result Z :=
      match st with
      | Open => Err ValueError
      | Closed => match hash_node (Sub d) with Some h => Ok h | None => Err TypeError end
      end.
  End Hash.

  (** [Mapping.__eq__]: [dict(self.items()) == dict(other.items())]; a box never equals a
      value. *)
  Section Eq.
    Context (veqb : V -> V -> bool).
    Fixpoint node_eqb (a b : node) : bool :=
      match a, b with
      | Leaf v, Leaf w => veqb v w
      | Sub d, Sub d' =>
          (List.length d =? List.length d')%nat &&
          (fix go (d : data) : bool :=
             match d with
             | [] => true
             | (k, n) :: rest =>
                 match dget str_eqb d' k with
                 | Some n' => node_eqb n n'
                 | None => false
                 end && go rest
             end) d
      | _, _ => false
      end.
  End Eq.

  (** Operations on the box or on a nested box already obtained from it; [h] is the list
      of keys leading to that nested box. *)
  Fixpoint at_handle {A} (ns : list str) (d : data) (h : list str)
      (f : list str -> data -> data * result A) : option (data * result A) :=
    match h with
    | [] => Some (f ns d)
    | p :: rest =>
        match dget str_eqb d p with
        | Some (Sub sd) =>
            match at_handle (ns ++ [p]) sd rest f with
            | Some (sd', r) => Some (dset str_eqb d p (Sub sd'), r)
            | None => None
            end
        | _ => None
        end
    end.

  Inductive op :=
  | OSet (key : str) (value : input)          (* box[key] = value *)
  | OSetAttr (key : str) (value : input)      (* box.key = value, setattr *)
  | OGet (key : str)                          (* box[key] *)
  | OGetAttr (key : str)                      (* box.key, getattr, for names that are not class attributes *)
  | OContains (key : str)                     (* key in box *)
  | OWalk.                                    (* list(box.walk()) *)
  Inductive out := Done | Got (n : node) | Answer (b : bool) | Walked (l : list (str * V)).

  (** One operation on a box with namespace [ns]. Attribute access (176-187, 203-210):
      names starting with an underscore raise (the existing private attributes excepted,
      which are not modelled), a KeyError becomes an AttributeError. *)
  Definition run_op (st : status) (o : op) (ns : list str) (d : data) : data * result out :=
    match o with
    | OSet key i => let '(d', r) := setitem st i ns d key in (d', rmap (fun _ => Done) r)
    | OSetAttr key i =>
        if private key then (d, Err InvalidKeyError)
        else let '(d', r) := setitem st i ns d key in (d', rmap (fun _ => Done) r)
    | OGet key => let '(d', r) := getitem st d key in (d', rmap Got r)
    | OGetAttr key =>
        if private key then (d, Err InvalidKeyError)
        else let '(d', r) := getitem st d key in
             (d', match r with Ok n => Ok (Got n) | Err KeyError => Err AttributeError | Err e => Err e end)
    | OContains key => let '(d', r) := contains st d key in (d', rmap Answer r)
    | OWalk => (d, Ok (Walked (walk d)))
    end.

  (** The whole object: its status and contents; [ESetStatus] is what Graph does to its
      artifact box (graphs/__init__.py, [_toggle]/[__enter__]/[__exit__]). *)
  Record state := { st_status : status; st_data : data }.
  Inductive event := EOp (handle : list str) (o : op) | ESetStatus (st : status).

  Definition step (s : state) (e : event) : state * option (result out) :=
    match e with
    | ESetStatus st => ({| st_status := st; st_data := st_data s |}, None)
    | EOp h o =>
        match at_handle [] (st_data s) h (run_op (st_status s) o) with
        | Some (d, r) => ({| st_status := st_status s; st_data := d |}, Some r)
        | None => (s, None)                    (* there is no such nested box *)
        end
    end.
  Fixpoint run (s : state) (es : list event) : state :=
    match es with [] => s | e :: rest => run (fst (step s e)) rest end.
End TypedBox.
Arguments node : clear implicits.
Arguments input : clear implicits.
Arguments op : clear implicits.
Arguments out : clear implicits.
Arguments state : clear implicits.
Arguments event : clear implicits.
