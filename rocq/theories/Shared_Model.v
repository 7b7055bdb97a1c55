(** Model of copying: [NoCopyMixin] and [NoCopyDict] (src/arti/internal/utils.py 248-263), the
    container of [MemoryBackend] (src/arti/backends/memory.py 33-60, 133-138) and the adapters of
    [TypeSystem] (src/arti/types/__init__.py 347-354), with [copy.copy] and [copy.deepcopy] of the
    standard library and pydantic's [__copy__] and [__deepcopy__] as they are documented.
    Definitions only.

    Objects are cells of a heap, known by their place. Keys, names of attributes and whatever else
    an object has besides references is the number [c_data]. Simplified: tuples (as
    [TypeSystem.extends]) count as instances, although [deepcopy] returns the same tuple if nothing
    in it changed. *)
From Coq Require Import List Arith ZArith.
From Verif Require Import Base.
Import ListNotations.
Open Scope list_scope.

(** Values that cannot change (text, numbers, classes), lists and dictionaries, instances of
    pydantic models (with their private attributes), and instances of [NoCopyMixin]. *)
Inductive kind := Atomic | Container | Instance | NoCopy.
Record cell := Cell { c_kind : kind; c_items : list nat; c_data : Z }.
Definition heap := list cell.

Fixpoint put (h : heap) (l : nat) (c : cell) : heap :=
  match h, l with
  | [], _ => []
  | _ :: h', O => c :: h'
  | d :: h', S l' => d :: put h' l' c
  end.

(** Changing an object: its own data, or what it refers to. *)
Definition assign (h : heap) (l : nat) (items : list nat) (data : Z) : heap :=
  match nth_error h l with Some c => put h l (Cell (c_kind c) items data) | None => h end.

(** [copy.copy], [model_copy()]: a new object that refers to the same ones; atoms and instances of
    NoCopyMixin ([__copy__], 255-256) are returned. *)
Definition shallow (h : heap) (l : nat) : option (heap * nat) :=
  match nth_error h l with
  | None => None
  | Some c => match c_kind c with
              | Atomic | NoCopy => Some (h, l)
              | Container | Instance => Some (h ++ [c], List.length h)
              end
  end.

(** [copy.deepcopy] with its memo. Containers are registered before their items are copied and
    filled one by one; models are made from the copies of their attributes; atoms and instances of
    NoCopyMixin ([__deepcopy__], 258-259) are returned. [None]: the recursion got too deep.
    Simplified: the dictionary of the attributes of a model is no object of its own, so copies of
    models that contain themselves are not described (also [None]); containers may contain
    themselves. *)
Definition memo := list (nat * nat).
Definition append (h : heap) (l y : nat) : heap :=
  match nth_error h l with Some c => put h l (Cell (c_kind c) (c_items c ++ [y]) (c_data c)) | None => h end.
Fixpoint deep (fuel : nat) (l : nat) (h : heap) (m : memo) : option (heap * memo * nat) :=
  match fuel with
  | O => None
  | S fuel' =>
      match dget Nat.eqb m l with
      | Some y => Some (h, m, y)
      | None =>
          match nth_error h l with
          | None => None
          | Some c =>
              match c_kind c with
              | Atomic | NoCopy => Some (h, m, l)
              | Container =>
                  let new := List.length h in
                  (fix fill (items : list nat) (h : heap) (m : memo) : option (heap * memo * nat) :=
                     match items with
                     | [] => Some (h, m, new)
                     | i :: items' =>
                         match deep fuel' i h m with
                         | Some (h', m', y) => fill items' (append h' new y) m'
                         | None => None
                         end
                     end) (c_items c) (h ++ [Cell Container [] (c_data c)]) ((l, new) :: m)
              | Instance =>
                  (fix each (items : list nat) (ys : list nat) (h : heap) (m : memo) : option (heap * memo * nat) :=
                     match items with
                     | [] => let new := List.length h in
                             match dget Nat.eqb m l with
                             | Some _ => None
                             | None => Some (h ++ [Cell Instance ys (c_data c)], (l, new) :: m, new)
                             end
                     | i :: items' =>
                         match deep fuel' i h m with
                         | Some (h', m', y) => each items' (ys ++ [y]) h' m'
                         | None => None
                         end
                     end) (c_items c) [] h m
              end
          end
      end
  end.
Definition deepcopy (fuel : nat) (h : heap) (l : nat) : option (heap * nat) :=
  match deep fuel l h [] with Some (h', _, y) => Some (h', y) | None => None end.
