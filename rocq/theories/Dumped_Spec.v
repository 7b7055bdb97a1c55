(** What the text that is fingerprinted says, as a JSON document. *)
From Coq Require Import ZArith NArith List Ascii String Bool Sorted.
From Verif Require Import Base Str Models_Model Models_Spec.
From Verif Require Json_Model.
Import ListNotations.
Open Scope list_scope.

(** Values that can exist: the keys of mappings are distinct, models are instances. *)
Inductive sound : value -> Prop :=
| sound_none : sound VNone
| sound_bool : forall b, sound (VBool b)
| sound_int : forall z, sound (VInt z)
| sound_str : forall s, sound (VStr s)
| sound_tuple : forall l, Forall sound l -> sound (VTuple l)
| sound_set : forall l, Forall sound l -> sound (VSet l)
| sound_map : forall l, NoDup (map fst l) -> Forall (fun kv => sound (snd kv)) l -> sound (VMap l)
| sound_model : forall c names l, instance c l (VModel c names l) -> Forall (fun kv => sound (snd kv)) l ->
    sound (VModel c names l).

(** The order of texts: at the first difference the smaller code point, or nothing, comes first. *)
Definition before (a b : str) : Prop :=
  exists p, (exists c r, a = p /\ b = p ++ c :: r) \/
            (exists x a' y b', a = p ++ x :: a' /\ b = p ++ y :: b' /\ (N_of_ascii x < N_of_ascii y)%N).

Definition codes (s : str) : Json_Model.text := map N_of_ascii s.

(** The JSON document of a value, as [json.loads] gives it. A model is an object with its
    fingerprinted fields and the name of its class, by name. *)
Inductive document {fl} : value -> Json_Model.value fl -> Prop :=
| doc_none : document VNone Json_Model.VNone
| doc_bool : forall b, document (VBool b) (Json_Model.VBool b)
| doc_int : forall z, document (VInt z) (Json_Model.VInt z)
| doc_str : forall s, document (VStr s) (Json_Model.VText (codes s))
| doc_tuple : forall l l', Forall2 document l l' -> document (VTuple l) (Json_Model.VList l')
| doc_set : forall l l', Forall2 document l l' -> document (VSet l) (Json_Model.VList l')
| doc_map : forall l l', Forall2 (fun kv kd => fst kd = Json_Model.VText (codes (fst kv)) /\ document (snd kv) (snd kd)) l l' ->
    document (VMap l) (Json_Model.VDict l')
| doc_model : forall c names fields entries,
    StronglySorted before (map fst entries) ->
    (forall n, In n (map fst entries) <-> counts c fields n \/ n = $"_arti_type_") ->
    Forall (fun nd => (fst nd = $"_arti_type_" /\ snd nd = Json_Model.VText (codes (c_name c))) \/
                      (exists v, In (fst nd, v) fields /\ document v (snd nd))) entries ->
    document (VModel c names fields)
      (Json_Model.VDict (map (fun nd => (Json_Model.VText (codes (fst nd)), snd nd)) entries)).
