(** Files at paths against files at locations: what the executor's model assumes about storages
    (Executor_Model) in terms of the model of paths, globbing and parsing (Storage_Model). *)
From Coq Require Import ZArith List Ascii String Bool.
From Verif Require Import Base Str Numerals_Model Partitions_Model Format_Model Template_Spec Storage_Model Paths_Spec.
From Verif Require Graph_Model Backend_Model Executor_Model.
Import ListNotations.
Open Scope list_scope.

(** The key types and the path template of a LocalFile, and the storage the executor sees. *)
Definition layout := (key_types * template)%type.
Definition seen (l : layout) : Graph_Model.storage :=
  Graph_Model.Storage (print (snd l)) Graph_Model.SFile
    (match fst l with [] => false | _ => true end) (contains_sub fp_template (print (snd l))).

(** The executor's keys are texts: equal for equal keys only, empty for NotPartitioned only. *)
Definition encodes (enc : key_types -> pkey -> str) (S : list layout) : Prop :=
  forall kts t, In (kts, t) S -> forall a, key_ok kts a ->
    (enc kts a = [] <-> a = []) /\ forall b, key_ok kts b -> enc kts a = enc kts b <-> same_key a b.

(** No path of one layout is taken for one of another. *)
Definition apart other (S : list layout) : Prop :=
  (forall x y, In x S -> In y S -> print (snd x) = print (snd y) -> x = y) /\
  forall kts t kts' t' fp key path w, In (kts, t) S -> In (kts', t') S ->
    written other kts t fp key path ->
    spec_to_wildcard other (print t') kts' = Ok w -> glob_match w path = true -> (kts, t) = (kts', t').

(** The same files: a location holds what is at its path, every location has a path, and every
    path that would be found was written to a location. *)
Record same_files other (enc : key_types -> pkey -> str) (S : list layout)
    (fs : list (Executor_Model.location * str)) (ps : list (str * str)) : Prop := {
  locations_once : NoDup (map fst fs);
  paths_once : NoDup (map fst ps);
  same_contents : forall kts t fp key path, In (kts, t) S -> written other kts t fp key path ->
    dget Executor_Model.location_eqb fs (print t, enc kts key, fp) = dget str_eqb ps path;
  has_path : forall i k fp, In (i, k, fp) (map fst fs) ->
    exists kts t key path, In (kts, t) S /\ written other kts t fp key path /\ i = print t /\ k = enc kts key;
  has_location : forall kts t path w, In (kts, t) S -> In path (map fst ps) ->
    spec_to_wildcard other (print t) kts = Ok w -> glob_match w path = true ->
    exists fp key, written other kts t fp key path }.

(** What a snapshot says, on either side: key, input fingerprint, content fingerprint. *)
Definition said (x : Backend_Model.psnapshot) : str * option Z * Z :=
  (Backend_Model.ps_key x, Backend_Model.ps_fp x, Backend_Model.ps_content x).
Definition says (enc : pkey -> str) (x : Z * partition) : str * option Z * Z :=
  (enc (p_key (snd x)), p_fp (snd x), fst x).

(** An encoding of keys: the declared fields one after the other. *)
Definition field_text (f : field) : str :=
  match f with
  | FNull => $"N"
  | FInt _ z => $"i" ++ py_str z ++ $";"
  | FDate y m d => $"d" ++ py_str y ++ $";" ++ py_str m ++ $";" ++ py_str d ++ $";"
  end.
Definition key_text (kts : key_types) (key : pkey) : str :=
  flat_map (fun nc => match dget str_eqb key (fst nc) with Some f => field_text f | None => [] end) kts.

(** Templates in directories: literal names, each followed by a separator. *)
Definition directory (dirs : list str) : str := flat_map (fun d => d ++ $"/") dirs.
Definition in_directory (dirs : list str) (t : template) : Prop :=
  Forall (avoids $"/*?") dirs /\ exists t', t = TLit (directory dirs) :: t'.
Definition differ (ds ds' : list str) : Prop :=
  exists i a b, nth_error ds i = Some a /\ nth_error ds' i = Some b /\ a <> b.
