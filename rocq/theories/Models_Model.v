(** Model of src/arti/internal/models.py lines 62-168 and src/arti/versions/__init__.py lines
    31-58: fingerprint fields, serialization and fingerprints. Definitions only.

    Pydantic's own work is modelled by its documented behaviour: validation is taken to have
    succeeded; [model_dump_json] writes compact JSON; nested models are serialized with their
    own class ([serialize_as_any], 180-191). Computed fields other than [_arti_type_], float,
    date and bytes values, mappings with keys that are not text, and fields with serializers
    of their own are not modelled. *)
From Coq Require Import ZArith NArith List Ascii String Bool.
From Verif Require Import Base Str Numerals_Model Utils_Model Int64_Model.
Import ListNotations.
Open Scope list_scope.

(** * Classes *)

(** A declared field: its name, [Field(exclude=...)] and the [SkipFingerprint] objects of its
    annotation. *)
Record decl := { d_name : str; d_exclude : bool; d_skips : list bool }.
Inductive kind := Plain | SemVer.
Record class := { c_name : str; c_abstract : bool; c_kind : kind; c_decls : list decl }.

(** Python's order of strings, and [sorted]. *)
Fixpoint str_leb (a b : str) : bool :=
  match a, b with
  | [], _ => true
  | _ :: _, [] => false
  | x :: a', y :: b' =>
      if Ascii.eqb x y then str_leb a' b' else (N_of_ascii x <? N_of_ascii y)%N
  end.
Fixpoint insert_sorted (x : str) (l : list str) : list str :=
  match l with
  | [] => [x]
  | y :: l' => if str_leb x y then x :: l else y :: insert_sorted x l'
  end.
Definition sorted (l : list str) : list str := fold_right insert_sorted [] l.

(** [__pydantic_init_subclass__] (88-122). More than one SkipFingerprint is a ValueError. *)
Definition type_field : str := $"_arti_type_".
Definition class_fp_fields (c : class) : result (list str) :=
  rmap (fun l => sorted (map fst (filter (fun ns => negb (snd ns)) l) ++ [type_field]))
    (mapM (fun d => rmap (pair (d_name d)) (one_or_none (Some (d_skips d)) false))
          (filter (fun d => negb (d_exclude d)) (c_decls c))).

(** * Values *)

(** Field values: [None], booleans, integers (also fingerprints), text, tuples (also lists),
    sets in iteration order, mappings (frozendict, TypedBox) in insertion order, models with
    the instance's [_arti_fingerprint_fields_] and all field values in declaration order. *)
Inductive value :=
| VNone
| VBool (b : bool)
| VInt (z : Z)
| VStr (s : str)
| VTuple (l : list value)
| VSet (l : list value)
| VMap (kvs : list (str * value))
| VModel (c : class) (fp_fields : list str) (fields : list (str * value)).

(** [SemVer.model_post_init] (42-58) *)
Definition semver_desired : list str := [type_field; $"major"; $"minor"; $"patch"].
Definition instance_fp_fields (c : class) (fields : list (str * value)) : result (list str) :=
  bind (class_fp_fields c) (fun names =>
  match c_kind c with
  | Plain => Ok names
  | SemVer =>
      if forallb (fun n => existsb (str_eqb n) semver_desired) names then
        let desired := match dget str_eqb fields $"major" with
                       | Some (VInt major) =>
                           if (0 <? major)%Z then [type_field; $"major"] else semver_desired
                       | _ => semver_desired
                       end in
        Ok (filter (fun n => existsb (str_eqb n) desired) names)
      else Err NotImplementedError
  end).

(** [__new__] (126-129) and construction with validated values. *)
Definition instantiate (c : class) (fields : list (str * value)) : result value :=
  if c_abstract c then Err TypeError
  else rmap (fun names => VModel c names fields) (instance_fp_fields c fields).

(** * Serialization *)

Inductive json :=
| JNull
| JBool (b : bool)
| JInt (z : Z)
| JStr (s : str)
| JArr (l : list json)
| JObj (kvs : list (str * json)).

Definition excluded (c : class) (n : str) : bool :=
  existsb (fun d => str_eqb (d_name d) n && d_exclude d) (c_decls c).

(** [_arti_serialize_model] (138-144): [data] is pydantic's dict of the fields that are not
    excluded and of the type name (68-75). *)
Fixpoint serialize (v : value) : json :=
  match v with
  | VNone => JNull
  | VBool b => JBool b
  | VInt z => JInt z
  | VStr s => JStr s
  | VTuple l | VSet l => JArr (map serialize l)
  | VMap kvs => JObj (map (fun kv => (fst kv, serialize (snd kv))) kvs)
  | VModel c fp_fields fields =>
      let data := filter (fun nj => negb (excluded c (fst nj)))
                    (map (fun nv => (fst nv, serialize (snd nv))) fields)
                  ++ [(type_field, JStr (c_name c))] in
      JObj (flat_map (fun n => match dget str_eqb data n with Some j => [(n, j)] | None => [] end) fp_fields)
  end.

(** Compact JSON as pydantic-core writes it. *)
Definition escape (c : ascii) : str :=
  let n := N_of_ascii c in
  if Ascii.eqb c """" then ["\"; """"]%char
  else if Ascii.eqb c "\" then ["\"; "\"]%char
  else if (n =? 8)%N then ["\"; "b"]%char
  else if (n =? 9)%N then ["\"; "t"]%char
  else if (n =? 10)%N then ["\"; "n"]%char
  else if (n =? 12)%N then ["\"; "f"]%char
  else if (n =? 13)%N then ["\"; "r"]%char
  else if (n <? 32)%N then
    ["\"; "u"; "0"; "0"]%char ++ [digit_char (n / 16); digit_char (n mod 16)]%N
  else [c].
Definition json_str (s : str) : str := """"%char :: flat_map escape s ++ [""""%char].
Fixpoint json_text (j : json) : str :=
  match j with
  | JNull => $"null"
  | JBool true => $"true"
  | JBool false => $"false"
  | JInt z => py_str z
  | JStr s => json_str s
  | JArr l => $"[" ++ join $"," (map json_text l) ++ $"]"
  | JObj kvs => $"{" ++ join $"," (map (fun kj => json_str (fst kj) ++ $":" ++ json_text (snd kj)) kvs) ++ $"}"
  end.

(** [model_dump_json] (150-152) *)
Definition dump_json (v : value) : str := json_text (serialize v).

(** [fingerprint] (162-168); [farmhash] is [farmhash.fingerprint64]. *)
Definition fingerprint (farmhash : string -> Z) (v : value) : result Z :=
  bind (fp_from_string farmhash (string_of_list_ascii (dump_json v))) (fun fp =>
  if is_identity fp then Err ValueError else Ok (iv fp)).
