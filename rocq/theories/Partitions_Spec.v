(** What the partition field theorems talk about. *)
From Coq Require Import ZArith List Ascii String Bool Permutation.
From Verif Require Import Base Str Partitions_Model.
Import ListNotations.

(** An existing field: dates are calendar dates. *)
Definition field_ok (f : field) : Prop :=
  match f with FDate y m d => valid_date y m d = true | _ => True end.

(** The sets of components a class can be parsed from, in any order. *)
Inductive supported : fclass -> list str -> Prop :=
| sup_date_value : supported DateField [$"value"]
| sup_date_iso : supported DateField [$"iso"]
| sup_date_ymd : forall l, Permutation [$"Y"; $"m"; $"d"] l -> supported DateField l
| sup_int_value : forall w, supported (IntField w) [$"value"]
| sup_int_hex : forall w, supported (IntField w) [$"hex"]
| sup_null : supported NullField [$"value"].

(** Format specs: none, or a zero padded width on an integer component. *)
Definition plain_spec (f : field) (name spec : str) : Prop :=
  spec = [] \/ ((exists z, component f name = Ok (CInt z)) /\ exists w, zero_width spec = Some w).

(** Rendering the named components of [f], each with its spec. *)
Definition render_all (other : cvalue -> str -> result str) (f : field) (cs : list (str * str))
    : result (list (str * str)) :=
  mapM (fun cs => bind (component f (fst cs)) (fun v =>
                  rmap (fun t => (fst cs, t)) (format_value other v (snd cs)))) cs.

(** The default components as (name, format spec). *)
Definition default_specs (c : fclass) : list (str * str) :=
  match c with
  | DateField => [($"Y", []); ($"m", $"02"); ($"d", $"02")]
  | IntField _ | NullField => [($"value", [])]
  end.
