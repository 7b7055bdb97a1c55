(** Model of [register], [ordinal] and [one_or_none] of
    src/arti/internal/utils.py (lines 213-245). Definitions only. *)
From Coq Require Import ZArith List Bool String.
From Verif Require Import Base Str Numerals_Model.
Import ListNotations.

Section Register.
  Context {K V : Type} (eqb : K -> K -> bool).

  (** utils.py:230-245. The registry is mutated in place, so the call returns its
      outcome and the registry afterwards. *)
  Definition register (registry : list (K * V)) (key : K) (value : V)
      (get_priority : option (V -> Z)) : result V * list (K * V) :=
    match dget eqb registry key with                       (* 233: key in registry *)
    | Some existing =>
        match get_priority with
        | None => (Err ValueError, registry)               (* 235-236 *)
        | Some prio =>
            if (prio existing >? prio value)%Z then (Ok value, registry)   (* 238-239 *)
            else if (prio existing =? prio value)%Z
            then (Err ValueError, registry)                (* 240-243 *)
            else (Ok value, dset eqb registry key value)   (* 244-245 *)
        end
    | None => (Ok value, dset eqb registry key value)
    end.

  (** A history of calls whose exceptions are caught by the caller. *)
  Fixpoint registers (get_priority : option (V -> Z)) (registry : list (K * V))
      (calls : list (K * V)) : list (K * V) :=
    match calls with
    | [] => registry
    | (k, v) :: rest => registers get_priority (snd (register registry k v get_priority)) rest
    end.
End Register.

(** utils.py:221-227. Python's [%] with a positive modulus is [Z.modulo]; the
    list subscript is never out of range because the index is clamped to 0-4. *)
Definition ordinal (n : Z) : str :=
  let suffix := nth (Z.to_nat (Z.min (n mod 10) 4)) [$"th"; $"st"; $"nd"; $"rd"; $"th"] [] in
  let suffix := if ((11 <=? n mod 100) && (n mod 100 <=? 13))%Z then $"th" else suffix in
  (py_str n ++ suffix)%list.

(** utils.py:213-218; [None] for the [values] argument is [None] here. *)
Definition one_or_none {V} (values : option (list V)) (default : V) : result V :=
  match values with
  | None | Some [] => Ok default
  | Some [v] => Ok v
  | Some (_ :: _ :: _) => Err ValueError
  end.
