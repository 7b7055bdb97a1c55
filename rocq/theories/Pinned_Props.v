(** C19: templates with fixed values. *)
From Coq Require Import ZArith List Ascii String Bool.
From Verif Require Import Base Str Partitions_Model Template_Spec Storage_Model Paths_Spec Pinned_Proofs.
Import ListNotations.
Open Scope list_scope.

(** Where a template has a fixed value for a component, the field found is the one of this value, whatever the
    path has in its place; it is refused iff the value is none for the component. *)
Theorem C19_fixed_value : forall f cls c i pre post x, word f -> word c -> i <> [] -> avoids $"]" i -> avoids $"{}" pre -> avoids $"{}" post -> x <> [] ->
  extract_placeholders [(f, cls)] (pre ++ x ++ post) (pre ++ $"{" ++ f ++ $"." ++ c ++ $"[" ++ i ++ $"]}" ++ post) =
  rmap (fun v => (None, [(f, v)])) (from_components cls [(c, i)]).
Proof. exact pinned. Qed.
Print Assumptions C19_fixed_value.
(** The fingerprint cannot be fixed. *)
Theorem C19_fixed_fingerprint : forall kts i pre post x, i <> [] -> avoids $"]" i -> avoids $"{}" pre -> avoids $"{}" post -> x <> [] ->
  extract_placeholders kts (pre ++ x ++ post) (pre ++ $"{input_fingerprint[" ++ i ++ $"]}" ++ post) = Err AssertionError.
Proof. exact indexed_fingerprint. Qed.
Print Assumptions C19_fixed_fingerprint.
Example C19_fixed_nonvacuous :
  word $"n" /\ word $"value" /\ avoids $"]" $"17" /\ avoids $"{}" $"data/n=" /\
  extract_placeholders [($"n", IntField W64)] $"data/n=17.json" $"data/n={n.value[17]}.json" = Ok (None, [($"n", FInt W64 17)]) /\
  extract_placeholders [($"n", IntField W64)] $"data/n=18.json" $"data/n={n.value[17]}.json" = Ok (None, [($"n", FInt W64 17)]) /\
  extract_placeholders [($"n", IntField W64)] $"data/n=17.json" $"data/n={n.value[x]}.json" = Err ValueError.
Proof. repeat split; try discriminate; repeat constructor; try (cbn; intuition discriminate). Qed.
