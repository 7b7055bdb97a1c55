(** C13: which texts stand for which fields, and which field classes a type's keys have. *)
From Coq Require Import ZArith NArith List Ascii String Bool Permutation.
From Verif Require Import Base Str Numerals_Model Partitions_Model Partitions_Spec
  Fields_Spec Fields_Proofs.
Import ListNotations.
Open Scope list_scope.

(** C13. Parsing components gives a field exactly when they stand for it: a date from an ISO
    text or from year, month and day, an integer from decimal or hexadecimal text, null from
    "None". *)
Theorem C13_parsing : forall c comps f, NoDup (map fst comps) ->
  (from_components c comps = Ok f <-> read_as c comps f).
Proof. exact parsing_exact. Qed.
Print Assumptions C13_parsing.

(** C13. Otherwise the error tells components that cannot be parsed at all from bad texts. *)
Theorem C13_parsing_errors : forall c comps e, NoDup (map fst comps) ->
  from_components c comps = Err e ->
  (e = NotImplementedError /\ ~ supported c (map fst comps)) \/
  (e = ValueError /\ supported c (map fst comps)).
Proof. exact parsing_errors. Qed.
Print Assumptions C13_parsing_errors.

(** C13. Existing dates are those of the Gregorian calendar. *)
Theorem C13_calendar : forall y m d, field_ok (FDate y m d) <-> civil y m d.
Proof. exact calendar. Qed.
Print Assumptions C13_calendar.

(** C13. The components of a field: their values and their names. *)
Theorem C13_components : forall f n v, field_ok f -> (component f n = Ok v <-> has f n v).
Proof. exact components_exact. Qed.
Print Assumptions C13_components.
Theorem C13_components_listed : forall f n,
  In n (components (class_of f)) <-> exists v, has f n v.
Proof. exact components_listed. Qed.
Print Assumptions C13_components_listed.

(** C13. [str(z)] and [hex(z)] have a minus for negative numbers, then the shortest digits,
    which are unique. *)
Theorem C13_decimal : forall z, exists s,
  py_str z = minus z ++ s /\ shortest 10 s (Z.to_N (Z.abs z)).
Proof. exact str_shown. Qed.
Print Assumptions C13_decimal.
Theorem C13_hexadecimal : forall z, exists s,
  py_hex z = minus z ++ $"0x" ++ s /\ shortest 16 s (Z.to_N (Z.abs z)).
Proof. exact hex_shown. Qed.
Print Assumptions C13_hexadecimal.
Theorem C13_digits_unique : forall b s s' n, (2 <= b)%N -> (b <= 16)%N ->
  shortest b s n -> shortest b s' n -> s = s'.
Proof. exact shortest_unique. Qed.
Print Assumptions C13_digits_unique.

(** C13. A padded integer has zeros after its sign, up to the width asked for. *)
Theorem C13_padded : forall w z, exists k s,
  py_str z = minus z ++ s /\ py_pad w z = minus z ++ repeat "0"%char k ++ s /\
  List.length (py_pad w z) = Nat.max w (List.length (py_str z)).
Proof. exact pad_shown. Qed.
Print Assumptions C13_padded.

(** C13. A spec of zero and a width pads integers; all others are Python's to interpret. *)
Theorem C13_format_padded : forall other z spec w, zero_padded spec (N.of_nat w) ->
  format_value other (CInt z) spec = Ok (py_pad w z).
Proof. exact format_padded. Qed.
Print Assumptions C13_format_padded.
Theorem C13_format_other : forall other v spec, spec <> [] ->
  (forall z w, v = CInt z -> ~ zero_padded spec w) -> format_value other v spec = other v spec.
Proof. exact format_other. Qed.
Print Assumptions C13_format_other.

(** C13. The key types of a collection: each partition field has the class of its type. *)
Theorem C13_key_types : forall fs l, NoDup (map fst fs) ->
  (types_from (Some fs) = Ok l <->
   Forall2 (fun a b => fst a = fst b /\ field_for (snd a) (snd b)) fs l).
Proof. exact types_exact. Qed.
Print Assumptions C13_key_types.
Theorem C13_key_types_error : forall fs e, types_from (Some fs) = Err e ->
  e = KeyError /\ exists n t, In (n, t) fs /\ forall c, ~ field_for t c.
Proof. exact types_error. Qed.
Print Assumptions C13_key_types_error.
Theorem C13_not_a_collection : types_from None = Ok [].
Proof. exact types_none. Qed.
Print Assumptions C13_not_a_collection.

(** Texts in several spellings; 1900 is no leap year. *)
Example C13_texts :
  from_components DateField [($"d", $"+1"); ($"Y", $" 2_024"); ($"m", $"02")] = Ok (FDate 2024 2 1) /\
  from_components DateField [($"iso", $"20240229")] = Ok (FDate 2024 2 29) /\
  from_components (IntField W8) [($"hex", $"-0X_fF")] = Ok (FInt W8 (-255)) /\
  from_components DateField [($"Y", $"2024"); ($"m", $"2")] = Err NotImplementedError /\
  from_components DateField [($"iso", $"19000229")] = Err ValueError /\
  ~ civil 1900 2 29 /\ civil 2000 2 29.
Proof.
  do 5 (split; [vm_compute; reflexivity|]).
  split; [rewrite <- calendar|apply calendar]; vm_compute; [discriminate|reflexivity].
Qed.
Example C13_spec : zero_padded $"012" 12 /\
  NoDup (map fst [($"a", TDate); ($"b", TInt W16)]) /\
  types_from (Some [($"a", TDate); ($"b", TInt W16)]) = Ok [($"a", DateField); ($"b", IntField W16)].
Proof.
  split; [|split; [repeat constructor; cbn; intuition discriminate|reflexivity]].
  exists $"12", [1%N; 2%N]. split; [reflexivity|]. split; [|reflexivity].
  repeat constructor.
Qed.
