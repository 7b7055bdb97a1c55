(** C13: partition fields survive formatting into text and back. *)
From Coq Require Import ZArith List Ascii String Bool Permutation.
From Verif Require Import Base Str Numerals_Model Partitions_Model Partitions_Spec Partitions_Proofs.
Import ListNotations.
Open Scope list_scope.

(** C13. Any existing field, any set of components its class can be parsed from, in any
    order, each with no format spec or (integers) any zero padded width: whatever text
    rendering produces, parsing it gives the field back. [other] is Python's [format] on
    the specs that are not modelled. *)
Theorem C13_roundtrip : forall other f cs texts, field_ok f ->
  supported (class_of f) (map fst cs) ->
  Forall (fun c => plain_spec f (fst c) (snd c)) cs ->
  render_all other f cs = Ok texts -> from_components (class_of f) texts = Ok f.
Proof. exact field_roundtrip. Qed.
Print Assumptions C13_roundtrip.

(** C13. Rendering such components does succeed. *)
Theorem C13_rendering_succeeds : forall other f cs,
  Forall (fun c => plain_spec f (fst c) (snd c) /\ In (fst c) (components (class_of f))) cs ->
  exists texts, render_all other f cs = Ok texts.
Proof. exact render_all_ok. Qed.
Print Assumptions C13_rendering_succeeds.

(** C13. In particular the default components, the ones used in default paths. *)
Theorem C13_default_roundtrip : forall other f, field_ok f ->
  exists texts, render_all other f (default_specs (class_of f)) = Ok texts /\
                from_components (class_of f) texts = Ok f.
Proof. exact default_roundtrip. Qed.
Print Assumptions C13_default_roundtrip.

(** C13. Parsing never invents an ill-formed field or one of another class. *)
Theorem C13_parsed_is_valid : forall c comps f, from_components c comps = Ok f ->
  class_of f = c /\ field_ok f.
Proof. exact parsed_valid. Qed.
Print Assumptions C13_parsed_is_valid.

(** C13. Hence two fields of a class with the same texts are the same field. *)
Theorem C13_texts_determine_field : forall other f g cs texts, field_ok f -> field_ok g ->
  class_of f = class_of g -> supported (class_of f) (map fst cs) ->
  Forall (fun c => plain_spec f (fst c) (snd c)) cs ->
  Forall (fun c => plain_spec g (fst c) (snd c)) cs ->
  render_all other f cs = Ok texts -> render_all other g cs = Ok texts -> f = g.
Proof. exact texts_determine. Qed.
Print Assumptions C13_texts_determine_field.

(** The default components of dates are Y, m:02, d:02; leap days and padding. *)
Example C13_instance : forall other,
  field_ok (FDate 2024 2 29) /\ field_ok (FDate 5 1 1) /\
  render_all other (FDate 5 1 1) [($"Y", []); ($"m", $"02"); ($"d", $"02")] =
    Ok [($"Y", $"5"); ($"m", $"01"); ($"d", $"01")] /\
  render_all other (FDate 2024 2 29) [($"iso", [])] = Ok [($"iso", $"2024-02-29")] /\
  render_all other (FInt W8 (-300)) [($"hex", [])] = Ok [($"hex", $"-0x12c")] /\
  supported DateField [$"d"; $"Y"; $"m"] /\
  plain_spec (FDate 5 1 1) $"m" $"02".
Proof.
  intro other. do 5 (split; [vm_compute; reflexivity|]). split.
  - apply sup_date_ymd. apply Permutation_sym. apply (Permutation_cons_app [$"Y"; $"m"] []).
    apply Permutation_refl.
  - right. split; [exists 1%Z; reflexivity|]. exists 2%nat. reflexivity.
Qed.
