(** C22, C23 (continued): the text that is fingerprinted, and the fingerprint, stated exactly. *)
From Coq Require Import ZArith NArith List Ascii String Bool Sorted.
From Verif Require Import Base Str Int64_Model Int64_Spec Models_Model Models_Spec Models_Props Dumped_Spec Dumped_Proofs.
From Verif Require Json_Model Json_Cases.
Import ListNotations.
Open Scope list_scope.

(** C22. The text is a JSON document: [json.loads] reads from it the field values themselves - lists
    for tuples and sets, objects for mappings, and for models the objects of their fingerprinted
    fields and class name, in the order of the names - however deeply nested. *)
Theorem C22_document : forall fl v, sound v ->
  exists d : Json_Model.value fl, document v d /\ Json_Model.loads (dump_json v) = Ok d.
Proof. exact @dumped. Qed.
Print Assumptions C22_document.
Example C22_document_nonvacuous :
  let v := VModel holder [$"_arti_type_"; $"x"] [($"x", VSet [VStr [ascii_of_N 31; """"%char]; VMap [($"k", VInt (-5))]])] in
  sound v /\ dump_json v = $"{""_arti_type_"":""Holder"",""x"":[""\u001f\"""",{""k"":-5}]}" /\
  Json_Model.loads (fl := Json_Cases.halves) (dump_json v) = Ok (Json_Model.VDict
    [(Json_Model.VText (codes $"_arti_type_"), Json_Model.VText (codes $"Holder"));
     (Json_Model.VText (codes $"x"), Json_Model.VList [Json_Model.VText [31; 34]%N;
        Json_Model.VDict [(Json_Model.VText (codes $"k"), Json_Model.VInt (-5))]])]).
Proof.
  cbv zeta. split; [|split; reflexivity]. constructor.
  - split; [|split; [reflexivity|vm_compute; reflexivity]].
    split; [repeat constructor; cbn; tauto|]. split; [cbn; intuition discriminate|repeat constructor].
  - repeat constructor. cbn. tauto.
Qed.

(** C23. The fingerprint of a value is the hash of that text as a signed number. Only a hash of 0
    is refused. *)
Theorem C23_fingerprint_value : forall farmhash v z, let text := string_of_list_ascii (dump_json v) in
  (0 <= farmhash text < 2 ^ 64)%Z ->
  (fingerprint farmhash v = Ok z <-> (z <> 0 /\ fits KFingerprint z /\ same_bits z (farmhash text))%Z) /\
  (fingerprint farmhash v = Err ValueError <-> farmhash text = 0%Z).
Proof. exact fingerprint_value. Qed.
Print Assumptions C23_fingerprint_value.
Example C23_fingerprint_nonvacuous :
  fingerprint (fun _ => (2 ^ 64 - 1)%Z) (VInt 7) = Ok (-1)%Z /\ fingerprint (fun _ => 0%Z) (VInt 7) = Err ValueError.
Proof. split; vm_compute; reflexivity. Qed.
