(** The examples meet what the theorems ask for. *)
From Coq Require Import ZArith NArith List Ascii String Bool Lia.
From Verif Require Import Base Str Numerals_Model Numerals_Proofs Types_Model IO_Model IO_Spec Types_Props IO_Props Json_Model Json_Spec Json_Text_Proofs Json_Codec_Proofs Json_Cases.
Import ListNotations.
Open Scope list_scope.

Lemma halves_laws : float_laws halves.
Proof.
  intros [z| | |]; try reflexivity. cbn [kind halves]. split.
  - destruct (py_str_text z) as (sign & i & E & Sg & I). exists sign, i, $".5", []. rewrite E, app_nil_r, <- app_assoc. split; [reflexivity|].
    split; [exact Sg|]. split; [exact I|]. split; [right; exists $"5"; split; [reflexivity|split; [discriminate|intros c [<-|[]]; cbn; lia]]|].
    split; [left; reflexivity|left; discriminate].
  - cbn [of_text halves]. rewrite app_length. cbn [List.length S_ list_ascii_of_string].
    replace (List.length (py_str z) + 2 - 2)%nat with (List.length (py_str z)) by lia. rewrite firstn_app, firstn_all, Nat.sub_diag. cbn [firstn].
    rewrite app_nil_r, int_str. reflexivity.
Qed.
Lemma halves_inhabited : floats_inhabited halves.
Proof. constructor. exact HNan. Qed.

Ltac each := let H := fresh in intros ? H; repeat (destruct H as [<-|H]); [..|destruct H].
Ltac entries := let H := fresh in intros ? ? H; repeat (destruct H as [H|H]; [injection H as <- <-|]); [..|destruct H].
Ltac codes := let H := fresh in intros ? H; cbn in H; repeat (destruct H as [<-|H]); [..|destruct H]; reflexivity.
Lemma ex_value_unicode : all_texts unicode ex_value.
Proof. repeat (constructor; try (entries; split); try each; try codes). Qed.
Lemma ex_value_faithful : faithful ex_value.
Proof.
  constructor.
  - repeat constructor; cbn; intuition discriminate.
  - entries; (split; [eexists; split; [reflexivity|apply of_str_unpaired]|]).
    + constructor.
    + constructor. each; constructor.
    + constructor. intros a h l b E Hh Hl. assert (In h [34; 233; 10; 119070]%N) as I by (rewrite E; apply in_or_app; right; left; reflexivity).
      unfold high in Hh. cbn in I. lia.
    + constructor; [constructor|]. intros k x [].
Qed.
Lemma ex_odd_unicode : all_texts unicode ex_odd.
Proof. repeat (constructor; try (entries; split); try each; try codes). Qed.
Lemma ex_odd_encodable : encodable ex_odd.
Proof. repeat (constructor; try (entries; try (eexists; constructor)); try each). Qed.
Lemma ex_rows_unicode : all_texts unicode ex_rows.
Proof. repeat (constructor; try (entries; split); try each; try codes). Qed.
Lemma ex_rows_not : ~ encodable ex_rows.
Proof. intro H. apply dumps_encodable in H. destruct H as [c H]. discriminate H. Qed.
