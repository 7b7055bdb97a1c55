(** C63, strings in JSON files written by other programs. *)
From Coq Require Import NArith List Ascii String Lia.
From Verif Require Import Base Str Numerals_Model IO_Model Json_Model Json_Foreign_Spec Json_Foreign_Proofs.
Import ListNotations.
Open Scope list_scope.

(** A string in any spelling JSON has for it, with blanks around it, is read as the characters it spells. *)
Theorem C63_spelled : forall fl s t v w, spells s t -> blank v -> blank w ->
  loads (fl := fl) (v ++ """"%char :: s ++ """"%char :: w) = Ok (VText t).
Proof. exact string_read. Qed.

(** So no text spells two strings. *)
Theorem C63_spelled_once : forall s t u, spells s t -> spells s u -> t = u.
Proof. exact spelled_once. Qed.

(** A letter, an escaped slash, e with acute accent, a smiling face as a pair of surrogates, and a newline. *)
Example C63_spelled_instance : spells ($"a\/\u00e9\uD83d\uDE00\n") [97; 47; 233; 128512; 10]%N /\ blank ($"  ").
Proof.
  split.
  - apply (sp_plain "a"%char); [discriminate|discriminate|cbn; lia|].
    apply sp_escape; [cbn; tauto|].
    apply sp_code; [exists 0%N, 0%N, 14%N, 9%N; cbn; intuition|lia|].
    apply (sp_pair "D" "8" "3" "d" "D" "E" "0" "0" 55357%N 56832%N);
      [exists 13%N, 8%N, 3%N, 13%N; cbn; intuition|lia|exists 13%N, 14%N, 0%N, 0%N; cbn; intuition|lia|].
    apply sp_escape; [cbn; tauto|]. apply sp_end.
  - intros c [<-|[<-|[]]]; cbn; auto.
Qed.

Print Assumptions C63_spelled.
Print Assumptions C63_spelled_once.
