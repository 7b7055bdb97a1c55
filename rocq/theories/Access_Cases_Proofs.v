(** Facts about the cases of Access_Cases. *)
From Coq Require Import ZArith List Ascii String Bool Arith.
From Verif Require Import Base Str Graph_Model Backend_Model Executor_Model Executor_Spec Executor_Cases Executor_Build_Proofs Access_Model Access_Cases.
Import ListNotations.
Open Scope list_scope.

Lemma asks16 : asks demo mine16 sn16 each (ps_key x16) d16.
Proof.
  assert (L : snd (read_snapshot_partitions (db mine16) sn16 $"a") = snd (hd ([], []) d16)) by (vm_compute; reflexivity).
  exists d16, [(ps_key x16, d16)], [], [], d16. split.
  - constructor; [|constructor]. split; [reflexivity|]. exists $"a". split; [|cbn [snd]; rewrite L; reflexivity].
    apply (key_of_last (s_graph sn16)). vm_compute. reflexivity.
  - split; [reflexivity|]. split; [reflexivity|]. split; [intros []|]. vm_compute. reflexivity.
Qed.
