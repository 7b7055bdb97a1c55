(** C49: the types inferred for Python values. *)
From Coq Require Import ZArith List Ascii String Bool Permutation.
From Verif Require Import Base Str Hints_Model Types_Model PyTypes_Model Cast_Model Cast_Spec Cast_Proofs.
Import ListNotations.
Open Scope list_scope.
Open Scope Z_scope.

(** For the examples. *)
Definition int (z : Z) : value := VInt PyInt z.
Definition ex_pairs : value := VDict PyDict [(VObj PyStr $"a", int 1); (VObj PyStr $"b", VInt PyBool 1)].

(** Every value belongs to the type inferred for it. *)
Theorem C49_describes : forall n v t, cast_type n v = Ok t -> belongs v t.
Proof. exact cast_describes. Qed.
Print Assumptions C49_describes.
Example C49_describes_nonvacuous :
  cast_type 2 ex_pairs = Ok (Map (Scalar String plain) (Scalar (Int B64) plain) plain) /\
  cast_type 2 (VSeq (PySub PyTuple $"Point") [int 1; int 2]) = Ok (List (Scalar (Int B64) plain) plain) /\
  cast_type 2 (VSeq PySet [VObj PyDatetime $"2020"]) = Ok (Set_ (Timestamp Microsecond plain) plain).
Proof. split; [vm_compute; reflexivity|split; vm_compute; reflexivity]. Qed.

(** Plain values, and sequences and dicts of plain values that are instances of the class of the
    first one, have a type ... *)
Theorem C49_plain : forall n v, plain_value v -> exists t, cast_type (S n) v = Ok t.
Proof. exact accepted_scalar. Qed.
Print Assumptions C49_plain.
Theorem C49_items : forall n c x l, (exists k, In k [PyList; PyTuple; PySet; PyFrozenset] /\ issub c k = true) -> plain_value x ->
  Forall (fun y => isinstance y (type_of x) = true) l -> exists t, cast_type (S (S n)) (VSeq c (x :: l)) = Ok t.
Proof. exact accepted_items. Qed.
Print Assumptions C49_items.
Theorem C49_pairs : forall n c k x l, issub c PyDict = true -> plain_value k -> plain_value x ->
  Forall (fun kx => isinstance (fst kx) (type_of k) = true /\ isinstance (snd kx) (type_of x) = true) l ->
  exists t, cast_type (S (S n)) (VDict c ((k, x) :: l)) = Ok t.
Proof. exact accepted_dict. Qed.
Print Assumptions C49_pairs.
Example C49_items_nonvacuous : plain_value (int 1) /\ isinstance (VInt PyBool 1) (type_of (int 1)) = true.
Proof. split; [exists PyInt; split; [cbn; tauto|reflexivity]|reflexivity]. Qed.

(** ... but nothing nested has one, and all else is refused: with a ValueError if it is an empty
    sequence, with a StopIteration if it is an empty dict. *)
Theorem C49_flat : forall n c l t x k, cast_type n (VSeq c l) = Ok t -> (exists k, In k containers /\ issub c k = true) -> In x l ->
  In k containers -> isinstance x k = false.
Proof. exact flat. Qed.
Print Assumptions C49_flat.
Theorem C49_flat_dict : forall n c l t kx k, cast_type n (VDict c l) = Ok t -> issub c PyDict = true -> In kx l -> In k containers ->
  isinstance (fst kx) k = false /\ isinstance (snd kx) k = false.
Proof. exact flat_dict. Qed.
Print Assumptions C49_flat_dict.
Theorem C49_errors : forall n v e, cast_type (S (S n)) v = Err e ->
  e = NotImplementedError \/ (e = ValueError /\ items_of v = []) \/ (e = StopIteration /\ pairs_of v = []).
Proof. exact errors. Qed.
Print Assumptions C49_errors.
Example C49_errors_nonvacuous :
  cast_type 2 (VSeq PyList []) = Err ValueError /\ cast_type 2 (VDict PyDict []) = Err StopIteration /\
  cast_type 2 (VSeq PyList [VSeq PyList [int 1]]) = Err NotImplementedError.
Proof. split; [vm_compute; reflexivity|split; vm_compute; reflexivity]. Qed.

(** The order of the items does not change the type, and for items of one class not even whether
    there is one. *)
Theorem C49_order_partial : forall n c l l' t t', (exists k, In k [PyList; PyTuple; PySet; PyFrozenset] /\ issub c k = true) -> Permutation l l' ->
  cast_type n (VSeq c l) = Ok t -> cast_type n (VSeq c l') = Ok t' -> t = t'.
Proof. exact order_items. Qed.
Print Assumptions C49_order_partial.
Theorem C49_order_dict_partial : forall n c l l' t t', issub c PyDict = true -> Permutation l l' ->
  cast_type n (VDict c l) = Ok t -> cast_type n (VDict c l') = Ok t' -> t = t'.
Proof. exact order_pairs. Qed.
Print Assumptions C49_order_dict_partial.
Theorem C49_order_uniform : forall n c k l l' t, (exists k, In k [PyList; PyTuple; PySet; PyFrozenset] /\ issub c k = true) -> Permutation l l' ->
  (forall x, In x l -> type_of x = k) -> cast_type n (VSeq c l) = Ok t -> cast_type n (VSeq c l') = Ok t.
Proof. exact order_uniform. Qed.
Print Assumptions C49_order_uniform.
Example C49_order_nonvacuous :
  cast_type 2 (VSeq PyList [int 1; VInt PyBool 1; int 3]) = cast_type 2 (VSeq PyList [int 3; int 1; VInt PyBool 1]) /\
  cast_type 2 (VSeq PyList [int 1; VInt PyBool 1; int 3]) = Ok (List (Scalar (Int B64) plain) plain).
Proof. split; vm_compute; reflexivity. Qed.
(** Whether there is a type does depend on the order: [1, True] has one, [True, 1] has none. *)
Theorem C49_order_refuted : exists l l', Permutation l l' /\ cast_type 2 (VSeq PyList l) = Ok (List (Scalar (Int B64) plain) plain) /\
  cast_type 2 (VSeq PyList l') = Err NotImplementedError.
Proof.
  exists [int 1; VInt PyBool 1], [VInt PyBool 1; int 1].
  split; [apply perm_swap|split; vm_compute; reflexivity].
Qed.
Print Assumptions C49_order_refuted.

(** Integers of 64 bits are in the range of the type; others are not. *)
Theorem C49_range_partial : forall n v t, cast_type n v = Ok t -> proper v -> small v -> in_range v t.
Proof. exact ranges. Qed.
Print Assumptions C49_range_partial.
Example C49_range_nonvacuous : proper ex_pairs /\ small ex_pairs.
Proof.
  split.
  - apply proper_dict; [reflexivity|]. repeat (apply Forall_cons || apply Forall_nil || split || apply str_proper || (apply proper_int; reflexivity)).
  - apply small_dict. repeat (apply Forall_cons || apply Forall_nil || split || apply small_obj || apply small_int); cbn; discriminate || reflexivity.
Qed.
Theorem C49_large_int_refuted : exists v t, proper v /\ cast_type 2 v = Ok t /\ ~ in_range v t.
Proof.
  exists (int (2 ^ 70)), (Scalar (Int B64) plain). split; [apply proper_int; reflexivity|]. split; [vm_compute; reflexivity|].
  intro H. inversion H as [? ? ? ? F| | | |? ? X]; subst; [destruct F as [_ F]; discriminate F|]. exact (X B64 plain eq_refl).
Qed.
Print Assumptions C49_large_int_refuted.

(** What is stored as JSON is the value, and what is read from it belongs to the type, unless the
    keys of a dict are no strings. *)
Theorem C49_read_back_partial : forall float_text n v t v', cast n v = Ok (t, v') -> proper v ->
  (forall k x m, t = Map k x m -> k = Scalar String plain) -> v' = v /\ belongs (read_back float_text v') t.
Proof. exact reads_back. Qed.
Print Assumptions C49_read_back_partial.
Example C49_read_back_nonvacuous : exists t, cast 2 ex_pairs = Ok (t, ex_pairs) /\ (forall k x m, t = Map k x m -> k = Scalar String plain).
Proof. eexists. split; [vm_compute; reflexivity|]. intros k x m E. injection E as <- _ _. reflexivity. Qed.
Theorem C49_keys_refuted : forall float_text, exists v t, proper v /\ cast 2 v = Ok (t, v) /\ ~ belongs (read_back float_text v) t.
Proof.
  intro float_text. exists (VDict PyDict [(int 1, VObj PyStr $"a")]). eexists. split; [|split; [vm_compute; reflexivity|]].
  - apply proper_dict; [reflexivity|]. repeat (apply Forall_cons || apply Forall_nil || split || apply str_proper || (apply proper_int; reflexivity)).
  - intro H. inversion H as [| | | | |? ? ? ? ? _ F]; subst.
    inversion F as [|? ? [B _] _]; subst. inversion B as [? ? c ? S I| | | | |]; subst. injection S as <-. discriminate I.
Qed.
Print Assumptions C49_keys_refuted.
(** Sets, bytes and dates have a type but cannot be stored. *)
Theorem C49_stored_refuted : exists v t, proper v /\ cast_type 2 v = Ok t /\ cast 2 v = Err TypeError.
Proof.
  exists (VSeq PySet [int 1]). eexists. split; [apply proper_seq; [cbn; auto|repeat constructor]|split; vm_compute; reflexivity].
Qed.
Print Assumptions C49_stored_refuted.
