(** C73: what is meant to be shared stays shared in copies, and nothing else does. *)
From Coq Require Import List Arith ZArith.
From Verif Require Import Base Shared_Model Shared_Spec Shared_Proofs.
Import ListNotations.
Open Scope list_scope.
Open Scope nat_scope.

(** The state of a memory backend (0), the backend (1), text (2), a box of artifacts (3) and a graph
    (4) that refers to its name, its box and, twice, to its backend. *)
Definition state := 0. Definition backend := 1. Definition box := 3. Definition graph := 4.
Definition example : heap :=
  [Cell NoCopy [] 0; Cell Instance [state] 1; Cell Atomic [] 2; Cell Container [2] 3; Cell Instance [2; box; backend; backend] 4].

(** C73, sharing: after any number of copies of copies, shallow or deep, and any changes of shared
    objects in between, the original and the last copy lead to the same shared object. *)
Theorem C73_shared : forall h l h' y path k, history h l h' y -> closed h -> l < List.length h ->
  leads h l path k -> shared h k -> leads h' l path k /\ leads h' y path k /\ shared h' k.
Proof. intros h l h' y path k H C L P S. exact (proj2 (history_shared h l h' y H C L) path k P S). Qed.
Print Assumptions C73_shared.
Example C73_shared_nonvacuous : closed example /\ leads example graph [2; 0] state /\ shared example state /\
  exists h1 g1 h2 g2, deepcopy 9 example graph = Some (h1, g1) /\ shallow (assign h1 state [2] 50) g1 = Some (h2, g2) /\
    g1 <> graph /\ g2 <> g1 /\ history example graph h2 g2 /\ leads h2 g2 [2; 0] state /\ leads h2 graph [2; 0] state /\
    nth_error h2 state = Some (Cell NoCopy [2] 50).
Proof.
  assert (C : closed example) by (apply ordered_closed; intros [|[|[|[|[|[|]]]]]] c i E I; try discriminate E;
    injection E as <-; cbn in I; unfold state, backend, box in I; intuition (subst; auto with arith)).
  assert (P : leads example graph [2; 0] state) by (repeat (econstructor; [reflexivity|auto|reflexivity|]); constructor).
  assert (S : shared example state) by (eexists; split; reflexivity).
  split; [exact C|]. split; [exact P|]. split; [exact S|].
  eexists _, _, _, _. split; [reflexivity|]. split; [reflexivity|].
  match goal with |- _ /\ _ /\ history _ _ ?h2 ?g2 /\ _ => assert (H : history example graph h2 g2) end.
  { eapply h_shallow; [eapply h_write with (k := state) (items := [2]) (data := 50%Z);
      [eapply h_deep with (fuel := 9); [apply h_none|reflexivity]|eexists; split; reflexivity|]|reflexivity].
    intros i [I|[]]. subst i. cbn. auto with arith. }
  destruct (proj2 (history_shared _ _ _ _ H C ltac:(cbn; auto with arith)) _ _ P S) as (A & B & _).
  split; [discriminate|]. split; [discriminate|]. split; [exact H|]. split; [exact B|]. split; [exact A|]. reflexivity.
Qed.

(** C73, deep copies: the same paths lead to copies of the same objects, in both directions; two
    paths lead to one object in the copy if and only if they do in the original; the original objects are left as they were. *)
Theorem C73_deepcopy : forall fuel h l h' y, closed h -> l < List.length h -> deepcopy fuel h l = Some (h', y) ->
  (forall i, i < List.length h -> nth_error h' i = nth_error h i) /\
  (forall path k, leads h l path k -> exists k', leads h' y path k' /\ copy_of h h' k k') /\
  (forall path k', leads h' y path k' -> exists k, leads h l path k /\ copy_of h h' k k') /\
  (forall p q a b a' b', leads h l p a -> leads h l q b -> leads h' y p a' -> leads h' y q b' -> (a' = b' <-> a = b)).
Proof.
  intros fuel h l h' y C L E.
  destruct (deepcopy_all fuel h l h' y C L E) as (_ & _ & _ & A & B & D & F). exact (conj A (conj B (conj D F))).
Qed.
Print Assumptions C73_deepcopy.
Example C73_deepcopy_nonvacuous :
  deepcopy 9 example graph =
    Some (example ++ [Cell Container [2] 3; Cell Instance [state] 1; Cell Instance [2; 5; 6; 6] 4], 7) /\
  deepcopy 9 [Cell Container [0; 0] 8] 0 = Some ([Cell Container [0; 0] 8; Cell Container [1; 1] 8], 1).
Proof. split; reflexivity. Qed.

(** C73, separation: whatever is not shared can be changed in a deep copy without the original
    noticing: it cannot be reached from there, and no object that existed before changes. *)
Theorem C73_separate : forall fuel h l h' y, closed h -> l < List.length h -> deepcopy fuel h l = Some (h', y) ->
  forall path k k', leads h l path k -> ~ kept h k -> leads h' y path k' ->
  ~ reaches h' l k' /\
  forall items data i, i < List.length h -> nth_error (assign h' k' items data) i = nth_error h i.
Proof. exact deepcopy_separate. Qed.
Print Assumptions C73_separate.
Example C73_separate_nonvacuous : exists h' y k', deepcopy 9 example graph = Some (h', y) /\
  leads example graph [1] box /\ ~ kept example box /\ leads h' y [1] k' /\ k' = 5.
Proof.
  eexists _, _, 5. split; [reflexivity|].
  split; [repeat (econstructor; [reflexivity|auto|reflexivity|]); constructor|].
  split; [intros (c & E & K); injection E as <-; destruct K as [K|K]; discriminate K|].
  split; [|reflexivity]. repeat (econstructor; [reflexivity|auto|reflexivity|]). constructor.
Qed.

(** C73, shallow copies: what is meant to be shared is returned as it is; anything else is a new
    object that refers to the same ones. *)
Theorem C73_shallow : forall h l h' y, closed h -> l < List.length h -> shallow h l = Some (h', y) ->
  (forall i, i < List.length h -> nth_error h' i = nth_error h i) /\
  (kept h l -> y = l /\ h' = h) /\ (~ kept h l -> y = List.length h /\ nth_error h' y = nth_error h l).
Proof.
  intros h l h' y C L E. destruct (shallow_all h l h' y C L E) as (_ & _ & _ & A & B). exact (conj A B).
Qed.
Print Assumptions C73_shallow.
Example C73_shallow_nonvacuous : shallow example state = Some (example, state) /\
  shallow example graph = Some (example ++ [Cell Instance [2; box; backend; backend] 4], 5).
Proof. split; reflexivity. Qed.

(** C73, success: what was made after everything it refers to can be copied. *)
Theorem C73_succeeds : forall h l fuel, ordered h -> l < List.length h -> l < fuel ->
  exists h' y, deepcopy fuel h l = Some (h', y).
Proof. exact deepcopy_total. Qed.
Print Assumptions C73_succeeds.
Example C73_succeeds_nonvacuous : ordered example /\ deepcopy 5 example graph <> None /\ deepcopy 2 example graph = None.
Proof.
  split; [|split; [discriminate|reflexivity]].
  intros [|[|[|[|[|[|]]]]]] c i E I; try discriminate E;
    injection E as <-; cbn in I; unfold state, backend, box in I; intuition (subst; auto with arith).
Qed.
