(** C04, C05: registries, ordinals, one_or_none. *)
From Coq Require Import ZArith NArith List Bool String Permutation.
From Verif Require Import Base Str Numerals_Model Utils_Model Utils_Spec Utils_Proofs.
Import ListNotations.

(** C04. After any sequence of registrations with a priority function (failing ones
    included), a key holds [v] iff [v] was offered for it and beats every other offer. *)
Theorem C04_registry_holds_best_offer :
  forall (K V : Type) (eqb : K -> K -> bool), (forall a b, eqb a b = true <-> a = b) ->
  forall (prio : V -> Z) calls k v,
  dget eqb (registers eqb (Some prio) [] calls) k = Some v <-> best_offer prio calls k v.
Proof. exact @registers_prio. Qed.
Print Assumptions C04_registry_holds_best_offer.

(** C04. Without ties this is the offer of highest priority, in whatever order. *)
Theorem C04_highest_priority_wins :
  forall (K V : Type) (eqb : K -> K -> bool), (forall a b, eqb a b = true <-> a = b) ->
  forall (prio : V -> Z) calls k v, no_ties prio calls ->
  dget eqb (registers eqb (Some prio) [] calls) k = Some v <->
  (In (k, v) calls /\ forall w, In (k, w) calls -> (prio w <= prio v)%Z).
Proof. exact @registers_highest. Qed.
Print Assumptions C04_highest_priority_wins.

Theorem C04_order_independent :
  forall (K V : Type) (eqb : K -> K -> bool), (forall a b, eqb a b = true <-> a = b) ->
  forall (prio : V -> Z) calls calls', no_ties prio calls -> Permutation calls calls' ->
  forall k, dget eqb (registers eqb (Some prio) [] calls) k =
            dget eqb (registers eqb (Some prio) [] calls') k.
Proof. exact @registers_any_order. Qed.
Print Assumptions C04_order_independent.

(** C04. A call raises iff the key is taken and there is no priority function or the
    priorities are equal; then the registry is untouched. *)
Theorem C04_raises_iff :
  forall (K V : Type) (eqb : K -> K -> bool) reg k (v : V) get_priority,
  (exists e, fst (register eqb reg k v get_priority) = Err e) <->
  exists w, dget eqb reg k = Some w /\
    match get_priority with None => True | Some prio => prio w = prio v end.
Proof. exact @register_raises_iff. Qed.
Print Assumptions C04_raises_iff.

Theorem C04_failure_changes_nothing :
  forall (K V : Type) (eqb : K -> K -> bool) reg k (v : V) get_priority e,
  fst (register eqb reg k v get_priority) = Err e ->
  e = ValueError /\ snd (register eqb reg k v get_priority) = reg.
Proof. exact @register_error_unchanged. Qed.
Print Assumptions C04_failure_changes_nothing.

(** C04. The call returns its argument and never touches other keys. *)
Theorem C04_returns_value :
  forall (K V : Type) (eqb : K -> K -> bool) reg k (v : V) get_priority r,
  fst (register eqb reg k v get_priority) = Ok r -> r = v.
Proof. exact @register_returns_value. Qed.
Print Assumptions C04_returns_value.

Theorem C04_other_keys_kept :
  forall (K V : Type) (eqb : K -> K -> bool), (forall a b, eqb a b = true <-> a = b) ->
  forall reg k (v : V) get_priority k', k <> k' ->
  dget eqb (snd (register eqb reg k v get_priority)) k' = dget eqb reg k'.
Proof. exact @register_other_keys. Qed.
Print Assumptions C04_other_keys_kept.

(** C04. Without a priority function the first registration of a key is kept forever. *)
Theorem C04_never_replaced_without_priority :
  forall (K V : Type) (eqb : K -> K -> bool), (forall a b, eqb a b = true <-> a = b) ->
  forall calls k (v : V),
  dget eqb (registers eqb None [] calls) k = Some v <-> first_offer calls k v.
Proof. exact @registers_plain. Qed.
Print Assumptions C04_never_replaced_without_priority.

Example C04_instance :
  let prio := fun v : Z => (v / 10)%Z in
  let calls := [(1, 25); (2, 70); (1, 41); (1, 33)]%Z in
  no_ties prio calls /\
  dget Z.eqb (registers Z.eqb (Some prio) [] calls) 1%Z = Some 41%Z /\
  fst (register Z.eqb [(1, 41)]%Z 1%Z 45%Z (Some prio)) = Err ValueError.
Proof.
  split; [|split; reflexivity].
  intros k v w. cbn. intros Hv Hw.
  repeat (destruct Hv as [Hv|Hv]; [inversion Hv; subst; clear Hv|]); try contradiction;
  repeat (destruct Hw as [Hw|Hw]; [inversion Hw; subst; clear Hw|]); try contradiction;
  vm_compute; congruence.
Qed.

(** C05. The statement for every integer:
    [ordinal n] is the numeral followed by the last two letters of its English
    ordinal word (of [|n|] when [n] is negative).  It holds for all naturals... *)
Theorem C05_ordinal_is_english_partial : forall n : N,
  ordinal (Z.of_N n) = (py_str (Z.of_N n) ++ last_two (final_words n))%list.
Proof. exact ordinal_nonneg. Qed.
Print Assumptions C05_ordinal_is_english_partial.

(** ... and fails for negative numbers: [ordinal(-9)] is "-9st". *)
Theorem C05_ordinal_negative_refuted : exists z : Z,
  ordinal z <> (py_str z ++ last_two (final_words (Z.abs_N z)))%list /\ ordinal z = $"-9st".
Proof. exists (-9)%Z. split; vm_compute; congruence. Qed.
Print Assumptions C05_ordinal_negative_refuted.

Example C05_instance :
  ordinal 112 = $"112th" /\ ordinal 1021 = $"1021st" /\
  final_words 1021 = "twenty-first"%string /\ final_words 112 = "twelfth"%string.
Proof. vm_compute. auto. Qed.

(** C05. [one_or_none]: the only element, the default for none, an error for several. *)
Theorem C05_one_or_none : forall (V : Type) (values : option (list V)) default,
  (forall v, values = Some [v] -> one_or_none values default = Ok v) /\
  (values = None \/ values = Some [] -> one_or_none values default = Ok default) /\
  (forall l, values = Some l -> (2 <= List.length l)%nat ->
     one_or_none values default = Err ValueError).
Proof. exact one_or_none_spec. Qed.
Print Assumptions C05_one_or_none.
