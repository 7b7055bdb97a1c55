(** C51: handlers must refine the function they are registered with. *)
From Coq Require Import ZArith List Ascii String Bool.
From Verif Require Import Base Str Hints_Model Hints_Spec Dispatch_Model Dispatch_Spec Dispatch_Proofs.
Import ListNotations.
Open Scope list_scope.

(** For the examples: [Any], formats, partitions and views. *)
Inductive cls := CObject | CNone | CDict | CUnion | CEmpty | CFormat | CJSON | CSequence | CPartition | CLocal | CView.
Definition cls_eqb (a b : cls) : bool :=
  match a, b with
  | CObject, CObject | CNone, CNone | CDict, CDict | CUnion, CUnion | CEmpty, CEmpty | CFormat, CFormat | CJSON, CJSON
  | CSequence, CSequence | CPartition, CPartition | CLocal, CLocal | CView, CView => true
  | _, _ => false
  end.
Definition sub_cls (a b : cls) : bool :=
  match a, b with _, CObject => true | CJSON, CFormat | CLocal, CPartition => true | _, _ => cls_eqb a b end.
Definition none_cls (c : cls) : bool := cls_eqb c CNone.
Definition same_obj (a b : hint cls) : bool := match a, b with HClass a, HClass b => cls_eqb a b | _, _ => false end.
Definition arg (n : str) (h : hint cls) : param cls := Param n PositionalOrKeyword h false.
Definition ex_read : signature cls :=
  Signature [arg $"format" (HClass CFormat); arg $"storage_partitions" (HAlias CSequence [HClass CPartition]); arg $"view" (HClass CView)] HAny.
Definition ex_local : signature cls :=
  Signature [arg $"format" (HClass CJSON); arg $"storage_partitions" (HAlias CSequence [HClass CLocal]); arg $"view" HAny] (HClass CDict).
Definition ex_register (f : signature cls) (h : str) := register sub_cls none_cls CDict CUnion same_obj ex_read [] f h.

(** A handler is added iff it has the parameters of the spec (in any order), each of the same kind
    and with a narrower hint or Any, and a narrower return; otherwise there is a TypeError. *)
Theorem C51_registered_partial : forall (C : Type) issub is_none dict_class union_class same (H : Type) (spec f : signature C) (h : H) table,
  distinct spec -> wide spec -> narrow f ->
  (refines issub is_none dict_class same f spec <->
   register issub is_none dict_class union_class same spec table f h = Ok (table ++ [(map p_hint (params f), h)])) /\
  (~ refines issub is_none dict_class same f spec <->
   register issub is_none dict_class union_class same spec table f h = Err TypeError).
Proof. exact @registered. Qed.
Print Assumptions C51_registered_partial.
Example C51_registered_partial_nonvacuous :
  distinct ex_read /\ wide ex_read /\ narrow ex_local /\
  ex_register ex_local $"local" = Ok [([HClass CJSON; HAlias CSequence [HClass CLocal]; HAny], $"local")] /\
  ex_register (Signature [arg $"format" (HClass CJSON); arg $"storage_partitions" (HAlias CSequence [HClass CView]); arg $"view" HAny] HAny) $"wrong" = Err TypeError.
Proof.
  assert (X : In $"format" [$"storage_partitions"; $"view"] -> False) by (cbn; intros [E|[E|[]]]; discriminate E).
  split; [|split; [|split; [|split; reflexivity]]].
  - repeat constructor; cbn; intuition discriminate.
  - split; [intros p I; cbn in I; repeat destruct I as [<-|I]; try contradiction; repeat constructor|constructor].
  - split; [intros p I; cbn in I; repeat destruct I as [<-|I]; try contradiction; repeat constructor|constructor].
Qed.

(** Before, signatures are tidied: what [get_type_hints] says replaces the annotations, and the
    owner of a method is removed if asked for. Nothing else changes. *)
Theorem C51_tidied : forall (C : Type) hints remove_owner (s s' : signature C), NoDup (map fst hints) ->
  (tidy_signature hints remove_owner s = s' <->
   tidied hints remove_owner (params s) (params s') /\ hinted hints $"return" (returns s) (returns s')).
Proof. exact @tidies. Qed.
Print Assumptions C51_tidied.
(** [tuple[X, Y]] becomes the tuple of its members, any other hint a tuple of one. *)
Theorem C51_tidied_return : forall (C : Type) issub (union_class tuple_class : C) h,
  (forall o args, h = HAlias o args -> issub o tuple_class = true -> tidy_return issub union_class tuple_class h = args) /\
  (issub union_class tuple_class = false -> (forall o args, h = HAlias o args -> issub o tuple_class = false) ->
   tidy_return issub union_class tuple_class h = [h]).
Proof. exact @tidies_return. Qed.
Print Assumptions C51_tidied_return.
Example C51_tidied_nonvacuous :
  let s := Signature [arg $"cls" (HClass CEmpty); arg $"view" (HClass CEmpty); arg $"format" (HClass CEmpty)] (HClass CEmpty) in
  let hints := [($"format", HClass CJSON); ($"return", HAlias CSequence [HClass CView; HClass CNone])] in
  NoDup (map fst hints) /\
  tidy_signature hints true s = Signature [arg $"view" (HClass CEmpty); arg $"format" (HClass CJSON)] (HAlias CSequence [HClass CView; HClass CNone]) /\
  tidy_return sub_cls CUnion CSequence (HAlias CSequence [HClass CView; HClass CNone]) = [HClass CView; HClass CNone] /\
  tidy_return sub_cls CUnion CSequence (HUnion true [HClass CView; HClass CNone]) = [HUnion true [HClass CView; HClass CNone]].
Proof.
  cbn zeta. split; [|split; [|split]; reflexivity]. constructor; [|constructor; [intros []|constructor]].
  intros [E|[]]. discriminate E.
Qed.

(** A signature of classes refines itself, and so do refinements of refinements. *)
Theorem C51_itself : forall (C : Type) issub is_none dict_class same, (forall c : C, issub c c = true) -> forall s, distinct s ->
  (forall p, In p (params s) -> plain (p_hint p)) -> plain (returns s) -> refines issub is_none dict_class same s s.
Proof. exact @refines_itself. Qed.
Print Assumptions C51_itself.
Theorem C51_transitive : forall (C : Type) issub is_none dict_class same,
  (forall a b c : C, issub a b = true -> issub b c = true -> issub a c = true) -> (forall a b, same a b = true -> a = b) ->
  forall f g s, (forall t p, In t [f; g; s] -> In p (params t) -> plain (p_hint p)) -> (forall t, In t [f; g; s] -> plain (returns t)) ->
  refines issub is_none dict_class same f g -> refines issub is_none dict_class same g s -> refines issub is_none dict_class same f s.
Proof. exact @refines_trans. Qed.
Print Assumptions C51_transitive.

(** The function defining the spec is never returned by a lookup. *)
Theorem C51_lookup : forall (C H : Type) (abstract : H -> bool) (resolve : list (hint C) -> result H) args,
  (forall h, lookup abstract resolve args = Ok h <-> resolve args = Ok h /\ abstract h = false) /\
  ((resolve args = Err TypeError \/ exists h, resolve args = Ok h /\ abstract h = true) -> lookup abstract resolve args = Err ValueError).
Proof. exact @lookup_spec. Qed.
Print Assumptions C51_lookup.

(** The order of the parameters is not compared, although handlers are called, and keyed, by
    position: this one is accepted, and keyed with its view first. *)
Theorem C51_order_refuted : exists f, map p_name (params f) <> map p_name (params ex_read) /\
  ex_register f $"shuffled" = Ok [([HClass CView; HClass CJSON; HAlias CSequence [HClass CLocal]], $"shuffled")].
Proof.
  exists (Signature [arg $"view" (HClass CView); arg $"format" (HClass CJSON); arg $"storage_partitions" (HAlias CSequence [HClass CLocal])] HAny).
  split; [discriminate|reflexivity].
Qed.
Print Assumptions C51_order_refuted.
(** A handler whose return hint is a union is refused even if each member is allowed. *)
Theorem C51_union_return_refuted : exists spec f, distinct spec /\
  check_handler sub_cls none_cls CDict CUnion same_obj spec (Signature (params f) (HClass CLocal)) = Ok tt /\
  check_handler sub_cls none_cls CDict CUnion same_obj spec (Signature (params f) (HClass CNone)) = Ok tt /\
  check_handler sub_cls none_cls CDict CUnion same_obj spec (Signature (params f) (HUnion true [HClass CLocal; HClass CNone])) = Err TypeError.
Proof.
  exists (Signature [arg $"view" (HClass CView)] (HUnion true [HTypeVar (Some (HClass CPartition)); HClass CNone])),
         (Signature [arg $"view" (HClass CView)] HAny).
  split; [repeat constructor; intros []|split; [reflexivity|split; reflexivity]].
Qed.
Print Assumptions C51_union_return_refuted.
