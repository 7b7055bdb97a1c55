(** C30: [lenient_issubclass] is a subtyping relation on hints. *)
From Coq Require Import ZArith List Ascii String Bool.
From Verif Require Import Base Str Hints_Model Hints_Spec Hints_Proofs.
Import ListNotations.
Open Scope list_scope.

(** A small class hierarchy for the examples: [bool < int < object], [list < object], ... *)
Inductive cls := CObject | CInt | CBool | CStr | CList | CTuple | CDict | CNone | CUnion.
Definition cls_eqb (a b : cls) : bool :=
  match a, b with
  | CObject, CObject | CInt, CInt | CBool, CBool | CStr, CStr | CList, CList | CTuple, CTuple
  | CDict, CDict | CNone, CNone | CUnion, CUnion => true
  | _, _ => false
  end.
Definition sub_cls (a b : cls) : bool :=
  match a, b with _, CObject => true | CBool, CInt => true | _, _ => cls_eqb a b end.
Definition none_cls (c : cls) : bool := cls_eqb c CNone.
(** [is] on the hints of the examples: [None], [...] and classes are unique objects. *)
Definition same_obj (a b : hint cls) : bool :=
  match a, b with
  | HNone, HNone | HEllipsis, HEllipsis => true
  | HClass a, HClass b => cls_eqb a b
  | _, _ => false
  end.
Definition ask (k c : hint cls) : result bool := lenient_issubclass sub_cls none_cls CDict CUnion same_obj k c.

(** For classes and subscripted classes (behind Annotated and TypeVars, with any arguments) the
    check always answers, and the answer is subtyping. *)
Theorem C30_subtyping : forall (C : Type) (issub : C -> C -> bool) is_none dict_class union_class same k c,
  source k -> target false c ->
  (lenient_issubclass issub is_none dict_class union_class same k c = Ok true /\ sub issub is_none dict_class same k c) \/
  (lenient_issubclass issub is_none dict_class union_class same k c = Ok false /\ ~ sub issub is_none dict_class same k c).
Proof. exact @lenient_decides. Qed.
Print Assumptions C30_subtyping.
(** [dict[str, list[bool]]] against [str | dict[str, Annotated[list[int], ...]]]. *)
Example C30_subtyping_nonvacuous :
  let k := HAlias CDict [HClass CStr; HAlias CList [HClass CBool]] in
  let c := HUnion true [HClass CStr; HAlias CDict [HClass CStr; HAnnotated (HAlias CList [HClass CInt])]] in
  source k /\ target false c /\ ask k c = Ok true /\ ask k (HAlias CDict [HClass CStr; HAlias CList [HClass CStr]]) = Ok false.
Proof.
  cbn zeta. split; [|split; [|split; reflexivity]].
  - constructor. repeat constructor.
  - constructor. repeat constructor.
Qed.

(** Against a tuple of classes: whether it is a subtype of any of them. *)
Theorem C30_tuple : forall (C : Type) (issub : C -> C -> bool) is_none dict_class union_class same k cs,
  source k -> Forall (target false) cs ->
  (lenient_issubclass_any issub is_none dict_class union_class same k cs = Ok true /\
   exists c, In c cs /\ sub issub is_none dict_class same k c) \/
  (lenient_issubclass_any issub is_none dict_class union_class same k cs = Ok false /\
   forall c, In c cs -> ~ sub issub is_none dict_class same k c).
Proof. exact @tuple_decides. Qed.
Print Assumptions C30_tuple.
Example C30_tuple_nonvacuous :
  let k := HAlias CList [HClass CBool] in let cs := [HClass CStr; HAlias CList [HClass CInt]; HNone] in
  source k /\ Forall (target false) cs /\
  lenient_issubclass_any sub_cls none_cls CDict CUnion same_obj k cs = Ok true /\
  lenient_issubclass_any sub_cls none_cls CDict CUnion same_obj (HClass CObject) cs = Ok false.
Proof. cbn zeta. split; [|split; [|split; reflexivity]]; repeat constructor. Qed.

(** Even when [...], literals or TypedDicts occur in the class checked against, an answer is
    right: what remains is that it may raise. *)
Theorem C30_right_when_it_answers : forall (C : Type) (issub : C -> C -> bool) is_none dict_class union_class same c k b,
  target true c -> (accepted k = true -> source k) ->
  lenient_issubclass issub is_none dict_class union_class same k c = Ok b ->
  (b = true <-> sub issub is_none dict_class same k c).
Proof. intros C issub is_none dict_class union_class same c k b T S H. exact (lenient_sound _ _ _ _ _ true c T k S b H). Qed.
Print Assumptions C30_right_when_it_answers.
(** [tuple[bool, ...]] against [tuple[int, ...]]. *)
Example C30_right_when_it_answers_nonvacuous :
  let k := HAlias CTuple [HClass CBool; HEllipsis] in let c := HAlias CTuple [HClass CInt; HEllipsis] in
  target true c /\ source k /\ ask k c = Ok true.
Proof.
  cbn zeta. split; [|split; [|reflexivity]]; repeat constructor. intro H; discriminate H.
Qed.

Theorem C30_reflexive : forall (C : Type) (issub : C -> C -> bool) is_none dict_class union_class same,
  (forall c, issub c c = true) -> forall h, plain h ->
  lenient_issubclass issub is_none dict_class union_class same h h = Ok true.
Proof. exact @lenient_refl. Qed.
Print Assumptions C30_reflexive.
Example C30_reflexive_nonvacuous : (forall c, sub_cls c c = true) /\ plain (HAlias CDict [HClass CStr; HAlias CList [HClass CInt]]).
Proof. split; [intros []; reflexivity|repeat constructor]. Qed.

Theorem C30_transitive : forall (C : Type) (issub : C -> C -> bool) is_none dict_class union_class same,
  (forall a b c, issub a b = true -> issub b c = true -> issub a c = true) ->
  (forall a b, same a b = true -> a = b) ->
  forall a b c, plain a -> plain b -> plain c ->
  lenient_issubclass issub is_none dict_class union_class same a b = Ok true ->
  lenient_issubclass issub is_none dict_class union_class same b c = Ok true ->
  lenient_issubclass issub is_none dict_class union_class same a c = Ok true.
Proof. exact @lenient_trans. Qed.
Print Assumptions C30_transitive.
Example C30_transitive_nonvacuous :
  (forall a b c, sub_cls a b = true -> sub_cls b c = true -> sub_cls a c = true) /\
  (forall a b, same_obj a b = true -> a = b) /\
  ask (HAlias CList [HClass CBool]) (HAlias CList [HClass CInt]) = Ok true /\
  ask (HAlias CList [HClass CInt]) (HAlias CList [HClass CObject]) = Ok true.
Proof.
  split; [|split; [|split; reflexivity]].
  - intros [] [] []; cbn; congruence.
  - intros [] []; cbn; try congruence. intro H. f_equal. destruct c, c0; cbn in H; congruence.
Qed.

(** Any is the top, and below no class. *)
Theorem C30_any_is_top : forall (C : Type) (issub : C -> C -> bool) is_none dict_class union_class same k,
  accepted k = true -> lenient_issubclass issub is_none dict_class union_class same k HAny = Ok true.
Proof. exact @lenient_any. Qed.
Print Assumptions C30_any_is_top.
Theorem C30_any_below_no_class : forall (C : Type) (issub : C -> C -> bool) is_none dict_class union_class same c,
  plain c -> lenient_issubclass issub is_none dict_class union_class same HAny c = Ok false.
Proof. exact @any_below. Qed.
Print Assumptions C30_any_below_no_class.
Example C30_any_nonvacuous : ask (HAlias CList [HClass CInt]) HAny = Ok true /\ ask HAny HAny = Ok true /\
  ask HAny (HClass CObject) = Ok false.
Proof. repeat split. Qed.

(** A Union is a disjunction: true iff an alternative is, for any first argument at all. *)
Theorem C30_union_is_disjunction : forall (C : Type) (issub : C -> C -> bool) is_none dict_class union_class same k bar cs,
  (forall c, In c cs -> exists b, lenient_issubclass issub is_none dict_class union_class same k c = Ok b) ->
  (lenient_issubclass issub is_none dict_class union_class same k (HUnion bar cs) = Ok true <->
   exists c, In c cs /\ lenient_issubclass issub is_none dict_class union_class same k c = Ok true).
Proof. exact @lenient_union. Qed.
Print Assumptions C30_union_is_disjunction.
Example C30_union_nonvacuous : ask (HClass CBool) (HUnion false [HClass CStr; HClass CInt]) = Ok true /\
  (forall c, In c [HClass CStr; HClass CInt] -> exists b, ask (HClass CBool) c = Ok b).
Proof. split; [reflexivity|]. intros c [ <- |[ <- |[]]]; eexists; reflexivity. Qed.

(** Annotated is ignored on either side (Python never nests Annotated directly). *)
Theorem C30_annotated_ignored : forall (C : Type) (issub : C -> C -> bool) is_none dict_class union_class same k c,
  (accepted k = true -> annotated k = false ->
   lenient_issubclass issub is_none dict_class union_class same (HAnnotated k) c =
   lenient_issubclass issub is_none dict_class union_class same k c) /\
  (annotated c = false -> union c = false ->
   lenient_issubclass issub is_none dict_class union_class same k (HAnnotated c) =
   lenient_issubclass issub is_none dict_class union_class same k c).
Proof. exact @lenient_annotated. Qed.
Print Assumptions C30_annotated_ignored.
Example C30_annotated_nonvacuous :
  accepted (HAlias CList [HClass CBool]) = true /\
  ask (HAnnotated (HAlias CList [HClass CBool])) (HAnnotated (HAlias CList [HClass CInt])) = Ok true.
Proof. split; reflexivity. Qed.

(** Covariance, for any arguments: subscripted classes are related if their origins and all
    their arguments are. *)
Theorem C30_covariant : forall (C : Type) (issub : C -> C -> bool) is_none dict_class union_class same o p ks cs,
  issub o p = true ->
  Forall2 (fun k c => lenient_issubclass issub is_none dict_class union_class same k c = Ok true) ks cs ->
  lenient_issubclass issub is_none dict_class union_class same (HAlias o ks) (HAlias p cs) = Ok true.
Proof. exact @lenient_covariant. Qed.
Print Assumptions C30_covariant.
Example C30_covariant_nonvacuous :
  Forall2 (fun k c => ask k c = Ok true) [HClass CStr; HAlias CList [HClass CBool]] [HAny; HAlias CList [HClass CInt]] /\
  ask (HAlias CDict [HClass CStr; HAlias CList [HClass CBool]]) (HAlias CDict [HAny; HAlias CList [HClass CInt]]) = Ok true.
Proof. split; [repeat constructor|reflexivity]. Qed.

(** A tuple of classes checked against a tuple of classes of a different length is refused. *)
Theorem C30_arity : forall (C : Type) (issub : C -> C -> bool) is_none dict_class union_class same o p ks cs,
  cs <> [] -> List.length ks <> List.length cs ->
  lenient_issubclass issub is_none dict_class union_class same (HAlias o ks) (HAlias p cs) = Ok false.
Proof. exact @lenient_arity. Qed.
Print Assumptions C30_arity.
Example C30_arity_nonvacuous : ask (HAlias CTuple [HClass CInt]) (HAlias CTuple [HClass CInt; HClass CInt]) = Ok false.
Proof. reflexivity. Qed.

(** Annotated is not ignored around a Union: [bool] is below [int | str], but the annotated
    union answers False, or raises TypeError when written [Union[int, str]]. *)
Theorem C30_annotated_union_refuted : exists k c c',
  ask k (HUnion true [c; c']) = Ok true /\ ask k (HAnnotated (HUnion true [c; c'])) = Ok false /\
  ask k (HUnion false [c; c']) = Ok true /\ ask k (HAnnotated (HUnion false [c; c'])) = Err TypeError.
Proof. exists (HClass CBool), (HClass CInt), (HClass CStr). repeat split. Qed.
Print Assumptions C30_annotated_union_refuted.

(** Reflexivity fails for hints that are no classes, even where the docstring's "things like
    [...]" might suggest otherwise: [int | str] against itself, TypedDicts (TypeError), and a
    list of unions written twice. *)
Theorem C30_reflexive_refuted : exists u d l,
  ask u u = Ok false /\ ask d d = Err TypeError /\ ask l l = Ok false.
Proof.
  exists (HUnion true [HClass CInt; HClass CStr]), (HTypedDict ($"P") [($"x", HClass CInt)]),
         (HAlias CList [HUnion true [HClass CInt; HClass CStr]]). repeat split.
Qed.
Print Assumptions C30_reflexive_refuted.

(** [tuple[int, int]] against [tuple[int, ...]] raises instead of answering. *)
Theorem C30_total_refuted : exists k c, source k /\ target true c /\ ask k c = Err TypeError.
Proof.
  exists (HAlias CTuple [HClass CInt; HClass CInt]), (HAlias CTuple [HClass CInt; HEllipsis]).
  split; [|split; [|reflexivity]]; repeat constructor.
Qed.
Print Assumptions C30_total_refuted.
