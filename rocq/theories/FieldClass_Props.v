(** C74: which class of partition fields belongs to a type. *)
From Coq Require Import List Bool Arith String Lia.
From Verif Require Import Base Str Partitions_Model FieldClass_Model FieldClass_Spec FieldClass_Proofs.
Import ListNotations.
Open Scope list_scope.

(** A class for type 6 (a plugin), one that extends [DateField], and one whose default names no component. *)
Definition plugin := field_body 0 None (Some [$"value"]) (Some 6) [$"value"].
Definition my_date := field_body 1 None None None [$"week"].
Definition wrong := field_body 0 None (Some [$"Y"; $"week"]) (Some 7) [$"Y"].

(** C74, lookup: after any class statements, the class found for a type is the one class for it that
    can be instantiated. *)
Theorem C74_lookup : forall (T : Type) (eqb : T -> T -> bool), (forall a b, eqb a b = true <-> a = b) ->
  forall wraps bs n t, let s := defines eqb wraps initial bs in
  FieldClass_Model.get_class_for eqb s t = Ok n <-> concrete s n t.
Proof. exact @lookup. Qed.
Print Assumptions C74_lookup.
Example C74_lookup_nonvacuous :
  let s := defines Nat.eqb true initial (built_in ++ [my_date; wrong; plugin]) in
  concrete s 8 6 /\ FieldClass_Model.get_class_for Nat.eqb s 6 = Ok 8 /\ FieldClass_Model.get_class_for Nat.eqb s 7 = Err KeyError.
Proof. cbv zeta. split; [|split]; [eexists; repeat split; reflexivity|reflexivity|reflexivity]. Qed.

(** C74, stability: no class statement, whether it fails or not, changes what was found before. *)
Theorem C74_stable : forall (T : Type) (eqb : T -> T -> bool), (forall a b, eqb a b = true <-> a = b) ->
  forall wraps bs s t n, FieldClass_Model.get_class_for eqb s t = Ok n ->
  FieldClass_Model.get_class_for eqb (defines eqb wraps s bs) t = Ok n.
Proof. exact @stable. Qed.
Print Assumptions C74_stable.
Example C74_stable_nonvacuous :
  let s := defines Nat.eqb true initial built_in in
  FieldClass_Model.get_class_for Nat.eqb s 0 = Ok 1 /\
  fst (define Nat.eqb true s (field_body 0 None (Some []) (Some 0) [])) = Err ValueError.
Proof. split; reflexivity. Qed.

(** C74, components: the defaults of every class that is found are components of it. *)
Theorem C74_components : forall (T : Type) (eqb : T -> T -> bool), (forall a b, eqb a b = true <-> a = b) ->
  forall wraps bs n t, let s := defines eqb wraps initial bs in concrete s n t ->
  wraps = true /\ exists c, nth_error (classes s) n = Some c /\ sound c t.
Proof. exact @defaults_sound. Qed.
Print Assumptions C74_components.
Example C74_components_nonvacuous : concrete (defines Nat.eqb true initial built_in) 6 4.
Proof. eexists. repeat split; reflexivity. Qed.

(** C74, outcomes: exactly which class statements succeed, which raise a ValueError (the type is
    taken) and which a TypeError; those that raise leave everything as it was. *)
Theorem C74_outcome : forall (T : Type) (eqb : T -> T -> bool), (forall a b, eqb a b = true <-> a = b) ->
  forall wraps bs b base, let s := defines eqb wraps initial bs in
  nth_error (classes s) (b_base b) = Some base -> let c := inherit base b in
  (fst (define eqb wraps s b) = Ok (List.length (classes s)) <->
     c_abstract c = true \/ wraps = true /\ exists t, sound c t /\ forall n, ~ concrete s n t) /\
  (fst (define eqb wraps s b) = Err ValueError <->
     c_abstract c = false /\ wraps = true /\ exists t n, sound c t /\ concrete s n t) /\
  (fst (define eqb wraps s b) = Err TypeError <-> c_abstract c = false /\ (wraps = false \/ ~ exists t, sound c t)) /\
  ((forall n, fst (define eqb wraps s b) <> Ok n) -> snd (define eqb wraps s b) = s).
Proof. exact @outcome. Qed.
Print Assumptions C74_outcome.
Example C74_outcome_nonvacuous :
  let s := defines Nat.eqb true initial built_in in
  fst (define Nat.eqb true s plugin) = Ok 8 /\ fst (define Nat.eqb true s my_date) = Err ValueError /\
  fst (define Nat.eqb true s wrong) = Err TypeError /\
  fst (define Nat.eqb true s (field_body 0 None None (Some 6) [])) = Err TypeError /\
  fst (define Nat.eqb true s (field_body 0 None (Some []) None [])) = Err TypeError /\
  fst (define Nat.eqb true s (field_body 1 (Some true) None None [])) = Ok 8.
Proof. repeat split; reflexivity. Qed.

(** C74, subclasses: a class that can be instantiated can only be extended by an abstract one or by
    one for another type. *)
Theorem C74_extended : forall (T : Type) (eqb : T -> T -> bool), (forall a b, eqb a b = true <-> a = b) ->
  forall wraps bs b n t, let s := defines eqb wraps initial bs in concrete s n t -> b_base b = n ->
  b_abstract b <> Some true -> b_type b = None ->
  (fst (define eqb wraps s b) = Err ValueError \/ fst (define eqb wraps s b) = Err TypeError) /\
  snd (define eqb wraps s b) = s.
Proof. exact @extend. Qed.
Print Assumptions C74_extended.
Example C74_extended_nonvacuous : let s := defines Nat.eqb true initial built_in in
  concrete s 1 0 /\ b_base my_date = 1 /\ b_abstract my_date <> Some true /\ b_type my_date = None.
Proof. cbv zeta. split; [eexists; repeat split; reflexivity|]. repeat split; discriminate. Qed.

(** C74, the classes of the package: they are found for their types whatever is defined later, as
    [Partitions_Model] says, and without plugins there are no others. *)
Theorem C74_built_in :
  (forall more p, let s := defines Nat.eqb true initial (built_in ++ more) in
   match type_number p with
   | Some t => exists f, Partitions_Model.get_class_for p = Ok f /\ FieldClass_Model.get_class_for Nat.eqb s t = Ok (class_number f)
   | None => Partitions_Model.get_class_for p = Err KeyError
   end) /\
  (forall t, 6 <= t -> FieldClass_Model.get_class_for Nat.eqb (defines Nat.eqb true initial built_in) t = Err KeyError).
Proof. exact (conj built_in_classes built_in_only). Qed.
Print Assumptions C74_built_in.
Example C74_built_in_nonvacuous :
  FieldClass_Model.get_class_for Nat.eqb (defines Nat.eqb true initial (built_in ++ [plugin])) 3 = Ok 5 /\
  Partitions_Model.get_class_for (TInt W32) = Ok (IntField W32).
Proof. split; reflexivity. Qed.

(** C74, refuted for interpreters in which class methods do not wrap properties (Python 3.13 and
    later, which pyproject.toml admits): the first concrete class is a TypeError, and no class is
    ever found for any type. *)
Theorem C74_newer_python_refuted :
  fst (define Nat.eqb false initial (hd plugin built_in)) = Err TypeError /\
  forall (T : Type) (eqb : T -> T -> bool), (forall a b, eqb a b = true <-> a = b) ->
  forall bs t, FieldClass_Model.get_class_for eqb (defines eqb false initial bs) t = Err KeyError.
Proof. exact (conj eq_refl nothing_registered). Qed.
Print Assumptions C74_newer_python_refuted.

(** C74, attributes: a class has what its statement sets and otherwise what its base has; only its
    own [_abstract_] counts; fields and components add up. *)
Theorem C74_attributes : forall (T : Type) (eqb : T -> T -> bool) wraps s b n base,
  fst (define eqb wraps s b) = Ok n -> nth_error (classes s) (b_base b) = Some base ->
  exists c : class T, nth_error (classes (snd (define eqb wraps s b))) n = Some c /\
    (c_abstract c = true <-> b_abstract b = Some true) /\
    (forall d, b_defaults b = Some d -> c_defaults c = Some d) /\ (b_defaults b = None -> c_defaults c = c_defaults base) /\
    (forall t, b_type b = Some t -> c_type c = Some t) /\ (b_type b = None -> c_type c = c_type base) /\
    (forall x, In x (c_components c) <-> In x (c_components base) \/ In x (b_components b)).
Proof. exact attributes. Qed.
Print Assumptions C74_attributes.
Example C74_attributes_nonvacuous :
  let s := defines Nat.eqb true initial built_in in
  let b := field_body 1 None (Some [$"iso"]) (Some 6) [$"week"] in
  fst (define Nat.eqb true s b) = Ok 8 /\
  nth_error (classes (snd (define Nat.eqb true s b))) 8 =
    Some {| c_abstract := false; c_defaults := Some [$"iso"]; c_type := Some 6;
            c_components := [$"value"; $"Y"; $"m"; $"d"; $"iso"; $"week"] |}.
Proof. split; reflexivity. Qed.
