(** Which producers and outputs there can be. *)
From Coq Require Import ZArith List Ascii String Bool.
From Verif Require Import Base Str Types_Model PyTypes_Model Views_Model Producers_Model Artifacts_Model Instances_Model.
Import ListNotations.
Open Scope list_scope.

Section Spec.
  Context {V A T P : Type} (class_of : P -> producer_class V A) (asub : A -> A -> bool)
    (type_eqb : ty -> ty -> bool) (can_read can_write : ty * T -> V -> result unit).
  Notation artifact := (artifact A T P).
  Notation producer := (producer A T P).

  (** An artifact of the view's artifact class and type, with handlers for what the view is for. *)
  Definition suits (v : view V A) (a : artifact) : Prop :=
    let 'Art c t r _ := a in
    asub c (v_artifact v) = true /\ type_eqb (v_type v) t = true /\
    (v_mode v <> WRITE -> can_read (t, r) (v_class v) = Ok tt) /\ (v_mode v <> READ -> can_write (t, r) (v_class v) = Ok tt).

  (** The field [n] of a class may be [a]. *)
  Definition takes_input (c : producer_class V A) (n : str) (a : artifact) : Prop :=
    exists cls, In (n, cls) (inputs c) /\ (let 'Art k _ _ _ := a in asub k cls = true) /\
    forall v, In (n, v) (build_inputs c) -> suits v a.
  (** The names of the fields and of the inputs of [build] are different ones, as in every dictionary. *)
  Definition named_apart (c : producer_class V A) : Prop := NoDup (map fst (inputs c)) /\ NoDup (map fst (build_inputs c)).

  (** What is called [b] is [a], now the i-th output of [p]. *)
  Definition becomes (p : producer) (i : nat) (a b : artifact) : Prop :=
    exists c t r, a = Art c t r None /\ b = Art c t r (Some (p, i)).
  (** The i-th of each list. *)
  Definition each {X Y Z} (R : nat -> X -> Y -> Z -> Prop) (xs : list X) (ys : list Y) (zs : list Z) : Prop :=
    List.length ys = List.length xs /\ List.length zs = List.length xs /\
    forall i x y z, nth_error xs i = Some x -> nth_error ys i = Some y -> nth_error zs i = Some z -> R i x y z.

  (** The i-th artifact given suits the i-th view, and the i-th artifact returned is it. *)
  Definition fitting (p : producer) (i : nat) (v : view V A) (a b : artifact) : Prop := suits v a /\ becomes p i a b.
  (** One artifact is returned bare. *)
  Definition shaped (l : list artifact) (r : returned A T P) : Prop :=
    (exists b, l = [b] /\ r = One b) \/ (List.length l <> 1 /\ r = Several l).
  (** The artifact made if none is given. *)
  Definition fresh (make : A -> ty -> result T) (v : view V A) (a : artifact) : Prop :=
    exists r, make (v_artifact v) (v_type v) = Ok r /\ a = Art (v_artifact v) (v_type v) r None.

  (** Artifacts all of whose producers, and theirs, have inputs and outputs that suit their views. *)
  Inductive sound : artifact -> Prop :=
  | sound_raw : forall c t r, sound (Art c t r None)
  | sound_output : forall c t r p i v, sound_producer p ->
      nth_error (outputs (class_of (let 'Prod k _ := p in k))) i = Some v -> suits v (Art c t r (Some (p, i))) ->
      sound (Art c t r (Some (p, i)))
  with sound_producer : producer -> Prop :=
  | sound_inputs : forall k args, map fst args = map fst (inputs (class_of k)) ->
      (forall n a, In (n, a) args -> takes_input (class_of k) n a /\ sound a) -> sound_producer (Prod k args).

  (** [p] is the producer of [a], or of an input of it, and so on. *)
  Inductive behind : producer -> artifact -> Prop :=
  | behind_this : forall c t r p i, behind p (Art c t r (Some (p, i)))
  | behind_input : forall c t r k args i n a p, In (n, a) args -> behind p a -> behind p (Art c t r (Some (Prod k args, i))).
  (** [b] is [a], or an input of a producer behind it. *)
  Definition reached (b a : artifact) : Prop := b = a \/ exists k args n, behind (Prod k args) a /\ In (n, b) args.
End Spec.

(** The arguments of an artifact of which only the type is given. *)
Definition only_type {F S N M} (t : ty) : Artifacts_Model.keywords ty F S N M :=
  {| Artifacts_Model.k_type := Artifacts_Model.Given t; Artifacts_Model.k_format := Artifacts_Model.Absent; Artifacts_Model.k_storage := Artifacts_Model.Absent;
     Artifacts_Model.k_annotations := Artifacts_Model.NoItems; Artifacts_Model.k_statistics := Artifacts_Model.NoItems; Artifacts_Model.k_unknown := false |}.

Section Made.
  Context {V A T P : Type} (class_of : P -> producer_class V A) (asub : A -> A -> bool) (type_eqb : ty -> ty -> bool)
    (can_read can_write : ty * T -> V -> result unit) (make : A -> ty -> result T) (resolve_storage : bool -> T -> result T).

  (** The artifacts and producers a program can come by: artifacts nobody produces, producers of such
      inputs, their outputs, and what graphs make of them. *)
  Inductive made : artifact A T P -> Prop :=
  | made_raw : forall c t r, made (Art c t r None)
  | made_output : forall p l r a, made_producer p -> (forall b, In b l -> made b) ->
      out class_of asub type_eqb can_read can_write make p l = Ok r -> In a (items r) -> made a
  | made_iter : forall p l a, made_producer p -> iter class_of asub type_eqb can_read can_write make p = Ok l -> In a l -> made a
  | made_assigned : forall a b, made a -> assign resolve_storage a = Ok b -> made b
  with made_producer : producer A T P -> Prop :=
  | made_created : forall k args p, (forall n a, In (n, Some a) args -> made a) ->
      create class_of asub type_eqb can_read can_write k args = Ok p -> made_producer p.
End Made.
