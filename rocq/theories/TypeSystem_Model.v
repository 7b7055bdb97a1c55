(** Model of src/arti/types/__init__.py lines 284-391: TypeAdapter and TypeSystem, for any
    Artigraph types [A], external types [X] and hints [H]. Definitions only. *)
From Coq Require Import ZArith List Ascii String Bool.
From Verif Require Import Base Str Utils_Model.
Import ListNotations.
Open Scope list_scope.

Section TypeSystem.
  Context {A X H : Type}.

  (** TypeAdapter (284-308). The [type_system] argument of the conversions is only used to
      convert parts, so the conversions receive that function instead. *)
  Record adapter := {
    a_key : str;
    a_priority : Z;
    matches_artigraph : A -> H -> result bool;
    adapt_to_system : (A -> H -> result X) -> A -> H -> result X;
    matches_system : X -> H -> result bool;
    adapt_to_artigraph : (X -> H -> result A) -> X -> H -> result A }.

  (** TypeSystem (347-354): the registry and the extended systems. *)
  Inductive system := TypeSystem (adapter_by_key : list (str * adapter)) (extends : list system).

  (** [register_adapter] (356-357) *)
  Definition register_adapter (s : system) (a : adapter) : result adapter * system :=
    let '(r, registry) := register str_eqb (let '(TypeSystem l _) := s in l) (a_key a) a None in
    (r, TypeSystem registry (let '(TypeSystem _ e) := s in e)).

  (** [_priority_sorted_adapters] (359-361): Python's sort is stable, also in reverse. *)
  Fixpoint insert_priority (a : adapter) (l : list adapter) : list adapter :=
    match l with
    | [] => [a]
    | b :: l' => if (a_priority b <=? a_priority a)%Z then a :: l else b :: insert_priority a l'
    end.
  Definition priority_sorted (registry : list (str * adapter)) : list adapter :=
    fold_right insert_priority [] (map snd registry).

  (** The two conversions (363-391) have the same shape. *)
  Section Convert.
    Context {B C : Type} (matches : adapter -> B -> H -> result bool) (adapt : adapter -> B -> H -> result C).

    Fixpoint try_adapters (l : list adapter) (x : B) (h : H) : option (result C) :=
      match l with
      | [] => None
      | a :: l' => match matches a x h with
                   | Ok true => Some (adapt a x h)
                   | Ok false => try_adapters l' x h
                   | Err e => Some (Err e)
                   end
      end.

    Fixpoint convert (s : system) (x : B) (h : H) : result C :=
      match s with
      | TypeSystem registry extends =>
          match try_adapters (priority_sorted registry) x h with
          | Some r => r
          | None =>
              (fix consult (l : list system) : result C :=
                 match l with
                 | [] => Err NotImplementedError
                 | s' :: l' => match convert s' x h with
                               | Err NotImplementedError => consult l'
                               | r => r
                               end
                 end) extends
          end
      end.
  End Convert.

  (** [to_artigraph] and [to_system] on the root system. The adapters call them again on parts;
      [depth] is what is left of Python's stack. *)
  Fixpoint to_artigraph (depth : nat) (s : system) (x : X) (h : H) : result A :=
    match depth with
    | O => Err RecursionError
    | S n => convert matches_system (fun a => adapt_to_artigraph a (to_artigraph n s)) s x h
    end.
  Fixpoint to_system (depth : nat) (s : system) (x : A) (h : H) : result X :=
    match depth with
    | O => Err RecursionError
    | S n => convert matches_artigraph (fun a => adapt_to_system a (to_system n s)) s x h
    end.
End TypeSystem.
Arguments adapter : clear implicits.
Arguments system : clear implicits.
