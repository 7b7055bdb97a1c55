(** C25: how a type system picks its adapter. *)
From Coq Require Import ZArith List Ascii String Bool Permutation Lia.
From Verif Require Import Base Str TypeSystem_Model TypeSystem_Spec TypeSystem_Proofs.
Import ListNotations.
Open Scope list_scope.

(** C25. The result is that of the matching adapter of highest priority, first registered on
    ties; extended systems are consulted in order only when none matches, and their
    NotImplementedErrors are passed over. *)
Theorem C25_to_system : forall A X H n (s : system A X H) t h r,
  to_system (S n) s t h = r <->
  converts matches_artigraph (fun a => adapt_to_system a (to_system n s)) s t h r.
Proof. intros A X H n s t h r. exact (convert_spec _ _ s t h r). Qed.
Print Assumptions C25_to_system.

Theorem C25_to_artigraph : forall A X H n (s : system A X H) x h r,
  to_artigraph (S n) s x h = r <->
  converts matches_system (fun a => adapt_to_artigraph a (to_artigraph n s)) s x h r.
Proof. intros A X H n s x h r. exact (convert_spec _ _ s x h r). Qed.
Print Assumptions C25_to_artigraph.

(** C25. Without any matching adapter, here or in what is extended, there is a
    NotImplementedError. *)
Theorem C25_unsupported : forall A X H n (s : system A X H) t x h,
  (unmatched matches_artigraph s t h -> to_system (S n) s t h = Err NotImplementedError) /\
  (unmatched matches_system s x h -> to_artigraph (S n) s x h = Err NotImplementedError).
Proof. intros A X H n s t x h. exact (conj (unmatched_unsupported _ _ s t h) (unmatched_unsupported _ _ s x h)). Qed.
Print Assumptions C25_unsupported.

(** C25. The order of registration only matters between matching adapters of the same
    priority. [convert] is what both conversions run. *)
Theorem C25_registration_order : forall A X H B C matches adapt (l l' : list (str * adapter A X H)) e (x : B) h,
  Permutation l l' -> (forall k a, In (k, a) l -> exists b, matches a x h = Ok b) ->
  (forall k a k' a', In (k, a) l -> In (k', a') l -> matches a x h = Ok true -> matches a' x h = Ok true ->
     a_priority a = a_priority a' -> a = a') ->
  convert matches adapt (TypeSystem l e) x h = convert (C:=C) matches adapt (TypeSystem l' e) x h.
Proof. intros A X H B C matches adapt. exact (registration_order matches adapt). Qed.
Print Assumptions C25_registration_order.

(** C25. An adapter is registered unless its key is taken. It converts what matches it unless an
    adapter of at least its priority matches too, and changes nothing for what does not match it. *)
Theorem C25_registered : forall A X H l e (a : adapter A X H),
  (~ In (a_key a) (map fst l) -> register_adapter (TypeSystem l e) a = (Ok a, TypeSystem (l ++ [(a_key a, a)]) e)) /\
  (In (a_key a) (map fst l) -> register_adapter (TypeSystem l e) a = (Err ValueError, TypeSystem l e)).
Proof. exact adapter_registered. Qed.
Print Assumptions C25_registered.
Theorem C25_new_adapter : forall A X H B C matches adapt l e k (a : adapter A X H) (x : B) h,
  (matches a x h = Ok false ->
   convert matches adapt (TypeSystem (l ++ [(k, a)]) e) x h = convert (C:=C) matches adapt (TypeSystem l e) x h) /\
  (matches a x h = Ok true ->
   (forall k' b, In (k', b) l -> (a_priority a <= a_priority b)%Z -> matches b x h = Ok false) ->
   convert matches adapt (TypeSystem (l ++ [(k, a)]) e) x h = adapt a x h).
Proof. intros A X H B C matches adapt l e k a x h. exact (conj (added matches adapt l e k a x h) (added_first matches adapt l e k a x h)). Qed.
Print Assumptions C25_new_adapter.

(** Three adapters for numbers below 10, 20 and 20, the last with a higher priority, and an
    extended system for all. *)
Definition below (key : str) (priority n : Z) : adapter Z Z unit :=
  {| a_key := key; a_priority := priority;
     matches_artigraph := fun x _ => Ok (x <? n)%Z; adapt_to_system := fun _ x _ => Ok (x + n)%Z;
     matches_system := fun x _ => Ok (x <? n)%Z; adapt_to_artigraph := fun _ x _ => Ok (x - n)%Z |}.
Example C25_instance :
  let l := [($"a", below $"a" 0 10); ($"b", below $"b" 0 20); ($"c", below $"c" 5 15)] in
  let s := TypeSystem l [TypeSystem [($"d", below $"d" 0 100)] []] in
  map (fun x => to_system 1 s x tt) [1; 16; 50; 200]%Z = [Ok 16; Ok 36; Ok 150; Err NotImplementedError]%Z /\
  decides matches_artigraph l 1%Z tt (below $"c" 5 15) (Ok true) /\
  unmatched matches_artigraph s 200%Z tt.
Proof.
  cbv zeta. split; [reflexivity|]. split.
  - exists [below $"a" 0 10; below $"b" 0 20], []. repeat split; [|intros ? []].
    intros b [<-|[<-|[]]]; cbn; lia.
  - constructor; [|constructor; [|constructor]].
    + intros k b [E|[E|[E|[]]]]; inversion E; reflexivity.
    + constructor; [|constructor]. intros k b [E|[]]; inversion E; reflexivity.
Qed.
Example C25_registered_instance :
  let s := TypeSystem [($"a", below $"a" 0 10)] [] in
  fst (register_adapter s (below $"a" 5 20)) = Err ValueError /\
  let s' := snd (register_adapter s (below $"b" 5 8)) in
  map (fun x => to_system 1 s x tt) [1; 9]%Z = [Ok 11; Ok 19]%Z /\ map (fun x => to_system 1 s' x tt) [1; 9]%Z = [Ok 9; Ok 19]%Z.
Proof. cbv zeta. repeat split; reflexivity. Qed.
