(** C06: nested error prefixes. *)
From Coq Require Import String List Bool Arith.
From Verif Require Import Str WrapExc_Model WrapExc_Spec WrapExc_Proofs.
Import ListNotations.
Open Scope list_scope.

(** C06. An original error of a class caught by [t] crosses any nesting of contexts of
    type [t] and of unrelated types: it comes out with the prefixes of the [t] contexts,
    outermost first, then " - " and its own text, and is itself the direct cause; if
    there is no [t] context it comes out unchanged. [mine] tests for [t]. *)
Theorem C06_prefixes_compose :
  forall (cls : Type) (issub : cls -> cls -> bool) (show : cls -> str -> str) A t e ctxs,
  issub (exc_class e) t = true -> issub t t = true -> (forall m, show t m = m) -> original e ->
  (forall u p, In (u, p) ctxs -> u = t \/ (issub (exc_class e) u = false /\ issub t u = false)) ->
  forall mine : cls -> bool, (forall u, mine u = true <-> u = t) ->
  nest issub show ctxs (@Raised cls A e) =
  match filter (fun c => mine (fst c)) ctxs with
  | [] => Raised e
  | l => Raised (Exc t (List.concat (map snd l) ++ $" - " ++ exc_text e) true (Some e))
  end.
Proof. exact @nest_mixed. Qed.
Print Assumptions C06_prefixes_compose.

(** C06. The same for contexts of different, increasingly general types: the class is
    that of the outermost context, the cause still the original error. *)
Theorem C06_general_types_compose :
  forall (cls : Type) (issub : cls -> cls -> bool) (show : cls -> str -> str) A e t p ctxs,
  (forall u m q, In (u, q) ((t, p) :: ctxs) -> show u m = m) -> original e ->
  catches issub e ((t, p) :: ctxs) ->
  nest issub show ((t, p) :: ctxs) (@Raised cls A e) =
  Raised (Exc t (List.concat (map snd ((t, p) :: ctxs)) ++ $" - " ++ exc_text e) true (Some e)).
Proof. exact @nest_chain. Qed.
Print Assumptions C06_general_types_compose.

(** C06. Errors of other types and normal results pass through unchanged. *)
Theorem C06_other_errors_unchanged :
  forall (cls : Type) (issub : cls -> cls -> bool) (show : cls -> str -> str) A ctxs e,
  (forall t p, In (t, p) ctxs -> issub (exc_class e) t = false) ->
  nest issub show ctxs (@Raised cls A e) = Raised e.
Proof. exact @nest_other. Qed.
Print Assumptions C06_other_errors_unchanged.

Theorem C06_results_unchanged :
  forall (cls : Type) (issub : cls -> cls -> bool) (show : cls -> str -> str) A ctxs (a : A),
  nest issub show ctxs (Returned a) = Returned a.
Proof. exact @nest_returned. Qed.
Print Assumptions C06_results_unchanged.

(** Classes 1 < 2 (a subclass) and an unrelated 3. *)
Example C06_instance :
  let issub := fun a b => (a =? b)%nat || ((a =? 1)%nat && (b =? 2)%nat) in
  let e := Exc 1%nat ($"boom") false None in
  issub (exc_class e) 2%nat = true /\ original e /\
  nest issub (fun _ m => m) [(2%nat, $"field "); (3%nat, $"x "); (2%nat, $"item 1")]
    (@Raised nat nat e)
  = Raised (Exc 2%nat ($"field item 1 - boom") true (Some e)).
Proof. vm_compute. auto. Qed.
