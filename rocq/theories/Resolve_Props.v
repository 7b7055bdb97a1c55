(** C21: unused placeholders disappear with their separator. [other] is Python's [format] on
    the specs that are not modelled. *)
From Coq Require Import ZArith List Ascii String Bool.
From Verif Require Import Base Str Partitions_Model Format_Model Template_Spec Storage_Model
  Storage_Spec Resolve_Proofs Cut_Spec Cut_Proofs.
Import ListNotations.
Open Scope list_scope.

(** C21. A placeholder occurring once and resolved to nothing: it goes, with one separator
    after it; then trailing separators go; an empty text is refused; nothing else changes.
    Partial: about placeholders occurring once, see the refutations below. *)
Theorem C21_removed_with_separator_partial : forall other p a b, name_ok p ->
  template_ok (a ++ THole (Hole p [] []) :: b) -> without p a -> without p b ->
  exists r, sans_trailing (print a ++ drop_sep (print b)) r /\
    resolve_field other (print (a ++ THole (Hole p [] []) :: b)) [(p, [])] =
    match r with [] => Err ValueError | _ => Ok r end.
Proof. exact resolve_empty_spec. Qed.
Print Assumptions C21_removed_with_separator_partial.

(** C21. A placeholder that does not occur costs at most trailing separators. *)
Theorem C21_absent : forall other p t, name_ok p -> template_ok t -> without p t ->
  exists r, sans_trailing (print t) r /\
    resolve_field other (print t) [(p, [])] = match r with [] => Err ValueError | _ => Ok r end.
Proof. exact resolve_absent. Qed.
Print Assumptions C21_absent.

(** C21. However often it occurs, and whatever else is resolved with it: a resolved
    placeholder, empty or not, is gone. *)
Theorem C21_gone : forall other values t s p, template_ok t ->
  Forall (fun nv => name_ok (fst nv) /\ avoids $"{}" (snd nv)) values -> fillable values t ->
  dmem str_eqb values p = true -> resolve_field other (print t) values = Ok s ->
  contains_sub ($"{" ++ p ++ $"}") s = false.
Proof. exact resolved_gone. Qed.
Print Assumptions C21_gone.

(** C21. So once the input fingerprint has been resolved (to nothing for raw artifacts), the
    storage does not ask for one any more. *)
Theorem C21_no_fingerprint_left : forall other st fp st', templated st ->
  visit_input_fingerprint other st fp = Ok st' -> includes_fp st' = false.
Proof. exact no_fingerprint_left. Qed.
Print Assumptions C21_no_fingerprint_left.

(** C21 refuted for placeholders occurring twice. Without a separator after it, the second one
    leaves a trailing separator: [rstrip] runs before the empty text is filled in ... *)
Theorem C21_trailing_separator_refuted : forall other,
  resolve_field other $"{p}/a/{p}" [($"p", [])] = Ok $"a/".
Proof. intro other. reflexivity. Qed.
Print Assumptions C21_trailing_separator_refuted.

(** ... and an empty path is produced without an error. *)
Theorem C21_empty_path_refuted : forall other,
  resolve_field other $"{p}{p}/" [($"p", [])] = Ok [].
Proof. intro other. reflexivity. Qed.
Print Assumptions C21_empty_path_refuted.

(** C21. Every text is cut by the occurrences of a placeholder into pieces, in one way. *)
Theorem C21_pieces : forall p s, ~ In "{"%char p -> exists ss, pieces p s ss /\ forall ss', pieces p s ss' -> ss = ss'.
Proof. exact cut_once. Qed.
Print Assumptions C21_pieces.

(** C21. For every text, template or not, and any number of occurrences: what remains of the
    pieces loses its trailing separators, is refused if empty, and then formatted. The other
    values are not empty. *)
Theorem C21_every : forall other p s ss before after, ~ In "{"%char p -> pieces p s ss ->
  Forall (fun nv => snd nv <> []) (before ++ after) ->
  exists r, sans_trailing (remaining p ss) r /\
    resolve_field other s (before ++ (p, []) :: after) =
    match r with [] => Err ValueError | _ => partial_format other r (before ++ (p, []) :: after) end.
Proof. exact resolve_every. Qed.
Print Assumptions C21_every.

(** C21. For templates: the occurrences that remain go then, and nothing else does. *)
Theorem C21_templates : forall other p t ss, name_ok p -> template_ok t -> fillable [(p, [])] t ->
  pieces p (print t) ss ->
  exists r rs, sans_trailing (remaining p ss) r /\ pieces p r rs /\
    resolve_field other (print t) [(p, [])] = match r with [] => Err ValueError | _ => Ok (List.concat rs) end.
Proof. exact resolve_templates. Qed.
Print Assumptions C21_templates.

(** C21. So the property holds for any number of occurrences if all of them or none of
    them is followed by a separator: [rest] are the texts after the occurrences. *)
Theorem C21_uniform : forall other p t s rest, name_ok p -> template_ok t -> fillable [(p, [])] t ->
  pieces p (print t) (s :: rest) ->
  Forall (fun x => slash_first x = true) rest \/ Forall (fun x => slash_first x = false) rest ->
  exists r, sans_trailing (s ++ flat_map drop_sep rest) r /\
    resolve_field other (print t) [(p, [])] = match r with [] => Err ValueError | _ => Ok r end.
Proof. exact resolve_uniform. Qed.
Print Assumptions C21_uniform.

(** C21. Escapes are not respected: an escaped placeholder is taken for one, and the text cannot
    be formatted any more. *)
Theorem C21_escape_refuted : forall other,
  partial_format other $"{{p}}/x" [($"p", [])] = Ok $"{p}/x" /\
  exists e, resolve_field other $"{{p}}/x" [($"p", [])] = Err e.
Proof. intro other. split; [reflexivity|]. eexists. reflexivity. Qed.
Print Assumptions C21_escape_refuted.

Example C21_instance_twice : let t := [TLit $"x/"; THole (Hole $"p" [] []); TLit $"/"; THole (Hole $"p" [] []); TLit $"/y"] in
  name_ok $"p" /\ template_ok t /\ fillable [($"p", [])] t /\ pieces $"p" (print t) [$"x/"; $"/"; $"/y"] /\
  forall other, resolve_field other (print t) [($"p", [])] = Ok $"x/y".
Proof.
  cbv zeta. split; [repeat constructor; cbn; try congruence; intuition discriminate|].
  split; [repeat constructor; cbn; try congruence; intuition discriminate|]. split; [|split; [|reflexivity]].
  - intros h H D. cbn in H. destruct H as [H|[H|[H|[H|[H|[]]]]]]; inversion H; subst; split; reflexivity.
  - split; [discriminate|]. split; [reflexivity|]. repeat constructor.
Qed.

(** A separator is only taken when it follows, and the rest stays: "x/{p}/{q.v:02}" becomes
    "x/{q.v:02}". *)
Example C21_instance : let a := [TLit $"x/"] in let b := [TLit $"/"; THole (Hole $"q" [Attr $"v"] $"02")] in
  let t := a ++ THole (Hole $"input_fingerprint" [] []) :: b in
  name_ok $"input_fingerprint" /\ template_ok t /\ without $"input_fingerprint" a /\ without $"input_fingerprint" b /\
  print t = $"x/{input_fingerprint}/{q.v:02}" /\
  templated {| s_fields := [($"path", Some (print t))]; s_key_types := None |} /\
  forall other, resolve_field other (print t) [($"input_fingerprint", [])] = Ok $"x/{q.v:02}".
Proof.
  cbv zeta. assert (O : template_ok ([TLit $"x/"] ++ THole (Hole $"input_fingerprint" [] []) ::
                        [TLit $"/"; THole (Hole $"q" [Attr $"v"] $"02")])).
  { repeat constructor; cbn; try congruence; intuition discriminate. }
  split; [repeat constructor; cbn; try congruence; intuition discriminate|]. split; [exact O|].
  split; [intros h [E|[]]; discriminate|].
  split; [intros h [E|[E|[]]]; [discriminate|inversion E; discriminate]|].
  split; [reflexivity|]. split; [|reflexivity].
  intros n s [E|[]]. injection E as _ Es. exists ([TLit $"x/"] ++ THole (Hole $"input_fingerprint" [] []) ::
    [TLit $"/"; THole (Hole $"q" [Attr $"v"] $"02")]). split; [now rewrite <- Es|]. split; [exact O|].
  intros h H D. cbn in H. destruct H as [H|[H|[H|[H|[]]]]]; inversion H; subst; [split; reflexivity|discriminate].
Qed.
