(** C14: partial formatting only fills what it is given. [other] is Python's [format] on the
    specs that are not modelled. *)
From Coq Require Import ZArith List Ascii String Bool.
From Verif Require Import Base Str Partitions_Model Format_Model Template_Spec Format_Proofs Parts_Spec Parts_Proofs.
Import ListNotations.
Open Scope list_scope.

(** C14. The given bare placeholders become their values, every other placeholder keeps its
    text with attributes, indexes and format spec, literal text is kept. The full statement
    is about every template; here templates contain no escaped braces and indexes in normal
    form, see the refutations below. *)
Theorem C14_fills_exactly_partial : forall other t values, template_ok t -> fillable values t ->
  partial_format other (print t) values = Ok (print (fill values t)).
Proof. exact partial_format_fill. Qed.
Print Assumptions C14_fills_exactly_partial.

(** C14. With nothing to fill it is the identity. *)
Theorem C14_identity_partial : forall other t, template_ok t ->
  partial_format other (print t) [] = Ok (print t).
Proof. exact partial_format_nothing. Qed.
Print Assumptions C14_identity_partial.

(** C14. Disjoint sets of values can be filled in either order, or at once, when the values
    contain no braces. *)
Theorem C14_order_irrelevant_partial : forall other t a b,
  template_ok t -> fillable a t -> fillable b t ->
  Forall (fun nv => avoids $"{}" (snd nv)) (a ++ b) ->
  (forall n, dmem str_eqb a n = true -> dmem str_eqb b n = false) ->
  bind (partial_format other (print t) a) (fun s => partial_format other s b)
    = partial_format other (print t) (a ++ b) /\
  bind (partial_format other (print t) b) (fun s => partial_format other s a)
    = partial_format other (print t) (a ++ b).
Proof. exact partial_format_order. Qed.
Print Assumptions C14_order_irrelevant_partial.

(** C14, for every text. The texts that can be formatted are those that can be read as literal text
    and placeholders ... *)
Theorem C14_only_templates : forall other s values r, partial_format other s values = Ok r ->
  exists t, template_of s t /\ Forall ordinary t.
Proof. exact only_templates. Qed.
Print Assumptions C14_only_templates.

(** ... in all of them the given bare placeholders become their values, in format specs too, and
    everything else is written as it was read: without escapes, with numbers in normal form. *)
Theorem C14_every_template : forall other s t values, template_of s t -> Forall ordinary t ->
  Forall (fillable_part values) t ->
  partial_format other s values = Ok (print_parts (fill_parts values (map normal t))).
Proof. exact filled. Qed.
Print Assumptions C14_every_template.

(** C14. Exactly the texts without escapes, superfluous colons and leading zeros of indexes are kept
    as they are when there is nothing to fill. *)
Theorem C14_identity_iff : forall other s, partial_format other s [] = Ok s <->
  exists t, template_of s t /\ Forall ordinary t /\ Forall unescaped t /\ map normal t = t /\ print_parts t = s.
Proof. exact unchanged. Qed.
Print Assumptions C14_identity_iff.

(** C14. Filling in steps is filling at once, for every text without escapes and values without
    braces ... *)
Theorem C14_in_steps : forall other s t a b, template_of s t -> Forall ordinary t -> Forall unescaped t ->
  Forall (fillable_part a) t -> Forall (fillable_part b) t -> Forall (fun nv => avoids $"{}" (snd nv)) a ->
  bind (partial_format other s a) (fun s' => partial_format other s' b) = partial_format other s (a ++ b).
Proof. exact in_steps. Qed.
Print Assumptions C14_in_steps.

(** ... and the order does not matter. *)
Theorem C14_any_order : forall other s t a b, template_of s t -> Forall ordinary t -> Forall unescaped t ->
  Forall (fillable_part a) t -> Forall (fillable_part b) t ->
  Forall (fun nv => avoids $"{}" (snd nv)) a -> Forall (fun nv => avoids $"{}" (snd nv)) b ->
  (forall n, In n (map fst a) -> ~ In n (map fst b)) ->
  bind (partial_format other s a) (fun s' => partial_format other s' b) =
  bind (partial_format other s b) (fun s' => partial_format other s' a).
Proof. exact any_order. Qed.
Print Assumptions C14_any_order.

(** C14 refuted. Escaped braces are unescaped, so the second formatting fills a placeholder
    that was literal text ... *)
Theorem C14_escapes_refuted : forall other,
  partial_format other $"{{x}}" [] = Ok $"{x}" /\
  bind (partial_format other $"{{x}}" []) (fun s => partial_format other s [($"x", $"1")]) = Ok $"1" /\
  partial_format other $"{{x}}" [($"x", $"1")] = Ok $"{x}".
Proof. intro other. repeat split. Qed.
Print Assumptions C14_escapes_refuted.

(** ... a value that looks like a placeholder is filled by a later formatting, so the order
    matters ... *)
Theorem C14_braces_in_values_refuted : forall other,
  bind (partial_format other $"{a}/{b}" [($"a", $"{b}")]) (fun s => partial_format other s [($"b", $"1")])
    = Ok $"1/1" /\
  bind (partial_format other $"{a}/{b}" [($"b", $"1")]) (fun s => partial_format other s [($"a", $"{b}")])
    = Ok $"{b}/1".
Proof. intro other. split; reflexivity. Qed.
Print Assumptions C14_braces_in_values_refuted.

(** ... and a numeric index loses its leading zeros. *)
Theorem C14_index_refuted : forall other,
  partial_format other $"{d.m[01]}" [] = Ok $"{d.m[1]}".
Proof. intro other. reflexivity. Qed.
Print Assumptions C14_index_refuted.

(** A colon without a spec is lost too. *)
Theorem C14_colon_refuted : forall other, partial_format other $"{a:}" [] = Ok $"{a}".
Proof. intro other. reflexivity. Qed.
Print Assumptions C14_colon_refuted.

(** An escape, a placeholder in a spec, a colon without a spec and an index with a leading zero. *)
Example C14_instance_every : let s := $"{{{a:}/{d.m[07]:0{w}}" in
  let t := [Text "{"%char; Field $"a" [] []; Text "/"%char;
            Field $"d" [Attr $"m"; Idx $"07"] [Text "0"%char; Field $"w" [] []]] in
  template_of s t /\ Forall ordinary t /\ Forall (fillable_part [($"a", $"x"); ($"w", $"2")]) t /\
  forall other, partial_format other s [($"a", $"x"); ($"w", $"2")] = Ok $"{x/{d.m[7]:02}".
Proof.
  cbv zeta. split; [|split; [|split; [|reflexivity]]].
  - apply (reads_escape 2 "{"%char); [cbn; tauto|].
    assert (Q : forall n, n <> [] -> forallb (fun c => negb (existsb (fun d => c =c d) $"{}[.:!")) n = true -> avoids $"{}[.:!" n).
    { intros n _ A. apply Forall_forall. intros c I J. rewrite forallb_forall in A. specialize (A c I).
      apply negb_true_iff in A. assert (T : existsb (fun d => c =c d) $"{}[.:!" = true); [|congruence].
      apply existsb_exists. exists c. split; [exact J|]. apply Ascii.eqb_refl. }
    apply (reads_field 1 $"a" [] $":" [] ($"/{d.m[07]:0{w}}")).
    + split; [discriminate|]. split; [reflexivity|]. now apply Q.
    + constructor.
    + apply (some_spec 1 [] []); [reflexivity|constructor].
    + apply reads_text; [cbn; intuition discriminate|].
      apply (reads_field 1 $"d" [Attr $"m"; Idx $"07"] $":0{w}" [Text "0"%char; Field $"w" [] []] []).
      * split; [discriminate|]. split; [reflexivity|]. now apply Q.
      * repeat constructor; try discriminate; cbn; intuition discriminate.
      * apply (some_spec 1 $"0{w}"); [reflexivity|]. apply reads_text; [cbn; intuition discriminate|].
        apply (reads_field 0 $"w" [] [] [] []); [|constructor|constructor|constructor].
        split; [discriminate|]. split; [reflexivity|]. now apply Q.
      * constructor.
  - repeat constructor.
  - repeat (first [apply Forall_nil | apply Forall_cons]); try constructor; try reflexivity. repeat constructor.
Qed.

(** The default path, with one placeholder of every kind. *)
Example C14_instance : let t :=
    [TLit $"/tmp/"; THole (Hole $"graph_name" [] []); TLit $"/m=";
     THole (Hole $"date" [Attr $"m"; Idx $"7"] $"02"); TLit $"/"; THole (Hole $"name" [] [])] in
  print t = $"/tmp/{graph_name}/m={date.m[7]:02}/{name}" /\ template_ok t /\
  fillable [($"name", $"x")] t /\
  forall other, partial_format other (print t) [($"name", $"x")]
                = Ok $"/tmp/{graph_name}/m={date.m[7]:02}/x".
Proof.
  cbv zeta. split; [reflexivity|]. split; [|split].
  - repeat constructor; cbn; try congruence; intuition discriminate.
  - intros h Hin H. cbn in Hin.
    destruct Hin as [E|[E|[E|[E|[E|[E|[]]]]]]]; try discriminate; inversion E; subst;
      cbn in H; try discriminate; split; reflexivity.
  - reflexivity.
Qed.
