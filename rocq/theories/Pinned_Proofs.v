(** Lemmas about templates with fixed values. *)
From Coq Require Import ZArith NArith List Ascii String Bool Lia Arith.
From Verif Require Import Base Base_Proofs Str Str_Proofs Partitions_Model Format_Model Template_Spec Template_Proofs Format_Proofs Storage_Model
  Int64_Model Paths_Spec Discovery_Proofs.
Import ListNotations.
Open Scope nat_scope.
Open Scope list_scope.

Lemma until_bracket : forall i r, i <> [] -> avoids $"]" i -> take_while (fun c => negb (c =c "]")) (i ++ "]"%char :: r) = (i, "]"%char :: r).
Proof.
  intros i r _ A. apply take_while_app; [|reflexivity]. apply Forall_forall. intros c I. apply negb_true_iff, Ascii.eqb_neq. intros ->.
  unfold avoids in A. rewrite Forall_forall in A. apply (A _ I). left. reflexivity.
Qed.
Lemma accessors_index : forall n i r, 1 <= n -> i <> [] -> avoids $"]" i -> take_accessors n ("["%char :: i ++ "]"%char :: "}"%char :: r) = ("["%char :: i ++ $"]", "}"%char :: r).
Proof.
  intros [|n] i r Ln N A; [lia|]. cbn [take_accessors]. change ("[" =c ".") with false. change ("[" =c "[") with true. cbn iota. rewrite (until_bracket i _ N A).
  destruct i as [|i0 i]; [contradiction|]. rewrite take_accessors_stop by (cbn; auto). reflexivity.
Qed.
Lemma take_pinned : forall f c i r, word f -> word c -> i <> [] -> avoids $"]" i ->
  take_field (f ++ "."%char :: c ++ "["%char :: i ++ "]"%char :: "}"%char :: r) = Some (f ++ "."%char :: c ++ "["%char :: i ++ $"]", [], r).
Proof.
  intros f c i r [_ F] [Cn C] N A. unfold take_field. rewrite (take_while_app is_word f _ F) by reflexivity.
  cbn [List.length take_accessors]. change ("." =c ".") with true. cbn iota.
  rewrite (take_while_app is_word c _ C) by reflexivity. destruct c as [|c0 c]; [contradiction|].
  rewrite (accessors_index _ i r) by (try assumption; rewrite ?app_length; cbn [List.length]; lia). change ("}" =c "}") with true. cbn iota. reflexivity.
Qed.
Lemma take_indexed : forall f i r, word f -> i <> [] -> avoids $"]" i ->
  take_field (f ++ "["%char :: i ++ "]"%char :: "}"%char :: r) = Some (f ++ "["%char :: i ++ $"]", [], r).
Proof.
  intros f i r [_ F] N A. unfold take_field. rewrite (take_while_app is_word f _ F) by reflexivity. cbn [List.length].
  rewrite (accessors_index _ i r) by (try assumption; rewrite ?app_length; cbn [List.length]; lia). change ("}" =c "}") with true. cbn iota. reflexivity.
Qed.
Lemma tokens_end : forall s n, avoids $"{}" s -> List.length s <= n -> ptokens n s = map PLit s.
Proof.
  intros s n A L. destruct (ptokens_lit s [] n A) as (m & _ & E); [rewrite app_nil_r; exact L|]. rewrite app_nil_r in E. rewrite E.
  destruct m; cbn; apply app_nil_r.
Qed.
Lemma tokens_one : forall pre body name post n, avoids $"{}" pre -> avoids $"{}" post -> take_field (body ++ post) = Some (name, [], post) ->
  (exists b body', body = b :: body' /\ b <> "{"%char) -> List.length (pre ++ "{"%char :: body ++ post) <= n ->
  ptokens n (pre ++ "{"%char :: body ++ post) = map PLit pre ++ PField name [] :: map PLit post.
Proof.
  intros pre body name post n Ap Aq T (b & body' & -> & Nb) L. destruct (ptokens_lit pre _ n Ap L) as (m & Lm & E). rewrite E. f_equal.
  cbn [List.length app] in Lm. destruct m as [|m]; [lia|]. cbn [app ptokens]. change ("{" =c "{") with true. change ("{" =c "}") with false. cbn iota.
  assert (Nb' : (b =c "{") = false) by (apply Ascii.eqb_neq; exact Nb). rewrite Nb'. cbn [andb orb]. cbn [app] in T. rewrite T. f_equal.
  apply tokens_end; [exact Aq|]. rewrite app_length in Lm. lia.
Qed.
Lemma match_lits : forall s env, pmatch (map PLit s) env s = Some env.
Proof. induction s as [|c s IH]; intros env; cbn; [reflexivity|]. rewrite Ascii.eqb_refl. apply IH. Qed.
Lemma match_lits_only : forall s s' env e, pmatch (map PLit s) env s' = Some e -> s' = s.
Proof.
  induction s as [|c s IH]; intros [|d s'] env e H; cbn in H; try discriminate; [reflexivity|].
  destruct (c =c d) eqn:Q; [|discriminate]. apply Ascii.eqb_eq in Q. subst. f_equal. eapply IH, H.
Qed.
Lemma match_prefix : forall pre r env s, pmatch (map PLit pre ++ r) env (pre ++ s) = pmatch r env s.
Proof. induction pre as [|c pre IH]; intros r env s; cbn; [reflexivity|]. rewrite Ascii.eqb_refl. apply IH. Qed.
Lemma grow_step : forall least rest acc s, grow least rest acc s =
  match (if least <=? List.length acc then rest (rev acc) s else None) with
  | Some e => Some e
  | None => match s with [] => None | c :: s' => grow least rest (c :: acc) s' end
  end.
Proof. intros least rest acc [|c s]; reflexivity. Qed.
Lemma grow_lits : forall name post x acc, acc ++ x <> [] ->
  grow 1 (fun taken s' => pmatch (map PLit post) [(name, taken)] s') acc (x ++ post) = Some [(name, rev acc ++ x)].
Proof.
  intros name post x. induction x as [|c x IH]; intros acc N; cbn [app]; rewrite grow_step.
  - rewrite app_nil_r in *. destruct acc as [|a acc]; [contradiction|]. cbn [List.length Nat.leb app]. rewrite match_lits. reflexivity.
  - assert (R : grow 1 (fun taken s' => pmatch (map PLit post) [(name, taken)] s') (c :: acc) (x ++ post) = Some [(name, rev acc ++ c :: x)]).
    { rewrite IH by discriminate. cbn [rev]. rewrite <- app_assoc. reflexivity. }
    rewrite R. destruct (1 <=? List.length acc); [|reflexivity]. cbn [app].
    match goal with |- match ?p with Some _ => _ | None => _ end = _ => destruct p as [e|] eqn:Q; [|reflexivity] end.
    apply match_lits_only in Q. exfalso. assert (Len := f_equal (@List.length ascii) Q). cbn in Len. rewrite app_length in Len. lia.
Qed.
Lemma extract_one : forall kts pre body name post x, avoids $"{}" pre -> avoids $"{}" post -> take_field (body ++ post) = Some (name, [], post) ->
  (exists b body', body = b :: body' /\ b <> "{"%char) -> x <> [] ->
  extract_placeholders kts (pre ++ x ++ post) (pre ++ "{"%char :: body ++ post) =
  bind (extract_step (Ok {| x_fp := None; x_comps := []; x_last := [] |}) (name, x)) (fun e =>
  bind (build_key kts e) (fun key => if same_names key kts then Ok (x_fp e, key) else Err ValueError)).
Proof.
  intros kts pre body name post x Ap Aq T B N. unfold extract_placeholders. rewrite (tokens_one pre body name post _ Ap Aq T B (le_n _)).
  assert (C : forall seen l r, compile_ok seen (map PLit l ++ r) = compile_ok seen r) by (induction l; cbn; auto).
  rewrite C. cbn [compile_ok dget app]. replace (map PLit post) with (map PLit post ++ []) by apply app_nil_r. rewrite C. cbn [compile_ok]. rewrite app_nil_r.
  rewrite match_prefix. cbn [pmatch dget app]. change (min_length []) with 1. rewrite (grow_lits name post x [] N). reflexivity.
Qed.
Lemma word_free : forall s c, word s -> is_word c = false -> ~ In c s.
Proof. intros s c [_ F] W I. rewrite Forall_forall in F. rewrite (F c I) in W. discriminate. Qed.
Lemma word_start : forall f r, word f -> exists b body', f ++ r = b :: body' /\ b <> "{"%char.
Proof. intros [|b f] r [N F]; [contradiction|]. exists b, (f ++ r). split; [reflexivity|]. inversion F; subst. intros ->. discriminate. Qed.
Lemma base_index_at : forall b i, ~ In "["%char b -> i <> [] -> avoids $"]" i -> base_index (b ++ "["%char :: i ++ $"]") = (b, Some i).
Proof.
  intros b i N Ni A. unfold base_index. rewrite take_while_app; [|apply Forall_forall; intros c I; apply negb_true_iff, Ascii.eqb_neq; intros ->; contradiction|reflexivity].
  change ($"]") with ("]"%char :: []). rewrite (until_bracket i [] Ni A). reflexivity.
Qed.

Theorem pinned : forall f cls c i pre post x, word f -> word c -> i <> [] -> avoids $"]" i -> avoids $"{}" pre -> avoids $"{}" post -> x <> [] ->
  extract_placeholders [(f, cls)] (pre ++ x ++ post) (pre ++ $"{" ++ f ++ $"." ++ c ++ $"[" ++ i ++ $"]}" ++ post) =
  rmap (fun v => (None, [(f, v)])) (from_components cls [(c, i)]).
Proof.
  intros f cls c i pre post x Wf Wc Ni Ai Ap Aq Nx.
  pose proof (extract_one [(f, cls)] pre (f ++ "."%char :: c ++ "["%char :: i ++ ["]"%char; "}"%char]) (f ++ "."%char :: c ++ "["%char :: i ++ $"]") post x Ap Aq) as X.
  rewrite <- app_assoc in X. cbn [app] in X. rewrite <- (app_assoc c) in X. cbn [app] in X. rewrite <- (app_assoc i) in X. cbn [app] in X.
  rewrite (take_pinned f c i post Wf Wc Ni Ai) in X. specialize (X eq_refl (word_start f _ Wf) Nx).
  change ($"{" ++ f ++ $"." ++ c ++ $"[" ++ i ++ $"]}" ++ post) with ("{"%char :: f ++ "."%char :: c ++ "["%char :: i ++ "]"%char :: "}"%char :: post).
  etransitivity; [exact X|]. unfold extract_step. cbn [bind fst snd].
  replace (f ++ "."%char :: c ++ "["%char :: i ++ $"]") with ((f ++ "."%char :: c) ++ "["%char :: i ++ $"]") by (rewrite <- app_assoc; reflexivity).
  rewrite base_index_at; [|intros I; apply in_app_or in I as [I|[I|I]]; [exact (word_free f "[" Wf eq_refl I)|discriminate|exact (word_free c "[" Wc eq_refl I)]|exact Ni|exact Ai].
  assert (NE : str_eqb (f ++ "."%char :: c) $"input_fingerprint" = false).
  { apply (eqb_neq _ str_eqb_spec). intros Q. assert (I : In "."%char (f ++ "."%char :: c)) by (apply in_or_app; right; left; reflexivity).
    rewrite Q in I. cbn in I. intuition discriminate. }
  rewrite NE. rewrite split_app by (apply word_free; [exact Wf|reflexivity]). rewrite split_plain by (apply word_free; [exact Wc|reflexivity]).
  cbn -[from_components]. unfold build_key. cbn -[from_components]. rewrite str_eqb_refl.
  match goal with |- context [from_components cls ?l] => change (from_components cls l) with (from_components cls [(c, i)]) end.
  generalize (from_components cls [(c, i)]). intros [v|e]; cbn; [|reflexivity].
  unfold same_names, dmem. cbn. rewrite str_eqb_refl. reflexivity.
Qed.
Theorem indexed_fingerprint : forall kts i pre post x, i <> [] -> avoids $"]" i -> avoids $"{}" pre -> avoids $"{}" post -> x <> [] ->
  extract_placeholders kts (pre ++ x ++ post) (pre ++ $"{input_fingerprint[" ++ i ++ $"]}" ++ post) = Err AssertionError.
Proof.
  intros kts i pre post x Ni Ai Ap Aq Nx. assert (W : word $"input_fingerprint") by (split; [discriminate|repeat constructor]).
  pose proof (extract_one kts pre ($"input_fingerprint" ++ "["%char :: i ++ ["]"%char; "}"%char]) ($"input_fingerprint" ++ "["%char :: i ++ $"]") post x Ap Aq) as X.
  rewrite <- (app_assoc $"input_fingerprint") in X. cbn [app] in X. rewrite <- (app_assoc i) in X.
  specialize (X (take_indexed $"input_fingerprint" i post W Ni Ai) (word_start $"input_fingerprint" _ W) Nx).
  etransitivity; [exact X|]. unfold extract_step. cbn [bind fst snd].
  assert (Bi := base_index_at $"input_fingerprint" i ltac:(cbn; intuition discriminate) Ni Ai).
  change ("i"%char :: _) with ($"input_fingerprint" ++ "["%char :: i ++ $"]"). rewrite Bi. reflexivity.
Qed.
