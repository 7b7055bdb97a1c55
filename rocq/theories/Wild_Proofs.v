(** Lemmas about the wildcards and paths of format strings in general. *)
From Coq Require Import ZArith NArith List Ascii String Bool Lia Arith.
From Verif Require Import Base Base_Proofs Str Str_Proofs Numerals_Model Partitions_Model Partitions_Spec Format_Model
  Template_Spec Template_Proofs Format_Proofs Storage_Model Resolve_Proofs Paths_Spec Paths_Proofs Discovery_Proofs
  Parts_Spec Parts_Proofs Wild_Spec.
Import ListNotations.
Open Scope nat_scope.
Open Scope list_scope.

(** * Wildcards *)
Section Wild.
  Context (other : cvalue -> str -> result str) (kts : key_types).

  Lemma component_known : forall c cls, In c (components cls) ->
    own_wildcard_attribute c = false /\ existsb (str_eqb c) (components cls) = true.
  Proof.
    intros c cls Ic. split; [|now apply existsb_str].
    assert (H : In c [$"value"; $"Y"; $"m"; $"d"; $"iso"; $"hex"]) by (destruct cls; cbn [components In] in *; tauto).
    cbn [In] in H. repeat (destruct H as [<-|H]; [reflexivity|]). destruct H.
  Qed.

  Lemma waccess_err : forall cls accs e,
    fold_left (fun o a => bind o (fun o => waccess cls o a)) accs (Err e) = Err e.
  Proof. intros cls accs e. induction accs as [|a accs IH]; [reflexivity|exact IH]. Qed.
  Lemma waccess_val : forall cls accs v o,
    fold_left (fun o a => bind o (fun o => waccess cls o a)) accs (Ok (WVal v)) = Ok o -> accs = [] /\ o = WVal v.
  Proof.
    intros cls [|a accs] v o E; [inversion E; auto|]. cbn [fold_left bind waccess] in E. rewrite waccess_err in E. discriminate.
  Qed.

  Lemma wildcard_inv : forall name accs sp x, format_wildcard other kts name accs None sp = Ok x ->
    exists cls c, dget str_eqb kts name = Some cls /\ In c (components cls) /\
      (accs = [Attr c] /\ sp = [] /\ x = $"*" \/
       exists k, accs = [Attr c; Idx k] /\ format_value other (index_value k) sp = Ok x).
  Proof.
    intros name accs sp x E. unfold format_wildcard in E. destruct (dget str_eqb kts name) as [cls|]; [|discriminate].
    destruct accs as [|[c|k] accs].
    - cbn in E. destruct sp; discriminate.
    - cbn [fold_left bind waccess] in E. destruct (own_wildcard_attribute c); [rewrite waccess_err in E; discriminate|].
      destruct (existsb (str_eqb c) (components cls)) eqn:X; [|rewrite waccess_err in E; discriminate].
      exists cls, c. split; [reflexivity|].
      apply existsb_exists in X. destruct X as (y & I & Ey). apply str_eqb_spec in Ey. subst y. split; [exact I|].
      destruct accs as [|[c2|k] accs].
      + cbn in E. destruct sp; [|discriminate]. inversion E. left. auto.
      + cbn [fold_left bind waccess] in E. destruct (own_wildcard_attribute c2); rewrite waccess_err in E; discriminate.
      + cbn [fold_left bind waccess] in E. right. exists k.
        destruct (fold_left _ accs _) as [o|e] eqn:Eo; [|discriminate]. apply waccess_val in Eo. destruct Eo as [-> ->]. cbn in E. auto.
    - cbn [fold_left bind waccess] in E. rewrite waccess_err in E. discriminate.
  Qed.
  Lemma wildcard_component : forall name cls c, dget str_eqb kts name = Some cls -> In c (components cls) ->
    format_wildcard other kts name [Attr c] None [] = Ok $"*".
  Proof.
    intros name cls c G I. unfold format_wildcard. rewrite G. cbn [fold_left bind waccess].
    destruct (component_known c cls I) as [-> ->]. reflexivity.
  Qed.
  Lemma wildcard_index : forall name cls c k sp, dget str_eqb kts name = Some cls -> In c (components cls) ->
    format_wildcard other kts name [Attr c; Idx k] None sp = format_value other (index_value k) sp.
  Proof.
    intros name cls c k sp G I. unfold format_wildcard. rewrite G. cbn [fold_left bind waccess].
    destruct (component_known c cls I) as [-> ->]. reflexivity.
  Qed.

  Lemma wild_eval : forall t w, wild other kts t w -> eval_parts (format_wildcard other kts) t = Ok w.
  Proof.
    intros t w W. induction W as [|c t w W IH|name cls c spec t w G I Ws IHs W IH|name cls c k spec sp x t w G I Ws IHs E W IH].
    - reflexivity.
    - cbn [eval_parts eval_part bind]. now rewrite IH.
    - cbn [eval_parts]. rewrite eval_field, IHs. cbn [bind]. rewrite (wildcard_component name cls c G I). cbn [bind]. now rewrite IH.
    - cbn [eval_parts]. rewrite eval_field, IHs. cbn [bind]. rewrite (wildcard_index name cls c k sp G I), E. cbn [bind]. now rewrite IH.
  Qed.

  Lemma eval_wild_part : forall p w, eval_part (format_wildcard other kts) p = Ok w ->
    forall t v, wild other kts t v -> wild other kts (p :: t) (w ++ v).
  Proof.
    induction p as [c|name accs spec IH] using part_ind'; intros w E t v W.
    - inversion E. now constructor.
    - rewrite eval_field in E. destruct (eval_parts (format_wildcard other kts) spec) as [sp|] eqn:Es; [|discriminate].
      cbn [bind] in E.
      assert (Ws : wild other kts spec sp).
      { clear E. revert sp Es. induction IH as [|q l Hq IH IHl]; intros sp Es; [inversion Es; constructor|].
        cbn [eval_parts] in Es. destruct (eval_part _ q) as [a|] eqn:Ea; [|discriminate]. cbn [bind] in Es.
        destruct (eval_parts _ l) as [b|] eqn:Eb; [|discriminate]. inversion Es; subst. apply Hq; [reflexivity|]. now apply IHl. }
      destruct (wildcard_inv name accs sp w E) as (cls & c & G & I & [(-> & -> & ->)|(k & -> & F)]).
      + now apply (wild_component other kts name cls).
      + now apply (wild_index other kts name cls c k spec sp).
  Qed.
  Lemma eval_wild : forall t w, eval_parts (format_wildcard other kts) t = Ok w -> wild other kts t w.
  Proof.
    induction t as [|q l IH]; intros w E; [inversion E; constructor|].
    cbn [eval_parts] in E. destruct (eval_part _ q) as [a|] eqn:Ea; [|discriminate]. cbn [bind] in E.
    destruct (eval_parts _ l) as [b|] eqn:Eb; [|discriminate]. inversion E; subst. apply eval_wild_part; [exact Ea|]. now apply IH.
  Qed.

  Theorem wildcard_iff : forall s w, spec_to_wildcard other s kts = Ok w <->
    exists t, template_of (replace $"{input_fingerprint}" $"*" s) t /\ wild other kts t w.
  Proof.
    intros s w. unfold spec_to_wildcard. split.
    - intro E. destruct (reads_total (format_wildcard other kts)) with (n := 2) (s := replace $"{input_fingerprint}" $"*" s) (r := w) as (t & R).
      + intros f accs c sp x X. unfold format_wildcard in X. destruct (dget str_eqb kts f) as [cls|]; [|discriminate].
        destruct (fold_left _ accs _); discriminate.
      + exact E.
      + exists t. split; [exact R|]. apply eval_wild. rewrite <- E. symmetry. now apply vformat_reads.
    - intros (t & R & W). rewrite (vformat_reads _ _ t R). now apply wild_eval.
  Qed.
End Wild.

(** * Without hard coded values *)
Lemma plain_app : forall a b, avoids $"{}" (a ++ b) <-> avoids $"{}" a /\ avoids $"{}" b.
Proof. intros. apply avoids_app. Qed.
Lemma attrs_plain : forall accs, Forall acc_fine accs ->
  avoids $"{}" (flat_map print_acc (filter (fun a => match a with Attr _ => true | Idx _ => false end) accs)).
Proof.
  intros accs F. induction F as [|[n|k] l Fa F IH]; [constructor| |exact IH]. cbn [filter flat_map print_acc].
  apply avoids_app. split; [|exact IH]. apply avoids_app. split; [repeat constructor; cbn; intuition discriminate|].
  apply name_plain. apply Fa.
Qed.
Lemma attrs_fine : forall accs, Forall acc_fine accs ->
  Forall acc_fine (filter (fun a => match a with Attr _ => true | Idx _ => false end) accs).
Proof. intros accs F. rewrite Forall_forall in *. intros a I. apply filter_In in I. apply F. tauto. Qed.

Lemma balanced_field : forall body sp r d, avoids $"{}" body -> (forall d r, balanced d (sp ++ r) = balanced d r) ->
  balanced d ($"{" ++ body ++ sp ++ $"}" ++ r) = balanced d r.
Proof.
  intros body sp r d A B. cbn [S_ list_ascii_of_string app balanced Ascii.eqb Bool.eqb]. rewrite balanced_plain by exact A.
  rewrite B. reflexivity.
Qed.
Lemma print_cons : forall p t, print_parts (p :: t) = print_part p ++ print_parts t.
Proof. reflexivity. Qed.
Lemma unindexed_balanced : (forall n s t, reads n s t -> Forall unescaped t ->
    forall d r, balanced d (print_parts (map unindexed t) ++ r) = balanced d r) /\
  (forall n sp spec, reads_spec n sp spec -> Forall unescaped spec ->
    forall d r, balanced d (print_parts (map unindexed spec) ++ r) = balanced d r).
Proof.
  apply reads_mutual.
  - reflexivity.
  - intros n c s t N R IH U d r. inversion U; subst. cbn [map unindexed]. rewrite print_cons. cbn [print_part app balanced]. nc N. now apply IH.
  - intros n c s t N R IH U. inversion U; subst. inversion H1; subst. contradiction.
  - intros n name accs sp spec s t N A RS IHs R IH U d r.
    inversion U as [|? ? U1 U2]; subst. inversion U1 as [|? ? ? Us]; subst. cbn [map unindexed].
    rewrite print_cons, print_field_colon, <- !app_assoc. rewrite app_assoc with (l := name). rewrite balanced_field.
    + now apply IH.
    + apply avoids_app. split; [apply name_plain, N|now apply attrs_plain].
    + intros d' r'. rewrite <- (IHs Us d' r'). unfold colon. destruct (print_parts (map unindexed spec)); reflexivity.
  - reflexivity.
  - intros n sp spec B R IH U d r. now apply IH.
Qed.
Lemma unindexed_reads : (forall n s t, reads n s t -> Forall unescaped t -> reads n (print_parts (map unindexed t)) (map unindexed t)) /\
  (forall n sp spec, reads_spec n sp spec -> Forall unescaped spec ->
    reads_spec n (colon (print_parts (map unindexed spec))) (map unindexed spec)).
Proof.
  apply reads_mutual.
  - intros. constructor.
  - intros n c s t N R IH U. inversion U; subst. cbn [map unindexed]. rewrite print_cons. constructor; [exact N|now apply IH].
  - intros n c s t N R IH U. inversion U; subst. inversion H1; subst. contradiction.
  - intros n name accs sp spec s t N A RS IHs R IH U.
    inversion U as [|? ? U1 U2]; subst. inversion U1 as [|? ? ? Us]; subst. cbn [map unindexed].
    rewrite print_cons, print_field_colon, <- !app_assoc. rewrite app_assoc with (l := name).
    apply reads_field; [exact N|now apply attrs_fine|now apply IHs|now apply IH].
  - intros. constructor.
  - intros n sp spec B R IH U. unfold colon. destruct (print_parts (map unindexed spec)) as [|c l] eqn:P.
    + apply print_parts_nil in P. rewrite P. constructor.
    + rewrite <- P in *. apply some_spec; [|now apply IH].
      pose proof (proj1 unindexed_balanced n sp spec R U 0 []) as Q. rewrite app_nil_r in Q. exact Q.
Qed.

Section Strip.
  Context (other : cvalue -> str -> result str).
  Lemma strip_text : forall accs, flat_map (key_text other false) accs =
    flat_map print_acc (filter (fun a => match a with Attr _ => true | Idx _ => false end) accs).
  Proof. induction accs as [|[n|k] accs IH]; [reflexivity| |exact IH]. cbn [flat_map filter]. now rewrite IH. Qed.
  Lemma eval_strip : forall p r, eval_part (format_placeholder other false) p = Ok r <-> ordinary p /\ r = print_part (unindexed p).
  Proof.
    induction p as [c|name accs spec IH] using part_ind'; intro r.
    - cbn. split; [intro E; inversion E; split; [constructor|reflexivity]|intros [_ ->]; reflexivity].
    - rewrite eval_field.
      assert (Es : forall r, eval_parts (format_placeholder other false) spec = Ok r <-> Forall ordinary spec /\ r = print_parts (map unindexed spec)).
      { clear r. induction IH as [|q l Hq IH IHl]; intro r.
        - cbn. split; [intro E; inversion E; split; [constructor|reflexivity]|intros [_ ->]; reflexivity].
        - cbn [eval_parts map]. rewrite print_cons. split.
          + intro E. destruct (eval_part _ q) as [a|] eqn:Ea; [|discriminate]. cbn [bind] in E.
            destruct (eval_parts _ l) as [b|] eqn:Eb; [|discriminate]. cbn in E. inversion E; subst.
            destruct (proj1 (Hq a) eq_refl) as [O1 ->]. destruct (proj1 (IHl b) eq_refl) as [O2 ->]. split; [now constructor|reflexivity].
          + intros [O ->]. inversion O; subst. rewrite (proj2 (Hq _) (conj H1 eq_refl)). cbn [bind].
            rewrite (proj2 (IHl _) (conj H2 eq_refl)). reflexivity. }
      split.
      + intro E. destruct (eval_parts _ spec) as [sp|] eqn:X; [|discriminate]. cbn [bind] in E.
        destruct (proj1 (Es sp) eq_refl) as [O ->]. unfold format_placeholder in E.
        destruct (existsb _ accs) eqn:Y; [discriminate|]. apply own_none in Y. split; [now constructor|].
        inversion E. cbn [unindexed]. rewrite print_field, strip_text. cbn [S_ list_ascii_of_string app].
        rewrite <- !app_assoc. destruct (print_parts (map unindexed spec)); reflexivity.
      + intros [O ->]. inversion O as [|? ? ? Oa Os]; subst. rewrite (proj2 (Es _) (conj Os eq_refl)). cbn [bind].
        unfold format_placeholder. rewrite (proj2 (own_none accs) Oa). cbn [unindexed]. rewrite print_field, strip_text.
        cbn [S_ list_ascii_of_string app]. rewrite <- !app_assoc. destruct (print_parts (map unindexed spec)); reflexivity.
  Qed.
  Lemma eval_strips : forall t r, eval_parts (format_placeholder other false) t = Ok r <-> Forall ordinary t /\ r = print_parts (map unindexed t).
  Proof.
    induction t as [|q l IHl]; intro r.
    - cbn. split; [intro E; inversion E; split; [constructor|reflexivity]|intros [_ ->]; reflexivity].
    - cbn [eval_parts map]. rewrite print_cons. split.
      + intro E. destruct (eval_part _ q) as [a|] eqn:Ea; [|discriminate]. cbn [bind] in E.
        destruct (eval_parts _ l) as [b|] eqn:Eb; [|discriminate]. cbn in E. inversion E; subst.
        destruct (proj1 (eval_strip q a) Ea) as [O1 ->]. destruct (proj1 (IHl b) eq_refl) as [O2 ->]. split; [now constructor|reflexivity].
      + intros [O ->]. inversion O; subst. rewrite (proj2 (eval_strip q _) (conj H1 eq_refl)). cbn [bind].
        rewrite (proj2 (IHl _) (conj H2 eq_refl)). reflexivity.
  Qed.
  Theorem stripped : forall s r, strip_partition_indexes other s = Ok r <->
    exists t, template_of s t /\ Forall ordinary t /\ r = print_parts (map unindexed t).
  Proof.
    intros s r. unfold strip_partition_indexes. split.
    - intro E. destruct (reads_total (format_placeholder other false)) with (n := 2) (s := s) (r := r) as (t & R).
      + intros f accs c sp x. discriminate.
      + exact E.
      + exists t. split; [exact R|]. apply eval_strips. rewrite <- E. symmetry. now apply vformat_reads.
    - intros (t & R & O). rewrite (vformat_reads _ _ t R). now apply eval_strips.
  Qed.

  Theorem generated_path : forall fp key s t path, template_of s t -> Forall unescaped t -> generate_path other fp key s = Ok path ->
    eval_parts (format_final other fp key) (map unindexed t) = Ok path.
  Proof.
    intros fp key s t path R U E. unfold generate_path, strip_partition_indexes in E. rewrite (vformat_reads _ _ t R) in E.
    destruct (eval_parts (format_placeholder other false) t) as [s'|] eqn:X; [|discriminate]. cbn [bind] in E.
    apply eval_strips in X. destruct X as [_ ->]. rewrite <- E. symmetry. apply vformat_reads.
    now apply (proj1 unindexed_reads 2 s).
  Qed.
End Strip.

(** * The fingerprint becomes a star *)
Inductive starred : list part -> list part -> Prop :=
| starred_end : starred [] []
| starred_text : forall c t t', starred t t' -> starred (Text c :: t) (Text c :: t')
| starred_star : forall t t', starred t t' -> starred (Field $"input_fingerprint" [] [] :: t) (Text "*"%char :: t')
| starred_field : forall name accs spec spec' t t', starred spec spec' -> starred t t' ->
    starred (Field name accs spec :: t) (Field name accs spec' :: t').

Definition rep (r : str) : str := replace $"{input_fingerprint}" $"*" r.
Lemma rep_plain : forall s r, avoids $"{}" s -> rep (s ++ r) = s ++ rep r.
Proof.
  intros s r A. apply (replace_plain $"input_fingerprint" []). apply avoids_not_in with (bad := $"{}"); [exact A|cbn; tauto].
Qed.
Lemma rep_hit : forall r, rep ($"{input_fingerprint}" ++ r) = $"*" ++ rep r.
Proof. intro r. apply (replace_hit $"{input_fingerprint}"). discriminate. Qed.
Lemma rep_close : forall r, rep ($"}" ++ r) = $"}" ++ rep r.
Proof. intro r. apply (replace_plain $"input_fingerprint" []). cbn. intuition discriminate. Qed.
Lemma rep_colon : forall r, rep ($":" ++ r) = $":" ++ rep r.
Proof. intro r. apply (replace_plain $"input_fingerprint" []). cbn. intuition discriminate. Qed.
Lemma rep_open : forall r, starts_with $"input_fingerprint}" r = false -> rep ($"{" ++ r) = $"{" ++ rep r.
Proof.
  intros r N. unfold rep, replace. change ($"{" ++ r) with ("{"%char :: r). cbn [replace_aux].
  assert (E : starts_with $"{input_fingerprint}" ("{"%char :: r) = false).
  { change (starts_with ("{"%char :: $"input_fingerprint}") ("{"%char :: r) = false). cbn [starts_with]. rewrite Ascii.eqb_refl. exact N. }
  now rewrite E.
Qed.

Lemma starts_body : forall a x c y, avoids $"}:" a -> avoids $"}" x -> c = "}"%char \/ c = ":"%char ->
  starts_with (a ++ $"}") (x ++ c :: y) = true -> a = x /\ c = "}"%char.
Proof.
  induction a as [|b a IH]; intros x c y A X C S.
  - destruct x as [|e x].
    + split; [reflexivity|]. cbn [app S_ list_ascii_of_string starts_with] in S. rewrite andb_true_r in S. apply Ascii.eqb_eq in S. now symmetry.
    + apply avoids_cons in X. destruct X as [N _]. cbn [app S_ list_ascii_of_string starts_with] in S. rewrite andb_true_r in S. apply Ascii.eqb_eq in S. subst e. exfalso. apply N. now left.
  - apply avoids_cons in A. destruct A as [N A]. destruct x as [|e x]; cbn [app starts_with] in S; apply andb_true_iff in S; destruct S as [E S]; apply Ascii.eqb_eq in E; subst.
    + exfalso. apply N. destruct C as [-> | ->]; cbn; tauto.
    + apply avoids_cons in X. destruct X as [_ X]. destruct (IH x c y A X C S) as [-> ->]. auto.
Qed.
Lemma body_bare : forall name accs, avoids $"{}[.:!" name -> name ++ flat_map print_acc accs = $"input_fingerprint" ->
  name = $"input_fingerprint" /\ accs = [].
Proof.
  intros name accs N E. destruct accs as [|a accs]; [cbn in E; now rewrite app_nil_r in E|]. exfalso.
  assert (I : In "."%char $"input_fingerprint" \/ In "["%char $"input_fingerprint").
  { rewrite <- E. destruct a as [n|k]; [left|right]; apply in_or_app; right; cbn; now left. }
  destruct I as [I|I]; revert I; cbv; intuition discriminate.
Qed.

Inductive brace_free : part -> Prop :=
| brace_free_text : forall c, brace_free (Text c)
| brace_free_field : forall name accs spec, Forall (fun a => match a with Idx k => avoids $"{}" k | Attr _ => True end) accs ->
    Forall brace_free spec -> brace_free (Field name accs spec).
Lemma settled_brace_free : forall key p, settled key p -> brace_free p.
Proof.
  intro key. induction p as [c|name accs spec IH] using part_ind'; intro S; [constructor|]. inversion S; subst.
  - constructor; [apply Forall_map, Forall_forall; intros; exact I|]. rewrite Forall_forall in *. auto.
  - constructor; [repeat constructor; assumption|]. apply Forall_map, Forall_forall. constructor.
Qed.
Lemma accs_plain : forall accs, Forall acc_fine accs -> Forall (fun a => match a with Idx k => avoids $"{}" k | Attr _ => True end) accs ->
  avoids $"{}" (flat_map print_acc accs).
Proof.
  intros accs F B. induction accs as [|a accs IH]; [constructor|]. inversion F; subst. inversion B; subst. cbn [flat_map].
  apply avoids_app. split; [|now apply IH]. destruct a as [n|k]; cbn [print_acc].
  - apply avoids_app. split; [repeat constructor; cbn; intuition discriminate|]. apply name_plain. apply H1.
  - apply avoids_app. split; [repeat constructor; cbn; intuition discriminate|]. apply avoids_app. split; [assumption|].
    repeat constructor; cbn; intuition discriminate.
Qed.

Lemma reassoc : forall (a b c d e r : str), (a ++ b ++ c ++ d ++ e) ++ r = a ++ b ++ c ++ d ++ e ++ r.
Proof. intros. now rewrite <- !app_assoc. Qed.
Lemma starred_both :
  (forall n s t, reads n s t -> Forall unescaped t -> Forall brace_free t ->
     exists s' t', reads n s' t' /\ starred t t' /\ (forall r, rep (s ++ r) = s' ++ rep r) /\
       (forall d r, balanced d (s' ++ r) = balanced d (s ++ r))) /\
  (forall n sp spec, reads_spec n sp spec -> Forall unescaped spec -> Forall brace_free spec ->
     exists sp' spec', reads_spec n sp' spec' /\ starred spec spec' /\ (forall r, rep (sp ++ r) = sp' ++ rep r) /\
       (forall d r, balanced d (sp' ++ r) = balanced d (sp ++ r)) /\ (sp = [] -> spec = [])).
Proof.
  apply reads_mutual.
  - intros n _ _. exists [], []. repeat split; constructor.
  - intros n c s t N R IH U F. inversion U; subst. inversion F; subst. destruct IH as (s' & t' & R' & S & P & B); [assumption|assumption|].
    exists (c :: s'), (Text c :: t'). split; [now constructor|]. split; [now constructor|]. split.
    + intro r. change ((c :: s) ++ r) with ([c] ++ s ++ r). rewrite rep_plain; [now rewrite P|]. constructor; [exact N|constructor].
    + intros d r. cbn [app balanced]. nc N. apply B.
  - intros n c s t N R IH U. inversion U; subst. inversion H1; subst. contradiction.
  - intros n name accs sp spec s t N A RS IHs R IH U F.
    inversion U as [|? ? U1 U2]; subst. inversion U1 as [|? ? ? Us]; subst.
    inversion F as [|? ? F1 F2]; subst. inversion F1 as [|? ? ? Fa Fs]; subst.
    destruct (IHs Us Fs) as (sp' & spec' & Rs' & Ss & Ps & Bs & Ns). destruct (IH U2 F2) as (s' & t' & R' & St & P & B).
    assert (Pl : avoids $"{}" (name ++ flat_map print_acc accs)).
    { apply avoids_app. split; [apply name_plain, N|now apply accs_plain]. }
    assert (Keep : (forall r, starts_with $"input_fingerprint}" ((name ++ flat_map print_acc accs) ++ sp ++ $"}" ++ r) = false) ->
      exists s'' t'', reads (S n) s'' t'' /\ starred (Field name accs spec :: t) t'' /\
        (forall r, rep (($"{" ++ (name ++ flat_map print_acc accs) ++ sp ++ $"}" ++ s) ++ r) = s'' ++ rep r) /\
        (forall d r, balanced d (s'' ++ r) = balanced d (($"{" ++ (name ++ flat_map print_acc accs) ++ sp ++ $"}" ++ s) ++ r))).
    { intro K. exists ($"{" ++ (name ++ flat_map print_acc accs) ++ sp' ++ $"}" ++ s'), (Field name accs spec' :: t').
      split; [now constructor|]. split; [now constructor|]. split.
      - intro r. rewrite !reassoc, rep_open by apply K. rewrite rep_plain by exact Pl. rewrite Ps, rep_close, P. reflexivity.
      - intros d r. rewrite !reassoc.
        apply balanced_ext. intro d1. apply balanced_ext. intro d2. rewrite Bs. apply balanced_ext. intro d3. apply balanced_ext. intro d4. apply B. }
    assert (Sp : sp = [] \/ exists y, sp = ":"%char :: y) by (inversion RS; subst; [now left|right; eexists; reflexivity]).
    destruct Sp as [E|[y E]].
    + destruct (list_eq_dec ascii_dec (name ++ flat_map print_acc accs) $"input_fingerprint") as [Eb|Nb].
      * apply body_bare in Eb; [|apply N]. destruct Eb as [-> ->]. rewrite (Ns E), E. clear Keep.
        exists ($"*" ++ s'), (Text "*"%char :: t'). split; [constructor; [cbn; intuition discriminate|exact R']|].
        split; [now constructor|]. cbn [flat_map]. rewrite app_nil_r. cbn [app]. split.
        -- intro r. change (($"{" ++ $"input_fingerprint" ++ $"}" ++ s) ++ r) with ($"{input_fingerprint}" ++ s ++ r). now rewrite rep_hit, P.
        -- intros d r. cbn -[balanced]. cbn [balanced Ascii.eqb Bool.eqb]. apply B.
      * apply Keep. intro r. rewrite E. destruct (starts_with _ _) eqn:X; [|reflexivity]. exfalso. apply Nb.
        change $"input_fingerprint}" with ($"input_fingerprint" ++ $"}") in X. apply starts_body in X; [symmetry; tauto| | |now left].
        -- repeat constructor; cbn; intuition discriminate.
        -- eapply avoids_weak; [|exact Pl]. cbn. tauto.
    + apply Keep. intro r. rewrite E. destruct (starts_with _ _) eqn:X; [|reflexivity]. exfalso.
      change $"input_fingerprint}" with ($"input_fingerprint" ++ $"}") in X. apply starts_body in X; [destruct X; discriminate| | |now right].
      * repeat constructor; cbn; intuition discriminate.
      * eapply avoids_weak; [|exact Pl]. cbn. tauto.
  - intros n _ _. exists [], []. repeat split; constructor.
  - intros n sp spec B R IH U F. destruct (IH U F) as (s' & t' & R' & S & P & Bl).
    exists ($":" ++ s'), t'. split.
    + apply some_spec; [|exact R']. specialize (Bl 0 []). rewrite !app_nil_r in Bl. now rewrite Bl.
    + split; [exact S|]. split; [|split; [|discriminate]].
      * intro r. rewrite <- !app_assoc, rep_colon, P. reflexivity.
      * intros d r. rewrite <- !app_assoc. apply balanced_ext. intro. apply Bl.
Qed.

(** * Generated paths match *)
Section Match.
  Context (other : cvalue -> str -> result str) (kts : key_types) (fp : option Z) (key : pkey) (K : key_ok kts key).

  Lemma gmatch_refl : forall x p s, gmatch p s -> gmatch (x ++ p) (x ++ s).
  Proof. induction x as [|c x IH]; intros p s G; [exact G|]. cbn [app]. constructor. now apply IH. Qed.
  Lemma starred_texts : forall sp t, starred (map Text sp) t -> t = map Text sp.
  Proof.
    induction sp as [|c sp IH]; intros t S; [inversion S; reflexivity|]. cbn [map] in *. inversion S; subst. f_equal. now apply IH.
  Qed.
  Lemma eval_texts : forall render sp, eval_parts render (map Text sp) = Ok sp.
  Proof. induction sp as [|c sp IH]; [reflexivity|]. cbn [map eval_parts eval_part bind]. now rewrite IH. Qed.
  Lemma unindexed_texts : forall sp, map unindexed (map Text sp) = map Text sp.
  Proof. intro sp. rewrite map_map. reflexivity. Qed.
  Lemma final_component : forall name c sp x, format_final other fp key name [Attr c] None sp = Ok x ->
    exists f v, dget str_eqb key name = Some f /\ component f c = Ok v /\ format_value other v sp = Ok x.
  Proof.
    intros name c sp x E. unfold format_final in E. destruct (if str_eqb name _ then fp else None) as [z|].
    - cbn in E. destruct (str_attribute c); discriminate.
    - destruct (dget str_eqb key name) as [f|]; [|discriminate]. destruct (component f c) as [v|] eqn:C; [|discriminate]. eauto.
  Qed.
  Lemma filter_attrs : forall attrs, filter (fun a => match a with Attr _ => true | Idx _ => false end) (map Attr attrs) = map Attr attrs.
  Proof. induction attrs as [|a l IH]; [reflexivity|]. cbn [map filter]. now rewrite IH. Qed.
  Lemma text_match : forall chars s, (forall c, In c chars -> c <> "/"%char) -> text_of chars s ->
    s <> [] /\ ~ In "/"%char s /\ starts_with $"." s = false.
  Proof.
    intros chars s H (c & r & -> & Hc & F). split; [discriminate|]. split.
    - intros [->|I]; [cbn in Hc; intuition discriminate|]. rewrite Forall_forall in F. exact (H _ (F _ I) eq_refl).
    - cbn in Hc. repeat (destruct Hc as [<-|Hc]; [reflexivity|]). destruct Hc.
  Qed.
  Lemma tail_no_slash : forall cls c x, In x (tail_chars cls c) -> x <> "/"%char.
  Proof.
    intros cls c x I ->. unfold tail_chars in I. destruct cls as [|w|].
    - destruct (_ || _); cbn in I; intuition discriminate.
    - destruct (str_eqb c _); cbn in I; intuition discriminate.
    - cbn in I; intuition discriminate.
  Qed.

  Lemma starred_match : forall t t', starred t t' -> Forall (settled key) t -> forall w path,
    eval_parts (format_wildcard other kts) t' = Ok w -> eval_parts (format_final other fp key) (map unindexed t) = Ok path -> gmatch w path.
  Proof.
    intros t t' S. induction S as [|c t t' S IH|t t' S IH|name accs spec spec' t t' Ss IHs S IH]; intros Se w path W P.
    - inversion W. inversion P. constructor.
    - inversion Se; subst. cbn [map unindexed eval_parts eval_part bind] in *.
      destruct (eval_parts _ t') as [w'|]; [|discriminate]. destruct (eval_parts _ (map unindexed t)) as [p'|]; [|discriminate].
      inversion W. inversion P. constructor. now apply IH.
    - inversion Se; subst. cbn [map unindexed filter eval_parts eval_part bind] in *.
      destruct (eval_parts _ t') as [w'|]; [|discriminate]. unfold format_final in P at 1. change (str_eqb $"input_fingerprint" $"input_fingerprint") with true in P.
      cbn iota in P. destruct fp as [z|] eqn:Z.
      + cbn [format_str format_value bind] in P. destruct (eval_parts _ (map unindexed t)) as [p'|]; [|discriminate].
        inversion W. inversion P. rewrite py_str_pad. destruct (pad_text 0 z) as [T _].
        apply (text_match decs) in T; [|intros x I ->; cbn in I; intuition discriminate]. destruct T as (N1 & N2 & N3).
        apply (gm_star (py_pad 0 z)); try assumption. now apply IH.
      + destruct (dget str_eqb key $"input_fingerprint"); discriminate.
    - inversion Se as [|? ? S1 S2]; subst. cbn [map unindexed] in P. cbn [eval_parts] in W, P. rewrite eval_field in W, P.
      destruct (eval_parts (format_wildcard other kts) spec') as [sw|] eqn:Ew; [|discriminate].
      destruct (eval_parts (format_final other fp key) (map unindexed spec)) as [sf|] eqn:Ef; [|discriminate]. cbn [bind] in W, P.
      destruct (format_wildcard other kts name accs None sw) as [x|] eqn:Fw; [|discriminate].
      destruct (format_final other fp key name _ None sf) as [y|] eqn:Ff; [|discriminate]. cbn [bind] in W, P.
      destruct (eval_parts _ t') as [w'|]; [|discriminate]. destruct (eval_parts _ (map unindexed t)) as [p'|]; [|discriminate].
      cbn in W, P. inversion W; subst w. inversion P; subst path. assert (G := IH S2 w' p' eq_refl eq_refl).
      apply wildcard_inv in Fw. destruct Fw as (cls & c & Gk & Ic & Fw).
      inversion S1 as [|? attrs ? Sspec|? c' k sp f Ak Gf Cf]; subst.
      + destruct Fw as [(Ea & -> & ->)|(k & Ea & _)].
        2:{ exfalso. destruct attrs as [|a1 [|a2 attrs]]; inversion Ea. }
        rewrite filter_attrs in Ff. rewrite Ea in Ff.
        assert (Q : gmatch [] sf) by (now apply IHs). inversion Q; subst sf.
        apply final_component in Ff. destruct Ff as (f & v & Gf & Cf & Fv).
        destruct (proj2 K _ _ Gf) as [OK C]. rewrite Gk in C. inversion C; subst cls.
        destruct (component_text other f c [] OK Ic (or_introl eq_refl)) as (v' & s & E1 & E2 & T & _).
        assert (v' = v) by congruence. subst v'. assert (s = y) by congruence. subst s.
        apply text_match in T; [|intros z I; exact (tail_no_slash _ c z I)]. destruct T as (N1 & N2 & N3).
        cbn [app S_ list_ascii_of_string]. now constructor.
      + destruct Fw as [(Ea & _)|(k' & Ea & Fx)]; [discriminate|]. inversion Ea; subst c' k'. cbn [filter] in Ff.
        apply starred_texts in Ss. subst spec'. rewrite unindexed_texts, eval_texts in Ef. rewrite eval_texts in Ew.
        inversion Ew; subst sw. inversion Ef; subst sf.
        apply final_component in Ff. destruct Ff as (f' & v & Gf' & Cf' & Fv).
        assert (f' = f) by congruence. subst f'. assert (v = index_value k) by congruence. subst v.
        assert (x = y) by congruence. subst y. now apply gmatch_refl.
  Qed.
End Match.

Theorem path_matches : forall other kts s t fp key w path, template_of s t -> Forall unescaped t -> Forall (settled key) t ->
  key_ok kts key -> spec_to_wildcard other s kts = Ok w -> generate_path other fp key s = Ok path -> glob_match w path = true.
Proof.
  intros other kts s t fp key w path R U Se K W G. apply gmatch_glob.
  assert (F : Forall brace_free t) by (eapply Forall_impl; [|exact Se]; intro p; apply settled_brace_free).
  destruct (proj1 starred_both 2 s t R U F) as (s' & t' & R' & S & P & _).
  specialize (P []). rewrite app_nil_r in P. change (rep []) with (@nil ascii) in P. rewrite app_nil_r in P.
  unfold spec_to_wildcard in W. fold (rep s) in W. rewrite P, (vformat_reads _ s' t' R') in W.
  apply (starred_match other kts fp key K t t' S Se w path W). now apply (generated_path other fp key s).
Qed.

(** * Matching *)
Lemma fnmatch_star : forall pat s, fnmatch ("*"%char :: pat) s = true <-> exists txt r, s = txt ++ r /\ fnmatch pat r = true.
Proof.
  intros pat s. cbn [fnmatch]. change ("*"%char =c "*") with true. cbn iota.
  induction s as [|c s IH].
  - rewrite orb_false_r. split; [intro H; exists [], []; now split|].
    intros (txt & r & E & H). symmetry in E. apply app_eq_nil in E. destruct E as [_ ->]. exact H.
  - rewrite orb_true_iff, IH. split.
    + intros [H|(txt & r & -> & H)]; [exists [], (c :: s); now split|exists (c :: txt), r; now split].
    + intros ([|c' txt] & r & E & H); [left; cbn in E; now subst|]. injection E as -> ->. right. now exists txt, r.
Qed.
Lemma fnmatch_fits : forall pat s, fnmatch pat s = true <-> fits pat s.
Proof.
  induction pat as [|p pat IH]; intro s.
  - cbn. destruct s; split; intro H; try discriminate; try reflexivity; [apply fits_end|inversion H].
  - destruct (Ascii.eqb_spec p "*"%char) as [->|N].
    + rewrite fnmatch_star. split.
      * intros (txt & r & -> & H). constructor. now apply IH.
      * intro H. inversion H; subst; [|contradiction]. exists txt, s0. split; [reflexivity|now apply IH].
    + cbn [fnmatch]. replace (p =c "*") with false by (symmetry; now apply Ascii.eqb_neq). destruct s as [|c s].
      * split; [discriminate|]. intro H. inversion H. subst. now destruct N.
      * rewrite andb_true_iff, orb_true_iff, IH, !Ascii.eqb_eq. split.
        -- intros [[->| ->] H]; now constructor.
        -- intro H. inversion H; subst; [now destruct N| |]; auto.
Qed.
Lemma hidden_dot : forall s, hidden s = true <-> exists r, s = "."%char :: r.
Proof.
  intros [|c s]; [split; [discriminate|intros (r & E); discriminate]|].
  rewrite hidden_cons. split; [intro H; apply Ascii.eqb_eq in H; subst; now exists s|intros (r & E); now injection E as -> _].
Qed.
Lemma match_segments_listed : forall pats names, match_segments pats names = true <-> listed pats names.
Proof.
  unfold listed. induction pats as [|p pats IH]; intros [|n names]; try (split; [discriminate|intro H; inversion H]); [split; constructor|].
  cbn [match_segments]. unfold match_segment. rewrite !andb_true_iff, IH, fnmatch_fits, orb_true_iff, negb_true_iff.
  assert (Q : hidden n = false \/ hidden p = true <-> (forall rest, n = "."%char :: rest -> exists pat', p = "."%char :: pat')).
  { rewrite hidden_dot. split.
    - intros [H|H] rest E; [|exact H]. assert (T : hidden n = true) by (apply hidden_dot; eauto). congruence.
    - intro H. destruct (hidden n) eqn:T; [|now left]. right. apply hidden_dot in T. destruct T as (r & E). exact (H r E). }
  rewrite Q. split; [intros [[F D] R]; constructor; [now split|exact R]|intro H; inversion H; subst; tauto].
Qed.
Lemma glob_listed : forall pats names, pats <> [] -> names <> [] ->
  Forall (fun n => ~ In "/"%char n) pats -> Forall (fun n => ~ In "/"%char n) names ->
  (glob_match (slashed pats) (slashed names) = true <-> listed pats names).
Proof.
  intros pats names Np Nn Fp Fn. unfold glob_match, slashed.
  rewrite !(split_join "/"%char) by (assumption || now apply Forall_forall). apply match_segments_listed.
Qed.
Lemma every_slashed : forall s, exists names, names <> [] /\ Forall (fun n => ~ In "/"%char n) names /\ s = slashed names.
Proof.
  intro s. exists (split_char "/"%char s). split; [apply split_nonempty|]. split.
  - apply Forall_forall. apply split_no_sep.
  - symmetry. apply (join_split "/"%char).
Qed.
