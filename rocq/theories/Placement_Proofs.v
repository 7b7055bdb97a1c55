From Coq Require Import ZArith List Ascii String Bool Lia.
From Verif Require Import Base Base_Proofs Str Str_Proofs Numerals_Model Partitions_Model Partitions_Spec
  TypedBox_Model TypedBox_Spec TypedBox_Proofs
  Format_Model Template_Spec Template_Proofs Format_Proofs Storage_Model Storage_Spec Resolve_Proofs
  Paths_Spec Paths_Proofs Discovery_Proofs Layout_Proofs Placement_Model Placement_Spec.
Import ListNotations.
Open Scope list_scope.

Notation sep := (TLit $"/").
Notation ask p := (THole (Hole p [] [])).

Lemma print_app : forall a b, print (a ++ b) = print a ++ print b.
Proof. intros. unfold print. apply flat_map_app. Qed.
Lemma ok_app : forall a b, template_ok (a ++ b) <-> template_ok a /\ template_ok b.
Proof. intros. apply Forall_app. Qed.
Lemma ok_cons : forall x a, template_ok (x :: a) <-> tok_ok x /\ template_ok a.
Proof. intros. split; [intro H; inversion H; auto|intros []; constructor; auto]. Qed.
Lemma without_app : forall p a b, without p (a ++ b) <-> without p a /\ without p b.
Proof.
  intros p a b. split.
  - intro W. split; intros h I; apply W, in_or_app; auto.
  - intros [A B] h I. apply in_app_or in I. destruct I; auto.
Qed.
Lemma without_lit : forall p s a, without p (TLit s :: a) <-> without p a.
Proof. intros p s a. split; intros W h I; [apply W; now right|]. destruct I as [I|I]; [discriminate|auto]. Qed.
Lemma without_hole : forall p h a, without p (THole h :: a) <-> h_name h <> p /\ without p a.
Proof.
  intros p h a. split.
  - intro W. split; [apply W; now left|intros h' I; apply W; now right].
  - intros [N W] h' [I|I]; [injection I as <-; exact N|auto].
Qed.
Lemma without_nil : forall p, without p [].
Proof. intros p h []. Qed.

Lemma rstrip_keep : forall x y, y <> [] -> rstrip_char "/"%char y = y ->
  rstrip_char "/"%char (x ++ y) = x ++ y.
Proof. intros x y N R. rewrite rstrip_app, R. destruct y; [congruence|reflexivity]. Qed.

(** The text does not end with a separator. *)
Definition ends (t : template) : Prop := print t <> [] /\ rstrip_char "/"%char (print t) = print t.
Lemma ends_app : forall a b, ends b -> ends (a ++ b).
Proof.
  intros a b [N R]. split; rewrite print_app.
  - intro E. apply app_eq_nil in E. tauto.
  - now apply rstrip_keep.
Qed.
Lemma ends_cons : forall x b, ends b -> ends (x :: b).
Proof. intros x b. exact (ends_app [x] b). Qed.

Lemma rstrip_last_char : forall s c, c <> "/"%char -> rstrip_char "/"%char (s ++ [c]) = s ++ [c].
Proof.
  intros s c N. apply rstrip_keep; [discriminate|]. cbn.
  destruct (Ascii.eqb c "/"%char) eqn:E; [apply Ascii.eqb_eq in E; congruence|reflexivity].
Qed.
Lemma rstrip_avoids : forall s, avoids $"/" s -> rstrip_char "/"%char s = s.
Proof.
  intros s A. destruct s as [|x s _] using rev_ind; [reflexivity|].
  apply rstrip_last_char. apply avoids_app in A. destruct A as [_ A]. inversion A as [|? ? H]; subst.
  intros ->. apply H. now left.
Qed.
Lemma ends_hole : forall h, ends [THole h].
Proof.
  intro h. unfold ends. cbn [print flat_map print_tok app]. rewrite app_nil_r, print_hole_body.
  split; [discriminate|]. change ("{"%char :: hole_body h ++ ["}"%char]) with (("{"%char :: hole_body h) ++ ["}"%char]).
  apply rstrip_last_char. discriminate.
Qed.
Lemma ends_lit : forall s, s <> [] -> avoids $"/" s -> ends [TLit s].
Proof.
  intros s N A. unfold ends. cbn [print flat_map print_tok app]. rewrite app_nil_r. split; [exact N|].
  now apply rstrip_avoids.
Qed.

Lemma fill_app : forall values a b, fill values (a ++ b) = fill values a ++ fill values b.
Proof. intros. apply map_app. Qed.
Lemma fill_cons : forall values x b, fill values (x :: b) = fill_tok values x :: fill values b.
Proof. reflexivity. Qed.
Lemma fill_without : forall values t, (forall p, dmem str_eqb values p = true -> without p t) -> fill values t = t.
Proof.
  intros values t W. unfold fill. rewrite <- (map_id t) at 2. apply map_ext_in.
  intros [s|h] I; [reflexivity|]. cbn [fill_tok].
  destruct (dget str_eqb values (h_name h)) eqn:E; [|reflexivity].
  exfalso. apply (W (h_name h)) with (h := h); [unfold dmem; now rewrite E|exact I|reflexivity].
Qed.

(** The directory in parts. *)
Definition level (s : str) : str := match s with [] => [] | _ => $"/" ++ s end.
Definition tag_levels (tags : list (str * str)) : str := flat_map (fun tv => $"/" ++ fst tv ++ $"=" ++ snd tv) tags.
Lemma directory_parts : forall root g names, directory root g names =
  root ++ level (g_name g) ++ tag_levels (g_tags g) ++ flat_map (fun n => $"/" ++ n) names ++ $"/".
Proof.
  intros root g names. unfold directory, levels. f_equal. rewrite !flat_map_app, <- !app_assoc. f_equal.
  - destruct (g_name g); cbn [flat_map level]; [reflexivity|now rewrite app_nil_r].
  - f_equal. unfold tag_levels. induction (g_tags g) as [|x l IH]; [reflexivity|]. cbn [flat_map map]. now rewrite IH.
Qed.

Section Placement.
  Context (other : cvalue -> str -> result str).

  (** A placeholder filled with a text, or left out with the separator after it. *)
  Definition slot (v : str) : template := match v with [] => [] | _ => [TLit v; sep] end.
  Lemma ask_ok : forall p, name_ok p -> tok_ok (ask p).
  Proof. intros p N. repeat split; try apply N; constructor. Qed.
  Lemma sep_ok : tok_ok sep.
  Proof. repeat constructor; cbn; intuition discriminate. Qed.
  Lemma slot_ok : forall v, avoids $"{}" v -> template_ok (slot v).
  Proof. intros [|c v] A; [constructor|]. constructor; [exact A|]. constructor; [apply sep_ok|constructor]. Qed.
  Lemma slot_without : forall p v, without p (slot v).
  Proof. intros p [|c v] h I; cbn in I; intuition discriminate. Qed.

  Lemma trim_sep : forall p a b, name_ok p -> template_ok a -> template_ok b -> without p a -> without p b ->
    ends b -> trim_empty (print (a ++ ask p :: sep :: b)) p = Ok (print (a ++ b)).
  Proof.
    intros p a b N Oa Ob Wa Wb E.
    assert (O : template_ok (a ++ ask p :: sep :: b)).
    { apply ok_app. split; [exact Oa|]. constructor; [repeat split; try apply N; constructor|].
      constructor; [|exact Ob]. repeat constructor; cbn; intuition discriminate. }
    rewrite trim_empty_print by assumption.
    rewrite trimmed_once by (try assumption; apply without_lit; exact Wb).
    change (drop_sep (print (sep :: b))) with (print b). rewrite <- print_app.
    destruct (ends_app a b E) as [Ne R]. rewrite R. destruct (print (a ++ b)); [congruence|reflexivity].
  Qed.

  Lemma dmem_one : forall p (v : str) q, dmem str_eqb [(p, v)] q = true -> q = p.
  Proof. intros p v q. unfold dmem. cbn [dget]. destruct (str_eqb p q) eqn:E; [|discriminate]. apply str_eqb_spec in E. auto. Qed.
  Lemma dmem_two : forall p q (v w : str) x, dmem str_eqb [(p, v); (q, w)] x = true -> x = p \/ x = q.
  Proof.
    intros p q v w x. unfold dmem. cbn [dget]. destruct (str_eqb p x) eqn:E; [apply str_eqb_spec in E; auto|].
    destruct (str_eqb q x) eqn:F; [apply str_eqb_spec in F; auto|discriminate].
  Qed.

  (** Filling in one text. *)
  Lemma format_one : forall p v a b, name_ok p -> template_ok a -> template_ok b -> without p a -> without p b ->
    partial_format other (print (a ++ ask p :: b)) [(p, v)] = Ok (print (a ++ TLit v :: b)).
  Proof.
    intros p v a b N Oa Ob Wa Wb. rewrite partial_format_fill.
    - rewrite fill_app. rewrite fill_cons.
      rewrite !fill_without by (intros q D; apply dmem_one in D; subst; assumption).
      cbn [fill_tok h_name dget]. now rewrite str_eqb_refl.
    - apply ok_app. split; [exact Oa|]. constructor; [now apply ask_ok|exact Ob].
    - intros h I D. apply dmem_one in D. apply in_app_or in I. destruct I as [I|[I|I]].
      + destruct (Wa h I D).
      + injection I as <-. split; reflexivity.
      + destruct (Wb h I D).
  Qed.
  Lemma format_none : forall values t, template_ok t -> (forall p, dmem str_eqb values p = true -> without p t) ->
    partial_format other (print t) values = Ok (print t).
  Proof.
    intros values t O W. rewrite partial_format_fill; [now rewrite fill_without|exact O|].
    intros h I D. destruct (W _ D h I eq_refl).
  Qed.

  Lemma resolve_slot : forall p v a b, name_ok p -> template_ok a -> template_ok b -> without p a -> without p b ->
    ends b -> resolve_field other (print (a ++ ask p :: sep :: b)) [(p, v)] = Ok (print (a ++ slot v ++ b)).
  Proof.
    intros p v a b N Oa Ob Wa Wb E. destruct v as [|c v].
    - unfold resolve_field. cbn [fold_left fst snd bind]. rewrite trim_sep by assumption. cbn [bind slot app].
      apply format_none; [now apply ok_app|].
      intros q D. apply dmem_one in D. subst. apply without_app. auto.
    - rewrite resolve_field_nonempty by (repeat constructor; discriminate).
      change (slot (c :: v) ++ b) with (TLit (c :: v) :: sep :: b).
      apply format_one; try assumption.
      + constructor; [apply sep_ok|exact Ob].
      + now apply without_lit.
  Qed.

  (** At the end, without a separator after it. *)
  Lemma resolve_last : forall p v a, name_ok p -> template_ok a -> without p a -> ends a ->
    resolve_field other (print (a ++ [ask p])) [(p, v)] = Ok (print (a ++ [TLit v])).
  Proof.
    intros p v a N Oa Wa E. destruct v as [|c v].
    - rewrite resolve_empty_once; try assumption.
      + change (print []) with (@nil ascii). cbn [drop_sep]. rewrite app_nil_r. destruct E as [Ne R]. rewrite R.
        rewrite print_app. cbn [print flat_map print_tok app]. rewrite app_nil_r. fold (print a).
        destruct (print a); [congruence|reflexivity].
      + apply ok_app. split; [exact Oa|]. constructor; [now apply ask_ok|constructor].
      + apply without_nil.
    - rewrite resolve_field_nonempty by (repeat constructor; discriminate).
      apply format_one; try assumption; [constructor|apply without_nil].
  Qed.

  (** Two neighbouring placeholders. *)
  Lemma resolve_slots : forall p q v w a b, p <> q -> name_ok p -> name_ok q -> template_ok a -> template_ok b ->
    without p a -> without p b -> without q a -> without q b -> ends b ->
    resolve_field other (print (a ++ ask p :: sep :: ask q :: sep :: b)) [(p, v); (q, w)] =
    Ok (print (a ++ slot v ++ slot w ++ b)).
  Proof.
    intros p q v w a b Ne Np Nq Oa Ob Pa Pb Qa Qb E.
    assert (Os : template_ok (sep :: b)) by (constructor; [apply sep_ok|exact Ob]).
    assert (Oq : template_ok (ask q :: sep :: b)) by (constructor; [now apply ask_ok|exact Os]).
    assert (Op : template_ok (ask p :: sep :: b)) by (constructor; [now apply ask_ok|exact Os]).
    assert (Es : ends (sep :: b)) by now apply ends_cons.
    assert (Eq : ends (ask q :: sep :: b)) by now apply ends_cons.
    assert (G : forall t, template_ok t -> (forall h, In (THole h) t -> h_name h = p \/ h_name h = q -> bare h) ->
                fillable [(p, v); (q, w)] t).
    { intros t O H h I D. apply H; [exact I|]. apply dmem_two in D. exact D. }
    assert (Fa : forall vs, (forall x, dmem str_eqb vs x = true -> x = p \/ x = q) -> fill vs a = a /\ fill vs b = b).
    { intros vs K. split; apply fill_without; intros x D; destruct (K x D); subst; assumption. }
    assert (K : forall x, dmem str_eqb [(p, v); (q, w)] x = true -> x = p \/ x = q) by (intros; eapply dmem_two; eassumption).
    destruct (Fa _ K) as [Fa1 Fb1].
    assert (Fp : fill_tok [(p, v); (q, w)] (ask p) = TLit v) by (cbn [fill_tok h_name dget]; now rewrite str_eqb_refl).
    assert (Fq : fill_tok [(p, v); (q, w)] (ask q) = TLit w).
    { cbn [fill_tok h_name dget]. rewrite str_eqb_refl.
      destruct (str_eqb p q) eqn:F; [apply str_eqb_spec in F; congruence|reflexivity]. }
    assert (H0 : forall t, In t [a ++ ask p :: sep :: ask q :: sep :: b; a ++ ask q :: sep :: b; a ++ ask p :: sep :: b; a ++ b] ->
             template_ok t /\ fillable [(p, v); (q, w)] t).
    { intros t I. assert (O : template_ok t).
      { cbn [In] in I. destruct I as [<-|[<-|[<-|[<-|[]]]]]; apply ok_app; split; auto.
        constructor; [now apply ask_ok|]. constructor; [apply sep_ok|exact Oq]. }
      split; [exact O|]. apply G; [exact O|]. intros h J D.
      assert (J' : In (THole h) a \/ h = Hole p [] [] \/ h = Hole q [] [] \/ In (THole h) b).
      { cbn [In] in I. destruct I as [<-|[<-|[<-|[<-|[]]]]]; apply in_app_or in J; destruct J as [J|J]; auto;
          repeat (destruct J as [J|J]; [(injection J as <-; auto) || discriminate J|]); auto. }
      destruct J' as [J'|[->|[->|J']]]; [|split; reflexivity|split; reflexivity|];
        destruct D as [D|D]; exfalso.
      - apply (Pa h J' D).
      - apply (Qa h J' D).
      - apply (Pb h J' D).
      - apply (Qb h J' D). }
    unfold resolve_field. cbn [fold_left fst snd].
    destruct v as [|c v]; destruct w as [|d w].
    - cbn [bind]. rewrite (trim_sep p a (ask q :: sep :: b)); auto.
      2:{ apply without_hole. split; [cbn; congruence|]. now apply without_lit. }
      cbn [bind]. rewrite trim_sep by auto. cbn [bind slot app].
      apply format_none; [now apply ok_app|]. intros x D. apply without_app. destruct (K x D); subst; auto.
    - cbn [bind]. rewrite (trim_sep p a (ask q :: sep :: b)); auto.
      2:{ apply without_hole. split; [cbn; congruence|]. now apply without_lit. }
      cbn [bind]. rewrite partial_format_fill by (apply H0; cbn; auto).
      rewrite fill_app, Fa1. rewrite !fill_cons, Fb1, Fq. reflexivity.
    - cbn [bind].
      replace (a ++ ask p :: sep :: ask q :: sep :: b) with ((a ++ [ask p; sep]) ++ ask q :: sep :: b)
        by (rewrite <- app_assoc; reflexivity).
      rewrite trim_sep; auto.
      2:{ apply ok_app. split; [exact Oa|]. constructor; [now apply ask_ok|]. constructor; [apply sep_ok|constructor]. }
      2:{ apply without_app. split; [exact Qa|]. apply without_hole. split; [cbn; congruence|].
          apply without_lit, without_nil. }
      cbn [bind]. rewrite <- app_assoc. change ([ask p; sep] ++ b) with (ask p :: sep :: b).
      rewrite partial_format_fill by (apply H0; cbn; auto).
      rewrite fill_app, Fa1. rewrite !fill_cons, Fb1, Fp. reflexivity.
    - cbn [bind]. rewrite partial_format_fill by (apply H0; cbn; auto).
      rewrite fill_app, Fa1. rewrite !fill_cons, Fb1, Fp, Fq. reflexivity.
  Qed.

  (** * The key types *)
  Definition keys (kts : key_types) : template := match kts with [] => [] | _ => default_layout kts ++ [sep] end.

  Lemma layout_nonempty : forall kts, NoDup (map fst kts) -> kts <> [] -> partition_key_spec kts <> [].
  Proof.
    intros kts ND N. rewrite <- layout_text by exact ND. destruct kts as [|[n c] kts]; [congruence|].
    cbn [default_layout fold_right fst snd]. destruct (default_specs c) as [|[k spec] cs] eqn:E;
      [destruct (default_specs_nonempty c E)|].
    cbn [segments print flat_map print_tok]. intro F. apply app_eq_nil in F. destruct F as [F _].
    apply app_eq_nil in F. destruct F as [_ F]. discriminate.
  Qed.
  Lemma print_keys : forall kts, NoDup (map fst kts) -> print (keys kts) = print (slot (partition_key_spec kts)).
  Proof.
    intros [|nc kts] ND; [reflexivity|]. unfold keys. set (k := nc :: kts) in *.
    assert (N : partition_key_spec k <> []) by (apply layout_nonempty; [exact ND|discriminate]).
    rewrite print_app, layout_text by exact ND. destruct (partition_key_spec k) as [|c s]; [congruence|]. reflexivity.
  Qed.
  Lemma in_keys : forall kts h, In (THole h) (keys kts) ->
    exists n cls c spec, In (n, cls) kts /\ In (c, spec) (default_specs cls) /\ h = Hole n [Attr c] spec.
  Proof.
    intros kts h I. apply in_layout_hole. destruct kts; [destruct I|]. unfold keys in I.
    apply in_app_or in I. destruct I as [I|[I|[]]]; [exact I|discriminate].
  Qed.
  Lemma keys_without : forall kts p, ~ In p (map fst kts) -> without p (keys kts).
  Proof.
    intros kts p N h I E. apply in_keys in I. destruct I as (n & cls & c & spec & I & _ & ->). cbn in E. subst.
    apply N. apply in_map_iff. exists (p, cls). auto.
  Qed.
  Lemma plain_name : forall n, word n -> all_digits n = false -> name_ok n.
  Proof. intros n W D. split; [apply W|]. split; [exact D|]. now apply (Paths_Proofs.word_avoids). Qed.
  Lemma keys_ok : forall kts, plain_names kts -> template_ok (keys kts).
  Proof.
    intros kts [_ P]. destruct kts as [|nc kts]; [constructor|]. unfold keys. set (k := nc :: kts) in *.
    apply ok_app. split; [|constructor; [apply sep_ok|constructor]].
    apply Forall_forall. intros [s|h] I.
    - destruct (in_layout_lit k s I) as [->|(n & cls & c & spec & I' & J & ->)]; [apply sep_ok|].
      destruct (P n cls I') as [W _]. apply word_avoids in W. destruct (default_spec_ok cls c spec J) as (_ & _ & A).
      cbn [tok_ok]. apply avoids_app. split; [eapply avoids_weak; [|exact W]; cbn; tauto|].
      apply avoids_app. split; [repeat constructor; cbn; intuition discriminate|].
      eapply avoids_weak; [|exact A]; cbn; tauto.
    - apply in_layout_hole in I. destruct I as (n & cls & c & spec & I & J & ->).
      destruct (P n cls I) as [W D]. destruct (default_spec_ok cls c spec J) as (A & B & _).
      repeat split; cbn [h_name h_accs h_spec].
      + apply W.
      + exact D.
      + now apply Paths_Proofs.word_avoids.
      + constructor; [|constructor]. apply (component_words cls c A).
      + destruct B as [->|[_ [w Z]]]; [constructor|]. now apply zero_spec_avoids in Z.
  Qed.

  (** * The default template, stage by stage *)
  Definition path_storage_of (t : template) (kts : option key_types) : storage :=
    {| s_fields := [($"path", Some (print t))]; s_key_types := kts |}.
  Lemma resolve_path : forall t kts values t', resolve_field other (print t) values = Ok (print t') ->
    resolve other (path_storage_of t kts) values = Ok (path_storage_of t' kts).
  Proof. intros t kts values t' E. unfold resolve, path_storage_of. cbn [s_fields mapM snd]. rewrite E. reflexivity. Qed.
  Lemma same_text : forall t t' kts, print t = print t' -> path_storage_of t kts = path_storage_of t' kts.
  Proof. intros t t' kts E. unfold path_storage_of. now rewrite E. Qed.

  Ltac names := repeat match goal with
    | |- S_ _ <> S_ _ => cbv; discriminate
    | |- name_ok _ => split; [discriminate|split; [reflexivity|repeat constructor; cbn; intuition discriminate]]
    | |- template_ok (_ ++ _) => apply ok_app; split
    | |- template_ok (_ :: _) => apply ok_cons; split
    | |- template_ok [] => constructor
    | |- template_ok (slot _) => apply slot_ok
    | |- tok_ok (TLit (S_ _)) => repeat constructor; cbn; intuition discriminate
    | |- tok_ok (ask _) => apply ask_ok
    | |- without _ (_ ++ _) => apply without_app; split
    | |- without _ (TLit _ :: _) => apply without_lit
    | |- without _ (THole _ :: _) => apply without_hole; split; [cbn; discriminate|]
    | |- without _ [] => apply without_nil
    | |- without _ (slot _) => apply slot_without
    | |- without _ (keys _) => apply keys_without
    | |- ends (_ ++ _) => apply ends_app
    end; auto.

  Lemma ends_named : forall x ext, ends [x] -> avoids $"/" ext -> ends [x; TLit ext].
  Proof.
    intros x ext E A. destruct ext as [|c ext].
    - unfold ends in *. cbn [print flat_map print_tok app] in *. rewrite app_nil_r in *. exact E.
    - apply (ends_app [x]). apply ends_lit; [discriminate|exact A].
  Qed.

  Section Stages.
    Variables (root ext : str) (kts : key_types) (g : context).
    Hypotheses (Hr : avoids $"{}" root) (Hp : plain_names kts) (He : avoids $"{}/" ext) (Hg : context_ok g).
    Notation rt := (TLit (root ++ $"/")).
    Notation fp := $"input_fingerprint".
    Notation tags := (join $"/" (map (fun tv : str * str => fst tv ++ $"=" ++ snd tv) (g_tags g))).

    Lemma root_ok : tok_ok rt.
    Proof. cbn [tok_ok]. apply avoids_app. split; [exact Hr|]. repeat constructor; cbn; intuition discriminate. Qed.
    Lemma ext_ok : tok_ok (TLit ext).
    Proof. cbn [tok_ok]. eapply avoids_weak; [|exact He]. cbn. tauto. Qed.
    Lemma ext_end : forall x, ends [x] -> ends [x; TLit ext].
    Proof. intros x E. apply ends_named; [exact E|]. eapply avoids_weak; [|exact He]. cbn. tauto. Qed.
    Lemma join_avoids : forall l, Forall (avoids $"{}") l -> avoids $"{}" (join $"/" l).
    Proof.
      induction l as [|x l IH]; intro F; [constructor|]. inversion F; subst. rewrite join_cons.
      destruct l; [assumption|]. apply avoids_app. split; [assumption|]. apply avoids_app.
      split; [repeat constructor; cbn; intuition discriminate|now apply IH].
    Qed.
    Lemma tags_avoid : avoids $"{}" tags.
    Proof.
      apply join_avoids. apply Forall_map, Forall_forall. intros [t v] I. destruct (proj2 Hg t v I) as [A B].
      cbn [fst snd]. apply avoids_app. split; [exact A|]. apply avoids_app.
      split; [repeat constructor; cbn; intuition discriminate|exact B].
    Qed.

    Definition t0 : template :=
      [rt; ask $"graph_name"; sep; ask $"path_tags"; sep; ask $"names"; sep; ask $"partition_key_spec"; sep;
       ask fp; sep; ask $"name"; ask $"extension"].
    Lemma text0 : rooted_at root = path_storage_of t0 None.
    Proof.
      unfold rooted_at, path_storage_of. do 4 f_equal. unfold t0. cbn [print flat_map print_tok].
      rewrite <- app_assoc. reflexivity.
    Qed.

    Definition front : template := [rt; ask $"graph_name"; sep; ask $"path_tags"; sep; ask $"names"; sep].
    Definition t1 : template := front ++ keys kts ++ [ask fp; sep; ask $"name"; ask $"extension"].
    Lemma stage1 : visit_type other (rooted_at root) kts = Ok (path_storage_of t1 (Some kts)).
    Proof.
      rewrite text0. unfold visit_type. cbn [s_fields path_storage_of].
      change {| s_fields := [($"path", Some (print t0))]; s_key_types := Some kts |} with (path_storage_of t0 (Some kts)).
      rewrite (same_text t1 (front ++ slot (partition_key_spec kts) ++ [ask fp; sep; ask $"name"; ask $"extension"])).
      - apply resolve_path.
        change t0 with (front ++ ask $"partition_key_spec" :: sep :: [ask fp; sep; ask $"name"; ask $"extension"]).
        apply resolve_slot; unfold front; names; try apply root_ok.
        apply (ends_app [ask fp; sep; ask $"name"]), ends_hole.
      - unfold t1. rewrite !print_app. f_equal. f_equal. apply print_keys, Hp.
    Qed.

    Definition t2 : template := front ++ keys kts ++ [ask fp; sep; ask $"name"; TLit ext].
    Lemma stage2 : ~ In $"extension" (map fst kts) ->
      artifact_storage other (rooted_at root) kts ext = Ok (path_storage_of t2 (Some kts)).
    Proof.
      intro N. unfold artifact_storage. rewrite stage1. cbn [bind]. unfold visit_format. apply resolve_path.
      assert (E : forall x, front ++ keys kts ++ [ask fp; sep; ask $"name"; x] = (front ++ keys kts ++ [ask fp; sep; ask $"name"]) ++ [x])
        by (intro; now rewrite <- !app_assoc).
      unfold t1, t2. rewrite !E. apply resolve_last; unfold front; names; try apply root_ok; try (apply keys_ok; exact Hp).
      apply (ends_app [ask fp; sep]), ends_hole.
    Qed.

    Definition placed_graph : template := [rt] ++ slot (g_name g) ++ slot tags.
    Definition t3 : template := placed_graph ++ [ask $"names"; sep] ++ keys kts ++ [ask fp; sep; ask $"name"; TLit ext].
    Lemma stage3 : ~ In $"graph_name" (map fst kts) -> ~ In $"path_tags" (map fst kts) ->
      visit_graph other (path_storage_of t2 (Some kts)) (g_name g) (g_tags g) = Ok (path_storage_of t3 (Some kts)).
    Proof.
      intros N1 N2. unfold visit_graph. apply resolve_path.
      change t2 with ([rt] ++ ask $"graph_name" :: sep :: ask $"path_tags" :: sep ::
                      ([ask $"names"; sep] ++ keys kts ++ [ask fp; sep; ask $"name"; TLit ext])).
      unfold t3, placed_graph. rewrite <- !app_assoc.
      apply resolve_slots; names; try apply root_ok; try (apply keys_ok; exact Hp); try exact ext_ok; try discriminate.
      apply (ends_app [ask fp; sep]). apply ext_end, ends_hole.
    Qed.

    Variables (names : list str).
    Hypothesis Hn : names_in_graph names.
    Notation nm := (last names []).

    Lemma last_segment : segment nm.
    Proof.
      destruct Hn as [Ne F]. destruct names as [|x l _] using rev_ind; [congruence|]. rewrite last_last.
      apply Forall_app in F. destruct F as [_ F]. now inversion F.
    Qed.
    Lemma names_joined : avoids $"{}" (join $"/" names) /\ join $"/" names <> [].
    Proof.
      destruct Hn as [Ne F]. split.
      - apply join_avoids. eapply Forall_impl; [|exact F]. intros s [_ A]. eapply avoids_weak; [|exact A]. cbn. tauto.
      - destruct names as [|x l]; [congruence|]. inversion F as [|? ? [Nx _] _]; subst. rewrite join_cons.
        destruct l; [exact Nx|]. intro E. apply app_eq_nil in E. tauto.
    Qed.

    Definition t4 : template :=
      placed_graph ++ [TLit (join $"/" names); sep] ++ keys kts ++ [ask fp; sep; TLit nm; TLit ext].
    Lemma graph_ok : template_ok placed_graph.
    Proof. unfold placed_graph. names; [apply root_ok|apply Hg|apply tags_avoid]. Qed.
    Lemma graph_without : forall p, without p placed_graph.
    Proof. intro p. unfold placed_graph. names. Qed.
    Lemma ok3 : template_ok t3.
    Proof. unfold t3. names; try apply graph_ok; try (apply keys_ok; exact Hp); try exact ext_ok. Qed.
    Notation named := [($"name", nm); ($"names", join $"/" names)].
    Lemma stage4 : ~ In $"name" (map fst kts) -> ~ In $"names" (map fst kts) ->
      visit_names other (path_storage_of t3 (Some kts)) names = Ok (path_storage_of t4 (Some kts)).
    Proof.
      intros N1 N2. unfold visit_names. apply resolve_path.
      rewrite resolve_field_nonempty by (repeat constructor; [apply last_segment|apply names_joined]).
      assert (K : forall p, dmem str_eqb named p = true -> p = $"name" \/ p = $"names") by (intros; eapply dmem_two; eassumption).
      rewrite partial_format_fill.
      - unfold t3. rewrite !fill_app, !fill_cons.
        rewrite (fill_without named placed_graph) by (intros; apply graph_without).
        rewrite (fill_without named (keys kts)) by (intros p D; apply keys_without; destruct (K p D); subst; assumption).
        reflexivity.
      - apply ok3.
      - intros h I D. apply K in D. unfold t3 in I. apply in_app_or in I. destruct I as [I|I].
        { destruct (graph_without (h_name h) h I eq_refl). }
        apply in_app_or in I. destruct I as [[I|[I|[]]]|I]; [injection I as <-; split; reflexivity|discriminate|].
        apply in_app_or in I. destruct I as [I|I].
        { exfalso. refine (keys_without kts (h_name h) _ h I eq_refl). destruct D as [D|D]; rewrite D; assumption. }
        cbn [In] in I. destruct I as [I|[I|[I|[I|[]]]]]; try discriminate; injection I as <-; split; reflexivity.
    Qed.
    (** A field of the key called [name] or [names] is taken for the artifact's. *)
    Lemma component_no_attribute : forall cls c, In c (components cls) -> str_attribute c = false.
    Proof. intros cls c I. destruct cls; cbn [components In] in I; intuition; subst; reflexivity. Qed.
    Lemma mapM_only : forall T U (f : T -> result U) e l, (forall x, In x l -> (exists y, f x = Ok y) \/ f x = Err e) ->
      (exists x, In x l /\ f x = Err e) -> mapM f l = Err e.
    Proof.
      intros T U f e. induction l as [|x l IH]; intros A (z & I & Z); [destruct I|]. cbn [mapM].
      destruct (A x (or_introl eq_refl)) as [[y E]|E]; rewrite E; [|reflexivity]. cbn [bind].
      rewrite IH; [reflexivity|intros; apply A; now right|]. destruct I as [<-|I]; [congruence|]. eauto.
    Qed.
    Lemma captured : In $"name" (map fst kts) \/ In $"names" (map fst kts) ->
      visit_names other (path_storage_of t3 (Some kts)) names = Err AttributeError.
    Proof.
      intros C. unfold visit_names, resolve, path_storage_of. cbn [s_fields mapM snd fst].
      rewrite resolve_field_nonempty by (repeat constructor; [apply last_segment|apply names_joined]).
      unfold partial_format. rewrite vformat_print by apply ok3.
      match goal with |- context [eval_tok ?r] => set (render := r) end.
      assert (M : mapM (eval_tok render) t3 = Err AttributeError); [|now rewrite M].
      assert (K : forall n v accs c spec, dget str_eqb named n = Some v -> str_attribute c = false -> accs = [Attr c] ->
                  render n accs None spec = Err AttributeError).
      { intros n v accs c spec D S ->. unfold render. rewrite D. unfold format_str. now rewrite S. }
      apply mapM_only.
      - intros x I. assert (O : tok_ok x) by (eapply Forall_forall; [apply ok3|exact I]).
        destruct x as [s|h]; [left; eexists; reflexivity|]. cbn [eval_tok].
        destruct (dget str_eqb named (h_name h)) as [v|] eqn:D.
        + unfold t3 in I. apply in_app_or in I. destruct I as [I|I].
          { destruct (graph_without (h_name h) h I eq_refl). }
          apply in_app_or in I. destruct I as [[I|[I|[]]]|I]; [|discriminate|].
          { injection I as <-. left. unfold render. rewrite D. eexists. reflexivity. }
          apply in_app_or in I. destruct I as [I|I].
          { apply in_keys in I. destruct I as (n & cls & c & spec & I & J & ->). right.
            eapply K; [exact D| |reflexivity]. apply (component_no_attribute cls). now apply (default_spec_ok cls c spec). }
          cbn [In] in I. left. destruct I as [I|[I|[I|[I|[]]]]]; try discriminate; injection I as <-.
          * discriminate.
          * unfold render. rewrite D. eexists. reflexivity.
        + left. exists (print_hole h). unfold render. rewrite D. now apply placeholder_print.
      - assert (H : exists n, In n (map fst kts) /\ exists v, dget str_eqb named n = Some v).
        { destruct C as [C|C]; eexists; (split; [exact C|]); eexists; reflexivity. }
        destruct H as (n & I & v & D). apply in_map_iff in I. destruct I as ([n' cls] & E & I). cbn in E. subst n'.
        destruct (default_specs cls) as [|[c spec] r] eqn:S; [destruct (default_specs_nonempty cls S)|].
        assert (J : In (c, spec) (default_specs cls)) by (rewrite S; now left).
        exists (THole (Hole n [Attr c] spec)). split.
        + unfold t3. apply in_or_app. right. apply in_or_app. right. apply in_or_app. left.
          destruct kts as [|k ks] eqn:Ek; [destruct I|]. unfold keys. apply in_or_app. left. rewrite <- Ek in *.
          apply in_layout_hole. exists n, cls, c, spec. auto.
        + cbn [eval_tok h_name h_accs h_spec]. eapply K; [exact D| |reflexivity].
          apply (component_no_attribute cls). now apply (default_spec_ok cls c spec).
    Qed.
    Lemma ok4 : template_ok t4.
    Proof.
      unfold t4. names; try apply graph_ok; try (apply keys_ok; exact Hp); try exact ext_ok.
      - apply names_joined.
      - eapply avoids_weak; [|apply last_segment]. cbn. tauto.
    Qed.

    Definition t5 : template := placed_graph ++ [TLit (join $"/" names); sep] ++ keys kts ++ [TLit nm; TLit ext].
    Lemma ok5 : template_ok t5.
    Proof.
      unfold t5. names; try apply graph_ok; try (apply keys_ok; exact Hp); try exact ext_ok.
      - apply names_joined.
      - eapply avoids_weak; [|apply last_segment]. cbn. tauto.
    Qed.
    Lemma stage5 : ~ In fp (map fst kts) ->
      visit_input_fingerprint other (path_storage_of t4 (Some kts)) None = Ok (path_storage_of t5 (Some kts)).
    Proof.
      intros N. unfold visit_input_fingerprint. apply resolve_path.
      replace t4 with ((placed_graph ++ [TLit (join $"/" names); sep] ++ keys kts) ++ ask fp :: sep :: [TLit nm; TLit ext])
        by (unfold t4; now rewrite <- !app_assoc).
      replace t5 with ((placed_graph ++ [TLit (join $"/" names); sep] ++ keys kts) ++ slot [] ++ [TLit nm; TLit ext])
        by (unfold t5; now rewrite <- !app_assoc).
      apply resolve_slot; names; try apply graph_ok; try (apply keys_ok; exact Hp); try exact ext_ok; try apply graph_without.
      - apply names_joined.
      - eapply avoids_weak; [|apply last_segment]. cbn. tauto.
      - apply ext_end, ends_lit; [apply last_segment|]. eapply avoids_weak; [|apply last_segment]. cbn. tauto.
    Qed.

    (** The text in the end. *)
    Lemma slot_level : forall v r, print (slot v) ++ r = match v with [] => r | _ => v ++ $"/" ++ r end.
    Proof.
      intros [|c v] r; [reflexivity|]. cbn [slot print flat_map print_tok]. rewrite app_nil_r, <- app_assoc. reflexivity.
    Qed.
    Lemma flat_join : forall l, l <> [] -> flat_map (fun n => $"/" ++ n) l = $"/" ++ join $"/" l.
    Proof.
      induction l as [|x l IH]; intro N; [congruence|]. cbn [flat_map]. rewrite join_cons. destruct l as [|y l].
      - cbn [flat_map]. now rewrite app_nil_r.
      - rewrite IH by discriminate. now rewrite <- app_assoc.
    Qed.
    Lemma tags_text : forall (l : list (str * str)) (r : str),
      match join $"/" (map (fun tv : str * str => fst tv ++ $"=" ++ snd tv) l) with
      | [] => r
      | _ => join $"/" (map (fun tv : str * str => fst tv ++ $"=" ++ snd tv) l) ++ $"/" ++ r
      end = match tag_levels l with
            | [] => r | _ :: x => x ++ $"/" ++ r end.
    Proof.
      intros l r.
      assert (M : tag_levels l =
                  flat_map (fun n => $"/" ++ n) (map (fun tv : str * str => fst tv ++ $"=" ++ snd tv) l)).
      { induction l as [|x l IH]; [reflexivity|]. unfold tag_levels in *. cbn [flat_map map]. now rewrite IH. }
      rewrite M. clear M. destruct l as [|[t v] l]; [reflexivity|]. rewrite flat_join by discriminate.
      destruct (join _ _) eqn:J; [|reflexivity].
      exfalso. cbn [map] in J. rewrite join_cons in J. cbn [fst snd] in J. destruct (map _ l); apply app_eq_nil in J.
      - destruct J as [_ J]. discriminate.
      - destruct J as [J _]. apply app_eq_nil in J. destruct J as [_ J]. discriminate.
    Qed.
    Lemma graph_text : forall r, print placed_graph ++ join $"/" names ++ $"/" ++ r = directory root g names ++ r.
    Proof.
      intro r. rewrite directory_parts. unfold placed_graph. rewrite !print_app. rewrite (flat_join names) by apply Hn.
      cbn [print flat_map print_tok]. fold (print (slot (g_name g))). fold (print (slot tags)).
      rewrite app_nil_r, <- !app_assoc. f_equal. rewrite !slot_level.
      rewrite tags_text.
      destruct (tag_levels (g_tags g)) as [|c l] eqn:F.
      - destruct (g_name g) as [|d s]; cbn [level app]; reflexivity.
      - assert (c = "/"%char). { destruct (g_tags g) as [|[t v] tl]; cbn in F; [discriminate|]. now injection F as <- _. }
        subst c. destruct (g_name g) as [|d s]; cbn [level app]; reflexivity.
    Qed.
    Lemma text5 : print t5 = default_place root g names {| d_key_types := kts; d_extension := ext; d_produced := false |}.
    Proof.
      unfold t5, default_place. rewrite !print_app. cbn [d_key_types d_extension d_produced].
      cbn [print flat_map print_tok]. fold (print placed_graph). fold (print (keys kts)). rewrite !app_nil_r, <- !app_assoc.
      rewrite graph_text. f_equal. rewrite print_keys by apply Hp. rewrite slot_level.
      destruct kts as [|nc k] eqn:Ek; [reflexivity|]. rewrite <- Ek.
      destruct (partition_key_spec kts) eqn:S; [|rewrite <- app_assoc; reflexivity].
      exfalso. apply (layout_nonempty kts); [rewrite Ek; apply Hp|rewrite Ek; discriminate|exact S].
    Qed.
    Lemma text4 : print t4 = default_place root g names {| d_key_types := kts; d_extension := ext; d_produced := true |}.
    Proof.
      unfold t4, default_place. rewrite !print_app. cbn [d_key_types d_extension d_produced].
      cbn [print flat_map print_tok]. fold (print placed_graph). fold (print (keys kts)). rewrite !app_nil_r, <- !app_assoc.
      rewrite graph_text. f_equal. rewrite print_keys by apply Hp. rewrite slot_level.
      destruct kts as [|nc k] eqn:Ek; [reflexivity|]. rewrite <- Ek.
      destruct (partition_key_spec kts) eqn:S; [|rewrite <- app_assoc; reflexivity].
      exfalso. apply (layout_nonempty kts); [rewrite Ek; apply Hp|rewrite Ek; discriminate|exact S].
    Qed.
    Lemma asks4 : asks_fp t4.
    Proof. unfold asks_fp, t4. rewrite !in_app_iff. right. right. right. now left. Qed.

    Lemma placed_default : not_reserved kts -> forall produced,
      place_default other root g names {| d_key_types := kts; d_extension := ext; d_produced := produced |} =
      Ok {| a_storage := local_file (default_place root g names {| d_key_types := kts; d_extension := ext; d_produced := produced |}) kts;
            a_produced := produced |}.
    Proof.
      intros NR produced.
      assert (N : forall p, In p reserved -> ~ In p (map fst kts)) by (intros p I J; exact (NR p J I)).
      unfold place_default. cbn [d_key_types d_extension d_produced].
      rewrite stage2 by (apply N; cbn; tauto). cbn [bind]. unfold place. cbn [a_storage a_produced].
      rewrite stage3 by (apply N; cbn; tauto). cbn [bind]. rewrite stage4 by (apply N; cbn; tauto). cbn [bind].
      destruct produced.
      - replace (includes_fp (path_storage_of t4 (Some kts))) with true.
        + cbn [rmap]. do 2 f_equal. unfold path_storage_of, local_file. now rewrite text4.
        + symmetry. unfold includes_fp. cbn [s_fields path_storage_of existsb snd]. apply orb_true_iff. left.
          apply contains_fp; [apply ok4|apply asks4].
      - rewrite stage5 by (apply N; cbn; tauto). cbn [rmap]. do 2 f_equal. unfold path_storage_of, local_file. now rewrite text5.
    Qed.
  End Stages.
End Placement.
