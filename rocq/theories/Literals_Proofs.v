From Coq Require Import ZArith List Ascii String Bool Lia.
From Verif Require Import Base Base_Proofs Str Str_Proofs Partitions_Model Partitions_Spec Format_Model Template_Spec Template_Proofs
  Format_Proofs Storage_Model Storage_Spec Resolve_Proofs Paths_Spec Paths_Proofs Discovery_Proofs Layout_Proofs TypedBox_Model
  Types_Model IO_Model IO_Spec IO_Proofs Placement_Model Placement_Spec Placement_Proofs Literals_Spec.
Import ListNotations.
Open Scope list_scope.

(** An artifact whose literal has the default id, placed in a graph. *)
Definition literal_default (other : cvalue -> str -> result str) (value : option str) (g : context) (names : list str) (x : defaulted)
    : result artifact :=
  bind (artifact_storage other (string_literal default_id value None) (d_key_types x) (d_extension x)) (fun st =>
  place other (Some g) names {| a_storage := st; a_produced := d_produced x |}).

Section Place.
  Context (other : cvalue -> str -> result str).
  Variables (value : option str) (ext : str) (kts : key_types) (g : context).
  Hypotheses (Hb : preset_ok value) (Hp : plain_names kts) (He : avoids $"{}/" ext) (Hg : context_ok g).
  Notation fp := $"input_fingerprint".
  Notation tags := (join $"/" (map (fun tv : str * str => fst tv ++ $"=" ++ snd tv) (g_tags g))).

  Definition stored_at (t : template) (k : option key_types) : storage := string_literal (print t) value k.
  Lemma resolve_at : forall t k values t', resolve_field other (print t) values = Ok (print t') ->
    resolve other (stored_at t k) values = Ok (stored_at t' k).
  Proof.
    intros t k values t' E. unfold resolve, stored_at, string_literal. cbn [s_fields mapM snd fst].
    rewrite E. cbn [rmap bind]. destruct value as [v|]; [|reflexivity].
    rewrite (resolve_plain other v) by (apply Hb; reflexivity). reflexivity.
  Qed.
  Lemma same_at : forall t t' k, print t = print t' -> stored_at t k = stored_at t' k.
  Proof. intros t t' k E. unfold stored_at. now rewrite E. Qed.

  Ltac names := repeat match goal with
    | |- S_ _ <> S_ _ => cbv; discriminate
    | |- name_ok _ => split; [discriminate|split; [reflexivity|repeat constructor; cbn; intuition discriminate]]
    | |- template_ok (_ ++ _) => apply ok_app; split
    | |- template_ok (_ :: _) => apply ok_cons; split
    | |- template_ok [] => constructor
    | |- template_ok (slot _) => apply slot_ok
    | |- tok_ok (TLit (S_ _)) => repeat constructor; cbn; intuition discriminate
    | |- tok_ok (ask _) => apply ask_ok
    | |- without _ (_ ++ _) => apply without_app; split
    | |- without _ (TLit _ :: _) => apply without_lit
    | |- without _ (THole _ :: _) => apply without_hole; split; [cbn; discriminate|]
    | |- without _ [] => apply without_nil
    | |- without _ (slot _) => apply slot_without
    | |- without _ (keys _) => apply keys_without
    | |- ends (_ ++ _) => apply ends_app
    end; auto.

  Lemma ext_fine : tok_ok (TLit ext).
  Proof. cbn [tok_ok]. eapply avoids_weak; [|exact He]. cbn. tauto. Qed.
  Lemma ends_ext : forall x, ends [x] -> ends [x; TLit ext].
  Proof. intros x E. apply ends_named; [exact E|]. eapply avoids_weak; [|exact He]. cbn. tauto. Qed.

  Definition g_front : template := [ask $"graph_name"; sep; ask $"path_tags"; sep; ask $"names"; sep].
  Definition g1 : template := g_front ++ keys kts ++ [ask fp; sep; ask $"name"; ask $"extension"].
  Lemma lit_stage1 : visit_type other (string_literal default_id value None) kts = Ok (stored_at g1 (Some kts)).
  Proof.
    unfold visit_type. cbn [s_fields string_literal].
    set (t0 := g_front ++ ask $"partition_key_spec" :: sep :: [ask fp; sep; ask $"name"; ask $"extension"]).
    change {| s_fields := [($"id", Some default_id); ($"value", value)]; s_key_types := Some kts |} with (stored_at t0 (Some kts)).
    rewrite (same_at g1 (g_front ++ slot (partition_key_spec kts) ++ [ask fp; sep; ask $"name"; ask $"extension"])).
    - apply resolve_at. unfold t0. apply resolve_slot; unfold g_front; names.
      apply (ends_app [ask fp; sep; ask $"name"]), ends_hole.
    - unfold g1. rewrite !print_app. f_equal. f_equal. apply print_keys, Hp.
  Qed.

  Definition g2 : template := g_front ++ keys kts ++ [ask fp; sep; ask $"name"; TLit ext].
  Lemma lit_stage2 : ~ In $"extension" (map fst kts) ->
    artifact_storage other (string_literal default_id value None) kts ext = Ok (stored_at g2 (Some kts)).
  Proof.
    intro N. unfold artifact_storage. rewrite lit_stage1. cbn [bind]. unfold visit_format. apply resolve_at.
    assert (E : forall x, g_front ++ keys kts ++ [ask fp; sep; ask $"name"; x] = (g_front ++ keys kts ++ [ask fp; sep; ask $"name"]) ++ [x])
      by (intro; now rewrite <- !app_assoc).
    unfold g1, g2. rewrite !E. apply resolve_last; unfold g_front; names; try (apply keys_ok; exact Hp).
    apply (ends_app [ask fp; sep]), ends_hole.
  Qed.

  Definition g_graph : template := slot (g_name g) ++ slot tags.
  Definition g3 : template := g_graph ++ [ask $"names"; sep] ++ keys kts ++ [ask fp; sep; ask $"name"; TLit ext].
  Lemma tags_fine : avoids $"{}" tags.
  Proof. apply tags_avoid, Hg. Qed.
  Lemma lit_stage3 : ~ In $"graph_name" (map fst kts) -> ~ In $"path_tags" (map fst kts) ->
    visit_graph other (stored_at g2 (Some kts)) (g_name g) (g_tags g) = Ok (stored_at g3 (Some kts)).
  Proof.
    intros N1 N2. unfold visit_graph. apply resolve_at.
    change g2 with ([] ++ ask $"graph_name" :: sep :: ask $"path_tags" :: sep ::
                    ([ask $"names"; sep] ++ keys kts ++ [ask fp; sep; ask $"name"; TLit ext])).
    unfold g3, g_graph. rewrite <- !app_assoc.
    change (slot (g_name g) ++ slot tags ++ ?r) with ([] ++ slot (g_name g) ++ slot tags ++ r).
    apply resolve_slots; names; try (apply keys_ok; exact Hp); try exact ext_fine; try discriminate.
    apply (ends_app [ask fp; sep]), ends_ext, ends_hole.
  Qed.

  Variables (names : list str).
  Hypothesis Hn : names_in_graph names.
  Notation nm := (last names []).
  Lemma nm_segment : segment nm.
  Proof. now apply last_segment. Qed.
  Lemma nm_fine : tok_ok (TLit nm).
  Proof. cbn [tok_ok]. eapply avoids_weak; [|apply nm_segment]. cbn. tauto. Qed.

  Definition g4 : template :=
    g_graph ++ [TLit (join $"/" names); sep] ++ keys kts ++ [ask fp; sep; TLit nm; TLit ext].
  Lemma g_graph_ok : template_ok g_graph.
  Proof. unfold g_graph. names; [apply Hg|apply tags_fine]. Qed.
  Lemma g_graph_without : forall p, without p g_graph.
  Proof. intro p. unfold g_graph. names. Qed.
  Lemma gok3 : template_ok g3.
  Proof. unfold g3. names; try apply g_graph_ok; try (apply keys_ok; exact Hp); try exact ext_fine. Qed.
  Notation named := [($"name", nm); ($"names", join $"/" names)].
  Lemma lit_stage4 : ~ In $"name" (map fst kts) -> ~ In $"names" (map fst kts) ->
    visit_names other (stored_at g3 (Some kts)) names = Ok (stored_at g4 (Some kts)).
  Proof.
    intros N1 N2. unfold visit_names. apply resolve_at.
    rewrite resolve_field_nonempty by (repeat constructor; [apply nm_segment|now apply names_joined]).
    assert (K : forall p, dmem str_eqb named p = true -> p = $"name" \/ p = $"names") by (intros; eapply dmem_two; eassumption).
    rewrite partial_format_fill.
    - unfold g3. rewrite !fill_app, !fill_cons.
      rewrite (fill_without named g_graph) by (intros; apply g_graph_without).
      rewrite (fill_without named (keys kts)) by (intros p D; apply keys_without; destruct (K p D); subst; assumption).
      reflexivity.
    - apply gok3.
    - intros h I D. apply K in D. unfold g3 in I. apply in_app_or in I. destruct I as [I|I].
      { destruct (g_graph_without (h_name h) h I eq_refl). }
      apply in_app_or in I. destruct I as [[I|[I|[]]]|I]; [injection I as <-; split; reflexivity|discriminate|].
      apply in_app_or in I. destruct I as [I|I].
      { exfalso. refine (keys_without kts (h_name h) _ h I eq_refl). destruct D as [D|D]; rewrite D; assumption. }
      cbn [In] in I. destruct I as [I|[I|[I|[I|[]]]]]; try discriminate; injection I as <-; split; reflexivity.
  Qed.
  Lemma gok4 : template_ok g4.
  Proof.
    unfold g4. names; try apply g_graph_ok; try (apply keys_ok; exact Hp); try exact ext_fine; try exact nm_fine.
    now apply names_joined.
  Qed.

  Definition g5 : template := g_graph ++ [TLit (join $"/" names); sep] ++ keys kts ++ [TLit nm; TLit ext].
  Lemma lit_stage5 : ~ In fp (map fst kts) ->
    visit_input_fingerprint other (stored_at g4 (Some kts)) None = Ok (stored_at g5 (Some kts)).
  Proof.
    intros N. unfold visit_input_fingerprint. apply resolve_at.
    replace g4 with ((g_graph ++ [TLit (join $"/" names); sep] ++ keys kts) ++ ask fp :: sep :: [TLit nm; TLit ext])
      by (unfold g4; now rewrite <- !app_assoc).
    replace g5 with ((g_graph ++ [TLit (join $"/" names); sep] ++ keys kts) ++ slot [] ++ [TLit nm; TLit ext])
      by (unfold g5; now rewrite <- !app_assoc).
    apply resolve_slot; names; try apply g_graph_ok; try (apply keys_ok; exact Hp); try exact ext_fine; try exact nm_fine;
      try apply g_graph_without.
    - now apply names_joined.
    - apply ends_ext, ends_lit; [apply nm_segment|]; eapply avoids_weak; [|apply nm_segment]; cbn; tauto.
  Qed.

  (** The text in the end. *)
  Lemma join_ends : forall l r, l <> [] -> join $"/" l ++ $"/" ++ r = flat_map (fun n => n ++ $"/") l ++ r.
  Proof.
    induction l as [|x l IH]; intros r N; [congruence|]. cbn [flat_map]. rewrite join_cons, <- !app_assoc. destruct l as [|y l].
    - cbn [flat_map app]. reflexivity.
    - rewrite <- IH by discriminate. now rewrite <- !app_assoc.
  Qed.
  Lemma tags_ends : forall r, print (slot tags) ++ r = flat_map (fun n => n ++ $"/") (map (fun tv : str * str => fst tv ++ $"=" ++ snd tv) (g_tags g)) ++ r.
  Proof.
    intro r. rewrite slot_level. destruct (g_tags g) as [|[t v] l] eqn:E; [reflexivity|].
    rewrite <- join_ends by discriminate. destruct (join $"/" _) eqn:J; [|reflexivity].
    exfalso. cbn [map] in J. rewrite join_cons in J. cbn [fst snd] in J. destruct (map _ l); apply app_eq_nil in J.
    - destruct J as [_ J]. discriminate.
    - destruct J as [J _]. apply app_eq_nil in J. destruct J as [_ J]. discriminate.
  Qed.
  Lemma levels_text : forall r, print g_graph ++ join $"/" names ++ $"/" ++ r = flat_map (fun n => n ++ $"/") (levels g names) ++ r.
  Proof.
    intro r. unfold g_graph, levels. rewrite print_app, !flat_map_app, <- !app_assoc.
    rewrite slot_level. rewrite (join_ends names) by apply Hn. rewrite tags_ends.
    destruct (g_name g) as [|c s]; [reflexivity|]. cbn [flat_map]. rewrite app_nil_r, <- !app_assoc. reflexivity.
  Qed.
  Lemma keys_text : forall r, print (keys kts) ++ r = match kts with [] => [] | k => partition_key_spec k ++ $"/" end ++ r.
  Proof.
    intro r. rewrite print_keys by apply Hp. rewrite slot_level. destruct kts as [|nc k] eqn:Ek; [reflexivity|]. rewrite <- Ek.
    destruct (partition_key_spec kts) eqn:S; [|rewrite <- app_assoc; reflexivity].
    exfalso. apply (layout_nonempty kts); [rewrite Ek; apply Hp|rewrite Ek; discriminate|exact S].
  Qed.
  Lemma gtext5 : print g5 = literal_id g names {| d_key_types := kts; d_extension := ext; d_produced := false |}.
  Proof.
    unfold g5, literal_id. rewrite !print_app. cbn [d_key_types d_extension d_produced].
    cbn [print flat_map print_tok]. fold (print g_graph). fold (print (keys kts)). rewrite !app_nil_r, <- !app_assoc.
    rewrite levels_text, keys_text. now destruct kts.
  Qed.
  Lemma gtext4 : print g4 = literal_id g names {| d_key_types := kts; d_extension := ext; d_produced := true |}.
  Proof.
    unfold g4, literal_id. rewrite !print_app. cbn [d_key_types d_extension d_produced].
    cbn [print flat_map print_tok]. fold (print g_graph). fold (print (keys kts)). rewrite !app_nil_r, <- !app_assoc.
    rewrite levels_text, keys_text. now destruct kts.
  Qed.

  Lemma lit_placed : not_reserved kts -> forall produced,
    let x := {| d_key_types := kts; d_extension := ext; d_produced := produced |} in
    literal_default other value g names x =
    Ok {| a_storage := string_literal (literal_id g names x) value (Some kts); a_produced := produced |}.
  Proof.
    intros NR produced x.
    assert (N : forall p, In p reserved -> ~ In p (map fst kts)) by (intros p I J; exact (NR p J I)).
    unfold literal_default, x. cbn [d_key_types d_extension d_produced].
    rewrite lit_stage2 by (apply N; cbn; tauto). cbn [bind]. unfold place. cbn [a_storage a_produced].
    rewrite lit_stage3 by (apply N; cbn; tauto). cbn [bind]. rewrite lit_stage4 by (apply N; cbn; tauto). cbn [bind].
    destruct produced.
    - replace (includes_fp (stored_at g4 (Some kts))) with true.
      + cbn [rmap]. do 2 f_equal. unfold stored_at. now rewrite gtext4.
      + symmetry. unfold includes_fp. cbn [s_fields stored_at string_literal existsb snd]. apply orb_true_iff. left.
        apply contains_fp; [apply gok4|]. unfold asks_fp, g4. rewrite !in_app_iff. right. right. right. now left.
    - rewrite lit_stage5 by (apply N; cbn; tauto). cbn [rmap]. do 2 f_equal. unfold stored_at. now rewrite gtext5.
  Qed.
End Place.


Lemma default_id_placed : forall other value g names x, preset_ok value -> context_ok g -> names_in_graph names -> defaulted_ok x ->
  bind (artifact_storage other (string_literal default_id value None) (d_key_types x) (d_extension x)) (fun st =>
    place other (Some g) names {| a_storage := st; a_produced := d_produced x |}) =
  Ok {| a_storage := string_literal (literal_id g names x) value (Some (d_key_types x)); a_produced := d_produced x |}.
Proof.
  intros other value g names [k e p] B G N (P & R & E). cbn [d_key_types d_extension d_produced] in *.
  exact (lit_placed other value e k g B P E G names N R p).
Qed.
Lemma into_graph_id : forall other value g names x, preset_ok value -> context_ok g -> names_in_graph names -> defaulted_ok x ->
  d_produced x = false ->
  into_graph other (string_literal default_id value None) (d_key_types x) (d_extension x) (g_name g) (g_tags g) names =
  Ok (string_literal (literal_id g names x) value (Some (d_key_types x))).
Proof.
  intros other value g names x B G N D P. assert (H := default_id_placed other value g names x B G N D).
  unfold artifact_storage, place in H. rewrite P in H. cbn [a_storage a_produced] in H. unfold into_graph.
  destruct (visit_type other _ _) as [s|]; cbn [bind] in *; [|discriminate].
  destruct (visit_format other _ _) as [s1|]; cbn [bind] in *; [|discriminate].
  destruct (visit_graph other _ _ _) as [s2|]; cbn [bind] in *; [|discriminate].
  destruct (visit_names other _ _) as [s3|]; cbn [bind] in *; [|discriminate].
  destruct (visit_input_fingerprint other _ _) as [s4|]; cbn [rmap] in H; [|discriminate]. injection H as ->. reflexivity.
Qed.
