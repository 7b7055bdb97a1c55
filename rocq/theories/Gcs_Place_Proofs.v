From Coq Require Import ZArith List Ascii String Bool Lia.
From Verif Require Import Base Base_Proofs Str Str_Proofs Partitions_Model Partitions_Spec Format_Model Template_Spec Template_Proofs
  Format_Proofs Storage_Model Storage_Spec Resolve_Proofs Paths_Spec Paths_Proofs Discovery_Proofs Layout_Proofs TypedBox_Model
  Types_Model IO_Model IO_Spec IO_Proofs Placement_Model Placement_Spec Placement_Proofs Gcs_Model Gcs_Spec Gcs_Proofs.
Import ListNotations.
Open Scope list_scope.

(** * The default path, stage by stage *)
Section Place.
  Context (other : cvalue -> str -> result str).
  Variables (bucket ext : str) (kts : key_types) (g : context).
  Hypotheses (Hb : segment bucket) (Hp : plain_names kts) (He : avoids $"{}/" ext) (Hg : context_ok g).
  Notation fp := $"input_fingerprint".
  Notation tags := (join $"/" (map (fun tv : str * str => fst tv ++ $"=" ++ snd tv) (g_tags g))).

  Lemma segment_plain : forall s, segment s -> plain_text s.
  Proof.
    intros s [N A]. split; [eapply avoids_weak; [|exact A]; cbn; tauto|]. split; [exact N|].
    intro E. destruct s as [|x s _] using rev_ind; [congruence|]. rewrite last_last in E. subst.
    apply avoids_app in A. destruct A as [_ A]. inversion A as [|? ? H]; subst. apply H. cbn. tauto.
  Qed.
  Definition stored_at (t : template) (k : option key_types) : storage := gcs_file bucket (print t) k.
  Lemma resolve_at : forall t k values t', resolve_field other (print t) values = Ok (print t') ->
    resolve other (stored_at t k) values = Ok (stored_at t' k).
  Proof.
    intros t k values t' E. unfold resolve, stored_at, gcs_file. cbn [s_fields mapM snd fst].
    rewrite (resolve_plain other bucket) by (apply segment_plain, Hb). cbn [rmap bind]. rewrite E. reflexivity.
  Qed.
  Lemma same_at : forall t t' k, print t = print t' -> stored_at t k = stored_at t' k.
  Proof. intros t t' k E. unfold stored_at. now rewrite E. Qed.

  Ltac names := repeat match goal with
    | |- S_ _ <> S_ _ => cbv; discriminate
    | |- name_ok _ => split; [discriminate|split; [reflexivity|repeat constructor; cbn; intuition discriminate]]
    | |- template_ok (_ ++ _) => apply ok_app; split
    | |- template_ok (_ :: _) => apply ok_cons; split
    | |- template_ok [] => constructor
    | |- template_ok (slot _) => apply slot_ok
    | |- tok_ok (TLit (S_ _)) => repeat constructor; cbn; intuition discriminate
    | |- tok_ok (ask _) => apply ask_ok
    | |- without _ (_ ++ _) => apply without_app; split
    | |- without _ (TLit _ :: _) => apply without_lit
    | |- without _ (THole _ :: _) => apply without_hole; split; [cbn; discriminate|]
    | |- without _ [] => apply without_nil
    | |- without _ (slot _) => apply slot_without
    | |- without _ (keys _) => apply keys_without
    | |- ends (_ ++ _) => apply ends_app
    end; auto.

  Notation dot := (TLit $".").
  Lemma ends_dot : ends [dot].
  Proof. apply ends_lit; [discriminate|]. repeat constructor; cbn; intuition discriminate. Qed.
  Lemma ext_fine : tok_ok (TLit ext).
  Proof. cbn [tok_ok]. eapply avoids_weak; [|exact He]. cbn. tauto. Qed.
  Lemma ends_ext : ends [dot; TLit ext].
  Proof. apply ends_named; [apply ends_dot|]. eapply avoids_weak; [|exact He]. cbn. tauto. Qed.

  Definition g_front : template := [ask $"graph_name"; sep; ask $"path_tags"; sep; ask $"names"; sep].
  Definition g1 : template := g_front ++ keys kts ++ [ask fp; sep; ask $"name"; dot; ask $"extension"].
  Lemma gcs_stage1 : visit_type other (gcs_file bucket gcs_template None) kts = Ok (stored_at g1 (Some kts)).
  Proof.
    unfold visit_type. cbn [s_fields gcs_file].
    set (t0 := g_front ++ ask $"partition_key_spec" :: sep :: [ask fp; sep; ask $"name"; dot; ask $"extension"]).
    change {| s_fields := [($"bucket", Some bucket); ($"path", Some gcs_template)]; s_key_types := Some kts |} with (stored_at t0 (Some kts)).
    rewrite (same_at g1 (g_front ++ slot (partition_key_spec kts) ++ [ask fp; sep; ask $"name"; dot; ask $"extension"])).
    - apply resolve_at. unfold t0. apply resolve_slot; unfold g_front; names.
      apply (ends_app [ask fp; sep; ask $"name"; dot]), ends_hole.
    - unfold g1. rewrite !print_app. f_equal. f_equal. apply print_keys, Hp.
  Qed.

  Definition g2 : template := g_front ++ keys kts ++ [ask fp; sep; ask $"name"; dot; TLit ext].
  Lemma gcs_stage2 : ~ In $"extension" (map fst kts) ->
    artifact_storage other (gcs_file bucket gcs_template None) kts ext = Ok (stored_at g2 (Some kts)).
  Proof.
    intro N. unfold artifact_storage. rewrite gcs_stage1. cbn [bind]. unfold visit_format. apply resolve_at.
    assert (E : forall x, g_front ++ keys kts ++ [ask fp; sep; ask $"name"; dot; x] = (g_front ++ keys kts ++ [ask fp; sep; ask $"name"; dot]) ++ [x])
      by (intro; now rewrite <- !app_assoc).
    unfold g1, g2. rewrite !E. apply resolve_last; unfold g_front; names; try (apply keys_ok; exact Hp).
    apply (ends_app [ask fp; sep; ask $"name"]), ends_dot.
  Qed.

  Definition g_graph : template := slot (g_name g) ++ slot tags.
  Definition g3 : template := g_graph ++ [ask $"names"; sep] ++ keys kts ++ [ask fp; sep; ask $"name"; dot; TLit ext].
  Lemma tags_fine : avoids $"{}" tags.
  Proof. apply tags_avoid, Hg. Qed.
  Lemma gcs_stage3 : ~ In $"graph_name" (map fst kts) -> ~ In $"path_tags" (map fst kts) ->
    visit_graph other (stored_at g2 (Some kts)) (g_name g) (g_tags g) = Ok (stored_at g3 (Some kts)).
  Proof.
    intros N1 N2. unfold visit_graph. apply resolve_at.
    change g2 with ([] ++ ask $"graph_name" :: sep :: ask $"path_tags" :: sep ::
                    ([ask $"names"; sep] ++ keys kts ++ [ask fp; sep; ask $"name"; dot; TLit ext])).
    unfold g3, g_graph. rewrite <- !app_assoc.
    change (slot (g_name g) ++ slot tags ++ ?r) with ([] ++ slot (g_name g) ++ slot tags ++ r).
    apply resolve_slots; names; try (apply keys_ok; exact Hp); try exact ext_fine; try discriminate.
    apply (ends_app [ask fp; sep; ask $"name"]), ends_ext.
  Qed.

  Variables (names : list str).
  Hypothesis Hn : names_in_graph names.
  Notation nm := (last names []).
  Lemma nm_segment : segment nm.
  Proof. now apply last_segment. Qed.
  Lemma nm_fine : tok_ok (TLit nm).
  Proof. cbn [tok_ok]. eapply avoids_weak; [|apply nm_segment]. cbn. tauto. Qed.

  Definition g4 : template :=
    g_graph ++ [TLit (join $"/" names); sep] ++ keys kts ++ [ask fp; sep; TLit nm; dot; TLit ext].
  Lemma g_graph_ok : template_ok g_graph.
  Proof. unfold g_graph. names; [apply Hg|apply tags_fine]. Qed.
  Lemma g_graph_without : forall p, without p g_graph.
  Proof. intro p. unfold g_graph. names. Qed.
  Lemma gok3 : template_ok g3.
  Proof. unfold g3. names; try apply g_graph_ok; try (apply keys_ok; exact Hp); try exact ext_fine. Qed.
  Notation named := [($"name", nm); ($"names", join $"/" names)].
  Lemma gcs_stage4 : ~ In $"name" (map fst kts) -> ~ In $"names" (map fst kts) ->
    visit_names other (stored_at g3 (Some kts)) names = Ok (stored_at g4 (Some kts)).
  Proof.
    intros N1 N2. unfold visit_names. apply resolve_at.
    rewrite resolve_field_nonempty by (repeat constructor; [apply nm_segment|now apply names_joined]).
    assert (K : forall p, dmem str_eqb named p = true -> p = $"name" \/ p = $"names") by (intros; eapply dmem_two; eassumption).
    rewrite partial_format_fill.
    - unfold g3. rewrite !fill_app, !fill_cons.
      rewrite (fill_without named g_graph) by (intros; apply g_graph_without).
      rewrite (fill_without named (keys kts)) by (intros p D; apply keys_without; destruct (K p D); subst; assumption).
      reflexivity.
    - apply gok3.
    - intros h I D. apply K in D. unfold g3 in I. apply in_app_or in I. destruct I as [I|I].
      { destruct (g_graph_without (h_name h) h I eq_refl). }
      apply in_app_or in I. destruct I as [[I|[I|[]]]|I]; [injection I as <-; split; reflexivity|discriminate|].
      apply in_app_or in I. destruct I as [I|I].
      { exfalso. refine (keys_without kts (h_name h) _ h I eq_refl). destruct D as [D|D]; rewrite D; assumption. }
      cbn [In] in I. destruct I as [I|[I|[I|[I|[I|[]]]]]]; try discriminate; injection I as <-; split; reflexivity.
  Qed.
  Lemma gok4 : template_ok g4.
  Proof.
    unfold g4. names; try apply g_graph_ok; try (apply keys_ok; exact Hp); try exact ext_fine; try exact nm_fine.
    now apply names_joined.
  Qed.

  Definition g5 : template := g_graph ++ [TLit (join $"/" names); sep] ++ keys kts ++ [TLit nm; dot; TLit ext].
  Lemma gcs_stage5 : ~ In fp (map fst kts) ->
    visit_input_fingerprint other (stored_at g4 (Some kts)) None = Ok (stored_at g5 (Some kts)).
  Proof.
    intros N. unfold visit_input_fingerprint. apply resolve_at.
    replace g4 with ((g_graph ++ [TLit (join $"/" names); sep] ++ keys kts) ++ ask fp :: sep :: [TLit nm; dot; TLit ext])
      by (unfold g4; now rewrite <- !app_assoc).
    replace g5 with ((g_graph ++ [TLit (join $"/" names); sep] ++ keys kts) ++ slot [] ++ [TLit nm; dot; TLit ext])
      by (unfold g5; now rewrite <- !app_assoc).
    apply resolve_slot; names; try apply g_graph_ok; try (apply keys_ok; exact Hp); try exact ext_fine; try exact nm_fine;
      try apply g_graph_without.
    - now apply names_joined.
    - apply (ends_app [TLit nm]), ends_ext.
  Qed.

  (** The text in the end. *)
  Lemma join_ends : forall l r, l <> [] -> join $"/" l ++ $"/" ++ r = flat_map (fun n => n ++ $"/") l ++ r.
  Proof.
    induction l as [|x l IH]; intros r N; [congruence|]. cbn [flat_map]. rewrite join_cons, <- !app_assoc. destruct l as [|y l].
    - cbn [flat_map app]. reflexivity.
    - rewrite <- IH by discriminate. now rewrite <- !app_assoc.
  Qed.
  Lemma tags_ends : forall r, print (slot tags) ++ r = flat_map (fun n => n ++ $"/") (map (fun tv : str * str => fst tv ++ $"=" ++ snd tv) (g_tags g)) ++ r.
  Proof.
    intro r. rewrite slot_level. destruct (g_tags g) as [|[t v] l] eqn:E; [reflexivity|].
    rewrite <- join_ends by discriminate. destruct (join $"/" _) eqn:J; [|reflexivity].
    exfalso. cbn [map] in J. rewrite join_cons in J. cbn [fst snd] in J. destruct (map _ l); apply app_eq_nil in J.
    - destruct J as [_ J]. discriminate.
    - destruct J as [J _]. apply app_eq_nil in J. destruct J as [_ J]. discriminate.
  Qed.
  Lemma levels_text : forall r, print g_graph ++ join $"/" names ++ $"/" ++ r = flat_map (fun n => n ++ $"/") (levels g names) ++ r.
  Proof.
    intro r. unfold g_graph, levels. rewrite print_app, !flat_map_app, <- !app_assoc.
    rewrite slot_level. rewrite (join_ends names) by apply Hn. rewrite tags_ends.
    destruct (g_name g) as [|c s]; [reflexivity|]. cbn [flat_map]. rewrite app_nil_r, <- !app_assoc. reflexivity.
  Qed.
  Lemma keys_text : forall r, print (keys kts) ++ r = match kts with [] => [] | k => partition_key_spec k ++ $"/" end ++ r.
  Proof.
    intro r. rewrite print_keys by apply Hp. rewrite slot_level. destruct kts as [|nc k] eqn:Ek; [reflexivity|]. rewrite <- Ek.
    destruct (partition_key_spec kts) eqn:S; [|rewrite <- app_assoc; reflexivity].
    exfalso. apply (layout_nonempty kts); [rewrite Ek; apply Hp|rewrite Ek; discriminate|exact S].
  Qed.
  Lemma gtext5 : print g5 = gcs_place g names {| d_key_types := kts; d_extension := ext; d_produced := false |}.
  Proof.
    unfold g5, gcs_place. rewrite !print_app. cbn [d_key_types d_extension d_produced].
    cbn [print flat_map print_tok]. fold (print g_graph). fold (print (keys kts)). rewrite !app_nil_r, <- !app_assoc.
    rewrite levels_text, keys_text. now destruct kts.
  Qed.
  Lemma gtext4 : print g4 = gcs_place g names {| d_key_types := kts; d_extension := ext; d_produced := true |}.
  Proof.
    unfold g4, gcs_place. rewrite !print_app. cbn [d_key_types d_extension d_produced].
    cbn [print flat_map print_tok]. fold (print g_graph). fold (print (keys kts)). rewrite !app_nil_r, <- !app_assoc.
    rewrite levels_text, keys_text. now destruct kts.
  Qed.

  Lemma gcs_placed : not_reserved kts -> forall produced,
    let x := {| d_key_types := kts; d_extension := ext; d_produced := produced |} in
    gcs_place_default other bucket g names x =
    Ok {| a_storage := gcs_file bucket (gcs_place g names x) (Some kts); a_produced := produced |}.
  Proof.
    intros NR produced x.
    assert (N : forall p, In p reserved -> ~ In p (map fst kts)) by (intros p I J; exact (NR p J I)).
    unfold gcs_place_default, x. cbn [d_key_types d_extension d_produced].
    rewrite gcs_stage2 by (apply N; cbn; tauto). cbn [bind]. unfold place. cbn [a_storage a_produced].
    rewrite gcs_stage3 by (apply N; cbn; tauto). cbn [bind]. rewrite gcs_stage4 by (apply N; cbn; tauto). cbn [bind].
    destruct produced.
    - replace (includes_fp (stored_at g4 (Some kts))) with true.
      + cbn [rmap]. do 2 f_equal. unfold stored_at. now rewrite gtext4.
      + symmetry. unfold includes_fp. cbn [s_fields stored_at gcs_file existsb snd]. apply orb_true_iff. right. apply orb_true_iff. left.
        apply contains_fp; [apply gok4|]. unfold asks_fp, g4. rewrite !in_app_iff. right. right. right. now left.
    - rewrite gcs_stage5 by (apply N; cbn; tauto). cbn [rmap]. do 2 f_equal. unfold stored_at. now rewrite gtext5.
  Qed.
End Place.

Lemma gcs_path : forall other bucket g names x, segment bucket -> context_ok g -> names_in_graph names -> defaulted_ok x ->
  gcs_place_default other bucket g names x =
  Ok {| a_storage := gcs_file bucket (gcs_place g names x) (Some (d_key_types x)); a_produced := d_produced x |}.
Proof.
  intros other bucket g names [k e p] B G N (P & R & E). cbn [d_key_types d_extension d_produced] in *.
  now apply gcs_placed.
Qed.

(** * Written, then discovered *)
Lemma written_discovered : forall other V dumps (written_before : format -> V -> str) content_fp from_string info listed,
  (forall object c, content_fp (GCSPart object) c = object_fp from_string info c) ->
  forall w d f object v w' z q, io_write dumps written_before content_fp w d f (GCSPart object) v = (w', Ok (z, q)) ->
  forall kts tb tp fps l, discoverable kts (in_bucket tb tp) -> lists_all listed (gcs w') ->
  gcs_discover other from_string info listed (gcs w') (print tb) (print tp) kts fps = Ok l -> dict_keys fps ->
  forall fp key p, key_ok kts key -> fp_ok fp ->
  generate_partition other (gcs_file (print tb) (print tp) (Some kts)) fp key = Ok p -> qualified_path p = Ok object ->
  asked fps key fp ->
  exists p', In (z, p') l /\ p_fp p' = fp /\ same_key (p_key p') key /\ p_fields p' = p_fields p.
Proof.
  intros other V dumps wb content_fp from_string info listed Hc w d f object v w' z q W kts tb tp fps l Dt La D Dk fp key p K F G Q A.
  destruct (written_read (fun _ _ => Ok d) dumps wb content_fp _ _ _ _ _ _ _ _ W) as (c & _ & C & -> & S & _).
  cbn [same_place] in S. destruct q as [q|q|i x]; try discriminate S. injection S as <-. inversion C as [|? ? Gc|]; subst.
  rewrite Hc. eapply gcs_all; eassumption.
Qed.

(** * The statements about hashes *)
Lemma object_known : forall {content} from_string (info : content -> object_info) c h,
  known_by (info c) h -> object_fp from_string info c = from_string h.
Proof. intros content from_string info c h [h' E|E]; unfold object_fp; now rewrite E. Qed.
Lemma object_knows : forall {content} from_string (info : content -> object_info) c,
  exists h, known_by (info c) h /\ object_fp from_string info c = from_string h.
Proof.
  intros content from_string info c. unfold object_fp. destruct (md5_hash (info c)) as [h|] eqn:E.
  - exists h. split; [now constructor|reflexivity].
  - exists (crc32c (info c)). split; [now apply by_crc32c|reflexivity].
Qed.

Lemma gcs_exists : forall other content from_string (info : content -> object_info) listed objects bucket path kts fps l,
  gcs_discover other from_string info listed objects bucket path kts fps = Ok l -> dict_keys fps ->
  forall z p, In (z, p) l -> exists b o c h, p_fields p = [($"bucket", Some b); ($"path", Some o)] /\
    dget str_eqb objects (b ++ $"/" ++ o) = Some c /\ known_by (info c) h /\ z = from_string h /\
    asked fps (p_key p) (p_fp p) /\
    generate_path other (p_fp p) (p_key p) bucket = Ok b /\ generate_path other (p_fp p) (p_key p) path = Ok o.
Proof.
  intros other content from_string info listed objects bucket path kts fps l D Dk z p I.
  destruct (gcs_sound _ _ _ _ _ _ _ _ _ _ D Dk z p I) as (b & o & c & H1 & H2 & -> & H3).
  destruct (object_knows from_string info c) as (h & K & E). exists b, o, c, h. tauto.
Qed.
Lemma gcs_again : forall other content from_string (info : content -> object_info) listed objects kts tb tp fps l,
  discoverable kts (in_bucket tb tp) -> lists_all listed objects ->
  gcs_discover other from_string info listed objects (print tb) (print tp) kts fps = Ok l -> dict_keys fps ->
  forall fp key p object c h, key_ok kts key -> fp_ok fp ->
  generate_partition other (gcs_file (print tb) (print tp) (Some kts)) fp key = Ok p -> qualified_path p = Ok object ->
  dget str_eqb objects object = Some c -> known_by (info c) h -> asked fps key fp ->
  exists p', In (from_string h, p') l /\ p_fp p' = fp /\ same_key (p_key p') key /\ p_fields p' = p_fields p.
Proof.
  intros other content from_string info listed objects kts tb tp fps l Dt La D Dk fp key p object c h K F G Q Gc Kn A.
  rewrite <- (object_known from_string info c h Kn). eapply gcs_all; eassumption.
Qed.
Lemma gcs_apart : forall other kts tb tp fp key p fp' key' p' object, discoverable kts (in_bucket tb tp) ->
  key_ok kts key -> fp_ok fp -> key_ok kts key' -> fp_ok fp' ->
  generate_partition other (gcs_file (print tb) (print tp) (Some kts)) fp key = Ok p ->
  generate_partition other (gcs_file (print tb) (print tp) (Some kts)) fp' key' = Ok p' ->
  qualified_path p = Ok object -> qualified_path p' = Ok object -> fp = fp' /\ same_key key key'.
Proof.
  intros other kts tb tp fp key p fp' key' p' object Dt K F K' F' G G' Q Q'.
  assert (W := generated_written other _ _ _ _ _ _ _ Dt K F G Q).
  assert (W' := generated_written other _ _ _ _ _ _ _ Dt K' F' G' Q').
  destruct Dt as (P & S & V & N & _ & U).
  assert (C : consistent (in_bucket tb tp)) by (intros h h' I I' _ _; rewrite (N h I), (N h' I'); reflexivity).
  destruct W as (_ & _ & A & E). destruct W' as (_ & _ & A' & E').
  destruct (extract_generated other kts _ fp key object P S C V U K F A E) as (k1 & X1 & S1).
  destruct (extract_generated other kts _ fp' key' object P S C V U K' F' A' E') as (k2 & X2 & S2).
  rewrite X1 in X2. injection X2 as <- <-. split; [reflexivity|]. intro n. rewrite <- S1. apply S2.
Qed.
Lemma doubled : forall other bucket g names x e, segment bucket -> context_ok g -> names_in_graph names -> defaulted_ok x ->
  d_extension x = $"." ++ e ->
  exists dir, gcs_place_default other bucket g names x =
    Ok {| a_storage := gcs_file bucket (dir ++ last names [] ++ $".." ++ e) (Some (d_key_types x)); a_produced := d_produced x |}.
Proof.
  intros other bucket g names x e B G N D E. rewrite (gcs_path other bucket g names x B G N D). unfold gcs_place. rewrite E.
  eexists. do 3 f_equal.
  change ($".." ++ e) with ($"." ++ $"." ++ e). rewrite !app_assoc. reflexivity.
Qed.
