From Coq Require Import ZArith List Ascii String Bool Lia.
From Verif Require Import Base Base_Proofs Str Str_Proofs Numerals_Model Partitions_Model Partitions_Spec
  TypedBox_Model TypedBox_Spec TypedBox_Proofs
  Format_Model Template_Spec Template_Proofs Format_Proofs Storage_Model Storage_Spec Resolve_Proofs
  Paths_Spec Paths_Proofs Discovery_Proofs Layout_Proofs Placement_Model Placement_Spec Placement_Proofs.
Import ListNotations.
Open Scope list_scope.

(** * Directories of different artifacts *)
Lemma segment_no_sep : forall s, segment s -> ~ In "/"%char s.
Proof. intros s [_ A] I. unfold avoids in A. rewrite Forall_forall in A. apply (A _ I). cbn. tauto. Qed.

Lemma apart_cons : forall (x : str) a b, apart (x :: a) (x :: b) -> apart a b.
Proof.
  intros x a b A c. destruct (A c) as [A1 A2]. split; intro E; [apply A1|apply A2]; rewrite E; reflexivity.
Qed.
Lemma apart_nil : forall b, ~ apart [] b.
Proof. intros b A. destruct (A b) as [A1 _]. now apply A1. Qed.
Lemma apart_sym : forall a b, apart a b -> apart b a.
Proof. intros a b A c. destruct (A c). split; assumption. Qed.

Lemma levels_diverge : forall a b r r', Forall segment a -> Forall segment b -> apart a b ->
  flat_map (fun n => $"/" ++ n) a ++ $"/" ++ r <> flat_map (fun n => $"/" ++ n) b ++ $"/" ++ r'.
Proof.
  induction a as [|x a IH]; intros b r r' Fa Fb A E; [destruct (apart_nil b A)|].
  destruct b as [|y b]; [destruct (apart_nil _ (apart_sym _ _ A))|].
  inversion Fa as [|? ? Sx Fa']; inversion Fb as [|? ? Sy Fb']; subst.
  assert (H : forall (n : str) l (q : str), exists t, flat_map (fun n => $"/" ++ n) (n :: l) ++ $"/" ++ q = "/"%char :: n ++ "/"%char :: t
              /\ flat_map (fun n => $"/" ++ n) l ++ $"/" ++ q = "/"%char :: t).
  { intros n l q. destruct l as [|m l].
    - exists q. cbn [flat_map]. rewrite app_nil_r, <- app_assoc. split; reflexivity.
    - exists (m ++ flat_map (fun n => $"/" ++ n) l ++ $"/" ++ q). cbn [flat_map]. rewrite <- !app_assoc. split; reflexivity. }
  destruct (H x a r) as (t & Ex & Ex'). destruct (H y b r') as (t' & Ey & Ey'). rewrite Ex, Ey in E. injection E as E.
  apply app_stop in E; [|now apply segment_no_sep|now apply segment_no_sep]. destruct E as [-> ->].
  apply (IH b r r' Fa' Fb'); [now apply apart_cons in A|]. now rewrite Ex', Ey'.
Qed.

Lemma directories_diverge : forall root g g' names names' r r',
  Forall segment (levels g names) -> Forall segment (levels g' names') -> apart (levels g names) (levels g' names') ->
  directory root g names ++ r <> directory root g' names' ++ r'.
Proof.
  intros root g g' names names' r r' F F' A E. unfold directory in E. rewrite <- !app_assoc in E.
  apply app_inv_head in E. exact (levels_diverge _ _ _ _ F F' A E).
Qed.

Lemma apart_app : forall (c : list str) a b, apart a b -> apart (c ++ a) (c ++ b).
Proof.
  intros c a b A d. destruct (A d) as [A1 A2]. split; rewrite <- app_assoc; intro E; apply app_inv_head in E; contradiction.
Qed.
Lemma levels_apart : forall g names names', apart names names' -> apart (levels g names) (levels g names').
Proof. intros g names names' A. unfold levels. now apply apart_app, apart_app. Qed.
Lemma names_apart : forall g g' names names', g_name g <> [] -> g_name g' <> [] -> g_name g <> g_name g' ->
  apart (levels g names) (levels g' names').
Proof.
  intros g g' names names' N N' D c. unfold levels. destruct (g_name g); [congruence|]. destruct (g_name g'); [congruence|].
  split; cbn [app]; intro E; injection E; intros; apply D; congruence.
Qed.

Section Places.
  Context (other : cvalue -> str -> result str).

  (** * The storage of a default artifact as a template *)
  Definition final (root : str) (g : context) (names : list str) (x : defaulted) : template :=
    TLit (directory root g names) :: keys (d_key_types x) ++
    (if d_produced x then [ask $"input_fingerprint"; sep] else []) ++ [TLit (last names [] ++ d_extension x)].

  Lemma final_text : forall root g names x, plain_names (d_key_types x) ->
    print (final root g names x) = default_place root g names x.
  Proof.
    intros root g names x P. unfold final, default_place. change (TLit ?d :: ?l) with ([TLit d] ++ l).
    rewrite !print_app. f_equal; [apply app_nil_r|].
    rewrite print_keys by apply P. rewrite slot_level. f_equal.
    assert (E : forall r, match partition_key_spec (d_key_types x) with [] => r | _ => partition_key_spec (d_key_types x) ++ $"/" ++ r end =
                match d_key_types x with [] => [] | kts => partition_key_spec kts ++ $"/" end ++ r).
    { intro r. destruct (d_key_types x) as [|nc k] eqn:Ek; [reflexivity|]. rewrite <- Ek.
      destruct (partition_key_spec (d_key_types x)) eqn:S; [|now rewrite <- app_assoc].
      exfalso. apply (layout_nonempty (d_key_types x)); [rewrite Ek; apply P|rewrite Ek; discriminate|exact S]. }
    rewrite E. f_equal. destruct (d_produced x); cbn [print flat_map print_tok app]; rewrite ?app_nil_r; reflexivity.
  Qed.

  Lemma directory_ok : forall root g names, avoids $"{}" root -> context_ok g -> names_in_graph names ->
    avoids $"{}" (directory root g names).
  Proof.
    intros root g names R C [_ N]. unfold directory. apply avoids_app. split; [exact R|]. apply avoids_app.
    split; [|repeat constructor; cbn; intuition discriminate].
    assert (F : Forall (avoids $"{}") (levels g names)).
    { unfold levels. apply Forall_app. split.
      - destruct C as [C _]. destruct (g_name g); [constructor|]. constructor; [exact C|constructor].
      - apply Forall_app. split.
        + apply Forall_map, Forall_forall. intros [t v] I. destruct (proj2 C t v I) as [A B]. cbn [fst snd].
          apply avoids_app. split; [exact A|]. apply avoids_app. split; [repeat constructor; cbn; intuition discriminate|exact B].
        + eapply Forall_impl; [|exact N]. intros s [_ A]. eapply avoids_weak; [|exact A]. cbn. tauto. }
    induction F as [|x l Hx F IH]; [constructor|]. cbn [flat_map]. apply avoids_app. split; [|exact IH].
    apply avoids_app. split; [repeat constructor; cbn; intuition discriminate|exact Hx].
  Qed.

  Section One.
    Variables (root : str) (g : context) (names : list str) (x : defaulted).
    Hypotheses (Hr : avoids $"{}" root) (Hg : context_ok g) (Hn : names_in_graph names) (Hx : defaulted_ok x).

    Lemma final_ok : template_ok (final root g names x).
    Proof.
      destruct Hx as (P & _ & E). unfold final. apply ok_cons. split; [now apply directory_ok|].
      apply ok_app. split; [now apply keys_ok|]. apply ok_app. split.
      - destruct (d_produced x); [|constructor]. repeat constructor; try (cbn; intuition discriminate); try discriminate.
      - apply ok_cons. split; [|constructor]. cbn [tok_ok]. apply avoids_app. split.
        + eapply avoids_weak; [|apply last_segment; exact Hn]. cbn. tauto.
        + eapply avoids_weak; [|exact E]. cbn. tauto.
    Qed.
    Lemma final_unindex : unindex (final root g names x) = final root g names x.
    Proof.
      unfold unindex. rewrite <- (map_id (final root g names x)) at 2. apply map_ext_in. intros [s|h] I; [reflexivity|].
      unfold final in I. destruct I as [I|I]; [discriminate|]. apply in_app_or in I. destruct I as [I|I].
      - apply in_keys in I. destruct I as (n & cls & c & spec & _ & _ & ->). reflexivity.
      - apply in_app_or in I. destruct I as [I|[I|[]]]; [|discriminate].
        destruct (d_produced x); [|destruct I]. destruct I as [I|[I|[]]]; [injection I as <-; reflexivity|discriminate].
    Qed.

    Lemma placed_exactly : place_default other root g names x =
      Ok {| a_storage := local_file (default_place root g names x) (d_key_types x); a_produced := d_produced x |}.
    Proof. destruct x as [kts ext pr]. destruct Hx as (P & NR & E). now apply placed_default. Qed.

    Lemma file_in_directory : forall fp key path, generate_path other fp key (default_place root g names x) = Ok path ->
      exists r, path = directory root g names ++ r.
    Proof.
      intros fp key path G. rewrite <- final_text in G by apply Hx.
      apply generated in G; [|apply final_ok|rewrite final_unindex; apply final_ok]. destruct G as [-> _].
      rewrite final_unindex. unfold final. cbn [path_of flat_map]. eauto.
    Qed.
    Lemma partition_in_directory : forall fp key p path,
      generate_partition other (local_file (default_place root g names x) (d_key_types x)) fp key = Ok p -> at_path p path ->
      exists r, path = directory root g names ++ r.
    Proof.
      intros fp key p path G A. destruct (partition_fields_get other _ _ _ _ $"path" (default_place root g names x) G eq_refl) as (path' & F & Q). unfold at_path in A. rewrite F in A. injection A as <-. now apply file_in_directory in Q.
    Qed.
    Lemma wildcard_in_directory : forall w, spec_to_wildcard other (default_place root g names x) (d_key_types x) = Ok w ->
      exists r, w = directory root g names ++ r.
    Proof.
      intros w W. rewrite <- final_text in W by apply Hx. unfold spec_to_wildcard in W.
      change $"{input_fingerprint}" with (ph $"input_fingerprint") in W.
      rewrite replace_with in W; [|apply fp_name_ok|apply final_ok]. rewrite vformat_print in W.
      - unfold final in W. cbn [map is_ph eval_tok mapM bind] in W. destruct (mapM _ _) as [l|] in W; [|discriminate].
        cbn [bind rmap List.concat] in W. injection W as <-. eauto.
      - apply Forall_map. eapply Forall_impl; [|apply final_ok]. intros y Hy. cbn beta.
        destruct (is_ph _ y); [|exact Hy]. repeat constructor. cbn. intuition discriminate.
    Qed.
  End One.

  (** * Files of different artifacts *)
  Lemma files_apart : forall root g g' names names' x x' fp fp' key key' p p' path path',
    avoids $"{}" root -> context_ok g -> context_ok g' -> names_in_graph names -> names_in_graph names' ->
    defaulted_ok x -> defaulted_ok x' -> Forall segment (levels g names) -> Forall segment (levels g' names') ->
    apart (levels g names) (levels g' names') ->
    generate_partition other (local_file (default_place root g names x) (d_key_types x)) fp key = Ok p ->
    generate_partition other (local_file (default_place root g' names' x') (d_key_types x')) fp' key' = Ok p' ->
    at_path p path -> at_path p' path' -> path <> path'.
  Proof.
    intros root g g' names names' x x' fp fp' key key' p p' path path' R C C' N N' X X' S S' A G G' P P' E.
    apply (partition_in_directory root g names x R C N X fp key p path G) in P.
    apply (partition_in_directory root g' names' x' R C' N' X' fp' key' p' path' G') in P'.
    destruct P as [r ->]. destruct P' as [r' ->]. exact (directories_diverge _ _ _ _ _ _ _ S S' A E).
  Qed.

  (** * Discovery *)
  Lemma split_common : forall a s, split_char "/"%char (a ++ "/"%char :: s) = split_char "/"%char a ++ split_char "/"%char s.
  Proof.
    induction a as [|c a IH]; intro s; [reflexivity|]. cbn [app split_char]. rewrite IH.
    destruct (Ascii.eqb c "/"); [reflexivity|].
    destruct (split_char "/"%char a) eqn:E; [destruct (split_nonempty _ _ E)|reflexivity].
  Qed.
  Lemma match_common : forall a b b', match_segments b b' = false -> match_segments (a ++ b) (a ++ b') = false.
  Proof.
    induction a as [|x a IH]; intros b b' F; [exact F|]. cbn [app match_segments]. rewrite IH by exact F. apply andb_false_r.
  Qed.
  Lemma fnmatch_plain : forall p s, no_wildcard p -> fnmatch p s = true -> p = s.
  Proof.
    induction p as [|c p IH]; intros s A; cbn [fnmatch].
    - destruct s; [reflexivity|discriminate].
    - apply avoids_cons in A. destruct A as [N A].
      rewrite (not_char c "*"%char _ N) by (cbn; tauto). destruct s as [|d s]; [discriminate|].
      rewrite (not_char c "?"%char _ N) by (cbn; tauto). cbn [orb]. rewrite andb_true_iff. intros [E M].
      apply Ascii.eqb_eq in E. subst. f_equal. now apply IH.
  Qed.
  Lemma levels_mismatch : forall a b r r', Forall segment a -> Forall no_wildcard a -> Forall segment b -> apart a b ->
    match_segments (a ++ r) (b ++ r') = false.
  Proof.
    induction a as [|x a IH]; intros b r r' Fa W Fb A; [destruct (apart_nil b A)|].
    destruct b as [|y b]; [destruct (apart_nil _ (apart_sym _ _ A))|].
    inversion Fa; inversion W; inversion Fb; subst. cbn [app match_segments].
    destruct (match_segment x y) eqn:M; [|reflexivity]. unfold match_segment in M. apply andb_true_iff in M. destruct M as [M _].
    apply fnmatch_plain in M; [|assumption]. subst y. cbn [andb]. apply IH; auto. now apply apart_cons in A.
  Qed.
  Lemma split_slash : forall s, split_char "/"%char ($"/" ++ s) = [] :: split_char "/"%char s.
  Proof. reflexivity. Qed.
  Lemma slash_first : forall a (r : str), exists t, flat_map (fun n => $"/" ++ n) a ++ $"/" ++ r = $"/" ++ t.
  Proof. intros [|x a] r; [now exists r|]. cbn [flat_map]. rewrite <- !app_assoc. eauto. Qed.
  Lemma split_levels : forall a r, Forall segment a ->
    split_char "/"%char (flat_map (fun n => $"/" ++ n) a ++ $"/" ++ r) = [] :: a ++ split_char "/"%char r.
  Proof.
    induction a as [|x a IH]; intros r F; [reflexivity|]. inversion F; subst. specialize (IH r H2).
    destruct (slash_first a r) as [t E]. rewrite E, split_slash in IH. injection IH as IH.
    cbn [flat_map]. rewrite <- !app_assoc, E, split_slash.
    change ($"/" ++ t) with ("/"%char :: t). rewrite split_app by now apply segment_no_sep. now rewrite IH.
  Qed.
  Lemma directory_mismatch : forall root g names names' r r', Forall segment names -> Forall no_wildcard names ->
    Forall segment names' -> apart names names' ->
    glob_match (directory root g names ++ r) (directory root g names' ++ r') = false.
  Proof.
    intros root g names names' r r' F W F' A. rewrite !directory_parts, <- !app_assoc.
    set (c := root ++ level (g_name g) ++ tag_levels (g_tags g)).
    assert (E : forall l q, root ++ level (g_name g) ++ tag_levels (g_tags g) ++ flat_map (fun n => $"/" ++ n) l ++ $"/" ++ q =
                c ++ flat_map (fun n => $"/" ++ n) l ++ $"/" ++ q) by (intros; unfold c; now rewrite <- !app_assoc).
    rewrite !E. unfold glob_match.
    assert (S : forall l q, l <> [] -> Forall segment l ->
              split_char "/"%char (c ++ flat_map (fun n => $"/" ++ n) l ++ $"/" ++ q) =
              split_char "/"%char c ++ l ++ split_char "/"%char q).
    { intros l q N Fl. assert (Sl := split_levels l q Fl). destruct (slash_first l q) as [t D]. rewrite D in *.
      change ($"/" ++ t) with ("/"%char :: t). rewrite split_common. rewrite split_slash in Sl. injection Sl as Sl. now rewrite Sl. }
    rewrite !S; auto.
    - apply match_common. now apply levels_mismatch.
    - intros ->. exact (apart_nil _ (apart_sym _ _ A)).
    - intros ->. exact (apart_nil _ A).
  Qed.

  Context {content : Type} (content_fp : content -> Z).
  Lemma glob_other : forall (fs : list (str * content)) path c w, glob_match w path = false ->
    glob (dset str_eqb fs path c) w = glob fs w.
  Proof.
    intros fs path c w M. unfold glob. induction fs as [|[k v] fs IH].
    - cbn. now rewrite M.
    - cbn [dset]. destruct (str_eqb k path); [reflexivity|]. cbn [map fst filter]. rewrite IH. reflexivity.
  Qed.
  Lemma discovery_undisturbed : forall root g names names' x x' fs fps fp' key' p' path' (c : content),
    avoids $"{}" root -> context_ok g -> names_in_graph names -> names_in_graph names' ->
    defaulted_ok x -> defaulted_ok x' -> Forall no_wildcard names -> apart names names' ->
    generate_partition other (local_file (default_place root g names' x') (d_key_types x')) fp' key' = Ok p' -> at_path p' path' ->
    discover_partitions other content_fp (dset str_eqb fs path' c) (default_place root g names x) (d_key_types x) fps =
    discover_partitions other content_fp fs (default_place root g names x) (d_key_types x) fps.
  Proof.
    intros root g names names' x x' fs fps fp' key' p' path' c R C N N' X X' W A G P.
    apply (partition_in_directory root g names' x' R C N' X' fp' key' p' path' G) in P. destruct P as [r' ->].
    unfold discover_partitions.
    destruct (spec_to_wildcard other (default_place root g names x) (d_key_types x)) as [w|e] eqn:Sw; [|reflexivity].
    cbn [bind]. destruct (wildcard_in_directory root g names x R C N X w Sw) as [r ->].
    rewrite glob_other by (apply directory_mismatch; try assumption; [apply N|apply N']).
    destruct (parse_spec _ _ _ _) as [metadata|e]; [|reflexivity]. cbn [bind].
    apply mapM_ext. intros [path [fp key]] _. cbn [fst snd].
    destruct (generate_partition other (local_file (default_place root g names x) (d_key_types x)) fp key) as [p|e] eqn:Gp; [|reflexivity].
    cbn [bind]. unfold snapshot. destruct (dget str_eqb (p_fields p) $"path") as [[q|]|] eqn:D; [|reflexivity|reflexivity].
    destruct (partition_in_directory root g names x R C N X fp key p q Gp D) as [q' ->].
    rewrite (dget_dset_other str_eqb str_eqb_spec); [reflexivity|].
    intro E. unfold directory in E. rewrite <- !app_assoc in E. apply app_inv_head in E. symmetry in E. revert E.
    unfold levels. rewrite !flat_map_app, <- !app_assoc. intro E. do 2 apply app_inv_head in E. revert E.
    apply levels_diverge; [apply N|apply N'|exact A].
  Qed.

  (** * Boxes *)
  Section Box.
    Context {V R : Type} (cast : list str -> str -> R -> result V).
    Notation data := (list (str * node V)).
    (** Every value was cast under the names it is found at. *)
    Definition cast_here (ns : list str) (d : data) : Prop := forall path v, find (Sub d) path = Some (Leaf v) ->
      exists x, cast (ns ++ removelast path) (last path []) x = Ok v.
    Lemma here_nil : forall ns, cast_here ns [].
    Proof. intros ns [|p path] v F; [discriminate|]. rewrite find_cons in F. discriminate. Qed.
    Lemma here_leaf : forall ns d k v x, cast_here ns d -> cast ns k x = Ok v -> cast_here ns (dset str_eqb d k (Leaf v)).
    Proof.
      intros ns d k v x H C path v' F. destruct path as [|p path]; [discriminate|]. rewrite find_cons in F.
      destruct (list_eq_dec ascii_dec k p) as [<-|N].
      - rewrite gs_same in F. destruct path as [|q path]; [|discriminate]. cbn in F. injection F as <-.
        exists x. cbn [removelast last]. now rewrite app_nil_r.
      - rewrite gs_other in F by exact N. apply (H (p :: path)). now rewrite find_cons.
    Qed.
    Lemma here_sub : forall ns d k sd, cast_here ns d -> cast_here (ns ++ [k]) sd -> cast_here ns (dset str_eqb d k (Sub sd)).
    Proof.
      intros ns d k sd H S path v F. destruct path as [|p path]; [discriminate|]. rewrite find_cons in F.
      destruct (list_eq_dec ascii_dec k p) as [<-|N].
      - rewrite gs_same in F. destruct path as [|q path]; [discriminate|]. destruct (S _ _ F) as [x C]. exists x.
        change (removelast (k :: q :: path)) with (k :: removelast (q :: path)).
        change (last (k :: q :: path) []) with (last (q :: path) (@nil ascii)).
        now rewrite <- app_assoc in C.
      - rewrite gs_other in F by exact N. apply (H (p :: path)). now rewrite find_cons.
    Qed.
    Lemma here_get : forall ns d k sd, cast_here ns d -> dget str_eqb d k = Some (Sub sd) -> cast_here (ns ++ [k]) sd.
    Proof.
      intros ns d k sd H G path v F. destruct path as [|q path]; [discriminate|].
      assert (F' : find (Sub d) (k :: q :: path) = Some (Leaf v)) by (rewrite find_cons, G; exact F).
      destruct (H _ _ F') as [x C]. exists x.
      change (removelast (k :: q :: path)) with (k :: removelast (q :: path)) in C.
      change (last (k :: q :: path) []) with (last (q :: path) (@nil ascii)) in C.
      now rewrite <- app_assoc.
    Qed.
    Lemma here_getitem1 : forall st ns d p, cast_here ns d -> cast_here ns (fst (getitem1 st d p)).
    Proof.
      intros st ns d p H. unfold getitem1. destruct (private p); [exact H|]. destruct (dget str_eqb d p); [exact H|].
      destruct st; [|exact H]. apply here_sub; [exact H|apply here_nil].
    Qed.
    Lemma here_descend : forall A st tail (k : list str -> data -> data * result A),
      (forall ns d, cast_here ns d -> cast_here ns (fst (k ns d))) ->
      forall heads ns d, cast_here ns d -> cast_here ns (fst (descend st ns d heads tail k)).
    Proof.
      intros A st tail k Hk. induction heads as [|p heads IH]; intros ns d H; cbn [descend].
      - destruct (private tail); [exact H|]. now apply Hk.
      - assert (G1 := here_getitem1 st ns d p H).
        destruct (getitem1 st d p) as [d1 [[v|sd]|e]] eqn:E; cbn [fst] in *; try exact G1.
        apply getitem1_found in E. destruct E as [E _].
        assert (IH' := IH (ns ++ [p]) sd (here_get ns d1 p sd G1 E)).
        destruct (descend st (ns ++ [p]) sd heads tail k) as [sd' r]. cbn [fst] in *. now apply here_sub.
    Qed.
    Lemma here_fill : forall st items,
      Forall (fun ki => forall ns d key, cast_here ns d -> cast_here ns (fst (setitem cast st (snd ki) ns d key))) items ->
      forall ns d, cast_here ns d -> cast_here ns (fst (TypedBox_Model.fill cast st ns items d)).
    Proof.
      intros st. induction items as [|[k i] items IH]; intros F ns d H; cbn [TypedBox_Model.fill]; [exact H|].
      inversion F as [|? ? Hk F']; subst. cbn [snd] in Hk. specialize (Hk ns d k H).
      destruct (setitem cast st i ns d k) as [d' [u|e]]; cbn [fst] in *; [|exact Hk]. now apply IH.
    Qed.
    Lemma here_setitem : forall st i ns d key, cast_here ns d -> cast_here ns (fst (setitem cast st i ns d key)).
    Proof.
      intros st i. induction i as [x|items IH] using input_ind'; intros ns d key H; rewrite setitem_eq;
        (apply here_descend; [|exact H]); clear ns d H; intros ns d H; (destruct st; [|exact H]);
        destruct (dget str_eqb d (tail_of key)) as [[v|sd]|] eqn:G; try exact H.
      - destruct (cast ns (tail_of key) x) as [v|e] eqn:C; [|exact H]. eapply here_leaf; eassumption.
      - assert (F := here_fill Open items IH (ns ++ [tail_of key]) sd (here_get _ _ _ _ H G)).
        destruct (TypedBox_Model.fill cast Open (ns ++ [tail_of key]) items sd) as [sd' r]. cbn [fst] in *. now apply here_sub.
      - assert (F := here_fill Open items IH (ns ++ [tail_of key]) [] (here_nil _)).
        destruct (TypedBox_Model.fill cast Open (ns ++ [tail_of key]) items []) as [sd' [u|e]]; cbn [fst] in *; [|exact H].
        now apply here_sub.
    Qed.
    Lemma here_getitem : forall st ns d key, cast_here ns d -> cast_here ns (fst (getitem st d key)).
    Proof.
      intros st ns d key H. unfold getitem.
      assert (Q : forall heads ns' d', cast_here ns' d' -> forall ns0,
                fst (descend st ns0 d' heads (tail_of key) (fun _ d0 => getitem1 st d0 (tail_of key))) =
                fst (descend st ns' d' heads (tail_of key) (fun _ d0 => getitem1 st d0 (tail_of key)))).
      { induction heads as [|p heads IH]; intros ns' d' H' ns0; cbn [descend]; [reflexivity|].
        assert (G1 := here_getitem1 st ns' d' p H').
        destruct (getitem1 st d' p) as [d1 [[v|sd]|e]] eqn:E; cbn [fst] in *; try reflexivity.
        apply getitem1_found in E. destruct E as [E _].
        specialize (IH (ns' ++ [p]) sd (here_get ns' d1 p sd G1 E) (ns0 ++ [p])).
        destruct (descend st (ns0 ++ [p]) sd heads (tail_of key) _) as [sd1 r1].
        destruct (descend st (ns' ++ [p]) sd heads (tail_of key) _) as [sd2 r2]. cbn [fst] in *. now rewrite IH. }
      rewrite (Q (head_of key) ns d H []). apply here_descend; [|exact H]. intros. now apply here_getitem1.
    Qed.
    Lemma here_run_op : forall st o ns d, cast_here ns d -> cast_here ns (fst (run_op cast st o ns d)).
    Proof.
      intros st o ns d H. destruct o as [key i|key i|key|key|key|]; cbn [run_op].
      - assert (Q := here_setitem st i ns d key H). destruct (setitem cast st i ns d key). exact Q.
      - destruct (private key); [exact H|].
        assert (Q := here_setitem st i ns d key H). destruct (setitem cast st i ns d key). exact Q.
      - assert (Q := here_getitem st ns d key H). destruct (getitem st d key). exact Q.
      - destruct (private key); [exact H|].
        assert (Q := here_getitem st ns d key H). destruct (getitem st d key). exact Q.
      - unfold contains. assert (Q := contains_same st (head_of key) (tail_of key) d).
        destruct (contains_in st d (head_of key) (tail_of key)). cbn [fst] in *. now subst.
      - exact H.
    Qed.
    Lemma here_at_handle : forall A (f : list str -> data -> data * result A),
      (forall ns d, cast_here ns d -> cast_here ns (fst (f ns d))) ->
      forall h ns d d' r, cast_here ns d -> at_handle ns d h f = Some (d', r) -> cast_here ns d'.
    Proof.
      intros A f Hf. induction h as [|p h IH]; intros ns d d' r H; cbn [at_handle].
      - intro E. inversion E as [E']. specialize (Hf ns d H). rewrite E' in Hf. exact Hf.
      - destruct (dget str_eqb d p) as [[v|sd]|] eqn:G; try discriminate.
        destruct (at_handle (ns ++ [p]) sd h f) as [[sd' r']|] eqn:E; [|discriminate].
        intro Q. inversion Q; subst. apply IH in E; [|eapply here_get; eassumption]. now apply here_sub.
    Qed.
    Lemma here_reachable : forall s, reachable cast s -> cast_here [] (st_data s).
    Proof.
      intros s (items & d & es & H & ->).
      assert (B : cast_here [] d).
      { unfold box_new in H.
        assert (F : cast_here [] (fst (TypedBox_Model.fill cast Open [] (dict_of str_eqb items) []))).
        { apply here_fill; [|apply here_nil]. apply Forall_forall. intros ki _ ns d0 key. apply here_setitem. }
        destruct (TypedBox_Model.fill cast Open [] (dict_of str_eqb items) []) as [d' [u|e]]; [|discriminate].
        injection H as <-. exact F. }
      clear H. assert (Q : forall es s, cast_here [] (st_data s) -> cast_here [] (st_data (run cast s es))).
      { clear. induction es as [|e es IH]; intros s H; cbn [run]; [exact H|]. apply IH.
        destruct e as [h o|st]; cbn [step]; [|exact H].
        destruct (at_handle [] (st_data s) h (run_op cast (st_status s) o)) as [[d r]|] eqn:E; [|exact H].
        cbn [fst st_data]. eapply here_at_handle; [|exact H|exact E]. intros. now apply here_run_op. }
      apply Q. exact B.
    Qed.
    Lemma leaves_apart : forall (d : data) a b v w, find (Sub d) a = Some (Leaf v) -> find (Sub d) b = Some (Leaf w) ->
      a <> b -> apart a b.
    Proof.
      assert (Q : forall (n : node V) a c v w, find n a = Some (Leaf v) -> find n (a ++ c) = Some (Leaf w) -> c = []).
      { intros n a c v w F F'. rewrite find_app, F in F'. destruct c; [reflexivity|discriminate]. }
      intros d a b v w F F' N c. split; intros ->.
      - apply N. rewrite (Q _ _ _ _ _ F F'). now rewrite app_nil_r.
      - apply N. rewrite (Q _ _ _ _ _ F' F). now rewrite app_nil_r.
    Qed.
  End Box.
End Places.

(** * Boxes of artifacts with the default storage *)
Section Boxes.
  Context (other : cvalue -> str -> result str).
  Notation cast_ok := (cast_ok other).
  Context (root : str) (Hr : avoids $"{}" root).

  Lemma found_where : forall g s names a, context_ok g -> reachable (cast_ok root g) s ->
    find (Sub (st_data s)) names = Some (Leaf a) -> names_in_graph names ->
    exists x, defaulted_ok x /\ a_storage a = local_file (default_place root g names x) (d_key_types x).
  Proof.
    intros g s names a C R F N. destruct (here_reachable _ _ R names a F) as [[x X] K]. exists x. split; [exact X|].
    unfold cast_ok, cast_default in K. cbn [proj1_sig app] in K.
    rewrite <- app_removelast_last in K by apply N. rewrite placed_exactly in K by assumption. injection K as <-. reflexivity.
  Qed.

  Lemma files_different : forall g s names names' a a' path, context_ok g -> reachable (cast_ok root g) s ->
    has_artifact s names a -> has_artifact s names' a' -> names <> names' -> Forall segment names -> Forall segment names' ->
    file_of other a path -> ~ file_of other a' path.
  Proof.
    intros g s names names' a a' path C R F F' D S S' (fp & key & p & G & P) (fp' & key' & p' & G' & P').
    unfold has_artifact in *.
    assert (A := leaves_apart _ _ _ _ _ F F' D).
    assert (N : names_in_graph names) by (split; [intros ->; discriminate|exact S]).
    assert (N' : names_in_graph names') by (split; [intros ->; discriminate|exact S']).
    destruct (found_where g s names a C R F N) as (x & X & Ex). destruct (found_where g s names' a' C R F' N') as (x' & X' & Ex').
    rewrite Ex in G. rewrite Ex' in G'.
    apply (partition_in_directory other root g names x Hr C N X fp key p path G) in P.
    apply (partition_in_directory other root g names' x' Hr C N' X' fp' key' p' path G') in P'.
    destruct P as [r ->]. destruct P' as [r' E]. unfold directory in E. rewrite <- !app_assoc in E.
    apply app_inv_head in E. revert E. unfold levels. rewrite !flat_map_app, <- !app_assoc. intro E.
    do 2 apply app_inv_head in E. revert E. apply levels_diverge; assumption.
  Qed.

  Lemma graphs_different : forall g g' s s' names names' a a' path,
    context_ok g -> context_ok g' -> reachable (cast_ok root g) s -> reachable (cast_ok root g') s' ->
    segment (g_name g) -> segment (g_name g') -> g_name g <> g_name g' ->
    has_artifact s names a -> has_artifact s' names' a' -> Forall segment names -> Forall segment names' ->
    file_of other a path -> ~ file_of other a' path.
  Proof.
    intros g g' s s' names names' a a' path C C' R R' Sg Sg' D F F' S S' (fp & key & p & G & P) (fp' & key' & p' & G' & P').
    unfold has_artifact in *.
    assert (N : names_in_graph names) by (split; [intros ->; discriminate|exact S]).
    assert (N' : names_in_graph names') by (split; [intros ->; discriminate|exact S']).
    destruct (found_where g s names a C R F N) as (x & X & Ex). destruct (found_where g' s' names' a' C' R' F' N') as (x' & X' & Ex').
    rewrite Ex in G. rewrite Ex' in G'.
    apply (partition_in_directory other root g names x Hr C N X fp key p path G) in P.
    apply (partition_in_directory other root g' names' x' Hr C' N' X' fp' key' p' path G') in P'.
    destruct P as [r ->]. destruct P' as [r' E]. unfold directory in E. rewrite <- !app_assoc in E. apply app_inv_head in E.
    assert (H : forall h l q, segment (g_name h) -> exists t,
              flat_map (fun n => $"/" ++ n) (levels h l) ++ $"/" ++ q = "/"%char :: g_name h ++ "/"%char :: t).
    { intros h l q [Nh _]. unfold levels. destruct (g_name h) as [|c n]; [congruence|]. cbn [app flat_map].
      rewrite <- app_assoc. destruct (slash_first (map (fun tv => fst tv ++ $"=" ++ snd tv) (g_tags h) ++ l) q) as [t T].
      rewrite T. exists t. reflexivity. }
    destruct (H g names r Sg) as [t Et]. destruct (H g' names' r' Sg') as [t' Et']. rewrite Et, Et' in E. injection E as E.
    apply app_stop in E; [|now apply segment_no_sep|now apply segment_no_sep]. now apply D.
  Qed.

  Lemma discovery_same : forall content (content_fp : content -> Z) g s names a fps writes fs,
    context_ok g -> reachable (cast_ok root g) s -> has_artifact s names a -> Forall segment names -> Forall no_wildcard names ->
    Forall (fun w : str * content => exists names' a', has_artifact s names' a' /\ names' <> names /\
              Forall segment names' /\ file_of other a' (fst w)) writes ->
    discover other content_fp (dupdate str_eqb fs writes) a fps = discover other content_fp fs a fps.
  Proof.
    intros content content_fp g s names a fps writes fs C R F S W. unfold has_artifact in *.
    assert (N : names_in_graph names) by (split; [intros ->; discriminate|exact S]).
    destruct (found_where g s names a C R F N) as (x & X & Ex). unfold discover. rewrite Ex.
    change (get_key_types (local_file ?t ?k)) with (Ok k). cbn [bind].
    change (dget str_eqb (s_fields (local_file ?t ?k)) $"path") with (Some (Some t)). cbv iota beta.
    revert fs. induction writes as [|[path c] ws IH]; intros fs Fw; [reflexivity|].
    inversion Fw as [|? ? (names' & a' & F' & D & S' & fp & key & p & G & P) Fw']; subst. cbn [fst] in P.
    change (dupdate str_eqb fs ((path, c) :: ws)) with (dupdate str_eqb (dset str_eqb fs path c) ws).
    rewrite IH by exact Fw'.
    assert (N' : names_in_graph names') by (split; [intros ->; discriminate|exact S']).
    destruct (found_where g s names' a' C R F' N') as (x' & X' & Ex'). rewrite Ex' in G.
    eapply discovery_undisturbed; try eassumption. eapply leaves_apart; [exact F|exact F'|congruence].
  Qed.

  Lemma placed_where_found : forall s names a, reachable (cast_artifact other) s -> has_artifact s names a ->
    exists ctx a0, place other ctx names a0 = Ok a.
  Proof.
    intros s names a R F. destruct (here_reachable _ _ R names a F) as [[ctx a0] K]. exists ctx, a0.
    unfold cast_artifact in K. cbn [fst snd app] in K. rewrite <- app_removelast_last in K; [exact K|].
    intros ->. discriminate.
  Qed.

  (** Placed already. *)
  Lemma trimmed_absent : forall p t, without p t -> trimmed p t = t.
  Proof.
    intros p t W. assert (NI : forall x, In x t -> is_ph p x = false).
    { intros x H. destruct (is_ph p x) eqn:I; [|reflexivity]. apply is_ph_iff in I. subst. exfalso. now apply (W _ H). }
    unfold trimmed. destruct (contains_sub _ _); clear W; induction t as [|x t IH]; try reflexivity.
    - cbn [rm_sep]. destruct x as [s|h]; [|rewrite NI by (now left); cbn [andb]]; f_equal; apply IH; intros; apply NI; now right.
    - cbn [filter]. rewrite NI by (now left). cbn [negb]. f_equal. apply IH. intros. apply NI. now right.
  Qed.
  Lemma resolve_absent : forall t values, template_ok t -> ends t ->
    Forall (fun pv => name_ok (fst pv) /\ without (fst pv) t) values -> resolve_field other (print t) values = Ok (print t).
  Proof.
    intros t values O E F. unfold resolve_field.
    assert (H : forall l, Forall (fun pv => name_ok (fst pv) /\ without (fst pv) t) l ->
      fold_left (fun acc (pv : str * str) => match snd pv with [] => bind acc (fun s => trim_empty s (fst pv)) | _ => acc end)
        l (Ok (print t)) = Ok (print t)).
    { induction 1 as [|[p v] l [N W] _ IH]; [reflexivity|]. cbn [fold_left fst snd] in *. destruct v as [|c v]; [|exact IH].
      cbn [bind]. rewrite trim_empty_print, trimmed_absent by assumption. destruct E as [Ne R]. rewrite R.
      destruct (print t); [congruence|exact IH]. }
    rewrite H by exact F. cbn [bind]. apply format_none; [exact O|].
    intros p D. unfold dmem in D. destruct (dget str_eqb values p) as [v|] eqn:G; [|discriminate].
    apply (dget_In str_eqb str_eqb_spec) in G. rewrite Forall_forall in F. apply (F _ G).
  Qed.
  Lemma final_ends : forall g names x, names_in_graph names -> defaulted_ok x -> ends (final root g names x).
  Proof.
    intros g names x N X. unfold final. apply ends_cons, ends_app, ends_app.
    destruct (last_segment names N) as [Ne A]. apply ends_lit.
    - intro E. apply app_eq_nil in E. tauto.
    - apply avoids_app. split; eapply avoids_weak; [|exact A| |apply X]; cbn; tauto.
  Qed.
  Lemma final_without : forall g names x p, defaulted_ok x -> In p [$"graph_name"; $"path_tags"; $"name"; $"names"] ->
    name_ok p /\ without p (final root g names x).
  Proof.
    intros g names x p (P & NR & _) I. split.
    - cbn [In] in I. repeat (destruct I as [<-|I]; [split; [discriminate|split; [reflexivity|repeat constructor; cbn; intuition discriminate]]|]).
      destruct I.
    - unfold final. apply without_lit, without_app. split.
      + apply keys_without. intro J. apply (NR _ J). cbn [In reserved] in *. tauto.
      + apply without_app. split; [|apply without_lit, without_nil]. destruct (d_produced x); [|apply without_nil].
        apply without_hole. split; [|apply without_lit, without_nil]. cbn [h_name]. intros <-.
        cbn [In] in I. intuition discriminate.
  Qed.
  Lemma placed_again : forall g names x g' names' a, context_ok g -> names_in_graph names -> defaulted_ok x ->
    place_default other root g names x = Ok a -> place other g' names' a = Ok a.
  Proof.
    intros g names x g' names' a C N X P. rewrite placed_exactly in P by assumption. injection P as <-.
    assert (Rs : forall values, Forall (fun pv => name_ok (fst pv) /\ without (fst pv) (final root g names x)) values ->
              resolve other (local_file (default_place root g names x) (d_key_types x)) values =
              Ok (local_file (default_place root g names x) (d_key_types x))).
    { intros values F. rewrite <- final_text by apply X. apply (resolve_path other).
      apply resolve_absent; [now apply final_ok|now apply final_ends|exact F]. }
    unfold place. cbn [a_storage a_produced].
    assert (Q : match g' with
                | Some g' => bind (visit_graph other (local_file (default_place root g names x) (d_key_types x)) (g_name g') (g_tags g'))
                               (fun st => visit_names other st names')
                | None => Ok (local_file (default_place root g names x) (d_key_types x))
                end = Ok (local_file (default_place root g names x) (d_key_types x))).
    { destruct g' as [g'|]; [|reflexivity]. unfold visit_graph, visit_names. rewrite Rs.
      - cbn [bind]. apply Rs. constructor; [|constructor; [|constructor]]; apply final_without; cbn; tauto.
      - constructor; [|constructor; [|constructor]]; apply final_without; cbn; tauto. }
    rewrite Q. cbn [bind]. destruct (d_produced x) eqn:Pr.
    - replace (includes_fp _) with true; [reflexivity|]. symmetry. unfold includes_fp, local_file.
      cbn [s_fields existsb snd]. apply orb_true_iff. left. rewrite <- final_text by apply X. apply contains_fp; [now apply final_ok|].
      unfold asks_fp, final. right. apply in_or_app. right. apply in_or_app. left. rewrite Pr. now left.
    - unfold visit_input_fingerprint. rewrite Rs; [reflexivity|]. constructor; [|constructor]. split.
      + split; [discriminate|split; [reflexivity|repeat constructor; cbn; intuition discriminate]].
      + unfold final. apply without_lit, without_app. split.
        * apply keys_without. intro J. apply (proj1 (proj2 X) _ J). cbn. tauto.
        * apply without_app. rewrite Pr. split; [apply without_nil|apply without_lit, without_nil].
  Qed.

  Lemma name_captured : forall g names x, context_ok g -> names_in_graph names -> plain_names (d_key_types x) ->
    avoids $"{}/" (d_extension x) ->
    In $"name" (map fst (d_key_types x)) \/ In $"names" (map fst (d_key_types x)) ->
    (forall n, In n [$"extension"; $"graph_name"; $"path_tags"] -> ~ In n (map fst (d_key_types x))) ->
    place_default other root g names x = Err AttributeError.
  Proof.
    intros g names [kts ext produced] C N P E I NR. cbn [d_key_types d_extension d_produced] in *.
    unfold place_default. cbn [d_key_types d_extension d_produced].
    rewrite stage2 by (try assumption; apply NR; cbn; tauto). cbn [bind]. unfold place. cbn [a_storage a_produced].
    rewrite stage3 by (try assumption; apply NR; cbn; tauto). cbn [bind]. rewrite captured by assumption. reflexivity.
  Qed.
End Boxes.
