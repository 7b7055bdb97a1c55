From Coq Require Import ZArith List Ascii String Bool Lia.
From Verif Require Import Base Base_Proofs Str Str_Proofs Partitions_Model Partitions_Spec Format_Model Template_Spec Template_Proofs
  Format_Proofs Storage_Model Storage_Spec Resolve_Proofs Paths_Spec Paths_Proofs Discovery_Proofs Layout_Proofs TypedBox_Model
  Placement_Model Placement_Spec Placement_Proofs Gcs_Model Gcs_Spec.
Import ListNotations.
Open Scope list_scope.

(** * Formatting two texts with a separator between them *)
Lemma parse_snoc : forall s st, ~ In IErr (parse_from st s) ->
  exists l z, parse_from st s = l ++ [ILit z] /\ forall t, parse_from st (s ++ t) = l ++ parse_from (SLit (rev z)) t.
Proof.
  induction s as [|c s IH]; intros st N.
  - destruct st; cbn [parse_from] in *; try (exfalso; apply N; now left).
    exists [], (rev acc). split; [reflexivity|]. intro t. cbn [app]. now rewrite rev_involutive.
  - assert (K : forall x st', ~ In IErr (x :: parse_from st' s) ->
      exists l z, x :: parse_from st' s = l ++ [ILit z] /\ forall t, x :: parse_from st' (s ++ t) = l ++ parse_from (SLit (rev z)) t).
    { intros x st' N'. destruct (IH st') as (l & z & E & F); [intro I; apply N'; now right|].
      exists (x :: l), z. split; [now rewrite E|]. intro t. now rewrite F. }
    assert (K2 : forall x y st', ~ In IErr (x :: y :: parse_from st' s) ->
      exists l z, x :: y :: parse_from st' s = l ++ [ILit z] /\
        forall t, x :: y :: parse_from st' (s ++ t) = l ++ parse_from (SLit (rev z)) t).
    { intros x y st' N'. destruct (IH st') as (l & z & E & F); [intro I; apply N'; right; now right|].
      exists (x :: y :: l), z. split; [now rewrite E|]. intro t. now rewrite F. }
    assert (Bad : forall l, ~ In IErr (l ++ [IErr]) -> False) by (intros l N'; apply N', in_or_app; right; now left).
    cbn [parse_from app] in *.
    destruct st; try (destruct depth);
      repeat match goal with
      | |- context [if ?b then _ else _] => destruct b
      end; try (apply K; exact N); try (apply K2; exact N); try (apply IH; exact N);
      try (exfalso; apply (Bad []); exact N); try (exfalso; apply (Bad [ILit (rev acc)]); exact N).
Qed.

Lemma lit_prefix : forall s, (forall acc,
    (parse_from (SLit acc) s = [IErr] /\ parse_from (SLit []) s = [IErr]) \/
    exists t rest, parse_from (SLit acc) s = ILit (rev acc ++ t) :: rest /\ parse_from (SLit []) s = ILit t :: rest).
Proof.
  intro s. assert (G : forall pre acc,
    (parse_from (SLit (pre ++ acc)) s = [IErr] /\ parse_from (SLit pre) s = [IErr]) \/
    exists t rest, parse_from (SLit (pre ++ acc)) s = ILit (rev acc ++ t) :: rest /\ parse_from (SLit pre) s = ILit t :: rest).
  { induction s as [|c s IH]; intros pre acc.
    - right. exists (rev pre), []. cbn [parse_from]. now rewrite rev_app_distr.
    - cbn [parse_from]. destruct (Ascii.eqb c "{"%char) eqn:B.
      + destruct s as [|d s]; [left; split; reflexivity|]. cbn [parse_from]. right.
        destruct (Ascii.eqb d "{"%char).
        * eexists (rev pre ++ [d]), _. cbn [rev]. rewrite rev_app_distr, <- app_assoc. split; reflexivity.
        * eexists (rev pre), _. rewrite rev_app_distr. split; reflexivity.
      + destruct (Ascii.eqb c "}"%char) eqn:B2.
        * destruct s as [|d s]; [left; split; reflexivity|]. cbn [parse_from].
          destruct (Ascii.eqb d "}"%char); [right|left; split; reflexivity].
          eexists (rev pre ++ [d]), _. cbn [rev]. rewrite rev_app_distr, <- app_assoc. split; reflexivity.
        * exact (IH (c :: pre) acc). }
  intro acc. exact (G [] acc).
Qed.

Lemma items_split : forall a b, ~ In IErr (parse_format a) -> ~ In IErr (parse_format b) ->
  exists l z t rest, parse_format a = l ++ [ILit z] /\ parse_format b = ILit t :: rest /\
    parse_format (a ++ $"/" ++ b) = l ++ ILit (z ++ $"/" ++ t) :: rest.
Proof.
  intros a b Na Nb. unfold parse_format in *. destruct (parse_snoc a (SLit []) Na) as (l & z & E & F).
  destruct (lit_prefix b ("/"%char :: rev z)) as [[_ B]|(t & rest & B1 & B2)]; [rewrite B in Nb; exfalso; apply Nb; now left|].
  exists l, z, t, rest. split; [exact E|]. split; [exact B2|]. rewrite F.
  change (parse_from (SLit (rev z)) ($"/" ++ b)) with (parse_from (SLit ("/"%char :: rev z)) b).
  rewrite B1. cbn [rev]. rewrite rev_involutive, <- app_assoc. reflexivity.
Qed.

Lemma mapM_in_ok : forall A B (f : A -> result B) l r x, mapM f l = Ok r -> In x l -> exists y, f x = Ok y.
Proof.
  intros A B f l r x M I. apply mapM_Forall2 in M. induction M as [|a b l r H M IH]; [destruct I|].
  destruct I as [->|I]; eauto.
Qed.

Lemma vformat_slash : forall render a b x y, vformat render a = Ok x -> vformat render b = Ok y ->
  vformat render (a ++ $"/" ++ b) = Ok (x ++ $"/" ++ y).
Proof.
  intros render a b x y. unfold vformat. generalize 2 as n. intros n. cbn [vformat_at].
  set (f := fun it : item => match it with ILit t => Ok t | _ => _ end).
  intros Ea Eb.
  destruct (mapM f (parse_format a)) as [xs|] eqn:Ma; [|discriminate].
  destruct (mapM f (parse_format b)) as [ys|] eqn:Mb; [|discriminate].
  assert (Na : ~ In IErr (parse_format a)).
  { intro I. destruct (mapM_in_ok _ _ _ _ _ _ Ma I) as [v E]. discriminate. }
  assert (Nb : ~ In IErr (parse_format b)).
  { intro I. destruct (mapM_in_ok _ _ _ _ _ _ Mb I) as [v E]. discriminate. }
  destruct (items_split a b Na Nb) as (l & z & t & rest & E1 & E2 & E3).
  rewrite E1 in Ma. rewrite E2 in Mb. rewrite E3. rewrite mapM_app in *. cbn [mapM] in *.
  change (f (ILit z)) with (@Ok str z) in Ma. change (f (ILit t)) with (@Ok str t) in Mb.
  change (f (ILit (z ++ $"/" ++ t))) with (@Ok str (z ++ $"/" ++ t)).
  destruct (mapM f l) as [ls|]; [|discriminate]. destruct (mapM f rest) as [rs|]; [|discriminate].
  cbn [bind rmap] in *. injection Ma as <-. injection Mb as <-. injection Ea as <-. injection Eb as <-.
  rewrite !concat_app. cbn [List.concat]. rewrite app_nil_r, <- !app_assoc. reflexivity.
Qed.

(** * Keys split at the first separator *)
Lemma names_eqb_spec : forall a b, names_eqb a b = true <-> a = b.
Proof. intros a b. unfold names_eqb. destruct (list_eq_dec (list_eq_dec ascii_dec) a b); split; congruence. Qed.
Lemma split_once_join : forall c s, join [c] (split_once c s) = s.
Proof.
  intros c. induction s as [|a s IH]; [reflexivity|]. cbn [split_once]. destruct (Ascii.eqb a c) eqn:E.
  - apply Ascii.eqb_eq in E. subst. reflexivity.
  - destruct (split_once c s) as [|p ps] eqn:S; [cbn in IH; now subst|].
    destruct ps as [|q ps]; [cbn [join] in *; now rewrite IH|]. rewrite <- IH. reflexivity.
Qed.
Lemma split_once_two : forall c a b, exists x y, split_once c (a ++ c :: b) = [x; y].
Proof.
  intros c a b. induction a as [|d a IH]; cbn [app split_once].
  - rewrite Ascii.eqb_refl. eauto.
  - destruct (Ascii.eqb d c); [eauto|]. destruct IH as (x & y & ->). eauto.
Qed.
Lemma in_dict_of : forall {K V} (eqb : K -> K -> bool) (spec : forall a b, eqb a b = true <-> a = b) (l : list (K * V)) kv,
  In kv (dict_of eqb l) -> In kv l.
Proof.
  intros K V eqb spec l [k v] I.
  assert (G : dget eqb (dict_of eqb l) k = Some v) by (apply (dget_NoDup eqb spec); [apply (Base_Proofs.dict_of_NoDup eqb spec)|exact I]).
  unfold dict_of in G. rewrite (dget_dupdate eqb spec) in G. cbn [dget] in G.
  destruct (dget eqb (rev l) k) as [w|] eqn:R; [|discriminate]. injection G as ->.
  apply (dget_In eqb spec) in R. now apply in_rev.
Qed.
Lemma dict_of_in : forall {K V} (eqb : K -> K -> bool) (spec : forall a b, eqb a b = true <-> a = b) (l : list (K * V)) k v,
  (forall v', In (k, v') l -> v' = v) -> In (k, v) l -> In (k, v) (dict_of eqb l).
Proof.
  intros K V eqb spec l k v U I. apply (dget_In eqb spec). unfold dict_of. rewrite (dget_dupdate eqb spec).
  destruct (dget eqb (rev l) k) as [w|] eqn:R.
  - apply (dget_In eqb spec) in R. apply in_rev in R. f_equal. now apply U.
  - apply (dget_None eqb spec) in R. exfalso. apply R. apply in_map_iff. exists (k, v). split; [reflexivity|]. now apply in_rev in I.
Qed.

Lemma parse_spec_in : forall paths fps kts spec md, parse_spec paths fps kts spec = Ok md ->
  forall path m, In (path, m) md <->
    In path paths /\ extract_placeholders kts path spec = Ok m /\ requested fps (snd m) = fst m.
Proof.
  intros paths fps kts spec md E path m. unfold parse_spec in E.
  destruct (mapM _ paths) as [ms|] eqn:M; [|discriminate]. cbn [rmap] in E. injection E as <-.
  apply mapM_Forall2 in M. rewrite filter_In. cbn [fst snd]. rewrite opt_eqb_spec.
  assert (X : In (path, m) ms <-> In path paths /\ extract_placeholders kts path spec = Ok m); [|tauto].
  induction M as [|a b l r H M IH]; [cbn; tauto|].
  destruct (extract_placeholders kts a spec) as [m'|] eqn:Ex; [|discriminate]. cbn [rmap] in H. injection H as <-.
  cbn [In]. rewrite IH. split.
  - intros [H|H]; [injection H as <- <-; auto|tauto].
  - intros [[->|H] F]; [left|right; tauto]. rewrite Ex in F. now injection F as ->.
Qed.

Section Gcs.
  Context (other : cvalue -> str -> result str).

  Lemma generate_slash : forall fp key a b x y, generate_path other fp key a = Ok x -> generate_path other fp key b = Ok y ->
    generate_path other fp key (a ++ $"/" ++ b) = Ok (x ++ $"/" ++ y).
  Proof.
    intros fp key a b x y. unfold generate_path. intros Ea Eb.
    destruct (strip_partition_indexes other a) as [sa|] eqn:Sa; [|discriminate].
    destruct (strip_partition_indexes other b) as [sb|] eqn:Sb; [|discriminate]. cbn [bind] in *.
    unfold strip_partition_indexes in *. rewrite (vformat_slash _ _ _ _ _ Sa Sb). cbn [bind].
    now apply vformat_slash.
  Qed.

  Lemma gcs_inv : forall bucket path kts fp key p, generate_partition other (gcs_file bucket path kts) fp key = Ok p ->
    exists b o, generate_path other fp key bucket = Ok b /\ generate_path other fp key path = Ok o /\
      p_fp p = fp /\ p_key p = key /\ p_fields p = [($"bucket", Some b); ($"path", Some o)] /\
      qualified_path p = Ok (b ++ $"/" ++ o).
  Proof.
    intros bucket path kts fp key p G. apply generate_inv in G. destruct G as (k & _ & _ & _ & E1 & E2 & _ & F).
    cbn [gcs_file s_fields] in F. inversion F as [|? [n v] ? ? [N1 V1] F1]; subst. clear F.
    inversion F1 as [|? [n' v'] ? ? [N2 V2] F2]; subst. clear F1. inversion F2; subst. clear F2.
    cbn [fst snd] in *. destruct V1 as (b & Gb & ->). destruct V2 as (o & Go & ->). subst.
    exists b, o. repeat (split; [first [assumption|reflexivity|congruence]|]).
    unfold qualified_path. match goal with H : _ = p_fields p |- _ => rewrite <- H end. split; reflexivity.
  Qed.

  Lemma located : forall bucket path kts fp key p, generate_partition other (gcs_file bucket path kts) fp key = Ok p ->
    exists object, qualified_path p = Ok object /\ generate_path other fp key (bucket ++ $"/" ++ path) = Ok object.
  Proof.
    intros bucket path kts fp key p G. destruct (gcs_inv _ _ _ _ _ _ G) as (b & o & Gb & Go & _ & _ & _ & Q).
    exists (b ++ $"/" ++ o). split; [exact Q|]. now apply generate_slash.
  Qed.

  (** Whether a fingerprint is asked for does not depend on where the bucket ends. *)
  Lemma print_bucket : forall tb tp, print (in_bucket tb tp) = print tb ++ $"/" ++ print tp.
  Proof. intros tb tp. unfold in_bucket. rewrite print_app. reflexivity. Qed.
  Lemma bucket_template : forall kts tb tp, path_template kts (in_bucket tb tp) -> path_template kts tb /\ path_template kts tp.
  Proof.
    intros kts tb tp P. unfold path_template, in_bucket in P. rewrite Forall_app in P. destruct P as [A B].
    inversion B; subst. auto.
  Qed.
  Lemma bucket_asks : forall tb tp, asks_fp (in_bucket tb tp) <-> asks_fp tb \/ asks_fp tp.
  Proof.
    intros tb tp. unfold asks_fp, in_bucket. rewrite in_app_iff. cbn [In]. split; [|tauto].
    intros [H|[H|H]]; [tauto|discriminate|tauto].
  Qed.
  Lemma bucket_includes : forall kts tb tp k, path_template kts tb -> path_template kts tp ->
    includes_fp (gcs_file (print tb) (print tp) k) = true <-> asks_fp (in_bucket tb tp).
  Proof.
    intros kts tb tp k Pb Pp. rewrite bucket_asks. unfold includes_fp. cbn [gcs_file s_fields existsb snd].
    rewrite orb_false_r, orb_true_iff.
    rewrite !contains_fp by (eapply path_template_ok; eassumption). reflexivity.
  Qed.

  Lemma gcs_generates : forall kts tb tp fp key, path_template kts (in_bucket tb tp) -> key_ok kts key ->
    (asks_fp (in_bucket tb tp) <-> fp <> None) ->
    exists p object, generate_partition other (gcs_file (print tb) (print tp) (Some kts)) fp key = Ok p /\
      qualified_path p = Ok object /\ generate_path other fp key (print (in_bucket tb tp)) = Ok object.
  Proof.
    intros kts tb tp fp key P K A. destruct (bucket_template _ _ _ P) as [Pb Pp].
    assert (Gb : exists b, generate_path other fp key (print tb) = Ok b).
    { eexists. apply (generates other kts); [exact K|eapply path_template_ok; exact Pb|now rewrite (path_unindex kts tb Pb)|].
      rewrite (path_unindex kts tb Pb). intro F. apply A, bucket_asks. now left. }
    assert (Gp : exists o, generate_path other fp key (print tp) = Ok o).
    { eexists. apply (generates other kts); [exact K|eapply path_template_ok; exact Pp|now rewrite (path_unindex kts tp Pp)|].
      rewrite (path_unindex kts tp Pp). intro F. apply A, bucket_asks. now right. }
    destruct Gb as [b Gb]. destruct Gp as [o Go].
    assert (G : exists p, generate_partition other (gcs_file (print tb) (print tp) (Some kts)) fp key = Ok p).
    { unfold generate_partition. cbn [get_key_types gcs_file s_key_types bind].
      rewrite check_key_ok by exact K. cbn [bind].
      assert (Q := bucket_includes kts tb tp (Some kts) Pb Pp).
      assert (B : Bool.eqb (match fp with None => false | Some _ => true end)
                    (includes_fp (gcs_file (print tb) (print tp) (Some kts))) = true).
      { destruct fp as [z|], (includes_fp (gcs_file (print tb) (print tp) (Some kts))); try reflexivity.
        - exfalso. assert (false = true) by (apply Q, A; discriminate). discriminate.
        - exfalso. assert (@None Z <> None) by (apply A, Q; reflexivity). congruence. }
      unfold gcs_file in B |- *. rewrite B. cbn [s_fields mapM snd fst]. rewrite Gb, Go. eexists. reflexivity. }
    destruct G as [p G]. destruct (located _ _ _ _ _ _ G) as (object & Q & E). exists p, object.
    split; [exact G|]. split; [exact Q|]. now rewrite print_bucket.
  Qed.

  Context {content : Type} (from_string : str -> Z) (info : content -> object_info) (listed : str -> list str).
  Notation discover := (gcs_discover other from_string info listed).

  (** What is discovered, path by path. *)
  Lemma discover_inv : forall objects bucket path kts fps l, discover objects bucket path kts fps = Ok l ->
    exists w, spec_to_wildcard other (bucket ++ $"/" ++ path) kts = Ok w /\
    (forall z p, In (z, p) l <->
       exists object fp key, In object (listed w) /\
         extract_placeholders kts object (bucket ++ $"/" ++ path) = Ok (fp, key) /\ requested fps key = fp /\
         bind (generate_partition other (gcs_file bucket path (Some kts)) fp key) (gcs_snapshot from_string info objects) = Ok (z, p)).
  Proof.
    intros objects bucket path kts fps l D. unfold gcs_discover in D. set (spec := bucket ++ $"/" ++ path) in *.
    destruct (spec_to_wildcard other spec kts) as [w|] eqn:W; [|discriminate]. cbn [bind] in D. exists w. split; [reflexivity|].
    destruct (parse_spec (listed w) fps kts spec) as [md|] eqn:Pm; [|discriminate]. cbn [bind] in D.
    assert (In_md := parse_spec_in _ _ _ _ _ Pm).
    set (f := fun pm : str * (option Z * pkey) => (split_once "/"%char (fst pm), snd pm)) in D.
    assert (In_d : forall k m, In (k, m) (dict_of names_eqb (map f md)) <->
              exists object, In (object, m) md /\ split_once "/"%char object = k).
    { intros k m. split.
      - intro I. apply (in_dict_of _ names_eqb_spec) in I. apply in_map_iff in I. destruct I as ([object m'] & E & I).
        unfold f in E. cbn [fst snd] in E. injection E as <- <-. eauto.
      - intros (object & I & <-). apply (dict_of_in _ names_eqb_spec).
        + intros m' I'. apply in_map_iff in I'. destruct I' as ([object' m''] & E & I').
          unfold f in E. cbn [fst snd] in E. injection E as E ->.
          assert (object' = object) by (rewrite <- (split_once_join "/"%char object'), <- (split_once_join "/"%char object); now rewrite E).
          subst. apply In_md in I, I'. destruct I as (_ & I & _). destruct I' as (_ & I' & _). congruence.
        + apply in_map_iff. exists (object, m). auto. }
    apply mapM_Forall2 in D. intros z p.
    assert (X : In (z, p) l <-> exists k m, In (k, m) (dict_of names_eqb (map f md)) /\
              match k with
              | [_; _] => bind (generate_partition other (gcs_file bucket path (Some kts)) (fst m) (snd m)) (gcs_snapshot from_string info objects)
              | _ => Err ValueError
              end = Ok (z, p)).
    { clear In_d. revert D. generalize (dict_of names_eqb (map f md)). intros d D.
      induction D as [|[k m] y d' l' H D IH]; [split; [intros []|intros (? & ? & [] & _)]|].
      cbn [In]. rewrite IH. cbn [fst snd] in H. split.
      - intros [->|(k' & m' & I & E)]; [exists k, m; auto|exists k', m'; auto].
      - intros (k' & m' & [I|I] & E); [|eauto]. injection I as <- <-. left.
        destruct k as [|? [|? [|? ?]]]; try discriminate. congruence. }
    rewrite X. split.
    - intros (k & [fp key] & I & E). apply In_d in I. destruct I as (object & I & Sk). apply In_md in I.
      destruct I as (I1 & I2 & I3). exists object, fp, key. cbn [fst snd] in *.
      destruct k as [|? [|? [|? ?]]]; try discriminate. auto.
    - intros (object & fp & key & I1 & I2 & I3 & E).
      assert (I : In (split_once "/"%char object, (fp, key)) (dict_of names_eqb (map f md))).
      { apply In_d. exists object. split; [apply In_md; auto|reflexivity]. }
      exists (split_once "/"%char object), (fp, key). split; [exact I|].
      assert (H : exists y, match split_once "/"%char object with
              | [_; _] => bind (generate_partition other (gcs_file bucket path (Some kts)) fp key) (gcs_snapshot from_string info objects)
              | _ => Err ValueError
              end = Ok y).
      { clear -D I. induction D as [|[k m] y d' l' H D IH]; [destruct I|]. destruct I as [I|I]; [|auto].
        injection I as -> ->. cbn [fst snd] in H. eauto. }
      destruct H as [y H]. destruct (split_once "/"%char object) as [|? [|? [|? ?]]]; try discriminate. exact E.
  Qed.

  Lemma snapshot_inv : forall objects p z q, gcs_snapshot from_string info objects p = Ok (z, q) ->
    q = p /\ exists object c, qualified_path p = Ok object /\ dget str_eqb objects object = Some c /\ z = object_fp from_string info c.
  Proof.
    intros objects p z q E. unfold gcs_snapshot in E. destruct (qualified_path p) as [object|] eqn:Q; [|discriminate].
    cbn [bind] in E. destruct (dget str_eqb objects object) as [c|] eqn:G; [|discriminate]. injection E as <- <-. eauto 6.
  Qed.

  Lemma gcs_sound : forall objects bucket path kts fps l, discover objects bucket path kts fps = Ok l -> dict_keys fps ->
    forall z p, In (z, p) l -> exists b o c, p_fields p = [($"bucket", Some b); ($"path", Some o)] /\
      dget str_eqb objects (b ++ $"/" ++ o) = Some c /\ z = object_fp from_string info c /\
      asked fps (p_key p) (p_fp p) /\
      generate_path other (p_fp p) (p_key p) bucket = Ok b /\ generate_path other (p_fp p) (p_key p) path = Ok o.
  Proof.
    intros objects bucket path kts fps l D Dk z p I. destruct (discover_inv _ _ _ _ _ _ D) as (w & _ & H).
    apply H in I. destruct I as (object & fp & key & _ & _ & R & E).
    destruct (generate_partition other _ fp key) as [p'|] eqn:G; [|discriminate]. cbn [bind] in E.
    apply snapshot_inv in E. destruct E as (-> & object' & c & Q & Gc & ->).
    destruct (gcs_inv _ _ _ _ _ _ G) as (b & o & Gb & Go & E1 & E2 & F & Q').
    rewrite Q in Q'. injection Q' as ->. exists b, o, c. rewrite E1, E2.
    repeat (split; [assumption || reflexivity|]). split; [|auto]. now apply requested_asked.
  Qed.

  Lemma gcs_found : forall kts tb tp fp key object objects c, discoverable kts (in_bucket tb tp) ->
    written other kts (in_bucket tb tp) fp key object -> dget str_eqb objects object = Some c ->
    exists key' p, extract_placeholders kts object (print (in_bucket tb tp)) = Ok (fp, key') /\ same_key key' key /\
      bind (generate_partition other (gcs_file (print tb) (print tp) (Some kts)) fp key') (gcs_snapshot from_string info objects) =
        Ok (object_fp from_string info c, p) /\ p_fp p = fp /\ p_key p = key' /\ qualified_path p = Ok object.
  Proof.
    intros kts tb tp fp key object objects c (P & S & V & N & _ & U) (K & F & A & G) Gc.
    assert (C : consistent (in_bucket tb tp)) by (intros h h' I I' _ _; rewrite (N h I), (N h' I'); reflexivity).
    destruct (extract_generated other kts _ fp key object P S C V U K F A G) as (key' & E & Sk).
    destruct (gcs_generates kts tb tp fp key' P) as (p & object' & Gn & Q & Gp); [eapply key_ok_same; eassumption|exact A|].
    rewrite (generate_path_same other fp key' key) in Gp by exact Sk. rewrite G in Gp. injection Gp as <-.
    exists key', p. split; [exact E|]. split; [exact Sk|].
    destruct (gcs_inv _ _ _ _ _ _ Gn) as (_ & _ & _ & _ & E1 & E2 & _).
    split; [|auto]. rewrite Gn. cbn [bind]. unfold gcs_snapshot. rewrite Q. cbn [bind]. now rewrite Gc.
  Qed.

  Lemma generated_written : forall kts tb tp fp key p object, discoverable kts (in_bucket tb tp) -> key_ok kts key -> fp_ok fp ->
    generate_partition other (gcs_file (print tb) (print tp) (Some kts)) fp key = Ok p -> qualified_path p = Ok object ->
    written other kts (in_bucket tb tp) fp key object.
  Proof.
    intros kts tb tp fp key p object (P & _) K F G Q. split; [exact K|]. split; [exact F|].
    destruct (bucket_template _ _ _ P) as [Pb Pp]. split.
    - rewrite <- (bucket_includes kts tb tp (Some kts) Pb Pp).
      destruct (generate_inv _ _ _ _ _ G) as (_ & _ & _ & H & _). symmetry. exact H.
    - destruct (located _ _ _ _ _ _ G) as (object' & Q' & E). rewrite Q in Q'. injection Q' as <-. now rewrite print_bucket.
  Qed.

  Lemma gcs_all : forall objects kts tb tp fps l, discoverable kts (in_bucket tb tp) -> lists_all listed objects ->
    discover objects (print tb) (print tp) kts fps = Ok l -> dict_keys fps ->
    forall fp key p object c, key_ok kts key -> fp_ok fp ->
    generate_partition other (gcs_file (print tb) (print tp) (Some kts)) fp key = Ok p -> qualified_path p = Ok object ->
    dget str_eqb objects object = Some c -> asked fps key fp ->
    exists p', In (object_fp from_string info c, p') l /\ p_fp p' = fp /\ same_key (p_key p') key /\ p_fields p' = p_fields p.
  Proof.
    intros objects kts tb tp fps l Dt La D Dk fp key p object c K F G Q Gc R.
    assert (W := generated_written _ _ _ _ _ _ _ Dt K F G Q).
    destruct (gcs_found _ _ _ _ _ _ _ c Dt W Gc) as (key' & p' & Ex & Sk & Gn & Pf & Pk & Qp).
    destruct (discover_inv _ _ _ _ _ _ D) as (w & Ew & H). rewrite <- print_bucket in Ew, H.
    exists p'. split; [|split; [exact Pf|split; [now rewrite Pk|]]].
    - apply H. exists object, fp, key'. split; [|split; [exact Ex|split; [|exact Gn]]].
      + apply La; [eapply dget_Some_key; [exact str_eqb_spec|exact Gc]|].
        destruct Dt as (P & S & V & N & _ & U). destruct W as (_ & _ & A & G').
        destruct (generated_matches other kts _ fp key object P N K (proj1 A) G') as (w' & Ew' & M).
        rewrite Ew in Ew'. injection Ew' as <-. exact M.
      + rewrite (requested_same fps key' key Sk). now apply requested_asked.
    - destruct (generate_partition other _ fp key') as [p''|] eqn:G'; [|discriminate]. cbn [bind] in Gn.
      apply snapshot_inv in Gn. destruct Gn as (-> & _).
      destruct (gcs_inv _ _ _ _ _ _ G) as (b & o & Gb & Go & _ & _ & F1 & _).
      destruct (gcs_inv _ _ _ _ _ _ G') as (b' & o' & Gb' & Go' & _ & _ & F2 & _).
      rewrite (generate_path_same other fp key' key) in Gb', Go' by exact Sk. congruence.
  Qed.

  Lemma gcs_succeeds : forall objects kts tb tp fps, discoverable kts (in_bucket tb tp) ->
    (forall w object, spec_to_wildcard other (print (in_bucket tb tp)) kts = Ok w -> In object (listed w) ->
       In object (map fst objects) /\ exists fp key, written other kts (in_bucket tb tp) fp key object) ->
    exists l, discover objects (print tb) (print tp) kts fps = Ok l.
  Proof.
    intros objects kts tb tp fps Dt W. unfold gcs_discover. rewrite <- print_bucket.
    assert (Dt' := Dt). destruct Dt' as (P & S & V & N & _ & U).
    rewrite (wildcard_path other kts _ P N). cbn [bind].
    assert (X : forall object, In object (listed (wild (in_bucket tb tp))) ->
       exists m, extract_placeholders kts object (print (in_bucket tb tp)) = Ok m /\
         (exists x y, split_once "/"%char object = [x; y]) /\
         exists r, bind (generate_partition other (gcs_file (print tb) (print tp) (Some kts)) (fst m) (snd m))
           (gcs_snapshot from_string info objects) = Ok r).
    { intros object I. destruct (W _ object (wildcard_path other kts _ P N) I) as [Io (fp & key & Wr)].
      destruct (dget str_eqb objects object) as [c|] eqn:Gc.
      - destruct (gcs_found kts tb tp fp key object objects c Dt Wr Gc) as (key' & p & E1 & _ & E2 & _ & _ & Q).
        exists (fp, key'). split; [exact E1|]. split; [|eauto].
        destruct (generate_partition other _ fp key') as [p''|] eqn:G'; [|discriminate]. cbn [bind] in E2.
        apply snapshot_inv in E2. destruct E2 as (-> & _). destruct (gcs_inv _ _ _ _ _ _ G') as (b & o & _ & _ & _ & _ & _ & Q').
        rewrite Q in Q'. injection Q' as ->. apply split_once_two.
      - apply (dget_None str_eqb str_eqb_spec) in Gc. contradiction. }
    assert (Y : exists md, parse_spec (listed (wild (in_bucket tb tp))) fps kts (print (in_bucket tb tp)) = Ok md).
    { unfold parse_spec. assert (Z : exists ms, mapM (fun path => rmap (pair path) (extract_placeholders kts path (print (in_bucket tb tp))))
        (listed (wild (in_bucket tb tp))) = Ok ms); [|destruct Z as [ms ->]; eexists; reflexivity].
      induction (listed (wild (in_bucket tb tp))) as [|a r IH]; [exists []; reflexivity|].
      destruct (X a (or_introl eq_refl)) as (m & E & _). cbn [mapM]. rewrite E. cbn [rmap bind].
      destruct IH as [ms ->]; [intros; apply X; now right|]. eexists. reflexivity. }
    destruct Y as [md Pm]. rewrite Pm. cbn [bind]. assert (In_md := parse_spec_in _ _ _ _ _ Pm).
    assert (Z : forall d, (forall k m, In (k, m) d -> exists object, In (object, m) md /\ split_once "/"%char object = k) ->
      exists l, mapM (fun km : list str * (option Z * pkey) => match fst km with
                    | [_; _] => bind (generate_partition other (gcs_file (print tb) (print tp) (Some kts)) (fst (snd km)) (snd (snd km)))
                                     (gcs_snapshot from_string info objects)
                    | _ => Err ValueError
                    end) d = Ok l).
    { induction d as [|[k m] d IH]; intro Hd; [exists []; reflexivity|]. cbn [mapM fst snd].
      destruct (Hd k m (or_introl eq_refl)) as (object & I & Sk). apply In_md in I. destruct I as (I & E & _).
      destruct (X object I) as (m' & E' & (x & y & Sxy) & r & Hr). rewrite E in E'. injection E' as <-.
      rewrite <- Sk, Sxy, Hr. cbn [bind]. destruct IH as [l ->]; [intros; apply Hd; now right|]. eexists. reflexivity. }
    apply Z. intros k m I. apply (in_dict_of _ names_eqb_spec) in I. apply in_map_iff in I.
    destruct I as ([object m'] & E & I). cbn [fst snd] in E. injection E as <- <-. eauto.
  Qed.
End Gcs.
