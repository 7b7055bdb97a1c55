(** Proofs about Locations_Spec. *)
From Coq Require Import ZArith List Ascii String Bool Permutation Arith.
From Verif Require Import Base Base_Proofs Str Str_Proofs Numerals_Model Partitions_Model Format_Model Template_Spec Storage_Model
  Paths_Spec Paths_Proofs Discovery_Proofs Layout_Proofs Locations_Spec.
From Verif Require Resolve_Proofs Graph_Model Graph_Proofs Backend_Model Executor_Model Executor_Proofs.
Import ListNotations.
Open Scope list_scope.

Lemma dset_key_in : forall {K A} (eqb : K -> K -> bool) (d : list (K * A)) k v x,
  In x (map fst (dset eqb d k v)) -> x = k \/ In x (map fst d).
Proof.
  intros K A eqb d k v x. rewrite dset_keys. destruct (dmem eqb d k); [now right|].
  rewrite in_app_iff. intros [H|[H|[]]]; [now right|now left].
Qed.

Section Locations.
  Context (other : cvalue -> str -> result str) (enc : key_types -> pkey -> str) (S : list layout).
  Context (DS : forall kts t, In (kts, t) S -> discoverable kts t) (AP : apart other S) (EN : encodes enc S).
  Notation leqb := Executor_Model.location_eqb.
  Notation location := Executor_Model.location.

  Lemma leqb_spec : forall x y : location, leqb x y = true <-> x = y.
  Proof. exact Executor_Proofs.location_eqb_spec. Qed.

  Lemma path_once : forall kts t fp key path path', written other kts t fp key path ->
    forall key', same_key key key' -> written other kts t fp key' path' -> path = path'.
  Proof.
    intros kts t fp key path path' (_ & _ & _ & G) key' Sk (_ & _ & _ & G').
    rewrite (generate_path_same other fp key key' (print t) Sk) in G. congruence.
  Qed.

  Lemma matches_own : forall kts t fp key path, In (kts, t) S -> written other kts t fp key path ->
    exists w, spec_to_wildcard other (print t) kts = Ok w /\ glob_match w path = true.
  Proof.
    intros kts t fp key path I (K & _ & A & G). destruct (DS _ _ I) as (P & _ & _ & N & _).
    exact (generated_matches other kts t fp key path P N K (proj1 A) G).
  Qed.

  Lemma path_location : forall kts t fp key path kts' t' fp' key' path', In (kts, t) S -> In (kts', t') S ->
    written other kts t fp key path -> written other kts' t' fp' key' path' ->
    (print t, enc kts key, fp) = (print t', enc kts' key', fp') <-> path = path'.
  Proof.
    intros kts t fp key path kts' t' fp' key' path' I I' W W'. split; intro E.
    - inversion E as [[E1 E2 E3]]. subst fp'. assert (X := proj1 AP _ _ I I' E1). inversion X; subst kts' t'.
      apply (path_once _ _ _ _ _ _ W key'); [|exact W'].
      destruct W as (K & _), W' as (K' & _). exact (proj1 (proj2 (EN _ _ I _ K) _ K') E2).
    - subst path'. destruct (matches_own _ _ _ _ _ I' W') as (w & Ew & M).
      assert (X := proj2 AP _ _ _ _ _ _ _ _ I I' W Ew M). inversion X; subst kts' t'.
      destruct (DS _ _ I) as (P & Sp & Co & N & _). assert (Eu := path_unindex kts t P).
      destruct W as (K & _ & A & G), W' as (K' & _ & A' & G').
      destruct (path_injective other kts t fp key fp' key' path) as [-> Sk]; try assumption; rewrite ?Eu; try assumption.
      { exact (path_template_ok kts t P). }
      now rewrite (proj2 (proj2 (EN _ _ I _ K) _ K') Sk).
  Qed.

  Lemma same_files_nil : same_files other enc S [] [].
  Proof. split; cbn; try constructor; try contradiction; reflexivity. Qed.

  Lemma same_files_write : forall fs ps kts t fp key path d, same_files other enc S fs ps ->
    In (kts, t) S -> written other kts t fp key path ->
    same_files other enc S (dset leqb fs (print t, enc kts key, fp) d) (dset str_eqb ps path d).
  Proof.
    intros fs ps kts t fp key path d R I W. destruct R as [R1 R2 R3 R4 R5]. split.
    - now apply (dset_NoDup leqb leqb_spec).
    - now apply (dset_NoDup str_eqb str_eqb_spec).
    - intros kts' t' fp' key' path' I' W'. assert (Q := path_location _ _ _ _ _ _ _ _ _ _ I I' W W').
      rewrite (dget_dset leqb leqb_spec), (dget_dset str_eqb str_eqb_spec).
      destruct (leqb _ _) eqn:Eb.
      + apply leqb_spec in Eb. apply Q in Eb. subst path'. now rewrite str_eqb_refl.
      + destruct (str_eqb path path') eqn:Ep; [|now apply (R3 kts' t' fp' key')].
        apply str_eqb_spec in Ep. apply Q in Ep. apply leqb_spec in Ep. congruence.
    - intros i k f Hin. apply dset_key_in in Hin. destruct Hin as [Hin|Hin]; [|now apply R4].
      inversion Hin; subst. exists kts, t, key, path. auto.
    - intros kts' t' path' w I' Hin Ew M. apply dset_key_in in Hin.
      destruct Hin as [->|Hin]; [|now apply (R5 kts' t' path' w)].
      assert (X := proj2 AP _ _ _ _ _ _ _ _ I I' W Ew M). inversion X; subst. eauto.
  Qed.

  Lemma same_files_stranger : forall fs ps path d, same_files other enc S fs ps ->
    (forall kts t w, In (kts, t) S -> spec_to_wildcard other (print t) kts = Ok w -> glob_match w path = false) ->
    same_files other enc S fs (dset str_eqb ps path d).
  Proof.
    intros fs ps path d [R1 R2 R3 R4 R5] N. split; try assumption.
    - now apply (dset_NoDup str_eqb str_eqb_spec).
    - intros kts t fp key path' I W. rewrite (dget_dset str_eqb str_eqb_spec).
      destruct (str_eqb path path') eqn:Ep; [|now apply (R3 kts)].
      apply str_eqb_spec in Ep. subst path'. destruct (matches_own _ _ _ _ _ I W) as (w & Ew & M).
      rewrite (N _ _ _ I Ew) in M. discriminate.
    - intros kts t path' w I Hin Ew M. apply dset_key_in in Hin.
      destruct Hin as [->|Hin]; [|now apply (R5 kts t path' w)]. rewrite (N _ _ _ I Ew) in M. discriminate.
  Qed.

  Lemma same_content : forall fs ps kts t fp key path, same_files other enc S fs ps -> In (kts, t) S ->
    written other kts t fp key path ->
    Executor_Model.content fs (Backend_Model.Partition (seen (kts, t)) (enc kts key) fp None) = dget str_eqb ps path.
  Proof. intros fs ps kts t fp key path R I W. exact (same_contents _ _ _ _ _ R kts t fp key path I W). Qed.

  Lemma seen_partitioned : forall kts t key, In (kts, t) S -> key_ok kts key ->
    Graph_Model.st_partitioned (seen (kts, t)) = negb (Executor_Model.is_nil (enc kts key)).
  Proof.
    intros kts t key I K. cbn [seen Graph_Model.st_partitioned fst]. assert (C := check_key_ok kts key K).
    destruct (EN _ _ I _ K) as [Q _]. destruct (enc kts key) eqn:Ee.
    - assert (key = []) by now apply Q. subst key. destruct kts; [reflexivity|discriminate].
    - destruct key as [|x key]; [destruct Q as [_ Q]; specialize (Q eq_refl); discriminate|].
      destruct kts; [discriminate|reflexivity].
  Qed.

  Lemma seen_templated : forall kts t, In (kts, t) S ->
    Graph_Model.st_templated (seen (kts, t)) = true <-> asks_fp t.
  Proof.
    intros kts t I. destruct (DS _ _ I) as (P & _). cbn [seen Graph_Model.st_templated snd].
    apply contains_fp. exact (path_template_ok kts t P).
  Qed.

  Lemma seen_asks : forall kts t (fp : option Z), In (kts, t) S -> (asks_fp t <-> fp <> None) ->
    Graph_Model.st_templated (seen (kts, t)) = Executor_Model.is_some fp.
  Proof.
    intros kts t fp I A. assert (Q := seen_templated kts t I).
    destruct fp as [z|]; cbn [Executor_Model.is_some]; destruct (Graph_Model.st_templated _); try reflexivity.
    - apply Q, A. discriminate.
    - exfalso. assert (None <> @None Z) by (apply A, Q; reflexivity). congruence.
  Qed.

  (** Generating a partition. *)
  Lemma same_generate : forall kts t fp key, In (kts, t) S -> key_ok kts key -> fp_ok fp ->
    (asks_fp t <-> fp <> None) /\
      Executor_Model.generate_partition (seen (kts, t)) fp (enc kts key) =
        Ok (Backend_Model.Partition (seen (kts, t)) (enc kts key) fp None) /\
      (exists p path, generate_partition other (local_file (print t) kts) fp key = Ok p /\
        p_fields p = [($"path", Some path)] /\ written other kts t fp key path)
    \/ ~ (asks_fp t <-> fp <> None) /\
      Executor_Model.generate_partition (seen (kts, t)) fp (enc kts key) = Err ValueError /\
      generate_partition other (local_file (print t) kts) fp key = Err ValueError.
  Proof.
    intros kts t fp key I K F. assert (D := DS _ _ I). destruct D as (P & _).
    assert (O := path_template_ok kts t P). assert (Sp := seen_partitioned kts t key I K).
    assert (Ic : includes_fp (local_file (print t) kts) = contains_sub fp_template (print t)).
    { unfold includes_fp. cbn [local_file s_fields existsb snd]. now rewrite orb_false_r. }
    unfold Executor_Model.generate_partition. rewrite Sp.
    assert (B1 : negb (Executor_Model.is_nil (enc kts key)) && Executor_Model.is_nil (enc kts key) = false) by (destruct (Executor_Model.is_nil _); reflexivity).
    assert (B2 : negb (Executor_Model.is_nil (enc kts key)) && negb (negb (Executor_Model.is_nil (enc kts key))) = false) by (destruct (Executor_Model.is_nil _); reflexivity).
    rewrite B1, B2. assert (Tm := seen_templated kts t I).
    assert (Dec : (asks_fp t <-> fp <> None) \/ ~ (asks_fp t <-> fp <> None)).
    { destruct (Graph_Model.st_templated (seen (kts, t))), fp as [z|].
      - left. split; [discriminate|]. intros _. now apply Tm.
      - right. intros [H _]. apply H; [now apply Tm|reflexivity].
      - right. intros [_ H]. assert (false = true) by (apply Tm, H; discriminate). discriminate.
      - left. split; [|congruence]. intro H. assert (false = true) by now apply Tm. discriminate. }
    destruct Dec as [A|A]; [left|right]; (split; [exact A|]).
    - rewrite (seen_asks kts t fp I A), Bool.eqb_reflx. split; [reflexivity|].
      assert (Eu := path_unindex kts t P).
      assert (G : exists path, generate_path other fp key (print t) = Ok path).
      { rewrite (generates other kts fp key t K O); [eauto| |]; rewrite ?Eu; [exact P|exact (proj1 A)]. }
      destruct G as [path G].
      eexists; exists path. split; [|split].
      + unfold generate_partition, get_key_types. cbn [local_file s_key_types bind]. rewrite check_key_ok by exact K.
        cbn [bind]. rewrite Ic.
        assert (Q := seen_asks kts t fp I A). cbn [seen Graph_Model.st_templated snd] in Q. rewrite Q.
        replace (match fp with None => false | Some _ => true end) with (Executor_Model.is_some fp) by now destruct fp.
        rewrite Bool.eqb_reflx. cbn [local_file s_fields mapM snd fst]. rewrite G. reflexivity.
      + reflexivity.
      + split; [exact K|]. split; [exact F|]. split; [exact A|exact G].
    - assert (B : Bool.eqb (Graph_Model.st_templated (seen (kts, t))) (Executor_Model.is_some fp) = false).
      { destruct (Bool.eqb _ _) eqn:B; [|reflexivity]. exfalso. apply A. apply Bool.eqb_prop in B. rewrite <- Tm, B.
        destruct fp; cbn; split; congruence. }
      rewrite B. split; [reflexivity|].
      unfold generate_partition, get_key_types. cbn [local_file s_key_types bind]. rewrite check_key_ok by exact K.
      cbn [bind]. rewrite Ic. cbn [seen Graph_Model.st_templated snd] in B.
      replace (match fp with None => false | Some _ => true end) with (Executor_Model.is_some fp) by now destruct fp.
      assert (B' : Bool.eqb (Executor_Model.is_some fp) (contains_sub fp_template (print t)) = false).
      { destruct (Executor_Model.is_some fp), (contains_sub fp_template (print t)); cbn in *; congruence. }
      now rewrite B'.
  Qed.

  (** ** Discovery *)
  Lemma same_requests : forall kts t fps key, In (kts, t) S -> key_ok kts key -> dict_keys fps ->
    Forall (fun kf => key_ok kts (fst kf)) fps ->
    Executor_Model.get_fp (map (fun kf => (enc kts (fst kf), snd kf)) fps) (enc kts key) = requested fps key.
  Proof.
    intros kts t fps key I K D F. unfold Executor_Model.get_fp, requested.
    assert (E : dget str_eqb (map (fun kf => (enc kts (fst kf), snd kf)) fps) (enc kts key) = dget key_eqb fps key); [|now rewrite E].
    induction fps as [|[k f] fps IH]; [reflexivity|]. inversion D; subst. inversion F; subst. cbn [map dget fst snd] in *.
    rewrite IH by assumption.
    assert (Q : str_eqb (enc kts k) (enc kts key) = key_eqb k key); [|now rewrite Q].
    apply Bool.eq_iff_eq_true. rewrite str_eqb_spec, key_eqb_spec by assumption.
    now apply (proj2 (EN _ _ I k ltac:(assumption))).
  Qed.

  Section Discover.
    Context {V : Type} (E : Executor_Model.env V).
    Context (fs : list (location * str)) (ps : list (str * str)) (R : same_files other enc S fs ps).
    Context (kts : key_types) (t : template) (I : In (kts, t) S).
    Context (fps : list (pkey * option Z)) (DK : dict_keys fps) (FK : Forall (fun kf => key_ok kts (fst kf)) fps).
    Notation file_fp := (Executor_Model.file_fp E).
    Notation fps' := (map (fun kf => (enc kts (fst kf), snd kf)) fps).

    (** A file that both sides find. *)
    Definition found (k : str) (f : option Z) (z : Z) (path : str) : Prop :=
      exists key c, written other kts t f key path /\ k = enc kts key /\ dget str_eqb ps path = Some c /\
        z = file_fp c /\ requested fps key = f.

    Lemma path_side : forall paths, NoDup paths ->
      (forall path, In path paths -> exists fp key c, written other kts t fp key path /\ dget str_eqb ps path = Some c) ->
      exists md l, mapM (fun path => rmap (pair path) (extract_placeholders kts path (print t))) paths = Ok md /\
        mapM (fun pm => bind (generate_partition other (local_file (print t) kts) (fst (snd pm)) (snd (snd pm)))
                             (snapshot file_fp ps))
             (filter (fun pm => opt_eqb (requested fps (snd (snd pm))) (fst (snd pm))) md) = Ok l /\
        NoDup (map (says (enc kts)) l) /\
        forall k f z, In (k, f, z) (map (says (enc kts)) l) <-> exists path, In path paths /\ found k f z path.
    Proof.
      assert (Dt := DS _ _ I).
      induction paths as [|path paths IH]; intros N W.
      - exists [], []. repeat split; try constructor; cbn; try tauto. intros (path & [] & _).
      - inversion N; subst. destruct (IH ltac:(assumption) ltac:(intros; apply W; now right)) as (md & l & E1 & E2 & E3 & E4).
        destruct (W path (or_introl eq_refl)) as (fp & key & c & Wr & Gf).
        destruct (written_found other file_fp kts t fp key path ps c Dt Wr Gf) as (key' & p & X1 & Sk & X2 & Pf & Pk & Pp).
        assert (Ke : enc kts key' = enc kts key).
        { destruct Wr as (K & _). apply (proj2 (EN _ _ I key' (key_ok_same kts key' key Sk K)) key K). exact Sk. }
        cbn [mapM]. rewrite X1. cbn [rmap bind]. rewrite E1. cbn [bind]. eexists; exists (if opt_eqb (requested fps key') fp then (file_fp c, p) :: l else l).
        split; [reflexivity|]. cbn [filter fst snd].
        assert (Rq : requested fps key' = requested fps key) by exact (requested_same fps key' key Sk).
        destruct (opt_eqb (requested fps key') fp) eqn:Q.
        + apply opt_eqb_spec in Q. cbn [mapM fst snd]. rewrite X2. cbn [bind]. rewrite E2. cbn [bind].
          split; [reflexivity|].
          assert (Sy : says (enc kts) (file_fp c, p) = (enc kts key, fp, file_fp c)).
          { unfold says. cbn [fst snd]. now rewrite Pk, Pf, Ke. }
          split.
          * cbn [map]. rewrite Sy. constructor; [|exact E3]. intro Hin. apply E4 in Hin.
            destruct Hin as (path' & Hin & key0 & c0 & W0 & Ek0 & _).
            assert (path = path').
            { destruct (Wr) as (K & _). destruct (W0) as (K0 & _).
              apply (path_once _ _ _ _ _ _ Wr key0); [|exact W0]. apply (proj2 (EN _ _ I key K) key0 K0). exact Ek0. }
            subst path'. contradiction.
          * intros k f z. cbn [map In]. rewrite Sy, E4. split.
            -- intros [X|(path' & Hin & Fd)].
               ++ inversion X; subst. exists path. split; [now left|]. exists key, c. rewrite <- Rq. auto.
               ++ exists path'. split; [now right|exact Fd].
            -- intros (path' & [<-|Hin] & Fd); [left|right; eauto].
               destruct Fd as (key0 & c0 & W0 & -> & G0 & -> & R0).
               destruct (proj2 (path_location _ _ _ _ _ _ _ _ _ _ I I Wr W0) eq_refl) as [].
               assert (Y := proj2 (path_location _ _ _ _ _ _ _ _ _ _ I I Wr W0) eq_refl). inversion Y.
               congruence.
        + split; [exact E2|]. split; [exact E3|]. intros k f z. rewrite E4. split.
          * intros (path' & Hin & Fd). exists path'. split; [now right|exact Fd].
          * intros (path' & [<-|Hin] & Fd); [|eauto]. exfalso.
            destruct Fd as (key0 & c0 & W0 & -> & G0 & -> & R0).
            assert (Y := proj2 (path_location _ _ _ _ _ _ _ _ _ _ I I Wr W0) eq_refl). inversion Y as [[Y1 Y2]].
            rewrite <- Y2 in R0. destruct Wr as (K & _), W0 as (K0 & _).
            assert (Sk0 : same_key key key0) by (apply (proj2 (EN _ _ I key K) key0 K0); exact Y1).
            rewrite Rq, (requested_same fps key key0 Sk0), R0 in Q.
            assert (Q' : opt_eqb fp fp = true) by now apply opt_eqb_spec. congruence.
    Qed.

    Lemma location_side : forall locs, NoDup locs -> (forall l, In l locs -> In l (map fst fs)) ->
      exists l, mapM (fun lk : location => Executor_Model.take_snapshot E fs (Backend_Model.Partition (seen (kts, t)) (snd (fst lk)) (snd lk) None))
          (filter (fun l => Executor_Model.generated_by (seen (kts, t)) l &&
                            Graph_Model.option_eqb Z.eqb (Executor_Model.get_fp fps' (snd (fst l))) (snd l)) locs) = Ok l /\
        NoDup (map said l) /\
        forall k f z, In (k, f, z) (map said l) <-> exists path, In (print t, k, f) locs /\ found k f z path.
    Proof.
      induction locs as [|[[i k0] f0] locs IH]; intros N W.
      - exists []. repeat split; try constructor; cbn; try tauto. intros (path & [] & _).
      - inversion N; subst. destruct (IH ltac:(assumption) ltac:(intros; apply W; now right)) as (l & E1 & E2 & E3).
        destruct (has_path _ _ _ _ _ R i k0 f0 (W _ (or_introl eq_refl))) as (kts' & t' & key & path & I' & Wr & -> & ->).
        cbn [filter fst snd]. destruct (Executor_Model.generated_by _ _ && _) eqn:B.
        + apply andb_true_iff in B. destruct B as [B1 B2]. cbn [Executor_Model.generated_by] in B1.
          apply andb_true_iff in B1. destruct B1 as [B1 _]. apply andb_true_iff in B1. destruct B1 as [B1 _].
          apply str_eqb_spec in B1. cbn [seen Graph_Model.st_id snd] in B1.
          assert (X := proj1 AP (kts', t') (kts, t) I' I B1). inversion X; subst kts' t'. clear X B1.
          assert (Sc := same_contents _ _ _ _ _ R kts t f0 key path I Wr).
          assert (exists c, dget leqb fs (print t, enc kts key, f0) = Some c).
          { destruct (dget leqb fs _) eqn:G; [eauto|]. apply (dget_None leqb leqb_spec) in G.
            exfalso. apply G. apply W. now left. }
          destruct H as [c Gc]. rewrite Gc in Sc. symmetry in Sc.
          assert (Rq : requested fps key = f0).
          { destruct Wr as (K & _). rewrite (same_requests kts t fps key I K DK FK) in B2.
            apply (Graph_Proofs.option_eqb_spec _ _ Z.eqb_eq) in B2. exact B2. }
          set (sn := Backend_Model.PSnapshot (Backend_Model.Partition (seen (kts, t)) (enc kts key) f0 None) (file_fp c)).
          assert (Ts : Executor_Model.take_snapshot E fs (Backend_Model.Partition (seen (kts, t)) (enc kts key) f0 None) = Ok sn).
          { unfold Executor_Model.take_snapshot, Executor_Model.content, Executor_Model.location_of.
            change (match dget leqb fs (print t, enc kts key, f0) with None => Err FileNotFoundError | Some d =>
              Ok (Backend_Model.PSnapshot (Backend_Model.Partition (seen (kts, t)) (enc kts key) f0 None) (file_fp d)) end = Ok sn).
            now rewrite Gc. }
          cbn [mapM fst snd]. rewrite Ts. cbn [bind]. rewrite E1. cbn [bind]. eexists. split; [reflexivity|].
          assert (Sy : said sn = (enc kts key, f0, file_fp c)) by reflexivity.
          assert (Fd : found (enc kts key) f0 (file_fp c) path) by (exists key, c; auto).
          split.
          * cbn [map]. rewrite Sy. constructor; [|exact E2]. intro Hin. apply E3 in Hin. destruct Hin as (p' & Hin & _). contradiction.
          * intros k f z. cbn [map In]. rewrite Sy, E3. split.
            -- intros [X|(p' & Hin & Fd')]; [inversion X; subst; exists path; auto|exists p'; auto].
            -- intros (p' & [X|Hin] & Fd'); [left|right; eauto]. inversion X; subst.
               destruct Fd' as (key' & c' & W' & Ek & G' & -> & _).
               destruct Wr as (K & Wr'), (W') as (K' & _).
               assert (p' = path).
               { apply (path_location _ _ _ _ _ _ _ _ _ _ I I W' (conj K Wr')). now rewrite Ek. }
               subst p'. congruence.
        + exists l. split; [exact E1|]. split; [exact E2|]. intros k f z. rewrite E3. split.
          * intros (p' & Hin & Fd'). exists p'. split; [now right|exact Fd'].
          * intros (p' & [X|Hin] & Fd'); [|eauto]. exfalso. inversion X as [[X1 X2 X3]]. subst f0.
            assert (Y := proj1 AP (kts', t') (kts, t) I' I X1). inversion Y; subst kts' t'.
            destruct Fd' as (key' & c' & W' & -> & G' & -> & Rq).
            apply Bool.andb_false_iff in B. destruct W' as (K' & _ & A' & _).
            destruct B as [B|B].
            -- cbn [Executor_Model.generated_by] in B. rewrite X2, <- (seen_partitioned kts t key' I K'), (seen_asks kts t f I A') in B.
               cbn [seen Graph_Model.st_id snd] in B. rewrite str_eqb_refl, !Bool.eqb_reflx in B. discriminate.
            -- rewrite X2, (same_requests kts t fps key' I K' DK FK), Rq in B.
               assert (Q : Graph_Model.option_eqb Z.eqb f f = true) by now apply (Graph_Proofs.option_eqb_spec _ _ Z.eqb_eq). congruence.
    Qed.

    Lemma same_discovery : exists l l',
      Executor_Model.discover E fs (seen (kts, t)) fps' = Ok l /\
      discover_partitions other file_fp ps (print t) kts fps = Ok l' /\
      Permutation (map said l) (map (says (enc kts)) l').
    Proof.
      assert (Dt := DS _ _ I). assert (Dt' := Dt). destruct Dt' as (P & _ & _ & N & _).
      assert (Ew := wildcard_path other kts t P N).
      destruct (location_side (map fst fs) (locations_once _ _ _ _ _ R) (fun _ H => H)) as (l & E1 & E2 & E3).
      destruct (path_side (glob ps (wild t))) as (md & l' & F0 & F1 & F2 & F3).
      { unfold glob. apply NoDup_filter. exact (paths_once _ _ _ _ _ R). }
      { intros path Hin. unfold glob in Hin. apply filter_In in Hin. destruct Hin as [Hin M].
        destruct (has_location _ _ _ _ _ R kts t path _ I Hin Ew M) as (fp & key & Wr).
        destruct (dget str_eqb ps path) as [c|] eqn:G; [eauto 6|]. apply (dget_None str_eqb str_eqb_spec) in G. contradiction. }
      exists l, l'. split; [|split].
      - unfold Executor_Model.discover. cbn [seen Graph_Model.st_kind]. exact E1.
      - unfold discover_partitions. rewrite Ew. cbn [bind]. unfold parse_spec. rewrite F0. cbn [rmap bind]. exact F1.
      - apply NoDup_Permutation; [exact E2|exact F2|]. intros [[k f] z]. rewrite E3, F3. split.
        + intros (path & Hin & Fd). exists path. split; [|exact Fd].
          destruct Fd as (key & c & Wr & -> & G & _). unfold glob. apply filter_In. split.
          * apply (dget_Some_key str_eqb str_eqb_spec) in G. exact G.
          * destruct (matches_own _ _ _ _ _ I Wr) as (w & Ew' & M). rewrite Ew in Ew'. now inversion Ew'; subst.
        + intros (path & Hin & Fd). exists path. split; [|exact Fd].
          destruct Fd as (key & c & Wr & -> & G & _).
          assert (Sc := same_contents _ _ _ _ _ R kts t f key path I Wr). rewrite G in Sc.
          apply (dget_Some_key leqb leqb_spec) in Sc. exact Sc.
    Qed.
  End Discover.
End Locations.

(** * An encoding exists *)

Lemma py_str_no_semi : forall z, ~ In ";"%char (py_str z).
Proof.
  intros z. rewrite py_str_pad. destruct (pad_text 0 z) as [(c & r & -> & Hc & F) _].
  intros [E|Hin]; [subst c; cbn in Hc; intuition discriminate|].
  rewrite Forall_forall in F. specialize (F _ Hin). cbn in F. intuition discriminate.
Qed.

Lemma semi_split : forall a b r r', py_str a ++ $";" ++ r = py_str b ++ $";" ++ r' -> a = b /\ r = r'.
Proof.
  intros a b r r' E. destruct (Resolve_Proofs.app_stop ";"%char (py_str a) (py_str b) r r' (py_str_no_semi a) (py_str_no_semi b) E) as [Ea Er].
  split; [|exact Er]. now apply py_str_inj.
Qed.

Lemma field_text_inj : forall f g r r', class_of f = class_of g ->
  field_text f ++ r = field_text g ++ r' -> f = g /\ r = r'.
Proof.
  intros f g r r' C E. destruct f as [y m d|w z|], g as [y' m' d'|w' z'|]; try discriminate C; unfold field_text in E.
  - rewrite <- !app_assoc in E. apply app_inv_head in E. apply semi_split in E. destruct E as [-> E].
    apply semi_split in E. destruct E as [-> E]. apply semi_split in E. destruct E as [-> ->]. auto.
  - rewrite <- !app_assoc in E. apply app_inv_head in E. apply semi_split in E. destruct E as [-> ->]. inversion C. auto.
  - apply app_inv_head in E. auto.
Qed.

Lemma field_text_cons : forall f, exists c r, field_text f = c :: r.
Proof. intros [y m d|w z|]; cbn; eauto. Qed.

Lemma key_text_encodes : forall S, encodes key_text S.
Proof.
  intros S kts t _ a Ka. split.
  - assert (C := check_key_ok kts a Ka). split; intro E.
    + destruct kts as [|[n c] kts]; [destruct a; [reflexivity|discriminate]|]. exfalso.
      unfold key_text in E. cbn [flat_map fst] in E. apply app_eq_nil in E. destruct E as [E _].
      assert (M : dmem str_eqb a n = true).
      { rewrite (proj1 Ka). unfold dmem. cbn [dget]. now rewrite str_eqb_refl. }
      unfold dmem in M. destruct (dget str_eqb a n) as [f|]; [|discriminate].
      destruct (field_text_cons f) as (x & r & Ex). congruence.
    + subst a. destruct kts; [reflexivity|discriminate].
  - intros b Kb. split; intro E.
    + assert (Q : forall l, (forall nc, In nc l -> dmem str_eqb kts (fst nc) = true) -> key_text l a = key_text l b ->
        forall nc, In nc l -> dget str_eqb a (fst nc) = dget str_eqb b (fst nc)).
      { clear E. induction l as [|[n c] l IH]; intros Hl E nc Hin; [destruct Hin|].
        unfold key_text in E. cbn [flat_map fst] in E. fold (key_text l a) in E. fold (key_text l b) in E.
        assert (M : dmem str_eqb kts n = true) by (apply (Hl (n, c)); now left).
        assert (Ma := proj1 Ka n). assert (Mb := proj1 Kb n). rewrite M in Ma, Mb. unfold dmem in Ma, Mb.
        destruct (dget str_eqb a n) as [f|] eqn:Ga; [|discriminate].
        destruct (dget str_eqb b n) as [g|] eqn:Gb; [|discriminate].
        destruct (proj2 Ka _ _ Ga) as [_ C1]. destruct (proj2 Kb _ _ Gb) as [_ C2].
        destruct (field_text_inj f g (key_text l a) (key_text l b)) as [-> Er]; [congruence|exact E|].
        destruct Hin as [<-|Hin]; [cbn [fst]; congruence|]. apply IH; [|exact Er|exact Hin]. intros nc' H'. apply Hl. now right. }
      intro n. destruct (dmem str_eqb kts n) eqn:M.
      * assert (exists c, In (n, c) kts).
        { unfold dmem in M. destruct (dget str_eqb kts n) as [c|] eqn:G; [|discriminate].
          apply (dget_In str_eqb str_eqb_spec) in G. eauto. }
        destruct H as [c Hc]. refine (Q kts _ E (n, c) Hc). intros [m c'] Hm. unfold dmem. cbn [fst].
        destruct (dget str_eqb kts m) eqn:G; [reflexivity|]. apply (dget_None str_eqb str_eqb_spec) in G.
        exfalso. apply G. apply in_map_iff. exists (m, c'). auto.
      * assert (Ma := proj1 Ka n). assert (Mb := proj1 Kb n). rewrite M in Ma, Mb. unfold dmem in Ma, Mb.
        destruct (dget str_eqb a n); [discriminate|]. now destruct (dget str_eqb b n).
    + unfold key_text. clear -E. induction kts as [|nc kts IH]; [reflexivity|]. cbn [flat_map]. now rewrite IH, E.
Qed.

(** * Different directories are apart *)

Lemma split_directory : forall dirs s, Forall (avoids $"/*?") dirs ->
  split_char "/"%char (directory dirs ++ s) = dirs ++ split_char "/"%char s.
Proof.
  intros dirs s F. induction F as [|d dirs Hd F IH]; [reflexivity|].
  unfold directory. cbn [flat_map]. fold (directory dirs). rewrite <- !app_assoc.
  assert (Q : forall x r, ~ In "/"%char x -> split_char "/"%char (x ++ "/"%char :: r) = x :: split_char "/"%char r).
  { clear. induction x as [|c x IHx]; intros r N; [reflexivity|]. cbn [app split_char].
    destruct (Ascii.eqb_spec c "/"%char) as [->|Nc]; [exfalso; apply N; now left|].
    rewrite IHx by (intro; apply N; now right). reflexivity. }
  change ($"/" ++ directory dirs ++ s) with ("/"%char :: directory dirs ++ s). rewrite Q; [now rewrite IH|].
  apply (Resolve_Proofs.avoids_not_in $"/*?" d "/"%char Hd). now left.
Qed.

Lemma fnmatch_literal : forall p s, avoids $"/*?" p -> fnmatch p s = true -> p = s.
Proof.
  induction p as [|c p IH]; intros s A M; [destruct s; [reflexivity|discriminate]|].
  inversion A as [|? ? Nc A']; subst. cbn [fnmatch] in M.
  destruct (Ascii.eqb_spec c "*"%char) as [->|N1]; [exfalso; apply Nc; right; now left|].
  destruct s as [|d s]; [discriminate|]. apply andb_true_iff in M. destruct M as [M1 M2].
  destruct (Ascii.eqb_spec c "?"%char) as [->|N2]; [exfalso; apply Nc; right; right; now left|].
  cbn [orb] in M1. apply Ascii.eqb_eq in M1. subst d. now rewrite (IH s A' M2).
Qed.

Lemma match_differ : forall ds ds' rs rs', Forall (avoids $"/*?") ds' -> differ ds ds' ->
  match_segments (ds' ++ rs') (ds ++ rs) = false.
Proof.
  intros ds ds' rs rs' F (i & a & b & Ha & Hb & N). revert ds ds' F Ha Hb.
  induction i as [|i IH]; intros [|x ds] [|y ds'] F Ha Hb; try discriminate; cbn [app match_segments].
  - cbn in Ha, Hb. inversion Ha; inversion Hb; subst. destruct (match_segment b a) eqn:M; [|reflexivity].
    exfalso. unfold match_segment in M. apply andb_true_iff in M. destruct M as [M _].
    apply fnmatch_literal in M; [congruence|]. now inversion F.
  - cbn in Ha, Hb. inversion F; subst. rewrite (IH ds ds') by assumption. apply andb_false_r.
Qed.

Lemma directory_path : forall other kts t fp key path dirs t', t = TLit (directory dirs) :: t' ->
  path_template kts t -> generate_path other fp key (print t) = Ok path -> exists r, path = directory dirs ++ r.
Proof.
  intros other kts t fp key path dirs t' -> P G. assert (O := path_template_ok kts _ P). assert (Eu := path_unindex kts _ P).
  apply generated in G; [|exact O|now rewrite Eu]. rewrite Eu in G. destruct G as [-> _].
  unfold path_of. cbn [flat_map]. eauto.
Qed.

Lemma apart_directories : forall other S dirs,
  (forall x, In x S -> discoverable (fst x) (snd x) /\ in_directory (dirs x) (snd x)) ->
  (forall x y, In x S -> In y S -> x = y \/ differ (dirs x) (dirs y)) -> apart other S.
Proof.
  intros other S dirs D A. split.
  - intros x y Ix Iy E. destruct (A x y Ix Iy) as [Q|Q]; [exact Q|]. exfalso.
    destruct (D x Ix) as (_ & Fx & tx & Ex). destruct (D y Iy) as (_ & Fy & ty & Ey).
    rewrite Ex, Ey in E. unfold print in E. cbn [flat_map print_tok] in E.
    assert (E' := f_equal (split_char "/"%char) E). rewrite !split_directory in E' by assumption.
    destruct Q as (i & a & b & Ha & Hb & N).
    assert (X : nth_error (dirs x ++ split_char "/"%char (flat_map print_tok tx)) i = Some a).
    { rewrite nth_error_app1; [exact Ha|]. apply nth_error_Some. congruence. }
    rewrite E', nth_error_app1 in X by (apply nth_error_Some; congruence). congruence.
  - intros kts t kts' t' fp key path w I I' (K & _ & _ & G) Ew M.
    destruct (A _ _ I I') as [Q|Q]; [exact Q|]. exfalso.
    destruct (D _ I) as ((P & _) & F & tx & Ex). destruct (D _ I') as ((P' & _ & _ & N' & _) & F' & ty & Ey). cbn [fst snd] in *.
    destruct (directory_path _ _ _ _ _ _ _ _ Ex P G) as [r ->].
    rewrite (wildcard_path other kts' t' P' N') in Ew. inversion Ew; subst w.
    unfold glob_match in M. rewrite Ey in M. unfold wild in M. cbn [flat_map] in M.
    rewrite !split_directory in M by assumption. rewrite match_differ in M; [discriminate|exact F'|exact Q].
Qed.
