(** Lemmas about reading and writing by hand. *)
From Coq Require Import ZArith List Ascii String Bool Arith Lia.
From Verif Require Import Base Base_Proofs Str Str_Proofs Graph_Model Graph_Spec Graph_Proofs Backend_Model Backend_Spec Backend_Proofs.
From Verif Require Import Executor_Model Executor_Spec Executor_Proofs Executor_Done_Proofs Executor_Build_Proofs Executor_Write_Proofs
  Executor_Store_Proofs Executor_Id_Proofs Executor_Crash_Proofs Executor_New_Proofs Access_Model Access_Spec.
Import ListNotations.
Open Scope list_scope.

Section Access.
  Context {V W N : Type} (E : env V) (X : views V W N).
  Notation state := (state V).

  Lemma key_of_unknown : forall g a, ~ In a (map snd (g_arts g)) -> key_of g a = Err KeyError.
  Proof.
    intros g a H. destruct (key_of g a) as [k|e] eqn:K.
    - apply key_of_In in K. destruct H. apply in_map_iff. now exists (k, a).
    - unfold key_of in K. destruct (dget artifact_eqb _ a); congruence.
  Qed.
  Lemma key_of_known : forall g a, In a (map snd (g_arts g)) -> exists key, key_of g a = Ok key.
  Proof. intros g a H. apply in_map_iff in H. destruct H as ([k b] & <- & I). eapply key_of_defined, I. Qed.

  (** * Reading *)
  Theorem read_unknown : forall g a n w sn parts (s : state), ~ In a (map snd (g_arts g)) -> read E X g a n w sn parts s = (s, Err KeyError).
  Proof. intros g a n w sn parts s H. unfold read, andthen, ret. now rewrite key_of_unknown. Qed.
  Theorem read_choice : forall g a n w sn parts (s : state), In a (map snd (g_arts g)) -> (n = None <-> w = None) ->
    read E X g a n w sn parts s = (s, Err ValueError).
  Proof.
    intros g a n w sn parts s H C. destruct (key_of_known _ _ H) as (key & K). unfold read, andthen, ret. rewrite K.
    destruct n as [n|], w as [w|]; try reflexivity; exfalso; [now destruct C as [_ C]; specialize (C eq_refl)|now destruct C as [C _]; specialize (C eq_refl)].
  Qed.
  Theorem read_annotated : forall g a n w sn parts (s : state), suits X false n a w ->
    read E X g a (Some n) None sn parts s = read E X g a None (Some w) sn parts s.
  Proof.
    intros g a n w sn parts s (H1 & H2 & H3). unfold read, andthen, ret, reading_view. destruct (key_of g a); [|reflexivity]. rewrite H1. cbn [bind]. rewrite H2. cbn [bind]. now rewrite H3.
  Qed.
  Theorem read_unsuited : forall g a n sn parts (s : state), (forall w, ~ suits X false n a w) ->
    exists e, read E X g a (Some n) None sn parts s = (s, Err e).
  Proof.
    intros g a n sn parts s H. unfold read, andthen, ret, reading_view. destruct (key_of g a); [|eauto].
    destruct (view_for X false n a) as [w|e] eqn:H1; cbn [bind]; [|eauto]. destruct (fits_annotation X w n) as [[]|e] eqn:H2; cbn [bind]; [|eauto].
    destruct (fits_artifact X w a) as [[]|e] eqn:H3; cbn [bind]; [|eauto]. destruct (H w). now split.
  Qed.

  Lemma io_read_gives : forall w a parts (s s' : state) r, io_read (through E X w) a parts s = (s', r) -> s' = s /\ forall v, r = Ok v <-> gives X s w a parts v.
  Proof.
    intros w a parts s s' r H. unfold io_read in H. injection H as <- <-. split; [reflexivity|]. intro v. unfold gives.
    destruct parts as [|x parts]; [split; [discriminate|intros (C & _); now destruct C]|]. set (l := x :: parts).
    change (load (through E X w) a) with (decode X w a).
    destruct ((1 <? List.length l) && negb (st_partitioned (a_storage a))) eqn:Q.
    { split; [discriminate|]. intros (_ & [C|C] & _); apply andb_true_iff in Q; destruct Q as [Q1 Q2].
      - apply Nat.ltb_lt in Q1. lia.
      - rewrite C in Q2. discriminate. }
    assert (LEN : List.length l <= 1 \/ st_partitioned (a_storage a) = true).
    { apply andb_false_iff in Q. destruct Q as [Q|Q]; [left; now apply Nat.ltb_ge|right; now apply negb_false_iff]. }
    split.
    - intro R. split; [discriminate|]. split; [exact LEN|]. destruct (mapM _ l) as [ds|e] eqn:MM; [|discriminate]. cbn [bind] in R.
      exists ds. split; [|exact R]. apply mapM_Forall2 in MM. eapply Forall2_impl; [|exact MM]. intros y c C. apply holds_content. cbn in C.
      destruct (content (files s) (ps_part y)); congruence.
    - intros (_ & _ & ds & F & D). assert (MM : mapM (fun x => match content (files s) (ps_part x) with Some d => Ok d
        | None => Err (match st_kind (pt_storage (ps_part x)) with SFile => FileNotFoundError | SLiteral _ => AssertionError end) end) l = Ok ds).
      { clear - F. induction F as [|y d l ds H F IH]; [reflexivity|]. apply holds_content in H. cbn [mapM]. rewrite H. cbn [bind]. now rewrite IH. }
      now rewrite MM.
  Qed.
  Lemma io_read_nothing : forall w a (s : state), io_read (through E X w) a [] s = (s, Err FileNotFoundError).
  Proof. reflexivity. Qed.

  Theorem read_raw : forall g a w (s s' : state) r, a_output a = None -> In a (map snd (g_arts g)) -> read E X g a None (Some w) None None s = (s', r) ->
    s' = s /\ forall v, r = Ok v -> exists parts, (forall x, In x parts <-> raw_found E s (a_storage a) x) /\
      (NoDup (map fst (files s)) -> NoDup parts) /\ gives X s w a parts v.
  Proof.
    intros g a w s s' r O I H. destruct (key_of_known _ _ I) as (key & K). unfold read, andthen, ret in H. rewrite K in H. cbn [reading_view partitions_to_read] in H. rewrite O in H.
    assert (D := discover_raw E s (a_storage a)). destruct (discover E (files s) (a_storage a) []) as [parts|e] eqn:DC.
    - apply io_read_gives in H. destruct H as (-> & H). split; [reflexivity|]. intros v R. exists parts. split; [exact D|]. split; [|now apply H].
      intro ND. exact (discover_NoDup E _ _ _ ND DC).
    - injection H as <- <-. split; [reflexivity|discriminate].
  Qed.
  Lemma discover_single : forall (s : state) t, st_kind t = SFile -> st_partitioned t = false -> st_templated t = false -> NoDup (map fst (files s)) ->
    discover E (files s) t [] = Ok (match dget location_eqb (files s) (st_id t, [], None) with
                                    | Some d => [PSnapshot (Partition t [] None None) (file_fp E d)] | None => [] end).
  Proof.
    intros s t K P T ND. assert (D := discover_raw E s t). destruct (discover E (files s) t []) as [parts|e] eqn:DC.
    - assert (NP := discover_NoDup E _ _ _ ND DC). f_equal. unfold raw_found in D. rewrite K in D.
      destruct (dget location_eqb (files s) (st_id t, [], None)) as [d|] eqn:G.
      + assert (U : forall x, In x parts <-> x = PSnapshot (Partition t [] None None) (file_fp E d)).
        { intro x. rewrite D. split.
          - intros (_ & k & d' & G' & PK & ->). rewrite P in PK. destruct k; [|discriminate]. assert (Q := eq_trans (eq_sym G') G). now injection Q as ->.
          - intros ->. split; [exact T|]. exists [], d. split; [exact G|]. split; [exact P|reflexivity]. }
        destruct parts as [|x parts]; [destruct (proj2 (U _) eq_refl)|]. assert (x = PSnapshot (Partition t [] None None) (file_fp E d)) by (apply U; now left). subst x.
        destruct parts as [|y parts]; [reflexivity|]. exfalso. inversion NP as [|? ? NI _]; subst. apply NI.
        rewrite <- (proj1 (U y) (or_intror (or_introl eq_refl))). now left.
      + destruct parts as [|x parts]; [reflexivity|]. exfalso. destruct (proj1 (D x) (or_introl eq_refl)) as (_ & k & d & G' & PK & _).
        rewrite P in PK. destruct k; [|discriminate]. assert (Q := eq_trans (eq_sym G') G). discriminate.
    - exfalso. clear D. unfold discover in DC. rewrite K in DC.
      assert (F : forall ls, incl ls (map fst (files s)) -> mapM (fun lk => take_snapshot E (files s) (Partition t (snd (fst lk)) (snd lk) None))
        (filter (fun l => generated_by t l && option_eqb Z.eqb (get_fp [] (snd (fst l))) (snd l)) ls) <> Err e); [|now apply F in DC; [|apply incl_refl]].
      clear DC. induction ls as [|[[i k] f] ls IH]; intros IN; cbn [filter]; [discriminate|]. assert (IN' : incl ls (map fst (files s))) by (intros z Z; apply IN; now right).
      destruct (generated_by t (i, k, f) && option_eqb Z.eqb (get_fp [] (snd (fst (i, k, f)))) (snd (i, k, f))) eqn:Q; [|now apply IH].
      apply andb_true_iff in Q. destruct Q as [Q _]. cbn in Q. apply andb_true_iff in Q. destruct Q as [Q _]. apply andb_true_iff in Q. destruct Q as [Q _]. apply str_eqb_spec in Q. subst i.
      cbn [mapM]. unfold take_snapshot at 1, content. cbn [pt_storage]. rewrite K. unfold location_of. cbn [pt_storage pt_key pt_fp fst snd].
      destruct (dget location_eqb (files s) (st_id t, k, f)) eqn:G.
      + cbn [bind]. intro Q. destruct (mapM _ _) as [ys|e'] eqn:MM; [discriminate|]. apply (IH IN'). exact Q.
      + apply (dget_None _ location_eqb_spec) in G. destruct G. apply IN. now left.
  Qed.
  Theorem read_raw_file : forall g a w (s : state), In a (map snd (g_arts g)) -> a_output a = None ->
    st_kind (a_storage a) = SFile -> st_partitioned (a_storage a) = false -> st_templated (a_storage a) = false -> NoDup (map fst (files s)) ->
    read E X g a None (Some w) None None s = (s, match dget location_eqb (files s) (place a None []) with Some d => decode X w a [d] | None => Err FileNotFoundError end).
  Proof.
    intros g a w s I O K P T ND. destruct (key_of_known _ _ I) as (key & KO). unfold read, andthen, ret. rewrite KO. cbn [reading_view partitions_to_read]. rewrite O.
    rewrite discover_single by assumption.
    assert (PE : dget location_eqb (files s) (place a None []) = dget location_eqb (files s) (st_id (a_storage a), [], None)) by reflexivity. rewrite PE. clear PE.
    destruct (dget location_eqb (files s) (st_id (a_storage a), [], None)) as [d|] eqn:G; [|reflexivity].
    unfold io_read. cbn [List.length Nat.ltb Nat.leb andb mapM ps_part]. unfold content. cbn [pt_storage]. rewrite K. unfold location_of. cbn [pt_storage pt_key pt_fp].
    match goal with |- context [dget location_eqb (files s) ?l] => replace (dget location_eqb (files s) l) with (Some d) by (symmetry; exact G) end. reflexivity.
  Qed.

  (** What a snapshot has. *)
  Lemma read_step : forall g a key w sn parts (s : state), key_of g a = Ok key ->
    read E X g a None (Some w) sn parts s = match partitions_to_read E g key a sn parts s with (s1, Ok l) => io_read (through E X w) a l s1 | (s1, Err e) => (s1, Err e) end.
  Proof. intros g a key w sn parts s K. unfold read, andthen, ret. now rewrite K. Qed.
  Theorem read_linked : iterates E -> forall g a w x (s s' : state) r, fuel s = None -> In a (map snd (g_arts g)) ->
    read E X g a None (Some w) (Some x) None s = (s', r) ->
    files s' = files s /\ (forall sn' k y, linked s' sn' k y <-> linked s sn' k y) /\ (forall t y, recorded s' t y <-> recorded s t y) /\
    exists key, last_key (g_arts g) a key /\ ((forall y, ~ linked s x key y) -> r = Err FileNotFoundError) /\
      forall v, r = Ok v -> exists parts, (forall y, In y parts <-> linked s x key y) /\ gives X s w a parts v.
  Proof.
    intros IT g a w x s s' r F I H. destruct (key_of_known _ _ I) as (key & K). rewrite (read_step _ _ _ _ _ _ _ K) in H.
    destruct (partitions_to_read E g key a (Some x) None s) as [s1 [l|e]] eqn:R.
    - assert (R' : read_links E x key s = (s1, Ok l)).
      { revert R. unfold partitions_to_read. destruct (a_output a); unfold andthen, ret; auto. }
      clear R. apply read_links_ok in R'. destruct R' as (-> & RL & _ & RK & RF).
      assert (Q := io_read_gives _ _ _ _ _ _ H). destruct Q as (-> & Q).
      split; [exact RF|]. split; [intros; now rewrite !linked_links, RL|]. split; [intros t y; unfold recorded; now rewrite RK|].
      exists key. split; [now apply key_of_last|]. split.
      + intro NO. destruct (iter_set E (links_of (db s) x key)) as [|y l] eqn:EM.
        * unfold io_read in H. injection H as <-. reflexivity.
        * exfalso. apply (NO y). apply linked_links. apply IT. rewrite EM. now left.
      + intros v Rv. exists (iter_set E (links_of (db s) x key)). split; [intro y; now rewrite linked_links, (IT _ y)|].
        apply Q in Rv. destruct Rv as (G1 & G2 & ds & G3 & G4). split; [exact G1|]. split; [exact G2|]. exists ds. split; [|exact G4].
        eapply Forall2_impl; [|exact G3]. intros y d HD. apply holds_content. apply holds_content in HD. now rewrite RF in HD.
    - exfalso. revert R. unfold partitions_to_read. unfold read_links, effect.
      destruct (a_output a); unfold andthen, ret; rewrite tick_none by exact F; destruct (read_snapshot_partitions (db s) x key); discriminate.
  Qed.

  (** A snapshot taken while reading. *)
  Lemma from_graph_links : forall g (s s' : state) sn sn' a key, NoDup (map fst (g_arts g)) -> key_of g a = Ok key -> a_output a <> None ->
    from_graph E g s = (s', Ok sn) -> links_of (db s') sn' key = links_of (db s) sn' key.
  Proof.
    intros g s s' sn sn' a key ND K O H. unfold from_graph in H. apply andthen_ok in H. destruct H as (s1 & found & H1 & H). injection H1 as <- H1.
    apply andthen_ok in H. destruct H as (s2 & u2 & H2 & H). apply effect_ok in H2. destruct H2 as (sa & _ & Da & _ & H2). injection H2 as <-.
    apply andthen_ok in H. destruct H as (s3 & u3 & H3 & H). apply effect_ok in H3. destruct H3 as (sb & _ & Db & _ & H3). injection H3 as <-.
    apply andthen_ok in H. destruct H as (s4 & u4 & H4 & H). apply ret_ok in H. destruct H as [-> _].
    assert (L0 : links (db sb) = links (db s)). { cbn [with_db db] in Db. rewrite Db, Da. unfold write_graph. now destruct (touch str_eqb (graphs (db s)) (g_name g) []). }
    set (sn0 := Snapshot (fst found) g) in *.
    assert (F : forall kap, In kap (snd found) -> fst (fst kap) <> key).
    { assert (FK : forall l acc acc', visit_all E g (files s) acc l = Ok acc' ->
        (forall kap, In kap (snd acc) -> key_of g (snd (fst kap)) = Ok (fst (fst kap)) /\ a_output (snd (fst kap)) = None) ->
        forall kap, In kap (snd acc') -> key_of g (snd (fst kap)) = Ok (fst (fst kap)) /\ a_output (snd (fst kap)) = None).
      { clear. induction l as [|n l IH]; intros acc acc' H A; cbn [visit_all] in H; [now injection H as <-|].
        destruct (visit E g (files s) acc n) as [acc1|] eqn:VS; [|discriminate]. cbn [bind] in H. apply (IH _ _ H). clear H IH.
        unfold visit in VS. destruct n as [b|q]; [|injection VS as <-; exact A]. destruct (key_of g b) as [kb|] eqn:KB; [|discriminate]. cbn [bind] in VS.
        destruct (a_output b) eqn:OB; [injection VS as <-; exact A|]. destruct (discover E (files s) (a_storage b) []) as [parts|]; [|discriminate]. cbn [bind] in VS.
        destruct parts as [|x parts]; [discriminate|]. injection VS as <-. cbn [snd]. intros kap I. apply in_app_iff in I. destruct I as [I|[<-|[]]]; [now apply A|]. now split. }
      intros kap I Q. destruct (FK _ _ _ H1 (fun _ B => False_ind _ B) kap I) as [K' O']. rewrite Q in K'. assert (snd (fst kap) = a) by (eapply key_inj; eauto). congruence. }
    assert (EL : forall l (s s' : state) u, (forall kap, In kap l -> fst (fst kap) <> key) ->
      eachM (fun kap => _ <- write_known (a_storage (snd (fst kap))) (snd kap) ;; write_links sn0 (fst (fst kap)) (snd kap)) l s = (s', Ok u) ->
      links_of (db s') sn' key = links_of (db s) sn' key).
    { clear. induction l as [|kap l IH]; intros s s' u F H; cbn [eachM] in H; [now injection H as <- _|].
      apply andthen_ok in H. destruct H as (s1 & u1 & H1 & H). rewrite (IH _ _ _ (fun y I => F y (or_intror I)) H).
      apply andthen_ok in H1. destruct H1 as (s2 & u2 & H2 & H3). apply effect_ok in H2. destruct H2 as (sa & _ & Da & _ & H2). injection H2 as <-.
      apply write_links_ok in H3. destruct H3 as [H3 _]. rewrite H3, wl_links. cbn [with_db db].
      destruct (str_eqb (fst (fst kap)) key) eqn:Q; [apply str_eqb_spec in Q; now destruct (F kap (or_introl eq_refl))|]. rewrite andb_false_r.
      destruct (wa_other (db sa) (a_storage (snd (fst kap))) (snd kap)) as (_ & _ & WL & _). unfold links_of. now rewrite WL, Da. }
    rewrite (EL _ _ _ _ F H4). cbn [with_db db]. unfold write_snapshot. destruct (touch str_eqb (snapshots (db sb)) (g_name (s_graph sn0)) []).
    unfold links_of. cbn [links]. now rewrite L0.
  Qed.
  Lemma from_graph_failed : forall g (s s' : state) e, fuel s = None -> from_graph E g s = (s', Err e) -> s' = s.
  Proof.
    intros g s s' e F H. unfold from_graph, andthen at 1 in H.
    destruct (visit_all E g (files s) (graph_fp E g, []) (map fst (dependencies (g_arts g)))) as [acc|e'] eqn:VA; [|now injection H as <- _]. exfalso. revert H.
    unfold andthen at 1. unfold effect at 1. unfold andthen at 1. rewrite tick_none by exact F. unfold andthen at 1. unfold effect at 1. unfold andthen at 1.
    rewrite tick_none by exact F. unfold andthen at 1.
    match goal with |- context [eachM ?f0 (snd acc) ?s0] => set (f := f0); set (s2 := s0) end.
    assert (EE : exists s3, eachM f (snd acc) s2 = (s3, Ok tt) /\ fuel s3 = None).
    { apply no_fuel_each; [|exact F]. intros kap s1 F1. unfold f, andthen, write_known, write_links, effect, andthen. rewrite (tick_none s1) by exact F1.
      rewrite (tick_none (with_db s1 _)) by exact F1. eexists. split; [reflexivity|exact F1]. }
    destruct EE as (s3 & E3 & _). rewrite E3. cbn [ret]. discriminate.
  Qed.
  Theorem read_produced : iterates E -> forall g a w (s s' : state) r, fuel s = None -> NoDup (map fst (g_arts g)) -> In a (map snd (g_arts g)) -> a_output a <> None ->
    read E X g a None (Some w) None None s = (s', r) ->
    files s' = files s /\
    ((exists e, from_graph E g s = (s', Err e) /\ r = Err e) \/
     exists s1 sn key, from_graph E g s = (s1, Ok sn) /\ last_key (g_arts g) a key /\
       (forall sn' k y, linked s' sn' k y <-> linked s1 sn' k y) /\ (forall t y, recorded s' t y <-> recorded s1 t y) /\
       ((forall y, ~ linked s sn key y) -> r = Err FileNotFoundError) /\
       forall v, r = Ok v -> exists parts, (forall y, In y parts <-> linked s sn key y) /\ gives X s w a parts v).
  Proof.
    intros IT g a w s s' r F ND I O H. destruct (key_of_known _ _ I) as (key & K). rewrite (read_step _ _ _ _ _ _ _ K) in H.
    destruct (from_graph E g s) as [s1 [sn|e]] eqn:FG.
    - assert (F1 := from_graph_fuel E _ _ _ _ F FG). assert (F2 : files s1 = files s) by (apply snapshot_records in FG; tauto).
      assert (R : read E X g a None (Some w) (Some sn) None s1 = (s', r)).
      { rewrite (read_step _ _ _ _ _ _ _ K). rewrite <- H. unfold partitions_to_read. destruct (a_output a); [|congruence]. unfold andthen, ret. now rewrite FG. }
      destruct (read_linked IT _ _ _ _ _ _ _ F1 I R) as (R1 & R2 & R3 & key' & LK & R4 & R5). apply key_of_last in LK. assert (key' = key) by congruence. subst key'.
      assert (LS : forall y, linked s1 sn key y <-> linked s sn key y) by (intro y; rewrite !linked_links; now rewrite (from_graph_links _ _ _ _ sn _ _ ND K O FG)).
      split; [congruence|]. right. exists s1, sn, key. split; [reflexivity|]. split; [now apply key_of_last|]. split; [exact R2|]. split; [exact R3|]. split.
      + intro NO. apply R4. intros y L. apply (NO y). now apply LS.
      + intros v Rv. destruct (R5 v Rv) as (parts & P1 & P2 & P3 & ds & P4 & P5). exists parts. split; [intro y; rewrite P1; apply LS|]. split; [exact P2|]. split; [exact P3|].
        exists ds. split; [|exact P5]. eapply Forall2_impl; [|exact P4]. intros y d HD. apply holds_content. apply holds_content in HD. congruence.
    - assert (Q : (s', r) = (s1, Err e)).
      { rewrite <- H. unfold partitions_to_read. destruct (a_output a); [|congruence]. unfold andthen, ret. now rewrite FG. }
      injection Q as -> ->. split; [|left; exists e; now split].
      now rewrite (from_graph_failed _ _ _ _ F FG).
  Qed.

  (** * Writing *)
  Lemma writing_view_spec : forall v a view w, writing_view X v a view = Ok w <-> writes_with X v a view w.
  Proof.
    intros v a view w. unfold writing_view, writes_with. split.
    - destruct (match view with Some w' => Ok w' | None => view_for X true (type_of X v) a end) as [w0|] eqn:Q; [|discriminate]. cbn [bind].
      destruct (fits_annotation X w0 (type_of X v)) as [[]|] eqn:Q1; [|discriminate]. cbn [bind]. destruct (fits_artifact X w0 a) as [[]|] eqn:Q2; [|discriminate]. cbn [bind].
      intro H. injection H as <-. split; [|now split]. destruct view; [now injection Q as <-|exact Q].
    - intros (H1 & H2 & H3). destruct view as [w'|]; [subst w'|rewrite H1]; cbn [bind]; rewrite H2; cbn [bind]; now rewrite H3.
  Qed.
  Lemma well_addressed_spec : forall a f k, well_addressed a f k <-> exists p, generate_partition (a_storage a) f k = Ok p.
  Proof.
    intros a f k. unfold well_addressed, generate_partition. destruct (st_partitioned (a_storage a)), k as [|c k], (st_templated (a_storage a)), f as [f|]; cbn;
      (split; [intros [H1 H2]; try (eexists; reflexivity); exfalso|intros (p & H); try discriminate; split; split; intro; congruence]);
      first [apply (proj1 H1); reflexivity|apply (proj1 H2); reflexivity|assert (Q := proj2 H1 ltac:(discriminate)); discriminate|assert (Q := proj2 H2 ltac:(discriminate)); discriminate].
  Qed.
  Lemma io_write_eval : forall w a v p (s : state), fuel s = None -> pt_value p = match st_kind (pt_storage p) with SLiteral c => c | SFile => None end ->
    io_write (through E X w) a v p s =
    match st_kind (pt_storage p), encode X w a v with
    | SFile, Err e => (with_file s (location_of p) [], Err e)
    | SFile, Ok d => (with_log (with_file (with_file s (location_of p) []) (location_of p) d) (Wrote (location_of p) d), Ok (PSnapshot p (file_fp E d)))
    | SLiteral (Some _), _ => (s, Err ValueError)
    | SLiteral None, Err e => (s, Err e)
    | SLiteral None, Ok d => (s, Ok (PSnapshot (Partition (pt_storage p) (pt_key p) (pt_fp p) (Some d)) (from_string E d)))
    end.
  Proof.
    intros w a v p s F PV. unfold io_write. change (dump (through E X w)) with (encode X w). destruct (st_kind (pt_storage p)) as [|c] eqn:SK.
    - unfold andthen, effect, andthen, ret. rewrite tick_none by exact F. destruct (encode X w a v) as [d|e]; [|reflexivity]. rewrite tick_none by exact F.
      f_equal. unfold take_snapshot, content. rewrite SK. cbn [with_log with_file files]. now rewrite (dget_dset _ location_eqb_spec), (proj2 (location_eqb_spec _ _) eq_refl).
    - rewrite PV. destruct c; [reflexivity|]. unfold andthen, ret. destruct (encode X w a v) as [d|e]; [|reflexivity].
      unfold take_snapshot, content. cbn [pt_storage pt_value]. now rewrite SK.
  Qed.
  Definition recorded_in (s : state) (g : graph_def) (a : artifact) (key : str) (sn : option snapshot) (x : psnapshot) : state :=
    let s1 := with_db s (write_artifact_partitions (db s) (a_storage a) [x]) in
    match sn, a_output a with Some sn', Some _ => with_db s1 (write_snapshot_partitions (db s1) sn' key [x]) | _, _ => s1 end.
  Lemma write_eval : forall g v a f k view sn key (s : state), fuel s = None -> key_of g a = Ok key ->
    write E X g v a f k view sn s =
    if is_some sn && negb (is_some (a_output a)) then (s, Err ValueError)
    else match writing_view X v a view with
         | Err e => (s, Err e)
         | Ok w => match generate_partition (a_storage a) f k with
                   | Err e => (s, Err e)
                   | Ok p => match io_write (through E X w) a v p s with
                             | (s1, Err e) => (s1, Err e)
                             | (s1, Ok x) => (recorded_in s1 g a key sn x, Ok x)
                             end
                   end
         end.
  Proof.
    intros g v a f k view sn key s F K. unfold write. unfold andthen at 1. unfold ret at 1. rewrite K. unfold andthen at 1. unfold ret at 1.
    destruct (is_some sn && negb (is_some (a_output a))); [reflexivity|]. unfold andthen at 1. unfold ret at 1. destruct (writing_view X v a view) as [w|e]; [|reflexivity].
    unfold andthen at 1. unfold ret at 1. destruct (generate_partition (a_storage a) f k) as [p|e] eqn:GP; [|reflexivity]. unfold andthen at 1.
    destruct (generate_partition_storage _ _ _ _ GP) as (G1 & _ & _ & _ & _ & G2). rewrite <- G1 in G2.
    assert (FU : forall s1 r, io_write (through E X w) a v p s = (s1, r) -> fuel s1 = None).
    { intros s1 r. rewrite (io_write_eval _ _ _ _ _ F G2). destruct (st_kind (pt_storage p)) as [|[c|]], (encode X w a v); intro H; injection H as <- _; exact F. }
    destruct (io_write (through E X w) a v p s) as [s1 [x|e]]; [|reflexivity]. specialize (FU _ _ eq_refl).
    unfold andthen at 1. unfold write_known, effect. unfold andthen at 1. rewrite tick_none by exact FU. unfold recorded_in. unfold andthen at 1.
    destruct sn as [sn'|], (a_output a) as [o|]; try reflexivity. unfold write_links, effect, andthen. now rewrite tick_none by exact FU.
  Qed.
  Theorem write_unknown : forall g v a f k view sn (s : state), ~ In a (map snd (g_arts g)) -> write E X g v a f k view sn s = (s, Err KeyError).
  Proof. intros g v a f k view sn s H. unfold write, andthen, ret. now rewrite key_of_unknown. Qed.
  Theorem write_raw_snapshot : forall g v a f k view sn (s : state), In a (map snd (g_arts g)) -> a_output a = None -> write E X g v a f k view (Some sn) s = (s, Err ValueError).
  Proof. intros g v a f k view sn s H O. destruct (key_of_known _ _ H) as (key & K). unfold write, andthen, ret. rewrite K. cbn [is_some andb]. now rewrite O. Qed.

  Lemma recorded_in_links : forall g a key sn x (s : state) sn' k y, linked (recorded_in s g a key sn x) sn' k y <->
    linked s sn' k y \/ (sn = Some sn' /\ a_output a <> None /\ k = key /\ y = x).
  Proof.
    intros g a key sn x s sn' k y. rewrite !linked_links. unfold recorded_in.
    assert (WW : forall sn' k, links_of (write_artifact_partitions (db s) (a_storage a) [x]) sn' k = links_of (db s) sn' k).
    { intros sn1 k1. destruct (wa_other (db s) (a_storage a) [x]) as (_ & _ & WL & _). unfold links_of. now rewrite WL. }
    destruct sn as [sn1|], (a_output a) as [o|]; cbn [with_db db].
    - rewrite wl_links. destruct (snapshot_eqb sn1 sn' && str_eqb key k) eqn:Q.
      + apply andb_true_iff in Q. destruct Q as [Q1 Q2]. apply snapshot_eqb_spec in Q1. apply str_eqb_spec in Q2. subst. rewrite adds_In, WW. cbn [In]. split.
        * intros [I|[I|[]]]; [now left|right]. repeat split; congruence.
        * intros [I|(_ & _ & _ & ->)]; [now left|right; now left].
      + rewrite WW. split; [now left|]. intros [I|(I & _ & -> & ->)]; [exact I|]. injection I as ->.
        rewrite (proj2 (snapshot_eqb_spec _ _) eq_refl), (proj2 (str_eqb_spec _ _) eq_refl) in Q. discriminate.
    - rewrite WW. split; [now left|]. intros [I|(_ & C & _)]; [exact I|congruence].
    - rewrite WW. split; [now left|]. intros [I|(C & _)]; [exact I|discriminate].
    - rewrite WW. split; [now left|]. intros [I|(C & _)]; [exact I|discriminate].
  Qed.
  Lemma recorded_in_known : forall g a key sn x (s : state) t y, recorded (recorded_in s g a key sn x) t y <-> recorded s t y \/ (t = a_storage a /\ y = x).
  Proof.
    intros g a key sn x s t y. rewrite !recorded_known.
    assert (WW : forall b, known_of (write_artifact_partitions (db s) (a_storage a) [x]) b = if storage_eqb (a_storage a) b then adds (known_of (db s) (a_storage a)) [x] else known_of (db s) b)
      by (intro b; apply wa_known).
    assert (KK : known_of (db (recorded_in s g a key sn x)) t = known_of (write_artifact_partitions (db s) (a_storage a) [x]) t).
    { unfold recorded_in. destruct sn as [sn1|], (a_output a) as [o|]; try reflexivity. cbn [with_db db].
      destruct (wl_other (write_artifact_partitions (db s) (a_storage a) [x]) sn1 key [x]) as (_ & _ & _ & WK). unfold known_of. now rewrite WK. }
    rewrite KK, WW. destruct (storage_eqb (a_storage a) t) eqn:Q.
    - apply storage_eqb_spec in Q. subst t. rewrite adds_In. cbn [In]. split; [intros [I|[I|[]]]; [now left|right; now split]|intros [I|[_ ->]]; [now left|right; now left]].
    - split; [now left|]. intros [I|[-> _]]; [exact I|]. rewrite (proj2 (storage_eqb_spec _ _) eq_refl) in Q. discriminate.
  Qed.
  Lemma recorded_in_files : forall g a key sn x (s : state), files (recorded_in s g a key sn x) = files s.
  Proof. intros g a key sn x s. unfold recorded_in. now destruct sn, (a_output a). Qed.

  Theorem write_ok : forall g v a f k view sn (s s' : state) x, fuel s = None -> write E X g v a f k view sn s = (s', Ok x) ->
    exists w d key, last_key (g_arts g) a key /\ writes_with X v a view w /\ encode X w a v = Ok d /\ well_addressed a f k /\ (sn <> None -> a_output a <> None) /\
      pt_storage (ps_part x) = a_storage a /\ ps_key x = k /\ ps_fp x = f /\ holds_data s' x d /\
      (forall l, l <> place a f k -> dget location_eqb (files s') l = dget location_eqb (files s) l) /\
      (forall t y, recorded s' t y <-> recorded s t y \/ (t = a_storage a /\ y = x)) /\
      (forall sn' key' y, linked s' sn' key' y <-> linked s sn' key' y \/ (sn = Some sn' /\ key' = key /\ y = x)).
  Proof.
    intros g v a f k view sn s s' x F H. destruct (key_of g a) as [key|e] eqn:K; [|unfold write, andthen, ret in H; now rewrite K in H].
    rewrite (write_eval _ _ _ _ _ _ _ _ _ F K) in H. destruct (is_some sn && negb (is_some (a_output a))) eqn:Q; [discriminate|].
    destruct (writing_view X v a view) as [w|] eqn:WV; [|discriminate]. destruct (generate_partition (a_storage a) f k) as [p|] eqn:GP; [|discriminate].
    destruct (io_write (through E X w) a v p s) as [s1 [y|]] eqn:IO; [|discriminate]. injection H as <- ->.
    destruct (generate_partition_storage _ _ _ _ GP) as (G1 & G3 & G4 & _ & _ & G2). assert (IO' := IO).
    destruct (io_write_data _ _ _ _ _ _ _ IO') as (d & D & P1 & P2 & P3 & HD & _). change (encode X w a v = Ok d) in D.
    destruct (io_write_ok _ _ _ _ _ _ _ IO') as (DB & _). exists w, d, key. split; [now apply key_of_last|]. split; [now apply writing_view_spec|]. split; [exact D|].
    split; [apply well_addressed_spec; eauto|]. split; [intros NE O; destruct sn; [rewrite O in Q; discriminate|congruence]|]. split; [congruence|]. split; [unfold ps_key; congruence|]. split; [unfold ps_fp; congruence|].
    split; [unfold holds_data in *; now rewrite recorded_in_files|]. split.
    - intros l NL. rewrite recorded_in_files. rewrite <- G1 in G2. rewrite (io_write_eval _ _ _ _ _ F G2) in IO.
      assert (LN : location_eqb (location_of p) l = false).
      { destruct (location_eqb (location_of p) l) eqn:QL; [|reflexivity]. apply location_eqb_spec in QL. destruct NL. rewrite <- QL. unfold location_of, place. congruence. }
      destruct (st_kind (pt_storage p)) as [|[c|]], (encode X w a v); try discriminate; injection IO as <- _; try reflexivity.
      cbn [with_log with_file files]. now rewrite !(dget_dset _ location_eqb_spec), LN.
    - split.
      + intros t y. rewrite recorded_in_known. rewrite !recorded_known, DB. reflexivity.
      + intros sn' key' y. rewrite recorded_in_links. rewrite !linked_links, DB. split; [intros [L|(L1 & L2 & L3)]; [now left|right; tauto]|intros [L|(L1 & L2 & L3)]; [now left|right]].
        split; [exact L1|]. split; [|now split]. intro O. subst sn. rewrite O in Q. discriminate.
  Qed.
  Theorem write_total : forall g v a f k view sn w d (s : state), fuel s = None -> In a (map snd (g_arts g)) -> (sn <> None -> a_output a <> None) ->
    writes_with X v a view w -> encode X w a v = Ok d -> well_addressed a f k -> (forall c, st_kind (a_storage a) <> SLiteral (Some c)) ->
    exists s' x, write E X g v a f k view sn s = (s', Ok x).
  Proof.
    intros g v a f k view sn w d s F I SO WV EN WA NL. destruct (key_of_known _ _ I) as (key & K). rewrite (write_eval _ _ _ _ _ _ _ _ _ F K).
    apply writing_view_spec in WV. rewrite WV. apply well_addressed_spec in WA. destruct WA as (p & GP). rewrite GP.
    destruct (is_some sn && negb (is_some (a_output a))) eqn:Q.
    { exfalso. destruct sn; [|discriminate]. destruct (a_output a) eqn:O; [discriminate|]. apply SO; [discriminate|reflexivity]. }
    destruct (generate_partition_storage _ _ _ _ GP) as (G1 & _ & _ & _ & _ & G2). rewrite <- G1 in G2. rewrite (io_write_eval _ _ _ _ _ F G2), EN. rewrite G1.
    destruct (st_kind (a_storage a)) as [|[c|]]; [eauto|now destruct (NL c)|eauto].
  Qed.
  Theorem write_failed : forall g v a f k view sn (s s' : state) e, fuel s = None -> write E X g v a f k view sn s = (s', Err e) ->
    db s' = db s /\ log s' = log s /\
    (files s' = files s \/
     (st_kind (a_storage a) = SFile /\ (exists w, writes_with X v a view w /\ encode X w a v = Err e) /\
      forall l, dget location_eqb (files s') l = if location_eqb (place a f k) l then Some [] else dget location_eqb (files s) l)).
  Proof.
    intros g v a f k view sn s s' e F H. destruct (key_of g a) as [key|e'] eqn:K.
    2: { unfold write, andthen, ret in H. rewrite K in H. injection H as <- _. auto. }
    rewrite (write_eval _ _ _ _ _ _ _ _ _ F K) in H. destruct (is_some sn && negb (is_some (a_output a))) eqn:Q; [injection H as <- _; auto|].
    destruct (writing_view X v a view) as [w|] eqn:WV; [|injection H as <- _; auto]. destruct (generate_partition (a_storage a) f k) as [p|] eqn:GP; [|injection H as <- _; auto].
    destruct (generate_partition_storage _ _ _ _ GP) as (G1 & G3 & G4 & _ & _ & G2). rewrite <- G1 in G2. rewrite (io_write_eval _ _ _ _ _ F G2) in H. rewrite G1 in H.
    destruct (st_kind (a_storage a)) as [|[c|]] eqn:SK, (encode X w a v) as [d|e0] eqn:EN; try discriminate; injection H as <- <-; auto.
    split; [reflexivity|]. split; [reflexivity|]. right. split; [reflexivity|]. split; [exists w; split; [now apply writing_view_spec|exact EN]|].
    intro l. cbn [with_file files]. rewrite (dget_dset _ location_eqb_spec). replace (location_of p) with (place a f k); [reflexivity|]. unfold location_of, place. congruence.
  Qed.

  (** ** What has been written is read *)
  Lemma write_place : forall g v a f k view sn (s s' : state) x, fuel s = None -> write E X g v a f k view sn s = (s', Ok x) -> st_kind (a_storage a) = SFile ->
    exists w d, writes_with X v a view w /\ encode X w a v = Ok d /\ x = PSnapshot (Partition (a_storage a) k f None) (file_fp E d) /\
      forall l, dget location_eqb (files s') l = if location_eqb (place a f k) l then Some d else dget location_eqb (files s) l.
  Proof.
    intros g v a f k view sn s s' x F H SK. destruct (key_of g a) as [key|e] eqn:K; [|unfold write, andthen, ret in H; now rewrite K in H].
    rewrite (write_eval _ _ _ _ _ _ _ _ _ F K) in H. destruct (is_some sn && negb (is_some (a_output a))) eqn:Q; [discriminate|].
    destruct (writing_view X v a view) as [w|] eqn:WV; [|discriminate]. destruct (generate_partition (a_storage a) f k) as [p|] eqn:GP; [|discriminate].
    destruct (generate_partition_storage _ _ _ _ GP) as (G1 & G3 & G4 & _ & _ & G2). rewrite <- G1 in G2. rewrite (io_write_eval _ _ _ _ _ F G2) in H. rewrite G1, SK in *.
    destruct (encode X w a v) as [d|] eqn:EN; [|discriminate]. injection H as <- <-. exists w, d. split; [now apply writing_view_spec|]. split; [exact EN|]. split.
    - f_equal. destruct p; cbn in *; congruence.
    - intro l. rewrite recorded_in_files. cbn [with_log with_file files]. rewrite !(dget_dset _ location_eqb_spec).
      replace (location_of p) with (place a f k); [now destruct (location_eqb (place a f k) l)|]. unfold location_of, place. congruence.
  Qed.
  Lemma write_NoDup : forall g v a f k view sn (s s' : state) r, fuel s = None -> write E X g v a f k view sn s = (s', r) -> NoDup (map fst (files s)) -> NoDup (map fst (files s')).
  Proof.
    intros g v a f k view sn s s' r F H ND. destruct (key_of g a) as [key|e] eqn:K; [|unfold write, andthen, ret in H; rewrite K in H; now injection H as <- _].
    rewrite (write_eval _ _ _ _ _ _ _ _ _ F K) in H. destruct (is_some sn && negb (is_some (a_output a))) eqn:Q; [now injection H as <- _|].
    destruct (writing_view X v a view) as [w|] eqn:WV; [|now injection H as <- _]. destruct (generate_partition (a_storage a) f k) as [p|] eqn:GP; [|now injection H as <- _].
    destruct (generate_partition_storage _ _ _ _ GP) as (G1 & G3 & G4 & _ & _ & G2). rewrite <- G1 in G2. rewrite (io_write_eval _ _ _ _ _ F G2) in H.
    destruct (st_kind (pt_storage p)) as [|[c|]], (encode X w a v) as [d|]; injection H as <- _; rewrite ?recorded_in_files; cbn [with_log with_file files];
      repeat apply (Base_Proofs.dset_NoDup _ location_eqb_spec); exact ND.
  Qed.
  Theorem write_found : forall g v a k view (s s' : state) x, fuel s = None -> write E X g v a None k view None s = (s', Ok x) -> st_kind (a_storage a) = SFile ->
    (forall y, raw_found E s' (a_storage a) y <-> y = x \/ (raw_found E s (a_storage a) y /\ ps_key y <> k)) /\
    forall t, st_id t <> st_id (a_storage a) -> forall y, raw_found E s' t y <-> raw_found E s t y.
  Proof.
    intros g v a k view s s' x F H SK. assert (H' := H). apply write_ok in H'; [|exact F]. destruct H' as (_ & _ & _ & _ & _ & _ & WA & _).
    apply write_place in H; [|exact F|exact SK]. destruct H as (w & d & _ & _ & -> & G). unfold raw_found. rewrite SK. split.
    - intro y. split.
      + intros (T & k' & d' & G' & PK & ->). rewrite G in G'. destruct (location_eqb (place a None k) (st_id (a_storage a), k', None)) eqn:Q.
        * apply location_eqb_spec in Q. injection Q as <-. injection G' as ->. now left.
        * right. split; [split; [exact T|exists k', d'; auto]|]. cbn. intros ->. unfold place in Q. rewrite (proj2 (location_eqb_spec _ _) eq_refl) in Q. discriminate.
      + destruct WA as [W1 W2]. intros [->|[(T & k' & d' & G' & PK & ->) NE]].
        * split; [destruct (st_templated (a_storage a)); [now destruct (proj1 W2 eq_refl)|reflexivity]|]. exists k, d. rewrite G. unfold place. rewrite (proj2 (location_eqb_spec _ _) eq_refl).
          split; [reflexivity|]. split; [|reflexivity]. destruct (st_partitioned (a_storage a)), k; try reflexivity; [now destruct (proj1 W1 eq_refl)|assert (C := proj2 W1 ltac:(discriminate)); discriminate].
        * split; [exact T|]. exists k', d'. split; [|now split]. rewrite G. destruct (location_eqb (place a None k) (st_id (a_storage a), k', None)) eqn:Q; [|exact G'].
          apply location_eqb_spec in Q. injection Q as ->. cbn in NE. congruence.
    - intros t NI y. assert (GG : forall k', dget location_eqb (files s') (st_id t, k', None) = dget location_eqb (files s) (st_id t, k', None)).
      { intro k'. rewrite G. destruct (location_eqb (place a None k) (st_id t, k', None)) eqn:Q; [|reflexivity]. apply location_eqb_spec in Q. unfold place in Q. congruence. }
      destruct (st_kind t); [|reflexivity]. split; intros (T & k' & d' & G' & R); (split; [exact T|]); exists k', d'; (split; [|exact R]); [rewrite <- GG|rewrite GG]; exact G'.
  Qed.
  Theorem write_read_raw : forall g v a view w' (s s' : state) x, fuel s = None -> NoDup (map fst (files s)) -> a_output a = None ->
    st_kind (a_storage a) = SFile -> write E X g v a None [] view None s = (s', Ok x) ->
    exists w d, writes_with X v a view w /\ encode X w a v = Ok d /\ read E X g a None (Some w') None None s' = (s', decode X w' a [d]).
  Proof.
    intros g v a view w' s s' x F ND O SK H. assert (H' := H). apply write_ok in H'; [|exact F]. destruct H' as (_ & _ & key & LK & _ & _ & [W1 W2] & _).
    assert (ND' := write_NoDup _ _ _ _ _ _ _ _ _ _ F H ND). apply write_place in H; [|exact F|exact SK]. destruct H as (w & d & WV & EN & _ & G). exists w, d. split; [exact WV|]. split; [exact EN|].
    rewrite (read_raw_file g a w' s'); [|apply in_map_iff; exists (key, a); split; [reflexivity|now apply key_of_In, key_of_last]|exact O|exact SK|
      destruct (st_partitioned (a_storage a)); [now destruct (proj1 W1 eq_refl)|reflexivity]|destruct (st_templated (a_storage a)); [now destruct (proj1 W2 eq_refl)|reflexivity]|exact ND'].
    rewrite G. now rewrite (proj2 (location_eqb_spec _ _) eq_refl).
  Qed.

  Theorem write_read_snapshot : iterates E -> (forall l, NoDup l -> NoDup (iter_set E l)) -> forall g v a f k view w' sn (s s' : state) x, fuel s = None ->
    st_kind (a_storage a) = SFile -> (forall key y, last_key (g_arts g) a key -> ~ linked s sn key y) -> write E X g v a f k view (Some sn) s = (s', Ok x) ->
    exists w d, writes_with X v a view w /\ encode X w a v = Ok d /\ snd (read E X g a None (Some w') (Some sn) None s') = decode X w' a [d].
  Proof.
    intros IT IN g v a f k view w' sn s s' x F SK NL H. assert (FU : fuel s' = None).
    { destruct (key_of g a) as [key|e] eqn:K; [|unfold write, andthen, ret in H; now rewrite K in H].
      rewrite (write_eval _ _ _ _ _ _ _ _ _ F K) in H. destruct (is_some (Some sn) && negb (is_some (a_output a))) eqn:Q; [discriminate|].
      destruct (writing_view X v a view) as [w|] eqn:WV; [|discriminate]. destruct (generate_partition (a_storage a) f k) as [p|] eqn:GP; [|discriminate].
      destruct (generate_partition_storage _ _ _ _ GP) as (G1 & _ & _ & _ & _ & G2). rewrite <- G1 in G2. rewrite (io_write_eval _ _ _ _ _ F G2) in H. rewrite G1, SK in H.
      destruct (encode X w a v) as [d|]; [|discriminate]. injection H as <- _. unfold recorded_in. destruct (a_output a); exact F. }
    assert (H' := H). apply write_ok in H'; [|exact F]. destruct H' as (w & d & key & LK & WV & EN & _ & _ & PS & _ & _ & HD & _ & _ & LN). exists w, d. split; [exact WV|]. split; [exact EN|].
    assert (K := proj2 (key_of_last _ _ _) LK). rewrite (read_step _ _ _ _ _ _ _ K).
    assert (LL : iter_set E (links_of (db s') sn key) = [x]).
    { assert (M : forall y, In y (iter_set E (links_of (db s') sn key)) <-> y = x).
      { intro y. rewrite (IT _ y), <- linked_links, LN. split; [intros [L|(_ & _ & L)]; [now destruct (NL key y LK)|exact L]|intros ->; right; auto]. }
      assert (LK1 : links_of (db s') sn key = [x]).
      { assert (LE : forall y, In y (links_of (db s') sn key) <-> y = x) by (intro y; now rewrite <- (IT _ y)).
        assert (EM : links_of (db s) sn key = []). { destruct (links_of (db s) sn key) as [|y l] eqn:Q; [reflexivity|]. exfalso. apply (NL key y LK). apply linked_links. rewrite Q. now left. }
        clear M. rewrite (write_eval _ _ _ _ _ _ _ _ _ F K) in H. destruct (is_some (Some sn) && negb (is_some (a_output a))) eqn:Q; [discriminate|].
        destruct (writing_view X v a view) as [w0|] eqn:WV0; [|discriminate]. destruct (generate_partition (a_storage a) f k) as [p|] eqn:GP; [|discriminate].
        destruct (io_write (through E X w0) a v p s) as [s1 [y|]] eqn:IO; [|discriminate]. injection H as <- ->. destruct (io_write_ok _ _ _ _ _ _ _ IO) as (DB & _).
        unfold recorded_in. destruct (a_output a); [|discriminate]. cbn [with_db db]. rewrite wl_links, (proj2 (snapshot_eqb_spec _ _) eq_refl), (proj2 (str_eqb_spec _ _) eq_refl). cbn [andb].
        destruct (wa_other (db s1) (a_storage a) [x]) as (_ & _ & WL & _). assert (EM' : links_of (write_artifact_partitions (db s1) (a_storage a) [x]) sn key = []) by (unfold links_of in *; now rewrite WL, DB).
        rewrite EM'. reflexivity. }
      rewrite LK1 in *. assert (NI : NoDup (iter_set E [x])) by (apply IN; constructor; [intros []|constructor]). destruct (iter_set E [x]) as [|y l]; [destruct (proj2 (M x) eq_refl)|].
      assert (y = x) by (apply M; now left). subst y. destruct l as [|z l]; [reflexivity|]. exfalso. assert (z = x) by (apply M; right; now left). subst z. inversion NI as [|? ? NN _]; subst. apply NN. now left. }
    assert (PT : exists b, partitions_to_read E g key a (Some sn) None s' = (with_db s' b, Ok [x])).
    { unfold partitions_to_read. unfold read_links, effect. assert (R := rl_spec (db s') sn key). destruct (a_output a); unfold andthen, ret; rewrite tick_none by exact FU;
        destruct (read_snapshot_partitions (db s') sn key) as [b l]; destruct R as [R _]; rewrite <- R in LL; rewrite LL; eauto. }
    destruct PT as (b & ->). unfold io_read. cbn [List.length Nat.ltb Nat.leb andb mapM ps_part snd with_db files].
    apply holds_content in HD. now rewrite HD.
  Qed.
End Access.
