(** Building again in a new process. *)
From Coq Require Import ZArith List Ascii String Bool Arith Lia Permutation.
From Verif Require Import Base Base_Proofs Str Str_Proofs Graph_Model Graph_Spec Graph_Proofs.
From Verif Require Import Backend_Model Backend_Spec Backend_Proofs Executor_Model Executor_Spec Executor_Proofs.
From Verif Require Import Executor_Done_Proofs Executor_Build_Proofs Executor_Link_Proofs Executor_Crash_Proofs Executor_Resume_Proofs Executor_Resumed_Proofs.
From Verif Require Import Executor_Id_Proofs.
Import ListNotations.
Open Scope list_scope.

(** * What is found of a storage the backend has not seen *)
Section Discover.
  Context {V : Type} (E : env V).
  Definition file_found (fs : list (location * str)) (t : storage) (fps : list (pkey * option Z)) (x : psnapshot) : Prop :=
    exists k f d, get_fp fps k = Some f /\ st_partitioned t = negb (is_nil k) /\ dget location_eqb fs (st_id t, k, Some f) = Some d /\
      x = PSnapshot (Partition t k (Some f) None) (file_fp E d).
  Lemma discover_file : forall fs t fps, st_kind t = SFile -> st_templated t = true ->
    exists found, discover E fs t fps = Ok found /\ forall x, In x found <-> file_found fs t fps x.
  Proof.
    intros fs t fps SK T. unfold discover. rewrite SK.
    assert (TOT : forall ls, (forall l, In l ls -> In l (map fst fs)) -> exists xs,
      mapM (fun lk : location => take_snapshot E fs (Partition t (snd (fst lk)) (snd lk) None)) (filter (fun l : location => generated_by t l && option_eqb Z.eqb (get_fp fps (snd (fst l))) (snd l))%bool ls) = Ok xs /\
      forall x, In x xs <-> exists k f d, In (st_id t, k, Some f) ls /\ get_fp fps k = Some f /\ st_partitioned t = negb (is_nil k) /\ dget location_eqb fs (st_id t, k, Some f) = Some d /\
             x = PSnapshot (Partition t k (Some f) None) (file_fp E d)).
    { induction ls as [|[[i k] f] ls IH]; intro SUB.
      - exists []. split; [reflexivity|]. intro x. split; [intros []|]. intros (k & f & d & [] & _).
      - destruct IH as (xs & M & XS); [intros l I; apply SUB; now right|]. cbn [filter].
        destruct (generated_by t (i, k, f) && option_eqb Z.eqb (get_fp fps (snd (fst (i, k, f)))) (snd (i, k, f)))%bool eqn:Q.
        + apply andb_true_iff in Q. destruct Q as [Q1 Q2]. cbn [fst snd] in Q2. apply (option_eqb_spec _ _ Z.eqb_eq) in Q2.
          cbn in Q1. apply andb_true_iff in Q1. destruct Q1 as [Q1 Q3]. apply andb_true_iff in Q1. destruct Q1 as [Q1 Q4].
          apply str_eqb_spec in Q1. subst i. apply eqb_prop in Q3, Q4. rewrite T in Q4. destruct f as [f|]; [|discriminate].
          assert (D : exists d, dget location_eqb fs (st_id t, k, Some f) = Some d).
          { destruct (dget location_eqb fs (st_id t, k, Some f)) as [d|] eqn:D; [eauto|]. apply (dget_None _ location_eqb_spec) in D. destruct D.
            apply SUB. now left. }
          destruct D as (d & D). cbn [mapM fst snd].
          assert (TS : take_snapshot E fs (Partition t k (Some f) None) = Ok (PSnapshot (Partition t k (Some f) None) (file_fp E d))).
          { unfold take_snapshot, content. cbn. rewrite SK. unfold location_of. cbn. now rewrite D. }
          rewrite TS, M. cbn [bind]. eexists. split; [reflexivity|]. intro x. cbn [In]. rewrite XS. split.
          * intros [ <- |(k' & f' & d' & I & R)]; [|exists k', f', d'; split; [now right|exact R]].
            exists k, f, d. auto 6.
          * intros (k' & f' & d' & [I|I] & G' & P' & D' & ->); [|right; exists k', f', d'; auto 6]. injection I as <- <-. left. congruence.
        + exists xs. split; [exact M|]. intro x. rewrite XS. split; intros (k' & f' & d' & I & R); exists k', f', d'; (split; [|exact R]); [now right|].
          destruct I as [I|I]; [|exact I]. exfalso. injection I as -> -> ->. destruct R as (G' & P' & _). cbn in Q. rewrite P', T, G' in Q.
          rewrite (proj2 (str_eqb_spec _ _) eq_refl) in Q. cbn in Q. now rewrite eqb_reflx, Z.eqb_refl in Q. }
    destruct (TOT (map fst fs) (fun l I => I)) as (xs & M & XS). unfold location in *. exists xs. split; [exact M|]. intro x. rewrite XS. split; intros (k & f & d & R).
    - destruct R as (_ & R). exists k, f, d. exact R.
    - exists k, f, d. split; [|exact R]. destruct R as (_ & _ & D & _). apply (dget_In _ location_eqb_spec) in D. now apply (in_map fst) in D.
  Qed.
  Lemma discover_literal : forall fs fs' t fps v, st_kind t = SLiteral v -> discover E fs t fps = discover E fs' t fps.
  Proof.
    intros fs fs' t fps v SK. unfold discover. rewrite SK. destruct (negb (is_nil fps) && is_some v)%bool; [reflexivity|].
    destruct (st_partitioned t && is_nil fps)%bool; [reflexivity|]. destruct v as [v|]; [|reflexivity].
    assert (TS : forall p, pt_storage p = t -> take_snapshot E fs p = take_snapshot E fs' p).
    { intros p Q. unfold take_snapshot, content. now rewrite Q, SK. }
    assert (MM : forall l, mapM (fun kf : pkey * option Z => bind (generate_partition t (snd kf) (fst kf)) (take_snapshot E fs)) l = mapM (fun kf => bind (generate_partition t (snd kf) (fst kf)) (take_snapshot E fs')) l).
    { induction l as [|[k f] l IH]; [reflexivity|]. cbn [mapM fst snd]. rewrite IH. destruct (generate_partition t f k) as [p|e] eqn:GP; [|reflexivity].
      cbn [bind]. rewrite TS; [reflexivity|]. now apply generate_partition_storage in GP. }
    apply MM.
  Qed.
End Discover.

Section One.
  Context {V : Type} (E : env V) (IT : iterates E) (sn : snapshot) (q : producer) (a : artifact) (key : str).
  Context (inputs : list (str * list psnapshot)) (deps : list (pkey * list (str * list psnapshot))) (fps : list (pkey * option Z)).
  Notation g := (s_graph sn).
  Context (ND : NoDup (map fst (g_arts g))) (SO : sound_outputs E sn q) (O : outputs_of g q = Ok [a]) (K : key_of g a = Ok key).
  Context (CD : compute_dependencies E q inputs = Ok (deps, fps)).
  Context (NL : forall k d n l x k' f', In (k, d) deps -> In (n, l) d -> In x l -> location_of (ps_part x) <> (st_id (a_storage a), k', Some f')).

  (** Files that agree on what the producer reads. *)
  Definition reads_same (fs fs' : list (location * str)) : Prop :=
    forall k d n l x, In (k, d) deps -> In (n, l) d -> In x l -> content fs (ps_part x) = content fs' (ps_part x).
  (** Building partition [k] from [d] with files [fs] gives [data], recorded as [x]. *)
  Definition makes (fs : list (location * str)) (k : pkey) (d : list (str * list psnapshot)) (data : str) (x : psnapshot) : Prop :=
    exists f args v part, get_fp fps k = Some f /\ works E sn q a d f k fs args v key part data x.
  Lemma args_same : forall k d fs fs' args, In (k, d) deps -> reads_same fs fs' -> (forall s : state V, files s = fs -> collect_args E sn q d s = (s, Ok args)) ->
    forall s : state V, files s = fs' -> collect_args E sn q d s = (s, Ok args).
  Proof.
    intros k d fs fs' args I R A s FS. destruct (args_pure E sn q d (State fs (db s) (log s) (fuel s))) as (r & A1 & A2).
    rewrite A in A1 by reflexivity. injection A1 as <-. apply A2. intros n l x I1 I2. cbn [files]. rewrite FS. eapply R; eauto.
  Qed.
  Lemma makes_same : forall fs fs' k d data x, In (k, d) deps -> reads_same fs fs' -> makes fs k d data x -> makes fs' k d data x.
  Proof.
    intros fs fs' k d data x I R (f & args & v & part & G & W). exists f, args, v, part. split; [exact G|].
    destruct W as [WA WB WV WN WK WO WC WP WD WS]. constructor; auto. eapply args_same; eauto.
  Qed.
  Lemma makes_fun : forall fs k d data x data' x', makes fs k d data x -> makes fs k d data' x' -> data = data' /\ x = x'.
  Proof.
    intros fs k d data x data' x' (f & args & v & part & G & W) (f' & args' & v' & part' & G' & W'). rewrite G in G'. injection G' as <-.
    assert (A : args = args').
    { assert (A1 := w_args _ _ _ _ _ _ _ _ _ _ _ _ _ _ W (State fs empty_backend [] None) eq_refl). rewrite (w_args _ _ _ _ _ _ _ _ _ _ _ _ _ _ W') in A1 by reflexivity. congruence. }
    subst args'. assert (v = v') by (assert (B := w_build _ _ _ _ _ _ _ _ _ _ _ _ _ _ W); rewrite (w_build _ _ _ _ _ _ _ _ _ _ _ _ _ _ W') in B; congruence). subst v'.
    assert (data = data') by (assert (B := w_dump _ _ _ _ _ _ _ _ _ _ _ _ _ _ W); rewrite (w_dump _ _ _ _ _ _ _ _ _ _ _ _ _ _ W') in B; congruence). subst data'.
    assert (part = part') by (assert (B := w_part _ _ _ _ _ _ _ _ _ _ _ _ _ _ W); rewrite (w_part _ _ _ _ _ _ _ _ _ _ _ _ _ _ W') in B; congruence). subst part'.
    split; [reflexivity|]. assert (B := w_snapshot _ _ _ _ _ _ _ _ _ _ _ _ _ _ W). assert (B' := w_snapshot _ _ _ _ _ _ _ _ _ _ _ _ _ _ W').
    destruct (st_kind (a_storage a)); [congruence|]. destruct B, B'. congruence.
  Qed.
  Lemma makes_file : forall fs k d data x, st_kind (a_storage a) = SFile -> makes fs k d data x -> exists f, get_fp fps k = Some f /\
    st_partitioned (a_storage a) = negb (is_nil k) /\ x = PSnapshot (Partition (a_storage a) k (Some f) None) (file_fp E data).
  Proof.
    intros fs k d data x SK (f & args & v & part & G & W). exists f. split; [exact G|].
    assert (WP := w_part _ _ _ _ _ _ _ _ _ _ _ _ _ _ W). apply generate_partition_storage in WP. destruct WP as (P1 & P2 & P3 & _ & P5 & P6). split; [now symmetry|].
    assert (WS := w_snapshot _ _ _ _ _ _ _ _ _ _ _ _ _ _ W). rewrite SK in *. rewrite WS. destruct part as [t k' f' v']. cbn in *. now subst.
  Qed.
  Lemma reads_same_after : forall fs part f k data, generate_partition (a_storage a) (Some f) k = Ok part -> reads_same fs (files_after a fs part data).
  Proof.
    intros fs part f k data GP k' d n l x I1 I2 I3. unfold files_after. destruct (st_kind (a_storage a)); [|reflexivity].
    unfold content. destruct (st_kind (pt_storage (ps_part x))); [|reflexivity]. rewrite (dget_dset_other _ location_eqb_spec); [reflexivity|].
    destruct (part_storage a f k part GP) as [_ ->]. intro Q. eapply NL; eauto.
  Qed.
  Lemma reads_same_sym : forall fs fs', reads_same fs fs' -> reads_same fs' fs.
  Proof. intros fs fs' R k d n l x I1 I2 I3. symmetry. eapply R; eauto. Qed.
  Lemma reads_same_trans : forall fs fs' fs'', reads_same fs fs' -> reads_same fs' fs'' -> reads_same fs fs''.
  Proof. intros fs fs' fs'' R R' k d n l x I1 I2 I3. etransitivity; [eapply R|eapply R']; eauto. Qed.

  Notation file_of k f := (st_id (a_storage a), k, Some f).
  Lemma loop_facts : forall ex fs0 l s s' r, (forall kd, In kd l -> In kd deps) -> NoDup (map fst l) -> fuel s = None -> reads_same fs0 (files s) ->
    build_all E sn q ex fps l s = (s', Ok r) ->
    fuel s' = None /\ reads_same fs0 (files s') /\
    (forall k d, In (k, d) l -> ~ In k ex -> exists data x, makes fs0 k d data x) /\
    (forall y, In y (links_of (db s') sn key) <-> In y (links_of (db s) sn key) \/ exists k d data, In (k, d) l /\ ~ In k ex /\ makes fs0 k d data y) /\
    (forall k d f data x, st_kind (a_storage a) = SFile -> In (k, d) l -> ~ In k ex -> makes fs0 k d data x -> get_fp fps k = Some f ->
       dget location_eqb (files s') (file_of k f) = Some data) /\
    (forall loc, (forall k d f, st_kind (a_storage a) = SFile -> In (k, d) l -> ~ In k ex -> get_fp fps k = Some f -> loc <> file_of k f) ->
       dget location_eqb (files s') loc = dget location_eqb (files s) loc).
  Proof.
    intros ex fs0. induction l as [|[k d] l IH]; intros s s' r S N F R H; cbn [build_all eachM] in H.
    - apply ret_ok in H. destruct H as [-> _]. split; [exact F|]. split; [exact R|]. split; [intros k d []|]. split; [|split; [intros k d f data x _ []|reflexivity]].
      intro y. split; [auto|]. intros [I|(k & d & data & [] & _)]. exact I.
    - apply andthen_ok in H. destruct H as (s1 & u & H1 & H2). apply andthen_ok in H1. destruct H1 as (s2 & f & G & H1). apply ret_ok in G. destruct G as [-> G].
      cbn [fst snd] in *. destruct (get_fp fps k) as [f'|] eqn:GF; [|discriminate]. injection G as ->.
      assert (IK : In (k, d) deps) by (apply S; now left). inversion N as [|? ? N1 N2]; subst.
      destruct (in_dec (list_eq_dec ascii_dec) k ex) as [I|NI].
      + assert (s1 = s).
        { unfold build_producer_partition in H1. assert (EX : existsb (str_eqb k) ex = true) by (apply existsb_exists; exists k; split; [exact I|now apply str_eqb_spec]).
          rewrite EX in H1. now apply ret_ok in H1. }
        subst s1. destruct (IH s s' r) as (X1 & X2 & X3 & X4 & X5 & X6); auto; [intros; apply S; now right|].
        split; [exact X1|]. split; [exact X2|]. split; [|split; [|split]].
        * intros k' d' [Q|J] NE; [injection Q as <- <-; now destruct NE|eauto].
        * intro y. rewrite X4. split; (intros [J|(k' & d' & data & J1 & J2)]; [now left|right]).
          -- exists k', d', data. split; [now right|exact J2].
          -- destruct J1 as [Q|J1]; [injection Q as <- <-; now destruct J2|]. exists k', d', data. auto.
        * intros k' d' f'' data x SK [Q|J] NE; [injection Q as <- <-; now destruct NE|eauto].
        * intros loc L. apply X6. intros k' d' f'' SK J NE G'. exact (L k' d' f'' SK (or_intror J) NE G').
      + destruct (partition_inv E sn q a ex f d k s s1 u F O SO H1 NI) as (args & v & key' & part & data & x & W & FS & DB & FU).
        assert (key' = key) by (assert (W' := w_key _ _ _ _ _ _ _ _ _ _ _ _ _ _ W); congruence). subst key'.
        assert (WP := w_part _ _ _ _ _ _ _ _ _ _ _ _ _ _ W).
        assert (MK : makes fs0 k d data x).
        { apply (makes_same (files s)); [exact IK|now apply reads_same_sym|]. exists f, args, v, part. auto. }
        assert (R1 : reads_same fs0 (files s1)) by (rewrite FS; eapply reads_same_trans; [exact R|]; eapply reads_same_after; eauto).
        destruct (IH s1 s' r) as (X1 & X2 & X3 & X4 & X5 & X6); auto; [intros; apply S; now right|].
        assert (L1 : forall y, In y (links_of (db s1) sn key) <-> In y (links_of (db s) sn key) \/ y = x).
        { intro y. rewrite DB. unfold db_after. rewrite wl_links, (proj2 (snapshot_eqb_spec _ _) eq_refl), (proj2 (str_eqb_spec _ _) eq_refl). cbn [andb]. rewrite adds_In.
          unfold links_of. destruct (wa_other (db s) (a_storage a) [x]) as (_ & _ & -> & _). cbn. intuition. }
        split; [exact X1|]. split; [exact X2|]. split; [|split; [|split]].
        * intros k' d' [Q|J] NE; [injection Q as <- <-; eauto|eauto].
        * intro y. rewrite X4, L1. split.
          -- intros [[J| -> ]|(k' & d' & data' & J1 & J2)]; [now left|right; exists k, d, data; split; [now left|auto]|]. right. exists k', d', data'. split; [now right|exact J2].
          -- intros [J|(k' & d' & data' & [Q|J1] & J2 & J3)]; [auto| |right; exists k', d', data'; auto]. injection Q as <- <-.
             left. right. exact (proj2 (makes_fun _ _ _ _ _ _ _ J3 MK)).
        * intros k' d' f'' data' x' SK [Q|J] NE MK' G'; [|eapply X5; eauto]. injection Q as <- <-. rewrite GF in G'. injection G' as <-.
          destruct (makes_fun _ _ _ _ _ _ _ MK' MK) as [-> _]. rewrite X6.
          -- rewrite FS. unfold files_after. rewrite SK. destruct (part_storage a f k part WP) as [_ ->]. apply (dget_dset_same _ location_eqb_spec).
          -- intros k2 d2 f2 _ J2 _ _ Q. injection Q as <- _. apply N1. now apply (in_map fst) in J2.
        * intros loc L. rewrite X6 by (intros k' d' f'' SK J NE G'; exact (L k' d' f'' SK (or_intror J) NE G')). rewrite FS. unfold files_after.
          destruct (st_kind (a_storage a)) eqn:SK; [|reflexivity]. destruct (part_storage a f k part WP) as [_ ->].
          apply (dget_dset_other _ location_eqb_spec). intro Q. eapply (L k d f eq_refl (or_introl eq_refl) NI GF). now symmetry.
  Qed.
  Lemma loop_succeeds : forall ex fs0 l s, (forall kd, In kd l -> In kd deps) -> fuel s = None -> reads_same fs0 (files s) ->
    (forall k d, In (k, d) l -> ~ In k ex -> exists data x, makes fs0 k d data x) ->
    exists s', build_all E sn q ex fps l s = (s', Ok tt).
  Proof.
    intros ex fs0. induction l as [|[k d] l IH]; intros s S F R M; [eexists; reflexivity|].
    assert (IK : In (k, d) deps) by (apply S; now left).
    assert (G : get_fp fps k = Some (fingerprint_for E q d)) by (eapply fps_of; eauto).
    assert (STEP : exists s1, build_producer_partition E sn q ex (fingerprint_for E q d) d k s = (s1, Ok tt) /\ fuel s1 = None /\ reads_same fs0 (files s1)).
    { destruct (in_dec (list_eq_dec ascii_dec) k ex) as [I|NI].
      - exists s. split; [|auto]. unfold build_producer_partition. assert (EX : existsb (str_eqb k) ex = true) by (apply existsb_exists; exists k; split; [exact I|now apply str_eqb_spec]).
        rewrite EX. reflexivity.
      - destruct (M k d (or_introl eq_refl) NI) as (data & x & MK). apply (makes_same fs0 (files s)) in MK; [|exact IK|exact R].
        destruct MK as (f & args & v & part & G' & W). rewrite G in G'. injection G' as <-.
        destruct (partition_forward E sn q a d _ k (files s) args v key part data x ex W O NI s F) as (lg & PF); [intros s' FS; apply (w_args _ _ _ _ _ _ _ _ _ _ _ _ _ _ W); exact FS|].
        eexists. split; [exact PF|]. split; [reflexivity|]. cbn [files]. eapply reads_same_trans; [exact R|]. eapply reads_same_after. exact (w_part _ _ _ _ _ _ _ _ _ _ _ _ _ _ W). }
    destruct STEP as (s1 & ST & F1 & R1). destruct (IH s1) as (s' & B); auto; [intros; apply S; now right|intros k' d' J; apply M; now right|].
    exists s'. unfold build_all. cbn [eachM fst snd]. eapply andthen_step; [|exact B]. eapply andthen_step; [rewrite G; reflexivity|]. exact ST.
  Qed.
End One.

(** * A producer whose output's storage the backend has not seen *)
Section Fresh.
  Context {V : Type} (E : env V) (IT : iterates E) (sn : snapshot).
  Notation g := (s_graph sn).
  Lemma get_inputs_forward : forall l s inputs, inputs_at E sn (db s) l inputs -> fuel s = None ->
    exists s1, collectM (fun na => key <- ret (key_of g (snd na)) ;; x <- read_links E sn key ;; ret (Ok (fst na, x))) l s = (s1, Ok inputs) /\
      files s1 = files s /\ (forall sn' k, links_of (db s1) sn' k = links_of (db s) sn' k) /\ known (db s1) = known (db s) /\ fuel s1 = None.
  Proof.
    unfold inputs_at. intros l s inputs H. revert s H. revert inputs. induction l as [|[n b] l IH]; intros inputs s H F.
    - inversion H; subst. exists s. repeat split; auto.
    - inversion H as [|? nl ? ins (key & K & ->) H']; subst. cbn [fst snd] in *.
      assert (RS := rl_spec (db s) sn key). destruct (read_snapshot_partitions (db s) sn key) as [b1 l1] eqn:RL. destruct RS as (-> & L1 & _ & _ & _ & L5).
      assert (RD : read_links E sn key s = (with_db s b1, Ok (iter_set E (links_of (db s) sn key)))).
      { unfold read_links, effect, andthen. rewrite (tick_none _ F), RL. reflexivity. }
      destruct (IH ins (with_db s b1)) as (s1 & C & F1 & L1' & K1 & U1).
      + eapply Forall2_impl; [|exact H']. intros na nl (key' & K' & ->). exists key'. split; [exact K'|]. cbn [with_db db]. now rewrite L1.
      + exact F.
      + exists s1. split; [|split; [exact F1|split; [|split; [|exact U1]]]].
        * cbn [collectM]. eapply andthen_step; [|eapply andthen_step; [exact C|reflexivity]]. eapply andthen_step; [cbn [snd]; rewrite K; reflexivity|]. eapply andthen_step; [exact RD|reflexivity].
        * intros sn' k. rewrite L1'. cbn. apply L1.
        * rewrite K1. cbn. exact L5.
  Qed.
  Lemma discover_one : forall q a key fps s, outputs_of g q = Ok [a] -> key_of g a = Ok key -> fuel s = None -> dmem storage_eqb (known (db s)) (a_storage a) = false ->
    match discover E (files s) (a_storage a) fps with
    | Ok found => exists s', discover_producer_partitions E sn q fps s = (s', Ok (map ps_key (iter_set E (select fps (adds [] found))))) /\
        files s' = files s /\ fuel s' = None /\
        (forall y, In y (links_of (db s') sn key) <-> In y (links_of (db s) sn key) \/ In y (select fps (adds [] found)))
    | Err e => exists s', discover_producer_partitions E sn q fps s = (s', Err e)
    end.
  Proof.
    intros q a key fps s O K F D. 
    assert (KN : known_of (db s) (a_storage a) = []).
    { unfold known_of, getd. unfold dmem in D. now destruct (dget storage_eqb (known (db s)) (a_storage a)). }
    destruct (discover E (files s) (a_storage a) fps) as [found|e] eqn:DI.
    - set (b := write_artifact_partitions (db s) (a_storage a) found).
      assert (KB : known_of b (a_storage a) = adds [] found) by (unfold b; rewrite wa_known, (proj2 (storage_eqb_spec _ _) eq_refl), KN; reflexivity).
      assert (RK : exists b', read_artifact_partitions (db s) (a_storage a) fps (Ok found) = (b', Ok (select fps (adds [] found))) /\ links b' = links (db s)).
      { unfold read_artifact_partitions. rewrite D. cbn [rmap bind]. fold b. unfold known_of in KB.
        assert (TS := touch_snd storage_eqb (known b) (a_storage a) []). destruct (touch storage_eqb (known b) (a_storage a) []) as [d l]. cbn in TS. rewrite TS, KB.
        eexists. split; [reflexivity|]. cbn. unfold b. now destruct (wa_other (db s) (a_storage a) found) as (_ & _ & -> & _). }
      destruct RK as (b' & RK & LB). set (new := iter_set E (select fps (adds [] found))).
      exists (with_db s (write_snapshot_partitions b' sn key new)). split; [|split; [reflexivity|split; [exact F|]]].
      + unfold discover_producer_partitions. eapply andthen_step; [rewrite O; reflexivity|]. cbn [collectM].
        assert (RD : read_known E (a_storage a) fps s = (with_db s b', Ok new)).
        { unfold read_known, effect, andthen. rewrite (tick_none _ F), DI, RK. reflexivity. }
        eapply andthen_step; [eapply andthen_step; [eapply andthen_step; [exact RD|reflexivity]|eapply andthen_step; reflexivity]|].
        eapply andthen_step.
        { cbn [eachM]. eapply andthen_step; [eapply andthen_step; [cbn [fst]; rewrite K; reflexivity|]|reflexivity].
          unfold write_links, effect, andthen. rewrite tick_none by exact F. cbn [snd with_db db]. reflexivity. }
        cbn [flat_map snd]. rewrite app_nil_r. reflexivity.
      + intro y. cbn [with_db db]. rewrite wl_links, (proj2 (snapshot_eqb_spec _ _) eq_refl), (proj2 (str_eqb_spec _ _) eq_refl). cbn [andb]. rewrite adds_In.
        unfold links_of at 1. rewrite LB. fold (links_of (db s) sn key). unfold new. split; (intros [I|I]; [now left|right]); [apply (proj1 (IT _ _) I)|apply (proj2 (IT _ _) I)].
    - eexists. unfold discover_producer_partitions, andthen, ret. rewrite O. cbn [collectM]. unfold andthen, read_known, effect, andthen. rewrite (tick_none _ F), DI.
      unfold read_artifact_partitions. rewrite D. cbn [rmap bind]. reflexivity.
  Qed.

  Section Producer.
  Context (q : producer) (a : artifact) (key : str).
  Context (ND : NoDup (map fst (g_arts g))) (SO : sound_outputs E sn q) (O : outputs_of g q = Ok [a]) (K : key_of g a = Ok key).
  Notation file_of k f := (st_id (a_storage a), k, Some f).
  (** What the producer reads is not where its output is written. *)
  Definition elsewhere (deps : list (pkey * list (str * list psnapshot))) : Prop := forall k d n l x k' f',
    In (k, d) deps -> In (n, l) d -> In x l -> location_of (ps_part x) <> (st_id (a_storage a), k', Some f').
  Definition at_hand (fps : list (pkey * option Z)) (found : list psnapshot) (k : pkey) : Prop := exists x, In x (select fps (adds [] found)) /\ ps_key x = k.
  Lemma at_hand_keys : forall fps found k, In k (map ps_key (iter_set E (select fps (adds [] found)))) <-> at_hand fps found k.
  Proof.
    intros fps found k. rewrite in_map_iff. unfold at_hand. split; intros (x & A & B); exists x; split; auto; first [apply (proj1 (IT _ _) B)|exact B|apply (proj2 (IT _ _) A)|exact A].
  Qed.
  (** What it did. *)
  Record built (s s' : state V) (deps : list (pkey * list (str * list psnapshot))) (fps : list (pkey * option Z)) (found : list psnapshot) : Prop := {
    b_fuel : fuel s' = None;
    b_reads : reads_same deps (files s) (files s');
    b_makes : forall k d, In (k, d) deps -> ~ at_hand fps found k -> exists data x, makes E sn q a key fps (files s) k d data x;
    b_links : forall y, In y (links_of (db s') sn key) <-> In y (links_of (db s) sn key) \/ In y (select fps (adds [] found)) \/
      exists k d data, In (k, d) deps /\ ~ at_hand fps found k /\ makes E sn q a key fps (files s) k d data y;
    b_file : forall k d f data x, st_kind (a_storage a) = SFile -> In (k, d) deps -> ~ at_hand fps found k -> makes E sn q a key fps (files s) k d data x ->
      get_fp fps k = Some f -> dget location_eqb (files s') (file_of k f) = Some data;
    b_other : forall loc, (forall k d f, st_kind (a_storage a) = SFile -> In (k, d) deps -> ~ at_hand fps found k -> get_fp fps k = Some f -> loc <> file_of k f) ->
       dget location_eqb (files s') loc = dget location_eqb (files s) loc }.
  Lemma reads_same_refl : forall deps fs, reads_same deps fs fs.
  Proof. intros deps fs k d n l x _ _ _. reflexivity. Qed.
  Lemma loop_built : forall inputs deps fps found s s2 s' r, compute_dependencies E q inputs = Ok (deps, fps) -> elsewhere deps -> files s2 = files s -> fuel s2 = None ->
    (forall y, In y (links_of (db s2) sn key) <-> In y (links_of (db s) sn key) \/ In y (select fps (adds [] found))) ->
    build_all E sn q (map ps_key (iter_set E (select fps (adds [] found)))) fps deps s2 = (s', Ok r) -> built s s' deps fps found.
  Proof.
    intros inputs deps fps found s s2 s' r CD EL F2 U2 L2 H.
    assert (NDD : NoDup (map fst deps)) by (destruct (compute_dependencies_ok E q _ _ _ CD) as (m & _ & X & _); exact X).
    assert (R2 : reads_same deps (files s) (files s2)) by (rewrite F2; apply reads_same_refl).
    destruct (loop_facts E sn q a key deps fps SO O K EL _ (files s) deps s2 s' r (fun kd I => I) NDD U2 R2 H) as (X1 & X2 & X3 & X4 & X5 & X6).
    assert (AH := at_hand_keys fps found). constructor; auto.
    - intros k d I N. apply X3; [exact I|]. now rewrite AH.
    - intro y. rewrite X4, L2. split.
      + intros [[I|I]|(k & d & data & I & N & M)]; auto. right. right. exists k, d, data. rewrite AH in N. auto.
      + intros [I|[I|(k & d & data & I & N & M)]]; auto. right. exists k, d, data. rewrite AH. auto.
    - intros k d f data x SK I N M G. eapply X5; eauto. now rewrite AH.
    - intros loc L. rewrite X6, F2; [reflexivity|]. intros k d f SK I N G. apply (L k d f SK I); [|exact G]. now rewrite <- AH.
  Qed.
  Lemma producer_facts : forall s s' r, fuel s = None -> dmem storage_eqb (known (db s)) (a_storage a) = false ->
    (forall inputs deps fps, inputs_at E sn (db s) (p_inputs q) inputs -> compute_dependencies E q inputs = Ok (deps, fps) -> elsewhere deps) ->
    build_producer E sn q s = (s', Ok r) ->
    exists inputs deps fps found, inputs_at E sn (db s) (p_inputs q) inputs /\ compute_dependencies E q inputs = Ok (deps, fps) /\
      discover E (files s) (a_storage a) fps = Ok found /\ built s s' deps fps found.
  Proof.
    intros s s' r F D EL H. apply andthen_ok in H. destruct H as (s1 & inputs & GI & H). assert (GO := GI). apply (get_inputs_ok E sn) in GO.
    destruct GO as (I0 & _). destruct (get_inputs_forward _ _ _ I0 F) as (s1' & GF & F1 & L1 & K1 & U1).
    assert (Q : s1' = s1) by (unfold get_producer_inputs in GI; rewrite GI in GF; congruence). subst s1'.
    apply andthen_ok in H. destruct H as (s2 & [deps fps] & CD & H). apply ret_ok in CD. destruct CD as [-> CD]. cbn [fst snd] in H.
    apply andthen_ok in H. destruct H as (s2 & ex & DP & H). assert (D1 := discover_one q a key fps s1 O K U1). rewrite K1 in D1. specialize (D1 D).
    rewrite F1 in D1. destruct (discover E (files s) (a_storage a) fps) as [found|e] eqn:DI; destruct D1 as (s2' & D1); [|congruence].
    destruct D1 as (D1 & F2 & U2 & L2). rewrite D1 in DP. injection DP as <- <-.
    exists inputs, deps, fps, found. split; [exact I0|]. split; [exact CD|]. split; [exact DI|].
    eapply loop_built; [exact CD|eapply EL; eauto|exact F2|exact U2| |exact H]. intro y. rewrite L2, L1. reflexivity.
  Qed.
  Lemma producer_succeeds : forall s inputs deps fps found, fuel s = None -> dmem storage_eqb (known (db s)) (a_storage a) = false ->
    inputs_at E sn (db s) (p_inputs q) inputs -> compute_dependencies E q inputs = Ok (deps, fps) -> elsewhere deps ->
    discover E (files s) (a_storage a) fps = Ok found ->
    (forall k d, In (k, d) deps -> ~ at_hand fps found k -> exists data x, makes E sn q a key fps (files s) k d data x) ->
    exists s', build_producer E sn q s = (s', Ok tt) /\ built s s' deps fps found.
  Proof.
    intros s inputs deps fps found F D I0 CD EL DI M. destruct (get_inputs_forward _ _ _ I0 F) as (s1 & GF & F1 & L1 & K1 & U1).
    assert (D1 := discover_one q a key fps s1 O K U1). rewrite K1 in D1. specialize (D1 D). rewrite F1, DI in D1. destruct D1 as (s2 & D1 & F2 & U2 & L2).
    destruct (loop_succeeds E sn q a key inputs deps fps O CD EL (map ps_key (iter_set E (select fps (adds [] found)))) (files s) deps s2 (fun kd I => I) U2) as (s' & B).
    - rewrite F2. apply reads_same_refl.
    - intros k d I N. apply M; [exact I|]. now rewrite <- at_hand_keys.
    - exists s'. split.
      + unfold build_producer. eapply andthen_step; [exact GF|]. eapply andthen_step; [rewrite CD; reflexivity|]. cbn [fst snd]. eapply andthen_step; [exact D1|exact B].
      + eapply loop_built; [exact CD|exact EL|exact F2|exact U2| |exact B]. intro y. rewrite L2, L1. reflexivity.
  Qed.
  End Producer.
End Fresh.
