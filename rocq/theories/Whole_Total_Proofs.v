(** A build succeeds if, and only if, the functions do. *)
From Coq Require Import ZArith List Ascii String Bool Arith Lia.
From Verif Require Import Base Base_Proofs Str Str_Proofs Graph_Model Graph_Spec Graph_Proofs Backend_Model Backend_Spec Backend_Proofs.
From Verif Require Import Executor_Model Executor_Spec Executor_Proofs Executor_Done_Proofs Executor_Build_Proofs Executor_Write_Proofs
  Executor_Store_Proofs Executor_Id_Proofs Executor_Crash_Proofs Executor_New_Proofs Executor_Stop_Proofs Executor_Restart_Proofs
  Executor_Resumed_Proofs Executor_Top_Proofs Whole_Model Whole_Spec Whole_Proofs Whole_Reused_Proofs.
Import ListNotations.
Open Scope list_scope.

(** * Actions that succeed *)
Section Sure.
  Context {V : Type}.
  Definition goes {A} (m : M V A) (s : state V) (x : A) (s' : state V) : Prop := m s = (s', Ok x) /\ fuel s' = None.
  Lemma goes_bind : forall A B (m : M V A) (f : A -> M V B) s s1 s2 x y, goes m s x s1 -> goes (f x) s1 y s2 -> goes (_x <- m ;; f _x) s y s2.
  Proof. intros A B m f s s1 s2 x y [M _] F. unfold goes, andthen. now rewrite M. Qed.
  Lemma goes_ret : forall A (s : state V) (x : A) r, fuel s = None -> r = Ok x -> goes (ret r) s x s.
  Proof. intros A s x r F ->. now split. Qed.
  Lemma goes_effect : forall A (f : state V -> state V * result A) s s' x, fuel s = None -> f s = (s', Ok x) -> fuel s' = None -> goes (effect f) s x s'.
  Proof. intros A f s s' x F H F'. unfold goes, effect, andthen. now rewrite tick_none. Qed.
  Lemma goes_collect : forall A B (f : A -> M V B) l s, fuel s = None -> (forall x s, In x l -> fuel s = None -> exists y s', goes (f x) s y s') ->
    exists ys s', goes (collectM f l) s ys s'.
  Proof.
    induction l as [|x l IH]; intros s F H; cbn [collectM]; [exists [], s; now split|].
    destruct (H x s (or_introl eq_refl) F) as (y & s1 & G1). destruct (IH s1 (proj2 G1)) as (ys & s2 & G2); [intros; apply H; auto; now right|].
    exists (y :: ys), s2. eapply goes_bind; [exact G1|]. eapply goes_bind; [exact G2|]. apply goes_ret; [exact (proj2 G2)|reflexivity].
  Qed.
  Lemma goes_each : forall A (f : A -> M V unit) l s, fuel s = None -> (forall x s, In x l -> fuel s = None -> exists s', goes (f x) s tt s') ->
    exists s', goes (eachM f l) s tt s'.
  Proof.
    induction l as [|x l IH]; intros s F H; cbn [eachM]; [exists s; now split|].
    destruct (H x s (or_introl eq_refl) F) as (s1 & G1). destruct (IH s1 (proj2 G1)) as (s2 & G2); [intros; apply H; auto; now right|].
    exists s2. eapply goes_bind; [exact G1|exact G2].
  Qed.
End Sure.

(** * What a snapshot links is linked once *)
Lemma from_graph_once : forall V (E : env V) g s s1 sn, db s = empty_backend -> from_graph E g s = (s1, Ok sn) -> forall key, NoDup (links_of (db s1) sn key).
Proof.
  intros V E g s s1 sn U H. unfold from_graph in H. apply andthen_ok in H. destruct H as (s0 & found & V1 & H). injection V1 as -> VA.
  apply andthen_ok in H. destruct H as (s2 & u2 & H2 & H). apply effect_ok in H2. destruct H2 as (sa & Fa & Da & _ & H2). injection H2 as <-.
  apply andthen_ok in H. destruct H as (s3 & u3 & H3 & H). apply effect_ok in H3. destruct H3 as (sb & Fb & Db & _ & H3). injection H3 as <-.
  apply andthen_ok in H. destruct H as (s4 & u4 & H4 & H). apply ret_ok in H. destruct H as [-> H]. injection H as <-.
  set (sn := Snapshot (fst found) g) in *. intro key.
  assert (N : NoDup (links_of (write_snapshot (snapshot_fp E) (db sb) sn) sn key)).
  { destruct (ws_spec (snapshot_fp E) (db sb) sn) as (_ & W1 & _). destruct (wg_spec (graph_fp E) (db sa) g) as (_ & W2 & _). cbn [with_db db] in *.
    assert (Q : links (write_snapshot (snapshot_fp E) (db sb) sn) = links (db s0)) by congruence. unfold links_of. rewrite Q, U. constructor. }
  change (write_snapshot (snapshot_fp E) (db sb) sn) with (db (with_db sb (write_snapshot (snapshot_fp E) (db sb) sn))) in N.
  clear VA. revert N H4. generalize (with_db sb (write_snapshot (snapshot_fp E) (db sb) sn)). generalize (snd found) as l.
  induction l as [|[[key0 a0] ps0] l IH]; intros st N H4; cbn [eachM fst snd] in H4; [injection H4 as <- _; exact N|].
  apply andthen_ok in H4. destruct H4 as (st1 & u & G & H4). revert H4. apply IH. apply andthen_ok in G. destruct G as (st2 & u' & G1 & G2).
  apply effect_ok in G1. destruct G1 as (st3 & _ & D3 & _ & G1). injection G1 as <-. apply write_links_ok in G2. destruct G2 as [-> _]. cbn [with_db db].
  rewrite wl_links. assert (LQ : forall k, links_of (write_artifact_partitions (db st3) (a_storage a0) ps0) sn k = links_of (db st) sn k).
  { intro k. rewrite D3. apply links_of_same. apply wa_other. }
  destruct (_ && _)%bool eqn:Q; rewrite LQ; [|exact N]. apply andb_true_iff in Q. destruct Q as [_ Q]. apply str_eqb_spec in Q. subst key0. now apply adds_NoDup.
Qed.

Section Total.
  Context {V : Type} (E : env V) (IT : iterates E) (IO : iterates_once E) (ST : settled E) (sn : snapshot).
  Notation g := (s_graph sn).
  Context (W : in_order E (g_arts g)) (WH : whole E (g_arts g)) (DP : distinct_paths (g_arts g)) (NG : no_gaps (g_arts g))
    (TP : templated (g_arts g)) (CP : complete E (g_arts g)) (s0 : state V) (SV : survives E s0 (g_arts g)).
  Context (RW : forall k a, In (k, a) (g_arts g) -> a_output a = None -> exists x, raw_found E s0 (a_storage a) x).

  Lemma key_known : forall a, In a (map snd (g_arts g)) -> exists key, key_of g a = Ok key.
  Proof. intros a I. apply in_map_iff in I. destruct I as ([k b] & <- & I). eapply key_of_defined; eauto. Qed.
  Lemma produced_known : forall p i a, produces (g_arts g) p i a -> exists key, key_of g a = Ok key.
  Proof. intros p i a (k & I & _). eapply key_of_defined; eauto. Qed.

  Lemma inputs_go : forall q i o s, produces (g_arts g) q i o -> fuel s = None -> exists inputs s1, goes (get_producer_inputs E sn q) s inputs s1.
  Proof.
    intros q i o s P F. apply goes_collect; [exact F|]. intros [n a] s1 I F1. cbn [fst snd].
    destruct (key_known a (cp_inputs _ _ CP _ _ _ _ _ P I)) as (key & K).
    destruct (read_snapshot_partitions (db s1) sn key) as [b l] eqn:Q. eexists _, _. eapply goes_bind; [apply goes_ret; [exact F1|exact K]|].
    eapply goes_bind; [eapply goes_effect; [exact F1|rewrite Q; reflexivity|exact F1]|]. apply goes_ret; [exact F1|reflexivity].
  Qed.

  Lemma names_at : forall b l inputs, inputs_at E sn b l inputs -> map fst inputs = map fst l.
  Proof. intros b l inputs H. induction H as [|na nl l inputs (key & _ & ->) H IH]; [reflexivity|]. cbn. now f_equal. Qed.
  Lemma links_at : forall b l inputs n a, inputs_at E sn b l inputs -> In (n, a) l ->
    exists key, key_of g a = Ok key /\ In (n, iter_set E (links_of b sn key)) inputs.
  Proof.
    intros b l inputs n a H I. induction H as [|na nl l inputs (key & K & ->) H IH]; [destruct I|]. destruct I as [ -> |I].
    - exists key. split; [exact K|now left].
    - destruct (IH I) as (key' & K' & J). exists key'. split; [exact K'|now right].
  Qed.

  (** All that [build] takes is handed to it. *)
  Lemma dependencies_go : forall q i o b inputs, produces (g_arts g) q i o -> inputs_at E sn b (p_inputs q) inputs ->
    exists d f, compute_dependencies E q inputs = Ok ([([], d)], [([], Some f)]) /\
      forall n a key, In n (c_build_inputs (classes E (p_class q))) -> dget str_eqb (p_inputs q) n = Some a -> key_of g a = Ok key ->
        dget str_eqb d n = Some (iter_set E (links_of b sn key)).
  Proof.
    intros q i o b inputs P IA. unfold compute_dependencies, class_of. rewrite (wh_map _ _ WH _ _ _ P).
    set (fl := filter (fun i => existsb (str_eqb (fst i)) (c_map_inputs (classes E (p_class q)))) inputs).
    assert (NI : NoDup (map fst inputs)) by (rewrite (names_at _ _ _ IA); exact (wh_inputs _ _ WH _ _ _ P)).
    assert (NF : NoDup (map fst fl)) by now apply filter_NoDup. cbn [default_map bind map fst snd].
    assert (DI : dict_of str_eqb fl = fl) by now apply Layout_Proofs.dict_of_NoDup. rewrite DI.
    assert (MEM : forall n l, In (n, l) fl <-> In (n, l) inputs /\ In n (c_build_inputs (classes E (p_class q)))).
    { intros n l. unfold fl. rewrite filter_In. cbn [fst]. rewrite (wh_map_inputs _ _ WH _ _ _ P). split; intros [I1 I2]; (split; [exact I1|]).
      - apply existsb_exists in I2. destruct I2 as (m & I2 & Q). apply str_eqb_spec in Q. subst m. apply filter_In in I2. destruct I2 as [_ I2].
        apply existsb_exists in I2. destruct I2 as (m & I2 & Q). apply str_eqb_spec in Q. now subst m.
      - apply existsb_exists. exists n. split; [|now apply str_eqb_spec]. apply filter_In. split.
        + rewrite <- (names_at _ _ _ IA). now apply (in_map fst) in I1.
        + apply existsb_exists. exists n. split; [exact I2|now apply str_eqb_spec]. }
    change (dict_of str_eqb [([], fl)]) with [(@nil ascii, fl)]. cbn [mapM fst snd].
    assert (FP : input_fingerprint E q fl = Ok (fingerprint_for E q fl)).
    { apply input_fingerprint_iff. split; [|reflexivity]. intro n. split.
      - intro I. apply in_map_iff in I. destruct I as ([m l] & <- & I). now apply MEM in I.
      - intro I. assert (J := cp_takes _ _ CP _ _ _ _ P I). rewrite <- (names_at _ _ _ IA) in J. apply in_map_iff in J. destruct J as ([m l] & <- & J).
        apply (in_map fst fl (m, l)). now apply MEM. }
    rewrite FP. cbn [rmap bind]. exists fl, (fingerprint_for E q fl). split; [reflexivity|].
    intros n a key I DA K. apply (dget_NoDup _ str_eqb_spec); [exact NF|]. apply MEM. split; [|exact I].
    apply (dget_In _ str_eqb_spec) in DA. destruct (links_at _ _ _ _ _ IA DA) as (key' & K' & J). congruence.
  Qed.

  Lemma discover_go : forall q f s outs, outputs_of g q = Ok outs -> fuel s = None ->
    exists existing s1, goes (discover_producer_partitions E sn q [([], Some f)]) s existing s1.
  Proof.
    intros q f s outs O F. unfold discover_producer_partitions.
    destruct (goes_collect _ _ (fun a => l <- read_known E (a_storage a) [([], Some f)] ;; ret (Ok (a, l))) outs s F) as (found & s1 & G1).
    { intros a s1 I F1. destruct (out_produced _ _ _ _ O I) as (j & PA).
      assert (D : exists found, discover E (files s1) (a_storage a) [([], Some f)] = Ok found).
      { destruct (st_kind (a_storage a)) as [|v] eqn:SK.
        - destruct (discover_file E (files s1) (a_storage a) [([], Some f)] SK (TP _ _ _ PA)) as (found & D & _). eauto.
        - unfold discover. rewrite SK. destruct v as [d|]; [now destruct (cp_free _ _ CP _ _ _ d PA)|]. cbn. rewrite Bool.andb_false_r. eauto. }
      destruct D as (fd & D). assert (RS := ra_spec (db s1) (a_storage a) [([], Some f)] (Ok fd)).
      destruct (read_artifact_partitions (db s1) (a_storage a) [([], Some f)] (Ok fd)) as [b [l|e]] eqn:Q.
      - eexists _, _. eapply goes_bind; [eapply goes_effect; [exact F1|rewrite D, Q; reflexivity|exact F1]|]. apply goes_ret; [exact F1|reflexivity].
      - destruct RS as (_ & _ & _ & _ & _ & RS & _). discriminate. }
    destruct (goes_each _ (fun al => key <- ret (key_of g (fst al)) ;; write_links sn key (snd al)) found s1 (proj2 G1)) as (s2 & G2).
    { intros [a l] s2 I F2. cbn [fst snd]. assert (Ia : In a outs).
      { destruct (collect_known_ok E sn _ _ _ _ _ (proj1 G1)) as (-> & _). apply in_map_iff in I. destruct I as (b & Q & I). injection Q as <- _. exact I. }
      destruct (out_produced _ _ _ _ O Ia) as (j & PA). destruct (produced_known _ _ _ PA) as (key & K).
      eexists. eapply goes_bind; [apply goes_ret; [exact F2|exact K]|]. eapply goes_effect; [exact F2|reflexivity|exact F2]. }
    eexists _, _. eapply goes_bind; [apply goes_ret; [exact F|exact O]|]. eapply goes_bind; [exact G1|]. eapply goes_bind; [exact G2|].
    apply goes_ret; [exact (proj2 G2)|reflexivity].
  Qed.

  (** * Reading *)
  Lemma mapM_content : forall (s : state V) xs ds, Forall2 (holds_data s) xs ds ->
    mapM (fun x => match content (files s) (ps_part x) with
                   | Some d => Ok d
                   | None => Err (match st_kind (pt_storage (ps_part x)) with SFile => FileNotFoundError | SLiteral _ => AssertionError end)
                   end) xs = Ok ds.
  Proof.
    intros s xs ds H. induction H as [|x d xs ds H HS IH]; [reflexivity|]. cbn [mapM]. apply holds_content in H. rewrite H. cbn [bind]. now rewrite IH.
  Qed.
  Lemma value_go : forall pre s a key v, inv E sn s0 pre s -> (a_output a = None -> NoDup (links_of (db s) sn key)) ->
    (forall p i, a_output a = Some (p, i) -> In (NProducer p) pre) -> key_of g a = Ok key -> value E s0 a v ->
    snd (io_read E a (iter_set E (links_of (db s) sn key)) s) = Ok v.
  Proof.
    intros pre s a key v IV N1 PRE K VA. unfold io_read. cbn [snd]. destruct (a_output a) as [[p i]|] eqn:AO.
    - assert (PA : produces (g_arts g) p i a) by (exists key; split; [now apply key_of_In|exact AO]).
      destruct (iv_done _ _ _ _ _ IV p i a PA (PRE _ _ eq_refl)) as (v' & VA' & (key' & d & x & K' & D & L & H & S) & LV).
      rewrite K in K'. injection K' as <-. rewrite L, (iter_one _ E IT IO). cbn [List.length Nat.ltb Nat.leb andb].
      rewrite (mapM_content s [x] [d]) by (repeat constructor; exact H). cbn [bind]. rewrite (LV _ D). f_equal. eapply one_value; eauto.
    - assert (ND := N1 eq_refl).
      inversion VA as [? parts ds ? _ P HD LD|? p i ? ? ? AO']; subst; [|congruence].
      assert (EQ : forall x, In x (links_of (db s) sn key) <-> In x parts) by (intro x; rewrite (iv_raw _ _ _ _ _ IV a key x AO K); symmetry; apply P).
      assert (HD' : Forall2 (holds_data s) (iter_set E parts) ds).
      { assert (HX : forall x, In x (iter_set E parts) -> forall d, holds_data s0 x d -> holds_data s x d).
        { intros x I d. apply (proj1 (IT _ _)) in I. apply P in I. destruct I as [_ I]. unfold holds_data. destruct (st_kind (a_storage a)) eqn:SK.
          - destruct I as (k & d0 & _ & _ & ->). cbn. rewrite SK. now rewrite (iv_files _ _ _ _ _ IV).
          - destruct I as (d0 & _ & _ & ->). cbn. rewrite SK. auto. }
        clear - HD HX. induction HD as [|x d l ds H HD IH]; constructor; [apply HX; [now left|exact H]|]. apply IH. intros y I. apply HX. now right. }
      assert (ONE : (1 <? List.length (iter_set E (links_of (db s) sn key))) && negb (st_partitioned (a_storage a)) = false).
      { destruct (st_partitioned (a_storage a)) eqn:PT; [apply Bool.andb_false_r|]. rewrite Bool.andb_true_r. apply Nat.ltb_ge.
        assert (ND' := IO _ ND). assert (ALL : forall x y, In x (iter_set E (links_of (db s) sn key)) -> In y (iter_set E (links_of (db s) sn key)) -> x = y).
        { intros x y I J. apply (proj1 (IT _ _)) in I. apply (proj1 (IT _ _)) in J. apply EQ, P in I. apply EQ, P in J. destruct I as [_ I], J as [_ J].
          destruct (st_kind (a_storage a)).
          - destruct I as (k & d & D1 & P1 & ->), J as (k' & d' & D2 & P2 & ->). rewrite PT in P1, P2. destruct k; [|discriminate]. destruct k'; [|discriminate]. congruence.
          - destruct I as (d & D1 & _ & ->), J as (d' & D2 & _ & ->). congruence. }
        destruct (iter_set E (links_of (db s) sn key)) as [|x [|y l]]; cbn; [lia|lia|]. exfalso.
        assert (x = y) by (apply ALL; [now left|right; now left]). subst y. inversion ND' as [|? ? N _]. apply N. now left. }
      rewrite ONE. rewrite (ST _ _ EQ) in *. destruct (RW key a (key_of_In _ _ _ K) AO) as (x & RF). apply P in RF.
      assert (RI : In x (iter_set E parts)) by now apply IT. destruct (iter_set E parts) as [|x0 l0]; [destruct RI|].
      rewrite (mapM_content s _ _ HD'). exact LD.
  Qed.

  Lemma arguments_go : forall pre s q d names args, inv E sn s0 pre s ->
    (forall n a key, In (n, a) (p_inputs q) -> a_output a = None -> key_of g a = Ok key -> NoDup (links_of (db s) sn key)) ->
    (forall n a p i, In (n, a) (p_inputs q) -> a_output a = Some (p, i) -> In (NProducer p) pre) ->
    (forall n a, In (n, a) (p_inputs q) -> In a (map snd (g_arts g))) ->
    (forall n a key, In n names -> dget str_eqb (p_inputs q) n = Some a -> key_of g a = Ok key -> dget str_eqb d n = Some (iter_set E (links_of (db s) sn key))) ->
    arguments E s0 (p_inputs q) names args -> forall st, files st = files s -> fuel st = None ->
    goes (collectM (fun name =>
        a <- ret (match dget str_eqb (p_inputs q) name with Some a => Ok a | None => Err KeyError end) ;;
        d <- ret (match dget str_eqb d name with Some d => Ok d | None => Err KeyError end) ;;
        v <- read_input E sn a d ;; ret (Ok (name, v))) names) st args st.
  Proof.
    intros pre s q d names args IV ND PRE IG DD A st FS FU. revert args A. induction names as [|n names IH]; intros args A; inversion A as [|? ? ? a v args' DA VA A']; subst.
    - now split.
    - cbn [collectM]. assert (Ia := dget_In _ str_eqb_spec _ _ _ DA). destruct (key_known a (IG _ _ Ia)) as (key & K).
      eapply goes_bind; [|eapply goes_bind; [apply IH; [intros n' a' key' I' D' K'; apply (DD n' a' key'); auto; now right|exact A']|apply goes_ret; [exact FU|reflexivity]]].
      eapply goes_bind; [apply goes_ret; [exact FU|now rewrite DA]|]. eapply goes_bind; [apply goes_ret; [exact FU|now rewrite (DD n a key (or_introl eq_refl) DA K)]|].
      eapply goes_bind; [|apply goes_ret; [exact FU|reflexivity]]. eapply goes_bind; [apply goes_ret; [exact FU|exact K]|]. split; [|exact FU].
      assert (R : snd (io_read E a (iter_set E (links_of (db s) sn key)) s) = Ok v).
      { eapply value_go; eauto. }
      unfold io_read in *. cbn [snd] in R. rewrite FS. now rewrite R.
  Qed.

  (** * Writing *)
  Lemma write_go : forall p i a f v d s, produces (g_arts g) p i a -> check E p i a v = Ok tt -> dump E a v = Ok d -> fuel s = None ->
    exists s', goes (write_output E sn p i a f [] v) s tt s'.
  Proof.
    intros p i a f v d s P C D F. destruct (produced_known _ _ _ P) as (key & K).
    set (part := Partition (a_storage a) [] (Some f) (match st_kind (a_storage a) with SLiteral v => v | SFile => None end)).
    assert (G : generate_partition (a_storage a) (Some f) [] = Ok part).
    { unfold generate_partition. rewrite (cp_single _ _ CP _ _ _ P), (TP _ _ _ P). reflexivity. }
    assert (IW : exists x s1, goes (io_write E a v part) s x s1).
    { unfold io_write. cbn [pt_storage part]. destruct (st_kind (a_storage a)) as [|w] eqn:SK.
      - exists (PSnapshot part (file_fp E d)), (with_log (with_file (with_file s (location_of part) []) (location_of part) d) (Wrote (location_of part) d)).
        eapply goes_bind; [eapply goes_effect; [exact F|reflexivity|exact F]|]. eapply goes_bind; [apply goes_ret; [exact F|exact D]|].
        eapply goes_bind; [eapply goes_effect; [exact F|reflexivity|exact F]|]. split; [|exact F]. unfold take_snapshot, content. cbn [pt_storage part with_log with_file files].
        rewrite SK. rewrite (dget_dset_same _ location_eqb_spec). reflexivity.
      - cbn [pt_value part]. destruct w as [w|]; [now destruct (cp_free _ _ CP _ _ _ w P)|]. eexists _, s.
        eapply goes_bind; [apply goes_ret; [exact F|exact D]|]. split; [|exact F]. unfold take_snapshot, content. cbn [pt_storage pt_value]. rewrite SK. reflexivity. }
    destruct IW as (x & s1 & IW). assert (F1 := proj2 IW). eexists. eapply goes_bind; [apply goes_ret; [exact F|exact K]|].
    eapply goes_bind; [apply goes_ret; [exact F|destruct P as (? & _ & ->); reflexivity]|]. eapply goes_bind; [apply goes_ret; [exact F|exact C]|].
    eapply goes_bind; [apply goes_ret; [exact F|exact G]|]. eapply goes_bind; [exact IW|].
    eapply goes_bind; [eapply goes_effect; [exact F1|reflexivity|exact F1]|]. eapply goes_effect; [exact F1|reflexivity|exact F1].
  Qed.
  Lemma outputs_nth : forall p outs j b, outputs_of g p = Ok outs -> produces (g_arts g) p j b -> nth_error outs j = Some b.
  Proof.
    intros p outs j b O P. destruct (produces_out E sn p j b W P) as (outs' & O' & I). rewrite O in O'. injection O' as <-.
    apply In_nth_error in I. destruct I as (k & NE). assert (PK := nth_position sn p outs k b NG O NE).
    destruct P as (? & _ & P), PK as (? & _ & PK). rewrite P in PK. now injection PK as <-.
  Qed.
  Lemma outputs_go : forall p i0 a0 outs f vs i s, produces (g_arts g) p i0 a0 -> outputs_of g p = Ok outs -> fuel s = None ->
    i + List.length vs <= outputs_declared (classes E (p_class p)) ->
    (forall j a v, nth_error vs j = Some v -> produces (g_arts g) p (i + j) a -> check E p (i + j) a v = Ok tt /\ exists d, dump E a v = Ok d) ->
    exists s', goes (write_outputs E sn p f [] i outs vs) s tt s'.
  Proof.
    intros p i0 a0 outs f vs. induction vs as [|v vs IH]; intros i s P0 O F LE OK; cbn [write_outputs]; [exists s; now split|]. cbn [List.length] in LE.
    destruct (cp_outputs _ _ CP p i0 a0 i P0) as (a & PA); [lia|]. destruct (OK 0 a v eq_refl) as (C & d & D); [now rewrite Nat.add_0_r|]. rewrite Nat.add_0_r in C.
    destruct (write_go p i a f v d s PA C D F) as (s1 & G1). destruct (IH (S i) s1 P0 O (proj2 G1)) as (s2 & G2); [lia| |].
    { intros j b w NV PB. rewrite Nat.add_succ_comm in PB. rewrite Nat.add_succ_comm. apply (OK (S j)); auto. }
    exists s2. eapply goes_bind; [apply goes_ret; [exact F|now rewrite (outputs_nth _ _ _ _ O PA)]|].
    eapply goes_bind; [apply goes_ret; [exact F|]|eapply goes_bind; [exact G1|exact G2]]. change (n_outputs E p) with (outputs_declared (classes E (p_class p))).
    assert (LT : (i <? outputs_declared (classes E (p_class p))) = true) by (apply Nat.ltb_lt; lia). now rewrite LT.
  Qed.

  Definition ready (pre : list node) (s : state V) : Prop := inv E sn s0 pre s /\ fuel s = None /\
    forall a key, a_output a = None -> key_of g a = Ok key -> NoDup (links_of (db s) sn key).

  Lemma producer_go : forall pre rest q i o s, build_order (dependencies (g_arts g)) (pre ++ NProducer q :: rest) -> produces (g_arts g) q i o -> makes E s0 (g_arts g) q ->
    ready pre s -> exists s', goes (build_producer E sn q) s tt s'.
  Proof.
    intros pre rest q i o s BO P (args & vs & AR & RU & CV & OK) (IV & F & ND). destruct BO as (NDO & BV & BB).
    assert (NQ : ~ In (NProducer q) pre) by (intro I; apply NoDup_remove_2 in NDO; apply NDO, in_app_iff; now left).
    assert (IG : forall n a, In (n, a) (p_inputs q) -> In a (map snd (g_arts g))) by (intros n a I; eapply (cp_inputs _ _ CP); eauto).
    assert (PRE : forall n a p j, In (n, a) (p_inputs q) -> a_output a = Some (p, j) -> In (NProducer p) pre).
    { intros n a p j Ia AO. destruct (key_known a (IG _ _ Ia)) as (key & K). destruct P as (kk & Ik & AOo).
      assert (B1 := BB _ _ (proj2 (dependencies_needs _ _ _) (needs_input _ _ _ _ _ _ _ Ik AOo Ia))).
      assert (B2 := BB _ _ (proj2 (dependencies_needs _ _ _) (needs_producer _ _ _ _ _ (key_of_In _ _ _ K) AO))).
      apply just_before in B1; [|exact NDO]. eapply before_prefix in B2; [exact B2|exact NDO|exact B1]. }
    destruct (produces_out E sn q i o W P) as (outs & O & _).
    destruct (inputs_go q i o s P F) as (inputs & s1 & G1). destruct (get_inputs_ok E sn _ _ _ _ (proj1 G1)) as (A1 & _ & A3 & A4 & A5).
    destruct (dependencies_go q i o _ inputs P A1) as (d & f & CD & DD).
    destruct (discover_go q f s1 outs O (proj2 G1)) as (existing & s2 & G2). assert (F2 := proj2 G2).
    destruct (discover_nothing E IT sn q [([], Some f)] s1 s2 existing) as (-> & A6 & A7); [discriminate| |exact (proj1 G2)|].
    { intros outs' a O' I. destruct (out_produced _ _ _ _ O' I) as (j & PA). destruct (iv_todo _ _ _ _ _ IV q j a PA NQ) as (T1 & T2 & _).
      rewrite A4, A5. split; [exact (TP _ _ _ PA)|]. split; [exact T1|exact T2]. }
    assert (GA := arguments_go pre s q d _ args IV (fun n a key I AO K => ND a key AO K) PRE IG DD AR s2 (ltac:(congruence)) F2).
    assert (GO : exists s3, goes (build_producer_partition E sn q [] f d []) s2 tt s3).
    { unfold build_producer_partition. cbn [existsb].
      assert (RE : match c_build (class_of E q) with Single f => rmap (fun v => [v]) (f args) | Multiple _ f => f args end = Ok vs).
      { unfold runs in RU. unfold class_of. destruct (c_build (classes E (p_class q))) as [fn|m fn]; [|now symmetry]. destruct (fn args); [|discriminate]. cbn. now symmetry. }
      destruct (outputs_go q i o outs f vs 0 (with_log (with_log s2 (Built q [] args)) (Validated q [] vs)) P O F2) as (s3 & G3).
      - cbn [Nat.add]. rewrite (io_returns _ _ W _ _ _ _ _ P RU). lia.
      - intros j a v NV PA. cbn [Nat.add] in *. now apply OK.
      - exists s3. eapply goes_bind; [exact GA|]. eapply goes_bind.
        { eapply goes_effect; [exact F2|rewrite RE; reflexivity|exact F2]. }
        eapply goes_bind; [eapply goes_effect; [exact F2|unfold class_of; rewrite CV; reflexivity|exact F2]|]. cbn [negb].
        eapply goes_bind; [apply goes_ret; [exact F2|exact O]|]. exact G3. }
    destruct GO as (s3 & G3). exists s3. eapply goes_bind; [exact G1|]. eapply goes_bind; [apply goes_ret; [exact (proj2 G1)|exact CD]|]. cbn [fst snd].
    eapply goes_bind; [exact G2|]. cbn [eachM fst snd]. eapply goes_bind; [|apply goes_ret; [exact (proj2 G3)|reflexivity]].
    eapply goes_bind; [apply goes_ret; [exact F2|reflexivity]|]. exact G3.
  Qed.

  Lemma nodes_go : (forall p i a, produces (g_arts g) p i a -> makes E s0 (g_arts g) p) -> forall rest pre s, build_order (dependencies (g_arts g)) (pre ++ rest) ->
    ready pre s -> exists s', goes (build_nodes E sn rest) s tt s'.
  Proof.
    intro MK. induction rest as [|n rest IH]; intros pre s BO RD; cbn [build_nodes eachM]; [exists s; split; [reflexivity|exact (proj1 (proj2 RD))]|].
    assert (BO' : build_order (dependencies (g_arts g)) ((pre ++ [n]) ++ rest)) by now rewrite <- app_assoc.
    destruct n as [a|q].
    - destruct (IH (pre ++ [NArtifact a]) s BO') as (s' & G).
      + destruct RD as (IV & F & ND). split; [|split; [exact F|exact ND]]. now apply inv_artifact.
      + exists s'. eapply goes_bind; [apply goes_ret; [exact (proj1 (proj2 RD))|reflexivity]|exact G].
    - assert (PQ : exists i o, produces (g_arts g) q i o).
      { destruct BO as (_ & BV & _). assert (I : In (NProducer q) (pre ++ NProducer q :: rest)) by (apply in_app_iff; right; now left).
        apply BV in I. destruct I as (n & ps & I & Q). apply dependencies_In in I. rewrite artifact_deps_In, producer_deps_In in I.
        destruct I as [(k & a & I & -> & ->)|(k & a & p & i & I & AO & -> & ->)].
        - destruct Q as [Q|Q]; [discriminate|]. destruct (a_output a) as [[p i]|] eqn:AO; [|destruct Q]. destruct Q as [Q|[]]. injection Q as ->. exists i, a, k. auto.
        - destruct Q as [Q|Q]; [injection Q as ->; exists i, a, k; auto|]. apply (proj1 (set_of_In _ node_eqb_spec _ _)) in Q. apply in_map_iff in Q. destruct Q as (? & Q & _). discriminate. }
      destruct PQ as (i & o & PQ). destruct (producer_go pre rest q i o s BO PQ (MK _ _ _ PQ) RD) as (s1 & G1).
      destruct (IH (pre ++ [NProducer q]) s1 BO') as (s' & G).
      + destruct RD as (IV & F & ND). split; [|split; [exact (proj2 G1)|]].
        * eapply (producer_step E IT IO sn W WH DP NG TP s0 SV pre rest); eauto. exact (proj1 G1).
        * intros a key AO K. assert (FR := within_build_producer E sn q _ _ _ (proj1 G1)). rewrite (fr_links _ _ _ _ _ FR); [now apply (ND a key)|].
          right. intro OK. destruct (input_not_out sn q a key (io_keys _ _ W) K OK) as (j & AO'). congruence.
      + exists s'. eapply goes_bind; [exact G1|exact G].
  Qed.
End Total.

(** * The theorem *)
Theorem succeeds : forall V (E : env V), iterates E -> iterates_once E -> settled E -> forall g s,
  in_order E (g_arts g) -> whole E (g_arts g) -> distinct_paths (g_arts g) -> no_gaps (g_arts g) -> templated (g_arts g) -> complete E (g_arts g) ->
  survives E s (g_arts g) -> unbuilt (g_arts g) s ->
  ((exists s' sn, graph_build E g s = (s', Ok sn)) <->
   (forall k a, In (k, a) (g_arts g) -> a_output a = None -> exists x, raw_found E s (a_storage a) x) /\
   (forall p i a, produces (g_arts g) p i a -> makes E s (g_arts g) p)).
Proof.
  intros V E IT IO ST g s W WH DP NG TP CP SV UB. split.
  - intros (s' & sn & H). split.
    + apply andthen_ok in H. destruct H as (s1 & sn' & FG & _). apply snapshot_links in FG. tauto.
    + intros p i a P. destruct (graph_built V E IT IO g s s' sn W WH DP NG TP SV UB H) as (_ & B). apply (B p i a P).
  - intros (RW & MK). assert (F : fuel s = None) by apply UB. destruct (snapshot_total E g s F RW) as (s1 & sn & FG).
    assert (IV := start_inv V E g s s1 sn W TP UB FG). assert (F1 := from_graph_fuel E _ _ _ _ F FG).
    assert (ON := from_graph_once V E g s s1 sn (proj1 UB) FG). destruct (snapshot_links E g s s1 sn FG) as (GS & _).
    destruct (build_is V E sn) as (order & BO & EQ). rewrite <- GS in *.
    destruct (nodes_go E IT IO ST sn W WH DP NG TP CP s SV RW MK order [] s1 BO) as (s' & G & _); [split; [exact IV|split; [exact F1|intros; apply ON]]|].
    exists s', sn. unfold graph_build, andthen. rewrite FG, EQ, G. reflexivity.
Qed.
