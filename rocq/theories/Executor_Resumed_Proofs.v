(** A stopped build that is resumed ends where it would have ended. *)
From Coq Require Import ZArith List Ascii String Bool Arith Lia.
From Verif Require Import Base Base_Proofs Str Str_Proofs Graph_Model Graph_Spec Graph_Proofs.
From Verif Require Import Backend_Model Backend_Spec Backend_Proofs Executor_Model Executor_Spec Executor_Proofs.
From Verif Require Import Executor_Done_Proofs Executor_Build_Proofs Executor_Link_Proofs Executor_Crash_Proofs Executor_Resume_Proofs.
Import ListNotations.
Open Scope list_scope.

(** * Where linked partitions are stored *)
Section Links.
  Context {V : Type} (E : env V) (IT : iterates E).
  Definition belongs (g : graph_def) (key : str) (x : psnapshot) : Prop :=
    exists a, key_of g a = Ok key /\ fits (a_storage a) x /\ (a_output a = None -> ps_fp x = None).
  Definition belonging (b : backend) : Prop := forall sn key x, In x (links_of b sn key) -> belongs (s_graph sn) key x.
  Lemma discover_raw_fp : forall fs t found x, discover E fs t [] = Ok found -> In x found -> ps_fp x = None.
  Proof.
    intros fs t found x D I. unfold discover in D. destruct (st_kind t) as [|v].
    - apply mapM_Forall2 in D.
      assert (FI : forall l, In l (filter (fun l => generated_by t l && option_eqb Z.eqb (get_fp [] (snd (fst l))) (snd l))%bool (map fst fs)) -> snd l = None).
      { intros l H. apply filter_In in H. destruct H as [_ H]. apply andb_true_iff in H. destruct H as [_ H]. cbn in H. destruct (snd l); [discriminate|reflexivity]. }
      induction D as [|l y ls ys H D IH]; [destruct I|]. destruct I as [ -> |I].
      + unfold take_snapshot in H. destruct (content fs _); [|discriminate]. injection H as <-. apply FI. now left.
      + apply IH; [exact I|]. intros l' J. apply FI. now right.
    - destruct v as [v|]; cbn in D; [|destruct (st_partitioned t); [discriminate|injection D as <-; destruct I]].
      destruct (st_partitioned t); [discriminate|]. cbn in D.
      destruct (generate_partition t None []) as [p|] eqn:GP; [|discriminate]. cbn [bind] in D. unfold generate_partition in GP.
      destruct (_ && _)%bool; [discriminate|]. destruct (_ && _)%bool; [discriminate|]. destruct (Bool.eqb _ _); [|discriminate]. injection GP as <-.
      unfold take_snapshot in D. destruct (content fs _); [|discriminate]. injection D as <-. destruct I as [ <- |[]]. reflexivity.
  Qed.
  Lemma visit_facts : forall g fs l acc acc', visit_all E g fs acc l = Ok acc' ->
    (forall k a ps, In (k, a, ps) (snd acc) -> key_of g a = Ok k /\ a_output a = None /\ forall x, In x ps -> fits (a_storage a) x /\ ps_fp x = None) ->
    forall k a ps, In (k, a, ps) (snd acc') -> key_of g a = Ok k /\ a_output a = None /\ forall x, In x ps -> fits (a_storage a) x /\ ps_fp x = None.
  Proof.
    intros g fs. induction l as [|n l IH]; intros acc acc' H A; cbn [visit_all] in H; [now injection H as <-|].
    destruct (visit E g fs acc n) as [acc1|e] eqn:VV; [|discriminate]. cbn [bind] in H. apply (IH acc1 acc' H). clear IH H.
    unfold visit in VV. destruct n as [a|p]; [|injection VV as <-; exact A].
    destruct (key_of g a) as [key|] eqn:K; [|discriminate]. cbn [bind] in VV. destruct (a_output a) eqn:AO; [injection VV as <-; exact A|].
    destruct (discover E fs (a_storage a) []) as [parts|] eqn:D; [|discriminate]. cbn [bind] in VV.
    destruct parts as [|x0 parts]; [discriminate|]. injection VV as <-. cbn [snd]. intros k b ps I. apply in_app_iff in I.
    destruct I as [I|[I|[]]]; [now apply A|]. injection I as <- <- <-. split; [exact K|]. split; [exact AO|]. intros x J.
    split; [eapply discover_fits; eauto|eapply discover_raw_fp; eauto].
  Qed.
  Lemma belonging_only : forall sn Q b b', only_links sn Q b b' -> (forall key x, Q key x -> belongs (s_graph sn) key x) -> belonging b -> belonging b'.
  Proof. intros sn Q b b' O H B sn' key x I. destruct (O _ _ _ I) as [J|[-> J]]; [now apply B|auto]. Qed.
  Lemma build_producer_belonging : forall sn q s s' r, consistent (db s) -> belonging (db s) -> build_producer E sn q s = (s', r) -> belonging (db s').
  Proof.
    intros sn q s s' r C B H. destruct (build_producer_links E IT sn q s s' r H C) as (_ & [L|(inputs & deps & fps & _ & _ & L)]).
    - intros sn' key x I. apply B, L, I.
    - eapply belonging_only; [exact L| |exact B]. intros key x (outs & a & O & I & K & _ & FT). exists a. split; [exact K|]. split; [exact FT|].
      intro N. destruct (out_produced _ _ _ _ O I) as (i & k & _ & P). congruence.
  Qed.
  Lemma build_nodes_belonging : forall sn order s s' r, consistent (db s) -> belonging (db s) -> build_nodes E sn order s = (s', r) -> belonging (db s').
  Proof.
    intros sn. induction order as [|n order IH]; intros s s' r C B H; cbn [build_nodes eachM] in H; [now injection H as <- _|].
    unfold andthen in H. destruct n as [a|q]; [cbn [ret] in H; eapply IH; eauto|].
    destruct (build_producer E sn q s) as [s1 [u|e]] eqn:P; assert (B1 := build_producer_belonging _ _ _ _ _ C B P);
      destruct (build_producer_links E IT sn q _ _ _ P C) as (C1 & _); [eapply IH; eauto|]. injection H as <- _. exact B1.
  Qed.
  Lemma belonging_links : forall b b', links b' = links b -> belonging b -> belonging b'.
  Proof. intros b b' L B sn key x I. apply B. unfold links_of in *. now rewrite <- L. Qed.
  Lemma from_graph_belonging : forall g s s' r, consistent (db s) -> belonging (db s) -> from_graph E g s = (s', r) -> belonging (db s').
  Proof.
    intros g s s' r C B H. unfold from_graph in H. unfold andthen at 1 in H.
    destruct (visit_all E g (files s) (graph_fp E g, []) (map fst (dependencies (g_arts g)))) as [[id fnd]|e] eqn:VA; [|now injection H as <- _].
    assert (VF := visit_facts _ _ _ _ _ VA). cbn [snd] in VF. specialize (VF (fun k a ps I => match I with end)).
    set (sn := Snapshot id g). cbn [fst] in H. fold sn in H.
    unfold andthen at 1 in H. destruct (effect (fun st : state V => (with_db st (write_graph (graph_fp E) (db st) g), Ok tt)) s) as [s1 [u1|e1]] eqn:E1.
    2: { unfold effect, andthen in E1. destruct (tick s) as [s0 [u|e]] eqn:T; [discriminate|]. apply tick_ok in T. destruct T as (_ & D & _).
         injection E1 as <- _. injection H as <- _. now rewrite D. }
    apply effect_ok in E1. destruct E1 as (s0 & _ & D0 & _ & E1). injection E1 as <-.
    assert (C1 : consistent (write_graph (graph_fp E) (db s0) g) /\ belonging (write_graph (graph_fp E) (db s0) g)).
    { rewrite D0. unfold write_graph. destruct (touch str_eqb (graphs (db s)) (g_name g) []) as [d byf]. split; [exact C|exact B]. }
    unfold andthen at 1 in H. destruct (effect (fun st : state V => (with_db st (write_snapshot (snapshot_fp E) (db st) sn), Ok tt)) _) as [s2 [u2|e2]] eqn:E2.
    2: { unfold effect, andthen in E2. destruct (tick _) as [s3 [u|e]] eqn:T in E2; [discriminate|]. apply tick_ok in T. destruct T as (_ & D & _).
         injection E2 as <- _. injection H as <- _. rewrite D. apply C1. }
    apply effect_ok in E2. destruct E2 as (s3 & _ & D3 & _ & E2). injection E2 as <-. cbn [with_db db] in D3.
    assert (C2 : consistent (write_snapshot (snapshot_fp E) (db s3) sn) /\ belonging (write_snapshot (snapshot_fp E) (db s3) sn)).
    { rewrite D3. unfold write_snapshot. destruct (touch str_eqb _ _ []) as [d byf]. split; apply C1. }
    assert (L : linking (V := V) sn (belongs g) (_ <- eachM (fun kap => _ <- write_known (a_storage (snd (fst kap))) (snd kap) ;; write_links sn (fst (fst kap)) (snd kap)) fnd ;; ret (Ok sn)) any).
    { apply linking_bind with any; [|intros _ _; apply linking_ret; constructor]. apply linking_each. intros [[k a] ps] Ik. cbn [fst snd].
      destruct (VF _ _ _ Ik) as (VK & VO & VX).
      apply linking_bind with any; [apply linking_write_known; intros x Ix; now apply VX|]. intros _ _. apply linking_write_links.
      intros x Ix. exists a. split; [exact VK|]. destruct (VX x Ix). auto. }
    destruct (L _ _ _ H (proj1 C2)) as (_ & O3 & _). eapply belonging_only; [exact O3| |apply C2]. auto.
  Qed.
  Theorem arises_belonging : forall s, arises E s -> belonging (db s).
  Proof.
    induction 1 as [fs n|s s' A IH HP]; [intros sn key x []|]. assert (C := arises_consistent E IT _ A).
    destruct HP as [s fs|s|s n|s g s' r H|s sn order s' r H]; cbn [db]; auto.
    - intros sn key x [].
    - eapply from_graph_belonging; eauto.
    - eapply build_nodes_belonging; eauto.
  Qed.
End Links.

Lemma dict_of_In : forall A (l : list (str * A)) k v, In (k, v) (dict_of str_eqb l) -> In (k, v) l.
Proof.
  intros A l k v I. assert (N := dict_of_NoDup _ str_eqb_spec l). apply (proj2 (dget_NoDup _ str_eqb_spec _ _ _ N)) in I.
  apply (dict_of_last _ _ _ str_eqb_spec) in I. destruct I as (l1 & l2 & -> & _). apply in_app_iff. right. now left.
Qed.

Section Resumed.
  Context {V : Type} (E : env V) (IT : iterates E) (PK : picks E) (sn : snapshot).
  Notation g := (s_graph sn).
  Context (W : in_order E (g_arts g)) (DP : distinct_paths (g_arts g)).
  Context (ONE : forall p i a j b, produces (g_arts g) p i a -> produces (g_arts g) p j b -> b = a).

  Lemma reads_elsewhere : forall q j a s inputs deps fps k d n l x k' f', arises E s -> produces (g_arts g) q j a ->
    inputs_at E sn (db s) (p_inputs q) inputs -> compute_dependencies E q inputs = Ok (deps, fps) ->
    In (k, d) deps -> In (n, l) d -> In x l -> location_of (ps_part x) <> (st_id (a_storage a), k', Some f').
  Proof.
    intros q j a s inputs deps fps k d n l x k' f' AR P IA CD Ik Il Ix Q.
    destruct (compute_dependencies_ok E q _ _ _ CD) as (m & M & _ & _ & DI & _). apply DI in Ik. destruct Ik as (l1 & l2 & d0 & EM & _ & ED). subst d.
    apply dict_of_In in Il. assert (Im : In (k, d0) m) by (rewrite EM; apply in_app_iff; right; now left).
    destruct (PK _ _ _ _ _ _ _ _ M Im Il Ix) as (n' & l' & Il' & Ix'). apply filter_In in Il'. destruct Il' as [Il' _].
    assert (X : exists n0 b key, In (n0, b) (p_inputs q) /\ key_of g b = Ok key /\ In x (links_of (db s) sn key)).
    { clear - IT IA Il' Ix'. unfold inputs_at in IA. induction IA as [|[n0 b] nl ps ins (key & K & ->) IA IH]; [destruct Il'|]. destruct Il' as [Q|Il'].
      - injection Q as Q1 Q2. exists n0, b, key. split; [now left|]. split; [exact K|]. rewrite <- Q2 in Ix'. now apply (proj1 (IT _ _)) in Ix'.
      - destruct (IH Il') as (n1 & b1 & key1 & I1 & R). exists n1, b1, key1. split; [now right|exact R]. }
    destruct X as (n0 & b & key & Ib & K & IL). destruct (arises_belonging E IT s AR sn key x IL) as (b' & K' & [FT _] & RW).
    assert (b' = b) by (eapply key_inj; [apply (io_keys E _ W)|exact K'|exact K]). subst b'. unfold location_of in Q. injection Q as Q1 Q2 Q3.
    destruct (a_output b) as [[p i]|] eqn:AO; [|specialize (RW eq_refl); unfold ps_fp in RW; congruence].
    assert (PB : produces (g_arts g) p i b) by (exists key; split; [now apply key_of_In|exact AO]).
    rewrite FT in Q1. assert (b = a) by (eapply DP; eauto). subst b. destruct P as (kk & _ & P). eapply size_input; eauto.
  Qed.
  Lemma one_output : forall q outs, outputs_of g q = Ok outs -> exists a j, outs = [a] /\ produces (g_arts g) q j a.
  Proof.
    intros q outs O. assert (S := outputs_of_spec g q). rewrite O in S. destruct S as (NE & l & -> & AS & S).
    assert (P : forall i a, In (i, a) l -> produces (g_arts g) q i a).
    { intros i a I. apply S in I. destruct I as (l1 & k & l2 & -> & AO & _). exists k. split; [apply in_app_iff; right; now left|exact AO]. }
    destruct l as [|[i a] [|[i' a'] l]]; [now destruct NE| |].
    - exists a, i. split; [reflexivity|]. apply P. now left.
    - exfalso. assert (P1 := P i a (or_introl eq_refl)). assert (P2 := P i' a' (or_intror (or_introl eq_refl))).
      assert (a' = a) by (eapply ONE; eauto). subst a'. destruct P1 as (k1 & _ & P1), P2 as (k2 & _ & P2). rewrite P1 in P2. injection P2 as Q.
      destruct AS as [AS _]. specialize (AS (i', a) (or_introl eq_refl)). cbn in AS. lia.
  Qed.
  Theorem nodes_resumed : forall order s s' r sc, arises E s -> build_order (dependencies (g_arts g)) order -> fuel s = None ->
    build_nodes E sn order s = (s', Ok r) -> crashes (build_nodes E sn order) s sc ->
    exists s'', build_nodes E sn order (lim sc None) = (s'', Ok tt) /\ like s' s''.
  Proof.
    intros order s s' r sc AR BO F H C. rewrite <- (lim_none _ F) in H. unfold build_nodes in C.
    eapply crashes_each in C; [|apply splits_node|exact H]. destruct C as (pre & n & post & s1 & s2 & u & EQ & L1 & F1 & ST & L2 & C).
    destruct n as [a|q]; [now apply crashes_ret in C|]. rewrite (lim_none _ F) in L1. change (build_nodes E sn pre s = (s1, Ok tt)) in L1.
    subst order. assert (AR1 : arises E s1) by (eapply arises_then; [exact AR|]; eapply happens_build; exact L1).
    assert (PR := build_nodes_progress E IT sn W (NProducer q :: post) s pre [] s s1 tt BO).
    specialize (PR (conj (fun p (I : In (NProducer p) []) => match I with end) (fun p outs a _ _ _ => conj eq_refl (fun _ _ _ => eq_refl))) L1).
    cbn [app] in PR. destruct PR as [PR _].
    destruct (build_producer_done E IT sn q s1 s2 u (io_keys E _ W) (sound_in_order _ _ _ _ W) ST) as [DQ _].
    destruct DQ as (_ & _ & _ & outs & _ & _ & _ & O & _). destruct (one_output q outs O) as (a & j & -> & P).
    destruct (producer_resumed E IT sn q a s1 s2 u sc (io_keys E _ W) (sound_in_order _ _ _ _ W) O) as (s3 & B3 & L3); [|exact F1|exact ST|exact C|].
    { intros. eapply reads_elsewhere; eauto. }
    assert (FR : frame sn (out_key sn q) (out_storage sn q) s1 (lim sc None)).
    { destruct C as (m & C). apply within_build_producer in C. eapply frame_trans; [|eapply frame_trans; [exact C|]]; now apply frame_refl. }
    assert (PRE : build_nodes E sn pre (lim sc None) = (lim sc None, Ok tt)).
    { assert (ALL : forall p, In (NProducer p) pre -> done E sn p (lim sc None)).
      { intros p I. destruct (PR p I) as [D _]. destruct BO as (NO & BV & BB).
        assert (NQ : ~ In (NProducer q) pre) by (intro J; apply NoDup_remove_2 in NO; apply NO, in_app_iff; now left).
        eapply (done_frame E sn W p q s1 (lim sc None) FR); [congruence| |exact D].
        intros n b key i Ib K AO. apply NQ. destruct D as (_ & _ & _ & outs & _ & _ & _ & Op & _).
        destruct (one_output p outs Op) as (o & jo & _ & kk & Io & Oo).
        assert (B1 := BB _ _ (proj2 (dependencies_needs _ _ _) (needs_input _ _ _ _ _ _ _ Io Oo Ib))).
        assert (B2 := BB _ _ (proj2 (dependencies_needs _ _ _) (needs_producer _ _ _ _ _ (key_of_In _ _ _ K) AO))).
        eapply before_prefix in B1; [|exact NO|exact I]. eapply before_prefix in B2; [exact B2|exact NO|exact B1]. }
      clear - IT ALL. induction pre as [|n pre IH]; [reflexivity|]. cbn [build_nodes eachM].
      eapply andthen_step; [|apply IH; intros; apply ALL; now right]. destruct n as [b|p]; [reflexivity|].
      apply build_producer_again; [exact IT|apply ALL; now left|reflexivity]. }
    destruct (blind_build_nodes E sn post s2 s3 s' (Ok r) L3 L2) as (s4 & B4 & L4). exists s4. split; [|exact L4].
    unfold build_nodes. rewrite eachM_app. eapply andthen_step; [exact PRE|]. cbn [eachM]. eapply andthen_step; [exact B3|]. destruct r. exact B4.
  Qed.
  Theorem resumed : forall s n s1 r1 s2 r2, arises E s -> build E sn (State (files s) (db s) (log s) None) = (s1, Ok r1) ->
    build E sn (State (files s) (db s) (log s) (Some n)) = (s2, r2) ->
    exists l, build E sn (State (files s2) (db s2) (log s2) None) = (State (files s1) (db s1) l None, Ok tt).
  Proof.
    intros s n s1 r1 s2 r2 AR H1 H2. destruct (dependencies_order (g_arts g)) as (order & SO & BO).
    assert (BB : forall t, build E sn t = build_nodes E sn order t) by (intro; unfold build; now rewrite SO). rewrite BB in *.
    change (build_nodes E sn order (lim s None) = (s1, Ok r1)) in H1. change (build_nodes E sn order (lim s (Some n)) = (s2, r2)) in H2.
    change (exists l, build_nodes E sn order (lim s2 None) = (State (files s1) (db s1) l None, Ok tt)).
    assert (SP : splits (build_nodes E sn order)) by apply splits_each, splits_node.
    assert (AR0 : arises E (lim s None)) by (eapply arises_then; [exact AR|apply happens_limit]).
    destruct (SP s n _ _ H1) as (F1 & [(n' & X)|(sc & X)]); rewrite X in H2; injection H2 as <- <-.
    - exists (log s1). rewrite lim_lim, (lim_none _ F1). rewrite (build_again E IT sn order order _ _ _ W BO BO H1 F1).
      rewrite <- (lim_none _ F1) at 1. reflexivity.
    - destruct (nodes_resumed order (lim s None) s1 r1 sc AR0 BO eq_refl H1) as (s4 & B & L1 & L2 & L3); [exists n; exact X|].
      exists (log s4). rewrite B, L1, L2. destruct s4. cbn in *. congruence.
  Qed.
End Resumed.
