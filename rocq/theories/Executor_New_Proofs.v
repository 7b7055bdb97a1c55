(** Building a graph in a new process that finds some of its outputs. *)
From Coq Require Import ZArith List Ascii String Bool Arith Lia Permutation.
From Verif Require Import Base Base_Proofs Str Str_Proofs Graph_Model Graph_Spec Graph_Proofs.
From Verif Require Import Backend_Model Backend_Spec Backend_Proofs Executor_Model Executor_Spec Executor_Proofs.
From Verif Require Import Executor_Done_Proofs Executor_Build_Proofs Executor_Link_Proofs Executor_Crash_Proofs Executor_Resume_Proofs Executor_Resumed_Proofs.
From Verif Require Import Executor_Id_Proofs Executor_Restart_Proofs Executor_Again_Proofs.
Import ListNotations.
Open Scope list_scope.

(** Files and links that builds leave alone. *)
Section Left.
  Context {V : Type} (E : env V) (sn : snapshot).
  Lemma nodes_frame : forall rest (s s' : state V) r, build_nodes E sn rest s = (s', r) ->
    frame sn (fun key => exists p, out_key sn p key) (fun t => exists p, In (NProducer p) rest /\ out_storage sn p t) s s'.
  Proof.
    intros rest s s' r H. revert H. apply within_each. intros [b|p] I; [apply within_ret|]. intros s0 s1 r0 H. apply within_build_producer in H. revert H.
    apply frame_weaken; eauto.
  Qed.
End Left.

Section Start.
  Context {V : Type} (E : env V).
  Lemma splits_from_graph : forall g, splits (V := V) (from_graph E g).
  Proof.
    intro g. unfold from_graph. apply splits_bind.
    - apply splits_quiet. intro s. exists s, (visit_all E g (files s) (graph_fp E g, []) (map fst (dependencies (g_arts g)))). reflexivity.
    - intro found. apply splits_bind; [apply splits_effect; intro s; exists (with_db s (write_graph (graph_fp E) (db s) g)), (Ok tt); reflexivity|]. intros _.
      apply splits_bind; [apply splits_effect; intro s; exists (with_db s (write_snapshot (snapshot_fp E) (db s) (Snapshot (fst found) g))), (Ok tt); reflexivity|]. intros _.
      apply splits_bind; [|intros _; apply splits_ret]. apply splits_each. intro kap. apply splits_bind; [apply splits_write_known|]. intros _. apply splits_write_links.
  Qed.
  Lemma from_graph_fuel : forall g (s s' : state V) r, fuel s = None -> from_graph E g s = (s', r) -> fuel s' = None.
  Proof. intros g s s' r F H. rewrite <- (lim_none s F) in H. exact (proj1 (splits_from_graph g s 0 s' r H)). Qed.

  Lemma from_graph_known : forall g (s s' : state V) sn t, from_graph E g s = (s', Ok sn) -> st_templated t = true ->
    dget storage_eqb (known (db s')) t = dget storage_eqb (known (db s)) t.
  Proof.
    intros g s s' sn t H TT. destruct (snapshot_records E g s s' sn H) as (_ & _ & _ & RF & _). unfold from_graph in H. apply andthen_ok in H. destruct H as (s1 & found & V1 & H). injection V1 as -> VA.
    apply andthen_ok in H. destruct H as (s2 & u2 & H2 & H). apply effect_ok in H2. destruct H2 as (sa & Fa & Da & _ & H2). injection H2 as <-.
    apply andthen_ok in H. destruct H as (s3 & u3 & H3 & H). apply effect_ok in H3. destruct H3 as (sb & Fb & Db & _ & H3). injection H3 as <-.
    apply andthen_ok in H. destruct H as (s4 & u4 & H4 & H). apply ret_ok in H. destruct H as [-> _].
    destruct (visit_all_id _ _ _ _ _ _ VA) as [_ FO]. cbn [fst snd app] in FO.
    assert (W : within (Snapshot (fst found) g) (fun _ => True) (fun t => st_templated t = false)
      (eachM (fun kap => _ <- write_known (V := V) (a_storage (snd (fst kap))) (snd kap) ;; write_links (Snapshot (fst found) g) (fst (fst kap)) (snd kap)) (snd found))).
    { apply within_each. intros [[key a] ps] I. cbn [fst snd]. apply within_bind; [|intros _; now apply within_write_links]. apply within_write_known.
      rewrite FO in I. apply in_flat_map in I. destruct I as ([b|p] & J & J'); [|destruct J']. destruct (a_output b) eqn:O; [destruct J'|]. destruct (key_of g b) as [kb|] eqn:KB; [|destruct J'].
      destruct (discover E (files s1) (a_storage b) []) as [pb|] eqn:DB; [|destruct J']. destruct J' as [J'|[]]. injection J' as -> -> ->. 
      apply dependencies_defines in J. inversion J as [k b J' EQ|]; subst. destruct (RF k a J' O) as (x & X). exact (proj1 X). }
    apply W in H4. rewrite (fr_known _ _ _ _ _ H4) by (rewrite TT; discriminate). cbn [with_db db].
    destruct (ws_spec (snapshot_fp E) (db sb) (Snapshot (fst found) g)) as (_ & _ & _ & W1 & _). rewrite W1, Db.
    destruct (wg_spec (graph_fp E) (db sa) g) as (_ & _ & _ & W2 & _). cbn [with_db db]. now rewrite W2, Da.
  Qed.

  (** Snapshots depend on the raw files only. *)
  Lemma raw_found_raw : forall (s s' : state V) t x, (forall i k, dget location_eqb (files s) (i, k, None) = dget location_eqb (files s') (i, k, None)) ->
    raw_found E s t x <-> raw_found E s' t x.
  Proof.
    intros s s' t x H. unfold raw_found. apply and_iff_compat_l. destruct (st_kind t); [|tauto]. split; intros (k & d & D & R); exists k, d; (split; [|exact R]); now rewrite <- D, H.
  Qed.
  Lemma snapshot_raw : forall g (s s' s1 : state V) sn, from_graph E g s = (s1, Ok sn) -> fuel s' = None -> NoDup (map fst (files s)) -> NoDup (map fst (files s')) ->
    (forall i k, dget location_eqb (files s) (i, k, None) = dget location_eqb (files s') (i, k, None)) -> exists s1', from_graph E g s' = (s1', Ok sn).
  Proof.
    intros g s s' s1 sn H F N N' R. destruct (snapshot_records E _ _ _ _ H) as (G & _ & ID & RF & _).
    destruct (snapshot_total E g s' F) as (s1' & sn' & H'). { intros k a I O. destruct (RF k a I O) as (x & X). exists x. now apply (raw_found_raw s s'). }
    exists s1'. rewrite H'. f_equal. f_equal. destruct (snapshot_records E _ _ _ _ H') as (G' & _ & ID' & RF' & _).
    destruct sn as [i0 g0], sn' as [i0' g0']. cbn [s_graph s_id] in *. subst g0 g0'. f_equal. rewrite ID, ID'. apply xor_all_perm. constructor. apply flat_map_perm; [reflexivity|].
    intros n I. apply dependencies_defines in I. unfold node_parts. constructor. destruct n as [a|p]; [|constructor].
    inversion I as [k b J EQ|]; subst. apply Permutation_app_head. destruct (a_output a) eqn:O; [constructor|].
    assert (D1 := discover_raw E s (a_storage a)). assert (D2 := discover_raw E s' (a_storage a)). destruct (RF k a J O) as (x & X). assert (X' := proj1 (raw_found_raw s s' _ x R) X).
    destruct (discover E (files s) (a_storage a) []) as [parts|] eqn:DC; [|destruct D1 as [_ D1]; now destruct (D1 x)].
    destruct (discover E (files s') (a_storage a) []) as [parts'|] eqn:DC'; [|destruct D2 as [_ D2]; now destruct (D2 x)].
    apply Permutation_map. apply NoDup_Permutation; [exact (discover_NoDup E _ _ _ N' DC')|exact (discover_NoDup E _ _ _ N DC)|]. intro y. rewrite (D1 y), (D2 y). symmetry. now apply raw_found_raw.
  Qed.
End Start.

Section New.
  Context {V : Type} (E : env V) (IT : iterates E) (ST : settled E) (PK : picks E) (g : graph_def).
  Context (W : in_order E (g_arts g)) (DP : distinct_paths (g_arts g)) (TM : templated (g_arts g)).
  Context (ONE : forall p i a j b, produces (g_arts g) p i a -> produces (g_arts g) p j b -> b = a).

  Theorem new_process : forall fs fs2 s1 sn, NoDup (map fst fs) -> NoDup (map fst fs2) ->
    graph_build E g (State fs empty_backend [] None) = (s1, Ok sn) ->
    (forall i k, dget location_eqb fs2 (i, k, None) = dget location_eqb fs (i, k, None)) ->
    (forall l d, dget location_eqb fs l = Some d -> dget location_eqb fs2 l = Some d) ->
    (forall l d, dget location_eqb fs2 l = Some d -> dget location_eqb (files s1) l = Some d) ->
    exists s2, graph_build E g (State fs2 empty_backend [] None) = (s2, Ok sn) /\
      (forall l, dget location_eqb (files s2) l = dget location_eqb (files s1) l) /\ (forall sn' key x, linked s2 sn' key x <-> linked s1 sn' key x).
  Proof.
    intros fs fs2 s1 sn N N2 H RAW UP DN. unfold graph_build in H. apply andthen_ok in H. destruct H as (sA & sn0 & FG & H).
    apply andthen_ok in H. destruct H as (s1' & u & B & H). apply ret_ok in H. destruct H as [Q H]. subst s1'. injection H as Q. subst sn0. destruct u.
    unfold build in B. apply andthen_ok in B. destruct B as (sA' & order & O & B). apply ret_ok in O. destruct O as [-> O].
    destruct (snapshot_raw E g (State fs empty_backend [] None) (State fs2 empty_backend [] None) sA sn FG eq_refl N N2) as (sB & FG2). { intros i k. cbn. now rewrite RAW. }
    destruct (snapshot_records E _ _ _ _ FG) as (G & FA & _ & _ & LA & _). destruct (snapshot_records E _ _ _ _ FG2) as (_ & FB & _ & _ & LB & _). cbn [files] in FA, FB. subst g.
    destruct (dependencies_order (g_arts (s_graph sn))) as (order' & O' & BO). rewrite O in O'. injection O' as <-.
    assert (FR := nodes_frame E sn order sA s1 _ B).
    assert (LSAME : forall sn' key y, linked sA sn' key y <-> linked sB sn' key y).
    { intros sn' key y. rewrite LA, LB. apply or_iff_compat_l, and_iff_compat_l. split; intros (a & LK & OO & RF); exists a; (split; [exact LK|]; split; [exact OO|]);
        (eapply raw_found_raw; [|exact RF]); intros i k; cbn; now rewrite RAW. }
    assert (SM : sim E sn [] s1 sA sB).
    { constructor.
      - split; eapply from_graph_fuel; [|exact FG| |exact FG2]; reflexivity.
      - split; (eapply arises_then; [|eapply happens_snapshot; first [exact FG|exact FG2]]); apply arises_start.
      - intros key y. rewrite <- !linked_links. apply LSAME.
      - intros p i a P _. unfold dmem. rewrite (from_graph_known E _ _ _ _ (a_storage a) FG (TM _ _ _ P)), (from_graph_known E _ _ _ _ (a_storage a) FG2 (TM _ _ _ P)). now split.
      - intros l SE. rewrite FA, FB. destruct l as [[i k] [f|]]; [|now rewrite RAW]. destruct SE as [SE|SE]; [discriminate|]. cbn [fst] in SE.
        assert (KEEP : dget location_eqb (files s1) (i, k, Some f) = dget location_eqb fs (i, k, Some f)).
        { rewrite <- FA. apply (fr_files _ _ _ _ _ FR). cbn [fst]. intros t (p & _ & outs & b & OO & I & <-). destruct (out_produced sn p outs b OO I) as (j & P). eapply SE; [exact P|intros []]. }
        destruct (dget location_eqb fs (i, k, Some f)) as [d|] eqn:D; [symmetry; now apply UP|].
        destruct (dget location_eqb fs2 (i, k, Some f)) as [d|] eqn:D2; [|reflexivity]. apply DN in D2. congruence.
      - intros p i a k f d P _ D. rewrite FA in D. rewrite FB. now apply UP.
      - intros p i a k f d P _ D. rewrite FB in D. now apply DN. }
    destruct (sim_nodes E IT ST PK sn W DP TM ONE order [] s1 sA sB BO SM B) as (s2 & B2 & SM2). exists s2. split; [|split].
    - unfold graph_build. eapply andthen_step; [exact FG2|]. eapply andthen_step; [|reflexivity]. unfold build. eapply andthen_step; [rewrite O; reflexivity|exact B2].
    - intro l. symmetry. apply (sm_files _ _ _ _ _ _ SM2). right. intros p i a P NP. destruct NP. eapply out_in_order; eauto.
    - intros sn' key x. rewrite !linked_links. destruct (snapshot_eqb sn' sn) eqn:Q.
      + apply snapshot_eqb_spec in Q. subst sn'. symmetry. apply (sm_links _ _ _ _ _ _ SM2).
      + assert (NS : sn' <> sn) by (intros ->; now rewrite (proj2 (snapshot_eqb_spec sn sn) eq_refl) in Q).
        assert (FR2 := nodes_frame E sn order sB s2 _ B2). rewrite (fr_links _ _ _ _ _ FR) by now left. rewrite (fr_links _ _ _ _ _ FR2) by now left.
        rewrite <- !linked_links. symmetry. apply LSAME.
  Qed.
End New.
