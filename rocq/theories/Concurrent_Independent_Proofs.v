(** Processes that do not write where others read build as if they were alone. *)
From Coq Require Import ZArith List Ascii String Bool Arith Lia.
From Verif Require Import Base Str Base_Proofs Str_Proofs Graph_Model Graph_Spec Graph_Proofs Backend_Model Backend_Proofs Executor_Model Executor_Spec
  Executor_Proofs Executor_Build_Proofs Executor_Resumed_Proofs Concurrent_Model Concurrent_Proofs Concurrent_Safe_Proofs Concurrent_Spec.
Import ListNotations.
Open Scope list_scope.

Definition at_ids (R : str -> bool) (fs : list (location * str)) : list (location * str) := filter (fun ld => R (fst (fst (fst ld)))) fs.
Definition restrict {V} (R : str -> bool) (s : state V) : state V := State (at_ids R (files s)) (db s) (log s) (fuel s).
Definition uses_b (g : graph_def) (i : str) : bool := existsb (fun ka => str_eqb (st_id (a_storage (snd ka))) i) (g_arts g).
Definition writes_b (g : graph_def) (i : str) : bool := existsb (fun ka => is_some (a_output (snd ka)) && str_eqb (st_id (a_storage (snd ka))) i) (g_arts g).

Lemma uses_b_spec : forall g i, uses_b g i = true <-> uses g i.
Proof.
  intros g i. unfold uses_b, uses. rewrite existsb_exists. split.
  - intros ((k, a) & I1 & Q). apply str_eqb_spec in Q. exists k, a. auto.
  - intros (k & a & I1 & Q). exists (k, a). split; [exact I1|]. now apply str_eqb_spec.
Qed.
Lemma writes_b_spec : forall g i, writes_b g i = true <-> writes g i.
Proof.
  intros g i. unfold writes_b, writes. rewrite existsb_exists. split.
  - intros ((k, a) & I1 & Q). apply andb_prop in Q. destruct Q as (O & Q). apply str_eqb_spec in Q. exists k, a. split; [exact I1|]. split; [|exact Q].
    cbn in O. now destruct (a_output a).
  - intros (k & a & I1 & O & Q). exists (k, a). split; [exact I1|]. cbn. apply andb_true_intro. split; [now destruct (a_output a)|]. now apply str_eqb_spec.
Qed.
Lemma location_eqb_id : forall l l', location_eqb l l' = true -> fst (fst l) = fst (fst l').
Proof. intros l l' Q. apply location_eqb_spec in Q. now subst. Qed.
Lemma at_ids_dset : forall R l d fs, at_ids R (dset location_eqb fs l d) =
  if R (fst (fst l)) then dset location_eqb (at_ids R fs) l d else at_ids R fs.
Proof.
  intros R l d fs. unfold at_ids. induction fs as [|(l', d') fs IH]; cbn [dset filter fst].
  - destruct (R (fst (fst l))); reflexivity.
  - destruct (location_eqb l' l) eqn:Q; cbn [filter fst].
    + rewrite (location_eqb_id _ _ Q). destruct (R (fst (fst l))); [cbn [dset]; now rewrite Q|reflexivity].
    + destruct (R (fst (fst l'))); rewrite IH; destruct (R (fst (fst l))); try reflexivity. cbn [dset]. now rewrite Q.
Qed.
Lemma at_ids_dget : forall R l fs, R (fst (fst l)) = true -> dget location_eqb (at_ids R fs) l = dget location_eqb fs l.
Proof.
  intros R l fs H. unfold at_ids. induction fs as [|(l', d') fs IH]; [reflexivity|]. cbn [filter fst dget].
  destruct (R (fst (fst l'))) eqn:Rl; cbn [dget]; [now rewrite IH|]. destruct (location_eqb l' l) eqn:Q; [|exact IH].
  apply location_eqb_id in Q. congruence.
Qed.
Lemma filter_map_at : forall R (P : location -> bool) fs, (forall l, P l = true -> R (fst (fst l)) = true) ->
  filter P (map fst (at_ids R fs)) = filter P (map fst fs).
Proof.
  intros R P fs H. unfold at_ids. induction fs as [|(l, d) fs IH]; [reflexivity|]. cbn [filter fst map].
  destruct (R (fst (fst l))) eqn:Rl; cbn [map filter fst]; rewrite IH; [reflexivity|]. destruct (P l) eqn:Pl; [|reflexivity].
  rewrite (H _ Pl) in Rl. discriminate.
Qed.

Section Job.
  Context {V : Type} (E : env V) (g : graph_def) (N : NoDup (map fst (g_arts g))) (It : iterates E) (Pk : picks E).
  Notation R := (uses_b g).
  Notation W := (writes_b g).
  Definition Good (st : storage) (x : psnapshot) : Prop := pt_storage (ps_part x) = st.
  Notation view := (restrict R).
  Definition all_files (_ : list (location * str)) : Prop := True.
  Notation Pre := (Pre (V := V) g Good all_files).
  Definition C (s s' v : state V) (_ : option (state V -> state V)) : Prop :=
    fine g Good (db s') /\ (fuel s = None -> fuel s' = None) /\ restrict R s' = v /\
    forall R', (forall i, R' i = true -> W i = false) -> at_ids R' (files s') = at_ids R' (files s).
  Definition Asked (p : producer) (k : pkey) (d : list (str * list psnapshot)) (f : Z) : Prop :=
    forall n l x, In (n, l) d -> In x l -> in_graph g (pt_storage (ps_part x)).

  Lemma in_graph_uses : forall st, in_graph g st -> R (st_id st) = true.
  Proof. intros st (k & a & I1 & <-). apply uses_b_spec. exists k, a. auto. Qed.
  Lemma content_view : forall p fs, in_graph g (pt_storage p) -> content (at_ids R fs) p = content fs p.
  Proof.
    intros p fs G. unfold content. destruct (st_kind (pt_storage p)); [|reflexivity]. apply at_ids_dget. now apply in_graph_uses.
  Qed.
  Lemma snap_view : forall (s : state V) p, in_graph g (pt_storage p) -> take_snapshot E (files (view s)) p = take_snapshot E (files s) p.
  Proof. intros s p G. unfold take_snapshot. cbn [files restrict]. now rewrite content_view. Qed.
  Lemma C_file : forall s l d, Pre s -> W (fst (fst l)) = true -> R (fst (fst l)) = true -> C s (with_file s l d) (with_file (view s) l d) None.
  Proof.
    intros s l d Ps Wl Rl. split; [apply Ps|]. split; [auto|]. split.
    - unfold restrict, with_file. cbn [files db log fuel]. now rewrite at_ids_dset, Rl.
    - intros R' H. unfold with_file. cbn [files]. rewrite at_ids_dset. destruct (R' (fst (fst l))) eqn:Q; [|reflexivity]. apply H in Q. congruence.
  Qed.
  Lemma C_any : forall s s' v x, C s s' v None -> C s s' v x.
  Proof. auto. Qed.
  Lemma C_same : forall s, Pre s -> C s s (view s) None.
  Proof. intros s Ps. split; [apply Ps|]. repeat split; auto. Qed.
  Lemma C_log : forall s s' v a, C s s' v None -> C s (with_log s' a) (with_log v a) None.
  Proof. intros s s' v a (H1 & H2 & H3 & H4). split; [exact H1|]. split; [exact H2|]. split; [|exact H4]. subst v. reflexivity. Qed.
  Lemma outs_write : forall p outs a, outputs_of g p = Ok outs -> In a outs -> W (st_id (a_storage a)) = true.
  Proof.
    intros p outs a O Ia. destruct (out_produced (Snapshot 0 g) p outs a O Ia) as (i & k & I1 & H). apply writes_b_spec. exists k, a.
    split; [exact I1|]. split; [congruence|reflexivity].
  Qed.

  Theorem safe_job : safe view Pre C any (graph_build_p E g).
  Proof.
    apply (safe_graph_build E g N It) with (Asked := Asked) (Args := fun _ _ _ _ => any).
    - intros s s' v x H. exact H.
    - reflexivity.
    - exact C_same.
    - intros s b Ps F. split; [exact F|]. repeat split; auto.
    - intros s a Ps _. apply C_log. now apply C_same.
    - intros s st fps G K. apply filter_map_at. intros ((i, k), f) H. apply andb_prop in H. destruct H as (H & _). unfold generated_by in H.
      apply andb_prop in H. destruct H as (H & _). apply andb_prop in H. destruct H as (H & _). apply str_eqb_spec in H. subst i. now apply in_graph_uses.
    - exact snap_view.
    - intros fs p x _ _ H. unfold take_snapshot in H. destruct (content fs p); [|discriminate]. injection H as <-. reflexivity.
    - intros p inputs deps fps k d _ F G D Ikd n l x Il Ix.
      destruct (compute_dependencies_ok E p inputs deps fps D) as (m & CM & _ & _ & Rm & _).
      apply Rm in Ikd. destruct Ikd as (l1 & l2 & d0 & -> & _ & ->). apply dict_of_In in Il.
      destruct (Pk _ _ _ k d0 n l x CM) as (n' & l' & In' & Ix'); auto. { apply in_app_iff. right. now left. }
      apply filter_In in In'. destruct In' as (In' & _).
      clear - F G In' Ix'. induction F as [|na nl l1 l2 (H1 & H2) F IH]; [destruct In'|]. inversion G as [|? ? (kk & Gk) G' X1]; subst.
      destruct In' as [->|In']; [|now apply IH]. cbn in *. rewrite (H2 x Ix'). exists kk, (snd na). auto.
    - intros sn p k d f SG As. unfold read_arguments_p.
      eapply safe_weaken; [|intros a _; exact I]. apply (safe_collect _ _ _ C_any _ _ (fun _ => any)). intros name _.
      apply safe_bind_done. intros a _. apply safe_bind_done. intros dl Dl. destruct (dget str_eqb d name) as [dl'|] eqn:Dd; [|discriminate]. injection Dl as ->.
      apply (safe_bind _ _ _ C_any _ _ any); [|intros v _; exact I].
      unfold read_input_p. apply safe_bind_done. intros _ _. unfold io_read_p. destruct dl as [|x0 dl]; [exact I|].
      destruct ((1 <? List.length (x0 :: dl)) && negb (st_partitioned (a_storage a))); [exact I|].
      apply (safe_bind _ _ _ C_any _ _ any); [|intros ds _; apply safe_done; intros; exact I].
      eapply safe_weaken; [|intros ? _; exact I]. apply (safe_collect _ _ _ C_any _ _ (fun _ => any)). intros x Ix.
      apply safe_act. intros s Ps. cbn [fst snd]. split; [now apply C_same|]. split; [|intros; exact I].
      cbn [files restrict]. rewrite content_view; [reflexivity|]. apply (dget_In _ str_eqb_spec) in Dd. eapply As; eauto.
    - intros p k d f args vs i a v outs part As Ar Ru Nv O Na Ck GP.
      assert (Ia : In a outs) by (eapply nth_error_In; eauto). assert (Ga := outs_in g p outs a O Ia). assert (Wa := outs_write p outs a O Ia).
      assert (GS := generate_partition_storage _ _ _ _ GP). destruct GS as (GS & GR). unfold io_write_p.
      destruct (st_kind (pt_storage part)) eqn:K.
      + apply (safe_bind _ _ _ C_any _ _ any).
        { apply safe_act. intros s Ps. cbn [fst snd]. split; [|split; [reflexivity|intros; exact I]]. apply C_file; auto; unfold location_of; cbn [fst].
          - now rewrite GS. - rewrite GS. now apply in_graph_uses. }
        intros _ _. apply safe_bind_done. intros dt _. apply (safe_bind _ _ _ C_any _ _ any).
        { apply safe_act. intros s Ps. cbn [fst snd]. split; [|split; [reflexivity|intros; exact I]]. apply C_log. apply C_file; auto; unfold location_of; cbn [fst].
          - now rewrite GS. - rewrite GS. now apply in_graph_uses. }
        intros _ _. apply safe_act. intros s Ps. cbn [fst snd]. split; [now apply C_same|]. split; [rewrite snap_view; [reflexivity|now rewrite GS]|].
        intros x H. unfold take_snapshot in H. destruct (content (files s) part); [|discriminate]. injection H as <-. exact GS.
      + destruct (pt_value part); [exact I|]. apply safe_bind_done. intros dt _. apply safe_act. intros s Ps. cbn [fst snd]. split; [now apply C_same|].
        split; [rewrite snap_view; [reflexivity|cbn; now rewrite GS]|]. intros x H. unfold take_snapshot, content in H. cbn [pt_storage pt_value] in H. rewrite K in H. injection H as <-. exact GS.
  Qed.
End Job.

Section System.
  Context {V : Type} (jobs : list (env V * graph_def)) (fs0 : list (location * str)) (Pr : proper jobs) (In_ : independent jobs).
  Definition follows (fs : list (location * str)) (Eg : env V * graph_def) (P : process V) : Prop :=
    fine (snd Eg) Good (own_db P) /\ safe (restrict (uses_b (snd Eg))) (Pre (V := V) (snd Eg) Good all_files) (C (snd Eg)) any (rest P) /\
    exists s, restrict (uses_b (snd Eg)) s = restrict (uses_b (snd Eg)) (State fs (own_db P) (own_log P) None) /\
      finish (rest P) s = finish (graph_build_p (fst Eg) (snd Eg)) (State fs0 empty_backend [] None).
  Lemma follows_start : Forall2 (follows (shared (started fs0 jobs))) jobs (running (started fs0 jobs)).
  Proof.
    unfold started. cbn [shared running]. assert (G : forall E g, In (E, g) jobs -> follows fs0 (E, g) (Process empty_backend [] (graph_build_p E g))).
    { intros E g I1. destruct (Pr E g I1) as (N & It & Pk). split; [|split].
      - cbn. split; [intros sn key x a []|intros st x []].
      - now apply safe_job.
      - exists (State fs0 empty_backend [] None). split; reflexivity. }
    revert G. generalize jobs. intro js. induction js as [|(E, g) js IH]; intro G; constructor; [apply G; now left|apply IH; intros; apply G; now right].
  Qed.
  Lemma Forall2_In_weaken : forall A B (P Q : A -> B -> Prop) la lb, (forall a b, In a la -> P a b -> Q a b) -> Forall2 P la lb -> Forall2 Q la lb.
  Proof.
    intros A B P Q la lb H F. induction F as [|a b la lb Hab F IH]; constructor; [apply H; [now left|exact Hab]|]. apply IH. intros a' b' I1. apply H. now right.
  Qed.
  Lemma follows_moves : forall S S', moves S S' -> Forall2 (follows (shared S)) jobs (running S) -> Forall2 (follows (shared S')) jobs (running S').
  Proof.
    intros S0 S' M F. destruct M as [fs before b lg u k after s]. cbn [shared running] in *.
    apply Forall2_app_inv_r in F. destruct F as (jb & jr & Fb & Fr & Jq). inversion Fr as [|(E, g) P ja after' H Fa X1 X2]; subst jr P after'. clear Fr.
    destruct H as (H1 & H2 & s0 & V0 & Fin). cbn [own_db own_log rest fst snd] in *. cbn [safe] in H2.
    assert (Ps : Pre (V := V) g Good all_files s) by (split; [exact H1|exact I]).
    destruct (H2 s Ps) as ((C1 & C2 & C3 & C4) & K & Sf).
    assert (Ps0 : Pre (V := V) g Good all_files s0). { split; [|exact I]. apply (f_equal db) in V0. cbn in V0. now rewrite V0. }
    destruct (H2 s0 Ps0) as ((D1 & D2 & D3 & D4) & K0 & Sf0).
    assert (Oth : forall Eg P, In Eg (jb ++ ja) -> follows fs Eg P -> follows (files (u s)) Eg P).
    { intros (E', g') P I1 (G1 & G2 & s1 & V1 & Fin1). split; [exact G1|]. split; [exact G2|]. exists s1. split; [|exact Fin1]. cbn [fst snd] in *.
      rewrite V1. unfold restrict. cbn [files db log fuel]. f_equal. symmetry. apply C4. intros i Ui. destruct (writes_b g i) eqn:Wi; [|reflexivity]. exfalso.
      apply uses_b_spec in Ui. apply writes_b_spec in Wi. eapply In_; eauto. }
    rewrite Jq. apply Forall2_app; [|constructor].
    - eapply Forall2_In_weaken; [|exact Fb]. intros a' P' I1. apply Oth. apply in_app_iff. now left.
    - split; [exact C1|]. split; [exact Sf|]. exists (u s0). cbn [fst snd own_db own_log rest]. split.
      + transitivity (u (restrict (uses_b g) s)); [now rewrite D3, V0|]. rewrite <- C3. unfold restrict. cbn [files db log fuel]. f_equal. now apply C2.
      + rewrite <- Fin. cbn [finish]. f_equal. rewrite K, K0, V0. reflexivity.
    - eapply Forall2_In_weaken; [|exact Fa]. intros a' P' I1. apply Oth. apply in_app_iff. now right.
  Qed.
  Lemma follows_evolves : forall S S', evolves S S' -> Forall2 (follows (shared S)) jobs (running S) -> Forall2 (follows (shared S')) jobs (running S').
  Proof. intros S0 S' X. induction X as [S0|S1 S2 S3 X IH M]; [auto|]. intro F. apply (follows_moves S2); auto. Qed.
  Lemma Forall2_nth : forall A B (P : A -> B -> Prop) la lb i a b, Forall2 P la lb -> nth_error la i = Some a -> nth_error lb i = Some b -> P a b.
  Proof.
    intros A B P la lb i a b F. revert i. induction F as [|x y la lb H F IH]; intros [|i]; cbn; try discriminate; [|apply IH]. intros [= ->] [= ->]. exact H.
  Qed.
  Theorem independent_ends : forall S i E g P r, evolves (started fs0 jobs) S -> nth_error jobs i = Some (E, g) -> nth_error (running S) i = Some P -> rest P = Done r ->
    exists s', graph_build E g (State fs0 empty_backend [] None) = (s', r) /\ own_db P = db s' /\ own_log P = log s' /\
      forall l, uses g (fst (fst l)) -> dget location_eqb (shared S) l = dget location_eqb (files s') l.
  Proof.
    intros S0 i E g P r X Nj Np D. assert (F := follows_evolves _ _ X follows_start).
    assert (H := Forall2_nth _ _ _ _ _ i _ _ F Nj Np). destruct H as (_ & _ & s & Vs & Fin). cbn [fst snd] in *. rewrite D in Fin. cbn [finish] in Fin.
    exists s. split.
    - rewrite Fin. symmetry. apply graph_build_alone. reflexivity.
    - unfold restrict in Vs. cbn [files db log fuel] in Vs. injection Vs as V1 V2 V3 V4. split; [auto|]. split; [auto|]. intros l U.
      apply uses_b_spec in U. rewrite <- (at_ids_dget _ _ (shared S0) U), <- (at_ids_dget _ _ (files s) U). now rewrite V1.
  Qed.
End System.

(** ** Every run ends *)
Definition pstep {V A} (m' m : prog V A) : Prop := exists u k s, m = Act u k /\ m' = k s.
Definition lstep {V A} (l' l : list (prog V A)) : Prop := exists before m m' after, l = before ++ m :: after /\ l' = before ++ m' :: after /\ pstep m' m.
Lemma pstep_acc : forall V A (m : prog V A), Acc pstep m.
Proof.
  intros V A m. induction m as [r|u k IH]; constructor; intros m' (u' & k' & s & Q & ->); [discriminate|]. injection Q as <- <-. apply IH.
Qed.
Lemma lstep_acc : forall V A (l : list (prog V A)), Acc lstep l.
Proof.
  intros V A l. induction l as [|m l IH].
  - constructor. intros l' (b & m & m' & a & Q & _). destruct b; discriminate.
  - assert (Am := pstep_acc V A m). revert l IH. induction Am as [m _ IHm]. intros l Al. induction Al as [l Al' IHl]. constructor.
    intros l' (b & n & n' & a & Q & -> & St). destruct b as [|x b]; cbn in Q |- *; injection Q as <- Q.
    + subst a. apply IHm; [exact St|]. constructor. exact Al'.
    + apply IHl. exists b, n, n', a. auto.
Qed.
Theorem moves_end : forall V (S : system V), Acc (fun S2 S1 => moves S1 S2) S.
Proof.
  intros V S0. remember (map rest (running S0)) as l eqn:Q. revert S0 Q. induction (lstep_acc V snapshot l) as [l _ IH]. intros S0 ->. constructor. intros S' M.
  destruct M as [fs before b lg u k after s]. eapply IH; [|reflexivity]. cbn [running]. exists (map rest before), (Act u k), (k s), (map rest after).
  rewrite !map_app. cbn. split; [reflexivity|]. split; [reflexivity|]. exists u, k, s. auto.
Qed.
(** A process that is not through can go on, whatever the others do. *)
Theorem moves_on : forall V (S : system V) i P, nth_error (running S) i = Some P -> (exists r, rest P = Done r) \/
  exists S' P', moves S S' /\ nth_error (running S') i = Some P' /\ forall j, j <> i -> nth_error (running S') j = nth_error (running S) j.
Proof.
  intros V [fs ps] i [b lg [r|u k]] Np; [left; now exists r|right]. cbn [running] in *. apply nth_error_split in Np. destruct Np as (before & after & -> & <-).
  eexists _, _. split; [constructor|]. cbn [running]. split; [rewrite nth_error_app2, Nat.sub_diag by lia; reflexivity|]. intros j Nj.
  destruct (Nat.lt_ge_cases j (List.length before)) as [L|L]; [now rewrite !nth_error_app1|]. rewrite !nth_error_app2 by lia.
  remember (j - List.length before) as n eqn:Q. destruct n as [|n]; [lia|reflexivity].
Qed.
