(** Lemmas about reading and writing by hand around builds. *)
From Coq Require Import ZArith List Ascii String Bool Arith Lia.
From Verif Require Import Base Base_Proofs Str Str_Proofs Graph_Model Graph_Spec Graph_Proofs Backend_Model Backend_Spec Backend_Proofs.
From Verif Require Import Executor_Model Executor_Spec Executor_Proofs Executor_Done_Proofs Executor_Build_Proofs Executor_Write_Proofs
  Executor_Store_Proofs Executor_Id_Proofs Executor_Crash_Proofs Executor_New_Proofs Executor_Stop_Proofs Access_Model Access_Spec Access_Proofs.
Import ListNotations.
Open Scope list_scope.

(** * Builds leave raw files alone *)
Definition tame {V A} (m : M V A) : Prop := forall s s' r, m s = (s', r) ->
  (NoDup (map fst (files s)) -> NoDup (map fst (files s'))) /\ forall i k, dget location_eqb (files s') (i, k, None) = dget location_eqb (files s) (i, k, None).
Section Tame.
  Context {V : Type} (E : env V).
  Lemma tame_keeps : forall A (m : M V A), keeps m -> tame m.
  Proof. intros A m H s s' r Q. apply H in Q. rewrite Q. auto. Qed.
  Lemma tame_bind : forall A B (m : M V A) (f : A -> M V B), tame m -> (forall a, tame (f a)) -> tame (andthen m f).
  Proof.
    intros A B m f Hm Hf s s' r H. unfold andthen in H. destruct (m s) as [s1 [a|e]] eqn:Q; apply Hm in Q; [|injection H as <- _; exact Q].
    apply Hf in H. destruct Q as [Q1 Q2], H as [H1 H2]. split; [auto|]. intros i k. now rewrite H2, Q2.
  Qed.
  Lemma tame_ret : forall A (x : result A), tame (V := V) (ret x).
  Proof. intros. apply tame_keeps, keeps_ret. Qed.
  Lemma tame_each : forall A (f : A -> M V unit) l, (forall x, tame (f x)) -> tame (eachM f l).
  Proof. intros A f l H. induction l; cbn [eachM]; [apply tame_ret|]. apply tame_bind; auto. Qed.
  Lemma tame_effect : forall A (f : M V A), tame f -> tame (effect f).
  Proof. intros A f H. apply tame_bind; [|auto]. apply tame_keeps. intros s s' r T. apply tick_ok in T. tauto. Qed.
  Lemma tame_file : forall i k f d (h : state V -> state V), (forall s, files (h s) = dset location_eqb (files s) (i, k, Some f) d) -> tame (V := V) (fun s => (h s, Ok tt)).
  Proof.
    intros i k f d h Hh s s' r H. injection H as <- _. rewrite Hh. split; [apply (Base_Proofs.dset_NoDup _ location_eqb_spec)|].
    intros i' k'. rewrite (dget_dset _ location_eqb_spec). destruct (location_eqb (i, k, Some f) (i', k', None)) eqn:Q; [|reflexivity]. apply location_eqb_spec in Q. discriminate.
  Qed.
  Lemma tame_io_write : forall a v p f, pt_fp p = Some f -> tame (io_write E a v p).
  Proof.
    intros a v p f PF. assert (L : location_of p = (st_id (pt_storage p), pt_key p, Some f)) by (unfold location_of; congruence). unfold io_write.
    destruct (st_kind (pt_storage p)).
    - apply tame_bind; [apply tame_effect, (tame_file (st_id (pt_storage p)) (pt_key p) f []); intro s; now rewrite <- L|]. intros _.
      apply tame_bind; [apply tame_ret|]. intro d.
      apply tame_bind; [apply tame_effect, (tame_file (st_id (pt_storage p)) (pt_key p) f d); intro s; now rewrite <- L|]. intros _.
      apply tame_keeps. intros s s' r H. now injection H as <-.
    - destruct (pt_value p); [apply tame_ret|]. apply tame_bind; [apply tame_ret|]. intro d. apply tame_keeps. intros s s' r H. now injection H as <-.
  Qed.
  Lemma tame_write_outputs : forall sn p f k outs vs i, tame (write_outputs E sn p f k i outs vs).
  Proof.
    intros sn p f k outs. induction vs as [|v vs IH]; intro i; cbn [write_outputs]; [apply tame_ret|]. apply tame_bind; [apply tame_ret|]. intro a.
    apply tame_bind; [apply tame_ret|]. intros _. apply tame_bind; [|intros _; apply IH]. unfold write_output.
    apply tame_bind; [apply tame_ret|]. intro key. apply tame_bind; [apply tame_ret|]. intros _. apply tame_bind; [apply tame_ret|]. intros _.
    destruct (generate_partition (a_storage a) (Some f) k) as [part|e] eqn:GP; [|intros s s' r H; injection H as <- _; auto].
    destruct (generate_partition_storage _ _ _ _ GP) as (_ & _ & G & _).
    intros s s' r H. unfold andthen at 1 in H. cbn [ret] in H. revert H.
    apply tame_bind; [eapply tame_io_write, G|]. intro x. apply tame_bind; [apply tame_keeps, keeps_write_known|]. intros _. apply tame_keeps, keeps_write_links.
  Qed.
  Lemma keeps_read_input : forall sn a d, keeps (read_input E sn a d).
  Proof. intros. apply keeps_bind; [apply keeps_ret|]. intros _ s s' r H. unfold io_read in H. now injection H as <- _. Qed.
  Lemma tame_build_partition : forall sn p existing f deps k, tame (build_producer_partition E sn p existing f deps k).
  Proof.
    intros sn p existing f deps k. unfold build_producer_partition. destruct (existsb (str_eqb k) existing); [apply tame_ret|].
    apply tame_bind; [apply tame_keeps, keeps_collect; intro; apply keeps_bind; [apply keeps_ret|]; intro; apply keeps_bind; [apply keeps_ret|]; intro;
      apply keeps_bind; [apply keeps_read_input|]; intro; apply keeps_ret|]. intro args.
    apply tame_bind; [apply tame_keeps, keeps_effect; intros s s' r H; now injection H as <- _|]. intro vs.
    apply tame_bind; [apply tame_keeps, keeps_effect; intros s s' r H; now injection H as <- _|]. intros [|]; [|apply tame_ret].
    apply tame_bind; [apply tame_ret|]. intro outs. apply tame_write_outputs.
  Qed.
  Lemma tame_build : forall sn, tame (build E sn).
  Proof.
    intro sn. apply tame_bind; [apply tame_ret|]. intro order. apply tame_each. intros [b|p]; [apply tame_ret|].
    apply tame_bind; [apply tame_keeps, keeps_get_inputs|]. intro inputs. apply tame_bind; [apply tame_ret|]. intro df.
    apply tame_bind; [apply tame_keeps, keeps_discover|]. intro existing. apply tame_each. intro kd. apply tame_bind; [apply tame_ret|]. intro f. apply tame_build_partition.
  Qed.

  Lemma splits_build : forall sn, splits (build E sn).
  Proof.
    intro sn. apply splits_bind; [apply splits_ret|]. intro order. apply splits_each. intro n. destruct n as [b|p]; [apply splits_ret|apply splits_build_producer].
  Qed.
End Tame.

Section Built.
  Context {V W N : Type} (E : env V) (X : views V W N).
  Theorem read_built : forall g a w (s s' : state V) sn, fuel s = None -> NoDup (map fst (files s)) -> NoDup (map fst (g_arts g)) ->
    In a (map snd (g_arts g)) -> a_output a <> None -> graph_build E g s = (s', Ok sn) ->
    snd (read E X g a None (Some w) None None s') = snd (read E X g a None (Some w) (Some sn) None s').
  Proof.
    intros g a w s s' sn F ND NK I O H. destruct (key_of_known _ _ I) as (key & K). unfold graph_build in H. apply andthen_ok in H. destruct H as (s1 & sn1 & FG & H).
    apply andthen_ok in H. destruct H as (s2 & u & B & H). apply ret_ok in H. destruct H as [Q1 Q2]. injection Q2 as Q2. subst s2 sn1.
    assert (F1 := from_graph_fuel E _ _ _ _ F FG). assert (FF : files s1 = files s) by (apply keeps_from_graph in FG; exact FG).
    assert (F2 : fuel s' = None) by (rewrite <- (lim_none s1 F1) in B; exact (proj1 (splits_build E sn s1 0 s' _ B))).
    destruct (tame_build E sn _ _ _ B) as [T1 T2]. rewrite FF in T1, T2.
    destruct (snapshot_raw E g s s' s1 sn FG F2 ND (T1 ND)) as (s3 & FG3). { intros i k. now rewrite T2. }
    rewrite !(read_step _ _ _ _ _ _ _ _ _ K). unfold partitions_to_read. destruct (a_output a) eqn:OA; [|congruence].
    unfold andthen, ret. rewrite FG3. assert (F3 := from_graph_fuel E _ _ _ _ F2 FG3). assert (FF3 : files s3 = files s') by (apply keeps_from_graph in FG3; exact FG3).
    assert (LK : links_of (db s3) sn key = links_of (db s') sn key) by (eapply from_graph_links; eauto; congruence).
    unfold read_links, effect, andthen. rewrite !tick_none by assumption.
    assert (R1 := rl_spec (db s3) sn key). assert (R2 := rl_spec (db s') sn key).
    destruct (read_snapshot_partitions (db s3) sn key) as [b3 l3], (read_snapshot_partitions (db s') sn key) as [b' l']. destruct R1 as [R1 _], R2 as [R2 _].
    rewrite R1, R2, LK. unfold io_read. cbn [snd with_db files]. now rewrite FF3.
  Qed.
End Built.

(** * What is recorded is used *)
Definition says {V A} (P : action V -> Prop) (m : M V A) : Prop := forall s s' r, m s = (s', r) -> exists new, log s' = new ++ log s /\ Forall P new.
Section Says.
  Context {V : Type} (E : env V) (P : action V -> Prop).
  Lemma says_quiet : forall A (m : M V A), (forall s s' r, m s = (s', r) -> log s' = log s) -> says P m.
  Proof. intros A m H s s' r Q. exists []. split; [now apply H in Q|constructor]. Qed.
  Lemma says_ret : forall A (x : result A), says P (ret x).
  Proof. intros A x. apply says_quiet. intros s s' r H. now injection H as <-. Qed.
  Lemma says_bind : forall A B (m : M V A) (f : A -> M V B), says P m -> (forall a, says P (f a)) -> says P (andthen m f).
  Proof.
    intros A B m f Hm Hf s s' r H. unfold andthen in H. destruct (m s) as [s1 [a|e]] eqn:Q; apply Hm in Q; [|injection H as <- _; exact Q].
    apply Hf in H. destruct Q as (n1 & L1 & P1), H as (n2 & L2 & P2). exists (n2 ++ n1). rewrite L2, L1, app_assoc. split; [reflexivity|]. apply Forall_app. now split.
  Qed.
  Lemma says_effect : forall A (f : M V A), says P f -> says P (effect f).
  Proof. intros A f H. apply says_bind; [|auto]. apply says_quiet. intros s s' r T. apply tick_ok in T. tauto. Qed.
  Lemma says_each : forall A (f : A -> M V unit) l, (forall x, In x l -> says P (f x)) -> says P (eachM f l).
  Proof. intros A f l H. induction l; cbn [eachM]; [apply says_ret|]. apply says_bind; [apply H; now left|]. intros _. apply IHl. intros x I. apply H. now right. Qed.
  Lemma says_collect : forall A B (f : A -> M V B) l, (forall x, says P (f x)) -> says P (collectM f l).
  Proof. intros A B f l H. induction l; cbn [collectM]; [apply says_ret|]. apply says_bind; [auto|]. intro. apply says_bind; [auto|]. intro. apply says_ret. Qed.
  Lemma says_io_write : forall a v p, (forall l d, P (Wrote l d)) -> says P (io_write E a v p).
  Proof.
    intros a v p W. unfold io_write. destruct (st_kind (pt_storage p)).
    - apply says_bind; [apply says_effect, says_quiet; intros s s' r H; now injection H as <- _|]. intros _. apply says_bind; [apply says_ret|]. intro d.
      apply says_bind; [apply says_effect; intros s s' r H; injection H as <- _; exists [Wrote (location_of p) d]; split; [reflexivity|repeat constructor; apply W]|]. intros _.
      apply says_quiet. intros s s' r H. now injection H as <- _.
    - destruct (pt_value p); [apply says_ret|]. apply says_bind; [apply says_ret|]. intro d. apply says_quiet. intros s s' r H. now injection H as <- _.
  Qed.
  Lemma says_write_links : forall sn k new, says P (write_links sn k new).
  Proof. intros. apply says_effect, says_quiet. intros s s' r H. now injection H as <- _. Qed.
  Lemma says_write_known : forall t new, says P (write_known t new).
  Proof. intros. apply says_effect, says_quiet. intros s s' r H. now injection H as <- _. Qed.
  Lemma says_write_outputs : forall sn p f k outs vs i, (forall l d, P (Wrote l d)) -> says P (write_outputs E sn p f k i outs vs).
  Proof.
    intros sn p f k outs vs i W. revert i. induction vs as [|v vs IH]; intro i; cbn [write_outputs]; [apply says_ret|]. apply says_bind; [apply says_ret|]. intro a.
    apply says_bind; [apply says_ret|]. intros _. apply says_bind; [|intros _; apply IH]. unfold write_output.
    apply says_bind; [apply says_ret|]. intro key. apply says_bind; [apply says_ret|]. intros _. apply says_bind; [apply says_ret|]. intros _.
    apply says_bind; [apply says_ret|]. intro part. apply says_bind; [apply says_io_write, W|]. intro x. apply says_bind; [apply says_write_known|]. intros _. apply says_write_links.
  Qed.
  Lemma says_build_partition : forall sn p existing f deps k, (forall l d, P (Wrote l d)) -> (forall vs, P (Validated p k vs)) -> (~ In k existing -> forall args, P (Built p k args)) ->
    says P (build_producer_partition E sn p existing f deps k).
  Proof.
    intros sn p existing f deps k W VA B. unfold build_producer_partition. destruct (existsb (str_eqb k) existing) eqn:EX; [apply says_ret|].
    assert (NE : ~ In k existing). { intro I. assert (existsb (str_eqb k) existing = true); [|congruence]. apply existsb_exists. exists k. split; [exact I|now apply str_eqb_spec]. }
    apply says_bind; [apply says_collect; intro; apply says_bind; [apply says_ret|]; intro; apply says_bind; [apply says_ret|]; intro;
      apply says_bind; [apply says_quiet; intros s s' r H; unfold read_input, andthen, ret in H; destruct (key_of (s_graph sn) _); [unfold io_read in H|]; now injection H as <- _|]; intro; apply says_ret|]. intro args.
    apply says_bind; [apply says_effect; intros s s' r H; injection H as <- _; exists [Built p k args]; split; [reflexivity|constructor; [now apply B|constructor]]|]. intro vs.
    apply says_bind; [apply says_effect; intros s s' r H; injection H as <- _; exists [Validated p k vs]; split; [reflexivity|constructor; [apply VA|constructor]]|]. intros [|]; [|apply says_ret].
    apply says_bind; [apply says_ret|]. intro outs. now apply says_write_outputs.
  Qed.
End Says.

Section Used.
  Context {V : Type} (E : env V) (IT : iterates E) (sn : snapshot).
  Notation g := (s_graph sn).
  Lemma log_get_inputs : forall p (s s' : state V) r, get_producer_inputs E sn p s = (s', r) -> log s' = log s.
  Proof.
    intros p s s' r H. assert (S : says (fun _ => False) (get_producer_inputs E sn p)).
    { apply says_collect. intro. apply says_bind; [apply says_ret|]. intro. apply says_bind; [|intro; apply says_ret]. apply says_effect, says_quiet.
      intros s0 s1 r0 Q. destruct (read_snapshot_partitions (db s0) sn _). now injection Q as <- _. }
    apply S in H. destruct H as (new & -> & F). destruct F; [reflexivity|contradiction].
  Qed.
  Lemma log_discover : forall p fps (s s' : state V) r, discover_producer_partitions E sn p fps s = (s', r) -> log s' = log s.
  Proof.
    intros p fps s s' r H. assert (S : says (fun _ => False) (discover_producer_partitions E sn p fps)).
    { apply says_bind; [apply says_ret|]. intro outs. apply says_bind.
      - apply says_collect. intro a. apply says_bind; [|intro; apply says_ret]. apply says_effect, says_quiet.
        intros s0 s1 r0 Q. destruct (read_artifact_partitions (db s0) (a_storage a) fps _). now injection Q as <- _.
      - intro found. apply says_bind; [|intro; apply says_ret]. apply says_each. intros al _. apply says_bind; [apply says_ret|]. intro. apply says_write_links. }
    apply S in H. destruct H as (new & -> & F). destruct F; [reflexivity|contradiction].
  Qed.
  Theorem recorded_used : forall p i a key x d (s s' : state V) r, in_order E (g_arts g) -> produces (g_arts g) p i a -> last_key (g_arts g) a key ->
    recorded s (a_storage a) x -> asks E s sn p (ps_key x) d -> ps_fp x = Some (fingerprint_for E p d) ->
    build_producer E sn p s = (s', Ok r) ->
    linked s' sn key x /\ exists new, log s' = new ++ log s /\ forall args, ~ In (Built p (ps_key x) args) new.
  Proof.
    intros p i a key x d s s' r IO P LK RX AX FX H. apply key_of_last in LK. apply andthen_ok in H. destruct H as (s1 & inputs & GI & H). apply andthen_ok in H.
    destruct H as (s2 & [deps fps] & CD & H). apply ret_ok in CD. destruct CD as [-> CD]. apply andthen_ok in H.
    destruct H as (s2 & existing & DI & H). cbn [fst snd] in *.
    destruct (get_inputs_ok E sn _ _ _ _ GI) as (G1 & _ & _ & G4 & _).
    destruct (discover_ok E IT sn _ _ _ _ _ DI) as (outs & O & C & FI & _ & EX).
    destruct (produces_out E sn p i a IO P) as (outs' & O' & IA). rewrite O in O'. injection O' as <-.
    destruct (compute_dependencies_ok E p _ _ _ CD) as (m & CM & NDd & _ & DD & DF & _).
    assert (ID : In (ps_key x, d) deps).
    { destruct AX as (inputs' & m' & l1 & l2 & d0 & IP & CM' & EM & NI & ED). apply input_partitions_at in IP. assert (inputs' = inputs) by (eapply inputs_at_fun; eauto). subst inputs'.
      unfold class_of in CM. rewrite CM in CM'. injection CM' as ->. apply DD. exists l1, l2, d0. auto. }
    assert (GF : get_fp fps (ps_key x) = Some (fingerprint_for E p d)) by (unfold get_fp; now rewrite (DF _ _ ID)).
    assert (KX : In x (known_of (db s2) (a_storage a))).
    { apply recorded_known in RX. specialize (FI a IA). unfold finds in FI. unfold known_of in RX at 1. rewrite <- G4 in RX.
      unfold dmem, getd in *. destruct (dget storage_eqb (known (db s1)) (a_storage a)) eqn:Q; [|destruct RX]. rewrite FI. unfold known_of, getd. now rewrite Q. }
    assert (SX : In x (select fps (known_of (db s2) (a_storage a)))) by (eapply select_match; eauto).
    assert (EXK : In (ps_key x) existing) by (apply EX; exists a, x; auto).
    destruct (C a IA) as (key' & K' & _ & _ & CL). rewrite LK in K'. injection K' as <-. split.
    - apply linked_links. assert (FR : frame sn (out_key sn p) (out_storage sn p) s2 s').
      { revert H. apply within_each. intros kd _. apply within_bind; [apply within_ret|]. intro. apply within_build_partition. }
      apply (fr_links_mono _ _ _ _ _ FR). now apply CL.
    - rewrite <- (log_get_inputs _ _ _ _ GI), <- (log_discover _ _ _ _ _ DI).
      assert (SS : says (fun e => forall k args, e = Built p k args -> ~ In k existing) (eachM (fun kd => f <- ret (match get_fp fps (fst kd) with Some f => Ok f | None => Err ValueError end) ;;
        build_producer_partition E sn p existing f (snd kd) (fst kd)) deps)).
      { apply says_each. intros kd _. apply says_bind; [apply says_ret|]. intro f. apply says_build_partition; try discriminate. intros NE args k args' Q. now injection Q as <- _. }
      apply SS in H. destruct H as (new & -> & FO). exists new. split; [reflexivity|]. intros args I. rewrite Forall_forall in FO. exact (FO _ I _ _ eq_refl EXK).
  Qed.
End Used.
