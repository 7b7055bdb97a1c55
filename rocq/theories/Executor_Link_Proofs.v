(** Which partitions a build links to its snapshot. *)
From Coq Require Import ZArith List Ascii String Bool Arith Lia.
From Verif Require Import Base Base_Proofs Str Str_Proofs Graph_Model Graph_Spec Graph_Proofs.
From Verif Require Import Backend_Model Backend_Spec Backend_Proofs.
From Verif Require Import Executor_Model Executor_Spec Executor_Proofs Executor_Done_Proofs Executor_Build_Proofs.
Import ListNotations.
Open Scope list_scope.

Definition fits (t : storage) (x : psnapshot) : Prop := pt_storage (ps_part x) = t /\ is_some (ps_fp x) = st_templated t.
Definition consistent (b : backend) : Prop := forall t x, In x (known_of b t) -> fits t x.

Section Linking.
  Context {V : Type} (E : env V) (IT : iterates E) (sn : snapshot) (Q : str -> psnapshot -> Prop).
  Definition only_links (b b' : backend) : Prop := forall sn' key x, In x (links_of b' sn' key) ->
    In x (links_of b sn' key) \/ (sn' = sn /\ Q key x).
  Definition linking {A} (m : M V A) (Post : A -> Prop) : Prop := forall s s' r, m s = (s', r) -> consistent (db s) ->
    consistent (db s') /\ only_links (db s) (db s') /\ match r with Ok a => Post a | Err _ => True end.
  Definition any {A} (a : A) : Prop := True.
  Lemma only_refl : forall b, only_links b b.
  Proof. intros b sn' key x I. now left. Qed.
  Lemma only_trans : forall a b c, only_links a b -> only_links b c -> only_links a c.
  Proof. intros a b c A B sn' key x I. destruct (B _ _ _ I) as [J|J]; [auto|now right]. Qed.
  Lemma only_same : forall b b', links b' = links b -> only_links b b'.
  Proof. intros b b' L sn' key x I. left. unfold links_of in *. now rewrite L in I. Qed.
  Lemma linking_weaken : forall A (m : M V A) (P P' : A -> Prop), linking m P -> (forall a, P a -> P' a) -> linking m P'.
  Proof. intros A m P P' H I s s' r R C. destruct (H s s' r R C) as (C' & L & X). split; [exact C'|split; [exact L|]]. destruct r; auto. Qed.
  Lemma linking_ret : forall A (x : result A) (Post : A -> Prop), (forall a, x = Ok a -> Post a) -> linking (ret x) Post.
  Proof. intros A x Post H s s' r R C. injection R as <- <-. split; [exact C|split; [apply only_refl|]]. destruct x; auto. Qed.
  Lemma linking_pure : forall A (f : state V -> result A), linking (fun s => (s, f s)) any.
  Proof. intros A f s s' r R C. injection R as <- <-. split; [exact C|split; [apply only_refl|]]. destruct (f s); exact I. Qed.
  Lemma linking_bind : forall A B (m : M V A) (f : A -> M V B) P P', linking m P -> (forall a, P a -> linking (f a) P') -> linking (andthen m f) P'.
  Proof.
    intros A B m f P P' Hm Hf s s' r R C. unfold andthen in R. destruct (m s) as [s1 [a|e]] eqn:R1.
    - destruct (Hm _ _ _ R1 C) as (C1 & L1 & X1). destruct (Hf a X1 _ _ _ R C1) as (C2 & L2 & X2).
      split; [exact C2|split; [eapply only_trans; eauto|exact X2]].
    - injection R as <- <-. destruct (Hm _ _ _ R1 C) as (C1 & L1 & _). auto.
  Qed.
  Lemma linking_bind_ret : forall A B (x : result A) (f : A -> M V B) P', (forall a, x = Ok a -> linking (f a) P') -> linking (andthen (ret x) f) P'.
  Proof. intros A B x f P' H. apply linking_bind with (P := fun a => x = Ok a); [now apply linking_ret|exact H]. Qed.
  Lemma linking_tick : linking tick any.
  Proof. intros s s' r R C. apply tick_ok in R. destruct R as (_ & D & _). rewrite D. split; [exact C|split; [apply only_refl|]]. now destruct r. Qed.
  Lemma linking_effect : forall A (f : state V -> state V * result A) P, linking f P -> linking (effect f) P.
  Proof. intros A f P H. apply linking_bind with any; [apply linking_tick|]. intros _ _. exact H. Qed.
  Lemma linking_each : forall A (f : A -> M V unit) l, (forall x, In x l -> linking (f x) any) -> linking (eachM f l) any.
  Proof.
    induction l as [|x l IH]; intro H; cbn; [now apply linking_ret|]. apply linking_bind with any; [apply H; now left|].
    intros _ _. apply IH. intros y I. apply H. now right.
  Qed.
  Lemma linking_collect : forall A B (f : A -> M V B) l (P : B -> Prop), (forall x, In x l -> linking (f x) P) -> linking (collectM f l) (fun ys => forall y, In y ys -> P y).
  Proof.
    induction l as [|x l IH]; intros P H; cbn; [apply linking_ret; intros a Q0; injection Q0 as <-; intros ? []|].
    apply linking_bind with P; [apply H; now left|]. intros y Py. apply linking_bind with (fun ys => forall y, In y ys -> P y).
    - apply IH. intros z I. apply H. now right.
    - intros ys Pys. apply linking_ret. intros a Q0. injection Q0 as <-. intros z [ <- |I]; auto.
  Qed.

  Lemma linking_read_links : forall sn' k, linking (read_links E sn' k) any.
  Proof.
    intros sn' k. apply linking_effect. intros s s' r R C. assert (L := rl_spec (db s) sn' k).
    destruct (read_snapshot_partitions (db s) sn' k) as [b l]. injection R as <- <-. destruct L as (_ & L1 & _ & _ & _ & L5). cbn [with_db db].
    split; [|split; [|exact I]].
    - intros t x. unfold known_of. rewrite L5. apply C.
    - intros sn'' key x. rewrite L1. now left.
  Qed.
  Lemma linking_write_links : forall k new, (forall x, In x new -> Q k x) -> linking (write_links sn k new) any.
  Proof.
    intros k new H. apply linking_effect. intros s s' r R C. injection R as <- <-. cbn [with_db db].
    destruct (wl_other (db s) sn k new) as (_ & _ & _ & L4). split; [|split; [|exact I]].
    - intros t x. unfold known_of. rewrite L4. apply C.
    - intros sn' key x. rewrite wl_links. destruct (snapshot_eqb sn sn' && str_eqb k key)%bool eqn:Q0; [|now left].
      apply andb_true_iff in Q0. destruct Q0 as [Q1 Q2]. apply snapshot_eqb_spec in Q1. apply str_eqb_spec in Q2. subst.
      intro J. apply adds_In in J. destruct J as [J|J]; [now left|right; auto].
  Qed.
  Lemma wa_consistent : forall b t new, consistent b -> (forall x, In x new -> fits t x) -> consistent (write_artifact_partitions b t new).
  Proof.
    intros b t new C N t' x. rewrite wa_known. destruct (storage_eqb t t') eqn:Q0; [|apply C]. apply storage_eqb_spec in Q0. subst t'.
    intro J. apply adds_In in J. destruct J as [J|J]; auto.
  Qed.
  Lemma linking_write_known : forall t new, (forall x, In x new -> fits t x) -> linking (write_known t new) any.
  Proof.
    intros t new H. apply linking_effect. intros s s' r R C. injection R as <- <-. cbn [with_db db].
    destruct (wa_other (db s) t new) as (_ & _ & L3 & _). split; [now apply wa_consistent|split; [now apply only_same|exact I]].
  Qed.
  Lemma discover_fits : forall fs t fps found x, discover E fs t fps = Ok found -> In x found -> fits t x.
  Proof.
    intros fs t fps found x D I. unfold discover in D. destruct (st_kind t) as [|v] eqn:SK.
    - apply mapM_Forall2 in D.
      assert (FI : forall l, In l (filter (fun l => generated_by t l && option_eqb Z.eqb (get_fp fps (snd (fst l))) (snd l))%bool (map fst fs)) ->
                   is_some (snd l) = st_templated t).
      { intros [[i k] f] H. apply filter_In in H. destruct H as [_ H]. apply andb_true_iff in H. destruct H as [H _]. cbn in H.
        apply andb_true_iff in H. destruct H as [H _]. apply andb_true_iff in H. destruct H as [_ H]. apply eqb_prop in H. now rewrite H. }
      induction D as [|l y ls ys H D IH]; [destruct I|]. destruct I as [->|I].
      + unfold take_snapshot in H. destruct (content fs _); [|discriminate]. injection H as <-. split; [reflexivity|]. cbn. apply FI. now left.
      + apply IH; [exact I|]. intros l' J. apply FI. now right.
    - destruct (negb (is_nil fps) && is_some v)%bool; [discriminate|]. destruct (st_partitioned t && is_nil fps)%bool; [discriminate|].
      destruct v as [v|]; [|injection D as <-; destruct I]. apply mapM_Forall2 in D. induction D as [|l y ls ys H D IH]; [destruct I|].
      destruct I as [->|I]; [|auto]. destruct (generate_partition t (snd l) (fst l)) as [p|] eqn:G; [|discriminate].
      cbn [bind] in H. apply generate_partition_storage in G. destruct G as (G1 & _ & G3 & G4 & _).
      unfold take_snapshot in H. destruct (content fs p); [|discriminate]. injection H as <-. split; [exact G1|]. unfold ps_fp. cbn. now rewrite G3.
  Qed.
  Lemma linking_read_known : forall t fps, linking (read_known E t fps) (fun l => forall x, In x l -> wanted fps x /\ fits t x).
  Proof.
    intros t fps. apply linking_effect. intros s s' r R C.
    assert (L := ra_spec (db s) t fps (discover E (files s) t fps)).
    destruct (read_artifact_partitions (db s) t fps (discover E (files s) t fps)) as [b x]. injection R as <- <-. cbn [with_db db].
    destruct L as (_ & _ & _ & LK & L). assert (CB : consistent b).
    { destruct x as [l|e]; [|destruct L as (-> & _); exact C]. destruct L as (_ & [(_ & ->)|(found & D & _ & ->)]); [exact C|].
      apply wa_consistent; [exact C|]. intros y I. eapply discover_fits; eauto. }
    split; [exact CB|]. split; [now apply only_same|]. destruct x as [l|e]; cbn [rmap]; [|exact I].
    intros y I. apply (proj1 (IT _ _)) in I. destruct L as (-> & _). apply select_In in I. destruct I as [I1 I2]. split; [exact I2|]. now apply CB.
  Qed.
  Lemma linking_io_write : forall a v p, is_some (pt_fp p) = st_templated (pt_storage p) ->
    linking (io_write E a v p) (fun x => fits (pt_storage p) x /\ ps_key x = pt_key p /\ ps_fp x = pt_fp p).
  Proof.
    intros a v p T s s' r R C.
    assert (D : db s' = db s).
    { clear C. unfold io_write in R. destruct (st_kind (pt_storage p)).
      - unfold andthen at 1 in R. unfold effect, andthen at 1 in R. destruct (tick s) as [s1 [u|e]] eqn:T1; apply tick_ok in T1; destruct T1 as (_ & D1 & _).
        2: { injection R as <- _. exact D1. }
        unfold andthen at 1 in R. cbn [ret] in R. destruct (dump E a v) as [d|e]; [|injection R as <- _; exact D1].
        unfold andthen at 1 in R. unfold andthen at 1 in R. destruct (tick _) as [s2 [u2|e]] eqn:T2; apply tick_ok in T2; destruct T2 as (_ & D2 & _); cbn [with_file db] in D2.
        2: { injection R as <- _. congruence. }
        injection R as <- _. cbn. congruence.
      - destruct (pt_value p); [now injection R as <- _|]. unfold andthen in R. cbn [ret] in R. destruct (dump E a v); now injection R as <- _. }
    rewrite D. split; [exact C|]. split; [apply only_refl|]. destruct r as [x|e]; [|exact I].
    apply io_write_ok in R. destruct R as (_ & R1 & R2 & R3). split; [split; [exact R3|now rewrite R2]|auto].
  Qed.
  Lemma linking_log : forall A (f : state V -> result A) (x : action V), linking (effect (fun s => (with_log s x, f s))) any.
  Proof.
    intros A f x. apply linking_effect. intros s s' r R C. injection R as <- <-. split; [exact C|]. split; [apply only_refl|]. now destruct (f s).
  Qed.
End Linking.

Section Producer.
  Context {V : Type} (E : env V) (IT : iterates E) (sn : snapshot).
  Notation g := (s_graph sn).
  (** Linked by producer [p] asked for the partitions [fps]. *)
  Definition asked_by (p : producer) (fps : list (pkey * option Z)) (key : str) (x : psnapshot) : Prop :=
    exists outs a, outputs_of g p = Ok outs /\ In a outs /\ key_of g a = Ok key /\
      (wanted fps x \/ dget str_eqb fps (ps_key x) = Some (ps_fp x)) /\ fits (a_storage a) x.
  Lemma linking_discover : forall p fps, linking sn (asked_by p fps) (discover_producer_partitions E sn p fps) any.
  Proof.
    intros p fps. apply linking_bind_ret. intros outs O.
    apply linking_bind with (fun found => forall al, In al found -> In (fst al) outs /\ forall x, In x (snd al) -> wanted fps x /\ fits (a_storage (fst al)) x).
    - apply linking_collect. intros a I. eapply linking_bind; [now apply linking_read_known|]. intros l Hl. apply linking_ret.
      intros al EQ. injection EQ as <-. auto.
    - intros found HF. apply linking_bind with any; [|intros _ _; apply linking_ret; exact (fun _ _ => I)]. apply linking_each. intros al Ial.
      apply linking_bind_ret. intros key K. apply linking_write_links. intros x X. destruct (HF al Ial) as [Ia HX]. destruct (HX x X) as [H1 H2].
      exists outs, (fst al). auto 8.
  Qed.
  Lemma linking_write_output : forall p fps outs i a f k v, outputs_of g p = Ok outs -> In a outs -> get_fp fps k = Some f ->
    linking sn (asked_by p fps) (write_output E sn p i a f k v) any.
  Proof.
    intros p fps outs i a f k v O Ia G. apply linking_bind_ret. intros key K. apply linking_bind_ret. intros _ _. apply linking_bind_ret. intros _ _.
    apply linking_bind_ret. intros part P. apply generate_partition_storage in P. destruct P as (P1 & P2 & P3 & P4 & _).
    eapply linking_bind; [apply linking_io_write; now rewrite P3, P1|]. intros x (X1 & X2 & X3). rewrite P1 in X1.
    apply linking_bind with any.
    - apply linking_write_known. intros y [ <- |[]]. exact X1.
    - intros _ _. apply linking_write_links. intros y [ <- |[]]. exists outs, a. split; [exact O|]. split; [exact Ia|]. split; [exact K|].
      split; [|exact X1]. right. rewrite X2, X3, P2, P3. unfold get_fp in G. destruct (dget str_eqb fps k); congruence.
  Qed.
  Lemma linking_write_outputs : forall p fps outs f k vs i, outputs_of g p = Ok outs -> get_fp fps k = Some f ->
    linking sn (asked_by p fps) (write_outputs E sn p f k i outs vs) any.
  Proof.
    intros p fps outs f k. induction vs as [|v vs IH]; intros i O G; cbn [write_outputs]; [apply linking_ret; exact (fun _ _ => I)|].
    apply linking_bind_ret. intros a N. destruct (nth_error outs i) as [b|] eqn:NE; [|discriminate]. injection N as ->.
    apply linking_bind_ret. intros _ _. apply linking_bind with any; [|intros _ _; now apply IH].
    apply (linking_write_output p fps outs); auto. eapply nth_error_In, NE.
  Qed.
  Lemma linking_build_partition : forall p fps existing f deps k, get_fp fps k = Some f ->
    linking sn (asked_by p fps) (build_producer_partition E sn p existing f deps k) any.
  Proof.
    intros p fps existing f deps k G. unfold build_producer_partition. destruct (existsb (str_eqb k) existing); [apply linking_ret; exact (fun _ _ => I)|].
    eapply linking_bind.
    - apply linking_collect with (P := any). intros name _. apply linking_bind_ret. intros a _. apply linking_bind_ret. intros d _.
      apply linking_bind with any; [|intros ? _; apply linking_ret; exact (fun _ _ => I)]. apply linking_bind_ret. intros _ _. apply linking_pure.
    - intros args _. apply linking_bind with any; [apply (linking_log sn _ _ (fun _ => _))|]. intros vs _.
      apply linking_bind with any; [apply (linking_log sn _ _ (fun _ => _))|]. intros [|] _; [|apply linking_ret; exact (fun _ _ => I)].
      apply linking_bind_ret. intros outs O. now apply linking_write_outputs.
  Qed.
  Lemma build_producer_links : forall p s s' r, build_producer E sn p s = (s', r) -> consistent (db s) ->
    consistent (db s') /\
    ((forall sn' key x, In x (links_of (db s') sn' key) -> In x (links_of (db s) sn' key)) \/
     exists inputs deps fps, inputs_at E sn (db s) (p_inputs p) inputs /\ compute_dependencies E p inputs = Ok (deps, fps) /\
       only_links sn (asked_by p fps) (db s) (db s')).
  Proof.
    intros p s s' r H C. unfold build_producer in H. unfold andthen at 1 in H.
    assert (L1 : linking sn (fun _ _ => False) (get_producer_inputs E sn p) any).
    { apply linking_weaken with (fun ys => forall y, In y ys -> any y); [|constructor]. apply linking_collect. intros na _. apply linking_bind_ret. intros key _.
      apply linking_bind with any; [apply linking_read_links|intros ? _; apply linking_ret; constructor]. }
    destruct (get_producer_inputs E sn p s) as [s1 [inputs|e]] eqn:GI.
    2: { injection H as <- <-. destruct (L1 _ _ _ GI C) as (C1 & O1 & _). split; [exact C1|]. left. intros sn' key x J.
         destruct (O1 _ _ _ J) as [J'|[_ []]]; exact J'. }
    destruct (L1 _ _ _ GI C) as (C1 & O1 & _). unfold andthen at 1 in H. cbn [ret] in H.
    destruct (compute_dependencies E p inputs) as [[deps fps]|e] eqn:CD.
    2: { injection H as <- <-. split; [exact C1|]. left. intros sn' key x J. destruct (O1 _ _ _ J) as [J'|[_ []]]; exact J'. }
    destruct (get_inputs_ok E sn _ _ _ _ GI) as (G1 & _).
    assert (L2 : linking sn (asked_by p fps) (existing <- discover_producer_partitions E sn p fps ;; build_all E sn p existing fps deps) any).
    { apply linking_bind with any; [apply linking_discover|]. intros existing _. apply linking_each. intros kd _. apply linking_bind_ret. intros f GF.
      destruct (get_fp fps (fst kd)) eqn:GG; [|discriminate]. injection GF as ->. now apply linking_build_partition. }
    destruct (L2 _ _ _ H C1) as (C2 & O2 & _). split; [exact C2|]. right. exists inputs, deps, fps. split; [exact G1|]. split; [exact CD|].
    intros sn' key x J. destruct (O2 _ _ _ J) as [J'|J']; [|now right]. destruct (O1 _ _ _ J') as [J''|[_ []]]. now left.
  Qed.
End Producer.

Section Graph.
  Context {V : Type} (E : env V) (IT : iterates E) (sn : snapshot) (ND : NoDup (map fst (g_arts (s_graph sn)))).
  Notation g := (s_graph sn).
  Definition accounted (s0 : state V) (pre : list node) (s : state V) : Prop := forall sn' key x, In x (links_of (db s) sn' key) ->
    In x (links_of (db s0) sn' key) \/
    (sn' = sn /\ exists p inputs deps fps, In (NProducer p) pre /\ inputs_at E sn (db s) (p_inputs p) inputs /\
       compute_dependencies E p inputs = Ok (deps, fps) /\ asked_by sn p fps key x).
  Lemma asked_by_producer : forall p fps key x, asked_by sn p fps key x -> exists i a, produces (g_arts g) p i a /\ key_of g a = Ok key /\
    (wanted fps x \/ dget str_eqb fps (ps_key x) = Some (ps_fp x)) /\ fits (a_storage a) x.
  Proof.
    intros p fps key x (outs & a & O & I & K & R). destruct (out_produced _ _ _ _ O I) as (i & P). exists i, a. auto.
  Qed.
  Lemma inputs_later : forall pre rest q p o j (s s' : state V) inputs, build_order (dependencies (g_arts g)) (pre ++ NProducer q :: rest) ->
    frame sn (out_key sn q) (out_storage sn q) s s' -> In (NProducer p) pre -> produces (g_arts g) p j o ->
    inputs_at E sn (db s) (p_inputs p) inputs -> inputs_at E sn (db s') (p_inputs p) inputs.
  Proof.
    intros pre rest q p o j s s' inputs (NO & BV & BB) F I (kk & Io & Oo) H. eapply inputs_at_frame; [exact F| |exact H].
    intros n a key Ia K KO. destruct (input_not_out _ _ _ _ ND K KO) as (i & AO).
    assert (B1 := BB _ _ (proj2 (dependencies_needs _ _ _) (needs_input _ _ _ _ _ _ _ Io Oo Ia))).
    assert (B2 := BB _ _ (proj2 (dependencies_needs _ _ _) (needs_producer _ _ _ _ _ (key_of_In _ _ _ K) AO))).
    eapply before_prefix in B1; [|exact NO|exact I]. eapply before_prefix in B2; [|exact NO|exact B1].
    apply NoDup_remove_2 in NO. apply NO, in_app_iff. now left.
  Qed.
  Lemma build_producer_accounted : forall s0 pre rest q s s' r, build_order (dependencies (g_arts g)) (pre ++ NProducer q :: rest) ->
    consistent (db s) -> accounted s0 pre s -> build_producer E sn q s = (s', r) ->
    consistent (db s') /\ accounted s0 (pre ++ [NProducer q]) s'.
  Proof.
    intros s0 pre rest q s s' r BO C A H. assert (F := within_build_producer E sn q _ _ _ H).
    destruct (build_producer_links E IT sn q s s' r H C) as (C' & L). split; [exact C'|].
    assert (OLD : forall sn' key x, In x (links_of (db s) sn' key) -> In x (links_of (db s0) sn' key) \/
      (sn' = sn /\ exists p inputs deps fps, In (NProducer p) (pre ++ [NProducer q]) /\ inputs_at E sn (db s') (p_inputs p) inputs /\
         compute_dependencies E p inputs = Ok (deps, fps) /\ asked_by sn p fps key x)).
    { intros sn' key x J. destruct (A _ _ _ J) as [J'|(-> & p & inputs & deps & fps & Ip & IA & CD & AB)]; [now left|]. right. split; [reflexivity|].
      exists p, inputs, deps, fps. split; [apply in_app_iff; now left|]. split; [|auto].
      destruct (asked_by_producer _ _ _ _ AB) as (i & a & P & _). eapply inputs_later; eauto. }
    intros sn' key x J. destruct L as [L|(inputs & deps & fps & IA & CD & L)]; [now apply OLD, L|].
    destruct (L _ _ _ J) as [J'|(-> & AB)]; [now apply OLD|]. right. split; [reflexivity|].
    exists q, inputs, deps, fps. split; [apply in_app_iff; right; now left|]. split; [|auto].
    eapply inputs_at_frame; [exact F| |exact IA]. intros n a key' Ia K KO. destruct (input_not_out _ _ _ _ ND K KO) as (i & AO).
    eapply size_input; eauto.
  Qed.
  Lemma build_nodes_accounted : forall s0 rest pre s s' r, build_order (dependencies (g_arts g)) (pre ++ rest) ->
    consistent (db s) -> accounted s0 pre s -> build_nodes E sn rest s = (s', r) ->
    consistent (db s') /\ exists pre', accounted s0 pre' s' .
  Proof.
    intro s0. induction rest as [|n rest IH]; intros pre s s' r BO C A H; cbn [build_nodes eachM] in H.
    - injection H as <- <-. eauto.
    - unfold andthen in H. destruct n as [a|q].
      + cbn [ret] in H. eapply (IH (pre ++ [NArtifact a])); [rewrite <- app_assoc; exact BO|exact C| |exact H].
        intros sn' key x J. destruct (A _ _ _ J) as [J'|(EQ & p & inputs & deps & fps & Ip & R)]; [now left|]. right. split; [exact EQ|].
        exists p, inputs, deps, fps. split; [apply in_app_iff; now left|exact R].
      + destruct (build_producer E sn q s) as [s1 [u|e]] eqn:B.
        * destruct (build_producer_accounted _ _ _ _ _ _ _ BO C A B) as (C1 & A1).
          eapply (IH (pre ++ [NProducer q])); [rewrite <- app_assoc; exact BO|exact C1|exact A1|exact H].
        * injection H as <- <-. destruct (build_producer_accounted _ _ _ _ _ _ _ BO C A B). eauto.
  Qed.
  (** Whatever a build links is asked for, or the producer's map asked for nothing. *)
  Theorem only_asked : forall order s s' r, consistent (db s) -> build_order (dependencies (g_arts g)) order -> templated (g_arts g) ->
    build_nodes E sn order s = (s', r) -> forall sn' key x, linked s' sn' key x -> linked s sn' key x \/
    (sn' = sn /\ exists p i a, produces (g_arts g) p i a /\ last_key (g_arts g) a key /\ pt_storage (ps_part x) = a_storage a /\
      ((exists d, asks E s' sn p (ps_key x) d /\ ps_fp x = Some (fingerprint_for E p d)) \/
       (exists inputs, input_partitions E s' sn p inputs /\
          c_map (classes E (p_class p)) (filter (fun i => existsb (str_eqb (fst i)) (c_map_inputs (classes E (p_class p)))) inputs) = Ok []))).
  Proof.
    intros order s s' r C BO TP H sn' key x L. rewrite linked_links in L |- *.
    assert (A0 : accounted s [] s) by (intros ? ? ? J; now left).
    destruct (build_nodes_accounted s order [] s s' r BO C A0 H) as (_ & pre' & A).
    destruct (A _ _ _ L) as [J|(-> & p & inputs & deps & fps & _ & IA & CD & AB)]; [now left|]. right. split; [reflexivity|].
    destruct (asked_by_producer _ _ _ _ AB) as (i & a & P & K & WT & [FT FS]). exists p, i, a. split; [exact P|].
    split; [now apply key_of_last|]. split; [exact FT|]. rewrite (TP _ _ _ P) in FS.
    destruct (compute_dependencies_ok E p _ _ _ CD) as (m & M & DN & FK & DI & D1 & D2).
    assert (AS : dget str_eqb fps (ps_key x) = Some (ps_fp x) -> exists d, asks E s' sn p (ps_key x) d /\ ps_fp x = Some (fingerprint_for E p d)).
    { intro DG. destruct (D2 _ _ DG) as (d & Id & EQ). exists d. split; [|exact EQ]. now apply (done_asks E sn p s' (ps_key x) d inputs deps fps IA CD). }
    destruct WT as [[->|[DG|[_ N]]]|DG]; [|left; now apply AS|rewrite N in FS; discriminate|left; now apply AS].
    right. exists inputs. split; [now apply input_partitions_at|]. cbn in FK. symmetry in FK. apply map_eq_nil in FK. subst deps. unfold class_of in M. rewrite M. f_equal.
    destruct m as [|[k d0] m]; [reflexivity|]. exfalso.
    assert (X : exists v, dget str_eqb (dict_of str_eqb ((k, d0) :: m)) k = Some v).
    { clear. change pkey with str in *. unfold dict_of. rewrite (dget_dupdate _ str_eqb_spec). destruct (dget str_eqb (rev ((k, d0) :: m)) k) as [v|] eqn:Q; [exists v; reflexivity|].
      apply (dget_None _ str_eqb_spec) in Q. destruct Q. rewrite map_rev. rewrite <- in_rev. now left. }
    destruct X as (v & X). apply (dict_of_last _ _ _ str_eqb_spec) in X. destruct X as (l1 & l2 & EQ & N).
    destruct (proj2 (DI k (dict_of str_eqb v))). exists l1, l2, v. auto.
  Qed.
End Graph.

(** * States of histories are consistent *)
Section Arises.
  Context {V : Type} (E : env V) (IT : iterates E).
  Lemma empty_consistent : consistent empty_backend.
  Proof. intros t x []. Qed.
  Lemma build_nodes_consistent : forall sn order s s' r, consistent (db s) -> build_nodes E sn order s = (s', r) -> consistent (db s').
  Proof.
    intros sn. induction order as [|n order IH]; intros s s' r C H; cbn [build_nodes eachM] in H; [now injection H as <- _|].
    unfold andthen in H. destruct n as [a|q]; [cbn [ret] in H; eapply IH; eauto|].
    destruct (build_producer E sn q s) as [s1 [u|e]] eqn:B; destruct (build_producer_links E IT sn q _ _ _ B C) as (C1 & _); [eapply IH; eauto|].
    injection H as <- _. exact C1.
  Qed.
  Lemma visit_fits : forall g fs l acc acc', visit_all E g fs acc l = Ok acc' ->
    (forall k a ps x, In (k, a, ps) (snd acc) -> In x ps -> fits (a_storage a) x) ->
    forall k a ps x, In (k, a, ps) (snd acc') -> In x ps -> fits (a_storage a) x.
  Proof.
    intros g fs. induction l as [|n l IH]; intros acc acc' H A; cbn [visit_all] in H; [now injection H as <-|].
    destruct (visit E g fs acc n) as [acc1|e] eqn:VV; [|discriminate]. cbn [bind] in H. apply (IH acc1 acc' H). clear IH H.
    unfold visit in VV. destruct n as [a|p]; [|injection VV as <-; exact A].
    destruct (key_of g a) as [key|]; [|discriminate]. cbn [bind] in VV. destruct (a_output a); [injection VV as <-; exact A|].
    destruct (discover E fs (a_storage a) []) as [parts|] eqn:D; [|discriminate]. cbn [bind] in VV.
    destruct parts as [|x0 parts]; [discriminate|]. injection VV as <-. cbn [snd]. intros k b ps x I J. apply in_app_iff in I.
    destruct I as [I|[I|[]]]; [eapply A; eauto|]. injection I as <- <- <-. eapply discover_fits; eauto.
  Qed.
  Lemma from_graph_consistent : forall g s s' r, consistent (db s) -> from_graph E g s = (s', r) -> consistent (db s').
  Proof.
    intros g s s' r C H. unfold from_graph in H. unfold andthen at 1 in H.
    destruct (visit_all E g (files s) (graph_fp E g, []) (map fst (dependencies (g_arts g)))) as [[id found]|e] eqn:VA; [|now injection H as <- _].
    assert (VF := visit_fits _ _ _ _ _ VA). cbn [snd] in VF. specialize (VF (fun k a ps x I => match I with end)).
    set (sn := Snapshot id g). cbn [fst] in H. fold sn in H. 
    unfold andthen at 1 in H. destruct (effect (fun st : state V => (with_db st (write_graph (graph_fp E) (db st) g), Ok tt)) s) as [s1 [u1|e1]] eqn:E1.
    2: { unfold effect, andthen in E1. destruct (tick s) as [s0 [u|e]] eqn:T; [discriminate|]. apply tick_ok in T. destruct T as (_ & D & _).
         injection E1 as <- _. injection H as <- _. now rewrite D. }
    apply effect_ok in E1. destruct E1 as (s0 & _ & D0 & _ & E1). injection E1 as <-.
    assert (C1 : consistent (write_graph (graph_fp E) (db s0) g)).
    { rewrite D0. unfold write_graph. destruct (touch str_eqb (graphs (db s)) (g_name g) []) as [d byf]. exact C. }
    unfold andthen at 1 in H. destruct (effect (fun st : state V => (with_db st (write_snapshot (snapshot_fp E) (db st) sn), Ok tt)) _) as [s2 [u2|e2]] eqn:E2.
    2: { unfold effect, andthen in E2. destruct (tick _) as [s3 [u|e]] eqn:T in E2; [discriminate|]. apply tick_ok in T. destruct T as (_ & D & _).
         injection E2 as <- _. injection H as <- _. rewrite D. exact C1. }
    apply effect_ok in E2. destruct E2 as (s3 & _ & D3 & _ & E2). injection E2 as <-. cbn [with_db db] in D3.
    assert (C2 : consistent (write_snapshot (snapshot_fp E) (db s3) sn)).
    { rewrite D3. unfold write_snapshot. destruct (touch str_eqb _ _ []) as [d byf]. exact C1. }
    assert (L : linking (V := V) sn (fun _ _ => True) (_ <- eachM (fun kap => _ <- write_known (a_storage (snd (fst kap))) (snd kap) ;; write_links sn (fst (fst kap)) (snd kap)) found ;; ret (Ok sn)) any).
    { apply linking_bind with any; [|intros _ _; apply linking_ret; constructor]. apply linking_each. intros [[k a] ps] Ik. cbn [fst snd].
      apply linking_bind with any; [|intros _ _; apply linking_write_links; constructor]. apply linking_write_known. intros x Ix. eapply VF; eauto. }
    destruct (L _ _ _ H C2) as (C3 & _). exact C3.
  Qed.
  Theorem arises_consistent : forall s, arises E s -> consistent (db s).
  Proof.
    induction 1 as [fs n|s s' A IH HP]; [apply empty_consistent|]. destruct HP as [s fs|s|s n|s g s' r H|s sn order s' r H]; cbn [db]; auto.
    - apply empty_consistent.
    - eapply from_graph_consistent; eauto.
    - eapply build_nodes_consistent; eauto.
  Qed.
End Arises.
