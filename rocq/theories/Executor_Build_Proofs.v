(** Builds of whole graphs. *)
From Coq Require Import ZArith List Ascii String Bool Arith Lia.
From Verif Require Import Base Base_Proofs Str Str_Proofs Graph_Model Graph_Spec Graph_Proofs.
From Verif Require Import Backend_Model Backend_Spec Backend_Proofs.
From Verif Require Import Executor_Model Executor_Spec Executor_Proofs Executor_Done_Proofs.
Import ListNotations.
Open Scope list_scope.

(** * Dictionaries *)
Lemma dict_of_last : forall K V (eqb : K -> K -> bool), (forall a b, eqb a b = true <-> a = b) -> forall (l : list (K * V)) k v,
  dget eqb (dict_of eqb l) k = Some v <-> exists l1 l2, l = l1 ++ (k, v) :: l2 /\ ~ In k (map fst l2).
Proof.
  intros K V eqb S l k v. unfold dict_of. rewrite (dget_dupdate _ S). cbn [dget].
  assert (R : match dget eqb (rev l) k with Some x => Some x | None => None end = dget eqb (rev l) k) by (now destruct (dget eqb (rev l) k)).
  rewrite R. clear R. induction l as [|[k' v'] l IH] using rev_ind.
  - cbn. split; [discriminate|]. intros (l1 & l2 & H & _). now destruct l1.
  - rewrite rev_app_distr. cbn [rev app dget]. destruct (eqb k' k) eqn:Q.
    + apply S in Q. subst k'. split.
      * intro H. injection H as ->. exists l, []. split; [reflexivity|intros []].
      * intros (l1 & l2 & H & N). destruct (exists_last_or_nil _ l2) as [->|(l2' & [k2 v2] & ->)].
        -- apply app_inj_tail in H. destruct H as [_ H]. congruence.
        -- rewrite app_comm_cons, app_assoc in H. apply app_inj_tail in H. destruct H as [_ H]. injection H as <- <-.
           destruct N. rewrite map_app. apply in_app_iff. right. now left.
    + rewrite IH. split.
      * intros (l1 & l2 & -> & N). exists l1, (l2 ++ [(k', v')]). split; [now rewrite <- app_assoc|]. rewrite map_app. intro I.
        apply in_app_iff in I. destruct I as [I|[I|[]]]; [auto|]. cbn in I. subst. rewrite (proj2 (S k k) eq_refl) in Q. discriminate.
      * intros (l1 & l2 & H & N). destruct (exists_last_or_nil _ l2) as [->|(l2' & [k2 v2] & ->)].
        -- apply app_inj_tail in H. destruct H as [_ H]. injection H as -> ->. rewrite (proj2 (S k k) eq_refl) in Q. discriminate.
        -- rewrite app_comm_cons, app_assoc in H. apply app_inj_tail in H. destruct H as [-> H]. exists l1, l2'. split; [reflexivity|].
           intro I. apply N. rewrite map_app. apply in_app_iff. now left.
Qed.
Lemma key_of_last : forall g a key, key_of g a = Ok key <-> last_key (g_arts g) a key.
Proof.
  intros g a key. unfold key_of, artifact_to_key, last_key. generalize (g_arts g). intro l.
  assert (D := dict_of_last _ _ _ artifact_eqb_spec (map (fun ka => (snd ka, fst ka)) l) a key).
  destruct (dget artifact_eqb (dict_of artifact_eqb (map (fun ka => (snd ka, fst ka)) l)) a) as [k|].
  - split.
    + intro H. injection H as ->. destruct (proj1 D eq_refl) as (l1 & l2 & M & N). apply map_eq_app in M.
      destruct M as (m1 & m2 & -> & <- & M). destruct m2 as [|[k' a'] m2]; [discriminate|]. injection M as -> -> <-.
      exists m1, m2. split; [reflexivity|]. rewrite map_map in N. exact N.
    + intros (l1 & l2 & -> & N). f_equal. assert (Some k = Some key); [|congruence]. apply D. rewrite map_app. cbn.
      eexists _, _. split; [reflexivity|]. now rewrite map_map.
  - split; [discriminate|]. intros (l1 & l2 & EQ & N). assert (None = Some key); [|discriminate]. apply D. rewrite EQ, map_app. cbn.
    eexists _, _. split; [reflexivity|]. now rewrite map_map.
Qed.
Lemma key_of_In : forall g a key, key_of g a = Ok key -> In (key, a) (g_arts g).
Proof. intros g a key H. apply key_of_last in H. destruct H as (l1 & l2 & H & _). rewrite H. apply in_app_iff. right. now left. Qed.
Lemma key_inj : forall g a b key, NoDup (map fst (g_arts g)) -> key_of g a = Ok key -> key_of g b = Ok key -> a = b.
Proof.
  intros g a b key N A B. apply key_of_In in A, B. apply (proj2 (dget_NoDup _ str_eqb_spec _ _ _ N)) in A, B. congruence.
Qed.
Lemma last_key_total : forall (g : artifacts) k a, In (k, a) g -> exists key, last_key g a key.
Proof.
  intros g k a. induction g as [|[k' b] g IH] using rev_ind; intro I; [destruct I|].
  destruct (key_dec _ artifact_eqb_spec b a) as [->|NE].
  - exists k', g, []. split; [reflexivity|intros []].
  - apply in_app_iff in I. destruct I as [I|[I|[]]]; [|congruence]. destruct (IH I) as (key & l1 & l2 & -> & N).
    exists key, l1, (l2 ++ [(k', b)]). split; [now rewrite <- app_assoc|]. rewrite map_app. intro J. apply in_app_iff in J.
    destruct J as [J|[J|[]]]; auto.
Qed.
Lemma size_input : forall p n a i, In (n, a) (p_inputs p) -> a_output a = Some (p, i) -> False.
Proof.
  intros p n a i I O. assert (N1 := needs_smaller [([], a)] (NArtifact a) (NProducer p) (needs_producer [([], a)] [] a p i (or_introl eq_refl) O)).
  assert (N2 := needs_smaller [([], a)] (NProducer p) (NArtifact a) (needs_input [([], a)] [] a p i n a (or_introl eq_refl) O I)). lia.
Qed.

(** * Dependencies of partitions *)
Lemma dget_map_snd : forall A B C (eqb : A -> A -> bool) (f : B -> C) (d : list (A * B)) k,
  dget eqb (map (fun x => (fst x, f (snd x))) d) k = option_map f (dget eqb d k).
Proof. induction d as [|[a b] d IH]; intro k; cbn; [reflexivity|]. destruct (eqb a k); [reflexivity|apply IH]. Qed.
Section Deps.
  Context {V : Type} (E : env V) (p : producer).
  Lemma input_fingerprint_ok : forall d f, input_fingerprint E p d = Ok f -> f = fingerprint_for E p d.
  Proof.
    intros d f. unfold input_fingerprint, fingerprint_for. destruct (same_names _ _); [|discriminate]. intro H. injection H as <-.
    cbn [fold_left fold_right].
    assert (FL : forall l z, fold_left Z.lxor l z = Z.lxor z (fold_right Z.lxor 0%Z l)).
    { induction l as [|x l IH]; intro z; cbn; [now rewrite Z.lxor_0_r|]. now rewrite IH, Z.lxor_assoc. }
    rewrite FL. apply Z.lxor_assoc.
  Qed.
  Lemma compute_dependencies_ok : forall inputs deps fps, compute_dependencies E p inputs = Ok (deps, fps) ->
    exists m, c_map (class_of E p) (filter (fun i => existsb (str_eqb (fst i)) (c_map_inputs (class_of E p))) inputs) = Ok m /\
      NoDup (map fst deps) /\ map fst fps = map fst deps /\
      (forall k d, In (k, d) deps <-> exists l1 l2 d0, m = l1 ++ (k, d0) :: l2 /\ ~ In k (map fst l2) /\ d = dict_of str_eqb d0) /\
      (forall k d, In (k, d) deps -> dget str_eqb fps k = Some (Some (fingerprint_for E p d))) /\
      (forall k f, dget str_eqb fps k = Some f -> exists d, In (k, d) deps /\ f = Some (fingerprint_for E p d)).
  Proof.
    intros inputs deps fps. unfold compute_dependencies. destruct (c_map (class_of E p) _) as [m|e]; [|discriminate]. cbn [bind].
    set (ds := dict_of str_eqb (map (fun kd => (fst kd, dict_of str_eqb (snd kd))) m)).
    destruct (mapM _ ds) as [fs|e] eqn:F; [|discriminate]. cbn [bind]. intro H. injection H as <- <-. exists m. split; [reflexivity|].
    assert (ND : NoDup (map fst ds)) by apply (dict_of_NoDup _ str_eqb_spec). split; [exact ND|].
    assert (F2 : map fst fs = map fst ds /\ Forall2 (fun kd kf => fst kf = fst kd /\ snd kf = Some (fingerprint_for E p (snd kd))) ds fs).
    { clear ND. apply mapM_Forall2 in F. induction F as [|kd kf ds' fs' H F IH]; [split; [reflexivity|constructor]|].
      destruct (input_fingerprint E p (snd kd)) as [f|] eqn:FP; [|discriminate]. cbn in H. injection H as <-. apply input_fingerprint_ok in FP.
      destruct IH as [IH1 IH2]. split; [cbn; now rewrite IH1|]. constructor; [subst f; auto|exact IH2]. }
    destruct F2 as [FK F2]. split; [exact FK|].
    assert (NF : NoDup (map fst fs)) by now rewrite FK. split; [|split].
    - intros k d. rewrite <- (dget_NoDup _ str_eqb_spec _ _ _ ND). unfold ds. rewrite (dict_of_last _ _ _ str_eqb_spec). split.
      + intros (l1 & l2 & M & N). apply map_eq_app in M. destruct M as (m1 & m2 & -> & <- & M).
        destruct m2 as [|[k' d'] m2]; [discriminate|]. injection M as -> <- <-. exists m1, m2, d'. split; [reflexivity|]. split; [|reflexivity].
        now rewrite map_map in N.
      + intros (l1 & l2 & d0 & -> & N & ->). rewrite map_app. cbn. eexists _, _. split; [reflexivity|]. now rewrite map_map.
    - intros k d I. apply (dget_NoDup _ str_eqb_spec); [exact NF|]. clear - I F2. induction F2 as [|kd kf ds' fs' [H1 H2] F2 IH]; [destruct I|].
      destruct I as [->|I]; [|right; auto]. left. destruct kf as [k' f]. cbn in *. now subst.
    - intros k f D. apply (dget_In _ str_eqb_spec) in D. clear - D F2. induction F2 as [|kd kf ds' fs' [H1 H2] F2 IH]; [destruct D|].
      destruct D as [->|D].
      + destruct kd as [k' d]. cbn in *. exists d. subst. split; [now left|reflexivity].
      + destruct (IH D) as (d & I & Q). exists d. split; [now right|exact Q].
  Qed.
End Deps.

(** * One producer *)
Lemma select_match : forall fps k f x, get_fp fps k = Some f -> ps_key x = k -> ps_fp x = Some f -> forall l, In x l -> In x (select fps l).
Proof.
  intros fps k f x G K F l I. apply select_In. split; [exact I|]. unfold get_fp in G. right. left. rewrite K, F.
  destruct (dget str_eqb fps k) as [y|]; [now subst|discriminate].
Qed.
Lemma select_fp : forall fps k f x l, get_fp fps k = Some f -> In x (select fps l) -> ps_key x = k -> ps_fp x = Some f.
Proof.
  intros fps k f x l G I K. apply select_In in I. destruct I as [_ [ -> |[I|[I _]]]]; [discriminate| |]; unfold get_fp in G; rewrite K in I; rewrite I in G; congruence.
Qed.

Section Producer.
  Context {V : Type} (E : env V) (IT : iterates E) (sn : snapshot).
  Notation g := (s_graph sn).
  Definition provided (s : state V) (t : storage) (k : pkey) (f : Z) : Prop :=
    exists x, In x (known_of (db s) t) /\ ps_key x = k /\ ps_fp x = Some f.
  (** The outputs of a producer have their own storage, and build returns all of them. *)
  Definition sound_outputs (p : producer) : Prop := forall outs, outputs_of g p = Ok outs ->
    (forall b c, In b outs -> In c outs -> a_storage b = a_storage c -> b = c) /\
    (forall args vs, runs (class_of E p) args (Ok vs) -> List.length outs <= List.length vs).

  Lemma build_partition_ok : forall p outs fps existing f deps k s s' r, sound_outputs p -> outputs_of g p = Ok outs ->
    build_producer_partition E sn p existing f deps k s = (s', Ok r) -> covered sn fps outs s ->
    covered sn fps outs s' /\ (In k existing \/ forall a, In a outs -> provided s' (a_storage a) k f).
  Proof.
    intros p outs fps existing f deps k s s' r SO O H C. unfold build_producer_partition in H.
    destruct (existsb (str_eqb k) existing) eqn:EX.
    - apply ret_ok in H. destruct H as [-> _]. split; [exact C|]. left. apply existsb_exists in EX. destruct EX as (k' & I & Q).
      apply str_eqb_spec in Q. now subst.
    - apply andthen_ok in H. destruct H as (s1 & args & A & H). apply andthen_ok in H. destruct H as (s2 & vs & B & H).
      apply andthen_ok in H. destruct H as (s3 & ok & VV & H). destruct ok; [|discriminate].
      apply andthen_ok in H. destruct H as (s4 & outs' & O' & H). apply ret_ok in O'. destruct O' as [-> O']. rewrite O in O'. injection O' as <-.
      assert (F1 : frame sn nothing nothing s s1).
      { revert A. apply within_collect. intros name _. apply within_bind; [apply within_ret|]. intro a.
        apply within_bind; [apply within_ret|]. intro d. apply within_bind; [|intro; apply within_ret].
        apply within_bind; [apply within_ret|]. intros _. apply within_io_read. }
      apply effect_ok in B. destruct B as (s5 & F5 & D5 & L5 & B). injection B as <- B.
      apply effect_ok in VV. destruct VV as (s6 & F6 & D6 & L6 & VV). injection VV as <- VV. cbn [with_log db] in D6.
      assert (C1 : covered sn fps outs (with_log s6 (Validated p k vs))).
      { intros a I. destruct (C a I) as (key & K & M & HE & HI). exists key. cbn [with_log db]. rewrite D6, D5.
        split; [exact K|]. split; [now apply (fr_mem _ _ _ _ _ F1)|]. split; [now apply (fr_entry _ _ _ _ _ F1)|].
        intros x X. apply (fr_links_mono _ _ _ _ _ F1). apply HI. unfold known_of, getd in *.
        now rewrite (fr_known _ _ _ _ _ F1) in X by intros []. }
      destruct (SO outs O) as [DS LEN]. destruct (write_outputs_ok E sn fps outs p f k vs 0 _ _ _ DS O H C1) as (C2 & L2 & X).
      split; [exact C2|]. right. intros a I. apply In_nth_error in I. destruct I as (j & NJ).
      assert (j < List.length outs) by (eapply nth_error_Some_lt, NJ). apply (X j a); [|exact NJ].
      assert (RN : runs (class_of E p) args (Ok vs)).
      { unfold runs. unfold rmap in B. destruct (c_build (class_of E p)) as [fn|n fn]; [|now rewrite B].
        destruct (fn args) as [v|]; [|discriminate]. now rewrite <- B. }
      specialize (LEN args vs RN). lia.
  Qed.

  Definition build_all p existing (fps : list (pkey * option Z)) deps : M V unit := eachM (fun kd =>
      f <- ret (match get_fp fps (fst kd) with Some f => Ok f | None => Err ValueError end) ;;
      build_producer_partition E sn p existing f (snd kd) (fst kd)) deps.
  Lemma build_all_ok : forall p outs fps existing deps s s' r, sound_outputs p -> outputs_of g p = Ok outs ->
    build_all p existing fps deps s = (s', Ok r) -> covered sn fps outs s ->
    covered sn fps outs s' /\ forall k d, In (k, d) deps -> exists f, get_fp fps k = Some f /\
      (In k existing \/ forall a, In a outs -> provided s' (a_storage a) k f).
  Proof.
    intros p outs fps existing. induction deps as [|[k d] deps IH]; intros s s' r SO O H C; cbn [build_all eachM] in H.
    - apply ret_ok in H. destruct H as [-> _]. split; [exact C|intros ? ? []].
    - apply andthen_ok in H. destruct H as (s1 & u & H1 & H2). apply andthen_ok in H1. destruct H1 as (s2 & f & G & H1).
      apply ret_ok in G. destruct G as [-> G]. cbn [fst snd] in *. destruct (get_fp fps k) as [f'|] eqn:GF; [|discriminate]. injection G as ->.
      destruct (build_partition_ok _ _ fps _ _ _ _ _ _ _ SO O H1 C) as (C1 & X1). destruct (IH _ _ _ SO O H2 C1) as (C2 & X2).
      split; [exact C2|]. intros k' d' [Q|I]; [|eauto]. injection Q as <- <-. exists f. split; [exact GF|].
      destruct X1 as [X1|X1]; [now left|]. right. intros a I. destruct (X1 a I) as (x & I1 & I2). exists x. split; [|exact I2].
      assert (F : frame sn (out_key sn p) (out_storage sn p) s1 s').
      { revert H2. apply within_each. intros kd _. apply within_bind; [apply within_ret|]. intro. apply within_build_partition. }
      now apply (fr_known_mono _ _ _ _ _ F).
  Qed.

  Definition done (p : producer) (s : state V) : Prop := exists inputs deps fps outs,
    inputs_at E sn (db s) (p_inputs p) inputs /\ inputs_entries sn (db s) (p_inputs p) /\
    compute_dependencies E p inputs = Ok (deps, fps) /\ outputs_of g p = Ok outs /\ covered sn fps outs s /\
    forall k d, In (k, d) deps -> exists f a, get_fp fps k = Some f /\ In a outs /\ provided s (a_storage a) k f.
  Definition complete (p : producer) (s : state V) : Prop := forall inputs deps fps outs,
    inputs_at E sn (db s) (p_inputs p) inputs -> compute_dependencies E p inputs = Ok (deps, fps) -> outputs_of g p = Ok outs ->
    forall k d a f, In (k, d) deps -> In a outs -> get_fp fps k = Some f -> provided s (a_storage a) k f.
  Lemma inputs_at_fun : forall b l i j, inputs_at E sn b l i -> inputs_at E sn b l j -> i = j.
  Proof.
    intros b l i j H. revert j. induction H as [|na nl l i (key & K & ->) H IH]; intros j J; inversion J as [|? nl' ? j' (key' & K' & ->) J']; subst; [reflexivity|].
    rewrite K in K'. injection K' as <-. f_equal. auto.
  Qed.
  Lemma inputs_at_frame : forall K T (s s' : state V) l inputs, frame sn K T s s' ->
    (forall n a key, In (n, a) l -> key_of g a = Ok key -> ~ K key) -> inputs_at E sn (db s) l inputs -> inputs_at E sn (db s') l inputs.
  Proof.
    intros K T s s' l inputs F N H. unfold inputs_at in *. revert N. induction H as [|[n a] nl l i (key & KK & ->) H IH]; intro N; constructor.
    - exists key. split; [exact KK|]. rewrite (fr_links _ _ _ _ _ F); [reflexivity|]. right. eapply N; [now left|exact KK].
    - apply IH. intros n' a' key' I. eapply N. right. exact I.
  Qed.
  Lemma out_produced : forall p outs a, outputs_of g p = Ok outs -> In a outs -> exists i, produces (g_arts g) p i a.
  Proof.
    intros p outs a O I. assert (S := outputs_of_spec g p). rewrite O in S. destruct S as (_ & l & -> & _ & S).
    apply in_map_iff in I. destruct I as ([i a'] & Q & I). cbn in Q. subst a'. exists i. apply S in I.
    destruct I as (l1 & k & l2 & EQ & O' & _). exists k. split; [|exact O']. rewrite EQ. apply in_app_iff. right. now left.
  Qed.
  Lemma input_not_out : forall q a key, NoDup (map fst (g_arts g)) -> key_of g a = Ok key -> out_key sn q key -> exists i, a_output a = Some (q, i).
  Proof.
    intros q a key ND K (outs & b & O & I & K'). assert (a = b) by (eapply key_inj; eauto). subst b.
    destruct (out_produced _ _ _ O I) as (i & k & _ & P). eauto.
  Qed.

  Lemma finds_available : forall fps s s' t k f, finds E fps s s' t -> get_fp fps k = Some f ->
    (provided s' t k f <-> available s t k f).
  Proof.
    intros fps s s' t k f F G. unfold finds, provided, available in *. unfold dmem in F.
    destruct (dget storage_eqb (known (db s)) t) as [l|] eqn:D.
    - rewrite F. unfold known_of, getd. rewrite D. reflexivity.
    - destruct F as (found & DI & ->). unfold discover in DI. destruct (st_kind t) as [|v] eqn:SK.
      + apply mapM_Forall2 in DI. split.
        * intros (x & I & XK & XF). apply adds_In in I. destruct I as [[]|I]. split; [reflexivity|].
          assert (Q : exists l, In l (filter (fun l => generated_by t l && option_eqb Z.eqb (get_fp fps (snd (fst l))) (snd l))%bool (map fst (files s))) /\
                      take_snapshot E (files s) (Partition t (snd (fst l)) (snd l) None) = Ok x).
          { clear - DI I. induction DI as [|l y ls ys H DI IH]; [destruct I|]. destruct I as [->|I]; [exists l; split; [now left|exact H]|].
            destruct (IH I) as (l' & I' & H'). exists l'. split; [now right|exact H']. }
          destruct Q as ([[i k'] f'] & Q & TS). apply filter_In in Q. destruct Q as [Q1 Q2]. apply andb_true_iff in Q2. destruct Q2 as [Q2 Q3].
          unfold take_snapshot in TS. destruct (content (files s) _) as [c|] eqn:CT; [|discriminate]. injection TS as <-.
          cbn in XK, XF. subst k' f'. cbn in Q2. apply andb_true_iff in Q2. destruct Q2 as [Q2 Q4]. apply andb_true_iff in Q2. destruct Q2 as [Q2 Q5].
          apply eqb_prop in Q4, Q5. split; [exact Q5|]. split; [exact Q4|]. unfold content in CT. cbn [pt_storage] in CT. rewrite SK in CT.
          unfold location_of in CT. cbn in CT. congruence.
        * intros (_ & T & P & FI). destruct (dget location_eqb (files s) (st_id t, k, Some f)) as [c|] eqn:FC; [|congruence].
          assert (I : In (st_id t, k, Some f) (filter (fun l => generated_by t l && option_eqb Z.eqb (get_fp fps (snd (fst l))) (snd l))%bool (map fst (files s)))).
          { apply filter_In. split; [eapply (dget_Some_key _ location_eqb_spec), FC|]. cbn. rewrite (proj2 (str_eqb_spec _ _) eq_refl), T, P, G. cbn.
            now rewrite eqb_reflx, Z.eqb_refl. }
          exists (PSnapshot (Partition t k (Some f) None) (file_fp E c)). split; [|auto]. apply adds_In. right.
          assert (TS : take_snapshot E (files s) (Partition t k (Some f) None) = Ok (PSnapshot (Partition t k (Some f) None) (file_fp E c))).
          { unfold take_snapshot, content. cbn [pt_storage]. rewrite SK. unfold location_of. cbn. now rewrite FC. }
          clear - DI I TS. induction DI as [|l y ls ys H DI IH]; [destruct I|]. destruct I as [->|I]; [|right; auto].
          left. cbn in H. rewrite TS in H. now injection H as <-.
      + split; [|intros (X & _); discriminate]. intros (x & I & _). apply adds_In in I. destruct I as [[]|I].
        destruct fps as [|kf fps]; [discriminate|]. cbn in DI. destruct v as [v|]; [discriminate|]. cbn in DI.
        rewrite andb_false_r in DI. injection DI as <-. destruct I.
  Qed.

  Lemma build_producer_done : forall p s s' r, NoDup (map fst (g_arts g)) -> sound_outputs p -> build_producer E sn p s = (s', Ok r) ->
    done p s' /\
    ((forall outs a b k f, outputs_of g p = Ok outs -> In a outs -> In b outs -> available s (a_storage a) k f -> available s (a_storage b) k f) ->
     complete p s').
  Proof.
    intros p s s' r ND SO H. apply andthen_ok in H. destruct H as (s1 & inputs & GI & H). apply andthen_ok in H.
    destruct H as (s2 & [deps fps] & CD & H). apply ret_ok in CD. destruct CD as [-> CD]. apply andthen_ok in H.
    destruct H as (s2 & existing & DI & H). cbn [fst snd] in *. fold (build_all p existing fps deps) in H.
    assert (FD := within_discover E sn p fps _ _ _ DI).
    assert (FB : frame sn (out_key sn p) (out_storage sn p) s2 s').
    { revert H. apply within_each. intros kd _. apply within_bind; [apply within_ret|]. intro. apply within_build_partition. }
    assert (F := frame_trans _ _ _ _ _ _ FD FB).
    destruct (get_inputs_ok E sn _ _ _ _ GI) as (G1 & G2 & G3 & G4 & G5).
    destruct (discover_ok E IT sn _ _ _ _ _ DI) as (outs & O & C & FI & _ & EX).
    destruct (build_all_ok _ _ _ _ _ _ _ _ SO O H C) as (C' & X).
    assert (INP : inputs_at E sn (db s') (p_inputs p) inputs).
    { eapply inputs_at_frame; [exact F| |].
      - intros n a key I K KO. destruct (input_not_out _ _ _ ND K KO) as (i & AO). eapply size_input; eauto.
      - unfold inputs_at in *. eapply Forall2_impl; [|exact G1]. intros na nl (key & K & ->). exists key. now rewrite G3. }
    assert (PR : forall a k f, provided s2 (a_storage a) k f -> provided s' (a_storage a) k f).
    { intros a k f (x & I & R). exists x. split; [now apply (fr_known_mono _ _ _ _ _ FB)|exact R]. }
    split.
    - exists inputs, deps, fps, outs. split; [exact INP|]. split; [intros n a key I K; apply (fr_entry _ _ _ _ _ F); eapply G2; eauto|].
      split; [exact CD|]. split; [exact O|]. split; [exact C'|]. intros k d I. destruct (X k d I) as (f & GF & [XE|XP]); exists f.
      + apply EX in XE. destruct XE as (a & x & Ia & Ix & K). exists a. split; [exact GF|]. split; [exact Ia|]. apply PR. exists x.
        split; [now apply select_In in Ix|]. split; [exact K|]. eapply select_fp; eauto.
      + assert (S := outputs_of_spec g p). rewrite O in S. destruct S as [NE _]. destruct outs as [|a outs]; [congruence|].
        exists a. split; [exact GF|]. split; [now left|]. apply XP. now left.
    - intros AON inputs' deps' fps' outs' I' CD' O' k d a f Ik Ia GF.
      assert (inputs' = inputs) by (eapply inputs_at_fun; eauto). subst inputs'. rewrite CD in CD'. injection CD' as <- <-.
      rewrite O in O'. injection O' as <-. destruct (X k d Ik) as (f' & GF' & [XE|XP]); rewrite GF in GF'; injection GF' as <-; [|auto].
      apply EX in XE. destruct XE as (b & x & Ib & Ix & K). apply PR.
      assert (PB : provided s2 (a_storage b) k f).
      { exists x. split; [now apply select_In in Ix|]. split; [exact K|]. eapply select_fp; eauto. }
      assert (AV : forall t, available s1 t k f <-> available s t k f) by (intro t; unfold available; now rewrite G4, G5).
      apply (finds_available _ _ _ _ _ _ (FI b Ib) GF), AV in PB. apply (finds_available _ _ _ _ _ _ (FI a Ia) GF). apply AV.
      eapply AON; eauto.
  Qed.
End Producer.

(** * All producers *)
Lemma before_prefix : forall A (pre rest : list A) z x y, NoDup (pre ++ z :: rest) -> before (pre ++ z :: rest) y x -> In x pre -> In y pre.
Proof.
  intros A pre rest z x y N (l1 & l2 & l3 & EQ) I.
  destruct (in_split _ _ I) as (p1 & p2 & ->). 
  assert (U : p1 = l1 ++ y :: l2).
  { rewrite EQ in N. rewrite app_comm_cons, app_assoc in EQ. repeat (rewrite <- app_assoc in EQ; cbn in EQ).
    assert (N' : NoDup ((l1 ++ y :: l2) ++ x :: l3)) by (rewrite <- app_assoc; exact N).
    assert (EQ' : p1 ++ x :: (p2 ++ z :: rest) = (l1 ++ y :: l2) ++ x :: l3) by (rewrite <- app_assoc; exact EQ).
    clear - N' EQ'. revert p1 EQ' N'. generalize (p2 ++ z :: rest) as r. generalize (l1 ++ y :: l2) as q. clear.
    induction q as [|b q IH]; intros r p1 EQ N.
    - destruct p1 as [|c p1]; [reflexivity|]. injection EQ as -> EQ. inversion N; subst. destruct H1. apply in_app_iff. right. now left.
    - destruct p1 as [|c p1].
      + injection EQ as -> EQ. inversion N; subst. destruct H1. apply in_app_iff. right. now left.
      + injection EQ as -> EQ. f_equal. inversion N; subst. eapply IH; eauto. }
  subst p1. apply in_app_iff. left. apply in_app_iff. right. now left.
Qed.
Lemma sound_in_order : forall V (E : env V) sn p, in_order E (g_arts (s_graph sn)) -> sound_outputs E sn p.
Proof.
  intros V E sn p W outs O. split.
  - intros b c Ib Ic Q. destruct (out_produced _ _ _ _ O Ib) as (i & PB), (out_produced _ _ _ _ O Ic) as (j & PC).
    eapply (io_storages E); eauto.
  - intros args vs R. assert (S := outputs_of_spec (s_graph sn) p). rewrite O in S. destruct S as (NE & l & -> & AS & LA).
    assert (P : forall i a, In (i, a) l -> produces (g_arts (s_graph sn)) p i a).
    { intros i a I. apply LA in I. destruct I as (l1 & k & l2 & EQ & O' & _). exists k. split; [|exact O']. rewrite EQ.
      apply in_app_iff. right. now left. }
    destruct l as [|[i0 a0] l']; [now destruct NE|]. set (l := (i0, a0) :: l') in *.
    rewrite (io_returns E _ W p i0 a0 args vs (P _ _ (or_introl eq_refl)) R), map_length.
    assert (ND : NoDup (map fst l)).
    { clear - AS. clearbody l. induction l as [|x l IH]; [constructor|]. destruct AS as [A1 A2]. constructor; [|auto].
      intro I. apply in_map_iff in I. destruct I as (y & Q & I). specialize (A1 y I). lia. }
    rewrite <- (map_length fst l), <- (seq_length (outputs_declared (classes E (p_class p))) 0).
    apply NoDup_incl_length; [exact ND|]. intros i I. apply in_map_iff in I. destruct I as ([i' a] & Q & I). cbn in Q. subst i'.
    apply in_seq. split; [lia|]. cbn. eapply (io_declared E); eauto.
Qed.

Section Graph.
  Context {V : Type} (E : env V) (IT : iterates E) (sn : snapshot) (W : in_order E (g_arts (s_graph sn))).
  Notation g := (s_graph sn).
  Lemma done_frame : forall p q s s', frame sn (out_key sn q) (out_storage sn q) s s' -> p <> q ->
    (forall n a key i, In (n, a) (p_inputs p) -> key_of g a = Ok key -> a_output a <> Some (q, i)) ->
    done E sn p s -> done E sn p s' /\ (complete E sn p s -> complete E sn p s').
  Proof.
    intros p q s s' F NE NI (inputs & deps & fps & outs & I1 & I2 & CD & O & C & X).
    assert (I1' : inputs_at E sn (db s') (p_inputs p) inputs).
    { eapply inputs_at_frame; [exact F| |exact I1]. intros n a key I K KO.
      destruct (input_not_out _ _ _ _ (io_keys E _ W) K KO) as (i & AO). eapply NI; eauto. }
    assert (TS : forall a, In a outs -> dget storage_eqb (known (db s')) (a_storage a) = dget storage_eqb (known (db s)) (a_storage a)).
    { intros a I. apply (fr_known _ _ _ _ _ F). intros (outs' & b & O' & Ib & Q).
      destruct (out_produced _ _ _ _ O I) as (i & PA), (out_produced _ _ _ _ O' Ib) as (j & PB).
      assert (b = a) by (eapply (io_storages E); eauto). subst b. destruct PA as (k & _ & PA), PB as (k' & _ & PB). congruence. }
    split.
    - exists inputs, deps, fps, outs. split; [exact I1'|]. split; [intros n a key I K; apply (fr_entry _ _ _ _ _ F); eapply I2; eauto|].
      split; [exact CD|]. split; [exact O|]. split.
      + intros a I. destruct (C a I) as (key & K & M & HE & HI). exists key. split; [exact K|].
        split; [now apply (fr_mem _ _ _ _ _ F)|]. split; [now apply (fr_entry _ _ _ _ _ F)|]. intros x Ix.
        apply (fr_links_mono _ _ _ _ _ F). apply HI. now rewrite (known_of_dget _ _ _ (TS a I)) in Ix.
      + intros k d I. destruct (X k d I) as (f & a & GF & Ia & x & Ix & R). exists f, a. split; [exact GF|]. split; [exact Ia|].
        exists x. split; [now apply (fr_known_mono _ _ _ _ _ F)|exact R].
    - intros CP inputs' deps' fps' outs' I' CD' O' k d a f Ik Ia GF.
      assert (inputs' = inputs) by (eapply inputs_at_fun; eauto). subst inputs'.
      destruct (CP inputs deps' fps' outs' I1 CD' O' k d a f Ik Ia GF) as (x & Ix & R). exists x.
      split; [now apply (fr_known_mono _ _ _ _ _ F)|exact R].
  Qed.

  Definition untouched (s s' : state V) (a : artifact) : Prop :=
    dget storage_eqb (known (db s')) (a_storage a) = dget storage_eqb (known (db s)) (a_storage a) /\
    (distinct_paths (g_arts g) -> forall k f, dget location_eqb (files s') (st_id (a_storage a), k, f) = dget location_eqb (files s) (st_id (a_storage a), k, f)).
  Definition progress (s0 : state V) (pre : list node) (s : state V) : Prop :=
    (forall p, In (NProducer p) pre -> done E sn p s /\ (distinct_paths (g_arts g) -> all_or_none s0 (g_arts g) -> complete E sn p s)) /\
    (forall p outs a, ~ In (NProducer p) pre -> outputs_of g p = Ok outs -> In a outs -> untouched s0 s a).
  Lemma untouched_frame : forall q p s s' outs a, frame sn (out_key sn q) (out_storage sn q) s s' -> p <> q ->
    outputs_of g p = Ok outs -> In a outs -> untouched s s' a.
  Proof.
    intros q p s s' outs a F NE O I. destruct (out_produced _ _ _ _ O I) as (i & PA). split.
    - apply (fr_known _ _ _ _ _ F). intros (outs' & b & O' & Ib & Q). destruct (out_produced _ _ _ _ O' Ib) as (j & PB).
      assert (b = a) by (eapply (io_storages E); eauto). subst b. destruct PA as (k & _ & PA), PB as (k' & _ & PB). congruence.
    - intros DP k f. apply (fr_files _ _ _ _ _ F). cbn. intros t (outs' & b & O' & Ib & Q) EQ. subst t.
      destruct (out_produced _ _ _ _ O' Ib) as (j & PB). assert (b = a) by (eapply DP; eauto). subst b.
      destruct PA as (k1 & _ & PA), PB as (k2 & _ & PB). congruence.
  Qed.

  Lemma build_nodes_progress : forall post s0 rest pre s s' r,
    build_order (dependencies (g_arts g)) (pre ++ rest ++ post) -> progress s0 pre s ->
    build_nodes E sn rest s = (s', Ok r) -> progress s0 (pre ++ rest) s'.
  Proof.
    intros post s0. induction rest as [|n rest IH]; intros pre s s' r BO P H; cbn [build_nodes eachM] in H.
    - apply ret_ok in H. destruct H as [-> _]. now rewrite app_nil_r.
    - apply andthen_ok in H. destruct H as (s1 & u & H1 & H2). 
      replace (pre ++ n :: rest) with ((pre ++ [n]) ++ rest) in * by now rewrite <- app_assoc.
      replace (pre ++ (n :: rest) ++ post) with ((pre ++ [n]) ++ rest ++ post) in BO by now rewrite <- app_assoc.
      apply (IH (pre ++ [n]) s1 s' r BO); [|exact H2]. clear IH H2. destruct P as [P1 P2].
      destruct n as [a|q].
      { apply ret_ok in H1. destruct H1 as [-> _]. split.
        - intros p I. apply P1. apply in_app_iff in I. destruct I as [I|[I|[]]]; [exact I|discriminate].
        - intros p outs b N. apply P2. intro I. apply N. apply in_app_iff. now left. }
      assert (F := within_build_producer E sn q _ _ _ H1).
      destruct BO as (ND & BV & BB). rewrite <- app_assoc in ND, BB. cbn in ND, BB.
      assert (NQ : ~ In (NProducer q) pre).
      { intro I. apply NoDup_remove_2 in ND. apply ND. apply in_app_iff. now left. }
      split.
      + intros p I. apply in_app_iff in I. destruct I as [I|[I|[]]].
        * destruct (P1 p I) as [D C]. assert (NE : p <> q) by congruence.
          assert (OP : exists outs, outputs_of g p = Ok outs) by (destruct D as (? & ? & ? & outs & _ & _ & _ & O & _); eauto).
          assert (NI : forall n a key i, In (n, a) (p_inputs p) -> key_of g a = Ok key -> a_output a <> Some (q, i)).
          { intros n a key i Ia K AO. apply NQ. destruct OP as (outs & O).
            assert (S := outputs_of_spec g p). rewrite O in S. destruct S as [NEO _]. destruct outs as [|o outs]; [congruence|].
            destruct (out_produced _ _ _ _ O (or_introl eq_refl)) as (j & kk & Io & Oo).
            assert (B1 := BB _ _ (proj2 (dependencies_needs _ _ _) (needs_input _ _ _ _ _ _ _ Io Oo Ia))).
            assert (B2 := BB _ _ (proj2 (dependencies_needs _ _ _) (needs_producer _ _ _ _ _ (key_of_In _ _ _ K) AO))).
            eapply before_prefix in B1; [|exact ND|exact I]. eapply before_prefix in B2; [exact B2|exact ND|exact B1]. }
          destruct (done_frame p q s s1 F NE NI D) as [D' C']. split; [exact D'|]. auto.
        * injection I as <-. destruct (build_producer_done E IT sn q s s1 u (io_keys E _ W) (sound_in_order _ _ _ _ W) H1) as [D C].
          split; [exact D|]. intros DP AON. apply C. intros outs a b k f O Ia Ib AV.
          destruct (out_produced _ _ _ _ O Ia) as (i & PA), (out_produced _ _ _ _ O Ib) as (j & PB).
          destruct (P2 q outs a NQ O Ia) as [U1 U2], (P2 q outs b NQ O Ib) as [U3 U4].
          assert (AV0 : available s0 (a_storage a) k f) by (unfold available in *; rewrite U1, U2 in AV; auto).
          assert (AV1 := AON q i a j b k f PA PB AV0). unfold available in *. rewrite U3, U4; auto.
      + intros p outs a N O I. assert (NP : ~ In (NProducer p) pre) by (intro; apply N, in_app_iff; now left).
        assert (NE : p <> q) by (intros ->; apply N, in_app_iff; right; now left).
        destruct (P2 p outs a NP O I) as [U1 U2]. destruct (untouched_frame q p s s1 outs a F NE O I) as [U3 U4].
        split; [congruence|]. intros DP k f. rewrite U4, U2; auto.
  Qed.
  Theorem build_nodes_done : forall order s s' r, build_order (dependencies (g_arts g)) order ->
    build_nodes E sn order s = (s', Ok r) -> progress s order s'.
  Proof.
    intros order s s' r BO H. apply (build_nodes_progress [] s order [] s s' r); [cbn; now rewrite app_nil_r| |exact H]. split; [intros p []|].
    intros p outs a _ _ _. split; auto.
  Qed.
End Graph.

(** * Building again *)
Lemma rl_present : forall b sn k, has_entry b sn k -> read_snapshot_partitions b sn k = (b, links_of b sn k).
Proof.
  intros b sn k (byk & l & E1 & E2). unfold read_snapshot_partitions, touch, links_of, getd. rewrite E1, E2.
  rewrite (dset_same _ snapshot_eqb_spec _ _ _ E1). now destruct b.
Qed.
Lemma wl_present : forall b sn k new, has_entry b sn k -> (forall x, In x new -> In x (links_of b sn k)) ->
  write_snapshot_partitions b sn k new = b.
Proof.
  intros b sn k new (byk & l & E1 & E2) I. unfold write_snapshot_partitions, touch, links_of, getd in *. rewrite E1, E2 in *.
  rewrite (adds_present new l I), (dset_same _ str_eqb_spec _ _ _ E2), (dset_same _ snapshot_eqb_spec _ _ _ E1). now destruct b.
Qed.
Lemma ra_present : forall b t fps disc, dmem storage_eqb (known b) t = true ->
  read_artifact_partitions b t fps disc = (b, Ok (select fps (known_of b t))).
Proof.
  intros b t fps disc M. unfold read_artifact_partitions. rewrite M. unfold dmem in M. unfold touch, known_of, getd.
  destruct (dget storage_eqb (known b) t); [|discriminate]. now destruct b.
Qed.
Section Again.
  Context {V : Type} (E : env V) (IT : iterates E) (sn : snapshot).
  Notation g := (s_graph sn).
  Lemma with_db_same : forall s : state V, with_db s (db s) = s.
  Proof. now intros []. Qed.
  Lemma read_links_present : forall s k, fuel s = None -> has_entry (db s) sn k -> read_links E sn k s = (s, Ok (iter_set E (links_of (db s) sn k))).
  Proof. intros s k F H. unfold read_links, effect, andthen. rewrite tick_none by exact F. now rewrite rl_present, with_db_same. Qed.
  Lemma write_links_present : forall (s : state V) k new, fuel s = None -> has_entry (db s) sn k -> (forall x, In x new -> In x (links_of (db s) sn k)) ->
    write_links sn k new s = (s, Ok tt).
  Proof. intros s k new F H I. unfold write_links, effect, andthen. rewrite tick_none by exact F. now rewrite wl_present, with_db_same. Qed.
  Lemma read_known_present : forall s t fps, fuel s = None -> dmem storage_eqb (known (db s)) t = true ->
    read_known E t fps s = (s, Ok (iter_set E (select fps (known_of (db s) t)))).
  Proof. intros s t fps F M. unfold read_known, effect, andthen. rewrite tick_none by exact F. now rewrite ra_present, with_db_same. Qed.
  Lemma andthen_step : forall A B (m : M V A) (f : A -> M V B) s s1 a r, m s = (s1, Ok a) -> f a s1 = r -> andthen m f s = r.
  Proof. intros A B m f s s1 a r H1 H2. unfold andthen. now rewrite H1. Qed.
  Lemma build_producer_again : forall p s, done E sn p s -> fuel s = None -> build_producer E sn p s = (s, Ok tt).
  Proof.
    intros p s (inputs & deps & fps & outs & I1 & I2 & CD & O & C & X) F.
    assert (GI : get_producer_inputs E sn p s = (s, Ok inputs)).
    { clear CD X C O. unfold get_producer_inputs, inputs_at in *. revert I2. induction I1 as [|[n a] nl l i (key & K & ->) H IH]; intro I2; [reflexivity|].
      cbn [collectM]. eapply andthen_step.
      - eapply andthen_step; [cbn [snd] in *; rewrite K; reflexivity|]. eapply andthen_step; [|reflexivity].
        apply read_links_present; [exact F|apply (I2 n a key); [now left|exact K]].
      - eapply andthen_step; [|reflexivity]. apply IH. intros n' a' key' I. eapply I2. right. exact I. }
    assert (KN : collectM (fun a => l <- read_known E (a_storage a) fps ;; ret (Ok (a, l))) outs s =
                 (s, Ok (map (fun a => (a, iter_set E (select fps (known_of (db s) (a_storage a))))) outs))).
    { clear X O. induction outs as [|a outs IH]; [reflexivity|]. cbn [collectM map].
      destruct (C a (or_introl eq_refl)) as (_ & _ & M & _). eapply andthen_step.
      - eapply andthen_step; [|reflexivity]. now apply read_known_present.
      - eapply andthen_step; [|reflexivity]. apply IH. intros b I. apply C. now right. }
    assert (LK : eachM (fun al => key <- ret (key_of g (fst al)) ;; write_links sn key (snd al))
                   (map (fun a => (a, iter_set E (select fps (known_of (db s) (a_storage a))))) outs) s = (s, Ok tt)).
    { clear X O KN. induction outs as [|a outs IH]; [reflexivity|]. cbn [map eachM].
      destruct (C a (or_introl eq_refl)) as (key & K & M & HE & HI). eapply andthen_step.
      - eapply andthen_step; [cbn [fst]; rewrite K; reflexivity|]. apply write_links_present; auto. cbn [snd]. intros x Ix. now apply HI, IT.
      - apply IH. intros b I. apply C. now right. }
    unfold build_producer. eapply andthen_step; [exact GI|]. eapply andthen_step; [rewrite CD; reflexivity|]. cbn [fst snd].
    eapply andthen_step.
    { unfold discover_producer_partitions. eapply andthen_step; [rewrite O; reflexivity|]. eapply andthen_step; [exact KN|].
      eapply andthen_step; [exact LK|]. reflexivity. }
    set (existing := map ps_key _).
    assert (ALL : forall k d, In (k, d) deps -> exists f, get_fp fps k = Some f /\ existsb (str_eqb k) existing = true).
    { intros k d I. destruct (X k d I) as (f & a & GF & Ia & x & Ix & XK & XF). exists f. split; [exact GF|]. apply existsb_exists. exists k.
      split; [|now apply str_eqb_spec]. unfold existing. apply in_map_iff. exists x. split; [exact XK|]. apply in_flat_map.
      eexists. split; [apply in_map, Ia|]. cbn. apply IT. eapply select_match; eauto. }
    clearbody existing. clear - ALL. induction deps as [|[k d] deps IH]; [reflexivity|]. cbn [eachM].
    destruct (ALL k d (or_introl eq_refl)) as (f & GF & EX). eapply andthen_step.
    - eapply andthen_step; [cbn [fst]; rewrite GF; reflexivity|]. unfold build_producer_partition. cbn [fst]. rewrite EX. reflexivity.
    - apply IH. intros k2 d2 I. apply ALL with d2. now right.
  Qed.
  Theorem build_again : forall order order' s s' r, in_order E (g_arts g) -> build_order (dependencies (g_arts g)) order ->
    build_order (dependencies (g_arts g)) order' -> build_nodes E sn order s = (s', Ok r) -> fuel s' = None ->
    build_nodes E sn order' s' = (s', Ok tt).
  Proof.
    intros order order' s s' r W BO BO' H F. destruct (build_nodes_done E IT sn W order s s' r BO H) as [D _].
    assert (ALL : forall p, In (NProducer p) order' -> done E sn p s').
    { intros p I. apply D. destruct BO as (_ & BV & _), BO' as (_ & BV' & _). now apply BV, BV'. }
    clear - IT F ALL. induction order' as [|n order' IH]; [reflexivity|]. cbn [build_nodes eachM].
    eapply andthen_step; [|apply IH; intros; apply ALL; now right]. destruct n as [a|p]; [reflexivity|].
    apply build_producer_again; [apply ALL; now left|exact F].
  Qed.
End Again.

(** * What is asked for *)
Section Asks.
  Context {V : Type} (E : env V) (IT : iterates E) (sn : snapshot).
  Notation g := (s_graph sn).
  Lemma linked_links : forall (s : state V) sn' key x, linked s sn' key x <-> In x (links_of (db s) sn' key).
  Proof.
    intros s sn' key x. unfold linked. assert (R := rl_spec (db s) sn' key). destruct (read_snapshot_partitions (db s) sn' key) as [b l].
    destruct R as (-> & _). reflexivity.
  Qed.
  Lemma rl_snd : forall b sn' key, snd (read_snapshot_partitions b sn' key) = links_of b sn' key.
  Proof. intros b sn' key. assert (R := rl_spec b sn' key). destruct (read_snapshot_partitions b sn' key) as [b' l]. now destruct R as (-> & _). Qed.
  Lemma input_partitions_at : forall s p inputs, input_partitions E s sn p inputs <-> inputs_at E sn (db s) (p_inputs p) inputs.
  Proof.
    intros s p inputs. unfold input_partitions, inputs_at. split; intro H; (eapply Forall2_impl; [|exact H]); intros [n a] [n' l]; cbn.
    - intros (-> & key & K & ->). exists key. split; [now apply key_of_last|]. now rewrite rl_snd.
    - intros (key & K & Q). injection Q as -> ->. split; [reflexivity|]. exists key. split; [now apply key_of_last|]. now rewrite rl_snd.
  Qed.
  Lemma done_asks : forall p s k d inputs deps fps, inputs_at E sn (db s) (p_inputs p) inputs -> compute_dependencies E p inputs = Ok (deps, fps) ->
    (asks E s sn p k d <-> In (k, d) deps).
  Proof.
    intros p s k d inputs deps fps I CD. destruct (compute_dependencies_ok E p _ _ _ CD) as (m & M & ND & FK & DI & _).
    rewrite DI. unfold asks. split.
    - intros (inputs' & m' & l1 & l2 & d0 & I' & M' & EQ & N & D). apply input_partitions_at in I'.
      assert (inputs' = inputs) by (eapply inputs_at_fun; eauto). subst inputs'. unfold class_of in M. rewrite M in M'. injection M' as <-.
      exists l1, l2, d0. auto.
    - intros (l1 & l2 & d0 & EQ & N & D). exists inputs, m, l1, l2, d0. split; [now apply input_partitions_at|]. auto.
  Qed.
  Lemma produces_out : forall p i a, in_order E (g_arts g) -> produces (g_arts g) p i a -> exists outs, outputs_of g p = Ok outs /\ In a outs.
  Proof.
    intros p i a W P. assert (S := outputs_of_spec g p). destruct (outputs_of g p) as [outs|e].
    - exists outs. split; [reflexivity|]. destruct S as (_ & l & -> & _ & S). 
      assert (LA : exists b, last_at (g_arts g) p i b).
      { destruct P as (k & I & O). clear - I O. induction (g_arts g) as [|[k' b] l IH] using rev_ind; [destruct I|].
        destruct (option_eqb (fun x y => producer_eqb (fst x) (fst y) && (snd x =? snd y)) (a_output b) (Some (p, i))) eqn:Q.
        - exists b. apply last_at_snoc. left. split; [|reflexivity]. destruct (a_output b) as [[q j]|]; [|discriminate].
          cbn in Q. apply andb_true_iff in Q. destruct Q as [Q1 Q2]. apply producer_eqb_spec in Q1. apply Nat.eqb_eq in Q2. now subst.
        - assert (NB : a_output b <> Some (p, i)).
          { intro X. rewrite X in Q. cbn in Q. now rewrite (proj2 (producer_eqb_spec p p) eq_refl), Nat.eqb_refl in Q. }
          apply in_app_iff in I. destruct I as [I|[I|[]]]; [|congruence]. destruct (IH I) as (c & LC). exists c. apply last_at_snoc. now right. }
      destruct LA as (b & LB). assert (b = a).
      { eapply (io_positions E); [exact W| |exact P]. destruct LB as (l1 & k & l2 & EQ & O & _). exists k. split; [|exact O]. rewrite EQ.
        apply in_app_iff. right. now left. }
      subst b. apply S in LB. now apply (in_map snd) in LB.
    - destruct S as [_ S]. destruct P as (k & I & O). now destruct (S k a i I).
  Qed.
  Lemma out_in_order : forall order p i a, build_order (dependencies (g_arts g)) order -> produces (g_arts g) p i a -> In (NProducer p) order.
  Proof.
    intros order p i a (_ & BV & _) (k & I & O). apply BV. assert (D := defines_producer _ _ _ _ _ I O). apply dependencies_defines in D.
    apply in_map_iff in D. destruct D as ([n ps] & Q & D). cbn in Q. subst n. exists (NProducer p), ps. auto.
  Qed.
  Lemma covered_linked : forall fps outs (s : state V) a key k f, covered sn fps outs s -> In a outs -> key_of g a = Ok key -> get_fp fps k = Some f ->
    provided s (a_storage a) k f -> exists x, linked s sn key x /\ ps_key x = k /\ ps_fp x = Some f.
  Proof.
    intros fps outs s a key k f C I K GF (x & Ix & XK & XF). destruct (C a I) as (key' & K' & _ & _ & HI). rewrite K in K'. injection K' as <-.
    exists x. split; [|auto]. apply linked_links, HI. eapply select_match; eauto.
  Qed.
  Lemma fps_of : forall p inputs deps fps k d, compute_dependencies E p inputs = Ok (deps, fps) -> In (k, d) deps ->
    get_fp fps k = Some (fingerprint_for E p d).
  Proof.
    intros p inputs deps fps k d CD I. destruct (compute_dependencies_ok E p _ _ _ CD) as (m & _ & _ & _ & _ & F & _).
    unfold get_fp. now rewrite (F k d I).
  Qed.
  Theorem build_links : forall order s s' r, in_order E (g_arts g) -> distinct_paths (g_arts g) -> all_or_none s (g_arts g) ->
    build_order (dependencies (g_arts g)) order -> build_nodes E sn order s = (s', Ok r) ->
    forall p i a key k d, produces (g_arts g) p i a -> last_key (g_arts g) a key -> asks E s' sn p k d ->
    exists x, linked s' sn key x /\ ps_key x = k /\ ps_fp x = Some (fingerprint_for E p d).
  Proof.
    intros order s s' r W DP AON BO H p i a key k d P K A. apply key_of_last in K.
    destruct (build_nodes_done E IT sn W order s s' r BO H) as [D _].
    destruct (D p (out_in_order _ _ _ _ BO P)) as [(inputs & deps & fps & outs & I1 & I2 & CD & O & C & X) CP]. specialize (CP DP AON).
    apply (done_asks p s' k d inputs deps fps I1 CD) in A. assert (GF := fps_of _ _ _ _ _ _ CD A).
    destruct (produces_out _ _ _ W P) as (outs' & O' & Ia). rewrite O in O'. injection O' as <-.
    eapply covered_linked; eauto.
  Qed.
  Theorem build_links_single : forall order s s' r, in_order E (g_arts g) ->
    build_order (dependencies (g_arts g)) order -> build_nodes E sn order s = (s', Ok r) ->
    forall p i a key k d, produces (g_arts g) p i a -> (forall j b, produces (g_arts g) p j b -> b = a) ->
    last_key (g_arts g) a key -> asks E s' sn p k d ->
    exists x, linked s' sn key x /\ ps_key x = k /\ ps_fp x = Some (fingerprint_for E p d).
  Proof.
    intros order s s' r W BO H p i a key k d P SG K A. apply key_of_last in K.
    destruct (build_nodes_done E IT sn W order s s' r BO H) as [D _].
    destruct (D p (out_in_order _ _ _ _ BO P)) as [(inputs & deps & fps & outs & I1 & I2 & CD & O & C & X) _].
    apply (done_asks p s' k d inputs deps fps I1 CD) in A. assert (GF := fps_of _ _ _ _ _ _ CD A).
    destruct (X k d A) as (f & b & GF' & Ib & PR). destruct (out_produced _ _ _ _ O Ib) as (j & PB). assert (b = a) by eauto. subst b.
    rewrite GF in GF'. injection GF' as <-. eapply covered_linked; eauto.
  Qed.
  (** Every producer's map was answered, and every input was available under its key. *)
  Theorem build_asked : forall order s s' r, in_order E (g_arts g) ->
    build_order (dependencies (g_arts g)) order -> build_nodes E sn order s = (s', Ok r) ->
    forall p i a, produces (g_arts g) p i a -> exists inputs m, input_partitions E s' sn p inputs /\
      c_map (classes E (p_class p)) (filter (fun i => existsb (str_eqb (fst i)) (c_map_inputs (classes E (p_class p)))) inputs) = Ok m /\
      forall k, In k (map fst m) -> exists d, asks E s' sn p k d.
  Proof.
    intros order s s' r W BO H p i a P. destruct (build_nodes_done E IT sn W order s s' r BO H) as [D _].
    destruct (D p (out_in_order _ _ _ _ BO P)) as [(inputs & deps & fps & outs & I1 & I2 & CD & O & C & X) _].
    destruct (compute_dependencies_ok E p _ _ _ CD) as (m & M & ND & FK & DI & _). exists inputs, m.
    split; [now apply input_partitions_at|]. split; [exact M|]. intros k I.
    assert (L : exists v, dget str_eqb (dict_of str_eqb m) k = Some v).
    { clear - I. change pkey with str in *. unfold dict_of. rewrite (dget_dupdate _ str_eqb_spec). destruct (dget str_eqb (rev m) k) as [v|] eqn:Q; [exists v; reflexivity|].
      apply (dget_None _ str_eqb_spec) in Q. destruct Q. rewrite map_rev. now apply in_rev in I. }
    destruct L as (v & L). apply (dict_of_last _ _ _ str_eqb_spec) in L. destruct L as (l1 & l2 & EQ & N).
    exists (dict_of str_eqb v). apply (done_asks p s' k _ inputs deps fps I1 CD). apply DI. exists l1, l2, v. auto.
  Qed.
End Asks.
