(** The files a stopped build leaves. *)
From Coq Require Import ZArith List Ascii String Bool Arith Lia Permutation.
From Verif Require Import Base Base_Proofs Str Str_Proofs Graph_Model Graph_Spec Graph_Proofs.
From Verif Require Import Backend_Model Backend_Spec Backend_Proofs Executor_Model Executor_Spec Executor_Proofs.
From Verif Require Import Executor_Done_Proofs Executor_Build_Proofs Executor_Link_Proofs Executor_Crash_Proofs Executor_Resume_Proofs Executor_Resumed_Proofs.
From Verif Require Import Executor_Id_Proofs Executor_Restart_Proofs Executor_Again_Proofs Executor_New_Proofs.
Import ListNotations.
Open Scope list_scope.

Notation getf := (dget location_eqb).
(** Files are added, never changed, and have fingerprints. *)
Definition grown (fs fs' : list (location * str)) : Prop :=
  (forall l d, getf fs l = Some d -> getf fs' l = Some d) /\ (forall i k, getf fs' (i, k, None) = getf fs (i, k, None)).
(** [fc] is on the way from [fs] to [f1], but for one empty file. *)
Definition stalled (fs fc f1 : list (location * str)) : Prop :=
  (forall l d, getf fs l = Some d -> getf fc l = Some d) /\ (forall i k, getf fc (i, k, None) = getf fs (i, k, None)) /\
  exists l0, forall l d, getf fc l = Some d -> getf f1 l = Some d \/ (l = l0 /\ d = [] /\ getf fs l = None /\ snd l <> None).
Lemma grown_refl : forall fs, grown fs fs.
Proof. split; auto. Qed.
Lemma grown_trans : forall f1 f2 f3, grown f1 f2 -> grown f2 f3 -> grown f1 f3.
Proof. intros f1 f2 f3 [A B] [A' B']. split; [auto|]. intros. now rewrite B', B. Qed.
Lemma stalled_here : forall fs f1, grown fs f1 -> stalled fs fs f1.
Proof. intros fs f1 [A B]. split; [auto|]. split; [auto|]. exists ([], [], None). auto. Qed.
Lemma stalled_there : forall fs f1, grown fs f1 -> stalled fs f1 f1.
Proof. intros fs f1 [A B]. split; [auto|]. split; [auto|]. exists ([], [], None). auto. Qed.
Lemma stalled_within : forall fs fa fc fb f1, grown fs fa -> stalled fa fc fb -> grown fb f1 -> stalled fs fc f1.
Proof.
  intros fs fa fc fb f1 [G1 G2] (S1 & S2 & l0 & S3) [G3 G4]. split; [auto|]. split; [intros; now rewrite S2, G2|]. exists l0. intros l d D.
  destruct (S3 l d D) as [X|(X1 & X2 & X3 & X4)]; [left; auto|right]. repeat split; auto. destruct (getf fs l) eqn:Q; [|reflexivity]. apply G1 in Q. congruence.
Qed.

Lemma NoDup_app_l : forall A (l m : list A), NoDup (l ++ m) -> NoDup l.
Proof. induction l as [|x l IH]; intros m H; [constructor|]. cbn in H. apply NoDup_cons_iff in H. destruct H as [N H]. constructor; [|eauto]. intro J. apply N, in_app_iff. now left. Qed.
Lemma NoDup_app_r : forall A (l m : list A), NoDup (l ++ m) -> NoDup m.
Proof. induction l as [|x l IH]; intros m H; [exact H|]. cbn in H. apply NoDup_cons_iff in H. apply IH, H. Qed.
(** Everything but [io_write] leaves files alone. *)
Definition keeps {V A} (m : M V A) : Prop := forall s s' r, m s = (s', r) -> files s' = files s.
Section Keeps.
  Context {V : Type} (E : env V).
  Lemma keeps_ret : forall A (x : result A), keeps (V := V) (ret x).
  Proof. intros A x s s' r H. now injection H as <-. Qed.
  Lemma keeps_bind : forall A B (m : M V A) (f : A -> M V B), keeps m -> (forall a, keeps (f a)) -> keeps (andthen m f).
  Proof.
    intros A B m f Hm Hf s s' r H. unfold andthen in H. destruct (m s) as [s1 [a|e]] eqn:Q; apply Hm in Q; [apply Hf in H; congruence|]. injection H as <- _. exact Q.
  Qed.
  Lemma keeps_effect : forall A (f : M V A), keeps f -> keeps (effect f).
  Proof. intros A f H. apply keeps_bind; [|auto]. intros s s' r T. apply tick_ok in T. tauto. Qed.
  Lemma keeps_each : forall A (f : A -> M V unit) l, (forall x, keeps (f x)) -> keeps (eachM f l).
  Proof. intros A f l H. induction l; cbn; [apply keeps_ret|]. apply keeps_bind; auto. Qed.
  Lemma keeps_collect : forall A B (f : A -> M V B) l, (forall x, keeps (f x)) -> keeps (collectM f l).
  Proof. intros A B f l H. induction l; cbn; [apply keeps_ret|]. apply keeps_bind; [auto|]. intro. apply keeps_bind; [auto|]. intro. apply keeps_ret. Qed.
  Lemma keeps_read_links : forall sn k, keeps (read_links E sn k).
  Proof. intros sn k. apply keeps_effect. intros s s' r H. destruct (read_snapshot_partitions (db s) sn k). now injection H as <-. Qed.
  Lemma keeps_write_links : forall sn k new, keeps (V := V) (write_links sn k new).
  Proof. intros. apply keeps_effect. intros s s' r H. now injection H as <-. Qed.
  Lemma keeps_write_known : forall t new, keeps (V := V) (write_known t new).
  Proof. intros. apply keeps_effect. intros s s' r H. now injection H as <-. Qed.
  Lemma keeps_read_known : forall t fps, keeps (read_known E t fps).
  Proof. intros. apply keeps_effect. intros s s' r H. destruct (read_artifact_partitions (db s) t fps (discover E (files s) t fps)) as [b x]. now injection H as <-. Qed.
  Lemma keeps_get_inputs : forall sn p, keeps (get_producer_inputs E sn p).
  Proof. intros. apply keeps_collect. intro. apply keeps_bind; [apply keeps_ret|]. intro. apply keeps_bind; [apply keeps_read_links|]. intro. apply keeps_ret. Qed.
  Lemma keeps_discover : forall sn p fps, keeps (discover_producer_partitions E sn p fps).
  Proof.
    intros. apply keeps_bind; [apply keeps_ret|]. intro. apply keeps_bind; [|intro; apply keeps_bind; [|intro; apply keeps_ret]].
    - apply keeps_collect. intro. apply keeps_bind; [apply keeps_read_known|]. intro. apply keeps_ret.
    - apply keeps_each. intro. apply keeps_bind; [apply keeps_ret|]. intro. apply keeps_write_links.
  Qed.
  Lemma keeps_from_graph : forall g, keeps (V := V) (from_graph E g).
  Proof.
    intro g. apply keeps_bind; [intros s s' r H; now injection H as <-|]. intro found. 
    apply keeps_bind; [apply keeps_effect; intros s s' r H; now injection H as <-|]. intros _.
    apply keeps_bind; [apply keeps_effect; intros s s' r H; now injection H as <-|]. intros _.
    apply keeps_bind; [|intro; apply keeps_ret]. apply keeps_each. intro. apply keeps_bind; [apply keeps_write_known|]. intros _. apply keeps_write_links.
  Qed.
End Keeps.

Section Loop.
  Context {V : Type} (E : env V) (sn : snapshot) (q : producer) (a : artifact) (key : str).
  Context (deps : list (pkey * list (str * list psnapshot))) (fps : list (pkey * option Z)).
  Notation g := (s_graph sn).
  Context (SO : sound_outputs E sn q) (O : outputs_of g q = Ok [a]) (K : key_of g a = Ok key).
  Context (EL : elsewhere a deps).
  Notation file_of k f := (st_id (a_storage a), k, Some f).
  Definition absent (ex : list pkey) (l : list (pkey * list (str * list psnapshot))) (fs : list (location * str)) : Prop :=
    forall k d f, st_kind (a_storage a) = SFile -> In (k, d) l -> ~ In k ex -> get_fp fps k = Some f -> st_partitioned (a_storage a) = negb (is_nil k) -> getf fs (file_of k f) = None.
  Lemma loop_grows : forall ex l s s' r, (forall kd, In kd l -> In kd deps) -> NoDup (map fst l) -> fuel s = None -> absent ex l (files s) ->
    build_all E sn q ex fps l s = (s', Ok r) -> grown (files s) (files s') /\ fuel s' = None.
  Proof.
    intros ex l s s' r S N F AB H. assert (EL' : elsewhere a l) by (intros k d n l' x k' f' I1 I2 I3; exact (EL k d n l' x k' f' (S _ I1) I2 I3)).
    destruct (loop_facts E sn q a key l fps SO O K EL' ex (files s) l s s' r (fun kd I => I) N F (reads_same_refl l (files s)) H) as (X1 & X2 & X3 & X4 & X5 & X6).
    split; [|exact X1]. split.
    - intros loc dd D. rewrite X6; [exact D|]. intros k d f SK I NE G ->. destruct (X3 k d I NE) as (data & x & M).
      destruct (makes_file E sn q a key fps (files s) k d data x SK M) as (f' & _ & PP & _). rewrite (AB k d f SK I NE G PP) in D. discriminate.
    - intros i k. apply X6. intros k' d f _ _ _ _ Q. discriminate.
  Qed.
  Lemma loop_stops : forall ex s s' r sc, NoDup (map fst deps) -> fuel s = None -> absent ex deps (files s) ->
    build_all E sn q ex fps deps s = (s', Ok r) -> crashes (build_all E sn q ex fps deps) s sc -> stalled (files s) (files sc) (files s').
  Proof.
    intros ex s s' r sc N F AB H C. unfold build_all in H, C. rewrite <- (lim_none s F) in H.
    eapply crashes_each in C; [|intro; apply splits_bind; [apply splits_ret|intro; apply splits_build_partition]|exact H].
    destruct C as (l1 & [k d] & l2 & sm & s2 & u & EQ & H1 & Fm & H2 & H3 & C). rewrite (lim_none s F) in H1. fold (build_all E sn q ex fps l1) in H1. fold (build_all E sn q ex fps l2) in H3.
    rewrite EQ, map_app in N. cbn [map fst] in N. assert (N1 : NoDup (map fst l1)) by (eapply NoDup_app_l; exact N).
    assert (NK : ~ In k (map fst l1) /\ ~ In k (map fst l2)).
    { apply NoDup_remove_2 in N. split; intro J; apply N, in_app_iff; auto. }
    assert (ND2 : NoDup (map fst l2)) by (apply NoDup_remove_1 in N; eapply NoDup_app_r; exact N).
    assert (DIS : forall k', In k' (map fst l1) -> ~ In k' (map fst l2)).
    { intros k' J J'. apply NoDup_remove_1 in N. clear - N J J'. induction (map fst l1) as [|y l IH]; [destruct J|]. cbn in N. apply NoDup_cons_iff in N. destruct J as [ -> |J]; [|tauto].
      apply (proj1 N), in_app_iff. now right. }
    assert (AB1 : absent ex l1 (files s)) by (intros k' d' f' SK I; apply (AB k' d' f' SK); rewrite EQ; apply in_app_iff; now left).
    destruct (loop_grows ex l1 s sm tt) as [G1 _]; auto. { intros kd I. rewrite EQ. apply in_app_iff. now left. }
    (* what is not in l1 is as before *)
    assert (KEEP : forall k' f', ~ In k' (map fst l1) -> getf (files sm) (file_of k' f') = getf (files s) (file_of k' f')).
    { intros k' f' NI. assert (EL' : elsewhere a l1) by (intros k1 d1 n l' x k2 f2 I1 I2 I3; refine (EL k1 d1 n l' x k2 f2 _ I2 I3); rewrite EQ; apply in_app_iff; left; exact I1).
      destruct (loop_facts E sn q a key l1 fps SO O K EL' ex (files s) l1 s sm tt (fun kd I => I) N1 F (reads_same_refl l1 (files s)) H1) as (_ & _ & _ & _ & _ & X6).
      apply X6. intros k1 d1 f1 _ I _ _ Q. injection Q as -> ->. apply NI. apply in_map_iff. now exists (k1, d1). }
    assert (IKD : In (k, d) deps) by (rewrite EQ; apply in_app_iff; right; now left).
    assert (STEP : build_all E sn q ex fps [(k, d)] sm = (s2, Ok tt)).
    { destruct u. unfold build_all. cbn [eachM]. eapply andthen_step; [exact H2|reflexivity]. }
    assert (ABk : absent ex [(k, d)] (files sm)).
    { intros k' d' f' SK [Q|[]] NE GF PP. injection Q as <- <-. rewrite KEEP by apply NK. eapply AB; eauto. }
    destruct (loop_grows ex [(k, d)] sm s2 tt) as [G2 F2]; auto. { intros kd [ <- |[]]. exact IKD. } { cbn. constructor; [intros []|constructor]. }
    assert (G3 : grown (files s2) (files s')).
    { refine (proj1 (loop_grows ex l2 s2 s' r _ ND2 F2 _ H3)); [intros kd I; rewrite EQ; apply in_app_iff; right; now right|].
      intros k' d' f' SK I NE GF PP. assert (IK' : In k' (map fst l2)) by (apply in_map_iff; now exists (k', d')).
      assert (ELk : elsewhere a [(k, d)]) by (intros k1 d1 n l' x k2 f2 [Q|[]] I2 I3; injection Q as <- <-; exact (EL k d n l' x k2 f2 IKD I2 I3)).
      destruct (loop_facts E sn q a key [(k, d)] fps SO O K ELk ex (files sm) [(k, d)] sm s2 tt (fun kd I => I) ltac:(cbn; constructor; [intros []|constructor]) Fm (reads_same_refl _ (files sm)) STEP) as (_ & _ & _ & _ & _ & X6).
      rewrite X6. 2: { intros k1 d1 f1 _ [Q|[]] _ _ Q'. injection Q as <- <-. injection Q' as -> _. now apply (proj2 NK). }
      rewrite KEEP; [|intro J; exact (DIS _ J IK')]. refine (AB k' d' f' SK _ NE GF PP). rewrite EQ. apply in_app_iff. right. now right. }
    apply (stalled_within _ (files sm) _ (files s2) _ G1); [|exact G3].
    (* the partition that was being built *)
    cbn [fst snd] in H2, C. apply andthen_ok in H2. destruct H2 as (sm' & f & GF & H2). apply ret_ok in GF. destruct GF as [-> GF].
    destruct (get_fp fps k) as [f'|] eqn:G; [|discriminate]. injection GF as ->. eapply crashes_bind_ret in C; [|reflexivity].
    destruct (in_dec (list_eq_dec ascii_dec) k ex) as [I|NI].
    { exfalso. destruct C as (n & C). unfold build_producer_partition in C. assert (EX : existsb (str_eqb k) ex = true) by (apply existsb_exists; exists k; split; [exact I|now apply str_eqb_spec]).
      rewrite EX in C. discriminate. }
    destruct (partition_inv E sn q a ex f d k sm s2 u Fm O SO H2 NI) as (args & v & key' & part & data & x & WW & FS & DB & FU).
    assert (PS := partition_stopped E sn q a ex d f k sm args v key' part data x sc Fm WW O C NI).
    assert (WP := w_part _ _ _ _ _ _ _ _ _ _ _ _ _ _ WW). destruct (part_storage a f k part WP) as [_ LO].
    destruct PS as [SF _|d' [ -> | -> ] SK SF _|SF _].
    - rewrite SF. now apply stalled_here.
    - assert (NONE : getf (files sm) (location_of part) = None).
      { rewrite LO. assert (PP : st_partitioned (a_storage a) = negb (is_nil k)) by (apply generate_partition_storage in WP; destruct WP as (_ & _ & _ & _ & P5 & _); now symmetry).
        exact (ABk k d f SK (or_introl eq_refl) NI G PP). }
      split; [|split].
      + intros l dd D. rewrite SF. rewrite (dget_dset_other _ location_eqb_spec); [exact D|]. intros <-. congruence.
      + intros i k'. rewrite SF. rewrite (dget_dset_other _ location_eqb_spec); [reflexivity|]. rewrite LO. discriminate.
      + exists (location_of part). intros l dd D. rewrite SF, (dget_dset _ location_eqb_spec) in D. destruct (location_eqb (location_of part) l) eqn:Q.
        * apply location_eqb_spec in Q. subst l. injection D as <-. right. repeat split; auto. rewrite LO. discriminate.
        * left. now apply G2.
    - replace (files sc) with (files s2); [now apply stalled_there|]. rewrite FS, SF. unfold files_after. now rewrite SK.
    - rewrite SF, <- FS. now apply stalled_there.
  Qed.
End Loop.

Section Nodes.
  Context {V : Type} (E : env V) (IT : iterates E) (PK : picks E) (sn : snapshot).
  Notation g := (s_graph sn).
  Context (W : in_order E (g_arts g)) (DP : distinct_paths (g_arts g)) (TM : templated (g_arts g)).
  Context (ONE : forall p i a j b, produces (g_arts g) p i a -> produces (g_arts g) p j b -> b = a).
  Notation pending pre p := (~ In (NProducer p) pre).
  Record fresh (pre : list node) (s : state V) : Prop := {
    f_fuel : fuel s = None;
    f_arises : arises E s;
    f_known : forall p i a, produces (g_arts g) p i a -> pending pre p -> dmem storage_eqb (known (db s)) (a_storage a) = false }.

  Lemma producer_files : forall pre q s s', fresh pre s -> pending pre q -> build_producer E sn q s = (s', Ok tt) ->
    fresh (pre ++ [NProducer q]) s' /\ grown (files s) (files s') /\ forall sc, crashes (build_producer E sn q) s sc -> stalled (files s) (files sc) (files s').
  Proof.
    intros pre q s s' [F AR KN] NQ H.
    destruct (build_producer_done E IT sn q s s' tt (io_keys E _ W) (sound_in_order _ _ _ _ W) H) as [DQ _].
    destruct DQ as (_ & _ & _ & outs & _ & _ & _ & O & _). destruct (one_output sn ONE q outs O) as (a & j & -> & P).
    destruct P as (k0 & Ik0 & AO). assert (P : produces (g_arts g) q j a) by (exists k0; auto). destruct (key_defined g k0 a Ik0) as (key & K).
    assert (SO := sound_in_order V E sn q W). assert (KA := KN q j a P NQ). assert (T := TM _ _ _ P).
    assert (ELS : forall inputs deps fps, inputs_at E sn (db s) (p_inputs q) inputs -> compute_dependencies E q inputs = Ok (deps, fps) -> elsewhere a deps)
      by (intros inputs deps fps IA CD k d n l x k' f' I1 I2 I3; eapply (reads_elsewhere E IT PK sn W DP q j a s); eauto).
    destruct (producer_facts E IT sn q a key SO O K s s' tt F KA ELS H) as (inputs & deps & fps & fnd & IA & CD & DI & B). specialize (ELS _ _ _ IA CD).
    assert (NDD : NoDup (map fst deps)) by (destruct (compute_dependencies_ok E q _ _ _ CD) as (m & _ & X & _); exact X).
    assert (AB : absent a fps (map ps_key (iter_set E (select fps (adds [] fnd)))) deps (files s)).
    { intros k d f SK I NE G PP. destruct (getf (files s) (st_id (a_storage a), k, Some f)) as [dd|] eqn:D; [|reflexivity]. destruct NE. apply at_hand_keys; [exact IT|].
      destruct (discover_file E (files s) (a_storage a) fps SK T) as (fb & DB & XB). rewrite DI in DB. injection DB as <-.
      exists (PSnapshot (Partition (a_storage a) k (Some f) None) (file_fp E dd)). split; [|reflexivity]. rewrite select_In, adds_In. split.
      - right. apply XB. exists k, f, dd. auto.
      - right. left. unfold ps_key, ps_fp. cbn [ps_part pt_key pt_fp]. unfold get_fp in G. destruct (dget str_eqb fps k) as [o|]; [|discriminate]. now rewrite G. }
    split; [|split].
    - constructor.
      + exact (b_fuel _ _ _ _ _ _ _ _ _ _ B).
      + refine (arises_then E s s' AR _). eapply (happens_build E _ sn [NProducer q]). cbn [build_nodes eachM]. eapply andthen_step; [exact H|reflexivity].
      + intros p i b PB N. assert (N1 : pending pre p) by (intro J; apply N, in_app_iff; now left). assert (N2 : p <> q) by (intros ->; apply N, in_app_iff; right; now left).
        assert (NS : ~ out_storage sn q (a_storage b)).
        { intros (outs & b' & O' & I & Q). rewrite O in O'. injection O' as <-. destruct I as [ <- |[]]. assert (b = a) by (eapply (io_storages E _ W); eauto). subst b.
          apply N2. eapply same_producer; eauto. }
        unfold dmem. rewrite (fr_known _ _ _ _ _ (within_build_producer E sn q _ _ _ H) _ NS). exact (KN p i b PB N1).
    - split.
      + intros l d D. rewrite (b_other _ _ _ _ _ _ _ _ _ _ B); [exact D|]. intros k d' f SK I NE G ->. destruct (b_makes _ _ _ _ _ _ _ _ _ _ B k d' I NE) as (data & x & M).
        destruct (makes_file E sn q a key fps (files s) k d' data x SK M) as (f' & _ & PP & _). rewrite (AB k d' f SK I) in D; auto; [discriminate|]. now rewrite at_hand_keys.
      + intros i k. apply (b_other _ _ _ _ _ _ _ _ _ _ B). intros k' d f _ _ _ _ Q. discriminate.
    - intros sc C.
      assert (GR : grown (files s) (files s')).
      { split.
        + intros l d D. rewrite (b_other _ _ _ _ _ _ _ _ _ _ B); [exact D|]. intros k d' f SK I NE G ->. destruct (b_makes _ _ _ _ _ _ _ _ _ _ B k d' I NE) as (data & x & M).
          destruct (makes_file E sn q a key fps (files s) k d' data x SK M) as (f' & _ & PP & _). rewrite (AB k d' f SK I) in D; auto; [discriminate|]. now rewrite at_hand_keys.
        + intros i k. apply (b_other _ _ _ _ _ _ _ _ _ _ B). intros k' d f _ _ _ _ Q. discriminate. }
      destruct (get_inputs_forward E sn _ _ _ IA F) as (s1 & GF & F1 & L1 & K1 & U1).
      assert (D1 := discover_one E IT sn q a key fps s1 O K U1). rewrite K1 in D1. specialize (D1 KA). rewrite F1, DI in D1. destruct D1 as (s2 & D1 & F2 & U2 & L2).
      unfold build_producer in H, C.
      eapply crashes_bind in C; [|apply splits_get_inputs|rewrite (lim_none s F); exact GF]. destruct C as [(n & C)|C].
      { apply keeps_get_inputs in C. cbn [lim files] in C. rewrite C. now apply stalled_here. }
      eapply crashes_bind_ret in C; [|exact CD]. cbn [fst snd] in C.
      eapply crashes_bind in C; [|apply splits_discover|rewrite (lim_none s1 U1); exact D1]. destruct C as [(n & C)|C].
      { apply keeps_discover in C. cbn [lim files] in C. rewrite C, F1. now apply stalled_here. }
      apply andthen_ok in H. destruct H as (s1' & inputs' & GI & H). unfold get_producer_inputs in GI. rewrite GI in GF. injection GF as -> ->.
      apply andthen_ok in H. destruct H as (s2' & df & CD' & H). apply ret_ok in CD'. destruct CD' as [-> CD']. rewrite CD in CD'. injection CD' as <-. cbn [fst snd] in H.
      apply andthen_ok in H. destruct H as (s2' & ex & DP' & H). rewrite D1 in DP'. injection DP' as <- <-.
      replace (files s) with (files s2) by congruence. eapply (loop_stops E sn q a key deps fps SO O K ELS); [exact NDD|exact U2| |exact H|exact C].
      rewrite F2. exact AB.
  Qed.
  Lemma nodes_files : forall rest pre s s1, build_order (dependencies (g_arts g)) (pre ++ rest) -> fresh pre s -> build_nodes E sn rest s = (s1, Ok tt) ->
    grown (files s) (files s1) /\ forall sc, crashes (build_nodes E sn rest) s sc -> stalled (files s) (files sc) (files s1).
  Proof.
    induction rest as [|n rest IH]; intros pre s s1 BO FR H; cbn [build_nodes eachM] in H.
    - injection H as <-. split; [apply grown_refl|]. intros sc C. now apply crashes_ret in C.
    - assert (BO' : build_order (dependencies (g_arts g)) ((pre ++ [n]) ++ rest)) by now rewrite <- app_assoc.
      apply andthen_ok in H. destruct H as (s2 & [] & H1 & H2). fold (build_nodes E sn rest) in H2. destruct n as [b|q].
      + apply ret_ok in H1. destruct H1 as [-> _]. destruct (IH (pre ++ [NArtifact b]) s s1 BO') as [G C1]; [|exact H2|].
        * destruct FR as [FF FA FK]. constructor; auto. intros p i a P N. apply (FK p i a P). intro J. apply N, in_app_iff. now left.
        * split; [exact G|]. intros sc C. apply C1. cbn [build_nodes eachM] in C. eapply crashes_bind_ret in C; [|reflexivity]. exact C.
      + assert (NQ : pending pre q) by (destruct BO as (NO & _); intro J; apply NoDup_remove_2 in NO; apply NO, in_app_iff; now left).
        destruct (producer_files pre q s s2 FR NQ H1) as (FR2 & G1 & C1). destruct (IH _ _ _ BO' FR2 H2) as [G2 C2].
        split; [eapply grown_trans; eauto|]. intros sc C. cbn [build_nodes eachM] in C.
        eapply crashes_bind in C; [|apply splits_build_producer|rewrite (lim_none s (f_fuel _ _ FR)); exact H1]. destruct C as [C|C].
        * apply (stalled_within _ (files s) _ (files s2)); [apply grown_refl|now apply C1|exact G2].
        * apply (stalled_within _ (files s2) _ (files s1)); [exact G1|now apply C2|apply grown_refl].
  Qed.
End Nodes.

Section Stop.
  Context {V : Type} (E : env V) (IT : iterates E) (PK : picks E) (g : graph_def).
  Context (W : in_order E (g_arts g)) (DP : distinct_paths (g_arts g)) (TM : templated (g_arts g)).
  Context (ONE : forall p i a j b, produces (g_arts g) p i a -> produces (g_arts g) p j b -> b = a).
  Lemma built_grown : forall fs s1 sn, graph_build E g (State fs empty_backend [] None) = (s1, Ok sn) -> grown fs (files s1).
  Proof.
    intros fs s1 sn H. unfold graph_build in H. apply andthen_ok in H. destruct H as (sA & sn0 & FG & H).
    apply andthen_ok in H. destruct H as (s1' & u & B & H). apply ret_ok in H. destruct H as [Q H]. subst s1'. injection H as Q. subst sn0. destruct u.
    unfold build in B. apply andthen_ok in B. destruct B as (sA' & order & O & B). apply ret_ok in O. destruct O as [-> O].
    destruct (snapshot_records E _ _ _ _ FG) as (G & FA & _). cbn [files] in FA. subst g.
    destruct (dependencies_order (g_arts (s_graph sn))) as (order' & O' & BO). rewrite O in O'. injection O' as <-. rewrite <- FA.
    refine (proj1 (nodes_files E IT PK sn W DP TM ONE order [] sA s1 BO _ B)).
    constructor; [eapply from_graph_fuel; [|exact FG]; reflexivity|eapply arises_then; [apply arises_start|eapply happens_snapshot; exact FG]|].
    intros p i a P _. unfold dmem. now rewrite (from_graph_known E _ _ _ _ (a_storage a) FG (TM _ _ _ P)).
  Qed.
  Theorem left_behind : forall fs n s1 sn sc r, graph_build E g (State fs empty_backend [] None) = (s1, Ok sn) ->
    graph_build E g (State fs empty_backend [] (Some n)) = (sc, r) ->
    (forall l d, getf fs l = Some d -> getf (files sc) l = Some d) /\ (forall i k, getf (files sc) (i, k, None) = getf fs (i, k, None)) /\
    exists l0, forall l d, getf (files sc) l = Some d -> getf (files s1) l = Some d \/ (l = l0 /\ d = [] /\ getf fs l = None /\ snd l <> None).
  Proof.
    intros fs n s1 sn sc r H HC. change (stalled fs (files sc) (files s1)).
    assert (SP : splits (V := V) (graph_build E g)).
    { apply splits_bind; [apply splits_from_graph|]. intro. apply splits_bind; [|intro; apply splits_ret]. apply splits_bind; [apply splits_ret|]. intro. apply splits_each. intro. apply splits_node. }
    assert (H0 := H). unfold graph_build in H. apply andthen_ok in H. destruct H as (sA & sn0 & FG & H).
    apply andthen_ok in H. destruct H as (s1' & u & B & H). apply ret_ok in H. destruct H as [Q H]. subst s1'. injection H as Q. subst sn0. destruct u.
    assert (B0 := B). unfold build in B. apply andthen_ok in B. destruct B as (sA' & order & O & B). apply ret_ok in O. destruct O as [-> O].
    destruct (snapshot_records E _ _ _ _ FG) as (G & FA & _). cbn [files] in FA. subst g.
    destruct (dependencies_order (g_arts (s_graph sn))) as (order' & O' & BO). rewrite O in O'. injection O' as <-.
    assert (UA : fuel sA = None) by (eapply from_graph_fuel; [|exact FG]; reflexivity).
    destruct (nodes_files E IT PK sn W DP TM ONE order [] sA s1 BO) as [GR CR]; [|exact B|].
    { constructor; [exact UA|eapply arises_then; [apply arises_start|eapply happens_snapshot; exact FG]|].
      intros p i a P _. unfold dmem. now rewrite (from_graph_known E _ _ _ _ (a_storage a) FG (TM _ _ _ P)). }
    rewrite FA in GR, CR.
    destruct (SP (State fs empty_backend [] None) n s1 (Ok sn) H0) as (_ & [(n' & X)|(sc' & X)]).
    - change (lim _ (Some n)) with (State (V := V) fs empty_backend [] (Some n)) in X. rewrite HC in X. injection X as -> _. cbn [lim files]. now apply stalled_there.
    - assert (C : crashes (graph_build E (s_graph sn)) (State fs empty_backend [] None) sc') by (now exists n).
      change (lim _ (Some n)) with (State (V := V) fs empty_backend [] (Some n)) in X. rewrite HC in X. injection X as <- ->.
      unfold graph_build in C. eapply crashes_bind in C; [|apply splits_from_graph|exact FG]. destruct C as [(m & C)|C].
      { apply keeps_from_graph in C. cbn [lim files] in C. rewrite C. now apply stalled_here. }
      eapply crashes_bind in C; [|apply splits_bind; [apply splits_ret|intro; apply splits_each; intro; apply splits_node]|rewrite (lim_none sA UA); exact B0].
      destruct C as [C|C]; [|now apply crashes_ret in C]. unfold build in C. eapply crashes_bind_ret in C; [|exact O]. now apply CR.
  Qed.
End Stop.

(** Any number of processes that were stopped, and one that is not. *)
Theorem stopped_again : forall V (E : env V), iterates E -> settled E -> picks E -> forall g, in_order E (g_arts g) -> distinct_paths (g_arts g) -> templated (g_arts g) ->
  (forall p i a j b, produces (g_arts g) p i a -> produces (g_arts g) p j b -> b = a) ->
  forall fs s1 sn fs2, NoDup (map fst fs) -> graph_build E g (State fs empty_backend [] None) = (s1, Ok sn) -> attempts E g (files s1) fs fs2 ->
  exists s2, graph_build E g (State fs2 empty_backend [] None) = (s2, Ok sn) /\
    (forall l, getf (files s2) l = getf (files s1) l) /\ (forall sn' key x, linked s2 sn' key x <-> linked s1 sn' key x).
Proof.
  intros V E IT ST PK g W DP TM ONE fs s1 sn fs2 N H A. 
  assert (GR : grown fs (files s1)).
  { exact (built_grown E IT PK g W DP TM ONE fs s1 sn H). }
  assert (INV : NoDup (map fst fs2) /\ (forall i k, getf fs2 (i, k, None) = getf fs (i, k, None)) /\
    (forall l d, getf fs l = Some d -> getf fs2 l = Some d) /\ (forall l d, getf fs2 l = Some d -> getf (files s1) l = Some d)).
  { induction A as [fs|fs fa n sc r fb A IH HC NB EI DN].
    - split; [exact N|]. split; [auto|]. split; [auto|]. apply GR.
    - destruct (IH N H GR) as (Na & RAW & UP & DNa). destruct (new_process E IT ST PK g W DP TM ONE fs fa s1 sn N Na H RAW UP DNa) as (s2 & H2 & F2 & _).
      destruct (left_behind E IT PK g W DP TM ONE fa n s2 sn sc r H2 HC) as (S1 & S2 & _). split; [exact NB|]. split; [|split; [|exact DN]].
      + intros i k. rewrite <- RAW. destruct (EI (i, k, None)) as [-> | ->]; auto.
      + intros l d D. apply UP in D. destruct (EI l) as [-> | ->]; auto. }
  destruct INV as (N2 & RAW & UP & DN). exact (new_process E IT ST PK g W DP TM ONE fs fs2 s1 sn N N2 H RAW UP DN).
Qed.
