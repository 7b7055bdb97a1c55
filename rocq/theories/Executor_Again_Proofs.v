(** Two builds of a graph, one of which finds some of the other's outputs. *)
From Coq Require Import ZArith List Ascii String Bool Arith Lia Permutation.
From Verif Require Import Base Base_Proofs Str Str_Proofs Graph_Model Graph_Spec Graph_Proofs.
From Verif Require Import Backend_Model Backend_Spec Backend_Proofs Executor_Model Executor_Spec Executor_Proofs.
From Verif Require Import Executor_Done_Proofs Executor_Build_Proofs Executor_Link_Proofs Executor_Crash_Proofs Executor_Resume_Proofs Executor_Resumed_Proofs.
From Verif Require Import Executor_Id_Proofs Executor_Restart_Proofs.
Import ListNotations.
Open Scope list_scope.

Section Again.
  Context {V : Type} (E : env V) (IT : iterates E) (ST : settled E) (PK : picks E) (sn : snapshot).
  Notation g := (s_graph sn).
  Context (W : in_order E (g_arts g)) (DP : distinct_paths (g_arts g)) (TM : templated (g_arts g)).
  Context (ONE : forall p i a j b, produces (g_arts g) p i a -> produces (g_arts g) p j b -> b = a).
  Notation pending pre p := (~ In (NProducer p) pre).
  (** Locations that no producer outside of [pre] writes. *)
  Definition settled_at (pre : list node) (l : location) : Prop :=
    snd l = None \/ forall p i a, produces (g_arts g) p i a -> pending pre p -> st_id (a_storage a) <> fst (fst l).

  (** [sB] has some of what [sA] is still to build and ends up with in [s1]. *)
  Record sim (pre : list node) (s1 sA sB : state V) : Prop := {
    sm_fuel : fuel sA = None /\ fuel sB = None;
    sm_arises : arises E sA /\ arises E sB;
    sm_links : forall key y, In y (links_of (db sA) sn key) <-> In y (links_of (db sB) sn key);
    sm_known : forall p i a, produces (g_arts g) p i a -> pending pre p ->
      dmem storage_eqb (known (db sA)) (a_storage a) = false /\ dmem storage_eqb (known (db sB)) (a_storage a) = false;
    sm_files : forall l, settled_at pre l -> dget location_eqb (files sA) l = dget location_eqb (files sB) l;
    sm_up : forall p i a k f d, produces (g_arts g) p i a -> pending pre p ->
      dget location_eqb (files sA) (st_id (a_storage a), k, Some f) = Some d -> dget location_eqb (files sB) (st_id (a_storage a), k, Some f) = Some d;
    sm_down : forall p i a k f d, produces (g_arts g) p i a -> pending pre p ->
      dget location_eqb (files sB) (st_id (a_storage a), k, Some f) = Some d -> dget location_eqb (files s1) (st_id (a_storage a), k, Some f) = Some d }.

  Lemma same_producer : forall p i q j a, produces (g_arts g) p i a -> produces (g_arts g) q j a -> p = q.
  Proof. intros p i q j a (k & _ & P) (k' & _ & P'). congruence. Qed.
  Lemma reads_settled : forall pre rest q j a s inputs deps fps k d n l x, arises E s -> produces (g_arts g) q j a ->
    build_order (dependencies (g_arts g)) (pre ++ NProducer q :: rest) ->
    inputs_at E sn (db s) (p_inputs q) inputs -> compute_dependencies E q inputs = Ok (deps, fps) ->
    In (k, d) deps -> In (n, l) d -> In x l -> settled_at pre (location_of (ps_part x)).
  Proof.
    intros pre rest q j a s inputs deps fps k d n l x AR P BO IA CD Ik Il Ix.
    destruct (compute_dependencies_ok E q _ _ _ CD) as (m & M & _ & _ & DI & _). apply DI in Ik. destruct Ik as (l1 & l2 & d0 & EM & _ & ED). subst d.
    apply dict_of_In in Il. assert (Im : In (k, d0) m) by (rewrite EM; apply in_app_iff; right; now left).
    destruct (PK _ _ _ _ _ _ _ _ M Im Il Ix) as (n' & l' & Il' & Ix'). apply filter_In in Il'. destruct Il' as [Il' _].
    assert (X : exists n0 b key, In (n0, b) (p_inputs q) /\ key_of g b = Ok key /\ In x (links_of (db s) sn key)).
    { clear - IT IA Il' Ix'. unfold inputs_at in IA. induction IA as [|[n0 b] nl ps ins (key & K & ->) IA IH]; [destruct Il'|]. destruct Il' as [Q|Il'].
      - injection Q as Q1 Q2. exists n0, b, key. split; [now left|]. split; [exact K|]. rewrite <- Q2 in Ix'. now apply (proj1 (IT _ _)) in Ix'.
      - destruct (IH Il') as (n1 & b1 & key1 & I1 & R). exists n1, b1, key1. split; [now right|exact R]. }
    destruct X as (n0 & b & key & Ib & K & IL). destruct (arises_belonging E IT s AR sn key x IL) as (b' & K' & [FT _] & RW).
    assert (b' = b) by (eapply key_inj; [apply (io_keys E _ W)|exact K'|exact K]). subst b'.
    destruct (a_output b) as [[p i]|] eqn:AO; [right|left; exact (RW eq_refl)]. intros p' i' a' P' N' Q. cbn in Q. rewrite FT in Q.
    assert (PB : produces (g_arts g) p i b) by (exists key; split; [now apply key_of_In|exact AO]).
    assert (a' = b) by (eapply DP; eauto). subst a'. assert (p' = p) by (eapply same_producer; eauto). subst p'. apply N'.
    destruct BO as (NO & BV & BB). destruct P as (kk & Io & Oo).
    assert (B1 := BB _ _ (proj2 (dependencies_needs _ _ _) (needs_input _ _ _ _ _ _ _ Io Oo Ib))).
    assert (B2 := BB _ _ (proj2 (dependencies_needs _ _ _) (needs_producer _ _ _ _ _ (key_of_In _ _ _ K) AO))).
    assert (IP : In (NArtifact b) pre).
    { clear - NO B1. destruct B1 as (u & v & w & B1). assert (NB : ~ In (NProducer q) pre) by (intro J; apply NoDup_remove_2 in NO; apply NO, in_app_iff; now left).
      assert (NQ : ~ In (NProducer q) rest) by (intro J; apply NoDup_remove_2 in NO; apply NO, in_app_iff; now right).
      clear NO. revert u B1 NB. induction pre as [|z pre IH]; intros u B1 NB.
      - exfalso. destruct u as [|y u]; cbn in B1; [discriminate|]. injection B1 as _ B1. apply NQ. rewrite B1. apply in_app_iff. right. right. apply in_app_iff. right. now left.
      - destruct u as [|y u]; cbn in B1; injection B1 as Q B1; [now left|]. right. eapply IH; [exact B1|]. intro J. apply NB. now right. }
    eapply before_prefix in B2; [exact B2|exact NO|exact IP].
  Qed.
  Lemma inputs_same : forall (sA sB : state V) l inputs, (forall key y, In y (links_of (db sA) sn key) <-> In y (links_of (db sB) sn key)) ->
    inputs_at E sn (db sA) l inputs -> inputs_at E sn (db sB) l inputs.
  Proof.
    intros sA sB l inputs L. unfold inputs_at. apply Forall2_impl. intros na nl (key & K & ->). exists key. split; [exact K|]. f_equal. apply ST. intro x. apply L.
  Qed.
  Lemma content_same : forall pre s1 sA sB p, sim pre s1 sA sB -> settled_at pre (location_of p) -> content (files sA) p = content (files sB) p.
  Proof. intros pre s1 sA sB p SM SE. unfold content. destruct (st_kind (pt_storage p)); [|reflexivity]. eapply sm_files; eauto. Qed.

  Lemma sim_step : forall pre rest q s1 sA sA' sB, build_order (dependencies (g_arts g)) (pre ++ NProducer q :: rest) -> sim pre s1 sA sB ->
    build_producer E sn q sA = (sA', Ok tt) ->
    (forall i a k f, produces (g_arts g) q i a -> dget location_eqb (files s1) (st_id (a_storage a), k, Some f) = dget location_eqb (files sA') (st_id (a_storage a), k, Some f)) ->
    exists sB', build_producer E sn q sB = (sB', Ok tt) /\ sim (pre ++ [NProducer q]) s1 sA' sB'.
  Proof.
    intros pre rest q s1 sA sA' sB BO SM HA FIN.
    assert (NQ : pending pre q) by (destruct BO as (NO & _); intro J; apply NoDup_remove_2 in NO; apply NO, in_app_iff; now left).
    destruct (build_producer_done E IT sn q sA sA' tt (io_keys E _ W) (sound_in_order _ _ _ _ W) HA) as [DQ _].
    destruct DQ as (_ & _ & _ & outs & _ & _ & _ & O & _). destruct (one_output sn ONE q outs O) as (a & j & -> & P). 
    destruct P as (k0 & Ik0 & AO). assert (P : produces (g_arts g) q j a) by (exists k0; auto). destruct (key_defined g k0 a Ik0) as (key & K).
    assert (SO := sound_in_order V E sn q W). destruct (sm_fuel _ _ _ _ SM) as [FA FB]. destruct (sm_arises _ _ _ _ SM) as [AA AB].
    destruct (sm_known _ _ _ _ SM q j a P NQ) as [KA KB]. assert (T := TM _ _ _ P).
    destruct (producer_facts E IT sn q a key SO O K sA sA' tt FA KA) as (inputs & deps & fps & fndA & IA & CD & DA & BA).
    { intros inputs deps fps IA CD k d n l x k' f' I1 I2 I3. eapply (reads_elsewhere E IT PK sn W DP q j a sA); eauto. }
    { exact HA. }
    assert (EL : elsewhere a deps) by (intros k d n l x k' f' I1 I2 I3; eapply (reads_elsewhere E IT PK sn W DP q j a sA); eauto).
    assert (RS : reads_same deps (files sA) (files sB)).
    { intros k d n l x I1 I2 I3. eapply content_same; [exact SM|]. exact (reads_settled pre rest q j a sA inputs deps fps k d n l x AA P BO IA CD I1 I2 I3). }
    assert (IB : inputs_at E sn (db sB) (p_inputs q) inputs) by (eapply inputs_same; [exact (sm_links _ _ _ _ SM)|exact IA]).
    assert (UP := fun k f d => sm_up _ _ _ _ SM q j a k f d P NQ). assert (DN := fun k f d => sm_down _ _ _ _ SM q j a k f d P NQ).
    (* what is found *)
    assert (FB' : exists fndB, discover E (files sB) (a_storage a) fps = Ok fndB /\
              ((exists v, st_kind (a_storage a) = SLiteral v) /\ fndB = fndA \/
               st_kind (a_storage a) = SFile /\ (forall x, In x fndA <-> file_found E (files sA) (a_storage a) fps x) /\ (forall x, In x fndB <-> file_found E (files sB) (a_storage a) fps x))).
    { destruct (st_kind (a_storage a)) as [|v] eqn:SK.
      - destruct (discover_file E (files sB) (a_storage a) fps SK T) as (fb & DB & XB). exists fb. split; [exact DB|]. right. split; [reflexivity|]. split; [|exact XB].
        destruct (discover_file E (files sA) (a_storage a) fps SK T) as (fa & DA' & XA). rewrite DA in DA'. injection DA' as <-. exact XA.
      - exists fndA. split; [rewrite (discover_literal E (files sB) (files sA) _ _ v SK); exact DA|]. left. split; [eauto|reflexivity]. }
    destruct FB' as (fndB & DB & FB').
    assert (SEL : forall x, st_kind (a_storage a) = SFile -> forall fs fnd, (forall x, In x fnd <-> file_found E fs (a_storage a) fps x) ->
              (In x (select fps (adds [] fnd)) <-> file_found E fs (a_storage a) fps x)).
    { intros x SK fs fnd X. rewrite select_In, adds_In, X. cbn. split; [intuition|]. intro FF. split; [auto|]. destruct FF as (k & f & d & G & _ & _ & ->).
      right. left. unfold ps_key, ps_fp. cbn [ps_part pt_key pt_fp]. unfold get_fp in G. destruct (dget str_eqb fps k) as [o|]; [|discriminate]. now rewrite G. }
    assert (HAND : forall k, at_hand fps fndA k -> at_hand fps fndB k).
    { intros k (x & I & Q). destruct FB' as [[_ -> ]|(SK & XA & XB)]; [now exists x|]. exists x. split; [|exact Q].
      apply (SEL x SK _ _ XB). apply (SEL x SK _ _ XA) in I. destruct I as (k' & f & d & G & PP & D & ->). exists k', f, d. auto using UP. }
    destruct (producer_succeeds E IT sn q a key SO O K sB inputs deps fps fndB FB KB IB CD EL DB) as (sB' & HB & BB).
    { intros k d I N. destruct (b_makes _ _ _ _ _ _ _ _ _ _ BA k d I) as (data & x & M); [intro H; apply N; auto|]. exists data, x. eapply makes_same; eauto. }
    exists sB'. split; [exact HB|].
    assert (MK : forall k d data x, In (k, d) deps -> makes E sn q a key fps (files sA) k d data x <-> makes E sn q a key fps (files sB) k d data x).
    { intros k d data x I. split; intro M; eapply makes_same; eauto. now apply reads_same_sym. }
    assert (FPS : forall k f, get_fp fps k = Some f -> exists d, In (k, d) deps).
    { intros k f G. destruct (compute_dependencies_ok E q _ _ _ CD) as (m & _ & _ & _ & _ & _ & X). unfold get_fp in G.
      destruct (dget str_eqb fps k) as [o|] eqn:DG; [|discriminate]. destruct (X k o DG) as (d & I & _). eauto. }
    assert (F1 : forall k f, dget location_eqb (files s1) (st_id (a_storage a), k, Some f) = dget location_eqb (files sA') (st_id (a_storage a), k, Some f)) by (intros; eapply FIN; eauto).
    assert (ATB : forall k f, st_kind (a_storage a) = SFile -> get_fp fps k = Some f -> (at_hand fps fndB k <->
              st_partitioned (a_storage a) = negb (is_nil k) /\ exists d, dget location_eqb (files sB) (st_id (a_storage a), k, Some f) = Some d)).
    { intros k f SK G. destruct FB' as [[(v & SL) _]|(_ & _ & XB)]; [congruence|]. unfold at_hand. split.
      - intros (x & I & Q). apply (SEL x SK _ _ XB) in I. destruct I as (k' & f' & d & G' & PP & D & ->). cbn in Q. subst k'. rewrite G in G'. injection G' as <-. eauto.
      - intros (PP & d & D). eexists. split; [apply (SEL _ SK _ _ XB); exists k, f, d; split; [exact G|]; split; [exact PP|]; split; [exact D|reflexivity]|]. reflexivity. }
    (* files of the output *)
    assert (FILES : forall k f, dget location_eqb (files sA') (st_id (a_storage a), k, Some f) = dget location_eqb (files sB') (st_id (a_storage a), k, Some f)).
    { intros k f.
      assert (UNW : (forall d f', st_kind (a_storage a) = SFile -> In (k, d) deps -> get_fp fps k = Some f' -> ~ at_hand fps fndA k -> f = f' -> False) ->
        dget location_eqb (files sA') (st_id (a_storage a), k, Some f) = dget location_eqb (files sB') (st_id (a_storage a), k, Some f)).
      { intro U. assert (EA := b_other _ _ _ _ _ _ _ _ _ _ BA (st_id (a_storage a), k, Some f)). assert (EB := b_other _ _ _ _ _ _ _ _ _ _ BB (st_id (a_storage a), k, Some f)).
        rewrite EA by (intros k' d' f' SK I N G Q; injection Q as -> ->; eapply U; eauto).
        rewrite EB by (intros k' d' f' SK I N G Q; injection Q as -> ->; eapply U; eauto).
        specialize (EA (fun k' d' f' SK I N G Q => match Q in _ = y return (let '(_, k'', fo) := y in k'' = k' -> fo = Some f' -> False) with eq_refl => fun Q1 Q2 => U d' f' SK ltac:(rewrite Q1; exact I) ltac:(rewrite Q1; exact G) ltac:(rewrite Q1; exact N) ltac:(congruence) end eq_refl eq_refl)).
        destruct (dget location_eqb (files sA) (st_id (a_storage a), k, Some f)) as [d|] eqn:DA0.
        - symmetry. now apply UP.
        - destruct (dget location_eqb (files sB) (st_id (a_storage a), k, Some f)) as [d|] eqn:DB0; [|reflexivity]. apply DN in DB0. rewrite F1, EA in DB0. congruence. }
      destruct (st_kind (a_storage a)) as [|v] eqn:SK; [|apply UNW; intros d f' X; discriminate].
      destruct (get_fp fps k) as [f'|] eqn:G; [|apply UNW; intros d f' _ _ X; discriminate].
      destruct (Z.eq_dec f f') as [ <- |NE]; [|apply UNW; intros d f2 _ _ X _ Q; congruence].
      destruct (FPS k f G) as (d & I).
      destruct (dget location_eqb (files sB) (st_id (a_storage a), k, Some f)) as [d0|] eqn:D0.
      - assert (DN0 := DN _ _ _ D0). rewrite F1 in DN0. rewrite DN0. symmetry.
        destruct (Bool.bool_dec (st_partitioned (a_storage a)) (negb (is_nil k))) as [PP|NP].
        + rewrite (b_other _ _ _ _ _ _ _ _ _ _ BB); [exact D0|]. intros k' d' f' _ I' N G' Q. injection Q as <- <-. apply N, (ATB k f eq_refl G). eauto.
        + exfalso. assert (NH : ~ at_hand fps fndB k) by (rewrite (ATB k f eq_refl G); tauto).
          destruct (b_makes _ _ _ _ _ _ _ _ _ _ BB k d I NH) as (data & x & M). apply makes_file in M; [|exact SK]. destruct M as (f2 & _ & PP & _). congruence.
      - assert (NH : ~ at_hand fps fndB k) by (rewrite (ATB k f eq_refl G); intros (_ & d0 & X); congruence).
        assert (NA : ~ at_hand fps fndA k) by (intro H; now apply NH, HAND).
        destruct (b_makes _ _ _ _ _ _ _ _ _ _ BA k d I NA) as (data & x & M).
        rewrite (b_file _ _ _ _ _ _ _ _ _ _ BA k d f data x SK I NA M G). symmetry.
        eapply (b_file _ _ _ _ _ _ _ _ _ _ BB k d f data x SK I NH); [now apply MK|exact G]. }
    (* links of the output *)
    assert (LINKS : forall y, In y (links_of (db sA') sn key) <-> In y (links_of (db sB') sn key)).
    { intro y. rewrite (b_links _ _ _ _ _ _ _ _ _ _ BA y), (b_links _ _ _ _ _ _ _ _ _ _ BB y), <- (sm_links _ _ _ _ SM key y).
      destruct FB' as [[(v & SL) -> ]|(SK & XA & XB)].
      - split; (intros [I|[I|(k & d & data & I & N & M)]]; auto); right; right; exists k, d, data; (split; [exact I|]; split; [exact N|]); now apply MK.
      - rewrite (SEL y SK _ _ XA), (SEL y SK _ _ XB). split.
        + intros [I|[I|(k & d & data & I & N & M)]]; auto.
          * right. left. destruct I as (k & f & d & G & PP & D & ->). exists k, f, d. auto using UP.
          * destruct (makes_file E sn q a key fps (files sA) k d data y SK M) as (f & G & PP & ->). 
            destruct (dget location_eqb (files sB) (st_id (a_storage a), k, Some f)) as [d0|] eqn:D0.
            -- right. left. exists k, f, d0. split; [exact G|]. split; [exact PP|]. split; [exact D0|]. apply DN in D0. rewrite F1 in D0.
               rewrite (b_file _ _ _ _ _ _ _ _ _ _ BA k d f data _ SK I N M G) in D0. now injection D0 as ->.
            -- right. right. exists k, d, data. split; [exact I|]. split; [|now apply MK]. rewrite (ATB k f SK G). intros (_ & d0 & X). congruence.
        + intros [I|[I|(k & d & data & I & N & M)]]; auto.
          * destruct I as (k & f & d0 & G & PP & D & ->). right.
            destruct (dget location_eqb (files sA) (st_id (a_storage a), k, Some f)) as [d1|] eqn:D1.
            -- left. exists k, f, d1. split; [exact G|]. split; [exact PP|]. split; [exact D1|]. apply UP in D1. rewrite D in D1. now injection D1 as ->.
            -- right. destruct (FPS k f G) as (d & I).
               assert (NA : ~ at_hand fps fndA k).
               { intros (x & J & Q). apply (SEL x SK _ _ XA) in J. destruct J as (k' & f' & d' & G' & _ & D' & ->). cbn in Q. subst k'. rewrite G in G'. injection G' as <-. congruence. }
               destruct (b_makes _ _ _ _ _ _ _ _ _ _ BA k d I NA) as (data & x & M). exists k, d, data. split; [exact I|]. split; [exact NA|].
               destruct (makes_file E sn q a key fps (files sA) k d data x SK M) as (f2 & G2 & _ & EX). rewrite G in G2. injection G2 as <-. 
               assert (BF := b_file _ _ _ _ _ _ _ _ _ _ BA k d f data x SK I NA M G). apply DN in D. rewrite F1, BF in D. injection D as <-. now rewrite <- EX.
          * right. right. exists k, d, data. split; [exact I|]. split; [auto|]. now apply MK. }
    assert (FRA := within_build_producer E sn q _ _ _ HA). assert (FRB := within_build_producer E sn q _ _ _ HB).
    assert (OUT : forall t, out_storage sn q t -> t = a_storage a) by (intros t (outs & b & O' & I & <-); rewrite O in O'; injection O' as <-; destruct I as [ <- |[]]; reflexivity).
    assert (OUTK : forall key', out_key sn q key' -> key' = key) by (intros key' (outs & b & O' & I & KK); rewrite O in O'; injection O' as <-; destruct I as [ <- |[]]; congruence).
    assert (PEND : forall p, pending (pre ++ [NProducer q]) p -> pending pre p /\ p <> q).
    { intros p N. split; [intro J; apply N, in_app_iff; now left|]. intros ->. apply N, in_app_iff. right. now left. }
    assert (OTHER : forall l, snd l = None \/ fst (fst l) <> st_id (a_storage a) ->
              dget location_eqb (files sA') l = dget location_eqb (files sA) l /\ dget location_eqb (files sB') l = dget location_eqb (files sB) l).
    { intros [[i k] f] D. split; [apply (b_other _ _ _ _ _ _ _ _ _ _ BA)|apply (b_other _ _ _ _ _ _ _ _ _ _ BB)]; intros k' d' f' _ _ _ _ Q; injection Q as -> -> ->; cbn in D; destruct D; congruence. }
    constructor.
    - split; [exact (b_fuel _ _ _ _ _ _ _ _ _ _ BA)|exact (b_fuel _ _ _ _ _ _ _ _ _ _ BB)].
    - split; [refine (arises_then E sA sA' AA _)|refine (arises_then E sB sB' AB _)]; eapply (happens_build E _ sn [NProducer q]); cbn [build_nodes eachM]; (eapply andthen_step; [first [exact HA|exact HB]|reflexivity]).
    - intros key' y. destruct (list_eq_dec ascii_dec key' key) as [ -> |NK]; [apply LINKS|].
      rewrite (fr_links _ _ _ _ _ FRA) by (right; intro X; auto). rewrite (fr_links _ _ _ _ _ FRB) by (right; intro X; auto). apply (sm_links _ _ _ _ SM).
    - intros p i b PB N. destruct (PEND p N) as [N1 N2]. destruct (sm_known _ _ _ _ SM p i b PB N1) as [M1 M2].
      assert (NS : ~ out_storage sn q (a_storage b)).
      { intro X. apply OUT in X. assert (b = a) by (eapply (io_storages E _ W); eauto). subst b. apply N2. eapply same_producer; eauto. }
      unfold dmem in *. now rewrite (fr_known _ _ _ _ _ FRA _ NS), (fr_known _ _ _ _ _ FRB _ NS).
    - intros l SE. destruct l as [[i k] f]. destruct f as [f|].
      + destruct (list_eq_dec ascii_dec i (st_id (a_storage a))) as [ -> |NI]; [apply FILES|].
        destruct (OTHER (i, k, Some f)) as [-> ->]; [now right|]. apply (sm_files _ _ _ _ SM). right. cbn. destruct SE as [SE|SE]; [discriminate|].
        intros p b0 b PB N Q. cbn in SE. destruct (producer_eqb p q) eqn:EQ.
        * apply producer_eqb_spec in EQ. subst p. assert (b = a) by (eapply ONE; eauto). subst b. congruence.
        * apply (SE p b0 b PB); [|exact Q]. intro J. apply in_app_iff in J. destruct J as [J|[J|[]]]; [auto|]. injection J as <-. now rewrite (proj2 (producer_eqb_spec q q) eq_refl) in EQ.
      + destruct (OTHER (i, k, None)) as [-> ->]; [now left|]. apply (sm_files _ _ _ _ SM). now left.
    - intros p i b k f d PB N D. destruct (PEND p N) as [N1 N2].
      assert (NI : st_id (a_storage b) <> st_id (a_storage a)) by (intro X; assert (b = a) by (eapply DP; eauto); subst b; apply N2; eapply same_producer; eauto).
      destruct (OTHER (st_id (a_storage b), k, Some f)) as [EA EB]; [now right|]. rewrite EA in D. rewrite EB. eapply (sm_up _ _ _ _ SM); eauto.
    - intros p i b k f d PB N D. destruct (PEND p N) as [N1 N2].
      assert (NI : st_id (a_storage b) <> st_id (a_storage a)) by (intro X; assert (b = a) by (eapply DP; eauto); subst b; apply N2; eapply same_producer; eauto).
      destruct (OTHER (st_id (a_storage b), k, Some f)) as [EA EB]; [now right|]. rewrite EB in D. eapply (sm_down _ _ _ _ SM); eauto.
  Qed.

  Lemma rest_files : forall rest s s' r q i a k f, ~ In (NProducer q) rest -> produces (g_arts g) q i a -> build_nodes E sn rest s = (s', r) ->
    dget location_eqb (files s') (st_id (a_storage a), k, f) = dget location_eqb (files s) (st_id (a_storage a), k, f).
  Proof.
    induction rest as [|n rest IH]; intros s s' r q i a k f N P H; cbn [build_nodes eachM] in H; [injection H as <- _; reflexivity|].
    unfold andthen in H. destruct n as [b|p].
    - cbn [ret] in H. unfold ret in H. eapply IH; [|exact P|exact H]. intro J. apply N. now right.
    - destruct (build_producer E sn p s) as [s2 [u|e]] eqn:B.
      + transitivity (dget location_eqb (files s2) (st_id (a_storage a), k, f)); [eapply IH; [|exact P|exact H]; intro J; apply N; now right|].
        apply (fr_files _ _ _ _ _ (within_build_producer E sn p _ _ _ B)). cbn [fst]. intros t OS Q. apply N. left. f_equal.
        destruct OS as (outs & b & O & I & <-). destruct (out_produced sn p outs b O I) as (j & P'). assert (b = a) by (eapply DP; eauto). subst b. eapply same_producer; eauto.
      + injection H as <- _. apply (fr_files _ _ _ _ _ (within_build_producer E sn p _ _ _ B)). cbn [fst]. intros t OS Q. apply N. left. f_equal.
        destruct OS as (outs & b & O & I & <-). destruct (out_produced sn p outs b O I) as (j & P'). assert (b = a) by (eapply DP; eauto). subst b. eapply same_producer; eauto.
  Qed.
  Lemma sim_nodes : forall rest pre s1 sA sB, build_order (dependencies (g_arts g)) (pre ++ rest) -> sim pre s1 sA sB ->
    build_nodes E sn rest sA = (s1, Ok tt) -> exists s2, build_nodes E sn rest sB = (s2, Ok tt) /\ sim (pre ++ rest) s1 s1 s2.
  Proof.
    induction rest as [|n rest IH]; intros pre s1 sA sB BO SM H; cbn [build_nodes eachM] in H.
    - apply ret_ok in H. destruct H as [-> _]. exists sB. split; [reflexivity|]. now rewrite app_nil_r.
    - apply andthen_ok in H. destruct H as (sA' & u & H1 & H2). destruct u.
      assert (BO' : build_order (dependencies (g_arts g)) ((pre ++ [n]) ++ rest)) by now rewrite <- app_assoc.
      replace (pre ++ n :: rest) with ((pre ++ [n]) ++ rest) by now rewrite <- app_assoc. destruct n as [b|q].
      + apply ret_ok in H1. destruct H1 as [-> _]. destruct (IH (pre ++ [NArtifact b]) s1 sA sB BO') as (s2 & B2 & SM2); [|exact H2|].
        * assert (PE : forall p, pending (pre ++ [NArtifact b]) p -> pending pre p) by (intros p N J; apply N, in_app_iff; now left).
          assert (PE' : forall p, pending pre p -> pending (pre ++ [NArtifact b]) p) by (intros p N J; apply in_app_iff in J; destruct J as [J|[J|[]]]; [auto|discriminate]).
          destruct SM. constructor; eauto. intros l [SE|SE]; apply sm_files0; [now left|right]. intros p i a P N. eapply SE; eauto.
        * exists s2. split; [|exact SM2]. cbn [build_nodes eachM]. eapply andthen_step; [reflexivity|exact B2].
      + destruct (sim_step pre rest q s1 sA sA' sB BO SM H1) as (sB' & HB & SM').
        * intros i a k f P. eapply rest_files; [|exact P|exact H2]. destruct BO as (NO & _). intro J. apply NoDup_remove_2 in NO. apply NO, in_app_iff. now right.
        * destruct (IH _ _ _ _ BO' SM' H2) as (s2 & B2 & SM2). exists s2. split; [|exact SM2]. cbn [build_nodes eachM]. eapply andthen_step; [exact HB|exact B2].
  Qed.
End Again.
