(** Lemmas about building a graph of producers without a map where some of it may be reused. *)
From Coq Require Import ZArith List Ascii String Bool Arith Lia.
From Verif Require Import Base Base_Proofs Str Str_Proofs Graph_Model Graph_Spec Graph_Proofs Backend_Model Backend_Spec Backend_Proofs.
From Verif Require Import Executor_Model Executor_Spec Executor_Proofs Executor_Done_Proofs Executor_Build_Proofs Executor_Link_Proofs Executor_Write_Proofs
  Executor_Store_Proofs Executor_Id_Proofs Executor_Crash_Proofs Executor_New_Proofs Executor_Stop_Proofs Executor_Restart_Proofs
  Executor_Resumed_Proofs Executor_Truth_Proofs Executor_Top_Proofs Access_Model Access_Spec Access_Proofs Access_Build_Proofs Whole_Model Whole_Spec Whole_Proofs.
From Verif Require Layout_Proofs.
Import ListNotations.
Open Scope list_scope.

Section Reused.
  Context {V : Type} (E : env V) (IT : iterates E) (IO : iterates_once E) (ST : settled E) (WR : writable E) (R : requests (V := V)) (AG : agree E R).
  Lemma good_unique : forall s x y f, good E R s x -> good E R s y -> pt_storage (ps_part x) = pt_storage (ps_part y) -> ps_key x = ps_key y ->
    ps_fp x = Some f -> ps_fp y = Some f -> x = y.
  Proof.
    intros s x y f GX GY T K FX FY. destruct (GX f FX) as (d & H & (C & PV) & RO). destruct (GY f FY) as (d' & H' & (C' & PV') & RO').
    rewrite T, K in RO. assert (d = d') by (eapply result_unique; eauto). subst d'. rewrite T in C, PV.
    assert (C2 : ps_content x = ps_content y) by congruence. unfold holds_data in H, H'. rewrite T in H.
    destruct x as [[t k f1 v] c], y as [[t' k' f2 v'] c']. unfold ps_key, ps_fp in *. cbn in *. subst t k c f1 f2.
    assert (v = v'); [|now subst]. destruct (st_kind t'); [|congruence]. rewrite (PV eq_refl), (PV' eq_refl). reflexivity.
  Qed.

  Context (g : graph_def) (s s1 s' : state V) (sn : snapshot) (IN : in_order E (g_arts g)) (WH : whole E (g_arts g)) (DP : distinct_paths (g_arts g))
    (NG : no_gaps (g_arts g)) (TP : templated (g_arts g)) (HI : history E R s) (FG : from_graph E g s = (s1, Ok sn)) (B : build E sn s1 = (s', Ok tt))
    (CV : covers E R sn s1 s') (AN : all_or_none s1 (g_arts g)) (NEW : forall key x, ~ linked s sn key x)
    (SV : kept_exactly E s (g_arts g)).

  (** What is linked for an artifact of the snapshot holds its value. *)
  Definition has (a : artifact) (v : V) : Prop := exists key ds, key_of g a = Ok key /\ links_of (db s') sn key <> [] /\
    Forall2 (holds_data s') (iter_set E (links_of (db s') sn key)) ds /\ load E a ds = Ok v /\
    (a_output a <> None -> exists x, iter_set E (links_of (db s') sn key) = [x]).

  Lemma graph_same : s_graph sn = g.
  Proof. now destruct (snapshot_links E g s s1 sn FG) as (GS & _). Qed.
  Lemma history1 : history E R s1.
  Proof. eapply history_then; [exact HI|]. eapply follows_snapshot. exact FG. Qed.
  Lemma produced_new : forall p i a key x, produces (g_arts g) p i a -> key_of g a = Ok key -> ~ linked s1 sn key x.
  Proof.
    intros p i a key x PA K L. destruct (snapshot_links E g s s1 sn FG) as (_ & _ & _ & LK & _). apply LK in L.
    destruct L as [L|(_ & b & LB & AO & _)]; [now apply NEW in L|]. apply key_of_last in LB.
    assert (b = a) by (eapply key_inj; [exact (io_keys _ _ IN)|exact LB|exact K]). subst b. destruct PA as (? & _ & PA). congruence.
  Qed.
  Lemma raw_kept : forall a key x, a_output a = None -> key_of g a = Ok key -> (In x (links_of (db s') sn key) <-> raw_found E s (a_storage a) x).
  Proof.
    intros a key x AO K. destruct (snapshot_links E g s s1 sn FG) as (GS & _ & _ & LK & _).
    assert (L1 : linked s1 sn key x <-> raw_found E s (a_storage a) x).
    { rewrite LK. split.
      - intros [L|(_ & b & LB & _ & RF)]; [now apply NEW in L|]. apply key_of_last in LB.
        assert (b = a) by (eapply key_inj; [exact (io_keys _ _ IN)|exact LB|exact K]). now subst b.
      - intro RF. right. split; [reflexivity|]. exists a. split; [now apply key_of_last|]. auto. }
    rewrite <- linked_links. rewrite <- L1. split.
    - intro L. destruct (build_is V E sn) as (order & BO & BB). rewrite BB in B.
      assert (ND : NoDup (map fst (g_arts (s_graph sn)))) by (rewrite GS; exact (io_keys _ _ IN)).
      assert (TP' : templated (g_arts (s_graph sn))) by now rewrite GS.
      destruct (only_asked E IT sn ND order s1 s' _ (history_consistent E IT R _ history1) BO TP' B sn key x L) as [L'|(_ & p & i & b & PB & LB & _)]; [exact L'|].
      rewrite GS in *. apply key_of_last in LB. assert (b = a) by (eapply key_inj; [exact (io_keys _ _ IN)|exact LB|exact K]). subst b.
      destruct PB as (? & _ & PB). congruence.
    - intro L. apply linked_links. apply linked_links in L. destruct (build_is V E sn) as (order & BO & BB). rewrite BB in B.
      assert (FR := nodes_frame E sn order s1 s' _ B). now apply (fr_links_mono _ _ _ _ _ FR).
  Qed.
  Lemma raw_files : forall i k, dget location_eqb (files s') (i, k, None) = dget location_eqb (files s) (i, k, None).
  Proof.
    intros i k. destruct (snapshot_links E g s s1 sn FG) as (_ & FS & _). destruct (tame_build E sn _ _ _ B) as [_ T]. now rewrite T, FS.
  Qed.
  Lemma inputs_names : forall l inputs, inputs_at E sn (db s') l inputs -> map fst inputs = map fst l.
  Proof. intros l inputs H. induction H as [|na nl l inputs (key & _ & ->) H IH]; [reflexivity|]. cbn. now f_equal. Qed.
  Lemma inputs_links : forall l inputs n a, inputs_at E sn (db s') l inputs -> In (n, a) l ->
    exists key, key_of (s_graph sn) a = Ok key /\ In (n, iter_set E (links_of (db s') sn key)) inputs.
  Proof.
    intros l inputs n a H I. induction H as [|na nl l inputs (key & K & ->) H IH]; [destruct I|]. destruct I as [ -> |I].
    - exists key. split; [exact K|now left].
    - destruct (IH I) as (key' & K' & J). exists key'. split; [exact K'|now right].
  Qed.
  Lemma filter_NoDup : forall A (f : str * A -> bool) l, NoDup (map fst l) -> NoDup (map fst (filter f l)).
  Proof.
    intros A f l. induction l as [|[k v] l IH]; intro N; [constructor|]. inversion N as [|? ? N1 N2]; subst. cbn. destruct (f (k, v)); [|now apply IH].
    cbn. constructor; [|now apply IH]. intro I. apply N1. apply in_map_iff in I. destruct I as (kv & <- & I). apply filter_In in I. destruct I as [I _]. now apply (in_map fst) in I.
  Qed.

  Lemma all_have : (forall a v, value E s a v -> In a (map snd (g_arts g)) -> has a v) /\
    (forall inputs names args, arguments E s inputs names args -> (forall n a, In (n, a) inputs -> In a (map snd (g_arts g))) ->
       Forall2 (fun name nv => fst nv = name /\ exists a, dget str_eqb inputs name = Some a /\ has a (snd nv)) names args).
  Proof.
    apply (value_arguments_ind V E s (fun a v _ => In a (map snd (g_arts g)) -> has a v)
      (fun inputs names args _ => (forall n a, In (n, a) inputs -> In a (map snd (g_arts g))) ->
         Forall2 (fun name nv => fst nv = name /\ exists a, dget str_eqb inputs name = Some a /\ has a (snd nv)) names args)).
    - intros a parts ds v AO P H L Ia. destruct (key_of_known _ _ Ia) as (key & K). exists key, ds. split; [exact K|].
      assert (EQ : forall x, In x (links_of (db s') sn key) <-> In x parts) by (intro x; rewrite (raw_kept a key x AO K); symmetry; apply P).
      split; [|split; [|split; [exact L|congruence]]].
      + destruct (snapshot_links E g s s1 sn FG) as (_ & _ & RF & _). destruct (RF key a (key_of_In _ _ _ K) AO) as (x & X).
        apply (raw_kept a key x AO K) in X. intro Q. now rewrite Q in X.
      + rewrite (ST _ _ EQ). assert (HX : forall x, In x (iter_set E parts) -> forall d, holds_data s x d -> holds_data s' x d).
        { intros x I d. apply (proj1 (IT _ _)) in I. apply P in I. destruct I as [_ I]. unfold holds_data. destruct (st_kind (a_storage a)) eqn:SK.
          - destruct I as (k & d0 & _ & _ & ->). cbn. rewrite SK. now rewrite raw_files.
          - destruct I as (d0 & _ & _ & ->). cbn. rewrite SK. auto. }
        clear - H HX. induction H as [|x d l ds H HD IH]; constructor; [apply HX; [now left|exact H]|]. apply IH. intros y I. apply HX. now right.
    - intros a p i args vs v AO A IH RU N Ia. destruct (key_of_known _ _ Ia) as (key & K).
      assert (PA : produces (g_arts g) p i a) by (exists key; split; [now apply key_of_In|exact AO]).
      assert (GS := graph_same). assert (INS : in_order E (g_arts (s_graph sn))) by now rewrite GS.
      assert (PAS : produces (g_arts (s_graph sn)) p i a) by now rewrite GS.
      destruct (build_asks E IT sn s1 s' tt INS B p i a PAS) as (inputs & m & IP & M & AS).
      assert (IG : forall n b, In (n, b) (p_inputs p) -> exists kb, key_of g b = Ok kb).
      { intros n b I. unfold input_partitions in IP. clear - IP I GS. induction IP as [|na nl l l' (_ & kb & LB & _) IP IH]; [destruct I|].
        destruct I as [ -> |I]; [|now apply IH]. rewrite GS in LB. apply key_of_last in LB. eauto. }
      destruct (SV p i a args vs v PA A RU N) as (dt & DU & LO).
      rewrite (wh_map _ _ WH _ _ _ PA) in M. injection M as <-. destruct (AS [] (or_introl eq_refl)) as (d & AD).
      assert (DD : d = dict_of str_eqb (filter (fun i => existsb (str_eqb (fst i)) (c_map_inputs (classes E (p_class p)))) inputs)).
      { destruct AD as (inputs' & m' & l1 & l2 & d0 & IP' & M' & EQ & _ & ->). apply input_partitions_at in IP'. apply input_partitions_at in IP.
        assert (inputs' = inputs) by (eapply inputs_at_fun; eauto). subst inputs'. rewrite (wh_map _ _ WH _ _ _ PA) in M'. injection M' as <-.
        destruct l1 as [|? l1]; [now injection EQ as <- _|]. injection EQ as _ EQ. now destruct l1. }
      assert (RD : reads E s' p d args).
      { assert (IH' := IH (fun n b I => let (kb, K') := IG n b I in in_map snd _ _ (key_of_In _ _ _ K'))). apply input_partitions_at in IP.
        assert (NI : NoDup (map fst inputs)) by (rewrite (inputs_names _ _ IP); exact (wh_inputs _ _ WH _ _ _ PA)).
        assert (GO : forall names args', Forall2 (fun name nv => fst nv = name /\ exists a, dget str_eqb (p_inputs p) name = Some a /\ has a (snd nv)) names args' ->
          (forall n, In n names -> In n (c_build_inputs (classes E (p_class p)))) ->
          Forall2 (fun name nv => fst nv = name /\ exists a d0 ds, dget str_eqb (p_inputs p) name = Some a /\ dget str_eqb d name = Some d0 /\
               d0 <> [] /\ Forall2 (holds_data s') d0 ds /\ load E a ds = Ok (snd nv)) names args').
        { induction 1 as [|n nv names args' (NQ & b & DB & (kb & ds & KB & NE & HD & LD & _)) H IHn]; intro SUB; [constructor|]. constructor; [|apply IHn; intros; apply SUB; now right].
          split; [exact NQ|]. exists b, (iter_set E (links_of (db s') sn kb)), ds. split; [exact DB|]. split; [|split; [|split; [exact HD|exact LD]]].
          - assert (Ib := dget_In _ str_eqb_spec _ _ _ DB). destruct (inputs_links _ _ _ _ IP Ib) as (kb' & KB' & J). rewrite GS in KB'. rewrite KB in KB'. injection KB' as <-.
            rewrite DD. rewrite Layout_Proofs.dict_of_NoDup by now apply filter_NoDup. apply (dget_NoDup _ str_eqb_spec); [now apply filter_NoDup|].
            apply filter_In. split; [exact J|]. cbn [fst]. rewrite (wh_map_inputs _ _ WH _ _ _ PA). apply existsb_exists. exists n. split; [|now apply str_eqb_spec].
            apply filter_In. split; [now apply (in_map fst) in Ib|]. apply existsb_exists. exists n. split; [apply SUB; now left|now apply str_eqb_spec].
          - destruct (links_of (db s') sn kb) as [|y l]; [congruence|]. intro Q. assert (J : In y (iter_set E (y :: l))) by (apply IT; now left). now rewrite Q in J. }
        unfold reads. now apply GO. }
      assert (CO : computes E a args dt) by (exists p, i, vs, v; auto).
      assert (ALL : forall x, In x (links_of (db s') sn key) -> pt_storage (ps_part x) = a_storage a /\ ps_key x = [] /\ ps_fp x = Some (fingerprint_for E p d) /\
                 good E R s' x /\ holds_data s' x dt).
      { intros x I. assert (L := proj2 (linked_links _ _ _ _) I). assert (NL := produced_new p i a key x PA K).
        assert (NDS : NoDup (map fst (g_arts (s_graph sn)))) by (rewrite GS; exact (io_keys _ _ IN)).
        assert (TPS : templated (g_arts (s_graph sn))) by now rewrite GS. assert (NGS : no_gaps (g_arts (s_graph sn))) by now rewrite GS.
        assert (F := build_follows E R s1 sn s' (Ok tt) B NDS TPS NGS CV). assert (T' := history_truth E IT WR R AG _ (history_then _ _ _ _ history1 F)).
        destruct (build_is V E sn) as (order & BO & BB). assert (B' := B). rewrite BB in B'.
        assert (SAME : forall q j b, produces (g_arts (s_graph sn)) q j b -> last_key (g_arts (s_graph sn)) b key -> b = a /\ q = p /\ j = i).
        { intros q j b PB LB. rewrite GS in *. apply key_of_last in LB. assert (b = a) by (eapply key_inj; [exact (io_keys _ _ IN)|exact LB|exact K]). subst b.
          destruct PB as (? & _ & PB). rewrite AO in PB. now injection PB as <- <-. }
        destruct (only_asked E IT sn NDS order s1 s' _ (history_consistent E IT R _ history1) BO TPS B' sn key x L) as [L'|(_ & q & j & b & PB & LB & XS & AA)]; [contradiction|].
        destruct (SAME _ _ _ PB LB) as (-> & -> & ->).
        assert (XX : ps_key x = [] /\ ps_fp x = Some (fingerprint_for E p d)).
        { apply input_partitions_at in IP. destruct AA as [(d' & AD' & XF)|(inputs' & IP' & M')].
          - destruct AD' as (inputs' & m' & l1 & l2 & d0 & IP' & M' & EQ & _ & DD').
            apply input_partitions_at in IP'. assert (inputs' = inputs) by (eapply inputs_at_fun; eauto). subst inputs'.
            rewrite (wh_map _ _ WH _ _ _ PA) in M'. injection M' as <-. destruct l1 as [|? l1]; [|injection EQ as _ EQ; now destruct l1].
            injection EQ as EQ1 EQ2 _. split; [now symmetry|]. rewrite XF. do 2 f_equal. now rewrite DD, DD', <- EQ2.
          - rewrite (wh_map _ _ WH _ _ _ PA) in M'. discriminate. }
        destruct XX as (XK & XF). split; [exact XS|]. split; [exact XK|]. split; [exact XF|]. split; [exact (t_links _ _ _ T' _ _ _ I)|].
        destruct (build_true E IT WR R AG s1 sn s' (Ok tt) history1 B NDS TPS NGS CV key x L NL) as (q & j & b & PB2 & LB2 & _ & _ & HD).
        destruct (SAME _ _ _ PB2 LB2) as (-> & -> & ->). apply (HD d args dt); auto. now rewrite XK. }
      assert (LAS : last_key (g_arts (s_graph sn)) a key) by (rewrite GS; now apply key_of_last).
      destruct (build_done E IT sn s1 s' tt INS) with (p := p) (i := i) (a := a) (key := key) (k := @nil ascii) (d := d) as (x & LX & _); auto; [now rewrite GS|now rewrite GS|].
      apply linked_links in LX. assert (EQ : forall y, In y (links_of (db s') sn key) <-> In y [x]).
      { intro y. split; [|intros [ <- |[]]; exact LX]. intro I. left. destruct (ALL x LX) as (X1 & X2 & X3 & X4 & _). destruct (ALL y I) as (Y1 & Y2 & Y3 & Y4 & _).
        eapply good_unique; eauto; congruence. }
      exists key, [dt]. split; [exact K|]. split; [intro Q; now rewrite Q in LX|]. split; [|split; [exact LO|intros _; exists x; rewrite (ST _ _ EQ); now apply iter_one]].
      rewrite (ST _ _ EQ), (iter_one _ E IT IO). constructor; [|constructor]. apply (ALL x LX).
    - intros inputs _. constructor.
    - intros inputs n names a v args D VA IHV A IHA SUB. constructor; [|now apply IHA]. cbn [fst snd]. split; [reflexivity|]. exists a. split; [exact D|].
      apply IHV. eapply SUB. apply (dget_In _ str_eqb_spec). exact D.
  Qed.
End Reused.

Theorem reused : forall V W N (E : env V) (X : views V W N), iterates E -> iterates_once E -> settled E -> writable E -> forall R, agree E R ->
  forall g s s1 s' sn w, in_order E (g_arts g) -> whole E (g_arts g) -> distinct_paths (g_arts g) -> no_gaps (g_arts g) -> templated (g_arts g) ->
  history E R s -> (forall key x, ~ linked s sn key x) -> from_graph E g s = (s1, Ok sn) -> all_or_none s1 (g_arts g) -> build E sn s1 = (s', Ok tt) -> covers E R sn s1 s' ->
  kept_exactly E s (g_arts g) ->
  forall p i a v, produces (g_arts g) p i a -> (forall ds, decode X w a ds = load E a ds) -> value E s a v ->
  snd (read E X g a None (Some w) (Some sn) None s') = Ok v.
Proof.
  intros V W N E X IT IO ST WR R AG g s s1 s' sn w IN WH DP NG TP HI NEW FG AN B CV KE p i a v PA DE VA.
  destruct (all_have E IT IO ST WR R AG g s s1 s' sn IN WH DP NG TP HI FG B CV AN NEW KE) as [AH _].
  assert (Ia : In a (map snd (g_arts g))) by (destruct PA as (k & Ia & _); now apply (in_map snd) in Ia).
  destruct (AH a v VA Ia) as (key & ds & K & _ & HD & LD & ONE). destruct ONE as (x & ONE); [destruct PA as (? & _ & AO); congruence|].
  rewrite ONE in HD. inversion HD as [|? d ? ds' H1 H2]; subst. inversion H2; subst.
  assert (FU : fuel s' = None).
  { assert (GS := graph_same E g s s1 sn FG). assert (H1' := history1 E R g s s1 sn HI FG).
    assert (F := build_follows E R s1 sn s' (Ok tt) B). rewrite GS in F. specialize (F (io_keys _ _ IN) TP NG CV).
    exact (t_fuel _ _ _ (history_truth E IT WR R AG _ (history_then _ _ _ _ H1' F))). }
  rewrite (read_one E X g a key w sn s' x d FU K ONE H1). now rewrite DE.
Qed.
