(** Lemmas about building a graph of producers without a map where nothing has been built. *)
From Coq Require Import ZArith List Ascii String Bool Arith Lia.
From Verif Require Import Base Base_Proofs Str Str_Proofs Graph_Model Graph_Spec Graph_Proofs Backend_Model Backend_Spec Backend_Proofs.
From Verif Require Import Executor_Model Executor_Spec Executor_Proofs Executor_Done_Proofs Executor_Build_Proofs Executor_Write_Proofs
  Executor_Store_Proofs Executor_Id_Proofs Executor_Crash_Proofs Executor_New_Proofs Executor_Stop_Proofs Executor_Restart_Proofs
  Executor_Resumed_Proofs Executor_Top_Proofs Json_Model Json_Spec Json_Exact_Proofs Access_Model Access_Spec Access_Proofs Access_Build_Proofs Whole_Model Whole_Spec.
Import ListNotations.
Open Scope list_scope.

Lemma iter_one : forall V (E : env V), iterates E -> iterates_once E -> forall x, iter_set E [x] = [x].
Proof.
  intros V E IT IO x. assert (ND : NoDup (iter_set E [x])) by (apply IO; repeat constructor; intros []).
  assert (M := IT [x]). destruct (iter_set E [x]) as [|y l]; [destruct (proj2 (M x) (or_introl eq_refl))|].
  assert (y = x) by (destruct (proj1 (M y) (or_introl eq_refl)) as [ <- |[]]; reflexivity). subst y. destruct l as [|z l]; [reflexivity|].
  exfalso. assert (z = x) by (destruct (proj1 (M z) (or_intror (or_introl eq_refl))) as [ <- |[]]; reflexivity). subst z.
  inversion ND as [|? ? N _]. apply N. now left.
Qed.
Lemma iter_nil : forall V (E : env V), iterates E -> iter_set E [] = [].
Proof. intros V E IT. destruct (iter_set E []) as [|y l] eqn:Q; [reflexivity|]. exfalso. apply (IT [] y). rewrite Q. now left. Qed.

Lemma just_before : forall A (pre rest : list A) z y, NoDup (pre ++ z :: rest) -> before (pre ++ z :: rest) y z -> In y pre.
Proof.
  intros A pre rest z y NO (u & v & w & B). assert (NB : ~ In z pre) by (intro J; apply NoDup_remove_2 in NO; apply NO, in_app_iff; now left).
  assert (NQ : ~ In z rest) by (intro J; apply NoDup_remove_2 in NO; apply NO, in_app_iff; now right).
  clear NO. revert u B NB. induction pre as [|h pre IH]; intros u B NB.
  - exfalso. destruct u as [|t u]; cbn in B.
    + injection B as _ B. apply NQ. rewrite B. apply in_app_iff. right. now left.
    + injection B as _ B. apply NQ. rewrite B. apply in_app_iff. right. right. apply in_app_iff. right. now left.
  - destruct u as [|t u]; cbn in B; injection B as Q B; [now left|]. right. eapply IH; [exact B|]. intro J. apply NB. now right.
Qed.

Section Write.
  Context {V : Type} (E : env V) (sn : snapshot).
  Notation g := (s_graph sn).
  (** The only partition of the artifact holds the value. *)
  Definition written (s : state V) (a : artifact) (v : V) : Prop :=
    exists key d x, key_of g a = Ok key /\ dump E a v = Ok d /\ links_of (db s) sn key = [x] /\ holds_data s x d /\ pt_storage (ps_part x) = a_storage a.

  Lemma written_kept : forall K T (s s' : state V) a v, frame sn K T s s' -> (forall key, key_of g a = Ok key -> ~ K key) ->
    (forall t, T t -> st_id t <> st_id (a_storage a)) -> written s a v -> written s' a v.
  Proof.
    intros K T s s' a v F NK NT (key & d & x & KO & D & L & H & S). exists key, d, x. split; [exact KO|]. split; [exact D|].
    split; [rewrite (fr_links _ _ _ _ _ F); auto|]. split; [|exact S].
    revert H. unfold holds_data. rewrite S. destruct (st_kind (a_storage a)); [|auto]. intro H. rewrite (fr_files _ _ _ _ _ F); [exact H|]. cbn. auto.
  Qed.

  Lemma write_output_frame : forall p i a f k v s s' r, write_output E sn p i a f k v s = (s', r) ->
    frame sn (fun key => key_of g a = Ok key) (fun t => t = a_storage a) s s'.
  Proof.
    intros p i a f k v s s' r W. revert W. apply within_bind_ret. intros key KO. apply within_bind; [apply within_ret|]. intros _.
    apply within_bind; [apply within_ret|]. intros _. apply within_bind_ret. intros part P. apply generate_partition_storage in P. destruct P as (P1 & _).
    apply within_bind; [apply within_io_write; now rewrite P1|]. intro x. apply within_bind; [now apply within_write_known|]. intros _. now apply within_write_links.
  Qed.

  Lemma write_output_exact : forall p i a f k v s s' r, write_output E sn p i a f k v s = (s', Ok r) ->
    (forall key, key_of g a = Ok key -> links_of (db s) sn key = []) -> written s' a v /\ check E p i a v = Ok tt.
  Proof.
    intros p i a f k v s s' r H E0. apply andthen_ok in H. destruct H as (s1 & key & K & H). apply ret_ok in K. destruct K as [-> K].
    apply andthen_ok in H. destruct H as (s1 & u1 & U1 & H). apply ret_ok in U1. destruct U1 as [-> _].
    apply andthen_ok in H. destruct H as (s1 & [] & U2 & H). apply ret_ok in U2. destruct U2 as [-> U2].
    apply andthen_ok in H. destruct H as (s1 & part & U3 & H). apply ret_ok in U3. destruct U3 as [-> P].
    apply andthen_ok in H. destruct H as (s1 & x & W & H).
    assert (FW : frame sn nothing (fun t => t = pt_storage part) s s1) by (revert W; now apply within_io_write).
    apply io_write_data in W. destruct W as (d & D & XK & XF & XS & XH & _).
    apply generate_partition_storage in P. destruct P as (P1 & P2 & P3 & _).
    apply andthen_ok in H. destruct H as (s2 & u4 & W1 & W2). apply effect_ok in W1. destruct W1 as (s3 & F3 & D3 & _ & W1). injection W1 as <-.
    apply write_links_ok in W2. destruct W2 as [W2 W3]. cbn [with_db files db] in *.
    split; [|exact U2]. exists key, d, x. split; [exact K|]. split; [exact D|]. split.
    { rewrite W2, wl_links. rewrite (proj2 (snapshot_eqb_spec _ _) eq_refl), (proj2 (str_eqb_spec _ _) eq_refl). cbn [andb].
      rewrite (links_of_same (db s1)); [|rewrite D3; apply wa_other]. rewrite (fr_links _ _ _ _ _ FW) by (right; intros []). now rewrite (E0 _ K). }
    split; [|congruence]. revert XH. rewrite !holds_content. now rewrite W3, F3.
  Qed.

  Lemma write_outputs_exact : forall p outs f k vs i s s' r, NoDup (map fst (g_arts g)) -> distinct_paths (g_arts g) -> no_gaps (g_arts g) ->
    outputs_of g p = Ok outs -> write_outputs E sn p f k i outs vs s = (s', Ok r) ->
    (forall j a key, i <= j -> nth_error outs j = Some a -> key_of g a = Ok key -> links_of (db s) sn key = []) ->
    (forall j a v, j < i -> nth_error outs j = Some a -> written s a v -> written s' a v) /\
    forall j v, nth_error vs j = Some v -> exists a, nth_error outs (i + j) = Some a /\ written s' a v /\ check E p (i + j) a v = Ok tt.
  Proof.
    intros p outs f k vs. induction vs as [|v vs IH]; intros i s s' r ND DP NG O H E0; cbn [write_outputs] in H.
    { injection H as <- _. split; [auto|]. intros [|j] v X; discriminate. }
    apply andthen_ok in H. destruct H as (s1 & a & A & H). apply ret_ok in A. destruct A as [-> A].
    destruct (nth_error outs i) as [a'|] eqn:NE; [|discriminate]. injection A as ->.
    apply andthen_ok in H. destruct H as (s1 & u & U & H). apply ret_ok in U. destruct U as [-> _].
    apply andthen_ok in H. destruct H as (s1 & u' & W & H). assert (F := write_output_frame _ _ _ _ _ _ _ _ _ W).
    assert (PO := nth_position sn p outs). assert (PA := PO i a NG O NE).
    assert (DIFF : forall j b, nth_error outs j = Some b -> j <> i -> a <> b).
    { intros j b NB NJ <-. destruct PA as (? & _ & PA). assert (PB := PO j a NG O NB). destruct PB as (? & _ & PB). congruence. }
    assert (DK : forall j b key, nth_error outs j = Some b -> j <> i -> key_of g b = Ok key -> key_of g a <> Ok key).
    { intros j b key NB NJ KB KA. apply (DIFF j b NB NJ). eapply key_inj; eauto. }
    destruct (IH (S i) s1 s' r ND DP NG O H) as [K1 K2].
    { intros j b key LE NB KB. rewrite (fr_links _ _ _ _ _ F); [apply (E0 j b); auto; lia|]. right. apply (DK j b); auto. lia. }
    assert (WA : written s1 a v /\ check E p i a v = Ok tt).
    { eapply write_output_exact; [exact W|]. intros key KA. eapply (E0 i); eauto. }
    destruct WA as [WA CA]. split.
    - intros j b w LT NB SB. apply K1 with (j := j); [lia|exact NB|].
      revert SB. apply (written_kept _ _ _ _ _ _ F); [intros key KB; apply (DK j b); auto; lia|]. intros t -> EQ.
      apply (DIFF j b NB); [lia|]. assert (PB := PO j b NG O NB). eapply DP; eauto.
    - intros [|j] w X.
      + injection X as <-. exists a. rewrite Nat.add_0_r. split; [exact NE|]. split; [apply K1 with (j := i); [lia|exact NE|exact WA]|exact CA].
      + destruct (K2 j w X) as (b & NB & SB). exists b. rewrite Nat.add_succ_r. auto.
  Qed.

  Lemma partition_exact : forall p existing f deps k s s' r, NoDup (map fst (g_arts g)) -> distinct_paths (g_arts g) -> no_gaps (g_arts g) -> ~ In k existing ->
    (forall outs a key, outputs_of g p = Ok outs -> In a outs -> key_of g a = Ok key -> links_of (db s) sn key = []) ->
    build_producer_partition E sn p existing f deps k s = (s', Ok r) ->
    exists args vs, reads E s p deps args /\ runs (classes E (p_class p)) args (Ok vs) /\ c_validate (classes E (p_class p)) vs = Ok true /\
      forall i v, nth_error vs i = Some v -> exists a, produces (g_arts g) p i a /\ written s' a v /\ check E p i a v = Ok tt.
  Proof.
    intros p existing f deps k s s' r ND DP NG NI E0 H. unfold build_producer_partition in H.
    destruct (existsb (str_eqb k) existing) eqn:EX.
    { apply existsb_exists in EX. destruct EX as (k' & I & Q). apply str_eqb_spec in Q. subst k'. contradiction. }
    apply andthen_ok in H. destruct H as (s1 & args & RA & H). assert (RO := reads_ok E sn p deps _ _ _ _ RA). apply read_args_same in RA. subst s1.
    apply andthen_ok in H. destruct H as (s1 & vs & CB & H). apply effect_ok in CB. destruct CB as (s2 & F2 & D2 & L2 & CB). injection CB as <- CB.
    apply andthen_ok in H. destruct H as (s3 & ok & CV & H). apply effect_ok in CV. destruct CV as (s4 & F4 & D4 & L4 & CV). injection CV as <- CV.
    destruct ok; [|discriminate]. apply andthen_ok in H. destruct H as (s5 & outs & O & H). apply ret_ok in O. destruct O as [-> O].
    cbn in F4, D4, L4. exists args, vs. split; [exact RO|]. split.
    { unfold runs. unfold class_of in CB. destruct (c_build (classes E (p_class p))); [|auto]. destruct (f0 args); cbn in CB; congruence. }
    split; [exact CV|]. intros i v NV. destruct (write_outputs_exact p outs f k vs 0 _ _ _ ND DP NG O H) as [_ W].
    { intros j a key _ NA KA. cbn [with_log db]. rewrite D4, D2. eapply E0; eauto. eapply nth_error_In; eauto. }
    destruct (W i v NV) as (a & NA & ST). exists a. split; [|auto]. eapply nth_position; eauto.
  Qed.
End Write.

Section Fresh.
  Context {V : Type} (E : env V) (IT : iterates E) (IO : iterates_once E) (sn : snapshot).
  Notation g := (s_graph sn).
  Notation link_all found := (eachM (fun al => key <- ret (key_of g (fst al)) ;; write_links sn key (snd al)) found).

  Lemma link_nothing : forall (found : list (artifact * list psnapshot)) (s s' : state V) r, (forall al, In al found -> snd al = []) ->
    link_all found s = (s', Ok r) -> forall sn' k, links_of (db s') sn' k = links_of (db s) sn' k.
  Proof.
    induction found as [|al found IH]; intros s s' r N H sn' k; cbn [eachM] in H.
    - apply ret_ok in H. now destruct H as [-> _].
    - apply andthen_ok in H. destruct H as (s1 & u & H1 & H2). apply andthen_ok in H1. destruct H1 as (s2 & key & K & W).
      apply ret_ok in K. destruct K as [-> K]. rewrite (IH _ _ _ (fun al I => N al (or_intror I)) H2). apply write_links_ok in W. destruct W as [-> _].
      rewrite (N al (or_introl eq_refl)), wl_links. destruct (_ && _)%bool eqn:Q; [|reflexivity]. apply andb_true_iff in Q. destruct Q as [Q1 Q2].
      apply snapshot_eqb_spec in Q1. apply str_eqb_spec in Q2. now subst.
  Qed.

  (** Nothing is found where nothing is. *)
  Lemma nothing_found : forall (s : state V) t fps found, st_templated t = true -> fps <> [] -> (forall k f, dget location_eqb (files s) (st_id t, k, Some f) = None) ->
    discover E (files s) t fps = Ok found -> found = [].
  Proof.
    intros s t fps found T NF N H. destruct (st_kind t) as [|v] eqn:SK.
    - destruct (discover_file E (files s) t fps SK T) as (found' & H' & FF). rewrite H in H'. injection H' as <-.
      destruct found as [|x found]; [reflexivity|]. destruct (proj1 (FF x) (or_introl eq_refl)) as (k & f & d & _ & _ & D & _). now rewrite N in D.
    - revert H. unfold discover. rewrite SK. destruct fps; [congruence|]. cbn [is_nil negb]. destruct v; [discriminate|]. cbn [is_some andb].
      rewrite Bool.andb_false_r. now intros [= <-].
  Qed.

  Lemma discover_nothing : forall p fps s s' existing, fps <> [] ->
    (forall outs a, outputs_of g p = Ok outs -> In a outs -> st_templated (a_storage a) = true /\ dmem storage_eqb (known (db s)) (a_storage a) = false /\
       forall k f, dget location_eqb (files s) (st_id (a_storage a), k, Some f) = None) ->
    discover_producer_partitions E sn p fps s = (s', Ok existing) ->
    existing = [] /\ files s' = files s /\ forall sn' k, links_of (db s') sn' k = links_of (db s) sn' k.
  Proof.
    intros p fps s s' existing NF N H. apply andthen_ok in H. destruct H as (s1 & outs & O & H). apply ret_ok in O. destruct O as [-> O].
    apply andthen_ok in H. destruct H as (s1 & found & C & H). apply andthen_ok in H. destruct H as (s2 & u & L & H).
    apply ret_ok in H. destruct H as [-> H]. injection H as <-.
    destruct (collect_known_ok E sn _ _ _ _ _ C) as (-> & CA & CL & CF).
    assert (EM : forall al, In al (map (fun a => (a, iter_set E (select fps (known_of (db s1) (a_storage a))))) outs) -> snd al = []).
    { intros al I. apply in_map_iff in I. destruct I as (a & <- & I). cbn [snd]. destruct (CA a I) as [_ F]. destruct (N outs a O I) as (T & M & NFi).
      unfold finds in F. rewrite M in F. destruct F as (fd & D & ->). rewrite (nothing_found _ _ _ _ T NF NFi D). cbn [adds fold_left].
      assert (SN : select fps [] = []) by (destruct fps; reflexivity). rewrite SN. now apply iter_nil. }
    split; [|split].
    - assert (FM : flat_map snd (map (fun a => (a, iter_set E (select fps (known_of (db s1) (a_storage a))))) outs) = []); [|now rewrite FM].
      revert EM. generalize (map (fun a => (a, iter_set E (select fps (known_of (db s1) (a_storage a))))) outs). intro l.
      induction l as [|al l IH]; intro EM; [reflexivity|]. cbn [flat_map]. rewrite (EM al (or_introl eq_refl)). apply IH. intros; apply EM; now right.
    - destruct (link_all_ok sn _ _ _ _ L) as (_ & LF & _). congruence.
    - intros sn' k. rewrite (link_nothing _ _ _ _ EM L). unfold links_of. now rewrite CL.
  Qed.

  Context (W : in_order E (g_arts g)) (WH : whole E (g_arts g)) (DP : distinct_paths (g_arts g)) (NG : no_gaps (g_arts g))
    (TP : templated (g_arts g)) (s0 : state V) (SV : survives E s0 (g_arts g)).

  Record inv (s0 : state V) (pre : list node) (s : state V) : Prop := {
    iv_raw : forall a key x, a_output a = None -> key_of g a = Ok key -> (In x (links_of (db s) sn key) <-> raw_found E s0 (a_storage a) x);
    iv_files : forall i k, dget location_eqb (files s) (i, k, None) = dget location_eqb (files s0) (i, k, None);
    iv_done : forall p i a, produces (g_arts g) p i a -> In (NProducer p) pre -> exists v, value E s0 a v /\ written E sn s a v /\
      forall d, dump E a v = Ok d -> load E a [d] = Ok v;
    iv_made : forall p i a, produces (g_arts g) p i a -> In (NProducer p) pre -> makes E s0 (g_arts g) p;
    iv_todo : forall p i a, produces (g_arts g) p i a -> ~ In (NProducer p) pre -> dmem storage_eqb (known (db s)) (a_storage a) = false /\
      (forall k f, dget location_eqb (files s) (st_id (a_storage a), k, Some f) = None) /\
      forall key, key_of g a = Ok key -> links_of (db s) sn key = [] }.

  Lemma whole_deps : forall p i a inputs deps fps, produces (g_arts g) p i a -> compute_dependencies E p inputs = Ok (deps, fps) ->
    exists d f, deps = [([], d)] /\ fps = [([], Some f)] /\ forall n l, dget str_eqb d n = Some l -> In (n, l) inputs.
  Proof.
    intros p i a inputs deps fps PR H. unfold compute_dependencies, class_of in H. rewrite (wh_map _ _ WH _ _ _ PR) in H. cbn in H.
    destruct (input_fingerprint E p _) as [f|e]; [|discriminate]. cbn in H. injection H as <- <-. eexists _, f. split; [reflexivity|]. split; [reflexivity|].
    intros n l D. apply (dget_In _ str_eqb_spec) in D. apply dict_of_In in D. now apply filter_In in D.
  Qed.

  Lemma read_arguments : forall pre s q inputs deps names args,
    (forall n a key, In (n, a) (p_inputs q) -> key_of g a = Ok key -> forall p i, a_output a = Some (p, i) -> In (NProducer p) pre) -> NoDup (map fst (p_inputs q)) ->
    inv s0 pre s -> inputs_at E sn (db s) (p_inputs q) inputs -> (forall n l, dget str_eqb deps n = Some l -> In (n, l) inputs) ->
    Forall2 (fun name nv => fst nv = name /\ exists a d ds, dget str_eqb (p_inputs q) name = Some a /\ dget str_eqb deps name = Some d /\
               d <> [] /\ Forall2 (holds_data s) d ds /\ load E a ds = Ok (snd nv)) names args ->
    arguments E s0 (p_inputs q) names args.
  Proof.
    intros pre s q inputs deps names args PRE ND IV IA DI F. induction F as [|n [n' v] names args (NQ & a & d & ds & DA & DD & NE & HD & LD) F IH]; [constructor|].
    cbn [fst snd] in *. subst n'. assert (Ia := dget_In _ str_eqb_spec _ _ _ DA). apply DI in DD.
    assert (KL : exists key, key_of g a = Ok key /\ d = iter_set E (links_of (db s) sn key)).
    { clear - IA DD Ia ND. induction IA as [|[n1 a1] nl l inputs (key & K & ->) IA IH]; [destruct DD|]. cbn [fst snd map] in *.
      inversion ND as [|? ? N1 N2]; subst. destruct Ia as [Ia|Ia], DD as [DD|DD].
      - injection Ia as -> ->. injection DD as <-. eauto.
      - exfalso. injection Ia as -> ->. apply N1. clear - IA DD. induction IA as [|na nl l inputs (key & _ & ->) IA IH]; [destruct DD|].
        destruct DD as [DD|DD]; [left; now injection DD|right; auto].
      - exfalso. injection DD as -> <-. apply N1. now apply (in_map fst) in Ia.
      - auto. }
    destruct KL as (key & K & ->). eapply arguments_more; [exact DA| |exact IH].
    destruct (a_output a) as [[p i]|] eqn:AO.
    - assert (PA : produces (g_arts g) p i a) by (exists key; split; [now apply key_of_In|exact AO]).
      destruct (iv_done _ _ _ IV p i a PA (PRE _ _ _ Ia K _ _ AO)) as (v' & VA & (key' & d' & x & K' & D' & L & H & S) & LV).
      rewrite K in K'. injection K' as <-. rewrite L, (iter_one _ E IT IO) in HD. inversion HD as [|? y ? ds' H1 H2]; subst. inversion H2; subst.
      assert (y = d'). { revert H H1. rewrite !holds_content. congruence. } subst y.
      rewrite (LV _ D') in LD. injection LD as <-. exact VA.
    - eapply value_raw; [exact AO| | |exact LD].
      + intro x. apply (iv_raw _ _ _ IV a key x AO K).
      + assert (HX : forall x, In x (iter_set E (links_of (db s) sn key)) -> forall d, holds_data s x d -> holds_data s0 x d).
        { intros x I d HH. apply (proj1 (IT _ _)) in I. apply (iv_raw _ _ _ IV a key x AO K) in I. destruct I as [_ I]. revert HH. unfold holds_data.
          destruct (st_kind (a_storage a)) eqn:SK.
          - destruct I as (k & d0 & _ & _ & ->). cbn. rewrite SK. now rewrite (iv_files _ _ _ IV).
          - destruct I as (d0 & _ & _ & ->). cbn. rewrite SK. auto. }
        clear - HD HX. induction HD as [|x d l ds H HD IH]; constructor; [apply HX; [now left|exact H]|]. apply IH. intros y I. apply HX. now right.
  Qed.

  Lemma producer_step : forall pre rest q s s' r, build_order (dependencies (g_arts g)) (pre ++ NProducer q :: rest) -> inv s0 pre s ->
    build_producer E sn q s = (s', Ok r) -> inv s0 (pre ++ [NProducer q]) s'.
  Proof.
    intros pre rest q s s' r BO IV H. assert (F := within_build_producer E sn q _ _ _ H). assert (H0 := H).
    assert (TM : forall i k, dget location_eqb (files s') (i, k, None) = dget location_eqb (files s) (i, k, None)).
    { assert (T : tame (build_producer E sn q)).
      { apply tame_bind; [apply tame_keeps, keeps_get_inputs|]. intro inputs. apply tame_bind; [apply tame_ret|]. intro df.
        apply tame_bind; [apply tame_keeps, keeps_discover|]. intro existing. apply tame_each. intro kd. apply tame_bind; [apply tame_ret|]. intro f. apply tame_build_partition. }
      apply (T _ _ _ H). }
    destruct BO as (NDO & BV & BB). assert (NQ : ~ In (NProducer q) pre) by (intro I; apply NoDup_remove_2 in NDO; apply NDO, in_app_iff; now left).
    assert (KOUT : forall a key, key_of g a = Ok key -> out_key sn q key -> exists i, produces (g_arts g) q i a).
    { intros a key K OK. destruct (input_not_out sn q a key (io_keys _ _ W) K OK) as (i & AO). exists i, key. split; [now apply key_of_In|exact AO]. }
    assert (OUTS : exists outs o, outputs_of g q = Ok outs /\ In o outs).
    { apply andthen_ok in H. destruct H as (s1 & inputs & GI & H). apply andthen_ok in H. destruct H as (s2 & df & CD & H). apply andthen_ok in H.
      destruct H as (s3 & existing & DI & H). destruct (discover_ok E IT sn _ _ _ _ _ DI) as (outs & O & _). assert (SP := outputs_of_spec g q). rewrite O in SP.
      destruct SP as [NE _]. destruct outs as [|o outs]; [congruence|]. exists (o :: outs), o. split; [exact O|now left]. }
    destruct OUTS as (outs & o & O & Io). destruct (out_produced _ _ _ _ O Io) as (jo & PO).
    assert (PRE : forall n a key, In (n, a) (p_inputs q) -> key_of g a = Ok key -> forall p i, a_output a = Some (p, i) -> In (NProducer p) pre).
    { intros n a key Ia K p i AO. destruct PO as (kk & Ik & AOo).
      assert (B1 := BB _ _ (proj2 (dependencies_needs _ _ _) (needs_input _ _ _ _ _ _ _ Ik AOo Ia))).
      assert (B2 := BB _ _ (proj2 (dependencies_needs _ _ _) (needs_producer _ _ _ _ _ (key_of_In _ _ _ K) AO))).
      apply just_before in B1; [|exact NDO]. eapply before_prefix in B2; [exact B2|exact NDO|exact B1]. }
    apply andthen_ok in H. destruct H as (s1 & inputs & GI & H). apply andthen_ok in H.
    destruct H as (s2 & [deps fps] & CD & H). apply ret_ok in CD. destruct CD as [-> CD]. apply andthen_ok in H.
    destruct H as (s2 & existing & DI & H). cbn [fst snd] in *.
    destruct (get_inputs_ok E sn _ _ _ _ GI) as (G1 & G2 & G3 & G4 & G5).
    destruct (whole_deps _ _ _ _ _ _ PO CD) as (d & f & -> & -> & DD).
    assert (TODO : forall outs' a, outputs_of g q = Ok outs' -> In a outs' -> exists i, produces (g_arts g) q i a).
    { intros outs' a O' I. eapply out_produced; eauto. }
    destruct (discover_nothing q _ _ _ _ (ltac:(discriminate) : [([], Some f)] <> []) (ltac:(
      intros outs' a O' I; destruct (TODO outs' a O' I) as (i & PA); destruct (iv_todo _ _ _ IV q i a PA NQ) as (T1 & T2 & _);
      rewrite G4, G5; split; [exact (TP _ _ _ PA)|]; split; [exact T1|exact T2])) DI) as (-> & F2 & L2).
    cbn [eachM fst snd] in H. apply andthen_ok in H. destruct H as (s3 & u & H & H1). apply ret_ok in H1. destruct H1 as [-> _].
    apply andthen_ok in H. destruct H as (s4 & f' & GF & H). apply ret_ok in GF. destruct GF as [-> GF].
    destruct (partition_exact E sn q [] f' d [] _ _ _ (io_keys _ _ W) DP NG (fun x => x) (ltac:(
      intros outs' a key O' I K; destruct (TODO outs' a O' I) as (i & PA); destruct (iv_todo _ _ _ IV q i a PA NQ) as (_ & _ & T3);
      rewrite L2, G3; now apply T3)) H) as (args & vs & RD & RU & CV & WR).
    assert (AR : arguments E s0 (p_inputs q) (c_build_inputs (classes E (p_class q))) args).
    { eapply (read_arguments pre s q inputs d); eauto; [exact (wh_inputs _ _ WH _ _ _ PO)|].
      unfold reads in RD. eapply Forall2_impl; [|exact RD]. cbn beta. intros name nv (N1 & a & dl & ds & A1 & A2 & A3 & A4 & A5).
      split; [exact N1|]. exists a, dl, ds. repeat split; auto. eapply Forall2_impl; [|exact A4]. intros x y. rewrite !holds_content. now rewrite F2, G5. }
    assert (NK : forall a, (forall i, ~ produces (g_arts g) q i a) -> forall key, key_of g a = Ok key -> ~ out_key sn q key).
    { intros a NP key K OK. destruct (KOUT a key K OK) as (i & PA). exact (NP i PA). }
    constructor.
    - intros a key x AO K. rewrite (fr_links _ _ _ _ _ F); [apply (iv_raw _ _ _ IV a key x AO K)|]. right. apply (NK a); [|exact K].
      intros i (? & _ & AO'). congruence.
    - intros i k. rewrite TM. apply (iv_files _ _ _ IV).
    - intros p i a PA I. apply in_app_iff in I. destruct I as [I|[I|[]]].
      + assert (NP : forall j, ~ produces (g_arts g) q j a).
        { intros j (? & _ & A2). destruct PA as (? & _ & A1). rewrite A1 in A2. injection A2 as -> _. contradiction. }
        destruct (iv_done _ _ _ IV p i a PA I) as (v & VA & WA & LV). exists v. split; [exact VA|]. split; [|exact LV].
        revert WA. apply (written_kept E sn _ _ _ _ _ _ F); [now apply NK|]. intros t (outs' & b & O' & Ib & <-) EQ.
        destruct (TODO _ _ O' Ib) as (j & PB). assert (b = a) by (eapply DP; eauto). subst b. exact (NP j PB).
      + injection I as <-. assert (LT := io_declared _ _ W _ _ _ PA). rewrite <- (io_returns _ _ W _ _ _ _ _ PA RU) in LT.
        destruct (nth_error vs i) as [v|] eqn:NV; [|apply nth_error_None in NV; lia].
        destruct (WR i v NV) as (a' & PA' & WA & _). assert (a' = a) by (eapply (io_positions _ _ W); eauto). subst a'.
        exists v. split; [|split; [exact WA|]].
        * eapply value_built; eauto. now destruct PA as (? & _ & PA).
        * intros d' D'. eapply SV; eauto.
    - intros p i a PA I. apply in_app_iff in I. destruct I as [I|[I|[]]]; [exact (iv_made _ _ _ IV p i a PA I)|]. injection I as <-.
      exists args, vs. split; [exact AR|]. split; [exact RU|]. split; [exact CV|]. intros j b v PB NV. destruct (WR j v NV) as (b' & PB' & WB & CB).
      assert (b' = b) by (eapply (io_positions _ _ W); eauto). subst b'. split; [exact CB|]. destruct WB as (? & d' & ? & _ & D' & _). eauto.
    - intros p i a PA NI. assert (NE : p <> q) by (intros ->; apply NI, in_app_iff; right; now left).
      assert (NP : forall j, ~ produces (g_arts g) q j a).
      { intros j (? & _ & A2). destruct PA as (? & _ & A1). rewrite A1 in A2. injection A2 as -> _. congruence. }
      assert (NS : forall t, out_storage sn q t -> st_id t <> st_id (a_storage a)).
      { intros t (outs' & b & O' & Ib & <-) EQ. destruct (TODO _ _ O' Ib) as (j & PB). assert (b = a) by (eapply DP; eauto). subst b. exact (NP j PB). }
      destruct (iv_todo _ _ _ IV p i a PA) as (T1 & T2 & T3); [intro; apply NI, in_app_iff; now left|]. split; [|split].
      + apply Bool.not_true_is_false. intro M. apply (dmem_dget (db s3)) in M. rewrite (fr_known _ _ _ _ _ F) in M.
        * apply dmem_dget in M. congruence.
        * intro OS. exact (NS _ OS eq_refl).
      + intros k f0. rewrite (fr_files _ _ _ _ _ F); [apply T2|]. cbn. exact NS.
      + intros key K. rewrite (fr_links _ _ _ _ _ F); [now apply T3|]. right. now apply (NK a).
  Qed.

  Lemma inv_artifact : forall pre a s, inv s0 pre s -> inv s0 (pre ++ [NArtifact a]) s.
  Proof.
    intros pre a s [I1 I2 I3 I5 I4]. constructor; auto.
    - intros p i b PB I. apply (I3 p i b PB). apply in_app_iff in I. destruct I as [I|[I|[]]]; [exact I|discriminate].
    - intros p i b PB I. apply (I5 p i b PB). apply in_app_iff in I. destruct I as [I|[I|[]]]; [exact I|discriminate].
    - intros p i b PB NI. apply (I4 p i b PB). intro I. apply NI, in_app_iff. now left.
  Qed.
  Lemma nodes_inv : forall rest pre s s' r, build_order (dependencies (g_arts g)) (pre ++ rest) -> inv s0 pre s ->
    build_nodes E sn rest s = (s', Ok r) -> inv s0 (pre ++ rest) s'.
  Proof.
    induction rest as [|n rest IH]; intros pre s s' r BO IV H; cbn [build_nodes eachM] in H.
    - apply ret_ok in H. destruct H as [-> _]. now rewrite app_nil_r.
    - apply andthen_ok in H. destruct H as (s1 & u & H1 & H2). replace (pre ++ n :: rest) with ((pre ++ [n]) ++ rest) in * by now rewrite <- app_assoc.
      apply (IH (pre ++ [n]) s1 s' r BO); [|exact H2]. destruct n as [a|q].
      + apply ret_ok in H1. destruct H1 as [-> _]. now apply inv_artifact.
      + eapply (producer_step pre rest); [rewrite <- app_assoc in BO; exact BO|exact IV|exact H1].
  Qed.
End Fresh.

Lemma start_inv : forall V (E : env V) g s s1 sn, in_order E (g_arts g) -> templated (g_arts g) -> unbuilt (g_arts g) s ->
  from_graph E g s = (s1, Ok sn) -> inv E sn s [] s1.
Proof.
  intros V E g s s1 sn W TP (U1 & U2 & U3) FG. destruct (snapshot_links E g s s1 sn FG) as (GS & FS & RW & LK & KN). rewrite <- GS in *.
  assert (NL : forall sn'' key x, ~ linked s sn'' key x).
  { intros sn'' key x L. apply linked_links in L. rewrite U1 in L. exact L. }
  constructor.
  - intros b key x AO K. rewrite <- linked_links. rewrite LK. split.
    + intros [L|(_ & b' & LB & _ & R)]; [destruct (NL _ _ _ L)|]. apply key_of_last in LB.
      assert (b' = b) by (eapply key_inj; [exact (io_keys _ _ W)|exact LB|exact K]). now subst b'.
    + intro R. right. split; [reflexivity|]. exists b. split; [now apply key_of_last|]. auto.
  - intros j k. now rewrite FS.
  - intros q j b _ [].
  - intros q j b _ [].
  - intros q j b PB _. split; [|split].
    + unfold dmem. rewrite (from_graph_known E _ s s1 sn _ FG (TP _ _ _ PB)), U1. reflexivity.
    + intros k f. rewrite FS. eapply U3; eauto.
    + intros key K. destruct (links_of (db s1) sn key) as [|x l] eqn:Q; [reflexivity|]. exfalso.
      assert (L : linked s1 sn key x) by (apply linked_links; rewrite Q; now left). apply LK in L.
      destruct L as [L|(_ & b' & LB & AO & _)]; [destruct (NL _ _ _ L)|]. apply key_of_last in LB.
      assert (b' = b) by (eapply key_inj; [exact (io_keys _ _ W)|exact LB|exact K]). subst b'. destruct PB as (? & _ & PB). congruence.
Qed.

Theorem graph_built : forall V (E : env V), iterates E -> iterates_once E -> forall g s s' sn,
  in_order E (g_arts g) -> whole E (g_arts g) -> distinct_paths (g_arts g) -> no_gaps (g_arts g) -> templated (g_arts g) -> survives E s (g_arts g) ->
  unbuilt (g_arts g) s -> graph_build E g s = (s', Ok sn) ->
  s_graph sn = g /\ forall p i a, produces (g_arts g) p i a -> makes E s (g_arts g) p /\
    exists v, value E s a v /\ written E sn s' a v /\ forall d, dump E a v = Ok d -> load E a [d] = Ok v.
Proof.
  intros V E IT IO g s s' sn W WH DP NG TP SV UB H. apply andthen_ok in H. destruct H as (s1 & sn' & FG & H).
  apply andthen_ok in H. destruct H as (s2 & u & B & H). apply ret_ok in H. destruct H as [-> H]. injection H as <-.
  assert (IV := start_inv V E g s s1 sn' W TP UB FG). destruct (snapshot_links E g s s1 sn' FG) as (GS & _).
  split; [exact GS|]. intros p i a PA. rewrite <- GS in *.
  destruct (build_is V E sn') as (order & BO & EQ). rewrite EQ in B.
  assert (IV' := nodes_inv E IT IO sn' W WH DP NG TP s SV order [] s1 s2 u BO IV B). assert (IO' : In (NProducer p) order) by (eapply out_in_order; eauto).
  split; [exact (iv_made _ _ _ _ _ IV' p i a PA IO')|exact (iv_done _ _ _ _ _ IV' p i a PA IO')].
Qed.

(** * Values are unique *)
Scheme value_ind' := Induction for value Sort Prop with arguments_ind' := Induction for arguments Sort Prop.
Combined Scheme value_arguments_ind from value_ind', arguments_ind'.

Lemma holds_fun : forall V (s : state V) xs ds ds', Forall2 (holds_data s) xs ds -> Forall2 (holds_data s) xs ds' -> ds = ds'.
Proof.
  intros V s xs ds ds' H. revert ds'. induction H as [|x d xs ds H HS IH]; intros ds' H'; inversion H' as [|? d' ? ds'' H1 H2]; subst; [reflexivity|].
  rewrite holds_content in H, H1. f_equal; [congruence|]. now apply IH.
Qed.
Lemma runs_fun : forall V (c : pclass V) args r r', runs c args r -> runs c args r' -> r = r'.
Proof. intros V c args r r'. unfold runs. destruct (c_build c); congruence. Qed.
Lemma values_unique : forall V (E : env V) s, settled E ->
  (forall a v, value E s a v -> forall v', value E s a v' -> v' = v) /\
  (forall inputs names args, arguments E s inputs names args -> forall args', arguments E s inputs names args' -> args' = args).
Proof.
  intros V E s ST. apply (value_arguments_ind V E s (fun a v _ => forall v', value E s a v' -> v' = v)
    (fun inputs names args _ => forall args', arguments E s inputs names args' -> args' = args)).
  - intros a parts ds v AO P H L v' H'. inversion H' as [? parts' ds' ? AO' P' HD' L'|? ? ? ? ? ? AO']; subst; [|congruence].
    assert (EQ : iter_set E parts' = iter_set E parts) by (apply ST; intro x; rewrite P, P'; reflexivity). rewrite EQ in HD'.
    rewrite (holds_fun _ _ _ _ _ HD' H) in L'. congruence.
  - intros a p i args vs v AO A IH R N v' H'. inversion H' as [? ? ? ? AO'|? p' i' args' vs' ? AO' A' R' N']; subst; [congruence|].
    rewrite AO in AO'. injection AO' as <- <-. rewrite (IH _ A') in R'. assert (Q := runs_fun _ _ _ _ _ R' R). congruence.
  - intros inputs args' H'. now inversion H'.
  - intros inputs n names a v args D VA IHV A IHA args' H'. inversion H' as [|? ? ? a' v' args'' D' VA' A']; subst. rewrite D in D'. injection D' as <-.
    now rewrite (IHV _ VA'), (IHA _ A').
Qed.
Theorem one_value : forall V (E : env V) s, settled E -> forall a v v', value E s a v -> value E s a v' -> v = v'.
Proof. intros V E s ST a v v' H H'. symmetry. eapply (proj1 (values_unique V E s ST)); eauto. Qed.

(** * Reading what was built *)
Section Read.
  Context {V W N : Type} (E : env V) (X : views V W N) (IT : iterates E) (IO : iterates_once E).
  Lemma graph_build_fuel : forall g (s s' : state V) r, fuel s = None -> graph_build E g s = (s', r) -> fuel s' = None.
  Proof.
    intros g s s' r F H. unfold graph_build in H. unfold andthen in H. destruct (from_graph E g s) as [s1 [sn|e]] eqn:FG.
    - assert (F1 := from_graph_fuel E _ _ _ _ F FG). destruct (build E sn s1) as [s2 [u|e]] eqn:B.
      + assert (B' := B). rewrite <- (lim_none s1 F1) in B'. destruct (splits_build E sn s1 0%nat _ _ B') as [F2 _]. now injection H as <- _.
      + assert (B' := B). rewrite <- (lim_none s1 F1) in B'. destruct (splits_build E sn s1 0%nat _ _ B') as [F2 _]. now injection H as <- _.
    - injection H as <- _. eapply from_graph_fuel; eauto.
  Qed.
  Lemma read_one : forall g a key w sn (s : state V) x d, fuel s = None -> key_of g a = Ok key -> iter_set E (links_of (db s) sn key) = [x] -> holds_data s x d ->
    snd (read E X g a None (Some w) (Some sn) None s) = decode X w a [d].
  Proof.
    intros g a key w sn s x d F K L H. rewrite (read_step E X _ _ _ _ _ _ _ K).
    assert (R : partitions_to_read E g key a (Some sn) None s = read_links E sn key s) by (unfold partitions_to_read; destruct (a_output a); reflexivity).
    rewrite R. clear R. unfold read_links, effect, andthen. rewrite (tick_none _ F).
    assert (SP := rl_spec (db s) sn key). destruct (read_snapshot_partitions (db s) sn key) as [b l] eqn:Q. destruct SP as (-> & _).
    rewrite L. unfold io_read. cbn [List.length Nat.ltb Nat.leb andb mapM with_db files snd]. apply holds_content in H. rewrite H. reflexivity.
  Qed.
End Read.

Theorem computed : forall V W N (E : env V) (X : views V W N), iterates E -> iterates_once E -> forall g s s' sn w,
  in_order E (g_arts g) -> whole E (g_arts g) -> distinct_paths (g_arts g) -> no_gaps (g_arts g) -> templated (g_arts g) -> survives E s (g_arts g) ->
  unbuilt (g_arts g) s -> graph_build E g s = (s', Ok sn) ->
  forall p i a, produces (g_arts g) p i a -> (forall ds, decode X w a ds = load E a ds) ->
  exists v, value E s a v /\ snd (read E X g a None (Some w) (Some sn) None s') = Ok v /\
    (NoDup (map fst (files s)) -> snd (read E X g a None (Some w) None None s') = Ok v).
Proof.
  intros V W N E X IT IO g s s' sn w IN WH DP NG TP SV UB H p i a PA DE.
  destruct (graph_built V E IT IO g s s' sn IN WH DP NG TP SV UB H) as (GS & B). destruct (B p i a PA) as (_ & v & VA & (key & d & x & K & D & L & HD & S) & LV).
  exists v. split; [exact VA|]. assert (R : snd (read E X g a None (Some w) (Some sn) None s') = Ok v).
  { rewrite (read_one E X g a key w sn s' x d); auto; [rewrite DE; auto| |now rewrite GS in K|rewrite L; now apply iter_one].
    destruct UB as (_ & F & _). eapply graph_build_fuel; eauto. }
  split; [exact R|]. intro ND. rewrite <- R. destruct PA as (k & Ia & AO). destruct UB as (_ & F & _).
  eapply read_built; eauto; [exact (io_keys _ _ IN)|now apply (in_map snd) in Ia|congruence].
Qed.

(** * Stored as JSON *)
Lemma json_survives : forall fl (E : env (Json_Model.value fl)) s g, float_laws fl -> stores_json E ->
  (forall p i a, produces g p i a -> st_partitioned (a_storage a) = false) -> returns_json E s g -> survives E s g.
Proof.
  intros fl E s g LW SJ UP RJ p i a args vs v d P AR R N D. destruct (RJ _ _ _ _ _ _ P AR R N) as (F & U). destruct (SJ a v) as (DU & LO).
  apply (kept_iff LW v U) in F. destruct F as (c & C & L). rewrite DU in D. assert (c = d) by congruence. subst c.
  rewrite LO. unfold json_load. now rewrite (UP _ _ _ P).
Qed.
Theorem computed_json : forall fl (E : env (Json_Model.value fl)), float_laws fl -> stores_json E -> iterates E -> iterates_once E ->
  forall W N (X : views (Json_Model.value fl) W N) g s s' sn w,
  in_order E (g_arts g) -> whole E (g_arts g) -> distinct_paths (g_arts g) -> no_gaps (g_arts g) -> templated (g_arts g) ->
  (forall p i a, produces (g_arts g) p i a -> st_partitioned (a_storage a) = false) -> returns_json E s (g_arts g) ->
  unbuilt (g_arts g) s -> graph_build E g s = (s', Ok sn) ->
  forall p i a, produces (g_arts g) p i a -> (forall ds, decode X w a ds = json_load a ds) ->
  exists v, value E s a v /\ snd (read E X g a None (Some w) (Some sn) None s') = Ok v.
Proof.
  intros fl E LW SJ IT IO W N X g s s' sn w IN WH DP NG TP UP RJ UB H p i a PA DE.
  destruct (computed _ _ _ E X IT IO g s s' sn w IN WH DP NG TP (json_survives fl E s _ LW SJ UP RJ) UB H p i a PA) as (v & VA & R & _); [|eauto].
  intro ds. rewrite DE. destruct (SJ a VNone) as (_ & ->). reflexivity.
Qed.
