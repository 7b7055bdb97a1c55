(** Resuming a build in the same process. *)
From Coq Require Import ZArith List Ascii String Bool Arith Lia.
From Verif Require Import Base Base_Proofs Str Str_Proofs Graph_Model Graph_Spec Graph_Proofs.
From Verif Require Import Backend_Model Backend_Spec Backend_Proofs Executor_Model Executor_Spec Executor_Proofs.
From Verif Require Import Executor_Done_Proofs Executor_Build_Proofs Executor_Link_Proofs Executor_Crash_Proofs.
Import ListNotations.
Open Scope list_scope.

Lemma dset_twice : forall K A (eqb : K -> K -> bool), (forall x y, eqb x y = true <-> x = y) -> forall (d : list (K * A)) k v w,
  dset eqb (dset eqb d k v) k w = dset eqb d k w.
Proof.
  intros K A eqb S. induction d as [|[k' x] d IH]; intros k v w; cbn [dset].
  - cbn. now rewrite (proj2 (S k k) eq_refl).
  - destruct (eqb k' k) eqn:Q; cbn [dset]; rewrite Q; [reflexivity|]. now rewrite IH.
Qed.

Section Partition.
  Context {V : Type} (E : env V) (sn : snapshot) (q : producer) (a : artifact).
  Notation g := (s_graph sn).
  Notation args_of := (collect_args E sn q).

  (** Reading the arguments changes nothing and depends on the partitions' data only. *)
  Lemma io_read_same : forall b l (s s' : state V), (forall x, In x l -> content (files s) (ps_part x) = content (files s') (ps_part x)) ->
    snd (io_read E b l s) = snd (io_read E b l s').
  Proof.
    intros b l s s' H. unfold io_read. cbn [snd]. destruct l as [|x l]; [reflexivity|]. remember (x :: l) as l0 eqn:L0. clear L0 x l.
    destruct ((1 <? List.length l0) && negb (st_partitioned (a_storage b)))%bool; [reflexivity|]. f_equal.
    induction l0 as [|x l0 IH]; [reflexivity|]. cbn [mapM]. rewrite (H x (or_introl eq_refl)).
    rewrite IH by (intros y I; apply H; now right). reflexivity.
  Qed.
  Lemma args_pure : forall d (s : state V), exists r, args_of d s = (s, r) /\
    forall s', (forall n l x, In (n, l) d -> In x l -> content (files s) (ps_part x) = content (files s') (ps_part x)) -> args_of d s' = (s', r).
  Proof.
    intros d s. unfold collect_args. induction (c_build_inputs (class_of E q)) as [|name l IH].
    - exists (Ok []). split; [reflexivity|]. intros; reflexivity.
    - cbn [collectM]. destruct IH as (r & H & IH). unfold andthen, ret, read_input. unfold andthen, ret in H, IH |- *.
      destruct (dget str_eqb (p_inputs q) name) as [b|]; [|exists (Err KeyError); split; [reflexivity|intros; reflexivity]].
      destruct (dget str_eqb d name) as [ps|] eqn:D; [|exists (Err KeyError); split; [reflexivity|intros; reflexivity]].
      destruct (key_of g b) as [key|e]; [|exists (Err e); split; [reflexivity|intros; reflexivity]].
      change (io_read E b ps s) with (s, snd (io_read E b ps s)).
      assert (SAME : forall s', (forall n l x, In (n, l) d -> In x l -> content (files s) (ps_part x) = content (files s') (ps_part x)) ->
                     io_read E b ps s' = (s', snd (io_read E b ps s))).
      { intros s' X. change (io_read E b ps s') with (s', snd (io_read E b ps s')). f_equal. symmetry. apply io_read_same.
        intros x I. eapply X; [|exact I]. apply (dget_In _ str_eqb_spec), D. }
      destruct (snd (io_read E b ps s)) as [v|e].
      + unfold read_input, andthen, ret in H. rewrite H. destruct r as [ys|e].
        * exists (Ok ((name, v) :: ys)). split; [reflexivity|]. intros s' X. rewrite (SAME s' X). unfold read_input, andthen, ret in IH. now rewrite (IH s' X).
        * exists (Err e). split; [reflexivity|]. intros s' X. rewrite (SAME s' X). unfold read_input, andthen, ret in IH. now rewrite (IH s' X).
      + exists (Err e). split; [reflexivity|]. intros s' X. now rewrite (SAME s' X).
  Qed.

  Definition built_values (args : list (str * V)) : result (list V) :=
    match c_build (class_of E q) with Single f => rmap (fun v => [v]) (f args) | Multiple _ f => f args end.
  (** What building partition [k] from [d] does when nothing fails. *)
  Record works (d : list (str * list psnapshot)) (f : Z) (k : pkey) (fs : list (location * str)) (args : list (str * V)) (v : V) (key : str)
      (part : partition) (data : str) (x : psnapshot) : Prop := {
    w_args : forall s, files s = fs -> args_of d s = (s, Ok args);
    w_build : built_values args = Ok [v];
    w_valid : c_validate (class_of E q) [v] = Ok true;
    w_declared : (0 <? n_outputs E q) = true;
    w_key : key_of g a = Ok key;
    w_out : exists o, a_output a = Some o;
    w_check : check E q 0 a v = Ok tt;
    w_part : generate_partition (a_storage a) (Some f) k = Ok part;
    w_dump : dump E a v = Ok data;
    w_snapshot : match st_kind (a_storage a) with
                 | SFile => x = PSnapshot part (file_fp E data)
                 | SLiteral _ => pt_value part = None /\ x = PSnapshot (Partition (pt_storage part) (pt_key part) (pt_fp part) (Some data)) (from_string E data)
                 end }.
  Definition files_after (fs : list (location * str)) (part : partition) (data : str) : list (location * str) :=
    match st_kind (a_storage a) with SFile => dset location_eqb fs (location_of part) data | SLiteral _ => fs end.
  Definition db_after (b : backend) (key : str) (x : psnapshot) : backend :=
    write_snapshot_partitions (write_artifact_partitions b (a_storage a) [x]) sn key [x].
  Definition wrote_log (part : partition) (data : str) : list (action V) :=
    match st_kind (a_storage a) with SFile => [Wrote (location_of part) data] | SLiteral _ => [] end.

  Lemma part_storage : forall f k part, generate_partition (a_storage a) (Some f) k = Ok part -> pt_storage part = a_storage a /\ location_of part = (st_id (a_storage a), k, Some f).
  Proof.
    intros f k part H. apply generate_partition_storage in H. destruct H as (H1 & H2 & H3 & _). split; [exact H1|]. unfold location_of. congruence.
  Qed.
  Lemma io_write_forward : forall d f k fs args v key part data x, works d f k fs args v key part data x ->
    forall s, fuel s = None -> io_write E a v part s = (State (files_after (files s) part data) (db s) (wrote_log part data ++ log s) None, Ok x).
  Proof.
    intros d f k fs args v key part data x W [fs0 b l fu] F. cbn in F. subst fu. destruct (part_storage _ _ _ (w_part _ _ _ _ _ _ _ _ _ _ W)) as [PS _].
    assert (SN := w_snapshot _ _ _ _ _ _ _ _ _ _ W). assert (D := w_dump _ _ _ _ _ _ _ _ _ _ W).
    unfold io_write, files_after, wrote_log. rewrite PS. destruct (st_kind (a_storage a)) as [|lit] eqn:SK.
    - unfold effect, andthen, tick, ret. cbn [fuel]. rewrite D. cbn [fuel with_file with_log files db log]. f_equal.
      + unfold with_log, with_file. cbn [files db log fuel]. now rewrite (dset_twice _ _ _ location_eqb_spec).
      + unfold take_snapshot, content. rewrite PS, SK, (dget_dset_same _ location_eqb_spec). now subst x.
    - destruct SN as [PV ->]. rewrite PV. unfold andthen, ret. rewrite D. unfold take_snapshot, content. cbn [pt_storage pt_value ps_part].
      rewrite PS, SK. reflexivity.
  Qed.
  Lemma partition_forward : forall d f k fs args v key part data x existing, works d f k fs args v key part data x ->
    outputs_of g q = Ok [a] -> ~ In k existing -> forall s, fuel s = None -> (forall s', files s' = files s -> args_of d s' = (s', Ok args)) ->
    exists l, build_producer_partition E sn q existing f d k s = (State (files_after (files s) part data) (db_after (db s) key x) l None, Ok tt).
  Proof.
    intros d f k fs args v key part data x existing W O N s F A. unfold build_producer_partition.
    destruct (existsb (str_eqb k) existing) eqn:EX.
    { apply existsb_exists in EX. destruct EX as (k' & I & Q). apply str_eqb_spec in Q. now subst. }
    fold (args_of d). assert (IW := io_write_forward _ _ _ _ _ _ _ _ _ _ W). destruct W as [WA WB WV WN WK (o & WO) WC WP WD WS].
    destruct s as [fs0 b l fu]. cbn in F. subst fu. cbn [files db].
    eexists. eapply andthen_step; [apply A; reflexivity|].
    eapply andthen_step; [unfold call_build, effect, andthen, tick; cbn [fuel]; fold (built_values args); rewrite WB; reflexivity|].
    eapply andthen_step; [unfold call_validate, effect, andthen, tick; cbn [fuel with_log]; rewrite WV; reflexivity|].
    eapply andthen_step; [rewrite O; reflexivity|]. cbn [write_outputs nth_error].
    eapply andthen_step; [reflexivity|]. eapply andthen_step; [rewrite WN; reflexivity|].
    eapply andthen_step; [|reflexivity]. unfold write_output.
    eapply andthen_step; [rewrite WK; reflexivity|]. eapply andthen_step; [rewrite WO; reflexivity|].
    eapply andthen_step; [rewrite WC; reflexivity|]. eapply andthen_step; [rewrite WP; reflexivity|].
    eapply andthen_step; [apply IW; reflexivity|]. eapply andthen_step; [unfold write_known, effect, andthen, tick; cbn [fuel]; reflexivity|].
    unfold write_links, effect, andthen, tick. cbn [fuel with_db with_log db files log]. reflexivity.
  Qed.
  Lemma partition_inv : forall existing f d k s s' r, fuel s = None -> outputs_of g q = Ok [a] -> sound_outputs E sn q ->
    build_producer_partition E sn q existing f d k s = (s', Ok r) -> ~ In k existing ->
    exists args v key part data x, works d f k (files s) args v key part data x /\
      files s' = files_after (files s) part data /\ db s' = db_after (db s) key x /\ fuel s' = None.
  Proof.
    intros existing f d k s s' r F O SO H N. assert (H0 := H). unfold build_producer_partition in H.
    destruct (existsb (str_eqb k) existing) eqn:EX.
    { apply existsb_exists in EX. destruct EX as (k' & I & Q). apply str_eqb_spec in Q. now subst. }
    apply andthen_ok in H. destruct H as (s1 & args & A & H). fold (args_of d) in A. destruct (args_pure d s) as (r0 & AP & AP').
    rewrite AP in A. injection A as <- ->.
    apply andthen_ok in H. destruct H as (s2 & vs & B & H). apply andthen_ok in H. destruct H as (s3 & ok & VV & H). destruct ok; [|discriminate].
    apply andthen_ok in H. destruct H as (s4 & outs & O' & H). apply ret_ok in O'. destruct O' as [-> O']. rewrite O in O'. injection O' as <-.
    unfold call_build, effect, andthen in B. rewrite (tick_none _ F) in B. fold (built_values args) in B. injection B as <- B.
    unfold call_validate, effect, andthen in VV. rewrite tick_none in VV by exact F. injection VV as <- VV.
    assert (RN : runs (class_of E q) args (Ok vs)).
    { unfold runs. unfold built_values, rmap in B. destruct (c_build (class_of E q)) as [fn|n fn]; [|now rewrite B].
      destruct (fn args) as [v|]; [|discriminate]. now rewrite <- B. }
    assert (LEN := proj2 (SO _ O) args vs RN). cbn in LEN. destruct vs as [|v [|w vs]]; [cbn in LEN; lia| |].
    2: { exfalso. cbn [write_outputs nth_error] in H. apply andthen_ok in H. destruct H as (s5 & b & _ & H). apply andthen_ok in H. destruct H as (s6 & u & _ & H).
         apply andthen_ok in H. destruct H as (s7 & u' & _ & H). apply andthen_ok in H. destruct H as (s8 & b' & X & _). destruct vs; discriminate. }
    cbn [write_outputs nth_error] in H. apply andthen_ok in H. destruct H as (s5 & b & X & H). apply ret_ok in X. destruct X as [-> X]. injection X as <-.
    apply andthen_ok in H. destruct H as (s5 & u & X & H). apply ret_ok in X. destruct X as [-> ND]. destruct (0 <? n_outputs E q) eqn:DE; [|discriminate].
    apply andthen_ok in H. destruct H as (s6 & u' & W & H). apply ret_ok in H. destruct H as [-> _].
    apply andthen_ok in W. destruct W as (s7 & key & K & W). apply ret_ok in K. destruct K as [-> K].
    apply andthen_ok in W. destruct W as (s7 & u1 & AO & W). apply ret_ok in AO. destruct AO as [-> AO].
    apply andthen_ok in W. destruct W as (s7 & [] & CH & W). apply ret_ok in CH. destruct CH as [-> CH].
    apply andthen_ok in W. destruct W as (s7 & part & P & W). apply ret_ok in P. destruct P as [-> P].
    apply andthen_ok in W. destruct W as (s7 & x & IW & _).
    assert (DU : exists data, dump E a v = Ok data /\ match st_kind (a_storage a) with
                 | SFile => x = PSnapshot part (file_fp E data)
                 | SLiteral _ => pt_value part = None /\ x = PSnapshot (Partition (pt_storage part) (pt_key part) (pt_fp part) (Some data)) (from_string E data)
                 end).
    { destruct (part_storage _ _ _ P) as [PS _]. unfold io_write in IW. rewrite PS in *. destruct (st_kind (a_storage a)) as [|lit] eqn:SK.
      - apply andthen_ok in IW. destruct IW as (t1 & u2 & _ & IW). apply andthen_ok in IW. destruct IW as (t2 & data & DU & IW). apply ret_ok in DU. destruct DU as [-> DU].
        exists data. split; [exact DU|]. apply andthen_ok in IW. destruct IW as (t3 & u3 & EF & IW). apply effect_ok in EF. destruct EF as (t4 & _ & _ & _ & EF).
        injection EF as <-. injection IW as _ IW. cbn [with_log with_file files] in IW. unfold take_snapshot, content in IW. rewrite PS, SK, (dget_dset_same _ location_eqb_spec) in IW. now injection IW.
      - destruct (pt_value part) as [pv|]; [discriminate|]. apply andthen_ok in IW. destruct IW as (t2 & data & DU & IW). apply ret_ok in DU. destruct DU as [-> DU].
        exists data. split; [exact DU|]. split; [reflexivity|]. injection IW as _ IW. unfold take_snapshot, content in IW. cbn [pt_storage pt_value] in IW. rewrite ?PS, SK in IW. rewrite ?PS. now injection IW. }
    destruct DU as (data & DU & SN). exists args, v, key, part, data, x.
    assert (W : works d f k (files s) args v key part data x).
    { constructor; auto.
      - intros s' FS. apply AP'. intros. now rewrite FS.
      - destruct (a_output a) as [o|]; [eauto|discriminate]. }
    split; [exact W|].
    destruct (partition_forward _ _ _ _ _ _ _ _ _ _ existing W O N s F (fun s' FS => w_args _ _ _ _ _ _ _ _ _ _ W s' FS)) as (l & FW).
    rewrite FW in H0. injection H0 as <- <-. auto.
  Qed.

  (** The states in which it can stop. *)
  Inductive stopped (f : Z) (k : pkey) (s : state V) (key : str) (part : partition) (data : str) (x : psnapshot) (sc : state V) : Prop :=
  | stopped_before : files sc = files s -> db sc = db s -> stopped f k s key part data x sc
  | stopped_file : forall d, d = [] \/ d = data -> st_kind (a_storage a) = SFile -> files sc = dset location_eqb (files s) (location_of part) d -> db sc = db s ->
      stopped f k s key part data x sc
  | stopped_known : files sc = files_after (files s) part data -> db sc = write_artifact_partitions (db s) (a_storage a) [x] ->
      stopped f k s key part data x sc.
  Lemma partition_stopped : forall existing d f k s args v key part data x sc, fuel s = None -> works d f k (files s) args v key part data x ->
    outputs_of g q = Ok [a] -> crashes (build_producer_partition E sn q existing f d k) s sc -> ~ In k existing -> stopped f k s key part data x sc.
  Proof.
    intros existing d f k s args v key part data x sc F W O C N. unfold build_producer_partition in C.
    destruct (existsb (str_eqb k) existing) eqn:EX.
    { apply existsb_exists in EX. destruct EX as (k' & I & Q). apply str_eqb_spec in Q. now subst. }
    assert (IW := io_write_forward _ _ _ _ _ _ _ _ _ _ W). assert (WP := w_part _ _ _ _ _ _ _ _ _ _ W). assert (WD := w_dump _ _ _ _ _ _ _ _ _ _ W).
    assert (WA := w_args _ _ _ _ _ _ _ _ _ _ W).
    eapply crashes_bind in C; [|apply (splits_collect_args E sn q d)|rewrite (lim_none _ F); apply WA; reflexivity]. destruct C as [C|C].
    { destruct C as (n & C). fold (args_of d) in C. rewrite WA in C by reflexivity. discriminate. }
    eapply crashes_bind in C; [|apply splits_call_build|]. 2: { unfold call_build, effect, andthen. rewrite tick_none by reflexivity. fold (built_values args). rewrite (w_build _ _ _ _ _ _ _ _ _ _ W). reflexivity. }
    destruct C as [C|C].
    { eapply crashes_effect in C; [|apply quiet_log|]. 2: { fold (built_values args). rewrite (w_build _ _ _ _ _ _ _ _ _ _ W). reflexivity. } subst sc. now constructor 1. }
    eapply crashes_bind in C; [|apply splits_call_validate|]. 2: { unfold call_validate, effect, andthen. rewrite tick_none by reflexivity. rewrite (w_valid _ _ _ _ _ _ _ _ _ _ W). reflexivity. }
    destruct C as [C|C].
    { eapply crashes_effect in C; [|apply quiet_log|]. 2: { rewrite (w_valid _ _ _ _ _ _ _ _ _ _ W). reflexivity. } subst sc. now constructor 1. }
    cbn iota in C. eapply crashes_bind_ret in C; [|exact O]. cbn [write_outputs nth_error] in C.
    eapply crashes_bind_ret in C; [|reflexivity]. eapply crashes_bind_ret in C; [|rewrite (w_declared _ _ _ _ _ _ _ _ _ _ W); reflexivity].
    unfold write_output in C.
    assert (C' : crashes (x <- io_write E a v part ;; _ <- write_known (a_storage a) [x] ;; write_links sn key [x])
      (lim (with_log (with_log (lim s None) (Built q k args)) (Validated q k [v])) None) sc).
    { destruct C as (n & C). unfold andthen at 1 in C. destruct ((key0 <- ret (key_of g a);; _) _) as [t r] eqn:T in C. destruct r as [u|e]; [discriminate|]. injection C as <- ->.
      exists n. unfold ret, andthen in T. rewrite (w_key _ _ _ _ _ _ _ _ _ _ W), (w_check _ _ _ _ _ _ _ _ _ _ W), WP in T.
      destruct (w_out _ _ _ _ _ _ _ _ _ _ W) as (o & WO). rewrite WO in T. exact T. }
    clear C. rename C' into C. set (s3 := with_log _ _) in C.
    assert (F3 : files s3 = files s) by reflexivity. assert (D3 : db s3 = db s) by reflexivity.
    eapply crashes_bind in C; [|apply splits_io_write|apply IW; reflexivity]. destruct C as [C|C].
    { clear - C WP WD F3 D3. destruct (part_storage _ _ _ WP) as [PS _]. unfold io_write in C. rewrite PS in C. destruct (st_kind (a_storage a)) as [|lit] eqn:SK.
      - eapply crashes_bind in C; [|apply splits_effect, quiet_file|unfold effect, andthen; rewrite tick_none by reflexivity; reflexivity]. destruct C as [C|C].
        { eapply crashes_effect in C; [|apply quiet_file|reflexivity]. subst sc. now constructor 1. }
        eapply crashes_bind_ret in C; [|exact WD].
        eapply crashes_bind in C; [|apply splits_effect, quiet_wrote|unfold effect, andthen; rewrite tick_none by reflexivity; reflexivity]. destruct C as [C|C].
        { eapply crashes_effect in C; [|apply quiet_wrote|reflexivity]. subst sc. constructor 2 with []; auto. }
        exfalso. destruct C as (n & C). injection C as _ C. cbn [with_log with_file files lim] in C. unfold take_snapshot, content in C.
        rewrite PS, SK, (dget_dset_same _ location_eqb_spec) in C. discriminate.
      - exfalso. destruct C as (n & C). destruct (pt_value part); [discriminate|]. unfold andthen, ret in C. rewrite WD in C. injection C as _ C.
        unfold take_snapshot, content in C. cbn in C. rewrite ?PS, SK in C. discriminate. }
    set (s4 := State _ _ _ _) in C. assert (F4 : files s4 = files_after (files s) part data) by reflexivity. assert (D4 : db s4 = db s) by reflexivity.
    eapply crashes_bind in C; [|apply splits_write_known|unfold write_known, effect, andthen; rewrite tick_none by reflexivity; reflexivity]. destruct C as [C|C].
    { eapply crashes_effect in C; [|apply quiet_write_known|reflexivity]. subst sc. cbn [lim files db]. unfold files_after in F4. destruct (st_kind (a_storage a)) eqn:SK.
      - constructor 2 with data; auto.
      - constructor 1; auto. }
    eapply crashes_effect in C; [|apply quiet_write_links|reflexivity]. subst sc. constructor 3; auto.
  Qed.
End Partition.

Lemma adds_one : forall x new l, (forall y, In y new -> In y l \/ y = x) -> In x new -> adds l new = adds l [x].
Proof.
  intros x new l H I. destruct (existsb (psnapshot_eqb x) l) eqn:EX.
  - apply (existsb_In _ psnapshot_eqb_spec) in EX. rewrite !adds_present; auto.
    + intros y [ <- |[]]. exact EX.
    + intros y J. destruct (H y J) as [K| -> ]; auto.
  - assert (R : adds l [x] = l ++ [x]) by (cbn; now rewrite EX). rewrite R. clear R. induction new as [|y new IH]; [destruct I|].
    change (adds (if existsb (psnapshot_eqb y) l then l else l ++ [y]) new = l ++ [x]). destruct (existsb (psnapshot_eqb y) l) eqn:EY.
    + apply IH; [intros z J; apply H; now right|]. destruct I as [->|I]; [congruence|exact I].
    + assert (y = x). { destruct (H y (or_introl eq_refl)) as [J|J]; [|exact J]. apply (existsb_In _ psnapshot_eqb_spec) in J. congruence. }
      subst y. apply adds_present. intros z J. apply in_app_iff. destruct (H z (or_intror J)) as [K| -> ]; [now left|right; now left].
Qed.
Lemma wl_cong : forall b sn key new new', adds (links_of b sn key) new = adds (links_of b sn key) new' ->
  write_snapshot_partitions b sn key new = write_snapshot_partitions b sn key new'.
Proof.
  intros b sn key new new' H. unfold write_snapshot_partitions. 
  assert (S := touch_snd snapshot_eqb (links b) sn []). destruct (touch snapshot_eqb (links b) sn []) as [d byk]. cbn in S.
  assert (S2 := touch_snd str_eqb byk key []). destruct (touch str_eqb byk key []) as [byk' l]. cbn in S2.
  replace l with (links_of b sn key); [now rewrite H|]. unfold links_of, getd in *. subst. reflexivity.
Qed.
Lemma eachM_app : forall V A (f : A -> M V unit) l m s, eachM f (l ++ m) s = (_ <- eachM f l ;; eachM f m) s.
Proof.
  induction l as [|x l IH]; intros m s; cbn [app eachM]; [reflexivity|]. unfold andthen in *. destruct (f x s) as [s1 [u|e]]; [apply IH|reflexivity].
Qed.

Section Producer.
  Context {V : Type} (E : env V) (IT : iterates E) (sn : snapshot) (q : producer) (a : artifact) (key : str).
  Context (inputs : list (str * list psnapshot)) (deps : list (pkey * list (str * list psnapshot))) (fps : list (pkey * option Z)).
  Notation g := (s_graph sn).
  Context (ND : NoDup (map fst (g_arts g))) (SO : sound_outputs E sn q) (O : outputs_of g q = Ok [a]) (K : key_of g a = Ok key).
  Context (CD : compute_dependencies E q inputs = Ok (deps, fps)).
  (** What is read is not where the output is written. *)
  Context (NL : forall k d n l x k' f', In (k, d) deps -> In (n, l) d -> In x l -> location_of (ps_part x) <> (st_id (a_storage a), k', Some f')).

  Lemma get_inputs_present : forall s l i, inputs_at E sn (db s) l i -> inputs_entries sn (db s) l -> fuel s = None ->
    collectM (fun na => key <- ret (key_of g (snd na)) ;; x <- read_links E sn key ;; ret (Ok (fst na, x))) l s = (s, Ok i).
  Proof.
    intros s l i I1 I2 F. unfold inputs_at in *. revert I2. induction I1 as [|[n b] nl l i (key' & K' & ->) H IH]; intro I2; [reflexivity|].
    cbn [collectM]. eapply andthen_step.
    - eapply andthen_step; [cbn [snd] in *; rewrite K'; reflexivity|]. eapply andthen_step; [|reflexivity].
      apply read_links_present; [exact F|apply (I2 n b key'); [now left|exact K']].
    - eapply andthen_step; [|reflexivity]. apply IH. intros n' a' key'' I. eapply I2. right. exact I.
  Qed.
  Definition ready (s : state V) : Prop := fuel s = None /\ inputs_at E sn (db s) (p_inputs q) inputs /\ inputs_entries sn (db s) (p_inputs q) /\
    dmem storage_eqb (known (db s)) (a_storage a) = true.
  Definition found (s : state V) : list psnapshot := select fps (known_of (db s) (a_storage a)).
  Definition relinked (s : state V) : state V := with_db s (write_snapshot_partitions (db s) sn key (iter_set E (found s))).
  Lemma discover_ready : forall s, ready s -> discover_producer_partitions E sn q fps s = (relinked s, Ok (map ps_key (iter_set E (found s)))).
  Proof.
    intros s (F & _ & _ & M). unfold discover_producer_partitions. eapply andthen_step; [rewrite O; reflexivity|]. cbn [collectM].
    eapply andthen_step; [eapply andthen_step; [eapply andthen_step; [now apply read_known_present|reflexivity]|eapply andthen_step; [reflexivity|reflexivity]]|].
    eapply andthen_step.
    - cbn [eachM]. eapply andthen_step; [|reflexivity]. eapply andthen_step; [cbn [fst]; rewrite K; reflexivity|].
      unfold write_links, effect, andthen. rewrite tick_none by exact F. reflexivity.
    - cbn [flat_map snd]. now rewrite app_nil_r.
  Qed.
  Lemma resume_ready : forall s, ready s -> build_producer E sn q s = build_all E sn q (map ps_key (iter_set E (found s))) fps deps (relinked s).
  Proof.
    intros s R. assert (R' := R). destruct R' as (F & I1 & I2 & M). unfold build_producer. eapply andthen_step; [apply (get_inputs_present _ _ _ I1 I2 F)|].
    eapply andthen_step; [rewrite CD; reflexivity|]. cbn [fst snd]. eapply andthen_step; [now apply discover_ready|]. reflexivity.
  Qed.

  Lemma works_x : forall d f k fs args v part data x, works E sn q a d f k fs args v key part data x -> ps_key x = k /\ ps_fp x = Some f.
  Proof.
    intros d f k fs args v part data x W. assert (P := w_part _ _ _ _ _ _ _ _ _ _ _ _ _ _ W). assert (S := w_snapshot _ _ _ _ _ _ _ _ _ _ _ _ _ _ W).
    apply generate_partition_storage in P. destruct P as (P1 & P2 & P3 & _). destruct (st_kind (a_storage a)); [subst x|destruct S as [_ ->]]; unfold ps_key, ps_fp; auto.
  Qed.
  Lemma ready_frame : forall s s', frame sn (out_key sn q) (out_storage sn q) s s' -> fuel s' = None -> ready s -> ready s'.
  Proof.
    intros s s' FR F (_ & I1 & I2 & M). split; [exact F|]. split; [|split].
    - eapply inputs_at_frame; [exact FR| |exact I1]. intros n b key' I K' KO. destruct (input_not_out _ _ _ _ ND K' KO) as (i & AO). eapply size_input; eauto.
    - intros n b key' I K'. apply (fr_entry _ _ _ _ _ FR). eapply I2; eauto.
    - now apply (fr_mem _ _ _ _ _ FR).
  Qed.
  Definition keys (s : state V) : list pkey := map ps_key (found s).
  Lemma existing_keys : forall s k, In k (map ps_key (iter_set E (found s))) <-> In k (keys s).
  Proof. intros s k. unfold keys. rewrite !in_map_iff. split; intros (x & Q & I); exists x; (split; [exact Q|]); [apply (proj1 (IT _ _) I)|apply (proj2 (IT _ _) I)]. Qed.
  Definition inv (existing : list pkey) (dn : list (pkey * list (str * list psnapshot))) (s : state V) : Prop :=
    ready s /\ covered sn fps [a] s /\ forall k, In k (map fst deps) -> (In k (keys s) <-> In k existing \/ In k (map fst dn)).
  Lemma keys_after : forall s b x k f, get_fp fps k = Some f -> ps_key x = k -> ps_fp x = Some f ->
    known_of b (a_storage a) = adds (known_of (db s) (a_storage a)) [x] ->
    forall k', In k' (map ps_key (select fps (known_of b (a_storage a)))) <-> In k' (keys s) \/ k' = k.
  Proof.
    intros s b x k f G XK XF KN k'. rewrite KN. unfold keys, found. rewrite !in_map_iff. split.
    - intros (y & Q & I). apply select_In in I. destruct I as [I WT]. apply adds_In in I. destruct I as [I|[ <- |[]]].
      + left. exists y. split; [exact Q|]. now apply select_In.
      + right. congruence.
    - intros [(y & Q & I)| -> ].
      + exists y. split; [exact Q|]. apply select_In in I. destruct I as [I WT]. apply select_In. split; [|exact WT]. apply adds_In. now left.
      + exists x. split; [exact XK|]. eapply select_match; eauto. apply adds_In. right. now left.
  Qed.
  Lemma known_after : forall b x, known_of (write_artifact_partitions b (a_storage a) [x]) (a_storage a) = adds (known_of b (a_storage a)) [x].
  Proof. intros b x. now rewrite wa_known, (proj2 (storage_eqb_spec _ _) eq_refl). Qed.
  Lemma known_db_after : forall b x, known_of (db_after sn a b key x) (a_storage a) = adds (known_of b (a_storage a)) [x].
  Proof. intros b x. unfold db_after, known_of. destruct (wl_other (write_artifact_partitions b (a_storage a) [x]) sn key [x]) as (_ & _ & _ & ->). apply known_after. Qed.
  Lemma works_key : forall d f k fs args v key' part data x, works E sn q a d f k fs args v key' part data x -> key' = key.
  Proof. intros d f k fs args v key' part data x W. assert (W' := w_key _ _ _ _ _ _ _ _ _ _ _ _ _ _ W). congruence. Qed.

  Lemma inv_step : forall existing dn k d f s s' r, inv existing dn s -> get_fp fps k = Some f ->
    build_producer_partition E sn q existing f d k s = (s', Ok r) -> inv existing (dn ++ [(k, d)]) s'.
  Proof.
    intros existing dn k d f s s' r (R & C & X) G H. assert (FR := within_build_partition E sn q existing f d k _ _ _ H).
    assert (CO := build_partition_ok E sn q [a] fps existing f d k s s' r SO O H C). destruct CO as [C' _].
    destruct (in_dec (list_eq_dec ascii_dec) k existing) as [I|N].
    - assert (s' = s).
      { unfold build_producer_partition in H. assert (EX : existsb (str_eqb k) existing = true) by (apply existsb_exists; exists k; split; [exact I|now apply str_eqb_spec]).
        rewrite EX in H. now apply ret_ok in H. }
      subst s'. split; [exact R|]. split; [exact C|]. intros k' Ik. rewrite (X k' Ik), map_app, in_app_iff. cbn. split; [tauto|]. intros [J|[J|[ <- |[]]]]; auto.
    - destruct (partition_inv E sn q a existing f d k s s' r (proj1 R) O SO H N) as (args & v & key' & part & data & x & W & F' & D' & U').
      assert (key' = key) by (eapply works_key; eauto). subst key'. destruct (works_x _ _ _ _ _ _ _ _ _ W) as [XK XF].
      split; [eapply ready_frame; eauto|]. split; [exact C'|]. intros k' Ik. unfold keys, found.
      rewrite (keys_after s (db s') x k f G XK XF) by (rewrite D'; apply known_db_after).
      rewrite (X k' Ik), map_app, in_app_iff. cbn. intuition.
  Qed.
  Lemma deps_fp : forall k d, In (k, d) deps -> exists f, get_fp fps k = Some f.
  Proof. intros k d I. rewrite (fps_of E q inputs deps fps k d CD I). eauto. Qed.
  Lemma inv_all : forall existing l dn s s' r, (forall kd, In kd l -> In kd deps) -> inv existing dn s ->
    build_all E sn q existing fps l s = (s', Ok r) -> inv existing (dn ++ l) s'.
  Proof.
    intros existing. induction l as [|[k d] l IH]; intros dn s s' r S I H; cbn [build_all eachM] in H.
    - apply ret_ok in H. destruct H as [-> _]. now rewrite app_nil_r.
    - apply andthen_ok in H. destruct H as (s1 & u & H1 & H2). apply andthen_ok in H1. destruct H1 as (s2 & f & G & H1). apply ret_ok in G. destruct G as [-> G].
      cbn [fst snd] in *. destruct (get_fp fps k) as [f'|] eqn:GF; [|discriminate]. injection G as ->.
      replace (dn ++ (k, d) :: l) with ((dn ++ [(k, d)]) ++ l) by now rewrite <- app_assoc.
      eapply IH; [intros; apply S; now right| |exact H2]. eapply inv_step; eauto.
  Qed.
  Lemma skip_all : forall existing l s, (forall kd, In kd l -> In kd deps) -> (forall k, In k (map fst l) -> In k existing) ->
    build_all E sn q existing fps l s = (s, Ok tt).
  Proof.
    intros existing. induction l as [|[k d] l IH]; intros s S I; [reflexivity|]. cbn [build_all eachM].
    destruct (deps_fp k d (S _ (or_introl eq_refl))) as (f & G). eapply andthen_step.
    - eapply andthen_step; [cbn [fst]; rewrite G; reflexivity|]. unfold build_producer_partition. cbn [fst].
      assert (EX : existsb (str_eqb k) existing = true) by (apply existsb_exists; exists k; split; [apply I; now left|now apply str_eqb_spec]).
      rewrite EX. reflexivity.
    - apply IH; [intros; apply S; now right|]. intros k' J. apply I. now right.
  Qed.
  Lemma same_existing : forall ex1 ex2 l s, (forall k, In k (map fst l) -> (In k ex1 <-> In k ex2)) ->
    build_all E sn q ex1 fps l s = build_all E sn q ex2 fps l s.
  Proof.
    intros ex1 ex2. induction l as [|[k d] l IH]; intros s H; [reflexivity|]. unfold build_all in *. cbn [eachM fst snd].
    assert (B : forall f, build_producer_partition E sn q ex1 f d k = build_producer_partition E sn q ex2 f d k).
    { intro f. unfold build_producer_partition. replace (existsb (str_eqb k) ex1) with (existsb (str_eqb k) ex2); [reflexivity|].
      assert (HK := H k (or_introl eq_refl)). destruct (existsb (str_eqb k) ex2) eqn:E2, (existsb (str_eqb k) ex1) eqn:E1; auto.
      - apply (existsb_In _ str_eqb_spec) in E2. apply HK in E2. apply (existsb_In _ str_eqb_spec) in E2. congruence.
      - apply (existsb_In _ str_eqb_spec) in E1. apply HK in E1. apply (existsb_In _ str_eqb_spec) in E1. congruence. }
    unfold andthen at 1 3. unfold andthen, ret. destruct (get_fp fps k) as [f|]; [|reflexivity]. rewrite B.
    destruct (build_producer_partition E sn q ex2 f d k s) as [s1 [u|e]]; [|reflexivity]. apply IH. intros k' I. apply H. now right.
  Qed.
  Lemma blind_build_all : forall existing l, blind (build_all E sn q existing fps l).
  Proof. intros. apply blind_each. intro. apply blind_bind; [apply blind_ret|intro]. apply blind_build_partition. Qed.

  Lemma loop_resumed : forall existing s s' r sc, inv existing [] s -> build_all E sn q existing fps deps s = (s', Ok r) ->
    crashes (build_all E sn q existing fps deps) s sc -> exists s'', build_producer E sn q (lim sc None) = (s'', Ok tt) /\ like s' s''.
  Proof.
    intros existing s s' r sc I H C. destruct I as (R & I). assert (F := proj1 R). unfold build_all in C. rewrite <- (lim_none _ F) in H.
    eapply crashes_each in C; [| |exact H]. 2: { intro. apply splits_bind; [apply splits_ret|intro]. apply splits_build_partition. }
    destruct C as (l1 & [k d] & l2 & s1 & s2 & u & EQ & L1 & F1 & ST & L2 & C). rewrite (lim_none _ F) in L1. cbn [fst snd] in *.
    assert (S1 : forall kd, In kd l1 -> In kd deps) by (intros kd J; rewrite EQ; apply in_app_iff; now left).
    assert (S2 : forall kd, In kd l2 -> In kd deps) by (intros kd J; rewrite EQ; apply in_app_iff; right; now right).
    assert (SK : In (k, d) deps) by (rewrite EQ; apply in_app_iff; right; now left).
    assert (IV := inv_all existing l1 [] s s1 tt S1 (conj R I) L1). cbn [app] in IV.
    destruct (deps_fp k d SK) as (f & G). eapply crashes_bind_ret in C; [|rewrite G; reflexivity].
    apply andthen_ok in ST. destruct ST as (s0 & f' & G' & ST). apply ret_ok in G'. destruct G' as [-> G']. rewrite G in G'. injection G' as <-.
    destruct (in_dec (list_eq_dec ascii_dec) k existing) as [IN|NI].
    { exfalso. unfold build_producer_partition in C. assert (EX : existsb (str_eqb k) existing = true) by (apply existsb_exists; exists k; split; [exact IN|now apply str_eqb_spec]).
      rewrite EX in C. now apply crashes_ret in C. }
    destruct (partition_inv E sn q a existing f d k s1 s2 u F1 O SO ST NI) as (args & v & key' & part & data & x & W & F2 & D2 & U2).
    assert (key' = key) by (eapply works_key; eauto). subst key'. destruct (works_x _ _ _ _ _ _ _ _ _ W) as [XK XF].
    assert (NDD : NoDup (map fst deps)) by (destruct (compute_dependencies_ok E q _ _ _ CD) as (m & _ & X & _); exact X).
    assert (NK : ~ In k (map fst l1) /\ forall k', In k' (map fst l2) -> ~ In k' (map fst l1) /\ k' <> k).
    { rewrite EQ, map_app in NDD. cbn in NDD. split.
      - apply NoDup_remove_2 in NDD. intro J. apply NDD, in_app_iff. now left.
      - intros k' J. split; [intro J'|intros ->].
        + clear - NDD J J'. induction (map fst l1) as [|y l IH]; [destruct J'|]. inversion NDD as [|? ? N1 N2]; subst. destruct J' as [->|J']; [|auto].
          apply N1, in_app_iff. right. now right.
        + apply NoDup_remove_2 in NDD. apply NDD, in_app_iff. now right. }
    destruct NK as [NK NK2]. destruct IV as (R1 & C1 & X1).
    assert (KD : forall k', In k' (map fst l1) \/ k' = k \/ In k' (map fst l2) -> In k' (map fst deps)).
    { intros k' J. rewrite EQ, map_app, in_app_iff. cbn. intuition. }
    assert (PS := partition_stopped E sn q a existing d f k s1 args v key part data x sc F1 W O C NI).
    assert (FIN : forall s3 ex, like s2 s3 -> (forall k', In k' (map fst l2) -> (In k' existing <-> In k' ex)) ->
      exists s'', build_all E sn q ex fps l2 s3 = (s'', Ok tt) /\ like s' s'').
    { intros s3 ex LK AG. rewrite <- (same_existing existing ex l2 s3 AG). destruct r. eapply blind_build_all; eauto. }
    assert (ALMOST : db sc = db s1 -> (forall s', files s' = files sc -> collect_args E sn q d s' = (s', Ok args)) ->
      files_after a (files sc) part data = files_after a (files s1) part data ->
      exists s'', build_producer E sn q (lim sc None) = (s'', Ok tt) /\ like s' s'').
    { intros DB A FA. assert (RC : ready (lim sc None)) by (destruct R1 as (_ & R1); unfold ready; cbn [lim db fuel]; rewrite DB; auto).
      rewrite (resume_ready _ RC). assert (FO : found (lim sc None) = found s1) by (unfold found; cbn [lim db]; now rewrite DB).
      assert (RL : relinked (lim sc None) = lim sc None).
      { unfold relinked. rewrite FO. cbn [lim db]. rewrite DB. rewrite wl_present; [rewrite <- DB; reflexivity| |].
        - destruct (C1 a (or_introl eq_refl)) as (key' & K' & _ & HE & _). rewrite K in K'. now injection K' as <-.
        - intros y J. apply (proj1 (IT _ _)) in J. destruct (C1 a (or_introl eq_refl)) as (key' & K' & _ & _ & HI). rewrite K in K'. injection K' as <-. now apply HI. }
      rewrite RL. unfold build_all. rewrite EQ, eachM_app.
      assert (EK : forall k', In k' (map ps_key (iter_set E (found (lim sc None)))) <-> In k' (keys s1)) by (intro k'; rewrite FO; apply existing_keys).
      assert (NE : ~ In k (map ps_key (iter_set E (found (lim sc None))))).
      { rewrite EK, X1 by (apply KD; right; now left). intros [J|J]; [now apply NI|now apply NK]. }
      destruct (partition_forward E sn q a _ _ _ _ _ _ _ _ _ _ _ W O NE (lim sc None) eq_refl A) as (lg & PF).
      destruct (FIN (State (files_after a (files (lim sc None)) part data) (db_after sn a (db (lim sc None)) key x) lg None) (map ps_key (iter_set E (found (lim sc None))))) as (s'' & B & LK).
      - split; [|split]; cbn [lim files db fuel]; [congruence|congruence|exact U2].
      - intros k' J. rewrite EK, X1 by (apply KD; right; now right). destruct (NK2 k' J). tauto.
      - exists s''. split; [|exact LK]. eapply andthen_step with (m := eachM _ l1).
        { apply skip_all; [exact S1|]. intros k' J. apply EK, X1; [apply KD; now left|now right]. }
        cbn [eachM fst snd]. eapply andthen_step; [|exact B]. eapply andthen_step; [rewrite G; reflexivity|]. exact PF. }
    destruct PS as [SF SD|d' _ KI SF SD|SF SD].
    - apply ALMOST; auto; [|now rewrite SF]. intros s3 F3. apply (w_args _ _ _ _ _ _ _ _ _ _ _ _ _ _ W). congruence.
    - apply ALMOST; auto.
      + intros s3 F3. destruct (args_pure E sn q d s1) as (r0 & A1 & A2).
        rewrite (w_args _ _ _ _ _ _ _ _ _ _ _ _ _ _ W) in A1 by reflexivity. injection A1 as <-. apply A2. intros n l y In1 In2. rewrite F3, SF.
        unfold content. destruct (st_kind (pt_storage (ps_part y))); [|reflexivity]. rewrite (dget_dset_other _ location_eqb_spec); [reflexivity|].
        destruct (part_storage a f k part (w_part _ _ _ _ _ _ _ _ _ _ _ _ _ _ W)) as [_ ->]. intro Q. eapply (NL k d n l y k f); eauto.
      + rewrite SF. unfold files_after. rewrite KI. apply (dset_twice _ _ _ location_eqb_spec).
    - assert (LB : links (db sc) = links (db s1)) by (rewrite SD; now destruct (wa_other (db s1) (a_storage a) [x]) as (_ & _ & -> & _)).
      assert (RC : ready (lim sc None)).
      { destruct R1 as (_ & RI1 & RI2 & RM). split; [reflexivity|]. cbn [lim db]. split; [|split].
        - unfold inputs_at in *. eapply Forall2_impl; [|exact RI1]. intros na nl (key' & K' & ->). exists key'. split; [exact K'|]. unfold links_of. now rewrite LB.
        - intros n b key' J K'. unfold has_entry. rewrite LB. eapply RI2; eauto.
        - rewrite SD, wa_mem, RM. apply orb_true_r. }
      rewrite (resume_ready _ RC). 
      assert (KS : forall k', In k' (map ps_key (iter_set E (found (lim sc None)))) <-> In k' (keys s1) \/ k' = k).
      { intro k'. rewrite existing_keys. unfold keys at 1, found. apply (keys_after s1 _ x k f G XK XF). cbn [lim db]. rewrite SD. apply known_after. }
      assert (RL : like s2 (relinked (lim sc None))).
      { split; [cbn; congruence|]. split; [|exact U2]. unfold relinked. cbn [with_db db lim]. rewrite D2. unfold db_after. rewrite <- SD. apply wl_cong. symmetry.
        apply adds_one.
        - intros y J. apply (proj1 (IT _ _)) in J. unfold found in J. cbn [lim db] in J. rewrite SD, known_after in J. apply select_In in J. destruct J as [J WT].
          apply adds_In in J. destruct J as [J|[ <- |[]]]; [|now right]. left. destruct (C1 a (or_introl eq_refl)) as (key' & K' & _ & _ & HI). rewrite K in K'. injection K' as <-.
          unfold links_of. rewrite LB. apply HI. now apply select_In.
        - apply (proj2 (IT _ _)). unfold found. cbn [lim db]. rewrite SD, known_after. eapply select_match; eauto. apply adds_In. right. now left. }
      set (ex := map ps_key _) in *. destruct (FIN (relinked (lim sc None)) ex RL) as (s'' & B & LK).
      { intros k' J. rewrite KS, X1 by (apply KD; right; now right). destruct (NK2 k' J). tauto. }
      exists s''. split; [|exact LK]. unfold build_all. rewrite EQ, eachM_app.
      eapply andthen_step with (m := eachM _ l1).
      { apply skip_all; [exact S1|]. intros k' J. apply KS. left. apply X1; [apply KD; now left|now right]. }
      eapply andthen_step; [|exact B]. eapply andthen_step; [cbn [fst]; rewrite G; reflexivity|]. unfold build_producer_partition. cbn [fst].
      assert (EX : existsb (str_eqb k) ex = true) by (apply existsb_exists; exists k; split; [apply KS; now right|now apply str_eqb_spec]).
      rewrite EX. reflexivity.
  Qed.
End Producer.

Section Whole.
  Context {V : Type} (E : env V) (IT : iterates E) (sn : snapshot).
  Notation g := (s_graph sn).
  Notation get_all := (collectM (fun na : str * artifact => key <- ret (key_of g (snd na)) ;; x <- read_links E sn key ;; ret (Ok (fst na, x)))).
  Lemma inputs_stopped : forall l s s1 inputs sc, get_all l (lim s None) = (s1, Ok inputs) -> crashes (get_all l) s sc ->
    exists s1', get_all l (lim sc None) = (s1', Ok inputs) /\ like s1 s1'.
  Proof.
    induction l as [|[n b] l IH]; intros s s1 inputs sc H C; [now apply crashes_ret in C|]. cbn [collectM] in H, C |- *.
    assert (SP : forall na : str * artifact, splits (V := V) (key <- ret (key_of g (snd na)) ;; x <- read_links E sn key ;; ret (Ok (fst na, x)))).
    { intro. apply splits_bind; [apply splits_ret|intro]. apply splits_bind; [apply splits_read_links|intro]. apply splits_ret. }
    apply andthen_ok in H. destruct H as (s2 & y & H1 & H). apply andthen_ok in H. destruct H as (s3 & ys & H2 & H3).
    apply ret_ok in H3. destruct H3 as [-> H3]. injection H3 as <-.
    destruct (SP (n, b) s 0 _ _ H1) as (F2 & _).
    eapply crashes_bind in C; [|apply SP|exact H1]. destruct C as [C|C].
    - assert (Q : sc = lim s (Some 0)).
      { apply andthen_ok in H1. destruct H1 as (s4 & key & K & H1). apply ret_ok in K. destruct K as [-> K].
        eapply crashes_bind_ret in C; [|exact K]. apply andthen_ok in H1. destruct H1 as (s5 & x & R & _).
        eapply crashes_bind in C; [|apply splits_read_links|exact R]. destruct C as [C|C]; [|now apply crashes_ret in C].
        unfold read_links, effect, andthen in R. rewrite tick_none in R by reflexivity. eapply crashes_effect in C; [exact C|apply quiet_read_links|exact R]. }
      subst sc. rewrite lim_lim. exists s3. split; [|apply like_refl]. eapply andthen_step; [exact H1|]. eapply andthen_step; [exact H2|]. reflexivity.
    - eapply crashes_bind in C; [|apply splits_collect, SP|rewrite (lim_none _ F2); exact H2]. destruct C as [C|C]; [|now apply crashes_ret in C].
      rewrite <- (lim_none _ F2) in H2. destruct (IH s2 s3 ys sc H2 C) as (s3' & G1 & G2). exists s3'. split; [|exact G2].
      apply andthen_ok in H1. destruct H1 as (s4 & key & K & H1). apply ret_ok in K. destruct K as [-> K]. cbn [snd fst] in *.
      apply andthen_ok in H1. destruct H1 as (s5 & x & R & H1). apply ret_ok in H1. destruct H1 as [-> H1]. injection H1 as <-.
      apply read_links_ok in R. destruct R as (-> & RL & RE & RK & RF).
      assert (FR : frame sn nothing nothing s5 sc).
      { destruct C as (m & C). assert (W : frame sn nothing nothing (lim s5 (Some m)) sc).
        { revert C. apply within_collect. intros na _. apply within_bind; [apply within_ret|]. intro. apply within_bind; [apply within_read_links|]. intro. apply within_ret. }
        eapply frame_trans; [|exact W]. now apply frame_refl. }
      eapply andthen_step.
      + eapply andthen_step; [rewrite K; reflexivity|]. eapply andthen_step; [|reflexivity].
        apply read_links_present; [reflexivity|]. apply (fr_entry _ _ _ _ _ FR), RE.
      + cbn [lim db]. rewrite (fr_links _ _ _ _ _ FR) by (right; intros []). rewrite RL.
        eapply andthen_step; [exact G1|reflexivity].
  Qed.

  Lemma producer_resumed : forall q a s s' r sc, NoDup (map fst (g_arts g)) -> sound_outputs E sn q -> outputs_of g q = Ok [a] ->
    (forall inputs deps fps k d n l x k' f', inputs_at E sn (db s) (p_inputs q) inputs -> compute_dependencies E q inputs = Ok (deps, fps) ->
       In (k, d) deps -> In (n, l) d -> In x l -> location_of (ps_part x) <> (st_id (a_storage a), k', Some f')) ->
    fuel s = None -> build_producer E sn q s = (s', Ok r) -> crashes (build_producer E sn q) s sc ->
    exists s'', build_producer E sn q (lim sc None) = (s'', Ok tt) /\ like s' s''.
  Proof.
    intros q a s s' r sc ND SO O NL F H C. destruct r. assert (H0 := H).
    apply andthen_ok in H. destruct H as (s1 & inputs & GI & H). rewrite <- (lim_none _ F) in GI.
    destruct (splits_get_inputs E sn q s 0 _ _ GI) as (F1 & _).
    assert (GIO := GI). apply get_inputs_ok in GIO. destruct GIO as (G1 & G2 & G3 & G4 & G5). cbn [lim db files] in G1, G3, G4, G5.
    assert (G1' : inputs_at E sn (db s1) (p_inputs q) inputs).
    { unfold inputs_at in *. eapply Forall2_impl; [|exact G1]. intros na nl (key & K & ->). exists key. now rewrite G3. }
    assert (BR : blind (df <- ret (compute_dependencies E q inputs) ;; existing <- discover_producer_partitions E sn q (snd df) ;;
      eachM (fun kd => f <- ret (match get_fp (snd df) (fst kd) with Some f => Ok f | None => Err ValueError end) ;;
        build_producer_partition E sn q existing f (snd kd) (fst kd)) (fst df))).
    { apply blind_bind; [apply blind_ret|intro]. apply blind_bind.
      { unfold discover_producer_partitions. apply blind_bind; [apply blind_ret|intro]. apply blind_bind; [|intro; apply blind_bind; [|intro; apply blind_ret]].
        - apply blind_collect. intro. apply blind_bind; [apply blind_read_known|intro]. apply blind_ret.
        - apply blind_each. intro. apply blind_bind; [apply blind_ret|intro]. apply blind_write_links. }
      intro. apply blind_each. intro. apply blind_bind; [apply blind_ret|intro]. apply blind_build_partition. }
    eapply crashes_bind in C; [|apply splits_get_inputs|exact GI]. destruct C as [C|C].
    { destruct (inputs_stopped _ _ _ _ _ GI C) as (s1' & R & L). destruct (BR _ _ _ _ L H) as (s'' & B & L'). exists s''. split; [|exact L'].
      eapply andthen_step; [exact R|exact B]. }
    assert (FROM : forall t, like s1 t -> exists s'', build_producer E sn q t = (s'', Ok tt) /\ like s' s'').
    { intros t L. destruct (BR _ _ _ _ L H) as (s'' & B & L'). exists s''. split; [|exact L']. eapply andthen_step; [|exact B].
      destruct L as (L1 & L2 & L3). apply (get_inputs_present E sn); [rewrite <- L2; exact G1'|rewrite <- L2; exact G2|congruence]. }
    apply andthen_ok in H. destruct H as (s1' & [deps fps] & CD & H). apply ret_ok in CD. destruct CD as [-> CD].
    eapply crashes_bind_ret in C; [|exact CD]. cbn [fst snd] in *.
    apply andthen_ok in H. destruct H as (s2 & existing & DI & H). rewrite <- (lim_none _ F1) in DI.
    destruct (splits_discover E sn q fps s1 0 _ _ DI) as (F2 & _).
    assert (DO := DI). apply (discover_ok E IT) in DO. destruct DO as (outs & O' & CO & _ & DF & EX). rewrite O in O'. injection O' as <-.
    destruct (CO a (or_introl eq_refl)) as (key & K & M & HE & HI).
    assert (READY : forall t, frame sn (out_key sn q) (out_storage sn q) s1 t -> fuel t = None -> dmem storage_eqb (known (db t)) (a_storage a) = true ->
      ready E sn q a inputs t).
    { intros t FR FT MT. split; [exact FT|]. split; [|split; [|exact MT]].
      - eapply inputs_at_frame; [exact FR| |exact G1']. intros n b key' I K' KO. destruct (input_not_out _ _ _ _ ND K' KO) as (i & AO). eapply size_input; eauto.
      - intros n b key' I K'. apply (fr_entry _ _ _ _ _ FR). eapply G2; eauto. }
    eapply crashes_bind in C; [|apply splits_discover|exact DI]. destruct C as [C|C].
    - unfold discover_producer_partitions in C, DI. eapply crashes_bind_ret in C; [|exact O]. rewrite O in DI.
      apply andthen_ok in DI. destruct DI as (s3 & outs & O' & DI). apply ret_ok in O'. destruct O' as [-> O']. injection O' as <-. cbn [collectM] in C, DI.
      apply andthen_ok in DI. destruct DI as (s3 & fd & RK & DI).
      assert (SPK : splits (V := V) (y <- (l <- read_known E (a_storage a) fps ;; ret (Ok (a, l))) ;; ys <- ret (Ok []) ;; ret (Ok (y :: ys)))).
      { apply splits_bind; [|intro; apply splits_bind; [|intro]; apply splits_ret]. apply splits_bind; [apply splits_read_known|intro; apply splits_ret]. }
      destruct (SPK s1 0 _ _ RK) as (F3 & _).
      eapply crashes_bind in C; [|exact SPK|exact RK]. 
      apply andthen_ok in RK. destruct RK as (s4 & al & RK & X). apply andthen_ok in X. destruct X as (s5 & ys & X1 & X2). apply ret_ok in X1. destruct X1 as [-> X1]. injection X1 as <-.
      apply ret_ok in X2. destruct X2 as [-> X2]. injection X2 as <-. apply andthen_ok in RK. destruct RK as (s5 & fl & RK & X). apply ret_ok in X. destruct X as [-> X]. injection X as <-.
      destruct C as [C|C].
      + eapply crashes_bind in C; [|apply splits_bind; [apply splits_read_known|intro; apply splits_ret]|eapply andthen_step; [exact RK|reflexivity]].
        destruct C as [C|C]; [|eapply crashes_bind_ret in C; [|reflexivity]; now apply crashes_ret in C].
        eapply crashes_bind in C; [|apply splits_read_known|exact RK]. destruct C as [C|C]; [|now apply crashes_ret in C].
        unfold read_known, effect, andthen in RK. rewrite tick_none in RK by reflexivity.
        eapply crashes_effect in C; [|apply quiet_read_known|exact RK]. subst sc. apply FROM. split; [reflexivity|]. split; [reflexivity|exact F1].
      + assert (RKO := RK). apply (read_known_ok E) in RKO. destruct RKO as (-> & RM & RL & RF & _).
        assert (Q : like s5 (lim sc None)).
        { cbn [eachM] in C, DI. apply andthen_ok in DI. destruct DI as (s6 & u & WL & DI). apply andthen_ok in WL. destruct WL as (s7 & [] & WL & X). apply ret_ok in X. destruct X as [-> _].
          eapply crashes_bind in C; [| |eapply andthen_step; [rewrite (lim_none _ F3); exact WL|reflexivity]].
          2: { apply splits_bind; [|intro; apply splits_ret]. apply splits_bind; [apply splits_ret|intro; apply splits_write_links]. }
          destruct C as [C|C]; [|now apply crashes_ret in C].
          eapply crashes_bind in C; [| |rewrite (lim_none _ F3); exact WL]. 2: { apply splits_bind; [apply splits_ret|intro; apply splits_write_links]. }
          destruct C as [C|C]; [|now apply crashes_ret in C].
          cbn [fst snd] in *. eapply crashes_bind_ret in C; [|exact K]. eapply crashes_effect in C; [|apply quiet_write_links|reflexivity]. subst sc. repeat split; auto. }
        assert (FR : frame sn (out_key sn q) (out_storage sn q) s1 s5).
        { assert (W := within_read_known sn (out_key sn q) (out_storage sn q) E (a_storage a) fps (ex_intro _ [a] (ex_intro _ a (conj O (conj (or_introl eq_refl) eq_refl)))) _ _ _ RK).
          eapply frame_trans; [|exact W]. now apply frame_refl. }
        assert (RC : ready E sn q a inputs (lim sc None)).
        { destruct Q as (Q1 & Q2 & Q3). assert (R5 := READY s5 FR F3 RM). unfold ready in *. cbn [lim db fuel] in *. rewrite <- Q2. tauto. }
        assert (R5 := READY s5 FR F3 RM).
        assert (D5 := discover_ready E sn q a key inputs fps O K s5 R5). 
        assert (EQ : build_producer E sn q s5 = (s', Ok tt)).
        { rewrite (resume_ready E sn q a key inputs deps fps O K CD s5 R5).
          cbn [eachM] in DI. apply andthen_ok in DI. destruct DI as (s6 & u & WL & DI). apply andthen_ok in WL. destruct WL as (s7 & [] & WL & X). apply ret_ok in X. destruct X as [-> _].
          apply ret_ok in DI. destruct DI as [-> DI]. injection DI as <-. cbn [fst snd flat_map] in *. rewrite app_nil_r in *.
          apply andthen_ok in WL. destruct WL as (s8 & key' & K' & WL). apply ret_ok in K'. destruct K' as [-> K']. rewrite K in K'. injection K' as <-.
          unfold write_links, effect, andthen in WL. rewrite tick_none in WL by exact F3. injection WL as <-. exact H. }
        destruct (blind_build_producer E sn q s5 (lim sc None) s' (Ok tt) Q EQ) as (s'' & B & L). eauto.
    - fold (build_all E sn q existing fps deps) in C. rewrite <- (lim_none _ F2) in H.
      eapply (loop_resumed E IT sn q a key inputs deps fps ND SO O K CD); [|  |rewrite (lim_none _ F2) in H; exact H|exact C].
      + intros k d n l x k' f' I1 I2 I3. eapply NL; eauto.
      + split; [|split; [exact CO|]].
        * apply READY; auto. assert (W := within_discover E sn q fps _ _ _ DI). eapply frame_trans; [|exact W]. now apply frame_refl.
        * intros k _. rewrite EX. cbn. unfold keys, found. rewrite in_map_iff. split.
          -- intros (x & Q & I). left. exists a, x. auto.
          -- intros [(b & x & [ <- |[]] & I & Q)|[]]. exists x. auto.
  Qed.
End Whole.
