(** Lemmas about building a graph of producers with maps where nothing has been built. *)
From Coq Require Import ZArith List Ascii String Bool Arith Lia Permutation.
From Verif Require Import Base Base_Proofs Str Str_Proofs Graph_Model Graph_Spec Graph_Proofs Backend_Model Backend_Spec Backend_Proofs.
From Verif Require Import Executor_Model Executor_Spec Executor_Proofs Executor_Done_Proofs Executor_Build_Proofs Executor_Write_Proofs
  Executor_Store_Proofs Executor_Id_Proofs Executor_Crash_Proofs Executor_New_Proofs Executor_Stop_Proofs Executor_Restart_Proofs
  Executor_Resumed_Proofs Executor_Top_Proofs Json_Model Json_Spec Json_Exact_Proofs Access_Model Access_Spec Access_Proofs Access_Build_Proofs Layout_Proofs Whole_Model Whole_Spec Whole_Proofs Whole_Total_Proofs Mapped_Spec.
Import ListNotations.
Open Scope list_scope.

Lemma Forall2_in_l : forall A B (R : A -> B -> Prop) l m x, Forall2 R l m -> In x l -> exists y, In y m /\ R x y.
Proof.
  intros A B R l m x F. induction F as [|a b l m H F IH]; intro I; [destruct I|]. destruct I as [ <- |I]; [exists b; split; [now left|exact H]|].
  destruct (IH I) as (y & Iy & Ry). exists y. split; [now right|exact Ry].
Qed.
Lemma Forall2_in_r : forall A B (R : A -> B -> Prop) l m y, Forall2 R l m -> In y m -> exists x, In x l /\ R x y.
Proof.
  intros A B R l m y F. induction F as [|a b l m H F IH]; intro I; [destruct I|]. destruct I as [ <- |I]; [exists a; split; [now left|exact H]|].
  destruct (IH I) as (x & Ix & Rx). exists x. split; [now right|exact Rx].
Qed.

Section Write.
  Context {V : Type} (E : env V) (sn : snapshot).
  Notation g := (s_graph sn).
  (** A partition of the artifact holds the value. *)
  Definition holding (s : state V) (a : artifact) (x : psnapshot) (kv : pkey * V) : Prop :=
    ps_key x = fst kv /\ pt_storage (ps_part x) = a_storage a /\ negb (is_nil (ps_key x)) = st_partitioned (a_storage a) /\
    exists d, dump E a (snd kv) = Ok d /\ holds_data s x d.
  (** The partitions of the artifact hold the values. *)
  Definition column (s : state V) (a : artifact) (T : list (pkey * V)) : Prop :=
    exists key, key_of g a = Ok key /\ Forall2 (holding s a) (links_of (db s) sn key) T.

  Lemma column_kept : forall K T (s s' : state V) a l, frame sn K T s s' -> (forall key, key_of g a = Ok key -> ~ K key) ->
    (forall t, T t -> st_id t <> st_id (a_storage a)) -> column s a l -> column s' a l.
  Proof.
    intros K T s s' a l F NK NT (key & KO & C). exists key. split; [exact KO|]. rewrite (fr_links _ _ _ _ _ F) by auto.
    eapply Forall2_impl; [|exact C]. intros x kv (H1 & H2 & H3 & d & D & H). split; [exact H1|]. split; [exact H2|]. split; [exact H3|]. exists d. split; [exact D|].
    revert H. unfold holds_data. rewrite H2. destruct (st_kind (a_storage a)); [|auto]. intro H. rewrite (fr_files _ _ _ _ _ F); [exact H|]. cbn. auto.
  Qed.
  Lemma io_write_elsewhere : forall a v p s s' x l, io_write E a v p s = (s', Ok x) -> l <> location_of p ->
    dget location_eqb (files s') l = dget location_eqb (files s) l.
  Proof.
    intros a v p s s' x l H N. unfold io_write in H. destruct (st_kind (pt_storage p)).
    - apply andthen_ok in H. destruct H as (s1 & u & H1 & H). apply effect_ok in H1. destruct H1 as (s2 & F2 & _ & _ & H1). injection H1 as <-.
      apply andthen_ok in H. destruct H as (s3 & d & H3 & H). apply ret_ok in H3. destruct H3 as [-> _].
      apply andthen_ok in H. destruct H as (s3 & u' & H3 & H). apply effect_ok in H3. destruct H3 as (s4 & F4 & _ & _ & H3). injection H3 as <-. injection H as <- _.
      cbn [with_log with_file files] in *. rewrite (dget_dset_other _ location_eqb_spec) by congruence. rewrite F4, (dget_dset_other _ location_eqb_spec) by congruence. now rewrite F2.
    - destruct (pt_value p); [discriminate|]. apply andthen_ok in H. destruct H as (s1 & d & H1 & H). apply ret_ok in H1. destruct H1 as [-> _]. now injection H as <- _.
  Qed.

  Lemma write_output_adds : forall p i a f k v s s' r T, write_output E sn p i a f k v s = (s', Ok r) -> column s a T -> ~ In k (map fst T) ->
    column s' a (T ++ [(k, v)]) /\ check E p i a v = Ok tt.
  Proof.
    intros p i a f k v s s' r T H (key0 & K0 & C) NI. apply andthen_ok in H. destruct H as (s1 & key & K & H). apply ret_ok in K. destruct K as [-> K].
    rewrite K in K0. injection K0 as <-.
    apply andthen_ok in H. destruct H as (s1 & u1 & U1 & H). apply ret_ok in U1. destruct U1 as [-> _].
    apply andthen_ok in H. destruct H as (s1 & [] & U2 & H). apply ret_ok in U2. destruct U2 as [-> U2].
    apply andthen_ok in H. destruct H as (s1 & part & U3 & H). apply ret_ok in U3. destruct U3 as [-> P].
    apply andthen_ok in H. destruct H as (s1 & x & W & H).
    assert (FW : frame sn nothing (fun t => t = pt_storage part) s s1) by (revert W; now apply within_io_write).
    assert (EL := fun l => io_write_elsewhere _ _ _ _ _ _ l W).
    apply io_write_data in W. destruct W as (d & D & XK & XF & XS & XH & _).
    apply generate_partition_storage in P. destruct P as (P1 & P2 & P3 & _ & P4 & _).
    apply andthen_ok in H. destruct H as (s2 & u4 & W1 & W2). apply effect_ok in W1. destruct W1 as (s3 & F3 & D3 & _ & W1). injection W1 as <-.
    apply write_links_ok in W2. destruct W2 as [W2 W3]. cbn [with_db files db] in *.
    split; [|exact U2]. exists key. split; [exact K|].
    assert (NX : ~ In x (links_of (db s) sn key)).
    { intro I. apply NI. destruct (Forall2_in_l _ _ _ _ _ _ C I) as (kv & IT & (Q & _)). replace k with (fst kv); [now apply in_map|]. rewrite <- Q. unfold ps_key. congruence. }
    rewrite W2, wl_links. rewrite (proj2 (snapshot_eqb_spec _ _) eq_refl), (proj2 (str_eqb_spec _ _) eq_refl). cbn [andb].
    rewrite (links_of_same (db s1)); [|rewrite D3; apply wa_other]. rewrite (fr_links _ _ _ _ _ FW) by (right; intros []).
    assert (AD : adds (links_of (db s) sn key) [x] = links_of (db s) sn key ++ [x]).
    { cbn [adds fold_left]. destruct (existsb (psnapshot_eqb x) _) eqn:EX; [|reflexivity]. apply (existsb_In _ psnapshot_eqb_spec) in EX. contradiction. }
    rewrite AD. apply Forall2_app.
    - assert (KX : forall y, In y (links_of (db s) sn key) -> ps_key y <> k).
      { intros y I Q. apply NI. destruct (Forall2_in_l _ _ _ _ _ _ C I) as (kv & IT & (Q' & _)). rewrite <- Q, Q'. now apply in_map. }
      clear AD NX. revert C KX. generalize (links_of (db s) sn key). intros l C. induction C as [|y kv l T (Q1 & Q2 & Q3 & d' & D' & HD) C IH]; intro KX; constructor.
      + split; [exact Q1|]. split; [exact Q2|]. split; [exact Q3|]. exists d'. split; [exact D'|]. revert HD. rewrite !holds_content. rewrite W3, F3. unfold content.
        destruct (st_kind (pt_storage (ps_part y))); [|auto]. rewrite EL; [auto|]. unfold location_of. intro Q. injection Q as _ Q _. apply (KX y (or_introl eq_refl)). unfold ps_key. congruence.
      + apply IH; [|intros z I; apply KX; now right]. intro I. apply NI. now right.
    - constructor; [|constructor]. split; [unfold ps_key; cbn; congruence|]. split; [congruence|]. split; [unfold ps_key; congruence|]. exists d. split; [exact D|].
      revert XH. rewrite !holds_content. now rewrite W3, F3.
  Qed.

  Lemma write_outputs_adds : forall p outs f k vs i s s' r, NoDup (map fst (g_arts g)) -> distinct_paths (g_arts g) -> no_gaps (g_arts g) ->
    outputs_of g p = Ok outs -> write_outputs E sn p f k i outs vs s = (s', Ok r) ->
    (forall j a T, j < i -> nth_error outs j = Some a -> column s a T -> column s' a T) /\
    forall j v, nth_error vs j = Some v -> exists a, nth_error outs (i + j) = Some a /\
      forall T, column s a T -> ~ In k (map fst T) -> column s' a (T ++ [(k, v)]) /\ check E p (i + j) a v = Ok tt.
  Proof.
    intros p outs f k vs. induction vs as [|v vs IH]; intros i s s' r ND DP NG O H; cbn [write_outputs] in H.
    { injection H as <- _. split; [auto|]. intros [|j] v X; discriminate. }
    apply andthen_ok in H. destruct H as (s1 & a & A & H). apply ret_ok in A. destruct A as [-> A].
    destruct (nth_error outs i) as [a'|] eqn:NE; [|discriminate]. injection A as ->.
    apply andthen_ok in H. destruct H as (s1 & u & U & H). apply ret_ok in U. destruct U as [-> _].
    apply andthen_ok in H. destruct H as (s1 & u' & W & H). assert (F := write_output_frame E sn _ _ _ _ _ _ _ _ _ W).
    assert (PO := nth_position sn p outs). assert (PA := PO i a NG O NE).
    assert (DIFF : forall j b, nth_error outs j = Some b -> j <> i -> a <> b).
    { intros j b NB NJ <-. destruct PA as (? & _ & PA). assert (PB := PO j a NG O NB). destruct PB as (? & _ & PB). congruence. }
    assert (DK : forall j b key, nth_error outs j = Some b -> j <> i -> key_of g b = Ok key -> key_of g a <> Ok key).
    { intros j b key NB NJ KB KA. apply (DIFF j b NB NJ). eapply key_inj; eauto. }
    assert (KEPT : forall j b T, nth_error outs j = Some b -> j <> i -> column s b T -> column s1 b T).
    { intros j b T NB NJ. apply (column_kept _ _ _ _ _ _ F); [intros key KB; now apply (DK j b)|]. intros t -> EQ.
      apply (DIFF j b NB NJ). assert (PB := PO j b NG O NB). eapply DP; eauto. }
    destruct (IH (S i) s1 s' r ND DP NG O H) as [K1 K2]. split.
    - intros j b T LT NB SB. apply K1 with (j := j); [lia|exact NB|]. apply (KEPT j); auto. lia.
    - intros [|j] w X.
      + injection X as <-. exists a. rewrite Nat.add_0_r. split; [exact NE|]. intros T CT NI.
        destruct (write_output_adds _ _ _ _ _ _ _ _ _ _ W CT NI) as [C1 C2]. split; [|exact C2]. now apply K1 with (j := i); [lia|..].
      + destruct (K2 j w X) as (b & NB & SB). exists b. rewrite Nat.add_succ_r. split; [exact NB|]. intros T CT. apply SB.
        apply (KEPT _ _ _ NB); [lia|exact CT].
  Qed.

  (** What a list of partitions is read as is subject to the check of their number. *)
  Definition reads_apart (s : state V) (p : producer) (deps : list (str * list psnapshot)) (args : list (str * V)) : Prop :=
    Forall2 (fun name nv => fst nv = name /\ exists a d ds, dget str_eqb (p_inputs p) name = Some a /\ dget str_eqb deps name = Some d /\
               d <> [] /\ (1 < List.length d -> st_partitioned (a_storage a) = true) /\ Forall2 (holds_data s) d ds /\ load E a ds = Ok (snd nv))
            (c_build_inputs (classes E (p_class p))) args.
  Lemma reads_apart_ok : forall p deps names s s' args,
    collectM (fun name =>
        a <- ret (match dget str_eqb (p_inputs p) name with Some a => Ok a | None => Err KeyError end) ;;
        d <- ret (match dget str_eqb deps name with Some d => Ok d | None => Err KeyError end) ;;
        v <- read_input E sn a d ;; ret (Ok (name, v))) names s = (s', Ok args) ->
    Forall2 (fun name nv => fst nv = name /\ exists a d ds, dget str_eqb (p_inputs p) name = Some a /\ dget str_eqb deps name = Some d /\
               d <> [] /\ (1 < List.length d -> st_partitioned (a_storage a) = true) /\ Forall2 (holds_data s) d ds /\ load E a ds = Ok (snd nv)) names args.
  Proof.
    induction names as [|n names IH]; intros s s' args H; cbn [collectM] in H; [injection H as <- <-; constructor|].
    apply andthen_ok in H. destruct H as (s1 & y & H1 & H). apply andthen_ok in H1. destruct H1 as (s2 & a & A & H1). apply ret_ok in A. destruct A as [-> A].
    apply andthen_ok in H1. destruct H1 as (s2 & d & D & H1). apply ret_ok in D. destruct D as [-> D].
    apply andthen_ok in H1. destruct H1 as (s2 & v & VV & H1). apply ret_ok in H1. destruct H1 as [-> Y]. injection Y as <-.
    apply andthen_ok in VV. destruct VV as (s3 & key & K & VV). apply ret_ok in K. destruct K as [-> K].
    unfold io_read in VV. injection VV as <- VV. apply andthen_ok in H. destruct H as (s3 & ys & H2 & H). apply ret_ok in H. destruct H as [-> Q]. injection Q as <-.
    constructor; [|eapply IH, H2]. split; [reflexivity|]. cbn [snd]. destruct (dget str_eqb (p_inputs p) n) as [a'|] eqn:DA; [|discriminate]. injection A as ->.
    destruct (dget str_eqb deps n) as [d'|] eqn:DD; [|discriminate]. injection D as ->. destruct d as [|x0 d]; [discriminate|].
    destruct ((1 <? List.length (x0 :: d)) && negb (st_partitioned (a_storage a)))%bool eqn:LP; [discriminate|].
    destruct (mapM _ (x0 :: d)) as [ds|] eqn:MM; [|discriminate]. exists a, (x0 :: d), ds. split; [reflexivity|]. split; [reflexivity|]. split; [discriminate|].
    split. { intro LT. apply Nat.ltb_lt in LT. rewrite LT in LP. cbn in LP. now destruct (st_partitioned (a_storage a)). }
    split; [|exact VV]. apply mapM_Forall2 in MM. eapply Forall2_impl; [|exact MM]. intros x c C. apply holds_content. cbn in C.
    destruct (content (files s) (ps_part x)); [congruence|discriminate].
  Qed.

  Lemma partition_adds : forall p existing f deps k s s' r, NoDup (map fst (g_arts g)) -> distinct_paths (g_arts g) -> no_gaps (g_arts g) -> ~ In k existing ->
    build_producer_partition E sn p existing f deps k s = (s', Ok r) ->
    exists args vs, reads_apart s p deps args /\ runs (classes E (p_class p)) args (Ok vs) /\ c_validate (classes E (p_class p)) vs = Ok true /\
      forall i v, nth_error vs i = Some v -> exists a, produces (g_arts g) p i a /\
        forall T, column s a T -> ~ In k (map fst T) -> column s' a (T ++ [(k, v)]) /\ check E p i a v = Ok tt.
  Proof.
    intros p existing f deps k s s' r ND DP NG NI H. unfold build_producer_partition in H.
    destruct (existsb (str_eqb k) existing) eqn:EX.
    { apply existsb_exists in EX. destruct EX as (k' & I & Q). apply str_eqb_spec in Q. subst k'. contradiction. }
    apply andthen_ok in H. destruct H as (s1 & args & RA & H). assert (RO := reads_apart_ok p deps _ _ _ _ RA). apply read_args_same in RA. subst s1.
    apply andthen_ok in H. destruct H as (s1 & vs & CB & H). apply effect_ok in CB. destruct CB as (s2 & F2 & D2 & L2 & CB). injection CB as <- CB.
    apply andthen_ok in H. destruct H as (s3 & ok & CV & H). apply effect_ok in CV. destruct CV as (s4 & F4 & D4 & L4 & CV). injection CV as <- CV.
    destruct ok; [|discriminate]. apply andthen_ok in H. destruct H as (s5 & outs & O & H). apply ret_ok in O. destruct O as [-> O].
    cbn in F4, D4, L4. exists args, vs. split; [exact RO|]. split.
    { unfold runs. unfold class_of in CB. destruct (c_build (classes E (p_class p))); [|auto]. destruct (f0 args); cbn in CB; congruence. }
    split; [exact CV|]. intros i v NV. destruct (write_outputs_adds p outs f k vs 0 _ _ _ ND DP NG O H) as [_ W].
    destruct (W i v NV) as (a & NA & ST). exists a. split; [eapply nth_position; eauto|]. intros T (key & K & C). apply ST. exists key. split; [exact K|].
    cbn [with_log db]. rewrite D4, D2. eapply Forall2_impl; [|exact C]. intros x kv (Q1 & Q2 & Q3 & d & Q4 & Q5). split; [exact Q1|]. split; [exact Q2|]. split; [exact Q3|].
    exists d. split; [exact Q4|]. revert Q5. rewrite !holds_content. cbn [with_log files]. now rewrite F4, F2.
  Qed.
End Write.

Section Partitions.
  Context {V : Type} (E : env V) (IT : iterates E) (sn : snapshot).
  Notation g := (s_graph sn).
  Context (W : in_order E (g_arts g)) (DP : distinct_paths (g_arts g)) (NG : no_gaps (g_arts g)).

  Lemma nothing_at_all : forall (s : state V) t fps found, st_templated t = true -> (forall k f, dget location_eqb (files s) (st_id t, k, Some f) = None) ->
    discover E (files s) t fps = Ok found -> found = [].
  Proof.
    intros s t fps found T N H. destruct fps as [|kf fps]; [|eapply nothing_found; eauto; discriminate]. destruct (st_kind t) as [|v] eqn:SK.
    - destruct (discover_file E (files s) t [] SK T) as (found' & H' & FF). rewrite H in H'. injection H' as <-.
      destruct found as [|x found]; [reflexivity|]. destruct (proj1 (FF x) (or_introl eq_refl)) as (k & f & d & _ & _ & D & _). now rewrite N in D.
    - revert H. unfold discover. rewrite SK. cbn [is_nil negb andb]. destruct (st_partitioned t) eqn:PT; [discriminate|]. cbn [andb]. destruct v; [|now intros [= <-]].
      cbn [mapM bind fst snd]. unfold generate_partition. rewrite PT, T. cbn. discriminate.
  Qed.
  Lemma discover_nothing_at_all : forall p fps s s' existing,
    (forall outs a, outputs_of g p = Ok outs -> In a outs -> st_templated (a_storage a) = true /\ dmem storage_eqb (known (db s)) (a_storage a) = false /\
       forall k f, dget location_eqb (files s) (st_id (a_storage a), k, Some f) = None) ->
    discover_producer_partitions E sn p fps s = (s', Ok existing) ->
    existing = [] /\ files s' = files s /\ forall sn' k, links_of (db s') sn' k = links_of (db s) sn' k.
  Proof.
    intros p fps s s' existing N H. apply andthen_ok in H. destruct H as (s1 & outs & O & H). apply ret_ok in O. destruct O as [-> O].
    apply andthen_ok in H. destruct H as (s1 & found & C & H). apply andthen_ok in H. destruct H as (s2 & u & L & H).
    apply ret_ok in H. destruct H as [-> H]. injection H as <-.
    destruct (collect_known_ok E sn _ _ _ _ _ C) as (-> & CA & CL & CF).
    assert (EM : forall al, In al (map (fun a => (a, iter_set E (select fps (known_of (db s1) (a_storage a))))) outs) -> snd al = []).
    { intros al I. apply in_map_iff in I. destruct I as (a & <- & I). cbn [snd]. destruct (CA a I) as [_ F]. destruct (N outs a O I) as (T & M & NFi).
      unfold finds in F. rewrite M in F. destruct F as (fd & D & ->). rewrite (nothing_at_all _ _ _ _ T NFi D). cbn [adds fold_left].
      assert (SN : select fps [] = []) by (destruct fps; reflexivity). rewrite SN. now apply iter_nil. }
    split; [|split].
    - assert (FM : flat_map snd (map (fun a => (a, iter_set E (select fps (known_of (db s1) (a_storage a))))) outs) = []); [|now rewrite FM].
      revert EM. generalize (map (fun a => (a, iter_set E (select fps (known_of (db s1) (a_storage a))))) outs). intro l.
      induction l as [|al l IH]; intro EM; [reflexivity|]. cbn [flat_map]. rewrite (EM al (or_introl eq_refl)). apply IH. intros; apply EM; now right.
    - destruct (link_all_ok sn _ _ _ _ L) as (_ & LF & _). congruence.
    - intros sn' k. rewrite (link_nothing sn _ _ _ _ EM L). unfold links_of. now rewrite CL.
  Qed.

  (** Files that the producer leaves alone. *)
  Definition quiet (q : producer) (l : location) : Prop := snd l = None \/ forall t, out_storage sn q t -> st_id t <> fst (fst l).
  Definition foreign (q : producer) (x : psnapshot) : Prop :=
    match st_kind (pt_storage (ps_part x)) with SFile => quiet q (location_of (ps_part x)) | SLiteral _ => True end.
  Definition out_col (j : nat) (outs : list (pkey * list V)) (T : list (pkey * V)) : Prop :=
    Forall2 (fun o kv => fst kv = fst o /\ nth_error (snd o) j = Some (snd kv)) outs T.
  Lemma out_col_keys : forall j outs T, out_col j outs T -> map fst T = map fst outs.
  Proof. intros j outs T H. induction H as [|o kv outs T [H _] _ IH]; [reflexivity|]. cbn. now rewrite H, IH. Qed.

  Definition builds (s : state V) (q : producer) (kd : pkey * list (str * list psnapshot)) (o : pkey * list V) : Prop :=
    fst o = fst kd /\ exists args, reads_apart E s q (snd kd) args /\ runs (classes E (p_class q)) args (Ok (snd o)) /\
      c_validate (classes E (p_class q)) (snd o) = Ok true /\
      forall j a v, produces (g_arts g) q j a -> nth_error (snd o) j = Some v -> check E q j a v = Ok tt /\ exists d, dump E a v = Ok d.

  Lemma each_adds : forall q fps kds s0 s s' r done, NoDup (map fst done ++ map fst kds) ->
    (forall j a, produces (g_arts g) q j a -> exists T, out_col j done T /\ column E sn s a T) ->
    (forall l, quiet q l -> dget location_eqb (files s) l = dget location_eqb (files s0) l) ->
    (forall kd n l x, In kd kds -> dget str_eqb (snd kd) n = Some l -> In x l -> foreign q x) ->
    eachM (fun kd => f <- ret (match get_fp fps (fst kd) with Some f => Ok f | None => Err ValueError end) ;;
      build_producer_partition E sn q [] f (snd kd) (fst kd)) kds s = (s', Ok r) ->
    exists outs, Forall2 (builds s0 q) kds outs /\
      forall j a, produces (g_arts g) q j a -> exists T, out_col j (done ++ outs) T /\ column E sn s' a T.
  Proof.
    intros q fps kds. induction kds as [|kd kds IH]; intros s0 s s' r done ND CO QU FO H; cbn [eachM] in H.
    { injection H as <- _. exists []. split; [constructor|]. now rewrite app_nil_r. }
    apply andthen_ok in H. destruct H as (s1 & u & H1 & H2). apply andthen_ok in H1. destruct H1 as (s2 & f & GF & H1). apply ret_ok in GF. destruct GF as [-> GF].
    assert (FR := within_build_partition E sn _ _ _ _ _ _ _ _ H1). destruct (tame_build_partition E sn _ _ _ _ _ _ _ _ H1) as [_ TM].
    destruct (partition_adds E sn q [] f _ _ _ _ _ (io_keys _ _ W) DP NG (fun x => x) H1) as (args & vs & RD & RU & CV & WR).
    assert (NK : ~ In (fst kd) (map fst done)). { cbn in ND. apply NoDup_remove_2 in ND. intro I. apply ND, in_app_iff. now left. }
    assert (STEP : forall j a, produces (g_arts g) q j a -> exists T v, out_col j done T /\ nth_error vs j = Some v /\ column E sn s1 a (T ++ [(fst kd, v)]) /\ check E q j a v = Ok tt).
    { intros j a PA. destruct (CO j a PA) as (T & OC & CT). assert (LT := io_declared _ _ W _ _ _ PA). rewrite <- (io_returns _ _ W _ _ _ _ _ PA RU) in LT.
      destruct (nth_error vs j) as [v|] eqn:NV; [|apply nth_error_None in NV; lia]. destruct (WR j v NV) as (a' & PA' & WA).
      assert (a' = a) by (eapply (io_positions _ _ W); eauto). subst a'. exists T, v. split; [exact OC|]. split; [reflexivity|].
      apply WA; [exact CT|]. now rewrite (out_col_keys _ _ _ OC). }
    destruct (IH s0 s1 s' r (done ++ [(fst kd, vs)])) as (outs & B & C); [| | | |exact H2|].
    - rewrite map_app. cbn [map fst] in *. now rewrite <- app_assoc.
    - intros j a PA. destruct (STEP j a PA) as (T & v & OC & NV & CT & _). exists (T ++ [(fst kd, v)]). split; [|exact CT]. apply Forall2_app; [exact OC|]. repeat constructor. exact NV.
    - intros l Q. rewrite <- (QU l Q). destruct Q as [Q|Q].
      + destruct l as [[i k] o]. cbn in Q. subst o. apply TM.
      + apply (fr_files _ _ _ _ _ FR). exact Q.
    - intros kd' n l x I. apply FO. now right.
    - exists ((fst kd, vs) :: outs). split.
      + constructor; [|exact B]. split; [reflexivity|]. exists args. split; [|split; [exact RU|split; [exact CV|]]].
        * unfold reads_apart in *. eapply Forall2_impl; [|exact RD]. cbn beta. intros name nv (N1 & a & dl & ds & A1 & A2 & A3 & A4 & A5 & A6). split; [exact N1|].
          exists a, dl, ds. repeat split; auto. assert (FX : forall x, In x dl -> foreign q x) by (intros x I; eapply FO; [now left|exact A2|exact I]).
          clear - A5 FX QU. induction A5 as [|x d dl ds H A5 IH]; constructor; [|apply IH; intros y I; apply FX; now right].
          assert (FQ := FX x (or_introl eq_refl)). revert H. unfold foreign in FQ. rewrite !holds_content. unfold content. destruct (st_kind (pt_storage (ps_part x))); [|auto]. now rewrite (QU _ FQ).
        * intros j a v PA NV. cbn [snd] in NV. destruct (STEP j a PA) as (T & v' & OC & NV' & (key & _ & CT) & CK). assert (v' = v) by congruence. subst v'. split; [exact CK|].
          destruct (Forall2_in_r _ _ _ _ _ (fst kd, v) CT) as (x & _ & (_ & _ & _ & d & D & _)); [apply in_app_iff; right; now left|]. exists d. exact D.
      + intros j a PA. destruct (C j a PA) as (T & OC & CT). exists T. split; [|exact CT]. now rewrite <- app_assoc in OC.
  Qed.
End Partitions.

Section Keys.
  Lemma chosen_one : forall (l : list psnapshot) k, NoDup (map ps_key l) -> In k (map ps_key l) ->
    exists x, filter (fun x => str_eqb (ps_key x) k) l = [x] /\ In x l /\ ps_key x = k.
  Proof.
    induction l as [|y l IH]; intros k ND I; [destruct I|]. cbn [map] in *. inversion ND as [|? ? N1 N2]; subst. cbn [filter].
    destruct (str_eqb (ps_key y) k) eqn:Q.
    - apply str_eqb_spec in Q. subst k. exists y. split; [|split; [now left|reflexivity]]. f_equal.
      assert (EM : forall m, ~ In (ps_key y) (map ps_key m) -> filter (fun x => str_eqb (ps_key x) (ps_key y)) m = []).
      { induction m as [|z m IHm]; intro NI; [reflexivity|]. cbn [filter map] in *. destruct (str_eqb (ps_key z) (ps_key y)) eqn:Q; [|apply IHm; intro; apply NI; now right].
        apply str_eqb_spec in Q. exfalso. apply NI. now left. }
      now apply EM.
    - destruct I as [I|I]; [apply str_eqb_spec in I; congruence|]. destruct (IH k N2 I) as (x & F & Ix & Kx). exists x. split; [exact F|]. split; [now right|exact Kx].
  Qed.
  Lemma chosen_all : forall (l : list psnapshot) ks, NoDup (map ps_key l) -> (forall k, In k ks -> In k (map ps_key l)) ->
    Forall2 (fun k x => In x l /\ ps_key x = k) ks (flat_map (fun k => filter (fun x => str_eqb (ps_key x) k) l) ks).
  Proof.
    intros l ks ND. induction ks as [|k ks IH]; intro I; [constructor|]. cbn [flat_map]. destruct (chosen_one l k ND (I k (or_introl eq_refl))) as (x & -> & Ix & Kx).
    cbn [app]. constructor; [auto|]. apply IH. intros k' I'. apply I. now right.
  Qed.
  Lemma dget_filter : forall A (f : str -> bool) (l : list (str * A)) n, dget str_eqb (filter (fun i => f (fst i)) l) n = if f n then dget str_eqb l n else None.
  Proof.
    intros A f l n. induction l as [|[m x] l IH]; [now destruct (f n)|]. cbn [filter fst dget]. destruct (f m) eqn:F; cbn [dget]; destruct (str_eqb m n) eqn:Q.
    - apply str_eqb_spec in Q. subst m. now rewrite F.
    - exact IH.
    - apply str_eqb_spec in Q. subst m. rewrite IH. now rewrite F.
    - exact IH.
  Qed.
  Lemma dget_map_snd : forall A B (f : str -> A -> B) (l : list (str * A)) n,
    dget str_eqb (map (fun i => (fst i, f (fst i) (snd i))) l) n = match dget str_eqb l n with Some x => Some (f n x) | None => None end.
  Proof.
    intros A B f l n. induction l as [|[m x] l IH]; [reflexivity|]. cbn [map fst snd dget]. destruct (str_eqb m n) eqn:Q; [|exact IH].
    apply str_eqb_spec in Q. now subst m.
  Qed.
End Keys.

Section Fresh.
  Context {V : Type} (E : env V) (K : str -> key_map) (J : artifact -> list V -> result V) (IT : iterates E) (IO : iterates_once E) (sn : snapshot).
  Notation g := (s_graph sn).
  Context (W : in_order E (g_arts g)) (DP : distinct_paths (g_arts g)) (NG : no_gaps (g_arts g)) (TP : templated (g_arts g))
    (BK : by_keys E K (g_arts g)) (JO : joins E J) (s0 : state V) (SV : rows_survive E K J s0 (g_arts g)).
  Notation table := (table E K J s0).
  Notation made := (made E K J s0).
  Notation tables := (tables E K J s0).

  Record minv (pre : list node) (s : state V) : Prop := {
    mi_raw : forall a key x, a_output a = None -> key_of g a = Ok key -> (In x (links_of (db s) sn key) <-> raw_found E s0 (a_storage a) x);
    mi_once : forall a key, a_output a = None -> key_of g a = Ok key -> NoDup (links_of (db s) sn key);
    mi_files : forall i k, dget location_eqb (files s) (i, k, None) = dget location_eqb (files s0) (i, k, None);
    mi_done : forall p i a, produces (g_arts g) p i a -> In (NProducer p) pre -> exists outs, made p outs /\ NoDup (map fst outs) /\
      forall j b, produces (g_arts g) p j b -> exists T, out_col j outs T /\ column E sn s b T;
    mi_todo : forall p i a, produces (g_arts g) p i a -> ~ In (NProducer p) pre -> dmem storage_eqb (known (db s)) (a_storage a) = false /\
      (forall k f, dget location_eqb (files s) (st_id (a_storage a), k, Some f) = None) /\
      forall key, key_of g a = Ok key -> links_of (db s) sn key = [] }.

  (** The partitions [l] of the artifact hold its rows. *)
  Definition shows (P : psnapshot -> Prop) (s : state V) (a : artifact) (l : list psnapshot) (T : rows V) : Prop :=
    table a T /\ NoDup (map ps_key l) /\
    Forall2 (fun x r => fst r = ps_key x /\ P x /\ exists d, holds_data s x d /\ snd r = load E a [d]) l T.

  Lemma holds_one : forall (s : state V) x d d', holds_data s x d -> holds_data s x d' -> d = d'.
  Proof. intros s x d d'. rewrite !holds_content. congruence. Qed.
  Lemma raw_key : forall t x y, raw_found E s0 t x -> raw_found E s0 t y -> ps_key x = ps_key y -> x = y.
  Proof.
    intros t x y (_ & X) (_ & Y) Q. destruct (st_kind t).
    - destruct X as (k & d & D & _ & ->), Y as (k' & d' & D' & _ & ->). cbn in Q. subst k'. assert (d' = d) by congruence. now subst d'.
    - destruct X as (d & D & _ & ->), Y as (d' & D' & _ & ->). assert (d' = d) by congruence. now subst d'.
  Qed.
  Lemma raw_holds : forall t x, raw_found E s0 t x -> pt_storage (ps_part x) = t /\ ps_fp x = None /\ exists d, holds_data s0 x d.
  Proof.
    intros t x (_ & X). unfold holds_data. destruct (st_kind t) eqn:SK.
    - destruct X as (k & d & D & _ & ->). cbn. rewrite SK. eauto.
    - destruct X as (d & D & _ & ->). cbn. rewrite SK. eauto.
  Qed.
  Lemma NoDup_keys : forall (l : list psnapshot), NoDup l -> (forall x y, In x l -> In y l -> ps_key x = ps_key y -> x = y) -> NoDup (map ps_key l).
  Proof.
    induction l as [|x l IH]; intros ND INJ; [constructor|]. inversion ND as [|? ? N1 N2]; subst. cbn. constructor.
    - intro I. apply in_map_iff in I. destruct I as (y & Q & I). apply N1. rewrite (INJ x y); auto; [now left|now right].
    - apply IH; [exact N2|]. intros y z Iy Iz. apply INJ; now right.
  Qed.
  Lemma iter_perm : forall l, NoDup l -> Permutation l (iter_set E l).
  Proof. intros l ND. apply NoDup_Permutation; [exact ND|now apply IO|]. intro x. symmetry. apply IT. Qed.

  Lemma out_col_rows : forall j outs (T : list (pkey * V)), out_col j outs T -> output_column j outs (map (fun kv : pkey * V => (fst kv, Ok (snd kv))) T).
  Proof. intros j outs T H. induction H as [|o kv outs T [H1 H2] H IH]; constructor; [|exact IH]. cbn. split; [exact H1|]. eauto. Qed.

  Lemma column_shows : forall (P : psnapshot -> Prop) s a p i outs T key, produces (g_arts g) p i a -> made p outs -> NoDup (map fst outs) -> out_col i outs T ->
    key_of g a = Ok key -> Forall2 (holding E s a) (links_of (db s) sn key) T ->
    (forall x, In x (links_of (db s) sn key) -> P x) ->
    exists T', Permutation (map (fun kv : pkey * V => (fst kv, Ok (snd kv))) T) T' /\ shows P s a (iter_set E (links_of (db s) sn key)) T'.
  Proof.
    intros P s a p i outs T key PA MA ND OC KA CT FO.
    assert (KT : map ps_key (links_of (db s) sn key) = map fst T).
    { clear - CT. induction CT as [|x kv l T (H & _) CT IH]; [reflexivity|]. cbn. now rewrite H, IH. }
    assert (NL : NoDup (map ps_key (links_of (db s) sn key))) by (rewrite KT, (out_col_keys _ _ _ OC); exact ND).
    assert (PM : Permutation (links_of (db s) sn key) (iter_set E (links_of (db s) sn key))) by (apply iter_perm; eapply NoDup_map_inv; exact NL).
    assert (VS : forall kv, In kv T -> exists vs, In (fst kv, vs) outs /\ nth_error vs i = Some (snd kv)).
    { clear - OC. induction OC as [|o kv outs T [H1 H2] OC IH]; intros kv' I; [destruct I|]. destruct I as [ <- |I].
      - exists (snd o). split; [left; rewrite H1; now destruct o|exact H2].
      - destruct (IH _ I) as (vs & I1 & I2). exists vs. split; [now right|exact I2]. }
    assert (F : Forall2 (fun x r => fst r = ps_key x /\ P x /\ exists d, holds_data s x d /\ snd r = load E a [d])
                  (links_of (db s) sn key) (map (fun kv : pkey * V => (fst kv, Ok (snd kv))) T)).
    { clear - CT VS FO MA PA SV. revert CT FO. generalize (links_of (db s) sn key). intros l CT. induction CT as [|x kv l T (H1 & H2 & H3 & d & D & HD) CT IH]; intro FO; constructor.
      - cbn [fst snd]. split; [auto|]. split; [apply FO; now left|]. exists d. split; [exact HD|]. destruct (VS kv (or_introl eq_refl)) as (vs & I1 & I2). symmetry. eapply SV; eauto.
      - apply IH; [intros kv' I; apply VS; now right|]. intros y I. apply FO. now right. }
    destruct (Permutation_Forall2 PM F) as (T' & P1 & P2). exists T'. split; [exact P1|]. split; [|split; [|exact P2]].
    - eapply table_order; [|exact P1]. eapply table_built; [|exact MA|exact (out_col_rows _ _ _ OC)]. now destruct PA as (? & _ & PA).
    - eapply Permutation_NoDup; [|exact NL]. now apply Permutation_map.
  Qed.
  Lemma raw_shows : forall q pre s a key, minv pre s -> a_output a = None -> key_of g a = Ok key ->
    exists T, shows (foreign sn q) s a (iter_set E (links_of (db s) sn key)) T.
  Proof.
    intros q pre s a key IV AO KA. assert (ND := mi_once _ _ IV a key AO KA). assert (PM := iter_perm _ ND).
    assert (RF : forall x, In x (iter_set E (links_of (db s) sn key)) <-> raw_found E s0 (a_storage a) x).
    { intro x. rewrite <- (mi_raw _ _ IV a key x AO KA). apply IT. }
    assert (NI : NoDup (iter_set E (links_of (db s) sn key))) by (now apply IO).
    assert (HS : forall x d, raw_found E s0 (a_storage a) x -> holds_data s0 x d -> holds_data s x d).
    { intros x d R. destruct (raw_holds _ _ R) as (_ & Q2 & _). unfold holds_data. rewrite Q2, (mi_files _ _ IV). auto. }
    assert (EX : exists T, Forall2 (fun x r => fst r = ps_key x /\ exists d, holds_data s0 x d /\ snd r = load E a [d]) (iter_set E (links_of (db s) sn key)) T).
    { assert (RF' : forall x, In x (iter_set E (links_of (db s) sn key)) -> raw_found E s0 (a_storage a) x) by (intro x; apply RF).
      revert RF'. generalize (iter_set E (links_of (db s) sn key)). clear. intro l. induction l as [|x l IH]; intro RF; [exists []; constructor|].
      destruct IH as (T & F); [intros y I; apply RF; now right|]. destruct (raw_holds _ _ (RF x (or_introl eq_refl))) as (_ & _ & d & HD).
      exists ((ps_key x, load E a [d]) :: T). constructor; [|exact F]. cbn. eauto. }
    destruct EX as (T & F). exists T. split; [eapply table_raw; eauto|]. split.
    - apply NoDup_keys; [exact NI|]. intros x y Ix Iy. apply (raw_key (a_storage a)); now apply RF.
    - assert (RF' : forall x, In x (iter_set E (links_of (db s) sn key)) -> raw_found E s0 (a_storage a) x) by (intro x; apply RF).
      clear - F HS RF'. induction F as [|x r l T (H1 & d & H2 & H3) F IH]; constructor; [|apply IH; intros y I; apply RF'; now right].
      assert (R := RF' x (or_introl eq_refl)). split; [exact H1|]. split; [|exists d; split; [now apply HS|exact H3]].
      unfold foreign. destruct (st_kind _); [|exact I]. left. cbn. now apply raw_holds in R.
  Qed.

  Lemma inputs_shown : forall q s l inputs, (forall n a key, In (n, a) l -> key_of g a = Ok key -> exists T, shows (foreign sn q) s a (iter_set E (links_of (db s) sn key)) T) ->
    inputs_at E sn (db s) l inputs -> exists Ts, tables l Ts /\ map fst inputs = map fst l /\
      map (fun i => (fst i, map ps_key (snd i))) inputs = keys_of Ts /\
      (forall n x, In (n, x) inputs -> NoDup (map ps_key x)) /\
      forall n, match dget str_eqb l n, dget str_eqb inputs n, dget str_eqb Ts n with
                | Some a, Some x, Some T => shows (foreign sn q) s a x T
                | None, None, None => True
                | _, _, _ => False
                end.
  Proof.
    intros q s l inputs SH IA. induction IA as [|[n a] nl l inputs (key & KA & ->) IA IH].
    { exists []. split; [constructor|]. split; [reflexivity|]. split; [reflexivity|]. split; [intros ? ? []|]. intro n. exact I. }
    destruct IH as (Ts & T1 & T2 & T3 & T4 & T5); [intros n' a' key' I; eapply SH; right; exact I|].
    cbn [fst snd] in *. destruct (SH n a key (or_introl eq_refl) KA) as (T & SA). exists ((n, T) :: Ts). split; [constructor; [apply SA|exact T1]|].
    assert (KT : map ps_key (iter_set E (links_of (db s) sn key)) = map fst T).
    { destruct SA as (_ & _ & F). clear - F. induction F as [|x r l T (H & _) F IH]; [reflexivity|]. cbn. now rewrite H, IH. }
    split; [cbn; now rewrite T2|]. split; [unfold keys_of in *; cbn; now rewrite T3, KT|]. split.
    - intros n' x [I|I]; [injection I as <- <-; apply SA|eapply T4; eauto].
    - intro n'. cbn [dget]. destruct (str_eqb n n'); [exact SA|apply T5].
  Qed.

  Lemma mapped_deps : forall p i a inputs deps fps, produces (g_arts g) p i a -> NoDup (map fst inputs) -> (forall n l, In (n, l) inputs -> NoDup (map ps_key l)) ->
    compute_dependencies E p inputs = Ok (deps, fps) ->
    exists asked, K (p_class p) (map (fun i => (fst i, map ps_key (snd i))) (mapped_over E p inputs)) = Ok asked /\ deps = choose (mapped_over E p inputs) asked /\
      NoDup (map fst deps).
  Proof.
    intros p i a inputs deps fps PR NI NK H. unfold compute_dependencies, class_of in H. fold (mapped_over E p inputs) in H.
    assert (NM : NoDup (map fst (mapped_over E p inputs))).
    { unfold mapped_over. clear - NI. induction inputs as [|[n l] inputs IH]; [constructor|]. inversion NI as [|? ? N1 N2]; subst. cbn [filter fst]. destruct (existsb _ _); [|auto].
      cbn. constructor; [|auto]. intro I. apply N1. apply in_map_iff in I. destruct I as ([n' l'] & Q & I). apply filter_In in I. cbn in Q. subst n'. destruct I as [I _]. apply (in_map fst) in I. exact I. }
    rewrite (bk_map _ _ _ BK _ _ _ _ PR NM) in H by (intros n l I; apply filter_In in I; eapply NK; apply I).
    destruct (K (p_class p) _) as [asked|e] eqn:KA; [|discriminate]. cbn [rmap bind] in H. assert (NM' : NoDup (map fst (map (fun i : str * list psnapshot => (fst i, map ps_key (snd i))) (mapped_over E p inputs)))) by (now rewrite map_map).
    assert (NK' : forall n ks, In (n, ks) (map (fun i : str * list psnapshot => (fst i, map ps_key (snd i))) (mapped_over E p inputs)) -> NoDup ks).
    { intros n ks I. apply in_map_iff in I. destruct I as ([n' l] & Q & I). injection Q as _ <-. apply filter_In in I. eapply NK. apply I. }
    destruct (bk_dicts _ _ _ BK _ _ _ _ _ PR NM' NK' KA) as [D1 D2].
    assert (ID : dict_of str_eqb (map (fun kd => (fst kd, dict_of str_eqb (snd kd))) (choose (mapped_over E p inputs) asked)) = choose (mapped_over E p inputs) asked).
    { assert (Q : map (fun kd : pkey * list (str * list psnapshot) => (fst kd, dict_of str_eqb (snd kd))) (choose (mapped_over E p inputs) asked) = choose (mapped_over E p inputs) asked).
      { unfold choose. rewrite map_map. apply map_ext_in. intros [k d] I. cbn [fst snd]. f_equal. apply Layout_Proofs.dict_of_NoDup. rewrite map_map. cbn. now apply (D2 k). }
      rewrite Q. apply Layout_Proofs.dict_of_NoDup. unfold choose. rewrite map_map. exact D1. }
    rewrite ID in H. destruct (mapM _ _) as [fps'|]; [|discriminate]. cbn [bind] in H. injection H as <- _. exists asked. split; [reflexivity|]. split; [reflexivity|].
    unfold choose. rewrite map_map. exact D1.
  Qed.

  Notation aligned q s inputs Ts := (forall n, match dget str_eqb (p_inputs q) n, dget str_eqb inputs n, dget str_eqb Ts n with
                | Some a, Some x, Some T => shows (foreign sn q) s a x T
                | None, None, None => True
                | _, _, _ => False
                end).
  (** The partitions chosen for an input of a partition. *)
  Lemma chosen_among : forall q i a s inputs Ts asked k d n xs, produces (g_arts g) q i a -> NoDup (map fst inputs) -> aligned q s inputs Ts ->
    K (p_class q) (map (fun i => (fst i, map ps_key (snd i))) (mapped_over E q inputs)) = Ok asked -> In (k, d) asked ->
    dget str_eqb (map (fun nk => (fst nk, with_keys (mapped_over E q inputs) (fst nk) (snd nk))) d) n = Some xs ->
    exists ks, dget str_eqb d n = Some ks /\ (ks = [] -> xs = []) /\
      (ks <> [] -> exists l, dget str_eqb inputs n = Some l /\ Forall2 (fun k x => In x l /\ ps_key x = k) ks xs).
  Proof.
    intros q i a s inputs Ts asked k d n xs PR NI AL KA I H. rewrite (dget_map_snd _ _ (fun n ks => with_keys (mapped_over E q inputs) n ks)) in H.
    destruct (dget str_eqb d n) as [ks|] eqn:DK; [|discriminate]. injection H as <-. exists ks. split; [reflexivity|]. split; [now intros ->|].
    assert (NM : NoDup (map fst (mapped_over E q inputs))).
    { unfold mapped_over. clear - NI. induction inputs as [|[m l] inputs IH]; [constructor|]. inversion NI as [|? ? N1 N2]; subst. cbn [filter fst]. destruct (existsb _ _); [|auto].
      cbn. constructor; [|auto]. intro I. apply N1. apply in_map_iff in I. destruct I as ([n' l'] & Q & I). apply filter_In in I. cbn in Q. subst n'. destruct I as [I _]. apply (in_map fst) in I. exact I. }
    assert (AM : forall k', In k' ks -> exists l, dget str_eqb (mapped_over E q inputs) n = Some l /\ In k' (map ps_key l)).
    { intros k' Ik. assert (NM' : NoDup (map fst (map (fun i : str * list psnapshot => (fst i, map ps_key (snd i))) (mapped_over E q inputs)))) by (now rewrite map_map).
      destruct (bk_among _ _ _ BK _ _ _ _ _ _ _ _ _ _ PR NM' KA I (dget_In _ str_eqb_spec _ _ _ DK) Ik) as (l & D & Il).
      rewrite (dget_map_snd _ _ (fun _ l => map ps_key l)) in D. destruct (dget str_eqb (mapped_over E q inputs) n) as [l'|]; [|discriminate]. injection D as <-. eauto. }
    intro NE. destruct ks as [|k0 ks]; [congruence|]. destruct (AM k0 (or_introl eq_refl)) as (l & DL & _).
    assert (DI : dget str_eqb inputs n = Some l).
    { unfold mapped_over in DL. rewrite (dget_filter _ (fun n => existsb (str_eqb n) (c_map_inputs (classes E (p_class q))))) in DL. destruct (existsb _ _); [exact DL|discriminate]. }
    exists l. split; [exact DI|]. unfold with_keys. rewrite DL. apply chosen_all.
    - specialize (AL n). rewrite DI in AL. destruct (dget str_eqb (p_inputs q) n), (dget str_eqb Ts n); try contradiction. apply AL.
    - intros k' Ik. destruct (AM k' Ik) as (l' & D' & I'). assert (l' = l) by congruence. now subst l'.
  Qed.

  Lemma takes_read : forall q i a s inputs Ts asked k d args, produces (g_arts g) q i a -> NoDup (map fst inputs) -> aligned q s inputs Ts ->
    K (p_class q) (map (fun i => (fst i, map ps_key (snd i))) (mapped_over E q inputs)) = Ok asked -> In (k, d) asked ->
    reads_apart E s q (map (fun nk => (fst nk, with_keys (mapped_over E q inputs) (fst nk) (snd nk))) d) args -> takes E J q Ts d args.
  Proof.
    intros q i a s inputs Ts asked k d args PR NI AL KA I RD. unfold reads_apart in RD. unfold takes. eapply Forall2_impl; [|exact RD]. cbn beta.
    intros name nv (N1 & b & xs & ds & A1 & A2 & A3 & A4 & A5 & A6). split; [exact N1|].
    destruct (chosen_among _ _ _ _ _ _ _ _ _ _ _ PR NI AL KA I A2) as (ks & DK & EK & CK). assert (NK : ks <> []) by (intro Q; auto). destruct (CK NK) as (l & DL & F).
    specialize (AL name). rewrite A1, DL in AL. destruct (dget str_eqb Ts name) as [T|] eqn:DT; [|contradiction]. destruct AL as (_ & NL & SH).
    assert (LD : List.length ds = List.length xs) by (clear - A5; induction A5; cbn; congruence).
    rewrite (JO b ds) in A6; [|destruct ds; [destruct xs; [congruence|discriminate]|discriminate]|now rewrite LD].
    destruct (mapM (fun d => load E b [d]) ds) as [vs|] eqn:MV; [|discriminate]. cbn [bind] in A6. exists b, T, ks, vs. repeat split; auto.
    apply mapM_Forall2 in MV. clear - F A5 MV SH. revert xs ds F A5 vs MV. induction ks as [|k ks IH]; intros xs ds F A5 vs MV; inversion F as [|? x ? xs' (Ix & Kx) F']; subst.
    - inversion A5; subst. inversion MV; subst. constructor.
    - inversion A5 as [|? y ? ds' HY A5']; subst. inversion MV as [|? v ? vs' LV MV']; subst. constructor; [|eapply IH; eauto].
      destruct (Forall2_in_l _ _ _ _ _ _ SH Ix) as (r & Ir & (Q1 & _ & y' & HY' & Q2)). assert (y' = y) by (eapply holds_one; eauto). subst y'. rewrite LV in Q2.
      destruct r as [rk rv]. cbn in *. now subst.
  Qed.

  Lemma mapped_step : forall pre rest q s s' r, build_order (dependencies (g_arts g)) (pre ++ NProducer q :: rest) -> minv pre s ->
    build_producer E sn q s = (s', Ok r) -> minv (pre ++ [NProducer q]) s'.
  Proof.
    intros pre rest q s s' r BO IV H. assert (F := within_build_producer E sn q _ _ _ H). assert (H0 := H).
    assert (TM : forall i k, dget location_eqb (files s') (i, k, None) = dget location_eqb (files s) (i, k, None)).
    { assert (T : tame (build_producer E sn q)).
      { apply tame_bind; [apply tame_keeps, keeps_get_inputs|]. intro inputs. apply tame_bind; [apply tame_ret|]. intro df.
        apply tame_bind; [apply tame_keeps, keeps_discover|]. intro existing. apply tame_each. intro kd. apply tame_bind; [apply tame_ret|]. intro f. apply tame_build_partition. }
      apply (T _ _ _ H). }
    destruct BO as (NDO & BV & BB). assert (NQ : ~ In (NProducer q) pre) by (intro I; apply NoDup_remove_2 in NDO; apply NDO, in_app_iff; now left).
    assert (KOUT : forall a key, key_of g a = Ok key -> out_key sn q key -> exists i, produces (g_arts g) q i a).
    { intros a key KA OK. destruct (input_not_out sn q a key (io_keys _ _ W) KA OK) as (i & AO). exists i, key. split; [now apply key_of_In|exact AO]. }
    assert (OUTS : exists outs o, outputs_of g q = Ok outs /\ In o outs).
    { apply andthen_ok in H. destruct H as (s1 & inputs & GI & H). apply andthen_ok in H. destruct H as (s2 & df & CD & H). apply andthen_ok in H.
      destruct H as (s3 & existing & DI & H). destruct (discover_ok E IT sn _ _ _ _ _ DI) as (outs & O & _). assert (SP := outputs_of_spec g q). rewrite O in SP.
      destruct SP as [NE _]. destruct outs as [|o outs]; [congruence|]. exists (o :: outs), o. split; [exact O|now left]. }
    destruct OUTS as (outs & o & O & Io). destruct (out_produced _ _ _ _ O Io) as (jo & PO).
    assert (PRE : forall n a key, In (n, a) (p_inputs q) -> key_of g a = Ok key -> forall p i, a_output a = Some (p, i) -> In (NProducer p) pre).
    { intros n a key Ia KA p i AO. destruct PO as (kk & Ik & AOo).
      assert (B1 := BB _ _ (proj2 (dependencies_needs _ _ _) (needs_input _ _ _ _ _ _ _ Ik AOo Ia))).
      assert (B2 := BB _ _ (proj2 (dependencies_needs _ _ _) (needs_producer _ _ _ _ _ (key_of_In _ _ _ KA) AO))).
      apply just_before in B1; [|exact NDO]. eapply before_prefix in B2; [exact B2|exact NDO|exact B1]. }
    assert (TODO : forall outs' a, outputs_of g q = Ok outs' -> In a outs' -> exists i, produces (g_arts g) q i a).
    { intros outs' a O' I. eapply out_produced; eauto. }
    assert (NP : forall p i a j, produces (g_arts g) p i a -> p <> q -> ~ produces (g_arts g) q j a).
    { intros p i a j (? & _ & A1) NE (? & _ & A2). congruence. }
    assert (NS : forall a, (forall j, ~ produces (g_arts g) q j a) -> (exists p i, produces (g_arts g) p i a) -> forall t, out_storage sn q t -> st_id t <> st_id (a_storage a)).
    { intros a NPA (p & i & PA) t (outs' & b & O' & Ib & <-) EQ. destruct (TODO _ _ O' Ib) as (j & PB). assert (b = a) by (eapply DP; eauto). subst b. exact (NPA j PB). }
    apply andthen_ok in H. destruct H as (s1 & inputs & GI & H). apply andthen_ok in H.
    destruct H as (s2 & [deps fps] & CD & H). apply ret_ok in CD. destruct CD as [-> CD]. apply andthen_ok in H.
    destruct H as (s2 & existing & DI & H). cbn [fst snd] in *.
    destruct (get_inputs_ok E sn _ _ _ _ GI) as (G1 & G2 & G3 & G4 & G5).
    destruct (inputs_shown q s (p_inputs q) inputs) as (Ts & T1 & T2 & T3 & T4 & T5); [|exact G1|].
    { intros n a key Ia KA. destruct (a_output a) as [[p i]|] eqn:AO; [|eapply raw_shows; eauto].
      assert (PA : produces (g_arts g) p i a) by (exists key; split; [now apply key_of_In|exact AO]). assert (IP := PRE _ _ _ Ia KA _ _ AO).
      destruct (mi_done _ _ IV p i a PA IP) as (vs & MA & ND & CO). destruct (CO i a PA) as (T & OC & (key' & KA' & CT)). rewrite KA in KA'. injection KA' as <-.
      destruct (column_shows (foreign sn q) s a p i vs T key PA MA ND OC KA CT) as (T' & _ & SH); [|eauto].
      intros x Ix. destruct (Forall2_in_l _ _ _ _ _ _ CT Ix) as (kv & _ & (_ & Q2 & _)). unfold foreign. destruct (st_kind _); [|exact I]. right. cbn. rewrite Q2.
      apply NS; [|eauto]. intro j. eapply NP; [exact PA|]. intros ->. contradiction. }
    assert (NI : NoDup (map fst inputs)) by (rewrite T2; exact (bk_inputs _ _ _ BK _ _ _ PO)).
    destruct (mapped_deps _ _ _ _ _ _ PO NI T4 CD) as (asked & KA & -> & ND).
    destruct (discover_nothing_at_all E IT sn q _ _ _ _ (ltac:(
      intros outs' a O' I; destruct (TODO outs' a O' I) as (i & PA); destruct (mi_todo _ _ IV q i a PA NQ) as (U1 & U2 & _);
      rewrite G4, G5; split; [exact (TP _ _ _ PA)|]; split; [exact U1|exact U2])) DI) as (-> & F2 & L2).
    destruct (each_adds E sn W DP NG q fps (choose (mapped_over E q inputs) asked) s s2 s' r []) as (vs & B & C); [exact ND| | | |exact H|].
    { intros j a PA. exists []. split; [constructor|]. destruct (mi_todo _ _ IV q j a PA NQ) as (_ & _ & U3). destruct PA as (k & Ia & AO).
      destruct (key_of_known g a) as (key & KO); [now apply (in_map snd) in Ia|]. exists key. split; [exact KO|]. rewrite L2, G3, (U3 _ KO). constructor. }
    { intros l _. now rewrite F2, G5. }
    { intros kd n l x Ikd D Ix. unfold choose in Ikd. apply in_map_iff in Ikd. destruct Ikd as ([k d] & <- & Ikd). cbn [snd] in D.
      destruct (chosen_among _ _ _ _ _ _ _ _ _ _ _ PO NI T5 KA Ikd D) as (ks & _ & EK & CK). destruct ks as [|k0 ks]; [now rewrite (EK eq_refl) in Ix|].
      destruct (CK ltac:(discriminate)) as (l' & DL & FL). destruct (Forall2_in_r _ _ _ _ _ _ FL Ix) as (k1 & _ & Il & _). specialize (T5 n). rewrite DL in T5.
      destruct (dget str_eqb (p_inputs q) n), (dget str_eqb Ts n); try contradiction. destruct T5 as (_ & _ & SH).
      destruct (Forall2_in_l _ _ _ _ _ _ SH Il) as (? & _ & (_ & Q & _)). exact Q. }
    assert (MA : made q vs).
    { apply made_by with (Ts := Ts) (asked := asked); [exact T1| |].
      - rewrite <- KA. f_equal. unfold mapped_over. clear - T3. revert Ts T3. induction inputs as [|[n l] inputs IH]; intros [|[n' T] Ts] Q; try discriminate; [reflexivity|].
        unfold keys_of in *. cbn [map fst snd filter] in *. injection Q as <- QT Q. destruct (existsb _ _); [cbn [map fst snd]; rewrite QT; f_equal|]; now apply IH.
      - assert (G : forall l us, (forall kd, In kd l -> In kd asked) -> Forall2 (builds E sn s q) (choose (mapped_over E q inputs) l) us ->
          Forall2 (fun kd o => fst o = fst kd /\ exists args, takes E J q Ts (snd kd) args /\ runs (classes E (p_class q)) args (Ok (snd o))) l us).
        { induction l as [|[k d] l IH]; intros us AI B'; unfold choose in B'; cbn [map] in B'; inversion B' as [|? o0 ? us' (Q & args & RD & RU & _) B'']; subst; constructor.
          - split; [exact Q|]. exists args. split; [|exact RU]. eapply takes_read; eauto. apply AI. now left.
          - apply IH; [intros kd I; apply AI; now right|exact B'']. }
        apply G; [auto|exact B]. }
    assert (NV : NoDup (map fst vs)).
    { replace (map fst vs) with (map fst (choose (mapped_over E q inputs) asked)); [exact ND|]. clear - B. induction B as [|kd o l vs (Q & _) B IH]; [reflexivity|]. cbn. now rewrite Q, IH. }
    assert (NK : forall a, (forall i, ~ produces (g_arts g) q i a) -> forall key, key_of g a = Ok key -> ~ out_key sn q key).
    { intros a NPA key KO OK. destruct (KOUT a key KO OK) as (i & PA). exact (NPA i PA). }
    assert (NR : forall a, a_output a = None -> forall i, ~ produces (g_arts g) q i a) by (intros a AO i (? & _ & AO'); congruence).
    constructor.
    - intros a key x AO KO. rewrite (fr_links _ _ _ _ _ F); [apply (mi_raw _ _ IV a key x AO KO)|]. right. apply (NK a); auto.
    - intros a key AO KO. rewrite (fr_links _ _ _ _ _ F); [apply (mi_once _ _ IV a key AO KO)|]. right. apply (NK a); auto.
    - intros i k. rewrite TM. apply (mi_files _ _ IV).
    - intros p i a PA I. apply in_app_iff in I. destruct I as [I|[I|[]]].
      + assert (NE : p <> q) by (intros ->; contradiction). destruct (mi_done _ _ IV p i a PA I) as (vs' & MA' & ND' & CO). exists vs'. split; [exact MA'|]. split; [exact ND'|].
        intros j b PB. destruct (CO j b PB) as (T & OC & CT). exists T. split; [exact OC|]. revert CT. apply (column_kept E sn _ _ _ _ _ _ F).
        * apply NK. intro j'. now apply (NP p j).
        * apply NS; [|eauto]. intro j'. now apply (NP p j).
      + injection I as <-. exists vs. auto.
    - intros p i a PA I. assert (NE : p <> q) by (intros ->; apply I, in_app_iff; right; now left).
      assert (NPA : forall j, ~ produces (g_arts g) q j a) by (intro j; now apply (NP p i)). assert (NSA := NS a NPA (ex_intro _ p (ex_intro _ i PA))).
      destruct (mi_todo _ _ IV p i a PA) as (U1 & U2 & U3); [intro; apply I, in_app_iff; now left|]. split; [|split].
      + apply Bool.not_true_is_false. intro M. apply (dmem_dget (db s')) in M. rewrite (fr_known _ _ _ _ _ F) in M.
        * apply dmem_dget in M. congruence.
        * intro OS. exact (NSA _ OS eq_refl).
      + intros k f0. rewrite (fr_files _ _ _ _ _ F); [apply U2|]. cbn. exact NSA.
      + intros key KO. rewrite (fr_links _ _ _ _ _ F); [now apply U3|]. right. now apply (NK a).
  Qed.

  Lemma minv_artifact : forall pre a s, minv pre s -> minv (pre ++ [NArtifact a]) s.
  Proof.
    intros pre a s [I1 I2 I3 I4 I5]. constructor; auto.
    - intros p i b PB I. apply (I4 p i b PB). apply in_app_iff in I. destruct I as [I|[I|[]]]; [exact I|discriminate].
    - intros p i b PB NI. apply (I5 p i b PB). intro I. apply NI, in_app_iff. now left.
  Qed.
  Lemma mapped_nodes : forall rest pre s s' r, build_order (dependencies (g_arts g)) (pre ++ rest) -> minv pre s ->
    build_nodes E sn rest s = (s', Ok r) -> minv (pre ++ rest) s'.
  Proof.
    induction rest as [|n rest IH]; intros pre s s' r BO IV H; cbn [build_nodes eachM] in H.
    - apply ret_ok in H. destruct H as [-> _]. now rewrite app_nil_r.
    - apply andthen_ok in H. destruct H as (s1 & u & H1 & H2). replace (pre ++ n :: rest) with ((pre ++ [n]) ++ rest) in * by now rewrite <- app_assoc.
      apply (IH (pre ++ [n]) s1 s' r BO); [|exact H2]. destruct n as [a|q].
      + apply ret_ok in H1. destruct H1 as [-> _]. now apply minv_artifact.
      + eapply (mapped_step pre rest); [rewrite <- app_assoc in BO; exact BO|exact IV|exact H1].
  Qed.
End Fresh.

Lemma start_minv : forall V (E : env V) K J g s s1 sn, in_order E (g_arts g) -> templated (g_arts g) -> unbuilt (g_arts g) s ->
  from_graph E g s = (s1, Ok sn) -> minv E K J sn s [] s1.
Proof.
  intros V E K J g s s1 sn W TP UB FG. destruct (start_inv V E g s s1 sn W TP UB FG) as [I1 I2 _ _ I5]. constructor; auto.
  - intros a key _ _. destruct UB as (U & _). eapply from_graph_once; eauto.
  - intros p i a _ [].
Qed.
Theorem mapped_built : forall V (E : env V) K J, iterates E -> iterates_once E -> forall g s s' sn,
  in_order E (g_arts g) -> by_keys E K (g_arts g) -> joins E J -> distinct_paths (g_arts g) -> no_gaps (g_arts g) -> templated (g_arts g) -> rows_survive E K J s (g_arts g) ->
  unbuilt (g_arts g) s -> graph_build E g s = (s', Ok sn) ->
  s_graph sn = g /\ forall p i a, produces (g_arts g) p i a -> exists outs, made E K J s p outs /\ NoDup (map fst outs) /\
    forall j b, produces (g_arts g) p j b -> exists T, out_col j outs T /\ column E sn s' b T.
Proof.
  intros V E K J IT IO g s s' sn W BK JO DP NG TP SV UB H. apply andthen_ok in H. destruct H as (s1 & sn' & FG & H).
  apply andthen_ok in H. destruct H as (s2 & u & B & H). apply ret_ok in H. destruct H as [-> H]. injection H as <-.
  assert (IV := start_minv V E K J g s s1 sn' W TP UB FG). destruct (snapshot_links E g s s1 sn' FG) as (GS & _).
  split; [exact GS|]. intros p i a PA. rewrite <- GS in *.
  destruct (build_is V E sn') as (order & BO & EQ). rewrite EQ in B.
  assert (IV' := mapped_nodes E K J IT IO sn' W DP NG TP BK JO s SV order [] s1 s2 u BO IV B). assert (IO' : In (NProducer p) order) by (eapply out_in_order; eauto).
  exact (mi_done _ _ _ _ _ _ _ IV' p i a PA IO').
Qed.

Section Read.
  Context {V W N : Type} (E : env V) (X : views V W N).
  Lemma read_several : forall g a key w sn (s : state V) ds, fuel s = None -> key_of g a = Ok key ->
    (1 < List.length (iter_set E (links_of (db s) sn key)) -> st_partitioned (a_storage a) = true) ->
    Forall2 (holds_data s) (iter_set E (links_of (db s) sn key)) ds ->
    snd (read E X g a None (Some w) (Some sn) None s) = match ds with [] => Err FileNotFoundError | _ => decode X w a ds end.
  Proof.
    intros g a key w sn s ds F K PT H. rewrite (read_step E X _ _ _ _ _ _ _ K).
    assert (R : partitions_to_read E g key a (Some sn) None s = read_links E sn key s) by (unfold partitions_to_read; destruct (a_output a); reflexivity).
    rewrite R. clear R. unfold read_links, effect, andthen. rewrite (tick_none _ F).
    assert (SP := rl_spec (db s) sn key). destruct (read_snapshot_partitions (db s) sn key) as [b l] eqn:Q. destruct SP as (-> & _).
    revert PT H. generalize (iter_set E (links_of (db s) sn key)). intros l PT H. unfold io_read.
    destruct l as [|x l]; [inversion H; subst; reflexivity|]. destruct ds as [|d ds]; [inversion H|]. cbn [snd].
    assert (C : ((1 <? List.length (x :: l)) && negb (st_partitioned (a_storage a)))%bool = false).
    { destruct (1 <? List.length (x :: l)) eqn:LT; [|reflexivity]. apply Nat.ltb_lt in LT. now rewrite (PT LT). }
    rewrite C. assert (M : mapM (fun x => match content (files (with_db s b)) (ps_part x) with Some d => Ok d
        | None => Err (match st_kind (pt_storage (ps_part x)) with SFile => FileNotFoundError | SLiteral _ => AssertionError end) end) (x :: l) = Ok (d :: ds)); [|now rewrite M].
    apply mapM_Forall2. eapply Forall2_impl; [|exact H]. cbn beta. intros y e HY. apply holds_content in HY. cbn [with_db files]. now rewrite HY.
  Qed.
End Read.

Theorem mapped_computed : forall V W N (E : env V) (X : views V W N) K J, iterates E -> iterates_once E -> forall g s s' sn w,
  in_order E (g_arts g) -> by_keys E K (g_arts g) -> joins E J -> distinct_paths (g_arts g) -> no_gaps (g_arts g) -> templated (g_arts g) -> rows_survive E K J s (g_arts g) ->
  unbuilt (g_arts g) s -> graph_build E g s = (s', Ok sn) ->
  forall p i a, produces (g_arts g) p i a -> (forall ds, decode X w a ds = load E a ds) ->
  exists T, table E K J s a T /\ NoDup (map fst T) /\ (forall k r, In (k, r) T -> exists v, r = Ok v) /\
    snd (read E X g a None (Some w) (Some sn) None s') = joined J a T /\
    (NoDup (map fst (files s)) -> snd (read E X g a None (Some w) None None s') = joined J a T).
Proof.
  intros V W N E X K J IT IO g s s' sn w IN BK JO DP NG TP SV UB H p i a PA DE.
  destruct (mapped_built V E K J IT IO g s s' sn IN BK JO DP NG TP SV UB H) as (GS & B). destruct (B p i a PA) as (outs & MA & ND & CO).
  destruct (CO i a PA) as (T & OC & (key & KA & CT)). assert (PA' := PA). rewrite <- GS in PA'. assert (SV' := SV). rewrite <- GS in SV'.
  destruct (column_shows E K J IT IO sn s SV' (fun _ => True) s' a p i outs T key PA' MA ND OC KA CT (fun _ _ => I)) as (T' & PM & (TB & NK & SH)).
  assert (KT : map ps_key (iter_set E (links_of (db s') sn key)) = map fst T') by (clear - SH; induction SH as [|x r l T (Q & _) SH IH]; [reflexivity|]; cbn; now rewrite Q, IH).
  exists T'. split; [exact TB|]. split; [now rewrite <- KT|]. split.
  { intros k r I. apply (Permutation_in _ (Permutation_sym PM)) in I. apply in_map_iff in I. destruct I as (kv & Q & _). injection Q as _ <-. eauto. }
  assert (PT : 1 < List.length (iter_set E (links_of (db s') sn key)) -> st_partitioned (a_storage a) = true).
  { assert (IK : forall x, In x (iter_set E (links_of (db s') sn key)) -> negb (is_nil (ps_key x)) = st_partitioned (a_storage a)).
    { intros x Ix. apply (proj1 (IT _ _)) in Ix. destruct (Forall2_in_l _ _ _ _ _ _ CT Ix) as (kv & _ & (_ & _ & Q & _)). exact Q. }
    intro LT. destruct (iter_set E (links_of (db s') sn key)) as [|x [|y l]]; cbn in LT; try lia. destruct (st_partitioned (a_storage a)) eqn:P; [reflexivity|]. exfalso.
    assert (Qx := IK x (or_introl eq_refl)). assert (Qy := IK y (or_intror (or_introl eq_refl))). inversion NK as [|? ? N1 _]; subst. apply N1. left.
    destruct (ps_key x); [|discriminate]. destruct (ps_key y); [reflexivity|discriminate]. }
  assert (HD : exists ds, Forall2 (holds_data s') (iter_set E (links_of (db s') sn key)) ds /\ mapM snd T' = mapM (fun d => load E a [d]) ds).
  { clear - SH. induction SH as [|x r l T (_ & _ & d & HD & Q) SH (ds & IH1 & IH2)]; [exists []; split; [constructor|reflexivity]|].
    exists (d :: ds). split; [now constructor|]. cbn [mapM]. now rewrite Q, IH2. }
  destruct HD as (ds & HD & MQ). assert (FU : fuel s' = None) by (destruct UB as (_ & F & _); eapply graph_build_fuel; eauto).
  assert (LD : List.length ds = List.length (iter_set E (links_of (db s') sn key))) by (clear - HD; induction HD; cbn; congruence).
  assert (LT' : List.length T' = List.length ds) by (rewrite LD, <- (map_length ps_key), KT; now rewrite map_length).
  assert (R : snd (read E X g a None (Some w) (Some sn) None s') = joined J a T').
  { rewrite (read_several E X g a key w sn s' ds FU); [|now rewrite GS in KA|exact PT|exact HD]. unfold joined.
    destruct ds as [|d ds], T' as [|r T']; try discriminate; [reflexivity|]. rewrite DE, (JO a (d :: ds)); [now rewrite MQ|discriminate|]. rewrite LD. exact PT. }
  split; [exact R|]. intro NF. rewrite <- R. destruct PA as (k & Ia & AO). destruct UB as (_ & F & _).
  eapply (read_built) with (s := s); eauto; [exact (io_keys _ _ IN)|now apply (in_map snd) in Ia|congruence].
Qed.
