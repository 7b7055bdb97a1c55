(** What is read and where outputs are stored. *)
From Coq Require Import ZArith List Ascii String Bool Arith Lia.
From Verif Require Import Base Base_Proofs Str Str_Proofs Graph_Model Graph_Spec Graph_Proofs.
From Verif Require Import Backend_Model Backend_Spec Backend_Proofs.
From Verif Require Import Executor_Model Executor_Spec Executor_Proofs Executor_Done_Proofs Executor_Build_Proofs Executor_Write_Proofs.
Import ListNotations.
Open Scope list_scope.

Lemma holds_content : forall V (s : state V) x d, holds_data s x d <-> content (files s) (ps_part x) = Some d.
Proof. intros. unfold holds_data, content, location_of, ps_key, ps_fp. destruct (st_kind _); tauto. Qed.

Lemma ascending_nth : forall A (l : list (nat * A)) m, ascending l -> (forall x, In x l -> m <= fst x) ->
  (forall x j, In x l -> m <= j < fst x -> exists y, In (j, y) l) -> forall i x, nth_error l i = Some x -> fst x = m + i.
Proof.
  induction l as [|y l IH]; intros m AS LO GA i x N; [destruct i; discriminate|]. destruct AS as [A1 A2].
  assert (F : fst y = m).
  { destruct (Nat.eq_dec (fst y) m) as [EQ|NE]; [exact EQ|]. assert (L := LO y (or_introl eq_refl)).
    destruct (GA y m (or_introl eq_refl) ltac:(lia)) as (z & [EQ|I]); [subst y; cbn in *; lia|]. specialize (A1 _ I). cbn in A1. lia. }
  destruct i as [|i]; [injection N as <-; lia|]. cbn in N. rewrite (IH (S m) A2) with (i := i); [lia| | |exact N].
  - intros z I. specialize (A1 z I). lia.
  - intros z j I J. destruct (GA z j (or_intror I) ltac:(lia)) as (w & [EQ|K]); [subst y; cbn in *; lia|eauto].
Qed.

Section Store.
  Context {V : Type} (E : env V) (sn : snapshot).
  Notation g := (s_graph sn).
  Lemma reads_ok : forall p deps names s s' args,
    collectM (fun name =>
        a <- ret (match dget str_eqb (p_inputs p) name with Some a => Ok a | None => Err KeyError end) ;;
        d <- ret (match dget str_eqb deps name with Some d => Ok d | None => Err KeyError end) ;;
        v <- read_input E sn a d ;; ret (Ok (name, v))) names s = (s', Ok args) ->
    Forall2 (fun name nv => fst nv = name /\ exists a d ds, dget str_eqb (p_inputs p) name = Some a /\ dget str_eqb deps name = Some d /\
               d <> [] /\ Forall2 (holds_data s) d ds /\ load E a ds = Ok (snd nv)) names args.
  Proof.
    induction names as [|n names IH]; intros s s' args H; cbn [collectM] in H; [injection H as <- <-; constructor|].
    apply andthen_ok in H. destruct H as (s1 & y & H1 & H). apply andthen_ok in H1. destruct H1 as (s2 & a & A & H1). apply ret_ok in A. destruct A as [-> A].
    apply andthen_ok in H1. destruct H1 as (s2 & d & D & H1). apply ret_ok in D. destruct D as [-> D].
    apply andthen_ok in H1. destruct H1 as (s2 & v & VV & H1). apply ret_ok in H1. destruct H1 as [-> Y]. injection Y as <-.
    apply andthen_ok in VV. destruct VV as (s3 & key & K & VV). apply ret_ok in K. destruct K as [-> K].
    unfold io_read in VV. injection VV as <- VV. apply andthen_ok in H. destruct H as (s3 & ys & H2 & H). apply ret_ok in H. destruct H as [-> Q]. injection Q as <-.
    constructor; [|eapply IH, H2]. split; [reflexivity|]. cbn [snd]. destruct (dget str_eqb (p_inputs p) n) as [a'|] eqn:DA; [|discriminate]. injection A as ->.
    destruct (dget str_eqb deps n) as [d'|] eqn:DD; [|discriminate]. injection D as ->. destruct d as [|x0 d]; [discriminate|].
    destruct ((1 <? List.length (x0 :: d)) && negb (st_partitioned (a_storage a)))%bool; [discriminate|].
    destruct (mapM _ (x0 :: d)) as [ds|] eqn:MM; [|discriminate]. exists a, (x0 :: d), ds. split; [reflexivity|]. split; [reflexivity|]. split; [discriminate|].
    split; [|exact VV]. apply mapM_Forall2 in MM. eapply Forall2_impl; [|exact MM]. intros x c C. apply holds_content. cbn in C.
    destruct (content (files s) (ps_part x)); congruence.
  Qed.
  (** Outputs by position, if there are no gaps. *)
  Lemma nth_position : forall p outs i a, no_gaps (g_arts g) -> outputs_of g p = Ok outs -> nth_error outs i = Some a -> produces (g_arts g) p i a.
  Proof.
    intros p outs i a NG O N. assert (S := outputs_of_spec g p). rewrite O in S. destruct S as (_ & l & -> & AS & S).
    assert (PR : forall j b, In (j, b) l -> produces (g_arts g) p j b).
    { intros j b I. apply S in I. destruct I as (l1 & k & l2 & EQ & AO & _). exists k. rewrite EQ. split; [apply in_elt|exact AO]. }
    rewrite nth_error_map in N. destruct (nth_error l i) as [[j b]|] eqn:NE; [|discriminate]. injection N as <-.
    assert (J := ascending_nth _ l 0 AS (fun _ _ => Nat.le_0_l _)). cbn [snd].
    assert (fst (j, b) = 0 + i).
    { eapply J; [|exact NE]. intros [j' b'] m I [_ LT]. cbn in LT. destruct (NG p j' b' m (PR _ _ I) LT) as (c & k & Ic & Oc).
      assert (LA : exists c', last_at (g_arts g) p m c').
      { clear - Ic Oc. induction (g_arts g) as [|[k' b] l IH] using rev_ind; [destruct Ic|].
        destruct (option_eqb (fun x y => producer_eqb (fst x) (fst y) && (snd x =? snd y))%bool (a_output b) (Some (p, m))) eqn:Q.
        - exists b. apply last_at_snoc. left. split; [|reflexivity]. destruct (a_output b) as [[q j]|]; [|discriminate].
          cbn in Q. apply andb_true_iff in Q. destruct Q as [Q1 Q2]. apply producer_eqb_spec in Q1. apply Nat.eqb_eq in Q2. congruence.
        - assert (NO : a_output b <> Some (p, m)).
          { intro X. rewrite X in Q. cbn in Q. rewrite (proj2 (producer_eqb_spec p p) eq_refl), Nat.eqb_refl in Q. discriminate. }
          apply in_app_iff in Ic. destruct Ic as [Ic|[Ic|[]]]; [|congruence]. destruct (IH Ic) as (c' & LC). exists c'. apply last_at_snoc. now right. }
      destruct LA as (c' & LA). exists c'. now apply S. }
    cbn in H. subst j. apply PR. eapply nth_error_In, NE.
  Qed.
  Lemma io_write_data : forall a v p s s' x, io_write E a v p s = (s', Ok x) -> exists d, dump E a v = Ok d /\ pt_key (ps_part x) = pt_key p /\
    pt_fp (ps_part x) = pt_fp p /\ pt_storage (ps_part x) = pt_storage p /\ holds_data s' x d /\
    ps_content x = match st_kind (pt_storage p) with SFile => file_fp E d | SLiteral _ => from_string E d end.
  Proof.
    intros a v p s s' x. unfold io_write. destruct (st_kind (pt_storage p)) eqn:SK.
    - intro H. apply andthen_ok in H. destruct H as (s1 & u & _ & H). apply andthen_ok in H. destruct H as (s2 & d & H2 & H). apply ret_ok in H2. destruct H2 as [-> D].
      apply andthen_ok in H. destruct H as (s3 & u' & H3 & H). apply effect_ok in H3. destruct H3 as (s4 & F4 & D4 & L4 & H3).
      injection H3 as <-. injection H as <- H. unfold take_snapshot in H.
      destruct (content _ p) as [d'|] eqn:C; [|discriminate]. injection H as <-. exists d.
      assert (d' = d). { unfold content in C. rewrite SK in C. cbn [files with_log with_file] in C. rewrite (dget_dset_same _ location_eqb_spec) in C. congruence. }
      subst d'. rewrite SK. repeat split; auto. apply holds_content. cbn. exact C.
    - destruct (pt_value p); [discriminate|]. intro H. apply andthen_ok in H. destruct H as (s2 & d & H2 & H).
      apply ret_ok in H2. destruct H2 as [-> D]. injection H as <- H. unfold take_snapshot in H. unfold content in H. cbn in H. rewrite SK in H.
      injection H as <-. exists d. repeat split; auto. apply holds_content. unfold content. cbn. now rewrite SK.
  Qed.
  Lemma write_output_data : forall p i a f k v s s' r, write_output E sn p i a f k v s = (s', Ok r) ->
    exists d, dump E a v = Ok d /\ stored s' sn a k f d.
  Proof.
    intros p i a f k v s s' r H. apply andthen_ok in H. destruct H as (s1 & key & K & H). apply ret_ok in K. destruct K as [-> K].
    apply andthen_ok in H. destruct H as (s1 & u1 & U1 & H). apply ret_ok in U1. destruct U1 as [-> _].
    apply andthen_ok in H. destruct H as (s1 & u2 & U2 & H). apply ret_ok in U2. destruct U2 as [-> _].
    apply andthen_ok in H. destruct H as (s1 & part & U3 & H). apply ret_ok in U3. destruct U3 as [-> P].
    apply andthen_ok in H. destruct H as (s1 & x & W & H). apply io_write_data in W. destruct W as (d & D & XK & XF & XS & XH & _).
    apply generate_partition_storage in P. destruct P as (P1 & P2 & P3 & _).
    apply andthen_ok in H. destruct H as (s2 & u4 & W1 & W2). apply effect_ok in W1. destruct W1 as (s3 & F3 & D3 & _ & W1). injection W1 as <-.
    exists d. split; [exact D|]. exists key, x. split; [now apply key_of_last|]. 
    assert (W3 := W2). apply write_links_in with (x := x) in W3; [|now left]. split; [now rewrite linked_links|].
    assert (KN := W2). apply write_links_known in KN. cbn [with_db db] in KN.
    split.
    { apply recorded_known. rewrite (known_of_dget (write_artifact_partitions (db s3) (a_storage a) [x])) by now rewrite KN.
      rewrite wa_known, (proj2 (storage_eqb_spec _ _) eq_refl). apply adds_In. right. now left. }
    unfold ps_key, ps_fp. repeat split; try congruence. unfold write_links, effect in W2. apply andthen_ok in W2.
    destruct W2 as (s4 & u5 & T & W2). apply tick_ok in T. destruct T as (T & _). injection W2 as <-. revert XH. rewrite !holds_content. cbn [with_db files] in *. now rewrite T, F3.
  Qed.
  (** Writing one output leaves the others' data alone. *)
  Lemma stored_kept : forall K T (s s' : state V) a k f d, frame sn K T s s' -> (forall t, T t -> st_id t <> st_id (a_storage a)) ->
    stored s sn a k f d -> stored s' sn a k f d.
  Proof.
    intros K T s s' a k f d F NT (key & x & LK & L & RC & XS & XK & XF & H). exists key, x. split; [exact LK|].
    destruct (frame_kept _ _ _ _ _ F) as (K1 & K2 & _). split; [now apply K1|]. split; [now apply K2|]. repeat split; auto.
    revert H. unfold holds_data. rewrite XS. destruct (st_kind (a_storage a)); [|auto]. intro H. rewrite (fr_files _ _ _ _ _ F); [exact H|]. cbn. auto.
  Qed.
  Lemma write_outputs_data : forall p outs f k vs i s s' r, distinct_paths (g_arts g) -> no_gaps (g_arts g) ->
    outputs_of g p = Ok outs -> write_outputs E sn p f k i outs vs s = (s', Ok r) ->
    (forall j a d, j < i -> nth_error outs j = Some a -> stored s sn a k f d -> stored s' sn a k f d) /\
    forall j v, nth_error vs j = Some v -> exists a d, nth_error outs (i + j) = Some a /\ dump E a v = Ok d /\ stored s' sn a k f d.
  Proof.
    intros p outs f k vs. induction vs as [|v vs IH]; intros i s s' r DP NG O H; cbn [write_outputs] in H.
    { injection H as <- _. split; [auto|]. intros [|j] v X; discriminate. }
    apply andthen_ok in H. destruct H as (s1 & a & A & H). apply ret_ok in A. destruct A as [-> A].
    destruct (nth_error outs i) as [a'|] eqn:NE; [|discriminate]. injection A as ->.
    apply andthen_ok in H. destruct H as (s1 & u & U & H). apply ret_ok in U. destruct U as [-> _].
    apply andthen_ok in H. destruct H as (s1 & u' & W & H).
    destruct (IH (S i) s1 s' r DP NG O H) as [K1 K2]. destruct (write_output_data _ _ _ _ _ _ _ _ _ W) as (d & D & ST).
    assert (PO := nth_position p outs).
    split.
    - intros j b d' LT NB SB. apply K1 with (j := j); [lia|exact NB|].
      assert (F : frame sn (fun _ => True) (fun t => t = a_storage a) s s1).
      { clear - W. revert W. apply within_bind; [apply within_ret|]. intro key. apply within_bind; [apply within_ret|]. intros _.
        apply within_bind; [apply within_ret|]. intros _. apply within_bind_ret. intros part P. apply generate_partition_storage in P. destruct P as (P1 & _).
        apply within_bind; [apply within_io_write; now rewrite P1|]. intro x. apply within_bind; [now apply within_write_known|]. intros _. now apply within_write_links. }
      revert SB. apply (stored_kept _ _ _ _ _ _ _ _ F). intros t -> EQ.
      assert (PA := PO i a NG O NE). assert (PB := PO j b NG O NB). assert (a = b) by (eapply DP; eauto). subst b.
      destruct PA as (? & _ & PA). destruct PB as (? & _ & PB). rewrite PA in PB. injection PB. lia.
    - intros [|j] w X.
      + injection X as <-. exists a, d. rewrite Nat.add_0_r. split; [exact NE|]. split; [exact D|]. apply K1 with (j := i); [lia|exact NE|exact ST].
      + destruct (K2 j w X) as (b & d' & NB & DB & SB). exists b, d'. split; [|auto]. now rewrite Nat.add_succ_r.
  Qed.
  Theorem outputs_stored : forall p existing f deps k s s' r, distinct_paths (g_arts g) -> no_gaps (g_arts g) ->
    ~ In k existing ->
    build_producer_partition E sn p existing f deps k s = (s', Ok r) ->
    exists args vs writes, reads E s p deps args /\ runs (classes E (p_class p)) args (Ok vs) /\
      log s' = writes ++ Validated p k vs :: Built p k args :: log s /\
      forall i v, nth_error vs i = Some v -> exists a d, produces (g_arts g) p i a /\ dump E a v = Ok d /\ stored s' sn a k f d.
  Proof.
    intros p existing f deps k s s' r DP NG NI H. unfold build_producer_partition in H.
    destruct (existsb (str_eqb k) existing) eqn:EX.
    { apply existsb_exists in EX. destruct EX as (k' & I & Q). apply str_eqb_spec in Q. subst k'. contradiction. }
    apply andthen_ok in H. destruct H as (s1 & args & RA & H). assert (RO := reads_ok p deps _ _ _ _ RA). apply read_args_same in RA. subst s1.
    apply andthen_ok in H. destruct H as (s1 & vs & CB & H). apply effect_ok in CB. destruct CB as (s2 & F2 & D2 & L2 & CB). injection CB as <- CB.
    apply andthen_ok in H. destruct H as (s3 & ok & CV & H). apply effect_ok in CV. destruct CV as (s4 & F4 & D4 & L4 & CV). injection CV as <- CV.
    destruct ok; [|discriminate]. apply andthen_ok in H. destruct H as (s5 & outs & O & H). apply ret_ok in O. destruct O as [-> O].
    cbn in F4, D4, L4. assert (QQ := quiet_write_outputs E sn p f k outs vs 0 _ _ _ H). destruct QQ as (writes & LW & _). cbn [with_log log] in LW.
    exists args, vs, writes. split; [exact RO|]. split.
    { unfold runs. unfold class_of in CB. destruct (c_build (classes E (p_class p))); [|auto]. destruct (f0 args); cbn in CB; congruence. }
    split; [now rewrite LW, L4, L2|]. intros i v NV.
    destruct (write_outputs_data p outs f k vs 0 _ _ _ DP NG O H) as [_ W].
    destruct (W i v NV) as (a & d & NA & D & ST). exists a, d. split; [|auto]. eapply nth_position; eauto.
  Qed.
End Store.
