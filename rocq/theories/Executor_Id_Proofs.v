(** Input fingerprints and snapshot ids. *)
From Coq Require Import ZArith List Ascii String Bool Arith Lia Permutation.
From Verif Require Import Base Base_Proofs Str Str_Proofs Int64_Spec Graph_Model Graph_Spec Graph_Proofs.
From Verif Require Import Backend_Model Backend_Spec Backend_Proofs.
From Verif Require Import Executor_Model Executor_Spec Executor_Proofs Executor_Done_Proofs Executor_Build_Proofs Executor_Link_Proofs Executor_Write_Proofs.
Import ListNotations.
Open Scope list_scope.

Lemma xor_all_perm : forall l m, Permutation l m -> xor_all l = xor_all m.
Proof.
  unfold xor_all. induction 1 as [|x l m _ IH|x y l|l m n _ IH1 _ IH2]; cbn; [reflexivity|now rewrite IH| |congruence].
  now rewrite <- !Z.lxor_assoc, (Z.lxor_comm y x).
Qed.
Lemma xor_all_app : forall l m, xor_all (l ++ m) = Z.lxor (xor_all l) (xor_all m).
Proof. unfold xor_all. induction l as [|x l IH]; intro m; cbn; [reflexivity|]. now rewrite IH, Z.lxor_assoc. Qed.
Lemma lxor_cancel_l : forall a b c, Z.lxor a b = Z.lxor a c -> b = c.
Proof.
  intros a b c H. assert (X : Z.lxor a (Z.lxor a b) = Z.lxor a (Z.lxor a c)) by now rewrite H.
  now rewrite <- !Z.lxor_assoc, Z.lxor_nilpotent, !Z.lxor_0_l in X.
Qed.
Lemma lxor_cancel_r : forall a b c, Z.lxor b a = Z.lxor c a -> b = c.
Proof. intros a b c H. rewrite (Z.lxor_comm b), (Z.lxor_comm c) in H. now apply lxor_cancel_l in H. Qed.
Lemma xor_all_change : forall l x y m, xor_all (l ++ x :: m) = xor_all (l ++ y :: m) -> x = y.
Proof.
  intros l x y m H. rewrite !xor_all_app in H. apply lxor_cancel_l in H. cbn in H. now apply lxor_cancel_r in H.
Qed.
Lemma fold_left_xor : forall l z, fold_left Z.lxor l z = Z.lxor z (xor_all l).
Proof. unfold xor_all. induction l as [|x l IH]; intro z; cbn; [now rewrite Z.lxor_0_r|]. now rewrite IH, Z.lxor_assoc. Qed.

(** * Input fingerprints *)
Section Inputs.
  Context {V : Type} (E : env V).
  Lemma same_names_iff : forall l m, same_names l m = true <-> (forall x, In x l <-> In x m).
  Proof.
    intros l m. unfold same_names. rewrite andb_true_iff, !forallb_forall. split.
    - intros [A B] x. split; intro I; [specialize (A x I)|specialize (B x I)]; now apply (existsb_In _ str_eqb_spec) in A || now apply (existsb_In _ str_eqb_spec) in B.
    - intro H. split; intros x I; apply (existsb_In _ str_eqb_spec); now apply H.
  Qed.
  Theorem input_fingerprint_iff : forall p deps f, input_fingerprint E p deps = Ok f <->
    (forall n, In n (map fst deps) <-> In n (c_build_inputs (classes E (p_class p)))) /\ f = fingerprint_for E p deps.
  Proof.
    intros p deps f. split.
    - intro H. split; [|now apply input_fingerprint_ok]. apply same_names_iff. unfold input_fingerprint, class_of in H. now destruct (same_names _ _).
    - intros [N ->]. apply same_names_iff in N. assert (H := input_fingerprint_ok E p deps). unfold input_fingerprint, class_of in *. rewrite N in *. now rewrite (H _ eq_refl).
  Qed.
  Theorem input_fingerprint_err : forall p deps e, input_fingerprint E p deps = Err e -> e = ValueError.
  Proof. intros p deps e. unfold input_fingerprint. destruct (same_names _ _); congruence. Qed.
  Theorem input_fingerprint_order : forall p q deps deps' f f', input_fingerprint E p deps = Ok f -> input_fingerprint E q deps' = Ok f' ->
    p_class p = p_class q -> p_version p = p_version q ->
    Permutation (map ps_content (flat_map snd deps)) (map ps_content (flat_map snd deps')) -> f = f'.
  Proof.
    intros p q deps deps' f f' H H' C VE P. apply input_fingerprint_ok in H, H'. subst. unfold fingerprint_for. rewrite C, VE.
    apply xor_all_perm. now do 2 constructor.
  Qed.
  Theorem input_fingerprint_change : forall p q deps deps' f f', input_fingerprint E p deps = Ok f -> input_fingerprint E q deps' = Ok f' ->
    one_change (from_string E (p_class p) :: p_version p :: map ps_content (flat_map snd deps))
               (from_string E (p_class q) :: p_version q :: map ps_content (flat_map snd deps')) -> f <> f'.
  Proof.
    intros p q deps deps' f f' H H' C EQ. apply input_fingerprint_ok in H, H'. subst f f'. unfold fingerprint_for in EQ.
    inversion C as [l x y m N E1 E2]. rewrite <- E1, <- E2 in EQ. now apply xor_all_change in EQ.
  Qed.
End Inputs.

(** * Snapshots *)
Section Ids.
  Context {V : Type} (E : env V).
  Lemma discover_raw : forall (s : state V) t,
    match discover E (files s) t [] with
    | Ok parts => forall x, In x parts <-> raw_found E s t x
    | Err e => e = ValueError /\ forall x, ~ raw_found E s t x
    end.
  Proof.
    intros s t. unfold discover, raw_found. destruct (st_kind t) as [|v] eqn:SK.
    - assert (TOT : forall ls, (forall l, In l ls -> In l (map fst (files s))) -> exists xs,
        mapM (fun lk => take_snapshot E (files s) (Partition t (snd (fst lk)) (snd lk) None)) (filter (fun l => generated_by t l && option_eqb Z.eqb (get_fp [] (snd (fst l))) (snd l))%bool ls) = Ok xs /\
        forall x, In x xs <-> st_templated t = false /\ exists k d, In (st_id t, k, None) ls /\ dget location_eqb (files s) (st_id t, k, None) = Some d /\ st_partitioned t = negb (is_nil k) /\
               x = PSnapshot (Partition t k None None) (file_fp E d)).
      { induction ls as [|[[i k] f] ls IH]; intro SUB.
        - exists []. split; [reflexivity|]. intro x. split; [intros []|]. intros (_ & k & d & [] & _).
        - destruct IH as (xs & M & XS); [intros l I; apply SUB; now right|]. cbn [filter].
          destruct (generated_by t (i, k, f) && option_eqb Z.eqb (get_fp [] (snd (fst (i, k, f)))) (snd (i, k, f)))%bool eqn:Q.
          + apply andb_true_iff in Q. destruct Q as [Q1 Q2]. cbn [fst snd get_fp dget] in Q2. destruct f as [f|]; [discriminate|].
            cbn in Q1. apply andb_true_iff in Q1. destruct Q1 as [Q1 Q3]. apply andb_true_iff in Q1. destruct Q1 as [Q1 Q4].
            apply str_eqb_spec in Q1. subst i. apply eqb_prop in Q3, Q4.
            assert (D : exists d, dget location_eqb (files s) (st_id t, k, None) = Some d).
            { destruct (dget location_eqb (files s) (st_id t, k, None)) as [d|] eqn:D; [eauto|]. apply (dget_None _ location_eqb_spec) in D. destruct D.
              apply SUB. now left. }
            destruct D as (d & D). cbn [mapM fst snd]. 
            assert (TS : take_snapshot E (files s) (Partition t k None None) = Ok (PSnapshot (Partition t k None None) (file_fp E d))).
            { unfold take_snapshot, content. cbn. rewrite SK. unfold location_of. cbn. now rewrite D. }
            rewrite TS, M. cbn [bind]. eexists. split; [reflexivity|]. intro x. cbn [In]. rewrite XS. split.
            * intros [ <- |(T & k' & d' & I & R)]; [|split; [exact T|]; exists k', d'; split; [now right|exact R]].
              split; [exact Q4|]. exists k, d. auto.
            * intros (T & k' & d' & [I|I] & D' & P' & ->); [|right; split; [exact T|]; exists k', d'; auto]. injection I as <-. left. congruence.
          + exists xs. split; [exact M|]. intro x. rewrite XS. split; intros (T & k' & d' & I & R); (split; [exact T|]); exists k', d'; (split; [|exact R]); [now right|].
            destruct I as [I|I]; [|exact I]. exfalso. injection I as -> -> ->. destruct R as (_ & P' & _). cbn in Q. rewrite P', T in Q.
            rewrite (proj2 (str_eqb_spec _ _) eq_refl) in Q. cbn in Q. now rewrite eqb_reflx in Q. }
      destruct (TOT (map fst (files s)) (fun l I => I)) as (xs & M & XS). unfold location in *. rewrite M. intro x. rewrite XS. split; intros (T & k & d & R).
      + destruct R as (_ & R). split; [exact T|]. eauto.
      + split; [exact T|]. exists k, d. split; [|exact R]. destruct R as (D & _). apply (dget_In _ location_eqb_spec) in D. now apply (in_map fst) in D.
    - cbn [is_nil negb andb]. destruct (st_partitioned t) eqn:SP; cbn [andb].
      { split; [reflexivity|]. intros x (_ & d & _ & X & _). discriminate. }
      destruct v as [v|]; [|intro x; split; [intros []|intros (_ & d & X & _); discriminate]].
      cbn [mapM fst snd]. unfold generate_partition. rewrite SP. cbn [is_nil andb negb is_some]. rewrite SK. destruct (st_templated t) eqn:ST; cbn [Bool.eqb bind].
      + split; [reflexivity|]. intros x (X & _). discriminate.
      + unfold take_snapshot, content. cbn [pt_storage pt_value]. rewrite SK. cbn [bind]. intro x. cbn [In]. split.
        * intros [ <- |[]]. split; [reflexivity|]. eauto.
        * intros (_ & d & EQ & _ & ->). injection EQ as <-. now left.
  Qed.
  Lemma key_of_defined : forall g k a, In (k, a) (g_arts g) -> exists key, key_of g a = Ok key.
  Proof. intros g k a I. apply last_key_total in I. destruct I as (key & L). exists key. now apply key_of_last. Qed.

  (** The parts of an id. *)
  Definition node_parts (g : graph_def) (fs : list (location * str)) (n : node) : list Z :=
    node_fp E n :: match n with
    | NProducer _ => []
    | NArtifact a => (match key_of g a with Ok key => [from_string E key] | Err _ => [] end) ++
        match a_output a with
        | Some _ => []
        | None => match discover E fs (a_storage a) [] with Ok parts => map (part_fp E) parts | Err _ => [] end
        end
    end.
  Lemma visit_all_id : forall g fs l acc acc', visit_all E g fs acc l = Ok acc' ->
    fst acc' = xor_all (fst acc :: flat_map (node_parts g fs) l) /\
    snd acc' = snd acc ++ flat_map (fun n => match n with
      | NArtifact a => match a_output a, key_of g a, discover E fs (a_storage a) [] with None, Ok key, Ok parts => [(key, a, parts)] | _, _, _ => [] end
      | NProducer _ => [] end) l.
  Proof.
    intros g fs. induction l as [|n l IH]; intros acc acc' H; cbn [visit_all] in H.
    - injection H as <-. cbn. now rewrite Z.lxor_0_r, app_nil_r.
    - destruct (visit E g fs acc n) as [acc1|] eqn:VV; [|discriminate]. cbn [bind] in H. apply IH in H. destruct H as [H1 H2].
      cbn [flat_map]. rewrite H1, H2. clear IH H1 H2. set (rest := flat_map (node_parts g fs) l). unfold visit in VV. unfold node_parts. destruct n as [a|p].
      + destruct (key_of g a) as [key|]; [|discriminate]. cbn [bind] in VV. destruct (a_output a).
        * injection VV as <-. cbn [fst snd]. split; [|reflexivity]. unfold xor_all. cbn. now rewrite !Z.lxor_assoc.
        * destruct (discover E fs (a_storage a) []) as [parts|]; [|discriminate]. cbn [bind] in VV. destruct parts as [|x0 parts]; [discriminate|].
          injection VV as <-. cbn [fst snd]. split; [|now rewrite <- app_assoc].
          rewrite (fold_left_xor (map (part_fp E) parts)). cbn [app].
          unfold xor_all at 1. cbn [fold_right]. fold (xor_all rest).
          change (fst acc :: node_fp E (NArtifact a) :: from_string E key :: map (part_fp E) (x0 :: parts) ++ rest)
            with ([fst acc; node_fp E (NArtifact a); from_string E key; part_fp E x0] ++ map (part_fp E) parts ++ rest).
          rewrite !xor_all_app. unfold xor_all at 3. cbn [fold_right]. rewrite Z.lxor_0_r, !Z.lxor_assoc. reflexivity.
      + injection VV as <-. cbn [fst snd]. split; [|reflexivity]. unfold xor_all. cbn. now rewrite !Z.lxor_assoc.
  Qed.
  Lemma visit_all_total : forall g fs l acc, (forall n, In n l -> defines (g_arts g) n) ->
    (forall k a, In (k, a) (g_arts g) -> a_output a = None -> exists x parts, discover E fs (a_storage a) [] = Ok (x :: parts)) ->
    exists acc', visit_all E g fs acc l = Ok acc'.
  Proof.
    intros g fs. induction l as [|n l IH]; intros acc D RW; cbn [visit_all]; [eauto|].
    assert (VV : exists acc1, visit E g fs acc n = Ok acc1).
    { unfold visit. destruct n as [a|p]; [|eauto]. assert (DN := D _ (or_introl eq_refl)). inversion DN as [k b I EQ|]; subst.
      destruct (key_of_defined g k a I) as (key & ->). cbn [bind]. destruct (a_output a) as [o|] eqn:O; [eauto|].
      destruct (RW k a I O) as (x & parts & ->). cbn [bind]. eauto. }
    destruct VV as (acc1 & ->). cbn [bind]. apply IH; [intros n' I; apply D; now right|exact RW].
  Qed.
  Lemma visit_all_err : forall g (s : state V) l acc e, (forall n, In n l -> defines (g_arts g) n) -> visit_all E g (files s) acc l = Err e ->
    e = ValueError /\ exists k a, In (k, a) (g_arts g) /\ a_output a = None /\ forall x, ~ raw_found E s (a_storage a) x.
  Proof.
    intros g s. induction l as [|n l IH]; intros acc e D H; cbn [visit_all] in H; [discriminate|].
    destruct (visit E g (files s) acc n) as [acc1|e'] eqn:VV; cbn [bind] in H; [apply (IH acc1); auto; intros n' I; apply D; now right|].
    injection H as ->. unfold visit in VV. destruct n as [a|p]; [|discriminate]. assert (DN := D _ (or_introl eq_refl)). inversion DN as [k b I EQ|]; subst.
    destruct (key_of_defined g k a I) as (key & KK). rewrite KK in VV. cbn [bind] in VV. destruct (a_output a) as [o|] eqn:O; [discriminate|].
    assert (DR := discover_raw s (a_storage a)). destruct (discover E (files s) (a_storage a) []) as [parts|e'] eqn:DC; cbn [bind] in VV.
    - destruct parts as [|x parts]; [|discriminate]. injection VV as <-. split; [reflexivity|]. exists k, a. split; [exact I|]. split; [exact O|].
      intros x RF. apply DR in RF. destruct RF.
    - injection VV as ->. destruct DR as [-> DR]. split; [reflexivity|]. eauto.
  Qed.
  (** Snapshots of graphs with missing raw data. *)
  Theorem snapshot_missing : forall g (s : state V) k a, In (k, a) (g_arts g) -> a_output a = None -> (forall x, ~ raw_found E s (a_storage a) x) ->
    from_graph E g s = (s, Err ValueError).
  Proof.
    intros g s k a I O N. unfold from_graph, andthen at 1.
    assert (DD : forall n, In n (map fst (dependencies (g_arts g))) -> defines (g_arts g) n) by (intros n J; now apply dependencies_defines).
    destruct (visit_all E g (files s) (graph_fp E g, []) (map fst (dependencies (g_arts g)))) as [acc|e] eqn:VA.
    - exfalso. assert (J : In (NArtifact a) (map fst (dependencies (g_arts g)))) by (apply dependencies_defines; econstructor; eauto). clear DD.
      revert VA. generalize (graph_fp E g, @nil (str * artifact * list psnapshot)). induction (map fst (dependencies (g_arts g))) as [|n l IH]; intros acc0 VA; [destruct J|].
      cbn [visit_all] in VA. destruct (visit E g (files s) acc0 n) as [acc1|] eqn:VV; [|discriminate]. cbn [bind] in VA. destruct J as [ -> |J]; [|now apply (IH J acc1)].
      unfold visit in VV. destruct (key_of g a) as [key|]; [|discriminate]. cbn [bind] in VV. rewrite O in VV.
      assert (DR := discover_raw s (a_storage a)). destruct (discover E (files s) (a_storage a) []) as [parts|e'] eqn:DC; [|discriminate]. cbn [bind] in VV.
      destruct parts as [|x parts]; [discriminate|]. apply (N x), DR. now left.
    - apply visit_all_err in VA; [|exact DD]. destruct VA as [-> _]. reflexivity.
  Qed.
  Lemma no_fuel_each : forall A (f : A -> M V unit) l (s : state V), (forall x s, fuel s = None -> exists s', f x s = (s', Ok tt) /\ fuel s' = None) -> fuel s = None ->
    exists s', eachM f l s = (s', Ok tt) /\ fuel s' = None.
  Proof.
    induction l as [|x l IH]; intros s H F; cbn [eachM]; [exists s; split; [reflexivity|exact F]|]. destruct (H x s F) as (s1 & E1 & F1). destruct (IH s1 H F1) as (s2 & E2 & F2).
    exists s2. split; [|exact F2]. unfold andthen. rewrite E1. exact E2.
  Qed.
  Theorem snapshot_total : forall g (s : state V), fuel s = None -> (forall k a, In (k, a) (g_arts g) -> a_output a = None -> exists x, raw_found E s (a_storage a) x) ->
    exists s' sn, from_graph E g s = (s', Ok sn).
  Proof.
    intros g s F RW. unfold from_graph, andthen at 1.
    destruct (visit_all_total g (files s) (map fst (dependencies (g_arts g))) (graph_fp E g, [])) as (acc & VA).
    - intros n J. now apply dependencies_defines.
    - intros k a I O. destruct (RW k a I O) as (x & RF). assert (DR := discover_raw s (a_storage a)).
      destruct (discover E (files s) (a_storage a) []) as [[|y parts]|e]; [apply DR in RF; destruct RF|exists y, parts; reflexivity|]. destruct DR as [_ DR]. now destruct (DR x).
    - rewrite VA. unfold andthen at 1. unfold effect at 1. unfold andthen at 1. rewrite tick_none by exact F. unfold andthen at 1. unfold effect at 1. unfold andthen at 1.
      rewrite tick_none by exact F. unfold andthen at 1.
      match goal with |- context [eachM ?f0 (snd acc) ?s0] => set (f := f0); set (s2 := s0) end.
      assert (EE : exists s3, eachM f (snd acc) s2 = (s3, Ok tt) /\ fuel s3 = None).
      { apply no_fuel_each; [|exact F]. intros kap s1 F1. unfold f, andthen, write_known, write_links, effect, andthen. rewrite (tick_none s1) by exact F1.
        rewrite (tick_none (with_db s1 _)) by exact F1. eexists. split; [reflexivity|exact F1]. }
      destruct EE as (s3 & E3 & _). rewrite E3. cbn [ret]. eexists _, _. reflexivity.
  Qed.
  (** What a successful snapshot records. *)
  Lemma each_links : forall sn (found : list (str * artifact * list psnapshot)) (s s' : state V) u,
    eachM (fun kap => _ <- write_known (a_storage (snd (fst kap))) (snd kap) ;; write_links sn (fst (fst kap)) (snd kap)) found s = (s', Ok u) ->
    (forall sn' key x, In x (links_of (db s') sn' key) <-> In x (links_of (db s) sn' key) \/ (sn' = sn /\ exists a ps, In (key, a, ps) found /\ In x ps)) /\
    (forall t x, In x (known_of (db s') t) <-> In x (known_of (db s) t) \/ exists key a ps, In (key, a, ps) found /\ a_storage a = t /\ In x ps) /\
    files s' = files s.
  Proof.
    intros sn. induction found as [|[[key0 a0] ps0] found IH]; intros s s' u H; cbn [eachM] in H.
    { injection H as <- _. split; [|split; [|reflexivity]].
      - intros sn' key x. split; [now left|]. intros [J|(_ & a & ps & [] & _)]. exact J.
      - intros t x. split; [now left|]. intros [J|(k & a & ps & [] & _)]. exact J. }
    apply andthen_ok in H. destruct H as (s1 & u1 & H1 & H). cbn [fst snd] in H1. apply andthen_ok in H1. destruct H1 as (s0 & u0 & H0 & H1).
    apply effect_ok in H0. destruct H0 as (sa & Fa & Da & _ & H0). injection H0 as <-.
    assert (F1 : files s1 = files s).
    { unfold write_links in H1. apply effect_ok in H1. destruct H1 as (sb & Fb & _ & _ & H1). injection H1 as <-. cbn in *. congruence. }
    apply write_links_ok in H1. destruct H1 as [H1 _]. cbn [with_db db] in H1.
    destruct (IH _ _ _ H) as (L & K & F). split; [|split; [|congruence]].
    - intros sn' key x. rewrite L, H1, wl_links. destruct (wa_other (db sa) (a_storage a0) ps0) as (_ & _ & WL & _).
      assert (LO : forall sn' k, links_of (write_artifact_partitions (db sa) (a_storage a0) ps0) sn' k = links_of (db s) sn' k).
      { intros. unfold links_of. now rewrite WL, Da. }
      destruct (snapshot_eqb sn sn' && str_eqb key0 key)%bool eqn:Q.
      + apply andb_true_iff in Q. destruct Q as [Q1 Q2]. apply snapshot_eqb_spec in Q1. apply str_eqb_spec in Q2. subst. rewrite adds_In, LO. split.
        * intros [[J|J]|(_ & a & ps & J & J')]; [now left|right; split; [reflexivity|]; exists a0, ps0; split; [now left|exact J]|].
          right. split; [reflexivity|]. exists a, ps. split; [now right|exact J'].
        * intros [J|(_ & a & ps & [J|J] & J')]; [tauto|injection J as <- <-; tauto|]. right. split; [reflexivity|]. eauto.
      + rewrite LO. split.
        * intros [J|(EQ & a & ps & J & J')]; [now left|]. right. split; [exact EQ|]. exists a, ps. split; [now right|exact J'].
        * intros [J|(EQ & a & ps & [J|J] & J')]; [now left| |right; eauto]. exfalso. injection J as -> _ _. subst sn'.
          rewrite (proj2 (snapshot_eqb_spec _ _) eq_refl), (proj2 (str_eqb_spec _ _) eq_refl) in Q. discriminate.
    - intros t x. rewrite K, H1. destruct (wl_other (write_artifact_partitions (db sa) (a_storage a0) ps0) sn key0 ps0) as (_ & _ & _ & WK).
      rewrite (known_of_dget (write_artifact_partitions (db sa) (a_storage a0) ps0)) by now rewrite WK. rewrite wa_known, Da.
      destruct (storage_eqb (a_storage a0) t) eqn:Q.
      + apply storage_eqb_spec in Q. subst t. rewrite adds_In. split.
        * intros [[J|J]|(k & a & ps & J & J')]; [now left|right; exists key0, a0, ps0; split; [now left|auto]|]. right. exists k, a, ps. split; [now right|exact J'].
        * intros [J|(k & a & ps & [J|J] & J1 & J')]; [tauto|injection J as <- <- <-; tauto|]. right. exists k, a, ps. auto.
      + split.
        * intros [J|(k & a & ps & J & J')]; [now left|]. right. exists k, a, ps. split; [now right|exact J'].
        * intros [J|(k & a & ps & [J|J] & J1 & J')]; [now left| |right; exists k, a, ps; auto]. exfalso. injection J as <- <- <-.
          rewrite J1 in Q. rewrite (proj2 (storage_eqb_spec _ _) eq_refl) in Q. discriminate.
  Qed.
  Theorem snapshot_records : forall g (s s' : state V) sn, from_graph E g s = (s', Ok sn) ->
    s_graph sn = g /\ files s' = files s /\
    s_id sn = xor_all (graph_fp E g :: flat_map (node_parts g (files s)) (map fst (dependencies (g_arts g)))) /\
    (forall k a, In (k, a) (g_arts g) -> a_output a = None -> exists x, raw_found E s (a_storage a) x) /\
    (forall sn' key x, linked s' sn' key x <-> linked s sn' key x \/
       (sn' = sn /\ exists a, last_key (g_arts g) a key /\ a_output a = None /\ raw_found E s (a_storage a) x)) /\
    (forall t x, recorded s' t x <-> recorded s t x \/
       (exists k a, In (k, a) (g_arts g) /\ a_output a = None /\ a_storage a = t /\ raw_found E s t x)).
  Proof.
    intros g s s' sn H. assert (H0 := H). unfold from_graph in H. apply andthen_ok in H. destruct H as (s1 & found & V1 & H). injection V1 as -> VA.
    apply andthen_ok in H. destruct H as (s2 & u2 & H2 & H). apply effect_ok in H2. destruct H2 as (sa & Fa & Da & _ & H2). injection H2 as <-.
    apply andthen_ok in H. destruct H as (s3 & u3 & H3 & H). apply effect_ok in H3. destruct H3 as (sb & Fb & Db & _ & H3). injection H3 as <-.
    apply andthen_ok in H. destruct H as (s4 & u4 & H4 & H). apply ret_ok in H. destruct H as [-> H]. injection H as <-.
    destruct (each_links _ _ _ _ _ H4) as (L & K & F4). cbn [with_db db files] in *.
    destruct (visit_all_id _ _ _ _ _ VA) as [ID FO]. cbn [fst snd app] in ID, FO. split; [reflexivity|]. split; [congruence|]. split; [exact ID|].
    set (nodes := map fst (dependencies (g_arts g))) in *.
    assert (RAW : forall k a, In (k, a) (g_arts g) -> a_output a = None -> exists x, raw_found E s1 (a_storage a) x).
    { intros k a I O. destruct (discover E (files s1) (a_storage a) []) as [[|x parts]|e] eqn:DC; assert (DR := discover_raw s1 (a_storage a)); rewrite DC in DR.
      - rewrite (snapshot_missing g s1 k a I O) in H0; [discriminate|]. intros x X. apply DR in X. destruct X.
      - exists x. apply DR. now left.
      - rewrite (snapshot_missing g s1 k a I O) in H0; [discriminate|]. apply DR. }
    split; [exact RAW|].
    assert (FI : forall key a ps, In (key, a, ps) (snd found) <-> last_key (g_arts g) a key /\ a_output a = None /\ discover E (files s1) (a_storage a) [] = Ok ps).
    { intros key a ps. rewrite FO. rewrite in_flat_map. split.
      - intros ([b|p] & J & J'); [|destruct J']. destruct (a_output b) eqn:O; [destruct J'|]. destruct (key_of g b) as [kb|] eqn:KB; [|destruct J'].
        destruct (discover E (files s1) (a_storage b) []) as [pb|] eqn:DB; [|destruct J']. destruct J' as [J'|[]]. injection J' as -> -> ->.
        split; [now apply key_of_last|auto].
      - intros (LK & O & DC). exists (NArtifact a). split.
        + apply dependencies_defines. destruct LK as (l1 & l2 & EQ & _). econstructor. rewrite EQ. apply in_elt.
        + rewrite O. apply key_of_last in LK. rewrite LK, DC. now left. }
    split.
    - intros sn' key x. rewrite !linked_links, L.
      assert (LO : forall sn' k, links_of (write_snapshot (snapshot_fp E) (db sb) (Snapshot (fst found) g)) sn' k = links_of (db s1) sn' k).
      { intros. unfold links_of. destruct (ws_spec (snapshot_fp E) (db sb) (Snapshot (fst found) g)) as (_ & W1 & _). rewrite W1, Db.
        destruct (wg_spec (graph_fp E) (db sa) g) as (_ & W2 & _). now rewrite W2, Da. }
      rewrite LO. apply or_iff_compat_l, and_iff_compat_l. split.
      + intros (a & ps & J & X). apply FI in J. destruct J as (LK & O & DC). exists a. split; [exact LK|]. split; [exact O|].
        assert (DR := discover_raw s1 (a_storage a)). rewrite DC in DR. now apply DR.
      + intros (a & LK & O & RF). assert (DR := discover_raw s1 (a_storage a)). destruct (discover E (files s1) (a_storage a) []) as [ps|e] eqn:DC.
        * exists a, ps. split; [now apply FI|now apply DR].
        * destruct DR as [_ DR]. now destruct (DR x).
    - intros t x. rewrite !recorded_known, K.
      assert (KO : forall t, known_of (write_snapshot (snapshot_fp E) (db sb) (Snapshot (fst found) g)) t = known_of (db s1) t).
      { intros. apply known_of_dget. destruct (ws_spec (snapshot_fp E) (db sb) (Snapshot (fst found) g)) as (_ & _ & _ & W1 & _). rewrite W1, Db.
        destruct (wg_spec (graph_fp E) (db sa) g) as (_ & _ & _ & W2 & _). now rewrite W2, Da. }
      rewrite KO. apply or_iff_compat_l. split.
      + intros (key & a & ps & J & T & X). apply FI in J. destruct J as ((l1 & l2 & EQ & _) & O & DC). exists key, a. split; [rewrite EQ; apply in_elt|].
        split; [exact O|]. split; [exact T|]. subst t. assert (DR := discover_raw s1 (a_storage a)). rewrite DC in DR. now apply DR.
      + intros (k & a & I & O & T & RF). subst t. destruct (key_of_defined g k a I) as (key & KK). assert (DR := discover_raw s1 (a_storage a)).
        destruct (discover E (files s1) (a_storage a) []) as [ps|e] eqn:DC.
        * exists key, a, ps. split; [apply FI; split; [now apply key_of_last|auto]|]. split; [reflexivity|now apply DR].
        * destruct DR as [_ DR]. now destruct (DR x).
  Qed.
End Ids.

(** * What ids depend on *)
Lemma flat_map_perm : forall A B (f f' : A -> list B) l l', Permutation l l' -> (forall x, In x l -> Permutation (f x) (f' x)) -> Permutation (flat_map f l) (flat_map f' l').
Proof.
  intros A B f f' l l' P H. transitivity (flat_map f' l).
  - clear P. induction l as [|x l IH]; cbn; [constructor|]. apply Permutation_app; [apply H; now left|]. apply IH. intros y I. apply H. now right.
  - now apply Permutation_flat_map.
Qed.
Lemma Forall2_NoDup : forall A B (P : A -> B -> Prop) l m, Forall2 P l m -> NoDup l -> (forall x y z, In x l -> In y l -> P x z -> P y z -> x = y) -> NoDup m.
Proof.
  induction 1 as [|x z l m H F IH]; intros N INJ; [constructor|]. apply NoDup_cons_iff in N. destruct N as [N1 N2]. constructor.
  - intro I. assert (X : exists y, In y l /\ P y z).
    { clear - F I. induction F as [|y w l m H F IH]; [destruct I|]. destruct I as [ -> |I]; [exists y; split; [now left|exact H]|].
      destruct (IH I) as (u & J & K). exists u. split; [now right|exact K]. }
    destruct X as (y & J & K). assert (x = y) by (eapply INJ; eauto; [now left|now right]). now subst y.
  - apply IH; [exact N2|]. intros a b c Ia Ib. apply INJ; now right.
Qed.
Section Order.
  Context {V : Type} (E : env V).
  Lemma discover_NoDup : forall fs t parts, NoDup (map fst fs) -> discover E fs t [] = Ok parts -> NoDup parts.
  Proof.
    intros fs t parts N D. unfold discover in D. destruct (st_kind t) as [|v].
    - apply mapM_Forall2 in D. eapply Forall2_NoDup; [exact D|now apply NoDup_filter|].
      intros [[i k] f] [[i' k'] f'] z I I' H H'. apply filter_In in I, I'. destruct I as [_ I], I' as [_ I'].
      apply andb_true_iff in I, I'. destruct I as [I _], I' as [I' _]. cbn in I, I'. rewrite !andb_true_iff in I, I'.
      destruct I as [[I _] _], I' as [[I' _] _]. apply str_eqb_spec in I, I'. subst i i'. unfold take_snapshot in *.
      destruct (content fs (Partition t (snd (fst (st_id t, k, f))) (snd (st_id t, k, f)) None)); [|discriminate].
      destruct (content fs (Partition t (snd (fst (st_id t, k', f'))) (snd (st_id t, k', f')) None)); [|discriminate]. cbn in H, H'. congruence.
    - cbn [is_nil negb andb] in D. destruct (st_partitioned t && true)%bool; [discriminate|]. destruct v as [v|]; [|injection D as <-; constructor].
      cbn [mapM] in D. match goal with D : bind ?z _ = _ |- _ => destruct z as [x|]; [|discriminate] end. cbn [bind] in D. injection D as <-. constructor; [intros []|constructor].
  Qed.
  Lemma raw_found_same : forall (s s' : state V) t x, (forall l, dget location_eqb (files s) l = dget location_eqb (files s') l) -> raw_found E s t x <-> raw_found E s' t x.
  Proof. intros s s' t x H. unfold raw_found. apply and_iff_compat_l. destruct (st_kind t); [|tauto]. split; intros (k & d & D & R); exists k, d; (split; [|exact R]); now rewrite <- D, H. Qed.
  Lemma last_key_perm : forall g g' a key, Permutation g g' -> NoDup (map snd g) -> last_key g a key -> last_key g' a key.
  Proof.
    intros g g' a key P N (l1 & l2 & EQ & _). assert (I : In (key, a) g') by (eapply Permutation_in; [exact P|]; rewrite EQ; apply in_elt).
    apply in_split in I. destruct I as (m1 & m2 & EQ'). exists m1, m2. split; [exact EQ'|].
    assert (N' : NoDup (map snd g')) by (eapply Permutation_NoDup; [apply Permutation_map, P|exact N]). rewrite EQ', map_app in N'. cbn in N'.
    apply NoDup_remove_2 in N'. intro J. apply N', in_app_iff. now right.
  Qed.
  Lemma key_defined : forall g k a, In (k, a) (g_arts g) -> exists key, key_of g a = Ok key.
  Proof. intros g k a I. destruct (last_key_total _ _ _ I) as (key & K). exists key. now apply key_of_last. Qed.
  Lemma defines_perm : forall g g' n, Permutation g g' -> defines g n -> defines g' n.
  Proof. intros g g' n P D. destruct D as [k a I|k a p i I O]; [eapply defines_artifact|eapply defines_producer]; eauto; eapply Permutation_in; eauto. Qed.
  (** Neither the order of the artifacts nor the order of discovery matters. *)
  Theorem snapshot_order : forall g g' (s s1 s' s1' : state V) sn sn', from_graph E g s = (s1, Ok sn) -> from_graph E g' s' = (s1', Ok sn') ->
    graph_fp E g = graph_fp E g' -> Permutation (g_arts g) (g_arts g') -> NoDup (map snd (g_arts g)) ->
    Permutation (files s) (files s') -> NoDup (map fst (files s)) -> s_id sn = s_id sn'.
  Proof.
    intros g g' s s1 s' s1' sn sn' H H' G P N PF NF. apply snapshot_records in H, H'. destruct H as (_ & _ & -> & R & _), H' as (_ & _ & -> & R' & _).
    rewrite G. apply xor_all_perm. constructor.
    assert (NF' : NoDup (map fst (files s'))) by (eapply Permutation_NoDup; [apply Permutation_map, PF|exact NF]).
    assert (SD : forall l, dget location_eqb (files s) l = dget location_eqb (files s') l) by (intro l; now apply (dget_perm _ location_eqb_spec)).
    apply flat_map_perm.
    - apply NoDup_Permutation; [apply dependencies_NoDup|apply dependencies_NoDup|]. intro n. rewrite !dependencies_defines.
      split; apply defines_perm; [exact P|now apply Permutation_sym].
    - intros n I. apply dependencies_defines in I. unfold node_parts. constructor. destruct n as [a|p]; [|constructor].
      inversion I as [k b J EQ|]; subst. assert (KK : key_of g' a = key_of g a).
      { destruct (key_defined g k a J) as (key & K). rewrite K. apply key_of_last. eapply last_key_perm; [exact P|exact N|]. now apply key_of_last. }
      rewrite KK. apply Permutation_app_head. destruct (a_output a) eqn:O; [constructor|].
      assert (D1 := discover_raw E s (a_storage a)). assert (D2 := discover_raw E s' (a_storage a)).
      destruct (R k a J O) as (x & RF). destruct (discover E (files s) (a_storage a) []) as [parts|] eqn:DC; [|destruct D1 as [_ D1]; now destruct (D1 x)].
      destruct (discover E (files s') (a_storage a) []) as [parts'|] eqn:DC'; [|destruct D2 as [_ D2]; apply (raw_found_same s s') in RF; [now destruct (D2 x)|exact SD]].
      apply Permutation_map. apply NoDup_Permutation; [exact (discover_NoDup _ _ _ NF DC)|exact (discover_NoDup _ _ _ NF' DC')|]. intro y. rewrite (D1 y), (D2 y). now apply raw_found_same.
  Qed.

  (** Changing the content of one raw file changes the id. *)
  Lemma map_fst_dset : forall (fs : list (location * str)) l d, dget location_eqb fs l <> None -> map fst (dset location_eqb fs l d) = map fst fs.
  Proof.
    induction fs as [|[l' d'] fs IH]; intros l d H; [now destruct H|]. cbn [dset]. cbn [dget] in H. destruct (location_eqb l' l) eqn:Q; cbn [map fst].
    - apply location_eqb_spec in Q. now subst.
    - now rewrite IH.
  Qed.
  Lemma mapM_one : forall A B (f f' : A -> result B) l1 x l2 ys y', mapM f (l1 ++ x :: l2) = Ok ys -> f' x = Ok y' ->
    (forall z, In z l1 \/ In z l2 -> f' z = f z) -> exists m1 y m2, ys = m1 ++ y :: m2 /\ f x = Ok y /\ mapM f' (l1 ++ x :: l2) = Ok (m1 ++ y' :: m2).
  Proof.
    intros A B f f'. induction l1 as [|a l1 IH]; intros x l2 ys y' H F' S.
    - cbn [app mapM] in *. destruct (f x) as [y|]; [|discriminate]. cbn [bind] in H. destruct (mapM f l2) as [ys2|] eqn:M2; [|discriminate]. cbn [bind] in H. injection H as <-.
      exists [], y, ys2. split; [reflexivity|]. split; [reflexivity|]. rewrite F'. cbn [bind].
      assert (M : mapM f' l2 = Ok ys2).
      { rewrite <- M2. assert (S2 : forall z, In z l2 -> f' z = f z) by auto. clear - S2. induction l2 as [|b l2 IH]; [reflexivity|]. cbn [mapM]. rewrite (S2 b) by now left.
        destruct (f b); [|reflexivity]. cbn [bind]. rewrite IH; [reflexivity|]. intros z I. apply S2. now right. }
      rewrite M. reflexivity.
    - cbn [app mapM] in *. rewrite (S a) by (left; now left). destruct (f a) as [b|]; [|discriminate]. cbn [bind] in *.
      destruct (mapM f (l1 ++ x :: l2)) as [ys2|] eqn:M2; [|discriminate]. cbn [bind] in H. injection H as <-.
      destruct (IH x l2 ys2 y' M2 F') as (m1 & y & m2 & -> & FX & M'). { intros z [I|I]; apply S; [left; now right|now right]. }
      rewrite M'. cbn [bind]. exists (b :: m1), y, m2. auto.
  Qed.
  Lemma flat_map_same : forall A B (f f' : A -> list B) l, (forall x, In x l -> f x = f' x) -> flat_map f l = flat_map f' l.
  Proof. intros A B f f'. induction l as [|x l IH]; intro H; [reflexivity|]. cbn. rewrite (H x) by now left. rewrite IH; [reflexivity|]. intros y I. apply H. now right. Qed.
  Theorem snapshot_change : forall g (s s1 s' s1' : state V) sn sn' key a k d d', from_graph E g s = (s1, Ok sn) -> from_graph E g s' = (s1', Ok sn') ->
    In (key, a) (g_arts g) -> a_output a = None -> st_kind (a_storage a) = SFile -> st_templated (a_storage a) = false ->
    st_partitioned (a_storage a) = negb (is_nil k) -> (forall key' b, In (key', b) (g_arts g) -> a_output b = None -> st_id (a_storage b) = st_id (a_storage a) -> b = a) ->
    NoDup (map fst (files s)) -> dget location_eqb (files s) (st_id (a_storage a), k, None) = Some d ->
    files s' = dset location_eqb (files s) (st_id (a_storage a), k, None) d' ->
    part_fp E (PSnapshot (Partition (a_storage a) k None None) (file_fp E d)) <> part_fp E (PSnapshot (Partition (a_storage a) k None None) (file_fp E d')) ->
    s_id sn <> s_id sn'.
  Proof.
    intros g s s1 s' s1' sn sn' key a k d d' H H' I O SK ST SP SH NF D FS NE EQ.
    apply snapshot_records in H, H'. destruct H as (_ & _ & ID & R & _), H' as (_ & _ & ID' & R' & _). rewrite ID, ID' in EQ. clear ID ID'.
    set (t := a_storage a) in *. set (l := (st_id t, k, None) : location) in *.
    assert (IN : In (NArtifact a) (map fst (dependencies (g_arts g)))) by (apply dependencies_defines; econstructor; eauto).
    assert (NDn := dependencies_NoDup (g_arts g)). apply in_split in IN. destruct IN as (n1 & n2 & EN). rewrite EN in EQ, NDn.
    apply NoDup_remove_2 in NDn.
    assert (GET : forall l', dget location_eqb (files s') l' = if location_eqb l l' then Some d' else dget location_eqb (files s) l') by (intro l'; rewrite FS; apply (dget_dset _ location_eqb_spec)).
    assert (KEYS : map fst (files s') = map fst (files s)) by (rewrite FS; apply map_fst_dset; rewrite D; discriminate).
    assert (OTHER : forall n, In n n1 \/ In n n2 -> node_parts E g (files s) n = node_parts E g (files s') n).
    { intros n J. unfold node_parts. f_equal. destruct n as [b|p]; [|reflexivity]. f_equal. destruct (a_output b) eqn:OB; [reflexivity|].
      assert (DN : defines (g_arts g) (NArtifact b)) by (apply dependencies_defines; rewrite EN; apply in_app_iff; destruct J as [J|J]; [now left|right; now right]).
      inversion DN as [kb b' Ib EQb|]; subst b'. assert (DIFF : st_id (a_storage b) <> st_id t).
      { intro X. assert (b = a) by (eapply SH; eauto). subst b. apply NDn, in_app_iff. exact J. }
      assert (DS : discover E (files s) (a_storage b) [] = discover E (files s') (a_storage b) []); [|now rewrite DS].
      unfold discover. destruct (st_kind (a_storage b)) as [|v] eqn:SB; [|].
      - rewrite KEYS. apply mapM_ext. intros [[i kk] f] J'. apply filter_In in J'. destruct J' as [_ J']. apply andb_true_iff in J'. destruct J' as [J' _].
        cbn in J'. rewrite !andb_true_iff in J'. destruct J' as [[J' _] _]. apply str_eqb_spec in J'. subst i. unfold take_snapshot, content. cbn. rewrite SB.
        unfold location_of. cbn. rewrite GET. destruct (location_eqb l (st_id (a_storage b), kk, f)) eqn:Q; [|reflexivity].
        apply location_eqb_spec in Q. unfold l in Q. injection Q as Q _. congruence.
      - cbn [is_nil negb andb]. destruct (st_partitioned (a_storage b) && true)%bool; [reflexivity|].
        destruct v as [v|]; [|reflexivity]. cbn [mapM fst snd]. match goal with |- context [generate_partition ?x ?y ?z] => destruct (generate_partition x y z) as [pp|] eqn:GP; [|reflexivity] end.
        cbn [bind]. unfold generate_partition in GP. rewrite SB in GP.
        repeat match type of GP with (if ?c then _ else _) = _ => destruct c; try discriminate end; injection GP as <-; unfold take_snapshot, content; cbn; now rewrite SB. }
    rewrite !flat_map_app in EQ. cbn [flat_map] in EQ.
    rewrite (flat_map_same _ _ (node_parts E g (files s)) (node_parts E g (files s')) n1) in EQ by auto.
    rewrite (flat_map_same _ _ (node_parts E g (files s)) (node_parts E g (files s')) n2) in EQ by auto.
    assert (PARTS : exists m1 m2, node_parts E g (files s) (NArtifact a) = m1 ++ part_fp E (PSnapshot (Partition t k None None) (file_fp E d)) :: m2 /\
                                  node_parts E g (files s') (NArtifact a) = m1 ++ part_fp E (PSnapshot (Partition t k None None) (file_fp E d')) :: m2).
    { unfold node_parts. rewrite O. fold t. destruct (R key a I O) as (x & RF). assert (DR := discover_raw E s t). fold t in RF.
      destruct (discover E (files s) t []) as [parts|] eqn:DC; [|destruct DR as [_ DR]; now destruct (DR x)]. clear DR RF x.
      unfold discover in DC |- *. rewrite SK in DC |- *. rewrite KEYS.
      set (fl := fun l0 : location => (generated_by t l0 && option_eqb Z.eqb (get_fp [] (snd (fst l0))) (snd l0))%bool) in *.
      assert (INL : In l (filter fl (map fst (files s)))).
      { apply filter_In. split; [apply (dget_In _ location_eqb_spec) in D; now apply (in_map fst) in D|]. unfold fl, l. cbn. rewrite (proj2 (str_eqb_spec _ _) eq_refl), ST, SP.
        cbn. now rewrite eqb_reflx. }
      assert (NDf : NoDup (filter fl (map fst (files s)))) by now apply NoDup_filter.
      apply in_split in INL. destruct INL as (f1 & f2 & EF). rewrite EF in *. apply NoDup_remove_2 in NDf.
      destruct (mapM_one _ _ _ (fun lk => take_snapshot E (files s') (Partition t (snd (fst lk)) (snd lk) None)) f1 l f2 parts (PSnapshot (Partition t k None None) (file_fp E d')) DC)
        as (m1 & y & m2 & -> & FY & M').
      - unfold take_snapshot, content. cbn. rewrite SK. unfold location_of. cbn. rewrite GET. replace (location_eqb l _) with true by (symmetry; now apply location_eqb_spec). reflexivity.
      - intros l' J. unfold take_snapshot, content. cbn. rewrite SK. unfold location_of. cbn. rewrite GET.
        assert (FL : fl l' = true). { assert (X : In l' (f1 ++ l :: f2)) by (apply in_app_iff; destruct J; [now left|right; now right]). rewrite <- EF in X. now apply filter_In in X. }
        unfold fl in FL. apply andb_true_iff in FL. destruct FL as [FL _]. destruct l' as [[i kk] f]. cbn in FL. rewrite !andb_true_iff in FL. destruct FL as [[FL _] _].
        apply str_eqb_spec in FL. subst i. cbn [fst snd]. destruct (location_eqb l (st_id t, kk, f)) eqn:Q; [|reflexivity]. apply location_eqb_spec in Q. rewrite <- Q in J.
        destruct NDf. apply in_app_iff. exact J.
      - assert (TS : take_snapshot E (files s) (Partition t (snd (fst l)) (snd l) None) = Ok (PSnapshot (Partition t k None None) (file_fp E d))).
        { unfold take_snapshot, content. cbn [pt_storage]. rewrite SK. change (location_of (Partition t (snd (fst l)) (snd l) None)) with l. rewrite D. reflexivity. }
        rewrite TS in FY. injection FY as <-. change location with (str * pkey * option Z)%type in *. rewrite M'. rewrite !map_app. cbn [map].
        exists ((node_fp E (NArtifact a) :: match key_of g a with Ok key0 => [from_string E key0] | Err _ => [] end) ++ map (part_fp E) m1), (map (part_fp E) m2).
        cbn [app]. rewrite <- !app_assoc. split; reflexivity. }
    destruct PARTS as (m1 & m2 & P1 & P2). rewrite P1, P2 in EQ. apply NE.
    assert (SHAPE : forall x, graph_fp E g :: flat_map (node_parts E g (files s')) n1 ++ (m1 ++ x :: m2) ++ flat_map (node_parts E g (files s')) n2 =
      (graph_fp E g :: flat_map (node_parts E g (files s')) n1 ++ m1) ++ x :: m2 ++ flat_map (node_parts E g (files s')) n2).
    { intro x. cbn. f_equal. rewrite <- !app_assoc. reflexivity. }
    rewrite !SHAPE in EQ. now apply xor_all_change in EQ.
  Qed.
End Order.
