(** Facts about the concrete graphs of Mapped_Props. *)
From Coq Require Import ZArith List Ascii String Bool Arith Lia Permutation.
From Verif Require Import Base Base_Proofs Str Str_Proofs Graph_Model Graph_Spec Backend_Model Backend_Spec.
From Verif Require Import Executor_Model Executor_Spec Executor_Proofs Executor_Cases Executor_Cases_Proofs Executor_Tidy_Proofs Json_Model Json_Spec Json_Cases Json_Cases_Proofs.
From Verif Require Import Access_Model Whole_Model Whole_Spec Whole_Proofs Whole_Cases Whole_Cases_Proofs Mapped_Spec Mapped_Proofs Mapped_Order_Proofs Mapped_Cases.
Import ListNotations.
Open Scope list_scope.

Lemma each_by_keys : forall inputs : list (str * list psnapshot), NoDup (map fst inputs) -> (forall n l, In (n, l) inputs -> NoDup (map ps_key l)) ->
  each_input inputs = rmap (choose inputs) (each_keys (map (fun i => (fst i, map ps_key (snd i))) inputs)).
Proof.
  intros inputs NI NK. destruct inputs as [|[n l] [|? ?]]; try reflexivity. cbn [each_input each_keys map fst snd rmap]. f_equal. unfold choose.
  rewrite !map_map. apply map_ext_in. intros x Ix. cbn [fst snd map]. do 3 f_equal. unfold with_keys. cbn [dget]. rewrite (eqb_refl _ str_eqb_spec). cbn [flat_map]. rewrite app_nil_r.
  destruct (chosen_one l (ps_key x)) as (y & -> & Iy & Q); [apply (NK n); now left|now apply in_map|]. f_equal.
  assert (ND : NoDup (map ps_key l)) by (apply (NK n); now left). clear - ND Ix Iy Q. induction l as [|z l IH]; [destruct Ix|]. inversion ND as [|? ? N1 N2]; subst.
  destruct Ix as [ <- |Ix], Iy as [ <- |Iy]; [reflexivity| | |now apply IH]; exfalso; apply N1; [rewrite <- Q|rewrite Q]; now apply in_map.
Qed.
Lemma each_dicts : forall inputs asked, (forall n ks, In (n, ks) inputs -> NoDup ks) -> each_keys inputs = Ok asked ->
  NoDup (map fst asked) /\ forall k d, In (k, d) asked -> NoDup (map fst d).
Proof.
  intros [|[n ks] [|? ?]] asked ND H; try discriminate. injection H as <-. rewrite map_map. cbn [fst]. rewrite map_id. split; [apply (ND n); now left|].
  intros k d I. apply in_map_iff in I. destruct I as (k' & Q & _). injection Q as _ <-. repeat constructor. intros [].
Qed.
Lemma each_among : forall inputs asked k d n ks k', each_keys inputs = Ok asked -> In (k, d) asked -> In (n, ks) d -> In k' ks ->
  exists l, dget str_eqb inputs n = Some l /\ In k' l.
Proof.
  intros [|[m l] [|? ?]] asked k d n ks k' H I In' Ik; try discriminate. injection H as <-. apply in_map_iff in I. destruct I as (k2 & Q & I2). injection Q as _ <-.
  destruct In' as [Q|[]]. injection Q as <- <-. destruct Ik as [ <- |[]]. exists l. cbn [dget]. rewrite (eqb_refl _ str_eqb_spec). auto.
Qed.
Lemma each_orderly : orderly (fun _ => each_keys).
Proof.
  intros c inputs inputs' asked F ND H. split; [now apply (each_dicts inputs asked)|]. destruct inputs as [|[n ks] [|? ?]]; try discriminate.
  inversion F as [|? [n' ks'] ? ? (Q & P) F']; subst. inversion F'; subst. cbn in Q, P. subst n'. injection H as <-. eexists. split; [reflexivity|]. now apply Permutation_map.
Qed.
Lemma keys14_among : forall c inputs asked k d n ks k', NoDup (map fst inputs) -> keys14 c inputs = Ok asked -> In (k, d) asked -> In (n, ks) d -> In k' ks ->
  exists l, dget str_eqb inputs n = Some l /\ In k' l.
Proof.
  intros c inputs asked k d n ks k' ND H I In' Ik. unfold keys14 in H. destruct (str_eqb c $"each"); [eapply each_among; eauto|].
  injection H as <-. destruct I as [I|[]]. injection I as _ <-. exists ks. split; [now apply (dget_NoDup _ str_eqb_spec)|exact Ik].
Qed.
Lemma g14_by_keys : by_keys tidy keys14 (g_arts g14).
Proof.
  constructor.
  - intros p i a inputs P NI NK. cases14 P; [exact (each_by_keys inputs NI NK)|]. 
    assert (Q := bk_map _ _ _ (whole_by_keys _ tidy _ g1_whole) double 0 b1 inputs). apply Q; auto. exists $"b". split; [right; now left|reflexivity].
  - intros p i a inputs asked P ND NK H. cases14 P; [eapply each_dicts; eauto|]. injection H as <-. split; [repeat constructor; intros []|]. intros k d [I|[]]. injection I as _ <-. exact ND.
  - intros p i a inputs asked k d n ks k' P ND H I In' Ik. eapply keys14_among; eauto.
  - intros p i a P. cases14 P; repeat constructor; intros [].
Qed.
Lemma tidy_glues : joins tidy glue.
Proof.
  intros a ds _ _. assert (Q : mapM (fun d => load tidy a [d]) ds = Ok ds); [|now rewrite Q].
  induction ds as [|d ds IH]; [reflexivity|]. cbn [mapM]. rewrite IH. cbn. now rewrite app_nil_r.
Qed.
Lemma tidy_rows : forall K s g, rows_survive tidy K glue s g.
Proof. intros K s g p i a outs k vs v d _ _ _ _ D. cbn in D. injection D as ->. cbn. now rewrite app_nil_r. Qed.
Lemma g14_unbuilt : unbuilt (g_arts g14) start14.
Proof. split; [reflexivity|]. split; [reflexivity|]. intros p i a k f P. cases14 P; reflexivity. Qed.
Lemma g14_no_gaps : no_gaps (g_arts g14).
Proof. intros p i a j P L. cases14 P; lia. Qed.
Definition part (t : storage) (k : pkey) (c : Z) : psnapshot := PSnapshot (Partition t k None None) c.
Lemma two_files : forall V (E : env V) (s : state V) a k1 k2 d1 d2, st_kind (a_storage a) = SFile -> st_partitioned (a_storage a) = true -> st_templated (a_storage a) = false ->
  a_output a = None -> files s = [((st_id (a_storage a), k1, None), d1); ((st_id (a_storage a), k2, None), d2)] -> k1 <> k2 -> is_nil k1 = false -> is_nil k2 = false -> forall K J,
  table E K J s a [(k1, load E a [d1]); (k2, load E a [d2])].
Proof.
  intros V E s a k1 k2 d1 d2 KD PT TM AO FS NE N1 N2 K J.
  apply (table_raw E K J s a [part (a_storage a) k1 (file_fp E d1); part (a_storage a) k2 (file_fp E d2)]); [exact AO| | |].
  - repeat constructor; [|intros []]. intros [Q|[]]. apply NE. now injection Q.
  - intro x. unfold raw_found. rewrite KD. split.
    + intros [ <- |[ <- |[]]].
      * split; [exact TM|]. exists k1, d1. rewrite FS, PT, ?N1, ?N2. cbn [dget]. rewrite (eqb_refl _ location_eqb_spec). auto.
      * split; [exact TM|]. exists k2, d2. rewrite FS, PT, ?N1, ?N2. cbn [dget]. rewrite (eqb_neq _ location_eqb_spec) by congruence. rewrite (eqb_refl _ location_eqb_spec). auto.
    + intros (_ & k & d & D & _ & ->). rewrite FS in D. cbn [dget] in D. destruct (location_eqb _ _) eqn:Q1 in D.
      * apply location_eqb_spec in Q1. injection Q1 as <-. injection D as <-. now left.
      * destruct (location_eqb _ _) eqn:Q2 in D; [|discriminate]. apply location_eqb_spec in Q2. injection Q2 as <-. injection D as <-. right. now left.
  - repeat constructor; eexists; (split; [|reflexivity]); unfold holds_data; cbn; rewrite KD, FS; cbn [dget].
    + now rewrite (eqb_refl _ location_eqb_spec).
    + rewrite (eqb_neq _ location_eqb_spec) by congruence. now rewrite (eqb_refl _ location_eqb_spec).
Qed.
Lemma b14_table : table tidy keys14 glue start14 b14 [($"1", Ok $"x!"); ($"2", Ok $"y!")].
Proof.
  eapply table_built with (outs := [($"1", [$"x!"]); ($"2", [$"y!"])]); [reflexivity| |repeat constructor; eexists; split; reflexivity].
  eapply made_by; [eapply tables_more; [|eapply tables_none]|reflexivity|].
  - eapply (two_files _ tidy); try reflexivity. discriminate.
  - constructor; [|constructor; [|constructor]]; (split; [reflexivity|]).
    + exists [($"x", $"x")]. split; [|reflexivity]. constructor; [|constructor]. split; [reflexivity|]. eexists _, _, _, [$"x"]. repeat (split; [reflexivity|]).
      split; [discriminate|]. split; [constructor; [now left|constructor]|reflexivity].
    + exists [($"x", $"y")]. split; [|reflexivity]. constructor; [|constructor]. split; [reflexivity|]. eexists _, _, _, [$"y"]. repeat (split; [reflexivity|]).
      split; [discriminate|]. split; [constructor; [right; now left|constructor]|reflexivity].
Qed.
Lemma c14_table : table tidy keys14 glue start14 c14 [([], Ok $"x!y!x!y!")].
Proof.
  eapply table_built with (outs := [([], [$"x!y!x!y!"])]); [reflexivity| |repeat constructor; eexists; split; reflexivity].
  eapply made_by; [eapply tables_more; [exact b14_table|eapply tables_none]|reflexivity|].
  constructor; [|constructor]. split; [reflexivity|]. exists [($"x", $"x!y!")]. split; [|reflexivity]. constructor; [|constructor]. split; [reflexivity|]. eexists _, _, _, [$"x!"; $"y!"]. repeat (split; [reflexivity|]).
  split; [discriminate|]. split; [constructor; [now left|constructor; [right; now left|constructor]]|reflexivity].
Qed.

(** JSON. *)
Lemma g2_produces' : forall p i a, produces (g_arts g2) p i a -> p = each /\ i = 0 /\ a = b21.
Proof. intros p i a (k & I & O). destruct I as [Q|[Q|[]]]; injection Q as <- <-; [discriminate|]. injection O as <- <-. auto. Qed.
Ltac case2 P := apply g2_produces' in P; destruct P as (-> & -> & ->).
Lemma g2_in_order_counter : in_order counter (g_arts g2).
Proof.
  constructor.
  - vm_compute. repeat constructor; cbn; intuition discriminate.
  - intros p i a q j b P Q _. case2 P. case2 Q. reflexivity.
  - intros p i a b P Q. case2 P. apply g2_produces' in Q. destruct Q as (_ & _ & ->). reflexivity.
  - intros p i a P. case2 P. cbn. lia.
  - intros p i a args vs P H. case2 P. unfold runs in H. cbn in H. injection H as ->. reflexivity.
Qed.
Lemma g2_by_keys : by_keys counter (fun _ => each_keys) (g_arts g2).
Proof.
  constructor.
  - intros p i a inputs P NI NK. exact (each_by_keys inputs NI NK).
  - intros p i a inputs asked P ND NK H. eapply each_dicts; eauto.
  - intros p i a inputs asked k d n ks k' P ND H I In' Ik. eapply each_among; eauto.
  - intros p i a P. case2 P. repeat constructor. intros [].
Qed.
Lemma g2_distinct' : distinct_paths (g_arts g2).
Proof. intros p i a q j b P Q E. case2 P. case2 Q. reflexivity. Qed.
Lemma g2_templated' : templated (g_arts g2).
Proof. intros p i a P. case2 P. reflexivity. Qed.
Lemma g2_no_gaps' : no_gaps (g_arts g2).
Proof. intros p i a j P L. case2 P. lia. Qed.
Lemma g2_unbuilt : unbuilt (g_arts g2) ex21.
Proof. split; [reflexivity|]. split; [reflexivity|]. intros p i a k f P. case2 P. reflexivity. Qed.
Lemma counter_json : stores_json counter.
Proof. intros a v. split; reflexivity. Qed.
Lemma counter_rows : rows_json counter (fun _ => each_keys) ex21 (g_arts g2).
Proof.
  intros p i a outs k vs v P MA I N. case2 P. inversion MA as [? Ts asked ? _ _ F]; subst. destruct (Forall2_in_r _ _ _ _ _ _ F I) as (kd & _ & (_ & args & _ & R)).
  unfold runs in R. cbn in R. injection R as R. cbn [snd] in R. rewrite R in N. cbn in N. injection N as <-. unfold count.
  split; [|split; [|eauto]]; constructor; intros y [ <- |[]]; constructor.
Qed.
Lemma read21_done : read21 = Ok (VList [VInt 1; VInt 3]).
Proof.
  assert (H : is_list21 read21 = true) by (vm_compute; reflexivity). destruct read21 as [[| | | | |l| | | | | |]|]; try discriminate.
  destruct l as [|[| |x| | | | | | | | |] [|[| |y| | | | | | | | |] [|? ?]]]; try discriminate. cbn in H. apply andb_prop in H. destruct H as [H1 H2]. apply Z.eqb_eq in H1, H2. now subst.
Qed.
Lemma b21_table : table counter (fun _ => each_keys) json_join ex21 b21 [($"1", Ok (VList [VInt 1])); ($"2", Ok (VList [VInt 3]))].
Proof.
  eapply table_built with (outs := [($"1", [VList [VInt 1] : obj]); ($"2", [VList [VInt 3] : obj])]); [reflexivity| |repeat constructor; eexists; split; reflexivity].
  eapply made_by with (Ts := [($"x", [($"1", Ok (VList [VInt 7] : obj)); ($"2", Ok (VList [VInt 7; VList []; VInt 8] : obj))])]); [eapply tables_more; [|eapply tables_none]|reflexivity|].
  - exact (two_files _ counter ex21 (raw_parts "a") $"1" $"2" $"[7]" $"[7, [], 8]" eq_refl eq_refl eq_refl eq_refl eq_refl ltac:(discriminate) eq_refl eq_refl (fun _ => each_keys) json_join).
  - constructor; [|constructor; [|constructor]]; (split; [reflexivity|]).
    + exists [($"x", VList [VInt 7] : obj)]. split; [|reflexivity]. constructor; [|constructor]. split; [reflexivity|]. eexists _, _, _, [VList [VInt 7] : obj]. repeat (split; [reflexivity|]).
      split; [discriminate|]. split; [constructor; [now left|constructor]|reflexivity].
    + exists [($"x", VList [VInt 7; VList []; VInt 8] : obj)]. split; [|reflexivity]. constructor; [|constructor]. split; [reflexivity|]. eexists _, _, _, [VList [VInt 7; VList []; VInt 8] : obj]. repeat (split; [reflexivity|]).
      split; [discriminate|]. split; [constructor; [right; now left|constructor]|reflexivity].
Qed.
