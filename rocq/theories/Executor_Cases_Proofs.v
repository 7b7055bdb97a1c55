(** Facts about the concrete graphs. *)
From Coq Require Import ZArith List Ascii String Bool Arith Lia.
From Verif Require Import Base Base_Proofs Str Str_Proofs Graph_Model Graph_Spec Graph_Proofs.
From Verif Require Import Backend_Model Backend_Spec Backend_Proofs.
From Verif Require Import Executor_Model Executor_Spec Executor_Proofs Executor_Build_Proofs Executor_Top_Proofs Executor_Cases.
Import ListNotations.
Open Scope list_scope.

Lemma demo_iterates : iterates demo.
Proof. intros l x. reflexivity. Qed.

Lemma g1_produces : forall p i a, produces (g_arts g1) p i a -> p = double /\ i = 0 /\ a = b1.
Proof. intros p i a (k & I & O). destruct I as [Q|[Q|[]]]; injection Q as <- <-; [discriminate|]. injection O as <- <-. auto. Qed.
Lemma g3_produces : forall p i a, produces (g_arts g3) p i a ->
  (p = double /\ i = 0 /\ a = b1) \/ (p = split2 /\ i = 0 /\ a = out "c" split2 0) \/ (p = split2 /\ i = 1 /\ a = out "d" split2 1).
Proof. intros p i a (k & I & O). destruct I as [Q|[Q|[Q|[Q|[]]]]]; injection Q as <- <-; [discriminate| | |]; injection O as <- <-; auto. Qed.
Ltac cases3 P := apply g3_produces in P; destruct P as [(-> & -> & ->)|[(-> & -> & ->)|(-> & -> & ->)]].
Lemma g3_in_order : in_order demo (g_arts g3).
Proof.
  constructor.
  - vm_compute. repeat constructor; cbn; intuition discriminate.
  - intros p i a q j b P Q E. cases3 P; cases3 Q; try reflexivity; discriminate.
  - intros p i a b P Q. cases3 P; apply g3_produces in Q; destruct Q as [(Q1 & Q2 & ->)|[(Q1 & Q2 & ->)|(Q1 & Q2 & ->)]]; try reflexivity; try discriminate.
  - intros p i a P. cases3 P; vm_compute; lia.
  - intros p i a args vs P H. cases3 P; unfold runs in H; cbn in H; injection H as ->; reflexivity.
Qed.
Lemma g1_in_order : in_order demo (g_arts g1).
Proof.
  constructor.
  - vm_compute. repeat constructor; cbn; intuition discriminate.
  - intros p i a q j b P Q _. apply g1_produces in P, Q. destruct P as (_ & _ & ->), Q as (_ & _ & ->). reflexivity.
  - intros p i a b P Q. apply g1_produces in P, Q. destruct P as (_ & _ & ->), Q as (_ & _ & ->). reflexivity.
  - intros p i a P. apply g1_produces in P. destruct P as (-> & -> & _). vm_compute. lia.
  - intros p i a args vs P H. apply g1_produces in P. destruct P as (-> & -> & _). unfold runs in H. cbn in H. injection H as ->. reflexivity.
Qed.
Lemma g13_produces : forall p i a, produces (g_arts g13) p i a -> (p = double /\ i = 0 /\ a = b1) \/ (p = again13 /\ i = 0 /\ a = c13).
Proof. intros p i a (k & I & O). destruct I as [Q|[Q|[Q|[]]]]; injection Q as <- <-; [discriminate| |]; injection O as <- <-; auto. Qed.
Ltac cases13 P := apply g13_produces in P; destruct P as [(-> & -> & ->)|(-> & -> & ->)].
Lemma g13_in_order : in_order demo (g_arts g13).
Proof.
  constructor.
  - vm_compute. repeat constructor; cbn; intuition discriminate.
  - intros p i a q j b P Q E. cases13 P; cases13 Q; try reflexivity; discriminate.
  - intros p i a b P Q. cases13 P; apply g13_produces in Q; destruct Q as [(Q1 & Q2 & ->)|(Q1 & Q2 & ->)]; try reflexivity; try discriminate.
  - intros p i a P. cases13 P; vm_compute; lia.
  - intros p i a args vs P H. cases13 P; unfold runs in H; cbn in H; injection H as ->; reflexivity.
Qed.
Lemma g13_distinct : distinct_paths (g_arts g13).
Proof. intros p i a q j b P Q E. cases13 P; cases13 Q; try reflexivity; discriminate. Qed.
Lemma g13_one : forall p i a j b, produces (g_arts g13) p i a -> produces (g_arts g13) p j b -> b = a.
Proof. intros p i a j b P Q. cases13 P; apply g13_produces in Q; destruct Q as [(Q1 & Q2 & ->)|(Q1 & Q2 & ->)]; try reflexivity; discriminate. Qed.
Lemma demo_picks : picks demo.
Proof.
  intros c inputs m k d n l x M I J K. assert (A : all_inputs inputs = Ok m -> exists n' l', In (n', l') inputs /\ In x l').
  { intro H. injection H as <-. destruct I as [Q|[]]. injection Q as <- <-. eauto. }
  cbn [demo with_dump classes] in M. unfold producers in M.
  repeat match type of M with c_map (if ?b then _ else _) _ = _ => destruct b; cbn [c_map] in M end; auto.
  - unfold each_input in M. destruct inputs as [|[n' l'] [|? ?]]; try discriminate. injection M as <-. apply in_map_iff in I.
    destruct I as (y & Q & I). injection Q as <- <-. destruct J as [Q|[]]. injection Q as <- <-. destruct K as [ <- |[]]. exists n', l'. split; [now left|exact I].
  - injection M as <-. destruct I.
Qed.
Lemma g3_distinct : distinct_paths (g_arts g3).
Proof. intros p i a q j b P Q E. cases3 P; cases3 Q; try reflexivity; discriminate. Qed.
Lemma g3_templated : templated (g_arts g3).
Proof. intros p i a P. cases3 P; reflexivity. Qed.
Lemma g1_templated : templated (g_arts g1).
Proof. intros p i a P. apply g1_produces in P. destruct P as (_ & _ & ->). reflexivity. Qed.
Lemma g3_no_gaps : no_gaps (g_arts g3).
Proof.
  intros p i a j P L. cases3 P; try lia. assert (j = 0) by lia. subst j. exists (out "c" split2 0), $"c". split; [|reflexivity]. right. right. now left.
Qed.
Lemma g1_no_gaps : no_gaps (g_arts g1).
Proof. intros p i a j P L. apply g1_produces in P. destruct P as (_ & -> & _). lia. Qed.
Lemma last : forall (g : artifacts) k a, dget artifact_eqb (artifact_to_key g) a = Some k -> last_key g a k.
Proof. intros g k a H. apply (proj1 (key_of_last (GraphDef [] g) a k)). unfold key_of. cbn [g_arts]. now rewrite H. Qed.

(** What the first graph asks for. *)
Lemma g1_asks : forall s sn k d, s_graph sn = g1 -> asks demo s sn double k d -> k = [] /\ d = [($"x", snd (read_snapshot_partitions (db s) sn $"a"))].
Proof.
  intros s sn k d G (inputs & m & l1 & l2 & d0 & IP & M & EQ & _ & ->). unfold input_partitions in IP. cbn in IP.
  inversion IP as [|na nl l l' (N & key & LK & R) F]; subst. inversion F; subst. cbn in N, R. destruct nl as [n parts]. cbn in N, R. subst n parts.
  rewrite G in LK. apply (proj2 (key_of_last _ _ _)) in LK. vm_compute in LK. injection LK as <-.
  cbn in M. injection M as M. destruct l1 as [|y l1]; [|destruct l1; discriminate]. injection M as <- <- <-. split; reflexivity.
Qed.

Lemma x_asks : forall c, c_map (producers c) = all_inputs -> c_map_inputs (producers c) = x_only ->
  forall s sn p a key, p = Producer c 1 [($"x", a)] -> last_key (g_arts (s_graph sn)) a key ->
  asks demo s sn p [] [($"x", snd (read_snapshot_partitions (db s) sn key))].
Proof.
  intros c M I s sn p a key -> K. unfold asks. cbn. rewrite M, I. exists [($"x", snd (read_snapshot_partitions (db s) sn key))]. eexists _, [], [], _.
  split; [repeat constructor; exists key; split; [exact K|reflexivity]|]. split; [reflexivity|]. split; [reflexivity|]. split; [intros []|reflexivity].
Qed.
Lemma snap_happens : forall g s, happens demo s (fst (snap g s)).
Proof.
  intros g s. unfold snap. destruct (from_graph demo g s) as [s' [sn|e]] eqn:H; eapply happens_snapshot; exact H.
Qed.
Lemma built_happens : forall s sn, happens demo s (built s sn).
Proof.
  intros s sn. unfold built. destruct (build demo sn s) as [s' r] eqn:H. unfold build in H. unfold andthen, ret in H.
  destruct (dependencies_order (g_arts (s_graph sn))) as (order & SO & _). rewrite SO in H. eapply happens_build. exact H.
Qed.
Lemma limit_happens : forall s n, happens demo s (limit s n).
Proof. intros s n. apply happens_limit. Qed.
Lemma restart_happens : forall s, happens demo s (restart s).
Proof. intro s. apply happens_restart. Qed.
Lemma raw_happens : forall s fs, happens demo s (with_raw s fs).
Proof. intros s fs. apply happens_files. Qed.
Lemma arises_run : forall g s, arises demo s -> arises demo (run g s).
Proof. intros g s A. eapply arises_then; [|apply built_happens]. eapply arises_then; [exact A|apply snap_happens]. Qed.
Lemma crashed3_arises : arises demo crashed3.
Proof.
  unfold crashed3. eapply arises_then; [|apply limit_happens]. eapply arises_then; [|apply built_happens]. eapply arises_then; [|apply limit_happens].
  eapply arises_then; [|apply snap_happens]. apply arises_start.
Qed.
Lemma crashed1_arises : arises demo crashed1.
Proof.
  unfold crashed1. eapply arises_then; [|apply restart_happens]. eapply arises_then; [|apply limit_happens]. eapply arises_then; [|apply built_happens].
  eapply arises_then; [|apply limit_happens]. eapply arises_then; [|apply snap_happens]. apply arises_start.
Qed.
(** [x] is the only argument. *)
Lemma x_reads : forall s c a x v, c_build_inputs (producers c) = x_only -> content (files s) (ps_part x) = Some v ->
  reads demo s (Producer c 1 [($"x", a)]) [($"x", [x])] [($"x", v ++ [])].
Proof.
  intros s c a x v I C. unfold reads. cbn. rewrite I. repeat constructor. exists a, [x], [v]. split; [reflexivity|]. split; [reflexivity|]. split; [discriminate|].
  split; [|reflexivity]. repeat constructor. unfold holds_data, content, location_of in *. destruct (st_kind (pt_storage (ps_part x))); exact C.
Qed.

(** The history: with "1", a new process with "2", and a new one with "1" again. All requests for b agree. *)
Definition ask_double (a : artifact) (k : pkey) (d : list (str * list psnapshot)) (args : list (str * str)) : Prop :=
  a = b1 /\ exists v, (v = $"1" \/ v = $"2") /\ map ps_content (flat_map snd d) = [hash v] /\ args = [($"x", v)].
Lemma ask_double_agree : agree demo ask_double.
Proof.
  intros a p i k d args data a' p' i' d' args' data' (-> & v & HV & C & ->) (-> & v' & HV' & C' & ->) O O' _ F H H'.
  injection O as <- <-. injection O' as <- <-. assert (v = v').
  { unfold fingerprint_for in F. rewrite C, C' in F. destruct HV as [->| ->], HV' as [->| ->]; try reflexivity; vm_compute in F; discriminate. }
  subst v'. destruct H as (q & j & vs & w & O & R & N & D), H' as (q' & j' & vs' & w' & O' & R' & N' & D').
  injection O as <- <-. injection O' as <- <-. cbn in R, R'. injection R as ->. injection R' as ->. cbn in N, N', D, D'. congruence.
Qed.
Lemma demo_writable : writable demo.
Proof. intros p i a v _. exists v. reflexivity. Qed.
Lemma g1_covers : forall s s' sn v x new', s_graph sn = g1 -> snd (read_snapshot_partitions (db s') sn $"a") = [x] -> ps_content x = hash v ->
  content (files s') (ps_part x) = Some v -> log s' = new' ++ log s -> (forall args, In (Built double [] args) new' -> args = [($"x", v)]) ->
  (v = $"1" \/ v = $"2") -> covers demo ask_double sn s s'.
Proof.
  intros s s' sn v x new' G L C D LG B HV new p i a k d args EQ P A R. rewrite LG in EQ. apply app_inv_tail in EQ. subst new'.
  rewrite G in P. apply g1_produces in P. destruct P as (-> & -> & ->). apply (g1_asks _ _ _ _ G) in A. destruct A as [-> ->]. rewrite L in *.
  split; [reflexivity|]. exists v. split; [exact HV|]. split; [cbn; now rewrite C|]. destruct R as [R|R]; [now apply B|].
  unfold reads in R. cbn in R. unfold x_only in R. inversion R as [|n0 nv l l' (N & a0 & d0 & ds & _ & D0 & _ & H & LD) F]; subst. inversion F; subst.
  cbn in D0. injection D0 as <-. inversion H as [|x0 d1 l0 l1 HD H']; subst. inversion H'; subst. destruct nv as [n0 w]. cbn in LD, LG |- *.
  injection LD as <-. rewrite app_nil_r. unfold holds_data in HD. unfold content in D.
  assert (d1 = v) by (destruct (st_kind (pt_storage (ps_part x))); unfold location_of in D; unfold ps_key, ps_fp in HD; congruence). subst d1. match goal with K : fst (n0, _) = _ |- _ => cbn in K; now rewrite K end.
Qed.
Definition told1 := run g1 ex1.
Definition told2 := run g1 (restart (with_raw told1 [file "a" "" "2"])).
Definition told3 := restart (with_raw told2 [file "a" "" "1"]).
Lemma raw_follows : forall R s fs, (forall f, In f fs -> snd (fst f) = None) -> follows demo R s (with_raw s fs).
Proof.
  intros R s fs H. apply follows_raw. intros i k f. generalize (files s). induction fs as [|[l d] fs IH]; intro l0; [reflexivity|]. cbn [fold_left].
  rewrite IH by (intros y Iy; apply H; now right). apply dget_dset_other; [exact location_eqb_spec|]. intro Q.
  assert (X := H (l, d) (or_introl eq_refl)). cbn [fst snd] in Q, X. rewrite Q in X. discriminate.
Qed.
Lemma run_history : forall s v x new', (v = $"1" \/ v = $"2") -> s_graph (snd (snap g1 s)) = g1 ->
  snd (read_snapshot_partitions (db (run g1 s)) (snd (snap g1 s)) $"a") = [x] -> ps_content x = hash v ->
  content (files (run g1 s)) (ps_part x) = Some v -> log (run g1 s) = new' ++ log (fst (snap g1 s)) -> (forall args, In (Built double [] args) new' -> args = [($"x", v)]) ->
  history demo ask_double s -> history demo ask_double (run g1 s).
Proof.
  intros s v x new' HV G L C D LG B H. eapply history_then with (s := fst (snap g1 s)).
  - eapply history_then; [exact H|]. unfold snap. destruct (from_graph demo g1 s) as [s' [sn|e]] eqn:Q; eapply follows_snapshot; exact Q.
  - unfold run, built in *. destruct (build demo (snd (snap g1 s)) (fst (snap g1 s))) as [s' r] eqn:BB. cbn [fst] in *.
    eapply build_follows; [exact BB| | | |eapply g1_covers; eauto]; rewrite G.
    + apply (io_keys _ _ g1_in_order).
    + exact g1_templated.
    + exact g1_no_gaps.
Qed.
Lemma told3_history : history demo ask_double told3.
Proof.
  assert (ONE : forall name d f, In f [file name "" d] -> snd (fst f) = None) by (intros name d f [<-|[]]; reflexivity).
  unfold told3. eapply history_then; [|apply follows_restart]. eapply history_then; [|apply raw_follows, ONE]. unfold told2.
  eapply (run_history _ $"2" _ (firstn 3 (log told2))); [now right|vm_compute; reflexivity|vm_compute; reflexivity|vm_compute; reflexivity|vm_compute; reflexivity|vm_compute; reflexivity| |].
  { intros args I. vm_compute in I. destruct I as [I|[I|[I|[]]]]; [discriminate|discriminate|]. injection I as <-. reflexivity. }
  eapply history_then; [|apply follows_restart]. eapply history_then; [|apply raw_follows, ONE]. unfold told1.
  eapply (run_history _ $"1" _ (firstn 3 (log told1))); [now left|vm_compute; reflexivity|vm_compute; reflexivity|vm_compute; reflexivity|vm_compute; reflexivity|vm_compute; reflexivity| |].
  { intros args I. vm_compute in I. destruct I as [I|[I|[I|[]]]]; [discriminate|discriminate|]. injection I as <-. reflexivity. }
  apply history_start. intros i k f [Q|[]]. discriminate.
Qed.
