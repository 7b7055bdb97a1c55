(** Facts about the concrete graphs of Whole_Props. *)
From Coq Require Import ZArith List Ascii String Bool Arith Lia.
From Verif Require Import Base Base_Proofs Str Str_Proofs Graph_Model Graph_Spec Graph_Proofs Backend_Model Backend_Spec Backend_Proofs.
From Verif Require Import Executor_Model Executor_Spec Executor_Proofs Executor_Build_Proofs Executor_Top_Proofs Executor_Cases Executor_Cases_Proofs Executor_Tidy_Proofs Json_Model Json_Spec Json_Cases Json_Cases_Proofs.
From Verif Require Import Access_Model Whole_Model Whole_Spec Whole_Proofs Whole_Cases.
Import ListNotations.
Open Scope list_scope.

Lemma g3_whole : whole demo (g_arts g3).
Proof. split; intros p i a P; cases3 P; try reflexivity; repeat constructor; cbn; intuition discriminate. Qed.
Lemma g3_survives : survives demo ex1 (g_arts g3).
Proof. intros p i a args vs v d P _ R N D. cbn in D. injection D as ->. cbn. now rewrite app_nil_r. Qed.
Lemma g3_unbuilt : unbuilt (g_arts g3) ex1.
Proof. split; [reflexivity|]. split; [reflexivity|]. intros p i a k f P. cases3 P; reflexivity. Qed.
Lemma demo_iterates_once : iterates_once demo.
Proof. intros l N. exact N. Qed.
Lemma file_value : forall V (E : env V) s a d v, iterates E -> a_output a = None -> (forall x, iter_set E [x] = [x]) ->
  st_kind (a_storage a) = SFile -> st_partitioned (a_storage a) = false -> st_templated (a_storage a) = false ->
  dget location_eqb (files s) (st_id (a_storage a), [], None) = Some d -> load E a [d] = Ok v -> value E s a v.
Proof.
  intros V E s a d v IT AO ONE K PT TM D LO.
  set (x := PSnapshot (Partition (a_storage a) [] None None) (file_fp E d)).
  apply (value_raw E s a [x] [d]); auto.
  - intro y. unfold raw_found. rewrite K. split.
    + intros [ <- |[]]. split; [exact TM|]. exists [], d. rewrite PT. auto.
    + intros (_ & k & d' & D' & P & EQ). rewrite PT in P. destruct k as [|c k]; [|discriminate]. left. rewrite EQ. unfold x. assert (Q := eq_trans (eq_sym D) D'). now injection Q as ->.
  - rewrite ONE. constructor; [|constructor]. unfold holds_data. cbn. now rewrite K.
Qed.

(** JSON. *)
Lemma paper_iterates : iterates paper.
Proof. exact tidy_iterates. Qed.
Lemma paper_settled : settled paper.
Proof. exact tidy_settled. Qed.
Lemma g20_produces : forall class p i a, produces (g_arts (g20 class)) p i a -> p = of_x class (raw "a") /\ i = 0 /\ a = of_a class.
Proof. intros class p i a (k & I & O). destruct I as [Q|[Q|[]]]; injection Q as <- <-; [discriminate|]. injection O as <- <-. auto. Qed.
Lemma paper_single : forall c, exists f, makers c = PClass x_only x_only default_map (Single (fun a => Ok (f [given a; VFloat (Half 0 : F halves)]))) (fun _ => Ok true).
Proof. intro c. unfold makers. destruct (str_eqb c $"list"); eauto. Qed.
Lemma g20_in_order : forall class, In class ["list"; "pair"]%string -> in_order paper (g_arts (g20 class)).
Proof.
  intros class C. constructor.
  - vm_compute. repeat constructor; cbn; intuition discriminate.
  - intros p i a q j b P Q _. apply g20_produces in P, Q. destruct P as (_ & _ & ->), Q as (_ & _ & ->). reflexivity.
  - intros p i a b P Q. apply g20_produces in P, Q. destruct P as (_ & _ & ->), Q as (_ & _ & ->). reflexivity.
  - intros p i a P. apply g20_produces in P. destruct P as (-> & -> & _). cbn [p_class of_x classes paper]. destruct (paper_single $class) as (f & ->). cbn. lia.
  - intros p i a args vs P H. apply g20_produces in P. destruct P as (-> & -> & _). unfold runs in H. cbn [p_class of_x classes paper] in *. destruct (paper_single $class) as (f & EQ). rewrite EQ in *. cbn in *. injection H as ->. reflexivity.
Qed.
Lemma g20_whole : forall class, whole paper (g_arts (g20 class)).
Proof.
  intro class. split; intros p i a P; apply g20_produces in P; destruct P as (-> & _ & _); cbn [p_class of_x classes paper]; [| |repeat constructor; cbn; tauto];
    destruct (paper_single $class) as (f & ->); reflexivity.
Qed.
Lemma g20_distinct : forall class, distinct_paths (g_arts (g20 class)).
Proof. intros class p i a q j b P Q _. apply g20_produces in P, Q. destruct P as (_ & _ & ->), Q as (_ & _ & ->). reflexivity. Qed.
Lemma g20_no_gaps : forall class, no_gaps (g_arts (g20 class)).
Proof. intros class p i a j P L. apply g20_produces in P. destruct P as (_ & -> & _). lia. Qed.
Lemma g20_templated : forall class, templated (g_arts (g20 class)).
Proof. intros class p i a P. apply g20_produces in P. destruct P as (_ & _ & ->). reflexivity. Qed.
Lemma g20_unpartitioned : forall class p i a, produces (g_arts (g20 class)) p i a -> st_partitioned (a_storage a) = false.
Proof. intros class p i a P. apply g20_produces in P. destruct P as (_ & _ & ->). reflexivity. Qed.
Lemma g20_unbuilt : forall class, unbuilt (g_arts (g20 class)) ex20.
Proof. intro class. split; [reflexivity|]. split; [reflexivity|]. intros p i a k f P. apply g20_produces in P. destruct P as (_ & _ & ->). reflexivity. Qed.
Lemma paper_json : stores_json paper.
Proof. intros a v. split; reflexivity. Qed.
Lemma ordered_once : forall l, ordered l -> NoDup l.
Proof.
  induction 1 as [|x l H O IH]; constructor; [|exact IH]. intro I. specialize (H _ I). 
  assert (Q := proj2 (before_eq (enc x) (enc x)) eq_refl). congruence.
Qed.
Lemma paper_iterates_once : iterates_once paper.
Proof. intros l _. apply ordered_once. cbn. induction l as [|x l IH]; [constructor|]. now apply insert_ordered. Qed.
Lemma ex20_a : value paper ex20 (raw "a") (VList [VInt 7] : obj).
Proof. now apply (file_value _ paper ex20 (raw "a") $"[7]"); [exact paper_iterates|..]. Qed.
Lemma ex20_arguments : forall class args, arguments paper ex20 (p_inputs (of_x class (raw "a"))) x_only args -> args = [($"x", VList [VInt 7] : obj)].
Proof.
  intros class args H. symmetry. eapply (proj2 (values_unique _ paper ex20 paper_settled)); [exact H|].
  eapply arguments_more; [reflexivity|exact ex20_a|constructor].
Qed.
Lemma list_returns : returns_json paper ex20 (g_arts (g20 "list")).
Proof.
  intros p i a args vs v P A R NV. apply g20_produces in P. destruct P as (-> & -> & ->). cbn [p_class of_x classes paper] in *.
  change (c_build_inputs (makers $"list")) with x_only in A. apply ex20_arguments in A. subst args. unfold runs in R. cbn in R. injection R as R. rewrite R in NV. cbn in NV. injection NV as <-.
  assert (L : forall (P : obj -> Prop) x, P x -> P (VFloat (Half 0 : F halves)) -> forall y, In y [x; VFloat (Half 0 : F halves)] -> P y).
  { intros Q x H1 H2 y [ <- |[ <- |[]]]; auto. }
  split; constructor; apply L; repeat constructor; intros y [ <- |[]]; constructor.
Qed.
Lemma is_list20_sound : forall r, is_list20 r = true -> r = Ok (VList pair20).
Proof.
  intros [[| | | | |l| | | | | |]|] H; try discriminate. destruct l as [|[| | | | |l'| | | | | |] l]; try discriminate.
  destruct l' as [|[| |z| | | | | | | | |] [|? ?]]; try discriminate. destruct l as [|[| | |x| | | | | | | |] [|? ?]]; try discriminate.
  cbn in H. apply andb_prop in H. destruct H as [H1 H2]. apply Z.eqb_eq in H1. destruct x as [y| | |]; try discriminate. apply Z.eqb_eq in H2. now subst.
Qed.
Lemma read20_list : read20 "list" = Ok (VList pair20).
Proof. apply is_list20_sound. vm_compute. reflexivity. Qed.
Lemma read20_pair : read20 "pair" = Ok (VList pair20).
Proof. apply is_list20_sound. vm_compute. reflexivity. Qed.
Lemma read20_done : forall class v, read20 class = Ok v -> exists s sn, graph_build paper (g20 class) ex20 = (s, Ok sn) /\ snd (read paper look (g20 class) (of_a class) None (Some tt) (Some sn) None s) = Ok v.
Proof. intros class v H. unfold read20, done20 in H. destruct (graph_build paper (g20 class) ex20) as [s [sn|e]]; [|discriminate]. exists s, sn. split; [reflexivity|exact H]. Qed.

(** The history of C42, with sets in a fixed order: with "1", a new process with "2", and a new one with "1" again. *)
Lemma g1_in_order_tidy : in_order tidy (g_arts g1).
Proof. destruct g1_in_order as [A B C D F]. constructor; assumption. Qed.
Lemma g1_asks_tidy : forall s sn k d, s_graph sn = g1 -> asks tidy s sn double k d -> k = [] /\ d = [($"x", iter_set tidy (snd (read_snapshot_partitions (db s) sn $"a")))].
Proof.
  intros s sn k d G (inputs & m & l1 & l2 & d0 & IP & M & EQ & _ & ->). unfold input_partitions in IP. cbn in IP.
  inversion IP as [|na nl l l' (N & key & LK & R) F]; subst. inversion F; subst. cbn in N, R. destruct nl as [n parts]. cbn in N, R. subst n parts.
  rewrite G in LK. apply (proj2 (key_of_last _ _ _)) in LK. vm_compute in LK. injection LK as <-.
  cbn in M. injection M as M. destruct l1 as [|y l1]; [|destruct l1; discriminate]. injection M as <- <- <-. split; reflexivity.
Qed.
Lemma ask_double_agree_tidy : agree tidy ask_double.
Proof.
  intros a p i k d args data a' p' i' d' args' data' (-> & v & HV & C & ->) (-> & v' & HV' & C' & ->) O O' _ F H H'.
  injection O as <- <-. injection O' as <- <-. assert (v = v').
  { unfold fingerprint_for in F. rewrite C, C' in F. destruct HV as [->| ->], HV' as [->| ->]; try reflexivity; vm_compute in F; discriminate. }
  subst v'. destruct H as (q & j & vs & w & O & R & N & D), H' as (q' & j' & vs' & w' & O' & R' & N' & D').
  injection O as <- <-. injection O' as <- <-. cbn in R, R'. injection R as ->. injection R' as ->. cbn in N, N', D, D'. congruence.
Qed.
Lemma tidy_writable : writable tidy.
Proof. intros p i a v _. exists v. reflexivity. Qed.
Lemma g1_covers_tidy : forall s s' sn v x new', s_graph sn = g1 -> snd (read_snapshot_partitions (db s') sn $"a") = [x] -> ps_content x = hash v ->
  content (files s') (ps_part x) = Some v -> log s' = new' ++ log s -> (forall args, In (Built double [] args) new' -> args = [($"x", v)]) ->
  (v = $"1" \/ v = $"2") -> covers tidy ask_double sn s s'.
Proof.
  intros s s' sn v x new' G L C D LG B HV new p i a k d args EQ P A R. rewrite LG in EQ. apply app_inv_tail in EQ. subst new'.
  rewrite G in P. apply g1_produces in P. destruct P as (-> & -> & ->). apply (g1_asks_tidy _ _ _ _ G) in A. destruct A as [-> ->]. rewrite L in *.
  split; [reflexivity|]. exists v. split; [exact HV|]. split; [cbn; now rewrite C|]. destruct R as [R|R]; [now apply B|].
  unfold reads in R. cbn in R. unfold x_only in R. inversion R as [|n0 nv l l' (N & a0 & d0 & ds & _ & D0 & _ & H & LD) F]; subst. inversion F; subst.
  cbn in D0. injection D0 as <-. inversion H as [|x0 d1 l0 l1 HD H']; subst. inversion H'; subst. destruct nv as [n0 w]. cbn in LD, LG |- *.
  injection LD as <-. rewrite app_nil_r. unfold holds_data in HD. unfold content in D.
  assert (d1 = v) by (destruct (st_kind (pt_storage (ps_part x))); unfold location_of in D; unfold ps_key, ps_fp in HD; congruence). subst d1. match goal with K : fst (n0, _) = _ |- _ => cbn in K; now rewrite K end.
Qed.
Lemma raw_follows_tidy : forall R s fs, (forall f, In f fs -> snd (fst f) = None) -> follows tidy R s (with_raw s fs).
Proof.
  intros R s fs H. apply follows_raw. intros i k f. generalize (files s). induction fs as [|[l d] fs IH]; intro l0; [reflexivity|]. cbn [fold_left].
  rewrite IH by (intros y Iy; apply H; now right). apply dget_dset_other; [exact location_eqb_spec|]. intro Q.
  assert (X := H (l, d) (or_introl eq_refl)). cbn [fst snd] in Q, X. rewrite Q in X. discriminate.
Qed.
Lemma run_history_tidy : forall s v x new', (v = $"1" \/ v = $"2") -> s_graph (snd (snap_tidy g1 s)) = g1 ->
  snd (read_snapshot_partitions (db (run_tidy g1 s)) (snd (snap_tidy g1 s)) $"a") = [x] -> ps_content x = hash v ->
  content (files (run_tidy g1 s)) (ps_part x) = Some v -> log (run_tidy g1 s) = new' ++ log (fst (snap_tidy g1 s)) -> (forall args, In (Built double [] args) new' -> args = [($"x", v)]) ->
  history tidy ask_double s -> history tidy ask_double (run_tidy g1 s).
Proof.
  intros s v x new' HV G L C D LG B H. eapply history_then with (s := fst (snap_tidy g1 s)).
  - eapply history_then; [exact H|]. unfold snap_tidy. destruct (from_graph tidy g1 s) as [s' [sn|e]] eqn:Q; eapply follows_snapshot; exact Q.
  - unfold run_tidy, built_tidy in *. destruct (build tidy (snd (snap_tidy g1 s)) (fst (snap_tidy g1 s))) as [s' r] eqn:BB. cbn [fst] in *.
    eapply build_follows; [exact BB| | | |eapply g1_covers_tidy; eauto]; rewrite G.
    + apply (io_keys _ _ g1_in_order_tidy).
    + exact g1_templated.
    + exact g1_no_gaps.
Qed.
Lemma told3_history_tidy : history tidy ask_double told3_tidy.
Proof.
  assert (ONE : forall name d f, In f [file name "" d] -> snd (fst f) = None) by (intros name d f [<-|[]]; reflexivity).
  unfold told3_tidy. eapply history_then; [|apply follows_restart]. eapply history_then; [|apply raw_follows_tidy, ONE]. unfold told2_tidy.
  eapply (run_history_tidy _ $"2" _ (firstn 3 (log told2_tidy))); [now right|vm_compute; reflexivity|vm_compute; reflexivity|vm_compute; reflexivity|vm_compute; reflexivity|vm_compute; reflexivity| |].
  { intros args I. vm_compute in I. destruct I as [I|[I|[I|[]]]]; [discriminate|discriminate|]. injection I as <-. reflexivity. }
  eapply history_then; [|apply follows_restart]. eapply history_then; [|apply raw_follows_tidy, ONE]. unfold told1_tidy.
  eapply (run_history_tidy _ $"1" _ (firstn 3 (log told1_tidy))); [now left|vm_compute; reflexivity|vm_compute; reflexivity|vm_compute; reflexivity|vm_compute; reflexivity|vm_compute; reflexivity| |].
  { intros args I. vm_compute in I. destruct I as [I|[I|[I|[]]]]; [discriminate|discriminate|]. injection I as <-. reflexivity. }
  apply history_start. intros i k f [Q|[]]. discriminate.
Qed.
Lemma g1_whole : whole tidy (g_arts g1).
Proof. split; intros p i a P; apply g1_produces in P; destruct P as (-> & _ & _); try reflexivity; repeat constructor; cbn; intuition discriminate. Qed.
Lemma g1_distinct : distinct_paths (g_arts g1).
Proof. intros p i a q j b P Q _. apply g1_produces in P, Q. destruct P as (_ & _ & ->), Q as (_ & _ & ->). reflexivity. Qed.
Lemma g1_all_or_none : forall s : state str, all_or_none s (g_arts g1).
Proof. intros s p i a j b k f P Q A. apply g1_produces in P, Q. destruct P as (_ & _ & ->), Q as (_ & _ & ->). exact A. Qed.
Lemma tidy_kept_exactly : forall s g, kept_exactly tidy s g.
Proof. intros s g p i a args vs v _ _ _ _. exists v. split; [reflexivity|]. cbn. now rewrite app_nil_r. Qed.
Lemma restart_new : forall (s : state str) sn key x, ~ linked (restart s) sn key x.
Proof. intros s sn key x L. apply linked_links in L. exact L. Qed.
Lemma told_covers : covers tidy ask_double (snd (snap_tidy g1 told3_tidy)) (fst (snap_tidy g1 told3_tidy)) (run_tidy g1 told3_tidy).
Proof.
  eapply (g1_covers_tidy _ _ _ $"1" _ []); [vm_compute; reflexivity|vm_compute; reflexivity|vm_compute; reflexivity|vm_compute; reflexivity|vm_compute; reflexivity|intros args []|now left].
Qed.

(** Builds that succeed. *)
Lemma g1_complete : complete tidy (g_arts g1).
Proof.
  constructor.
  - intros p i a n b P I. apply g1_produces in P. destruct P as (-> & _ & _). destruct I as [Q|[]]. injection Q as <- <-. now left.
  - intros p i a n P I. apply g1_produces in P. destruct P as (-> & _ & _). exact I.
  - intros p i a j P L. apply g1_produces in P. destruct P as (-> & _ & _). cbn in L. assert (j = 0) by lia. subst j. exists b1, $"b". split; [right; now left|reflexivity].
  - intros p i a P. apply g1_produces in P. destruct P as (_ & _ & ->). reflexivity.
  - intros p i a d P. apply g1_produces in P. destruct P as (_ & _ & ->). discriminate.
Qed.
Lemma g1_unbuilt : forall fs, (forall k f, dget location_eqb fs ($"b", k, Some f) = None) -> unbuilt (g_arts g1) (start fs).
Proof. intros fs N. split; [reflexivity|]. split; [reflexivity|]. intros p i a k f P. apply g1_produces in P. destruct P as (_ & _ & ->). apply N. Qed.
Lemma tidy_survives : forall s g, survives tidy s g.
Proof. intros s g p i a args vs v d _ _ _ _ D. cbn in D. injection D as ->. cbn. now rewrite app_nil_r. Qed.
