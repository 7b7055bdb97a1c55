(** Processes that build the same outputs at the same time store right data only. *)
From Coq Require Import ZArith List Ascii String Bool Arith Lia.
From Verif Require Import Base Str Base_Proofs Str_Proofs Graph_Model Graph_Spec Graph_Proofs Backend_Model Backend_Proofs Executor_Model Executor_Spec
  Executor_Proofs Executor_Build_Proofs Executor_Store_Proofs Concurrent_Model Concurrent_Proofs Concurrent_Safe_Proofs Concurrent_Spec Concurrent_Independent_Proofs.
Import ListNotations.
Open Scope list_scope.

Section Job.
  Context {V : Type} (R : location -> str -> Prop) (Pr : location -> Prop) (E : env V) (g : graph_def).
  Context (N : NoDup (map fst (g_arts g))) (It : iterates E) (NG : no_gaps (g_arts g)) (Wr : writable E) (RE : rejects_empty E)
          (SF : forall p i a, produces (g_arts g) p i a -> st_kind (a_storage a) = SFile) (Cl : closed R E g).
  (** [Pr] holds of all files that are there. *)
  Definition Rec (st : storage) (x : psnapshot) : Prop := seen R E st x /\ (st_kind st = SFile -> Pr (location_of (ps_part x))).
  Definition kept (fs : list (location * str)) : Prop := forall l d, dget location_eqb fs l = Some d -> (R l d \/ d = []) /\ Pr l.
  Notation Pre := (Pre (V := V) g Rec kept).
  Definition writing (l : location) (d : str) : state V -> state V := fun s => with_log (with_file s l d) (Wrote l d).
  Definition CR (s s' v : state V) (nx : option (state V -> state V)) : Prop :=
    fine g Rec (db s') /\ (forall l d, log s' = Wrote l d :: log s -> R l d) /\
    (forall l d, dget location_eqb (files s') l = Some d ->
       dget location_eqb (files s) l = Some d \/ R l d \/ (d = [] /\ exists d', nx = Some (writing l d'))) /\
    (forall l, dget location_eqb (files s) l <> None -> dget location_eqb (files s') l <> None).
  Lemma CR_any : forall s s' v x, CR s s' v None -> CR s s' v x.
  Proof.
    intros s s' v x (H1 & H2 & H3 & H4). split; [exact H1|]. split; [exact H2|]. split; [|exact H4]. intros l d D.
    destruct (H3 l d D) as [H|[H|(_ & d' & H)]]; [now left|right; now left|discriminate].
  Qed.
  Lemma log_cons : forall A (x : A) l, l <> x :: l.
  Proof. intros A x l H. apply (f_equal (@List.length _)) in H. cbn in H. lia. Qed.
  Definition AskedR (p : producer) (k : pkey) (d : list (str * list psnapshot)) (f : Z) : Prop := f = fingerprint_for E p d /\ may_ask R E p k d.

  Lemma CR_same : forall s v, Pre s -> CR s s v None.
  Proof. intros s v Ps. split; [apply Ps|]. split; [intros l d H; now apply log_cons in H|]. split; [auto|auto]. Qed.
  Lemma rec_taken : forall fs p x, kept fs \/ st_kind (pt_storage p) <> SFile -> take_snapshot E fs p = Ok x -> Rec (pt_storage p) x.
  Proof.
    intros fs p x K H. unfold take_snapshot, content in H. destruct (st_kind (pt_storage p)) eqn:Kd.
    - destruct (dget location_eqb fs (location_of p)) as [d|] eqn:D; [|discriminate]. injection H as <-.
      destruct K as [K|K]; [|now contradiction K]. destruct (K _ _ D) as (KR & KP). split; [|auto]. split; [reflexivity|]. exists d.
      unfold holds. cbn [ps_part]. rewrite Kd. cbn. split; [|reflexivity]. destruct KR as [KR|KR]; [left; exact KR|right; auto].
    - destruct (pt_value p) as [d|] eqn:D; [|discriminate]. injection H as <-. split; [|congruence]. split; [reflexivity|]. exists d.
      unfold holds. cbn [ps_part]. rewrite Kd. cbn. auto.
  Qed.
  Lemma safe_content : forall x, safe (fun s => s) Pre CR (fun d => holds R x d \/ d = []) (content_p x).
  Proof.
    intro x. apply safe_act. intros s Ps. cbn [fst snd]. split; [now apply CR_same|]. split; [reflexivity|]. intros d H. unfold content in H. unfold holds.
    destruct (st_kind (pt_storage (ps_part x))) eqn:K.
    - destruct (dget location_eqb (files s) (location_of (ps_part x))) as [d'|] eqn:D; [|discriminate]. injection H as <-. destruct Ps as (_ & Ps). destruct (Ps _ _ D) as (H & _). exact H.
    - destruct (pt_value (ps_part x)) as [d'|]; [|discriminate]. injection H as <-. now left.
  Qed.
  Theorem safe_right : safe (fun s => s) Pre CR any (graph_build_p E g).
  Proof.
    apply (safe_graph_build E g N It) with (Asked := AskedR) (Args := fun p k d f args => arguments R E p d args).
    - exact CR_any.
    - reflexivity.
    - intros s Ps. now apply CR_same.
    - intros s b Ps F. split; [exact F|]. split; [intros l d H; now apply log_cons in H|]. split; auto.
    - intros s a Ps Na. split; [apply Ps|]. split; [|split; auto]. intros l d H. cbn in H. injection H as H. now contradiction (Na l d).
    - reflexivity.
    - reflexivity.
    - intros fs p x K _ H. eapply rec_taken; eauto.
    - intros p inputs deps fps k d _ F _ D Ikd. split; [reflexivity|].
      destruct (compute_dependencies_ok E p inputs deps fps D) as (m & CM & _ & _ & Rm & _). apply Rm in Ikd. destruct Ikd as (l1 & l2 & d0 & -> & Nk & ->).
      exists inputs, (l1 ++ (k, d0) :: l2), l1, l2, d0. split; [|auto]. clear - F. induction F as [|na nl la lb (H1 & H2) F IH]; constructor; [|exact IH]. split; [exact H1|].
      apply Forall_forall. intros x Ix. now apply H2.
    - intros sn p k d f SG As. unfold read_arguments_p.
      apply safe_collect; [exact CR_any|]. intros name _.
      apply safe_bind_done. intros a Ha. destruct (dget str_eqb (p_inputs p) name) as [a'|] eqn:Da; [|discriminate]. injection Ha as ->.
      apply safe_bind_done. intros dl Dl. destruct (dget str_eqb d name) as [dl'|] eqn:Dd; [|discriminate]. injection Dl as ->.
      apply (safe_bind _ _ _ CR_any _ _ (fun v => dl <> [] /\ (List.length dl = 1 \/ st_partitioned (a_storage a) = true) /\ exists ds, Forall2 (holds R) dl ds /\ load E a ds = Ok v)).
      2: { intros v (Nn & On & ds & H1 & H2). split; [reflexivity|]. exists a, dl, ds. split; [reflexivity || exact Da|]. split; [reflexivity || exact Dd|]. split; [exact Nn|]. split; [exact On|]. split; assumption. }
      unfold read_input_p. apply safe_bind_done. intros _ _. unfold io_read_p. destruct dl as [|x0 dl]; [exact I|].
      destruct ((1 <? List.length (x0 :: dl)) && negb (st_partitioned (a_storage a))) eqn:On; [exact I|].
      apply (safe_bind _ _ _ CR_any _ _ (Forall2 (fun x t => holds R x t \/ t = []) (x0 :: dl))).
      + apply safe_collect; [exact CR_any|]. intros x _. apply safe_content.
      + intros ds F. apply safe_done. intros v L. split; [discriminate|]. split.
        { destruct (st_partitioned (a_storage a)); [now right|left]. rewrite andb_true_r in On. apply Nat.ltb_ge in On. cbn in On |- *. lia. }
        exists ds. split; [|exact L]. apply RE in L.
        clear - F L. induction F as [|x t l1 l2 H F IH]; constructor; [destruct H as [H|H]; [exact H|subst t; exfalso; apply L; now left]|].
        apply IH. intro X. apply L. now right.
    - intros p k d f args vs i a v outs part (-> & As) Ar Ru Nv O Na Ck GP. assert (PRo := nth_position (Snapshot 0 g) p outs i a NG O Na). cbn [s_graph] in PRo.
      destruct (generate_partition_storage _ _ _ _ GP) as (GS & GK & GF & _). unfold io_write_p. rewrite GS. rewrite (SF _ _ _ PRo).
      destruct (Wr _ _ _ _ Ck) as (data & Dm). rewrite Dm.
      assert (RD : R (location_of part) data). { unfold location_of. rewrite GS, GK, GF. eapply Cl; eauto. }
      change (safe (fun s => s) Pre CR (Rec (a_storage a)) (Act (fun s => with_file s (location_of part) []) (fun _ =>
        Act (writing (location_of part) data) (fun _ => snapshot_p E part)))).
      intros s Ps. split.
      { split; [apply Ps|]. split; [intros l d' H; now apply log_cons in H|]. split.
        - intros l d' H. cbn [with_file files] in H. rewrite (dget_dset _ location_eqb_spec) in H. destruct (location_eqb (location_of part) l) eqn:Q; [|now left].
          apply location_eqb_spec in Q. subst l. injection H as <-. right. right. split; [reflexivity|]. exists data. reflexivity.
        - intros l H. cbn [with_file files]. rewrite (dget_dset _ location_eqb_spec). destruct (location_eqb (location_of part) l); [discriminate|exact H]. }
      split; [reflexivity|]. clear s Ps. intros s Ps. split.
      { split; [apply Ps|]. split; [intros l d' H; cbn in H; injection H as <- <-; exact RD|]. split.
        - intros l d' H. cbn [writing with_file with_log files] in H. rewrite (dget_dset _ location_eqb_spec) in H. destruct (location_eqb (location_of part) l) eqn:Q; [|now left].
          apply location_eqb_spec in Q. subst l. injection H as <-. right. now left.
        - intros l H. cbn [writing with_file with_log files]. rewrite (dget_dset _ location_eqb_spec). destruct (location_eqb (location_of part) l); [discriminate|exact H]. }
      split; [reflexivity|]. clear s Ps. apply safe_act. intros s Ps. cbn [fst snd]. split; [now apply CR_same|]. split; [reflexivity|]. intros x Hx.
      rewrite <- GS. eapply rec_taken; [left; apply Ps|exact Hx].
  Qed.
End Job.

Section System.
  Context {V : Type} (jobs : list (env V * graph_def)) (fs0 : list (location * str)) (R : location -> str -> Prop).
  Context (Od : orderly jobs) (R0 : forall l d, dget location_eqb fs0 l = Some d -> R l d) (Cl : forall E g, In (E, g) jobs -> closed R E g).
  Definition present (S : system V) (l : location) : Prop := dget location_eqb (shared S) l <> None.
  Definition right_now (S : system V) : Prop := forall l d, dget location_eqb (shared S) l = Some d -> R l d \/ (d = [] /\ exists P, In P (running S) /\ halfway l P).
  Definition sound (Pr : location -> Prop) (Eg : env V * graph_def) (P : process V) : Prop :=
    fine (snd Eg) (Rec R Pr (fst Eg)) (own_db P) /\
    safe (fun s => s) (Pre (V := V) (snd Eg) (Rec R Pr (fst Eg)) (kept R Pr)) (CR R Pr (fst Eg) (snd Eg)) any (rest P).
  Lemma sound_start : forall Pr, right_now (started fs0 jobs) /\ Forall2 (sound Pr) jobs (running (started fs0 jobs)).
  Proof.
    intro Pr. split; [intros l d D; left; now apply R0|]. unfold started. cbn [running].
    assert (G : forall E g, In (E, g) jobs -> sound Pr (E, g) (Process empty_backend [] (graph_build_p E g))).
    { intros E g I1. destruct (Od E g I1) as (N & It & NG & Wr & RE & SF). split; [cbn; split; [intros sn key x a []|intros st x []]|]. cbn [fst snd rest]. apply safe_right; auto. }
    revert G. generalize jobs. intro js. induction js as [|(E, g) js IH]; intro G; constructor; [apply G; now left|apply IH; intros; apply G; now right].
  Qed.
  Lemma sound_moves : forall (Pr : location -> Prop) S S', moves S S' -> (forall l, present S l -> Pr l) -> right_now S -> Forall2 (sound Pr) jobs (running S) ->
    right_now S' /\ Forall2 (sound Pr) jobs (running S') /\ forall l, present S l -> present S' l.
  Proof.
    intros Pr S0 S' M HP RN F. destruct M as [fs before b lg u k after s]. unfold present in *. cbn [shared running] in *.
    apply Forall2_app_inv_r in F. destruct F as (jb & jr & Fb & Fr & Jq). inversion Fr as [|(E, g) P ja after' H Fa X1 X2]; subst jr P after'. clear Fr.
    destruct H as (H1 & H2). cbn [own_db own_log rest fst snd] in *. cbn [safe] in H2.
    destruct (H2 s) as ((C1 & C2 & C3 & C4) & _ & Sf).
    { split; [exact H1|]. intros l d D. split; [|apply HP; cbn in D; congruence]. destruct (RN l d D) as [X|(X & _)]; [now left|now right]. }
    split; [|split].
    - intros l d D. destruct (C3 l d D) as [D0|[X|(-> & d' & X)]]; [|now left|].
      + destruct (RN l d D0) as [X|(-> & P & Ip & (d' & k' & Hp))]; [now left|]. apply in_app_iff in Ip. destruct Ip as [Ip|[Ip|Ip]].
        * right. split; [reflexivity|]. exists P. split; [apply in_app_iff; now left|exists d', k'; exact Hp].
        * subst P. cbn [rest] in Hp. injection Hp as -> _. left. cbn [shared files with_log with_file] in D. rewrite (dget_dset _ location_eqb_spec) in D.
          rewrite (proj2 (location_eqb_spec l l) eq_refl) in D. injection D as ->. now apply C2.
        * right. split; [reflexivity|]. exists P. split; [apply in_app_iff; right; now right|exists d', k'; exact Hp].
      + right. split; [reflexivity|]. exists (Process (db (u s)) (log (u s)) (k s)). split; [apply in_elt|]. unfold halfway. cbn [rest].
        destruct (k s) as [r|u' k']; [discriminate|]. injection X as ->. exists d', k'. reflexivity.
    - rewrite Jq. apply Forall2_app; [exact Fb|]. constructor; [|exact Fa]. split; [exact C1|exact Sf].
    - exact C4.
  Qed.
  Lemma sound_evolves : forall (Pr : location -> Prop) S S', evolves S S' -> (forall l, present S' l -> Pr l) -> right_now S -> Forall2 (sound (fun _ => True)) jobs (running S) -> Forall2 (sound Pr) jobs (running S) ->
    right_now S' /\ Forall2 (sound (fun _ => True)) jobs (running S') /\ Forall2 (sound Pr) jobs (running S') /\ forall l, present S l -> present S' l.
  Proof.
    intros Pr S0 S' X. induction X as [S0|S1 S2 S3 X IH M]; intros HP RN F1 F2; [auto|].
    assert (W : right_now S2 /\ Forall2 (sound (fun _ => True)) jobs (running S2)).
    { clear - X RN F1. induction X as [S0|S1 S2 S3 X IH M]; [auto|]. destruct (IH RN F1) as (A & B). destruct (sound_moves _ _ _ M (fun _ _ => I) A B) as (A' & B' & _). auto. }
    destruct W as (A & B). destruct (sound_moves _ _ _ M (fun _ _ => I) A B) as (A' & B' & Mo).
    destruct IH as (_ & _ & B2 & Mo2); auto.
    destruct (sound_moves _ _ _ M (fun l Hl => HP l (Mo l Hl)) A B2) as (_ & B3 & _). auto 6.
  Qed.
  Theorem right_always : forall S, evolves (started fs0 jobs) S -> right_now S.
  Proof.
    intros S0 X. destruct (sound_start (fun _ => True)) as (A & B). now destruct (sound_evolves (fun _ => True) _ _ X (fun _ _ => I) A B B) as (H & _).
  Qed.
  Theorem recorded_right : forall S i E g P sn key a x, evolves (started fs0 jobs) S -> nth_error jobs i = Some (E, g) -> nth_error (running S) i = Some P ->
    In x (links_of (own_db P) sn key) -> key_of g a = Ok key ->
    seen R E (a_storage a) x /\ (st_kind (a_storage a) = SFile -> present S (location_of (ps_part x))).
  Proof.
    intros S0 i E g P sn key a x X Nj Np Ix K. destruct (sound_start (present S0)) as (A & B). destruct (sound_start (fun _ => True)) as (_ & B').
    destruct (sound_evolves (present S0) _ _ X (fun _ H => H) A B' B) as (_ & _ & F & _).
    assert (H := Forall2_nth _ _ _ _ _ i _ _ F Nj Np). destruct H as ((H & _) & _). cbn [fst snd] in H. exact (H sn key x a Ix K).
  Qed.
End System.
