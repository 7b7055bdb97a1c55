From Coq Require Import ZArith List Ascii String Bool Lia.
From Verif Require Import Base Str Str_Proofs Base_Proofs Utils_Model Hints_Model Hints_Spec Hints_Proofs Types_Model PyTypes_Model PyTypes_Spec PyTypes_Proofs
  Cast_Proofs Views_Model Views_Spec.
Import ListNotations.
Open Scope list_scope.

Lemma pykey_eqb_spec : forall a b, pykey_eqb a b = true <-> a = b.
Proof.
  intros [a|] [b|]; cbn; try (split; congruence). rewrite pyclass_eqb_spec. split; congruence.
Qed.

Section Views.
  Context {V A : Type}.
  Notation extra := (extra V A).

  (** * The extra arguments *)
  Section Items.
    Context {X : Type} (pick : extra -> option X) (p : extra -> Prop).
    Context (pick_p : forall e, p e <-> exists x, pick e = Some x).
    Definition picked (l : list extra) : list (option X) := flat_map (fun e => match pick e with Some x => [Some x] | None => [] end) l.
    Lemma picked_app : forall l l', picked (l ++ l') = picked l ++ picked l'.
    Proof. intros. unfold picked. apply flat_map_app. Qed.
    Lemma picked_nil : forall l, picked l = [] <-> nothing p l.
    Proof.
      induction l as [|e l IH]; [split; [intros _ e []|reflexivity]|]. cbn [picked flat_map]. fold (picked l). destruct (pick e) as [x|] eqn:E.
      - split; [discriminate|]. intro N. destruct (N e (or_introl eq_refl)). apply pick_p. eauto.
      - cbn [app]. rewrite IH. split.
        + intros N e' [<-|I]; [|apply N, I]. intro P. apply pick_p in P. destruct P as (x & P). congruence.
        + intros N e' I. apply N. right. exact I.
    Qed.
    Lemma picked_split : forall l y ys, picked l = y :: ys -> exists l1 e l2 x, l = l1 ++ e :: l2 /\ nothing p l1 /\ pick e = Some x /\ y = Some x /\ picked l2 = ys.
    Proof.
      induction l as [|e l IH]; intros y ys H; [discriminate|]. cbn [picked flat_map] in H. fold (picked l) in H. destruct (pick e) as [x|] eqn:E.
      - cbn [app] in H. injection H as <- <-. exists [], e, l, x. split; [reflexivity|]. split; [intros e' []|auto].
      - cbn [app] in H. destruct (IH y ys H) as (l1 & e' & l2 & x & -> & N & Q & Y & R). exists (e :: l1), e', l2, x. split; [reflexivity|].
        split; [|auto]. intros e0 [<-|I]; [|apply N, I]. intro P. apply pick_p in P. destruct P as (z & P). congruence.
    Qed.
    Lemma item_cases : forall l,
      (nothing p l /\ item_of pick l = Ok None) \/
      (exists e x, only p l e /\ pick e = Some x /\ item_of pick l = Ok (Some x)) \/
      (several p l /\ item_of pick l = Err ValueError).
    Proof.
      intro l. unfold item_of. fold (picked l). destruct (picked l) as [|y [|z zs]] eqn:E.
      - left. split; [apply picked_nil, E|reflexivity].
      - right. left. destruct (picked_split _ _ _ E) as (l1 & e & l2 & x & -> & N & Q & -> & R). exists e, x. split; [|auto].
        exists l1, l2. split; [reflexivity|]. split; [apply pick_p; eauto|]. intros e' I. apply in_app_or in I. destruct I as [I|I]; [apply N, I|].
        apply (proj1 (picked_nil l2) R e' I).
      - right. right. destruct (picked_split _ _ _ E) as (l1 & e & l2 & x & -> & N & Q & -> & R).
        destruct (picked_split _ _ _ R) as (l3 & e' & l4 & x' & -> & N' & Q' & -> & R').
        split; [|reflexivity]. exists l1, e, l3, e', l4. split; [reflexivity|]. split; apply pick_p; eauto.
    Qed.
    Lemma only_picked : forall l e x, only p l e -> pick e = Some x -> item_of pick l = Ok (Some x).
    Proof.
      intros l e x (l1 & l2 & -> & P & N) Q. unfold item_of. fold (picked (l1 ++ e :: l2)). rewrite picked_app. cbn [picked flat_map]. fold (picked l2). rewrite Q.
      assert (N1 : picked l1 = []) by (apply picked_nil; intros e' I; apply N, in_or_app; auto).
      assert (N2 : picked l2 = []) by (apply picked_nil; intros e' I; apply N, in_or_app; auto).
      rewrite N1, N2. reflexivity.
    Qed.
    Lemma nothing_picked : forall l, nothing p l -> item_of pick l = Ok None.
    Proof. intros l N. unfold item_of. fold (picked l). rewrite (proj2 (picked_nil l) N). reflexivity. Qed.
    Lemma several_picked : forall l, several p l -> item_of pick l = Err ValueError.
    Proof.
      intros l (l1 & e & l2 & e' & l3 & -> & P & P'). apply pick_p in P, P'. destruct P as (x & P), P' as (x' & P').
      unfold item_of. fold (picked (l1 ++ e :: l2 ++ e' :: l3)). rewrite picked_app. cbn [picked flat_map]. fold (picked (l2 ++ e' :: l3)).
      rewrite picked_app. cbn [picked flat_map]. fold (picked l3). fold (picked l2). rewrite P, P'. cbn [app].
      destruct (picked l1) as [|a [|b c]]; cbn [app]; [|reflexivity..]. destruct (picked l2) as [|a b]; reflexivity.
    Qed.
  End Items.

  Context (vsub : V -> V -> bool) (asub : A -> A -> bool) (abstract : V -> bool) (python_type : V -> pykey) (priority : V -> Z)
    (view_artifact : V -> A) (artifact_type : A -> option ty) (to_system : V -> ty -> result (phint * pyclass))
    (infer : phint -> result ty) (type_eqb : ty -> ty -> bool) (same : phint -> phint -> bool).
  Notation define_views := (define_views abstract python_type priority).
  Notation preferred := (preferred abstract python_type priority).

  (** * The registry *)
  Lemma define_app : forall vs reg v, define_views reg (vs ++ [v]) = bind (define_views reg vs) (fun r => define_view abstract python_type priority r v).
  Proof.
    induction vs as [|w vs IH]; intros reg v; cbn [app Views_Model.define_views bind].
    - destruct (define_view _ _ _ reg v); reflexivity.
    - destruct (define_view _ _ _ reg w) as [r|]; cbn [bind]; [apply IH|reflexivity].
  Qed.
  Lemma preferred_more : forall vs w k v, preferred vs k v -> (abstract w = false -> python_type w = k -> (priority w < priority v)%Z) -> preferred (vs ++ [w]) k v.
  Proof.
    intros vs w k v (l1 & l2 & -> & F & K & N) H. exists l1, (l2 ++ [w]). rewrite <- app_assoc. split; [reflexivity|]. split; [exact F|]. split; [exact K|].
    intros x I. rewrite app_assoc in I. apply in_app_or in I. destruct I as [I|[<-|[]]]; auto.
  Qed.
  Lemma preferred_In : forall vs k v w, preferred vs k v -> In w vs -> abstract w = false -> python_type w = k -> (priority w <= priority v)%Z.
  Proof.
    intros vs k v w (l1 & l2 & -> & F & K & N) I F' K'. apply in_app_or in I. destruct I as [I|[<-|I]]; [|lia|].
    - assert (X := N w (in_or_app _ _ _ (or_introl I)) F' K'). lia.
    - assert (X := N w (in_or_app _ _ _ (or_intror I)) F' K'). lia.
  Qed.
  Lemma registry_holds : forall vs reg, define_views [] vs = Ok reg -> forall k,
    match dget pykey_eqb reg k with
    | Some v => preferred vs k v
    | None => forall w, In w vs -> abstract w = false -> python_type w <> k
    end.
  Proof.
    induction vs as [|w vs IH] using rev_ind; intros reg H k; [injection H as <-; intros w []|].
    rewrite define_app in H. destruct (define_views [] vs) as [r|] eqn:R; [|discriminate]. cbn [bind] in H. specialize (IH r eq_refl).
    unfold define_view in H. destruct (abstract w) eqn:F.
    { injection H as <-. specialize (IH k). destruct (dget pykey_eqb r k).
      - apply preferred_more; [exact IH|congruence].
      - intros x I. apply in_app_or in I. destruct I as [I|[<-|[]]]; [apply IH, I|congruence]. }
    unfold register in H.
    assert (New : preferred (vs ++ [w]) (python_type w) w -> dget pykey_eqb (dset pykey_eqb r (python_type w) w) k =
      dget pykey_eqb (dset pykey_eqb r (python_type w) w) k -> match dget pykey_eqb (dset pykey_eqb r (python_type w) w) k with
      | Some v => preferred (vs ++ [w]) k v | None => forall x, In x (vs ++ [w]) -> abstract x = false -> python_type x <> k end).
    { intros Pw _. destruct (pykey_eqb k (python_type w)) eqn:K.
      - apply pykey_eqb_spec in K. subst k. rewrite (dget_dset_same _ pykey_eqb_spec). exact Pw.
      - assert (K' : k <> python_type w) by (intro X; apply pykey_eqb_spec in X; congruence).
        rewrite (dget_dset_other _ pykey_eqb_spec) by congruence. specialize (IH k). destruct (dget pykey_eqb r k).
        + apply preferred_more; [exact IH|congruence].
        + intros x I. apply in_app_or in I. destruct I as [I|[<-|[]]]; [apply IH, I|congruence]. }
    assert (I0 := IH (python_type w)). destruct (dget pykey_eqb r (python_type w)) as [old|] eqn:G.
    - destruct (priority old >? priority w)%Z eqn:L.
      + injection H as <-. apply Z.gtb_lt in L. specialize (IH k). destruct (dget pykey_eqb r k) as [v|] eqn:Gk.
        * apply preferred_more; [exact IH|]. intros _ K. subst k. rewrite G in Gk. injection Gk as ->. exact L.
        * intros x I. apply in_app_or in I. destruct I as [I|[<-|[]]]; [apply IH, I|congruence].
      + destruct (priority old =? priority w)%Z eqn:Q; [discriminate|]. injection H as <-. apply New; [|reflexivity].
        rewrite Z.gtb_ltb in L. apply Z.ltb_ge in L. apply Z.eqb_neq in Q.
        exists vs, []. split; [reflexivity|]. split; [exact F|]. split; [reflexivity|]. rewrite app_nil_r. intros x I Fx Kx.
        assert (X := preferred_In _ _ _ _ I0 I Fx Kx). lia.
    - injection H as <-. apply New; [|reflexivity]. exists vs, []. split; [reflexivity|]. split; [exact F|]. split; [reflexivity|]. rewrite app_nil_r.
      intros x I Fx Kx. destruct (I0 x I Fx Kx).
  Qed.
  Lemma preferred_unique : forall vs k v w, preferred vs k v -> preferred vs k w -> v = w.
  Proof.
    intros vs k v w P Q. destruct P as (l1 & l2 & E & Fv & Kv & N). destruct Q as (l3 & l4 & E' & Fw & Kw & M). subst vs.
    assert (I : In w (l1 ++ v :: l2)) by (rewrite E'; apply in_or_app; right; left; reflexivity).
    assert (J : In v (l3 ++ w :: l4)) by (rewrite <- E'; apply in_or_app; right; left; reflexivity).
    apply in_app_or in I. destruct I as [I|[I|I]]; [|exact I|].
    - assert (X := N w (in_or_app _ _ _ (or_introl I)) Fw Kw). apply in_app_or in J. destruct J as [J|[J|J]]; [| congruence|].
      + assert (Y := M v (in_or_app _ _ _ (or_introl J)) Fv Kv). lia.
      + assert (Y := M v (in_or_app _ _ _ (or_intror J)) Fv Kv). lia.
    - assert (X := N w (in_or_app _ _ _ (or_intror I)) Fw Kw). apply in_app_or in J. destruct J as [J|[J|J]]; [| congruence|].
      + assert (Y := M v (in_or_app _ _ _ (or_introl J)) Fv Kv). lia.
      + assert (Y := M v (in_or_app _ _ _ (or_intror J)) Fv Kv). lia.
  Qed.
  Theorem registry_spec : forall vs reg, define_views [] vs = Ok reg -> forall k v, dget pykey_eqb reg k = Some v <-> preferred vs k v.
  Proof.
    intros vs reg H k v. assert (X := registry_holds vs reg H k). destruct (dget pykey_eqb reg k) as [w|].
    - split; [intro E; injection E as <-; exact X|]. intro P. rewrite (preferred_unique _ _ _ _ P X). reflexivity.
    - split; [discriminate|]. intros (l1 & l2 & -> & F & K & _). destruct (X v (in_elt v l1 l2) F K).
  Qed.

  Theorem define_error : forall vs e, define_views [] vs = Err e -> e = ValueError /\
    exists l1 v l2 w l3, vs = l1 ++ v :: l2 ++ w :: l3 /\ abstract v = false /\ abstract w = false /\ python_type v = python_type w /\ priority v = priority w.
  Proof.
    induction vs as [|w vs IH] using rev_ind; intros e H; [discriminate|]. rewrite define_app in H. destruct (define_views [] vs) as [r|e'] eqn:R; cbn [bind] in H.
    - unfold define_view, register in H. destruct (abstract w) eqn:F; [discriminate|]. assert (X := registry_holds vs r R (python_type w)).
      destruct (dget pykey_eqb r (python_type w)) as [v|]; [|discriminate]. destruct (priority v >? priority w)%Z; [discriminate|].
      destruct (priority v =? priority w)%Z eqn:Q; [|discriminate]. injection H as <-. split; [reflexivity|].
      destruct X as (l1 & l2 & -> & Fv & K & _). exists l1, v, l2, w, []. rewrite <- app_assoc. apply Z.eqb_eq in Q. auto.
    - injection H as <-. destruct (IH e' eq_refl) as (-> & l1 & v & l2 & w' & l3 & -> & X). split; [reflexivity|]. exists l1, v, l2, w', (l3 ++ [w]).
      rewrite <- !app_assoc. cbn [app]. rewrite <- app_assoc. auto.
  Qed.

  Notation get_class_for := (get_class_for (A := A) vsub).
  Lemma registered_by : forall reg h, registered reg h = match python_type_of h with Some k => dget pykey_eqb reg k | None => @None V end.
  Proof. intros reg h. unfold registered. destruct h as [| | | | |[]| | | | |]; reflexivity. Qed.
  Definition pick_view (cls : V) (e : extra) : option V := match e with XView v => if vsub v cls then Some v else None | _ => None end.
  Lemma pick_view_p : forall cls e, a_view vsub cls e <-> exists x, pick_view cls e = Some x.
  Proof.
    intros cls e. split.
    - intros (v & -> & S). exists v. cbn. rewrite S. reflexivity.
    - intros (v & P). destruct e as [w| | |]; cbn in P; try discriminate. destruct (vsub w cls) eqn:S; [|discriminate]. injection P as ->. exists v. auto.
  Qed.
  Theorem class_explicit : forall cls reg ann v, only (a_view vsub cls) (extras ann) (XView v) -> get_class_for cls reg ann = Ok v.
  Proof.
    intros cls reg ann v O. unfold Views_Model.get_class_for. fold (pick_view cls).
    assert (P : pick_view cls (XView v) = Some v).
    { destruct O as (l1 & l2 & _ & (w & E & S) & _). injection E as <-. cbn. rewrite S. reflexivity. }
    rewrite (only_picked _ _ (pick_view_p cls) _ _ _ O P). reflexivity.
  Qed.
  Theorem class_several : forall cls reg ann, several (a_view vsub cls) (extras ann) -> get_class_for cls reg ann = Err ValueError.
  Proof.
    intros cls reg ann S. unfold Views_Model.get_class_for. fold (pick_view cls). rewrite (several_picked _ _ (pick_view_p cls) _ S). reflexivity.
  Qed.
  Theorem class_registered : forall vs reg cls ann, define_views [] vs = Ok reg -> nothing (a_view vsub cls) (extras ann) ->
    (forall v, get_class_for cls reg ann = Ok v <-> exists k, python_type_of (root ann) = Some k /\ preferred vs k v) /\
    ((forall k v, python_type_of (root ann) = Some k -> In v vs -> abstract v = false -> python_type v <> k) <-> get_class_for cls reg ann = Err ValueError).
  Proof.
    intros vs reg cls ann H N. unfold Views_Model.get_class_for. fold (pick_view cls). rewrite (nothing_picked _ _ (pick_view_p cls) _ N). cbn [bind].
    rewrite registered_by. destruct (python_type_of (root ann)) as [k|].
    - assert (X := registry_holds vs reg H k). assert (Y := registry_spec vs reg H k). destruct (dget pykey_eqb reg k) as [w|].
      + split.
        * intro v. split; [intro E; injection E as <-; exists k; auto|]. intros (k' & E & P). injection E as <-. f_equal. apply Y in P. congruence.
        * split; [|discriminate]. intro Z. destruct X as (l1 & l2 & -> & F & K & _).
          destruct (Z k w eq_refl (in_elt w l1 l2) F K).
      + split.
        * intro v. split; [discriminate|]. intros (k' & E & P). injection E as <-. apply Y in P. discriminate.
        * split; [reflexivity|]. intros _ k' v E I F. injection E as <-. apply X; assumption.
    - split; [intro v; split; [discriminate|intros (k & E & _); discriminate]|]. split; [reflexivity|]. intros _ k v E. discriminate E.
  Qed.

  (** * What an annotation says *)
  Definition pick_artifact (e : extra) : option A := match e with XArtifact a => Some a | _ => None end.
  Definition pick_type (e : extra) : option ty := match e with XType t => Some t | _ => None end.
  Lemma pick_artifact_p : forall e, an_artifact e <-> exists x, pick_artifact e = Some x.
  Proof. intro e. split; [intros (a & ->); exists a; reflexivity|]. intros (a & P). destruct e; try discriminate. injection P as ->. exists a. reflexivity. Qed.
  Lemma pick_type_p : forall e, a_type e <-> exists x, pick_type e = Some x.
  Proof. intro e. split; [intros (a & ->); exists a; reflexivity|]. intros (a & P). destruct e; try discriminate. injection P as ->. exists a. reflexivity. Qed.
  Lemma only_nothing : forall (p : extra -> Prop) l e, only p l e -> ~ nothing p l.
  Proof. intros p l e (l1 & l2 & -> & P & _) N. apply (N e); [apply in_or_app; right; left; reflexivity|exact P]. Qed.
  Theorem kwargs_spec : forall c ann a t, kwargs_of view_artifact artifact_type infer c ann = Ok (a, t) <->
    says (view_artifact c) artifact_type infer ann a t.
  Proof.
    intros c ann a t. unfold kwargs_of. fold pick_artifact. fold pick_type.
    assert (Ua : forall e e', only an_artifact (extras ann) e -> only an_artifact (extras ann) e' -> pick_artifact e = pick_artifact e').
    { intros e e' O O'. assert (P : exists x, pick_artifact e = Some x) by (apply pick_artifact_p; destruct O as (? & ? & _ & P & _); exact P).
      assert (P' : exists x, pick_artifact e' = Some x) by (apply pick_artifact_p; destruct O' as (? & ? & _ & P' & _); exact P').
      destruct P as (x & P), P' as (x' & P'). assert (Q := only_picked _ _ pick_artifact_p _ _ _ O P). rewrite (only_picked _ _ pick_artifact_p _ _ _ O' P') in Q. congruence. }
    assert (Ut : forall e e', only a_type (extras ann) e -> only a_type (extras ann) e' -> pick_type e = pick_type e').
    { intros e e' O O'. assert (P : exists x, pick_type e = Some x) by (apply pick_type_p; destruct O as (? & ? & _ & P & _); exact P).
      assert (P' : exists x, pick_type e' = Some x) by (apply pick_type_p; destruct O' as (? & ? & _ & P' & _); exact P').
      destruct P as (x & P), P' as (x' & P'). assert (Q := only_picked _ _ pick_type_p _ _ _ O P). rewrite (only_picked _ _ pick_type_p _ _ _ O' P') in Q. congruence. }
    split.
    - intro H. destruct (item_cases pick_artifact an_artifact pick_artifact_p (extras ann)) as [[Na Ea]|[(e & x & Oa & Pe & Ea)|[_ Ea]]]; rewrite Ea in H; cbn [bind] in H; [| |discriminate];
      (destruct (item_cases pick_type a_type pick_type_p (extras ann)) as [[Nt Et]|[(f & y & Ot & Pf & Et)|[_ Et]]]; rewrite Et in H; cbn [bind] in H; [| |discriminate]).
      + destruct (artifact_type (view_artifact c)) as [u|] eqn:D.
        * injection H as <- <-. constructor; auto.
        * destruct (infer (root ann)) as [u|] eqn:I; [|discriminate]. injection H as <- <-. constructor; auto.
      + injection H as <- <-. destruct f; try discriminate. injection Pf as ->. constructor; auto.
      + destruct e; try discriminate. injection Pe as ->. destruct (artifact_type x) as [u|] eqn:D.
        * injection H as <- <-. constructor; auto.
        * destruct (infer (root ann)) as [u|] eqn:I; [|discriminate]. injection H as <- <-. constructor; auto.
      + destruct e; try discriminate. injection Pe as ->. destruct f; try discriminate. injection Pf as ->. injection H as <- <-. constructor; auto.
    - intros [a' t' Ha Ht].
      assert (Ea : exists found, item_of pick_artifact (extras ann) = Ok found /\ match found with Some a => a | None => view_artifact c end = a').
      { destruct Ha as [O|[N ->]]; [exists (Some a'); split; [exact (only_picked _ _ pick_artifact_p _ _ _ O eq_refl)|reflexivity]|].
        exists None. split; [exact (nothing_picked _ _ pick_artifact_p _ N)|reflexivity]. }
      destruct Ea as (found & -> & Ea). cbn [bind]. rewrite Ea.
      destruct Ht as [O|[[N D]|[N [D I]]]].
      + rewrite (only_picked _ _ pick_type_p _ _ _ O eq_refl). reflexivity.
      + rewrite (nothing_picked _ _ pick_type_p _ N). cbn [bind]. rewrite D. reflexivity.
      + rewrite (nothing_picked _ _ pick_type_p _ N). cbn [bind]. rewrite D, I. reflexivity.
  Qed.

  Notation from_annotation := (from_annotation vsub view_artifact artifact_type to_system infer type_eqb same).
  Notation sub := (sub issub is_none PyDict same).
  Theorem from_annotation_spec : forall cls reg ann m v, from_annotation cls reg ann m = Ok v ->
    get_class_for cls reg ann = Ok (v_class v) /\ v_mode v = m /\
    says (view_artifact (v_class v)) artifact_type infer ann (v_artifact v) (v_type v) /\
    (forall t, artifact_type (v_artifact v) = Some t -> type_eqb (v_type v) t = true) /\
    exists h c, to_system (v_class v) (v_type v) = Ok (h, c) /\
      (issubclass_hint same h (root ann) = Ok true \/ issubclass_hint same (HClass c) (root ann) = Ok true).
  Proof.
    intros cls reg ann m v H. unfold Views_Model.from_annotation in H.
    destruct (get_class_for cls reg ann) as [c|] eqn:G; [|discriminate]. cbn [bind] in H.
    destruct (kwargs_of _ _ _ c ann) as [[a t]|] eqn:K; [|discriminate]. cbn [bind fst snd] in H. apply kwargs_spec in K.
    destruct (new_view artifact_type type_eqb c m a t) as [w|] eqn:W; [|discriminate]. cbn [bind] in H.
    destruct (check_annotation to_system same w ann) as [[]|] eqn:Q; [|discriminate]. injection H as <-.
    assert (W' : w = View c m a t /\ forall u, artifact_type a = Some u -> type_eqb t u = true).
    { unfold new_view in W. destruct (artifact_type a) as [u|]; cbn [bind] in W.
      - unfold check_type in W. destruct (type_eqb t u) eqn:T; [|discriminate]. injection W as <-. split; [reflexivity|]. intros u' E. injection E as <-. exact T.
      - injection W as <-. split; [reflexivity|discriminate]. }
    destruct W' as [-> T]. cbn [v_class v_mode v_artifact v_type]. split; [reflexivity|]. split; [reflexivity|]. split; [exact K|]. split; [exact T|].
    unfold check_annotation in Q. cbn [v_class v_type] in Q. destruct (to_system c t) as [[h k]|]; [|discriminate]. cbn [bind fst snd] in Q.
    exists h, k. split; [reflexivity|]. destruct (issubclass_hint same h (root ann)) as [[]|]; [left; reflexivity| |discriminate]. cbn [bind] in Q.
    destruct (issubclass_hint same (HClass k) (root ann)) as [[]|]; [right; reflexivity|discriminate|discriminate].
  Qed.
  Theorem from_annotation_sub : forall cls reg ann m v, target true (root ann) -> from_annotation cls reg ann m = Ok v ->
    exists h c, to_system (v_class v) (v_type v) = Ok (h, c) /\ ((accepted h = true -> source h) -> sub h (root ann) \/ sub (HClass c) (root ann)).
  Proof.
    intros cls reg ann m v T H. apply from_annotation_spec in H. destruct H as (_ & _ & _ & _ & h & c & E & X). exists h, c. split; [exact E|].
    intro S. destruct X as [X|X]; [left|right].
    - apply (lenient_sound _ _ _ _ _ true _ T h S true X). reflexivity.
    - apply (lenient_sound _ _ _ _ _ true _ T (HClass c) (fun _ => src_class c) true X). reflexivity.
  Qed.

  (** * Artifacts *)
  Theorem artifact_spec : forall T (can_read can_write : T -> V -> result unit) v a t rest,
    check_artifact asub type_eqb can_read can_write v a t rest = Ok tt <->
    asub a (v_artifact v) = true /\ type_eqb (v_type v) t = true /\
    (v_mode v <> WRITE -> can_read rest (v_class v) = Ok tt) /\ (v_mode v <> READ -> can_write rest (v_class v) = Ok tt).
  Proof.
    intros T can_read can_write v a t rest. unfold check_artifact, check_type.
    destruct (asub a (v_artifact v)); cbn [negb]; [|split; [discriminate|intros [X _]; discriminate]].
    destruct (type_eqb (v_type v) t); cbn [bind]; [|split; [discriminate|intros [_ [X _]]; discriminate]].
    destruct (v_mode v); cbn [reads writes].
    - destruct (can_read rest (v_class v)) as [[]|e]; cbn [bind]; split; intro H.
      + repeat split; auto. intro X. destruct (X eq_refl).
      + reflexivity.
      + discriminate.
      + destruct H as (_ & _ & X & _). rewrite X in * by discriminate. reflexivity.
    - cbn [bind]. destruct (can_write rest (v_class v)) as [[]|e]; split; intro H.
      + repeat split; auto. intro X. destruct (X eq_refl).
      + reflexivity.
      + discriminate.
      + destruct H as (_ & _ & _ & X). apply X. discriminate.
    - destruct (can_read rest (v_class v)) as [[]|e]; cbn [bind].
      + destruct (can_write rest (v_class v)) as [[]|e]; split; intro H; auto; try discriminate.
        destruct H as (_ & _ & _ & X). apply X. discriminate.
      + split; intro H; [discriminate|]. destruct H as (_ & _ & X & _). apply X. discriminate.
  Qed.
End Views.

(** * The views of views/python.py *)
Lemma canonical_plain : forall h, canonical h -> Hints_Spec.plain h.
Proof. induction 1; repeat (first [assumption|apply plain_class|apply plain_alias|apply Forall_cons|apply Forall_nil]). Qed.
Theorem canonical_typed : forall h, canonical h -> forall f n, hint_levels h <= n ->
  exists t, of_hint_with f n h = Ok t /\ to_hint n t = Ok h /\ is_nullable t = false.
Proof.
  induction 1 as [c I|h C IH|h C IH|k h Ck IHk C IH]; intros f n L; cbn [hint_levels fold_right] in L; (destruct n as [|n]; [lia|]).
  - rewrite of_class. cbn [In] in I. repeat (destruct I as [<-|I]; [eexists; split; [reflexivity|rewrite to_hint_S; split; reflexivity]|]). destruct I.
  - destruct (IH f n ltac:(lia)) as (t & E & B & N). exists (List t plain). rewrite of_list, E, to_hint_S. cbn -[to_hint]. rewrite B. auto.
  - destruct (IH f n ltac:(lia)) as (t & E & B & N). exists (Set_ t plain). rewrite of_set, E, to_hint_S. cbn -[to_hint]. rewrite B. auto.
  - destruct (IHk f n ltac:(lia)) as (t & E & B & N). destruct (IH f n ltac:(lia)) as (u & E' & B' & N').
    exists (Map t u plain). rewrite of_dict, E, E', to_hint_S. cbn -[to_hint]. rewrite B. cbn -[to_hint]. rewrite B'. auto.
Qed.
Lemma issub_refl : forall c, issub c c = true.
Proof. intro c. destruct c; cbn; try reflexivity. rewrite pyclass_eqb_refl, str_eqb_refl. reflexivity. Qed.
Theorem builtin_complete : forall A (artifact_of : builtin_view -> A) (artifact_type : A -> option ty) type_eqb same priority reg n h k v m,
  define_views builtin_abstract builtin_type priority [] builtin_views = Ok reg ->
  canonical h -> hint_levels h <= n -> python_type_of h = Some k -> preferred builtin_abstract builtin_type priority builtin_views k v ->
  artifact_type (artifact_of v) = None ->
  exists t, to_hint n t = Ok h /\
    from_annotation builtin_sub artifact_of artifact_type (builtin_system n) (of_hint n) type_eqb same PythonBuiltin reg (Annotation h []) m =
      Ok (View v m (artifact_of v) t).
Proof.
  intros A artifact_of artifact_type type_eqb same priority reg n h k v m D C L K P AT.
  destruct (canonical_typed h C (to_hint n) n L) as (t & E & B & _). exists t. split; [exact B|].
  unfold from_annotation.
  assert (G : get_class_for builtin_sub PythonBuiltin reg (Annotation (A := A) h []) = Ok v).
  { apply (class_registered builtin_sub builtin_abstract builtin_type priority _ reg PythonBuiltin (Annotation h []) D); [intros e []|].
    exists k. auto. }
  rewrite G. cbn [bind]. unfold kwargs_of. cbn [extras item_of flat_map Utils_Model.one_or_none bind root]. unfold item_of. cbn. rewrite AT.
  rewrite of_hint_is, E. cbn -[new_view check_annotation]. unfold new_view. rewrite AT. cbn -[check_annotation]. unfold check_annotation, builtin_system. cbn -[issubclass_hint]. rewrite B. cbn -[issubclass_hint].
  unfold issubclass_hint. rewrite (lenient_refl _ _ _ _ _ issub_refl h (canonical_plain h C)). reflexivity.
Qed.
