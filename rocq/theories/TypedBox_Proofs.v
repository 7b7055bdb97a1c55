From Coq Require Import ZArith List Bool Ascii String Permutation Lia.
From Verif Require Import Base Base_Proofs Str Str_Proofs TypedBox_Model TypedBox_Spec.
Import ListNotations.
Open Scope list_scope.

(** ** Induction principles for the nested types *)
Section NodeInd.
  Context {V : Type} (P : node V -> Prop).
  Context (HL : forall v, P (Leaf v)).
  Context (HS : forall d, Forall (fun kn => P (snd kn)) d -> P (Sub d)).
  Fixpoint node_ind' (n : node V) : P n :=
    match n with
    | Leaf v => HL v
    | Sub d => HS d ((fix go (d : list (str * node V)) : Forall (fun kn => P (snd kn)) d :=
                        match d with
                        | [] => Forall_nil _
                        | (k, n') :: rest => Forall_cons (k, n') (node_ind' n') (go rest)
                        end) d)
    end.
End NodeInd.

Section InputInd.
  Context {R : Type} (P : input R -> Prop).
  Context (HV : forall x, P (IVal x)).
  Context (HM : forall l, Forall (fun ki => P (snd ki)) l -> P (IMap l)).
  Fixpoint input_ind' (i : input R) : P i :=
    match i with
    | IVal x => HV x
    | IMap l => HM l ((fix go (l : list (str * input R)) : Forall (fun ki => P (snd ki)) l :=
                         match l with
                         | [] => Forall_nil _
                         | (k, i') :: rest => Forall_cons (k, i') (input_ind' i') (go rest)
                         end) l)
    end.
End InputInd.

Notation dgetS := (dget str_eqb).
Notation dsetS := (dset str_eqb).

Lemma gs_same : forall X (d : list (str * X)) k v, dgetS (dsetS d k v) k = Some v.
Proof. intros. apply dget_dset_same, str_eqb_spec. Qed.
Lemma gs_other : forall X (d : list (str * X)) k k' v, k <> k' -> dgetS (dsetS d k v) k' = dgetS d k'.
Proof. intros. now apply (dget_dset_other str_eqb str_eqb_spec). Qed.

Lemma dset_id : forall X (d : list (str * X)) k v, dgetS d k = Some v -> dsetS d k v = d.
Proof.
  intros X. induction d as [|[k0 v0] d IH]; intros k v; cbn [dget dset]; [discriminate|].
  destruct (str_eqb k0 k).
  - congruence.
  - intro H. now rewrite IH.
Qed.

Section Box.
  Context {V R : Type} (cast : list str -> str -> R -> result V).
  Notation data := (list (str * node V)).
  Notation setitem := (setitem cast).
  Notation fill := (fill cast).

  (** ** parts *)
  Lemma parts_split : forall key, parts key = head_of key ++ [tail_of key].
  Proof. intro key. apply app_removelast_last. apply split_nonempty. Qed.

  Lemma parts_nodot : forall key p, In p (parts key) -> ~ In "."%char p.
  Proof. intros key p. apply split_no_sep. Qed.

  Lemma head_nodot : forall key p, In p (head_of key) -> ~ In "."%char p.
  Proof. intros key p H. apply (parts_nodot key). rewrite parts_split. apply in_or_app. auto. Qed.

  Lemma tail_nodot : forall key, ~ In "."%char (tail_of key).
  Proof. intros key. apply (parts_nodot key). rewrite parts_split. apply in_or_app. right. now left. Qed.

  (** ** find *)
  Lemma find_cons : forall (d : data) p rest,
    find (Sub d) (p :: rest) = match dgetS d p with Some n => find n rest | None => None end.
  Proof. reflexivity. Qed.

  Lemma find_app : forall (n : node V) a b,
    find n (a ++ b) = match find n a with Some m => find m b | None => None end.
  Proof.
    intros n a. revert n. induction a as [|p a IH]; intros n b; [reflexivity|].
    cbn [app]. destruct n as [v|d]; [reflexivity|]. rewrite !find_cons.
    destruct (dgetS d p); [apply IH|reflexivity].
  Qed.

  (** ** extends *)
  Lemma extends_refl : forall d : data, extends d d.
  Proof. intros d path [v|sd] H; eauto. Qed.

  Lemma extends_trans : forall a b c : data, extends a b -> extends b c -> extends a c.
  Proof.
    intros a b c H1 H2 path n H. specialize (H1 _ _ H). destruct n as [v|sd].
    - exact (H2 _ _ H1).
    - destruct H1 as [sd' H1]. exact (H2 _ _ H1).
  Qed.

  Lemma extends_new : forall (d : data) k n, dgetS d k = None -> extends d (dsetS d k n).
  Proof.
    intros d k n G path m H. destruct path as [|p rest].
    - inversion H; subst. cbn. eauto.
    - rewrite find_cons in H. destruct (dgetS d p) as [n'|] eqn:E; [|discriminate].
      assert (k <> p) by (intros ->; congruence).
      assert (F : find (Sub (dsetS d k n)) (p :: rest) = Some m)
        by (rewrite find_cons, gs_other by assumption; now rewrite E).
      destruct m; eauto.
  Qed.

  Lemma extends_sub : forall (d sd sd' : data) k, dgetS d k = Some (Sub sd) -> extends sd sd' ->
    extends d (dsetS d k (Sub sd')).
  Proof.
    intros d sd sd' k G X path m H. destruct path as [|p rest].
    - inversion H; subst. cbn. eauto.
    - rewrite find_cons in H. rewrite find_cons.
      destruct (list_eq_dec ascii_dec k p) as [<-|N].
      + rewrite gs_same. rewrite G in H. apply X. exact H.
      + rewrite gs_other by assumption. destruct (dgetS d p); [|discriminate].
        destruct m; eauto.
  Qed.

  (** Relations on contents kept by every in-place update. *)
  Definition update_rel (Rel : data -> data -> Prop) : Prop :=
    (forall d, Rel d d) /\ (forall a b c, Rel a b -> Rel b c -> Rel a c) /\
    (forall d k, dgetS d k = None -> ~ In "."%char k -> private k = false ->
       Rel d (dsetS d k (Sub []))) /\
    (forall d k v, dgetS d k = None -> ~ In "."%char k -> private k = false ->
       Rel d (dsetS d k (Leaf v))) /\
    (forall d k sd, dgetS d k = None -> ~ In "."%char k -> private k = false ->
       Rel [] sd -> Rel d (dsetS d k (Sub sd))) /\
    (forall d sd sd' k, dgetS d k = Some (Sub sd) -> Rel sd sd' -> Rel d (dsetS d k (Sub sd'))).

  Lemma getitem1_rel : forall Rel, update_rel Rel -> forall st (d : data) p,
    ~ In "."%char p -> Rel d (fst (getitem1 st d p)).
  Proof.
    intros Rel (Hr & Ht & Hn & _) st d p Hp. unfold getitem1.
    destruct (private p) eqn:P; [apply Hr|]. destruct (dgetS d p) eqn:G; [apply Hr|].
    destruct st; [apply Hn; assumption|apply Hr].
  Qed.

  Lemma getitem1_found : forall st (d d1 : data) p n, getitem1 st d p = (d1, Ok n) ->
    dgetS d1 p = Some n /\ private p = false.
  Proof.
    intros st d d1 p n. unfold getitem1. destruct (private p); [discriminate|].
    destruct (dgetS d p) eqn:G.
    - intro H. inversion H; subst. auto.
    - destruct st; [|discriminate]. intro H. inversion H; subst. now rewrite gs_same.
  Qed.

  Lemma descend_rel : forall Rel, update_rel Rel -> forall A st tail
    (k : list str -> data -> data * result A),
    (private tail = false -> forall ns d, Rel d (fst (k ns d))) ->
    forall (heads : list str) ns (d : data), (forall p : str, In p heads -> ~ In "."%char p) ->
    Rel d (fst (descend st ns d heads tail k)).
  Proof.
    intros Rel U A st tail k Hk. induction heads as [|p heads IH]; intros ns d Hp; cbn [descend].
    - destruct (private tail) eqn:P; [apply U|]. now apply Hk.
    - assert (G1 := getitem1_rel Rel U st d p (Hp p (or_introl eq_refl))).
      destruct (getitem1 st d p) as [d1 [[v|sd]|e]] eqn:E; cbn [fst] in *; try exact G1.
      apply getitem1_found in E.
      assert (IH' := IH (ns ++ [p]) sd (fun q H => Hp q (or_intror H))).
      destruct (descend st (ns ++ [p]) sd heads tail k) as [sd' r]. cbn [fst] in *.
      destruct U as (Hr & Ht & Hn & Hl & Hs & Hu). eapply Ht; [exact G1|]. eapply Hu; [apply E|exact IH'].
  Qed.

  (** The inner loop of [setitem] is [fill]. *)
  Lemma setitem_eq : forall st (i : input R) ns d key,
    setitem st i ns d key =
    descend st ns d (head_of key) (tail_of key) (fun ns' d' =>
      match st with
      | Closed => (d', Err ValueError)
      | Open =>
          match dgetS d' (tail_of key) with
          | Some existing =>
              match i, existing with
              | IMap items, Sub sd =>
                  let '(sd', r) := fill st (ns' ++ [tail_of key]) items sd in
                  (dsetS d' (tail_of key) (Sub sd'), r)
              | _, _ => (d', Err ValueError)
              end
          | None =>
              match i with
              | IVal x => match cast ns' (tail_of key) x with
                          | Ok v => (dsetS d' (tail_of key) (Leaf v), Ok tt)
                          | Err e => (d', Err e)
                          end
              | IMap items =>
                  match fill st (ns' ++ [tail_of key]) items [] with
                  | (sd', Ok _) => (dsetS d' (tail_of key) (Sub sd'), Ok tt)
                  | (_, Err e) => (d', Err e)
                  end
              end
          end
      end).
  Proof. intros st [x|items] ns d key; reflexivity. Qed.

  Lemma fill_rel : forall Rel, update_rel Rel -> forall st items,
    Forall (fun ki => forall ns (d : data) key, Rel d (fst (setitem st (snd ki) ns d key))) items ->
    forall ns d, Rel d (fst (fill st ns items d)).
  Proof.
    intros Rel U st. induction items as [|[k i] items IH]; intros F ns d; cbn [TypedBox_Model.fill].
    - apply U.
    - inversion F as [|? ? Hk F']; subst. cbn [snd] in Hk. specialize (Hk ns d k).
      destruct (setitem st i ns d k) as [d' [u|e]]; cbn [fst] in *; [|exact Hk].
      destruct U as (Hr & Ht & U'). eapply Ht; [exact Hk|]. apply IH; assumption.
  Qed.

  Lemma setitem_rel : forall Rel, update_rel Rel -> forall st i ns (d : data) key,
    Rel d (fst (setitem st i ns d key)).
  Proof.
    intros Rel U st i. induction i as [x|items IH] using input_ind'; intros ns d key;
      rewrite setitem_eq; (apply descend_rel; [exact U| |apply head_nodot]); intros P ns' d';
      assert (U0 := U); destruct U0 as (Hr & Ht & Hn & Hl & Hs & Hu);
      (destruct st; [|apply Hr]); destruct (dgetS d' (tail_of key)) as [[v|sd]|] eqn:G;
      try apply Hr.
    - destruct (cast ns' (tail_of key) x); [|apply Hr]. apply Hl; auto. apply tail_nodot.
    - assert (F := fill_rel Rel U Open items IH (ns' ++ [tail_of key]) sd).
      destruct (fill Open (ns' ++ [tail_of key]) items sd) as [sd' r]. cbn [fst] in *.
      eapply Hu; eassumption.
    - assert (F := fill_rel Rel U Open items IH (ns' ++ [tail_of key]) []).
      destruct (fill Open (ns' ++ [tail_of key]) items []) as [sd' [u|e]]; cbn [fst] in *; [|apply Hr].
      apply Hs; auto. apply tail_nodot.
  Qed.

  Lemma getitem_rel : forall Rel, update_rel Rel -> forall st (d : data) key,
    Rel d (fst (getitem st d key)).
  Proof.
    intros Rel U st d key. unfold getitem. apply descend_rel; [exact U| |apply head_nodot].
    intros P ns d'. apply getitem1_rel; [exact U|apply tail_nodot].
  Qed.

  Lemma contains_same : forall st heads tail (d : data), fst (contains_in st d heads tail) = d.
  Proof.
    intros st heads tail. induction heads as [|p heads IH]; intro d; cbn [contains_in].
    - destruct (private tail); reflexivity.
    - destruct (private p) eqn:P; [reflexivity|]. unfold dmem, getitem1. rewrite P.
      destruct (dgetS d p) as [[v|sd]|] eqn:G; cbn [negb]; try reflexivity.
      assert (E := IH sd). destruct (contains_in st sd heads tail) as [sd' r]. cbn [fst] in *.
      subst. now apply dset_id.
  Qed.

  Lemma run_op_rel : forall Rel, update_rel Rel -> forall st o ns (d : data),
    Rel d (fst (run_op cast st o ns d)).
  Proof.
    intros Rel U st o ns d. destruct o as [key i|key i|key|key|key|]; cbn [run_op].
    - assert (H := setitem_rel Rel U st i ns d key). destruct (setitem st i ns d key). exact H.
    - destruct (private key); [apply U|].
      assert (H := setitem_rel Rel U st i ns d key). destruct (setitem st i ns d key). exact H.
    - assert (H := getitem_rel Rel U st d key). destruct (getitem st d key). exact H.
    - destruct (private key); [apply U|].
      assert (H := getitem_rel Rel U st d key). destruct (getitem st d key). exact H.
    - unfold contains. assert (H := contains_same st (head_of key) (tail_of key) d).
      destruct (contains_in st d (head_of key) (tail_of key)). cbn [fst] in *. subst. apply U.
    - apply U.
  Qed.

  Lemma at_handle_rel : forall Rel, update_rel Rel -> forall A (f : list str -> data -> data * result A),
    (forall ns d, Rel d (fst (f ns d))) ->
    forall h ns d d' r, at_handle ns d h f = Some (d', r) -> Rel d d'.
  Proof.
    intros Rel U A f Hf. induction h as [|p h IH]; intros ns d d' r; cbn [at_handle].
    - intro H. inversion H as [E]. specialize (Hf ns d). rewrite E in Hf. exact Hf.
    - destruct (dgetS d p) as [[v|sd]|] eqn:G; try discriminate.
      destruct (at_handle (ns ++ [p]) sd h f) as [[sd' r']|] eqn:E; [|discriminate].
      intro H. inversion H; subst. apply IH in E.
      destruct U as (Hr & Ht & Hn & Hl & Hs & Hu). eapply Hu; eassumption.
  Qed.

  Lemma step_rel : forall Rel, update_rel Rel -> forall s e,
    Rel (st_data s) (st_data (fst (step cast s e))).
  Proof.
    intros Rel U s e. destruct e as [h o|st]; cbn [step]; [|apply U].
    destruct (at_handle [] (st_data s) h (run_op cast (st_status s) o)) as [[d r]|] eqn:E; [|apply U].
    cbn [fst st_data]. eapply at_handle_rel; [exact U| |exact E].
    intros ns d'. apply run_op_rel. exact U.
  Qed.

  Lemma run_rel : forall Rel, update_rel Rel -> forall es s,
    Rel (st_data s) (st_data (run cast s es)).
  Proof.
    intros Rel U. induction es as [|e es IH]; intro s; cbn [run]; [apply U|].
    assert (U0 := U). destruct U0 as (Hr & Ht & U'). eapply Ht; [apply (step_rel Rel U)|apply IH].
  Qed.

  (** ** C09: extension *)
  Lemma extends_update : update_rel (@extends V).
  Proof.
    repeat split; intros.
    - apply extends_refl.
    - eapply extends_trans; eassumption.
    - now apply extends_new.
    - now apply extends_new.
    - now apply extends_new.
    - eapply extends_sub; eassumption.
  Qed.

  Lemma history_extends : forall es s, extends (st_data s) (st_data (run cast s es)).
  Proof. intros es s. apply run_rel. apply extends_update. Qed.

  Lemma history_keeps_values : forall es s path v,
    find (Sub (st_data s)) path = Some (Leaf v) ->
    find (Sub (st_data (run cast s es))) path = Some (Leaf v).
  Proof. intros es s path v H. exact (history_extends es s path _ H). Qed.

  Lemma history_keeps_boxes : forall es s path sd,
    find (Sub (st_data s)) path = Some (Sub sd) ->
    exists sd', find (Sub (st_data (run cast s es))) path = Some (Sub sd').
  Proof. intros es s path sd H. exact (history_extends es s path _ H). Qed.

  (** ** Well-formedness: keys are plain and unique *)

  Lemma wf_get : forall (d : data) k n, wf (Sub d) -> dgetS d k = Some n -> plain_key k /\ wf n.
  Proof.
    intros d k n W G. inversion W as [|? _ H]; subst. apply H.
    now apply (dget_In str_eqb str_eqb_spec).
  Qed.

  Lemma wf_set : forall (d : data) k n, wf (Sub d) -> plain_key k -> wf n -> wf (Sub (dsetS d k n)).
  Proof.
    intros d k n W K N. inversion W as [|? ND H]; subst.
    assert (ND' : NoDup (map fst (dsetS d k n))) by now apply (dset_NoDup str_eqb str_eqb_spec).
    constructor; [exact ND'|].
    intros k' n' Hin. apply (dget_NoDup str_eqb str_eqb_spec) in Hin; [|exact ND'].
    destruct (list_eq_dec ascii_dec k k') as [<-|Ne].
    - rewrite gs_same in Hin. inversion Hin; subst. auto.
    - rewrite gs_other in Hin by exact Ne. eapply wf_get; eassumption.
  Qed.

  Lemma wf_nil : wf (@Sub V []).
  Proof. constructor; [constructor|]. intros k n []. Qed.

  Lemma wf_update : update_rel (fun d d' : data => wf (Sub d) -> wf (Sub d')).
  Proof.
    repeat split; try tauto.
    - intros d k G D P W. apply wf_set; [exact W|split; assumption|apply wf_nil].
    - intros d k v G D P W. apply wf_set; [exact W|split; assumption|constructor].
    - intros d k sd G D P Hs W. apply wf_set; [exact W|split; assumption|apply Hs, wf_nil].
    - intros d sd sd' k G Hs W. destruct (wf_get _ _ _ W G) as [K N]. apply wf_set; auto.
  Qed.

  Lemma fill_wf : forall st ns items (d : data), wf (Sub d) -> wf (Sub (fst (fill st ns items d))).
  Proof.
    intros st ns items d. apply (fill_rel _ wf_update). apply Forall_forall.
    intros [k i] _ ns' d' key. apply (setitem_rel _ wf_update).
  Qed.

  Lemma box_new_wf : forall items d, box_new cast items = Ok d -> wf (Sub d).
  Proof.
    intros items d. unfold box_new.
    assert (W := fill_wf Open [] (dict_of str_eqb items) [] wf_nil).
    destruct (fill Open [] (dict_of str_eqb items) []) as [d' [u|e]]; [|discriminate].
    intro H. inversion H; subst. exact W.
  Qed.

  Lemma reachable_wf : forall s, reachable cast s -> wf (Sub (st_data s)).
  Proof.
    intros s (items & d & es & H & ->). apply (run_rel _ wf_update).
    cbn. eapply box_new_wf. exact H.
  Qed.

  Lemma wf_find : forall path (n m : node V), wf n -> find n path = Some m ->
    wf m /\ forall p : str, In p path -> plain_key p.
  Proof.
    induction path as [|p path IH]; intros n m W H.
    - inversion H; subst. split; [exact W|intros p []].
    - destruct n as [v|d]; [discriminate|]. rewrite find_cons in H.
      destruct (dgetS d p) as [n'|] eqn:G; [|discriminate].
      destruct (wf_get _ _ _ W G) as [K W']. destruct (IH _ _ W' H) as [W'' F].
      split; [exact W''|]. intros q [<-|Hq]; auto.
  Qed.

  (** ** Descending an existing path *)
  Lemma getitem1_present : forall st (d : data) p n, private p = false -> dgetS d p = Some n ->
    getitem1 st d p = (d, Ok n).
  Proof. intros st d p n P G. unfold getitem1. now rewrite P, G. Qed.

  (** Along existing boxes [descend] runs [k] in the box found and writes back. *)
  Lemma descend_found : forall A st tail (k : list str -> data -> data * result A) heads ns (d sd : data),
    find (Sub d) heads = Some (Sub sd) -> (forall p : str, In p heads -> private p = false) ->
    private tail = false -> fst (k (ns ++ heads) sd) = sd ->
    descend st ns d heads tail k = (d, snd (k (ns ++ heads) sd)).
  Proof.
    intros A st tail k. induction heads as [|p heads IH]; intros ns d sd H Hp Ht Hk; cbn [descend].
    - inversion H; subst. rewrite Ht. rewrite app_nil_r in *.
      destruct (k ns sd) as [x r]. cbn in *. now subst.
    - rewrite find_cons in H. destruct (dgetS d p) as [n|] eqn:G; [|discriminate].
      rewrite (getitem1_present st d p n) by (auto; apply Hp; now left).
      destruct n as [v|sd0]; [destruct heads; discriminate|].
      rewrite (IH (ns ++ [p]) sd0 sd H (fun q Hq => Hp q (or_intror Hq)) Ht)
        by (rewrite <- app_assoc; exact Hk).
      rewrite <- app_assoc. cbn [app]. f_equal. now apply dset_id.
  Qed.

  Lemma find_split_last : forall (d : data) key n, find (Sub d) (parts key) = Some n ->
    exists sd, find (Sub d) (head_of key) = Some (Sub sd) /\ dgetS sd (tail_of key) = Some n.
  Proof.
    intros d key n H. rewrite parts_split, find_app in H.
    destruct (find (Sub d) (head_of key)) as [[v|sd]|]; try discriminate.
    exists sd. split; [reflexivity|]. rewrite find_cons in H.
    destruct (dgetS sd (tail_of key)); [exact H|discriminate].
  Qed.


  Lemma public_parts : forall key, public key ->
    (forall p : str, In p (head_of key) -> private p = false) /\ private (tail_of key) = false.
  Proof.
    intros key H. unfold public in H. rewrite parts_split in H. split.
    - intros p Hp. apply H. apply in_or_app. auto.
    - apply H. apply in_or_app. right. now left.
  Qed.

  Lemma getitem_found : forall st (d : data) key n, public key ->
    find (Sub d) (parts key) = Some n -> getitem st d key = (d, Ok n).
  Proof.
    intros st d key n P H. destruct (find_split_last _ _ _ H) as (sd & H1 & H2).
    destruct (public_parts key P) as [P1 P2]. unfold getitem.
    erewrite descend_found; try eassumption.
    - rewrite (getitem1_present st sd (tail_of key) n); auto.
    - rewrite (getitem1_present st sd (tail_of key) n); auto.
  Qed.

  Lemma contains_in_true : forall st heads tail (d : data),
    (forall p : str, In p heads -> private p = false) -> private tail = false ->
    (snd (contains_in st d heads tail) = Ok true <->
     exists n, find (Sub d) (heads ++ [tail]) = Some n).
  Proof.
    intros st heads tail. induction heads as [|p heads IH]; intros d P1 P2; cbn [contains_in app].
    - rewrite P2. cbn [snd]. unfold dmem. rewrite find_cons.
      destruct (dgetS d tail) as [n|]; cbn; split; intro H; eauto; try discriminate.
      destruct H; discriminate.
    - rewrite (P1 p) by now left. rewrite find_cons. unfold dmem.
      destruct (dgetS d p) as [m|] eqn:G; cbn [negb].
      + rewrite (getitem1_present st d p m) by (auto; apply P1; now left).
        destruct m as [v|sd].
        * split; [discriminate|]. intros [n H]. destruct heads; discriminate.
        * specialize (IH sd (fun q Hq => P1 q (or_intror Hq)) P2).
          destruct (contains_in st sd heads tail) as [sd' r]. exact IH.
      + split; [discriminate|]. intros [n H]. discriminate.
  Qed.

  Lemma contains_iff : forall st (d : data) key, public key ->
    (contains st d key = (d, Ok true) <-> exists n, find (Sub d) (parts key) = Some n).
  Proof.
    intros st d key P. destruct (public_parts key P) as [P1 P2].
    rewrite parts_split. rewrite <- (contains_in_true st (head_of key) (tail_of key) d P1 P2).
    unfold contains. assert (E := contains_same st (head_of key) (tail_of key) d).
    destruct (contains_in st d (head_of key) (tail_of key)) as [d' r]. cbn in *. subst.
    split; congruence.
  Qed.

  Lemma contains_pure : forall st (d : data) key, fst (contains st d key) = d.
  Proof. intros. apply contains_same. Qed.

  (** A key with a private part is rejected or absent, never found. *)
  Lemma contains_true_public : forall st (d : data) key, snd (contains st d key) = Ok true -> public key.
  Proof.
    intros st d key. unfold contains, public. rewrite parts_split.
    revert d. induction (head_of key) as [|p heads IH]; intros d H q Hq; cbn [contains_in app] in *.
    - destruct Hq as [<-|[]]. destruct (private (tail_of key)); [discriminate|reflexivity].
    - destruct (private p) eqn:P; [discriminate|]. destruct Hq as [<-|Hq]; [exact P|].
      unfold dmem in H. destruct (dgetS d p) as [m|] eqn:G; cbn [negb] in H; [|discriminate].
      rewrite (getitem1_present st d p m P G) in H. destruct m as [v|sd]; [discriminate|].
      specialize (IH sd). destruct (contains_in st sd heads (tail_of key)). cbn in *. now apply IH.
  Qed.

  (** ** C09: assigning to a value raises *)
  Lemma assign_to_value : forall st i ns (d : data) key v, wf (Sub d) ->
    find (Sub d) (parts key) = Some (Leaf v) -> setitem st i ns d key = (d, Err ValueError).
  Proof.
    intros st i ns d key v W H. destruct (wf_find _ _ _ W H) as [_ PK].
    assert (P : public key) by (intros p Hp; apply PK, Hp).
    destruct (public_parts key P) as [P1 P2].
    destruct (find_split_last _ _ _ H) as (sd & H1 & H2).
    rewrite setitem_eq. erewrite descend_found; try eassumption.
    - destruct st; [|reflexivity]. rewrite H2. destruct i; reflexivity.
    - destruct st; [|reflexivity]. rewrite H2. destruct i; reflexivity.
  Qed.

  Lemma at_handle_found : forall A (f : list str -> data -> data * result A) h ns (d sd : data),
    find (Sub d) h = Some (Sub sd) -> fst (f (ns ++ h) sd) = sd ->
    at_handle ns d h f = Some (d, snd (f (ns ++ h) sd)).
  Proof.
    intros A f. induction h as [|p h IH]; intros ns d sd H E; cbn [at_handle].
    - inversion H; subst. rewrite app_nil_r in *. destruct (f ns sd) as [x r]. cbn in *. now subst.
    - rewrite find_cons in H. destruct (dgetS d p) as [n|] eqn:G; [|discriminate].
      destruct n as [v|sd0]; [destruct h; discriminate|].
      rewrite (IH (ns ++ [p]) sd0 sd H) by (rewrite <- app_assoc; exact E).
      rewrite <- app_assoc. cbn [app]. rewrite (dset_id _ d p (Sub sd0) G). reflexivity.
  Qed.

  Lemma step_assign_to_value : forall s h key i v, reachable cast s ->
    find (Sub (st_data s)) (h ++ parts key) = Some (Leaf v) ->
    step cast s (EOp h (OSet key i)) = (s, Some (Err ValueError)).
  Proof.
    intros [st d] h key i v Rs H. apply reachable_wf in Rs. cbn [st_data] in *.
    rewrite find_app in H. destruct (find (Sub d) h) as [[w|sd]|] eqn:F; try discriminate.
    - rewrite parts_split in H. destruct (head_of key); discriminate.
    - destruct (wf_find _ _ _ Rs F) as [W _].
      assert (A := fun ns => assign_to_value st i ns sd key v W H).
      cbn [step st_data st_status].
      rewrite (at_handle_found _ (run_op cast st (OSet key i)) h [] d sd F).
      + cbn [run_op]. rewrite A. reflexivity.
      + cbn [run_op]. rewrite A. reflexivity.
  Qed.

  (** ** C10: closed boxes *)
  Lemma getitem1_closed : forall (d : data) p, fst (getitem1 Closed d p) = d.
  Proof. intros d p. unfold getitem1. destruct (private p); [|destruct (dgetS d p)]; reflexivity. Qed.

  Lemma descend_closed : forall A tail (k : list str -> data -> data * result A),
    (forall ns d, fst (k ns d) = d) ->
    forall (heads : list str) ns (d : data), fst (descend Closed ns d heads tail k) = d.
  Proof.
    intros A tail k Hk. induction heads as [|p heads IH]; intros ns d; cbn [descend].
    - destruct (private tail); [reflexivity|apply Hk].
    - unfold getitem1. destruct (private p); [reflexivity|].
      destruct (dgetS d p) as [[v|sd]|] eqn:G; try reflexivity.
      specialize (IH (ns ++ [p]) sd). destruct (descend Closed (ns ++ [p]) sd heads tail k) as [sd' r].
      cbn in *. subst. now apply dset_id.
  Qed.

  Lemma setitem_closed : forall i ns (d : data) key, fst (setitem Closed i ns d key) = d.
  Proof. intros. rewrite setitem_eq. now apply descend_closed. Qed.

  Lemma descend_closed_err : forall A tail (k : list str -> data -> data * result A),
    (forall ns d, exists e, snd (k ns d) = Err e) ->
    forall (heads : list str) ns (d : data), exists e, snd (descend Closed ns d heads tail k) = Err e.
  Proof.
    intros A tail k Hk. induction heads as [|p heads IH]; intros ns d; cbn [descend].
    - destruct (private tail); [cbn; eauto|apply Hk].
    - unfold getitem1. destruct (private p); [cbn; eauto|].
      destruct (dgetS d p) as [[v|sd]|] eqn:G; try (cbn; eauto).
      specialize (IH (ns ++ [p]) sd). destruct (descend Closed (ns ++ [p]) sd heads tail k) as [sd' r].
      exact IH.
  Qed.

  Lemma setitem_closed_err : forall i ns (d : data) key, exists e, snd (setitem Closed i ns d key) = Err e.
  Proof. intros. rewrite setitem_eq. apply descend_closed_err. cbn. eauto. Qed.

  Lemma getitem_closed : forall (d : data) key, fst (getitem Closed d key) = d.
  Proof. intros. unfold getitem. apply descend_closed. intros. apply getitem1_closed. Qed.

  Lemma getitem_closed_found : forall (d : data) key n,
    snd (getitem Closed d key) = Ok n -> find (Sub d) (parts key) = Some n.
  Proof.
    intros d key n. unfold getitem. rewrite parts_split.
    assert (G : forall (heads : list str) ns (d : data), snd (descend Closed ns d heads (tail_of key)
                 (fun _ d' => getitem1 Closed d' (tail_of key))) = Ok n ->
               find (Sub d) (heads ++ [tail_of key]) = Some n).
    { clear d. induction heads as [|p heads IH]; intros ns d H; cbn [descend app] in *.
      - destruct (private (tail_of key)) eqn:P; [discriminate|].
        unfold getitem1 in H. rewrite P in H. rewrite find_cons.
        destruct (dgetS d (tail_of key)); cbn in H; [inversion H; reflexivity|discriminate].
      - unfold getitem1 in H at 1. rewrite find_cons. destruct (private p); [discriminate|].
        destruct (dgetS d p) as [[v|sd]|]; try discriminate.
        specialize (IH (ns ++ [p]) sd).
        destruct (descend Closed (ns ++ [p]) sd heads (tail_of key) _) as [sd' r]. apply IH. exact H. }
    apply G.
  Qed.

  Lemma run_op_closed : forall o ns (d : data), fst (run_op cast Closed o ns d) = d.
  Proof.
    intros o ns d. destruct o as [key i|key i|key|key|key|]; cbn [run_op].
    - assert (H := setitem_closed i ns d key). destruct (setitem Closed i ns d key). exact H.
    - destruct (private key); [reflexivity|].
      assert (H := setitem_closed i ns d key). destruct (setitem Closed i ns d key). exact H.
    - assert (H := getitem_closed d key). destruct (getitem Closed d key). exact H.
    - destruct (private key); [reflexivity|].
      assert (H := getitem_closed d key). destruct (getitem Closed d key). exact H.
    - assert (H := contains_pure Closed d key). destruct (contains Closed d key). exact H.
    - reflexivity.
  Qed.

  Lemma at_handle_same : forall A (f : list str -> data -> data * result A),
    (forall ns d, fst (f ns d) = d) ->
    forall h ns d d' r, at_handle ns d h f = Some (d', r) -> d' = d.
  Proof.
    intros A f Hf. induction h as [|p h IH]; intros ns d d' r; cbn [at_handle].
    - intro H. inversion H as [E]. specialize (Hf ns d). rewrite E in Hf. exact Hf.
    - destruct (dgetS d p) as [[v|sd]|] eqn:G; try discriminate.
      destruct (at_handle (ns ++ [p]) sd h f) as [[sd' r']|] eqn:E; [|discriminate].
      intro H. inversion H; subst. apply IH in E. subst. now apply dset_id.
  Qed.

  Lemma step_closed : forall s h o, st_status s = Closed -> fst (step cast s (EOp h o)) = s.
  Proof.
    intros [st d] h o H. cbn in H. subst st. cbn [step st_data st_status].
    destruct (at_handle [] d h (run_op cast Closed o)) as [[d' r]|] eqn:E; [|reflexivity].
    apply at_handle_same in E; [|intros; apply run_op_closed]. now subst.
  Qed.


  Lemma run_closed : forall es s, st_status s = Closed -> Forall is_op es -> run cast s es = s.
  Proof.
    induction es as [|e es IH]; intros s H F; cbn [run]; [reflexivity|].
    inversion F as [|? ? He F']; subst. destruct e as [h o|st]; [|destruct He].
    rewrite step_closed by exact H. now apply IH.
  Qed.

  (** Assignments through any handle raise while closed. *)
  Lemma at_handle_result : forall A (f : list str -> data -> data * result A) (Q : result A -> Prop),
    (forall ns d, Q (snd (f ns d))) ->
    forall h ns d d' r, at_handle ns d h f = Some (d', r) -> Q r.
  Proof.
    intros A f Q Hf. induction h as [|p h IH]; intros ns d d' r; cbn [at_handle].
    - intro H. inversion H as [E]. specialize (Hf ns d). rewrite E in Hf. exact Hf.
    - destruct (dgetS d p) as [[v|sd]|] eqn:G; try discriminate.
      destruct (at_handle (ns ++ [p]) sd h f) as [[sd' r']|] eqn:E; [|discriminate].
      intro H. inversion H; subst. eapply IH; eassumption.
  Qed.

  Lemma step_set_closed : forall s h key i r, st_status s = Closed ->
    snd (step cast s (EOp h (OSet key i))) = Some r \/
    snd (step cast s (EOp h (OSetAttr key i))) = Some r -> exists e, r = Err e.
  Proof.
    intros [st d] h key i r Hst. cbn in Hst. subst st. cbn [step st_data st_status].
    assert (Q : forall ns d, exists e, snd (run_op cast Closed (OSet key i) ns d) = Err e).
    { intros ns d0. cbn [run_op]. destruct (setitem_closed_err i ns d0 key) as [e He].
      destruct (setitem Closed i ns d0 key) as [x y]. cbn in *. subst. cbn. eauto. }
    assert (Q' : forall ns d, exists e, snd (run_op cast Closed (OSetAttr key i) ns d) = Err e).
    { intros ns d0. cbn [run_op]. destruct (private key); [cbn; eauto|]. apply Q. }
    intros [H|H].
    - destruct (at_handle [] d h (run_op cast Closed (OSet key i))) as [[d' r']|] eqn:E; [|discriminate].
      cbn in H. inversion H; subst.
      exact (at_handle_result _ _ (fun r => exists e, r = Err e) Q _ _ _ _ _ E).
    - destruct (at_handle [] d h (run_op cast Closed (OSetAttr key i))) as [[d' r']|] eqn:E; [|discriminate].
      cbn in H. inversion H; subst.
      exact (at_handle_result _ _ (fun r => exists e, r = Err e) Q' _ _ _ _ _ E).
  Qed.

  (** A look-up on a closed box: what is stored, or an error. *)
  Lemma getitem_closed_iff : forall (d : data) key n, wf (Sub d) ->
    snd (getitem Closed d key) = Ok n <-> find (Sub d) (parts key) = Some n.
  Proof.
    intros d key n W. split; [apply getitem_closed_found|].
    intro H. destruct (wf_find _ _ _ W H) as [_ PK].
    rewrite (getitem_found Closed d key n); [reflexivity| |exact H]. intros p Hp. apply PK, Hp.
  Qed.

  (** ** C10: looking up a missing key of an open box *)


  Lemma descend_open : forall A tail (k : list str -> data -> data * result A) (Q : data -> A -> Prop),
    private tail = false ->
    (forall ns d, (forall v, dgetS d tail <> Some (Leaf v)) ->
       exists d' a, k ns d = (d', Ok a) /\ Q d' a) ->
    forall (heads : list str) ns (d : data), (forall p : str, In p heads -> private p = false) ->
    clear_way d (heads ++ [tail]) ->
    exists d' sd a, descend Open ns d heads tail k = (d', Ok a) /\
      find (Sub d') heads = Some (Sub sd) /\ Q sd a.
  Proof.
    intros A tail k Q Ht Hk. induction heads as [|p heads IH]; intros ns d Hp C; cbn [descend].
    - rewrite Ht. destruct (Hk ns d) as (d' & a & E & HQ).
      { intros v G. apply (C [tail] [] v); [reflexivity|]. rewrite find_cons, G. reflexivity. }
      exists d', d', a. rewrite E. auto.
    - unfold getitem1. rewrite (Hp p) by now left.
      destruct (dgetS d p) as [[v|sd]|] eqn:G.
      + exfalso. apply (C [p] (heads ++ [tail]) v); [reflexivity|]. rewrite find_cons, G. reflexivity.
      + destruct (IH (ns ++ [p]) sd (fun q Hq => Hp q (or_intror Hq))) as (d' & sd' & a & E & F & HQ).
        { intros x y v Exy. intro Hx. apply (C (p :: x) y v); [cbn; now rewrite Exy|].
          rewrite find_cons, G. exact Hx. }
        rewrite E. exists (dsetS d p (Sub d')), sd', a. rewrite find_cons, gs_same. auto.
      + destruct (IH (ns ++ [p]) [] (fun q Hq => Hp q (or_intror Hq))) as (d' & sd' & a & E & F & HQ).
        { intros [|x0 x] y v Exy Hx; discriminate. }
        rewrite E. exists (dsetS (dsetS d p (Sub [])) p (Sub d')), sd', a. rewrite find_cons, gs_same. auto.
  Qed.

  Lemma getitem_open_missing : forall (d : data) key, public key -> clear_way d (parts key) ->
    find (Sub d) (parts key) = None ->
    exists d', getitem Open d key = (d', Ok (Sub [])) /\ find (Sub d') (parts key) = Some (Sub []).
  Proof.
    intros d key P C N. destruct (public_parts key P) as [P1 P2]. unfold getitem.
    rewrite parts_split in *.
    assert (G : forall (heads : list str) ns (d : data), (forall p : str, In p heads -> private p = false) ->
      clear_way d (heads ++ [tail_of key]) -> find (Sub d) (heads ++ [tail_of key]) = None ->
      exists d', descend Open ns d heads (tail_of key) (fun _ d' => getitem1 Open d' (tail_of key))
                 = (d', Ok (Sub [])) /\ find (Sub d') (heads ++ [tail_of key]) = Some (Sub [])).
    { clear d P1 C N. induction heads as [|p heads IH]; intros ns d Hp C N; cbn [descend app] in *.
      - rewrite P2. unfold getitem1. rewrite P2. rewrite find_cons in N.
        destruct (dgetS d (tail_of key)) eqn:G; [discriminate|].
        eexists. split; [reflexivity|]. rewrite find_cons, gs_same. reflexivity.
      - unfold getitem1 at 1. rewrite (Hp p) by now left. rewrite find_cons in N.
        destruct (dgetS d p) as [[v|sd]|] eqn:G.
        + exfalso. apply (C [p] (heads ++ [tail_of key]) v); [reflexivity|]. rewrite find_cons, G. reflexivity.
        + destruct (IH (ns ++ [p]) sd (fun q Hq => Hp q (or_intror Hq))) as (d' & E & F); [|exact N|].
          { intros x y v Exy. intro Hx. apply (C (p :: x) y v); [cbn; now rewrite Exy|].
            rewrite find_cons, G. exact Hx. }
          rewrite E. eexists. split; [reflexivity|]. rewrite find_cons, gs_same. exact F.
        + destruct (IH (ns ++ [p]) [] (fun q Hq => Hp q (or_intror Hq))) as (d' & E & F).
          { intros [|x0 x] y v Exy Hx; discriminate. }
          { destruct heads; reflexivity. }
          rewrite E. eexists. split; [reflexivity|]. rewrite find_cons, gs_same. exact F. }
    apply G; assumption.
  Qed.

  (** ** C11: a successful assignment is found *)
  Lemma descend_ok : forall A tail (k : list str -> data -> data * result A) st heads ns (d d' : data) a,
    descend st ns d heads tail k = (d', Ok a) ->
    private tail = false /\ (forall p : str, In p heads -> private p = false) /\
    exists sd sd', k (ns ++ heads) sd = (sd', Ok a) /\ find (Sub d') heads = Some (Sub sd').
  Proof.
    intros A tail k st. induction heads as [|p heads IH]; intros ns d d' a; cbn [descend].
    - destruct (private tail); [discriminate|]. intro H. split; [reflexivity|].
      split; [intros p []|]. exists d, d'. rewrite app_nil_r. auto.
    - destruct (getitem1 st d p) as [d1 [[v|sd]|e]] eqn:G; [destruct heads; discriminate| |discriminate].
      destruct (descend st (ns ++ [p]) sd heads tail k) as [sd' r] eqn:E.
      intro H. inversion H; subst. apply IH in E. destruct E as (E1 & E2 & sd0 & sd1 & E3 & E4).
      apply getitem1_found in G. split; [exact E1|]. split.
      + intros q [<-|Hq]; [apply G|auto].
      + exists sd0, sd1. rewrite <- app_assoc in E3. split; [exact E3|].
        rewrite find_cons, gs_same. exact E4.
  Qed.

  Lemma find_extends_sub : forall (d d' : data), extends d d' -> forall path n,
    find (Sub d) path = Some n -> exists n', find (Sub d') path = Some n' /\
      match n, n' with
      | Leaf v, Leaf w => v = w
      | Sub x, Sub y => extends x y
      | _, _ => False
      end.
  Proof.
    intros d d' X path n H. assert (X0 := X path n H). destruct n as [v|x].
    - exists (Leaf v). auto.
    - destruct X0 as [y Hy]. exists (Sub y). split; [exact Hy|].
      intros p m Hm. specialize (X (path ++ p) m). rewrite !find_app, H, Hy in X. exact (X Hm).
  Qed.

  Definition node_extends (n n' : node V) : Prop :=
    match n, n' with
    | Leaf v, Leaf w => v = w
    | Sub x, Sub y => extends x y
    | _, _ => False
    end.

  Lemma find_node_extends : forall n n', node_extends n n' -> forall path m,
    find n path = Some m -> exists m', find n' path = Some m' /\ node_extends m m'.
  Proof.
    intros [v|d] [w|d'] X path m H; cbn in X; try contradiction.
    - subst. destruct path; [|discriminate]. inversion H; subst. exists (Leaf w). cbn. auto.
    - destruct (find_extends_sub d d' X path m H) as (m' & A & B). exists m'. auto.
  Qed.

  Lemma holds_map : forall items path (n : node V),
    holds cast (IMap items) path n <->
    (exists sd, n = Sub sd) /\
    Forall (fun ki => exists n', find n (parts (fst ki)) = Some n' /\
                      holds cast (snd ki) (path ++ parts (fst ki)) n') items.
  Proof.
    intros items path n. cbn [holds].
    assert (E : (fix all (items : list (str * input R)) : Prop :=
         match items with
         | [] => True
         | (k, i') :: rest =>
             (exists n', find n (parts k) = Some n' /\ holds cast i' (path ++ parts k) n') /\ all rest
         end) items <->
         Forall (fun ki => exists n', find n (parts (fst ki)) = Some n' /\
                      holds cast (snd ki) (path ++ parts (fst ki)) n') items).
    { induction items as [|[k i] items IH]; [split; auto|]. rewrite IH. split.
      - intros [A B]. constructor; auto.
      - intro H. inversion H; subst. auto. }
    rewrite E. reflexivity.
  Qed.

  Lemma holds_extends : forall i path n n', node_extends n n' -> holds cast i path n -> holds cast i path n'.
  Proof.
    intro i. induction i as [x|items IH] using input_ind'; intros path n n' X H.
    - destruct H as (v & Hv & ->). destruct n' as [w|]; cbn in X; [|contradiction]. subst. cbn. eauto.
    - apply holds_map in H. apply holds_map. destruct H as [[sd ->] F]. split.
      + destruct n' as [w|sd']; cbn in X; [contradiction|eauto].
      + rewrite Forall_forall in *. intros ki Hin. destruct (F ki Hin) as (m & A & B).
        destruct (find_node_extends _ _ X _ _ A) as (m' & A' & B'). exists m'. split; [exact A'|].
        eapply (IH ki Hin); eassumption.
  Qed.

  Lemma fill_holds : forall st items,
    Forall (fun ki => forall ns (d d' : data) key, setitem st (snd ki) ns d key = (d', Ok tt) ->
       exists n, find (Sub d') (parts key) = Some n /\ holds cast (snd ki) (ns ++ parts key) n) items ->
    forall ns (d d' : data), fill st ns items d = (d', Ok tt) ->
    extends d d' /\
    Forall (fun ki => exists n, find (Sub d') (parts (fst ki)) = Some n /\
                      holds cast (snd ki) (ns ++ parts (fst ki)) n) items.
  Proof.
    intros st. induction items as [|[k i] items IH]; intros F ns d d' H; cbn [TypedBox_Model.fill] in H.
    - inversion H; subst. split; [apply extends_refl|constructor].
    - inversion F as [|? ? Hk F']; subst. cbn [snd] in Hk.
      assert (X1 := setitem_rel _ extends_update st i ns d k).
      destruct (setitem st i ns d k) as [d1 [[]|e]] eqn:E; [|discriminate]. cbn [fst] in X1.
      destruct (IH F' ns d1 d' H) as [X2 G]. split; [eapply extends_trans; eassumption|].
      constructor; [|exact G]. cbn [fst snd]. destruct (Hk ns d d1 k E) as (n & A & B).
      destruct (find_node_extends (Sub d1) (Sub d') X2 _ _ A) as (n' & A' & B').
      exists n'. split; [exact A'|]. eapply holds_extends; eassumption.
  Qed.

  Lemma removelast_parts : forall (ns : list str) key,
    removelast (ns ++ parts key) = ns ++ head_of key /\ last (ns ++ parts key) [] = tail_of key.
  Proof.
    intros ns key. rewrite parts_split, app_assoc, removelast_last, last_last. auto.
  Qed.

  Lemma setitem_holds : forall st i ns (d d' : data) key, setitem st i ns d key = (d', Ok tt) ->
    exists n, find (Sub d') (parts key) = Some n /\ holds cast i (ns ++ parts key) n.
  Proof.
    intros st i. induction i as [x|items IH] using input_ind'; intros ns d d' key H;
      rewrite setitem_eq in H; apply descend_ok in H; destruct H as (P1 & P2 & sd & sd' & E & F);
      (destruct st; [|discriminate]).
    - destruct (dgetS sd (tail_of key)) as [[?|?]|]; try discriminate.
      destruct (cast (ns ++ head_of key) (tail_of key) x) as [v|] eqn:C; [|discriminate].
      inversion E; subst. exists (Leaf v). split.
      + rewrite parts_split, find_app, F, find_cons, gs_same. reflexivity.
      + cbn. destruct (removelast_parts ns key) as [-> ->]. eauto.
    - destruct (dgetS sd (tail_of key)) as [[?|sd0]|] eqn:G; try discriminate.
      + destruct (fill Open ((ns ++ head_of key) ++ [tail_of key]) items sd0) as [sd1 r] eqn:Fi.
        inversion E; subst. apply (fill_holds Open items IH) in Fi. destruct Fi as [X Fa].
        exists (Sub sd1). split.
        * rewrite parts_split, find_app, F, find_cons, gs_same. reflexivity.
        * apply holds_map. split; [eauto|]. rewrite (parts_split key), app_assoc. exact Fa.
      + destruct (fill Open ((ns ++ head_of key) ++ [tail_of key]) items []) as [sd1 [[]|e]] eqn:Fi; [|discriminate].
        inversion E; subst. apply (fill_holds Open items IH) in Fi. destruct Fi as [X Fa].
        exists (Sub sd1). split.
        * rewrite parts_split, find_app, F, find_cons, gs_same. reflexivity.
        * apply holds_map. split; [eauto|]. rewrite (parts_split key), app_assoc. exact Fa.
  Qed.

  Lemma setitem_ok_public : forall st i ns (d d' : data) key,
    setitem st i ns d key = (d', Ok tt) -> public key.
  Proof.
    intros st i ns d d' key H. rewrite setitem_eq in H. apply descend_ok in H.
    destruct H as (P1 & P2 & _). intros p Hp. rewrite parts_split in Hp.
    apply in_app_or in Hp. destruct Hp as [Hp|[<-|[]]]; auto.
  Qed.

  Lemma set_then_found : forall st i (d d' : data) key, setitem st i [] d key = (d', Ok tt) ->
    contains st d' key = (d', Ok true) /\
    exists n, getitem st d' key = (d', Ok n) /\ holds cast i (parts key) n.
  Proof.
    intros st i d d' key H. assert (P := setitem_ok_public _ _ _ _ _ _ H).
    destruct (setitem_holds _ _ _ _ _ _ H) as (n & F & Hn). split.
    - apply contains_iff; eauto.
    - exists n. split; [now apply getitem_found|exact Hn].
  Qed.

  (** What assigning must not change: everything not at or below the key keeps its
      content. *)
  Lemma descend_frame : forall A st tail (k : list str -> data -> data * result A),
    (forall ns d p rest, p <> tail -> find (Sub (fst (k ns d))) (p :: rest) = find (Sub d) (p :: rest)) ->
    forall heads ns d path v,
    (forall a b, path = a ++ b -> True) ->
    find (Sub (fst (descend st ns d heads tail k))) path = Some (Leaf v) ->
    (forall b, path <> (heads ++ [tail]) ++ b) -> 
    find (Sub d) path = Some (Leaf v).
  Proof.
    intros A st tail k Hk. induction heads as [|p heads IH]; intros ns d path v _ H N; cbn [descend app] in *.
    - destruct (private tail); [exact H|]. destruct path as [|q rest]; [discriminate|].
      destruct (list_eq_dec ascii_dec q tail) as [->|Ne].
      + exfalso. apply (N rest). reflexivity.
      + rewrite Hk in H by exact Ne. exact H.
    - unfold getitem1 in H. destruct (private p); [exact H|].
      destruct path as [|q rest]; [destruct (dgetS d p) as [[?|?]|]; destruct st; try discriminate H;
        destruct (descend _ _ _ heads tail k); discriminate H|].
      destruct (dgetS d p) as [[w|sd]|] eqn:G; try exact H.
      + destruct (descend st (ns ++ [p]) sd heads tail k) as [sd' r] eqn:E. cbn [fst] in H.
        rewrite find_cons in *. destruct (list_eq_dec ascii_dec p q) as [<-|Ne].
        * rewrite gs_same in H. rewrite G.
          apply (IH (ns ++ [p]) sd rest v); [auto|rewrite E; exact H|].
          intros b Eb. apply (N b). now rewrite Eb.
        * rewrite gs_other in H by exact Ne. exact H.
      + destruct st; [|exact H].
        destruct (descend Open (ns ++ [p]) [] heads tail k) as [sd' r] eqn:E. cbn [fst] in H.
        rewrite find_cons in *. destruct (list_eq_dec ascii_dec p q) as [<-|Ne].
        * rewrite gs_same in H. exfalso.
          assert (Q : find (Sub []) rest = Some (Leaf v)).
          { apply (IH (ns ++ [p]) [] rest v); [auto|rewrite E; exact H|].
            intros b Eb. apply (N b). now rewrite Eb. }
          destruct rest; discriminate.
        * rewrite !gs_other in H by exact Ne. exact H.
  Qed.

  Lemma set_elsewhere : forall st i (d : data) key path v,
    find (Sub (fst (setitem st i [] d key))) path = Some (Leaf v) ->
    (forall b, path <> parts key ++ b) -> find (Sub d) path = Some (Leaf v).
  Proof.
    intros st i d key path v H N. rewrite setitem_eq in H. rewrite parts_split in N.
    eapply descend_frame; [|auto|exact H|exact N].
    intros ns d' p rest Ne. rewrite !find_cons. destruct st; [|reflexivity].
    assert (S : forall n, dgetS (dsetS d' (tail_of key) n) p = dgetS d' p)
      by (intro n; apply gs_other; congruence).
    destruct (dgetS d' (tail_of key)) as [[w|sd]|].
    - destruct i; reflexivity.
    - destruct i as [x|items]; [reflexivity|]. destruct (fill Open _ items sd). cbn [fst]. now rewrite S.
    - destruct i as [x|items].
      + destruct (cast ns (tail_of key) x); [cbn [fst]; now rewrite S|reflexivity].
      + destruct (fill Open _ items []) as [sd' [?|?]]; [cbn [fst]; now rewrite S|reflexivity].
  Qed.

  (** ** C11: walk *)
  Lemma walk_node_sub : forall root (d : data),
    walk_node root (Sub d) = flat_map (fun kn => walk_node (root ++ [fst kn]) (snd kn)) d.
  Proof.
    intros root d. cbn [walk_node].
    induction d as [|[k n] d IH]; [reflexivity|]. cbn [flat_map fst snd]. now rewrite <- IH.
  Qed.

  (** The leaves with their paths. *)
  Fixpoint leaves (root : list str) (n : node V) : list (list str * V) :=
    match n with
    | Leaf v => [(root, v)]
    | Sub d => (fix go (d : data) : list (list str * V) :=
                  match d with
                  | [] => []
                  | (k, n') :: rest => leaves (root ++ [k]) n' ++ go rest
                  end) d
    end.

  Lemma leaves_sub : forall root (d : data),
    leaves root (Sub d) = flat_map (fun kn => leaves (root ++ [fst kn]) (snd kn)) d.
  Proof.
    intros root d. cbn [leaves].
    induction d as [|[k n] d IH]; [reflexivity|]. cbn [flat_map fst snd]. now rewrite <- IH.
  Qed.

  Lemma walk_leaves : forall n root,
    walk_node root n = map (fun pv => (join ["."%char] (fst pv), snd pv)) (leaves root n).
  Proof.
    intro n. induction n as [v|d IH] using node_ind'; intro root; [reflexivity|].
    rewrite walk_node_sub, leaves_sub. induction d as [|[k n] d IHd]; [reflexivity|].
    inversion IH as [|? ? Hn IH']; subst. cbn [flat_map fst snd] in *.
    rewrite map_app, <- Hn, <- IHd by exact IH'. reflexivity.
  Qed.

  Lemma leaves_spec : forall (n : node V) root path v, wf n ->
    (In (path, v) (leaves root n) <-> exists q, path = root ++ q /\ find n q = Some (Leaf v)).
  Proof.
    intro n. induction n as [w|d IH] using node_ind'; intros root path v W.
    - cbn. split.
      + intros [E|[]]. inversion E; subst. exists []. rewrite app_nil_r. auto.
      + intros (q & -> & H). destruct q; [|discriminate]. inversion H; subst. rewrite app_nil_r. auto.
    - rewrite leaves_sub, in_flat_map. split.
      + intros ([k n] & Hin & Hl). cbn [fst snd] in Hl.
        inversion W as [|? ND Hw]; subst. rewrite Forall_forall in IH.
        destruct (Hw k n Hin) as [_ Wn].
        apply (IH (k, n) Hin) in Hl; [|exact Wn]. destruct Hl as (q & -> & F).
        exists (k :: q). rewrite <- app_assoc. split; [reflexivity|].
        rewrite find_cons. apply (dget_NoDup str_eqb str_eqb_spec) in Hin; [|exact ND]. now rewrite Hin.
      + intros (q & -> & F). destruct q as [|k q]; [discriminate|]. rewrite find_cons in F.
        destruct (dgetS d k) as [n|] eqn:G; [|discriminate].
        destruct (wf_get _ _ _ W G) as [_ Wn].
        apply (dget_In str_eqb str_eqb_spec) in G. exists (k, n). split; [exact G|].
        rewrite Forall_forall in IH. apply (IH (k, n) G); [exact Wn|].
        exists q. cbn [fst]. rewrite <- app_assoc. auto.
  Qed.

  Lemma leaves_root : forall n root path v, In (path, v) (leaves root n) ->
    exists q, path = root ++ q.
  Proof.
    intro n. induction n as [w|d IH] using node_ind'; intros root path v H.
    - cbn in H. destruct H as [E|[]]. inversion E; subst. exists []. now rewrite app_nil_r.
    - rewrite leaves_sub, in_flat_map in H. destruct H as ([k n] & Hin & Hl).
      rewrite Forall_forall in IH. apply (IH (k, n) Hin) in Hl. destruct Hl as [q ->].
      exists ([k] ++ q). cbn [fst]. now rewrite <- app_assoc.
  Qed.

  Lemma leaves_NoDup : forall (n : node V) root, wf n -> NoDup (map fst (leaves root n)).
  Proof.
    intro n. induction n as [w|d IH] using node_ind'; intros root W.
    - cbn. constructor; [intros []|constructor].
    - rewrite leaves_sub. inversion W as [|? ND Hw]; subst.
      induction d as [|[k n] d IHd]; [constructor|].
      cbn [flat_map fst snd map] in *. apply NoDup_cons_iff in ND. destruct ND as [Nk ND].
      inversion IH as [|? ? Hn IH']; subst. rewrite map_app.
      destruct (Hw k n (or_introl eq_refl)) as [_ Wn].
      assert (Wd : wf (Sub d)).
      { constructor; [exact ND|]. intros k' n' Hin. apply Hw. now right. }
      assert (Nd := IHd IH' Wd ND (fun k' n' Hin => Hw k' n' (or_intror Hin))).
      assert (Hn' := Hn (root ++ [k]) Wn). cbn [snd] in Hn'.
      clear IHd IH IH' Hn. 
      assert (Disj : forall p, In p (map fst (leaves (root ++ [k]) n)) ->
        ~ In p (map fst (flat_map (fun kn => leaves (root ++ [fst kn]) (snd kn)) d))).
      { intros p Hp Hq. apply in_map_iff in Hp. destruct Hp as [[p1 v1] [<- Hp]].
        apply in_map_iff in Hq. destruct Hq as [[p2 v2] [E Hq]]. cbn in E. subst p2.
        apply in_flat_map in Hq. destruct Hq as ([k' n'] & Hin & Hq). cbn [fst snd] in *.
        apply leaves_root in Hp. apply leaves_root in Hq.
        destruct Hp as [q1 ->]. destruct Hq as [q2 E]. rewrite <- !app_assoc in E.
        apply app_inv_head in E. inversion E; subst. apply Nk.
        apply (in_map fst) in Hin. exact Hin. }
      revert Hn' Disj. generalize (map fst (leaves (root ++ [k]) n)). intros l Nl Disj.
      induction l as [|x l IHl]; [exact Nd|]. inversion Nl; subst. cbn. constructor.
      + intro Hin. apply in_app_or in Hin. destruct Hin as [Hin|Hin]; [contradiction|].
        exact (Disj x (or_introl eq_refl) Hin).
      + apply IHl; [assumption|]. intros p Hp. apply Disj. now right.
  Qed.

  Lemma walk_spec : forall (d : data) key v, wf (Sub d) ->
    (In (key, v) (walk d) <-> find (Sub d) (parts key) = Some (Leaf v)).
  Proof.
    intros d key v W. unfold walk. rewrite walk_leaves, in_map_iff. split.
    - intros ([path v'] & E & Hin). cbn in E. inversion E; subst.
      apply leaves_spec in Hin; [|exact W]. destruct Hin as (q & Eq & F). cbn in Eq. subst q.
      destruct path as [|p path]; [discriminate|].
      unfold parts. rewrite split_join; [exact F|discriminate|].
      intros x Hx. destruct (wf_find _ _ _ W F) as [_ PK]. apply PK, Hx.
    - intro F. exists (parts key, v). cbn [fst snd]. split.
      + unfold parts. now rewrite join_split.
      + apply leaves_spec; [exact W|]. exists (parts key). auto.
  Qed.

  Lemma walk_NoDup : forall d : data, wf (Sub d) -> NoDup (map fst (walk d)).
  Proof.
    intros d W. unfold walk. rewrite walk_leaves, map_map. cbn [fst].
    assert (N := leaves_NoDup (Sub d) [] W).
    assert (I : forall p q v w, In (p, v) (leaves [] (Sub d)) -> In (q, w) (leaves [] (Sub d)) ->
                join ["."%char] p = join ["."%char] q -> p = q).
    { intros p q v w Hp Hq E. apply leaves_spec in Hp; [|exact W]. apply leaves_spec in Hq; [|exact W].
      destruct Hp as (p' & -> & Fp). destruct Hq as (q' & -> & Fq). cbn [app] in *.
      apply (join_inj "."%char); auto.
      - destruct p'; discriminate.
      - destruct q'; discriminate.
      - intros x Hx. destruct (wf_find _ _ _ W Fp) as [_ PK]. apply PK, Hx.
      - intros x Hx. destruct (wf_find _ _ _ W Fq) as [_ PK]. apply PK, Hx. }
    revert N I. generalize (leaves [] (Sub d)). induction l as [|[p v] l IH]; intros N I; [constructor|].
    cbn [map fst] in *. inversion N as [|? ? N0 N']; subst. constructor.
    - intro Hin. apply in_map_iff in Hin. destruct Hin as ([q w] & E & Hin). cbn in E.
      assert (q = p) by (apply (I q p w v); [now right|now left|exact E]). subst.
      apply N0. apply (in_map fst) in Hin. exact Hin.
    - apply IH; [exact N'|]. intros. eapply I; [right; eassumption|right; eassumption|assumption].
  Qed.

  (** ** C12: what failing assignments keep *)

  Lemma failed_simple : forall st i (d d' : data) key e sd,
    setitem st i [] d key = (d', Err e) ->
    find (Sub d) (head_of key) = Some (Sub sd) ->
    (forall items sub, i = IMap items -> dgetS sd (tail_of key) <> Some (Sub sub)) ->
    d' = d.
  Proof.
    intros st i d d' key e sd H F NM.
    enough (E : fst (setitem st i [] d key) = d) by (rewrite H in E; exact E).
    rewrite setitem_eq in *.
    set (k := fun ns' d' => _) in *.
    assert (K : fst (k (head_of key) sd) = sd \/ exists x, snd (k (head_of key) sd) = Ok x).
    { subst k. cbv beta. destruct st; [|auto].
      destruct (dgetS sd (tail_of key)) as [[v|sub]|] eqn:G.
      - destruct i; auto.
      - destruct i as [x|items]; [auto|]. exfalso. exact (NM items sub eq_refl eq_refl).
      - destruct i as [x|items].
        + destruct (cast (head_of key) (tail_of key) x); cbn; eauto.
        + destruct (fill Open (head_of key ++ [tail_of key]) items []) as [sd' [?|?]]; cbn; eauto. }
    clearbody k. clear NM i.
    assert (G : forall heads ns d d', find (Sub d) heads = Some (Sub sd) ->
      descend st ns d heads (tail_of key) k = (d', Err e) ->
      fst (k (ns ++ heads) sd) = sd \/ (exists x, snd (k (ns ++ heads) sd) = Ok x) ->
      fst (descend st ns d heads (tail_of key) k) = d).
    { clear. induction heads as [|p heads IH]; intros ns d d' F H K; cbn [descend] in *.
      - destruct (private (tail_of key)); [reflexivity|]. inversion F; subst.
        rewrite app_nil_r in K. rewrite H in *. cbn in *. destruct K as [K|[x K]]; [exact K|discriminate].
      - rewrite find_cons in F. unfold getitem1 in *. destruct (private p); [reflexivity|].
        destruct (dgetS d p) as [n|] eqn:G; [|discriminate]. destruct n as [v|sd0]; [reflexivity|].
        specialize (IH (ns ++ [p]) sd0).
        destruct (descend st (ns ++ [p]) sd0 heads (tail_of key) k) as [sd' r] eqn:E.
        inversion H; subst. cbn [fst] in *.
        rewrite (IH sd' F eq_refl); [now apply dset_id|]. rewrite <- app_assoc. exact K. }
    eapply G; [exact F|exact H|exact K].
  Qed.
End Box.

(** ** C10: hash and equality *)
Section HashEq.
  Context {V : Type} (vhash : V -> option Z) (phash : str -> Z -> Z).
  Context (shuffle : Z -> Z) (finish : nat -> Z -> Z) (veqb : V -> V -> bool).
  Notation hash := (hash_node vhash phash shuffle finish).
  Notation data := (list (str * node V)).

  Definition xh (k : str) (h : option Z) (acc : option Z) : option Z :=
    match h, acc with Some h, Some a => Some (Z.lxor (shuffle (phash k h)) a) | _, _ => None end.

  Lemma hash_sub : forall d : data,
    hash (Sub d) =
    match fold_right (fun kh acc => xh (fst kh) (snd kh) acc) (Some 0%Z)
            (map (fun kn => (fst kn, hash (snd kn))) d) with
    | Some h => Some (finish (List.length d) h)
    | None => None
    end.
  Proof.
    intro d. cbn [hash_node].
    assert (E : (fix go (d : data) : option Z :=
                   match d with
                   | [] => Some 0%Z
                   | (k, n') :: rest =>
                       match hash n', go rest with
                       | Some h, Some acc => Some (Z.lxor (shuffle (phash k h)) acc)
                       | _, _ => None
                       end
                   end) d =
       fold_right (fun kh acc => xh (fst kh) (snd kh) acc) (Some 0%Z)
            (map (fun kn => (fst kn, hash (snd kn))) d)).
    { induction d as [|[k n] d IH]; [reflexivity|]. cbn [map fold_right fst snd]. now rewrite <- IH. }
    now rewrite E.
  Qed.

  Lemma eqb_sub : forall d d' : data,
    node_eqb veqb (Sub d) (Sub d') =
    ((List.length d =? List.length d')%nat &&
    forallb (fun kn => match dget str_eqb d' (fst kn) with
                       | Some n' => node_eqb veqb (snd kn) n'
                       | None => false end) d).
  Proof.
    intros d d'. cbn [node_eqb]. f_equal.
    induction d as [|[k n] d IH]; [reflexivity|]. cbn [forallb fst snd]. now rewrite <- IH.
  Qed.

  Lemma xh_swap : forall k1 h1 k2 h2 a, xh k1 h1 (xh k2 h2 a) = xh k2 h2 (xh k1 h1 a).
  Proof.
    intros k1 [h1|] k2 [h2|] [a|]; cbn; try reflexivity.
    rewrite <- !Z.lxor_assoc. now rewrite (Z.lxor_comm (shuffle (phash k1 h1))).
  Qed.

  Lemma xh_perm : forall l l' : list (str * option Z), Permutation l l' ->
    fold_right (fun kh acc => xh (fst kh) (snd kh) acc) (Some 0%Z) l =
    fold_right (fun kh acc => xh (fst kh) (snd kh) acc) (Some 0%Z) l'.
  Proof.
    induction 1 as [|x l l' P IH|x y l|l l' l'' P1 IH1 P2 IH2]; cbn [fold_right].
    - reflexivity.
    - now rewrite IH.
    - apply xh_swap.
    - congruence.
  Qed.

  Lemma equal_hash : (forall v w, veqb v w = true -> vhash v = vhash w) ->
    forall a b, wf a -> wf b -> node_eqb veqb a b = true -> hash a = hash b.
  Proof.
    intros HV a. induction a as [v|d IH] using node_ind'; intros [w|d'] Wa Wb E; try discriminate.
    - cbn in *. now apply HV.
    - rewrite eqb_sub in E. apply andb_true_iff in E. destruct E as [L F].
      apply Nat.eqb_eq in L. rewrite forallb_forall in F.
      rewrite !hash_sub, L.
      inversion Wa as [|? Na Ha]; subst. inversion Wb as [|? Nb Hb]; subst.
      rewrite Forall_forall in IH.
      assert (P : Permutation (map (fun kn => (fst kn, hash (snd kn))) d)
                              (map (fun kn => (fst kn, hash (snd kn))) d')).
      { apply NoDup_Permutation_bis.
        - apply (NoDup_map_inv fst). rewrite map_map. exact Na.
        - rewrite !map_length. lia.
        - intros [k h] Hin. apply in_map_iff in Hin. destruct Hin as ([k0 n] & Ek & Hin).
          cbn in Ek. inversion Ek; subst. assert (Fk := F _ Hin). cbn [fst snd] in Fk.
          destruct (dget str_eqb d' k) as [n'|] eqn:G; [|discriminate].
          apply (dget_In str_eqb str_eqb_spec) in G.
          apply in_map_iff. exists (k, n'). split; [|exact G]. cbn. f_equal. symmetry.
          apply (IH _ Hin); [eapply Ha; exact Hin|eapply Hb; exact G|exact Fk]. }
      now rewrite (xh_perm _ _ P).
  Qed.

  Lemma xh_Some : forall l : list (str * option Z),
    fold_right (fun kh acc => xh (fst kh) (snd kh) acc) (Some 0%Z) l <> None <->
    forall k h, In (k, h) l -> h <> None.
  Proof.
    induction l as [|[k h] l IH]; cbn [fold_right fst snd].
    - split; [intros _ k h []|congruence].
    - split.
      + intros H k' h' [E|Hin].
        * inversion E; subst. destruct h'; [discriminate|]. cbn in H. congruence.
        * apply IH in Hin; [exact Hin|]. destruct h; cbn in H; [|congruence].
          destruct (fold_right _ _ l); congruence.
      + intro H. assert (Hh := H k h (or_introl eq_refl)). destruct h as [h|]; [|congruence].
        assert (Hl : fold_right (fun kh acc => xh (fst kh) (snd kh) acc) (Some 0%Z) l <> None)
          by (apply IH; intros k' h' Hin; apply (H k'); now right).
        destruct (fold_right _ _ l); cbn; congruence.
  Qed.

  Lemma hash_Some : forall n, wf n ->
    (hash n <> None <-> forall path v, find n path = Some (Leaf v) -> vhash v <> None).
  Proof.
    intro n. induction n as [v|d IH] using node_ind'; intro W.
    - cbn. split; [|intro H; apply (H [] v); reflexivity].
      intros H [|p path] w F; [inversion F; subst; exact H|discriminate].
    - rewrite hash_sub. inversion W as [|? ND HW]; subst. rewrite Forall_forall in IH.
      assert (E : (match fold_right (fun kh acc => xh (fst kh) (snd kh) acc) (Some 0%Z)
            (map (fun kn => (fst kn, hash (snd kn))) d) with
            | Some h => Some (finish (List.length d) h)
            | None => None
            end <> None) <->
            forall k n, In (k, n) d -> hash n <> None).
      { transitivity (fold_right (fun kh acc => xh (fst kh) (snd kh) acc) (Some 0%Z)
            (map (fun kn => (fst kn, hash (snd kn))) d) <> None).
        - destruct (fold_right _ _ _); split; congruence.
        - rewrite xh_Some. split; intro H.
          + intros k n Hin. apply (H k). apply in_map_iff. exists (k, n). auto.
          + intros k h Hin. apply in_map_iff in Hin. destruct Hin as ([k' n] & Ek & Hin).
            inversion Ek; subst. apply (H k n). exact Hin. }
      rewrite E. split; intro H.
      + intros [|p path] v F; [discriminate|]. rewrite find_cons in F.
        destruct (dget str_eqb d p) as [n|] eqn:G; [|discriminate].
        apply (dget_In str_eqb str_eqb_spec) in G. 
        apply (proj1 (IH (p, n) G (proj2 (HW p n G))) (H p n G) path v F).
      + intros k n Hin. apply (IH (k, n) Hin (proj2 (HW k n Hin))).
        intros path v F. apply (H (k :: path) v). rewrite find_cons.
        apply (dget_NoDup str_eqb str_eqb_spec) in Hin; [|exact ND]. now rewrite Hin.
  Qed.

  Lemma box_hash_iff : forall st d, wf (Sub d) ->
    ((exists h, box_hash vhash phash shuffle finish st d = Ok h) <->
     st = Closed /\ forall path v, find (Sub d) path = Some (Leaf v) -> vhash v <> None).
  Proof.
    intros st d W. rewrite <- (hash_Some (Sub d) W). destruct st; cbn [box_hash].
    - split; [intros [h H]; discriminate|intros [H _]; discriminate].
    - destruct (hash (Sub d)); split.
      + intros _. split; [reflexivity|discriminate].
      + intros _. eauto.
      + intros [h H]. discriminate.
      + intros [_ H]. congruence.
  Qed.
End HashEq.
