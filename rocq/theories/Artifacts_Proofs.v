(** Proofs about the construction of artifacts. *)
From Coq Require Import ZArith List Ascii String Bool Lia.
From Verif Require Import Base Str Partitions_Model Str_Proofs Format_Model Template_Spec Storage_Model Paths_Spec
  Storage_Spec Resolve_Proofs Paths_Proofs Template_Proofs Format_Proofs Types_Model PyTypes_Model PyTypes_Spec PyTypes_Proofs Producers_Model Placement_Model Placement_Spec Placement_Proofs
  Artifacts_Model Artifacts_Spec.
Import ListNotations.
Open Scope list_scope.

(** * Declarations *)
Section Fields.
  Context {B X D : Type} (field : B -> option (declared X D)) (base : declared X D).
  Lemma nearest_counts : forall bodies, counts field base bodies (nearest field base bodies).
  Proof.
    induction bodies as [|b bodies IH]; cbn [nearest].
    - right. split; [reflexivity|]. intros b [].
    - destruct (field b) as [d|] eqn:E.
      + left. exists [], b, bodies. split; [reflexivity|]. split; [exact E|]. intros a [].
      + destruct IH as [(above & b' & below & Q & E' & A)|[Q A]].
        * left. exists (b :: above), b', below. split; [cbn; now rewrite Q|]. split; [exact E'|].
          intros a [<-|I]; [exact E|now apply A].
        * right. split; [exact Q|]. intros a [<-|I]; [exact E|now apply A].
  Qed.
  Lemma counts_nearest : forall bodies d, counts field base bodies d -> d = nearest field base bodies.
  Proof.
    intros bodies d [(above & b & below & -> & E & A)|[-> A]].
    - induction above as [|a above IH]; cbn [app nearest]; [now rewrite E|].
      rewrite (A a (or_introl eq_refl)). apply IH. intros x I. apply A. now right.
    - induction bodies as [|b bodies IH]; cbn [nearest]; [reflexivity|].
      rewrite (A b (or_introl eq_refl)). apply IH. intros x I. apply A. now right.
  Qed.
  Lemma counts_iff : forall bodies d, counts field base bodies d <-> d = nearest field base bodies.
  Proof. intros bodies d. split; [apply counts_nearest|]. intros ->. apply nearest_counts. Qed.
End Fields.

(** * Outcomes *)
Lemma collected_reported : forall e, collected e = true <-> reported e.
Proof. intro e. split; [|intros []; reflexivity]. destruct e; cbn; try discriminate; intros _; constructor. Qed.
Lemma outcome_valid : forall X (r : result X) x, outcome_of r = Valid x <-> r = Ok x.
Proof. intros X [y|e] x; cbn; [split; intro H; injection H as <-; reflexivity|]. split; [destruct (collected e)|]; discriminate. Qed.
Lemma outcome_raised : forall X (r : result X) e, outcome_of r = Raised e <-> r = Err e /\ ~ reported e.
Proof.
  intros X [y|e'] e; cbn; [split; [discriminate|intros [H _]; discriminate]|].
  destruct (collected e') eqn:C; split.
  - discriminate.
  - intros [H N]. injection H as ->. destruct N. now apply collected_reported.
  - intro H. injection H as <-. split; [reflexivity|]. rewrite <- collected_reported. congruence.
  - intros [H _]. now injection H as ->.
Qed.
Lemma validate_valid : forall X (d : declared X X) arg after y,
  validate d arg after = Valid y <-> exists x, supplied d arg x /\ after x = Ok y.
Proof.
  intros X d arg after y. unfold validate, supplied.
  assert (K : forall x, (if admits d x then outcome_of (after x) else Failed) = Valid y <-> admits d x = true /\ after x = Ok y).
  { intro x. destruct (admits d x); [|split; [discriminate|intros [H _]; discriminate]]. rewrite outcome_valid. intuition. }
  destruct arg as [| |x].
  - destruct (default d) as [x|] eqn:E.
    + rewrite K. split.
      * intros [A Q]. exists x. auto.
      * intros (x' & [[Q|[_ Q]] A] & R); [discriminate|]. injection Q as ->. auto.
    + split; [discriminate|]. intros (x' & [[Q|[_ Q]] _] & _); discriminate.
  - split; [discriminate|]. intros (x' & [[Q|[Q _]] _] & _); discriminate.
  - rewrite K. split.
    + intros [A Q]. exists x. auto.
    + intros (x' & [[Q|[Q _]] A] & R); [|discriminate]. injection Q as ->. auto.
Qed.
Lemma validate_raised : forall X (d : declared X X) arg after e,
  validate d arg after = Raised e <-> exists x, supplied d arg x /\ after x = Err e /\ ~ reported e.
Proof.
  intros X d arg after e. unfold validate, supplied.
  assert (K : forall x, (if admits d x then outcome_of (after x) else Failed) = Raised e <-> admits d x = true /\ after x = Err e /\ ~ reported e).
  { intro x. destruct (admits d x); [|split; [discriminate|intros [H _]; discriminate]]. rewrite outcome_raised. intuition. }
  destruct arg as [| |x].
  - destruct (default d) as [x|] eqn:E.
    + rewrite K. split.
      * intros [A Q]. exists x. auto.
      * intros (x' & [[Q|[_ Q]] A] & R); [discriminate|]. injection Q as ->. auto.
    + split; [discriminate|]. intros (x' & [[Q|[_ Q]] _] & _); discriminate.
  - split; [discriminate|]. intros (x' & [[Q|[Q _]] _] & _); discriminate.
  - rewrite K. split.
    + intros [A Q]. exists x. auto.
    + intros (x' & [[Q|[Q _]] A] & R); [|discriminate]. injection Q as ->. auto.
Qed.

Lemma check_items_valid : forall X (ok : X -> bool) l r,
  check_items ok l = Valid r <-> l = map Some r /\ forall x, In x r -> ok x = true.
Proof.
  intros X ok. induction l as [|i l IH]; intro r; cbn [check_items].
  - split.
    + intro H. injection H as <-. split; [reflexivity|]. intros x [].
    + intros [H _]. destruct r; [reflexivity|discriminate].
  - split.
    + destruct i as [x|]; [|discriminate]. destruct (check_items ok l) as [r'| |] eqn:E; try discriminate.
      destruct (ok x) eqn:O; [|discriminate]. intro H. injection H as <-. destruct (proj1 (IH r') eq_refl) as [-> A].
      split; [reflexivity|]. intros y [<-|I]; [exact O|now apply A].
    + intros [H A]. destruct r as [|x r]; [discriminate|]. injection H as -> ->.
      rewrite (proj2 (IH r)) by (split; [reflexivity|intros y I; apply A; now right]).
      now rewrite (A x (or_introl eq_refl)).
Qed.
Lemma check_items_raised : forall X (ok : X -> bool) l e, check_items ok l <> Raised e.
Proof.
  intros X ok. induction l as [|[x|] l IH]; intro e; cbn [check_items]; try discriminate.
  destruct (check_items ok l) as [r| |e'] eqn:E; [destruct (ok x)| |]; discriminate.
Qed.
Lemma map_Some_inj : forall X (a b : list X), map Some a = map Some b -> a = b.
Proof. induction a as [|x a IH]; intros [|y b] H; try discriminate; [reflexivity|]. injection H as -> H. f_equal. now apply IH. Qed.
Lemma map_Some_app : forall X (a : list X) l r, map Some a ++ l = map Some r -> exists b, l = map Some b /\ r = a ++ b.
Proof.
  induction a as [|x a IH]; intros l r H; [exists r; auto|]. destruct r as [|y r]; [discriminate|]. injection H as -> H.
  destruct (IH l r H) as (b & -> & ->). exists b. auto.
Qed.
Lemma own_iff : forall X (d : declared X (list X)) l, own d l <-> l = class_default d.
Proof.
  intros X d l. unfold own, class_default. destruct (default d) as [l0|]; split.
  - intros [H|[H _]]; [now injection H|discriminate].
  - intros ->. now left.
  - intros [H|[_ H]]; [discriminate|exact H].
  - intros ->. now right.
Qed.
Lemma validate_items_valid : forall X (d : declared X (list X)) arg l, validate_items d arg = Valid l <-> gathered d arg l.
Proof.
  intros X d arg l. unfold validate_items, gathered, merge, all_admitted. destruct arg as [| |g].
  - destruct (default d) as [l0|] eqn:E.
    + assert (C : class_default d = l0) by (unfold class_default; now rewrite E).
      rewrite C, check_items_valid, <- map_app. split.
      * intros [H A]. apply map_Some_inj in H. subst l. split; [exact A|]. exists l0. split; [now left|]. right. auto.
      * intros (A & l1 & O & [(given & H & _)|(_ & H & ->)]); [discriminate|]. injection H as <-. auto.
    + split; [discriminate|]. intros (_ & l1 & _ & [(given & H & _)|(_ & H & _)]); discriminate.
  - split; [discriminate|]. intros (_ & l1 & _ & [(given & H & _)|(H & _)]); discriminate.
  - rewrite check_items_valid. split.
    + intros [H A]. apply map_Some_app in H. destruct H as (b & -> & ->). split; [exact A|].
      exists (class_default d). split; [now apply own_iff|]. left. exists b. auto.
    + intros (A & l1 & O & [(given & H & ->)|(H & _)]); [|discriminate]. injection H as ->. apply own_iff in O. subst l1.
      split; [now rewrite map_app|exact A].
Qed.
Lemma validate_items_raised : forall X (d : declared X (list X)) arg e,
  validate_items d arg = Raised e <-> arg = NotIterable /\ e = TypeError.
Proof.
  intros X d arg e. unfold validate_items. destruct arg as [| |g]; (split; [|intros [H1 H2]; try discriminate; subst; reflexivity]).
  - destruct (default d); [|discriminate]. intro H. now apply check_items_raised in H.
  - intro H. injection H as <-. auto.
  - intro H. now apply check_items_raised in H.
Qed.
Lemma data_valid : forall X (o : outcome X) x, data o = Some x <-> o = Valid x.
Proof. intros X [y| |e] x; cbn; split; intro H; try discriminate; injection H as ->; reflexivity. Qed.
Lemma passed_raised : forall X (o : outcome X) e, passed_on o = Some e <-> o = Raised e.
Proof. intros X [y| |e'] e; cbn; split; intro H; try discriminate; injection H as ->; reflexivity. Qed.

Section Artifacts.
  Context {T F S N M : Type}.
  Context (format_visit : F -> T -> result F).
  Context (storage_visit_type : S -> T -> result S) (storage_visit_format : S -> F -> result S).
  Notation construct := (@construct T F S N M format_visit storage_visit_type storage_visit_format).
  Notation made := (made format_visit storage_visit_type storage_visit_format).
  Context (f0 : F) (s0 : S).

  Notation t_of bodies k := (validate (type_field bodies) (k_type k) Ok).
  Notation f_of bodies k := (validate (format_field f0 bodies) (k_format k) (validate_format format_visit (data (t_of bodies k)))).
  Notation s_of bodies k := (validate (storage_field s0 bodies) (k_storage k)
    (validate_storage storage_visit_type storage_visit_format (data (t_of bodies k)) (data (f_of bodies k)))).
  Notation n_of bodies k := (validate_items (annotations_field bodies) (k_annotations k)).
  Notation m_of bodies k := (validate_items (statistics_field bodies) (k_statistics k)).

  Lemma construct_ok : forall bodies k i, construct f0 s0 bodies k = Ok i <->
    t_of bodies k = Valid (i_type i) /\ f_of bodies k = Valid (i_format i) /\ s_of bodies k = Valid (i_storage i) /\
    n_of bodies k = Valid (i_annotations i) /\ m_of bodies k = Valid (i_statistics i) /\ k_unknown k = false.
  Proof.
    intros bodies k i. unfold Artifacts_Model.construct. set (t := t_of bodies k).
    set (f := validate (format_field f0 bodies) (k_format k) (validate_format format_visit (data t))).
    set (s := validate (storage_field s0 bodies) (k_storage k) (validate_storage storage_visit_type storage_visit_format (data t) (data f))).
    set (n := n_of bodies k). set (m := m_of bodies k). clearbody s. clearbody f. clearbody t. clearbody n. clearbody m.
    split.
    - destruct t as [t| |e]; cbn [passed_on first_of fold_right data];
        (destruct f as [f| |e1]; cbn [passed_on data]; try discriminate);
        (destruct s as [s| |e2]; cbn [passed_on data]; try discriminate);
        (destruct n as [n| |e3]; cbn [passed_on data]; try discriminate);
        (destruct m as [m| |e4]; cbn [passed_on data]; try discriminate).
      destruct (k_unknown k); [discriminate|]. intro H. injection H as <-. cbn. auto 10.
    - intros (-> & -> & -> & -> & -> & ->). cbn. now destruct i.
  Qed.

  Theorem created : forall bodies k i, construct f0 s0 bodies k = Ok i <-> made f0 s0 bodies k i.
  Proof.
    intros bodies k i. rewrite construct_ok. unfold Artifacts_Spec.made, visited. split.
    - intros (Ht & Hf & Hs & Hn & Hm & U). rewrite Ht in Hf, Hs. cbn [data] in Hf, Hs. rewrite Hf in Hs. cbn [data] in Hs.
      apply validate_valid in Ht. destruct Ht as (t & St & Q). injection Q as ->.
      apply validate_valid in Hf. destruct Hf as (f & Sf & Vf). cbn [validate_format] in Vf.
      apply validate_valid in Hs. destruct Hs as (s & Ss & Vs). unfold validate_storage in Vs.
      destruct (storage_visit_type s (i_type i)) as [s1|] eqn:V1; [|discriminate]. cbn [bind] in Vs.
      split; [exact U|]. split; [exists (type_field bodies); split; [apply nearest_counts|exact St]|]. split.
      { exists (format_field f0 bodies), (storage_field s0 bodies), f, s. split; [apply nearest_counts|]. split; [exact Sf|].
        split; [apply nearest_counts|]. split; [exact Ss|]. split; [exact Vf|]. exists s1. auto. }
      split.
      + exists (annotations_field bodies). split; [apply nearest_counts|]. now apply validate_items_valid.
      + exists (statistics_field bodies). split; [apply nearest_counts|]. now apply validate_items_valid.
    - intros (U & (dt & Ct & St) & (df & ds & f & s & Cf & Sf & Cs & Ss & Vf & s1 & V1 & V2) & (dn & Cn & Gn) & (dm & Cm & Gm)).
      apply counts_nearest in Ct, Cf, Cs, Cn, Cm. subst.
      assert (Ht : t_of bodies k = Valid (i_type i)) by (apply validate_valid; exists (i_type i); auto).
      assert (Hf : f_of bodies k = Valid (i_format i)) by (rewrite Ht; apply validate_valid; exists f; auto).
      assert (Hs : s_of bodies k = Valid (i_storage i)).
      { rewrite Hf, Ht. apply validate_valid. exists s. split; [exact Ss|]. cbn [data]. unfold validate_storage. rewrite V1. exact V2. }
      split; [exact Ht|]. split; [exact Hf|]. split; [exact Hs|]. split; [now apply validate_items_valid|].
      split; [now apply validate_items_valid|exact U].
  Qed.

  Lemma first_of_in : forall es e, first_of es = Some e -> In (Some e) es.
  Proof.
    induction es as [|[x|] es IH]; intros e H; cbn in H; [discriminate| |].
    - left. exact H.
    - right. now apply IH.
  Qed.
  Theorem failures : forall bodies k e, construct f0 s0 bodies k = Err e ->
    e = ValueError \/
    (~ reported e /\ ((exists f t, format_visit f t = Err e) \/ (exists s t, storage_visit_type s t = Err e) \/
                      (exists s f, storage_visit_format s f = Err e) \/
                      e = TypeError /\ (k_annotations k = NotIterable \/ k_statistics k = NotIterable))).
  Proof.
    intros bodies k e H. unfold Artifacts_Model.construct in H.
    match type of H with match ?x with _ => _ end = _ => destruct x as [e'|] eqn:R end.
    - right. injection H as ->. apply first_of_in in R. destruct R as [R|[R|[R|[R|[R|[]]]]]]; apply passed_raised in R.
      + apply validate_raised in R. destruct R as (x & _ & R & _). discriminate.
      + apply validate_raised in R. destruct R as (f & _ & R & NR). split; [exact NR|]. left. unfold validate_format in R.
        destruct (data _) as [t|]; [|discriminate]. eauto.
      + apply validate_raised in R. destruct R as (s & _ & R & NR). split; [exact NR|]. right. unfold validate_storage in R.
        match type of R with context[bind (match ?o with _ => _ end)] => destruct o as [t|] end.
        * destruct (storage_visit_type s t) as [s1|e'] eqn:V; cbn [bind] in R; [|left; injection R as ->; eauto].
          match type of R with (match ?o with _ => _ end) = _ => destruct o as [f|] end; [|discriminate]. right. left. eauto.
        * cbn [bind] in R. match type of R with (match ?o with _ => _ end) = _ => destruct o as [f|] end; [|discriminate]. right. left. eauto.
      + apply validate_items_raised in R. destruct R as [R ->]. split; [intro K; inversion K|]. do 3 right. auto.
      + apply validate_items_raised in R. destruct R as [R ->]. split; [intro K; inversion K|]. do 3 right. auto.
    - left. repeat match type of H with (match ?x with _ => _ end) = _ => destruct x end; first [discriminate|injection H as <-; reflexivity].
  Qed.

  (** What the visits raise is passed on, whatever else is wrong. *)
  Theorem format_raises : forall bodies k dt df t f e,
    counts b_type (open None) bodies dt -> supplied dt (k_type k) t ->
    counts b_format (open (Some f0)) bodies df -> supplied df (k_format k) f ->
    format_visit f t = Err e -> ~ reported e -> construct f0 s0 bodies k = Err e.
  Proof.
    intros bodies k dt df t f e Ct St Cf Sf V NR. apply counts_nearest in Ct, Cf. subst.
    assert (Ht : t_of bodies k = Valid t) by (apply validate_valid; exists t; auto).
    assert (Hf : f_of bodies k = Raised e) by (rewrite Ht; apply validate_raised; exists f; auto).
    unfold Artifacts_Model.construct. cbv zeta. rewrite Hf, Ht. reflexivity.
  Qed.
  Theorem storage_raises : forall bodies k dt df ds t f f' s e,
    counts b_type (open None) bodies dt -> supplied dt (k_type k) t ->
    counts b_format (open (Some f0)) bodies df -> supplied df (k_format k) f -> format_visit f t = Ok f' ->
    counts b_storage (open (Some s0)) bodies ds -> supplied ds (k_storage k) s ->
    (storage_visit_type s t = Err e \/ exists s1, storage_visit_type s t = Ok s1 /\ storage_visit_format s1 f' = Err e) ->
    ~ reported e -> construct f0 s0 bodies k = Err e.
  Proof.
    intros bodies k dt df ds t f f' s e Ct St Cf Sf V Cs Ss R NR. apply counts_nearest in Ct, Cf, Cs. subst.
    assert (Ht : t_of bodies k = Valid t) by (apply validate_valid; exists t; auto).
    assert (Hf : f_of bodies k = Valid f') by (rewrite Ht; apply validate_valid; exists f; auto).
    assert (Hs : s_of bodies k = Raised e).
    { rewrite Hf, Ht. apply validate_raised. exists s. split; [exact Ss|]. split; [|exact NR]. cbn [data]. unfold validate_storage.
      destruct R as [R|(s1 & R1 & R2)]; [now rewrite R|]. rewrite R1. exact R2. }
    unfold Artifacts_Model.construct. cbv zeta. rewrite Hs, Hf, Ht. reflexivity.
  Qed.

  Theorem annotations_given : forall bodies k i d own_ given, construct f0 s0 bodies k = Ok i ->
    counts b_annotations (open (Some [])) bodies d -> own d own_ -> k_annotations k = Items (map Some given) ->
    i_annotations i = own_ ++ given.
  Proof.
    intros bodies k i d l given H C O Q. apply created in H. destruct H as (_ & _ & _ & (d' & C' & G) & _).
    apply counts_nearest in C, C'. subst d d'. destruct G as (_ & l0 & O' & [(g & Q' & ->)|(Q' & _)]); [|congruence].
    rewrite Q in Q'. injection Q' as Q'. apply map_Some_inj in Q'. subst g. apply own_iff in O, O'. now subst.
  Qed.
  Theorem statistics_given : forall bodies k i d own_ given, construct f0 s0 bodies k = Ok i ->
    counts b_statistics (open (Some [])) bodies d -> own d own_ -> k_statistics k = Items (map Some given) ->
    i_statistics i = own_ ++ given.
  Proof.
    intros bodies k i d l given H C O Q. apply created in H. destruct H as (_ & _ & _ & _ & (d' & C' & G)).
    apply counts_nearest in C, C'. subst d d'. destruct G as (_ & l0 & O' & [(g & Q' & ->)|(Q' & _)]); [|congruence].
    rewrite Q in Q'. injection Q' as Q'. apply map_Some_inj in Q'. subst g. apply own_iff in O, O'. now subst.
  Qed.
  Lemma twice : forall X (l : list X), l ++ l = l <-> l = [].
  Proof.
    intros X l. split; [|intros ->; reflexivity]. intro H. apply (f_equal (@List.length X)) in H. rewrite app_length in H.
    destruct l; [reflexivity|]. cbn in H. lia.
  Qed.
  Theorem annotations_absent : forall bodies k i d own_, construct f0 s0 bodies k = Ok i ->
    counts b_annotations (open (Some [])) bodies d -> own d own_ -> k_annotations k = NoItems ->
    i_annotations i = own_ ++ own_ /\ (i_annotations i = own_ <-> own_ = []).
  Proof.
    intros bodies k i d l H C O Q. apply created in H. destruct H as (_ & _ & _ & (d' & C' & G) & _).
    apply counts_nearest in C, C'. subst d d'. destruct G as (_ & l0 & O' & [(g & Q' & _)|(_ & _ & ->)]); [congruence|].
    apply own_iff in O, O'. subst. split; [reflexivity|apply twice].
  Qed.
  Theorem statistics_absent : forall bodies k i d own_, construct f0 s0 bodies k = Ok i ->
    counts b_statistics (open (Some [])) bodies d -> own d own_ -> k_statistics k = NoItems ->
    i_statistics i = own_ ++ own_ /\ (i_statistics i = own_ <-> own_ = []).
  Proof.
    intros bodies k i d l H C O Q. apply created in H. destruct H as (_ & _ & _ & _ & (d' & C' & G)).
    apply counts_nearest in C, C'. subst d d'. destruct G as (_ & l0 & O' & [(g & Q' & _)|(_ & _ & ->)]); [congruence|].
    apply own_iff in O, O'. subst. split; [reflexivity|apply twice].
  Qed.
  Theorem made_again : forall bodies i i' d own_, construct f0 s0 bodies (like i) = Ok i' ->
    counts b_annotations (open (Some [])) bodies d -> own d own_ -> own_ <> [] -> i' <> i.
  Proof.
    intros bodies i i' d l H C O NE E. pose proof (annotations_given bodies (like i) i' d l (i_annotations i) H C O eq_refl) as A.
    subst i'. apply (f_equal (@List.length _)) in A. rewrite app_length in A. destruct l; [congruence|]. cbn in A. lia.
  Qed.
End Artifacts.

(** * Keys of types *)
Lemma mapM_dict : forall (A B : Type) (f : A -> result B) l r, mapM f l = Ok r -> Forall2 (fun a b => f a = Ok b) l r.
Proof.
  induction l as [|a l IH]; intros r H; cbn in H; [injection H as <-; constructor|].
  destruct (f a) as [b|] eqn:E; [|discriminate]. cbn in H. destruct (mapM f l) as [bs|]; [|discriminate]. cbn in H.
  injection H as <-. constructor; [exact E|now apply IH].
Qed.
Lemma ptype_class : forall t c, key_class t c <-> get_class_for (ptype_of t) = Ok c.
Proof.
  intros t c. split; [now intros []|]. destruct t as [s m| | | | | | | | | | |]; cbn; try discriminate.
  destruct s as [| |b|b| | |b]; cbn; try discriminate; try (destruct b); cbn; intro H; try discriminate; injection H as <-; constructor.
Qed.
Lemma ptype_err : forall t e, get_class_for (ptype_of t) = Err e -> e = KeyError.
Proof. intros t e. destruct (ptype_of t); cbn; intro H; try discriminate. now injection H as <-. Qed.
Lemma field_type_get : forall e f t, field_type e f t <-> dget str_eqb (fields_of e) f = Some t.
Proof.
  intros e f t. split.
  - intros (s & fs & m & -> & H). exact H.
  - intro H. destruct e; cbn in H; try discriminate. unfold field_type. eauto 10.
Qed.
Lemma pick_known : forall e p, (forall f, In f p -> exists t, field_type e f t) ->
  exists ts, Forall2 (fun f nt => fst nt = f /\ field_type e f (snd nt)) p ts /\
             pick_fields e p = Ok (dict_of str_eqb ts).
Proof.
  intros e p K. unfold pick_fields.
  assert (H : exists ts, Forall2 (fun f nt => fst nt = f /\ field_type e f (snd nt)) p ts /\
    mapM (fun n => match dget str_eqb (fields_of e) n with Some t => Ok (n, t) | None => Err KeyError end) p = Ok ts).
  { induction p as [|f p IH]; [exists []; split; [constructor|reflexivity]|].
    destruct (K f (or_introl eq_refl)) as [t Ft]. destruct IH as (ts & A & B); [intros g I; apply K; now right|].
    exists ((f, t) :: ts). split; [constructor; [split; [reflexivity|exact Ft]|exact A]|].
    cbn [mapM]. rewrite (proj1 (field_type_get e f t) Ft). cbn [bind]. rewrite B. reflexivity. }
  destruct H as (ts & A & B). exists ts. split; [exact A|]. now rewrite B.
Qed.
Lemma names_of : forall A (P : str -> str * A -> Prop) p ts, (forall f nt, P f nt -> fst nt = f) ->
  Forall2 P p ts -> map fst ts = p.
Proof. intros A P p ts K H. induction H as [|f nt p ts E H IH]; [reflexivity|]. cbn. f_equal; [now apply K|exact IH]. Qed.
Lemma forall2_exists : forall A B (R : A -> B -> Prop) l r a, Forall2 R l r -> In a l -> exists b, In b r /\ R a b.
Proof.
  intros A B R l r a H. induction H as [|x y l r E H IH]; intros []; [subst; exists y; split; [now left|exact E]|].
  destruct (IH H0) as (b & I & Rb). exists b. split; [now right|exact Rb].
Qed.
Lemma Forall2_flip_in : forall A B (R : A -> B -> Prop) l r b, Forall2 R l r -> In b r -> exists a, In a l /\ R a b.
Proof.
  intros A B R l r b H. induction H as [|x y l r E H IH]; intros []; [subst; exists x; split; [now left|exact E]|].
  destruct (IH H0) as (a & I & Ra). exists a. split; [now right|exact Ra].
Qed.
Definition entry (nt : str * ptype) : result (str * fclass) := rmap (pair (fst nt)) (get_class_for (snd nt)).
Lemma types_from_some : forall fs, types_from (Some fs) = rmap (dict_of str_eqb) (mapM entry fs).
Proof. reflexivity. Qed.
Theorem key_types_keyed : forall t kts, keyed t kts -> key_types t = Ok kts.
Proof.
  intros t kts [t' N|n e p c m kts' ND A]; [destruct t'; try reflexivity; now destruct (N name t' partition_by cluster_by m)|].
  unfold key_types, partition_fields.
  destruct (pick_known e p) as (ts & B & ->).
  { intros f I. destruct (forall2_exists _ _ _ _ _ f A I) as (nc & _ & _ & tf & Ft & _). eauto. }
  assert (Nt : map fst ts = p) by (apply (names_of _ (fun f nt => fst nt = f /\ field_type e f (snd nt))); [now intros f nt []|exact B]).
  rewrite Layout_Proofs.dict_of_NoDup by (now rewrite Nt). cbn [bind]. rewrite types_from_some.
  assert (H : mapM entry (map (fun nf => (fst nf, ptype_of (snd nf))) ts) = Ok kts').
  { clear ND Nt. revert kts' A. induction B as [|f nt p ts [E Ft] B IH]; intros kts' A; inversion A as [|f' nc p' kts2 [E' (tf & Ft' & K)] A']; subst; [reflexivity|].
    cbn [map mapM]. unfold entry at 1. cbn [fst snd]. apply field_type_get in Ft, Ft'. rewrite Ft in Ft'. injection Ft' as <-.
    apply ptype_class in K. rewrite K. cbn [rmap bind]. rewrite (IH kts2 A'). cbn [bind]. rewrite <- E'. now destruct nc. }
  rewrite H. cbn [rmap]. f_equal. apply Layout_Proofs.dict_of_NoDup.
  rewrite (names_of _ _ p kts') with (2 := A); [exact ND|]. now intros f nc [].
Qed.
Lemma mapM_err : forall A B (f : A -> result B) e l a, In a l -> f a = Err e -> (forall x e', f x = Err e' -> e' = e) -> mapM f l = Err e.
Proof.
  intros A B f e l a I Ea K. induction l as [|x l IH]; [destruct I|]. cbn [mapM].
  destruct (f x) as [b|e'] eqn:E; cbn [bind].
  - destruct I as [->|I]; [congruence|]. now rewrite (IH I).
  - f_equal. now apply (K x).
Qed.
Theorem key_types_unkeyable : forall t, unkeyable t -> key_types t = Err KeyError.
Proof.
  intros t0 (n & e & p & c & m & -> & K & f & t & I & Ft & N). unfold key_types, partition_fields.
  destruct (pick_known e p K) as (ts & B & ->). cbn [bind]. rewrite types_from_some.
  assert (L : In (f, t) (dict_of str_eqb ts)).
  { apply (Base_Proofs.dget_In str_eqb str_eqb_spec). unfold dict_of. rewrite (Base_Proofs.dget_dupdate str_eqb str_eqb_spec).
    destruct (forall2_exists _ _ _ _ _ f B I) as ([f' t'] & It & Q & Ft'). cbn [fst snd] in Q, Ft'. subst f'.
    apply field_type_get in Ft, Ft'. rewrite Ft in Ft'. injection Ft' as <-.
    destruct (dget str_eqb (rev ts) f) as [t'|] eqn:G.
    - apply (Base_Proofs.dget_In str_eqb str_eqb_spec) in G. apply in_rev in G.
      destruct (Forall2_flip_in _ _ _ _ _ _ B G) as (f' & _ & Q & Ft'). cbn [fst snd] in Q, Ft'. subst f'.
      apply field_type_get in Ft'. congruence.
    - apply (Base_Proofs.dget_None str_eqb str_eqb_spec) in G. destruct G. rewrite map_rev. apply -> in_rev.
      apply in_map_iff. exists (f, t). auto. }
  rewrite (mapM_err _ _ entry KeyError _ (f, ptype_of t)); [reflexivity| | |].
  - apply in_map_iff. exists (f, t). auto.
  - unfold entry. cbn [fst snd]. destruct (get_class_for (ptype_of t)) as [cls|e'] eqn:G.
    + destruct (N cls). now apply ptype_class.
    + apply ptype_err in G. now subst.
  - intros [x pt] e' H. unfold entry in H. cbn in H. destruct pt; try discriminate. now injection H as <-.
Qed.

(** * Artifacts with JSON or Pickle, stored under the default template *)
Section Python.
  Context (other : cvalue -> str -> result str).
  Ltac names := repeat match goal with
    | |- S_ _ <> S_ _ => cbv; discriminate
    | |- name_ok _ => split; [discriminate|split; [reflexivity|repeat constructor; cbn; intuition discriminate]]
    | |- template_ok (_ ++ _) => apply ok_app; split
    | |- template_ok (_ :: _) => apply ok_cons; split
    | |- template_ok [] => constructor
    | |- tok_ok (TLit (S_ _)) => repeat constructor; cbn; intuition discriminate
    | |- tok_ok (ask _) => apply ask_ok
    | |- without _ (_ ++ _) => apply without_app; split
    | |- without _ (TLit _ :: _) => apply without_lit
    | |- without _ (THole _ :: _) => apply without_hole; split; [cbn; discriminate|]
    | |- without _ [] => apply without_nil
    | |- without _ (keys _) => apply keys_without
    | |- ends (_ ++ _) => apply ends_app
    end; auto.
  Notation fp := $"input_fingerprint".

  Section Template.
    Variables (root ext : str) (kts : Storage_Model.key_types).
    Hypotheses (Hr : avoids $"{}" root) (Hp : plain_names kts).
    Definition lead : template := [TLit root; ask $"graph_name"; sep; ask $"path_tags"; sep; ask $"names"; sep].
    Lemma type_seen : resolve_field other (root ++ default_template) [($"partition_key_spec", partition_key_spec kts)] =
      Ok (print (lead ++ keys kts ++ [ask fp; sep; ask $"name"; ask $"extension"])).
    Proof.
      replace (root ++ default_template) with
        (print (lead ++ ask $"partition_key_spec" :: sep :: [ask fp; sep; ask $"name"; ask $"extension"])) by reflexivity.
      replace (print (lead ++ keys kts ++ [ask fp; sep; ask $"name"; ask $"extension"])) with
        (print (lead ++ slot (partition_key_spec kts) ++ [ask fp; sep; ask $"name"; ask $"extension"])).
      - apply resolve_slot; unfold lead; names. apply (ends_app [ask fp; sep; ask $"name"]), ends_hole.
      - rewrite !print_app. f_equal. f_equal. symmetry. apply print_keys, Hp.
    Qed.
    Lemma format_seen : ~ In $"extension" (map fst kts) ->
      resolve_field other (print (lead ++ keys kts ++ [ask fp; sep; ask $"name"; ask $"extension"])) [($"extension", ext)] =
      Ok (print (lead ++ keys kts ++ [ask fp; sep; ask $"name"; TLit ext])).
    Proof.
      intro N. assert (E : forall x, lead ++ keys kts ++ [ask fp; sep; ask $"name"; x] = (lead ++ keys kts ++ [ask fp; sep; ask $"name"]) ++ [x])
        by (intro; now rewrite <- !app_assoc).
      rewrite !E. apply resolve_last; unfold lead; names; try (apply keys_ok; exact Hp).
      apply (ends_app [ask fp; sep]), ends_hole.
    Qed.
    Lemma unplaced_text : print (lead ++ keys kts ++ [ask fp; sep; ask $"name"; TLit ext]) = unplaced root kts ext.
    Proof.
      assert (L : print lead = root ++ $"{graph_name}/{path_tags}/{names}/") by reflexivity.
      assert (Z : print [ask fp; sep; ask $"name"; TLit ext] = $"{input_fingerprint}/{name}" ++ ext)
        by (rewrite <- (app_nil_r ext) at 2; reflexivity).
      rewrite !print_app, print_keys, L, Z by apply Hp. unfold unplaced. rewrite <- !app_assoc. do 2 f_equal. f_equal.
      destruct kts as [|nc k] eqn:Ek; [reflexivity|]. rewrite <- Ek.
      destruct (partition_key_spec kts) eqn:Q; [|reflexivity].
      exfalso. apply (layout_nonempty kts); [rewrite Ek; apply Hp|rewrite Ek; discriminate|exact Q].
    Qed.

    Lemma stored : forall name s_fields', ~ In $"extension" (map fst kts) ->
      (forall nv, In nv s_fields' -> snd nv = None) ->
      exists s1, visit_type other {| s_fields := (name, Some (root ++ default_template)) :: s_fields'; s_key_types := None |} kts = Ok s1 /\
      visit_format other s1 ext = Ok {| s_fields := (name, Some (unplaced root kts ext)) :: s_fields'; s_key_types := Some kts |}.
    Proof.
      intros name fs N A.
      assert (K : forall values, mapM (fun nv : str * option str => match snd nv with
                       | Some t => rmap (fun t' => (fst nv, Some t')) (resolve_field other t values)
                       | None => Ok nv
                       end) fs = Ok fs).
      { intro values. induction fs as [|[n v] fs IH]; [reflexivity|]. pose proof (A (n, v) (or_introl eq_refl)) as Q. cbn [snd] in Q. subst v. cbn [mapM snd bind].
        rewrite IH; [reflexivity|]. intros x I. apply A. now right. }
      eexists. unfold visit_type, visit_format, resolve. cbn [s_fields s_key_types mapM snd fst]. rewrite type_seen. cbn [rmap bind].
      rewrite K. cbn [bind rmap]. split; [reflexivity|]. cbn [s_fields s_key_types mapM snd fst]. rewrite (format_seen N). cbn [rmap bind].
      rewrite K. cbn [bind rmap]. now rewrite unplaced_text.
    Qed.
  End Template.

  Context {N M : Type}.
  Variable depth : nat.
  Notation construct := (@construct_artifact N M other depth).
  Notation visits := (visited (python_format_visit depth) (visit_artifact_type other) (visit_format other)).

  Lemma json_visit : forall f t, PyTypes_Spec.levels t <= depth ->
    (hintable t /\ python_format_visit depth f t = Ok f) \/ (~ hintable t /\ python_format_visit depth f t = Err NotImplementedError).
  Proof.
    intros f t L. unfold python_format_visit. destruct (hints_exist depth t L) as [[H [h ->]]|[H ->]]; cbn [rmap]; auto.
  Qed.
  Lemma python_visited : forall root ext t kts name fs, avoids $"{}" root -> PyTypes_Spec.levels t <= depth -> hintable t ->
    keyed t kts -> plain_names kts -> ~ In $"extension" (map fst kts) -> (forall nv, In nv fs -> snd nv = None) ->
    visits t ext ext {| s_fields := (name, Some (root ++ default_template)) :: fs; s_key_types := None |}
      {| s_fields := (name, Some (unplaced root kts ext)) :: fs; s_key_types := Some kts |}.
  Proof.
    intros root ext t kts name fs Hr L H K P NE A. split.
    - destruct (json_visit ext t L) as [[_ V]|[H' _]]; [exact V|contradiction].
    - destruct (stored root ext kts Hr P name fs NE A) as (s1 & V1 & V2). exists s1. split; [|exact V2].
      unfold visit_artifact_type. rewrite (key_types_keyed t kts K). exact V1.
  Qed.

  Theorem no_hint : forall bodies k dt df t f, PyTypes_Spec.levels t <= depth -> ~ hintable t ->
    counts b_type (open None) bodies dt -> supplied dt (k_type k) t ->
    counts b_format (open (Some json_format)) bodies df -> supplied df (k_format k) f ->
    construct bodies k = Err NotImplementedError.
  Proof.
    intros bodies k dt df t f L H Ct St Cf Sf. eapply format_raises; try eassumption.
    - destruct (json_visit f t L) as [[H' _]|[_ V]]; [contradiction|exact V].
    - intro R. inversion R.
  Qed.
  Theorem no_keys : forall bodies k dt df ds t f s, PyTypes_Spec.levels t <= depth -> hintable t -> unkeyable t ->
    counts b_type (open None) bodies dt -> supplied dt (k_type k) t ->
    counts b_format (open (Some json_format)) bodies df -> supplied df (k_format k) f ->
    counts b_storage (open (Some string_literal)) bodies ds -> supplied ds (k_storage k) s ->
    construct bodies k = Err KeyError.
  Proof.
    intros bodies k dt df ds t f s L H U Ct St Cf Sf Cs Ss. eapply storage_raises; try eassumption.
    - destruct (json_visit f t L) as [[_ V]|[H' _]]; [exact V|contradiction].
    - left. unfold visit_artifact_type. now rewrite (key_types_unkeyable t U).
    - intro R. inversion R.
  Qed.

  Lemma no_items : forall (X : Type), gathered (X := X) (open (Some [])) NoItems [].
  Proof. intro X. split; [intros x []|]. exists []. split; [now left|]. right. auto. Qed.
  Theorem default_artifact : forall t kts, PyTypes_Spec.levels t <= depth -> hintable t -> keyed t kts -> plain_names kts ->
    ~ In $"extension" (map fst kts) ->
    construct [] (only_type t) =
    Ok {| i_type := t; i_format := $".json";
          i_storage := {| s_fields := [($"id", Some (unplaced [] kts $".json")); ($"value", None)]; s_key_types := Some kts |};
          i_annotations := []; i_statistics := [] |}.
  Proof.
    intros t kts L H K P NE. apply created. split; [reflexivity|]. split.
    { exists (open None). split; [right; split; [reflexivity|intros b []]|]. split; [now left|reflexivity]. }
    split.
    { exists (open (Some json_format)), (open (Some string_literal)), json_format, string_literal.
      split; [right; split; [reflexivity|intros b []]|]. split; [split; [now right|reflexivity]|].
      split; [right; split; [reflexivity|intros b []]|]. split; [split; [now right|reflexivity]|].
      apply (python_visited [] $".json" t kts $"id" [($"value", None)]); auto; try (repeat constructor; cbn; intuition discriminate).
      intros nv [<-|[]]. reflexivity. }
    split; (exists (open (Some [])); split; [right; split; [reflexivity|intros b []]|apply no_items]).
  Qed.
  Theorem local_artifact : forall root ext t kts, avoids $"{}" root -> PyTypes_Spec.levels t <= depth -> hintable t ->
    keyed t kts -> plain_names kts -> ~ In $"extension" (map fst kts) ->
    construct [] (in_local_file t ext root) =
    Ok {| i_type := t; i_format := ext; i_storage := local_file (unplaced (root ++ $"/") kts ext) kts;
          i_annotations := []; i_statistics := [] |}.
  Proof.
    intros root ext t kts Hr L H K P NE. apply created. split; [reflexivity|]. split.
    { exists (open None). split; [right; split; [reflexivity|intros b []]|]. split; [now left|reflexivity]. }
    split.
    { exists (open (Some json_format)), (open (Some string_literal)), ext, (rooted_at root).
      split; [right; split; [reflexivity|intros b []]|]. split; [split; [now left|reflexivity]|].
      split; [right; split; [reflexivity|intros b []]|]. split; [split; [now left|reflexivity]|].
      unfold rooted_at. rewrite app_assoc.
      apply (python_visited (root ++ $"/") ext t kts $"path" []); auto; [|intros nv []].
      apply avoids_app. split; [exact Hr|]. repeat constructor; cbn; intuition discriminate. }
    split; (exists (open (Some [])); split; [right; split; [reflexivity|intros b []]|apply no_items]).
  Qed.
End Python.
