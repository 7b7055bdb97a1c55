From Coq Require Import ZArith List Ascii String Bool Arith Lia Permutation.
From Verif Require Import Base Base_Proofs Str Str_Proofs Graph_Model Graph_Spec.
Import ListNotations.
Open Scope list_scope.

(** * Equality *)
Definition on_output (Q : producer -> Prop) (o : option (producer * nat)) : Prop :=
  match o with Some pi => Q (fst pi) | None => True end.
Section NodeInd.
  Variable P : artifact -> Prop.
  Variable Q : producer -> Prop.
  Hypothesis HA : forall s t o, on_output Q o -> P (Artifact s t o).
  Hypothesis HP : forall c v ins, Forall (fun na => P (snd na)) ins -> Q (Producer c v ins).
  Fixpoint artifact_ind' (a : artifact) : P a :=
    match a with
    | Artifact s t o => HA s t o (match o return on_output Q o with
                                  | Some pi => match pi return Q (fst pi) with (p, _) => producer_ind' p end
                                  | None => I end)
    end
  with producer_ind' (p : producer) : Q p :=
    match p with
    | Producer c v ins => HP c v ins ((fix go l := match l return Forall (fun na => P (snd na)) l with
                                                   | [] => Forall_nil _
                                                   | x :: l' => Forall_cons x (artifact_ind' (snd x)) (go l') end) ins)
    end.
  Lemma both_ind : (forall a, P a) /\ (forall p, Q p).
  Proof. exact (conj artifact_ind' producer_ind'). Qed.
End NodeInd.

Lemma option_eqb_spec : forall A (eqb : A -> A -> bool), (forall a b, eqb a b = true <-> a = b) ->
  forall x y, option_eqb eqb x y = true <-> x = y.
Proof.
  intros A eqb H [a|] [b|]; cbn; try (split; congruence). rewrite H. split; congruence.
Qed.
Lemma storage_eqb_spec : forall x y, storage_eqb x y = true <-> x = y.
Proof.
  intros [i k p t] [i' k' p' t']. unfold storage_eqb. cbn.
  rewrite !andb_true_iff, str_eqb_spec, !eqb_true_iff.
  assert (K : skind_eqb k k' = true <-> k = k').
  { destruct k as [|v], k' as [|w]; cbn; try (split; congruence).
    rewrite (option_eqb_spec _ _ str_eqb_spec). split; congruence. }
  rewrite K. split; [intros [[[-> ->] ->] ->]; reflexivity|]. intro E. injection E. auto.
Qed.
Lemma node_eqb_both : (forall a b, artifact_eqb a b = true <-> a = b) /\ (forall p q, producer_eqb p q = true <-> p = q).
Proof.
  apply both_ind.
  - intros s t o IH [s' t' o']. cbn [artifact_eqb]. rewrite !andb_true_iff, str_eqb_spec, storage_eqb_spec.
    destruct o as [[p i]|], o' as [[q j]|].
    + cbn in IH. rewrite andb_true_iff, IH, Nat.eqb_eq. split; [intros [[-> ->] [-> ->]]; reflexivity|]. intro E; injection E; auto.
    + split; [intros [_ E]; discriminate|discriminate].
    + split; [intros [_ E]; discriminate|discriminate].
    + split; [intros [[-> ->] _]; reflexivity|]. intro E; injection E; auto.
  - intros c v ins IH [c' v' ins']. cbn [producer_eqb]. rewrite !andb_true_iff, str_eqb_spec, Z.eqb_eq.
    match goal with |- (_ /\ ?G) <-> _ => assert (K : G <-> ins = ins') end.
    { revert ins'. induction IH as [|[n x] l Hx _ IHl]; intros [|[n' y] m]; try (split; [discriminate|discriminate]).
      - split; reflexivity.
      - rewrite !andb_true_iff, str_eqb_spec, IHl. cbn [snd] in Hx. rewrite Hx.
        split; [intros [[-> ->] ->]; reflexivity|]. intro E; injection E; auto. }
    rewrite K. split; [intros [[-> ->] ->]; reflexivity|]. intro E; injection E; auto.
Qed.
Lemma artifact_eqb_spec : forall a b, artifact_eqb a b = true <-> a = b.
Proof. apply node_eqb_both. Qed.
Lemma producer_eqb_spec : forall p q, producer_eqb p q = true <-> p = q.
Proof. apply node_eqb_both. Qed.
Lemma node_eqb_spec : forall x y, node_eqb x y = true <-> x = y.
Proof.
  intros [a|p] [b|q]; cbn; try (split; congruence).
  - rewrite artifact_eqb_spec. split; congruence.
  - rewrite producer_eqb_spec. split; congruence.
Qed.

(** * Sets *)
Section Sets.
  Context {A : Type} (eqb : A -> A -> bool) (eqb_spec : forall a b, eqb a b = true <-> a = b).
  Lemma existsb_In : forall x l, existsb (eqb x) l = true <-> In x l.
  Proof.
    intros x l. rewrite existsb_exists. split; [intros (y & I & E); apply eqb_spec in E; now subst|].
    intro I. exists x. split; [exact I|now apply eqb_spec].
  Qed.
  Lemma existsb_not_In : forall x l, existsb (eqb x) l = false <-> ~ In x l.
  Proof. intros x l. rewrite <- existsb_In. destruct (existsb _ _); split; congruence. Qed.
  Lemma set_of_fold : forall l s, NoDup s ->
    NoDup (fold_left (fun s x => if existsb (eqb x) s then s else s ++ [x]) l s) /\
    (forall x, In x (fold_left (fun s x => if existsb (eqb x) s then s else s ++ [x]) l s) <-> In x s \/ In x l).
  Proof.
    induction l as [|x l IH]; intros s N; cbn [fold_left]; [split; [exact N|cbn; tauto]|].
    destruct (existsb (eqb x) s) eqn:E.
    - destruct (IH s N) as [N' I]. split; [exact N'|]. intro y. rewrite I. apply existsb_In in E. cbn. intuition congruence.
    - apply existsb_not_In in E. destruct (IH (s ++ [x])) as [N' I]; [now apply NoDup_snoc|].
      split; [exact N'|]. intro y. rewrite I, in_app_iff. cbn. tauto.
  Qed.
  Lemma set_of_NoDup : forall l, NoDup (set_of eqb l).
  Proof. intro l. apply (set_of_fold l []). constructor. Qed.
  Lemma set_of_In : forall l x, In x (set_of eqb l) <-> In x l.
  Proof. intros l x. destruct (set_of_fold l [] (NoDup_nil _)) as [_ I]. unfold set_of. rewrite I. cbn. tauto. Qed.
End Sets.

Lemma mem_In : forall n l, mem n l = true <-> In n l.
Proof. apply (existsb_In node_eqb node_eqb_spec). Qed.

(** * Static order *)
Section Order.
  Variable deps : list (node * list node).
  Notation ready out := (fun n => forallb (fun p => mem p out) (predecessors deps n)).

  Lemma all_nodes_vertex : forall x, In x (all_nodes deps) <-> vertex deps x.
  Proof.
    intro x. unfold all_nodes, vertex. rewrite (set_of_In _ node_eqb_spec), in_flat_map. split.
    - intros ([n ps] & I & [E|E]); exists n, ps; cbn in *; auto.
    - intros (n & ps & I & E). exists (n, ps). cbn. intuition.
  Qed.
  Lemma depends_vertices : forall x y, depends deps x y -> vertex deps x /\ vertex deps y.
  Proof.
    intros x y D. unfold depends, predecessors in D. destruct (dget node_eqb deps x) as [l|] eqn:E; [|destruct D].
    apply (dget_In _ node_eqb_spec) in E. split; exists x, l; auto.
  Qed.

  Definition closed_prefix (out : list node) : Prop :=
    forall l1 x l2, out = l1 ++ x :: l2 -> forall y, depends deps x y -> In y l1.

  Lemma ready_spec : forall out n, ready out n = true <-> forall y, depends deps n y -> In y out.
  Proof.
    intros out n. rewrite forallb_forall. unfold depends. split; intros H y I; apply mem_In, H, I.
  Qed.

  Lemma hand_out_ok : forall fuel rest out l, hand_out fuel deps rest out = Ok l ->
    closed_prefix out -> closed_prefix l /\ Permutation l (out ++ rest).
  Proof.
    induction fuel as [|fuel IH]; intros rest out l H C.
    - destruct rest; [|discriminate]. cbn in H. injection H as <-. rewrite app_nil_r. split; auto.
    - destruct rest as [|r rest]; [cbn in H; injection H as <-; rewrite app_nil_r; split; auto|].
      remember (r :: rest) as rs eqn:R. cbn [hand_out] in H. rewrite R in H. rewrite <- R in H.
      destruct (filter (ready out) rs) as [|g gs] eqn:G; [discriminate|].
      apply IH in H.
      + destruct H as [Cl Pl]. split; [exact Cl|]. rewrite Pl, <- app_assoc. apply Permutation_app_head.
        rewrite <- G. clear. induction rs as [|x rs IHr]; cbn [filter]; [constructor|].
        destruct (ready out x); cbn [negb app]; [now constructor|].
        etransitivity; [symmetry; apply Permutation_middle|]. now constructor.
      + intros l1 x l2 E y D.
        assert (K : (exists m, l2 = m ++ (g :: gs) /\ out = l1 ++ x :: m) \/
                    (exists m, l1 = out ++ m /\ g :: gs = m ++ x :: l2)).
        { clear - E. revert l1 E. induction out as [|o out IHo]; intros l1 E.
          - right. exists l1. now split.
          - destruct l1 as [|a l1]; cbn in E; injection E as -> E.
            + left. exists out. now split.
            + destruct (IHo l1 E) as [(m & -> & ->)|(m & -> & E')]; [left|right]; exists m; now split. }
        destruct K as [(m & -> & ->)|(m & -> & Eg)].
        * eapply C; [reflexivity|exact D].
        * apply in_app_iff. left. assert (I : In x (filter (ready out) rs)) by (rewrite G, Eg; apply in_app_iff; right; now left).
          apply filter_In in I. destruct I as [_ I]. now apply (proj1 (ready_spec out x) I).
  Qed.

  Lemma filter_partition_length : forall {A} (f : A -> bool) l, List.length (filter f l) + List.length (filter (fun x => negb (f x)) l) = List.length l.
  Proof. intros A f l. induction l as [|x l IH]; [reflexivity|]. cbn [filter]. destruct (f x); cbn; lia. Qed.

  (** When it gives up, every remaining node waits for another remaining one. *)
  Lemma hand_out_err : forall fuel rest out e, hand_out fuel deps rest out = Err e ->
    List.length rest <= fuel -> (forall x, In x rest -> forall y, depends deps x y -> In y (out ++ rest)) ->
    e = CycleError /\ exists stuck, stuck <> [] /\ forall x, In x stuck -> exists y, In y stuck /\ depends deps x y.
  Proof.
    induction fuel as [|fuel IH]; intros rest out e H L K.
    - destruct rest; [discriminate|]. cbn in L. lia.
    - destruct rest as [|r rest]; [discriminate|].
      remember (r :: rest) as rs eqn:R. cbn [hand_out] in H. rewrite R in H. rewrite <- R in H.
      destruct (filter (ready out) rs) as [|g gs] eqn:G.
      + injection H as <-. split; [reflexivity|]. exists rs. split; [subst; discriminate|].
        intros x I. assert (N : ready out x = false).
        { destruct (ready out x) eqn:E; [|reflexivity]. assert (F : In x (filter (ready out) rs)) by (apply filter_In; now split).
          rewrite G in F. destruct F. }
        apply not_true_iff_false in N.
        assert (exists y, In y (predecessors deps x) /\ mem y out = false) as (y & D & M).
        { destruct (forallb (fun p => mem p out) (predecessors deps x)) eqn:E; [contradiction|]. clear - E.
          induction (predecessors deps x) as [|p l IHl]; [discriminate|]. cbn in E. destruct (mem p out) eqn:M.
          - destruct (IHl E) as (y & I & Y). exists y. split; [now right|exact Y].
          - exists p. split; [now left|exact M]. }
        exists y. split; [|exact D]. specialize (K x I y D). apply in_app_iff in K. destruct K as [K|K]; [|exact K].
        apply mem_In in K. congruence.
      + assert (PL := filter_partition_length (ready out) rs). rewrite G in PL. cbn [List.length] in PL.
        apply IH in H; [exact H| |].
        * lia.
        * intros x I y D. apply filter_In in I. destruct I as [I _]. specialize (K x I y D).
          rewrite <- app_assoc. apply in_app_iff in K. apply in_app_iff. destruct K as [K|K]; [now left|right].
          rewrite <- G. apply in_app_iff. destruct (ready out y) eqn:E; [left|right]; apply filter_In; rewrite ?E; now split.
  Qed.

  Lemma not_NoDup : forall {A} (dec : forall x y : A, {x = y} + {x <> y}) (l : list A), ~ NoDup l ->
    exists a l1 l2 l3, l = l1 ++ a :: l2 ++ a :: l3.
  Proof.
    intros A dec. induction l as [|x l IH]; intro N; [destruct N; constructor|].
    destruct (in_dec dec x l) as [I|I].
    - apply in_split in I. destruct I as (l2 & l3 & ->). now exists x, [], l2, l3.
    - destruct IH as (a & l1 & l2 & l3 & ->); [intro K; apply N; now constructor|]. now exists a, (x :: l1), l2, l3.
  Qed.
  Fixpoint linked (l : list node) : Prop :=
    match l with x :: ((y :: _) as l') => depends deps x y /\ linked l' | _ => True end.
  Lemma linked_app : forall l1 l2, linked (l1 ++ l2) -> linked l2.
  Proof.
    induction l1 as [|x l1 IH]; intros l2 H; [exact H|]. apply IH. cbn [app] in H.
    destruct (l1 ++ l2); [exact I|apply H].
  Qed.
  Lemma linked_path : forall l a b m, linked (a :: l ++ b :: m) -> path (depends deps) a b.
  Proof.
    induction l as [|c l IH]; intros a b m H; cbn [app linked] in H; destruct H as [D H].
    - now apply path_step.
    - apply path_more with c; [exact D|]. now apply (IH c b m).
  Qed.

  Lemma stuck_cycle : forall stuck, stuck <> [] ->
    (forall x, In x stuck -> exists y, In y stuck /\ depends deps x y) -> cyclic (depends deps).
  Proof.
    intros stuck N W.
    assert (Chain : forall n x, In x stuck -> exists l, List.length l = n /\ (forall y, In y l -> In y stuck) /\
              linked (x :: l)).
    { induction n as [|n IH]; intros x I.
      - exists []. split; [reflexivity|]. split; [intros y []|exact Logic.I].
      - destruct (W x I) as (y & Iy & D). destruct (IH y Iy) as (l & L & S & C).
        exists (y :: l). split; [cbn; lia|]. split; [intros z [ <- |Iz]; auto|]. split; assumption. }
    destruct stuck as [|s rest]; [contradiction|].
    destruct (Chain (List.length (s :: rest)) s (or_introl eq_refl)) as (l & L & S & C).
    assert (ND : ~ NoDup (s :: l)).
    { intro ND. apply NoDup_incl_length with (l' := s :: rest) in ND; [cbn in *; lia|].
      intros y [ <- |I]; [now left|now apply S]. }
    assert (Dec : forall x y : node, {x = y} + {x <> y}) by exact (key_dec _ node_eqb_spec).
    apply (not_NoDup Dec) in ND.
    destruct ND as (a & l1 & l2 & l3 & E). exists a. rewrite E in C. apply linked_app in C.
    now apply (linked_path l2 a a l3).
  Qed.

  Lemma closed_before : forall l, closed_prefix l -> forall x y, In x l -> depends deps x y -> before l y x.
  Proof.
    intros l C x y I D. apply in_split in I. destruct I as (l1 & l2 & ->).
    assert (Iy : In y l1) by (eapply C; [reflexivity|exact D]). apply in_split in Iy. destruct Iy as (m1 & m2 & ->).
    exists m1, m2, l2. now rewrite <- app_assoc.
  Qed.

  Theorem static_order_ok : forall l, static_order deps = Ok l -> build_order deps l.
  Proof.
    intros l H. apply hand_out_ok in H.
    - destruct H as [C P]. cbn [app] in P. split; [|split].
      + eapply Permutation_NoDup; [symmetry; exact P|]. apply (set_of_NoDup _ node_eqb_spec).
      + intro x. rewrite <- all_nodes_vertex. split; intro I; [now rewrite <- P|now rewrite P].
      + intros x y D. apply closed_before; auto. apply (Permutation_in x (Permutation_sym P)), all_nodes_vertex.
        now apply (depends_vertices x y).
    - intros [|? ?] x l2 E; discriminate.
  Qed.
  Theorem static_order_err : forall e, static_order deps = Err e -> e = CycleError /\ cyclic (depends deps).
  Proof.
    intros e H. apply hand_out_err in H; [|reflexivity|].
    - destruct H as (-> & stuck & N & W). split; [reflexivity|]. now apply (stuck_cycle stuck).
    - intros x _ y D. cbn [app]. apply all_nodes_vertex. now apply (depends_vertices x y).
  Qed.
  Lemma NoDup_split_unique : forall {A} (l1 l2 m1 m2 : list A) x, NoDup (l1 ++ x :: l2) ->
    l1 ++ x :: l2 = m1 ++ x :: m2 -> l1 = m1.
  Proof.
    induction l1 as [|a l1 IH]; intros l2 [|b m1] m2 x N E; cbn in *; auto.
    - injection E as <- E. subst. inversion N; subst. exfalso. apply H1. apply in_app_iff. right. now left.
    - injection E as -> E. inversion N; subst. exfalso. apply H1. apply in_app_iff. right. now left.
    - injection E as -> E. f_equal. inversion N; subst. eapply IH; eassumption.
  Qed.
  Lemma before_trans : forall {A} (l : list A) x y z, NoDup l -> before l x y -> before l y z -> before l x z.
  Proof.
    intros A l x y z N (a & b & c & E) (d & e & f & E').
    assert (K : a ++ x :: b = d).
    { assert (E1 : l = (a ++ x :: b) ++ y :: c) by (rewrite <- app_assoc; exact E). rewrite E1 in N, E'.
      eapply NoDup_split_unique; [exact N|exact E']. }
    subst d. exists a, (b ++ y :: e), f. rewrite E'. now repeat (rewrite <- app_assoc; cbn).
  Qed.
  Lemma before_irrefl : forall {A} (l : list A) x, NoDup l -> ~ before l x x.
  Proof.
    intros A l x N (a & b & c & ->). apply NoDup_remove_2 in N. apply N. apply in_app_iff. right.
    apply in_app_iff. right. now left.
  Qed.
  Theorem ordered_acyclic : forall l, build_order deps l -> ~ cyclic (depends deps).
  Proof.
    intros l (N & _ & B) (x & P). assert (K : forall a b, path (depends deps) a b -> before l b a).
    { clear x P. induction 1 as [a b D|a b c D P IH]; [now apply B|]. eapply before_trans; [exact N|exact IH|now apply B]. }
    now apply (before_irrefl l x N), K.
  Qed.
  Theorem static_order_iff : (exists l, static_order deps = Ok l) <-> ~ cyclic (depends deps).
  Proof.
    split.
    - intros (l & H). now apply (ordered_acyclic l), static_order_ok.
    - intro N. destruct (static_order deps) as [l|e] eqn:E; [now exists l|]. apply static_order_err in E. tauto.
  Qed.
End Order.

(** * Dependencies *)
Section Dict.
  Context {K V : Type} (eqb : K -> K -> bool) (eqb_spec : forall a b, eqb a b = true <-> a = b).
  (** When equal keys come with equal values, [dict] keeps exactly the pairs. *)
  Lemma dupdate_consistent : forall (l d : list (K * V)),
    (forall k v v', In (k, v) (d ++ l) -> In (k, v') (d ++ l) -> v = v') -> NoDup (map fst d) ->
    forall k v, In (k, v) (dupdate eqb d l) <-> In (k, v) (d ++ l).
  Proof.
    intros l d C N k v.
    assert (N' := dupdate_NoDup eqb eqb_spec l d N).
    rewrite <- (dget_NoDup eqb eqb_spec _ k v N'). rewrite (dget_dupdate eqb eqb_spec).
    assert (G : forall m, (forall a b b', In (a, b) m -> In (a, b') m -> b = b') -> dget eqb m k = Some v <-> In (k, v) m).
    { intros m Cm. split; [apply (dget_In _ eqb_spec)|]. intro I. destruct (dget eqb m k) as [w|] eqn:E.
      - apply (dget_In _ eqb_spec) in E. f_equal. eapply Cm; eassumption.
      - apply (dget_None _ eqb_spec) in E. destruct E. apply (in_map fst) in I. exact I. }
    rewrite in_app_iff. destruct (dget eqb (rev l) k) as [w|] eqn:E.
    - apply (dget_In _ eqb_spec), in_rev in E. split.
      + intro H. injection H as ->. now right.
      + intro H. f_equal. apply (C k); apply in_app_iff; tauto.
    - apply (dget_None _ eqb_spec) in E. rewrite G.
      + split; [tauto|]. intros [H|H]; [exact H|]. destruct E. apply in_rev, (in_map fst) in H. rewrite map_rev, <- in_rev in *. exact H.
      + intros a b b' H H'. apply (C a); apply in_app_iff; tauto.
  Qed.
End Dict.

Lemma artifact_deps_In : forall g n ps, In (n, ps) (artifact_deps g) <->
  exists k a, In (k, a) g /\ n = NArtifact a /\ ps = match a_output a with Some (p, _) => [NProducer p] | None => [] end.
Proof.
  intros g n ps. unfold artifact_deps, dict_of.
  rewrite (dupdate_consistent _ node_eqb_spec); [|intros x v v'; cbn [app]; rewrite !in_map_iff|constructor].
  - cbn [app]. rewrite in_map_iff. split.
    + intros ([k a] & E & I). injection E as <- <-. now exists k, a.
    + intros (k & a & I & -> & ->). now exists (k, a).
  - intros ([k a] & E & _) ([k' a'] & E' & _). cbn [snd] in *. injection E as <- <-. injection E' as E' <-. now subst.
Qed.
Lemma producer_deps_In : forall g n ps, In (n, ps) (producer_deps g) <->
  exists k a p i, In (k, a) g /\ a_output a = Some (p, i) /\ n = NProducer p /\
    ps = set_of node_eqb (map (fun na => NArtifact (snd na)) (p_inputs p)).
Proof.
  intros g n ps. unfold producer_deps, dict_of.
  assert (K : forall n ps, In (n, ps) (flat_map (fun ka : str * artifact => match a_output (snd ka) with
      | Some (p, _) => [(NProducer p, set_of node_eqb (map (fun na => NArtifact (snd na)) (p_inputs p)))]
      | None => [] end) g) <-> exists k a p i, In (k, a) g /\ a_output a = Some (p, i) /\ n = NProducer p /\
    ps = set_of node_eqb (map (fun na => NArtifact (snd na)) (p_inputs p))).
  { intros m qs. rewrite in_flat_map. split.
    - intros ([k a] & I & E). cbn [snd] in E. destruct (a_output a) as [[p i]|] eqn:O; [|destruct E].
      destruct E as [E|[]]. injection E as <- <-. now exists k, a, p, i.
    - intros (k & a & p & i & I & O & -> & ->). exists (k, a). split; [exact I|]. cbn [snd]. rewrite O. now left. }
  rewrite (dupdate_consistent _ node_eqb_spec); [exact (K n ps)| |constructor].
  intros x v v'. cbn [app]. rewrite !K. intros (k & a & p & i & _ & _ & -> & ->) (k' & a' & p' & i' & _ & _ & E & ->).
  injection E as <-. reflexivity.
Qed.
Lemma dependencies_NoDup : forall g, NoDup (map fst (dependencies g)).
Proof. intro g. apply (dupdate_NoDup _ node_eqb_spec), (dict_of_NoDup _ node_eqb_spec). Qed.
Lemma dependencies_In : forall g n ps, In (n, ps) (dependencies g) <->
  In (n, ps) (artifact_deps g) \/ In (n, ps) (producer_deps g).
Proof.
  intros g n ps. unfold dependencies. rewrite (dupdate_consistent _ node_eqb_spec); [apply in_app_iff| |].
  - intros x v v' I I'. apply in_app_iff in I, I'. rewrite artifact_deps_In, producer_deps_In in *.
    destruct I as [(k & a & _ & -> & ->)|(k & a & p & i & _ & _ & -> & ->)], I' as [(k' & a' & _ & E & ->)|(k' & a' & p' & i' & _ & _ & E & ->)];
      try discriminate; injection E as <-; reflexivity.
  - apply (dict_of_NoDup _ node_eqb_spec).
Qed.
Theorem dependencies_defines : forall g n, In n (map fst (dependencies g)) <-> defines g n.
Proof.
  intros g n. rewrite in_map_iff. split.
  - intros ([m ps] & E & I). cbn in E. subst. apply dependencies_In in I. rewrite artifact_deps_In, producer_deps_In in I.
    destruct I as [(k & a & I & -> & _)|(k & a & p & i & I & O & -> & _)]; [eapply defines_artifact|eapply defines_producer]; eassumption.
  - intro D. destruct D as [k a I|k a p i I O].
    + eexists (_, _). cbn. split; [reflexivity|]. apply dependencies_In. left. apply artifact_deps_In. exists k, a. eauto.
    + eexists (_, _). cbn. split; [reflexivity|]. apply dependencies_In. right. apply producer_deps_In. exists k, a, p, i. eauto.
Qed.
Theorem dependencies_needs : forall g x y, depends (dependencies g) x y <-> needs g x y.
Proof.
  intros g x y. unfold depends, predecessors. split.
  - destruct (dget node_eqb (dependencies g) x) as [ps|] eqn:E; [|intros []]. intro I.
    apply (dget_In _ node_eqb_spec), dependencies_In in E. rewrite artifact_deps_In, producer_deps_In in E.
    destruct E as [(k & a & J & -> & ->)|(k & a & p & i & J & O & -> & ->)].
    + destruct (a_output a) as [[p i]|] eqn:O; [|destruct I]. destruct I as [ <- |[]]. eapply needs_producer; eassumption.
    + apply (set_of_In _ node_eqb_spec), in_map_iff in I. destruct I as ([n b] & <- & I). eapply needs_input; eassumption.
  - intro N. assert (exists ps, In (x, ps) (dependencies g) /\ In y ps) as (ps & I & Iy).
    { destruct N as [k a p i I O|k a p i n b I O J].
      - exists [NProducer p]. split; [|now left]. apply dependencies_In. left. apply artifact_deps_In. exists k, a. now rewrite O.
      - eexists. split; [apply dependencies_In; right; apply producer_deps_In; exists k, a, p, i; eauto|].
        apply (set_of_In _ node_eqb_spec), in_map_iff. now exists (n, b). }
    apply (dget_NoDup _ node_eqb_spec _ _ _ (dependencies_NoDup g)) in I. now rewrite I.
Qed.

(** * No cycles *)
Fixpoint size_artifact (a : artifact) : nat :=
  match a with Artifact _ _ (Some (p, _)) => S (size_producer p) | Artifact _ _ None => 0 end
with size_producer (p : producer) : nat :=
  match p with
  | Producer _ _ ins => S ((fix go l := match l with [] => 0 | (_, a) :: l' => size_artifact a + go l' end) ins)
  end.
Definition size (n : node) : nat := match n with NArtifact a => size_artifact a | NProducer p => size_producer p end.
Lemma needs_smaller : forall g x y, needs g x y -> size y < size x.
Proof.
  intros g x y N. destruct N as [k a p i _ O|k a p i n b _ _ I].
  - destruct a as [s t o]. cbn in O. subst o. cbn. lia.
  - destruct p as [c v ins]. cbn [p_inputs] in I. cbn [size size_producer]. induction ins as [|[m x] l IH]; [destruct I|].
    destruct I as [E|I]; [injection E as -> ->; lia|]. specialize (IH I). lia.
Qed.
Theorem dependencies_acyclic : forall g, ~ cyclic (depends (dependencies g)).
Proof.
  intros g (x & P). assert (K : forall a b, path (depends (dependencies g)) a b -> size b < size a).
  { clear. induction 1 as [a b D|a b c D P IH]; apply dependencies_needs, needs_smaller in D; lia. }
  apply K in P. lia.
Qed.
Theorem dependencies_order : forall g, exists l, static_order (dependencies g) = Ok l /\ build_order (dependencies g) l.
Proof.
  intro g. destruct (proj2 (static_order_iff (dependencies g)) (dependencies_acyclic g)) as (l & E).
  exists l. split; [exact E|]. now apply static_order_ok.
Qed.

(** * out *)
Section Out.
  Context (n_outputs : nat) (defaults : list artifact) (compatible : nat -> artifact -> result unit).
  Notation out := (out n_outputs defaults compatible).
  Lemma validate_outputs_spec : forall p l i l', validate_outputs compatible p i l = Ok l' <->
    (forall j a, nth_error l j = Some a -> compatible (i + j) a = Ok tt /\ a_output a = None) /\
    List.length l' = List.length l /\
    (forall j a, nth_error l j = Some a -> nth_error l' j = Some (with_output a p (i + j))).
  Proof.
    intros p. induction l as [|a l IH]; intros i l'; cbn [validate_outputs].
    - split.
      + intro H. injection H as <-. split; [|split]; [intros [] ? E; discriminate|reflexivity|intros [] ? E; discriminate].
      + intros (_ & L & _). destruct l'; [reflexivity|discriminate].
    - unfold validate_output. split.
      + intro H. destruct (compatible i a) as [[]|] eqn:C; [|discriminate]. cbn [bind] in H.
        destruct (a_output a) eqn:O; [discriminate|]. cbn [bind] in H.
        destruct (validate_outputs compatible p (S i) l) as [bs|] eqn:E; [|discriminate]. cbn [bind] in H. injection H as <-.
        apply IH in E. destruct E as (E1 & E2 & E3). split; [|split].
        * intros [|j] b N; [injection N as <-; rewrite Nat.add_0_r; now split|]. cbn in N. rewrite Nat.add_succ_r. now apply (E1 j).
        * cbn. now f_equal.
        * intros [|j] b N; [injection N as <-; now rewrite Nat.add_0_r|]. cbn in N. rewrite Nat.add_succ_r. now apply (E3 j).
      + intros (H1 & H2 & H3). destruct l' as [|b bs]; [discriminate|].
        destruct (H1 0 a eq_refl) as [C O]. rewrite Nat.add_0_r in C. rewrite C, O. cbn [bind].
        specialize (H3 0 a eq_refl) as Hb. rewrite Nat.add_0_r in Hb. injection Hb as ->.
        assert (E : validate_outputs compatible p (S i) l = Ok bs).
        { apply IH. split; [|split].
          - intros j c N. specialize (H1 (S j) c N). now rewrite Nat.add_succ_r in H1.
          - now injection H2.
          - intros j c N. specialize (H3 (S j) c N). now rewrite Nat.add_succ_r in H3. }
        now rewrite E.
  Qed.
  Theorem out_spec : forall p l l', l <> [] -> (out p l = Ok l' <->
    List.length l = n_outputs /\ List.length l' = List.length l /\
    (forall i a, nth_error l i = Some a -> compatible i a = Ok tt /\ a_output a = None) /\
    (forall i s t, nth_error l i = Some (Artifact s t None) -> nth_error l' i = Some (Artifact s t (Some (p, i))))).
  Proof.
    intros p l l' N. unfold Graph_Model.out. destruct l as [|x l]; [contradiction|].
    destruct (List.length (x :: l) =? n_outputs) eqn:L.
    - apply Nat.eqb_eq in L. rewrite validate_outputs_spec. cbn [Nat.add]. split.
      + intros (H1 & H2 & H3). repeat split; auto; try (now apply (H1 i)). intros i s t E. apply (H3 i _ E).
      + intros (_ & H2 & H3 & H4). repeat split; auto; try (now apply (H3 j)). intros j a E. destruct (H3 j a E) as [_ O].
        destruct a as [s t o]. cbn in O. subst o. apply (H4 j s t E).
    - apply Nat.eqb_neq in L. split; [discriminate|]. intros [K _]. contradiction.
  Qed.
  Theorem out_defaults : forall p, out p [] = out p defaults.
  Proof. intro p. unfold Graph_Model.out. destruct defaults; reflexivity. Qed.
End Out.

(** * Histories of definitions *)
Definition machine_ok (s : context * list nat) : Prop :=
  (match ctx (fst s) with Some g => snd s = [g] | None => snd s = [] end) /\
  (forall g, status (graph (fst s) g) = GOpen <-> ctx (fst s) = Some g) /\
  (forall g, box_open (graph (fst s) g) = true <-> ctx (fst s) = Some g).

Lemma get_dependencies_status : forall o, let '(o', _) := get_dependencies o in
  status o' = status o /\ box_open o' = box_open o /\ arts o' = arts o.
Proof. intro o. unfold get_dependencies. destruct (cached o); [auto|]. destruct (status o) eqn:E; cbn; auto. Qed.

Lemma step_ok : forall s o r s', machine_ok s -> step s o r s' -> machine_ok s'.
Proof.
  intros s o r s' (M1 & M2 & M3) St. destruct St as [c pd g c' E|c pd g c' e E|c b a g c' r E|c pd g k x c' r E]; cbn [fst snd] in *.
  - unfold enter in E. destruct (ctx c) as [h|] eqn:C; [discriminate|]. injection E as <-. subst pd.
    split; [reflexivity|]. cbn [fst snd ctx graph]. unfold set_graph.
    split; intro h; destruct (h =? g) eqn:Q; cbn; (apply Nat.eqb_eq in Q || apply Nat.eqb_neq in Q).
    + subst. tauto.
    + rewrite M2. split; [discriminate|congruence].
    + subst. tauto.
    + rewrite M3. split; [discriminate|congruence].
  - unfold enter in E. destruct (ctx c) as [h|] eqn:C; [|discriminate]. injection E as <- _.
    repeat split; cbn [fst snd]; try rewrite C; auto; try apply M2; try apply M3; congruence.
  - assert (C : ctx c = Some g /\ b = [] /\ a = []).
    { destruct (ctx c) as [h|]; [|destruct b; discriminate]. destruct b as [|x [|y b]]; cbn in M1; try discriminate.
      injection M1 as -> ->. auto. }
    destruct C as (C & -> & ->). unfold exit in E.
    assert (D := get_dependencies_status (toggle (graph c g) false)).
    destruct (get_dependencies (toggle (graph c g) false)) as [o d]. injection E as <- _. destruct D as (D1 & D2 & _).
    cbn in D1, D2. split; [reflexivity|]. cbn [fst snd ctx graph]. unfold set_graph.
    split; intro h; destruct (h =? g) eqn:Q; (apply Nat.eqb_eq in Q || apply Nat.eqb_neq in Q).
    + rewrite D1. split; discriminate.
    + rewrite M2. split; congruence.
    + rewrite D2. split; discriminate.
    + rewrite M3. split; congruence.
  - unfold assign in E. destruct (box_open (graph c g)) eqn:B; cbn [negb] in E; [|injection E as <- _; repeat split; auto; try apply M2; apply M3].
    destruct (dmem str_eqb (arts (graph c g)) k); [injection E as <- _; repeat split; auto; try apply M2; apply M3|].
    injection E as <- _. split; [exact M1|]. cbn [fst snd ctx graph]. unfold set_graph.
    split; intro h; destruct (h =? g) eqn:Q; cbn [status box_open]; try apply M2; try apply M3;
      apply Nat.eqb_eq in Q; subst; [apply M2|rewrite <- M3; rewrite B; tauto].
Qed.
Lemma reachable_ok : forall s, reachable s -> machine_ok s.
Proof.
  induction 1 as [init|s o r s' R IH St]; [|eapply step_ok; eassumption].
  split; [reflexivity|]. split; intro g; cbn; split; discriminate.
Qed.

Theorem one_open : forall c pending g h, reachable (c, pending) -> open_in c g -> open_in c h -> g = h.
Proof.
  intros c pd g h R G H. apply reachable_ok in R. destruct R as (_ & M & _). cbn in M. apply M in G, H. congruence.
Qed.
Theorem assign_window : forall c pending g k a c' r, reachable (c, pending) -> assign c g k a = (c', r) ->
  match r with
  | Ok _ => open_in c g /\ ctx c = Some g /\ arts (graph c' g) = arts (graph c g) ++ [(k, a)] /\
            (forall h, h <> g -> graph c' h = graph c h)
  | Err e => e = ValueError /\ c' = c /\ (~ open_in c g \/ In k (map fst (arts (graph c g))))
  end.
Proof.
  intros c pd g k a c' r R H. apply reachable_ok in R. destruct R as (_ & M2 & M3). cbn in M2, M3.
  unfold assign in H. destruct (box_open (graph c g)) eqn:B; cbn [negb] in H.
  - apply M3 in B. destruct (dmem str_eqb (arts (graph c g)) k) eqn:D; injection H as <- <-.
    + split; [reflexivity|]. split; [reflexivity|]. right. unfold dmem in D. destruct (dget _ _ _) eqn:G; [|discriminate].
      eapply (dget_Some_key _ str_eqb_spec). exact G.
    + split; [now apply M2|]. split; [exact B|]. cbn [graph]. unfold set_graph. rewrite Nat.eqb_refl. split; [reflexivity|].
      intros h N. apply Nat.eqb_neq in N. now rewrite N.
  - injection H as <- <-. split; [reflexivity|]. split; [reflexivity|]. left. intro O. apply M2 in O. apply M3 in O. congruence.
Qed.
Theorem open_not_sealed : forall c g, open_in c g -> sealed c g = Err ValueError.
Proof. intros c g O. unfold sealed. now rewrite O. Qed.
Theorem exit_closes : forall c g c' r, exit c g = (c', r) ->
  ctx c' = None /\ sealed c' g = Ok tt /\ forall h, h <> g -> graph c' h = graph c h.
Proof.
  intros c g c' r H. unfold exit in H. assert (D := get_dependencies_status (toggle (graph c g) false)).
  destruct (get_dependencies (toggle (graph c g) false)) as [o d]. injection H as <- _. destruct D as (D1 & _).
  split; [reflexivity|]. unfold sealed. cbn [graph]. unfold set_graph. rewrite Nat.eqb_refl, D1. split; [reflexivity|].
  intros h N. apply Nat.eqb_neq in N. now rewrite N.
Qed.

(** What is kept by [cached_property]: the dependencies of the artifacts at some earlier closing. *)
Definition cache_ok (s : context * list nat) : Prop := forall g d, cached (graph (fst s) g) = Some d ->
  exists old new, arts (graph (fst s) g) = old ++ new /\ d = dependencies old.
Lemma get_dependencies_cached : forall o, match cached o with
  | Some d => get_dependencies o = (o, Ok d)
  | None => status o = GClosed -> get_dependencies o =
      (GObject (status o) (box_open o) (arts o) (keys o) (Some (dependencies (arts o))), Ok (dependencies (arts o)))
  end.
Proof. intros [st b a k [d|]]; cbn; [reflexivity|]. now intros ->. Qed.
Lemma exit_spec : forall c g, exit c g =
  let d := match cached (graph c g) with Some d => d | None => dependencies (arts (graph c g)) end in
  (Context None (set_graph c g (GObject GClosed false (arts (graph c g)) (artifact_to_key (arts (graph c g))) (Some d))),
   rmap (fun _ => tt) (static_order d)).
Proof.
  intros c g. unfold exit, get_dependencies, toggle. cbn. destruct (cached (graph c g)); reflexivity.
Qed.
Lemma step_cache : forall s o r s', cache_ok s -> step s o r s' -> cache_ok s'.
Proof.
  intros s o r s' M St g d. destruct St as [c pd h c' E|c pd h c' e E|c b a h c' r E|c pd h k x c' r E]; cbn [fst] in *.
  - unfold enter in E. destruct (ctx c); [discriminate|]. injection E as <-. cbn [graph]. unfold set_graph.
    destruct (g =? h) eqn:Q; [|exact (M g d)]. apply Nat.eqb_eq in Q. subst. exact (M h d).
  - unfold enter in E. destruct (ctx c); [|discriminate]. injection E as <- _. exact (M g d).
  - rewrite exit_spec in E. injection E as <- _. cbn [graph]. unfold set_graph. destruct (g =? h) eqn:Q; [|exact (M g d)].
    apply Nat.eqb_eq in Q. subst. cbn. intro E. injection E as <-. destruct (cached (graph c h)) eqn:C.
    + now apply M.
    + exists (arts (graph c h)), []. now rewrite app_nil_r.
  - unfold assign in E. destruct (box_open (graph c h)); cbn [negb] in E; [|injection E as <- _; exact (M g d)].
    destruct (dmem str_eqb _ k); injection E as <- _; [exact (M g d)|]. cbn [graph]. unfold set_graph.
    destruct (g =? h) eqn:Q; [|exact (M g d)]. apply Nat.eqb_eq in Q. subst. cbn. intro E.
    destruct (M h d E) as (old & new & A & D). cbn [fst] in A. exists old, (new ++ [(k, x)]). split; [rewrite A; now rewrite app_assoc|exact D].
Qed.
Lemma reachable_cache : forall s, reachable s -> cache_ok s.
Proof. induction 1 as [init|s o r s' R IH St]; [intros g d; discriminate|eapply step_cache; eassumption]. Qed.
(** Leaving a definition never raises. *)
Theorem exit_accepts : forall c pending g c' r, reachable (c, pending) -> exit c g = (c', r) -> r = Ok tt.
Proof.
  intros c pd g c' r R H. rewrite exit_spec in H. injection H as _ <-. apply reachable_cache in R.
  destruct (cached (graph c g)) as [d|] eqn:C.
  - destruct (R g d C) as (old & new & _ & ->). destruct (dependencies_order old) as (l & E & _). now rewrite E.
  - destruct (dependencies_order (arts (graph c g))) as (l & E & _). now rewrite E.
Qed.
Theorem first_closing : forall c g c' r, cached (graph c g) = None -> exit c g = (c', r) ->
  snd (get_dependencies (graph c' g)) = Ok (dependencies (arts (graph c' g))).
Proof.
  intros c g c' r C H. rewrite exit_spec, C in H. injection H as <- _. cbn [graph]. unfold set_graph.
  now rewrite Nat.eqb_refl.
Qed.
Theorem stale : forall s s' g d, steps s s' -> cached (graph (fst s) g) = Some d -> snd (get_dependencies (graph (fst s') g)) = Ok d.
Proof.
  intros s s' g d St. induction St as [s|s o r s' s'' S1 _ IH]; intro C; [unfold get_dependencies; now rewrite C|].
  assert (C' : cached (graph (fst s') g) = Some d).
  { clear IH. destruct S1 as [c pd h c' E|c pd h c' e E|c b a h c' r E|c pd h k x c' r E]; cbn [fst] in *.
    - unfold enter in E. destruct (ctx c); [discriminate|]. injection E as <-. cbn [graph]. unfold set_graph.
      destruct (g =? h) eqn:Q; [|exact C]. apply Nat.eqb_eq in Q. subst. exact C.
    - unfold enter in E. destruct (ctx c); [|discriminate]. injection E as <- _. exact C.
    - rewrite exit_spec in E. injection E as <- _. cbn [graph]. unfold set_graph. destruct (g =? h) eqn:Q; [|exact C].
      apply Nat.eqb_eq in Q. subst. cbn. now rewrite C.
    - unfold assign in E. destruct (box_open (graph c h)); cbn [negb] in E; [|injection E as <- _; exact C].
      destruct (dmem str_eqb _ k); injection E as <- _; [exact C|]. cbn [graph]. unfold set_graph.
      destruct (g =? h) eqn:Q; [|exact C]. apply Nat.eqb_eq in Q. subst. exact C. }
  now apply IH.
Qed.
