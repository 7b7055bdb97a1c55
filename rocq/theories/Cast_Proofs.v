From Coq Require Import ZArith List Ascii String Bool Lia Permutation.
From Verif Require Import Base Str Str_Proofs Base_Proofs Hints_Model TypeSystem_Model Types_Model PyTypes_Model PyTypes_Spec PyTypes_Proofs
  Cast_Model Cast_Spec.
Import ListNotations.
Open Scope list_scope.

(** * Classes *)
Lemma issub_refl : forall c, issub c c = true.
Proof. destruct c; cbn; rewrite ?pyclass_eqb_refl, ?str_eqb_refl; reflexivity. Qed.
Lemma issub_object : forall a, issub a PyObject = true.
Proof. destruct a; reflexivity. Qed.
Lemma object_only : forall c, issub PyObject c = true -> c = PyObject.
Proof. destruct c; cbn; intro H; try discriminate H; reflexivity. Qed.

Lemma issub_sub : forall a n c, issub (PySub a n) c = true <-> c = PyObject \/ c = PySub a n \/ issub a c = true.
Proof.
  intros a n c. split.
  - destruct c; cbn; auto. rewrite orb_true_iff, andb_true_iff. intros [[E1 E2]|H]; [|auto].
    apply pyclass_eqb_spec in E1. apply str_eqb_spec in E2. subst. auto.
  - intros [->|[->|H]]; [apply issub_object|apply issub_refl|].
    cbn [issub]. rewrite H, !orb_true_r. reflexivity.
Qed.

Lemma issub_trans : forall a b c, issub a b = true -> issub b c = true -> issub a c = true.
Proof.
  intros a b c. revert b. induction a; intros b H K;
    try (destruct b; try discriminate H; destruct c; try discriminate K; reflexivity).
  apply issub_sub in H. destruct H as [->|[->|H]].
  - apply object_only in K. subst. apply issub_object.
  - exact K.
  - apply issub_sub. right. right. exact (IHa b H K).
Qed.

Fixpoint rank (c : pyclass) : nat :=
  match c with PyObject => 0 | PyBool | PyDatetime | PyDict => 2 | PySub b _ => S (rank b) | _ => 1 end.
Lemma issub_rank : forall a b, issub a b = true -> a = b \/ rank b < rank a.
Proof.
  induction a; intros b H; try (destruct b; try discriminate H; cbn; auto; fail).
  apply issub_sub in H. destruct H as [->|[->|H]]; cbn; [right; lia|auto|]. destruct (IHa b H) as [->|L]; right; lia.
Qed.
Lemma issub_antisym : forall a b, issub a b = true -> issub b a = true -> a = b.
Proof. intros a b H K. apply issub_rank in H, K. destruct H as [H|H]; [exact H|]. destruct K as [K|K]; [auto|lia]. Qed.

(** The type of a class is that of the class it derives from. *)
Lemma class_type_base : forall c t, class_type c = Some t -> forall v, issub (type_of v) c = true -> belongs v t.
Proof.
  induction c; intros t H v I; cbn in H; try discriminate H; try (injection H as <-).
  - apply is_scalar with PyBool; [reflexivity|exact I].
  - apply is_scalar with PyInt; [reflexivity|exact I].
  - apply is_scalar with PyFloat; [reflexivity|exact I].
  - apply is_scalar with PyStr; [reflexivity|exact I].
  - apply is_binary. exact I.
  - apply is_scalar with PyDate; [reflexivity|exact I].
  - apply is_timestamp. exact I.
  - apply IHc; [exact H|]. apply (issub_trans _ _ _ I). apply issub_sub. right. right. apply issub_refl.
Qed.

Lemma class_hint : forall n c, of_hint (S n) (HClass c) = match class_type c with Some t => Ok t | None => Err NotImplementedError end.
Proof. intros. rewrite of_hint_is. apply of_class. Qed.

(** * Annotations *)
Inductive annotated : value -> phint -> Prop :=
| ann_none : forall v, isinstance v PyNoneType = true -> annotated v HNone
| ann_class : forall v k, In k [PyBool; PyBytes; PyDate; PyDatetime; PyFloat; PyInt; PyStr] -> isinstance v k = true ->
    annotated v (HClass (type_of v))
| ann_tuple : forall c x l, issub c PyTuple = true -> Forall (fun y => isinstance y (type_of x) = true) l ->
    annotated (VSeq c (x :: l)) (HAlias PyTuple [HClass (type_of x); HEllipsis])
| ann_seq : forall c x l, issub c PyList = true \/ issub c PySet = true \/ issub c PyFrozenset = true ->
    Forall (fun y => isinstance y (type_of x) = true) l -> annotated (VSeq c (x :: l)) (HAlias c [HClass (type_of x)])
| ann_dict : forall c k x l, issub c PyDict = true ->
    Forall (fun kx => isinstance (fst kx) (type_of k) = true /\ isinstance (snd kx) (type_of x) = true) l ->
    annotated (VDict c ((k, x) :: l)) (HAlias PyDict [HClass (type_of k); HClass (type_of x)]).

Lemma forallb_Forall : forall A (p : A -> bool) l, forallb p l = true <-> Forall (fun x => p x = true) l.
Proof. intros. rewrite forallb_forall, Forall_forall. reflexivity. Qed.

Lemma annotation_sound : forall v h, annotation_of v = Ok h -> annotated v h.
Proof.
  intros v h. unfold annotation_of. destruct (isinstance v PyNoneType) eqn:N; [intro H; injection H as <-; apply ann_none, N|].
  destruct (existsb (isinstance v) [PyBool; PyBytes; PyDate; PyDatetime; PyFloat; PyInt; PyStr]) eqn:E.
  { intro H. injection H as <-. apply existsb_exists in E. destruct E as (k & I & J). exact (ann_class v k I J). }
  cbv zeta. set (dict := if isinstance v PyDict then _ else _).
  assert (D : dict = Ok h -> annotated v h).
  { unfold dict. destruct (isinstance v PyDict) eqn:ID; [|discriminate]. destruct v as [| |c [|[k x] l]|]; try discriminate. cbn [pairs_of].
    destruct (forallb _ _) eqn:F; [|discriminate]. intro H. injection H as <-. apply ann_dict; [exact ID|].
    cbn [forallb] in F. apply andb_true_iff in F. destruct F as [_ F]. apply forallb_Forall in F. eapply Forall_impl; [|exact F].
    intros a H. apply andb_true_iff in H. exact H. }
  clearbody dict. destruct (existsb (isinstance v) [PyTuple; PyList; PySet; PyFrozenset]) eqn:S; [|exact D].
  destruct v as [|c [|x l]| |]; try discriminate. cbn [items_of]. destruct (forallb _ l) eqn:F; [|exact D].
  apply forallb_Forall in F. destruct (isinstance (VSeq c (x :: l)) PyTuple) eqn:T; intro H; injection H as <-.
  - apply ann_tuple; [exact T|exact F].
  - apply ann_seq; [|exact F]. unfold isinstance in *. cbn [type_of existsb] in *. rewrite T in S. cbn in S.
    rewrite !orb_true_iff in S. destruct S as [S|[S|[S|S]]]; auto. discriminate S.
Qed.

(** * The types of annotations *)
Fixpoint root (c : pyclass) : pyclass := match c with PySub b _ => root b | _ => c end.
Definition builtin (c : pyclass) : Prop := forall b n, c <> PySub b n.
Lemma root_builtin : forall c, builtin (root c).
Proof. induction c; cbn; auto; intros b n E; discriminate E. Qed.
Lemma issub_root : forall c k, builtin k -> issub c k = issub (root c) k.
Proof.
  induction c; intros k K; try reflexivity. cbn [root]. rewrite <- (IHc k K). destruct k; try reflexivity.
  - symmetry. apply issub_object.
  - destruct (K _ _ eq_refl).
Qed.
Lemma root_is : forall c k, In k [PyList; PyTuple; PySet; PyFrozenset; PyDict] -> issub c k = true -> root c = k.
Proof.
  intros c k I H. rewrite issub_root in H by (intros b n E; subst k; cbn in I; intuition discriminate).
  assert (B := root_builtin c). destruct (root c); cbn in I;
    repeat match goal with H : _ \/ _ |- _ => destruct H as [<-|H] end; try contradiction; try discriminate H; try reflexivity;
    destruct (B _ _ eq_refl).
Qed.

Lemma ask_alias : forall c args k, builtin k -> py_issubclass (HAlias c args) (HClass k) = Ok (issub (root c) k).
Proof. intros c args k K. rewrite <- issub_root by exact K. reflexivity. Qed.
Lemma origin_alias : forall c args ks, Forall builtin ks -> origin_in (HAlias c args) ks = existsb (issub (root c)) ks.
Proof.
  intros c args ks F. unfold origin_in. cbn [get_origin]. induction F as [|k ks K F IH]; [reflexivity|]. cbn [existsb].
  rewrite IH, <- issub_root by exact K. reflexivity.
Qed.

Ltac bases := repeat match goal with
  | |- context [py_issubclass (HAlias ?c ?a) (HClass ?k)] => rewrite (ask_alias c a k) by (intros ? ? ?; discriminate)
  | |- context [origin_in (HAlias ?c ?a) ?ks] => rewrite (origin_alias c a ks) by (repeat constructor; intros ? ? ?; discriminate)
  end.

Lemma seq_hint : forall n c x, root c = PyList -> of_hint (S (S n)) (HAlias c [HClass x]) =
  match class_type x with Some t => Ok (List t plain) | None => Err NotImplementedError end.
Proof.
  intros n c x R. rewrite of_hint_is, of_any. cbv zeta. unfold first_of. cbn [is_optional is_union andb]. bases. rewrite R.
  cbn [issub pyclass_eqb orb existsb adapt_to_artigraph py_list container_adapter get_args]. rewrite of_class. destruct (class_type x); reflexivity.
Qed.
Lemma set_hint : forall n c x, root c = PySet \/ root c = PyFrozenset -> of_hint (S (S n)) (HAlias c [HClass x]) =
  match class_type x with Some t => Ok (Set_ t plain) | None => Err NotImplementedError end.
Proof.
  intros n c x [R|R]; rewrite of_hint_is, of_any; cbv zeta; unfold first_of; cbn [is_optional is_union andb]; bases; rewrite R;
  cbn [issub pyclass_eqb orb andb existsb adapt_to_artigraph py_set py_frozenset container_adapter get_args is_literal is_union]; rewrite of_class; destruct (class_type x); reflexivity.
Qed.
Lemma tuple_hint : forall n x, of_hint (S (S n)) (HAlias PyTuple [HClass x; HEllipsis]) =
  match class_type x with Some t => Ok (List t plain) | None => Err NotImplementedError end.
Proof.
  intros n x. rewrite of_hint_is, of_any. cbv zeta. unfold first_of. cbn [is_optional is_union andb]. bases.
  cbn [root issub pyclass_eqb orb andb existsb adapt_to_artigraph py_tuple get_args]. rewrite of_class. destruct (class_type x); reflexivity.
Qed.
Lemma dict_hint : forall n k x, of_hint (S (S n)) (HAlias PyDict [HClass k; HClass x]) =
  match class_type k, class_type x with Some t, Some u => Ok (Map t u plain) | _, _ => Err NotImplementedError end.
Proof. intros n k x. rewrite of_hint_is, of_dict, !of_class. destruct (class_type k), (class_type x); reflexivity. Qed.

Lemma shallow : forall h t, of_hint 0 h <> Ok t.
Proof. intros h t H. discriminate H. Qed.
Lemma one_level : forall c a t, of_hint 1 (HAlias c (a :: nil)) = Ok t -> root c = PyList \/ root c = PySet \/ root c = PyFrozenset -> False.
Proof.
  intros c a t H R. rewrite of_hint_is, of_any in H. cbv zeta in H. unfold first_of in H. cbn [is_optional is_union andb] in H. revert H. bases.
  destruct R as [R|[R|R]]; rewrite R;
  cbn [issub pyclass_eqb orb andb existsb adapt_to_artigraph py_list py_set py_frozenset container_adapter get_args is_literal is_union]; discriminate.
Qed.

(** The types that are inferred. *)
Inductive inferred : value -> ty -> Prop :=
| inf_null : forall v, isinstance v PyNoneType = true -> inferred v (Scalar Null plain)
| inf_class : forall v t, class_type (type_of v) = Some t -> inferred v t
| inf_list : forall c x l t, issub c PyTuple = true \/ issub c PyList = true -> Forall (fun y => isinstance y (type_of x) = true) l ->
    class_type (type_of x) = Some t -> inferred (VSeq c (x :: l)) (List t plain)
| inf_set : forall c x l t, issub c PySet = true \/ issub c PyFrozenset = true -> Forall (fun y => isinstance y (type_of x) = true) l ->
    class_type (type_of x) = Some t -> inferred (VSeq c (x :: l)) (Set_ t plain)
| inf_map : forall c k x l t u, issub c PyDict = true ->
    Forall (fun kx => isinstance (fst kx) (type_of k) = true /\ isinstance (snd kx) (type_of x) = true) l ->
    class_type (type_of k) = Some t -> class_type (type_of x) = Some u -> inferred (VDict c ((k, x) :: l)) (Map t u plain).

Lemma root_seq : forall c, issub c PyList = true \/ issub c PySet = true \/ issub c PyFrozenset = true ->
  root c = PyList \/ root c = PySet \/ root c = PyFrozenset.
Proof. intros c [H|[H|H]]; apply root_is in H; cbn; tauto. Qed.

Theorem cast_inferred : forall n v t, cast_type n v = Ok t -> inferred v t.
Proof.
  intros n v t H. unfold cast_type in H. destruct (annotation_of v) as [h|] eqn:A; [|discriminate]. cbn [bind] in H.
  apply annotation_sound in A. destruct n as [|n]; [discriminate|]. destruct A as [v N|v k I J|c x l T F|c x l S F|c k x l D F].
  - injection H as <-. apply inf_null, N.
  - rewrite class_hint in H. destruct (class_type (type_of v)) eqn:E; [|discriminate]. injection H as <-. apply inf_class, E.
  - destruct n as [|n]; [discriminate|]. rewrite tuple_hint in H. destruct (class_type (type_of x)) eqn:E; [|discriminate]. injection H as <-.
    apply inf_list; auto.
  - destruct n as [|n]; [destruct (one_level _ _ _ H (root_seq c S))|].
    destruct S as [S|S].
    + rewrite seq_hint in H by (apply root_is; [cbn; auto|exact S]). destruct (class_type (type_of x)) eqn:E; [|discriminate]. injection H as <-. apply inf_list; auto.
    + rewrite set_hint in H by (destruct S as [S|S]; apply root_is in S; cbn; tauto).
      destruct (class_type (type_of x)) eqn:E; [|discriminate]. injection H as <-. apply inf_set; auto.
  - destruct n as [|n]; [discriminate|]. rewrite dict_hint in H. destruct (class_type (type_of k)) eqn:E; [|discriminate].
    destruct (class_type (type_of x)) eqn:E'; [|discriminate]. injection H as <-. apply inf_map; auto.
Qed.

Theorem cast_describes : forall n v t, cast_type n v = Ok t -> belongs v t.
Proof.
  intros n v t H. apply cast_inferred in H. destruct H as [v N|v t C|c x l t S F C|c x l t S F C|c k x l t u D F C C'].
  - apply is_scalar with PyNoneType; [reflexivity|exact N].
  - apply (class_type_base _ _ C), issub_refl.
  - apply is_list; [tauto|]. constructor; [apply (class_type_base _ _ C), issub_refl|]. eapply Forall_impl; [|exact F]. intros y I. exact (class_type_base _ _ C y I).
  - apply is_set; [tauto|]. constructor; [apply (class_type_base _ _ C), issub_refl|]. eapply Forall_impl; [|exact F]. intros y I. exact (class_type_base _ _ C y I).
  - apply is_map; [exact D|]. constructor; [split; [apply (class_type_base _ _ C)|apply (class_type_base _ _ C')]; apply issub_refl|].
    eapply Forall_impl; [|exact F]. intros y [I J]. split; [exact (class_type_base _ _ C _ I)|exact (class_type_base _ _ C' _ J)].
Qed.

(** * Which values have a type *)
Lemma class_type_known : forall c t, class_type c = Some t -> exists k, In k [PyBool; PyBytes; PyDate; PyDatetime; PyFloat; PyInt; PyStr] /\ issub c k = true.
Proof.
  induction c; intros t H; try discriminate H;
    try (match goal with |- exists k, _ /\ issub ?c _ = true => exists c; split; [cbn; tauto|reflexivity] end).
  destruct (IHc t H) as (k & I & S). exists k. split; [exact I|]. apply issub_sub. auto.
Qed.
Lemma root_known : forall c k, In k [PyBool; PyBytes; PyDate; PyDatetime; PyFloat; PyInt; PyStr] -> issub c k = true -> issub c PyNoneType = false.
Proof.
  intros c k I H. rewrite issub_root in H by (intros b n E; subst; cbn in I; intuition discriminate).
  rewrite issub_root by (intros b n E; discriminate E). assert (B := root_builtin c). cbn in I.
  destruct (root c); try reflexivity; [|destruct (B _ _ eq_refl)]. repeat destruct I as [<-|I]; try contradiction; discriminate H.
Qed.
Lemma existsb_in : forall (v : value) ks k, In k ks -> isinstance v k = true -> existsb (isinstance v) ks = true.
Proof. intros v ks k I H. apply existsb_exists. eauto. Qed.

Ltac roots c R := unfold annotation_of; cbn [existsb]; unfold isinstance; cbn [type_of items_of pairs_of];
  rewrite ?(issub_root c) by (intros ? ? E; discriminate E); rewrite ?R; cbn [issub pyclass_eqb orb].
Lemma ann_of_tuple : forall c x l, root c = PyTuple -> Forall (fun y => isinstance y (type_of x) = true) l ->
  annotation_of (VSeq c (x :: l)) = Ok (HAlias PyTuple [HClass (type_of x); HEllipsis]).
Proof. intros c x l R F. apply forallb_Forall in F. unfold isinstance in F. roots c R. rewrite F. reflexivity. Qed.
Lemma ann_of_seq : forall c x l, root c = PyList \/ root c = PySet \/ root c = PyFrozenset -> Forall (fun y => isinstance y (type_of x) = true) l ->
  annotation_of (VSeq c (x :: l)) = Ok (HAlias c [HClass (type_of x)]).
Proof. intros c x l [R|[R|R]] F; apply forallb_Forall in F; unfold isinstance in F; roots c R; rewrite F; reflexivity. Qed.
Lemma ann_of_dict : forall c k x l, root c = PyDict ->
  Forall (fun kx => isinstance (fst kx) (type_of k) = true /\ isinstance (snd kx) (type_of x) = true) l ->
  annotation_of (VDict c ((k, x) :: l)) = Ok (HAlias PyDict [HClass (type_of k); HClass (type_of x)]).
Proof.
  intros c k x l R F.
  assert (F' : forallb (fun kx => isinstance (fst kx) (type_of k) && isinstance (snd kx) (type_of x)) ((k, x) :: l) = true).
  { cbn [forallb fst snd]. unfold isinstance at 1 2. rewrite !issub_refl. apply forallb_Forall. eapply Forall_impl; [|exact F].
    intros kx [H K]. rewrite H, K. reflexivity. }
  unfold isinstance in F'. roots c R. rewrite F'. reflexivity.
Qed.

Theorem infers : forall n v t, inferred v t -> cast_type (S (S n)) v = Ok t.
Proof.
  intros n v t H. unfold cast_type. destruct H as [v N|v t C|c x l t S F C|c x l t S F C|c k x l t u D F C C'].
  - unfold annotation_of. rewrite N. reflexivity.
  - destruct (class_type_known _ _ C) as (k & I & J). unfold annotation_of, isinstance at 1. rewrite (root_known _ _ I J), (existsb_in v _ k I J).
    cbn [bind]. rewrite class_hint, C. reflexivity.
  - destruct S as [S|S]; (apply root_is in S; [|cbn; tauto]).
    + rewrite ann_of_tuple by assumption. cbn [bind]. rewrite tuple_hint, C. reflexivity.
    + rewrite ann_of_seq by auto. cbn [bind]. rewrite seq_hint, C by exact S. reflexivity.
  - assert (R : root c = PySet \/ root c = PyFrozenset) by (destruct S as [S|S]; apply root_is in S; cbn; tauto).
    rewrite ann_of_seq by tauto. cbn [bind]. rewrite set_hint, C by exact R. reflexivity.
  - apply root_is in D; [|cbn; tauto]. rewrite ann_of_dict by assumption. cbn [bind]. rewrite dict_hint, C, C'. reflexivity.
Qed.

Theorem inferred_iff : forall n v t, cast_type (S (S n)) v = Ok t <-> inferred v t.
Proof. split; [apply cast_inferred|apply infers]. Qed.

(** * Order *)
Lemma inferred_list : forall c l t, inferred (VSeq c l) t -> class_type c = None -> issub c PyNoneType = false ->
  exists x l' e, l = x :: l' /\ Forall (fun y => isinstance y (type_of x) = true) l' /\ class_type (type_of x) = Some e /\
    ((issub c PyTuple = true \/ issub c PyList = true) /\ t = List e plain \/ (issub c PySet = true \/ issub c PyFrozenset = true) /\ t = Set_ e plain).
Proof.
  intros c l t H N M. inversion H; subst.
  - unfold isinstance in *. cbn [type_of] in *. congruence.
  - cbn [type_of] in *. congruence.
  - exists x, l0, t0. auto 6.
  - exists x, l0, t0. auto 6.
Qed.

Lemma first_class : forall x y l l', Forall (fun z => isinstance z (type_of x) = true) l -> Forall (fun z => isinstance z (type_of y) = true) l' ->
  (forall z, In z (x :: l) <-> In z (y :: l')) -> type_of x = type_of y.
Proof.
  intros x y l l' F F' P.
  assert (A : isinstance y (type_of x) = true).
  { destruct (proj2 (P y) (or_introl eq_refl)) as [->|I]; [apply issub_refl|]. exact (proj1 (Forall_forall _ _) F y I). }
  assert (B : isinstance x (type_of y) = true).
  { destruct (proj1 (P x) (or_introl eq_refl)) as [->|I]; [apply issub_refl|]. exact (proj1 (Forall_forall _ _) F' x I). }
  apply issub_antisym; assumption.
Qed.

Lemma class_type_not_seq : forall c, In (root c) [PyList; PyTuple; PySet; PyFrozenset; PyDict] -> class_type c = None /\ issub c PyNoneType = false.
Proof.
  intros c I. split.
  - destruct (class_type c) eqn:E; [|reflexivity]. destruct (class_type_known _ _ E) as (k & K & S).
    rewrite issub_root in S by (intros b n X; subst; cbn in K; intuition discriminate).
    cbn [In] in I, K. repeat destruct I as [I|I]; try contradiction; rewrite <- I in S; repeat destruct K as [<-|K]; try contradiction; discriminate S.
  - rewrite issub_root by (intros b n X; discriminate X). cbn [In] in I. repeat destruct I as [I|I]; try contradiction; rewrite <- I; reflexivity.
Qed.

Theorem order : forall n c l l' t t', In (root c) [PyList; PyTuple; PySet; PyFrozenset] -> (forall z, In z l <-> In z l') ->
  cast_type n (VSeq c l) = Ok t -> cast_type n (VSeq c l') = Ok t' -> t = t'.
Proof.
  intros n c l l' t t' R P H H'. apply cast_inferred in H, H'. destruct (class_type_not_seq c) as [N M]; [cbn in *; tauto|].
  destruct (inferred_list _ _ _ H N M) as (x & xs & e & -> & F & C & K). destruct (inferred_list _ _ _ H' N M) as (y & ys & e' & -> & F' & C' & K').
  assert (T := first_class _ _ _ _ F F' P). rewrite T in C. rewrite C in C'. injection C' as <-.
  rewrite !(issub_root c) in K, K' by (intros ? ? X; discriminate X).
  cbn [In] in R. repeat destruct R as [R|R]; try contradiction; rewrite <- R in K, K'; cbn [issub pyclass_eqb orb] in K, K';
    destruct K as [[[K|K] ->]|[[K|K] ->]]; try discriminate K; destruct K' as [[[K'|K'] ->]|[[K'|K'] ->]]; try discriminate K'; reflexivity.
Qed.
Theorem order_dict : forall n c l l' t t', root c = PyDict -> (forall kx, In kx l <-> In kx l') ->
  cast_type n (VDict c l) = Ok t -> cast_type n (VDict c l') = Ok t' -> t = t'.
Proof.
  intros n c l l' t t' R P H H'. apply cast_inferred in H, H'. destruct (class_type_not_seq c) as [N M]; [rewrite R; cbn; tauto|].
  inversion H as [? X|? ? X| | |? k x m a b D F Ca Cb]; subst; try (unfold isinstance in X; cbn [type_of] in X; congruence).
  inversion H' as [? X|? ? X| | |? k' x' m' a' b' D' F' Ca' Cb']; subst; try (unfold isinstance in X; cbn [type_of] in X; congruence).
  assert (A : isinstance k' (type_of k) = true /\ isinstance x' (type_of x) = true).
  { destruct (proj2 (P (k', x')) (or_introl eq_refl)) as [E|I]; [injection E as -> ->; split; apply issub_refl|]. exact (proj1 (Forall_forall _ _) F _ I). }
  assert (B : isinstance k (type_of k') = true /\ isinstance x (type_of x') = true).
  { destruct (proj1 (P (k, x)) (or_introl eq_refl)) as [E|I]; [injection E as -> ->; split; apply issub_refl|]. exact (proj1 (Forall_forall _ _) F' _ I). }
  destruct A, B. rewrite (issub_antisym (type_of k) (type_of k')) in Ca by assumption. rewrite (issub_antisym (type_of x) (type_of x')) in Cb by assumption.
  congruence.
Qed.
(** Values all of one class have a type in every order. *)
Theorem order_total : forall n c x l y l' t, In (root c) [PyList; PyTuple; PySet; PyFrozenset] -> (forall z, In z (x :: l) <-> In z (y :: l')) ->
  Forall (fun z => type_of z = type_of x) l -> cast_type n (VSeq c (x :: l)) = Ok t -> cast_type n (VSeq c (y :: l')) = Ok t.
Proof.
  intros n c x l y l' t R P U H. destruct (class_type_not_seq c) as [N M]; [cbn in *; tauto|].
  destruct n as [|[|n]].
  - destruct (annotation_of (VSeq c (x :: l))) eqn:A; unfold cast_type in H; rewrite A in H; discriminate.
  - unfold cast_type in H. destruct (annotation_of (VSeq c (x :: l))) as [h|] eqn:A; [|discriminate]. cbn [bind] in H. apply annotation_sound in A.
    inversion A as [? X|? k I J| ? ? ? X|? ? ? X Q|]; subst.
    + unfold isinstance in X. cbn [type_of] in X. congruence.
    + rewrite class_hint in H. cbn [type_of] in H. rewrite N in H. discriminate.
    + discriminate H.
    + destruct (one_level _ _ _ H). apply root_seq, X.
  - apply inferred_iff. apply cast_inferred in H. assert (T : Forall (fun z => type_of z = type_of x) (y :: l')).
    { apply Forall_forall. intros z I. apply P in I. destruct I as [->|I]; [reflexivity|]. exact (proj1 (Forall_forall _ _) U z I). }
    inversion T as [|? ? Ty Tl]; subst.
    assert (F' : Forall (fun z => isinstance z (type_of y) = true) l').
    { eapply Forall_impl; [|exact Tl]. intros z Z. unfold isinstance. rewrite Z, Ty. apply issub_refl. }
    inversion H; subst; unfold isinstance in *; cbn [type_of] in *; try congruence; rewrite <- Ty in *; [apply inf_list|apply inf_set]; assumption.
Qed.

(** * Ranges *)
Lemma root_int : forall c t, class_type c = Some t -> root c = PyInt -> t = Scalar (Int B64) plain.
Proof. induction c; intros t H R; try discriminate R; cbn in *; [injection H as <-; reflexivity|auto]. Qed.
Lemma class_type_scalar : forall c t, class_type c = Some t -> (forall e m, t <> List e m) /\ (forall e m, t <> Set_ e m) /\ (forall k x m, t <> Map k x m) /\
  (forall w m, t = Scalar (Int w) m -> w = B64 /\ root c = PyInt).
Proof.
  induction c; intros t H; try discriminate H; cbn [class_type root] in *; [..|exact (IHc t H)]; injection H as <-;
    (split; [discriminate|split; [discriminate|split; [discriminate|]]]); intros w m E; try discriminate E; injection E as <- <-; split; reflexivity.
Qed.
Lemma range_class : forall c t v, class_type c = Some t -> isinstance v c = true -> proper v -> small v -> in_range v t.
Proof.
  intros c t v H I P S. destruct (class_type_scalar _ _ H) as (A & B & C & D).
  destruct t; try (apply range_other; intros; discriminate);
    try (exfalso; first [exact (A _ _ eq_refl)|exact (B _ _ eq_refl)|exact (C _ _ _ eq_refl)]).
  destruct s; try (apply range_other; intros; discriminate).
  destruct (D _ _ eq_refl) as [-> R].
  assert (K : issub (type_of v) PyInt = true).
  { apply (issub_trans _ c); [exact I|]. rewrite issub_root by (intros ? ? X; discriminate X). rewrite R. reflexivity. }
  destruct P as [c0 z Q|c0 l Q F|c0 l Q F|c0 text Q]; cbn [type_of] in K.
  - apply range_int. inversion S; subst. assumption.
  - exfalso. assert (Q' : root c0 = PyList \/ root c0 = PyTuple \/ root c0 = PySet \/ root c0 = PyFrozenset).
    { destruct Q as [Q|[Q|[Q|Q]]]; apply root_is in Q; cbn; tauto. }
    rewrite issub_root in K by (intros ? ? X; discriminate X). destruct Q' as [Q'|[Q'|[Q'|Q']]]; rewrite Q' in K; discriminate K.
  - exfalso. apply root_is in Q; [|cbn; tauto]. rewrite issub_root in K by (intros ? ? X; discriminate X). rewrite Q in K. discriminate K.
  - exfalso. rewrite Q in K by (cbn; auto). discriminate K.
Qed.
Theorem ranges : forall n v t, cast_type n v = Ok t -> proper v -> small v -> in_range v t.
Proof.
  intros n v t H P S. apply cast_inferred in H.
  assert (X : forall x l e, class_type (type_of x) = Some e -> Forall (fun y => isinstance y (type_of x) = true) l ->
    Forall proper (x :: l) -> Forall small (x :: l) -> Forall (fun y => in_range y e) (x :: l)).
  { intros x l e C F Fp Fs. rewrite Forall_forall in *. intros y I.
    refine (range_class _ _ y C _ (Fp y I) (Fs y I)). destruct I as [<-|I]; [apply issub_refl|apply F, I]. }
  destruct H as [v N|v t C|c x l t S' F C|c x l t S' F C|c k x l t u D F C C'].
  - apply range_other; intros; discriminate.
  - exact (range_class _ _ _ C (issub_refl _) P S).
  - apply range_items. inversion P; subst. inversion S; subst. apply X; assumption.
  - apply range_set. inversion P; subst. inversion S; subst. apply X; assumption.
  - apply range_map. inversion P as [| |? ? _ Fp|]; subst. inversion S as [| |? ? Fs|]; subst. rewrite Forall_forall in *. intros y I.
    destruct (Fp y I) as [P1 P2], (Fs y I) as [S1 S2].
    assert (J : isinstance (fst y) (type_of k) = true /\ isinstance (snd y) (type_of x) = true) by (destruct I as [<-|I]; [split; apply issub_refl|apply F, I]).
    split; [exact (range_class _ _ _ C (proj1 J) P1 S1)|exact (range_class _ _ _ C' (proj2 J) P2 S2)].
Qed.

(** * Reading back *)
Section ReadBack.
  Context (float_text : str -> str).
  Notation read_back := (read_back float_text).

  (** Strings and integers and so on come back as values of the type they were given. *)
  Lemma filter_root : forall c ks, Forall builtin ks -> filter (issub c) ks = filter (issub (root c)) ks.
  Proof. intros c ks F. induction F as [|k ks K F IH]; [reflexivity|]. cbn [filter]. rewrite (issub_root c k K), IH. reflexivity. Qed.
  Lemma class_root : forall c, class_type c = class_type (root c).
  Proof. induction c; cbn; auto. Qed.
  Lemma base_root : forall c ks, Forall builtin ks -> In (root c) [PyBool; PyInt; PyStr; PyFloat; PyNoneType] -> In (root c) ks ->
    (ks = [PyBool; PyInt] \/ ks = [PyStr; PyFloat; PyNoneType]) -> base_class ks c = root c.
  Proof.
    intros c ks F R I E. unfold base_class. rewrite filter_root by exact F. destruct E as [-> | ->]; cbn [In] in R, I;
      repeat destruct I as [I|I]; try contradiction; rewrite <- I; reflexivity.
  Qed.

  Lemma json_scalar : forall v k e, isinstance v k = true -> class_type k = Some e -> proper v -> jsonable v = true ->
    type_of (read_back v) = root (type_of v).
  Proof.
    intros v k e I C P J. destruct (class_type_known _ _ C) as (b & B & Sb). assert (T := issub_trans _ _ _ I Sb).
    assert (R : forall w, type_of v = w -> In (root w) [PyList; PyTuple; PySet; PyFrozenset; PyDict] -> False).
    { intros w E X. rewrite E, issub_root in T by (intros ? ? Y; subst b; cbn in B; intuition discriminate).
      cbn [In] in X, B. repeat destruct X as [X|X]; try contradiction; rewrite <- X in T; repeat destruct B as [<-|B]; try contradiction; discriminate T. }
    destruct P as [c z Q|c l Q F|c l Q F|c text Q].
    - cbn [read_back type_of]. assert (X : root c = PyBool \/ root c = PyInt).
      { rewrite issub_root in Q by (intros ? ? X; discriminate X). assert (Y := root_builtin c).
        destruct (root c); try discriminate Q; auto. destruct (Y _ _ eq_refl). }
      apply base_root; [repeat constructor; intros ? ? Y; discriminate Y| | |auto]; destruct X as [-> | ->]; cbn; tauto.
    - destruct (R c eq_refl). destruct Q as [Q|[Q|[Q|Q]]]; apply root_is in Q; cbn; try tauto; rewrite Q; cbn; tauto.
    - destruct (R c eq_refl). apply root_is in Q; cbn; try tauto; rewrite Q; cbn; tauto.
    - cbn [jsonable existsb] in J. cbn [read_back type_of]. rewrite !(issub_root c) in J by (intros ? ? X; discriminate X).
      assert (X : root c = PyStr \/ root c = PyFloat \/ root c = PyNoneType).
      { assert (Y := root_builtin c). destruct (root c); try discriminate J; auto. destruct (Y _ _ eq_refl). }
      apply base_root; [repeat constructor; intros ? ? Y; discriminate Y| | |auto]; destruct X as [-> | [-> | ->]]; cbn; tauto.
  Qed.
  Lemma root_above : forall k, issub k (root k) = true.
  Proof. intro k. rewrite issub_root by apply root_builtin. apply issub_refl. Qed.
  Lemma read_scalar : forall v k e, isinstance v k = true -> class_type k = Some e -> proper v -> jsonable v = true -> belongs (read_back v) e.
  Proof.
    intros v k e I C P J. assert (T := json_scalar _ _ _ I C P J). rewrite class_root in C. apply (class_type_base _ _ C). rewrite T.
    rewrite <- issub_root by apply root_builtin. apply (issub_trans _ k); [exact I|apply root_above].
  Qed.

  Theorem reads_back : forall n v t v', cast n v = Ok (t, v') -> proper v -> (forall k x m, t = Map k x m -> k = Scalar String plain) ->
    v' = v /\ belongs (read_back v') t.
  Proof.
    intros n v t v' H P K. unfold cast in H. destruct (cast_type n v) as [u|] eqn:E; [|discriminate]. cbn [bind] in H.
    destruct (jsonable v) eqn:J; [|discriminate]. injection H as -> <-. split; [reflexivity|]. apply cast_inferred in E.
    assert (X : forall x l e, class_type (type_of x) = Some e -> Forall (fun y => isinstance y (type_of x) = true) l ->
      Forall proper (x :: l) -> forallb jsonable (x :: l) = true -> Forall (fun y => belongs y e) (map read_back (x :: l))).
    { intros x l e C F Fp Fj. rewrite forallb_forall in Fj. rewrite Forall_forall in *. intros y I. apply in_map_iff in I. destruct I as (z & <- & I).
      refine (read_scalar z (type_of x) _ _ C (Fp z I) (Fj z I)). destruct I as [<-|I]; [apply issub_refl|apply F, I]. }
    destruct E as [v N|v t C|c x l t S F C|c x l t S F C|c k x l t u D F C C'].
    - assert (R : root (type_of v) = PyNoneType).
      { unfold isinstance in N. rewrite issub_root in N by (intros ? ? Y; discriminate Y). assert (Y := root_builtin (type_of v)).
        destruct (root (type_of v)); try discriminate N; auto. destruct (Y _ _ eq_refl). }
      apply is_scalar with PyNoneType; [reflexivity|]. destruct P as [c z Q|c l Q F|c l Q F|c text Q]; cbn [type_of] in R.
      + rewrite issub_root, R in Q by (intros ? ? Y; discriminate Y). discriminate Q.
      + destruct Q as [Q|[Q|[Q|Q]]]; apply root_is in Q; cbn; try tauto; rewrite Q in R; discriminate R.
      + apply root_is in Q; cbn; try tauto; rewrite Q in R; discriminate R.
      + cbn [read_back type_of]. rewrite base_root; [rewrite R; reflexivity|repeat constructor; intros ? ? Y; discriminate Y|rewrite R; cbn; tauto|rewrite R; cbn; tauto|auto].
    - exact (read_scalar _ _ _ (issub_refl _) C P J).
    - cbn [jsonable] in J. apply andb_prop in J. destruct J as [_ J]. inversion P; subst. cbn [read_back]. apply is_list; [left; reflexivity|]. apply X; assumption.
    - exfalso. cbn [jsonable] in J. apply andb_prop in J. destruct J as [J _]. rewrite !(issub_root c) in J by (intros ? ? Y; discriminate Y).
      destruct S as [S|S]; apply root_is in S; cbn; try tauto; rewrite S in J; discriminate J.
    - specialize (K t u plain eq_refl). subst t. cbn [read_back]. apply is_map; [reflexivity|]. apply Forall_forall. intros kx I.
      apply in_map_iff in I. destruct I as ([key y] & <- & I). cbn [fst snd]. split; [apply is_scalar with PyStr; reflexivity|].
      assert (ND := dict_of_NoDup str_eqb str_eqb_spec (map (fun kx => (key_text float_text (fst kx), read_back (snd kx))) ((k, x) :: l))).
      apply (dget_NoDup _ str_eqb_spec _ _ _ ND) in I. unfold dict_of in I. rewrite (dget_dupdate _ str_eqb_spec) in I. cbn [dget] in I.
      destruct (dget str_eqb (rev (map (fun kx => (key_text float_text (fst kx), read_back (snd kx))) ((k, x) :: l))) key) eqn:G; [|discriminate I].
      injection I as ->. apply (dget_In _ str_eqb_spec) in G. apply in_rev, in_map_iff in G. destruct G as ([k0 x0] & Q & I). injection Q as _ <-.
      inversion P as [| |? ? _ Fp|]; subst. cbn [jsonable] in J. rewrite forallb_forall in J. rewrite Forall_forall in *.
      specialize (J _ I). apply andb_prop in J. destruct J as [_ J]. destruct (Fp _ I) as [_ P']. cbn [fst snd] in *.
      refine (read_scalar _ _ _ _ C' P' J). destruct I as [I|I]; [injection I as <- <-; apply issub_refl|exact (proj2 (F _ I))].
  Qed.
End ReadBack.

(** * Errors *)
Lemma of_annotation : forall n v h e, annotated v h -> of_hint (S (S n)) h = Err e -> e = NotImplementedError.
Proof.
  intros n v h e A H. destruct A as [v N|v k I J|c x l T F|c x l S F|c k x l D F].
  - discriminate H.
  - rewrite class_hint in H. destruct (class_type (type_of v)); [discriminate|]. injection H as <-. reflexivity.
  - rewrite tuple_hint in H. destruct (class_type (type_of x)); [discriminate|]. injection H as <-. reflexivity.
  - destruct S as [S|S].
    + rewrite seq_hint in H by (apply root_is; [cbn; tauto|exact S]). destruct (class_type (type_of x)); [discriminate|]. injection H as <-. reflexivity.
    + rewrite set_hint in H by (destruct S as [S|S]; apply root_is in S; cbn; tauto).
      destruct (class_type (type_of x)); [discriminate|]. injection H as <-. reflexivity.
  - rewrite dict_hint in H. destruct (class_type (type_of k)), (class_type (type_of x)); try discriminate; injection H as <-; reflexivity.
Qed.
Theorem errors : forall n v e, cast_type (S (S n)) v = Err e ->
  e = NotImplementedError \/ (e = ValueError /\ items_of v = []) \/ (e = StopIteration /\ pairs_of v = []).
Proof.
  intros n v e H. unfold cast_type in H. destruct (annotation_of v) as [h|e'] eqn:A; cbn [bind] in H.
  - left. apply annotation_sound in A. exact (of_annotation _ _ _ _ A H).
  - injection H as ->. unfold annotation_of in A. revert A.
    set (otherwise := if isinstance v PyDict then _ else _).
    assert (O : otherwise = Err e -> e = NotImplementedError \/ (e = ValueError /\ items_of v = []) \/ (e = StopIteration /\ pairs_of v = [])).
    { unfold otherwise. destruct (isinstance v PyDict); [|intro X; injection X as <-; auto]. destruct (pairs_of v) as [|[k x] l]; [intro X; injection X as <-; auto|].
      destruct (forallb _ _); [discriminate|]. intro X; injection X as <-; auto. }
    destruct (isinstance v PyNoneType); [discriminate|]. destruct (existsb _ [PyBool; _; _; _; _; _; _]); [discriminate|].
    destruct (existsb _ [PyTuple; _; _; _]); [|exact O]. destruct (items_of v) as [|x l]; [intro X; injection X as <-; auto|].
    destruct (forallb _ _); [|exact O]. destruct (isinstance v PyTuple); discriminate.
Qed.

(** * Flatness *)
Lemma known_class_type : forall c k, In k plain_classes -> issub c k = true -> exists t, class_type c = Some t.
Proof.
  induction c; intros k I H; try (cbn in I; repeat destruct I as [<-|I]; try contradiction; try discriminate H; eexists; reflexivity).
  apply issub_sub in H. destruct H as [H|[H|H]]; [subst; cbn in I; intuition discriminate|subst; cbn in I; intuition discriminate|].
  exact (IHc k I H).
Qed.
Lemma plain_no_container : forall v t k, class_type (type_of v) = Some t -> In k containers -> isinstance v k = false.
Proof.
  intros v t k C I. destruct (class_type_known _ _ C) as (b & B & S). unfold isinstance.
  destruct (issub (type_of v) k) eqn:E; [|reflexivity]. apply root_is in E; [|exact I].
  rewrite issub_root, E in S by (intros ? ? Y; subst b; cbn in B; intuition discriminate).
  cbn in I, B. repeat destruct I as [<-|I]; try contradiction; repeat destruct B as [<-|B]; try contradiction; discriminate S.
Qed.
Lemma sub_no_container : forall v c t k, isinstance v c = true -> class_type c = Some t -> In k containers -> isinstance v k = false.
Proof.
  intros v c t k S C I. destruct (class_type_known _ _ C) as (b & B & S').
  destruct (known_class_type (type_of v) b B) as (u & U); [exact (issub_trans _ _ _ S S')|]. exact (plain_no_container _ _ _ U I).
Qed.
Theorem flat : forall n c l t x k, cast_type n (VSeq c l) = Ok t -> (exists k, In k containers /\ issub c k = true) -> In x l -> In k containers -> isinstance x k = false.
Proof.
  intros n c l t x k H (k' & K' & K) I J. apply cast_inferred in H.
  assert (NC : class_type c = None /\ issub c PyNoneType = false).
  { apply class_type_not_seq. apply root_is in K; [|exact K']. rewrite K. cbn in K'. cbn. intuition. }
  destruct NC as [NC NN].
  destruct (inferred_list _ _ _ H NC NN) as (y & l' & e & -> & F & C & _).
  refine (sub_no_container x (type_of y) e k _ C J). destruct I as [->|I]; [apply issub_refl|exact (proj1 (Forall_forall _ _) F x I)].
Qed.
Theorem flat_dict : forall n c l t kx k, cast_type n (VDict c l) = Ok t -> issub c PyDict = true -> In kx l -> In k containers ->
  isinstance (fst kx) k = false /\ isinstance (snd kx) k = false.
Proof.
  intros n c l t kx k H K I J. apply cast_inferred in H.
  assert (NC : class_type c = None /\ issub c PyNoneType = false).
  { apply class_type_not_seq. apply root_is in K; [|cbn; tauto]. rewrite K. cbn. tauto. }
  destruct NC as [NC NN].
  inversion H as [? X|? ? X| | |? k0 x0 m a b D F Ca Cb]; subst; try (unfold isinstance in X; cbn [type_of] in X; congruence).
  assert (Y : isinstance (fst kx) (type_of k0) = true /\ isinstance (snd kx) (type_of x0) = true).
  { destruct I as [<-|I]; [split; apply issub_refl|exact (proj1 (Forall_forall _ _) F kx I)]. }
  split; [exact (sub_no_container _ _ _ _ (proj1 Y) Ca J)|exact (sub_no_container _ _ _ _ (proj2 Y) Cb J)].
Qed.
(** What is accepted. *)
Theorem accepted_scalar : forall n v, plain_value v -> exists t, cast_type (S n) v = Ok t.
Proof.
  intros n v (k & I & H). destruct (known_class_type _ _ I H) as (t & C). exists t. assert (X := existsb_in v _ k I H). unfold plain_classes in X.
  unfold cast_type, annotation_of, isinstance at 1. rewrite (root_known _ _ I H), X. cbn [bind]. rewrite class_hint, C. reflexivity.
Qed.
Theorem accepted_items : forall n c x l, (exists k, In k [PyList; PyTuple; PySet; PyFrozenset] /\ issub c k = true) -> plain_value x ->
  Forall (fun y => isinstance y (type_of x) = true) l -> exists t, cast_type (S (S n)) (VSeq c (x :: l)) = Ok t.
Proof.
  intros n c x l (k & K & H) (b & B & P) F. destruct (known_class_type _ _ B P) as (t & C).
  cbn in K. destruct K as [<-|[<-|[<-|[<-|[]]]]]; eexists; apply infers; [apply inf_list|apply inf_list|apply inf_set|apply inf_set]; eauto.
Qed.
Theorem accepted_dict : forall n c k x l, issub c PyDict = true -> plain_value k -> plain_value x ->
  Forall (fun kx => isinstance (fst kx) (type_of k) = true /\ isinstance (snd kx) (type_of x) = true) l ->
  exists t, cast_type (S (S n)) (VDict c ((k, x) :: l)) = Ok t.
Proof.
  intros n c k x l D (b & B & P) (b' & B' & P') F. destruct (known_class_type _ _ B P) as (t & C). destruct (known_class_type _ _ B' P') as (u & C').
  eexists. apply infers, inf_map; eauto.
Qed.

Lemma root_of : forall c, (exists k, In k [PyList; PyTuple; PySet; PyFrozenset] /\ issub c k = true) -> In (root c) [PyList; PyTuple; PySet; PyFrozenset].
Proof. intros c (k & K & H). assert (R : root c = k) by (apply root_is; [cbn in *; tauto|exact H]). rewrite R. exact K. Qed.
Theorem order_items : forall n c l l' t t', (exists k, In k [PyList; PyTuple; PySet; PyFrozenset] /\ issub c k = true) -> Permutation l l' ->
  cast_type n (VSeq c l) = Ok t -> cast_type n (VSeq c l') = Ok t' -> t = t'.
Proof.
  intros n c l l' t t' R P. apply order; [apply root_of, R|]. intro z. split; apply Permutation_in; [exact P|symmetry; exact P].
Qed.
Theorem order_pairs : forall n c l l' t t', issub c PyDict = true -> Permutation l l' ->
  cast_type n (VDict c l) = Ok t -> cast_type n (VDict c l') = Ok t' -> t = t'.
Proof.
  intros n c l l' t t' R P. apply order_dict; [apply root_is; [cbn; tauto|exact R]|]. intro z. split; apply Permutation_in; [exact P|symmetry; exact P].
Qed.
Theorem order_uniform : forall n c k l l' t, (exists k, In k [PyList; PyTuple; PySet; PyFrozenset] /\ issub c k = true) -> Permutation l l' ->
  (forall x, In x l -> type_of x = k) -> cast_type n (VSeq c l) = Ok t -> cast_type n (VSeq c l') = Ok t.
Proof.
  intros n c k l l' t R P U H. destruct l as [|x l]; [apply Permutation_nil in P; subst; exact H|].
  destruct l' as [|y l']; [apply Permutation_sym, Permutation_nil in P; discriminate P|].
  refine (order_total n c x l y l' t (root_of c R) _ _ H).
  - intro z. split; apply Permutation_in; [exact P|symmetry; exact P].
  - apply Forall_forall. intros z I. rewrite (U z (or_intror I)), (U x (or_introl eq_refl)). reflexivity.
Qed.
Lemma str_proper : forall s, proper (VObj PyStr s).
Proof. intro s. apply proper_obj. cbn. intros k I. repeat (destruct I as [<-|I]; [reflexivity|]). contradiction. Qed.
