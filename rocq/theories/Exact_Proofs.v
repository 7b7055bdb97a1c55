From Coq Require Import ZArith List Ascii String Bool Arith Lia.
From Verif Require Import Base Base_Proofs Str Str_Proofs Types_Model Graph_Model Graph_Spec.
From Verif Require Import Exact_Spec.
From Verif Require IO_Model IO_Spec IO_Proofs Storage_Model.
Import ListNotations.
Open Scope list_scope.

(** * Graphs *)
Lemma set_same : forall c g o, set_graph c g o g = o.
Proof. intros. unfold set_graph. now rewrite Nat.eqb_refl. Qed.
Lemma set_other : forall c g o h, h <> g -> set_graph c g o h = graph c h.
Proof. intros c g o h N. unfold set_graph. apply Nat.eqb_neq in N. now rewrite N. Qed.

Lemma deps_status : forall o, status (fst (get_dependencies o)) = status o.
Proof. intro o. unfold get_dependencies. destruct (cached o); [reflexivity|]. destruct (status o) eqn:S; cbn; congruence. Qed.

Definition known (l : list (operation * result unit)) (g : nat) (o : gobject) : Prop :=
  (status o = GClosed <-> finished g l) /\ (cached o <> None <-> exists r, In (Exit g, r) l).
Lemma step_known : forall l c p o r c' p', step (c, p) o r (c', p') -> (forall g, known l g (graph c g)) ->
  forall g, known ((o, r) :: l) g (graph c' g).
Proof.
  intros l c p o r c' p' S K g. specialize (K g).
  assert (Same : graph c' g = graph c g -> o <> Exit g -> (o, r) <> (Enter g, Ok tt) -> known ((o, r) :: l) g (graph c' g)).
  { intros -> N1 N2. destruct K as [K1 K2]. split.
    - rewrite K1. split; [intro F; now apply finished_before|]. intro F. inversion F; subst; [now destruct N1|assumption].
    - rewrite K2. split; intros [q I]; exists q; [now right|]. destruct I as [I|I]; [injection I as -> ->; now destruct N1|exact I]. }
  inversion S; subst; match goal with H : enter _ _ = _ |- _ => rename H into H4 | H : exit _ _ = _ |- _ => rename H into H4 | H : assign _ _ _ _ = _ |- _ => rename H into H4 end.
  - unfold enter in *. destruct (ctx c); [discriminate|]. injection H4 as <-. cbn [graph] in *.
    destruct (Nat.eq_dec g g0) as [<-|N].
    + rewrite set_same. cbn [toggle]. destruct K as [K1 K2]. split; cbn [status cached].
      * split; [discriminate|]. intro F. inversion F as [|? ? ? ? ? N]; subst. now destruct N.
      * rewrite K2. split; intros [q I]; exists q; [now right|]. destruct I as [I|I]; [discriminate|exact I].
    + apply Same; [now apply set_other|discriminate|congruence].
  - assert (c' = c) by (unfold enter in *; destruct (ctx c); congruence). subst. apply Same; [reflexivity|discriminate|discriminate].
  - unfold exit in *. destruct (get_dependencies (toggle (graph c g0) false)) as [o d] eqn:D. injection H4 as <- <-. cbn [graph] in *.
    destruct (Nat.eq_dec g g0) as [<-|N].
    + rewrite set_same. split.
      * change o with (fst (o, d)). rewrite <- D, deps_status. cbn. split; [intro; apply finished_now|reflexivity].
      * split; [intro; eexists; now left|]. intros _. unfold get_dependencies, toggle in D. cbn [cached status] in D.
        destruct (cached (graph c g)) eqn:C; injection D as <- _; discriminate.
    + apply Same; [now apply set_other|congruence|discriminate].
  - unfold assign in *. destruct (negb (box_open (graph c g0))); [injection H4 as <- <-; apply Same; [reflexivity|discriminate|discriminate]|].
    destruct (dmem str_eqb (arts (graph c g0)) k); injection H4 as <- <-; [apply Same; [reflexivity|discriminate|discriminate]|].
    cbn [graph] in *. destruct (Nat.eq_dec g g0) as [<-|N].
    + rewrite set_same. destruct K as [K1 K2]. split; cbn [status cached].
      * rewrite K1. split; [intro F; apply finished_before; [exact F|discriminate|discriminate]|]. intro F. now inversion F.
      * rewrite K2. split; intros [q I]; exists q; [now right|]. destruct I as [I|I]; [discriminate|exact I].
    + apply Same; [now apply set_other|discriminate|discriminate].
Qed.
Lemma history_known : forall l s, history l s -> forall g, known l g (graph (fst s) g).
Proof.
  intros l s H. induction H as [init|l [c p] o r [c' p'] H IH S].
  - intro g. cbn. split; cbn; [split; [discriminate|intro F; inversion F]|split; [congruence|intros [q []]]].
  - cbn [fst] in *. eapply step_known; eassumption.
Qed.

Lemma sealed_exactly : forall l c p g, history l (c, p) ->
  (sealed c g = Ok tt <-> finished g l) /\ (sealed c g = Err ValueError <-> ~ finished g l).
Proof.
  intros l c p g H. destruct (history_known _ _ H g) as [K _]. cbn [fst] in K. rewrite <- K.
  unfold sealed. destruct (status (graph c g)); split; split; intro; congruence.
Qed.
Lemma dependencies_exactly : forall l c p g, history l (c, p) ->
  ((exists d, snd (get_dependencies (graph c g)) = Ok d) <-> exists r, In (Exit g, r) l) /\
  (snd (get_dependencies (graph c g)) = Err ValueError <-> forall r, ~ In (Exit g, r) l).
Proof.
  intros l c p g H. destruct (history_known _ _ H g) as [K1 K2]. cbn [fst] in *.
  assert (E : (exists r, In (Exit g, r) l) -> cached (graph c g) <> None) by tauto.
  assert (F : finished g l -> exists r, In (Exit g, r) l).
  { clear. intro F. induction F as [r l|o r l F [q IH]]; [exists r; now left|exists q; now right]. }
  unfold get_dependencies. destruct (cached (graph c g)) as [d|] eqn:C.
  - assert (X : exists r, In (Exit g, r) l) by (apply K2; discriminate). cbn [snd]. split; split.
    + intros _. exact X.
    + intros _. now exists d.
    + discriminate.
    + intro N. destruct X as [r I]. destruct (N r I).
  - assert (N : ~ exists r, In (Exit g, r) l) by (intro X; destruct (E X); reflexivity).
    assert (St : status (graph c g) <> GClosed) by (intro S; apply N, F, K1, S).
    destruct (status (graph c g)); [| |congruence]; cbn [snd]; split; split.
    1, 5: intros [d X]; discriminate.
    1, 4: intro X; contradiction.
    1, 3: intros _ r I; apply N; now exists r.
    all: reflexivity.
Qed.

(** * Readers and writers *)
Lemma codec_implemented : forall f p v, IO_Model.implemented f p v = true <-> has_codec f (kind_of p) v.
Proof.
  intros f p v. split.
  - destruct f, p, v; cbn; intro; try discriminate; constructor.
  - intro H. destruct p; cbn in H; inversion H; reflexivity.
Qed.
Lemma codec_missing : forall f p v, ~ has_codec f (kind_of p) v -> IO_Model.implemented f p v = false.
Proof. intros f p v N. destruct (IO_Model.implemented f p v) eqn:I; [|reflexivity]. apply codec_implemented in I. contradiction. Qed.
Lemma one_kind : forall p q, kind_of p = kind_of q <-> IO_Model.same_kind p q = true.
Proof. intros [] []; cbn; split; congruence. Qed.

Section IO.
  Context {V : Type} (loads : IO_Model.format -> str -> result V) (dumps : IO_Model.format -> V -> result str)
    (written_before : IO_Model.format -> V -> str) (elements : V -> result (list V)) (of_list : list V -> V) (content_fp : IO_Model.place -> str -> Z).
  Notation io_read := (IO_Model.io_read loads elements of_list).
  Notation io_write := (IO_Model.io_write dumps written_before content_fp).

  Lemma partitions_read : forall w t f ps k v x, is_partitioned t = Ok true -> ps <> [] -> in_one k ps -> has_codec f k v ->
    (io_read w t f ps v = Ok x <->
     exists vss, Forall2 (fun p vs => exists d, IO_Spec.holds loads w f p d /\ elements d = Ok vs) ps vss /\ x = of_list (List.concat vss)).
  Proof.
    intros w t f ps k v x P N O C. apply IO_Proofs.read_partitions; [exact P|]. destruct ps as [|p ps]; [congruence|].
    split.
    - apply codec_implemented. now rewrite (O p (or_introl eq_refl)).
    - intros q I. apply one_kind. now rewrite (O p (or_introl eq_refl)), (O q (or_intror I)).
  Qed.
  Lemma single_read : forall w t f p v x, is_partitioned t = Ok false -> has_codec f (kind_of p) v ->
    (io_read w t f [p] v = Ok x <-> IO_Spec.holds loads w f p x).
  Proof. intros w t f p v x P C. apply IO_Proofs.read_single; [exact P|]. now apply codec_implemented. Qed.
  Lemma no_codec : forall w t f ps k v d, ps <> [] -> in_one k ps -> ~ has_codec f k v ->
    (is_partitioned t = Ok true \/ exists p, ps = [p]) ->
    io_read w t f ps v = Err NotImplementedError /\
    forall p, In p ps -> io_write w d f p v = (w, Err NotImplementedError).
  Proof.
    intros w t f ps k v d N O C P. split.
    - destruct ps as [|p ps]; [congruence|]. apply IO_Proofs.read_unimplemented.
      + destruct P as [P|[q P]]; [now right|left; congruence].
      + intros q I. apply one_kind. now rewrite (O p (or_introl eq_refl)), (O q (or_intror I)).
      + apply codec_missing. now rewrite (O p (or_introl eq_refl)).
    - intros p I. unfold IO_Model.io_write. rewrite codec_missing; [reflexivity|]. now rewrite (O p I).
  Qed.
  (** Encoding that fails. *)
  Lemma failed_write : forall w d f p v e, has_codec f (kind_of p) v -> dumps f d = Err e -> kind_of p <> InGraph ->
    exists w', io_write w d f p v = (w', Err e) /\ IO_Spec.contains w' p (written_before f d).
  Proof.
    intros w d f p v e C D K. unfold IO_Model.io_write. apply codec_implemented in C. rewrite C.
    destruct p as [path|path|i x]; [| |now destruct K]; cbn [IO_Model.writer]; rewrite D; eexists; (split; [reflexivity|]); constructor; cbn;
      apply (dget_dset_same str_eqb str_eqb_spec).
  Qed.
  Lemma failed_literal : forall w d f i v e, has_codec f InGraph v -> dumps f d = Err e ->
    io_write w d f (IO_Model.LiteralPart i None) v = (w, Err e).
  Proof.
    intros w d f i v e C D. unfold IO_Model.io_write. assert (I := proj2 (codec_implemented f (IO_Model.LiteralPart i None) v) C).
    rewrite I. cbn [IO_Model.writer]. rewrite D. reflexivity.
  Qed.
  Lemma snapshot_exactly : forall w p z q,
    (IO_Model.take_snapshot content_fp w p = Ok (z, q) <-> q = p /\ exists c, IO_Spec.contains w p c /\ z = content_fp p c) /\
    (IO_Model.take_snapshot content_fp w p = Err FileNotFoundError <-> forall c, ~ IO_Spec.contains w p c).
  Proof.
    intros w p z q. destruct p as [path|path|i [x|]]; cbn [IO_Model.take_snapshot IO_Model.stored].
    - destruct (dget str_eqb (IO_Model.local w) path) as [c|] eqn:D; cbn [rmap bind]; (split; split).
      + intro H. injection H as <- <-. split; [reflexivity|]. exists c. split; [now constructor|reflexivity].
      + intros [-> (c' & H & ->)]. inversion H; subst. congruence.
      + discriminate.
      + intro H. destruct (H c). now constructor.
      + discriminate.
      + intros [-> (c' & H & ->)]. inversion H; subst. congruence.
      + intros _ c H. inversion H; subst. congruence.
      + reflexivity.
    - destruct (dget str_eqb (IO_Model.gcs w) path) as [c|] eqn:D; cbn [rmap bind]; (split; split).
      + intro H. injection H as <- <-. split; [reflexivity|]. exists c. split; [now constructor|reflexivity].
      + intros [-> (c' & H & ->)]. inversion H; subst. congruence.
      + discriminate.
      + intro H. destruct (H c). now constructor.
      + discriminate.
      + intros [-> (c' & H & ->)]. inversion H; subst. congruence.
      + intros _ c H. inversion H; subst. congruence.
      + reflexivity.
    - cbn [rmap bind]. split; split.
      + intro H. injection H as <- <-. split; [reflexivity|]. exists x. split; [now constructor|reflexivity].
      + intros [-> (c' & H & ->)]. inversion H; subst. reflexivity.
      + discriminate.
      + intro H. destruct (H x). now constructor.
    - split; split.
      + discriminate.
      + intros [-> (c' & H & ->)]. inversion H.
      + intros _ c H. inversion H.
      + reflexivity.
  Qed.
End IO.

Lemma literal_snapshot_exactly : forall content_fp (p : Storage_Model.partition) i v,
  dget str_eqb (Storage_Model.p_fields p) $"id" = Some (Some i) -> dget str_eqb (Storage_Model.p_fields p) $"value" = Some v ->
  IO_Model.literal_snapshot content_fp p =
    match v with Some x => Ok (content_fp (IO_Model.LiteralPart i (Some x)) x, p) | None => Err FileNotFoundError end.
Proof. intros content_fp p i v I D. unfold IO_Model.literal_snapshot, IO_Model.place_of. rewrite I, D. now destruct v. Qed.

(** * What producers return *)
From Verif Require Import Hints_Model Partitions_Model PyTypes_Model Dispatch_Model Views_Model Producers_Model Producers_Spec Producers_Proofs.
Lemma returns_each : forall (V A : Type) (from_annotation : annotation V A -> mode -> result (view V A)) (aeqb : A -> A -> bool),
  (forall a b, aeqb a b = true <-> a = b) -> forall same d b r c, NoDup (map fst (d_fields d)) -> d_build d = Some b -> m_return b = Some r ->
  define from_annotation aeqb same d = Ok c ->
  match r with
  | RTuple l => Forall2 (fun ann v => from_annotation ann WRITE = Ok v) l (outputs c)
  | ROne a => exists v, from_annotation a WRITE = Ok v /\ outputs c = [v]
  end.
Proof.
  intros V A from aeqb Ha same d b r c N B R H. apply (define_iff from aeqb Ha) in H; [|exact N].
  destruct H as [_ (b' & r' & B' & _ & R' & _ & _ & O & _) _ _ _].
  rewrite B in B'. injection B' as <-. rewrite R in R'. injection R' as <-.
  destruct r as [l|a]; cbn [returned] in O; [exact O|]. inversion O as [|? v ? l' E F]; subst. inversion F; subst. now exists v.
Qed.

(** * The views of Python's types *)
From Verif Require Import Views_Spec Views_Proofs.
Lemma builtin_registered : forall priority, exists reg, define_views builtin_abstract builtin_type priority [] builtin_views = Ok reg /\
  forall A (h : phint) v, get_class_for builtin_sub PythonBuiltin reg (Annotation (A := A) h []) = Ok v <->
    exists k, python_type_of h = Some k /\ builtin_view_of k v.
Proof.
  intro priority. eexists. split; [reflexivity|]. intros A h v.
  rewrite (proj1 (class_registered builtin_sub builtin_abstract builtin_type priority builtin_views _ PythonBuiltin (Annotation (A := A) h [])
    eq_refl (fun e I => match I with end)) v). cbn [root].
  split; intros (k & E & H); exists k; (split; [exact E|]).
  - destruct H as (a & b & S & F & <- & _). destruct v; try discriminate; constructor.
  - assert (G : In v builtin_views /\ builtin_abstract v = false /\ builtin_type v = k) by (destruct H; cbn; tauto).
    destruct G as (I & F & T). clear H. apply in_split in I. destruct I as (a & b & S). exists a, b. split; [exact S|]. split; [exact F|]. split; [exact T|].
    intros w J Fw Tw. exfalso. assert (N : NoDup builtin_views) by (repeat constructor; cbn; intuition discriminate).
    rewrite S in N. apply NoDup_remove_2 in N. apply N. assert (w = v) by (subst k; destruct w, v; cbn in *; congruence). now subst.
Qed.

(** * Hints that are no types *)
From Verif Require Import Hints_Spec Hints_Proofs.
Section NoType.
  Context {C : Type} (issub : C -> C -> bool) (is_none : C -> bool) (dict_class union_class : C) (same : hint C -> hint C -> bool).
  Lemma no_type_accepted : forall k : hint C, accepted k = false <-> no_type k.
  Proof. intro k. split; [destruct k; try discriminate; constructor|intro H; destruct H; reflexivity]. Qed.
  Lemma no_type_below : forall k, no_type k -> (forall c, lenient_issubclass issub is_none dict_class union_class same k c = Ok false) /\
    (forall cs, lenient_issubclass_any issub is_none dict_class union_class same k cs = Ok false).
  Proof.
    intros k H. apply no_type_accepted in H. split.
    - intro c. unfold lenient_issubclass. destruct c; cbn [lenient]; rewrite H; reflexivity.
    - intro cs. unfold lenient_issubclass_any. now rewrite H.
  Qed.
  Lemma type_below_any : forall k, ~ no_type k -> lenient_issubclass issub is_none dict_class union_class same k HAny = Ok true.
  Proof.
    intros k H. apply lenient_any. destruct (accepted k) eqn:A; [reflexivity|]. destruct H. now apply no_type_accepted.
  Qed.
End NoType.
