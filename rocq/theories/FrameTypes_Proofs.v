(** Proofs about the NumPy and pandas type systems. *)
From Coq Require Import ZArith List Ascii String Bool Lia Arith.
From Verif Require Import Base Str Str_Proofs Base_Proofs TypeSystem_Model Types_Model Types_Spec Types_Proofs PyTypes_Model PyTypes_Proofs
  ArrowTypes_Spec ArrowTypes_Proofs FrameTypes_Model FrameTypes_Spec.
From Verif Require Layout_Proofs.
Import ListNotations.
Open Scope list_scope.

(** * What the sorted registries do *)
Lemma sorted_np : priority_sorted (map (fun a => (a_key a, a)) numpy_adapters) =
  [np_float F64; np_int B64; np_uint B64; np_float F32; np_int B32; np_uint B32; np_float F16; np_int B16; np_uint B16; np_int B8; np_uint B8;
   np_binary; np_boolean; np_string; np_array].
Proof. reflexivity. Qed.
Lemma sorted_pd : priority_sorted (map (fun a => (a_key a, a)) [pd_series; pd_frame]) = [pd_series; pd_frame].
Proof. reflexivity. Qed.

Definition scalar_class (t : ty) : option npclass :=
  match t with
  | Binary _ _ => Some NpBytes
  | Scalar Boolean _ => Some NpBool
  | Scalar String _ => Some NpStr
  | Scalar (Float w) _ => Some (NpFloat w)
  | Scalar (Int w) _ => Some (NpInt w)
  | Scalar (UInt w) _ => Some (NpUInt w)
  | _ => None
  end.
Lemma scalar_class_spec : forall t c, scalar_class t = Some c <-> np_scalar_type t c.
Proof.
  intros t c. split; intro H; [|destruct H; reflexivity]. destruct t as [[]| | | | | | | | | | |]; try discriminate H; injection H as <-; constructor.
Qed.
Lemma no_scalar_class : forall t, scalar_class t = None <-> forall c, ~ np_scalar_type t c.
Proof.
  intros t. split.
  - intros H c S. apply scalar_class_spec in S. congruence.
  - intro H. destruct (scalar_class t) as [c|] eqn:E; [|reflexivity]. apply scalar_class_spec in E. destruct (H c E).
Qed.
Definition np_step (conv : ty -> result obj) (t : ty) : result obj :=
  match scalar_class t with
  | Some c => Ok (Class c)
  | None => if is_list t then bind (element_of t) (fun e => bind (conv e) array_of) else Err NotImplementedError
  end.
Lemma np_of_S : forall n t, np_of (S n) t = np_step (np_of n) t.
Proof.
  intros n t. unfold np_of. cbn [to_system]. unfold numpy_system at 2, system_of. cbn [convert]. rewrite sorted_np.
  destruct t as [[]| | | | | | | | | | |]; try destruct w; reflexivity.
Qed.
Definition class_ty (c : npclass) : option ty :=
  match c with
  | NpBytes => Some (Binary None plain)
  | NpBool => Some (Scalar Boolean plain)
  | NpStr => Some (Scalar String plain)
  | NpFloat w => Some (Scalar (Float w) plain)
  | NpInt w => Some (Scalar (Int w) plain)
  | NpUInt w => Some (Scalar (UInt w) plain)
  | NpOther _ => None
  end.
Definition unsized (c : npclass) (sized : bool) : bool := negb (sized && match c with NpBytes | NpStr => true | _ => false end).
Definition read_step (conv : obj -> result ty) (x : obj) : result ty :=
  match x with
  | Class c => match class_ty c with Some t => Ok t | None => Err NotImplementedError end
  | Dtype c sized => match class_ty c with Some t => if unsized c sized then Ok t else Err NotImplementedError | None => Err NotImplementedError end
  | Array _ _ | Objects _ _ => bind (first_of x) (fun v => rmap (fun e => List e plain) (conv v))
  | Series _ | DataFrame _ => Err ValueError
  | OtherObj _ => Err NotImplementedError
  end.
Lemma of_np_S : forall n x, of_np (S n) x = read_step (of_np n) x.
Proof.
  intros n x. unfold of_np. cbn [to_artigraph]. unfold numpy_system at 2, system_of. cbn [convert]. rewrite sorted_np.
  destruct x as [[]|[] []|? []|? ?| | |]; try destruct w; reflexivity.
Qed.
Definition pd_step (conv : ty -> result obj) (t : ty) : result obj :=
  match t with
  | List (Struct _ fields _) _ | Collection _ (Struct _ fields _) _ _ _ =>
      bind (mapM (fun nf => rmap (pair (fst nf)) (conv (List (snd nf) plain))) fields) (fun cols =>
      rmap DataFrame (mapM (fun nc => rmap (pair (Name (fst nc))) (as_column (snd nc))) cols))
  | List e _ | Collection _ e _ _ _ => bind (conv e) series_of
  | t => match scalar_class t with Some c => Ok (Class c) | None => Err NotImplementedError end
  end.
Lemma not_implemented_id : forall A (r : result A), match r with Err NotImplementedError => Err NotImplementedError | r => r end = r.
Proof. intros A [|[]]; reflexivity. Qed.
Lemma pd_of_S : forall n t, pd_of (S n) t = pd_step (pd_of n) t.
Proof.
  intros n t. unfold pd_of. cbn [to_system]. unfold pandas_system at 2. cbn [convert]. rewrite sorted_pd. unfold numpy_system at 1, system_of. cbn [convert]. rewrite sorted_np.
  destruct t as [[]| | | | |[]|? []| | | | |]; try destruct w; try reflexivity.
Qed.
Definition read_frame (conv : obj -> result ty) (columns : list (label * column)) : result ty :=
  bind (mapM (fun lc => bind (conv (select columns (fst lc))) (fun t => rmap (pair (fst lc)) (element_of t))) columns) (fun fs =>
  rmap (fun fields => List (Struct anon fields plain) plain) (mapM named (dict_of label_eqb fs))).
Definition read_series (conv : obj -> result ty) (c : column) : result ty :=
  match c with
  | ColObjects None => Err IndexError
  | ColObjects (Some true) => Ok (List (Scalar String plain) plain)
  | ColObjects (Some false) => Err NotImplementedError
  | ColOf c sized => rmap (fun e => List e plain) (conv (Dtype c sized))
  end.
Lemma of_pd_S : forall n x, of_pd (S n) x = match x with
  | Series c => read_series (of_pd n) c
  | DataFrame cols => read_frame (of_pd n) cols
  | x => read_step (of_pd n) x
  end.
Proof.
  intros n x. unfold of_pd. cbn [to_artigraph]. unfold pandas_system at 2. cbn [convert]. rewrite sorted_pd. unfold numpy_system at 1, system_of. cbn [convert]. rewrite sorted_np.
  destruct x as [[]|[] []|? []|? ?|[? ?|[[]|]]| |]; try destruct w; try reflexivity.
  all: cbn -[first_of]; destruct (bind _ _) as [|[]]; reflexivity.
Qed.
Arguments np_of : simpl never.
Arguments of_np : simpl never.
Arguments pd_of : simpl never.
Arguments of_pd : simpl never.
Arguments max_dims : simpl never.

(** * NumPy *)
Lemma array_example : forall k c, array_of (np_example k c) = if Nat.leb (S k) 64 then Ok (np_example (S k) c) else Err ValueError.
Proof.
  intros [|k] c; [reflexivity|]. cbn [np_example array_of]. rewrite repeat_length. unfold max_dims, Nat.ltb. reflexivity.
Qed.
Lemma arrayable_fun : forall t k c, arrayable k t c -> forall k' c', arrayable k' t c' -> k' = k /\ c' = c.
Proof.
  intros t k c A. induction A as [t c S|k e m c A IH]; intros k' c' B; inversion B as [? ? S'|? ? ? ? B']; subst.
  - apply scalar_class_spec in S, S'. split; congruence.
  - inversion S.
  - inversion S'.
  - destruct (IH _ _ B') as [-> ->]. auto.
Qed.
(** Every type is so many Lists of a scalar, or of something else. *)
Lemma lists_of : forall t, (exists k c, arrayable k t c) \/ np_refused t NotImplementedError.
Proof.
  induction t as [s m|b m|p m|nm t i m IH|f s m|e m IH|nm e p c m IH|k v m IHk IHv|e m IH|nm fs m IH|p m|p m] using ty_ind';
    try (right; apply nr_other; [intros ? S; inversion S|discriminate]; fail).
  - destruct (scalar_class (Scalar s m)) as [c|] eqn:E.
    + left. exists 0, c. constructor. apply scalar_class_spec. exact E.
    + right. apply nr_other; [apply no_scalar_class; exact E|discriminate].
  - left. exists 0, NpBytes. constructor. constructor.
  - destruct IH as [(k & c & A)|R]; [left; exists (S k), c; constructor; exact A|right; apply nr_list; exact R].
Qed.
Lemma refused_not_arrayable : forall t, np_refused t NotImplementedError -> forall k c, ~ arrayable k t c.
Proof.
  intros t R. remember NotImplementedError as x. induction R as [t S L|e m x R IH|k t c A D]; intros k' c' B.
  - inversion B; subst; [exact (S c' ltac:(assumption))|]. destruct (L _ _ eq_refl).
  - subst. inversion B as [? ? S|? ? ? ? B']; subst; [inversion S|]. exact (IH eq_refl _ _ B').
  - discriminate Heqx.
Qed.
Lemma np_example_of : forall k t c, arrayable k t c -> forall n, k < n -> np_of n t = if Nat.leb k 64 then Ok (np_example k c) else Err ValueError.
Proof.
  intros k t c A. induction A as [t c S|k e m c A IH]; intros n L; (destruct n as [|n]; [lia|]); rewrite np_of_S; unfold np_step.
  - apply scalar_class_spec in S. rewrite S. reflexivity.
  - cbn [scalar_class is_list element_of bind]. rewrite IH by lia. destruct (Nat.leb k 64) eqn:E; cbn [bind].
    + rewrite array_example. reflexivity.
    + destruct (Nat.leb (S k) 64) eqn:E'; [|reflexivity]. apply Nat.leb_le in E'. apply Nat.leb_gt in E. lia.
Qed.
Lemma np_not_implemented : forall t, constructed t -> np_refused t NotImplementedError -> forall n, nesting t <= n -> np_of n t = Err NotImplementedError.
Proof.
  intros t C R. remember NotImplementedError as x. induction R as [t S L|e m x R IH|k t c A D]; intros n LE; [| |discriminate Heqx].
  - pose proof (nesting_pos t). destruct n as [|n]; [lia|]. rewrite np_of_S. unfold np_step. rewrite (proj2 (no_scalar_class t) S).
    destruct (is_list t) eqn:IL; [|reflexivity]. destruct t as [| | | | |e m|nm e p c m| | | | |]; try discriminate IL; [destruct (L _ _ eq_refl)|].
    inversion C as [| | | | | |? ? ? ? ? CE (sn & sf & sm & -> & _)| | | | |]; subst. cbn [element_of bind]. cbn [nesting] in LE. destruct n as [|n]; [lia|].
    rewrite np_of_S. reflexivity.
  - subst x. cbn [nesting] in LE. destruct n as [|n]; [lia|]. rewrite np_of_S. unfold np_step. cbn [scalar_class is_list element_of bind]. rewrite IH; [reflexivity|inversion C; assumption|reflexivity|lia].
Qed.
Lemma arrayable_nesting : forall k t c, arrayable k t c -> nesting t = S k.
Proof. intros k t c A. induction A as [t c S|k e m c A IH]; [destruct S; reflexivity|]. cbn [nesting]. rewrite IH. reflexivity. Qed.
Theorem np_exists : forall n t, constructed t -> nesting t <= n ->
  (exists k c, arrayable k t c /\ k <= 64 /\ np_of n t = Ok (np_example k c)) \/
  (~ np_storable t /\ exists e, np_refused t e /\ np_of n t = Err e).
Proof.
  intros n t C L. destruct (lists_of t) as [(k & c & A)|R].
  - pose proof (arrayable_nesting _ _ _ A). pose proof (np_example_of k t c A n ltac:(lia)) as E. destruct (Nat.leb k 64) eqn:B.
    + left. exists k, c. apply Nat.leb_le in B. auto.
    + right. apply Nat.leb_gt in B. split; [|exists ValueError; split; [eapply nr_deep; eassumption|exact E]].
      intros (k' & c' & A' & L'). destruct (arrayable_fun _ _ _ A _ _ A'). lia.
  - right. split; [|exists NotImplementedError; split; [exact R|apply np_not_implemented; assumption]].
    intros (k & c & A & _). exact (refused_not_arrayable t R k c A).
Qed.

Lemma class_stored : forall t c, np_scalar_type t c -> class_ty c = Some (np_stored t).
Proof. intros t c S. destruct S; reflexivity. Qed.
Lemma of_class : forall n t c, np_scalar_type t c -> of_np (S n) (Class c) = Ok (np_stored t).
Proof. intros n t c S. rewrite of_np_S. cbn [read_step]. rewrite (class_stored t c S). reflexivity. Qed.
Lemma np_example_back : forall k t c, arrayable k t c -> forall m, k < m -> of_np m (np_example k c) = Ok (np_stored t).
Proof.
  intros k t c A. induction A as [t c S|k e mt c A IH]; intros m L; (destruct m as [|m]; [lia|]).
  - apply of_class. exact S.
  - rewrite of_np_S. cbn [np_example read_step np_stored]. specialize (IH m ltac:(lia)). destruct k as [|k]; cbn [repeat first_of bind]; cbn [np_example repeat] in IH; rewrite IH; reflexivity.
Qed.
Theorem np_round_trip : forall n t x, constructed t -> np_of n t = Ok x -> forall m, n <= m -> of_np m x = Ok (np_stored t).
Proof.
  induction n as [|n IH]; intros t x C H m L; [discriminate H|]. destruct m as [|m]; [lia|]. rewrite np_of_S in H. unfold np_step in H.
  destruct (scalar_class t) as [c|] eqn:S.
  - injection H as <-. apply of_class. apply scalar_class_spec. exact S.
  - destruct t as [| | | | |e mt|nm e p c mt| | | | |]; try discriminate H; cbn [is_list element_of bind] in H; destruct (np_of n e) as [y|] eqn:E; try discriminate H; cbn [bind] in H.
    + inversion C; subst. specialize (IH e y ltac:(assumption) E m ltac:(lia)). rewrite of_np_S. cbn [np_stored].
      destruct y as [c|c s|shape c|shape f| | |]; try discriminate H; cbn [array_of] in H.
      * injection H as <-. cbn [read_step first_of bind]. rewrite IH. reflexivity.
      * destruct (Nat.ltb _ _) in H; [|discriminate H]. injection H as <-. destruct shape as [|a shape]; [destruct m as [|m]; [discriminate IH|rewrite of_np_S in IH; discriminate IH]|].
        cbn [read_step first_of bind]. rewrite IH. reflexivity.
      * destruct (Nat.ltb _ _) in H; [|discriminate H]. injection H as <-. destruct shape as [|a shape]; [destruct m as [|m]; [discriminate IH|rewrite of_np_S in IH; discriminate IH]|].
        cbn [read_step first_of bind]. rewrite IH. reflexivity.
    + inversion C as [| | | | | |? ? ? ? ? CE (sn & sf & sm & -> & _)| | | | |]; subst. destruct n as [|n]; [discriminate E|]. rewrite np_of_S in E. discriminate E.
Qed.
Theorem np_lossless : forall t, np_storable t -> (np_stored t = t <-> np_kept t).
Proof.
  intros t (k & c & A & _). induction A as [t c S|k e m c A IH].
  - destruct S; cbn; split; intro H; try (injection H as <- <-); try (injection H as <-); try constructor; inversion H; reflexivity.
  - cbn. split; intro H.
    + injection H as H1 H2. subst m. constructor. apply IH. exact H1.
    + inversion H; subst. rewrite (proj2 IH) by assumption. reflexivity.
Qed.

(** Reading any array *)
Lemma class_known : forall c, known c <-> exists t, class_ty c = Some t.
Proof.
  intros c. split.
  - intros [t S]. exists (np_stored t). apply class_stored. exact S.
  - intros [t H]. exists t. apply scalar_class_spec. destruct c; try discriminate H; injection H as <-; reflexivity.
Qed.
Lemma unsized_iff : forall c sized, unsized c sized = true <-> (sized = true -> c <> NpBytes /\ c <> NpStr).
Proof.
  intros c [|]; unfold unsized; cbn; split; intro H; try reflexivity; try discriminate.
  - intros _. destruct c; try discriminate H; split; discriminate.
  - destruct (H eq_refl) as [A B]. destruct c; try reflexivity; contradiction.
Qed.
Lemma array_read : forall shape c n, S (Datatypes.length shape) <= n ->
  ((exists t, of_np n (Array shape c) = Ok t) <-> known c /\ shape <> [] /\ Forall (fun k => 0 < k) shape).
Proof.
  induction shape as [|a shape IH]; intros c n L; (destruct n as [|n]; [cbn in L; lia|]); rewrite of_np_S; cbn [read_step].
  - split; [intros [t T]; discriminate T|]. intros (_ & N & _). destruct (N eq_refl).
  - destruct a as [|a]; [split; [intros [t T]; discriminate T|intros (_ & _ & F); inversion F; lia]|]. destruct shape as [|b shape]; cbn [first_of bind].
    + destruct n as [|n]; [cbn in L; lia|]. rewrite of_np_S. cbn [read_step]. rewrite class_known. split.
      * intros [t T]. destruct (class_ty c); [|discriminate T]. split; [eauto|]. split; [discriminate|constructor; [lia|constructor]].
      * intros ([t ->] & _ & _). cbn. eauto.
    + specialize (IH c n ltac:(cbn in *; lia)). split.
      * intros [t T]. destruct (of_np n (Array (b :: shape) c)) as [u|]; [|discriminate T]. destruct (proj1 IH (ex_intro _ u eq_refl)) as (K & _ & F).
        split; [exact K|]. split; [discriminate|constructor; [lia|exact F]].
      * intros (K & _ & F). inversion F; subst. destruct (proj2 IH) as [u ->]; [split; [exact K|split; [discriminate|assumption]]|]. cbn. eauto.
Qed.
Lemma objects_read : forall f, (forall n, np_depth f <= n -> ((exists t, of_np n f = Ok t) <-> np_readable f)) -> forall shape n,
  Datatypes.length shape + np_depth f <= n -> 1 <= n ->
  ((exists t, of_np n (Objects shape f) = Ok t) <-> np_readable f /\ shape <> [] /\ Forall (fun k => 0 < k) shape).
Proof.
  intros f K. induction shape as [|a shape IH]; intros n L P; (destruct n as [|n]; [lia|]); rewrite of_np_S; cbn [read_step].
  - split; [intros [t T]; discriminate T|]. intros (_ & N & _). destruct (N eq_refl).
  - destruct a as [|a]; [split; [intros [t T]; discriminate T|intros (_ & _ & F); inversion F; lia]|]. destruct shape as [|b shape]; cbn [first_of bind].
    + specialize (K n ltac:(cbn in L; lia)). split.
      * intros [t T]. destruct (of_np n f) as [u|]; [|discriminate T]. split; [apply K; eauto|]. split; [discriminate|constructor; [lia|constructor]].
      * intros (R & _ & _). destruct (proj2 K R) as [u ->]. cbn. eauto.
    + specialize (IH n ltac:(cbn in *; lia) ltac:(cbn in *; lia)). split.
      * intros [t T]. destruct (of_np n (Objects (b :: shape) f)) as [u|]; [|discriminate T]. destruct (proj1 IH (ex_intro _ u eq_refl)) as (R & _ & F).
        split; [exact R|]. split; [discriminate|constructor; [lia|exact F]].
      * intros (R & _ & F). inversion F; subst. destruct (proj2 IH) as [u ->]; [split; [exact R|split; [discriminate|assumption]]|]. cbn. eauto.
Qed.
Lemma np_depth_pos : forall x, 1 <= np_depth x.
Proof. induction x; cbn; lia. Qed.
Theorem np_readable_iff : forall x n, np_depth x <= n -> ((exists t, of_np n x = Ok t) <-> np_readable x).
Proof.
  induction x as [c|c s|shape c|shape f IH|c|cols|s]; intros n L; cbn [np_depth] in L.
  - destruct n as [|n]; [lia|]. rewrite of_np_S. cbn [read_step]. split.
    + intros [t T]. constructor. apply class_known. destruct (class_ty c); [eauto|discriminate T].
    + intro R. inversion R; subst. match goal with H : known c |- _ => apply class_known in H; destruct H as [t ->] end. eauto.
  - destruct n as [|n]; [lia|]. rewrite of_np_S. cbn [read_step]. split.
    + intros [t T]. destruct (class_ty c) as [u|] eqn:E; [|discriminate T]. destruct (unsized c s) eqn:U; [|discriminate T].
      constructor; [apply class_known; eauto|apply unsized_iff; exact U].
    + intro R. inversion R as [|? ? K S| |]; subst. apply class_known in K. destruct K as [t ->]. apply unsized_iff in S. rewrite S. eauto.
  - rewrite array_read by exact L. split; [intros (K & N & F); constructor; assumption|intro R; inversion R; auto].
  - pose proof (np_depth_pos f). rewrite objects_read; [|exact IH|exact L|lia]. split; [intros (K & N & F); constructor; assumption|intro R; inversion R; auto].
  - destruct n as [|n]; [lia|]. rewrite of_np_S. split; [intros [t T]; discriminate T|intro R; inversion R].
  - destruct n as [|n]; [lia|]. rewrite of_np_S. split; [intros [t T]; discriminate T|intro R; inversion R].
  - destruct n as [|n]; [lia|]. rewrite of_np_S. split; [intros [t T]; discriminate T|intro R; inversion R].
Qed.
Lemma class_scalar : forall c t, class_ty c = Some t -> np_scalar_type t c /\ np_stored t = t.
Proof. intros c t H. destruct c; try discriminate H; injection H as <-; split; constructor. Qed.
Theorem np_back : forall n x t, of_np n x = Ok t -> exists k c, dims x k c /\ arrayable k t c /\ np_kept t /\
  forall m, n <= m -> np_of m t = if Nat.leb k 64 then Ok (np_example k c) else Err ValueError.
Proof.
  enough (G : forall n x t, of_np n x = Ok t -> exists k c, dims x k c /\ arrayable k t c /\ np_kept t /\ k < n).
  { intros n x t H. destruct (G n x t H) as (k & c & D & A & K & L). exists k, c. repeat (split; [assumption|]). intros m LE. apply np_example_of; [exact A|lia]. }
  induction n as [|n IH]; intros x t H; [discriminate H|]. rewrite of_np_S in H.
  assert (REST : forall v, bind (first_of x) (fun v => rmap (fun e => List e plain) (of_np n v)) = Ok t -> first_of x = Ok v ->
     exists e k c, t = List e plain /\ dims v k c /\ arrayable k e c /\ np_kept e /\ k < n).
  { intros v B F. rewrite F in B. cbn [bind] in B. destruct (of_np n v) as [e|] eqn:E; [|discriminate B]. injection B as <-.
    destruct (IH v e E) as (k & c & D & A & K & L). exists e, k, c. auto. }
  destruct x as [c|c s|shape c|shape f|c|cols|s]; cbn [read_step] in H; try discriminate H.
  - destruct (class_ty c) as [u|] eqn:E; [|discriminate H]. injection H as <-. destruct (class_scalar c u E) as [S _].
    exists 0, c. split; [constructor|]. split; [constructor; exact S|]. split; [destruct c; try discriminate E; injection E as <-; constructor|lia].
  - destruct (class_ty c) as [u|] eqn:E; [|discriminate H]. destruct (unsized c s); [|discriminate H]. injection H as <-. destruct (class_scalar c u E) as [S _].
    exists 0, c. split; [constructor|]. split; [constructor; exact S|]. split; [destruct c; try discriminate E; injection E as <-; constructor|lia].
  - destruct shape as [|[|a] [|b shape]]; try discriminate H.
    + destruct (REST _ H eq_refl) as (e & k & c' & -> & D & A & K & L). inversion D; subst. exists 1, c'. split; [apply (dm_array [S a])|]. split; [constructor; exact A|]. split; [constructor; exact K|lia].
    + destruct (REST _ H eq_refl) as (e & k & c' & -> & D & A & K & L). inversion D; subst. exists (S (Datatypes.length (b :: shape))), c'.
      split; [apply (dm_array (S a :: b :: shape))|]. split; [constructor; exact A|]. split; [constructor; exact K|lia].
  - destruct shape as [|[|a] [|b shape]]; try discriminate H.
    + destruct (REST _ H eq_refl) as (e & k & c' & -> & D & A & K & L). exists (S k), c'. split; [apply (dm_objects [S a] f k c' D)|]. split; [constructor; exact A|]. split; [constructor; exact K|lia].
    + destruct (REST _ H eq_refl) as (e & k & c' & -> & D & A & K & L). inversion D as [| | |? ? k2 ? D2]; subst. exists (S (Datatypes.length (b :: shape) + k2)), c'.
      split; [apply (dm_objects (S a :: b :: shape) f k2 c' D2)|]. split; [constructor; exact A|]. split; [constructor; exact K|lia].
Qed.

(** * pandas *)
Lemma label_eqb_spec : forall a b, label_eqb a b = true <-> a = b.
Proof. intros [a|a] [b|b]; cbn; rewrite ?str_eqb_spec; split; intro H; try discriminate; congruence. Qed.
Lemma dict_of_labels : forall (V : Type) (l : list (label * V)), NoDup (map fst l) -> dict_of label_eqb l = l.
Proof.
  intros V l. unfold dict_of. enough (G : forall acc, NoDup (map fst (acc ++ l)) -> dupdate label_eqb acc l = acc ++ l).
  { intro N. apply (G []). exact N. }
  induction l as [|[k v] l IH]; intros acc N; [cbn; now rewrite app_nil_r|].
  cbn [dupdate fold_left]. unfold dupdate in IH. cbn [fst snd].
  assert (E : dset label_eqb acc k v = acc ++ [(k, v)]).
  { assert (Nk : ~ In k (map fst acc)).
    { rewrite map_app in N. cbn [map fst] in N. apply NoDup_remove_2 in N. intro I. apply N. apply in_or_app. now left. }
    clear -Nk. induction acc as [|[k' v'] acc IH]; [reflexivity|]. cbn [dset app].
    cbn [map fst] in Nk. destruct (label_eqb k' k) eqn:Ek; [apply label_eqb_spec in Ek; exfalso; apply Nk; now left|].
    f_equal. apply IH. intro I. apply Nk. now right. }
  rewrite E. rewrite IH; [now rewrite <- app_assoc|]. now rewrite <- app_assoc.
Qed.
Lemma select_one : forall cols l c, NoDup (map fst cols) -> In (l, c) cols -> select cols l = Series c.
Proof.
  intros cols l c ND I. enough (F : filter (fun lc => label_eqb (fst lc) l) cols = [(l, c)]) by (unfold select; rewrite F; reflexivity).
  induction cols as [|[l' c'] cols IH]; [destruct I|]. cbn [map fst] in ND. inversion ND as [|? ? NI ND']; subst. cbn [filter fst]. destruct I as [E|I].
  - injection E as -> ->. rewrite (proj2 (label_eqb_spec l l) eq_refl). f_equal. clear -NI. induction cols as [|[a b] cols IH]; [reflexivity|]. cbn [filter fst].
    destruct (label_eqb a l) eqn:E; [apply label_eqb_spec in E; subst; destruct NI; left; reflexivity|]. apply IH. intro I. apply NI. right. exact I.
  - destruct (label_eqb l' l) eqn:E; [|exact (IH ND' I)]. apply label_eqb_spec in E. subst. destruct NI. apply in_map_iff. exists (l, c). auto.
Qed.

Lemma series_example : forall c, known c -> series_of (Class c) = Ok (Series (example_column c)).
Proof. intros c [t S]. destruct S; reflexivity. Qed.
Lemma struct_not_scalar : forall n f m c, ~ np_scalar_type (Struct n f m) c.
Proof. intros n f m c S. inversion S. Qed.
Lemma columns_fun : forall t fields fields', columns_of t fields -> columns_of t fields' -> fields = fields'.
Proof. intros t f f' [(n & m & m' & ->)|(n & n' & m & p & c & m' & ->)] [(a & b & d & E)|(a & b & d & g & h & i & E)]; inversion E; reflexivity. Qed.
Lemma columns_step : forall n t fields, columns_of t fields -> pd_of (S n) t =
  bind (mapM (fun nf => rmap (pair (fst nf)) (pd_of n (List (snd nf) plain))) fields) (fun cols =>
  rmap DataFrame (mapM (fun nc => rmap (pair (Name (fst nc))) (as_column (snd nc))) cols)).
Proof. intros n t fields [(a & m & m' & ->)|(a & b & m & p & c & m' & ->)]; rewrite pd_of_S; reflexivity. Qed.

Definition pd_answered (n : nat) (t : ty) : Prop :=
  (pd_storable t /\ exists x, pd_example t x /\ pd_of n t = Ok x) \/ (~ pd_storable t /\ exists e, pd_refused t e /\ pd_of n t = Err e).
Lemma list_storable : forall e m, pd_storable (List e m) -> (exists c, np_scalar_type e c) \/ exists n fields m', e = Struct n fields m'.
Proof.
  intros e m S. inversion S as [? ? C|? ? c C|? fields C]; subst.
  - inversion C.
  - eauto.
  - destruct C as [(n & a & b & E)|(n & n' & a & p & c & b & E)]; [injection E as -> _; eauto|discriminate E].
Qed.
Lemma frame_answered : forall n t fields, columns_of t fields -> (forall nf, In nf fields -> pd_answered n (List (snd nf) plain)) -> pd_answered (S n) t.
Proof.
  intros n t fields CO K. unfold pd_answered. rewrite (columns_step n t fields CO).
  assert (ST : pd_storable t <-> Forall (fun nf => exists c, np_scalar_type (snd nf) c) fields).
  { split; [|intro F; eapply ps_frame; eassumption]. intro S. inversion S as [? ? C|? ? c C|? fields' C]; subst.
    - destruct CO as [(a & m & m' & ->)|(a & b & m & p & d & m' & ->)]; inversion C.
    - destruct CO as [(a & b & d & E)|(a & b & d & p & g & h & E)]; [injection E as -> _; inversion C|discriminate E].
    - rewrite (columns_fun t fields fields' CO C). assumption. }
  assert (F : (exists cols, mapM (fun nf => rmap (pair (fst nf)) (pd_of n (List (snd nf) plain))) fields = Ok cols /\
                Forall2 (fun nf nc => fst nc = fst nf /\ pd_storable (List (snd nf) plain) /\ pd_example (List (snd nf) plain) (snd nc)) fields cols) \/
              (exists nf e, In nf fields /\ ~ pd_storable (List (snd nf) plain) /\ pd_refused (List (snd nf) plain) e /\
                mapM (fun nf => rmap (pair (fst nf)) (pd_of n (List (snd nf) plain))) fields = Err e)).
  { clear -K. induction fields as [|[f t] l IH]; [left; exists []; split; [reflexivity|constructor]|]. cbn [mapM fst snd].
    destruct (K _ (or_introl eq_refl)) as [(S & x & X & E)|(S & e & R & E)]; cbn [snd] in *; rewrite E; cbn [rmap bind].
    - destruct IH as [(cols & M & F2)|(nf & e & I & S' & R & M)]; [intros nf I; exact (K nf (or_intror I))| |]; rewrite M; cbn [bind].
      + left. eexists. split; [reflexivity|]. constructor; [auto|exact F2].
      + right. exists nf, e. split; [right; exact I|auto].
    - right. exists (f, t), e. split; [left; reflexivity|auto]. }
  destruct F as [(cols & -> & F2)|(nf & e & I & S & R & ->)]; cbn [bind].
  - assert (G : (Forall (fun nf => exists c, np_scalar_type (snd nf) c) fields /\ exists r, mapM (fun nc => rmap (pair (Name (fst nc))) (as_column (snd nc))) cols = Ok r /\
                   Forall2 (fun nf lc => fst lc = Name (fst nf) /\ exists c, np_scalar_type (snd nf) c /\ snd lc = example_column c) fields r) \/
                (exists f a sub m, In (f, Struct a sub m) fields /\ mapM (fun nc => rmap (pair (Name (fst nc))) (as_column (snd nc))) cols = Err ValueError)).
    { clear -F2. induction F2 as [|[f t] [g x] l l' (E & S & X) F2 IH]; [left; split; [constructor|exists []; split; [reflexivity|constructor]]|]. cbn [fst snd] in *. subst g. cbn [mapM fst snd].
      inversion X as [? ? C|? ? c C|? sub cl C F]; subst; [inversion C| |].
      - cbn [as_column rmap bind]. destruct IH as [(FS & r & M & F)|(a & b & d & m & I & M)]; rewrite M; cbn [bind].
        + left. split; [constructor; eauto|]. eexists. split; [reflexivity|]. constructor; [|exact F]. cbn. eauto.
        + right. exists a, b, d, m. split; [right; exact I|reflexivity].
      - destruct C as [(a & b & d & EE)|(a & b & d & g & h & i & EE)]; [|discriminate EE]. injection EE as -> _. right. exists f, a, sub, b. split; [left; reflexivity|reflexivity]. }
    destruct G as [(FS & r & -> & F)|(f & a & sub & m & I & ->)]; cbn [rmap].
    + left. split; [apply ST; exact FS|]. eexists. split; [eapply px_frame; eassumption|reflexivity].
    + right. split; [|exists ValueError; split; [eapply pr_structs; eassumption|reflexivity]].
      intro S. apply ST in S. rewrite Forall_forall in S. destruct (S _ I) as [c C]. exact (struct_not_scalar _ _ _ _ C).
  - right. split; [|exists e; split; [eapply pr_column; eassumption|reflexivity]].
    intro S'. apply ST in S'. rewrite Forall_forall in S'. destruct (S' nf I) as [c C]. apply S. eapply ps_series. exact C.
Qed.
Lemma collection_storable : forall n e p c m, pd_storable (Collection n e p c m) -> exists n' fields m', e = Struct n' fields m'.
Proof.
  intros n e p c m S. inversion S as [? ? C|? ? ? C|? fields C]; subst; [inversion C|].
  destruct C as [(? & a & b & E)|(? & n' & a & ? & ? & b & E)]; [discriminate E|]. injection E as _ -> _ _ _. eauto.
Qed.

Theorem pd_exists : forall n t, constructed t -> nesting t <= n -> pd_answered n t.
Proof.
  induction n as [|n IH]; intros t C L; [pose proof (nesting_pos t); lia|].
  assert (FR : forall fields a, columns_of t fields -> (forall nf, In nf fields -> constructed (snd nf)) -> (forall nf, In nf fields -> S (nesting (snd nf)) <= a) -> a <= n -> pd_answered (S n) t).
  { intros fields a CO CF NF LA. apply (frame_answered n t fields CO). intros nf I. apply IH; [constructor; exact (CF nf I)|]. cbn [nesting]. specialize (NF nf I). lia. }
  destruct (scalar_class t) as [c|] eqn:SC.
  { apply scalar_class_spec in SC. left. split; [eapply ps_scalar; exact SC|]. exists (Class c). split; [constructor; exact SC|]. rewrite pd_of_S. destruct SC; reflexivity. }
  assert (OTHER : (forall e m, t <> List e m) -> (forall n e p c m, t <> Collection n e p c m) -> pd_answered (S n) t).
  { intros NL NC. right. assert (NS : forall c, ~ np_scalar_type t c) by (apply no_scalar_class; exact SC). split.
    - intro S. inversion S as [? ? K|? ? c K|? fields K]; subst; [exact (NS _ K)|destruct (NL _ _ eq_refl)|].
      destruct K as [(? & ? & ? & ->)|(? & ? & ? & ? & ? & ? & ->)]; [destruct (NL _ _ eq_refl)|destruct (NC _ _ _ _ _ eq_refl)].
    - exists NotImplementedError. split; [apply pr_other; assumption|]. rewrite pd_of_S. destruct t; cbn [pd_step]; try (rewrite SC; reflexivity); [destruct (NL _ _ eq_refl)|destruct (NC _ _ _ _ _ eq_refl)]. }
  destruct t as [| | | | |e m|nm e p c m| | | | |]; try (apply OTHER; discriminate).
  - inversion C as [| | | | |? ? CE| | | | | |]; subst. cbn [nesting] in L. destruct (is_struct e) eqn:IS.
    + destruct e as [| | | | | | | | |sn fields sm| |]; try discriminate IS. cbn [nesting] in L. inversion CE as [| | | | | | | | |? ? ? ND CF| |]; subst.
      apply (FR fields (S (fold_right (fun nf n => Nat.max (nesting (snd nf)) n) 0 fields))).
      * left. eauto.
      * rewrite Forall_forall in CF. exact CF.
      * intros nf I. pose proof (field_nesting fields nf I). lia.
      * lia.
    + assert (NS : forall a b d, e <> Struct a b d) by (intros a b d ->; discriminate IS).
      assert (STEP : pd_of (S n) (List e m) = bind (pd_of n e) series_of) by (rewrite pd_of_S; destruct e; try reflexivity; discriminate IS).
      unfold pd_answered. rewrite STEP. destruct (IH e CE ltac:(lia)) as [(S & x & X & E)|(S & er & R & E)]; rewrite E; cbn [bind].
      * inversion X as [? k K|e' me k K|? fields cols CO F]; subst.
        -- left. split; [eapply ps_series; exact K|]. exists (Series (example_column k)). split; [constructor; exact K|]. apply series_example. exists e. exact K.
        -- right. split.
           ++ intro Q. destruct (list_storable _ _ Q) as [[k' K']|(a & b & d & Q')]; [inversion K'|discriminate Q'].
           ++ exists TypeError. split; [apply pr_nested; exact S|reflexivity].
        -- right. destruct CO as [(a & b & d & ->)|(a & b & d & g & h & i & ->)].
           ++ split; [intro Q; destruct (list_storable _ _ Q) as [[k' K']|(a' & b' & d' & Q')]; [inversion K'|discriminate Q']|]. exists TypeError. split; [apply pr_nested; exact S|reflexivity].
           ++ split; [intro Q; destruct (list_storable _ _ Q) as [[k' K']|(a' & b' & d' & Q')]; [inversion K'|discriminate Q']|]. exists TypeError. split; [apply pr_tables; exact S|reflexivity].
      * right. split; [|exists er; split; [apply pr_element; assumption|reflexivity]]. intro Q. destruct (list_storable _ _ Q) as [[k K]|(a & b & d & ->)]; [|discriminate IS].
        apply S. eapply ps_scalar. exact K.
  - inversion C as [| | | | | |? ? ? ? ? CE (sn & fields & sm & -> & _)| | | | |]; subst. cbn [nesting] in L. inversion CE as [| | | | | | | | |? ? ? ND CF| |]; subst.
    apply (FR fields (S (fold_right (fun nf n => Nat.max (nesting (snd nf)) n) 0 fields))).
    + right. eauto 10.
    + rewrite Forall_forall in CF. exact CF.
    + intros nf I. pose proof (field_nesting fields nf I). lia.
    + lia.
Qed.

(** ** There and back *)
Lemma series_back : forall n e m c x, np_scalar_type e c -> pd_of n (List e m) = Ok x -> x = Series (example_column c) /\
  forall k, n <= k -> (no_bytes e -> of_pd k x = Ok (List (np_stored e) plain)) /\ (~ no_bytes e -> of_pd k x = Err NotImplementedError).
Proof.
  intros n e m c x S H. destruct n as [|n]; [discriminate H|]. rewrite pd_of_S in H. assert (H' : bind (pd_of n e) series_of = Ok x) by (destruct S; exact H). clear H.
  destruct n as [|n]; [discriminate H'|]. assert (E : pd_of (Datatypes.S n) e = Ok (Class c)) by (rewrite pd_of_S; destruct S; reflexivity). rewrite E in H'. cbn [bind] in H'.
  rewrite series_example in H' by (exists e; exact S). injection H' as <-. split; [reflexivity|]. intros k L. destruct k as [|[|k]]; try lia. rewrite of_pd_S. split; intro NB.
  - destruct S; try (cbn [example_column read_series]; rewrite of_pd_S; reflexivity); [destruct (NB b m0 eq_refl)|reflexivity].
  - destruct S; try (destruct NB; intros ? ?; discriminate). cbn [example_column read_series]. rewrite of_pd_S. reflexivity.
Qed.
Lemma no_bytes_dec : forall t, no_bytes t \/ ~ no_bytes t.
Proof. intro t. destruct t; try (left; intros ? ?; discriminate). right. intro H. exact (H _ _ eq_refl). Qed.
Lemma frame_columns : forall n t fields x, columns_of t fields -> pd_of (S n) t = Ok x -> exists cols, x = DataFrame cols /\
  Forall2 (fun nf lc => fst lc = Name (fst nf) /\ pd_of n (List (snd nf) plain) = Ok (Series (snd lc))) fields cols.
Proof.
  intros n t fields x CO H. rewrite (columns_step n t fields CO) in H. clear CO t. 
  assert (G : forall cols, mapM (fun nf => rmap (pair (fst nf)) (pd_of n (List (snd nf) plain))) fields = Ok cols -> forall r,
     mapM (fun nc => rmap (pair (Name (fst nc))) (as_column (snd nc))) cols = Ok r -> Forall2 (fun nf lc => fst lc = Name (fst nf) /\ pd_of n (List (snd nf) plain) = Ok (Series (snd lc))) fields r).
  { clear H x. induction fields as [|[f t] l IH]; intros cols M r R; cbn [mapM fst snd] in M.
    - injection M as <-. cbn in R. injection R as <-. constructor.
    - destruct (pd_of n (List t plain)) as [y|] eqn:Y; [|discriminate M]. cbn [rmap bind] in M. destruct (mapM _ l) as [cols'|] eqn:M'; [|discriminate M]. injection M as <-.
      cbn [mapM fst snd] in R. destruct y as [| | | |cy| |]; try discriminate R. cbn [as_column rmap bind] in R. destruct (mapM _ cols') as [r'|] eqn:R'; [|discriminate R]. injection R as <-.
      constructor; [split; [reflexivity|exact Y]|]. exact (IH cols' eq_refl r' R'). }
  destruct (mapM _ fields) as [cols|]; [|discriminate H]. cbn [bind] in H. destruct (mapM _ cols) as [r|] eqn:R; [|discriminate H]. injection H as <-. exists r. split; [reflexivity|]. exact (G cols eq_refl r R).
Qed.
Lemma Forall2_names : forall (fields : list (str * ty)) (cols : list (label * column)) (P : (str * ty) -> (label * column) -> Prop),
  (forall nf lc, P nf lc -> fst lc = Name (fst nf)) -> Forall2 P fields cols -> map fst cols = map Name (map fst fields).
Proof. intros fields cols P K F. induction F as [|nf lc l l' H F IH]; [reflexivity|]. cbn. rewrite IH, (K _ _ H). reflexivity. Qed.
Lemma Name_NoDup : forall l, NoDup l -> NoDup (map Name l).
Proof. intros l N. induction N as [|a l NI N IH]; constructor; [|exact IH]. intro I. apply in_map_iff in I. destruct I as (b & E & I). injection E as ->. contradiction. Qed.
Lemma named_all : forall (fs : list (str * ty)), mapM named (map (fun nf => (Name (fst nf), snd nf)) fs) = Ok fs.
Proof. induction fs as [|[n t] l IH]; [reflexivity|]. cbn [map mapM fst snd named bind]. rewrite IH. reflexivity. Qed.

(** Reading a frame column by column. *)
Lemma read_frame_columns : forall conv cols (ts : list ty), NoDup (map fst cols) -> Forall2 (fun lc t => conv (Series (snd lc)) = Ok (List t plain)) cols ts ->
  read_frame conv cols = rmap (fun fields => List (Struct anon fields plain) plain) (mapM named (combine (map fst cols) ts)).
Proof.
  intros conv cols ts ND F. unfold read_frame.
  assert (M : mapM (fun lc => bind (conv (select cols (fst lc))) (fun t => rmap (pair (fst lc)) (element_of t))) cols = Ok (combine (map fst cols) ts)).
  { assert (G : forall l, incl l cols -> forall ts, Forall2 (fun lc t => conv (Series (snd lc)) = Ok (List t plain)) l ts ->
      mapM (fun lc => bind (conv (select cols (fst lc))) (fun t => rmap (pair (fst lc)) (element_of t))) l = Ok (combine (map fst l) ts)).
    { induction l as [|[a b] l IH]; intros I us F'; inversion F' as [|? u ? us' E F2]; subst; [reflexivity|]. cbn [mapM fst snd map combine].
      rewrite (select_one cols a b ND (I (a, b) (or_introl eq_refl))). cbn [snd] in E. rewrite E. cbn [bind element_of rmap]. rewrite (IH (fun y J => I y (or_intror J)) us' F2). reflexivity. }
    exact (G cols (fun y J => J) ts F). }
  rewrite M. cbn [bind]. rewrite dict_of_labels; [reflexivity|].
  assert (E : map fst (combine (map fst cols) ts) = map fst cols).
  { clear -F. induction F as [|lc t l l' H F IH]; [reflexivity|]. cbn. rewrite IH. reflexivity. }
  rewrite E. exact ND.
Qed.
Lemma read_frame_ok : forall conv cols u, NoDup (map fst cols) -> (forall c t, conv (Series c) = Ok t -> exists e, t = List e plain) -> read_frame conv cols = Ok u ->
  exists ts, Forall2 (fun lc t => conv (Series (snd lc)) = Ok (List t plain)) cols ts.
Proof.
  intros conv cols u ND K H. unfold read_frame in H. destruct (mapM _ cols) as [fs|] eqn:M; [|discriminate H]. clear H.
  assert (G : forall l, incl l cols -> forall fs, mapM (fun lc => bind (conv (select cols (fst lc))) (fun t => rmap (pair (fst lc)) (element_of t))) l = Ok fs ->
     exists ts, Forall2 (fun lc t => conv (Series (snd lc)) = Ok (List t plain)) l ts).
  { induction l as [|[a b] l IH]; intros I gs M'; [exists []; constructor|]. cbn [mapM fst snd] in M'. rewrite (select_one cols a b ND (I (a, b) (or_introl eq_refl))) in M'.
    destruct (conv (Series b)) as [t|] eqn:T; [|discriminate M']. destruct (K b t T) as [e ->]. cbn [bind element_of rmap] in M'. destruct (mapM _ l) as [gs'|] eqn:M2; [|discriminate M'].
    destruct (IH (fun y J => I y (or_intror J)) gs' eq_refl) as [ts F]. exists (e :: ts). constructor; [exact T|exact F]. }
  exact (G cols (fun y J => J) fs M).
Qed.
Lemma scalar_list_convert : forall n e x, pd_of n (List e plain) = Ok (Series x) -> exists c, np_scalar_type e c.
Proof.
  intros n e x H. destruct n as [|n]; [discriminate H|]. rewrite pd_of_S in H. destruct (is_struct e) eqn:IS.
  - destruct e; try discriminate IS. cbn [pd_step] in H. destruct (mapM _ _); [|discriminate H]. cbn [bind] in H. destruct (mapM _ _); discriminate H.
  - assert (H' : bind (pd_of n e) series_of = Ok (Series x)) by (destruct e; try discriminate IS; exact H). clear H. destruct (scalar_class e) as [c|] eqn:SC; [exists c; apply scalar_class_spec; exact SC|].
    destruct n as [|n]; [discriminate H'|]. rewrite pd_of_S in H'. destruct e as [| | | | |e' m|nm e' p c m| | | | |]; try discriminate H'; try discriminate IS; try (cbn [pd_step] in H'; rewrite SC in H'; discriminate H').
    + cbn [pd_step] in H'. destruct e'; try (destruct (pd_of n _) as [[]|]; try discriminate H'; cbn [bind series_of] in H'; destruct c; discriminate H').
      destruct (mapM _ fields); [|discriminate H']. cbn [bind] in H'. destruct (mapM _ _); discriminate H'.
    + cbn [pd_step] in H'. destruct e'; try (destruct (pd_of n _) as [[]|]; try discriminate H'; cbn [bind series_of] in H'; destruct c0; discriminate H').
      destruct (mapM _ fields); [|discriminate H']. cbn [bind] in H'. destruct (mapM _ _); discriminate H'.
Qed.

Lemma series_convert : forall n c t, of_pd n (Series c) = Ok t -> exists e, t = List e plain.
Proof.
  intros n c t H. destruct n as [|n]; [discriminate H|]. rewrite of_pd_S in H. destruct c as [c sized|[[]|]]; cbn [read_series] in H; try discriminate H.
  - destruct (of_pd n _); [|discriminate H]. injection H as <-. eauto.
  - injection H as <-. eauto.
Qed.
Lemma pd_stored_plain : forall t c, np_scalar_type t c -> pd_stored t = np_stored t.
Proof. intros t c S. destruct S; reflexivity. Qed.
Lemma pd_stored_list : forall e m c, np_scalar_type e c -> pd_stored (List e m) = List (np_stored e) plain.
Proof. intros e m c S. destruct S; reflexivity. Qed.
Lemma pd_stored_frame : forall t fields, columns_of t fields -> pd_stored t = List (Struct anon (map (fun nf => (fst nf, np_stored (snd nf))) fields) plain) plain.
Proof. intros t fields [(? & ? & ? & ->)|(? & ? & ? & ? & ? & ? & ->)]; reflexivity. Qed.
Lemma columns_NoDup : forall t fields, constructed t -> columns_of t fields -> NoDup (map fst fields).
Proof.
  intros t fields C [(? & ? & ? & ->)|(? & ? & ? & ? & ? & ? & ->)]; inversion C as [| | | | |? ? CE|? ? ? ? ? CE V| | | | |]; subst; inversion CE as [| | | | | | | | |? ? ? ND CF| |]; subst; exact ND.
Qed.

Theorem pd_round_trip : forall n m t x, constructed t -> pd_restorable t -> n <= m -> pd_of n t = Ok x -> of_pd m x = Ok (pd_stored t).
Proof.
  intros n m t x C R L H. inversion R as [? c S|e me c S NB|? fields CO F]; subst.
  - rewrite (pd_stored_plain t c S). destruct n as [|n]; [discriminate H|]. destruct m as [|m]; [lia|]. rewrite pd_of_S in H.
    assert (E : x = Class c) by (destruct S; injection H as <-; reflexivity). subst x. rewrite of_pd_S. destruct S; reflexivity.
  - rewrite (pd_stored_list e me c S). destruct (series_back n e me c x S H) as [_ K]. exact (proj1 (K m L) NB).
  - rewrite (pd_stored_frame t fields CO). pose proof (columns_NoDup t fields C CO) as ND. destruct n as [|n]; [discriminate H|]. destruct m as [|m]; [lia|].
    destruct (frame_columns n t fields x CO H) as (cols & -> & F2). rewrite of_pd_S.
    assert (NM : map fst cols = map Name (map fst fields)) by (apply (Forall2_names _ _ _ (fun nf lc K => proj1 K) F2)).
    rewrite (read_frame_columns (of_pd m) cols (map (fun nf => np_stored (snd nf)) fields)).
    + rewrite NM. replace (combine (map Name (map fst fields)) (map (fun nf => np_stored (snd nf)) fields))
        with (map (fun nf : str * ty => (Name (fst nf), snd nf)) (map (fun nf : str * ty => (fst nf, np_stored (snd nf))) fields)).
      * rewrite named_all. reflexivity.
      * clear. induction fields as [|a l IH]; [reflexivity|]. cbn. rewrite IH. reflexivity.
    + rewrite NM. apply Name_NoDup. exact ND.
    + assert (L' : n <= m) by lia. clear -F F2 L'. induction F2 as [|nf lc l l' (E & P) F2 IH]; [constructor|]. inversion F as [|? ? [[c S] NB] F']; subst. constructor; [|exact (IH F')].
      destruct (series_back n (snd nf) plain c _ S P) as [_ K]. exact (proj1 (K m L') NB).
Qed.
(** What is accepted but cannot be restored never is. *)
Theorem pd_lost : forall n t x, constructed t -> ~ pd_restorable t -> pd_of n t = Ok x -> forall m u, of_pd m x <> Ok u.
Proof.
  intros n t x C NR H m u R. destruct n as [|n]; [discriminate H|].
  assert (FR : forall fields, columns_of t fields -> False).
  { intros fields CO. pose proof (columns_NoDup t fields C CO) as ND. destruct (frame_columns n t fields x CO H) as (cols & -> & F2). destruct m as [|m]; [discriminate R|]. rewrite of_pd_S in R.
    assert (NM : map fst cols = map Name (map fst fields)) by (apply (Forall2_names _ _ _ (fun nf lc K => proj1 K) F2)).
    destruct (read_frame_ok (of_pd m) cols u) as [ts FT]; [rewrite NM; apply Name_NoDup; exact ND|intros c' t' K; exact (series_convert m c' t' K)|exact R|].
    apply NR. apply (pb_frame t fields CO). clear -F2 FT. revert ts FT. induction F2 as [|nf lc l l' (E & P) F2 IH]; intros ts FT; [constructor|]. inversion FT as [|? ut ? ts' K FT']; subst. constructor; [|exact (IH ts' FT')].
    destruct (scalar_list_convert n _ _ P) as [c S]. split; [eauto|]. destruct (no_bytes_dec (snd nf)) as [NB|NB]; [exact NB|]. exfalso.
    destruct (series_back n (snd nf) plain c _ S P) as [EQ K2]. destruct S; try (destruct NB; intros ? ?; discriminate). injection EQ as EQ. rewrite EQ in K. cbn [example_column] in K.
    destruct m as [|m]; [discriminate K|]. rewrite of_pd_S in K. cbn [read_series] in K. destruct m as [|m]; [discriminate K|]. rewrite of_pd_S in K. discriminate K. }
  destruct (scalar_class t) as [c|] eqn:SC; [apply NR; apply scalar_class_spec in SC; eapply pb_scalar; exact SC|].
  destruct t as [| | | | |e me|nm e p c me| | | | |]; try (rewrite pd_of_S in H; cbn [pd_step] in H; rewrite SC in H; discriminate H).
  - destruct (is_struct e) eqn:IS; [destruct e; try discriminate IS; eapply FR; left; eauto|].
    assert (P : pd_of (S n) (List e me) = bind (pd_of n e) series_of) by (rewrite pd_of_S; destruct e; try reflexivity; discriminate IS). pose proof H as H0. rewrite P in H.
    destruct (pd_of n e) as [y|] eqn:Y; [|discriminate H]. cbn [bind] in H. assert (SX : exists sx, x = Series sx) by (destruct y as [[]| | | | | |]; try discriminate H; injection H as <-; eauto). destruct SX as [sx ->].
    assert (PL : pd_of (S n) (List e plain) = Ok (Series sx)). { rewrite pd_of_S. rewrite <- H0, pd_of_S. destruct e; try reflexivity; discriminate IS. }
    destruct (scalar_list_convert (S n) e sx PL) as [c S]. destruct (no_bytes_dec e) as [NB|NB]; [apply NR; eapply pb_series; eassumption|].
    destruct (series_back (Datatypes.S n) e me c _ S H0) as [EQ _]. destruct S; try (destruct NB; intros ? ?; discriminate). injection EQ as ->.
    destruct m as [|m]; [discriminate R|]. rewrite of_pd_S in R. cbn [example_column read_series] in R. destruct m as [|m]; [discriminate R|]. rewrite of_pd_S in R. discriminate R.
  - inversion C as [| | | | | |? ? ? ? ? CE (sn & fields & sm & -> & _)| | | | |]; subst. eapply FR. right. eauto 10.
Qed.
Lemma scalar_kept : forall t c, np_scalar_type t c -> (np_stored t = t <-> np_kept t).
Proof. intros t c S. split; intro H; [destruct S; cbn in H; inversion H; subst; constructor|destruct H; try reflexivity; inversion S]. Qed.
Theorem pd_lossless : forall t, pd_restorable t -> (pd_stored t = t <-> pd_kept t).
Proof.
  intros t R. inversion R as [? c S|e me c S NB|? fields CO F]; subst.
  - rewrite (pd_stored_plain t c S), (scalar_kept t c S). split; intro H; [constructor; exact H|]. inversion H as [? K|? K]; subst; [exact K|inversion S].
  - rewrite (pd_stored_list e me c S). split; intro H.
    + injection H as H <-. constructor. constructor. apply (scalar_kept e c S). exact H.
    + inversion H as [? K|? K]; subst; [|inversion S]. inversion K as [| |? K']; subst. apply (scalar_kept e c S) in K'. rewrite K'. reflexivity.
  - rewrite (pd_stored_frame t fields CO). split; intro H.
    + destruct CO as [(n & m & m' & ->)|(? & ? & ? & ? & ? & ? & ->)]; [|discriminate H]. injection H as <- H <- <-. apply pk_frame.
      clear R. induction fields as [|nf l IH]; [constructor|]. inversion F as [|? ? [[c S] NB] F']; subst. cbn [map] in H. injection H as E H. constructor; [|exact (IH F' H)].
      apply (scalar_kept _ c S). rewrite <- E at 2. reflexivity.
    + inversion H as [? K|fs K]; subst.
      * destruct CO as [(n & m & m' & ->)|(? & ? & ? & ? & ? & ? & ->)]; inversion K as [| |? K']; subst. inversion K'.
      * destruct CO as [(n & m & m' & E)|(? & ? & ? & ? & ? & ? & E)]; [|discriminate E]. injection E as <- -> <- <-. do 2 f_equal. f_equal.
        clear H R. induction fields as [|nf l IH]; [reflexivity|]. inversion F as [|? ? [[c S] NB] F']; subst. inversion K as [|? ? K1 K2]; subst. cbn [map]. rewrite (IH F' K2).
        apply (scalar_kept _ c S) in K1. rewrite K1. destruct nf; reflexivity.
Qed.

(** ** Reading what pandas has *)
Lemma known_type : forall c, known c -> exists t, np_scalar_type t c /\ np_stored t = t /\ class_ty c = Some t.
Proof. intros c [t S]. destruct S; eexists; (split; [|split; [|reflexivity]]); [constructor|reflexivity| | | | | | | | | |]; try constructor; reflexivity. Qed.
Theorem series_readable : forall n c u, of_pd (S (S n)) (Series c) = Ok u <-> exists t, column_type c t /\ u = List t plain.
Proof.
  intros n c u. rewrite of_pd_S. destruct c as [c sized|[[]|]]; cbn [read_series].
  - rewrite of_pd_S. split.
    + intro H. destruct c; destruct sized; try discriminate H; try (destruct w; try discriminate H); cbn in H; injection H as <-; eexists; (split; [|reflexivity]);
      (eapply ct_dtype; [constructor|reflexivity|intro D; try discriminate D; split; discriminate]).
    + intros (t & T & ->). inversion T as [? ? ? S ST D|]; subst. destruct S; cbn in ST; inversion ST; subst; destruct sized; try reflexivity; destruct (D eq_refl) as [A B]; try destruct (A eq_refl); destruct (B eq_refl).
  - split; [intro H; injection H as <-; eexists; split; [constructor|reflexivity]|intros (t & T & ->); inversion T; reflexivity].
  - split; [discriminate|]. intros (t & T & ->). inversion T.
  - split; [discriminate|]. intros (t & T & ->). inversion T.
Qed.
Theorem frame_readable : forall n cols u, NoDup (map fst cols) -> (of_pd (S (S (S n))) (DataFrame cols) = Ok u <->
  exists fields, Forall2 (fun lc nf => fst lc = Name (fst nf) /\ column_type (snd lc) (snd nf)) cols fields /\ u = List (Struct anon fields plain) plain).
Proof.
  intros n cols u ND. rewrite of_pd_S. split.
  - intro H. destruct (read_frame_ok (of_pd (S (S n))) cols u ND (fun c t => series_convert _ c t) H) as [ts F]. rewrite (read_frame_columns _ cols ts ND F) in H.
    destruct (mapM named _) as [fields|] eqn:M; [|discriminate H]. injection H as <-. exists fields. split; [|reflexivity]. clear ND. revert fields M.
    induction F as [|[l c] t cs ts' E F IH]; intros fields M; [injection M as <-; constructor|]. cbn [map combine mapM fst] in M. destruct l as [nm|]; [|discriminate M]. cbn [named bind] in M.
    destruct (mapM named _) as [fs|] eqn:M'; [|discriminate M]. injection M as <-. constructor; [|exact (IH fs eq_refl)]. split; [reflexivity|]. cbn [snd] in *.
    apply series_readable in E. destruct E as (t' & T & E). injection E as ->. exact T.
  - intros (fields & F & ->). rewrite (read_frame_columns (of_pd (S (S n))) cols (map snd fields) ND).
    + replace (combine (map fst cols) (map snd fields)) with (map (fun nf : str * ty => (Name (fst nf), snd nf)) fields); [rewrite named_all; reflexivity|].
      clear ND. induction F as [|lc nf l l' [E _] F IH]; [reflexivity|]. cbn [map combine]. rewrite <- IH, E. reflexivity.
    + clear ND. induction F as [|lc nf l l' [_ T] F IH]; constructor; [|exact IH]. apply series_readable. eauto.
Qed.
(** Frames with a repeated label are read forever. *)
Lemma label_dec : forall a b : label, {a = b} + {a <> b}.
Proof. intros a b. destruct (bool_dec (label_eqb a b) true) as [e|e]; [left; apply label_eqb_spec; exact e|right; intro q; apply e; apply label_eqb_spec; exact q]. Qed.
Lemma repeated_label : forall cols : list (label * column), ~ NoDup (map fst cols) -> exists l c pre mid suf d, cols = pre ++ (l, c) :: mid ++ (l, d) :: suf.
Proof.
  induction cols as [|[l c] cols IH]; intro ND; [destruct ND; constructor|]. destruct (in_dec label_dec l (map fst cols)) as [I|NI].
  - apply in_map_iff in I. destruct I as ([l' d] & E & I). cbn in E. subst l'. apply in_split in I. destruct I as (mid & suf & ->). exists l, c, [], mid, suf, d. reflexivity.
  - destruct IH as (a & b & pre & mid & suf & d & ->); [intro K; apply ND; constructor; assumption|]. exists a, b, ((l, c) :: pre), mid, suf, d. reflexivity.
Qed.
Lemma select_many : forall cols l cs, filter (fun lc => label_eqb (fst lc) l) cols = cs -> 2 <= Datatypes.length cs -> select cols l = DataFrame cs.
Proof. intros cols l cs E L. unfold select. rewrite E. destruct cs as [|[? ?] [|? ?]]; cbn in L; try lia; reflexivity. Qed.
Theorem frame_repeated : forall n cols u, ~ NoDup (map fst cols) -> of_pd n (DataFrame cols) <> Ok u.
Proof.
  induction n as [|n IH]; intros cols u ND H; [discriminate H|]. rewrite of_pd_S in H. unfold read_frame in H.
  destruct (mapM _ cols) as [fs|] eqn:M; [|discriminate H]. clear H. destruct (repeated_label cols ND) as (l & c & pre & mid & suf & d & E).
  set (p := fun lc : label * column => label_eqb (fst lc) l).
  assert (F : filter p cols = filter p pre ++ (l, c) :: filter p mid ++ (l, d) :: filter p suf).
  { rewrite E, filter_app. cbn [filter]. unfold p at 2. cbn [fst]. rewrite (proj2 (label_eqb_spec l l) eq_refl), filter_app. cbn [filter]. unfold p at 3. cbn [fst]. rewrite (proj2 (label_eqb_spec l l) eq_refl). reflexivity. }
  assert (S : select cols l = DataFrame (filter p pre ++ (l, c) :: filter p mid ++ (l, d) :: filter p suf)).
  { apply select_many; [exact F|]. rewrite !app_length. cbn. rewrite app_length. cbn. lia. }
  apply mapM_Forall2 in M. assert (I : In (l, c) cols) by (rewrite E; apply in_or_app; right; left; reflexivity).
  assert (K : exists y, bind (of_pd n (select cols l)) (fun t => rmap (pair l) (element_of t)) = Ok y).
  { clear -M I. revert M. generalize (select cols). intros f M. revert I. induction M as [|lc y ls ys E M IH]; intro I; [destruct I|]. destruct I as [->|I]; [exists y; exact E|exact (IH I)]. }
  destruct K as [y K]. rewrite S in K. destruct (of_pd n _) as [t|] eqn:T in K; [|discriminate K]. revert T. apply IH.
  rewrite map_app. cbn [map fst]. intro N. apply NoDup_remove_2 in N. apply N. apply in_or_app. right. rewrite map_app. apply in_or_app. right. left. reflexivity.
Qed.
(** The pandas system is what accepts frames: NumPy's fails on them, and not by saying that there
    is no conversion. *)
Theorem np_frames : forall n c cols, of_np (S n) (Series c) = Err ValueError /\ of_np (S n) (DataFrame cols) = Err ValueError.
Proof. intros n c cols. rewrite !of_np_S. split; reflexivity. Qed.
Theorem pd_sound : forall n t x, constructed t -> pd_of n t = Ok x -> nesting t <= n -> pd_example t x.
Proof.
  intros n t x C H L. destruct (pd_exists n t C L) as [(_ & y & X & E)|(_ & e & _ & E)]; rewrite H in E; [injection E as ->; exact X|discriminate E].
Qed.
Lemma restorable_storable : forall t, pd_restorable t -> pd_storable t.
Proof.
  intros t R. inversion R as [? c S|e me c S NB|? fields CO F]; subst; [eapply ps_scalar; exact S|eapply ps_series; exact S|].
  eapply ps_frame; [exact CO|]. eapply Forall_impl; [|exact F]. intros nf [S _]. exact S.
Qed.
