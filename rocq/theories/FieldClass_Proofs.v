(** Proofs about the definition of partition field classes. *)
From Coq Require Import List Bool Arith Lia.
From Verif Require Import Base Base_Proofs Str Str_Proofs Utils_Model Partitions_Model FieldClass_Model FieldClass_Spec.
Import ListNotations.
Open Scope list_scope.

Section Proofs.
  Context {T : Type} (eqb : T -> T -> bool).
  Hypothesis eqb_spec : forall a b, eqb a b = true <-> a = b.
  Variable wraps : bool.
  Notation define := (define eqb wraps).
  Notation defines := (defines eqb wraps).
  Notation get_class_for := (FieldClass_Model.get_class_for eqb).

  Record inv (s : state T) : Prop := {
    i_listed : forall n t, concrete s n t -> dget eqb (by_type s) t = Some n;
    i_found : forall n t, dget eqb (by_type s) t = Some n -> concrete s n t;
    i_sound : forall n c, nth_error (classes s) n = Some c -> c_abstract c = false ->
      wraps = true /\ exists t, sound c t
  }.

  Lemma subset_iff : forall ds names, forallb (fun d => existsb (str_eqb d) names) ds = true <->
    (forall d : str, In d ds -> In d names).
  Proof.
    intros ds names. rewrite forallb_forall. split; intros H d I; specialize (H d I).
    - apply existsb_exists in H. destruct H as (x & X & E). apply str_eqb_spec in E. subst. auto.
    - apply existsb_exists. exists d. split; auto. apply str_eqb_spec. auto.
  Qed.

  (** What a class statement does. *)
  Lemma define_cases : forall s b, 
    (exists base, nth_error (classes s) (b_base b) = Some base /\
       let c := inherit base b in
       (c_abstract c = true /\ define s b = (Ok (List.length (classes s)), {| classes := classes s ++ [c]; by_type := by_type s |}) \/
        c_abstract c = false /\ wraps = true /\ (exists t, sound c t /\ dget eqb (by_type s) t = None /\
          define s b = (Ok (List.length (classes s)),
            {| classes := classes s ++ [c]; by_type := dset eqb (by_type s) t (List.length (classes s)) |})) \/
        c_abstract c = false /\ wraps = true /\ (exists t n, sound c t /\ dget eqb (by_type s) t = Some n) /\
          define s b = (Err ValueError, s) \/
        c_abstract c = false /\ (wraps = false \/ ~ exists t, sound c t) /\ define s b = (Err TypeError, s))) \/
    nth_error (classes s) (b_base b) = None /\ define s b = (Err AttributeError, s).
  Proof.
    intros s b. unfold FieldClass_Model.define. destruct (nth_error (classes s) (b_base b)) as [base|] eqn:E; [left|right; auto].
    exists base. split; auto. cbv zeta. set (c := inherit base b). clearbody c.
    assert (ES : {| classes := classes s; by_type := by_type s |} = s) by (destruct s; auto).
    unfold init_subclass. destruct (c_abstract c) eqn:A; [left; auto|right].
    unfold components. destruct (c_defaults c) as [ds|] eqn:D.
    2:{ right. right. rewrite ES. repeat split; auto. right. intros (t & _ & ds & D' & _). congruence. }
    destruct (c_type c) as [t|] eqn:Y.
    2:{ right. right. rewrite ES. repeat split; auto. right. intros (t & Y' & _). congruence. }
    destruct wraps; [|right; right; rewrite ES; auto].
    destruct (forallb (fun d => existsb (str_eqb d) (c_components c)) ds) eqn:F.
    - assert (S : sound c t) by (split; auto; exists ds; split; auto; apply subset_iff; auto).
      unfold register. destruct (dget eqb (by_type s) t) as [n|] eqn:G; cbn [rmap bind].
      + right. left. rewrite ES. repeat split; auto. exists t, n. auto.
      + left. repeat split; auto. exists t. auto.
    - right. right. rewrite ES. repeat split; auto. right. intros (t' & _ & ds' & D' & I).
      assert (ds' = ds) by congruence. subst. apply subset_iff in I. congruence.
  Qed.

  Lemma inv_initial : inv initial.
  Proof.
    constructor.
    - intros n t (c & E & A & _). destruct n as [|[|n]]; cbn in E; try discriminate. injection E as <-. discriminate.
    - intros n t E. discriminate.
    - intros n c E A. destruct n as [|[|n]]; cbn in E; try discriminate. injection E as <-. discriminate.
  Qed.

  Lemma nth_snoc : forall (l : list (class T)) c n d, nth_error (l ++ [c]) n = Some d ->
    nth_error l n = Some d \/ n = List.length l /\ d = c.
  Proof.
    intros l c n d E. destruct (Nat.lt_ge_cases n (List.length l)) as [L|L].
    - rewrite nth_error_app1 in E by auto. auto.
    - rewrite nth_error_app2 in E by auto. destruct (n - List.length l) as [|q] eqn:Q; cbn in E.
      + injection E as <-. right. split; auto. lia.
      + destruct q; discriminate.
  Qed.

  Lemma concrete_snoc : forall (s : state T) c reg n t, concrete s n t -> concrete {| classes := classes s ++ [c]; by_type := reg |} n t.
  Proof.
    intros s c reg n t (d & E & A & Y). exists d. repeat split; auto. cbn [classes].
    rewrite nth_error_app1; auto. apply nth_error_Some. congruence.
  Qed.

  Lemma inv_define : forall s b, inv s -> inv (snd (define s b)).
  Proof.
    intros s b I. destruct (define_cases s b) as [(base & E & [[A D]|[(A & W & t & S & G & D)|[(A & W & X & D)|(A & X & D)]]])|[E D]];
      rewrite D; cbn [snd]; auto.
    - destruct I as [I1 I2 I3]. constructor; cbn [by_type].
      + intros n t (c & N & Ac & Y). apply nth_snoc in N. destruct N as [N|[N Q]]; [|congruence].
        apply I1. exists c. auto.
      + intros n t G. apply concrete_snoc. auto.
      + intros n c N Ac. apply nth_snoc in N. destruct N as [N|[N Q]]; [eauto|congruence].
    - destruct I as [I1 I2 I3]. constructor; cbn [by_type].
      + intros n t' (c & N & Ac & Y). rewrite (dget_dset eqb eqb_spec). apply nth_snoc in N. destruct N as [N|[N Q]].
        * assert (C : concrete s n t') by (exists c; auto). apply I1 in C.
          destruct (eqb t t') eqn:Q; auto. apply eqb_spec in Q. congruence.
        * subst c. assert (t' = t) by (destruct S; congruence). subst t'.
          destruct (eqb t t) eqn:Q; [congruence|]. destruct (eqb_spec t t) as [_ R]. rewrite R in Q; auto. discriminate.
      + intros n t' G'. rewrite (dget_dset eqb eqb_spec) in G'. destruct (eqb t t') eqn:Q.
        * apply eqb_spec in Q. subst t'. injection G' as <-. exists (inherit base b). split; [|destruct S; auto].
          cbn [classes]. rewrite nth_error_app2, Nat.sub_diag by lia. reflexivity.
        * apply concrete_snoc. auto.
      + intros n c N Ac. apply nth_snoc in N. destruct N as [N|[N Q]]; [eauto|]. subst c. eauto.
  Qed.

  Lemma inv_defines : forall bs s, inv s -> inv (defines s bs).
  Proof. induction bs as [|b bs IH]; intros s I; auto. cbn. apply IH. apply inv_define. auto. Qed.

  Lemma reachable : forall bs, inv (defines initial bs).
  Proof. intros. apply inv_defines. apply inv_initial. Qed.

  Lemma lookup : forall bs n t, get_class_for (defines initial bs) t = Ok n <-> concrete (defines initial bs) n t.
  Proof.
    intros bs n t. destruct (reachable bs) as [I1 I2 _]. unfold FieldClass_Model.get_class_for. split.
    - intros E. destruct (dget eqb (by_type (defines initial bs)) t) as [k|] eqn:G; [|discriminate].
      injection E as <-. auto.
    - intros C. rewrite (I1 _ _ C). auto.
  Qed.

  Lemma stable_one : forall s b t n, get_class_for s t = Ok n -> get_class_for (snd (define s b)) t = Ok n.
  Proof.
    intros s b t n E. unfold FieldClass_Model.get_class_for in *.
    destruct (define_cases s b) as [(base & _ & [[A D]|[(A & W & t' & S & G & D)|[(A & W & X & D)|(A & X & D)]]])|[_ D]];
      rewrite D; cbn [snd by_type]; auto.
    rewrite (dget_dset eqb eqb_spec). destruct (eqb t' t) eqn:Q; auto. apply eqb_spec in Q. subst.
    rewrite G in E. discriminate.
  Qed.

  Lemma stable : forall bs s t n, get_class_for s t = Ok n -> get_class_for (defines s bs) t = Ok n.
  Proof. induction bs as [|b bs IH]; intros s t n E; auto. cbn. apply IH. apply stable_one. auto. Qed.

  Lemma defaults_sound : forall bs n t, concrete (defines initial bs) n t ->
    wraps = true /\ exists c, nth_error (classes (defines initial bs)) n = Some c /\ sound c t.
  Proof.
    intros bs n t (c & E & A & Y). destruct (i_sound _ (reachable bs) n c E A) as [W (t' & S)]. split; auto.
    exists c. split; auto. assert (t' = t) by (destruct S; congruence). subst. auto.
  Qed.

  (** Exactly when a class statement succeeds, and what it raises. *)
  Lemma outcome : forall bs b base, let s := defines initial bs in
    nth_error (classes s) (b_base b) = Some base -> let c := inherit base b in
    (fst (define s b) = Ok (List.length (classes s)) <->
       c_abstract c = true \/ wraps = true /\ exists t, sound c t /\ forall n, ~ concrete s n t) /\
    (fst (define s b) = Err ValueError <-> c_abstract c = false /\ wraps = true /\ exists t n, sound c t /\ concrete s n t) /\
    (fst (define s b) = Err TypeError <-> c_abstract c = false /\ (wraps = false \/ ~ exists t, sound c t)) /\
    ((forall n, fst (define s b) <> Ok n) -> snd (define s b) = s).
  Proof.
    intros bs b base s E c. destruct (reachable bs) as [I1 I2 _]. fold s in I1, I2.
    assert (U : forall t t', sound c t -> sound c t' -> t = t') by (intros t t' [] []; congruence).
    destruct (define_cases s b) as [(base' & E' & X)|[E' _]]; [|congruence].
    assert (base' = base) by congruence. subst base'. cbv zeta in X. fold c in X.
    destruct X as [[A D]|[(A & W & t & S & G & D)|[(A & W & (t & n & S & G) & D)|(A & X & D)]]]; rewrite D; cbn [fst snd].
    - repeat split; auto; try discriminate; try (intros (F & _); congruence). intros N. destruct (N _ eq_refl).
    - repeat split; auto; try discriminate.
      + intros _. right. split; auto. exists t. split; auto. intros n C. apply I1 in C. congruence.
      + intros (_ & _ & t' & n & S' & C). rewrite (U _ _ S' S) in C. apply I1 in C. congruence.
      + intros (_ & [F|F]); [congruence|]. destruct F. eauto.
      + intros N. destruct (N _ eq_refl).
    - repeat split; auto; try discriminate.
      + intros [F|(_ & t' & S' & N)]; [congruence|]. destruct (N n). rewrite (U _ _ S' S). auto.
      + exists t, n. auto.
      + intros (_ & [F|F]); [congruence|]. destruct F. eauto.
    - repeat split; auto; try discriminate.
      + intros [F|(W & t & S & _)]; [congruence|]. destruct X as [X|X]; [congruence|]. destruct X. eauto.
      + intros (_ & W & t & n & S & _). destruct X as [X|X]; [congruence|]. destruct X. eauto.
  Qed.

  (** Classes that can be instantiated cannot be extended by one that can, unless for another type. *)
  Lemma extend : forall bs b n t, let s := defines initial bs in concrete s n t -> b_base b = n ->
    b_abstract b <> Some true -> b_type b = None ->
    (fst (define s b) = Err ValueError \/ fst (define s b) = Err TypeError) /\ snd (define s b) = s.
  Proof.
    intros bs b n t s C B A Y. pose proof C as (base & E & Ab & Yb). rewrite <- B in E.
    destruct (outcome bs b base E) as (O1 & _ & _ & _). fold s in O1.
    assert (NA : c_abstract (inherit base b) = false).
    { unfold inherit; cbn [c_abstract]. destruct (b_abstract b) as [[|]|]; auto. congruence. }
    assert (NY : c_type (inherit base b) = Some t) by (unfold inherit, own; cbn [c_type]; rewrite Y; auto).
    destruct (define_cases s b) as [(base' & E' & X)|[E' _]]; [|fold s in E; congruence].
    assert (base' = base) by (fold s in E; congruence). subst base'. cbv zeta in X.
    destruct X as [[Q D]|[(Q & W & t' & S & G & D)|[(Q & W & X & D)|(Q & X & D)]]]; rewrite D; cbn [fst snd]; auto; [congruence|].
    exfalso. assert (t' = t) by (destruct S; congruence). subst t'.
    pose proof (i_listed _ (reachable bs) _ _ C) as Z. unfold s in G. congruence.
  Qed.
End Proofs.

Lemma nothing_registered : forall (T : Type) (eqb : T -> T -> bool), (forall a b, eqb a b = true <-> a = b) ->
  forall bs t, FieldClass_Model.get_class_for eqb (defines eqb false initial bs) t = Err KeyError.
Proof.
  intros T eqb H bs t. destruct (FieldClass_Model.get_class_for eqb (defines eqb false initial bs) t) as [n|e] eqn:E.
  - apply (lookup eqb H) in E. apply (defaults_sound eqb H) in E. destruct E; discriminate.
  - unfold FieldClass_Model.get_class_for in E. destruct (dget eqb _ t); congruence.
Qed.

Lemma built_in_classes : forall more p,
  let s := defines Nat.eqb true initial (built_in ++ more) in
  match type_number p with
  | Some t => exists f, Partitions_Model.get_class_for p = Ok f /\ FieldClass_Model.get_class_for Nat.eqb s t = Ok (class_number f)
  | None => Partitions_Model.get_class_for p = Err KeyError
  end.
Proof.
  intros more p s. unfold s, defines. rewrite fold_left_app.
  set (s0 := fold_left (fun s b => snd (define Nat.eqb true s b)) built_in initial).
  assert (S : forall t n, FieldClass_Model.get_class_for Nat.eqb s0 t = Ok n ->
    FieldClass_Model.get_class_for Nat.eqb (fold_left (fun s b => snd (define Nat.eqb true s b)) more s0) t = Ok n).
  { intros t n E. exact (stable Nat.eqb Nat.eqb_eq true more s0 t n E). }
  destruct p as [|w| |]; [| destruct w | |]; cbn [type_number]; try reflexivity;
    (eexists; split; [reflexivity|]; apply S; reflexivity).
Qed.

Lemma built_in_only : forall t, 6 <= t ->
  FieldClass_Model.get_class_for Nat.eqb (defines Nat.eqb true initial built_in) t = Err KeyError.
Proof. intros t L. do 6 (destruct t as [|t]; [lia|]). reflexivity. Qed.

Lemma attributes : forall (T : Type) (eqb : T -> T -> bool) wraps s b n base,
  fst (define eqb wraps s b) = Ok n -> nth_error (classes s) (b_base b) = Some base ->
  exists c : class T, nth_error (classes (snd (define eqb wraps s b))) n = Some c /\
    (c_abstract c = true <-> b_abstract b = Some true) /\
    (forall d, b_defaults b = Some d -> c_defaults c = Some d) /\ (b_defaults b = None -> c_defaults c = c_defaults base) /\
    (forall t, b_type b = Some t -> c_type c = Some t) /\ (b_type b = None -> c_type c = c_type base) /\
    (forall x, In x (c_components c) <-> In x (c_components base) \/ In x (b_components b)).
Proof.
  intros T eqb wraps s b n base E B. exists (inherit base b). split.
  - assert (D : n = List.length (classes s) /\ classes (snd (define eqb wraps s b)) = classes s ++ [inherit base b]).
    { destruct (define_cases eqb wraps s b) as [(base' & B' & X)|[B' _]]; [|congruence].
      assert (base' = base) by congruence. subst base'. cbv zeta in X.
      destruct X as [[_ D]|[(_ & _ & t & _ & _ & D)|[(_ & _ & _ & D)|(_ & _ & D)]]]; rewrite D in E |- *; cbn [fst snd classes] in *;
        try discriminate; injection E as <-; auto. }
    destruct D as [Dn Dc]. rewrite Dn, Dc. rewrite nth_error_app2, Nat.sub_diag by lia. reflexivity.
  - unfold inherit, own; cbn [c_abstract c_defaults c_type c_components]. repeat split.
    + destruct (b_abstract b) as [[|]|]; congruence.
    + intros ->. auto.
    + intros d ->. auto.
    + intros ->. auto.
    + intros t ->. auto.
    + intros ->. auto.
    + apply in_app_or.
    + apply in_or_app.
Qed.
