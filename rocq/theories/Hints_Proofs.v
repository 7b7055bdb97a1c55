From Coq Require Import ZArith List Ascii String Bool Lia Arith.
From Verif Require Import Base Base_Proofs Str Hints_Model Hints_Spec.
Import ListNotations.
Open Scope list_scope.

Section Proofs.
  Context {C : Type} (issub : C -> C -> bool) (is_none : C -> bool) (dict_class union_class : C)
    (same : hint C -> hint C -> bool).
  Notation lenient := (lenient issub is_none dict_class union_class same).
  Notation check_issubclass := (check_issubclass issub is_none dict_class union_class).
  Notation sub := (sub issub is_none dict_class same).

  Section HintInd.
    Variable P : hint C -> Prop.
    Hypotheses (H1 : P HAny) (H2 : P HNone) (H3 : P HEllipsis) (H4 : forall c, P (HClass c))
      (H5 : forall o l, Forall P l -> P (HAlias o l)) (H6 : forall b l, Forall P l -> P (HUnion b l))
      (H7 : forall l, P (HLiteral l)) (H8 : forall h, P h -> P (HAnnotated h))
      (H9 : forall b, match b with Some h => P h | None => True end -> P (HTypeVar b))
      (H10 : forall n fs, Forall (fun nf => P (snd nf)) fs -> P (HTypedDict n fs)) (H11 : forall c fs, P (HModel c fs)).
    Fixpoint hint_ind' (h : hint C) : P h :=
      let many := fix go l := match l return Forall P l with
                              | [] => Forall_nil _ | x :: l' => Forall_cons x (hint_ind' x) (go l') end in
      match h with
      | HAny => H1 | HNone => H2 | HEllipsis => H3 | HClass c => H4 c
      | HAlias o l => H5 o l (many l) | HUnion b l => H6 b l (many l) | HLiteral l => H7 l
      | HAnnotated h => H8 h (hint_ind' h)
      | HTypeVar b => H9 b (match b with Some h => hint_ind' h | None => I end)
      | HTypedDict n fs => H10 n fs ((fix go l := match l return Forall (fun nf : str * hint C => P (snd nf)) l with
                                                  | [] => Forall_nil _
                                                  | x :: l' => Forall_cons x (hint_ind' (snd x)) (go l') end) fs)
      | HModel c fs => H11 c fs
      end.
  End HintInd.

  (** * Unfolding *)

  Fixpoint all_args (cs ks : list (hint C)) : result bool :=
    match cs, ks with
    | c :: cs', k :: ks' => bind (lenient c k) (fun b => if b || same k c then all_args cs' ks' else Ok false)
    | _, _ => Ok true
    end.
  Definition against (klass' check' : hint C) : result bool :=
    check_issubclass klass' check'
      (fun ks => match check' with HAlias _ cs | HUnion _ cs => all_args cs ks | _ => Err (UserError 0) end).
  Definition stripped (klass : hint C) : hint C := bound (discard_annotated klass).

  Lemma lenient_eq : forall check klass, lenient check klass =
    if negb (accepted klass) then Ok false else
    match check with
    | HUnion _ args => anyM (fun c => lenient c klass) args
    | _ => against (stripped klass) (stripped check)
    end.
  Proof.
    intros check klass. destruct (accepted klass) eqn:A.
    - destruct check as [| | | |o l|b l|l|h|[b|]|n fs|c fs]; cbn [Hints_Model.lenient]; rewrite A; cbn [negb]; try reflexivity.
      destruct h as [| | | |o l|b l|l|h|[b|]|n fs|c fs]; reflexivity.
    - destruct check; cbn [Hints_Model.lenient]; rewrite A; reflexivity.
  Qed.

  Lemma lenient_rejected : forall check klass, accepted klass = false -> lenient check klass = Ok false.
  Proof. intros check klass A. now rewrite lenient_eq, A. Qed.

  (** * Stripping *)

  Definition core (h : hint C) : Prop :=
    match h with HAny | HClass _ | HTypedDict _ _ | HAlias _ _ => True | _ => False end.
  Lemma source_stripped : forall k, source k -> core (stripped k) /\ source (stripped k).
  Proof.
    intros k S. destruct S as [|c|n fs|o args F|h S A| |b S A V]; cbn; try (split; [exact I|constructor; assumption]).
    - destruct S as [|c|n fs|o args F|h S' A'| |b S A' V]; cbn in *; try discriminate; try (split; [exact I|constructor; assumption]).
      inversion S; subst; cbn in *; try discriminate; (split; [exact I|assumption]).
    - inversion S; subst; cbn in *; try discriminate; (split; [exact I|assumption]).
  Qed.
  Lemma sub_stripped_l : forall k, source k -> forall c, sub (stripped k) c <-> sub k c.
  Proof.
    intros k S c. split.
    - destruct S as [|x|n fs|o args F|h S A| |b S A V]; cbn; auto.
      + destruct S as [|x|n fs|o args F|h S' A'| |b S A' V]; cbn in *; try discriminate; intro H;
          try (now apply sub_annotated_l).
        * now apply sub_annotated_l, sub_free_l.
        * now apply sub_annotated_l, sub_bound_l.
      + now apply sub_free_l.
      + now apply sub_bound_l.
    - intro H. revert S. induction H; intro S; cbn in *; auto; try (constructor; assumption).
      + apply sub_any. destruct (source_stripped _ S) as [K _]. destruct (stripped k); cbn in *; tauto.
      + eapply sub_union; eauto.
      + inversion S; subst. match goal with K : source k |- _ => apply IHsub in K; destruct k; cbn in *; try discriminate; exact K end.
      + apply sub_annotated_r. auto.
      + apply sub_free_r. destruct (source_stripped _ S) as [K _]. destruct (stripped k); cbn in *; tauto.
      + apply sub_bound_r. auto.
  Qed.

  Lemma sub_accepted : forall k c, sub k c -> accepted k = true.
  Proof. intros k c H. induction H; auto. Qed.

  (** A check behind Annotated or a TypeVar is what is behind it. *)
  Definition naked (c : hint C) : bool := negb (annotated c) && negb (variable c) && negb (union c).
  Lemma target_stripped : forall odd c, target odd c -> union c = false ->
    naked (stripped c) = true /\ target odd (stripped c).
  Proof.
    intros odd c T U. destruct T as [| | | | |h T A U'| |b T A U' V| | |]; cbn in *; try discriminate;
      try (split; [reflexivity|constructor; assumption]).
    - destruct T as [| | | | |h T' A' U''| |b T A' U'' V| | |]; cbn in *; try discriminate;
        try (split; [reflexivity|constructor; assumption]).
      split; [|assumption]. unfold naked. now rewrite A', U'', V.
    - split; [|assumption]. unfold naked. now rewrite A, U', V.
  Qed.
  Lemma sub_stripped_r : forall odd c, target odd c -> union c = false -> forall k,
    sub k (stripped c) <-> sub k c.
  Proof.
    intros odd c T U k. split.
    - destruct T as [| | | | |h T A U'| |b T A U' V| | |]; cbn in *; try discriminate; auto.
      + destruct T as [| | | | |h T' A' U''| |b T A' U'' V| | |]; cbn in *; try discriminate; intro HS;
          try (now apply sub_annotated_r).
        * apply sub_annotated_r, sub_free_r. exact (sub_accepted _ _ HS).
        * now apply sub_annotated_r, sub_bound_r.
      + intro HS. apply sub_free_r. exact (sub_accepted _ _ HS).
      + apply sub_bound_r.
    - intro H. revert T U. induction H; intros T U; cbn in *; auto; try discriminate;
        try (constructor; auto; fail); try (econstructor; eauto; fail).
      + inversion T; subst. match goal with K : target odd c |- _ => specialize (IHsub K) end.
        destruct c; cbn in *; try discriminate; auto.
  Qed.

  Lemma lenient_stripped : forall odd c k, target odd c -> union c = false -> source k ->
    lenient c k = against (stripped k) (stripped c).
  Proof.
    intros odd c k T U S. rewrite lenient_eq.
    assert (A : accepted k = true) by (destruct S; reflexivity). rewrite A. cbn [negb].
    destruct c; cbn in U; try discriminate; reflexivity.
  Qed.

  (** * Soundness *)
  Lemma Forall2_len' : forall {A B} (R : A -> B -> Prop) l m, Forall2 R l m -> List.length l = List.length m.
  Proof. induction 1; cbn; congruence. Qed.
  Definition right_answer (c : hint C) : Prop := forall k, (accepted k = true -> source k) ->
    forall b, lenient c k = Ok b -> (b = true <-> sub k c).

  Lemma all_args_sound : forall cs, Forall right_answer cs -> forall ks, Forall (fun a => accepted a = true -> source a) ks ->
    List.length ks = List.length cs -> forall b, all_args cs ks = Ok b ->
    (b = true <-> Forall2 (fun k c => sub k c \/ same k c = true) ks cs).
  Proof.
    induction 1 as [|c cs R Rs IH]; intros ks K L b H.
    - destruct ks; [|discriminate]. injection H as <-. split; [constructor|reflexivity].
    - destruct K as [|k ks Kk Kks]; [discriminate|]. cbn [all_args] in H.
      destruct (lenient c k) as [b1|] eqn:E1; [|discriminate]. cbn [bind] in H.
      pose proof (R k Kk b1 E1) as R1. injection L as L.
      destruct (b1 || same k c) eqn:O.
      + rewrite (IH ks Kks L b H). apply orb_true_iff in O. split; intro F.
        * constructor; [|exact F]. destruct O as [ -> |O]; [left; now apply R1|now right].
        * now inversion F.
      + injection H as <-. apply orb_false_iff in O. destruct O as [ -> O]. split; [discriminate|].
        intro F. inversion F; subst. destruct H2 as [S2|S2]; [|congruence]. now apply R1 in S2.
  Qed.

  Lemma against_sound : forall odd c, naked c = true -> target odd c -> Forall right_answer (get_args c) ->
    forall k, core k -> source k -> forall b, against k c = Ok b -> (b = true <-> sub k c).
  Proof.
    intros odd c N T R k K S b H. unfold against in H.
    destruct c as [| | |x|p cs|u cs|items|h|v|n fs|mc mfs]; cbn in N; try discriminate.
    - destruct k; cbn in K, H; try tauto; injection H as <-; split; auto; intros _; apply sub_any; reflexivity.
    - destruct k; cbn in K, H; try tauto; injection H as <-; split; intro E; try discriminate;
        try (now constructor); inversion E; subst; auto.
    - destruct k; cbn in K, H; try tauto; try discriminate; injection H as <-; split; intro E; try discriminate; inversion E.
    - destruct k; cbn in K, H; try tauto; injection H as <-; split; intro E; try discriminate;
        try (now constructor); inversion E; subst; auto.
    - destruct k as [| | |a|o ks|u ks|items|h|v|n fs|mc mfs]; cbn in K; try tauto.
      + cbn in H. injection H as <-. split; intro E; [discriminate|inversion E].
      + cbn in H. injection H as <-. rewrite andb_true_iff, Nat.eqb_eq. split.
        * intros [I L]. destruct cs; [|discriminate]. now apply sub_bare.
        * intro E. inversion E; subst. auto.
      + unfold check_issubclass in H. cbn [get_origin origin_class issubclass_origin get_args args_count List.length] in H.
        destruct (List.length cs =? 0) eqn:L0.
        * cbn [bind] in H. injection H as <-. apply Nat.eqb_eq in L0. destruct cs; [|discriminate]. split.
          -- now apply sub_unfilled.
          -- intro E. inversion E; subst; auto.
        * destruct (List.length ks =? List.length cs) eqn:L.
          -- apply Nat.eqb_eq in L. destruct (all_args cs ks) as [b1|] eqn:E1; [|discriminate]. cbn [bind] in H.
             assert (Kks : Forall (fun a => accepted a = true -> source a) ks) by now inversion S.
             pose proof (all_args_sound cs R ks Kks L b1 E1) as A. destruct b1.
             ++ injection H as <-. split.
                ** intro I. apply sub_args; [exact I|]. now apply A.
                ** intro E. inversion E; subst; auto.
             ++ injection H as <-. split; [discriminate|]. intro E. inversion E; subst; [discriminate|].
                now apply A.
          -- cbn [bind] in H. injection H as <-. split; [discriminate|]. intro E. inversion E; subst; [discriminate|].
             apply Nat.eqb_neq in L. exfalso; apply L; eapply Forall2_len'; eassumption.
      + cbn in H. injection H as <-. rewrite andb_true_iff, Nat.eqb_eq. split.
        * intros [I L]. destruct cs; [|discriminate]. now apply sub_bare_dict.
        * intro E. inversion E; subst. auto.
    - assert (NS : ~ sub k (HLiteral items)) by (intro E; destruct k; cbn in K; try tauto; inversion E).
      destruct b; [|split; [discriminate|intro E; now apply NS in E]]. exfalso.
      destruct k; cbn in K; try tauto; cbn in H; try discriminate.
      destruct (_ =? 0); [discriminate|]. destruct (_ =? _); discriminate.
    - destruct k; cbn in K, H; try tauto; try discriminate; injection H as <-; split; intro E; try discriminate; inversion E.
    - now inversion T.
  Qed.

  Lemma anyM_true : forall {A} (f : A -> result bool) l b, anyM f l = Ok b ->
    (b = true <-> exists x, In x l /\ f x = Ok true).
  Proof.
    intros A f l. induction l as [|x l IH]; intros b H; cbn [anyM] in H.
    - injection H as <-. split; [discriminate|]. intros (x & [] & _).
    - destruct (f x) as [[]|] eqn:E; try discriminate; cbn [bind] in H.
      + injection H as <-. split; [|reflexivity]. intros _. exists x. split; [now left|exact E].
      + rewrite (IH b H). split; intros (y & I & Y).
        * exists y. split; [now right|exact Y].
        * destruct I as [ -> |I]; [congruence|]. exists y. now split.
  Qed.
  Lemma anyM_false : forall {A} (f : A -> result bool) l, anyM f l = Ok false -> forall x, In x l -> f x = Ok false.
  Proof.
    intros A f l. induction l as [|x l IH]; intros H y I; [destruct I|]. cbn [anyM] in H.
    destruct (f x) as [[]|] eqn:E; try discriminate. destruct I as [ <- |I]; [exact E|now apply IH].
  Qed.

  Theorem lenient_sound : forall odd c, target odd c -> right_answer c.
  Proof.
    intros odd c. enough (G : target odd c -> right_answer c /\ Forall right_answer (get_args (stripped c)))
      by (intro T; now apply G).
    assert (Step : forall c, target odd c -> union c = false -> Forall right_answer (get_args (stripped c)) -> right_answer c).
    { intros d T U R k K b H. destruct (accepted k) eqn:A.
      - specialize (K eq_refl). rewrite (lenient_stripped odd d k T U K) in H.
        destruct (target_stripped odd d T U) as [N T']. destruct (source_stripped k K) as [Kc S].
        rewrite (against_sound odd _ N T' R _ Kc S b H).
        rewrite (sub_stripped_l k K). now apply (sub_stripped_r odd).
      - rewrite lenient_rejected in H by exact A. injection H as <-. split; [discriminate|].
        intro E. apply sub_accepted in E. congruence. }
    induction c as [| | | |o l IH|u l IH|items|h IH|v IH|n fs IH|mc mfs] using hint_ind'; intro T;
      try (split; [apply Step; [exact T|reflexivity|constructor]|constructor]).
    - assert (R : Forall right_answer l).
      { inversion T; subst. clear T. induction IH as [|x l Hx _ IHl]; constructor; inversion H0; subst; [now apply Hx|auto]. }
      split; [apply Step; [exact T|reflexivity|exact R]|exact R].
    - assert (R : Forall right_answer l).
      { inversion T; subst. clear T. induction IH as [|x l Hx _ IHl]; constructor; inversion H0; subst; [now apply Hx|auto]. }
      split; [|exact R]. intros k K b H. rewrite lenient_eq in H. destruct (accepted k) eqn:A; cbn [negb] in H.
      + rewrite (anyM_true _ l b H). rewrite Forall_forall in R. split.
        * intros (c & I & E). eapply sub_union; [exact I|]. now apply (R c I k (fun _ => K eq_refl) true E).
        * intro E. apply (anyM_true _ l b H). destruct b; [reflexivity|]. exfalso.
          assert (exists c, In c l /\ sub k c) as (c & I & Ec).
          { clear - E K A. specialize (K eq_refl). remember (HUnion u l) as d eqn:D. revert D.
            induction E; intro D; try discriminate.
            - injection D as <- <-. exists c. now split.
            - inversion K; subst. destruct IHE as (x & I & X); [destruct H0; reflexivity|exact H0|reflexivity|]. exists x. split; [exact I|]. now apply sub_annotated_l.
            - destruct (IHE) as (x & I & X); [reflexivity|constructor|exact D|]. exists x. split; [exact I|]. now apply sub_free_l.
            - inversion K; subst. destruct IHE as (x & I & X); [destruct H0; reflexivity|exact H0|reflexivity|].
              exists x. split; [exact I|]. now apply sub_bound_l. }
          pose proof (anyM_false _ l H c I) as F. apply (R c I k (fun _ => K eq_refl) false F) in Ec. discriminate.
      + injection H as <-. split; [discriminate|]. intro E. apply sub_accepted in E. congruence.
    - inversion T; subst. destruct (IH H0) as [_ R].
      assert (R' : Forall right_answer (get_args (stripped (HAnnotated h)))) by (destruct h; cbn in *; try discriminate; exact R).
      split; [apply Step; [exact T|reflexivity|exact R']|exact R'].
    - destruct v as [h|]; [|split; [apply Step; [exact T|reflexivity|constructor]|constructor]].
      inversion T; subst. destruct (IH H0) as [_ R].
      assert (R' : Forall right_answer (get_args (stripped (HTypeVar (Some h))))) by (destruct h; cbn in *; try discriminate; exact R).
      split; [apply Step; [exact T|reflexivity|exact R']|exact R'].
  Qed.

  (** * It answers *)
  Definition answers (c : hint C) : Prop := forall k, (accepted k = true -> source k) -> exists b, lenient c k = Ok b.

  Lemma all_args_answers : forall cs, Forall answers cs -> forall ks, Forall (fun a => accepted a = true -> source a) ks ->
    exists b, all_args cs ks = Ok b.
  Proof.
    induction 1 as [|c cs R Rs IH]; intros ks K; [now exists true|].
    destruct K as [|k ks Kk Kks]; [now exists true|]. cbn [all_args].
    destruct (R k Kk) as (b & ->). cbn [bind]. destruct (b || same k c); [now apply IH|now exists false].
  Qed.
  Lemma anyM_answers : forall {A} (f : A -> result bool) l, Forall (fun x => exists b, f x = Ok b) l ->
    exists b, anyM f l = Ok b.
  Proof.
    intros A f l F. induction F as [|x l (b & E) F IH]; [now exists false|]. cbn [anyM]. rewrite E. cbn [bind].
    destruct b; [now exists true|exact IH].
  Qed.

  Lemma against_answers : forall c, naked c = true -> target false c -> Forall answers (get_args c) ->
    forall k, core k -> source k -> exists b, against k c = Ok b.
  Proof.
    intros c N T R k K S. unfold against.
    destruct c as [| | |x|p cs|u cs|items|h|v|n fs|mc mfs]; cbn in N; try discriminate; try (now inversion T).
    - destruct k; cbn in K |- *; try tauto; eauto.
    - destruct k; cbn in K |- *; try tauto; eauto.
    - destruct k; cbn in K |- *; try tauto; eauto.
    - destruct k as [| | |a|o ks|u ks|items|h|v|n fs|mc mfs]; cbn in K; try tauto; try (eexists; reflexivity).
      unfold check_issubclass. cbn [get_origin origin_class issubclass_origin get_args args_count].
      destruct (List.length cs =? 0); [eexists; reflexivity|].
      destruct (List.length ks =? List.length cs); [|eexists; reflexivity].
      assert (Kks : Forall (fun a => accepted a = true -> source a) ks) by now inversion S.
      destruct (all_args_answers cs R ks Kks) as (b & ->). cbn [bind]. destruct b; eexists; reflexivity.
  Qed.

  Theorem lenient_answers : forall c, target false c -> answers c.
  Proof.
    intros c. enough (G : target false c -> answers c /\ Forall answers (get_args (stripped c)))
      by (intro T; now apply G).
    assert (Step : forall c, target false c -> union c = false -> Forall answers (get_args (stripped c)) -> answers c).
    { intros d T U R k K. destruct (accepted k) eqn:A.
      - specialize (K eq_refl). rewrite (lenient_stripped false d k T U K).
        destruct (target_stripped false d T U) as [N T']. destruct (source_stripped k K) as [Kc S].
        now apply against_answers.
      - exists false. now apply lenient_rejected. }
    induction c as [| | | |o l IH|u l IH|items|h IH|v IH|n fs IH|mc mfs] using hint_ind'; intro T;
      try (split; [apply Step; [exact T|reflexivity|constructor]|constructor]).
    - assert (R : Forall answers l).
      { inversion T; subst. clear T. induction IH as [|x l Hx _ IHl]; constructor; inversion H0; subst; [now apply Hx|auto]. }
      split; [apply Step; [exact T|reflexivity|exact R]|exact R].
    - assert (R : Forall answers l).
      { inversion T; subst. clear T. induction IH as [|x l Hx _ IHl]; constructor; inversion H0; subst; [now apply Hx|auto]. }
      split; [|exact R]. intros k K. rewrite lenient_eq. destruct (accepted k) eqn:A; cbn [negb]; [|now exists false].
      apply anyM_answers. eapply Forall_impl; [|exact R]. intros c Rc. apply Rc. intros _. now apply K.
    - inversion T; subst. destruct (IH H0) as [_ R].
      assert (R' : Forall answers (get_args (stripped (HAnnotated h)))) by (destruct h; cbn in *; try discriminate; exact R).
      split; [apply Step; [exact T|reflexivity|exact R']|exact R'].
    - destruct v as [h|]; [|split; [apply Step; [exact T|reflexivity|constructor]|constructor]].
      inversion T; subst. destruct (IH H0) as [_ R].
      assert (R' : Forall answers (get_args (stripped (HTypeVar (Some h))))) by (destruct h; cbn in *; try discriminate; exact R).
      split; [apply Step; [exact T|reflexivity|exact R']|exact R'].
  Qed.

  (** * Consequences *)
  Theorem lenient_decides : forall k c, source k -> target false c ->
    (lenient c k = Ok true /\ sub k c) \/ (lenient c k = Ok false /\ ~ sub k c).
  Proof.
    intros k c S T. destruct (lenient_answers c T k (fun _ => S)) as (b & E).
    pose proof (lenient_sound false c T k (fun _ => S) b E) as H. destruct b; [left; split; tauto|right].
    split; [exact E|]. intro K. apply H in K. discriminate.
  Qed.

  Lemma plain_source : forall h : hint C, plain h -> source h.
  Proof.
    induction h as [| | | |o l IH|u l IH|items|h IH|v IH|n fs IH|mc mfs] using hint_ind'; intro P; try (now inversion P); constructor.
    inversion P; subst. clear P. induction IH as [|x l Hx _ IHl]; constructor; inversion H0; subst; auto.
  Qed.
  Lemma plain_target : forall h : hint C, plain h -> target false h.
  Proof.
    induction h as [| | | |o l IH|u l IH|items|h IH|v IH|n fs IH|mc mfs] using hint_ind'; intro P; try (now inversion P); constructor.
    inversion P; subst. clear P. induction IH as [|x l Hx _ IHl]; constructor; inversion H0; subst; auto.
  Qed.

  Lemma sub_refl : (forall c, issub c c = true) -> forall h, plain h -> sub h h.
  Proof.
    intro Refl. induction h as [| | | |o l IH|u l IH|items|h IH|v IH|n fs IH|mc mfs] using hint_ind'; intro P; try (now inversion P).
    - apply sub_class, Refl.
    - inversion P; subst. apply sub_args; [apply Refl|]. clear P.
      induction IH as [|x l Hx _ IHl]; constructor; inversion H0; subst; auto.
  Qed.
  Lemma sub_trans : (forall a b c, issub a b = true -> issub b c = true -> issub a c = true) ->
    (forall a b, same a b = true -> a = b) ->
    forall c a b, plain a -> plain b -> plain c -> sub a b -> sub b c -> sub a c.
  Proof.
    intros Tr Same. induction c as [| | |x|o l IH|u l IH|items|h IH|v IH|n fs IH|mc mfs] using hint_ind';
      intros a b Pa Pb Pc S1 S2; try (now inversion Pc).
    - inversion S2; subst; try (now inversion Pb); inversion S1; subst; try (now inversion Pa);
        try (apply sub_class; eapply Tr; eassumption); try (apply sub_origin; eapply Tr; eassumption).
    - inversion S2; subst; try (now inversion Pb); inversion S1; subst; try (now inversion Pa);
        try (apply sub_bare; eapply Tr; eassumption); try (apply sub_unfilled; eapply Tr; eassumption).
      + match goal with F : Forall2 _ [] _ |- _ => inversion F; subst end. apply sub_bare. eapply Tr; eassumption.
      + match goal with F : Forall2 _ [] _ |- _ => inversion F; subst end. apply sub_unfilled. eapply Tr; eassumption.
      + apply sub_args; [eapply Tr; eassumption|].
        match goal with F : Forall2 _ ?m l, G : Forall2 _ ?k ?m |- _ => rename F into F1; rename G into F2; rename m into ms; rename k into ks end.
        inversion Pa as [|? ? Pks]; inversion Pb as [|? ? Pms]; inversion Pc as [|? ? Pcs]; subst.
        clear Pa Pb Pc S1 S2. revert ks F2 Pks Pms Pcs IH.
        induction F1 as [|m c ms cs D1 F1 IHF]; intros ks F2 Pks Pms Pcs IH.
        * inversion F2; constructor.
        * destruct ks as [|k ks]; [now inversion F2|].
          assert (D2 : sub k m \/ same k m = true) by now inversion F2.
          assert (F2' : Forall2 (fun k c => sub k c \/ same k c = true) ks ms) by now inversion F2.
          apply Forall_cons_iff in Pks, Pms, Pcs, IH. destruct Pks, Pms, Pcs, IH as [IHc IHcs].
          constructor; [|now apply IHF].
          destruct D2 as [D2|D2]; destruct D1 as [D1|D1].
          -- left. now apply (IHc k m).
          -- apply Same in D1. subst. now left.
          -- apply Same in D2. subst. now left.
          -- apply Same in D2. subst. now right.
  Qed.

  Notation lenient_issubclass := (lenient_issubclass issub is_none dict_class union_class same).
  Theorem lenient_refl : (forall c, issub c c = true) -> forall h, plain h -> lenient_issubclass h h = Ok true.
  Proof.
    intros Refl h P. destruct (lenient_decides h h (plain_source h P) (plain_target h P)) as [[E _]|[_ N]]; [exact E|].
    destruct N. now apply sub_refl.
  Qed.
  Theorem lenient_trans : (forall a b c, issub a b = true -> issub b c = true -> issub a c = true) ->
    (forall a b, same a b = true -> a = b) -> forall a b c, plain a -> plain b -> plain c ->
    lenient_issubclass a b = Ok true -> lenient_issubclass b c = Ok true -> lenient_issubclass a c = Ok true.
  Proof.
    intros Tr Same a b c Pa Pb Pc E1 E2.
    apply (lenient_sound false b (plain_target b Pb) a (fun _ => plain_source a Pa)) in E1.
    apply (lenient_sound false c (plain_target c Pc) b (fun _ => plain_source b Pb)) in E2.
    destruct (lenient_decides a c (plain_source a Pa) (plain_target c Pc)) as [[E _]|[_ N]]; [exact E|].
    destruct N. eapply (sub_trans Tr Same c a b); tauto.
  Qed.
  Theorem lenient_any : forall k, accepted k = true -> lenient_issubclass k HAny = Ok true.
  Proof.
    intros k A. unfold Hints_Model.lenient_issubclass. rewrite lenient_eq, A. cbn [negb]. change (stripped HAny) with (@HAny C).
    unfold against, Hints_Model.check_issubclass. destruct (stripped k); reflexivity.
  Qed.
  Theorem any_below : forall c, plain c -> lenient_issubclass HAny c = Ok false.
  Proof. intros c P. inversion P; reflexivity.
  Qed.
  Theorem lenient_union : forall k bar cs,
    (forall c, In c cs -> exists b, lenient_issubclass k c = Ok b) ->
    (lenient_issubclass k (HUnion bar cs) = Ok true <-> exists c, In c cs /\ lenient_issubclass k c = Ok true).
  Proof.
    intros k bar cs H. unfold Hints_Model.lenient_issubclass in *. rewrite lenient_eq.
    destruct (accepted k) eqn:A; cbn [negb].
    - destruct (anyM_answers (fun c => lenient c k) cs) as (b & E); [now apply Forall_forall|].
      rewrite E. pose proof (anyM_true _ cs b E) as Q. rewrite <- Q. split; congruence.
    - split; [discriminate|]. intros (c & _ & E). rewrite lenient_rejected in E by exact A. discriminate.
  Qed.
  Theorem lenient_annotated : forall k c,
    (accepted k = true -> annotated k = false -> lenient_issubclass (HAnnotated k) c = lenient_issubclass k c) /\
    (annotated c = false -> union c = false -> lenient_issubclass k (HAnnotated c) = lenient_issubclass k c).
  Proof.
    intros k c. unfold Hints_Model.lenient_issubclass. split.
    - intros A N. assert (S : stripped (HAnnotated k) = stripped k) by (destruct k; try reflexivity; discriminate).
      induction c as [| | | |o l IH|u l IH|items|h IH|v IH|n fs IH|mc mfs] using hint_ind';
        rewrite !lenient_eq, A; cbn [accepted negb]; try (now rewrite S).
      induction IH as [|x l Hx _ IHl]; [reflexivity|]. cbn [anyM]. rewrite Hx. destruct (lenient x k) as [[]|]; cbn [bind]; auto.
    - intros N U. rewrite !lenient_eq. destruct (accepted k); cbn [negb]; [|reflexivity].
      destruct c; cbn in N, U; try discriminate; reflexivity.
  Qed.
  Theorem lenient_covariant : forall o p ks cs, issub o p = true ->
    Forall2 (fun k c => lenient_issubclass k c = Ok true) ks cs ->
    lenient_issubclass (HAlias o ks) (HAlias p cs) = Ok true.
  Proof.
    intros o p ks cs I F. unfold Hints_Model.lenient_issubclass in *. rewrite lenient_eq. cbn [accepted negb].
    change (against (HAlias o ks) (HAlias p cs) = Ok true).
    unfold against, Hints_Model.check_issubclass. cbn [get_origin origin_class issubclass_origin get_args args_count].
    pose proof (Forall2_len' _ _ _ F) as L. rewrite L, Nat.eqb_refl.
    assert (A : all_args cs ks = Ok true).
    { clear L. induction F as [|k c ks cs E F IH]; [reflexivity|]. cbn [all_args]. rewrite E. exact IH. }
    rewrite A. destruct (_ =? 0); cbn [bind]; now rewrite I.
  Qed.
  Theorem lenient_arity : forall o p ks cs, cs <> [] -> List.length ks <> List.length cs ->
    lenient_issubclass (HAlias o ks) (HAlias p cs) = Ok false.
  Proof.
    intros o p ks cs N L. unfold Hints_Model.lenient_issubclass. rewrite lenient_eq. cbn [accepted negb].
    change (against (HAlias o ks) (HAlias p cs) = Ok false).
    unfold against, Hints_Model.check_issubclass. cbn [get_origin origin_class issubclass_origin get_args args_count].
    destruct cs as [|c cs]; [contradiction|]. apply Nat.eqb_neq in L. rewrite L. reflexivity.
  Qed.

  Lemma not_accepted : forall c k, accepted k = false -> lenient_issubclass k c = Ok false.
  Proof. intros c k A. unfold Hints_Model.lenient_issubclass. destruct c; cbn [Hints_Model.lenient]; rewrite A; reflexivity. Qed.
  Lemma tuple_each : forall k cs, lenient_issubclass_any issub is_none dict_class union_class same k cs = anyM (lenient_issubclass k) cs.
  Proof.
    intros k cs. unfold lenient_issubclass_any. destruct (accepted k) eqn:A; [reflexivity|].
    cbn [negb]. induction cs as [|c cs IH]; [reflexivity|]. cbn [anyM]. rewrite (not_accepted c k A). exact IH.
  Qed.

  Theorem tuple_decides : forall k cs, source k -> Forall (target false) cs ->
    (lenient_issubclass_any issub is_none dict_class union_class same k cs = Ok true /\ exists c, In c cs /\ sub k c) \/
    (lenient_issubclass_any issub is_none dict_class union_class same k cs = Ok false /\ forall c, In c cs -> ~ sub k c).
  Proof.
    intros k cs S T. rewrite tuple_each. induction T as [|c cs Tc T IH]; [right; split; [reflexivity|intros c []]|].
    cbn [anyM]. destruct (lenient_decides k c S Tc) as [[E H]|[E H]]; unfold Hints_Model.lenient_issubclass at 1 3; rewrite E; cbn [bind].
    - left. split; [reflexivity|]. exists c. split; [now left|exact H].
    - destruct IH as [(I & c' & In' & H')|(I & H')].
      + left. split; [exact I|]. exists c'. split; [now right|exact H'].
      + right. split; [exact I|]. intros c' [ <- |In']; [exact H|now apply H'].
  Qed.
End Proofs.
