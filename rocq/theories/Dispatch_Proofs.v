From Coq Require Import ZArith List Ascii String Bool.
From Verif Require Import Base Base_Proofs Str Str_Proofs Hints_Model Hints_Spec Hints_Proofs Dispatch_Model Dispatch_Spec.
Import ListNotations.
Open Scope list_scope.

Lemma kind_eqb_spec : forall a b, kind_eqb a b = true <-> a = b.
Proof. destruct a, b; cbn; split; congruence. Qed.
Lemma mem_str : forall n l, existsb (str_eqb n) l = true <-> In n l.
Proof.
  intros n l. rewrite existsb_exists. split.
  - intros (m & I & E). apply str_eqb_spec in E. subst. exact I.
  - intro I. exists n. split; [exact I|apply str_eqb_refl].
Qed.

Section Dispatch.
  Context {C : Type} (issub : C -> C -> bool) (is_none : C -> bool) (dict_class union_class : C) (same : hint C -> hint C -> bool).
  Notation sub := (sub issub is_none dict_class same).
  Notation lenient_issubclass := (lenient_issubclass issub is_none dict_class union_class same).
  Notation check_handler := (check_handler issub is_none dict_class union_class same).
  Notation check_param := (check_param issub is_none dict_class union_class same).
  Notation refines := (refines issub is_none dict_class same).

  Lemma same_names_spec : forall f spec : signature C, same_names f spec = true <->
    forall n, In n (map p_name (params f)) <-> In n (map p_name (params spec)).
  Proof.
    intros f spec. unfold same_names, names. rewrite andb_true_iff, !forallb_forall. split.
    - intros [A B] n. split; intro I; [apply A in I|apply B in I]; apply mem_str, I.
    - intro H. split; intros n I; apply mem_str, H, I.
  Qed.

  Lemma decides : forall k c, (accepted k = true -> source k) -> target false c ->
    (lenient_issubclass k c = Ok true /\ sub k c) \/ (lenient_issubclass k c = Ok false /\ ~ sub k c).
  Proof.
    intros k c S T. destruct (lenient_answers issub is_none dict_class union_class same c T k S) as (b & E).
    pose proof (lenient_sound issub is_none dict_class union_class same false c T k S b E) as H.
    destruct b; [left; split; [exact E|apply H; reflexivity]|right]. split; [exact E|]. intro K. apply H in K. discriminate.
  Qed.

  Lemma find_param_spec : forall (s : signature C) q, distinct s -> In q (params s) -> find_param s (p_name q) = Some q.
  Proof.
    intros s q D I. unfold find_param, distinct in *. induction (params s) as [|p l IH]; [destruct I|]. cbn [find map] in *.
    inversion D as [|? ? N D']; subst. destruct I as [->|I]; [rewrite str_eqb_refl; reflexivity|].
    destruct (str_eqb (p_name p) (p_name q)) eqn:E; [|apply IH; assumption].
    apply str_eqb_spec in E. destruct N. rewrite E. apply in_map, I.
  Qed.

  Definition param_fine (spec : signature C) (p : param C) : Prop :=
    forall q, In q (params spec) -> p_name p = p_name q -> p_kind p = p_kind q /\ (p_hint p = HAny \/ sub (p_hint p) (p_hint q)).
  Lemma check_param_spec : forall spec p, distinct spec -> wide spec -> (accepted (p_hint p) = true -> source (p_hint p)) ->
    In (p_name p) (map p_name (params spec)) ->
    (check_param spec p = Ok tt /\ param_fine spec p) \/ (check_param spec p = Err TypeError /\ ~ param_fine spec p).
  Proof.
    intros spec p D [W _] S I. apply in_map_iff in I. destruct I as (q & E & I). unfold Dispatch_Model.check_param.
    rewrite <- E, (find_param_spec _ _ D I).
    assert (U : forall q', In q' (params spec) -> p_name p = p_name q' -> q' = q).
    { intros q' I' E'. assert (F := find_param_spec _ _ D I'). rewrite <- E', <- E, (find_param_spec _ _ D I) in F. injection F as ->. reflexivity. }
    destruct (kind_eqb (p_kind p) (p_kind q)) eqn:K; cbn [negb].
    - apply kind_eqb_spec in K. destruct (is_any (p_hint p)) eqn:A.
      + left. split; [reflexivity|]. intros q' I' E'. rewrite (U q' I' E'). split; [exact K|]. left. destruct (p_hint p); try discriminate A; reflexivity.
      + destruct (decides (p_hint p) (p_hint q) S (W q I)) as [[L T]|[L T]]; rewrite L; cbn [bind].
        * left. split; [reflexivity|]. intros q' I' E'. rewrite (U q' I' E'). auto.
        * right. split; [reflexivity|]. intro F. destruct (F q I (eq_sym E)) as [_ [X|X]]; [rewrite X in A; discriminate|auto].
    - right. split; [reflexivity|]. intro F. destruct (F q I (eq_sym E)) as [X _]. apply kind_eqb_spec in X. congruence.
  Qed.

  Lemma mapM_units : forall A (f : A -> result unit) (P : A -> Prop) l, (forall x, In x l -> (f x = Ok tt /\ P x) \/ (f x = Err TypeError /\ ~ P x)) ->
    (exists us, mapM f l = Ok us /\ forall x, In x l -> P x) \/ (mapM f l = Err TypeError /\ ~ forall x, In x l -> P x).
  Proof.
    intros A f P l. induction l as [|x l IH]; intro H; [left; exists []; split; [reflexivity|intros x []]|].
    cbn [mapM]. destruct (H x (or_introl eq_refl)) as [[E Px]|[E Nx]]; rewrite E; cbn [bind].
    - destruct (IH (fun y I => H y (or_intror I))) as [(us & -> & F)|[-> N]]; cbn [bind].
      + left. eexists. split; [reflexivity|]. intros y [<-|I]; auto.
      + right. split; [reflexivity|]. intro F. apply N. intros y I. apply F. right. exact I.
    - right. split; [reflexivity|]. intro F. apply Nx, F. left. reflexivity.
  Qed.

  Theorem handler_decides : forall spec f, distinct spec -> wide spec -> narrow f ->
    (check_handler spec f = Ok tt /\ refines f spec) \/ (check_handler spec f = Err TypeError /\ ~ refines f spec).
  Proof.
    intros spec f D W N. unfold Dispatch_Model.check_handler. destruct (same_names f spec) eqn:E; cbn [negb].
    - assert (E' := proj1 (same_names_spec f spec) E). clear E. rename E' into E.
      destruct (mapM_units _ (check_param spec) (param_fine spec) (params f)) as [(us & -> & F)|[-> F]]; cbn [bind].
      + intros p I. apply check_param_spec; [assumption|assumption|exact (proj1 N p I)|apply E, in_map, I].
      + destruct (decides (returns f) (returns spec) (proj2 N) (proj2 W)) as [[-> T]|[-> T]]; cbn [bind].
        * left. split; [reflexivity|]. constructor; [exact E| |exact T]. intros p q Ip Iq X. exact (F p Ip q Iq X).
        * right. split; [reflexivity|]. intro R. apply T, R.
      + right. split; [reflexivity|]. intro R. apply F. intros p Ip q Iq X. apply (ref_params _ _ _ _ _ _ R); assumption.
    - right. split; [reflexivity|]. intro R. assert (X := proj2 (same_names_spec f spec) (ref_names _ _ _ _ _ _ R)). congruence.
  Qed.

  Theorem registered : forall (H : Type) spec f (h : H) table, distinct spec -> wide spec -> narrow f ->
    (refines f spec <-> register issub is_none dict_class union_class same spec table f h = Ok (table ++ [(map p_hint (params f), h)])) /\
    (~ refines f spec <-> register issub is_none dict_class union_class same spec table f h = Err TypeError).
  Proof.
    intros H spec f h table D W N. unfold register. destruct (handler_decides spec f D W N) as [[-> R]|[-> R]]; cbn [bind]; split; split; intros; auto; try discriminate; contradiction.
  Qed.

  (** The spec itself, and refinements of refinements. *)
  Theorem refines_itself : (forall c, issub c c = true) -> forall s, distinct s -> (forall p, In p (params s) -> plain (p_hint p)) -> plain (returns s) -> refines s s.
  Proof.
    intros R s D P Pr. constructor.
    - intro n. reflexivity.
    - intros p q Ip Iq E. assert (X := find_param_spec s p D Ip). rewrite E, (find_param_spec s q D Iq) in X. injection X as ->.
      split; [reflexivity|]. right. apply sub_refl; auto.
    - apply sub_refl; auto.
  Qed.
  Theorem refines_trans : (forall a b c, issub a b = true -> issub b c = true -> issub a c = true) -> (forall a b, same a b = true -> a = b) ->
    forall f g s, (forall t p, In t [f; g; s] -> In p (params t) -> plain (p_hint p)) -> (forall t, In t [f; g; s] -> plain (returns t)) ->
    refines f g -> refines g s -> refines f s.
  Proof.
    intros T S f g s P Pr F G. constructor.
    - intro n. rewrite (ref_names _ _ _ _ _ _ F), (ref_names _ _ _ _ _ _ G). reflexivity.
    - intros p r Ip Ir E. assert (Iq : In (p_name p) (map p_name (params g))) by apply F, in_map, Ip.
      apply in_map_iff in Iq. destruct Iq as (q & Eq & Iq). destruct (ref_params _ _ _ _ _ _ F p q Ip Iq (eq_sym Eq)) as [K1 H1].
      destruct (ref_params _ _ _ _ _ _ G q r Iq Ir (eq_trans Eq E)) as [K2 H2]. split; [congruence|].
      assert (Pp := P f p (or_introl eq_refl) Ip). assert (Pq := P g q (or_intror (or_introl eq_refl)) Iq).
      assert (Pt := P s r (or_intror (or_intror (or_introl eq_refl))) Ir).
      destruct H1 as [H1|H1]; [rewrite H1 in Pp; inversion Pp|]. destruct H2 as [H2|H2]; [rewrite H2 in Pq; inversion Pq|].
      right. exact (sub_trans issub is_none dict_class same T S (p_hint r) (p_hint p) (p_hint q) Pp Pq Pt H1 H2).
    - refine (sub_trans issub is_none dict_class same T S (returns s) (returns f) (returns g) _ _ _ _ _); [apply Pr; cbn; auto|apply Pr; cbn; auto|apply Pr; cbn; auto|apply F|apply G].
  Qed.
End Dispatch.

Lemma resolve_hinted : forall (C : Type) hints n (h : hint C), NoDup (map fst hints) ->
  forall h', hinted hints n h h' <-> h' = resolve_hint hints n h.
Proof.
  intros C hints n h N h'. unfold hinted, resolve_hint. destruct (dget str_eqb hints n) as [g|] eqn:G.
  - split; [|intros -> ; left; now apply (dget_In _ str_eqb_spec)].
    intros [I|[I _]].
    + apply (dget_NoDup _ str_eqb_spec) in I; [congruence|exact N].
    + destruct I. apply (dget_In _ str_eqb_spec) in G. now apply (in_map fst) in G.
  - split; [|intros -> ; right; split; [now apply (dget_None _ str_eqb_spec)|reflexivity]].
    intros [I|[_ E]]; [|exact E]. apply (in_map fst) in I. now apply (dget_None _ str_eqb_spec) in G.
Qed.
Theorem tidies : forall (C : Type) hints remove_owner (s s' : signature C), NoDup (map fst hints) ->
  (tidy_signature hints remove_owner s = s' <->
   tidied hints remove_owner (params s) (params s') /\ hinted hints $"return" (returns s) (returns s')).
Proof.
  intros C hints owner [ps r] [ps' r'] N. unfold tidy_signature. cbn [params returns]. rewrite (resolve_hinted C hints _ r N r').
  enough (P : (map (fun p => Param (p_name p) (p_kind p) (resolve_hint hints (p_name p) (p_hint p)) (p_default p))
        (filter (fun p => if owner then negb (existsb (str_eqb (p_name p)) [$"cls"; $"self"]) else true) ps) = ps' <->
      tidied hints owner ps ps')).
  { rewrite <- P. split; [intro E; injection E as E1 E2; auto|intros [-> ->]; reflexivity]. }
  revert ps'. induction ps as [|p ps IH]; intro ps'; cbn [filter].
  - split; [intros <- ; constructor|intro T; inversion T; reflexivity].
  - assert (M := mem_str (p_name p) [$"cls"; $"self"]). cbn [In] in M.
    destruct owner; [destruct (existsb (str_eqb (p_name p)) _) eqn:X|]; cbn [negb map].
    + destruct M as [M _]. specialize (M eq_refl). rewrite IH. split.
      * intro T. apply tidied_owner; [reflexivity|destruct M as [M|[M|[]]]; auto|exact T].
      * intro T. inversion T; subst; [assumption|]. destruct (H1 eq_refl). destruct M as [M|[M|[]]]; congruence.
    + assert (M' : p_name p <> $"cls" /\ p_name p <> $"self").
      { split; intro Y; assert (false = true) by (apply M; auto); discriminate. }
      split.
      * intros <- . apply tidied_kept; [intros _; exact M'|now apply resolve_hinted|now apply IH].
      * intro T. inversion T; subst; [tauto|]. f_equal; [f_equal; symmetry; now apply resolve_hinted|now apply IH].
    + split.
      * intros <- . apply tidied_kept; [discriminate|now apply resolve_hinted|now apply IH].
      * intro T. inversion T; subst; [discriminate|]. f_equal; [f_equal; symmetry; now apply resolve_hinted|now apply IH].
Qed.
Theorem tidies_return : forall (C : Type) issub (union_class tuple_class : C) h,
  (forall o args, h = HAlias o args -> issub o tuple_class = true -> tidy_return issub union_class tuple_class h = args) /\
  (issub union_class tuple_class = false -> (forall o args, h = HAlias o args -> issub o tuple_class = false) ->
   tidy_return issub union_class tuple_class h = [h]).
Proof.
  intros C issub union_class tuple_class h. unfold tidy_return. split.
  - intros o args -> S. cbn [get_origin get_args]. now rewrite S.
  - intros U N. destruct h as [| | | |o args|[] args| | | | |]; cbn [get_origin]; rewrite ?U; try reflexivity.
    now rewrite (N o args eq_refl).
Qed.

Theorem lookup_spec : forall (C H : Type) (abstract : H -> bool) (resolve : list (hint C) -> result H) args,
  (forall h, lookup abstract resolve args = Ok h <-> resolve args = Ok h /\ abstract h = false) /\
  ((resolve args = Err TypeError \/ exists h, resolve args = Ok h /\ abstract h = true) -> lookup abstract resolve args = Err ValueError).
Proof.
  intros C H abstract resolve args. unfold lookup. split.
  - intro h. destruct (resolve args) as [h'|[]]; try (split; [discriminate|intros [X _]; discriminate]).
    destruct (abstract h') eqn:A; split; [discriminate|intros [X Y]; injection X as ->; congruence|intro X; injection X as ->; auto|intros [X _]; injection X as ->; reflexivity].
  - intros [-> |(h & -> & ->)]; reflexivity.
Qed.
