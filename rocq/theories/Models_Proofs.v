(** Proofs about model serialization. *)
From Coq Require Import ZArith NArith List Ascii String Bool Permutation Sorted Lia.
From Verif Require Import Base Base_Proofs Str Str_Proofs Utils_Model Numerals_Model Int64_Model
  Models_Model Models_Spec Json_Proofs.
Import ListNotations.
Open Scope nat_scope.
Open Scope list_scope.

(** * The order of strings *)

Lemma str_leb_refl : forall a, str_leb a a = true.
Proof. induction a as [|x a IH]; cbn; [reflexivity|]. now rewrite Ascii.eqb_refl. Qed.

Lemma str_leb_total : forall a b, str_leb a b = true \/ str_leb b a = true.
Proof.
  induction a as [|x a IH]; intros [|y b]; cbn; auto.
  destruct (Ascii.eqb x y) eqn:E.
  - apply Ascii.eqb_eq in E. subst. rewrite Ascii.eqb_refl. apply IH.
  - rewrite Ascii.eqb_sym, E. rewrite !N.ltb_lt. apply Ascii.eqb_neq in E.
    assert (N_of_ascii x <> N_of_ascii y).
    { intro H. apply E. rewrite <- (ascii_N_embedding x), <- (ascii_N_embedding y). now rewrite H. }
    lia.
Qed.

Lemma str_leb_antisym : forall a b, str_leb a b = true -> str_leb b a = true -> a = b.
Proof.
  induction a as [|x a IH]; intros [|y b] H K; cbn in *; auto; try discriminate.
  destruct (Ascii.eqb x y) eqn:E.
  - apply Ascii.eqb_eq in E. subst. rewrite Ascii.eqb_refl in K. f_equal. now apply IH.
  - rewrite Ascii.eqb_sym, E in K. apply N.ltb_lt in H. apply N.ltb_lt in K. lia.
Qed.

Lemma str_leb_trans : forall a b c, str_leb a b = true -> str_leb b c = true -> str_leb a c = true.
Proof.
  induction a as [|x a IH]; intros [|y b] [|z c] H K; cbn in *; auto; try discriminate.
  destruct (Ascii.eqb x y) eqn:E.
  - apply Ascii.eqb_eq in E. subst. destruct (Ascii.eqb y z); [eapply IH; eassumption|exact K].
  - apply N.ltb_lt in H. destruct (Ascii.eqb y z) eqn:F.
    + apply Ascii.eqb_eq in F. subst. rewrite E. now apply N.ltb_lt.
    + apply N.ltb_lt in K. destruct (Ascii.eqb x z) eqn:G; [|apply N.ltb_lt; lia].
      apply Ascii.eqb_eq in G. subst. lia.
Qed.

Lemma key_lt_asym : forall a b, key_lt a b -> key_lt b a -> False.
Proof. intros a b [H N] [K _]. apply N. now apply str_leb_antisym. Qed.
Lemma key_lt_irrefl : forall a, ~ key_lt a a.
Proof. intros a [_ N]. now apply N. Qed.

(** * [sorted] *)

Lemma insert_perm : forall x l, Permutation (insert_sorted x l) (x :: l).
Proof.
  induction l as [|y l IH]; cbn; [reflexivity|]. destruct (str_leb x y); [reflexivity|].
  rewrite IH. apply perm_swap.
Qed.
Lemma sorted_perm : forall l, Permutation (sorted l) l.
Proof. induction l as [|x l IH]; cbn; [reflexivity|]. rewrite insert_perm. now constructor. Qed.

Definition le (a b : str) : Prop := str_leb a b = true.
Lemma insert_SSorted : forall x l, StronglySorted le l -> StronglySorted le (insert_sorted x l).
Proof.
  induction l as [|y l IH]; intro H; cbn; [constructor; constructor|].
  inversion H as [|? ? H' F]; subst. destruct (str_leb x y) eqn:E.
  - constructor; [exact H|]. constructor; [exact E|]. eapply Forall_impl; [|exact F].
    intros z Hz. eapply str_leb_trans; eassumption.
  - constructor; [now apply IH|]. apply (Permutation_Forall (Permutation_sym (insert_perm x l))).
    constructor; [|exact F]. unfold le. destruct (str_leb_total x y); congruence.
Qed.
Lemma sorted_SSorted : forall l, StronglySorted le (sorted l).
Proof. induction l as [|x l IH]; cbn; [constructor|]. now apply insert_SSorted. Qed.
Lemma strict : forall l, NoDup l -> StronglySorted le l -> StronglySorted key_lt l.
Proof.
  induction l as [|x l IH]; intros N H; [constructor|]. inversion N; inversion H; subst.
  constructor; [auto|]. rewrite Forall_forall in *. intros y Hy. split; [now apply H7|]. intros ->. contradiction.
Qed.
Lemma sorted_strict : forall l, NoDup l -> StronglySorted key_lt (sorted l).
Proof.
  intros l N. apply strict; [|apply sorted_SSorted]. eapply Permutation_NoDup; [|exact N].
  apply Permutation_sym, sorted_perm.
Qed.

Lemma SSorted_filter {A} (R : A -> A -> Prop) : forall f l, StronglySorted R l -> StronglySorted R (filter f l).
Proof.
  induction l as [|x l IH]; intro H; cbn; [constructor|]. inversion H as [|? ? H' F]; subst.
  destruct (f x); [|auto]. constructor; [auto|]. rewrite Forall_forall in *. intros y Hy. apply F. now apply filter_In in Hy.
Qed.

(** Two lists ordered by distinct keys with the same elements are equal. *)
Lemma SSorted_unique {A} : forall (l m : list (str * A)),
  StronglySorted key_lt (map fst l) -> StronglySorted key_lt (map fst m) -> (forall x, In x l <-> In x m) -> l = m.
Proof.
  induction l as [|x l IH]; intros [|y m] Hl Hm E.
  - reflexivity.
  - destruct (proj2 (E y)). now left.
  - destruct (proj1 (E x)). now left.
  - cbn in Hl, Hm. inversion Hl as [|? ? Sl Fl]; inversion Hm as [|? ? Sm Fm]; subst.
    rewrite Forall_forall in Fl, Fm.
    assert (Exy : x = y).
    { destruct (proj1 (E x) (or_introl eq_refl)) as [H|H]; [auto|].
      destruct (proj2 (E y) (or_introl eq_refl)) as [K|K]; [auto|].
      exfalso. apply (key_lt_asym (fst x) (fst y)); [apply Fl|apply Fm]; now apply in_map. }
    subst y. f_equal. apply IH; try assumption. intro z. split; intro Hz.
    + destruct (proj1 (E z) (or_intror Hz)) as [<-|H]; [|exact H]. exfalso.
      apply (key_lt_irrefl (fst x)). apply Fl. now apply in_map.
    + destruct (proj2 (E z) (or_intror Hz)) as [<-|H]; [|exact H]. exfalso.
      apply (key_lt_irrefl (fst x)). apply Fm. now apply in_map.
Qed.

(** * The fingerprint fields of a class *)

Lemma skips_value : forall l, List.length l <= 1 ->
  one_or_none (Some l) false = Ok (existsb (fun b => b) l).
Proof. intros [|b [|? ?]] L; cbn in *; [reflexivity|now rewrite orb_false_r|lia]. Qed.

Definition counted (d : decl) : bool := negb (d_exclude d) && negb (existsb (fun b => b) (d_skips d)).

Lemma class_fields : forall c, class_ok c ->
  class_fp_fields c = Ok (sorted (map d_name (filter counted (c_decls c)) ++ [type_field])).
Proof.
  intros c (_ & _ & F). unfold class_fp_fields.
  assert (E : forall l, Forall (fun d => List.length (d_skips d) <= 1) l ->
    mapM (fun d => rmap (pair (d_name d)) (one_or_none (Some (d_skips d)) false)) l
    = Ok (map (fun d => (d_name d, existsb (fun b => b) (d_skips d))) l)).
  { induction l as [|d l IH]; intro Fl; [reflexivity|]. inversion Fl; subst. cbn [mapM map].
    rewrite skips_value by assumption. cbn [rmap bind]. rewrite IH by assumption. reflexivity. }
  rewrite E by (apply incl_Forall with (2 := F); intros d Hd; now apply filter_In in Hd).
  cbn [rmap bind]. do 3 f_equal. clear. induction (c_decls c) as [|d l IH]; [reflexivity|].
  unfold counted at 1. cbn [filter]. destruct (d_exclude d); cbn [negb andb]; [exact IH|]. cbn [map filter snd].
  destruct (existsb (fun b => b) (d_skips d)); cbn [negb]; [exact IH|]. cbn [map fst]. now f_equal.
Qed.

Lemma existsb_true : forall l, existsb (fun b : bool => b) l = true <-> In true l.
Proof.
  intro l. rewrite existsb_exists. split; [intros (b & H & ->); exact H|]. intro H. exists true. auto.
Qed.
Lemma counted_spec : forall c n, In n (map d_name (filter counted (c_decls c))) <-> fingerprinted c n.
Proof.
  intros c n. unfold fingerprinted, counted. rewrite in_map_iff. split.
  - intros (d & <- & H). apply filter_In in H. destruct H as [H E]. exists d.
    apply andb_true_iff in E. destruct E as [E E']. apply negb_true_iff in E, E'.
    repeat split; auto. rewrite <- existsb_true. congruence.
  - intros (d & H & <- & E & E'). exists d. split; [reflexivity|]. apply filter_In. split; [exact H|].
    rewrite E. cbn. rewrite <- existsb_true in E'. now destruct (existsb _ _).
Qed.

Lemma fp_NoDup : forall c, class_ok c -> NoDup (map d_name (filter counted (c_decls c)) ++ [type_field]).
Proof.
  intros c (N & T & _). assert (Sub : forall n, In n (map d_name (filter counted (c_decls c))) -> In n (map d_name (c_decls c))).
  { intros n H. apply in_map_iff in H. destruct H as (d & <- & H). apply in_map. now apply filter_In in H. }
  apply (Permutation_NoDup (Permutation_cons_append _ _)). constructor; [intro H; apply T; now apply Sub|].
  clear T Sub. induction (c_decls c) as [|d l IH]; cbn in *; [constructor|]. inversion N; subst.
  destruct (counted d); cbn; [|auto]. constructor; [|auto]. intro H. apply in_map_iff in H.
  destruct H as (e & Ee & H). apply H1. rewrite <- Ee. apply in_map. now apply filter_In in H.
Qed.

(** * The serialized object *)

Definition obj_of (g : str -> option json) (names : list str) : list (str * json) :=
  flat_map (fun n => match g n with Some j => [(n, j)] | None => [] end) names.
Lemma obj_In : forall g names n j, In (n, j) (obj_of g names) <-> In n names /\ g n = Some j.
Proof.
  intros g names n j. unfold obj_of. rewrite in_flat_map. split.
  - intros (m & Hm & H). destruct (g m) eqn:E; [|destruct H]. destruct H as [H|[]]. inversion H; subst. auto.
  - intros [H E]. exists n. split; [exact H|]. rewrite E. now left.
Qed.
Lemma obj_sorted : forall g names, StronglySorted key_lt names -> StronglySorted key_lt (map fst (obj_of g names)).
Proof.
  intros g names H. replace (map fst (obj_of g names)) with (filter (fun n => match g n with Some _ => true | None => false end) names).
  - now apply SSorted_filter.
  - clear H. unfold obj_of. induction names as [|n l IH]; [reflexivity|]. cbn. destruct (g n); cbn; now rewrite IH.
Qed.

Definition data_of (c : class) (fields : list (str * value)) : list (str * json) :=
  filter (fun nj => negb (excluded c (fst nj))) (map (fun nv => (fst nv, serialize (snd nv))) fields)
  ++ [(type_field, JStr (c_name c))].
Lemma serialize_model : forall c names fields,
  serialize (VModel c names fields) = JObj (obj_of (dget str_eqb (data_of c fields)) names).
Proof. reflexivity. Qed.

Lemma counts_not_excluded : forall c n, class_ok c -> fingerprinted c n -> excluded c n = false.
Proof.
  intros c n (N & _ & _) (d & Hd & <- & E & _). unfold excluded. apply not_true_is_false. intro H.
  apply existsb_exists in H. destruct H as (d' & Hd' & H). apply andb_true_iff in H. destruct H as [H E'].
  apply str_eqb_spec in H. assert (d' = d); [|congruence].
  clear E E'. induction (c_decls c) as [|x l IH]; [destruct Hd|]. cbn in N. inversion N; subst.
  destruct Hd as [->|Hd], Hd' as [->|Hd']; auto.
  - exfalso. apply H2. rewrite <- H. now apply in_map.
  - exfalso. apply H2. rewrite H. now apply in_map.
Qed.

Lemma data_NoDup : forall c fields, class_ok c -> map fst fields = map d_name (c_decls c) -> NoDup (map fst (data_of c fields)).
Proof.
  intros c fields (N & T & _) E. unfold data_of. rewrite map_app. cbn [map fst].
  apply (Permutation_NoDup (Permutation_cons_append _ _)). rewrite <- E in N, T. clear E.
  assert (Sub : forall n, In n (map fst (filter (fun nj => negb (excluded c (fst nj)))
              (map (fun nv => (fst nv, serialize (snd nv))) fields))) -> In n (map fst fields)).
  { intros n H. apply in_map_iff in H. destruct H as ([m j] & <- & H). apply filter_In in H. destruct H as [H _].
    apply in_map_iff in H. destruct H as (x & Ex & H). inversion Ex; subst. apply (in_map fst) in H. exact H. }
  constructor; [intro H; apply T; now apply Sub|]. clear T Sub.
  induction fields as [|[n v] l IH]; cbn in *; [constructor|]. inversion N; subst.
  destruct (negb (excluded c n)); cbn; [|auto]. constructor; [|auto]. intro H. apply in_map_iff in H.
  destruct H as ([m j] & Em & H). cbn in Em. subst m. apply filter_In in H. destruct H as [H _].
  apply in_map_iff in H. destruct H as (x & Ex & H). inversion Ex; subst. apply H1. apply (in_map fst) in H. exact H.
Qed.

Lemma data_In : forall c fields n j, class_ok c -> map fst fields = map d_name (c_decls c) ->
  fingerprinted c n \/ n = type_field ->
  (dget str_eqb (data_of c fields) n = Some j <->
   (fingerprinted c n /\ exists v, In (n, v) fields /\ serialize v = j) \/ (n = type_field /\ j = JStr (c_name c))).
Proof.
  intros c fields n j C E Hn. rewrite (dget_NoDup str_eqb str_eqb_spec) by now apply data_NoDup.
  unfold data_of. rewrite in_app_iff, filter_In, in_map_iff. cbn [fst In].
  assert (T : ~ In type_field (map fst fields)) by (rewrite E; apply C). split.
  - intros [[(x & Ex & H) Hx]|[H|[]]].
    + inversion Ex; subst. left. destruct Hn as [Hn| Hn].
      * split; [exact Hn|]. exists (snd x). destruct x; auto.
      * exfalso. apply T. rewrite <- Hn. now apply in_map.
    + inversion H; subst. auto.
  - intros [[Hf (v & H & <-)]|[-> ->]].
    + left. split; [exists (n, v); auto|]. now rewrite counts_not_excluded.
    + right. now left.
Qed.

(** The fields of an instance, and what it shows. *)
Lemma field_unique : forall (fields : list (str * value)) n v w, NoDup (map fst fields) ->
  In (n, v) fields -> In (n, w) fields -> v = w.
Proof.
  intros fields n v w N H K. rewrite <- (dget_NoDup str_eqb str_eqb_spec) in H, K by exact N. congruence.
Qed.

Lemma instance_names : forall c fields v, instance c fields v ->
  exists names, v = VModel c names fields /\ StronglySorted key_lt names /\
    forall n, In n names <-> counts c fields n \/ n = type_field.
Proof.
  intros c fields v (C & E & H). unfold instantiate in H. destruct (c_abstract c); [discriminate|].
  unfold instance_fp_fields in H. rewrite class_fields in H by exact C. cbn [bind] in H.
  set (all := sorted (map d_name (filter counted (c_decls c)) ++ [type_field])) in *.
  assert (Sall : StronglySorted key_lt all) by (apply sorted_strict, fp_NoDup, C).
  assert (Iall : forall n, In n all <-> fingerprinted c n \/ n = type_field).
  { intro n. unfold all. split.
    - intro I. apply (Permutation_in _ (sorted_perm _)) in I. apply in_app_iff in I.
      destruct I as [I|[<-|[]]]; [left; now apply counted_spec|now right].
    - intro I. apply (Permutation_in _ (Permutation_sym (sorted_perm _))). apply in_app_iff.
      destruct I as [I| ->]; [left; now apply counted_spec|right; now left]. }
  destruct (c_kind c) eqn:K.
  - cbn in H. inversion H; subst. exists all. split; [reflexivity|]. split; [exact Sall|]. intro n. rewrite Iall.
    unfold counts. split; intros [I|I]; auto; [left; split; [exact I|congruence]|left; apply I].
  - destruct (forallb _ all) eqn:D; [|discriminate]. cbn [rmap bind] in H.
    match type of H with Ok ?x = Ok _ => assert (Hv : v = x) by now inversion H end. subst v. clear H. eexists. split; [reflexivity|]. split; [now apply SSorted_filter|].
    assert (N : NoDup (map fst fields)) by (rewrite E; apply C).
    intro n. rewrite filter_In, Iall. unfold counts. rewrite forallb_forall in D.
    assert (Dn : fingerprinted c n -> existsb (str_eqb n) semver_desired = true) by (intro; apply D, Iall; auto).
    destruct (dget str_eqb fields $"major") as [m|] eqn:G.
    2: { split; [intros [[I|I] _]; auto|].
         - left. split; [exact I|]. intros _ z Hz. exfalso.
           rewrite <- (dget_NoDup str_eqb str_eqb_spec) in Hz by exact N. congruence.
         - intros [[I _]|I]; [split; auto|]. subst. split; [now right|]. reflexivity. }
    apply (dget_NoDup str_eqb str_eqb_spec) in G; [|exact N].
    assert (Gu : forall z, In ($"major", VInt z) fields -> m = VInt z) by (intros z Hz; eapply field_unique; eassumption).
    assert (Other : (forall z, m = VInt z -> (z <= 0)%Z) ->
      ((fingerprinted c n \/ n = type_field) /\ existsb (str_eqb n) semver_desired = true <->
       fingerprinted c n /\ (c_kind c = SemVer -> forall z, In ($"major", VInt z) fields -> (0 < z)%Z -> n = $"major") \/ n = type_field)).
    { intro Hm. split.
      - intros [[I|I] _]; auto. left. split; [exact I|]. intros _ z Hz P. apply Gu, Hm in Hz. lia.
      - intros [[I _]|I]; [split; auto|]. subst. split; [now right|]. reflexivity. }
    destruct m as [| |z| | | | |]; try (apply Other; intros; discriminate).
    destruct (Z.ltb_spec 0 z).
    + split.
      * intros [[I|I] X]; auto. left. split; [exact I|]. intros _ _ _ _.
        cbn [existsb] in X. rewrite orb_false_r in X. apply orb_true_iff in X. destruct X as [X|X]; apply str_eqb_spec in X; [|exact X].
        exfalso. subst n. apply counted_spec in I. apply in_map_iff in I. destruct I as (d & Ed & I). apply filter_In in I.
        destruct C as (_ & T & _). apply T. change ($"_arti_type_") with type_field. rewrite <- Ed. now apply in_map.
      * intros [[I X]|I]; [|subst; split; [now right|reflexivity]]. split; [now left|].
        rewrite (X K z G H). reflexivity.
    + apply Other. intros z' Hz'. inversion Hz'; subst. lia.
Qed.

Lemma instance_In : forall c fields v, instance c fields v ->
  exists obj, serialize v = JObj obj /\ StronglySorted key_lt (map fst obj) /\
    forall n j, In (n, j) obj <-> shows c fields n j \/ (n = type_field /\ j = JStr (c_name c)).
Proof.
  intros c fields v I. destruct (instance_names _ _ _ I) as (names & -> & S & Hn). destruct I as (C & E & _).
  rewrite serialize_model. eexists. split; [reflexivity|]. split; [now apply obj_sorted|].
  intros n j. rewrite obj_In, Hn. unfold shows. split.
  - intros [H D]. apply data_In in D; [|exact C|exact E|unfold counts in H; tauto].
    destruct D as [[Hf D]|D]; [|auto]. destruct H as [H| ->]; [auto|].
    exfalso. destruct Hf as (d & Hd & Ed & _). destruct C as (_ & T & _). apply T. unfold type_field in Ed. rewrite <- Ed. now apply in_map.
  - intros [[H D]|[-> ->]].
    + split; [auto|]. apply data_In; try assumption; unfold counts in H; tauto.
    + split; [auto|]. apply data_In; auto.
Qed.

Lemma shows_not_type : forall c fields n j, class_ok c -> shows c fields n j -> n <> type_field.
Proof.
  intros c fields n j (_ & T & _) (((d & Hd & Ed & _) & _) & _) ->. apply T. unfold type_field in Ed. rewrite <- Ed. now apply in_map.
Qed.

Theorem dump_iff : forall v w, dump_json v = dump_json w <-> serialize v = serialize w.
Proof. intros v w. unfold dump_json. split; [apply json_text_inj|congruence]. Qed.

Theorem model_content : forall c1 f1 v1 c2 f2 v2, instance c1 f1 v1 -> instance c2 f2 v2 ->
  (dump_json v1 = dump_json v2 <->
   c_name c1 = c_name c2 /\ forall n j, shows c1 f1 n j <-> shows c2 f2 n j).
Proof.
  intros c1 f1 v1 c2 f2 v2 I1 I2. rewrite dump_iff.
  destruct (instance_In _ _ _ I1) as (o1 & -> & S1 & H1). destruct (instance_In _ _ _ I2) as (o2 & -> & S2 & H2).
  destruct I1 as (C1 & _), I2 as (C2 & _). split.
  - intro E. inversion E; subst o2. split.
    + assert (X : In (type_field, JStr (c_name c1)) o1) by (apply H1; auto). apply H2 in X.
      destruct X as [X|[_ X]]; [|congruence]. exfalso. now apply (shows_not_type _ _ _ _ C2) in X.
    + intros n j. split; intro X.
      * assert (N := shows_not_type _ _ _ _ C1 X). assert (Y : In (n, j) o1) by (apply H1; auto).
        apply H2 in Y. tauto.
      * assert (N := shows_not_type _ _ _ _ C2 X). assert (Y : In (n, j) o1) by (apply H2; auto).
        apply H1 in Y. tauto.
  - intros [E X]. f_equal. apply SSorted_unique; try assumption. intros [n j]. rewrite H1, H2, X, E. tauto.
Qed.

Theorem skipped_irrelevant : forall c f g v w, instance c f v -> instance c g w ->
  (forall n x, fingerprinted c n -> (In (n, x) f <-> In (n, x) g)) ->
  (c_kind c = SemVer -> fingerprinted c $"major") -> dump_json v = dump_json w.
Proof.
  intros c f g v w I J H M. apply (model_content _ _ _ _ _ _ I J). split; [reflexivity|]. intros n j. unfold shows, counts.
  split; intros [[F K] (x & Hx & E)]; (split; [split; [exact F|]|exists x; split; [now apply (H n x F)|exact E]]);
    intros S z Hz; apply (K S z); now apply (H _ _ (M S)).
Qed.

Theorem order_irrelevant : forall c d f g v w, instance c f v -> instance d g w ->
  c_name c = c_name d -> c_kind c = c_kind d -> Permutation (c_decls c) (c_decls d) -> Permutation f g ->
  dump_json v = dump_json w.
Proof.
  intros c d f g v w I J N K P Q. apply (model_content _ _ _ _ _ _ I J). split; [exact N|].
  assert (F : forall n, fingerprinted c n <-> fingerprinted d n).
  { intro n. split; intros (x & Hx & R); exists x; (split; [|exact R]).
    - now apply (Permutation_in _ P). - now apply (Permutation_in _ (Permutation_sym P)). }
  assert (G : forall x, In x f <-> In x g).
  { intro x. split; apply Permutation_in; [exact Q|now apply Permutation_sym]. }
  intros n j. unfold shows, counts. rewrite K, F. split; intros [[X Y] (x & Hx & E)];
    (split; [split; [exact X|]|exists x; split; [now apply G|exact E]]); intros S z Hz; apply (Y S z); now apply G.
Qed.

(** * Versions *)

Lemma instance_NoDup : forall c f v, instance c f v -> NoDup (map fst f).
Proof. intros c f v ((N & _) & E & _). now rewrite E. Qed.

Theorem versions : forall c a b p x y z u w, version_class c -> version c a b p u -> version c x y z w ->
  (dump_json u = dump_json w <-> a = x /\ ((a <= 0)%Z -> b = y /\ p = z)).
Proof.
  intros c a b p x y z u w (K & F) (f & I & Ha & Hb & Hp) (g & J & Hx & Hy & Hz).
  rewrite (model_content _ _ _ _ _ _ I J). assert (Nf := instance_NoDup _ _ _ I). assert (Ng := instance_NoDup _ _ _ J).
  assert (Sf : forall n j, shows c f n j <-> n = $"major" /\ j = JInt a \/ ((a <= 0)%Z /\ (n = $"minor" /\ j = JInt b \/ n = $"patch" /\ j = JInt p))).
  { intros n j. unfold shows, counts. rewrite F. cbn [In]. split.
    - intros [[Hn Hm] (v & Hv & <-)]. specialize (Hm K a Ha).
      destruct Hn as [<-|[<-|[<-|[]]]].
      + rewrite (field_unique _ _ _ _ Nf Hv Ha). now left.
      + rewrite (field_unique _ _ _ _ Nf Hv Hb). right. split; [|now left].
        destruct (Z.leb_spec a 0); [assumption|]. specialize (Hm H). discriminate.
      + rewrite (field_unique _ _ _ _ Nf Hv Hp). right. split; [|now right].
        destruct (Z.leb_spec a 0); [assumption|]. specialize (Hm H). discriminate.
    - assert (Hm : forall q, In ($"major", VInt q) f -> q = a).
      { intros q Hq. assert (Q := field_unique _ _ _ _ Nf Hq Ha). now inversion Q. }
      intros [[-> ->]|[L [[-> ->]|[-> ->]]]];
        (split; [split; [auto|]|eexists; split; [eassumption|reflexivity]]); intros _ q Hq Q; try reflexivity;
        apply Hm in Hq; lia. }
  assert (Sg : forall n j, shows c g n j <-> n = $"major" /\ j = JInt x \/ ((x <= 0)%Z /\ (n = $"minor" /\ j = JInt y \/ n = $"patch" /\ j = JInt z))).
  { intros n j. unfold shows, counts. rewrite F. cbn [In]. split.
    - intros [[Hn Hm] (v & Hv & <-)]. specialize (Hm K x Hx).
      destruct Hn as [<-|[<-|[<-|[]]]].
      + rewrite (field_unique _ _ _ _ Ng Hv Hx). now left.
      + rewrite (field_unique _ _ _ _ Ng Hv Hy). right. split; [|now left].
        destruct (Z.leb_spec x 0); [assumption|]. specialize (Hm H). discriminate.
      + rewrite (field_unique _ _ _ _ Ng Hv Hz). right. split; [|now right].
        destruct (Z.leb_spec x 0); [assumption|]. specialize (Hm H). discriminate.
    - assert (Hm : forall q, In ($"major", VInt q) g -> q = x).
      { intros q Hq. assert (Q := field_unique _ _ _ _ Ng Hq Hx). now inversion Q. }
      intros [[-> ->]|[L [[-> ->]|[-> ->]]]];
        (split; [split; [auto|]|eexists; split; [eassumption|reflexivity]]); intros _ q Hq Q; try reflexivity;
        apply Hm in Hq; lia. }
  split.
  - intros [_ H]. assert (Eax : a = x).
    { assert (X : shows c f $"major" (JInt a)) by (apply Sf; auto). apply H, Sg in X.
      destruct X as [[_ X]|[_ [[X _]|[X _]]]]; [now inversion X|discriminate|discriminate]. }
    split; [exact Eax|]. intro L. split.
    + assert (X : shows c f $"minor" (JInt b)) by (apply Sf; auto). apply H, Sg in X.
      destruct X as [[X _]|[_ [[_ X]|[X _]]]]; [discriminate|now inversion X|discriminate].
    + assert (X : shows c f $"patch" (JInt p)) by (apply Sf; auto). apply H, Sg in X.
      destruct X as [[X _]|[_ [[X _]|[_ X]]]]; [discriminate|discriminate|now inversion X].
  - intros [-> H]. split; [reflexivity|]. intros n j. rewrite Sf, Sg.
    destruct (Z.leb_spec x 0) as [L|L].
    + destruct (H L) as [-> ->]. tauto.
    + split; (intros [X|[X _]]; [auto|lia]).
Qed.

Theorem version_extra : forall c n fields, class_ok c -> c_abstract c = false -> c_kind c = SemVer -> fingerprinted c n ->
  ~ In n [$"major"; $"minor"; $"patch"] -> instantiate c fields = Err NotImplementedError.
Proof.
  intros c n fields C A K F N. unfold instantiate. rewrite A. unfold instance_fp_fields. rewrite class_fields by exact C.
  cbn [bind]. rewrite K. destruct (forallb _ _) eqn:E; [|reflexivity]. exfalso.
  rewrite forallb_forall in E. assert (X : existsb (str_eqb n) semver_desired = true).
  { apply E. apply (Permutation_in _ (Permutation_sym (sorted_perm _))), in_app_iff. left. now apply counted_spec. }
  apply existsb_exists in X. destruct X as (m & Hm & X). apply str_eqb_spec in X. subst m.
  destruct Hm as [<-|Hm]; [|contradiction]. destruct F as (d & Hd & Ed & _). destruct C as (_ & T & _).
  apply T. unfold type_field in Ed. rewrite <- Ed. now apply in_map.
Qed.

(** * Equality *)

Section ValueInd.
  Variable P : value -> Prop.
  Hypotheses (Hn : P VNone) (Hb : forall b, P (VBool b)) (Hi : forall z, P (VInt z)) (Hs : forall s, P (VStr s))
    (Ht : forall l, Forall P l -> P (VTuple l)) (Hset : forall l, Forall P l -> P (VSet l))
    (Hm : forall l, Forall (fun kv => P (snd kv)) l -> P (VMap l))
    (Hc : forall c names l, Forall (fun kv => P (snd kv)) l -> P (VModel c names l)).
  Fixpoint value_ind' (v : value) : P v :=
    let many := fix go l := match l return Forall P l with
                            | [] => Forall_nil _ | x :: l' => Forall_cons x (value_ind' x) (go l') end in
    let pairs := fix go l := match l return Forall (fun kv : str * value => P (snd kv)) l with
                             | [] => Forall_nil _ | x :: l' => Forall_cons x (value_ind' (snd x)) (go l') end in
    match v with
    | VNone => Hn | VBool b => Hb b | VInt z => Hi z | VStr s => Hs s
    | VTuple l => Ht l (many l) | VSet l => Hset l (many l) | VMap l => Hm l (pairs l)
    | VModel c names l => Hc c names l (pairs l)
    end.
End ValueInd.

Definition alike (v : value) : Prop :=
  forall w, py_eq false v w -> ordered v -> ordered w -> serialize v = serialize w.

Lemma alike_list : forall l m, Forall alike l -> Forall2 (py_eq false) l m -> Forall ordered l -> Forall ordered m ->
  map serialize l = map serialize m.
Proof.
  intros l m H F. induction F as [|x y l m E F IH]; intros Ol Om; [reflexivity|].
  inversion H; inversion Ol; inversion Om; subst. cbn. f_equal; auto.
Qed.
Lemma alike_pairs : forall (l m : list (str * value)), Forall (fun kv => alike (snd kv)) l ->
  Forall2 (fun a b => fst a = fst b /\ py_eq false (snd a) (snd b)) l m ->
  Forall (fun kv => ordered (snd kv)) l -> Forall (fun kv => ordered (snd kv)) m ->
  map (fun kv => (fst kv, serialize (snd kv))) l = map (fun kv => (fst kv, serialize (snd kv))) m.
Proof.
  intros l m H F. induction F as [|x y l m [E E'] F IH]; intros Ol Om; [reflexivity|].
  inversion H; inversion Ol; inversion Om; subst. cbn. f_equal; [f_equal; auto|auto].
Qed.
Lemma Forall2_fst : forall (R : value -> value -> Prop) (l m : list (str * value)),
  Forall2 (fun a b => fst a = fst b /\ R (snd a) (snd b)) l m -> map fst l = map fst m.
Proof. intros R l m F. induction F as [|x y l m [E _] F IH]; cbn; congruence. Qed.

Lemma same_names : forall c l m, Forall2 (fun a b => fst a = fst b /\ py_eq false (snd a) (snd b)) l m ->
  instance_fp_fields c l = instance_fp_fields c m.
Proof.
  intros c l m F. unfold instance_fp_fields. destruct (class_fp_fields c) as [names|]; [|reflexivity]. cbn [bind].
  destruct (c_kind c); [reflexivity|]. destruct (forallb _ _); [|reflexivity]. do 2 f_equal.
  assert (G : match dget str_eqb l $"major", dget str_eqb m $"major" with
              | Some a, Some b => py_eq false a b | None, None => True | _, _ => False end).
  { induction F as [|[k x] [k' y] l m [E E'] F IH]; cbn [dget fst snd] in *; [exact I|]. subst k'.
    destruct (str_eqb k $"major"); [exact E'|exact IH]. }
  destruct (dget str_eqb l $"major") as [a|], (dget str_eqb m $"major") as [b|]; try contradiction; [|reflexivity].
  inversion G; subst; try reflexivity; discriminate.
Qed.

Theorem equal_alike : forall v w, py_eq false v w -> ordered v -> ordered w -> serialize v = serialize w.
Proof.
  intro v. change (alike v). induction v as [|b|z|s|l IH|l IH|l IH|c names l IH] using value_ind';
    intros w E Ov Ow; inversion E; subst; try discriminate; try reflexivity.
  - inversion Ov; inversion Ow; subst. cbn. f_equal. now apply alike_list.
  - inversion Ov; inversion Ow; subst. cbn. f_equal. apply alike_list; try assumption.
    destruct m as [|x [|? ?]]; cbn in *; try lia.
    + apply Permutation_nil in H0. now subst.
    + apply Permutation_length_1_inv in H0. now subst.
  - inversion Ov; inversion Ow; subst.
    assert (m' = m).
    { apply SSorted_unique; [|assumption|].
      - rewrite <- (Forall2_fst _ _ _ H1). assumption.
      - intro x. split; apply Permutation_in; [now apply Permutation_sym|assumption]. }
    subst m'. cbn. f_equal. now apply alike_pairs.
  - inversion Ov; inversion Ow; subst. rewrite !serialize_model.
    rewrite (same_names _ _ _ H3) in *. assert (names = names') by congruence. subst names'.
    unfold data_of. do 4 f_equal. rewrite (alike_pairs l m); auto.
Qed.

Theorem equal_fingerprint : forall farmhash v w, py_eq false v w -> ordered v -> ordered w ->
  fingerprint farmhash v = fingerprint farmhash w.
Proof. intros fh v w E Ov Ow. unfold fingerprint, dump_json. now rewrite (equal_alike v w E Ov Ow). Qed.

Lemma simple_tuple_inv : forall l, simple (VTuple l) -> Forall simple l.
Proof. intros l H. now inversion H. Qed.
Lemma simple_map_inv : forall l, simple (VMap l) -> Forall (fun kv => simple (snd kv)) l.
Proof. intros l H. now inversion H. Qed.

Theorem simple_content : forall v w, simple v -> simple w -> (dump_json v = dump_json w <-> v = w).
Proof.
  intros v w Sv Sw. rewrite dump_iff. split; [|congruence]. revert w Sv Sw.
  induction v as [|b|z|s|l IH|l IH|l IH|c names l IH] using value_ind'; intros w Sv Sw E;
    destruct w as [|b'|z'|s'|m|m|m|c' names' m]; cbn in E; try discriminate E;
    try (inversion E; congruence); try now inversion Sw; try now inversion Sv.
  - f_equal. apply simple_tuple_inv in Sv. apply simple_tuple_inv in Sw. inversion E as [E']. clear E. revert m Sw E'.
    induction l as [|x l IHl]; intros [|y m] G E; try discriminate; [reflexivity|].
    inversion IH; inversion Sv; inversion G; subst. cbn in E. inversion E. f_equal; auto.
  - f_equal. apply simple_map_inv in Sv. apply simple_map_inv in Sw. inversion E as [E']. clear E. revert m Sw E'.
    induction l as [|x l IHl]; intros [|y m] G E; try discriminate; [reflexivity|].
    inversion IH; inversion Sv; inversion G; subst. cbn in E. inversion E. f_equal; auto.
    destruct x, y; cbn in *. subst. f_equal. auto.
Qed.
