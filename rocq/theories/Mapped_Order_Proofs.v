(** Lemmas about tables: the default map, JSON, and maps that do not depend on an order. *)
From Coq Require Import ZArith List Ascii String Bool Arith Lia Permutation.
From Verif Require Import Base Base_Proofs Str Str_Proofs Graph_Model Graph_Spec Graph_Proofs Backend_Model Backend_Spec Backend_Proofs.
From Verif Require Import Executor_Model Executor_Spec Executor_Proofs Executor_Done_Proofs Executor_Build_Proofs Executor_Store_Proofs
  Json_Model Json_Spec Json_Exact_Proofs Access_Model Whole_Model Whole_Spec Whole_Proofs Mapped_Spec Mapped_Proofs.
Import ListNotations.
Open Scope list_scope.

(** * The default map *)
Lemma with_all_keys : forall (l : list psnapshot), NoDup (map ps_key l) -> flat_map (fun k => filter (fun x => str_eqb (ps_key x) k) l) (map ps_key l) = l.
Proof.
  intros l ND. assert (F := chosen_all l (map ps_key l) ND (fun k I => I)). revert F. generalize (flat_map (fun k => filter (fun x => str_eqb (ps_key x) k) l) (map ps_key l)). intros m F.
  assert (INJ : forall x y, In x l -> In y l -> ps_key x = ps_key y -> x = y).
  { clear F m. induction l as [|z l IH]; intros x y Ix Iy Q; [destruct Ix|]. inversion ND as [|? ? N1 N2]; subst.
    destruct Ix as [ <- |Ix], Iy as [ <- |Iy]; [reflexivity| | |now apply IH]; exfalso; apply N1; [rewrite Q|rewrite <- Q]; now apply in_map. }
  assert (G : forall l' m', (forall x, In x l' -> In x l) -> Forall2 (fun k x => In x l /\ ps_key x = k) (map ps_key l') m' -> m' = l').
  { induction l' as [|x l' IH]; intros m' SUB F'; inversion F' as [|? y ? m2 (Iy & Ky) F2]; subst; [reflexivity|].
    f_equal; [apply INJ; auto; apply SUB; now left|]. apply IH; [intros z I; apply SUB; now right|exact F2]. }
  now apply G.
Qed.
Theorem whole_by_keys : forall V (E : env V) g, whole E g -> by_keys E (fun _ => default_keys) g.
Proof.
  intros V E g WH. constructor.
  - intros p i a inputs PR NI NK. rewrite (wh_map _ _ WH _ _ _ PR). unfold default_map, default_keys. cbn [rmap choose map fst snd]. do 3 f_equal.
    rewrite map_map. cbn [fst snd]. symmetry. rewrite <- (map_id inputs) at 2. apply map_ext_in. intros [n l] I. cbn [fst snd]. f_equal. unfold with_keys.
    rewrite (proj2 (dget_NoDup _ str_eqb_spec inputs n l NI) I). apply with_all_keys. now apply (NK n).
  - intros p i a inputs asked PR ND _ [= <-]. split; [repeat constructor; intros []|]. intros k d [I|[]]. injection I as _ <-. exact ND.
  - intros p i a inputs asked k d n ks k' PR ND [= <-] [I|[]] In' Ik. injection I as _ <-. exists ks. split; [|exact Ik]. now apply (dget_NoDup _ str_eqb_spec).
  - apply (wh_inputs _ _ WH).
Qed.

(** * JSON *)
Lemma json_joins : forall fl (E : env (Json_Model.value fl)), stores_json E -> joins E json_join.
Proof.
  intros fl E SJ a ds NE PT. destruct (SJ a VNone) as (_ & ->). unfold json_load, json_join. destruct (st_partitioned (a_storage a)) eqn:P.
  - clear. induction ds as [|d ds IH]; [reflexivity|]. cbn [mapM]. destruct (bind (loads d) elements) as [l|e]; [|reflexivity]. cbn [rmap bind List.concat].
    rewrite app_nil_r. destruct (mapM (fun d => bind (loads d) elements) ds) as [ls|e].
    + cbn [rmap bind List.concat] in *. destruct (mapM _ ds) as [vs|e']; cbn [bind rmap] in *; [|discriminate]. cbn [mapM elements bind].
      destruct (mapM elements vs) as [ms|]; cbn [rmap bind] in *; [|discriminate]. injection IH as Q. cbn [List.concat]. now rewrite Q.
    + cbn [rmap bind] in *. destruct (mapM _ ds) as [vs|e']; cbn [bind rmap] in *; [|exact IH]. cbn [mapM elements bind]. destruct (mapM elements vs); cbn [rmap bind] in *; [discriminate|exact IH].
  - destruct ds as [|d [|d' ds]]; [congruence| |cbn in PT; assert (false = true) by (apply PT; lia); discriminate]. cbn [mapM]. destruct (loads d); reflexivity.
Qed.
Lemma json_rows_survive : forall fl (E : env (Json_Model.value fl)) K s g, float_laws fl -> stores_json E -> rows_json E K s g -> rows_survive E K json_join s g.
Proof.
  intros fl E K s g LW SJ RJ p i a outs k vs v d P MA I N D. destruct (RJ _ _ _ _ _ _ _ P MA I N) as (F & U & PL). destruct (SJ a v) as (DU & LO).
  apply (kept_iff LW v U) in F. destruct F as (c & C & L). rewrite DU in D. assert (c = d) by congruence. subst c.
  rewrite LO. unfold json_load. destruct (st_partitioned (a_storage a)); [|exact L]. destruct (PL eq_refl) as (l & ->). cbn [mapM]. rewrite L. cbn [bind elements rmap List.concat]. now rewrite app_nil_r.
Qed.
Theorem mapped_json : forall fl (E : env (Json_Model.value fl)), float_laws fl -> stores_json E -> iterates E -> iterates_once E ->
  forall W N (X : views (Json_Model.value fl) W N) K g s s' sn w,
  in_order E (g_arts g) -> by_keys E K (g_arts g) -> distinct_paths (g_arts g) -> no_gaps (g_arts g) -> templated (g_arts g) ->
  rows_json E K s (g_arts g) -> unbuilt (g_arts g) s -> graph_build E g s = (s', Ok sn) ->
  forall p i a, produces (g_arts g) p i a -> (forall ds, decode X w a ds = json_load a ds) ->
  exists T, table E K json_join s a T /\ NoDup (map fst T) /\ snd (read E X g a None (Some w) (Some sn) None s') = joined json_join a T.
Proof.
  intros fl E LW SJ IT IO W N X K g s s' sn w IN BK DP NG TP RJ UB H p i a PA DE.
  destruct (mapped_computed _ _ _ E X K json_join IT IO g s s' sn w IN BK (json_joins fl E SJ) DP NG TP (json_rows_survive fl E K s _ LW SJ RJ) UB H p i a PA) as (T & T1 & T2 & _ & R & _); [|eauto].
  intro ds. rewrite DE. destruct (SJ a VNone) as (_ & ->). reflexivity.
Qed.

(** * One table *)
Scheme table_ind' := Induction for table Sort Prop with made_ind' := Induction for made Sort Prop with tables_ind' := Induction for tables Sort Prop.
Combined Scheme tables_made_ind from table_ind', made_ind', tables_ind'.

Section Order.
  Context {V : Type} (E : env V) (K : str -> key_map) (J : artifact -> list V -> result V) (s : state V) (OK : orderly K).
  Notation table := (table E K J s).
  Notation made := (made E K J s).
  Notation tables := (tables E K J s).

  (** Tables without reordering. *)
  Inductive plain_table : artifact -> rows V -> Prop :=
  | plain_raw : forall a parts T, a_output a = None -> NoDup parts -> (forall x, In x parts <-> raw_found E s (a_storage a) x) ->
      Forall2 (fun x r => fst r = ps_key x /\ exists d, holds_data s x d /\ snd r = load E a [d]) parts T -> plain_table a T
  | plain_built : forall a p i outs T, a_output a = Some (p, i) -> made p outs -> output_column i outs T -> plain_table a T.
  Lemma table_plain : forall a T, table a T -> exists T0, plain_table a T0 /\ Permutation T0 T.
  Proof.
    intros a T H. induction H as [a parts T|a p i outs T|a T T' H (T0 & P0 & Q) P].
    - exists T. split; [econstructor; eauto|reflexivity].
    - exists T. split; [eapply plain_built; eauto|reflexivity].
    - exists T0. split; [exact P0|]. etransitivity; eauto.
  Qed.
  Lemma Forall2_fun : forall A B (R : A -> B -> Prop) l m m', (forall x y y', R x y -> R x y' -> y = y') -> Forall2 R l m -> Forall2 R l m' -> m = m'.
  Proof.
    intros A B R l m m' RF F. revert m'. induction F as [|x y l m H F IH]; intros m' F'; inversion F' as [|? y' ? m'' H' F'']; subst; [reflexivity|].
    f_equal; [eapply RF; eauto|auto].
  Qed.
  Lemma Forall2_perm : forall A B (R : A -> B -> Prop) l l' m m', (forall x y y', R x y -> R x y' -> y = y') -> Permutation l l' -> Forall2 R l m -> Forall2 R l' m' -> Permutation m m'.
  Proof.
    intros A B R l l' m m' RF P F F'. destruct (Permutation_Forall2 P F) as (m2 & P2 & F2). now rewrite (Forall2_fun _ _ _ _ _ _ RF F' F2).
  Qed.
  Lemma output_column_keys : forall i outs (T : rows V), output_column i outs T -> map fst T = map fst outs.
  Proof. intros i outs T H. induction H as [|o r outs T [Q _] H IH]; [reflexivity|]. cbn. now rewrite Q, IH. Qed.
  Lemma keys_apart : forall (T : rows V) k r r', NoDup (map fst T) -> In (k, r) T -> In (k, r') T -> r = r'.
  Proof.
    induction T as [|[k0 r0] T IH]; intros k r r' ND I I'; [destruct I|]. inversion ND as [|? ? N1 N2]; subst. cbn [fst] in N1.
    destruct I as [I|I], I' as [I'|I']; [congruence| | |eapply IH; eauto].
    - exfalso. injection I as -> ->. apply N1. now apply (in_map fst) in I'.
    - exfalso. injection I' as -> ->. apply N1. now apply (in_map fst) in I.
  Qed.
  Lemma raw_once : forall t x y, raw_found E s t x -> raw_found E s t y -> ps_key x = ps_key y -> x = y.
  Proof. intros t x y X Y Q. eapply raw_key; eauto. Qed.

  Definition alike (Ts Ts' : list (str * rows V)) : Prop := Forall2 (fun nT nT' => fst nT = fst nT' /\ Permutation (snd nT) (snd nT') /\ NoDup (map fst (snd nT))) Ts Ts'.
  Lemma alike_get : forall Ts Ts' n T T', alike Ts Ts' -> dget str_eqb Ts n = Some T -> dget str_eqb Ts' n = Some T' -> Permutation T T' /\ NoDup (map fst T).
  Proof.
    intros Ts Ts' n T T' A. induction A as [|[m U] [m' U'] Ts Ts' (Q & P & N) A IH]; [discriminate|]. cbn [fst snd] in *. subst m'. cbn [dget]. destruct (str_eqb m n); [|exact IH].
    intros [= ->] [= ->]. auto.
  Qed.
  Lemma takes_alike : forall p Ts Ts' d args args', alike Ts Ts' -> takes E J p Ts d args -> takes E J p Ts' d args' -> args' = args.
  Proof.
    intros p Ts Ts' d args args' A H. unfold takes in *. revert args'. generalize dependent args. generalize (c_build_inputs (classes E (p_class p))). intro names.
    induction names as [|n names IH]; intros args H args' H'; inversion H as [|? [n1 v1] ? args1 (Q1 & a & T & ks & vs & A1 & A2 & A3 & A4 & A5 & A6) H1]; subst;
      inversion H' as [|? [n2 v2] ? args2 (Q2 & a' & T' & ks' & vs' & B1 & B2 & B3 & B4 & B5 & B6) H2]; subst; [reflexivity|]. cbn [fst snd] in *. subst.
    f_equal; [|eapply IH; eauto]. f_equal. assert (a' = a) by congruence. assert (ks' = ks) by congruence. subst a' ks'. destruct (alike_get _ _ _ _ _ A A2 B2) as [P N].
    assert (vs' = vs); [|congruence]. clear - A5 B5 P N. revert vs' B5. induction A5 as [|k v ks vs I A5 IH]; intros vs' B5; inversion B5 as [|? v' ? vs'' I' B5']; subst; [reflexivity|].
    f_equal; [|now apply IH]. apply (Permutation_in _ (Permutation_sym P)) in I'. assert (Q := keys_apart _ _ _ _ N I I'). congruence.
  Qed.

  Lemma tables_alike :
    (forall a T, table a T -> NoDup (map fst T) /\ forall T', table a T' -> Permutation T T') /\
    (forall p outs, made p outs -> NoDup (map fst outs) /\ forall outs', made p outs' -> Permutation outs outs') /\
    (forall inputs Ts, tables inputs Ts -> forall Ts', tables inputs Ts' -> alike Ts Ts').
  Proof.
    apply (tables_made_ind V E K J s (fun a T _ => NoDup (map fst T) /\ forall T', table a T' -> Permutation T T')
      (fun p outs _ => NoDup (map fst outs) /\ forall outs', made p outs' -> Permutation outs outs') (fun inputs Ts _ => forall Ts', tables inputs Ts' -> alike Ts Ts')).
    - intros a parts T AO ND RF F. assert (RFUN : forall x (y y' : pkey * result V), (fst y = ps_key x /\ exists d, holds_data s x d /\ snd y = load E a [d]) ->
        (fst y' = ps_key x /\ exists d, holds_data s x d /\ snd y' = load E a [d]) -> y = y').
      { intros x [k r] [k' r'] (Q1 & d & HD & Q2) (Q1' & d' & HD' & Q2'). cbn in *. assert (d' = d) by (eapply holds_one; eauto). subst. reflexivity. }
      split.
      + replace (map fst T) with (map ps_key parts). { apply NoDup_keys; [exact ND|]. intros x y Ix Iy. apply (raw_once (a_storage a)); now apply RF. }
        clear - F. induction F as [|x r l T (Q & _) F IH]; [reflexivity|]. cbn. now rewrite Q, IH.
      + intros T' H'. apply table_plain in H'. destruct H' as (T0 & P0 & PM). transitivity T0; [|exact PM]. inversion P0 as [? parts' ? AO' ND' RF' F'|? ? ? ? ? AO']; subst; [|congruence].
        eapply Forall2_perm; [exact RFUN| |exact F|exact F']. apply NoDup_Permutation; auto. intro x. now rewrite RF, RF'.
    - intros a p i outs T AO MA [IN IP] OC. assert (RFUN : forall (x : pkey * list V) (y y' : pkey * result V), (fst y = fst x /\ exists v, nth_error (snd x) i = Some v /\ snd y = Ok v) ->
        (fst y' = fst x /\ exists v, nth_error (snd x) i = Some v /\ snd y' = Ok v) -> y = y').
      { intros x [k r] [k' r'] (Q1 & v & N1 & Q2) (Q1' & v' & N1' & Q2'). cbn in *. congruence. }
      split; [now rewrite (output_column_keys _ _ _ OC)|]. intros T' H'. apply table_plain in H'. destruct H' as (T0 & P0 & PM). transitivity T0; [|exact PM].
      inversion P0 as [? ? ? AO'|? p' i' outs' ? AO' MA' OC']; subst; [congruence|]. rewrite AO in AO'. injection AO' as <- <-.
      eapply Forall2_perm; [exact RFUN|exact (IP _ MA')|exact OC|exact OC'].
    - intros a T T' H [IN IP] P. split; [eapply Permutation_NoDup; [|exact IN]; now apply Permutation_map|]. intros T2 H2. transitivity T; [now apply Permutation_sym|auto].
    - intros p Ts asked outs HT IH KA F.
      assert (KF : map fst outs = map fst asked) by (clear - F; induction F as [|kd o l outs (Q & _) F IH]; [reflexivity|]; cbn; now rewrite Q, IH).
      assert (NK : forall n ks, In (n, ks) (keys_of (mapped_over E p Ts)) -> NoDup ks).
      { assert (A0 := IH _ HT). intros n ks I. apply in_map_iff in I. destruct I as ([n' T] & Q & I). injection Q as _ <-. apply filter_In in I. destruct I as [I _].
        destruct (Forall2_in_l _ _ _ _ _ _ A0 I) as (nT & _ & (_ & _ & N)). exact N. }
      split.
      + rewrite KF. eapply (OK (p_class p) (keys_of (mapped_over E p Ts)) (keys_of (mapped_over E p Ts))); [|exact NK|exact KA]. generalize (keys_of (mapped_over E p Ts)). intro l. induction l; constructor; auto.
      + intros outs' MA'. inversion MA' as [? Ts' asked' ? HT' KA' F']; subst. assert (A := IH _ HT').
        assert (KP : Permutation asked asked').
        { destruct (OK (p_class p) (keys_of (mapped_over E p Ts)) (keys_of (mapped_over E p Ts')) asked) as (_ & asked2 & K2 & P2); [|exact NK|exact KA|now rewrite KA' in K2; injection K2 as <-].
          unfold mapped_over, keys_of. clear - A. induction A as [|[n T] [n' T'] Ts Ts' (Q & P & N) A IH]; [constructor|]. cbn [fst snd] in *. subst n'. cbn [filter fst]. destruct (existsb _ _); [|exact IH].
          cbn [map fst snd]. constructor; [|exact IH]. split; [reflexivity|]. now apply Permutation_map. }
        assert (F2 : Forall2 (fun kd o => fst o = fst kd /\ exists args, takes E J p Ts (snd kd) args /\ runs (classes E (p_class p)) args (Ok (snd o))) asked' outs').
        { assert (SOME : forall kd, In kd asked' -> exists args, takes E J p Ts (snd kd) args).
          { intros kd I. apply (Permutation_in _ (Permutation_sym KP)) in I. destruct (Forall2_in_l _ _ _ _ _ _ F I) as (o & _ & (_ & args & TK & _)). eauto. }
          clear - F' SOME A. induction F' as [|kd o l outs (Q & args & TK & RU) F' IH]; constructor; [|apply IH; intros kd' I; apply SOME; now right].
          split; [exact Q|]. exists args. split; [|exact RU]. destruct (SOME kd (or_introl eq_refl)) as (args0 & TK0). now rewrite (takes_alike _ _ _ _ _ _ A TK0 TK). }
        eapply Forall2_perm; [|exact KP|exact F|exact F2]. intros kd [k vs] [k' vs'] (Q & args & TK & RU) (Q' & args' & TK' & RU'). cbn [fst snd] in *. subst.
        f_equal. assert (A0 : alike Ts Ts) by (apply IH; exact HT). rewrite (takes_alike _ _ _ _ _ _ A0 TK TK') in RU'. assert (Z := runs_fun _ _ _ _ _ RU RU'). congruence.
    - intros Ts' H. inversion H. constructor.
    - intros n a T inputs Ts HT [IN IP] HTs IH Ts' H'. inversion H' as [|? ? T' ? Ts'' HT' HTs']; subst. constructor; [|now apply IH]. cbn. split; [reflexivity|]. split; [now apply IP|exact IN].
  Qed.
End Order.
Theorem one_table : forall V (E : env V) K J s, orderly K -> forall a T T', table E K J s a T -> table E K J s a T' -> Permutation T T'.
Proof. intros V E K J s OK a T T' H H'. exact (proj2 (proj1 (tables_alike E K J s OK) a T H) T' H'). Qed.
