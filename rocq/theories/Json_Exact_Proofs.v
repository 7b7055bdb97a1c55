(** Which objects JSON keeps, and for which types it keeps all objects. *)
From Coq Require Import ZArith NArith List Ascii String Bool Lia.
From Verif Require Import Base Str Base_Proofs Types_Model IO_Model IO_Spec IO_Proofs Json_Model Json_Spec Json_Text_Proofs Json_Codec_Proofs Json_Prefix_Proofs.
Import ListNotations.
Open Scope list_scope.

Lemma text_eqb_ok : forall a b, text_eqb a b = true <-> a = b.
Proof. intros a b. unfold text_eqb. destruct (list_eq_dec N.eq_dec a b); split; congruence. Qed.

Section Dict.
  Context {V : Type}.
  Notation dict := (list (text * V)).
  Lemma dset_new : forall (d : dict) k v, ~ In k (map fst d) -> dset text_eqb d k v = d ++ [(k, v)].
  Proof.
    induction d as [|[k0 v0] d IH]; intros k v N; [reflexivity|]. cbn in *. destruct (text_eqb k0 k) eqn:E; [apply text_eqb_ok in E; exfalso; auto|].
    rewrite IH by auto. reflexivity.
  Qed.
  Lemma dupdate_new : forall (l d : dict), NoDup (map fst (d ++ l)) -> dupdate text_eqb d l = d ++ l.
  Proof.
    unfold dupdate. induction l as [|[k v] l IH]; intros d N; cbn [fold_left fst snd]; [rewrite app_nil_r; reflexivity|].
    rewrite dset_new.
    - rewrite IH; rewrite <- app_assoc; [reflexivity|exact N].
    - rewrite map_app in N. cbn in N. apply NoDup_remove_2 in N. intro I. apply N. apply in_or_app. left. exact I.
  Qed.
  Lemma dict_of_new : forall l : dict, NoDup (map fst l) -> dict_of text_eqb l = l.
  Proof. intros l N. apply dupdate_new. exact N. Qed.
  Lemma dict_of_incl : forall l : dict, incl (map fst (dict_of text_eqb l)) (map fst l).
  Proof.
    intros l k I. destruct (dget text_eqb (dict_of text_eqb l) k) as [v|] eqn:G.
    - unfold dict_of in G. rewrite (dget_dupdate _ text_eqb_ok) in G. cbn [dget] in G.
      destruct (dget text_eqb (rev l) k) as [w|] eqn:G2; [|discriminate G]. apply (dget_In _ text_eqb_ok) in G2.
      apply in_rev in G2. apply (in_map fst) in G2. exact G2.
    - apply (dget_None _ text_eqb_ok) in G. contradiction.
  Qed.
  Lemma dict_of_length : forall l : dict, List.length (dict_of text_eqb l) = List.length l -> NoDup (map fst l).
  Proof.
    intros l E. apply (@NoDup_incl_NoDup _ (map fst (dict_of text_eqb l))).
    - apply (dict_of_NoDup _ text_eqb_ok).
    - rewrite !map_length, E. apply le_n.
    - apply dict_of_incl.
  Qed.
End Dict.

Section Exact.
  Context {fl : floats}.
  Notation value := (value fl).

  Lemma faithful_encodable : forall v : value, faithful v -> encodable v.
  Proof.
    apply (value_nested_ind (fun v => faithful v -> encodable v)); intros; try (constructor; fail); try (match goal with H : faithful _ |- _ => inversion H; fail end).
    - match goal with H : faithful _ |- _ => inversion H; subst end. constructor. auto.
    - match goal with H : faithful _ |- _ => inversion H as [| | | | | |? N A]; subst end. constructor; intros k x I; destruct (A k x I) as [(s & -> & _) F]; [eexists; constructor|].
      destruct (H _ _ I) as [_ Hx]. auto.
  Qed.

  Lemma faithful_kept : forall v v' : value, faithful v -> reads_as v v' -> v' = v.
  Proof.
    apply (value_nested_ind (fun v => forall v', faithful v -> reads_as v v' -> v' = v));
      try (intros; match goal with H : reads_as _ _ |- _ => inversion H; subst; reflexivity end);
      try (intros; match goal with H : reads_as _ _ |- _ => inversion H; fail end).
    - intros s v' Fa R. inversion R; subst. inversion Fa; subst. rewrite joined_unpaired by assumption. reflexivity.
    - intros l IH v' Fa R. inversion R as [| | | | |? l' F2| |]; subst. inversion Fa as [| | | | |? A|]; subst. f_equal. clear R Fa.
      induction F2 as [|x y l l' Rx F2 IHl]; [reflexivity|]. f_equal.
      + apply IH; [left; reflexivity|apply A; left; reflexivity|exact Rx].
      + apply IHl; intros z I; [apply IH|apply A]; right; exact I.
    - intros l IH v' Fa R. inversion Fa.
    - intros kvs IH v' Fa R. inversion R as [| | | | | | |? pairs F2]; subst. inversion Fa as [| | | | | |? N A]; subst. f_equal. clear R Fa.
      assert (K : map (fun py => (VText (fst py), snd py)) pairs = kvs /\ map (fun py => (joined (fst py), snd py)) pairs = pairs).
      { clear N. induction F2 as [|[k x] [s y] l l' [Rk Rx] F2 IHl]; [split; reflexivity|]. cbn [fst snd] in Rk, Rx.
        destruct (A k x (or_introl eq_refl)) as [(s' & -> & Us) Fx]. inversion Rk; subst. clear Rk.
        destruct (IH _ _ (or_introl eq_refl)) as [_ IHx]. rewrite (IHx _ Fx Rx).
        destruct IHl as [I1 I2]; [intros k0 x0 I0; apply IH; right; exact I0|intros k0 x0 I0; apply A; right; exact I0|].
        cbn [map fst snd]. rewrite I1, I2, joined_unpaired by exact Us. split; reflexivity. }
      destruct K as [K1 K2]. rewrite K2, dict_of_new; [exact K1|].
      rewrite <- K1, map_map in N. cbn [fst] in N. rewrite <- (map_map fst VText) in N. apply NoDup_map_inv in N. exact N.
  Qed.

  Lemma reads_dict : forall kvs kvs', reads_as (VDict kvs) (VDict kvs') ->
    exists pairs : list (text * value), Forall2 (fun kx py => key_as (fst kx) (fst py) /\ reads_as (snd kx) (snd py)) kvs pairs /\
      map (fun py => (VText (fst py), snd py)) (dict_of text_eqb (map (fun py => (joined (fst py), snd py)) pairs)) = kvs'.
  Proof. intros kvs kvs' R. inversion R as [| | | | | | |? pairs F2]; subst. exists pairs. split; [exact F2|reflexivity]. Qed.
  Lemma kept_faithful : forall v : value, reads_as v v -> faithful v.
  Proof.
    apply (value_nested_ind (fun v => reads_as v v -> faithful v)); try (intros; constructor; fail);
      try (intros; match goal with H : reads_as _ _ |- _ => inversion H; fail end).
    - intros s R. inversion R as [| | | |? E| | |]; subst. constructor. apply joined_same. congruence.
    - intros l IH R. inversion R as [| | | | |? ? F2| |]; subst. constructor. intros x I. apply IH; [exact I|].
      clear -F2 I. induction l as [|y l IH]; [destruct I|]. inversion F2; subst. destruct I as [<-|I]; auto.
    - intros kvs IH R. destruct (reads_dict _ _ R) as (pairs & F2 & E2). clear R.
      set (P := map (fun py => (joined (fst py), snd py)) pairs) in *.
      assert (Len : List.length kvs = List.length pairs) by (clear -F2; induction F2; cbn; congruence).
      assert (Nd : NoDup (map fst P)).
      { apply dict_of_length. unfold P at 2. rewrite map_length, <- Len, <- E2, map_length. reflexivity. }
      rewrite (dict_of_new P Nd) in E2. clear Len.
      constructor.
      + rewrite <- E2, map_map. cbn [fst]. rewrite <- (map_map fst VText). apply FinFun.Injective_map_NoDup; [intros a b X; congruence|exact Nd].
      + assert (All : Forall (fun py => joined (fst py) = fst py /\ reads_as (snd py) (snd py)) pairs).
        { unfold P in E2. rewrite <- E2 in F2. clear -F2. induction pairs as [|[k x] pairs IHp]; [constructor|].
          inversion F2 as [|? ? ? ? [K R] F2']; subst. cbn [fst snd] in K, R. inversion K as [? Q| | | | | | | |]; subst. constructor; [|apply IHp; exact F2']. cbn. split; [congruence|exact R]. }
        intros k x I. pose proof I as I0. rewrite <- E2 in I. apply in_map_iff in I. destruct I as ([s y] & E & I). cbn [fst snd] in E. injection E as <- <-.
        unfold P in I. apply in_map_iff in I. destruct I as ([s0 y0] & E & I). cbn [fst snd] in E. injection E as <- <-.
        rewrite Forall_forall in All. destruct (All _ I) as [J R]. cbn [fst snd] in J, R. split.
        * exists (joined s0). split; [reflexivity|]. apply joined_same. rewrite !J. reflexivity.
        * apply (IH _ _ I0). exact R.
  Qed.

  Lemma kept_iff : float_laws fl -> forall v : value, all_texts unicode v -> (exists c, dumps v = Ok c /\ loads c = Ok v) <-> faithful v.
  Proof.
    intros Laws v U. split.
    - intros (c & D & L). destruct (loads_written Laws v c U D) as (v' & R & L'). rewrite L in L'. injection L' as <-. apply kept_faithful. exact R.
    - intro Fa. destruct (proj2 (dumps_encodable v) (faithful_encodable v Fa)) as (c & D). exists c. split; [exact D|].
      destruct (loads_written Laws v c U D) as (v' & R & L). rewrite L, (faithful_kept v v' Fa R). reflexivity.
  Qed.
  Lemma kept : float_laws fl -> forall v : value, all_texts unicode v -> faithful v -> exists c, dumps v = Ok c /\ loads c = Ok v.
  Proof. intros Laws v U. apply kept_iff; assumption. Qed.

  (** * Types *)

  Lemma text_instance : forall kt, is_text kt -> forall k : value, instance kt k -> exists s, k = VText s.
  Proof.
    induction 1 as [m N|n t items m N It IH]; intros k I.
    - inversion I as [t Nu| | | | | | | | | | | | | |]; subst; [unfold is_nullable in Nu; cbn in Nu; congruence|eauto].
    - inversion I as [t' Nu| | | | | | | | | | | | | |]; subst; [unfold is_nullable in Nu; cbn in Nu; congruence|auto].
  Qed.
  Lemma of_str_inj : forall a b, of_str a = of_str b -> a = b.
  Proof.
    unfold of_str. induction a as [|x a IH]; intros [|y b] E; try discriminate E; [reflexivity|]. cbn in E. injection E as E1 E2. f_equal; [|auto].
    rewrite <- (ascii_N_embedding x), <- (ascii_N_embedding y), E1. reflexivity.
  Qed.

  Lemma json_type_faithful : forall t, json_type t -> hinted t -> forall v : value, instance t v -> all_texts unpaired v -> faithful v.
  Proof.
    induction 1 as [m|m|w m|w m|m|n t items m Jt IH|e m Je IH|n e p c m Je IH|kt t m It Jt IH|n fields m Jf IH]; intros Hi v I U;
      (inversion I as [t0 Nu| | | | | | | | |? ? ? ? ? I'|? ? ? I'|? ? ? ? ? ? I'|? ? ? ? I'|? ? ? ? Nd I'|? ? ? ? F2]; subst; [constructor|]); try (constructor; fail).
    - constructor. inversion U; assumption.
    - inversion Hi; subst. auto.
    - inversion Hi; subst. inversion U; subst. constructor. auto.
    - inversion Hi; subst. inversion U; subst. constructor. auto.
    - inversion Hi; subst. inversion U as [| | | | | | |? Uk| | | |]; subst. constructor; [exact Nd|].
      intros k x Ix. destruct (I' k x Ix) as [Ik Iv]. destruct (Uk k x Ix) as [U1 U2]. split; [|auto].
      destruct (text_instance kt It k Ik) as (s & ->). exists s. split; [reflexivity|]. inversion U1; assumption.
    - inversion Hi as [| | | | | | | |? ? ? Nf Hf]; subst. inversion U as [| | | | | | |? Uk| | | |]; subst. constructor.
      + assert (E : map fst kvs = map (fun nf => VText (of_str (fst nf))) fields) by (clear -F2; induction F2 as [|? ? ? ? [A _] _ IH]; cbn; congruence).
        rewrite E, <- (map_map fst (fun n => VText (of_str n))). apply FinFun.Injective_map_NoDup; [|exact Nf].
        intros a b X. apply of_str_inj. congruence.
      + intros k x Ix. destruct (Uk k x Ix) as [U1 U2].
        assert (Ex : exists nf, In nf fields /\ k = VText (of_str (fst nf)) /\ instance (snd nf) x).
        { clear -F2 Ix. induction F2 as [|nf [k0 x0] ? ? [A B] _ IHf]; [destruct Ix|]. cbn [fst snd] in A, B. destruct Ix as [E|Ix].
          - injection E as <- <-. exists nf. split; [left; reflexivity|auto].
          - destruct (IHf Ix) as (nf' & I & Y). exists nf'. split; [right; exact I|exact Y]. }
        destruct Ex as ([f t] & If & -> & It). split; [|exact (IH f t If (Hf f t If) x It U2)].
        exists (of_str f). split; [reflexivity|apply of_str_unpaired].
  Qed.

  Lemma of_str_clean : forall s, clean (of_str s).
  Proof. intro s. split; [apply of_str_unicode|apply of_str_unpaired]. Qed.

  Lemma sample : floats_inhabited fl -> forall t, hinted t -> exists v : value, instance t v /\ all_texts clean v.
  Proof.
    intros [x0] t Ht. induction Ht as [s m Nu|n m|p m|n t items m Ht IH|e m He IH|n e p c m He IH|e m He IH|kt t m Hk _ Hv _|n fields m Nd Hf IH].
    - destruct s.
      + exists (VBool true). split; constructor.
      + exists (VDate 1 1 1). split; constructor.
      + exists (VFloat x0). split; constructor.
      + exists (VInt 0). split; constructor.
      + exists VNone. split; [apply inst_none|constructor].
      + exists (VText []). split; constructor. split; [intros c []|]. intros [|a0 a1] h l b E; discriminate E.
      + exfalso. apply (Nu w). reflexivity.
    - exists (VBytes []). split; constructor.
    - exists (VDatetime []). split; constructor.
    - destruct IH as (v & I & C). exists v. split; [constructor; exact I|exact C].
    - exists (VList []). split; constructor; intros x [].
    - exists (VList []). split; constructor; intros x [].
    - exists (VSet true []). split; constructor; intros x [].
    - exists (VDict []). split; constructor; try (intros k x []). constructor.
    - assert (K : exists kvs : list (value * value), Forall2 (fun nf kx => fst kx = VText (of_str (fst nf)) /\ instance (snd nf) (snd kx)) fields kvs /\
                   forall k x, In (k, x) kvs -> all_texts clean k /\ all_texts clean x).
      { clear Nd Hf. induction fields as [|[f t] fields IHf].
        - exists []. split; [constructor|intros k x []].
        - destruct (IH f t (or_introl eq_refl)) as (v & I & C).
          destruct IHf as (kvs & F2 & Ck); [intros f0 t0 I0; apply (IH f0 t0); right; exact I0|].
          exists ((VText (of_str f), v) :: kvs). split; [constructor; [split; [reflexivity|exact I]|exact F2]|].
          intros k x [E|Ix]; [injection E as <- <-; split; [constructor; apply of_str_clean|exact C]|auto]. }
      destruct K as (kvs & F2 & Ck). exists (VDict kvs). split; constructor; assumption.
  Qed.

  Lemma only_texts : floats_inhabited fl -> forall kt, hinted kt -> (forall k : value, instance kt k -> all_texts clean k -> exists s, k = VText s) -> is_text kt.
  Proof.
    intros Fi kt Ht. destruct (sample Fi kt Ht) as (v & Iv & Cv). induction Ht as [s m Nu|n m|p m|n t items m Ht IH|e m He _|n e p c m He _|e m He _|kt t m Hk _ Hv _|n fields m Nd Hf _]; intro T.
    all: assert (Nn : nullable m = false) by
      (destruct (nullable m) eqn:E; [|reflexivity]; destruct (T VNone) as (s0 & X); [apply inst_null; exact E|constructor|discriminate X]).
    all: destruct (T v Iv Cv) as (s0 & ->); inversion Iv; subst; try (constructor; exact Nn).
    constructor; [exact Nn|]. apply IH; [assumption|]. intros k Ik Ck. apply T; [constructor; exact Ik|exact Ck].
  Qed.

  Lemma faithful_json_type : floats_inhabited fl -> forall t, hinted t -> (forall v : value, instance t v -> all_texts clean v -> faithful v) -> json_type t.
  Proof.
    intros Fi t Ht. induction Ht as [s m Nu|n m|p m|n t items m Ht IH|e m He IH|n e p c m He IH|e m He IH|kt t m Hk _ Hv IH|n fields m Nd Hf IH]; intro A.
    - destruct s; try (constructor; fail).
      + exfalso. assert (Fa : faithful (VDate (fl := fl) 1 1 1)) by (apply A; constructor). inversion Fa.
      + exfalso. apply (Nu w). reflexivity.
    - exfalso. assert (Fa : faithful (VBytes (fl := fl) [])) by (apply A; constructor). inversion Fa.
    - exfalso. assert (Fa : faithful (VDatetime (fl := fl) [])) by (apply A; constructor). inversion Fa.
    - constructor. apply IH. intros v I C. apply A; [constructor; exact I|exact C].
    - constructor. apply IH. intros v I C. assert (Fa : faithful (VList [v])) by (apply A; constructor; intros x [<-|[]]; assumption).
      inversion Fa as [| | | | |? Al|]; subst. apply Al. left. reflexivity.
    - constructor. apply IH. intros v I C. assert (Fa : faithful (VList [v])) by (apply A; constructor; intros x [<-|[]]; assumption).
      inversion Fa as [| | | | |? Al|]; subst. apply Al. left. reflexivity.
    - exfalso. assert (Fa : faithful (VSet (fl := fl) true [])) by (apply A; constructor; intros x []). inversion Fa.
    - destruct (sample Fi kt Hk) as (k0 & Ik0 & Ck0). destruct (sample Fi t Hv) as (v0 & Iv0 & Cv0).
      assert (One : forall k v : value, instance kt k -> all_texts clean k -> instance t v -> all_texts clean v -> (exists s, k = VText s) /\ faithful v).
      { intros k v Ik Ck Iv Cv. assert (Fa : faithful (VDict [(k, v)])).
        { apply A; constructor.
          - constructor; [intros []|constructor].
          - intros k1 v1 [E|[]]. injection E as <- <-. split; assumption.
          - intros k1 v1 [E|[]]. injection E as <- <-. split; assumption. }
        inversion Fa as [| | | | | |? Nd Al]; subst. destruct (Al k v (or_introl eq_refl)) as [(s & E & _) Fv]. split; [eauto|exact Fv]. }
      constructor.
      + apply (only_texts Fi); [exact Hk|]. intros k Ik Ck. apply (One k v0 Ik Ck Iv0 Cv0).
      + apply IH. intros v Iv Cv. apply (One k0 v Ik0 Ck0 Iv Cv).
    - constructor. intros f t If. apply (IH f t If). intros v Iv Cv.
      assert (K : exists kvs : list (value * value), Forall2 (fun nf kx => fst kx = VText (of_str (fst nf)) /\ instance (snd nf) (snd kx)) fields kvs /\
                   (forall k x, In (k, x) kvs -> all_texts clean k /\ all_texts clean x) /\ exists k, In (k, v) kvs).
      { clear Nd IH A. induction fields as [|[f0 t0] fields IHf]; [destruct If|].
        assert (Rest : exists kvs : list (value * value), Forall2 (fun nf kx => fst kx = VText (of_str (fst nf)) /\ instance (snd nf) (snd kx)) fields kvs /\
                   (forall k x, In (k, x) kvs -> all_texts clean k /\ all_texts clean x)).
        { assert (Hf' : forall f t, In (f, t) fields -> hinted t) by (intros f1 t1 I1; apply (Hf f1 t1); right; exact I1). clear -Hf' Fi.
          induction fields as [|[f t] fields IHf]; [exists []; split; [constructor|intros k x []]|].
          destruct (sample Fi t (Hf' f t (or_introl eq_refl))) as (w & Iw & Cw).
          destruct IHf as (kvs & F2 & Ck); [intros f1 t1 I1; apply (Hf' f1 t1); right; exact I1|].
          exists ((VText (of_str f), w) :: kvs). split; [constructor; [split; [reflexivity|exact Iw]|exact F2]|].
          intros k x [E|Ix]; [injection E as <- <-; split; [constructor; apply of_str_clean|exact Cw]|auto]. }
        destruct If as [E|If].
        - injection E as -> ->. destruct Rest as (kvs & F2 & Ck). exists ((VText (of_str f), v) :: kvs).
          split; [constructor; [split; [reflexivity|exact Iv]|exact F2]|]. split; [|exists (VText (of_str f)); left; reflexivity].
          intros k x [E|Ix]; [injection E as <- <-; split; [constructor; apply of_str_clean|exact Cv]|auto].
        - destruct (sample Fi t0 (Hf f0 t0 (or_introl eq_refl))) as (w & Iw & Cw).
          destruct IHf as (kvs & F2 & Ck & k1 & I1); [intros f1 t1 I1; apply (Hf f1 t1); right; exact I1|exact If|].
          exists ((VText (of_str f0), w) :: kvs). split; [constructor; [split; [reflexivity|exact Iw]|exact F2]|].
          split; [|exists k1; right; exact I1].
          intros k x [E|Ix]; [injection E as <- <-; split; [constructor; apply of_str_clean|exact Cw]|auto]. }
      destruct K as (kvs & F2 & Ck & k & Ik).
      assert (Fa : faithful (VDict kvs)) by (apply A; constructor; assumption).
      inversion Fa as [| | | | | |? Nd' Al]; subst. apply (Al k v Ik).
  Qed.
End Exact.
