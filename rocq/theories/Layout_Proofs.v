(** The default layout is a path template; classes of parsed keys. *)
From Coq Require Import ZArith NArith List Ascii String Bool Lia Permutation.
From Verif Require Import Base Base_Proofs Str Str_Proofs Numerals_Model Partitions_Model Partitions_Spec Partitions_Proofs
  Format_Model Template_Spec Storage_Model Paths_Spec Paths_Proofs Discovery_Proofs.
Import ListNotations.
Open Scope list_scope.

(** * The default layout *)

Definition seg_text (n : str) (cs : str * str) : str :=
  n ++ $"_" ++ fst cs ++ $"=" ++ $"{" ++ n ++ $"." ++ snd cs ++ $"}".

Lemma join_cons : forall sep a l, join sep (a :: l) = match l with [] => a | _ => a ++ sep ++ join sep l end.
Proof. intros sep a [|b l]; reflexivity. Qed.

Lemma join_app : forall sep l1 l2, l1 <> [] -> l2 <> [] -> join sep (l1 ++ l2) = join sep l1 ++ sep ++ join sep l2.
Proof.
  intros sep l1 l2 H1 H2. induction l1 as [|a [|b l1] IH]; [congruence| |].
  - cbn [app]. rewrite join_cons. destruct l2; [congruence|]. reflexivity.
  - assert (E := IH ltac:(discriminate)). change ((a :: b :: l1) ++ l2) with (a :: (b :: l1) ++ l2).
    rewrite join_cons, E. cbn [app]. rewrite (join_cons sep a (b :: l1)). now rewrite <- !app_assoc.
Qed.

(** The names of the segments are different. *)
Definition seg_names (kts : key_types) : list (str * str) :=
  flat_map (fun nc => map (fun cs => (fst nc ++ $"_" ++ fst cs, $"{" ++ fst nc ++ $"." ++ snd cs ++ $"}"))
                          (default_components (snd nc))) kts.

Lemma last_split : forall (c : ascii) a b a' b', ~ In c b -> ~ In c b' -> a ++ c :: b = a' ++ c :: b' -> a = a' /\ b = b'.
Proof.
  intros c a. induction a as [|x a IH]; intros b [|y a'] b' N N' E; cbn in E.
  - inversion E. auto.
  - inversion E; subst. exfalso. apply N. apply in_or_app. right. now left.
  - inversion E; subst. exfalso. apply N'. apply in_or_app. right. now left.
  - inversion E; subst. apply IH in H1; [|exact N|exact N']. destruct H1. subst. auto.
Qed.

Lemma default_no_underscore : forall cls cs, In cs (default_components cls) -> ~ In "_"%char (fst cs).
Proof.
  intros [|w|] cs I; cbn in I;
    repeat match goal with H : _ \/ _ |- _ => destruct H as [<-|H] end; try contradiction;
    cbn; intuition discriminate.
Qed.

Lemma NoDup_join : forall (A : Type) (l m : list A), NoDup l -> NoDup m -> (forall x, In x l -> ~ In x m) -> NoDup (l ++ m).
Proof.
  intros A l m Nl Nm D. induction l as [|x l IH]; [exact Nm|]. inversion Nl; subst. cbn [app]. constructor.
  - intro I. apply in_app_or in I. destruct I as [I|I]; [contradiction|]. apply (D x); [now left|exact I].
  - apply IH; [assumption|]. intros y I. apply D. now right.
Qed.

Lemma seg_names_NoDup : forall kts, NoDup (map fst kts) -> NoDup (map fst (seg_names kts)).
Proof.
  induction kts as [|[n cls] kts IH]; intro N; [constructor|]. inversion N as [|? ? N1 N2]; subst.
  unfold seg_names. cbn [flat_map fst snd]. rewrite map_app. fold (seg_names kts).
  assert (A : NoDup (map fst (map (fun cs => (n ++ $"_" ++ fst cs, $"{" ++ n ++ $"." ++ snd cs ++ $"}")) (default_components cls)))).
  { rewrite map_map. cbn [fst]. rewrite <- (map_map fst (fun c => n ++ $"_" ++ c)).
    apply FinFun.Injective_map_NoDup.
    - intros a b E. apply app_inv_head in E. cbn in E. inversion E. reflexivity.
    - destruct cls; cbn; repeat constructor; cbn; intuition discriminate. }
  assert (D : forall x, In x (map fst (map (fun cs => (n ++ $"_" ++ fst cs, $"{" ++ n ++ $"." ++ snd cs ++ $"}")) (default_components cls))) ->
              ~ In x (map fst (seg_names kts))).
  { intros x I1 I2. rewrite map_map in I1. cbn [fst] in I1. apply in_map_iff in I1. destruct I1 as (cs & <- & I1).
    apply in_map_iff in I2. destruct I2 as ([y t] & E & I2). cbn [fst] in E. subst y.
    unfold seg_names in I2. apply in_flat_map in I2. destruct I2 as ([n' cls'] & I2 & I3). cbn [fst snd] in I3.
    apply in_map_iff in I3. destruct I3 as (cs' & E & I3). inversion E as [[E1 E2]].
    apply (last_split "_"%char) in E1; [|eapply default_no_underscore; eassumption|eapply default_no_underscore; eassumption].
    destruct E1 as [-> _]. apply N1. apply in_map_iff. exists (n, cls'). auto. }
  apply NoDup_join; [exact A|exact (IH N2)|exact D].
Qed.

Lemma dict_of_NoDup : forall (V : Type) (l : list (str * V)), NoDup (map fst l) -> dict_of str_eqb l = l.
Proof.
  intros V l. unfold dict_of. enough (G : forall acc, NoDup (map fst (acc ++ l)) -> dupdate str_eqb acc l = acc ++ l).
  { intro N. apply (G []). exact N. }
  induction l as [|[k v] l IH]; intros acc N; [cbn; now rewrite app_nil_r|].
  cbn [dupdate fold_left]. unfold dupdate in IH. cbn [fst snd].
  assert (E : dset str_eqb acc k v = acc ++ [(k, v)]).
  { assert (Nk : ~ In k (map fst acc)).
    { rewrite map_app in N. cbn [map fst] in N. apply NoDup_remove_2 in N. intro I. apply N. apply in_or_app. now left. }
    clear -Nk. induction acc as [|[k' v'] acc IH]; [reflexivity|]. cbn [dset app].
    cbn [map fst] in Nk. destruct (str_eqb k' k) eqn:Ek; [apply str_eqb_spec in Ek; exfalso; apply Nk; now left|].
    f_equal. apply IH. intro I. apply Nk. now right. }
  rewrite E. rewrite IH; [now rewrite <- app_assoc|]. now rewrite <- app_assoc.
Qed.

Definition seg_lines (kts : key_types) : list str := map (fun ns => fst ns ++ $"=" ++ snd ns) (seg_names kts).

Lemma segments_nil : forall n cs rest, segments n cs rest = [] -> cs = [] /\ rest = [].
Proof. intros n [|[c s] cs] rest E; cbn in E; [auto|discriminate]. Qed.

Lemma default_specs_nonempty : forall cls, default_specs cls <> [].
Proof. intros []; discriminate. Qed.

Lemma print_segment : forall n c spec rest, print (segments n [(c, spec)] rest) =
  n ++ $"_" ++ c ++ $"=" ++ $"{" ++ n ++ $"." ++ c ++ match spec with [] => [] | s => $":" ++ s end ++ $"}" ++
  match rest with [] => [] | t => $"/" ++ print t end.
Proof.
  intros n c spec rest. cbn [segments]. destruct rest as [|x rest]; unfold print; cbn [flat_map print_tok];
    unfold print_hole; cbn [h_name h_accs h_spec flat_map print_acc]; rewrite ?app_nil_r, <- ?app_assoc; destruct spec; reflexivity.
Qed.

Lemma segments_cons : forall n c spec cs rest,
  segments n ((c, spec) :: cs) rest = segments n [(c, spec)] (segments n cs rest).
Proof. reflexivity. Qed.

Lemma print_layout : forall kts, print (default_layout kts) = join $"/" (seg_lines kts) /\
  (default_layout kts = [] -> kts = []).
Proof.
  induction kts as [|[n cls] kts [IH IH0]]; [split; reflexivity|].
  assert (Q : forall cs ls, segments n cs (default_layout kts) <> [] ->
     print (segments n cs (default_layout kts)) = join $"/" ls -> ls <> [] ->
     forall c spec, print (segments n ((c, spec) :: cs) (default_layout kts)) =
     join $"/" ((n ++ $"_" ++ c ++ $"=" ++ $"{" ++ n ++ $"." ++ c ++ match spec with [] => [] | s => $":" ++ s end ++ $"}") :: ls)).
  { intros cs ls N E Nl c spec. rewrite segments_cons, print_segment, join_cons, E.
    destruct (segments n cs _); [congruence|]. destruct ls; [congruence|]. now rewrite <- !app_assoc. }
  assert (B : forall c spec, print (segments n [(c, spec)] (default_layout kts)) =
     join $"/" ((n ++ $"_" ++ c ++ $"=" ++ $"{" ++ n ++ $"." ++ c ++ match spec with [] => [] | s => $":" ++ s end ++ $"}") :: seg_lines kts)).
  { intros c spec. rewrite print_segment, join_cons, IH.
    destruct (default_layout kts) as [|x l] eqn:El.
    - rewrite (IH0 eq_refl). reflexivity.
    - destruct (seg_lines kts) as [|y m] eqn:Es.
      + exfalso. destruct kts as [|[n' cls'] kts']; [discriminate|]. unfold seg_lines, seg_names in Es.
        cbn [flat_map] in Es. destruct cls'; discriminate.
      + now rewrite <- !app_assoc. }
  split; [|intro E; exfalso; cbn [default_layout fold_right fst snd] in E; apply segments_nil in E;
           destruct E as [E _]; now apply default_specs_nonempty in E].
  unfold seg_lines, seg_names. cbn [flat_map fst snd default_layout fold_right]. fold (default_layout kts).
  rewrite map_app. fold (seg_names kts). fold (seg_lines kts). rewrite map_map. cbn [fst snd].
  destruct cls; cbn [default_specs default_components map fst snd app].
  - erewrite Q; [| discriminate | erewrite Q; [reflexivity|discriminate|apply B|discriminate] | discriminate].
    cbn [app]. now rewrite <- !app_assoc.
  - rewrite B. now rewrite <- !app_assoc.
  - rewrite B. now rewrite <- !app_assoc.
Qed.

Lemma layout_text : forall kts, NoDup (map fst kts) -> print (default_layout kts) = partition_key_spec kts.
Proof.
  intros kts N. unfold partition_key_spec. fold (seg_names kts). rewrite dict_of_NoDup by now apply seg_names_NoDup.
  apply print_layout.
Qed.

Lemma in_segments : forall n cs rest x, In x (segments n cs rest) <->
  (exists c spec, In (c, spec) cs /\ (x = TLit (n ++ $"_" ++ c ++ $"=") \/ x = THole (Hole n [Attr c] spec))) \/
  (In x rest) \/
  (x = TLit $"/" /\ match cs with [] => False | [_] => rest <> [] | _ => True end).
Proof.
  intros n cs rest x. induction cs as [|[c spec] cs IH].
  - cbn [segments]. split; [tauto|]. intros [(c & s & [] & _)|[I|[_ []]]]. exact I.
  - cbn [segments In]. split.
    + intros [<-|[<-|I]]; [left; exists c, spec; intuition|left; exists c, spec; intuition|].
      destruct (segments n cs rest) as [|y l] eqn:E; [destruct I|].
      destruct I as [<-|I].
      * right; right. split; [reflexivity|]. destruct cs as [|[c' s'] cs]; [|exact Logic.I]. cbn in E. now rewrite E.
      * apply IH in I. destruct I as [(c' & s' & I & H)|[I|[-> H]]].
        -- left. exists c', s'. intuition.
        -- auto.
        -- right; right. split; [reflexivity|]. destruct cs; [destruct H|exact Logic.I].
    + intros [(c' & s' & [E|I] & H)|[I|[-> H]]].
      * inversion E; subst. destruct H as [ -> | -> ]; auto.
      * right; right. assert (J : In x (segments n cs rest)) by (apply IH; left; eauto).
        destruct (segments n cs rest); [destruct J|]. now right.
      * right; right. assert (J : In x (segments n cs rest)) by (apply IH; auto).
        destruct (segments n cs rest); [destruct J|]. now right.
      * right; right. destruct (segments n cs rest) as [|y l] eqn:E; [|now left].
        apply segments_nil in E. destruct E as [-> ->]. congruence.
Qed.

Lemma in_layout_hole : forall kts h, In (THole h) (default_layout kts) <->
  exists n cls c spec, In (n, cls) kts /\ In (c, spec) (default_specs cls) /\ h = Hole n [Attr c] spec.
Proof.
  induction kts as [|[n cls] kts IH]; intro h.
  - cbn. split; [tauto|]. intros (n & cls & c & spec & [] & _).
  - cbn [default_layout fold_right fst snd]. fold (default_layout kts). rewrite in_segments, IH. split.
    + intros [(c & spec & I & [E|E])|[(n' & cls' & c & spec & I & J & E)|[E _]]]; try discriminate.
      * inversion E. exists n, cls, c, spec. intuition.
      * exists n', cls', c, spec. intuition.
    + intros (n' & cls' & c & spec & [E|I] & J & H).
      * inversion E; subst. left. exists c, spec. auto.
      * right; left. exists n', cls', c, spec. auto.
Qed.

Lemma in_layout_lit : forall kts s, In (TLit s) (default_layout kts) ->
  s = $"/" \/ exists n cls c spec, In (n, cls) kts /\ In (c, spec) (default_specs cls) /\ s = n ++ $"_" ++ c ++ $"=".
Proof.
  induction kts as [|[n cls] kts IH]; intros s I; [destruct I|].
  cbn [default_layout fold_right fst snd] in I. fold (default_layout kts) in I. apply in_segments in I.
  destruct I as [(c & spec & I & [E|E])|[I|[E _]]]; try discriminate.
  - inversion E. right. exists n, cls, c, spec. intuition.
  - destruct (IH s I) as [->|(n' & cls' & c & spec & I' & J & E)]; [now left|].
    right. exists n', cls', c, spec. intuition.
  - inversion E. now left.
Qed.

Lemma word_avoids : forall n, word n -> avoids $"{}[" n.
Proof.
  intros n [_ F]. unfold avoids. eapply Forall_impl; [|exact F]. intros c W I. cbn in I.
  destruct I as [<-|[<-|[<-|[]]]]; discriminate W.
Qed.

Lemma default_spec_ok : forall cls c spec, In (c, spec) (default_specs cls) ->
  In c (components cls) /\ spec_for cls c spec /\ avoids $"{}[" (c ++ $"=").
Proof.
  intros [|w|] c spec I; cbn in I;
    repeat match goal with H : _ \/ _ |- _ => destruct H as [E|H]; [inversion E; subst; clear E|] end; try contradiction;
    (split; [cbn; tauto|split; [|repeat constructor; cbn; intuition discriminate]]); unfold spec_for; cbn;
    try (left; reflexivity); right; (split; [tauto|eexists; reflexivity]).
Qed.

Section DefaultFile.
  Variables (kts : key_types) (dir file : str).
  Hypotheses (N : names_ok kts) (Hd : avoids $"{}" dir) (Hf : avoids $"{}" file).

  Lemma kts_get : forall n cls, In (n, cls) kts -> dget str_eqb kts n = Some cls.
  Proof. intros n cls I. apply (dget_NoDup str_eqb str_eqb_spec); [apply N|exact I]. Qed.

  Lemma in_default_hole : forall h, In (THole h) (default_file dir kts file) <->
    h = fp_hole \/ In (THole h) (default_layout kts).
  Proof.
    intro h. unfold default_file. cbn [In]. rewrite in_app_iff. cbn [In]. split.
    - intros [E|[I|[E|[E|[E|[]]]]]]; try discriminate; [auto|]. inversion E. auto.
    - intros [->|I]; auto.
  Qed.

  Lemma default_path_template : path_template kts (default_file dir kts file).
  Proof.
    apply Forall_forall. intros [s|h] I.
    - cbn [path_tok]. unfold default_file in I. cbn [In] in I. rewrite in_app_iff in I. cbn [In] in I.
      destruct I as [E|[I|[E|[E|[E|[]]]]]]; try discriminate.
      + inversion E; subst. exact Hd.
      + destruct (in_layout_lit kts s I) as [->|(n & cls & c & spec & I' & J & ->)].
        * repeat constructor; cbn; intuition discriminate.
        * destruct (proj2 N n cls I') as (W & _). apply word_avoids in W.
          destruct (default_spec_ok cls c spec J) as (_ & _ & A).
          unfold avoids in *. rewrite !Forall_app. cbn in W.
          split; [eapply Forall_impl; [|exact W]; intros a Ha Hb; apply Ha; cbn in *; tauto|].
          split; [repeat constructor; cbn; intuition discriminate|].
          rewrite Forall_app in A. destruct A as [A1 A2].
          split; (eapply Forall_impl; [|eassumption]; intros a Ha Hb; apply Ha; cbn in *; tauto).
      + inversion E. repeat constructor; cbn; intuition discriminate.
      + inversion E. constructor; [cbn; intuition discriminate|exact Hf].
    - cbn [path_tok]. apply in_default_hole in I. destruct I as [->|I]; [now left|right].
      apply in_layout_hole in I. destruct I as (n & cls & c & spec & I & J & ->).
      destruct (proj2 N n cls I) as (W & D & F). destruct (default_spec_ok cls c spec J) as (A & B & _).
      exists cls, c. cbn [h_accs h_name h_spec]. rewrite (kts_get n cls I). auto 10.
  Qed.

  Lemma separated_segments : forall n cls cs rest suf, In (n, cls) kts ->
    (forall c spec, In (c, spec) cs -> In c (components cls)) ->
    separated kts (rest ++ TLit $"/" :: suf) -> separated kts (segments n cs rest ++ TLit $"/" :: suf).
  Proof.
    intros n cls cs rest suf I. induction cs as [|[c spec] cs IH]; intros J S; [exact S|].
    assert (T : forall t, stops (hole_chars kts (Hole n [Attr c] spec)) (TLit $"/" :: t)).
    { intro t. cbn [stops hole_chars h_accs h_name]. rewrite (kts_get n cls I).
      assert (Jc := J c spec (or_introl eq_refl)). destruct cls; cbn in Jc; cbn [tail_chars];
        repeat match goal with H : _ \/ _ |- _ => destruct H as [<-|H] end; try contradiction;
        cbn; intuition discriminate. }
    assert (Q := IH (fun c' s' H => J c' s' (or_intror H)) S).
    cbn [segments]. destruct (segments n cs rest) as [|y l].
    - cbn [app] in *. cbn [separated] in *. split; [apply T|exact Q].
    - cbn [app] in *. change (separated kts (TLit (n ++ $"_" ++ c ++ $"=") :: THole (Hole n [Attr c] spec) :: TLit $"/" :: y :: l ++ TLit $"/" :: suf)).
      cbn [separated]. split; [apply T|]. destruct y; exact Q.
  Qed.

  Lemma default_separated : separated kts (default_file dir kts file).
  Proof.
    unfold default_file. cbn [separated].
    assert (G : forall l, incl l kts -> separated kts (default_layout l ++ [TLit $"/"; THole fp_hole; TLit ($"/" ++ file)])).
    { induction l as [|[n cls] l IH]; intro Hl.
      - cbn [default_layout fold_right app]. cbn [separated]. split; [|exact Logic.I].
        cbn. intuition discriminate.
      - cbn [default_layout fold_right fst snd]. fold (default_layout l). apply separated_segments with (cls := cls).
        + apply Hl. now left.
        + intros c spec J. now apply (default_spec_ok cls c spec J).
        + apply IH. intros x Hx. apply Hl. now right. }
    apply G. apply incl_refl.
  Qed.

  Lemma default_covers : covers kts (default_file dir kts file).
  Proof.
    intros n cls G. assert (I : In (n, cls) kts) by (apply (dget_In str_eqb str_eqb_spec); exact G).
    exists (map fst (default_specs cls)). split.
    - destruct cls; cbn; try constructor. apply Permutation_refl.
    - intro c. rewrite in_map_iff. split.
      + intros ([c' spec] & <- & J). exists spec. apply in_default_hole. right. apply in_layout_hole.
        exists n, cls, c', spec. auto.
      + intros [spec J]. apply in_default_hole in J. destruct J as [E|J]; [inversion E|].
        apply in_layout_hole in J. destruct J as (n' & cls' & c' & spec' & I' & J & E). inversion E; subst.
        assert (cls' = cls) by (apply kts_get in I'; congruence). subst. exists (c', spec'). auto.
  Qed.

  Lemma default_asks : asks_fp (default_file dir kts file).
  Proof. apply in_default_hole. now left. Qed.

  Lemma default_consistent : consistent (default_file dir kts file).
  Proof.
    intros h h' I I' En Ea. apply in_default_hole in I, I'. destruct I as [->|I], I' as [->|I']; [reflexivity| | |].
    - apply in_layout_hole in I'. destruct I' as (n & cls & c & spec & _ & _ & ->). discriminate.
    - apply in_layout_hole in I. destruct I as (n & cls & c & spec & _ & _ & ->). discriminate.
    - apply in_layout_hole in I, I'. destruct I as (n & cls & c & spec & I & J & ->).
      destruct I' as (n' & cls' & c' & spec' & I' & J' & ->). cbn in *. inversion Ea; subst.
      assert (cls' = cls) by (apply kts_get in I, I'; congruence). subst.
      destruct cls; cbn in J, J'; intuition congruence.
  Qed.

  (** Without dates the default layout can be discovered. *)
  Lemma default_discoverable : avoids $"[" dir -> avoids $"[" file -> one_class kts ->
    (forall n, ~ In (n, DateField) kts) -> discoverable kts (default_file dir kts file).
  Proof.
    intros Gd Gf U D. split; [apply default_path_template|]. split; [apply default_separated|].
    split; [apply default_covers|]. split; [|split; [|exact U]].
    - intros h I. apply in_default_hole in I. destruct I as [->|I]; [reflexivity|].
      apply in_layout_hole in I. destruct I as (n & cls & c & spec & I & J & ->).
      destruct cls; [now apply D in I| |]; cbn in J; destruct J as [E|[]]; inversion E; reflexivity.
    - intros s I. unfold default_file in I. cbn [In] in I. rewrite in_app_iff in I. cbn [In] in I.
      destruct I as [E|[I|[E|[E|[E|[]]]]]]; try discriminate.
      + inversion E; subst. exact Gd.
      + destruct (in_layout_lit kts s I) as [->|(n & cls & c & spec & I' & J & ->)].
        * repeat constructor; cbn; intuition discriminate.
        * destruct (proj2 N n cls I') as (W & _). apply word_avoids in W.
          destruct (default_spec_ok cls c spec J) as (_ & _ & A).
          unfold avoids in *. rewrite !Forall_app.
          split; [eapply Forall_impl; [|exact W]; intros a Ha Hb; apply Ha; cbn in *; tauto|].
          split; [repeat constructor; cbn; intuition discriminate|].
          rewrite Forall_app in A. destruct A as [A1 A2].
          split; (eapply Forall_impl; [|eassumption]; intros a Ha Hb; apply Ha; cbn in *; tauto).
      + inversion E. repeat constructor; cbn; intuition discriminate.
      + inversion E. constructor; [cbn; intuition discriminate|exact Gf].
  Qed.
End DefaultFile.

(** * The classes of parsed keys *)

Lemma extract_inv : forall kts path spec fp key, extract_placeholders kts path spec = Ok (fp, key) ->
  (forall n, dmem str_eqb key n = dmem str_eqb kts n) /\
  (key = [] \/ exists last cls, dget str_eqb kts last = Some cls /\ forall n f, In (n, f) key -> class_of f = cls /\ field_ok f).
Proof.
  intros kts path spec fp key E. unfold extract_placeholders in E.
  destruct (compile_ok _ _); [|discriminate]. destruct (pmatch _ _ _) as [named|]; [|discriminate].
  destruct (fold_left _ named _) as [x|e]; [|discriminate]. cbn [bind] in E.
  destruct (build_key kts x) as [k|e] eqn:B; [|discriminate]. cbn [bind] in E.
  destruct (same_names k kts) eqn:S; [|discriminate]. inversion E; subst; clear E. split.
  - unfold same_names in S. apply andb_true_iff in S. destruct S as [S1 S2]. rewrite forallb_forall in S1, S2.
    intro n. apply Bool.eq_iff_eq_true. unfold dmem. split; intro H.
    + destruct (dget str_eqb key n) as [f|] eqn:G; [|discriminate].
      apply (dget_In str_eqb str_eqb_spec) in G. apply (S1 _ G).
    + destruct (dget str_eqb kts n) as [f|] eqn:G; [|discriminate].
      apply (dget_In str_eqb str_eqb_spec) in G. apply (S2 _ G).
  - unfold build_key in B. destruct (dget str_eqb kts (x_last x)) as [cls|] eqn:G.
    + right. exists (x_last x), cls. split; [exact G|]. apply Base_Proofs.mapM_Forall2 in B.
      clear -B. induction B as [|fc [n f] l l' H B IH]; intros n' f' I; [destruct I|].
      destruct I as [E|I]; [|now apply IH with n']. inversion E; subst.
      destruct (from_components cls (snd fc)) as [g|e] eqn:Fc; [|discriminate]. cbn in H. inversion H; subst.
      now apply parsed_valid in Fc.
    + left. destruct (x_comps x) as [|c l]; cbn in B; [now inversion B|discriminate].
Qed.

Lemma one_class_typed : forall kts path spec fp key, one_class kts ->
  extract_placeholders kts path spec = Ok (fp, key) ->
  forall n f, dget str_eqb key n = Some f -> field_ok f /\ dget str_eqb kts n = Some (class_of f).
Proof.
  intros kts path spec fp key U E n f G. apply extract_inv in E. destruct E as [M [->|(last & cls & Gl & C)]]; [discriminate|].
  assert (I := dget_In str_eqb str_eqb_spec _ _ _ G). destruct (C n f I) as [Ec Ok]. split; [exact Ok|].
  specialize (M n). unfold dmem in M. rewrite G in M. destruct (dget str_eqb kts n) as [c|] eqn:Gn; [|discriminate].
  rewrite (U n last c cls Gn Gl). now rewrite Ec.
Qed.

Lemma mixed_never_typed : forall kts path spec fp key n n' c c',
  dget str_eqb kts n = Some c -> dget str_eqb kts n' = Some c' -> c <> c' ->
  extract_placeholders kts path spec = Ok (fp, key) ->
  exists m f, dget str_eqb key m = Some f /\ dget str_eqb kts m <> Some (class_of f).
Proof.
  intros kts path spec fp key n n' c c' G G' D E. apply extract_inv in E. destruct E as [M [->|(last & cls & Gl & C)]].
  - specialize (M n). unfold dmem in M. cbn in M. rewrite G in M. discriminate.
  - assert (X : exists m cm, dget str_eqb kts m = Some cm /\ cm <> cls).
    { destruct c as [|w|] eqn:Ec, cls as [|w'|] eqn:El; try (exists n, c; rewrite Ec; split; [exact G|discriminate]).
      - exists n', c'. split; [exact G'|congruence].
      - destruct w, w'; try (exists n, (IntField W8); split; [exact G|discriminate]);
          try (exists n, (IntField W16); split; [exact G|discriminate]);
          try (exists n, (IntField W32); split; [exact G|discriminate]);
          try (exists n, (IntField W64); split; [exact G|discriminate]);
          exists n', c'; (split; [exact G'|congruence]).
      - exists n', c'. split; [exact G'|congruence]. }
    destruct X as (m & cm & Gm & Dm). specialize (M m). unfold dmem in M. rewrite Gm in M.
    destruct (dget str_eqb key m) as [f|] eqn:Gf; [|discriminate]. exists m, f. split; [exact Gf|].
    assert (I := dget_In str_eqb str_eqb_spec _ _ _ Gf). destruct (C m f I) as [Ec _]. congruence.
Qed.

(** * Partitions sharing a path *)

Section Injective.
  Context (other : cvalue -> str -> result str).

  Lemma partition_fields_get : forall st fp key p n s, generate_partition other st fp key = Ok p ->
    dget str_eqb (s_fields st) n = Some (Some s) ->
    exists path, dget str_eqb (p_fields p) n = Some (Some path) /\ generate_path other fp key s = Ok path.
  Proof.
    intros st fp key p n s G D. apply generate_inv in G. destruct G as (kts & _ & _ & _ & _ & _ & _ & F).
    induction F as [|[m v] [m' v'] l l' [En Hv] F IH]; [discriminate|]. cbn [fst snd] in *. subst m'.
    cbn [dget] in *. destruct (str_eqb m n); [|now apply IH]. inversion D; subst v.
    destruct Hv as (path & Hp & ->). exists path. auto.
  Qed.

  Lemma partition_injective : forall st kts n t fp1 key1 p1 fp2 key2 p2,
    s_key_types st = Some kts -> dget str_eqb (s_fields st) n = Some (Some (print t)) ->
    template_ok t -> fillable [($"input_fingerprint", [])] t ->
    path_template kts (unindex t) -> separated kts (unindex t) -> covers kts (unindex t) ->
    (includes_fp st = true -> asks_fp t) -> key_ok kts key1 -> key_ok kts key2 ->
    generate_partition other st fp1 key1 = Ok p1 -> generate_partition other st fp2 key2 = Ok p2 ->
    dget str_eqb (p_fields p1) n = dget str_eqb (p_fields p2) n ->
    fp1 = fp2 /\ same_key key1 key2.
  Proof.
    intros st kts n t fp1 key1 p1 fp2 key2 p2 K D O F P S C A K1 K2 G1 G2 E.
    assert (I : includes_fp st = true <-> asks_fp t).
    { split; [exact A|]. intro At. unfold includes_fp. apply existsb_exists. exists (n, Some (print t)).
      split; [now apply (dget_In str_eqb str_eqb_spec)|]. cbn [snd]. now apply contains_fp. }
    assert (X : forall fp key p, generate_partition other st fp key = Ok p -> asks_fp (unindex t) <-> fp <> None).
    { intros fp key p G. apply generate_inv in G. destruct G as (_ & _ & _ & Hf & _). rewrite Hf, I. now apply asks_unindex. }
    destruct (partition_fields_get _ _ _ _ _ _ G1 D) as (path1 & D1 & Q1).
    destruct (partition_fields_get _ _ _ _ _ _ G2 D) as (path2 & D2 & Q2).
    assert (path1 = path2) by congruence. subst path2.
    eapply (path_injective other kts t fp1 key1 fp2 key2 path1); eauto.
  Qed.

  Lemma default_injective : forall dir kts file fp1 key1 p1 fp2 key2 p2, names_ok kts ->
    avoids $"{}" dir -> avoids $"{}" file -> key_ok kts key1 -> key_ok kts key2 ->
    let st := local_file (dir ++ partition_key_spec kts ++ $"/{input_fingerprint}/" ++ file) kts in
    generate_partition other st fp1 key1 = Ok p1 -> generate_partition other st fp2 key2 = Ok p2 ->
    dget str_eqb (p_fields p1) $"path" = dget str_eqb (p_fields p2) $"path" ->
    fp1 = fp2 /\ same_key key1 key2.
  Proof.
    intros dir kts file fp1 key1 p1 fp2 key2 p2 N Hd Hf K1 K2 st G1 G2 E.
    set (t := default_file dir kts file).
    assert (Ep : print t = dir ++ partition_key_spec kts ++ $"/{input_fingerprint}/" ++ file).
    { unfold t, default_file. cbn [print flat_map print_tok]. unfold print. cbn [flat_map print_tok].
      rewrite flat_map_app. cbn [flat_map print_tok]. rewrite <- (layout_text kts) by apply N.
      unfold print. cbn. now rewrite app_nil_r. }
    assert (P := default_path_template kts dir file N Hd Hf). fold t in P.
    assert (O := path_template_ok kts t P). assert (Eu := path_unindex kts t P).
    eapply (partition_injective st kts $"path" t); try eassumption; rewrite ?Eu; try assumption.
    - reflexivity.
    - unfold st. cbn [local_file s_fields dget]. change (str_eqb $"path" $"path") with true. cbn iota. now rewrite Ep.
    - intros h I M. apply in_default_hole in I. destruct I as [->|I]; [split; reflexivity|].
      apply in_layout_hole in I. destruct I as (n & cls & c & spec & I & J & ->). cbn [h_name] in M.
      exfalso. destruct (proj2 N n cls I) as (_ & _ & F). unfold dmem in M. cbn [dget] in M.
      destruct (str_eqb $"input_fingerprint" n) eqn:Es; [|discriminate]. apply str_eqb_spec in Es. congruence.
    - apply default_separated; assumption.
    - apply default_covers; assumption.
    - intros _. apply default_asks.
  Qed.
End Injective.
