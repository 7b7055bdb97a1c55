(** The readers and writers with the JSON codec. *)
From Coq Require Import ZArith NArith List Ascii String Bool Lia.
From Verif Require Import Base Str Str_Proofs Base_Proofs Types_Model IO_Model IO_Spec IO_Proofs Json_Model Json_Spec Json_Text_Proofs Json_Codec_Proofs
  Json_Prefix_Proofs Json_Exact_Proofs.
Import ListNotations.
Open Scope list_scope.

Section JsonIO.
  Context {fl : floats} (Laws : float_laws fl) (pl : str -> result (value fl)) (pd : value fl -> result str) (pw : value fl -> str)
    (content_fp : place -> str -> Z).
  Notation value := (value fl).
  Notation read := (read_as pl).
  Notation write := (write_as pd pw content_fp).

  Lemma write_loads : forall w (d : value) p w' z q, all_texts unicode d -> faithful d ->
    write w d JSON p PythonBuiltin = (w', Ok (z, q)) -> holds (decode pl) w' JSON q d /\ same_place p q.
  Proof.
    intros w d p w' z q U Fa H. unfold write_as in H.
    destruct (written_read (decode pl) _ _ _ _ _ _ _ _ _ _ _ H) as (c & D & C & _ & S & L). split; [|exact S]. apply L.
    destruct (kept Laws d U Fa) as (c' & D' & L'). cbn in D. rewrite D in D'. injection D' as <-. exact L'.
  Qed.
  Lemma json_implemented : forall p, implemented JSON p PythonBuiltin = true.
  Proof. intros [?|?|? [?|]]; reflexivity. Qed.

  Lemma json_written : forall w (d : value) p, all_texts unicode d -> faithful d -> (forall id x, p <> LiteralPart id (Some x)) ->
    exists w' z q, write w d JSON p PythonBuiltin = (w', Ok (z, q)) /\ same_place p q /\
      forall t, is_partitioned t = Ok false -> read w' t JSON [q] PythonBuiltin = Ok d.
  Proof.
    intros w d p U Fa N. destruct (kept Laws d U Fa) as (c & D & _).
    destruct (written_ok (encode pd) (remains pw) content_fp w d JSON p PythonBuiltin c (json_implemented p) D N) as (w' & z & q & W).
    exists w', z, q. split; [exact W|]. destruct (write_loads _ _ _ _ _ _ U Fa W) as [H S]. split; [exact S|].
    intros t P. apply read_single; [exact P|apply json_implemented|exact H].
  Qed.

  Lemma apart_same : forall p q q', apart p q -> same_place q q' -> apart p q'.
  Proof. intros [?|?|? ?] [?|?|? ?] [?|?|? ?] A S; cbn in *; try exact I; try discriminate S; try (injection S as <-; exact A). Qed.
  Lemma kind_same : forall p q p' q', same_kind p q = true -> same_place p p' -> same_place q q' -> same_kind p' q' = true.
  Proof. intros [?|?|? ?] [?|?|? ?] [?|?|? ?] [?|?|? ?] K S S'; cbn in *; congruence. Qed.

  Lemma json_partitions : forall t w pds w' qs ls, is_partitioned t = Ok true -> pds <> [] ->
    writes (fun w d p => write w d JSON p PythonBuiltin) w pds w' qs ->
    Forall2 (fun pd l => snd pd = VList l /\ faithful (snd pd) /\ all_texts unicode (snd pd)) pds ls ->
    ForallOrdPairs (fun a b => apart (fst b) (fst a) /\ same_kind (fst a) (fst b) = true) pds ->
    read w' t JSON qs PythonBuiltin = Ok (VList (List.concat ls)).
  Proof.
    intros t w pds w' qs ls P Ne W F O.
    assert (H : Forall2 (fun q l => holds (decode pl) w' JSON q (VList l)) qs ls /\ Forall2 (fun pd q => same_place (fst pd) q) pds qs).
    { clear P Ne. revert ls F O. induction W as [w|w p d w1 z q rest w' qs Wp W IH]; intros ls F O.
      - inversion F; subst. split; constructor.
      - inversion F as [|? l ? ls' (E & Fa & U) F']; subst. inversion O as [|? ? Oa Or]; subst. cbn [snd fst] in *.
        destruct (IH _ F' Or) as [H1 H2]. subst d. destruct (write_loads _ _ _ _ _ _ U Fa Wp) as [Hq Sq].
        split; constructor; try assumption.
        (* what is written later leaves [q] alone *)
        assert (Keep : forall c, contains w1 q c -> contains w' q c).
        { clear -W Oa Sq. induction W as [w1|w1 p' d w2 z' q' rest w' qs Wp' W IHw]; intros c C; [exact C|].
          inversion Oa as [|? ? [A _] Oa']; subst. cbn [fst] in A. apply IHw; [exact Oa'|].
          refine (proj2 (others_kept (encode pd) (remains pw) content_fp _ _ _ _ _ _ _ q Wp' _ c) C). eapply apart_same; eassumption. }
        destruct Hq as (c & C & L). exists c. split; [apply Keep; exact C|exact L]. }
    destruct H as [H S]. apply read_partitions; [exact P| |].
    - destruct pds as [|[p d] pds]; [congruence|]. inversion S as [|? q ? qs' Sp S']; subst. split; [apply json_implemented|].
      inversion O as [|? ? Oa _]; subst. intros q' I. clear -S' Oa Sp I. cbn [fst] in *.
      induction S' as [|[p' d'] q0 pds qs' Sq S' IH]; [destruct I|]. inversion Oa as [|? ? [_ K] Oa']; subst. cbn [fst] in *.
      destruct I as [<-|I]; [eapply kind_same; eassumption|auto].
    - exists ls. split; [|reflexivity]. clear -H. induction H as [|q l qs ls Hq H IH]; constructor; [|exact IH]. exists (VList l). split; [exact Hq|reflexivity].
  Qed.

  Lemma json_failed : forall w (d : value) p, all_texts unicode d -> ~ encodable d -> (forall id v, p <> LiteralPart id v) ->
    exists w', write w d JSON p PythonBuiltin = (w', Err TypeError) /\
      forall t b, is_partitioned t = Ok b -> read w' t JSON [p] PythonBuiltin = Err ValueError.
  Proof.
    intros w d p U N Nl. pose proof (proj1 (dumps_fails d) N) as D. pose proof (left_behind_unread Laws d U N) as L.
    assert (R : forall w', stored w' p = Ok (left_behind d) -> forall t b, is_partitioned t = Ok b -> read w' t JSON [p] PythonBuiltin = Err ValueError).
    { intros w' S t b P. unfold read_as, io_read. cbn [bind forallb negb]. rewrite json_implemented. unfold reader. rewrite P. cbn [bind].
      unfold read_one. cbn [mapM]. rewrite S. cbn [bind decode]. rewrite L. destruct b; reflexivity. }
    unfold write_as, io_write. rewrite json_implemented. destruct p as [path|path|id v]; [..|destruct (Nl _ _ eq_refl)]; cbn [writer encode remains]; rewrite D.
    - eexists. split; [reflexivity|]. intros t b P. refine (R _ _ t b P). cbn. rewrite (dget_dset_same _ str_eqb_spec). reflexivity.
    - eexists. split; [reflexivity|]. intros t b P. refine (R _ _ t b P). cbn. rewrite (dget_dset_same _ str_eqb_spec). reflexivity.
  Qed.
End JsonIO.

(** A collection partitioned by dates is not kept. *)
Lemma dates_not_kept : forall name row fields rm partition_by cluster_by m f dm, In f partition_by -> In (f, Scalar Date dm) fields ->
  ~ json_type (Collection name (Struct row fields rm) partition_by cluster_by m).
Proof.
  intros name row fields rm pb cb m f dm _ I J. inversion J as [| | | | | | |? ? ? ? ? Je| |]; subst. inversion Je as [| | | | | | | | |? ? ? Jf]; subst.
  specialize (Jf _ _ I). inversion Jf.
Qed.

Lemma types_iff : forall fl, float_laws fl -> inhabited (F fl) -> forall t, hinted t ->
  (json_type t <-> forall v : value fl, instance t v -> all_texts clean v -> exists c, dumps v = Ok c /\ loads c = Ok v).
Proof.
  intros fl Laws Fi t Ht.
  assert (W : forall v : value fl, all_texts clean v -> all_texts unicode v /\ all_texts unpaired v).
  { apply (value_nested_ind (fun v => all_texts clean v -> all_texts unicode v /\ all_texts unpaired v)); try (intros; split; constructor; fail).
    - intros s C. inversion C as [| | | |? [A B]| | | | | | |]; subst. split; constructor; assumption.
    - intros l IH C. inversion C; subst. split; constructor; intros x I; apply IH; auto.
    - intros l IH C. inversion C; subst. split; constructor; intros x I; apply IH; auto.
    - intros kvs IH C. inversion C as [| | | | | | |? A| | | |]; subst. split; constructor; intros k x I; destruct (A k x I), (IH k x I); split; tauto.
    - intros b l IH C. inversion C; subst. split; constructor; intros x I; apply IH; auto. }
  split.
  - intros J v I C. destruct (W v C) as [U P]. apply (kept Laws); [exact U|]. exact (json_type_faithful t J Ht v I P).
  - intro A. apply (faithful_json_type Fi t Ht). intros v I C. destruct (W v C) as [U P]. apply (kept_iff Laws v U). exact (A v I C).
Qed.

Lemma dated_rows_refused : forall fl name row fields rm partition_by cluster_by m f dm (r : value fl) rest,
  In (f, Scalar Date dm) fields -> nullable rm = false -> nullable dm = false ->
  instance (Collection name (Struct row fields rm) partition_by cluster_by m) (VList (r :: rest)) ->
  dumps (VList (r :: rest)) = Err TypeError.
Proof.
  intros fl name row fields rm pb cb m f dm r rest I Nr Nd H. apply dumps_fails. intro E.
  inversion H as [| | | | | | | | | | |? ? ? ? ? ? A| | |]; subst. specialize (A r (or_introl eq_refl)).
  inversion E as [| | | | |? Al| |]; subst. specialize (Al r (or_introl eq_refl)).
  inversion A as [? X| | | | | | | | | | | | | |? ? ? kvs F2]; subst; [unfold is_nullable in X; cbn [meta_of] in X; congruence|].
  inversion Al as [| | | | | | |? _ Ax]; subst. revert I. clear -F2 Ax Nd. induction F2 as [|[g t] [k x] fields kvs [_ Ix] F2 IH]; [intros []|]; intros [E|I].
  - injection E as -> ->. cbn [snd fst] in Ix. specialize (Ax k x (or_introl eq_refl)). inversion Ix; subst; [match goal with X : is_nullable _ = true |- _ => unfold is_nullable in X; cbn [meta_of] in X; congruence end|]. inversion Ax.
  - apply IH; [|exact I]. intros k0 x0 I0. apply (Ax k0 x0). right. exact I0.
Qed.

Lemma dumps_injective : forall fl, float_laws fl -> forall v w : value fl, all_texts unicode v -> all_texts unicode w -> faithful v -> faithful w ->
  dumps v = dumps w -> v = w.
Proof.
  intros fl Laws v w Uv Uw Fv Fw E. destruct (kept Laws v Uv Fv) as (c & D & L). destruct (kept Laws w Uw Fw) as (c' & D' & L'). congruence.
Qed.
