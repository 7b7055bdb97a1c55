From Coq Require Import ZArith NArith List Ascii String Bool Lia.
From Verif Require Import Base Base_Proofs Str Str_Proofs Numerals_Model Partitions_Model
  Format_Model Template_Spec Template_Proofs.
Import ListNotations.
Open Scope list_scope.

Section Format.
  Context (other : cvalue -> str -> result str).
  Notation partial_format := (partial_format other).

  Lemma key_text_print : forall a, acc_ok a -> key_text other true a = print_acc a.
  Proof.
    intros [n|k] OK; [reflexivity|]. cbn [key_text print_acc]. destruct OK as (N & _ & C).
    unfold index_value. destruct (all_digits k); [|reflexivity].
    cbn [format_value]. rewrite C by reflexivity. reflexivity.
  Qed.

  Lemma placeholder_print : forall h, hole_ok h ->
    format_placeholder other true (h_name h) (h_accs h) None (h_spec h) = Ok (print_hole h).
  Proof.
    intros [name accs spec] (_ & A & _). cbn [h_name h_accs h_spec] in *.
    unfold format_placeholder, print_hole. cbn [h_name h_accs h_spec].
    assert (E : existsb (fun a => match a with Attr n => own_attribute n | Idx _ => false end) accs = false).
    { induction A as [|a accs OK A IH]; [reflexivity|]. cbn. rewrite IH, orb_false_r.
      destruct a; [apply OK|reflexivity]. }
    rewrite E.
    assert (F : flat_map (key_text other true) accs = flat_map print_acc accs).
    { induction A as [|a accs OK A IH]; [reflexivity|]. cbn [flat_map].
      rewrite key_text_print by exact OK. f_equal. apply IH. cbn in E. now apply orb_false_iff in E. }
    rewrite F. destruct spec; reflexivity.
  Qed.

  Lemma mapM_all : forall {A B} (f : A -> result B) (g : A -> B) l,
    Forall (fun a => f a = Ok (g a)) l -> mapM f l = Ok (map g l).
  Proof.
    intros A B f g l F. induction F as [|a l E F IH]; [reflexivity|]. cbn. now rewrite E, IH.
  Qed.

  Lemma concat_print : forall t, List.concat (map print_tok t) = print t.
  Proof. intro t. unfold print. symmetry. apply flat_map_concat_map. Qed.

  Lemma partial_format_fill : forall t values, template_ok t -> fillable values t ->
    partial_format (print t) values = Ok (print (fill values t)).
  Proof.
    intros t values OK F. unfold partial_format. rewrite vformat_print by exact OK.
    erewrite mapM_all with (g := fun x => print_tok (fill_tok values x)).
    - cbn [rmap]. f_equal. unfold fill. rewrite <- concat_print, map_map. reflexivity.
    - apply Forall_forall. intros x Hin.
      assert (Hx : tok_ok x) by (eapply Forall_forall; [exact OK|exact Hin]).
      destruct x as [s|h]; [reflexivity|]. cbn [eval_tok fill_tok].
      destruct (dget str_eqb values (h_name h)) as [v|] eqn:G.
      + destruct (F h Hin) as [Ea Es]; [unfold dmem; now rewrite G|]. rewrite Ea, Es. reflexivity.
      + now apply placeholder_print.
  Qed.

  Lemma fill_nil : forall t, fill [] t = t.
  Proof. induction t as [|[s|h] t IH]; cbn; [reflexivity| |]; now f_equal. Qed.

  Lemma partial_format_nothing : forall t, template_ok t -> partial_format (print t) [] = Ok (print t).
  Proof.
    intros t OK. rewrite partial_format_fill; [now rewrite fill_nil|exact OK|].
    intros h _ H. discriminate.
  Qed.

  Lemma fill_ok : forall values t, template_ok t -> Forall (fun nv => avoids $"{}" (snd nv)) values ->
    template_ok (fill values t).
  Proof.
    intros values t OK V. apply Forall_map. eapply Forall_impl; [|exact OK].
    intros [s|h] H; [exact H|]. cbn [fill_tok].
    destruct (dget str_eqb values (h_name h)) as [v|] eqn:G; [|exact H].
    apply (dget_In str_eqb str_eqb_spec) in G. rewrite Forall_forall in V. apply (V _ G).
  Qed.

  Lemma fillable_fill : forall a b t, fillable b t -> fillable b (fill a t).
  Proof.
    intros a b t F h Hin. apply in_map_iff in Hin. destruct Hin as (x & E & Hin).
    destruct x as [s|h0]; [discriminate|]. cbn in E. destruct (dget str_eqb a (h_name h0)); [discriminate|].
    inversion E; subst. now apply F.
  Qed.

  Lemma fill_fill : forall a b t, (forall n, dmem str_eqb a n = true -> dmem str_eqb b n = false) ->
    fill b (fill a t) = fill (a ++ b) t /\ fill a (fill b t) = fill (a ++ b) t.
  Proof.
    intros a b t D. unfold fill. rewrite !map_map.
    split; apply map_ext; intros [s|h]; try reflexivity; cbn [fill_tok]; rewrite dget_app;
      specialize (D (h_name h)); unfold dmem in D.
    - destruct (dget str_eqb a (h_name h)); reflexivity.
    - destruct (dget str_eqb b (h_name h)) eqn:B.
      + destruct (dget str_eqb a (h_name h)); [discriminate D; reflexivity|reflexivity].
      + cbn [fill_tok]. destruct (dget str_eqb a (h_name h)); reflexivity.
  Qed.

  Lemma partial_format_order : forall t a b, template_ok t -> fillable a t -> fillable b t ->
    Forall (fun nv => avoids $"{}" (snd nv)) (a ++ b) ->
    (forall n, dmem str_eqb a n = true -> dmem str_eqb b n = false) ->
    bind (partial_format (print t) a) (fun s => partial_format s b) = partial_format (print t) (a ++ b) /\
    bind (partial_format (print t) b) (fun s => partial_format s a) = partial_format (print t) (a ++ b).
  Proof.
    intros t a b OK Fa Fb V D. apply Forall_app in V. destruct V as [Va Vb].
    assert (Fab : fillable (a ++ b) t).
    { intros h Hin H. unfold dmem in H. rewrite dget_app in H.
      specialize (Fa h Hin). specialize (Fb h Hin). unfold dmem in *.
      destruct (dget str_eqb a (h_name h)); auto. }
    destruct (fill_fill a b t D) as [E1 E2].
    rewrite !partial_format_fill by assumption. cbn [bind].
    rewrite !partial_format_fill by (try apply fill_ok; try apply fillable_fill; assumption).
    now rewrite E1, E2.
  Qed.
End Format.
