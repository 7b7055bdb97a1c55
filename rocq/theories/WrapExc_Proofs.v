From Coq Require Import String List Bool.
From Verif Require Import Str WrapExc_Model WrapExc_Spec.
Import ListNotations.


Section WrapExc.
  Context {cls : Type} (issub : cls -> cls -> bool) (show : cls -> str -> str).
  Notation nest := (nest issub show).

  Lemma nest_cons : forall A t p ctxs (o : outcome A),
    nest ((t, p) :: ctxs) o = wrap_exc issub show t p (nest ctxs o).
  Proof. reflexivity. Qed.

  Lemma nest_returned : forall A ctxs (a : A), nest ctxs (Returned a) = Returned a.
  Proof. intros A ctxs a. induction ctxs as [|[t p] ctxs IH]; [reflexivity|]. rewrite nest_cons, IH. reflexivity. Qed.

  Lemma nest_other : forall A ctxs e,
    (forall t p, In (t, p) ctxs -> issub (exc_class e) t = false) ->
    nest ctxs (@Raised cls A e) = Raised e.
  Proof.
    intros A ctxs e. induction ctxs as [|[t p] ctxs IH]; intro H; [reflexivity|].
    rewrite nest_cons, IH by (intros; eapply H; right; eassumption).
    cbn. rewrite (H t p) by (left; reflexivity). reflexivity.
  Qed.

  (** Contexts of type [t] interleaved with contexts that catch neither the error
      nor [t]. *)
  Lemma nest_mixed : forall A t e ctxs,
    issub (exc_class e) t = true -> issub t t = true -> (forall m, show t m = m) -> original e ->
    (forall u p, In (u, p) ctxs -> u = t \/ (issub (exc_class e) u = false /\ issub t u = false)) ->
    forall mine : cls -> bool, (forall u, mine u = true <-> u = t) ->
    nest ctxs (@Raised cls A e) =
    match filter (fun c => mine (fst c)) ctxs with
    | [] => Raised e
    | l => Raised (Exc t (List.concat (map snd l) ++ $" - " ++ exc_text e) true (Some e))
    end.
  Proof.
    intros A t e ctxs He Ht Hs Ho Hc mine Hm.
    induction ctxs as [|[u p] ctxs IH]; [reflexivity|].
    assert (IH' := IH (fun u p H => Hc u p (or_intror H))). clear IH.
    rewrite nest_cons, IH'. cbn [filter fst].
    destruct (Hc u p (or_introl eq_refl)) as [-> | [N1 N2]].
    - rewrite (proj2 (Hm t) eq_refl).
      destruct (filter (fun c => mine (fst c)) ctxs) as [|[u q] l].
      + cbn. rewrite He. destruct Ho as [Ho | Ho]; rewrite Ho.
        * rewrite Hs, app_nil_r. reflexivity.
        * destruct (exc_wrapped e); rewrite Hs, app_nil_r; reflexivity.
      + cbn. rewrite Ht. rewrite Hs. rewrite <- !app_assoc. reflexivity.
    - assert (mine u = false) as ->.
      { destruct (mine u) eqn:E; [|reflexivity]. apply Hm in E. subst. congruence. }
      destruct (filter (fun c => mine (fst c)) ctxs) as [|[u' q] l]; cbn.
      + now rewrite N1.
      + now rewrite N2.
  Qed.


  Lemma nest_chain : forall A e t p ctxs,
    (forall u m q, In (u, q) ((t, p) :: ctxs) -> show u m = m) -> original e ->
    catches issub e ((t, p) :: ctxs) ->
    nest ((t, p) :: ctxs) (@Raised cls A e) =
    Raised (Exc t (List.concat (map snd ((t, p) :: ctxs)) ++ $" - " ++ exc_text e) true (Some e)).
  Proof.
    intros A e t p ctxs. revert t p.
    induction ctxs as [|[u q] ctxs IH]; intros t p Hs Ho Hc.
    - cbn in *. rewrite Hc. rewrite app_nil_r.
      assert (Hs' : forall m, show t m = m) by (intro m; apply (Hs t m p); left; reflexivity).
      destruct Ho as [Ho | Ho]; rewrite Ho; [|destruct (exc_wrapped e)]; rewrite Hs'; reflexivity.
    - destruct Hc as [Hc1 Hc2].
      rewrite nest_cons, IH; [|intros v m r H; apply (Hs v m r); right; exact H|exact Ho|exact Hc2].
      cbn [wrap_exc exc_class]. rewrite Hc1. cbn [exc_wrapped exc_cause exc_text].
      rewrite (Hs t _ p) by (left; reflexivity).
      cbn [map snd concat]. rewrite <- !app_assoc. reflexivity.
  Qed.
End WrapExc.
