From Coq Require Import ZArith NArith List Ascii String Bool Lia.
From Verif Require Import Base Base_Proofs Str Str_Proofs Numerals_Model Partitions_Model
  Format_Model Template_Spec.
Import ListNotations.
Open Scope list_scope.

Lemma avoids_app : forall bad a b, avoids bad (a ++ b) <-> avoids bad a /\ avoids bad b.
Proof. intros. apply Forall_app. Qed.

Lemma avoids_cons : forall bad c s, avoids bad (c :: s) <-> ~ In c bad /\ avoids bad s.
Proof. intros. split; [intro H; inversion H; auto|intros []; constructor; auto]. Qed.

Lemma avoids_weak : forall bad bad' s, (forall c, In c bad' -> In c bad) -> avoids bad s -> avoids bad' s.
Proof. intros bad bad' s W A. eapply Forall_impl; [|exact A]. cbn. auto. Qed.

Lemma not_char : forall (c d : ascii) bad, ~ In c bad -> In d bad -> Ascii.eqb c d = false.
Proof. intros c d bad N I. apply Ascii.eqb_neq. intros ->. auto. Qed.

Ltac nc N := match type of N with ~ In ?c ?bad =>
  repeat match goal with |- context [Ascii.eqb c ?d] =>
    rewrite (not_char c d bad N) by (cbn; tauto) end end.

(** Literal text. *)
Lemma parse_lit : forall s acc r, avoids $"{}" s ->
  parse_from (SLit acc) (s ++ r) = parse_from (SLit (rev s ++ acc)) r.
Proof.
  induction s as [|c s IH]; intros acc r A; [reflexivity|].
  apply avoids_cons in A. destruct A as [N A]. cbn [app parse_from]. nc N.
  rewrite IH by exact A. cbn [rev]. now rewrite <- app_assoc.
Qed.

(** Field names. *)
Lemma parse_name : forall s acc r, avoids $"{}[:!" s ->
  parse_from (SName acc) (s ++ r) = parse_from (SName (rev s ++ acc)) r.
Proof.
  induction s as [|c s IH]; intros acc r A; [reflexivity|].
  apply avoids_cons in A. destruct A as [N A]. cbn [app parse_from]. nc N.
  rewrite IH by exact A. cbn [rev]. now rewrite <- app_assoc.
Qed.

Lemma parse_brack : forall s acc r, avoids $"]" s ->
  parse_from (SBrack acc) (s ++ "]"%char :: r) = parse_from (SName ("]"%char :: rev s ++ acc)) r.
Proof.
  induction s as [|c s IH]; intros acc r A; [reflexivity|].
  apply avoids_cons in A. destruct A as [N A]. cbn [app parse_from]. nc N.
  rewrite IH by exact A. cbn [rev]. now rewrite <- app_assoc.
Qed.

Lemma parse_acc : forall a acc r, acc_ok a ->
  parse_from (SName acc) (print_acc a ++ r) = parse_from (SName (rev (print_acc a) ++ acc)) r.
Proof.
  intros [n|k] acc r OK.
  - apply parse_name. cbn [print_acc]. apply avoids_app. split.
    + constructor; [cbn; intuition discriminate|constructor].
    + eapply avoids_weak; [|apply OK]. cbn. tauto.
  - cbn [print_acc]. change ($"[" ++ k ++ $"]") with ("["%char :: k ++ ["]"%char]).
    change (("["%char :: k ++ ["]"%char]) ++ r) with ("["%char :: ((k ++ ["]"%char]) ++ r)).
    rewrite <- app_assoc. cbn [app].
    cbn [parse_from]. change ("[" =c "{") with false. change ("[" =c "[") with true. cbn iota.
    rewrite parse_brack.
    + cbn [rev]. rewrite rev_app_distr. cbn [rev app]. now rewrite <- app_assoc.
    + eapply avoids_weak; [|apply OK]. cbn. tauto.
Qed.

Lemma parse_accs : forall accs acc r, Forall acc_ok accs ->
  parse_from (SName acc) (flat_map print_acc accs ++ r) =
  parse_from (SName (rev (flat_map print_acc accs) ++ acc)) r.
Proof.
  induction accs as [|a accs IH]; intros acc r F; [reflexivity|].
  inversion F; subst. cbn [flat_map]. rewrite <- app_assoc, parse_acc, IH by assumption.
  now rewrite rev_app_distr, <- app_assoc.
Qed.

Lemma parse_spec_text : forall s name conv acc r, avoids $"{}" s ->
  parse_from (SSpec name conv acc 0) (s ++ "}"%char :: r) =
  IField name (rev acc ++ s) conv :: parse_from (SLit []) r.
Proof.
  induction s as [|c s IH]; intros name conv acc r A.
  - cbn. now rewrite app_nil_r.
  - apply avoids_cons in A. destruct A as [N A]. cbn [app parse_from]. nc N.
    rewrite IH by exact A. cbn [rev]. now rewrite <- app_assoc.
Qed.

Lemma parse_hole : forall h acc r, hole_ok h ->
  parse_from (SLit acc) (print_hole h ++ r) =
  ILit (rev acc) :: IField (h_name h ++ flat_map print_acc (h_accs h)) (h_spec h) None
    :: parse_from (SLit []) r.
Proof.
  intros [name accs spec] acc r ((N1 & N2 & N3) & A & S). cbn [h_name h_accs h_spec] in *.
  unfold print_hole. cbn [h_name h_accs h_spec].
  change ($"{" ++ ?x) with ("{"%char :: x). cbn [app parse_from].
  change ("{" =c "{") with true. cbn iota.
  destruct name as [|c name]; [congruence|].
  assert (O : forall rest, parse_from (SOpen acc) ((c :: name) ++ rest) =
              ILit (rev acc) :: parse_from (SName []) ((c :: name) ++ rest)).
  { intro rest. apply avoids_cons in N3. destruct N3 as [Nc _]. cbn [app parse_from]. nc Nc. reflexivity. }
  rewrite <- !app_assoc, O. f_equal.
  rewrite parse_name by (eapply avoids_weak; [|exact N3]; cbn; tauto).
  rewrite parse_accs by exact A. rewrite app_nil_r, <- rev_app_distr.
  destruct spec as [|d spec].
  - cbn [app S_ list_ascii_of_string parse_from].
    change ("}" =c "{") with false. change ("}" =c "[") with false. change ("}" =c "}") with true.
    cbn iota. now rewrite rev_involutive.
  - change (($":" ++ d :: spec) ++ $"}" ++ r) with (":"%char :: (d :: spec) ++ "}"%char :: r).
    cbn [parse_from].
    change (":" =c "{") with false. change (":" =c "[") with false. change (":" =c "}") with false.
    change (":" =c ":") with true. cbn iota. rewrite rev_involutive.
    now rewrite parse_spec_text by exact S.
Qed.

(** Field names are taken apart again. *)
Lemma first_of_name : forall n r, avoids $"{}[].:!" n ->
  match r with c :: _ => (c =c ".") || (c =c "[") = true | [] => True end ->
  first_of (n ++ r) = (n, r).
Proof.
  induction n as [|c n IH]; intros r A H.
  - destruct r as [|c r]; [reflexivity|]. cbn. now rewrite H.
  - apply avoids_cons in A. destruct A as [N A]. cbn [app first_of].
    nc N. cbn [orb]. now rewrite IH.
Qed.

Lemma accessors_attr : forall n acc r, avoids $"{}[].:!" n -> n <> [] \/ acc <> [] ->
  match r with c :: _ => (c =c ".") || (c =c "[") = true | [] => True end ->
  accessors_from (AAttr acc) (n ++ r) = option_map (cons (Attr (rev acc ++ n))) (accessors_from AStart r).
Proof.
  induction n as [|c n IH]; intros acc r A NE H.
  - destruct NE as [NE|NE]; [congruence|]. rewrite app_nil_r. destruct r as [|c r].
    + cbn. destruct acc; [congruence|reflexivity].
    + cbn [app accessors_from]. rewrite H. destruct acc as [|x acc]; [congruence|].
      destruct (c =c ".") eqn:D; [reflexivity|]. cbn [orb] in H. now rewrite H.
  - apply avoids_cons in A. destruct A as [N A]. cbn [app accessors_from].
    nc N. cbn [orb]. rewrite IH; [|exact A|right; discriminate|exact H].
    cbn [rev]. now rewrite <- app_assoc.
Qed.

Lemma accessors_idx : forall k acc r, avoids $"]" k -> k <> [] \/ acc <> [] ->
  accessors_from (AIdx acc) (k ++ "]"%char :: r) =
  option_map (cons (Idx (rev acc ++ k))) (accessors_from AStart r).
Proof.
  induction k as [|c k IH]; intros acc r A NE.
  - destruct NE as [NE|NE]; [congruence|]. cbn. destruct acc; [congruence|]. now rewrite app_nil_r.
  - apply avoids_cons in A. destruct A as [N A]. cbn [app accessors_from]. nc N.
    rewrite IH; [|exact A|right; discriminate]. cbn [rev]. now rewrite <- app_assoc.
Qed.

Lemma print_acc_head : forall accs,
  match flat_map print_acc accs with c :: _ => (c =c ".") || (c =c "[") = true | [] => True end.
Proof. intros [|[n|k] accs]; cbn; auto. Qed.

Lemma accessors_print : forall accs, Forall acc_ok accs ->
  accessors_from AStart (flat_map print_acc accs) = Some accs.
Proof.
  induction accs as [|a accs IH]; intro F; [reflexivity|]. inversion F as [|? ? OK F']; subst.
  cbn [flat_map]. destruct a as [n|k].
  - cbn [print_acc]. change (($"." ++ n) ++ ?r) with ("."%char :: n ++ r).
    cbn [accessors_from]. change ("." =c ".") with true. cbn iota.
    destruct OK as (N1 & N2 & N3).
    rewrite accessors_attr; [|exact N2|now left|apply print_acc_head]. rewrite IH by exact F'. reflexivity.
  - cbn [print_acc]. change (($"[" ++ k ++ $"]") ++ ?r) with ("["%char :: (k ++ ["]"%char]) ++ r).
    rewrite <- app_assoc. cbn [app]. cbn [accessors_from].
    change ("[" =c ".") with false. change ("[" =c "[") with true. cbn iota.
    destruct OK as (N1 & N2 & N3).
    rewrite accessors_idx; [|eapply avoids_weak; [|exact N2]; cbn; tauto|now left].
    rewrite IH by exact F'. reflexivity.
Qed.

Lemma field_name_print : forall h, hole_ok h ->
  field_name (h_name h ++ flat_map print_acc (h_accs h)) = Ok (h_name h, h_accs h).
Proof.
  intros [name accs spec] ((N1 & N2 & N3) & A & S). cbn [h_name h_accs h_spec] in *.
  unfold field_name. rewrite first_of_name by (exact N3 || apply print_acc_head).
  destruct name as [|c name]; [congruence|]. now rewrite N2, accessors_print.
Qed.

(** Formatting a template formats its placeholders one by one. *)
Definition eval_tok (render : renderer) (t : tok) : result str :=
  match t with TLit s => Ok s | THole h => render (h_name h) (h_accs h) None (h_spec h) end.

Lemma vformat_plain : forall n render s, avoids $"{}" s -> vformat_at (S n) render s = Ok s.
Proof.
  intros n render s A. cbn [vformat_at]. unfold parse_format.
  rewrite <- (app_nil_r s) at 1. rewrite parse_lit by exact A.
  cbn. rewrite !app_nil_r. now rewrite rev_involutive.
Qed.

Lemma vformat_print_at : forall n render t, template_ok t ->
  vformat_at (S (S n)) render (print t) = rmap (@List.concat ascii) (mapM (eval_tok render) t).
Proof.
  intros n render t OK.
  remember (S n) as m eqn:Hm. cbn [vformat_at]. unfold parse_format.
  set (g := fun it => match it with ILit t => _ | _ => _ end).
  assert (H : forall acc, rmap (@List.concat ascii) (mapM g (parse_from (SLit acc) (print t))) =
              rmap (fun r => rev acc ++ List.concat r) (mapM (eval_tok render) t)).
  { induction OK as [|x t Hx OK IH]; intro acc.
    - cbn. now rewrite app_nil_r.
    - unfold print in *. cbn [flat_map mapM]. destruct x as [s|h].
      + cbn [print_tok eval_tok bind]. rewrite parse_lit by exact Hx. rewrite IH.
        destruct (mapM (eval_tok render) t); [|reflexivity]. cbn.
        now rewrite rev_app_distr, rev_involutive, <- app_assoc.
      + cbn [print_tok]. rewrite parse_hole by exact Hx. cbn [mapM].
        change (g (ILit (rev acc))) with (@Ok str (rev acc)). cbn [bind].
        unfold g at 1. rewrite field_name_print by exact Hx. cbn [bind fst snd].
        subst m. rewrite vformat_plain by apply Hx. cbn [bind eval_tok].
        destruct (render (h_name h) (h_accs h) None (h_spec h)) as [v|e]; [|reflexivity].
        cbn [bind]. specialize (IH []). fold g in IH. cbn [rev app] in IH.
        destruct (mapM g (parse_from (SLit []) (flat_map print_tok t))) as [r|e];
          destruct (mapM (eval_tok render) t) as [r'|e']; cbn in *; try discriminate; congruence. }
  specialize (H []). cbn [rev app] in H. exact H.
Qed.

Lemma vformat_print : forall render t, template_ok t ->
  vformat render (print t) = rmap (@List.concat ascii) (mapM (eval_tok render) t).
Proof. intros. now apply vformat_print_at. Qed.
