(** Lemmas about finding and removing placeholders in the text of a template. *)
From Coq Require Import ZArith NArith List Ascii String Bool Lia Arith.
From Verif Require Import Base Base_Proofs Str Str_Proofs Numerals_Model Numerals_Proofs Partitions_Model
  Format_Model Template_Spec Template_Proofs Format_Proofs Storage_Model Storage_Spec.
Import ListNotations.
Open Scope nat_scope.
Open Scope list_scope.

Lemma starts_with_app : forall p s, starts_with p (p ++ s) = true.
Proof. induction p as [|c p IH]; intro s; [reflexivity|]. cbn. now rewrite Ascii.eqb_refl, IH. Qed.

Lemma starts_with_iff : forall p s, starts_with p s = true <-> exists r, s = p ++ r.
Proof.
  induction p as [|c p IH]; intro s.
  - split; [intros _; exists s; reflexivity|reflexivity].
  - destruct s as [|d s]; cbn.
    + split; [discriminate|intros [r E]; discriminate].
    + rewrite andb_true_iff, IH, Ascii.eqb_eq. split.
      * intros [-> [r ->]]. now exists r.
      * intros [r E]. inversion E; subst. split; [reflexivity|now exists r].
Qed.

Lemma avoids_not_in : forall bad s c, avoids bad s -> In c bad -> ~ In c s.
Proof. intros bad s c A I H. unfold avoids in A. rewrite Forall_forall in A. exact (A c H I). Qed.

Lemma app_stop : forall (c : ascii) a b r r', ~ In c a -> ~ In c b ->
  a ++ c :: r = b ++ c :: r' -> a = b /\ r = r'.
Proof.
  intros c. induction a as [|x a IH]; intros [|y b] r r' Na Nb E; inversion E; subst.
  - auto.
  - exfalso. apply Nb. now left.
  - exfalso. apply Na. now left.
  - destruct (IH b r r') as [-> ->]; [intro; apply Na; now right|intro; apply Nb; now right|assumption|auto].
Qed.

(** The text between the braces of a placeholder. *)
Definition hole_body (h : hole) : str :=
  h_name h ++ flat_map print_acc (h_accs h) ++ match h_spec h with [] => [] | s => $":" ++ s end.

Lemma print_hole_body : forall h, print_hole h = "{"%char :: hole_body h ++ ["}"%char].
Proof.
  intros [n a s]. unfold print_hole, hole_body. cbn [h_name h_accs h_spec].
  rewrite <- !app_assoc. reflexivity.
Qed.

Lemma accs_avoid : forall accs, Forall acc_ok accs -> avoids $"{}" (flat_map print_acc accs).
Proof.
  intros accs F. induction F as [|a accs OK F IH]; [constructor|]. cbn [flat_map].
  apply avoids_app. split; [|exact IH]. destruct a as [n|k]; cbn [print_acc].
  - apply avoids_app. split.
    + constructor; [cbn; intuition discriminate|constructor].
    + eapply avoids_weak; [|apply OK]. cbn. tauto.
  - apply avoids_app. split; [constructor; [cbn; intuition discriminate|constructor]|].
    apply avoids_app. split.
    + eapply avoids_weak; [|apply OK]. cbn. tauto.
    + constructor; [cbn; intuition discriminate|constructor].
Qed.

Lemma hole_body_avoid : forall h, hole_ok h -> avoids $"{}" (hole_body h).
Proof.
  intros [n a s] ((N1 & N2 & N3) & A & S). unfold hole_body. cbn [h_name h_accs h_spec] in *.
  apply avoids_app. split; [eapply avoids_weak; [|exact N3]; cbn; tauto|].
  apply avoids_app. split; [now apply accs_avoid|].
  destruct s as [|c s]; [constructor|]. change ($":" ++ c :: s) with (":"%char :: c :: s).
  constructor; [cbn; intuition discriminate|exact S].
Qed.

(** Only the bare placeholder of that name prints as ["{p}"]. *)
Lemma body_is_name : forall h p, hole_ok h -> name_ok p -> hole_body h = p ->
  h = Hole p [] [].
Proof.
  intros [n a s] p ((N1 & N2 & N3) & A & S) (P1 & P2 & P3) E. unfold hole_body in E.
  cbn [h_name h_accs h_spec] in *. destruct a as [|x a].
  - destruct s as [|c s].
    + cbn in E. rewrite app_nil_r in E. now subst.
    + exfalso. assert (H : In ":"%char p).
      { rewrite <- E. apply in_or_app. right. cbn. now left. }
      revert H. eapply avoids_not_in; [exact P3|cbn; tauto].
  - exfalso. destruct x as [m|k].
    + assert (H : In "."%char p).
      { rewrite <- E. apply in_or_app. right. cbn. now left. }
      revert H. eapply avoids_not_in; [exact P3|cbn; tauto].
    + assert (H : In "["%char p).
      { rewrite <- E. apply in_or_app. right. cbn. now left. }
      revert H. eapply avoids_not_in; [exact P3|cbn; tauto].
Qed.

Definition ph (p : str) : str := $"{" ++ p ++ $"}".
Lemma ph_eq : forall p, ph p = "{"%char :: p ++ ["}"%char].
Proof. reflexivity. Qed.

Lemma ph_at_hole : forall p h tail r, name_ok p -> hole_ok h ->
  starts_with (ph p ++ tail) (print_hole h ++ r) = true <-> h = Hole p [] [] /\ starts_with tail r = true.
Proof.
  intros p h tail r P H. rewrite starts_with_iff. rewrite print_hole_body, ph_eq. split.
  - intros [r' E]. cbn [app] in E. inversion E as [E']. rewrite <- !app_assoc in E'. cbn [app] in E'.
    apply app_stop in E'.
    + destruct E' as [B T]. apply body_is_name in B; [|assumption..]. split; [exact B|].
      apply starts_with_iff. now exists r'.
    + eapply avoids_not_in; [now apply hole_body_avoid|cbn; tauto].
    + eapply avoids_not_in; [apply P|cbn; tauto].
  - intros [-> S]. apply starts_with_iff in S. destruct S as [r' ->]. exists r'.
    unfold hole_body. cbn [h_name h_accs h_spec flat_map app]. rewrite app_nil_r.
    rewrite <- !app_assoc. reflexivity.
Qed.

Lemma ph_at_plain : forall p tail s, match s with c :: _ => c <> "{"%char | [] => True end ->
  starts_with (ph p ++ tail) s = false.
Proof.
  intros p tail [|c s] H; rewrite ph_eq; [reflexivity|]. cbn [app starts_with].
  destruct ("{" =c c) eqn:E; [|reflexivity]. apply Ascii.eqb_eq in E. congruence.
Qed.

Lemma contains_plain : forall p tail s r, ~ In "{"%char s ->
  contains_sub (ph p ++ tail) (s ++ r) = contains_sub (ph p ++ tail) r.
Proof.
  intros p tail s r. induction s as [|c s IH]; intro N; [reflexivity|].
  cbn [app contains_sub]. rewrite (ph_at_plain p tail (c :: s ++ r)).
  - cbn [orb]. apply IH. intro. apply N. now right.
  - intros ->. apply N. now left.
Qed.

Lemma contains_hole : forall p tail h r, name_ok p -> hole_ok h ->
  contains_sub (ph p ++ tail) (print_hole h ++ r) =
  starts_with (ph p ++ tail) (print_hole h ++ r) || contains_sub (ph p ++ tail) r.
Proof.
  intros p tail h r P H. assert (B := hole_body_avoid h H). rewrite print_hole_body. cbn [app].
  remember (starts_with (ph p ++ tail) ("{"%char :: (hole_body h ++ ["}"%char]) ++ r)) as b.
  cbn [contains_sub]. rewrite <- Heqb. f_equal. apply contains_plain.
  intro I. apply in_app_or in I. destruct I as [I|[I|[]]]; [|discriminate].
  revert I. eapply avoids_not_in; [exact B|cbn; tauto].
Qed.

(** Searching for a placeholder followed by some text. *)
Lemma contains_print : forall p tail t, name_ok p -> template_ok t ->
  contains_sub (ph p ++ tail) (print t) = true <->
  exists a b, t = a ++ THole (Hole p [] []) :: b /\ starts_with tail (print b) = true.
Proof.
  intros p tail t P OK. induction OK as [|x t Hx OK IH].
  - cbn. split; [discriminate|]. intros (a & b & E & _). destruct a; discriminate.
  - unfold print in *. cbn [flat_map]. destruct x as [s|h]; cbn [print_tok].
    + rewrite contains_plain by (eapply avoids_not_in; [exact Hx|cbn; tauto]). rewrite IH. split.
      * intros (a & b & -> & S). exists (TLit s :: a), b. auto.
      * intros (a & b & E & S). destruct a as [|y a]; [discriminate|]. inversion E; subst. eauto.
    + rewrite contains_hole by assumption. rewrite orb_true_iff, IH, ph_at_hole by assumption. split.
      * intros [[-> S]|(a & b & -> & S)]; [exists [], t; auto|exists (THole h :: a), b; auto].
      * intros (a & b & E & S). destruct a as [|y a]; inversion E; subst; [left; auto|right; eauto].
Qed.

(** Removing. *)
Lemma replace_plain : forall p tail new s r, ~ In "{"%char s ->
  replace_aux (ph p ++ tail) new (s ++ r) 0 = s ++ replace_aux (ph p ++ tail) new r 0.
Proof.
  intros p tail new s r. induction s as [|c s IH]; intro N; [reflexivity|].
  cbn [app]. cbn [replace_aux]. rewrite (ph_at_plain p tail (c :: s ++ r)).
  - f_equal. apply IH. intro. apply N. now right.
  - intros ->. apply N. now left.
Qed.

Lemma replace_skip : forall old new s r,
  replace_aux old new (s ++ r) (List.length s) = replace_aux old new r 0.
Proof. intros old new s r. induction s as [|c s IH]; [destruct r; reflexivity|exact IH]. Qed.

Lemma replace_hit : forall old new r, old <> [] ->
  replace_aux old new (old ++ r) 0 = new ++ replace_aux old new r 0.
Proof.
  intros [|c old] new r NE; [congruence|]. cbn [app replace_aux].
  change (c :: old ++ r) with ((c :: old) ++ r). rewrite starts_with_app. cbn [app List.length].
  replace (S (List.length old) - 1) with (List.length old) by lia. f_equal. apply replace_skip.
Qed.

Lemma replace_miss : forall p tail new h r, hole_ok h ->
  starts_with (ph p ++ tail) (print_hole h ++ r) = false ->
  replace_aux (ph p ++ tail) new (print_hole h ++ r) 0 = print_hole h ++ replace_aux (ph p ++ tail) new r 0.
Proof.
  intros p tail new h r H M. assert (B := hole_body_avoid h H). rewrite print_hole_body in *. cbn [app] in *.
  cbn [replace_aux]. rewrite M. f_equal. apply replace_plain.
  intro I. apply in_app_or in I. destruct I as [I|[I|[]]]; [|discriminate].
  revert I. eapply avoids_not_in; [exact B|cbn; tauto].
Qed.

Lemma ph_hole : forall p, print_hole (Hole p [] []) = ph p.
Proof. reflexivity. Qed.

Definition is_ph (p : str) (t : tok) : bool :=
  match t with THole (Hole n [] []) => str_eqb n p | _ => false end.

Lemma is_ph_iff : forall p x, is_ph p x = true <-> x = THole (Hole p [] []).
Proof.
  intros p [s|[n [|a accs] [|c spec]]]; cbn; split; try discriminate; try congruence.
  - intro E. apply (proj1 (str_eqb_spec _ _)) in E. now subst.
  - intro E. inversion E; subst. now apply str_eqb_spec.
Qed.

Lemma replace_all : forall p t, name_ok p -> template_ok t ->
  replace (ph p) [] (print t) = print (filter (fun x => negb (is_ph p x)) t).
Proof.
  intros p t P OK. unfold replace. rewrite <- (app_nil_r (ph p)).
  induction OK as [|x t Hx OK IH]; [reflexivity|].
  unfold print in *. cbn [flat_map]. cbn [filter].
  destruct (is_ph p x) eqn:I.
  - apply is_ph_iff in I. subst. cbn [negb print_tok]. rewrite ph_hole. rewrite app_nil_r in *.
    rewrite replace_hit by discriminate. exact IH.
  - cbn [negb flat_map]. rewrite <- IH. destruct x as [s|h]; cbn [print_tok].
    + apply replace_plain. eapply avoids_not_in; [exact Hx|cbn; tauto].
    + apply replace_miss; [exact Hx|]. destruct (starts_with _ _) eqn:S; [|reflexivity].
      apply ph_at_hole in S; [|assumption..]. destruct S as [-> _]. cbn in I.
      rewrite (proj2 (str_eqb_spec _ _) eq_refl) in I. discriminate.
Qed.

(** Replacing by other text. *)
Lemma replace_with : forall p new t, name_ok p -> template_ok t ->
  replace (ph p) new (print t) = print (map (fun x => if is_ph p x then TLit new else x) t).
Proof.
  intros p new t P OK. unfold replace. rewrite <- (app_nil_r (ph p)).
  induction OK as [|x t Hx OK IH]; [reflexivity|].
  unfold print in *. cbn [flat_map map]. rewrite <- IH.
  destruct (is_ph p x) eqn:I.
  - apply is_ph_iff in I. subst. cbn [print_tok]. rewrite ph_hole. rewrite app_nil_r in *.
    rewrite replace_hit by discriminate. reflexivity.
  - destruct x as [s|h]; cbn [print_tok].
    + apply replace_plain. eapply avoids_not_in; [exact Hx|cbn; tauto].
    + apply replace_miss; [exact Hx|]. destruct (starts_with _ _) eqn:S; [|reflexivity].
      apply ph_at_hole in S; [|assumption..]. destruct S as [-> _]. cbn in I.
      rewrite (proj2 (str_eqb_spec _ _) eq_refl) in I. discriminate.
Qed.

(** Removing ["{p}/"]: with the flag set the next character is dropped. *)
Fixpoint rm_sep (p : str) (skip : bool) (t : template) : template :=
  match t with
  | [] => []
  | TLit s :: r =>
      if skip then match s with [] => rm_sep p true r | _ :: s' => TLit s' :: rm_sep p false r end
      else TLit s :: rm_sep p false r
  | THole h :: r =>
      if is_ph p (THole h) && starts_with $"/" (print r) then rm_sep p true r
      else THole h :: rm_sep p false r
  end.

Lemma starts_sep_lit : forall t, template_ok t -> starts_with $"/" (print t) = true ->
  exists s r, print t = "/"%char :: s ++ print r /\
    (forall p, rm_sep p true t = TLit s :: rm_sep p false r) /\ avoids $"{}" s /\ template_ok r /\
    incl r t /\ List.length r < List.length t.
Proof.
  intros t OK. induction OK as [|x t Hx OK IH]; [discriminate|].
  unfold print in *. cbn [flat_map]. destruct x as [[|c s]|h]; cbn [print_tok].
  - intro S. destruct (IH S) as (s & r & E & R & A & O & I & L). exists s, r. cbn [app].
    split; [exact E|]. split; [exact R|]. split; [exact A|]. split; [exact O|].
    split; [intros y Hy; right; auto|cbn; lia].
  - intro S. apply starts_with_iff in S. destruct S as [s' E]. inversion E; subst c.
    exists s, t. split; [reflexivity|]. split; [reflexivity|]. split; [now inversion Hx|].
    split; [exact OK|]. split; [intros y Hy; now right|cbn; lia].
  - rewrite print_hole_body. discriminate.
Qed.

Lemma replace_sep : forall p t, name_ok p -> template_ok t ->
  replace (ph p ++ $"/") [] (print t) = print (rm_sep p false t).
Proof.
  intros p t P OK. unfold replace.
  remember (List.length t) as n eqn:Hn. revert t OK Hn.
  induction n as [n IHn] using lt_wf_ind. intros t OK Hn.
  destruct OK as [|x t Hx OK]; [reflexivity|]. cbn [rm_sep].
  destruct x as [s|h].
  - unfold print. cbn [flat_map print_tok]. fold (print t). fold (print (rm_sep p false t)).
    rewrite replace_plain by (eapply avoids_not_in; [exact Hx|cbn; tauto]). f_equal.
    apply (IHn (List.length t)); [cbn in Hn; lia|exact OK|reflexivity].
  - unfold print at 1. cbn [flat_map print_tok]. fold (print t).
    destruct (is_ph p (THole h) && starts_with $"/" (print t)) eqn:B.
    + apply andb_true_iff in B. destruct B as [I S]. apply is_ph_iff in I. inversion I; subst h.
      rewrite ph_hole. destruct (starts_sep_lit t OK S) as (s & r & E & R & A & O & Inc & L).
      rewrite E, R. change (ph p ++ "/"%char :: s ++ print r) with (ph p ++ $"/" ++ (s ++ print r)).
      rewrite app_assoc, replace_hit by discriminate. cbn [app].
      rewrite replace_plain by (eapply avoids_not_in; [exact A|cbn; tauto]).
      unfold print at 2. cbn [flat_map print_tok]. f_equal.
      apply (IHn (List.length r)); [|exact O|reflexivity].
      cbn in Hn. lia.
    + unfold print at 2. cbn [flat_map print_tok]. fold (print (rm_sep p false t)).
      rewrite replace_miss; [|exact Hx|].
      * f_equal. apply (IHn (List.length t)); [cbn in Hn; lia|exact OK|reflexivity].
      * destruct (starts_with (ph p ++ $"/") _) eqn:S; [|reflexivity].
        apply ph_at_hole in S; [|assumption..]. destruct S as [-> S].
        rewrite (proj2 (is_ph_iff p _) eq_refl), S in B. discriminate.
Qed.

(** [rm_sep] keeps templates well formed and adds no placeholder. *)
Lemma rm_sep_ok : forall p t skip, template_ok t -> template_ok (rm_sep p skip t).
Proof.
  intros p t skip OK. revert skip. induction OK as [|x t Hx OK IH]; intro skip; [constructor|].
  cbn [rm_sep]. destruct x as [s|h].
  - destruct skip; [|constructor; [exact Hx|apply IH]].
    destruct s as [|c s]; [apply IH|]. constructor; [|apply IH]. now inversion Hx.
  - destruct (_ && _); [apply IH|]. constructor; [exact Hx|apply IH].
Qed.

Lemma rm_sep_holes : forall p t skip h, In (THole h) (rm_sep p skip t) -> In (THole h) t.
Proof.
  intros p t. induction t as [|x t IH]; intros skip h H; [destruct H|].
  cbn [rm_sep] in H. destruct x as [s|h0].
  - destruct skip.
    + destruct s as [|c s]; [right; eapply IH; exact H|].
      destruct H as [H|H]; [discriminate|right; eapply IH; exact H].
    + destruct H as [H|H]; [discriminate|right; eapply IH; exact H].
  - destruct (_ && _); [right; eapply IH; exact H|].
    destruct H as [H|H]; [left; exact H|right; eapply IH; exact H].
Qed.

(** Stripping trailing separators. *)
Lemma rstrip_app : forall c a b,
  rstrip_char c (a ++ b) = match rstrip_char c b with [] => rstrip_char c a | r => a ++ r end.
Proof.
  intros c a b. induction a as [|x a IH].
  - cbn [app rstrip_char]. destruct (rstrip_char c b); reflexivity.
  - cbn [app rstrip_char]. rewrite IH. destruct (rstrip_char c b) as [|y r]; [reflexivity|].
    destruct (a ++ y :: r) eqn:E; [destruct a; discriminate|reflexivity].
Qed.

Lemma rstrip_suffix : forall c s, exists n, s = rstrip_char c s ++ repeat c n.
Proof.
  intros c s. induction s as [|a s [n IH]]; [exists 0; reflexivity|].
  cbn [rstrip_char]. destruct (rstrip_char c s) as [|b r] eqn:R.
  - destruct (Ascii.eqb a c) eqn:E.
    + apply Ascii.eqb_eq in E. subst a. exists (S n). cbn in *. now f_equal.
    + exists n. cbn in *. now f_equal.
  - exists n. cbn in *. now f_equal.
Qed.

Lemma rstrip_last : forall c s r, rstrip_char c s <> r ++ [c].
Proof.
  intros c s. induction s as [|a s IH]; intros r E; cbn [rstrip_char] in E.
  - destruct r; discriminate.
  - destruct (rstrip_char c s) as [|b q] eqn:R.
    + destruct (Ascii.eqb a c) eqn:Q; [destruct r; discriminate|].
      destruct r as [|x [|y r]]; inversion E; subst.
      * rewrite Ascii.eqb_refl in Q. discriminate.
    + destruct r as [|x r]; inversion E; subst. now apply (IH r).
Qed.

Lemma rstrip_print : forall t, template_ok t -> exists t', template_ok t' /\
  print t' = rstrip_char "/"%char (print t) /\ (forall h, In (THole h) t' <-> In (THole h) t).
Proof.
  intros t OK. induction OK as [|x t Hx OK (t' & O' & E' & I')].
  - exists []. split; [constructor|]. split; [reflexivity|tauto].
  - unfold print in *. cbn [flat_map]. rewrite rstrip_app, <- E'.
    destruct (flat_map print_tok t') as [|c r] eqn:F.
    + assert (N : forall h, ~ In (THole h) t').
      { intros h H. clear -F H. induction t' as [|y t' IH]; [destruct H|].
        cbn [flat_map] in F. apply app_eq_nil in F. destruct F as [F1 F2].
        destruct H as [->|H]; [|now apply IH]. cbn [print_tok] in F1. rewrite print_hole_body in F1. discriminate. }
      destruct x as [s|h].
      * exists [TLit (rstrip_char "/"%char s)]. split.
        -- constructor; [|constructor]. destruct (rstrip_suffix "/"%char s) as [n Hs].
           cbn [tok_ok] in *. rewrite Hs in Hx. apply avoids_app in Hx. apply Hx.
        -- split; [cbn; apply app_nil_r|]. intro h. split.
           ++ intros [H|[]]. discriminate.
           ++ intros [H|H]; [discriminate|]. apply I' in H. now apply N in H.
      * exists [THole h]. split; [constructor; [exact Hx|constructor]|]. split.
        -- cbn [flat_map print_tok]. rewrite app_nil_r. rewrite print_hole_body.
           change ("{"%char :: hole_body h ++ ["}"%char]) with (("{"%char :: hole_body h) ++ ["}"%char]).
           rewrite rstrip_app. reflexivity.
        -- intro h0. split.
           ++ intros [H|[]]. now left.
           ++ intros [H|H]; [now left|]. apply I' in H. now apply N in H.
    + exists (x :: t'). split; [constructor; assumption|]. split; [cbn [flat_map]; now rewrite F|].
      intro h. cbn [In]. rewrite I'. tauto.
Qed.

(** Decimal numbers contain no braces. *)
Lemma str_N_avoids : forall b n, (2 <= b)%N -> (b <= 16)%N -> avoids $"{}" (str_N b n).
Proof.
  intros b n Hb Hb'. eapply Forall_impl; [|apply str_N_chars; assumption].
  intros c (d & Hd & ->) I. assert (H : (d < 16)%N) by lia. apply small_cases in H.
  cbn [In] in H. repeat (destruct H as [<-|H]; [vm_compute in I; intuition discriminate|]). destruct H.
Qed.

Lemma py_str_avoids : forall z, avoids $"{}" (py_str z).
Proof.
  intros [|q|q]; cbn [py_str]; try (apply str_N_avoids; lia).
  constructor; [cbn; intuition discriminate|apply str_N_avoids; lia].
Qed.

(** * Resolving placeholders to nothing *)

(** One empty value: the placeholders followed by a separator go with it if there is any such,
    otherwise all of them go. *)
Definition trimmed (p : str) (t : template) : template :=
  if contains_sub (ph p ++ $"/") (print t) then rm_sep p false t
  else filter (fun x => negb (is_ph p x)) t.

Lemma trim_empty_print : forall p t, name_ok p -> template_ok t ->
  trim_empty (print t) p =
  match rstrip_char "/"%char (print (trimmed p t)) with [] => Err ValueError | s => Ok s end.
Proof.
  intros p t P OK. unfold trim_empty, trimmed. fold (ph p).
  destruct (contains_sub (ph p ++ $"/") (print t)).
  - now rewrite replace_sep.
  - now rewrite replace_all.
Qed.

Lemma trimmed_ok : forall p t, template_ok t -> template_ok (trimmed p t).
Proof.
  intros p t OK. unfold trimmed. destruct (contains_sub _ _); [now apply rm_sep_ok|].
  unfold template_ok in *. rewrite Forall_forall in *. intros x H. apply filter_In in H. apply OK, H.
Qed.

Lemma trimmed_holes : forall p t h, In (THole h) (trimmed p t) -> In (THole h) t.
Proof.
  intros p t h H. unfold trimmed in H. destruct (contains_sub _ _); [eapply rm_sep_holes; exact H|].
  apply filter_In in H. apply H.
Qed.

Lemma trim_empty_ok : forall p t s, name_ok p -> template_ok t -> trim_empty (print t) p = Ok s ->
  exists t', template_ok t' /\ print t' = s /\ print t' = rstrip_char "/"%char (print (trimmed p t)) /\
             forall h, In (THole h) t' -> In (THole h) t.
Proof.
  intros p t s P OK E. rewrite trim_empty_print in E by assumption.
  destruct (rstrip_print (trimmed p t) (trimmed_ok p t OK)) as (t' & O' & E' & I').
  exists t'. rewrite <- E' in *. split; [exact O'|]. split.
  - destruct (print t'); inversion E. reflexivity.
  - split; [reflexivity|]. intros h H. apply I' in H. eapply trimmed_holes. exact H.
Qed.

Section Resolve.
  Context (other : cvalue -> str -> result str).

  Lemma fillable_incl : forall values t t', (forall h, In (THole h) t' -> In (THole h) t) ->
    fillable values t -> fillable values t'.
  Proof. intros values t t' I F h H. apply F, I, H. Qed.

  Lemma resolve_field_shape : forall values t s, template_ok t ->
    Forall (fun nv => name_ok (fst nv)) values -> fillable values t ->
    resolve_field other (print t) values = Ok s ->
    exists t', template_ok t' /\ (forall h, In (THole h) t' -> In (THole h) t) /\
               s = print (fill values t').
  Proof.
    intros values t s OK N F E. unfold resolve_field in E.
    assert (G : forall (vs : list (str * str)) t r, template_ok t -> Forall (fun nv => name_ok (fst nv)) vs ->
      fold_left (fun (acc : result str) (pv : str * str) => match snd pv with
                               | [] => bind acc (fun s => trim_empty s (fst pv))
                               | _ => acc end) vs (Ok (print t)) = r ->
      forall s', r = Ok s' ->
      exists t', template_ok t' /\ print t' = s' /\ (forall h, In (THole h) t' -> In (THole h) t)).
    { clear. induction vs as [|[n v] vs IH]; intros t r OK N E s' Er; cbn [fold_left snd fst] in E.
      - subst. inversion Er. exists t. auto.
      - inversion N as [|? ? Nn N']; subst. cbn [fst] in Nn. destruct v as [|c v].
        + cbn [bind] in Er. destruct (trim_empty (print t) n) as [s1|e] eqn:T.
          * destruct (trim_empty_ok n t s1 Nn OK T) as (t1 & O1 & E1 & _ & I1).
            rewrite <- E1 in Er. destruct (IH t1 _ O1 N' eq_refl s' Er) as (t2 & O2 & E2 & I2).
            exists t2. auto.
          * exfalso. clear -Er. revert Er. induction vs as [|[m w] vs IH]; [discriminate|].
            cbn [fold_left snd]. destruct w; exact IH.
        + destruct (IH t _ OK N' eq_refl s' Er) as (t2 & O2 & E2 & I2). exists t2. auto. }
    match type of E with context [fold_left ?f ?v ?i] => destruct (fold_left f v i) as [s1|e] eqn:L end;
      [|discriminate]. cbn [bind] in E.
    destruct (G values t _ OK N L s1 eq_refl) as (t' & O' & E' & I'). subst s1.
    rewrite partial_format_fill in E; [|exact O'|eapply fillable_incl; eassumption].
    inversion E. exists t'. auto.
  Qed.

  Lemma avoids_braces_fill : forall values t p, template_ok t ->
    Forall (fun nv => avoids $"{}" (snd nv)) values -> dmem str_eqb values p = true -> name_ok p ->
    contains_sub (ph p) (print (fill values t)) = false.
  Proof.
    intros values t p OK V D P. destruct (contains_sub (ph p) (print (fill values t))) eqn:C; [|reflexivity].
    exfalso. rewrite <- (app_nil_r (ph p)) in C.
    apply contains_print in C; [|exact P|now apply fill_ok].
    destruct C as (a & b & E & _).
    assert (H : In (THole (Hole p [] [])) (fill values t)) by (rewrite E; apply in_or_app; right; now left).
    apply in_map_iff in H. destruct H as (x & Ex & _). destruct x as [s|h]; [discriminate|].
    cbn in Ex. unfold dmem in D. destruct (dget str_eqb values (h_name h)) eqn:G; [discriminate|].
    inversion Ex; subst. cbn in G. rewrite G in D. discriminate.
  Qed.

  (** Whatever is resolved is gone. *)
  Lemma resolved_gone : forall values t s p, template_ok t ->
    Forall (fun nv => name_ok (fst nv) /\ avoids $"{}" (snd nv)) values -> fillable values t ->
    dmem str_eqb values p = true -> resolve_field other (print t) values = Ok s ->
    contains_sub ($"{" ++ p ++ $"}") s = false.
  Proof.
    intros values t s p OK V F D E.
    destruct (resolve_field_shape values t s OK) as (t' & O' & I' & ->); [| |exact E|].
    - eapply Forall_impl; [|exact V]. cbn. tauto.
    - exact F.
    - apply avoids_braces_fill; [exact O'| |exact D|].
      + eapply Forall_impl; [|exact V]. cbn. tauto.
      + unfold dmem in D. destruct (dget str_eqb values p) eqn:G; [|discriminate].
        apply (dget_In str_eqb str_eqb_spec) in G. rewrite Forall_forall in V. apply (V _ G).
  Qed.

  (** A placeholder occurring once. *)

  Lemma trimmed_once : forall p a b, name_ok p -> template_ok (a ++ THole (Hole p [] []) :: b) ->
    without p a -> without p b ->
    print (trimmed p (a ++ THole (Hole p [] []) :: b)) =
    print a ++ drop_sep (print b).
  Proof.
    intros p a b P OK Wa Wb. unfold trimmed.
    assert (Oa : template_ok a) by (apply Forall_app in OK; apply OK).
    assert (Ob : template_ok b) by (apply Forall_app in OK; destruct OK as [_ OK]; now inversion OK).
    assert (NI : forall t x, without p t -> In x t -> is_ph p x = false).
    { intros t x W H. destruct (is_ph p x) eqn:I; [|reflexivity]. apply is_ph_iff in I. subst.
      exfalso. now apply (W _ H). }
    assert (K : forall t, without p t -> rm_sep p false t = t).
    { intros t W. induction t as [|x t IH]; [reflexivity|]. cbn [rm_sep]. destruct x as [s|h].
      - rewrite IH; [reflexivity|]. intros h H. apply W. now right.
      - rewrite (NI _ (THole h) W) by (now left). cbn [andb]. rewrite IH; [reflexivity|].
        intros h0 H. apply W. now right. }
    assert (K2 : forall t, without p t -> filter (fun x => negb (is_ph p x)) t = t).
    { intros t W. induction t as [|x t IH]; [reflexivity|]. cbn [filter].
      rewrite (NI _ x W) by (now left). cbn [negb]. rewrite IH; [reflexivity|].
      intros h0 H. apply W. now right. }
    destruct (starts_with $"/" (print b)) eqn:S.
    - assert (C : contains_sub (ph p ++ $"/") (print (a ++ THole (Hole p [] []) :: b)) = true).
      { apply contains_print; [exact P|exact OK|]. exists a, b. auto. }
      rewrite C. destruct (starts_sep_lit b Ob S) as (s & r & E & R & A & O & I & L).
      rewrite E.
      assert (G : rm_sep p false (a ++ THole (Hole p [] []) :: b) = a ++ TLit s :: r).
      { clear C OK Oa. induction a as [|x a IH]; cbn [app rm_sep].
        - rewrite (proj2 (is_ph_iff p _) eq_refl), S. cbn [andb]. rewrite R. f_equal. apply K.
          intros h H. apply Wb. now apply I.
        - destruct x as [s0|h].
          + f_equal. apply IH. intros h H. apply Wa. now right.
          + rewrite (NI _ (THole h) Wa) by (now left). cbn [andb]. f_equal. apply IH.
            intros h0 H. apply Wa. now right. }
      rewrite G. unfold print. rewrite flat_map_app. reflexivity.
    - assert (C : contains_sub (ph p ++ $"/") (print (a ++ THole (Hole p [] []) :: b)) = false).
      { destruct (contains_sub _ _) eqn:C; [|reflexivity].
        apply contains_print in C; [|exact P|exact OK]. destruct C as (a' & b' & E & S').
        assert (Eb : b' = b).
        { clear -E Wa Wb. revert a' E. induction a as [|x a IH]; intros [|y a'] E; cbn in E; inversion E; subst.
          - reflexivity.
          - exfalso. apply (Wb (Hole p [] [])); [|reflexivity]. apply in_or_app. right. now left.
          - exfalso. apply (Wa (Hole p [] [])); [now left|reflexivity].
          - eapply IH; [|eassumption]. intros h H. apply Wa. now right. }
        subst. congruence. }
      rewrite C. rewrite filter_app. cbn [filter]. rewrite (proj2 (is_ph_iff p _) eq_refl).
      cbn [negb]. rewrite !K2 by assumption. unfold print. rewrite flat_map_app. f_equal.
      fold (print b). destruct (print b) as [|c r]; [reflexivity|].
      unfold drop_sep. destruct (Ascii.eqb_spec c "/"%char) as [->|N]; [discriminate|reflexivity].
  Qed.

  Lemma resolve_empty_once : forall p a b, name_ok p ->
    template_ok (a ++ THole (Hole p [] []) :: b) -> without p a -> without p b ->
    resolve_field other (print (a ++ THole (Hole p [] []) :: b)) [(p, [])] =
    match rstrip_char "/"%char (print a ++ drop_sep (print b)) with
    | [] => Err ValueError
    | s => Ok s
    end.
  Proof.
    intros p a b P OK Wa Wb. unfold resolve_field. cbn [fold_left snd fst bind].
    rewrite trim_empty_print by assumption. rewrite trimmed_once by assumption.
    set (s := rstrip_char _ _).
    assert (E : exists t', template_ok t' /\ print t' = s /\ forall h, In (THole h) t' -> h_name h <> p).
    { destruct (rstrip_print (trimmed p (a ++ THole (Hole p [] []) :: b)) (trimmed_ok _ _ OK)) as (t' & O' & E' & I').
      rewrite trimmed_once in E' by assumption. exists t'. split; [exact O'|]. split; [exact E'|].
      intros h H Eh. apply I' in H.
      assert (H0 := H). apply trimmed_holes in H0. apply in_app_or in H0. destruct H0 as [H0|[H0|H0]].
      - now apply (Wa h).
      - inversion H0; subst h. clear -H Wa Wb P OK.
        unfold trimmed in H. destruct (contains_sub _ _) eqn:C.
        + (* removed with its separator *)
          apply contains_print in C; [|exact P|exact OK]. destruct C as (a' & b' & E & S').
          assert (Eb : b' = b).
          { clear -E Wa Wb. revert a' E. induction a as [|x a IH]; intros [|y a'] E; cbn in E; inversion E; subst.
            - reflexivity.
            - exfalso. apply (Wb (Hole p [] [])); [|reflexivity]. apply in_or_app. right. now left.
            - exfalso. apply (Wa (Hole p [] [])); [now left|reflexivity].
            - eapply IH; [|eassumption]. intros h H. apply Wa. now right. }
          subst b'. clear E OK. induction a as [|x a IH]; cbn [app rm_sep] in H.
          * rewrite (proj2 (is_ph_iff p _) eq_refl), S' in H. cbn [andb] in H.
            apply rm_sep_holes in H. now apply (Wb _ H).
          * destruct x as [s0|h].
            -- destruct H as [H|H]; [discriminate|]. apply IH; [|exact H]. intros h0 H0. apply Wa. now right.
            -- destruct (_ && _) eqn:B.
               ++ apply andb_true_iff in B. destruct B as [B _]. apply is_ph_iff in B. inversion B; subst h.
                  apply (Wa (Hole p [] [])); [now left|reflexivity].
               ++ destruct H as [H|H].
                  ** inversion H; subst h. apply (Wa (Hole p [] [])); [now left|reflexivity].
                  ** apply IH; [|exact H]. intros h0 H0. apply Wa. now right.
        + apply filter_In in H. destruct H as [_ H]. rewrite (proj2 (is_ph_iff p _) eq_refl) in H. discriminate.
      - now apply (Wb h). }
    destruct E as (t' & O' & E' & W'). rewrite <- E'. destruct (print t') as [|c r] eqn:Pt; [reflexivity|].
    cbn [bind]. rewrite <- Pt. rewrite partial_format_fill.
    - f_equal. f_equal. clear -W'. induction t' as [|x t' IH]; [reflexivity|].
      cbn [fill map]. f_equal.
      + destruct x as [s|h]; [reflexivity|]. cbn [fill_tok dget].
        destruct (str_eqb p (h_name h)) eqn:Q; [|reflexivity].
        apply (proj1 (str_eqb_spec _ _)) in Q. exfalso. apply (W' h); [now left|congruence].
      + apply IH. intros h H. apply W'. now right.
    - exact O'.
    - intros h H D. unfold dmem in D. cbn [dget] in D. destruct (str_eqb p (h_name h)) eqn:Q; [|discriminate].
      apply (proj1 (str_eqb_spec _ _)) in Q. exfalso. apply (W' h H). congruence.
  Qed.

  (** Without empty values nothing is stripped. *)
  Lemma resolve_field_nonempty : forall spec values, Forall (fun nv => snd nv <> []) values ->
    resolve_field other spec values = partial_format other spec values.
  Proof.
    intros spec values F. unfold resolve_field.
    assert (E : forall r, fold_left (fun (acc : result str) (pv : str * str) => match snd pv with
                               | [] => bind acc (fun s => trim_empty s (fst pv))
                               | _ => acc end) values r = r).
    { induction F as [|[n v] vs Hv F IH]; intro r; [reflexivity|]. cbn [fold_left snd] in *.
      destruct v; [congruence|apply IH]. }
    now rewrite E.
  Qed.

  (** After resolving the fingerprint no field asks for it. *)
  Lemma no_fingerprint_left : forall st fp st',
    templated st ->
    visit_input_fingerprint other st fp = Ok st' -> includes_fp st' = false.
  Proof.
    intros st fp st' T E. unfold visit_input_fingerprint, resolve in E.
    destruct (mapM _ (s_fields st)) as [fs|e] eqn:M; [|discriminate]. cbn in E. inversion E; subst st'; clear E.
    apply Base_Proofs.mapM_Forall2 in M. unfold includes_fp. cbn [s_fields].
    destruct (existsb _ fs) eqn:X; [|reflexivity]. exfalso.
    apply existsb_exists in X. destruct X as ([n v] & I & C). cbn [snd] in C. destruct v as [s|]; [|discriminate].
    assert (Q : exists n0 s0, In (n0, Some s0) (s_fields st) /\
              resolve_field other s0 [($"input_fingerprint", match fp with None => [] | Some z => py_str z end)] = Ok s).
    { clear C T. induction M as [|[n0 v0] b l l' Hb M IH]; [destruct I|]. destruct I as [->|I].
      - cbn in Hb. destruct v0 as [s0|].
        + destruct (resolve_field other s0 _) eqn:R; [|discriminate]. cbn in Hb. inversion Hb; subst.
          exists n, s0. split; [now left|]. exact R.
        + inversion Hb.
      - destruct (IH I) as (n1 & s1 & H1 & H2). exists n1, s1. split; [now right|exact H2]. }
    destruct Q as (n0 & s0 & I0 & R). destruct (T _ _ I0) as (t & -> & OK & F).
    assert (G := resolved_gone [($"input_fingerprint", match fp with None => [] | Some z => py_str z end)] t s $"input_fingerprint" OK).
    change ($"{" ++ $"input_fingerprint" ++ $"}") with fp_template in G.
    rewrite G in C; [discriminate| | |reflexivity|exact R].
    - constructor; [|constructor]. cbn [fst snd]. split.
      + split; [discriminate|]. split; [reflexivity|]. repeat constructor; cbn; intuition discriminate.
      + destruct fp as [z|]; [|constructor]. apply py_str_avoids.
    - intros h Hin Hd. apply F; [exact Hin|]. unfold dmem in *. cbn [dget] in *.
      destruct (str_eqb $"input_fingerprint" (h_name h)); [reflexivity|exact Hd].
  Qed.

  Lemma rstrip_sans : forall s, sans_trailing s (rstrip_char "/"%char s).
  Proof. intro s. split; [apply rstrip_suffix|]. intro q. apply rstrip_last. Qed.

  (** The single occurrence, in words. *)
  Lemma resolve_empty_spec : forall p a b, name_ok p ->
    template_ok (a ++ THole (Hole p [] []) :: b) -> without p a -> without p b ->
    exists r, sans_trailing (print a ++ drop_sep (print b)) r /\
      resolve_field other (print (a ++ THole (Hole p [] []) :: b)) [(p, [])] =
      match r with [] => Err ValueError | _ => Ok r end.
  Proof.
    intros p a b P OK Wa Wb. exists (rstrip_char "/"%char (print a ++ drop_sep (print b))).
    split; [apply rstrip_sans|]. rewrite resolve_empty_once by assumption.
    destruct (rstrip_char _ _); reflexivity.
  Qed.

  (** A placeholder that does not occur: only trailing separators go. *)
  Lemma resolve_absent : forall p t, name_ok p -> template_ok t -> without p t ->
    exists r, sans_trailing (print t) r /\
      resolve_field other (print t) [(p, [])] = match r with [] => Err ValueError | _ => Ok r end.
  Proof.
    intros p t P OK W. exists (rstrip_char "/"%char (print t)). split; [apply rstrip_sans|].
    unfold resolve_field. cbn [fold_left snd fst bind]. rewrite trim_empty_print by assumption.
    assert (Et : trimmed p t = t).
    { unfold trimmed. destruct (contains_sub _ _) eqn:C.
      - apply contains_print in C; [|exact P|exact OK]. destruct C as (a & b & E & _). exfalso.
        apply (W (Hole p [] [])); [|reflexivity]. rewrite E. apply in_or_app. right. now left.
      - clear C OK. induction t as [|x t IH]; [reflexivity|]. cbn [filter].
        destruct (is_ph p x) eqn:I.
        + apply is_ph_iff in I. subst. exfalso. apply (W (Hole p [] [])); [now left|reflexivity].
        + cbn [negb]. f_equal. apply IH. intros h H. apply W. now right. }
    rewrite Et. destruct (rstrip_print t OK) as (t' & O' & E' & I'). rewrite <- E'.
    destruct (print t') as [|c r] eqn:Pt; [reflexivity|]. cbn [bind]. rewrite <- Pt.
    rewrite partial_format_fill.
    - f_equal. f_equal. assert (W' : without p t') by (intros h H; apply W; now apply I').
      clear -W'. induction t' as [|x t' IH]; [reflexivity|]. cbn [fill map]. f_equal.
      + destruct x as [s|h]; [reflexivity|]. cbn [fill_tok dget].
        destruct (str_eqb p (h_name h)) eqn:Q; [|reflexivity].
        apply (proj1 (str_eqb_spec _ _)) in Q. exfalso. apply (W' h); [now left|congruence].
      + apply IH. intros h H. apply W'. now right.
    - exact O'.
    - intros h H D. unfold dmem in D. cbn [dget] in D. destruct (str_eqb p (h_name h)) eqn:Q; [|discriminate].
      apply (proj1 (str_eqb_spec _ _)) in Q. exfalso. apply (W h); [now apply I'|congruence].
  Qed.
End Resolve.
