(** Lemmas about parsing generated paths, wildcards and discovery. *)
From Coq Require Import ZArith NArith List Ascii String Bool Lia Arith Permutation.
From Verif Require Import Base Base_Proofs Str Str_Proofs Numerals_Model Numerals_Proofs
  Partitions_Model Partitions_Spec Partitions_Proofs
  Format_Model Template_Spec Template_Proofs Format_Proofs Storage_Model Storage_Spec Resolve_Proofs
  Int64_Model Paths_Spec Paths_Proofs.
Import ListNotations.
Open Scope nat_scope.
Open Scope list_scope.

(** * Tokens of the parser *)

Definition hkey (h : hole) : str := h_name h ++ flat_map print_acc (h_accs h).

Lemma hkey_inj : forall h h', hole_ok h -> hole_ok h' -> hkey h = hkey h' ->
  h_name h = h_name h' /\ h_accs h = h_accs h'.
Proof.
  intros h h' O O' E. assert (F := field_name_print h O). assert (F' := field_name_print h' O').
  unfold hkey in E. rewrite E, F' in F. now inversion F.
Qed.

Lemma take_while_app : forall p w r, Forall (fun c => p c = true) w ->
  match r with c :: _ => p c = false | [] => True end -> take_while p (w ++ r) = (w, r).
Proof.
  intros p w r F H. induction F as [|c w Hc F IH].
  - destruct r as [|c r]; [reflexivity|]. cbn. now rewrite H.
  - cbn. now rewrite Hc, IH.
Qed.

Lemma take_accessors_stop : forall n s,
  match s with c :: _ => (c =c ".") = false /\ (c =c "[") = false | [] => True end ->
  take_accessors n s = ([], s).
Proof. intros [|n] [|c s] H; try reflexivity. cbn. destruct H as [-> ->]. reflexivity. Qed.

Lemma take_field_hole : forall kts h r, path_hole kts h ->
  take_field (hole_body h ++ "}"%char :: r) = Some (hkey h, h_spec h, r).
Proof.
  intros kts h r P.
  assert (Fin : forall (w spec : str), avoids $"{}" spec ->
    match (match spec with [] => [] | s => $":" ++ s end) ++ "}"%char :: r with
    | c :: r2 =>
        if c =c "}" then Some (w, [], r2)
        else if c =c ":" then
          match take_while (fun c => negb (c =c "}")) r2 with
          | ([], _) => None
          | (f, e :: r3) => Some (w, f, r3)
          | (_, []) => None
          end
        else None
    | [] => None
    end = Some (w, spec, r : str)).
  { intros w [|c spec] A; [reflexivity|]. cbn [app]. change ($":" ++ c :: spec) with (":"%char :: c :: spec).
    cbn [app]. change (":" =c "}") with false. change (":" =c ":") with true. cbn iota.
    rewrite (take_while_app _ (c :: spec) ("}"%char :: r)); [reflexivity| |reflexivity].
    eapply Forall_impl; [|exact A]. intros d Hd. cbn beta. apply negb_true_iff. apply Ascii.eqb_neq.
    intros ->. apply Hd. cbn. tauto. }
  assert (Hd : forall spec, match (match spec with [] => [] | s => $":" ++ s end) ++ "}"%char :: r with
    c :: _ => (c =c ".") = false /\ (c =c "[") = false | [] => True end).
  { intros [|c spec]; split; reflexivity. }
  assert (Hw : forall spec, match (match spec with [] => [] | s => $":" ++ s end) ++ "}"%char :: r with
    c :: _ => is_word c = false | [] => True end).
  { intros [|c spec]; reflexivity. }
  destruct P as [->|(cls & c & Ea & Ek & Ic & S & [W1 W2] & D & NE)].
  - reflexivity.
  - destruct h as [n accs spec]. cbn [h_name h_accs h_spec] in *. subst accs.
    unfold hole_body, hkey. cbn [h_name h_accs h_spec flat_map print_acc]. rewrite app_nil_r.
    unfold take_field. rewrite <- app_assoc.
    rewrite (take_while_app is_word n _ W2); [|reflexivity].
    destruct (component_words cls c Ic) as [[C1 C2] _].
    change (($"." ++ c) ++ ?x) with ("."%char :: c ++ x).
    change (($"." ++ c)) with ("."%char :: c). cbn [app List.length].
    cbn [take_accessors]. change ("." =c ".") with true. cbn iota. rewrite <- app_assoc.
    assert (As : avoids $"{}" spec).
    { destruct S as [->|[_ [w Hz]]]; [constructor|]. eapply zero_spec_avoids, Hz. }
    specialize (Fin (n ++ "."%char :: c) spec As). specialize (Hd spec). specialize (Hw spec).
    destruct spec as [|s0 spec]; (rewrite (take_while_app is_word c _ C2); [|exact Hw]);
      (destruct c as [|c0 c]; [congruence|]);
      rewrite take_accessors_stop by exact Hd; rewrite app_nil_r; exact Fin.
Qed.

Definition ptok_of (x : tok) : list ptok :=
  match x with TLit s => map PLit s | THole h => [PField (hkey h) (h_spec h)] end.

Lemma ptokens_lit : forall s r n, avoids $"{}" s -> List.length (s ++ r) <= n ->
  exists m, List.length r <= m /\ ptokens n (s ++ r) = map PLit s ++ ptokens m r.
Proof.
  intros s r. induction s as [|c s IH]; intros n A L; [exists n; auto|].
  apply avoids_cons in A. destruct A as [N A]. destruct n as [|n]; [cbn in L; lia|].
  cbn [app List.length] in L. assert (L' : List.length (s ++ r) <= n) by lia.
  destruct (IH n A L') as (m & Lm & E). exists m. split; [exact Lm|].
  cbn [app ptokens map].
  rewrite (not_char c "{"%char _ N) by (cbn; tauto). rewrite (not_char c "}"%char _ N) by (cbn; tauto).
  cbn [andb orb]. rewrite <- E. destruct (s ++ r); [destruct n; reflexivity|reflexivity].
Qed.

Lemma ptokens_print : forall kts t n, path_template kts t -> List.length (print t) <= n ->
  ptokens n (print t) = flat_map ptok_of t.
Proof.
  intros kts t n P. revert n. induction P as [|x t Hx P IH]; intros n L.
  - destruct n; reflexivity.
  - unfold print in *. cbn [flat_map] in *. destruct x as [s|h].
    + cbn [print_tok] in *. destruct (ptokens_lit s _ n Hx L) as (m & Lm & E). rewrite E.
      cbn [ptok_of]. f_equal. now apply IH.
    + cbn [print_tok ptok_of] in *. cbn [path_tok] in Hx. rewrite print_hole_body in *.
      destruct n as [|n]; [cbn in L; lia|]. cbn [app ptokens]. change ("{" =c "{") with true. cbn iota.
      assert (T := take_field_hole kts h (flat_map print_tok t) Hx).
      cbn [app] in L. rewrite <- app_assoc in *. cbn [app] in *.
      destruct (hole_body h ++ "}"%char :: flat_map print_tok t) as [|d r] eqn:Eb.
      { destruct (hole_body h); discriminate. }
      assert (Nd : (d =c "{") = false).
      { assert (B := hole_body_avoid h (path_hole_ok kts h Hx)).
        destruct (hole_body h) as [|b bs] eqn:Ebody; cbn [app] in Eb; inversion Eb; subst; [reflexivity|].
        apply avoids_cons in B. destruct B as [B _]. apply (not_char _ _ _ B). cbn. tauto. }
      rewrite Nd. cbn [andb orb].
      change ("{" =c "}") with false. cbn [andb orb].
      rewrite T. cbn [app]. f_equal. apply IH.
      rewrite <- Eb in L. cbn [List.length] in L. rewrite app_length in L. cbn [List.length] in L. lia.
Qed.

(** * Matching *)

Lemma strip_prefix_app : forall a b, strip_prefix a (a ++ b) = Some b.
Proof. induction a as [|c a IH]; intro b; [reflexivity|]. cbn. now rewrite Ascii.eqb_refl. Qed.

Lemma grow_exact : forall least k a b e, 1 <= least -> least <= List.length a ->
  (forall p q, a = p ++ q -> p <> [] -> q <> [] -> k p (q ++ b) = None) ->
  k a b = Some e -> grow least k [] (a ++ b) = Some e.
Proof.
  intros least k a b e L1 L2 H K.
  assert (G : forall q p, a = p ++ q -> grow least k (rev p) (q ++ b) = Some e).
  { induction q as [|c q IH]; intros p E.
    - rewrite app_nil_r in E. subst p. cbn [app].
      assert (Q : grow least k (rev a) b =
        match (if least <=? List.length (rev a) then k (rev (rev a)) b else None) with
        | Some e => Some e
        | None => match b with [] => None | c :: s' => grow least k (c :: rev a) s' end
        end) by (destruct b; reflexivity).
      rewrite Q. rewrite rev_length, rev_involutive. apply Nat.leb_le in L2. now rewrite L2, K.
    - change (grow least k (rev p) ((c :: q) ++ b)) with
        (match (if least <=? List.length (rev p) then k (rev (rev p)) ((c :: q) ++ b) else None) with
         | Some e => Some e
         | None => grow least k (c :: rev p) (q ++ b)
         end).
      rewrite rev_length, rev_involutive.
      assert (R : (if least <=? List.length p then k p ((c :: q) ++ b) else None) = None).
      { destruct (least <=? List.length p) eqn:Q; [|reflexivity]. apply Nat.leb_le in Q.
        apply H; [exact E| |discriminate]. intros ->. cbn in Q. lia. }
      rewrite R. replace (c :: rev p) with (rev (p ++ [c])) by (rewrite rev_app_distr; reflexivity).
      apply IH. rewrite <- app_assoc. exact E. }
  apply (G a []). reflexivity.
Qed.

Lemma pmatch_stops : forall chars t env c s, stops chars t -> In c chars ->
  pmatch (flat_map ptok_of t) env (c :: s) = None.
Proof.
  intros chars t env c s. induction t as [|[[|d l]|h] t IH]; intros S I; cbn [stops] in S.
  - reflexivity.
  - now apply IH.
  - cbn [flat_map ptok_of map app pmatch]. destruct (d =c c) eqn:E; [|reflexivity].
    apply Ascii.eqb_eq in E. subst. contradiction.
  - destruct S.
Qed.

Fixpoint firsts (seen : list str) (t : template) : list hole :=
  match t with
  | [] => []
  | TLit _ :: t' => firsts seen t'
  | THole h :: t' => if existsb (str_eqb (hkey h)) seen then firsts seen t'
                     else h :: firsts (seen ++ [hkey h]) t'
  end.

Lemma existsb_str : forall s l, existsb (str_eqb s) l = true <-> In s l.
Proof.
  intros s l. rewrite existsb_exists. split.
  - intros (x & I & E). apply (proj1 (str_eqb_spec _ _)) in E. now subst.
  - intro I. exists s. split; [exact I|apply str_eqb_refl].
Qed.

Lemma firsts_sub : forall t seen h, In h (firsts seen t) -> In (THole h) t /\ ~ In (hkey h) seen.
Proof.
  induction t as [|[s|h0] t IH]; intros seen h H; cbn [firsts] in H; [destruct H| |].
  - destruct (IH _ _ H). split; [now right|assumption].
  - destruct (existsb (str_eqb (hkey h0)) seen) eqn:E.
    + destruct (IH _ _ H). split; [now right|assumption].
    + destruct H as [->|H].
      * split; [now left|]. intro I. apply existsb_str in I. congruence.
      * destruct (IH _ _ H) as [I N]. split; [now right|]. intro J. apply N. apply in_or_app. now left.
Qed.

Lemma firsts_NoDup : forall t seen, NoDup (map hkey (firsts seen t)).
Proof.
  induction t as [|[s|h0] t IH]; intros seen; cbn [firsts]; [constructor|apply IH|].
  destruct (existsb _ _); [apply IH|]. cbn [map]. constructor; [|apply IH].
  intro I. apply in_map_iff in I. destruct I as (h & E & I). apply firsts_sub in I. destruct I as [_ N].
  apply N. rewrite E. apply in_or_app. right. now left.
Qed.

Lemma firsts_all : forall t seen h, In (THole h) t -> ~ In (hkey h) seen ->
  exists h', In h' (firsts seen t) /\ hkey h' = hkey h.
Proof.
  induction t as [|[s|h0] t IH]; intros seen h H N; cbn [firsts]; [destruct H| |].
  - destruct H as [H|H]; [discriminate|]. now apply IH.
  - destruct (existsb (str_eqb (hkey h0)) seen) eqn:E.
    + destruct H as [H|H]; [|now apply IH]. inversion H; subst. apply existsb_str in E. contradiction.
    + destruct H as [H|H]; [inversion H; subst; exists h; split; [now left|reflexivity]|].
      destruct (list_eq_dec ascii_dec (hkey h0) (hkey h)) as [Q|Q]; [exists h0; split; [now left|exact Q]|].
      destruct (IH (seen ++ [hkey h0]) h H) as (h' & I' & E').
      * intro I. apply in_app_or in I. destruct I as [I|[I|[]]]; contradiction.
      * exists h'. split; [now right|exact E'].
Qed.

Lemma pmatch_path : forall kts tau t, separated kts t -> texts_for kts t tau ->
  (forall h h', In (THole h) t -> In (THole h') t -> hkey h = hkey h' -> tau h = tau h') ->
  forall env, (forall h v, In (THole h) t -> dget str_eqb env (hkey h) = Some v -> v = tau h) ->
  pmatch (flat_map ptok_of t) env (path_of tau t) =
  Some (env ++ map (fun h => (hkey h, tau h)) (firsts (map fst env) t)).
Proof.
  intros kts tau t. induction t as [|[s|h] t IH]; intros S T C env V.
  - cbn. now rewrite app_nil_r.
  - cbn [flat_map ptok_of path_of firsts]. fold (path_of tau t).
    assert (Q : forall s, pmatch (map PLit s ++ flat_map ptok_of t) env (s ++ path_of tau t) =
                          pmatch (flat_map ptok_of t) env (path_of tau t)).
    { induction s0 as [|c s0 IHs]; [reflexivity|]. cbn. now rewrite Ascii.eqb_refl. }
    rewrite Q. apply IH.
    + exact S.
    + intros h H. apply T. now right.
    + intros h h' H H'. apply C; now right.
    + intros h v H. apply V. now right.
  - cbn [flat_map ptok_of path_of firsts app pmatch]. fold (path_of tau t). destruct S as [S1 S2].
    assert (T' : texts_for kts t tau) by (intros h0 H0; apply T; now right).
    assert (C' : forall h h', In (THole h) t -> In (THole h') t -> hkey h = hkey h' -> tau h = tau h')
      by (intros h0 h' H0 H'; apply C; now right).
    destruct (dget str_eqb env (hkey h)) as [v|] eqn:G.
    + assert (v = tau h) by (apply V; [now left|exact G]). subst v. rewrite strip_prefix_app.
      assert (E : existsb (str_eqb (hkey h)) (map fst env) = true).
      { apply existsb_str. eapply dget_Some_key; [exact str_eqb_spec|exact G]. }
      rewrite E. apply IH; auto. intros h0 v H0. apply V. now right.
    + assert (E : existsb (str_eqb (hkey h)) (map fst env) = false).
      { destruct (existsb _ _) eqn:X; [|reflexivity]. apply existsb_str in X.
        apply (dget_None str_eqb str_eqb_spec) in G. contradiction. }
      rewrite E. destruct (T h (or_introl eq_refl)) as [Th Lh].
      apply grow_exact.
      * unfold min_length. lia.
      * exact Lh.
      * intros p q Ea Np Nq. destruct q as [|c q]; [congruence|]. cbn [app].
        apply pmatch_stops with (chars := hole_chars kts h); [exact S1|].
        destruct Th as (c0 & r & Er & _ & F). rewrite Er in Ea. destruct p as [|p0 p]; [congruence|].
        cbn [app] in Ea. inversion Ea; subst. apply Forall_app in F. destruct F as [_ F]. now inversion F.
      * rewrite IH; auto.
        -- rewrite map_app. cbn [map fst]. rewrite <- app_assoc. reflexivity.
        -- intros h0 v H0 G0. rewrite dget_app in G0.
           destruct (dget str_eqb env (hkey h0)) as [v'|] eqn:G1.
           ++ inversion G0; subst. apply V; [now right|exact G1].
           ++ cbn [dget] in G0. destruct (str_eqb (hkey h) (hkey h0)) eqn:Q; [|discriminate].
              inversion G0; subst. apply (proj1 (str_eqb_spec _ _)) in Q. apply C; [now left|now right|exact Q].
Qed.

Lemma compile_path : forall t seen,
  (forall h h', In (THole h) t -> In (THole h') t -> hkey h = hkey h' -> h_spec h = h_spec h') ->
  (forall h f, In (THole h) t -> dget str_eqb seen (hkey h) = Some f -> f = h_spec h) ->
  compile_ok seen (flat_map ptok_of t) = true.
Proof.
  induction t as [|[s|h] t IH]; intros seen C V; [reflexivity| |].
  - cbn [flat_map ptok_of].
    assert (Q : compile_ok seen (map PLit s ++ flat_map ptok_of t) = compile_ok seen (flat_map ptok_of t)).
    { clear C V. induction s as [|c s IHs]; [reflexivity|exact IHs]. }
    rewrite Q. apply IH.
    + intros h h' H H'. apply C; now right.
    + intros h f H. apply V. now right.
  - cbn [flat_map ptok_of app compile_ok].
    assert (C' : forall h h', In (THole h) t -> In (THole h') t -> hkey h = hkey h' -> h_spec h = h_spec h')
      by (intros h0 h' H0 H'; apply C; now right).
    destruct (dget str_eqb seen (hkey h)) as [f|] eqn:G.
    + rewrite (V h f (or_introl eq_refl) G), str_eqb_refl. cbn [andb]. apply IH; [exact C'|].
      intros h0 f0 H0. apply V. now right.
    + apply IH; [exact C'|]. intros h0 f0 H0 G0. rewrite dget_app in G0.
      destruct (dget str_eqb seen (hkey h0)) as [f1|] eqn:G1.
      * inversion G0; subst. apply V; [now right|exact G1].
      * cbn [dget] in G0. destruct (str_eqb (hkey h) (hkey h0)) eqn:Q; [|discriminate].
        inversion G0; subst. apply (proj1 (str_eqb_spec _ _)) in Q. apply C; [now left|now right|exact Q].
Qed.

(** * Rebuilding the key *)

Section Extract.
  Context (tau : hole -> str) (kts : key_types) (fp : option Z).

  Definition comps_of (n : str) (H : list hole) : list (str * str) :=
    flat_map (fun h => match h_accs h with
                       | [Attr c] => if str_eqb (h_name h) n then [(c, tau h)] else []
                       | _ => []
                       end) H.

  Definition inv (P : list hole) (x : extracted) : Prop :=
    x_fp x = (if existsb (fun h => str_eqb (hkey h) $"input_fingerprint") P then fp else None) /\
    (forall n, dget str_eqb (x_comps x) n = match comps_of n P with [] => None | l => Some l end) /\
    NoDup (map fst (x_comps x)) /\
    (x_comps x <> [] -> exists cls, dget str_eqb kts (x_last x) = Some cls).

  Lemma base_index_plain : forall s, ~ In "["%char s -> base_index s = (s, None).
  Proof.
    intros s N. unfold base_index. rewrite <- (app_nil_r s) at 1. rewrite take_while_app; [reflexivity| |exact I].
    apply Forall_forall. intros c Hc. apply negb_true_iff. apply Ascii.eqb_neq. intros ->. contradiction.
  Qed.

  Lemma word_not_in : forall s c, word s -> is_word c = false -> ~ In c s.
  Proof. intros s c [_ F] W I. rewrite Forall_forall in F. rewrite (F c I) in W. discriminate. Qed.

  Lemma step_comp : forall x h cls c s, h_accs h = [Attr c] -> word (h_name h) -> In c (components cls) ->
    extract_step (Ok x) (hkey h, s) =
    Ok {| x_fp := x_fp x;
          x_comps := dset str_eqb (x_comps x) (h_name h)
            (dset str_eqb (match dget str_eqb (x_comps x) (h_name h) with Some l => l | None => [] end) c s);
          x_last := h_name h |}.
  Proof.
    intros x h cls c s Ea W Ic. destruct (component_words cls c Ic) as [Wc _].
    assert (E : hkey h = h_name h ++ "."%char :: c).
    { unfold hkey. rewrite Ea. cbn. now rewrite app_nil_r. }
    unfold extract_step. cbn [bind fst snd].
    rewrite base_index_plain.
    - assert (NE : str_eqb (hkey h) $"input_fingerprint" = false).
      { apply (eqb_neq _ str_eqb_spec). intro Q. assert (I : In "."%char (hkey h)).
        { rewrite E. apply in_or_app. right. now left. }
        rewrite Q in I. cbn in I. intuition discriminate. }
      rewrite NE, E. rewrite split_app by (apply word_not_in; [exact W|reflexivity]).
      rewrite split_plain by (apply word_not_in; [exact Wc|reflexivity]). reflexivity.
    - rewrite E. intro I. apply in_app_or in I. destruct I as [I|[I|I]]; [|discriminate|].
      + revert I. apply word_not_in; [exact W|reflexivity].
      + revert I. apply word_not_in; [exact Wc|reflexivity].
  Qed.

  Lemma fp_of_int_ok : forall z, (- 2 ^ 63 <= z < 2 ^ 63)%Z -> fp_of_int z = Ok z.
  Proof.
    intros z H. unfold fp_of_int, fp_from_int.
    assert (G1 : (int64_max <? z)%Z = false) by (apply Z.ltb_ge; unfold int64_max; lia).
    assert (G2 : (z <? int64_min)%Z = false) by (apply Z.ltb_ge; unfold int64_min; lia).
    unfold int64_new at 1. cbn [iv]. rewrite ?Z.gtb_ltb, G1, G2. cbn [bind].
    unfold fp_from_int64, int64_new. cbn [iv]. rewrite ?Z.gtb_ltb, G1, G2. reflexivity.
  Qed.

  Lemma step_fp : forall x z, (- 2 ^ 63 <= z < 2 ^ 63)%Z ->
    extract_step (Ok x) ($"input_fingerprint", py_str z) =
    Ok {| x_fp := Some z; x_comps := x_comps x; x_last := x_last x |}.
  Proof.
    intros x z H. unfold extract_step. cbn [bind fst snd].
    rewrite base_index_plain by (cbn; intuition discriminate).
    rewrite str_eqb_refl, int_str. cbn [bind]. rewrite fp_of_int_ok by exact H. reflexivity.
  Qed.

  Lemma comps_of_app : forall n a b, comps_of n (a ++ b) = comps_of n a ++ comps_of n b.
  Proof. intros. apply flat_map_app. Qed.

  Lemma comps_of_in : forall n c s P, In (c, s) (comps_of n P) ->
    exists h, In h P /\ h_name h = n /\ h_accs h = [Attr c] /\ s = tau h.
  Proof.
    intros n c s P I. apply in_flat_map in I. destruct I as (h & Ih & I). exists h. split; [exact Ih|].
    destruct (h_accs h) as [|[d|k] [|]]; try destruct I.
    destruct (str_eqb (h_name h) n) eqn:Q; [|destruct I].
    apply (proj1 (str_eqb_spec _ _)) in Q. destruct I as [I|[]]. inversion I; subst. auto.
  Qed.

  Lemma dset_fresh : forall {V} (l : list (str * V)) k v, ~ In k (map fst l) -> dset str_eqb l k v = l ++ [(k, v)].
  Proof.
    intros V l k v N. induction l as [|[k0 v0] l IH]; [reflexivity|]. cbn [dset map fst In] in *.
    rewrite (eqb_neq _ str_eqb_spec) by tauto. cbn [app]. rewrite IH by tauto. reflexivity.
  Qed.

  Lemma extract_fold : forall H P x, inv P x -> NoDup (map hkey (P ++ H)) ->
    Forall (path_hole kts) (P ++ H) ->
    (forall h, In h H -> h = fp_hole -> exists z, fp = Some z /\ (- 2 ^ 63 <= z < 2 ^ 63)%Z /\ tau h = py_str z) ->
    exists x', fold_left extract_step (map (fun h => (hkey h, tau h)) H) (Ok x) = Ok x' /\ inv (P ++ H) x'.
  Proof.
    induction H as [|h H IH]; intros P x I N F Z.
    - exists x. rewrite app_nil_r. auto.
    - cbn [map fold_left].
      assert (Ea : P ++ h :: H = (P ++ [h]) ++ H) by (rewrite <- app_assoc; reflexivity).
      assert (Hh : path_hole kts h). { rewrite Forall_forall in F. apply F. apply in_or_app. right. now left. }
      assert (Nh : ~ In (hkey h) (map hkey P)).
      { rewrite map_app in N. cbn [map] in N. apply NoDup_remove_2 in N. intro J. apply N. apply in_or_app. now left. }
      assert (Step : exists x1, extract_step (Ok x) (hkey h, tau h) = Ok x1 /\ inv (P ++ [h]) x1).
      { destruct I as (I1 & I2 & I3 & I4). destruct Hh as [->|(cls & c & Eacc & Ek & Ic & S & W & D & NE)].
        - destruct (Z fp_hole (or_introl eq_refl) eq_refl) as (z & Ez & Rz & Tz). rewrite Tz.
          change (hkey fp_hole) with $"input_fingerprint". rewrite step_fp by exact Rz.
          eexists. split; [reflexivity|]. split; [|split; [|split]]; cbn [x_fp x_comps x_last].
          + rewrite existsb_app. cbn [existsb]. change (str_eqb (hkey fp_hole) $"input_fingerprint") with true.
            rewrite orb_true_r. now rewrite Ez.
          + intro n. rewrite I2, comps_of_app. cbn. now rewrite app_nil_r.
          + exact I3.
          + exact I4.
        - rewrite (step_comp x h cls c (tau h) Eacc W Ic). eexists. split; [reflexivity|].
          assert (Kne : str_eqb (hkey h) $"input_fingerprint" = false).
          { apply (eqb_neq _ str_eqb_spec). intro Q. assert (J : In "."%char (hkey h)).
            { unfold hkey. rewrite Eacc. apply in_or_app. right. now left. }
            rewrite Q in J. cbn in J. intuition discriminate. }
          assert (Ec : forall n, comps_of n [h] = if str_eqb (h_name h) n then [(c, tau h)] else []).
          { intro n. cbn. rewrite Eacc. now rewrite app_nil_r. }
          assert (Nc : ~ In c (map fst (comps_of (h_name h) P))).
          { intro J. apply in_map_iff in J. destruct J as ([c' s'] & Q & J). cbn in Q. subst c'.
            apply comps_of_in in J. destruct J as (h' & J & Hn & Ha & _). apply Nh.
            apply in_map_iff. exists h'. split; [|exact J]. unfold hkey. now rewrite Hn, Ha, Eacc. }
          assert (El : dset str_eqb match dget str_eqb (x_comps x) (h_name h) with Some l => l | None => [] end c (tau h)
                       = comps_of (h_name h) P ++ [(c, tau h)]).
          { rewrite I2. destruct (comps_of (h_name h) P) as [|e l] eqn:Q; [reflexivity|].
            apply dset_fresh. exact Nc. }
          rewrite El. split; [|split; [|split]]; cbn [x_fp x_comps x_last].
          + rewrite existsb_app. cbn [existsb]. rewrite Kne. now rewrite !orb_false_r.
          + intro n. rewrite (dget_dset str_eqb str_eqb_spec), comps_of_app, Ec.
            destruct (str_eqb (h_name h) n) eqn:Q.
            * apply (proj1 (str_eqb_spec _ _)) in Q. subst n.
              destruct (comps_of (h_name h) P); reflexivity.
            * rewrite app_nil_r. apply I2.
          + now apply (dset_NoDup str_eqb str_eqb_spec).
          + intros _. exists cls. exact Ek. }
      destruct Step as (x1 & E1 & I1). rewrite E1. rewrite Ea. apply IH.
      + exact I1.
      + now rewrite <- Ea.
      + now rewrite <- Ea.
      + intros h0 H0. apply Z. now right.
  Qed.
End Extract.

(** * A generated path is parsed back *)

Definition specs_of (n : str) (H : list hole) : list (str * str) :=
  flat_map (fun h => match h_accs h with
                     | [Attr c] => if str_eqb (h_name h) n then [(c, h_spec h)] else []
                     | _ => []
                     end) H.

Lemma comps_specs : forall tau n H,
  comps_of tau n H = map (fun x => (fst x, tau (Hole n [Attr (fst x)] (snd x)))) (specs_of n H).
Proof.
  intros tau n H. induction H as [|h H IH]; [reflexivity|]. unfold comps_of, specs_of in *. cbn [flat_map].
  rewrite map_app, IH. f_equal. destruct h as [m a s]. cbn [h_name h_accs h_spec].
  destruct a as [|[c|k] [|]]; try reflexivity. destruct (str_eqb m n) eqn:Q; [|reflexivity].
  apply (proj1 (str_eqb_spec _ _)) in Q. now subst.
Qed.

Lemma specs_in : forall n H c s, In (c, s) (specs_of n H) <-> In (Hole n [Attr c] s) H.
Proof.
  intros n H c s. unfold specs_of. rewrite in_flat_map. split.
  - intros ([m a sp] & Ih & I). cbn [h_name h_accs h_spec] in I.
    destruct a as [|[d|k] [|]]; try destruct I. destruct (str_eqb m n) eqn:Q; [|destruct I].
    apply (proj1 (str_eqb_spec _ _)) in Q. destruct I as [I|[]]. inversion I; subst. exact Ih.
  - intro I. exists (Hole n [Attr c] s). split; [exact I|]. cbn. rewrite str_eqb_refl. now left.
Qed.

Lemma specs_NoDup : forall n H, NoDup (map hkey H) -> NoDup (map fst (specs_of n H)).
Proof.
  intros n H. induction H as [|h H IH]; intro N; [constructor|]. cbn [map] in N.
  inversion N as [|? ? Nh N']; subst. unfold specs_of in *. cbn [flat_map]. rewrite map_app.
  destruct h as [m a s]. cbn [h_name h_accs h_spec]. destruct a as [|[c|k] [|]]; cbn [map app]; auto.
  destruct (str_eqb m n) eqn:Q; cbn [map app fst]; auto. apply (proj1 (str_eqb_spec _ _)) in Q. subst m.
  constructor; [|auto]. intro I. apply in_map_iff in I. destruct I as ([c' s'] & E & I). cbn in E. subst c'.
  apply (specs_in n H) in I. apply Nh. apply in_map_iff. exists (Hole n [Attr c] s'). split; [reflexivity|exact I].
Qed.

Lemma supported_perm : forall cls a b, supported cls a -> Permutation a b -> supported cls b.
Proof.
  intros cls a b S P. destruct S; try (apply Permutation_length_1_inv in P; subst; constructor).
  apply sup_date_ymd. eapply Permutation_trans; eassumption.
Qed.

Lemma supported_NoDup : forall cls a, supported cls a -> NoDup a.
Proof.
  intros cls a S. destruct S; try (repeat constructor; cbn; intuition discriminate).
  eapply Permutation_NoDup; [exact H|]. repeat constructor; cbn; intuition discriminate.
Qed.

Lemma dget_map_keys : forall {A B} (g : str -> B) (l : list (str * A)) n,
  dget str_eqb (map (fun nc => (fst nc, g (fst nc))) l) n = if dmem str_eqb l n then Some (g n) else None.
Proof.
  intros A B g l n. unfold dmem. induction l as [|[k v] l IH]; [reflexivity|]. cbn [map dget fst].
  destruct (str_eqb k n) eqn:Q; [|exact IH]. apply (proj1 (str_eqb_spec _ _)) in Q. now subst.
Qed.

Section Roundtrip.
  Context (other : cvalue -> str -> result str).
  Notation render fp key h := (format_final other fp key (h_name h) (h_accs h) None (h_spec h)).

  Lemma same_hole : forall kts t h h', path_template kts t -> consistent t ->
    In (THole h) t -> In (THole h') t -> hkey h = hkey h' -> h = h'.
  Proof.
    intros kts t h h' P C I I' E. unfold path_template in P. rewrite Forall_forall in P.
    assert (O := path_hole_ok kts h (P _ I)). assert (O' := path_hole_ok kts h' (P _ I')).
    destruct (hkey_inj h h' O O' E) as [En Ea]. assert (Es := C h h' I I' En Ea).
    destruct h, h'. cbn in *. now subst.
  Qed.

  Lemma firsts_exact : forall kts t, path_template kts t -> consistent t ->
    forall h, In h (firsts [] t) <-> In (THole h) t.
  Proof.
    intros kts t P C h. split; intro I; [now apply firsts_sub in I|].
    destruct (firsts_all t [] h I) as (h' & I' & E); [intros []|].
    assert (h' = h); [|now subst]. eapply same_hole; eauto. now apply firsts_sub in I'.
  Qed.

  Lemma extract_generated : forall kts t fp key path, path_template kts t -> separated kts t ->
    consistent t -> covers kts t -> one_class kts -> key_ok kts key -> fp_ok fp ->
    (asks_fp t <-> fp <> None) -> generate_path other fp key (print t) = Ok path ->
    exists key', extract_placeholders kts path (print t) = Ok (fp, key') /\ same_key key' key.
  Proof.
    intros kts t fp key path P S C V U K F A G.
    assert (O := path_template_ok kts t P). assert (Eu := path_unindex kts t P).
    apply generated in G; [|exact O|now rewrite Eu]. rewrite Eu in G. destruct G as [-> R].
    set (tau := tau_of other fp key) in *.
    destruct (tau_texts other kts fp key t K P (proj1 A)) as [T _]. fold tau in T.
    unfold extract_placeholders. rewrite (ptokens_print kts t _ P (le_n _)).
    rewrite compile_path.
    2:{ intros h h' I I' E. now rewrite (same_hole kts t h h' P C I I' E). }
    2:{ intros h f _ E. discriminate. }
    rewrite (pmatch_path kts tau t S T).
    2:{ intros h h' I I' E. now rewrite (same_hole kts t h h' P C I I' E). }
    2:{ intros h v _ E. discriminate. }
    cbn [app map]. set (H := firsts [] t).
    assert (HX := firsts_exact kts t P C). fold H in HX.
    destruct (extract_fold tau kts fp H [] {| x_fp := None; x_comps := []; x_last := [] |}) as (x & Ex & I1 & I2 & I3 & I4).
    - split; [reflexivity|]. split; [reflexivity|]. split; [constructor|]. intro N; exfalso; apply N; reflexivity.
    - apply firsts_NoDup.
    - apply Forall_forall. intros h I. cbn [app] in I. apply HX in I. unfold path_template in P.
      rewrite Forall_forall in P. exact (P _ I).
    - intros h I ->. apply HX in I. apply A in I. destruct fp as [z|]; [|congruence].
      exists z. split; [reflexivity|]. split; [exact F|reflexivity].
    - cbn [app] in *. rewrite Ex. cbn [bind].
      (* names *)
      assert (Kn : forall n, dmem str_eqb (x_comps x) n = dmem str_eqb kts n).
      { intro n. unfold dmem. rewrite I2. destruct (comps_of tau n H) as [|[c s] l] eqn:Q.
        - destruct (dget str_eqb kts n) as [cls|] eqn:Gk; [|reflexivity]. exfalso.
          destruct (V n cls Gk) as (cs & Sc & Ic). assert (N := supported_nonempty cls cs Sc).
          destruct cs as [|c cs]; [congruence|]. destruct (proj1 (Ic c) (or_introl eq_refl)) as [spec I].
          apply HX in I. apply specs_in in I. rewrite comps_specs in Q. apply map_eq_nil in Q. rewrite Q in I. destruct I.
        - assert (I : In (c, s) (comps_of tau n H)) by (rewrite Q; now left).
          apply comps_of_in in I. destruct I as (h & I & En & Ea & _). apply HX in I.
          destruct h as [m a sp]. cbn [h_name h_accs] in En, Ea. subst.
          destruct (path_component kts t n c sp P I) as (cls & -> & _). reflexivity. }
      assert (FK : forall n, dmem str_eqb (x_comps x) n = true -> exists f, dget str_eqb key n = Some f /\
                   field_ok f /\ dget str_eqb kts n = Some (class_of f)).
      { intros n M. rewrite Kn in M. destruct K as [K1 K2]. rewrite <- K1 in M. unfold dmem in M.
        destruct (dget str_eqb key n) as [f|] eqn:Gf; [|discriminate]. exists f. split; [reflexivity|]. now apply K2. }
      set (g := fun n => match dget str_eqb key n with Some f => f | None => FNull end).
      assert (BK : build_key kts x = Ok (map (fun nc => (fst nc, g (fst nc))) (x_comps x))).
      { unfold build_key. apply mapM_all. apply Forall_forall. intros [n comps] I. cbn [fst snd].
        assert (Gn : dget str_eqb (x_comps x) n = Some comps) by (apply (dget_NoDup str_eqb str_eqb_spec); assumption).
        destruct (FK n) as (f & Gf & Of & Gk); [unfold dmem; now rewrite Gn|].
        destruct (I4 ltac:(intro Q; rewrite Q in I; destruct I)) as [cl Gl]. rewrite Gl.
        rewrite (U _ _ _ _ Gl Gk). unfold g. rewrite Gf.
        assert (Ec : comps = comps_of tau n H).
        { rewrite I2 in Gn. destruct (comps_of tau n H); inversion Gn. reflexivity. }
        assert (NE : n <> $"input_fingerprint") by (eapply covered_not_fp; eauto).
        rewrite (field_roundtrip other f (specs_of n H) comps); [reflexivity|exact Of| | |].
        - destruct (V n _ Gk) as (cs & Sc & Ic). apply (supported_perm _ cs); [exact Sc|].
          apply NoDup_Permutation; [eapply supported_NoDup; exact Sc|apply specs_NoDup, firsts_NoDup|].
          intro c. rewrite Ic. split.
          + intros [spec Hi]. apply HX in Hi. apply specs_in in Hi. apply in_map_iff. exists (c, spec). auto.
          + intro Hi. apply in_map_iff in Hi. destruct Hi as ([c' spec] & E & Hi). cbn in E. subst c'.
            apply specs_in in Hi. exists spec. now apply HX.
        - apply Forall_forall. intros [c spec] Hi. apply specs_in in Hi. apply HX in Hi. cbn [fst snd].
          destruct (path_component kts t n c spec P Hi) as (cls & G' & _ & Sp & _). rewrite Gk in G'.
          inversion G'; subst cls. now apply plain_of.
        - rewrite Ec, comps_specs. unfold tau. apply render_holes with (fp := fp) (key := key); [exact NE|exact Gf|].
          apply Forall_forall. intros [c spec] Hi. apply specs_in in Hi. apply HX in Hi. cbn [fst snd].
          now apply R. }
      rewrite BK. cbn [bind]. set (key' := map (fun nc => (fst nc, g (fst nc))) (x_comps x)).
      assert (Gk' : forall n, dget str_eqb key' n = if dmem str_eqb (x_comps x) n then Some (g n) else None)
        by (intro n; apply dget_map_keys).
      assert (SN : same_names key' kts = true).
      { unfold same_names. apply andb_true_iff. split; apply forallb_forall.
        - intros [n f] I. cbn [fst]. rewrite <- Kn. unfold key' in I. apply in_map_iff in I.
          destruct I as ([m l] & E & I). inversion E; subst. unfold dmem.
          assert (Gn : dget str_eqb (x_comps x) n = Some l) by (apply (dget_NoDup str_eqb str_eqb_spec); assumption).
          now rewrite Gn.
        - intros [n cls] I. cbn [fst]. unfold dmem. rewrite Gk', Kn.
          assert (M : dmem str_eqb kts n = true).
          { unfold dmem. destruct (dget str_eqb kts n) eqn:Q; [reflexivity|].
            apply (dget_None str_eqb str_eqb_spec) in Q. exfalso. apply Q. apply in_map_iff. exists (n, cls). auto. }
          now rewrite M. }
      rewrite SN. exists key'. split.
      + f_equal. f_equal. rewrite I1. destruct (existsb _ H) eqn:Q; [reflexivity|].
        destruct fp as [z|]; [|reflexivity]. exfalso.
        assert (Af : asks_fp t) by (apply A; discriminate). apply HX in Af.
        assert (Q' : existsb (fun h => str_eqb (hkey h) $"input_fingerprint") H = true).
        { apply existsb_exists. exists fp_hole. split; [exact Af|reflexivity]. }
        congruence.
      + intro n. rewrite Gk', Kn. destruct K as [K1 _]. rewrite <- K1. unfold g, dmem.
        destruct (dget str_eqb key n); reflexivity.
  Qed.

  (** * Wildcards *)

  Definition wild (t : template) : str :=
    flat_map (fun x => match x with TLit s => s | THole _ => $"*" end) t.

  Lemma wildcard_path : forall kts t, path_template kts t -> plain_specs t ->
    spec_to_wildcard other (print t) kts = Ok (wild t).
  Proof.
    intros kts t P N. assert (O := path_template_ok kts t P). unfold spec_to_wildcard.
    change $"{input_fingerprint}" with (ph $"input_fingerprint").
    assert (Nf : name_ok $"input_fingerprint").
    { split; [discriminate|]. split; [reflexivity|]. repeat constructor; cbn; intuition discriminate. }
    rewrite replace_with by assumption. rewrite vformat_print.
    - erewrite mapM_all with (g := fun x => match x with TLit s => s | THole _ => $"*" end).
      + cbn [rmap]. f_equal. unfold wild. rewrite flat_map_concat_map. rewrite map_map. f_equal.
        apply map_ext. intros [s|h]; [reflexivity|]. destruct (is_ph _ _); reflexivity.
      + apply Forall_map. apply Forall_forall. intros x I. unfold path_template in P.
        rewrite Forall_forall in P. specialize (P x I). destruct x as [s|h]; [reflexivity|].
        destruct P as [->|(cls & c & Ea & Ek & Ic & S & W & D & NE)]; [reflexivity|].
        assert (Q : is_ph $"input_fingerprint" (THole h) = false).
        { destruct (is_ph _ _) eqn:Q; [|reflexivity]. apply is_ph_iff in Q. inversion Q; subst h. now cbn in NE. }
        rewrite Q. cbn [eval_tok]. unfold format_wildcard. rewrite Ek, Ea, (N h I). cbn [fold_left bind waccess].
        assert (Ow : own_wildcard_attribute c = false /\ existsb (str_eqb c) (components cls) = true).
        { split; [|now apply existsb_str].
          assert (H : In c [$"value"; $"Y"; $"m"; $"d"; $"iso"; $"hex"]) by (destruct cls; cbn [components In] in *; tauto).
          cbn [In] in H. repeat (destruct H as [<-|H]; [reflexivity|]). destruct H. }
        destruct Ow as [-> ->]. reflexivity.
    - apply Forall_map. eapply Forall_impl; [|exact O]. intros x Hx. cbn beta.
      destruct (is_ph _ x); [|exact Hx]. repeat constructor. cbn. intuition discriminate.
  Qed.

  (** Matching text by text. *)
  Inductive gmatch : str -> str -> Prop :=
  | gm_nil : gmatch [] []
  | gm_char : forall c p s, gmatch p s -> gmatch (c :: p) (c :: s)
  | gm_star : forall txt p s, txt <> [] -> ~ In "/"%char txt -> starts_with $"." txt = false ->
      gmatch p s -> gmatch ("*"%char :: p) (txt ++ s).

  Lemma fnmatch_star : forall p txt s, fnmatch p s = true -> fnmatch ("*"%char :: p) (txt ++ s) = true.
  Proof.
    intros p txt s H. cbn [fnmatch]. change ("*" =c "*") with true. cbn iota.
    induction txt as [|c txt IH]; cbn [app].
    - destruct s; cbn; now rewrite H.
    - rewrite IH. apply orb_true_r.
  Qed.

  Lemma fnmatch_char : forall c p s, fnmatch p s = true -> fnmatch (c :: p) (c :: s) = true.
  Proof.
    intros c p s H. destruct (Ascii.eqb_spec c "*"%char) as [->|N].
    - apply (fnmatch_star p ["*"%char] s H).
    - cbn [fnmatch]. rewrite (proj2 (Ascii.eqb_neq _ _) N), Ascii.eqb_refl, orb_true_r. exact H.
  Qed.

  Lemma hidden_cons : forall c s, hidden (c :: s) = Ascii.eqb "."%char c.
  Proof. intros c s. unfold hidden. cbn. apply andb_true_r. Qed.

  Lemma split_head : forall c s, exists h r, split_char c s = h :: r.
  Proof. intros c s. destruct (split_char c s) eqn:E; [now apply split_nonempty in E|eauto]. Qed.

  Lemma gmatch_glob : forall p s, gmatch p s -> glob_match p s = true.
  Proof.
    intros p s G. unfold glob_match. induction G as [|c p s G IH|txt p s N1 N2 N3 G IH].
    - reflexivity.
    - cbn [split_char]. destruct (Ascii.eqb_spec c "/"%char) as [->|N].
      + cbn [match_segments]. exact IH.
      + destruct (split_head "/"%char p) as (hp & rp & Ep). destruct (split_head "/"%char s) as (hs & rs & Es).
        rewrite Ep, Es in *. cbn [match_segments] in *. apply andb_true_iff in IH. destruct IH as [I1 I2].
        rewrite I2, andb_true_r. unfold match_segment in *. apply andb_true_iff in I1. destruct I1 as [I1 _].
        rewrite fnmatch_char by exact I1. rewrite !hidden_cons. destruct (Ascii.eqb "." c); reflexivity.
    - destruct (split_head "/"%char p) as (hp & rp & Ep). destruct (split_head "/"%char s) as (hs & rs & Es).
      assert (Ea : split_char "/"%char (txt ++ s) = (txt ++ hs) :: rs).
      { clear N1 N3. induction txt as [|c txt IHt]; [exact Es|]. cbn [app split_char].
        destruct (Ascii.eqb_spec c "/"%char) as [->|N]; [exfalso; apply N2; now left|].
        rewrite IHt by (intro; apply N2; now right). reflexivity. }
      cbn [split_char]. change (Ascii.eqb "*" "/") with false. cbn iota. rewrite Ep, Ea, Es in *.
      cbn [match_segments] in *. apply andb_true_iff in IH. destruct IH as [I1 I2].
      rewrite I2, andb_true_r. unfold match_segment in *. apply andb_true_iff in I1. destruct I1 as [I1 _].
      rewrite fnmatch_star by exact I1. destruct txt as [|c txt]; [congruence|].
      change (hidden (c :: txt) = false) in N3. cbn [app]. rewrite !hidden_cons in *. now rewrite N3.
  Qed.

  Lemma text_plain : forall kts h s, text_of (hole_chars kts h) s ->
    s <> [] /\ ~ In "/"%char s /\ starts_with $"." s = false.
  Proof.
    intros kts h s (c & r & -> & Hc & F). split; [discriminate|]. split.
    - intros [->|I]; [cbn in Hc; intuition discriminate|]. rewrite Forall_forall in F. specialize (F _ I).
      unfold hole_chars, tail_chars in F.
      destruct (h_accs h) as [|[a|k] l]; try (cbn in F; intuition discriminate).
      destruct (dget str_eqb kts (h_name h)) as [[|w|]|]; [| | |destruct F].
      + destruct (_ || _); cbn in F; intuition discriminate.
      + destruct (str_eqb a _); cbn in F; intuition discriminate.
      + cbn in F; intuition discriminate.
    - change (hidden (c :: r) = false). rewrite hidden_cons. destruct (Ascii.eqb_spec "."%char c) as [<-|N]; [cbn in Hc; intuition discriminate|reflexivity].
  Qed.

  Lemma path_gmatch : forall kts tau t, texts_for kts t tau -> gmatch (wild t) (path_of tau t).
  Proof.
    intros kts tau t. induction t as [|[s|h] t IH]; intro T.
    - constructor.
    - assert (G : gmatch (wild t) (path_of tau t)) by (apply IH; intros h H; apply T; now right).
      unfold wild, path_of. cbn [flat_map]. fold (wild t). fold (path_of tau t).
      induction s as [|c s IHs]; [exact G|]. cbn [app]. constructor. apply IHs.
      intros h [H|H]; [discriminate|apply T; now right].
    - assert (G : gmatch (wild t) (path_of tau t)) by (apply IH; intros h0 H; apply T; now right).
      unfold wild, path_of. cbn [flat_map app]. fold (wild t). fold (path_of tau t).
      destruct (T h (or_introl eq_refl)) as [Th _]. destruct (text_plain kts h _ Th) as (N1 & N2 & N3).
      constructor; assumption.
  Qed.

  Lemma generated_matches : forall kts t fp key path, path_template kts t -> plain_specs t ->
    key_ok kts key -> (asks_fp t -> fp <> None) ->
    generate_path other fp key (print t) = Ok path ->
    exists w, spec_to_wildcard other (print t) kts = Ok w /\ glob_match w path = true.
  Proof.
    intros kts t fp key path P N K A G. exists (wild t). split; [now apply wildcard_path|].
    assert (O := path_template_ok kts t P). assert (Eu := path_unindex kts t P).
    apply generated in G; [|exact O|now rewrite Eu]. rewrite Eu in G. destruct G as [-> _].
    destruct (tau_texts other kts fp key t K P A) as [T _]. apply gmatch_glob. eapply path_gmatch. exact T.
  Qed.
End Roundtrip.

(** * Generating partitions *)

Section Generate.
  Context (other : cvalue -> str -> result str).

  Lemma fp_name_ok : name_ok $"input_fingerprint".
  Proof. split; [discriminate|]. split; [reflexivity|]. repeat constructor; cbn; intuition discriminate. Qed.

  Lemma contains_fp : forall t, template_ok t -> contains_sub fp_template (print t) = true <-> asks_fp t.
  Proof.
    intros t O. change fp_template with (ph $"input_fingerprint").
    rewrite <- (app_nil_r (ph _)), contains_print by (exact fp_name_ok || exact O).
    unfold asks_fp. split.
    - intros (a & b & -> & _). apply in_or_app. right. now left.
    - intro I. apply in_split in I. destruct I as (a & b & ->). exists a, b. split; reflexivity.
  Qed.

  Lemma includes_fp_asks : forall st,
    (forall n s, In (n, Some s) (s_fields st) -> exists t, s = print t /\ template_ok t) ->
    includes_fp st = true <-> storage_asks_fp st.
  Proof.
    intros st T. unfold includes_fp. rewrite existsb_exists. split.
    - intros ([n [s|]] & I & C); cbn [snd] in C; [|discriminate].
      destruct (T n s I) as (t & -> & O). exists n, t. split; [exact I|]. split; [exact O|]. now apply contains_fp.
    - intros (n & t & I & O & A). exists (n, Some (print t)). split; [exact I|]. now apply contains_fp.
  Qed.

  (** What a partition records, and the arguments it took. *)
  Lemma generate_inv : forall st fp key p, generate_partition other st fp key = Ok p ->
    exists kts, s_key_types st = Some kts /\ (key <> [] <-> kts <> []) /\ (fp <> None <-> includes_fp st = true) /\
      p_fp p = fp /\ p_key p = key /\ p_storage p = st /\
      Forall2 (fun nv nv' => fst nv' = fst nv /\
        match snd nv with
        | Some t => exists s, generate_path other fp key t = Ok s /\ snd nv' = Some s
        | None => snd nv' = None
        end) (s_fields st) (p_fields p).
  Proof.
    intros st fp key p E. unfold generate_partition, get_key_types in E.
    destruct (s_key_types st) as [kts|]; [|discriminate]. cbn [bind] in E. exists kts. split; [reflexivity|].
    destruct (check_key kts key) as [u|e] eqn:Ck; [|discriminate]. cbn [bind] in E.
    destruct (Bool.eqb _ _) eqn:B; [|discriminate].
    destruct (mapM _ (s_fields st)) as [fs|e] eqn:M; [|discriminate]. cbn in E. inversion E; subst p; clear E.
    split; [|split].
    - destruct kts, key; try discriminate; split; congruence.
    - apply Bool.eqb_prop in B. destruct fp as [z|]; split; intro H; try congruence; try discriminate.
    - cbn [p_fp p_key p_storage p_fields]. repeat (split; [reflexivity|]).
      apply Base_Proofs.mapM_Forall2 in M. induction M as [|[n v] [n' v'] l l' Hx M IH]; constructor; [|exact IH].
      cbn [fst snd] in *. destruct v as [s|].
      + destruct (generate_path other fp key s) as [r|e]; [|discriminate]. cbn in Hx. inversion Hx; subst. eauto.
      + inversion Hx; subst. auto.
  Qed.

  Lemma generate_refuses : forall st kts fp key, s_key_types st = Some kts ->
    (key <> [] <-> kts = []) \/ (fp <> None <-> includes_fp st = false) ->
    generate_partition other st fp key = Err ValueError.
  Proof.
    intros st kts fp key K H. unfold generate_partition, get_key_types. rewrite K. cbn [bind].
    destruct H as [H|H].
    - destruct kts as [|k kts], key as [|x key]; try reflexivity.
      + exfalso. assert (@nil (str * field) <> []) by (apply H; reflexivity). congruence.
      + exfalso. assert (k :: kts = []) by (apply H; discriminate). discriminate.
    - destruct (check_key kts key) as [u|e] eqn:Ck.
      + cbn [bind]. assert (B : Bool.eqb (match fp with None => false | Some _ => true end) (includes_fp st) = false).
        { destruct fp as [z|], (includes_fp st); try reflexivity.
          - exfalso. assert (true = false) by (apply H; discriminate). discriminate.
          - exfalso. assert (@None Z <> None) by (apply H; reflexivity). congruence. }
        now rewrite B.
      + destruct kts, key; inversion Ck; reflexivity.
  Qed.

  Lemma check_key_ok : forall kts key, key_ok kts key -> check_key kts key = Ok tt.
  Proof.
    intros kts key [N _]. destruct kts as [|[k c] kts], key as [|[n f] key]; try reflexivity.
    - specialize (N n). unfold dmem in N. cbn in N. rewrite str_eqb_refl in N. discriminate.
    - specialize (N k). unfold dmem in N. cbn in N. rewrite str_eqb_refl in N. discriminate.
  Qed.

  Lemma asks_unindex : forall t, fillable [($"input_fingerprint", [])] t -> asks_fp (unindex t) <-> asks_fp t.
  Proof.
    intros t F. unfold asks_fp, unindex. rewrite in_map_iff. split.
    - intros ([s|h] & E & I); [discriminate|]. inversion E as [[En Ea Es]].
      destruct (F h I) as [Ba Bs].
      + unfold dmem. cbn. rewrite En. now rewrite str_eqb_refl.
      + destruct h as [n a s]. cbn in *. subst. exact I.
    - intro I. exists (THole fp_hole). split; [reflexivity|exact I].
  Qed.

  Lemma generate_complete : forall st kts fp key, path_storage st kts -> key_ok kts key ->
    (storage_asks_fp st <-> fp <> None) -> exists p, generate_partition other st fp key = Ok p.
  Proof.
    intros st kts fp key [K T] Ko A. unfold generate_partition, get_key_types. rewrite K. cbn [bind].
    rewrite check_key_ok by exact Ko. cbn [bind].
    assert (I : includes_fp st = true <-> storage_asks_fp st).
    { apply includes_fp_asks. intros n s Hi. destruct (T n s Hi) as (t & E & O & _). eauto. }
    assert (B : Bool.eqb (match fp with None => false | Some _ => true end) (includes_fp st) = true).
    { destruct fp as [z|], (includes_fp st); try reflexivity.
      - exfalso. assert (false = true) by (apply I, A; discriminate). discriminate.
      - exfalso. assert (@None Z <> None) by (apply A, I; reflexivity). congruence. }
    rewrite B.
    assert (M : exists fs, mapM (fun nv => match snd nv with
                         | Some t => rmap (fun t' => (fst nv, Some t')) (generate_path other fp key t)
                         | None => Ok nv
                         end) (s_fields st) = Ok fs).
    { assert (Q : forall nv, In nv (s_fields st) -> exists r, (match snd nv with
                         | Some t => rmap (fun t' => (fst nv, Some t')) (generate_path other fp key t)
                         | None => Ok nv
                         end) = Ok r).
      { intros [n [s|]] Hi; cbn [snd fst]; [|eauto]. destruct (T n s Hi) as (t & -> & O & P & F).
        rewrite (generates other kts fp key t Ko O P); [eexists; reflexivity|].
        intro Af. apply A. apply (asks_unindex t F) in Af. exists n, t. auto. }
      clear -Q. induction (s_fields st) as [|nv l IH]; [exists []; reflexivity|]. cbn [mapM].
      destruct (Q nv (or_introl eq_refl)) as [r ->]. cbn [bind].
      destruct IH as [fs ->]; [intros; apply Q; now right|]. eexists. reflexivity. }
    destruct M as [fs ->]. eexists. reflexivity.
  Qed.

  (** * Discovery *)

  Lemma vformat_ext : forall n r1 r2 s, (forall a b c d, r1 a b c d = r2 a b c d) ->
    vformat_at n r1 s = vformat_at n r2 s.
  Proof.
    induction n as [|n IH]; intros r1 r2 s H; [reflexivity|]. cbn [vformat_at]. f_equal.
    apply mapM_ext. intros [t|name spec conv|] _; try reflexivity.
    destruct (field_name name) as [fa|e]; [|reflexivity]. cbn [bind]. rewrite (IH r1 r2 spec H).
    destruct (vformat_at n r2 spec); [|reflexivity]. cbn [bind]. apply H.
  Qed.

  Lemma generate_path_same : forall fp a b t, same_key a b ->
    generate_path other fp a t = generate_path other fp b t.
  Proof.
    intros fp a b t S. unfold generate_path. destruct (strip_partition_indexes other t); [|reflexivity].
    cbn [bind]. apply vformat_ext. intros n accs conv spec. unfold format_final. now rewrite S.
  Qed.

  Lemma field_eqb_spec : forall a b, field_eqb a b = true <-> a = b.
  Proof.
    intros [y m d|w v|] [y' m' d'|w' v'|]; cbn; split; try discriminate; try reflexivity.
    - rewrite !andb_true_iff, !Z.eqb_eq. intros [[-> ->] ->]. reflexivity.
    - intro E. inversion E. now rewrite !Z.eqb_refl.
    - rewrite andb_true_iff, Z.eqb_eq. intros [W ->]. destruct w, w'; try discriminate; reflexivity.
    - intro E. inversion E. rewrite Z.eqb_refl. now destruct w'.
  Qed.

  Lemma key_eqb_same : forall k a b, same_key a b -> key_eqb k a = key_eqb k b.
  Proof.
    intros k a b S. unfold key_eqb. f_equal.
    - induction k as [|x k IH]; [reflexivity|]. cbn [forallb]. now rewrite S, IH.
    - assert (Q : forall a, forallb (fun kv : str * field => dmem str_eqb k (fst kv)) a = true <->
                  forall n, dmem str_eqb a n = true -> dmem str_eqb k n = true).
      { intro a0. rewrite forallb_forall. split.
        - intros F n M. unfold dmem in M. destruct (dget str_eqb a0 n) as [f|] eqn:G; [|discriminate].
          apply (dget_In str_eqb str_eqb_spec) in G. apply (F _ G).
        - intros F [n f] I. cbn [fst]. apply F. unfold dmem.
          destruct (dget str_eqb a0 n) eqn:G; [reflexivity|]. apply (dget_None str_eqb str_eqb_spec) in G.
          exfalso. apply G. apply in_map_iff. exists (n, f). auto. }
      apply Bool.eq_iff_eq_true. rewrite !Q. unfold dmem. split; intros F n; specialize (F n); rewrite S in *; exact F.
  Qed.

  Lemma requested_same : forall fps a b, same_key a b -> requested fps a = requested fps b.
  Proof.
    intros fps a b S. unfold requested. assert (E : dget key_eqb fps a = dget key_eqb fps b); [|now rewrite E].
    induction fps as [|[k v] fps IH]; [reflexivity|]. cbn [dget]. now rewrite (key_eqb_same k a b S), IH.
  Qed.

  Lemma key_eqb_spec : forall a b, NoDup (map fst a) -> key_eqb a b = true <-> same_key a b.
  Proof.
    intros a b N. unfold key_eqb. rewrite andb_true_iff, !forallb_forall. split.
    - intros [H1 H2] n. destruct (dget str_eqb a n) as [f|] eqn:G.
      + apply (dget_In str_eqb str_eqb_spec) in G. specialize (H1 _ G). cbn [fst snd] in H1.
        destruct (dget str_eqb b n) as [g|]; [|discriminate]. apply field_eqb_spec in H1. now subst.
      + destruct (dget str_eqb b n) as [g|] eqn:Gb; [|reflexivity].
        apply (dget_In str_eqb str_eqb_spec) in Gb. specialize (H2 _ Gb). cbn [fst] in H2. unfold dmem in H2.
        now rewrite G in H2.
    - intro S. split; intros [n f] I; cbn [fst snd].
      + apply (dget_NoDup str_eqb str_eqb_spec) in I; [|exact N]. rewrite <- S, I. now apply field_eqb_spec.
      + unfold dmem. rewrite S. destruct (dget str_eqb b n) eqn:G; [reflexivity|].
        apply (dget_None str_eqb str_eqb_spec) in G. exfalso. apply G. apply in_map_iff. exists (n, f). auto.
  Qed.

  Lemma requested_asked : forall fps key fp, dict_keys fps -> requested fps key = fp <-> asked fps key fp.
  Proof.
    intros fps key fp D. unfold requested. induction D as [|[k v] fps Nk D IH].
    - cbn [dget]. split; [intros <-; constructor|]. intro A. now inversion A.
    - cbn [dget fst] in *. assert (Q := key_eqb_spec k key Nk). destruct (key_eqb k key).
      + split; [intros <-; constructor; now apply Q|]. intro A. inversion A; subst; [reflexivity|].
        exfalso. match goal with H : ~ same_key _ _ |- _ => apply H end. now apply Q.
      + rewrite IH. split; [intro A; constructor; [|exact A]; intro S; apply Q in S; discriminate|].
        intro A. inversion A; subst; [|assumption].
        match goal with H : same_key _ _ |- _ => apply Q in H; discriminate H end.
  Qed.

  Lemma opt_eqb_spec : forall a b, opt_eqb a b = true <-> a = b.
  Proof.
    intros [a|] [b|]; cbn; split; try discriminate; try reflexivity.
    - intro E. apply Z.eqb_eq in E. now subst.
    - intro E. inversion E. apply Z.eqb_refl.
  Qed.

  Lemma key_ok_same : forall kts a b, same_key a b -> key_ok kts b -> key_ok kts a.
  Proof.
    intros kts a b S [N K]. split.
    - intro n. rewrite <- N. unfold dmem. now rewrite S.
    - intros n f G. rewrite S in G. now apply K.
  Qed.

  Context {content : Type} (content_fp : content -> Z).

  (** Whatever is discovered exists, and is what was asked for. *)
  Lemma discovered_exists : forall fs path kts fps l, discover_partitions other content_fp fs path kts fps = Ok l -> dict_keys fps ->
    forall z p, In (z, p) l -> exists file c, p_fields p = [($"path", Some file)] /\
      dget str_eqb fs file = Some c /\ z = content_fp c /\ asked fps (p_key p) (p_fp p) /\
      generate_path other (p_fp p) (p_key p) path = Ok file.
  Proof.
    intros fs path kts fps l D Dk z p I. unfold discover_partitions in D.
    destruct (spec_to_wildcard other path kts) as [w|e]; [|discriminate]. cbn [bind] in D.
    destruct (parse_spec _ fps kts path) as [md|e] eqn:Pm; [|discriminate]. cbn [bind] in D.
    apply Base_Proofs.mapM_Forall2 in D.
    assert (X : exists pm, In pm md /\ bind (generate_partition other (local_file path kts) (fst (snd pm)) (snd (snd pm)))
                         (snapshot content_fp fs) = Ok (z, p)).
    { clear Pm. induction D as [|pm b md l' Hb D IH]; [destruct I|]. destruct I as [->|I].
      - exists pm. split; [now left|exact Hb].
      - destruct (IH I) as (pm' & I' & E'). exists pm'. split; [now right|exact E']. }
    destruct X as ([f [fp key]] & Im & E). cbn [fst snd] in E.
    destruct (generate_partition other (local_file path kts) fp key) as [q|e] eqn:G; [|discriminate].
    cbn [bind] in E. unfold snapshot in E.
    destruct (dget str_eqb (p_fields q) $"path") as [[file|]|] eqn:Gp; try discriminate.
    destruct (dget str_eqb fs file) as [c|] eqn:Gf; [|discriminate]. inversion E; subst; clear E.
    exists file, c.
    assert (Gi := generate_inv _ _ _ _ G). destruct Gi as (kts' & _ & _ & _ & E1 & E2 & _ & F2).
    assert (Ef : p_fields p = [($"path", Some file)] /\ generate_path other (p_fp p) (p_key p) path = Ok file).
    { cbn [local_file s_fields] in F2. inversion F2 as [|? [n' v'] ? ? [Hn Hv] F3]; subst. inversion F3; subst.
      cbn [fst snd] in *. destruct Hv as (s & Hs & ->). subst n'.
      match goal with H : _ = p_fields p |- _ => rewrite <- H in Gp end.
      cbn in Gp. inversion Gp; subst. auto. }
    destruct Ef as [Ef1 Ef2]. split; [exact Ef1|]. split; [exact Gf|]. split; [reflexivity|]. split; [|exact Ef2].
    apply requested_asked; [exact Dk|].
    unfold parse_spec in Pm. destruct (mapM _ (glob fs w)) as [ms|e]; [|discriminate]. cbn in Pm. inversion Pm; subst.
    apply filter_In in Im. destruct Im as [_ Q]. cbn [fst snd] in Q. apply opt_eqb_spec in Q.
    exact Q.
  Qed.

  (** A discoverable, written file: parsed back to its key, whose partition is this file. *)
  Lemma written_found : forall kts t fp key path fs c, discoverable kts t ->
    written other kts t fp key path -> dget str_eqb fs path = Some c ->
    exists key' p, extract_placeholders kts path (print t) = Ok (fp, key') /\ same_key key' key /\
      bind (generate_partition other (local_file (print t) kts) fp key') (snapshot content_fp fs) = Ok (content_fp c, p) /\
      p_fp p = fp /\ p_key p = key' /\ p_fields p = [($"path", Some path)].
  Proof.
    intros kts t fp key path fs c (P & S & V & N & _ & U) (K & F & A & G) Gf.
    assert (C : consistent t) by (intros h h' I I' _ _; rewrite (N h I), (N h' I'); reflexivity).
    destruct (extract_generated other kts t fp key path P S C V U K F A G) as (key' & E & Sk).
    assert (O := path_template_ok kts t P).
    exists key'.
    assert (Gp : generate_path other fp key' (print t) = Ok path) by (rewrite (generate_path_same fp key' key) by exact Sk; exact G).
    exists {| p_fp := fp; p_key := key'; p_storage := local_file (print t) kts; p_fields := [($"path", Some path)] |}.
    split; [exact E|]. split; [exact Sk|]. split; [|auto].
    assert (Gn : generate_partition other (local_file (print t) kts) fp key' =
      Ok {| p_fp := fp; p_key := key'; p_storage := local_file (print t) kts; p_fields := [($"path", Some path)] |}).
    { unfold generate_partition, get_key_types. cbn [local_file s_key_types bind].
      rewrite check_key_ok by (eapply key_ok_same; eassumption). cbn [bind].
      assert (B : Bool.eqb (match fp with None => false | Some _ => true end) (includes_fp (local_file (print t) kts)) = true).
      { unfold includes_fp. cbn [local_file s_fields existsb snd]. rewrite orb_false_r.
        assert (Q := contains_fp t O). destruct fp as [z|], (contains_sub fp_template (print t)); try reflexivity.
        - exfalso. assert (false = true) by (apply Q, A; discriminate). discriminate.
        - exfalso. assert (@None Z <> None) by (apply A, Q; reflexivity). congruence. }
      rewrite B. cbn [local_file s_fields mapM snd fst]. rewrite Gp. reflexivity. }
    rewrite Gn. cbn [bind]. unfold snapshot. cbn [p_fields dget].
    change (str_eqb $"path" $"path") with true. cbn iota. now rewrite Gf.
  Qed.

  Lemma glob_in : forall (fs : list (str * content)) w path, In path (map fst fs) -> glob_match w path = true -> In path (glob fs w).
  Proof. intros fs w path I M. unfold glob. apply filter_In. auto. Qed.

  Lemma discovered_all : forall fs kts t fps l, discoverable kts t ->
    discover_partitions other content_fp fs (print t) kts fps = Ok l -> dict_keys fps ->
    forall fp key path c, written other kts t fp key path -> dget str_eqb fs path = Some c ->
    asked fps key fp ->
    exists p, In (content_fp c, p) l /\ p_fp p = fp /\ same_key (p_key p) key /\ p_fields p = [($"path", Some path)].
  Proof.
    intros fs kts t fps l Dt D Dk fp key path c W Gf Rq. apply requested_asked in Rq; [|exact Dk].
    destruct (written_found kts t fp key path fs c Dt W Gf) as (key' & p & Ex & Sk & Gn & Pf & Pk & Pp).
    destruct Dt as (P & S & V & N & _ & U). destruct W as (K & F & A & G).
    unfold discover_partitions in D. rewrite (wildcard_path other kts t P N) in D. cbn [bind] in D.
    destruct (parse_spec _ fps kts (print t)) as [md|e] eqn:Pm; [|discriminate]. cbn [bind] in D.
    assert (Ig : In path (glob fs (wild t))).
    { apply glob_in; [eapply dget_Some_key; [exact str_eqb_spec|exact Gf]|].
      destruct (generated_matches other kts t fp key path P N K (proj1 A) G) as (w & Ew & M).
      rewrite (wildcard_path other kts t P N) in Ew. inversion Ew; subst. exact M. }
    assert (Im : In (path, (fp, key')) md).
    { unfold parse_spec in Pm. destruct (mapM _ (glob fs (wild t))) as [ms|e] eqn:Mm; [|discriminate].
      cbn in Pm. inversion Pm; subst md. apply filter_In. split.
      - apply Base_Proofs.mapM_Forall2 in Mm. clear -Mm Ig Ex. induction Mm as [|a b la lb Hab Mm IH]; [destruct Ig|].
        destruct Ig as [->|Ig]; [|right; now apply IH]. left. rewrite Ex in Hab. cbn in Hab. now inversion Hab.
      - cbn [fst snd]. apply opt_eqb_spec. now rewrite (requested_same fps key' key Sk). }
    exists p. split; [|subst; auto].
    apply Base_Proofs.mapM_Forall2 in D. clear -D Im Gn. induction D as [|pm b md' l' Hb D IH]; [destruct Im|].
    destruct Im as [->|Im]; [|right; now apply IH]. left. cbn [fst snd] in Hb. rewrite Gn in Hb. now inversion Hb.
  Qed.

  (** Discovery succeeds when all matching files were written by this template. *)
  Lemma discovery_succeeds : forall fs kts t fps, discoverable kts t ->
    (forall path, In path (map fst fs) -> (forall w, spec_to_wildcard other (print t) kts = Ok w -> glob_match w path = true) ->
       exists fp key, written other kts t fp key path) ->
    exists l, discover_partitions other content_fp fs (print t) kts fps = Ok l.
  Proof.
    intros fs kts t fps Dt W. unfold discover_partitions.
    assert (Dt' := Dt). destruct Dt' as (P & S & V & N & _ & U).
    rewrite (wildcard_path other kts t P N). cbn [bind].
    assert (X : forall path, In path (glob fs (wild t)) ->
       exists fp key' p c, extract_placeholders kts path (print t) = Ok (fp, key') /\
         bind (generate_partition other (local_file (print t) kts) fp key') (snapshot content_fp fs) = Ok (content_fp c, p)).
    { intros path I. unfold glob in I. apply filter_In in I. destruct I as [I M].
      destruct (W path I) as (fp & key & Wr).
      { intros w E. rewrite (wildcard_path other kts t P N) in E. now inversion E; subst. }
      destruct (dget str_eqb fs path) as [c|] eqn:Gf.
      - destruct (written_found kts t fp key path fs c Dt Wr Gf) as (key' & p & E1 & _ & E2 & _).
        exists fp, key', p, c. auto.
      - apply (dget_None str_eqb str_eqb_spec) in Gf. contradiction. }
    assert (Y : exists md, mapM (fun path => rmap (pair path) (extract_placeholders kts path (print t))) (glob fs (wild t)) = Ok md /\
      Forall (fun pm => exists r, bind (generate_partition other (local_file (print t) kts) (fst (snd pm)) (snd (snd pm)))
                         (snapshot content_fp fs) = Ok r) md).
    { induction (glob fs (wild t)) as [|path ps IH]; [exists []; split; [reflexivity|constructor]|].
      destruct IH as (md & E & Fm); [intros q I; apply X; now right|].
      destruct (X path (or_introl eq_refl)) as (fp & key' & p & c & E1 & E2).
      exists ((path, (fp, key')) :: md). cbn [mapM]. rewrite E1. cbn [rmap bind]. rewrite E. cbn [bind].
      split; [reflexivity|]. constructor; [|exact Fm]. cbn [fst snd]. eauto. }
    destruct Y as (md & E & Fm). unfold parse_spec. rewrite E. cbn [rmap bind].
    assert (Z : forall md', Forall (fun pm => exists r, bind (generate_partition other (local_file (print t) kts) (fst (snd pm)) (snd (snd pm)))
                         (snapshot content_fp fs) = Ok r) md' ->
      exists l, mapM (fun pm : str * (option Z * pkey) => bind (generate_partition other (local_file (print t) kts) (fst (snd pm)) (snd (snd pm)))
                         (snapshot content_fp fs)) md' = Ok l).
    { induction md' as [|pm md' IH]; intro Q; [exists []; reflexivity|]. inversion Q as [|? ? [r Hr] Q']; subst.
      destruct (IH Q') as [l El]. cbn [mapM]. rewrite Hr. cbn [bind]. rewrite El. eexists. reflexivity. }
    apply Z. apply Forall_forall. intros pm I. apply filter_In in I. rewrite Forall_forall in Fm. apply Fm, I.
  Qed.
End Generate.
