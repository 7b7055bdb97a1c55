(** Proofs about [import_submodules]. *)
From Coq Require Import List String Ascii Bool Arith Lia.
From Verif Require Import Base Base_Proofs Str Str_Proofs Storage_Model Discovery_Proofs Locations_Proofs.
From Verif Require Import Template_Spec Modules_Model Modules_Spec.
Import ListNotations.

Lemma node_ind' : forall P : node -> Prop, P File ->
  (forall es, Forall (fun e => P (snd e)) es -> P (Dir es)) -> forall n, P n.
Proof.
  intros P F D. fix go 1. intros [|es]; [exact F|]. apply D.
  induction es as [|e es IH]; constructor; [apply go|exact IH].
Qed.

Lemma has_dot_iff : forall s, has_dot s = true <-> In "."%char s.
Proof.
  intro s. unfold has_dot. rewrite existsb_exists. split.
  - intros (x & I & E). apply Ascii.eqb_eq in E. now subst.
  - intro I. exists "."%char. split; [exact I|apply Ascii.eqb_refl].
Qed.

Lemma has_dot_false : forall s, has_dot s = false <-> dotless s.
Proof.
  intro s. unfold dotless. rewrite <- has_dot_iff. destruct (has_dot s); split; congruence.
Qed.

(** Names of packages *)

Lemma replace_char : forall a b s, replace [a] [b] s = map (fun c => if Ascii.eqb a c then b else c) s.
Proof.
  intros a b s. unfold replace. induction s as [|c s IH]; cbn [replace_aux map starts_with]; [reflexivity|].
  rewrite andb_true_r. destruct (Ascii.eqb a c); cbn [List.length app]; rewrite ?Nat.sub_diag, IH; reflexivity.
Qed.

Lemma map_char_id : forall a b (s : str), ~ In a s -> map (fun c => if Ascii.eqb a c then b else c) s = s.
Proof.
  intros a b. induction s as [|c s IH]; intro N; [reflexivity|]. cbn [map].
  rewrite IH by (intro I; apply N; now right).
  destruct (Ascii.eqb a c) eqn:E; [|reflexivity]. apply Ascii.eqb_eq in E. subst. exfalso. apply N. now left.
Qed.

Lemma join_cons2 : forall sep (p q : str) ps, join sep (p :: q :: ps) = p ++ sep ++ join sep (q :: ps).
Proof. reflexivity. Qed.

Lemma package_dotted : forall ds, Forall file_name ds -> package ds = dotted ds.
Proof.
  intros ds H. unfold package, dotted. change $"/" with ["/"%char]. change $"." with ["."%char].
  rewrite replace_char. induction ds as [|d ds IH]; [reflexivity|].
  inversion H as [|? ? (_ & _ & Fd) H']; subst. destruct ds as [|e ds].
  - cbn [join]. now apply map_char_id.
  - rewrite !join_cons2, !map_app, IH by exact H'. rewrite (map_char_id _ _ d Fd). reflexivity.
Qed.

Lemma dotted_snoc : forall ds d, exists pre, dotted (ds ++ [d]) = pre ++ d /\ (pre = [] \/ exists q, pre = q ++ $".").
Proof.
  induction ds as [|e ds IH]; intro d.
  - exists []. auto.
  - destruct (IH d) as (pre & E & _). unfold dotted in *.
    assert (X : join $"." ((e :: ds) ++ [d]) = e ++ $"." ++ join $"." (ds ++ [d])) by (destruct ds; reflexivity).
    rewrite X, E. destruct (IH d) as (pre' & E' & [->|[q ->]]).
    + exists (e ++ $"."). split; [|right; now exists e].
      rewrite <- app_assoc. rewrite <- E in *. now rewrite E'.
    + exists (e ++ $"." ++ q ++ $"."). rewrite <- E, E', <- !app_assoc. split; [reflexivity|].
      right. exists (e ++ $"." ++ q). now rewrite <- !app_assoc.
Qed.

Lemma fnmatch_star_iff : forall p s, fnmatch ("*"%char :: p) s = true <-> exists t s', s = t ++ s' /\ fnmatch p s' = true.
Proof.
  intros p s. split; [|intros (t & s' & -> & M); now apply fnmatch_star].
  cbn [fnmatch]. rewrite Ascii.eqb_refl. cbn iota.
  induction s as [|c s IH]; intro M.
  - apply orb_true_iff in M. destruct M as [M|M]; [|discriminate]. exists [], []. auto.
  - apply orb_true_iff in M. destruct M as [M|M].
    + exists [], (c :: s). auto.
    + apply IH in M. destruct M as (t & s' & -> & M). exists (c :: t), s'. auto.
Qed.

Lemma fnmatch_self : forall s, fnmatch s s = true.
Proof. induction s as [|c s IH]; [reflexivity|]. now apply fnmatch_char. Qed.

Lemma include_all : forall s, include s = true.
Proof.
  intro s. unfold include, build_filter. cbn [existsb]. rewrite orb_false_r.
  apply fnmatch_star_iff. exists s, []. rewrite app_nil_r. auto.
Qed.

Lemma dotted_inj : forall ps qs, ps <> [] -> qs <> [] -> Forall dotless ps -> Forall dotless qs ->
  dotted ps = dotted qs -> ps = qs.
Proof.
  intros ps qs A B F G E. rewrite Forall_forall in F, G.
  now apply (join_inj "."%char ps qs A B).
Qed.

Lemma exclude_iff : forall ds d, Forall dotless (ds ++ [d]) ->
  exclude (dotted (ds ++ [d])) = false <-> searched (ds ++ [d]).
Proof.
  intros ds d F. rewrite <- not_true_iff_false. unfold exclude, build_filter. cbn [existsb].
  rewrite orb_false_r, orb_true_iff. split.
  - intro N. split; [exact F|split].
    + intro E. apply N. left. rewrite E. apply fnmatch_self.
    + intros ds' d' x E ->. apply app_inj_tail in E. destruct E as [-> ->]. apply N. right.
      destruct (dotted_snoc ds' (x ++ $"__pycache__")) as (pre & -> & _).
      apply fnmatch_star_iff. exists (pre ++ x), $"__pycache__". rewrite app_assoc. split; [reflexivity|apply fnmatch_self].
  - intros (_ & N1 & N2) [M|M].
    + apply fnmatch_literal in M.
      * apply N1. apply dotted_inj; [now destruct ds|discriminate|exact F| |symmetry; exact M].
        constructor; [|constructor]. intro I. cbv in I. repeat (destruct I as [I|I]; [discriminate|]). exact I.
      * unfold avoids. apply Forall_forall. intros c I J. cbv in I, J.
        repeat (destruct I as [I|I]; [subst c; repeat (destruct J as [J|J]; [discriminate|]); exact J|]). exact I.
    + apply (proj1 (fnmatch_star_iff _ _)) in M. destruct M as (t & s' & E & M).
      apply fnmatch_literal in M.
      2:{ unfold avoids. apply Forall_forall. intros c I J. cbv in I, J.
          repeat (destruct I as [I|I]; [subst c; repeat (destruct J as [J|J]; [discriminate|]); exact J|]). exact I. }
      subst s'. destruct (dotted_snoc ds d) as (pre & E' & P). rewrite E' in E.
      apply app_eq_app in E. destruct E as (l & [[E1 E2]|[E1 E2]]).
      * destruct l as [|c l] using rev_ind.
        { cbn in E2. apply (N2 ds d []); [reflexivity|]. now rewrite <- E2. }
        clear IHl. exfalso. destruct P as [->|[q ->]].
        { destruct t; destruct l; discriminate. }
        rewrite app_assoc in E1. change $"." with ["."%char] in E1. apply app_inj_tail in E1. destruct E1 as [_ <-].
        assert (I : In "."%char $"__pycache__").
        { assert (E3 : $"__pycache__" = (l ++ ["."%char]) ++ d) by exact E2. rewrite E3.
          apply in_or_app. left. apply in_or_app. right. now left. }
        cbv in I. repeat (destruct I as [I|I]; [discriminate|]). exact I.
      * apply (N2 ds d l); auto.
Qed.

(** Walking *)

Lemma below_File : forall ds m, below File ds m -> ds = [] /\ m = File.
Proof. intros ds m H. inversion H; subst; auto. Qed.

Lemma walk_iff : forall n pre s, In s (walk pre n) <->
  exists ds es, ds <> [] /\ below n ds (Dir es) /\ Forall dotless ds /\
                s = package (pre ++ ds) /\ exclude s = false.
Proof.
  induction n as [|es IH] using node_ind'; intros pre s; cbn [walk].
  - split; [intros []|]. intros (ds & es & N & B & _). apply below_File in B. tauto.
  - rewrite in_app_iff. split.
    + intros [I|I].
      * apply in_flat_map in I. destruct I as ([d c] & I & Y). unfold package_yielded in Y. cbn [fst snd] in Y.
        destruct c as [|sub]; [destruct Y|]. destruct (has_dot d) eqn:D; [destruct Y|].
        rewrite include_all in Y. cbn [andb] in Y. destruct (exclude _) eqn:X; [destruct Y|].
        destruct Y as [<-|[]]. exists [d], sub. repeat split; auto; try discriminate.
        -- econstructor; [exact I|constructor].
        -- constructor; [now apply has_dot_false|constructor].
      * assert (X : exists d c, In (d, c) es /\ has_dot d = false /\ In s (walk (pre ++ [d]) c)).
        { clear IH. induction es as [|[d c] es IHes]; [destruct I|]. apply in_app_iff in I. destruct I as [I|I].
          - destruct (has_dot d) eqn:D; [destruct I|]. exists d, c. repeat split; auto. now left.
          - destruct (IHes I) as (d' & c' & J & K). exists d', c'. split; [now right|exact K]. }
        destruct X as (d & c & J & D & W). rewrite Forall_forall in IH. apply (IH _ J) in W.
        destruct W as (ds & es' & N & B & F & -> & X). exists (d :: ds), es'. rewrite <- app_assoc in *.
        repeat split; auto; try discriminate.
        -- econstructor; eauto.
        -- constructor; [now apply has_dot_false|exact F].
    + intros (ds & es' & N & B & F & -> & X). destruct ds as [|d ds]; [congruence|].
      inversion B as [|? ? c ? ? J B']; subst. inversion F as [|? ? Fd F']; subst.
      destruct ds as [|e ds].
      * left. apply in_flat_map. exists (d, c). split; [exact J|]. unfold package_yielded. cbn [fst snd].
        inversion B'; subst. rewrite (proj2 (has_dot_false d) Fd). rewrite include_all, X. now left.
      * right.
        assert (W : In (package (pre ++ d :: e :: ds)) (walk (pre ++ [d]) c)).
        { rewrite Forall_forall in IH. apply (IH _ J). exists (e :: ds), es'. rewrite <- app_assoc.
          repeat split; auto. discriminate. }
        clear IH B. induction es as [|[d' c'] es IHes]; [destruct J|]. apply in_app_iff. destruct J as [J|J].
        -- inversion J; subst. left. now rewrite (proj2 (has_dot_false d) Fd).
        -- right. now apply IHes.
Qed.

(** Directories *)

Lemma below_app : forall n ds m es k, below n ds m -> below m es k -> below n (ds ++ es) k.
Proof. intros n ds m es k H. induction H; intro G; [exact G|]. cbn. econstructor; eauto. Qed.

Lemma below_split : forall ds es n k, below n (ds ++ es) k -> exists m, below n ds m /\ below m es k.
Proof.
  induction ds as [|d ds IH]; intros es n k H.
  - exists n. split; [constructor|exact H].
  - inversion H as [|es' ? c ? ? J B]; subst. apply IH in B. destruct B as (m & B1 & B2).
    exists m. split; [econstructor; eauto|exact B2].
Qed.

Lemma system_below : forall root ds n, file_system root -> below root ds n -> file_system n.
Proof. intros root ds n H B ds' es B'. apply (H (ds ++ ds') es). eapply below_app; eauto. Qed.

Lemma descend_iff : forall ds root m, file_system root -> descend root ds = Some m <-> below root ds m.
Proof.
  induction ds as [|d ds IH]; intros root m FS; cbn [descend].
  - split; [intro E; inversion E; constructor|]. intro B. now inversion B.
  - destruct root as [|es].
    + split; [discriminate|]. intro B. inversion B.
    + assert (N : NoDup (map fst es)) by (apply (FS [] es); constructor).
      split.
      * destruct (dget str_eqb es d) as [c|] eqn:E; [|discriminate]. apply (dget_In str_eqb str_eqb_spec) in E.
        intro D. apply IH in D; [econstructor; eauto|].
        apply (system_below (Dir es) [d]); [exact FS|]. econstructor; [exact E|constructor].
      * intro B. inversion B as [|? ? c ? ? J B']; subst.
        rewrite (proj2 (dget_NoDup str_eqb str_eqb_spec es d c N) J). apply IH; [|exact B'].
        apply (system_below (Dir es) [d]); [exact FS|]. econstructor; [exact J|constructor].
Qed.

Lemma below_names : forall ds root m, file_system root -> below root ds m -> Forall file_name ds.
Proof.
  induction ds as [|d ds IH]; intros root m FS B; constructor; inversion B as [|es ? c ? ? J B']; subst.
  - destruct (FS [] es ltac:(constructor)) as [_ F]. rewrite Forall_forall in F. apply F.
    now apply (in_map fst) in J.
  - apply (IH c m); [|exact B']. apply (system_below (Dir es) [d]); [exact FS|].
    econstructor; [exact J|constructor].
Qed.

(** Paths *)

Lemma split_path : forall ds, Forall (fun d => ~ In "/"%char d) ds -> split_char "/" (path_of ds) = [] :: ds.
Proof.
  induction ds as [|d ds IH]; intro F; [reflexivity|]. inversion F; subst.
  unfold path_of. cbn [map List.concat app split_char]. rewrite Ascii.eqb_refl. f_equal.
  fold (path_of ds). destruct ds as [|e ds].
  - cbn [path_of map List.concat]. rewrite app_nil_r. now apply split_plain.
  - assert (X : d ++ path_of (e :: ds) = d ++ "/"%char :: (e ++ path_of ds)) by reflexivity.
    rewrite X, split_app by assumption. f_equal.
    specialize (IH H2). unfold path_of in IH. cbn [map List.concat app split_char] in IH.
    rewrite Ascii.eqb_refl in IH. inversion IH. reflexivity.
Qed.

Lemma parts_path : forall ds, Forall file_name ds -> path_parts (path_of ds) = ds.
Proof.
  intros ds F. unfold path_parts. rewrite split_path.
  2:{ eapply Forall_impl; [|exact F]. intros d (_ & _ & N). exact N. }
  cbn [filter]. rewrite str_eqb_refl. cbn [orb negb].
  induction F as [|d ds (A & B & _) F IH]; [reflexivity|]. cbn [filter].
  rewrite (eqb_neq str_eqb str_eqb_spec d []) by exact A.
  rewrite (eqb_neq str_eqb str_eqb_spec d $".") by exact B. cbn [orb negb]. now rewrite IH.
Qed.

Lemma path_join : forall ds, ds <> [] -> path_of ds = "/"%char :: join $"/" ds.
Proof.
  induction ds as [|d ds IH]; intro N; [congruence|]. unfold path_of. cbn [map List.concat].
  fold (path_of ds). destruct ds as [|e ds].
  - cbn. now rewrite app_nil_r.
  - rewrite IH by discriminate. rewrite join_cons2. reflexivity.
Qed.

Lemma joinpath_path : forall p ds, Forall file_name p -> ds <> [] -> joinpath (path_of p) ds = path_of (p ++ ds).
Proof.
  intros p ds F N. unfold joinpath. rewrite parts_path by exact F. rewrite path_join; [reflexivity|].
  destruct p; [exact N|discriminate].
Qed.

Lemma path_inj : forall p q, Forall file_name p -> Forall file_name q -> path_of p = path_of q -> p = q.
Proof. intros p q F G E. rewrite <- (parts_path p F), E. now apply parts_path. Qed.

(** Modules of one directory *)

Section Names.
  Context (suffixes : list str).

  Lemma ends_with_iff : forall s f, ends_with s f = true <-> exists x, f = x ++ s.
  Proof.
    intros s f. unfold ends_with. rewrite Resolve_Proofs.starts_with_iff. split; intros [r E].
    - exists (rev r). rewrite <- (rev_involutive f), E, rev_app_distr, rev_involutive. reflexivity.
    - exists (rev r). subst f. now rewrite rev_app_distr.
  Qed.

  Lemma getmodulename_iff : forall f x, getmodulename suffixes f = Some x <-> holds suffixes f x.
  Proof.
    intros f x. unfold getmodulename, holds. induction suffixes as [|s l IH]; cbn [find].
    - split; [discriminate|]. intros (b & s & a & E & _). destruct b; discriminate.
    - destruct (ends_with s f) eqn:W.
      + pose proof W as W'. apply ends_with_iff in W'. destruct W' as [y E]. split.
        * intro H. inversion H; subst x. exists [], s, l. repeat split; [|intros ? ? []].
          subst f. rewrite app_length, Nat.add_sub, firstn_app, Nat.sub_diag, firstn_all. cbn. now rewrite app_nil_r.
        * intros (b & s' & a & El & Ef & M). destruct b as [|s0 b].
          -- inversion El; subst s' a. subst f. rewrite Ef, app_length, Nat.add_sub, firstn_app, Nat.sub_diag, firstn_all.
             cbn. now rewrite app_nil_r.
          -- inversion El; subst. exfalso. apply (M s0 y); [now left|congruence].
      + rewrite IH. split.
        * intros (b & s' & a & -> & -> & M). exists (s :: b), s', a. repeat split; auto.
          intros s0 y [<-|I]; [|auto]. intro E. rewrite (proj2 (ends_with_iff s _)) in W; [discriminate|]. now exists y.
        * intros (b & s' & a & El & Ef & M). destruct b as [|s0 b]; inversion El; subst.
          -- rewrite (proj2 (ends_with_iff s' _)) in W; [discriminate|]. now exists x.
          -- exists b, s', a. repeat split; auto. intros s1 y I. apply M. now right.
  Qed.

  Lemma holds_fun : forall f x y, holds suffixes f x -> holds suffixes f y -> x = y.
  Proof. intros f x y A B. apply getmodulename_iff in A, B. congruence. Qed.

  Lemma is_init_iff : forall f, is_init suffixes f = true <-> holds suffixes f $"__init__".
  Proof.
    intro f. unfold is_init. rewrite <- getmodulename_iff. destruct (getmodulename suffixes f) as [m|]; [|split; discriminate].
    rewrite str_eqb_spec. split; congruence.
  Qed.

  Lemma module_entry_iff : forall f c x, In x (module_of_entry suffixes (f, c)) <->
    dotless x /\
    ((holds suffixes f x /\ x <> [] /\ x <> $"__init__") \/
     (x = f /\ (forall y, holds suffixes f y -> y = []) /\
      exists sub g, c = Dir sub /\ In g (map fst sub) /\ holds suffixes g $"__init__")).
  Proof.
    intros f c x. unfold module_of_entry. destruct (is_init suffixes f) eqn:I.
    - apply is_init_iff in I. split; [intros []|]. intros (_ & [(H & _ & N)|(_ & H & _)]).
      + apply N. eapply holds_fun; eauto.
      + apply H in I. discriminate.
    - assert (N : ~ holds suffixes f $"__init__") by (rewrite <- is_init_iff, I; discriminate).
      assert (Z : forall l, (match (match l with
                   | Some (a :: m) => Some (a :: m)
                   | _ => match c with
                          | Dir sub => if negb (has_dot f) && existsb (is_init suffixes) (map fst sub) then Some f else None
                          | File => None
                          end
                   end) with Some m => if has_dot m then [] else [m] | None => [] end) =
                 (match l with Some (a :: m) => if has_dot (a :: m) then [] else [a :: m]
                  | _ => match c with
                          | Dir sub => if negb (has_dot f) && existsb (is_init suffixes) (map fst sub) then [f] else []
                          | File => [] end end)).
      { intros [[|a m]|]; try reflexivity; destruct c as [|sub]; try reflexivity;
          destruct (has_dot f) eqn:D; cbn [negb andb]; try reflexivity;
          destruct (existsb _ _); try reflexivity; now rewrite D. }
      rewrite Z. clear Z.
      assert (Pk : (forall y, holds suffixes f y -> y = []) ->
        In x (match c with Dir sub => if negb (has_dot f) && existsb (is_init suffixes) (map fst sub) then [f] else []
              | File => [] end) <->
        dotless x /\ ((holds suffixes f x /\ x <> [] /\ x <> $"__init__") \/
           (x = f /\ (forall y, holds suffixes f y -> y = []) /\
            exists sub g, c = Dir sub /\ In g (map fst sub) /\ holds suffixes g $"__init__"))).
      { intro Em. destruct c as [|sub].
        - split; [intros []|]. intros (_ & [(H & E & _)|(_ & _ & sub & g & E & _)]); [|discriminate].
          apply E. now apply Em.
        - destruct (negb (has_dot f) && existsb (is_init suffixes) (map fst sub)) eqn:B.
          + apply andb_true_iff in B. destruct B as [B1 B2]. apply negb_true_iff, has_dot_false in B1.
            apply existsb_exists in B2. destruct B2 as (g & G & B2). apply is_init_iff in B2. split.
            * intros [<-|[]]. split; [exact B1|]. right. split; [reflexivity|split; [exact Em|]]. exists sub, g. auto.
            * intros (_ & [(H & E & _)|(-> & _)]); [exfalso; apply E; now apply Em|now left].
          + split; [intros []|]. intros (D & [(H & E & _)|(-> & _ & sub' & g & E & G & B2)]); [apply E; now apply Em|].
            inversion E; subst sub'. apply andb_false_iff in B. destruct B as [B|B].
            * apply negb_false_iff, has_dot_iff in B. exact (D B).
            * rewrite <- not_true_iff_false, existsb_exists in B. apply B. exists g. split; [exact G|]. now apply is_init_iff. }
      destruct (getmodulename suffixes f) as [[|a m]|] eqn:M.
      + apply Pk. intros y H. apply getmodulename_iff in M. eapply holds_fun; eauto.
      + clear Pk. apply getmodulename_iff in M. destruct (has_dot (a :: m)) eqn:D.
        * split; [intros []|]. apply has_dot_iff in D. intros (Dx & [(H & _)|(-> & H & _)]).
          -- rewrite (holds_fun _ _ _ H M) in Dx. exact (Dx D).
          -- apply H in M. discriminate.
        * apply has_dot_false in D. split.
          -- intros [<-|[]]. split; [exact D|]. left. repeat split; [exact M|discriminate|].
             intro E. apply N. now rewrite <- E.
          -- intros (Dx & [(H & _)|(-> & H & _)]); [left; eapply holds_fun; eauto|apply H in M; discriminate].
      + apply Pk. intros y H. apply getmodulename_iff in H. congruence.
  Qed.

  Lemma iter_modules_iff : forall root p x, file_system root -> Forall file_name p ->
    In x (iter_modules suffixes root (path_of p)) <->
    exists es, below root p (Dir es) /\ module_in suffixes es x.
  Proof.
    intros root p x FS F. unfold iter_modules, resolve. rewrite parts_path by exact F.
    destruct (descend root p) as [[|es]|] eqn:D.
    - split; [intros []|]. intros (es & B & _). apply descend_iff in B; [|exact FS]. congruence.
    - rewrite nodup_In, in_flat_map. split.
      + intros ([f c] & I & J). apply module_entry_iff in J. destruct J as [A J].
        exists es. split; [now apply descend_iff|]. split; [exact A|]. exists f, c. auto.
      + intros (es' & B & A & f & c & I & J). apply descend_iff in B; [|exact FS].
        assert (es' = es) by congruence. subst es'. exists (f, c). split; [exact I|]. apply module_entry_iff. auto.
    - split; [intros []|]. intros (es & B & _). apply descend_iff in B; [|exact FS]. congruence.
  Qed.

  (** A dictionary made of pairs that agree has exactly these. *)
  Lemma dupdate_agree : forall (d l : list (str * str)), NoDup (map fst d) ->
    (forall k v w, In (k, v) (d ++ l) -> In (k, w) (d ++ l) -> v = w) ->
    forall k v, In (k, v) (dupdate str_eqb d l) <-> In (k, v) (d ++ l).
  Proof.
    intros d l ND A k v.
    rewrite <- (dget_NoDup str_eqb str_eqb_spec) by (apply dupdate_NoDup; [apply str_eqb_spec|exact ND]).
    rewrite (dget_dupdate str_eqb str_eqb_spec). split.
    - destruct (dget str_eqb (rev l) k) as [w|] eqn:G.
      + intro E. inversion E; subst w. apply (dget_In str_eqb str_eqb_spec) in G. apply in_rev in G.
        apply in_or_app. now right.
      + intro E. apply (dget_In str_eqb str_eqb_spec) in E. apply in_or_app. now left.
    - intro I. destruct (dget str_eqb (rev l) k) as [w|] eqn:G.
      + f_equal. apply (A k); [|exact I]. apply (dget_In str_eqb str_eqb_spec) in G. apply in_rev in G.
        apply in_or_app. now right.
      + apply in_app_or in I. destruct I as [I|I]; [now apply (dget_NoDup str_eqb str_eqb_spec)|].
        apply (dget_None str_eqb str_eqb_spec) in G. exfalso. apply G. rewrite map_rev, <- in_rev.
        now apply (in_map fst) in I.
  Qed.

  (** What the directories found below a given one are called. *)
  Lemma found : forall root p, file_system root -> Forall file_name p -> forall n,
    In n (find_namespace_packages root (path_of p)) <->
    exists ds es, ds <> [] /\ searched ds /\ below root (p ++ ds) (Dir es) /\ n = dotted ds.
  Proof.
    intros root p FS F n. unfold find_namespace_packages, resolve. rewrite parts_path by exact F.
    assert (K : forall ds es m, below root p m -> below m ds (Dir es) -> Forall file_name ds).
    { intros ds es m A B. apply (below_names ds m (Dir es)); [|exact B]. eapply system_below; eauto. }
    destruct (descend root p) as [m|] eqn:D.
    - apply descend_iff in D; [|exact FS]. rewrite walk_iff. cbn [app]. split.
      + intros (ds & es & N & B & Dl & -> & X). exists ds, es.
        rewrite (package_dotted ds (K _ _ _ D B)) in *. split; [exact N|]. split.
        * destruct (exists_last N) as (ds' & d & ->). now apply exclude_iff.
        * split; [eapply below_app; eauto|reflexivity].
      + intros (ds & es & N & S & B & ->). apply below_split in B. destruct B as (m' & B1 & B2).
        assert (m' = m). { apply descend_iff in B1, D; auto. congruence. } subst m'.
        exists ds, es. rewrite (package_dotted ds (K _ _ _ D B2)). repeat split; auto; [apply S|].
        destruct (exists_last N) as (ds' & d & ->). apply exclude_iff; [apply S|exact S].
    - split; [intros []|]. intros (ds & es & N & S & B & ->). apply below_split in B. destruct B as (m' & B1 & _).
      apply descend_iff in B1; [|exact FS]. congruence.
  Qed.

  Lemma given_names : forall pss (name : str) k v,
    In (k, v) (dict_of str_eqb (map (fun p => (p, name)) (map path_of pss))) <->
    exists p, In p pss /\ k = path_of p /\ v = name.
  Proof.
    intros pss name k v. unfold dict_of. rewrite dupdate_agree; [|constructor|].
    - cbn [app]. rewrite map_map, in_map_iff. split.
      + intros (p & E & I). inversion E; subst. now exists p.
      + intros (p & I & -> & ->). now exists p.
    - cbn [app]. intros k' v' w' A B. rewrite map_map, in_map_iff in A, B.
      destruct A as (p & A & _). destruct B as (q & B & _). congruence.
  Qed.

  Lemma path_names_iff : forall root pss name, file_system root -> Forall (Forall file_name) pss -> apart pss ->
    forall k v, In (k, v) (path_names root (map path_of pss) name) <->
    exists p ds, In p pss /\ searched ds /\ (ds = [] \/ exists es, below root (p ++ ds) (Dir es)) /\
                 k = path_of (p ++ ds) /\ v = dotted (name :: ds).
  Proof.
    intros root pss name FS F AP k v.
    assert (FP : forall p, In p pss -> Forall file_name p) by (now apply Forall_forall).
    assert (DS : forall ds, Forall dotless ds -> ds <> [] -> split_char "." (dotted ds) = ds).
    { intros ds Dl N. unfold dotted. change $"." with ["."%char]. apply split_join; [exact N|].
      now apply Forall_forall. }
    assert (Added : forall k v,
      In (k, v) (flat_map (fun pn => map (fun n => (joinpath (fst pn) (split_char "." n), snd pn ++ $"." ++ n))
                                 (find_namespace_packages root (fst pn)))
                 (dict_of str_eqb (map (fun p => (p, name)) (map path_of pss)))) <->
      exists p ds, In p pss /\ searched ds /\ (ds <> [] /\ exists es, below root (p ++ ds) (Dir es)) /\
                 k = path_of (p ++ ds) /\ v = dotted (name :: ds)).
    { clear k v. intros k v. rewrite in_flat_map. split.
      - intros ([q n] & I & J). apply given_names in I. destruct I as (p & I & -> & ->). cbn [fst snd] in J.
        apply in_map_iff in J. destruct J as (x & E & J). apply found in J; auto.
        destruct J as (ds & es & N & S & B & ->). inversion E; subst. exists p, ds.
        rewrite DS by (auto; apply S). rewrite joinpath_path by auto.
        repeat split; auto; try apply S; [now exists es|]. destruct ds; [congruence|reflexivity].
      - intros (p & ds & I & S & (N & es & B) & -> & ->). exists (path_of p, name).
        split; [apply given_names; now exists p|]. cbn [fst snd]. apply in_map_iff. exists (dotted ds).
        rewrite DS by (auto; apply S). rewrite joinpath_path by auto. split.
        + f_equal. destruct ds; [congruence|reflexivity].
        + apply found; auto. now exists ds, es. }
    assert (All : forall k v,
      In (k, v) (dict_of str_eqb (map (fun p => (p, name)) (map path_of pss)) ++
                 flat_map (fun pn => map (fun n => (joinpath (fst pn) (split_char "." n), snd pn ++ $"." ++ n))
                                 (find_namespace_packages root (fst pn)))
                 (dict_of str_eqb (map (fun p => (p, name)) (map path_of pss)))) <->
      exists p ds, In p pss /\ searched ds /\ (ds = [] \/ exists es, below root (p ++ ds) (Dir es)) /\
                 k = path_of (p ++ ds) /\ v = dotted (name :: ds)).
    { clear k v. intros k v. rewrite in_app_iff, Added, given_names. split.
      - intros [(p & I & -> & ->)|(p & ds & I & S & (N & B) & -> & ->)].
        + exists p, []. rewrite app_nil_r. repeat split; auto; try (intros; destruct ds'; discriminate); try discriminate.
        + exists p, ds. auto 10.
      - intros (p & ds & I & S & [->|B] & -> & ->).
        + left. exists p. rewrite app_nil_r. auto.
        + destruct ds as [|d ds]; [left; exists p; rewrite app_nil_r; auto|]. right. exists p, (d :: ds).
          repeat split; auto; try apply S. discriminate. }
    unfold path_names. rewrite dupdate_agree; [apply All|apply dict_of_NoDup, str_eqb_spec|].
    clear k v. intros k v w A B. apply All in A, B.
    destruct A as (p & ds & I & S & B1 & -> & ->). destruct B as (q & es & J & T & B2 & E & ->).
    assert (W : forall p ds, In p pss -> (ds = [] \/ exists es, below root (p ++ ds) (Dir es)) -> Forall file_name (p ++ ds)).
    { intros p' ds' I' [->|[es' B']]; [rewrite app_nil_r; auto|]. eapply below_names; eauto. }
    apply path_inj in E; [|now apply W|now apply W].
    assert (X : ds = es).
    { apply app_eq_app in E. destruct E as (l & [[E1 E2]|[E1 E2]]).
      - subst p. specialize (AP q l J I). subst l. now subst es.
      - subst q. specialize (AP p l I J). subst l. now subst ds. }
    now rewrite X.
  Qed.

  Theorem names_exactly : forall root pss name, file_system root -> Forall (Forall file_name) pss -> apart pss ->
    forall m, In m (submodule_names suffixes root (map path_of pss) name) <->
    exists p ds es x, In p pss /\ searched ds /\ below root (p ++ ds) (Dir es) /\
                      module_in suffixes es x /\ m = dotted (name :: ds ++ [x]).
  Proof.
    intros root pss name FS F AP m. unfold submodule_names. rewrite in_flat_map.
    assert (DJ : forall ds (x : str), dotted (name :: ds) ++ $"." ++ x = dotted (name :: ds ++ [x])).
    { assert (G : forall ds y (x : str), dotted (y :: ds) ++ $"." ++ x = dotted (y :: ds ++ [x])).
      { induction ds as [|d ds IH]; intros y x; [reflexivity|].
        change (dotted (y :: (d :: ds) ++ [x])) with (y ++ $"." ++ dotted (d :: ds ++ [x])).
        rewrite <- IH. change (dotted (y :: d :: ds)) with (y ++ $"." ++ dotted (d :: ds)).
        now rewrite <- !app_assoc. }
      intros; apply G. }
    assert (W : forall p ds, In p pss -> (ds = [] \/ exists es, below root (p ++ ds) (Dir es)) -> Forall file_name (p ++ ds)).
    { rewrite Forall_forall in F. intros p' ds' I' [->|[es' B']]; [rewrite app_nil_r; auto|]. eapply below_names; eauto. }
    split.
    - intros ([k v] & I & J). apply path_names_iff in I; auto. destruct I as (p & ds & I & S & B & -> & ->).
      cbn [fst snd] in J. apply in_map_iff in J. destruct J as (x & <- & J).
      apply iter_modules_iff in J; auto. destruct J as (es & B' & M). exists p, ds, es, x. rewrite DJ. auto.
    - intros (p & ds & es & x & I & S & B & M & ->). exists (path_of (p ++ ds), dotted (name :: ds)). split.
      + apply path_names_iff; auto. exists p, ds. repeat split; auto; try apply S. right. now exists es.
      + cbn [fst snd]. apply in_map_iff. exists x. split; [apply DJ|].
        apply iter_modules_iff; auto; [apply W; auto; right; now exists es|]. now exists es.
  Qed.
End Names.

(** No module is asked for twice below one directory. *)

Lemma NoDup_flat_map : forall (A B : Type) (f : A -> list B) l, NoDup l -> (forall a, In a l -> NoDup (f a)) ->
  (forall a b x, In a l -> In b l -> In x (f a) -> In x (f b) -> a = b) -> NoDup (flat_map f l).
Proof.
  intros A B f. induction l as [|a l IH]; intros N F D; [constructor|]. inversion N as [|? ? Na N']; subst.
  cbn [flat_map]. assert (I : NoDup (flat_map f l)).
  { apply IH; [exact N'| |]; intros; [apply F; now right|eapply D; eauto; now right]. }
  assert (X : forall x, In x (f a) -> ~ In x (flat_map f l)).
  { intros x Ha Hl. apply in_flat_map in Hl. destruct Hl as (b & Ib & Hb).
    rewrite (D a b x) in Na; auto; [now left|now right]. }
  specialize (F a (or_introl eq_refl)). revert F X. generalize (f a) as fa. induction fa as [|x fa IHa]; intros F X; [exact I|].
  inversion F; subst. cbn [app]. constructor.
  - rewrite in_app_iff. intros [J|J]; [auto|]. apply (X x); [now left|exact J].
  - apply IHa; [assumption|]. intros y J. apply X. now right.
Qed.

Lemma dotted_app : forall (y : str) ds, ds <> [] -> dotted (y :: ds) = y ++ $"." ++ dotted ds.
Proof. intros y [|d ds] N; [congruence|reflexivity]. Qed.

Lemma dotted_last : forall ds y (x : str), dotted (y :: ds) ++ $"." ++ x = dotted (y :: ds ++ [x]).
Proof.
  induction ds as [|d ds IH]; intros y x; [reflexivity|].
  change (dotted (y :: (d :: ds) ++ [x])) with (y ++ $"." ++ dotted (d :: ds ++ [x])).
  rewrite <- IH. change (dotted (y :: d :: ds)) with (y ++ $"." ++ dotted (d :: ds)).
  now rewrite <- !app_assoc.
Qed.

Lemma names_once : forall suffixes root p name, file_system root -> Forall file_name p ->
  NoDup (submodule_names suffixes root [path_of p] name).
Proof.
  intros suffixes root p name FS F.
  assert (AP : apart [p]).
  { intros q ds [<-|[]] [E|[]]. symmetry in E. rewrite <- (app_nil_r p) in E at 2. now apply app_inv_head in E. }
  assert (PN : forall k v, In (k, v) (path_names root [path_of p] name) ->
      exists ds, searched ds /\ Forall file_name (p ++ ds) /\ k = path_of (p ++ ds) /\ v = dotted (name :: ds)).
  { intros k v I. apply (path_names_iff root [p] name FS) in I; [|now constructor|exact AP].
    destruct I as (q & ds & [<-|[]] & S & B & -> & ->). exists ds. repeat split; try apply S.
    destruct B as [->|[es B]]; [now rewrite app_nil_r|]. eapply below_names; eauto. }
  unfold submodule_names. apply NoDup_flat_map.
  - apply (NoDup_map_inv fst). unfold path_names. apply dupdate_NoDup; [apply str_eqb_spec|].
    apply dict_of_NoDup, str_eqb_spec.
  - intros [k v] _. cbn [fst snd]. apply FinFun.Injective_map_NoDup.
    + intros x y E. now apply app_inv_head, app_inv_head in E.
    + unfold iter_modules. destruct (resolve root k) as [[|es]|]; try constructor. apply NoDup_nodup.
  - intros [k v] [k' v'] m I J Hm Hm'. apply PN in I, J. destruct I as (ds & S & Fd & -> & ->).
    destruct J as (es & T & Fe & -> & ->). cbn [fst snd] in Hm, Hm'.
    apply in_map_iff in Hm, Hm'. destruct Hm as (x & <- & Hx). destruct Hm' as (y & E & Hy).
    apply iter_modules_iff in Hx; auto. apply iter_modules_iff in Hy; auto.
    destruct Hx as (e1 & _ & Dx & _). destruct Hy as (e2 & _ & Dy & _).
    rewrite !dotted_last, !dotted_app in E by (destruct ds; destruct es; discriminate).
    apply app_inv_head, app_inv_head in E. apply dotted_inj in E.
    + apply app_inj_tail in E. destruct E as [-> ->]. reflexivity.
    + destruct es; discriminate.
    + destruct ds; discriminate.
    + apply Forall_app. split; [apply T|]. now constructor.
    + apply Forall_app. split; [apply S|]. now constructor.
Qed.

(** Importing *)

Section Import.
  Context (body : str -> list str -> option exn).

  Lemma loads_refl : forall st, loads st [] st.
  Proof. intro st. unfold loads. rewrite app_nil_r. split; [reflexivity|]. split; [constructor|]. split; [intros ? []|auto]. Qed.

  Lemma NoDup_app' : forall (l l' : list str), NoDup l -> NoDup l' -> (forall x, In x l' -> ~ In x l) -> NoDup (l ++ l').
  Proof.
    induction l as [|x l IH]; intros l' A B D; [exact B|]. inversion A; subst. cbn. constructor.
    - rewrite in_app_iff. intros [I|I]; [auto|]. apply (D x I). now left.
    - apply IH; auto. intros y I J. apply (D y I). now right.
  Qed.

  Lemma loads_trans : forall s1 n1 s2 n2 s3, loads s1 n1 s2 -> loads s2 n2 s3 -> loads s1 (n1 ++ n2) s3.
  Proof.
    intros s1 n1 s2 n2 s3 (A1 & A2 & A3 & A4) (B1 & B2 & B3 & B4). unfold loads. rewrite B1, A1, <- app_assoc.
    split; [reflexivity|]. split; [|split].
    - apply NoDup_app'; auto. intros x I J. apply (B3 x I). rewrite A1. apply in_or_app. now right.
    - intros m I. apply in_app_or in I. destruct I as [I|I]; [auto|]. intro J. apply (B3 m I). rewrite A1.
      apply in_or_app. now left.
    - intro P. rewrite B1, A1, <- app_assoc in B4. rewrite A1 in A4. auto.
  Qed.

  Lemma parent_dotless : forall a p x, dotless x -> parent a (p ++ $"." ++ x) -> a = p \/ parent a p.
  Proof.
    intros a p x D (rest & E). apply app_eq_app in E. destruct E as (l & [[E1 E2]|[E1 E2]]).
    - destruct l as [|c l]; [left; now rewrite app_nil_r in E1|]. cbn in E2. inversion E2; subst c.
      right. exists l. exact E1.
    - destruct l as [|c l]; [left; now rewrite app_nil_r in E1|]. cbn in E2. inversion E2; subst c.
      exfalso. apply D. rewrite H1. apply in_or_app. right. now left.
  Qed.

  Lemma parent_irrefl : forall a, ~ parent a a.
  Proof. intros a (r & E). apply (f_equal (@List.length _)) in E. rewrite !app_length in E. cbn in E. lia. Qed.

  Lemma parents_snoc : forall l m, parents_first l -> (forall a, parent a m -> In a l) -> parents_first (l ++ [m]).
  Proof.
    intros l m P A l1 x l2 a E Q. destruct l2 as [|y l2] using rev_ind.
    - apply app_inj_tail in E. destruct E as [-> ->]. auto.
    - clear IHl2. change (x :: l2 ++ [y]) with ((x :: l2) ++ [y]) in E. rewrite app_assoc in E. apply app_inj_tail in E. destruct E as [-> ->].
      eapply P; eauto.
  Qed.

  Definition outcome (names : str -> Prop) (st : modules) (ok : bool) (e : exn) (new : list str) (st' : modules) : Prop :=
    loads st new st' /\ (forall m, In m new -> names m) /\
    if ok then ran st' = ran st ++ new
    else exists m, ran st' = ran st ++ new ++ [m] /\ names m /\ body m (loaded st') = Some e /\ ~ In m (loaded st').

  (** Parents of a loaded module are loaded. *)
  Lemma parents_closed : forall l m a, parents_first l -> In m l -> parent a m -> In a l.
  Proof.
    intros l m a P I Q. apply in_split in I. destruct I as (l1 & l2 & E).
    rewrite E. apply in_or_app. left. eapply P; eauto.
  Qed.

  Definition near (n m : str) : Prop := m = n \/ parent m n.

  Lemma rev_dotted : forall x (ps : list str), ps <> [] -> dotted (rev (x :: ps)) = dotted (rev ps) ++ $"." ++ x.
  Proof.
    intros x ps N. cbn [rev]. destruct (rev ps) as [|y l] eqn:R.
    - exfalso. apply N. apply (f_equal (@rev _)) in R. now rewrite rev_involutive in R.
    - rewrite dotted_last. reflexivity.
  Qed.

  Lemma run_spec : forall n st,
    ~ In n (loaded st) -> (parents_first (loaded st) -> forall a, parent a n -> In a (loaded st)) ->
    match run body n st with
    | (Ok _, st') => outcome (near n) st true ValueError [n] st' /\ In n (loaded st')
    | (Err e, st') => outcome (near n) st false e [] st'
    end.
  Proof.
    intros n st N P. unfold run. destruct (body n (loaded st)) as [e|] eqn:B; unfold outcome, loads; cbn [loaded ran].
    - rewrite app_nil_r. split; [|split; [intros ? []|]].
      + split; [reflexivity|]. split; [constructor|]. split; [intros ? []|auto].
      + exists n. unfold near. auto.
    - split; [|apply in_or_app; right; now left]. split; [|split; [intros m [<-|[]]; now left|reflexivity]].
      split; [reflexivity|]. split; [constructor; [intros []|constructor]|]. split.
      + intros m [<-|[]]. exact N.
      + intro Q. apply parents_snoc; auto.
  Qed.

  Lemma import_parts_spec : forall parts st, parts <> [] -> Forall dotless parts ->
    match import_parts body parts st with
    | (Ok _, st') => exists new, outcome (near (dotted (rev parts))) st true ValueError new st' /\ In (dotted (rev parts)) (loaded st')
    | (Err e, st') => exists new, outcome (near (dotted (rev parts))) st false e new st'
    end.
  Proof.
    induction parts as [|x ps IH]; intros st N F; [congruence|]. clear N.
    inversion F as [|? ? Dx F']; subst. cbn [import_parts]. change (join $"." (rev (x :: ps))) with (dotted (rev (x :: ps))).
    destruct (existsb (str_eqb (dotted (rev (x :: ps)))) (loaded st)) eqn:L.
    - apply existsb_exists in L. destruct L as (n & I & E). apply str_eqb_spec in E. subst n.
      exists []. split; [|exact I]. split; [apply loads_refl|]. split; [intros ? []|]. now rewrite app_nil_r.
    - assert (NL : ~ In (dotted (rev (x :: ps))) (loaded st)).
      { intro I. rewrite <- not_true_iff_false, existsb_exists in L. apply L. eexists. split; [exact I|apply str_eqb_refl]. }
      destruct ps as [|y ps].
      + cbn [import_parts]. assert (NP : forall a, ~ parent a (dotted (rev [x]))).
        { intros a (r & E). apply Dx. change (dotted (rev [x])) with x in E. rewrite E. apply in_or_app. right. now left. }
        pose proof (run_spec (dotted (rev [x])) st NL) as R.
        assert (K : parents_first (loaded st) -> forall a, parent a (dotted (rev [x])) -> In a (loaded st)).
        { intros _ a Q. exfalso. exact (NP a Q). }
        specialize (R K). destruct (run body (dotted (rev [x])) st) as [[|e] st']; [exists [dotted (rev [x])]|exists []]; exact R.
      + specialize (IH st ltac:(discriminate) F').
        rewrite (rev_dotted x (y :: ps)) in * by discriminate. set (pn := dotted (rev (y :: ps))) in *.
        assert (Up : forall m, near pn m -> near (pn ++ $"." ++ x) m).
        { intros m [->|(r & E)]; right; [now exists x|]. exists (r ++ $"." ++ x). rewrite E, <- !app_assoc. reflexivity. }
        destruct (import_parts body (y :: ps) st) as [[u|e] st1].
        * destruct IH as (new & (Ld & Nr & Rn) & Lp).
          assert (NL1 : ~ In (pn ++ $"." ++ x) (loaded st1)).
          { destruct Ld as (L1 & _). rewrite L1, in_app_iff. intros [I|I]; [auto|]. apply Nr in I.
            assert (Q : parent (pn ++ $"." ++ x) (pn ++ $"." ++ x)).
            { destruct I as [I|I].
              - exists x. rewrite I at 2. reflexivity.
              - destruct I as (r & E). exists (r ++ $"." ++ x). rewrite E at 1. now rewrite <- !app_assoc. }
            exact (parent_irrefl _ Q). }
          assert (K : parents_first (loaded st1) -> forall a, parent a (pn ++ $"." ++ x) -> In a (loaded st1)).
          { intros P a Q. apply parent_dotless in Q; [|exact Dx]. destruct Q as [->|Q]; [exact Lp|].
            eapply parents_closed; eauto. }
          pose proof (run_spec (pn ++ $"." ++ x) st1 NL1 K) as R.
          destruct (run body (pn ++ $"." ++ x) st1) as [[v|e] st2].
          -- destruct R as ((Ld2 & Nr2 & Rn2) & I2). exists (new ++ [pn ++ $"." ++ x]). split; [|exact I2]. split.
             ++ eapply loads_trans; eauto.
             ++ split; [|now rewrite Rn2, Rn, <- app_assoc]. intros m I. apply in_app_or in I. destruct I as [I|I]; auto.
          -- destruct R as (Ld2 & Nr2 & m & Rm & Nm & Bm & Im). exists new. split.
             ++ rewrite <- (app_nil_r new). eapply loads_trans; eauto.
             ++ split; [auto|]. exists m. split; [|auto]. rewrite Rm, Rn, <- !app_assoc. reflexivity.
        * destruct IH as (new & Ld & Nr & m & Rm & Nm & Bm & Im). exists new. split; [exact Ld|]. split; [auto|].
          exists m. auto.
  Qed.

  Lemma import_module_spec : forall n st,
    match import_module body n st with
    | (Ok _, st') => exists new, outcome (near n) st true ValueError new st' /\ In n (loaded st')
    | (Err e, st') => exists new, outcome (near n) st false e new st'
    end.
  Proof.
    intros n st. unfold import_module.
    pose proof (import_parts_spec (rev (split_char "." n)) st) as H. rewrite rev_involutive in H.
    assert (E : dotted (split_char "." n) = n) by apply (join_split "."%char). rewrite E in H. apply H.
    - intro R. apply (f_equal (@rev _)) in R. rewrite rev_involutive in R. exact (split_nonempty _ _ R).
    - apply Forall_rev. apply Forall_forall. intros p I. exact (split_no_sep _ _ _ I).
  Qed.

  Lemma import_all_spec : forall names st,
    match import_all body names st with
    | (Ok ns, st') => ns = names /\ exists new, outcome (fun m => exists n, In n names /\ near n m) st true ValueError new st' /\
                      forall n, In n names -> In n (loaded st')
    | (Err e, st') => exists new, outcome (fun m => exists n, In n names /\ near n m) st false e new st'
    end.
  Proof.
    induction names as [|n names IH]; intro st; cbn [import_all].
    - split; [reflexivity|]. exists []. split; [|intros ? []]. split; [apply loads_refl|].
      split; [intros ? []|]. now rewrite app_nil_r.
    - pose proof (import_module_spec n st) as H. destruct (import_module body n st) as [[u|e] st1].
      + destruct H as (new & (Ld & Nr & Rn) & I). specialize (IH st1).
        destruct (import_all body names st1) as [[ns|e] st2].
        * destruct IH as (-> & new2 & (Ld2 & Nr2 & Rn2) & I2). split; [reflexivity|]. exists (new ++ new2). split.
          -- split; [eapply loads_trans; eauto|]. split; [|now rewrite Rn2, Rn, <- app_assoc].
             intros m J. apply in_app_or in J. destruct J as [J|J].
             ++ exists n. split; [now left|auto].
             ++ destruct (Nr2 m J) as (k & K1 & K2). exists k. split; [now right|auto].
          -- intros k [<-|J]; [|auto]. destruct Ld2 as (-> & _). apply in_or_app. now left.
        * destruct IH as (new2 & Ld2 & Nr2 & m & Rm & (k & K1 & K2) & Bm & Im). exists (new ++ new2).
          split; [eapply loads_trans; eauto|]. split.
          -- intros j J. apply in_app_or in J. destruct J as [J|J].
             ++ exists n. split; [now left|auto].
             ++ destruct (Nr2 j J) as (i & J1 & J2). exists i. split; [now right|auto].
          -- exists m. split; [now rewrite Rm, Rn, <- !app_assoc|]. split; [exists k; split; [now right|auto]|auto].
      + destruct H as (new & Ld & Nr & m & Rm & Nm & Bm & Im). exists new. split; [exact Ld|]. split.
        * intros j J. exists n. split; [now left|auto].
        * exists m. split; [exact Rm|]. split; [exists n; split; [now left|auto]|auto].
  Qed.
End Import.

Lemma dict_keys : forall ns : list str,
  NoDup (map fst (dict_of str_eqb (map (fun n => (n, tt)) ns))) /\
  forall m, In m (map fst (dict_of str_eqb (map (fun n => (n, tt)) ns))) <-> In m ns.
Proof.
  intro ns. split; [apply dict_of_NoDup, str_eqb_spec|]. intro m.
  assert (G : forall l (d : list (str * unit)), In m (map fst (dupdate str_eqb d l)) <-> In m (map fst d) \/ In m (map fst l)).
  { unfold dupdate. induction l as [|[k v] l IH]; intro d; cbn [fold_left map fst snd In]; [tauto|].
    rewrite IH, (dset_keys str_eqb). unfold dmem.
    destruct (dget str_eqb d k) eqn:E.
    - apply (dget_Some_key str_eqb str_eqb_spec) in E. split; [tauto|]. intros [I|[->|I]]; auto.
    - rewrite in_app_iff. cbn [In]. tauto. }
  unfold dict_of. rewrite G. cbn [map In]. rewrite map_map. cbn [fst]. rewrite map_id. tauto.
Qed.

Theorem import_spec : forall suffixes body root paths name st,
  match import_submodules suffixes body root paths name st with
  | (Ok ns, st') =>
      NoDup ns /\ (forall m, In m ns <-> In m (submodule_names suffixes root paths name)) /\
      (forall m, In m ns -> In m (loaded st')) /\
      exists new, loads st new st' /\ ran st' = ran st ++ new /\
                  forall m, In m new -> exists n, In n ns /\ (m = n \/ parent m n)
  | (Err e, st') =>
      exists new m, loads st new st' /\ ran st' = ran st ++ new ++ [m] /\
                    body m (loaded st') = Some e /\ ~ In m (loaded st') /\
                    exists n, In n (submodule_names suffixes root paths name) /\ (m = n \/ parent m n)
  end.
Proof.
  intros suffixes body root paths name st. unfold import_submodules.
  pose proof (import_all_spec body (submodule_names suffixes root paths name) st) as H.
  destruct (import_all body _ st) as [[ns|e] st'].
  - destruct H as (-> & new & (Ld & Nr & Rn) & I). destruct (dict_keys (submodule_names suffixes root paths name)) as [A B].
    split; [exact A|]. split; [exact B|]. split; [intros m J; apply I; now apply B|].
    exists new. split; [exact Ld|]. split; [exact Rn|]. intros m J. destruct (Nr m J) as (n & K & Q).
    exists n. split; [now apply B|exact Q].
  - destruct H as (new & Ld & Nr & m & Rm & Nm & Bm & Im). exists new, m. auto.
Qed.

(** Importing again *)

Lemma import_known : forall body n st, In n (loaded st) -> import_module body n st = (Ok tt, st).
Proof.
  intros body n st I. unfold import_module.
  assert (E : dotted (split_char "." n) = n) by apply (join_split "."%char).
  destruct (rev (split_char "." n)) as [|x ps] eqn:R.
  - apply (f_equal (@rev _)) in R. rewrite rev_involutive in R. destruct (split_nonempty _ _ R).
  - cbn [import_parts]. rewrite <- R, rev_involutive. unfold dotted in E. rewrite E.
    destruct (existsb (str_eqb n) (loaded st)) eqn:L; [reflexivity|].
    rewrite <- not_true_iff_false, existsb_exists in L. exfalso. apply L. exists n. split; [exact I|apply str_eqb_refl].
Qed.

Lemma import_all_known : forall body names st, (forall n, In n names -> In n (loaded st)) ->
  import_all body names st = (Ok names, st).
Proof.
  intros body. induction names as [|n names IH]; intros st H; cbn [import_all]; [reflexivity|].
  rewrite import_known by (apply H; now left). rewrite IH; [reflexivity|]. intros k K. apply H. now right.
Qed.

Theorem import_again : forall suffixes body body' root paths name st ns st',
  import_submodules suffixes body root paths name st = (Ok ns, st') ->
  import_submodules suffixes body' root paths name st' = (Ok ns, st').
Proof.
  intros suffixes body body' root paths name st ns st' H. pose proof (import_spec suffixes body root paths name st) as S.
  rewrite H in S. destruct S as (_ & I & L & _). unfold import_submodules in *.
  destruct (import_all body _ st) as [[ms|e] st1] eqn:A; [|discriminate]. inversion H; subst. clear H.
  pose proof (import_all_spec body (submodule_names suffixes root paths name) st) as S. rewrite A in S.
  destruct S as (-> & _). rewrite import_all_known; [reflexivity|]. intros n J. apply L. now apply I.
Qed.

Theorem exactly : forall suffixes body root pss name st ns st',
  file_system root -> Forall (Forall file_name) pss -> apart pss ->
  import_submodules suffixes body root (map path_of pss) name st = (Ok ns, st') ->
  NoDup ns /\ forall m, In m ns <->
    exists p ds es x, In p pss /\ searched ds /\ below root (p ++ ds) (Dir es) /\
                      module_in suffixes es x /\ m = dotted (name :: ds ++ [x]).
Proof.
  intros suffixes body root pss name st ns st' FS F A H.
  pose proof (import_spec suffixes body root (map path_of pss) name st) as S. rewrite H in S.
  destruct S as (N & I & _). split; [exact N|]. intro m. rewrite I. now apply names_exactly.
Qed.

Theorem effects : forall suffixes body root paths name st ns st',
  import_submodules suffixes body root paths name st = (Ok ns, st') ->
  (forall m, In m ns -> In m (loaded st')) /\
  exists new, loads st new st' /\ ran st' = ran st ++ new /\
              forall m, In m new -> exists n, In n ns /\ (m = n \/ parent m n).
Proof.
  intros suffixes body root paths name st ns st' H.
  pose proof (import_spec suffixes body root paths name st) as S. rewrite H in S. tauto.
Qed.

Theorem failed : forall suffixes body root pss name st e st',
  file_system root -> Forall (Forall file_name) pss -> apart pss ->
  import_submodules suffixes body root (map path_of pss) name st = (Err e, st') ->
  exists new m, loads st new st' /\ ran st' = ran st ++ new ++ [m] /\
    body m (loaded st') = Some e /\ ~ In m (loaded st') /\
    exists p ds es x n, In p pss /\ searched ds /\ below root (p ++ ds) (Dir es) /\ module_in suffixes es x /\
                        n = dotted (name :: ds ++ [x]) /\ (m = n \/ parent m n).
Proof.
  intros suffixes body root pss name st e st' FS F A H.
  pose proof (import_spec suffixes body root (map path_of pss) name st) as S. rewrite H in S.
  destruct S as (new & m & Ld & R & B & I & n & J & Q). exists new, m. repeat (split; [assumption|]).
  apply names_exactly in J; auto. destruct J as (p & ds & es & x & K1 & K2 & K3 & K4 & K5).
  exists p, ds, es, x, n. auto 10.
Qed.

Theorem discovered : forall suffixes body root paths name known st,
  match discover_io suffixes body root paths name known st with
  | (Ok _, (known', st')) =>
      (exists ns, known' = Some ns /\
         (known = None -> forall m, In m ns <-> In m (submodule_names suffixes root paths name))) /\
      (known <> None -> known' = known /\ st' = st) /\
      forall body' root' paths' name', discover_io suffixes body' root' paths' name' known' st' = (Ok tt, (known', st'))
  | (Err e, (known', st')) => known = None /\ known' = None /\ exists m, body m (loaded st') = Some e
  end.
Proof.
  intros suffixes body root paths name known st. unfold discover_io. destruct known as [ns|].
  - split; [exists ns; split; [reflexivity|discriminate]|]. split; [auto|reflexivity].
  - pose proof (import_spec suffixes body root paths name st) as S.
    destruct (import_submodules suffixes body root paths name st) as [[ns|e] st'].
    + split; [exists ns; split; [reflexivity|intros _; apply S]|]. split; [congruence|reflexivity].
    + destruct S as (new & m & _ & _ & B & _). repeat split. now exists m.
Qed.

Lemma system_dir : forall es, NoDup (map fst es) -> Forall file_name (map fst es) ->
  (forall e, In e es -> file_system (snd e)) -> file_system (Dir es).
Proof.
  intros es N F H ds es' B. inversion B as [|? d c ds' ? J B']; subst; [auto|].
  apply (H _ J ds' es' B').
Qed.

Lemma system_file : file_system File.
Proof. intros ds es B. apply below_File in B. destruct B; discriminate. Qed.

Ltac plain_name := split; [discriminate|split; [discriminate|cbv; intuition discriminate]].

Theorem overlap :
  exists suffixes body root pss name st ns st' p es x,
    file_system root /\ Forall (Forall file_name) pss /\
    import_submodules suffixes body root (map path_of pss) name st = (Ok ns, st') /\
    In p pss /\ below root p (Dir es) /\ module_in suffixes es x /\ ~ In (dotted [name; x]) ns.
Proof.
  exists [$".py"], (fun _ _ => None), (Dir [($"a", Dir [($"b", Dir [($"m.py", File)])])]),
    [[$"a"]; [$"a"; $"b"]], $"n", (Modules [$"n"] []).
  eexists. eexists. exists [$"a"; $"b"], [($"m.py", File)], $"m".
  split; [|split; [|split; [|split; [|split; [|split]]]]].
  - repeat (apply system_dir; [repeat constructor; cbv; intuition discriminate
                              |repeat (constructor; [plain_name|]); constructor
                              |intros e [<-|[]]; cbn [snd]]). apply system_file.
  - repeat (constructor; [repeat (constructor; [plain_name|]); constructor|]). constructor.
  - vm_compute. reflexivity.
  - right. now left.
  - econstructor; [now left|]. econstructor; [now left|]. constructor.
  - split; [cbv; intuition discriminate|]. exists $"m.py", File. split; [now left|]. left.
    split; [|split; discriminate]. exists [], $".py", []. repeat split. intros ? ? [].
  - cbv. intuition discriminate.
Qed.
