(** Proofs about the BigQuery type system. *)
From Coq Require Import ZArith List Ascii String Bool Lia Arith.
From Verif Require Import Base Str Str_Proofs Base_Proofs TypeSystem_Model Types_Model Types_Spec Types_Proofs PyTypes_Model PyTypes_Proofs
  ArrowTypes_Model ArrowTypes_Spec ArrowTypes_Proofs BigQueryTypes_Model BigQueryTypes_Spec.
From Verif Require Layout_Proofs.
Import ListNotations.
Open Scope list_scope.

Section BigQuery.
Context (parse : str -> option (str * str * str)).
Notation bq_of := (bq_of parse).
Notation of_bq := (of_bq parse).

(** * What the sorted registry does *)
Lemma sorted_bq : priority_sorted (map (fun a => (a_key a, a)) (bq_adapters parse)) =
  [bq_table parse; bq_list; bq_float64; bq_int64; bq_float32; bq_int32; bq_float16; bq_int16; bq_int8;
   bq_binary; bq_boolean; bq_date; bq_geography; bq_string; bq_datetime; bq_time; bq_timestamp; bq_struct].
Proof. reflexivity. Qed.

Definition leaf_type (t : ty) : option str :=
  match t with
  | Scalar Boolean _ => Some $"BOOLEAN"
  | Scalar Date _ => Some $"DATE"
  | Scalar (Float _) _ => Some $"FLOAT"
  | Scalar (Int _) _ => Some $"INTEGER"
  | Scalar String _ => Some $"STRING"
  | Binary _ _ => Some $"BYTES"
  | DateTime _ _ => Some $"DATETIME"
  | Geography _ _ _ => Some $"GEOGRAPHY"
  | Time _ _ => Some $"TIME"
  | Timestamp _ _ => Some $"TIMESTAMP"
  | _ => None
  end.
Definition table_step (name : str) (fields : list (str * ty)) (partition cluster : list str) (schema : list bq) : result bq :=
  match parse (table_name name) with
  | None => Err ValueError
  | Some (p, d, tb) =>
      if negb (forallb is_field schema) then Err ValueError else
      let clustering c := match c with [] => None | _ => Some c end in
      match partition with
      | [] => Ok (Table p d tb schema None false (clustering cluster))
      | head :: tail =>
          match dget str_eqb fields head with
          | None => Err KeyError
          | Some t =>
              if is_day_like t then Ok (Table p d tb schema (Some ($"DAY", Some head)) false (clustering (tail ++ cluster)))
              else if is_int_type t then Err NotImplementedError
              else Err ValueError
          end
      end
  end.
Definition bq_step (conv : hints -> ty -> result bq) (h : hints) (t : ty) : result bq :=
  match leaf_type t with
  | Some ft => Ok (create_field ft t h [])
  | None =>
      match t with
      | List e _ =>
          if is_list e then Err ValueError else
          bind (conv h (set_nullable false e)) (fun field =>
          if is_mode REQUIRED field then Ok (with_mode REPEATED field) else Err AssertionError)
      | Struct _ fields _ => rmap (create_field $"RECORD" t h) (mapM (fun nf => conv (Some (fst nf)) (snd nf)) fields)
      | Collection name (Struct sn fields sm) p c _ =>
          bind (conv h (Struct sn fields sm)) (fun record =>
          table_step name fields p c (match record with SchemaField _ _ _ _ fs => fs | _ => [] end))
      | Collection _ _ _ _ _ => Err AssertionError
      | _ => Err NotImplementedError
      end
  end.
Lemma bq_of_S : forall n h t, bq_of (S n) h t = bq_step (bq_of n) h t.
Proof.
  intros n h t. unfold BigQueryTypes_Model.bq_of. cbn [to_system system_of convert]. rewrite sorted_bq.
  destruct t as [[]| | | | |e m|? []| | | | |]; try destruct w; try reflexivity.
  unfold bq_step. cbn -[str_eqb]. destruct (is_nullable e) eqn:N.
  - replace (is_list (set_nullable false e)) with (is_list e) by (destruct e; reflexivity). reflexivity.
  - rewrite (set_same e N). reflexivity.
Qed.
Lemma bq_of_O : forall h t, bq_of 0 h t = Err RecursionError.
Proof. reflexivity. Qed.

Definition read_named (conv : hints -> bq -> result ty) (h : hints) (f : bq) : result (str * ty) :=
  match f with SchemaField name _ _ _ _ => rmap (pair name) (conv h f) | _ => Err AttributeError end.
Lemma of_repeated : forall m h n ft d fs, of_bq (S m) h (SchemaField n ft REPEATED d fs) =
  rmap (fun e => List e (Meta d false)) (of_bq m h (SchemaField n ft REQUIRED d fs)).
Proof. reflexivity. Qed.
Lemma of_record : forall m h n (b : bool) d fs, of_bq (S m) h (SchemaField n $"RECORD" (if b then NULLABLE else REQUIRED) d fs) =
  rmap (fun l => Struct anon (dict_of str_eqb l) (Meta d b)) (mapM (read_named (of_bq m) h) fs).
Proof. intros. destruct b; reflexivity. Qed.
Lemma of_table : forall m h p d tb schema time clustering, of_bq (S m) h (Table p d tb schema time false clustering) =
  bind (match time with
        | None => Ok []
        | Some (ty, field) => if str_eqb ty $"DAY" then Ok [field] else Err NotImplementedError
        end) (fun partition =>
  bind (mapM reparsed schema) (fun schema =>
  bind (of_bq m h (SchemaField anon $"RECORD" REQUIRED None schema)) (fun element =>
  match partition with
  | [None] => Err ValueError
  | [Some f] => mk_collection (qualified p d tb) element [f] (or_default clustering []) plain
  | _ => mk_collection (qualified p d tb) element [] (or_default clustering []) plain
  end))).
Proof. reflexivity. Qed.
Lemma of_leaf : forall m h t ft name, leaf_type t = Some ft ->
  of_bq (S m) h (SchemaField name ft (if is_nullable t then NULLABLE else REQUIRED) (description (meta_of t)) []) = Ok (bq_stored t).
Proof.
  intros m h t ft name L. unfold is_nullable.
  destruct t as [[] [? []]|? [? []]|? [? []]|? ? ? ?|? ? [? []]|? ?|? ? ? ? ?|? ? ?|? ?|? ? ?|? [? []]|? [? []]];
    try discriminate L; injection L as <-; reflexivity.
Qed.
Arguments BigQueryTypes_Model.bq_of : simpl never.
Arguments BigQueryTypes_Model.of_bq : simpl never.

(** * Nullability does not matter to acceptance *)
Lemma set_list : forall b t, is_list (set_nullable b t) = is_list t.
Proof. destruct t; reflexivity. Qed.
Lemma set_constructed : forall b t, constructed t -> constructed (set_nullable b t).
Proof. intros b t C. inversion C; cbn; constructor; assumption. Qed.
Lemma set_nesting : forall b t, nesting (set_nullable b t) = nesting t.
Proof. destruct t; reflexivity. Qed.
Lemma set_convertible : forall b t, convertible parse (set_nullable b t) <-> convertible parse t.
Proof. intros b t. destruct t; cbn; split; intro H; inversion H; subst; constructor; assumption. Qed.
Lemma set_refused : forall b t e, refused_bq parse (set_nullable b t) e -> refused_bq parse t e.
Proof. intros b t e. destruct t; cbn; intro H; inversion H; subst; try (econstructor; eassumption). Qed.
Lemma set_flat : forall b t, flat (set_nullable b t) <-> flat t.
Proof. intros b t. destruct t; cbn; split; intro H; inversion H; subst; constructor; assumption. Qed.
Lemma set_stored : forall b t, is_list t = false -> bq_stored (set_nullable b t) = set_nullable b (bq_stored t).
Proof. intros b t. destruct t as [[]| | | | | | | | | | |]; try discriminate; reflexivity. Qed.
Lemma no_list_iff : forall t, no_list t <-> is_list t = false.
Proof.
  intros t. unfold no_list. destruct t; cbn; split; intro H; try reflexivity; try discriminate; try (split; discriminate).
  - destruct H as [H _]. destruct (H _ _ eq_refl).
  - destruct H as [_ H]. destruct (H _ _ _ _ _ eq_refl).
Qed.
Lemma no_collection_iff : forall t, no_collection t <-> is_collection t = false.
Proof.
  intros t. unfold no_collection. destruct t; cbn; split; intro H; try reflexivity; try discriminate. destruct (H _ _ _ _ _ eq_refl).
Qed.
Lemma daily_iff : forall t, daily t <-> is_day_like t = true.
Proof. intros t. destruct t as [[]| | | | | | | | | | |]; cbn; split; intro H; try discriminate; try reflexivity; try (inversion H); constructor. Qed.
Lemma integer_iff : forall t, integer t <-> is_int_type t = true.
Proof. intros t. destruct t as [[]| | | | | | | | | | |]; cbn; split; intro H; try discriminate; try reflexivity; try (inversion H); constructor. Qed.

(** * The shape of what is made *)
Lemma bq_shape : forall n h t x, bq_of n h t = Ok x -> is_collection t = false ->
  exists ft fs, x = SchemaField (hinted_name h) ft (if is_list t then REPEATED else if is_nullable t then NULLABLE else REQUIRED)
    (description (meta_of (match t with List e _ => e | _ => t end))) fs.
Proof.
  induction n as [|n IH]; intros h t x H NC; [discriminate H|]. rewrite bq_of_S in H. unfold bq_step in H.
  destruct (leaf_type t) as [ft|] eqn:L.
  { injection H as <-. exists ft, []. unfold create_field. destruct t as [[]| | | | | | | | | | |]; try discriminate; reflexivity. }
  destruct t as [s mt|b mt|p mt|nm t i mt|f s mt|e mt|nm e p c mt|k v mt|e mt|nm fs mt|p mt|p mt]; try discriminate.
  - destruct (is_list e) eqn:LE; [discriminate|]. destruct (bq_of n h (set_nullable false e)) as [y|] eqn:E; [|discriminate].
    cbn [bind] in H. destruct (is_mode REQUIRED y); [|discriminate]. injection H as <-.
    destruct (IH _ _ _ E) as (ft & fs & ->); [destruct e; try discriminate; reflexivity|]. cbn [with_mode].
    exists ft, fs. cbn [is_list]. f_equal. destruct e; try discriminate; reflexivity.
  - destruct (mapM _ fs) as [l|]; [|discriminate]. injection H as <-. exists $"RECORD", l. reflexivity.
Qed.
Lemma bq_collection : forall n h t x, bq_of n h t = Ok x -> is_field x = negb (is_collection t).
Proof.
  intros n h t x H. destruct (is_collection t) eqn:C.
  - destruct n as [|n]; [discriminate H|]. rewrite bq_of_S in H. unfold bq_step in H. destruct t as [| | | | | |? e ? ? ?| | | | |]; try discriminate.
    cbn [leaf_type] in H. destruct e; try discriminate. destruct (bq_of n h _); [|discriminate]. cbn [bind] in H. unfold table_step in H.
    destruct (parse _) as [[[pp dd] tt]|]; [|discriminate]. destruct (negb _); [discriminate|]. destruct partition_by; [injection H as <-; reflexivity|].
    destruct (dget _ _ _); [|discriminate]. destruct (is_day_like _); [injection H as <-; reflexivity|]. destruct (is_int_type _); discriminate.
  - destruct (bq_shape n h t x H C) as (ft & fs & ->). reflexivity.
Qed.

(** * Which types are accepted *)
Definition bq_answered (n : nat) (t : ty) : Prop := forall h,
  (convertible parse t /\ exists x, bq_of n h t = Ok x) \/ (~ convertible parse t /\ exists e, refused_bq parse t e /\ bq_of n h t = Err e).

Lemma bq_fields_answered : forall n (fields : list (str * ty)), (forall nf, In nf fields -> bq_answered n (snd nf)) ->
  (Forall (fun nf => convertible parse (snd nf)) fields /\ exists l, mapM (fun nf => bq_of n (Some (fst nf)) (snd nf)) fields = Ok l) \/
  (~ Forall (fun nf => convertible parse (snd nf)) fields /\
   exists e nf, In nf fields /\ refused_bq parse (snd nf) e /\ mapM (fun nf => bq_of n (Some (fst nf)) (snd nf)) fields = Err e).
Proof.
  intros n. induction fields as [|[name t] l IH]; intros K; [left; split; [constructor|exists []; reflexivity]|].
  cbn [mapM fst snd]. destruct (K _ (or_introl eq_refl) (Some name)) as [[C [x X]]|[C [e [R X]]]]; cbn [snd] in *; rewrite X; cbn [bind].
  - destruct IH as [[F [l' L]]|[F (e & nf & I & R & L)]]; [intros nf I; exact (K nf (or_intror I))|left|right]; rewrite L; cbn [bind].
    + split; [constructor; auto|eauto].
    + split; [intro Y; inversion Y; contradiction|]. exists e, nf. split; [right; exact I|auto].
  - right. split; [intro Y; inversion Y; contradiction|]. exists e, (name, t). split; [left; reflexivity|auto].
Qed.

Lemma schema_fields : forall n (fields : list (str * ty)) l, mapM (fun nf => bq_of n (Some (fst nf)) (snd nf)) fields = Ok l ->
  (forallb is_field l = true <-> Forall (fun nf => no_collection (snd nf)) fields).
Proof.
  intros n. induction fields as [|[name t] fs IH]; intros l H; cbn [mapM fst snd] in H.
  - injection H as <-. split; [constructor|reflexivity].
  - destruct (bq_of n (Some name) t) as [x|] eqn:X; [|discriminate]. cbn [bind] in H. destruct (mapM _ fs) as [l'|] eqn:L; [|discriminate].
    injection H as <-. cbn [forallb]. rewrite andb_true_iff, (IH l' eq_refl), (bq_collection _ _ _ _ X), negb_true_iff, <- no_collection_iff. split.
    + intros [A B]. constructor; assumption.
    + intro F. inversion F; subst. auto.
Qed.
Lemma not_all_schema : forall (fields : list (str * ty)), ~ Forall (fun nf => no_collection (snd nf)) fields ->
  exists nf, In nf fields /\ ~ no_collection (snd nf).
Proof.
  induction fields as [|nf l IH]; intros N; [destruct N; constructor|]. destruct (is_collection (snd nf)) eqn:C.
  - exists nf. split; [left; reflexivity|]. rewrite no_collection_iff, C. discriminate.
  - destruct IH as (f & I & Q); [intro F; apply N; constructor; [apply no_collection_iff; exact C|exact F]|]. exists f. split; [right; exact I|exact Q].
Qed.

Theorem bq_exists : forall n t, constructed t -> nesting t <= n -> bq_answered n t.
Proof.
  induction n as [|n IH]; intros t C L h; [pose proof (nesting_pos t); lia|]. rewrite bq_of_S. unfold bq_step.
  destruct (leaf_type t) as [ft|] eqn:LT.
  { left. split; [|eauto]. destruct t as [[]| | | | | | | | | | |]; try discriminate; constructor; discriminate. }
  destruct t as [s m|b m|p m|nm t i m|f s m|e m|nm e p c m|k v m|e m|nm fs m|p m|p m]; cbn [nesting] in L; try discriminate LT.
  - right. destruct s; try discriminate LT; (split; [intro X; inversion X; subst|eexists; split; [constructor|reflexivity]]).
    + match goal with H : Null <> Null |- _ => destruct (H eq_refl) end.
    + match goal with H : forall w', UInt w <> UInt w' |- _ => destruct (H w eq_refl) end.
  - right. split; [intro X; inversion X|]. eexists. split; [constructor|reflexivity].
  - inversion C; subst. destruct (is_list e) eqn:LE.
    + right. assert (NL : ~ no_list e) by (rewrite no_list_iff, LE; discriminate). split; [intro X; inversion X; contradiction|]. eexists. split; [apply rb_nested; exact NL|reflexivity].
    + destruct (IH (set_nullable false e) (set_constructed false e ltac:(assumption)) ltac:(rewrite set_nesting; lia) h) as [[S [x X]]|[S [er [R X]]]]; rewrite X; cbn [bind].
      * left. apply set_convertible in S. split; [constructor; [exact S|apply no_list_iff; exact LE]|].
        destruct (bq_shape _ _ _ _ X) as (ft & fs & ->); [destruct e; try discriminate; reflexivity|]. rewrite set_list, LE, is_nullable_set. cbn [is_mode].
        rewrite str_eqb_refl. eauto.
      * right. split; [intro Y; inversion Y; subst; apply S, set_convertible; assumption|]. exists er. split; [apply rb_element, (set_refused false); exact R|reflexivity].
  - inversion C as [| | | | | |? ? ? ? ? CE V| | | | |]; subst. pose proof V as V'. destruct V' as (sn & sf & sm & -> & VP & _).
    assert (ND : NoDup (map fst sf)) by (inversion CE; assumption).
    destruct (IH (Struct sn sf sm) CE ltac:(lia) h) as [[S [x X]]|[S [er [R X]]]]; rewrite X; cbn [bind].
    + assert (XF : exists l, x = create_field $"RECORD" (Struct sn sf sm) h l /\ (forallb is_field l = true <-> Forall (fun nf => no_collection (snd nf)) sf)).
      { destruct n as [|n']; [discriminate X|]. rewrite bq_of_S in X. unfold bq_step in X. cbn [leaf_type] in X. destruct (mapM _ sf) as [l|] eqn:ML; [|discriminate].
        injection X as <-. exists l. split; [reflexivity|]. exact (schema_fields _ _ _ ML). }
      destruct XF as (l & -> & NF). cbn [create_field]. unfold table_step. destruct (parse (table_name nm)) as [[[pp dd] tt]|] eqn:P.
      2:{ right. split; [intro Y; inversion Y; subst; congruence|]. eexists. split; [apply rb_name; exact P|reflexivity]. }
      destruct (forallb is_field l) eqn:FB; cbn [negb].
      2:{ right. destruct (not_all_schema sf) as (nf & I & Q); [intro F; apply NF in F; discriminate F|]. split.
          - intro Y. inversion Y; subst. match goal with H : Forall (fun nf => no_collection (snd nf)) sf |- _ => rewrite Forall_forall in H; exact (Q (H nf I)) end.
          - eexists. split; [eapply rb_tables; eassumption|reflexivity]. }
      assert (NC : Forall (fun nf => no_collection (snd nf)) sf) by (apply NF; reflexivity).
      destruct p as [|hd tl].
      { left. split; [|eauto]. constructor; [exact S|exact NC|congruence|discriminate]. }
      assert (exists t, In (hd, t) sf) as [t I].
      { specialize (VP hd (or_introl eq_refl)). apply in_map_iff in VP. destruct VP as ([a t] & <- & I). exists t. exact I. }
      rewrite (proj2 (dget_NoDup _ str_eqb_spec sf hd t ND) I). destruct (is_day_like t) eqn:D.
      { left. split; [|eauto]. constructor; [exact S|exact NC|congruence|]. intros hd' tl' E. injection E as <- <-. exists t. split; [exact I|apply daily_iff; exact D]. }
      right. assert (ND' : ~ daily t) by (rewrite daily_iff, D; discriminate). split.
      { intro Y. inversion Y as [| | | | | | | |? ? ? ? ? ? ? ? ? ? DD]; subst. destruct (DD hd tl eq_refl) as (t' & I' & D'). pose proof (proj2 (dget_NoDup _ str_eqb_spec sf hd t ND) I) as J. pose proof (proj2 (dget_NoDup _ str_eqb_spec sf hd t' ND) I') as J'.
        rewrite J in J'. injection J' as <-. contradiction. }
      destruct (is_int_type t) eqn:IT; eexists; (split; [|reflexivity]).
      * eapply rb_range; [exact I|]. apply integer_iff. exact IT.
      * eapply rb_partition; [exact I| |exact ND']. rewrite integer_iff, IT. discriminate.
    + right. split; [intro Y; inversion Y; contradiction|]. exists er. split; [apply rb_rows; exact R|reflexivity].
  - right. split; [intro X; inversion X|]. eexists. split; [constructor|reflexivity].
  - right. split; [intro X; inversion X|]. eexists. split; [constructor|reflexivity].
  - inversion C as [| | | | | | | | |? ? ? ND FC| |]; subst. destruct (bq_fields_answered n fs) as [[F [l X]]|[F (er & nf & I & R & X)]].
    { intros nf I. rewrite Forall_forall in FC. apply IH; [exact (FC nf I)|]. pose proof (field_nesting fs nf I). lia. }
    + left. rewrite X. split; [constructor; exact F|cbn [rmap]; eauto].
    + right. rewrite X. split; [intro Y; inversion Y; contradiction|]. exists er. split; [eapply rb_field; eassumption|reflexivity].
Qed.

(** * There and back *)
(** What is made of a flat type is not changed when read again from a table. *)
Lemma reparse_flat : forall n h t x, bq_of n h t = Ok x -> flat t -> reparsed x = Ok x.
Proof.
  induction n as [|n IH]; intros h t x H F; [discriminate H|]. rewrite bq_of_S in H. unfold bq_step in H.
  destruct (leaf_type t) as [ft|] eqn:L.
  { injection H as <-. unfold create_field. destruct t as [[]| | | | | | | | | | |]; try discriminate; injection L as <-; reflexivity. }
  destruct t as [s mt|b mt|p mt|nm t i mt|f s mt|e mt|nm e p c mt|k v mt|e mt|nm fs mt|p mt|p mt]; try discriminate.
  - destruct (is_list e) eqn:LE; [discriminate|]. destruct (bq_of n h (set_nullable false e)) as [y|] eqn:E; [|discriminate].
    cbn [bind] in H. destruct (is_mode REQUIRED y); [|discriminate]. injection H as <-. inversion F; subst.
    specialize (IH _ _ _ E (proj2 (set_flat false e) ltac:(assumption))). destruct y as [yn yt ym yd yf| |]; try discriminate IH.
    cbn [with_mode]. cbn [reparsed] in *. destruct (record_type yt).
    + destruct (_ yf) as [l|]; [|discriminate IH]. cbn [rmap] in *. injection IH as IHt IHl. rewrite IHt, IHl. reflexivity.
    + injection IH as IHt <-. rewrite IHt. reflexivity.
  - inversion F.
  - inversion F as [| | | | | | |? ? ? FF]; subst. destruct (mapM _ fs) as [l|] eqn:E; [|discriminate]. injection H as <-. cbn -[upper str_eqb]. 
    replace (record_type $"RECORD") with true by reflexivity.
    enough (G : (fix all (l : list bq) : result (list bq) :=
              match l with
              | [] => Ok []
              | y :: l' => bind (reparsed y) (fun y' => bind (all l') (fun l'' => Ok (y' :: l'')))
              end) l = Ok l) by (rewrite G; reflexivity).
    clear -IH FF E. revert l E. induction fs as [|[nm t] fs IHf]; intros l E; cbn [mapM fst snd] in E; [injection E as <-; reflexivity|].
    destruct (bq_of n (Some nm) t) as [x|] eqn:X; [|discriminate]. cbn [bind] in E. destruct (mapM _ fs) as [l'|] eqn:L; [|discriminate]. injection E as <-.
    inversion FF; subst. rewrite (IH _ _ _ X ltac:(assumption)). cbn [bind]. rewrite (IHf ltac:(assumption) l' eq_refl). reflexivity.
Qed.
Lemma reparse_fields : forall n (fields : list (str * ty)) l, mapM (fun nf => bq_of n (Some (fst nf)) (snd nf)) fields = Ok l ->
  Forall (fun nf => flat (snd nf)) fields -> mapM reparsed l = Ok l.
Proof.
  intros n. induction fields as [|[name t] fs IH]; intros l H F; cbn [mapM fst snd] in H; [injection H as <-; reflexivity|].
  destruct (bq_of n (Some name) t) as [x|] eqn:X; [|discriminate]. cbn [bind] in H. destruct (mapM _ fs) as [l'|] eqn:L; [|discriminate].
  injection H as <-. inversion F; subst. cbn [mapM]. rewrite (reparse_flat _ _ _ _ X ltac:(assumption)). cbn [bind]. rewrite (IH l' eq_refl ltac:(assumption)). reflexivity.
Qed.

Lemma flat_collection : forall t, flat t -> is_collection t = false.
Proof. intros t F. inversion F; reflexivity. Qed.
Lemma bq_stored_meta : forall t, is_list t = false -> meta_of (bq_stored t) = meta_of t.
Proof. intros t. destruct t as [[]| | | | | | | | | | |]; try discriminate; reflexivity. Qed.

Lemma bq_fields_back : forall n m h (fields : list (str * ty)) l,
  (forall h t x, constructed t -> flat t -> bq_of n h t = Ok x -> forall h', of_bq m h' x = Ok (bq_stored t)) ->
  Forall (fun nf => constructed (snd nf)) fields -> Forall (fun nf => flat (snd nf)) fields ->
  mapM (fun nf => bq_of n (Some (fst nf)) (snd nf)) fields = Ok l ->
  mapM (read_named (of_bq m) h) l = Ok (map (fun nf => (fst nf, bq_stored (snd nf))) fields).
Proof.
  intros n m h fields l K. revert l. induction fields as [|[name t] fs IH]; intros l C F H; cbn [mapM fst snd] in H; [injection H as <-; reflexivity|].
  destruct (bq_of n (Some name) t) as [x|] eqn:X; [|discriminate]. cbn [bind] in H. destruct (mapM _ fs) as [l'|] eqn:L; [|discriminate].
  injection H as <-. inversion C; inversion F; subst. cbn [mapM map fst snd] in *.
  pose proof (K _ _ _ ltac:(eassumption) ltac:(eassumption) X h) as R.
  destruct (bq_shape _ _ _ _ X (flat_collection t ltac:(assumption))) as (ft & fs' & ->). cbn [read_named hinted_name or_default] in *. rewrite R. cbn [rmap bind].
  rewrite (IH l' ltac:(assumption) ltac:(assumption) eq_refl). reflexivity.
Qed.

Theorem bq_round_trip_flat : forall n t h x, constructed t -> flat t -> bq_of n h t = Ok x -> forall m h', n <= m -> of_bq m h' x = Ok (bq_stored t).
Proof.
  induction n as [|n IH]; intros t h x C F H m h' LE; [discriminate H|]. destruct m as [|m]; [lia|]. pose proof H as H0. rewrite bq_of_S in H. unfold bq_step in H.
  destruct (leaf_type t) as [ft|] eqn:L.
  { injection H as <-. unfold create_field. apply of_leaf. exact L. }
  destruct t as [s mt|b mt|p mt|nm t i mt|f s mt|e mt|nm e p c mt|k v mt|e mt|nm fs mt|p mt|p mt]; try discriminate; inversion F; inversion C; subst.
  - destruct (is_list e) eqn:LL; [discriminate|]. destruct (bq_of n h (set_nullable false e)) as [y|] eqn:E; [|discriminate].
    cbn [bind] in H. destruct (is_mode REQUIRED y); [|discriminate]. injection H as <-.
    pose proof (IH _ h y (set_constructed false e ltac:(assumption)) (proj2 (set_flat false e) ltac:(assumption)) E m h' ltac:(lia)) as R.
    destruct (bq_shape _ _ _ _ E) as (ft & fs & ->); [destruct e; try discriminate; reflexivity|].
    rewrite set_list, LL, is_nullable_set in *. cbn [with_mode]. rewrite of_repeated, R. cbn [rmap bq_stored]. rewrite set_stored by exact LL.
    f_equal. f_equal. destruct e; try discriminate; reflexivity.
  - destruct (mapM _ fs) as [l|] eqn:E; [|discriminate]. injection H as <-. unfold create_field, is_nullable. cbn [meta_of].
    rewrite of_record. rewrite (bq_fields_back n m h' fs l); try assumption.
    + cbn [rmap bq_stored]. rewrite Layout_Proofs.dict_of_NoDup; [destruct mt; reflexivity|]. rewrite map_map. assumption.
    + intros h2 t2 x2 C2 F2 X2 h3. apply (IH t2 h2 x2 C2 F2 X2). lia.
Qed.

Context (parsed : splits parse).
Lemma parsed_name : forall name p d t, parse (table_name name) = Some (p, d, t) -> qualified p d t = table_name name.
Proof. intros name p d t H. symmetry. exact (proj2 parsed _ _ _ _ H). Qed.

(** Tables with another table inside cannot be read. *)
Lemma read_fails : forall n h t x m h', bq_of n h t = Ok x -> is_collection t = false -> (exists u, of_bq m h' x = Ok u) -> flat t.
Proof.
  induction n as [|n IH]; intros h t x m h' H NC [u U]; [discriminate H|]. rewrite bq_of_S in H. unfold bq_step in H.
  destruct (leaf_type t) as [ft|] eqn:L.
  { destruct t as [[]| | | | | | | | | | |]; try discriminate; constructor. }
  destruct t as [s mt|b mt|p mt|nm t i mt|f s mt|e mt|nm e p c mt|k v mt|e mt|nm fs mt|p mt|p mt]; try discriminate.
  - destruct (is_list e) eqn:LL; [discriminate|]. destruct (bq_of n h (set_nullable false e)) as [y|] eqn:E; [|discriminate].
    cbn [bind] in H. destruct (is_mode REQUIRED y); [|discriminate]. injection H as <-. constructor. apply (set_flat false).
    destruct (bq_shape _ _ _ _ E) as (ft & fs & Y); [destruct e; try discriminate; reflexivity|].
    destruct m as [|m]; [discriminate U|]. apply (IH h _ y m h' E); [destruct e; try discriminate; reflexivity|]. subst y. cbn [with_mode] in U. rewrite of_repeated in U.
    rewrite set_list, LL, is_nullable_set. destruct (of_bq m h' _) as [v|] eqn:V; [|discriminate]. exists v. reflexivity.
  - destruct (mapM _ fs) as [l|] eqn:E; [|discriminate]. injection H as <-. destruct m as [|m]; [discriminate U|]. unfold create_field, is_nullable in U. rewrite of_record in U.
    destruct (mapM (read_named _ _) l) as [r|] eqn:R; [|discriminate]. constructor. clear U NC L. revert l r E R.
    induction fs as [|[name t] fs IHf]; intros l r E R; [constructor|]. cbn [mapM fst snd] in E.
    destruct (bq_of n (Some name) t) as [x|] eqn:X; [|discriminate]. cbn [bind] in E. destruct (mapM _ fs) as [l'|] eqn:L; [|discriminate]. injection E as <-.
    cbn [mapM] in R. destruct (read_named _ _ x) as [v|] eqn:V; [|discriminate]. cbn [bind] in R. destruct (mapM _ l') as [r'|] eqn:R'; [|discriminate].
    constructor; [|exact (IHf l' r' eq_refl R')]. cbn [snd]. pose proof (bq_collection _ _ _ _ X) as Q. destruct x as [? ? ? ? ?| |]; try discriminate V.
    cbn [is_field] in Q. symmetry in Q. apply negb_true_iff in Q. apply (IH _ _ _ m h' X Q). cbn [read_named] in V. destruct (of_bq m h' _) as [w|]; [eauto|discriminate].
Qed.
Lemma reparse_fails : forall n h t x, bq_of n h t = Ok x -> is_collection t = false -> (exists y, reparsed x = Ok y) -> flat t.
Proof.
  induction n as [|n IH]; intros h t x H NC [u U]; [discriminate H|]. rewrite bq_of_S in H. unfold bq_step in H.
  destruct (leaf_type t) as [ft|] eqn:L.
  { destruct t as [[]| | | | | | | | | | |]; try discriminate; constructor. }
  destruct t as [s mt|b mt|p mt|nm t i mt|f s mt|e mt|nm e p c mt|k v mt|e mt|nm fs mt|p mt|p mt]; try discriminate.
  - destruct (is_list e) eqn:LL; [discriminate|]. destruct (bq_of n h (set_nullable false e)) as [y|] eqn:E; [|discriminate].
    cbn [bind] in H. destruct (is_mode REQUIRED y); [|discriminate]. injection H as <-. constructor. apply (set_flat false).
    apply (IH h _ y E); [destruct e; try discriminate; reflexivity|]. destruct y as [yn yt ym yd yf| |]; try (exists u; exact U).
    cbn [with_mode reparsed] in *. destruct (record_type yt); [|eauto]. destruct (_ yf); [cbn; eauto|discriminate].
  - destruct (mapM _ fs) as [l|] eqn:E; [|discriminate]. injection H as <-. cbn [create_field reparsed] in U.
    replace (record_type $"RECORD") with true in U by reflexivity. constructor. clear NC L.
    destruct (_ l) as [r|] eqn:R in U; [|discriminate]. clear U. revert l r E R.
    induction fs as [|[name t] fs IHf]; intros l r E R; [constructor|]. cbn [mapM fst snd] in E.
    destruct (bq_of n (Some name) t) as [x|] eqn:X; [|discriminate]. cbn [bind] in E. destruct (mapM _ fs) as [l'|] eqn:L; [|discriminate]. injection E as <-.
    destruct (reparsed x) as [v|] eqn:V; [|discriminate]. cbn [bind] in R. destruct (_ l') as [r'|] eqn:R' in R; [|discriminate].
    constructor; [|exact (IHf l' r' eq_refl R')]. cbn [snd]. pose proof (bq_collection _ _ _ _ X) as Q. destruct x as [? ? ? ? ?| |]; try discriminate V.
    cbn [is_field] in Q. symmetry in Q. apply negb_true_iff in Q. apply (IH _ _ _ X Q). eauto.
Qed.

(** What a Collection becomes. *)
Definition clustered (c : list str) : option (list str) := match c with [] => None | _ => Some c end.
Lemma table_made : forall n h nm sn sf sm p c m x, bq_of (S n) h (Collection nm (Struct sn sf sm) p c m) = Ok x ->
  exists n' l pp dd tt, n = S n' /\ mapM (fun nf => bq_of n' (Some (fst nf)) (snd nf)) sf = Ok l /\ parse (table_name nm) = Some (pp, dd, tt) /\
    forallb is_field l = true /\
    x = Table pp dd tt l (match p with [] => None | hd :: _ => Some ($"DAY", Some hd) end) false
          (clustered (match p with [] => c | _ :: tail => tail ++ c end)).
Proof.
  intros n h nm sn sf sm p c m x H. rewrite bq_of_S in H. unfold bq_step in H. cbn [leaf_type] in H.
  destruct n as [|n]; [discriminate H|]. rewrite bq_of_S in H. unfold bq_step in H. cbn [leaf_type] in H.
  destruct (mapM _ sf) as [l|] eqn:ML; [|discriminate]. cbn [rmap bind create_field] in H. unfold table_step in H.
  destruct (parse (table_name nm)) as [[[pp dd] tt]|] eqn:P; [|discriminate]. destruct (forallb is_field l) eqn:FB; [|discriminate]. cbn [negb] in H.
  exists n, l, pp, dd, tt. repeat (split; [assumption || reflexivity|]).
  destruct p as [|hd tl]; [injection H as <-; reflexivity|].
  destruct (dget _ _ _); [|discriminate]. destruct (is_day_like _); [injection H as <-; reflexivity|]. destruct (is_int_type _); discriminate.
Qed.
Lemma clustering_back : forall c : list str, or_default (clustered c) [] = c.
Proof. destruct c; reflexivity. Qed.

Theorem bq_round_trip : forall n t h x, constructed t -> tidy t -> bq_of n h t = Ok x -> forall m h', n <= m -> of_bq m h' x = Ok (bq_stored t).
Proof.
  intros n t h x C T H m h' LE. destruct T as [t F|nm e p c mt FE NR]; [exact (bq_round_trip_flat n t h x C F H m h' LE)|].
  inversion C as [| | | | | |? ? ? ? ? CE V| | | | |]; subst. pose proof V as (sn & sf & sm & -> & VP & VC & VD).
  destruct n as [|n]; [discriminate H|]. destruct m as [|m]; [lia|].
  destruct (table_made _ _ _ _ _ _ _ _ _ _ H) as (n' & l & pp & dd & tt & -> & ML & P & FB & ->). destruct m as [|m]; [lia|].
  assert (ND : NoDup (map fst sf)) by (inversion CE; assumption). assert (FC : Forall (fun nf => constructed (snd nf)) sf) by (inversion CE; assumption).
  assert (FF : Forall (fun nf => flat (snd nf)) sf) by (inversion FE; assumption).
  rewrite of_table. rewrite (reparse_fields _ _ _ ML FF). cbn [bind].
  pose proof (of_record m h' anon false None l) as R. cbv iota in R. rewrite R. clear R. rewrite (bq_fields_back n' m h' sf l).
  2:{ intros h2 t2 x2 C2 F2 X2 h3. apply (bq_round_trip_flat n' t2 h2 x2 C2 F2 X2). lia. }
  2-4: assumption.
  cbn [rmap bind]. rewrite Layout_Proofs.dict_of_NoDup by (rewrite map_map; assumption). rewrite clustering_back, (parsed_name _ _ _ _ P).
  assert (VS : valid_collection (Struct anon (map (fun nf => (fst nf, bq_stored (snd nf))) sf) (Meta None false))
                 (match p with [] => [] | hd :: _ => [hd] end) (match p with [] => c | _ :: tl => tl ++ c end)).
  { exists anon, (map (fun nf => (fst nf, bq_stored (snd nf))) sf), (Meta None false). split; [reflexivity|].
    assert (MF : map fst (map (fun nf : str * ty => (fst nf, bq_stored (snd nf))) sf) = map fst sf) by (rewrite map_map; reflexivity). rewrite MF.
    destruct p as [|hd tl]; [repeat split; [intros n []|exact VC|intros n []]|]. repeat split.
    - intros n [<-|[]]. apply VP. left. reflexivity.
    - intros n I. apply in_app_or in I. destruct I as [I|I]; [apply VP; right; exact I|apply VC; exact I].
    - intros n [<-|[]] I. apply in_app_or in I. destruct I as [I|I]; [exact (NR hd tl eq_refl I)|exact (VD hd (or_introl eq_refl) I)]. }
  destruct p as [|hd tl]; cbn [bind]; [|rewrite str_eqb_refl; cbn [bind]]; apply collection_created; (split; [exact VS|reflexivity]).
Qed.

Theorem bq_readable : forall n t h x m h' u, constructed t -> bq_of n h t = Ok x -> of_bq m h' x = Ok u -> tidy t.
Proof.
  intros n t h x m h' u C H U. destruct (is_collection t) eqn:IC; [|apply tidy_flat; eapply read_fails; eauto].
  destruct t as [| | | | | |nm e p c mt| | | | |]; try discriminate IC.
  inversion C as [| | | | | |? ? ? ? ? CE V| | | | |]; subst. pose proof V as (sn & sf & sm & -> & VP & VC & VD).
  destruct n as [|n]; [discriminate H|]. destruct m as [|m]; [discriminate U|].
  destruct (table_made _ _ _ _ _ _ _ _ _ _ H) as (n' & l & pp & dd & tt & -> & ML & P & FB & ->).
  rewrite of_table in U. rewrite clustering_back in U.
  destruct (match match p with [] => None | hd :: _ => Some ($"DAY", Some hd) end with None => _ | Some _ => _ end) as [parts|] eqn:PT; [|discriminate U]. cbn [bind] in U.
  destruct (mapM reparsed l) as [l2|] eqn:RL; [|discriminate U]. cbn [bind] in U. destruct (of_bq m h' _) as [el|]; [|discriminate U]. cbn [bind] in U.
  apply tidy_collection.
  - constructor. clear U PT. assert (NC : Forall (fun nf => no_collection (snd nf)) sf) by (apply (schema_fields _ _ _ ML); exact FB).
    clear -ML RL NC. revert l l2 ML RL. induction sf as [|[name t] fs IHf]; intros l r E R; [constructor|]. cbn [mapM fst snd] in E.
    destruct (bq_of n' (Some name) t) as [x|] eqn:X; [|discriminate]. cbn [bind] in E. destruct (mapM _ fs) as [l'|] eqn:L; [|discriminate]. injection E as <-.
    cbn [mapM] in R. destruct (reparsed x) as [v|] eqn:V; [|discriminate]. cbn [bind] in R. destruct (mapM reparsed l') as [r'|] eqn:R'; [|discriminate].
    inversion NC; subst. constructor; [|exact (IHf ltac:(assumption) l' r' eq_refl R')]. cbn [snd] in *. apply (reparse_fails _ _ _ _ X); [apply no_collection_iff; assumption|eauto].
  - intros hd tl -> I. rewrite str_eqb_refl in PT. injection PT as <-. apply collection_created in U. destruct U as [(? & ? & ? & _ & _ & _ & D) _].
    apply (D hd (or_introl eq_refl)). apply in_or_app. left. exact I.
Qed.

(** * What is kept *)
Lemma kept_fields : forall (fields : list (str * ty)),
  (forall nf, In nf fields -> (bq_stored (snd nf) = snd nf <-> bq_kept (snd nf))) ->
  (map (fun nf => (fst nf, bq_stored (snd nf))) fields = fields <-> Forall (fun nf => bq_kept (snd nf)) fields).
Proof.
  induction fields as [|[n t] l IH]; intros K; [split; constructor|]. cbn [map fst snd].
  pose proof (K _ (or_introl eq_refl)) as Kt. cbn [snd] in Kt. specialize (IH (fun nf I => K nf (or_intror I))). split.
  - intro E. injection E as E1 E2. constructor; [apply Kt; exact E1|apply IH; exact E2].
  - intro F. inversion F; subst. rewrite (proj2 IH) by assumption. cbn [snd] in *. rewrite (proj2 Kt) by assumption. reflexivity.
Qed.
Lemma kept_meta : forall t, convertible parse t -> is_list t = false -> set_nullable false (bq_stored t) = t -> bq_stored t = t /\ is_nullable t = false.
Proof.
  intros t C L E. assert (N : is_nullable t = false) by (rewrite <- E; apply is_nullable_set). split; [|exact N].
  rewrite <- E at 2. symmetry. apply set_same. destruct t as [[]| | | | | | | | | | |]; try discriminate L; exact N.
Qed.
Theorem bq_stored_kept : forall t, convertible parse t -> (bq_stored t = t <-> bq_kept t).
Proof.
  induction t as [s m|b m|p m|nm t i m IH|f s m|e m IH|nm e p c m IH|k v m IHk IHv|e m IH|nm fs m IH|p m|p m] using ty_ind'; intros C;
    try (inversion C; fail).
  - destruct s; try destruct w; cbn; (split; intro E; [try discriminate E; try constructor|try reflexivity; try (inversion E; fail)]).
    + inversion C; subst. match goal with H : Null <> Null |- _ => destruct (H eq_refl) end.
    + inversion C; subst. match goal with H : forall w', UInt _ <> UInt w' |- _ => destruct (H _ eq_refl) end.
    + inversion C; subst. match goal with H : forall w', UInt _ <> UInt w' |- _ => destruct (H _ eq_refl) end.
    + inversion C; subst. match goal with H : forall w', UInt _ <> UInt w' |- _ => destruct (H _ eq_refl) end.
    + inversion C; subst. match goal with H : forall w', UInt _ <> UInt w' |- _ => destruct (H _ eq_refl) end.
  - cbn. split; intro E; [injection E as <-; constructor|inversion E; reflexivity].
  - cbn. split; intro E; [injection E as <-; constructor|inversion E; reflexivity].
  - cbn. split; intro E; [injection E as <- <-; constructor|inversion E; reflexivity].
  - inversion C as [| | | | | |? ? CE NL| |]; subst. pose proof (proj1 (no_list_iff e) NL) as L. cbn [bq_stored]. split.
    + intro E. injection E as E1 E2. destruct (kept_meta e CE L E1) as [S N]. rewrite <- E2. constructor; [apply IH; assumption|].
      unfold is_nullable in N. destruct (meta_of e) as [d b]. cbn in *. rewrite N. reflexivity.
    + intro K. inversion K as [| | | | | | | | | |? d KE ME| |]; subst. rewrite (proj2 (IH CE) KE), ME. rewrite set_same by (unfold is_nullable; rewrite ME; reflexivity). reflexivity.
  - inversion C as [| | | | | | | |? sn fields sm ? ? ? CS]; subst. cbn [bq_stored]. cbn [with_meta]. specialize (IH CS). cbn [bq_stored] in IH. split.
    + intro E. assert (E1 : map (fun nf : str * ty => (fst nf, bq_stored (snd nf))) fields = fields) by congruence.
      assert (E2 : anon = sn) by congruence. assert (E3 : plain = sm) by congruence. assert (E4 : plain = m) by congruence.
      assert (E5 : table_name nm = nm) by congruence. assert (E6 : match p with [] => [] | hd :: _ => [hd] end = p) by congruence. subst sn sm m. clear E.
      constructor.
      * intro A. subst nm. vm_compute in E5. discriminate E5.
      * rewrite E1 in IH. pose proof (proj1 IH eq_refl) as K. inversion K; assumption.
      * rewrite <- E6. destruct p; cbn; lia.
    + intro K. inversion K as [| | | | | | | | | | | |? ? ? ? NA KF LP]; subst.
      assert (S : Struct anon (map (fun nf : str * ty => (fst nf, bq_stored (snd nf))) fields) plain = Struct anon fields plain) by (apply IH; constructor; exact KF).
      injection S as S. rewrite S. unfold table_name. destruct (str_eqb nm anon) eqn:EA; [apply str_eqb_spec in EA; contradiction|].
      destruct p as [|hd [|]]; [reflexivity|reflexivity|cbn in LP; lia].
  - inversion C; subst. cbn [bq_stored]. pose proof (kept_fields fs) as K. rewrite Forall_forall in IH.
    match goal with H : Forall _ fs |- _ => rewrite Forall_forall in H; specialize (K (fun nf I => IH nf I (H nf I))) end. split.
    + intro E. assert (E1 : map (fun nf : str * ty => (fst nf, bq_stored (snd nf))) fs = fs) by congruence. assert (E2 : anon = nm) by congruence. subst nm.
      constructor. apply K. exact E1.
    + intro Q. inversion Q; subst. rewrite (proj2 K) by assumption. reflexivity.
  - cbn. split; intro E; [injection E as <-; constructor|inversion E; reflexivity].
  - cbn. split; intro E; [injection E as <-; constructor|inversion E; reflexivity].
Qed.

(** * What came back is stable *)
Lemma stored_list : forall t, is_list (bq_stored t) = is_list t.
Proof. destruct t as [[]| | | | | | | | | | |]; reflexivity. Qed.
Lemma stored_nullable : forall t, is_list t = false -> is_nullable (bq_stored t) = is_nullable t.
Proof. intros t L. unfold is_nullable. rewrite bq_stored_meta by exact L. reflexivity. Qed.
Lemma set_set' : forall b c t, set_nullable b (set_nullable c t) = set_nullable b t.
Proof. destruct t as [? []|? []|? []|? ? ? []|? ? []|? []|? ? ? ? []|? ? []|? []|? ? []|? []|? []]; reflexivity. Qed.
Lemma table_name_idem : forall n, table_name (table_name n) = table_name n.
Proof. intro n. unfold table_name. destruct (str_eqb n anon) eqn:E; [reflexivity|rewrite E; reflexivity]. Qed.
Theorem bq_stored_idem : forall t, convertible parse t -> bq_stored (bq_stored t) = bq_stored t.
Proof.
  induction t as [s m|b m|p m|nm t i m IH|f s m|e m IH|nm e p c m IH|k v m IHk IHv|e m IH|nm fs m IH|p m|p m] using ty_ind'; intros C;
    try (inversion C; fail); try reflexivity.
  - destruct s; reflexivity.
  - inversion C as [| | | | | |? ? CE NL| |]; subst. pose proof (proj1 (no_list_iff e) NL) as L. cbn [bq_stored].
    rewrite set_stored by (rewrite stored_list; exact L). rewrite IH by exact CE. rewrite set_set'.
    f_equal. f_equal. destruct e as [[]| | | | | | | | | | |]; try discriminate L; reflexivity.
  - inversion C as [| | | | | | | |? sn fields sm ? ? ? CS]; subst. specialize (IH CS). cbn [bq_stored with_meta] in *. rewrite table_name_idem.
    assert (E : map (fun nf : str * ty => (fst nf, bq_stored (snd nf))) (map (fun nf : str * ty => (fst nf, bq_stored (snd nf))) fields) =
      map (fun nf : str * ty => (fst nf, bq_stored (snd nf))) fields) by congruence. rewrite E. destruct p; reflexivity.
  - inversion C; subst. cbn [bq_stored]. f_equal. rewrite map_map. apply map_ext_in. intros [n t] I. cbn [fst snd]. f_equal.
    rewrite Forall_forall in IH. apply (IH (n, t) I). match goal with H : Forall _ fs |- _ => rewrite Forall_forall in H; apply (H (n, t) I) end.
Qed.
Lemma stored_leaf : forall t, leaf_type (bq_stored t) = leaf_type t.
Proof. destruct t as [[]| | | | | | | | | | |]; reflexivity. Qed.
Lemma stored_day : forall t, is_day_like (bq_stored t) = is_day_like t.
Proof. destruct t as [[]| | | | | | | | | | |]; reflexivity. Qed.
Lemma stored_int : forall t, is_int_type (bq_stored t) = is_int_type t.
Proof. destruct t as [[]| | | | | | | | | | |]; reflexivity. Qed.
Lemma dget_stored : forall (fields : list (str * ty)) n, dget str_eqb (map (fun nf => (fst nf, bq_stored (snd nf))) fields) n = option_map bq_stored (dget str_eqb fields n).
Proof. induction fields as [|[k t] l IH]; intro n; [reflexivity|]. cbn. destruct (str_eqb k n); [reflexivity|apply IH]. Qed.
Lemma record_meta : forall n h sn fields m m', bq_of n h (Struct sn fields m) = rmap (fun r => match r with SchemaField _ _ _ _ fs => create_field $"RECORD" (Struct sn fields m) h fs | r => r end) (bq_of n h (Struct anon fields m')).
Proof. intros [|n] h sn fields m m'; [reflexivity|]. rewrite !bq_of_S. unfold bq_step. cbn [leaf_type]. destruct (mapM _ fields); reflexivity. Qed.

Theorem bq_stored_same : forall n t h, constructed t -> convertible parse t -> bq_of n h (bq_stored t) = bq_of n h t.
Proof.
  induction n as [|n IH]; intros t h K C; [reflexivity|]. rewrite !bq_of_S. unfold bq_step. rewrite stored_leaf.
  destruct (leaf_type t) as [ft|] eqn:LT.
  { unfold create_field. destruct t as [[]| | | | | | | | | | |]; try discriminate LT; reflexivity. }
  destruct t as [s m|b m|p m|nm t i m|f s m|e m|nm e p c m|k v m|e m|nm fs m|p m|p m]; try (inversion C; fail); try reflexivity.
  - destruct s; reflexivity.
  - inversion C as [| | | | | |? ? CE NL| |]; subst. pose proof (proj1 (no_list_iff e) NL) as L. cbn [bq_stored]. rewrite set_list, stored_list, L, set_set', <- set_stored by exact L.
    rewrite IH; [reflexivity|apply set_constructed; inversion K; assumption|apply set_convertible; exact CE].
  - inversion C as [| | | | | | | |? sn fields sm ? ? ? CS NC NP DP]; subst.
    assert (KS : constructed (Struct sn fields sm)) by (inversion K; assumption). assert (ND : NoDup (map fst fields)) by (inversion KS; assumption).
    cbn [bq_stored with_meta].
    rewrite (record_meta n h sn fields sm plain). rewrite (record_meta n h anon _ plain plain).
    assert (E : bq_of n h (bq_stored (Struct anon fields plain)) = bq_of n h (Struct anon fields plain)).
    { apply IH; [inversion KS; constructor; assumption|inversion CS; constructor; assumption]. }
    cbn [bq_stored] in E. rewrite E. clear E. destruct (bq_of n h (Struct anon fields plain)) as [r|] eqn:R; [|reflexivity]. cbn [rmap bind].
    destruct n as [|n]; [discriminate R|]. rewrite bq_of_S in R. unfold bq_step in R. cbn [leaf_type] in R. destruct (mapM _ fields) as [l|]; [|discriminate R]. injection R as <-.
    cbn [create_field]. unfold table_step. rewrite table_name_idem. destruct (parse _) as [[[pp dd] tt]|]; [|reflexivity].
    destruct (negb _); [reflexivity|]. destruct p as [|hd tl]; [reflexivity|]. rewrite dget_stored.
    destruct (DP hd tl eq_refl) as (t & I & D). rewrite (proj2 (dget_NoDup _ str_eqb_spec fields hd t ND) I). cbn [option_map].
    rewrite stored_day, (proj1 (daily_iff t) D). reflexivity.
  - inversion C; inversion K; subst. cbn [bq_stored]. rewrite mapM_map. cbn [fst snd].
    match goal with H : Forall (fun nf => convertible _ _) fs, G : Forall (fun nf => constructed _) fs |- _ =>
      rewrite (mapM_ext _ _ _ (fun nf : str * ty => bq_of n (Some (fst nf)) (snd nf)) fs (fun nf I => IH (snd nf) (Some (fst nf)) (proj1 (Forall_forall _ _) G nf I) (proj1 (Forall_forall _ _) H nf I))) end.
    reflexivity.
Qed.

(** * The other way around *)
Definition leaf_read (ft : str) (m : meta) : option ty :=
  if str_eqb ft $"FLOAT" then Some (Scalar (Float F64) m)
  else if str_eqb ft $"INTEGER" then Some (Scalar (Int B64) m)
  else if str_eqb ft $"BYTES" then Some (Binary None m)
  else if str_eqb ft $"BOOLEAN" then Some (Scalar Boolean m)
  else if str_eqb ft $"DATE" then Some (Scalar Date m)
  else if str_eqb ft $"GEOGRAPHY" then Some (Geography None None m)
  else if str_eqb ft $"STRING" then Some (Scalar String m)
  else if str_eqb ft $"DATETIME" then Some (DateTime Microsecond m)
  else if str_eqb ft $"TIME" then Some (Time Microsecond m)
  else if str_eqb ft $"TIMESTAMP" then Some (Timestamp Microsecond m)
  else None.
Lemma of_field : forall m h n ft mode d fs, of_bq (S m) h (SchemaField n ft mode d fs) =
  if str_eqb mode REPEATED then rmap (fun e => List e (Meta d false)) (of_bq m h (SchemaField n ft REQUIRED d fs))
  else match leaf_read (upper ft) (Meta d (str_eqb mode NULLABLE)) with
       | Some t => Ok t
       | None => if str_eqb (upper ft) $"RECORD"
                 then rmap (fun l => Struct anon (dict_of str_eqb l) (Meta d (str_eqb mode NULLABLE))) (mapM (read_named (of_bq m) h) fs)
                 else Err NotImplementedError
       end.
Proof.
  intros. unfold BigQueryTypes_Model.of_bq. cbn [to_artigraph system_of convert]. rewrite sorted_bq. unfold leaf_read.
  cbn -[str_eqb upper dict_of mapM REPEATED NULLABLE REQUIRED].
  destruct (str_eqb mode REPEATED); [reflexivity|]. generalize (upper ft). intro u.
  repeat match goal with |- context[str_eqb u ?x] => destruct (str_eqb u x); [reflexivity|] end. reflexivity.
Qed.
Lemma of_object : forall m h s, of_bq (S m) h (BqObject s) = Err NotImplementedError.
Proof. reflexivity. Qed.
Lemma of_range : forall m h p d tb schema time clustering, of_bq (S m) h (Table p d tb schema time true clustering) = Err NotImplementedError.
Proof.
  intros. unfold BigQueryTypes_Model.of_bq. cbn [to_artigraph system_of convert]. rewrite sorted_bq. cbn -[str_eqb].
  destruct time as [[ty f]|]; [|reflexivity]. destruct (str_eqb _ _); reflexivity.
Qed.

Lemma upper_char_idem : forall c, upper_char (upper_char c) = upper_char c.
Proof. intros [[] [] [] [] [] [] [] []]; vm_compute; reflexivity. Qed.
Lemma upper_idem : forall s, upper (upper s) = upper s.
Proof. intro s. unfold upper. rewrite map_map. apply map_ext. exact upper_char_idem. Qed.

Lemma leaf_readable : forall u m, (exists t, leaf_read u m = Some t) <-> In u leaf_names.
Proof.
  intros u m. unfold leaf_read, leaf_names. split.
  - intros [t H]. repeat match type of H with context[str_eqb u ?x] => destruct (str_eqb u x) eqn:?; [match goal with E : str_eqb u x = true |- _ => apply str_eqb_spec in E; subst u; cbn; tauto end|] end. discriminate H.
  - cbn [In]. intros H. repeat (destruct H as [<-|H]; [cbv; eauto|]). destruct H.
Qed.
Lemma leaf_shape : forall u m t, leaf_read u m = Some t -> leaf_type t = Some u /\ meta_of t = m /\ constructed t.
Proof.
  intros u m t H. unfold leaf_read in H.
  repeat match type of H with context[str_eqb u ?x] => destruct (str_eqb u x) eqn:?; [match goal with E : str_eqb u x = true |- _ => apply str_eqb_spec in E; subst u; injection H as <-; repeat split; constructor end|] end.
  discriminate H.
Qed.
Lemma record_not_leaf : forall m, leaf_read $"RECORD" m = None.
Proof. reflexivity. Qed.

Lemma nesting_in : forall (l : list bq) x, In x l -> bq_nesting x <= fold_right Nat.max 0 (map bq_nesting l).
Proof. induction l as [|a l IH]; cbn; intros x I; [destruct I|]. destruct I as [E|I]; [subst; lia|specialize (IH x I); lia]. Qed.
Lemma named_ok : forall n h (l : list bq), (forall x, In x l -> (exists t, of_bq n h x = Ok t) <-> readable_field x) ->
  (forall x, In x l -> is_field x = true) -> ((exists r, mapM (read_named (of_bq n) h) l = Ok r) <-> Forall readable_field l).
Proof.
  intros n h. induction l as [|x l IH]; intros K F; [split; [constructor|exists []; reflexivity]|]. cbn [mapM].
  pose proof (K x (or_introl eq_refl)) as Kx. pose proof (F x (or_introl eq_refl)) as Fx. destruct x as [xn xt xm xd xf| |]; try discriminate Fx. cbn [read_named].
  specialize (IH (fun y I => K y (or_intror I)) (fun y I => F y (or_intror I))). split.
  - intros [r R]. destruct (of_bq n h _) as [t|]; [|discriminate R]. cbn [rmap bind] in R. destruct (mapM _ l) as [r'|]; [|discriminate R]. constructor; [apply Kx; eauto|apply IH; eauto].
  - intro Q. inversion Q; subst. destruct (proj2 Kx ltac:(assumption)) as [t ->]. destruct (proj2 IH ltac:(assumption)) as [r ->]. cbn. eauto.
Qed.
Lemma wf_is_field : forall l, Forall wf_field l -> forall x, In x l -> is_field x = true.
Proof. intros l F x I. rewrite Forall_forall in F. destruct (F x I). reflexivity. Qed.
Lemma readable_field_mode : forall n ft mode mode' d fs, readable_field (SchemaField n ft mode d fs) <-> readable_field (SchemaField n ft mode' d fs).
Proof. intros. split; intro H; (inversion H; subst; [apply rf_leaf|apply rf_record]; assumption). Qed.

(** A field needs one level, and one more when it is repeated. *)
Lemma field_readable : forall x, wf_field x -> forall n h, bq_nesting x <= n -> ((exists t, of_bq n h x = Ok t) <-> readable_field x).
Proof.
  enough (G : forall k x, wf_field x -> bq_nesting x <= k -> forall n h, bq_nesting x <= n -> ((exists t, of_bq n h x = Ok t) <-> readable_field x)) by (intros x W n h L; exact (G (bq_nesting x) x W (le_n _) n h L)).
  induction k as [|k IH]; intros x W LK n h L; [destruct x; cbn in LK; lia|]. destruct W as [xn ft mode d fs ND WF]. cbn [bq_nesting] in L, LK.
  assert (ONE : forall n' mode', S (fold_right Nat.max 0 (map bq_nesting fs)) <= n' -> str_eqb mode' REPEATED = false ->
    ((exists t, of_bq n' h (SchemaField xn ft mode' d fs) = Ok t) <-> readable_field (SchemaField xn ft mode' d fs))).
  { intros n' mode' L' NR. destruct n' as [|n']; [lia|]. rewrite of_field, NR.
    destruct (leaf_read (upper ft) (Meta d (str_eqb mode' NULLABLE))) as [t|] eqn:LR.
    - split; [|eauto]. intros _. apply rf_leaf. apply (leaf_readable _ (Meta d (str_eqb mode' NULLABLE))). eauto.
    - assert (NL : ~ In (upper ft) leaf_names) by (intro I; apply (leaf_readable _ (Meta d (str_eqb mode' NULLABLE))) in I; destruct I as [t I]; congruence).
      destruct (str_eqb (upper ft) $"RECORD") eqn:R.
      + apply str_eqb_spec in R. pose proof (named_ok n' h fs) as N. specialize (N ltac:(intros y I; apply IH; [rewrite Forall_forall in WF; exact (WF y I)| |]; pose proof (nesting_in fs y I); lia) (wf_is_field fs WF)). split.
        * intros [t T]. apply rf_record; [exact R|]. apply N. destruct (mapM _ fs); [eauto|discriminate T].
        * intro Q. inversion Q; subst; [contradiction|]. destruct (proj2 N ltac:(assumption)) as [r ->]. cbn. eauto.
      + split; [intros [t T]; discriminate T|]. intro Q. inversion Q; subst; [contradiction|]. match goal with H : upper ft = _ |- _ => rewrite H, str_eqb_refl in R; discriminate R end. }
  destruct (str_eqb mode REPEATED) eqn:MR; [|apply ONE; [lia|exact MR]]. destruct n as [|n]; [lia|]. rewrite of_field, MR.
  specialize (ONE n REQUIRED ltac:(lia) eq_refl). rewrite (readable_field_mode _ _ mode REQUIRED). rewrite <- ONE. split.
  - intros [t T]. destruct (of_bq n h _) as [u|]; [eauto|discriminate T].
  - intros [t ->]. cbn. eauto.
Qed.

(** The schema that is read again is the same for reading. *)
Lemma reparse_same : forall x, wf_field x -> exists y, reparsed x = Ok y /\ wf_field y /\ bq_nesting y <= bq_nesting x /\ canonical_bq y = canonical_bq x /\
  (readable_field y <-> readable_field x) /\ field_name y = field_name x.
Proof.
  enough (G : forall k x, wf_field x -> bq_nesting x <= k -> exists y, reparsed x = Ok y /\ wf_field y /\ bq_nesting y <= bq_nesting x /\ canonical_bq y = canonical_bq x /\
  (readable_field y <-> readable_field x) /\ field_name y = field_name x) by (intros x W; exact (G (bq_nesting x) x W (le_n _))).
  induction k as [|k IH]; intros x W L; [destruct x; cbn in L; lia|]. destruct W as [xn ft mode d fs ND WF]. cbn [bq_nesting] in L. cbn [reparsed].
  destruct (record_type ft) eqn:RT.
  - assert (A : exists ys, (fix all (l : list bq) : result (list bq) :=
              match l with
              | [] => Ok []
              | y :: l' => bind (reparsed y) (fun y' => bind (all l') (fun l'' => Ok (y' :: l'')))
              end) fs = Ok ys /\ Forall wf_field ys /\ fold_right Nat.max 0 (map bq_nesting ys) <= fold_right Nat.max 0 (map bq_nesting fs) /\
        map canonical_bq ys = map canonical_bq fs /\ (Forall readable_field ys <-> Forall readable_field fs) /\ map field_name ys = map field_name fs).
    { assert (L' : fold_right Nat.max 0 (map bq_nesting fs) <= k) by lia. clear L ND RT. induction fs as [|f fs IHf]; [exists []; repeat split; auto|].
      inversion WF; subst. cbn [map fold_right] in L'. destruct (IH f ltac:(assumption) ltac:(lia)) as (y & Y & Wy & Ly & Cy & Ry & Ny).
      destruct (IHf ltac:(assumption) ltac:(lia)) as (ys & Ys & Wys & Lys & Cys & Rys & Nys). exists (y :: ys). rewrite Y. cbn [bind]. rewrite Ys. cbn [bind map fold_right].
      split; [reflexivity|]. split; [constructor; assumption|]. split; [lia|]. split; [congruence|]. split; [|congruence].
      split; intro F; inversion F; subst; constructor; tauto. }
    destruct A as (ys & -> & Wys & Lys & Cys & Rys & Nys). cbn [rmap]. eexists. split; [reflexivity|]. split; [constructor; [rewrite Nys; exact ND|exact Wys]|].
    cbn [bq_nesting canonical_bq field_name]. rewrite upper_idem, Cys. split; [lia|]. split; [reflexivity|]. split; [|reflexivity].
    split; intro H; inversion H; subst; rewrite ?upper_idem in *.
    + apply rf_leaf. assumption.
    + apply rf_record; tauto.
    + apply rf_leaf. rewrite upper_idem. assumption.
    + apply rf_record; [rewrite upper_idem; assumption|tauto].
  - eexists. split; [reflexivity|]. split; [constructor; constructor|]. cbn [bq_nesting canonical_bq field_name map fold_right]. rewrite upper_idem. unfold record_type in RT.
    apply orb_false_iff in RT. destruct RT as [RT _]. rewrite RT. split; [lia|]. split; [reflexivity|]. split; [|reflexivity].
    split; intro H; inversion H; subst; rewrite ?upper_idem in *; try (rewrite str_eqb_refl in RT; discriminate RT);
      try match goal with E : upper ft = _ |- _ => rewrite E, str_eqb_refl in RT; discriminate RT end.
    + apply rf_leaf. assumption.
    + apply rf_leaf. rewrite upper_idem. assumption.
Qed.
Lemma reparse_schema : forall l, Forall wf_field l -> exists ys, mapM reparsed l = Ok ys /\ Forall wf_field ys /\
  fold_right Nat.max 0 (map bq_nesting ys) <= fold_right Nat.max 0 (map bq_nesting l) /\
  map canonical_bq ys = map canonical_bq l /\ (Forall readable_field ys <-> Forall readable_field l) /\ map field_name ys = map field_name l.
Proof.
  induction l as [|f fs IHf]; intro WF; [exists []; repeat split; auto|]. inversion WF; subst. cbn [map fold_right mapM].
  destruct (reparse_same f ltac:(assumption)) as (y & Y & Wy & Ly & Cy & Ry & Ny). destruct (IHf ltac:(assumption)) as (ys & Ys & Wys & Lys & Cys & Rys & Nys).
  exists (y :: ys). rewrite Y. cbn [bind]. rewrite Ys. cbn [bind map fold_right].
  split; [reflexivity|]. split; [constructor; assumption|]. split; [lia|]. split; [congruence|]. split; [|congruence].
  split; intro F; inversion F; subst; constructor; tauto.
Qed.
Lemma named_names : forall n h l r, mapM (read_named (of_bq n) h) l = Ok r -> map fst r = map field_name l.
Proof.
  intros n h. induction l as [|x l IH]; intros r H; cbn [mapM] in H; [injection H as <-; reflexivity|].
  destruct x as [xn xt xm xd xf| |]; try discriminate H. cbn [read_named] in H. destruct (of_bq n h _) as [t|]; [|discriminate H]. cbn [rmap bind] in H.
  destruct (mapM _ l) as [r'|]; [|discriminate H]. injection H as <-. cbn. f_equal. exact (IH r' eq_refl).
Qed.

Theorem bq_readable_iff : forall n x h, wf_bq parse x -> bq_nesting x <= n -> ((exists t, of_bq n h x = Ok t) <-> readable_bq x).
Proof.
  intros n x h W L. destruct x as [xn ft mode d fs|p d tb schema time range clustering|s]; [| |inversion W].
  { rewrite field_readable by assumption. split; [constructor; assumption|intro H; inversion H; assumption]. }
  destruct W as (ND & WF & _ & _). cbn [bq_nesting] in L. destruct n as [|n]; [lia|].
  destruct range; [rewrite of_range; split; [intros [t T]; discriminate T|intro H; inversion H; subst; match goal with H : readable_field _ |- _ => inversion H end]|].
  rewrite of_table. destruct (reparse_schema schema WF) as (ys & -> & Wys & Lys & _ & Rys & Nys). cbn [bind].
  assert (REC : of_bq n h (SchemaField anon $"RECORD" REQUIRED None ys) = rmap (fun l => Struct anon (dict_of str_eqb l) plain) (mapM (read_named (of_bq (pred n)) h) ys)).
  { destruct n as [|n]; [lia|]. exact (of_record n h anon false None ys). }
  rewrite REC. clear REC.
  assert (N : (exists r, mapM (read_named (of_bq (pred n)) h) ys = Ok r) <-> Forall readable_field schema).
  { rewrite <- Rys. apply named_ok; [|exact (wf_is_field ys Wys)]. intros y I. apply field_readable; [rewrite Forall_forall in Wys; exact (Wys y I)|]. pose proof (nesting_in ys y I). lia. }
  assert (V : forall r p c, mapM (read_named (of_bq (pred n)) h) ys = Ok r -> ((exists t, mk_collection (qualified p d tb) (Struct anon (dict_of str_eqb r) plain) [] c plain = Ok t) <-> forall f, In f c -> In f (map field_name schema))).
  { intros r p' c R. pose proof (named_names _ _ _ _ R) as NN. rewrite Layout_Proofs.dict_of_NoDup by (rewrite NN, Nys; exact ND). rewrite <- Nys, <- NN. split.
    - intros [t T]. apply collection_created in T. destruct T as [(sn & sf & sm & E & _ & VC & _) _]. injection E as <- <- <-. exact VC.
    - intro H. eexists. apply collection_created. split; [|reflexivity]. exists anon, r, plain. split; [reflexivity|]. split; [intros ? []|]. split; [exact H|intros ? []]. }
  assert (V' : forall r p f c, mapM (read_named (of_bq (pred n)) h) ys = Ok r -> ((exists t, mk_collection (qualified p d tb) (Struct anon (dict_of str_eqb r) plain) [f] c plain = Ok t) <->
     In f (map field_name schema) /\ forall g, In g c -> In g (map field_name schema) /\ g <> f)).
  { intros r p' f c R. pose proof (named_names _ _ _ _ R) as NN. rewrite Layout_Proofs.dict_of_NoDup by (rewrite NN, Nys; exact ND). rewrite <- Nys, <- NN. split.
    - intros [t T]. apply collection_created in T. destruct T as [(sn & sf & sm & E & VP & VC & VD) _]. injection E as <- <- <-. split; [apply VP; left; reflexivity|].
      intros g I. split; [exact (VC g I)|]. intros ->. exact (VD f (or_introl eq_refl) I).
    - intros [I H]. eexists. apply collection_created. split; [|reflexivity]. exists anon, r, plain. split; [reflexivity|]. split; [intros ? [<-|[]]; exact I|].
      split; [intros g J; exact (proj1 (H g J))|]. intros g [<-|[]] J. destruct (proj2 (H f J) eq_refl). }
  destruct time as [[ty [f|]]|].
  - destruct (str_eqb ty $"DAY") eqn:D; cbn [bind].
    + apply str_eqb_spec in D. subst ty. split.
      * intros [t T]. destruct (mapM _ ys) as [r|] eqn:R; [|discriminate T]. cbn [rmap bind] in T. assert (F : Forall readable_field schema) by (apply N; eauto).
        destruct (proj1 (V' r p f (or_default clustering []) eq_refl) (ex_intro _ t T)) as [I H]. apply rq_partitioned; assumption.
      * intro Q. inversion Q; subst; [match goal with H : readable_field _ |- _ => inversion H end|]. destruct (proj2 N ltac:(assumption)) as [r R]. rewrite R. cbn [rmap bind].
        apply (V' r p f (or_default clustering []) R). split; assumption.
    + split; [intros [t T]; discriminate T|]. intro Q. inversion Q; subst; [match goal with H : readable_field _ |- _ => inversion H end|]. rewrite str_eqb_refl in D. discriminate D.
  - split.
    + intros [t T]. destruct (str_eqb ty _); [|discriminate T]. cbn [bind] in T. destruct (mapM _ ys); discriminate T.
    + intro Q. inversion Q; subst; match goal with H : readable_field _ |- _ => inversion H end.
  - cbn [bind]. split.
    + intros [t T]. destruct (mapM _ ys) as [r|] eqn:R; [|discriminate T]. cbn [rmap bind] in T. apply rq_table; [apply N; eauto|]. apply (V r p (or_default clustering []) eq_refl). eauto.
    + intro Q. inversion Q; subst; [match goal with H : readable_field _ |- _ => inversion H end|]. destruct (proj2 N ltac:(assumption)) as [r R]. rewrite R. cbn [rmap bind].
      apply (V r p (or_default clustering []) R). assumption.
Qed.

Lemma field_back : forall n h n0 ft mode d fs t, wf_field (SchemaField n0 ft mode d fs) -> of_bq n h (SchemaField n0 ft mode d fs) = Ok t ->
  constructed t /\ is_list t = str_eqb mode REPEATED /\ meta_of t = Meta d (str_eqb mode NULLABLE) /\ is_collection t = false /\
  bq_of n (Some n0) t = Ok (canonical_bq (SchemaField n0 ft mode d fs)).
Proof.
  induction n as [|n IH]; intros h n0 ft mode d fs t W H; [discriminate H|]. rewrite of_field in H.
  destruct (str_eqb mode REPEATED) eqn:MR.
  { apply str_eqb_spec in MR. subst mode. destruct (of_bq n h _) as [e|] eqn:E; [|discriminate H]. injection H as <-.
    destruct (IH h n0 ft REQUIRED d fs e) as (C & L & M & NC & B); [inversion W; constructor; assumption|exact E|].
    split; [constructor; exact C|]. split; [reflexivity|]. split; [reflexivity|]. split; [reflexivity|]. rewrite bq_of_S. unfold bq_step. cbn [leaf_type].
    replace (is_list e) with false by (symmetry; exact L). rewrite set_same by (unfold is_nullable; rewrite M; reflexivity). rewrite B. cbn [bind canonical_bq]. reflexivity. }
  destruct (leaf_read (upper ft) (Meta d (str_eqb mode NULLABLE))) as [t'|] eqn:LR.
  { injection H as <-. destruct (leaf_shape _ _ _ LR) as (LT & M & C). split; [exact C|]. rewrite bq_of_S. unfold bq_step. rewrite LT.
    destruct (str_eqb (upper ft) $"RECORD") eqn:R; [apply str_eqb_spec in R; rewrite R in LR; discriminate LR|].
    split; [destruct t'; try discriminate LT; reflexivity|]. split; [exact M|]. split; [destruct t'; try discriminate LT; reflexivity|].
    unfold create_field, is_nullable. rewrite M. cbn [canonical_bq nullable description]. rewrite MR, R. reflexivity. }
  destruct (str_eqb (upper ft) $"RECORD") eqn:R; [|discriminate H]. destruct (mapM _ fs) as [l|] eqn:ML; [|discriminate H]. injection H as <-.
  inversion W as [? ? ? ? ? ND WF]; subst. assert (NN : NoDup (map fst l)) by (rewrite (named_names _ _ _ _ ML); exact ND). rewrite (Layout_Proofs.dict_of_NoDup _ l NN).
  assert (A : Forall (fun nf => constructed (snd nf)) l /\ mapM (fun nf => bq_of n (Some (fst nf)) (snd nf)) l = Ok (map canonical_bq fs)).
  { clear -ML WF IH. revert l ML. induction fs as [|x fs IHf]; intros l ML; cbn [mapM] in ML; [injection ML as <-; split; [constructor|reflexivity]|].
    inversion WF as [|? ? Wx Wfs]; subst. inversion Wx as [xn xt xm xd xf]; subst. cbn [read_named] in ML. destruct (of_bq n h _) as [t|] eqn:T; [|discriminate ML]. cbn [rmap bind] in ML.
    destruct (mapM _ fs) as [l'|] eqn:L; [|discriminate ML]. injection ML as <-. destruct (IHf Wfs l' eq_refl) as [F M].
    destruct (IH h xn xt xm xd xf t Wx T) as (C & _ & _ & _ & B). split; [constructor; assumption|]. cbn [mapM fst snd map]. rewrite B. cbn [bind]. rewrite M. reflexivity. }
  destruct A as [F M]. split; [constructor; assumption|]. split; [reflexivity|]. split; [reflexivity|]. split; [reflexivity|].
  rewrite bq_of_S. unfold bq_step. cbn [leaf_type]. rewrite M. cbn [rmap canonical_bq]. rewrite MR, R. apply str_eqb_spec in R. rewrite R. reflexivity.
Qed.

Lemma dots_anon : forall a b c, str_eqb (qualified a b c) anon = false.
Proof.
  intros a b c. destruct (str_eqb (qualified a b c) anon) eqn:E; [|reflexivity]. apply str_eqb_spec in E.
  assert (I : In "."%char (qualified a b c)) by (unfold qualified; apply in_or_app; right; left; reflexivity). rewrite E in I. cbn in I. intuition discriminate.
Qed.
Lemma canonical_fields : forall l, Forall wf_field l -> forallb is_field (map canonical_bq l) = true.
Proof. induction 1 as [|x l W F IH]; [reflexivity|]. destruct W. cbn. exact IH. Qed.

(** The type of a column found by its name. *)
Lemma named_column : forall n h l r, Forall wf_field l -> NoDup (map field_name l) -> mapM (read_named (of_bq n) h) l = Ok r ->
  forall f ft mode d fs, In (SchemaField f ft mode d fs) l -> exists t, In (f, t) r /\ of_bq n h (SchemaField f ft mode d fs) = Ok t.
Proof.
  intros n h. induction l as [|x l IH]; intros r W ND H f ft mode d fs I; [destruct I|]. cbn [mapM] in H. inversion W as [|? ? Wx Wl]; subst.
  inversion Wx as [xn xt xm xd xf]; subst. cbn [read_named] in H. destruct (of_bq n h _) as [t|] eqn:T; [|discriminate H]. cbn [rmap bind] in H.
  destruct (mapM _ l) as [r'|]; [|discriminate H]. injection H as <-. destruct I as [E|I].
  - injection E as -> -> -> -> ->. exists t. split; [left; reflexivity|exact T].
  - inversion ND; subst. destruct (IH r' Wl ltac:(assumption) eq_refl f ft mode d fs I) as (t' & I' & T'). exists t'. split; [right; exact I'|exact T'].
Qed.
Lemma day_column : forall n h f ft mode d fs t, In (upper ft) [$"DATE"; $"DATETIME"; $"TIMESTAMP"] -> mode <> REPEATED ->
  of_bq n h (SchemaField f ft mode d fs) = Ok t -> is_day_like t = true.
Proof.
  intros [|n] h f ft mode d fs t I NR H; [discriminate H|]. rewrite of_field in H. destruct (str_eqb mode REPEATED) eqn:E; [apply str_eqb_spec in E; contradiction|].
  destruct I as [I|[I|[I|[]]]]; rewrite <- I in H; injection H as <-; reflexivity.
Qed.
Lemma reparse_column : forall l ys, Forall wf_field l -> mapM reparsed l = Ok ys -> forall f ft mode d fs, In (SchemaField f ft mode d fs) l ->
  exists fs', In (SchemaField f (upper ft) mode d fs') ys.
Proof.
  induction l as [|x l IH]; intros ys W H f ft mode d fs I; [destruct I|]. cbn [mapM] in H. inversion W as [|? ? Wx Wl]; subst.
  destruct (reparsed x) as [y|] eqn:Y; [|discriminate H]. cbn [bind] in H. destruct (mapM _ l) as [ys'|]; [|discriminate H]. injection H as <-. destruct I as [->|I].
  - cbn [reparsed] in Y. destruct (record_type ft).
    + destruct (_ fs) as [l2|]; [|discriminate Y]. injection Y as <-. eexists. left. reflexivity.
    + injection Y as <-. eexists. left. reflexivity.
  - destruct (IH ys' Wl eq_refl f ft mode d fs I) as [fs' I']. exists fs'. right. exact I'.
Qed.

Theorem bq_back : forall n h x t, wf_bq parse x -> of_bq n h x = Ok t -> constructed t /\ bq_of n (Some (field_name x)) t = Ok (canonical_bq x).
Proof.
  intros n h x t W H. destruct x as [xn ft mode d fs|p d tb schema time range clustering|s]; [| |inversion W].
  { destruct (field_back n h xn ft mode d fs t W H) as (C & _ & _ & _ & B). split; assumption. }
  destruct W as (ND & WF & P & DAY). destruct n as [|n]; [discriminate H|]. destruct range; [rewrite of_range in H; discriminate H|]. rewrite of_table in H.
  destruct (reparse_schema schema WF) as (ys & RP & Wys & _ & Cys & _ & Nys). rewrite RP in H.
  destruct (match time with None => _ | Some _ => _ end) as [parts|] eqn:PT; [|discriminate H]. cbn [bind] in H.
  destruct n as [|n]; [discriminate H|]. pose proof (of_record n h anon false None ys) as REC. cbv iota in REC. rewrite REC in H. clear REC.
  destruct (mapM (read_named _ h) ys) as [r|] eqn:R; [|discriminate H]. cbn [rmap bind] in H.
  pose proof (named_names _ _ _ _ R) as NN. assert (NR : NoDup (map fst r)) by (rewrite NN, Nys; exact ND). rewrite (Layout_Proofs.dict_of_NoDup _ r NR) in H.
  assert (A : Forall (fun nf => constructed (snd nf)) r /\ mapM (fun nf => bq_of n (Some (fst nf)) (snd nf)) r = Ok (map canonical_bq schema)).
  { rewrite <- Cys. clear -R Wys. revert r R. induction ys as [|x fs IHf]; intros l ML; cbn [mapM] in ML; [injection ML as <-; split; [constructor|reflexivity]|].
    inversion Wys as [|? ? Wx Wfs]; subst. inversion Wx as [xn xt xm xd xf]; subst. cbn [read_named] in ML. destruct (of_bq n h _) as [t|] eqn:T; [|discriminate ML]. cbn [rmap bind] in ML.
    destruct (mapM _ fs) as [l'|] eqn:L; [|discriminate ML]. injection ML as <-. destruct (IHf Wfs l' eq_refl) as [F M].
    destruct (field_back n h xn xt xm xd xf t Wx T) as (C & _ & _ & _ & B). split; [constructor; assumption|]. cbn [mapM fst snd map]. rewrite B. cbn [bind]. rewrite M. reflexivity. }
  destruct A as [FC M].
  assert (TS : forall parts, (forall f, parts = [f] -> In f (map field_name schema) -> exists t, In (f, t) r /\ is_day_like t = true) ->
     match parts with [] => True | [_] => True | _ => False end ->
     mk_collection (qualified p d tb) (Struct anon r (Meta None false)) parts (or_default clustering []) plain = Ok t ->
     constructed t /\ bq_of (S (S n)) (Some []) t = Ok (Table p d tb (map canonical_bq schema) (match parts with [] => None | f :: _ => Some ($"DAY", Some f) end) false (match clustering with Some [] => None | c => c end))).
  { intros ps DP LP MK. apply collection_created in MK. destruct MK as [V ->]. split; [constructor; [constructor; assumption|exact V]|].
    rewrite bq_of_S. unfold bq_step. cbn [leaf_type]. rewrite bq_of_S. unfold bq_step. cbn [leaf_type]. rewrite M. cbn [rmap bind create_field]. unfold table_step.
    replace (table_name (qualified p d tb)) with (qualified p d tb) by (unfold table_name; rewrite dots_anon; reflexivity). rewrite P, (canonical_fields schema WF). cbn [negb].
    destruct V as (sn & sf & sm & E & VP & _). injection E as <- <- <-. destruct ps as [|f [|]]; [destruct clustering as [[|]|]; reflexivity| |destruct LP].
    destruct (DP f eq_refl) as (ct & I & D); [rewrite <- Nys, <- NN; apply VP; left; reflexivity|].
    rewrite (proj2 (dget_NoDup _ str_eqb_spec r f ct NR) I), D. cbn [app]. destruct clustering as [[|]|]; reflexivity. }
  cbn [field_name canonical_bq]. destruct time as [[ty [f|]]|].
  - destruct (str_eqb ty $"DAY") eqn:TD; [|discriminate PT]. injection PT as <-. apply str_eqb_spec in TD. subst ty. apply (TS [f]); [|exact I|exact H].
    intros f' E _. injection E as <-. destruct (DAY _ f eq_refl) as (ft & mode & dd & fs & I & TY & NRP). destruct (reparse_column _ _ WF RP _ _ _ _ _ I) as [fs' I'].
    destruct (named_column n h ys r Wys ltac:(rewrite Nys; exact ND) R _ _ _ _ _ I') as (ct & IC & OC). exists ct. split; [exact IC|].
    eapply day_column; [|exact NRP|exact OC]. rewrite upper_idem. exact TY.
  - destruct (str_eqb ty $"DAY"); [|discriminate PT]. injection PT as <-. discriminate H.
  - injection PT as <-. apply (TS []); [intros f E; discriminate E|exact I|exact H].
Qed.
End BigQuery.
