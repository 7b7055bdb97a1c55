(** Proofs about the PyArrow type system. *)
From Coq Require Import ZArith List Ascii String Bool Lia Arith.
From Verif Require Import Base Str Str_Proofs Base_Proofs TypeSystem_Model Types_Model Types_Spec Types_Proofs PyTypes_Model PyTypes_Proofs
  ArrowTypes_Model ArrowTypes_Spec.
From Verif Require Layout_Proofs.
Import ListNotations.
Open Scope list_scope.

(** * What the sorted registry does *)
Lemma sorted_arrow :
  priority_sorted (map (fun a => (a_key a, a)) arrow_adapters) =
  [pa_date64; pa_date32; pa_schema_; pa_string_; pa_null_;
   pa_float $"Pyarrowfloat16" F16; pa_float $"Pyarrowfloat32" F32; pa_float $"Pyarrowfloat64" F64;
   pa_int $"Pyarrowint8" B8; pa_uint $"Pyarrowuint8" B8; pa_int $"Pyarrowint16" B16; pa_uint $"Pyarrowuint16" B16;
   pa_int $"Pyarrowint32" B32; pa_uint $"Pyarrowuint32" B32; pa_int $"Pyarrowint64" B64; pa_uint $"Pyarrowuint64" B64;
   pa_binary_; pa_bool_; pa_geography; pa_list_; pa_map_; pa_struct_; pa_datetime; pa_timestamp;
   pa_time32; pa_time64].
Proof. reflexivity. Qed.

Definition unit_for (p : precision) : time_unit :=
  match p with Second => U_s | Millisecond => U_ms | Microsecond => U_us | Nanosecond => U_ns end.
Definition precision_for (u : time_unit) : precision :=
  match u with U_s => Second | U_ms => Millisecond | U_us => Microsecond | U_ns => Nanosecond end.
Definition field_step (conv : ty -> result arrow) (f : str * ty) : result (str * arrow * bool) :=
  bind (conv (snd f)) (fun x => pa_field (fst f) x (is_nullable (snd f))).
Definition arrow_step (conv : ty -> result arrow) (t : ty) : result arrow :=
  match t with
  | Scalar Boolean _ => Ok PaBool
  | Scalar Date _ => Ok PaDate64
  | Scalar (Float w) _ => Ok (PaFloat w)
  | Scalar (Int w) _ => Ok (PaInt w)
  | Scalar (UInt w) _ => Ok (PaUInt w)
  | Scalar Null _ => Ok PaNull
  | Scalar String _ => Ok PaString
  | Binary b _ => pa_binary (match b with None => (-1)%Z | Some n => n end)
  | DateTime p _ => Ok (PaTimestamp (unit_for p) None)
  | Timestamp p _ => Ok (PaTimestamp (unit_for p) (Some $"UTC"))
  | Time p _ => Ok (match p with Second | Millisecond => PaTime32 (unit_for p) | _ => PaTime64 (unit_for p) end)
  | Geography f _ _ => match f with
                       | Some f => if str_eqb f $"WKB" then Ok PaBinary else Ok PaString
                       | None => Ok PaString
                       end
  | List e _ => bind (conv e) pa_list
  | Collection name (Struct _ fields _) p c _ =>
      rmap (fun fs => PaSchema fs (Some (Entry (Some name) (Some p) (Some c)))) (mapM (field_step conv) fields)
  | Collection _ e _ _ _ => bind (conv e) pa_list
  | Map k v _ => bind (conv k) (fun k' => bind (conv v) (fun v' => pa_map k' v'))
  | Struct _ fields _ => rmap PaStruct (mapM (field_step conv) fields)
  | Enum _ _ _ _ | Set_ _ _ => Err NotImplementedError
  end.
Lemma arrow_of_S : forall n t, arrow_of (S n) t = arrow_step (arrow_of n) t.
Proof.
  intros n t. unfold arrow_of. cbn [to_system system_of convert]. rewrite sorted_arrow.
  destruct t as [[]| | | | | |? [] | | | | |]; try destruct w; try destruct p; try reflexivity.
Qed.

Definition read_field (conv : arrow -> result ty) (f : str * arrow * bool) : result (str * ty) :=
  let '(name, x, nullable) := f in
  rmap (fun t => (name, if Bool.eqb nullable (is_nullable t) then t else set_nullable nullable t)) (conv x).
Definition read_fields (conv : arrow -> result ty) (fields : list (str * arrow * bool)) : result ty :=
  rmap (fun fs => Struct anon (dict_of str_eqb fs) plain) (mapM (read_field conv) fields).
Definition read_step (conv : arrow -> result ty) (x : arrow) : result ty :=
  match x with
  | PaString => Ok (Scalar String plain)
  | PaNull => Ok (Scalar Null plain)
  | PaBool => Ok (Scalar Boolean plain)
  | PaDate32 | PaDate64 => Ok (Scalar Date plain)
  | PaFloat w => Ok (Scalar (Float w) plain)
  | PaInt w => Ok (Scalar (Int w) plain)
  | PaUInt w => Ok (Scalar (UInt w) plain)
  | PaBinary => Ok (Binary None plain)
  | PaFixedBinary n => Ok (Binary (Some n) plain)
  | PaTimestamp u None => Ok (DateTime (precision_for u) plain)
  | PaTimestamp u (Some tz) => if str_eqb (upper tz) $"UTC" then Ok (Timestamp (precision_for u) plain) else Err ValueError
  | PaTime32 u => match u with U_s | U_ms => Ok (Time (precision_for u) plain) | _ => Err NotImplementedError end
  | PaTime64 u => match u with U_us | U_ns => Ok (Time (precision_for u) plain) | _ => Err NotImplementedError end
  | PaList v => rmap (fun e => List e plain) (conv v)
  | PaMap k v => bind (conv k) (fun k' => rmap (fun v' => Map k' v' plain) (conv v))
  | PaStruct fields => read_fields conv fields
  | PaSchema fields e =>
      bind (read_fields conv fields) (fun element =>
      mk_collection match e with Some (Entry (Some n) _ _) => n | _ => anon end element
        match e with Some (Entry _ (Some p) _) => p | _ => [] end
        match e with Some (Entry _ _ (Some c)) => c | _ => [] end plain)
  | PaOtherType _ => Err NotImplementedError
  | PaObject _ => Err AttributeError
  end.
Lemma of_arrow_S : forall n x, of_arrow (S n) x = read_step (of_arrow n) x.
Proof.
  intros n x. unfold of_arrow. cbn [to_artigraph system_of convert]. rewrite sorted_arrow.
  destruct x as [| | | | |w|w|w| | |u [tz|]|u|u|v|k v|fs|s|fs [[[] [] []]|]|s]; try destruct w; try destruct u; try reflexivity.
Qed.
Arguments arrow_of : simpl never.
Arguments of_arrow : simpl never.

(** * Which types are accepted *)
Lemma pa_binary_fits : forall b, (fits b /\ exists x, pa_binary (match b with None => (-1)%Z | Some n => n end) = Ok x) \/
  (~ fits b /\ pa_binary (match b with None => (-1)%Z | Some n => n end) = Err overflow_error).
Proof.
  intros b. unfold pa_binary. destruct (_ && _)%bool eqn:E; [left|right]; (split; [|eauto]).
  - intros n ->. apply andb_true_iff in E. destruct E as [A B]. apply Z.leb_le in A. apply Z.ltb_lt in B. lia.
  - intro F. destruct b as [n|]; [|discriminate E]. specialize (F n eq_refl). apply andb_false_iff in E.
    destruct E as [E|E]; [apply Z.leb_gt in E|apply Z.ltb_ge in E]; lia.
Qed.
Lemma nesting_pos : forall t, 1 <= nesting t.
Proof. destruct t; cbn; lia. Qed.
Lemma field_nesting : forall (fields : list (str * ty)) nf, In nf fields ->
  nesting (snd nf) <= fold_right (fun nf n => Nat.max (nesting (snd nf)) n) 0 fields.
Proof.
  induction fields as [|g l IH]; intros nf I; [contradiction|]. cbn. destruct I as [->|I]; [lia|]. specialize (IH nf I). lia.
Qed.
Lemma column_not_collection : forall n e p c m, ~ column (Collection n e p c m).
Proof. intros n e p c m H. inversion H. Qed.
Lemma arrow_of_data : forall n t x, arrow_of n t = Ok x -> constructed t ->
  (is_data_type x = true <-> forall n e p c m, t <> Collection n e p c m) /\
  (x = PaNull <-> exists m, t = Scalar Null m).
Proof.
  intros [|n] t x H C; [discriminate H|]. rewrite arrow_of_S in H. unfold arrow_step in H.
  assert (D : forall x, is_data_type x = true -> x <> PaNull -> (forall n e p c m, t <> Collection n e p c m) -> (forall m, t <> Scalar Null m) ->
    (is_data_type x = true <-> forall n e p c m, t <> Collection n e p c m) /\ (x = PaNull <-> exists m, t = Scalar Null m)).
  { intros y A B E F. repeat split; try tauto. intros [m G]. destruct (F m G). }
  destruct t as [s m|b m|p m|nm t i m|f s m|e m|nm e p c m|k v m|e m|nm fs m|p m|p m].
  - destruct s; injection H as <-; try (apply D; [reflexivity|discriminate|discriminate|discriminate]).
    repeat split; try discriminate. intros _. eexists. reflexivity.
  - unfold pa_binary in H. destruct (_ && _)%bool; [|discriminate]. injection H as <-. apply D; try discriminate; destruct (_ =? _)%Z; reflexivity || discriminate.
  - injection H as <-. apply D; [reflexivity|discriminate..].
  - discriminate.
  - destruct f as [f|]; [destruct (str_eqb _ _)|]; injection H as <-; (apply D; [reflexivity|discriminate..]).
  - destruct (arrow_of n e) as [y|]; [|discriminate]. cbn in H. unfold pa_list in H. destruct (is_data_type y); [|discriminate].
    injection H as <-. apply D; [reflexivity|discriminate..].
  - inversion C as [| | | | | |? ? ? ? ? ? V| | | | |]; subst. destruct V as (sn & sf & sm & -> & _). destruct (mapM _ _); [|discriminate]. injection H as <-.
    cbn [is_data_type]. split; [|split; [discriminate|intros [? X]; discriminate X]]. split; [discriminate|]. intro X. destruct (X _ _ _ _ _ eq_refl).
  - destruct (arrow_of n k) as [y|]; [|discriminate]. destruct (arrow_of n v) as [z|]; [|discriminate]. cbn in H. unfold pa_map in H.
    destruct (_ && _)%bool; [|discriminate]. injection H as <-. apply D; [reflexivity|discriminate..].
  - discriminate.
  - destruct (mapM _ _); [|discriminate]. injection H as <-. apply D; [reflexivity|discriminate..].
  - injection H as <-. destruct p; (apply D; [reflexivity|discriminate..]).
  - injection H as <-. apply D; [reflexivity|discriminate..].
Qed.

Lemma collection_dec : forall t, (exists n e p c m, t = Collection n e p c m) \/ (forall n e p c m, t <> Collection n e p c m).
Proof. destruct t; try (right; discriminate). left. repeat eexists. Qed.
Lemma nullable_null_dec : forall t, nullable_null t \/ ~ nullable_null t.
Proof.
  intros t. destruct t as [s m| | | | | | | | | | |]; try (left; intros ? E; discriminate E).
  destruct s; try (left; intros ? E; discriminate E). destruct (nullable m) eqn:N.
  - left. intros m' E. injection E as <-. exact N.
  - right. intro H. rewrite (H m eq_refl) in N. discriminate.
Qed.

Definition answered (n : nat) (t : ty) : Prop :=
  (storable t /\ exists x, arrow_of n t = Ok x) \/ (~ storable t /\ exists e, refused t e /\ arrow_of n t = Err e).

Lemma storable_column : forall t, storable t -> (forall n e p c m, t <> Collection n e p c m) -> column t.
Proof. intros t [t' C|] N; [exact C|]. destruct (N n e p c m eq_refl). Qed.

Lemma fields_answered : forall n fields, (forall nf, In nf fields -> constructed (snd nf) /\ answered n (snd nf)) ->
  (Forall (fun nf => column (snd nf) /\ nullable_null (snd nf)) fields /\ exists l, mapM (field_step (arrow_of n)) fields = Ok l) \/
  (~ Forall (fun nf => column (snd nf) /\ nullable_null (snd nf)) fields /\
   exists e, (exists nf, In nf fields /\ (refused (snd nf) e \/ (~ nullable_null (snd nf) /\ e = ValueError) \/
      (e = TypeError /\ exists n e p c m, snd nf = Collection n e p c m))) /\ mapM (field_step (arrow_of n)) fields = Err e).
Proof.
  intros n. induction fields as [|[name t] l IH]; intros K; [left; split; [constructor|exists []; reflexivity]|].
  destruct (K _ (or_introl eq_refl)) as [C A]. cbn [snd] in *.
  assert (S : (column t /\ nullable_null t /\ exists y, field_step (arrow_of n) (name, t) = Ok y) \/
              (~ (column t /\ nullable_null t) /\ exists e, (refused t e \/ (~ nullable_null t /\ e = ValueError) \/
                 (e = TypeError /\ exists n e p c m, t = Collection n e p c m)) /\ field_step (arrow_of n) (name, t) = Err e)).
  { unfold field_step. cbn [fst snd]. destruct A as [[S [x X]]|[S [e [R X]]]]; rewrite X; cbn [bind].
    - destruct (arrow_of_data n t x X C) as [D N]. unfold pa_field. destruct (collection_dec t) as [(cn & ce & cp & cc & cm & ->)|NC].
      + right. split; [intros [Y _]; inversion Y|]. exists TypeError. destruct (is_data_type x) eqn:Y.
        * destruct (proj1 D eq_refl _ _ _ _ _ eq_refl).
        * split; [|reflexivity]. right. right. split; [reflexivity|]. repeat eexists.
      + rewrite (proj2 D NC). pose proof (storable_column t S NC) as CO. destruct (nullable_null_dec t) as [NN|NN].
        * left. split; [exact CO|]. split; [exact NN|]. destruct x; eauto. destruct (proj1 N eq_refl) as [m ->].
          unfold is_nullable. cbn [meta_of]. rewrite (NN m eq_refl). eauto.
        * right. split; [tauto|]. exists ValueError. split; [auto|].
          assert (exists m, t = Scalar Null m /\ nullable m = false) as (m & -> & M).
          { destruct t as [s m| | | | | | | | | | |]; try (destruct NN; intros ? E; discriminate E).
            destruct s; try (destruct NN; intros ? E; discriminate E). exists m. split; [reflexivity|].
            destruct (nullable m) eqn:M; [|reflexivity]. destruct NN. intros m' E. injection E as <-. exact M. }
          rewrite (proj2 N (ex_intro _ m eq_refl)). unfold is_nullable. cbn [meta_of]. rewrite M. reflexivity.
    - right. split; [intros [Y _]; apply S; constructor; exact Y|]. exists e. auto. }
  cbn [mapM]. destruct S as [(CO & NN & y & Y)|(NO & e & R & Y)]; rewrite Y; cbn [bind].
  - destruct IH as [[F [l' L]]|[F (e & (nf & I & R) & L)]]; [intros nf I; exact (K nf (or_intror I))|left|right]; rewrite L; cbn [bind].
    + split; [constructor; auto|eauto].
    + split; [intro X; inversion X; contradiction|]. exists e. split; [|reflexivity]. exists nf. split; [right; exact I|exact R].
  - right. split; [intro X; inversion X; contradiction|]. exists e. split; [|reflexivity]. exists (name, t). split; [left; reflexivity|exact R].
Qed.

Theorem arrow_exists : forall n t, constructed t -> nesting t <= n -> answered n t.
Proof.
  induction n as [|n IH]; intros t C L; [pose proof (nesting_pos t); lia|]. unfold answered. rewrite arrow_of_S.
  assert (ST : forall fs : list (str * ty), NoDup (map fst fs) -> Forall (fun nf => constructed (snd nf)) fs -> fold_right (fun nf n => Nat.max (nesting (snd nf)) n) 0 fs <= n ->
    forall nf, In nf fs -> constructed (snd nf) /\ answered n (snd nf)).
  { intros fs ND F LF nf I. rewrite Forall_forall in F. split; [exact (F nf I)|]. apply IH; [exact (F nf I)|]. pose proof (field_nesting fs nf I). lia. }
  destruct t as [s m|b m|p m|nm t i m|f s m|e m|nm e p c m|k v m|e m|nm fs m|p m|p m]; cbn [nesting] in L; unfold arrow_step; inversion C; subst.
  - left. split; [constructor; constructor|]. destruct s; eauto.
  - destruct (pa_binary_fits b) as [[F X]|[F X]]; [left|right]; (split; [|eauto]).
    + constructor. constructor. exact F.
    + intro S. apply F. inversion S as [? Y|]; subst. inversion Y; subst; assumption.
    + exists overflow_error. split; [constructor; exact F|exact X].
  - left. split; [constructor; constructor|eauto].
  - right. split; [intro S; inversion S as [? Y|]; inversion Y|]. eexists. split; [constructor|reflexivity].
  - left. split; [constructor; constructor|]. destruct f as [f|]; [destruct (str_eqb _ _)|]; eauto.
  - destruct (IH e) as [[S [x X]]|[S [er [R X]]]]; [assumption|lia| |]; rewrite X; cbn [bind].
    + destruct (arrow_of_data n e x X) as [D _]; [assumption|]. unfold pa_list. destruct (collection_dec e) as [(cn & ce & cp & cc & cm & ->)|NC].
      * right. split; [intro Z; inversion Z as [? Y|]; inversion Y as [| | | |? ? W| | | |]; inversion W|].
        exists TypeError. split; [apply ref_list_of|]. destruct (is_data_type x) eqn:Y; [|reflexivity]. destruct (proj1 D eq_refl _ _ _ _ _ eq_refl).
      * left. rewrite (proj2 D NC). split; [|eauto]. constructor. constructor. exact (storable_column e S NC).
    + right. split; [|eauto using ref_element]. intro Z. inversion Z as [? Y|]; inversion Y; subst. apply S. constructor. assumption.
  - match goal with V : valid_collection _ _ _ |- _ => destruct V as (sn & sf & sm & -> & _) end.
    match goal with Y : constructed (Struct _ _ _) |- _ => inversion Y; subst end. cbn [nesting] in L.
    destruct (fields_answered n sf) as [[F [l X]]|[F (er & (nf & I & R) & X)]]; [apply ST; [assumption|assumption|lia]| |]; rewrite X; cbn [rmap].
    + left. split; [|eauto]. apply sto_collection. constructor. exact F.
    + right. split; [|exists er; split; [|reflexivity]; apply ref_rows; destruct R as [R|[[R ->]|[-> (? & ? & ? & ? & ? & R)]]]].
      * intro Z. inversion Z as [? Y|? ? ? ? ? Y]; inversion Y; contradiction.
      * eapply ref_field; eassumption.
      * eapply ref_null; eassumption.
      * destruct nf as [fname ft]. cbn [snd] in R. subst ft. eapply ref_field_of. eassumption.
  - destruct (IH k) as [[S [x X]]|[S [er [R X]]]]; [assumption|lia| |]; rewrite X; cbn [bind].
    + destruct (IH v) as [[S' [x' X']]|[S' [er [R X']]]]; [assumption|lia| |]; rewrite X'; cbn [bind].
      * destruct (arrow_of_data n k x X) as [D _]; [assumption|]. destruct (arrow_of_data n v x' X') as [D' _]; [assumption|].
        unfold pa_map. destruct (collection_dec k) as [(cn & ce & cp & cc & cm & ->)|NC].
        { right. split; [intro Z; inversion Z as [? Y|]; inversion Y as [| | | | |? ? ? W| | |]; inversion W|].
          exists TypeError. split; [apply ref_map_from|]. destruct (is_data_type x) eqn:Y; [|reflexivity]. destruct (proj1 D eq_refl _ _ _ _ _ eq_refl). }
        destruct (collection_dec v) as [(cn & ce & cp & cc & cm & ->)|NC'].
        { right. split; [intro Z; inversion Z as [? Y|]; inversion Y as [| | | | |? ? ? W W'| | |]; inversion W'|].
          exists TypeError. split; [apply ref_map_to|]. destruct (is_data_type x') eqn:Y; [|rewrite andb_false_r; reflexivity]. destruct (proj1 D' eq_refl _ _ _ _ _ eq_refl). }
        left. rewrite (proj2 D NC), (proj2 D' NC'). split; [|cbn [andb]; eauto]. constructor. constructor; apply storable_column; assumption.
      * right. split; [|eauto using ref_value]. intro Z. inversion Z as [? Y|]; inversion Y; subst. apply S'. constructor. assumption.
    + right. split; [|eauto using ref_key]. intro Z. inversion Z as [? Y|]; inversion Y; subst. apply S. constructor. assumption.
  - right. split; [intro S; inversion S as [? Y|]; inversion Y|]. eexists. split; [constructor|reflexivity].
  - destruct (fields_answered n fs) as [[F [l X]]|[F (er & (nf & I & R) & X)]]; [apply ST; [assumption|assumption|lia]| |]; rewrite X; cbn [rmap].
    + left. split; [|eauto]. constructor. constructor. exact F.
    + right. split; [|exists er; split; [|reflexivity]; destruct R as [R|[[R ->]|[-> (? & ? & ? & ? & ? & R)]]]].
      * intro Z. inversion Z as [? Y|? ? ? ? ? Y]; inversion Y; contradiction.
      * eapply ref_field; eassumption.
      * eapply ref_null; eassumption.
      * destruct nf as [fname ft]. cbn [snd] in R. subst ft. eapply ref_field_of. eassumption.
  - left. split; [constructor; constructor|eauto].
  - left. split; [constructor; constructor|eauto].
Qed.

(** * There and back *)
Lemma precision_unit : forall p, precision_for (unit_for p) = p.
Proof. destruct p; reflexivity. Qed.
Lemma stored_plain : forall t, meta_of (stored t) = plain.
Proof. destruct t; cbn; try reflexivity. destruct format; [destruct (str_eqb _ _)|]; reflexivity. Qed.
Lemma nullable_field : forall b t, meta_of t = plain ->
  (if Bool.eqb b (is_nullable t) then t else set_nullable b t) = set_nullable b t.
Proof.
  intros b t M. unfold is_nullable, set_nullable. rewrite M. destruct b; cbn; [reflexivity|]. destruct t; cbn in *; subst; reflexivity.
Qed.
Lemma stored_struct_fields : forall (fields : list (str * ty)),
  map fst (map (fun nf => (fst nf, set_nullable (is_nullable (snd nf)) (stored (snd nf)))) fields) = map fst fields.
Proof. intros. rewrite map_map. reflexivity. Qed.
Lemma stored_valid : forall e p c, valid_collection e p c -> valid_collection (stored e) p c.
Proof.
  intros e p c (n & fs & m & -> & P & C & D). cbn. exists anon. eexists. exists plain. split; [reflexivity|].
  rewrite stored_struct_fields. auto.
Qed.

Lemma arrow_back_fields : forall n m fields l, n <= m ->
  (forall nf, In nf fields -> constructed (snd nf) -> forall x, arrow_of n (snd nf) = Ok x -> of_arrow m x = Ok (stored (snd nf))) ->
  NoDup (map fst fields) -> Forall (fun nf => constructed (snd nf)) fields -> mapM (field_step (arrow_of n)) fields = Ok l ->
  read_fields (of_arrow m) l = Ok (stored (Struct anon fields plain)).
Proof.
  intros n m fields l LE IH ND F H. unfold read_fields. cbn [stored].
  assert (R : mapM (read_field (of_arrow m)) l = Ok (map (fun nf => (fst nf, set_nullable (is_nullable (snd nf)) (stored (snd nf)))) fields)).
  { clear ND. revert l H. induction fields as [|[name t] fs IHf]; intros l H.
    - injection H as <-. reflexivity.
    - cbn [mapM] in H. unfold field_step at 1 in H. cbn [fst snd] in H. destruct (arrow_of n t) as [x|] eqn:X; [|discriminate]. cbn [bind] in H.
      inversion F; subst. cbn [snd] in *. destruct (pa_field name x (is_nullable t)) as [y|] eqn:Y; [|discriminate]. cbn [bind] in H.
      destruct (mapM _ fs) as [l'|] eqn:L; [|discriminate]. injection H as <-. cbn [mapM map fst snd].
      assert (y = (name, x, is_nullable t)) as ->.
      { unfold pa_field in Y. destruct (is_data_type x); [|discriminate]. destruct x; try (injection Y as <-; reflexivity).
        destruct (is_nullable t); [injection Y as <-; reflexivity|discriminate]. }
      cbn [read_field]. rewrite (IH (name, t) (or_introl eq_refl) ltac:(assumption) x X). cbn [rmap bind snd].
      rewrite nullable_field by apply stored_plain. rewrite (IHf (fun nf I => IH nf (or_intror I)) ltac:(assumption) l' eq_refl). reflexivity. }
  rewrite R. cbn [rmap]. rewrite Layout_Proofs.dict_of_NoDup; [reflexivity|]. rewrite stored_struct_fields. exact ND.
Qed.

Theorem arrow_round_trip : forall n t, constructed t -> forall x, arrow_of n t = Ok x -> forall m, n <= m -> of_arrow m x = Ok (stored t).
Proof.
  induction n as [|n IH]; intros t C x H m LE; [discriminate H|]. destruct m as [|m]; [lia|]. rewrite arrow_of_S in H. rewrite of_arrow_S.
  assert (IH' : forall t, constructed t -> forall x, arrow_of n t = Ok x -> of_arrow m x = Ok (stored t)) by (intros; eapply IH; eauto; lia).
  destruct t as [s mt|b mt|p mt|nm t i mt|f s mt|e mt|nm e p c mt|k v mt|e mt|nm fs mt|p mt|p mt]; unfold arrow_step in H; inversion C; subst.
  - destruct s; injection H as <-; reflexivity.
  - unfold pa_binary in H. destruct (_ && _)%bool; [|discriminate]. injection H as <-. destruct b as [b|]; cbn; [|reflexivity].
    destruct (b =? -1)%Z; reflexivity.
  - injection H as <-. cbn. rewrite precision_unit. reflexivity.
  - discriminate.
  - cbn [stored]. destruct f as [f|]; [destruct (str_eqb _ _)|]; injection H as <-; reflexivity.
  - destruct (arrow_of n e) as [y|] eqn:E; [|discriminate]. cbn in H. unfold pa_list in H. destruct (is_data_type y); [|discriminate].
    injection H as <-. cbn [read_step]. rewrite (IH' e ltac:(assumption) y E). reflexivity.
  - match goal with V : valid_collection _ _ _ |- _ => pose proof (stored_valid _ _ _ V) as SV; destruct V as (sn & sf & sm & -> & _) end.
    match goal with Y : constructed (Struct _ _ _) |- _ => inversion Y; subst end.
    destruct (mapM _ sf) as [l|] eqn:E; [|discriminate]. injection H as <-. cbn [read_step].
    rewrite (arrow_back_fields n m sf l ltac:(lia)); try assumption; [|intros nf I Cn y Y; exact (IH' _ Cn y Y)].
    cbn [bind]. apply (proj2 (collection_created _ _ _ _ _ _)). split; [exact SV|reflexivity].
  - destruct (arrow_of n k) as [y|] eqn:E; [|discriminate]. destruct (arrow_of n v) as [z|] eqn:E'; [|discriminate]. cbn in H. unfold pa_map in H.
    destruct (_ && _)%bool; [|discriminate]. injection H as <-. cbn [read_step]. rewrite (IH' k ltac:(assumption) y E), (IH' v ltac:(assumption) z E'). reflexivity.
  - discriminate.
  - destruct (mapM _ fs) as [l|] eqn:E; [|discriminate]. injection H as <-. cbn [read_step].
    rewrite (arrow_back_fields n m fs l ltac:(lia)); try assumption; [reflexivity|intros nf I Cn y Y; exact (IH' _ Cn y Y)].
  - injection H as <-. destruct p; reflexivity.
  - injection H as <-. cbn. rewrite precision_unit. reflexivity.
Qed.

(** * What is lost *)
Lemma is_nullable_set : forall b t, is_nullable (set_nullable b t) = b.
Proof. intros b t. destruct t; reflexivity. Qed.
Lemma set_set : forall a b t, set_nullable a (set_nullable b t) = set_nullable a t.
Proof. intros a b t. destruct t; reflexivity. Qed.
Lemma stored_set : forall b t, stored (set_nullable b t) = stored t.
Proof. intros b t. destruct t; reflexivity. Qed.
Theorem stored_idem : forall t, stored (stored t) = stored t.
Proof.
  induction t using ty_ind'; cbn [stored]; try reflexivity; try (rewrite IHt; reflexivity).
  - destruct b as [n|]; [|reflexivity]. destruct (n =? -1)%Z eqn:E; [reflexivity|]. rewrite E. reflexivity.
  - destruct f as [f|]; [destruct (str_eqb _ _)|]; reflexivity.
  - rewrite IHt1, IHt2. reflexivity.
  - f_equal. rewrite map_map. apply map_ext_in. intros nf I. rewrite Forall_forall in H. cbn [fst snd].
    rewrite is_nullable_set, stored_set, (H nf I). reflexivity.
Qed.
Lemma arrow_of_nullable : forall n b t, arrow_of n (set_nullable b t) = arrow_of n t.
Proof. intros [|n] b t; [reflexivity|]. rewrite !arrow_of_S. destruct t as [[]| | | | | | | | | | |]; reflexivity. Qed.
Theorem stored_same : forall n t, arrow_of n (stored t) = arrow_of n t.
Proof.
  induction n as [|n IH]; intros t; [reflexivity|]. rewrite !arrow_of_S.
  assert (FS : forall fs, mapM (field_step (arrow_of n)) (map (fun nf => (fst nf, set_nullable (is_nullable (snd nf)) (stored (snd nf)))) fs) =
                          mapM (field_step (arrow_of n)) fs).
  { intro fs. rewrite mapM_map. apply mapM_ext. intros nf _. unfold field_step. cbn [fst snd]. rewrite is_nullable_set, arrow_of_nullable, IH. reflexivity. }
  destruct t as [s mt|b mt|p mt|nm t i mt|f s mt|e mt|nm e p c mt|k v mt|e mt|nm fs mt|p mt|p mt]; cbn [stored arrow_step]; try reflexivity.
  - destruct b as [b|]; [|reflexivity]. destruct (b =? -1)%Z eqn:E; [|reflexivity]. apply Z.eqb_eq in E. subst b. reflexivity.
  - destruct f as [f|]; [destruct (str_eqb _ _)|]; reflexivity.
  - rewrite IH. reflexivity.
  - pose proof (IH e) as IE. destruct e as [? ?|? ?|? ?|? ? ? ?|f ? ?|? ?|? ? ? ? ?|? ? ?|? ?|? fs ?|? ?|? ?]; try (cbn [stored] in *; rewrite IE; reflexivity).
    + cbn [stored] in *. destruct f as [f|]; [destruct (str_eqb _ _)|]; rewrite IE; reflexivity.
    + cbn [stored]. rewrite FS. reflexivity.
  - rewrite !IH. reflexivity.
  - rewrite FS. reflexivity.
Qed.

Lemma plain_set : forall t, meta_of t = plain -> set_nullable false t = t.
Proof. intros t M. destruct t; cbn in *; subst; reflexivity. Qed.
Lemma set_stored_meta : forall b t u, set_nullable b (stored u) = t -> meta_of t = Meta None b.
Proof. intros b t u <-. unfold set_nullable. rewrite stored_plain. destruct (stored u); reflexivity. Qed.
Definition kept_iff (t : ty) : Prop := forall b, set_nullable b (stored t) = t <-> kept t /\ is_nullable t = b.
Lemma element_kept : forall e, kept_iff e -> (stored e = e <-> kept e /\ is_nullable e = false).
Proof. intros e K. rewrite <- (K false). rewrite (plain_set (stored e)) by apply stored_plain. reflexivity. Qed.
Lemma fields_kept : forall fs : list (str * ty), Forall (fun nf => kept_iff (snd nf)) fs ->
  (map (fun nf => (fst nf, set_nullable (is_nullable (snd nf)) (stored (snd nf)))) fs = fs <-> Forall (fun nf => kept (snd nf)) fs).
Proof.
  intros fs F. induction F as [|[n t] l K F IH]; [split; [constructor|reflexivity]|]. cbn [map fst snd] in *. split.
  - intro E. injection E as E1 E2. constructor; [|apply IH; exact E2]. exact (proj1 (proj1 (K _) E1)).
  - intro H. inversion H; subst. f_equal; [f_equal; apply K; auto|apply IH; assumption].
Qed.
Lemma stored_kept_iff : forall t, column t -> kept_iff t.
Proof.
  induction t using ty_ind'; intros C b'; inversion C; subst; (split; [intro E; pose proof (set_stored_meta _ _ _ E) as M; cbn [meta_of] in M; subst m; (split; [|reflexivity])|intros [K N]]).
  - constructor.
  - inversion K; subst; reflexivity.
  - constructor. intros ->. discriminate E.
  - inversion K; subst. cbn. destruct b as [n|]; [|reflexivity]. destruct (n =? -1)%Z eqn:E; [|reflexivity].
    apply Z.eqb_eq in E. subst n. contradiction.
  - constructor.
  - inversion K; subst; reflexivity.
  - cbn [stored] in E. match type of E with context [match ?f with Some _ => _ | None => _ end] => destruct f as [fm|] end; [destruct (str_eqb _ _)|]; discriminate E.
  - inversion K.
  - cbn in E. injection E as E. apply (element_kept _ (IHt ltac:(assumption))) in E. constructor; apply E.
  - inversion K; subst. cbn. f_equal. apply (element_kept _ (IHt ltac:(assumption))). auto.
  - cbn in E. injection E as E E'. apply (element_kept _ (IHt1 ltac:(assumption))) in E. apply (element_kept _ (IHt2 ltac:(assumption))) in E'. constructor; tauto.
  - inversion K; subst. cbn. f_equal; [apply (element_kept _ (IHt1 ltac:(assumption)))|apply (element_kept _ (IHt2 ltac:(assumption)))]; auto.
  - cbn in E. injection E as <- E. constructor. apply fields_kept; [|exact E]. rewrite Forall_forall in *. intros nf I. apply H; [exact I|]. apply H1. exact I.
  - inversion K; subst. cbn. f_equal. apply fields_kept; [|assumption]. rewrite Forall_forall in *. intros nf I. apply H; [exact I|]. apply H1. exact I.
  - constructor.
  - inversion K; subst; reflexivity.
  - constructor.
  - inversion K; subst; reflexivity.
Qed.
Theorem stored_kept : forall t, storable t -> (stored t = t <-> kept t /\ is_nullable t = false).
Proof.
  intros t S. inversion S as [? C|n e p c m C]; subst.
  - apply element_kept, stored_kept_iff, C.
  - cbn [stored]. pose proof (element_kept _ (stored_kept_iff _ C)) as K. split.
    + intro E. injection E as E <-. apply K in E. split; [constructor; apply E|reflexivity].
    + intros [Q N]. inversion Q; subst. cbn in N. subst. f_equal. apply K. auto.
Qed.

(** * From PyArrow *)
Lemma read_plain : forall n x t, of_arrow n x = Ok t -> meta_of t = plain.
Proof.
  intros [|n] x t H; [discriminate H|]. rewrite of_arrow_S in H.
  destruct x as [| | | | |w|w|w| |w|u [tz|]|u|u|v|k v|fs|s|fs e|s]; cbn [read_step] in H; try (injection H as <-; reflexivity); try discriminate.
  - destruct (str_eqb _ _); [injection H as <-; reflexivity|discriminate].
  - destruct u; try discriminate; injection H as <-; reflexivity.
  - destruct u; try discriminate; injection H as <-; reflexivity.
  - destruct (of_arrow n v); [injection H as <-; reflexivity|discriminate].
  - destruct (of_arrow n k); [|discriminate]. destruct (of_arrow n v); [injection H as <-; reflexivity|discriminate].
  - unfold read_fields in H. destruct (mapM _ fs); [injection H as <-; reflexivity|discriminate].
  - unfold read_fields in H. destruct (mapM _ fs); [|discriminate]. cbn [rmap bind] in H. apply collection_created in H. destruct H as [_ ->]. reflexivity.
Qed.
Lemma read_shape : forall n x t, of_arrow n x = Ok t -> wf_type x ->
  (forall n e p c m, t <> Collection n e p c m) /\ (forall m, t = Scalar Null m -> x = PaNull).
Proof.
  intros [|n] x t H W; [discriminate H|]. rewrite of_arrow_S in H.
  destruct x as [| | | | |w|w|w| |w|u [tz|]|u|u|v|k v|fs|s|fs e|s]; cbn [read_step] in H; try (injection H as <-; split; [discriminate|discriminate || reflexivity]); try discriminate.
  - destruct (str_eqb _ _); [injection H as <-; split; discriminate|discriminate].
  - destruct u; try discriminate; injection H as <-; split; discriminate.
  - destruct u; try discriminate; injection H as <-; split; discriminate.
  - destruct (of_arrow n v); [injection H as <-; split; discriminate|discriminate].
  - destruct (of_arrow n k); [|discriminate]. destruct (of_arrow n v); [injection H as <-; split; discriminate|discriminate].
  - unfold read_fields in H. destruct (mapM _ fs); [injection H as <-; split; discriminate|discriminate].
  - inversion W. cbn in *. intuition discriminate.
Qed.

Lemma back_fields : forall n fields l, (forall f, In f fields -> wf_type (snd (fst f)) -> forall t, of_arrow n (snd (fst f)) = Ok t -> arrow_of n t = Ok (canonical (snd (fst f)))) ->
  Forall (fun f => wf_type (snd (fst f)) /\ null_field f) fields -> mapM (read_field (of_arrow n)) fields = Ok l ->
  map fst l = map (fun f => fst (fst f)) fields /\
  mapM (field_step (arrow_of n)) l = Ok (map (fun f => (fst (fst f), canonical (snd (fst f)), snd f)) fields).
Proof.
  intros n. induction fields as [|[[name x] b] fs IH]; intros l K F H; cbn [mapM] in H.
  - injection H as <-. auto.
  - inversion F as [|? ? [W N] F']; subst. cbn [fst snd] in *. cbn [read_field] in H. destruct (of_arrow n x) as [t|] eqn:E; [|discriminate].
    cbn [rmap bind] in H. rewrite nullable_field in H by exact (read_plain n x t E). destruct (mapM _ fs) as [l'|] eqn:L; [|discriminate].
    cbn [bind] in H. injection H as <-. destruct (IH l' (fun f I => K f (or_intror I)) F' eq_refl) as [A B]. cbn [map fst snd mapM].
    split; [rewrite A; reflexivity|]. unfold field_step at 1. cbn [fst snd]. rewrite arrow_of_nullable, is_nullable_set.
    pose proof (K (name, x, b) (or_introl eq_refl) W t E) as Y. cbn [fst snd] in Y. rewrite Y. cbn [bind]. rewrite B.
    assert (D : is_data_type (canonical x) = true) by (inversion W; subst; cbn in *; try reflexivity; try (destruct tz; reflexivity); intuition (subst; reflexivity)).
    unfold pa_field. rewrite D. destruct (canonical x) eqn:CX; try reflexivity.
    assert (x = PaNull) as -> by (destruct x as [| | | | | | | | | |? []| | | | | | | |]; cbn in CX; congruence).
    unfold null_field in N. cbn [fst snd] in N. rewrite (N eq_refl). reflexivity.
Qed.

Theorem arrow_back : forall n x t, wf_arrow x -> of_arrow n x = Ok t -> constructed t /\ arrow_of n t = Ok (canonical x).
Proof.
  assert (T : forall n x t, wf_type x -> of_arrow n x = Ok t -> arrow_of n t = Ok (canonical x)).
  { induction n as [|n IH]; intros x t W H; [discriminate H|]. rewrite of_arrow_S in H. rewrite arrow_of_S.
    assert (SIMPLE : forall x, In x [PaString; PaNull; PaBool; PaDate32; PaDate64; PaBinary] -> forall t, read_step (of_arrow n) x = Ok t -> arrow_step (arrow_of n) t = Ok (canonical x)).
    { intros y [<-|[<-|[<-|[<-|[<-|[<-|[]]]]]]] u E; injection E as <-; reflexivity. }
    inversion W; subst; cbn [read_step] in H; try (injection H as <-; reflexivity); try discriminate.
    - injection H as <-. cbn [arrow_step]. unfold pa_binary. replace (_ && _)%bool with true by (symmetry; apply andb_true_iff; rewrite Z.leb_le, Z.ltb_lt; lia).
      rewrite (proj2 (Z.eqb_neq w (-1))) by assumption. reflexivity.
    - destruct tz as [tz|]; [destruct (str_eqb _ _); [|discriminate]|]; injection H as <-; destruct u; reflexivity.
    - destruct u; try discriminate; injection H as <-; reflexivity.
    - destruct u; try discriminate; injection H as <-; reflexivity.
    - destruct (of_arrow n v) as [e|] eqn:E; [|discriminate]. injection H as <-. cbn [arrow_step]. rewrite (IH v e ltac:(assumption) E).
      cbn [bind canonical]. unfold pa_list. replace (is_data_type (canonical v)) with true; [reflexivity|].
      match goal with WV : wf_type v |- _ => inversion WV; subst; cbn in *; try reflexivity; try (destruct tz; reflexivity); intuition (subst; reflexivity) end.
    - destruct (of_arrow n k) as [k'|] eqn:E; [|discriminate]. destruct (of_arrow n v) as [v'|] eqn:E'; [|discriminate]. injection H as <-. cbn [arrow_step].
      rewrite (IH k k' ltac:(assumption) E), (IH v v' ltac:(assumption) E'). cbn [bind canonical]. unfold pa_map.
      replace (is_data_type (canonical k)) with true; [replace (is_data_type (canonical v)) with true; [reflexivity|]|].
      + match goal with WV : wf_type v |- _ => inversion WV; subst; cbn in *; try reflexivity; try (destruct tz; reflexivity); intuition (subst; reflexivity) end.
      + match goal with WV : wf_type k |- _ => inversion WV; subst; cbn in *; try reflexivity; try (destruct tz; reflexivity); intuition (subst; reflexivity) end.
    - unfold read_fields in H. destruct (mapM _ fields) as [l|] eqn:L; [|discriminate]. injection H as <-. cbn [arrow_step].
      destruct (back_fields n fields l) as [A B]; [intros f I Wf u U; exact (IH _ _ Wf U)|assumption|exact L|].
      rewrite Layout_Proofs.dict_of_NoDup by (rewrite A; assumption). rewrite B. reflexivity.
    - apply SIMPLE; assumption. }
  assert (CO : forall n x t, of_arrow n x = Ok t -> constructed t).
  { induction n as [|n IH]; intros x t H; [discriminate H|]. rewrite of_arrow_S in H.
    assert (CF : forall fs t, read_fields (of_arrow n) fs = Ok t -> constructed t).
    { intros fs u U. unfold read_fields in U. destruct (mapM _ fs) as [l|] eqn:L; [|discriminate]. injection U as <-.
      constructor; [apply (dict_of_NoDup _ str_eqb_spec)|]. apply Forall_forall. intros [a ta] I.
      assert (J : In (a, ta) l).
      { assert (G : dget str_eqb (dict_of str_eqb l) a = Some ta) by (apply (dget_NoDup _ str_eqb_spec); [apply (dict_of_NoDup _ str_eqb_spec)|exact I]).
        unfold dict_of in G. rewrite (dget_dupdate _ str_eqb_spec) in G. destruct (dget str_eqb (rev l) a) eqn:R.
        - injection G as ->. apply in_rev. exact (dget_In _ str_eqb_spec _ _ _ R).
        - discriminate G. }
      apply mapM_Forall2 in L. clear -L J IH. induction L as [|f g fs gs E L IHL]; [contradiction|].
      destruct J as [->|J]; [|exact (IHL J)]. destruct f as [[nm y] b]. cbn in E. destruct (of_arrow n y) as [u|] eqn:U; [|discriminate].
      injection E as <- <-. cbn [snd]. specialize (IH y u U). destruct (Bool.eqb _ _); [exact IH|]. inversion IH; cbn; constructor; assumption. }
    destruct x as [| | | | |w|w|w| |w|u [tz|]|u|u|v|k v|fs|s|fs e|s]; cbn [read_step] in H; try (injection H as <-; constructor); try discriminate.
    - destruct (str_eqb _ _); [injection H as <-; constructor|discriminate].
    - destruct u; try discriminate; injection H as <-; constructor.
    - destruct u; try discriminate; injection H as <-; constructor.
    - destruct (of_arrow n v) eqn:E; [injection H as <-; constructor; exact (IH _ _ E)|discriminate].
    - destruct (of_arrow n k) eqn:E; [|discriminate]. destruct (of_arrow n v) eqn:E'; [injection H as <-; constructor; eauto|discriminate].
    - exact (CF fs t H).
    - destruct (read_fields (of_arrow n) fs) as [el|] eqn:E; [|discriminate]. cbn [bind] in H. apply collection_created in H. destruct H as [V ->].
      constructor; [exact (CF fs el E)|exact V]. }
  intros n x t W H. split; [exact (CO n x t H)|]. inversion W as [? WT|fields e ND F]; subst; [exact (T n x t WT H)|].
  destruct n as [|n]; [discriminate H|]. rewrite of_arrow_S in H. rewrite arrow_of_S. cbn [read_step] in H. unfold read_fields in H.
  destruct (mapM _ fields) as [l|] eqn:L; [|discriminate]. cbn [rmap bind] in H. apply collection_created in H. destruct H as [V ->]. cbn [arrow_step].
  destruct (back_fields n fields l) as [A B]; [intros f I Wf u U; exact (T n _ _ Wf U)|exact F|exact L|].
  rewrite Layout_Proofs.dict_of_NoDup by (rewrite A; exact ND). rewrite B. reflexivity.
Qed.

(** ** Which PyArrow types are accepted *)
Lemma arrow_nesting_pos : forall x, 1 <= arrow_nesting x.
Proof. destruct x; cbn; lia. Qed.
Lemma arrow_field_nesting : forall (fields : list (str * arrow * bool)) f, In f fields ->
  arrow_nesting (snd (fst f)) <= fold_right (fun f n => Nat.max (arrow_nesting (snd (fst f))) n) 0 fields.
Proof.
  induction fields as [|g l IH]; intros f I; [contradiction|]. cbn. destruct I as [->|I]; [lia|]. specialize (IH f I). lia.
Qed.
Lemma read_fields_iff : forall n fields, (forall f, In f fields -> (exists t, of_arrow n (snd (fst f)) = Ok t) <-> readable (snd (fst f))) ->
  ((exists l, mapM (read_field (of_arrow n)) fields = Ok l /\ map fst l = map (fun f => fst (fst f)) fields) <-> Forall (fun f => readable (snd (fst f))) fields) /\
  ((exists l, mapM (read_field (of_arrow n)) fields = Ok l) <-> Forall (fun f => readable (snd (fst f))) fields).
Proof.
  intros n. induction fields as [|[[name x] b] fs IH]; intros K; cbn [mapM].
  - split; (split; [constructor|]); [exists []; auto|exists []; reflexivity].
  - destruct (IH (fun f I => K f (or_intror I))) as [A B]. pose proof (K _ (or_introl eq_refl)) as X. cbn [fst snd] in X.
    enough (G : (exists l, bind (read_field (of_arrow n) (name, x, b)) (fun b0 => bind (mapM (read_field (of_arrow n)) fs) (fun bs => Ok (b0 :: bs))) = Ok l) ->
                Forall (fun f => readable (snd (fst f))) ((name, x, b) :: fs)).
    { enough (G' : Forall (fun f => readable (snd (fst f))) ((name, x, b) :: fs) -> (exists l, bind (read_field (of_arrow n) (name, x, b)) (fun b0 => bind (mapM (read_field (of_arrow n)) fs) (fun bs => Ok (b0 :: bs))) = Ok l /\ map fst l = name :: map (fun f => fst (fst f)) fs)).
      { cbn [map fst]. split; split; auto; [intros (l & L & _); apply G; eauto|]. intro F. destruct (G' F) as (l & L & _). eauto. }
      intro F. inversion F; subst. cbn [fst snd] in *. destruct (proj2 X ltac:(assumption)) as [t T]. cbn [read_field]. rewrite T. cbn [rmap bind].
      destruct (proj2 A ltac:(assumption)) as (l & L & N). rewrite L. cbn [bind]. eexists. split; [reflexivity|]. cbn [map fst]. rewrite N. reflexivity. }
    intros [l L]. cbn [read_field] in L. destruct (of_arrow n x) as [t|] eqn:T; [|discriminate]. cbn [rmap bind] in L.
    destruct (mapM _ fs) as [l'|] eqn:M; [|discriminate]. constructor; [apply X; eauto|]. apply B. eauto.
Qed.
Lemma upper_char_of : forall c d, upper_char c = d -> Nat.leb 65 (nat_of_ascii d) && Nat.leb (nat_of_ascii d) 90 = true ->
  c = d \/ c = ascii_of_nat (nat_of_ascii d + 32).
Proof. intros [[] [] [] [] [] [] [] []] d <-; vm_compute; intro H; first [now left|now right|discriminate H]. Qed.
Lemma upper_utc : forall tz, upper tz = $"UTC" <-> In tz utc_spellings.
Proof.
  intro tz. split.
  - destruct tz as [|a [|b [|c [|d l]]]]; intro H; try discriminate H. injection H as A B C.
    destruct (upper_char_of a _ A eq_refl) as [->| ->], (upper_char_of b _ B eq_refl) as [->| ->], (upper_char_of c _ C eq_refl) as [->| ->];
      vm_compute; tauto.
  - cbn [utc_spellings In]. intuition (subst; reflexivity).
Qed.
Theorem arrow_readable : forall n x, wf_arrow x -> arrow_nesting x <= n -> ((exists t, of_arrow n x = Ok t) <-> readable x).
Proof.
  assert (T : forall n x, wf_type x -> arrow_nesting x <= n -> ((exists t, of_arrow n x = Ok t) <-> readable x)).
  { induction n as [|n IH]; intros x W L; [pose proof (arrow_nesting_pos x); lia|]. rewrite of_arrow_S.
    inversion W; subst; cbn [read_step arrow_nesting] in *.
    - split; [constructor|eauto].
    - destruct tz as [tz|]; [|split; [constructor|eauto]]. destruct (str_eqb (upper tz) $"UTC") eqn:E.
      + apply str_eqb_spec in E. split; [constructor; now apply upper_utc|eauto].
      + split; [intros [t HH]; discriminate|]. intro R. inversion R as [| | | | |? ? U| | | | | | |]; subst.
        * apply upper_utc in U. rewrite U, str_eqb_refl in E. discriminate.
        * cbn in *. intuition discriminate.
    - split; [constructor|]. intros _. match goal with H : _ \/ _ |- _ => destruct H as [->| ->]; eauto end.
    - split; [constructor|]. intros _. match goal with H : _ \/ _ |- _ => destruct H as [->| ->]; eauto end.
    - pose proof (IH v ltac:(assumption) ltac:(lia)) as I. split.
      + intros [t HH]. destruct (of_arrow n v) eqn:E; [|discriminate]. constructor. apply I. eauto.
      + intro R. inversion R; subst; [|cbn in *; intuition discriminate]. destruct (proj2 I ltac:(assumption)) as [t ->]. cbn. eauto.
    - pose proof (IH v ltac:(assumption) ltac:(lia)) as I. pose proof (IH k ltac:(assumption) ltac:(lia)) as J. split.
      + intros [t HH]. destruct (of_arrow n k) eqn:E; [|discriminate]. destruct (of_arrow n v) eqn:E'; [|discriminate]. constructor; [apply J|apply I]; eauto.
      + intro R. inversion R; subst; [|cbn in *; intuition discriminate]. destruct (proj2 I ltac:(assumption)) as [t ->]. destruct (proj2 J ltac:(assumption)) as [t' ->]. cbn. eauto.
    - destruct (read_fields_iff n fields) as [_ A].
      { intros f I. apply IH; [|pose proof (arrow_field_nesting fields f I); lia]. match goal with H : Forall _ fields |- _ => rewrite Forall_forall in H; apply (H f I) end. }
      unfold read_fields. split.
      + intros [t HH]. destruct (mapM _ fields) eqn:E; [|discriminate]. constructor. apply A. eauto.
      + intro R. inversion R; subst; [|cbn in *; intuition discriminate]. destruct (proj2 A ltac:(assumption)) as [l ->]. cbn. eauto.
    - split; [intros [t HH]; discriminate|]. intro R. inversion R; subst. cbn in *. intuition discriminate.
    - split; [intros _; apply rd_simple; assumption|]. intros _. cbn in *. intuition (subst; cbn; eauto).
    - split; [constructor|eauto].
    - split; [constructor|eauto].
    - split; [constructor|eauto]. }
  intros n x W L. inversion W as [? WT|fields e ND F]; subst; [exact (T n x WT L)|]. destruct n as [|n]; [cbn in L; lia|]. rewrite of_arrow_S. cbn [read_step arrow_nesting] in *.
  destruct (read_fields_iff n fields) as [A B].
  { intros f I. apply T; [|pose proof (arrow_field_nesting fields f I); lia]. rewrite Forall_forall in F. apply (F f I). }
  unfold read_fields. split.
  - intros [t HH]. destruct (mapM _ fields) as [l|] eqn:E; [|discriminate]. pose proof (proj1 B (ex_intro _ l eq_refl)) as R.
    destruct (proj2 A R) as (l' & EL & N). injection EL as <-. cbn [rmap bind] in HH. apply collection_created in HH.
    rewrite Layout_Proofs.dict_of_NoDup in HH by (rewrite N; exact ND). destruct HH as [(sn & sf & sm & ES & P & C & D) _]. injection ES as <- <- <-. rewrite N in *.
    constructor; [exact R| |exact D]. intros k [I|I]; [apply P|apply C]; exact I.
  - intro R. inversion R as [| | | | | | | | | | |? ? FR p c P D|]; subst; [|cbn in *; intuition discriminate]. destruct (proj2 A ltac:(assumption)) as (l & EL & N). rewrite EL. cbn [rmap bind].
    rewrite Layout_Proofs.dict_of_NoDup by (rewrite N; exact ND). eexists. apply (proj2 (collection_created _ _ _ _ _ _)). split; [|reflexivity].
    exists anon, l, plain. split; [reflexivity|]. rewrite N. repeat split; auto.
Qed.
