From Coq Require Import ZArith List Ascii String Bool Lia.
From Verif Require Import Base Str Str_Proofs Base_Proofs Partitions_Model Format_Model Template_Spec Template_Proofs
  Storage_Model Resolve_Proofs Types_Model IO_Model IO_Spec.
Import ListNotations.
Open Scope list_scope.

Section IO.
  Context {V : Type} (loads : format -> str -> result V) (dumps : format -> V -> result str)
          (written_before : format -> V -> str)
          (elements : V -> result (list V)) (of_list : list V -> V) (content_fp : place -> str -> Z).
  Notation io_read := (io_read loads elements of_list).
  Notation io_write := (io_write dumps written_before content_fp).
  Notation holds := (holds loads).

  Lemma stored_contains : forall w p c, stored w p = Ok c <-> contains w p c.
  Proof.
    intros w p c. split.
    - destruct p as [path|path|id [v|]]; cbn.
      + destruct (dget _ _ _) eqn:E; [|discriminate]. intro H. injection H as <-. constructor. exact E.
      + destruct (dget _ _ _) eqn:E; [|discriminate]. intro H. injection H as <-. constructor. exact E.
      + intro H. injection H as <-. constructor.
      + discriminate.
    - intro H. destruct H; cbn; rewrite ?H; reflexivity.
  Qed.

  Lemma read_holds : forall w f p v, read_one loads w f p = Ok v <-> holds w f p v.
  Proof.
    intros w f p v. unfold read_one, IO_Spec.holds. split.
    - destruct (stored w p) as [c|] eqn:E; [|discriminate]. intro H. exists c. split; [apply stored_contains, E|exact H].
    - intros (c & C & L). apply stored_contains in C. rewrite C. exact L.
  Qed.

  Theorem read_nothing : forall w t f v, io_read w t f [] v = Err FileNotFoundError.
  Proof. reflexivity. Qed.

  Theorem read_several : forall w t f p q ps v, is_partitioned t = Ok false -> io_read w t f (p :: q :: ps) v = Err ValueError.
  Proof. intros w t f p q ps v P. unfold IO_Model.io_read. rewrite P. reflexivity. Qed.

  Lemma kinds : forall p ps, (forall q, In q ps -> same_kind p q = true) -> forallb (same_kind p) ps = true.
  Proof. intros p ps H. apply forallb_forall. exact H. Qed.

  Lemma mapM_iff : forall A B (f : A -> result B) l r, mapM f l = Ok r <-> Forall2 (fun a b => f a = Ok b) l r.
  Proof.
    induction l as [|a l IH]; intros r; cbn.
    - split; [intro H; injection H as <-; constructor|intro H; inversion H; reflexivity].
    - split.
      + destruct (f a) as [b|] eqn:E; [|discriminate]. cbn. destruct (mapM f l) as [r'|] eqn:M; [|discriminate].
        intro H. injection H as <-. constructor; [exact E|]. apply IH. reflexivity.
      + intro H. inversion H as [|? b ? r' E R]; subst. rewrite E. cbn. apply IH in R. rewrite R. reflexivity.
  Qed.

  Theorem read_partitions : forall w t f ps v x, is_partitioned t = Ok true -> readable f v ps ->
    (io_read w t f ps v = Ok x <->
     exists vss, Forall2 (fun p vs => exists d, holds w f p d /\ elements d = Ok vs) ps vss /\ x = of_list (List.concat vss)).
  Proof.
    intros w t f ps v x P R. destruct ps as [|p others]; [destruct R|]. destruct R as [I K].
    assert (E : io_read w t f (p :: others) v = rmap (fun l => of_list (List.concat l)) (mapM (fun p => bind (read_one loads w f p) elements) (p :: others))).
    { unfold IO_Model.io_read. rewrite I, (kinds _ _ K), P. unfold reader. rewrite P. cbn [bind]. destruct others; reflexivity. }
    rewrite E. clear E.
    assert (S : forall q vs, bind (read_one loads w f q) elements = Ok vs <-> exists d, holds w f q d /\ elements d = Ok vs).
    { intros q vs. split.
      - destruct (read_one loads w f q) as [d|] eqn:D; [|discriminate]. intro H. exists d. split; [apply read_holds, D|exact H].
      - intros (d & D & H). apply read_holds in D. rewrite D. exact H. }
    split.
    - destruct (mapM _ _) as [l|] eqn:M; [|discriminate]. intro H. injection H as <-. exists l. split; [|reflexivity].
      apply mapM_iff in M. clear -M S. induction M; constructor; [apply S; assumption|assumption].
    - intros (l & F & ->). assert (M : mapM (fun q => bind (read_one loads w f q) elements) (p :: others) = Ok l).
      { apply mapM_iff. clear -F S. induction F; constructor; [apply S; assumption|assumption]. }
      rewrite M. reflexivity.
  Qed.

  Theorem read_single : forall w t f p v x, is_partitioned t = Ok false -> implemented f p v = true ->
    (io_read w t f [p] v = Ok x <-> holds w f p x).
  Proof.
    intros w t f p v x P I. unfold IO_Model.io_read. cbn [bind forallb negb]. rewrite I. unfold reader. rewrite P. cbn [bind]. apply read_holds.
  Qed.

  Theorem read_unimplemented : forall w t f p ps v, (ps = [] \/ is_partitioned t = Ok true) ->
    (forall q, In q ps -> same_kind p q = true) -> implemented f p v = false -> io_read w t f (p :: ps) v = Err NotImplementedError.
  Proof.
    intros w t f p ps v P K I. unfold IO_Model.io_read. rewrite (kinds _ _ K), I. destruct ps; [reflexivity|]. destruct P as [P|P]; [discriminate|]. rewrite P. reflexivity.
  Qed.

  (** Writing. *)
  Lemma writer_ok : forall w d f p w' q, writer dumps written_before w d f p = (w', Ok q) ->
    exists c, dumps f d = Ok c /\ contains w' q c /\ same_place p q /\ same_kind p q = true.
  Proof.
    intros w d f p w' q H. destruct p as [path|path|id [v|]]; cbn in H.
    - destruct (dumps f d) as [c|]; [|discriminate]. injection H as <- <-. exists c. repeat split. constructor. cbn. apply (dget_dset_same _ str_eqb_spec).
    - destruct (dumps f d) as [c|]; [|discriminate]. injection H as <- <-. exists c. repeat split. constructor. cbn. apply (dget_dset_same _ str_eqb_spec).
    - discriminate.
    - destruct (dumps f d) as [c|]; [|discriminate]. injection H as <- <-. exists c. repeat split. constructor.
  Qed.

  Lemma snapshot_of : forall w q c x, contains w q c -> take_snapshot content_fp w q = Ok x -> x = (content_fp q c, q).
  Proof.
    intros w q c x C H. assert (S := proj2 (stored_contains w q c) C). destruct C; unfold take_snapshot in H; rewrite S in H; injection H as <-; reflexivity.
  Qed.

  Theorem written_read : forall w d f p v w' z q, io_write w d f p v = (w', Ok (z, q)) ->
    exists c, dumps f d = Ok c /\ contains w' q c /\ z = content_fp q c /\ same_place p q /\
      (loads f c = Ok d -> holds w' f q d).
  Proof.
    intros w d f p v w' z q H. unfold IO_Model.io_write in H. destruct (implemented f p v); [|discriminate].
    destruct (writer dumps written_before w d f p) as [w0 [q0|]] eqn:W; [|discriminate]. injection H as <- H. cbn [bind] in H.
    destruct (writer_ok _ _ _ _ _ _ W) as (c & D & C & S & _). assert (X := snapshot_of _ _ _ _ C H). injection X as -> ->.
    exists c. repeat split; try assumption. intro L. exists c. auto.
  Qed.

  Lemma dset_apart : forall (m : list (str * str)) k k' v, k <> k' -> dget str_eqb (dset str_eqb m k v) k' = dget str_eqb m k'.
  Proof. intros. apply (dget_dset_other _ str_eqb_spec). assumption. Qed.

  Theorem others_kept : forall w d f p v w' r q, io_write w d f p v = (w', r) -> apart p q -> forall c, contains w' q c <-> contains w q c.
  Proof.
    assert (K : forall w d f p q, apart p q -> forall c, contains (fst (writer dumps written_before w d f p)) q c <-> contains w q c).
    { intros w d f p q A c. rewrite <- !stored_contains.
      destruct p as [path|path|id [x|]]; cbn [writer]; try reflexivity; destruct (dumps f d); cbn [fst];
        destruct q as [path'|path'|id' [x'|]]; cbn [stored set_local set_gcs local gcs]; try reflexivity; rewrite dset_apart by exact A; reflexivity. }
    intros w d f p v w' r q H A c. unfold IO_Model.io_write in H. destruct (implemented f p v); [|injection H as <- _; reflexivity].
    assert (S := K w d f p q A c). destruct (writer dumps written_before w d f p) as [w0 r0]. injection H as <- _. exact S.
  Qed.

  Theorem written_ok : forall w d f p v c, implemented f p v = true -> dumps f d = Ok c ->
    (forall id x, p <> LiteralPart id (Some x)) -> exists w' z q, io_write w d f p v = (w', Ok (z, q)).
  Proof.
    intros w d f p v c I D N. unfold IO_Model.io_write. rewrite I. destruct p as [path|path|id [x|]]; cbn [writer]; rewrite ?D; cbn [rmap bind].
    - eexists _, _, _. cbn [take_snapshot stored set_local local]. rewrite (dget_dset_same _ str_eqb_spec). reflexivity.
    - eexists _, _, _. cbn [take_snapshot stored set_gcs gcs]. rewrite (dget_dset_same _ str_eqb_spec). reflexivity.
    - destruct (N _ _ eq_refl).
    - eexists _, _, _. cbn. reflexivity.
  Qed.

  Theorem preset_not_written : forall w d f id x v, implemented f (LiteralPart id (Some x)) v = true ->
    io_write w d f (LiteralPart id (Some x)) v = (w, Err ValueError).
  Proof. intros w d f id x v I. unfold IO_Model.io_write. rewrite I. reflexivity. Qed.
End IO.

(** * Literals *)

Lemma plain_last : forall s, s <> [] -> last s " "%char <> "/"%char -> rstrip_char "/"%char s = s.
Proof.
  induction s as [|a s IH]; intros N L; [congruence|]. cbn [rstrip_char]. destruct s as [|b s].
  - cbn in *. destruct (Ascii.eqb_spec a "/"%char); [contradiction|reflexivity].
  - rewrite IH; [reflexivity|discriminate|exact L].
Qed.

Lemma plain_no_brace : forall s, avoids $"{}" s -> ~ In "{"%char s.
Proof. intros s A. eapply avoids_not_in; [exact A|cbn; tauto]. Qed.

Lemma trim_plain : forall s p, plain_text s -> trim_empty s p = Ok s.
Proof.
  intros s p (A & N & L). unfold trim_empty.
  assert (C : contains_sub (ph p ++ $"/") s = false).
  { rewrite <- (app_nil_r s). rewrite contains_plain by (apply plain_no_brace, A). cbn. destruct p; reflexivity. }
  change ($"{" ++ p ++ $"}") with (ph p). rewrite C.
  assert (R : replace (ph p) [] s = s).
  { unfold replace. pose proof (replace_plain p [] [] s []) as E. rewrite !app_nil_r in E. apply E, plain_no_brace, A. }
  rewrite R, plain_last by assumption. destruct s; [congruence|reflexivity].
Qed.

Lemma resolve_plain : forall other s values, plain_text s -> resolve_field other s values = Ok s.
Proof.
  intros other s values P. unfold resolve_field.
  assert (F : fold_left (fun acc pv => match snd pv with [] => bind acc (fun s => trim_empty s (fst pv)) | _ => acc end) values (Ok s) = Ok s).
  { induction values as [|[k v] values IH]; [reflexivity|]. cbn [fold_left fst snd]. destruct v; [|exact IH]. cbn [bind]. rewrite (trim_plain s k P). exact IH. }
  rewrite F. cbn [bind]. unfold partial_format, vformat. apply vformat_plain, P.
Qed.

Lemma generate_plain : forall other fp key s, avoids $"{}" s -> generate_path other fp key s = Ok s.
Proof.
  intros other fp key s A. unfold generate_path, strip_partition_indexes, vformat. rewrite vformat_plain by exact A. cbn [bind]. apply vformat_plain, A.
Qed.

Section Literals.
  Context (other : cvalue -> str -> result str) (content_fp : place -> str -> Z).
  Notation discover := (discover_literal other content_fp).

  Lemma value_of : forall id v kts, literal_value (string_literal id v kts) = v.
  Proof. reflexivity. Qed.

  Lemma no_fp_plain : forall s, avoids $"{}" s -> contains_sub fp_template s = false.
  Proof.
    intros s A. change fp_template with (ph $"input_fingerprint"). rewrite <- (app_nil_r s), <- (app_nil_r (ph _)).
    rewrite contains_plain by (apply plain_no_brace, A). reflexivity.
  Qed.

  Theorem preset_discovered : forall id v, avoids $"{}" id -> avoids $"{}" v ->
    exists p, discover (string_literal id (Some v) (Some [])) [] = Ok [(content_fp (LiteralPart id (Some v)) v, p)] /\
      place_of p = LiteralPart id (Some v) /\ p_key p = [] /\ p_fp p = None.
  Proof.
    intros id v I A. unfold discover_literal. rewrite value_of. cbn [get_key_types string_literal s_key_types bind mapM fst snd].
    unfold generate_partition, string_literal. cbn [get_key_types s_key_types bind check_key includes_fp s_fields existsb snd].
    rewrite !no_fp_plain by assumption. cbn [orb Bool.eqb mapM snd fst]. rewrite !generate_plain by assumption. cbn [rmap bind].
    eexists. split; [reflexivity|]. repeat split; reflexivity.
  Qed.

  Theorem preset_refused : forall st v fp fps, literal_value st = Some v -> discover st (fp :: fps) = Err ValueError.
  Proof. intros st v fp fps E. unfold discover_literal. rewrite E. reflexivity. Qed.

  Theorem unset_nothing : forall st kts fps, literal_value st = None -> s_key_types st = Some kts ->
    (kts = [] \/ fps <> []) -> discover st fps = Ok [].
  Proof.
    intros st kts fps E K N. unfold discover_literal, get_key_types. rewrite E, K. destruct fps, kts; try reflexivity. destruct N as [N|N]; [discriminate|contradiction].
  Qed.

  Theorem partitioned_raw_refused : forall st kt kts, s_key_types st = Some (kt :: kts) -> discover st [] = Err ValueError.
  Proof. intros st kt kts K. unfold discover_literal, get_key_types. rewrite K. reflexivity. Qed.

  Lemma resolve_literal : forall id v kts values st, plain_text v -> resolve other (string_literal id (Some v) kts) values = Ok st ->
    exists id', st = string_literal id' (Some v) kts.
  Proof.
    intros id v kts values st P H. unfold resolve in H. cbn [string_literal s_fields mapM snd fst] in H.
    destruct (resolve_field other id values) as [id'|]; [|discriminate]. cbn [rmap bind] in H. rewrite (resolve_plain other v values P) in H.
    cbn in H. injection H as <-. exists id'. reflexivity.
  Qed.

  Theorem value_kept : forall id v kts ext name tags names st, plain_text v ->
    into_graph other (string_literal id (Some v) None) kts ext name tags names = Ok st ->
    exists id', st = string_literal id' (Some v) (Some kts).
  Proof.
    intros id v kts ext name tags names st P H. unfold into_graph in H.
    destruct (visit_type other _ kts) as [s1|] eqn:E1; [|discriminate]. cbn [bind] in H. apply (resolve_literal id v (Some kts)) in E1; [|exact P].
    destruct E1 as [i1 ->]. destruct (visit_format other _ ext) as [s2|] eqn:E2; [|discriminate]. cbn [bind] in H. apply resolve_literal in E2; [|exact P].
    destruct E2 as [i2 ->]. destruct (visit_graph other _ name tags) as [s3|] eqn:E3; [|discriminate]. cbn [bind] in H. apply resolve_literal in E3; [|exact P].
    destruct E3 as [i3 ->]. destruct (visit_names other _ names) as [s4|] eqn:E4; [|discriminate]. cbn [bind] in H. apply resolve_literal in E4; [|exact P].
    destruct E4 as [i4 ->]. apply resolve_literal in H; [|exact P]. exact H.
  Qed.

  (** A literal without a value is written and read like any other place. *)
  Theorem unset_partition : forall id kts fp key p, generate_partition other (string_literal id None kts) fp key = Ok p ->
    exists id', place_of p = LiteralPart id' None /\ generate_path other fp key id = Ok id'.
  Proof.
    intros id kts fp key p H. unfold generate_partition in H. destruct (get_key_types _); [|discriminate]. cbn [bind] in H.
    destruct (check_key _ _); [|discriminate]. cbn [bind] in H. destruct (Bool.eqb _ _); [|discriminate]. cbn [string_literal s_fields mapM snd fst] in H.
    destruct (generate_path other fp key id) as [id'|]; [|discriminate]. cbn in H. injection H as <-. exists id'. split; reflexivity.
  Qed.
End Literals.

Theorem literal_written_read : forall other V loads dumps (written_before : format -> V -> str) content_fp elements of_list
    id kts fp key p w d c t, generate_partition other (string_literal id None kts) fp key = Ok p ->
  dumps JSON d = Ok c -> loads JSON c = Ok d -> is_partitioned t = Ok false ->
  exists id', generate_path other fp key id = Ok id' /\
    io_write dumps written_before content_fp w d JSON (place_of p) PythonBuiltin =
      (w, Ok (content_fp (LiteralPart id' (Some c)) c, LiteralPart id' (Some c))) /\
    io_read loads elements of_list w t JSON [LiteralPart id' (Some c)] PythonBuiltin = Ok d.
Proof.
  intros other V loads dumps wb content_fp elements of_list id kts fp key p w d c t G D L P.
  apply unset_partition in G. destruct G as (id' & -> & E). exists id'. split; [exact E|]. split.
  - unfold io_write. cbn. rewrite D. reflexivity.
  - apply read_single; [exact P|reflexivity|]. exists c. split; [constructor|exact L].
Qed.

Theorem literal_templates : forall other content_fp,
  (exists st, into_graph other (string_literal default_id (Some $"{""a"": 1}") None) [] $".json" $"shop" [] [$"x"] = Ok st /\
    discover_literal other content_fp st [] = Err KeyError) /\
  (exists st p, into_graph other (string_literal default_id (Some $"""{name}""") None) [] $".json" $"shop" [] [$"x"] = Ok st /\
    discover_literal other content_fp st [] = Ok [p] /\
    place_of (snd p) = LiteralPart $"shop/x/x.json" (Some $"""x""")).
Proof.
  intros other content_fp. split.
  - eexists. split; [vm_compute; reflexivity|]. vm_compute. reflexivity.
  - eexists _, _. split; [vm_compute; reflexivity|]. split; vm_compute; reflexivity.
Qed.
