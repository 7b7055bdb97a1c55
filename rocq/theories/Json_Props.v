(** C63: what is stored as JSON is read back. *)
From Coq Require Import ZArith NArith List Ascii String Bool.
From Verif Require Import Base Str Types_Model IO_Model IO_Spec Types_Props IO_Props Json_Model Json_Spec Json_Text_Proofs Json_Codec_Proofs
  Json_Prefix_Proofs Json_Exact_Proofs Json_IO_Proofs Json_Cases Json_Cases_Proofs.
Import ListNotations.
Open Scope list_scope.

(** Encoding and decoding an object gives the object exactly if it consists of None, booleans,
    numbers, strings, lists and dicts from strings. *)
Theorem C63_exact : forall fl, float_laws fl -> forall v : value fl, all_texts unicode v ->
  ((exists c, dumps v = Ok c /\ loads c = Ok v) <-> faithful v).
Proof. exact @kept_iff. Qed.
Print Assumptions C63_exact.
Example C63_exact_nonvacuous :
  float_laws halves /\ all_texts unicode ex_value /\ faithful ex_value /\ dumps ex_value = Ok ex_text /\ loads ex_text = Ok ex_value.
Proof.
  split; [exact halves_laws|]. split; [exact ex_value_unicode|]. split; [exact ex_value_faithful|].
  split; reflexivity.
Qed.

(** Different objects of these have different texts. *)
Theorem C63_injective : forall fl, float_laws fl -> forall v w : value fl, all_texts unicode v -> all_texts unicode w ->
  faithful v -> faithful w -> dumps v = dumps w -> v = w.
Proof. exact dumps_injective. Qed.
Print Assumptions C63_injective.
Example C63_injective_nonvacuous : dumps (VList [VInt 12] : value halves) <> dumps (VList [VInt 1; VInt 2] : value halves).
Proof. discriminate. Qed.

(** Everything that can be encoded is decoded: tuples as lists, keys as strings, the last of
    several values of a key. *)
Theorem C63_read_back : forall fl, float_laws fl -> forall (v : value fl) c, all_texts unicode v -> dumps v = Ok c ->
  exists v', reads_as v v' /\ loads c = Ok v'.
Proof. exact @loads_written. Qed.
Print Assumptions C63_read_back.
Example C63_read_back_nonvacuous : let c := $"{""1"": [true, ""a""], ""1"": 2}" in
  all_texts unicode ex_odd /\ dumps ex_odd = Ok c /\ loads c = Ok (VDict [(tx $"1", VInt 2)]).
Proof. cbn zeta. split; [exact ex_odd_unicode|]. split; reflexivity. Qed.

(** TypeError is raised exactly for what is no JSON: sets, bytes, dates and timestamps anywhere,
    and keys that are no strings, numbers, booleans or None. *)
Theorem C63_refused : forall fl (v : value fl), ~ encodable v <-> dumps v = Err TypeError.
Proof. exact @dumps_fails. Qed.
Print Assumptions C63_refused.
Example C63_refused_nonvacuous : encodable ex_odd /\ ~ encodable ex_rows /\ dumps ex_rows = Err TypeError.
Proof. split; [exact ex_odd_encodable|]. split; [exact ex_rows_not|]. reflexivity. Qed.

(** The types whose objects all survive: those without dates, timestamps, binary data, sets and
    maps from anything but strings. *)
Theorem C63_types : forall fl, float_laws fl -> floats_inhabited fl -> forall t, hinted t ->
  (json_type t <-> forall v : value fl, instance t v -> all_texts clean v -> exists c, dumps v = Ok c /\ loads c = Ok v).
Proof. exact types_iff. Qed.
Print Assumptions C63_types.
Example C63_types_nonvacuous :
  let t := Map (Scalar String plain) (List (Scalar (Float F64) plain) plain) plain in
  hinted t /\ json_type t /\ instance t (VDict [(tx $"a", VList [VFloat (Half 3 : F halves)])] : value halves).
Proof.
  cbn zeta. split; [repeat (constructor; try discriminate)|]. split; [repeat constructor|]. constructor.
  - repeat constructor. intros [].
  - entries. split; [constructor|constructor; each; constructor].
Qed.

(** Rows with the day they are partitioned by cannot be stored. *)
Theorem C63_dated_rows_refuted : forall fl name row fields rm partition_by cluster_by m f dm (r : value fl) rest,
  In (f, Scalar Date dm) fields -> nullable rm = false -> nullable dm = false ->
  instance (Collection name (Struct row fields rm) partition_by cluster_by m) (VList (r :: rest)) ->
  dumps (VList (r :: rest)) = Err TypeError.
Proof. exact dated_rows_refused. Qed.
Print Assumptions C63_dated_rows_refuted.
Example C63_dated_rows_nonvacuous : is_partitioned by_day = Ok true /\ instance by_day ex_rows.
Proof.
  split; [reflexivity|]. constructor. each. constructor.
  constructor; [split; [reflexivity|constructor]|]. constructor; [split; [reflexivity|constructor]|].
  constructor; [split; [reflexivity|constructor]|]. constructor.
Qed.

(** Data cut off anywhere is not taken for other data, numbers aside. *)
Theorem C63_cut_short_partial : forall fl, float_laws fl -> forall (v : value fl) c p t, all_texts unicode v -> dumps v = Ok c ->
  ~ number v -> c = p ++ t -> t <> [] -> loads (fl := fl) p = Err ValueError.
Proof. exact @cut_short_unread. Qed.
Print Assumptions C63_cut_short_partial.
Example C63_cut_short_nonvacuous : ~ number ex_value /\ dumps ex_value = Ok (firstn 20 ex_text ++ skipn 20 ex_text) /\ skipn 20 ex_text <> [] /\
  loads (fl := halves) (firstn 20 ex_text) = Err ValueError.
Proof. split; [intros []|]. split; [reflexivity|]. split; [discriminate|]. reflexivity. Qed.
Theorem C63_cut_number_refuted : exists (v : value halves) c p t w, dumps v = Ok c /\ c = p ++ t /\ t <> [] /\ loads p = Ok w /\ w <> v.
Proof.
  exists (VInt 123), $"123", $"12", $"3", (VInt 12). split; [reflexivity|]. split; [reflexivity|]. split; [discriminate|].
  split; [reflexivity|discriminate].
Qed.
Print Assumptions C63_cut_number_refuted.

(** Nothing but whitespace may follow. *)
Theorem C63_followed : forall fl, float_laws fl -> forall (v : value fl) c t, all_texts unicode v -> dumps v = Ok c -> ~ number v ->
  ((exists v' : value fl, loads (c ++ t) = Ok v') <-> forall ch, In ch t -> In (N_of_ascii ch) [32; 9; 10; 13]%N).
Proof. exact @followed. Qed.
Print Assumptions C63_followed.
Example C63_followed_nonvacuous : dumps ex_value = Ok ex_text /\ loads (ex_text ++ [ascii_of_N 10]) = Ok ex_value /\
  loads (fl := halves) (ex_text ++ $"]") = Err ValueError.
Proof. split; [reflexivity|]. split; reflexivity. Qed.

(** What is in the file when encoding fails is never taken for data. *)
Theorem C63_left_behind : forall fl, float_laws fl -> forall v : value fl, all_texts unicode v -> ~ encodable v ->
  loads (fl := fl) (left_behind v) = Err ValueError.
Proof. exact @left_behind_unread. Qed.
Print Assumptions C63_left_behind.
Example C63_left_behind_nonvacuous : all_texts unicode ex_rows /\ ~ encodable ex_rows /\ left_behind ex_rows = $"[{""day"": ".
Proof. split; [exact ex_rows_unicode|]. split; [exact ex_rows_not|reflexivity]. Qed.

(** Data written to a file, a blob or a literal without a value is read from there. *)
Theorem C63_written : forall fl, float_laws fl -> forall pl pd pw content_fp w (d : value fl) p, all_texts unicode d -> faithful d ->
  (forall id x, p <> LiteralPart id (Some x)) ->
  exists w' z q, write_as pd pw content_fp w d JSON p PythonBuiltin = (w', Ok (z, q)) /\ same_place p q /\
    forall t, is_partitioned t = Ok false -> read_as pl w' t JSON [q] PythonBuiltin = Ok d.
Proof. exact @json_written. Qed.
Print Assumptions C63_written.
Example C63_written_nonvacuous : is_partitioned ex_struct = Ok false /\
  (let '(w', _) := ex_write disk ex_value JSON (LocalPart $"1.json") PythonBuiltin in
   ex_read w' ex_struct JSON [LocalPart $"1.json"] PythonBuiltin = Ok ex_value).
Proof. split; [reflexivity|]. reflexivity. Qed.

(** Lists written to different places of one storage are read together, one after the other. *)
Theorem C63_partitions : forall fl, float_laws fl -> forall pl pd pw content_fp t w pds w' qs (ls : list (list (value fl))),
  is_partitioned t = Ok true -> pds <> [] ->
  writes (fun w d p => write_as pd pw content_fp w d JSON p PythonBuiltin) w pds w' qs ->
  Forall2 (fun pd l => snd pd = VList l /\ faithful (snd pd) /\ all_texts unicode (snd pd)) pds ls ->
  ForallOrdPairs (fun a b => apart (fst b) (fst a) /\ same_kind (fst a) (fst b) = true) pds ->
  read_as pl w' t JSON qs PythonBuiltin = Ok (VList (List.concat ls)).
Proof. exact @json_partitions. Qed.
Print Assumptions C63_partitions.
Example C63_partitions_nonvacuous :
  let pds := [(LocalPart $"a.json", VList [VInt 1; tx $"x"]); (LocalPart $"b.json", VList []); (LocalPart $"c.json", VList [VNone])] in
  exists w' qs, writes (fun w d p => ex_write w d JSON p PythonBuiltin) disk pds w' qs /\
    Forall2 (fun (pd : place * value halves) l => snd pd = VList l /\ faithful (snd pd) /\ all_texts unicode (snd pd)) pds [[VInt 1; tx $"x"]; []; [VNone]] /\
    ForallOrdPairs (fun a b => apart (fst b) (fst a) /\ same_kind (fst a) (fst b) = true) pds /\
    ex_read w' by_day JSON qs PythonBuiltin = Ok (VList [VInt 1; tx $"x"; VNone]).
Proof.
  cbn zeta. eexists. eexists. split; [repeat (eapply wr_one; [reflexivity|]); apply wr_none|]. split.
  - repeat (constructor; try (split; [reflexivity|split])); each; constructor; first [apply of_str_unpaired|apply of_str_unicode].
  - split; [|reflexivity]. repeat constructor; discriminate.
Qed.

(** Writing what cannot be encoded fails, and what was in the file is gone. *)
Theorem C63_failed_write : forall fl, float_laws fl -> forall (pl : str -> result (value fl)) pd pw content_fp w (d : value fl) p, all_texts unicode d -> ~ encodable d ->
  (forall id v, p <> LiteralPart id v) ->
  exists w', write_as pd pw content_fp w d JSON p PythonBuiltin = (w', Err TypeError) /\
    forall t b, is_partitioned t = Ok b -> read_as pl w' t JSON [p] PythonBuiltin = Err ValueError.
Proof. exact @json_failed. Qed.
Print Assumptions C63_failed_write.
Theorem C63_old_data_refuted : exists w old (new : value halves) p, instance by_day old /\ instance by_day new /\
  ex_read w by_day JSON [p] PythonBuiltin = Ok old /\
  (let '(w', r) := ex_write w new JSON p PythonBuiltin in
   r = Err TypeError /\ ex_read w' by_day JSON [p] PythonBuiltin = Err ValueError).
Proof.
  exists {| local := [($"1.json", $"[]")]; gcs := [] |}, (VList []), ex_rows, (LocalPart $"1.json"). split; [constructor; intros x []|].
  split; [exact (proj2 C63_dated_rows_nonvacuous)|]. split; [reflexivity|]. split; reflexivity.
Qed.
Print Assumptions C63_old_data_refuted.

(** Objects the type allows come back as others, without an error: maps from numbers, strings
    with two halves of a character, partitions that are dicts. *)
Theorem C63_keys_refuted : exists t (v w : value halves) c, hinted t /\ instance t v /\ dumps v = Ok c /\ loads c = Ok w /\ ~ instance t w.
Proof.
  exists (Map (Scalar (Int B64) plain) (Scalar (Int B64) plain) plain), (VDict [(VInt 1, VInt 2)]), (VDict [(tx $"1", VInt 2)]), $"{""1"": 2}".
  split; [repeat (constructor; try discriminate)|]. split; [constructor; [repeat constructor; intros []|entries; split; constructor]|].
  split; [reflexivity|]. split; [reflexivity|]. intro H. inversion H as [| | | | | | | | | | | | |? ? ? ? _ A|]; subst.
  destruct (A _ _ (or_introl eq_refl)) as [X _]. inversion X.
Qed.
Print Assumptions C63_keys_refuted.
Theorem C63_surrogates_refuted : exists (v w : value halves) c, instance (Scalar String plain) v /\ dumps v = Ok c /\ loads c = Ok w /\ w <> v.
Proof.
  exists (VText [55348; 56606]%N), (VText [119070]%N), $"""\ud834\udd1e""". split; [constructor|]. split; [reflexivity|].
  split; [reflexivity|discriminate].
Qed.
Print Assumptions C63_surrogates_refuted.
Theorem C63_dict_partition_refuted : exists w (d x : value halves) p, faithful d /\ ex_read w by_day JSON [p] PythonBuiltin = Ok x /\
  holds (decode no_pickle_loads) w JSON p d /\ x = VList [tx $"n"].
Proof.
  exists {| local := [($"1.json", $"{""n"": 1}")]; gcs := [] |}, (VDict [(tx $"n", VInt 1)]), (VList [tx $"n"]), (LocalPart $"1.json").
  split; [constructor; [repeat constructor; intros []|entries; split; [eexists; split; [reflexivity|apply of_str_unpaired]|constructor]]|].
  split; [reflexivity|]. split; [|reflexivity]. exists $"{""n"": 1}". split; [constructor; reflexivity|reflexivity].
Qed.
Print Assumptions C63_dict_partition_refuted.
