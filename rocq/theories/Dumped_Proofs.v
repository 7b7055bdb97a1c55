(** Lemmas: the text that is fingerprinted is the JSON document of the value. *)
From Coq Require Import ZArith NArith List Ascii String Bool Sorted Lia.
From Verif Require Import Base Str Str_Proofs Base_Proofs Numerals_Model Numerals_Proofs Int64_Model Int64_Spec Int64_Proofs
  Models_Model Models_Spec Json_Proofs Models_Proofs Dumped_Spec.
From Verif Require Json_Model Json_Spec Json_Text_Proofs Json_Codec_Proofs Layout_Proofs.
Import ListNotations.
Open Scope list_scope.
Open Scope nat_scope.

(** * Reading the text *)

Section Read.
  Context {fl : Json_Model.floats}.
  Notation jvalue := (Json_Model.value fl).

  Fixpoint reading (j : json) : jvalue :=
    match j with
    | JNull => Json_Model.VNone
    | JBool b => Json_Model.VBool b
    | JInt z => Json_Model.VInt z
    | JStr s => Json_Model.VText (codes s)
    | JArr l => Json_Model.VList (map reading l)
    | JObj l => Json_Model.dict_value (map (fun kj => (codes (fst kj), reading (snd kj))) l)
    end.

  Lemma scan_escape : forall c r, Json_Model.scan_string (escape c ++ r) =
    Json_Model.add (N_of_ascii c) (Json_Model.scan_string r).
  Proof.
    intros c r. destruct c as [[|] [|] [|] [|] [|] [|] [|] [|]]; try reflexivity;
      cbn -[Json_Model.scan_string]; cbn [Json_Model.scan_string];
      (destruct r as [|a [|b [|c [|d [|e [|f r]]]]]]; reflexivity).
  Qed.
  Lemma scan_escaped : forall s r, Json_Model.scan_string (flat_map escape s ++ """"%char :: r) = Some (codes s, r).
  Proof.
    induction s as [|c s IH]; intro r; [reflexivity|]. cbn [flat_map]. rewrite <- app_assoc, scan_escape, IH. reflexivity.
  Qed.
  Lemma scan_str : forall s r, exists t, json_str s ++ r = """"%char :: t /\ Json_Model.scan_string t = Some (codes s, r).
  Proof.
    intros s r. exists (flat_map escape s ++ """"%char :: r). split; [|apply scan_escaped].
    unfold json_str. cbn [app]. now rewrite <- app_assoc.
  Qed.

  Notation begins := Json_Codec_Proofs.begins.
  Notation ends_number := Json_Text_Proofs.ends_number.
  Definition parsed (j : json) : Prop := begins (json_text j) /\
    forall n r, 2 * List.length (json_text j) <= n -> ends_number r ->
      Json_Model.scan_value n (json_text j ++ r) = Some (reading j, r).

  Lemma begins_length : forall c n, begins c -> 2 * List.length c <= n -> exists m, n = S m.
  Proof. intros c [|n] (h & t & -> & _) L; [cbn in L; lia|eauto]. Qed.
  Lemma begins_app : forall c r, begins c -> begins (c ++ r).
  Proof. intros c r (h & t & -> & B). exists h, (t ++ r). split; [reflexivity|exact B]. Qed.

  Lemma join_cons : forall (x y : str) l, join $"," (x :: y :: l) = x ++ ","%char :: join $"," (y :: l).
  Proof. reflexivity. Qed.

  Lemma parsed_items : forall l x, Forall parsed (x :: l) ->
    begins (join $"," (map json_text (x :: l)) ++ $"]") /\
    forall n r, 2 * List.length (join $"," (map json_text (x :: l)) ++ $"]") + 1 <= n ->
      Json_Model.scan_items n (join $"," (map json_text (x :: l)) ++ "]"%char :: r) = Some (map reading (x :: l), r).
  Proof.
    induction l as [|y l IH]; intros x F; inversion F as [|? ? [B W] F']; subst.
    - cbn [map join]. split; [now apply begins_app|]. intros [|n] r L; [lia|]. rewrite app_length in L.
      cbn [List.length S_ list_ascii_of_string] in L. cbn [Json_Model.scan_items]. rewrite W; [reflexivity|lia|repeat split; discriminate].
    - destruct (IH y F') as [B2 W2]. cbn [map]. rewrite join_cons. split; [rewrite <- app_assoc; now apply begins_app|].
      intros [|n] r L; [lia|]. rewrite !app_length in L. cbn [List.length S_ list_ascii_of_string] in L.
      rewrite <- app_assoc. cbn [app Json_Model.scan_items]. rewrite W; [|lia|repeat split; discriminate].
      match goal with |- context [Json_Model.skip_ws (","%char :: ?t)] => change (Json_Model.skip_ws (","%char :: t)) with (","%char :: t) end.
      cbv iota beta. change (Ascii.eqb "," "]") with false. change (Ascii.eqb "," ",") with true. cbv iota.
      cbn [map] in B2, W2.
      replace (join $"," (json_text y :: map json_text l) ++ "]"%char :: r)
        with ((join $"," (json_text y :: map json_text l) ++ $"]") ++ r) by (rewrite <- app_assoc; reflexivity).
      rewrite (Json_Codec_Proofs.skip_begins _ r B2). rewrite <- app_assoc. cbn [app S_ list_ascii_of_string].
      rewrite W2; [reflexivity|]. rewrite app_length. cbn [List.length S_ list_ascii_of_string]. lia.
  Qed.

  Definition member (kj : str * json) : str := json_str (fst kj) ++ $":" ++ json_text (snd kj).
  Lemma parsed_members : forall l x, Forall (fun kj => parsed (snd kj)) (x :: l) ->
    forall n r, 2 * List.length (join $"," (map member (x :: l)) ++ $"}") + 1 <= n ->
      Json_Model.scan_members n (join $"," (map member (x :: l)) ++ "}"%char :: r) =
        Some (map (fun kj => (codes (fst kj), reading (snd kj))) (x :: l), r).
  Proof.
    induction l as [|y l IH]; intros [k j] F; inversion F as [|? ? [B W] F']; subst; cbn [snd] in B, W.
    - cbn [map join]. change (member (k, j)) with (json_str k ++ $":" ++ json_text j). cbn [fst snd]. intros [|n] r L; [lia|]. rewrite !app_length in L.
      cbn [List.length S_ list_ascii_of_string] in L. rewrite <- !app_assoc. cbn [app S_ list_ascii_of_string].
      destruct (scan_str k (":"%char :: json_text j ++ "}"%char :: r)) as (t & -> & Es).
      cbn [Json_Model.scan_members]. change (Ascii.eqb """" """") with true. cbv iota. rewrite Es.
      match goal with |- context [Json_Model.skip_ws (":"%char :: ?t)] => change (Json_Model.skip_ws (":"%char :: t)) with (":"%char :: t) end.
      cbv iota beta. change (Ascii.eqb ":" ":") with true. cbv iota.
      rewrite (Json_Codec_Proofs.skip_begins _ _ B). rewrite W; [reflexivity|lia|repeat split; discriminate].
    - cbn [map]. rewrite join_cons. change (member (k, j)) with (json_str k ++ $":" ++ json_text j). cbn [fst snd]. intros [|n] r L; [lia|].
      rewrite !app_length in L. cbn [List.length S_ list_ascii_of_string] in L.
      rewrite <- !app_assoc. cbn [app S_ list_ascii_of_string].
      match goal with |- context [json_str k ++ ?t] => destruct (scan_str k t) as (u & -> & Es) end.
      cbn [Json_Model.scan_members]. change (Ascii.eqb """" """") with true. cbv iota. rewrite Es.
      match goal with |- context [Json_Model.skip_ws (":"%char :: ?t)] => change (Json_Model.skip_ws (":"%char :: t)) with (":"%char :: t) end.
      cbv iota beta. change (Ascii.eqb ":" ":") with true. cbv iota.
      rewrite (Json_Codec_Proofs.skip_begins _ _ B). rewrite W; [|lia|repeat split; discriminate].
      match goal with |- context [Json_Model.skip_ws (","%char :: ?t)] => change (Json_Model.skip_ws (","%char :: t)) with (","%char :: t) end.
      cbv iota beta. change (Ascii.eqb "," "}") with false. change (Ascii.eqb "," ",") with true. cbv iota.
      specialize (IH y F'). cbn [map] in IH.
      assert (Q : forall t, exists u, join $"," (member y :: map member l) ++ t = """"%char :: u).
      { intro t. destruct l; cbn [map join]; unfold member at 1, json_str; cbn [app]; eauto. }
      match goal with |- context [Json_Model.skip_ws ?t] => assert (Sk : Json_Model.skip_ws t = t) end.
      { destruct (Q ("}"%char :: r)) as (u2 & E2). cbn [S_ list_ascii_of_string] in E2. rewrite E2. reflexivity. }
      cbn [S_ list_ascii_of_string] in IH. rewrite Sk. rewrite IH; [reflexivity|]. rewrite app_length. cbn [List.length S_ list_ascii_of_string]. lia.
  Qed.

  Lemma all_parsed : forall j, parsed j.
  Proof.
    induction j as [|b|z|s|l IH|l IH] using json_ind'.
    - split; [exists "n"%char, $"ull"; repeat split; discriminate|]. intros [|n] r L _; [cbn in L; lia|]. reflexivity.
    - destruct b.
      + split; [exists "t"%char, $"rue"; repeat split; discriminate|]. intros [|n] r L _; [cbn in L; lia|]. reflexivity.
      + split; [exists "f"%char, $"alse"; repeat split; discriminate|]. intros [|n] r L _; [cbn in L; lia|]. reflexivity.
    - assert (B : begins (py_str z)).
      { destruct (Json_Text_Proofs.py_str_text z) as (sign & i & E & Sg & I). rewrite E, <- (app_nil_r i).
        apply Json_Codec_Proofs.number_begins; assumption. }
      split; [exact B|]. intros n r L En. cbn [json_text] in *. destruct (begins_length _ _ B L) as (m & ->).
      apply Json_Codec_Proofs.scan_value_number. apply Json_Text_Proofs.scan_int. exact En.
    - split; [eexists _, _; split; [reflexivity|repeat split; discriminate]|]. intros [|n] r L _; [cbn in L; lia|].
      cbn [json_text]. destruct (scan_str s r) as (t & -> & E). cbn [Json_Model.scan_value].
      change (Ascii.eqb """" """") with true. cbv iota. rewrite E. reflexivity.
    - split; [eexists _, _; split; [reflexivity|repeat split; discriminate]|]. intros [|n] r L _; [cbn in L; lia|].
      destruct l as [|x l]; [reflexivity|].
      destruct (parsed_items l x IH) as [B W]. cbn [json_text app S_ list_ascii_of_string List.length] in *.
      rewrite Json_Codec_Proofs.scan_array. rewrite <- app_assoc. cbn [app].
      specialize (W n r ltac:(cbn [List.length] in L; lia)).
      pose proof (Json_Codec_Proofs.skip_begins _ r B) as Sk. rewrite <- app_assoc in Sk. cbn [app] in Sk.
      change (map json_text (x :: l)) with (json_text x :: map json_text l) in *.
      rewrite Sk. destruct B as (h & t & E & _ & N & _).
      assert (E' : join [","%char] (json_text x :: map json_text l) ++ "]"%char :: r = h :: t ++ r).
      { change ("]"%char :: r) with (["]"%char] ++ r). rewrite app_assoc, E. reflexivity. }
      rewrite E' in *. destruct (Ascii.eqb_spec h "]") as [->|_]; [contradiction|]. rewrite W. reflexivity.
    - split; [eexists _, _; split; [reflexivity|repeat split; discriminate]|]. intros [|n] r L _; [cbn in L; lia|].
      destruct l as [|x l]; [reflexivity|].
      pose proof (parsed_members l x IH n r) as W. cbn [json_text] in *.
      change (map (fun kj => json_str (fst kj) ++ $":" ++ json_text (snd kj)) (x :: l)) with (map member (x :: l)) in *.
      cbn [app S_ list_ascii_of_string List.length] in L |- *. cbn [S_ list_ascii_of_string] in W.
      rewrite Json_Codec_Proofs.scan_object. rewrite <- app_assoc. cbn [app].
      specialize (W ltac:(lia)).
      assert (Q : exists u, join [","%char] (map member (x :: l)) ++ "}"%char :: r = """"%char :: u).
      { destruct l; cbn [map join]; unfold member at 1, json_str; cbn [app]; eauto. }
      destruct Q as (u & E). rewrite E in *. change (Json_Model.skip_ws (""""%char :: u)) with (""""%char :: u). cbv iota beta.
      change (Ascii.eqb """" "}") with false. cbv iota. rewrite W. reflexivity.
  Qed.

  Lemma loads_text : forall j, Json_Model.loads (json_text j) = Ok (reading j).
  Proof.
    intro j. destruct (all_parsed j) as [B W]. unfold Json_Model.loads.
    pose proof (Json_Codec_Proofs.skip_begins _ [] B) as Sk. specialize (W (2 * List.length (json_text j) + 1) [] ltac:(lia) Logic.I).
    rewrite app_nil_r in Sk, W. rewrite Sk, W. reflexivity.
  Qed.

  (** * The document *)

  Lemma codes_inj : forall a b, codes a = codes b -> a = b.
  Proof.
    induction a as [|x a IH]; intros [|y b] E; try discriminate; [reflexivity|]. injection E as X E. f_equal; [|now apply IH].
    rewrite <- (ascii_N_embedding x), <- (ascii_N_embedding y). now rewrite X.
  Qed.
  Lemma text_eqb_spec : forall a b, Json_Model.text_eqb a b = true <-> a = b.
  Proof. intros a b. unfold Json_Model.text_eqb. destruct (list_eq_dec N.eq_dec a b); split; congruence. Qed.
  Lemma dset_new : forall (d : list (Json_Model.text * jvalue)) k v, ~ In k (map fst d) ->
    dset Json_Model.text_eqb d k v = d ++ [(k, v)].
  Proof.
    induction d as [|[k' v'] d IH]; intros k v N; [reflexivity|]. cbn in *.
    destruct (Json_Model.text_eqb k k') eqn:E; [apply text_eqb_spec in E; subst; tauto|].
    destruct (Json_Model.text_eqb k' k) eqn:E'; [apply text_eqb_spec in E'; subst; tauto|].
    rewrite IH by tauto. reflexivity.
  Qed.
  Lemma dict_distinct : forall l : list (Json_Model.text * jvalue), NoDup (map fst l) -> dict_of Json_Model.text_eqb l = l.
  Proof.
    intros l N. unfold dict_of, dupdate. change l with ([] ++ l) at 2.
    assert (D : NoDup (map fst (([] : list (Json_Model.text * jvalue)) ++ l))) by exact N. revert D. generalize ([] : list (Json_Model.text * jvalue)) as a.
    clear N. induction l as [|[k v] l IH]; intros a D; cbn [fold_left].
    - now rewrite app_nil_r.
    - cbn [fst snd]. rewrite dset_new.
      + rewrite IH; [now rewrite <- app_assoc|]. now rewrite <- app_assoc.
      + intro I. rewrite map_app in D. apply NoDup_remove_2 in D. apply D. apply in_app_iff. now left.
  Qed.
  Lemma reading_object : forall l, NoDup (map fst l) ->
    reading (JObj l) = Json_Model.VDict (map (fun kj => (Json_Model.VText (codes (fst kj)), reading (snd kj))) l).
  Proof.
    intros l N. cbn [reading]. unfold Json_Model.dict_value. rewrite dict_distinct; [now rewrite map_map|].
    rewrite map_map. cbn [fst]. change (fun x : str * json => codes (fst x)) with (fun x : str * json => (fun y => codes y) (fst x)).
    rewrite <- (map_map fst codes). clear - N. induction N as [|k m I N IH]; cbn; constructor; [|exact IH].
    intro H. apply in_map_iff in H. destruct H as (k' & E & H). apply codes_inj in E. now subst.
  Qed.

  Lemma key_lt_before : forall a b, key_lt a b -> before a b.
  Proof.
    intros a b [L N]. revert b L N. induction a as [|x a IH]; intros [|y b] L N; cbn in L; try discriminate.
    - congruence.
    - exists []. left. exists y, b. split; reflexivity.
    - destruct (Ascii.eqb_spec x y) as [->|D].
      + assert (N' : a <> b) by congruence. destruct (IH b L N') as (p & [(c & r & -> & ->)|(x & a' & z & b' & -> & -> & Lt)]).
        * exists (y :: p). left. exists c, r. split; reflexivity.
        * exists (y :: p). right. exists x, a', z, b'. repeat split; assumption.
      + exists []. right. exists x, a, y, b. repeat split. now apply N.ltb_lt.
  Qed.
  Lemma SS_before : forall l, StronglySorted key_lt l -> StronglySorted before l.
  Proof.
    induction 1 as [|x l S IH F]; constructor; [exact IH|]. eapply Forall_impl; [|exact F]. intros y. apply key_lt_before.
  Qed.
  Lemma SS_NoDup : forall l, StronglySorted key_lt l -> NoDup l.
  Proof.
    induction 1 as [|x l S IH F]; constructor; [|exact IH]. intro I. rewrite Forall_forall in F. now apply (key_lt_irrefl x), F.
  Qed.

  Lemma serialized : forall v, sound v -> document v (reading (serialize v)).
  Proof.
    induction v as [|b|z|s|l IH|l IH|l IH|c names l IH] using value_ind'; intro S; inversion S; subst; cbn [serialize reading];
      try (constructor; fail).
    - constructor. rewrite map_map. match goal with F : Forall sound l |- _ => revert F end. clear S.
      induction l as [|x l IHl]; intro F; [constructor|]. inversion IH; inversion F; subst. constructor; auto.
    - constructor. rewrite map_map. match goal with F : Forall sound l |- _ => revert F end. clear S.
      induction l as [|x l IHl]; intro F; [constructor|]. inversion IH; inversion F; subst. constructor; auto.
    - change (document (VMap l) (reading (JObj (map (fun kv => (fst kv, serialize (snd kv))) l)))).
      rewrite reading_object by (rewrite map_map; assumption). constructor. rewrite map_map. cbn [fst snd].
      match goal with F : Forall (fun kv => sound (snd kv)) l |- _ => revert F end.
      match goal with F : NoDup (map fst l) |- _ => clear F end. clear S.
      induction l as [|x l IHl]; intro F; [constructor|]. inversion IH; inversion F; subst.
      constructor; [split; [reflexivity|]|]; auto.
    - match goal with I : instance c l _ |- _ => pose proof I as In1; destruct (instance_In _ _ _ I) as (obj & E & SS & Hobj) end.
      change (document (VModel c names l) (reading (serialize (VModel c names l)))).
      rewrite E, reading_object by (apply SS_NoDup; exact SS).
      rewrite <- (map_map (fun kj : str * json => (fst kj, reading (snd kj))) (fun nd => (Json_Model.VText (codes (fst nd)), snd nd))).
      assert (FE : map fst (map (fun kj : str * json => (fst kj, reading (snd kj))) obj) = map fst obj) by (rewrite map_map; reflexivity).
      constructor.
      + rewrite FE. apply SS_before. exact SS.
      + intro n. rewrite FE, in_map_iff. split.
        * intros ([n' j] & <- & I). apply Hobj in I. destruct I as [[Ct _]|[-> _]]; [left; exact Ct|right; reflexivity].
        * intros [Ct | -> ].
          -- assert (M : In n (map fst l)).
             { destruct In1 as (_ & Nm & _). rewrite Nm. destruct Ct as ((d & Hd & <- & _) & _). now apply in_map. }
             apply in_map_iff in M. destruct M as ([n' v] & En & M). cbn in En. subst n'.
             exists (n, serialize v). split; [reflexivity|]. apply Hobj. left. split; [exact Ct|]. exists v. auto.
          -- exists (type_field, JStr (c_name c)). split; [reflexivity|]. apply Hobj. right. auto.
      + apply Forall_forall. intros [n d] I. apply in_map_iff in I. destruct I as ([n' j] & En & I). injection En as <- <-.
        apply Hobj in I. cbn [fst snd]. destruct I as [[_ (v & Iv & <-)]|[-> ->]]; [right|left; split; reflexivity].
        exists v. split; [exact Iv|]. rewrite Forall_forall in IH. apply (IH (n', v) Iv).
        match goal with F : Forall (fun kv => sound (snd kv)) l |- _ => rewrite Forall_forall in F; exact (F (n', v) Iv) end.
  Qed.

  Theorem dumped : forall v, sound v -> exists d : jvalue, document v d /\ Json_Model.loads (dump_json v) = Ok d.
  Proof.
    intros v S. exists (reading (serialize v)). split; [now apply serialized|]. apply loads_text.
  Qed.
End Read.

(** * Fingerprints *)

Theorem fingerprint_value : forall farmhash v z, let text := string_of_list_ascii (dump_json v) in
  (0 <= farmhash text < 2 ^ 64)%Z ->
  (fingerprint farmhash v = Ok z <-> (z <> 0 /\ fits KFingerprint z /\ same_bits z (farmhash text))%Z) /\
  (fingerprint farmhash v = Err ValueError <-> farmhash text = 0%Z).
Proof.
  intros farmhash v z text B. unfold fingerprint. fold text.
  destruct (from_string_ok farmhash text B) as ([k f] & E & [K V] & Bits). cbn in K. subst k. rewrite E. cbn [bind].
  unfold is_identity. cbn [iv]. unfold valid in V. cbn [ik iv] in V, Bits.
  assert (Z0 : f = 0%Z <-> farmhash text = 0%Z).
  { unfold same_bits in Bits. unfold fits in V. split; intro H.
    - subst f. apply Z.mod_divide in Bits; [|lia]. destruct Bits as (q & Q). lia.
    - rewrite H in Bits. rewrite Z.sub_0_r in Bits. apply Z.mod_divide in Bits; [|lia]. destruct Bits as (q & Q). lia. }
  assert (U : forall y, fits KFingerprint y -> same_bits y (farmhash text) -> y = f).
  { intros y Fy Sy. unfold same_bits, fits in *. apply Z.mod_divide in Bits; [|lia]. apply Z.mod_divide in Sy; [|lia].
    destruct Bits as (q & Q), Sy as (q' & Q'). lia. }
  destruct (Z.eqb_spec f 0) as [->|N].
  - split; split.
    + discriminate.
    + intros (Nz & Fz & Sz). exfalso. apply Nz. symmetry. now rewrite (U z Fz Sz).
    + intros _. now apply Z0.
    + reflexivity.
  - split; split.
    + intros [= <-]. auto.
    + intros (Nz & Fz & Sz). f_equal. symmetry. now apply U.
    + discriminate.
    + intro H. exfalso. apply N, Z0, H.
Qed.
