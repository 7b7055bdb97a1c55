(** Path templates: the vocabulary of the theorems about generated and discovered paths. *)
From Coq Require Import ZArith List Ascii String Bool.
From Verif Require Import Base Str Numerals_Model Partitions_Model Partitions_Spec Format_Model
  Template_Spec Storage_Model.
Import ListNotations.
Open Scope list_scope.

(** The fingerprint placeholder. *)
Definition fp_hole : hole := Hole $"input_fingerprint" [] [].
Definition asks_fp (t : template) : Prop := In (THole fp_hole) t.

(** Word characters, as field names in the [parse] library. *)
Definition word (s : str) : Prop := s <> [] /\ Forall (fun c => is_word c = true) s.

(** Integer components take a zero padded width. *)
Definition int_component (cls : fclass) (c : str) : Prop :=
  match cls with
  | DateField => c = $"Y" \/ c = $"m" \/ c = $"d"
  | IntField _ => c = $"value"
  | NullField => False
  end.
Definition spec_for (cls : fclass) (c spec : str) : Prop :=
  spec = [] \/ (int_component cls c /\ exists w, zero_width spec = Some w).

(** A placeholder of a path: the fingerprint, or a component of a declared key field. *)
Definition component_hole (kts : key_types) (h : hole) : Prop :=
  exists cls c, h_accs h = [Attr c] /\ dget str_eqb kts (h_name h) = Some cls /\
    In c (components cls) /\ spec_for cls c (h_spec h) /\
    word (h_name h) /\ all_digits (h_name h) = false /\ h_name h <> $"input_fingerprint".
Definition path_hole (kts : key_types) (h : hole) : Prop := h = fp_hole \/ component_hole kts h.
Definition path_tok (kts : key_types) (x : tok) : Prop :=
  match x with TLit s => avoids $"{}" s | THole h => path_hole kts h end.
Definition path_template (kts : key_types) (t : template) : Prop := Forall (path_tok kts) t.

(** The characters a component's text may have after its first one. *)
Definition tail_chars (cls : fclass) (c : str) : str :=
  match cls with
  | DateField => if str_eqb c $"value" || str_eqb c $"iso" then $"0123456789-" else $"0123456789"
  | IntField _ => if str_eqb c $"hex" then $"0123456789abcdefx" else $"0123456789"
  | NullField => $"one"
  end.
Definition hole_chars (kts : key_types) (h : hole) : str :=
  match h_accs h with
  | Attr c :: _ => match dget str_eqb kts (h_name h) with Some cls => tail_chars cls c | None => [] end
  | _ => $"0123456789"
  end.

(** Well separated: after a placeholder comes the end, or a character its text cannot contain. *)
Fixpoint stops (chars : str) (t : template) : Prop :=
  match t with
  | [] => True
  | TLit [] :: t' => stops chars t'
  | TLit (c :: _) :: _ => ~ In c chars
  | THole _ :: _ => False
  end.
Fixpoint separated (kts : key_types) (t : template) : Prop :=
  match t with
  | [] => True
  | TLit _ :: t' => separated kts t'
  | THole h :: t' => stops (hole_chars kts h) t' /\ separated kts t'
  end.

(** The same component is always written with the same spec. *)
Definition consistent (t : template) : Prop :=
  forall h h', In (THole h) t -> In (THole h') t ->
    h_name h = h_name h' -> h_accs h = h_accs h' -> h_spec h = h_spec h'.

(** Every key field appears with components it can be parsed from. *)
Definition covers (kts : key_types) (t : template) : Prop :=
  forall n cls, dget str_eqb kts n = Some cls ->
    exists cs, supported cls cs /\
      forall c, In c cs <-> exists spec, In (THole (Hole n [Attr c] spec)) t.

(** A key for these types, and a fingerprint. *)
Definition key_ok (kts : key_types) (key : pkey) : Prop :=
  (forall n, dmem str_eqb key n = dmem str_eqb kts n) /\
  forall n f, dget str_eqb key n = Some f -> field_ok f /\ dget str_eqb kts n = Some (class_of f).
Definition fp_ok (fp : option Z) : Prop :=
  match fp with Some z => (- 2 ^ 63 <= z < 2 ^ 63)%Z | None => True end.
(** Keys are dicts: the order does not matter. *)
Definition same_key (a b : pkey) : Prop := forall n, dget str_eqb a n = dget str_eqb b n.

(** Hard coded indexes removed. *)
Definition unindex_hole (h : hole) : hole :=
  Hole (h_name h) (filter (fun a => match a with Attr _ => true | Idx _ => false end) (h_accs h)) (h_spec h).
Definition unindex (t : template) : template :=
  map (fun x => match x with TLit s => TLit s | THole h => THole (unindex_hole h) end) t.

(** All declared fields have one class. *)
Definition one_class (kts : key_types) : Prop :=
  forall n n' c c', dget str_eqb kts n = Some c -> dget str_eqb kts n' = Some c' -> c = c'.

(** No format specs. *)
Definition plain_specs (t : template) : Prop := forall h, In (THole h) t -> h_spec h = [].

(** Literal text [glob] takes as it is: no character classes. *)
Definition glob_plain (t : template) : Prop := forall s, In (TLit s) t -> avoids $"[" s.

(** Templates whose partitions can be discovered. *)
Definition discoverable (kts : key_types) (t : template) : Prop :=
  path_template kts t /\ separated kts t /\ covers kts t /\ plain_specs t /\
  glob_plain t /\ one_class kts.
(** The path a key and a fingerprint are written to. *)
Definition written other (kts : key_types) (t : template) (fp : option Z) (key : pkey) (path : str) : Prop :=
  key_ok kts key /\ fp_ok fp /\ (asks_fp t <-> fp <> None) /\ generate_path other fp key (print t) = Ok path.
(** A storage whose text fields are path templates, possibly with hard coded indexes. *)
Definition path_storage (st : storage) (kts : key_types) : Prop :=
  s_key_types st = Some kts /\
  forall n s, In (n, Some s) (s_fields st) -> exists t, s = print t /\ template_ok t /\
    path_template kts (unindex t) /\ fillable [($"input_fingerprint", [])] t.
Definition storage_asks_fp (st : storage) : Prop :=
  exists n t, In (n, Some (print t)) (s_fields st) /\ template_ok t /\ asks_fp t.

(** The default layout "name_component={name.component}/...": one segment per component. *)
Fixpoint segments (n : str) (cs : list (str * str)) (rest : template) : template :=
  match cs with
  | [] => rest
  | (c, spec) :: cs' =>
      TLit (n ++ $"_" ++ c ++ $"=") :: THole (Hole n [Attr c] spec) ::
      match segments n cs' rest with [] => [] | t => TLit $"/" :: t end
  end.
Definition default_layout (kts : key_types) : template :=
  fold_right (fun nc rest => segments (fst nc) (default_specs (snd nc)) rest) [] kts.
(** ... between a directory, and the fingerprint and a file name. *)
Definition default_file (dir : str) (kts : key_types) (file : str) : template :=
  TLit dir :: default_layout kts ++ [TLit $"/"; THole fp_hole; TLit ($"/" ++ file)].
(** Field names usable in paths. *)
Definition names_ok (kts : key_types) : Prop :=
  NoDup (map fst kts) /\
  forall n c, In (n, c) kts -> word n /\ all_digits n = false /\ n <> $"input_fingerprint".

(** Requested fingerprints: the one given for this key, else none. *)
Inductive asked : list (pkey * option Z) -> pkey -> option Z -> Prop :=
| asked_none : forall key, asked [] key None
| asked_here : forall k fp fps key, same_key k key -> asked ((k, fp) :: fps) key fp
| asked_later : forall k v fps key fp, ~ same_key k key -> asked fps key fp -> asked ((k, v) :: fps) key fp.
(** The keys of the requests are dicts. *)
Definition dict_keys (fps : list (pkey * option Z)) : Prop := Forall (fun kv => NoDup (map fst (fst kv))) fps.
