(** Spec vocabulary for what a storage's templates become: filled by the visitors, and written
    out as the paths of partitions. *)
From Coq Require Import ZArith NArith List Ascii String Bool.
From Verif Require Import Base Str Partitions_Model Partitions_Spec Format_Model Template_Spec Storage_Model
  Paths_Spec Fields_Spec.
Import ListNotations.
Open Scope list_scope.

(** A storage given by its templates (or, without one, another value). *)
Definition storage_of (fields : list (str * option template)) (kts : option key_types) : storage :=
  {| s_fields := map (fun f => (fst f, option_map print (snd f))) fields; s_key_types := kts |}.
Definition filled (values : list (str * str)) (fields : list (str * option template)) :=
  map (fun f => (fst f, option_map (fill values) (snd f))) fields.
(** The placeholders to be filled are bare. *)
Definition takes (values : list (str * str)) (fields : list (str * option template)) : Prop :=
  Forall (fun f => match snd f with Some t => template_ok t /\ fillable values t | None => True end) fields.

(** Every text resolved, everything else kept. *)
Definition each_resolved other (values : list (str * str)) (st st' : storage) : Prop :=
  s_key_types st' = s_key_types st /\
  Forall2 (fun f f' => fst f' = fst f /\
    match snd f with
    | Some t => exists t', resolve_field other t values = Ok t' /\ snd f' = Some t'
    | None => snd f' = None
    end) (s_fields st) (s_fields st').

(** Texts with separators between them. *)
Fixpoint slashed (l : list str) : str :=
  match l with
  | [] => []
  | [x] => x
  | x :: r => x ++ $"/" ++ slashed r
  end.
Definition tag_text (tv : str * str) : str := fst tv ++ $"=" ++ snd tv.

(** The text of a number, and with zeros after the sign up to a width. *)
Definition decimal (z : Z) (s : str) : Prop :=
  exists ds, shortest 10 ds (Z.to_N (Z.abs z)) /\ s = minus z ++ ds.
Definition padded (w : N) (z : Z) (s : str) : Prop :=
  exists k ds, shortest 10 ds (Z.to_N (Z.abs z)) /\ s = minus z ++ repeat "0"%char k ++ ds /\
    N.of_nat (List.length s) = N.max w (N.of_nat (List.length (minus z ++ ds))).

(** The text of a component. *)
Inductive shown : cvalue -> str -> str -> Prop :=
| shown_int : forall z s, decimal z s -> shown (CInt z) [] s
| shown_str : forall s, shown (CStr s) [] s
| shown_date : forall y m d, shown (CDate y m d) [] (extended y m d)
| shown_none : shown CNone [] $"None"
| shown_padded : forall z spec w s, zero_padded spec w -> padded w z s -> shown (CInt z) spec s.

(** The text of a placeholder, and of a whole path. *)
Inductive hole_shown (fp : option Z) (key : pkey) : hole -> str -> Prop :=
| fp_shown : forall z s, fp = Some z -> decimal z s -> hole_shown fp key fp_hole s
| component_shown : forall n c spec f v s, n <> $"input_fingerprint" ->
    dget str_eqb key n = Some f -> has f c v -> shown v spec s ->
    hole_shown fp key (Hole n [Attr c] spec) s.
Definition path_shown (fp : option Z) (key : pkey) (t : template) (path : str) : Prop :=
  exists texts, path = List.concat texts /\
    Forall2 (fun x s => match x with TLit l => s = l | THole h => hole_shown fp key h s end) t texts.

(** Fields of the declared classes, not necessarily all of them. *)
Definition typed_key (kts : key_types) (key : pkey) : Prop :=
  forall n f, dget str_eqb key n = Some f -> field_ok f /\ dget str_eqb kts n = Some (class_of f).
(** The template names a field the key does not have. *)
Definition lacks (key : pkey) (t : template) : Prop :=
  exists h, In (THole h) t /\ h <> fp_hole /\ dget str_eqb key (h_name h) = None.

(** Attributes no Python string has: those with an upper case letter or a digit, and the names
    of key components. *)
Definition not_of_strings (a : str) : Prop :=
  starts_with $"__" a = false /\
  (In a [$"value"; $"hex"; $"iso"; $"Y"; $"m"; $"d"] \/
   exists c, In c a /\ In c $"ABCDEFGHIJKLMNOPQRSTUVWXYZ0123456789").
